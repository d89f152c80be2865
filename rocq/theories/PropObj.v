(** Property theorems about histories of calls on the Python package: C57, C58. *)
Require Import List ZArith Bool Arith Lia Permutation QArith Qcanon.
Require Import Verif.Res Verif.Values Verif.Spec Verif.Mem Verif.Lists Verif.Laws Verif.MCore Verif.PCore Verif.PConvert2 Verif.PConvert3 Verif.MConvert Verif.MAcc Verif.MReduce Verif.MStat Verif.SpecPy Verif.MPy Verif.MObj Verif.SpecObj Verif.PSafe Verif.PObj Verif.Witness Verif.PropLinalg Verif.PropNd.
Import ListNotations.
Local Open Scope Z_scope.

(** ** C57: attributes and computations agree until an array is assigned to *)

Definition synced {F : Fl} (r : res (value F)) : Prop := forall v, r = Ok v -> in_sync v.
Section Sync.
Context {F : Fl}.
Lemma sync_bind : forall {A} (r : res A) (f : A -> res (value F)), (forall a, r = Ok a -> synced (f a)) -> synced (bind r f).
Proof. intros A [a| | |] f H v E; try discriminate E. apply (H a eq_refl v E). Qed.
Lemma sync_panic : synced (@Panic (value F)). Proof. intros v E; discriminate E. Qed.
Lemma csr_init_sync : forall nr nc p i (d : list F) ck X, csr_init nr nc p i d ck = Ok X -> forall H, py_handle X = Some H -> H = py_arrays X.
Proof.
  intros nr nc p i d ck X E H EH. unfold csr_init in E.
  assert (E' : X = mkPyCs (mkCs nr nc p i d) (csr_from_parts nr nc p i d false)) by (destruct ck; [destruct (csr_from_parts nr nc p i d true)|]; congruence).
  subst X. cbn [py_handle py_arrays] in *. apply cs_from_parts_value in EH. exact EH.
Qed.
Lemma csc_init_sync : forall nr nc p i (d : list F) ck X, csc_init nr nc p i d ck = Ok X -> forall H, py_handle X = Some H -> H = py_arrays X.
Proof.
  intros nr nc p i d ck X E H EH. unfold csc_init in E. injection E as <-. cbn [py_handle py_arrays] in *. apply cs_from_parts_value in EH. exact EH.
Qed.
Lemma coo_init_sync : forall nr nc r c (d : list F) ck X, coo_init nr nc r c d ck = Ok X -> forall H, pyc_handle X = Some H -> H = pyc_arrays X.
Proof.
  intros nr nc r c d ck X E H EH. unfold coo_init in E. pose proof (coo_from_parts_shape nr nc r c d ck) as S.
  destruct (coo_from_parts nr nc r c d ck) as [o| | |]; try discriminate E. injection E as <-. cbn [pyc_handle pyc_arrays] in *. apply S. exact EH.
Qed.
Lemma csr_new_sync : forall B : Csr F, synced (csr_new B).
Proof. intros B. apply sync_bind. intros X EX v E. injection E as <-. exact (csr_init_sync _ _ _ _ _ _ X EX). Qed.
Lemma csc_new_sync : forall B : Csc F, synced (csc_new B).
Proof. intros B. apply sync_bind. intros X EX v E. injection E as <-. exact (csc_init_sync _ _ _ _ _ _ X EX). Qed.
Lemma coo_new_sync : forall B : Coo F, synced (coo_new B).
Proof. intros B. apply sync_bind. intros X EX v E. injection E as <-. exact (coo_init_sync _ _ _ _ _ _ X EX). Qed.
Lemma nd_new_sync : forall B : Nd F, synced (nd_new B).
Proof. intros B. unfold nd_new. destruct (forallb _ _); [|apply sync_panic]. apply sync_bind. intros X EX v E. injection E as <-. exact I. Qed.
Lemma arr_sync : forall {A} mk (r : res (list nat * list A)), (forall sh d, in_sync (mk sh d : value F)) -> synced (arr_new mk r).
Proof. intros A mk r H. apply sync_bind. intros [sh d] _ v E. injection E as <-. apply H. Qed.

Ltac sync := repeat first
  [ apply sync_panic | apply csr_new_sync | apply csc_new_sync | apply coo_new_sync | apply nd_new_sync
  | apply arr_sync; intros; exact I
  | apply sync_bind; intros
  | match goal with
    | |- synced (let (_, _) := ?p in _) => destruct p
    | |- synced (if ?b then _ else _) => destruct b
    | |- synced (match ?x with _ => _ end) => destruct x
    end
  | (let E := fresh in intros ? E; injection E as <-; exact I) ].
Lemma exec_sync : forall e h (c : call F), synced (exec e h c).
Proof.
  intros e h c. destruct c; cbn [exec].
  - apply sync_bind. intros X EX v E. injection E as <-. exact (csr_init_sync _ _ _ _ _ _ X EX).
  - apply sync_bind. intros X EX v E. injection E as <-. exact (csc_init_sync _ _ _ _ _ _ X EX).
  - apply sync_bind. intros X EX v E. injection E as <-. exact (coo_init_sync _ _ _ _ _ _ X EX).
  - sync.
  - unfold new_arr. sync.
  - sync.
  - sync.
  - sync.
  - apply sync_bind. intros x _. destruct op, x; cbn [do_unary]; sync.
  - apply sync_bind. intros x _. destruct op, x; cbn [do_scalar]; sync.
  - apply sync_bind. intros x _. apply sync_bind. intros y _. destruct x, y; try apply sync_panic; destruct op; cbn [do_binary]; sync.
  - apply sync_bind. intros x _. apply sync_bind. intros y _. destruct x, y; cbn [do_matmul]; sync.
  - apply sync_bind. intros x _. apply sync_bind. intros y _. unfold do_tensordot, tensordot_result, do_matmul. sync.
  - apply sync_bind. intros x _. apply sync_bind. intros y _. unfold do_vecdot, do_matmul. sync.
  - apply sync_bind. intros x _. unfold do_reduce, reduce_csr, reduce_csc, reduce_coo, reduce_coond. cbv zeta. sync.
  - apply sync_bind. intros x _. unfold do_cum. cbv zeta. sync.
  - apply sync_bind. intros x _. unfold do_diff. cbv zeta. sync.
  - apply sync_bind. intros x _. unfold do_getitem. sync.
  - apply sync_bind. intros x _. unfold do_getrow. sync.
  - apply sync_bind. intros x _. unfold do_getcol. sync.
  - apply sync_bind. intros x _. unfold do_toarray. sync.
  - apply sync_bind. intros x _. apply sync_bind. intros y _. unfold do_compare. sync.
  - apply sync_bind. intros x _. unfold do_permute. sync.
  - apply sync_bind. intros x _. unfold do_reshape. sync.
  - apply sync_bind. intros x _. unfold do_reduce_axes. sync.
  - apply sync_bind. intros x _. unfold do_unfold. sync.
  - apply sync_bind. intros x _. unfold do_mode. sync.
  - apply sync_panic.
Qed.
Lemma step_sync : forall e h (c : call F) h', is_set_data c = false -> Forall in_sync h -> step e h c = Ok h' -> Forall in_sync h'.
Proof.
  intros e h c h' N S E.
  assert (W : forall c', (let! v := exec e h c' in Ok (h ++ [v])) = Ok h' -> Forall in_sync h').
  { intros c' E'. pose proof (exec_sync e h c') as Y. destruct (exec e h c') as [v| | |]; try discriminate E'. injection E' as <-.
    apply Forall_app. split; auto. }
  destruct c; try discriminate N; cbn [step] in E; exact (W _ E).
Qed.
End Sync.

(** In every history without an assignment to [data], every native handle holds exactly
    the arrays the object shows, whatever the arguments and the environment. *)
Theorem C57_handles_hold_the_arrays : forall (F : Fl) (l : list (Env F * call F)) h,
  Forall (fun ec => is_set_data (snd ec) = false) l -> run [] l = Running h -> Forall in_sync h.
Proof.
  intros F l h. assert (G : forall h0, Forall in_sync h0 -> Forall (fun ec : Env F * call F => is_set_data (snd ec) = false) l -> run h0 l = Running h -> Forall in_sync h).
  { induction l as [|[e c] l IH]; intros h0 S N E; [injection E as <-; exact S|].
    inversion N as [|? ? N1 N2]; subst. cbn [snd] in N1. cbn [run] in E. destruct (i64_max <=? demand h0 c); [discriminate E|].
    destruct (step e h0 c) as [h1| | |] eqn:ES; try discriminate E; [|apply (IH h0); auto].
    destruct (forallb fits h1); [|discriminate E]. apply (IH h1); auto. eapply step_sync; eauto. }
  intros N E. apply (G []); auto.
Qed.
Print Assumptions C57_handles_hold_the_arrays.

(** An environment: two threads, tasks run last first, stable sorts. *)
Definition env0 (F : Fl) : Env F :=
  mkEnv 2 (fun _ => backward) backward (fun _ => @rev _) (@rev _) (@rev _) (fun _ => @rev _) (@rev _)
    two_threads (fun _ => sort_pairs) sort_triples (@rev _) Whole f0 fadd fadd fadd fadd (fun _ _ => 0%nat).
Lemma env0_fair : forall F, NLaws F -> fair (env0 F).
Proof.
  intros F L. constructor; cbn.
  - intros. apply backward_interleaving.
  - apply backward_interleaving.
  - intros. apply rev_schedule.
  - apply rev_schedule.
  - apply rev_schedule.
  - intros. apply rev_schedule.
  - apply rev_schedule.
  - apply two_threads_distribution.
  - intros. apply sort_pairs_sorter.
  - apply sort_triples_sorter.
  - intros. apply Permutation_rev.
  - apply (n_zero F L).
Qed.

(** After [A.data[0] = 5] the method [sum], which uses the handle, still sees the old value, while
    [toarray] shows the new one and [abs] computes with it. *)
Theorem C57_after_data_assignment_refuted :
  objects (run (F := f64 pw0) [] (map (fun c => (env0 (f64 pw0), c))
    [NewCsr 1 1 [0; 1] [0] [fz 1] true; SetData 0 0 (fz 5);
     Reduce RSum 0 AxNone false; ToArray 0; Unary UAbs 0; Unary UNeg 0])) =
  Some [([1; 1]%nat, [fz 5]);      (* A *)
        ([], [fz 1]);              (* A.sum() *)
        ([1; 1]%nat, [fz 5]);      (* A.toarray() *)
        ([1; 1]%nat, [fz 5]);      (* abs(A) *)
        ([1; 1]%nat, [fz (-1)])].  (* -A *)
Proof. vm_compute. reflexivity. Qed.
Print Assumptions C57_after_data_assignment_refuted.

(** ** C58: no history of calls reads or writes outside an allocation *)

(** For IEEE floats with any [powf] and for exact rationals, with any number of threads,
    any schedule of the parallel steps and any unstable sort: a program that passes valid arrays to the
    constructors never reaches undefined behaviour or an endless loop, however many
    calls raise on the way, and all its objects stay intact. *)
Theorem C58_memory_safe : forall (F : Fl) (l : list (Env F * call F)), NLaws F ->
  Forall (fun ec => fair (fst ec) /\ valid_arguments (snd ec)) l ->
  match run [] l with
  | Running h => Forall intact h
  | TooBig => True
  | Crashed => False
  end.
Proof.
  intros F l NL HL. pose proof (run_safe NL l [] HL (Forall_nil _)) as S. destruct (run [] l); auto.
  eapply Forall_impl; [|exact S]. intros v K. apply K.
Qed.
Print Assumptions C58_memory_safe.
Corollary C58_memory_safe_f64 : forall pw (l : list (Env (f64 pw) * call (f64 pw))),
  Forall (fun ec => fair (fst ec) /\ valid_arguments (snd ec)) l -> run [] l <> Crashed.
Proof. intros pw l HL E. pose proof (C58_memory_safe (f64 pw) l (f64_laws pw) HL) as S. rewrite E in S. exact S. Qed.
Print Assumptions C58_memory_safe_f64.

Definition program0 : list (Env (f64 pw0) * call (f64 pw0)) :=
  map (fun c => (env0 (f64 pw0), c))
    [NewCsr 3 4 [0; 2; 2; 5] [0; 2; 1; 2; 3] [fz 1; fz 2; fz (-3); fnan0; fz 4] true;  (* 0 *)
     NewCsr 3 4 [0; 2; 3; 9] [1; 2; 3; 1; 2; 3] [fz 5; fz (-2); fz 7; fz 2; fz 8; finf0] true; (* raises *)
     Unary UT 0;                                                                   (* 1 *)
     Binary BAdd 0 0;                                                              (* 2 *)
     SetData 2 1 finf0;
     Binary BAdd 0 1;                                                              (* raises *)
     NewArr [4]%nat [fz 1; fz 2; fz 3; fz 4];                                      (* 3 *)
     Matmul 2 3;                                                                   (* 4 *)
     Cum CumSum 1 (AxInt 1);                                                       (* 5 *)
     Diff 0 1 0;                                                                   (* 6 *)
     NewNd [2; 2; 3] [0; 0; 1; 1; 0; 2; 1; 1; 0] [fz 1; fz 2; fz 3] false;         (* 7 *)
     Unfold FCsc 7 [1];                                                            (* 8 *)
     Reduce RSum 7 (AxInt 1) true].                                                (* 9 *)
Example C58_nonvacuous :
  Forall (fun ec => fair (fst ec) /\ valid_arguments (snd ec)) program0 /\
  exists h, run [] program0 = Running h /\ length h = 10%nat /\
    map data_of (firstn 1 (skipn 4 h)) = [([3]%nat, [fz 14; fz 0; fnan0])].
Proof.
  split.
  - unfold program0. apply Forall_forall. intros ec Hec. apply in_map_iff in Hec. destruct Hec as (c & <- & Hc). cbn [fst snd].
    split; [apply env0_fair, f64_laws|]. cbn [In] in Hc.
    repeat (destruct Hc as [<-|Hc]; [cbn [valid_arguments]; try exact I;
      try (split; [reflexivity|]; split; [repeat constructor; discriminate|left; reflexivity]); try (apply nd_ok_literal; reflexivity)|]).
    contradiction.
  - assert (E : option_map (fun x => (length x, firstn 1 (skipn 4 x))) (objects (run [] program0)) = Some (10%nat, [([3]%nat, [fz 14; fz 0; fnan0])]))
      by (vm_compute; reflexivity).
    destruct (objects (run [] program0)) as [x|] eqn:EO; [|discriminate E]. destruct (objects_running _ _ EO) as (h & ER & EH).
    injection E as E1 E2. exists h. split; [exact ER|]. split; [rewrite <- E1, <- EH, map_length; reflexivity|].
    rewrite <- firstn_map, <- skipn_map, EH. exact E2.
Qed.

(** With [check=False] and an index outside the matrix, or with a CSC or COO matrix, whose
    constructors ignore a failed check (C52), a program can access memory outside an
    array: [A @ x], [A.T] and [vecdot(A, x, axis=0)]. *)
Theorem C58_unchecked_arrays_refuted :
  ~ cs_ok (mkCs 1 1 [0; 1] [7] [fz 1]) /\ ~ coo_ok (mkCoo 1 1 [0] [7] [fz 1]) /\
  forall l, In l [[NewCsr 1 1 [0; 1] [7] [fz 1] false; NewArr [1]%nat [fz 1]; Matmul 0 1];
                  [NewCsc 1 1 [0; 1] [7] [fz 1] true; Unary UT 0];
                  [NewCoo 1 1 [0] [7] [fz 1] true; NewArr [1]%nat [fz 1]; Vecdot 0 1 (Some 0)]] ->
    run (F := f64 pw0) [] (map (fun c => (env0 (f64 pw0), c)) l) = Crashed.
Proof.
  split; [|split].
  - intros []. cbn in *. destruct (ok_bound 0%nat 7 eq_refl) as [H _]. lia.
  - intros []. cbn in *. destruct (coo_bound_c 0%nat 7 eq_refl) as [H _]. lia.
  - intros l H. apply has_crashed_iff. cbn [In] in H. destruct H as [<-|[<-|[<-|[]]]]; vm_compute; reflexivity.
Qed.
Print Assumptions C58_unchecked_arrays_refuted.
