(** Property theorems about whole programs and their dense meaning: C59. *)
Require Import List ZArith Bool Arith Lia QArith Qcanon.
Require Import Verif.Res Verif.Values Verif.Spec Verif.Laws Verif.Witness Verif.PropLinalg Verif.PropScalar Verif.MReduce Verif.SpecReduce.
Require Import Verif.SpecPy Verif.MPy Verif.PropPy Verif.MObj Verif.SpecObj Verif.PropObj Verif.SpecDense Verif.PDense5.
Import ListNotations.
Local Open Scope nat_scope.

(** A program over the package that builds its matrices from plain arrays computes, call
    by call, the same values as the program on ordinary dense matrices: whatever sequence
    of classes, transposes, arithmetic, products, reductions, cumulative sums, differences,
    reads and comparisons it goes through, with N-D arrays that are permuted, reshaped,
    broadcast, reduced, contracted and unfolded into matrices on the way, however many threads run, however their work is
    scheduled and divided, and whatever the unstable sorts do. Sizes up to 2^63 - 2. *)
Theorem C59_programs_compute_dense_values : forall (l : list (Env qc * call qc)) (H : list dval),
  Forall (fun s => exact_env (fst s) /\ plain_arguments (snd s)) l ->
  dense_run [] (map snd l) = Some H ->
  (exists h, run [] l = Running h /\ Forall2 shows h H) \/ run [] l = TooBig.
Proof.
  intros l H PA D. destruct (run_rep l [] [] H PA (Forall2_nil _) D) as [(h & E & HH)|E]; [left|right; exact E].
  exists h. split; [exact E|]. clear -HH. induction HH; constructor; auto. apply held_shows. assumption.
Qed.
Print Assumptions C59_programs_compute_dense_values.

(** Two runs of the same program in different environments (threads, schedules, sorts)
    show the same values. *)
Theorem C59_environment_does_not_matter : forall (l l' : list (Env qc * call qc)) (H : list dval) h h',
  Forall (fun s => exact_env (fst s) /\ plain_arguments (snd s)) l -> Forall (fun s => exact_env (fst s)) l' ->
  map snd l = map snd l' -> dense_run [] (map snd l) = Some H -> run [] l = Running h -> run [] l' = Running h' ->
  Forall2 shows h H /\ Forall2 shows h' H.
Proof.
  intros l l' H h h' PA EA EL D R R'.
  assert (PA' : Forall (fun s => exact_env (fst s) /\ plain_arguments (snd s)) l').
  { clear -PA EA EL. revert l' EA EL. induction PA as [|s l [_ P] PA IH]; intros [|s' l'] EA EL; try discriminate EL; constructor; inversion EA; subst; injection EL as E EL.
    - rewrite E in P. auto.
    - apply IH; auto. }
  destruct (C59_programs_compute_dense_values l H PA D) as [(k & E & S)|E]; rewrite R in E; [|discriminate E]. injection E as <-.
  rewrite EL in D. destruct (C59_programs_compute_dense_values l' H PA' D) as [(k & E & S')|E]; rewrite R' in E; [|discriminate E]. injection E as <-. auto.
Qed.
Print Assumptions C59_environment_does_not_matter.

(** A program the theorem applies to, with what the machine computes for it. *)
Definition env1 : Env qc :=
  mkEnv 2 (fun _ => backward) backward (fun _ => @rev _) (@rev _) (@rev _) (fun _ => @rev _) (@rev _)
    two_threads (fun _ => sort_pairs) sort_triples (@rev _) Whole (f0 : qc) fadd fadd fadd fadd (fun xs j => length (filter (fun x => (x <? j)%Z) xs)).
Definition q (z : Z) : qc := Q2Qc (inject_Z z).
Definition calls1 : list (call qc) :=
  [NewCsr 2 3 [0; 2; 3]%Z [0; 2; 1]%Z [q 1; q (-2); q 4] true;     (* 0: [1 0 -2; 0 4 0] *)
   NewCsc 3 2 [0; 1; 3]%Z [1; 0; 2]%Z [q 5; q 2; q 3] true;        (* 1: [0 2; 5 0; 0 3] *)
   NewCoo 2 2 [1; 0]%Z [0; 0]%Z [q 7; q (-1)] false;               (* 2: [-1 0; 7 0] *)
   Unary UT 0;                                                     (* 3: [1 0; 0 4; -2 0] *)
   NewArr [3; 2] [q 1; q 2; q 3; q 4; q 5; q 6];                   (* 4 *)
   Matmul 0 4;                                                     (* 5: [-9 -10; 12 16] *)
   Binary BAdd 0 0;                                                (* 6: [2 0 -4; 0 8 0] *)
   Reduce (RVar (q 0)) 6 (AxInt 1) true;                           (* 7 *)
   Cum CumSum 1 (AxInt 0);                                         (* 8 *)
   Diff 2 1 0;                                                     (* 9: [8 0] *)
   Unary UAbs 3;                                                   (* 10 *)
   Scalar SDiv 10 (q 2);                                           (* 11 *)
   GetCol 11 0;                                                    (* 12 *)
   Compare CLt 3 4;                                                (* 13 *)
   Reduce RAny 2 (AxTuple [0]%Z) false].                           (* 14 *)
Definition program1 : list (Env qc * call qc) := map (fun c => (env1, c)) calls1.
Lemma env1_exact : exact_env env1.
Proof.
  split; [|exact searchsorted0]. destruct (env0_fair qc qc_laws). constructor; assumption.
Qed.
(** The arrays of a dense value and of an object, the cells of a matrix row by row. *)
Definition dense_numbers (x : dval) : list nat * list Q :=
  match x with
  | DMat _ m n a => ([m; n], map this (table m n a))
  | DArr sh d => (sh, map this d)
  | DBools sh d => (sh, map (fun b : bool => if b then 1%Q else 0%Q) d)
  | DNd sh a => (map Z.to_nat sh, map (fun k => this (a k)) (all_keys sh))
  end.
Example C59_nonvacuous :
  Forall (fun s => exact_env (fst s) /\ plain_arguments (snd s)) program1 /\
  option_map (fun H => map dense_numbers (skipn 3 H)) (dense_run [] (map snd program1)) = Some
    [([3; 2], [1; 0; 0; 4; -2 # 1; 0]%Q); ([3; 2], [1; 2; 3; 4; 5; 6]%Q); ([2; 2], [-9 # 1; -10 # 1; 12; 16]%Q);
     ([2; 3], [2; 0; -4 # 1; 0; 8; 0]%Q); ([2; 1], [56 # 9; 128 # 9]%Q); ([3; 2], [0; 2; 5; 2; 5; 5]%Q); ([1; 2], [8; 0]%Q);
     ([3; 2], [1; 0; 0; 4; 2; 0]%Q); ([3; 2], [1 # 2; 0; 0; 2; 1; 0]%Q); ([3], [1 # 2; 0; 1]%Q);
     ([3; 2], [0; 1; 1; 0; 1; 1]%Q); ([2], [1; 0]%Q)] /\
  (exists h, run [] program1 = Running h /\ length h = 15).
Proof.
  split; [|split].
  - unfold program1. apply Forall_forall. intros ec Hec. apply in_map_iff in Hec. destruct Hec as (c & <- & Hc). cbn [fst snd].
    split; [apply env1_exact|]. cbn [In calls1] in Hc.
    repeat (destruct Hc as [<-|Hc]; [cbn [plain_arguments]; try exact I|]).
    + split; [apply canonical_literal; reflexivity|]. vm_compute. reflexivity.
    + apply canonical_literal; reflexivity.
    + split; [apply coo_ok_literal; reflexivity|]. intros i j. unfold coo_at, at_cell. cbn -[Z.of_nat Z.eqb]. destruct (Z.eqb_spec 1 (Z.of_nat i)) as [E|E]; destruct (Z.eqb_spec 0 (Z.of_nat i)) as [E2|E2]; try lia; destruct (0 =? Z.of_nat j)%Z; cbn; lia.
    + contradiction.
  - vm_compute. reflexivity.
  - assert (E : option_map (@length _) (objects (run [] program1)) = Some 15) by (vm_compute; reflexivity).
    destruct (objects (run [] program1)) as [x|] eqn:EO; [|discriminate E]. destruct (objects_running _ _ EO) as (h & ER & EH).
    exists h. split; [exact ER|]. injection E as E. rewrite <- EH, map_length in E. exact E.
Qed.

(** The same for a program with N-D arrays. *)
Definition calls2 : list (call qc) :=
  [NewNd [2; 1; 3]%Z [0; 0; 1; 1; 0; 2; 1; 0; 0]%Z [q 6; q 8; q (-3)] true;   (* 0: 0 6 0 | -3 0 8 *)
   Permute 0 [2; 0; 1]%Z;                                          (* 1: (3, 2, 1) *)
   Reshape 0 [3; 2]%Z;                                             (* 2: 0 6 | 0 -3 | 0 8 *)
   NewNd [2; 2; 1]%Z [1; 0; 0; 0; 1; 0]%Z [q 2; q 5] false;        (* 3: 0 | 5 || 2 | 0 *)
   Binary BMul 0 3;                                                (* 4: (2, 2, 3) *)
   ReduceAxes NSum 0 [2]%Z;                                        (* 5: 6 | 5 *)
   Reduce RMean 0 (AxInt (-1)) true;                               (* 6: 2 | 5/3 *)
   Reduce RSum 0 AxNone false;                                     (* 7: 11 *)
   Unfold FCsc 0 [2; 1]%Z;                                         (* 8: [0 -3; 6 0; 0 8] *)
   Mode FCsr 4 1;                                                  (* 9 *)
   NewArr [3; 2] [q 1; q 2; q 3; q 4; q 5; q 6];                   (* 10 *)
   Tensordot 0 10 None;                                            (* 11: (2, 1, 2) *)
   NewArr [3] [q 1; q 0; q 2];                                     (* 12 *)
   Vecdot 0 12 (Some (-1)%Z);                                      (* 13: 0 | 13 *)
   Unary UAbs 0;                                                   (* 14 *)
   Scalar SMod 14 (q 5);                                           (* 15 *)
   Unary UT 8;                                                     (* 16: [0 6 0; -3 0 8] *)
   Compare CGt 0 15].                                              (* 17 *)
Definition program2 : list (Env qc * call qc) := map (fun c => (env1, c)) calls2.
Example C59_nd_nonvacuous :
  Forall (fun s => exact_env (fst s) /\ plain_arguments (snd s)) program2 /\
  option_map (map dense_numbers) (dense_run [] (map snd program2)) = Some
    [([2; 1; 3], [0; 6; 0; -3 # 1; 0; 8]%Q); ([3; 2; 1], [0; -3 # 1; 6; 0; 0; 8]%Q); ([3; 2], [0; 6; 0; -3 # 1; 0; 8]%Q); ([2; 2; 1], [0; 5; 2; 0]%Q);
     ([2; 2; 3], [0; 0; 0; 0; 30; 0; -6 # 1; 0; 16; 0; 0; 0]%Q); ([2; 1], [6; 5]%Q); ([2; 1; 1], [2; 5 # 3]%Q); ([], [11]%Q);
     ([3; 2], [0; -3 # 1; 6; 0; 0; 8]%Q); ([2; 6], [0; 0; 0; -6 # 1; 0; 16; 0; 30; 0; 0; 0; 0]%Q); ([3; 2], [1; 2; 3; 4; 5; 6]%Q);
     ([2; 1; 2], [18; 24; 37; 42]%Q); ([3], [1; 0; 2]%Q); ([2; 1], [0; 13]%Q); ([2; 1; 3], [0; 6; 0; 3; 0; 8]%Q);
     ([2; 1; 3], [0; 1; 0; 3; 0; 3]%Q); ([2; 3], [0; 6; 0; -3 # 1; 0; 8]%Q); ([2; 1; 3], [0; 1; 0; 0; 0; 1]%Q)] /\
  (exists h, run [] program2 = Running h /\ length h = 18).
Proof.
  split; [|split].
  - unfold program2. apply Forall_forall. intros ec Hec. apply in_map_iff in Hec. destruct Hec as (c & <- & Hc). cbn [fst snd].
    split; [apply env1_exact|]. cbn [In calls2] in Hc.
    repeat (destruct Hc as [<-|Hc]; [cbn [plain_arguments]; try exact I|]).
    + split; [apply PropNd.nd_ok_literal; vm_compute; reflexivity|]. split; [|repeat constructor; discriminate]. apply PCall.single_keys. vm_compute. repeat constructor; cbn; intuition discriminate.
    + split; [apply PropNd.nd_ok_literal; vm_compute; reflexivity|]. split; [|repeat constructor; discriminate]. apply PCall.single_keys. vm_compute. repeat constructor; cbn; intuition discriminate.
    + contradiction.
  - vm_compute. reflexivity.
  - assert (E : option_map (@length _) (objects (run [] program2)) = Some 18) by (vm_compute; reflexivity).
    destruct (objects (run [] program2)) as [x|] eqn:EO; [|discriminate E]. destruct (objects_running _ _ EO) as (h & ER & EH).
    exists h. split; [exact ER|]. injection E as E. rewrite <- EH, map_length in E. exact E.
Qed.
