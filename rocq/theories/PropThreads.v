(** C81: calls from several Python threads that overlap in time. *)
Require Import List ZArith Bool Arith Lia.
Require Import Verif.Res Verif.Values Verif.Spec Verif.Mem Verif.Laws Verif.Witness Verif.MPy Verif.MObj Verif.SpecObj Verif.PSafe Verif.PObj Verif.PropObj Verif.MThreads Verif.PThreads.
Import ListNotations.
Local Open Scope Z_scope.

(** Threads whose calls overlap in any way, and that only write to arrays no running call
    uses, leave the objects that one thread leaves which does the same acts one after the
    other, in the order in which they were completed. *)
Theorem C81_race_free_is_sequential : forall (F : Fl) (h0 h : list (value F)) fs l,
  forallb fits h0 = true -> threads true h0 h fs l -> perform h0 l = Running h.
Proof. intros F h0 h fs l F0 T. apply (threads_quiet h0 h fs l T F0). Qed.
Print Assumptions C81_race_free_is_sequential.

(** Without writes, what the threads do is a program in the sense of C58 and C59. *)
Theorem C81_overlapping_calls_are_a_program : forall (F : Fl) (h0 h : list (value F)) fs (p : list (Env F * call F)),
  forallb fits h0 = true -> threads false h0 h fs (map (fun ec => Did (fst ec) (snd ec)) p) -> run h0 p = Running h.
Proof.
  intros F h0 h fs p F0 T. rewrite <- perform_run. eapply C81_race_free_is_sequential; [exact F0|].
  assert (G : forall l h fs, threads false h0 h fs l -> (forall a k v, ~ In (Wrote a k v) l) -> threads true h0 h fs l).
  { clear. intros l h fs T. induction T as [|h fs l t e c T IH B SD O FE V D|h fs1 f fs2 l h' v T IH S E FV|h fs1 f fs2 l h' T IH S E|h fs l a k v h' T IH W Q]; intros N.
    - apply th_start.
    - apply th_begin; auto.
    - eapply th_end; eauto. apply IH. intros a k w I. apply (N a k w). apply in_app_iff. auto.
    - eapply th_raise; eauto. apply IH. intros a k w I. apply (N a k w). apply in_app_iff. auto.
    - exfalso. apply (N a k v). apply in_app_iff. right. left. reflexivity. }
  apply G; [exact T|]. intros a k v I. apply in_map_iff in I. destruct I as (? & E & _). discriminate E.
Qed.
Print Assumptions C81_overlapping_calls_are_a_program.

(** Whatever the threads write, and whenever: every object stays intact, every running call
    can end, and no running call accesses memory outside an array or runs forever, whichever
    of the values of a borrowed array it sees. *)
Theorem C81_threads_safe : forall (F : Fl) quiet (h0 h : list (value F)) fs l, NLaws F ->
  Forall intact h0 -> forallb fits h0 = true -> threads quiet h0 h fs l ->
  Forall intact h /\
  forall f, In f fs -> sees f (f_found f) /\
    forall h', sees f h' -> exec (f_env f) h' (f_call f) <> UB /\ exec (f_env f) h' (f_call f) <> Diverge.
Proof.
  intros F quiet h0 h fs l NL I0 F0 T.
  assert (K0 : Forall kept h0) by (rewrite forallb_forall in F0; rewrite Forall_forall in *; intros x Hx; split; auto).
  destruct (threads_sound NL quiet h0 h fs l T K0) as [K U]. split; [eapply Forall_impl; [|exact K]; intros v Kv; apply Kv|].
  intros f If. split; [apply sees_found|]. intros h' S. rewrite Forall_forall in U. pose proof (ending_safe NL f h' (U f If) S) as G.
  destruct (exec (f_env f) h' (f_call f)); split; try discriminate; contradiction.
Qed.
Print Assumptions C81_threads_safe.

(** A call other than [tensordot] and [vecdot] returns what it would have returned if nothing
    had happened since it began, whatever was written to its operands meanwhile. *)
Theorem C81_operands_are_copied : forall (F : Fl) quiet (h0 h : list (value F)) fs l f h',
  threads quiet h0 h fs l -> In f fs -> match f_call f with Tensordot _ _ _ | Vecdot _ _ _ => False | _ => True end -> sees f h' ->
  exists hb l1 l2 fs1, l = l1 ++ l2 /\ threads quiet h0 hb fs1 l1 /\ exec (f_env f) h' (f_call f) = exec (f_env f) hb (f_call f).
Proof.
  intros F quiet h0 h fs l f h' T I C S. destruct (begun quiet h0 h fs l T f I) as (l1 & l2 & fs1 & -> & G).
  exists (f_found f), l1, l2, fs1. split; [reflexivity|]. split; [exact G|]. f_equal. unfold sees in S.
  destruct (f_call f); try exact S; contradiction.
Qed.
Print Assumptions C81_operands_are_copied.

(** ** Examples: [[1 0 -2]; [0 4 0]], two vectors it can be multiplied with, and a third. *)
Definition A81 : Cs (f64 pw0) := mkCs 2 3 [0; 2; 3] [0; 2; 1] [fz 1; fz (-2); fz 4].
Definition objects81 : list (value (f64 pw0)) :=
  [VCsr (mkPyCs A81 (Some A81)); VArr [2]%nat [fz 10; fz 20]; VArr [3]%nat [fz 1; fz 2; fz 3]; VArr [1]%nat [fz 5]].
Lemma objects81_intact : Forall intact objects81 /\ forallb fits objects81 = true.
Proof.
  split; [|reflexivity]. apply Forall_cons; [|repeat constructor]. cbn [intact py_arrays py_handle]. split; [apply cs_ok_literal; reflexivity|].
  intros H E. injection E as <-. repeat split; reflexivity.
Qed.
Notation e81 := (env0 (f64 pw0)).
Lemma e81_fair : fair e81.
Proof. apply env0_fair, f64_laws. Qed.
Definition shows (r : res (value (f64 pw0))) : option (list nat * list (f64 pw0)) := match r with Ok v => Some (data_of v) | _ => None end.
Lemma vector_fits : forall (r : res (value (f64 pw0))) x,
  match r with Ok v => fits v | _ => false end = true -> shows r = Some x -> exists v, r = Ok v /\ fits v = true /\ data_of v = x.
Proof. intros [v| | |] x H E; try discriminate H. injection E as <-. eauto. Qed.

(** Thread 1 computes [vecdot(A, x, axis=0)]; meanwhile thread 2 begins [A @ y], thread 3 writes to the
    third vector, and thread 2 ends before thread 1. *)
Example C81_nonvacuous : exists v w,
  threads true objects81 ([VCsr (mkPyCs A81 (Some A81)); VArr [2]%nat [fz 10; fz 20]; VArr [3]%nat [fz 1; fz 2; fz 3]; VArr [1]%nat [fz 6]] ++ [v] ++ [w]) []
    [Wrote 3 0 (fz 6); Did e81 (Matmul 0 2); Did e81 (Vecdot 0 1 (Some 0))] /\
  data_of v = ([2]%nat, [fz (-5); fz 8]) /\ data_of w = ([3]%nat, [fz 10; fz 80; fz (-20)]).
Proof.
  destruct (vector_fits (exec e81 objects81 (Matmul 0 2)) ([2]%nat, [fz (-5); fz 8])) as (v & Ev & Fv & Dv); [vm_compute; reflexivity|vm_compute; reflexivity|].
  destruct (vector_fits (exec e81 objects81 (Vecdot 0 1 (Some 0))) ([3]%nat, [fz 10; fz 80; fz (-20)])) as (w & Ew & Fw & Dw); [vm_compute; reflexivity|vm_compute; reflexivity|].
  exists v, w. split; [|auto]. rewrite app_assoc.
  pose (f1 := mkFlight (F := f64 pw0) 1 e81 (Vecdot 0 1 (Some 0)) objects81 []).
  pose (f2 := mkFlight (F := f64 pw0) 2 e81 (Matmul 0 2) objects81 []).
  assert (T1 : threads true objects81 objects81 [f1] []).
  { apply th_begin; [apply th_start| | | | | |]; try exact I; [intros []|reflexivity|repeat constructor|apply e81_fair|reflexivity]. }
  assert (T2 : threads true objects81 objects81 [f2; f1] []).
  { apply th_begin; [exact T1| | | | | |]; try exact I; [intros [H|[]]; discriminate H|reflexivity|repeat constructor|apply e81_fair|reflexivity]. }
  pose (h3 := [VCsr (mkPyCs A81 (Some A81)); VArr [2]%nat [fz 10; fz 20]; VArr [3]%nat [fz 1; fz 2; fz 3]; VArr [1]%nat [fz 6]] : list (value (f64 pw0))).
  assert (T3 : threads true objects81 h3 (witnessed h3 [f2; f1]) ([] ++ [Wrote 3 0 (fz 6)])).
  { eapply th_write; [exact T2|reflexivity|]. intros _. repeat constructor; cbn; intuition discriminate. }
  pose (g2 := mkFlight (F := f64 pw0) 2 e81 (Matmul 0 2) objects81 ([] ++ [h3])).
  pose (g1 := mkFlight (F := f64 pw0) 1 e81 (Vecdot 0 1 (Some 0)) objects81 ([] ++ [h3])).
  assert (T4 := th_end true objects81 h3 [] g2 [g1] _ objects81 v T3 (sees_found g2) Ev Fv).
  pose (g1' := mkFlight (F := f64 pw0) 1 e81 (Vecdot 0 1 (Some 0)) objects81 (([] ++ [h3]) ++ [h3 ++ [v]])).
  exact (th_end true objects81 (h3 ++ [v]) [] g1' [] _ objects81 w T4 (sees_found g1') Ew Fw).
Qed.

(** Thread 1 computes [A @ y] while thread 2 writes to y: the result is the one for the y that
    thread 1 found. *)
Example C81_copied_nonvacuous : exists h f,
  threads false objects81 h [f] [Wrote 2 0 (fz 7)] /\ f_call f = Matmul 0 2 /\
  (forall h', sees f h' -> shows (exec (f_env f) h' (f_call f)) = Some ([2]%nat, [fz (-5); fz 8])) /\
  shows (exec (f_env f) h (f_call f)) = Some ([2]%nat, [fz 1; fz 8]).
Proof.
  pose (h1 := [VCsr (mkPyCs A81 (Some A81)); VArr [2]%nat [fz 10; fz 20]; VArr [3]%nat [fz 7; fz 2; fz 3]; VArr [1]%nat [fz 5]] : list (value (f64 pw0))).
  pose (f := mkFlight (F := f64 pw0) 1 e81 (Matmul 0 2) objects81 []).
  assert (T1 : threads false objects81 objects81 [f] []).
  { apply th_begin; [apply th_start| | | | | |]; try exact I; [intros []|reflexivity|repeat constructor|apply e81_fair|reflexivity]. }
  assert (T2 : threads false objects81 h1 (witnessed h1 [f]) ([] ++ [Wrote 2 0 (fz 7)])).
  { eapply th_write; [exact T1|reflexivity|discriminate]. }
  exists h1. eexists. split; [exact T2|]. split; [reflexivity|]. split; [|vm_compute; reflexivity].
  intros h' S. cbn [f_env f_call f]. assert (E : h' = objects81) by exact S. rewrite E. vm_compute. reflexivity.
Qed.

(** Not so for [tensordot] and [vecdot], which read the dense array itself while other threads
    run: thread 1 computes [vecdot(A, x, axis=0)] with x = (10, 20) while thread 2 sets x to (1, 2),
    and the result is the one for (10, 2), a vector that x never was. *)
Theorem C81_borrowed_operand_refuted : exists (h0 h : list (value (f64 pw0))) e c w1 w2,
  Forall intact h0 /\ forallb fits h0 = true /\ threads false h0 h [] [w1; w2; Did e c] /\
  forall l1 l2, [w1; w2] = l1 ++ l2 -> perform h0 (l1 ++ Did e c :: l2) <> Running h.
Proof.
  pose (h1 := [VCsr (mkPyCs A81 (Some A81)); VArr [2]%nat [fz 10; fz 20]] : list (value (f64 pw0))).
  pose (h2 := [VCsr (mkPyCs A81 (Some A81)); VArr [2]%nat [fz 1; fz 20]] : list (value (f64 pw0))).
  pose (h3 := [VCsr (mkPyCs A81 (Some A81)); VArr [2]%nat [fz 1; fz 2]] : list (value (f64 pw0))).
  pose (hs := [VCsr (mkPyCs A81 (Some A81)); VArr [2]%nat [fz 10; fz 2]] : list (value (f64 pw0))).
  destruct (vector_fits (exec e81 hs (Vecdot 0 1 (Some 0))) ([3]%nat, [fz 10; fz 8; fz (-20)])) as (v & Ev & Fv & Dv); [vm_compute; reflexivity|vm_compute; reflexivity|].
  exists h1, (h3 ++ [v]), e81, (Vecdot 0 1 (Some 0)), (Wrote 1 0 (fz 1)), (Wrote 1 1 (fz 2)).
  destruct objects81_intact as [I81 _].
  split; [apply (Forall_app _ h1 (skipn 2 objects81)) in I81; apply I81|]. split; [reflexivity|]. split.
  - pose (f1 := mkFlight (F := f64 pw0) 1 e81 (Vecdot 0 1 (Some 0)) h1 []).
    assert (T1 : threads false h1 h1 [f1] []).
    { apply th_begin; [apply th_start| | | | | |]; try exact I; [intros []|reflexivity|repeat constructor|apply e81_fair|reflexivity]. }
    assert (T2 : threads false h1 h2 (witnessed h2 [f1]) ([] ++ [Wrote 1 0 (fz 1)])).
    { eapply th_write; [exact T1|reflexivity|discriminate]. }
    assert (T3 : threads false h1 h3 (witnessed h3 (witnessed h2 [f1])) (([] ++ [Wrote 1 0 (fz 1)]) ++ [Wrote 1 1 (fz 2)])).
    { eapply th_write; [exact T2|reflexivity|discriminate]. }
    pose (g1 := mkFlight (F := f64 pw0) 1 e81 (Vecdot 0 1 (Some 0)) h1 (([] ++ [h2]) ++ [h3])).
    assert (S : sees g1 hs).
    { exists [2]%nat, [fz 10; fz 20], [fz 10; fz 2]. split; [reflexivity|]. split; [reflexivity|]. split; [|reflexivity].
      intros [|[|j]] x Hx; cbn [nth_error] in Hx.
      - injection Hx as <-. exists h1, [2]%nat, [fz 10; fz 20]. split; [left; reflexivity|]. split; reflexivity.
      - injection Hx as <-. exists h3, [2]%nat, [fz 1; fz 2]. split; [right; right; left; reflexivity|]. split; reflexivity.
      - destruct j; discriminate Hx. }
    exact (th_end false h1 h3 [] g1 [] _ hs v T3 S Ev Fv).
  - assert (X : objects (Running (h3 ++ [v])) = Some [([2; 3]%nat, [fz 1; fz (-2); fz 4]); ([2]%nat, [fz 1; fz 2]); ([3]%nat, [fz 10; fz 8; fz (-20)])]).
    { cbn [objects h3 app map]. rewrite Dv. reflexivity. }
    assert (Y : forall l1 l2, [Wrote 1 0 (fz 1); Wrote 1 1 (fz 2)] = l1 ++ l2 ->
      match objects (perform h1 (l1 ++ Did e81 (Vecdot 0 1 (Some 0)) :: l2)) with
      | Some [_; _; (_, [a; b; _])] => feqb a (fz 10 : f64 pw0) && feqb b (fz 8 : f64 pw0) | _ => false end = false).
    { intros l1 l2 E. destruct l1 as [|w1 [|w2 [|w3 l1]]].
      - cbn [app] in E. subst l2. vm_compute. reflexivity.
      - cbn [app] in E. injection E as <- <-. vm_compute. reflexivity.
      - cbn [app] in E. injection E as <- <- <-. vm_compute. reflexivity.
      - discriminate E. }
    intros l1 l2 E R. specialize (Y l1 l2 E). rewrite R, X in Y. vm_compute in Y. discriminate Y.
Qed.
Print Assumptions C81_borrowed_operand_refuted.
