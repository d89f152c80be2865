(** Property theorems: sums of integers along the axes add up to the sum of the whole matrix (C93). *)
Require Import List ZArith Bool Arith Lia Permutation QArith Qabs Lqa.
Require Import Coq.Floats.SpecFloat.
Require Import Verif.Res Verif.Values Verif.Spec Verif.Mem Verif.Laws Verif.Witness Verif.SpecReduce Verif.SpecPy Verif.MPy Verif.MObj Verif.SpecObj Verif.PObj Verif.PropObj Verif.SpecCall Verif.SpecCall2 Verif.SpecAccuracy Verif.PAccuracy Verif.PropCall Verif.PropAccuracy Verif.PropFormat Verif.PropTranspose Verif.PropConsist.
Require Verif.PPy.
Import ListNotations.
Local Open Scope Z_scope.

Lemma magnitude_lines : forall {J K} (f : J -> list Q) (line : K -> list J) ks k, In k ks -> (magnitude (flat_map f (line k)) <= magnitude (flat_map f (flat_map line ks)))%Q.
Proof.
  intros J K f line ks k H. induction ks as [|a ks IH]; [contradiction|]. cbn [flat_map]. rewrite flat_map_app, magnitude_app. destruct H as [-> |H].
  - assert (N := magnitude_nonneg (flat_map f (flat_map line ks))). lra.
  - specialize (IH H). assert (N := magnitude_nonneg (flat_map f (line a))). lra.
Qed.
Lemma total_lines : forall {J K} (f : J -> list Q) (line : K -> list J) (r : K -> Q) ks, (forall k, In k ks -> (r k == total (flat_map f (line k)))%Q) -> (total (map r ks) == total (flat_map f (flat_map line ks)))%Q.
Proof.
  intros J K f line r ks H. induction ks as [|a ks IH]; [reflexivity|]. cbn [flat_map map]. rewrite flat_map_app, total_app. change (total (r a :: map r ks)) with (r a + total (map r ks))%Q.
  rewrite (H a (or_introl eq_refl)), IH; [reflexivity|]. intros k Hk. apply H. right. exact Hk.
Qed.
Lemma map_flat : forall {A B C} (g : B -> C) (f : A -> list B) l, map g (flat_map f l) = flat_map (fun a => map g (f a)) l.
Proof. intros A B C g f l. induction l as [|a l IH]; [reflexivity|]. cbn [flat_map]. rewrite map_app, IH. reflexivity. Qed.
Lemma flat_mapped : forall {A B C} (f : B -> list C) (g : A -> B) l, flat_map f (map g l) = flat_map (fun a => f (g a)) l.
Proof. intros A B C f g l. induction l as [|a l IH]; [reflexivity|]. cbn [flat_map map]. rewrite IH. reflexivity. Qed.

(** The stored numbers are integers whose absolute values add up to at most 2^53. *)
Theorem C93_sums : forall pw (e e0 e1 : Env (f64 pw)) (h : list (value (f64 pw))) a (x : value (f64 pw)) (values : list (f64 pw)), fair e -> fair e0 -> fair e1 -> reached h -> nth_error h a = Some x -> class_of x <> None ->
  data_array x = Some values -> Forall integral values ->
  let m := fst (shape2 x) in let n := snd (shape2 x) in
  (magnitude (map number (matrix_values (stored x) m n)) <= inject_Z (2 ^ 53))%Q ->
  exists t cs rs, results e e0 e1 h RSum a VArr t cs rs /\ length cs = n /\ length rs = m /\
    (total (map number cs) == number t)%Q /\ (total (map number rs) == number t)%Q /\ (number t == total (map number (matrix_values (stored x) m n)))%Q.
Proof.
  intros pw e e0 e1 h a x values FE FE0 FE1 R N NC ED IV m n B.
  destruct (C83_sums pw e h a x values FE R N NC ED IV) as (t & cs' & rs' & Q1 & _ & _ & _ & _ & Q6). destruct (C83_sums pw e0 h a x values FE0 R N NC ED IV) as (t0 & cs & rs0 & _ & Q2 & Q3 & _ & _ & Q60).
  destruct (C83_sums pw e1 h a x values FE1 R N NC ED IV) as (t1 & cs1 & rs & _ & _ & _ & Q4 & Q5 & Q61). fold m n in Q1, Q2, Q3, Q4, Q5. unfold matrix_values in *.
  set (f := fun p : nat * nat => map number (stored x (fst p) (snd p))).
  assert (EF : map number (flat_map (fun p => stored x (fst p) (snd p)) (grid m n)) = flat_map f (grid m n)) by (unfold f; rewrite map_flat; reflexivity). change (list_prod (seq 0 m) (seq 0 n)) with (grid m n) in *.
  cbv beta in B. rewrite EF in *. destruct (Q1 B) as [_ T].
  assert (PC : Permutation (flat_map f (grid m n)) (flat_map f (flat_map (fun j => map (fun i => (i, j)) (seq 0 m)) (seq 0 n)))) by (apply Permutation_flat_map; apply grid_cols).
  assert (EC : forall j, map number (flat_map (fun i => stored x i j) (seq 0 m)) = flat_map f (map (fun i => (i, j)) (seq 0 m))) by (intros j; rewrite map_flat, flat_mapped; reflexivity).
  assert (ER : forall i, map number (flat_map (fun j => stored x i j) (seq 0 n)) = flat_map f (map (fun j => (i, j)) (seq 0 n))) by (intros i; rewrite map_flat, flat_mapped; reflexivity).
  exists t, cs, rs. split.
  { split; [|split]; [rewrite Q6|rewrite Q60|rewrite Q61]; reflexivity. }
  split; [exact Q2|]. split; [exact Q4|]. split; [|split; [|exact T]].
  - rewrite T, (total_perm _ _ PC). assert (E : map number cs = map (fun j => number (nth j cs (f0 : f64 pw))) (seq 0 n)).
    { apply (nth_ext _ _ 0%Q 0%Q); [rewrite !map_length, seq_length; exact Q2|]. intros j Hj0. assert (Hj : (j < n)%nat) by (rewrite map_length in Hj0; rewrite <- Q2; exact Hj0). rewrite (PPy.nth_seq_map (fun j => number (nth j cs (f0 : f64 pw)))) by exact Hj. change 0%Q with (number (f0 : f64 pw)). apply map_nth. }
    rewrite E. apply (total_lines f). intros j Hj. assert (Lj := proj1 (in_seq _ _ _) Hj). destruct (Q3 j ltac:(lia)) as [_ V]; [|rewrite V, EC; reflexivity].
    rewrite EC. eapply Qle_trans; [apply (magnitude_lines f (fun j => map (fun i => (i, j)) (seq 0 m)) (seq 0 n) j Hj)|]. rewrite <- (magnitude_perm _ _ PC). exact B.
  - rewrite T. rewrite grid_rows in B |- *. assert (E : map number rs = map (fun j => number (nth j rs (f0 : f64 pw))) (seq 0 m)).
    { apply (nth_ext _ _ 0%Q 0%Q); [rewrite !map_length, seq_length; exact Q4|]. intros j Hj0. assert (Hj : (j < m)%nat) by (rewrite map_length in Hj0; rewrite <- Q4; exact Hj0). rewrite (PPy.nth_seq_map (fun j => number (nth j rs (f0 : f64 pw)))) by exact Hj. change 0%Q with (number (f0 : f64 pw)). apply map_nth. }
    rewrite E. apply (total_lines f). intros i Hi. assert (Li := proj1 (in_seq _ _ _) Hi). destruct (Q5 i ltac:(lia)) as [_ V]; [|rewrite V, ER; reflexivity].
    rewrite ER. eapply Qle_trans; [apply (magnitude_lines f (fun i => map (fun j => (i, j)) (seq 0 n)) (seq 0 m) i Hi)|]. exact B.
Qed.
Print Assumptions C93_sums.

(** [7 -1] of [obj 2]: the sums add up to 6. *)
Example C93_sums_nonvacuous : exists t cs rs, results env2 env2 env2 state2 RSum 2 VArr t cs rs /\ (total (map number cs) == inject_Z 6)%Q /\ (total (map number rs) == inject_Z 6)%Q.
Proof.
  assert (NC : class_of (obj 2) <> None) by (vm_compute; discriminate). assert (DA : data_array (obj 2) = Some [fz 7; fz (-1)]) by (vm_compute; reflexivity).
  assert (EV : map number (matrix_values (stored (obj 2)) (fst (shape2 (obj 2))) (snd (shape2 (obj 2)))) = map number [fz (-1) : f64 pw0; fz 7]) by (vm_compute; reflexivity).
  assert (H := C93_sums pw0 env2 env2 env2 state2 2 (obj 2) _ env2_fair env2_fair env2_fair state2_reached (obj_is 2 ltac:(lia)) NC DA (proj1 integrals)). cbv zeta in H. rewrite EV in H.
  destruct H as (t & cs & rs & RS & _ & _ & T1 & T2 & T); [vm_compute; discriminate|].
  exists t, cs, rs. split; [exact RS|]. rewrite T1, T2, T. split; vm_compute; reflexivity.
Qed.
