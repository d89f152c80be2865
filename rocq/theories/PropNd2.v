(** C25, C26, C29 and the N-D parts of C31 and C32: unfolding to matrices, axis
    reductions and contractions of N-D coordinate arrays. *)
Require Import List ZArith Bool Lia Permutation Sorted Arith QArith Qcanon.
Require Import Verif.Res Verif.Values Verif.Spec Verif.Mem Verif.Lists Verif.CsLib Verif.Laws Verif.MConvert Verif.PConvert Verif.PConvert2 Verif.PConvert3 Verif.NdLib.
Require Import Verif.MHash Verif.PHash Verif.MNd Verif.MNd2 Verif.PNd Verif.PNd2 Verif.PNd3 Verif.PNd4 Verif.PNd5 Verif.Witness Verif.PropConvert Verif.PropNd.
Import ListNotations.
Local Open Scope Z_scope.

(** ** C25: unfolding to a matrix *)

(** The size conditions: each side's cell count must fit a signed 64-bit index;
    see the finding below. *)
Definition unfold_fits (sh : list Z) (rows : list nat) : Prop :=
  shape_fits sh /\ cells (select rows sh) <= i64_max + 1 /\ cells (select (other_axes (length sh) rows) sh) <= i64_max + 1.

Lemma map_snd_filter_map : forall {A B V} (f : A -> B * V) (p : B * V -> bool) l,
  map snd (filter p (map f l)) = map (fun a => snd (f a)) (filter (fun a => p (f a)) l).
Proof. induction l as [|a l IH]; auto. cbn [map filter]. destruct (p (f a)); cbn [map]; rewrite IH; auto. Qed.

Lemma at_cell_unfold_cell : forall {F : Fl} (A : Nd F) axes r c,
  at_cell r c (map (unfold_entry (nd_shape A) axes) (nd_entries A)) = unfold_cell A axes r c.
Proof. intros. unfold at_cell. rewrite map_snd_filter_map. reflexivity. Qed.

Lemma coo_at_unfold : forall {F : Fl} (A : Nd F) axes (C : Coo F) i j,
  coo_entries C = map (unfold_entry (nd_shape A) axes) (nd_entries A) ->
  coo_at C i j = unfold_cell A axes (Z.of_nat i) (Z.of_nat j).
Proof. intros F A axes C i j E. unfold coo_at. rewrite E. apply at_cell_unfold_cell. Qed.

Theorem C25_unfold_to_coo : forall (F : Fl) sch (A : Nd F) rows, is_schedule sch -> nd_ok A ->
  axes_ok (length (nd_shape A)) rows -> unfold_fits (nd_shape A) rows ->
  exists C : Coo F, coond_axes_to_coo sch A rows = Ok C /\ coo_ok C /\
    Z.of_nat (coo_nrows C) = cells (select rows (nd_shape A)) /\
    Z.of_nat (coo_ncols C) = cells (select (other_axes (length (nd_shape A)) rows) (nd_shape A)) /\
    forall i j, coo_at C i j = unfold_cell A rows (Z.of_nat i) (Z.of_nat j).
Proof.
  intros F sch A rows HS OK AX (SF & R & CC). destruct (coond_axes_to_coo_ok sch A rows HS OK AX SF R CC) as (C & E & OC & NR & NC & EE).
  exists C. repeat (split; [assumption|]). intros i j. apply coo_at_unfold. auto.
Qed.
Print Assumptions C25_unfold_to_coo.

Theorem C25_unfold_to_csr : forall pw sch srt (A : Nd (f64 pw)) rows, is_schedule sch -> is_sorter key2_le srt -> nd_ok A ->
  axes_ok (length (nd_shape A)) rows -> unfold_fits (nd_shape A) rows ->
  exists B : Csr (f64 pw), coond_axes_to_csr sch srt A rows = Ok B /\ canonical B /\
    Z.of_nat (csr_nrows B) = cells (select rows (nd_shape A)) /\
    Z.of_nat (csr_ncols B) = cells (select (other_axes (length (nd_shape A)) rows) (nd_shape A)) /\
    forall i j, (i < csr_nrows B)%nat -> (j < csr_ncols B)%nat ->
      let values := unfold_cell A rows (Z.of_nat i) (Z.of_nat j) in
      (values = [] -> csr_at B i j = []) /\ (values <> [] -> exists v, csr_at B i j = [v] /\ FSum values v).
Proof.
  intros pw sch srt A rows HS HT OK AX UF. destruct (C25_unfold_to_coo _ sch A rows HS OK AX UF) as (C & E & OC & NR & NC & AT).
  destruct (C07_coo_to_csr pw srt C HT OC) as (B & EB & CB & M1 & M2 & AB).
  exists B. unfold coond_axes_to_csr. rewrite E. cbn [bind]. split; auto. split; auto. rewrite M1, M2. split; auto. split; auto.
  intros i j Hi Hj. specialize (AB i j Hi Hj). rewrite AT in AB. auto.
Qed.
Print Assumptions C25_unfold_to_csr.

Theorem C25_unfold_to_csc : forall pw sch srt (A : Nd (f64 pw)) rows, is_schedule sch -> is_sorter key2_le srt -> nd_ok A ->
  axes_ok (length (nd_shape A)) rows -> unfold_fits (nd_shape A) rows ->
  exists B : Csc (f64 pw), coond_axes_to_csc sch srt A rows = Ok B /\ canonical B /\
    Z.of_nat (csc_nrows B) = cells (select rows (nd_shape A)) /\
    Z.of_nat (csc_ncols B) = cells (select (other_axes (length (nd_shape A)) rows) (nd_shape A)) /\
    forall i j, (i < csc_nrows B)%nat -> (j < csc_ncols B)%nat ->
      let values := unfold_cell A rows (Z.of_nat i) (Z.of_nat j) in
      (values = [] -> csc_at B i j = []) /\ (values <> [] -> exists v, csc_at B i j = [v] /\ FSum values v).
Proof.
  intros pw sch srt A rows HS HT OK AX UF. destruct (C25_unfold_to_coo _ sch A rows HS OK AX UF) as (C & E & OC & NR & NC & AT).
  destruct (C07_coo_to_csc pw srt C HT OC) as (B & EB & CB & M1 & M2 & AB).
  exists B. unfold coond_axes_to_csc. rewrite E. cbn [bind]. split; auto. split; auto. rewrite M1, M2. split; auto. split; auto.
  intros i j Hi Hj. specialize (AB i j Hi Hj). rewrite AT in AB. auto.
Qed.
Print Assumptions C25_unfold_to_csc.

Theorem C25_unfold_to_csr_exact : forall sch srt (A : Nd qc) rows, is_schedule sch -> is_sorter key2_le srt -> nd_ok A ->
  axes_ok (length (nd_shape A)) rows -> unfold_fits (nd_shape A) rows ->
  exists B : Csr qc, coond_axes_to_csr sch srt A rows = Ok B /\ canonical B /\
    forall i j, (i < csr_nrows B)%nat -> (j < csr_ncols B)%nat ->
      csr_val f0 B i j = fold_right fadd f0 (unfold_cell A rows (Z.of_nat i) (Z.of_nat j)).
Proof.
  intros sch srt A rows HS HT OK AX UF. destruct (C25_unfold_to_coo _ sch A rows HS OK AX UF) as (C & E & OC & NR & NC & AT).
  destruct (C07_coo_to_csr_exact srt C HT OC) as (B & EB & CB & M1 & M2 & AB).
  exists B. unfold coond_axes_to_csr. rewrite E. cbn [bind]. split; auto. split; auto. rewrite M1, M2.
  intros i j Hi Hj. rewrite AB, AT by auto. auto.
Qed.
Print Assumptions C25_unfold_to_csr_exact.

(** Each coordinate has a cell of its own, so nothing is mixed up. *)
Theorem C25_cell_of_coordinate : forall (F : Fl) (A : Nd F) rows k, nd_ok A -> axes_ok (length (nd_shape A)) rows ->
  in_shape (nd_shape A) k ->
  let cols := other_axes (length (nd_shape A)) rows in
  unfold_cell A rows (position (select rows (nd_shape A)) (select rows k)) (position (select cols (nd_shape A)) (select cols k))
  = nd_at A k.
Proof.
  intros F A rows k OK AX IK cols. unfold nd_at. rewrite <- (at_cell_unfold (nd_shape A) rows (nd_entries A) k) by (auto; apply nd_entries_ok; auto).
  symmetry. apply at_cell_unfold_cell.
Qed.
Print Assumptions C25_cell_of_coordinate.

Theorem C25_bad_axes_panic : forall (F : Fl) sch srt (A : Nd F) rows, ~ axes_ok (length (nd_shape A)) rows ->
  coond_axes_to_coo sch A rows = Panic /\ coond_axes_to_csr sch srt A rows = Panic /\ coond_axes_to_csc sch srt A rows = Panic.
Proof.
  intros F sch srt A rows H. unfold coond_axes_to_csr, coond_axes_to_csc. rewrite coond_axes_to_coo_bad by auto. auto.
Qed.
Print Assumptions C25_bad_axes_panic.

(** The single-axis form is the form with that one row axis; a bad axis panics. *)
Theorem C25_mode : forall (F : Fl) sch srt (A : Nd F) axis,
  ((axis < length (nd_shape A))%nat ->
     coond_mode_to_csr sch srt A axis = coond_axes_to_csr sch srt A [axis] /\
     coond_mode_to_csc sch srt A axis = coond_axes_to_csc sch srt A [axis] /\ axes_ok (length (nd_shape A)) [axis]) /\
  ((length (nd_shape A) <= axis)%nat -> coond_mode_to_csr sch srt A axis = Panic /\ coond_mode_to_csc sch srt A axis = Panic).
Proof.
  intros F sch srt A axis. unfold coond_mode_to_csr, coond_mode_to_csc. split; intros H.
  - apply Nat.ltb_lt in H as H'. rewrite H'. repeat split; auto; repeat constructor; auto.
  - apply Nat.ltb_ge in H. rewrite H. auto.
Qed.
Print Assumptions C25_mode.

(** Finding: if a side of the split has more than 2^63 cells, the stored matrix
    index can wrap to a negative number instead of the call panicking. *)
Theorem C25_huge_side_refuted :
  exists A : Nd (f64 pw0), nd_ok A /\ shape_fits (nd_shape A) /\ axes_ok (length (nd_shape A)) [0%nat] /\
    rmap (fun C => coo_col C) (coond_axes_to_coo (fun l => l) A [0%nat]) = Ok [-4611686018427387905].
Proof.
  exists (mkNd [1; 3; 2 ^ 62] [0; 2; 2 ^ 62 - 1] [fz 1]).
  split; [apply nd_ok_literal; vm_compute; auto|].
  split; [split; [repeat constructor; lia|vm_compute; discriminate]|].
  split; [split; repeat constructor; auto; cbn; lia|]. lazy. reflexivity.
Qed.
Print Assumptions C25_huge_side_refuted.

Example C25_example :
  nd_ok W3 /\ axes_ok (length (nd_shape W3)) [2; 0]%nat /\ unfold_fits (nd_shape W3) [2; 0]%nat /\
  coond_axes_to_csr (@rev _) sort_triples W3 [2; 0]%nat = Ok (mkCs 4 3 [0; 0; 2; 3; 3] [0; 2; 2] [fz 2; fz (-5); fz 4]) /\
  coond_mode_to_csc (@rev _) sort_triples W3 1 = Ok (mkCs 4 3 [0; 0; 1; 3; 3] [2; 0; 2] [fz 4; fz 2; fz (-5)]).
Proof.
  split; [apply W3_ok|]. split; [split; [repeat constructor; cbn; lia|repeat constructor; cbn; lia]|].
  split; [split; [apply W3_fits|vm_compute; split; discriminate]|].
  split; vm_compute; reflexivity.
Qed.

(** ** C26: sums and means over axes *)
Definition proper_axes (ndim : nat) (axes : list nat) : Prop :=
  axes_ok ndim axes /\ axes <> [] /\ (length axes < ndim)%nat.

Theorem C26_reduce_sum : forall (F : Fl) srt (A : Nd F) axes, is_sorter pair_le srt -> nd_ok A -> shape_fits (nd_shape A) ->
  proper_axes (length (nd_shape A)) axes ->
  let remain := other_axes (length (nd_shape A)) axes in
  exists C, reduce_sum_axes_coond srt A axes = Ok C /\ nd_ok C /\ nd_shape C = select remain (nd_shape A) /\ nd_sorted C /\
    forall k, in_shape (nd_shape C) k -> nd_at C k = left_sum (fiber A remain k).
Proof. intros F srt A axes HS OK SF (AX & NE & LT). apply reduce_sum_ok; auto. Qed.
Print Assumptions C26_reduce_sum.

(** The mean multiplies each sum by the reciprocal of the number n of reduced cells;
    the multiplication is skipped for a factor 1, and replaced by 0 for a factor 0. *)
Theorem C26_reduce_mean : forall (F : Fl) srt (A : Nd F) axes, is_sorter pair_le srt -> nd_ok A -> shape_fits (nd_shape A) ->
  proper_axes (length (nd_shape A)) axes ->
  let remain := other_axes (length (nd_shape A)) axes in
  let n := cells (select axes (nd_shape A)) in
  let inv : F := fdiv f1 (fofZ n) in
  exists C, reduce_mean_axes_coond srt A axes = Ok C /\ nd_ok C /\ nd_shape C = select remain (nd_shape A) /\ nd_sorted C /\
    forall k, in_shape (nd_shape C) k ->
      nd_at C k = map (fun v => if n =? 1 then v else if feqb inv f1 then v else if feqb inv f0 then f0 else fmul v inv)
                      (left_sum (fiber A remain k)).
Proof. intros F srt A axes HS OK SF (AX & NE & LT). apply reduce_mean_ok; auto. Qed.
Print Assumptions C26_reduce_mean.

Lemma qc_mul_inv : forall v z : Qc, fmul (v : qc) (fdiv (f1 : qc) z) = fdiv (v : qc) z.
Proof. intros. cbn. unfold Qcdiv. rewrite Qcmult_1_l. auto. Qed.

Theorem C26_exact : forall srt (A : Nd qc) axes, is_sorter pair_le srt -> nd_ok A -> shape_fits (nd_shape A) ->
  proper_axes (length (nd_shape A)) axes ->
  let remain := other_axes (length (nd_shape A)) axes in
  exists C D, reduce_sum_axes_coond srt A axes = Ok C /\ reduce_mean_axes_coond srt A axes = Ok D /\
    nd_shape C = select remain (nd_shape A) /\ nd_shape D = select remain (nd_shape A) /\
    forall k, in_shape (nd_shape C) k ->
      one_or f0 (nd_at C k) = fold_right fadd f0 (fiber A remain k) /\
      one_or f0 (nd_at D k) = fdiv (fold_right fadd f0 (fiber A remain k)) (fofZ (cells (select axes (nd_shape A)))).
Proof.
  intros srt A axes HS OK SF PA remain.
  destruct (C26_reduce_sum _ srt A axes HS OK SF PA) as (C & E & _ & SC & _ & AT).
  destruct (C26_reduce_mean _ srt A axes HS OK SF PA) as (D & E' & _ & SD & _ & AT').
  fold remain in SC, SD, AT, AT'. exists C, D. repeat (split; [assumption|]). intros k IK.
  rewrite AT, AT' by (try rewrite SD; try rewrite <- SC; auto). change (fold_right (@fadd qc) f0) with (@fsum qc).
  rewrite <- (left_sum_exact qc_elaws). split; auto.
  set (n := cells (select axes (nd_shape A))). set (inv := fdiv f1 (fofZ n) : qc).
  assert (G : forall v : qc, (if n =? 1 then v else if feqb inv f1 then v else if feqb inv f0 then f0 else fmul v inv) = fdiv v (fofZ n)).
  { intros v. assert (GI : fmul v inv = fdiv v (fofZ n)) by apply qc_mul_inv. rewrite <- GI.
    destruct (Z.eqb_spec n 1) as [E1|N1].
    - unfold inv. rewrite E1. cbn. change (Q2Qc (inject_Z 1)) with 1%Qc. unfold Qcdiv. cbn. rewrite Qcmult_1_l. symmetry. apply Qcmult_1_r.
    - destruct (feqb inv f1) eqn:F1; [apply (e_eqb _ qc_elaws) in F1; rewrite F1; symmetry; apply Qcmult_1_r|].
      destruct (feqb inv f0) eqn:F0; [apply (e_eqb _ qc_elaws) in F0; rewrite F0; symmetry; apply Qcmult_0_r|]. auto. }
  destruct (left_sum (fiber A remain k)) as [|v l]; cbn [map one_or].
  - rewrite <- (qc_mul_inv 0%Qc). symmetry. apply Qcmult_0_l.
  - apply G.
Qed.
Print Assumptions C26_exact.

Theorem C26_bad_axes_panic : forall (F : Fl) srt (A : Nd F) axes, ~ proper_axes (length (nd_shape A)) axes ->
  reduce_sum_axes_coond srt A axes = Panic /\ reduce_mean_axes_coond srt A axes = Panic.
Proof.
  intros F srt A axes H. assert (E : reduce_sum_axes_coond srt A axes = Panic) by (apply reduce_sum_bad; exact H).
  split; auto. unfold reduce_mean_axes_coond. rewrite E. reflexivity.
Qed.
Print Assumptions C26_bad_axes_panic.

Example C26_example :
  nd_ok W3 /\ shape_fits (nd_shape W3) /\ proper_axes (length (nd_shape W3)) [1; 0]%nat /\
  reduce_sum_axes_coond sort_pairs W3 [1; 0]%nat = Ok (mkNd [2] [0; 1] [fz (-3); fz 4]) /\
  rmap (fun C => nd_idx C) (reduce_mean_axes_coond sort_pairs W3 [1; 0]%nat) = Ok [0; 1] /\
  reduce_mean_axes_coond sort_pairs W3 [0]%nat = Ok (mkNd [3; 2] [0;0; 2;0; 2;1] [fz 1; fdiv (fz (-5)) (fz 2); fz 2]).
Proof.
  split; [apply W3_ok|]. split; [apply W3_fits|]. split; [repeat split; repeat constructor; cbn; try lia; discriminate|].
  repeat split; vm_compute; reflexivity.
Qed.

(** ** C29 (and N-D C32): contraction of one axis with a vector *)
Definition contractible {F : Fl} (A : Nd F) (axis : nat) (x : list F) : Prop :=
  (axis < length (nd_shape A))%nat /\ (1 < length (nd_shape A))%nat /\ Z.of_nat (length x) = nth axis (nd_shape A) 0.

Theorem C29_spmv_nd : forall (F : Fl) srt (A : Nd F) axis x, is_sorter pair_le srt -> nd_ok A -> shape_fits (nd_shape A) ->
  contractible A axis x ->
  let remain := other_axes (length (nd_shape A)) [axis] in
  exists C, spmv_coond srt A axis x = Ok C /\ nd_ok C /\ nd_shape C = select remain (nd_shape A) /\ nd_sorted C /\
    forall k, in_shape (nd_shape C) k -> nd_at C k = left_sum (filter nonzero (line_products A axis x k)).
Proof. intros F srt A axis x HS OK SF (H1 & H2 & H3). apply spmv_coond_ok; auto. Qed.
Print Assumptions C29_spmv_nd.

Theorem C29_spmv_nd_exact : forall srt (A : Nd qc) axis x, is_sorter pair_le srt -> nd_ok A -> shape_fits (nd_shape A) ->
  contractible A axis x ->
  exists C, spmv_coond srt A axis x = Ok C /\
    forall k, in_shape (nd_shape C) k -> one_or f0 (nd_at C k) = fold_right fadd f0 (line_products A axis x k).
Proof.
  intros srt A axis x HS OK SF CT. destruct (C29_spmv_nd _ srt A axis x HS OK SF CT) as (C & E & _ & _ & _ & AT).
  exists C. split; auto. intros k IK. rewrite AT by auto. change (fold_right (@fadd qc) f0) with (@fsum qc).
  rewrite (left_sum_exact qc_elaws). apply (fsum_filter qc_elaws).
Qed.
Print Assumptions C29_spmv_nd_exact.

Theorem C29_mismatch_panics : forall (F : Fl) srt (A : Nd F) axis x, ~ contractible A axis x -> spmv_coond srt A axis x = Panic.
Proof. intros F srt A axis x H. apply spmv_coond_bad. exact H. Qed.
Print Assumptions C29_mismatch_panics.

Theorem C32_vecdot_nd_is_spmv : forall (F : Fl) srt (A : Nd F) axis x, vecdot_coond srt A axis x = spmv_coond srt A axis x.
Proof. intros. apply vecdot_coond_eq. Qed.
Print Assumptions C32_vecdot_nd_is_spmv.

Example C29_example :
  nd_ok W3 /\ shape_fits (nd_shape W3) /\ contractible W3 1 [fz 1; fz 10; fz 100] /\
  spmv_coond sort_pairs W3 1 [fz 1; fz 10; fz 100] = Ok (mkNd [2; 2] [0;1; 1;0] [fz 400; fz (-498)]) /\
  line_products W3 1 [fz 1; fz 10; fz 100] [1; 0] = [fz 2; fz (-500)].
Proof.
  split; [apply W3_ok|]. split; [apply W3_fits|]. split; [repeat split; cbn; lia|]. split; vm_compute; reflexivity.
Qed.

(** ** N-D part of C30 and C31: contraction with a dense matrix or tensor *)
Definition product_sizes {F : Fl} (A : Nd F) (axis : nat) (b : list F) (k : nat) : Prop :=
  (axis < length (nd_shape A))%nat /\ Forall (fun n => 0 <= n) (nd_shape A) /\
  Z.of_nat (length b) = nth axis (nd_shape A) 0 * Z.of_nat k /\ Z.of_nat (length b) <= i64_max /\ Z.of_nat k <= i64_max /\
  shape_fits (select (other_axes (length (nd_shape A)) [axis]) (nd_shape A) ++ [Z.of_nat k]).

Theorem C30_spmm_nd : forall (F : Fl) srt (A : Nd F) axis b k, is_sorter pair_le srt -> nd_ok A -> product_sizes A axis b k ->
  let remain := other_axes (length (nd_shape A)) [axis] in
  exists C, spmm_coond srt A axis b k = Ok C /\ nd_ok C /\ nd_shape C = select remain (nd_shape A) ++ [Z.of_nat k] /\ nd_sorted C /\
    forall key c, in_shape (select remain (nd_shape A)) key -> (c < k)%nat ->
      nd_at C (key ++ [Z.of_nat c]) = filter nonzero (left_sum (filter nonzero (matrix_products A axis b k key c))).
Proof. intros F srt A axis b k HS OK (H1 & H2 & H3 & H4 & H5 & H6). apply spmm_coond_ok; auto. Qed.
Print Assumptions C30_spmm_nd.

Theorem C30_spmm_nd_exact : forall srt (A : Nd qc) axis b k, is_sorter pair_le srt -> nd_ok A -> product_sizes A axis b k ->
  let remain := other_axes (length (nd_shape A)) [axis] in
  exists C, spmm_coond srt A axis b k = Ok C /\
    forall key c, in_shape (select remain (nd_shape A)) key -> (c < k)%nat ->
      one_or f0 (nd_at C (key ++ [Z.of_nat c])) = fold_right fadd f0 (matrix_products A axis b k key c).
Proof.
  intros srt A axis b k HS OK PS remain. destruct (C30_spmm_nd _ srt A axis b k HS OK PS) as (C & E & _ & _ & _ & AT). fold remain in AT.
  exists C. split; auto. intros key c IK Hc. rewrite AT by auto. change (fold_right (@fadd qc) f0) with (@fsum qc).
  rewrite (one_or_filter qc_elaws) by apply left_sum_length. rewrite (left_sum_exact qc_elaws). apply (fsum_filter qc_elaws).
Qed.
Print Assumptions C30_spmm_nd_exact.

(** Mismatched sizes panic, as long as the product of the sizes is representable. *)
Theorem C30_spmm_nd_mismatch_panics : forall (F : Fl) srt (A : Nd F) axis b k,
  (length (nd_shape A) <= axis)%nat \/
  (0 <= nth axis (nd_shape A) 0 * Z.of_nat k <= usize_max /\ Z.of_nat (length b) <> nth axis (nd_shape A) 0 * Z.of_nat k) ->
  spmm_coond srt A axis b k = Panic.
Proof.
  intros F srt A axis b k H. apply spmm_coond_bad. destruct H as [H|[R N]]; [right; auto|left].
  unfold wrap_mul. rewrite Z.mod_small; auto. unfold usize_max in R. lia.
Qed.
Print Assumptions C30_spmm_nd_mismatch_panics.

(** Finding: the size check multiplies with wrap-around, so a dense operand that is
    far too short can pass it; the kernel then reads outside of it. *)
Theorem C30_spmm_nd_wrapping_size_check_refuted :
  exists A : Nd (f64 pw0), nd_ok A /\ nd_shape A = [2 ^ 63] /\ spmm_coond sort_pairs A 0 [] 2 = UB.
Proof.
  exists (mkNd [2 ^ 63] [5] [fz 1]). split; [apply nd_ok_literal; vm_compute; auto|]. split; [reflexivity|].
  vm_compute. reflexivity.
Qed.
Print Assumptions C30_spmm_nd_wrapping_size_check_refuted.

Theorem C31_tensordot_nd : forall (F : Fl) srt (A : Nd F) axis b n rest,
  (axis < length (nd_shape A))%nat -> shape_fits (n :: rest) -> Z.of_nat (length b) = cells (n :: rest) -> n = nth axis (nd_shape A) 0 ->
  tensordot_coond srt A axis b (n :: rest) = spmm_coond srt A axis b (Z.to_nat (cells rest)).
Proof.
  intros F srt A axis b n rest LA SF LB EN. unfold tensordot_coond. apply Nat.ltb_lt in LA as LA'. rewrite LA'.
  rewrite product_checked_ok by auto. cbn [bind]. rewrite LB, Z.eqb_refl.
  unfold get_checked. rewrite (nth_error_nth' (nd_shape A) 0) by auto. cbn [bind]. rewrite EN, Z.eqb_refl.
  rewrite product_checked_ok by (eapply shape_fits_cons; eauto). reflexivity.
Qed.
Print Assumptions C31_tensordot_nd.

Theorem C31_tensordot_nd_mismatch_panics : forall (F : Fl) srt (A : Nd F) axis b b_shape, Forall (fun n => 0 <= n) b_shape ->
  (length (nd_shape A) <= axis)%nat \/ b_shape = [] \/ Z.of_nat (length b) <> cells b_shape \/ hd 0 b_shape <> nth axis (nd_shape A) 0 ->
  tensordot_coond srt A axis b b_shape = Panic.
Proof.
  intros F srt A axis b b_shape NN H. unfold tensordot_coond. destruct (Nat.ltb_spec axis (length (nd_shape A))) as [LA|LA]; auto.
  destruct b_shape as [|n rest]; auto.
  destruct (C20_product_exact_or_panic (n :: rest) NN) as [[E _]|E]; rewrite E; cbn [bind]; auto.
  destruct (Z.eqb_spec (Z.of_nat (length b)) (cells (n :: rest))) as [EB|NB]; auto.
  unfold get_checked. rewrite (nth_error_nth' (nd_shape A) 0) by auto. cbn [bind].
  destruct (Z.eqb_spec n (nth axis (nd_shape A) 0)) as [EN|NN']; auto.
  exfalso. cbn [hd] in H. destruct H as [H|[H|[H|H]]]; try contradiction; try discriminate. lia.
Qed.
Print Assumptions C31_tensordot_nd_mismatch_panics.

(** Zero columns: an empty array of the right shape. *)
Theorem C31_tensordot_nd_zero_columns : forall (F : Fl) srt (A : Nd F) axis n rest, is_sorter pair_le srt -> nd_ok A ->
  shape_fits (nd_shape A) -> (axis < length (nd_shape A))%nat -> n = nth axis (nd_shape A) 0 -> shape_fits (n :: rest) -> cells rest = 0 ->
  exists C, tensordot_coond srt A axis [] (n :: rest) = Ok C /\ nd_dat C = [] /\
    nd_shape C = select (other_axes (length (nd_shape A)) [axis]) (nd_shape A) ++ [0].
Proof.
  intros F srt A axis n rest HS OK SA LA EN SF CZ.
  rewrite C31_tensordot_nd; auto.
  2:{ change (cells (n :: rest)) with (n * cells rest). rewrite CZ. cbn. lia. }
  rewrite CZ. change (Z.to_nat 0) with 0%nat.
  destruct (C30_spmm_nd F srt A axis [] 0 HS OK) as (C & E & OC & SC & _ & _).
  { split; auto. split; [apply SA|]. split; [cbn; lia|]. split; [vm_compute; discriminate|]. split; [vm_compute; discriminate|].
    destruct (shape_fits_select (nd_shape A) (other_axes (length (nd_shape A)) [axis])) as [N1 N2]; auto.
    { apply others_ok. }
    split; [apply Forall_app; split; auto; repeat constructor; cbn; lia|]. rewrite map_app, cells_app. cbn [map Z.of_nat Z.max].
    change (cells [Z.max 1 0]) with 1. lia. }
  exists C. split; auto. split; auto. pose proof (nd_entries_ok C OC) as B. rewrite SC in B.
  rewrite <- nd_entries_vals. destruct (nd_entries C) as [|e l]; auto. inversion B as [|? ? H]; subst.
  apply in_shape_pos in H. apply Forall_app in H. destruct H as [_ H]. inversion H; subst. cbn in *. lia.
Qed.
Print Assumptions C31_tensordot_nd_zero_columns.

Example C30_nd_example :
  nd_ok W3 /\ product_sizes W3 1 [fz 1; fz 2; fz 3; fz 4; fz 5; fz 6] 2 /\
  spmm_coond sort_pairs W3 1 [fz 1; fz 2; fz 3; fz 4; fz 5; fz 6] 2
    = Ok (mkNd [2; 2; 2] [0;1;0; 0;1;1; 1;0;0; 1;0;1] [fz 20; fz 24; fz (-23); fz (-26)]) /\
  tensordot_coond sort_pairs W3 1 [fz 1; fz 2; fz 3; fz 4; fz 5; fz 6] [3; 2]
    = spmm_coond sort_pairs W3 1 [fz 1; fz 2; fz 3; fz 4; fz 5; fz 6] 2.
Proof.
  split; [apply W3_ok|]. split.
  { repeat split; cbn; try lia; repeat constructor; try lia; vm_compute; discriminate. }
  split; vm_compute; reflexivity.
Qed.
