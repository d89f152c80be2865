(** Property theorems about the Python layer: C49, C52-C56. *)
Require Import List ZArith Bool Arith Lia Sorted Permutation QArith Qcanon.
Require Import Verif.PropScalar.
Require Import Verif.Res Verif.Values Verif.Spec Verif.SpecReduce Verif.Mem Verif.Lists Verif.CsLib Verif.Laws Verif.NdLib Verif.PCore Verif.PNd Verif.PGroup Verif.MCore Verif.MConvert Verif.MScalar Verif.PScalar Verif.MNd Verif.MNd2 Verif.MLinalg Verif.MReduce Verif.MStat Verif.SpecPy Verif.MPy Verif.PBroadcast Verif.PPy Verif.PPy2 Verif.Witness Verif.PropCore Verif.PropNd Verif.PropNd2 Verif.PropLinalg Verif.PropStat Verif.PropPy.
Import ListNotations.
Local Open Scope Z_scope.

(** ** C49: batched products *)

(** [R] is the stack of products of the m x k matrix with the matrices stacked in [y]. *)
Definition stack_product {F : Fl} (cell : nat -> nat -> list F) (m k n b : nat) (y R : list F) : Prop :=
  length R = (b * m * n)%nat /\
  forall q i c, (q < b)%nat -> (i < m)%nat -> (c < n)%nat ->
    FSum (dot_terms cell k (column (batch (k * n) q y) k n c) i) (nth (i * n + c) (batch (m * n) q R) f0).

Lemma batch_nth : forall {F : Fl} (R : list F) m n q i c, (i < m)%nat -> (c < n)%nat ->
  nth (i * n + c) (batch (m * n) q R) f0 = nth ((q * m + i) * n + c) R f0.
Proof.
  intros F R m n q i c Hi Hc. unfold batch. rewrite nth_slice by nia. f_equal. nia.
Qed.

Definition batch_sizes (m k n b : nat) : Prop :=
  alloc_ok (k * (b * n)) /\ alloc_ok (m * (b * n)) /\ alloc_ok m /\ alloc_ok k.

(** The operand has shape (batch_shape..., k, n); the CSR kernel needs a nonempty
    product of the batch size and n (see the finding below). *)
Theorem C49_matmul_csr_partial : forall (F : Fl) mv (A : Csr F) batch_shape n y, NLaws F -> cs_ok A -> alloc_ok (length (dat A)) ->
  let m := csr_nrows A in let k := csr_ncols A in let b := fold_right Nat.mul 1%nat batch_shape in
  batch_shape <> [] -> length y = (b * k * n)%nat -> batch_sizes m k n b -> (0 < b * n)%nat ->
  exists R, py_matmul mv (spmm_csr A) m k (batch_shape ++ [k; n]) y = Ok (batch_shape ++ [m; n], R) /\ stack_product (csr_at A) m k n b y R.
Proof.
  intros F mv A bs n y L OK AL m k b NE LY (A1 & A2 & A3 & A4) P.
  destruct (py_matmul_batched mv (spmm_csr A) m k (csr_at A) bs n y) as (R & E & LR & NR); auto.
  - intros y2 L2. destruct (C30_spmm_csr F A y2 (b * n) L OK AL) as (o & EO & LO & NO); auto; [repeat split; auto|].
    exists o. split; [exact EO|]. split; [exact LO|]. intros i c Hi Hc. apply NO; auto.
  - exists R. split; [exact E|]. split; [exact LR|]. intros q i c Hq Hi Hc. rewrite batch_nth by auto. apply NR; auto.
Qed.
Print Assumptions C49_matmul_csr_partial.

Theorem C49_matmul_csc : forall (F : Fl) mv il (A : Csc F) batch_shape n y, NLaws F -> cs_ok A -> alloc_ok (length (dat A)) -> is_interleaving il ->
  let m := csc_nrows A in let k := csc_ncols A in let b := fold_right Nat.mul 1%nat batch_shape in
  batch_shape <> [] -> length y = (b * k * n)%nat -> batch_sizes m k n b ->
  exists R, py_matmul mv (spmm_csc il A) m k (batch_shape ++ [k; n]) y = Ok (batch_shape ++ [m; n], R) /\ stack_product (csc_at A) m k n b y R.
Proof.
  intros F mv il A bs n y L OK AL HI m k b NE LY (A1 & A2 & A3 & A4).
  destruct (py_matmul_batched mv (spmm_csc il A) m k (csc_at A) bs n y) as (R & E & LR & NR); auto.
  - intros y2 L2. destruct (C30_spmm_csc F A y2 (b * n) L OK AL) as (o & EO & LO & NO); auto; [repeat split; auto|].
    exists o. split; [apply EO; auto|]. split; [exact LO|]. intros i c Hi Hc. apply NO; auto.
  - exists R. split; [exact E|]. split; [exact LR|]. intros q i c Hq Hi Hc. rewrite batch_nth by auto. apply NR; auto.
Qed.
Print Assumptions C49_matmul_csc.

Theorem C49_matmul_coo : forall (F : Fl) mv il (A : Coo F) batch_shape n y, NLaws F -> coo_ok A -> is_interleaving il ->
  let m := coo_nrows A in let k := coo_ncols A in let b := fold_right Nat.mul 1%nat batch_shape in
  batch_shape <> [] -> length y = (b * k * n)%nat -> batch_sizes m k n b ->
  exists R, py_matmul mv (spmm_coo il A) m k (batch_shape ++ [k; n]) y = Ok (batch_shape ++ [m; n], R) /\ stack_product (coo_at A) m k n b y R.
Proof.
  intros F mv il A bs n y L OK HI m k b NE LY (A1 & A2 & A3 & A4).
  destruct (py_matmul_batched mv (spmm_coo il A) m k (coo_at A) bs n y) as (R & E & LR & NR); auto.
  - intros y2 L2. destruct (C30_spmm_coo F A y2 (b * n) L OK) as (o & EO & LO & NO); auto; [repeat split; auto|].
    exists o. split; [apply EO; auto|]. split; [exact LO|]. intros i c Hi Hc. apply NO; auto.
  - exists R. split; [exact E|]. split; [exact LR|]. intros q i c Hq Hi Hc. rewrite batch_nth by auto. apply NR; auto.
Qed.
Print Assumptions C49_matmul_coo.

(** A different inner dimension raises. *)
Theorem C49_inner_mismatch : forall (F : Fl) (mv : list F -> res (list F)) mm m k batch_shape k' n y,
  k' <> k -> py_matmul mv mm m k (batch_shape ++ [k'; n]) y = Panic.
Proof.
  intros F mv mm m k bs k' n y N. unfold py_matmul. rewrite rev_app_distr. cbn [rev app].
  destruct (rev bs); destruct (Nat.eqb_spec k' k); try congruence; reflexivity.
Qed.
Print Assumptions C49_inner_mismatch.

(** Finding: with an empty batch, or matrices of no columns, the CSR product panics
    instead of returning the empty stack. *)
Theorem C49_empty_batch_refuted : forall (F : Fl) mv (A : Csr F) batch_shape n,
  (fold_right Nat.mul 1 batch_shape * n = 0)%nat -> batch_shape <> [] ->
  py_matmul mv (spmm_csr A) (csr_nrows A) (csr_ncols A) (batch_shape ++ [csr_ncols A; n]) [] = Panic.
Proof.
  intros F mv A bs n E NE. unfold py_matmul. rewrite rev_app_distr. cbn [rev app]. destruct (rev bs) as [|x rb] eqn:ER.
  { apply (f_equal (@rev nat)) in ER. rewrite rev_involutive in ER. cbn in ER. congruence. }
  rewrite Nat.eqb_refl. rewrite <- ER, rev_involutive.
  destruct (swap01_ok (fold_right Nat.mul 1%nat bs) (csr_ncols A) n (@nil F)) as (y2 & E2 & L2 & _); [cbn; nia|].
  rewrite E2. cbn [bind]. rewrite E. assert (y2 = []) as ->. { apply length_zero_iff_nil. rewrite L2. nia. }
  rewrite (proj1 (C31_csr_zero_columns_refuted F A)). reflexivity.
Qed.
Print Assumptions C49_empty_batch_refuted.

Example C49_nonvacuous : cs_ok LA /\ batch_sizes (csr_nrows LA) (csr_ncols LA) 2 2 /\
  py_matmul (fun x => Ok x) (spmm_csr LA) 3 4 ([2; 1] ++ [4; 2])%nat (map (@fofZ qc) [1;2;3;4;5;6;7;8; 8;7;6;5;4;3;2;1]) =
    Ok ([2; 1; 3; 2]%nat, map (@fofZ qc) [36; 44; 0; 0; 40; 48; 36; 28; 0; 0; 32; 24]).
Proof.
  split; [exact LA_ok|]. split; [unfold batch_sizes, alloc_ok, i64_max; cbn; lia|].
  vm_compute. repeat f_equal; apply Qc_is_canon; reflexivity.
Qed.

(** ** C52: construction from Python *)
Theorem C52_csr : forall (F : Fl) nrows ncols p i (d : list F), Z.of_nat (length p) <= usize_max -> Forall is_i64 i ->
  let A := mkCs nrows ncols p i d in
  (canonical A -> csr_init nrows ncols p i d true = Ok (mkPyCs A (Some A))) /\
  (~ canonical A -> csr_init nrows ncols p i d true = Panic).
Proof.
  intros F nrows ncols p i d HP HI A. destruct (C01_csr_checked_construction F nrows ncols p i d HP HI) as [IFF _]. unfold csr_init. split.
  - intros C. destruct (proj2 IFF C) as [B EB]. rewrite EB.
    destruct (proj2 (C03_csr_unchecked_construction F nrows ncols p i d HP)) as [B' EB'].
    { destruct C as [OK _]. destruct OK as [O1 O2 O3 O4 _ _]. cbn [ptr idx dat major A] in *. auto. }
    rewrite EB'. rewrite (cs_from_parts_value _ _ _ _ _ _ _ EB'). reflexivity.
  - intros NC. destruct (csr_from_parts nrows ncols p i d true) as [B|] eqn:E; [|reflexivity].
    exfalso. apply NC, IFF. eauto.
Qed.
Print Assumptions C52_csr.

(** CSC and COO never raise; the arrays are kept as they are and the native handle
    exists exactly for valid arrays. *)
Theorem C52_csc_partial : forall (F : Fl) nrows ncols p i (d : list F), Z.of_nat (length p) <= usize_max -> Forall is_i64 i ->
  let A := mkCs ncols nrows p i d in
  exists h, csc_init nrows ncols p i d true = Ok (mkPyCs A h) /\ (canonical A -> h = Some A) /\ (~ canonical A -> h = None).
Proof.
  intros F nrows ncols p i d HP HI A. destruct (C01_csc_checked_construction F nrows ncols p i d HP HI) as [IFF _].
  eexists. split; [reflexivity|]. split.
  - intros C. destruct (proj2 IFF C) as [B EB]. rewrite EB. f_equal. apply (cs_from_parts_value _ _ _ _ _ _ _ EB).
  - intros NC. destruct (csc_from_parts nrows ncols p i d true) as [B|] eqn:E; [|reflexivity]. exfalso. apply NC, IFF. eauto.
Qed.
Print Assumptions C52_csc_partial.

Theorem C52_coo_partial : forall (F : Fl) nrows ncols r c (d : list F), Forall is_i64 r -> Forall is_i64 c ->
  let A := mkCoo nrows ncols r c d in
  exists h, coo_init nrows ncols r c d true = Ok (mkPyCoo A h) /\ (h = Some A <-> coo_ok A) /\ (h = None <-> ~ coo_ok A).
Proof.
  intros F nrows ncols r c d HR HC A. destruct (C02_coo_checked_construction F nrows ncols r c d HR HC) as (h & E & H).
  exists h. unfold coo_init. rewrite E. split; [reflexivity|exact H].
Qed.
Print Assumptions C52_coo_partial.

(** Findings: invalid arrays are accepted by CSC, COO and COOND although check=True ... *)
Theorem C52_invalid_accepted_refuted :
  (exists X, csc_init (F := f64 pw0) 2 1 [0; 1] [5] [fz 1] true = Ok X /\ ~ cs_ok (py_arrays X)) /\
  (exists X, coo_init (F := f64 pw0) 2 2 [7] [0] [fz 1] true = Ok X /\ ~ coo_ok (pyc_arrays X)) /\
  (exists X, nd_init (F := f64 pw0) [2; 2] [5; 5; 1; 1] [fz 1] true = Ok X /\ ~ nd_ok X).
Proof.
  split; [|split]; eexists; (split; [reflexivity|]); intros OK.
  - pose proof (ok_bound _ OK 0%nat 5 eq_refl) as H. cbn in H. lia.
  - pose proof (coo_bound_r _ OK 0%nat 7 eq_refl) as H. cbn in H. lia.
  - pose proof (nd_len _ OK) as H. cbn in H. discriminate.
Qed.
Print Assumptions C52_invalid_accepted_refuted.

(** ... and an operation on such an object runs the native code on the invalid
    arrays: transposing it writes out of bounds. *)
Theorem C52_csc_transpose_out_of_bounds_refuted :
  exists X, csc_init (F := f64 pw0) 2 1 [0; 1] [5] [fz 1] true = Ok X /\
    forall threads il sch srt, (threads <= 8)%nat -> csc_T (transpose_csc threads il sch srt) X = UB.
Proof.
  eexists. split; [reflexivity|]. intros threads il sch srt H.
  do 9 (destruct threads as [|threads]; [vm_compute; reflexivity|]). lia.
Qed.
Print Assumptions C52_csc_transpose_out_of_bounds_refuted.

Example C52_nonvacuous : canonical (mkCs 2 2 [0; 1; 2] [1; 0] [fz 1; fz 2]) /\ ~ canonical (mkCs 2 2 [0; 1; 2] [1; 2] [fz 1; fz 2]) /\
  csr_init (F := f64 pw0) 2 2 [0; 1; 2] [1; 2] [fz 1; fz 2] true = Panic.
Proof.
  split; [apply canonical_literal; reflexivity|]. split; [|reflexivity]. intros [OK _]. pose proof (ok_bound _ OK 1%nat 2 eq_refl) as H. cbn in H. lia.
Qed.

(** ** C53: scalar operators *)

(** A matrix with the same structure and other values. *)
Definition with_values {V} (f : V -> V) (A : Cs V) : Cs V := mkCs (major A) (minor A) (ptr A) (idx A) (map f (dat A)).
Definition coo_with_values {V} (f : V -> V) (A : Coo V) : Coo V := mkCoo (coo_nrows A) (coo_ncols A) (coo_row A) (coo_col A) (map f (coo_data A)).

Lemma qc_mul_neg1 : forall v : Qc, (v * - (1))%Qc = (- v)%Qc.
Proof. intros. ring. Qed.

Lemma mul_scalar_exact : forall alpha (l : list qc), mul_scalar_data alpha l = Ok (map (fun v => fmul v alpha) l).
Proof.
  intros alpha l. rewrite mul_scalar_data_ok. f_equal. apply map_ext. intros v. unfold scale.
  destruct (feqb alpha f1) eqn:E1.
  { apply (e_eqb _ qc_elaws) in E1. rewrite E1. symmetry. apply Qcmult_1_r. }
  destruct (feqb alpha f0) eqn:E2; [|reflexivity]. apply (e_eqb _ qc_elaws) in E2. rewrite E2. symmetry. apply Qcmult_0_r.
Qed.

(** In exact arithmetic A / alpha divides every value, A * alpha multiplies it and -A
    negates it; the structure is kept. *)
Theorem C53_exact : forall alpha : qc,
  (forall A : Csr qc, (alpha <> f0 -> py_truediv mul_scalar_csr A alpha = Ok (with_values (fun v => fdiv v alpha) A)) /\
                      py_mul mul_scalar_csr A alpha = Ok (with_values (fun v => fmul v alpha) A) /\
                      py_neg mul_scalar_csr A = Ok (with_values fneg A)) /\
  (forall A : Csc qc, (alpha <> f0 -> py_truediv mul_scalar_csc A alpha = Ok (with_values (fun v => fdiv v alpha) A)) /\
                      py_mul mul_scalar_csc A alpha = Ok (with_values (fun v => fmul v alpha) A) /\
                      py_neg mul_scalar_csc A = Ok (with_values fneg A)) /\
  (forall A : Coo qc, (alpha <> f0 -> py_truediv mul_scalar_coo A alpha = Ok (coo_with_values (fun v => fdiv v alpha) A)) /\
                      py_mul mul_scalar_coo A alpha = Ok (coo_with_values (fun v => fmul v alpha) A) /\
                      py_neg mul_scalar_coo A = Ok (coo_with_values fneg A)).
Proof.
  intros alpha.
  assert (D : forall l : list qc, map (fun v => fmul v (fdiv f1 alpha)) l = map (fun v => fdiv v alpha) l) by (intros; apply map_ext; intros; apply qc_mul_inv).
  assert (N : forall l : list qc, map (fun v => fmul v (fneg f1)) l = map (fun v : qc => fneg v) l) by (intros; apply map_ext; intros v; apply qc_mul_neg1).
  assert (E : alpha <> f0 -> feqb alpha f0 = false) by (intros H; apply not_true_iff_false; intros E; apply H, (e_eqb _ qc_elaws); exact E).
  unfold py_truediv, py_neg, py_mul, mul_scalar_csr, mul_scalar_csc, mul_scalar_coo, cs_with, coo_with, with_values, coo_with_values.
  split; [|split]; intros A; (split; [intros H; rewrite E by auto; rewrite mul_scalar_exact, D; reflexivity|]); rewrite !mul_scalar_exact, ?N; split; reflexivity.
Qed.
Print Assumptions C53_exact.

(** Division by zero raises for all three division operators, and only then. *)
Theorem C53_zero_divisor : forall (F : Fl) (M : Type) (mul fdv rm : F -> M -> res M) (A : M) alpha,
  feqb alpha f0 = true -> py_truediv mul A alpha = Panic /\ py_floordiv fdv A alpha = Panic /\ py_mod rm A alpha = Panic.
Proof. intros F M mul fdv rm A alpha H. unfold py_truediv, py_floordiv, py_mod. rewrite H. auto. Qed.
Print Assumptions C53_zero_divisor.

Theorem C53_floordiv_mod : forall pw (alpha : f64 pw) (A : Csr (f64 pw)), feqb alpha f0 = false ->
  py_floordiv floordiv_scalar_csr A alpha = Ok (with_values (fun v => ffloor (fdiv v alpha)) A) /\
  py_mod rem_scalar_csr A alpha = Ok (with_values (fun v => fsub v (fmul alpha (ffloor (fdiv v alpha)))) A).
Proof.
  intros pw alpha A H. unfold py_floordiv, py_mod. rewrite H. split.
  - apply (proj1 (Verif.PropScalar.C16_floordiv_scalar pw alpha)).
  - apply (proj1 (Verif.PropScalar.C16_rem_scalar pw alpha)).
Qed.
Print Assumptions C53_floordiv_mod.

(** Finding: in double precision A / alpha multiplies by the rounded reciprocal and
    differs from the quotient: 49 / 49 is not 1. *)
Theorem C53_truediv_rounding_refuted : exists (A B : Csr (f64 pw0)) alpha v w, canonical A /\ py_truediv mul_scalar_csr A alpha = Ok B /\
  csr_at A 0 0 = [v] /\ csr_at B 0 0 = [w] /\ feqb (fdiv v alpha) f1 = true /\ feqb w f1 = false.
Proof.
  exists (mkCs 1 1 [0; 1] [0] [fz 49]), (mkCs 1 1 [0; 1] [0] [fmul (fz 49) (fdiv (fz 1) (fz 49))]), (fz 49), (fz 49), (fmul (fz 49) (fdiv (fz 1) (fz 49))).
  split; [apply canonical_literal; reflexivity|]. repeat split; vm_compute; reflexivity.
Qed.
Print Assumptions C53_truediv_rounding_refuted.

Example C53_nonvacuous : (fofZ 4 : qc) <> f0 /\
  rmap (fun B => dat B) (py_truediv mul_scalar_csr LA (fofZ 4 : qc)) = Ok (map (fun v => fdiv v (fofZ 4 : qc)) (dat LA)) /\
  rmap (fun B => dat B) (py_mod rem_scalar_csr (mkCs 1 2 [0; 2] [0; 1] [fz 7; fz (-7)]) (fz 4)) = Ok [fz 3; fz 1].
Proof. split; [discriminate|]. split; [|vm_compute; reflexivity]. destruct (C53_exact (fofZ 4)) as [H _]. rewrite (proj1 (H LA)) by discriminate. reflexivity. Qed.

(** ** C54: comparisons *)

(** The IEEE comparison of two values. *)
Definition holds {F : Fl} (c : cmp) : F -> F -> bool :=
  match c with
  | CEq => fun x y => feqb x y
  | CNe => fun x y => negb (feqb x y)
  | CLt => fun x y => fltb x y
  | CLe => fun x y => fltb x y || feqb x y
  | CGt => fun x y => fltb y x
  | CGe => fun x y => fltb y x || feqb y x
  end.

Lemma combine_maps : forall {A B J} (f : J -> A) (g : J -> B) l, combine (map f l) (map g l) = map (fun j => (f j, g j)) l.
Proof. induction l; cbn; f_equal; auto. Qed.

Lemma compare_dense : forall {F : Fl} c m n (g h : nat -> nat -> F),
  compare2 c (Ok (dense m n g)) (Ok (dense m n h)) = Ok (dense m n (fun i j => holds c (g i j) (h i j))).
Proof.
  intros F c m n g h. unfold compare2, dense. cbn [bind]. f_equal. rewrite combine_maps, map_map. apply map_ext. intros i. cbn [fst snd].
  rewrite combine_maps, map_map. apply map_ext. intros j. cbn [fst snd]. destruct c; reflexivity.
Qed.

(** Every cell of the result compares the two cells, absent entries counting as 0;
    the operands may be of different formats. *)
Theorem C54_compare : forall (F : Fl) c,
  (forall A B : Csr F, canonical A -> canonical B -> csr_nrows A = csr_nrows B -> csr_ncols A = csr_ncols B ->
     compare2 c (csr_toarray A) (csr_toarray B) = Ok (dense (csr_nrows A) (csr_ncols A) (fun i j => holds c (csr_val f0 A i j) (csr_val f0 B i j)))) /\
  (forall A B : Csc F, canonical A -> canonical B -> csc_nrows A = csc_nrows B -> csc_ncols A = csc_ncols B ->
     compare2 c (csc_toarray A) (csc_toarray B) = Ok (dense (csc_nrows A) (csc_ncols A) (fun i j => holds c (csc_val f0 A i j) (csc_val f0 B i j)))) /\
  (forall (A : Csr F) (B : Csc F), canonical A -> canonical B -> csr_nrows A = csc_nrows B -> csr_ncols A = csc_ncols B ->
     compare2 c (csr_toarray A) (csc_toarray B) = Ok (dense (csr_nrows A) (csr_ncols A) (fun i j => holds c (csr_val f0 A i j) (csc_val f0 B i j)))) /\
  (forall A B : Coo F, coo_ok A -> coo_ok B -> coo_nrows A = coo_nrows B -> coo_ncols A = coo_ncols B ->
     compare2 c (coo_toarray A) (coo_toarray B) =
       Ok (dense (coo_nrows A) (coo_ncols A) (fun i j => holds c (fold_left fadd (coo_at A i j) f0) (fold_left fadd (coo_at B i j) f0)))).
Proof.
  intros F c. destruct (C44_toarray F) as [T1 T2].
  split; [|split; [|split]]; intros A B CA CB E1 E2.
  - rewrite !T1, <- E1, <- E2 by auto. apply compare_dense.
  - rewrite !T2, <- E1, <- E2 by auto. apply compare_dense.
  - rewrite T1, T2, <- E1, <- E2 by auto. apply compare_dense.
  - rewrite !C44_toarray_coo, <- E1, <- E2 by auto. apply compare_dense.
Qed.
Print Assumptions C54_compare.

(** Two COOND arrays: their shapes are broadcast as in NumPy; each cell of the result compares
    the cells of the operands that it reads. *)
Theorem C54_compare_coond : forall (F : Fl) c (A B : Nd F), nd_ok A -> nd_ok B ->
  Forall (fun n => 0 <= n) (nd_shape A) -> Forall (fun n => 0 <= n) (nd_shape B) ->
  let S := broadcast_shape (nd_shape A) (nd_shape B) in
  let at_ X k := fold_left fadd (nd_at X (source_cell (nd_shape X) k)) f0 in
  (broadcastable (nd_shape A) (nd_shape B) -> exists sh r, compare_nd c A B = Ok (sh, r) /\ map Z.of_nat sh = S /\ length r = fold_right Nat.mul 1%nat sh /\
     forall k, in_shape S k -> nth_error r (Z.to_nat (position S k)) = Some (holds c (at_ A k) (at_ B k))) /\
  (~ broadcastable (nd_shape A) (nd_shape B) -> compare_nd c A B = Panic).
Proof.
  intros F c A B OA OB NA NB S at_.
  assert (EZ : forall X : Nd F, Forall (fun n => 0 <= n) (nd_shape X) -> map Z.of_nat (map Z.to_nat (nd_shape X)) = nd_shape X).
  { intros X H. induction H as [|n sh Hn H IH]; [reflexivity|]. cbn [map]. rewrite IH. f_equal. lia. }
  unfold compare_nd. rewrite !nd_toarray_ok by auto. cbn [bind].
  destruct (np_compare_is c (map Z.to_nat (nd_shape A)) (map (fun k => fold_left fadd (nd_at A k) f0) (all_keys (nd_shape A)))
    (map Z.to_nat (nd_shape B)) (map (fun k => fold_left fadd (nd_at B k) f0) (all_keys (nd_shape B)))) as [H1 H2].
  rewrite !EZ in H1, H2 by auto. split; [|exact H2]. intros BC. destruct (H1 BC) as (sh & r & E & ES & L & V). exists sh, r. split; [exact E|]. split; [exact ES|]. split; [exact L|].
  intros k IK. destruct (source_in_shape _ _ _ BC IK) as [SA SB].
  assert (G : forall X : Nd F, Forall (fun n => 0 <= n) (nd_shape X) -> in_shape (nd_shape X) (source_cell (nd_shape X) k) ->
    array_at (map Z.to_nat (nd_shape X)) (map (fun k => fold_left fadd (nd_at X k) f0) (all_keys (nd_shape X))) k = at_ X k).
  { intros X NX IX. unfold array_at. rewrite EZ by auto. apply nth_error_nth. rewrite nth_error_map, all_keys_nth by auto. reflexivity. }
  unfold S. rewrite (V k IK), !G by auto. destruct c; reflexivity.
Qed.
Print Assumptions C54_compare_coond.

Example C54_nonvacuous : canonical WA /\ canonical WB /\
  compare2 CLt (csr_toarray WA) (csr_toarray WB) = Ok [[false; true; false; false]; [false; false; false; true]; [false; true; false; true]] /\
  compare2 CGe (csr_toarray WA) (csr_toarray WB) = Ok [[true; false; true; true]; [true; true; true; false]; [true; false; false; false]].
Proof. split; [exact WA_canonical|]. split; [exact WB_canonical|]. split; vm_compute; reflexivity. Qed.

(** ** C55: axes of N-D reductions *)

Lemma named_axes_in : forall ndim l d, In d (named_axes ndim l) <-> (d < ndim)%nat /\ exists a, In a l /\ names_axis ndim a d = true.
Proof.
  intros. unfold named_axes. rewrite filter_In, in_seq, existsb_exists. split; intros [H1 H2]; split; auto; lia.
Qed.
Lemma named_axes_ok : forall ndim l, axes_ok ndim (named_axes ndim l).
Proof.
  intros. split; [apply NoDup_filter, seq_NoDup|]. apply Forall_forall. intros d I. apply named_axes_in in I. tauto.
Qed.

Lemma other_axes_pos : forall ndim axes, axes_ok ndim axes -> (length axes < ndim)%nat -> (0 < length (other_axes ndim axes))%nat.
Proof.
  intros ndim axes [ND B] L. destruct (other_axes ndim axes) as [|x xs] eqn:E; [|cbn; lia]. exfalso.
  assert (I : incl (seq 0 ndim) axes).
  { intros d Id. apply in_seq in Id. destruct (in_dec Nat.eq_dec d axes) as [I|NI]; auto. exfalso.
    assert (I2 : In d (other_axes ndim axes)) by (apply in_other_axes; split; [lia|auto]). rewrite E in I2. exact I2. }
  apply NoDup_incl_length in I; [|apply seq_NoDup]. rewrite seq_length in I. lia.
Qed.

Lemma reduce_nd_axes : forall {F : Fl} (red : list nat -> res (Nd F)) ndim axis keepdims axes, norm_axes ndim axis = Ok (Some axes) -> axes <> [] ->
  reduce_nd red ndim axis keepdims = (let! r := red axes in let! r' := if keepdims then with_keepdims ndim axes r else Ok r in Ok (Some r')).
Proof. intros F red ndim axis keepdims axes E NE. unfold reduce_nd. rewrite E. cbn [bind]. destruct axes; [congruence|reflexivity]. Qed.

Lemma reduce_nd_ok : forall {F : Fl} (red : list nat -> res (Nd F)) (g : list nat -> list F -> list F) (A : Nd F) axis,
  (forall axes, proper_axes (length (nd_shape A)) axes -> let remain := other_axes (length (nd_shape A)) axes in
     exists C, red axes = Ok C /\ nd_ok C /\ nd_shape C = select remain (nd_shape A) /\
       forall k, in_shape (nd_shape C) k -> nd_at C k = g axes (fiber A remain k)) ->
  let ndim := length (nd_shape A) in
  let numbers := match axis with AxNone => [] | AxInt a => [a] | AxTuple l => l end in
  let axes := named_axes ndim numbers in
  let remain := other_axes ndim axes in
  numbers <> [] -> Forall (fun a => - Z.of_nat ndim <= a < Z.of_nat ndim) numbers -> (length axes < ndim)%nat ->
  (exists C, reduce_nd red ndim axis false = Ok (Some C) /\ nd_ok C /\
     nd_shape C = select remain (nd_shape A) /\
     forall k, in_shape (nd_shape C) k -> nd_at C k = g axes (fiber A remain k)) /\
  (exists C, reduce_nd red ndim axis true = Ok (Some C) /\ nd_ok C /\
     length (nd_shape C) = ndim /\
     (forall d, (d < ndim)%nat -> nth d (nd_shape C) 0 = if existsb (Nat.eqb d) axes then 1 else nth d (nd_shape A) 0) /\
     forall k, in_shape (nd_shape C) k -> nd_at C k = g axes (fiber A remain (select remain k))).
Proof.
  intros F red g A axis K ndim numbers axes remain NE V LT.
  assert (NA : axis <> AxNone) by (intros ->; apply NE; reflexivity).
  assert (EV : forallb (axis_valid ndim) (axis_list axis) = true).
  { apply forallb_forall. intros a I. change (axis_list axis) with numbers in I. rewrite Forall_forall in V. specialize (V a I). unfold axis_valid. lia. }
  assert (EN : norm_axes ndim axis = Ok (Some axes)) by (rewrite norm_axes_ok by auto; reflexivity).
  assert (AO : axes_ok ndim axes) by apply named_axes_ok.
  assert (AN : axes <> []).
  { destruct numbers as [|a l] eqn:EN'; [congruence|]. rewrite Forall_forall in V. specialize (V a (or_introl eq_refl)).
    set (d := Z.to_nat (if a <? 0 then Z.of_nat ndim + a else a)).
    assert (I : In d axes). { unfold axes. apply named_axes_in. split; [unfold d; destruct (Z.ltb_spec a 0); lia|]. exists a. split; [left; reflexivity|].
      unfold names_axis, d. destruct (Z.ltb_spec a 0); lia. }
    intros E. rewrite E in I. exact I. }
  destruct (K axes) as (C & E & OC & SC & AT); [repeat split; auto; apply AO|]. fold ndim in SC, AT. fold remain in SC, AT.
  rewrite !(reduce_nd_axes _ _ _ _ _ EN AN), E. cbn [bind]. split.
  - exists C. split; [reflexivity|]. auto.
  - destruct (with_keepdims_ok ndim axes (nd_shape A) C eq_refl (other_axes_pos _ _ AO LT) OC SC) as (D & ED & OD & LD & ND & AD).
    exists D. rewrite ED. split; [reflexivity|]. repeat (split; [assumption|]). intros k IK. rewrite AD by auto.
    apply AT. rewrite SC. fold remain.
    assert (IS : in_shape (select remain (nd_shape D)) (select remain k)).
    { apply select_in_shape; auto. apply Forall_forall. intros d I. apply in_other_axes in I. rewrite LD. lia. }
    replace (select remain (nd_shape A)) with (select remain (nd_shape D)); [exact IS|].
    apply map_ext_in. intros d I. apply in_other_axes in I. destruct I as [I1 I2]. rewrite ND by auto.
    destruct (existsb (Nat.eqb d) axes) eqn:EX; auto. apply existsb_exists in EX. destruct EX as (x & IX & EX). apply Nat.eqb_eq in EX. subst. tauto.
Qed.
(** A negative axis counts from the end, repeated axes count once. The shape keeps the
    other axes, or with keepdims has 1 at the reduced ones; each cell is the sum of the
    entries whose coordinates agree on the other axes. *)
Theorem C55_reduce_sum_axes : forall (F : Fl) srt (A : Nd F) axis, is_sorter pair_le srt -> nd_ok A -> shape_fits (nd_shape A) ->
  let ndim := length (nd_shape A) in
  let numbers := match axis with AxNone => [] | AxInt a => [a] | AxTuple l => l end in
  let axes := named_axes ndim numbers in
  let remain := other_axes ndim axes in
  numbers <> [] -> Forall (fun a => - Z.of_nat ndim <= a < Z.of_nat ndim) numbers -> (length axes < ndim)%nat ->
  (exists C, reduce_nd (reduce_sum_axes_coond srt A) ndim axis false = Ok (Some C) /\ nd_ok C /\
     nd_shape C = select remain (nd_shape A) /\
     forall k, in_shape (nd_shape C) k -> nd_at C k = left_sum (fiber A remain k)) /\
  (exists C, reduce_nd (reduce_sum_axes_coond srt A) ndim axis true = Ok (Some C) /\ nd_ok C /\
     length (nd_shape C) = ndim /\
     (forall d, (d < ndim)%nat -> nth d (nd_shape C) 0 = if existsb (Nat.eqb d) axes then 1 else nth d (nd_shape A) 0) /\
     forall k, in_shape (nd_shape C) k -> nd_at C k = left_sum (fiber A remain (select remain k))).
Proof.
  intros F srt A axis HS OK SF. apply (reduce_nd_ok (reduce_sum_axes_coond srt A) (fun _ => left_sum)). intros axes P remain.
  destruct (C26_reduce_sum F srt A axes HS OK SF P) as (C & E & OC & SC & _ & AT). exists C. auto.
Qed.
Print Assumptions C55_reduce_sum_axes.

(** The same for the mean: each sum is multiplied by the reciprocal of the number [n] of
    cells reduced to one. *)
Theorem C55_reduce_mean_axes : forall (F : Fl) srt (A : Nd F) axis, is_sorter pair_le srt -> nd_ok A -> shape_fits (nd_shape A) ->
  let ndim := length (nd_shape A) in
  let numbers := match axis with AxNone => [] | AxInt a => [a] | AxTuple l => l end in
  let axes := named_axes ndim numbers in
  let remain := other_axes ndim axes in
  let n := cells (select axes (nd_shape A)) in
  let inv : F := fdiv f1 (fofZ n) in
  let mean s := if n =? 1 then s else if feqb inv f1 then s else if feqb inv f0 then f0 else fmul s inv in
  numbers <> [] -> Forall (fun a => - Z.of_nat ndim <= a < Z.of_nat ndim) numbers -> (length axes < ndim)%nat ->
  (exists C, reduce_nd (reduce_mean_axes_coond srt A) ndim axis false = Ok (Some C) /\ nd_ok C /\
     nd_shape C = select remain (nd_shape A) /\
     forall k, in_shape (nd_shape C) k -> nd_at C k = map mean (left_sum (fiber A remain k))) /\
  (exists C, reduce_nd (reduce_mean_axes_coond srt A) ndim axis true = Ok (Some C) /\ nd_ok C /\
     length (nd_shape C) = ndim /\
     (forall d, (d < ndim)%nat -> nth d (nd_shape C) 0 = if existsb (Nat.eqb d) axes then 1 else nth d (nd_shape A) 0) /\
     forall k, in_shape (nd_shape C) k -> nd_at C k = map mean (left_sum (fiber A remain (select remain k)))).
Proof.
  intros F srt A axis HS OK SF. apply (reduce_nd_ok (reduce_mean_axes_coond srt A) (fun axes l =>
    let n := cells (select axes (nd_shape A)) in let inv : F := fdiv f1 (fofZ n) in
    map (fun s => if n =? 1 then s else if feqb inv f1 then s else if feqb inv f0 then f0 else fmul s inv) (left_sum l))). intros axes P remain.
  destruct (C26_reduce_mean F srt A axes HS OK SF P) as (C & E & OC & SC & _ & AT). exists C. auto.
Qed.
Print Assumptions C55_reduce_mean_axes.

(** An axis out of range raises, and so does the empty tuple. *)
Theorem C55_bad_axis : forall (F : Fl) (red : list nat -> res (Nd F)) ndim axis keepdims,
  let numbers := match axis with AxNone => [] | AxInt a => [a] | AxTuple l => l end in
  (Exists (fun a => ~ - Z.of_nat ndim <= a < Z.of_nat ndim) numbers \/ axis = AxTuple []) ->
  reduce_nd red ndim axis keepdims = Panic.
Proof.
  intros F red ndim axis keepdims numbers [H| ->]; [|reflexivity]. unfold reduce_nd. rewrite norm_axes_bad; [reflexivity|].
  change (axis_list axis) with numbers. apply not_true_iff_false. intros T. rewrite forallb_forall in T. apply Exists_exists in H.
  destruct H as (a & I & N). specialize (T a I). unfold axis_valid in T. lia.
Qed.
Print Assumptions C55_bad_axis.

(** Finding: naming every axis (the reduction to a single cell) panics, although
    axis=None gives the total. *)
Theorem C55_all_axes_refuted : forall (F : Fl) srt (A : Nd F) keepdims,
  reduce_nd (reduce_sum_axes_coond srt A) (length (nd_shape A)) (AxTuple (map Z.of_nat (seq 0 (length (nd_shape A))))) keepdims = Panic.
Proof.
  intros F srt A keepdims. unfold reduce_nd. set (n := length (nd_shape A)).
  rewrite norm_axes_ok; [|discriminate|].
  - cbn [bind axis_list].
    assert (E : named_axes n (map Z.of_nat (seq 0 n)) = seq 0 n).
    { unfold named_axes. rewrite (filter_ext_in _ (fun _ => true)); [apply filter_true|]. intros d I. apply existsb_exists.
      exists (Z.of_nat d). split; [apply in_map; exact I|]. unfold names_axis. rewrite Z.eqb_refl. reflexivity. }
    rewrite E. destruct (seq 0 n) eqn:ES; [reflexivity|]. rewrite <- ES.
    rewrite (proj1 (C26_bad_axes_panic F srt A (seq 0 n) ltac:(intros (_ & _ & L); rewrite seq_length in L; unfold n in L; lia))). reflexivity.
  - apply forallb_forall. intros a I. apply in_map_iff in I. destruct I as (d & <- & I). apply in_seq in I. unfold axis_valid. lia.
Qed.
Print Assumptions C55_all_axes_refuted.

Example C55_nonvacuous : nd_ok W3 /\ shape_fits (nd_shape W3) /\ named_axes 3 [-3; 1; 0] = [0; 1]%nat /\
  reduce_nd (reduce_sum_axes_coond sort_pairs W3) 3 (AxTuple [-3; 1; 0]) false = Ok (Some (mkNd [2] [0; 1] [fz (-3); fz 4])) /\
  reduce_nd (reduce_sum_axes_coond sort_pairs W3) 3 (AxTuple [-3; 1; 0]) true = Ok (Some (mkNd [1; 1; 2] [0; 0; 0; 0; 0; 1] [fz (-3); fz 4])).
Proof. split; [exact W3_ok|]. split; [exact W3_fits|]. repeat split; vm_compute; reflexivity. Qed.

(** ** C56: axes of matrix reductions *)

(** The results offered for the axis arguments: a total, one value per column, one per row. *)
Definition sums_of {F : Fl} (cell : nat -> nat -> list F) (m n : nat) (w : F) (cs rs : list F) : Prop :=
  FSum (matrix_values cell m n) w /\
  length cs = n /\ (forall j, (j < n)%nat -> FSum (row_values (transposed cell) m j) (nth j cs f0)) /\
  length rs = m /\ (forall i, (i < m)%nat -> FSum (row_values cell n i) (nth i rs f0)).

Definition or_panic {A} (o : option A) : res A := match o with Some x => Ok x | None => Panic end.

Theorem C56_sum_csr : forall pw z t nthreads dist il sch (A : Csr (f64 pw)), feqb z f0 = true -> is_distribution dist -> is_interleaving il -> is_schedule sch ->
  cs_ok A -> alloc_ok (length (dat A)) -> alloc_ok (csr_ncols A) ->
  exists w cs rs, sums_of (csr_at A) (csr_nrows A) (csr_ncols A) w cs rs /\
    forall axis keepdims, reduce_2d (sum_csr z t A) (col_sums_csr nthreads dist il A) (row_sums_csr sch A) (csr_nrows A) (csr_ncols A) axis keepdims
      = or_panic (reduction_2d w cs rs axis keepdims).
Proof.
  intros pw z t nthreads dist il sch A HZ HD HI HS OK A1 A2.
  destruct (C33_sum_csr pw z t A HZ OK) as (w & EW & W). destruct (C34_col_sums_csr pw nthreads dist il A HD HI OK A1 A2) as (cs & EC & LC & NC).
  destruct (C34_row_sums_csr pw sch A HS OK A1) as (rs & ER & LR & NR). exists w, cs, rs. split; [repeat (split; [assumption|]); assumption|].
  intros axis keepdims. rewrite EW, EC, ER. apply reduce_2d_ok; auto.
Qed.
Print Assumptions C56_sum_csr.

Theorem C56_sum_csc : forall pw z t dist (A : Csc (f64 pw)), feqb z f0 = true -> is_distribution dist ->
  cs_ok A -> alloc_ok (length (dat A)) -> alloc_ok (csc_nrows A) ->
  exists w cs rs, sums_of (csc_at A) (csc_nrows A) (csc_ncols A) w cs rs /\
    forall axis keepdims, reduce_2d (sum_csc z t A) (col_sums_csc A) (row_sums_csc dist A) (csc_nrows A) (csc_ncols A) axis keepdims
      = or_panic (reduction_2d w cs rs axis keepdims).
Proof.
  intros pw z t dist A HZ HD OK A1 A2.
  destruct (C33_sum_csc pw z t A HZ OK) as (w & EW & W). destruct (C34_col_sums_csc pw A OK A1) as (cs & EC & LC & NC).
  destruct (C34_row_sums_csc pw dist A HD OK A1 A2) as (rs & ER & LR & NR). exists w, cs, rs. split; [repeat (split; [assumption|]); assumption|].
  intros axis keepdims. rewrite EW, EC, ER. apply reduce_2d_ok; auto.
Qed.
Print Assumptions C56_sum_csc.

Theorem C56_sum_coo : forall pw z t nthreads dist il (A : Coo (f64 pw)), feqb z f0 = true -> is_distribution dist -> is_interleaving il ->
  coo_ok A -> alloc_ok (coo_nrows A) -> alloc_ok (coo_ncols A) ->
  exists w cs rs, sums_of (coo_at A) (coo_nrows A) (coo_ncols A) w cs rs /\
    forall axis keepdims, reduce_2d (sum_coo z t A) (col_sums_coo nthreads dist il A) (row_sums_coo nthreads dist A) (coo_nrows A) (coo_ncols A) axis keepdims
      = or_panic (reduction_2d w cs rs axis keepdims).
Proof.
  intros pw z t nthreads dist il A HZ HD HI OK A1 A2.
  destruct (C33_sum_coo pw z t A HZ OK) as (w & EW & W). destruct (C34_col_sums_coo pw nthreads dist il A HD HI OK A2) as (cs & EC & LC & NC).
  destruct (C34_row_sums_coo pw nthreads dist A HD OK A1) as (rs & ER & LR & NR). exists w, cs, rs. split; [repeat (split; [assumption|]); assumption|].
  intros axis keepdims. rewrite EW, EC, ER. apply reduce_2d_ok; auto.
Qed.
Print Assumptions C56_sum_coo.

(** The mean divides the sums by the number of cells. *)
Theorem C56_mean : forall (F : Fl) (w : F) cs rs m n axis keepdims, length cs = n -> length rs = m ->
  feqb (fofZ (Z.of_nat (m * n))) (f0 : F) = false ->
  mean_2d (Ok w) (Ok cs) (Ok rs) m n axis keepdims =
    or_panic (reduction_2d (fdiv w (fofZ (Z.of_nat (m * n)))) (map (fun s => fdiv s (fofZ (Z.of_nat m))) cs)
                           (map (fun s => fdiv s (fofZ (Z.of_nat n))) rs) axis keepdims).
Proof.
  intros F w cs rs m n axis keepdims LC LR NZ. unfold mean_2d. cbn [bind rmap]. rewrite NZ. cbn [negb]. apply reduce_2d_ok; rewrite map_length; auto.
Qed.
Print Assumptions C56_mean.

(** The same dispatch serves prod, var, std, min, max, all and any: whatever the
    kernels return, it is what the axis argument asks for. *)
Theorem C56_dispatch : forall (A : Type) (w : A) cs rs m n axis keepdims, length cs = n -> length rs = m ->
  reduce_2d (Ok w) (Ok cs) (Ok rs) m n axis keepdims = or_panic (reduction_2d w cs rs axis keepdims).
Proof. intros. apply reduce_2d_ok; auto. Qed.
Print Assumptions C56_dispatch.

(** [reduction_2d] spelled out. *)
Theorem C56_reduction_2d_meaning : forall (A : Type) (w : A) cs rs,
  reduction_2d w cs rs AxNone false = Some ([], [w]) /\ reduction_2d w cs rs AxNone true = Some ([1; 1]%nat, [w]) /\
  (forall a, a = 0 \/ a = -2 -> reduction_2d w cs rs (AxInt a) false = Some ([length cs], cs) /\
                                reduction_2d w cs rs (AxInt a) true = Some ([1; length cs]%nat, cs)) /\
  (forall a, a = 1 \/ a = -1 -> reduction_2d w cs rs (AxInt a) false = Some ([length rs], rs) /\
                                reduction_2d w cs rs (AxInt a) true = Some ([length rs; 1]%nat, rs)) /\
  (forall a b k, (a = 0 \/ a = -2) -> (b = 1 \/ b = -1) ->
     reduction_2d w cs rs (AxTuple [a; b]) k = reduction_2d w cs rs AxNone k /\
     reduction_2d w cs rs (AxTuple [b; a]) k = reduction_2d w cs rs AxNone k) /\
  (forall a k, a < -2 \/ 1 < a -> reduction_2d w cs rs (AxInt a) k = None).
Proof.
  intros A w cs rs. split; [reflexivity|]. split; [reflexivity|]. split; [intros a [->| ->]; split; reflexivity|].
  split; [intros a [->| ->]; split; reflexivity|]. split; [intros a b k [->| ->] [->| ->]; split; reflexivity|].
  intros a k H. unfold reduction_2d. cbn [forallb]. replace (axis_valid 2 a) with false; [reflexivity|].
  symmetry. unfold axis_valid. apply andb_false_iff. lia.
Qed.
Print Assumptions C56_reduction_2d_meaning.

Example C56_example : cs_ok WA /\ feqb (fz 0) (f0 : f64 pw0) = true /\
  reduce_2d (sum_csr (fz 0) Whole WA) (col_sums_csr 2 two_threads backward WA) (row_sums_csr (@rev _) WA) 3 4 (AxInt (-1)) true
    = Ok ([3; 1]%nat, [fz 3; fz 0; fnan0]) /\
  reduce_2d (sum_csr (fz 0) Whole WA) (col_sums_csr 2 two_threads backward WA) (row_sums_csr (@rev _) WA) 3 4 (AxTuple [0; 2]) true = Panic.
Proof. split; [apply (can_ok _ WA_canonical)|]. split; [reflexivity|]. split; vm_compute; reflexivity. Qed.
