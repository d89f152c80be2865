(** C47: coordinate lists that store a position more than once. *)
Require Import List ZArith Bool Arith Lia Permutation QArith Qcanon.
Require Import Coq.Floats.SpecFloat.
Require Import Verif.Res Verif.Values Verif.Spec Verif.SpecReduce Verif.Mem Verif.Lists Verif.CsLib Verif.Laws Verif.MScalar Verif.PScalar Verif.MConvert Verif.PConvert Verif.PConvert3 Verif.MNd Verif.MLinalg Verif.MReduce Verif.MStat Verif.Witness Verif.PropConvert Verif.PropNd Verif.PropLinalg Verif.PropPy2 Verif.SpecReduce Verif.PropStat.
Import ListNotations.
Local Open Scope Z_scope.

(** ** The linear operations give what the summed matrix gives.
    [B] is the matrix with duplicates summed (C07). *)
Lemma qsum_one : forall (l : list qc), (length l <= 1)%nat -> qsum l = one_or f0 l.
Proof.
  intros [|v [|w l]] H; cbn in H |- *; try lia; auto. apply Qcplus_0_r.
Qed.

Lemma summed_cells : forall srt (A : Coo qc) (B : Csr qc), is_sorter key2_le srt -> coo_ok A -> coo_to_csr srt A = Ok B ->
  canonical B /\ csr_nrows B = coo_nrows A /\ csr_ncols B = coo_ncols A /\
  (forall i j, (i < coo_nrows A)%nat -> (j < coo_ncols A)%nat -> qsum (csr_at B i j) = qsum (coo_at A i j)).
Proof.
  intros srt A B HS OK E. destruct (C07_coo_to_csr_exact srt A HS OK) as (B' & E' & C & R1 & R2 & V).
  rewrite E in E'. injection E' as <-. repeat (split; [assumption|]). intros i j Hi Hj.
  specialize (V i j Hi Hj). rewrite qsum_one; [exact V|]. apply (PGroup.canonical_single B C); rewrite <- R1 in Hi; auto.
Qed.

Theorem C47_sums : forall srt t t' sch nthreads dist il (A : Coo qc) (B : Csr qc),
  is_sorter key2_le srt -> is_schedule sch -> is_distribution dist -> is_interleaving il -> coo_ok A ->
  coo_to_csr srt A = Ok B -> alloc_ok (length (dat B)) -> alloc_ok (coo_nrows A) -> alloc_ok (coo_ncols A) ->
  sum_coo f0 t A = sum_csr f0 t' B /\
  row_sums_coo nthreads dist A = row_sums_csr sch B /\
  col_sums_coo nthreads dist il A = col_sums_csr nthreads dist il B.
Proof.
  intros srt t t' sch nt dist il A B HS HC HD HI OK E AL A1 A2.
  destruct (summed_cells srt A B HS OK E) as (C & R1 & R2 & V). pose proof (can_ok _ C) as OB.
  destruct (C33_sum_exact t B (mkCs 0 0 [0] [] []) A (mkNd [1] [] [])) as (_ & _ & ES & _); auto;
    [apply cs_ok_literal; reflexivity|apply nd_ok_literal; reflexivity|].
  destruct (C33_sum_exact t' B (mkCs 0 0 [0] [] []) A (mkNd [1] [] [])) as (ES' & _); auto;
    [apply cs_ok_literal; reflexivity|apply nd_ok_literal; reflexivity|].
  rewrite <- R1 in A1. rewrite <- R2 in A2.
  destruct (C34_sums_exact sch nt dist il B (mkCs 0 0 [0] [] []) A) as (ER & EC & _ & _ & ER' & EC'); auto; try reflexivity;
    try (rewrite <- ?R1, <- ?R2; auto); [apply cs_ok_literal; reflexivity|].
  rewrite ES, ES', ER, EC, ER', EC'. split; [|split]; f_equal.
  - rewrite R1, R2. f_equal. apply map_ext_in. intros [i j] I. apply in_prod_iff in I. destruct I as [I J]. apply in_seq in I. apply in_seq in J.
    symmetry. apply V; cbn [fst snd]; lia.
  - rewrite R1, R2. apply map_ext_in. intros i I. apply in_seq in I. f_equal. apply map_ext_in. intros j J. apply in_seq in J. symmetry. apply V; lia.
  - rewrite R1, R2. apply map_ext_in. intros j J. apply in_seq in J. f_equal. apply map_ext_in. intros i I. apply in_seq in I. symmetry. apply V; lia.
Qed.
Print Assumptions C47_sums.

(** Matrix-vector products. *)
Theorem C47_spmv : forall srt nthreads dist sch (A : Coo qc) (B : Csr qc) x,
  is_sorter key2_le srt -> is_distribution dist -> is_schedule sch -> coo_ok A ->
  coo_to_csr srt A = Ok B -> alloc_ok (length (dat B)) -> alloc_ok (coo_nrows A) -> alloc_ok (coo_ncols A) -> length x = coo_ncols A ->
  spmv_coo nthreads dist A x = spmv_csr sch B x.
Proof.
  intros srt nt dist sch A B x HS HD HC OK E AL A1 A2 LX.
  destruct (summed_cells srt A B HS OK E) as (C & R1 & R2 & V).
  destruct (C28_spmv_coo_exact nt dist A x HD OK) as (y & E1 & L1 & N1); auto.
  destruct (C27_spmv_csr_exact sch B x HC (can_ok _ C)) as (y' & E2 & L2 & N2); auto; try (rewrite ?R2; auto).
  rewrite E1, E2. f_equal. apply (nth_ext _ _ f0 f0); [congruence|]. intros i Hi. rewrite N1, N2 by congruence. rewrite R2.
  apply dot_exact_ext. intros j Hj. symmetry. apply V; auto. congruence.
Qed.
Print Assumptions C47_spmv.

(** Multiplication by a number: summing the scaled list is scaling the summed matrix. *)
Lemma coo_at_map : forall (g : qc -> qc) (A : Coo qc) i j,
  coo_at (mkCoo (coo_nrows A) (coo_ncols A) (coo_row A) (coo_col A) (map g (coo_data A))) i j = map g (coo_at A i j).
Proof.
  intros g A i j. unfold coo_at, coo_entries, at_cell. cbn [coo_row coo_col coo_data].
  generalize (coo_row A) (coo_col A) (coo_data A).
  induction l as [|a l IH]; intros [|b l0] [|c l1]; simpl; auto.
  destruct ((a =? Z.of_nat i) && (b =? Z.of_nat j)); simpl; rewrite IH; auto.
Qed.

Lemma qsum_scaled : forall (alpha : Qc) (l : list Qc), qsum (map (fun v => Qcmult v alpha) l) = Qcmult alpha (qsum l).
Proof.
  intros alpha l. induction l as [|v l IH]; unfold qsum in *; cbn [map fold_right]; [rewrite Qcmult_0_r; reflexivity|].
  rewrite IH, Qcmult_plus_distr_r, (Qcmult_comm v). reflexivity.
Qed.

Theorem C47_mul_scalar : forall srt alpha (A : Coo qc) (B : Csr qc), is_sorter key2_le srt -> coo_ok A -> coo_to_csr srt A = Ok B ->
  exists A' B', mul_scalar_coo alpha A = Ok A' /\ coo_ok A' /\ coo_to_csr srt A' = Ok B' /\
    csr_nrows B' = csr_nrows B /\ csr_ncols B' = csr_ncols B /\
    forall i j, (i < csr_nrows B)%nat -> (j < csr_ncols B)%nat -> csr_val f0 B' i j = fmul alpha (csr_val f0 B i j).
Proof.
  intros srt alpha A B HS OK E. destruct (summed_cells srt A B HS OK E) as (C & R1 & R2 & V).
  set (A' := mkCoo (coo_nrows A) (coo_ncols A) (coo_row A) (coo_col A) (map (fun v => fmul v alpha) (coo_data A))).
  assert (OK' : coo_ok A') by (destruct OK; constructor; cbn [coo_row coo_col coo_data coo_nrows coo_ncols A']; rewrite ?map_length; auto).
  destruct (C07_coo_to_csr_exact srt A' HS OK') as (B' & E' & C' & R1' & R2' & V').
  exists A', B'. split; [unfold mul_scalar_coo, coo_with; rewrite mul_scalar_exact; reflexivity|].
  repeat (split; [first [assumption|rewrite ?R1, ?R2; assumption]|]). intros i j Hi Hj. rewrite R1 in Hi. rewrite R2 in Hj.
  rewrite V' by assumption. unfold csr_val. rewrite <- qsum_one by (apply (PGroup.canonical_single B C); rewrite <- R1 in Hi; auto).
  rewrite V by assumption. unfold A'. rewrite coo_at_map. apply qsum_scaled.
Qed.
Print Assumptions C47_mul_scalar.

(** All and any of a coordinate matrix are those of the summed matrix (also C39_coo). *)
Theorem C47_all_any : forall pw srt (A : Coo (f64 pw)) B, is_sorter key2_le srt -> coo_ok A -> coo_to_csr srt A = Ok B -> alloc_ok (length (dat B)) ->
  all_coo srt A = Ok (forallb nonzero (matrix_cells f0 (csr_at B) (csr_nrows B) (csr_ncols B))) /\
  any_coo srt A = Ok (existsb nonzero (matrix_cells f0 (csr_at B) (csr_nrows B) (csr_ncols B))).
Proof.
  intros pw srt A B HS OK E AL. destruct (C07_coo_to_csr pw srt A HS OK) as (B' & E' & C & _). rewrite E in E'. injection E' as <-.
  unfold all_coo, any_coo. rewrite E. cbn [bind]. destruct (C39_csr pw B C AL) as [-> ->]. auto.
Qed.
Print Assumptions C47_all_any.

(** ** The others do not: one 1 x 2 matrix with 3 and 4 both stored at (0,0), which
    stands for [[7 0]]. Every operation is compared with the same operation on the
    summed matrix. *)
Definition DW : Coo (f64 pw0) := mkCoo 1 2 [0; 0] [0; 0] [fz 3; fz 4].
Definition DB : Csr (f64 pw0) := mkCs 1 2 [0; 1] [0] [fz 7].
Lemma DW_summed : coo_ok DW /\ coo_to_csr sort_triples DW = Ok DB /\ canonical DB.
Proof. split; [apply coo_ok_literal; reflexivity|]. split; [vm_compute; reflexivity|apply canonical_literal; reflexivity]. Qed.

Theorem C47_reductions_refuted : exists (A : Coo (f64 pw0)) (B : Csr (f64 pw0)),
  coo_ok A /\ is_sorter key2_le (@sort_triples (f64 pw0)) /\ coo_to_csr sort_triples A = Ok B /\ canonical B /\
  (min_coo smin0 smin0 Whole A = Ok (fz 3) /\ min_csr smin0 smin0 Whole B = Ok (fz 0)) /\
  (max_coo smax0 smax0 Whole A = Ok (fz 4) /\ max_csr smax0 smax0 Whole B = Ok (fz 7)) /\
  (prod_coo Whole A = Ok (fz 12) /\ prod_csr Whole B = Ok (fz 0)) /\
  (var_coo Whole A f0 = Ok (fdiv f1 (fz 4)) /\ var_csr Whole B f0 = Ok (fdiv (fz 49) (fz 4))).
Proof.
  exists DW, DB. destruct DW_summed as (H1 & H2 & H3). split; [exact H1|]. split; [apply sort_triples_sorter|]. split; [exact H2|]. split; [exact H3|].
  vm_compute. repeat split; reflexivity.
Qed.
Print Assumptions C47_reductions_refuted.

(** The same for the per-row reductions of that matrix. *)
Theorem C47_row_reductions_refuted :
  (row_mins_coo smin0 1 two_threads DW = Ok [fz 3] /\ row_mins_csr smin0 smin0 DB = Ok [fz 0]) /\
  (row_maxs_coo smax0 1 two_threads DW = Ok [fz 4] /\ row_maxs_csr smax0 smax0 DB = Ok [fz 7]) /\
  (row_prods_coo 1 two_threads DW = Ok [fz 12] /\ row_prods_csr DB = Ok [fz 0]).
Proof. vm_compute. repeat split; reflexivity. Qed.
Print Assumptions C47_row_reductions_refuted.

(** The 1-D array with 3 and 4 both stored at coordinate 0 of [7 0]. *)
Theorem C47_coond_refuted : exists A B : Nd (f64 pw0), nd_ok A /\ nd_ok B /\ nd_shape A = [2] /\ nd_shape B = [2] /\
  nd_at A [0] = [fz 3; fz 4] /\ nd_at A [1] = [] /\ nd_at B [0] = [fz 7] /\ nd_at B [1] = [] /\
  (all_coond A = Ok true /\ all_coond B = Ok false) /\
  (prod_coond Whole A = Ok (fz 12) /\ prod_coond Whole B = Ok (fz 0)) /\
  (var_coond Whole A f0 = Ok (fdiv f1 (fz 4)) /\ var_coond Whole B f0 = Ok (fdiv (fz 49) (fz 4))).
Proof.
  exists (mkNd [2] [0; 0] [fz 3; fz 4]), (mkNd [2] [0] [fz 7]). split; [apply nd_ok_literal; reflexivity|]. split; [apply nd_ok_literal; reflexivity|].
  vm_compute. repeat split; reflexivity.
Qed.
Print Assumptions C47_coond_refuted.

(** Elementwise operations applied to the list and then summed, against the operation
    on the summed matrix. *)
Theorem C47_elementwise_refuted :
  (exists A' B', sign_coo DW = Ok A' /\ coo_to_csr sort_triples A' = Ok B' /\ csr_val f0 B' 0 0 = fz 2 /\
     exists B'', sign_csr DB = Ok B'' /\ csr_val f0 B'' 0 0 = fz 1) /\
  (exists A' B', rem_scalar_coo (fz 5) DW = Ok A' /\ coo_to_csr sort_triples A' = Ok B' /\ csr_val f0 B' 0 0 = fz 7 /\
     exists B'', rem_scalar_csr (fz 5) DB = Ok B'' /\ csr_val f0 B'' 0 0 = fz 2) /\
  (exists A' B', floordiv_scalar_coo (fz 5) DW = Ok A' /\ coo_to_csr sort_triples A' = Ok B' /\ csr_val f0 B' 0 0 = fz 0 /\
     exists B'', floordiv_scalar_csr (fz 5) DB = Ok B'' /\ csr_val f0 B'' 0 0 = fz 1) /\
  (exists A' B', prune_coo (fz 5) DW = Ok A' /\ coo_to_csr sort_triples A' = Ok B' /\ csr_val f0 B' 0 0 = fz 0 /\
     exists B'', prune_csr (fun l => rev l) (fz 5) DB = Ok B'' /\ csr_val f0 B'' 0 0 = fz 7) /\
  (exists A' B' , abs_coo (mkCoo 1 1 [0; 0] [0; 0] [fz 3; fz (-4)]) = Ok A' /\ coo_to_csr sort_triples A' = Ok B' /\ csr_val f0 B' 0 0 = fz 7 /\
     coo_to_csr sort_triples (mkCoo 1 1 [0; 0] [0; 0] [fz 3; fz (-4)]) = Ok (mkCs 1 1 [0; 1] [0] [fz (-1)])).
Proof.
  repeat split; do 2 eexists; (split; [vm_compute; reflexivity|]); (split; [vm_compute; reflexivity|]); (split; [vm_compute; reflexivity|]);
    first [vm_compute; reflexivity|eexists; split; vm_compute; reflexivity].
Qed.
Print Assumptions C47_elementwise_refuted.

(** When no position is stored twice the summed matrix has the same cells, so that
    C36 to C38 give both the same minimum, maximum and product; the variance, exactly. *)
Theorem C47_unique_partial : forall (F : Fl) srt (A : Coo F) B, is_sorter key2_le srt -> coo_ok A -> single_valued (coo_at A) ->
  coo_to_csr srt A = Ok B ->
  canonical B /\ (forall i j, (i < coo_nrows A)%nat -> (j < coo_ncols A)%nat -> csr_at B i j = coo_at A i j) /\
  matrix_cells f0 (csr_at B) (csr_nrows B) (csr_ncols B) = matrix_cells f0 (coo_at A) (coo_nrows A) (coo_ncols A).
Proof.
  intros F srt A B HS OK SV E. destruct (coo_to_csr_ok srt A HS OK) as (B' & E' & C & M1 & M2 & AT). rewrite E in E'. injection E' as <-.
  assert (EQ : forall i j, (i < coo_nrows A)%nat -> (j < coo_ncols A)%nat -> csr_at B i j = coo_at A i j).
  { intros i j Hi Hj. destruct (AT i (Z.of_nat j) Hi) as (l & P & EA). fold (coo_at A i j) in P. unfold csr_at. rewrite EA.
    specialize (SV i j). destruct (coo_at A i j) as [|v [|w r]]; cbn in SV; try lia.
    - apply Permutation_nil in P. subst. auto.
    - apply Permutation_length_1_inv in P. subst. auto. }
  split; auto. split; auto. unfold matrix_cells, csr_nrows, csr_ncols. rewrite M1, M2. apply map_ext_in. intros [i j] I.
  apply PGroup.in_grid in I. destruct I. cbn [fst snd]. rewrite EQ; auto.
Qed.
Print Assumptions C47_unique_partial.

Corollary C47_var_unique_partial : forall srt t t' (A : Coo qc) B c, is_sorter key2_le srt -> coo_ok A -> single_valued (coo_at A) ->
  Z.of_nat (coo_nrows A * coo_ncols A) <= usize_max -> coo_to_csr srt A = Ok B -> var_coo t A c = var_csr t' B c.
Proof.
  intros srt t t' A B c HS OK SV FU E. destruct (C47_unique_partial qc srt A B HS OK SV E) as (C & _ & EQ).
  destruct (summed_cells srt A B HS OK E) as (_ & R1 & R2 & _).
  rewrite C38_var_coo, C38_var_csr, EQ; auto. rewrite R1, R2. auto.
Qed.
Print Assumptions C47_var_unique_partial.

(** [[0 0 3] [0 7 0]], the 3 stored as 5 and -2. *)
Example C47_example : coo_ok SW /\ is_sorter key2_le (@sort_triples qc) /\
  coo_at SW 0 2 = [Q2Qc 5; Q2Qc (-2)] /\
  coo_to_csr sort_triples SW = Ok (mkCs 2 3 [0; 1; 2] [2; 1] [Q2Qc 3; Q2Qc 7]) /\
  sum_coo f0 Whole SW = Ok (Q2Qc 10) /\
  spmv_coo 2 two_threads SW [Q2Qc 1; Q2Qc 2; Q2Qc 3] = Ok [Q2Qc 9; Q2Qc 14].
Proof.
  split; [apply SW_ok|]. split; [apply sort_triples_sorter|]. vm_compute. repeat split; repeat f_equal; apply Qc_is_canon; reflexivity.
Qed.
