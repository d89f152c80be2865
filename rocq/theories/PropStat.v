(** C33 to C39: sums, means, minima and maxima, products, variances and logical
    reductions. *)
Require Import List ZArith Bool Arith Lia Permutation QArith Qcanon.
Require Import Coq.Floats.SpecFloat.
Require Import Verif.Res Verif.Values Verif.Spec Verif.SpecReduce Verif.Mem Verif.Lists Verif.CsLib Verif.Laws Verif.FloatFacts Verif.FloatPos Verif.Loops Verif.NdLib Verif.MScalar Verif.PScalar Verif.MHash Verif.MNd Verif.PNd Verif.MAcc Verif.PAcc Verif.MLinalg Verif.PLinalg Verif.PLinalg2 Verif.PLinalg3 Verif.MConvert Verif.PConvert Verif.PConvert2 Verif.PConvert3 Verif.MReduce Verif.MStat Verif.PReduce Verif.Witness Verif.PropConvert Verif.PropNd Verif.PropLinalg Verif.PGroup Verif.PStat Verif.PStat2 Verif.PStat3.
Import ListNotations.
Local Open Scope Z_scope.

(** ** C33: sums of all values. [z] is the zero (of either sign) that the standard
    library's [sum] starts from, [t] the tree of the parallel reduction. *)
Theorem C33_sum_csr : forall pw z t (A : Csr (f64 pw)), feqb z f0 = true -> cs_ok A ->
  exists v, sum_csr z t A = Ok v /\ FSum (matrix_values (csr_at A) (csr_nrows A) (csr_ncols A)) v.
Proof.
  intros pw z t A HZ OK. destruct (rayon_sum_ok (n_zero _ (f64_laws pw)) z t (dat A) HZ) as (v & E & H). exists v. split; auto.
  eapply FSum_perm; [|exact H]. apply dat_values. auto.
Qed.
Print Assumptions C33_sum_csr.

Theorem C33_sum_csc : forall pw z t (A : Csc (f64 pw)), feqb z f0 = true -> cs_ok A ->
  exists v, sum_csc z t A = Ok v /\ FSum (matrix_values (csc_at A) (csc_nrows A) (csc_ncols A)) v.
Proof.
  intros pw z t A HZ OK. destruct (rayon_sum_ok (n_zero _ (f64_laws pw)) z t (dat A) HZ) as (v & E & H). exists v. split; auto.
  eapply FSum_perm; [|exact H]. apply csc_dat_values. auto.
Qed.
Print Assumptions C33_sum_csc.

Theorem C33_sum_coo : forall pw z t (A : Coo (f64 pw)), feqb z f0 = true -> coo_ok A ->
  exists v, sum_coo z t A = Ok v /\ FSum (matrix_values (coo_at A) (coo_nrows A) (coo_ncols A)) v.
Proof.
  intros pw z t A HZ OK. destruct (rayon_sum_ok (n_zero _ (f64_laws pw)) z t (coo_data A) HZ) as (v & E & H). exists v. split; auto.
  eapply FSum_perm; [|exact H]. apply coo_dat_values. auto.
Qed.
Print Assumptions C33_sum_coo.

Theorem C33_sum_coond : forall pw z t (A : Nd (f64 pw)), feqb z f0 = true -> nd_ok A ->
  exists v, sum_coond z t A = Ok v /\ FSum (array_values A) v.
Proof.
  intros pw z t A HZ OK. destruct (rayon_sum_ok (n_zero _ (f64_laws pw)) z t (nd_dat A) HZ) as (v & E & H). exists v. split; auto.
  eapply FSum_perm; [|exact H]. apply nd_dat_values. auto.
Qed.
Print Assumptions C33_sum_coond.

(** In exact arithmetic the sum is the sum over all cells of the cell's value. *)
Lemma qsum_cells : forall {J} (cell : J -> list qc) js v, FSum (flat_map cell js) v -> v = qsum (map (fun j => qsum (cell j)) js).
Proof.
  intros J cell js v H. apply (FSum_exact qc_elaws) in H. subst v. induction js as [|j js IH]; auto. cbn [flat_map map].
  rewrite (fsum_app qc_elaws), IH. reflexivity.
Qed.

Corollary C33_sum_exact : forall t (A : Csr qc) (B : Csc qc) (C : Coo qc) (D : Nd qc), cs_ok A -> cs_ok B -> coo_ok C -> nd_ok D ->
  sum_csr f0 t A = Ok (qsum (map (fun p => qsum (csr_at A (fst p) (snd p))) (grid (csr_nrows A) (csr_ncols A)))) /\
  sum_csc f0 t B = Ok (qsum (map (fun p => qsum (csc_at B (fst p) (snd p))) (grid (csc_nrows B) (csc_ncols B)))) /\
  sum_coo f0 t C = Ok (qsum (map (fun p => qsum (coo_at C (fst p) (snd p))) (grid (coo_nrows C) (coo_ncols C)))) /\
  sum_coond f0 t D = Ok (qsum (map (fun k => qsum (nd_at D k)) (all_keys (nd_shape D)))).
Proof.
  intros t A B C D HA HB HC HD.
  assert (G : forall {J} (cell : J -> list qc) js data, Permutation data (flat_map cell js) -> rayon_sum f0 t data = Ok (qsum (map (fun j => qsum (cell j)) js))).
  { intros J cell js data P. destruct (rayon_sum_ok (n_zero _ qc_laws) f0 t data eq_refl) as (v & E & H). rewrite E. f_equal. apply qsum_cells.
    eapply FSum_perm; eauto. }
  split; [|split; [|split]]; apply G.
  - apply dat_values. auto.
  - apply csc_dat_values. auto.
  - apply coo_dat_values. auto.
  - apply nd_dat_values. auto.
Qed.
Print Assumptions C33_sum_exact.

(** [[1 0 2 0] [0 0 0 0] [0 -3 NaN 4]] and a coordinate matrix with a duplicate. *)
Definition SW : Coo qc := mkCoo 2 3 [0; 1; 0] [2; 1; 2] [Q2Qc 5; Q2Qc 7; Q2Qc (-2)].
Lemma SW_ok : coo_ok SW.
Proof. apply coo_ok_literal. reflexivity. Qed.
Example C33_nonvacuous : cs_ok WA /\ length (dat WA) = 5%nat /\ (exists v, sum_csr f0 (At 1 Whole Whole) WA = Ok v) /\
  coo_ok SW /\ sum_coo f0 (At 1 Whole Whole) SW = Ok (Q2Qc 10).
Proof.
  split; [apply (can_ok _ WA_canonical)|]. split; [reflexivity|]. split.
  - destruct (C33_sum_csr pw0 f0 (At 1 Whole Whole) WA eq_refl (can_ok _ WA_canonical)) as (v & E & _). eauto.
  - split; [apply SW_ok|reflexivity].
Qed.

(** ** C34: sums of rows and columns *)
Lemma row_FSum : forall {F : Fl} (A : Cs F) y, cs_ok A ->
  (forall i, (i < major A)%nat -> FSum (map snd (cs_row A i)) (nth i y f0)) ->
  forall i, (i < major A)%nat -> FSum (row_values (csr_at A) (minor A) i) (nth i y f0).
Proof. intros F A y OK H i Hi. eapply FSum_perm; [apply row_values_ok; auto|auto]. Qed.

Theorem C34_row_sums_csr : forall pw sch (A : Csr (f64 pw)), is_schedule sch -> cs_ok A -> alloc_ok (length (dat A)) ->
  exists y, row_sums_csr sch A = Ok y /\ length y = csr_nrows A /\
    forall i, (i < csr_nrows A)%nat -> FSum (row_values (csr_at A) (csr_ncols A) i) (nth i y f0).
Proof.
  intros pw sch A HS OK AL. destruct (row_sums_csr_ok (n_zero _ (f64_laws pw)) sch A HS OK AL) as (y & E & L & H).
  exists y. split; auto. split; auto. apply row_FSum; auto.
Qed.
Print Assumptions C34_row_sums_csr.

Theorem C34_col_sums_csc : forall pw (A : Csc (f64 pw)), cs_ok A -> alloc_ok (length (dat A)) ->
  exists y, col_sums_csc A = Ok y /\ length y = csc_ncols A /\
    forall j, (j < csc_ncols A)%nat -> FSum (row_values (transposed (csc_at A)) (csc_nrows A) j) (nth j y f0).
Proof.
  intros pw A OK AL. destruct (col_sums_csc_ok (n_zero _ (f64_laws pw)) A OK AL) as (y & E & L & H).
  exists y. split; auto. split; auto. apply row_FSum; auto.
Qed.
Print Assumptions C34_col_sums_csc.

Theorem C34_col_sums_csr : forall pw nthreads dist il (A : Csr (f64 pw)), is_distribution dist -> is_interleaving il -> cs_ok A ->
  alloc_ok (length (dat A)) -> alloc_ok (csr_ncols A) ->
  exists y, col_sums_csr nthreads dist il A = Ok y /\ length y = csr_ncols A /\
    forall j, (j < csr_ncols A)%nat -> FSum (row_values (transposed (csr_at A)) (csr_nrows A) j) (nth j y f0).
Proof. intros pw. apply (col_sums_csr_ok (n_zero _ (f64_laws pw))). Qed.
Print Assumptions C34_col_sums_csr.

Theorem C34_row_sums_csc : forall pw dist (A : Csc (f64 pw)), is_distribution dist -> cs_ok A ->
  alloc_ok (length (dat A)) -> alloc_ok (csc_nrows A) ->
  exists y, row_sums_csc dist A = Ok y /\ length y = csc_nrows A /\
    forall i, (i < csc_nrows A)%nat -> FSum (row_values (csc_at A) (csc_ncols A) i) (nth i y f0).
Proof. intros pw. apply (row_sums_csc_ok (n_zero _ (f64_laws pw))). Qed.
Print Assumptions C34_row_sums_csc.

Theorem C34_row_sums_coo : forall pw nthreads dist (A : Coo (f64 pw)), is_distribution dist -> coo_ok A -> alloc_ok (coo_nrows A) ->
  exists y, row_sums_coo nthreads dist A = Ok y /\ length y = coo_nrows A /\
    forall i, (i < coo_nrows A)%nat -> FSum (row_values (coo_at A) (coo_ncols A) i) (nth i y f0).
Proof. intros pw. apply (row_sums_coo_ok (n_zero _ (f64_laws pw))). Qed.
Print Assumptions C34_row_sums_coo.

Theorem C34_col_sums_coo : forall pw nthreads dist il (A : Coo (f64 pw)), is_distribution dist -> is_interleaving il -> coo_ok A -> alloc_ok (coo_ncols A) ->
  exists y, col_sums_coo nthreads dist il A = Ok y /\ length y = coo_ncols A /\
    forall j, (j < coo_ncols A)%nat -> FSum (row_values (transposed (coo_at A)) (coo_nrows A) j) (nth j y f0).
Proof. intros pw. apply (col_sums_coo_ok (n_zero _ (f64_laws pw))). Qed.
Print Assumptions C34_col_sums_coo.

(** In exact arithmetic every element is the sum over the cells of its row or column. *)
Lemma exact_list : forall (g : nat -> qc) y n, length y = n -> (forall i, (i < n)%nat -> nth i y f0 = g i) -> y = map g (seq 0 n).
Proof.
  intros g y n L H. apply (nth_ext _ _ f0 f0); [rewrite map_length, seq_length; auto|]. intros i Hi. rewrite H by lia.
  rewrite (nth_indep _ f0 (g 0%nat)), map_nth, seq_nth by (rewrite ?map_length, ?seq_length; lia). auto.
Qed.

Corollary C34_sums_exact : forall sch nthreads dist il (A : Csr qc) (B : Csc qc) (C : Coo qc),
  is_schedule sch -> is_distribution dist -> is_interleaving il -> cs_ok A -> cs_ok B -> coo_ok C ->
  alloc_ok (length (dat A)) -> alloc_ok (csr_ncols A) -> alloc_ok (length (dat B)) -> alloc_ok (csc_nrows B) ->
  alloc_ok (coo_nrows C) -> alloc_ok (coo_ncols C) ->
  let row_sum cell n i := qsum (map (fun j => qsum (cell i j)) (seq 0 n)) in
  let col_sum cell m j := qsum (map (fun i => qsum (cell i j)) (seq 0 m)) in
  row_sums_csr sch A = Ok (map (row_sum (csr_at A) (csr_ncols A)) (seq 0 (csr_nrows A))) /\
  col_sums_csr nthreads dist il A = Ok (map (col_sum (csr_at A) (csr_nrows A)) (seq 0 (csr_ncols A))) /\
  row_sums_csc dist B = Ok (map (row_sum (csc_at B) (csc_ncols B)) (seq 0 (csc_nrows B))) /\
  col_sums_csc B = Ok (map (col_sum (csc_at B) (csc_nrows B)) (seq 0 (csc_ncols B))) /\
  row_sums_coo nthreads dist C = Ok (map (row_sum (coo_at C) (coo_ncols C)) (seq 0 (coo_nrows C))) /\
  col_sums_coo nthreads dist il C = Ok (map (col_sum (coo_at C) (coo_nrows C)) (seq 0 (coo_ncols C))).
Proof.
  intros sch nt dist il A B C HS HD HI OA OB OC A1 A2 A3 A4 A5 A6 row_sum col_sum.
  pose proof (n_zero _ qc_laws) as Z0.
  assert (G : forall (r : res (list qc)) cell n m, (exists y, r = Ok y /\ length y = m /\ forall i, (i < m)%nat -> FSum (row_values cell n i) (nth i y f0)) ->
    r = Ok (map (fun i => qsum (map (fun j => qsum (cell i j)) (seq 0 n))) (seq 0 m))).
  { intros r cell n m (y & -> & L & H). f_equal. apply exact_list; auto. intros i Hi. apply qsum_cells. apply H. auto. }
  split; [|split; [|split; [|split; [|split]]]].
  - apply G. destruct (row_sums_csr_ok Z0 sch A HS OA A1) as (y & E & L & H). exists y. split; auto. split; auto. apply row_FSum; auto.
  - apply (G _ (transposed (csr_at A))). apply col_sums_csr_ok; auto.
  - apply G. apply row_sums_csc_ok; auto.
  - apply (G _ (transposed (csc_at B))). destruct (col_sums_csc_ok Z0 B OB A3) as (y & E & L & H). exists y. split; auto. split; auto. apply row_FSum; auto.
  - apply G. apply row_sums_coo_ok; auto.
  - apply (G _ (transposed (coo_at C))). apply col_sums_coo_ok; auto.
Qed.
Print Assumptions C34_sums_exact.

Example C34_nonvacuous :
  row_sums_csr (F := qc) (fun l => rev l) (mkCs 2 3 [0; 2; 3] [0; 2; 2] [Q2Qc 5; Q2Qc 7; Q2Qc (-2)]) = Ok [Q2Qc 12; Q2Qc (-2)] /\
  row_sums_coo 2 two_threads SW = Ok [Q2Qc 3; Q2Qc 7] /\
  col_sums_coo 2 two_threads backward SW = Ok [Q2Qc 0; Q2Qc 7; Q2Qc 3] /\
  coo_ok SW /\ alloc_ok (coo_nrows SW) /\ alloc_ok (coo_ncols SW).
Proof. split; [reflexivity|]. split; [reflexivity|]. split; [reflexivity|]. split; [apply SW_ok|]. split; reflexivity. Qed.

(** ** C35: the mean of an N-D array *)
Theorem C35_mean : forall pw z t (A : Nd (f64 pw)), feqb z f0 = true -> nd_ok A -> shape_fits (nd_shape A) ->
  (cells (nd_shape A) = 0 -> mean_coond z t A = Ok f0) /\
  (0 < cells (nd_shape A) ->
     exists s, FSum (array_values A) s /\ mean_coond z t A = Ok (fdiv s (fofZ (cells (nd_shape A))))).
Proof.
  intros pw z t A HZ OK SF. unfold mean_coond. pose proof (product_checked_ok _ SF) as EP. pose proof (nd_ndim _ OK) as NE.
  destruct (nd_shape A) as [|d sh] eqn:ES; [congruence|]. rewrite EP. cbn [bind]. split.
  - intros E0. rewrite E0, f64_ofZ_0. auto.
  - intros PC. rewrite f64_ofZ_pos by auto.
    destruct (C33_sum_coond pw z t A HZ OK) as (v & E & H). exists v. rewrite E. cbn [bind]. auto.
Qed.
Print Assumptions C35_mean.

(** An array without axes has mean 0, whatever it stores. *)
Theorem C35_mean_no_axes : forall pw z t (A : Nd (f64 pw)), nd_shape A = [] -> mean_coond z t A = Ok f0.
Proof. intros pw z t A E. unfold mean_coond. rewrite E. auto. Qed.
Print Assumptions C35_mean_no_axes.

Theorem C35_mean_exact : forall t (A : Nd qc), nd_ok A -> shape_fits (nd_shape A) ->
  mean_coond f0 t A = Ok (qsum (map (fun k => qsum (nd_at A k)) (all_keys (nd_shape A))) / Q2Qc (inject_Z (cells (nd_shape A))))%Qc.
Proof.
  intros t A OK SF. unfold mean_coond. pose proof (product_checked_ok _ SF) as EP. pose proof (nd_ndim _ OK) as NE.
  destruct (nd_shape A) as [|d sh] eqn:ES; [congruence|]. rewrite EP. cbn [bind]. rewrite <- ES in *.
  destruct (C33_sum_exact t (mkCs 0 0 [0] [] []) (mkCs 0 0 [0] [] []) (mkCoo 0 0 [] [] []) A) as (_ & _ & _ & E); auto;
    try (apply cs_ok_literal; reflexivity); try (apply coo_ok_literal; reflexivity).
  rewrite E. cbn [bind]. destruct (feqb _ _) eqn:EB; auto. apply (e_eqb _ qc_elaws) in EB. cbn [fofZ f0 qc car] in EB. f_equal.
  match goal with |- _ = (?x / _)%Qc => pose proof (f_equal (fun y : Qc => (x / y)%Qc) EB) as ED; cbv beta in ED end.
  etransitivity; [|symmetry; exact ED]. unfold Qcdiv. replace (/ Q2Qc 0)%Qc with (Q2Qc 0) by (apply Qc_is_canon; reflexivity). symmetry. apply Qcmult_0_r.
Qed.
Print Assumptions C35_mean_exact.

Definition MW : Nd qc := mkNd [2; 3] [0; 1; 1; 2; 0; 1] [Q2Qc 4; Q2Qc 6; Q2Qc 2].
Example C35_nonvacuous : nd_ok MW /\ shape_fits (nd_shape MW) /\ mean_coond f0 (At 1 Whole Whole) MW = Ok (Q2Qc 2).
Proof.
  split; [|split; [|vm_compute; f_equal; apply Qc_is_canon; reflexivity]].
  - apply nd_ok_literal. vm_compute. auto.
  - split; [repeat constructor; lia|]. vm_compute. discriminate.
Qed.

(** ** C36: minima and maxima. [vmin], [smin] ([vmax], [smax]) are the vector and the
    scalar minimum (maximum), which may return either of two equal numbers. *)
Section MinMax.
Variable pw : spec_float -> spec_float -> spec_float.
Let Z0 := n_zero _ (f64_laws pw).
Let O := f64_olaws pw.

Lemma min_trans : forall x y a : f64 pw, fnan y = false -> fltb x y = false -> fltb y a = false -> fltb x a = false.
Proof. intros x y a N H1 H2. apply (o_trans _ O a y x); auto. Qed.
Lemma max_trans : forall x y a : f64 pw, fnan y = false -> fltb y x = false -> fltb a y = false -> fltb a x = false.
Proof. intros x y a N H1 H2. apply (o_trans _ O x y a); auto. Qed.

Lemma mins_all : forall vmin smin t m n (data cells : list (f64 pw)), is_min vmin -> is_min smin -> alloc_ok (length data) -> no_nan data ->
  (length data <= m * n)%nat -> Permutation cells (data ++ repeat f0 (m * n - length data)) ->
  exists v, best_all finf vmin smin lt_min t m n data = Ok v /\ least_or_0 cells v.
Proof.
  intros. apply (best_all_ok finf lt_min Z0 (o_nan_0 _ O) (o_nan_inf _ O)); auto.
  - apply (o_asym _ O).
  - apply min_trans.
  - apply (o_inf _ O).
  - apply (o_inf_unique _ O).
Qed.
Lemma maxs_all : forall vmax smax t m n (data cells : list (f64 pw)), is_max vmax -> is_max smax -> alloc_ok (length data) -> no_nan data ->
  (length data <= m * n)%nat -> Permutation cells (data ++ repeat f0 (m * n - length data)) ->
  exists v, best_all (fneg finf) vmax smax gt_max t m n data = Ok v /\ greatest_or_0 cells v.
Proof.
  intros. apply (best_all_ok (fneg finf) gt_max Z0 (o_nan_0 _ O) (o_nan_ninf _ O)); auto.
  - intros x y. apply (o_asym _ O).
  - apply max_trans.
  - intros x. apply (o_ninf _ O).
  - apply (o_ninf_unique _ O).
Qed.
Lemma mins_major : forall vmin smin (A : Cs (f64 pw)), is_min vmin -> is_min smin -> canonical A -> alloc_ok (length (dat A)) -> no_nan (dat A) ->
  exists y, major_bests finf vmin smin lt_min A = Ok y /\ length y = major A /\
    forall i, (i < major A)%nat -> least_or_0 (row_cells f0 (csr_at A) (minor A) i) (nth i y f0).
Proof.
  intros. apply (major_bests_ok finf lt_min Z0 (o_nan_0 _ O) (o_nan_inf _ O)); auto.
  - apply (o_asym _ O).
  - apply min_trans.
  - apply (o_inf _ O).
  - apply (o_inf_unique _ O).
Qed.
Lemma maxs_major : forall vmax smax (A : Cs (f64 pw)), is_max vmax -> is_max smax -> canonical A -> alloc_ok (length (dat A)) -> no_nan (dat A) ->
  exists y, major_bests (fneg finf) vmax smax gt_max A = Ok y /\ length y = major A /\
    forall i, (i < major A)%nat -> greatest_or_0 (row_cells f0 (csr_at A) (minor A) i) (nth i y f0).
Proof.
  intros. apply (major_bests_ok (fneg finf) gt_max Z0 (o_nan_0 _ O) (o_nan_ninf _ O)); auto.
  - intros x y. apply (o_asym _ O).
  - apply max_trans.
  - intros x. apply (o_ninf _ O).
  - apply (o_ninf_unique _ O).
Qed.
Lemma mins_coo : forall smin nthreads dist n width key (data : list (f64 pw)) cell, is_min smin -> is_distribution dist -> alloc_ok n ->
  length key = length data -> Forall (fun k => 0 <= k < Z.of_nat n) key -> no_nan data ->
  (forall i, (i < n)%nat -> Permutation (at_index (Z.of_nat i) (combine key data)) (row_values cell width i)) -> single_valued cell ->
  exists y, coo_bests smin lt_min nthreads dist n width key data = Ok y /\ length y = n /\
    forall i, (i < n)%nat -> least_or_0 (row_cells f0 cell width i) (nth i y f0).
Proof.
  intros. apply (coo_bests_ok finf lt_min Z0 (o_nan_0 _ O) (o_nan_inf _ O)); auto.
  - apply (o_asym _ O).
  - apply min_trans.
  - apply (o_inf _ O).
  - apply (o_inf_unique _ O).
Qed.
Lemma maxs_coo : forall smax nthreads dist n width key (data : list (f64 pw)) cell, is_max smax -> is_distribution dist -> alloc_ok n ->
  length key = length data -> Forall (fun k => 0 <= k < Z.of_nat n) key -> no_nan data ->
  (forall i, (i < n)%nat -> Permutation (at_index (Z.of_nat i) (combine key data)) (row_values cell width i)) -> single_valued cell ->
  exists y, coo_bests smax gt_max nthreads dist n width key data = Ok y /\ length y = n /\
    forall i, (i < n)%nat -> greatest_or_0 (row_cells f0 cell width i) (nth i y f0).
Proof.
  intros. apply (coo_bests_ok (fneg finf) gt_max Z0 (o_nan_0 _ O) (o_nan_ninf _ O)); auto.
  - intros x y. apply (o_asym _ O).
  - apply max_trans.
  - intros x. apply (o_ninf _ O).
  - apply (o_ninf_unique _ O).
Qed.
End MinMax.

(** The cells of a canonical matrix are its stored values and zeros. *)
Lemma csr_cells_perm : forall {F : Fl} (A : Csr F), canonical A ->
  (length (dat A) <= csr_nrows A * csr_ncols A)%nat /\
  Permutation (matrix_cells f0 (csr_at A) (csr_nrows A) (csr_ncols A)) (dat A ++ repeat f0 (csr_nrows A * csr_ncols A - length (dat A))).
Proof.
  intros F A C. apply matrix_cells_perm; [intros; apply canonical_single; auto|]. apply dat_values. apply (can_ok _ C).
Qed.
Lemma csc_cells_perm : forall {F : Fl} (A : Csc F), canonical A ->
  (length (dat A) <= csc_nrows A * csc_ncols A)%nat /\
  Permutation (matrix_cells f0 (csc_at A) (csc_nrows A) (csc_ncols A)) (dat A ++ repeat f0 (csc_nrows A * csc_ncols A - length (dat A))).
Proof.
  intros F A C. apply matrix_cells_perm; [intros; apply (canonical_single A C); auto|]. apply csc_dat_values. apply (can_ok _ C).
Qed.
Lemma coo_cells_perm : forall {F : Fl} (A : Coo F), coo_ok A -> single_valued (coo_at A) ->
  (length (coo_data A) <= coo_nrows A * coo_ncols A)%nat /\
  Permutation (matrix_cells f0 (coo_at A) (coo_nrows A) (coo_ncols A)) (coo_data A ++ repeat f0 (coo_nrows A * coo_ncols A - length (coo_data A))).
Proof. intros F A OK SV. apply matrix_cells_perm; [intros; apply SV|]. apply coo_dat_values. auto. Qed.

Theorem C36_min_max_csr : forall pw vmin smin vmax smax t (A : Csr (f64 pw)), is_min vmin -> is_min smin -> is_max vmax -> is_max smax ->
  canonical A -> no_nan (dat A) -> alloc_ok (length (dat A)) ->
  let cells := matrix_cells f0 (csr_at A) (csr_nrows A) (csr_ncols A) in
  (exists v, min_csr vmin smin t A = Ok v /\ least_or_0 cells v) /\ (exists v, max_csr vmax smax t A = Ok v /\ greatest_or_0 cells v).
Proof.
  intros pw vmin smin vmax smax t A H1 H2 H3 H4 C N AL cells. destruct (csr_cells_perm A C). split; [apply mins_all|apply maxs_all]; auto.
Qed.
Print Assumptions C36_min_max_csr.

Theorem C36_min_max_csc : forall pw vmin smin vmax smax t (A : Csc (f64 pw)), is_min vmin -> is_min smin -> is_max vmax -> is_max smax ->
  canonical A -> no_nan (dat A) -> alloc_ok (length (dat A)) ->
  let cells := matrix_cells f0 (csc_at A) (csc_nrows A) (csc_ncols A) in
  (exists v, min_csc vmin smin t A = Ok v /\ least_or_0 cells v) /\ (exists v, max_csc vmax smax t A = Ok v /\ greatest_or_0 cells v).
Proof.
  intros pw vmin smin vmax smax t A H1 H2 H3 H4 C N AL cells. destruct (csc_cells_perm A C). split; [apply mins_all|apply maxs_all]; auto.
Qed.
Print Assumptions C36_min_max_csc.

Theorem C36_min_max_coo : forall pw vmin smin vmax smax t (A : Coo (f64 pw)), is_min vmin -> is_min smin -> is_max vmax -> is_max smax ->
  coo_ok A -> single_valued (coo_at A) -> no_nan (coo_data A) -> alloc_ok (length (coo_data A)) ->
  let cells := matrix_cells f0 (coo_at A) (coo_nrows A) (coo_ncols A) in
  (exists v, min_coo vmin smin t A = Ok v /\ least_or_0 cells v) /\ (exists v, max_coo vmax smax t A = Ok v /\ greatest_or_0 cells v).
Proof.
  intros pw vmin smin vmax smax t A H1 H2 H3 H4 C SV N AL cells. destruct (coo_cells_perm A C SV). split; [apply mins_all|apply maxs_all]; auto.
Qed.
Print Assumptions C36_min_max_coo.

Theorem C36_rows_csr : forall pw vmin smin vmax smax (A : Csr (f64 pw)), is_min vmin -> is_min smin -> is_max vmax -> is_max smax ->
  canonical A -> no_nan (dat A) -> alloc_ok (length (dat A)) ->
  (exists y, row_mins_csr vmin smin A = Ok y /\ length y = csr_nrows A /\
     forall i, (i < csr_nrows A)%nat -> least_or_0 (row_cells f0 (csr_at A) (csr_ncols A) i) (nth i y f0)) /\
  (exists y, row_maxs_csr vmax smax A = Ok y /\ length y = csr_nrows A /\
     forall i, (i < csr_nrows A)%nat -> greatest_or_0 (row_cells f0 (csr_at A) (csr_ncols A) i) (nth i y f0)).
Proof. intros. split; [apply mins_major|apply maxs_major]; auto. Qed.
Print Assumptions C36_rows_csr.

Theorem C36_cols_csc : forall pw vmin smin vmax smax (A : Csc (f64 pw)), is_min vmin -> is_min smin -> is_max vmax -> is_max smax ->
  canonical A -> no_nan (dat A) -> alloc_ok (length (dat A)) ->
  (exists y, col_mins_csc vmin smin A = Ok y /\ length y = csc_ncols A /\
     forall j, (j < csc_ncols A)%nat -> least_or_0 (row_cells f0 (transposed (csc_at A)) (csc_nrows A) j) (nth j y f0)) /\
  (exists y, col_maxs_csc vmax smax A = Ok y /\ length y = csc_ncols A /\
     forall j, (j < csc_ncols A)%nat -> greatest_or_0 (row_cells f0 (transposed (csc_at A)) (csc_nrows A) j) (nth j y f0)).
Proof. intros. split; [apply mins_major|apply maxs_major]; auto. Qed.
Print Assumptions C36_cols_csc.

(** Reductions that transpose first. *)
Lemma through_transpose : forall {F : Fl} {B} (f : Cs F -> res (list B)) (d : B) (P : list F -> B -> Prop) threads il sch srt (A : Cs F),
  is_interleaving il -> is_schedule sch -> is_sorter key_le srt -> canonical A -> alloc_ok (major A) ->
  (forall T, canonical T -> Permutation (dat T) (dat A) ->
     exists y, f T = Ok y /\ length y = major T /\ forall i, (i < major T)%nat -> P (row_cells f0 (csr_at T) (minor T) i) (nth i y d)) ->
  exists y, after_transpose threads il sch srt f A = Ok y /\ length y = minor A /\
    forall j, (j < minor A)%nat -> P (row_cells f0 (transposed (csr_at A)) (major A) j) (nth j y d).
Proof.
  intros F B f d P threads il sch srt A HI HS HR C AL H.
  destruct (after_transpose_ok threads il sch srt f A HI HS HR C AL) as (T & E & CT & M1 & M2 & LD & PD & AT).
  destruct (H T CT PD) as (y & EY & LY & HY). exists y. rewrite E. split; auto. rewrite LY, M1. split; auto. intros j Hj.
  rewrite M1, M2 in HY. specialize (HY j Hj). rewrite (row_cells_ext f0 (csr_at T) (transposed (csr_at A))) in HY; auto.
  intros i Hi. apply AT; auto.
Qed.

Theorem C36_cols_csr : forall pw vmin smin vmax smax threads il sch srt (A : Csr (f64 pw)), is_min vmin -> is_min smin -> is_max vmax -> is_max smax ->
  is_interleaving il -> is_schedule sch -> is_sorter key_le srt ->
  canonical A -> no_nan (dat A) -> alloc_ok (length (dat A)) -> alloc_ok (csr_nrows A) ->
  (exists y, col_mins_csr vmin smin threads il sch srt A = Ok y /\ length y = csr_ncols A /\
     forall j, (j < csr_ncols A)%nat -> least_or_0 (row_cells f0 (transposed (csr_at A)) (csr_nrows A) j) (nth j y f0)) /\
  (exists y, col_maxs_csr vmax smax threads il sch srt A = Ok y /\ length y = csr_ncols A /\
     forall j, (j < csr_ncols A)%nat -> greatest_or_0 (row_cells f0 (transposed (csr_at A)) (csr_nrows A) j) (nth j y f0)).
Proof.
  intros pw vmin smin vmax smax threads il sch srt A H1 H2 H3 H4 HI HS HR C N AL AR. split; apply through_transpose; auto; intros T CT P;
    [apply mins_major|apply maxs_major]; auto; try (rewrite (Permutation_length P); auto); unfold no_nan in *; eapply Permutation_Forall; try apply Permutation_sym; eauto.
Qed.
Print Assumptions C36_cols_csr.

Theorem C36_rows_csc : forall pw vmin smin vmax smax threads il sch srt (A : Csc (f64 pw)), is_min vmin -> is_min smin -> is_max vmax -> is_max smax ->
  is_interleaving il -> is_schedule sch -> is_sorter key_le srt ->
  canonical A -> no_nan (dat A) -> alloc_ok (length (dat A)) -> alloc_ok (csc_ncols A) ->
  (exists y, row_mins_csc vmin smin threads il sch srt A = Ok y /\ length y = csc_nrows A /\
     forall i, (i < csc_nrows A)%nat -> least_or_0 (row_cells f0 (csc_at A) (csc_ncols A) i) (nth i y f0)) /\
  (exists y, row_maxs_csc vmax smax threads il sch srt A = Ok y /\ length y = csc_nrows A /\
     forall i, (i < csc_nrows A)%nat -> greatest_or_0 (row_cells f0 (csc_at A) (csc_ncols A) i) (nth i y f0)).
Proof.
  intros pw vmin smin vmax smax threads il sch srt A H1 H2 H3 H4 HI HS HR C N AL AR.
  exact (C36_cols_csr pw vmin smin vmax smax threads il sch srt A H1 H2 H3 H4 HI HS HR C N AL AR).
Qed.
Print Assumptions C36_rows_csc.

Theorem C36_rows_coo : forall pw smin smax nthreads dist (A : Coo (f64 pw)), is_min smin -> is_max smax -> is_distribution dist ->
  coo_ok A -> single_valued (coo_at A) -> no_nan (coo_data A) -> alloc_ok (coo_nrows A) ->
  (exists y, row_mins_coo smin nthreads dist A = Ok y /\ length y = coo_nrows A /\
     forall i, (i < coo_nrows A)%nat -> least_or_0 (row_cells f0 (coo_at A) (coo_ncols A) i) (nth i y f0)) /\
  (exists y, row_maxs_coo smax nthreads dist A = Ok y /\ length y = coo_nrows A /\
     forall i, (i < coo_nrows A)%nat -> greatest_or_0 (row_cells f0 (coo_at A) (coo_ncols A) i) (nth i y f0)).
Proof.
  intros pw smin smax nt dist A H1 H2 HD OK SV N AL. destruct (coo_rows_in (n_zero _ (f64_laws pw)) A OK) as [B1 _].
  assert (HL : length (coo_row A) = length (coo_data A)) by (destruct OK; auto).
  split; [apply mins_coo|apply maxs_coo]; auto; intros; apply coo_row_values; auto.
Qed.
Print Assumptions C36_rows_coo.

Theorem C36_cols_coo : forall pw smin smax nthreads dist (A : Coo (f64 pw)), is_min smin -> is_max smax -> is_distribution dist ->
  coo_ok A -> single_valued (coo_at A) -> no_nan (coo_data A) -> alloc_ok (coo_ncols A) ->
  (exists y, col_mins_coo smin nthreads dist A = Ok y /\ length y = coo_ncols A /\
     forall j, (j < coo_ncols A)%nat -> least_or_0 (row_cells f0 (transposed (coo_at A)) (coo_nrows A) j) (nth j y f0)) /\
  (exists y, col_maxs_coo smax nthreads dist A = Ok y /\ length y = coo_ncols A /\
     forall j, (j < coo_ncols A)%nat -> greatest_or_0 (row_cells f0 (transposed (coo_at A)) (coo_nrows A) j) (nth j y f0)).
Proof.
  intros pw smin smax nt dist A H1 H2 HD OK SV N AL. destruct (coo_rows_in (n_zero _ (f64_laws pw)) _ (PGroup.coo_swap_ok A OK)) as [B1 _].
  assert (HL : length (coo_col A) = length (coo_data A)) by (destruct OK; auto).
  split; [apply mins_coo|apply maxs_coo]; auto; try (intros; apply coo_col_values; auto); intros i j; apply SV.
Qed.
Print Assumptions C36_cols_coo.

(** NaN is dropped silently: the hypothesis [no_nan] cannot be removed. *)
Definition smin0 (x y : f64 pw0) : f64 pw0 := if fnan x then y else if fnan y then x else if fltb y x then y else x.
Definition smax0 (x y : f64 pw0) : f64 pw0 := if fnan x then y else if fnan y then x else if fltb x y then y else x.
Lemma smin0_min : is_min smin0.
Proof.
  intros x y NX NY. unfold smin0. rewrite NX, NY. destruct (fltb y x) eqn:E; split; auto; split; auto; try apply b_irrefl; auto using (o_asym _ (f64_olaws pw0)).
Qed.
Lemma smax0_max : is_max smax0.
Proof.
  intros x y NX NY. unfold smax0. rewrite NX, NY. destruct (fltb x y) eqn:E; split; auto; split; auto.
  - apply (o_asym _ (f64_olaws pw0)). auto.
  - apply (b_irrefl lt_min). apply (o_asym _ (f64_olaws pw0)).
  - apply (b_irrefl lt_min). apply (o_asym _ (f64_olaws pw0)).
Qed.

(** [[5 0] [-2 3]] *)
Definition BW : Cs (f64 pw0) := mkCs 2 2 [0; 1; 3] [0; 0; 1] [fz 5; fz (-2); fz 3].
Lemma BW_canonical : canonical BW.
Proof. apply canonical_literal; reflexivity. Qed.
Example C36_nonvacuous : canonical BW /\ no_nan (dat BW) /\ alloc_ok (length (dat BW)) /\ is_min smin0 /\ is_max smax0 /\
  min_csr smin0 smin0 (At 1 Whole Whole) BW = Ok (fz (-2)) /\ row_mins_csr smin0 smin0 BW = Ok [f0; fz (-2)] /\
  row_maxs_csr smax0 smax0 BW = Ok [fz 5; fz 3].
Proof.
  split; [apply BW_canonical|]. split; [repeat constructor|]. split; [reflexivity|]. split; [apply smin0_min|]. split; [apply smax0_max|].
  split; [reflexivity|]. split; reflexivity.
Qed.

(** ** C37: products *)
Lemma sat_min : forall m n, sat_mul (Z.of_nat m) (Z.of_nat n) = Z.min (Z.of_nat (length (grid m n))) usize_max.
Proof. intros. rewrite grid_length, Nat2Z.inj_mul. reflexivity. Qed.

Theorem C37_prod_csr : forall pw t (A : Csr (f64 pw)), canonical A -> alloc_ok (length (dat A)) ->
  exists v, prod_csr t A = Ok v /\ prod_spec (fun p => csr_at A (fst p) (snd p)) (grid (csr_nrows A) (csr_ncols A)) v.
Proof.
  intros pw t A C AL. apply (prod_all_ok (n_zero _ (f64_laws pw))); auto using sat_min.
  - intros [i j] I. apply in_grid in I. apply canonical_single; auto. cbn [fst]. unfold csr_nrows in I. tauto.
  - apply dat_values. apply (can_ok _ C).
Qed.
Print Assumptions C37_prod_csr.

Theorem C37_prod_csc : forall pw t (A : Csc (f64 pw)), canonical A -> alloc_ok (length (dat A)) ->
  exists v, prod_csc t A = Ok v /\ prod_spec (fun p => csc_at A (fst p) (snd p)) (grid (csc_nrows A) (csc_ncols A)) v.
Proof.
  intros pw t A C AL. apply (prod_all_ok (n_zero _ (f64_laws pw))); auto using sat_min.
  - intros [i j] I. apply in_grid in I. apply (canonical_single A C). cbn [snd]. unfold csc_ncols in I. tauto.
  - apply csc_dat_values. apply (can_ok _ C).
Qed.
Print Assumptions C37_prod_csc.

Theorem C37_prod_coo : forall pw t (A : Coo (f64 pw)), coo_ok A -> single_valued (coo_at A) -> alloc_ok (length (coo_data A)) ->
  exists v, prod_coo t A = Ok v /\ prod_spec (fun p => coo_at A (fst p) (snd p)) (grid (coo_nrows A) (coo_ncols A)) v.
Proof.
  intros pw t A C SV AL. apply (prod_all_ok (n_zero _ (f64_laws pw))); auto using sat_min. apply coo_dat_values. auto.
Qed.
Print Assumptions C37_prod_coo.

Lemma cells_le : forall sh, shape_fits sh -> 0 <= cells sh <= usize_max.
Proof. intros sh H. split; [apply cells_nonneg; apply H|apply shape_fits_cells; auto]. Qed.

Theorem C37_prod_coond : forall pw t (A : Nd (f64 pw)), nd_ok A -> single_valued_nd A -> shape_fits (nd_shape A) -> alloc_ok (length (nd_dat A)) ->
  exists v, prod_coond t A = Ok v /\ prod_spec (nd_at A) (all_keys (nd_shape A)) v.
Proof.
  intros pw t A C SV SF AL. unfold prod_coond. rewrite (product_checked_ok _ SF). cbn [bind]. apply (prod_all_ok (n_zero _ (f64_laws pw))); auto.
  - apply nd_dat_values. auto.
  - rewrite all_keys_length by apply SF. pose proof (cells_le _ SF). lia.
Qed.
Print Assumptions C37_prod_coond.

Theorem C37_rows_csr : forall pw (A : Csr (f64 pw)), canonical A -> alloc_ok (length (dat A)) ->
  exists y, row_prods_csr A = Ok y /\ length y = csr_nrows A /\
    forall i, (i < csr_nrows A)%nat -> prod_spec (csr_at A i) (seq 0 (csr_ncols A)) (nth i y f0).
Proof. intros pw. apply (major_prods_ok (n_zero _ (f64_laws pw))). Qed.
Print Assumptions C37_rows_csr.

Theorem C37_cols_csc : forall pw (A : Csc (f64 pw)), canonical A -> alloc_ok (length (dat A)) ->
  exists y, col_prods_csc A = Ok y /\ length y = csc_ncols A /\
    forall j, (j < csc_ncols A)%nat -> prod_spec (fun i => csc_at A i j) (seq 0 (csc_nrows A)) (nth j y f0).
Proof. intros pw. apply (major_prods_ok (n_zero _ (f64_laws pw))). Qed.
Print Assumptions C37_cols_csc.

Lemma prod_spec_ext : forall {F : Fl} {J} (c c' : J -> list F) js v, (forall j, In j js -> c j = c' j) -> prod_spec c js v -> prod_spec c' js v.
Proof.
  intros F J c c' js v H [H1 H2]. split; intros G.
  - replace (map (fun j => one_or f0 (c' j)) js) with (map (fun j => one_or f0 (c j)) js) by (apply map_ext_in; intros j I; rewrite H; auto).
    apply H1. rewrite Forall_forall in *. intros j I. rewrite H; auto.
  - apply H2. rewrite Exists_exists in *. destruct G as (j & I & E). exists j. rewrite H; auto.
Qed.

Theorem C37_cols_csr : forall pw threads il sch srt (A : Csr (f64 pw)), is_interleaving il -> is_schedule sch -> is_sorter key_le srt ->
  canonical A -> alloc_ok (length (dat A)) -> alloc_ok (csr_nrows A) ->
  exists y, col_prods_csr threads il sch srt A = Ok y /\ length y = csr_ncols A /\
    forall j, (j < csr_ncols A)%nat -> prod_spec (fun i => csr_at A i j) (seq 0 (csr_nrows A)) (nth j y f0).
Proof.
  intros pw threads il sch srt A HI HS HR C AL AR.
  destruct (after_transpose_ok threads il sch srt row_prods_csr A HI HS HR C AR) as (T & E & CT & M1 & M2 & LD & PD & AT).
  destruct (C37_rows_csr pw T CT) as (y & EY & LY & HY); [rewrite LD; auto|]. exists y. unfold col_prods_csr. rewrite E. split; auto.
  unfold csr_nrows, csr_ncols in *. rewrite M1, M2 in *. split; auto. intros j Hj. eapply prod_spec_ext; [|apply HY; auto]. intros i I. apply in_seq in I. apply AT; auto. lia.
Qed.
Print Assumptions C37_cols_csr.

Theorem C37_rows_csc : forall pw threads il sch srt (A : Csc (f64 pw)), is_interleaving il -> is_schedule sch -> is_sorter key_le srt ->
  canonical A -> alloc_ok (length (dat A)) -> alloc_ok (csc_ncols A) ->
  exists y, row_prods_csc threads il sch srt A = Ok y /\ length y = csc_nrows A /\
    forall i, (i < csc_nrows A)%nat -> prod_spec (csc_at A i) (seq 0 (csc_ncols A)) (nth i y f0).
Proof.
  intros pw threads il sch srt A HI HS HR C AL AR. exact (C37_cols_csr pw threads il sch srt A HI HS HR C AL AR).
Qed.
Print Assumptions C37_rows_csc.

Theorem C37_rows_coo : forall pw nthreads dist (A : Coo (f64 pw)), is_distribution dist ->
  coo_ok A -> single_valued (coo_at A) -> alloc_ok (coo_nrows A) ->
  exists y, row_prods_coo nthreads dist A = Ok y /\ length y = coo_nrows A /\
    forall i, (i < coo_nrows A)%nat -> prod_spec (coo_at A i) (seq 0 (coo_ncols A)) (nth i y f0).
Proof.
  intros pw nt dist A HD OK SV AL. destruct (coo_rows_in (n_zero _ (f64_laws pw)) A OK) as [B1 _].
  assert (HL : length (coo_row A) = length (coo_data A)) by (destruct OK; auto).
  apply (coo_prods_ok (n_zero _ (f64_laws pw)) nt dist _ _ _ _ (coo_at A)); auto. intros. apply coo_row_values; auto.
Qed.
Print Assumptions C37_rows_coo.

Theorem C37_cols_coo : forall pw nthreads dist (A : Coo (f64 pw)), is_distribution dist ->
  coo_ok A -> single_valued (coo_at A) -> alloc_ok (coo_ncols A) ->
  exists y, col_prods_coo nthreads dist A = Ok y /\ length y = coo_ncols A /\
    forall j, (j < coo_ncols A)%nat -> prod_spec (fun i => coo_at A i j) (seq 0 (coo_nrows A)) (nth j y f0).
Proof.
  intros pw nt dist A HD OK SV AL. destruct (coo_rows_in (n_zero _ (f64_laws pw)) _ (PGroup.coo_swap_ok A OK)) as [B1 _].
  assert (HL : length (coo_col A) = length (coo_data A)) by (destruct OK; auto).
  apply (coo_prods_ok (n_zero _ (f64_laws pw)) nt dist _ _ _ _ (transposed (coo_at A))); auto; [intros; apply coo_col_values; auto|]. intros i j. apply SV.
Qed.
Print Assumptions C37_cols_coo.

(** In exact arithmetic [prod_spec] determines the product of all cells. *)
Lemma qprod_zero : forall l, In (Q2Qc 0) l -> qprod l = Q2Qc 0.
Proof.
  induction l as [|x l IH]; intros I; [destruct I|]. unfold qprod in *. cbn [fold_right]. destruct I as [->|I]; [apply Qcmult_0_l|].
  rewrite IH by auto. apply Qcmult_0_r.
Qed.
Lemma prod_spec_exact : forall {J} (cell : J -> list qc) js v, prod_spec cell js v -> v = qprod (map (fun j => one_or f0 (cell j)) js).
Proof.
  intros J cell js v [H1 H2]. destruct (Exists_dec (fun j => cell j = []) js) as [E|E].
  - intros j. destruct (cell j); [left; auto|right; discriminate].
  - rewrite (H2 E). symmetry. apply qprod_zero. apply Exists_exists in E. destruct E as (j & I & E). apply in_map_iff. exists j. rewrite E. auto.
  - apply (FProd_exact qc_elaws). apply H1. apply Forall_Exists_neg in E. auto.
Qed.

Corollary C37_prod_exact : forall t (A : Csr qc) (B : Csc qc) (C : Coo qc), canonical A -> canonical B -> coo_ok C -> single_valued (coo_at C) ->
  alloc_ok (length (dat A)) -> alloc_ok (length (dat B)) -> alloc_ok (length (coo_data C)) ->
  prod_csr t A = Ok (qprod (matrix_cells f0 (csr_at A) (csr_nrows A) (csr_ncols A))) /\
  prod_csc t B = Ok (qprod (matrix_cells f0 (csc_at B) (csc_nrows B) (csc_ncols B))) /\
  prod_coo t C = Ok (qprod (matrix_cells f0 (coo_at C) (coo_nrows C) (coo_ncols C))).
Proof.
  intros t A B C HA HB HC SV A1 A2 A3.
  assert (G : forall cell m n data, Permutation data (matrix_values cell m n) -> (forall i j, (i < m)%nat -> (j < n)%nat -> (length (cell i j) <= 1)%nat) ->
    alloc_ok (length data) -> prod_all (F := qc) t (sat_mul (Z.of_nat m) (Z.of_nat n)) data = Ok (qprod (matrix_cells f0 cell m n))).
  { intros cell m n data P S1 AL. destruct (prod_all_ok (n_zero _ qc_laws) t (sat_mul (Z.of_nat m) (Z.of_nat n)) data (fun p => cell (fst p) (snd p)) (grid m n)) as (v & E & H); auto using sat_min.
    - intros [i j] I. apply in_grid in I. apply S1; tauto.
    - rewrite E. f_equal. apply prod_spec_exact in H. exact H. }
  split; [|split]; apply G; auto.
  - apply dat_values. apply (can_ok _ HA).
  - intros. apply canonical_single; auto.
  - apply csc_dat_values. apply (can_ok _ HB).
  - intros. apply (canonical_single B HB). auto.
  - apply coo_dat_values. auto.
Qed.
Print Assumptions C37_prod_exact.

Definition PW : Cs (f64 pw0) := mkCs 2 2 [0; 2; 3] [0; 1; 1] [fz 5; fz 2; fz 3].
Example C37_nonvacuous : canonical PW /\ alloc_ok (length (dat PW)) /\ row_prods_csr PW = Ok [fz 10; f0] /\ prod_csr Whole PW = Ok f0 /\
  prod_csr Whole (mkCs 1 2 [0; 2] [0; 1] [fz 5; fz (-2)]) = Ok (fz (-10)).
Proof. split; [apply canonical_literal; reflexivity|]. repeat (split; [reflexivity|]). reflexivity. Qed.

(** ** C38: variance and standard deviation, in exact arithmetic. [qvariance] ranges over
    all cells, implicit zeros included. *)
Lemma var_all_exact : forall t (data cells : list qc) c, (length data <= length cells)%nat ->
  Permutation cells (data ++ repeat f0 (length cells - length data)) ->
  var_all t (Z.of_nat (length cells)) data c = Ok (qvariance cells c).
Proof.
  intros t data cells c LE P. destruct (var_all_ok (n_zero _ qc_laws) t (Z.of_nat (length cells)) data c) as (s & H & E). rewrite E. f_equal.
  apply variance_exact. eapply Sums_zeros; eauto.
Qed.

Lemma matrix_cells_length : forall {V} (z : V) cell m n, length (matrix_cells z cell m n) = (m * n)%nat.
Proof. intros. unfold matrix_cells. rewrite map_length. apply grid_length. Qed.

Lemma sat_fits : forall m n, Z.of_nat (m * n) <= usize_max -> sat_mul (Z.of_nat m) (Z.of_nat n) = Z.of_nat (m * n).
Proof. intros m n H. unfold sat_mul. rewrite Nat2Z.inj_mul in *. lia. Qed.

Theorem C38_var_csr : forall t (A : Csr qc) c, canonical A -> Z.of_nat (csr_nrows A * csr_ncols A) <= usize_max ->
  var_csr t A c = Ok (qvariance (matrix_cells f0 (csr_at A) (csr_nrows A) (csr_ncols A)) c).
Proof.
  intros t A c C FU. unfold var_csr. rewrite sat_fits by auto. destruct (csr_cells_perm A C) as [LE P].
  rewrite <- (matrix_cells_length f0 (csr_at A)) in *. apply var_all_exact; auto.
Qed.
Print Assumptions C38_var_csr.

Theorem C38_var_csc : forall t (A : Csc qc) c, canonical A -> Z.of_nat (csc_nrows A * csc_ncols A) <= usize_max ->
  var_csc t A c = Ok (qvariance (matrix_cells f0 (csc_at A) (csc_nrows A) (csc_ncols A)) c).
Proof.
  intros t A c C FU. unfold var_csc. rewrite sat_fits by auto. destruct (csc_cells_perm A C) as [LE P].
  rewrite <- (matrix_cells_length f0 (csc_at A)) in *. apply var_all_exact; auto.
Qed.
Print Assumptions C38_var_csc.

Theorem C38_var_coo : forall t (A : Coo qc) c, coo_ok A -> single_valued (coo_at A) -> Z.of_nat (coo_nrows A * coo_ncols A) <= usize_max ->
  var_coo t A c = Ok (qvariance (matrix_cells f0 (coo_at A) (coo_nrows A) (coo_ncols A)) c).
Proof.
  intros t A c OK SV FU. unfold var_coo. rewrite sat_fits by auto. destruct (coo_cells_perm A OK SV) as [LE P].
  rewrite <- (matrix_cells_length f0 (coo_at A)) in *. apply var_all_exact; auto.
Qed.
Print Assumptions C38_var_coo.

Theorem C38_var_coond : forall t (A : Nd qc) c, nd_ok A -> single_valued_nd A -> shape_fits (nd_shape A) ->
  var_coond t A c = Ok (qvariance (array_cells f0 A) c).
Proof.
  intros t A c OK SV SF. unfold var_coond. pose proof (product_checked_ok _ SF) as EP. pose proof (nd_ndim _ OK) as NE.
  destruct (nd_shape A) as [|d sh] eqn:ES; [congruence|]. rewrite EP. cbn [bind]. rewrite <- ES in *. rewrite <- all_keys_length by apply SF.
  destruct (array_cells_perm f0 A OK SV) as [LE P].
  replace (length (all_keys (nd_shape A))) with (length (array_cells f0 A)) in * by apply map_length. apply var_all_exact; auto.
Qed.
Print Assumptions C38_var_coond.

Lemma major_vars_exact : forall c (A : Cs qc), canonical A -> alloc_ok (length (dat A)) ->
  exists y, major_vars c A = Ok y /\ length y = major A /\ forall i, (i < major A)%nat -> nth i y f0 = qvariance (row_cells f0 (csr_at A) (minor A) i) c.
Proof.
  intros c A C AL. destruct (major_vars_ok (n_zero _ qc_laws) c A (can_ok _ C) AL) as (y & E & L & H). exists y. split; auto. split; auto.
  intros i Hi. destruct (H i Hi) as (s & HS & ->).
  destruct (row_cells_perm f0 (csr_at A) (minor A) i (map snd (cs_row A i))) as [LE P]; [intros; apply canonical_single; auto|apply row_values_ok; auto; apply (can_ok _ C)|].
  replace (minor A) with (length (row_cells f0 (csr_at A) (minor A) i)) at 1 by (unfold row_cells; rewrite map_length, seq_length; auto).
  apply variance_exact. eapply Sums_zeros; eauto.
Qed.

Theorem C38_row_vars_csr : forall c (A : Csr qc), canonical A -> alloc_ok (length (dat A)) ->
  row_vars_csr c A = Ok (map (fun i => qvariance (row_cells f0 (csr_at A) (csr_ncols A) i) c) (seq 0 (csr_nrows A))).
Proof.
  intros c A C AL. destruct (major_vars_exact c A C AL) as (y & E & L & H). unfold row_vars_csr. rewrite E. f_equal. apply exact_list; auto.
Qed.
Print Assumptions C38_row_vars_csr.

Theorem C38_col_vars_csc : forall c (A : Csc qc), canonical A -> alloc_ok (length (dat A)) ->
  col_vars_csc c A = Ok (map (fun j => qvariance (row_cells f0 (transposed (csc_at A)) (csc_nrows A) j) c) (seq 0 (csc_ncols A))).
Proof. exact C38_row_vars_csr. Qed.
Print Assumptions C38_col_vars_csc.

Theorem C38_col_vars_csr : forall threads il sch srt c (A : Csr qc), is_interleaving il -> is_schedule sch -> is_sorter key_le srt ->
  canonical A -> alloc_ok (length (dat A)) -> alloc_ok (csr_nrows A) ->
  col_vars_csr threads il sch srt c A = Ok (map (fun j => qvariance (row_cells f0 (transposed (csr_at A)) (csr_nrows A) j) c) (seq 0 (csr_ncols A))).
Proof.
  intros threads il sch srt c A HI HS HR C AL AR.
  destruct (through_transpose (row_vars_csr c) f0 (fun l v => v = qvariance l c) threads il sch srt A HI HS HR C AR) as (y & E & L & H).
  - intros T CT P. apply major_vars_exact; auto. rewrite (Permutation_length P). auto.
  - unfold col_vars_csr. rewrite E. f_equal. apply exact_list; auto.
Qed.
Print Assumptions C38_col_vars_csr.

Theorem C38_row_vars_csc : forall threads il sch srt c (A : Csc qc), is_interleaving il -> is_schedule sch -> is_sorter key_le srt ->
  canonical A -> alloc_ok (length (dat A)) -> alloc_ok (csc_ncols A) ->
  row_vars_csc threads il sch srt c A = Ok (map (fun i => qvariance (row_cells f0 (csc_at A) (csc_ncols A) i) c) (seq 0 (csc_nrows A))).
Proof. exact C38_col_vars_csr. Qed.
Print Assumptions C38_row_vars_csc.

Lemma coo_vars_exact : forall nthreads dist n width key (data : list qc) c cell, is_distribution dist -> alloc_ok n ->
  length key = length data -> Forall (fun k => 0 <= k < Z.of_nat n) key ->
  (forall i, (i < n)%nat -> Permutation (at_index (Z.of_nat i) (combine key data)) (row_values cell width i)) -> single_valued cell ->
  coo_vars nthreads dist n width key data c = Ok (map (fun i => qvariance (row_cells f0 cell width i) c) (seq 0 n)).
Proof.
  intros nt dist n width key data c cell HD AN HL FK HP SV.
  destruct (coo_vars_ok (n_zero _ qc_laws) nt dist n width key data c HD AN HL FK) as (y & E & L & H). rewrite E. f_equal. apply exact_list; auto.
  intros i Hi. destruct (H i Hi) as [[-> ->]|(s & HS & ->)].
  - change (row_cells f0 cell 0 i) with (@nil Qc). unfold qvariance. destruct (Qclt_le_dec c _); [|reflexivity]. unfold Qcdiv. symmetry. apply Qcmult_0_l.
  - destruct (row_cells_perm f0 cell width i _ (fun j _ => SV i j) (HP i Hi)) as [LE P].
    replace width with (length (row_cells f0 cell width i)) at 1 by (unfold row_cells; rewrite map_length, seq_length; auto).
    apply variance_exact. eapply Sums_zeros; eauto.
Qed.

Theorem C38_vars_coo : forall nthreads dist c (A : Coo qc), is_distribution dist -> coo_ok A -> single_valued (coo_at A) ->
  (alloc_ok (coo_nrows A) ->
     row_vars_coo nthreads dist c A = Ok (map (fun i => qvariance (row_cells f0 (coo_at A) (coo_ncols A) i) c) (seq 0 (coo_nrows A)))) /\
  (alloc_ok (coo_ncols A) ->
     col_vars_coo nthreads dist c A = Ok (map (fun j => qvariance (row_cells f0 (transposed (coo_at A)) (coo_nrows A) j) c) (seq 0 (coo_ncols A)))).
Proof.
  intros nt dist c A HD OK SV. split; intros AL.
  - destruct (coo_rows_in (n_zero _ qc_laws) A OK) as [B1 _]. apply coo_vars_exact; auto; [destruct OK; auto|]. intros. apply coo_row_values; auto.
  - destruct (coo_rows_in (n_zero _ qc_laws) _ (PGroup.coo_swap_ok A OK)) as [B1 _]. apply coo_vars_exact; auto; [destruct OK; auto| |intros i j; apply SV].
    intros. apply coo_col_values; auto.
Qed.
Print Assumptions C38_vars_coo.

Lemma var_of_intro : forall pw values l s n (c : f64 pw), Permutation l values -> Sums l s -> var_of values n c (variance_from_sums s n c).
Proof.
  intros pw values l [s s2] n c P H. destruct (Sums_perm _ _ _ P H) as [H1 H2]. cbn [fst snd] in *. unfold variance_from_sums. cbn [fst snd]. split.
  - destruct (n =? 0); auto. destruct (fleb _ _); auto. destruct (fltb (fdiv _ _) f0) eqn:E; auto.
  - exists s, s2. split; auto. split; auto. unfold var_formula. split; [intros ->; auto|]. unfold fleb. split.
    + intros G. destruct (n =? 0); auto. destruct G as [-> | ->]; [|rewrite orb_true_r]; auto.
    + intros N E1 E2. apply Z.eqb_neq in N. rewrite N, E1, E2. auto.
Qed.

Theorem C38_var_ieee : forall pw t c (A : Csr (f64 pw)) (B : Csc (f64 pw)) (C : Coo (f64 pw)) (D : Nd (f64 pw)),
  cs_ok A -> cs_ok B -> coo_ok C -> nd_ok D -> shape_fits (nd_shape D) ->
  Z.of_nat (csr_nrows A * csr_ncols A) <= usize_max -> Z.of_nat (csc_nrows B * csc_ncols B) <= usize_max -> Z.of_nat (coo_nrows C * coo_ncols C) <= usize_max ->
  (exists v, var_csr t A c = Ok v /\ var_of (matrix_values (csr_at A) (csr_nrows A) (csr_ncols A)) (Z.of_nat (csr_nrows A * csr_ncols A)) c v) /\
  (exists v, var_csc t B c = Ok v /\ var_of (matrix_values (csc_at B) (csc_nrows B) (csc_ncols B)) (Z.of_nat (csc_nrows B * csc_ncols B)) c v) /\
  (exists v, var_coo t C c = Ok v /\ var_of (matrix_values (coo_at C) (coo_nrows C) (coo_ncols C)) (Z.of_nat (coo_nrows C * coo_ncols C)) c v) /\
  (exists v, var_coond t D c = Ok v /\ var_of (array_values D) (cells (nd_shape D)) c v).
Proof.
  intros pw t c A B C D OA OB OC OD SF FA FB FC. pose proof (n_zero _ (f64_laws pw)) as Z0.
  assert (G : forall n data values, Permutation data values -> exists v, var_all (F := f64 pw) t n data c = Ok v /\ var_of values n c v).
  { intros n data values P. destruct (var_all_ok Z0 t n data c) as (s & H & E). eexists. split; [exact E|]. eapply var_of_intro; eauto. }
  unfold var_csr, var_csc, var_coo, var_coond. rewrite !sat_fits by auto. split; [|split; [|split]].
  - apply G, dat_values. auto.
  - apply G, csc_dat_values. auto.
  - apply G, coo_dat_values. auto.
  - pose proof (product_checked_ok _ SF) as EP. pose proof (nd_ndim _ OD) as NE.
    destruct (nd_shape D) as [|d sh] eqn:ES; [congruence|]. rewrite EP. cbn [bind]. apply G, nd_dat_values. auto.
Qed.
Print Assumptions C38_var_ieee.

(** Row and column variances in IEEE arithmetic. *)
Theorem C38_vars_ieee : forall pw c nthreads dist (A : Csr (f64 pw)) (B : Csc (f64 pw)) (C : Coo (f64 pw)), is_distribution dist ->
  cs_ok A -> cs_ok B -> coo_ok C -> alloc_ok (length (dat A)) -> alloc_ok (length (dat B)) -> alloc_ok (coo_nrows C) -> alloc_ok (coo_ncols C) ->
  (exists y, row_vars_csr c A = Ok y /\ length y = csr_nrows A /\
     forall i, (i < csr_nrows A)%nat -> var_of (row_values (csr_at A) (csr_ncols A) i) (Z.of_nat (csr_ncols A)) c (nth i y f0)) /\
  (exists y, col_vars_csc c B = Ok y /\ length y = csc_ncols B /\
     forall j, (j < csc_ncols B)%nat -> var_of (row_values (transposed (csc_at B)) (csc_nrows B) j) (Z.of_nat (csc_nrows B)) c (nth j y f0)) /\
  (exists y, row_vars_coo nthreads dist c C = Ok y /\ length y = coo_nrows C /\
     forall i, (i < coo_nrows C)%nat -> coo_ncols C <> 0%nat -> var_of (row_values (coo_at C) (coo_ncols C) i) (Z.of_nat (coo_ncols C)) c (nth i y f0)) /\
  (exists y, col_vars_coo nthreads dist c C = Ok y /\ length y = coo_ncols C /\
     forall j, (j < coo_ncols C)%nat -> coo_nrows C <> 0%nat -> var_of (row_values (transposed (coo_at C)) (coo_nrows C) j) (Z.of_nat (coo_nrows C)) c (nth j y f0)).
Proof.
  intros pw c nt dist A B C HD OA OB OC A1 A2 A3 A4. pose proof (n_zero _ (f64_laws pw)) as Z0.
  assert (G : forall M : Cs (f64 pw), cs_ok M -> alloc_ok (length (dat M)) -> exists y, major_vars c M = Ok y /\ length y = major M /\
    forall i, (i < major M)%nat -> var_of (row_values (csr_at M) (minor M) i) (Z.of_nat (minor M)) c (nth i y f0)).
  { intros M OM AM. destruct (major_vars_ok Z0 c M OM AM) as (y & E & L & H). exists y. split; auto. split; auto. intros i Hi.
    destruct (H i Hi) as (s & HS & ->). eapply var_of_intro; [|exact HS]. apply row_values_ok; auto. }
  split; [apply G; auto|]. split; [apply G; auto|]. split.
  - destruct (coo_rows_in Z0 C OC) as [B1 _].
    destruct (coo_vars_ok Z0 nt dist (coo_nrows C) (coo_ncols C) (coo_row C) (coo_data C) c HD A3) as (y & E & L & H); auto; [destruct OC; auto|].
    exists y. split; auto. split; auto. intros i Hi NZ. destruct (H i Hi) as [[_ ?]|(s & HS & ->)]; [contradiction|].
    eapply var_of_intro; [|exact HS]. apply coo_row_values; auto.
  - destruct (coo_rows_in Z0 _ (PGroup.coo_swap_ok C OC)) as [B1 _].
    destruct (coo_vars_ok Z0 nt dist (coo_ncols C) (coo_nrows C) (coo_col C) (coo_data C) c HD A4) as (y & E & L & H); auto; [destruct OC; auto|].
    exists y. split; auto. split; auto. intros i Hi NZ. destruct (H i Hi) as [[_ ?]|(s & HS & ->)]; [contradiction|].
    eapply var_of_intro; [|exact HS]. apply coo_col_values; auto.
Qed.
Print Assumptions C38_vars_ieee.

(** Standard deviations are square roots of variances; a variance that is not NaN has a
    square root that is not NaN. *)
Theorem C38_std_csr : forall pw t c (A : Csr (f64 pw)), cs_ok A -> Z.of_nat (csr_nrows A * csr_ncols A) <= usize_max ->
  exists v, var_csr t A c = Ok v /\ std_of (var_csr t A c) = Ok (fsqrt v) /\ (fnan v = false -> fnan (fsqrt v) = false).
Proof.
  intros pw t c A OK FU. unfold var_csr. rewrite sat_fits by auto.
  destruct (var_all_ok (n_zero _ (f64_laws pw)) t (Z.of_nat (csr_nrows A * csr_ncols A)) (dat A) c) as (s & H & E).
  rewrite E. eexists. split; [reflexivity|]. split; [reflexivity|]. intros N. apply f64_sqrt_number; auto.
  destruct (var_of_intro pw (dat A) (dat A) s (Z.of_nat (csr_nrows A * csr_ncols A)) c (Permutation_refl _) H) as [G _]. auto.
Qed.
Print Assumptions C38_std_csr.

Theorem C38_row_stds_csr : forall pw c (A : Csr (f64 pw)), cs_ok A -> alloc_ok (length (dat A)) ->
  exists vs ss, row_vars_csr c A = Ok vs /\ stds_of (row_vars_csr c A) = Ok ss /\ length vs = csr_nrows A /\ length ss = csr_nrows A /\
    forall i, (i < csr_nrows A)%nat -> nth i ss f0 = fsqrt (nth i vs f0) /\ (fnan (nth i vs f0) = false -> fnan (nth i ss f0) = false).
Proof.
  intros pw c A OK AL. destruct (major_vars_ok (n_zero _ (f64_laws pw)) c A OK AL) as (y & E & L & H). exists y, (map fsqrt y).
  unfold row_vars_csr. rewrite E. split; [reflexivity|]. split; [reflexivity|]. rewrite map_length. split; auto. split; auto. intros i Hi.
  assert (EN : nth i (map fsqrt y) f0 = fsqrt (nth i y f0)).
  { rewrite (nth_indep _ f0 (fsqrt (f0 : f64 pw))), map_nth by (rewrite map_length; unfold csr_nrows in *; lia). auto. }
  rewrite EN. split; auto. intros N. apply f64_sqrt_number; auto. destruct (H i Hi) as (s & HS & ->).
  destruct (var_of_intro pw _ _ s (Z.of_nat (minor A)) c (Permutation_refl _) HS) as [G _]. auto.
Qed.
Print Assumptions C38_row_stds_csr.

Definition VW : Cs qc := mkCs 2 2 [0; 1; 3] [0; 0; 1] [Q2Qc 4; Q2Qc (-2); Q2Qc 2].
Example C38_nonvacuous : canonical VW /\ alloc_ok (length (dat VW)) /\
  row_vars_csr (F := qc) (Q2Qc 0) VW = Ok [Q2Qc 4; Q2Qc 4] /\ row_vars_csr (F := qc) (Q2Qc 1) VW = Ok [Q2Qc 8; Q2Qc 8] /\ row_vars_csr (F := qc) (Q2Qc 2) VW = Ok [Q2Qc 0; Q2Qc 0] /\
  var_csr (F := qc) Whole VW (Q2Qc 0) = Ok (Q2Qc 5).
Proof.
  assert (E : forall a b c d : Qc, (this a == this c)%Q -> (this b == this d)%Q -> Ok [a; b] = Ok [c; d]).
  { intros a b c d H1 H2. apply Qc_is_canon in H1. apply Qc_is_canon in H2. subst. auto. }
  split; [apply canonical_literal; reflexivity|]. split; [reflexivity|].
  split; [vm_compute; apply E; reflexivity|]. split; [vm_compute; apply E; reflexivity|]. split; [vm_compute; apply E; reflexivity|].
  vm_compute. f_equal. apply Qc_is_canon. reflexivity.
Qed.

(** ** C39: all and any *)
Theorem C39_csr : forall pw (A : Csr (f64 pw)), canonical A -> alloc_ok (length (dat A)) ->
  let cells := matrix_cells f0 (csr_at A) (csr_nrows A) (csr_ncols A) in
  all_csr A = forallb nonzero cells /\ any_csr A = existsb nonzero cells.
Proof.
  intros pw A C AL cells. destruct (csr_cells_perm A C) as [LE P]. fold cells in P. rewrite <- (matrix_cells_length f0 (csr_at A)) in *. fold cells in LE, P.
  apply (all_data_ok (n_zero _ (f64_laws pw))); auto. unfold cs_full. rewrite sat_min. unfold cells. rewrite matrix_cells_length, grid_length. auto.
Qed.
Print Assumptions C39_csr.

Theorem C39_csc : forall pw (A : Csc (f64 pw)), canonical A -> alloc_ok (length (dat A)) ->
  let cells := matrix_cells f0 (csc_at A) (csc_nrows A) (csc_ncols A) in
  all_csc A = forallb nonzero cells /\ any_csc A = existsb nonzero cells.
Proof.
  intros pw A C AL cells. destruct (csc_cells_perm A C) as [LE P]. fold cells in P. rewrite <- (matrix_cells_length f0 (csc_at A)) in *. fold cells in LE, P.
  apply (all_data_ok (n_zero _ (f64_laws pw))); auto. unfold cs_full. rewrite sat_min. unfold cells. rewrite matrix_cells_length, grid_length.
  unfold csc_nrows, csc_ncols. rewrite Nat.mul_comm. auto.
Qed.
Print Assumptions C39_csc.

Theorem C39_coond : forall pw (A : Nd (f64 pw)), nd_ok A -> single_valued_nd A -> shape_fits (nd_shape A) -> alloc_ok (length (nd_dat A)) ->
  all_coond A = Ok (forallb nonzero (array_cells f0 A)) /\ any_coond A = Ok (existsb nonzero (array_cells f0 A)).
Proof.
  intros pw A OK SV SF AL. unfold all_coond, any_coond. rewrite (product_checked_ok _ SF). cbn [bind].
  destruct (array_cells_perm f0 A OK SV) as [LE P].
  assert (EL : length (array_cells f0 A) = length (all_keys (nd_shape A))) by apply map_length. rewrite <- EL in LE, P.
  destruct (all_data_ok (n_zero _ (f64_laws pw)) (cells (nd_shape A)) (nd_dat A) (array_cells f0 A)) as [-> ->]; auto.
  rewrite EL, all_keys_length by apply SF. pose proof (cells_le _ SF). lia.
Qed.
Print Assumptions C39_coond.

(** Coordinate matrices are converted first, so duplicates are summed. *)
Theorem C39_coo : forall pw srt (A : Coo (f64 pw)), is_sorter key2_le srt -> coo_ok A -> alloc_ok (length (coo_data A)) ->
  exists cell : nat -> nat -> f64 pw,
    (forall i j, (i < coo_nrows A)%nat -> (j < coo_ncols A)%nat ->
       (coo_at A i j = [] -> cell i j = f0) /\ (coo_at A i j <> [] -> FSum (coo_at A i j) (cell i j))) /\
    all_coo srt A = Ok (forallb (fun p => nonzero (cell (fst p) (snd p))) (grid (coo_nrows A) (coo_ncols A))) /\
    any_coo srt A = Ok (existsb (fun p => nonzero (cell (fst p) (snd p))) (grid (coo_nrows A) (coo_ncols A))).
Proof.
  intros pw srt A HS OK AL. destruct (C07_coo_to_csr pw srt A HS OK) as (B & E & CB & M1 & M2 & AT).
  exists (fun i j => one_or f0 (csr_at B i j)). split.
  - intros i j Hi Hj. destruct (AT i j Hi Hj) as [H1 H2]. split; intros H; [rewrite H1; auto|]. destruct (H2 H) as (v & -> & HV). auto.
  - assert (AB : alloc_ok (length (dat B))).
    { unfold alloc_ok in *. eapply Z.le_lt_trans; [|exact AL]. apply inj_le.
      rewrite (Permutation_length (dat_values B (can_ok _ CB))), (Permutation_length (coo_dat_values A OK)). unfold csr_nrows, csr_ncols in *. rewrite M1, M2.
      unfold matrix_values. assert (IG : forall p, In p (grid (coo_nrows A) (coo_ncols A)) -> (fst p < coo_nrows A /\ snd p < coo_ncols A)%nat).
      { intros [i j] I. apply in_grid in I. auto. }
      induction (grid (coo_nrows A) (coo_ncols A)) as [|p l IH]; auto. cbn [flat_map]. rewrite !app_length.
      assert (length (csr_at B (fst p) (snd p)) <= length (coo_at A (fst p) (snd p)))%nat.
      { destruct (IG p (or_introl eq_refl)) as [I1 I2]. destruct (AT _ _ I1 I2) as [H1 H2]. destruct (coo_at A (fst p) (snd p)) as [|x xs].
        - rewrite H1; auto.
        - destruct H2 as (v & -> & _); [discriminate|]. cbn [length]. lia. }
      specialize (IH (fun q I => IG q (or_intror I))). lia. }
    unfold all_coo, any_coo. rewrite E. cbn [bind]. destruct (C39_csr pw B CB AB) as [-> ->]. unfold csr_nrows, csr_ncols in *. rewrite M1, M2.
    unfold matrix_cells. generalize (grid (coo_nrows A) (coo_ncols A)). intros l. split; f_equal; induction l as [|p l IH]; cbn [map forallb existsb]; auto; rewrite IH; auto.
Qed.
Print Assumptions C39_coo.

Theorem C39_rows_csr : forall pw (A : Csr (f64 pw)), canonical A -> alloc_ok (length (dat A)) ->
  row_alls_csr A = Ok (map (fun i => forallb nonzero (row_cells f0 (csr_at A) (csr_ncols A) i)) (seq 0 (csr_nrows A))) /\
  row_anys_csr A = Ok (map (fun i => existsb nonzero (row_cells f0 (csr_at A) (csr_ncols A) i)) (seq 0 (csr_nrows A))).
Proof. intros pw A C AL. apply (major_logic_ok (n_zero _ (f64_laws pw))); auto; [apply (can_ok _ C)|]. intros. apply canonical_single; auto. Qed.
Print Assumptions C39_rows_csr.

Theorem C39_cols_csc : forall pw (A : Csc (f64 pw)), canonical A -> alloc_ok (length (dat A)) ->
  col_alls_csc A = Ok (map (fun j => forallb nonzero (row_cells f0 (transposed (csc_at A)) (csc_nrows A) j)) (seq 0 (csc_ncols A))) /\
  col_anys_csc A = Ok (map (fun j => existsb nonzero (row_cells f0 (transposed (csc_at A)) (csc_nrows A) j)) (seq 0 (csc_ncols A))).
Proof. exact C39_rows_csr. Qed.
Print Assumptions C39_cols_csc.

Lemma map_seq_ext : forall {B} (f g : nat -> B) n, (forall i, (i < n)%nat -> f i = g i) -> map f (seq 0 n) = map g (seq 0 n).
Proof. intros. apply map_ext_in. intros i I. apply in_seq in I. apply H. lia. Qed.

Theorem C39_cols_csr : forall pw threads il sch srt (A : Csr (f64 pw)), is_interleaving il -> is_schedule sch -> is_sorter key_le srt ->
  canonical A -> alloc_ok (length (dat A)) -> alloc_ok (csr_nrows A) ->
  col_alls_csr threads il sch srt A = Ok (map (fun j => forallb nonzero (row_cells f0 (transposed (csr_at A)) (csr_nrows A) j)) (seq 0 (csr_ncols A))) /\
  col_anys_csr threads il sch srt A = Ok (map (fun j => existsb nonzero (row_cells f0 (transposed (csr_at A)) (csr_nrows A) j)) (seq 0 (csr_ncols A))).
Proof.
  intros pw threads il sch srt A HI HS HR C AL AR. split.
  - destruct (after_transpose_ok threads il sch srt row_alls_csr A HI HS HR C AR) as (T & E & CT & M1 & M2 & LD & PD & AT).
    unfold col_alls_csr. rewrite E. destruct (C39_rows_csr pw T CT) as [-> _]; [rewrite LD; auto|]. unfold csr_nrows, csr_ncols. rewrite M1, M2. f_equal.
    apply map_seq_ext. intros j Hj. f_equal. apply row_cells_ext. intros i Hi. apply AT; auto.
  - destruct (after_transpose_ok threads il sch srt row_anys_csr A HI HS HR C AR) as (T & E & CT & M1 & M2 & LD & PD & AT).
    unfold col_anys_csr. rewrite E. destruct (C39_rows_csr pw T CT) as [_ ->]; [rewrite LD; auto|]. unfold csr_nrows, csr_ncols. rewrite M1, M2. f_equal.
    apply map_seq_ext. intros j Hj. f_equal. apply row_cells_ext. intros i Hi. apply AT; auto.
Qed.
Print Assumptions C39_cols_csr.

(** Whatever order the parallel conversion leaves the entries in. *)
Theorem C39_rows_csc : forall pw il sch (A : Csc (f64 pw)), is_interleaving il -> is_schedule sch ->
  canonical A -> alloc_ok (length (dat A)) -> alloc_ok (csc_ncols A) ->
  row_alls_csc il sch A = Ok (map (fun i => forallb nonzero (row_cells f0 (csc_at A) (csc_ncols A) i)) (seq 0 (csc_nrows A))) /\
  row_anys_csc il sch A = Ok (map (fun i => existsb nonzero (row_cells f0 (csc_at A) (csc_ncols A) i)) (seq 0 (csc_nrows A))).
Proof.
  intros pw il sch A HI HS C AL AC. destruct (C04_csc_to_csr_preserves_cells _ il sch A HI HS (can_ok _ C) AC) as (B & E & OB & M1 & M2 & LD & AT).
  unfold row_alls_csc, row_anys_csc. rewrite E. cbn [bind].
  destruct (major_logic_ok (n_zero _ (f64_laws pw)) B OB) as [H1 H2].
  - intros i j Hi. destruct (lt_dec j (minor B)) as [Hj|Hj].
    + unfold csr_nrows, csr_ncols in *. rewrite AT by lia. apply (canonical_single A C). unfold csc_ncols in *. lia.
    + unfold csr_at, cs_at, at_index. pose proof (row_bounds B i OB Hi) as RB. unfold in_bounds in RB.
      induction (cs_row B i) as [|e l IH]; [simpl; lia|]. inv RB. cbn [filter]. destruct (Z.eqb_spec (fst e) (Z.of_nat j)); [lia|auto].
  - rewrite LD. auto.
  - unfold row_alls_csr, row_anys_csr. rewrite H1, H2. unfold csr_nrows, csr_ncols in *. rewrite M1, M2.
    split; f_equal; apply map_seq_ext; intros i Hi; f_equal; apply row_cells_ext; intros j Hj; apply AT; auto.
Qed.
Print Assumptions C39_rows_csc.

Example C39_nonvacuous : canonical BW /\ alloc_ok (length (dat BW)) /\ all_csr BW = false /\ any_csr BW = true /\
  row_alls_csr BW = Ok [false; true] /\ row_anys_csr BW = Ok [true; true] /\ all_csr (mkCs 1 2 [0; 2] [0; 1] [fz 3; fz 4]) = true.
Proof. split; [apply BW_canonical|]. repeat (split; [reflexivity|]). reflexivity. Qed.
