(** Memory safety of the products with dense operands, the sums and the Python-level
    wrappers, for every structurally valid operand within the size limits. *)
Require Import List ZArith Bool Arith Lia Permutation Sorted.
Require Import ZifyBool ZifyNat.
Require Import Verif.Res Verif.Values Verif.Spec Verif.Mem Verif.Lists Verif.CsLib Verif.Laws Verif.NdLib Verif.SpecPy Verif.MCore Verif.MConvert Verif.PConvert Verif.PConvert2 Verif.PConvert3 Verif.PTrans Verif.MScalar Verif.PScalar.
Require Import Verif.MAcc Verif.MLinalg Verif.MReduce Verif.MStat Verif.MNd Verif.PNd Verif.PropConvert Verif.PropLinalg Verif.PStat Verif.PStat2 Verif.PStat3 Verif.MPy Verif.MObj Verif.PSafe Verif.PSafe2 Verif.PSafe3.
Import ListNotations.
Local Open Scope Z_scope.

(** ** Dense arrays *)
Definition count (sh : list nat) : nat := fold_right Nat.mul 1%nat sh.
Lemma count_cells : forall sh, Z.of_nat (count sh) = cells (map Z.of_nat sh).
Proof. unfold count, cells. induction sh; cbn [map fold_right]; [lia|]. rewrite Nat2Z.inj_mul. congruence. Qed.
Lemma nonneg_of_nat : forall sh, Forall (fun n => 0 <= n) (map Z.of_nat sh).
Proof. intros. apply Forall_map. apply Forall_forall. intros; lia. Qed.
Lemma count_app : forall a b, count (a ++ b) = (count a * count b)%nat.
Proof. unfold count. induction a; intros; cbn [app fold_right]; [lia|]. rewrite IHa. lia. Qed.
Lemma count_le : forall sh, Z.of_nat (count sh) <= shape_cells (map Z.of_nat sh).
Proof. intros. rewrite count_cells. apply cells_shape_cells. apply nonneg_of_nat. Qed.

Definition sized {A} (r : list nat * list A) : Prop := length (snd r) = count (fst r).

Lemma reshape_to_safe : forall {A} sh (l : list A), safe (fun r => fst r = sh /\ snd r = l /\ sized r) (reshape_to sh l).
Proof. intros. unfold reshape_to. destruct (Nat.eqb_spec (length l) (fold_right Nat.mul 1%nat sh)); simpl; auto. Qed.

Lemma reduce_2d_safe : forall {A} (all : res A) ax0 ax1 nr nc axis kd, fine all -> fine ax0 -> fine ax1 ->
  safe sized (reduce_2d all ax0 ax1 nr nc axis kd).
Proof.
  intros A all ax0 ax1 nr nc axis kd H H0 H1. unfold reduce_2d.
  assert (W : safe sized (let! s := all in Ok (if kd then ([1; 1]%nat, [s]) else ([], [s])))).
  { eapply safe_bind; [exact H|]. intros s _. destruct kd; reflexivity. }
  assert (V : forall sh r, fine r -> safe sized (let! v := r in if kd then reshape_to sh v else Ok ([length v], v : list A))).
  { intros sh r HR. eapply safe_bind; [exact HR|]. intros v _. destruct kd; [|simpl; unfold sized, count; simpl; lia].
    eapply safe_imp; [apply reshape_to_safe|]. intros a (_ & _ & S). exact S. }
  eapply safe_bind; [apply fine_norm|]. intros [axes|] _; [|exact W].
  destruct axes as [|[|[|a]] [|[|[|b]] [|c l]]]; try exact I; auto.
Qed.

Section Dense.
Context {F : Fl}.
Hypothesis NL : NLaws F.
Lemma zero_eq : feqb (f0 : F) f0 = true.
Proof. exact (n_zero _ NL). Qed.

(** ** Matrix times vector or matrix *)
Lemma spmv_csr_safe : forall sch (A : Csr F) x, is_schedule sch -> cs_ok A -> alloc_ok (length (dat A)) -> alloc_ok (csr_ncols A) ->
  safe (fun y => length y = csr_nrows A) (spmv_csr sch A x).
Proof.
  intros sch A x HS OK A1 A2. destruct (Nat.eq_dec (length x) (csr_ncols A)) as [E|E].
  - destruct (C27_spmv_csr F sch A x NL HS OK A1 A2 E) as (y & -> & L & _). exact L.
  - rewrite C27_length_mismatch_panics by auto. exact I.
Qed.
Lemma spmv_csc_safe : forall nt dist (A : Csc F) x, is_distribution dist -> cs_ok A -> alloc_ok (length (dat A)) -> alloc_ok (csc_nrows A) ->
  safe (fun y => length y = csc_nrows A) (spmv_csc nt dist A x).
Proof.
  intros nt dist A x HS OK A1 A2. destruct (Nat.eq_dec (length x) (csc_ncols A)) as [E|E].
  - destruct (C28_spmv_csc F nt dist A x NL HS OK A1 A2 E) as (y & -> & L & _). exact L.
  - rewrite (proj1 (C28_length_mismatch_panics F nt dist x)) by auto. exact I.
Qed.
Lemma spmv_coo_safe : forall nt dist (A : Coo F) x, is_distribution dist -> coo_ok A -> alloc_ok (coo_nrows A) ->
  safe (fun y => length y = coo_nrows A) (spmv_coo nt dist A x).
Proof.
  intros nt dist A x HS OK A1. destruct (Nat.eq_dec (length x) (coo_ncols A)) as [E|E].
  - destruct (C28_spmv_coo F nt dist A x NL HS OK A1 E) as (y & -> & L & _). exact L.
  - rewrite (proj2 (C28_length_mismatch_panics F nt dist x)) by auto. exact I.
Qed.

Lemma spmm_csr_safe : forall (A : Csr F) b k, cs_ok A -> alloc_ok (length (dat A)) -> alloc_ok (csr_nrows A) -> alloc_ok (csr_ncols A) ->
  alloc_ok (csr_ncols A * k) -> alloc_ok (csr_nrows A * k) -> safe (fun y => length y = (csr_nrows A * k)%nat) (spmm_csr A b k).
Proof.
  intros A b k OK A0 A1 A2 A3 A4. destruct (Nat.eq_dec (length b) (csr_ncols A * k)) as [E|E].
  - destruct (Nat.eq_dec k 0) as [->|K].
    + rewrite Nat.mul_0_r in E. destruct b; [|discriminate]. rewrite (proj1 (C31_csr_zero_columns_refuted F A)). exact I.
    + destruct (C30_spmm_csr F A b k NL OK A0) as (y & -> & L & _); [|lia|exact L]. unfold dense_ok. auto.
  - destruct (C30_spmm_size_mismatch_panics F b k) as [H _]. destruct (H A A3 E) as [-> _]. exact I.
Qed.
Lemma spmm_csc_safe : forall il (A : Csc F) b k, is_interleaving il -> cs_ok A -> alloc_ok (length (dat A)) -> alloc_ok (csc_nrows A) -> alloc_ok (csc_ncols A) ->
  alloc_ok (csc_ncols A * k) -> alloc_ok (csc_nrows A * k) -> safe (fun y => length y = (csc_nrows A * k)%nat) (spmm_csc il A b k).
Proof.
  intros il A b k HI OK A0 A1 A2 A3 A4. destruct (Nat.eq_dec (length b) (csc_ncols A * k)) as [E|E].
  - destruct (C30_spmm_csc F A b k NL OK A0) as (y & H & L & _); [unfold dense_ok; auto|]. rewrite H by auto. exact L.
  - destruct (C30_spmm_size_mismatch_panics F b k) as [_ [H _]]. rewrite H by auto. exact I.
Qed.
Lemma spmm_coo_safe : forall il (A : Coo F) b k, is_interleaving il -> coo_ok A -> alloc_ok (coo_nrows A) -> alloc_ok (coo_ncols A) ->
  alloc_ok (coo_ncols A * k) -> alloc_ok (coo_nrows A * k) -> safe (fun y => length y = (coo_nrows A * k)%nat) (spmm_coo il A b k).
Proof.
  intros il A b k HI OK A1 A2 A3 A4. destruct (Nat.eq_dec (length b) (coo_ncols A * k)) as [E|E].
  - destruct (C30_spmm_coo F A b k NL OK) as (y & H & L & _); [unfold dense_ok; auto|]. rewrite H by auto. exact L.
  - destruct (C30_spmm_size_mismatch_panics F b k) as [_ [_ H]]. rewrite H by auto. exact I.
Qed.

Definition mm_safe (m k : nat) (mm : list F -> nat -> res (list F)) : Prop :=
  forall b n, alloc_ok (k * n) -> alloc_ok (m * n) -> safe (fun y => length y = (m * n)%nat) (mm b n).

Lemma swap01_safe : forall d0 d1 d2 (l : list F), safe (fun y => length y = (d1 * d0 * d2)%nat) (swap01 d0 d1 d2 l).
Proof.
  intros. unfold swap01. eapply safe_imp; [apply safe_mapM_len; intros; apply fine_get|]. intros y L. rewrite seq_length in L. exact L.
Qed.

Lemma matmul_safe : forall mv mm m k sh (y : list F), (forall v, safe (fun o => length o = m) (mv v)) -> mm_safe m k mm ->
  Z.max 1 (Z.of_nat m) * shape_cells (map Z.of_nat sh) < i64_max -> safe sized (py_matmul mv mm m k sh y).
Proof.
  intros mv mm m k sh y HV HM DM. unfold py_matmul. rewrite <- (rev_involutive sh) in DM.
  destruct (rev sh) as [|n [|k' rb]] eqn:ER; [exact I| |].
  - apply safe_assert. intros _. eapply safe_bind; [apply HV|]. intros o L. cbv beta in L. unfold safe, sized, count. simpl. lia.
  - assert (AL : (k' =? k)%nat = true -> alloc_ok (k * (count (rev rb) * n)) /\ alloc_ok (m * (count (rev rb) * n))).
    { intros EK. apply Nat.eqb_eq in EK. subst k'. cbn [rev] in DM. rewrite <- app_assoc in DM. cbn [app] in DM.
      assert (P := count_le (rev rb ++ [k; n])). rewrite count_app in P. assert (ES := shape_cells_app (map Z.of_nat (rev rb)) (map Z.of_nat [k; n])).
      rewrite <- map_app in ES. rewrite ES in P, DM.
      replace (shape_cells (map Z.of_nat [k; n])) with (Z.max 1 (Z.of_nat k) * Z.max 1 (Z.of_nat n)) in P, DM by (unfold shape_cells, cells; cbn [map fold_right]; lia).
      assert (P2 := count_le (rev rb)). replace (count [k; n]) with (k * n)%nat in P by (unfold count; cbn [fold_right]; lia).
      assert (P3 := shape_cells_pos (map Z.of_nat (rev rb))). clear - P P2 P3 DM. unfold alloc_ok.
      set (c := count (rev rb)) in *. set (q := shape_cells (map Z.of_nat (rev rb))) in *. rewrite !Nat2Z.inj_mul in *. 
      assert (M1 : 1 <= Z.max 1 (Z.of_nat m)) by lia. assert (K1 : 1 <= Z.max 1 (Z.of_nat k)) by lia. assert (N1 : 1 <= Z.max 1 (Z.of_nat n)) by lia.
      assert (M2 : Z.of_nat m <= Z.max 1 (Z.of_nat m)) by lia. assert (N2 : Z.of_nat n <= Z.max 1 (Z.of_nat n)) by lia.
      set (m1 := Z.max 1 (Z.of_nat m)) in *. set (k1 := Z.max 1 (Z.of_nat k)) in *. set (n1 := Z.max 1 (Z.of_nat n)) in *.
      assert (0 <= Z.of_nat m) by lia. assert (0 <= Z.of_nat n) by lia. assert (0 <= Z.of_nat c) by lia.
      set (mz := Z.of_nat m) in *. set (nz := Z.of_nat n) in *. set (cz := Z.of_nat c) in *. set (kz := Z.of_nat k) in *. clearbody m1 k1 n1 mz nz cz kz q.
      split.
      - replace (kz * (cz * nz)) with (cz * (kz * nz)) by ring. assert (q * (k1 * n1) <= m1 * (q * (k1 * n1))) by nia. lia.
      - assert (H2 : cz * nz <= q * n1) by (apply Z.mul_le_mono_nonneg; lia).
        assert (H3 : mz * (cz * nz) <= m1 * (q * n1)) by (apply Z.mul_le_mono_nonneg; auto; nia).
        assert (H4 : m1 * (q * n1) <= m1 * (q * (k1 * n1))) by (apply Z.mul_le_mono_nonneg_l; [lia|]; apply Z.mul_le_mono_nonneg_l; nia).
        lia. }
    destruct rb as [|b rb].
    + apply safe_assert. intros EK. destruct (AL EK) as [A1 A2]. cbn [rev count fold_right] in A1, A2. rewrite Nat.mul_1_l in A1, A2.
      eapply safe_bind; [apply HM; auto|]. intros o L. cbv beta in L. unfold safe, sized, count. simpl. lia.
    + apply safe_assert. intros EK. destruct (AL EK) as [A1 A2]. set (bt := rev (b :: rb)) in *.
      fold (count bt). eapply safe_bind; [apply swap01_safe|]. intros y2 _. eapply safe_bind; [apply HM; auto|]. intros o _.
      eapply safe_bind; [apply swap01_safe|]. intros y3 L. cbv beta in L. unfold safe, sized. cbn [fst snd]. rewrite count_app, L. unfold count at 3. cbn [fold_right]. lia.
Qed.

(** ** Tensor products *)
Lemma tensordot_mm_safe : forall ncols m mm (b : list F) sh, mm_safe m ncols mm ->
  Z.max 1 (Z.of_nat m) * shape_cells (map Z.of_nat sh) < i64_max -> fine (tensordot_with ncols mm b (map Z.of_nat sh)).
Proof.
  intros ncols m mm b sh HM DM. unfold tensordot_with. destruct sh as [|n0 rest]; [exact I|]. cbn [map].
  eapply safe_bind; [apply fine_product|]. intros n _. apply safe_assert. intros _. apply safe_assert. intros EN. apply Z.eqb_eq in EN.
  apply safe_bind_ok; [apply fine_product|]. intros k EK. 
  destruct (PropNd.C20_product_exact_or_panic (map Z.of_nat rest) (nonneg_of_nat rest)) as [[E _]|E]; rewrite E in EK; [|discriminate].
  inv EK. assert (n0 = ncols) by lia. subst n0.
  rewrite <- count_cells, Nat2Z.id. eapply safe_any. apply HM; unfold alloc_ok; rewrite Nat2Z.inj_mul.
  - assert (P := count_le (ncols :: rest)). unfold count in P. cbn [fold_right] in P. fold (count rest) in P. rewrite Nat2Z.inj_mul in P.
    assert (P2 := shape_cells_pos (map Z.of_nat (ncols :: rest))). set (q := shape_cells _) in *. assert (1 <= Z.max 1 (Z.of_nat m)) by lia. clear - DM P P2 H. nia.
  - assert (P := count_le rest). cbn [map] in DM. replace (shape_cells (Z.of_nat ncols :: map Z.of_nat rest)) with (Z.max 1 (Z.of_nat ncols) * shape_cells (map Z.of_nat rest)) in DM by reflexivity.
    assert (P2 := shape_cells_pos (map Z.of_nat rest)). set (q := shape_cells _) in *. assert (H1 : 1 <= Z.max 1 (Z.of_nat ncols)) by lia.
    assert (H2 : Z.of_nat m <= Z.max 1 (Z.of_nat m)) by lia. assert (H3 : 0 <= Z.of_nat m) by lia. assert (H4 : 0 <= Z.of_nat (count rest)) by lia. clear - DM P P2 H1 H2 H3 H4.
    set (m1 := Z.max 1 (Z.of_nat m)) in *. set (n1 := Z.max 1 (Z.of_nat ncols)) in *. set (mz := Z.of_nat m) in *. set (cz := Z.of_nat (count rest)) in *. clearbody m1 n1 mz cz q.
    assert (mz * cz <= m1 * q) by (apply Z.mul_le_mono_nonneg; lia). assert (m1 * q <= m1 * (n1 * q)) by (apply Z.mul_le_mono_nonneg_l; nia). lia.
Qed.

(** ** Vector dot along axis 0 *)
Lemma vecdot_csr_safe : forall dist (A : Csr F) x, is_distribution dist -> cs_ok A -> alloc_ok (length (dat A)) -> alloc_ok (csr_ncols A) ->
  fine (vecdot_csr_axis0 dist A x).
Proof.
  intros dist A x HS OK A1 A2. destruct (Nat.eq_dec (length x) (csr_nrows A)) as [E|E].
  - destruct (C32_vecdot_csr_axis0 F dist A x NL HS OK A1 A2 E) as (y & -> & _). exact I.
  - destruct (C32_vecdot_length_mismatch_panics F 0 dist x) as [H _]. rewrite H by auto. exact I.
Qed.
Lemma vecdot_csc_safe : forall (A : Csc F) x, cs_ok A -> alloc_ok (length (dat A)) -> alloc_ok (csc_nrows A) ->
  fine (vecdot_csc_axis0 A x).
Proof.
  intros A x OK A1 A2. destruct (Nat.eq_dec (length x) (csc_nrows A)) as [E|E].
  - destruct (C32_vecdot_csc_axis0 F A x NL OK A1 A2 E) as (y & -> & _). exact I.
  - destruct (C32_vecdot_length_mismatch_panics F 0 (fun l => [l]) x) as [_ [H _]]. rewrite H by auto. exact I.
Qed.
Lemma vecdot_coo_safe : forall nt dist (A : Coo F) x, is_distribution dist -> coo_ok A -> alloc_ok (coo_ncols A) ->
  fine (vecdot_coo_axis0 nt dist A x).
Proof.
  intros nt dist A x HS OK A1. destruct (Nat.eq_dec (length x) (coo_nrows A)) as [E|E].
  - destruct (C32_vecdot_coo_axis0 F nt dist A x NL HS OK A1 E) as (y & -> & _). exact I.
  - destruct (C32_vecdot_length_mismatch_panics F nt dist x) as [_ [_ H]]. rewrite H by auto. exact I.
Qed.

(** ** Sums *)
Lemma fine_rayon_sum : forall z t (l : list F), feqb z f0 = true -> fine (rayon_sum z t l).
Proof. intros z t l HZ. destruct (rayon_sum_ok zero_eq z t l HZ) as (v & -> & _). exact I. Qed.
Lemma row_sums_csr_safe : forall sch (A : Csr F), is_schedule sch -> cs_ok A -> alloc_ok (length (dat A)) -> fine (row_sums_csr sch A).
Proof. intros sch A HS OK AL. destruct (row_sums_csr_ok zero_eq sch A HS OK AL) as (y & -> & _). exact I. Qed.
Lemma col_sums_csc_safe : forall (A : Csc F), cs_ok A -> alloc_ok (length (dat A)) -> fine (col_sums_csc A).
Proof. intros A OK AL. destruct (col_sums_csc_ok zero_eq A OK AL) as (y & -> & _). exact I. Qed.
Lemma col_sums_csr_safe : forall nt dist il (A : Csr F), is_distribution dist -> is_interleaving il -> cs_ok A ->
  alloc_ok (length (dat A)) -> alloc_ok (csr_ncols A) -> fine (col_sums_csr nt dist il A).
Proof. intros. destruct (col_sums_csr_ok zero_eq nt dist il A) as (y & -> & _); auto. exact I. Qed.
Lemma row_sums_csc_safe : forall dist (A : Csc F), is_distribution dist -> cs_ok A ->
  alloc_ok (length (dat A)) -> alloc_ok (csc_nrows A) -> fine (row_sums_csc dist A).
Proof. intros. destruct (row_sums_csc_ok zero_eq dist A) as (y & -> & _); auto. exact I. Qed.
Lemma row_sums_coo_safe : forall nt dist (A : Coo F), is_distribution dist -> coo_ok A -> alloc_ok (coo_nrows A) -> fine (row_sums_coo nt dist A).
Proof. intros. destruct (row_sums_coo_ok zero_eq nt dist A) as (y & -> & _); auto. exact I. Qed.
Lemma col_sums_coo_safe : forall nt dist il (A : Coo F), is_distribution dist -> is_interleaving il -> coo_ok A -> alloc_ok (coo_ncols A) -> fine (col_sums_coo nt dist il A).
Proof. intros. destruct (col_sums_coo_ok zero_eq nt dist il A) as (y & -> & _); auto. exact I. Qed.
Lemma mean_coond_safe : forall z t (A : Nd F), feqb z f0 = true -> fine (mean_coond z t A).
Proof.
  intros z t A HZ. unfold mean_coond. destruct (nd_shape A); [exact I|]. apply fine_bind; [apply fine_product|]. intros n.
  destruct (feqb (fofZ n) f0); [exact I|]. apply fine_bind; [apply fine_rayon_sum; auto|]. intros; exact I.
Qed.
Lemma mean_2d_safe : forall (all : res F) ax0 ax1 nr nc axis kd, fine all -> fine ax0 -> fine ax1 ->
  safe sized (mean_2d all ax0 ax1 nr nc axis kd).
Proof.
  intros. unfold mean_2d. apply reduce_2d_safe; unfold rmap; apply fine_bind; auto; intros; fines.
Qed.
Lemma fine_bincount : forall xs m, fine (bincount xs m).
Proof. intros. unfold bincount. fines. Qed.

(** ** Reading *)
Lemma fine_py_index : forall n i, fine (py_index n i).
Proof. intros. unfold py_index. fines. Qed.
Lemma fine_py_get : forall {A} (l : list A) i, fine (py_get l i).
Proof. intros. unfold py_get. apply fine_bind; [apply fine_py_index|]. intros. apply fine_get. Qed.
Lemma py_set_safe : forall {A} (l : list A) i v, safe (fun l' => length l' = length l) (py_set l i v).
Proof. intros. unfold py_set. eapply safe_bind; [apply fine_py_index|]. intros p _. apply safe_ok. apply upd_length. Qed.
Lemma np_values_safe : forall {A} n (vs : list A), fine (np_values n vs).
Proof. intros. unfold np_values. fines. Qed.
Lemma np_assign_safe : forall {A} (out : list A) ix vs, safe (fun o => length o = length out) (np_assign out ix vs).
Proof.
  intros. unfold np_assign. eapply safe_bind; [apply np_values_safe|]. intros ws _.
  apply (safe_foldM (fun o => length o = length out)); auto. intros s a _ E. eapply safe_imp; [apply py_set_safe|]. intros o Eo. congruence.
Qed.
Lemma fine_lookup : forall search (A : Csr F) i j, fine (csr_lookup search A i j).
Proof.
  intros. unfold csr_lookup. apply fine_bind; [apply fine_py_get|]. intros s. apply fine_bind; [apply fine_py_get|]. intros e.
  cbv zeta. destruct (nth_error _ _); [|exact I]. destruct (_ =? _); [apply fine_py_get|exact I].
Qed.
Definition rect (m n : nat) (l : list (list F)) : Prop := length l = m /\ Forall (fun r => length r = n) l.
Lemma rect_concat : forall m n l, rect m n l -> length (concat l) = count [m; n].
Proof.
  intros m n l [L R]. subst m. unfold count. cbn [fold_right]. induction R as [|r l Hr R IH]; auto. cbn [concat length]. rewrite app_length, IH, Hr. lia.
Qed.
Lemma csr_toarray_safe : forall A : Csr F, safe (rect (csr_nrows A) (csr_ncols A)) (csr_toarray A).
Proof.
  intros. unfold csr_toarray. eapply safe_imp; [apply (safe_mapM (fun _ r => length r = csr_ncols A))|].
  - intros i _. eapply safe_bind; [apply fine_py_get|]. intros s _. eapply safe_bind; [apply fine_py_get|]. intros e _.
    destruct (s <? e); [|apply safe_ok; apply repeat_length]. eapply safe_imp; [apply np_assign_safe|]. intros o L. rewrite repeat_length in L. exact L.
  - intros rs F2. rewrite <- (seq_length (csr_nrows A) 0). generalize dependent (seq 0 (csr_nrows A)). intros l F2. unfold rect. induction F2; simpl; [auto|].
    destruct IHF2. split; auto.
Qed.
Lemma upd_Forall : forall {A} (P : A -> Prop) l n a, Forall P l -> P a -> Forall P (upd l n a).
Proof. intros A P l n a H Ha. revert n. induction H; intros [|n]; cbn [upd]; auto. Qed.
Lemma update2_safe : forall m n f l r c, rect m n l -> safe (rect m n) (py_update2 f l r c).
Proof.
  intros m n f l r c [L R]. unfold py_update2. eapply safe_bind with (P := fun row => length row = n).
  - unfold py_get. eapply safe_bind; [apply fine_py_index|]. intros p _. eapply safe_imp; [apply safe_get_checked|].
    intros a E. apply nth_error_In in E. rewrite Forall_forall in R. auto.
  - intros row Lr. eapply safe_bind; [apply fine_py_get|]. intros x _. eapply safe_bind; [apply py_set_safe|]. intros row' L'.
    unfold py_set. eapply safe_bind; [apply fine_py_index|]. intros p _. apply safe_ok. split; [rewrite upd_length; auto|]. apply upd_Forall; auto. congruence.
Qed.
Lemma rect_zero : forall m n, rect m n (repeat (repeat f0 n) m).
Proof. intros. split; [apply repeat_length|]. apply Forall_forall. intros r I. apply repeat_spec in I. subst. apply repeat_length. Qed.
Lemma csc_toarray_safe : forall A : Csc F, safe (rect (csc_nrows A) (csc_ncols A)) (csc_toarray A).
Proof.
  intros. unfold csc_toarray. apply safe_foldM; [apply rect_zero|]. intros out j _ R.
  eapply safe_bind; [apply fine_py_get|]. intros s _. eapply safe_bind; [apply fine_py_get|]. intros e _.
  destruct (s <? e); [|exact R]. cbv zeta. eapply safe_bind; [apply np_values_safe|]. intros vs _.
  apply safe_foldM; auto. intros o w _ Ro. apply update2_safe; auto.
Qed.
Lemma coo_toarray_safe : forall A : Coo F, safe (rect (coo_nrows A) (coo_ncols A)) (coo_toarray A).
Proof.
  intros. unfold coo_toarray. apply safe_foldM; [apply rect_zero|]. intros out j _ R.
  eapply safe_bind; [apply fine_py_get|]. intros s _. eapply safe_bind; [apply fine_py_get|]. intros e _. eapply safe_bind; [apply fine_py_get|]. intros v _.
  apply update2_safe; auto.
Qed.
Lemma cells_count : forall sh, forallb (Z.leb 0) sh = true -> Z.to_nat (cells sh) = fold_right Nat.mul 1%nat (map Z.to_nat sh) /\ 0 <= cells sh.
Proof.
  induction sh as [|n sh IH]; intros H; [split; [reflexivity|discriminate]|]. cbn [forallb] in H. apply andb_true_iff in H. destruct H as [H1 H2]. apply Z.leb_le in H1.
  destruct (IH H2) as [E P]. unfold cells in *. cbn [map fold_right]. rewrite <- E. split; [rewrite Z2Nat.inj_mul by assumption; reflexivity|nia].
Qed.
Lemma nd_toarray_safe : forall A : Nd F, safe (fun d => length d = fold_right Nat.mul 1%nat (map Z.to_nat (nd_shape A))) (nd_toarray A).
Proof.
  intros. unfold nd_toarray. apply safe_assert. intros NN. destruct (cells_count _ NN) as [E _]. rewrite <- E. destruct (_ =? 0)%nat; [apply repeat_length|].
  apply safe_assert. intros _. apply safe_foldM; [apply repeat_length|]. intros o en _ LO.
  eapply safe_bind; [apply fine_mapM; intros; apply fine_py_index|]. intros k _. eapply safe_bind; [apply fine_get|]. intros x _. cbn [safe]. rewrite upd_length. exact LO.
Qed.
End Dense.
