(** Every function of the extension module on valid arrays either raises or returns arrays
    that describe a matrix; it never reads or writes out of range. *)
Require Import List ZArith Bool Arith Lia Permutation Sorted.
Require Import ZifyBool ZifyNat.
Require Import Verif.Res Verif.Values Verif.Spec Verif.Mem Verif.Lists Verif.CsLib Verif.Laws Verif.NdLib Verif.SpecPy Verif.MCore Verif.PCore Verif.MElementwise Verif.MConvert Verif.PConvert Verif.PConvert2 Verif.PConvert3 Verif.PTrans Verif.MScalar Verif.PScalar.
Require Import Verif.MHash Verif.MAcc Verif.MLinalg Verif.MReduce Verif.MStat Verif.MCum Verif.MNd Verif.MNd2 Verif.PNd Verif.PropConvert Verif.MPy Verif.PBroadcast Verif.MObj Verif.SpecObj Verif.PSafe Verif.PSafe2 Verif.PSafe3 Verif.PSafe4 Verif.PObj Verif.PDense Verif.MNative Verif.SpecNative Verif.PNative.
Import ListNotations.
Local Open Scope Z_scope.

Section Safe.
Context {F : Fl}.
Hypothesis NL : NLaws F.
Variable e : Env F.
Hypothesis FE : fair e.
Let Fil := fair_il e FE. Let Filo := fair_ilo e FE. Let Fsch := fair_sch e FE. Let Fschv := fair_schv e FE. Let Fschc := fair_schc e FE.
Let Fschz := fair_schz e FE. Let Fschu := fair_schu e FE. Let Fdist := fair_dist e FE. Let Fsrt := fair_srt e FE. Let Fsrt2 := fair_srt2 e FE.
Let Ford := fair_ord e FE. Let Fzero := fair_zero e FE.

Definition ngood (v : value F) : Prop := fits v = true -> describes v.
Definition csmall (c : core F) : Prop :=
  match c with
  | KCsr A | KCsc A => cs_small A
  | KCoo A => coo_small A
  | KNd A => nd_ok A /\ nd_small A
  end.
Lemma valid_csmall : forall x : raw F, small x -> valid x -> csmall (the_core x).
Proof.
  intros x S V. pose proof (valid_kept x S V) as K. destruct x as [nr nc p i d|nr nc p i d|nr nc r c d|sh i d]; cbn [the_core csmall core_value] in *.
  - apply (cs_kept _ K).
  - apply (cs_kept _ (kept_csc _ K)).
  - apply (coo_kept _ K).
  - destruct V as [V NN]. split; [exact V|]. split; [exact NN|]. destruct K as [_ FT]. cbn [fits] in FT. apply andb_true_iff in FT. lia.
Qed.

Lemma ret_csr_safe : forall B : Csr F, cs_ok B -> safe ngood (ret_csr B).
Proof. intros B OK _. cbn [describes intact py_arrays py_handle]. split; [exact OK|discriminate]. Qed.
Lemma ret_csc_safe : forall B : Csc F, cs_ok B -> safe ngood (ret_csc B).
Proof. intros B OK _. cbn [describes intact py_arrays py_handle]. split; [exact OK|discriminate]. Qed.
Lemma ret_coo_safe : forall B : Coo F, coo_ok B -> safe ngood (ret_coo B).
Proof. intros B OK _. cbn [describes intact pyc_arrays pyc_handle]. split; [exact OK|discriminate]. Qed.
Lemma ret_nd_safe : forall B : Nd F, nd_fine B -> safe ngood (ret_nd B).
Proof. intros B OK. unfold ret_nd. apply safe_assert. intros _ _. exact OK. Qed.
Lemma ret_one_arr : forall r : res F, fine r -> safe ngood (ret_one VArr r).
Proof. intros r H. unfold ret_one. eapply safe_bind; [exact H|]. intros s _ _. reflexivity. Qed.
Lemma ret_one_bools : forall r : res bool, fine r -> safe ngood (ret_one VBools r).
Proof. intros r H. unfold ret_one. eapply safe_bind; [exact H|]. intros s _ _. reflexivity. Qed.
Lemma ret_vec_arr : forall r : res (list F), fine r -> safe ngood (ret_vec VArr r).
Proof. intros r H. unfold ret_vec. eapply safe_bind; [exact H|]. intros s _ _. cbn [describes intact fold_right]. lia. Qed.
Lemma ret_vec_bools : forall r : res (list bool), fine r -> safe ngood (ret_vec VBools r).
Proof. intros r H. unfold ret_vec. eapply safe_bind; [exact H|]. intros s _ _. cbn [describes intact fold_right]. lia. Qed.
Lemma arr_reshape_n : forall sh (v : list F), safe ngood (arr_new (VArr (F := F)) (reshape_to sh v)).
Proof. intros. unfold arr_new, reshape_to. destruct (_ =? _)%nat eqn:E; [|exact I]. apply Nat.eqb_eq in E. intros _. exact E. Qed.

Ltac ret_any := first [apply ret_csr_safe | apply ret_csc_safe | apply ret_coo_safe | apply ret_nd_safe].
Ltac withs_n := eapply safe_bind; [first [apply cs_with_ok | apply coo_with_ok | apply nd_with_ok]; [first [apply abs_same|apply mul_same|apply par_map_same]|assumption]|]; intros B HB; ret_any; exact HB.

Lemma n_unary_safe : forall op x, csmall x -> safe ngood (n_unary e op x).
Proof.
  intros op x K. destruct x as [A|A|A|A]; cbn [csmall] in K; [destruct K as (OK & A1 & A2 & A3 & A4)|destruct K as (OK & A1 & A2 & A3 & A4)|destruct K as (OK & A1 & A2 & A3 & A4)|destruct K as [OK SM]];
  destruct op; try exact I; cbn [n_unary]; try withs_n.
  - eapply safe_bind; [apply transpose_ok; auto; unfold cs_small; auto 6|]. intros B HB. ret_any; auto.
  - eapply safe_bind; [apply prune_ok; auto|]. intros B HB. ret_any; auto.
  - eapply safe_bind; [apply prune_ok; auto|]. intros B HB. ret_any; auto.
  - eapply safe_bind; [apply transpose_ok; auto; unfold cs_small; auto 6|]. intros B HB. ret_any; auto.
  - ret_any. apply coo_transpose_ok; auto.
Qed.
Lemma n_scalar_safe : forall op x alpha, csmall x -> safe ngood (n_scalar op x alpha).
Proof.
  intros op x alpha K. destruct x as [A|A|A|A]; cbn [csmall] in K; destruct K as (OK & _);
  destruct op; try exact I; cbn [n_scalar]; withs_n.
Qed.
Lemma n_binary_safe : forall op x y, csmall x -> csmall y ->
  (forall A B, op = BMul -> x = KNd A -> y = KNd B -> shape_cells (broadcast_shape (nd_shape A) (nd_shape B)) < i64_max) ->
  safe ngood (n_binary e op x y).
Proof.
  intros op x y KX KY D. destruct x as [A|A|A|A]; destruct y as [B|B|B|B]; try exact I; cbn [n_binary csmall] in *.
  - destruct KX as (OA & _). destruct KY as (OB & _). eapply safe_bind with (P := cs_ok); [|apply ret_csr_safe].
    destruct op.
    + eapply safe_imp; [apply add_kernel; auto|intros C HC; apply HC].
    + eapply safe_imp; [apply sub_kernel; auto|intros C HC; apply HC].
    + eapply safe_imp; [apply hadamard_kernel; auto|intros C HC; apply HC].
    + eapply safe_imp; [apply div_kernel; auto|intros C HC; apply HC].
    + eapply safe_imp; [apply floordiv_kernel; auto|intros C HC; apply HC].
    + eapply safe_imp; [apply rem_kernel; auto|intros C HC; apply HC].
    + eapply safe_imp; [apply pow_kernel; auto|intros C HC; apply HC].
  - destruct KX as (OA & _). destruct KY as (OB & _).
    destruct op; try exact I; (eapply safe_bind with (P := cs_ok); [|apply ret_csc_safe]).
    + eapply safe_imp; [apply div_kernel; auto|intros C HC; apply HC].
    + eapply safe_imp; [apply floordiv_kernel; auto|intros C HC; apply HC].
    + eapply safe_imp; [apply rem_kernel; auto|intros C HC; apply HC].
    + eapply safe_imp; [apply pow_kernel; auto|intros C HC; apply HC].
  - destruct KX as [OA SA]. destruct KY as [OB SB]. destruct op; try exact I. eapply safe_bind; [apply broadcast_safe; auto|]. intros C HC. ret_any. exact HC.
Qed.

Lemma nat_shape : forall sh, forallb (Z.leb 0) sh = true -> map Z.of_nat (map Z.to_nat sh) = sh.
Proof. induction sh as [|n sh IH]; intros H; [reflexivity|]. cbn [forallb] in H. apply andb_true_iff in H. cbn [map]. rewrite IH by apply H. f_equal. lia. Qed.
Lemma n_flat_safe : forall m ncols mm b sh, mm_safe m ncols mm -> Z.max 1 (Z.of_nat m) * shape_cells sh < i64_max ->
  safe ngood (n_flat m ncols sh (tensordot_with (F := F) ncols mm b sh)).
Proof.
  intros m ncols mm b sh HM D. unfold n_flat. apply safe_assert. intros NN. apply nat_shape in NN.
  destruct sh as [|n0 rest]; [exact I|]. apply safe_assert. intros _. apply fine_unit; [|intros c; apply arr_reshape_n].
  rewrite <- NN. eapply tensordot_mm_safe; [exact HM|]. rewrite NN. exact D.
Qed.
Definition core_left (x : core F) : Z :=
  match x with
  | KCsr A => Z.max 1 (Z.of_nat (csr_nrows A))
  | KCsc A => Z.max 1 (Z.of_nat (csc_nrows A))
  | KCoo A => Z.max 1 (Z.of_nat (coo_nrows A))
  | KNd A => shape_cells (nd_shape A)
  end.
Lemma n_tensordot_safe : forall x axis b sh, csmall x -> core_left x * shape_cells sh < i64_max -> safe ngood (n_tensordot e x axis b sh).
Proof.
  intros x axis b sh K D. destruct x as [A|A|A|A]; cbn [csmall core_left n_tensordot] in *.
  - destruct K as (OK & A1 & A2 & A3 & A4). apply n_flat_safe; [|exact D]. intros b' n B1 B2. apply (spmm_csr_safe NL); auto.
  - destruct K as (OK & A1 & A2 & A3 & A4). apply n_flat_safe; [|exact D]. intros b' n B1 B2. apply (spmm_csc_safe NL); auto.
  - destruct K as (OK & A1 & A2 & A3 & A4). apply n_flat_safe; [|exact D]. intros b' n B1 B2. apply (spmm_coo_safe NL); auto.
  - destruct K as (OK & SM). apply safe_assert. intros NN. apply safe_assert. intros _.
    eapply safe_bind; [apply tensordot_nd_safe; auto|].
    + rewrite forallb_forall in NN. apply Forall_forall. intros z I. apply NN in I. lia.
    + intros C OC. apply ret_nd_safe. intros _. exact OC.
Qed.
Lemma n_vecdot_safe : forall x axis v, csmall x -> safe ngood (n_vecdot e x axis v).
Proof.
  intros x axis v K. destruct x as [A|A|A|A]; cbn [csmall n_vecdot] in *.
  - destruct K as (OK & A1 & A2 & A3 & A4). apply ret_vec_arr. eapply safe_any. apply (vecdot_csr_safe NL); auto.
  - destruct K as (OK & A1 & A2 & A3 & A4). apply ret_vec_arr. eapply safe_any. apply (vecdot_csc_safe NL); auto.
  - destruct K as (OK & A1 & A2 & A3 & A4). apply ret_vec_arr. eapply safe_any. apply (vecdot_coo_safe NL); auto.
  - destruct K as (OK & SM). apply safe_assert. intros _.
    eapply safe_bind with (P := nd_ok); [|intros C OC; apply ret_nd_safe; intros _; exact OC].
    unfold vecdot_coond. apply safe_assert. intros _. eapply safe_bind; [apply fine_get|]. intros m' _. apply safe_assert. intros _. apply spmv_nd_safe; auto.
Qed.
Lemma n_spmv_safe : forall x v, csmall x -> safe ngood (n_spmv e x v).
Proof.
  intros x v K. destruct x as [A|A|A|A]; try exact I. destruct K as (OK & A1 & A2 & A3 & A4). apply ret_vec_arr. eapply safe_any. apply (spmv_csr_safe NL); auto.
Qed.
Lemma n_spmm_safe : forall x r k b, csmall x -> core_left x * shape_cells [Z.of_nat r; Z.of_nat k] < i64_max -> safe ngood (n_spmm x r k b).
Proof.
  intros x r k b K D. destruct x as [A|A|A|A]; try exact I. destruct K as (OK & A1 & A2 & A3 & A4). cbn [n_spmm core_left] in *.
  apply fine_unit; [eapply safe_any; apply reshape_to_safe|]. intros _. apply safe_assert. intros EN. apply Nat.eqb_eq in EN.
  replace (shape_cells [Z.of_nat r; Z.of_nat k]) with (Z.max 1 (Z.of_nat r) * Z.max 1 (Z.of_nat k)) in D by (unfold shape_cells, cells; cbn [map fold_right]; lia).
  eapply safe_bind; [apply (spmm_csr_safe NL); auto|intros c _; apply arr_reshape_n]; unfold alloc_ok; rewrite Nat2Z.inj_mul.
  - subst r. set (n := Z.of_nat (csr_ncols A)) in *. set (m := Z.max 1 (Z.of_nat (csr_nrows A))) in *. assert (1 <= m) by lia. assert (0 <= n) by lia. assert (0 <= Z.of_nat k) by lia. clearbody m n. clear - D H H0 H1.
    assert (n * Z.of_nat k <= Z.max 1 n * Z.max 1 (Z.of_nat k)) by (apply Z.mul_le_mono_nonneg; lia). nia.
  - set (n := Z.max 1 (Z.of_nat r)) in *. set (m := Z.of_nat (csr_nrows A)) in *. assert (1 <= n) by lia. assert (0 <= m) by lia. assert (0 <= Z.of_nat k) by lia. clearbody m n. clear - D H H0 H1.
    assert (m * Z.of_nat k <= Z.max 1 m * Z.max 1 (Z.of_nat k)) by (apply Z.mul_le_mono_nonneg; lia).
    assert (Z.max 1 m * Z.max 1 (Z.of_nat k) <= Z.max 1 m * (n * Z.max 1 (Z.of_nat k))) by (apply Z.mul_le_mono_nonneg_l; nia). lia.
Qed.

(** ** Reductions *)
Lemma fine_transposed_n : forall {B} (f : Cs F -> res B) (A : Cs F), cs_ok A -> alloc_ok (major A) -> (forall T, fine (f T)) ->
  fine (after_transpose (e_threads e) (e_il e 0) (e_sch e 0) (e_srt e 0) f A).
Proof. intros B f A OK A1 H. apply fine_after_transpose; auto. Qed.
Lemma fine_var_coond : forall t (A : Nd F) c, fine (var_coond t A c).
Proof.
  intros t A c. unfold var_coond. destruct (nd_shape A) as [|n sh]; [exact I|].
  apply fine_bind; [apply fine_product|]. intros. apply fine_var_all.
Qed.
Ltac reds := first
  [ apply fine_rayon_sum; assumption
  | apply mean_coond_safe; assumption
  | apply fine_best_all | apply fine_prod_all | apply fine_var_all | apply fine_var_coond
  | apply fine_major_bests | apply fine_major_prods | apply fine_major_vars | apply fine_major_alls | apply fine_major_anys
  | apply fine_coo_bests | apply fine_coo_prods | apply fine_coo_vars
  | apply fine_rmap; reds
  | apply fine_transposed_n; [assumption|assumption|intros; reds]
  | apply fine_bind; [apply fine_product|intros; reds]
  | apply fine_bind; [reds|intros; exact I]
  | exact I ].
Ltac rets := first [apply ret_one_arr | apply ret_one_bools | apply ret_vec_arr | apply ret_vec_bools].
Lemma via_coo_fine : forall {B} (f : Csr F -> res B) (A : Coo F), coo_small A -> (forall T : Csr F, cs_ok T -> alloc_ok (major T) -> fine (f T)) -> fine (via_coo (e_srt2 e) f A).
Proof.
  intros B f A (OK & A1 & _) Hf. unfold via_coo. eapply safe_bind; [apply coo_to_csr_safe; auto|].
  intros T (OT & M1 & M2). apply Hf; auto. unfold csr_nrows in M1. rewrite M1. exact A1.
Qed.
Lemma n_total_safe : forall op x, csmall x -> safe ngood (n_total e op x).
Proof.
  intros op x K. destruct x as [A|A|A|A]; cbn [csmall] in K; destruct K as (OK & K);
  destruct op; try exact I; cbn [n_total]; rets; try (reds; fail);
  try (first [unfold all_coo | unfold any_coo]; destruct K as (A1 & A2 & A3 & A4); eapply safe_bind; [apply coo_to_csr_safe; auto|]; intros; reds; fail).
Qed.
Lemma n_rows_safe : forall op x, csmall x -> safe ngood (n_rows e op x).
Proof.
  intros op x K. destruct x as [A|A|A|A]; cbn [csmall] in K; try (destruct op; exact I); pose proof K as K'; destruct K as (OK & A1 & A2 & A3 & A4);
  destruct op; try exact I; cbn [n_rows]; rets; try (reds; fail).
  - apply (row_sums_csr_safe NL); auto.
  - unfold row_alls_csc. eapply safe_bind; [apply csc_to_csr_safe; auto|]. intros; reds.
  - unfold row_anys_csc. eapply safe_bind; [apply csc_to_csr_safe; auto|]. intros; reds.
  - apply via_coo_fine; auto. intros; reds.
  - apply via_coo_fine; auto. intros; reds.
Qed.
Lemma n_cols_safe : forall op x, csmall x -> safe ngood (n_cols e op x).
Proof.
  intros op x K. destruct x as [A|A|A|A]; cbn [csmall] in K; try (destruct op; exact I); pose proof K as K'; destruct K as (OK & A1 & A2 & A3 & A4);
  destruct op; try exact I; cbn [n_cols]; rets; try (reds; fail).
  - apply (col_sums_csr_safe NL); auto.
  - apply via_coo_fine; auto. intros; reds.
  - apply via_coo_fine; auto. intros; reds.
Qed.

(** ** Cumulative operations, differences, N-D operations, conversions *)
Lemma n_cum_safe : forall op axis x, csmall x -> safe ngood (n_cum e op axis x).
Proof.
  intros op axis x K. unfold n_cum. apply safe_assert. intros _.
  match goal with |- context [via_csc _ _ ?f _] => set (g := f) end.
  assert (Hf : dense_safe g).
  { assert (Z0 := zero_eq NL). intros A OK A1 A2. unfold g. destruct op; destruct (axis =? 0).
    - apply through_dense_safe; auto. intros. apply cumsum_axis1_safe; auto.
    - apply cumsum_axis1_safe; auto.
    - apply through_dense_safe; auto. intros. apply cumprod_axis1_safe; auto.
    - apply cumprod_axis1_safe; auto. }
  destruct x as [A|A|A|A]; cbn [csmall] in K; try exact I; destruct K as (OK & A1 & A2 & A3 & A4).
  - eapply safe_bind; [apply Hf; auto|]. intros v _. apply arr_reshape_n.
  - unfold via_csc. eapply safe_bind with (P := fun _ => True); [|intros v _; apply arr_reshape_n].
    eapply safe_bind; [apply csc_to_csr_safe; auto|]. intros R (OR & M1 & M2). eapply safe_any. apply Hf; auto.
    + unfold csc_nrows in M1. rewrite M1. exact A2.
    + unfold csc_nrows, csc_ncols in *. rewrite M1, M2, Nat.mul_comm. exact A3.
  - unfold via_coo. eapply safe_bind with (P := fun _ => True); [|intros v _; apply arr_reshape_n].
    eapply safe_bind; [apply coo_to_csr_safe; auto|]. intros R (OR & M1 & M2). eapply safe_any. apply Hf; auto.
    + rewrite M1. exact A1.
    + rewrite M1, M2. exact A3.
Qed.
Lemma n_diff_safe : forall n axis x, csmall x -> safe ngood (n_diff e n axis x).
Proof.
  intros n axis x K. unfold n_diff. destruct x as [A|A|A|A]; cbn [csmall] in K; try exact I; destruct K as (OK & A1 & A2 & A3 & A4).
  - eapply safe_bind; [apply (diff_safe NL e FE); auto|]. intros B (OB & _). apply ret_csr_safe; auto.
  - eapply safe_bind with (P := cs_ok); [|intros B OB; apply ret_csc_safe; auto].
    match goal with |- safe _ (if ?b then _ else _) => set (b0 := b) end.
    assert (S : safe (fun B : Csc F => cs_ok B) (let! R := csc_to_csr (e_il e 1) (e_sch e 3) A in
       let! B := if b0 then diff_csr_axis0 (e_threads e) (e_il e 0) (e_sch e 0) (e_srt e 0) (e_sch e 1) (e_srt e 1) (e_sch e 2) (e_srt e 2) R n
                 else diff_csr_axis1 (e_sch e 1) (e_srt e 1) R n in csr_to_csc (e_il e 2) (e_sch e 4) B)).
    { eapply safe_bind; [apply csc_to_csr_safe; auto|]. intros R (OR & M1 & M2). unfold csc_nrows, csc_ncols in *.
      eapply safe_bind; [apply (diff_safe NL e FE); auto; [rewrite M1; exact A2|rewrite M2; exact A1]|]. intros B (OB & L).
      eapply safe_imp; [apply csr_to_csc_safe; auto; eapply (alloc_le e FE); [exact L|rewrite M1; exact A2]|]. intros C HC. apply HC. }
    destruct b0; exact S.
  - eapply safe_bind with (P := coo_ok); [|intros B OB; apply ret_coo_safe; auto].
    match goal with |- safe _ (if ?b then _ else _) => set (b0 := b) end.
    assert (S : safe (fun B : Coo F => coo_ok B) (let! R := coo_to_csr (e_srt2 e) A in
       let! B := if b0 then diff_csr_axis0 (e_threads e) (e_il e 0) (e_sch e 0) (e_srt e 0) (e_sch e 1) (e_srt e 1) (e_sch e 2) (e_srt e 2) R n
                 else diff_csr_axis1 (e_sch e 1) (e_srt e 1) R n in csr_to_coo (e_schc e) B)).
    { eapply safe_bind; [apply coo_to_csr_safe; auto|]. intros R (OR & M1 & M2).
      eapply safe_bind; [apply (diff_safe NL e FE); auto; [rewrite M1; exact A1|rewrite M2; exact A2]|]. intros B (OB & L).
      destruct (C06_csr_to_coo _ (e_schc e) B Fschc OB) as (C & -> & OC & _); [eapply (alloc_le e FE); [exact L|rewrite M1; exact A1]|]. exact OC. }
    destruct b0; exact S.
Qed.
Lemma n_nd_safe : forall op x, csmall x -> safe ngood (n_nd e op x).
Proof.
  intros op x K. destruct x as [A|A|A|A]; try exact I. destruct K as [OK SM]. destruct op as [p|sh|[|] p|[|] p|[|] m]; cbn [n_nd].
  - apply fine_unit; [apply fine_axes|]. intros q. eapply safe_bind; [apply permute_safe; auto|]. intros B HB. ret_any; auto.
  - apply safe_assert. intros NN. eapply safe_bind; [apply reshape_safe; auto|].
    + rewrite forallb_forall in NN. apply Forall_forall. intros n Hn. apply NN in Hn. lia.
    + intros B HB. ret_any; auto.
  - apply fine_unit; [apply fine_axes|]. intros q. eapply safe_bind; [apply reduce_sum_safe; auto|]. intros B HB. ret_any. intros _. apply HB.
  - apply fine_unit; [apply fine_axes|]. intros q. eapply safe_bind; [apply reduce_mean_safe; auto|]. intros B HB. ret_any. intros _. apply HB.
  - apply fine_unit; [apply fine_axes|]. intros q. eapply safe_bind; [apply unfold_csr_safe; auto|]. intros B HB. ret_any; auto.
  - apply fine_unit; [apply fine_axes|]. intros q. eapply safe_bind; [apply unfold_csc_safe; auto|]. intros B HB. ret_any; auto.
  - unfold coond_mode_to_csr. eapply safe_bind; [apply safe_assert; intros _; apply unfold_csr_safe; auto|]. intros B HB. ret_any; auto.
  - unfold coond_mode_to_csc. eapply safe_bind; [apply safe_assert; intros _; apply unfold_csc_safe; auto|]. intros B HB. ret_any; auto.
Qed.
Lemma n_convert_safe : forall t x, csmall x -> safe ngood (n_convert e t x).
Proof.
  intros t x K. destruct x as [A|A|A|A]; cbn [csmall] in K; try exact I; destruct K as (OK & A1 & A2 & A3 & A4); destruct t; try exact I; cbn [n_convert].
  - eapply safe_bind; [apply csr_to_csc_safe; auto|]. intros B HB. ret_any. apply HB.
  - destruct (C06_csr_to_coo _ (e_schc e) A Fschc OK A1) as (C & -> & OC & _). ret_any. exact OC.
  - eapply safe_bind; [apply csc_to_csr_safe; auto|]. intros B HB. ret_any. apply HB.
  - destruct (C06_csc_to_coo _ (e_schc e) A Fschc OK A1) as (C & -> & OC & _). ret_any. exact OC.
  - eapply safe_bind; [apply coo_to_csr_safe; auto|]. intros B HB. ret_any. apply HB.
  - eapply safe_bind; [apply coo_to_csc_safe; auto|]. intros B HB. ret_any. apply HB.
Qed.

(** ** One call *)
Definition on_cores (f : native F) : res (value F) :=
  match f with
  | NUnary op x => n_unary e op (the_core x)
  | NScalar op x alpha => n_scalar op (the_core x) alpha
  | NBinary op x y => n_binary e op (the_core x) (the_core y)
  | NSpmv x v => n_spmv e (the_core x) v
  | NSpmm x r k b => n_spmm (the_core x) r k b
  | NTensordot x axis b sh => n_tensordot e (the_core x) axis b sh
  | NVecdot x axis v => n_vecdot e (the_core x) axis v
  | NTotal op x => n_total e op (the_core x)
  | NRows op x => n_rows e op (the_core x)
  | NCols op x => n_cols e op (the_core x)
  | NCum op x axis => n_cum e op axis (the_core x)
  | NDiff x n axis => n_diff e n axis (the_core x)
  | NNd op x => n_nd e op (the_core x)
  | NConvert t x => n_convert e t (the_core x)
  end.
Lemma native_call_ok : forall ck f, Forall numpy_arrays (operands f) -> Forall small (operands f) -> Forall valid (operands f) ->
  native_call e ck f = on_cores f.
Proof.
  intros ck f N S V. destruct f; cbn [operands] in N, S, V; inversion N as [|? ? N1 N2]; inversion S as [|? ? S1 S2]; inversion V as [|? ? V1 V2]; subst;
  cbn [native_call on_cores]; rewrite load_ok by assumption; try reflexivity.
  inversion N2; inversion S2; inversion V2; subst. cbn [bind]. rewrite load_ok by assumption. reflexivity.
Qed.
Lemma core_left_eq : forall x : raw F, core_left (the_core x) = left_cells x.
Proof. intros [ | | | ]; reflexivity. Qed.
Lemma on_cores_safe : forall f, Forall small (operands f) -> Forall valid (operands f) -> result_cells f < i64_max -> safe ngood (on_cores f).
Proof.
  intros f S V D. destruct f; cbn [operands] in S, V; inversion S as [|? ? S1 S2]; inversion V as [|? ? V1 V2]; subst; cbn [on_cores];
  pose proof (valid_csmall _ S1 V1) as K.
  - apply n_unary_safe; auto.
  - apply n_scalar_safe; auto.
  - inversion S2; inversion V2; subst. apply n_binary_safe; auto; [apply valid_csmall; auto|].
    intros A B -> EA EB. destruct x; try discriminate EA; destruct y; try discriminate EB. cbn [the_core] in *. injection EA as <-. injection EB as <-. exact D.
  - apply n_spmv_safe; auto.
  - apply n_spmm_safe; auto. rewrite core_left_eq. exact D.
  - apply n_tensordot_safe; auto. rewrite core_left_eq. exact D.
  - apply n_vecdot_safe; auto.
  - apply n_total_safe; auto.
  - apply n_rows_safe; auto.
  - apply n_cols_safe; auto.
  - apply n_cum_safe; auto.
  - apply n_diff_safe; auto.
  - apply n_nd_safe; auto.
  - apply n_convert_safe; auto.
Qed.
Lemma native_valid_or_panic : forall f, Forall numpy_arrays (operands f) -> Forall small (operands f) ->
  native_call e true f = Panic \/ Forall valid (operands f).
Proof.
  intros f N S. destruct f; cbn [operands] in *; inversion N as [|? ? N1 N2]; inversion S as [|? ? S1 S2]; subst; cbn [native_call];
  (destruct (load_checked x S1 N1) as [->|[E V]]; [left; reflexivity|]); try (right; constructor; [exact V|]; solve [constructor]).
  inversion N2; inversion S2; subst. rewrite E. cbn [bind]. destruct (load_checked y) as [->|[E' V']]; auto.
Qed.
Lemma native_safe : forall f, within_limits f -> safe ngood (native_call e true f).
Proof.
  intros f (N & S & D). destruct (native_valid_or_panic f N S) as [->|V]; [exact I|]. rewrite native_call_ok by auto. apply on_cores_safe; auto.
Qed.
Lemma native_rejects : forall f, Forall numpy_arrays (operands f) -> Forall small (operands f) -> ~ Forall valid (operands f) -> native_call e true f = Panic.
Proof. intros f N S V. destruct (native_valid_or_panic f N S); [assumption|contradiction]. Qed.
End Safe.
