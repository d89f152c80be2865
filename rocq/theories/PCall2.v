(** Every call a program can make keeps its objects sorted and free of duplicates. *)
Require Import List ZArith Bool Arith Lia Permutation Sorted.
Require Import ZifyBool ZifyNat.
Require Import Verif.Res Verif.Values Verif.Spec Verif.Mem Verif.Lists Verif.CsLib Verif.Laws Verif.NdLib Verif.MCore Verif.PCore Verif.MElementwise Verif.PElementwise Verif.PElementwise2 Verif.MConvert Verif.PConvert Verif.PConvert2 Verif.PConvert3 Verif.PTrans Verif.MScalar Verif.PScalar.
Require Import Verif.PropConvert Verif.PGroup Verif.PropScalar Verif.PropPy Verif.PropLaws Verif.SpecReduce Verif.SpecDiff Verif.MCum Verif.PDiff Verif.PropDiff Verif.SpecPy Verif.MNd Verif.MNd2 Verif.PNd Verif.PNd2 Verif.PNd3 Verif.PropNd Verif.PropNd2 Verif.MPy Verif.PPy2 Verif.PropPy2 Verif.MObj Verif.SpecObj Verif.PSafe Verif.PSafe2 Verif.PSafe3 Verif.PSafe4 Verif.PObj Verif.PDense Verif.SpecCall Verif.PCall.
Import ListNotations.
Local Open Scope Z_scope.

Section Call.
Context {F : Fl}.

Lemma tensordot_sizes : forall (A : Nd F) axis (b : list F) rest, nd_ok A -> nd_small A ->
  (axis < length (nd_shape A))%nat -> Forall (fun n => 0 <= n) (nth axis (nd_shape A) 0 :: rest) -> Z.of_nat (length b) = cells (nth axis (nd_shape A) 0 :: rest) ->
  shape_cells (nd_shape A) * shape_cells (nth axis (nd_shape A) 0 :: rest) < i64_max ->
  shape_fits (nth axis (nd_shape A) 0 :: rest) /\ product_sizes A axis b (Z.to_nat (cells rest)).
Proof.
  intros A axis b rest OK [NN SM] LA NS LB DM.
  assert (P1 := shape_cells_pos (nd_shape A)). assert (P2 := shape_cells_pos (nth axis (nd_shape A) 0 :: rest)).
  assert (SF : shape_fits (nth axis (nd_shape A) 0 :: rest)) by (apply shape_cells_fits; auto; nia). split; [exact SF|].
  inversion NS as [|? ? N1 N2]; subst. assert (P3 := shape_cells_pos rest). assert (CR := cells_shape_cells rest N2).
  assert (EC : cells (nth axis (nd_shape A) 0 :: rest) = nth axis (nd_shape A) 0 * cells rest) by reflexivity.
  assert (ES : shape_cells (nth axis (nd_shape A) 0 :: rest) = Z.max 1 (nth axis (nd_shape A) 0) * shape_cells rest) by reflexivity.
  assert (EK : Z.of_nat (Z.to_nat (cells rest)) = cells rest) by lia.
  assert (LE : shape_cells rest <= shape_cells (nth axis (nd_shape A) 0 :: rest)) by (rewrite ES; nia).
  split; [auto|]. split; [auto|]. rewrite EK. rewrite LB, EC.
  assert (CB : cells (nth axis (nd_shape A) 0 :: rest) <= shape_cells (nth axis (nd_shape A) 0 :: rest)) by (apply cells_shape_cells; constructor; auto).
  split; [reflexivity|]. split; [nia|]. split; [nia|].
  assert (SO := shape_cells_select (nd_shape A) (other_axes (length (nd_shape A)) [axis]) (other_axes_ok _ _)).
  apply shape_cells_fits.
  - apply Forall_app. split; [|constructor; [lia|constructor]].
    apply (shape_fits_select _ _ (other_axes_ok _ _) (shape_cells_fits _ NN SM)).
  - rewrite shape_cells_app. replace (shape_cells [cells rest]) with (Z.max 1 (cells rest)) by (unfold shape_cells, cells at 2; simpl; lia).
    assert (P4 := shape_cells_pos (select (other_axes (length (nd_shape A)) [axis]) (nd_shape A))). nia.
Qed.
Lemma tensordot_reg : forall srt (A C : Nd F) axis b sh, is_sorter pair_le srt -> nd_ok A -> nd_small A ->
  Forall (fun n => 0 <= n) sh -> shape_cells (nd_shape A) * shape_cells sh < i64_max ->
  tensordot_coond srt A axis b sh = Ok C -> nd_reg C.
Proof.
  intros srt A C axis b sh HS OK SM NS DM E.
  assert (D : ((length (nd_shape A) <= axis)%nat \/ sh = [] \/ Z.of_nat (length b) <> cells sh \/ hd 0 sh <> nth axis (nd_shape A) 0) \/
     ((axis < length (nd_shape A))%nat /\ sh <> [] /\ Z.of_nat (length b) = cells sh /\ hd 0 sh = nth axis (nd_shape A) 0)).
  { destruct (list_eq_dec Z.eq_dec sh []); [left; auto|].
    destruct (le_lt_dec (length (nd_shape A)) axis); [left; auto|].
    destruct (Z.eq_dec (Z.of_nat (length b)) (cells sh)); [|left; auto]. destruct (Z.eq_dec (hd 0 sh) (nth axis (nd_shape A) 0)); [|left; auto].
    right. auto. }
  destruct D as [D|(LA & NE & LB & HD)]; [rewrite C31_tensordot_nd_mismatch_panics in E by auto; discriminate|].
  destruct sh as [|n rest]; [congruence|]. cbn [hd] in HD. subst n.
  destruct (tensordot_sizes A axis b rest OK SM LA NS LB DM) as [SF PS]. rewrite C31_tensordot_nd in E by auto.
  destruct (C30_spmm_nd F srt A axis b (Z.to_nat (cells rest)) HS OK PS) as (C' & E' & OC & _ & SO & _).
  assert (C' = C) by congruence. subst C'. apply sorted_reg; auto.
Qed.
Lemma broadcast_dec : forall a b, broadcastable a b \/ ~ broadcastable a b.
Proof.
  intros a b. unfold broadcastable. generalize (pad_ones (Nat.max (length a) (length b)) b).
  induction (pad_ones (Nat.max (length a) (length b)) a) as [|x l IH]; intros [|y l']; try solve [left; constructor]; try solve [right; intros Q; inversion Q].
  destruct (IH l') as [IH'|IH']; [|right; intros Q; inversion Q; auto].
  assert (T : (x = y \/ x = 1 \/ y = 1) \/ ~ (x = y \/ x = 1 \/ y = 1)) by lia.
  destruct T as [T|T]; [left; constructor; auto|right; intros Q; inversion Q; auto].
Qed.
Lemma broadcast_nonneg : forall a b, Forall (fun n => 0 <= n) a -> Forall (fun n => 0 <= n) b -> Forall (fun n => 0 <= n) (broadcast_shape a b).
Proof.
  intros u v NA NB. unfold broadcast_shape. apply Forall_forall. intros n I. apply in_map_iff in I. destruct I as ([a b] & <- & I).
  assert (I1 := in_combine_l _ _ _ _ I). assert (I2 := in_combine_r _ _ _ _ I). unfold pad_ones in I1, I2.
  apply in_app_or in I1. apply in_app_or in I2. rewrite Forall_forall in NA, NB.
  assert (0 <= a) by (destruct I1 as [I1|I1]; [apply repeat_spec in I1; lia|auto]).
  assert (0 <= b) by (destruct I2 as [I2|I2]; [apply repeat_spec in I2; lia|auto]).
  unfold bdim. cbn [fst snd]. destruct (a =? 1); auto.
Qed.
Lemma broadcast_reg : forall scha schb ord threads srt (A B C : Nd F),
  is_schedule scha -> is_schedule schb -> (forall l, Permutation l (ord l)) -> is_sorter pair_le srt ->
  nd_ok A -> nd_ok B -> nd_small A -> nd_small B ->
  shape_cells (broadcast_shape (nd_shape A) (nd_shape B)) < i64_max ->
  hadamard_broadcast_coond scha schb ord threads srt A B = Ok C -> nd_reg C.
Proof.
  intros scha schb ord threads srt A B C H1 H2 H3 H4 OA OB [NA SA] [NB SB] DM EC.
  destruct ((length (nd_dat A) =? 0)%nat || (length (nd_dat B) =? 0)%nat) eqn:E.
  - unfold hadamard_broadcast_coond in EC. rewrite E in EC. match type of EC with bind ?r _ = _ => destruct r; try discriminate EC end.
    cbn [bind] in EC. injection EC as <-. apply nd_empty_reg.
  - assert (PA := nd_positive A OA ltac:(lia)). assert (PB := nd_positive B OB ltac:(lia)).
    destruct (broadcast_dec (nd_shape A) (nd_shape B)) as [D|D]; [|rewrite C24_broadcast_mismatch_panics in EC by auto; discriminate].
    destruct (C24_broadcast F scha schb ord threads srt A B) as (C' & E' & OC & _ & SO & _); auto.
    + pose proof (cells_shape_cells _ (broadcast_nonneg _ _ NA NB)). unfold i64_max, usize_max in *. lia.
    + assert (C' = C) by congruence. subst C'. apply sorted_reg; auto.
Qed.

(** ** Calls *)
Hypothesis NL : NLaws F.
Variable e : Env F.
Hypothesis FE : fair e.
Let Fil := fair_il _ FE. Let Filo := fair_ilo _ FE. Let Fsch := fair_sch _ FE. Let Fschc := fair_schc _ FE. Let Fschz := fair_schz _ FE.
Let Fschu := fair_schu _ FE. Let Fsrt := fair_srt _ FE. Let Fsrt2 := fair_srt2 _ FE. Let Ford := fair_ord _ FE.

Ltac held K :=
  match type of K with
  | held (VCsr _) => destruct (csr_held _ K) as (C & U1 & U2 & U3 & U4 & UH & A1 & A2 & A3 & A4)
  | held (VCsc _) => destruct (csc_held _ K) as (C & U1 & U2 & U3 & U4 & UH & A1 & A2 & A3 & A4)
  | held (VCoo _) => destruct (coo_held _ K) as (C & U1 & U2 & UH & A1 & A2 & A3 & A4)
  | held (VNd _) => destruct (nd_held _ K) as (C & SV & U1 & SM)
  end.

Lemma nd_parts_keeps : forall (A : Nd F) (f : Nd F -> res (value F)), held (VNd A) -> (nd_ok A -> single_valued_nd A -> nd_small A -> keeps (f A)) -> keeps (bind (nd_parts A) f).
Proof.
  intros A f K H. held K. rewrite U1. destruct (forallb _ _); [|apply keeps_panic]. apply H; auto.
Qed.
Lemma csr_map_keeps : forall (A : Cs F) f, canonical A -> keeps (csr_new (with_values f A)).
Proof. intros A f C. apply csr_new_keeps. intros _. apply with_values_canonical. exact C. Qed.
Lemma csc_map_keeps : forall (A : Cs F) f, canonical A -> keeps (csc_new (with_values f A)).
Proof. intros A f C. apply csc_new_keeps. intros _. apply with_values_canonical. exact C. Qed.
Lemma coo_map_keeps : forall (A : Coo F) f, coo_reg A -> keeps (coo_new (coo_with_values f A)).
Proof. intros A f C. apply coo_new_keeps. apply coo_with_reg. exact C. Qed.
Lemma nd_map_keeps : forall (A : Nd F) f, nd_ok A -> single_valued_nd A -> keeps (nd_new (nd_values f A)).
Proof. intros A f OK SV. apply nd_new_keeps. apply nd_values_reg; auto. Qed.

Lemma do_unary_keeps : forall op x, held x -> keeps (do_unary e op x).
Proof.
  intros op x K. destruct op, x as [X|X|X|X|? ?|? ?|? ?]; cbn [do_unary]; try apply keeps_panic;
  try (apply nd_parts_keeps; [exact K|]; intros OK SV SM); try held K; rewrite ?U1, ?U2, ?U3, ?U4; cbn [bind].
  1: { unfold abs_csr. rewrite (cs_with_maps _ _ _ maps_abs). apply csr_map_keeps; auto. }
  1: { unfold abs_csc. rewrite (cs_with_maps _ _ _ maps_abs). apply csc_map_keeps; auto. }
  1: { unfold abs_coo. rewrite (coo_with_maps _ _ _ maps_abs). apply coo_map_keeps; auto. }
  1: { unfold abs_coond. rewrite (nd_with_maps _ _ _ maps_abs). apply nd_map_keeps; auto. }
  1: { unfold sign_csr, sign_data. rewrite (cs_with_maps _ _ _ (maps_par _)). apply csr_map_keeps; auto. }
  1: { unfold sign_csc, sign_data. rewrite (cs_with_maps _ _ _ (maps_par _)). apply csc_map_keeps; auto. }
  1: { unfold sign_coo, sign_data. rewrite (coo_with_maps _ _ _ (maps_par _)). apply coo_map_keeps; auto. }
  1: { unfold sign_coond, sign_data. rewrite (nd_with_maps _ _ _ (maps_par _)). apply nd_map_keeps; auto. }
  1: { unfold py_neg, py_mul, mul_scalar_csr. rewrite (cs_with_maps _ _ _ (maps_mul _)). apply csr_map_keeps; auto. }
  1: { unfold py_neg, py_mul, mul_scalar_csc. rewrite (cs_with_maps _ _ _ (maps_mul _)). apply csc_map_keeps; auto. }
  1: { unfold py_neg, py_mul, mul_scalar_coo. rewrite (coo_with_maps _ _ _ (maps_mul _)). apply coo_map_keeps; auto. }
  1: { unfold py_neg, py_mul, mul_scalar_coond. rewrite (nd_with_maps _ _ _ (maps_mul _)). apply nd_map_keeps; auto. }
  1: { apply keeps_bind. intros B E. apply csr_new_keeps. intros _. eapply prune_can; [|exact C|exact E]. auto. }
  1: { apply keeps_bind. intros B E. apply csc_new_keeps. intros _. eapply prune_can; [|exact C|exact E]. auto. }
  1: { apply keeps_bind. intros B E. apply coo_new_keeps. eapply prune_coo_reg; eauto. }
  1: { apply keeps_bind. intros B E. apply csr_new_keeps. intros _. eapply prune_can; [|exact C|exact E]. auto. }
  1: { apply keeps_bind. intros B E. apply csc_new_keeps. intros _. eapply prune_can; [|exact C|exact E]. auto. }
  1: { apply keeps_bind. intros B E. apply coo_new_keeps. eapply prune_coo_reg; eauto. }
  1: { apply keeps_bind. intros B E. apply csr_new_keeps. intros _. eapply transpose_can; [| | |exact C|exact A1|exact E]; auto. }
  1: { unfold csc_T. rewrite UH. apply keeps_bind. intros B E. apply csc_new_keeps. intros _. eapply transpose_can; [| | |exact C|exact A1|exact E]; auto. }
  1: { rewrite UH. cbn [bind]. apply coo_new_keeps. apply transpose_coo_reg. exact C. }
Qed.
Lemma do_scalar_keeps : forall op (x : value F) alpha, held x -> keeps (do_scalar op x alpha).
Proof.
  intros op x alpha K. destruct op, x as [X|X|X|X|? ?|? ?|? ?]; cbn [do_scalar]; try apply keeps_panic;
  try (apply nd_parts_keeps; [exact K|]; intros OK SV SM); try held K; rewrite ?U1, ?U2, ?U3, ?U4; cbn [bind];
  unfold py_mul, py_truediv, py_floordiv, py_mod, py_pow; try (destruct (feqb alpha f0); [apply keeps_panic|]); unfold py_mul,
    mul_scalar_csr, mul_scalar_csc, mul_scalar_coo, mul_scalar_coond, floordiv_scalar_csr, floordiv_scalar_csc, floordiv_scalar_coo, floordiv_scalar_coond,
    rem_scalar_csr, rem_scalar_csc, rem_scalar_coo, rem_scalar_coond, pow_scalar_csr, pow_scalar_csc, pow_scalar_coo, pow_scalar_coond, floordiv_scalar_data, rem_scalar_data, pow_scalar_data;
  first [erewrite cs_with_maps by first [apply maps_mul|apply maps_par] | erewrite coo_with_maps by first [apply maps_mul|apply maps_par] | erewrite nd_with_maps by first [apply maps_mul|apply maps_par] ];
  cbn [bind]; first [apply csr_map_keeps; exact C|apply csc_map_keeps; exact C|apply coo_map_keeps; exact C|apply nd_map_keeps; auto].
Qed.

Lemma binary_keeps : forall k sch (A B : Cs F), is_schedule sch -> canonical A -> canonical B ->
  In k [add_csr; sub_csr; hadamard_csr; div_csr; pow_csr; rem_csr; floordiv_csr] -> forall C, k sch A B = Ok C -> canonical C.
Proof.
  intros k sch A B HS CA CB IK C E.
  assert (MM : forall count fill sch (A B : Cs F), major A <> major B \/ minor A <> minor B -> MElementwise.binary_cs count fill sch A B = Panic) by (intros; apply binary_mismatch; auto).
  destruct IK as [<-|[<-|[<-|[<-|[<-|[<-|[<-|[]]]]]]]].
  - apply (merge_can _ _ (add_correct NL)) with (sch := sch) (A := A) (B := B); auto. intros; apply MM; assumption.
  - apply (merge_can _ _ (sub_correct NL)) with (sch := sch) (A := A) (B := B); auto. intros; apply MM; assumption.
  - apply (isect_can _ _ (hadamard_correct NL)) with (sch := sch) (A := A) (B := B); auto. intros; apply MM; assumption.
  - apply (isect_can _ _ (div_correct NL)) with (sch := sch) (A := A) (B := B); auto. intros; apply MM; assumption.
  - apply (isect_can _ _ pow_correct) with (sch := sch) (A := A) (B := B); auto. intros; apply MM; assumption.
  - apply (isect_can _ _ (rem_correct NL)) with (sch := sch) (A := A) (B := B); auto. intros; apply MM; assumption.
  - apply (isect_can _ _ (floordiv_correct NL)) with (sch := sch) (A := A) (B := B); auto. intros; apply MM; assumption.
Qed.
Lemma do_binary_keeps : forall op x y, held x -> held y ->
  (forall A B, op = BMul -> x = VNd A -> y = VNd B -> shape_cells (broadcast_shape (nd_shape A) (nd_shape B)) < i64_max) -> keeps (do_binary e op x y).
Proof.
  intros op x y Kx Ky DM. destruct x as [X|X|X|X|? ?|? ?|? ?], y as [Y|Y|Y|Y|? ?|? ?|? ?]; try apply keeps_panic; cbn [do_binary].
  - destruct (csr_held _ Kx) as (CX & UX & PX & _ & _ & HX & _). destruct (csr_held _ Ky) as (CY & UY & PY & _ & _ & HY & _).
    destruct op; unfold csr_both, csr_both_parts; rewrite ?HX, ?HY, ?PX, ?PY; cbn [bind]; apply keeps_bind; intros C E; apply csr_new_keeps; intros _;
      eapply binary_keeps with (5 := E); cbn; auto 10.
  - destruct (csc_held _ Kx) as (CX & _ & _ & UX & PX & HX & _). destruct (csc_held _ Ky) as (CY & _ & _ & UY & PY & HY & _).
    destruct op; unfold csc_both, csc_both_parts, csc_both_use; rewrite ?HX, ?HY, ?PX, ?PY, ?UX, ?UY; cbn [bind]; apply keeps_bind; intros C E; apply csc_new_keeps; intros _;
    unfold add_csc, sub_csc, hadamard_csc, div_csc, floordiv_csc, rem_csc, pow_csc in E;
      eapply binary_keeps with (5 := E); cbn; auto 10.
  - destruct op; try apply keeps_panic. apply nd_parts_keeps; [exact Kx|]. intros OX SX MX. apply nd_parts_keeps; [exact Ky|]. intros OY SY MY.
    apply keeps_bind. intros C E. apply nd_new_keeps. eapply broadcast_reg; [| | | | | | | | |exact E]; auto.
Qed.
Lemma do_matmul_keeps : forall x y, keeps (do_matmul e x y).
Proof. intros x y. destruct x, y; try apply keeps_panic; apply keeps_arr. Qed.
Lemma tensordot_result_keeps : forall n sh (c : list F), keeps (tensordot_result n sh c).
Proof. intros. unfold tensordot_result. apply keeps_bind. intros _ _. apply keeps_arr. Qed.
Lemma do_tensordot_keeps : forall x sh d ax, held x -> (forall A, x = VNd A -> shape_cells (nd_shape A) * shape_cells (map Z.of_nat sh) < i64_max) ->
  keeps (do_tensordot e x (VArr sh d) ax).
Proof.
  intros x sh d ax K DM. destruct x as [X|X|X|X|? ?|? ?|? ?]; cbn [do_tensordot]; try apply keeps_panic.
  4: { apply keeps_bind. intros a _. destruct sh as [|n0 sh]; [apply keeps_panic|]. apply keeps_bind. intros n _. apply keeps_assert. intros _.
    apply nd_parts_keeps; [exact K|]. intros OK SV SM. apply keeps_bind. intros C E. apply nd_new_keeps.
    eapply tensordot_reg; [| | | |apply DM; reflexivity|exact E]; auto. apply nonneg_of_nat. }
  all: apply keeps_assert; intros _; destruct sh as [|n0 [|n1 sh]]; [apply keeps_panic|apply do_matmul_keeps|];
    apply keeps_assert; intros _; apply keeps_bind; intros A _; apply keeps_bind; intros c _; apply tensordot_result_keeps.
Qed.
Lemma do_vecdot_keeps : forall x y ax, held x -> keeps (do_vecdot e x y ax).
Proof.
  intros x y ax K. destruct y as [Y|Y|Y|Y|[|n [|]] d|[|n [|]] d|[|n [|]] d]; try apply keeps_panic;
    try (cbn [do_vecdot]; apply keeps_assert; intros _; apply do_matmul_keeps).
  destruct x as [X|X|X|X|? ?|? ?|? ?]; cbn [do_vecdot];
  try (destruct (_ =? 1); [apply do_matmul_keeps|]; destruct (_ =? 0); [|apply keeps_panic]; try apply keeps_panic;
       apply keeps_assert; intros _; apply keeps_bind; intros A _; apply keeps_bind; intros v _; apply keeps_ok_arr).
  apply keeps_bind. intros a _. apply keeps_bind. intros m _. apply keeps_assert. intros _.
  apply nd_parts_keeps; [exact K|]. intros OK SV SM. apply keeps_bind. intros C E. apply nd_new_keeps.
  rewrite C32_vecdot_nd_is_spmv in E. eapply spmv_nd_reg; [| | |exact E]; auto.
Qed.
Lemma reduce_coond_keeps : forall op X axis kd, held (VNd X) -> keeps (reduce_coond e op X axis kd).
Proof.
  intros op X axis kd K.
  assert (CN : keeps (reduce_coond e RCount X axis kd)) by (destruct axis as [|[|[]|[]]|[|]]; try apply keeps_panic; intros v E _; injection E as <-; reflexivity).
  held K. unfold reduce_coond in *. rewrite U1. destruct (forallb _ (nd_shape X)) eqn:NN.
  2: { destruct op; try apply keeps_panic; try exact CN.
    - unfold reduce_nd. cbn [bind]. destruct (norm_axes _ _) as [[[|a l]|]| | |]; cbn [bind]; try apply keeps_panic; intros v E; discriminate E.
    - unfold reduce_nd. cbn [bind]. destruct (norm_axes _ _) as [[[|a l]|]| | |]; cbn [bind]; try apply keeps_panic; intros v E; discriminate E. }
  specialize (SM eq_refl).
  destruct op; try apply keeps_panic; try exact CN; apply keeps_bind; intros [R|] E; try (apply nd_new_keeps); try (cbn [bind]; apply keeps_bind; intros s _; apply keeps_ok_arr).
  - eapply (reduce_nd_reg reduce_sum_axes_coond (e_srt e 0)); [| | | |exact E]; auto. intros axes C0 E0. eapply sum_reg; eauto.
  - eapply (reduce_nd_reg reduce_mean_axes_coond (e_srt e 0)); [| | | |exact E]; auto. intros axes C0 E0. eapply mean_reg; eauto.
Qed.
Lemma do_reduce_keeps : forall op x axis kd, held x -> keeps (do_reduce e op x axis kd).
Proof.
  intros op x axis kd K. destruct x as [X|X|X|X|? ?|? ?|? ?]; try apply keeps_panic; [| | |apply reduce_coond_keeps; exact K];
  destruct op; first [apply keeps_arr|apply keeps_bools|apply keeps_ints].
Qed.
Lemma do_cum_keeps : forall op x axis, keeps (do_cum e op x axis).
Proof.
  intros op x axis. unfold do_cum. apply keeps_bind. intros norm _. apply keeps_bind. intros f _. destruct x; try apply keeps_panic;
  apply keeps_bind; intros A _; apply keeps_bind; intros v _; apply keeps_arr.
Qed.
Lemma diff_can : forall (b : bool) (A : Csr F) n B, canonical A -> alloc_ok (csr_nrows A) -> alloc_ok (csr_ncols A) ->
  (if b then diff_csr_axis0 (e_threads e) (e_il e 0) (e_sch e 0) (e_srt e 0) (e_sch e 1) (e_srt e 1) (e_sch e 2) (e_srt e 2) A n
   else diff_csr_axis1 (e_sch e 1) (e_srt e 1) A n) = Ok B -> canonical B /\ (csr_nrows B <= csr_nrows A)%nat.
Proof.
  intros b A n B C A1 A2 E. destruct b.
  - destruct (diff_csr_axis0_ok (e_threads e) (e_il e 0) (e_sch e 0) (e_srt e 0) (e_sch e 1) (e_srt e 1) (e_sch e 2) (e_srt e 2) A n) as (B' & E' & _ & N1 & _ & CB & _); auto.
    { apply canonical_distinct. exact C. }
    assert (B' = B) by congruence. subst B'. split; [apply CB; auto|lia].
  - destruct (diff_csr_axis1_ok (e_sch e 1) (e_srt e 1) A n) as (B' & E' & _ & N1 & _ & CB & _); auto; [apply C|].
    assert (B' = B) by congruence. subst B'. split; [apply CB; auto|lia].
Qed.
Lemma do_diff_keeps : forall x n axis, held x -> (forall X, x <> VCsc X) -> keeps (do_diff e x n axis).
Proof.
  intros x n axis K NC. unfold do_diff. apply keeps_assert. intros _. destruct x as [X|X|X|X|? ?|? ?|? ?]; try apply keeps_panic.
  - held K. rewrite U2. cbn [bind]. apply keeps_bind. intros B E. apply csr_new_keeps. intros _. apply (diff_can _ _ _ _ C A1 A2 E).
  - exfalso. eapply NC. reflexivity.
  - held K. rewrite U2. cbn [bind]. apply keeps_bind. intros B E. apply coo_new_keeps. destruct C as [OK SV].
    match type of E with (if ?b then _ else _) = _ => set (b0 := b) in E end.
    assert (E1 : (let! R := coo_to_csr (e_srt2 e) (pyc_arrays X) in
       let! B := if b0 then diff_csr_axis0 (e_threads e) (e_il e 0) (e_sch e 0) (e_srt e 0) (e_sch e 1) (e_srt e 1) (e_sch e 2) (e_srt e 2) R n
                 else diff_csr_axis1 (e_sch e 1) (e_srt e 1) R n in csr_to_coo (e_schc e) B) = Ok B) by (destruct b0; exact E).
    clear E. destruct (coo_to_csr_ok (e_srt2 e) (pyc_arrays X) Fsrt2 OK) as (R & ER & CR & M1 & M2 & _). rewrite ER in E1. cbn [bind] in E1.
    match type of E1 with bind ?r _ = _ => destruct r as [D| | |] eqn:ED; try discriminate E1 end. cbn [bind] in E1.
    apply diff_can in ED; [|exact CR| |]; try (unfold csr_nrows, csr_ncols; rewrite ?M1, ?M2; assumption).
    destruct ED as [CD LD]. eapply csr_to_coo_reg; [|exact CD| |exact E1]; auto. clear - LD M1 A1. unfold alloc_ok, csr_nrows in *. lia.
Qed.
Lemma do_compare_keeps : forall c x y, keeps (do_compare (F := F) c x y).
Proof.
  intros c x y. unfold do_compare. apply keeps_assert. intros _. apply keeps_bind. intros dx _. apply keeps_bind. intros dy _. apply keeps_bools.
Qed.
Lemma do_permute_keeps : forall (x : value F) p, held x -> keeps (do_permute x p).
Proof.
  intros x p K. destruct x as [X|X|X|X|sh d|? ?|? ?]; try apply keeps_panic. cbn [do_permute]. apply keeps_bind. intros q _.
  apply nd_parts_keeps; [exact K|]. intros OK SV SM. apply keeps_bind. intros C E. apply nd_new_keeps. eapply permute_reg; eauto.
Qed.
Lemma do_reshape_keeps : forall x sh, held x -> keeps (do_reshape e x sh).
Proof.
  intros x sh K. destruct x as [X|X|X|X|? d|? ?|? ?]; try apply keeps_panic. cbn [do_reshape]. apply keeps_assert. intros NN.
  apply nd_parts_keeps; [exact K|]. intros OK SV SM. apply keeps_bind. intros C E. apply nd_new_keeps. eapply reshape_reg; [| | | | |exact E]; auto.
  rewrite forallb_forall in NN. apply Forall_forall. intros n Hn. apply NN in Hn. lia.
Qed.
Lemma do_reduce_axes_keeps : forall op x p, held x -> keeps (do_reduce_axes e op x p).
Proof.
  intros op x p K. destruct x as [X|X|X|X|sh d|? ?|? ?]; try apply keeps_panic. cbn [do_reduce_axes]. apply keeps_bind. intros q _.
  apply nd_parts_keeps; [exact K|]. intros OK SV SM. apply keeps_bind. intros C E. apply nd_new_keeps.
  destruct op; [destruct (sum_reg _ _ _ _ (Fsrt 0) OK SM E) as (OC & SC & _)|destruct (mean_reg _ _ _ _ (Fsrt 0) OK SM E) as (OC & SC & _)]; apply sorted_reg; auto.
Qed.
Lemma do_unfold_keeps : forall f x p, held x -> keeps (do_unfold e f x p).
Proof.
  intros f x p K. destruct x as [X|X|X|X|sh d|? ?|? ?]; try apply keeps_panic. cbn [do_unfold]. apply keeps_bind. intros q _.
  apply nd_parts_keeps; [exact K|]. intros OK SV SM. destruct f; apply keeps_bind; intros B E.
  - apply csr_new_keeps. intros _. eapply unfold_csr_can; [| | | |exact E]; auto.
  - apply csc_new_keeps. intros _. eapply unfold_csc_can; [| | | |exact E]; auto.
Qed.
Lemma do_mode_keeps : forall f x p, held x -> keeps (do_mode e f x p).
Proof.
  intros f x p K. destruct x as [X|X|X|X|sh d|? ?|? ?]; try apply keeps_panic. cbn [do_mode]. apply keeps_assert. intros _.
  apply nd_parts_keeps; [exact K|]. intros OK SV SM. destruct f; apply keeps_bind; intros B E.
  - apply csr_new_keeps. intros _. unfold coond_mode_to_csr in E. destruct (_ <? _)%nat; [|discriminate E]. eapply unfold_csr_can; [| | | |exact E]; auto.
  - apply csc_new_keeps. intros _. unfold coond_mode_to_csc in E. destruct (_ <? _)%nat; [|discriminate E]. eapply unfold_csc_can; [| | | |exact E]; auto.
Qed.

Lemma held_nth : forall h n (x : value F), Forall held h -> get_checked h n = Ok x -> held x /\ nth_error h n = Some x.
Proof.
  intros h n x H E. unfold get_checked in E. destruct (nth_error h n) as [y|] eqn:EN; [|discriminate]. injection E as ->. split; auto.
  rewrite Forall_forall in H. apply H. eapply nth_error_In; eauto.
Qed.
Lemma exec_keeps : forall h c, Forall held h -> regular_arguments c -> ~ excluded h c -> demand h c < i64_max -> keeps (exec e h c).
Proof.
  intros h c HK V NX D.
  destruct c; cbn [exec]; try apply keeps_panic;
  try (apply keeps_bind; intros x Ex; destruct (held_nth _ _ _ HK Ex) as [Kx Nx]);
  try (apply keeps_bind; intros y Ey; destruct (held_nth _ _ _ HK Ey) as [Ky Ny]).
  - destruct V as (AP & II & V).
    assert (G : canonical (mkCs nrows ncols indptr indices data) -> keeps (Ok (VCsr (mkPyCs (mkCs nrows ncols indptr indices data) (csr_from_parts nrows ncols indptr indices data false))))).
    { intros C v E FT. injection E as <-. apply fits_cs in FT. destruct FT as (AL & _). cbn [py_arrays major] in AL. split; [exact C|].
      cbn [py_handle py_arrays]. apply (from_parts_ok (mkCs nrows ncols indptr indices data)); [apply C|exact AL]. }
    unfold csr_init. destruct check; [|destruct V as [V|V]; [discriminate|apply G; exact V]].
    destruct (csr_from_parts nrows ncols indptr indices data true) as [B|] eqn:E; [|apply keeps_panic]. apply G.
    apply (cs_from_parts_iff nrows ncols indptr indices data); [unfold alloc_ok, i64_max, usize_max in *; lia|auto|]. exists B. exact E.
  - cbn [regular_arguments] in V. unfold csc_init. intros v E FT. cbn [bind] in E. injection E as <-. apply (fits_cs (mkPyCs _ _)) in FT. destruct FT as (AL & _). cbn [py_arrays major] in AL. split; [exact V|].
    cbn [py_handle py_arrays]. destruct check; [|apply (from_parts_ok (mkCs ncols nrows indptr indices data)); [apply V|exact AL]].
    apply (from_parts_check (mkCs ncols nrows indptr indices data)); [exact V|]. rewrite (ok_ptr_len _ (can_ok _ V)). cbn [major]. unfold alloc_ok, usize_max, i64_max in *. lia.
  - destruct V as [OK SV]. unfold coo_init. intros v E _. pose proof (coo_from_parts_ok _ check OK) as P. cbn [coo_nrows coo_ncols coo_row coo_col coo_data] in P. rewrite P in E.
    cbn [bind] in E. injection E as <-. split; [exact OK|]. split; [exact SV|reflexivity].
  - unfold nd_init. destruct (_ =? 0)%nat; [apply keeps_panic|]. destruct (negb _); [apply keeps_panic|]. intros v E _. injection E as <-. exact V.
  - apply keeps_arr.
  - apply csr_new_keeps. intros _. apply (zeros_facts nrows ncols).
  - apply csr_new_keeps. cbn [major eye_csr]. intros A. apply (C46_eye F n A).
  - apply csr_new_keeps. cbn [major diag_csr]. intros A. apply (C46_diag F d A).
  - apply do_unary_keeps; auto.
  - apply do_scalar_keeps; auto.
  - apply do_binary_keeps; auto. intros A B -> -> ->. cbn [demand] in D. rewrite Nx, Ny in D. exact D.
  - apply do_matmul_keeps.
  - destruct y as [Y|Y|Y|Y|sh d|[|n1 [|]] d|[|n1 [|]] d]; try apply keeps_panic; try (cbn [do_tensordot]; apply keeps_assert; intros _; apply do_matmul_keeps).
    apply do_tensordot_keeps; auto. intros A ->. cbn [demand] in D. rewrite Nx, Ny in D. exact D.
  - apply do_vecdot_keeps; auto.
  - apply do_reduce_keeps; auto.
  - apply do_cum_keeps; auto.
  - apply do_diff_keeps; auto. intros X ->. apply NX. cbn [excluded]. eauto.
  - destruct x; try apply keeps_panic. apply keeps_bind. intros v _. apply keeps_ok_arr.
  - destruct x; try apply keeps_panic. apply keeps_bind. intros v _. apply keeps_ok_arr.
  - destruct x; try apply keeps_panic. apply keeps_bind. intros v _. apply keeps_ok_arr.
  - destruct x; try apply keeps_panic; apply keeps_arr.
  - apply do_compare_keeps.
  - apply do_permute_keeps; auto.
  - apply do_reshape_keeps; auto.
  - apply do_reduce_axes_keeps; auto.
  - apply do_unfold_keeps; auto.
  - apply do_mode_keeps; auto.
Qed.
End Call.

Section Reached.
Context {F : Fl}.
Hypothesis NL : NLaws F.
Lemma held_kept : forall x : value F, held x -> kept x.
Proof.
  intros x [R FT]. split; [|exact FT]. destruct x as [X|X|X|X|? ?|? ?|? ?]; cbn [regular intact] in *; auto.
  - destruct R as [C H]. split; [apply C|]. intros H0 E. rewrite H in E. injection E as <-. auto.
  - destruct R as [C H]. split; [apply C|]. intros H0 E. rewrite H in E. injection E as <-. auto.
  - destruct R as (C & SV & H). split; [apply C|]. intros H0 E. rewrite H in E. injection E as <-. auto 6.
  - apply R.
Qed.
Lemma regular_valid : forall c : call F, regular_arguments c -> valid_arguments c.
Proof.
  intros c V. destruct c; cbn [regular_arguments valid_arguments] in *; auto; try tauto.
  - destruct V as (H1 & H2 & [H3|H3]); auto. split; auto. split; auto. right. apply H3.
  - apply V.
Qed.
Lemma reached_held : forall h : list (value F), reached h -> Forall held h.
Proof.
  intros h R. induction R as [|h e c h' R IH FE V NX D E FT]; [constructor|].
  assert (EX : exists v, exec e h c = Ok v /\ h' = h ++ [v]).
  { destruct c; cbn [step] in E; try (match type of E with bind ?r _ = _ => destruct r as [v| | |] eqn:EE; try discriminate E; exists v; split; auto; injection E; auto end).
    exfalso. apply NX. exact I. }
  destruct EX as (v & EX & ->). rewrite forallb_app in FT. apply andb_true_iff in FT. destruct FT as [_ FT]. cbn [forallb] in FT. rewrite andb_true_r in FT.
  apply Forall_app. split; [exact IH|]. constructor; [|constructor]. split; [|exact FT].
  pose proof (exec_keeps NL e FE h c IH V NX D v EX FT) as SO.
  assert (GD : good v).
  { assert (SF := exec_safe NL e FE h c). assert (KH : Forall kept h) by (eapply Forall_impl; [|exact IH]; apply held_kept).
    specialize (SF KH (regular_valid _ V) D). rewrite EX in SF. exact SF. }
  specialize (GD FT). destruct v as [X|X|X|X|? ?|? ?|? ?]; first [exact SO | exact GD].
Qed.
End Reached.
