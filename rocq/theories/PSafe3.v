(** Memory safety of the N-D kernels and of the products with dense operands, for every
    structurally valid operand within the size limits. *)
Require Import List ZArith Bool Arith Lia Permutation Sorted.
Require Import ZifyBool ZifyNat.
Require Import Verif.Res Verif.Values Verif.Spec Verif.Mem Verif.Lists Verif.CsLib Verif.Laws Verif.NdLib Verif.SpecPy Verif.MCore Verif.MConvert Verif.PConvert Verif.PConvert2 Verif.PConvert3 Verif.PTrans Verif.MScalar Verif.PScalar Verif.MHash Verif.PHash.
Require Import Verif.MNd Verif.MNd2 Verif.PNd Verif.PNd2 Verif.PNd3 Verif.PNd4 Verif.PNd5 Verif.PropNd Verif.PropNd2 Verif.PropConvert Verif.MPy Verif.PPy Verif.PPy2 Verif.PropPy2 Verif.MObj Verif.PSafe Verif.PSafe2.
Import ListNotations.
Local Open Scope Z_scope.

(** ** Sizes *)
Lemma shape_cells_pos : forall sh, 1 <= shape_cells sh.
Proof.
  unfold shape_cells, cells. induction sh as [|n sh IH]; cbn [map fold_right]; [lia|].
  set (b := fold_right Z.mul 1 (map (Z.max 1) sh)) in *. assert (1 <= Z.max 1 n) by lia. nia.
Qed.
Lemma cells_shape_cells : forall sh, Forall (fun n => 0 <= n) sh -> 0 <= cells sh <= shape_cells sh.
Proof.
  unfold shape_cells, cells. induction 1 as [|n sh H F IH]; cbn [map fold_right]; [lia|].
  set (a := fold_right Z.mul 1 sh) in *. set (b := fold_right Z.mul 1 (map (Z.max 1) sh)) in *. nia.
Qed.
Lemma shape_cells_fits : forall sh, Forall (fun n => 0 <= n) sh -> shape_cells sh < i64_max -> shape_fits sh.
Proof. intros sh H1 H2. split; auto. unfold shape_cells, i64_max, usize_max in *. lia. Qed.
Lemma shape_cells_select : forall sh axes, axes_ok (length sh) axes -> shape_cells (select axes sh) <= shape_cells sh.
Proof.
  intros sh axes AX. pose proof (select_perm_shape sh axes AX) as P.
  unfold shape_cells. rewrite <- (cells_perm _ _ (Permutation_map (Z.max 1) P)), map_app, cells_app.
  pose proof (shape_cells_pos (select axes sh)). pose proof (shape_cells_pos (select (others (length sh) axes) sh)).
  unfold shape_cells in *. nia.
Qed.
Lemma shape_cells_app : forall a b, shape_cells (a ++ b) = shape_cells a * shape_cells b.
Proof. intros. unfold shape_cells. rewrite map_app. apply cells_app. Qed.
Lemma dim_le_cells : forall sh, Forall (fun n => 0 <= n) sh -> Forall (fun n => n <= shape_cells sh) sh.
Proof.
  intros sh H. apply Forall_forall. intros n I. revert n I. unfold shape_cells. induction H as [|m sh Hm F IH]; intros n I; [destruct I|].
  cbn [map]. change (cells (Z.max 1 m :: map (Z.max 1) sh)) with (Z.max 1 m * cells (map (Z.max 1) sh)).
  pose proof (shape_cells_pos sh) as P. unfold shape_cells in P.
  set (b := cells (map (Z.max 1) sh)) in *. assert (1 <= Z.max 1 m) by lia. destruct I as [<-|I]; [|apply IH in I]; nia.
Qed.
Lemma cells_positive : forall sh, Forall (fun n => 0 <= n) sh -> 0 < cells sh -> Forall (fun n => 0 < n) sh.
Proof.
  unfold cells. induction 1 as [|n sh H F IH]; cbn [fold_right]; intros P; constructor; [|apply IH];
  destruct (Z.eq_dec n 0) as [->|]; try lia;
  pose proof (cells_nonneg sh F) as N; unfold cells in N; destruct (Z.eq_dec (fold_right Z.mul 1 sh) 0) as [E|]; try rewrite E in *; lia.
Qed.
Lemma positive_shape_cells : forall sh, Forall (fun n => 0 < n) sh -> shape_cells sh = cells sh.
Proof.
  unfold shape_cells, cells. induction 1; cbn [map fold_right]; auto. rewrite IHForall. f_equal. lia.
Qed.
Lemma axes_ok_dec : forall n axes, axes_ok n axes \/ ~ axes_ok n axes.
Proof.
  intros. unfold axes_ok.
  destruct (ListDec.NoDup_dec Nat.eq_dec axes) as [N|N]; [|right; tauto].
  destruct (Forall_dec (fun d => (d < n)%nat) (fun d => lt_dec d n) axes) as [Q|Q]; [left|right]; tauto.
Qed.
Lemma other_axes_ok : forall n axes, axes_ok n (other_axes n axes).
Proof.
  intros. unfold other_axes. split; [apply NoDup_filter, seq_NoDup|]. apply Forall_forall. intros d I. apply filter_In in I. destruct I as [I _]. apply in_seq in I. lia.
Qed.

Definition nd_small {F : Fl} (A : Nd F) : Prop := Forall (fun n => 0 <= n) (nd_shape A) /\ shape_cells (nd_shape A) < i64_max.

Section Nd.
Context {F : Fl}.
(** a result without dimensions is refused by the constructor *)
Definition nd_fine (C : Nd F) : Prop := nd_shape C <> [] -> nd_ok C.

Lemma nd_positive : forall A : Nd F, nd_ok A -> (0 < length (nd_dat A))%nat -> Forall (fun n => 0 < n) (nd_shape A).
Proof.
  intros A OK N. pose proof (nd_bound _ OK) as B. rewrite <- nd_entries_keys in B.
  pose proof (nd_entries_length A) as EL. destruct (nd_entries A) as [|e es] eqn:E; [cbn in EL; lia|].
  cbn [map] in B. inv B. eapply in_shape_pos; eauto.
Qed.
Lemma fine_product : forall sh, fine (product_checked sh).
Proof.
  intros. unfold product_checked. apply fine_foldM. intros. unfold checked_mul. destruct (_ <=? _); exact I.
Qed.
Lemma fine_linearize : forall ss ks, fine (linearize ss ks).
Proof.
  intros. unfold linearize. apply fine_foldM. intros s a _. unfold lin_step. apply fine_bind.
  - unfold checked_mul. destruct (_ <=? _); exact I.
  - intros m. unfold checked_add. destruct (_ <=? _); exact I.
Qed.
Lemma fine_strides : forall sh, fine (strides_rm sh).
Proof.
  induction sh as [|n sh IH]; [exact I|]. cbn [strides_rm]. destruct sh as [|m sh]; [exact I|].
  apply fine_bind; auto. intros ss. apply fine_bind; [|intros; exact I]. unfold checked_mul. destruct (_ <=? _); exact I.
Qed.
Lemma empty_nd_fine : forall sh, nd_fine (mkNd sh [] ([] : list F)).
Proof. intros sh N. apply (nd_of_ok sh (@nil (list Z * F))); auto. Qed.

Lemma permute_safe : forall (A : Nd F) p, nd_ok A -> safe nd_fine (permute_axes_coond A p).
Proof.
  intros A p OK.
  assert (D : Permutation p (seq 0 (length (nd_shape A))) \/ ~ Permutation p (seq 0 (length (nd_shape A)))).
  { rewrite perm_axes_ok. destruct (axes_ok_dec (length (nd_shape A)) p) as [H|H]; [|right; tauto].
    destruct (Nat.eq_dec (length p) (length (nd_shape A))); [left|right]; tauto. }
  destruct D as [D|D].
  - destruct (C22_permute F A p OK D) as (C & -> & OC & _). intros _. exact OC.
  - rewrite (C22_not_a_permutation_panics F A p D). exact I.
Qed.

Lemma reshape_safe : forall sch (A : Nd F) sh, is_schedule sch -> nd_ok A -> nd_small A -> Forall (fun n => 0 <= n) sh ->
  safe nd_fine (reshape_coond sch A sh).
Proof.
  intros sch A sh HS OK [NN SM] NS.
  destruct (Z.eq_dec (cells (nd_shape A)) (cells sh)) as [EC|NE]; [|rewrite reshape_bad by auto; exact I].
  destruct (Nat.eq_dec (length (nd_dat A)) 0) as [E|E].
  - unfold reshape_coond. rewrite E. cbn [Nat.eqb].
    eapply safe_bind; [apply fine_product|]. intros oe _. eapply safe_bind; [apply fine_product|]. intros ne _. apply safe_assert. intros _.
    apply safe_ok. apply empty_nd_fine.
  - assert (P := nd_positive A OK ltac:(lia)). assert (CP := cells_pos _ P).
    assert (PS : Forall (fun n => 0 < n) sh) by (apply cells_positive; auto; lia).
    assert (SC := positive_shape_cells _ PS). rewrite (positive_shape_cells _ P) in SM.
    destruct (list_eq_dec Z.eq_dec sh []) as [->|NE].
    + unfold reshape_coond.
      eapply safe_bind; [apply fine_product|]. intros oe _. eapply safe_bind; [apply fine_product|]. intros ne _. apply safe_assert. intros _.
      destruct (length (nd_dat A) =? 0)%nat; [apply safe_ok; apply empty_nd_fine|].
      eapply safe_bind; [apply fine_strides|]. intros os _. cbn [strides_rm bind length].
      eapply safe_bind with (P := Forall2 (fun _ t => t = []) (seq 0 (length (nd_dat A)))).
      * apply safe_mapM. intros k Ik. apply in_seq in Ik. eapply safe_bind with (P := fun _ => True).
        -- unfold coords_unchecked. apply fine_mapM. intros d Id. unfold all_axes in Id. apply in_seq in Id.
           eapply safe_any. apply safe_get_unchecked. rewrite (nd_len _ OK). nia.
        -- intros ks _. eapply safe_bind; [apply fine_linearize|]. intros lin _. apply safe_ok. reflexivity.
      * intros tasks F2. assert (ET : concat tasks = []). { clear - F2. induction F2; auto. cbn [concat]. subst. auto. }
        rewrite ET. assert (ES : sch [] = []). { pose proof (HS []) as HP. apply Permutation_nil in HP. auto. }
        rewrite ES, Nat.mul_0_r. cbn. unfold nd_fine. cbn. intros Q. exfalso. apply Q. reflexivity.
    + destruct (C21_reshape F sch A sh HS OK NE) as (C & -> & OC & _).
      * apply shape_cells_fits; auto. rewrite positive_shape_cells; auto.
      * apply shape_cells_fits; auto. lia.
      * eapply Forall_impl; [|apply dim_le_cells; eauto]. intros n Hn. cbv beta in *. rewrite SC in Hn. unfold i64_max in *. lia.
      * exact EC.
      * intros _. exact OC.
Qed.

Lemma proper_dec : forall n axes, proper_axes n axes \/ ~ proper_axes n axes.
Proof.
  intros. unfold proper_axes. destruct (axes_ok_dec n axes); [|right; tauto]. destruct axes as [|a l]; [right; intros (_ & Q & _); congruence|].
  destruct (lt_dec (length (a :: l)) n); [left|right]; intuition congruence.
Qed.
Definition axes_kernel (red : (list (Z * F) -> list (Z * F)) -> Nd F -> list nat -> res (Nd F)) : Prop :=
  forall srt A axes, is_sorter pair_le srt -> nd_ok A -> nd_small A ->
  safe (fun C => nd_ok C /\ proper_axes (length (nd_shape A)) axes /\ nd_shape C = select (other_axes (length (nd_shape A)) axes) (nd_shape A)) (red srt A axes).
Lemma reduce_sum_safe : axes_kernel reduce_sum_axes_coond.
Proof.
  intros srt A axes HS OK [NN SM]. destruct (proper_dec (length (nd_shape A)) axes) as [P|P].
  - destruct (C26_reduce_sum F srt A axes HS OK (shape_cells_fits _ NN SM) P) as (C & -> & OC & E & _). simpl. auto.
  - destruct (C26_bad_axes_panic F srt A axes P) as [-> _]. exact I.
Qed.
Lemma reduce_mean_safe : axes_kernel reduce_mean_axes_coond.
Proof.
  intros srt A axes HS OK [NN SM]. destruct (proper_dec (length (nd_shape A)) axes) as [P|P].
  - destruct (C26_reduce_mean F srt A axes HS OK (shape_cells_fits _ NN SM) P) as (C & -> & OC & E & _). simpl. auto.
  - destruct (C26_bad_axes_panic F srt A axes P) as [_ ->]. exact I.
Qed.
Lemma fine_norm : forall ndim axis, fine (norm_axes ndim axis).
Proof.
  assert (H : forall ndim l a, fine (norm_one ndim l a)) by (intros; unfold norm_one; fines).
  intros. unfold norm_axes. destruct axis as [|a|[|a l]]; fines; apply H.
Qed.
Lemma reduce_nd_safe : forall red srt (A : Nd F) axis kd, axes_kernel red -> is_sorter pair_le srt -> nd_ok A -> nd_small A ->
  safe (fun o => match o with None => True | Some C => nd_ok C end) (reduce_nd (red srt A) (length (nd_shape A)) axis kd).
Proof.
  intros red srt A axis kd K HS OK SM. unfold reduce_nd. eapply safe_bind; [apply fine_norm|]. intros [axes|] _; [|exact I].
  destruct axes as [|a l]; [exact I|]. eapply safe_bind; [apply K; auto|]. intros R (OR & PA & ES).
  eapply safe_bind with (P := nd_ok); [|intros C OC; exact OC]. destruct kd; [|exact OR].
  destruct PA as (AX & _ & LT).
  destruct (with_keepdims_ok (length (nd_shape A)) (a :: l) (nd_shape A) R) as (C & -> & OC & _); auto. apply other_axes_pos; auto.
Qed.

Lemma unfold_safe : forall sch (A : Nd F) rows, is_schedule sch -> nd_ok A -> nd_small A ->
  safe (fun C : Coo F => coo_ok C /\ length (coo_data C) = length (nd_dat A)) (coond_axes_to_coo sch A rows).
Proof.
  intros sch A rows HS OK [NN SM]. destruct (axes_ok_dec (length (nd_shape A)) rows) as [AX|AX].
  - assert (SF := shape_cells_fits _ NN SM).
    assert (H : forall axes, axes_ok (length (nd_shape A)) axes -> cells (select axes (nd_shape A)) <= i64_max + 1).
    { intros axes HA. pose proof (shape_cells_select _ _ HA). pose proof (proj1 (shape_fits_select _ _ HA SF)) as N2.
      pose proof (cells_shape_cells _ N2). lia. }
    destruct (C25_unfold_to_coo F sch A rows HS OK AX) as (C & E & OC & _).
    { split; [auto|split; apply H; auto]. apply other_axes_ok. }
    rewrite E. split; [exact OC|]. clear - E. unfold coond_axes_to_coo in E.
    repeat match type of E with (bind ?r _ = _) => destruct r; try discriminate; cbn [bind] in E end.
    destruct (Nat.eqb_spec (length (nd_dat A)) 0) as [Z|Z].
    + inv E. cbn. auto.
    + repeat match type of E with (bind ?r _ = _) => destruct r; try discriminate; cbn [bind] in E end. inv E. reflexivity.
  - destruct (C25_bad_axes_panic F sch (fun l => l) A rows AX) as [-> _]. exact I.
Qed.
Lemma coo_to_csc_safe : forall srt (A : Coo F), is_sorter key2_le srt -> coo_ok A ->
  safe (fun B : Csc F => cs_ok B /\ csc_nrows B = coo_nrows A /\ csc_ncols B = coo_ncols A) (coo_to_csc srt A).
Proof.
  intros srt A HS OA. change (coo_to_csc srt A) with (coo_to_csr srt (PropConvert.coo_swap A) : res (Csc F)).
  eapply safe_imp; [apply coo_to_csr_safe; auto; apply PropConvert.coo_swap_ok; auto|].
  intros B (OB & E1 & E2). auto.
Qed.
Lemma unfold_csr_safe : forall sch srt (A : Nd F) rows, is_schedule sch -> is_sorter key2_le srt -> nd_ok A -> nd_small A ->
  safe cs_ok (coond_axes_to_csr sch srt A rows).
Proof.
  intros. unfold coond_axes_to_csr. eapply safe_bind; [apply unfold_safe; auto|]. intros C [OC _].
  eapply safe_imp; [apply coo_to_csr_safe; auto|]. intros B (OB & _). exact OB.
Qed.
Lemma unfold_csc_safe : forall sch srt (A : Nd F) rows, is_schedule sch -> is_sorter key2_le srt -> nd_ok A -> nd_small A ->
  safe cs_ok (coond_axes_to_csc sch srt A rows).
Proof.
  intros. unfold coond_axes_to_csc. eapply safe_bind; [apply unfold_safe; auto|]. intros C [OC _].
  eapply safe_imp; [apply coo_to_csc_safe; auto|]. intros B (OB & _). exact OB.
Qed.

Lemma spmv_nd_safe : forall srt (A : Nd F) axis x, is_sorter pair_le srt -> nd_ok A -> nd_small A ->
  safe nd_ok (spmv_coond srt A axis x).
Proof.
  intros srt A axis x HS OK [NN SM].
  assert (D : contractible A axis x \/ ~ contractible A axis x) by (unfold contractible; lia).
  destruct D as [D|D].
  - destruct (C29_spmv_nd F srt A axis x HS OK (shape_cells_fits _ NN SM) D) as (C & -> & OC & _). exact OC.
  - rewrite C29_mismatch_panics by auto. exact I.
Qed.

Lemma tensordot_nd_safe : forall srt (A : Nd F) axis b sh, is_sorter pair_le srt -> nd_ok A -> nd_small A ->
  Forall (fun n => 0 <= n) sh -> shape_cells (nd_shape A) * shape_cells sh < i64_max ->
  safe nd_ok (tensordot_coond srt A axis b sh).
Proof.
  intros srt A axis b sh HS OK [NN SM] NS DM.
  assert (D : ((length (nd_shape A) <= axis)%nat \/ sh = [] \/ Z.of_nat (length b) <> cells sh \/ hd 0 sh <> nth axis (nd_shape A) 0) \/
     ((axis < length (nd_shape A))%nat /\ sh <> [] /\ Z.of_nat (length b) = cells sh /\ hd 0 sh = nth axis (nd_shape A) 0)).
  { destruct (list_eq_dec Z.eq_dec sh []); [left; auto|].
    destruct (le_lt_dec (length (nd_shape A)) axis); [left; auto|].
    destruct (Z.eq_dec (Z.of_nat (length b)) (cells sh)); [|left; auto]. destruct (Z.eq_dec (hd 0 sh) (nth axis (nd_shape A) 0)); [|left; auto].
    right. auto. }
  destruct D as [D|(LA & NE & LB & HD)]; [rewrite C31_tensordot_nd_mismatch_panics by auto; exact I|].
  destruct sh as [|n rest]; [congruence|]. cbn [hd] in HD.
  assert (P1 := shape_cells_pos (nd_shape A)). assert (P2 := shape_cells_pos (n :: rest)).
  assert (SF : shape_fits (n :: rest)) by (apply shape_cells_fits; auto; nia).
  rewrite C31_tensordot_nd by auto.
  inv NS. assert (P3 := shape_cells_pos rest). assert (CR := cells_shape_cells rest H2).
  assert (EC : cells (nth axis (nd_shape A) 0 :: rest) = nth axis (nd_shape A) 0 * cells rest) by reflexivity.
  assert (ES : shape_cells (nth axis (nd_shape A) 0 :: rest) = Z.max 1 (nth axis (nd_shape A) 0) * shape_cells rest) by reflexivity.
  assert (EK : Z.of_nat (Z.to_nat (cells rest)) = cells rest) by lia.
  assert (LE : shape_cells rest <= shape_cells (nth axis (nd_shape A) 0 :: rest)) by (rewrite ES; nia).
  destruct (C30_spmm_nd F srt A axis b (Z.to_nat (cells rest)) HS OK) as (C & -> & OC & _); [|exact OC].
  split; [auto|]. split; [auto|]. rewrite EK. rewrite LB, EC.
  assert (CB : cells (nth axis (nd_shape A) 0 :: rest) <= shape_cells (nth axis (nd_shape A) 0 :: rest)) by (apply cells_shape_cells; constructor; auto).
  split; [reflexivity|]. split; [nia|]. split; [nia|].
  assert (SO := shape_cells_select (nd_shape A) (other_axes (length (nd_shape A)) [axis]) (other_axes_ok _ _)).
  apply shape_cells_fits.
  - apply Forall_app. split; [|constructor; [lia|constructor]].
    apply (shape_fits_select _ _ (other_axes_ok _ _) (shape_cells_fits _ NN SM)).
  - rewrite shape_cells_app. replace (shape_cells [cells rest]) with (Z.max 1 (cells rest)) by (unfold shape_cells, cells at 2; simpl; lia).
    assert (P4 := shape_cells_pos (select (other_axes (length (nd_shape A)) [axis]) (nd_shape A))). nia.
Qed.

Lemma broadcast_safe : forall scha schb ord threads srt (A B : Nd F),
  is_schedule scha -> is_schedule schb -> (forall l, Permutation l (ord l)) -> is_sorter pair_le srt ->
  nd_ok A -> nd_ok B -> nd_small A -> nd_small B ->
  shape_cells (broadcast_shape (nd_shape A) (nd_shape B)) < i64_max ->
  safe nd_fine (hadamard_broadcast_coond scha schb ord threads srt A B).
Proof.
  intros scha schb ord threads srt A B H1 H2 H3 H4 OA OB [NA SA] [NB SB] DM.
  destruct ((length (nd_dat A) =? 0)%nat || (length (nd_dat B) =? 0)%nat) eqn:E.
  - unfold hadamard_broadcast_coond. rewrite E. eapply safe_bind with (P := fun _ => True).
    + apply fine_mapM. intros ab _. unfold out_dim. fines.
    + intros osh _. apply safe_ok. apply empty_nd_fine.
  - assert (PA := nd_positive A OA ltac:(lia)). assert (PB := nd_positive B OB ltac:(lia)).
    assert (D : broadcastable (nd_shape A) (nd_shape B) \/ ~ broadcastable (nd_shape A) (nd_shape B)).
    { unfold broadcastable. generalize (pad_ones (Nat.max (length (nd_shape A)) (length (nd_shape B))) (nd_shape B)).
      induction (pad_ones (Nat.max (length (nd_shape A)) (length (nd_shape B))) (nd_shape A)) as [|a l IH]; intros [|b l'];
        try solve [left; constructor]; try solve [right; intros Q; inversion Q].
      destruct (IH l') as [IH'|IH']; [|right; intros Q; inversion Q; auto].
      assert (T : (a = b \/ a = 1 \/ b = 1) \/ ~ (a = b \/ a = 1 \/ b = 1)) by lia.
      destruct T as [T|T]; [left; constructor; auto|right; intros Q; inversion Q; auto]. }
    destruct D as [D|D]; [|rewrite C24_broadcast_mismatch_panics by auto; exact I].
    destruct (C24_broadcast F scha schb ord threads srt A B) as (C & -> & OC & _); auto; [|intros _; exact OC].
    assert (PC : Forall (fun n => 0 <= n) (broadcast_shape (nd_shape A) (nd_shape B))).
    { unfold broadcast_shape. apply Forall_forall. intros n I. apply in_map_iff in I. destruct I as ([a b] & <- & I).
      assert (I1 := in_combine_l _ _ _ _ I). assert (I2 := in_combine_r _ _ _ _ I). unfold pad_ones in I1, I2.
      apply in_app_or in I1. apply in_app_or in I2. rewrite Forall_forall in NA, NB.
      assert (0 <= a) by (destruct I1 as [I1|I1]; [apply repeat_spec in I1; lia|auto]).
      assert (0 <= b) by (destruct I2 as [I2|I2]; [apply repeat_spec in I2; lia|auto]).
      unfold bdim. cbn [fst snd]. destruct (a =? 1); auto. }
    pose proof (cells_shape_cells _ PC). unfold i64_max, usize_max in *. lia.
Qed.
End Nd.
