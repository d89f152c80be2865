(** Proofs about the N-dimensional kernels. *)
Require Import List ZArith Bool Lia Permutation Sorted Arith.
Require Import Verif.Res Verif.Values Verif.Spec Verif.Mem Verif.Lists Verif.NdLib Verif.PConvert Verif.MConvert Verif.MScalar Verif.MHash Verif.PHash Verif.MNd.
Import ListNotations.
Local Open Scope Z_scope.

Lemma usize_max_eq : usize_max = 2 ^ 64 - 1.
Proof. reflexivity. Qed.
Lemma i64_lt_usize : i64_max < usize_max.
Proof. reflexivity. Qed.

(** ** Positions *)
Lemma cells_nonneg : forall sh, Forall (fun n => 0 <= n) sh -> 0 <= cells sh.
Proof. induction 1; simpl; [lia|]. unfold cells in *. nia. Qed.

Lemma in_shape_pos : forall sh k, in_shape sh k -> Forall (fun n => 0 < n) sh.
Proof. induction 1; constructor; auto. lia. Qed.

Lemma cells_pos : forall sh, Forall (fun n => 0 < n) sh -> 0 < cells sh.
Proof. induction 1; simpl; [lia|]. unfold cells in *. nia. Qed.

Lemma position_bounds : forall sh k, in_shape sh k -> 0 <= position sh k < cells sh.
Proof.
  induction 1 as [|x n k sh [H1 H2] HF IH]; [unfold cells; simpl; lia|].
  pose proof (cells_pos sh (in_shape_pos _ _ HF)). change (cells (n :: sh)) with (n * cells sh).
  cbn [position]. nia.
Qed.

Lemma position_inj : forall sh k k', in_shape sh k -> in_shape sh k' -> position sh k = position sh k' -> k = k'.
Proof.
  intros sh k k' H. revert k'. induction H as [|x n k sh [H1 H2] HF IH]; intros k' H' E.
  - inv H'. auto.
  - inversion H' as [|y ? k0 ? [H3 H4] HF']; subst. cbn [position] in E.
    pose proof (position_bounds _ _ HF) as B1. pose proof (position_bounds _ _ HF') as B2.
    assert (x = y) by nia. subst y. f_equal. apply IH; auto. lia.
Qed.

Fixpoint sfx (sh : list Z) : list Z := match sh with [] => [] | _ :: sh' => cells sh' :: sfx sh' end.

Lemma sfx_length : forall sh, length (sfx sh) = length sh.
Proof. induction sh; simpl; auto. Qed.

Lemma checked_mul_ok : forall x y, x * y <= usize_max -> checked_mul x y = Ok (x * y).
Proof. intros. unfold checked_mul. destruct (Z.leb_spec (x * y) usize_max); auto. lia. Qed.
Lemma checked_mul_panic : forall x y, usize_max < x * y -> checked_mul x y = Panic.
Proof. intros. unfold checked_mul. destruct (Z.leb_spec (x * y) usize_max); auto. lia. Qed.
Lemma checked_add_ok : forall x y, x + y <= usize_max -> checked_add x y = Ok (x + y).
Proof. intros. unfold checked_add. destruct (Z.leb_spec (x + y) usize_max); auto. lia. Qed.
Lemma checked_add_panic : forall x y, usize_max < x + y -> checked_add x y = Panic.
Proof. intros. unfold checked_add. destruct (Z.leb_spec (x + y) usize_max); auto. lia. Qed.
Lemma checked_mul_inv : forall x y r, checked_mul x y = Ok r -> r = x * y /\ x * y <= usize_max.
Proof. intros x y r. unfold checked_mul. destruct (Z.leb_spec (x * y) usize_max); intros E; inv E. auto. Qed.
Lemma as_usize_id : forall x, 0 <= x <= i64_max -> as_usize x = x.
Proof. intros. apply Z.mod_small. pose proof i64_lt_usize. rewrite usize_max_eq in *. lia. Qed.
Lemma as_i64_id : forall x, x <= i64_max -> as_i64 x = x.
Proof. intros. unfold as_i64. destruct (Z.leb_spec x i64_max); auto. lia. Qed.

Lemma strides_rm_cons : forall n d1 sh, strides_rm (n :: d1 :: sh)
  = (let! ss := strides_rm (d1 :: sh) in let! s := checked_mul (hd 0 ss) d1 in Ok (s :: ss)).
Proof. reflexivity. Qed.

(** Whenever strides are produced they are the exact suffix products. *)
Lemma strides_rm_inv : forall sh ss, strides_rm sh = Ok ss -> ss = sfx sh.
Proof.
  induction sh as [|n sh IH]; intros ss E; [inv E; auto|].
  destruct sh as [|d1 sh]; [inv E; auto|].
  rewrite strides_rm_cons in E.
  destruct (strides_rm (d1 :: sh)) as [ss'| | |] eqn:ES; try discriminate. cbn [bind] in E.
  specialize (IH _ eq_refl). subst ss'. cbn [sfx hd] in E.
  destruct (checked_mul (cells sh) d1) as [s| | |] eqn:EM; try discriminate. inv E.
  apply checked_mul_inv in EM. destruct EM as [-> _]. cbn [sfx]. f_equal. change (cells (d1 :: sh)) with (d1 * cells sh). apply Z.mul_comm.
Qed.

Lemma max1_cells : forall sh, Forall (fun n => 0 <= n) sh ->
  1 <= cells (map (Z.max 1) sh) /\ cells sh <= cells (map (Z.max 1) sh).
Proof.
  induction 1 as [|n sh H HF [IH1 IH2]]; [unfold cells; simpl; lia|].
  cbn [map]. change (cells (Z.max 1 n :: map (Z.max 1) sh)) with (Z.max 1 n * cells (map (Z.max 1) sh)).
  change (cells (n :: sh)) with (n * cells sh). pose proof (cells_nonneg sh HF).
  assert (M1 : 1 <= Z.max 1 n) by lia. assert (M2 : n <= Z.max 1 n) by lia.
  revert M1 M2. generalize (Z.max 1 n) (cells (map (Z.max 1) sh)) IH1 IH2. intros. split; nia.
Qed.

Lemma shape_fits_cons : forall n sh, shape_fits (n :: sh) -> shape_fits sh.
Proof.
  intros n sh [H1 H2]. inv H1. split; auto. cbn [map] in H2.
  change (cells (Z.max 1 n :: map (Z.max 1) sh)) with (Z.max 1 n * cells (map (Z.max 1) sh)) in H2.
  pose proof (max1_cells sh H4) as [A _]. assert (M1 : 1 <= Z.max 1 n) by lia.
  revert M1 A H2. generalize (Z.max 1 n) (cells (map (Z.max 1) sh)). intros. nia.
Qed.

Lemma shape_fits_cells : forall sh, shape_fits sh -> cells sh <= usize_max.
Proof. intros sh [H1 H2]. pose proof (max1_cells sh H1). lia. Qed.

Lemma strides_rm_ok : forall sh, shape_fits sh -> strides_rm sh = Ok (sfx sh).
Proof.
  induction sh as [|n sh IH]; intros H; auto. destruct sh as [|d1 sh]; auto.
  rewrite strides_rm_cons. pose proof (shape_fits_cons _ _ H) as H1. rewrite IH by auto.
  cbn [bind sfx hd]. rewrite checked_mul_ok.
  - cbn [bind]. do 2 f_equal. change (cells (d1 :: sh)) with (d1 * cells sh). lia.
  - pose proof (shape_fits_cells _ H1) as HC. change (cells (d1 :: sh)) with (d1 * cells sh) in HC. lia.
Qed.

Lemma strides_ne_ok : forall sh, sh <> [] -> shape_fits sh -> strides_ne sh = Ok (sfx sh).
Proof. intros [|n sh] N H; [congruence|]. apply strides_rm_ok. auto. Qed.

(** With no empty dimension, a tail product that does not fit panics. *)
Lemma strides_rm_panic : forall sh, Forall (fun n => 0 < n) sh -> usize_max < cells (tl sh) -> strides_rm sh = Panic.
Proof.
  induction sh as [|n sh IH]; intros HF HC; [simpl in HC; unfold usize_max in HC; simpl in HC; lia|].
  cbn [tl] in HC. inv HF. destruct sh as [|d1 sh]; [simpl in HC; unfold usize_max in HC; simpl in HC; lia|].
  rewrite strides_rm_cons. cbn [tl] in IH.
  destruct (Z_lt_le_dec usize_max (cells sh)) as [L|L].
  - rewrite IH; auto.
  - destruct (strides_rm (d1 :: sh)) as [ss| | |] eqn:ES; auto.
    + apply strides_rm_inv in ES. subst ss. cbn [bind sfx hd].
      change (cells (d1 :: sh)) with (d1 * cells sh) in HC. rewrite checked_mul_panic by lia. auto.
    + exfalso. clear -ES. revert d1 ES. induction sh as [|e sh IH]; intros d1 ES; [discriminate|].
      rewrite strides_rm_cons in ES. destruct (strides_rm (e :: sh)) eqn:E; try discriminate.
      * cbn [bind] in ES. unfold checked_mul in ES. destruct (_ <=? _); discriminate.
      * eapply IH; eauto.
    + exfalso. clear -ES. revert d1 ES. induction sh as [|e sh IH]; intros d1 ES; [discriminate|].
      rewrite strides_rm_cons in ES. destruct (strides_rm (e :: sh)) eqn:E; try discriminate.
      * cbn [bind] in ES. unfold checked_mul in ES. destruct (_ <=? _); discriminate.
      * eapply IH; eauto.
Qed.

(** The checked linear index is exact, or the computation panics. *)
Lemma linearize_acc : forall sh k acc, in_shape sh k -> 0 <= acc <= usize_max ->
  foldM lin_step (combine (sfx sh) k) acc
    = if acc + position sh k <=? usize_max then Ok (acc + position sh k) else Panic.
Proof.
  intros sh k acc H. revert acc. induction H as [|x n k sh [H1 H2] HF IH]; intros acc HA.
  - simpl. rewrite Z.add_0_r. destruct (Z.leb_spec acc usize_max); auto. lia.
  - cbn [sfx combine foldM position]. unfold lin_step. cbn [fst snd]. rewrite as_usize_id by lia.
    pose proof (position_bounds _ _ HF) as B. pose proof (cells_pos sh (in_shape_pos _ _ HF)) as P.
    destruct (Z_lt_le_dec usize_max (x * cells sh)) as [L|L].
    + rewrite checked_mul_panic by lia. cbn [bind]. destruct (Z.leb_spec (acc + (x * cells sh + position sh k)) usize_max); auto. lia.
    + rewrite checked_mul_ok by lia. cbn [bind].
      destruct (Z_lt_le_dec usize_max (acc + x * cells sh)) as [L'|L'].
      * rewrite checked_add_panic by lia. cbn [bind]. destruct (Z.leb_spec (acc + (x * cells sh + position sh k)) usize_max); auto. lia.
      * rewrite checked_add_ok by lia. cbn [bind].
        replace (acc + (x * cells sh + position sh k)) with (acc + x * cells sh + position sh k) by lia.
        apply IH. nia.
Qed.

Lemma linearize_exact : forall sh k, in_shape sh k ->
  linearize (sfx sh) k = if position sh k <=? usize_max then Ok (position sh k) else Panic.
Proof. intros sh k H. unfold linearize. rewrite linearize_acc by (auto; unfold usize_max; lia). reflexivity. Qed.

Lemma linearize_ok : forall sh k, in_shape sh k -> cells sh <= usize_max -> linearize (sfx sh) k = Ok (position sh k).
Proof.
  intros sh k H C. rewrite linearize_exact by auto. pose proof (position_bounds _ _ H).
  destruct (Z.leb_spec (position sh k) usize_max); auto. lia.
Qed.

Lemma div_pos : forall x c r, 0 <= r < c -> (x * c + r) / c = x.
Proof. intros. rewrite Z.add_comm, Z.div_add by lia. rewrite Z.div_small by lia. lia. Qed.

Lemma delinearize_ok : forall sh k, in_shape sh k -> delinearize (sfx sh) (position sh k) = Ok k.
Proof.
  induction 1 as [|x n k sh [H1 H2] HF IH]; auto. cbn [sfx delinearize position].
  pose proof (position_bounds _ _ HF) as B. destruct (Z.eqb_spec (cells sh) 0); [lia|].
  rewrite div_pos by auto. replace (x * cells sh + position sh k - x * cells sh) with (position sh k) by lia.
  rewrite IH. cbn [bind]. rewrite as_i64_id by auto. auto.
Qed.

Lemma delinearize0_ok : forall sh k, in_shape sh k -> delinearize0 (sfx sh) (position sh k) = k.
Proof.
  induction 1 as [|x n k sh [H1 H2] HF IH]; auto. cbn [sfx delinearize0 position].
  pose proof (position_bounds _ _ HF) as B. destruct (Z.eqb_spec (cells sh) 0); [lia|].
  rewrite div_pos by auto. replace (x * cells sh + position sh k - x * cells sh) with (position sh k) by lia.
  rewrite IH. rewrite as_i64_id by auto. auto.
Qed.

(** Every position is the position of some coordinates. *)
Lemma position_surj : forall sh p, Forall (fun n => n <= i64_max + 1) sh -> Forall (fun n => 0 <= n) sh ->
  0 <= p < cells sh -> exists k, in_shape sh k /\ position sh k = p.
Proof.
  induction sh as [|n sh IH]; intros p HB HN HP.
  - exists []. split; [constructor|]. simpl in *. lia.
  - inv HB. inv HN. change (cells (n :: sh)) with (n * cells sh) in HP.
    pose proof (cells_nonneg sh H4) as C.
    assert (CP : 0 < cells sh) by nia.
    destruct (IH (p mod cells sh) H2 H4) as (k & K1 & K2). { apply Z.mod_pos_bound. auto. }
    exists (p / cells sh :: k). split.
    + constructor; auto.
      assert (0 <= p / cells sh) by (apply Z.div_pos; lia).
      assert (p / cells sh < n) by (apply Z.div_lt_upper_bound; lia). lia.
    + cbn [position]. rewrite K2. pose proof (Z.div_mod p (cells sh) ltac:(lia)). lia.
Qed.

Lemma product_checked_acc : forall sh acc p, foldM checked_mul sh acc = Ok p -> p = acc * cells sh.
Proof.
  induction sh as [|n sh IH]; intros acc p E; cbn [foldM] in E.
  - inv E. unfold cells. simpl. lia.
  - destruct (checked_mul acc n) as [a| | |] eqn:EM; try discriminate. cbn [bind] in E.
    apply checked_mul_inv in EM. destruct EM as [-> _]. apply IH in E. change (cells (n :: sh)) with (n * cells sh). lia.
Qed.
Lemma product_checked_inv : forall sh p, product_checked sh = Ok p -> p = cells sh.
Proof. intros sh p E. apply product_checked_acc in E. lia. Qed.
Lemma product_checked_total : forall sh acc, exists r, foldM checked_mul sh acc = r /\ (r = Panic \/ exists p, r = Ok p).
Proof.
  induction sh as [|n sh IH]; intros acc; cbn [foldM].
  - eauto.
  - unfold checked_mul. destruct (_ <=? _); cbn [bind]; [apply IH|eauto].
Qed.
Lemma product_checked_ok : forall sh, shape_fits sh -> product_checked sh = Ok (cells sh).
Proof.
  intros sh [H1 H2].
  assert (G : forall l acc, Forall (fun n => 0 <= n) l -> 0 <= acc -> acc * cells (map (Z.max 1) l) <= usize_max ->
            foldM checked_mul l acc = Ok (acc * cells l)).
  { induction l as [|n l IH]; intros acc HF HA HC; cbn [foldM].
    - f_equal. unfold cells. simpl. lia.
    - inv HF. cbn [map] in HC. change (cells (Z.max 1 n :: map (Z.max 1) l)) with (Z.max 1 n * cells (map (Z.max 1) l)) in HC.
      pose proof (max1_cells l H4) as [M1 M2].
      assert (N1 : 1 <= Z.max 1 n) by lia. assert (N2 : n <= Z.max 1 n) by lia.
      assert (acc * n <= usize_max /\ acc * n * cells (map (Z.max 1) l) <= usize_max) as [Q1 Q2].
      { revert HC N1 N2 M1. generalize (Z.max 1 n) (cells (map (Z.max 1) l)). intros m c. intros.
        assert (acc * n <= acc * m) by nia. assert (acc * m <= acc * m * c) by nia.
        assert (acc * n * c <= acc * m * c) by nia. nia. }
      rewrite checked_mul_ok by auto. cbn [bind].
      rewrite IH; auto; try nia. change (cells (n :: l)) with (n * cells l). f_equal. lia. }
  unfold product_checked. rewrite G; auto; try lia. f_equal. lia.
Qed.

(** ** Axis lists *)
Lemma mark_axes_spec : forall axes seen,
  (forall seen', foldM mark_axis axes seen = Ok seen' ->
     NoDup axes /\ Forall (fun d => (d < length seen)%nat /\ nth d seen true = false) axes /\ length seen' = length seen /\
     forall d, (d < length seen)%nat -> nth d seen' true = (nth d seen true || existsb (Nat.eqb d) axes)) /\
  (NoDup axes -> Forall (fun d => (d < length seen)%nat /\ nth d seen true = false) axes ->
     exists seen', foldM mark_axis axes seen = Ok seen') /\
  (foldM mark_axis axes seen = Panic \/ exists seen', foldM mark_axis axes seen = Ok seen').
Proof.
  induction axes as [|p axes IH]; intros seen; cbn [foldM].
  - split; [|split; eauto]. intros seen' E. inv E. split; [constructor|]. split; [constructor|]. split; auto.
    intros. simpl. rewrite orb_false_r. auto.
  - replace (mark_axis seen p) with (match nth_error seen p with Some false => Ok (upd seen p true) | _ => Panic end) by reflexivity.
    destruct (nth_error seen p) as [[|]|] eqn:EN; cbn [bind].
    + split; [discriminate|]. split; auto. intros _ H. inv H. destruct H2 as [_ H2].
      apply nth_error_nth with (d := true) in EN. congruence.
    + assert (LP : (p < length seen)%nat) by (eapply nth_error_lt; eauto).
      apply nth_error_nth with (d := true) in EN.
      destruct (IH (upd seen p true)) as (I1 & I2 & I3). rewrite upd_length in *. split; [|split; auto].
      * intros seen' E. destruct (I1 seen' E) as (ND & FA & LE & NT). split; [|split; [|split]]; auto.
        -- constructor; auto. intros I. rewrite Forall_forall in FA. apply FA in I. destruct I as [_ I].
           rewrite nth_upd, Nat.eqb_refl in I by auto. discriminate.
        -- constructor; auto. apply Forall_forall. intros d I. rewrite Forall_forall in FA. apply FA in I. destruct I as [I1' I2'].
           split; auto. rewrite nth_upd in I2' by auto. destruct (Nat.eqb p d); congruence.
        -- intros d Hd. rewrite NT by auto. rewrite nth_upd by auto. simpl. rewrite (Nat.eqb_sym d p).
           destruct (Nat.eqb_spec p d); simpl; auto. subst. rewrite EN. auto.
      * intros ND FA. inv ND. inv FA. apply I2; auto. apply Forall_forall. intros d I.
        rewrite Forall_forall in H4. destruct (H4 d I) as [A1 A2]. split; auto. rewrite nth_upd by auto.
        destruct (Nat.eqb_spec p d); auto. subst. contradiction.
    + split; [discriminate|]. split; auto. intros _ H. inv H. destruct H2 as [H2 _]. apply nth_error_None in EN. lia.
Qed.

Notation others := other_axes.

Lemma nth_repeat' : forall {A} n (a d : A) i, (i < n)%nat -> nth i (repeat a n) d = a.
Proof. induction n; intros a d [|i] H; simpl; auto; try lia. apply IHn. lia. Qed.

Lemma mark_axes_ok : forall ndim axes, axes_ok ndim axes ->
  exists seen, mark_axes ndim axes = Ok seen /\ unmarked seen = others ndim axes.
Proof.
  intros ndim axes [ND FA]. unfold mark_axes.
  destruct (mark_axes_spec axes (repeat false ndim)) as (I1 & I2 & _).
  assert (FA' : Forall (fun d => (d < length (repeat false ndim))%nat /\ nth d (repeat false ndim) true = false) axes).
  { rewrite repeat_length. eapply Forall_impl; [|exact FA]. intros d Hd. split; auto. apply nth_repeat'. auto. }
  destruct (I2 ND FA') as (seen & E). exists seen. split; auto.
  destruct (I1 seen E) as (_ & _ & LE & NT). rewrite repeat_length in *. unfold unmarked, others. rewrite LE.
  apply filter_ext_in. intros d Hd. apply in_seq in Hd. rewrite NT by lia. rewrite nth_repeat' by lia. auto.
Qed.

Lemma mark_axes_bad : forall ndim axes, ~ axes_ok ndim axes -> mark_axes ndim axes = Panic.
Proof.
  intros ndim axes N. unfold mark_axes. destruct (mark_axes_spec axes (repeat false ndim)) as (I1 & _ & [I3|[seen I3]]); auto.
  exfalso. apply N. destruct (I1 seen I3) as (ND & FA & _). split; auto. rewrite repeat_length in FA.
  eapply Forall_impl; [|exact FA]. intros d [H _]. auto.
Qed.

Lemma others_ok : forall ndim axes, axes_ok ndim (others ndim axes).
Proof.
  intros. split.
  - apply NoDup_filter, seq_NoDup.
  - apply Forall_forall. intros d I. apply filter_In in I. destruct I as [I _]. apply in_seq in I. lia.
Qed.

Lemma select_shape : forall sh axes, Forall (fun d => (d < length sh)%nat) axes -> mapM (get_checked sh) axes = Ok (select axes sh).
Proof.
  intros sh axes H. apply mapM_ok. intros d I. rewrite Forall_forall in H. apply H in I.
  unfold get_checked. rewrite (nth_error_nth' sh 0) by auto. auto.
Qed.

Lemma select_in_shape : forall sh axes k, Forall (fun d => (d < length sh)%nat) axes -> in_shape sh k -> in_shape (select axes sh) (select axes k).
Proof.
  intros sh axes k FA H. pose proof (in_shape_length _ _ H) as L. unfold select. induction FA as [|d axes Hd FA IH]; [constructor|].
  cbn [map]. constructor; auto. 
  apply (Forall2_nth_error (fun x n => 0 <= x < n /\ x <= i64_max) k sh d); auto; apply nth_error_nth'; lia.
Qed.

(** ** Reading entries *)
Section Entries.
Context {F : Fl}.
Implicit Types (A : Nd F) (E : list (list Z * F)).

Lemma nd_keys_nth : forall A k, nd_ok A -> (k < length (nd_dat A))%nat ->
  nth_error (nd_keys A) k = Some (firstn (length (nd_shape A)) (skipn (k * length (nd_shape A)) (nd_idx A))).
Proof.
  intros A k OK. pose proof (nd_len _ OK) as L. unfold nd_keys. revert L. generalize (nd_idx A) (length (nd_shape A)) (length (nd_dat A)).
  intros l d n. revert l k. induction n; intros l k L H; [lia|].
  simpl chunks. destruct k; simpl; auto. rewrite IHn; try (rewrite skipn_length; lia); try lia.
  rewrite skipn_skipn'. do 3 f_equal. 
Qed.

Lemma coord_nth : forall A k key d, nd_ok A -> nth_error (nd_keys A) k = Some key -> (d < length (nd_shape A))%nat ->
  nth_error (nd_idx A) (k * length (nd_shape A) + d) = Some (nth d key 0).
Proof.
  intros A k key d OK E Hd. assert (HK : (k < length (nd_dat A))%nat) by (rewrite <- nd_keys_length; eapply nth_error_lt; eauto).
  rewrite nd_keys_nth in E by auto. injection E as <-.
  rewrite <- nth_error_skipn'. rewrite <- (nth_error_firstn' _ (length (nd_shape A))) by auto.
  apply nth_error_nth'. rewrite firstn_length, skipn_length, (nd_len _ OK). nia.
Qed.

Lemma coords_ok : forall A axes k key, nd_ok A -> Forall (fun d => (d < length (nd_shape A))%nat) axes ->
  nth_error (nd_keys A) k = Some key -> coords A axes k = Ok (select axes key) /\ coords_unchecked A axes k = Ok (select axes key).
Proof.
  intros A axes k key OK FA E. unfold coords, coords_unchecked, select. split; apply mapM_ok; intros d I;
    rewrite Forall_forall in FA; unfold get_checked, get_unchecked; rewrite (coord_nth A k key d OK E) by auto; auto.
Qed.

Lemma select_all : forall k n, length k = n -> select (seq 0 n) k = k.
Proof. intros k n <-. apply map_seq_nth. Qed.

(** Reading all entries in order. *)
Lemma mapM_seq : forall {B C} (l : list C) (f : nat -> res B) (g : C -> B),
  (forall k c, nth_error l k = Some c -> f k = Ok (g c)) -> mapM f (seq 0 (length l)) = Ok (map g l).
Proof.
  induction l as [|c l IH]; intros f g H; auto.
  cbn [length seq map mapM]. rewrite (H 0%nat c eq_refl). cbn [bind].
  rewrite <- seq_shift. rewrite mapM_map. rewrite (IH (fun k => f (S k)) g).
  - reflexivity.
  - intros k c' E. apply H. exact E.
Qed.

Lemma mapM_seq_entries : forall {B} A (f : nat -> res B) (g : list Z * F -> B), nd_ok A ->
  (forall k key v, nth_error (nd_keys A) k = Some key -> nth_error (nd_dat A) k = Some v ->
     in_shape (nd_shape A) key -> f k = Ok (g (key, v))) ->
  mapM f (seq 0 (length (nd_dat A))) = Ok (map g (nd_entries A)).
Proof.
  intros B A f g OK H. rewrite <- nd_entries_length. apply mapM_seq. intros k [key v] E.
  assert (I : In (key, v) (nd_entries A)) by (eapply nth_error_In; eauto).
  apply (H k key v).
  - rewrite <- nd_entries_keys. apply map_nth_error with (f := fst) in E. exact E.
  - rewrite <- nd_entries_vals. apply map_nth_error with (f := snd) in E. exact E.
  - pose proof (nd_entries_ok A OK) as FA. rewrite Forall_forall in FA. apply (FA _ I).
Qed.

Lemma entry_ops_ok : forall A axes f, nd_ok A -> Forall (fun d => (d < length (nd_shape A))%nat) axes ->
  cells (select axes (nd_shape A)) <= usize_max ->
  entry_ops A axes (sfx (select axes (nd_shape A))) f
    = Ok (map (fun e => (position (select axes (nd_shape A)) (select axes (fst e)), f (snd e))) (nd_entries A)).
Proof.
  intros A axes f OK FA C. unfold entry_ops.
  apply (mapM_seq_entries A _ (fun e => (position (select axes (nd_shape A)) (select axes (fst e)), f (snd e))) OK).
  intros k key v EK EV IS. destruct (coords_ok A axes k key OK FA EK) as [-> _]. cbn [bind fst snd].
  rewrite linearize_ok by (auto; apply select_in_shape; auto). cbn [bind].
  unfold get_checked. rewrite EV. auto.
Qed.

(** ** Accumulate, sort, emit *)
Definition lin_of (sh : list Z) (e : list Z * F) : Z * F := (position sh (fst e), snd e).

Lemma at_index_lin : forall sh E k, Forall (fun e => in_shape sh (fst e)) E -> in_shape sh k ->
  at_index (position sh k) (map (lin_of sh) E) = at_key k E.
Proof.
  intros sh E k FA IK. induction FA as [|[k' v] E H FA IH]; auto.
  cbn [map]. unfold lin_of at 1. cbn [fst snd]. rewrite at_index_cons', at_key_cons, IH.
  cbn [fst] in H. destruct (list_eq_dec Z.eq_dec k' k) as [->|N].
  - rewrite Z.eqb_refl. auto.
  - destruct (Z.eqb_spec (position sh k') (position sh k)); auto. exfalso. apply N. eapply position_inj; eauto.
Qed.

Lemma StronglySorted_map' : forall {X Y} (f : X -> Y) (R : Y -> Y -> Prop) l,
  StronglySorted (fun x y => R (f x) (f y)) l -> StronglySorted R (map f l).
Proof. induction 1; simpl; constructor; auto. rewrite Forall_map. auto. Qed.
Lemma StronglySorted_map_inv : forall {X Y} (f : X -> Y) (R : Y -> Y -> Prop) l,
  StronglySorted R (map f l) -> StronglySorted (fun x y => R (f x) (f y)) l.
Proof. induction l; simpl; intros H; constructor; inv H; auto. rewrite Forall_map in H3. auto. Qed.
Lemma StronglySorted_filter : forall {X} (R : X -> X -> Prop) g l, StronglySorted R l -> StronglySorted R (filter g l).
Proof.
  induction 1 as [|x l SS IH FA]; simpl; [constructor|]. destruct (g x); auto. constructor; auto.
  apply Forall_forall. intros y I. apply filter_In in I. rewrite Forall_forall in FA. apply FA. tauto.
Qed.

(** A list of pairs that lists each key of [E] once, in increasing order. *)
Definition key_lt (x y : Z * F) : Prop := fst x < fst y.
Lemma sorted_strict : forall (l : list (Z * F)), NoDup (map fst l) -> StronglySorted pair_le l -> StronglySorted key_lt l.
Proof.
  induction l as [|x l IH]; simpl; intros ND SS; constructor; inv ND; inv SS; auto.
  apply Forall_forall. intros y I. rewrite Forall_forall in H4. apply H4 in I as L. unfold pair_le, key_lt in *.
  assert (fst x <> fst y) by (intros Q; apply H1; rewrite Q; apply in_map; auto). lia.
Qed.

Lemma emit_ok : forall sh (ps : list (Z * F)), sh <> [] ->
  Forall (fun p => exists k, in_shape sh k /\ position sh k = fst p) ps -> StronglySorted key_lt ps ->
  exists O, emit (sfx sh) sh ps = Ok (nd_of sh O) /\ map (lin_of sh) O = ps /\
    Forall (fun e => in_shape sh (fst e)) O /\ nd_ok (nd_of sh O) /\ nd_entries (nd_of sh O) = O /\ nd_sorted (nd_of sh O).
Proof.
  intros sh ps N FA SS.
  assert (exists O, mapM (fun p => let! k := delinearize (sfx sh) (fst p) in Ok (k, snd p)) ps = Ok O /\
            map (lin_of sh) O = ps /\ Forall (fun e => in_shape sh (fst e)) O) as (O & E & EM & FO).
  { clear SS. induction FA as [|[lin v] ps (k & IK & EP) FA (O & E & EM & FO)].
    - exists []. auto.
    - cbn [fst] in EP. exists ((k, v) :: O). cbn [mapM fst snd]. rewrite <- EP, delinearize_ok by auto. cbn [bind].
      rewrite E. cbn [bind]. split; auto. split; [|constructor; auto]. cbn [map]. rewrite EM. unfold lin_of. cbn [fst snd]. congruence. }
  exists O. unfold emit. rewrite E. cbn [bind]. split; auto. split; auto. split; auto.
  assert (FL : Forall (fun e => length (fst e) = length sh) O).
  { eapply Forall_impl; [|exact FO]. intros. apply in_shape_length. auto. }
  split; [apply nd_of_ok; auto|]. split; [apply nd_of_entries; auto|].
  unfold nd_sorted. rewrite <- nd_entries_keys, nd_of_entries by auto. cbn [nd_of nd_shape].
  apply StronglySorted_map'. rewrite <- EM in SS. apply StronglySorted_map_inv in SS.
  exact SS.
Qed.

Lemma tally_keep : forall (g : F -> bool) ops P k, tally ops P ->
  at_index k (filter (fun p => g (snd p)) P) = filter g (left_sum (at_index k ops)).
Proof.
  intros g ops P k [_ AT]. rewrite <- AT. unfold at_index. clear AT.
  induction P as [|[k' v] P IH]; auto. simpl. destruct (g v) eqn:EG; simpl; destruct (k' =? k); simpl; rewrite ?EG, ?IH; auto.
Qed.

Lemma at_index_sorter : forall srt (P : list (Z * F)) k, is_sorter pair_le srt -> NoDup (map fst P) -> at_index k (srt P) = at_index k P.
Proof.
  intros srt P k HS ND. destruct (HS P) as [PM _]. apply perm_single.
  - apply at_index_perm. auto.
  - apply at_index_NoDup. auto.
Qed.

(** The common tail of the N-D kernels. *)
Lemma pipeline_ok : forall srt g cap sh E, is_sorter pair_le srt -> sh <> [] -> cells sh <= usize_max ->
  Forall (fun e => in_shape sh (fst e)) E ->
  exists m, accumulate cap (map (lin_of sh) E) = Ok m /\
  exists C, emit (sfx sh) sh (filter (fun p => g (snd p)) (sorted_pairs srt m)) = Ok C /\
    nd_ok C /\ nd_shape C = sh /\ nd_sorted C /\
    forall k, in_shape sh k -> nd_at C k = filter g (left_sum (at_key k E)).
Proof.
  intros srt g cap sh E HS N HC FA.
  destruct (accumulate_ok cap (map (lin_of sh) E)) as (m & EA & _ & TA).
  { rewrite Forall_map. eapply Forall_impl; [|exact FA]. intros e H. cbn [lin_of fst]. pose proof (position_bounds _ _ H). lia. }
  exists m. split; auto. pose proof TA as [ND AT]. destruct (HS (pairs m)) as [PM SS].
  assert (ND' : NoDup (map fst (srt (pairs m)))) by (eapply Permutation_NoDup; [apply Permutation_map; exact PM|auto]).
  destruct (emit_ok sh (filter (fun p => g (snd p)) (sorted_pairs srt m)) N) as (O & EE & EM & FO & OK & EN & SO).
  { apply Forall_forall. intros p I. apply filter_In in I. destruct I as [I _].
    apply Permutation_in with (l' := pairs m) in I; [|symmetry; exact PM].
    assert (I' : In (fst p) (map fst (map (lin_of sh) E))) by (apply (tally_keys _ (pairs m)); auto; apply in_map; auto).
    apply in_map_iff in I'. destruct I' as (q & EQ & IQ). apply in_map_iff in IQ. destruct IQ as (e & Ee & IE).
    rewrite Forall_forall in FA. exists (fst e). split; [apply FA; auto|]. rewrite <- EQ, <- Ee. auto. }
  { apply StronglySorted_filter. apply sorted_strict; auto. }
  exists (nd_of sh O). split; auto. split; auto. split; auto. split; auto.
  intros k IK. unfold nd_at. rewrite EN. rewrite <- (at_index_lin sh O k) by auto. rewrite EM.
  assert (TA' : tally (map (lin_of sh) E) (sorted_pairs srt m)).
  { split; auto. intros j. rewrite <- AT. apply at_index_sorter; auto. }
  rewrite (tally_keep g _ _ _ TA'). rewrite at_index_lin by auto. auto.
Qed.

Lemma filter_true : forall {X} (l : list X), filter (fun _ => true) l = l.
Proof. induction l; simpl; congruence. Qed.

End Entries.
