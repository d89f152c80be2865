(** Algebraic laws of the value operations: those of IEEE arithmetic up to the
    sign of zero ([NLaws]) and those of exact arithmetic ([ELaws]); proofs for
    the two instances. *)
Require Import List ZArith Bool Permutation Lia.
Require Import Coq.Floats.SpecFloat QArith Qcanon.
Require Import Verif.Values Verif.Spec.
Import ListNotations.

Record NLaws (F : Fl) : Prop := {
  n_zero : feqb (f0 : F) f0 = true;
  n_add_0_l : forall x : F, feqv (fadd f0 x) x;
  n_add_0_r : forall x : F, feqv (fadd x f0) x;
  n_add_feqv : forall x x' y y' : F, feqv x x' -> feqv y y' -> feqv (fadd x y) (fadd x' y');
  n_sub_feqv : forall x x' y y' : F, feqv x x' -> feqv y y' -> feqv (fsub x y) (fsub x' y');
  n_sub_0_r : forall x : F, feqv (fsub x f0) x;
  n_sub_add : forall x y : F, fsub x y = fadd x (fneg y);
  n_add_comm : forall x y : F, fadd x y = fadd y x;
  n_mul_feqv : forall x x' y y' : F, feqv x x' -> feqv y y' -> feqv (fmul x y) (fmul x' y');
  n_mul_comm : forall x y : F, fmul x y = fmul y x;
  n_neg_feqv : forall x x' : F, feqv x x' -> feqv (fneg x) (fneg x');
  n_neg_neg : forall x : F, fneg (fneg x) = x;
  n_mul_0_finite : forall x : F, ffinite x = true -> feqv (fmul f0 x) f0;
  n_mul_0_0 : feqv (fmul (f0 : F) f0) f0;
  n_finite_feqv : forall x y : F, feqv x y -> ffinite x = ffinite y;
  n_eqb_sym : forall x y : F, feqb x y = feqb y x;
  n_sub_diag : forall x : F, ffinite x = true -> feqv (fsub x x) f0;
  n_div_feqv : forall x x' y : F, feqv x x' -> feqb y f0 = false -> feqv (fdiv x y) (fdiv x' y);
  n_floor_feqv : forall x x' : F, feqv x x' -> feqv (ffloor x) (ffloor x')
}.

(** Exact arithmetic: a field with decidable order. *)
Record ELaws (F : Fl) : Prop := {
  e_eqb : forall x y : F, feqb x y = true <-> x = y;
  e_add_0_l : forall x : F, fadd f0 x = x;
  e_add_comm : forall x y : F, fadd x y = fadd y x;
  e_add_assoc : forall x y z : F, fadd x (fadd y z) = fadd (fadd x y) z;
  e_sub : forall x y : F, fsub x y = fadd x (fneg y);
  e_add_neg : forall x : F, fadd x (fneg x) = f0;
  e_mul_1_l : forall x : F, fmul f1 x = x;
  e_mul_comm : forall x y : F, fmul x y = fmul y x;
  e_mul_assoc : forall x y z : F, fmul x (fmul y z) = fmul (fmul x y) z;
  e_distr_l : forall x y z : F, fmul (fadd x y) z = fadd (fmul x z) (fmul y z);
  e_fma : forall x y z : F, ffma x y z = fadd (fmul x y) z;
  e_div : forall x y : F, y <> f0 -> fmul (fdiv x y) y = x;
  e_finite : forall x : F, ffinite x = true;
  e_ofZ0 : fofZ 0 = (f0 : F);
  e_ofZ_S : forall z, (0 <= z)%Z -> fofZ (z + 1) = fadd (fofZ z) (f1 : F);
  e_ofZ_pos : forall z, (0 < z)%Z -> fofZ z <> (f0 : F);
  e_1_neq_0 : (f1 : F) <> f0
}.

(** ** [feqv] *)
Section Feqv.
Context {F : Fl}.
Implicit Types x y z : F.

Lemma feqv_refl : forall x, feqv x x.
Proof. left; auto. Qed.

Lemma feqv_sym : forall x y, feqv x y -> feqv y x.
Proof. intros x y [E|[A B]]; [left|right]; auto. Qed.

Lemma feqv_trans : forall x y z, feqv x y -> feqv y z -> feqv x z.
Proof.
  intros x y z [E|[A B]] [E'|[A' B']]; subst.
  - left; auto.
  - right; auto.
  - right; auto.
  - right; auto.
Qed.

Lemma feqv_zero : forall x y, feqv x y -> feqb x f0 = feqb y f0.
Proof. intros x y [E|[A B]]; congruence. Qed.

Lemma zero_feqv : forall x y, feqb x f0 = true -> feqb y f0 = true -> feqv x y.
Proof. right; auto. Qed.
End Feqv.

(** ** binary64 *)
Section B64.
Variable pw : spec_float -> spec_float -> spec_float.
Notation F := (f64 pw).

Lemma b64_zero_iff : forall x : F, feqb x f0 = true <-> exists s, x = S754_zero s.
Proof.
  intros x. simpl. unfold SFeqb, SFcompare, b64_zero. split.
  - destruct x as [s|s| |s m e]; intros H; eauto; try destruct s; discriminate.
  - intros [s ->]. reflexivity.
Qed.

Lemma b64_feqv_inv : forall x y : F, feqv x y <-> (x = y \/ exists s t, x = S754_zero s /\ y = S754_zero t).
Proof.
  intros. unfold feqv. rewrite !b64_zero_iff. split.
  - intros [E|[[s A] [t B]]]; eauto 6.
  - intros [E|(s & t & A & B)]; eauto 6.
Qed.

Lemma SFadd_comm : forall x y, SFadd prec emax x y = SFadd prec emax y x.
Proof.
  intros x y. unfold SFadd.
  destruct x as [s|s| |s m e], y as [t|t| |t n e']; auto; try (destruct s, t; reflexivity).
  rewrite (Z.min_comm e e'). f_equal. apply Z.add_comm.
Qed.

Lemma SFmul_comm : forall x y, SFmul prec emax x y = SFmul prec emax y x.
Proof.
  intros x y. unfold SFmul.
  destruct x as [s|s| |s m e], y as [t|t| |t n e']; auto; try (destruct s, t; reflexivity).
  rewrite (xorb_comm s t), (Pos.mul_comm m n), (Z.add_comm e e'). reflexivity.
Qed.

Lemma SFsub_add : forall x y, SFsub prec emax x y = SFadd prec emax x (SFopp y).
Proof.
  intros x y. unfold SFsub, SFadd, SFopp.
  destruct x as [s|s| |s m e], y as [t|t| |t n e']; auto; try (destruct s, t; reflexivity).
Qed.

Lemma SFopp_opp : forall x, SFopp (SFopp x) = x.
Proof. destruct x; simpl; auto; rewrite negb_involutive; auto. Qed.

Lemma f64_neg_feqv : forall x x' : F, feqv x x' -> feqv (fneg x) (fneg x').
Proof.
  intros x x' H. apply b64_feqv_inv in H. apply b64_feqv_inv.
  destruct H as [->|(s & t & -> & ->)]; [left; auto|]. right. simpl. eauto.
Qed.

Lemma f64_add_feqv : forall x x' y y' : F, feqv x x' -> feqv y y' -> feqv (fadd x y) (fadd x' y').
Proof.
  intros x x' y y' H1 H2. apply b64_feqv_inv in H1. apply b64_feqv_inv in H2. apply b64_feqv_inv.
  destruct H1 as [->|(s & t & -> & ->)], H2 as [->|(s' & t' & -> & ->)]; [left; auto| | |].
  - simpl. destruct x' as [u|u| |u m e]; simpl; auto.
    right. destruct u, s', t'; simpl; eauto.
  - simpl. destruct y' as [u|u| |u m e]; simpl; auto.
    right. destruct u, s, t; simpl; eauto.
  - right. simpl. destruct s, s', t, t'; simpl; eauto.
Qed.

Lemma f64_mul_feqv : forall x x' y y' : F, feqv x x' -> feqv y y' -> feqv (fmul x y) (fmul x' y').
Proof.
  intros x x' y y' H1 H2. apply b64_feqv_inv in H1. apply b64_feqv_inv in H2. apply b64_feqv_inv.
  destruct H1 as [->|(s & t & -> & ->)], H2 as [->|(s' & t' & -> & ->)]; [left; auto| | |].
  - simpl. destruct x' as [u|u| |u m e]; simpl; eauto.
  - simpl. destruct y' as [u|u| |u m e]; simpl; eauto.
  - right. simpl. eauto.
Qed.

Lemma SFsub_diag : forall x, b64_finite x = true -> exists s, SFsub prec emax x x = S754_zero s.
Proof.
  intros [s|s| |s m e]; simpl; intros H; try discriminate.
  - destruct s; simpl; eauto.
  - set (q := cond_Zopp _ _). rewrite Z.sub_diag. simpl. eauto.
Qed.

Lemma f64_laws : NLaws F.
Proof.
  constructor.
  - reflexivity.
  - intros x. apply b64_feqv_inv. simpl. destruct x as [s|s| |s m e]; simpl; auto. right. destruct s; do 2 eexists; split; reflexivity.
  - intros x. apply b64_feqv_inv. simpl. destruct x as [s|s| |s m e]; simpl; auto. right. destruct s; do 2 eexists; split; reflexivity.
  - apply f64_add_feqv.
  - intros. simpl. rewrite !SFsub_add. apply f64_add_feqv; auto. apply f64_neg_feqv; auto.
  - intros x. apply b64_feqv_inv. simpl. destruct x as [s|s| |s m e]; simpl; auto. right. destruct s; do 2 eexists; split; reflexivity.
  - apply SFsub_add.
  - apply SFadd_comm.
  - apply f64_mul_feqv.
  - apply SFmul_comm.
  - apply f64_neg_feqv.
  - apply SFopp_opp.
  - intros x H. apply b64_feqv_inv. simpl in *. destruct x as [s|s| |s m e]; simpl in *; try discriminate; eauto.
    right. do 2 eexists; split; reflexivity.
    right. do 2 eexists; split; reflexivity.
  - left. reflexivity.
  - intros x y H. apply b64_feqv_inv in H. destruct H as [->|(s & t & -> & ->)]; auto.
  - intros x y. simpl. unfold SFeqb, SFcompare.
    destruct x as [s|s| |s m e], y as [t|t| |t n e']; auto; try (destruct s; auto; fail); try (destruct t; auto; fail); try (destruct s, t; auto; fail).
    destruct s, t; auto; rewrite (Z.compare_antisym e' e); destruct (e' ?= e)%Z; simpl; auto;
      rewrite ?(Pos.compare_cont_antisym n m);
      destruct (Pos.compare_cont Eq n m) eqn:E; rewrite ?(Pos.compare_cont_antisym _ _ Eq); simpl;
      try (rewrite E; auto); auto;
      change (Pos.compare_cont Eq) with Pos.compare in *; rewrite Pos.compare_antisym, E; auto.
  - intros x H. destruct (SFsub_diag x H) as [s E]. apply b64_feqv_inv. right. exists s, false. split; auto.
  - intros x x' y H Hy. apply b64_feqv_inv in H. apply b64_feqv_inv.
    destruct H as [->|(s & t & -> & ->)]; [left; auto|].
    destruct y as [u|u| |u m e]; simpl in *; auto; try discriminate; right; eauto.
  - intros x x' H. apply b64_feqv_inv in H. apply b64_feqv_inv.
    destruct H as [->|(s & t & -> & ->)]; [left; auto|]. right. simpl. eauto.
Qed.
End B64.

(** ** Exact rationals *)
Lemma qc_eqb_iff : forall x y, qc_eqb x y = true <-> x = y.
Proof. intros. unfold qc_eqb. destruct (Qc_eq_dec x y); split; congruence. Qed.

Lemma Q2Qc_inject_plus : forall a b : Z,
  Q2Qc (inject_Z (a + b)) = Qcplus (Q2Qc (inject_Z a)) (Q2Qc (inject_Z b)).
Proof.
  intros. apply Qc_is_canon.
  transitivity (inject_Z (a + b)); [apply Qred_correct|].
  rewrite inject_Z_plus. symmetry. unfold Qcplus. etransitivity; [apply Qred_correct|].
  apply Qplus_comp; apply Qred_correct.
Qed.

Lemma qc_elaws : ELaws qc.
Proof.
  constructor; simpl.
  - apply qc_eqb_iff.
  - intros. ring.
  - intros. ring.
  - intros. ring.
  - intros. ring.
  - intros. ring.
  - intros. ring.
  - intros. ring.
  - intros. ring.
  - intros. ring.
  - intros. ring.
  - intros. field. auto.
  - auto.
  - reflexivity.
  - intros. apply Q2Qc_inject_plus.
  - intros z Hz E. apply Q2Qc_eq_iff in E. unfold Qeq in E. simpl in E. lia.
  - intros E. apply Q2Qc_eq_iff in E. discriminate.
Qed.

Lemma feqv_exact : forall {F} (L : ELaws F) (x y : F), feqv x y <-> x = y.
Proof.
  intros F L x y. unfold feqv. rewrite !(e_eqb _ L). split; [|auto].
  intros [E|[A B]]; congruence.
Qed.

Lemma exact_nlaws : forall F, ELaws F -> (forall x y : F, feqb x y = feqb y x) -> NLaws F.
Proof.
  intros F L SY.
  assert (A0r : forall x : F, fadd x f0 = x) by (intros; rewrite (e_add_comm _ L); apply (e_add_0_l _ L)).
  assert (CANC : forall x y z : F, fadd x y = fadd x z -> y = z).
  { intros x y z E. assert (fadd (fneg x) (fadd x y) = fadd (fneg x) (fadd x z)) by congruence.
    rewrite !(e_add_assoc _ L), (e_add_comm _ L (fneg x) x), (e_add_neg _ L), !(e_add_0_l _ L) in H. auto. }
  assert (N0 : fneg f0 = (f0 : F)).
  { apply (CANC f0). rewrite (e_add_neg _ L), (e_add_0_l _ L). auto. }
  assert (M0 : forall x : F, fmul f0 x = f0).
  { intros x. apply (CANC (fmul f0 x)). rewrite <- (e_distr_l _ L), (e_add_0_l _ L). symmetry. apply A0r. }
  constructor; intros;
    try (rewrite (feqv_exact L) in *); try (rewrite !(feqv_exact L) in *).
  - apply (e_eqb _ L); auto.
  - apply (e_add_0_l _ L).
  - apply A0r.
  - subst. try rewrite (feqv_exact L) in *. congruence.
  - subst. try rewrite (feqv_exact L) in *. congruence.
  - rewrite (e_sub _ L), N0. apply A0r.
  - apply (e_sub _ L).
  - apply (e_add_comm _ L).
  - subst. try rewrite (feqv_exact L) in *. congruence.
  - apply (e_mul_comm _ L).
  - congruence.
  - apply (CANC (fneg x)). rewrite (e_add_neg _ L), (e_add_comm _ L), (e_add_neg _ L). auto.
  - apply M0.
  - apply M0.
  - rewrite !(e_finite _ L). auto.
  - apply SY.
  - rewrite (e_sub _ L). apply (e_add_neg _ L).
  - congruence.
  - congruence.
Qed.

Lemma qc_laws : NLaws qc.
Proof.
  apply exact_nlaws. apply qc_elaws. intros. simpl. unfold qc_eqb.
  destruct (Qc_eq_dec x y), (Qc_eq_dec y x); congruence.
Qed.

(** ** [FSum] *)
Section FSumFacts.
Context {F : Fl}.

Fixpoint fsum (l : list F) : F := match l with [] => f0 | x :: l' => fadd x (fsum l') end.
Fixpoint fprod (l : list F) : F := match l with [] => f1 | x :: l' => fmul x (fprod l') end.

Lemma FSum_nil0 : feqb (f0 : F) f0 = true -> FSum [] (f0 : F).
Proof. intros. constructor; auto. Qed.

Lemma FSum_snoc : forall l (v x : F), FSum l v -> FSum (l ++ [x]) (fadd v x).
Proof. intros. apply FSum_add; auto. apply FSum_one. Qed.

(** A left fold of additions starting from a sum. *)
Lemma FSum_fold_left : forall (l : list F) l0 v0, FSum l0 v0 ->
  FSum (l0 ++ l) (fold_left fadd l v0).
Proof.
  induction l; intros l0 v0 H; simpl.
  - rewrite app_nil_r. auto.
  - replace (l0 ++ a :: l) with ((l0 ++ [a]) ++ l) by (rewrite <- app_assoc; auto).
    apply IHl. apply FSum_snoc. auto.
Qed.

Hypothesis L : ELaws F.

Lemma fsum_app : forall l l', fsum (l ++ l') = fadd (fsum l) (fsum l').
Proof.
  induction l; intros; simpl. symmetry. apply (e_add_0_l _ L).
  rewrite IHl. apply (e_add_assoc _ L).
Qed.

Lemma fsum_perm : forall l l', Permutation l l' -> fsum l = fsum l'.
Proof.
  induction 1; simpl; auto; try congruence.
  rewrite !(e_add_assoc _ L), (e_add_comm _ L y x). auto.
Qed.

(** In exact arithmetic [FSum] determines the value. *)
Lemma FSum_exact : forall l v, FSum l v -> v = fsum l.
Proof.
  induction 1; simpl.
  - apply (e_eqb _ L); auto.
  - rewrite (e_add_comm _ L). symmetry. apply (e_add_0_l _ L).
  - rewrite fsum_app. congruence.
  - rewrite <- (fsum_perm _ _ H). auto.
Qed.

Lemma e_mul_1_r : forall x : F, fmul x f1 = x.
Proof. intros. rewrite (e_mul_comm _ L). apply (e_mul_1_l _ L). Qed.

Lemma fprod_app : forall l l', fprod (l ++ l') = fmul (fprod l) (fprod l').
Proof.
  induction l; intros; simpl. symmetry. apply (e_mul_1_l _ L).
  rewrite IHl. apply (e_mul_assoc _ L).
Qed.

Lemma fprod_perm : forall l l', Permutation l l' -> fprod l = fprod l'.
Proof.
  induction 1; simpl; auto; try congruence.
  rewrite !(e_mul_assoc _ L), (e_mul_comm _ L y x). auto.
Qed.

Lemma FProd_exact : forall l v, FProd l v -> v = fprod l.
Proof.
  induction 1; simpl; auto.
  - symmetry. apply e_mul_1_r.
  - rewrite fprod_app. congruence.
  - rewrite <- (fprod_perm _ _ H). auto.
Qed.
End FSumFacts.
