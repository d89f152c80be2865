(** Comparing doubles compares the numbers they stand for. *)
Require Import List ZArith Bool Lia QArith Qabs Qpower Lqa.
Require Import Coq.Floats.SpecFloat.
Require Import Verif.Values Verif.SpecAccuracy Verif.FloatErr Verif.FloatDiv Verif.FloatRange Verif.FloatValid.
Import ListNotations.
Local Open Scope Z_scope.

(** A larger exponent means a larger number: the mantissa of a double is normalised. *)
Lemma mantissa_top : forall s m e, double (S754_finite s m e) -> Zpos m < 2 ^ 53.
Proof.
  intros s m e D. apply double_canonical in D. rewrite fexp64_eq in D. pose proof (digits2_bounds m) as [_ B]. eapply Z.lt_le_trans; [exact B|]. apply Z.pow_le_mono_r; lia.
Qed.
Lemma mantissa_low : forall s m e, double (S754_finite s m e) -> -1074 < e -> 2 ^ 52 <= Zpos m.
Proof.
  intros s m e D H. destruct (double_shape _ _ _ D) as [_ [E|E]]; [lia|]. pose proof (digits2_bounds m) as [B _]. rewrite E in B. exact B.
Qed.
Local Open Scope Q_scope.
Lemma exponent_order : forall s t m e n f, double (S754_finite s m e) -> double (S754_finite t n f) -> (e < f)%Z -> inject_Z (Zpos m) * q2 e < inject_Z (Zpos n) * q2 f.
Proof.
  intros s t m e n f DX DY H. assert (G : (-1074 <= e)%Z) by (apply (double_grain _ DX)). pose proof (mantissa_top _ _ _ DX) as TM. pose proof (mantissa_low _ _ _ DY ltac:(lia)) as LN.
  rewrite <- (q2_move (Zpos n) f e) by lia. apply Qmult_lt_compat_r; [apply q2_pos|]. rewrite <- Zlt_Qlt. eapply Z.lt_le_trans; [exact TM|].
  assert (P : (2 ^ 1 <= 2 ^ (f - e))%Z) by (apply Z.pow_le_mono_r; lia). change (2 ^ 53)%Z with (2 ^ 52 * 2 ^ 1)%Z. nia.
Qed.
Lemma positive_order : forall s t m e n f, double (S754_finite s m e) -> double (S754_finite t n f) ->
  match (e ?= f)%Z with Lt => Lt | Gt => Gt | Eq => Pos.compare_cont Eq m n end = (inject_Z (Zpos m) * q2 e ?= inject_Z (Zpos n) * q2 f).
Proof.
  intros s t m e n f DX DY. symmetry. destruct (Z.compare_spec e f) as [E|E|E].
  - subst f. change (Pos.compare_cont Eq m n) with (Zpos m ?= Zpos n)%Z. pose proof (q2_pos e) as P. destruct (Z.compare_spec (Zpos m) (Zpos n)) as [C|C|C].
    + rewrite C. apply Qeq_alt. reflexivity.
    + apply -> Qlt_alt. apply Qmult_lt_compat_r; [exact P|]. rewrite <- Zlt_Qlt. exact C.
    + apply -> Qgt_alt. apply Qmult_lt_compat_r; [exact P|]. rewrite <- Zlt_Qlt. exact C.
  - apply -> Qlt_alt. apply (exponent_order s t); assumption.
  - apply -> Qgt_alt. apply (exponent_order t s); assumption.
Qed.
Lemma opp_order : forall p q, (- p ?= - q) = CompOpp (p ?= q).
Proof.
  intros p q. destruct (Qcompare_spec p q) as [C|C|C]; cbn [CompOpp].
  - apply -> Qeq_alt. rewrite C. reflexivity.
  - apply -> Qgt_alt. lra.
  - apply -> Qlt_alt. lra.
Qed.
Lemma number_sign : forall s m e, number (S754_finite s m e) == if s then - (inject_Z (Zpos m) * q2 e) else inject_Z (Zpos m) * q2 e.
Proof. intros s m e. cbn [number]. destruct s; [|reflexivity]. change (Zneg m) with (- Zpos m)%Z. rewrite inject_Z_opp. ring. Qed.
Lemma positive_number : forall m e, 0 < inject_Z (Zpos m) * q2 e.
Proof. intros m e. pose proof (q2_pos e) as P. apply Qmult_lt_0_compat; [reflexivity|exact P]. Qed.
Theorem compare_numbers : forall x y, double x -> double y -> b64_finite x = true -> b64_finite y = true -> SFcompare x y = Some (number x ?= number y).
Proof.
  intros x y DX DY FX FY. destruct x as [s|s| |s m e]; try discriminate FX; destruct y as [t|t| |t n f]; try discriminate FY; cbn [SFcompare].
  - reflexivity.
  - pose proof (positive_number n f) as P. rewrite number_sign. change (number (S754_zero s)) with 0. destruct t; f_equal; symmetry; [apply -> Qgt_alt; lra|apply -> Qlt_alt; lra].
  - pose proof (positive_number m e) as P. rewrite number_sign. change (number (S754_zero t)) with 0. destruct s; f_equal; symmetry; [apply -> Qlt_alt; lra|apply -> Qgt_alt; lra].
  - pose proof (positive_order _ _ _ _ _ _ DX DY) as O. pose proof (positive_number m e) as P. pose proof (positive_number n f) as P'. rewrite !number_sign. destruct s, t; try (f_equal; symmetry; [apply -> Qlt_alt; lra]); try (f_equal; symmetry; apply -> Qgt_alt; lra).
    + rewrite opp_order, <- O. destruct (e ?= f)%Z; reflexivity.
    + rewrite <- O. destruct (e ?= f)%Z; reflexivity.
Qed.
Corollary lt_numbers : forall x y, double x -> double y -> b64_finite x = true -> b64_finite y = true -> SFltb x y = match number x ?= number y with Lt => true | _ => false end.
Proof. intros x y DX DY FX FY. unfold SFltb. rewrite compare_numbers by assumption. reflexivity. Qed.
Corollary eq_numbers : forall x y, double x -> double y -> b64_finite x = true -> b64_finite y = true -> SFeqb x y = match number x ?= number y with Eq => true | _ => false end.
Proof. intros x y DX DY FX FY. unfold SFeqb. rewrite compare_numbers by assumption. reflexivity. Qed.
