(** A positive integer converts to a float that is neither zero nor NaN. *)
Require Import ZArith Bool Lia.
Require Import Coq.Floats.SpecFloat.
Require Import Verif.Values Verif.FloatFacts.
Local Open Scope Z_scope.

Lemma digits2_low : forall p, 2 ^ (Zpos (digits2_pos p) - 1) <= Zpos p.
Proof.
  induction p as [p IH|p IH|]; cbn [digits2_pos]; try (simpl; lia);
    replace (Zpos (Pos.succ (digits2_pos p)) - 1) with (Z.succ (Zpos (digits2_pos p) - 1)) by lia;
    rewrite Z.pow_succ_r by lia; lia.
Qed.

Lemma shr_1_m : forall mrs, 0 <= shr_m mrs -> shr_m (shr_1 mrs) = shr_m mrs / 2.
Proof.
  intros [m r s] H. cbn [shr_m] in *. destruct m as [|p|p]; [reflexivity| |lia].
  destruct p; cbn [shr_1 shr_m]; [| |reflexivity].
  - apply Z.div_unique with 1; lia.
  - apply Z.div_unique with 0; lia.
Qed.

Lemma iter_shr_m : forall p mrs, 0 <= shr_m mrs -> shr_m (iter_pos shr_1 p mrs) = shr_m mrs / 2 ^ Zpos p.
Proof.
  assert (D : forall m a b, 0 <= a -> 0 <= b -> m / 2 ^ a / 2 ^ b = m / 2 ^ (a + b)).
  { intros. rewrite Z.div_div by (try apply Z.pow_nonzero; try apply Z.pow_pos_nonneg; lia). rewrite Z.pow_add_r by lia. auto. }
  assert (N : forall m a, 0 <= m -> 0 <= a -> 0 <= m / 2 ^ a).
  { intros. apply Z.div_pos; auto. apply Z.pow_pos_nonneg; lia. }
  induction p as [p IH|p IH|]; intros mrs H; cbn [iter_pos].
  - assert (H1 : 0 <= shr_m (shr_1 mrs)) by (rewrite shr_1_m by auto; apply Z.div_pos; lia).
    rewrite IH, IH; auto; [|rewrite IH by auto; apply N; lia]. rewrite shr_1_m by auto.
    change 2 with (2 ^ 1) at 1. rewrite !D by lia. f_equal. f_equal. lia.
  - rewrite IH, IH; auto; [|rewrite IH by auto; apply N; lia]. rewrite !D by lia. f_equal. f_equal. lia.
  - rewrite shr_1_m by auto. auto.
Qed.

Lemma shr_fexp_pos : forall m e l, emin prec emax <= Zpos (digits2_pos m) + e - 1 -> exists p,
  shr_m (fst (shr_fexp prec emax (Zpos m) e l)) = Zpos p /\ emin prec emax <= snd (shr_fexp prec emax (Zpos m) e l).
Proof.
  intros m e l HE. unfold shr_fexp. cbn [Zdigits2]. unfold fexp.
  pose proof (digits2_low m) as DL. set (d := Zpos (digits2_pos m)) in *. set (em := emin prec emax) in *.
  assert (HM : forall l, shr_m (shr_record_of_loc (Zpos m) l) = Zpos m) by (intros [|[]]; reflexivity).
  unfold shr. destruct (Z.max (d + e - prec) em - e) as [|k|k] eqn:EK.
  - cbn [fst snd]. rewrite HM. exists m. split; auto. lia.
  - cbn [fst snd]. rewrite iter_shr_m by (rewrite HM; lia). rewrite HM.
    assert (L : 1 <= Zpos m / 2 ^ Zpos k).
    { apply Z.div_le_lower_bound; [apply Z.pow_pos_nonneg; lia|]. rewrite Z.mul_1_r. eapply Z.le_trans; [|exact DL].
      apply Z.pow_le_mono_r; unfold prec in *; lia. }
    destruct (Zpos m / 2 ^ Zpos k) as [|q|q] eqn:EQ; try lia. exists q. split; auto. lia.
  - cbn [fst snd]. rewrite HM. exists m. split; auto. lia.
Qed.

Lemma round_aux_pos : forall s m e, emin prec emax <= Zpos (digits2_pos m) + e - 1 ->
  (exists p e', binary_round_aux prec emax s (Zpos m) e loc_Exact = S754_finite s p e') \/
  binary_round_aux prec emax s (Zpos m) e loc_Exact = S754_infinity s.
Proof.
  intros s m e HE. unfold binary_round_aux. destruct (shr_fexp_pos m e loc_Exact HE) as (p & E1 & E2).
  destruct (shr_fexp prec emax (Zpos m) e loc_Exact) as [mrs e1]. cbn [fst snd] in *. rewrite E1.
  assert (exists q, round_nearest_even (Zpos p) (loc_of_shr_record mrs) = Zpos q) as [q EQ].
  { unfold round_nearest_even. destruct (loc_of_shr_record mrs) as [|[]]; eauto; [|exists (p + 1)%positive; lia]. destruct (Z.even (Zpos p)); eauto. exists (p + 1)%positive. lia. }
  rewrite EQ. destruct (shr_fexp_pos q e1 loc_Exact) as (r & E3 & _).
  { lia. }
  destruct (shr_fexp prec emax (Zpos q) e1 loc_Exact) as [mrs2 e2]. cbn [fst] in E3. rewrite E3.
  destruct (e2 <=? emax - prec); eauto.
Qed.

Lemma b64_ofZ_pos : forall n, 0 < n -> (exists m e, b64_ofZ n = S754_finite false m e) \/ b64_ofZ n = S754_infinity false.
Proof.
  intros [|p|p] H; try lia. unfold b64_ofZ, binary_normalize, binary_round. rewrite Z.add_0_r.
  unfold shl_align. destruct (fexp prec emax (Zpos (digits2_pos p)) - 0) as [|k|k] eqn:EK.
  - apply round_aux_pos. unfold emin, prec, emax. lia.
  - apply round_aux_pos. unfold emin, prec, emax. lia.
  - apply round_aux_pos. unfold fexp, emin, prec, emax in *. lia.
Qed.

Lemma f64_ofZ_pos : forall pw n, 0 < n -> feqb (fofZ n : f64 pw) f0 = false.
Proof.
  intros pw n H. cbn [feqb fofZ f64 f0]. destruct (b64_ofZ_pos n H) as [(m & e & ->)| ->]; reflexivity.
Qed.
Lemma f64_ofZ_0 : forall pw, (fofZ 0 : f64 pw) = f0.
Proof. reflexivity. Qed.

(** ** The square root of a number that is neither NaN nor negative is not NaN *)
Lemma shr_fexp_nonneg : forall m e l, 0 <= m -> 0 <= shr_m (fst (shr_fexp prec emax m e l)).
Proof.
  intros m e l H. unfold shr_fexp, shr.
  assert (HM : shr_m (shr_record_of_loc m l) = m) by (destruct l as [|[]]; reflexivity).
  destruct (_ - e) as [|k|k]; cbn [fst]; rewrite ?HM; auto. rewrite iter_shr_m by (rewrite HM; auto). rewrite HM.
  apply Z.div_pos; auto. apply Z.pow_pos_nonneg; lia.
Qed.

Lemma round_aux_number : forall s m e l, 0 <= m -> binary_round_aux prec emax s m e l <> S754_nan.
Proof.
  intros s m e l H. unfold binary_round_aux. pose proof (shr_fexp_nonneg m e l H) as H1.
  destruct (shr_fexp prec emax m e l) as [mrs e1]. cbn [fst] in H1.
  assert (H2 : 0 <= round_nearest_even (shr_m mrs) (loc_of_shr_record mrs)).
  { unfold round_nearest_even. destruct (loc_of_shr_record mrs) as [|[]]; try lia. destruct (Z.even _); lia. }
  pose proof (shr_fexp_nonneg _ e1 loc_Exact H2) as H3.
  destruct (shr_fexp prec emax _ e1 loc_Exact) as [mrs2 e2]. cbn [fst] in H3.
  destruct (shr_m mrs2); [discriminate| |lia]. destruct (_ <=? _); discriminate.
Qed.

Lemma f64_sqrt_number : forall pw (v : f64 pw), fnan v = false -> fltb v f0 = false -> fnan (fsqrt v) = false.
Proof.
  intros pw v N H. cbn [fnan fsqrt fltb f0 f64 car] in *. destruct v as [s|[]| |[] m e]; try discriminate; try reflexivity.
  cbn [SFsqrt].
  assert (G : forall mz, 0 <= fst (fst mz) -> (let '(mz, ez, lz) := mz in binary_round_aux prec emax false mz ez lz) <> S754_nan).
  { intros [[mz ez] lz] HZ. apply round_aux_number. auto. }
  specialize (G (SFsqrt_core_binary prec emax (Zpos m) e)).
  assert (HC : 0 <= fst (fst (SFsqrt_core_binary prec emax (Zpos m) e))).
  { unfold SFsqrt_core_binary. destruct (Z.sqrtrem _) as [q r] eqn:EQ.
    cbn [fst]. pose proof (f_equal fst EQ) as E1. rewrite Z.sqrtrem_sqrt in E1. cbn [fst] in E1. rewrite <- E1. apply Z.sqrt_nonneg. }
  destruct (SFsqrt_core_binary prec emax (Zpos m) e) as [[mz ez] lz]. specialize (G HC).
  destruct (binary_round_aux prec emax false mz ez lz); auto. congruence.
Qed.
