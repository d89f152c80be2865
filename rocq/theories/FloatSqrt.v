(** The rounding error of the square root of IEEE binary64. *)
Require Import ZArith Bool Lia QArith Qabs Qpower Lqa.
Require Import Coq.Floats.SpecFloat.
Require Import Verif.Values Verif.SpecAccuracy Verif.FloatErr Verif.FloatDiv Verif.FloatRange Verif.FloatValid.
Local Open Scope Z_scope.

Lemma sq_lt : forall a b, 0 <= a -> 0 <= b -> a * a < b * b -> a < b.
Proof. intros. nia. Qed.
(** The remainder of the integer root locates the root. *)
Lemma root_location : forall m' q r, 0 <= q -> m' = q * q + r -> 0 <= r <= 2 * q -> let t := quarter (if Zeq_bool r 0 then loc_Exact else loc_Inexact (if Zle_bool r q then Lt else Gt)) in
  (t = 0 /\ 16 * m' = (4 * q + t) * (4 * q + t)) \/ (Z.odd (4 * q + t) = true /\ (4 * q + t - 1) * (4 * q + t - 1) <= 16 * m' <= (4 * q + t + 1) * (4 * q + t + 1)).
Proof.
  intros m' q r Q E R t. subst t. destruct (Zeq_bool r 0) eqn:Z.
  - apply Zeq_bool_eq in Z. left. cbn [quarter]. split; [reflexivity|nia].
  - apply Zeq_bool_neq in Z. right. destruct (Zle_bool r q) eqn:L; cbn [quarter].
    + apply Z.leb_le in L. split; [rewrite Z.odd_add, Z.odd_mul; reflexivity|nia].
    + apply Z.leb_gt in L. split; [rewrite Z.odd_add, Z.odd_mul; reflexivity|nia].
Qed.
(** Rounding [4 sqrt m'] to a multiple of [2 b], at least [P b]. *)
Lemma root_squares : forall A b P W, 0 < b -> 1 < P -> P * b <= A -> (A - b) * (A - b) <= W <= (A + b) * (A + b) -> (P * b) * (P * b) <= W ->
  (P - 1) * (P - 1) * W <= P * P * (A * A) <= (P + 1) * (P + 1) * W.
Proof.
  intros A b P W B0 P1 AB [W1 W2] WB. split.
  - apply Z.le_trans with ((P - 1) * (P - 1) * ((A + b) * (A + b))); [apply Z.mul_le_mono_nonneg_l; [nia|exact W2]|].
    assert (H : (P - 1) * (A + b) <= P * A) by nia. assert (0 <= (P - 1) * (A + b)) by nia.
    replace ((P - 1) * (P - 1) * ((A + b) * (A + b))) with ((P - 1) * (A + b) * ((P - 1) * (A + b))) by ring. replace (P * P * (A * A)) with (P * A * (P * A)) by ring. apply Z.mul_le_mono_nonneg; assumption.
  - destruct (Z.le_gt_cases ((P + 1) * b) A) as [C|C].
    + apply Z.le_trans with ((P + 1) * (P + 1) * ((A - b) * (A - b))); [|apply Z.mul_le_mono_nonneg_l; [nia|exact W1]].
      assert (H : P * A <= (P + 1) * (A - b)) by nia. replace ((P + 1) * (P + 1) * ((A - b) * (A - b))) with ((P + 1) * (A - b) * ((P + 1) * (A - b))) by ring. replace (P * P * (A * A)) with (P * A * (P * A)) by ring. apply Z.mul_le_mono_nonneg; nia.
    + apply Z.le_trans with ((P + 1) * (P + 1) * (P * b * (P * b))); [|apply Z.mul_le_mono_nonneg_l; [nia|exact WB]].
      replace ((P + 1) * (P + 1) * (P * b * (P * b))) with (P * ((P + 1) * b) * (P * ((P + 1) * b))) by ring. replace (P * P * (A * A)) with (P * A * (P * A)) by ring. apply Z.mul_le_mono_nonneg; nia.
Qed.
Lemma sqrt_core : forall m e, double (S754_finite false m e) -> let r := SFsqrt prec emax (S754_finite false m e) in
  double r /\ b64_finite r = true /\ (0 <= number r)%Q /\
  ((1 - u) * (1 - u) * (inject_Z (Zpos m) * q2 e) <= number r * number r)%Q /\ (number r * number r <= (1 + u) * (1 + u) * (inject_Z (Zpos m) * q2 e))%Q.
Proof.
  intros m e DX r. subst r. pose proof (double_shape _ _ _ DX) as (TX & SX). pose proof (double_grain _ DX) as GX. cbn [grain] in GX. pose proof (double_canonical _ _ _ DX) as CX. rewrite fexp64_eq in CX.
  unfold SFsqrt, SFsqrt_core_binary. change (fexp prec emax) with fexp64. cbn [Zdigits2].
  set (d := Zpos (digits2_pos m)) in *. assert (D1 : 1 <= d) by (unfold d; lia). set (h := Z.div2 (d + e + 1)). assert (HH : 2 * h <= d + e + 1 <= 2 * h + 1) by (unfold h; pose proof (Z.div2_odd (d + e + 1)) as O; destruct (Z.odd (d + e + 1)); cbn [Z.b2z] in O; lia).
  set (g := Z.div2 e). assert (GG : 2 * g <= e <= 2 * g + 1) by (unfold g; pose proof (Z.div2_odd e) as O; destruct (Z.odd e); cbn [Z.b2z] in O; lia).
  set (e' := Z.min (fexp64 h) g). assert (EH : fexp64 h = h - 53) by (rewrite fexp64_eq; lia).
  assert (E1 : e' <= h - 53) by (unfold e'; lia). assert (E2 : e' <= g) by (unfold e'; lia). assert (E3 : -600 <= e') by (unfold e'; lia).
  set (sh := e - 2 * e'). assert (S0 : 0 <= sh) by (unfold sh; lia).
  assert (EM : match sh with 0%Z => Zpos m | Zpos _ => Z.shiftl (Zpos m) sh | Zneg _ => 0%Z end = (Zpos m * 2 ^ sh)%Z).
  { destruct sh as [|p|p] eqn:ES; [rewrite Z.pow_0_r; lia|apply Z.shiftl_mul_pow2; lia|lia]. }
  rewrite EM. set (m' := (Zpos m * 2 ^ sh)%Z). assert (P2 : (0 < 2 ^ sh)%Z) by (apply Z.pow_pos_nonneg; lia). assert (M0 : (0 < m')%Z) by (unfold m'; nia).
  pose proof (Z.sqrtrem_spec m' ltac:(lia)) as SQ. destruct (Z.sqrtrem m') as [q r]. destruct SQ as [EQ RR].
  assert (Q0 : 0 <= q) by lia. set (l := if Zeq_bool r 0 then loc_Exact else loc_Inexact (if Zle_bool r q then Lt else Gt)).
  pose proof (root_location m' q r Q0 EQ RR) as RL. cbv zeta in RL. fold l in RL. pose proof (quarter_range l) as TR. set (t := quarter l) in *.
  pose proof (digits2_bounds m) as [DL DU]. fold d in DL, DU.
  assert (ML : 2 ^ 104 <= m').
  { apply Z.le_trans with (2 ^ (d - 1) * 2 ^ sh); [|unfold m'; apply Z.mul_le_mono_nonneg_r; lia]. rewrite <- Z.pow_add_r by lia. apply Z.pow_le_mono_r; [lia|]. unfold sh. lia. }
  assert (QL : 2 ^ 52 <= q). { destruct (Z.le_gt_cases (2 ^ 52) q) as [A|A]; [exact A|exfalso]. change (2 ^ 104) with (2 ^ 52 * 2 ^ 52) in ML. nia. }
  assert (MU : m' < 2 ^ (d + sh)). { unfold m'. rewrite Z.pow_add_r by lia. apply Z.mul_lt_mono_pos_r; lia. }
  assert (QP : 0 < q) by lia. pose proof (digits_quarter q t QP TR) as DQ.
  assert (QD : 53 <= Zdigits2 q). { destruct q as [|qp|qp]; try lia. cbn [Zdigits2]. pose proof (digits2_bounds qp) as [_ U]. destruct (Z.le_gt_cases 53 (Zpos (digits2_pos qp))) as [A|A]; [exact A|exfalso]. assert (2 ^ Zpos (digits2_pos qp) <= 2 ^ 52) by (apply Z.pow_le_mono_r; lia). lia. }
  assert (EF : fexp64 (Zdigits2 q + e') = fexp64 (Zdigits2 (4 * q + t) + (e' - 2))) by (rewrite DQ; f_equal; lia).
  assert (GE : e' <= fexp64 (Zdigits2 q + e')) by (rewrite fexp64_eq; lia).
  rewrite (round_location false q e' l Q0 EF GE). fold t.
  (* an upper bound on the size *)
  assert (QU : Zdigits2 q + e' <= 600).
  { assert (q * q < 2 ^ (d + sh)) by nia. destruct q as [|qp|qp]; try lia. cbn [Zdigits2]. pose proof (digits2_bounds qp) as [L _]. set (dq := Zpos (digits2_pos qp)) in *.
    assert (2 ^ (dq - 1) * 2 ^ (dq - 1) < 2 ^ (d + sh)) by (eapply Z.le_lt_trans; [apply Z.mul_le_mono_nonneg; [apply Z.pow_nonneg; lia|exact L|apply Z.pow_nonneg; lia|exact L]|exact H]).
    assert (1 <= dq) by (unfold dq; lia). rewrite <- Z.pow_add_r in H0 by lia. apply Z.pow_lt_mono_r_iff in H0; [|lia|lia]. unfold sh in H0. lia. }
  destruct (4 * q + t) as [|M|M] eqn:EMq; try lia. cbn [Zdigits2] in *. set (dm := Zpos (digits2_pos M)) in *.
  set (k := steps M (e' - 2)). assert (KE : k = dm - 53) by (unfold k, steps; rewrite fexp64_eq; fold dm; lia). assert (K2 : 2 <= k) by lia.
  split; [apply round_aux_double; fold k; lia|]. assert (FI : b64_finite (binary_round_aux prec emax false (Zpos M) (e' - 2) loc_Exact) = true) by (apply round_aux_digits; fold dm; lia). split; [exact FI|].
  destruct (round_aux_spec false M (e' - 2)) as (M' & f & E & M'0 & _ & _ & K1). fold k in K1. destruct (K1 ltac:(lia)) as [EN LEf]. rewrite E in FI |- *. rewrite number_pack by auto. unfold sg. rewrite Z.mul_1_l.
  set (N := nearest (Zpos M) k) in *. pose proof (nearest_spec (Zpos M) k ltac:(lia) ltac:(lia)) as (NB & ER & EX). fold N in NB, ER, EX.
  pose proof (digits2_bounds M) as [BL _]. fold dm in BL. set (b := 2 ^ (k - 1)) in *. assert (B0 : 0 < b) by (apply Z.pow_pos_nonneg; lia). assert (B2 : 2 ^ k = 2 * b) by (unfold b; rewrite <- Z.pow_succ_r by lia; f_equal; lia).
  assert (PB : 2 ^ (dm - 1) = 2 ^ 53 * b) by (unfold b; rewrite <- Z.pow_add_r by lia; f_equal; lia).
  assert (NL : 2 ^ 52 <= N). { eapply Z.le_trans; [|apply NB]. apply Z.div_le_lower_bound; [lia|]. rewrite B2. lia. }
  set (A := N * 2 ^ k) in *. assert (AB : 2 ^ 53 * b <= A) by (unfold A; rewrite B2; nia).
  assert (SW : (A - b) * (A - b) <= 16 * m' <= (A + b) * (A + b) /\ (2 ^ 53 * b) * (2 ^ 53 * b) <= 16 * m').
  { destruct RL as [[T0 RL]|[OD [R1 R2]]].
    - rewrite RL. split; [|apply Z.mul_le_mono_nonneg; lia]. split; apply Z.mul_le_mono_nonneg; lia.
    - pose proof (odd_closer N k (Zpos M) K2 OD ER) as C. fold b A in C. assert (ME : Zpos M <> 2 ^ 53 * b) by (intros Q; rewrite Q, Z.odd_mul in OD; discriminate OD).
      split; [split|].
      + eapply Z.le_trans; [|exact R1]. apply Z.mul_le_mono_nonneg; lia.
      + eapply Z.le_trans; [exact R2|]. apply Z.mul_le_mono_nonneg; lia.
      + eapply Z.le_trans; [|exact R1]. apply Z.mul_le_mono_nonneg; lia. }
  destruct SW as [SW WB]. pose proof (root_squares A b (2 ^ 53) (16 * m') B0 ltac:(lia) AB SW WB) as [F1 F2].
  assert (EV : (inject_Z M' * q2 f == inject_Z A * q2 (e' - 2))%Q).
  { replace f with (f - (e' - 2) + (e' - 2))%Z at 1 by lia. rewrite q2_plus, <- q2_Z by lia. rewrite Qmult_assoc, <- inject_Z_mult. rewrite EN. reflexivity. }
  assert (EVX : (inject_Z (Zpos m) * q2 e == inject_Z (16 * m') * (q2 (e' - 2) * q2 (e' - 2)))%Q).
  { unfold m'. rewrite !inject_Z_mult, q2_Z by lia. assert (X : (q2 e == q2 sh * (inject_Z 16 * (q2 (e' - 2) * q2 (e' - 2))))%Q).
    { change (inject_Z 16) with (q2 4). rewrite <- !q2_plus. replace (sh + (4 + (e' - 2 + (e' - 2))))%Z with e by (unfold sh; lia). reflexivity. } rewrite X. ring. }
  pose proof (q2_pos (e' - 2)) as QQ. rewrite EV, EVX. clear - F1 F2 QQ AB B0. set (w := q2 (e' - 2)) in *.
  assert (A0 : 0 <= A) by lia. set (W := 16 * m') in *. clearbody A W w.
  split; [apply Qmult_le_0_compat; [rewrite <- (Zle_Qle 0); exact A0|apply Qlt_le_weak; exact QQ]|].
  assert (UE : (u == / inject_Z (2 ^ 53))%Q) by (vm_compute; reflexivity). assert (WW : (0 <= w * w)%Q) by (apply Qmult_le_0_compat; apply Qlt_le_weak; exact QQ).
  assert (PI : (inject_Z (2 ^ 53) * u == 1)%Q) by (vm_compute; reflexivity). assert (PP : (0 < inject_Z (2 ^ 53))%Q) by reflexivity. assert (U0 : (0 < u)%Q) by apply q2_pos.
  rewrite Zle_Qle in F1, F2. rewrite !inject_Z_mult in F1, F2. unfold Z.sub in F1. rewrite !inject_Z_plus in F1, F2. change (inject_Z (-(1))) with (-(1))%Q in F1. change (inject_Z 1) with 1%Q in F2.
  set (P := inject_Z (2 ^ 53)) in *. set (a := inject_Z A) in *. set (x := inject_Z W) in *. clearbody P a x.
  assert (UU : (0 <= u * u)%Q) by (apply Qmult_le_0_compat; apply Qlt_le_weak; exact U0).
  apply (Qmult_le_r' _ _ (u * u)) in F1; [|exact UU]. apply (Qmult_le_r' _ _ (u * u)) in F2; [|exact UU].
  assert (R1 : ((P + -(1)) * (P + -(1)) * x * (u * u) == (1 - u) * (1 - u) * x)%Q). { assert (X : ((P + -(1)) * u == 1 - u)%Q) by (rewrite Qmult_plus_distr_l, PI; ring). assert (Y : ((P + -(1)) * (P + -(1)) * x * (u * u) == ((P + -(1)) * u) * ((P + -(1)) * u) * x)%Q) by ring. rewrite Y, X. reflexivity. }
  assert (R2 : ((P + 1) * (P + 1) * x * (u * u) == (1 + u) * (1 + u) * x)%Q). { assert (X : ((P + 1) * u == 1 + u)%Q) by (rewrite Qmult_plus_distr_l, PI; ring). assert (Y : ((P + 1) * (P + 1) * x * (u * u) == ((P + 1) * u) * ((P + 1) * u) * x)%Q) by ring. rewrite Y, X. reflexivity. }
  assert (R3 : (P * P * (a * a) * (u * u) == a * a)%Q). { assert (Y : (P * P * (a * a) * (u * u) == (P * u) * (P * u) * (a * a))%Q) by ring. rewrite Y, PI. ring. }
  rewrite R1, R3 in F1. rewrite R2, R3 in F2. apply (Qmult_le_r' _ _ (w * w)) in F1; [|exact WW]. apply (Qmult_le_r' _ _ (w * w)) in F2; [|exact WW].
  assert (R4 : (a * w * (a * w) == a * a * (w * w))%Q) by ring. assert (R5 : ((1 - u) * (1 - u) * (x * (w * w)) == (1 - u) * (1 - u) * x * (w * w))%Q) by ring. assert (R6 : ((1 + u) * (1 + u) * (x * (w * w)) == (1 + u) * (1 + u) * x * (w * w))%Q) by ring.
  rewrite R4, R5, R6. split; assumption.
Qed.
(** The square root of a double that is not negative. *)
Lemma sqrt_err : forall x, double x -> b64_finite x = true -> SFltb x (S754_zero false) = false -> let r := SFsqrt prec emax x in
  double r /\ b64_finite r = true /\ (0 <= number r)%Q /\ ((1 - u) * (1 - u) * number x <= number r * number r)%Q /\ (number r * number r <= (1 + u) * (1 + u) * number x)%Q.
Proof.
  intros [s|s| |s m e] D FI LT r; try discriminate FI.
  - subst r. cbn [SFsqrt number]. split; [reflexivity|]. split; [reflexivity|]. split; [apply Qle_refl|]. assert (Z : forall c : Q, (c * 0 == 0)%Q) by (intros; ring). rewrite !Z. split; apply Qle_refl.
  - destruct s; [discriminate LT|]. exact (sqrt_core m e D).
Qed.
Lemma sqrt_double : forall x, double x -> double (SFsqrt prec emax x).
Proof. intros [s|s| |s m e] D; try exact D; [destruct s; reflexivity|]. destruct s; [reflexivity|]. apply (sqrt_core m e D). Qed.
