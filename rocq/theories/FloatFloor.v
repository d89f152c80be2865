(** The integer part of a double, and quotients and remainders of integers held in doubles. *)
Require Import List ZArith Bool Lia QArith Qabs Qpower Qround Lqa.
Require Import Coq.Floats.SpecFloat.
Require Import Verif.Values Verif.SpecAccuracy Verif.FloatErr Verif.FloatDiv Verif.FloatRange Verif.FloatValid Verif.PAccuracy5.
Import ListNotations.
Local Open Scope Z_scope.

(** [f64::floor] is exact. *)
Lemma small_shift : forall m e, double (S754_finite false m e) -> e < 0 -> Zpos m < 2 ^ 53.
Proof.
  intros m e D H. apply double_canonical in D. rewrite fexp64_eq in D. pose proof (digits2_bounds m) as [_ B]. eapply Z.lt_le_trans; [exact B|]. apply Z.pow_le_mono_r; lia.
Qed.
Local Open Scope Q_scope.
Lemma floor_shift : forall z k, (0 < k)%Z -> Qfloor (inject_Z z * q2 (- k)) = (z / 2 ^ k)%Z.
Proof.
  intros z k K. assert (P : (0 < 2 ^ k)%Z) by (apply Z.pow_pos_nonneg; lia).
  assert (E : inject_Z z * q2 (- k) == z # Z.to_pos (2 ^ k)).
  { pose proof (q2_pos k) as QP. assert (NZ : ~ q2 k == 0) by (intros C; rewrite C in QP; discriminate QP).
    assert (I : q2 (- k) == / q2 k) by (apply Qpower_opp). rewrite I, <- q2_Z by lia. unfold Qeq, Qmult, Qinv, inject_Z. cbn. destruct (2 ^ k)%Z as [|p|p] eqn:EP; try lia. cbn. lia. }
  rewrite E. unfold Qfloor. rewrite Z2Pos.id by exact P. reflexivity.
Qed.
Lemma floor_exact : forall x, double x -> b64_finite x = true -> b64_finite (b64_floor x) = true /\ number (b64_floor x) == inject_Z (Qfloor (number x)).
Proof.
  intros [s|s| |s m e] D FI; try discriminate FI; [split; [reflexivity|]; cbn; reflexivity|]. cbn [b64_floor]. rewrite number_finite. destruct (Z.leb_spec 0 e) as [L|L].
  - split; [reflexivity|]. rewrite number_finite. rewrite <- q2_Z by exact L. rewrite <- inject_Z_mult, Qfloor_Z. reflexivity.
  - assert (E : signed s m = (sg s * Zpos m)%Z) by (destruct s; cbn [signed sg]; lia).
    assert (F : Qfloor (inject_Z (sg s * Zpos m) * q2 e) = (sg s * Zpos m / 2 ^ (- e))%Z) by (rewrite <- (floor_shift _ (- e)) by lia; rewrite Z.opp_involutive; reflexivity).
    rewrite F, E. assert (SM : (Zpos m < 2 ^ 53)%Z) by (apply (small_shift m e); [destruct s; exact D|exact L]).
    assert (P : (1 <= 2 ^ (- e))%Z) by (pose proof (Z.pow_pos_nonneg 2 (- e)); lia).
    apply normalize_exact; [change (q2 0) with 1; ring|]. clear - SM P.
    assert (B : (- Zpos m <= sg s * Zpos m <= Zpos m)%Z) by (destruct s; cbn [sg]; lia). set (z := (sg s * Zpos m)%Z) in *. set (p := (2 ^ - e)%Z) in *. clearbody z p.
    assert ((- 2 ^ 53 <= z / p)%Z) by (apply Z.div_le_lower_bound; nia). assert ((z / p <= 2 ^ 53)%Z) by (apply Z.div_le_upper_bound; nia). lia.
Qed.

(** A quotient that is an integer of at most 53 bits is exact. *)
Lemma exact_location : forall m2, (0 < m2)%Z -> new_location m2 0 = loc_Exact.
Proof. intros m2 H. unfold new_location, new_location_even, new_location_odd. destruct (Z.even m2); reflexivity. Qed.
Lemma quotient_exact : forall s m' m2 e N, (0 < m')%Z -> (0 < m2)%Z -> let q := (m' / m2)%Z in let l := new_location m2 (m' mod m2) in
  (e <= -1074 \/ 2 ^ 52 <= q)%Z -> inject_Z m' / inject_Z m2 * q2 e == inject_Z N -> (N <= 2 ^ 53)%Z ->
  let r := binary_round_aux prec emax s q e l in b64_finite r = true /\ number r == inject_Z (sg s * N).
Proof.
  intros s m' m2 e N P1 P2 q l LE EV B r.
  assert (M2 : ~ inject_Z m2 == 0) by (change 0 with (inject_Z 0); intros C; apply Zinj in C; lia).
  assert (EQ : m' = (q * m2)%Z /\ inject_Z q * q2 e == inject_Z N).
  { destruct (Z.le_gt_cases e 0) as [L|L].
    - assert (EM : inject_Z m' == inject_Z (N * 2 ^ (- e) * m2)).
      { rewrite !inject_Z_mult, q2_Z by lia. rewrite <- EV. assert (I : q2 e * q2 (- e) == 1) by (rewrite <- q2_plus, Z.add_opp_diag_r; reflexivity).
        assert (E2 : inject_Z m' / inject_Z m2 * q2 e * q2 (- e) * inject_Z m2 == inject_Z m' * (q2 e * q2 (- e))) by (field; exact M2). rewrite E2, I. ring. }
      apply Zinj in EM. assert (Q : q = (N * 2 ^ (- e))%Z) by (unfold q; rewrite EM; apply Z.div_mul; lia). split; [rewrite Q; exact EM|]. rewrite Q, inject_Z_mult, q2_Z by lia.
      assert (I : q2 (- e) * q2 e == 1) by (rewrite <- q2_plus, Z.add_opp_diag_l; reflexivity). rewrite <- Qmult_assoc, I. ring.
    - destruct LE as [LE|LE]; [lia|]. assert (EM : inject_Z (m' * 2 ^ e) == inject_Z (N * m2)).
      { rewrite !inject_Z_mult, q2_Z by lia. rewrite <- EV. field. exact M2. }
      apply Zinj in EM. pose proof (Z.mul_div_le m' m2 P2) as DL. fold q in DL.
      assert (E1 : e = 1%Z).
      { destruct (Z.eq_dec e 1) as [|NE]; [assumption|exfalso]. assert ((2 ^ 2 <= 2 ^ e)%Z) by (apply Z.pow_le_mono_r; lia). clear - EM B LE DL H P2. change (2 ^ 2)%Z with 4%Z in H. nia. }
      subst e. change (2 ^ 1)%Z with 2%Z in EM. assert (NB : (N = 2 ^ 53)%Z).
      { change (2 ^ 53)%Z with (2 * 2 ^ 52)%Z in *. clear - EM B LE DL P2. nia. }
      subst N. assert (EM' : m' = (2 ^ 52 * m2)%Z) by (change (2 ^ 53)%Z with (2 * 2 ^ 52)%Z in EM; lia). assert (Q : q = (2 ^ 52)%Z) by (unfold q; rewrite EM'; apply Z.div_mul; lia).
      split; [rewrite Q; exact EM'|]. rewrite Q. reflexivity. }
  destruct EQ as [EM EN]. assert (MOD : (m' mod m2 = 0)%Z) by (rewrite EM; apply Z.mod_mul; lia).
  assert (QP : (0 < q)%Z) by (clear - EM P1 P2; nia). unfold r, l. rewrite MOD, (exact_location m2 P2). destruct q as [|p|p]; try lia. apply round_aux_exact; assumption.
Qed.
Lemma div_exact : forall x y N, b64_finite x = true -> b64_finite y = true -> ~ number y == 0 -> number x / number y == inject_Z N -> (Z.abs N <= 2 ^ 53)%Z ->
  b64_finite (SFdiv prec emax x y) = true /\ number (SFdiv prec emax x y) == inject_Z N.
Proof.
  intros x y N FX FY NY H B. destruct x as [sx|sx| |sx mx ex]; destruct y as [sy|sy| |sy my ey]; try discriminate FX; try discriminate FY; try (exfalso; apply NY; reflexivity).
  { split; [reflexivity|]. rewrite <- H. change (number (S754_zero sx)) with 0. cbn [SFdiv number]. unfold Qdiv. ring. }
  unfold SFdiv, SFdiv_core_binary. change (fexp prec emax) with fexp64. cbn [Zdigits2].
  set (d1 := Zpos (digits2_pos mx)). set (d2 := Zpos (digits2_pos my)). set (e' := Z.min (fexp64 (d1 + ex - (d2 + ey))) (ex - ey)). set (sh := (ex - ey - e')%Z).
  assert (S0 : (0 <= sh)%Z) by (unfold sh, e'; lia).
  assert (EM : match sh with 0%Z => Zpos mx | Zpos _ => Z.shiftl (Zpos mx) sh | Zneg _ => 0%Z end = (Zpos mx * 2 ^ sh)%Z).
  { destruct sh as [|p|p] eqn:ES; [rewrite Z.pow_0_r; lia|apply Z.shiftl_mul_pow2; lia|lia]. }
  rewrite EM. set (m' := (Zpos mx * 2 ^ sh)%Z). assert (P2 : (0 < 2 ^ sh)%Z) by (apply Z.pow_pos_nonneg; lia). assert (M0 : (0 < m')%Z) by (unfold m'; nia).
  destruct (Z.div_eucl m' (Zpos my)) as [q r] eqn:DE. assert (EQ : q = (m' / Zpos my)%Z) by (unfold Z.div; rewrite DE; reflexivity). assert (ER : r = (m' mod Zpos my)%Z) by (unfold Z.modulo; rewrite DE; reflexivity). subst q r. clear DE.
  assert (LE : (e' <= -1074 \/ 2 ^ 52 <= m' / Zpos my)%Z).
  { destruct (Z.le_gt_cases e' (-1074)) as [A|A]; [left; exact A|right]. assert (B' : (e' <= d1 + ex - (d2 + ey) - 53)%Z) by (unfold e' in *; rewrite fexp64_eq in *; lia).
    pose proof (digits2_bounds mx) as [X1 _]. pose proof (digits2_bounds my) as [_ Y2]. fold d1 in X1. fold d2 in Y2. assert (1 <= d1 /\ 1 <= d2)%Z by (unfold d1, d2; lia).
    apply Z.div_le_lower_bound; [lia|]. apply Z.le_trans with (2 ^ (d1 - 1) * 2 ^ sh)%Z; [|unfold m'; apply Z.mul_le_mono_nonneg_r; lia].
    rewrite <- Z.pow_add_r by lia. apply Z.le_trans with (2 ^ d2 * 2 ^ 52)%Z; [apply Z.mul_le_mono_nonneg_r; lia|]. rewrite <- Z.pow_add_r by lia. apply Z.pow_le_mono_r; [lia|]. unfold sh. lia. }
  assert (EV : number (S754_finite sx mx ex) / number (S754_finite sy my ey) == inject_Z (sg (xorb sx sy)) * (inject_Z m' / inject_Z (Zpos my)) * q2 e').
  { rewrite !number_finite. unfold m'. rewrite !inject_Z_mult, q2_Z by lia. assert (EE : q2 ex == q2 sh * q2 e' * q2 ey) by (rewrite <- !q2_plus; unfold sh; replace (ex - ey - e' + e' + ey)%Z with ex by lia; reflexivity).
    rewrite EE. pose proof (q2_pos ey) as Q2. assert (N1 : ~ q2 ey == 0) by (intros C; rewrite C in Q2; discriminate Q2). assert (N2 : ~ inject_Z (Zpos my) == 0) by discriminate.
    destruct sx, sy; cbn [sg xorb]; change (inject_Z (-1)) with (-(1)); change (inject_Z 1) with 1; field; auto. }
  rewrite EV in H. destruct (quotient_exact (xorb sx sy) m' (Zpos my) e' (sg (xorb sx sy) * N) M0 ltac:(lia) LE) as [A C].
  - rewrite inject_Z_mult, <- H. destruct (xorb sx sy); cbn [sg]; change (inject_Z (-1)) with (-(1)); change (inject_Z 1) with 1; ring.
  - destruct (xorb sx sy); cbn [sg]; lia.
  - split; [exact A|]. etransitivity; [exact C|]. apply inject_Z_injective. destruct (xorb sx sy); cbn [sg]; lia.
Qed.

(** Integer quotients and remainders. *)
Lemma floor_unique : forall q z, inject_Z z <= q -> q < inject_Z (z + 1) -> Qfloor q = z.
Proof.
  intros q z A B. pose proof (Qfloor_le q) as L. pose proof (Qlt_floor q) as H.
  assert ((Qfloor q < z + 1)%Z) by (rewrite Zlt_Qlt; eapply Qle_lt_trans; eauto). assert ((z < Qfloor q + 1)%Z) by (rewrite Zlt_Qlt; eapply Qle_lt_trans; eauto). lia.
Qed.
Lemma u_scaled : u * inject_Z (2 ^ 53) == 1. Proof. vm_compute. reflexivity. Qed.
Lemma tiny_scaled : tiny * inject_Z (2 ^ 53) < u. Proof. vm_compute. reflexivity. Qed.
Lemma rounded_floor : forall q a b, b <> 0%Z -> (Z.abs a < 2 ^ 53)%Z -> (Z.abs b <= 2 ^ 53)%Z -> (a mod b <> 0)%Z ->
  Qabs (q - inject_Z a / inject_Z b) <= u * Qabs (inject_Z a / inject_Z b) + tiny -> Qfloor q = (a / b)%Z.
Proof.
  intros q a b NB LA LB R H. assert (NQ : ~ inject_Z b == 0) by (change 0 with (inject_Z 0); intros C; apply Zinj in C; lia).
  assert (PB : 0 < inject_Z (Z.abs b)) by (change 0 with (inject_Z 0); rewrite <- Zlt_Qlt; lia).
  assert (BP : ~ inject_Z (Z.abs b) == 0) by (intros C; rewrite C in PB; discriminate PB).
  assert (EB : u * Qabs (inject_Z a / inject_Z b) + tiny < 1 / inject_Z (Z.abs b)).
  { assert (E : Qabs (inject_Z a / inject_Z b) == inject_Z (Z.abs a) / inject_Z (Z.abs b)).
    { unfold Qdiv. rewrite Qabs_Qmult, inject_Z_abs. assert (QI : Qabs (/ inject_Z b) == / inject_Z (Z.abs b)) by (destruct b; [contradiction|reflexivity|reflexivity]). rewrite QI. reflexivity. }
    rewrite E. apply Qlt_shift_div_l; [exact PB|]. assert (E2 : (u * (inject_Z (Z.abs a) / inject_Z (Z.abs b)) + tiny) * inject_Z (Z.abs b) == u * inject_Z (Z.abs a) + tiny * inject_Z (Z.abs b)) by (field; exact BP).
    rewrite E2. pose proof u_scaled as US. pose proof tiny_scaled as TS. assert (UP : 0 < u) by apply q2_pos. assert (TP : 0 < tiny) by apply q2_pos.
    assert (A1 : inject_Z (Z.abs a) <= inject_Z (2 ^ 53) - 1) by (change (inject_Z (2 ^ 53) - 1) with (inject_Z (2 ^ 53 - 1)); rewrite <- Zle_Qle; lia).
    assert (A2 : inject_Z (Z.abs b) <= inject_Z (2 ^ 53)) by (rewrite <- Zle_Qle; lia).
    assert (B1 : inject_Z (Z.abs a) * u <= (inject_Z (2 ^ 53) - 1) * u) by (apply Qmult_le_r'; [apply Qlt_le_weak; exact UP|exact A1]).
    assert (B2 : inject_Z (Z.abs b) * tiny <= inject_Z (2 ^ 53) * tiny) by (apply Qmult_le_r'; [apply Qlt_le_weak; exact TP|exact A2]).
    set (c := inject_Z (2 ^ 53)) in *. clearbody c. set (A := inject_Z (Z.abs a)) in *. set (Bb := inject_Z (Z.abs b)) in *. clearbody A Bb. set (w := u) in *. set (t := tiny) in *. clearbody w t. clear - US TS B1 B2. lra. }
  assert (EX : inject_Z a / inject_Z b == inject_Z (a / b) + inject_Z (a mod b) / inject_Z b).
  { pose proof (Z.div_mod a b NB) as DM. rewrite DM at 1. rewrite inject_Z_plus, inject_Z_mult. field. exact NQ. }
  assert (RB : 1 / inject_Z (Z.abs b) <= inject_Z (a mod b) / inject_Z b /\ inject_Z (a mod b) / inject_Z b <= 1 - 1 / inject_Z (Z.abs b)).
  { assert (EQ : inject_Z (a mod b) / inject_Z b == inject_Z (Z.abs (a mod b)) / inject_Z (Z.abs b)).
    { destruct (Z.lt_total b 0) as [L|[L|L]]; [|contradiction|].
      - pose proof (Z.mod_neg_bound a b L). replace (Z.abs (a mod b)) with (- (a mod b))%Z by lia. replace (Z.abs b) with (- b)%Z by lia. rewrite !inject_Z_opp. field. exact NQ.
      - pose proof (Z.mod_pos_bound a b L). rewrite !Z.abs_eq by lia. reflexivity. }
    assert (1 <= Z.abs (a mod b) /\ Z.abs (a mod b) + 1 <= Z.abs b)%Z.
    { destruct (Z.lt_total b 0) as [L|[L|L]]; [|contradiction|]; [pose proof (Z.mod_neg_bound a b L)|pose proof (Z.mod_pos_bound a b L)]; lia. }
    rewrite EQ. destruct H0 as [H1 H2]. rewrite Zle_Qle in H1, H2. rewrite inject_Z_plus in H2. change (inject_Z 1) with 1 in *. split.
    - unfold Qdiv. apply Qmult_le_r'; [apply Qlt_le_weak, Qinv_lt_0_compat; exact PB|exact H1].
    - assert (E : 1 - 1 / inject_Z (Z.abs b) == (inject_Z (Z.abs b) - 1) / inject_Z (Z.abs b)) by (field; exact BP). rewrite E. unfold Qdiv. apply Qmult_le_r'; [apply Qlt_le_weak, Qinv_lt_0_compat; exact PB|lra]. }
  rewrite EX in H at 1. apply Qabs_Qle_condition in H. destruct RB as [R1 R2].
  apply floor_unique; [|rewrite inject_Z_plus; change (inject_Z 1) with 1]; lra.
Qed.

Lemma floordiv_integers : forall x y a b, double x -> double y -> b64_finite x = true -> b64_finite y = true -> number x == inject_Z a -> number y == inject_Z b ->
  b <> 0%Z -> (Z.abs a < 2 ^ 53)%Z -> (Z.abs b <= 2 ^ 53)%Z ->
  b64_finite (b64_floor (SFdiv prec emax x y)) = true /\ number (b64_floor (SFdiv prec emax x y)) == inject_Z (a / b).
Proof.
  intros x y a b DX DY FX FY NX NY NB LA LB.
  assert (NQ : ~ number y == 0) by (rewrite NY; change 0 with (inject_Z 0); intros C; apply Zinj in C; lia). assert (NQ' : ~ inject_Z b == 0) by (rewrite <- NY; exact NQ).
  assert (DD := div_double x y DX DY).
  assert (BD : (Z.abs (a / b) <= 2 ^ 53)%Z).
  { assert (DM := Z.div_mod a b NB). assert (MB : (Z.abs (a mod b) < Z.abs b)%Z) by (destruct (Z.lt_total b 0) as [L|[L|L]]; [|contradiction|]; [pose proof (Z.mod_neg_bound a b L)|pose proof (Z.mod_pos_bound a b L)]; lia).
    clear - DM MB LA NB. set (q := (a / b)%Z) in *. set (r := (a mod b)%Z) in *. clearbody q r.
    assert ((Z.abs b * Z.abs q < 2 ^ 53 + Z.abs b)%Z) by (rewrite <- Z.abs_mul; lia). assert ((1 <= Z.abs b)%Z) by lia. nia. }
  destruct (Z.eq_dec (a mod b) 0) as [E|E].
  - assert (EQ : number x / number y == inject_Z (a / b)).
    { rewrite NX, NY. pose proof (Z.div_mod a b NB) as DM. rewrite E, Z.add_0_r in DM. rewrite DM at 1. rewrite inject_Z_mult. field. exact NQ'. }
    destruct (div_exact x y _ FX FY NQ EQ BD) as [A B]. destruct (floor_exact _ DD A) as [C D]. split; [exact C|]. rewrite D, B, Qfloor_Z. reflexivity.
  - assert (FI : b64_finite (SFdiv prec emax x y) = true).
    { apply div_range; auto. rewrite NX, NY. unfold Qdiv. rewrite Qabs_Qmult, inject_Z_abs.
      assert (QI : Qabs (/ inject_Z b) <= 1) by (destruct b; [contradiction| |]; unfold Qle; cbn; lia).
      assert (A1 : inject_Z (Z.abs a) <= inject_Z (2 ^ 53)) by (rewrite <- Zle_Qle; lia). assert (A2 : 0 <= inject_Z (Z.abs a)) by (change 0 with (inject_Z 0); rewrite <- Zle_Qle; lia).
      assert (A3 : inject_Z (2 ^ 53) < q2 1023) by (rewrite <- (q2_Z 1023) by lia; rewrite <- Zlt_Qlt; apply Z.pow_lt_mono_r; lia). eapply Qle_lt_trans; [|exact A3]. set (A := inject_Z (Z.abs a)) in *. set (c := inject_Z (2 ^ 53)) in *. clearbody A c. clear - QI A1 A2.
      eapply Qle_trans; [|exact A1]. rewrite <- (Qmult_1_r A) at 2. rewrite !(Qmult_comm A). apply Qmult_le_r'; assumption. }
    destruct (div_err x y FY FI) as (_ & _ & _ & ER). rewrite NX, NY in ER. destruct (floor_exact _ DD FI) as [C D]. split; [exact C|]. rewrite D. apply inject_Z_injective. apply rounded_floor; assumption.
Qed.
Lemma remainder_integers : forall x y a b, double x -> double y -> b64_finite x = true -> b64_finite y = true -> number x == inject_Z a -> number y == inject_Z b ->
  b <> 0%Z -> (Z.abs a <= 2 ^ 52)%Z -> (Z.abs b <= 2 ^ 52)%Z ->
  let r := SFsub prec emax x (SFmul prec emax y (b64_floor (SFdiv prec emax x y))) in
  b64_finite r = true /\ number r == inject_Z (a mod b).
Proof.
  intros x y a b DX DY FX FY NX NY NB LA LB r. assert (P : (2 ^ 53 = 2 * 2 ^ 52)%Z) by reflexivity.
  destruct (floordiv_integers x y a b DX DY FX FY NX NY NB) as [F1 N1]; [lia|lia|].
  assert (MB : (Z.abs (a mod b) < Z.abs b)%Z) by (destruct (Z.lt_total b 0) as [L|[L|L]]; [|contradiction|]; [pose proof (Z.mod_neg_bound a b L)|pose proof (Z.mod_pos_bound a b L)]; lia).
  assert (DM := Z.div_mod a b NB).
  destruct (mul_exact y _ b (a / b)%Z FY F1 NY N1) as [F2 N2]; [lia|]. destruct (sub_exact x _ a _ FX F2 NX N2) as [F3 N3]; [lia|].
  split; [exact F3|]. unfold r. rewrite N3. apply inject_Z_injective. lia.
Qed.
