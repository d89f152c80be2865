(** The error of a division of doubles. *)
Require Import List ZArith Bool Lia QArith Qabs Qpower Lqa Znumtheory.
Require Import Coq.Floats.SpecFloat.
Require Import Verif.Values Verif.SpecAccuracy Verif.FloatErr.
Import ListNotations.
Local Open Scope Z_scope.

(** A location in quarters. *)
Definition quarter (l : location) : Z := match l with loc_Exact => 0 | loc_Inexact Lt => 1 | loc_Inexact Eq => 2 | loc_Inexact Gt => 3 end.
Lemma quarter_range : forall l, 0 <= quarter l <= 3.
Proof. intros [|[| |]]; cbn; lia. Qed.
Lemma div_quarter : forall q t, 0 <= t <= 3 -> (4 * q + t) / 2 / 2 = q /\ ((4 * q + t) / 2 = 2 * q + t / 2).
Proof.
  intros q t H. assert (E : (4 * q + t) / 2 = 2 * q + t / 2) by (replace (4 * q + t) with (t + (2 * q) * 2) by lia; rewrite Z.div_add by lia; lia).
  split; [|exact E]. rewrite E. replace (2 * q + t / 2) with (t / 2 + q * 2) by lia. rewrite Z.div_add by lia. assert (t / 2 / 2 = 0) by (rewrite Z.div_div by lia; apply Z.div_small; lia). lia.
Qed.
Lemma two_shifts : forall q l, 0 <= q -> shr_1 (shr_1 (Build_shr_record (4 * q + quarter l) false false)) = shr_record_of_loc q l.
Proof.
  intros q l H. pose proof (quarter_range l) as T. rewrite shr_1_spec by lia. destruct (div_quarter q (quarter l) T) as [E1 E2]. rewrite shr_1_spec by (apply Z.div_pos; lia). rewrite E1, E2.
  assert (O1 : Z.odd (2 * q + quarter l / 2) = Z.odd (quarter l / 2)) by (rewrite Z.odd_add, Z.odd_mul; reflexivity || (cbn [Z.odd]; destruct (Z.odd (quarter l / 2)); reflexivity)).
  assert (O2 : Z.odd (4 * q + quarter l) = Z.odd (quarter l)) by (rewrite Z.odd_add, Z.odd_mul; cbn [Z.odd andb]; destruct (Z.odd (quarter l)); reflexivity).
  rewrite O1, O2. destruct l as [|[| |]]; reflexivity.
Qed.
Lemma digits_quarter : forall q t, 0 < q -> 0 <= t <= 3 -> Zdigits2 (4 * q + t) = Zdigits2 q + 2.
Proof.
  intros q t H T. destruct q as [|p|p]; try lia. destruct (4 * Zpos p + t) as [|m|m] eqn:E; try lia. cbn [Zdigits2].
  pose proof (digits2_bounds p) as [P1 P2]. pose proof (digits2_bounds m) as [M1 M2]. set (a := Zpos (digits2_pos p)) in *. set (b := Zpos (digits2_pos m)) in *.
  assert (1 <= a /\ 1 <= b) by (unfold a, b; lia).
  assert (A2 : 2 ^ (a + 2) = 4 * 2 ^ a) by (rewrite Z.pow_add_r by lia; lia). assert (A1 : 2 ^ (a + 1) = 4 * 2 ^ (a - 1)) by (replace (a + 1) with (2 + (a - 1)) by lia; rewrite Z.pow_add_r by lia; lia).
  assert (b - 1 < a + 2) by (apply (Z.pow_lt_mono_r_iff 2); lia). assert (a + 1 < b) by (apply (Z.pow_lt_mono_r_iff 2); lia). lia.
Qed.

(** Rounding with a location is rounding exactly, in quarters. *)
Lemma round_location : forall s q e l, 0 <= q -> fexp64 (Zdigits2 q + e) = fexp64 (Zdigits2 (4 * q + quarter l) + (e - 2)) -> e <= fexp64 (Zdigits2 q + e) ->
  binary_round_aux prec emax s q e l = binary_round_aux prec emax s (4 * q + quarter l) (e - 2) loc_Exact.
Proof.
  intros s q e l Hq EF LE. unfold binary_round_aux, shr_fexp. change (fexp prec emax) with fexp64. rewrite <- EF. set (g := fexp64 (Zdigits2 q + e)) in *. clearbody g.
  cbn [shr_record_of_loc].
  assert (E : shr (shr_record_of_loc q l) e (g - e) = shr (Build_shr_record (4 * q + quarter l) false false) (e - 2) (g - (e - 2))).
  { assert (R : shr (Build_shr_record (4 * q + quarter l) false false) (e - 2) (g - (e - 2)) = (iter_pos shr_1 (Z.to_pos (g - (e - 2))) (Build_shr_record (4 * q + quarter l) false false), e - 2 + (g - (e - 2)))).
    { unfold shr. destruct (g - (e - 2)) eqn:K; try lia. reflexivity. }
    rewrite R. rewrite iter_pos_nat. replace (Pos.to_nat (Z.to_pos (g - (e - 2)))) with (Z.to_nat (g - e) + 2)%nat by lia.
    assert (IT : forall n x, Nat.iter (n + 2) shr_1 x = Nat.iter n shr_1 (shr_1 (shr_1 x))).
    { induction n as [|n IH]; intros x; [reflexivity|]. simpl. simpl in IH. rewrite IH. reflexivity. }
    rewrite IT, two_shifts by exact Hq. unfold shr. destruct (g - e) as [|p|p] eqn:K; [|f_equal; [rewrite iter_pos_nat; reflexivity|lia]|lia].
    cbn [Z.to_nat Nat.iter]. f_equal. lia. }
  rewrite E. reflexivity.
Qed.

(** Rounding [m1 / m2 * 2^e], given as a quotient and the location of the rest. *)
Lemma even_pow : forall k, 1 <= k -> Z.even (2 ^ k) = true.
Proof. intros k H. rewrite Z.even_pow by lia. reflexivity. Qed.
Lemma odd_closer : forall N k M, 2 <= k -> Z.odd M = true -> Z.abs (N * 2 ^ k - M) <= 2 ^ (k - 1) -> Z.abs (N * 2 ^ k - M) <= 2 ^ (k - 1) - 1.
Proof.
  intros N k M K O H. destruct (Z.eq_dec (Z.abs (N * 2 ^ k - M)) (2 ^ (k - 1))) as [E|E]; [|lia]. exfalso.
  assert (EV : Z.even (Z.abs (N * 2 ^ k - M)) = true) by (rewrite E; apply even_pow; lia).
  assert (EV2 : Z.even (N * 2 ^ k - M) = true) by (destruct (Z.abs_eq_or_opp (N * 2 ^ k - M)) as [A|A]; rewrite A in EV; [exact EV|rewrite Z.even_opp in EV; exact EV]).
  rewrite Z.even_sub, Z.even_mul, (even_pow k), orb_true_r in EV2 by lia. rewrite <- Z.negb_even in O. destruct (Z.even M); discriminate.
Qed.
Lemma location_rest : forall m2 r, 0 < m2 -> 0 <= r < m2 -> let t := quarter (new_location m2 r) in
  (Z.even t = true /\ 4 * r = t * m2) \/ (Z.even t = false /\ (t - 1) * m2 < 4 * r < (t + 1) * m2).
Proof.
  intros m2 r P R t. unfold t, new_location, new_location_even, new_location_odd. destruct (Z.even m2) eqn:EV.
  - destruct (Z.eqb_spec r 0) as [->|N]; unfold Zeq_bool.
    + cbn [Z.compare quarter]. left. split; [reflexivity|lia].
    + destruct (Z.compare_spec r 0); try lia. destruct (Z.compare_spec (2 * r) m2); cbn [quarter]; [left; split; [reflexivity|lia]|right; split; [reflexivity|lia]|right; split; [reflexivity|lia]].
  - assert (O : m2 mod 2 = 1) by (rewrite Zmod_even, EV; reflexivity). pose proof (Z.div_mod m2 2 ltac:(lia)).
    destruct (Z.eqb_spec r 0) as [->|N]; unfold Zeq_bool.
    + cbn [Z.compare quarter]. left. split; [reflexivity|lia].
    + destruct (Z.compare_spec r 0); try lia. destruct (Z.compare_spec (2 * r + 1) m2); cbn [quarter]; right; (split; [reflexivity|lia]).
Qed.

(** The rounded quotient [r] of [m' / m2 * 2^e]. *)
Lemma quotient_err : forall s m' m2 e, 0 < m' -> 0 < m2 -> let q := m' / m2 in let l := new_location m2 (m' mod m2) in
  (e <= -1074 \/ 2 ^ 52 <= q) -> let r := binary_round_aux prec emax s q e l in
  grain r /\ (b64_finite r = true -> (Qabs (number r - inject_Z (sg s) * (inject_Z m' / inject_Z m2) * q2 e) <= u * ((inject_Z m' / inject_Z m2) * q2 e) + tiny)%Q).
Proof.
  intros s m' m2 e P1 P2 q l LE r.
  pose proof (Z.div_mod m' m2 ltac:(lia)) as DM. pose proof (Z.mod_pos_bound m' m2 P2) as MB. fold q in DM.
  assert (Q0 : 0 <= q) by (apply Z.div_pos; lia). pose proof (quarter_range l) as TR. pose proof (location_rest m2 (m' mod m2) P2 MB) as LR. cbv zeta in LR. fold l in LR. set (t := quarter l) in *.
  assert (MP : 0 < 4 * q + t).
  { destruct (Z.eq_dec q 0) as [Z|Z]; [|lia]. destruct (Z.eq_dec t 0) as [T|T]; [|lia]. exfalso. rewrite Z, T in *. destruct LR as [[_ LR]|[LR _]]; [lia|discriminate LR]. }
  assert (BIG : 2 ^ 52 <= q -> 55 <= Zdigits2 (4 * q + t)).
  { intros B. destruct (4 * q + t) as [|m|m] eqn:E; try lia. cbn [Zdigits2]. pose proof (digits2_bounds m) as [_ M2]. assert (2 ^ 54 < 2 ^ Zpos (digits2_pos m)) by (change (2 ^ 54) with (4 * 2 ^ 52); lia || idtac).
    apply (Z.pow_lt_mono_r_iff 2) in H; lia. }
  assert (SM : q = 0 -> Zdigits2 (4 * q + t) <= 2).
  { intros ->. destruct (4 * 0 + t) as [|m|m] eqn:E; cbn [Zdigits2]; try lia. apply digits2_le; [lia|]. change (2 ^ 2) with 4. lia. }
  assert (EF : fexp64 (Zdigits2 q + e) = fexp64 (Zdigits2 (4 * q + t) + (e - 2))).
  { destruct (Z.eq_dec q 0) as [Z|Z].
    - specialize (SM Z). rewrite Z at 1. cbn [Zdigits2]. rewrite !fexp64_eq. lia.
    - rewrite digits_quarter by lia. f_equal. lia. }
  assert (GE : e <= fexp64 (Zdigits2 q + e)).
  { rewrite EF, fexp64_eq. destruct LE as [LE|LE]; [lia|]. specialize (BIG LE). lia. }
  unfold r. rewrite (round_location s q e l Q0 EF GE). fold t.
  destruct (4 * q + t) as [|m|m] eqn:EM; try lia. clear MP SM. cbn [Zdigits2] in *.
  destruct (round_aux_spec s m (e - 2)) as (M' & e' & E & M0 & G & _ & K1). rewrite E. split; [apply pack_grain; exact G|]. intros FI. rewrite number_pack by auto. clear r.
  set (k := steps m (e - 2)) in *. assert (K : 2 <= k) by (unfold k, steps; lia). destruct (K1 ltac:(lia)) as [EN LEe]. clear K1. set (N := nearest (Zpos m) k) in *.
  pose proof (nearest_spec (Zpos m) k ltac:(lia) ltac:(lia)) as (_ & ER & _). fold N in ER.
  (* the exact quotient is as near *)
  assert (W : (Z.even t = true /\ 4 * m' = Zpos m * m2) \/ (Z.odd (Zpos m) = true /\ (Zpos m - 1) * m2 < 4 * m' < (Zpos m + 1) * m2)).
  { rewrite <- EM. destruct LR as [[A B]|[A B]]; [left; split; [exact A|nia]|right]. split; [|nia].
    rewrite Z.odd_add, Z.odd_mul. cbn [Z.odd andb]. rewrite <- Z.negb_even, A. reflexivity. }
  assert (ER' : Z.abs (N * 2 ^ k * m2 - 4 * m') <= 2 ^ (k - 1) * m2).
  { destruct W as [[_ W]|[O W]]; [rewrite W; replace (N * 2 ^ k * m2 - Zpos m * m2) with ((N * 2 ^ k - Zpos m) * m2) by ring; rewrite Z.abs_mul, (Z.abs_eq m2) by lia; apply Z.mul_le_mono_nonneg_r; lia|].
    pose proof (odd_closer N k (Zpos m) K O ER) as C. set (a := N * 2 ^ k) in *. set (b := 2 ^ (k - 1)) in *. clearbody a b. nia. }
  pose proof (digits2_bounds m) as [DL _].
  assert (LO : k = Zpos (digits2_pos m) - 53 -> 2 ^ (Zpos (digits2_pos m) - 1) * m2 <= 4 * m').
  { intros EK. destruct W as [[_ W]|[O W]]; [rewrite W; apply Z.mul_le_mono_nonneg_r; lia|].
    assert (NE : Zpos m <> 2 ^ (Zpos (digits2_pos m) - 1)) by (intros Q; rewrite Q in O; rewrite <- Z.negb_even, even_pow in O by lia; discriminate O). nia. }
  assert (M2Q : (0 < inject_Z m2)%Q) by (rewrite <- (Zlt_Qlt 0); exact P2). assert (M1Q : (0 < inject_Z m')%Q) by (rewrite <- (Zlt_Qlt 0); exact P1).
  clear - EN LEe K ER' LO DL M2Q M1Q P1 P2 FI M0. pose proof (q2_pos (e - 2)) as PQ.
  assert (NZ : ~ (inject_Z m2 == 0)%Q) by (intros C; rewrite C in M2Q; discriminate M2Q).
  assert (EV : (inject_Z (sg s * M') * q2 e' == inject_Z (sg s) * inject_Z (N * 2 ^ k) * q2 (e - 2))%Q).
  { replace e' with (e' - (e - 2) + (e - 2))%Z at 1 by lia. rewrite q2_plus, <- q2_Z by lia. rewrite Qmult_assoc, <- !inject_Z_mult. rewrite <- Z.mul_assoc, EN. reflexivity. }
  assert (E4 : (q2 e == inject_Z 4 * q2 (e - 2))%Q) by (replace e with (2 + (e - 2))%Z at 1 by lia; rewrite q2_plus; reflexivity).
  set (w := (inject_Z (4 * m') / inject_Z m2)%Q).
  assert (EW : (inject_Z m' / inject_Z m2 * q2 e == w * q2 (e - 2))%Q) by (unfold w; rewrite E4, inject_Z_mult; field; exact NZ).
  assert (EW' : (inject_Z (sg s) * (inject_Z m' / inject_Z m2) * q2 e == inject_Z (sg s) * (w * q2 (e - 2)))%Q) by (rewrite <- EW; ring).
  rewrite EV, EW', EW.
  assert (ED : (inject_Z (sg s) * inject_Z (N * 2 ^ k) * q2 (e - 2) - inject_Z (sg s) * (w * q2 (e - 2)) == inject_Z (sg s) * ((inject_Z (N * 2 ^ k) - w) * q2 (e - 2)))%Q) by ring.
  rewrite ED, Qabs_Qmult. assert (SG : (Qabs (inject_Z (sg s)) == 1)%Q) by (destruct s; reflexivity). rewrite SG, Qmult_1_l, Qabs_Qmult, (Qabs_pos (q2 (e - 2))) by (apply Qlt_le_weak; exact PQ).
  assert (B : (Qabs (inject_Z (N * 2 ^ k) - w) <= q2 (k - 1))%Q).
  { assert (Ew : (inject_Z (N * 2 ^ k) - w == inject_Z (N * 2 ^ k * m2 - 4 * m') / inject_Z m2)%Q) by (unfold w; replace (N * 2 ^ k * m2 - 4 * m')%Z with (N * 2 ^ k * m2 + - (4 * m'))%Z by lia; rewrite inject_Z_plus, inject_Z_opp, (inject_Z_mult (N * 2 ^ k)); field; exact NZ).
    rewrite Ew. unfold Qdiv. rewrite Qabs_Qmult, inject_Z_abs, (Qabs_pos (/ inject_Z m2)) by (apply Qlt_le_weak, Qinv_lt_0_compat; exact M2Q). apply Qle_shift_div_r; [exact M2Q|].
    rewrite <- q2_Z by lia. rewrite <- inject_Z_mult, <- Zle_Qle. exact ER'. }
  apply (Qmult_le_r' _ _ (q2 (e - 2))) in B; [|apply Qlt_le_weak; exact PQ]. eapply Qle_trans; [exact B|].
  assert (WP : (0 <= w * q2 (e - 2))%Q).
  { apply Qmult_le_0_compat; [|apply Qlt_le_weak; exact PQ]. unfold w. apply Qle_shift_div_l; [exact M2Q|]. rewrite Qmult_0_l. rewrite <- (Zle_Qle 0). lia. }
  assert (TP : (0 < tiny)%Q) by apply q2_pos. assert (UP : (0 < u)%Q) by apply q2_pos.
  destruct (Z.le_gt_cases (-1074 - (e - 2)) (Zpos (digits2_pos m) - 53)) as [C|C].
  - assert (EK : k = Zpos (digits2_pos m) - 53) by (unfold k, steps; rewrite fexp64_eq; lia). specialize (LO EK).
    assert (B2 : (q2 (k - 1) <= u * w)%Q).
    { replace (k - 1)%Z with (-53 + (Zpos (digits2_pos m) - 1))%Z by lia. rewrite q2_plus. change (q2 (-53)) with u. rewrite !(Qmult_comm u). apply Qmult_le_r'; [apply Qlt_le_weak; exact UP|].
      unfold w. apply Qle_shift_div_l; [exact M2Q|]. rewrite <- q2_Z by lia. rewrite <- inject_Z_mult, <- Zle_Qle. exact LO. }
    apply (Qmult_le_r' _ _ (q2 (e - 2))) in B2; [|apply Qlt_le_weak; exact PQ]. rewrite <- Qmult_assoc in B2. lra.
  - assert (EK : k = -1074 - (e - 2)) by (unfold k, steps; rewrite fexp64_eq; lia).
    rewrite <- q2_plus. replace (k - 1 + (e - 2))%Z with (-1075)%Z by lia. change (q2 (-1075)) with tiny.
    assert (0 <= u * (w * q2 (e - 2)))%Q by (apply Qmult_le_0_compat; [apply Qlt_le_weak; exact UP|exact WP]). lra.
Qed.

Local Open Scope Q_scope.
Lemma div_err : forall x y, b64_finite y = true -> b64_finite (SFdiv prec emax x y) = true ->
  b64_finite x = true /\ ~ number y == 0 /\ grain (SFdiv prec emax x y) /\
  Qabs (number (SFdiv prec emax x y) - number x / number y) <= u * Qabs (number x / number y) + tiny.
Proof.
  intros x y FY FI. assert (TP : 0 < tiny) by apply q2_pos.
  destruct x as [sx|sx| |sx mx ex]; destruct y as [sy|sy| |sy my ey]; try discriminate FY; try discriminate FI.
  - split; [reflexivity|]. split; [rewrite number_finite; intros C; pose proof (q2_pos ey) as Q2; apply Qmult_integral in C; destruct C as [C|C]; [destruct sy; discriminate C|rewrite C in Q2; discriminate Q2]|].
    split; [exact I|]. cbn [SFdiv]. change (number (S754_zero (xorb sx sy))) with 0. change (number (S754_zero sx)) with 0.
    assert (E : 0 / number (S754_finite sy my ey) == 0) by (unfold Qdiv; ring). rewrite E. cbn. unfold tiny. discriminate.
  - split; [reflexivity|]. assert (NY : ~ number (S754_finite sy my ey) == 0) by (rewrite number_finite; intros C; pose proof (q2_pos ey) as Q2; apply Qmult_integral in C; destruct C as [C|C]; [destruct sy; discriminate C|rewrite C in Q2; discriminate Q2]).
    split; [exact NY|]. revert FI. unfold SFdiv, SFdiv_core_binary. change (fexp prec emax) with fexp64. cbn [Zdigits2].
    set (d1 := Zpos (digits2_pos mx)). set (d2 := Zpos (digits2_pos my)). set (e' := Z.min (fexp64 (d1 + ex - (d2 + ey))) (ex - ey)). set (sh := (ex - ey - e')%Z).
    assert (S0 : (0 <= sh)%Z) by (unfold sh, e'; lia).
    assert (EM : match sh with 0%Z => Zpos mx | Zpos _ => Z.shiftl (Zpos mx) sh | Zneg _ => 0%Z end = (Zpos mx * 2 ^ sh)%Z).
    { destruct sh as [|p|p] eqn:ES; [rewrite Z.pow_0_r; lia|apply Z.shiftl_mul_pow2; lia|lia]. }
    rewrite EM. set (m' := (Zpos mx * 2 ^ sh)%Z). assert (P2 : (0 < 2 ^ sh)%Z) by (apply Z.pow_pos_nonneg; lia). assert (M0 : (0 < m')%Z) by (unfold m'; nia).
    destruct (Z.div_eucl m' (Zpos my)) as [q r] eqn:DE. assert (EQ : q = (m' / Zpos my)%Z) by (unfold Z.div; rewrite DE; reflexivity). assert (ER : r = (m' mod Zpos my)%Z) by (unfold Z.modulo; rewrite DE; reflexivity). subst q r. clear DE.
    assert (LE : (e' <= -1074 \/ 2 ^ 52 <= m' / Zpos my)%Z).
    { destruct (Z.le_gt_cases e' (-1074)) as [A|A]; [left; exact A|right]. assert (B : (e' <= d1 + ex - (d2 + ey) - 53)%Z) by (unfold e' in *; rewrite fexp64_eq in *; lia).
      pose proof (digits2_bounds mx) as [X1 _]. pose proof (digits2_bounds my) as [_ Y2]. fold d1 in X1. fold d2 in Y2. assert (1 <= d1 /\ 1 <= d2)%Z by (unfold d1, d2; lia).
      apply Z.div_le_lower_bound; [lia|]. apply Z.le_trans with (2 ^ (d1 - 1) * 2 ^ sh)%Z; [|unfold m'; apply Z.mul_le_mono_nonneg_r; lia].
      rewrite <- Z.pow_add_r by lia. apply Z.le_trans with (2 ^ d2 * 2 ^ 52)%Z; [apply Z.mul_le_mono_nonneg_r; lia|]. rewrite <- Z.pow_add_r by lia. apply Z.pow_le_mono_r; [lia|]. unfold sh. lia. }
    pose proof (quotient_err (xorb sx sy) m' (Zpos my) e' M0 ltac:(lia) LE) as [G R]. cbv zeta in G, R. intros FI. split; [exact G|]. specialize (R FI).
    assert (EV : number (S754_finite sx mx ex) / number (S754_finite sy my ey) == inject_Z (sg (xorb sx sy)) * (inject_Z m' / inject_Z (Zpos my)) * q2 e').
    { rewrite !number_finite. unfold m'. rewrite !inject_Z_mult, q2_Z by lia. assert (EE : q2 ex == q2 sh * q2 e' * q2 ey) by (rewrite <- !q2_plus; unfold sh; replace (ex - ey - e' + e' + ey)%Z with ex by lia; reflexivity).
      rewrite EE. pose proof (q2_pos ey) as Q2. assert (N1 : ~ q2 ey == 0) by (intros C; rewrite C in Q2; discriminate Q2). assert (N2 : ~ inject_Z (Zpos my) == 0) by discriminate.
      destruct sx, sy; cbn [sg xorb]; change (inject_Z (-1)) with (-(1)); change (inject_Z 1) with 1; field; auto. }
    assert (EA : Qabs (number (S754_finite sx mx ex) / number (S754_finite sy my ey)) == inject_Z m' / inject_Z (Zpos my) * q2 e').
    { rewrite EV, !Qabs_Qmult. assert (SG : Qabs (inject_Z (sg (xorb sx sy))) == 1) by (destruct (xorb sx sy); reflexivity). rewrite SG, Qmult_1_l. rewrite !Qabs_pos; [reflexivity|apply Qlt_le_weak, q2_pos|].
      apply Qle_shift_div_l; [reflexivity|]. rewrite Qmult_0_l, <- (Zle_Qle 0). lia. }
    rewrite EA, EV. exact R.
Qed.
