(** The operations of IEEE binary64 return doubles. *)
Require Import ZArith Bool Lia QArith Qabs Qpower Lqa.
Require Import Coq.Floats.SpecFloat.
Require Import Verif.Values Verif.SpecAccuracy Verif.FloatErr Verif.FloatDiv Verif.FloatRange.
Local Open Scope Z_scope.

Lemma double_finite : forall s m e, e <= 971 -> fexp64 (Zpos (digits2_pos m) + e) = e -> double (S754_finite s m e).
Proof.
  intros s m e H E. unfold double, valid_binary, bounded, canonical_mantissa. change (fexp 53 1024) with fexp64. rewrite E.
  rewrite Zeq_is_eq_bool, Z.eqb_refl || (unfold Zeq_bool; rewrite Z.compare_refl). apply Z.leb_le. exact H.
Qed.
Lemma double_canonical : forall s m e, double (S754_finite s m e) -> fexp64 (Zpos (digits2_pos m) + e) = e.
Proof.
  intros s m e D. unfold double, valid_binary, bounded in D. apply andb_true_iff in D. destruct D as [D _]. apply Zeq_bool_eq in D. exact D.
Qed.
Lemma pack_double : forall s M e, 0 <= M -> fexp64 (Zdigits2 M + e) = e -> double (pack s M e).
Proof.
  intros s M e H E. destruct M as [|m|m]; [reflexivity| |lia]. cbn [pack]. destruct (Z.leb_spec e 971) as [L|L]; [|reflexivity]. apply double_finite; assumption.
Qed.
Lemma round_aux_double : forall s m e, 0 <= steps m e -> double (binary_round_aux prec emax s (Zpos m) e loc_Exact).
Proof.
  intros s m e ST. unfold binary_round_aux, shr_fexp. cbn [shr_record_of_loc Zdigits2]. fold (steps m e).
  destruct (Z.eq_dec (steps m e) 0) as [K|K].
  - assert (E : forall mrs, shr mrs e (steps m e) = (mrs, e)) by (intros; rewrite K; reflexivity).
    rewrite E. cbn [shr_m loc_of_shr_record round_nearest_even Zdigits2]. change (fexp prec emax (Zpos (digits2_pos m) + e) - e) with (steps m e). rewrite E. cbn [shr_m].
    apply (pack_double s (Zpos m) e); [lia|]. cbn [Zdigits2]. unfold steps in K. lia.
  - assert (FE : -1074 <= e + steps m e) by (unfold steps; rewrite fexp64_eq; lia).
    assert (E : forall mrs, shr mrs e (steps m e) = (iter_pos shr_1 (Z.to_pos (steps m e)) mrs, e + steps m e)) by (intros; unfold shr; destruct (steps m e); try lia; reflexivity).
    rewrite E. set (k := steps m e) in *. change (round_nearest_even (shr_m (iter_pos shr_1 (Z.to_pos k) {| shr_m := Zpos m; shr_r := false; shr_s := false |}))
      (loc_of_shr_record (iter_pos shr_1 (Z.to_pos k) {| shr_m := Zpos m; shr_r := false; shr_s := false |}))) with (nearest (Zpos m) k).
    pose proof (nearest_spec (Zpos m) k ltac:(lia) ltac:(lia)) as (B & _ & _).
    pose proof (digits2_bounds m) as [DL DM].
    assert (Q : Zpos m / 2 ^ k < 2 ^ 53).
    { apply Z.div_lt_upper_bound; [apply Z.pow_pos_nonneg; lia|]. rewrite <- Z.pow_add_r by lia.
      eapply Z.lt_le_trans; [exact DM|]. apply Z.pow_le_mono_r; [lia|]. unfold k, steps. rewrite fexp64_eq. lia. }
    assert (Q0 : 0 <= Zpos m / 2 ^ k) by (apply Z.div_pos; [lia|apply Z.pow_pos_nonneg; lia]).
    assert (QL : e + k = -1074 \/ 2 ^ 52 <= Zpos m / 2 ^ k).
    { destruct (Z.eq_dec (e + k) (-1074)) as [C|C]; [left; exact C|right]. assert (KE : Zpos (digits2_pos m) = k + 53) by (unfold k, steps in *; rewrite fexp64_eq in *; lia).
      apply Z.div_le_lower_bound; [apply Z.pow_pos_nonneg; lia|]. rewrite <- Z.pow_add_r by lia. eapply Z.le_trans; [|exact DL]. apply Z.pow_le_mono_r; lia. }
    set (N := nearest (Zpos m) k) in *. clearbody N.
    destruct (Z.eq_dec N (2 ^ 53)) as [NE|NE].
    + rewrite NE. replace (fexp64 (Zdigits2 (2 ^ 53) + (e + k)) - (e + k)) with 1 by (change (Zdigits2 (2 ^ 53)) with 54; rewrite fexp64_eq; lia).
      apply (pack_double s (2 ^ 52) (e + k + 1)); [lia|]. change (Zdigits2 (2 ^ 52)) with 53. rewrite fexp64_eq. lia.
    + assert (KK : fexp64 (Zdigits2 N + (e + k)) = e + k).
      { destruct N as [|n|n]; [cbn [Zdigits2]; rewrite fexp64_eq; lia| |lia]. cbn [Zdigits2].
        assert (Zpos (digits2_pos n) <= 53) by (apply digits2_le; lia). destruct QL as [QL|QL]; [rewrite fexp64_eq; lia|].
        assert (53 <= Zpos (digits2_pos n)).
        { destruct (Z.le_gt_cases 53 (Zpos (digits2_pos n))) as [L|L]; [exact L|]. pose proof (digits2_bounds n) as [_ U]. assert (2 ^ Zpos (digits2_pos n) <= 2 ^ 52) by (apply Z.pow_le_mono_r; lia). lia. }
        rewrite fexp64_eq. lia. }
      assert (EE : forall mrs, shr mrs (e + k) (fexp64 (Zdigits2 N + (e + k)) - (e + k)) = (mrs, e + k)) by (intros; rewrite KK, Z.sub_diag; reflexivity).
      rewrite EE. cbn [shr_m]. apply (pack_double s N (e + k)); [lia|exact KK].
Qed.
Lemma digits_shift : forall m m' n, 0 <= n -> Zpos m' = Zpos m * 2 ^ n -> Zpos (digits2_pos m') = Zpos (digits2_pos m) + n.
Proof.
  intros m m' n H E. pose proof (digits2_bounds m) as [A B]. pose proof (digits2_bounds m') as [A' B']. assert (P : 0 < 2 ^ n) by (apply Z.pow_pos_nonneg; lia). rewrite E in *.
  apply Z.le_antisymm.
  - apply digits2_le; [lia|]. rewrite E, Z.pow_add_r by lia. apply Z.mul_lt_mono_pos_r; lia.
  - destruct (Z.le_gt_cases (Zpos (digits2_pos m) + n) (Zpos (digits2_pos m'))) as [L|L]; [exact L|exfalso].
    assert (2 ^ (Zpos (digits2_pos m) - 1) * 2 ^ n <= Zpos m * 2 ^ n) by (apply Z.mul_le_mono_nonneg_r; lia). rewrite <- Z.pow_add_r in H0 by lia.
    assert (2 ^ Zpos (digits2_pos m') <= 2 ^ (Zpos (digits2_pos m) - 1 + n)) by (apply Z.pow_le_mono_r; lia). lia.
Qed.
Lemma round_double : forall s m e, double (binary_round prec emax s m e).
Proof.
  intros s m e. unfold binary_round. destruct (Z.le_gt_cases (fexp64 (Zpos (digits2_pos m) + e)) e) as [L|L].
  - destruct (shl_align_le m e _ L) as (m' & E1 & E2). rewrite E1. apply round_aux_double. unfold steps. rewrite (digits_shift m m' (e - fexp64 (Zpos (digits2_pos m) + e))) by (lia || exact E2).
    replace (Zpos (digits2_pos m) + (e - fexp64 (Zpos (digits2_pos m) + e)) + fexp64 (Zpos (digits2_pos m) + e)) with (Zpos (digits2_pos m) + e) by lia. lia.
  - rewrite shl_align_gt by exact L. apply round_aux_double. unfold steps. lia.
Qed.
Lemma normalize_double : forall M e sz, double (binary_normalize prec emax M e sz).
Proof. intros [|p|p] e sz; [reflexivity|apply round_double|apply round_double]. Qed.
Lemma opp_double : forall x, double x -> double (SFopp x).
Proof. intros [s|s| |s m e] D; exact D. Qed.
Lemma add_double : forall x y, double x -> double y -> double (SFadd prec emax x y).
Proof.
  intros [sx|sx| |sx mx ex] [sy|sy| |sy my ey] DX DY; cbn [SFadd]; try exact DX; try exact DY; try reflexivity; try (destruct (Bool.eqb sx sy); reflexivity).
  apply normalize_double.
Qed.
Lemma sub_is_add : forall x y, SFsub prec emax x y = SFadd prec emax x (SFopp y).
Proof.
  intros [sx|sx| |sx mx ex] [sy|sy| |sy my ey]; try reflexivity; try (cbn; destruct sx, sy; reflexivity).
Qed.
Lemma sub_double : forall x y, double x -> double y -> double (SFsub prec emax x y).
Proof. intros x y DX DY. rewrite sub_is_add. apply add_double; [exact DX|apply opp_double; exact DY]. Qed.
Lemma digits_mul : forall a b, Zpos (digits2_pos a) + Zpos (digits2_pos b) - 1 <= Zpos (digits2_pos (a * b)).
Proof.
  intros a b. pose proof (digits2_bounds a) as [A _]. pose proof (digits2_bounds b) as [B _]. pose proof (digits2_bounds (a * b)) as [_ C].
  destruct (Z.le_gt_cases (Zpos (digits2_pos a) + Zpos (digits2_pos b) - 1) (Zpos (digits2_pos (a * b)))) as [L|L]; [exact L|exfalso].
  assert (2 ^ (Zpos (digits2_pos a) - 1) * 2 ^ (Zpos (digits2_pos b) - 1) <= Zpos a * Zpos b) by (apply Z.mul_le_mono_nonneg; try lia; apply Z.pow_nonneg; lia).
  rewrite <- Z.pow_add_r in H by lia. rewrite Pos2Z.inj_mul in C.
  assert (2 ^ Zpos (digits2_pos (a * b)) <= 2 ^ (Zpos (digits2_pos a) - 1 + (Zpos (digits2_pos b) - 1))) by (apply Z.pow_le_mono_r; lia). lia.
Qed.
Lemma mul_double : forall x y, double x -> double y -> double (SFmul prec emax x y).
Proof.
  intros [sx|sx| |sx mx ex] [sy|sy| |sy my ey] DX DY; try reflexivity. cbn [SFmul]. apply round_aux_double.
  pose proof (double_shape _ _ _ DX) as (_ & SX). pose proof (double_shape _ _ _ DY) as (_ & SY). pose proof (digits_mul mx my) as L.
  pose proof (double_grain _ DX) as GX. pose proof (double_grain _ DY) as GY. cbn [grain] in GX, GY. unfold steps. rewrite fexp64_eq. lia.
Qed.
Lemma fma_double : forall x y z, double x -> double y -> double z -> double (b64_fma x y z).
Proof.
  intros [sx|sx| |sx mx ex] [sy|sy| |sy my ey] [sz|sz| |sz mz ez] DX DY DZ; try reflexivity; try (apply add_double; assumption || apply mul_double; assumption || reflexivity); unfold b64_fma; try apply normalize_double;
   try (cbn; repeat match goal with |- context [Bool.eqb ?a ?b] => destruct (Bool.eqb a b) end; try reflexivity; assumption).
Qed.

Lemma quotient_double : forall s m' m2 e, 0 < m' -> 0 < m2 -> let q := m' / m2 in let l := new_location m2 (m' mod m2) in
  (e <= -1074 \/ 2 ^ 52 <= q) -> double (binary_round_aux prec emax s q e l).
Proof.
  intros s m' m2 e P1 P2 q l LE.
  pose proof (Z.div_mod m' m2 ltac:(lia)) as DM. pose proof (Z.mod_pos_bound m' m2 P2) as MB. fold q in DM.
  assert (Q0 : 0 <= q) by (apply Z.div_pos; lia). pose proof (quarter_range l) as TR. pose proof (location_rest m2 (m' mod m2) P2 MB) as LR. cbv zeta in LR. fold l in LR. set (t := quarter l) in *.
  assert (MP : 0 < 4 * q + t).
  { destruct (Z.eq_dec q 0) as [Z|Z]; [|lia]. destruct (Z.eq_dec t 0) as [T|T]; [|lia]. exfalso. rewrite Z, T in *. destruct LR as [[_ LR]|[LR _]]; [lia|discriminate LR]. }
  assert (BIG : 2 ^ 52 <= q -> 55 <= Zdigits2 (4 * q + t)).
  { intros B. destruct (4 * q + t) as [|m|m] eqn:E; try lia. cbn [Zdigits2]. pose proof (digits2_bounds m) as [_ M2]. assert (2 ^ 54 < 2 ^ Zpos (digits2_pos m)) by (change (2 ^ 54) with (4 * 2 ^ 52); lia || idtac).
    apply (Z.pow_lt_mono_r_iff 2) in H; lia. }
  assert (SM : q = 0 -> Zdigits2 (4 * q + t) <= 2).
  { intros ->. destruct (4 * 0 + t) as [|m|m] eqn:E; cbn [Zdigits2]; try lia. apply digits2_le; [lia|]. change (2 ^ 2) with 4. lia. }
  assert (EF : fexp64 (Zdigits2 q + e) = fexp64 (Zdigits2 (4 * q + t) + (e - 2))).
  { destruct (Z.eq_dec q 0) as [Z|Z].
    - specialize (SM Z). rewrite Z at 1. cbn [Zdigits2]. rewrite !fexp64_eq. lia.
    - rewrite digits_quarter by lia. f_equal. lia. }
  assert (GE : e <= fexp64 (Zdigits2 q + e)).
  { rewrite EF, fexp64_eq. destruct LE as [LE|LE]; [lia|]. specialize (BIG LE). lia. }
  rewrite (round_location s q e l Q0 EF GE). fold t.
  destruct (4 * q + t) as [|m|m] eqn:EM; try lia. cbn [Zdigits2] in *. apply round_aux_double. unfold steps. lia.
Qed.
Lemma div_double : forall x y, double x -> double y -> double (SFdiv prec emax x y).
Proof.
  intros [sx|sx| |sx mx ex] [sy|sy| |sy my ey] DX DY; try reflexivity.
  unfold SFdiv, SFdiv_core_binary. change (fexp prec emax) with fexp64. cbn [Zdigits2].
  set (d1 := Zpos (digits2_pos mx)). set (d2 := Zpos (digits2_pos my)). set (e' := Z.min (fexp64 (d1 + ex - (d2 + ey))) (ex - ey)). set (sh := (ex - ey - e')%Z).
  assert (S0 : (0 <= sh)%Z) by (unfold sh, e'; lia).
  assert (EM : match sh with 0%Z => Zpos mx | Zpos _ => Z.shiftl (Zpos mx) sh | Zneg _ => 0%Z end = (Zpos mx * 2 ^ sh)%Z).
  { destruct sh as [|p|p] eqn:ES; [rewrite Z.pow_0_r; lia|apply Z.shiftl_mul_pow2; lia|lia]. }
  rewrite EM. set (m' := (Zpos mx * 2 ^ sh)%Z). assert (P2 : (0 < 2 ^ sh)%Z) by (apply Z.pow_pos_nonneg; lia). assert (M0 : (0 < m')%Z) by (unfold m'; nia).
  destruct (Z.div_eucl m' (Zpos my)) as [q r] eqn:DE. assert (EQ : q = (m' / Zpos my)%Z) by (unfold Z.div; rewrite DE; reflexivity). assert (ER : r = (m' mod Zpos my)%Z) by (unfold Z.modulo; rewrite DE; reflexivity). subst q r. clear DE.
  assert (LE : (e' <= -1074 \/ 2 ^ 52 <= m' / Zpos my)%Z).
  { destruct (Z.le_gt_cases e' (-1074)) as [A|A]; [left; exact A|right]. assert (B : (e' <= d1 + ex - (d2 + ey) - 53)%Z) by (unfold e' in *; rewrite fexp64_eq in *; lia).
    pose proof (digits2_bounds mx) as [X1 _]. pose proof (digits2_bounds my) as [_ Y2]. fold d1 in X1. fold d2 in Y2. assert (1 <= d1 /\ 1 <= d2)%Z by (unfold d1, d2; lia).
    apply Z.div_le_lower_bound; [lia|]. apply Z.le_trans with (2 ^ (d1 - 1) * 2 ^ sh)%Z; [|unfold m'; apply Z.mul_le_mono_nonneg_r; lia].
    rewrite <- Z.pow_add_r by lia. apply Z.le_trans with (2 ^ d2 * 2 ^ 52)%Z; [apply Z.mul_le_mono_nonneg_r; lia|]. rewrite <- Z.pow_add_r by lia. apply Z.pow_le_mono_r; [lia|]. unfold sh. lia. }
  apply quotient_double; [exact M0|lia|exact LE].
Qed.
Lemma abs_double : forall x, double x -> double (SFabs x).
Proof. intros [s|s| |s m e] D; exact D. Qed.
Lemma floor_double : forall x, double x -> double (b64_floor x).
Proof. intros [s|s| |s m e] D; try exact D. cbn [b64_floor]. destruct (0 <=? e); [exact D|apply normalize_double]. Qed.
Lemma ofZ_double : forall z, double (b64_ofZ z).
Proof. intros z. apply normalize_double. Qed.
