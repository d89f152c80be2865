(** Operations on doubles whose exact result is below 2^1023 do not overflow. *)
Require Import List ZArith Bool QArith Qabs Qpower Lia Lqa.
Require Import Coq.Floats.SpecFloat.
Require Import Verif.Values Verif.Spec Verif.SpecAccuracy Verif.FloatErr Verif.FloatDiv.
Import ListNotations.
Local Open Scope Q_scope.

Lemma q2_lt : forall a b, q2 a < q2 b -> (a < b)%Z.
Proof.
  intros a b H. destruct (Z.lt_ge_cases a b) as [L|L]; [exact L|]. exfalso. replace a with (a - b + b)%Z in H by lia. rewrite q2_plus in H.
  pose proof (q2_pos b). assert (1 <= q2 (a - b)). { rewrite <- q2_Z by lia. change 1 with (inject_Z 1). rewrite <- Zle_Qle. pose proof (Z.pow_pos_nonneg 2 (a - b)). lia. } nra.
Qed.
(** Below 2^1023 the leading digit is below 2^1023. *)
Lemma top_digit : forall m e, inject_Z (Zpos m) * q2 e < q2 1023 -> (Zpos (digits2_pos m) + e <= 1023)%Z.
Proof.
  intros m e H. pose proof (digits2_bounds m) as [L _]. assert (q2 (Zpos (digits2_pos m) - 1 + e) < q2 1023); [|apply q2_lt in H0; lia].
  eapply Qle_lt_trans; [|exact H]. rewrite q2_plus, <- q2_Z by lia. apply Qmult_le_r'; [apply Qlt_le_weak, q2_pos|]. rewrite <- Zle_Qle. exact L.
Qed.
Lemma pack_finite : forall s M e, (0 <= M)%Z -> (e <= 971)%Z -> b64_finite (pack s M e) = true.
Proof. intros s [|m|m] e H E; [reflexivity| |lia]. cbn [pack]. destruct (Z.leb_spec e 971); [reflexivity|lia]. Qed.
Lemma round_aux_digits : forall s m e, (Zpos (digits2_pos m) + e <= 1023)%Z -> (e <= 971)%Z -> b64_finite (binary_round_aux prec emax s (Zpos m) e loc_Exact) = true.
Proof.
  intros s m e H B. destruct (round_aux_spec s m e) as (M' & e' & -> & M0 & _ & K0 & K1). apply pack_finite; [exact M0|].
  destruct (Z.le_gt_cases (steps m e) 0) as [K|K]; [destruct (K0 K) as [_ ->]; exact B|]. destruct (K1 ltac:(lia)) as [_ E]. unfold steps in E. rewrite fexp64_eq in E. lia.
Qed.
Lemma round_aux_range : forall s m e, inject_Z (Zpos m) * q2 e < q2 1023 -> (e <= 971)%Z -> b64_finite (binary_round_aux prec emax s (Zpos m) e loc_Exact) = true.
Proof. intros s m e H B. apply round_aux_digits; [apply top_digit; exact H|exact B]. Qed.
Lemma round_range : forall s m e, inject_Z (Zpos m) * q2 e < q2 1023 -> b64_finite (binary_round prec emax s m e) = true.
Proof.
  intros s m e H. unfold binary_round. pose proof (top_digit m e H) as T. destruct (Z.le_gt_cases (fexp64 (Zpos (digits2_pos m) + e)) e) as [L|L].
  - destruct (shl_align_le m e _ L) as (m' & -> & E). apply round_aux_range; [|rewrite fexp64_eq; lia]. rewrite E, q2_move by exact L. exact H.
  - rewrite shl_align_gt by exact L. apply round_aux_range; [exact H|]. rewrite fexp64_eq in L. lia.
Qed.
Lemma normalize_range : forall M e sz, Qabs (inject_Z M * q2 e) < q2 1023 -> b64_finite (binary_normalize prec emax M e sz) = true.
Proof.
  intros M e sz H. rewrite <- abs_scaled in H. destruct M as [|m|m]; cbn [binary_normalize]; [reflexivity| |]; apply round_range; exact H.
Qed.
Lemma add_range : forall x y, b64_finite x = true -> b64_finite y = true -> Qabs (number x + number y) < q2 1023 -> b64_finite (SFadd prec emax x y) = true.
Proof.
  intros x y FX FY H. destruct x as [sx|sx| |sx mx ex]; destruct y as [sy|sy| |sy my ey]; try discriminate FX; try discriminate FY; try reflexivity; [destruct sx, sy; reflexivity|].
  cbn [SFadd]. destruct (shl_align_le mx ex (Z.min ex ey) (Z.le_min_l _ _)) as (mx' & EX & VX). destruct (shl_align_le my ey (Z.min ex ey) (Z.le_min_r _ _)) as (my' & EY & VY).
  rewrite EX, EY. cbn [fst]. set (M := (cond_Zopp sx (Zpos mx') + cond_Zopp sy (Zpos my'))%Z).
  assert (EM : inject_Z M * q2 (Z.min ex ey) == number (S754_finite sx mx ex) + number (S754_finite sy my ey)).
  { rewrite !number_finite. unfold M. rewrite inject_Z_plus.
    replace (cond_Zopp sx (Zpos mx')) with (sg sx * Zpos mx * 2 ^ (ex - Z.min ex ey))%Z by (unfold cond_Zopp, sg; destruct sx; lia).
    replace (cond_Zopp sy (Zpos my')) with (sg sy * Zpos my * 2 ^ (ey - Z.min ex ey))%Z by (unfold cond_Zopp, sg; destruct sy; lia).
    rewrite Qmult_plus_distr_l, !q2_move by lia. reflexivity. }
  apply normalize_range. rewrite EM. exact H.
Qed.
(** The mantissa of a double has 53 digits unless its exponent is the least one. *)
Lemma double_shape : forall s m e, double (S754_finite s m e) -> (e <= 971 /\ (e = -1074 \/ Zpos (digits2_pos m) = 53))%Z.
Proof.
  intros s m e D. unfold double, valid_binary, bounded in D. apply andb_true_iff in D. destruct D as [C B]. apply Z.leb_le in B. unfold canonical_mantissa in C. apply Zeq_bool_eq in C.
  change (fexp 53 1024) with fexp64 in C. rewrite fexp64_eq in C. lia.
Qed.
Lemma mul_range : forall x y, double x -> double y -> b64_finite x = true -> b64_finite y = true -> Qabs (number x * number y) < q2 1023 -> b64_finite (SFmul prec emax x y) = true.
Proof.
  intros x y DX DY FX FY H. destruct x as [sx|sx| |sx mx ex]; destruct y as [sy|sy| |sy my ey]; try discriminate FX; try discriminate FY; try reflexivity.
  cbn [SFmul].
  assert (EM : inject_Z (sg (xorb sx sy) * Zpos (mx * my)) * q2 (ex + ey) == number (S754_finite sx mx ex) * number (S754_finite sy my ey)).
  { rewrite !number_finite, q2_plus. replace (sg (xorb sx sy) * Zpos (mx * my))%Z with ((sg sx * Zpos mx) * (sg sy * Zpos my))%Z by (destruct sx, sy; unfold sg; cbn [xorb]; lia).
    rewrite inject_Z_mult. ring. }
  assert (EA : inject_Z (Zpos (mx * my)) * q2 (ex + ey) == Qabs (number (S754_finite sx mx ex) * number (S754_finite sy my ey))).
  { rewrite <- EM, <- abs_scaled, sg_abs. reflexivity. }
  rewrite <- EA in H. apply round_aux_range; [exact H|]. apply top_digit in H.
  destruct (double_shape _ _ _ DX) as [BX [X|X]]; destruct (double_shape _ _ _ DY) as [BY [Y|Y]]; try lia.
  assert (DP : (104 < Zpos (digits2_pos (mx * my)))%Z).
  { pose proof (digits2_bounds mx) as [LX _]. pose proof (digits2_bounds my) as [LY _]. pose proof (digits2_bounds (mx * my)) as [_ UP]. rewrite X in LX. rewrite Y in LY.
    rewrite Pos2Z.inj_mul in UP. apply (Z.pow_lt_mono_r_iff 2); [lia|lia|]. eapply Z.le_lt_trans; [|exact UP]. change (2 ^ 104)%Z with (2 ^ (53 - 1) * 2 ^ (53 - 1))%Z. nia. }
  lia.
Qed.
Lemma fma_range : forall x y z, b64_finite x = true -> b64_finite y = true -> b64_finite z = true -> Qabs (number x * number y + number z) < q2 1023 -> b64_finite (b64_fma x y z) = true.
Proof.
  intros x y z FX FY FZ H. destruct x as [sx|sx| |sx mx ex]; destruct y as [sy|sy| |sy my ey]; try discriminate FX; try discriminate FY;
    try (cbn [b64_fma SFmul]; apply add_range; [reflexivity|exact FZ|]; cbn [number] in *; set (w := number z) in *; clearbody w;
         match goal with |- Qabs ?a < _ => match type of H with Qabs ?b < _ => assert (E : a == b) by (ring); rewrite E; exact H end end).
  assert (EM : inject_Z (signed (xorb sx sy) (mx * my)) * q2 (ex + ey) == number (S754_finite sx mx ex) * number (S754_finite sy my ey)).
  { rewrite !number_finite, q2_plus. replace (signed (xorb sx sy) (mx * my)) with ((sg sx * Zpos mx) * (sg sy * Zpos my))%Z by (destruct sx, sy; unfold sg, signed; cbn [xorb]; lia).
    rewrite inject_Z_mult. ring. }
  destruct z as [sz|sz| |sz mz ez]; cbn [b64_fma]; try discriminate FZ.
  - apply normalize_range. rewrite EM. change (number (S754_zero sz)) with 0 in H. rewrite Qplus_0_r in H. exact H.
  - set (e := Z.min (ex + ey) ez) in *. set (M := (signed (xorb sx sy) (mx * my) * 2 ^ (ex + ey - e) + signed sz mz * 2 ^ (ez - e))%Z) in *.
    assert (EV : inject_Z M * q2 e == number (S754_finite sx mx ex) * number (S754_finite sy my ey) + number (S754_finite sz mz ez)).
    { unfold M. rewrite inject_Z_plus, Qmult_plus_distr_l, !q2_move by (unfold e; lia). rewrite EM. apply Qplus_comp; [reflexivity|]. destruct sz; reflexivity. }
    apply normalize_range. rewrite EV. exact H.
Qed.
(** ** Division *)
Local Open Scope Z_scope.
Lemma quotient_range : forall s m' m2 e, 0 < m' -> 0 < m2 -> let q := m' / m2 in let l := new_location m2 (m' mod m2) in
  (e <= -1074 \/ 2 ^ 52 <= q) -> (inject_Z q * q2 e < q2 1023)%Q -> b64_finite (binary_round_aux prec emax s q e l) = true.
Proof.
  intros s m' m2 e P1 P2 q l LE B. assert (Q0 : 0 <= q) by (apply Z.div_pos; lia). pose proof (quarter_range l) as TR. set (t := quarter l) in *.
  assert (TD : 0 < q -> Zdigits2 q + e <= 1023) by (intros P; destruct q as [|p|p]; try lia; apply top_digit; exact B).
  assert (SM : q = 0 -> Zdigits2 (4 * q + t) <= 2).
  { intros ->. destruct (4 * 0 + t) as [|m|m] eqn:E; cbn [Zdigits2]; try lia. apply digits2_le; [lia|]. change (2 ^ 2) with 4. lia. }
  assert (BIG : 2 ^ 52 <= q -> 53 <= Zdigits2 q).
  { intros A. destruct q as [|p|p]; try lia. cbn [Zdigits2]. pose proof (digits2_bounds p) as [_ M2]. assert (2 ^ 52 < 2 ^ Zpos (digits2_pos p)) by lia. apply (Z.pow_lt_mono_r_iff 2) in H; lia. }
  assert (EF : fexp64 (Zdigits2 q + e) = fexp64 (Zdigits2 (4 * q + t) + (e - 2))).
  { destruct (Z.eq_dec q 0) as [Z|Z]; [specialize (SM Z); rewrite Z at 1; cbn [Zdigits2]; rewrite !fexp64_eq; lia|]. rewrite digits_quarter by lia. f_equal. lia. }
  assert (GE : e <= fexp64 (Zdigits2 q + e)).
  { rewrite fexp64_eq. destruct LE as [LE|LE]; [lia|]. specialize (BIG LE). lia. }
  rewrite (round_location s q e l Q0 EF GE). fold t.
  assert (DG : Zdigits2 (4 * q + t) + (e - 2) <= 1023 /\ e - 2 <= 971).
  { destruct (Z.eq_dec q 0) as [Z|Z]; [specialize (SM Z); lia|]. rewrite digits_quarter by lia. specialize (TD ltac:(lia)). split; [lia|]. destruct LE as [LE|LE]; [lia|]. specialize (BIG LE). lia. }
  destruct (4 * q + t) as [|m|m] eqn:EM; [|apply round_aux_digits; apply DG|lia].
  (* nothing left: zero *)
  unfold binary_round_aux, shr_fexp. cbn [shr_record_of_loc Zdigits2]. set (k := fexp prec emax (0 + (e - 2)) - (e - 2)).
  assert (Z1 : forall e0 k, exists e1 r, shr {| shr_m := 0; shr_r := false; shr_s := false |} e0 k = (r, e1) /\ shr_m r = 0 /\ loc_of_shr_record r = loc_Exact).
  { intros e0 k0. unfold shr. destruct k0 as [|p|p]; try (eexists; eexists; split; [reflexivity|split; reflexivity]). eexists; eexists; split; [reflexivity|]. rewrite iter_pos_nat.
    assert (IT : forall n, Nat.iter n shr_1 {| shr_m := 0; shr_r := false; shr_s := false |} = {| shr_m := 0; shr_r := false; shr_s := false |}) by (induction n as [|n IH]; [reflexivity|]; simpl; rewrite IH; reflexivity).
    rewrite IT. split; reflexivity. }
  destruct (Z1 (e - 2) k) as (e1 & r & -> & R1 & R2). rewrite R1, R2. cbn [round_nearest_even Zdigits2].
  destruct (Z1 e1 (fexp prec emax (0 + e1) - e1)) as (e2 & r2 & -> & R3 & _). rewrite R3. reflexivity.
Qed.
Local Open Scope Q_scope.
Lemma div_range : forall x y, b64_finite x = true -> b64_finite y = true -> ~ number y == 0 -> Qabs (number x / number y) < q2 1023 -> b64_finite (SFdiv prec emax x y) = true.
Proof.
  intros x y FX FY NY H. destruct x as [sx|sx| |sx mx ex]; destruct y as [sy|sy| |sy my ey]; try discriminate FX; try discriminate FY; try reflexivity; try (exfalso; apply NY; reflexivity).
  unfold SFdiv, SFdiv_core_binary. change (fexp prec emax) with fexp64. cbn [Zdigits2].
  set (d1 := Zpos (digits2_pos mx)). set (d2 := Zpos (digits2_pos my)). set (e' := Z.min (fexp64 (d1 + ex - (d2 + ey))) (ex - ey)). set (sh := (ex - ey - e')%Z).
  assert (S0 : (0 <= sh)%Z) by (unfold sh, e'; lia).
  assert (EM : match sh with 0%Z => Zpos mx | Zpos _ => Z.shiftl (Zpos mx) sh | Zneg _ => 0%Z end = (Zpos mx * 2 ^ sh)%Z).
  { destruct sh as [|p|p] eqn:ES; [rewrite Z.pow_0_r; lia|apply Z.shiftl_mul_pow2; lia|lia]. }
  rewrite EM. set (m' := (Zpos mx * 2 ^ sh)%Z). assert (P2 : (0 < 2 ^ sh)%Z) by (apply Z.pow_pos_nonneg; lia). assert (M0 : (0 < m')%Z) by (unfold m'; nia).
  destruct (Z.div_eucl m' (Zpos my)) as [q r] eqn:DE. assert (EQ : q = (m' / Zpos my)%Z) by (unfold Z.div; rewrite DE; reflexivity). assert (ER : r = (m' mod Zpos my)%Z) by (unfold Z.modulo; rewrite DE; reflexivity). subst q r. clear DE.
  assert (LE : (e' <= -1074 \/ 2 ^ 52 <= m' / Zpos my)%Z).
  { destruct (Z.le_gt_cases e' (-1074)) as [A|A]; [left; exact A|right]. assert (B : (e' <= d1 + ex - (d2 + ey) - 53)%Z) by (unfold e' in *; rewrite fexp64_eq in *; lia).
    pose proof (digits2_bounds mx) as [X1 _]. pose proof (digits2_bounds my) as [_ Y2]. fold d1 in X1. fold d2 in Y2. assert (1 <= d1 /\ 1 <= d2)%Z by (unfold d1, d2; lia).
    apply Z.div_le_lower_bound; [lia|]. apply Z.le_trans with (2 ^ (d1 - 1) * 2 ^ sh)%Z; [|unfold m'; apply Z.mul_le_mono_nonneg_r; lia].
    rewrite <- Z.pow_add_r by lia. apply Z.le_trans with (2 ^ d2 * 2 ^ 52)%Z; [apply Z.mul_le_mono_nonneg_r; lia|]. rewrite <- Z.pow_add_r by lia. apply Z.pow_le_mono_r; [lia|]. unfold sh. lia. }
  apply quotient_range; [exact M0|lia|exact LE|].
  assert (EV : number (S754_finite sx mx ex) / number (S754_finite sy my ey) == inject_Z (sg (xorb sx sy)) * (inject_Z m' / inject_Z (Zpos my)) * q2 e').
  { rewrite !number_finite. unfold m'. rewrite !inject_Z_mult, q2_Z by lia. assert (EE : q2 ex == q2 sh * q2 e' * q2 ey) by (rewrite <- !q2_plus; unfold sh; replace (ex - ey - e' + e' + ey)%Z with ex by lia; reflexivity).
    rewrite EE. pose proof (q2_pos ey) as Q2. assert (N1 : ~ q2 ey == 0) by (intros C; rewrite C in Q2; discriminate Q2). assert (N2 : ~ inject_Z (Zpos my) == 0) by discriminate.
    destruct sx, sy; cbn [sg xorb]; change (inject_Z (-1)) with (-(1)); change (inject_Z 1) with 1; field; auto. }
  assert (EA : Qabs (number (S754_finite sx mx ex) / number (S754_finite sy my ey)) == inject_Z m' / inject_Z (Zpos my) * q2 e').
  { rewrite EV, !Qabs_Qmult. assert (SG : Qabs (inject_Z (sg (xorb sx sy))) == 1) by (destruct (xorb sx sy); reflexivity). rewrite SG, Qmult_1_l. rewrite !Qabs_pos; [reflexivity|apply Qlt_le_weak, q2_pos|].
    apply Qle_shift_div_l; [reflexivity|]. rewrite Qmult_0_l, <- (Zle_Qle 0). lia. }
  rewrite EA in H. eapply Qle_lt_trans; [|exact H]. apply Qmult_le_r'; [apply Qlt_le_weak, q2_pos|]. apply Qle_shift_div_l; [reflexivity|]. rewrite <- inject_Z_mult, <- Zle_Qle.
  rewrite Z.mul_comm. apply Z.mul_div_le. lia.
Qed.
(** Exponents of finite results. *)
Definition top (x : spec_float) : Prop := match x with S754_finite _ _ e => (e <= 971)%Z | _ => True end.
Lemma pack_top : forall s M e, top (pack s M e).
Proof. intros s [|m|m] e; try exact I. cbn [pack]. destruct (Z.leb_spec e 971); [exact H|exact I]. Qed.
Lemma round_aux_top : forall s m e, top (binary_round_aux prec emax s (Zpos m) e loc_Exact).
Proof. intros s m e. destruct (round_aux_spec s m e) as (M' & e' & -> & _). apply pack_top. Qed.
Lemma normalize_top : forall M e sz, top (binary_normalize prec emax M e sz).
Proof. intros [|m|m] e sz; cbn [binary_normalize]; [exact I| |]; unfold binary_round; destruct (shl_align _ _ _) as [m' e']; apply round_aux_top. Qed.
Lemma add_top : forall x y, top x -> top y -> top (SFadd prec emax x y).
Proof.
  intros x y TX TY. destruct x as [sx|sx| |sx mx ex]; destruct y as [sy|sy| |sy my ey]; try exact I; try exact TX; try exact TY; try (destruct sx, sy; exact I). cbn [SFadd]. apply normalize_top.
Qed.
Lemma double_top : forall x, double x -> top x.
Proof. intros [s|s| |s m e] D; try exact I. apply (double_shape s m e D). Qed.
(** Products with a factor of at most 1. *)
Lemma mul_unit_range : forall x y, top x -> b64_finite x = true -> b64_finite y = true -> Qabs (number y) <= 1 -> Qabs (number x * number y) < q2 1023 -> b64_finite (SFmul prec emax x y) = true.
Proof.
  intros x y TX FX FY Y1 H. destruct x as [sx|sx| |sx mx ex]; destruct y as [sy|sy| |sy my ey]; try discriminate FX; try discriminate FY; try reflexivity.
  cbn [SFmul].
  assert (EM : inject_Z (sg (xorb sx sy) * Zpos (mx * my)) * q2 (ex + ey) == number (S754_finite sx mx ex) * number (S754_finite sy my ey)).
  { rewrite !number_finite, q2_plus. replace (sg (xorb sx sy) * Zpos (mx * my))%Z with ((sg sx * Zpos mx) * (sg sy * Zpos my))%Z by (destruct sx, sy; unfold sg; cbn [xorb]; lia).
    rewrite inject_Z_mult. ring. }
  assert (EA : inject_Z (Zpos (mx * my)) * q2 (ex + ey) == Qabs (number (S754_finite sx mx ex) * number (S754_finite sy my ey))).
  { rewrite <- EM, <- abs_scaled, sg_abs. reflexivity. }
  rewrite <- EA in H. apply round_aux_range; [exact H|]. cbn [top] in TX.
  assert (EY : (ey < 1)%Z).
  { apply q2_lt. rewrite number_finite, <- abs_scaled, sg_abs in Y1. change (Z.abs (Zpos my)) with (Zpos my) in Y1. pose proof (q2_pos ey). assert (1 <= inject_Z (Zpos my)) by (change 1 with (inject_Z 1); rewrite <- Zle_Qle; lia).
    change (q2 1) with 2. nra. }
  lia.
Qed.
