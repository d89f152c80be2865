(** Error bounds of means. *)
Require Import List ZArith Bool Lia QArith Qabs Qpower Lqa Qfield.
Require Import Coq.Floats.SpecFloat.
Require Import Verif.Res Verif.Values Verif.Spec Verif.SpecAccuracy Verif.FloatErr Verif.FloatDiv Verif.PAccuracy Verif.PAccuracy2.
Import ListNotations.
Local Open Scope Q_scope.

Section Pow.
Variable pw : spec_float -> spec_float -> spec_float.
Notation F := (f64 pw).

Lemma count_exact : forall n, (Z.abs n <= 2 ^ 53)%Z -> b64_finite (b64_ofZ n) = true /\ number (b64_ofZ n) == inject_Z n.
Proof. intros n B. apply normalize_exact; [|exact B]. change ((2 # 1) ^ 0) with 1. ring. Qed.

(** A sum: distance and size. *)
Lemma sum_bounds : forall (l : list F) s, FSum l s -> Forall double l -> b64_finite s = true ->
  let M := magnitude (map number l) in let T := total (map number l) in
  exists G, 1 <= G /\ (1 + u) * G <= grow (length l) + u * (if Nat.eqb (length l) 0 then 1 else 0) /\ Qabs (number s - T) <= (G - 1) * M /\ Qabs (number s) <= G * M.
Proof.
  intros l s H D FI M T. assert (SW := sum_accurate pw l s H D FI). unfold sum_within in SW. rewrite map_length in SW. fold M T in SW. exists (grow (length l - 1)). assert (SW' : Qabs (number s - T) <= (grow (length l - 1) - 1) * M) by exact SW. clear SW.
  split; [apply grow_ge|]. split.
  - destruct (length l) as [|k]; [rewrite Nat.sub_0_l || idtac; cbn [Nat.sub Nat.eqb]; rewrite grow_0; lra|]. cbn [Nat.eqb]. replace (S k - 1)%nat with k by lia. rewrite grow_S. lra.
  - split; [exact SW'|]. assert (TM := total_magnitude (map number l)). fold M T in TM.
    assert (E : number s == T + (number s - T)) by ring. pose proof (Qabs_triangle T (number s - T)) as TR. rewrite <- E in TR. lra.
Qed.
Lemma empty_sum : forall (l : list F) s, FSum l s -> length l = 0%nat -> exists b, s = S754_zero b.
Proof. intros l s H L. eapply FSum_nil; [exact H|]. destruct l; [reflexivity|discriminate L]. Qed.

Lemma mean_accurate : forall (l : list F) s n, FSum l s -> Forall double l -> (1 <= n <= 2 ^ 53)%Z -> ffinite (fdiv s (fofZ n) : F) = true ->
  mean_within (map number l) (inject_Z n) (number (fdiv s (fofZ n) : F)).
Proof.
  intros l s n H D [N1 N2] FI. destruct (count_exact n ltac:(lia)) as [CF CE]. destruct (div_err s (b64_ofZ n) CF FI) as (FS & _ & _ & E).
  destruct (sum_bounds l s H D FS) as (G & G1 & GU & B1 & B2). unfold mean_within. rewrite map_length. fold (grow (length l)).
  set (M := magnitude (map number l)) in *. set (T := total (map number l)) in *. set (v := number (fdiv s (fofZ n) : F)) in *. change (number (SFdiv prec emax s (b64_ofZ n))) with v in E.
  assert (NP : 0 < inject_Z n) by (rewrite <- (Zlt_Qlt 0); lia). assert (NZ : ~ inject_Z n == 0) by (intros C; rewrite C in NP; discriminate NP).
  assert (TP : 0 < tiny) by apply q2_pos. pose proof u_pos as UP. assert (MN : 0 <= M) by apply magnitude_nonneg.
  rewrite CE in E. clearbody v. set (k := / inject_Z n) in *. assert (KP : 0 < k) by (apply Qinv_lt_0_compat; exact NP). unfold Qdiv in *. fold k in E |- *.
  assert (E1 : v - T * k == (v - number s * k) + (number s - T) * k) by ring. rewrite E1. eapply Qle_trans; [apply Qabs_triangle|]. rewrite Qabs_Qmult, (Qabs_pos k) by lra. rewrite Qabs_Qmult, (Qabs_pos k) in E by lra.
  assert (B1' := Qmult_le_r' _ _ k ltac:(lra) B1). assert (B2' := Qmult_le_r' _ _ k ltac:(lra) B2).
  assert (MK : 0 <= M * k) by (apply Qmult_le_0_compat; lra).
  destruct (Nat.eqb_spec (length l) 0) as [L|L].
  - destruct (empty_sum l s H L) as [b ->]. assert (M0 : M == 0) by (unfold M; destruct l; [reflexivity|discriminate L]). change (number (S754_zero b)) with 0 in *. rewrite M0 in *.
    assert (R1 : (G - 1) * 0 * k == 0) by ring. assert (R2 : Qabs 0 * k == 0) by (change (Qabs 0) with 0; ring). assert (R3 : (grow (length l) - 1) * (0 * k) == 0) by ring. rewrite R1 in B1'. rewrite R2 in E. rewrite R3. lra.
  - assert (GU' : (1 + u) * G <= grow (length l)) by lra. assert (X := Qmult_le_r' _ _ (M * k) MK GU').
    assert (U1 : u * (Qabs (number s) * k) <= u * (G * M * k)) by (rewrite !(Qmult_comm u); apply Qmult_le_r'; lra).
    assert (R : (1 + u) * G * (M * k) == (G - 1) * M * k + u * (G * M * k) + M * k) by ring. rewrite R in X.
    assert (R2 : (grow (length l) - 1) * (M * k) == grow (length l) * (M * k) - M * k) by ring. rewrite R2. lra.
Qed.
Lemma is_one : forall z : F, feqb z f1 = true -> number z == 1.
Proof.
  intros z H. change (SFeqb z b64_one = true) in H. unfold SFeqb in H. destruct z as [b|b| |b m e]; try (destruct b; discriminate H); try discriminate H.
  assert (E1 : b64_one = S754_finite false 4503599627370496 (-52)) by reflexivity. rewrite E1 in H. unfold SFcompare in H.
  destruct b; [discriminate H|]. destruct (Z.compare_spec e (-52)) as [EE|C|C]; try discriminate H. rewrite EE. destruct (Pos.compare_cont Eq m 4503599627370496) eqn:P; try discriminate H.
  apply Pos.compare_eq in P. rewrite P. reflexivity.
Qed.
Lemma recip_err : forall n, (1 <= n <= 2 ^ 53)%Z -> let inv : F := fdiv f1 (fofZ n) in b64_finite inv = true -> Qabs (number inv - / inject_Z n) <= u * / inject_Z n + tiny.
Proof.
  intros n [N1 N2] inv FI. destruct (count_exact n ltac:(lia)) as [CF CE]. assert (NP : 0 < inject_Z n) by (rewrite <- (Zlt_Qlt 0); lia).
  assert (KP : 0 < / inject_Z n) by (apply Qinv_lt_0_compat; exact NP).
  destruct (div_err b64_one (b64_ofZ n) CF FI) as (_ & _ & _ & E). rewrite CE in E. change (number b64_one) with (inject_Z 4503599627370496 * (2 # 1) ^ (-52)) in E.
  assert (O : inject_Z 4503599627370496 * (2 # 1) ^ (-52) == 1) by reflexivity. rewrite O in E. unfold Qdiv in E. rewrite Qmult_1_l in E. rewrite (Qabs_pos (/ inject_Z n)) in E by lra. exact E.
Qed.
Lemma recip_nonzero : forall n, (1 <= n <= 2 ^ 53)%Z -> feqb (fdiv f1 (fofZ n) : F) f0 = false.
Proof.
  intros n N. destruct (feqb (fdiv f1 (fofZ n) : F) f0) eqn:E; [|reflexivity]. exfalso. pose proof (recip_err n N (zero_finite pw _ E)) as R. cbv zeta in R. rewrite (zero_number pw _ E) in R.
  assert (NP : 0 < inject_Z n) by (rewrite <- (Zlt_Qlt 0); lia). assert (NB : inject_Z n <= inject_Z (2 ^ 53)) by (rewrite <- Zle_Qle; lia).
  assert (K1 : inject_Z n * / inject_Z n == 1) by (apply Qmult_inv_r; intros C; rewrite C in NP; discriminate NP). assert (KP : 0 < / inject_Z n) by (apply Qinv_lt_0_compat; exact NP).
  set (k := / inject_Z n) in *. clearbody k. assert (A : 0 - k == - k) by ring. rewrite A, Qabs_opp, (Qabs_pos k) in R by lra.
  assert (U2 : u <= 1 # 2) by (vm_compute; discriminate). assert (T2 : inject_Z (2 ^ 53) * (4 * tiny) < 1) by (vm_compute; reflexivity).
  assert (UK : u * k <= (1 # 2) * k) by (apply Qmult_le_r'; lra). assert (KT : k <= 2 * tiny) by lra. assert (TP : 0 < tiny) by apply q2_pos.
  assert (X : inject_Z n * k <= inject_Z (2 ^ 53) * k) by (apply Qmult_le_r'; lra). assert (Y : k * inject_Z (2 ^ 53) <= (2 * tiny) * inject_Z (2 ^ 53)) by (apply Qmult_le_r'; [discriminate|exact KT]).
  assert (Z2 : 0 <= inject_Z (2 ^ 53) * tiny) by (apply Qmult_le_0_compat; [discriminate|lra]). set (b := inject_Z (2 ^ 53)) in *. clearbody b.
  assert (R1 : b * (4 * tiny) == 4 * (b * tiny)) by ring. assert (R2 : (2 * tiny) * b == 2 * (b * tiny)) by ring. assert (R3 : k * b == b * k) by ring. rewrite R1 in T2. rewrite R2, R3 in Y. lra.
Qed.
(** The mean along axes: the sum times the rounded [1 / n]. *)
Lemma scaled_accurate : forall (l : list F) s n, FSum l s -> Forall double l -> (1 <= n <= 2 ^ 53)%Z ->
  let inv : F := fdiv f1 (fofZ n) in
  let v : F := if (n =? 1)%Z then s else if feqb inv f1 then s else if feqb inv f0 then f0 else fmul s inv in
  ffinite v = true -> scaled_within (map number l) (inject_Z n) (number v).
Proof.
  intros l s n H D N inv v FV.
  assert (F0 : feqb inv f0 = false) by (apply recip_nonzero; exact N). unfold v in *. clear v. rewrite F0 in *. set (v := (if (n =? 1)%Z then s else if feqb inv f1 then s else fmul s inv) : F) in *.
  assert (FS : b64_finite s = true).
  { unfold v in FV. destruct (n =? 1)%Z; [exact FV|]. destruct (feqb inv f1); [exact FV|]. apply (mul_err s inv FV). }
  destruct (sum_bounds l s H D FS) as (G & G1 & GU & B1 & B2). unfold scaled_within. rewrite map_length. fold (grow (length l + 1)) (grow (length l)).
  assert (TP : 0 < tiny) by apply q2_pos. pose proof u_pos as UP. set (M := magnitude (map number l)) in *. assert (MN : 0 <= M) by apply magnitude_nonneg. set (T := total (map number l)) in *.
  assert (NP : 0 < inject_Z n) by (rewrite <- (Zlt_Qlt 0); lia).
  set (k := / inject_Z n) in *. assert (KP : 0 < k) by (apply Qinv_lt_0_compat; exact NP). unfold Qdiv. fold k.
  assert (V : exists w, Qabs (w - k) <= u * k + tiny /\ Qabs (number v - number s * w) <= u * Qabs (number s * w) + tiny).
  {    assert (EX : forall w, number v == number s * w -> Qabs (number v - number s * w) <= u * Qabs (number s * w) + tiny).
    { intros w E. assert (E0 : number v - number s * w == 0) by (rewrite E; ring). rewrite E0. change (Qabs 0) with 0. pose proof (Qmult_le_0_compat u (Qabs (number s * w)) ltac:(lra) (Qabs_nonneg _)). lra. }
    assert (IE := recip_err n N). cbv zeta in IE. fold inv k in IE.
    unfold v in *. destruct (Z.eqb_spec n 1) as [E1|E1].
    - exists k. split; [assert (E0 : k - k == 0) by ring; rewrite E0; change (Qabs 0) with 0; pose proof (Qmult_le_0_compat u k ltac:(lra) ltac:(lra)); lra|]. apply EX. unfold k. rewrite E1. change (/ inject_Z 1) with 1. ring.
    - destruct (feqb inv f1) eqn:F1.
      + exists (number inv). split; [apply IE; change (SFeqb inv b64_one = true) in F1; destruct inv as [b|b| |b m e]; try reflexivity; try (destruct b; discriminate F1); discriminate F1|]. apply EX. rewrite (is_one inv F1). ring.
      + destruct (mul_err s inv FV) as (_ & FI' & _ & E). exists (number inv). split; [apply IE; exact FI'|exact E]. }
  destruct V as (w & W1 & W2). change (Qabs (number v - T * k) <= (grow (length l + 1) - 1) * (M * k) + (grow (length l) * M + 1) * tiny). clearbody v. set (x := number v) in *. set (y := number s) in *. clearbody x y.
  destruct (Nat.eqb_spec (length l) 0) as [L|L].
  - assert (M0 : M == 0) by (unfold M; destruct l; [reflexivity|discriminate L]). assert (T0 : T == 0) by (unfold T; destruct l; [reflexivity|discriminate L]).
    rewrite M0 in *. assert (Y0 : Qabs y <= 0) by (assert (Z0 : G * 0 == 0) by ring; rewrite Z0 in B2; exact B2). assert (YZ : y == 0) by (apply Qabs_Qle_condition in Y0; lra).
    assert (R1 : y * w == 0) by (rewrite YZ; ring). rewrite R1 in W2. rewrite T0. assert (R2 : x - 0 * k == x - 0) by ring. rewrite R2.
    assert (R3 : (grow (length l + 1) - 1) * (0 * k) + (grow (length l) * 0 + 1) * tiny == tiny) by ring. rewrite R3. change (Qabs 0) with 0 in W2. assert (R4 : u * 0 + tiny == tiny) by ring. rewrite R4 in W2. exact W2.
  - assert (GU' : (1 + u) * G <= grow (length l)) by lra. rewrite Nat.add_1_r, grow_S. set (g := grow (length l)) in *. clearbody g.
    assert (A1 : Qabs (y * w - T * k) <= (G - 1) * M * k + G * M * (u * k + tiny)).
    { assert (E : y * w - T * k == (y - T) * k + y * (w - k)) by ring. rewrite E. eapply Qle_trans; [apply Qabs_triangle|]. rewrite !Qabs_Qmult, (Qabs_pos k) by lra.
      apply Qplus_le_compat; [apply Qmult_le_r'; lra|]. apply Qle_trans with (Qabs y * (u * k + tiny)); [rewrite !(Qmult_comm (Qabs y)); apply Qmult_le_r'; [apply Qabs_nonneg|exact W1]|].
      apply Qmult_le_r'; [|exact B2]. pose proof (Qmult_le_0_compat u k ltac:(lra) ltac:(lra)). lra. }
    assert (A2 : Qabs (y * w) <= G * M * (k + (u * k + tiny))).
    { rewrite Qabs_Qmult. assert (WA : Qabs w <= k + (u * k + tiny)). { assert (E : w == k + (w - k)) by ring. pose proof (Qabs_triangle k (w - k)) as TR. rewrite <- E, (Qabs_pos k) in TR by lra. lra. }
      apply Qle_trans with (Qabs y * (k + (u * k + tiny))); [rewrite !(Qmult_comm (Qabs y)); apply Qmult_le_r'; [apply Qabs_nonneg|exact WA]|].
      apply Qmult_le_r'; [|exact B2]. pose proof (Qmult_le_0_compat u k ltac:(lra) ltac:(lra)). lra. }
    assert (E : x - T * k == (x - y * w) + (y * w - T * k)) by ring. rewrite E. eapply Qle_trans; [apply Qabs_triangle|].
    assert (A3 : u * Qabs (y * w) <= u * (G * M * (k + (u * k + tiny)))) by (rewrite !(Qmult_comm u); apply Qmult_le_r'; lra).
    assert (MK : 0 <= M * k) by (apply Qmult_le_0_compat; lra). assert (MT : 0 <= M * tiny) by (apply Qmult_le_0_compat; lra).
    assert (X1 := Qmult_le_r' _ _ (M * k) MK GU'). assert (X2 := Qmult_le_r' _ _ (M * tiny) MT GU').
    assert (X3 : u * ((1 + u) * G * (M * k)) <= u * (g * (M * k))) by (rewrite !(Qmult_comm u); apply Qmult_le_r'; lra).
    assert (R1 : (G - 1) * M * k + G * M * (u * k + tiny) + u * (G * M * (k + (u * k + tiny))) + M * k == (1 + u) * G * (M * k) + u * ((1 + u) * G * (M * k)) + (1 + u) * G * (M * tiny)) by ring.
    assert (R2 : ((1 + u) * g - 1) * (M * k) + (g * M + 1) * tiny == g * (M * k) + u * (g * (M * k)) - M * k + g * (M * tiny) + tiny) by ring.
    rewrite R2. lra.
Qed.
End Pow.
