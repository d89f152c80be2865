(** Rounding error of the operations of IEEE binary64 (standard library [SpecFloat]), in exact
    rational arithmetic. *)
Require Import ZArith Bool Lia QArith Qabs Qpower Lqa Nat.
Require Import Coq.Floats.SpecFloat.
Require Import Verif.Values Verif.SpecAccuracy.
Local Open Scope Z_scope.

(** ** Shifting right *)
Lemma iter_pos_nat : forall {A} (f : A -> A) n x, iter_pos f n x = Nat.iter (Pos.to_nat n) f x.
Proof.
  intros A f. assert (G : forall a b x, Nat.iter a f (Nat.iter b f x) = Nat.iter (a + b) f x).
  { induction a as [|a IH]; intros b x; [reflexivity|]. simpl. rewrite IH. reflexivity. }
  induction n as [n IH|n IH|]; intros x; cbn [iter_pos]; rewrite ?IH, ?G.
  - change (f x) with (Nat.iter 1 f x). rewrite !G. f_equal. lia.
  - f_equal. lia.
  - reflexivity.
Qed.
Lemma shr_1_spec : forall m r s, 0 <= m -> shr_1 (Build_shr_record m r s) = Build_shr_record (m / 2) (Z.odd m) (r || s).
Proof.
  intros m r s H. unfold shr_1. destruct m as [|p|p]; [reflexivity| |lia].
  destruct p as [p|p|]; cbn [Z.odd]; f_equal; try (apply Z.div_unique with (r := 1); lia); try (apply Z.div_unique with (r := 0); lia).
Qed.
Lemma mod_pow_succ : forall M n, 0 <= M -> 0 <= n -> M mod 2 ^ (n + 1) = M mod 2 ^ n + (if Z.odd (M / 2 ^ n) then 2 ^ n else 0).
Proof.
  intros M n HM Hn. rewrite Z.pow_add_r, Z.pow_1_r by lia. assert (P : 0 < 2 ^ n) by (apply Z.pow_pos_nonneg; lia).
  rewrite Z.rem_mul_r by lia. f_equal. rewrite Zmod_odd. destruct (Z.odd (M / 2 ^ n)); lia.
Qed.
Lemma shr_iter : forall M n, 0 <= M ->
  Nat.iter (S n) shr_1 (Build_shr_record M false false) =
  Build_shr_record (M / 2 ^ Z.of_nat (S n)) (Z.odd (M / 2 ^ Z.of_nat n)) (negb (M mod 2 ^ Z.of_nat n =? 0)).
Proof.
  intros M n HM. induction n as [|n IH].
  - cbn [Nat.iter Nat.recursion nat_rect]. unfold Nat.iter; simpl nat_rect. rewrite shr_1_spec by exact HM.
    change (Z.of_nat 1) with 1. change (Z.of_nat 0) with 0. rewrite Z.pow_1_r, Z.pow_0_r, Z.div_1_r, Z.mod_1_r. reflexivity.
  - change (Nat.iter (S (S n)) shr_1 (Build_shr_record M false false)) with (shr_1 (Nat.iter (S n) shr_1 (Build_shr_record M false false))).
    rewrite IH. assert (P : 0 < 2 ^ Z.of_nat n) by (apply Z.pow_pos_nonneg; lia).
    assert (P' : 0 < 2 ^ Z.of_nat (S n)) by (apply Z.pow_pos_nonneg; lia).
    rewrite shr_1_spec by (apply Z.div_pos; lia). f_equal.
    + rewrite Z.div_div by lia. f_equal. replace (Z.of_nat (S (S n))) with (Z.of_nat (S n) + 1) by lia. rewrite Z.pow_add_r by lia. reflexivity.
    + replace (Z.of_nat (S n)) with (Z.of_nat n + 1) by lia. rewrite mod_pow_succ by lia.
      pose proof (Z.mod_pos_bound M (2 ^ Z.of_nat n) P) as B. set (t := M mod 2 ^ Z.of_nat n) in *.
      destruct (Z.odd (M / 2 ^ Z.of_nat n)).
      * symmetry. apply negb_true_iff, Z.eqb_neq. lia.
      * rewrite Z.add_0_r. reflexivity.
Qed.

(** Rounding [M / 2^k] to the nearest integer, [k >= 1]. *)
Definition nearest (M k : Z) : Z :=
  let mrs := iter_pos shr_1 (Z.to_pos k) (Build_shr_record M false false) in round_nearest_even (shr_m mrs) (loc_of_shr_record mrs).
Lemma nearest_spec : forall M k, 0 <= M -> 1 <= k ->
  M / 2 ^ k <= nearest M k <= M / 2 ^ k + 1 /\ Z.abs (nearest M k * 2 ^ k - M) <= 2 ^ (k - 1) /\
  ((2 ^ k | M) -> nearest M k * 2 ^ k = M).
Proof.
  intros M k HM Hk. unfold nearest. rewrite iter_pos_nat. replace (Pos.to_nat (Z.to_pos k)) with (S (Z.to_nat (k - 1))) by lia.
  rewrite shr_iter by exact HM. replace (Z.of_nat (S (Z.to_nat (k - 1)))) with k by lia. replace (Z.of_nat (Z.to_nat (k - 1))) with (k - 1) by lia.
  assert (P : 0 < 2 ^ (k - 1)) by (apply Z.pow_pos_nonneg; lia).
  assert (E : 2 ^ k = 2 * 2 ^ (k - 1)) by (rewrite <- Z.pow_succ_r by lia; f_equal; lia).
  pose proof (mod_pow_succ M (k - 1) HM ltac:(lia)) as MD. replace (k - 1 + 1) with k in MD by lia.
  pose proof (Z.div_mod M (2 ^ k) ltac:(lia)) as DM. pose proof (Z.mod_pos_bound M (2 ^ (k - 1)) P) as B.
  set (q := M / 2 ^ k) in *. set (t := M mod 2 ^ (k - 1)) in *.
  assert (DV : (2 ^ k | M) -> M mod 2 ^ k = 0) by (intros D; apply Z.mod_divide; [lia|exact D]).
  rewrite MD in DM, DV. rewrite E in DM, DV |- *. clearbody q t. clear MD E.
  destruct (Z.odd (M / 2 ^ (k - 1))); destruct (Z.eqb_spec t 0) as [T|T]; cbn [shr_m loc_of_shr_record negb round_nearest_even].
  - destruct (Z.even q); (split; [lia|]; split; [lia|]; intros D; apply DV in D; lia).
  - split; [lia|]; split; [lia|]; intros D; apply DV in D; lia.
  - split; [lia|]; split; [lia|]; intros D; lia.
  - split; [lia|]; split; [lia|]; intros D; apply DV in D; lia.
Qed.

(** ** Digits *)
Lemma digits2_bounds : forall p, 2 ^ (Zpos (digits2_pos p) - 1) <= Zpos p < 2 ^ Zpos (digits2_pos p).
Proof.
  assert (S : forall d, 2 ^ Zpos (Pos.succ d) = 2 * 2 ^ Zpos d) by (intros d; rewrite <- Z.pow_succ_r by lia; f_equal; lia).
  assert (S' : forall d, 2 ^ (Zpos (Pos.succ d) - 1) = 2 * 2 ^ (Zpos d - 1)) by (intros d; rewrite <- Z.pow_succ_r by lia; f_equal; lia).
  induction p as [p IH|p IH|]; cbn [digits2_pos]; [rewrite S, S'; lia|rewrite S, S'; lia|]. cbn. lia.
Qed.
Lemma digits2_le : forall p d, 0 <= d -> Zpos p < 2 ^ d -> Zpos (digits2_pos p) <= d.
Proof.
  intros p d Hd H. pose proof (digits2_bounds p) as [B _]. destruct (Z.le_gt_cases (Zpos (digits2_pos p)) d) as [L|L]; [exact L|].
  assert (2 ^ d <= 2 ^ (Zpos (digits2_pos p) - 1)) by (apply Z.pow_le_mono_r; lia). lia.
Qed.

(** ** Rounding to binary64 *)
Notation fexp64 := (fexp prec emax).
Lemma fexp64_eq : forall e, fexp64 e = Z.max (e - 53) (-1074).
Proof. reflexivity. Qed.

(** What [binary_round_aux] computes from [m * 2^e]. *)
Definition steps (m : positive) (e : Z) : Z := fexp64 (Zpos (digits2_pos m) + e) - e.

Definition pack (s : bool) (m : Z) (e : Z) : spec_float :=
  match m with
  | Z0 => S754_zero s
  | Zpos m => if e <=? 971 then S754_finite s m e else S754_infinity s
  | Zneg _ => S754_nan
  end.
(** The result is [M' * 2^e'] with the sign. *)
Lemma round_aux_spec : forall s m e,
  exists M' e', binary_round_aux prec emax s (Zpos m) e loc_Exact = pack s M' e' /\ 0 <= M' /\ -1074 <= e' /\
    (steps m e <= 0 -> M' = Zpos m /\ e' = e) /\
    (1 <= steps m e -> M' * 2 ^ (e' - e) = nearest (Zpos m) (steps m e) * 2 ^ steps m e /\ e <= e' <= e + steps m e + 1).
Proof.
  intros s m e. unfold binary_round_aux, shr_fexp. cbn [shr_record_of_loc Zdigits2]. fold (steps m e).
  assert (FE : -1074 <= e + steps m e) by (unfold steps; rewrite fexp64_eq; lia).
  destruct (Z.le_gt_cases (steps m e) 0) as [K|K].
  - assert (E : forall mrs, shr mrs e (steps m e) = (mrs, e)) by (intros; unfold shr; destruct (steps m e); try lia; reflexivity).
    rewrite E. cbn [shr_m loc_of_shr_record round_nearest_even Zdigits2]. change (fexp prec emax (Zpos (digits2_pos m) + e) - e) with (steps m e). rewrite E. cbn [shr_m].
    exists (Zpos m), e. split; [reflexivity|]. repeat split; lia.
  - assert (E : forall mrs, shr mrs e (steps m e) = (iter_pos shr_1 (Z.to_pos (steps m e)) mrs, e + steps m e)) by (intros; unfold shr; destruct (steps m e); try lia; reflexivity).
    rewrite E. set (k := steps m e) in *. change (round_nearest_even (shr_m (iter_pos shr_1 (Z.to_pos k) {| shr_m := Zpos m; shr_r := false; shr_s := false |}))
      (loc_of_shr_record (iter_pos shr_1 (Z.to_pos k) {| shr_m := Zpos m; shr_r := false; shr_s := false |}))) with (nearest (Zpos m) k).
    pose proof (nearest_spec (Zpos m) k ltac:(lia) ltac:(lia)) as (B & _ & _).
    pose proof (digits2_bounds m) as [_ DM].
    assert (Q : Zpos m / 2 ^ k < 2 ^ 53).
    { apply Z.div_lt_upper_bound; [apply Z.pow_pos_nonneg; lia|]. rewrite <- Z.pow_add_r by lia.
      eapply Z.lt_le_trans; [exact DM|]. apply Z.pow_le_mono_r; [lia|]. unfold k, steps. rewrite fexp64_eq. lia. }
    assert (Q0 : 0 <= Zpos m / 2 ^ k) by (apply Z.div_pos; [lia|apply Z.pow_pos_nonneg; lia]).
    set (N := nearest (Zpos m) k) in *. clearbody N.
    assert (E2 : e + k - e = k) by lia.
    destruct (Z.eq_dec N (2 ^ 53)) as [NE|NE].
    + rewrite NE. replace (fexp64 (Zdigits2 (2 ^ 53) + (e + k)) - (e + k)) with 1 by (change (Zdigits2 (2 ^ 53)) with 54; rewrite fexp64_eq; lia).
      exists (2 ^ 52), (e + k + 1). split; [reflexivity|]. split; [lia|]. split; [lia|]. split; [lia|]. intros _. split; [|lia].
      replace (e + k + 1 - e) with (1 + k) by lia. rewrite Z.pow_add_r by lia. rewrite Z.mul_assoc. f_equal.
    + assert (KK : fexp64 (Zdigits2 N + (e + k)) - (e + k) <= 0).
      { destruct N as [|n|n]; [cbn [Zdigits2]; rewrite fexp64_eq; lia| |lia]. cbn [Zdigits2].
        assert (Zpos (digits2_pos n) <= 53) by (apply digits2_le; lia). rewrite fexp64_eq. lia. }
      assert (EE : forall mrs, shr mrs (e + k) (fexp64 (Zdigits2 N + (e + k)) - (e + k)) = (mrs, e + k)) by (intros; unfold shr; destruct (fexp64 (Zdigits2 N + (e + k)) - (e + k)); try lia; reflexivity).
      rewrite EE. cbn [shr_m]. exists N, (e + k). split; [reflexivity|]. split; [lia|]. split; [lia|]. split; [lia|]. intros _. rewrite E2. split; [reflexivity|lia].
Qed.

(** ** In rational numbers *)
Local Open Scope Q_scope.
Notation q2 := (Qpower (2 # 1)).
Lemma q2_nz : ~ (2 # 1) == 0. Proof. discriminate. Qed.
Lemma q2_pos : forall e, 0 < q2 e.
Proof. intros e. apply Qpower_0_lt. reflexivity. Qed.
Lemma q2_plus : forall a b, q2 (a + b) == q2 a * q2 b.
Proof. intros. apply Qpower_plus, q2_nz. Qed.
Lemma q2_Z : forall n, (0 <= n)%Z -> inject_Z (2 ^ n) == q2 n.
Proof. intros n H. apply (Zpower_Qpower 2 n H). Qed.
Lemma inject_Z_abs : forall z, Qabs (inject_Z z) == inject_Z (Z.abs z).
Proof. intros z. reflexivity. Qed.

Definition grain (x : spec_float) : Prop := match x with S754_finite _ _ e => (-1074 <= e)%Z | _ => True end.
Lemma double_grain : forall x, double x -> grain x.
Proof.
  intros [s|s| |s m e] D; try exact I. unfold double, valid_binary, bounded in D. apply andb_true_iff in D. destruct D as [D _].
  unfold canonical_mantissa in D. apply Zeq_bool_eq in D. unfold grain. change (fexp 53 1024) with fexp64 in D. rewrite fexp64_eq in D. lia.
Qed.

Definition sg (s : bool) : Z := if s then (-1)%Z else 1%Z.
Lemma number_pack : forall s M e, (0 <= M)%Z -> b64_finite (pack s M e) = true -> number (pack s M e) == inject_Z (sg s * M) * q2 e.
Proof.
  intros s M e H FI. destruct M as [|m|m]; [cbn; destruct s; reflexivity| |lia]. cbn [pack] in *. destruct (e <=? 971)%Z; [|discriminate FI].
  cbn [number]. destruct s; reflexivity.
Qed.
Lemma pack_grain : forall s M e, (-1074 <= e)%Z -> grain (pack s M e).
Proof. intros s M e H. destruct M; cbn [pack]; try exact I. destruct (e <=? 971)%Z; [exact H|exact I]. Qed.

(** Relative to [M], or [tiny] below the normal range. *)
Definition slack (e : Z) : Q := if (-1074 <=? e)%Z then 0 else tiny.
Lemma slack_nonneg : forall e, 0 <= slack e.
Proof. intros e. unfold slack. destruct (-1074 <=? e)%Z; [apply Qle_refl|apply Qlt_le_weak, q2_pos]. Qed.
Lemma Qmult_le_r' : forall x y z, 0 <= z -> x <= y -> x * z <= y * z.
Proof. intros. apply Qmult_le_compat_r; auto. Qed.
Lemma sg_abs : forall s z, Z.abs (sg s * z) = Z.abs z.
Proof. intros [] z; unfold sg; lia. Qed.
Lemma round_aux_err : forall s m e, let r := binary_round_aux prec emax s (Zpos m) e loc_Exact in
  grain r /\ (b64_finite r = true -> Qabs (number r - inject_Z (sg s * Zpos m) * q2 e) <= u * (inject_Z (Zpos m) * q2 e) + slack e).
Proof.
  intros s m e r. destruct (round_aux_spec s m e) as (M' & e' & E & M0 & G & K0 & K1). unfold r. rewrite E. split; [apply pack_grain; exact G|].
  intros FI. rewrite number_pack by auto. pose proof (q2_pos e) as P.
  assert (UP : 0 <= u * (inject_Z (Zpos m) * q2 e) + slack e).
  { pose proof (slack_nonneg e). assert (0 <= u * (inject_Z (Zpos m) * q2 e)); [|lra]. apply Qmult_le_0_compat; [apply Qlt_le_weak, q2_pos|]. apply Qmult_le_0_compat; [discriminate|lra]. }
  destruct (Z.le_gt_cases (steps m e) 0) as [K|K].
  - destruct (K0 K) as [-> ->]. setoid_replace (inject_Z (sg s * Zpos m) * q2 e - inject_Z (sg s * Zpos m) * q2 e) with 0 by ring. exact UP.
  - destruct (K1 ltac:(lia)) as [EM LE]. clear K0 K1. set (k := steps m e) in *. set (N := nearest (Zpos m) k) in *.
    pose proof (nearest_spec (Zpos m) k ltac:(lia) ltac:(lia)) as (_ & ER & _). fold N in ER.
    assert (EV : inject_Z (sg s * M') * q2 e' == inject_Z (sg s * (N * 2 ^ k)) * q2 e).
    { replace e' with (e' - e + e)%Z at 1 by lia. rewrite q2_plus, <- q2_Z by lia. rewrite Qmult_assoc, <- inject_Z_mult. rewrite <- Z.mul_assoc, EM. reflexivity. }
    rewrite EV. setoid_replace (inject_Z (sg s * (N * 2 ^ k)) * q2 e - inject_Z (sg s * Zpos m) * q2 e) with (inject_Z (sg s * (N * 2 ^ k - Zpos m)) * q2 e)
      by (rewrite !inject_Z_mult, <- (inject_Z_plus (N * 2 ^ k) (- Zpos m)) || (replace (N * 2 ^ k - Zpos m)%Z with (N * 2 ^ k + - Zpos m)%Z by lia; rewrite !inject_Z_mult, inject_Z_plus, inject_Z_opp, inject_Z_mult; ring)).
    rewrite Qabs_Qmult, inject_Z_abs, sg_abs, (Qabs_pos (q2 e)) by lra.
    assert (B1 : inject_Z (Z.abs (N * 2 ^ k - Zpos m)) * q2 e <= inject_Z (2 ^ (k - 1)) * q2 e).
    { apply Qmult_le_r'; [lra|]. rewrite <- Zle_Qle. exact ER. }
    eapply Qle_trans; [exact B1|]. rewrite q2_Z by lia.
    pose proof (digits2_bounds m) as [DL _].
    destruct (Z.le_gt_cases (-1074 - e) (Zpos (digits2_pos m) - 53)) as [C|C].
    + assert (EK : k = (Zpos (digits2_pos m) - 53)%Z) by (unfold k, steps; rewrite fexp64_eq; lia).
      assert (B2 : q2 (k - 1) <= u * inject_Z (Zpos m)).
      { replace (k - 1)%Z with (-53 + (Zpos (digits2_pos m) - 1))%Z by lia. rewrite q2_plus. change (q2 (-53)) with u.
        rewrite (Qmult_comm u), (Qmult_comm u). apply Qmult_le_r'; [apply Qlt_le_weak, q2_pos|]. rewrite <- q2_Z by lia. rewrite <- Zle_Qle. exact DL. }
      apply (Qmult_le_r' _ _ (q2 e)) in B2; [|lra]. pose proof (slack_nonneg e). rewrite Qmult_assoc. lra.
    + assert (EK : k = (-1074 - e)%Z) by (unfold k, steps; rewrite fexp64_eq; lia).
      rewrite <- q2_plus. replace (k - 1 + e)%Z with (-1075)%Z by lia.
      unfold slack. destruct (Z.leb_spec (-1074) e); [lia|]. change (q2 (-1075)) with tiny.
      assert (0 <= u * (inject_Z (Zpos m) * q2 e)); [|lra]. apply Qmult_le_0_compat; [apply Qlt_le_weak, q2_pos|]. apply Qmult_le_0_compat; [discriminate|lra].
Qed.

Lemma shl_align_le : forall m e e', (e' <= e)%Z -> exists m', shl_align m e e' = (m', e') /\ Zpos m' = (Zpos m * 2 ^ (e - e'))%Z.
Proof.
  intros m e e' H. unfold shl_align. destruct (e' - e)%Z as [|d|d] eqn:E; [| lia |].
  - exists m. split; [f_equal; lia|]. replace (e - e')%Z with 0%Z by lia. rewrite Z.pow_0_r. lia.
  - exists (shift_pos d m). split; [reflexivity|]. rewrite shift_pos_correct, Z.mul_comm. replace (e - e')%Z with (Zpos d) by lia. reflexivity.
Qed.
Lemma shl_align_gt : forall m e e', (e < e')%Z -> shl_align m e e' = (m, e).
Proof. intros m e e' H. unfold shl_align. destruct (e' - e)%Z as [|d|d] eqn:E; [lia|reflexivity|lia]. Qed.
Lemma q2_move : forall M e e', (e' <= e)%Z -> inject_Z (M * 2 ^ (e - e')) * q2 e' == inject_Z M * q2 e.
Proof. intros M e e' H. rewrite inject_Z_mult, q2_Z by lia. rewrite <- Qmult_assoc, <- q2_plus. replace (e - e' + e')%Z with e by lia. reflexivity. Qed.

Lemma round_err : forall s m e, let r := binary_round prec emax s m e in
  grain r /\ (b64_finite r = true -> Qabs (number r - inject_Z (sg s * Zpos m) * q2 e) <= u * (inject_Z (Zpos m) * q2 e) + slack e).
Proof.
  intros s m e. unfold binary_round. destruct (Z.le_gt_cases (fexp64 (Zpos (digits2_pos m) + e)) e) as [H|H].
  - destruct (shl_align_le m e _ H) as (m' & -> & E). pose proof (round_aux_err s m' (fexp64 (Zpos (digits2_pos m) + e))) as [G R]. cbv zeta in *.
    split; [exact G|]. intros FI. specialize (R FI). set (w := number _) in *. clearbody w. rewrite E in R. rewrite Z.mul_assoc in R. rewrite !q2_move in R by exact H.
    eapply Qle_trans; [exact R|]. pose proof (slack_nonneg e). unfold slack at 1. rewrite fexp64_eq.
    destruct (Z.leb_spec (-1074) (Z.max (Zpos (digits2_pos m) + e - 53) (-1074))); [lra|lia].
  - rewrite shl_align_gt by exact H. apply round_aux_err.
Qed.
Lemma normalize_err : forall M e sz, let r := binary_normalize prec emax M e sz in
  grain r /\ (b64_finite r = true -> Qabs (number r - inject_Z M * q2 e) <= u * (inject_Z (Z.abs M) * q2 e) + slack e).
Proof.
  intros M e sz. destruct M as [|m|m]; cbn [binary_normalize].
  - split; [exact I|]. intros _. pose proof (slack_nonneg e). change (number (S754_zero sz)) with 0. change (inject_Z (Z.abs 0)) with 0. change (inject_Z 0) with 0.
    assert (E1 : 0 - 0 * q2 e == 0) by ring. assert (E2 : u * (0 * q2 e) + slack e == slack e) by ring. rewrite E1, E2. exact H.
  - apply (round_err false m e).
  - apply (round_err true m e).
Qed.
Lemma abs_scaled : forall M e, inject_Z (Z.abs M) * q2 e == Qabs (inject_Z M * q2 e).
Proof. intros M e. pose proof (q2_pos e). rewrite Qabs_Qmult, inject_Z_abs, (Qabs_pos (q2 e)) by lra. reflexivity. Qed.

(** ** Addition, multiplication, fused multiply-add *)
Lemma number_finite : forall s m e, number (S754_finite s m e) == inject_Z (sg s * Zpos m) * q2 e.
Proof. intros [] m e; reflexivity. Qed.
Lemma zero_err : forall x, 0 <= u * Qabs x.
Proof. intros x. apply Qmult_le_0_compat; [apply Qlt_le_weak, q2_pos|apply Qabs_nonneg]. Qed.
Lemma exact_err : forall a b x, a == b -> Qabs (a - b) <= u * Qabs x.
Proof. intros a b x E. setoid_replace (a - b) with 0 by (rewrite E; ring). apply zero_err. Qed.

Lemma add_err : forall x y, grain x -> grain y -> b64_finite (SFadd prec emax x y) = true ->
  b64_finite x = true /\ b64_finite y = true /\ grain (SFadd prec emax x y) /\
  Qabs (number (SFadd prec emax x y) - (number x + number y)) <= u * Qabs (number x + number y).
Proof.
  intros x y GX GY FI.
  destruct x as [sx|sx| |sx mx ex]; destruct y as [sy|sy| |sy my ey]; try discriminate FI; try (destruct sx, sy; discriminate FI).
  - destruct sx, sy; (repeat split; try exact I; apply exact_err; reflexivity).
  - split; [reflexivity|]. split; [reflexivity|]. split; [exact GY|]. apply exact_err. cbn [SFadd]. change (number (S754_zero sx)) with 0. ring.
  - split; [reflexivity|]. split; [reflexivity|]. split; [exact GX|]. apply exact_err. cbn [SFadd]. change (number (S754_zero sy)) with 0. ring.
  - split; [reflexivity|]. split; [reflexivity|]. cbn [SFadd] in *.
    destruct (shl_align_le mx ex (Z.min ex ey) (Z.le_min_l _ _)) as (mx' & EX & VX). destruct (shl_align_le my ey (Z.min ex ey) (Z.le_min_r _ _)) as (my' & EY & VY).
    rewrite EX, EY in *. cbn [fst] in *. set (M := (cond_Zopp sx (Zpos mx') + cond_Zopp sy (Zpos my'))%Z) in *.
    pose proof (normalize_err M (Z.min ex ey) false) as [G R]. split; [exact G|]. specialize (R FI).
    assert (EM : inject_Z M * q2 (Z.min ex ey) == number (S754_finite sx mx ex) + number (S754_finite sy my ey)).
    { rewrite !number_finite. unfold M. rewrite inject_Z_plus.
      replace (cond_Zopp sx (Zpos mx')) with (sg sx * Zpos mx * 2 ^ (ex - Z.min ex ey))%Z by (unfold cond_Zopp, sg; destruct sx; lia).
      replace (cond_Zopp sy (Zpos my')) with (sg sy * Zpos my * 2 ^ (ey - Z.min ex ey))%Z by (unfold cond_Zopp, sg; destruct sy; lia).
      rewrite Qmult_plus_distr_l, !q2_move by lia. reflexivity. }
    rewrite abs_scaled, EM in R. eapply Qle_trans; [exact R|]. unfold slack. cbn [grain] in GX, GY. destruct (Z.leb_spec (-1074) (Z.min ex ey)); [lra|lia].
Qed.
Lemma mul_err : forall x y, b64_finite (SFmul prec emax x y) = true ->
  b64_finite x = true /\ b64_finite y = true /\ grain (SFmul prec emax x y) /\
  Qabs (number (SFmul prec emax x y) - number x * number y) <= u * Qabs (number x * number y) + tiny.
Proof.
  intros x y FI. assert (T : 0 <= tiny) by (apply Qlt_le_weak, q2_pos).
  assert (Z0 : forall a b, a == b -> Qabs (a - b) <= u * Qabs b + tiny) by (intros a b E; pose proof (exact_err a b b E); lra).
  destruct x as [sx|sx| |sx mx ex]; destruct y as [sy|sy| |sy my ey]; try discriminate FI;
    try (split; [reflexivity|]; split; [reflexivity|]; split; [exact I|]; apply Z0; cbn [SFmul number]; ring).
  split; [reflexivity|]. split; [reflexivity|]. cbn [SFmul] in *.
  pose proof (round_aux_err (xorb sx sy) (mx * my) (ex + ey)) as [G R]. split; [exact G|]. specialize (R FI).
  assert (EM : inject_Z (sg (xorb sx sy) * Zpos (mx * my)) * q2 (ex + ey) == number (S754_finite sx mx ex) * number (S754_finite sy my ey)).
  { rewrite !number_finite, q2_plus. replace (sg (xorb sx sy) * Zpos (mx * my))%Z with ((sg sx * Zpos mx) * (sg sy * Zpos my))%Z by (destruct sx, sy; unfold sg; cbn [xorb]; lia).
    rewrite inject_Z_mult. ring. }
  assert (EA : inject_Z (Zpos (mx * my)) * q2 (ex + ey) == Qabs (number (S754_finite sx mx ex) * number (S754_finite sy my ey))).
  { rewrite <- EM, <- abs_scaled, sg_abs. reflexivity. }
  rewrite EM, EA in R. eapply Qle_trans; [exact R|]. unfold slack. destruct (-1074 <=? ex + ey)%Z; lra.
Qed.
Lemma fma_err : forall x y z, grain z -> b64_finite (b64_fma x y z) = true ->
  b64_finite x = true /\ b64_finite y = true /\ b64_finite z = true /\ grain (b64_fma x y z) /\
  Qabs (number (b64_fma x y z) - (number x * number y + number z)) <= u * Qabs (number x * number y + number z) + tiny.
Proof.
  intros x y z GZ FI. assert (T : 0 <= tiny) by (apply Qlt_le_weak, q2_pos).
  assert (SL : forall e, slack e <= tiny) by (intros e; unfold slack; destruct (-1074 <=? e)%Z; lra).
  assert (ZC : forall s, b64_finite (SFadd prec emax (S754_zero s) z) = true -> number x * number y == 0 ->
    b64_finite z = true /\ grain (SFadd prec emax (S754_zero s) z) /\
    Qabs (number (SFadd prec emax (S754_zero s) z) - (number x * number y + number z)) <= u * Qabs (number x * number y + number z) + tiny).
  { intros s F0 E0. destruct (add_err (S754_zero s) z I GZ F0) as (_ & A & B & C). split; [exact A|]. split; [exact B|]. change (number (S754_zero s)) with 0 in C.
    rewrite E0. lra. }
  destruct x as [sx|sx| |sx mx ex]; destruct y as [sy|sy| |sy my ey];
    try (split; [reflexivity|]; split; [reflexivity|]; apply ZC; [exact FI|cbn [number]; ring]);
    try (exfalso; destruct z; try discriminate FI; cbn in FI; repeat match type of FI with context [Bool.eqb ?a ?b] => destruct (Bool.eqb a b) end; discriminate FI).
  assert (EM : inject_Z (signed (xorb sx sy) (mx * my)) * q2 (ex + ey) == number (S754_finite sx mx ex) * number (S754_finite sy my ey)).
  { rewrite !number_finite, q2_plus. replace (signed (xorb sx sy) (mx * my)) with ((sg sx * Zpos mx) * (sg sy * Zpos my))%Z by (destruct sx, sy; unfold sg, signed; cbn [xorb]; lia).
    rewrite inject_Z_mult. ring. }
  destruct z as [sz|sz| |sz mz ez]; cbn [b64_fma] in *; try discriminate FI; split; try reflexivity; split; try reflexivity; split; try reflexivity.
  - pose proof (normalize_err (signed (xorb sx sy) (mx * my)) (ex + ey) (xorb sx sy)) as [G R]. split; [exact G|]. specialize (R FI).
    rewrite abs_scaled, EM in R. change (number (S754_zero sz)) with 0. rewrite Qplus_0_r. pose proof (SL (ex + ey)%Z). lra.
  - set (e := Z.min (ex + ey) ez) in *. set (M := (signed (xorb sx sy) (mx * my) * 2 ^ (ex + ey - e) + signed sz mz * 2 ^ (ez - e))%Z) in *.
    pose proof (normalize_err M e false) as [G R]. split; [exact G|]. specialize (R FI).
    assert (EV : inject_Z M * q2 e == number (S754_finite sx mx ex) * number (S754_finite sy my ey) + number (S754_finite sz mz ez)).
    { unfold M. rewrite inject_Z_plus, Qmult_plus_distr_l, !q2_move by (unfold e; lia). rewrite EM. apply Qplus_comp; [reflexivity|]. destruct sz; reflexivity. }
    rewrite abs_scaled, EV in R. pose proof (SL e). lra.
Qed.

(** ** Integers up to 2^53 are exact *)
Lemma Zinj : forall a b, inject_Z a == inject_Z b -> a = b.
Proof. intros a b H. apply inject_Z_injective. exact H. Qed.
Lemma scaled_pos : forall m e N, inject_Z (Zpos m) * q2 e == inject_Z N -> (0 < N)%Z.
Proof.
  intros m e N H. pose proof (q2_pos e). assert (0 < inject_Z (Zpos m) * q2 e) by (apply Qmult_lt_0_compat; [reflexivity|auto]).
  rewrite H in H1. rewrite Zlt_Qlt. exact H1.
Qed.
Lemma scaled_int : forall m e N, inject_Z (Zpos m) * q2 e == inject_Z N -> (0 <= e -> Zpos m * 2 ^ e = N)%Z /\ (e <= 0 -> Zpos m = N * 2 ^ (- e))%Z.
Proof.
  intros m e N H. split; intros L.
  - rewrite <- q2_Z in H by exact L. rewrite <- inject_Z_mult in H. apply Zinj in H. exact H.
  - assert (E : inject_Z (Zpos m) == inject_Z (N * 2 ^ (- e))).
    { rewrite inject_Z_mult, q2_Z by lia. rewrite <- H, <- Qmult_assoc, <- q2_plus. replace (e + - e)%Z with 0%Z by lia. change (q2 0) with 1. ring. }
    apply Zinj in E. exact E.
Qed.
Lemma steps_divide : forall m e N, inject_Z (Zpos m) * q2 e == inject_Z N -> (N <= 2 ^ 53)%Z -> (1 <= steps m e)%Z -> (2 ^ steps m e | Zpos m)%Z.
Proof.
  intros m e N H B K. destruct (scaled_int m e N H) as [H1 H2]. pose proof (scaled_pos m e N H) as NP. pose proof (digits2_bounds m) as [DL DU].
  set (d := Zpos (digits2_pos m)) in *. assert (EK : steps m e = Z.max (d - 53) (-1074 - e)) by (unfold steps; rewrite fexp64_eq; fold d; lia).
  destruct (Z.le_gt_cases 0 e) as [E0|E0].
  - specialize (H1 E0). clear H2. assert (P : (1 <= 2 ^ e)%Z) by (pose proof (Z.pow_pos_nonneg 2 e); lia).
    assert (MB : (Zpos m <= 2 ^ 53)%Z) by nia.
    assert (D54 : (54 <= d)%Z) by lia. assert ((2 ^ 53 <= 2 ^ (d - 1))%Z) by (apply Z.pow_le_mono_r; lia).
    assert (EM : Zpos m = (2 ^ 53)%Z) by lia.
    assert (DD : d = 54%Z).
    { destruct (Z.eq_dec d 54) as [D|D]; [exact D|]. assert ((2 ^ 54 <= 2 ^ (d - 1))%Z) by (apply Z.pow_le_mono_r; lia). lia. }
    rewrite EK, DD. replace (Z.max (54 - 53) (-1074 - e)) with 1%Z by lia. rewrite EM. exists (2 ^ 52)%Z. reflexivity.
  - specialize (H2 ltac:(lia)). clear H1. destruct (Z.le_gt_cases (steps m e) (- e)) as [KE|KE].
    + rewrite H2. apply Z.divide_mul_r. exists (2 ^ (- e - steps m e))%Z. rewrite <- Z.pow_add_r by lia. f_equal. lia.
    + assert (KD : steps m e = (d - 53)%Z) by lia. assert (P : (0 < 2 ^ (- e))%Z) by (apply Z.pow_pos_nonneg; lia).
      assert (U : (2 ^ (d - 1) <= 2 ^ (53 - e))%Z).
      { replace (53 - e)%Z with (53 + - e)%Z by lia. rewrite Z.pow_add_r by lia. nia. }
      assert (DE : (d - 1 <= 53 - e)%Z) by (apply (Z.pow_le_mono_r_iff 2); lia).
      assert (DD : d = (54 - e)%Z) by lia. rewrite KD, DD.
      assert (EN : N = (2 ^ 53)%Z).
      { rewrite DD in DL. replace (54 - e - 1)%Z with (53 + - e)%Z in DL by lia. rewrite Z.pow_add_r in DL by lia. nia. }
      rewrite H2, EN. exists (2 ^ 52)%Z. rewrite <- !Z.pow_add_r by lia. f_equal. lia.
Qed.
Lemma q2_large : forall M e N, (1 <= M)%Z -> inject_Z M * q2 e == inject_Z N -> (N <= 2 ^ 53)%Z -> (e <= 53)%Z.
Proof.
  intros M e N HM H B. destruct (Z.le_gt_cases e 53) as [L|L]; [exact L|]. exfalso. rewrite <- q2_Z, <- inject_Z_mult in H by lia.
  apply Zinj in H. assert ((2 ^ 54 <= 2 ^ e)%Z) by (apply Z.pow_le_mono_r; lia). nia.
Qed.
Lemma round_aux_exact : forall s m e N, inject_Z (Zpos m) * q2 e == inject_Z N -> (N <= 2 ^ 53)%Z ->
  let r := binary_round_aux prec emax s (Zpos m) e loc_Exact in b64_finite r = true /\ number r == inject_Z (sg s * N).
Proof.
  intros s m e N H B r. destruct (round_aux_spec s m e) as (M' & e' & E & M0 & _ & K0 & K1). unfold r. rewrite E.
  assert (EM : inject_Z M' * q2 e' == inject_Z N).
  { destruct (Z.le_gt_cases (steps m e) 0) as [K|K]; [destruct (K0 K) as [-> ->]; exact H|].
    destruct (K1 ltac:(lia)) as [EM LE]. pose proof (nearest_spec (Zpos m) (steps m e) ltac:(lia) ltac:(lia)) as (_ & _ & X).
    rewrite X in EM by (eapply steps_divide; eauto; lia). rewrite <- H, <- EM. rewrite q2_move by (destruct LE; assumption). reflexivity. }
  assert (MP : (1 <= M')%Z).
  { pose proof (scaled_pos m e N H). destruct (Z.eq_dec M' 0) as [->|]; [|lia]. exfalso. change (inject_Z 0) with 0 in EM. rewrite Qmult_0_l in EM.
    change 0 with (inject_Z 0) in EM. apply Zinj in EM. lia. }
  pose proof (q2_large M' e' N MP EM B) as LE.
  assert (FI : b64_finite (pack s M' e') = true) by (destruct M'; try lia; cbn [pack]; destruct (Z.leb_spec e' 971); [reflexivity|lia]).
  split; [exact FI|]. rewrite number_pack by auto. rewrite !inject_Z_mult, <- Qmult_assoc, EM. reflexivity.
Qed.
Lemma round_exact_int : forall s m e N, inject_Z (Zpos m) * q2 e == inject_Z N -> (N <= 2 ^ 53)%Z ->
  let r := binary_round prec emax s m e in b64_finite r = true /\ number r == inject_Z (sg s * N).
Proof.
  intros s m e N H B. unfold binary_round. destruct (Z.le_gt_cases (fexp64 (Zpos (digits2_pos m) + e)) e) as [L|L].
  - destruct (shl_align_le m e _ L) as (m' & -> & E). apply round_aux_exact; [|exact B]. rewrite E, q2_move by exact L. exact H.
  - rewrite shl_align_gt by exact L. apply round_aux_exact; assumption.
Qed.
Lemma normalize_exact : forall M e sz N, inject_Z M * q2 e == inject_Z N -> (Z.abs N <= 2 ^ 53)%Z ->
  let r := binary_normalize prec emax M e sz in b64_finite r = true /\ number r == inject_Z N.
Proof.
  intros M e sz N H B. destruct M as [|m|m]; cbn [binary_normalize].
  - split; [reflexivity|]. rewrite <- H. change (inject_Z 0) with 0. cbn [number]. ring.
  - destruct (round_exact_int false m e N H ltac:(lia)) as [F0 R]. split; [exact F0|]. rewrite R. unfold sg. rewrite Z.mul_1_l. reflexivity.
  - assert (H' : inject_Z (Zpos m) * q2 e == inject_Z (- N)) by (rewrite inject_Z_opp, <- H; change (Zneg m) with (- Zpos m)%Z; rewrite inject_Z_opp; ring).
    destruct (round_exact_int true m e (- N) H' ltac:(lia)) as [F0 R]. split; [exact F0|]. rewrite R. unfold sg. replace (-1 * - N)%Z with N by lia. reflexivity.
Qed.
Lemma add_exact : forall x y a b, b64_finite x = true -> b64_finite y = true -> number x == inject_Z a -> number y == inject_Z b -> (Z.abs (a + b) <= 2 ^ 53)%Z ->
  b64_finite (SFadd prec emax x y) = true /\ number (SFadd prec emax x y) == inject_Z (a + b).
Proof.
  intros x y a b FX FY NX NY B. destruct x as [sx|sx| |sx mx ex]; destruct y as [sy|sy| |sy my ey]; try discriminate FX; try discriminate FY.
  - cbn [SFadd]. rewrite inject_Z_plus, <- NX, <- NY. destruct sx, sy; split; reflexivity.
  - cbn [SFadd]. split; [reflexivity|]. rewrite inject_Z_plus, <- NX, <- NY. change (number (S754_zero sx)) with 0. ring.
  - cbn [SFadd]. split; [reflexivity|]. rewrite inject_Z_plus, <- NX, <- NY. change (number (S754_zero sy)) with 0. ring.
  - cbn [SFadd].
    destruct (shl_align_le mx ex (Z.min ex ey) (Z.le_min_l _ _)) as (mx' & EX & VX). destruct (shl_align_le my ey (Z.min ex ey) (Z.le_min_r _ _)) as (my' & EY & VY).
    rewrite EX, EY. cbn [fst]. apply normalize_exact; [|exact B]. rewrite inject_Z_plus.
    replace (cond_Zopp sx (Zpos mx')) with (sg sx * Zpos mx * 2 ^ (ex - Z.min ex ey))%Z by (unfold cond_Zopp, sg; destruct sx; lia).
    replace (cond_Zopp sy (Zpos my')) with (sg sy * Zpos my * 2 ^ (ey - Z.min ex ey))%Z by (unfold cond_Zopp, sg; destruct sy; lia).
    rewrite Qmult_plus_distr_l, !q2_move by lia. rewrite <- !number_finite, NX, NY, inject_Z_plus. reflexivity.
Qed.
Lemma mul_exact : forall x y a b, b64_finite x = true -> b64_finite y = true -> number x == inject_Z a -> number y == inject_Z b -> (Z.abs (a * b) <= 2 ^ 53)%Z ->
  b64_finite (SFmul prec emax x y) = true /\ number (SFmul prec emax x y) == inject_Z (a * b).
Proof.
  intros x y a b FX FY NX NY B. destruct x as [sx|sx| |sx mx ex]; destruct y as [sy|sy| |sy my ey]; try discriminate FX; try discriminate FY;
    try (split; [reflexivity|]; rewrite inject_Z_mult, <- NX, <- NY; cbn [SFmul number]; ring).
  cbn [SFmul].
  assert (AN : forall s m e n, number (S754_finite s m e) == inject_Z n -> inject_Z (Zpos m) * q2 e == inject_Z (sg s * n)).
  { intros s m e n H. rewrite number_finite in H. rewrite !inject_Z_mult, <- H in *. destruct s; unfold sg; change (inject_Z (-1)) with (-1 # 1); change (inject_Z 1) with 1; ring. }
  apply AN in NX. apply AN in NY.
  destruct (round_aux_exact (xorb sx sy) (mx * my) (ex + ey) (sg (xorb sx sy) * (a * b))) as [F0 R].
  - rewrite q2_plus. change (Zpos (mx * my)) with (Zpos mx * Zpos my)%Z. rewrite inject_Z_mult.
    assert (E : inject_Z (Zpos mx) * inject_Z (Zpos my) * (q2 ex * q2 ey) == (inject_Z (Zpos mx) * q2 ex) * (inject_Z (Zpos my) * q2 ey)) by ring.
    rewrite E, NX, NY, <- inject_Z_mult. destruct sx, sy; cbn [xorb sg]; apply inject_Z_injective; lia.
  - destruct sx, sy; cbn [xorb sg]; lia.
  - split; [exact F0|]. rewrite R. destruct sx, sy; cbn [xorb sg]; apply inject_Z_injective; lia.
Qed.
Lemma fma_exact : forall x y z a b c, b64_finite x = true -> b64_finite y = true -> b64_finite z = true ->
  number x == inject_Z a -> number y == inject_Z b -> number z == inject_Z c -> (Z.abs (a * b + c) <= 2 ^ 53)%Z ->
  b64_finite (b64_fma x y z) = true /\ number (b64_fma x y z) == inject_Z (a * b + c).
Proof.
  intros x y z a b c FX FY FZ NX NY NZ B.
  assert (ZC : forall s, number x * number y == 0 -> b64_finite (SFadd prec emax (S754_zero s) z) = true /\ number (SFadd prec emax (S754_zero s) z) == inject_Z (a * b + c)).
  { intros s E. rewrite NX, NY, <- inject_Z_mult in E. change 0 with (inject_Z 0) in E. apply Zinj in E. rewrite E in B |- *.
    apply (add_exact (S754_zero s) z 0 c); auto. reflexivity. }
  destruct x as [sx|sx| |sx mx ex]; destruct y as [sy|sy| |sy my ey]; try discriminate FX; try discriminate FY; try (apply ZC; cbn [number]; ring).
  assert (EM : inject_Z (signed (xorb sx sy) (mx * my)) * q2 (ex + ey) == inject_Z (a * b)).
  { rewrite inject_Z_mult, <- NX, <- NY, !number_finite, q2_plus. replace (signed (xorb sx sy) (mx * my)) with ((sg sx * Zpos mx) * (sg sy * Zpos my))%Z by (destruct sx, sy; unfold sg, signed; cbn [xorb]; lia).
    rewrite inject_Z_mult. ring. }
  destruct z as [sz|sz| |sz mz ez]; cbn [b64_fma]; try discriminate FZ.
  - apply normalize_exact; [|exact B]. change (number (S754_zero sz)) with (inject_Z 0) in NZ. apply Zinj in NZ. rewrite EM. rewrite <- NZ. rewrite Z.add_0_r. reflexivity.
  - apply normalize_exact; [|exact B]. rewrite inject_Z_plus, Qmult_plus_distr_l, !q2_move by lia. rewrite EM, inject_Z_plus, <- NZ. apply Qplus_comp; [reflexivity|]. destruct sz; reflexivity.
Qed.
