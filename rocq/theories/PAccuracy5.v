(** The error of the variance computed from a sum and a sum of squares. *)
Require Import List ZArith Bool Lia QArith Qabs Qpower Lqa Qfield Permutation.
Require Import Coq.Floats.SpecFloat.
Require Import Verif.Res Verif.Values Verif.Spec Verif.SpecReduce Verif.SpecCall Verif.SpecCall2 Verif.SpecAccuracy Verif.FloatErr Verif.FloatDiv Verif.FloatRange Verif.FloatValid Verif.PAccuracy Verif.PAccuracy2 Verif.PAccuracy3 Verif.PAccuracy4.
Import ListNotations.
Local Open Scope Q_scope.

(** ** Exact variance *)
Lemma squares_cons : forall x l, squares (x :: l) == x * x + squares l.
Proof. intros. reflexivity. Qed.
Lemma square_nonneg : forall x : Q, 0 <= x * x.
Proof. intros x. destruct (Qlt_le_dec x 0) as [H|H]; [setoid_replace (x * x) with ((- x) * (- x)) by ring|]; apply Qmult_le_0_compat; lra. Qed.
Lemma squares_nonneg : forall l, 0 <= squares l.
Proof. induction l as [|x l IH]; [apply Qle_refl|]. rewrite squares_cons. pose proof (square_nonneg x). lra. Qed.
Lemma deviations : forall c l, total (map (fun x => (x - c) * (x - c)) l) == squares l - 2 * c * total l + inject_Z (Z.of_nat (length l)) * (c * c).
Proof.
  intros c. induction l as [|x l IH]; [change (total (map (fun x => (x - c) * (x - c)) [])) with 0; change (squares []) with 0; change (total []) with 0; cbn [length]; change (inject_Z (Z.of_nat 0)) with 0; ring|].
  change (total (map (fun x => (x - c) * (x - c)) (x :: l))) with ((x - c) * (x - c) + total (map (fun x => (x - c) * (x - c)) l)). rewrite IH, squares_cons. change (total (x :: l)) with (x + total l).
  cbn [length]. rewrite Nat2Z.inj_succ. unfold Z.succ. rewrite inject_Z_plus. change (inject_Z 1) with 1. ring.
Qed.
Lemma deviations_nonneg : forall c l, 0 <= total (map (fun x => (x - c) * (x - c)) l).
Proof.
  intros c. induction l as [|x l IH]; [apply Qle_refl|]. change (total (map (fun x => (x - c) * (x - c)) (x :: l))) with ((x - c) * (x - c) + total (map (fun x => (x - c) * (x - c)) l)).
  pose proof (square_nonneg (x - c)). lra.
Qed.
Lemma spread_is : forall l n, 0 < n -> spread l n == squares l - total l * total l / n.
Proof.
  intros l n H. unfold spread. cbv zeta. rewrite deviations. assert (NZ : ~ n == 0) by (intros C; rewrite C in H; discriminate H). field. exact NZ.
Qed.
Lemma spread_nonneg : forall l n, inject_Z (Z.of_nat (length l)) <= n -> 0 <= spread l n.
Proof.
  intros l n H. unfold spread. cbv zeta. pose proof (deviations_nonneg (total l / n) l). pose proof (square_nonneg (total l / n)) as S. assert (X := Qmult_le_0_compat (n - inject_Z (Z.of_nat (length l))) _ ltac:(lra) S). lra.
Qed.
Lemma sq_abs : forall x, Qabs x * Qabs x == x * x.
Proof. intros x. rewrite <- Qabs_Qmult. apply Qabs_pos, square_nonneg. Qed.
Lemma cauchy : forall l, magnitude l * magnitude l <= inject_Z (Z.of_nat (length l)) * squares l.
Proof.
  induction l as [|x l IH]; [apply Qle_refl|]. change (magnitude (x :: l)) with (Qabs x + magnitude l). rewrite squares_cons, <- (sq_abs x). cbn [length]. rewrite Nat2Z.inj_succ. unfold Z.succ. rewrite inject_Z_plus. change (inject_Z 1) with 1.
  pose proof (magnitude_nonneg l) as MN. pose proof (Qabs_nonneg x) as AN. pose proof (squares_nonneg l) as SN. assert (KN : 0 <= inject_Z (Z.of_nat (length l))) by (rewrite <- (Zle_Qle 0); lia).
  set (a := Qabs x) in *. set (M := magnitude l) in *. set (X := squares l) in *. assert (KE : inject_Z (Z.of_nat (length l)) == 0 -> M == 0). { intros E. rewrite E in IH. destruct (Qlt_le_dec 0 M) as [P|P]; [|lra]. assert (Y := Qmult_lt_0_compat _ _ P P). lra. }
  set (k := inject_Z (Z.of_nat (length l))) in *. clearbody a M X k.
  assert (G : 2 * (a * M) <= k * (a * a) + X).
  { destruct (Qeq_dec k 0) as [E|E]; [rewrite (KE E), E; lra|]. assert (KP : 0 < k) by (destruct (Qlt_le_dec 0 k) as [P|P]; [exact P|exfalso; apply E; lra]).
    pose proof (square_nonneg (k * a - M)) as S. assert (R : (k * a - M) * (k * a - M) == k * (k * (a * a)) - k * (2 * (a * M)) + M * M) by ring. rewrite R in S.
    assert (Y : k * (2 * (a * M)) <= k * (k * (a * a) + X)) by lra. destruct (Qlt_le_dec (k * (a * a) + X) (2 * (a * M))) as [L|L]; [|exact L]. assert (Z := proj2 (Qmult_lt_l _ _ k KP) L). lra. }
  assert (R : (a + M) * (a + M) == a * a + 2 * (a * M) + M * M) by ring. assert (R2 : (k + 1) * (a * a + X) == k * (a * a) + a * a + k * X + X) by ring. rewrite R, R2. lra.
Qed.

(** ** The computation, in rational numbers *)
Section Core.
Variables G M T X N D s s2 p w d v t : Q.
Hypothesis G1 : 1 <= G.
Hypothesis T0 : 0 <= t.
Hypothesis N1 : 0 < N /\ N <= 1.
Hypothesis D1 : 0 < D /\ D <= 1.
Hypothesis X0 : 0 <= X.
Hypothesis MN : M * M * N <= X.
Hypothesis TM : Qabs T <= M.
Hypothesis ES : Qabs (s - T) <= (G - 1) * M.
Hypothesis E2 : Qabs (s2 - X) <= (G - 1) * X + t.
Hypothesis EP : Qabs (p - s * s) <= u * Qabs (s * s) + tiny.
Hypothesis EW : Qabs (w - p * N) <= u * Qabs (p * N) + tiny.
Let TP : 0 < tiny. Proof. apply q2_pos. Qed.
Let U0 := u_pos.

Lemma core_M : 0 <= M.
Proof. pose proof (Qabs_nonneg T). lra. Qed.
Lemma core_s : Qabs s <= G * M.
Proof. assert (E : s == T + (s - T)) by ring. pose proof (Qabs_triangle T (s - T)) as TR. rewrite <- E in TR. lra. Qed.
Lemma core_ss : Qabs (s * s) <= G * G * (M * M).
Proof.
  rewrite Qabs_Qmult. pose proof core_s as A. pose proof (Qabs_nonneg s) as B. assert (X1 := Qmult_le_r' _ _ _ B A). assert (GM : 0 <= G * M) by lra. assert (X2 := Qmult_le_r' _ _ _ GM A).
  assert (R : G * M * (G * M) == G * G * (M * M)) by ring. rewrite R in X2. rewrite (Qmult_comm (G * M)) in X1. lra.
Qed.
Lemma core_st : Qabs (s * s - T * T) <= (G * G - 1) * (M * M).
Proof.
  assert (E : s * s - T * T == (s - T) * (s + T)) by ring. rewrite E, Qabs_Qmult. pose proof (Qabs_triangle s T) as TR. pose proof core_s as A. assert (B : Qabs (s + T) <= (G + 1) * M) by lra.
  pose proof (Qabs_nonneg (s + T)) as P. assert (X1 := Qmult_le_r' _ _ _ P ES). assert (GM : 0 <= (G - 1) * M) by (pose proof core_M; apply Qmult_le_0_compat; lra). assert (X2 := Qmult_le_r' _ _ _ GM B).
  assert (R : (G + 1) * M * ((G - 1) * M) == (G * G - 1) * (M * M)) by ring. rewrite R in X2. rewrite (Qmult_comm ((G - 1) * M)) in X1. lra.
Qed.
Lemma GG1 : 1 <= G * G.
Proof. assert (X1 := Qmult_le_r' _ _ G ltac:(lra) G1). lra. Qed.
Lemma core_pN : Qabs (p * N - T * T * N) <= ((1 + u) * (G * G) - 1) * X + tiny /\ Qabs (p * N) <= (1 + u) * (G * G) * X + tiny.
Proof.
  pose proof core_ss as A. pose proof core_st as B. destruct N1 as [N0 N1']. pose proof GG1 as GG. assert (MM : 0 <= M * M) by apply square_nonneg.
  assert (UA : u * Qabs (s * s) <= u * (G * G * (M * M))) by (rewrite !(Qmult_comm u); apply Qmult_le_r'; [lra|exact A]).
  assert (P1 : Qabs (p - T * T) <= ((1 + u) * (G * G) - 1) * (M * M) + tiny).
  { assert (E : p - T * T == (p - s * s) + (s * s - T * T)) by ring. rewrite E. eapply Qle_trans; [apply Qabs_triangle|].
    assert (R : ((1 + u) * (G * G) - 1) * (M * M) == u * (G * G * (M * M)) + (G * G - 1) * (M * M)) by ring. rewrite R. lra. }
  assert (P2 : Qabs p <= (1 + u) * (G * G) * (M * M) + tiny).
  { assert (E : p == (p - s * s) + s * s) by ring. rewrite E. eapply Qle_trans; [apply Qabs_triangle|].
    assert (R : (1 + u) * (G * G) * (M * M) == u * (G * G * (M * M)) + G * G * (M * M)) by ring. rewrite R. lra. }
  assert (TN : tiny * N <= tiny). { rewrite Qmult_comm. assert (Y := Qmult_le_r' N 1 tiny ltac:(lra) N1'). lra. }
  assert (K : 0 <= (1 + u) * (G * G) - 1). { assert (Y := Qmult_le_0_compat u (G * G) ltac:(lra) ltac:(lra)). assert (R : (1 + u) * (G * G) == G * G + u * (G * G)) by ring. rewrite R. lra. }
  split.
  - assert (E : p * N - T * T * N == (p - T * T) * N) by ring. rewrite E, Qabs_Qmult, (Qabs_pos N) by lra. assert (Y := Qmult_le_r' _ _ N ltac:(lra) P1).
    assert (Z := Qmult_le_r' _ _ _ K MN). assert (R : (((1 + u) * (G * G) - 1) * (M * M) + tiny) * N == M * M * N * ((1 + u) * (G * G) - 1) + tiny * N) by ring. rewrite R in Y. rewrite (Qmult_comm X) in Z. lra.
  - rewrite Qabs_Qmult, (Qabs_pos N) by lra. assert (Y := Qmult_le_r' _ _ N ltac:(lra) P2). assert (K' : 0 <= (1 + u) * (G * G)) by lra.
    assert (Z := Qmult_le_r' _ _ _ K' MN). assert (R : ((1 + u) * (G * G) * (M * M) + tiny) * N == M * M * N * ((1 + u) * (G * G)) + tiny * N) by ring. rewrite R in Y. rewrite (Qmult_comm X) in Z. lra.
Qed.
Let H := (1 + u) * (1 + u).
Lemma u_small : u <= 1 # 16. Proof. vm_compute. discriminate. Qed.
Lemma core_w : Qabs (w - T * T * N) <= (H * (G * G) - 1) * X + 3 * tiny.
Proof.
  destruct core_pN as [A B]. assert (E : w - T * T * N == (w - p * N) + (p * N - T * T * N)) by ring. rewrite E. eapply Qle_trans; [apply Qabs_triangle|].
  assert (UB : u * Qabs (p * N) <= u * ((1 + u) * (G * G) * X + tiny)) by (rewrite !(Qmult_comm u); apply Qmult_le_r'; [lra|exact B]).
  assert (R : u * ((1 + u) * (G * G) * X + tiny) == u * ((1 + u) * (G * G) * X) + u * tiny) by ring. rewrite R in UB. assert (UT : u * tiny <= (1 # 16) * tiny) by (apply Qmult_le_r'; [lra|exact u_small]).
  assert (R2 : (H * (G * G) - 1) * X == u * ((1 + u) * (G * G) * X) + ((1 + u) * (G * G) - 1) * X) by (unfold H; ring). rewrite R2. lra.
Qed.
Let Y := X - T * T * N.
Hypothesis Y0 : 0 <= Y.
Lemma YX : Y <= X.
Proof. unfold Y. pose proof (square_nonneg T) as A. assert (B := Qmult_le_0_compat _ N A ltac:(lra)). lra. Qed.
Let E := G - 1 + (H * (G * G) - 1).
Let c := t + 3 * tiny.
Lemma core_diff : Qabs (s2 - w - Y) <= E * X + c /\ Qabs (s2 - w) <= (1 + E) * X + c.
Proof.
  pose proof core_w as A. assert (B : Qabs (s2 - w - Y) <= E * X + c).
  { assert (E' : s2 - w - Y == (s2 - X) + - (w - T * T * N)) by (unfold Y; ring). rewrite E'. eapply Qle_trans; [apply Qabs_triangle|]. rewrite Qabs_opp.
    assert (R : E * X == (G - 1) * X + (H * (G * G) - 1) * X) by (unfold E; ring). rewrite R. unfold c. lra. }
  split; [exact B|]. assert (E' : s2 - w == (s2 - w - Y) + Y) by ring. rewrite E'. eapply Qle_trans; [apply Qabs_triangle|]. pose proof YX as YY. rewrite (Qabs_pos Y) by exact Y0.
  assert (R : (1 + E) * X == X + E * X) by ring. rewrite R. lra.
Qed.
Hypothesis ED : Qabs (d - (s2 - w)) <= u * Qabs (s2 - w).
Lemma core_d : Qabs (d - Y) <= ((1 + u) * (1 + E) - 1) * X + (1 + u) * c /\ Qabs d <= (1 + u) * (1 + E) * X + (1 + u) * c.
Proof.
  destruct core_diff as [A B]. assert (UB : u * Qabs (s2 - w) <= u * ((1 + E) * X + c)) by (rewrite !(Qmult_comm u); apply Qmult_le_r'; [lra|exact B]).
  assert (P : Qabs (d - Y) <= ((1 + u) * (1 + E) - 1) * X + (1 + u) * c).
  { assert (E' : d - Y == (d - (s2 - w)) + (s2 - w - Y)) by ring. rewrite E'. eapply Qle_trans; [apply Qabs_triangle|].
    assert (R : ((1 + u) * (1 + E) - 1) * X + (1 + u) * c == u * ((1 + E) * X + c) + (E * X + c)) by ring. rewrite R. lra. }
  split; [exact P|]. assert (E' : d == (d - Y) + Y) by ring. rewrite E'. eapply Qle_trans; [apply Qabs_triangle|]. rewrite (Qabs_pos Y) by exact Y0. pose proof YX.
  assert (R : (1 + u) * (1 + E) * X == ((1 + u) * (1 + E) - 1) * X + X) by ring. rewrite R. lra.
Qed.
Hypothesis EV : Qabs (v - d * D) <= u * Qabs (d * D) + tiny.
Lemma core_v : Qabs (v - Y * D) <= (H * (1 + E) - 1) * (X * D) + H * c + tiny.
Proof.
  destruct core_d as [A B]. destruct D1 as [D0 D1']. assert (E' : v - Y * D == (v - d * D) + (d - Y) * D) by ring. rewrite E'. eapply Qle_trans; [apply Qabs_triangle|].
  rewrite (Qabs_Qmult (d - Y)), (Qabs_pos D) by lra. rewrite Qabs_Qmult, (Qabs_pos D) in EV by lra. assert (A' := Qmult_le_r' _ _ D ltac:(lra) A). assert (B' := Qmult_le_r' _ _ D ltac:(lra) B).
  assert (UB : u * (Qabs d * D) <= u * (((1 + u) * (1 + E) * X + (1 + u) * c) * D)) by (rewrite !(Qmult_comm u); apply Qmult_le_r'; [lra|exact B']).
  assert (C0 : 0 <= H * c). { unfold H, c. apply Qmult_le_0_compat; [apply square_nonneg|lra]. }
  assert (CD : H * c * D <= H * c). { rewrite Qmult_comm. assert (Z := Qmult_le_r' D 1 _ C0 D1'). lra. }
  assert (R : (H * (1 + E) - 1) * (X * D) + H * c * D == u * (((1 + u) * (1 + E) * X + (1 + u) * c) * D) + (((1 + u) * (1 + E) - 1) * X + (1 + u) * c) * D) by (unfold H; ring). lra.
Qed.
(** In the form of the specification. *)
Lemma core_final : forall k, 0 <= k -> t <= k * G * tiny -> Qabs (v - Y * D) <= 2 * (H * H * (G * G) - 1) * (X * D) + (k + 4) * (H * G) * tiny.
Proof.
  intros k K0 TK. eapply Qle_trans; [apply core_v|]. destruct D1 as [D0 D1']. assert (XD : 0 <= X * D) by (apply Qmult_le_0_compat; lra). assert (HS : 1 <= H). { unfold H. assert (R : (1 + u) * (1 + u) == 1 + 2 * u + u * u) by ring. rewrite R. pose proof (square_nonneg u). lra. }
  assert (HG : 1 <= H * G). { assert (Z := Qmult_le_r' _ _ G ltac:(lra) HS). lra. } assert (HG2 : H * G <= H * G * (H * G)). { assert (Z := Qmult_le_r' _ _ (H * G) ltac:(lra) HG). lra. }
  assert (A : (H * (1 + E) - 1) * (X * D) <= 2 * (H * H * (G * G) - 1) * (X * D)).
  { apply Qmult_le_r'; [exact XD|]. assert (R : H * (1 + E) - 1 == H * G + H * G * (H * G) - H - 1) by (unfold E; ring). assert (R2 : 2 * (H * H * (G * G) - 1) == 2 * (H * G * (H * G)) - 2) by ring. rewrite R, R2. lra. }
  assert (B : H * c + tiny <= (k + 4) * (H * G) * tiny).
  { unfold c. assert (H0 : 0 <= H) by lra. assert (TK' := Qmult_le_r' _ _ H H0 TK). assert (G3 : 3 * (H * tiny) <= 3 * (H * G * tiny)). { assert (HT : 0 <= H * tiny) by (apply Qmult_le_0_compat; lra). assert (Z := Qmult_le_r' _ _ _ HT G1). assert (R : G * (H * tiny) == H * G * tiny) by ring. rewrite R in Z. lra. }
    assert (T1 := Qmult_le_r' _ _ tiny ltac:(lra) HG). assert (R : (k + 4) * (H * G) * tiny == k * G * tiny * H + 3 * (H * G * tiny) + H * G * tiny) by ring. rewrite R. assert (R3 : H * (t + 3 * tiny) == t * H + 3 * (H * tiny)) by ring. rewrite R3. lra. }
  lra.
Qed.
End Core.

(** ** Doubles *)
Lemma opp_number : forall x, number (SFopp x) == - number x.
Proof. intros [s|s| |s m e]; try reflexivity. unfold SFopp. rewrite !number_finite. destruct s; cbn [negb sg]; [rewrite !Z.mul_1_l || idtac|]; rewrite !inject_Z_mult; change (inject_Z (-1)) with (-(1)); change (inject_Z 1) with 1; ring. Qed.
Lemma opp_finite : forall x, b64_finite (SFopp x) = b64_finite x.
Proof. intros [s|s| |s m e]; reflexivity. Qed.
Lemma sub_err : forall x y, grain x -> grain y -> b64_finite (SFsub prec emax x y) = true -> Qabs (number (SFsub prec emax x y) - (number x - number y)) <= u * Qabs (number x - number y).
Proof.
  intros x y GX GY. rewrite sub_is_add. intros FI. assert (GY' : grain (SFopp y)) by (destruct y; exact GY). destruct (add_err x (SFopp y) GX GY' FI) as (_ & _ & _ & E) || destruct (add_err x (SFopp y) GX GY' FI) as (_ & _ & E).
  rewrite opp_number in E. exact E.
Qed.
Lemma sub_range : forall x y, b64_finite x = true -> b64_finite y = true -> Qabs (number x - number y) < q2 1023 -> b64_finite (SFsub prec emax x y) = true.
Proof. intros x y FX FY B. rewrite sub_is_add. apply add_range; [exact FX|rewrite opp_finite; exact FY|]. rewrite opp_number. exact B. Qed.
Lemma sub_exact : forall x y a b, b64_finite x = true -> b64_finite y = true -> number x == inject_Z a -> number y == inject_Z b -> (Z.abs (a - b) <= 2 ^ 53)%Z ->
  b64_finite (SFsub prec emax x y) = true /\ number (SFsub prec emax x y) == inject_Z (a - b).
Proof.
  intros x y a b FX FY NX NY B. rewrite sub_is_add. apply (add_exact x (SFopp y) a (- b)); [exact FX|rewrite opp_finite; exact FY|exact NX| |exact B]. rewrite opp_number, NY, inject_Z_opp. reflexivity.
Qed.
Lemma scaled_sign : forall m e, 0 < inject_Z (Zpos m) * q2 e.
Proof. intros m e. apply Qmult_lt_0_compat; [reflexivity|apply q2_pos]. Qed.
Lemma positive_tests : forall x, 0 < number x -> SFltb x (S754_zero false) = false /\ SFeqb x (S754_zero false) = false.
Proof.
  intros [s|s| |s m e] H; try (exfalso; revert H; cbn [number]; apply Qlt_irrefl). destruct s; [exfalso|split; reflexivity].
  cbn [number] in H. pose proof (scaled_sign m e) as P. assert (R : inject_Z (Zneg m) * q2 e == - (inject_Z (Zpos m) * q2 e)) by (change (Zneg m) with (- Zpos m)%Z; rewrite inject_Z_opp; ring). rewrite R in H. lra.
Qed.
Lemma negative_test : forall x, SFltb x (S754_zero false) = true -> number x <= 0.
Proof.
  intros [s|s| |s m e] H; try (cbn [number]; lra). destruct s; [|discriminate H]. cbn [number]. pose proof (scaled_sign m e) as P.
  assert (R : inject_Z (Zneg m) * q2 e == - (inject_Z (Zpos m) * q2 e)) by (change (Zneg m) with (- Zpos m)%Z; rewrite inject_Z_opp; ring). rewrite R. lra.
Qed.

Section Pow.
Variable pw : spec_float -> spec_float -> spec_float.
Notation F := (f64 pw).
Notation nums := (PAccuracy.nums pw).
Notation good := (PAccuracy.good pw).
Lemma FSum_double : forall (l : list F) s, FSum l s -> Forall double l -> double s.
Proof.
  intros l s H. induction H as [z Z|x|l1 l2 x y H1 IH1 H2 IH2|l l' x P H IH]; intros D.
  - destruct (FSum_nil pw [] z (FSum_zero _ Z) eq_refl) as [b ->]. reflexivity.
  - inversion D; subst. assumption.
  - apply Forall_app in D. destruct D as [D1 D2]. apply add_double; auto.
  - apply IH. apply Forall_forall. intros t I. rewrite Forall_forall in D. apply D. eapply Permutation_in; eauto.
Qed.
Definition qb : Q := (2 # 1) ^ 1020.
Lemma qb_ge : 1 <= qb.
Proof. unfold qb. rewrite <- (q2_Z 1020) by lia. change 1 with (inject_Z 1). rewrite <- Zle_Qle. apply (Z.pow_le_mono_r 2 0 1020); lia. Qed.
Lemma qb_big : big == 4 * qb.
Proof. unfold big, qb. change 1022%Z with (2 + 1020)%Z. rewrite q2_plus. reflexivity. Qed.
Lemma squares_magnitude : forall l, magnitude (map (fun x => x * x) l) == squares l.
Proof.
  induction l as [|x l IH]; [reflexivity|]. change (magnitude (map (fun x => x * x) (x :: l))) with (Qabs (x * x) + magnitude (map (fun x => x * x) l)). rewrite IH, squares_cons, Qabs_pos by apply square_nonneg. reflexivity.
Qed.
Lemma square_le : forall x l, In x l -> x * x <= squares l.
Proof.
  intros x l. induction l as [|y l IH]; [contradiction|]. intros [->|I]; rewrite squares_cons; [pose proof (squares_nonneg l); lra|]. specialize (IH I). pose proof (square_nonneg y). lra.
Qed.

Theorem var_accurate : forall (l : list F) (s s2 : F) (n z : Z) (c v : F), FSum l s -> FSum (map (fun x => fmul x x) l) s2 -> Forall finite_double l -> roomy (map number l) ->
  (1 <= n <= 2 ^ 53)%Z -> (Z.of_nat (length l) <= n)%Z -> finite_double c -> number c == inject_Z z -> (0 <= z < n)%Z -> var_formula s s2 n c v ->
  finite_double v /\ var_within (map number l) (inject_Z n) (inject_Z (n - z)) (number v).
Proof.
  intros l s s2 n z c v HS HS2 FD [RL RX] NB KN [DC FC] NC ZN (_ & _ & VF). rewrite map_length in RL, RX. change ((2 # 1) ^ 1020) with qb in RX.
  assert (DL : Forall double l) by (eapply Forall_impl; [|exact FD]; intros a [A _]; exact A). assert (FL : Forall (fun x : F => b64_finite x = true) l) by (eapply Forall_impl; [|exact FD]; intros a [_ A]; exact A).
  pose proof (cauchy (map number l)) as CS. rewrite map_length in CS. pose proof (squares_nonneg (map number l)) as X0. pose proof (magnitude_nonneg (map number l)) as M0. pose proof (total_magnitude (map number l)) as TM.
  assert (XK : squares (map number l) <= inject_Z (Z.of_nat (length l)) * squares (map number l)).
  { destruct l as [|a l0]; [apply Qle_refl|]. assert (K1 : 1 <= inject_Z (Z.of_nat (length (a :: l0)))) by (change 1 with (inject_Z 1); rewrite <- Zle_Qle; cbn [length]; lia). assert (Y := Qmult_le_r' _ _ _ X0 K1). lra. }
  set (k := inject_Z (Z.of_nat (length l))) in *. set (X := squares (map number l)) in *. set (M := magnitude (map number l)) in *. set (T := total (map number l)) in *.
  assert (XK' : X <= k * X) by exact XK. assert (RX' : k * X <= qb) by exact RX. assert (CS' : M * M <= k * X) by exact CS. clear XK RX CS. rename XK' into XK, RX' into RX, CS' into CS.
  pose proof qb_ge as QG. pose proof qb_big as QB. pose proof big_double as BD. assert (TP : 0 < tiny) by apply q2_pos. pose proof u_pos as U0. assert (US : u <= 1 # 16) by (vm_compute; discriminate). assert (TS : tiny <= 1 # 16) by (vm_compute; discriminate).
  assert (K0 : 0 <= k) by (unfold k; rewrite <- (Zle_Qle 0); lia).
  (* the sum *)
  assert (MB : M <= big). { pose proof (square_nonneg (M - 1)) as S. assert (R : (M - 1) * (M - 1) == M * M - 2 * M + 1) by ring. rewrite R in S. lra. }
  assert (MO : modest (map number l)) by (split; [rewrite map_length; exact RL|exact MB]).
  assert (FS : b64_finite s = true) by exact (sum_finite pw l s HS DL FL MO). assert (DS := FSum_double l s HS DL).
  set (G := grow (length l)). assert (G1 : 1 <= G) by apply grow_ge. assert (GS : G <= 13 # 8) by (apply grow_small; eapply Z.le_trans; [exact RL|clear; lia]).
  assert (ES : Qabs (number s - T) <= (G - 1) * M).
  { assert (SW := sum_accurate pw l s HS DL FS). unfold sum_within in SW. rewrite map_length in SW. fold T M in SW. pose (g := grow (length l - 1)). assert (SW' : Qabs (number s - T) <= (g - 1) * M) by exact SW. assert (GM : g <= G) by (apply grow_mono; clear; lia).
    clearbody g. clear SW. assert (Y := Qmult_le_r' (g - 1) (G - 1) M M0 ltac:(lra)). lra. }
  (* the sum of squares *)
  assert (NR : Forall2 (near pw) (map (fun x => fmul x x) l) (map (fun x => x * x) (map number l))).
  { assert (XB : X <= big) by lra. assert (IN : forall x, In x l -> number x * number x <= big) by (intros x I; eapply Qle_trans; [apply square_le; apply in_map; exact I|exact XB]).
    clear - DL FL IN. induction l as [|x l IH]; [constructor|]. inversion DL; subst. inversion FL; subst. cbn [map]. constructor; [|apply IH; auto; intros; apply IN; right; auto].
    apply mul_near; auto. rewrite Qabs_pos by apply square_nonneg. apply IN. left. reflexivity. }
  assert (MO2 : modest (map (fun x => x * x) (map number l))) by (split; [rewrite !map_length; exact RL|rewrite squares_magnitude; change (X <= big); lra]).
  assert (GD : Forall good (map (fun x => fmul x x) l)) by (apply Forall_map, Forall_forall; intros; apply mul_grain).
  assert (F2 : b64_finite s2 = true) by exact (near_finite pw _ _ s2 HS2 GD NR MO2).
  assert (E2 : Qabs (number s2 - X) <= (G - 1) * X + k * G * tiny).
  { assert (DW : dot_within (map (fun x => x * x) (map number l)) (number s2)).
    { apply (dot_err pw _ _ s2 HS2 GD); [|exact F2]. clear - NR. induction NR as [|a b la lb [_ A] _ IH]; constructor; auto. }
    unfold dot_within in DW. cbv zeta in DW. rewrite squares_magnitude, !map_length in DW. exact DW. }
  assert (GR2 : grain s2) by exact (proj1 (proj2 (FSum_err pw _ s2 HS2 GD F2))).
  assert (NP : 0 < inject_Z n) by (rewrite <- (Zlt_Qlt 0); lia). destruct (count_inv n ltac:(lia)) as [N0 N1]. destruct (count_exact n ltac:(lia)) as [CF CE].
  assert (MN : M * M * / inject_Z n <= X).
  { assert (KI : k * / inject_Z n <= 1). { assert (E : inject_Z n * / inject_Z n == 1) by (apply Qmult_inv_r; intros C; rewrite C in NP; discriminate NP). rewrite <- E. apply Qmult_le_r'; [lra|]. unfold k. rewrite <- Zle_Qle. exact KN. }
    assert (A := Qmult_le_r' _ _ (/ inject_Z n) ltac:(lra) CS). assert (B := Qmult_le_r' _ _ X X0 KI). assert (R : k * X * / inject_Z n == k * / inject_Z n * X) by ring. rewrite R in A. lra. }
  set (N := / inject_Z n) in *.
  (* the square of the sum *)
  assert (SS := core_ss G M T (number s) TM ES).
  assert (MMB : M * M <= qb) by lra. assert (GG : G * G <= 169 # 64). { assert (Y := Qmult_le_r' G (13 # 8) G ltac:(lra) GS). lra. }
  assert (SSB : Qabs (number s * number s) <= (169 # 64) * qb). { assert (MM := square_nonneg M). assert (Y := Qmult_le_r' _ _ _ MM GG). lra. }
  assert (FP : b64_finite (fmul s s : F) = true). { apply mul_range; auto. rewrite BD, QB. lra. }
  assert (EP := mul_close pw s s FP). set (p := fmul s s) in *.
  assert (PB : Qabs (number p) <= (180 # 64) * qb).
  { assert (E : number p == (number p - number s * number s) + number s * number s) by ring. rewrite E. eapply Qle_trans; [apply Qabs_triangle|]. assert (Y := Qmult_le_r' u (1 # 16) _ (Qabs_nonneg (number s * number s)) US). lra. }
  assert (FW : b64_finite (fdiv p (fofZ n) : F) = true) by (apply count_div; [exact NB|exact FP|rewrite BD, QB; lra]).
  destruct (div_err p (b64_ofZ n) CF FW) as (_ & _ & GW & EW). rewrite CE in EW. unfold Qdiv in EW. fold N in EW. change (SFdiv prec emax p (b64_ofZ n)) with (fdiv p (fofZ n) : F) in *. set (w := fdiv p (fofZ n)) in *.
  assert (WB : Qabs (number w) <= (200 # 64) * qb).
  { assert (PN : Qabs (number p * N) <= Qabs (number p)). { rewrite Qabs_Qmult, (Qabs_pos N) by lra. assert (Y := Qmult_le_r' N 1 _ (Qabs_nonneg (number p)) N1). lra. }
    assert (E : number w == (number w - number p * N) + number p * N) by ring. rewrite E. eapply Qle_trans; [apply Qabs_triangle|]. assert (Y := Qmult_le_r' u (1 # 16) _ (Qabs_nonneg (number p * N)) US). lra. }
  (* the difference *)
  assert (KT : k * G * tiny <= 1).
  { assert (KB : k <= inject_Z (2 ^ 51)) by (unfold k; rewrite <- Zle_Qle; exact RL). assert (A := Qmult_le_r' k (inject_Z (2 ^ 51)) G ltac:(lra) KB). assert (B : inject_Z (2 ^ 51) * G <= inject_Z (2 ^ 51) * (13 # 8)) by (rewrite !(Qmult_comm (inject_Z (2 ^ 51))); apply Qmult_le_r'; [vm_compute; discriminate|exact GS]).
    apply Qle_trans with (inject_Z (2 ^ 51) * (13 # 8) * tiny); [apply Qmult_le_r'; lra|vm_compute; discriminate]. }
  assert (S2B : Qabs (number s2) <= (13 # 8) * qb + 1).
  { assert (E : number s2 == (number s2 - X) + X) by ring. rewrite E. eapply Qle_trans; [apply Qabs_triangle|]. rewrite (Qabs_pos X) by exact X0. assert (Y := Qmult_le_r' _ _ X X0 GS). lra. }
  assert (DB : Qabs (number s2 - number w) <= 6 * qb). { assert (E : number s2 - number w == number s2 + - number w) by ring. rewrite E. eapply Qle_trans; [apply Qabs_triangle|]. rewrite Qabs_opp. lra. }
  assert (FDf : b64_finite (fsub s2 w : F) = true) by (apply sub_range; [exact F2|exact FW|rewrite BD, QB; lra]).
  assert (ED := sub_err s2 w GR2 GW FDf). change (SFsub prec emax s2 w) with (fsub s2 w : F) in ED. set (d := fsub s2 w) in *.
  assert (dB : Qabs (number d) <= 7 * qb).
  { assert (E : number d == (number d - (number s2 - number w)) + (number s2 - number w)) by ring. rewrite E. eapply Qle_trans; [apply Qabs_triangle|]. assert (Y := Qmult_le_r' u (1 # 16) _ (Qabs_nonneg (number s2 - number w)) US). lra. }
  (* the divisor *)
  destruct (sub_exact (b64_ofZ n) c n z CF FC CE NC ltac:(lia)) as [FN EN]. change (SFsub prec emax (b64_ofZ n) c) with (fsub (fofZ n) c : F) in *.
  assert (DP : 0 < inject_Z (n - z)) by (rewrite <- (Zlt_Qlt 0); lia). destruct (count_inv (n - z) ltac:(lia)) as [D0 D1].
  assert (PT : SFltb (fsub (fofZ n) c : F) (S754_zero false) = false /\ SFeqb (fsub (fofZ n) c : F) (S754_zero false) = false) by (apply positive_tests; rewrite EN; exact DP).
  assert (EVF := VF ltac:(lia) (proj1 PT) (proj2 PT)). clear VF PT. fold p in EVF. fold w in EVF. fold d in EVF. set (q := fsub (fofZ n) c) in *.
  assert (NZ : ~ number q == 0) by (rewrite EN; intros C; rewrite C in DP; discriminate DP).
  assert (FV : b64_finite (fdiv d q : F) = true).
  { apply div_range; [exact FDf|exact FN|exact NZ|]. rewrite EN. unfold Qdiv. apply shrink; [exact D0|exact D1|]. rewrite BD, QB. lra. }
  destruct (div_err d q FN FV) as (_ & _ & _ & EV). change (SFdiv prec emax d q) with (fdiv d q : F) in EV. rewrite EN in EV. unfold Qdiv in EV. set (D := / inject_Z (n - z)) in *.
  set (V := fdiv d q) in *. fold V in EVF.
  assert (SI := spread_is (map number l) (inject_Z n) NP). fold X T in SI. unfold Qdiv in SI. fold N in SI.
  assert (SN := spread_nonneg (map number l) (inject_Z n)). rewrite map_length in SN. fold k in SN. assert (SN' : 0 <= spread (map number l) (inject_Z n)) by (apply SN; unfold k; rewrite <- Zle_Qle; exact KN). clear SN.
  assert (Y0 : 0 <= X - T * T * N) by (rewrite <- SI; exact SN').
  assert (T0 : 0 <= k * G * tiny) by (apply Qmult_le_0_compat; [apply Qmult_le_0_compat; lra|lra]).
  assert (CF1 := core_final G M T X N D (number s) (number s2) (number p) (number w) (number d) (number V) (k * G * tiny) G1 T0 (conj N0 N1) (conj D0 D1) X0 MN TM ES E2 EP EW Y0 ED EV k K0 (Qle_refl _)).
  assert (BND : forall x, Qabs (x - (X - T * T * N) * D) <= 2 * ((1 + u) * (1 + u) * ((1 + u) * (1 + u)) * (G * G) - 1) * (X * D) + (k + 4) * ((1 + u) * (1 + u) * G) * tiny -> var_within (map number l) (inject_Z n) (inject_Z (n - z)) x).
  { intros x B. unfold var_within. cbv zeta. rewrite map_length. unfold Qdiv. fold D X. rewrite SI.
    assert (U1 : ~ 1 + u == 0) by lra. assert (P1 : (1 + u) ^ (2 * Z.of_nat (length l) + 4) == (1 + u) * (1 + u) * ((1 + u) * (1 + u)) * (G * G)).
    { rewrite Qpower_plus by exact U1. replace (2 * Z.of_nat (length l))%Z with (Z.of_nat (length l) + Z.of_nat (length l))%Z by lia. rewrite Qpower_plus by exact U1. change ((1 + u) ^ Z.of_nat (length l)) with G. change ((1 + u) ^ 4) with ((1 + u) * (1 + u) * (1 + u) * (1 + u)) || idtac.
      assert (P4 : (1 + u) ^ 4 == (1 + u) * (1 + u) * ((1 + u) * (1 + u))) by (change 4%Z with (1 + 1 + 1 + 1)%Z; rewrite !Qpower_plus by exact U1; change ((1 + u) ^ 1) with (1 + u); ring). rewrite P4. ring. }
    assert (P2 : (1 + u) ^ (Z.of_nat (length l) + 2) == (1 + u) * (1 + u) * G).
    { rewrite Qpower_plus by exact U1. change ((1 + u) ^ Z.of_nat (length l)) with G. assert (P4 : (1 + u) ^ 2 == (1 + u) * (1 + u)) by (change 2%Z with (1 + 1)%Z; rewrite !Qpower_plus by exact U1; change ((1 + u) ^ 1) with (1 + u); ring). rewrite P4. ring. }
    rewrite P1, P2, inject_Z_plus. fold k. change (inject_Z 4) with 4. exact B. }
  assert (D2 : double s2) by (apply (FSum_double _ s2 HS2); apply Forall_map, Forall_forall; intros x I; rewrite Forall_forall in DL; apply mul_double; apply DL; exact I).
  assert (DV : double V) by (unfold V, d, w, p, q; apply div_double; [apply sub_double; [exact D2|apply div_double; [apply mul_double; exact DS|apply ofZ_double]]|apply sub_double; [apply ofZ_double|exact DC]]).
  rewrite EVF. destruct (fltb V (f0 : F)) eqn:LT.
  - split; [split; reflexivity|]. apply BND. eapply Qle_trans; [|exact CF1]. assert (NV := negative_test V LT). change (number (f0 : F)) with 0.
    assert (YD : 0 <= (X - T * T * N) * D) by (apply Qmult_le_0_compat; lra). assert (A : 0 - (X - T * T * N) * D == - ((X - T * T * N) * D)) by ring. rewrite A, Qabs_opp, Qabs_pos by exact YD.
    rewrite Qabs_neg by lra. lra.
  - split; [split; [exact DV|exact FV]|]. apply BND. exact CF1.
Qed.
End Pow.
