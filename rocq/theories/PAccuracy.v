(** Rounding errors of sums and of sums of products of doubles. *)
Require Import List ZArith Bool Lia QArith Qabs Qpower Lqa Permutation Setoid Morphisms.
Require Import Coq.Floats.SpecFloat.
Require Import Verif.Res Verif.Values Verif.Spec Verif.SpecAccuracy Verif.FloatErr.
Import ListNotations.
Local Open Scope Q_scope.

(** ** Exact sums *)
Lemma total_app : forall l1 l2, total (l1 ++ l2) == total l1 + total l2.
Proof. induction l1 as [|x l1 IH]; intros l2; [cbn [app]; change (total (@nil Q)) with 0; ring|]. change (total ((x :: l1) ++ l2)) with (x + total (l1 ++ l2)). change (total (x :: l1)) with (x + total l1). rewrite IH. ring. Qed.
Lemma total_perm : forall l l', Permutation l l' -> total l == total l'.
Proof.
  intros l l' P. induction P as [|x l l' P IH|x y l|l l' l'' P IH P' IH']; cbn [total fold_right].
  - reflexivity.
  - fold (total l). fold (total l'). rewrite IH. reflexivity.
  - ring.
  - rewrite IH. exact IH'.
Qed.
Lemma magnitude_app : forall l1 l2, magnitude (l1 ++ l2) == magnitude l1 + magnitude l2.
Proof. intros. unfold magnitude. rewrite map_app. apply total_app. Qed.
Lemma magnitude_perm : forall l l', Permutation l l' -> magnitude l == magnitude l'.
Proof. intros. apply total_perm, Permutation_map. auto. Qed.
Lemma magnitude_nonneg : forall l, 0 <= magnitude l.
Proof. induction l as [|x l IH]; [apply Qle_refl|]. unfold magnitude in *. cbn [map total fold_right]. pose proof (Qabs_nonneg x). unfold total in IH. lra. Qed.
Lemma total_magnitude : forall l, Qabs (total l) <= magnitude l.
Proof.
  induction l as [|x l IH]; [apply Qle_refl|]. unfold magnitude in *. cbn [map total fold_right]. eapply Qle_trans; [apply Qabs_triangle|]. unfold total in IH. lra.
Qed.

Lemma F2_length : forall {A B} (R : A -> B -> Prop) l l', Forall2 R l l' -> length l = length l'.
Proof. intros A B R l l' H. induction H; cbn; congruence. Qed.

(** ** Powers of [1 + u] *)
Definition grow (n : nat) : Q := (1 + u) ^ (Z.of_nat n).
Lemma u_pos : 0 < u. Proof. apply q2_pos. Qed.
Lemma grow_S : forall n, grow (S n) == (1 + u) * grow n.
Proof. intros n. unfold grow. rewrite Nat2Z.inj_succ. replace (Z.succ (Z.of_nat n)) with (1 + Z.of_nat n)%Z by lia. rewrite Qpower_plus; [reflexivity|]. pose proof u_pos. intros E. lra. Qed.
Lemma grow_0 : grow 0 == 1. Proof. reflexivity. Qed.
Lemma grow_ge : forall n, 1 <= grow n.
Proof. induction n as [|n IH]; [rewrite grow_0; lra|]. rewrite grow_S. pose proof u_pos. nra. Qed.
Lemma grow_mono : forall m n, (m <= n)%nat -> grow m <= grow n.
Proof. intros m n H. induction H as [|n H IH]; [lra|]. rewrite grow_S. pose proof (grow_ge n). pose proof u_pos. nra. Qed.

(** ** Sums *)
Section Pow.
Variable pw : spec_float -> spec_float -> spec_float.
Notation F := (f64 pw).
Definition nums (l : list F) : list Q := map number l.
Definition good (x : F) : Prop := grain x.

Lemma FSum_nil : forall l v, FSum (F := F) l v -> l = [] -> exists s, v = S754_zero s.
Proof.
  intros l v H. induction H as [z Z|x|l1 l2 x y H1 IH1 H2 IH2|l l' x P H IH]; intros E.
  - destruct z as [s|s| |s m e]; [eauto|destruct s; discriminate Z|discriminate Z|destruct s; discriminate Z].
  - discriminate E.
  - apply app_eq_nil in E. destruct E as [-> ->]. destruct (IH1 eq_refl) as [s ->]. destruct (IH2 eq_refl) as [t ->]. destruct s, t; eexists; reflexivity.
  - subst. apply IH. apply Permutation_sym, Permutation_nil in P. exact P.
Qed.
Lemma add_zero_l : forall s (y : F), b64_finite (fadd (S754_zero s : F) y) = true ->
  b64_finite y = true /\ (good y -> good (fadd (S754_zero s : F) y)) /\ number (fadd (S754_zero s : F) y) == number y.
Proof. intros s [t|t| |t m e] H; try discriminate H; [destruct s, t; repeat split; auto|]. repeat split; auto. Qed.
Lemma add_zero_r : forall s (y : F), b64_finite (fadd y (S754_zero s : F)) = true ->
  b64_finite y = true /\ (good y -> good (fadd y (S754_zero s : F))) /\ number (fadd y (S754_zero s : F)) == number y.
Proof. intros s [t|t| |t m e] H; try discriminate H; [destruct s, t; repeat split; auto|]. repeat split; auto. Qed.

Lemma within_step : forall m1 m2 (S1 S2 M1 M2 x y v : Q) k1 k2 k,
  (k1 <= k)%nat -> (k2 <= k)%nat -> Qabs S1 <= M1 -> Qabs S2 <= M2 -> m1 == M1 -> m2 == M2 ->
  Qabs (x - S1) <= (grow k1 - 1) * M1 -> Qabs (y - S2) <= (grow k2 - 1) * M2 -> Qabs (v - (x + y)) <= u * Qabs (x + y) ->
  Qabs (v - (S1 + S2)) <= (grow (S k) - 1) * (m1 + m2).
Proof.
  intros m1 m2 S1 S2 M1 M2 x y v k1 k2 k L1 L2 A1 A2 E1 E2 H1 H2 H3. rewrite E1, E2. clear m1 m2 E1 E2.
  pose proof (Qabs_nonneg S1) as P1. pose proof (Qabs_nonneg S2) as P2. pose proof u_pos as U. pose proof (grow_ge k) as G.
  assert (B1 : Qabs (x - S1) <= (grow k - 1) * M1) by (pose proof (grow_mono _ _ L1); eapply Qle_trans; [exact H1|]; apply Qmult_le_r'; lra).
  assert (B2 : Qabs (y - S2) <= (grow k - 1) * M2) by (pose proof (grow_mono _ _ L2); eapply Qle_trans; [exact H2|]; apply Qmult_le_r'; lra).
  assert (T1 : Qabs (v - (S1 + S2)) <= Qabs (v - (x + y)) + Qabs (x - S1) + Qabs (y - S2)).
  { assert (E : v - (S1 + S2) == (v - (x + y)) + ((x - S1) + (y - S2))) by ring. rewrite E.
    eapply Qle_trans; [apply Qabs_triangle|]. pose proof (Qabs_triangle (x - S1) (y - S2)). lra. }
  assert (T2 : Qabs (x + y) <= M1 + M2 + Qabs (x - S1) + Qabs (y - S2)).
  { assert (E : x + y == (S1 + S2) + ((x - S1) + (y - S2))) by ring. rewrite E.
    eapply Qle_trans; [apply Qabs_triangle|]. pose proof (Qabs_triangle (x - S1) (y - S2)). pose proof (Qabs_triangle S1 S2). lra. }
  assert (T3 : u * Qabs (x + y) <= u * (M1 + M2 + (grow k - 1) * (M1 + M2))) by (rewrite !(Qmult_comm u); apply Qmult_le_r'; lra).
  rewrite grow_S. assert (E : ((1 + u) * grow k - 1) * (M1 + M2) == u * (M1 + M2 + (grow k - 1) * (M1 + M2)) + (grow k - 1) * (M1 + M2)) by ring. rewrite E.
  lra.
Qed.
Lemma FSum_err : forall l v, FSum (F := F) l v -> Forall good l -> b64_finite v = true ->
  Forall (fun x => b64_finite x = true) l /\ good v /\ Qabs (number v - total (nums l)) <= (grow (length l - 1) - 1) * magnitude (nums l).
Proof.
  intros l v H. induction H as [z Z|x|l1 l2 x y H1 IH1 H2 IH2|l l' x P H IH]; intros G FI.
  - destruct (FSum_nil [] z (FSum_zero _ Z) eq_refl) as [s ->]. repeat split; constructor || (cbn; discriminate).
  - inversion G; subst. repeat split; auto. cbn [nums map length total fold_right magnitude Nat.sub]. rewrite grow_0.
    assert (E : number x - (number x + 0) == 0) by ring. rewrite E. cbn [Qabs]. assert (E2 : (1 - 1) * magnitude [number x] == 0) by ring.
    unfold magnitude in E2. cbn [map total fold_right] in E2 |- *. rewrite E2. apply Qle_refl.
  - apply Forall_app in G. destruct G as [G1 G2]. unfold nums. rewrite map_app, app_length, total_app, magnitude_app. fold (nums l1). fold (nums l2).
    destruct l1 as [|a1 l1]; [|destruct l2 as [|a2 l2]].
    + destruct (FSum_nil _ _ H1 eq_refl) as [s ->]. destruct (add_zero_l s y FI) as (FY & GY & EY). destruct (IH2 G2 FY) as (A & B & C).
      split; [exact A|]. split; [auto|]. rewrite EY. cbn [nums map length total fold_right magnitude plus]. rewrite !Qplus_0_l. exact C.
    + destruct (FSum_nil _ _ H2 eq_refl) as [s ->]. destruct (add_zero_r s x FI) as (FY & GY & EY). destruct (IH1 G1 FY) as (A & B & C).
      split; [rewrite app_nil_r; exact A|]. split; [auto|]. rewrite EY. change (nums []) with (@nil Q). change (total []) with 0. change (magnitude []) with 0. rewrite !Qplus_0_r, Nat.add_0_r. exact C.
    + assert (GX : b64_finite x = true /\ b64_finite y = true).
      { change (fadd x y) with (SFadd prec emax x y) in FI. clear - FI. destruct x as [s|s| |s m e]; destruct y as [t|t| |t n f]; try discriminate FI; try (destruct s, t; discriminate FI); auto. }
      destruct GX as [FX FY]. destruct (IH1 G1 FX) as (A1 & B1 & C1). destruct (IH2 G2 FY) as (A2 & B2 & C2).
      destruct (add_err x y B1 B2 FI) as (_ & _ & GV & EV).
      split; [apply Forall_app; auto|]. split; [exact GV|].
      replace (length (a1 :: l1) + length (a2 :: l2) - 1)%nat with (S (length l1 + length l2)) by (cbn [length]; lia).
      eapply within_step; [| |apply total_magnitude|apply total_magnitude|reflexivity|reflexivity|exact C1|exact C2|exact EV]; cbn [length]; lia.
  - destruct (IH (Permutation_Forall (Permutation_sym P) G) FI) as (A & B & C). split; [eapply Permutation_Forall; eauto|]. split; [exact B|].
    assert (PN : Permutation (nums l) (nums l')) by (apply Permutation_map; exact P).
    rewrite <- (total_perm _ _ PN), <- (magnitude_perm _ _ PN), <- (Permutation_length P). exact C.
Qed.

(** ** Sums of products *)
(** [prods] are the exact products, [l] the rounded ones. *)
Lemma products_err : forall l (ps : list Q), Forall2 (fun (t : F) p => b64_finite t = true -> Qabs (number t - p) <= u * Qabs p + tiny) l ps ->
  Forall (fun x => b64_finite x = true) l ->
  Qabs (total (nums l) - total ps) <= u * magnitude ps + inject_Z (Z.of_nat (length ps)) * tiny /\
  magnitude (nums l) <= (1 + u) * magnitude ps + inject_Z (Z.of_nat (length ps)) * tiny.
Proof.
  intros l ps H. induction H as [|t p l ps H0 H IH]; intros FI.
  - cbn. split; discriminate.
  - inversion FI as [|? ? F0 F1]; subst. specialize (H0 F0). destruct (IH F1) as [I1 I2]. unfold nums, magnitude in *. cbn [map total fold_right length] in *.
    rewrite Nat2Z.inj_succ. unfold Z.succ. rewrite inject_Z_plus. change (inject_Z 1) with 1.
    set (T := fold_right Qplus 0 (map number l)) in *. set (P := fold_right Qplus 0 ps) in *. unfold total in I1, I2. fold T P in I1.
    set (MT := fold_right Qplus 0 (map Qabs (map number l))) in *. set (MP := fold_right Qplus 0 (map Qabs ps)) in *. set (n := inject_Z (Z.of_nat (length ps))) in *.
    split.
    + assert (E : number t + T - (p + P) == (number t - p) + (T - P)) by ring. rewrite E. eapply Qle_trans; [apply Qabs_triangle|]. lra.
    + assert (E : number t == p + (number t - p)) by ring. pose proof (Qabs_triangle p (number t - p)) as TR. rewrite <- E in TR. lra.
Qed.
Lemma close_terms : forall l (ps : list Q) v, Forall (fun x : F => b64_finite x = true) l ->
  Forall2 (fun (t : F) p => b64_finite t = true -> Qabs (number t - p) <= u * Qabs p + tiny) l ps ->
  Qabs (v - total (nums l)) <= (grow (length l - 1) - 1) * magnitude (nums l) -> dot_within ps v.
Proof.
  intros l ps v A R C. destruct (products_err l ps R A) as [B1 B2]. unfold dot_within. fold (grow (length ps)).
  assert (L : length l = length ps) by (eapply F2_length; exact R).
  pose proof (magnitude_nonneg ps) as MN. assert (TP : 0 < tiny) by apply q2_pos. pose proof u_pos as U.
  assert (NN : 0 <= inject_Z (Z.of_nat (length ps))) by (rewrite <- (Zle_Qle 0); lia).
  assert (T1 : Qabs (v - total ps) <= Qabs (v - total (nums l)) + Qabs (total (nums l) - total ps)).
  { assert (E : v - total ps == (v - total (nums l)) + (total (nums l) - total ps)) by ring. rewrite E. apply Qabs_triangle. }
  rewrite L in C. destruct (length ps) as [|k] eqn:EL.
  - destruct ps; [|discriminate EL]. destruct l; [|discriminate L]. cbn [length Nat.sub] in *. change (magnitude (nums [])) with 0 in C. change (magnitude []) with 0 in *. rewrite grow_0 in *. lra.
  - replace (S k - 1)%nat with k in C by lia. set (n := inject_Z (Z.of_nat (S k))) in *. set (M := magnitude ps) in *. set (MT := magnitude (nums l)) in *.
    pose proof (grow_ge k) as GK. assert (C' : (grow k - 1) * MT <= (grow k - 1) * ((1 + u) * M + n * tiny)) by (rewrite !(Qmult_comm (grow k - 1)); apply Qmult_le_r'; lra).
    assert (NT : 0 <= n * tiny) by (apply Qmult_le_0_compat; lra).
    assert (X : 0 <= u * grow k * (n * tiny)) by (apply Qmult_le_0_compat; [apply Qmult_le_0_compat; lra|exact NT]).
    rewrite grow_S.
    assert (E : ((1 + u) * grow k - 1) * M + n * ((1 + u) * grow k) * tiny == (grow k - 1) * ((1 + u) * M + n * tiny) + (u * M + n * tiny) + u * grow k * (n * tiny)) by ring.
    rewrite E. lra.
Qed.
Lemma dot_err : forall l (ps : list Q) v, FSum (F := F) l v -> Forall good l ->
  Forall2 (fun (t : F) p => b64_finite t = true -> Qabs (number t - p) <= u * Qabs p + tiny) l ps ->
  b64_finite v = true -> dot_within ps (number v).
Proof. intros l ps v H G R FI. destruct (FSum_err l v H G FI) as (A & _ & C). eapply close_terms; eauto. Qed.
(** Fused multiply-adds from left to right, starting from [a]. *)
Lemma fma_fold_err : forall (x : list F) row a A MA k, good a -> (b64_finite a = true -> Qabs (number a - A) <= (grow k - 1) * MA + inject_Z (Z.of_nat k) * grow k * tiny) -> Qabs A <= MA ->
  let v := fold_left (fun acc e => ffma (snd e) (nth (Z.to_nat (fst e)) x f0) acc) row a in
  let ps := map (fun e : Z * F => number (snd e) * number (nth (Z.to_nat (fst e)) x f0)) row in
  b64_finite v = true -> Qabs (number v - (A + total ps)) <= (grow (k + length row) - 1) * (MA + magnitude ps) + inject_Z (Z.of_nat (k + length row)) * grow (k + length row) * tiny.
Proof.
  intros x row. induction row as [|[j t] row IH]; intros a A MA k GA HA AM v ps FI.
  - unfold v, ps in *. cbn [fold_left map length] in *. rewrite Nat.add_0_r. change (total []) with 0. change (magnitude []) with 0. rewrite !Qplus_0_r. auto.
  - unfold v in FI |- *. cbn [fold_left fst snd] in FI |- *. set (p := number t * number (nth (Z.to_nat j) x f0)).
    set (a' := ffma t (nth (Z.to_nat j) x f0) a) in *.
    assert (GA' : b64_finite a' = true -> b64_finite a = true /\ Qabs (number a' - (p + number a)) <= u * Qabs (p + number a) + tiny).
    { intros FA. destruct (fma_err t (nth (Z.to_nat j) x f0) a GA FA) as (_ & _ & F1 & _ & E1). auto. }
    assert (G' : good a').
    { clear - GA a'. unfold a', good. cbn [ffma]. destruct t as [s|s| |s m e]; destruct (nth (Z.to_nat j) x f0) as [q|q| |q m' e']; destruct a as [b|b| |b m'' e'']; try exact I; try exact GA;
        try (cbn; destruct s, q; try exact I; destruct b; exact I); try (destruct s; exact I);
        try (cbn; repeat match goal with |- context [Bool.eqb ?a ?b] => destruct (Bool.eqb a b) end; exact I); cbn [f64 ffma b64_fma]; apply normalize_err. }
    specialize (IH a' (A + p) (MA + Qabs p) (S k) G'). cbv zeta in IH.
    replace (k + length ((j, t) :: row))%nat with (S k + length row)%nat by (cbn [length]; lia).
    assert (EP : total ps == p + total (map (fun e : Z * F => number (snd e) * number (nth (Z.to_nat (fst e)) x f0)) row)) by reflexivity.
    assert (EM : magnitude ps == Qabs p + magnitude (map (fun e : Z * F => number (snd e) * number (nth (Z.to_nat (fst e)) x f0)) row)) by reflexivity.
    rewrite EP, EM, !Qplus_assoc. apply IH; [| |exact FI].
    + intros FA. destruct (GA' FA) as [F1 E1]. specialize (HA F1).
      pose proof u_pos as U. pose proof (grow_ge k) as GK. assert (TP : 0 < tiny) by apply q2_pos. pose proof (Qabs_nonneg p) as PP.
      assert (NN : 0 <= inject_Z (Z.of_nat k)) by (rewrite <- (Zle_Qle 0); lia).
      rewrite Nat2Z.inj_succ. unfold Z.succ. rewrite inject_Z_plus. change (inject_Z 1) with 1. set (n := inject_Z (Z.of_nat k)) in *.
      set (D := Qabs (number a - A)) in *.
      assert (T1 : Qabs (number a' - (A + p)) <= Qabs (number a' - (p + number a)) + D).
      { assert (E : number a' - (A + p) == (number a' - (p + number a)) + (number a - A)) by ring. rewrite E. apply Qabs_triangle. }
      assert (T2 : Qabs (p + number a) <= Qabs p + MA + D).
      { assert (E : p + number a == p + (A + (number a - A))) by ring. rewrite E. eapply Qle_trans; [apply Qabs_triangle|]. pose proof (Qabs_triangle A (number a - A)). fold D in H. lra. }
      assert (T3 : u * Qabs (p + number a) <= u * (Qabs p + MA + D)) by (rewrite !(Qmult_comm u); apply Qmult_le_r'; lra).
      assert (T4 : (1 + u) * D <= (1 + u) * ((grow k - 1) * MA + n * grow k * tiny)) by (rewrite !(Qmult_comm (1 + u)); apply Qmult_le_r'; lra).
      rewrite grow_S.
      assert (E : ((1 + u) * grow k - 1) * (MA + Qabs p) + (n + 1) * ((1 + u) * grow k) * tiny ==
        (1 + u) * ((grow k - 1) * MA + n * grow k * tiny) + u * (Qabs p + MA) + tiny + ((1 + u) * (grow k - 1) * Qabs p + ((1 + u) * grow k - 1) * tiny)) by ring.
      rewrite E. assert (R1 : 0 <= (1 + u) * (grow k - 1) * Qabs p) by (apply Qmult_le_0_compat; [apply Qmult_le_0_compat; lra|exact PP]).
      assert (R2 : 0 <= ((1 + u) * grow k - 1) * tiny) by (apply Qmult_le_0_compat; [nra|lra]). lra.
    + eapply Qle_trans; [apply Qabs_triangle|]. lra.
Qed.
End Pow.

(** ** Integers *)
Section Integers.
Variable pw : spec_float -> spec_float -> spec_float.
Notation F := (f64 pw).
Notation nums := (nums pw).

Lemma int_total : forall l : list F, Forall integral l -> exists a, total (nums l) == inject_Z a.
Proof.
  intros l H. induction H as [|x l [_ [a E]] H [b IH]]; [exists 0%Z; reflexivity|]. exists (a + b)%Z. rewrite inject_Z_plus, <- E, <- IH. reflexivity.
Qed.
Lemma int_bound : forall a (q m : Q), q == inject_Z a -> Qabs q <= m -> m <= inject_Z (2 ^ 53) -> (Z.abs a <= 2 ^ 53)%Z.
Proof. intros a q m E H B. rewrite E, inject_Z_abs in H. rewrite Zle_Qle. eapply Qle_trans; eauto. Qed.
Lemma FSum_integers : forall l v, FSum (F := F) l v -> Forall integral l -> magnitude (nums l) <= inject_Z (2 ^ 53) ->
  integral v /\ number v == total (nums l).
Proof.
  intros l v H. induction H as [z Z|x|l1 l2 x y H1 IH1 H2 IH2|l l' x P H IH]; intros G B.
  - destruct (FSum_nil pw [] z (FSum_zero _ Z) eq_refl) as [s ->]. split; [|reflexivity]. split; [reflexivity|]. exists 0%Z. reflexivity.
  - inversion G as [|? ? I _]; subst. split; [exact I|]. unfold nums, PAccuracy.nums. cbn [map total fold_right]. ring.
  - pose proof (magnitude_nonneg (nums l1)) as N1. pose proof (magnitude_nonneg (nums l2)) as N2. assert (EM : magnitude (nums (l1 ++ l2)) == magnitude (nums l1) + magnitude (nums l2)) by (unfold PAccuracy.nums; rewrite map_app; apply magnitude_app).
    assert (B1 : magnitude (nums l1) <= inject_Z (2 ^ 53)) by lra. assert (B2 : magnitude (nums l2) <= inject_Z (2 ^ 53)) by lra.
    apply Forall_app in G. destruct G as [G1 G2]. destruct (IH1 G1 B1) as [[FX [a EA]] E1]. destruct (IH2 G2 B2) as [[FY [b EB]] E2].
    assert (ET : total (nums (l1 ++ l2)) == inject_Z (a + b)).
    { assert (ET : total (nums (l1 ++ l2)) == total (nums l1) + total (nums l2)) by (unfold PAccuracy.nums; rewrite map_app; apply total_app). rewrite ET. rewrite <- E1, <- E2, EA, EB, inject_Z_plus. reflexivity. }
    destruct (add_exact x y a b FX FY EA EB) as [FV EV]; [eapply int_bound; [exact ET|apply total_magnitude|exact B]|].
    split; [split; [exact FV|exists (a + b)%Z; exact EV]|]. rewrite ET. exact EV.
  - assert (PN : Permutation (nums l) (nums l')) by (apply Permutation_map; exact P). rewrite <- (magnitude_perm _ _ PN) in B. rewrite <- (total_perm _ _ PN).
    apply IH; [eapply Permutation_Forall; [apply Permutation_sym; exact P|exact G]|exact B].
Qed.
Lemma mul_integers : forall x y : F, integral x -> integral y -> Qabs (number x * number y) <= inject_Z (2 ^ 53) -> integral (fmul x y) /\ number (fmul x y) == number x * number y.
Proof.
  intros x y [FX [a EA]] [FY [b EB]] B. assert (E : number x * number y == inject_Z (a * b)) by (rewrite EA, EB, inject_Z_mult; reflexivity).
  destruct (mul_exact x y a b FX FY EA EB) as [FV EV]; [eapply int_bound; [exact E|exact B|apply Qle_refl]|]. split; [split; [exact FV|exists (a * b)%Z; exact EV]|]. rewrite E. exact EV.
Qed.
Lemma magnitude_In : forall l q, In q l -> Qabs q <= magnitude l.
Proof.
  induction l as [|x l IH]; intros q H; [destruct H|]. pose proof (magnitude_nonneg l) as N. change (magnitude (x :: l)) with (Qabs x + magnitude l).
  pose proof (Qabs_nonneg x). destruct H as [<-|H]; [lra|]. specialize (IH q H). lra.
Qed.
Lemma fma_fold_integers : forall (x : list F) row (a : F) A MA, integral a -> number a == A -> Qabs A <= MA -> Forall integral x -> Forall (fun e => integral (snd e)) row ->
  let v := fold_left (fun acc e => ffma (snd e) (nth (Z.to_nat (fst e)) x f0) acc) row a in
  let ps := map (fun e : Z * F => number (snd e) * number (nth (Z.to_nat (fst e)) x f0)) row in
  MA + magnitude ps <= inject_Z (2 ^ 53) -> integral v /\ number v == A + total ps.
Proof.
  intros x row. induction row as [|[j t] row IH]; intros a A MA IA EA AM IX IR v ps B.
  - unfold v, ps. cbn [fold_left map]. split; [exact IA|]. change (total []) with 0. rewrite EA. ring.
  - inversion IR as [|? ? It IR']; subst. cbn [snd] in It. set (y := nth (Z.to_nat j) x f0).
    assert (Iy : integral y). { unfold y. destruct (nth_in_or_default (Z.to_nat j) x (f0 : F)) as [H| ->]; [rewrite Forall_forall in IX; apply IX; exact H|]. split; [reflexivity|]. exists 0%Z. reflexivity. }
    set (p := number t * number y). set (qs := map (fun e : Z * F => number (snd e) * number (nth (Z.to_nat (fst e)) x f0)) row).
    assert (EM : magnitude ps == Qabs p + magnitude qs) by reflexivity. assert (EP : total ps == p + total qs) by reflexivity. rewrite EM in B.
    pose proof (magnitude_nonneg qs). destruct IA as [FA [a0 EA0]]. destruct It as [Ft [t0 Et0]]. destruct Iy as [Fy [y0 Ey0]].
    assert (EN : p + A == inject_Z (t0 * y0 + a0)) by (unfold p; rewrite <- EA, EA0, Et0, Ey0, inject_Z_plus, inject_Z_mult; reflexivity).
    destruct (fma_exact t y a t0 y0 a0 Ft Fy FA Et0 Ey0 EA0) as [FV EV].
    { eapply int_bound; [exact EN|apply Qabs_triangle|]. lra. }
    destruct (IH (b64_fma t y a) (A + p) (MA + Qabs p)) as [IV EVV].
    + split; [exact FV|eexists; exact EV].
    + etransitivity; [exact EV|]. rewrite <- EN. ring.
    + eapply Qle_trans; [apply Qabs_triangle|]. lra.
    + exact IX.
    + exact IR'.
    + fold qs. lra.
    + split; [exact IV|]. rewrite EP. etransitivity; [exact EVV|]. fold qs. ring.
Qed.
End Integers.
