(** Sums, products and means of modest size do not overflow. *)
Require Import List ZArith Bool Lia QArith Qabs Qpower Lqa Qfield Permutation.
Require Import Coq.Floats.SpecFloat.
Require Import Verif.Res Verif.Values Verif.Spec Verif.SpecReduce Verif.SpecCall Verif.SpecCall2 Verif.SpecAccuracy Verif.FloatErr Verif.FloatDiv Verif.FloatRange Verif.PAccuracy Verif.PAccuracy2 Verif.PAccuracy3.
Import ListNotations.
Local Open Scope Q_scope.

(** [(1 + u)^n <= 1 + 2 n u] while [2 n u <= 1]. *)
Lemma grow_linear : forall n, (Z.of_nat n <= 2 ^ 52)%Z -> grow n <= 1 + 2 * inject_Z (Z.of_nat n) * u.
Proof.
  induction n as [|n IH]; intros B; [rewrite grow_0; vm_compute; discriminate|]. specialize (IH ltac:(lia)). rewrite grow_S, Nat2Z.inj_succ. unfold Z.succ. rewrite inject_Z_plus. change (inject_Z 1) with 1.
  assert (NB : inject_Z (Z.of_nat n) <= inject_Z (2 ^ 52)) by (rewrite <- Zle_Qle; lia). assert (N0 : 0 <= inject_Z (Z.of_nat n)) by (rewrite <- (Zle_Qle 0); lia).
  assert (UB : 2 * inject_Z (2 ^ 52) * u == 1) by (vm_compute; reflexivity). pose proof u_pos as UP. set (k := inject_Z (Z.of_nat n)) in *. set (b := inject_Z (2 ^ 52)) in *. set (g := grow n) in *. clearbody k b g.
  assert (KU : 2 * k * u <= 1). { rewrite <- UB. apply Qmult_le_r'; lra. }
  assert (X : (2 * k * u) * u <= 1 * u) by (apply Qmult_le_r'; lra). assert (Y : g * (1 + u) <= (1 + 2 * k * u) * (1 + u)) by (apply Qmult_le_r'; lra).
  assert (R : (1 + 2 * k * u) * (1 + u) == 1 + 2 * k * u + u + (2 * k * u) * u) by ring. rewrite R in Y. rewrite (Qmult_comm (1 + u)). assert (R2 : 1 + 2 * (k + 1) * u == 1 + 2 * k * u + 2 * u) by ring. rewrite R2. lra.
Qed.
Lemma grow_small : forall n, (Z.of_nat n <= 2 ^ 51 + 1)%Z -> grow n <= 13 # 8.
Proof.
  intros n B. eapply Qle_trans; [apply grow_linear; lia|]. assert (NB : inject_Z (Z.of_nat n) <= inject_Z (2 ^ 51 + 1)) by (rewrite <- Zle_Qle; exact B).
  apply Qle_trans with (1 + 2 * inject_Z (2 ^ 51 + 1) * u); [|vm_compute; discriminate]. apply Qplus_le_compat; [lra|]. pose proof u_pos. apply Qmult_le_r'; lra.
Qed.
Definition big : Q := (2 # 1) ^ 1022.
Lemma big_ge : 1 <= big.
Proof. unfold big. rewrite <- (q2_Z 1022) by lia. change 1 with (inject_Z 1). rewrite <- Zle_Qle. apply (Z.pow_le_mono_r 2 0 1022); lia. Qed.
Lemma big_double : q2 1023 == 2 * big.
Proof. change 1023%Z with (1 + 1022)%Z. rewrite q2_plus. reflexivity. Qed.

Section Pow.
Variable pw : spec_float -> spec_float -> spec_float.
Notation F := (f64 pw).
Notation nums := (PAccuracy.nums pw).
Notation good := (PAccuracy.good pw).
Notation fin := (fun x : F => b64_finite x = true).

Lemma sum_size : forall (l : list F) v, FSum l v -> Forall good l -> b64_finite v = true -> Qabs (number v) <= grow (length l) * magnitude (nums l).
Proof.
  intros l v H G FI. destruct (FSum_err pw l v H G FI) as (_ & _ & C). pose proof (total_magnitude (nums l)) as TM. pose proof (magnitude_nonneg (nums l)) as MN.
  assert (E : number v == total (nums l) + (number v - total (nums l))) by ring. pose proof (Qabs_triangle (total (nums l)) (number v - total (nums l))) as TR. rewrite <- E in TR.
  assert (GM : grow (length l - 1) <= grow (length l)) by (apply grow_mono; lia). assert (X := Qmult_le_r' _ _ _ MN GM).
  assert (R : (grow (length l - 1) - 1) * magnitude (nums l) == grow (length l - 1) * magnitude (nums l) - magnitude (nums l)) by ring. rewrite R in C. lra.
Qed.
Lemma FSum_range : forall (l : list F) v, FSum l v -> Forall good l -> Forall fin l -> grow (length l) * magnitude (nums l) < q2 1023 -> b64_finite v = true.
Proof.
  intros l v H. induction H as [z Z|x|l1 l2 x y H1 IH1 H2 IH2|l l' x P H IH]; intros G A B.
  - apply (zero_finite pw). exact Z.
  - inversion A; subst. assumption.
  - apply Forall_app in G. destruct G as [G1 G2]. apply Forall_app in A. destruct A as [A1 A2]. assert (NA : nums (l1 ++ l2) = nums l1 ++ nums l2) by apply map_app. rewrite NA, magnitude_app, app_length in B. clear NA.
    pose proof (magnitude_nonneg (nums l1)) as M1. pose proof (magnitude_nonneg (nums l2)) as M2. pose proof (grow_ge (length l1 + length l2)) as GG.
    assert (L1 : grow (length l1) <= grow (length l1 + length l2)) by (apply grow_mono; lia). assert (L2 : grow (length l2) <= grow (length l1 + length l2)) by (apply grow_mono; lia).
    assert (X1 := Qmult_le_r' _ _ _ M1 L1). assert (X2 := Qmult_le_r' _ _ _ M2 L2). set (g := grow (length l1 + length l2)) in *. rewrite Qmult_plus_distr_r in B.
    assert (Y1 : 0 <= g * magnitude (nums l1)) by (apply Qmult_le_0_compat; lra). assert (Y2 : 0 <= g * magnitude (nums l2)) by (apply Qmult_le_0_compat; lra).
    assert (B1 : grow (length l1) * magnitude (nums l1) < q2 1023). { eapply Qle_lt_trans; [exact X1|]. eapply Qle_lt_trans; [|exact B]. clear - Y2. lra. }
    assert (B2 : grow (length l2) * magnitude (nums l2) < q2 1023). { eapply Qle_lt_trans; [exact X2|]. eapply Qle_lt_trans; [|exact B]. clear - Y1. lra. }
    assert (F1 : b64_finite x = true) by (apply IH1; auto). assert (F2 : b64_finite y = true) by (apply IH2; auto).
    pose proof (sum_size l1 x H1 G1 F1) as S1. pose proof (sum_size l2 y H2 G2 F2) as S2.
    apply add_range; [exact F1|exact F2|]. eapply Qle_lt_trans; [apply Qabs_triangle|]. eapply Qle_lt_trans; [|exact B]. clear - S1 S2 X1 X2. lra.
  - apply IH.
    + apply Forall_forall. intros t I. rewrite Forall_forall in G. apply G. eapply Permutation_in; eauto.
    + apply Forall_forall. intros t I. rewrite Forall_forall in A. apply A. eapply Permutation_in; eauto.
    + rewrite (Permutation_length P). unfold PAccuracy.nums. rewrite (magnitude_perm _ _ (Permutation_map number P)). exact B.
Qed.
Lemma finite_list : forall l : list F, Forall (fun x : F => ffinite x = true) l -> Forall fin l.
Proof. intros l H. exact H. Qed.
(** [modest] leaves room for the errors. *)
Lemma modest_room : forall n M, (Z.of_nat n <= 2 ^ 51)%Z -> 0 <= M -> M <= big -> grow n * M < q2 1023.
Proof.
  intros n M N M0 MB. pose proof (grow_small n ltac:(lia)) as G. rewrite big_double. pose proof big_ge. assert (X := Qmult_le_r' _ _ M M0 G). lra.
Qed.
Lemma sum_finite : forall (l : list F) v, FSum l v -> Forall double l -> Forall fin l -> modest (map number l) -> ffinite v = true.
Proof.
  intros l v H D A [N B]. apply (FSum_range l v H); [apply double_good; exact D|exact A|]. rewrite map_length in N. apply modest_room; [exact N|apply magnitude_nonneg|exact B].
Qed.

(** Sums of products. *)
Definition near (t : F) (p : Q) : Prop := b64_finite t = true /\ Qabs (number t - p) <= u * Qabs p + tiny.
Lemma near_sum : forall (l : list F) ps, Forall2 near l ps -> magnitude (nums l) <= (1 + u) * magnitude ps + inject_Z (Z.of_nat (length ps)) * tiny.
Proof.
  intros l ps H. apply (products_err pw l ps).
  - induction H as [|t p l ps [H0 H1] H IH]; constructor; auto.
  - induction H as [|t p l ps [H0 H1] H IH]; constructor; auto.
Qed.
Lemma near_finite : forall (l : list F) ps v, FSum l v -> Forall good l -> Forall2 near l ps -> modest ps -> ffinite v = true.
Proof.
  intros l ps v H G R [N B]. apply (FSum_range l v H); [exact G|clear - R; induction R as [|t p l ps [H0 H1] H IH]; constructor; auto|].
  assert (L : length l = length ps) by (eapply F2_length; exact R). rewrite L. pose proof (near_sum l ps R) as X. pose proof (grow_small (length ps) ltac:(lia)) as GS. pose proof (magnitude_nonneg (nums l)) as MN.
  assert (TN : inject_Z (Z.of_nat (length ps)) * tiny <= 1 # 8).
  { apply Qle_trans with (inject_Z (2 ^ 51) * tiny); [apply Qmult_le_r'; [apply Qlt_le_weak, q2_pos|rewrite <- Zle_Qle; exact N]|vm_compute; discriminate]. }
  pose proof u_pos as UP. assert (U8 : u <= 1 # 16) by (vm_compute; discriminate). pose proof (magnitude_nonneg ps) as PN. fold big in B. pose proof big_ge as BG. rewrite big_double.
  assert (UM : u * magnitude ps <= (1 # 16) * magnitude ps) by (apply Qmult_le_r'; lra). assert (Y := Qmult_le_r' _ _ _ MN GS).
  assert (R1 : (1 + u) * magnitude ps == magnitude ps + u * magnitude ps) by ring. rewrite R1 in X. lra.
Qed.
(** Selecting terms keeps them modest. *)
Lemma near_app : forall (l1 l2 : list F) p1 p2, Forall2 near l1 p1 -> Forall2 near l2 p2 -> Forall2 near (l1 ++ l2) (p1 ++ p2).
Proof. intros. apply Forall2_app; auto. Qed.
Lemma modest_less : forall ps qs, (length ps <= length qs)%nat -> magnitude ps <= magnitude qs -> modest qs -> modest ps.
Proof. intros ps qs L M [A B]. split; [lia|]. eapply Qle_trans; eauto. Qed.
Lemma filter_near : forall (f : F -> bool) (l : list F) ps, Forall2 near l ps -> exists qs, Forall2 near (filter f l) qs /\ (length qs <= length ps)%nat /\ magnitude qs <= magnitude ps.
Proof.
  intros f l ps H. induction H as [|t p l ps H0 H (qs & A & B & C)]; [exists []; repeat split; constructor || (cbn; lia) || lra|].
  change (magnitude (p :: ps)) with (Qabs p + magnitude ps). pose proof (Qabs_nonneg p). cbn [filter length]. destruct (f t).
  - exists (p :: qs). split; [constructor; auto|]. split; [cbn [length]; lia|]. change (magnitude (p :: qs)) with (Qabs p + magnitude qs). lra.
  - exists qs. split; [exact A|]. split; [lia|lra].
Qed.
Lemma mul_near : forall x y : F, double x -> double y -> b64_finite x = true -> b64_finite y = true -> Qabs (number x * number y) <= big -> near (fmul x y) (number x * number y).
Proof.
  intros x y DX DY FX FY B. assert (FI : b64_finite (fmul x y) = true). { apply mul_range; auto. rewrite big_double. pose proof big_ge. lra. }
  split; [exact FI|]. apply mul_close. exact FI.
Qed.
Lemma nth_double : forall (x : list F) j, Forall double x -> double (nth j x (f0 : F)).
Proof. intros x j H. destruct (nth_in_or_default j x (f0 : F)) as [I| ->]; [rewrite Forall_forall in H; auto|reflexivity]. Qed.
Lemma nth_finite : forall (x : list F) j, Forall fin x -> b64_finite (nth j x (f0 : F)) = true.
Proof. intros x j H. destruct (nth_in_or_default j x (f0 : F)) as [I| ->]; [rewrite Forall_forall in H; apply H; exact I|reflexivity]. Qed.

Section Dot.
Variables (cell : nat -> nat -> list F) (n : nat) (x : list F) (i : nat).
Hypothesis CD : forall j, Forall double (cell i j).
Hypothesis CF : forall j, Forall fin (cell i j).
Hypothesis XD : Forall double x.
Hypothesis XF : Forall fin x.
Lemma cells_near : forall js, magnitude (flat_map (fun j => map (fun v => number v * number (nth j x (S754_zero false))) (cell i j)) js) <= big ->
  Forall2 near (flat_map (fun j => map (fun v => fmul v (nth j x f0)) (cell i j)) js) (flat_map (fun j => map (fun v => number v * number (nth j x (S754_zero false))) (cell i j)) js).
Proof.
  induction js as [|j js IH]; intros B; [constructor|]. cbn [flat_map] in *. rewrite magnitude_app in B.
  pose proof (magnitude_nonneg (map (fun v : spec_float => number v * number (nth j x (S754_zero false))) (cell i j))) as N1.
  pose proof (magnitude_nonneg (flat_map (fun j => map (fun v : spec_float => number v * number (nth j x (S754_zero false))) (cell i j)) js)) as N2.
  apply near_app; [|apply IH; lra]. assert (B1 : magnitude (map (fun v : spec_float => number v * number (nth j x (S754_zero false))) (cell i j)) <= big) by lra. clear IH B N1 N2.
  pose proof (CD j) as D. pose proof (CF j) as A. revert B1. induction (cell i j) as [|v l IHl]; intros B; [constructor|]. inversion D; subst. inversion A; subst. cbn [map] in *.
  change (magnitude (number v * number (nth j x (S754_zero false)) :: map (fun v : spec_float => number v * number (nth j x (S754_zero false))) l)) with
    (Qabs (number v * number (nth j x (S754_zero false))) + magnitude (map (fun v : spec_float => number v * number (nth j x (S754_zero false))) l)) in B.
  pose proof (magnitude_nonneg (map (fun v : spec_float => number v * number (nth j x (S754_zero false))) l)). pose proof (Qabs_nonneg (number v * number (nth j x (S754_zero false)))).
  constructor; [|apply IHl; auto; lra]. apply (mul_near v (nth j x f0)); auto; [apply nth_double; exact XD|apply nth_finite; exact XF|]. change (f0 : F) with (S754_zero false). lra.
Qed.
Lemma dot_finite : forall v, FSum (dot_terms cell n x i) v -> modest (products cell n x i) -> ffinite v = true.
Proof.
  intros v H M. eapply near_finite; [exact H|apply dot_good| |exact M]. apply cells_near. apply M.
Qed.
Lemma dot_nz_finite : forall v, FSum (dot_terms_nz cell n x i) v -> modest (products cell n x i) -> ffinite v = true.
Proof.
  intros v H M.
  assert (G : forall js, magnitude (flat_map (fun j => map (fun v => number v * number (nth j x (S754_zero false))) (cell i j)) js) <= big ->
    exists qs, Forall2 near (flat_map (fun j => if feqb (nth j x f0) f0 then [] else map (fun v => fmul v (nth j x f0)) (cell i j)) js) qs /\
      (length qs <= length (flat_map (fun j => map (fun v => (number v * number (nth j x (S754_zero false)))%Q) (cell i j)) js))%nat /\
      magnitude qs <= magnitude (flat_map (fun j => map (fun v => number v * number (nth j x (S754_zero false))) (cell i j)) js)).
  { induction js as [|j js IH]; intros B; [exists []; repeat split; constructor || (cbn; lia) || (cbn; lra)|]. cbn [flat_map] in *. rewrite magnitude_app in B. rewrite app_length.
    pose proof (magnitude_nonneg (map (fun v : spec_float => number v * number (nth j x (S754_zero false))) (cell i j))) as N1.
    pose proof (magnitude_nonneg (flat_map (fun j => map (fun v : spec_float => number v * number (nth j x (S754_zero false))) (cell i j)) js)) as N2.
    destruct IH as (qs & A1 & A2 & A3); [lra|]. destruct (feqb (nth j x f0) f0).
    - exists qs. split; [exact A1|]. split; [lia|]. rewrite magnitude_app. lra.
    - assert (C := cells_near [j]). cbn [flat_map] in C. rewrite !app_nil_r in C. specialize (C ltac:(lra)). eexists. split; [apply near_app; [exact C|exact A1]|]. rewrite app_length, !magnitude_app. split; [lia|]. lra. }
  destruct (G (seq 0 n)) as (qs & A1 & A2 & A3); [apply M|]. eapply near_finite; [exact H| |exact A1|eapply modest_less; [exact A2|exact A3|exact M]].
  unfold dot_terms_nz. apply Forall_flat_map. apply Forall_forall. intros j _. destruct (feqb (nth j x f0) f0); [constructor|]. apply Forall_map. apply Forall_forall. intros w _. apply mul_grain.
Qed.

(** Fused multiply-adds. *)
Lemma tiny_room : forall n, (Z.of_nat n <= 2 ^ 51)%Z -> inject_Z (Z.of_nat n) * grow n * tiny <= 1 # 8.
Proof.
  intros k N. pose proof (grow_small k ltac:(lia)) as G. pose proof (grow_ge k) as G1. assert (TP : 0 < tiny) by apply q2_pos. assert (K0 : 0 <= inject_Z (Z.of_nat k)) by (rewrite <- (Zle_Qle 0); lia).
  assert (KB : inject_Z (Z.of_nat k) <= inject_Z (2 ^ 51)) by (rewrite <- Zle_Qle; exact N).
  apply Qle_trans with (inject_Z (2 ^ 51) * (13 # 8) * tiny); [|vm_compute; discriminate]. apply Qmult_le_r'; [lra|].
  apply Qle_trans with (inject_Z (Z.of_nat k) * (13 # 8)); [rewrite !(Qmult_comm (inject_Z (Z.of_nat k))); apply Qmult_le_r'; lra|apply Qmult_le_r'; lra].
Qed.
Lemma fma_fold_range : forall row, Forall (fun e : Z * F => b64_finite (snd e) = true) row ->
  modest (map (fun e : Z * F => number (snd e) * number (nth (Z.to_nat (fst e)) x f0)) row) ->
  b64_finite (fold_left (fun acc e => ffma (snd e) (nth (Z.to_nat (fst e)) x f0) acc) row f0) = true.
Proof.
  induction row as [|[j t] row IH] using rev_ind; intros A M; [reflexivity|]. apply Forall_app in A. destruct A as [A1 A2]. inversion A2 as [|? ? FT _ E]; subst. cbn [snd] in FT.
  rewrite map_app in M. cbn [map fst snd] in M. rewrite fold_left_app. cbn [fold_left fst snd].
  set (ps := map (fun e : Z * F => number (snd e) * number (nth (Z.to_nat (fst e)) x f0)) row) in *. set (y := nth (Z.to_nat j) x f0) in *. set (v := fold_left (fun acc e => ffma (snd e) (nth (Z.to_nat (fst e)) x f0) acc) row f0) in *.
  destruct M as [N B]. rewrite magnitude_app in B. rewrite app_length in N. cbn [length] in N. change (magnitude [number t * number y]) with (Qabs (number t * number y) + 0) in B. fold big in B.
  assert (MP : modest ps). { split; [lia|]. fold big. pose proof (Qabs_nonneg (number t * number y)). lra. }
  assert (FV : b64_finite v = true) by (apply IH; assumption).
  pose proof (fma_fold_err pw x row f0 0 0 0 I) as H. cbv zeta in H. cbn [plus] in H. fold v ps in H. assert (H' := H (fun _ => Qle_refl 0) (Qle_refl 0) FV). clear H. rewrite !Qplus_0_l in H'.
  assert (LP : length row = length ps) by (unfold ps; rewrite map_length; reflexivity). rewrite LP in H'.
  assert (TR := tiny_room (length ps) ltac:(lia)). assert (G := grow_small (length ps) ltac:(lia)). pose proof (total_magnitude ps) as TM. pose proof (magnitude_nonneg ps) as MN.
  assert (E : number v == total ps + (number v - total ps)) by ring. pose proof (Qabs_triangle (total ps) (number v - total ps)) as TR2. rewrite <- E in TR2.
  assert (X := Qmult_le_r' _ _ _ MN G). assert (R : (grow (length ps) - 1) * magnitude ps == grow (length ps) * magnitude ps - magnitude ps) by ring. rewrite R in H'.
  apply (fma_range t y v); [exact FT|apply nth_finite; exact XF|exact FV|]. eapply Qle_lt_trans; [apply Qabs_triangle|]. rewrite big_double. pose proof big_ge. pose proof (Qabs_nonneg (number t * number y)).
  clear - H' TR TM MN TR2 X B H H0. lra.
Qed.
Lemma fma_finite : forall v, v = fma_sum x (by_column (cell i) n) -> modest (products cell n x i) -> ffinite v = true.
Proof.
  intros v -> M.
  assert (EP : map (fun e : Z * F => number (snd e) * number (nth (Z.to_nat (fst e)) x f0)) (by_column (cell i) n) = products cell n x i).
  { unfold by_column, products. clear. induction (seq 0 n) as [|j js IH]; [reflexivity|]. cbn [flat_map]. rewrite map_app. f_equal; [|exact IH].
    rewrite map_map. apply map_ext. intros v. cbn [fst snd]. rewrite Nat2Z.id. reflexivity. }
  apply fma_fold_range; [|rewrite EP; exact M]. unfold by_column. apply Forall_flat_map, Forall_forall. intros j _. apply Forall_map. cbn [snd]. apply CF.
Qed.
End Dot.

Lemma line_finite : forall (A : Nd F) axis x k v, FSum (filter nonzero (line_products A axis x k)) v -> Forall double (nd_dat A) -> Forall fin (nd_dat A) -> Forall double x -> Forall fin x ->
  modest (line_exact A axis x k) -> ffinite v = true.
Proof.
  intros A axis x k v H DA FA DX FX M.
  assert (NE : Forall2 near (line_products A axis x k) (line_exact A axis x k)).
  { destruct M as [_ B]. fold big in B. unfold line_products, line_exact in *.
    assert (IN : forall e, In e (fiber_entries A (other_axes (length (nd_shape A)) [axis]) k) -> In (snd e) (nd_dat A)).
    { intros [q w] I. unfold fiber_entries in I. apply filter_In in I. destruct I as [I _]. unfold nd_entries in I. eapply in_combine_r. exact I. }
    assert (G : forall es : list (list Z * F), magnitude (map (fun e : list Z * spec_float => number (snd e) * number (nth (Z.to_nat (nth axis (fst e) 0%Z)) x (S754_zero false))) es) <= big ->
      (forall e, In e es -> In (snd e) (nd_dat A)) -> Forall2 near (map (fun e => fmul (snd e) (nth (Z.to_nat (nth axis (fst e) 0%Z)) x f0)) es)
        (map (fun e : list Z * spec_float => number (snd e) * number (nth (Z.to_nat (nth axis (fst e) 0%Z)) x (S754_zero false))) es)).
    { clear B IN H. induction es as [|e es IH]; intros B IN; [constructor|]. cbn [map] in *.
    assert (B' : Qabs (number (snd e) * number (nth (Z.to_nat (nth axis (fst e) 0%Z)) x (S754_zero false))) + magnitude (map (fun e : list Z * spec_float => number (snd e) * number (nth (Z.to_nat (nth axis (fst e) 0%Z)) x (S754_zero false))) es) <= big) by exact B.
    pose proof (magnitude_nonneg (map (fun e : list Z * spec_float => number (snd e) * number (nth (Z.to_nat (nth axis (fst e) 0%Z)) x (S754_zero false))) es)) as N1. pose proof (Qabs_nonneg (number (snd e) * number (nth (Z.to_nat (nth axis (fst e) 0%Z)) x (S754_zero false)))) as N2.
    assert (B1 : Qabs (number (snd e) * number (nth (Z.to_nat (nth axis (fst e) 0%Z)) x (S754_zero false))) <= big) by (eapply Qle_trans; [|exact B']; clear - N1; lra).
    rewrite Forall_forall in DA. constructor; [|apply IH; [|intros e' I'; apply IN; right; exact I']].
    - apply (mul_near (snd e) (nth (Z.to_nat (nth axis (fst e) 0%Z)) x f0)); [apply DA, IN; left; reflexivity|apply nth_double; exact DX|rewrite Forall_forall in FA; apply FA, IN; left; reflexivity|apply nth_finite; exact FX|].
      exact B1.
    - eapply Qle_trans; [|exact B']. clear - N2. lra. }
    apply G; assumption. }
  destruct (filter_near nonzero _ _ NE) as (qs & A1 & A2 & A3). eapply near_finite; [exact H| |exact A1|eapply modest_less; [exact A2|exact A3|exact M]].
  apply Forall_forall. intros t I. apply filter_In in I. destruct I as [I _]. unfold line_products in I. apply in_map_iff in I. destruct I as (e & <- & _). apply mul_grain.
Qed.

(** Means. *)
Lemma sum_room : forall (l : list F) s, FSum l s -> Forall double l -> Forall fin l -> modest (map number l) -> b64_finite s = true /\ Qabs (number s) < q2 1023.
Proof.
  intros l s H D A M. assert (FS : b64_finite s = true) by exact (sum_finite l s H D A M). split; [exact FS|]. eapply Qle_lt_trans; [apply (sum_size l s H (double_good pw l D) FS)|].
  destruct M as [N B]. rewrite map_length in N. apply modest_room; [exact N|apply magnitude_nonneg|exact B].
Qed.
Lemma count_inv : forall n, (1 <= n)%Z -> 0 < / inject_Z n /\ / inject_Z n <= 1.
Proof.
  intros n N. assert (NP : 0 < inject_Z n) by (rewrite <- (Zlt_Qlt 0); lia). split; [apply Qinv_lt_0_compat; exact NP|]. assert (N1 : 1 <= inject_Z n) by (change 1 with (inject_Z 1); rewrite <- Zle_Qle; lia).
  assert (K1 : inject_Z n * / inject_Z n == 1) by (apply Qmult_inv_r; intros C; rewrite C in NP; discriminate NP). assert (KP : 0 < / inject_Z n) by (apply Qinv_lt_0_compat; exact NP).
  assert (X := Qmult_le_r' 1 (inject_Z n) (/ inject_Z n) ltac:(lra) N1). lra.
Qed.
Lemma shrink : forall a k b, 0 < k -> k <= 1 -> Qabs a < b -> Qabs (a * k) < b.
Proof.
  intros a k b K0 K1 A. rewrite Qabs_Qmult, (Qabs_pos k) by lra. eapply Qle_lt_trans; [|exact A]. pose proof (Qabs_nonneg a) as N. assert (X := Qmult_le_r' k 1 (Qabs a) N K1).
  rewrite Qmult_comm. lra.
Qed.
Lemma count_div : forall (s : F) n, (1 <= n <= 2 ^ 53)%Z -> b64_finite s = true -> Qabs (number s) < q2 1023 -> b64_finite (fdiv s (fofZ n) : F) = true.
Proof.
  intros s n N FS B. destruct (count_exact n ltac:(lia)) as [CF CE]. destruct (count_inv n ltac:(lia)) as [K0 K1]. apply div_range; [exact FS|exact CF| |].
  - rewrite CE. intros C. assert (NP : 0 < inject_Z n) by (rewrite <- (Zlt_Qlt 0); lia). rewrite C in NP. discriminate NP.
  - rewrite CE. unfold Qdiv. apply shrink; assumption.
Qed.
Lemma mean_finite : forall (l : list F) s n, FSum l s -> Forall double l -> Forall fin l -> modest (map number l) -> (1 <= n <= 2 ^ 53)%Z -> ffinite (fdiv s (fofZ n) : F) = true.
Proof. intros l s n H D A M N. destruct (sum_room l s H D A M) as [FS B]. apply count_div; assumption. Qed.
Lemma FSum_top : forall (l : list F) s, FSum l s -> Forall double l -> top s.
Proof.
  intros l s H. induction H as [z Z|x|l1 l2 x y H1 IH1 H2 IH2|l l' x P H IH]; intros D.
  - destruct (FSum_nil pw [] z (FSum_zero _ Z) eq_refl) as [b ->]. exact I.
  - inversion D; subst. apply double_top. assumption.
  - apply Forall_app in D. destruct D as [D1 D2]. apply add_top; auto.
  - apply IH. apply Forall_forall. intros t I. rewrite Forall_forall in D. apply D. eapply Permutation_in; eauto.
Qed.
Lemma scaled_finite : forall (l : list F) s n, FSum l s -> Forall double l -> Forall fin l -> modest (map number l) -> (1 <= n <= 2 ^ 53)%Z ->
  let inv : F := fdiv f1 (fofZ n) in
  ffinite (if (n =? 1)%Z then s else if feqb inv f1 then s else if feqb inv f0 then f0 else fmul s inv : F) = true.
Proof.
  intros l s n H D A M N inv. destruct (sum_room l s H D A M) as [FS B]. destruct (Z.eqb_spec n 1) as [E1|E1]; [exact FS|]. destruct (feqb inv f1); [exact FS|]. destruct (feqb inv f0); [reflexivity|].
  assert (FI : b64_finite inv = true). { apply count_div; [exact N|reflexivity|]. apply Qle_lt_trans with 1; [vm_compute; discriminate|]. rewrite big_double. pose proof big_ge. lra. }
  assert (IE := recip_err pw n N FI). cbv zeta in IE. fold inv in IE. destruct (count_inv n ltac:(lia)) as [K0 K1].
  assert (K2 : / inject_Z n <= 1 # 2).
  { assert (N2 : 2 <= inject_Z n) by (change 2 with (inject_Z 2); rewrite <- Zle_Qle; lia). assert (K3 : inject_Z n * / inject_Z n == 1) by (apply Qmult_inv_r; intros C; rewrite C in N2; apply N2; reflexivity).
    assert (X := Qmult_le_r' 2 (inject_Z n) (/ inject_Z n) ltac:(lra) N2). lra. }
  assert (U2 : u <= 1 # 4) by (vm_compute; discriminate). assert (T2 : tiny <= 1 # 4) by (vm_compute; discriminate). pose proof u_pos. set (k := / inject_Z n) in *. clearbody k.
  assert (UK : u * k <= (1 # 4) * k) by (apply Qmult_le_r'; lra). apply Qabs_Qle_condition in IE. destruct IE as [I1 I2].
  assert (IP : Qabs (number inv) <= 1) by (apply Qabs_Qle_condition; split; lra).
  apply mul_unit_range; [eapply FSum_top; eauto|exact FS|exact FI|exact IP|].
  rewrite Qabs_Qmult. eapply Qle_lt_trans; [|exact B]. pose proof (Qabs_nonneg (number s)) as NS. assert (X := Qmult_le_r' _ _ _ NS IP). rewrite Qmult_comm. lra.
Qed.
End Pow.
