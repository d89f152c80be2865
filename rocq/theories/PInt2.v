(** Proofs for C88, continued: products, minima, comparisons, differences and products with
    columns of doubles that stand for integers. *)
Require Import List ZArith Bool Arith Lia Permutation QArith Qabs Qpower.
Require Import Coq.Floats.SpecFloat.
Require Import Verif.Res Verif.Values Verif.Spec Verif.Laws Verif.SpecReduce Verif.SpecDiff Verif.MPy Verif.PropPy2 Verif.PropDiff Verif.SpecCall2.
Require Import Verif.SpecAccuracy Verif.FloatErr Verif.FloatOrd Verif.SpecInt Verif.PInt.
Require Verif.FloatValid.
Import ListNotations.
Local Open Scope Z_scope.

Section Pw.
Context {pw : spec_float -> spec_float -> spec_float}.
Notation F := (f64 pw).

(** Comparisons. *)
Lemma compare_inject : forall a b, (inject_Z a ?= inject_Z b)%Q = (a ?= b).
Proof. intros a b. unfold Qcompare. cbn [Qnum Qden inject_Z]. rewrite !Z.mul_1_r. reflexivity. Qed.
Lemma compare_ints : forall (x y : F) a b, is_int x a -> is_int y b -> SFcompare x y = Some (a ?= b).
Proof. intros x y a b [[DX FX] NX] [[DY FY] NY]. rewrite compare_numbers by assumption. rewrite NX, NY, compare_inject. reflexivity. Qed.
Lemma lt_ints : forall (x y : F) a b, is_int x a -> is_int y b -> fltb x y = (a <? b).
Proof. intros x y a b X Y. change (fltb x y) with (SFltb x y). unfold SFltb. rewrite (compare_ints x y a b X Y). reflexivity. Qed.
Lemma eq_ints : forall (x y : F) a b, is_int x a -> is_int y b -> feqb x y = (a =? b).
Proof. intros x y a b X Y. change (feqb x y) with (SFeqb x y). unfold SFeqb. rewrite (compare_ints x y a b X Y). rewrite Z.eqb_compare. reflexivity. Qed.
Lemma cmp_ints : forall c (x y : F) a b, is_int x a -> is_int y b -> PropPy2.holds c x y = zcmp c a b.
Proof.
  intros c x y a b X Y. destruct c; cbn [PropPy2.holds zcmp]; rewrite ?(eq_ints x y a b X Y), ?(eq_ints y x b a Y X), ?(lt_ints x y a b X Y), ?(lt_ints y x b a Y X); try reflexivity.
  - destruct (Z.ltb_spec a b), (Z.eqb_spec a b), (Z.leb_spec a b); try reflexivity; lia.
  - destruct (Z.ltb_spec b a), (Z.eqb_spec b a), (Z.leb_spec b a); try reflexivity; lia.
Qed.
Lemma nonzero_int : forall (x : F) a, is_int x a -> negb (feqb x f0) = nonzero a.
Proof. intros x a X. rewrite (eq_ints x f0 a 0 X int_zero). reflexivity. Qed.
Lemma decide_ints : forall {J} every (cell : J -> list F) (b : J -> Z) js, (forall j, In j js -> is_int (one_or f0 (cell j)) (b j)) ->
  (if every : bool then forallb (fun j => negb (feqb (one_or f0 (cell j)) f0)) js else existsb (fun j => negb (feqb (one_or f0 (cell j)) f0)) js) = decide every (map b js).
Proof.
  intros J every cell b js H. unfold decide. induction js as [|j js IH]; [destruct every; reflexivity|]. cbn [map forallb existsb]. rewrite (nonzero_int _ _ (H j (or_introl eq_refl))).
  specialize (IH (fun k Hk => H k (or_intror Hk))). destruct every; f_equal; exact IH.
Qed.

(** Minima and maxima. *)
Lemma best_in : forall least z l, In (best least (z :: l)) (z :: l).
Proof.
  intros least z l. cbn [best]. revert z. induction l as [|y l IH]; intros z; [left; reflexivity|]. cbn [fold_left]. set (w := (if least then Z.min else Z.max) z y). assert (W : w = z \/ w = y) by (unfold w; destruct least; lia).
  destruct (IH w) as [E|I]; [rewrite <- E; destruct W as [-> | ->]; [left|right; left]; reflexivity|right; right; exact I].
Qed.
Lemma best_bound : forall (least : bool) z l y, In y (z :: l) -> if least then best least (z :: l) <= y else y <= best least (z :: l).
Proof.
  intros least z l. cbn [best]. revert z. induction l as [|x l IH]; intros z y I; [destruct I as [<- |[]]; destruct least; cbn [fold_left]; lia|]. cbn [fold_left]. set (w := (if least then Z.min else Z.max) z x) in *.
  assert (Hw := IH w w (or_introl eq_refl)). destruct I as [<- |[<- |I]]; [| |apply IH; right; exact I]; subst w; destruct least; lia.
Qed.
Lemma best_unique : forall (least : bool) l v, In v l -> (forall y, In y l -> if least then v <= y else y <= v) -> v = best least l.
Proof.
  intros least [|z l] v I H; [destruct I|]. assert (A := best_in least z l). assert (B := best_bound least z l v I). apply H in A. destruct least; lia.
Qed.
Lemma F2_In : forall {A B} (P : A -> B -> Prop) l l' x, Forall2 P l l' -> In x l -> exists y, In y l' /\ P x y.
Proof. intros A B P l l' x H. induction H as [|a b l l' R H IH]; intros I; [destruct I|]. destruct I as [-> |I]; [exists b; split; [left; reflexivity|exact R]|]. destruct (IH I) as (y & I' & R'). exists y. split; [right; exact I'|exact R']. Qed.
Lemma F2_In' : forall {A B} (P : A -> B -> Prop) l l' y, Forall2 P l l' -> In y l' -> exists x, In x l /\ P x y.
Proof. intros A B P l l' x H. induction H as [|a b l l' R H IH]; intros I; [destruct I|]. destruct I as [-> |I]; [exists a; split; [left; reflexivity|exact R]|]. destruct (IH I) as (y & I' & R'). exists y. split; [right; exact I'|exact R']. Qed.
Lemma least_int : forall (d : list F) zs v, Forall2 is_int d zs -> least_or_0 d v -> is_int v (best true zs).
Proof.
  intros d zs v H [E N]. destruct d as [|x d]; [inversion H; subst; rewrite E by reflexivity; apply int_zero|]. destruct N as [I B]; [discriminate|]. destruct (F2_In _ _ _ _ H I) as (z & Iz & Z).
  rewrite <- (best_unique true zs z Iz); [exact Z|]. intros y Iy. destruct (F2_In' _ _ _ _ H Iy) as (w & Iw & W). rewrite Forall_forall in B. specialize (B w Iw). rewrite (lt_ints w v y z W Z) in B. apply Z.ltb_ge in B. exact B.
Qed.
Lemma greatest_int : forall (d : list F) zs v, Forall2 is_int d zs -> greatest_or_0 d v -> is_int v (best false zs).
Proof.
  intros d zs v H [E N]. destruct d as [|x d]; [inversion H; subst; rewrite E by reflexivity; apply int_zero|]. destruct N as [I B]; [discriminate|]. destruct (F2_In _ _ _ _ H I) as (z & Iz & Z).
  rewrite <- (best_unique false zs z Iz); [exact Z|]. intros y Iy. destruct (F2_In' _ _ _ _ H Iy) as (w & Iw & W). rewrite Forall_forall in B. specialize (B w Iw). rewrite (lt_ints v w z y Z W) in B. apply Z.ltb_ge in B. exact B.
Qed.
Lemma F2_line : forall {J} (cell : J -> list F) (b : J -> Z) js, (forall j, In j js -> is_int (one_or f0 (cell j)) (b j)) -> Forall2 is_int (map (fun j => one_or f0 (cell j)) js) (map b js).
Proof. intros J cell b js H. induction js as [|j js IH]; [constructor|]. cbn [map]. constructor; [apply H; left; reflexivity|]. apply IH. intros k Hk. apply H. right. exact Hk. Qed.

(** Products. *)
Definition grown (l : list Z) : list Z := map (fun z => Z.max 1 (Z.abs z)) l.
Lemma prodz_app : forall a b, prodz (a ++ b) = prodz a * prodz b.
Proof. induction a as [|x a IH]; intros b; [symmetry; apply Z.mul_1_l|]. change (x * prodz (a ++ b) = x * prodz a * prodz b). rewrite IH. ring. Qed.
Lemma prodz_perm : forall a b, Permutation a b -> prodz a = prodz b.
Proof.
  intros a b P. induction P as [|x a b P IH|x y a|a b c P IH P' IH']; [reflexivity| | |congruence].
  - change (x * prodz a = x * prodz b). congruence.
  - change (y * (x * prodz a) = x * (y * prodz a)). ring.
Qed.
Lemma grown_pos : forall l, 1 <= prodz (grown l).
Proof. induction l as [|x l IH]; [cbn; lia|]. change (1 <= Z.max 1 (Z.abs x) * prodz (grown l)). nia. Qed.
Lemma prod_grown : forall l, Z.abs (prodz l) <= prodz (grown l).
Proof. induction l as [|x l IH]; [cbn; lia|]. change (Z.abs (x * prodz l) <= Z.max 1 (Z.abs x) * prodz (grown l)). rewrite Z.abs_mul. pose proof (grown_pos l). nia. Qed.
Lemma mul_int : forall (x y : F) a b, is_int x a -> is_int y b -> Z.abs (a * b) <= 2 ^ 53 -> is_int (fmul x y) (a * b).
Proof.
  intros x y a b [[DX FX] NX] [[DY FY] NY] B. destruct (mul_exact x y a b FX FY NX NY B) as [R1 R2]. split; [split; [apply FloatValid.mul_double; assumption|exact R1]|exact R2].
Qed.
Lemma product_int : forall (l : list F) v, FProd l v -> forall zs, Forall2 is_int l zs -> prodz (grown zs) <= 2 ^ 53 -> is_int v (prodz zs).
Proof.
  intros l v H. induction H as [|x|l1 l2 x y H1 IH1 H2 IH2|l l' x P H IH]; intros zs A B.
  - inversion A; subst. split; [split; reflexivity|vm_compute; reflexivity].
  - inversion A as [|? z ? zs' R A']; subst. inversion A'; subst. unfold prodz. cbn [fold_right]. rewrite Z.mul_1_r. exact R.
  - apply Forall2_app_inv_l in A. destruct A as (z1 & z2 & A1 & A2 & ->). unfold grown in B. rewrite map_app, prodz_app in B. fold (grown z1) in B. fold (grown z2) in B. rewrite prodz_app. pose proof (grown_pos z1). pose proof (grown_pos z2).
    apply mul_int; [apply IH1; [exact A1|nia]|apply IH2; [exact A2|nia]|]. rewrite Z.abs_mul. pose proof (prod_grown z1). pose proof (prod_grown z2). nia.
  - apply Permutation_sym in P. destruct (Permutation_Forall2 P A) as (zs' & P' & A'). rewrite (prodz_perm _ _ P'). apply IH; [exact A'|]. unfold grown. rewrite <- (prodz_perm _ _ (Permutation_map _ P')). exact B.
Qed.
Lemma prodz_zero : forall l, In 0 l -> prodz l = 0.
Proof. induction l as [|x l IH]; intros I; [destruct I|]. change (x * prodz l = 0). destruct I as [-> |I]; [reflexivity|]. rewrite (IH I). ring. Qed.
Lemma prod_is_int : forall {J} (cell : J -> list F) (b : J -> Z) js v, prod_spec cell js v -> (forall j, In j js -> is_int (one_or f0 (cell j)) (b j)) -> small_prod (map b js) = true -> is_int v (prodz (map b js)).
Proof.
  intros J cell b js v [S1 S2] H B. apply Z.leb_le in B.
  assert (D : Forall (fun j => cell j <> []) js \/ Exists (fun j => cell j = []) js).
  { clear. induction js as [|j js IH]; [left; constructor|]. destruct (cell j) eqn:E; [right; left; exact E|]. destruct IH as [IH|IH]; [left; constructor; [rewrite E; discriminate|exact IH]|right; right; exact IH]. }
  destruct D as [D|D]; [apply (product_int _ _ (S1 D)); [apply F2_line; exact H|exact B]|]. rewrite (S2 D). apply Exists_exists in D. destruct D as (j & I & E). specialize (H j I). rewrite E in H. destruct H as [_ H].
  change (inject_Z 0 == inject_Z (b j))%Q in H. apply Zinj in H. rewrite prodz_zero; [apply int_zero|]. rewrite H. apply in_map. exact I.
Qed.

(** Differences. *)
Lemma neg_int : forall (x : F) a, is_int x a -> is_int (fneg x) (- a).
Proof.
  intros x a [[D A] B]. destruct x as [s|s| |s m e]; try discriminate A.
  - change (inject_Z 0 == inject_Z a)%Q in B. apply Zinj in B. subst a. split; [split; reflexivity|reflexivity].
  - split; [split; [exact D|reflexivity]|]. rewrite inject_Z_opp, <- B. change (number (fneg (S754_finite s m e : F))) with (inject_Z (if negb s then Zneg m else Zpos m) * (2 # 1) ^ e)%Q. cbn [number]. destruct s; cbn [negb].
    + change (Zneg m) with (- Zpos m). rewrite inject_Z_opp. ring.
    + change (Zneg m) with (- Zpos m). rewrite inject_Z_opp. ring.
Qed.
Lemma combined_int : forall (l r out : list F) a b, (length l <= 1)%nat -> (length r <= 1)%nat -> is_int (one_or f0 l) a -> is_int (one_or f0 r) b -> small_sum [a; b] = true -> combined (map fneg l ++ r) out ->
  (length out <= 1)%nat /\ is_int (one_or f0 out) (b - a).
Proof.
  intros l r out a b Ll Lr A B S [C1 C2].
  assert (A' : is_int (one_or f0 (map fneg l)) (- a)) by (destruct l as [|x [|? ?]]; [|apply neg_int; exact A|cbn in Ll; lia]; destruct A as [_ A]; change (inject_Z 0 == inject_Z a)%Q in A; apply Zinj in A; rewrite <- A; apply int_zero).
  assert (D : {map fneg l ++ r = []} + {map fneg l ++ r <> []}) by (destruct (map fneg l ++ r); [left; reflexivity|right; discriminate]).
  destruct D as [D|D].
  - rewrite (C1 D). split; [cbn; lia|]. apply app_eq_nil in D. destruct D as [D ->]. rewrite D in A'. destruct A' as [_ A']. destruct B as [_ B]. change (inject_Z 0 == inject_Z (- a))%Q in A'. change (inject_Z 0 == inject_Z b)%Q in B. apply Zinj in A'. apply Zinj in B.
    replace (b - a) with 0 by lia. apply int_zero.
  - destruct (C2 D) as (v & SV & ->).
    assert (I : is_int v (sumz (map (fun t : bool => if t then - a else b) [true; false]))).
    { apply (sum_is_int (fun t : bool => if t then map fneg l else r) (fun t : bool => if t then - a else b) [true; false] v).
      - cbn [flat_map]. rewrite app_nil_r. exact SV.
      - intros [|] _; [split; [rewrite map_length; exact Ll|exact A']|split; [exact Lr|exact B]].
      - cbn [map]. apply Z.leb_le in S. apply Z.leb_le. cbn [map sumz fold_right] in *. rewrite Z.abs_opp. exact S. }
    replace (sumz (map (fun t : bool => if t then - a else b) [true; false])) with (b - a) in I by (cbn; lia).
    destruct (feqb v f0) eqn:E; [|split; [cbn; lia|exact I]]. split; [cbn; lia|]. rewrite (eq_ints v f0 (b - a) 0 I int_zero) in E. apply Z.eqb_eq in E. rewrite E. apply int_zero.
Qed.
Lemma diff_int : forall t w (c c' : nat -> list F), diff_of t w c c' -> forall (f g : nat -> Z), (forall j, (j < w)%nat -> (length (c j) <= 1)%nat /\ is_int (one_or f0 (c j)) (f j)) -> differences t w f = Some g ->
  forall j, (j < w - t)%nat -> is_int (one_or f0 (c' j)) (g j).
Proof.
  intros t w c c' D. induction D as [w c c' E|t w c c1 c' C D IH]; intros f g H EG j Hj; cbn [differences] in EG.
  - injection EG as <-. rewrite E by lia. apply H. lia.
  - destruct (forallb _ _) eqn:B; [|discriminate EG]. rewrite forallb_forall in B. refine (IH _ _ _ EG j _); [|lia]. intros k Hk. destruct (H k ltac:(lia)) as [L1 V1]. destruct (H (S k) ltac:(lia)) as [L2 V2].
    apply (combined_int (c k) (c (S k)) (c1 k) (f k) (f (S k)) L1 L2 V1 V2); [apply B; apply in_seq; lia|apply C; lia].
Qed.
Lemma start_int : forall t (l : list F) a, (length l <= 1)%nat -> is_int (one_or f0 l) a -> (length (start t l) <= 1)%nat /\ is_int (one_or f0 (start t l)) a.
Proof.
  intros t l a L A. unfold start. destruct (t =? 0)%nat; [|auto]. destruct l as [|x [|? ?]]; [auto| |cbn in L; lia]. cbn [filter]. destruct (feqb x f0) eqn:E; cbn [negb]; [|auto]. split; [cbn; lia|].
  cbn [one_or] in A. rewrite (eq_ints x f0 a 0 A int_zero) in E. apply Z.eqb_eq in E. rewrite E. apply int_zero.
Qed.

(** A column times a vector, without the terms that are zero. *)
Lemma sumz_term : forall {J} (g : J -> Z) js j, In j js -> Z.abs (g j) <= sumz (map Z.abs (map g js)).
Proof.
  intros J g js. assert (P : forall l, 0 <= sumz (map Z.abs l)) by (induction l as [|x l IH]; [cbn; lia|]; change (0 <= Z.abs x + sumz (map Z.abs l)); lia).
  induction js as [|k js IH]; intros j I; [destruct I|]. change (Z.abs (g j) <= Z.abs (g k) + sumz (map Z.abs (map g js))). destruct I as [-> |I]; [pose proof (P (map g js)); lia|]. specialize (IH j I). lia.
Qed.
Lemma dot_nz_is_int : forall (cell : nat -> nat -> list F) n (x : list F) i (b : nat -> Z) (y : list Z) v, FSum (dot_terms_nz cell n x i) v ->
  (forall j, (j < n)%nat -> (length (cell i j) <= 1)%nat /\ is_int (one_or f0 (cell i j)) (b j)) -> Forall2 is_int x y -> length x = n ->
  small_sum (map (fun j => b j * nth j y 0) (seq 0 n)) = true -> is_int v (sumz (map (fun j => b j * nth j y 0) (seq 0 n))).
Proof.
  intros cell n x i b y v S H X LX B. apply (sum_is_int _ (fun j => b j * nth j y 0) _ _ S); [|exact B]. intros j Hj. assert (M := sumz_term (fun j => b j * nth j y 0) _ _ Hj). apply in_seq in Hj. destruct (H j ltac:(lia)) as [L A]. assert (LJ : (j < length x)%nat) by (rewrite LX; lia). assert (Y : is_int (nth j x (f0 : F)) (nth j y 0)) by exact (F2_nth is_int x y j (f0 : F) 0 X LJ).
  apply Z.leb_le in B. destruct (feqb (nth j x f0) f0) eqn:E.
  - split; [cbn; lia|]. assert (E' := eq_trans (eq_sym E) (eq_ints (nth j x (f0 : F)) f0 _ 0 Y int_zero)). symmetry in E'. apply Z.eqb_eq in E'. rewrite E', Z.mul_0_r. apply int_zero.
  - split; [rewrite map_length; exact L|]. destruct (cell i j) as [|w [|? ?]]; [|apply mul_int; [exact A|exact Y|unfold limit in B; cbn beta in M; lia]|cbn in L; lia].
    destruct A as [_ A]. change (inject_Z 0 == inject_Z (b j))%Q in A. apply Zinj in A. rewrite <- A. apply int_zero.
Qed.
End Pw.
