(** Proofs for C88: sums, products and elementwise maps of doubles that stand for integers. *)
Require Import List ZArith Bool Arith Lia Permutation QArith Qabs Qpower.
Require Import Coq.Floats.SpecFloat.
Require Import Verif.Res Verif.Values Verif.Spec Verif.Mem Verif.Laws Verif.SpecReduce Verif.SpecPy Verif.MPy Verif.MObj Verif.SpecObj Verif.SpecCall Verif.SpecCall2.
Require Import Verif.SpecAccuracy Verif.FloatErr Verif.FloatFloor Verif.PAccuracy2 Verif.PAccuracy3 Verif.PAccuracy5 Verif.PAccuracy6 Verif.SpecInt.
Require Verif.PAccuracy Verif.FloatValid Verif.PDense Verif.PDense2.
Import ListNotations.
Local Open Scope Z_scope.

Lemma F2_nth : forall {A B} (P : A -> B -> Prop) l l' i a b, Forall2 P l l' -> (i < length l)%nat -> P (nth i l a) (nth i l' b).
Proof. intros A B P l l' i a b H. revert i. induction H as [|x y l l' R H IH]; intros [|i] L; cbn [length nth] in *; try lia; [exact R|]. apply IH. lia. Qed.
Lemma F2_intro : forall {A B} (P : A -> B -> Prop) l l' a b, length l = length l' -> (forall i, (i < length l)%nat -> P (nth i l a) (nth i l' b)) -> Forall2 P l l'.
Proof.
  intros A B P l. induction l as [|x l IH]; intros [|y l'] a b L H; cbn [length] in *; try lia; constructor; [apply (H 0%nat); lia|]. apply (IH l' a b); [lia|]. intros i Hi. apply (H (S i)). lia.
Qed.
Lemma cells_table : forall {A} m n (f : nat -> nat -> A), cells m n f = SpecDense.table m n f.
Proof. reflexivity. Qed.
Lemma F2_cells : forall {A B} (P : A -> B -> Prop) (out : list A) m n (f : nat -> nat -> B) a, length out = (m * n)%nat -> (forall i j, (i < m)%nat -> (j < n)%nat -> P (nth (i * n + j) out a) (f i j)) -> Forall2 P out (cells m n f).
Proof.
  intros A B P out m n f a L H. assert (LC : length (cells m n f) = (m * n)%nat) by apply PDense2.table_length.
  destruct out as [|x out']. { destruct (cells m n f); [constructor|]. cbn [length] in *. lia. }
  set (out := x :: out') in *. assert (G : (0 < m * n)%nat) by (unfold out in L; cbn [length] in L; lia).
  assert (Hm : (0 < m)%nat) by (destruct m; [lia|lia]). assert (Hn : (0 < n)%nat) by (destruct n; [lia|lia]).
  apply (F2_intro P out (cells m n f) a (f 0%nat 0%nat)); [lia|]. intros k Hk. rewrite L in Hk. assert (E := Nat.div_mod k n ltac:(lia)). assert (M := Nat.mod_upper_bound k n ltac:(lia)).
  assert (K : (k / n < m)%nat) by (apply Nat.div_lt_upper_bound; lia). rewrite E, (Nat.mul_comm n).
  rewrite (cells_table m n f), PDense2.table_nth by assumption. apply H; assumption.
Qed.

(** Sums of the integers behind the numbers. *)
Definition ints (l : list Q) (zs : list Z) : Prop := (total l == inject_Z (sumz zs))%Q /\ (magnitude l == inject_Z (sumz (map Z.abs zs)))%Q.
Lemma ints_nil : ints [] []. Proof. split; reflexivity. Qed.
Lemma abs_inject : forall z, (Qabs (inject_Z z) == inject_Z (Z.abs z))%Q. Proof. intros z. destruct z; reflexivity. Qed.
Lemma ints_cons : forall q z l zs, (q == inject_Z z)%Q -> ints l zs -> ints (q :: l) (z :: zs).
Proof.
  intros q z l zs E [A B]. unfold ints, magnitude in *. cbn [map total fold_right sumz] in *. unfold total, sumz in *. rewrite A, B, E, abs_inject, !inject_Z_plus. split; reflexivity.
Qed.
Lemma ints_app : forall l zs l' zs', ints l zs -> ints l' zs' -> ints (l ++ l') (zs ++ zs').
Proof.
  intros l zs l' zs' [A B] [A' B']. assert (SA : forall a b, sumz (a ++ b) = sumz a + sumz b) by (induction a as [|x a IH]; intros b; [reflexivity|]; change (x + sumz (a ++ b) = x + sumz a + sumz b); rewrite IH; lia).
  split.
  - rewrite PAccuracy.total_app, SA, inject_Z_plus, A, A'. reflexivity.
  - rewrite PAccuracy.magnitude_app, map_app, SA, inject_Z_plus, B, B'. reflexivity.
Qed.
Lemma ints_zero : ints [] [0]. Proof. split; reflexivity. Qed.

Section Pw.
Context {pw : spec_float -> spec_float -> spec_float}.
Notation F := (f64 pw).

Lemma is_int_integral : forall v z, is_int v z -> integral v.
Proof. intros v z [[_ A] B]. split; [exact A|]. exists z. exact B. Qed.
Lemma int_zero : is_int (S754_zero false) 0. Proof. split; [split; reflexivity|reflexivity]. Qed.
Lemma int_ofZ : forall z, small z = true -> is_int (b64_ofZ z) z.
Proof. intros z S. apply Z.leb_le in S. destruct (count_exact z S) as [A B]. split; [split; [apply FloatValid.ofZ_double|exact A]|exact B]. Qed.
Lemma FSum_double : forall (l : list F) v, FSum l v -> Forall double l -> double v.
Proof.
  intros l v H. induction H as [z Z|x|l1 l2 x y H1 IH1 H2 IH2|l l' x P H IH]; intros D.
  - destruct z as [s|s| |s m e]; try (destruct s; discriminate Z); try discriminate Z. reflexivity.
  - inversion D; assumption.
  - apply Forall_app in D. destruct D as [D1 D2]. apply FloatValid.add_double; auto.
  - apply IH. eapply Permutation_Forall; [apply Permutation_sym; exact P|exact D].
Qed.

(** A line of cells, each storing at most one value. *)
Lemma line_ints : forall {J} (cell : J -> list F) (b : J -> Z) js, (forall j, In j js -> (length (cell j) <= 1)%nat /\ is_int (one_or f0 (cell j)) (b j)) ->
  Forall (fun v : F => double v /\ integral v) (flat_map cell js) /\ ints (map number (flat_map cell js)) (map b js).
Proof.
  intros J cell b js. induction js as [|j js IH]; intros H; [split; [constructor|apply ints_nil]|]. destruct IH as [IH1 IH2]; [intros k Hk; apply H; right; exact Hk|].
  destruct (H j (or_introl eq_refl)) as [L I]. cbn [flat_map map]. rewrite map_app. split; [apply Forall_app; split; [|exact IH1]|change (b j :: map b js) with ([b j] ++ map b js); apply ints_app; [|exact IH2]].
  - destruct (cell j) as [|v [|? ?]]; [constructor| |cbn in L; lia]. constructor; [|constructor]. split; [apply I|eapply is_int_integral; exact I].
  - destruct (cell j) as [|v [|? ?]]; [| |cbn in L; lia].
    + destruct I as [_ I]. change (inject_Z 0 == inject_Z (b j))%Q in I. apply Zinj in I. rewrite <- I. apply ints_zero.
    + cbn [map]. apply ints_cons; [apply I|apply ints_nil].
Qed.
Lemma sum_is_int : forall {J} (cell : J -> list F) (b : J -> Z) js v, FSum (flat_map cell js) v -> (forall j, In j js -> (length (cell j) <= 1)%nat /\ is_int (one_or f0 (cell j)) (b j)) ->
  small_sum (map b js) = true -> is_int v (sumz (map b js)).
Proof.
  intros J cell b js v S H B. destruct (line_ints cell b js H) as [A [T M]]. apply Z.leb_le in B.
  assert (I1 : Forall integral (flat_map cell js)) by (clear - A; induction A as [|x l [_ X] A IH]; constructor; auto).
  assert (D1 : Forall double (flat_map cell js)) by (clear - A; induction A as [|x l [X _] A IH]; constructor; auto).
  destruct (sum_integers pw _ v S I1) as [[V1 V2] V3]; [rewrite M, <- Zle_Qle; exact B|]. split; [split; [apply (FSum_double _ _ S D1)|exact V1]|]. rewrite V3. exact T.
Qed.

(** A row times a vector. *)
Lemma products_ints : forall (cell : nat -> nat -> list F) n (x : list F) i (b : nat -> Z) (y : list Z),
  (forall j, (j < n)%nat -> (length (cell i j) <= 1)%nat /\ is_int (one_or f0 (cell i j)) (b j)) -> (forall j, (j < n)%nat -> is_int (nth j x f0) (nth j y 0)) ->
  ints (products cell n x i) (map (fun j => b j * nth j y 0) (seq 0 n)).
Proof.
  intros cell n x i b y H Y. unfold products. assert (K : forall j, In j (seq 0 n) -> (j < n)%nat) by (intros j Hj; apply in_seq in Hj; lia). revert K. generalize (seq 0 n). intros js K.
  induction js as [|j js IH]; [apply ints_nil|]. assert (Hj := K j (or_introl eq_refl)). specialize (IH (fun k Hk => K k (or_intror Hk))). destruct (H j Hj) as [L I]. specialize (Y j Hj). cbn [flat_map map].
  change (b j * nth j y 0 :: map (fun j => b j * nth j y 0) js) with ([b j * nth j y 0] ++ map (fun j => b j * nth j y 0) js). apply ints_app; [|exact IH].
  destruct (cell i j) as [|v [|? ?]]; [| |cbn in L; lia].
  - destruct I as [_ I]. change (inject_Z 0 == inject_Z (b j))%Q in I. apply Zinj in I. rewrite <- I, Z.mul_0_l. apply ints_zero.
  - cbn [map]. apply ints_cons; [|apply ints_nil]. destruct I as [_ I]. destruct Y as [_ Y]. cbn [one_or] in I. change (nth j x (S754_zero false)) with (nth j x (f0 : F)). rewrite I, Y, inject_Z_mult. reflexivity.
Qed.
Lemma dot_is_int : forall (cell : nat -> nat -> list F) n (x : list F) i (b : nat -> Z) (y : list Z) v,
  FSum (dot_terms cell n x i) v \/ v = fma_sum x (by_column (cell i) n) ->
  (forall j, (j < n)%nat -> (length (cell i j) <= 1)%nat /\ is_int (one_or f0 (cell i j)) (b j)) -> Forall2 is_int x y -> length x = n ->
  small_sum (map (fun j => b j * nth j y 0) (seq 0 n)) = true -> is_int v (sumz (map (fun j => b j * nth j y 0) (seq 0 n))).
Proof.
  intros cell n x i b y v S H X LX B. apply Z.leb_le in B.
  assert (Y : forall j, (j < n)%nat -> is_int (nth j x f0) (nth j y 0)) by (intros j Hj; apply F2_nth; [exact X|lia]).
  destruct (products_ints cell n x i b y H Y) as [T M].
  assert (IX : Forall integral x) by (clear - X; induction X as [|p q l l' R X IH]; constructor; [eapply is_int_integral; exact R|exact IH]).
  assert (DX : Forall double x) by (clear - X; induction X as [|p q l l' R X IH]; constructor; [apply R|exact IH]).
  assert (IC : int_cells pw cell n i).
  { intros j Hj. destruct (H j Hj) as [L I]. destruct (cell i j) as [|w [|? ?]]; [constructor| |cbn in L; lia]. constructor; [eapply is_int_integral; exact I|constructor]. }
  assert (DC : forall j, (j < n)%nat -> Forall double (cell i j)).
  { intros j Hj. destruct (H j Hj) as [L I]. destruct (cell i j) as [|w [|? ?]]; [constructor| |cbn in L; lia]. constructor; [apply I|constructor]. }
  assert (DN : forall j, double (nth j x (f0 : F))) by (intros j; destruct (nth_in_or_default j x (f0 : F)) as [I| ->]; [rewrite Forall_forall in DX; auto|reflexivity]).
  assert (MB : (magnitude (products cell n x i) <= inject_Z (2 ^ 53))%Q) by (rewrite M, <- Zle_Qle; exact B).
  assert (R : integral v /\ (number v == total (products cell n x i))%Q) by (destruct S as [S|S]; [apply dot_integers|apply fma_integers]; assumption).
  destruct R as [[R1 _] R2]. split; [split; [|exact R1]|rewrite R2; exact T]. destruct S as [S| ->].
  - apply (FSum_double _ _ S). unfold dot_terms. apply Forall_flat_map, Forall_forall. intros j Hj. apply in_seq in Hj. apply Forall_map. specialize (DC j ltac:(lia)). apply Forall_forall. intros w Iw. rewrite Forall_forall in DC. apply FloatValid.mul_double; auto.
  - unfold fma_sum. assert (DB : Forall (fun e : Z * F => double (snd e)) (by_column (cell i) n)).
    { unfold by_column. apply Forall_flat_map, Forall_forall. intros j Hj. apply in_seq in Hj. apply Forall_map. cbn [snd]. apply DC. lia. }
    assert (G : forall (l : list (Z * F)) (acc : F), Forall (fun e : Z * F => double (snd e)) l -> double acc -> double (fold_left (fun (acc : F) (e : Z * F) => ffma (snd e) (nth (Z.to_nat (fst e)) x f0) acc) l acc)).
    { clear - DN. induction l as [|e l IH]; intros acc DB DA; [exact DA|]. inversion DB; subst. cbn [fold_left]. apply IH; [assumption|]. apply FloatValid.fma_double; auto. }
    apply G; [exact DB|reflexivity].
Qed.

(** Stored values of arrays with mapped data. *)
Lemma cs_at_map : forall {V W} (f : V -> W) a b p i d r j, cs_at (mkCs a b p i (map f d)) r j = map f (cs_at (mkCs a b p i d) r j).
Proof.
  intros V W f a b p i d r j. unfold cs_at, at_index, cs_row, slice. cbn [ptr idx dat].
  assert (E : combine i (map f d) = map (fun e => (fst e, f (snd e))) (combine i d)) by (clear; revert d; induction i as [|x i IH]; intros [|y d]; cbn; auto; f_equal; apply IH).
  rewrite E, skipn_map, firstn_map. generalize (firstn (Z.to_nat (nth (S r) p 0) - Z.to_nat (nth r p 0)) (skipn (Z.to_nat (nth r p 0)) (combine i d))). clear. intros l.
  induction l as [|e l IH]; [reflexivity|]. cbn [map filter fst snd]. destruct (_ =? _); cbn [map]; rewrite ?IH; reflexivity.
Qed.
Lemma coo_at_map : forall {V W} (f : V -> W) m n r c d i j, coo_at (mkCoo m n r c (map f d)) i j = map f (coo_at (mkCoo m n r c d) i j).
Proof.
  intros V W f m n r c d i j. unfold coo_at, at_cell, coo_entries. cbn [coo_row coo_col coo_data]. generalize (combine r c). clear. intros l. revert d. induction l as [|e l IH]; intros [|y d]; cbn [combine map filter fst snd]; auto.
  destruct (_ && _); cbn [map]; rewrite ?IH; reflexivity.
Qed.
Lemma canonical_map : forall {V W} (f : V -> W) a b p i d, canonical (mkCs a b p i d) -> canonical (mkCs a b p i (map f d)).
Proof. intros V W f a b p i d [[P1 P2 P3 P4 P5 P6] S]. split; [split|]; cbn [ptr idx dat major minor] in *; rewrite ?map_length; assumption. Qed.
Lemma coo_map_ok : forall {V W} (f : V -> W) m n r c d, coo_ok (mkCoo m n r c d) -> coo_ok (mkCoo m n r c (map f d)).
Proof. intros V W f m n r c d [P1 P2 P3 P4]. split; cbn [coo_row coo_col coo_data coo_nrows coo_ncols] in *; rewrite ?map_length; assumption. Qed.
Lemma one_or_map : forall (l : list Z), Forall (fun z => small z = true) l -> is_int (one_or (f0 : F) (map fofZ l)) (one_or 0 l).
Proof. intros l H. destruct H as [|z l Hz H]; [apply int_zero|]. apply int_ofZ. exact Hz. Qed.
Lemma at_sub : forall {V} (a b : nat) p i (d : list V) r j v, In v (cs_at (mkCs a b p i d) r j) -> In v d.
Proof.
  intros V a b p i d r j v H. unfold cs_at, at_index, cs_row, slice in H. apply in_map_iff in H. destruct H as ([k w] & E & H). cbn in E. subst w. apply filter_In in H. destruct H as [H _].
  assert (H1 : In (k, v) (combine i d)).
  { cbn [ptr idx dat] in H. assert (H2 : forall {T} n (l : list T) x, In x (firstn n l) -> In x l) by (intros T n; induction n; intros [|y l] x Hx; cbn in *; try contradiction; destruct Hx; auto).
    assert (H3 : forall {T} n (l : list T) x, In x (skipn n l) -> In x l) by (intros T n; induction n; intros [|y l] x Hx; cbn in *; auto). eapply H3, H2. exact H. }
  apply in_combine_r in H1. exact H1.
Qed.
Lemma coo_sub : forall {V} m n r c (d : list V) i j v, In v (coo_at (mkCoo m n r c d) i j) -> In v d.
Proof. intros V m n r c d i j v H. unfold coo_at, at_cell, coo_entries in H. apply in_map_iff in H. destruct H as ([k w] & E & H). cbn in E. subst w. apply filter_In in H. destruct H as [H _]. apply in_combine_r in H. exact H. Qed.
End Pw.
