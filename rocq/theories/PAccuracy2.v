(** From the sums of the kernel theorems to error bounds. *)
Require Import List ZArith Bool Lia QArith Qabs Qpower Lqa Permutation.
Require Import Coq.Floats.SpecFloat.
Require Import Verif.Res Verif.Values Verif.Spec Verif.SpecReduce Verif.SpecAccuracy Verif.FloatErr Verif.PAccuracy Verif.SpecPy Verif.MPy Verif.MObj Verif.SpecObj Verif.SpecCall Verif.SpecCall2.
Import ListNotations.
Local Open Scope Q_scope.

Section Pow.
Variable pw : spec_float -> spec_float -> spec_float.
Notation F := (f64 pw).
Notation nums := (nums pw).

Lemma double_good : forall l : list F, Forall double l -> Forall (PAccuracy.good pw) l.
Proof. intros l H. eapply Forall_impl; [|exact H]. intros x D. apply double_grain. exact D. Qed.
Lemma sum_accurate : forall (l : list F) v, FSum l v -> Forall double l -> ffinite v = true -> sum_within (map number l) (number v).
Proof.
  intros l v H D FI. destruct (FSum_err pw l v H (double_good l D) FI) as (_ & _ & C). unfold sum_within. rewrite map_length. exact C.
Qed.
Lemma mul_grain : forall x y : F, PAccuracy.good pw (fmul x y).
Proof. intros [s|s| |s m e] [t|t| |t n f]; try exact I. apply round_aux_err. Qed.
Lemma mul_close : forall x y : F, b64_finite (fmul x y) = true -> Qabs (number (fmul x y) - number x * number y) <= u * Qabs (number x * number y) + tiny.
Proof. intros x y FI. apply (mul_err x y FI). Qed.

(** Products with the elements of a vector. *)
Section Dot.
Variables (cell : nat -> nat -> list F) (n : nat) (x : list F) (i : nat).
Lemma dot_good : Forall (PAccuracy.good pw) (dot_terms cell n x i).
Proof. unfold dot_terms. apply Forall_flat_map. apply Forall_forall. intros j _. apply Forall_map. apply Forall_forall. intros v _. apply mul_grain. Qed.
Lemma F2_app : forall {A B} (R : A -> B -> Prop) l1 l2 m1 m2, Forall2 R l1 m1 -> Forall2 R l2 m2 -> Forall2 R (l1 ++ l2) (m1 ++ m2).
Proof. intros. apply Forall2_app; auto. Qed.
Lemma dot_close : Forall2 (fun (t : F) p => b64_finite t = true -> Qabs (number t - p) <= u * Qabs p + tiny) (dot_terms cell n x i) (products cell n x i).
Proof.
  unfold dot_terms, products. induction (seq 0 n) as [|j js IH]; [constructor|]. cbn [flat_map]. apply F2_app; [|exact IH].
  induction (cell i j) as [|v l IHl]; [constructor|]. cbn [map]. constructor; [|exact IHl]. apply mul_close.
Qed.
Lemma dot_accurate : forall v, FSum (dot_terms cell n x i) v -> ffinite v = true -> dot_within (products cell n x i) (number v).
Proof. intros v H FI. eapply dot_err; [exact H|apply dot_good|apply dot_close|exact FI]. Qed.
Lemma fma_accurate : forall v, v = fma_sum x (by_column (cell i) n) -> ffinite v = true -> dot_within (products cell n x i) (number v).
Proof.
  intros v -> FI. pose proof (fma_fold_err pw x (by_column (cell i) n) f0 0 0 0 I) as H. cbv zeta in H.
  assert (EP : map (fun e : Z * F => number (snd e) * number (nth (Z.to_nat (fst e)) x f0)) (by_column (cell i) n) = products cell n x i).
  { unfold by_column, products. clear. induction (seq 0 n) as [|j js IH]; [reflexivity|]. cbn [flat_map]. rewrite map_app. f_equal; [|exact IH].
    rewrite map_map. apply map_ext. intros v. cbn [fst snd]. rewrite Nat2Z.id. reflexivity. }
  assert (LP : length (by_column (cell i) n) = length (products cell n x i)) by (rewrite <- EP, map_length; reflexivity).
  rewrite EP, LP in H. cbn [plus] in H. unfold dot_within. fold (grow (length (products cell n x i))).
  assert (H' := H (fun _ => Qle_refl 0) (Qle_refl 0) FI). rewrite !Qplus_0_l in H'. exact H'.
Qed.

(** Leaving out terms that are zero. *)
Lemma zero_number : forall z : F, feqb z f0 = true -> number z = 0.
Proof. intros [s|s| |s m e] H; try reflexivity; try destruct s; discriminate H. Qed.
Lemma zero_finite : forall z : F, feqb z f0 = true -> b64_finite z = true.
Proof. intros [s|s| |s m e] H; try reflexivity; try destruct s; discriminate H. Qed.
Lemma dot_weaken : forall ps qs v, total ps == total qs -> magnitude ps == magnitude qs -> (length ps <= length qs)%nat -> dot_within ps v -> dot_within qs v.
Proof.
  intros ps qs v ET EM L H. unfold dot_within in *. rewrite ET, EM in H. eapply Qle_trans; [exact H|].
  fold (grow (length ps)). fold (grow (length qs)). pose proof (grow_mono _ _ L) as G. pose proof (grow_ge (length ps)) as G1. pose proof (magnitude_nonneg qs) as M.
  assert (TP : 0 < tiny) by apply q2_pos. assert (I0 : 0 <= inject_Z (Z.of_nat (length ps))) by (rewrite <- (Zle_Qle 0); lia).
  assert (I1 : inject_Z (Z.of_nat (length ps)) <= inject_Z (Z.of_nat (length qs))) by (rewrite <- Zle_Qle; lia).
  apply Qplus_le_compat; [apply Qmult_le_r'; lra|]. apply Qmult_le_r'; [lra|].
  apply Qle_trans with (inject_Z (Z.of_nat (length qs)) * grow (length ps)); [apply Qmult_le_r'; lra|].
  rewrite !(Qmult_comm (inject_Z (Z.of_nat (length qs)))). apply Qmult_le_r'; lra.
Qed.
Lemma dot_nz_accurate : forall v, FSum (dot_terms_nz cell n x i) v -> ffinite v = true -> dot_within (products cell n x i) (number v).
Proof.
  intros v H FI.
  set (ps := flat_map (fun j => if feqb (nth j x f0) f0 then [] else map (fun v => number v * number (nth j x f0)) (cell i j)) (seq 0 n)).
  assert (D : dot_within ps (number v)).
  { eapply dot_err; [exact H| | |exact FI].
    - unfold dot_terms_nz. apply Forall_flat_map. apply Forall_forall. intros j _. destruct (feqb (nth j x f0) f0); [constructor|]. apply Forall_map. apply Forall_forall. intros w _. apply mul_grain.
    - unfold dot_terms_nz, ps. clear. induction (seq 0 n) as [|j js IH]; [constructor|]. cbn [flat_map]. apply F2_app; [|exact IH]. destruct (feqb (nth j x f0) f0); [constructor|].
      induction (cell i j) as [|w l IHl]; [constructor|]. cbn [map]. constructor; [|exact IHl]. apply mul_close. }
  assert (G : forall js, let p1 := flat_map (fun j => if feqb (nth j x f0) f0 then [] else map (fun v => number v * number (nth j x f0)) (cell i j)) js in
                         let p2 := flat_map (fun j => map (fun v => number v * number (nth j x (S754_zero false))) (cell i j)) js in
    total p1 == total p2 /\ magnitude p1 == magnitude p2 /\ (length p1 <= length p2)%nat).
  { clear. induction js as [|j js IH]; [repeat split; reflexivity|]. cbv zeta in *. cbn [flat_map]. destruct IH as (A & B & C).
    rewrite !total_app, !magnitude_app, !app_length, A, B. destruct (feqb (nth j x f0) f0) eqn:E.
    - assert (NZ : number (nth j x (S754_zero false)) = 0) by (apply zero_number; exact E).
      assert (Z0 : total (map (fun v : spec_float => number v * number (nth j x (S754_zero false))) (cell i j)) == 0 /\ magnitude (map (fun v : spec_float => number v * number (nth j x (S754_zero false))) (cell i j)) == 0).
      { rewrite NZ. clear. unfold magnitude. induction (cell i j) as [|w l [I1 I2]]; [split; reflexivity|]. cbn [map total fold_right] in *. unfold total in I1, I2. rewrite I1, I2.
        assert (EW : number w * 0 == 0) by ring. rewrite EW. split; reflexivity. }
      destruct Z0 as [Z1 Z2]. rewrite Z1, Z2. change (total []) with 0. change (magnitude []) with 0. repeat split; try reflexivity. cbn [length]. lia.
    - repeat split; try reflexivity. apply Nat.add_le_mono_l. exact C. }
  destruct (G (seq 0 n)) as (A & B & C). eapply dot_weaken; eauto.
Qed.

(** Integers. *)
Definition int_cells : Prop := forall j, (j < n)%nat -> Forall integral (cell i j).
Lemma nth_integral : forall j, Forall integral x -> integral (nth j x (f0 : F)).
Proof.
  intros j H. destruct (nth_in_or_default j x (f0 : F)) as [I| ->]; [rewrite Forall_forall in H; auto|]. split; [reflexivity|]. exists 0%Z. reflexivity.
Qed.
Lemma dot_integers : forall v, FSum (dot_terms cell n x i) v -> int_cells -> Forall integral x -> magnitude (products cell n x i) <= inject_Z (2 ^ 53) ->
  integral v /\ number v == total (products cell n x i).
Proof.
  intros v H IC IX B.
  assert (T : Forall2 (fun (t : F) p => integral t /\ number t == p) (dot_terms cell n x i) (products cell n x i)).
  { assert (IN : forall p, In p (products cell n x i) -> Qabs p <= inject_Z (2 ^ 53)) by (intros p Ip; eapply Qle_trans; [apply magnitude_In; exact Ip|exact B]).
    clear B H. unfold dot_terms, products in *.
    assert (IC' : Forall (fun j => Forall integral (cell i j)) (seq 0 n)) by (apply Forall_forall; intros j Hj; apply IC; apply in_seq in Hj; lia). clear IC.
    induction IC' as [|j js HC IC' IH]; [constructor|]. cbn [flat_map] in *. apply F2_app; [|apply IH; intros p Ip; apply IN, in_app_iff; auto].
    assert (IN' : forall p, In p (map (fun v : spec_float => number v * number (nth j x (S754_zero false))) (cell i j)) -> Qabs p <= inject_Z (2 ^ 53)) by (intros p Ip; apply IN, in_app_iff; auto).
    clear IN IH. induction HC as [|w l Hw HC IH]; [constructor|]. cbn [map] in *. constructor; [|apply IH; intros p Ip; apply IN'; right; exact Ip].
    apply mul_integers; [exact Hw|apply nth_integral; exact IX|]. apply IN'. left. reflexivity. }
  assert (E : total (nums (dot_terms cell n x i)) == total (products cell n x i) /\ magnitude (nums (dot_terms cell n x i)) == magnitude (products cell n x i) /\ Forall integral (dot_terms cell n x i)).
  { clear - T. induction T as [|t p l ps [It Et] T (A & B & C)]; [repeat split; try reflexivity; constructor|]. unfold PAccuracy.nums, magnitude in *. cbn [map total fold_right] in *. unfold total in A, B. rewrite A, B, Et. repeat split; try reflexivity. constructor; auto. }
  destruct E as (E1 & E2 & E3). rewrite <- E1. apply FSum_integers; [exact H|exact E3|]. rewrite E2. exact B.
Qed.
Lemma fma_integers : forall v, v = fma_sum x (by_column (cell i) n) -> int_cells -> Forall integral x -> magnitude (products cell n x i) <= inject_Z (2 ^ 53) ->
  integral v /\ number v == total (products cell n x i).
Proof.
  intros v -> IC IX B. pose proof (fma_fold_integers pw x (by_column (cell i) n) f0 0 0) as H. cbv zeta in H.
  assert (EP : map (fun e : Z * F => number (snd e) * number (nth (Z.to_nat (fst e)) x f0)) (by_column (cell i) n) = products cell n x i).
  { unfold by_column, products. clear. induction (seq 0 n) as [|j js IH]; [reflexivity|]. cbn [flat_map]. rewrite map_app. f_equal; [|exact IH].
    rewrite map_map. apply map_ext. intros v. cbn [fst snd]. rewrite Nat2Z.id. reflexivity. }
  rewrite EP in H. destruct H as [A1 A2].
  - split; [reflexivity|]. exists 0%Z. reflexivity.
  - reflexivity.
  - apply Qle_refl.
  - exact IX.
  - unfold by_column. apply Forall_flat_map. apply Forall_forall. intros j Hj. apply Forall_map. cbn [snd]. apply IC. apply in_seq in Hj. lia.
  - rewrite Qplus_0_l. exact B.
  - split; [exact A1|]. etransitivity; [exact A2|]. apply Qplus_0_l.
Qed.
End Dot.
Lemma sum_integers : forall (l : list F) v, FSum l v -> Forall integral l -> magnitude (map number l) <= inject_Z (2 ^ 53) -> integral v /\ number v == total (map number l).
Proof. intros l v H I B. apply FSum_integers; assumption. Qed.
(** A sum of the non-zero ones of rounded products. *)
Lemma filtered_accurate : forall (l : list F) ps v, Forall (PAccuracy.good pw) l ->
  Forall2 (fun (t : F) p => b64_finite t = true -> Qabs (number t - p) <= u * Qabs p + tiny) l ps ->
  FSum (filter nonzero l) v -> ffinite v = true -> dot_within ps (number v).
Proof.
  intros l ps v G H S FI.
  assert (GF : Forall (PAccuracy.good pw) (filter nonzero l)) by (apply Forall_forall; intros t I; apply filter_In in I; rewrite Forall_forall in G; apply G, I).
  destruct (FSum_err pw _ _ S GF FI) as (A & _ & B).
  assert (AF : Forall (fun t : F => b64_finite t = true) l).
  { apply Forall_forall. intros t I. destruct (nonzero t) eqn:E; [|apply zero_finite; unfold nonzero in E; destruct (feqb t f0); [reflexivity|discriminate E]].
    rewrite Forall_forall in A. apply A. apply filter_In. auto. }
  assert (E : total (nums (filter nonzero l)) == total (nums l) /\ magnitude (nums (filter nonzero l)) == magnitude (nums l)).
  { clear. unfold PAccuracy.nums, magnitude. induction l as [|t l [I1 I2]]; [split; reflexivity|]. cbn [filter]. destruct (nonzero t) eqn:E; cbn [map total fold_right] in *; unfold total in I1, I2.
    - unfold total. rewrite I1, I2. split; reflexivity.
    - unfold total. rewrite I1, I2. assert (NZ : number t = 0) by (apply zero_number; unfold nonzero in E; destruct (feqb t f0); [reflexivity|discriminate E]). rewrite NZ. split; [symmetry; apply Qplus_0_l|]. symmetry. apply Qplus_0_l. }
  destruct E as [E1 E2]. rewrite E1, E2 in B.
  assert (LL : (length (filter nonzero l) <= length l)%nat) by (clear; induction l as [|t l IH]; cbn [filter length]; [lia|destruct (nonzero t); cbn [length]; lia]).
  assert (LE : (length (filter nonzero l) - 1 <= length l - 1)%nat) by (apply Nat.sub_le_mono_r; exact LL).
  apply (close_terms pw l ps (number v) AF H). eapply Qle_trans; [exact B|]. apply Qmult_le_r'; [apply magnitude_nonneg|]. pose proof (grow_mono _ _ LE). lra.
Qed.

Lemma line_accurate : forall (A : Nd F) axis x k v, FSum (filter nonzero (line_products A axis x k)) v -> ffinite v = true -> dot_within (line_exact A axis x k) (number v).
Proof.
  intros A axis x k v. apply filtered_accurate; unfold line_products, line_exact.
  - apply Forall_map, Forall_forall. intros e _. apply mul_grain.
  - assert (G : forall es : list (list Z * F), Forall2 (fun (t : F) p => b64_finite t = true -> Qabs (number t - p) <= u * Qabs p + tiny)
      (map (fun e => fmul (snd e) (nth (Z.to_nat (nth axis (fst e) 0%Z)) x f0)) es)
      (map (fun e : list Z * spec_float => number (snd e) * number (nth (Z.to_nat (nth axis (fst e) 0%Z)) x (S754_zero false))) es)).
    { induction es as [|e es IH]; [constructor|]. cbn [map]. constructor; [apply mul_close|exact IH]. }
    apply G.
Qed.
End Pow.
