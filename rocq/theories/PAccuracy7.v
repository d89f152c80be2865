(** Sums of products of integers with the zero terms left out, means of integers, and products
    with the cells of a dense matrix. *)
Require Import List ZArith Bool Lia QArith Qabs Qpower Lqa Qfield.
Require Import Coq.Floats.SpecFloat.
Require Import Verif.Res Verif.Values Verif.Spec Verif.SpecReduce Verif.SpecAccuracy Verif.FloatErr Verif.FloatDiv Verif.PAccuracy Verif.SpecPy Verif.MPy Verif.MObj Verif.SpecObj Verif.SpecCall Verif.SpecCall2 Verif.PAccuracy2 Verif.PAccuracy3 Verif.FloatRange.
Import ListNotations.
Local Open Scope Q_scope.

Section Pow.
Variable pw : spec_float -> spec_float -> spec_float.
Notation F := (f64 pw).
Notation nums := (nums pw).

(** [t] is the integer [p]. *)
Definition term (t : F) (p : Q) : Prop := integral t /\ number t == p.
Lemma terms_total : forall (l : list F) ps, Forall2 term l ps -> total (nums l) == total ps /\ magnitude (nums l) == magnitude ps /\ Forall integral l.
Proof.
  intros l ps T. induction T as [|t p l ps [It Et] T (A & B & C)]; [repeat split; try reflexivity; constructor|]. unfold PAccuracy.nums, magnitude in *. cbn [map total fold_right] in *. unfold total in A, B. rewrite A, B, Et. repeat split; try reflexivity. constructor; auto.
Qed.
Lemma terms_sum : forall (l : list F) ps v, Forall2 term l ps -> FSum l v -> magnitude ps <= inject_Z (2 ^ 53) -> integral v /\ number v == total ps.
Proof. intros l ps v T S B. destruct (terms_total l ps T) as (E1 & E2 & E3). rewrite <- E1. apply FSum_integers; [exact S|exact E3|]. rewrite E2. exact B. Qed.
(** Leaving out zeros changes neither sum. *)
Lemma terms_filter : forall (l : list F) ps, Forall2 term l ps -> exists qs, Forall2 term (filter nonzero l) qs /\ total qs == total ps /\ magnitude qs == magnitude ps.
Proof.
  intros l ps T. induction T as [|t p l ps [It Et] T (qs & A & B & C)]; [exists []; repeat split; constructor|]. cbn [filter]. destruct (nonzero t) eqn:E.
  - exists (p :: qs). split; [constructor; [split; assumption|exact A]|]. unfold magnitude in *. cbn [map total fold_right]. unfold total in B, C. rewrite B, C. split; reflexivity.
  - exists qs. split; [exact A|]. assert (Z0 : p == 0) by (rewrite <- Et, (zero_number pw t); [reflexivity|]; unfold nonzero in E; destruct (feqb t f0); [reflexivity|discriminate E]).
    unfold magnitude in *. cbn [map total fold_right]. unfold total in B, C. rewrite B, C, Z0. change (Qabs 0) with 0. split; symmetry; apply Qplus_0_l.
Qed.
Lemma filtered_integers : forall (l : list F) ps v, Forall2 term l ps -> FSum (filter nonzero l) v -> magnitude ps <= inject_Z (2 ^ 53) -> integral v /\ number v == total ps.
Proof. intros l ps v T S B. destruct (terms_filter l ps T) as (qs & A & E1 & E2). rewrite <- E1. apply (terms_sum _ qs v A S). rewrite E2. exact B. Qed.
Lemma product_terms : forall {E} (es : list E) (f g : E -> F), (forall e, In e es -> integral (f e)) -> (forall e, In e es -> integral (g e)) ->
  magnitude (map (fun e => number (f e) * number (g e)) es) <= inject_Z (2 ^ 53) ->
  Forall2 term (map (fun e => fmul (f e) (g e)) es) (map (fun e => number (f e) * number (g e)) es).
Proof.
  intros E es f g HF HG B.
  assert (IN : forall e, In e es -> Qabs (number (f e) * number (g e)) <= inject_Z (2 ^ 53)).
  { intros e Ie. eapply Qle_trans; [apply magnitude_In; apply (in_map (fun e => number (f e) * number (g e))); exact Ie|exact B]. }
  clear B. induction es as [|e es IH]; [constructor|]. cbn [map]. constructor; [|apply IH; intros; [apply HF|apply HG|apply IN]; right; assumption].
  apply mul_integers; [apply HF|apply HG|apply IN]; left; reflexivity.
Qed.
(** The terms of [vecdot] along the rows of a CSR or COO matrix. *)
Lemma dot_nz_integers : forall cell n (x : list F) i v, FSum (dot_terms_nz cell n x i) v -> int_cells pw cell n i -> Forall integral x -> magnitude (products cell n x i) <= inject_Z (2 ^ 53) ->
  integral v /\ number v == total (products cell n x i).
Proof.
  intros cell n x i v S IC IX B.
  assert (IN : forall p, In p (products cell n x i) -> Qabs p <= inject_Z (2 ^ 53)) by (intros p Ip; eapply Qle_trans; [apply magnitude_In; exact Ip|exact B]).
  assert (T : exists qs, Forall2 term (dot_terms_nz cell n x i) qs /\ total qs == total (products cell n x i) /\ magnitude qs == magnitude (products cell n x i)).
  { clear B S. unfold dot_terms_nz, products in *.
    assert (IC' : Forall (fun j => Forall integral (cell i j)) (seq 0 n)) by (apply Forall_forall; intros j Hj; apply IC; apply in_seq in Hj; lia). clear IC.
    induction IC' as [|j js HC IC' IH]; [exists []; repeat split; constructor|]. cbn [flat_map] in *. destruct IH as (qs & A & E1 & E2); [intros p Ip; apply IN, in_app_iff; auto|].
    assert (IN' : forall p, In p (map (fun v : spec_float => number v * number (nth j x (S754_zero false))) (cell i j)) -> Qabs p <= inject_Z (2 ^ 53)) by (intros p Ip; apply IN, in_app_iff; auto). clear IN.
    destruct (feqb (nth j x f0) f0) eqn:E.
    - exists qs. split; [exact A|]. assert (NZ : number (nth j x (S754_zero false)) = 0) by (apply (zero_number pw); exact E).
      assert (Z0 : total (map (fun v : spec_float => number v * number (nth j x (S754_zero false))) (cell i j)) == 0 /\ magnitude (map (fun v : spec_float => number v * number (nth j x (S754_zero false))) (cell i j)) == 0).
      { rewrite NZ. clear. unfold magnitude. induction (cell i j) as [|w l [I1 I2]]; [split; reflexivity|]. cbn [map total fold_right] in *. unfold total in I1, I2. rewrite I1, I2.
        assert (EW : number w * 0 == 0) by ring. rewrite EW. split; reflexivity. }
      destruct Z0 as [Z1 Z2]. rewrite total_app, magnitude_app, Z1, Z2, E1, E2. split; symmetry; apply Qplus_0_l.
    - exists (map (fun v : spec_float => number v * number (nth j x (S754_zero false))) (cell i j) ++ qs). split; [|rewrite !total_app, !magnitude_app, E1, E2; split; reflexivity].
      apply Forall2_app; [|exact A]. clear A E1 E2. induction HC as [|w l Hw HC IH]; [constructor|]. cbn [map] in *. constructor; [|apply IH; intros p Ip; apply IN'; right; exact Ip].
      apply mul_integers; [exact Hw|apply nth_integral; exact IX|]. apply IN'. left. reflexivity. }
  destruct T as (qs & A & E1 & E2). rewrite <- E1. apply (terms_sum _ qs v A S). rewrite E2. exact B.
Qed.
Lemma line_integers : forall (A : Nd F) axis x k v, FSum (filter nonzero (line_products A axis x k)) v -> Forall integral (nd_dat A) -> Forall integral x ->
  magnitude (line_exact A axis x k) <= inject_Z (2 ^ 53) -> integral v /\ number v == total (line_exact A axis x k).
Proof.
  intros A axis x k v S IA IX B. apply (filtered_integers (line_products A axis x k)); [|exact S|exact B]. unfold line_products, line_exact in *.
  apply (product_terms _ (fun e : list Z * F => snd e) (fun e => nth (Z.to_nat (nth axis (fst e) 0%Z)) x f0)); [|intros e _; apply nth_integral; exact IX|exact B].
  intros [q w] Ie. cbn [snd]. rewrite Forall_forall in IA. apply IA. unfold fiber_entries in Ie. apply filter_In in Ie. destruct Ie as [Ie _]. eapply in_combine_r. exact Ie.
Qed.

(** The exact products of a line of an N-dimensional array with column [c] of a dense matrix. *)
Definition matrix_exact (A : Nd spec_float) (axis : nat) (b : list spec_float) (k : nat) (key : list Z) (c : nat) : list Q :=
  map (fun e => number (snd e) * number (nth (Z.to_nat (nth axis (fst e) 0%Z * Z.of_nat k + Z.of_nat c)) b (S754_zero false)))
      (fiber_entries A (other_axes (length (nd_shape A)) [axis]) key).
Lemma matrix_accurate : forall (A : Nd F) axis b k key c v, FSum (filter nonzero (matrix_products A axis b k key c)) v -> ffinite v = true -> dot_within (matrix_exact A axis b k key c) (number v).
Proof.
  intros A axis b k key c v. apply filtered_accurate; unfold matrix_products, matrix_exact.
  - apply Forall_map, Forall_forall. intros e _. apply mul_grain.
  - assert (G : forall es : list (list Z * F), Forall2 (fun (t : F) p => b64_finite t = true -> Qabs (number t - p) <= u * Qabs p + tiny)
      (map (fun e => fmul (snd e) (matrix_at b k (nth axis (fst e) 0%Z) c)) es)
      (map (fun e : list Z * spec_float => number (snd e) * number (nth (Z.to_nat (nth axis (fst e) 0%Z * Z.of_nat k + Z.of_nat c)) b (S754_zero false))) es)).
    { induction es as [|e es IH]; [constructor|]. cbn [map]. constructor; [apply mul_close|exact IH]. }
    apply G.
Qed.
Lemma matrix_integers : forall (A : Nd F) axis b k key c v, FSum (filter nonzero (matrix_products A axis b k key c)) v -> Forall integral (nd_dat A) -> Forall integral b ->
  magnitude (matrix_exact A axis b k key c) <= inject_Z (2 ^ 53) -> integral v /\ number v == total (matrix_exact A axis b k key c).
Proof.
  intros A axis b k key c v S IA IX B. apply (filtered_integers (matrix_products A axis b k key c)); [|exact S|exact B]. unfold matrix_products, matrix_exact in *.
  apply (product_terms _ (fun e : list Z * F => snd e) (fun e => matrix_at b k (nth axis (fst e) 0%Z) c)); [|intros e _; apply nth_integral; exact IX|exact B].
  intros [q w] Ie. cbn [snd]. rewrite Forall_forall in IA. apply IA. unfold fiber_entries in Ie. apply filter_In in Ie. destruct Ie as [Ie _]. eapply in_combine_r. exact Ie.
Qed.

(** The mean of integers with a modest sum: one rounding. *)
Lemma mean_integers : forall (l : list F) s n, FSum l s -> Forall integral l -> magnitude (map number l) <= inject_Z (2 ^ 53) -> (1 <= n <= 2 ^ 53)%Z ->
  ffinite (fdiv s (fofZ n) : F) = true /\ rounded (total (map number l) / inject_Z n) (number (fdiv s (fofZ n) : F)).
Proof.
  intros l s n S I B N. destruct (sum_integers pw l s S I B) as [[SF _] E]. destruct (count_exact n ltac:(lia)) as [CF CE].
  assert (NP : 1 <= inject_Z n) by (rewrite <- (Zle_Qle 1); lia).
  assert (FI : ffinite (fdiv s (fofZ n) : F) = true).
  { apply (div_range s (b64_ofZ n) SF CF); [rewrite CE; intros C; rewrite C in NP; vm_compute in NP; apply NP; reflexivity|].
    rewrite CE, E. assert (TM := total_magnitude (map number l)). set (t := total (map number l)) in *. clearbody t. unfold Qdiv. rewrite Qabs_Qmult.
    assert (KP : 0 < / inject_Z n) by (apply Qinv_lt_0_compat; lra). rewrite (Qabs_pos (/ inject_Z n)) by lra.
    assert (K1 : / inject_Z n <= 1). { assert (H : inject_Z n * / inject_Z n == 1) by (apply Qmult_inv_r; lra). set (k := / inject_Z n) in *. clearbody k. pose proof (Qmult_le_r' 1 (inject_Z n) k ltac:(lra) NP). lra. }
    apply Qle_lt_trans with (Qabs t).
    - rewrite Qmult_comm. set (k := / inject_Z n) in *. clearbody k. pose proof (Qmult_le_r' k 1 (Qabs t) (Qabs_nonneg t) K1). lra.
    - apply Qle_lt_trans with (inject_Z (2 ^ 53)); [lra|vm_compute; reflexivity]. }
  split; [exact FI|]. destruct (div_err s (b64_ofZ n) CF FI) as (_ & _ & _ & D). unfold rounded. rewrite CE, E in D. exact D.
Qed.
End Pow.
