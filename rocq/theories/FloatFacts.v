(** A few facts about IEEE binary64 arithmetic beyond [NLaws]. *)
Require Import ZArith Bool Lia.
Require Import Coq.Floats.SpecFloat QArith Qcanon.
Require Import Verif.Values Verif.Spec Verif.Laws.
Local Open Scope Z_scope.

(** A datum of the 64-bit format: mantissa and exponent in range and normalised
    (every Rust [f64] is one). *)
Definition valid64 (x : spec_float) : Prop := valid_binary prec emax x = true.

Lemma b64_one_eq : b64_one = S754_finite false 4503599627370496 (-52).
Proof. reflexivity. Qed.

Lemma round_exact : forall s m e, bounded prec emax m e = true ->
  binary_round_aux prec emax s (Zpos m) e loc_Exact = S754_finite s m e.
Proof.
  intros s m e H. apply andb_true_iff in H. destruct H as [C B].
  unfold canonical_mantissa in C. apply Zeq_bool_eq in C.
  assert (S' : shr_fexp prec emax (Zpos m) e loc_Exact = (Build_shr_record (Zpos m) false false, e)).
  { unfold shr_fexp. cbn [Zdigits2]. rewrite C, Z.sub_diag. reflexivity. }
  unfold binary_round_aux. rewrite S'. cbn [shr_m loc_of_shr_record round_nearest_even].
  rewrite S'. cbn [shr_m]. rewrite B. reflexivity.
Qed.

Lemma SFmul_1_r : forall x, valid64 x -> SFmul prec emax x b64_one = x.
Proof.
  intros [s|s| |s m e] V; rewrite b64_one_eq; simpl; try (destruct s; reflexivity); auto.
  rewrite xorb_false_r. unfold valid64, valid_binary in V.
  pose proof V as V'. apply andb_true_iff in V'. destruct V' as [C B].
  unfold canonical_mantissa in C. apply Zeq_bool_eq in C.
  rewrite !Pos.mul_xO_r, Pos.mul_1_r.
  unfold binary_round_aux, shr_fexp at 1. cbn [Zdigits2 digits2_pos].
  match goal with |- context [fexp _ _ ?t - _] => replace t with (Zpos (digits2_pos m) + e) by lia end.
  rewrite C. replace (e - (e + -52)) with 52 by lia.
  cbn [shr shr_record_of_loc].
  match goal with |- context [SpecFloat.iter_pos shr_1 52 ?r] =>
    assert (IT : SpecFloat.iter_pos shr_1 52 r = Build_shr_record (Zpos m) false false) by reflexivity;
    rewrite !IT; clear IT end.
  cbn [shr_m loc_of_shr_record round_nearest_even].
  replace (e + -52 + 52) with e by lia.
  unfold shr_fexp. cbn [Zdigits2]. rewrite C, Z.sub_diag. cbn [shr shr_record_of_loc shr_m]. rewrite B. reflexivity.
Qed.

Lemma SFmul_1_l : forall x, valid64 x -> SFmul prec emax b64_one x = x.
Proof. intros. rewrite SFmul_comm. apply SFmul_1_r. auto. Qed.

Lemma SFeqb_finite : forall x s m e, SFeqb x (S754_finite s m e) = true -> x = S754_finite s m e.
Proof.
  intros [t|t| |t n f] s m e; unfold SFeqb, SFcompare; try discriminate.
  - destruct s; discriminate.
  - destruct t; discriminate.
  - pose proof (Pos.compare_eq n m) as PE. unfold Pos.compare in PE.
    destruct t, s; try discriminate; destruct (Z.compare_spec f e); try discriminate;
    destruct (Pos.compare_cont Eq n m); try discriminate; rewrite PE by auto; subst; auto.
Qed.

Lemma SFeqb_one : forall x, SFeqb x b64_one = true -> x = b64_one.
Proof. intros x. rewrite b64_one_eq. apply SFeqb_finite. Qed.

(** [|v| > 0] iff [v] is neither zero nor NaN. *)
Lemma f64_abs_pos : forall pw (v : f64 pw), fnan v = false -> fltb f0 (fabs v) = negb (feqb v f0).
Proof. intros pw [s|s| |s m e]; simpl; intros; try discriminate; auto; destruct s; auto. Qed.
Lemma f64_abs_nan : forall pw (v : f64 pw), fnan v = true -> fltb f0 (fabs v) = false.
Proof. intros pw [s|s| |s m e]; simpl; intros; try discriminate; auto. Qed.
