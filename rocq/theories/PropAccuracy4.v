(** Property theorems: the rounding of elementwise operators (C86), and integers, for which they
    are exact (C87). The vocabulary is in SpecAccuracy. *)
Require Import List ZArith Bool Arith Lia Permutation QArith Qabs Qpower.
Require Import Coq.Floats.SpecFloat.
Require Import Verif.Res Verif.Values Verif.Spec Verif.Mem Verif.Laws Verif.Witness Verif.SpecReduce Verif.SpecPy Verif.MPy Verif.PPy Verif.PropPy2 Verif.MObj Verif.SpecObj Verif.PObj Verif.PropObj Verif.SpecCall Verif.SpecCall2 Verif.PropCall Verif.PropCall2 Verif.PropCall3 Verif.PropCall4 Verif.PropCall6.
Require Import Verif.SpecAccuracy Verif.FloatErr Verif.FloatFloor Verif.PAccuracy2 Verif.PAccuracy5 Verif.PAccuracy6 Verif.PropAccuracy Verif.PropAccuracy2 Verif.PropAccuracy3.
Require Verif.PCall Verif.PCall3.
Import ListNotations.
Local Open Scope Z_scope.

(** The exact result of an operator on two numbers. *)
Definition exact (op : bop) (a b : Q) : Q :=
  match op with BAdd => a + b | BSub => a - b | BMul => a * b | _ => a / b end.

Lemma cell_finite : forall pw (x : value (f64 pw)) values i j, data_array x = Some values -> Forall finite_double values -> PCall.held x -> (i < fst (shape2 x))%nat -> (j < snd (shape2 x))%nat -> finite_double (cell x i j).
Proof.
  intros pw x values i j ED FD K Hi Hj. assert (ALL := stored_all _ x values _ ED FD i j). assert (ONE := stored_one pw x i j K Hi Hj). unfold SpecCall.cell.
  destruct (stored x i j) as [|p [|? ?]]; [apply zero_is_double| |cbn in ONE; lia]. cbn [one_or]. inversion ALL; assumption.
Qed.
Lemma same_number : forall pw (x y : f64 pw), feqv x y -> (finite_double y -> finite_double x) /\ number x = number y.
Proof.
  intros pw x y [->|[A B]]; [auto|]. rewrite (zero_number pw x A), (zero_number pw y B). split; [|reflexivity]. intros _.
  destruct x as [s|s| |s m e]; try (destruct s; discriminate A); try discriminate A. destruct s; split; reflexivity.
Qed.

(** ** C86: elementwise results are rounded once *)

(** [A + B] and [A - B] of two CSR or two CSC matrices of finite doubles: every cell is a finite
    double, the exact sum or difference rounded once, unless that is 2^1023 or more. *)
Theorem C86_sums : forall pw (e : Env (f64 pw)) (h : list (value (f64 pw))) a b (x y : value (f64 pw)) vx vy op, fair e -> reached h -> nth_error h a = Some x -> nth_error h b = Some y ->
  class_of x = class_of y -> class_of x = Some CsrClass \/ class_of x = Some CscClass -> shape2 x = shape2 y ->
  data_array x = Some vx -> Forall finite_double vx -> data_array y = Some vy -> Forall finite_double vy -> op = BAdd \/ op = BSub ->
  exists z, step e h (Binary op a b) = Ok (h ++ [z]) /\ class_of z = class_of x /\ shape2 z = shape2 x /\
    forall i j, (i < fst (shape2 x))%nat -> (j < snd (shape2 x))%nat ->
      let w := exact op (number (cell x i j)) (number (cell y i j)) in
      (Qabs w < (2 # 1) ^ 1023)%Q -> finite_double (cell z i j) /\ rounded_sum w (number (cell z i j)).
Proof.
  intros pw e h a b x y vx vy op FE R Na Nb EC BC SH DX FX DY FY OP. assert (Kx := PCall3.reached_nth h a x (f64_laws pw) R Na). assert (Ky := PCall3.reached_nth h b y (f64_laws pw) R Nb).
  assert (G : exists g, sum_of (F := f64 pw) op = Some g /\ forall p q : f64 pw, finite_double p -> finite_double q -> (Qabs (exact op (number p) (number q)) < (2 # 1) ^ 1023)%Q ->
    finite_double (g p q) /\ rounded_sum (exact op (number p) (number q)) (number (g p q))).
  { destruct OP as [-> | ->]; eexists; (split; [reflexivity|]); intros p q A B C; [apply add_rounded|apply sub_rounded]; assumption. }
  destruct G as (g & EG & G). destruct (C60_sums (f64 pw) e h a b x y op g (f64_laws pw) FE R Na Nb EC BC EG) as [_ H]. destruct (H SH) as (z & E & C & S & V).
  exists z. split; [exact E|]. split; [exact C|]. split; [exact S|]. intros i j Hi Hj w B. destruct (same_number pw _ _ (V i j Hi Hj)) as [S1 S2]. rewrite S2.
  destruct (G (cell x i j) (cell y i j)) as [G1 G2]; [eapply cell_finite; eauto|eapply cell_finite; eauto; rewrite <- SH; assumption|exact B|]. auto.
Qed.
Print Assumptions C86_sums.

(** [A * B] and [A / B]: the same with the exact product or quotient; for [/] where the divisor
    is a number other than zero. Positions that store nothing count as zeros. *)
Theorem C86_products_quotients : forall pw (e : Env (f64 pw)) (h : list (value (f64 pw))) a b (x y : value (f64 pw)) vx vy op, fair e -> reached h -> nth_error h a = Some x -> nth_error h b = Some y ->
  class_of x = class_of y -> class_of x = Some CsrClass \/ class_of x = Some CscClass -> shape2 x = shape2 y ->
  data_array x = Some vx -> Forall finite_double vx -> data_array y = Some vy -> Forall finite_double vy -> op = BMul \/ op = BDiv ->
  exists z, step e h (Binary op a b) = Ok (h ++ [z]) /\ class_of z = class_of x /\ shape2 z = shape2 x /\
    forall i j, (i < fst (shape2 x))%nat -> (j < snd (shape2 x))%nat ->
      let w := exact op (number (cell x i j)) (number (cell y i j)) in
      (op = BDiv -> ~ (number (cell y i j) == 0)%Q) -> (Qabs w < (2 # 1) ^ 1023)%Q -> finite_double (cell z i j) /\ rounded w (number (cell z i j)).
Proof.
  intros pw e h a b x y vx vy op FE R Na Nb EC BC SH DX FX DY FY OP. assert (Kx := PCall3.reached_nth h a x (f64_laws pw) R Na). assert (Ky := PCall3.reached_nth h b y (f64_laws pw) R Nb).
  assert (NS : sum_of (F := f64 pw) op = None) by (destruct OP as [-> | ->]; reflexivity).
  destruct (C60_common_entries (f64 pw) e h a b x y op (f64_laws pw) FE R Na Nb EC BC NS) as [_ H]. destruct (H SH) as (z & E & C & S & V).
  exists z. split; [exact E|]. split; [exact C|]. split; [exact S|]. intros i j Hi Hj w ND B. subst w. destruct (V i j Hi Hj) as [V1 V2].
  assert (Lx := stored_one pw x i j Kx Hi Hj). assert (Ly := stored_one pw y i j Ky ltac:(rewrite <- SH; exact Hi) ltac:(rewrite <- SH; exact Hj)).
  assert (Fx := cell_finite pw x vx i j DX FX Kx Hi Hj). assert (Fy := cell_finite pw y vy i j DY FY Ky ltac:(rewrite <- SH; exact Hi) ltac:(rewrite <- SH; exact Hj)).
  unfold SpecCall.cell in *. destruct (common_cell pw op _ _ _ NS Lx Ly V1 V2) as [(p & q & Ep & Eq & G)|(G & F0 & N0)].
  - rewrite Ep in B, Fx |- *. rewrite Eq in B, Fy, ND |- *. cbn [one_or] in B, Fx, Fy, ND |- *. set (w := exact op (number p) (number q)) in *.
    assert (VO : finite_double (value_of pw op p q) /\ rounded w (number (value_of pw op p q))).
    { destruct OP as [-> | ->]; [apply mul_rounded; assumption|apply div_rounded; auto]. }
    destruct VO as [VF VR].
    assert (GU : guarded pw op q) by (destruct OP as [-> | ->]; [exact I|apply (guarded_nonzero pw BDiv); auto]).
    destruct (G ltac:(apply VF) GU VF) as [G1 G2]. rewrite G2. auto.
  - split; [exact F0|]. rewrite N0. apply rounded_zero. destruct G as [[G _]|[G _]]; rewrite G; destruct OP as [-> | ->]; cbn [exact].
    + apply Qmult_0_l.
    + unfold Qdiv. apply Qmult_0_l.
    + apply Qmult_0_r.
    + exfalso. apply ND; [reflexivity|]. rewrite G. reflexivity.
Qed.
Print Assumptions C86_products_quotients.

(** [A * alpha] rounds every stored value once, [A / alpha] twice (a rounded reciprocal); the
    second under the condition that neither overflows. *)
Theorem C86_numbers : forall pw (e : Env (f64 pw)) (h : list (value (f64 pw))) a (x : value (f64 pw)) vx (alpha : f64 pw), reached h -> nth_error h a = Some x -> class_of x <> None ->
  data_array x = Some vx -> Forall finite_double vx -> finite_double alpha ->
  (exists y, step e h (Scalar SMul a alpha) = Ok (h ++ [y]) /\ class_of y = class_of x /\ shape2 y = shape2 x /\
     forall i j, Forall2 (fun v r => (Qabs (number v * number alpha) < (2 # 1) ^ 1023)%Q -> finite_double r /\ rounded (number v * number alpha) (number r)) (stored x i j) (stored y i j)) /\
  (~ (number alpha == 0)%Q -> exists y, step e h (Scalar SDiv a alpha) = Ok (h ++ [y]) /\ class_of y = class_of x /\ shape2 y = shape2 x /\
     forall i j, Forall2 (fun v r => b64_finite r = true -> (Qabs (1 / number alpha) < (2 # 1) ^ 1023)%Q -> rounded_twice (number v) (number alpha) (number r)) (stored x i j) (stored y i j)).
Proof.
  intros pw e h a x vx alpha R N NC DX FX FA. assert (ALL := stored_all _ x vx _ DX FX). split.
  - destruct (C60_scalar_operators (f64 pw) e h a x SMul alpha (f64_laws pw) R N NC) as [_ H]. destruct (H eq_refl) as (y & E & C & S & V). exists y. split; [exact E|]. split; [exact C|]. split; [exact S|].
    intros i j. rewrite V. specialize (ALL i j). clear - ALL FA. induction ALL as [|v l Hv ALL IH]; [constructor|]. cbn [map]. constructor; [|exact IH]. intros B. apply times_rounded; assumption.
  - intros NA. assert (E0 : feqb alpha f0 = false) by (apply (guarded_nonzero pw BDiv); exact NA).
    destruct (C60_scalar_operators (f64 pw) e h a x SDiv alpha (f64_laws pw) R N NC) as [_ H]. destruct (H E0) as (y & E & C & S & V). exists y. split; [exact E|]. split; [exact C|]. split; [exact S|].
    intros i j. rewrite V. specialize (ALL i j). clear - ALL FA NA. induction ALL as [|v l Hv ALL IH]; [constructor|]. cbn [map]. constructor; [|exact IH]. intros FI B. apply reciprocal_rounded; auto.
    assert (N1 : (number b64_one == 1)%Q) by (vm_compute; reflexivity). assert (D1 : finite_double b64_one) by (split; reflexivity).
    destruct (div_rounded b64_one alpha D1 FA NA) as [[_ G] _]; [rewrite N1; exact B|exact G].
Qed.
Print Assumptions C86_numbers.

(** ** C87: integers *)

(** The result of an operator on two integers, and the integers for which doubles can represent
    everything involved. *)
Definition integer_result (op : bop) (a b : Z) : Z :=
  match op with BAdd => a + b | BSub => a - b | BMul => a * b | BMod => a mod b | _ => a / b end.
Definition fits (op : bop) (a b : Z) : Prop :=
  match op with
  | BAdd | BSub | BMul => Z.abs (integer_result op a b) <= 2 ^ 53
  | BDiv => b <> 0 /\ (b | a) /\ Z.abs (a / b) <= 2 ^ 53
  | BFloorDiv => b <> 0 /\ Z.abs a < 2 ^ 53 /\ Z.abs b <= 2 ^ 53
  | BMod => b <> 0 /\ Z.abs a <= 2 ^ 52 /\ Z.abs b <= 2 ^ 52
  | BPow => False
  end.

Lemma value_integers : forall pw op (p q : f64 pw) a b, sum_of (F := f64 pw) op = None -> finite_double p -> finite_double q -> (number p == inject_Z a)%Q -> (number q == inject_Z b)%Q -> fits op a b ->
  guarded pw op q /\ finite_double (value_of pw op p q) /\ (number (value_of pw op p q) == inject_Z (integer_result op a b))%Q.
Proof.
  intros pw op p q a b NS [DP FP] [DQ FQ] NP NQ FT.
  assert (NZ : b <> 0 -> ~ (number q == 0)%Q) by (intros NB; rewrite NQ; change 0%Q with (inject_Z 0); intros C; apply Zinj in C; contradiction).
  destruct op; try discriminate NS; cbn [fits integer_result] in *; try contradiction; (split; [try exact I; apply (guarded_nonzero pw); apply NZ; apply FT|]).
  - destruct (mul_exact p q a b FP FQ NP NQ FT) as [A B]. split; [split; [apply FloatValid.mul_double; assumption|exact A]|exact B].
  - destruct FT as (NB & DV & B). assert (EQ : (number p / number q == inject_Z (a / b))%Q).
    { rewrite NP, NQ. destruct DV as [k ->]. rewrite Z.div_mul by exact NB. rewrite inject_Z_mult. field. intros C. apply (NZ NB). rewrite NQ. exact C. }
    destruct (div_exact p q (a / b) FP FQ (NZ NB) EQ B) as [A C]. split; [split; [apply FloatValid.div_double; assumption|exact A]|exact C].
  - destruct FT as (NB & LA & LB). destruct (floordiv_integers p q a b DP DQ FP FQ NP NQ NB LA LB) as [A C]. split; [split; [apply FloatValid.floor_double, FloatValid.div_double; assumption|exact A]|exact C].
  - destruct FT as (NB & LA & LB). destruct (remainder_integers p q a b DP DQ FP FQ NP NQ NB LA LB) as [A C].
    split; [split; [apply FloatValid.sub_double; [exact DP|apply FloatValid.mul_double; [exact DQ|apply FloatValid.floor_double, FloatValid.div_double; assumption]]|exact A]|exact C].
Qed.

(** [A + B], [A - B], [A * B], [A / B] (where the quotient is an integer), [A // B] and [A % B]
    (floor and remainder with the sign of the divisor, as in Python) are exact on integers. *)
Theorem C87_operators : forall pw (e : Env (f64 pw)) (h : list (value (f64 pw))) a b (x y : value (f64 pw)) vx vy op, fair e -> reached h -> nth_error h a = Some x -> nth_error h b = Some y ->
  class_of x = class_of y -> class_of x = Some CsrClass \/ class_of x = Some CscClass -> shape2 x = shape2 y ->
  data_array x = Some vx -> Forall finite_double vx -> data_array y = Some vy -> Forall finite_double vy ->
  exists z, (op <> BPow -> step e h (Binary op a b) = Ok (h ++ [z])) /\
    forall i j k l, (i < fst (shape2 x))%nat -> (j < snd (shape2 x))%nat -> (number (cell x i j) == inject_Z k)%Q -> (number (cell y i j) == inject_Z l)%Q -> fits op k l ->
      finite_double (cell z i j) /\ (number (cell z i j) == inject_Z (integer_result op k l))%Q.
Proof.
  intros pw e h a b x y vx vy op FE R Na Nb EC BC SH DX FX DY FY. assert (Kx := PCall3.reached_nth h a x (f64_laws pw) R Na). assert (Ky := PCall3.reached_nth h b y (f64_laws pw) R Nb).
  assert (FCx : forall i j, (i < fst (shape2 x))%nat -> (j < snd (shape2 x))%nat -> finite_double (cell x i j)) by (intros; eapply cell_finite; eauto).
  assert (FCy : forall i j, (i < fst (shape2 x))%nat -> (j < snd (shape2 x))%nat -> finite_double (cell y i j)) by (intros; eapply cell_finite; eauto; rewrite <- SH; assumption).
  destruct (sum_of (F := f64 pw) op) as [g|] eqn:EG.
  - destruct (C60_sums (f64 pw) e h a b x y op g (f64_laws pw) FE R Na Nb EC BC EG) as [_ H]. destruct (H SH) as (z & E & _ & _ & V). exists z. split; [auto|]. intros i j k l Hi Hj NX NY FT.
    destruct (same_number pw _ _ (V i j Hi Hj)) as [S1 S2]. rewrite S2. specialize (FCx i j Hi Hj). specialize (FCy i j Hi Hj). clear V. set (p := cell x i j) in *. set (q := cell y i j) in *. destruct FCx as [DP FP]. destruct FCy as [DQ FQ].
    destruct op; try discriminate EG; injection EG as <-; cbn [fits integer_result] in *.
    + destruct (add_exact p q k l FP FQ NX NY FT) as [A C]. split; [|exact C]. apply S1. split; [apply FloatValid.add_double; assumption|exact A].
    + destruct (sub_exact p q k l FP FQ NX NY FT) as [A C]. split; [|exact C]. apply S1. split; [apply FloatValid.sub_double; assumption|exact A].
  - destruct (C60_common_entries (f64 pw) e h a b x y op (f64_laws pw) FE R Na Nb EC BC EG) as [_ H]. destruct (H SH) as (z & E & _ & _ & V). exists z. split; [auto|]. intros i j k l Hi Hj NX NY FT.
    destruct (V i j Hi Hj) as [V1 V2]. assert (Lx := stored_one pw x i j Kx Hi Hj). assert (Ly := stored_one pw y i j Ky ltac:(rewrite <- SH; exact Hi) ltac:(rewrite <- SH; exact Hj)).
    specialize (FCx i j Hi Hj). specialize (FCy i j Hi Hj). unfold SpecCall.cell in *. destruct (common_cell pw op _ _ _ EG Lx Ly V1 V2) as [(p & q & Ep & Eq & G)|(G & F0 & N0)].
    + rewrite Ep in FCx, NX. rewrite Eq in FCy, NY. cbn [one_or] in *. destruct (value_integers pw op p q k l EG FCx FCy NX NY FT) as (A & B & C). destruct (G ltac:(apply B) A B) as [G1 G2]. rewrite G2. auto.
    + split; [exact F0|]. rewrite N0. change 0%Q with (inject_Z 0). apply inject_Z_injective. symmetry.
      assert (K0 : k = 0 \/ l = 0) by (destruct G as [[G _]|[G _]]; [left|right]; [rewrite G in NX|rewrite G in NY]; change 0%Q with (inject_Z 0) in *; apply Zinj; symmetry; assumption).
      destruct op; try discriminate EG; cbn [fits integer_result] in *; try contradiction; destruct K0 as [-> | ->]; try (destruct FT as [C _]; exfalso; apply C; reflexivity); try reflexivity. apply Z.mul_0_r.
Qed.
Print Assumptions C87_operators.

(** [A * alpha], [A // alpha] and [A % alpha] with an integer. *)
Definition scalar_fits (op : sop) (a b : Z) : Prop :=
  match op with SMul => fits BMul a b | SFloorDiv => fits BFloorDiv a b | SMod => fits BMod a b | _ => False end.
Definition scalar_result (op : sop) (a b : Z) : Z :=
  match op with SMul => a * b | SMod => a mod b | _ => a / b end.
Lemma scalar_integers : forall pw op (alpha v : f64 pw) k l, finite_double v -> finite_double alpha -> (number v == inject_Z k)%Q -> (number alpha == inject_Z l)%Q -> scalar_fits op k l ->
  finite_double (scalar_value op alpha v) /\ (number (scalar_value op alpha v) == inject_Z (scalar_result op k l))%Q.
Proof.
  intros pw op alpha v k l FV FA NV NA FT. destruct op; cbn [scalar_fits] in FT; try contradiction.
  - destruct (value_integers pw BMul v alpha k l eq_refl FV FA NV NA FT) as (_ & A & B). cbn [scalar_value scalar_result]. unfold times.
    destruct (feqb alpha f1) eqn:E1; [|destruct (feqb alpha f0) eqn:E0; [|auto]].
    + split; [exact FV|]. apply one_number in E1. subst alpha. assert (L1 : (inject_Z l == inject_Z 1)%Q) by (rewrite <- NA; vm_compute; reflexivity). apply Zinj in L1. subst l. rewrite Z.mul_1_r. exact NV.
    + split; [apply zero_is_double|]. rewrite (zero_number pw alpha E0) in NA. change 0%Q with (inject_Z 0) in NA. apply Zinj in NA. subst l. rewrite Z.mul_0_r. reflexivity.
  - destruct (value_integers pw BFloorDiv v alpha k l eq_refl FV FA NV NA FT) as (_ & A & B). auto.
  - destruct (value_integers pw BMod v alpha k l eq_refl FV FA NV NA FT) as (_ & A & B). auto.
Qed.
Lemma scalar_quiet : forall pw op (alpha : f64 pw) l, (number alpha == inject_Z l)%Q -> op = SMul \/ (op = SFloorDiv \/ op = SMod) /\ l <> 0 -> scalar_raises op alpha = false.
Proof.
  intros pw op alpha l NA OP. destruct OP as [->|[OP NL]]; [reflexivity|].
  assert (E : feqb alpha f0 = false) by (apply (guarded_nonzero pw BDiv); rewrite NA; change 0%Q with (inject_Z 0); intros C; apply Zinj in C; contradiction).
  destruct OP as [-> | ->]; exact E.
Qed.
Lemma int_map : forall pw op (alpha : f64 pw) l (vs : list (f64 pw)), finite_double alpha -> (number alpha == inject_Z l)%Q -> Forall finite_double vs ->
  Forall2 (fun v r => forall k, (number v == inject_Z k)%Q -> scalar_fits op k l -> finite_double r /\ (number r == inject_Z (scalar_result op k l))%Q) vs (map (scalar_value op alpha) vs).
Proof. intros pw op alpha l vs FA NA ALL. induction ALL as [|v vs Hv ALL IH]; [constructor|]. cbn [map]. constructor; [|exact IH]. intros k NV FT. apply scalar_integers; assumption. Qed.

Theorem C87_numbers : forall pw (e : Env (f64 pw)) (h : list (value (f64 pw))) a (x : value (f64 pw)) vx op (alpha : f64 pw) l, reached h -> nth_error h a = Some x -> class_of x <> None ->
  data_array x = Some vx -> Forall finite_double vx -> finite_double alpha -> (number alpha == inject_Z l)%Q -> op = SMul \/ (op = SFloorDiv \/ op = SMod) /\ l <> 0 ->
  exists y, step e h (Scalar op a alpha) = Ok (h ++ [y]) /\ class_of y = class_of x /\ shape2 y = shape2 x /\
    forall i j, Forall2 (fun v r => forall k, (number v == inject_Z k)%Q -> scalar_fits op k l -> finite_double r /\ (number r == inject_Z (scalar_result op k l))%Q) (stored x i j) (stored y i j).
Proof.
  intros pw e h a x vx op alpha l R N NC DX FX FA NA OP. assert (ALL := stored_all _ x vx _ DX FX).
  assert (Q := scalar_quiet pw op alpha l NA OP).
  destruct (C60_scalar_operators (f64 pw) e h a x op alpha (f64_laws pw) R N NC) as [_ H]. destruct (H Q) as (y & E & C & S & V). exists y. split; [exact E|]. split; [exact C|]. split; [exact S|].
  intros i j. rewrite V. apply int_map; auto.
Qed.
Print Assumptions C87_numbers.

(** The same for [A // alpha] and [A % alpha] of an N-dimensional array. *)
Theorem C87_nd_numbers : forall pw (e : Env (f64 pw)) (h : list (value (f64 pw))) a (A : Nd (f64 pw)) op (alpha : f64 pw) l, reached h -> nth_error h a = Some (VNd A) -> Forall (fun n => 0 <= n) (nd_shape A) ->
  Forall finite_double (nd_dat A) -> finite_double alpha -> (number alpha == inject_Z l)%Q -> op = SFloorDiv \/ op = SMod -> l <> 0 ->
  exists B, step e h (Scalar op a alpha) = Ok (h ++ [VNd B]) /\ nd_shape B = nd_shape A /\ nd_keys B = nd_keys A /\
    forall p, Forall2 (fun v r => forall k, (number v == inject_Z k)%Q -> scalar_fits op k l -> finite_double r /\ (number r == inject_Z (scalar_result op k l))%Q) (nd_at A p) (nd_at B p).
Proof.
  intros pw e h a A op alpha l R N NN FX FA NA OP NL. assert (Q := scalar_quiet pw op alpha l NA (or_intror (conj OP NL))).
  destruct (C60_scalar_operators_coond (f64 pw) e h a A op alpha (f64_laws pw) R N NN) as [_ H].
  destruct H as (B & E & S & K & V); [destruct OP as [-> | ->]; discriminate|destruct OP as [-> | ->]; discriminate|exact Q|]. exists B. split; [exact E|]. split; [exact S|]. split; [exact K|].
  intros p. rewrite V. apply int_map; auto. apply Forall_forall. intros v Iv. rewrite Forall_forall in FX. apply FX. eapply filter_snd. exact Iv.
Qed.
Print Assumptions C87_nd_numbers.

(** *** The theorems apply, and where they stop *)
(** 0, 1: the rows [7 -7 _] and [4 4 2]; 2, 3: 6.3 and 2.1; 4, 5: 2^1000 and 2^-1000; 6: 49; 7, 8:
    0 and 1 again, by columns. *)
Definition d63 : f64 pw0 := S754_finite false 7093169413108531 (-50).
Definition d21 : f64 pw0 := S754_finite false 4728779608739021 (-51).
Definition p1000 : f64 pw0 := S754_finite false 4503599627370496 948.
Definition m1000 : f64 pw0 := S754_finite false 4503599627370496 (-1052).
Definition calls8 : list (call (f64 pw0)) :=
  [NewCsr 1 3 [0; 2] [0; 1] [fz 7; fz (-7)] true; NewCsr 1 3 [0; 3] [0; 1; 2] [fz 4; fz 4; fz 2] true;
   NewCsr 1 1 [0; 1] [0] [d63] true; NewCsr 1 1 [0; 1] [0] [d21] true;
   NewCsr 1 1 [0; 1] [0] [p1000] true; NewCsr 1 1 [0; 1] [0] [m1000] true; NewCsr 1 1 [0; 1] [0] [fz 49] true;
   NewCsc 1 3 [0; 1; 2; 2] [0; 0] [fz 7; fz (-7)] false; NewCsc 1 3 [0; 1; 2; 3] [0; 0; 0] [fz 4; fz 4; fz 2] false].
Definition state8 : list (value (f64 pw0)) :=
  match run [] (map (fun c => (env2, c)) calls8) with Running h => h | _ => [] end.
Lemma state8_reached : reached state8.
Proof.
  assert (O : match objects (run [] (map (fun c => (env2, c)) calls8)) with Some _ => true | None => false end = true) by (vm_compute; reflexivity).
  destruct (objects (run [] (map (fun c => (env2, c)) calls8))) as [x|] eqn:EO; [|discriminate O]. destruct (objects_running _ _ EO) as (h & ER & EH).
  unfold state8. rewrite ER. apply (C61_programs_reach _ (map (fun c => (env2, c)) calls8) h); [|exact ER].
  apply Forall_forall. intros ec Hec. apply in_map_iff in Hec. destruct Hec as (c & <- & Hc). cbn [fst snd]. split; [apply env2_fair|]. cbn [calls8 In] in Hc.
  repeat (destruct Hc as [<-|Hc]; [split; [|exact I]; cbn [regular_arguments]; try exact I|]); try contradiction;
    solve [split; [reflexivity|]; split; [repeat constructor; discriminate|left; reflexivity] | apply canonical_literal; reflexivity].
Qed.
Definition obj8 (a : nat) : value (f64 pw0) := nth a state8 (VInts [] []).
Lemma obj8_is a : (a < 9)%nat -> nth_error state8 a = Some (obj8 a).
Proof. intros H. apply nth_error_nth'. assert (L : length state8 = 9%nat) by (vm_compute; reflexivity). rewrite L. exact H. Qed.

(** 6.3 + 2.1, 6.3 * 2.1 and 6.3 / 2.1 *)
Example C86_operators_nonvacuous : forall op, op = BAdd \/ op = BMul \/ op = BDiv -> exists z, step env2 state8 (Binary op 2 3) = Ok (state8 ++ [z]) /\ finite_double (cell z 0 0) /\
  rounded (exact op (number d63) (number d21)) (number (cell z 0 0)) /\ ~ (number (cell z 0 0) == exact op (number d63) (number d21))%Q.
Proof.
  intros op OP.
  assert (N2 := obj8_is 2 ltac:(lia)). assert (N3 := obj8_is 3 ltac:(lia)). assert (D2 : data_array (obj8 2) = Some [d63]) by (vm_compute; reflexivity). assert (D3 : data_array (obj8 3) = Some [d21]) by (vm_compute; reflexivity).
  assert (F2 : Forall finite_double [d63]) by (repeat constructor). assert (F3 : Forall finite_double [d21]) by (repeat constructor).
  assert (EC : class_of (obj8 2) = class_of (obj8 3)) by (vm_compute; reflexivity). assert (CC : class_of (obj8 2) = Some CsrClass) by (vm_compute; reflexivity). assert (SH : shape2 (obj8 2) = shape2 (obj8 3)) by (vm_compute; reflexivity).
  assert (S1 : shape2 (obj8 2) = (1, 1)%nat) by (vm_compute; reflexivity). assert (C2 : cell (obj8 2) 0 0 = d63) by (vm_compute; reflexivity). assert (C3 : cell (obj8 3) 0 0 = d21) by (vm_compute; reflexivity).
  assert (LAST : forall z, step env2 state8 (Binary op 2 3) = Ok (state8 ++ [z]) -> match step env2 state8 (Binary op 2 3) with Ok h => cell (nth 9 h (VInts [] [])) 0 0 | _ => S754_nan end = cell z 0 0).
  { intros z E. rewrite E. rewrite app_nth2 by (assert (L : length state8 = 9%nat) by (vm_compute; reflexivity); rewrite L; lia). assert (L : length state8 = 9%nat) by (vm_compute; reflexivity). rewrite L. reflexivity. }
  assert (TP : (0 < tiny)%Q) by apply q2_pos.
  destruct OP as [->|[-> | ->]].
  - destruct (C86_sums pw0 env2 state8 2 3 _ _ _ _ BAdd env2_fair state8_reached N2 N3 EC (or_introl CC) SH D2 F2 D3 F3 (or_introl eq_refl)) as (z & E & _ & _ & V).
    exists z. split; [exact E|]. rewrite S1 in V. specialize (V 0%nat 0%nat ltac:(cbn; lia) ltac:(cbn; lia)). cbv zeta in V. rewrite C2, C3 in V. destruct (V ltac:(vm_compute; reflexivity)) as [A B]. split; [exact A|].
    split; [unfold rounded, rounded_sum in *; eapply Qle_trans; [exact B|]; rewrite <- (Qplus_0_r (u * _)) at 1; apply Qplus_le_compat; [apply Qle_refl|apply Qlt_le_weak; exact TP]|].
    rewrite <- (LAST z E). vm_compute. discriminate.
  - destruct (C86_products_quotients pw0 env2 state8 2 3 _ _ _ _ BMul env2_fair state8_reached N2 N3 EC (or_introl CC) SH D2 F2 D3 F3 (or_introl eq_refl)) as (z & E & _ & _ & V).
    exists z. split; [exact E|]. rewrite S1 in V. specialize (V 0%nat 0%nat ltac:(cbn; lia) ltac:(cbn; lia)). cbv zeta in V. rewrite C2, C3 in V. destruct (V ltac:(discriminate) ltac:(vm_compute; reflexivity)) as [A B]. split; [exact A|].
    split; [exact B|]. rewrite <- (LAST z E). vm_compute. discriminate.
  - destruct (C86_products_quotients pw0 env2 state8 2 3 _ _ _ _ BDiv env2_fair state8_reached N2 N3 EC (or_introl CC) SH D2 F2 D3 F3 (or_intror eq_refl)) as (z & E & _ & _ & V).
    exists z. split; [exact E|]. rewrite S1 in V. specialize (V 0%nat 0%nat ltac:(cbn; lia) ltac:(cbn; lia)). cbv zeta in V. rewrite C2, C3 in V. destruct (V ltac:(vm_compute; discriminate) ltac:(vm_compute; reflexivity)) as [A B]. split; [exact A|].
    split; [exact B|]. rewrite <- (LAST z E). vm_compute. discriminate.
Qed.
Lemma only_one : forall {A B} (P : A -> B -> Prop) a l, Forall2 P [a] l -> exists b, l = [b] /\ P a b.
Proof. intros A B P a l H. inversion H as [|? b ? l' R T]; subst. inversion T; subst. exists b. auto. Qed.
(** 6.3 * 2.1 and 6.3 / 2.1 with a number. *)
Example C86_numbers_nonvacuous : exists y y', step env2 state8 (Scalar SMul 2 d21) = Ok (state8 ++ [y]) /\ step env2 state8 (Scalar SDiv 2 d21) = Ok (state8 ++ [y']) /\
  exists r r', stored y 0 0 = [r] /\ stored y' 0 0 = [r'] /\ rounded (number d63 * number d21) (number r) /\ (b64_finite r' = true -> rounded_twice (number d63) (number d21) (number r')).
Proof.
  assert (N2 := obj8_is 2 ltac:(lia)). assert (D2 : data_array (obj8 2) = Some [d63]) by (vm_compute; reflexivity). assert (F2 : Forall finite_double [d63]) by (repeat constructor).
  assert (CC : class_of (obj8 2) = Some CsrClass) by (vm_compute; reflexivity). assert (S2 : stored (obj8 2) 0 0 = [d63]) by (vm_compute; reflexivity).
  destruct (C86_numbers pw0 env2 state8 2 _ _ d21 state8_reached N2 ltac:(rewrite CC; discriminate) D2 F2 ltac:(split; reflexivity)) as [(y & E & _ & _ & V) H]. destruct (H ltac:(vm_compute; discriminate)) as (y' & E' & _ & _ & V').
  exists y, y'. split; [exact E|]. split; [exact E'|]. specialize (V 0%nat 0%nat). specialize (V' 0%nat 0%nat). rewrite S2 in V, V'. destruct (only_one _ _ _ V) as (r & T1 & R1). destruct (only_one _ _ _ V') as (r' & T2 & R2).
  exists r, r'. split; [exact T1|]. split; [exact T2|]. split; [apply R1; vm_compute; reflexivity|]. intros FI. apply R2; [exact FI|vm_compute; reflexivity].
Qed.

(** 2^1000 / 2^-1000 overflows; the result stores nothing there, so the cell reads 0. *)
Theorem C86_overflow_refuted : exists (e : Env (f64 pw0)) (h : list (value (f64 pw0))) a b (x y z : value (f64 pw0)), fair e /\ reached h /\ nth_error h a = Some x /\ nth_error h b = Some y /\
  class_of x = Some CsrClass /\ class_of y = Some CsrClass /\ shape2 x = (1, 1)%nat /\ shape2 y = (1, 1)%nat /\ cell x 0 0 = p1000 /\ cell y 0 0 = m1000 /\
  step e h (Binary BDiv a b) = Ok (h ++ [z]) /\ stored z 0 0 = [] /\ (number p1000 / number m1000 == (2 # 1) ^ 2000)%Q.
Proof.
  assert (N4 := obj8_is 4 ltac:(lia)). assert (N5 := obj8_is 5 ltac:(lia)). assert (C4 : class_of (obj8 4) = Some CsrClass) by (vm_compute; reflexivity). assert (C5 : class_of (obj8 5) = Some CsrClass) by (vm_compute; reflexivity).
  assert (S4 : shape2 (obj8 4) = (1, 1)%nat) by (vm_compute; reflexivity). assert (S5 : shape2 (obj8 5) = (1, 1)%nat) by (vm_compute; reflexivity).
  assert (T4 : stored (obj8 4) 0 0 = [p1000]) by (vm_compute; reflexivity). assert (T5 : stored (obj8 5) 0 0 = [m1000]) by (vm_compute; reflexivity).
  destruct (C60_common_entries (f64 pw0) env2 state8 4 5 _ _ BDiv (f64_laws pw0) env2_fair state8_reached N4 N5 ltac:(rewrite C4, C5; reflexivity) (or_introl C4) eq_refl) as [_ H].
  destruct (H ltac:(rewrite S4, S5; reflexivity)) as (z & E & _ & _ & V). rewrite S4 in V. destruct (V 0%nat 0%nat ltac:(cbn; lia) ltac:(cbn; lia)) as [V1 V2]. rewrite T4, T5 in V1.
  exists env2, state8, 4%nat, 5%nat, (obj8 4), (obj8 5), z. split; [exact env2_fair|]. split; [exact state8_reached|]. split; [exact N4|]. split; [exact N5|]. split; [exact C4|]. split; [exact C5|]. split; [exact S4|]. split; [exact S5|].
  split; [unfold SpecCall.cell; rewrite T4; reflexivity|]. split; [unfold SpecCall.cell; rewrite T5; reflexivity|]. split; [exact E|]. split; [|vm_compute; reflexivity].
  destruct V2 as [V2|[v V2]]; [exact V2|exfalso]. destruct (proj1 (V1 v) V2) as (p & q & Ep & Eq & C). assert (p = p1000) by congruence. assert (q = m1000) by congruence. subst p q. destruct C as (_ & Ev & _ & FI). rewrite Ev in FI. vm_compute in FI. discriminate FI.
Qed.
Print Assumptions C86_overflow_refuted.

(** The row [7 -7 _] with [4 4 2], in both formats, and with the number 4. *)
Example C87_operators_nonvacuous : forall a b op, (a, b) = (0, 1)%nat \/ (a, b) = (7, 8)%nat -> op = BFloorDiv \/ op = BMod -> exists z, step env2 state8 (Binary op a b) = Ok (state8 ++ [z]) /\
  (number (cell z 0 0) == inject_Z (if match op with BMod => true | _ => false end then 3 else 1))%Q /\
  (number (cell z 0 1) == inject_Z (if match op with BMod => true | _ => false end then 1 else -2))%Q /\ (number (cell z 0 2) == 0)%Q.
Proof.
  intros a b op AB OP.
  assert (Ha : (a < 9)%nat) by (destruct AB as [AB|AB]; injection AB as -> ->; lia). assert (Hb : (b < 9)%nat) by (destruct AB as [AB|AB]; injection AB as -> ->; lia).
  assert (V : data_array (obj8 a) = Some [fz 7; fz (-7)] /\ data_array (obj8 b) = Some [fz 4; fz 4; fz 2] /\ class_of (obj8 a) = class_of (obj8 b) /\ shape2 (obj8 a) = (1, 3)%nat /\ shape2 (obj8 b) = (1, 3)%nat).
  { destruct AB as [AB|AB]; injection AB as -> ->; repeat split; vm_compute; reflexivity. }
  assert (CL : class_of (obj8 a) = Some CsrClass \/ class_of (obj8 a) = Some CscClass) by (destruct AB as [AB|AB]; injection AB as -> ->; [left|right]; vm_compute; reflexivity).
  assert (W : (cell (obj8 a) 0 0 = fz 7 /\ cell (obj8 a) 0 1 = fz (-7) /\ cell (obj8 a) 0 2 = S754_zero false) /\ cell (obj8 b) 0 0 = fz 4 /\ cell (obj8 b) 0 1 = fz 4 /\ cell (obj8 b) 0 2 = fz 2).
  { destruct AB as [AB|AB]; injection AB as -> ->; repeat split; vm_compute; reflexivity. }
  destruct V as (DA & DB & EC & SA & SB). destruct W as ((A0 & A1 & A2) & B0 & B1 & B2).
  destruct (C87_operators pw0 env2 state8 a b _ _ _ _ op env2_fair state8_reached (obj8_is a Ha) (obj8_is b Hb) EC CL ltac:(rewrite SA, SB; reflexivity) DA ltac:(repeat constructor) DB ltac:(repeat constructor)) as (z & E & V).
  exists z. split; [apply E; destruct OP as [-> | ->]; discriminate|]. rewrite SA in V. cbn [fst snd] in V.
  assert (V0 := V 0%nat 0%nat 7 4 ltac:(lia) ltac:(lia)). assert (V1 := V 0%nat 1%nat (-7) 4 ltac:(lia) ltac:(lia)). assert (V2 := V 0%nat 2%nat 0 2 ltac:(lia) ltac:(lia)). rewrite A0, B0 in V0. rewrite A1, B1 in V1. rewrite A2, B2 in V2.
  specialize (V0 ltac:(vm_compute; reflexivity) ltac:(vm_compute; reflexivity)). specialize (V1 ltac:(vm_compute; reflexivity) ltac:(vm_compute; reflexivity)). specialize (V2 ltac:(vm_compute; reflexivity) ltac:(vm_compute; reflexivity)).
  destruct OP as [-> | ->]; (split; [|split]); [apply V0|apply V1|apply V2|apply V0|apply V1|apply V2]; (split; [lia|]; split; vm_compute; discriminate || reflexivity).
Qed.
Example C87_numbers_nonvacuous : forall op, op = SMul \/ op = SFloorDiv \/ op = SMod -> exists y, step env2 state8 (Scalar op 0 (fz 4)) = Ok (state8 ++ [y]) /\
  Forall2 (fun v r => forall k, (number v == inject_Z k)%Q -> scalar_fits op k 4 -> finite_double r /\ (number r == inject_Z (scalar_result op k 4))%Q) [fz (-7)] (stored y 0 1) /\
  (number (fz (-7)) == inject_Z (-7))%Q /\ scalar_fits op (-7) 4.
Proof.
  intros op OP. assert (N := obj8_is 0 ltac:(lia)). assert (D : data_array (obj8 0) = Some [fz 7; fz (-7)]) by (vm_compute; reflexivity). assert (CC : class_of (obj8 0) = Some CsrClass) by (vm_compute; reflexivity).
  assert (S1 : stored (obj8 0) 0 1 = [fz (-7)]) by (vm_compute; reflexivity).
  destruct (C87_numbers pw0 env2 state8 0 _ _ op (fz 4) 4 state8_reached N ltac:(rewrite CC; discriminate) D ltac:(repeat constructor) ltac:(split; reflexivity) ltac:(vm_compute; reflexivity)) as (y & E & _ & _ & V).
  { destruct OP as [->|[-> | ->]]; [left; reflexivity|right; split; [auto|lia]|right; split; [auto|lia]]. }
  exists y. split; [exact E|]. specialize (V 0%nat 1%nat). rewrite S1 in V. split; [exact V|]. split; [vm_compute; reflexivity|]. destruct OP as [->|[-> | ->]]; cbn [scalar_fits fits]; [vm_compute; discriminate| |]; (split; [lia|]; split; vm_compute; discriminate || reflexivity).
Qed.
Example C87_nd_numbers_nonvacuous : exists B, step env2 state2 (Scalar SMod 5 (fz 2)) = Ok (state2 ++ [VNd B]) /\ nd_keys B = nd_keys N5 /\ nd_keys N5 <> [].
Proof.
  destruct (C87_nd_numbers pw0 env2 state2 5 N5 SMod (fz 2) 2 state2_reached N5_is (proj2 N5_dims) finites_N5 ltac:(split; reflexivity) ltac:(vm_compute; reflexivity) (or_intror eq_refl) ltac:(lia)) as (B & E & _ & K & _).
  exists B. split; [exact E|]. split; [exact K|]. vm_compute. discriminate.
Qed.

(** Other doubles: 6.3 % 2.1 is negative, though both are positive (the quotient rounds up to 3),
    for a number and for a matrix. *)
Theorem C87_remainder_sign_refuted : exists (e : Env (f64 pw0)) (h : list (value (f64 pw0))) a b (x y z z' : value (f64 pw0)) (r : f64 pw0), fair e /\ reached h /\ nth_error h a = Some x /\ nth_error h b = Some y /\
  shape2 x = (1, 1)%nat /\ shape2 y = (1, 1)%nat /\ cell x 0 0 = d63 /\ cell y 0 0 = d21 /\ (0 < number d21 < number d63)%Q /\
  step e h (Binary BMod a b) = Ok (h ++ [z]) /\ step e h (Scalar SMod a d21) = Ok (h ++ [z']) /\ cell z 0 0 = r /\ cell z' 0 0 = r /\ (number r < 0)%Q.
Proof.
  assert (N2 := obj8_is 2 ltac:(lia)). assert (N3 := obj8_is 3 ltac:(lia)). assert (C2 : class_of (obj8 2) = Some CsrClass) by (vm_compute; reflexivity). assert (C3 : class_of (obj8 3) = Some CsrClass) by (vm_compute; reflexivity).
  assert (S2 : shape2 (obj8 2) = (1, 1)%nat) by (vm_compute; reflexivity). assert (S3 : shape2 (obj8 3) = (1, 1)%nat) by (vm_compute; reflexivity).
  assert (T2 : stored (obj8 2) 0 0 = [d63]) by (vm_compute; reflexivity). assert (T3 : stored (obj8 3) 0 0 = [d21]) by (vm_compute; reflexivity).
  destruct (C60_common_entries (f64 pw0) env2 state8 2 3 _ _ BMod (f64_laws pw0) env2_fair state8_reached N2 N3 ltac:(rewrite C2, C3; reflexivity) (or_introl C2) eq_refl) as [_ H].
  destruct (H ltac:(rewrite S2, S3; reflexivity)) as (z & E & _ & _ & V). rewrite S2 in V. destruct (V 0%nat 0%nat ltac:(cbn; lia) ltac:(cbn; lia)) as [V1 V2]. rewrite T2, T3 in V1.
  destruct (C60_scalar_operators (f64 pw0) env2 state8 2 _ SMod d21 (f64_laws pw0) state8_reached N2 ltac:(rewrite C2; discriminate)) as [_ H']. destruct (H' ltac:(vm_compute; reflexivity)) as (z' & E' & _ & _ & V').
  specialize (V' 0%nat 0%nat). rewrite T2 in V'. cbn [map] in V'.
  assert (VR : (scalar_value SMod d21 d63 : spec_float) = S754_finite true 4503599627370496 (-102)) by (vm_compute; reflexivity).
  assert (VZ : stored z 0 0 = [scalar_value SMod d21 d63]).
  { apply V1. exists d63, d21. split; [reflexivity|]. split; [reflexivity|]. split; [vm_compute; reflexivity|]. split; [reflexivity|]. split; [vm_compute; reflexivity|vm_compute; reflexivity]. }
  exists env2, state8, 2%nat, 3%nat, (obj8 2), (obj8 3), z, z', (scalar_value SMod d21 d63). split; [exact env2_fair|]. split; [exact state8_reached|]. split; [exact N2|]. split; [exact N3|]. split; [exact S2|]. split; [exact S3|].
  split; [unfold SpecCall.cell; rewrite T2; reflexivity|]. split; [unfold SpecCall.cell; rewrite T3; reflexivity|]. split; [split; vm_compute; reflexivity|]. split; [exact E|]. split; [exact E'|].
  split; [unfold SpecCall.cell; rewrite VZ; reflexivity|]. split; [unfold SpecCall.cell; rewrite V'; reflexivity|]. rewrite VR. vm_compute. reflexivity.
Qed.
Print Assumptions C87_remainder_sign_refuted.

(** [A / alpha] is not exact on integers whose quotient is one: 49 / 49 is not 1. *)
Theorem C87_quotient_by_number_refuted : exists (e : Env (f64 pw0)) (h : list (value (f64 pw0))) a (x y : value (f64 pw0)), fair e /\ reached h /\ nth_error h a = Some x /\ stored x 0 0 = [fz 49] /\
  step e h (Scalar SDiv a (fz 49)) = Ok (h ++ [y]) /\ ~ (number (cell y 0 0) == 1)%Q.
Proof.
  assert (N := obj8_is 6 ltac:(lia)). assert (C : class_of (obj8 6) = Some CsrClass) by (vm_compute; reflexivity). assert (T : stored (obj8 6) 0 0 = [fz 49]) by (vm_compute; reflexivity).
  destruct (C60_scalar_operators (f64 pw0) env2 state8 6 _ SDiv (fz 49) (f64_laws pw0) state8_reached N ltac:(rewrite C; discriminate)) as [_ H]. destruct (H ltac:(vm_compute; reflexivity)) as (y & E & _ & _ & V).
  exists env2, state8, 6%nat, (obj8 6), y. split; [exact env2_fair|]. split; [exact state8_reached|]. split; [exact N|]. split; [exact T|]. split; [exact E|]. unfold SpecCall.cell. rewrite V, T. vm_compute. discriminate.
Qed.
Print Assumptions C87_quotient_by_number_refuted.
