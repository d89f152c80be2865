(** Rounding of single operations, and cells of elementwise results. *)
Require Import List ZArith Bool Lia QArith Qabs Qpower Lqa.
Require Import Coq.Floats.SpecFloat.
Require Import Verif.Res Verif.Values Verif.Spec Verif.Laws Verif.MObj Verif.SpecCall.
Require Import Verif.SpecAccuracy Verif.FloatErr Verif.FloatDiv Verif.FloatRange Verif.FloatValid Verif.PAccuracy2 Verif.PAccuracy5 Verif.FloatFloor.
Import ListNotations.
Local Open Scope Q_scope.

Lemma add_rounded : forall x y, finite_double x -> finite_double y -> Qabs (number x + number y) < q2 1023 ->
  finite_double (SFadd prec emax x y) /\ rounded_sum (number x + number y) (number (SFadd prec emax x y)).
Proof.
  intros x y [DX FX] [DY FY] B. assert (FI := add_range x y FX FY B). destruct (add_err x y (double_grain x DX) (double_grain y DY) FI) as (_ & _ & _ & E).
  split; [split; [apply add_double; assumption|exact FI]|exact E].
Qed.
Lemma sub_rounded : forall x y, finite_double x -> finite_double y -> Qabs (number x - number y) < q2 1023 ->
  finite_double (SFsub prec emax x y) /\ rounded_sum (number x - number y) (number (SFsub prec emax x y)).
Proof.
  intros x y [DX FX] [DY FY] B. assert (FI := sub_range x y FX FY B). assert (E := sub_err x y (double_grain x DX) (double_grain y DY) FI).
  split; [split; [apply sub_double; assumption|exact FI]|exact E].
Qed.
Lemma mul_rounded : forall x y, finite_double x -> finite_double y -> Qabs (number x * number y) < q2 1023 ->
  finite_double (SFmul prec emax x y) /\ rounded (number x * number y) (number (SFmul prec emax x y)).
Proof.
  intros x y [DX FX] [DY FY] B. assert (FI := mul_range x y DX DY FX FY B). destruct (mul_err x y FI) as (_ & _ & _ & E).
  split; [split; [apply mul_double; assumption|exact FI]|exact E].
Qed.
Lemma div_rounded : forall x y, finite_double x -> finite_double y -> ~ number y == 0 -> Qabs (number x / number y) < q2 1023 ->
  finite_double (SFdiv prec emax x y) /\ rounded (number x / number y) (number (SFdiv prec emax x y)).
Proof.
  intros x y [DX FX] [DY FY] NY B. assert (FI := div_range x y FX FY NY B). destruct (div_err x y FY FI) as (_ & _ & _ & E).
  split; [split; [apply div_double; assumption|exact FI]|exact E].
Qed.
Lemma rounded_zero : forall w, w == 0 -> rounded w 0.
Proof. intros w E. unfold rounded. rewrite E. assert (0 < tiny) by apply q2_pos. setoid_replace (0 - 0) with 0 by ring. change (Qabs 0) with 0. lra. Qed.
Lemma zero_is_double : finite_double (S754_zero false). Proof. split; reflexivity. Qed.

(** The result of an operator that acts on common entries: [lx], [ly], [lz] are what the operands
    and the result store at a position. *)
Section Common.
Variable pw : spec_float -> spec_float -> spec_float.
Notation F := (f64 pw).
Definition value_of (op : bop) (p q : F) : F :=
  match op with
  | BMul => fmul p q | BDiv => fdiv p q | BFloorDiv => ffloor (fdiv p q) | BMod => fsub p (fmul q (ffloor (fdiv p q))) | _ => fpow (fadd f0 p) (fadd f0 q)
  end.
Definition guarded (op : bop) (q : F) : Prop := match op with BDiv | BFloorDiv | BMod => feqb q f0 = false | _ => True end.
Lemma combines_is : forall op p q v, sum_of (F := F) op = None -> ffinite (value_of op p q) = true -> guarded op q ->
  (combines op p q v <-> v = value_of op p q /\ feqb v f0 = false).
Proof. intros op p q v NS FI G. destruct op; cbn in NS; try discriminate NS; cbn [combines value_of guarded] in *; split; intros H; intuition (subst; auto). Qed.
Lemma common_cell : forall op (lx ly lz : list F), sum_of (F := F) op = None -> (length lx <= 1)%nat -> (length ly <= 1)%nat ->
  (forall v, lz = [v] <-> exists p q, lx = [p] /\ ly = [q] /\ combines op p q v) -> (lz = [] \/ exists v, lz = [v]) ->
  (exists p q, lx = [p] /\ ly = [q] /\ (ffinite (value_of op p q) = true -> guarded op q -> finite_double (value_of op p q) -> finite_double (one_or f0 lz) /\ number (one_or f0 lz) = number (value_of op p q))) \/
  ((number (one_or f0 lx) = 0 /\ lx = [] \/ number (one_or f0 ly) = 0 /\ ly = []) /\ finite_double (one_or f0 lz) /\ number (one_or f0 lz) = 0).
Proof.
  intros op lx ly lz NS LX LY H S.
  destruct lx as [|p [|? ?]]; [|destruct ly as [|q [|? ?]]; [| |cbn in LY; lia]|cbn in LX; lia].
  - right. split; [left; split; reflexivity|]. destruct S as [->|[v ->]]; [split; [apply zero_is_double|reflexivity]|]. destruct (proj1 (H v) eq_refl) as (p & q & E & _). discriminate E.
  - right. split; [right; split; reflexivity|]. destruct S as [->|[v ->]]; [split; [apply zero_is_double|reflexivity]|]. destruct (proj1 (H v) eq_refl) as (p' & q & _ & E & _). discriminate E.
  - left. exists p, q. split; [reflexivity|]. split; [reflexivity|]. intros FI G FD. destruct S as [->|[v ->]].
    + split; [apply zero_is_double|]. symmetry. cbn [one_or]. change (number (f0 : F)) with 0. apply (zero_number pw). destruct (feqb (value_of op p q) f0) eqn:E; [reflexivity|exfalso].
      assert (C : @nil F = [value_of op p q]) by (apply H; exists p, q; split; [reflexivity|]; split; [reflexivity|]; apply combines_is; auto). discriminate C.
    + destruct (proj1 (H v) eq_refl) as (p' & q' & Ep & Eq & C). assert (p' = p) by congruence. assert (q' = q) by congruence. subst p' q'.
      apply combines_is in C; auto. destruct C as [-> _]. cbn [one_or]. split; [exact FD|reflexivity].
Qed.
Lemma guarded_nonzero : forall op (q : F), ~ number q == 0 -> guarded op q.
Proof.
  intros op q H. assert (E : feqb q f0 = false) by (destruct (feqb q f0) eqn:E; [exfalso; apply H; rewrite (zero_number pw q E); reflexivity|reflexivity]). destruct op; cbn [guarded]; auto.
Qed.

(** Multiplying by a number, with its shortcuts. *)
Lemma eq_finite : forall m e n f, SFeqb (S754_finite false m e) (S754_finite false n f) = true -> m = n /\ e = f.
Proof.
  intros m e n f H. unfold SFeqb, SFcompare in H. destruct (Z.compare_spec e f) as [E|E|E]; try discriminate H. destruct (Pos.compare_cont Eq m n) eqn:C; try discriminate H.
  change (Pos.compare m n = Eq) in C. apply Pos.compare_eq in C. auto.
Qed.
Lemma one_number : forall z : F, feqb z f1 = true -> z = f1.
Proof.
  intros [s|s| |s m e] H; try (destruct s; discriminate H); try discriminate H. destruct s; [discriminate H|]. apply eq_finite in H. destruct H as [-> ->]. reflexivity.
Qed.
Lemma times_err : forall alpha v : F, b64_finite v = true -> b64_finite alpha = true -> b64_finite (times alpha v) = true -> rounded (number v * number alpha) (number (times alpha v)).
Proof.
  intros alpha v FV FA FI. unfold times in *. destruct (feqb alpha f1) eqn:E1.
  - rewrite (one_number alpha E1). change (number (f1 : F)) with (number b64_one). assert (N1 : number b64_one == 1) by (vm_compute; reflexivity). unfold rounded. rewrite N1, Qmult_1_r.
    setoid_replace (number v - number v) with 0 by ring. change (Qabs 0) with 0. assert (0 < tiny) by apply q2_pos. assert (0 < u) by apply q2_pos. pose proof (Qabs_nonneg (number v)) as NV. assert (0 <= u * Qabs (number v)) by (apply Qmult_le_0_compat; lra). lra.
  - destruct (feqb alpha f0) eqn:E0; [rewrite (zero_number pw alpha E0); apply rounded_zero; ring|]. destruct (mul_err v alpha FI) as (_ & _ & _ & E). exact E.
Qed.
Lemma times_rounded : forall alpha v : F, finite_double v -> finite_double alpha -> Qabs (number v * number alpha) < q2 1023 ->
  finite_double (times alpha v) /\ rounded (number v * number alpha) (number (times alpha v)).
Proof.
  intros alpha v FV FA B. assert (FD : finite_double (times alpha v)).
  { unfold times. destruct (feqb alpha f1); [exact FV|]. destruct (feqb alpha f0); [apply zero_is_double|]. apply mul_rounded; assumption. }
  split; [exact FD|]. apply times_err; [apply FV|apply FA|apply FD].
Qed.
Lemma reciprocal_rounded : forall alpha v : F, finite_double v -> finite_double alpha -> ~ number alpha == 0 -> b64_finite (fdiv f1 alpha) = true -> b64_finite (times (fdiv f1 alpha) v) = true ->
  rounded_twice (number v) (number alpha) (number (times (fdiv f1 alpha) v)).
Proof.
  intros alpha v [DV FV] [DA FA] NA FR FI. assert (E1 := times_err (fdiv f1 alpha) v FV FR FI). destruct (div_err b64_one alpha FA FR) as (_ & _ & _ & E2).
  assert (N1 : number b64_one == 1) by (vm_compute; reflexivity). rewrite N1 in E2. unfold rounded in E1. unfold rounded_twice.
  change (SFdiv prec emax b64_one alpha) with (fdiv (f1 : F) alpha) in E2. set (r := number (fdiv f1 alpha)) in *. set (w := number (times (fdiv f1 alpha) v)) in *. set (x := number v) in *. set (y := number alpha) in *. clearbody r w x y. clear - E1 E2 NA.
  assert (UP : 0 < u) by apply q2_pos. assert (TP : 0 < tiny) by apply q2_pos. assert (SQ : (1 + u) ^ 2 == (1 + u) * (1 + u)) by reflexivity. rewrite SQ. set (c := u) in *. set (t := tiny) in *. clearbody c t.
  assert (EA : Qabs (x / y) == Qabs x * Qabs (1 / y)) by (rewrite <- Qabs_Qmult; apply Qabs_wd; field; exact NA). rewrite EA.
  assert (D : w - x / y == (w - x * r) + x * (r - 1 / y)) by (field; exact NA). rewrite D. eapply Qle_trans; [apply Qabs_triangle|]. rewrite Qabs_Qmult. rewrite Qabs_Qmult in E1.
  assert (R : Qabs r <= Qabs (1 / y) + (c * Qabs (1 / y) + t)).
  { assert (ER : r == 1 / y + (r - 1 / y)) by ring. rewrite ER at 1. eapply Qle_trans; [apply Qabs_triangle|]. lra. }
  pose proof (Qabs_nonneg x) as PX. set (X := Qabs x) in *. set (Y := Qabs (1 / y)) in *. set (R' := Qabs r) in *. set (d1 := Qabs (w - x * r)) in *. set (d2 := Qabs (r - 1 / y)) in *. clearbody X Y R' d1 d2.
  assert (M1 : d2 * X <= (c * Y + t) * X) by (apply Qmult_le_r'; assumption). assert (M2 : R' * X <= (Y + (c * Y + t)) * X) by (apply Qmult_le_r'; assumption).
  assert (M3 : R' * X * c <= (Y + (c * Y + t)) * X * c) by (apply Qmult_le_r'; [lra|exact M2]). nra.
Qed.
End Common.
