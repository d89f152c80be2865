(** Vocabulary for the accuracy of results: the number a double stands for, exact sums and
    products of such numbers, and the bounds on the error. *)
Require Import List ZArith Bool QArith Qabs Qpower.
Require Import Coq.Floats.SpecFloat.
Require Import Verif.Values Verif.Spec.
Import ListNotations.
Local Open Scope Q_scope.

(** [x] is a double: what a NumPy array of float64 can hold. *)
Definition double (x : spec_float) : Prop := valid_binary 53 1024 x = true.
(** The number a double stands for, [m * 2^e] (0 for infinities and NaN). *)
Definition number (x : spec_float) : Q :=
  match x with
  | S754_finite s m e => inject_Z (if s then Zneg m else Zpos m) * (2 # 1) ^ e
  | _ => 0
  end.
(** Exact sum of numbers, and of their absolute values. *)
Definition total (l : list Q) : Q := fold_right Qplus 0 l.
Definition magnitude (l : list Q) : Q := total (map Qabs l).

(** Half the distance of 1 to the next double, and half the least positive double. *)
Definition u : Q := (2 # 1) ^ (-53).
Definition tiny : Q := (2 # 1) ^ (-1075).

(** [v] is the sum of the numbers [l] up to one rounding of relative size [u] per addition:
    [|v - sum| <= ((1 + u)^(n - 1) - 1) * sum |x|] for [n] numbers. *)
Definition sum_within (l : list Q) (v : Q) : Prop :=
  Qabs (v - total l) <= ((1 + u) ^ (Z.of_nat (length l - 1)) - 1) * magnitude l.
(** The same for a sum of [n] products, each rounded: a product can also lose [tiny]. *)
Definition dot_within (l : list Q) (v : Q) : Prop :=
  let n := Z.of_nat (length l) in
  Qabs (v - total l) <= ((1 + u) ^ n - 1) * magnitude l + inject_Z n * (1 + u) ^ n * tiny.

(** The mean of the numbers [l] over [n] cells: one more rounding, and [tiny] if it is below
    the normal range. *)
Definition mean_within (l : list Q) (n : Q) (v : Q) : Prop :=
  Qabs (v - total l / n) <= ((1 + u) ^ (Z.of_nat (length l)) - 1) * (magnitude l / n) + tiny.
(** The same with two more roundings (a rounded factor [1 / n]). *)
Definition scaled_within (l : list Q) (n : Q) (v : Q) : Prop :=
  Qabs (v - total l / n) <= ((1 + u) ^ (Z.of_nat (length l + 1)) - 1) * (magnitude l / n) + ((1 + u) ^ (Z.of_nat (length l)) * magnitude l + 1) * tiny.

(** [x] is a double other than the infinities and NaN. *)
Definition finite_double (x : spec_float) : Prop := double x /\ b64_finite x = true.
(** At most 2^51 numbers whose absolute values add up to at most 2^1022 (a quarter of the largest
    double). *)
Definition modest (l : list Q) : Prop := (Z.of_nat (length l) <= 2 ^ 51)%Z /\ magnitude l <= (2 # 1) ^ 1022.

(** The sum of squares of the numbers [l], and of the squared distances from their mean of [n]
    cells that hold the numbers [l] and zeros otherwise. *)
Definition squares (l : list Q) : Q := total (map (fun x => x * x) l).
Definition spread (l : list Q) (n : Q) : Q :=
  let mean := total l / n in
  total (map (fun x => (x - mean) * (x - mean)) l) + (n - inject_Z (Z.of_nat (length l))) * (mean * mean).
(** The variance of [n] cells with divisor [d], up to an error relative to the mean square. *)
Definition var_within (l : list Q) (n d : Q) (v : Q) : Prop :=
  let k := Z.of_nat (length l) in
  Qabs (v - spread l n / d) <= 2 * ((1 + u) ^ (2 * k + 4) - 1) * (squares l / d) + inject_Z (k + 4) * (1 + u) ^ (k + 2) * tiny.
(** [v] is the square root of [w] up to one rounding. *)
Definition root_within (w v : Q) : Prop := 0 <= v /\ (1 - u) ^ 2 * w <= v ^ 2 <= (1 + u) ^ 2 * w.
(** At most 2^51 numbers whose squares are far from the largest double. *)
Definition roomy (l : list Q) : Prop :=
  (Z.of_nat (length l) <= 2 ^ 51)%Z /\ inject_Z (Z.of_nat (length l)) * squares l <= (2 # 1) ^ 1020.

(** [x] is a finite double that stands for an integer. *)
Definition integral (x : spec_float) : Prop := b64_finite x = true /\ exists a, number x == inject_Z a.
(** The exact products of the entries of row [i] with the elements of a vector; [cell i j]
    lists the values stored at row [i], column [j] of a matrix with [n] columns. *)
Definition products (cell : nat -> nat -> list spec_float) (n : nat) (x : list spec_float) (i : nat) : list Q :=
  flat_map (fun j => map (fun v => number v * number (nth j x (S754_zero false))) (cell i j)) (seq 0 n).
(** The same for a line of an N-dimensional array along [axis]: the entries whose other
    coordinates are [k]. *)
Definition line_exact (A : Nd spec_float) (axis : nat) (x : list spec_float) (k : list Z) : list Q :=
  map (fun e => number (snd e) * number (nth (Z.to_nat (nth axis (fst e) 0%Z)) x (S754_zero false)))
      (fiber_entries A (other_axes (length (nd_shape A)) [axis]) k).

(** [v] is the number [w] rounded once: relative error [u], or [tiny] below the normal range,
    where a sum or difference is exact. *)
Definition rounded (w v : Q) : Prop := Qabs (v - w) <= u * Qabs w + tiny.
Definition rounded_sum (w v : Q) : Prop := Qabs (v - w) <= u * Qabs w.
(** [v] is [x / y] rounded twice, as [x] times a rounded reciprocal. *)
Definition rounded_twice (x y v : Q) : Prop := Qabs (v - x / y) <= ((1 + u) ^ 2 - 1) * Qabs (x / y) + ((1 + u) * Qabs x + 1) * tiny.
