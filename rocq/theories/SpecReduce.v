(** Specification of reductions: the values a matrix or array stores, and the cells
    it consists of. [cell i j] lists the values stored at row [i], column [j]
    ([csr_at A], [csc_at A] or [coo_at A]). *)
Require Import List ZArith Bool QArith Qcanon.
Require Import Verif.Values Verif.Spec.
Import ListNotations.
Local Open Scope Z_scope.

(** All positions of an [m] x [n] matrix. *)
Definition grid (m n : nat) : list (nat * nat) := list_prod (seq 0 m) (seq 0 n).

(** The stored values of row [i], and of the whole matrix, each listed once. *)
Definition row_values {V} (cell : nat -> nat -> list V) (n i : nat) : list V := flat_map (cell i) (seq 0 n).
Definition matrix_values {V} (cell : nat -> nat -> list V) (m n : nat) : list V :=
  flat_map (fun p => cell (fst p) (snd p)) (grid m n).

(** The cells of row [i], and of the whole matrix: one number per position, [z] where
    nothing is stored. *)
Definition row_cells {V} (z : V) (cell : nat -> nat -> list V) (n i : nat) : list V :=
  map (fun j => one_or z (cell i j)) (seq 0 n).
Definition matrix_cells {V} (z : V) (cell : nat -> nat -> list V) (m n : nat) : list V :=
  map (fun p => one_or z (cell (fst p) (snd p))) (grid m n).

(** No position is stored twice. *)
Definition single_valued {V} (cell : nat -> nat -> list V) : Prop := forall i j, (length (cell i j) <= 1)%nat.

(** All coordinates of a shape, row-major; stored values and cells of an array. *)
Fixpoint all_keys (sh : list Z) : list (list Z) :=
  match sh with
  | [] => [[]]
  | n :: sh' => flat_map (fun x => map (cons (Z.of_nat x)) (all_keys sh')) (seq 0 (Z.to_nat n))
  end.
Definition array_values {V} (A : Nd V) : list V := flat_map (nd_at A) (all_keys (nd_shape A)).
Definition array_cells {V} (z : V) (A : Nd V) : list V := map (fun k => one_or z (nd_at A k)) (all_keys (nd_shape A)).
Definition single_valued_nd {V} (A : Nd V) : Prop := forall k, (length (nd_at A k) <= 1)%nat.

(** [v] is a least (greatest) element of [l]. *)
Definition is_least {F : Fl} (l : list F) (v : F) : Prop := In v l /\ Forall (fun x => fltb x v = false) l.
Definition is_greatest {F : Fl} (l : list F) (v : F) : Prop := In v l /\ Forall (fun x => fltb v x = false) l.

(** A minimum (maximum) operation on numbers that are not NaN. It may return either of
    two equal numbers, for instance either zero. *)
Definition is_min {F : Fl} (op : F -> F -> F) : Prop := forall x y, fnan x = false -> fnan y = false ->
  (op x y = x \/ op x y = y) /\ fltb x (op x y) = false /\ fltb y (op x y) = false.
Definition is_max {F : Fl} (op : F -> F -> F) : Prop := forall x y, fnan x = false -> fnan y = false ->
  (op x y = x \/ op x y = y) /\ fltb (op x y) x = false /\ fltb (op x y) y = false.

(** Sum, mean and variance of a list of rationals: [qvariance l c] divides the squared
    deviations from the mean by [length l - c], and is 0 when that is not positive. *)
Definition qsum (l : list Qc) : Qc := fold_right Qcplus (Q2Qc 0) l.
Definition qlen (l : list Qc) : Qc := Q2Qc (inject_Z (Z.of_nat (length l))).
Definition qmean (l : list Qc) : Qc := (qsum l / qlen l)%Qc.
Definition qvariance (l : list Qc) (c : Qc) : Qc :=
  if Qclt_le_dec c (qlen l)
  then (qsum (map (fun x => (x - qmean l) * (x - qmean l)) l) / (qlen l - c))%Qc
  else Q2Qc 0.

(** [v] is the product of the cells [js] if all of them are stored, and 0 otherwise. *)
Definition prod_spec {F : Fl} {J} (cell : J -> list F) (js : list J) (v : F) : Prop :=
  (Forall (fun j => cell j <> []) js -> FProd (map (fun j => one_or f0 (cell j)) js) v) /\
  (Exists (fun j => cell j = []) js -> v = f0).

(** [v] is a least (greatest) element of [l], or zero if [l] is empty. *)
Definition least_or_0 {F : Fl} (l : list F) (v : F) : Prop := (l = [] -> v = f0) /\ (l <> [] -> is_least l v).
Definition greatest_or_0 {F : Fl} (l : list F) (v : F) : Prop := (l = [] -> v = f0) /\ (l <> [] -> is_greatest l v).

(** The product of a list of rationals. *)
Definition qprod (l : list Qc) : Qc := fold_right Qcmult (Q2Qc 1) l.

(** No number of [l] is NaN. *)
Definition no_nan {F : Fl} (l : list F) : Prop := Forall (fun x => fnan x = false) l.

(** In IEEE arithmetic a variance is computed from a sum [s] of the values and a sum
    [s2] of their squares, and clamped: it is never below zero. *)
Definition var_formula {F : Fl} (s s2 : F) (n : Z) (c v : F) : Prop :=
  let d := fsub (fofZ n) c in
  let w := fdiv (fsub s2 (fdiv (fmul s s) (fofZ n))) d in
  (n = 0 -> v = f0) /\
  (fltb d f0 = true \/ feqb d f0 = true -> v = f0) /\
  (n <> 0 -> fltb d f0 = false -> feqb d f0 = false -> v = if fltb w f0 then f0 else w).
Definition var_of {F : Fl} (values : list F) (n : Z) (c v : F) : Prop :=
  fltb v f0 = false /\ exists s s2, FSum values s /\ FSum (map (fun x => fmul x x) values) s2 /\ var_formula s s2 n c v.
