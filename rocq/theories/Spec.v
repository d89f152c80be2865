(** Specification vocabulary: the sparse formats as plain data, what it means
    for them to be well formed, and which values they store in which cell.
    Nothing here depends on the kernels. *)
Require Import List ZArith Bool Permutation Sorted.
Require Import Verif.Values.
Import ListNotations.
Local Open Scope Z_scope.

Definition i64_min : Z := - 2 ^ 63.
Definition i64_max : Z := 2 ^ 63 - 1.
Definition usize_max : Z := 2 ^ 64 - 1.
Definition is_i64 (z : Z) : Prop := i64_min <= z <= i64_max.

(** [l[s..e]] *)
Definition slice {A} (s e : nat) (l : list A) : list A := firstn (e - s) (skipn s l).

(** ** Compressed formats.
    [Cs] is the common content of [Csr] and [Csc]
    (crates/lacuna-core/src/csr.rs L23-L30, csc.rs L23-L30): for CSR the major
    dimension is the rows, for CSC it is the columns. *)
Record Cs (V : Type) : Type := mkCs {
  major : nat;
  minor : nat;
  ptr : list Z;
  idx : list Z;
  dat : list V
}.
Arguments mkCs {V}. Arguments major {V}. Arguments minor {V}.
Arguments ptr {V}. Arguments idx {V}. Arguments dat {V}.

Definition Csr := Cs.
Definition Csc := Cs.
Definition csr_nrows {V} (A : Csr V) : nat := major A.
Definition csr_ncols {V} (A : Csr V) : nat := minor A.
Definition csc_nrows {V} (A : Csc V) : nat := minor A.
Definition csc_ncols {V} (A : Csc V) : nat := major A.

(** Structural validity: pointers partition the entry arrays, indices are in
    range. Indices inside a row may be unsorted or repeated. *)
Record cs_ok {V} (A : Cs V) : Prop := {
  ok_ptr_len : length (ptr A) = S (major A);
  ok_len : length (idx A) = length (dat A);
  ok_first : nth_error (ptr A) 0 = Some 0;
  ok_last : nth_error (ptr A) (major A) = Some (Z.of_nat (length (idx A)));
  ok_mono : forall i a b, nth_error (ptr A) i = Some a -> nth_error (ptr A) (S i) = Some b -> a <= b;
  ok_bound : forall p j, nth_error (idx A) p = Some j -> 0 <= j < Z.of_nat (minor A) /\ j <= i64_max
}.

(** Canonical: structurally valid and, between two consecutive pointers, the
    indices are strictly increasing. *)
Record canonical {V} (A : Cs V) : Prop := {
  can_ok : cs_ok A;
  can_sorted : forall i s e p q a b,
      nth_error (ptr A) i = Some s -> nth_error (ptr A) (S i) = Some e ->
      s <= Z.of_nat p -> (p < q)%nat -> Z.of_nat q < e ->
      nth_error (idx A) p = Some a -> nth_error (idx A) q = Some b -> a < b
}.

(** Entries of major slice [i]: positions [ptr[i] .. ptr[i+1])]. *)
Definition cs_row {V} (A : Cs V) (i : nat) : list (Z * V) :=
  slice (Z.to_nat (nth i (ptr A) 0)) (Z.to_nat (nth (S i) (ptr A) 0)) (combine (idx A) (dat A)).

(** Values stored under index [j] in a list of entries, in order. *)
Definition at_index {V} (j : Z) (r : list (Z * V)) : list V :=
  map snd (filter (fun e => fst e =? j) r).

(** All values stored in cell (major i, minor j). *)
Definition cs_at {V} (A : Cs V) (i : nat) (j : Z) : list V := at_index j (cs_row A i).

(** Stored values of cell (row i, column j). *)
Definition csr_at {V} (A : Csr V) (i j : nat) : list V := cs_at A i (Z.of_nat j).
Definition csc_at {V} (A : Csc V) (i j : nat) : list V := cs_at A j (Z.of_nat i).

(** The value of a cell that stores at most one value; [z] if it stores none. *)
Definition one_or {V} (z : V) (l : list V) : V := match l with [] => z | v :: _ => v end.
Definition csr_val {V} (z : V) (A : Csr V) (i j : nat) : V := one_or z (csr_at A i j).
Definition csc_val {V} (z : V) (A : Csc V) (i j : nat) : V := one_or z (csc_at A i j).

(** ** Coordinate formats (crates/lacuna-core/src/coo.rs). *)
Record Coo (V : Type) : Type := mkCoo {
  coo_nrows : nat;
  coo_ncols : nat;
  coo_row : list Z;
  coo_col : list Z;
  coo_data : list V
}.
Arguments mkCoo {V}. Arguments coo_nrows {V}. Arguments coo_ncols {V}.
Arguments coo_row {V}. Arguments coo_col {V}. Arguments coo_data {V}.

Record coo_ok {V} (A : Coo V) : Prop := {
  coo_len_r : length (coo_row A) = length (coo_data A);
  coo_len_c : length (coo_col A) = length (coo_data A);
  coo_bound_r : forall p i, nth_error (coo_row A) p = Some i ->
      0 <= i < Z.of_nat (coo_nrows A) /\ i <= i64_max;
  coo_bound_c : forall p j, nth_error (coo_col A) p = Some j ->
      0 <= j < Z.of_nat (coo_ncols A) /\ j <= i64_max
}.

Definition coo_entries {V} (A : Coo V) : list ((Z * Z) * V) :=
  combine (combine (coo_row A) (coo_col A)) (coo_data A).

Definition at_cell {V} (i j : Z) (l : list ((Z * Z) * V)) : list V :=
  map snd (filter (fun e => (fst (fst e) =? i) && (snd (fst e) =? j)) l).

Definition coo_at {V} (A : Coo V) (i j : nat) : list V :=
  at_cell (Z.of_nat i) (Z.of_nat j) (coo_entries A).

(** ** Sums of floats.
    [FSum l v]: [v] is the result of adding the terms of [l], each exactly once,
    in some order and association; zeros may be added in addition. *)
Inductive FSum {F : Fl} : list F -> F -> Prop :=
| FSum_zero : forall z, feqb z f0 = true -> FSum [] z
| FSum_one : forall x, FSum [x] x
| FSum_add : forall l1 l2 x y, FSum l1 x -> FSum l2 y -> FSum (l1 ++ l2) (fadd x y)
| FSum_perm : forall l l' x, Permutation l l' -> FSum l x -> FSum l' x.

(** Likewise for products (extra factors 1 allowed). *)
Inductive FProd {F : Fl} : list F -> F -> Prop :=
| FProd_one : FProd [] f1
| FProd_sing : forall x, FProd [x] x
| FProd_mul : forall l1 l2 x y, FProd l1 x -> FProd l2 y -> FProd (l1 ++ l2) (fmul x y)
| FProd_perm : forall l l' x, Permutation l l' -> FProd l x -> FProd l' x.

(** Numeric equality that identifies the two zeros (and is reflexive on NaN). *)
Definition feqv {F : Fl} (x y : F) : Prop :=
  x = y \/ (feqb x f0 = true /\ feqb y f0 = true).

(** A schedule is any reordering of the given list of steps. *)
Definition is_schedule {A} (sch : list A -> list A) : Prop := forall l, Permutation l (sch l).

(** [Interleave ts tr]: the trace [tr] interleaves the task step lists [ts],
    keeping the order of the steps of each task. *)
Inductive Interleave {A} : list (list A) -> list A -> Prop :=
| Il_done : forall ts, Forall (fun t => t = []) ts -> Interleave ts []
| Il_step : forall ts1 a t ts2 tr,
    Interleave (ts1 ++ t :: ts2) tr -> Interleave (ts1 ++ (a :: t) :: ts2) (a :: tr).

(** ** N-dimensional coordinate format (crates/lacuna-core/src/coo.rs L131-L135). *)
Record Nd (V : Type) : Type := mkNd {
  nd_shape : list Z;
  nd_idx : list Z;
  nd_dat : list V
}.
Arguments mkNd {V}. Arguments nd_shape {V}. Arguments nd_idx {V}. Arguments nd_dat {V}.

(** The first [n] consecutive groups of [d] elements of a flat list. *)
Fixpoint chunks {A} (d n : nat) (l : list A) : list (list A) :=
  match n with O => [] | S n' => firstn d l :: chunks d n' (skipn d l) end.

(** Coordinates of the stored entries, in storage order. *)
Definition nd_keys {V} (A : Nd V) : list (list Z) :=
  chunks (length (nd_shape A)) (length (nd_dat A)) (nd_idx A).
Definition nd_entries {V} (A : Nd V) : list (list Z * V) := combine (nd_keys A) (nd_dat A).

(** A coordinate tuple lies inside a shape. *)
Definition in_shape (sh k : list Z) : Prop := Forall2 (fun x n => 0 <= x < n /\ x <= i64_max) k sh.

Record nd_ok {V} (A : Nd V) : Prop := {
  nd_ndim : nd_shape A <> [];
  nd_len : length (nd_idx A) = (length (nd_dat A) * length (nd_shape A))%nat;
  nd_bound : Forall (in_shape (nd_shape A)) (nd_keys A)
}.

(** Values stored under coordinates [k]. *)
Definition at_key {V} (k : list Z) (l : list (list Z * V)) : list V :=
  map snd (filter (fun e => if list_eq_dec Z.eq_dec (fst e) k then true else false) l).
Definition nd_at {V} (A : Nd V) (k : list Z) : list V := at_key k (nd_entries A).

(** Any way of interleaving given task step lists. *)
Definition is_interleaving {A} (il : list (list A) -> list A) : Prop := forall ts, Interleave ts (il ts).

(** [dist tasks] says, thread by thread, which of the tasks of a parallel loop the
    thread ran and in which order; each task is run exactly once. *)
Definition is_distribution {A} (dist : list A -> list (list A)) : Prop :=
  forall l, Permutation l (concat (dist l)).

(** Any sorting function for the (possibly partial) order [le] on keys; elements
    with equal keys may come out in any order ([sort_unstable_by]). *)
Definition is_sorter {A} (le : A -> A -> Prop) (srt : list A -> list A) : Prop :=
  forall l, Permutation l (srt l) /\ StronglySorted le (srt l).

(** A Rust vector of [n+1] 8-byte words can exist only for [n] far below the
    largest [i64]; pointer arrays have one word more than the dimension. *)
Definition alloc_ok (n : nat) : Prop := Z.of_nat n < i64_max.

(** Left-to-right sum, none for no values. *)
Definition left_sum {F : Fl} (l : list F) : list F :=
  match l with [] => [] | v :: vs => [fold_left fadd vs v] end.

(** ** Row-major positions. *)
Definition cells (sh : list Z) : Z := fold_right Z.mul 1 sh.
Fixpoint position (sh k : list Z) : Z :=
  match sh, k with
  | _ :: sh', x :: k' => x * cells sh' + position sh' k'
  | _, _ => 0
  end.

(** The shape has no negative dimension, and its cell count (empty dimensions
    counted as one) is at most 2^64 - 1. *)
Definition shape_fits (sh : list Z) : Prop :=
  Forall (fun n => 0 <= n) sh /\ cells (map (Z.max 1) sh) <= usize_max.

(** Coordinates [k] restricted to the listed axes. *)
Definition select (axes : list nat) (k : list Z) : list Z := map (fun d => nth d k 0) axes.

(** Entries listed by strictly increasing row-major position (so no duplicates). *)
Definition nd_sorted {V} (A : Nd V) : Prop :=
  StronglySorted (fun k k' => position (nd_shape A) k < position (nd_shape A) k') (nd_keys A).

Definition nonzero {F : Fl} (v : F) : bool := negb (feqb v f0).

(** Order used by [sort_unstable_by_key(|(k, _)| k)] on (key, value) pairs. *)
Definition pair_le {V} (x y : Z * V) : Prop := fst x <= fst y.

(** The stored entries whose coordinates along [axes] are [k], in storage order,
    and their values. *)
Definition fiber_entries {V} (A : Nd V) (axes : list nat) (k : list Z) : list (list Z * V) :=
  filter (fun e => if list_eq_dec Z.eq_dec (select axes (fst e)) k then true else false) (nd_entries A).
Definition fiber {V} (A : Nd V) (axes : list nat) (k : list Z) : list V := map snd (fiber_entries A axes k).

(** A list of distinct axes of an [ndim]-dimensional array. *)
Definition axes_ok (ndim : nat) (axes : list nat) : Prop := NoDup axes /\ Forall (fun d => (d < ndim)%nat) axes.

(** The axes of an [ndim]-dimensional array not listed, in increasing order. *)
Definition other_axes (ndim : nat) (axes : list nat) : list nat :=
  filter (fun d => negb (existsb (Nat.eqb d) axes)) (seq 0 ndim).

(** ** Broadcasting (NumPy rules): shapes are aligned on the right, missing
    dimensions count as 1, and a dimension 1 stretches to the other's size. *)
Definition pad_ones (d : nat) (sh : list Z) : list Z := repeat 1 (d - length sh) ++ sh.
Definition bdim (a b : Z) : Z := if a =? 1 then b else a.
Definition broadcast_shape (s t : list Z) : list Z :=
  let d := Nat.max (length s) (length t) in
  map (fun ab => bdim (fst ab) (snd ab)) (combine (pad_ones d s) (pad_ones d t)).
Definition broadcastable (s t : list Z) : Prop :=
  let d := Nat.max (length s) (length t) in
  Forall2 (fun a b => a = b \/ a = 1 \/ b = 1) (pad_ones d s) (pad_ones d t).
(** The cell of an operand of shape [sh] that output cell [k] reads. *)
Definition source_cell (sh k : list Z) : list Z :=
  map (fun nx => if fst nx =? 1 then 0 else snd nx) (combine sh (skipn (length k - length sh) k)).

(** All products of a value of [xs] with a value of [ys]. *)
Definition products {F : Fl} (xs ys : list F) : list F := concat (map (fun x => map (fmul x) ys) xs).

(** ** Contractions of one axis: the products stored value * x[coordinate along
    the axis] over the entries whose other coordinates are [k], in storage order. *)
Definition line_products {F : Fl} (A : Nd F) (axis : nat) (x : list F) (k : list Z) : list F :=
  map (fun e => fmul (snd e) (nth (Z.to_nat (nth axis (fst e) 0)) x f0))
      (fiber_entries A (other_axes (length (nd_shape A)) [axis]) k).

(** Element (i, c) of a row-major matrix [b] with [k] columns. *)
Definition matrix_at {F : Fl} (b : list F) (k : nat) (i : Z) (c : nat) : F :=
  nth (Z.to_nat (i * Z.of_nat k + Z.of_nat c)) b f0.
Definition matrix_products {F : Fl} (A : Nd F) (axis : nat) (b : list F) (k : nat) (key : list Z) (c : nat) : list F :=
  map (fun e => fmul (snd e) (matrix_at b k (nth axis (fst e) 0) c))
      (fiber_entries A (other_axes (length (nd_shape A)) [axis]) key).

(** Values of the entries whose row-major position over the axes [rows] is [r] and
    over the other axes is [c], in storage order. *)
Definition unfold_cell {V} (A : Nd V) (rows : list nat) (r c : Z) : list V :=
  let sh := nd_shape A in
  let cols := other_axes (length sh) rows in
  map snd (filter (fun e => (position (select rows sh) (select rows (fst e)) =? r) &&
                            (position (select cols sh) (select cols (fst e)) =? c)) (nd_entries A)).

(** ** Products of a 2-D matrix with dense operands.
    [cell i j] lists the values stored at row [i], column [j]. *)

(** The terms a(i,j) * x(j) of row [i], one per stored entry. *)
Definition dot_terms {F : Fl} (cell : nat -> nat -> list F) (n : nat) (x : list F) (i : nat) : list F :=
  flat_map (fun j => map (fun v => fmul v (nth j x f0)) (cell i j)) (seq 0 n).

(** The same without the terms whose x(j) is zero. *)
Definition dot_terms_nz {F : Fl} (cell : nat -> nat -> list F) (n : nat) (x : list F) (i : nat) : list F :=
  flat_map (fun j => if feqb (nth j x f0) f0 then [] else map (fun v => fmul v (nth j x f0)) (cell i j)) (seq 0 n).

(** The i-th element of the matrix-vector product; a cell's value is the sum of
    what is stored there. *)
Definition dot_exact {F : Fl} (cell : nat -> nat -> list F) (n : nat) (x : list F) (i : nat) : F :=
  fold_right fadd f0 (map (fun j => fmul (fold_right fadd f0 (cell i j)) (nth j x f0)) (seq 0 n)).

(** Column [c] of a row-major dense matrix with [n] rows and [k] columns. *)
Definition column {F : Fl} (b : list F) (n k c : nat) : list F := map (fun j => nth (j * k + c) b f0) (seq 0 n).

Definition transposed {V} (cell : nat -> nat -> list V) (i j : nat) : list V := cell j i.

(** Left-to-right fused multiply-add accumulation, starting from 0. *)
Definition fma_sum {F : Fl} (x : list F) (row : list (Z * F)) : F :=
  fold_left (fun acc e => ffma (snd e) (nth (Z.to_nat (fst e)) x f0) acc) row f0.
