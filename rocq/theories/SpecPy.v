(** Specification vocabulary for the Python layer. *)
Require Import List ZArith Bool Sorted.
Require Import Verif.Values Verif.Spec.
Import ListNotations.
Local Open Scope Z_scope.

(** The dense m x n matrix with the given cells, as a list of rows. *)
Definition dense {A} (m n : nat) (g : nat -> nat -> A) : list (list A) :=
  map (fun i => map (g i) (seq 0 n)) (seq 0 m).

(** [np.searchsorted(xs, j)] (side "left"): on a sorted array, the number of elements
    smaller than [j]. Nothing is assumed about unsorted arrays. *)
Definition is_searchsorted (ss : list Z -> Z -> nat) : Prop :=
  forall xs j, StronglySorted Z.le xs -> ss xs j = length (filter (fun x => x <? j) xs).

(** How many cells of a row / column / matrix are nonzero. *)
Definition count_row {F : Fl} (cell : nat -> nat -> F) (n i : nat) : nat :=
  length (filter (fun j => nonzero (cell i j)) (seq 0 n)).
Definition count_col {F : Fl} (cell : nat -> nat -> F) (m j : nat) : nat :=
  length (filter (fun i => nonzero (cell i j)) (seq 0 m)).
Definition count_all {F : Fl} (cell : nat -> nat -> F) (m n : nat) : nat :=
  length (filter (fun ij => nonzero (cell (fst ij) (snd ij))) (list_prod (seq 0 m) (seq 0 n))).

(** Batch [q] of a row-major stack of [size]-element matrices. *)
Definition batch {A} (size q : nat) (l : list A) : list A := slice (q * size) (S q * size) l.

(** The element of a row-major array that cell [k] of a broadcast result reads. *)
Definition array_at {F : Fl} (s : list nat) (d : list F) (k : list Z) : F :=
  nth (Z.to_nat (position (map Z.of_nat s) (source_cell (map Z.of_nat s) k))) d f0.

(** ** Axis arguments: [axis=None], an integer, or a tuple. *)
Inductive axis_arg := AxNone | AxInt (a : Z) | AxTuple (l : list Z).

(** An axis number may be counted from the end. *)
Definition names_axis (ndim : nat) (a : Z) (d : nat) : bool := (a =? Z.of_nat d) || (a =? Z.of_nat d - Z.of_nat ndim).
Definition axis_valid (ndim : nat) (a : Z) : bool := (- Z.of_nat ndim <=? a) && (a <? Z.of_nat ndim).

(** The axes named by a list of axis numbers, in increasing order. *)
Definition named_axes (ndim : nat) (l : list Z) : list nat :=
  filter (fun d => existsb (fun a => names_axis ndim a d) l) (seq 0 ndim).

(** The shape and the values of a reduction of a matrix: [whole] is the reduction of
    all cells, [percol] that of every column, [perrow] that of every row. No result for
    an axis out of range or an empty tuple. *)
Definition reduction_2d {A} (whole : A) (percol perrow : list A) (axis : axis_arg) (keepdims : bool)
    : option (list nat * list A) :=
  let all := Some (if keepdims then [1; 1]%nat else [], [whole]) in
  let of (l : list Z) :=
    if forallb (axis_valid 2) l then
      match existsb (fun a => names_axis 2 a 0) l, existsb (fun a => names_axis 2 a 1) l with
      | true, true => all
      | true, false => Some (if keepdims then [1; length percol]%nat else [length percol], percol)
      | false, true => Some (if keepdims then [length perrow; 1]%nat else [length perrow], perrow)
      | false, false => None
      end
    else None in
  match axis with
  | AxNone => all
  | AxInt a => of [a]
  | AxTuple l => of l
  end.
