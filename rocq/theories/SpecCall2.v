(** Vocabulary for products of the matrices of a running program with dense arrays. *)
Require Import List ZArith Bool Permutation.
Require Import Verif.Res Verif.Values Verif.Spec Verif.SpecReduce Verif.SpecPy Verif.MPy Verif.MObj Verif.SpecObj Verif.SpecCall.
Import ListNotations.
Local Open Scope Z_scope.

(** The entries of a row with the columns 0, ..., n - 1, from left to right. *)
Definition by_column {V} (cell : nat -> list V) (n : nat) : list (Z * V) :=
  flat_map (fun j => map (fun v => (Z.of_nat j, v)) (cell j)) (seq 0 n).

(** A row of [x] times a vector: CSR uses fused multiply-adds from left to right, the others
    add the products in some order. *)
Definition row_times {F : Fl} (x : value F) (i : nat) (v : list F) (r : F) : Prop :=
  match x with
  | VCsr _ => r = fma_sum v (by_column (fun j => stored x i j) (snd (shape2 x)))
  | _ => FSum (dot_terms (stored x) (snd (shape2 x)) v i) r
  end.
(** The same for a column (CSC: fused; the others leave out the rows where the vector is zero). *)
Definition col_times {F : Fl} (x : value F) (j : nat) (v : list F) (r : F) : Prop :=
  match x with
  | VCsc _ => r = fma_sum v (by_column (fun i => stored x i j) (fst (shape2 x)))
  | _ => FSum (dot_terms_nz (transposed (stored x)) (fst (shape2 x)) v j) r
  end.
(** The CSR product with a matrix panics if it has no columns (C31). *)
Definition columns_ok {F : Fl} (x : value F) (k : nat) : Prop := match x with VCsr _ => (0 < k)%nat | _ => True end.


(** The number [toarray()] shows at a position: what is stored there or zero; COO adds it to
    zero, which turns -0 into +0. *)
Definition shown {F : Fl} (x : value F) (i j : nat) : F :=
  match x with
  | VCoo _ => fold_left fadd (stored x i j) f0
  | _ => one_or f0 (stored x i j)
  end.
(** The numbers of a dense array of floats, integers (rounded to float64) or booleans. *)
Definition floats {F : Fl} (y : value F) : option (list nat * list F) :=
  match y with
  | VArr sh d => Some (sh, d)
  | VInts sh d => Some (sh, map fofZ d)
  | VBools sh d => Some (sh, map (fun b : bool => if b then f1 else f0) d)
  | _ => None
  end.
(** An object as a dense array in row-major order. *)
Definition dense_form {F : Fl} (x : value F) : option (list nat * list F) :=
  match x with
  | VCsr _ | VCsc _ | VCoo _ => Some ([fst (shape2 x); snd (shape2 x)], concat (dense (fst (shape2 x)) (snd (shape2 x)) (shown x)))
  | VNd A => Some (map Z.to_nat (nd_shape A), map (fun k => fold_left fadd (nd_at A k) f0) (all_keys (nd_shape A)))
  | _ => floats x
  end.
(** N-D arrays whose shape has no negative dimension (one built without checks may have). *)
Definition plain_shape {F : Fl} (x : value F) : Prop := match x with VNd A => Forall (fun n => 0 <= n) (nd_shape A) | _ => True end.

(** The one axis of a matrix that an [axis] argument names, if it names exactly one. *)
Definition single_axis (axis : axis_arg) : option nat :=
  let of l := if forallb (axis_valid 2) l then match named_axes 2 l with [d] => Some d | _ => None end else None in
  match axis with AxNone => None | AxInt a => of [a] | AxTuple l => of l end.
(** The cumulative sum or product of the cells [js], in this order; [cell j] lists what is stored. *)
Definition accumulates {F : Fl} (op : cop) (cell : nat -> list F) (js : list nat) (v : F) : Prop :=
  match op with CumSum => FSum (flat_map cell js) v | CumProd => prod_spec cell js v end.
