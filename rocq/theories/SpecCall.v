(** Vocabulary for single calls on the objects of a running program: which states a program
    that passes regular arrays can reach, and what the stored values of an object are. *)
Require Import List ZArith Bool Permutation.
Require Import Verif.Res Verif.Values Verif.Spec Verif.SpecReduce Verif.SpecPy Verif.MPy Verif.MObj Verif.SpecObj.
Import ListNotations.
Local Open Scope Z_scope.

Section Call.
Context {F : Fl}.

(** Arrays without unsorted or repeated entries. [CSR(..., check=True)] checks this itself
    ([alloc_ok], [is_i64]: what NumPy ensures). *)
Definition regular_arguments (c : call F) : Prop :=
  match c with
  | NewCsr nr nc p i d check => alloc_ok (length p) /\ Forall is_i64 i /\ (check = true \/ canonical (mkCs nr nc p i d))
  | NewCsc nr nc p i d _ => canonical (mkCs nc nr p i d)
  | NewCoo nr nc r c d _ => coo_ok (mkCoo nr nc r c d) /\ single_valued (coo_at (mkCoo nr nc r c d))
  | NewNd sh i d _ => nd_ok (mkNd sh i d) /\ single_valued_nd (mkNd sh i d)
  | _ => True
  end.

(** The two calls that are left out: an assignment to an element of [data] (C57) and [diff]
    of a CSC matrix, whose result need not be sorted (C41, C51). *)
Definition excluded (h : list (value F)) (c : call F) : Prop :=
  match c with
  | SetData _ _ _ => True
  | Diff a _ _ => exists X, nth_error h a = Some (VCsc X)
  | _ => False
  end.

(** The states of a program: it starts without objects; every call runs in some fair
    environment of its own. (A call that raises changes nothing.) *)
Inductive reached : list (value F) -> Prop :=
| reached_start : reached []
| reached_call : forall h e c h', reached h -> fair e -> regular_arguments c -> ~ excluded h c ->
    demand h c < i64_max -> step e h c = Ok h' -> forallb fits h' = true -> reached h'.

(** Sorted and free of duplicates, with a native handle that holds the same arrays. *)
Definition regular (v : value F) : Prop :=
  match v with
  | VCsr X | VCsc X => canonical (py_arrays X) /\ py_handle X = Some (py_arrays X)
  | VCoo X => coo_ok (pyc_arrays X) /\ single_valued (coo_at (pyc_arrays X)) /\ pyc_handle X = Some (pyc_arrays X)
  | VNd A => nd_ok A /\ single_valued_nd A
  | VArr sh d => length d = fold_right Nat.mul 1%nat sh
  | VInts sh d => length d = fold_right Nat.mul 1%nat sh
  | VBools sh d => length d = fold_right Nat.mul 1%nat sh
  end.

(** The matrix classes. *)
Inductive class := CsrClass | CscClass | CooClass.
Definition class_of (v : value F) : option class :=
  match v with VCsr _ => Some CsrClass | VCsc _ => Some CscClass | VCoo _ => Some CooClass | _ => None end.
Definition shape2 (v : value F) : nat * nat :=
  match v with
  | VCsr X => (csr_nrows (py_arrays X), csr_ncols (py_arrays X))
  | VCsc X => (csc_nrows (py_arrays X), csc_ncols (py_arrays X))
  | VCoo X => (coo_nrows (pyc_arrays X), coo_ncols (pyc_arrays X))
  | _ => (0, 0)%nat
  end.
(** The values an object's arrays store for row [i], column [j]: none or one for regular objects. *)
Definition stored (v : value F) (i j : nat) : list F :=
  match v with
  | VCsr X => csr_at (py_arrays X) i j
  | VCsc X => csc_at (py_arrays X) i j
  | VCoo X => coo_at (pyc_arrays X) i j
  | _ => []
  end.

(** An object's [data] array, and the object with another one. *)
Definition data_array (v : value F) : option (list F) :=
  match v with
  | VCsr X | VCsc X => Some (dat (py_arrays X))
  | VCoo X => Some (coo_data (pyc_arrays X))
  | VNd A => Some (nd_dat A)
  | _ => None
  end.
Definition with_data (v : value F) (d : list F) : value F :=
  let cs X := mkPyCs (mkCs (major (py_arrays X)) (minor (py_arrays X)) (ptr (py_arrays X)) (idx (py_arrays X)) d) (py_handle X) in
  match v with
  | VCsr X => VCsr (cs X)
  | VCsc X => VCsc (cs X)
  | VCoo X => let A := pyc_arrays X in VCoo (mkPyCoo (mkCoo (coo_nrows A) (coo_ncols A) (coo_row A) (coo_col A) d) (pyc_handle X))
  | VNd A => VNd (mkNd (nd_shape A) (nd_idx A) d)
  | _ => v
  end.

(** What the operators do to one stored value. Dividing by a number multiplies by its
    reciprocal (C53); multiplying by 1 copies and by 0 clears (C16). *)
Definition times (alpha v : F) : F := if feqb alpha f1 then v else if feqb alpha f0 then f0 else fmul v alpha.
Definition scalar_value (op : sop) (alpha v : F) : F :=
  match op with
  | SMul => times alpha v
  | SDiv => times (fdiv f1 alpha) v
  | SFloorDiv => ffloor (fdiv v alpha)
  | SMod => fsub v (fmul alpha (ffloor (fdiv v alpha)))
  | SPow => fpow v alpha
  end.
(** [/], [//] and [%] by zero raise. *)
Definition scalar_raises (op : sop) (alpha : F) : bool :=
  match op with SDiv | SFloorDiv | SMod => feqb alpha f0 | _ => false end.
(** abs, sign and negation of one stored value. *)
Definition unary_value (op : uop (F := F)) (v : F) : F :=
  match op with
  | UAbs => fabs v
  | USign => if fnan v then v else if fltb f0 v then f1 else if fltb v f0 then fneg f1 else f0
  | UNeg => times (fneg f1) v
  | _ => v
  end.
Definition is_map (op : uop (F := F)) : bool := match op with UAbs | USign | UNeg => true | _ => false end.

(** What the operators that act where both operands store a value leave there: [v] is x*y,
    x/y, floor(x/y), x - y*floor(x/y) or x**y (for powers a zero counts as +0), unless it is
    zero or, except for products, infinite or NaN. Division needs a divisor other than zero. *)
Definition combines (op : bop) (x y v : F) : Prop :=
  match op with
  | BMul => v = fmul x y /\ feqb v f0 = false
  | BDiv => feqb y f0 = false /\ v = fdiv x y /\ feqb v f0 = false /\ ffinite v = true
  | BFloorDiv => feqb y f0 = false /\ v = ffloor (fdiv x y) /\ feqb v f0 = false /\ ffinite v = true
  | BMod => feqb y f0 = false /\ v = fsub x (fmul y (ffloor (fdiv x y))) /\ feqb v f0 = false /\ ffinite v = true
  | BPow => v = fpow (fadd f0 x) (fadd f0 y) /\ feqb v f0 = false /\ ffinite v = true
  | BAdd | BSub => False
  end.
(** [+] and [-]. *)
Definition sum_of (op : bop) : option (F -> F -> F) := match op with BAdd => Some fadd | BSub => Some fsub | _ => None end.

(** The number a position counts as: zero where nothing is stored. *)
Definition cell (v : value F) (i j : nat) : F := one_or f0 (stored v i j).

(** [v] reduces the cells [js] ([cell j] lists the values stored there): a sum in some order
    and grouping, the product, a least or greatest cell, the variance of C38 and its root. *)
Definition reduces {J} (op : rop (F := F)) (cell : J -> list F) (js : list J) (v : F) : Prop :=
  match op with
  | RSum => FSum (flat_map cell js) v
  | RProd => prod_spec cell js v
  | RMin => least_or_0 (map (fun j => one_or f0 (cell j)) js) v
  | RMax => greatest_or_0 (map (fun j => one_or f0 (cell j)) js) v
  | RVar c => var_of (flat_map cell js) (Z.of_nat (length js)) c v
  | RStd c => exists w, v = fsqrt w /\ var_of (flat_map cell js) (Z.of_nat (length js)) c w
  | RMean => exists s, FSum (flat_map cell js) s /\ v = fdiv s (fofZ (Z.of_nat (length js)))
  | _ => False
  end.
(** [all] and [any] of the cells, and [count_nonzero], which counts stored entries (C45). *)
Definition decides {J} (op : rop (F := F)) (cell : J -> list F) (js : list J) : bool :=
  let nonzero j := negb (feqb (one_or f0 (cell j)) f0) in
  match op with RAll => forallb nonzero js | _ => existsb nonzero js end.
Definition counts {J} (cell : J -> list F) (js : list J) : Z := Z.of_nat (length (flat_map cell js)).

(** What a reduction needs: minima and maxima of matrices that store no NaN, computed with
    operations that return the smaller (greater) of two numbers; a mean of some cells. *)
Definition can_reduce (e : Env F) (op : rop (F := F)) (x : value F) : Prop :=
  let m := fst (shape2 x) in let n := snd (shape2 x) in
  match op with
  | RMin => is_min (e_vmin e) /\ is_min (e_smin e) /\ no_nan (matrix_values (stored x) m n)
  | RMax => is_max (e_vmax e) /\ is_max (e_smax e) /\ no_nan (matrix_values (stored x) m n)
  | RMean => m <> 0%nat /\ n <> 0%nat
  | _ => True
  end.
Definition numeric (op : rop (F := F)) : bool := match op with RAll | RAny | RCount => false | _ => true end.

(** What a reduction returns: one number, or one per column or row. *)
Definition reduction_result {V} (mk : list nat -> list V -> value F) (total : V) (cols rows : list V) (axis : axis_arg) (kd : bool) (h : list (value F)) : res (list (value F)) :=
  match reduction_2d total cols rows axis kd with
  | Some (sh, d) => Ok (h ++ [mk sh d])
  | None => Panic
  end.
End Call.
