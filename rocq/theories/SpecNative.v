(** Vocabulary for the functions of the extension module that take arrays: which arrays
    describe a matrix, the size limits, and the Python object that holds given arrays. *)
Require Import List ZArith Bool.
Require Import Verif.Res Verif.Values Verif.Spec Verif.SpecPy Verif.PConvert3 Verif.MPy Verif.MObj Verif.SpecObj Verif.MNative.
Import ListNotations.
Local Open Scope Z_scope.

Section Native.
Context {F : Fl}.

(** What NumPy guarantees of array arguments: 64-bit integers, fewer than 2^63 - 1 elements. *)
Definition int_array (l : list Z) : Prop := Forall is_i64 l /\ alloc_ok (length l).
Definition numpy_arrays (x : raw F) : Prop :=
  match x with
  | RCsr _ _ p i _ | RCsc _ _ p i _ => int_array p /\ int_array i
  | RCoo _ _ r c _ => int_array r /\ int_array c
  | RNd sh i _ => int_array sh /\ int_array i
  end.

(** The arrays describe a matrix: offsets and sorted distinct indices within bounds for CSR
    and CSC, coordinates within bounds for COO and COOND. *)
Definition valid (x : raw F) : Prop :=
  match x with
  | RCsr nr nc p i d => canonical (mkCs nr nc p i d)
  | RCsc nr nc p i d => canonical (mkCs nc nr p i d)
  | RCoo nr nc r c d => coo_ok (mkCoo nr nc r c d)
  | RNd sh i d => nd_ok (mkNd sh i d) /\ Forall (Z.le 0) sh
  end.

(** The arrays as a value, for the size limits of [fits]. *)
Definition arrays (x : raw F) : value F :=
  match x with
  | RCsr nr nc p i d => VCsr (mkPyCs (mkCs nr nc p i d) None)
  | RCsc nr nc p i d => VCsc (mkPyCs (mkCs nc nr p i d) None)
  | RCoo nr nc r c d => VCoo (mkPyCoo (mkCoo nr nc r c d) None)
  | RNd sh i d => VNd (mkNd sh i d)
  end.
Definition small (x : raw F) : Prop := fits (arrays x) = true.

Definition operands (f : native F) : list (raw F) :=
  match f with
  | NBinary _ x y => [x; y]
  | NUnary _ x | NScalar _ x _ | NSpmv x _ | NSpmm x _ _ _ | NTensordot x _ _ _ | NVecdot x _ _
  | NTotal _ x | NRows _ x | NCols _ x | NCum _ x _ | NDiff x _ _ | NNd _ x | NConvert _ x => [x]
  end.

(** Number of elements of the result of a product or a broadcast, from the shapes alone
    (every dimension counted as at least one). *)
Definition left_cells (x : raw F) : Z :=
  match x with
  | RCsr nr _ _ _ _ | RCsc nr _ _ _ _ | RCoo nr _ _ _ _ => Z.max 1 (Z.of_nat nr)
  | RNd sh _ _ => shape_cells sh
  end.
Definition result_cells (f : native F) : Z :=
  match f with
  | NBinary BMul (RNd sh _ _) (RNd sh' _ _) => shape_cells (broadcast_shape sh sh')
  | NSpmm x r k _ => left_cells x * shape_cells [Z.of_nat r; Z.of_nat k]
  | NTensordot x _ _ sh => left_cells x * shape_cells sh
  | NVecdot x _ v => left_cells x * shape_cells [Z.of_nat (length v)]
  | NSpmv x v => left_cells x * shape_cells [Z.of_nat (length v)]
  | _ => 0
  end.
(** The returned arrays describe a matrix; an N-D result without dimensions is one value that
    the constructors refuse. *)
Definition describes (v : value F) : Prop :=
  match v with VNd A => nd_shape A <> [] -> nd_ok A | _ => intact v end.
Definition within_limits (f : native F) : Prop :=
  Forall numpy_arrays (operands f) /\ Forall small (operands f) /\ result_cells f < i64_max.

(** A Python object whose attributes are the given arrays and whose native handle, if there
    is one, holds the same. *)
Definition holds (x : raw F) (v : value F) : Prop :=
  match x, v with
  | RCsr nr nc p i d, VCsr X => py_arrays X = mkCs nr nc p i d /\ in_sync (VCsr X)
  | RCsc nr nc p i d, VCsc X => py_arrays X = mkCs nc nr p i d /\ in_sync (VCsc X)
  | RCoo nr nc r c d, VCoo X => pyc_arrays X = mkCoo nr nc r c d /\ in_sync (VCoo X)
  | RNd sh i d, VNd A => A = mkNd sh i d
  | _, _ => False
  end.
(** The attributes of an object, without the handle. *)
Definition attributes (v : value F) : value F :=
  match v with
  | VCsr X => VCsr (mkPyCs (py_arrays X) None)
  | VCsc X => VCsc (mkPyCs (py_arrays X) None)
  | VCoo X => VCoo (mkPyCoo (pyc_arrays X) None)
  | _ => v
  end.

(** Which functions the module has (the others do not exist). *)
Definition provided (f : native F) : bool :=
  match f with
  | NUnary (NAbs | NSign) _ => true
  | NUnary NTranspose (RNd _ _ _) => false
  | NUnary NTranspose _ => true
  | NUnary _ (RCsr _ _ _ _ _) => true
  | NUnary _ _ => false
  | NScalar SDiv _ _ => false
  | NScalar _ _ _ => true
  | NBinary _ (RCsr _ _ _ _ _) (RCsr _ _ _ _ _) => true
  | NBinary (BDiv | BFloorDiv | BMod | BPow) (RCsc _ _ _ _ _) (RCsc _ _ _ _ _) => true
  | NBinary BMul (RNd _ _ _) (RNd _ _ _) => true
  | NBinary _ _ _ => false
  | NSpmv (RCsr _ _ _ _ _) _ | NSpmm (RCsr _ _ _ _ _) _ _ _ => true
  | NSpmv _ _ | NSpmm _ _ _ _ => false
  | NTensordot _ _ _ _ | NVecdot _ _ _ => true
  | NTotal RCount _ => false
  | NTotal RSum (RCsr _ _ _ _ _ | RNd _ _ _) | NTotal RMean (RNd _ _ _) => true
  | NTotal (RSum | RMean) _ | NTotal (RMin | RMax) (RNd _ _ _) => false
  | NTotal _ _ => true
  | NRows (RMean | RCount) _ | NCols (RMean | RCount) _ => false
  | NRows _ (RNd _ _ _) | NCols _ (RNd _ _ _) => false
  | NRows RSum (RCsr _ _ _ _ _) | NCols RSum (RCsr _ _ _ _ _) => true
  | NRows RSum _ | NCols RSum _ => false
  | NRows _ _ | NCols _ _ => true
  | NCum _ (RNd _ _ _) _ | NDiff (RNd _ _ _) _ _ => false
  | NCum _ _ _ | NDiff _ _ _ => true
  | NNd _ (RNd _ _ _) => true
  | NNd _ _ => false
  | NConvert (ToCsc | ToCoo) (RCsr _ _ _ _ _) | NConvert (ToCsr | ToCoo) (RCsc _ _ _ _ _)
  | NConvert (ToCsr | ToCsc) (RCoo _ _ _ _ _) => true
  | NConvert _ _ => false
  end.

(** Object [a] of the heap holds the arrays [x]. *)
Definition object (h : list (value F)) (a : nat) (x : raw F) : Prop := exists v, nth_error h a = Some v /\ holds x v.

(** The call of the package that does the same as a function of the extension module. Sums
    per row are reductions along axis 1, per column along axis 0. *)
Inductive counterpart (h : list (value F)) : native F -> call F -> Prop :=
| CpAbs x a : object h a x -> counterpart h (NUnary NAbs x) (Unary UAbs a)
| CpSign x a : object h a x -> counterpart h (NUnary NSign x) (Unary USign a)
| CpTranspose x a : object h a x -> counterpart h (NUnary NTranspose x) (Unary UT a)
| CpPrune x a eps : object h a x -> counterpart h (NUnary (NPrune eps) x) (Unary (UPrune eps) a)
| CpElim x a : object h a x -> counterpart h (NUnary NElim x) (Unary UElim a)
| CpScalar op x a alpha : object h a x -> counterpart h (NScalar op x alpha) (Scalar op a alpha)
| CpNeg x a : object h a x -> counterpart h (NScalar SMul x (fneg f1)) (Unary UNeg a)
| CpDiv x a alpha : object h a x -> counterpart h (NScalar SMul x (fdiv f1 alpha)) (Scalar SDiv a alpha)
| CpBinary op x y a b : object h a x -> object h b y -> counterpart h (NBinary op x y) (Binary op a b)
| CpSpmv x a b v : object h a x -> nth_error h b = Some (VArr [length v] v) -> counterpart h (NSpmv x v) (Matmul a b)
| CpSpmm x a b r k d : object h a x -> nth_error h b = Some (VArr [r; k] d) -> length d = (r * k)%nat ->
    counterpart h (NSpmm x r k d) (Matmul a b)
| CpTensordot sh i d a b ax bsh bd : object h a (RNd sh i d) -> nth_error h b = Some (VArr bsh bd) ->
    counterpart h (NTensordot (RNd sh i d) ax bd (map Z.of_nat bsh)) (Tensordot a b (Some ax))
| CpVecdot sh i d a b ax v : object h a (RNd sh i d) -> nth_error h b = Some (VArr [length v] v) -> ax <> -1 ->
    counterpart h (NVecdot (RNd sh i d) ax v) (Vecdot a b (Some ax))
| CpVecdot0 x a b v : object h a x -> nth_error h b = Some (VArr [length v] v) ->
    counterpart h (NVecdot x 0 v) (Vecdot a b (Some 0))
| CpTotal op x a : object h a x -> counterpart h (NTotal op x) (Reduce op a AxNone false)
| CpRows op x a : object h a x -> counterpart h (NRows op x) (Reduce op a (AxInt 1) false)
| CpCols op x a : object h a x -> counterpart h (NCols op x) (Reduce op a (AxInt 0) false)
| CpCum op x a axis : object h a x -> axis = 0 \/ axis = 1 -> counterpart h (NCum op x axis) (Cum op a (AxInt axis))
| CpDiff x a n axis : object h a x -> axis = 0 \/ axis = 1 -> counterpart h (NDiff x n axis) (Diff a n axis)
| CpPermute x a axes : object h a x -> counterpart h (NNd (NdPermute axes) x) (Permute a axes)
| CpReshape x a sh : object h a x -> counterpart h (NNd (NdReshape sh) x) (Reshape a sh)
| CpReduce op x a axes : object h a x -> counterpart h (NNd (NdReduce op axes) x) (ReduceAxes op a axes)
| CpUnfold f x a rows : object h a x -> counterpart h (NNd (NdUnfold f rows) x) (Unfold f a rows)
| CpMode f x a m : object h a x -> counterpart h (NNd (NdMode f m) x) (Mode f a (Z.of_nat m)).
End Native.
