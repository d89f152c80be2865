(** Model of programs that use the Python package: a heap of objects and a sequence of
    calls on them. Each call dispatches on the class of its operands exactly as
    python/lacuna/sparse/*.py and python/lacuna/array_api do, takes the native handle or
    the object's arrays, runs the kernel model and wraps the result with [check=False].

    Conventions: a raised exception (Python or Rust panic) is [Panic] and leaves the heap
    as it was. Operands that the package forwards to NumPy (two dense arrays) are not
    modelled and give [Panic]. An object copies the arrays it is built from; two objects
    built from the same NumPy array share it in the program, which is not modelled.
    Array arguments are taken to be C-contiguous and of the right dtype. *)
Require Import List ZArith Bool Arith.
Require Import Verif.Res Verif.Values Verif.Spec Verif.Mem Verif.SpecPy Verif.MCore Verif.MElementwise Verif.MScalar Verif.MConvert Verif.MHash Verif.MAcc Verif.MLinalg Verif.MReduce Verif.MStat Verif.MCum Verif.MNd Verif.MNd2 Verif.MPy.
Import ListNotations.
Local Open Scope Z_scope.

Section Obj.
Context {F : Fl}.
Notation ops := (list (Z * F)).

(** ** What the environment decides during one call: thread counts, the order in which
    parallel steps happen, the results of unstable sorts, and the other choices the
    kernel models leave open. A call that runs a kernel twice uses two of the indexed
    choices. e.g. [par_iter] / [par_chunks] at elementwise/add.rs L199-L260, the atomic
    cursors of linalg/matrix_transpose.rs L237-L290, rayon's [current_num_threads]. *)
Record Env := mkEnv {
  e_threads : nat;
  e_il : nat -> list (list (Z * (Z * F))) -> list (Z * (Z * F));
  e_ilo : list ops -> ops;
  e_sch : nat -> list (nat * (Z * F)) -> list (nat * (Z * F));
  e_schv : list (nat * F) -> list (nat * F);
  e_schc : list (nat * (Z * (Z * F))) -> list (nat * (Z * (Z * F)));
  e_schz : nat -> list (nat * Z) -> list (nat * Z);
  e_schu : list (nat * (Z * Z)) -> list (nat * (Z * Z));
  e_dist : list ops -> list (list ops);
  e_srt : nat -> ops -> ops;
  e_srt2 : list ((Z * Z) * F) -> list ((Z * Z) * F);
  e_ord : list Z -> list Z;
  e_split : Split;
  e_zero : F;
  e_vmin : F -> F -> F; e_smin : F -> F -> F;
  e_vmax : F -> F -> F; e_smax : F -> F -> F;
  e_search : list Z -> Z -> nat
}.

(** ** Values: the classes of csr.py L25-L105, csc.py L11-L75, coo.py L11-L75,
    coond.py L33-L108, and NumPy arrays. *)
Inductive value :=
| VCsr (X : @PyCs F)
| VCsc (X : @PyCs F)
| VCoo (X : @PyCoo F)
| VNd (A : Nd F)
| VArr (sh : list nat) (d : list F)      (* NumPy float array; a float is an array of shape () *)
| VInts (sh : list nat) (d : list Z)
| VBools (sh : list nat) (d : list bool).

(** Results: the tuple of arrays returned by the native call goes to the constructor with
    [check=False], e.g. csr.py L316, L344, L400, L469. *)
Definition csr_new (A : Csr F) : res value :=
  let! X := csr_init (csr_nrows A) (csr_ncols A) (ptr A) (idx A) (dat A) false in Ok (VCsr X).
(** e.g. csc.py L152, L173, L205 *)
Definition csc_new (A : Csc F) : res value :=
  let! X := csc_init (csc_nrows A) (csc_ncols A) (ptr A) (idx A) (dat A) false in Ok (VCsc X).
(** e.g. coo.py L152-L178 *)
Definition coo_new (A : Coo F) : res value :=
  let! X := coo_init (coo_nrows A) (coo_ncols A) (coo_row A) (coo_col A) (coo_data A) false in Ok (VCoo X).
(** e.g. coond.py L172-L174; the native side returns the shape through
    [convert_shape_usize_to_i64] (array_api/helpers.rs L55-L60), which panics for a
    dimension above [i64::MAX]. *)
Definition nd_new (A : Nd F) : res value :=
  assert! forallb (fun n => n <=? i64_max) (nd_shape A) ;;
  let! X := nd_init (nd_shape A) (nd_idx A) (nd_dat A) false in Ok (VNd X).

(** The [*_from_parts] functions of the extension rebuild the native matrix from the
    object's arrays with [check=False] and raise ValueError when that fails, e.g.
    array_api/linalg.rs L32-L40. *)
Definition csr_parts (X : @PyCs F) : res (Csr F) :=
  let A := py_arrays X in
  match csr_from_parts (csr_nrows A) (csr_ncols A) (ptr A) (idx A) (dat A) false with
  | Some B => Ok B | None => Panic end.
(** array_api/linalg.rs L98-L106 *)
Definition csc_parts (X : @PyCs F) : res (Csc F) :=
  let A := py_arrays X in
  match csc_from_parts (csc_nrows A) (csc_ncols A) (ptr A) (idx A) (dat A) false with
  | Some B => Ok B | None => Panic end.
(** array_api/linalg.rs L140-L148 *)
Definition coo_parts (X : @PyCoo F) : res (Coo F) :=
  let A := pyc_arrays X in
  let! o := coo_from_parts (coo_nrows A) (coo_ncols A) (coo_row A) (coo_col A) (coo_data A) false in
  match o with Some B => Ok B | None => Panic end.
(** array_api/linalg.rs L186-L193; negative dimensions are rejected by
    [convert_shape_i64_to_usize] (helpers.rs L9-L24). *)
Definition nd_parts (A : Nd F) : res (Nd F) :=
  assert! forallb (Z.leb 0) (nd_shape A) ;;
  let! o := nd_from_parts (nd_shape A) (nd_idx A) (nd_dat A) false in
  match o with Some B => Ok B | None => Panic end.

(** The handle if there is one, otherwise the arrays: csr.py L242-L245, L279-L294,
    L313-L319, L341-L348, L366-L374, L397-L405. *)
Definition csr_use (X : @PyCs F) : res (Csr F) :=
  match py_handle X with Some A => Ok A | None => csr_parts X end.
(** Handle or RuntimeError: csc.py L109-L119, L133-L135, L148-L150, L158-L160, L168-L170. *)
Definition csc_use (X : @PyCs F) : res (Csc F) :=
  match py_handle X with Some A => Ok A | None => Panic end.
(** coo.py L109-L178 *)
Definition coo_use (X : @PyCoo F) : res (Coo F) :=
  match pyc_handle X with Some A => Ok A | None => Panic end.
(** Both handles, otherwise both sets of arrays: csr.py L449-L457, L476-L483, L553-L560,
    L614-L621, L641-L648. *)
Definition csr_both (X Y : @PyCs F) : res (Csr F * Csr F) :=
  match py_handle X, py_handle Y with
  | Some A, Some B => Ok (A, B)
  | _, _ => let! A := csr_parts X in let! B := csr_parts Y in Ok (A, B)
  end.
(** csr.py L509-L511, L531-L533 *)
Definition csr_both_parts (X Y : @PyCs F) : res (Csr F * Csr F) :=
  let! A := csr_parts X in let! B := csr_parts Y in Ok (A, B).
(** csc.py L201-L206, L214-L219, L227-L232 *)
Definition csc_both_use (X Y : @PyCs F) : res (Csc F * Csc F) :=
  let! A := csc_use X in let! B := csc_use Y in Ok (A, B).
(** csc.py L239-L257, L311-L329 *)
Definition csc_both (X Y : @PyCs F) : res (Csc F * Csc F) :=
  match py_handle X, py_handle Y with
  | Some A, Some B => Ok (A, B)
  | _, _ => let! A := csc_parts X in let! B := csc_parts Y in Ok (A, B)
  end.
(** csc.py L267-L285, L287-L305 *)
Definition csc_both_parts (X Y : @PyCs F) : res (Csc F * Csc F) :=
  let! A := csc_parts X in let! B := csc_parts Y in Ok (A, B).

(** ** Calls. Operands are positions in the heap.
    [abs], [sign], [-x], [prune], [eliminate_zeros], [T]: csr.py L298-L424 *)
Inductive uop := UAbs | USign | UNeg | UPrune (eps : F) | UElim | UT.
(** [x * a], [x / a], [x // a], [x % a], [x ** a]: csr.py L376-L407, L499-L608 *)
Inductive sop := SMul | SDiv | SFloorDiv | SMod | SPow.
(** [x + y], ...: csr.py L426-L662 *)
Inductive bop := BAdd | BSub | BMul | BDiv | BFloorDiv | BMod | BPow.
(** array_api/_dispatch/reductions.py L77-L474, L595-L712 *)
Inductive rop := RSum | RMean | RProd | RMin | RMax | RVar (correction : F) | RStd (correction : F) | RAll | RAny | RCount.
(** reductions.py L515-L592 *)
Inductive cop := CumSum | CumProd.
(** coond.py L270-L341 *)
Inductive fmt := FCsr | FCsc.
(** coond.py L153-L174, L199-L220 *)
Inductive ndred := NSum | NMean.

(** The calls: constructors and methods of csr.py L65-L736, csc.py L62-L388, coo.py
    L62-L261, coond.py L98-L408, the functions of array_api/linalg/__init__.py L17-L194 and
    array_api/_dispatch, and the assignment [x.data[k] = v]. *)
Inductive call :=
| NewCsr (nrows ncols : nat) (indptr indices : list Z) (data : list F) (check : bool)
| NewCsc (nrows ncols : nat) (indptr indices : list Z) (data : list F) (check : bool)
| NewCoo (nrows ncols : nat) (row col : list Z) (data : list F) (check : bool)
| NewNd (shape indices : list Z) (data : list F) (check : bool)
| NewArr (shape : list nat) (data : list F)
| Zeros (nrows ncols : nat)
| Eye (n : nat)
| Diag (d : list F)
| Unary (op : uop) (a : nat)
| Scalar (op : sop) (a : nat) (alpha : F)
| Binary (op : bop) (a b : nat)
| Matmul (a b : nat)
| Tensordot (a b : nat) (axis : option Z)
| Vecdot (a b : nat) (axis : option Z)
| Reduce (op : rop) (a : nat) (axis : axis_arg) (keepdims : bool)
| Cum (op : cop) (a : nat) (axis : axis_arg)
| Diff (a : nat) (n : nat) (axis : Z)
| GetItem (a : nat) (i j : Z)
| GetRow (a : nat) (i : Z)
| GetCol (a : nat) (j : Z)
| ToArray (a : nat)
| Compare (c : cmp) (a b : nat)
| Permute (a : nat) (axes : list Z)
| Reshape (a : nat) (shape : list Z)
| ReduceAxes (op : ndred) (a : nat) (axes : list Z)
| Unfold (f : fmt) (a : nat) (rows : list Z)
| Mode (f : fmt) (a : nat) (axis : Z)
| SetData (a : nat) (k : Z) (v : F).

Variable e : Env.

(** ** Unary operations and scalar operators *)

(** abs: csr.py L412-L417, csc.py L180-L186, coo.py L183-L189, coond.py L390-L398.
    sign: csr.py L419-L424, csc.py L188-L194, coo.py L191-L197, coond.py L400-L408.
    neg: csr.py L409-L410, csc.py L177-L178, coo.py L180-L181, coond.py L380-L388.
    prune, eliminate_zeros: csr.py L321-L374, csc.py L144-L162, coo.py L144-L165 (COOND has neither).
    T: csr.py L298-L319, csc.py L377-L388, coo.py L250-L261 (COOND has none). *)
Definition do_unary (op : uop) (x : value) : res value :=
  match op, x with
  | UAbs, VCsr X => let! A := csr_parts X in let! B := abs_csr A in csr_new B
  | UAbs, VCsc X => let! A := csc_parts X in let! B := abs_csc A in csc_new B
  | UAbs, VCoo X => let! A := coo_parts X in let! B := abs_coo A in coo_new B
  | UAbs, VNd X => let! A := nd_parts X in let! B := abs_coond A in nd_new B
  | USign, VCsr X => let! A := csr_parts X in let! B := sign_csr A in csr_new B
  | USign, VCsc X => let! A := csc_parts X in let! B := sign_csc A in csc_new B
  | USign, VCoo X => let! A := coo_parts X in let! B := sign_coo A in coo_new B
  | USign, VNd X => let! A := nd_parts X in let! B := sign_coond A in nd_new B
  | UNeg, VCsr X => let! A := csr_use X in let! B := py_neg mul_scalar_csr A in csr_new B
  | UNeg, VCsc X => let! A := csc_use X in let! B := py_neg mul_scalar_csc A in csc_new B
  | UNeg, VCoo X => let! A := coo_use X in let! B := py_neg mul_scalar_coo A in coo_new B
  | UNeg, VNd X => let! A := nd_parts X in let! B := py_neg mul_scalar_coond A in nd_new B
  | UPrune eps, VCsr X => let! A := csr_use X in let! B := prune_csr (e_sch e 0) eps A in csr_new B
  | UPrune eps, VCsc X => let! A := csc_use X in let! B := prune_csc (e_sch e 0) eps A in csc_new B
  | UPrune eps, VCoo X => let! A := coo_use X in let! B := prune_coo eps A in coo_new B
  | UElim, VCsr X => let! A := csr_use X in let! B := eliminate_zeros_csr (e_sch e 0) A in csr_new B
  | UElim, VCsc X => let! A := csc_use X in let! B := eliminate_zeros_csc (e_sch e 0) A in csc_new B
  | UElim, VCoo X => let! A := coo_use X in let! B := eliminate_zeros_coo A in coo_new B
  | UT, VCsr X => let! A := csr_use X in let! B := transpose_csr (e_threads e) (e_il e 0) (e_sch e 0) (e_srt e 0) A in csr_new B
  | UT, VCsc X => let! B := csc_T (transpose_csc (e_threads e) (e_il e 0) (e_sch e 0) (e_srt e 0)) X in csc_new B
  | UT, VCoo X =>
      let! A := match pyc_handle X with Some A => Ok A | None => coo_parts X end in coo_new (transpose_coo A)
  | _, _ => Panic
  end.

(** csr.py L376-L407, L499-L503, L576-L608; csc.py L164-L175, L261-L265, L333-L363;
    coo.py L167-L178, L199-L234; coond.py L343-L378 *)
Definition do_scalar (op : sop) (x : value) (alpha : F) : res value :=
  match op, x with
  | SMul, VCsr X => let! A := csr_use X in let! B := py_mul mul_scalar_csr A alpha in csr_new B
  | SMul, VCsc X => let! A := csc_use X in let! B := py_mul mul_scalar_csc A alpha in csc_new B
  | SMul, VCoo X => let! A := coo_use X in let! B := py_mul mul_scalar_coo A alpha in coo_new B
  | SDiv, VCsr X => let! A := csr_use X in let! B := py_truediv mul_scalar_csr A alpha in csr_new B
  | SDiv, VCsc X => let! A := csc_use X in let! B := py_truediv mul_scalar_csc A alpha in csc_new B
  | SDiv, VCoo X => let! A := coo_use X in let! B := py_truediv mul_scalar_coo A alpha in coo_new B
  | SFloorDiv, VCsr X => let! A := csr_parts X in let! B := py_floordiv floordiv_scalar_csr A alpha in csr_new B
  | SFloorDiv, VCsc X => let! A := csc_parts X in let! B := py_floordiv floordiv_scalar_csc A alpha in csc_new B
  | SFloorDiv, VCoo X => let! A := coo_parts X in let! B := py_floordiv floordiv_scalar_coo A alpha in coo_new B
  | SFloorDiv, VNd X => let! A := nd_parts X in let! B := py_floordiv floordiv_scalar_coond A alpha in nd_new B
  | SMod, VCsr X => let! A := csr_parts X in let! B := py_mod rem_scalar_csr A alpha in csr_new B
  | SMod, VCsc X => let! A := csc_parts X in let! B := py_mod rem_scalar_csc A alpha in csc_new B
  | SMod, VCoo X => let! A := coo_parts X in let! B := py_mod rem_scalar_coo A alpha in coo_new B
  | SMod, VNd X => let! A := nd_parts X in let! B := py_mod rem_scalar_coond A alpha in nd_new B
  | SPow, VCsr X => let! A := csr_parts X in let! B := py_pow pow_scalar_csr A alpha in csr_new B
  | SPow, VCsc X => let! A := csc_parts X in let! B := py_pow pow_scalar_csc A alpha in csc_new B
  | SPow, VCoo X => let! A := coo_parts X in let! B := py_pow pow_scalar_coo A alpha in coo_new B
  | SPow, VNd X => let! A := nd_parts X in let! B := py_pow pow_scalar_coond A alpha in nd_new B
  | _, _ => Panic
  end.

(** ** Binary operations of two objects of the same class: csr.py L426-L497, L505-L574,
    L610-L662; csc.py L196-L331; the product of two COOND broadcasts (coond.py L240-L268,
    array_api/_dispatch/elementwise.py L234-L235). COO has none. *)
Definition do_binary (op : bop) (x y : value) : res value :=
  match x, y with
  | VCsr X, VCsr Y =>
      match op with
      | BAdd => let! (A, B) := csr_both X Y in let! C := add_csr (e_sch e 0) A B in csr_new C
      | BSub => let! (A, B) := csr_both X Y in let! C := sub_csr (e_sch e 0) A B in csr_new C
      | BMul => let! (A, B) := csr_both X Y in let! C := hadamard_csr (e_sch e 0) A B in csr_new C
      | BDiv => let! (A, B) := csr_both X Y in let! C := div_csr (e_sch e 0) A B in csr_new C
      | BFloorDiv => let! (A, B) := csr_both X Y in let! C := floordiv_csr (e_sch e 0) A B in csr_new C
      | BMod => let! (A, B) := csr_both_parts X Y in let! C := rem_csr (e_sch e 0) A B in csr_new C
      | BPow => let! (A, B) := csr_both_parts X Y in let! C := pow_csr (e_sch e 0) A B in csr_new C
      end
  | VCsc X, VCsc Y =>
      match op with
      | BAdd => let! (A, B) := csc_both_use X Y in let! C := add_csc (e_sch e 0) A B in csc_new C
      | BSub => let! (A, B) := csc_both_use X Y in let! C := sub_csc (e_sch e 0) A B in csc_new C
      | BMul => let! (A, B) := csc_both_use X Y in let! C := hadamard_csc (e_sch e 0) A B in csc_new C
      | BDiv => let! (A, B) := csc_both X Y in let! C := div_csc (e_sch e 0) A B in csc_new C
      | BFloorDiv => let! (A, B) := csc_both X Y in let! C := floordiv_csc (e_sch e 0) A B in csc_new C
      | BMod => let! (A, B) := csc_both_parts X Y in let! C := rem_csc (e_sch e 0) A B in csc_new C
      | BPow => let! (A, B) := csc_both_parts X Y in let! C := pow_csc (e_sch e 0) A B in csc_new C
      end
  | VNd X, VNd Y =>
      match op with
      | BMul =>
          let! A := nd_parts X in let! B := nd_parts Y in
          let! C := hadamard_broadcast_coond (e_schz e 0) (e_schz e 1) (e_ord e) (e_threads e) (e_srt e 0) A B in nd_new C
      | _ => Panic
      end
  | _, _ => Panic
  end.

(** ** Products with a dense operand; the native call returns a flat array
    ([IntoPyArray], types/csr.rs L54-L78). *)
Definition arr_new {A} (mk : list nat -> list A -> value) (r : res (list nat * list A)) : res value :=
  let! (sh, d) := r in Ok (mk sh d).

(** [np.asarray(other, dtype=np.float64)]: csr.py L238, csc.py L105, coo.py L105. NumPy
    converts integers and booleans to the same numbers when it compares them with floats. *)
Definition as_float64 (y : value) : value :=
  match y with
  | VInts sh d => VArr sh (map fofZ d)
  | VBools sh d => VArr sh (map (fun b : bool => if b then f1 else f0) d)
  | _ => y
  end.
(** [isinstance(x, (CSR, CSC, COO))], array_api/linalg/__init__.py L24, L62, L155 *)
Definition is_matrix (x : value) : bool := match x with VCsr _ | VCsc _ | VCoo _ => true | _ => false end.

(** array_api/linalg/__init__.py L17-L40; [x @ y] of csr.py L215-L254, csc.py L97-L121,
    coo.py L97-L121 is the case of one or two dimensions. The 2-D result goes through
    [Array2::from_shape_vec] (types/csr.rs L75-L78). *)
Definition do_matmul (x y : value) : res value :=
  match x, y with
  | VCsr X, VArr sh d =>
      let A := py_arrays X in
      arr_new VArr (py_matmul (fun v => let! H := csr_use X in spmv_csr (e_schv e) H v)
        (fun b k => let! H := csr_use X in let! c := spmm_csr H b k in
                    let! (_, c) := reshape_to [csr_nrows H; k] c in Ok c)
        (csr_nrows A) (csr_ncols A) sh d)
  | VCsc X, VArr sh d =>
      let A := py_arrays X in
      arr_new VArr (py_matmul (fun v => let! H := csc_use X in spmv_csc (e_threads e) (e_dist e) H v)
        (fun b k => let! H := csc_use X in let! c := spmm_csc (e_ilo e) H b k in
                    let! (_, c) := reshape_to [csc_nrows H; k] c in Ok c)
        (csc_nrows A) (csc_ncols A) sh d)
  | VCoo X, VArr sh d =>
      let A := pyc_arrays X in
      arr_new VArr (py_matmul (fun v => let! H := coo_use X in spmv_coo (e_threads e) (e_dist e) H v)
        (fun b k => let! H := coo_use X in let! c := spmm_coo (e_ilo e) H b k in
                    let! (_, c) := reshape_to [coo_nrows H; k] c in Ok c)
        (coo_nrows A) (coo_ncols A) sh d)
  | _, _ => Panic
  end.

(** The native 2-D call and the final [reshape], array_api/linalg.rs L64-L81 and
    array_api/linalg/__init__.py L110. *)
Definition tensordot_result (nrows : nat) (sh : list nat) (c : list F) : res value :=
  let! _ := reshape_to [nrows; fold_right Nat.mul 1 (tl sh)]%nat c in
  arr_new VArr (reshape_to (nrows :: tl sh) c).

(** [shape[axis]] with Python's negative indices, then [usize::try_from(axis)]:
    array_api/linalg/__init__.py L116-L125, L182-L186; array_api/linalg.rs L196-L198, L329-L331.
    The axis argument [None] stands for the default, the last axis (for vecdot also -1). *)
Definition nd_axis (A : Nd F) (axis : option Z) : res nat :=
  match axis with
  | None => Ok (length (nd_shape A) - 1)%nat
  | Some ax =>
      let! _ := py_get (nd_shape A) ax in
      if 0 <=? ax then Ok (Z.to_nat ax) else Panic
  end.

(** array_api/linalg/__init__.py L55-L139. For matrices [axis] must be absent (axes=1) or
    1 (axes=([1],[0])); the right operand's axis is 0. *)
Definition do_tensordot (x y : value) (axis : option Z) : res value :=
  match y with
  | VArr sh d =>
      match x with
      | VNd X =>
          let! ax := nd_axis X axis in
          match sh with
          | [] => Panic
          | n0 :: _ =>
              let! n := get_checked (nd_shape X) ax in
              assert! (Z.of_nat n0 =? n) ;;
              let! A := nd_parts X in
              let! C := tensordot_coond (e_srt e 0) A ax d (map Z.of_nat sh) in nd_new C
          end
      | VArr _ _ | VInts _ _ | VBools _ _ => Panic
      | _ =>
          assert! match axis with None => true | Some ax => ax =? 1 end ;;
          match sh with
          | [] => Panic
          | [_] => do_matmul x y
          | n0 :: _ =>
              match x with
              | VCsr X =>
                  assert! (n0 =? csr_ncols (py_arrays X))%nat ;;
                  let! A := csr_parts X in
                  let! c := tensordot_csr A d (map Z.of_nat sh) in tensordot_result (csr_nrows A) sh c
              | VCsc X =>
                  assert! (n0 =? csc_ncols (py_arrays X))%nat ;;
                  let! A := csc_parts X in
                  let! c := tensordot_csc (e_ilo e) A d (map Z.of_nat sh) in tensordot_result (csc_nrows A) sh c
              | VCoo X =>
                  assert! (n0 =? coo_ncols (pyc_arrays X))%nat ;;
                  let! A := coo_parts X in
                  let! c := tensordot_coo (e_ilo e) A d (map Z.of_nat sh) in tensordot_result (coo_nrows A) sh c
              | _ => Panic
              end
          end
      end
  | VInts [_] _ | VBools [_] _ => (* L77-L80: [x @ y] converts; the native calls want float64 *)
      assert! match axis with None => true | Some ax => ax =? 1 end ;;
      do_matmul x (as_float64 y)
  | _ => Panic
  end.

(** array_api/linalg/__init__.py L144-L194 *)
Definition do_vecdot (x y : value) (axis : option Z) : res value :=
  match y with
  | VArr [n] d =>
      match x with
      | VNd X =>
          let! ax := nd_axis X (match axis with Some a => if a =? -1 then None else Some a | None => None end) in
          let! m := get_checked (nd_shape X) ax in
          assert! (Z.of_nat n =? m) ;;
          let! A := nd_parts X in
          let! C := vecdot_coond (e_srt e 0) A ax d in nd_new C
      | _ =>
          let ax := match axis with None => 1 | Some a => if a =? -1 then 1 else a end in
          if ax =? 1 then do_matmul x y
          else if ax =? 0 then
            match x with
            | VCsr X =>
                assert! (n =? csr_nrows (py_arrays X))%nat ;;
                let! A := csr_parts X in
                let! v := vecdot_csr_axis0 (e_dist e) A d in Ok (VArr [length v] v)
            | VCsc X =>
                assert! (n =? csc_nrows (py_arrays X))%nat ;;
                let! A := csc_parts X in
                let! v := vecdot_csc_axis0 A d in Ok (VArr [length v] v)
            | VCoo X =>
                assert! (n =? coo_nrows (pyc_arrays X))%nat ;;
                let! A := coo_parts X in
                let! v := vecdot_coo_axis0 (e_threads e) (e_dist e) A d in Ok (VArr [length v] v)
            | _ => Panic
            end
          else Panic
      end
  | VInts [_] _ | VBools [_] _ => (* L160-L163 *)
      assert! match axis with None => true | Some ax => (ax =? -1) || (ax =? 1) end ;;
      do_matmul x (as_float64 y)
  | _ => Panic
  end.

(** ** Reductions (array_api/_dispatch/reductions.py L77-L474, L595-L712; searching.py
    L11-L64). [sum] and [mean] go through the object's [sum] method, hence the handle; the
    others through the arrays. *)
Definition on {A B} (r : res A) (f : A -> res B) : res B := let! a := r in f a.

(** reductions.py L77-L94, L116-L133, L155-L207, L225-L279, L297-L351, L369-L405, L423-L459,
    L595-L652, L654-L711, searching.py L12-L28 for a CSR operand *)
Definition reduce_csr (op : rop) (X : @PyCs F) (axis : axis_arg) (kd : bool) : res value :=
  let nr := csr_nrows (py_arrays X) in
  let nc := csr_ncols (py_arrays X) in
  let P := csr_parts X in
  let t := e_threads e in let il := e_il e 0 in let sch := e_sch e 0 in let srt := e_srt e 0 in
  match op with
  | RSum => arr_new VArr (reduce_2d (on (csr_use X) (sum_csr (e_zero e) (e_split e)))
              (on (csr_use X) (col_sums_csr t (e_dist e) (e_ilo e))) (on (csr_use X) (row_sums_csr (e_schv e))) nr nc axis kd)
  | RMean => arr_new VArr (mean_2d (on (csr_use X) (sum_csr (e_zero e) (e_split e)))
              (on (csr_use X) (col_sums_csr t (e_dist e) (e_ilo e))) (on (csr_use X) (row_sums_csr (e_schv e))) nr nc axis kd)
  | RProd => arr_new VArr (reduce_2d (on P (prod_csr (e_split e))) (on P (col_prods_csr t il sch srt)) (on P row_prods_csr) nr nc axis kd)
  | RMin => arr_new VArr (reduce_2d (on P (min_csr (e_vmin e) (e_smin e) (e_split e)))
              (on P (col_mins_csr (e_vmin e) (e_smin e) t il sch srt)) (on P (row_mins_csr (e_vmin e) (e_smin e))) nr nc axis kd)
  | RMax => arr_new VArr (reduce_2d (on P (max_csr (e_vmax e) (e_smax e) (e_split e)))
              (on P (col_maxs_csr (e_vmax e) (e_smax e) t il sch srt)) (on P (row_maxs_csr (e_vmax e) (e_smax e))) nr nc axis kd)
  | RVar c => arr_new VArr (reduce_2d (on P (fun A => var_csr (e_split e) A c)) (on P (col_vars_csr t il sch srt c)) (on P (row_vars_csr c)) nr nc axis kd)
  | RStd c => arr_new VArr (reduce_2d (on P (fun A => std_of (var_csr (e_split e) A c)))
              (on P (fun A => stds_of (col_vars_csr t il sch srt c A))) (on P (fun A => stds_of (row_vars_csr c A))) nr nc axis kd)
  | RAll => arr_new VBools (reduce_2d (on P (fun A => Ok (all_csr A))) (on P (col_alls_csr t il sch srt)) (on P row_alls_csr) nr nc axis kd)
  | RAny => arr_new VBools (reduce_2d (on P (fun A => Ok (any_csr A))) (on P (col_anys_csr t il sch srt)) (on P row_anys_csr) nr nc axis kd)
  | RCount => arr_new VInts (count_nonzero_csr (py_arrays X) axis kd)
  end.

(** the same for a CSC operand: reductions.py L77-L474, L595-L711, searching.py L30-L46 *)
Definition reduce_csc (op : rop) (X : @PyCs F) (axis : axis_arg) (kd : bool) : res value :=
  let nr := csc_nrows (py_arrays X) in
  let nc := csc_ncols (py_arrays X) in
  let P := csc_parts X in
  let t := e_threads e in let il := e_il e 0 in let sch := e_sch e 0 in let srt := e_srt e 0 in
  match op with
  | RSum => arr_new VArr (reduce_2d (on (csc_use X) (sum_csc (e_zero e) (e_split e)))
              (on (csc_use X) col_sums_csc) (on (csc_use X) (row_sums_csc (e_dist e))) nr nc axis kd)
  | RMean => arr_new VArr (mean_2d (on (csc_use X) (sum_csc (e_zero e) (e_split e)))
              (on (csc_use X) col_sums_csc) (on (csc_use X) (row_sums_csc (e_dist e))) nr nc axis kd)
  | RProd => arr_new VArr (reduce_2d (on P (prod_csc (e_split e))) (on P col_prods_csc) (on P (row_prods_csc t il sch srt)) nr nc axis kd)
  | RMin => arr_new VArr (reduce_2d (on P (min_csc (e_vmin e) (e_smin e) (e_split e)))
              (on P (col_mins_csc (e_vmin e) (e_smin e))) (on P (row_mins_csc (e_vmin e) (e_smin e) t il sch srt)) nr nc axis kd)
  | RMax => arr_new VArr (reduce_2d (on P (max_csc (e_vmax e) (e_smax e) (e_split e)))
              (on P (col_maxs_csc (e_vmax e) (e_smax e))) (on P (row_maxs_csc (e_vmax e) (e_smax e) t il sch srt)) nr nc axis kd)
  | RVar c => arr_new VArr (reduce_2d (on P (fun A => var_csc (e_split e) A c)) (on P (col_vars_csc c)) (on P (row_vars_csc t il sch srt c)) nr nc axis kd)
  | RStd c => arr_new VArr (reduce_2d (on P (fun A => std_of (var_csc (e_split e) A c)))
              (on P (fun A => stds_of (col_vars_csc c A))) (on P (fun A => stds_of (row_vars_csc t il sch srt c A))) nr nc axis kd)
  | RAll => arr_new VBools (reduce_2d (on P (fun A => Ok (all_csc A))) (on P col_alls_csc) (on P (row_alls_csc il sch)) nr nc axis kd)
  | RAny => arr_new VBools (reduce_2d (on P (fun A => Ok (any_csc A))) (on P col_anys_csc) (on P (row_anys_csc il sch)) nr nc axis kd)
  | RCount => arr_new VInts (count_nonzero_csc (py_arrays X) axis kd)
  end.

(** [all] and [any] of a COO matrix along an axis convert to CSR first,
    array_api/reduce.rs L440-L535. *)
Definition row_alls_coo (A : Coo F) : res (list bool) := via_coo (e_srt2 e) row_alls_csr A.
(** array_api/reduce.rs L465-L486 *)
Definition col_alls_coo (A : Coo F) : res (list bool) :=
  via_coo (e_srt2 e) (col_alls_csr (e_threads e) (e_il e 0) (e_sch e 0) (e_srt e 0)) A.
(** array_api/reduce.rs L489-L510 *)
Definition row_anys_coo (A : Coo F) : res (list bool) := via_coo (e_srt2 e) row_anys_csr A.
(** array_api/reduce.rs L513-L534 *)
Definition col_anys_coo (A : Coo F) : res (list bool) :=
  via_coo (e_srt2 e) (col_anys_csr (e_threads e) (e_il e 0) (e_sch e 0) (e_srt e 0)) A.

(** reductions.py L77-L474, L595-L711, searching.py L48-L64 for a COO operand *)
Definition reduce_coo (op : rop) (X : @PyCoo F) (axis : axis_arg) (kd : bool) : res value :=
  let nr := coo_nrows (pyc_arrays X) in
  let nc := coo_ncols (pyc_arrays X) in
  let P := coo_parts X in
  let t := e_threads e in
  match op with
  | RSum => arr_new VArr (reduce_2d (on (coo_use X) (sum_coo (e_zero e) (e_split e)))
              (on (coo_use X) (col_sums_coo t (e_dist e) (e_ilo e))) (on (coo_use X) (row_sums_coo t (e_dist e))) nr nc axis kd)
  | RMean => arr_new VArr (mean_2d (on (coo_use X) (sum_coo (e_zero e) (e_split e)))
              (on (coo_use X) (col_sums_coo t (e_dist e) (e_ilo e))) (on (coo_use X) (row_sums_coo t (e_dist e))) nr nc axis kd)
  | RProd => arr_new VArr (reduce_2d (on P (prod_coo (e_split e))) (on P (col_prods_coo t (e_dist e))) (on P (row_prods_coo t (e_dist e))) nr nc axis kd)
  | RMin => arr_new VArr (reduce_2d (on P (min_coo (e_vmin e) (e_smin e) (e_split e)))
              (on P (col_mins_coo (e_smin e) t (e_dist e))) (on P (row_mins_coo (e_smin e) t (e_dist e))) nr nc axis kd)
  | RMax => arr_new VArr (reduce_2d (on P (max_coo (e_vmax e) (e_smax e) (e_split e)))
              (on P (col_maxs_coo (e_smax e) t (e_dist e))) (on P (row_maxs_coo (e_smax e) t (e_dist e))) nr nc axis kd)
  | RVar c => arr_new VArr (reduce_2d (on P (fun A => var_coo (e_split e) A c)) (on P (col_vars_coo t (e_dist e) c)) (on P (row_vars_coo t (e_dist e) c)) nr nc axis kd)
  | RStd c => arr_new VArr (reduce_2d (on P (fun A => std_of (var_coo (e_split e) A c)))
              (on P (fun A => stds_of (col_vars_coo t (e_dist e) c A))) (on P (fun A => stds_of (row_vars_coo t (e_dist e) c A))) nr nc axis kd)
  | RAll => arr_new VBools (reduce_2d (on P (all_coo (e_srt2 e))) (on P col_alls_coo) (on P row_alls_coo) nr nc axis kd)
  | RAny => arr_new VBools (reduce_2d (on P (any_coo (e_srt2 e))) (on P col_anys_coo) (on P row_anys_coo) nr nc axis kd)
  | RCount => arr_new VInts (count_nonzero_coo (pyc_arrays X) axis kd)
  end.

(** reductions.py L96-L110, L135-L149: totals are floats (an all-ones shape with keepdims),
    reductions along axes are COOND. The other reductions of COOND raise: along axes and for
    min and max they are not implemented, and the totals pass the shape tuple where the
    extension expects an array (L211, L283, L355, L409, L463). [count_nonzero] hands the
    object itself to NumPy (searching.py L66-L67), which makes it a 0-dimensional array of
    one true object: the answer is 1 (NumPy 2; the older numpy.array_api has no such function). *)
Definition reduce_coond (op : rop) (X : Nd F) (axis : axis_arg) (kd : bool) : res value :=
  let ndim := length (nd_shape X) in
  let scalar (s : F) := VArr (if kd then repeat 1%nat ndim else []) [s] in
  let along (total : Nd F -> res F) (red : Nd F -> list nat -> res (Nd F)) :=
    let! o := reduce_nd (fun axes => let! A := nd_parts X in red A axes) ndim axis kd in
    match o with
    | None => let! A := nd_parts X in let! s := total A in Ok (scalar s)
    | Some R => nd_new R
    end in
  match op with
  | RSum => along (sum_coond (e_zero e) (e_split e)) (reduce_sum_axes_coond (e_srt e 0))
  | RMean => along (mean_coond (e_zero e) (e_split e)) (reduce_mean_axes_coond (e_srt e 0))
  | RCount =>
      match axis with
      | AxNone | AxTuple [] | AxInt 0 | AxInt (-1) => Ok (VInts [] [1])
      | _ => Panic
      end
  | _ => Panic
  end.

(** reductions.py L77-L474, L595-L711 *)
Definition do_reduce (op : rop) (x : value) (axis : axis_arg) (kd : bool) : res value :=
  match x with
  | VCsr X => reduce_csr op X axis kd
  | VCsc X => reduce_csc op X axis kd
  | VCoo X => reduce_coo op X axis kd
  | VNd X => reduce_coond op X axis kd
  | _ => Panic
  end.

(** reductions.py L515-L592; the dense result of the given shape goes through
    [Array2::from_shape_vec] (array_api/reduce.rs L1148-L1149). *)
Definition do_cum (op : cop) (x : value) (axis : axis_arg) : res value :=
  let! norm := norm_axes 2 axis in
  let t := e_threads e in let il := e_il e 0 in let sch := e_sch e 0 in let srt := e_srt e 0 in
  let axis1 := match op with CumSum => cumsum_axis1 | CumProd => cumprod_axis1 end in
  let axis0 := match op with CumSum => cumsum_axis0 t il sch srt | CumProd => cumprod_axis0 t il sch srt end in
  let! f := match norm with
            | Some [0]%nat => Ok axis0
            | Some [1]%nat => Ok axis1
            | _ => Panic
            end in
  match x with
  | VCsr X => let! A := csr_parts X in let! v := f A in arr_new VArr (reshape_to [csr_nrows A; csr_ncols A] v)
  | VCsc X => let! A := csc_parts X in let! v := via_csc (e_il e 1) (e_sch e 1) f A in arr_new VArr (reshape_to [csc_nrows A; csc_ncols A] v)
  | VCoo X => let! A := coo_parts X in let! v := via_coo (e_srt2 e) f A in arr_new VArr (reshape_to [coo_nrows A; coo_ncols A] v)
  | _ => Panic
  end.

(** reductions.py L477-L509 *)
Definition do_diff (x : value) (n : nat) (axis : Z) : res value :=
  assert! (-2 <=? axis) && (axis <=? 1) ;;
  let axis0 := (axis =? 0) || (axis =? -2) in
  let t := e_threads e in
  match x with
  | VCsr X =>
      let! A := csr_parts X in
      let! B := if axis0 then diff_csr_axis0 t (e_il e 0) (e_sch e 0) (e_srt e 0) (e_sch e 1) (e_srt e 1) (e_sch e 2) (e_srt e 2) A n
                else diff_csr_axis1 (e_sch e 1) (e_srt e 1) A n in
      csr_new B
  | VCsc X =>
      let! A := csc_parts X in
      let! B := if axis0 then diff_csc_axis0 (e_il e 1) (e_sch e 3) t (e_il e 0) (e_sch e 0) (e_srt e 0) (e_sch e 1) (e_srt e 1) (e_sch e 2) (e_srt e 2) (e_il e 2) (e_sch e 4) A n
                else diff_csc_axis1 (e_il e 1) (e_sch e 3) (e_sch e 1) (e_srt e 1) (e_il e 2) (e_sch e 4) A n in
      csc_new B
  | VCoo X =>
      let! A := coo_parts X in
      let! B := if axis0 then diff_coo_axis0 (e_srt2 e) t (e_il e 0) (e_sch e 0) (e_srt e 0) (e_sch e 1) (e_srt e 1) (e_sch e 2) (e_srt e 2) (e_schc e) A n
                else diff_coo_axis1 (e_srt2 e) (e_sch e 1) (e_srt e 1) (e_schc e) A n in
      coo_new B
  | _ => Panic
  end.

(** ** Reading: csr.py L665-L736, csc.py L365-L374, coo.py L236-L247; only CSR can be
    indexed. *)
Definition do_getitem (x : value) (i j : Z) : res value :=
  match x with
  | VCsr X => let! v := csr_getitem (e_search e) (py_arrays X) i j in Ok (VArr [] [v])
  | _ => Panic
  end.
(** csr.py L699-L705 *)
Definition do_getrow (x : value) (i : Z) : res value :=
  match x with
  | VCsr X => let! v := csr_getrow (py_arrays X) i in Ok (VArr [length v] v)
  | _ => Panic
  end.
(** csr.py L706-L717 *)
Definition do_getcol (x : value) (j : Z) : res value :=
  match x with
  | VCsr X => let! v := csr_getcol (e_search e) (py_arrays X) j in Ok (VArr [length v] v)
  | _ => Panic
  end.

(** [toarray] of the matrix classes, the densifying helper of elementwise.py L48-L57 for
    COOND; dense arrays stand for themselves. The result is row-major. *)
Definition densify (x : value) : res (list nat * list F) :=
  match as_float64 x with
  | VCsr X => let A := py_arrays X in let! m := csr_toarray A in Ok ([csr_nrows A; csr_ncols A], concat m)
  | VCsc X => let A := py_arrays X in let! m := csc_toarray A in Ok ([csc_nrows A; csc_ncols A], concat m)
  | VCoo X => let A := pyc_arrays X in let! m := coo_toarray A in Ok ([coo_nrows A; coo_ncols A], concat m)
  | VNd A => let! d := nd_toarray A in Ok (map Z.to_nat (nd_shape A), d)
  | VArr sh d => Ok (sh, d)
  | _ => Panic
  end.
(** csr.py L720-L736, csc.py L365-L374, coo.py L236-L247 (COOND has no [toarray]) *)
Definition do_toarray (x : value) : res value :=
  match x with
  | VCsr _ | VCsc _ | VCoo _ => arr_new VArr (densify x)
  | _ => Panic
  end.

(** [_is_sparse], elementwise.py L7-L8 *)
Definition sparse (x : value) : bool := is_matrix x || match x with VNd _ => true | _ => false end.
(** elementwise.py L46-L66, L69-L89, L106-L216. Two dense operands go to NumPy alone (not modelled). *)
Definition do_compare (c : cmp) (x y : value) : res value :=
  assert! (sparse x || sparse y) ;;
  let! dx := densify x in
  let! dy := densify y in
  arr_new VBools (np_compare c dx dy).

(** ** N-D operations (coond.py L153-L341); axes go through [convert_axes_i64_to_usize]
    (helpers.rs L34-L50), an axis argument through [usize]. *)
Definition to_axes (l : list Z) : res (list nat) :=
  assert! forallb (Z.leb 0) l ;; Ok (map Z.to_nat l).
(** coond.py L176-L197 *)
Definition do_permute (x : value) (axes : list Z) : res value :=
  match x with
  | VNd X => let! p := to_axes axes in let! A := nd_parts X in let! B := permute_axes_coond A p in nd_new B
  | _ => Panic
  end.
(** coond.py L222-L238 *)
Definition do_reshape (x : value) (sh : list Z) : res value :=
  match x with
  | VNd X =>
      assert! forallb (Z.leb 0) sh ;;
      let! A := nd_parts X in let! B := reshape_coond (e_schz e 0) A sh in nd_new B
  | _ => Panic
  end.
(** coond.py L153-L174, L199-L220 *)
Definition do_reduce_axes (op : ndred) (x : value) (axes : list Z) : res value :=
  match x with
  | VNd X =>
      let! p := to_axes axes in let! A := nd_parts X in
      let! B := match op with NSum => reduce_sum_axes_coond (e_srt e 0) A p | NMean => reduce_mean_axes_coond (e_srt e 0) A p end in
      nd_new B
  | _ => Panic
  end.
(** coond.py L312-L341 *)
Definition do_unfold (f : fmt) (x : value) (rows : list Z) : res value :=
  match x with
  | VNd X =>
      let! p := to_axes rows in let! A := nd_parts X in
      match f with
      | FCsr => let! B := coond_axes_to_csr (e_schu e) (e_srt2 e) A p in csr_new B
      | FCsc => let! B := coond_axes_to_csc (e_schu e) (e_srt2 e) A p in csc_new B
      end
  | _ => Panic
  end.
(** coond.py L270-L310 *)
Definition do_mode (f : fmt) (x : value) (axis : Z) : res value :=
  match x with
  | VNd X =>
      assert! (0 <=? axis) ;;
      let! A := nd_parts X in
      match f with
      | FCsr => let! B := coond_mode_to_csr (e_schu e) (e_srt2 e) A (Z.to_nat axis) in csr_new B
      | FCsc => let! B := coond_mode_to_csc (e_schu e) (e_srt2 e) A (Z.to_nat axis) in csc_new B
      end
  | _ => Panic
  end.

(** ** One call *)

(** [np.array(data).reshape(shape)], the way a user builds a dense operand; used as at
    array_api/linalg/__init__.py L110. *)
Definition new_arr (sh : list nat) (d : list F) : res value := arr_new VArr (reshape_to sh d).

(** csr.py L65-L205, csc.py L62-L75, coo.py L62-L75, coond.py L98-L108 *)
Definition exec (h : list value) (c : call) : res value :=
  match c with
  | NewCsr nr nc p i d ck => let! X := csr_init nr nc p i d ck in Ok (VCsr X)
  | NewCsc nr nc p i d ck => let! X := csc_init nr nc p i d ck in Ok (VCsc X)
  | NewCoo nr nc r c d ck => let! X := coo_init nr nc r c d ck in Ok (VCoo X)
  | NewNd sh i d ck => let! A := nd_init sh i d ck in Ok (VNd A)
  | NewArr sh d => new_arr sh d
  | Zeros nr nc => csr_new (zeros_csr nr nc)
  | Eye n => csr_new (eye_csr n)
  | Diag d => csr_new (diag_csr d)
  | Unary op a => let! x := get_checked h a in do_unary op x
  | Scalar op a alpha => let! x := get_checked h a in do_scalar op x alpha
  | Binary op a b => let! x := get_checked h a in let! y := get_checked h b in do_binary op x y
  | Matmul a b => let! x := get_checked h a in let! y := get_checked h b in do_matmul x (as_float64 y)
  | Tensordot a b ax => let! x := get_checked h a in let! y := get_checked h b in do_tensordot x y ax
  | Vecdot a b ax => let! x := get_checked h a in let! y := get_checked h b in do_vecdot x y ax
  | Reduce op a ax kd => let! x := get_checked h a in do_reduce op x ax kd
  | Cum op a ax => let! x := get_checked h a in do_cum op x ax
  | Diff a n ax => let! x := get_checked h a in do_diff x n ax
  | GetItem a i j => let! x := get_checked h a in do_getitem x i j
  | GetRow a i => let! x := get_checked h a in do_getrow x i
  | GetCol a j => let! x := get_checked h a in do_getcol x j
  | ToArray a => let! x := get_checked h a in do_toarray x
  | Compare c a b => let! x := get_checked h a in let! y := get_checked h b in do_compare c x y
  | Permute a axes => let! x := get_checked h a in do_permute x axes
  | Reshape a sh => let! x := get_checked h a in do_reshape x sh
  | ReduceAxes op a axes => let! x := get_checked h a in do_reduce_axes op x axes
  | Unfold f a rows => let! x := get_checked h a in do_unfold f x rows
  | Mode f a ax => let! x := get_checked h a in do_mode f x ax
  | SetData _ _ _ => Panic (* handled by [step] *)
  end.

(** [x.data[k] = v]: the object's array changes, its handle holds a copy
    (types/csr.rs L28-L36: [to_vec]) and does not. *)
Definition set_data (x : value) (k : Z) (v : F) : res value :=
  match x with
  | VCsr X => let A := py_arrays X in let! d := py_set (dat A) k v in
      Ok (VCsr (mkPyCs (mkCs (major A) (minor A) (ptr A) (idx A) d) (py_handle X)))
  | VCsc X => let A := py_arrays X in let! d := py_set (dat A) k v in
      Ok (VCsc (mkPyCs (mkCs (major A) (minor A) (ptr A) (idx A) d) (py_handle X)))
  | VCoo X => let A := pyc_arrays X in let! d := py_set (coo_data A) k v in
      Ok (VCoo (mkPyCoo (mkCoo (coo_nrows A) (coo_ncols A) (coo_row A) (coo_col A) d) (pyc_handle X)))
  | VNd A => let! d := py_set (nd_dat A) k v in Ok (VNd (mkNd (nd_shape A) (nd_idx A) d))
  | _ => Panic
  end.

(** A call appends its result to the heap; [x.data[k] = v] replaces the object.
    The attribute is the plain array, csr.py L70-L74. *)
Definition step (h : list value) (c : call) : res (list value) :=
  match c with
  | SetData a k v => let! x := get_checked h a in let! y := set_data x k v in Ok (upd h a y)
  | _ => let! v := exec h c in Ok (h ++ [v])
  end.
End Obj.
Arguments Env F : clear implicits.
Arguments value F : clear implicits.
Arguments call F : clear implicits.

Section Run.
Context {F : Fl}.

(** ** Size limits. A history is followed as long as every object has fewer than 2^63 - 1
    rows and columns, fewer than 2^63 - 1 cells and than 2^63 - 1 stored values, and no
    dense or broadcast result would exceed that. *)
Definition cells_fit (n m : nat) : bool :=
  (Z.of_nat n <? i64_max) && (Z.of_nat m <? i64_max) && (Z.of_nat n * Z.of_nat m <? i64_max).
(** (size limit; no code is modelled: sizes for which the products of helpers.rs L9-L24 and
    of the allocations do not wrap) *)
Definition shape_cells (sh : list Z) : Z := cells (map (Z.max 1) sh).
(** (size limit, see above; below 2^63 - 1) *)
Definition fits (x : value F) : bool :=
  match x with
  | VCsr X | VCsc X => cells_fit (major (py_arrays X)) (minor (py_arrays X)) && (Z.of_nat (length (dat (py_arrays X))) <? i64_max)
  | VCoo X => cells_fit (coo_nrows (pyc_arrays X)) (coo_ncols (pyc_arrays X)) && (Z.of_nat (length (coo_data (pyc_arrays X))) <? i64_max)
  | VNd A => (shape_cells (nd_shape A) <? i64_max) && (Z.of_nat (length (nd_idx A)) + Z.of_nat (length (nd_dat A)) <? i64_max)
  | VArr sh d => (shape_cells (map Z.of_nat sh) <? i64_max) && (Z.of_nat (length d) <? i64_max)
  | VInts sh d => (shape_cells (map Z.of_nat sh) <? i64_max) && (Z.of_nat (length d) <? i64_max)
  | VBools sh d => (shape_cells (map Z.of_nat sh) <? i64_max) && (Z.of_nat (length d) <? i64_max)
  end.

(** Number of elements of the result of a product or a broadcast, from the shapes alone: the
    allocations of linalg/tensordot.rs and linalg/matmul.rs (size limit: below 2^63 - 1). *)
Definition demand (h : list (value F)) (c : call F) : Z :=
  let rows x := match x with
                | VCsr X => Z.of_nat (csr_nrows (py_arrays X))
                | VCsc X => Z.of_nat (csc_nrows (py_arrays X))
                | VCoo X => Z.of_nat (coo_nrows (pyc_arrays X))
                | _ => 1
                end in
  match c with
  | Matmul a b | Tensordot a b _ | Vecdot a b _ =>
      match nth_error h a, option_map as_float64 (nth_error h b) with
      | Some (VNd A), Some (VArr sh _) => shape_cells (nd_shape A) * shape_cells (map Z.of_nat sh)
      | Some x, Some (VArr sh _) => Z.max 1 (rows x) * shape_cells (map Z.of_nat sh)
      | _, _ => 0
      end
  | Binary BMul a b =>
      match nth_error h a, nth_error h b with
      | Some (VNd A), Some (VNd B) => shape_cells (broadcast_shape (nd_shape A) (nd_shape B))
      | _, _ => 0
      end
  | _ => 0
  end.

(** How a history can end (no code; see the limit of 2^63 - 1 above). *)
Inductive outcome :=
| Running (h : list (value F))
| TooBig                         (* the size limits were left; not followed further *)
| Crashed.                       (* undefined behaviour or divergence *)

(** A program: each call with the choices of the environment during it. A
    caught panic or exception leaves the objects as they were (pyo3 raises PanicException;
    kernels take [&self], e.g. types/csr.rs L54-L78). *)
Fixpoint run (h : list (value F)) (l : list (Env F * call F)) : outcome :=
  match l with
  | [] => Running h
  | (e, c) :: l' =>
      if i64_max <=? demand h c then TooBig
      else match step e h c with
           | Ok h' => if forallb fits h' then run h' l' else TooBig
           | Panic => run h l'
           | UB | Diverge => Crashed
           end
  end.
End Run.
Arguments outcome F : clear implicits.
