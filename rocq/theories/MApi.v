(** Model of the functions of the namespace [lacuna.array_api]: each looks at the classes of
    its arguments and then calls methods of the objects, raises NotImplementedError, or hands
    the arguments to NumPy. The method calls are those of MObj.v. *)
Require Import List ZArith Bool Arith.
Require Import Verif.Res Verif.Values Verif.Spec Verif.SpecPy Verif.MCore Verif.MPy Verif.MObj.
Import ListNotations.
Local Open Scope Z_scope.

Section Api.
Context {F : Fl}.

(** Arguments: an object of the program, a Python number (int, float or bool, as its value
    [float(x)], elementwise.py L230-L233), a list or tuple of objects, or anything else. *)
Inductive operand := Ref (a : nat) | Num (v : F) | Items (l : list nat) | Else.
(** Simplification: the values of shape () of MObj.v are what [A.sum()] and the like return,
    Python numbers (csr.py L256-L296); NumPy arrays of shape () are not modelled. *)
Definition number (h : list (value F)) (x : operand) : option F :=
  match x with
  | Num v => Some v
  | Ref a =>
      match nth_error h a with
      | Some (VArr [] [v]) => Some v
      | Some (VInts [] [z]) => Some (fofZ z)
      | Some (VBools [] [b]) => Some (if b then f1 else f0)
      | _ => None
      end
  | _ => None
  end.
(** [isinstance(x, CSR)] and the like for the class tests of elementwise.py L7-L34 *)
Definition is (p : value F -> bool) (h : list (value F)) (x : operand) : bool :=
  match x with Ref a => match nth_error h a with Some v => p v | None => false end | _ => false end.
(** elementwise.py L33, L35, L236 *)
Definition csr (v : value F) : bool := match v with VCsr _ => true | _ => false end.
(** elementwise.py L35 *)
Definition csc (v : value F) : bool := match v with VCsc _ => true | _ => false end.
(** elementwise.py L236 *)
Definition coond (v : value F) : bool := match v with VNd _ => true | _ => false end.
(** [isinstance(y, np.ndarray)], linalg/__init__.py L24, L62, L112 *)
Definition ndarray (v : value F) : bool :=
  match v with VArr (_ :: _) _ | VInts (_ :: _) _ | VBools (_ :: _) _ => true | _ => false end.
(** [y.ndim == 1], linalg/__init__.py L150 *)
Definition vector (v : value F) : bool := match v with VArr [_] _ | VInts [_] _ | VBools [_] _ => true | _ => false end.
(** (the position of an operand known to be an object; elementwise.py L13) *)
Definition pos (x : operand) : nat := match x with Ref a => a | _ => 0%nat end.

(** What a function does with its arguments: the method calls it makes, an exception other
    than NotImplementedError, NotImplementedError, a call of the NumPy function of the same
    name with the arguments themselves (_namespace.py L6-L11), or one with sparse arguments
    turned into dense ones (elementwise.py L61-L63) of a kind that is not modelled. *)
Inductive target := Calls (l : list (call F)) | Raises | NotImplemented | Numpy | Densified.

(** linalg/__init__.py L55, L67-L70: [axes] is an int or a pair, each part an int or a list. *)
Inductive part := One (z : Z) | Many (l : list Z).
(** linalg/__init__.py L63, L68 *)
Inductive axes_arg := AxesInt (z : Z) | AxesPair (x y : part).
(** creation/__init__.py L38 *)
Inductive device := Cpu | OtherDevice.

(** The functions, __init__.py L3-L138 of array_api. [Other] stands for every function that
    goes through [_namespace.__getattr__], with all its positional and keyword arguments. *)
Inductive api :=
| ApiUnary (op : uop (F := F)) (x : operand)
| ApiBinary (op : bop) (x y : operand)
| ApiCompare (c : cmp) (x y : operand)
| ApiMatmul (x y : operand)
| ApiTensordot (x y : operand) (axes : axes_arg)
| ApiVecdot (x y : operand) (axis : option Z)
| ApiMatrixTranspose (x : operand)
| ApiReduce (op : rop (F := F)) (x : operand) (axis : axis_arg) (keepdims : bool)
| ApiCum (op : cop) (x : operand) (axis : axis_arg)
| ApiDiff (x : operand) (n : nat) (axis : Z)
| ApiPermuteDims (x : operand) (axes : list Z)
| ApiReshape (x : operand) (newshape : list Z)
| ApiZeros (shape : list Z) (dev : option device)
| ApiEye (n_rows : Z) (n_cols : option Z) (k : Z) (dev : option device)
| ApiAstype (x : operand) (float64 : bool)
| Other (args : list operand).

Section Dispatch.
Variable h : list (value F).
Notation sp := (is sparse h).

(** The last lines of every elementwise function: elementwise.py L37-L42 *)
Definition otherwise (x y : operand) : target := if sp x || sp y then NotImplemented else Numpy.

(** abs, negative, sign: elementwise.py L11-L29 *)
Definition api_unary (op : uop (F := F)) (x : operand) : target := if sp x then Calls [Unary op (pos x)] else Numpy.
(** add, subtract: elementwise.py L32-L42, L92-L103 *)
Definition api_sum (op : bop) (x y : operand) : target :=
  if is csr h x && is csr h y then Calls [Binary op (pos x) (pos y)]
  else if is csc h x && is csc h y then Calls [Binary op (pos x) (pos y)]
  else otherwise x y.
(** multiply: elementwise.py L228-L249 *)
Definition api_multiply (x y : operand) : target :=
  match (if is is_matrix h y then number h x else None) with
  | Some v => Calls [Scalar SMul (pos y) v]
  | None =>
  match (if is is_matrix h x then number h y else None) with
  | Some v => Calls [Scalar SMul (pos x) v]
  | None =>
      if is coond h x && is coond h y then Calls [Binary BMul (pos x) (pos y)]
      else if is csr h x && is csr h y then Calls [Binary BMul (pos x) (pos y)]
      else if is csc h x && is csc h y then Calls [Binary BMul (pos x) (pos y)]
      else otherwise x y
  end end.
(** divide: elementwise.py L202-L225; floor_divide: L252-L275; remainder: L278-L301;
    pow: L304-L327. They differ in the classes [p] that take a number. *)
Definition api_quotient (p : value F -> bool) (s : sop) (b : bop) (x y : operand) : target :=
  match (if is p h x then number h y else None) with
  | Some v => Calls [Scalar s (pos x) v]
  | None =>
      if match number h x with Some _ => true | None => false end && sp y then NotImplemented
      else if is csr h x && is csr h y then Calls [Binary b (pos x) (pos y)]
      else if is csc h x && is csc h y then Calls [Binary b (pos x) (pos y)]
      else if is coond h x && is coond h y then NotImplemented
      else otherwise x y
  end.
(** elementwise.py L32-L42, L92-L103, L202-L327 *)
Definition api_binary (op : bop) (x y : operand) : target :=
  match op with
  | BAdd | BSub => api_sum op x y
  | BMul => api_multiply x y
  | BDiv => api_quotient is_matrix SDiv BDiv x y
  | BFloorDiv => api_quotient sparse SFloorDiv BFloorDiv x y
  | BMod => api_quotient sparse SMod BMod x y
  | BPow => api_quotient sparse SPow BPow x y
  end.
(** equal ... greater_equal: elementwise.py L45-L89, L106-L199. A number is compared as an
    array of shape (); with any other operand NumPy compares the dense array (not modelled). *)
Definition api_compare (c : cmp) (x y : operand) : target :=
  if sp x || sp y then
    match x, y with
    | Ref a, Ref b => Calls [Compare c a b]
    | Ref a, Num v => Calls [NewArr [] [v]; Compare c a (length h)]
    | Num v, Ref b => Calls [NewArr [] [v]; Compare c (length h) b]
    | _, _ => Densified
    end
  else Numpy.

(** linalg/__init__.py L17-L52 *)
Definition api_matmul (x y : operand) : target :=
  if sp x || sp y then
    if sp x && sp y then NotImplemented
    else if is is_matrix h x && is ndarray h y then Calls [Matmul (pos x) (pos y)]
    else NotImplemented
  else Numpy.
(** [int(axx) if not isinstance(axx, (list, tuple)) else int(axx[0])], linalg/__init__.py
    L69-L70, L119-L120: only the first number of a list counts. *)
Definition first_axis (p : part) : option Z := match p with One z => Some z | Many l => hd_error l end.
(** linalg/__init__.py L55-L141 *)
Definition api_tensordot (x y : operand) (axes : axes_arg) : target :=
  if sp x || sp y then
    if sp x && sp y then NotImplemented
    else if is is_matrix h x && is ndarray h y then
      match axes with
      | AxesInt n => if n =? 1 then Calls [Tensordot (pos x) (pos y) None] else NotImplemented
      | AxesPair p q =>
          match first_axis p, first_axis q with
          | Some i, Some j => if (i =? 1) && (j =? 0) then Calls [Tensordot (pos x) (pos y) (Some i)] else NotImplemented
          | _, _ => Raises
          end
      end
    else if is coond h x && is ndarray h y then
      match axes with
      | AxesInt n => if n =? 1 then Calls [Tensordot (pos x) (pos y) None] else NotImplemented
      | AxesPair p q =>
          match first_axis p, first_axis q with
          | Some i, Some j => if j =? 0 then Calls [Tensordot (pos x) (pos y) (Some i)] else NotImplemented
          | _, _ => Raises
          end
      end
    else NotImplemented
  else Numpy.
(** linalg/__init__.py L144-L196; an [axis] other than 0, 1, -1 of a matrix raises inside
    the call. *)
Definition api_vecdot (x y : operand) (axis : option Z) : target :=
  if sp x || sp y then
    if sp x && sp y then NotImplemented
    else if negb (is vector h y) then NotImplemented
    else if sp x then Calls [Vecdot (pos x) (pos y) axis]
    else NotImplemented
  else Numpy.
(** linalg/__init__.py L199-L203 *)
Definition api_matrix_transpose (x : operand) : target := if is is_matrix h x then Calls [Unary UT (pos x)] else Numpy.

(** sum ... any, min, max: reductions.py L77-L474, L595-L710; count_nonzero: searching.py L11-L67 *)
Definition api_reduce (op : rop (F := F)) (x : operand) (axis : axis_arg) (kd : bool) : target :=
  match op with
  | RCount => if is is_matrix h x then Calls [Reduce op (pos x) axis kd] else Numpy
  | _ => if sp x then Calls [Reduce op (pos x) axis kd] else Numpy
  end.
(** reductions.py L515-L592; COOND is not implemented *)
Definition api_cum (op : cop) (x : operand) (axis : axis_arg) : target :=
  if is is_matrix h x then Calls [Cum op (pos x) axis] else if is coond h x then NotImplemented else Numpy.
(** reductions.py L477-L512; COOND is not implemented *)
Definition api_diff (x : operand) (n : nat) (axis : Z) : target :=
  if is is_matrix h x then Calls [Diff (pos x) n axis] else if is coond h x then NotImplemented else Numpy.
(** _dispatch/manipulation.py L9-L17 *)
Definition api_permute_dims (x : operand) (axes : list Z) : target :=
  if is coond h x then Calls [Permute (pos x) axes] else if sp x then NotImplemented else Numpy.
(** _dispatch/manipulation.py L20-L28 *)
Definition api_reshape (x : operand) (newshape : list Z) : target :=
  if is coond h x then Calls [Reshape (pos x) newshape] else if sp x then NotImplemented else Numpy.

(** creation/__init__.py L38-L39, L122-L123 *)
Definition device_ok (dev : option device) : bool := match dev with Some OtherDevice => false | _ => true end.
(** creation/__init__.py L8-L41; csr.py L132-L134: the native function takes two unsigned numbers *)
Definition api_zeros (shape : list Z) (dev : option device) : target :=
  if device_ok dev then
    match shape with
    | [r; c] => if (0 <=? r) && (0 <=? c) then Calls [Zeros (Z.to_nat r) (Z.to_nat c)] else Raises
    | _ => Raises
    end
  else Raises.
(** creation/__init__.py L84-L129; csr.py L165-L168 *)
Definition api_eye (n_rows : Z) (n_cols : option Z) (k : Z) (dev : option device) : target :=
  if device_ok dev then
    if match n_cols with Some n => negb (n =? n_rows) | None => false end then NotImplemented
    else if negb (k =? 0) then NotImplemented
    else if 0 <=? n_rows then Calls [Eye (Z.to_nat n_rows)] else Raises
  else Raises.
(** dtypes/__init__.py L6-L12; csr.py L756-L776: copies of the arrays go to the constructor *)
Definition api_astype (x : operand) (float64 : bool) : target :=
  match x with
  | Ref a =>
      match nth_error h a with
      | Some (VCsr X) =>
          let A := py_arrays X in
          if float64 then Calls [NewCsr (csr_nrows A) (csr_ncols A) (ptr A) (idx A) (dat A) false] else NotImplemented
      | _ => if sp x then NotImplemented else Numpy
      end
  | _ => Numpy
  end.
(** _namespace.py L63-L87: only the arguments themselves are looked at *)
Definition api_other (args : list operand) : target := if existsb sp args then NotImplemented else Numpy.

(** array_api/__init__.py L3-L138 *)
Definition dispatch (f : api) : target :=
  match f with
  | ApiUnary op x => api_unary op x
  | ApiBinary op x y => api_binary op x y
  | ApiCompare c x y => api_compare c x y
  | ApiMatmul x y => api_matmul x y
  | ApiTensordot x y axes => api_tensordot x y axes
  | ApiVecdot x y axis => api_vecdot x y axis
  | ApiMatrixTranspose x => api_matrix_transpose x
  | ApiReduce op x axis kd => api_reduce op x axis kd
  | ApiCum op x axis => api_cum op x axis
  | ApiDiff x n axis => api_diff x n axis
  | ApiPermuteDims x axes => api_permute_dims x axes
  | ApiReshape x sh => api_reshape x sh
  | ApiZeros shape dev => api_zeros shape dev
  | ApiEye n m k dev => api_eye n m k dev
  | ApiAstype x f64 => api_astype x f64
  | Other args => api_other args
  end.
End Dispatch.

(** The calls of one function, one after the other (elementwise.py L61-L63). *)
Fixpoint run_calls (e : Env F) (h : list (value F)) (l : list (call F)) : res (list (value F)) :=
  match l with
  | [] => Ok h
  | c :: l' => let! h' := step e h c in run_calls e h' l'
  end.
(** What the caller sees: the objects afterwards, the result last, or an exception; what NumPy
    answers is not modelled (_namespace.py L6-L11). *)
Inductive answer := Returns (h : list (value F)) | Fails | IsNotImplemented | AsksNumpy | AsksNumpyDense | Crashes.
(** array_api/__init__.py L3-L138 *)
Definition call_api (e : Env F) (h : list (value F)) (f : api) : answer :=
  match dispatch h f with
  | Calls l => match run_calls e h l with Ok h' => Returns h' | Panic => Fails | UB | Diverge => Crashes end
  | Raises => Fails
  | NotImplemented => IsNotImplemented
  | Numpy => AsksNumpy
  | Densified => AsksNumpyDense
  end.
End Api.
Arguments operand F : clear implicits.
Arguments target F : clear implicits.
Arguments api F : clear implicits.
Arguments answer F : clear implicits.

(** ** Thread settings, _runtime.py. [RAYON_NUM_THREADS]: not set (or empty), a number that
    [int] accepts, or something else (_runtime.py L17-L20). *)
Inductive env_var := Unset | Number (z : Z) | Garbage.
(** [_current_threads] and the variable (_runtime.py L4-L5, L12) *)
Record threads := mkThreads { current : Z; variable : env_var }.
(** _runtime.py L8-L12; the argument is the number [p / 2^q] (a Python int or float);
    [int] truncates *)
Definition set_num_threads (s : threads) (p : Z) (q : nat) : threads :=
  if 0 <? p then let n := p / 2 ^ Z.of_nat q in mkThreads n (Number n) else s.
(** _runtime.py L15-L23 *)
Definition get_num_threads (s : threads) : Z :=
  match variable s with
  | Number z => Z.max 1 z
  | Garbage | Unset => current s
  end.
