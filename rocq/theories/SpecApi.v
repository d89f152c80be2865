(** Vocabulary for the functions of the namespace: what their arguments are, which pairs of
    arguments the elementwise functions support, and which states a program can reach that
    uses methods and functions. *)
Require Import List ZArith Bool.
Require Import Verif.Res Verif.Values Verif.Spec Verif.SpecReduce Verif.SpecPy Verif.MPy Verif.MObj Verif.SpecObj Verif.SpecCall Verif.SpecCall2 Verif.MApi.
Import ListNotations.
Local Open Scope Z_scope.

(** What an argument is: a matrix, an N-D array, a number, a dense array of at least one
    dimension, or something else. *)
Inductive kind := Matrix (c : class) | NdArray | ANumber | DenseArray (ndim : nat) | Something.
Section Spec.
Context {F : Fl}.
Definition kind_of_value (v : value F) : kind :=
  match v with
  | VCsr _ => Matrix CsrClass
  | VCsc _ => Matrix CscClass
  | VCoo _ => Matrix CooClass
  | VNd _ => NdArray
  | VArr [] d => match d with [_] => ANumber | _ => Something end
  | VInts [] d => match d with [_] => ANumber | _ => Something end
  | VBools [] d => match d with [_] => ANumber | _ => Something end
  | VArr sh _ | VInts sh _ | VBools sh _ => DenseArray (length sh)
  end.
Definition kind_of (h : list (value F)) (x : operand F) : kind :=
  match x with
  | Ref a => match nth_error h a with Some v => kind_of_value v | None => Something end
  | Num _ => ANumber
  | _ => Something
  end.
Definition sparse_kind (k : kind) : bool := match k with Matrix _ | NdArray => true | _ => false end.

(** The value of a number. *)
Definition denotes (h : list (value F)) (x : operand F) (v : F) : Prop :=
  x = Num v \/ exists a y, x = Ref a /\ nth_error h a = Some y /\ floats y = Some ([], [v]).

(** add, subtract, multiply, divide, floor_divide, remainder and pow: which pairs of sparse
    and other arguments they accept. *)
Definition implemented (op : bop) (x y : kind) : bool :=
  match x, y with
  | Matrix CsrClass, Matrix CsrClass | Matrix CscClass, Matrix CscClass => true
  | Matrix _, ANumber => match op with BAdd | BSub => false | _ => true end
  | NdArray, ANumber => match op with BFloorDiv | BMod | BPow => true | _ => false end
  | ANumber, Matrix _ => match op with BMul => true | _ => false end
  | NdArray, NdArray => match op with BMul => true | _ => false end
  | _, _ => false
  end.
(** The operator with a number that a function stands for. *)
Definition with_number (op : bop) : option sop :=
  match op with
  | BMul => Some SMul | BDiv => Some SDiv | BFloorDiv => Some SFloorDiv | BMod => Some SMod | BPow => Some SPow
  | BAdd | BSub => None
  end.

(** The answer to one method call. *)
Definition method (e : Env F) (h : list (value F)) (c : call F) : answer F :=
  match step e h c with Ok h' => Returns h' | Panic => Fails | UB | Diverge => Crashes end.

(** The arguments of a function. *)
Definition arguments (f : api F) : list (operand F) :=
  match f with
  | ApiUnary _ x | ApiMatrixTranspose x | ApiReduce _ x _ _ | ApiCum _ x _ | ApiDiff x _ _ | ApiPermuteDims x _
  | ApiReshape x _ | ApiAstype x _ => [x]
  | ApiBinary _ x y | ApiCompare _ x y | ApiMatmul x y | ApiTensordot x y _ | ApiVecdot x y _ => [x; y]
  | ApiZeros _ _ | ApiEye _ _ _ _ => []
  | Other args => args
  end.

(** One axis each of the operands of tensordot: [axes=([i], [j])] or [axes=(i, j)]. *)
Definition one_axis (p : part) (z : Z) : Prop := p = One z \/ p = Many [z].

(** The size limits of MObj.v, for the call itself and its result. *)
Definition within_limits (h : list (value F)) (c : call F) : Prop :=
  demand h c < i64_max /\ match c with NewCsr _ _ p _ _ _ => alloc_ok (length p) | _ => True end.
Fixpoint calls_within (e : Env F) (h : list (value F)) (l : list (call F)) : Prop :=
  match l with
  | [] => True
  | c :: l' => within_limits h c /\ forall h', step e h c = Ok h' -> forallb fits h' = true /\ calls_within e h' l'
  end.
(** None of the calls is one of the two that are left out (SpecCall.v). *)
Fixpoint calls_allowed (e : Env F) (h : list (value F)) (l : list (call F)) : Prop :=
  match l with
  | [] => True
  | c :: l' => ~ excluded h c /\ forall h', step e h c = Ok h' -> calls_allowed e h' l'
  end.

(** The states of a program that calls methods and functions of the namespace (those that
    answer without NumPy). *)
Inductive reached_with_functions : list (value F) -> Prop :=
| with_start : reached_with_functions []
| with_method : forall h e c h', reached_with_functions h -> fair e -> regular_arguments c -> ~ excluded h c ->
    demand h c < i64_max -> step e h c = Ok h' -> forallb fits h' = true -> reached_with_functions h'
| with_function : forall h e f l h', reached_with_functions h -> fair e -> dispatch h f = Calls l -> calls_within e h l -> calls_allowed e h l ->
    call_api e h f = Returns h' -> reached_with_functions h'.
End Spec.
