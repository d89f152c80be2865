(** Specification: what a program means on ordinary dense matrices of integers. The machine
    keeps tables of integers where the package keeps sparse objects of doubles, and gives up
    ([None]: nothing is claimed) where a number that doubles need not represent could come up: a
    sum or product whose terms exceed 2^53 in total, or a division that is not covered. *)
Require Import List ZArith Bool Arith QArith.
Require Import Coq.Floats.SpecFloat.
Require Import Verif.Values Verif.Spec Verif.SpecReduce Verif.SpecPy Verif.MPy Verif.MObj Verif.SpecObj Verif.SpecCall Verif.SpecCall2 Verif.SpecAccuracy.
Require Verif.SpecDense.
Import ListNotations.
Local Open Scope Z_scope.

Inductive ival :=
| IMat (k : class) (m n : nat) (a : nat -> nat -> Z)   (* a matrix object with m rows and n columns *)
| IArr (sh : list nat) (d : list Z)                    (* a NumPy array, row-major *)
| IBools (sh : list nat) (d : list bool)               (* a NumPy array of truth values *)
| INd (sh : list Z) (a : list Z -> Z).                  (* an N-D array object: the number at given coordinates *)

(** Calls with integers as data; [a], [b] number the objects in the order of their creation. *)
Inductive iop := IAbs | ISign | INeg | IElim | IT.
(** Calls on N-D array objects. *)
Inductive ndcall :=
| NdNew (sh : list Z) (i : list Z) (d : list Z) (check : bool)
| NdUnary (op : iop) (a : nat)
| NdScalar (op : sop) (a : nat) (z : Z)
| NdMul (a b : nat)
| NdPermute (a : nat) (axes : list Z)
| NdReshape (a : nat) (new : list Z)
| NdSum (a : nat) (axis : axis_arg) (keepdims : bool)
| NdSumAxes (a : nat) (axes : list Z)
| NdUnfold (f : fmt) (a : nat) (rows : list Z)
| NdMode (f : fmt) (a : nat) (axis : Z)
| NdTensordot (a b : nat) (axis : option Z)
| NdVecdot (a b : nat) (axis : option Z).
Inductive icall :=
| INewCsr (nr nc : nat) (p i : list Z) (d : list Z) (check : bool)
| INewCsc (nr nc : nat) (p i : list Z) (d : list Z) (check : bool)
| INewCoo (nr nc : nat) (r c : list Z) (d : list Z) (check : bool)
| INewArr (sh : list nat) (d : list Z)
| IZeros (nr nc : nat)
| IEye (n : nat)
| IDiag (d : list Z)
| IUnary (op : iop) (a : nat)
| IScalar (op : sop) (a : nat) (z : Z)
| IBinary (op : bop) (a b : nat)
| IMatmul (a b : nat)
| ISum (a : nat) (axis : axis_arg) (keepdims : bool)
| IProd (a : nat) (axis : axis_arg) (keepdims : bool)
| IBest (least : bool) (a : nat) (axis : axis_arg) (keepdims : bool)   (* min, max *)
| IDecide (every : bool) (a : nat) (axis : axis_arg) (keepdims : bool) (* all, any *)
| ICum (op : cop) (a : nat) (axis : axis_arg)                         (* cumulative sums, products *)
| IDiff (a : nat) (t : nat) (axis : Z)
| IVecdot (a b : nat) (axis : option Z)
| ITensordot (a b : nat) (axis : option Z)
| IGetItem (a : nat) (i j : Z)
| IGetRow (a : nat) (i : Z)
| IGetCol (a : nat) (j : Z)
| ICompare (c : cmp) (a b : nat)
| IToArray (a : nat)
| INdCall (c : ndcall).

(** The call of the package, its integers converted to floats. *)
Definition floating_op {F : Fl} (op : iop) : uop (F := F) := match op with IAbs => UAbs | ISign => USign | INeg => UNeg | IElim => UElim | IT => UT end.
Definition floating_nd {F : Fl} (c : ndcall) : call F :=
  match c with
  | NdNew sh i d ck => NewNd sh i (map fofZ d) ck
  | NdUnary op a => Unary (floating_op op) a
  | NdScalar op a z => Scalar op a (fofZ z)
  | NdMul a b => Binary BMul a b
  | NdPermute a axes => Permute a axes
  | NdReshape a new => Reshape a new
  | NdSum a axis kd => Reduce RSum a axis kd
  | NdSumAxes a axes => ReduceAxes NSum a axes
  | NdUnfold f a rows => Unfold f a rows
  | NdMode f a axis => Mode f a axis
  | NdTensordot a b axis => Tensordot a b axis
  | NdVecdot a b axis => Vecdot a b axis
  end.
Definition floating {F : Fl} (c : icall) : call F :=
  match c with
  | INewCsr nr nc p i d ck => NewCsr nr nc p i (map fofZ d) ck
  | INewCsc nr nc p i d ck => NewCsc nr nc p i (map fofZ d) ck
  | INewCoo nr nc r c d ck => NewCoo nr nc r c (map fofZ d) ck
  | INewArr sh d => NewArr sh (map fofZ d)
  | IZeros nr nc => Zeros nr nc
  | IEye n => Eye n
  | IDiag d => Diag (map fofZ d)
  | IUnary op a => Unary (floating_op op) a
  | IScalar op a z => Scalar op a (fofZ z)
  | IBinary op a b => Binary op a b
  | IMatmul a b => Matmul a b
  | ISum a axis kd => Reduce RSum a axis kd
  | IProd a axis kd => Reduce RProd a axis kd
  | IBest least a axis kd => Reduce (if least then RMin else RMax) a axis kd
  | IDecide every a axis kd => Reduce (if every then RAll else RAny) a axis kd
  | ICum op a axis => Cum op a axis
  | IDiff a t axis => Diff a t axis
  | IVecdot a b axis => Vecdot a b axis
  | ITensordot a b axis => Tensordot a b axis
  | IGetItem a i j => GetItem a i j
  | IGetRow a i => GetRow a i
  | IGetCol a j => GetCol a j
  | ICompare c a b => Compare c a b
  | IToArray a => ToArray a
  | INdCall c => floating_nd c
  end.

(** Doubles represent all integers up to 2^53. *)
Definition limit : Z := 2 ^ 53.
Definition small (z : Z) : bool := Z.abs z <=? limit.
Definition sumz (l : list Z) : Z := fold_right Z.add 0 l.
Definition small_sum (l : list Z) : bool := sumz (map Z.abs l) <=? limit.
Definition prodz (l : list Z) : Z := fold_right Z.mul 1 l.
Definition small_prod (l : list Z) : bool := prodz (map (fun z => Z.max 1 (Z.abs z)) l) <=? limit.
(** The least or greatest number of a list; 0 if there is none. *)
Definition best (least : bool) (l : list Z) : Z :=
  match l with [] => 0 | z :: l' => fold_left (if least then Z.min else Z.max) l' z end.
Definition nonzero (z : Z) : bool := negb (z =? 0).
Definition decide (every : bool) (l : list Z) : bool := if every then forallb nonzero l else existsb nonzero l.
Definition zcmp (c : cmp) (a b : Z) : bool :=
  match c with CEq => a =? b | CNe => negb (a =? b) | CLt => a <? b | CLe => a <=? b | CGt => b <? a | CGe => b <=? a end.
(** The [t]-th differences of [w] numbers. *)
Fixpoint differences (t w : nat) (f : nat -> Z) : option (nat -> Z) :=
  match t with
  | O => Some f
  | S t' => if forallb (fun j => small_sum [f j; f (S j)]) (seq 0 (w - 1)) then differences t' (w - 1) (fun j => f (S j) - f j) else None
  end.

(** Arithmetic on integers; a quotient or remainder by zero counts as zero (a sparse result
    stores nothing there). [None] where doubles need not be exact. *)
Definition int_binary (op : bop) (a b : Z) : option Z :=
  let if_ (ok : bool) r := if ok then Some r else None in
  match op with
  | BAdd => if_ (small (a + b)) (a + b)
  | BSub => if_ (small (a - b)) (a - b)
  | BMul => if_ (small (a * b)) (a * b)
  | BDiv => if b =? 0 then Some 0 else if_ ((a mod b =? 0) && small (a / b)) (a / b)
  | BFloorDiv => if b =? 0 then Some 0 else if_ ((Z.abs a <? limit) && small b) (a / b)
  | BMod => if b =? 0 then Some 0 else if_ ((Z.abs a <=? 2 ^ 52) && (Z.abs b <=? 2 ^ 52)) (a mod b)
  | BPow => None
  end.
(** With a number other than zero for [//] and [%] (by zero they raise), and not [/] or [**]. *)
Definition int_scalar (op : sop) (a z : Z) : option Z :=
  match op with
  | SMul => int_binary BMul a z
  | SFloorDiv => if z =? 0 then None else int_binary BFloorDiv a z
  | SMod => if z =? 0 then None else int_binary BMod a z
  | _ => None
  end.

(** A matrix all of whose cells are defined. *)
Definition is_some {A} (x : option A) : bool := match x with Some _ => true | None => false end.
Definition from_some (x : option Z) : Z := match x with Some z => z | None => 0 end.
Definition cells_of (k : class) (m n : nat) (f : nat -> nat -> option Z) : option ival :=
  if forallb (fun p => is_some (f (fst p) (snd p))) (grid m n) then Some (IMat k m n (fun i j => from_some (f i j))) else None.

(** A reduction of each line, where it is exact. *)
Definition lines (ok : list Z -> bool) (r : list Z -> Z) (sh : list nat) (ls : list (list Z)) : option ival :=
  if forallb ok ls then Some (IArr sh (map r ls)) else None.
Definition any_line (l : list Z) : bool := true.
(** An array whose elements are sums. *)
Definition sums : list nat -> list (list Z) -> option ival := lines small_sum sumz.
(** The cells row by row, in one list; the rows; the columns. *)
Definition cells {A} (m n : nat) (a : nat -> nat -> A) : list A := flat_map (fun i => map (a i) (seq 0 n)) (seq 0 m).
Definition rows_of (m n : nat) (a : nat -> nat -> Z) : list (list Z) := map (fun i => map (a i) (seq 0 n)) (seq 0 m).
Definition cols_of (m n : nat) (a : nat -> nat -> Z) : list (list Z) := map (fun j => map (fun i => a i j) (seq 0 m)) (seq 0 n).

(** An object as a dense table in row-major order. *)
Definition table_of (x : ival) : list nat * list Z :=
  match x with IMat _ m n a => ([m; n], cells m n a) | IArr sh d => (sh, d) | IBools sh d => (sh, map Z.b2z d)
  | INd sh a => (map Z.to_nat sh, map a (all_keys sh)) end.
Definition is_nd (x : ival) : bool := match x with INd _ _ => true | _ => false end.
Definition is_mat (x : ival) : bool := match x with IMat _ _ _ _ => true | _ => false end.
Fixpoint same_shape (a b : list nat) : bool :=
  match a, b with [], [] => true | x :: a', y :: b' => (x =? y)%nat && same_shape a' b' | _, _ => false end.

Definition same_class (k k' : class) : bool :=
  match k, k' with CsrClass, CsrClass | CscClass, CscClass | CooClass, CooClass => true | _, _ => false end.
Definition is_coo (k : class) : bool := same_class k CooClass.

(** The numbers at the coordinates that satisfy [p]; a sum where it is exact; an array all of whose
    cells are defined. *)
Definition picked (sh : list Z) (a : list Z -> Z) (p : list Z -> bool) : list Z := map a (filter p (all_keys sh)).
Definition small_total (l : list Z) : option Z := if small_sum l then Some (sumz l) else None.
Definition nd_cells (sh : list Z) (f : list Z -> option Z) : option ival :=
  if forallb (fun k => is_some (f k)) (all_keys sh) then Some (INd sh (fun k => from_some (f k))) else None.
(** Axes and broadcasting as in SpecDense: axes in range and different, an axis for products
    (the last one by default), shapes that broadcast. *)
Notation same_key := SpecDense.same_key.
Definition unfolded (f : fmt) (rows : list Z) (sh : list Z) (a : list Z -> Z) : option ival :=
  match SpecDense.axes_of (length sh) rows with
  | Some p =>
      let q := other_axes (length sh) p in
      cells_of (match f with FCsr => CsrClass | FCsc => CscClass end) (Z.to_nat (Spec.cells (select p sh))) (Z.to_nat (Spec.cells (select q sh)))
        (fun i j => small_total (picked sh a (fun k => (position (select p sh) (select p k) =? Z.of_nat i) && (position (select q sh) (select q k) =? Z.of_nat j))))
  | None => None
  end.
Definition int_nd (h : list ival) (c : ndcall) : option ival :=
  match c with
  | NdNew sh i d _ => if forallb small d then Some (INd sh (fun k => one_or 0 (nd_at (mkNd sh i d) k))) else None
  | NdUnary op a =>
      match nth_error h a with
      | Some (INd sh x) =>
          match op with
          | IAbs => Some (INd sh (fun k => Z.abs (x k)))
          | ISign => Some (INd sh (fun k => Z.sgn (x k)))
          | INeg => nd_cells sh (fun k => int_binary BMul (x k) (-1))
          | _ => None
          end
      | _ => None
      end
  | NdScalar op a z =>   (* a product with a number raises *)
      match nth_error h a, op with
      | Some (INd sh x), SFloorDiv | Some (INd sh x), SMod => if small z && is_some (int_scalar op 0 z) then nd_cells sh (fun k => int_scalar op (x k) z) else None
      | _, _ => None
      end
  | NdMul a b =>
      match nth_error h a, nth_error h b with
      | Some (INd sh x), Some (INd sh' y) =>
          if forallb (Z.ltb 0) sh && forallb (Z.ltb 0) sh' && SpecDense.stretch sh sh' then
            nd_cells (broadcast_shape sh sh') (fun k => int_binary BMul (x (source_cell sh k)) (y (source_cell sh' k))) else None
      | _, _ => None
      end
  | NdPermute a axes =>
      match nth_error h a with
      | Some (INd sh x) =>
          match SpecDense.axes_of (length sh) axes with
          | Some p => if (length p =? length sh)%nat then Some (INd (select p sh) (fun k => sumz (picked sh x (fun k' => same_key (select p k') k)))) else None
          | None => None
          end
      | _ => None
      end
  | NdReshape a new =>
      match nth_error h a with
      | Some (INd sh x) =>
          if forallb (Z.ltb 0) new && (0 <? length new)%nat && (Spec.cells sh =? Spec.cells new) then
            Some (INd new (fun k => sumz (picked sh x (fun k' => position sh k' =? position new k)))) else None
      | _ => None
      end
  | NdSum a axis kd =>
      match nth_error h a with
      | Some (INd sh x) =>
          let ndim := length sh in
          match axis with
          | AxNone => sums (if kd then repeat 1%nat ndim else []) [map x (all_keys sh)]
          | _ =>
              let numbers := match axis with AxInt z => [z] | AxTuple l => l | AxNone => [] end in
              let axes := named_axes ndim numbers in
              let remain := other_axes ndim axes in
              if (0 <? length numbers)%nat && forallb (fun z => (- Z.of_nat ndim <=? z) && (z <? Z.of_nat ndim)) numbers && (length axes <? ndim)%nat then
                nd_cells (if kd then map (fun d => if existsb (Nat.eqb d) axes then 1 else nth d sh 0) (seq 0 ndim) else select remain sh)
                  (fun k => small_total (picked sh x (fun k' => same_key (select remain k') (if kd then select remain k else k))))
              else None
          end
      | _ => None
      end
  | NdSumAxes a axes =>
      match nth_error h a with
      | Some (INd sh x) =>
          match SpecDense.axes_of (length sh) axes with
          | Some p =>
              if (0 <? length p)%nat && (length p <? length sh)%nat then
                nd_cells (select (other_axes (length sh) p) sh) (fun k => small_total (picked sh x (fun k' => same_key (select (other_axes (length sh) p) k') k)))
              else None
          | None => None
          end
      | _ => None
      end
  | NdUnfold f a rows => match nth_error h a with Some (INd sh x) => unfolded f rows sh x | _ => None end
  | NdMode f a axis => match nth_error h a with Some (INd sh x) => unfolded f [axis] sh x | _ => None end
  | NdTensordot a b axis =>
      match nth_error h a, nth_error h b with
      | Some (INd sh x), Some (IArr (n :: rest) y) =>
          match SpecDense.nd_axis_of (length sh) axis with
          | Some ax =>
              let q := fold_right Nat.mul 1%nat rest in
              let remain := other_axes (length sh) [ax] in
              if Z.of_nat n =? nth ax sh 0 then
                nd_cells (select remain sh ++ [Z.of_nat q]) (fun k => small_total
                  (picked sh (fun k' => x k' * nth (Z.to_nat (nth ax k' 0 * Z.of_nat q + last k 0)) y 0) (fun k' => same_key (select remain k') (removelast k))))
              else None
          | None => None
          end
      | _, _ => None
      end
  | NdVecdot a b axis =>
      match nth_error h a, nth_error h b with
      | Some (INd sh x), Some (IArr [n] y) =>
          match SpecDense.nd_axis_of (length sh) (match axis with Some z => if z =? -1 then None else Some z | None => None end) with
          | Some ax =>
              let remain := other_axes (length sh) [ax] in
              if (Z.of_nat n =? nth ax sh 0) && (1 <? length sh)%nat then
                nd_cells (select remain sh) (fun k => small_total (picked sh (fun k' => x k' * nth (Z.to_nat (nth ax k' 0)) y 0) (fun k' => same_key (select remain k') k)))
              else None
          | None => None
          end
      | _, _ => None
      end
  end.

Definition int_call (h : list ival) (c : icall) : option ival :=
  match c with
  | INewCsr nr nc p i d _ => if forallb small d then Some (IMat CsrClass nr nc (csr_val 0 (mkCs nr nc p i d))) else None
  | INewCsc nr nc p i d _ => if forallb small d then Some (IMat CscClass nr nc (csc_val 0 (mkCs nc nr p i d))) else None
  | INewCoo nr nc r c d _ => if forallb small d then Some (IMat CooClass nr nc (fun i j => one_or 0 (coo_at (mkCoo nr nc r c d) i j))) else None
  | INewArr sh d => if forallb small d && (length d =? fold_right Nat.mul 1 sh)%nat then Some (IArr sh d) else None
  | IZeros nr nc => Some (IMat CsrClass nr nc (fun _ _ => 0))
  | IEye n => Some (IMat CsrClass n n (fun i j => if (i =? j)%nat then 1 else 0))
  | IDiag d => if forallb small d then Some (IMat CsrClass (length d) (length d) (fun i j => if (i =? j)%nat then nth i d 0 else 0)) else None
  | IUnary op a =>
      match nth_error h a with
      | Some (IMat k m n x) =>
          match op with
          | IAbs => Some (IMat k m n (fun i j => Z.abs (x i j)))
          | ISign => Some (IMat k m n (fun i j => Z.sgn (x i j)))
          | INeg => cells_of k m n (fun i j => int_binary BMul (x i j) (-1))
          | IElim => Some (IMat k m n x)
          | IT => Some (IMat k n m (fun i j => x j i))
          end
      | _ => None
      end
  | IScalar op a z =>
      match nth_error h a with
      | Some (IMat k m n x) => if small z && is_some (int_scalar op 0 z) then cells_of k m n (fun i j => int_scalar op (x i j) z) else None
      | _ => None
      end
  | IBinary op a b =>
      match nth_error h a, nth_error h b with
      | Some (IMat k m n x), Some (IMat k' m' n' y) =>
          if same_class k k' && negb (is_coo k) && (m =? m')%nat && (n =? n')%nat && is_some (int_binary op 0 0) then cells_of k m n (fun i j => int_binary op (x i j) (y i j)) else None
      | _, _ => None
      end
  | IMatmul a b =>
      match nth_error h a, nth_error h b with
      | Some (IMat k m n x), Some (IArr [l] y) =>
          if (l =? n)%nat then sums [m] (map (fun i => map (fun j => x i j * nth j y 0) (seq 0 n)) (seq 0 m)) else None
      | Some (IMat k m n x), Some (IArr sh y) =>   (* a matrix of q columns, or a stack of such matrices *)
          match rev sh with
          | q :: l :: bs =>
              let s := fold_right Nat.mul 1%nat (rev bs) in
              if (l =? n)%nat && (0 <? s * q)%nat then
                sums (rev bs ++ [m; q]) (flat_map (fun t => cells m q (fun i c => map (fun j => x i j * nth (t * (n * q) + (j * q + c)) y 0) (seq 0 n))) (seq 0 s)) else None
          | _ => None
          end
      | _, _ => None
      end
  | ISum a axis kd =>
      match nth_error h a with
      | Some (IMat k m n x) =>
          match reduction_2d (cells m n x) (cols_of m n x) (rows_of m n x) axis kd with
          | Some (sh, ls) => sums sh ls
          | None => None
          end
      | _ => None
      end
  | IProd a axis kd =>
      match nth_error h a with
      | Some (IMat k m n x) =>
          match reduction_2d (cells m n x) (cols_of m n x) (rows_of m n x) axis kd with
          | Some (sh, ls) => lines small_prod prodz sh ls
          | None => None
          end
      | _ => None
      end
  | IBest least a axis kd =>
      match nth_error h a with
      | Some (IMat k m n x) =>
          match reduction_2d (cells m n x) (cols_of m n x) (rows_of m n x) axis kd with
          | Some (sh, ls) => lines any_line (best least) sh ls
          | None => None
          end
      | _ => None
      end
  | IDecide every a axis kd =>
      match nth_error h a with
      | Some (IMat k m n x) =>
          match reduction_2d (cells m n x) (cols_of m n x) (rows_of m n x) axis kd with
          | Some (sh, ls) => Some (IBools sh (map (decide every) ls))
          | None => None
          end
      | _ => None
      end
  | ICum op a axis =>
      match nth_error h a with
      | Some (IMat k m n x) =>
          let run := match op with CumSum => lines small_sum sumz | CumProd => lines small_prod prodz end in
          match single_axis axis with
          | Some 0%nat => run [m; n] (cells m n (fun i j => map (fun i' => x i' j) (seq 0 (S i))))
          | Some 1%nat => if same_class k CscClass then None else run [m; n] (cells m n (fun i j => map (x i) (seq 0 (S j))))
          | _ => None
          end
      | _ => None
      end
  | IDiff a t axis =>
      match nth_error h a with
      | Some (IMat k m n x) =>
          if same_class k CscClass then None
          else if (axis =? 0) || (axis =? -2) then
            let col j := differences t m (fun i => x i j) in
            if forallb (fun j => is_some (col j)) (seq 0 n)
            then Some (IMat k (m - t) n (fun i j => match col j with Some f => f i | None => 0 end)) else None
          else if (axis =? 1) || (axis =? -1) then
            let row i := differences t n (x i) in
            if forallb (fun i => is_some (row i)) (seq 0 m)
            then Some (IMat k m (n - t) (fun i j => match row i with Some f => f j | None => 0 end)) else None
          else None
      | _ => None
      end
  | IVecdot a b axis =>
      match nth_error h a, nth_error h b with
      | Some (IMat k m n x), Some (IArr [l] y) =>
          match axis with
          | Some 0 => if (l =? m)%nat then sums [n] (map (fun j => map (fun i => x i j * nth i y 0) (seq 0 m)) (seq 0 n)) else None
          | None | Some 1 | Some (-1) => if (l =? n)%nat then sums [m] (map (fun i => map (fun j => x i j * nth j y 0) (seq 0 n)) (seq 0 m)) else None
          | _ => None
          end
      | _, _ => None
      end
  | ITensordot a b axis =>
      match nth_error h a, nth_error h b, axis with
      | Some (IMat k m n x), Some (IArr (l :: rest) y), (None | Some 1) =>
          let q := fold_right Nat.mul 1%nat rest in
          if (l =? n)%nat && (0 <? q)%nat then sums (m :: rest) (cells m q (fun i c => map (fun j => x i j * nth (j * q + c) y 0) (seq 0 n))) else None
      | _, _, _ => None
      end
  | IGetItem a i j =>
      match nth_error h a with
      | Some (IMat CsrClass m n x) =>
          if (0 <=? i) && (i <? Z.of_nat m) && (0 <=? j) && (j <? Z.of_nat n) then Some (IArr [] [x (Z.to_nat i) (Z.to_nat j)]) else None
      | _ => None
      end
  | IGetRow a i =>
      match nth_error h a with
      | Some (IMat CsrClass m n x) => if (0 <=? i) && (i <? Z.of_nat m) then Some (IArr [n] (map (x (Z.to_nat i)) (seq 0 n))) else None
      | _ => None
      end
  | IGetCol a j =>
      match nth_error h a with
      | Some (IMat CsrClass m n x) => if (0 <=? j) && (j <? Z.of_nat n) then Some (IArr [m] (map (fun i => x i (Z.to_nat j)) (seq 0 m))) else None
      | _ => None
      end
  | ICompare c a b =>
      match nth_error h a, nth_error h b with
      | Some x, Some y =>
          if (is_mat x || is_mat y) && negb (is_nd x || is_nd y) && same_shape (fst (table_of x)) (fst (table_of y))
          then Some (IBools (fst (table_of x)) (map (fun p => zcmp c (fst p) (snd p)) (combine (snd (table_of x)) (snd (table_of y))))) else None
      | _, _ => None
      end
  | IToArray a => match nth_error h a with Some (IMat k m n x) => Some (IArr [m; n] (cells m n x)) | _ => None end
  | INdCall c => int_nd h c
  end.
Fixpoint int_run (h : list ival) (l : list icall) : option (list ival) :=
  match l with
  | [] => Some h
  | c :: l' => match int_call h c with Some x => int_run (h ++ [x]) l' | None => None end
  end.

(** Matrices are built from valid arrays without unsorted or repeated entries, of sizes a
    machine can hold. *)
Definition plain_integers (c : icall) : Prop :=
  match c with
  | INewCsr nr nc p i d _ => canonical (mkCs nr nc p i d) /\ alloc_ok (length p) /\ alloc_ok nr /\ alloc_ok nc
  | INewCsc nr nc p i d _ => canonical (mkCs nc nr p i d) /\ alloc_ok nr /\ alloc_ok nc
  | INewCoo nr nc r c d _ => coo_ok (mkCoo nr nc r c d) /\ single_valued (coo_at (mkCoo nr nc r c d)) /\ alloc_ok nr /\ alloc_ok nc
  | IEye n => alloc_ok n
  | IDiag d => alloc_ok (length d)
  | INdCall (NdNew sh i d _) => nd_ok (mkNd sh i d) /\ single_valued_nd (mkNd sh i d) /\ Forall (Z.le 0) sh
  | _ => True
  end.

(** What some calls need of the machine: hardware minima and maxima that return the smaller or
    greater of two numbers, and a binary search that finds what it looks for. *)
Definition suits {F : Fl} (e : Env F) (c : icall) : Prop :=
  match c with
  | IBest true _ _ _ => is_min (e_vmin e) /\ is_min (e_smin e)
  | IBest false _ _ _ => is_max (e_vmax e) /\ is_max (e_smax e)
  | IGetItem _ _ _ | IGetCol _ _ => is_searchsorted (e_search e)
  | _ => True
  end.

(** A double that stands for the integer [z]; an object all of whose cells do. *)
Definition is_int (v : spec_float) (z : Z) : Prop := finite_double v /\ (number v == inject_Z z)%Q.
Definition holds {pw} (v : value (f64 pw)) (x : ival) : Prop :=
  match x with
  | IMat k m n a => class_of v = Some k /\ shape2 v = (m, n) /\ forall i j, (i < m)%nat -> (j < n)%nat -> is_int (SpecCall.cell v i j) (a i j)
  | IArr sh d => exists d' : list (f64 pw), v = VArr sh d' /\ Forall2 is_int d' d
  | IBools sh d => v = VBools sh d
  | INd sh a => exists A, v = VNd A /\ nd_shape A = sh /\ Forall (Z.le 0) sh /\ forall k, in_shape sh k -> is_int (one_or f0 (nd_at A k)) (a k)
  end.
