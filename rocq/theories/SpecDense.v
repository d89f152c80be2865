(** Specification: what a program means on ordinary dense matrices, in exact arithmetic.
    A dense machine keeps plain matrices (a function from positions to numbers) where the
    package keeps sparse objects; it knows the class of an object only because some calls
    are offered for some classes. [None] means that nothing is claimed about the call: the
    package raises there, or the call is not covered. Nothing here refers to the kernels. *)
Require Import List ZArith Bool Arith QArith Qcanon.
Require Import Verif.Values Verif.Spec Verif.SpecReduce Verif.SpecDiff Verif.SpecPy Verif.MPy Verif.MObj Verif.SpecObj.
Import ListNotations.
Local Open Scope nat_scope.

Inductive kind := KCsr | KCsc | KCoo.
Inductive dval :=
| DMat (k : kind) (m n : nat) (a : nat -> nat -> Qc)   (* a matrix object with m rows and n columns *)
| DArr (sh : list nat) (d : list Qc)                   (* a NumPy array, row-major *)
| DBools (sh : list nat) (d : list bool)
| DNd (sh : list Z) (a : list Z -> Qc).                (* an N-D array object: the number at given coordinates *)

Notation "0q" := (Q2Qc 0).
Notation "1q" := (Q2Qc 1).
Definition total (n : nat) (f : nat -> Qc) : Qc := qsum (map f (seq 0 n)).
(** The cells of a matrix, row by row. *)
Definition table {A} (m n : nat) (a : nat -> nat -> A) : list A := flat_map (fun i => map (a i) (seq 0 n)) (seq 0 m).

Definition same_kind (k k' : kind) : bool := match k, k' with KCsr, KCsr | KCsc, KCsc | KCoo, KCoo => true | _, _ => false end.

(** abs, sign, negation, removal of small values, removal of zeros, transpose. *)
Definition qsign (x : Qc) : Qc := if qc_ltb 0q x then 1q else if qc_ltb x 0q then Qcopp 1q else 0q.
Definition dense_unary (op : uop (F := qc)) (x : dval) : option dval :=
  match x with
  | DMat k m n a =>
      match op with
      | UAbs => Some (DMat k m n (fun i j => qc_abs (a i j)))
      | USign => Some (DMat k m n (fun i j => qsign (a i j)))
      | UNeg => Some (DMat k m n (fun i j => Qcopp (a i j)))
      | UPrune eps => Some (DMat k m n (fun i j => if qc_ltb eps (qc_abs (a i j)) then a i j else 0q))
      | UElim => Some (DMat k m n a)
      | UT => Some (DMat k n m (fun i j => a j i))
      end
  | _ => None
  end.

(** Multiplication and division by a number, floor division and remainder (not power). *)
Definition dense_scalar (op : sop) (x : dval) (alpha : Qc) : option dval :=
  match x with
  | DMat k m n a =>
      match op with
      | SMul => Some (DMat k m n (fun i j => a i j * alpha)%Qc)
      | SDiv => if qc_eqb alpha 0q then None else Some (DMat k m n (fun i j => a i j / alpha)%Qc)
      | SFloorDiv => if qc_eqb alpha 0q then None else Some (DMat k m n (fun i j => qc_floor (a i j / alpha)%Qc))
      | SMod => if qc_eqb alpha 0q then None else Some (DMat k m n (fun i j => a i j - alpha * qc_floor (a i j / alpha))%Qc)
      | SPow => None
      end
  | _ => None
  end.

(** Sum, difference and elementwise product of two CSR or two CSC matrices. *)
Definition dense_binary (op : bop) (x y : dval) : option dval :=
  match x, y with
  | DMat k m n a, DMat k' m' n' b =>
      if same_kind k k' && negb (same_kind k KCoo) && (m =? m') && (n =? n') then
        match op with
        | BAdd => Some (DMat k m n (fun i j => a i j + b i j)%Qc)
        | BSub => Some (DMat k m n (fun i j => a i j - b i j)%Qc)
        | BMul => Some (DMat k m n (fun i j => a i j * b i j)%Qc)
        | _ => None
        end
      else None
  | _, _ => None
  end.

(** The product with a dense vector, or with a dense array whose first axis is contracted
    and whose other axes have [p] > 0 elements together. *)
Definition dot (n : nat) (a : nat -> nat -> Qc) (y : list Qc) (i : nat) : Qc := total n (fun j => a i j * nth j y 0q)%Qc.
Definition product (m n p : nat) (a : nat -> nat -> Qc) (y : list Qc) : list Qc :=
  table m p (fun i c => total n (fun j => a i j * nth (j * p + c) y 0q)%Qc).
Definition dense_matmul (x y : dval) : option dval :=
  match x, y with
  | DMat k m n a, DArr [n'] y => if n' =? n then Some (DArr [m] (map (dot n a y) (seq 0 m))) else None
  | DMat k m n a, DArr [n'; p] y => if (n' =? n) && (0 <? p) then Some (DArr [m; p] (product m n p a y)) else None
  | _, _ => None
  end.
Definition dense_tensordot (x y : dval) (axis : option Z) : option dval :=
  if match axis with None => true | Some ax => (ax =? 1)%Z end then
    match x, y with
    | DMat k m n a, DArr [n'] _ => dense_matmul x y
    | DMat k m n a, DArr (n' :: rest) y =>
        let p := fold_right Nat.mul 1 rest in
        if (n' =? n) && (0 <? p) then Some (DArr (m :: rest) (product m n p a y)) else None
    | _, _ => None
    end
  else None.
Definition dense_vecdot (x y : dval) (axis : option Z) : option dval :=
  match x, y with
  | DMat k m n a, DArr [n'] d =>
      match axis with
      | None => dense_matmul x y
      | Some ax =>
          if (ax =? 1)%Z || (ax =? -1)%Z then dense_matmul x y
          else if (ax =? 0)%Z then
            if n' =? m then Some (DArr [n] (map (dot m (fun j i => a i j) d) (seq 0 n))) else None
          else None
      end
  | _, _ => None
  end.

(** Reductions, over everything, over the rows or over the columns. Means of empty
    matrices are left out, and so are minima and maxima (exact rationals have no infinity),
    standard deviations and [count_nonzero] (C45). *)
Definition reduced {A} (red : list Qc -> A) (m n : nat) (a : nat -> nat -> Qc) (axis : axis_arg) (kd : bool) : option (list nat * list A) :=
  reduction_2d (red (table m n a)) (map (fun j => red (map (fun i => a i j) (seq 0 m))) (seq 0 n))
    (map (fun i => red (map (a i) (seq 0 n))) (seq 0 m)) axis kd.
Definition arr (r : option (list nat * list Qc)) : option dval := option_map (fun p => DArr (fst p) (snd p)) r.
Definition bools (r : option (list nat * list bool)) : option dval := option_map (fun p => DBools (fst p) (snd p)) r.
Definition dense_reduce (op : rop (F := qc)) (x : dval) (axis : axis_arg) (kd : bool) : option dval :=
  match x with
  | DMat k m n a =>
      match op with
      | RSum => arr (reduced qsum m n a axis kd)
      | RMean => if 0 <? m * n then arr (reduced qmean m n a axis kd) else None
      | RProd => arr (reduced qprod m n a axis kd)
      | RVar c => arr (reduced (fun l => qvariance l c) m n a axis kd)
      | RAll => bools (reduced (forallb (fun x => negb (qc_eqb x 0q))) m n a axis kd)
      | RAny => bools (reduced (existsb (fun x => negb (qc_eqb x 0q))) m n a axis kd)
      | _ => None
      end
  | _ => None
  end.

(** Cumulative sums and products along axis 0 or 1; for CSC only axis 0 (C40). *)
Definition is_axis0 (ax : Z) : bool := (ax =? 0)%Z || (ax =? -2)%Z.
Definition is_axis1 (ax : Z) : bool := (ax =? 1)%Z || (ax =? -1)%Z.
Definition dense_cum (op : cop) (x : dval) (axis : axis_arg) : option dval :=
  let red := match op with CumSum => qsum | CumProd => qprod end in
  match x, axis with
  | DMat k m n a, AxInt ax =>
      if is_axis0 ax then Some (DArr [m; n] (table m n (fun i j => red (map (fun i' => a i' j) (seq 0 (S i))))))
      else if is_axis1 ax && negb (same_kind k KCsc) then Some (DArr [m; n] (table m n (fun i j => red (map (fun j' => a i j') (seq 0 (S j))))))
      else None
  | _, _ => None
  end.

(** [t]-th differences along an axis, CSR and COO (for CSC see C41). *)
Definition dense_diff (x : dval) (t : nat) (axis : Z) : option dval :=
  match x with
  | DMat k m n a =>
      if same_kind k KCsc then None
      else if is_axis0 axis then Some (DMat k (m - t) n (fun i j => Nat.iter t qdelta (fun i' => a i' j) i))
      else if is_axis1 axis then Some (DMat k m (n - t) (fun i j => Nat.iter t qdelta (a i) j))
      else None
  | _ => None
  end.

(** Reading cells, rows and columns of a CSR matrix, and whole matrices. *)
Definition within (i : Z) (n : nat) : bool := (0 <=? i)%Z && (i <? Z.of_nat n)%Z.
Definition dense_getitem (x : dval) (i j : Z) : option dval :=
  match x with
  | DMat KCsr m n a => if within i m && within j n then Some (DArr [] [a (Z.to_nat i) (Z.to_nat j)]) else None
  | _ => None
  end.
Definition dense_getrow (x : dval) (i : Z) : option dval :=
  match x with
  | DMat KCsr m n a => if within i m then Some (DArr [n] (map (a (Z.to_nat i)) (seq 0 n))) else None
  | _ => None
  end.
Definition dense_getcol (x : dval) (j : Z) : option dval :=
  match x with
  | DMat KCsr m n a => if within j n then Some (DArr [m] (map (fun i => a i (Z.to_nat j)) (seq 0 m))) else None
  | _ => None
  end.
Definition dense_toarray (x : dval) : option dval :=
  match x with DMat _ m n a => Some (DArr [m; n] (table m n a)) | _ => None end.

(** Comparisons between two objects, or an object and a dense array, of the same shape. *)
Definition qcompare (c : cmp) (x y : Qc) : bool :=
  match c with
  | CEq => qc_eqb x y
  | CNe => negb (qc_eqb x y)
  | CLt => qc_ltb x y
  | CLe => qc_ltb x y || qc_eqb x y
  | CGt => qc_ltb y x
  | CGe => qc_ltb y x || qc_eqb x y
  end.
Definition dense_cells (x : dval) : option (list nat * list Qc) :=
  match x with
  | DMat _ m n a => Some ([m; n], table m n a)
  | DArr sh d => Some (sh, d)
  | DNd sh a => Some (map Z.to_nat sh, map a (all_keys sh))
  | DBools _ _ => None
  end.
Definition dense_compare (c : cmp) (x y : dval) : option dval :=
  match x, y with
  | DArr _ _, DArr _ _ => None
  | _, _ =>
      match dense_cells x, dense_cells y with
      | Some (sx, dx), Some (sy, dy) =>
          if list_eq_dec Nat.eq_dec sx sy then Some (DBools sx (map (fun ab => qcompare c (fst ab) (snd ab)) (combine dx dy))) else None
      | _, _ => None
      end
  end.

(** ** N-D arrays *)

(** The sum of [a] over the coordinates of the shape that satisfy [p]. *)
Definition nd_sum (sh : list Z) (a : list Z -> Qc) (p : list Z -> bool) : Qc := qsum (map a (filter p (all_keys sh))).
Definition same_key (k k' : list Z) : bool := if list_eq_dec Z.eq_dec k k' then true else false.
(** Numbers of distinct axes. *)
Fixpoint all_different (l : list Z) : bool := match l with [] => true | x :: l' => negb (existsb (Z.eqb x) l') && all_different l' end.
Definition axes_of (ndim : nat) (l : list Z) : option (list nat) :=
  if forallb (fun z => within z ndim) l && all_different l then Some (map Z.to_nat l) else None.

Definition nd_unary (op : uop (F := qc)) (sh : list Z) (a : list Z -> Qc) : option dval :=
  match op with
  | UAbs => Some (DNd sh (fun k => qc_abs (a k)))
  | USign => Some (DNd sh (fun k => qsign (a k)))
  | UNeg => Some (DNd sh (fun k => Qcopp (a k)))
  | _ => None
  end.
Definition nd_scalar (op : sop) (alpha : Qc) (sh : list Z) (a : list Z -> Qc) : option dval :=
  if qc_eqb alpha 0q then None else
  match op with
  | SFloorDiv => Some (DNd sh (fun k => qc_floor (a k / alpha)%Qc))
  | SMod => Some (DNd sh (fun k => a k - alpha * qc_floor (a k / alpha))%Qc)
  | _ => None
  end.
(** The elementwise product, with broadcasting; no empty dimension (C24). *)
Definition stretch (s t : list Z) : bool :=
  let d := Nat.max (length s) (length t) in
  forallb (fun ab => (fst ab =? snd ab)%Z || (fst ab =? 1)%Z || (snd ab =? 1)%Z) (combine (pad_ones d s) (pad_ones d t)).
Definition nd_binary (op : bop) (y : dval) (sh : list Z) (a : list Z -> Qc) : option dval :=
  match op, y with
  | BMul, DNd sh' b =>
      if forallb (Z.ltb 0) sh && forallb (Z.ltb 0) sh' && stretch sh sh' then
        Some (DNd (broadcast_shape sh sh') (fun k => a (source_cell sh k) * b (source_cell sh' k))%Qc)
      else None
  | _, _ => None
  end.
(** Permuted axes, and a new shape without empty dimensions: the number at [k] is the one
    (the sum has one term) whose permuted coordinates are [k], or which has the same
    row-major position. *)
Definition nd_permute (axes : list Z) (sh : list Z) (a : list Z -> Qc) : option dval :=
  match axes_of (length sh) axes with
  | Some p => if length p =? length sh then Some (DNd (select p sh) (fun k => nd_sum sh a (fun k' => same_key (select p k') k))) else None
  | None => None
  end.
Definition nd_reshape (new : list Z) (sh : list Z) (a : list Z -> Qc) : option dval :=
  if forallb (Z.ltb 0) new && (0 <? length new) && (cells sh =? cells new)%Z then
    Some (DNd new (fun k => nd_sum sh a (fun k' => (position sh k' =? position new k)%Z)))
  else None.
(** Sums and means over some of the axes; the others remain. *)
Definition nd_along (mean : bool) (axes : list nat) (sh : list Z) (a : list Z -> Qc) (k : list Z) : Qc :=
  let s := nd_sum sh a (fun k' => same_key (select (other_axes (length sh) axes) k') k) in
  if mean then (s / Q2Qc (inject_Z (cells (select axes sh))))%Qc else s.
Definition nd_reduce_axes (op : ndred) (axes : list Z) (sh : list Z) (a : list Z -> Qc) : option dval :=
  let mean := match op with NMean => true | NSum => false end in
  match axes_of (length sh) axes with
  | Some p =>
      if (0 <? length p) && (length p <? length sh) && negb (mean && (cells (select p sh) =? 0)%Z) then
        Some (DNd (select (other_axes (length sh) p) sh) (nd_along mean p sh a))
      else None
  | None => None
  end.
Definition nd_reduce (op : rop (F := qc)) (axis : axis_arg) (kd : bool) (sh : list Z) (a : list Z -> Qc) : option dval :=
  let ndim := length sh in
  let reduce (mean : bool) :=
    if mean && (cells sh =? 0)%Z then None else
    match axis with
    | AxNone =>
        let s := qsum (map a (all_keys sh)) in
        Some (DArr (if kd then repeat 1 ndim else []) [if mean then (s / Q2Qc (inject_Z (cells sh)))%Qc else s])
    | _ =>
        let numbers := match axis with AxInt z => [z] | AxTuple l => l | AxNone => [] end in
        let axes := named_axes ndim numbers in
        let remain := other_axes ndim axes in
        if (0 <? length numbers) && forallb (fun z => (- Z.of_nat ndim <=? z)%Z && (z <? Z.of_nat ndim)%Z) numbers && (length axes <? ndim) then
          Some (if kd then DNd (map (fun d => if existsb (Nat.eqb d) axes then 1%Z else nth d sh 0%Z) (seq 0 ndim)) (fun k => nd_along mean axes sh a (select remain k))
                else DNd (select remain sh) (nd_along mean axes sh a))
        else None
    end in
  match op with RSum => reduce false | RMean => reduce true | _ => None end.
(** Unfolding into a matrix: the coordinates along the row axes give the row, the others the
    column (again a sum of one term). *)
Definition nd_unfold (f : fmt) (rows : list Z) (sh : list Z) (a : list Z -> Qc) : option dval :=
  match axes_of (length sh) rows with
  | Some p =>
      let q := other_axes (length sh) p in
      Some (DMat (match f with FCsr => KCsr | FCsc => KCsc end) (Z.to_nat (cells (select p sh))) (Z.to_nat (cells (select q sh)))
        (fun i j => nd_sum sh a (fun k => (position (select p sh) (select p k) =? Z.of_nat i)%Z && (position (select q sh) (select q k) =? Z.of_nat j)%Z)))
  | None => None
  end.
(** Contraction of one axis with the first axis of a dense array; its other axes become one. *)
Definition nd_axis_of (ndim : nat) (axis : option Z) : option nat :=
  match axis with None => Some (ndim - 1) | Some z => if within z ndim then Some (Z.to_nat z) else None end.
Definition nd_tensordot (y : dval) (axis : option Z) (sh : list Z) (a : list Z -> Qc) : option dval :=
  match y, nd_axis_of (length sh) axis with
  | DArr (n :: rest) d, Some ax =>
      let q := other_axes (length sh) [ax] in
      let p := fold_right Nat.mul 1 rest in
      if (Z.of_nat n =? nth ax sh 0)%Z then
        Some (DNd (select q sh ++ [Z.of_nat p]) (fun k =>
          nd_sum sh (fun k' => a k' * nth (Z.to_nat (nth ax k' 0%Z) * p + Z.to_nat (last k 0%Z)) d 0q)%Qc (fun k' => same_key (select q k') (removelast k))))
      else None
  | _, _ => None
  end.
Definition nd_vecdot (y : dval) (axis : option Z) (sh : list Z) (a : list Z -> Qc) : option dval :=
  match y, nd_axis_of (length sh) (match axis with Some z => if (z =? -1)%Z then None else Some z | None => None end) with
  | DArr [n] d, Some ax =>
      let q := other_axes (length sh) [ax] in
      if (Z.of_nat n =? nth ax sh 0)%Z && (1 <? length sh) then
        Some (DNd (select q sh) (fun k => nd_sum sh (fun k' => a k' * nth (Z.to_nat (nth ax k' 0%Z)) d 0q)%Qc (fun k' => same_key (select q k') k)))
      else None
  | _, _ => None
  end.

(** One call: the operands are looked up among the values computed so far. *)
Definition with1 (h : list dval) (a : nat) (f : dval -> option dval) : option dval :=
  match nth_error h a with Some x => f x | None => None end.
Definition with2 (h : list dval) (a b : nat) (f : dval -> dval -> option dval) : option dval :=
  match nth_error h a, nth_error h b with Some x, Some y => f x y | _, _ => None end.
(** [f] for an N-D array, [g] for anything else. *)
Definition or_nd (f : list Z -> (list Z -> Qc) -> option dval) (g : dval -> option dval) (x : dval) : option dval :=
  match x with DNd sh a => f sh a | _ => g x end.
Definition no_matrix (x : dval) : option dval := None.
Definition dense_call (h : list dval) (c : call qc) : option dval :=
  match c with
  | NewCsr nr nc p i d _ => Some (DMat KCsr nr nc (csr_val 0q (mkCs nr nc p i d)))
  | NewCsc nr nc p i d _ => Some (DMat KCsc nr nc (csc_val 0q (mkCs nc nr p i d)))
  | NewCoo nr nc r c d _ => Some (DMat KCoo nr nc (fun i j => one_or 0q (coo_at (mkCoo nr nc r c d) i j)))
  | NewNd sh i d _ => Some (DNd sh (fun k => one_or 0q (nd_at (mkNd sh i d) k)))
  | NewArr sh d => if length d =? fold_right Nat.mul 1 sh then Some (DArr sh d) else None
  | Zeros nr nc => Some (DMat KCsr nr nc (fun _ _ => 0q))
  | Eye n => Some (DMat KCsr n n (fun i j => if i =? j then 1q else 0q))
  | Diag d => Some (DMat KCsr (length d) (length d) (fun i j => if i =? j then nth i d 0q else 0q))
  | Unary op a => with1 h a (or_nd (nd_unary op) (dense_unary op))
  | Scalar op a alpha => with1 h a (or_nd (nd_scalar op alpha) (fun x => dense_scalar op x alpha))
  | Binary op a b => with2 h a b (fun x y => or_nd (nd_binary op y) (fun x => dense_binary op x y) x)
  | Matmul a b => with2 h a b dense_matmul
  | Tensordot a b ax => with2 h a b (fun x y => or_nd (nd_tensordot y ax) (fun x => dense_tensordot x y ax) x)
  | Vecdot a b ax => with2 h a b (fun x y => or_nd (nd_vecdot y ax) (fun x => dense_vecdot x y ax) x)
  | Reduce op a ax kd => with1 h a (or_nd (nd_reduce op ax kd) (fun x => dense_reduce op x ax kd))
  | Cum op a ax => with1 h a (fun x => dense_cum op x ax)
  | Diff a n ax => with1 h a (fun x => dense_diff x n ax)
  | GetItem a i j => with1 h a (fun x => dense_getitem x i j)
  | GetRow a i => with1 h a (fun x => dense_getrow x i)
  | GetCol a j => with1 h a (fun x => dense_getcol x j)
  | ToArray a => with1 h a dense_toarray
  | Compare c a b => with2 h a b (dense_compare c)
  | Permute a axes => with1 h a (or_nd (nd_permute axes) no_matrix)
  | Reshape a new => with1 h a (or_nd (nd_reshape new) no_matrix)
  | ReduceAxes op a axes => with1 h a (or_nd (nd_reduce_axes op axes) no_matrix)
  | Unfold f a rows => with1 h a (or_nd (nd_unfold f rows) no_matrix)
  | Mode f a ax => with1 h a (or_nd (nd_unfold f [ax]) no_matrix)
  | _ => None
  end.
Fixpoint dense_run (h : list dval) (l : list (call qc)) : option (list dval) :=
  match l with
  | [] => Some h
  | c :: l' => match dense_call h c with Some x => dense_run (h ++ [x]) l' | None => None end
  end.

(** Matrices are built from arrays without unsorted or repeated entries ([alloc_ok]: NumPy
    arrays have fewer than 2^63 - 1 elements). *)
Definition plain_arguments (c : call qc) : Prop :=
  match c with
  | NewCsr nr nc p i d _ => canonical (mkCs nr nc p i d) /\ alloc_ok (length p)
  | NewCsc nr nc p i d _ => canonical (mkCs nc nr p i d)
  | NewCoo nr nc r c d _ => coo_ok (mkCoo nr nc r c d) /\ single_valued (coo_at (mkCoo nr nc r c d))
  | NewNd sh i d _ => nd_ok (mkNd sh i d) /\ single_valued_nd (mkNd sh i d) /\ Forall (Z.le 0) sh
  | _ => True
  end.

(** The environment is fair, and [np.searchsorted] works. *)
Definition exact_env (e : Env qc) : Prop := fair e /\ is_searchsorted (e_search e).

(** An object shows the values of a dense matrix: its class and shape are as expected and the
    numbers its arrays store for a position add up to the value there. *)
Definition shows (v : value qc) (x : dval) : Prop :=
  match v, x with
  | VCsr X, DMat KCsr m n a => let A := py_arrays X in
      csr_nrows A = m /\ csr_ncols A = n /\ forall i j, i < m -> j < n -> qsum (csr_at A i j) = a i j
  | VCsc X, DMat KCsc m n a => let A := py_arrays X in
      csc_nrows A = m /\ csc_ncols A = n /\ forall i j, i < m -> j < n -> qsum (csc_at A i j) = a i j
  | VCoo X, DMat KCoo m n a => let A := pyc_arrays X in
      coo_nrows A = m /\ coo_ncols A = n /\ forall i j, i < m -> j < n -> qsum (coo_at A i j) = a i j
  | VNd A, DNd sh a => nd_shape A = sh /\ forall k, in_shape sh k -> qsum (nd_at A k) = a k
  | VArr sh d, DArr sh' d' => sh = sh' /\ d = d'
  | VBools sh d, DBools sh' d' => sh = sh' /\ d = d'
  | _, _ => False
  end.
