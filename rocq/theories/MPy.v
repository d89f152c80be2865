(** Model of the Python layer (python/lacuna): construction, indexing,
    densification, counting, axis handling, batched products.
    A raised Python exception is [Panic]. NumPy arrays are lists; a 2-D array is
    its list of rows unless stated otherwise. The native extension is assumed to
    be importable ([_core is not None]). *)
Require Import List ZArith Bool Arith.
Require Import Verif.Res Verif.Values Verif.Spec Verif.Mem Verif.SpecPy Verif.MCore Verif.MScalar.
Import ListNotations.
Local Open Scope Z_scope.

(** ** Python and NumPy indexing *)

(** [a[i]] for an array of length [n]: a negative [i] counts from the end; any other
    position outside the array raises IndexError.
    csr.py L692-L716 *)
Definition py_index (n : nat) (i : Z) : res nat :=
  if (0 <=? i) && (i <? Z.of_nat n) then Ok (Z.to_nat i)
  else if (i <? 0) && (- Z.of_nat n <=? i) then Ok (Z.to_nat (Z.of_nat n + i))
  else Panic.

(** csr.py L692-L716 *)
Definition py_get {A} (l : list A) (i : Z) : res A :=
  let! p := py_index (length l) i in get_checked l p.

(** [a[i] = v]
    csr.py L716 *)
Definition py_set {A} (l : list A) (i : Z) (v : A) : res (list A) :=
  let! p := py_index (length l) i in Ok (upd l p v).

(** [a[s:e]]: bounds are clamped, never an error.
    csr.py L694, L704, L713 *)
Definition py_bound (n : nat) (x : Z) : nat :=
  if x <? 0 then Z.to_nat (x + Z.of_nat n) else Nat.min (Z.to_nat x) n.
(** csr.py L694, L704, L713 *)
Definition py_slice {A} (s e : Z) (l : list A) : list A :=
  slice (py_bound (length l) s) (py_bound (length l) e) l.

(** [a[ix] = vs] with an integer array [ix]: element by element, in order; a single
    value is broadcast, any other length mismatch raises.
    csr.py L704, L735; csc.py L373 *)
Definition np_values {A} (n : nat) (vs : list A) : res (list A) :=
  if (length vs =? n)%nat then Ok vs
  else match vs with [v] => Ok (repeat v n) | _ => Panic end.
(** csr.py L704, L735; csc.py L373 *)
Definition np_assign {A} (out : list A) (ix : list Z) (vs : list A) : res (list A) :=
  let! ws := np_values (length ix) vs in
  foldM (fun o e => py_set o (fst e) (snd e)) (combine ix ws) out.

(** [a[r, c] = v], [a[r, c] += v] on a 2-D array. *)
Definition py_update2 {A} (f : A -> A) (out : list (list A)) (r c : Z) : res (list (list A)) :=
  let! row := py_get out r in
  let! x := py_get row c in
  let! row' := py_set row c (f x) in
  py_set out r row'.

Section Py.
Context {F : Fl}.

(** ** CSR indexing (sparse/csr.py L665-L718) *)

Section Search.
Variable searchsorted : list Z -> Z -> nat.

(** L692-L698 and L711-L716 *)
Definition csr_lookup (A : Csr F) (i j : Z) : res F :=
  let! s := py_get (ptr A) i in
  let! e := py_get (ptr A) (i + 1) in
  let row_idx := py_slice s e (idx A) in
  let pos := searchsorted row_idx j in
  match nth_error row_idx pos with
  | Some c => if c =? j then py_get (dat A) (s + Z.of_nat pos) else Ok f0
  | None => Ok f0
  end.

(** [A[i, j]]: L686-L698 *)
Definition csr_getitem (A : Csr F) (i j : Z) : res F :=
  if (0 <=? i) && (i <? Z.of_nat (csr_nrows A)) && (0 <=? j) && (j <? Z.of_nat (csr_ncols A))
  then csr_lookup A i j else Panic.

(** [A[i, :]]: L699-L705 *)
Definition csr_getrow (A : Csr F) (i : Z) : res (list F) :=
  let! s := py_get (ptr A) i in
  let! e := py_get (ptr A) (i + 1) in
  np_assign (repeat f0 (csr_ncols A)) (py_slice s e (idx A)) (py_slice s e (dat A)).

(** [A[:, j]]: L706-L717 *)
Definition csr_getcol (A : Csr F) (j : Z) : res (list F) :=
  mapM (fun r => csr_lookup A (Z.of_nat r) j) (seq 0 (csr_nrows A)).

End Search.

(** ** toarray *)

(** csr.py L728-L736; row [i] of the output is touched by step [i] only. *)
Definition csr_toarray (A : Csr F) : res (list (list F)) :=
  mapM (fun i =>
    let! s := py_get (ptr A) (Z.of_nat i) in
    let! e := py_get (ptr A) (Z.of_nat i + 1) in
    if s <? e then np_assign (repeat f0 (csr_ncols A)) (py_slice s e (idx A)) (py_slice s e (dat A))
    else Ok (repeat f0 (csr_ncols A))) (seq 0 (csr_nrows A)).

(** csc.py L367-L374 *)
Definition csc_toarray (A : Csc F) : res (list (list F)) :=
  foldM (fun out j =>
    let! s := py_get (ptr A) (Z.of_nat j) in
    let! e := py_get (ptr A) (Z.of_nat j + 1) in
    if s <? e then
      let ix := py_slice s e (idx A) in
      let! vs := np_values (length ix) (py_slice s e (dat A)) in
      foldM (fun o w => py_update2 (fun _ => snd w) o (fst w) (Z.of_nat j)) (combine ix vs) out
    else Ok out) (seq 0 (csc_ncols A)) (repeat (repeat f0 (csc_ncols A)) (csc_nrows A)).

(** coo.py L238-L247 *)
Definition coo_toarray (A : Coo F) : res (list (list F)) :=
  foldM (fun out k =>
    let! r := py_get (coo_row A) (Z.of_nat k) in
    let! c := py_get (coo_col A) (Z.of_nat k) in
    let! v := py_get (coo_data A) (Z.of_nat k) in
    py_update2 (fun x => fadd x v) out r c)
  (seq 0 (length (coo_data A))) (repeat (repeat f0 (coo_ncols A)) (coo_nrows A)).

(** array_api/_dispatch/elementwise.py L48-L57 ([np.add.at]; the same helper is
    repeated in every comparison function). The result is the flat row-major array.
    [np.zeros] refuses a negative dimension; [reshape(nnz, ndim)] raises when the index
    array has another length. *)
Definition nd_toarray (A : Nd F) : res (list F) :=
  assert! forallb (Z.leb 0) (nd_shape A) ;;
  let out := repeat f0 (Z.to_nat (cells (nd_shape A))) in
  if (length (nd_dat A) =? 0)%nat then Ok out
  else
    assert! (length (nd_idx A) =? length (nd_dat A) * length (nd_shape A))%nat ;;
    foldM (fun o e =>
      let! k := mapM (fun xn => py_index (Z.to_nat (snd xn)) (fst xn)) (combine (fst e) (nd_shape A)) in
      let p := Z.to_nat (position (nd_shape A) (map Z.of_nat k)) in
      let! x := get_checked o p in
      Ok (upd o p (fadd x (snd e)))) (nd_entries A) out.

(** ** Comparisons (elementwise.py L46-L66, L69-L89, L106-L216).
    Both operands are densified and compared elementwise by NumPy. *)
Inductive cmp := CEq | CNe | CLt | CLe | CGt | CGe.
(** elementwise.py L64, L88, L125, L149, L173, L197 *)
Definition cmp_fun (c : cmp) (x y : F) : bool :=
  match c with
  | CEq => feqb x y
  | CNe => negb (feqb x y)
  | CLt => fltb x y
  | CLe => fltb x y || feqb x y
  | CGt => fltb y x
  | CGe => fltb y x || feqb y x
  end.

(** 2-D operands, as densified by [toarray]. *)
Definition compare2 (c : cmp) (x y : res (list (list F))) : res (list (list bool)) :=
  let! xd := x in
  let! yd := y in
  Ok (map (fun rs => map (fun ab => cmp_fun c (fst ab) (snd ab)) (combine (fst rs) (snd rs))) (combine xd yd)).

(** NumPy's broadcasting, as the calls of elementwise.py L64, L88, L125, L149, L173, L197
    rely on it. Shapes are compared from the last axis on. *)
Fixpoint np_stretch (s t : list nat) : option (list nat) :=
  match s, t with
  | [], _ => Some t
  | _, [] => Some s
  | a :: s', b :: t' =>
      match np_stretch s' t' with
      | None => None
      | Some r => if (a =? b)%nat then Some (a :: r) else if (a =? 1)%nat then Some (b :: r) else if (b =? 1)%nat then Some (a :: r) else None
      end
  end.
(** The common shape of two operands (elementwise.py L64). *)
Definition np_broadcast (s t : list nat) : option (list nat) := option_map (@rev nat) (np_stretch (rev s) (rev t)).
(** The index tuples of a shape in row-major order (elementwise.py L64). *)
Fixpoint np_keys (sh : list nat) : list (list nat) :=
  match sh with
  | [] => [[]]
  | n :: sh' => flat_map (fun i => map (cons i) (np_keys sh')) (seq 0 n)
  end.
(** Where a row-major array of shape [s] has the element that index [k] reads: an axis of
    length 1 has stride 0 (elementwise.py L64). *)
Fixpoint np_offset (s k : list nat) : nat :=
  match s, k with
  | n :: s', i :: k' => ((if n =? 1 then 0 else i) * fold_right Nat.mul 1 s' + np_offset s' k')%nat
  | _, _ => 0%nat
  end.
(** The element that index [k] of the result reads (elementwise.py L64). *)
Definition np_read (x : list nat * list F) (k : list nat) : F :=
  nth (np_offset (fst x) (skipn (length k - length (fst x)) k)) (snd x) f0.

(** Comparison of two dense arrays (shape and elements): elementwise.py L64, L88, L125,
    L149, L173, L197. *)
Definition np_compare (c : cmp) (x y : list nat * list F) : res (list nat * list bool) :=
  match np_broadcast (fst x) (fst y) with
  | None => Panic
  | Some sh => Ok (sh, map (fun k => cmp_fun c (np_read x k) (np_read y k)) (np_keys sh))
  end.

(** N-D operands.
    elementwise.py L46-L216 *)
Definition compare_nd (c : cmp) (A B : Nd F) : res (list nat * list bool) :=
  let! xd := nd_toarray A in
  let! yd := nd_toarray B in
  np_compare c (map Z.to_nat (nd_shape A), xd) (map Z.to_nat (nd_shape B), yd).

(** ** Axis arguments (array_api/_dispatch/reductions.py L12-L49; searching.py
    L70-L87 is a copy of the first function, which is the second with ndim = 2). *)
Definition norm_one (ndim : nat) (norm : list nat) (a : Z) : res (list nat) :=
  let a' := if a <? 0 then Z.of_nat ndim + a else a in
  if (0 <=? a') && (a' <? Z.of_nat ndim) then
    Ok (if existsb (Nat.eqb (Z.to_nat a')) norm then norm else norm ++ [Z.to_nat a'])
  else Panic.

(** [sorted(norm)] of a duplicate-free list of axes below [ndim]: the axes below
    [ndim] that occur in it, in increasing order.
    reductions.py L29, L49 *)
Definition sorted_axes (ndim : nat) (norm : list nat) : list nat :=
  filter (fun d => existsb (Nat.eqb d) norm) (seq 0 ndim).

(** reductions.py L12-L49 *)
Definition norm_axes (ndim : nat) (axis : axis_arg) : res (option (list nat)) :=
  match axis with
  | AxNone => Ok None
  | AxTuple [] => Ok (Some [])
  | AxTuple l => let! n := foldM (norm_one ndim) l [] in Ok (Some (sorted_axes ndim n))
  | AxInt a => let! n := norm_one ndim [] a in Ok (Some (sorted_axes ndim n))
  end.

(** ** Reductions of 2-D operands: the common dispatch of [sum], [prod], [var],
    [std], [min], [max], [all], [any] (reductions.py L78-L94 and the same code in
    the others) and of [count_nonzero] (searching.py L11-L64). [all]/[ax0]/[ax1] are
    the kernels called for the whole matrix, per column and per row. A result is the
    shape together with the row-major values. *)
Definition reshape_to {A} (sh : list nat) (l : list A) : res (list nat * list A) :=
  if (length l =? fold_right Nat.mul 1 sh)%nat then Ok (sh, l) else Panic.

(** reductions.py L78-L94 *)
Definition reduce_2d {A} (all : res A) (ax0 ax1 : res (list A)) (nrows ncols : nat)
    (axis : axis_arg) (keepdims : bool) : res (list nat * list A) :=
  let! norm := norm_axes 2 axis in
  let whole := let! s := all in Ok (if keepdims then ([1; 1]%nat, [s]) else ([], [s])) in
  match norm with
  | None => whole
  | Some [0; 1]%nat => whole
  | Some [0]%nat => let! v := ax0 in
      if keepdims then reshape_to [1; ncols]%nat v else Ok ([length v], v)
  | Some [1]%nat => let! v := ax1 in
      if keepdims then reshape_to [nrows; 1]%nat v else Ok ([length v], v)
  | Some _ => Panic
  end.

(** [mean] divides the sums (reductions.py L116-L133): Python float division raises
    for a zero divisor, NumPy array division does not. *)
Definition mean_2d (all : res F) (ax0 ax1 : res (list F)) (nrows ncols : nat)
    (axis : axis_arg) (keepdims : bool) : res (list nat * list F) :=
  reduce_2d
    (let! s := all in
     assert! negb (feqb (fofZ (Z.of_nat (nrows * ncols))) (f0 (f := F))) ;;
     Ok (fdiv s (fofZ (Z.of_nat (nrows * ncols)))))
    (rmap (map (fun s => fdiv s (fofZ (Z.of_nat nrows)))) ax0)
    (rmap (map (fun s => fdiv s (fofZ (Z.of_nat ncols)))) ax1)
    nrows ncols axis keepdims.

(** ** count_nonzero (searching.py L11-L64) *)

(** [np.bincount(xs, minlength=m)]; negative input raises.
    searching.py L26, L44, L59, L62 *)
Definition bincount (xs : list Z) (m : nat) : res (list Z) :=
  assert! forallb (Z.leb 0) xs ;;
  let n := Nat.max m (fold_right (fun x acc => Nat.max (S (Z.to_nat x)) acc) 0%nat xs) in
  Ok (map (fun i => Z.of_nat (length (filter (Z.eqb (Z.of_nat i)) xs))) (seq 0 n)).

(** [np.diff(xs)]
    searching.py L23, L41 *)
Definition np_diff (xs : list Z) : list Z := map (fun ab => snd ab - fst ab) (combine xs (tl xs)).

(** searching.py L12-L28 *)
Definition count_nonzero_csr (A : Csr F) : axis_arg -> bool -> res (list nat * list Z) :=
  reduce_2d (Ok (Z.of_nat (length (dat A)))) (bincount (idx A) (csr_ncols A)) (Ok (np_diff (ptr A)))
    (csr_nrows A) (csr_ncols A).
(** searching.py L30-L46 *)
Definition count_nonzero_csc (A : Csc F) : axis_arg -> bool -> res (list nat * list Z) :=
  reduce_2d (Ok (Z.of_nat (length (dat A)))) (Ok (np_diff (ptr A))) (bincount (idx A) (csc_nrows A))
    (csc_nrows A) (csc_ncols A).
(** searching.py L48-L64 *)
Definition count_nonzero_coo (A : Coo F) : axis_arg -> bool -> res (list nat * list Z) :=
  reduce_2d (Ok (Z.of_nat (length (coo_data A)))) (bincount (coo_col A) (coo_ncols A)) (bincount (coo_row A) (coo_nrows A))
    (coo_nrows A) (coo_ncols A).

(** ** Keeping reduced axes of N-D arrays (reductions.py L52-L71) *)
Definition spread (ndim : nat) (axes : list nat) (fill : Z) (k : list Z) : list Z :=
  let rem := other_axes ndim axes in
  fold_left (fun o dx => upd o (fst dx) (snd dx)) (combine rem k) (repeat fill ndim).

(** [reduced.indices.reshape(nnz, rem_ndim)] raises on another length; the shape of
    the result takes the reduced dimensions in order and 1 elsewhere. *)
Definition with_keepdims (ndim : nat) (axes : list nat) (R : Nd F) : res (Nd F) :=
  let rem := other_axes ndim axes in
  if (length rem =? 0)%nat then Ok (mkNd (repeat 1 ndim) [] (nd_dat R))
  else
    assert! (length (nd_idx R) =? length (nd_dat R) * length rem)%nat ;;
    Ok (mkNd (spread ndim axes 1 (nd_shape R))
             (concat (map (spread ndim axes 0) (chunks (length rem) (length (nd_dat R)) (nd_idx R))))
             (nd_dat R)).

(** [sum] / [mean] of an N-D array along axes (reductions.py L96-L110, L135-L149);
    [red] is the kernel reducing the given axes. *)
Definition reduce_nd (red : list nat -> res (Nd F)) (ndim : nat) (axis : axis_arg) (keepdims : bool)
    : res (option (Nd F)) :=
  let! norm := norm_axes ndim axis in
  match norm with
  | None => Ok None (* the total: a scalar, not modelled here *)
  | Some [] => Panic
  | Some axes =>
      let! r := red axes in
      let! r' := if keepdims then with_keepdims ndim axes r else Ok r in
      Ok (Some r')
  end.

(** ** Scalar operators (csr.py L376-L407, L409-L410, L499-L503, L576-L608; the same
    code in csc.py and coo.py, and for //, % and ** in coond.py; COOND has no * and /). *)
Section Scalar.
Context {M : Type}.
Variables mul_scalar floordiv_scalar rem_scalar pow_scalar : F -> M -> res M.

(** csr.py L376-L407, csc.py L164-L175, coo.py L167-L178 *)
Definition py_mul (A : M) (alpha : F) : res M := mul_scalar alpha A.
(** csr.py L409-L410, csc.py L177-L178, coo.py L180-L181 *)
Definition py_neg (A : M) : res M := py_mul A (fneg f1).
(** csr.py L499-L503, csc.py L261-L265, coo.py L199-L203 *)
Definition py_truediv (A : M) (alpha : F) : res M :=
  if feqb alpha f0 then Panic else py_mul A (fdiv f1 alpha).
(** csr.py L576-L586, csc.py L333-L343, coo.py L205-L214, coond.py L343-L354 *)
Definition py_floordiv (A : M) (alpha : F) : res M :=
  if feqb alpha f0 then Panic else floordiv_scalar alpha A.
(** csr.py L588-L598, csc.py L345-L354, coo.py L216-L225, coond.py L356-L367 *)
Definition py_mod (A : M) (alpha : F) : res M :=
  if feqb alpha f0 then Panic else rem_scalar alpha A.
(** csr.py L600-L608, csc.py L356-L363, coo.py L227-L234, coond.py L369-L378 *)
Definition py_pow (A : M) (alpha : F) : res M := pow_scalar alpha A.
End Scalar.

(** ** Batched products (array_api/linalg/__init__.py L17-L52).
    [np.transpose(a, (1, 0, 2))] of an array of shape (d0, d1, d2), read back in
    row-major order. *)
Definition swap01 (d0 d1 d2 : nat) (l : list F) : res (list F) :=
  mapM (fun p => get_checked l (((p / d2) mod d0 * d1 + p / d2 / d0) * d2 + p mod d2)%nat)
       (seq 0 (d1 * d0 * d2)).

(** [mv]/[mm] are the products of the sparse operand (m x k) with a vector and with
    a row-major matrix of the given number of columns.
    array_api/linalg/__init__.py L17-L52 *)
Definition py_matmul (mv : list F -> res (list F)) (mm : list F -> nat -> res (list F))
    (m k : nat) (yshape : list nat) (y : list F) : res (list nat * list F) :=
  match rev yshape with
  | [] => Panic
  | [l] => assert! (l =? k)%nat ;; let! out := mv y in Ok ([m], out)
  | [n; k'] => assert! (k' =? k)%nat ;; let! out := mm y n in Ok ([m; n], out)
  | n :: k' :: rbatch =>
      assert! (k' =? k)%nat ;;
      let b := fold_right Nat.mul 1%nat (rev rbatch) in
      let! y2 := swap01 b k n y in
      let! out2 := mm y2 (b * n)%nat in
      let! out := swap01 m b n out2 in
      Ok (rev rbatch ++ [m; n], out)
  end.

(** ** Creation (crates/lacuna-py/src/array_api/creation.rs L18-L143; sparse/csr.py
    L102-L205, csc.py, coo.py [zeros]) *)
Definition zeros_csr (nrows ncols : nat) : Csr F := mkCs nrows ncols (repeat 0 (nrows + 1)) [] [].
(** creation.rs L40-L60 *)
Definition zeros_csc (nrows ncols : nat) : Csc F := mkCs ncols nrows (repeat 0 (ncols + 1)) [] [].
(** creation.rs L62-L82 *)
Definition zeros_coo (nrows ncols : nat) : Coo F := mkCoo nrows ncols [] [] [].
(** creation.rs L90-L114; csr.py L137-L168 *)
Definition eye_csr (n : nat) : Csr F :=
  mkCs n n (map Z.of_nat (seq 0 (S n))) (map Z.of_nat (seq 0 n)) (repeat f1 n).
(** creation.rs L121-L143; csr.py L171-L205 *)
Definition diag_csr (d : list F) : Csr F :=
  mkCs (length d) (length d) (map Z.of_nat (seq 0 (S (length d)))) (map Z.of_nat (seq 0 (length d))) d.

(** ** Construction from arrays *)

(** The object: its arrays and shape, and the native handle ([None] when the native
    constructor raised and the exception was swallowed).
    csr.py L65-L83, csc.py L62-L75 *)
Record PyCs := mkPyCs { py_arrays : Cs F; py_handle : option (Cs F) }.
(** coo.py L62-L75 *)
Record PyCoo := mkPyCoo { pyc_arrays : Coo F; pyc_handle : option (Coo F) }.

(** csr.py L65-L83: with [check] the arrays are validated by a native call that
    raises ([sum_from_parts], crates/lacuna-py/src/array_api/reduce.rs); the handle is
    built without checks. *)
Definition csr_init (nrows ncols : nat) (p i : list Z) (d : list F) (check : bool) : res PyCs :=
  let obj := mkPyCs (mkCs nrows ncols p i d) (csr_from_parts nrows ncols p i d false) in
  if check then
    match csr_from_parts nrows ncols p i d true with Some _ => Ok obj | None => Panic end
  else Ok obj.

(** csc.py L62-L75 *)
Definition csc_init (nrows ncols : nat) (p i : list Z) (d : list F) (check : bool) : res PyCs :=
  Ok (mkPyCs (mkCs ncols nrows p i d) (csc_from_parts nrows ncols p i d check)).

(** coo.py L62-L75 *)
Definition coo_init (nrows ncols : nat) (r c : list Z) (d : list F) (check : bool) : res PyCoo :=
  let! h := coo_from_parts nrows ncols r c d check in
  Ok (mkPyCoo (mkCoo nrows ncols r c d) h).

(** coond.py L98-L108 *)
Definition nd_init (shape indices : list Z) (d : list F) (check : bool) : res (Nd F) :=
  if (length shape =? 0)%nat then Panic
  else if negb (length indices mod length shape =? 0)%nat then Panic
  else Ok (mkNd shape indices d).

(** [.T] of a CSC object (csc.py L377-L388): without a handle the native transpose is
    called on the arrays with [check=False]. *)
Definition csc_T (transpose : Csc F -> res (Csc F)) (X : PyCs) : res (Csc F) :=
  match py_handle X with
  | Some A => transpose A
  | None =>
      let A := py_arrays X in
      match csc_from_parts (csc_nrows A) (csc_ncols A) (ptr A) (idx A) (dat A) false with
      | Some B => transpose B
      | None => Panic
      end
  end.
End Py.
