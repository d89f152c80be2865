(** Model of the array constructors (crates/lacuna-core/src).
    [Ok (Some a)] models [Ok(a)], [Ok None] models [Err(_)] (the message text is
    not modelled). *)
Require Import List ZArith Bool Arith.
Require Import Verif.Res Verif.Spec.
Import ListNotations.
Local Open Scope Z_scope.

(** [usize::try_from(z)] for an [i64] on a 64-bit target. *)
Definition usize_try_from (z : Z) : option nat := if 0 <=? z then Some (Z.to_nat z) else None.

(** Non-decreasing / non-negative scan over [indptr.iter().zip(indptr.iter().skip(1))].
    crates/lacuna-core/src/csr.rs L92-L99, csc.rs L92-L99. *)
Definition check_ptr_pairs (indptr : list Z) : bool :=
  forallb (fun pr => negb (fst pr >? snd pr) && negb ((fst pr <? 0) || (snd pr <? 0)))
    (combine indptr (skipn 1 indptr)).

(** Inner loop over the indices of one row: csr.rs L121-L136, csc.rs L121-L136. *)
Fixpoint check_row_indices (nmin : nat) (prev : Z) (l : list Z) : bool :=
  match l with
  | [] => true
  | j :: l' =>
      let out_of_bounds := match usize_try_from j with
                           | None => true
                           | Some col => (nmin <=? col)%nat
                           end in
      if (j <? 0) || out_of_bounds then false
      else if j <=? prev then false
      else check_row_indices nmin j l'
  end.

(** One iteration of the outer per-row loop: csr.rs L101-L137, csc.rs L101-L137. *)
Definition check_one_row (nmin : nat) (indices : list Z) (pr : Z * Z) : bool :=
  match usize_try_from (fst pr) with
  | None => false
  | Some s =>
      match usize_try_from (snd pr) with
      | None => false
      | Some e =>
          if (e <? s)%nat then false
          else if (length indices <? s)%nat || (length indices <? e)%nat then false
          else check_row_indices nmin (-1) (slice s e indices)
      end
  end.

(** [Csr::from_parts] (csr.rs L63-L146) and [Csc::from_parts] (csc.rs L63-L146),
    which are the same code with rows and columns exchanged: [nmaj] is the number
    of rows for CSR, of columns for CSC. [None] models [Err]. *)
Definition cs_from_parts {V} (nmaj nmin : nat) (indptr indices : list Z) (data : list V)
    (check : bool) : option (Cs V) :=
  if negb (Z.of_nat nmaj + 1 <=? usize_max) then None
  else if negb (length indptr =? nmaj + 1)%nat then None
  else if negb (length indices =? length data)%nat then None
  else if negb (match usize_try_from (last indptr 0) with
                | Some n => (n =? length indices)%nat | None => false end) then None
  else if negb (hd 0 indptr =? 0) then None
  else if check && negb (check_ptr_pairs indptr) then None
  else if check && negb (forallb (check_one_row nmin indices)
                           (firstn nmaj (combine indptr (skipn 1 indptr)))) then None
  else Some (mkCs nmaj nmin indptr indices data).

(** csr.rs L63-L146 *)
Definition csr_from_parts {V} (nrows ncols : nat) := @cs_from_parts V nrows ncols.
(** csc.rs L63-L146 *)
Definition csc_from_parts {V} (nrows ncols : nat) := @cs_from_parts V ncols nrows.

(** csr.rs L159-L173 *)
Definition csr_from_parts_unchecked {V} (nrows ncols : nat) (indptr indices : list Z)
    (data : list V) : Csr V := mkCs nrows ncols indptr indices data.
(** csc.rs L159-L173 *)
Definition csc_from_parts_unchecked {V} (nrows ncols : nat) (indptr indices : list Z)
    (data : list V) : Csc V := mkCs ncols nrows indptr indices data.

(** Loop body of [Coo::from_parts] (coo.rs L75-L88); indexing is checked. *)
Definition coo_check_one (nrows ncols : nat) (row col : list Z) (k : nat) : res bool :=
  let! i := get_checked row k in
  let! j := get_checked col k in
  if (i <? 0) || (j <? 0) then Ok false
  else
    let ok_i := match usize_try_from i with Some ii => (ii <? nrows)%nat | None => false end in
    let ok_j := match usize_try_from j with Some jj => (jj <? ncols)%nat | None => false end in
    Ok (ok_i && ok_j).

(** [for k in l { if !f(k)? { return Err } }]
    coo.rs L75, L191 *)
Fixpoint allM {A} (f : A -> res bool) (l : list A) : res bool :=
  match l with
  | [] => Ok true
  | a :: l' => let! b := f a in if b then allM f l' else Ok false
  end.

(** [Coo::from_parts] (coo.rs L61-L97). *)
Definition coo_from_parts {V} (nrows ncols : nat) (row col : list Z) (data : list V)
    (check : bool) : res (option (Coo V)) :=
  if negb (length row =? length data)%nat || negb (length col =? length data)%nat then Ok None
  else
    let! good := if check then allM (coo_check_one nrows ncols row col) (seq 0 (length data))
                 else Ok true in
    if good then Ok (Some (mkCoo nrows ncols row col data)) else Ok None.

(** coo.rs L105-L119 *)
Definition coo_from_parts_unchecked {V} (nrows ncols : nat) (row col : list Z) (data : list V)
    : Coo V := mkCoo nrows ncols row col data.

(** Inner loop body of [CooNd::from_parts] (coo.rs L191-L202). *)
Definition nd_check_one (shape indices : list Z) (k d : nat) : res bool :=
  let! x := get_checked indices (k * length shape + d) in
  let! n := get_checked shape d in
  if x <? 0 then Ok false
  else Ok (match usize_try_from x with Some ii => Z.of_nat ii <? n | None => false end).

(** [CooNd::from_parts] (coo.rs L166-L210). Shape entries are [usize] values. *)
Definition nd_from_parts {V} (shape indices : list Z) (data : list V) (check : bool)
    : res (option (Nd V)) :=
  let ndim := length shape in
  if (ndim =? 0)%nat then Ok None
  else if (length data =? 0)%nat && negb (length indices =? 0)%nat then Ok None
  else if negb (Z.of_nat (length data) * Z.of_nat ndim <=? usize_max) then Ok None
  else if negb (length indices =? length data * ndim)%nat then Ok None
  else
    let! good := if check
                 then allM (fun k => allM (nd_check_one shape indices k) (seq 0 ndim))
                        (seq 0 (length data))
                 else Ok true in
    if good then Ok (Some (mkNd shape indices data)) else Ok None.

(** coo.rs L218-L228 *)
Definition nd_from_parts_unchecked {V} (shape indices : list Z) (data : list V) : Nd V :=
  mkNd shape indices data.
