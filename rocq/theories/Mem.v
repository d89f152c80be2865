(** Memory operations shared by the kernel models. *)
Require Import List ZArith Bool Arith.
Require Import Verif.Res Verif.Spec Verif.Values.
Import ListNotations.

(** [l[n] = a] (the caller checks the bound).
    slice assignment, e.g. linalg/matmul.rs L656 *)
Fixpoint upd {A} (l : list A) (n : nat) (a : A) : list A :=
  match l, n with
  | [], _ => []
  | _ :: l', O => a :: l'
  | x :: l', S n' => x :: upd l' n' a
  end.

(** ** Output arrays written through raw pointers.
    Slots start uninitialised ([None]); a write outside the allocation is [UB].
    (The kernels allocate with [vec![0; nnz]] or with [set_len]; treating the
    slots as uninitialised is the stricter reading.) *)
Definition write {A} (mem : list (option A)) (w : nat * A) : res (list (option A)) :=
  if fst w <? length mem then Ok (upd mem (fst w) (Some (snd w))) else UB.

(** Using the finished array. Simplification: the code allocates zeroed arrays
    ([vec![0; nnz]]), so a slot that was never written would silently hold zero; the
    model calls that an error, so success also says that every slot was written.
    [assemble_zeroed] below is what the code does; CsLib.v proves that whenever
    [assemble] succeeds the two agree. *)
Fixpoint finish {A} (mem : list (option A)) : res (list A) :=
  match mem with
  | [] => Ok []
  | Some a :: m => (let! r := finish m in Ok (a :: r))%res
  | None :: _ => UB
  end.

(** Allocate [n] slots, perform the writes in the given order, use the array.
    e.g. elementwise/add.rs L228-L259 *)
Definition assemble {A} (n : nat) (ws : list (nat * A)) : res (list A) :=
  (let! m := foldM write ws (repeat None n) in finish m)%res.

(** The value that [vec![0.0; n]] puts in every slot (e.g. matrix_transpose.rs L161-L162). *)
Class Zero (V : Type) := zero_value : V.
Global Instance zero_of_floats (F : Fl) : Zero F := f0.

(** The same with zeroed arrays (e.g. elementwise/add.rs L228-L229). *)
Definition assemble_zeroed {A} (zero : A) (n : nat) (ws : list (nat * A)) : res (list A) :=
  foldM (fun m w => if fst w <? length m then Ok (upd m (fst w) (snd w)) else UB) ws (repeat zero n).

(** Prefix sums with a leading [acc]; the pattern
    [indptr[i+1] = indptr[i] + counts[i]] (e.g. elementwise/add.rs L223-L226). *)
Fixpoint psum (acc : nat) (l : list nat) : list nat :=
  match l with [] => [acc] | n :: l' => acc :: psum (acc + n) l' end.

(** elementwise/add.rs L222-L226 *)
Definition indptr_of (counts : list nat) : list Z := map Z.of_nat (psum 0 counts).

(** Row access as in elementwise/add.rs L203-L208 and L210-L217: [indptr[i]] and
    [indptr[i+1]] are checked slice accesses, [i64_to_usize] of a negative value
    wraps to a huge number, and the entries are read through raw pointers. *)
Definition get_row {V} (A : Cs V) (i : nat) : res (list (Z * V)) :=
  let! s := get_checked (ptr A) i in
  let! e := get_checked (ptr A) (S i) in
  if (0 <=? s)%Z && (s <=? e)%Z && (e <=? Z.of_nat (length (idx A)))%Z
     && (e <=? Z.of_nat (length (dat A)))%Z
  then Ok (slice (Z.to_nat s) (Z.to_nat e) (combine (idx A) (dat A)))
  else UB.

(** The writes of one row task: the k-th produced entry goes to slot [start+k].
    elementwise/add.rs L160-L166 *)
Definition row_writes {W} (start : nat) (r : list W) : list (nat * W) :=
  combine (seq start (length r)) r.

(** All writes of the row tasks, row [i] starting at [starts[i]].
    elementwise/add.rs L235-L259 *)
Fixpoint all_writes {W} (starts : list nat) (rows : list (list W)) : list (nat * W) :=
  match starts, rows with
  | s :: starts', r :: rows' => row_writes s r ++ all_writes starts' rows'
  | _, _ => []
  end.

(** The two-pass pattern (elementwise/add.rs L199-L260 and every other binary
    kernel): count per row in parallel, prefix sum, allocate, fill rows in
    parallel. [sch] is the order in which the single-slot writes of all row tasks
    take effect. The index and the value of an entry go to the same slot of two
    arrays; the model writes the pair. *)
Definition two_pass {V} (sch : list (nat * (Z * V)) -> list (nat * (Z * V)))
    (nmaj nmin : nat) (count : nat -> res nat) (fill : nat -> res (list (Z * V))) : res (Cs V) :=
  let! counts := mapM count (seq 0 nmaj) in
  let starts := psum 0 counts in
  let nnz := last starts 0 in
  let! rows := mapM fill (seq 0 nmaj) in
  let! out := assemble nnz (sch (all_writes starts rows)) in
  Ok (mkCs nmaj nmin (indptr_of counts) (map fst out) (map snd out)).
