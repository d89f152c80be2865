(** Models of the parallel accumulation patterns shared by the linear algebra and
    reduction kernels: work ranges, thread-local accumulators and their merges.
    Cited lines are from crates/lacuna-kernels/src/linalg/matmul.rs unless a file
    is named; the other kernels repeat the same code. *)
Require Import List ZArith Bool Arith.
Require Import Verif.Res Verif.Values Verif.Spec Verif.Mem Verif.MHash.
Import ListNotations.
Local Open Scope Z_scope.

(** utility/util.rs L7-L13 *)
Definition STRIPE : nat := N.to_nat 8192.
(** utility/util.rs L9 *)
Definition STRIPE_ROWS : nat := N.to_nat 8192.
(** utility/util.rs L11 *)
Definition SMALL_DIM_LIMIT : Z := 2048.
(** utility/util.rs L13 *)
Definition SMALL_NNZ_LIMIT : Z := 32768.
(** [128 * 1024], L82, L630 *)
Definition TARGET : Z := 131072.

(** [x as usize] for an [i64]: util.rs L23-L29 in release mode. *)
Definition to_usize (x : Z) : Z := x mod 2 ^ 64.

(** ** Work ranges: L83-L101 (and L631-L649, vecdot.rs L106-L124, sum.rs L226-L244,
    L352-L370). [j] is the loop counter; the list holds the remaining
    [indptr[j+1] - indptr[j]]. *)
Fixpoint build_ranges (target : Z) (j : nat) (acc : Z) (c0 : nat) (nnzs : list Z) : list (nat * nat) :=
  match nnzs with
  | [] => if 0 <? acc then [(c0, j)] else []
  | k :: rest =>
      let c0 := if acc =? 0 then j else c0 in
      let acc := acc + k in
      if target <=? acc then (c0, S j) :: build_ranges target (S j) 0 c0 rest
      else build_ranges target (S j) acc c0 rest
  end.

(** L87-L89 *)
Definition slice_nnz {V} (A : Cs V) (j : nat) : res Z :=
  let! s := get_checked (ptr A) j in
  let! e := get_checked (ptr A) (S j) in
  Ok ((to_usize e - to_usize s) mod 2 ^ 64).

(** L83-L101 *)
Definition work_ranges {V} (A : Cs V) : res (list (nat * nat)) :=
  let! ks := mapM (slice_nnz A) (seq 0 (major A)) in
  Ok (build_ranges TARGET 0 0 0 ks).

(** Chunks of the entry list: L328, L331-L333. *)
Definition chunk_len (nthreads nnz : nat) : nat := Nat.max 1 (nnz / (nthreads * 8)).
(** [usize::div_ceil], L161, L331 *)
Definition div_ceil (a b : nat) : nat := ((a + b - 1) / b)%nat.
(** L328, L331-L333 *)
Definition chunk_ranges (chunk nnz : nat) : list (nat * nat) :=
  map (fun t => (t * chunk, Nat.min (t * chunk + chunk) nnz)%nat) (seq 0 (div_ceil nnz chunk)).

(** The positions of a range, and of a list of ranges.
    [c0..c1], [start..end], L108, L336 *)
Definition range (r : nat * nat) : list nat := seq (fst r) (snd r - fst r).

(** ** Reading a major slice with checked accesses: L109-L112 and similar.
    [for p in s..e] is empty when s >= e. *)
Definition row_checked {V} (A : Cs V) (i : nat) : res (list (Z * V)) :=
  let! s := get_checked (ptr A) i in
  let! e := get_checked (ptr A) (S i) in
  let s := to_usize s in let e := to_usize e in
  if e <=? s then Ok []
  else if (e <=? Z.of_nat (length (idx A))) && (e <=? Z.of_nat (length (dat A)))
  then Ok (slice (Z.to_nat s) (Z.to_nat e) (combine (idx A) (dat A)))
  else Panic.

Section Acc.
Context {F : Fl}.
Notation ops := (list (Z * F)).

(** [y[i] += v]; [oob] is what an index outside of [y] does ([Panic] for slice
    indexing, [UB] for raw pointers).
    L148, L152, L195, L199 *)
Definition add_at (oob : res (list F)) (y : list F) (op : Z * F) : res (list F) :=
  if fst op <? 0 then oob
  else match nth_error y (Z.to_nat (fst op)) with
       | Some v => Ok (upd y (Z.to_nat (fst op)) (fadd v (snd op)))
       | None => oob
       end.
(** L146-L155, L193-L202 *)
Definition add_all (oob : res (list F)) (y : list F) (l : ops) : res (list F) := foldM (add_at oob) l y.

(** ** Thread-local accumulators.
    A parallel loop over tasks is run by some threads; [dist tasks] lists, thread
    by thread in the order in which [ThreadLocal] is later iterated, the tasks the
    thread ran in the order it ran them. A task is given by the additions
    (slot, value) it performs, in order. (Reading the immutable inputs first and
    accumulating afterwards is a simplification without observable effect.) *)

(** Hash maps: L104-L121, L330-L346. *)
Definition tls_hash (dist : list ops -> list (list ops)) (tasks : list ops) (y : list F) : res (list F) :=
  let! maps := mapM (fun ts => accumulate 1024 (concat ts)) (dist tasks) in
  foldM (fun y m => drain_to m y) maps y.

(** util.rs L16: (values, seen mask, touched indices). *)
Record Ds := mkDs { vals : list F; seen : list bool; touched : list nat }.
(** L128 *)
Definition ds_new (n : nat) : Ds := mkDs (repeat f0 n) (repeat false n) [].

(** L135-L140: mark and add. *)
Definition ds_add (d : Ds) (op : Z * F) : res Ds :=
  if fst op <? 0 then Panic
  else
    let off := Z.to_nat (fst op) in
    let! s := get_checked (seen d) off in
    let d := if s : bool then d else mkDs (vals d) (upd (seen d) off true) (touched d ++ [off]) in
    let! v := get_checked (vals d) off in
    Ok (mkDs (upd (vals d) off (fadd v (snd op))) (seen d) (touched d)).

(** The additions a merge performs, L146-L155 and L193-L202: all offsets if more
    than half were touched, else the touched ones. *)
Definition ds_merge (base : nat) (d : Ds) : res ops :=
  let n := length (vals d) in
  let offs := if (n / 2 <? length (touched d))%nat then seq 0 n else touched d in
  mapM (fun off => let! v := get_checked (vals d) off in Ok (Z.of_nat (base + off), v)) offs.

(** One dense accumulator per thread: L125-L157. *)
Definition tls_dense (n : nat) (dist : list ops -> list (list ops)) (tasks : list ops) (y : list F) : res (list F) :=
  let! accs := mapM (fun ts => foldM ds_add (concat ts) (ds_new n)) (dist tasks) in
  foldM (fun y d => let! l := ds_merge 0 d in add_all Panic y l) accs y.

(** Striped accumulators: L170-L183. *)
Definition st_add (stripe n : nat) (accs : list (option Ds)) (op : Z * F) : res (list (option Ds)) :=
  if fst op <? 0 then Panic
  else
    let i := Z.to_nat (fst op) in
    let sid := (i / stripe)%nat in
    let base := (sid * stripe)%nat in
    let off := (i - base)%nat in
    let! o := get_checked accs sid in
    let d := match o with Some d => d | None => ds_new (Nat.min (n - base) stripe) end in
    let! d := ds_add d (Z.of_nat off, snd op) in
    Ok (upd accs sid (Some d)).

(** L161, L164 *)
Definition st_new (stripe n : nat) : list (option Ds) := repeat None (div_ceil n stripe).
(** L162-L185 *)
Definition st_run (stripe n : nat) (l : ops) : res (list (option Ds)) := foldM (st_add stripe n) l (st_new stripe n).

(** L190-L191 *)
Definition merge_opt (base : nat) (o : option Ds) : res ops :=
  match o with None => Ok [] | Some d => ds_merge base d end.

(** L187-L206: threads one after the other, stripes in order. *)
Definition tls_stripes (stripe n : nat) (dist : list ops -> list (list ops)) (tasks : list ops) (y : list F) : res (list F) :=
  let! cells := mapM (fun ts => st_run stripe n (concat ts)) (dist tasks) in
  foldM (fun y accs =>
      foldM (fun y so => let! l := merge_opt (fst so * stripe) (snd so) in add_all Panic y l)
            (combine (seq 0 (length accs)) accs) y)
    cells y.

(** statistical/sum.rs L395-L437, L708-L750: the stripes are merged by parallel
    tasks, each going through all threads' accumulators; [il] interleaves the
    single additions of the tasks. (The SIMD groups of four are single additions
    here; the slice lengths [stripe_len] and [vals.len()] are the same number.) *)
Definition tls_stripes_par (stripe n : nat) (il : list ops -> ops) (dist : list ops -> list (list ops))
    (tasks : list ops) (y : list F) : res (list F) :=
  let! cells := mapM (fun ts => st_run stripe n (concat ts)) (dist tasks) in
  let! merges := mapM (fun sid =>
      let! ls := mapM (fun accs => let! o := get_checked accs sid in merge_opt (sid * stripe) o) cells in
      Ok (concat ls)) (seq 0 (div_ceil n stripe)) in
  add_all UB y (il merges).

(** statistical/sum.rs L287-L322: one plain vector per thread, merged in full. *)
Definition tls_vec (n : nat) (dist : list ops -> list (list ops)) (tasks : list ops) (y : list F) : res (list F) :=
  let! accs := mapM (fun ts => add_all Panic (repeat f0 n) (concat ts)) (dist tasks) in
  foldM (fun y v => add_all UB y (combine (map Z.of_nat (seq 0 n)) v)) accs y.

(** [usize::saturating_mul]
    L81, L327, statistical/sum.rs L327, minmax.rs L91 *)
Definition sat_mul (x y : Z) : Z := Z.min (x * y) usize_max.

End Acc.
Arguments Ds F : clear implicits.
