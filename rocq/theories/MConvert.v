(** Model of the 2-D format conversions
    (crates/lacuna-kernels/src/data_type_functions/astype.rs) and of the
    transposes (crates/lacuna-kernels/src/linalg/matrix_transpose.rs).

    A CSR matrix and a CSC matrix are both a [Cs]; converting CSR to CSC, CSC to
    CSR, and transposing CSR or CSC all exchange the major and the minor axis of a
    [Cs], so the four functions share the two algorithms below. *)
Require Import List ZArith Bool Arith.
Require Import Verif.Res Verif.Values Verif.Spec Verif.Mem.
Import ListNotations.
Local Open Scope Z_scope.

(** Slice access by an [i64] index converted with [i64_to_usize]; a negative
    index becomes a huge one (the corner case of -1 plus 1 wrapping to 0 in a
    release build is read as a panic as well). *)
Definition zget {A} (l : list A) (z : Z) : res A :=
  if z <? 0 then Panic else get_checked l (Z.to_nat z).
(** the same with [get_unchecked], matrix_transpose.rs L114-L130, L180-L210 *)
Definition zget_unchecked {A} (l : list A) (z : Z) : res A :=
  if z <? 0 then UB else get_unchecked l (Z.to_nat z).

(** astype.rs L51-L57 (also L99-L105, matrix_transpose.rs L227-L233, L529-L535):
    the number of entries per target slice. [indptr] is built there in place:
    counts at offset 1, then prefix sums; here the counts are kept apart and
    [indptr_of]/[psum] forms the prefix sums. *)
Definition bump (c : list nat) (z : Z) : res (list nat) :=
  let! n := zget c z in Ok (upd c (Z.to_nat z) (S n)).
(** astype.rs L51-L54, L99-L102; matrix_transpose.rs L227-L230, L529-L532 *)
Definition count_keys (n : nat) (keys : list Z) : res (list nat) := foldM bump keys (repeat 0%nat n).

(** Row access with checked slices, astype.rs L64-L67. *)
Definition get_row_checked {V} (A : Cs V) (i : nat) : res (list (Z * V)) :=
  let! s := get_checked (ptr A) i in
  let! e := get_checked (ptr A) (S i) in
  if (0 <=? s) && (0 <=? e)
     && ((e <=? s) || ((e <=? Z.of_nat (length (idx A))) && (e <=? Z.of_nat (length (dat A)))))
  then Ok (slice (Z.to_nat s) (Z.to_nat e) (combine (idx A) (dat A)))
  else Panic.

(** The steps of the task of major slice [i]: one per stored entry, in order:
    reserve a slot in target slice [fst], write the pair [snd] there.
    astype.rs L63-L74 *)
Definition task {V} (i : nat) (r : list (Z * V)) : list (Z * (Z * V)) :=
  map (fun e => (fst e, (Z.of_nat i, snd e))) r.
(** astype.rs L63-L74: all tasks, slice by slice *)
Definition tasks {V} (rows : list (list (Z * V))) : list (list (Z * (Z * V))) :=
  map (fun ir => task (fst ir) (snd ir)) (combine (seq 0 (length rows)) rows).

(** The atomic reservations [next[j].fetch_add(1)] in the order [tr] in which they
    happen (astype.rs L68, L116; matrix_transpose.rs L252-L255, L555-L558);
    the result is the list of writes (slot, pair). *)
Fixpoint scatter {W} (next : list nat) (tr : list (Z * W)) : res (list (nat * W)) :=
  match tr with
  | [] => Ok []
  | (k, w) :: tr' =>
      let! dst := zget next k in
      let! ws := scatter (upd next (Z.to_nat k) (S dst)) tr' in
      Ok ((dst, w) :: ws)
  end.

(** The fill phase: [il] chooses the interleaving of the reservations of the
    parallel tasks, [sch] the order in which the raw-pointer writes take effect
    (any order at all, so in particular any order of a relaxed memory model in
    which each slot is written once).
    astype.rs L47-L78 *)
Definition flip_atomic {V} (il : list (list (Z * (Z * V))) -> list (Z * (Z * V)))
    (sch : list (nat * (Z * V)) -> list (nat * (Z * V)))
    (get : Cs V -> nat -> res (list (Z * V))) (A : Cs V) : res (Cs V) :=
  let! counts := count_keys (minor A) (idx A) in
  let! rows := mapM (get A) (seq 0 (major A)) in
  let! ws := scatter (psum 0 counts) (il (tasks rows)) in
  let! out := assemble (length (dat A)) (sch ws) in
  Ok (mkCs (minor A) (major A) (indptr_of counts) (map fst out) (map snd out)).

(** astype.rs L47-L78 *)
Definition csr_to_csc {V} il sch (A : Csr V) : res (Csc V) := flip_atomic il sch get_row_checked A.
(** astype.rs L95-L126 *)
Definition csc_to_csr {V} il sch (A : Csc V) : res (Csr V) := flip_atomic il sch get_row_checked A.

(** ** CSR / CSC to COO, astype.rs L141-L168 and L183-L208: the task of slice [i]
    writes its entries to the slots [indptr[i] .. indptr[i+1])]. *)
Definition expand_writes {V} (A : Cs V) (i : nat) : res (list (nat * (Z * (Z * V)))) :=
  let! s := get_checked (ptr A) i in
  let! r := get_row_checked A i in
  Ok (combine (seq (Z.to_nat s) (length r)) (task i r)).

(** (minor index, (major index, value)) of every slot.
    astype.rs L141-L168, L183-L208 *)
Definition expand {V} (sch : list (nat * (Z * (Z * V))) -> list (nat * (Z * (Z * V))))
    (A : Cs V) : res (list (Z * (Z * V))) :=
  let! wss := mapM (expand_writes A) (seq 0 (major A)) in
  assemble (length (dat A)) (sch (concat wss)).

(** astype.rs L141-L168 *)
Definition csr_to_coo {V} sch (A : Csr V) : res (Coo V) :=
  let! out := expand sch A in
  Ok (mkCoo (csr_nrows A) (csr_ncols A)
        (map (fun e => fst (snd e)) out) (map fst out) (map (fun e => snd (snd e)) out)).
(** astype.rs L183-L208 *)
Definition csc_to_coo {V} sch (A : Csc V) : res (Coo V) :=
  let! out := expand sch A in
  Ok (mkCoo (csc_nrows A) (csc_ncols A)
        (map fst out) (map (fun e => fst (snd e)) out) (map (fun e => snd (snd e)) out)).

(** ** COO to CSR / CSC, astype.rs L226-L301 *)

(** [for ptr in indptr.iter_mut().take(b).skip(a) { *ptr = v }], astype.rs L248-L250. *)
Fixpoint fill_range {A} (l : list A) (a b : nat) (v : A) : list A :=
  match l with
  | [] => []
  | x :: l' =>
      match b with
      | O => l
      | S b' => match a with
                | O => v :: fill_range l' O b' v
                | S a' => x :: fill_range l' a' b' v
                end
      end
  end.

Section CooToCsr.
Context {F : Fl}.
Implicit Types v acc : F.

(** the loop variables of astype.rs L233-L238 *)
Record coo_state := mkSt {
  st_ptr : list Z;           (* indptr *)
  st_out : list (Z * F);     (* indices and data pushed so far, in reverse *)
  st_row : Z;                (* cur_row *)
  st_col : Z;                (* last_col *)
  st_acc : F                 (* acc *)
}.

(** astype.rs L239-L264 *)
Definition coo_step (st : coo_state) (t : (Z * Z) * F) : coo_state :=
  let '((r, c), v) := t in
  if negb (r =? st_row st) then
    let out := if (st_row st >=? 0) && (st_col st >=? 0) then (st_col st, st_acc st) :: st_out st else st_out st in
    mkSt (fill_range (st_ptr st) (Z.to_nat (Z.max (st_row st + 1) 0)) (Z.to_nat r + 1) (Z.of_nat (length out)))
         out r c v
  else if c =? st_col st then
    mkSt (st_ptr st) (st_out st) (st_row st) (st_col st) (fadd (st_acc st) v)
  else
    mkSt (st_ptr st) ((st_col st, st_acc st) :: st_out st) (st_row st) c v.

(** The triples, astype.rs L229-L231: [a.row[k]], [a.col[k]] for k < nnz are
    checked accesses. *)
Definition coo_triples (A : Coo F) : res (list ((Z * Z) * F)) :=
  if (length (coo_data A) <=? length (coo_row A))%nat && (length (coo_data A) <=? length (coo_col A))%nat
  then Ok (coo_entries A) else Panic.

(** astype.rs L226-L279; [srt] is [sort_unstable_by] on (row, col): any sorting
    function, so equal keys may come in any order. *)
Definition coo_to_csr (srt : list ((Z * Z) * F) -> list ((Z * Z) * F)) (A : Coo F) : res (Csr F) :=
  let! ts := coo_triples A in
  let st := fold_left coo_step (srt ts)
              (mkSt (repeat 0 (S (coo_nrows A))) [] (-1) (-1) f0) in
  let out := if (st_row st >=? 0) && (st_col st >=? 0) then (st_col st, st_acc st) :: st_out st else st_out st in
  let start_row := if st_row st <? 0 then O else Z.to_nat (st_row st + 1) in
  let indptr := fill_range (st_ptr st) start_row (coo_nrows A + 1) (Z.of_nat (length out)) in
  Ok (mkCs (coo_nrows A) (coo_ncols A) indptr (map fst (rev out)) (map snd (rev out))).

(** astype.rs L291-L301 *)
Definition coo_to_csc (srt : list ((Z * Z) * F) -> list ((Z * Z) * F)) (A : Coo F) : res (Csc F) :=
  coo_to_csr srt (mkCoo (coo_ncols A) (coo_nrows A) (coo_col A) (coo_row A) (coo_data A)).
End CooToCsr.

(** ** Transpose *)

(** matrix_transpose.rs L329-L335 *)
Definition transpose_coo {V} (A : Coo V) : Coo V :=
  mkCoo (coo_ncols A) (coo_nrows A) (coo_col A) (coo_row A) (coo_data A).

(** Strategy A, matrix_transpose.rs L97-L137 / L397-L436: the histogram of one
    tile. The 4-way unrolled loop performs the same increments in the same order. *)
Definition bump_unchecked (c : list nat) (z : Z) : res (list nat) :=
  let! n := zget_unchecked c z in Ok (upd c (Z.to_nat z) (S n)).

(** the slices of a tile, matrix_transpose.rs L98, L104-L105, L397, L403-L404 *)
Definition tile_rows {V} (A : Cs V) (tile t : nat) : res (list (list (Z * (Z * V)))) :=
  let start := (t * tile)%nat in
  let stop := Nat.min (start + tile) (major A) in
  mapM (fun i => let! r := get_row A i in Ok (task i r)) (seq start (stop - start)).

(** matrix_transpose.rs L97-L137, L397-L436 *)
Definition tile_hist {W} (n : nat) (rows : list (list (Z * W))) : res (list nat) :=
  foldM bump_unchecked (map fst (concat rows)) (repeat 0%nat n).

(** matrix_transpose.rs L139-L147 / L438-L446 *)
Definition hist_sum (n : nat) (hists : list (list nat)) : list nat :=
  map (fun j => fold_left (fun s h => (s + nth j h 0)%nat) hists 0%nat) (seq 0 n).

(** matrix_transpose.rs L149-L158 / L448-L457: [offsets[t][j]]. *)
Definition tile_offsets (n : nat) (starts : list nat) (hists : list (list nat)) (t : nat) : list nat :=
  map (fun j => fold_left (fun s h => (s + nth j h 0)%nat) (firstn t hists) (nth j starts 0%nat)) (seq 0 n).

(** matrix_transpose.rs L176-L219 / L476-L520: one row of the fill phase; groups of
    four read the four positions before storing the four bumped ones, then the
    remainder goes one by one. *)
Fixpoint fill_row4 {W} (pos : list nat) (r : list (Z * W)) : res (list nat * list (nat * W)) :=
  match r with
  | (k0, w0) :: (k1, w1) :: (k2, w2) :: (k3, w3) :: r' =>
      let! d0 := zget_unchecked pos k0 in
      let! d1 := zget_unchecked pos k1 in
      let! d2 := zget_unchecked pos k2 in
      let! d3 := zget_unchecked pos k3 in
      let pos := upd pos (Z.to_nat k0) (S d0) in
      let pos := upd pos (Z.to_nat k1) (S d1) in
      let pos := upd pos (Z.to_nat k2) (S d2) in
      let pos := upd pos (Z.to_nat k3) (S d3) in
      let! (pos', ws) := fill_row4 pos r' in
      Ok (pos', (d0, w0) :: (d1, w1) :: (d2, w2) :: (d3, w3) :: ws)
  | (k0, w0) :: (k1, w1) :: (k2, w2) :: [] =>
      let! d0 := zget_unchecked pos k0 in
      let pos := upd pos (Z.to_nat k0) (S d0) in
      let! d1 := zget_unchecked pos k1 in
      let pos := upd pos (Z.to_nat k1) (S d1) in
      let! d2 := zget_unchecked pos k2 in
      let pos := upd pos (Z.to_nat k2) (S d2) in
      Ok (pos, [(d0, w0); (d1, w1); (d2, w2)])
  | (k0, w0) :: (k1, w1) :: [] =>
      let! d0 := zget_unchecked pos k0 in
      let pos := upd pos (Z.to_nat k0) (S d0) in
      let! d1 := zget_unchecked pos k1 in
      let pos := upd pos (Z.to_nat k1) (S d1) in
      Ok (pos, [(d0, w0); (d1, w1)])
  | (k0, w0) :: [] =>
      let! d0 := zget_unchecked pos k0 in
      let pos := upd pos (Z.to_nat k0) (S d0) in
      Ok (pos, [(d0, w0)])
  | [] => Ok (pos, [])
  end.

(** matrix_transpose.rs L166-L221, L466-L521 *)
Fixpoint fill_tile {W} (pos : list nat) (rows : list (list (Z * W))) : res (list (nat * W)) :=
  match rows with
  | [] => Ok []
  | r :: rows' =>
      let! (pos', ws) := fill_row4 pos r in
      let! ws' := fill_tile pos' rows' in
      Ok (ws ++ ws')
  end.

(** matrix_transpose.rs L96-L224 / L395-L525. The output arrays are zeroed first; with
    a repeated index inside one group of four, two entries get the same slot and another
    slot keeps its zero. *)
Definition flip_tiled {V} {ZV : Zero V} (tiles : nat) (sch : list (nat * (Z * V)) -> list (nat * (Z * V)))
    (A : Cs V) : res (Cs V) :=
  let tile := ((major A + tiles - 1) / tiles)%nat in
  let! rows := mapM (tile_rows A tile) (seq 0 tiles) in
  let! hists := mapM (tile_hist (minor A)) rows in
  let counts := hist_sum (minor A) hists in
  let starts := psum 0 counts in
  let! wss := mapM (fun tr => fill_tile (tile_offsets (minor A) starts hists (fst tr)) (snd tr))
                (combine (seq 0 tiles) rows) in
  let! out := assemble_zeroed (0, zero_value) (length (dat A)) (sch (concat wss)) in
  Ok (mkCs (minor A) (major A) (indptr_of counts) (map fst out) (map snd out)).

(** Strategy B, matrix_transpose.rs L226-L312 / L527-L615: atomic slots, then every
    target slice is sorted by index. [srt] is [sort_unstable_by]; slices of length
    at most one are left alone. *)
Definition sort_slices {V} (srt : list (Z * V) -> list (Z * V)) (B : Cs V) : res (Cs V) :=
  let! rows := mapM (get_row B) (seq 0 (major B)) in
  let rows := map (fun r => if (length r <=? 1)%nat then r else srt r) rows in
  Ok (mkCs (major B) (minor B) (ptr B) (map fst (concat rows)) (map snd (concat rows))).

(** matrix_transpose.rs L84-L313 / L383-L616: [threads] is
    [rayon::current_num_threads()]; the estimate is computed in [u128]. *)
Definition transpose_cs {V} {ZV : Zero V} (threads : nat) il sch (srt : list (Z * V) -> list (Z * V)) (A : Cs V) : res (Cs V) :=
  let tiles := Nat.max threads 1 in
  if Z.of_nat tiles * Z.of_nat (minor A) * 8 * 3 <=? 512 * 1024 * 1024 then flip_tiled tiles sch A
  else let! B := flip_atomic il sch get_row A in sort_slices srt B.

(** matrix_transpose.rs L383-L616 *)
Definition transpose_csr {V} {ZV : Zero V} threads il sch srt (A : Csr V) : res (Csr V) := transpose_cs threads il sch srt A.
(** matrix_transpose.rs L84-L313 *)
Definition transpose_csc {V} {ZV : Zero V} threads il sch srt (A : Csc V) : res (Csc V) := transpose_cs threads il sch srt A.
