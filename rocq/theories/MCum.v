(** Models of the cumulative kernels (statistical/cumulative.rs) and of the discrete
    differences (manipulation/diff.rs). Paths under crates/lacuna-kernels/src. *)
Require Import List ZArith Bool Arith.
Require Import Verif.Res Verif.Values Verif.Spec Verif.Mem Verif.MHash Verif.MScalar Verif.MConvert Verif.MNd2 Verif.MAcc Verif.MLinalg.
Import ListNotations.
Local Open Scope Z_scope.

Section Cum.
Context {F : Fl}.

(** ** cumulative.rs *)

(** [s[a..b].fill(v)], a checked slice.
    L64, L75 *)
Definition fill_slice (s : list F) (a b : nat) (v : F) : res (list F) :=
  if (a <=? b)%nat && (b <=? length s)%nat then Ok (fill_range s a b v) else Panic.

(** [*s.get_unchecked_mut(n) = v]
    L68, L127 *)
Definition set_unchecked (s : list F) (n : nat) (v : F) : res (list F) :=
  if (n <? length s)%nat then Ok (upd s n v) else UB.

(** L60-L72; the state is [row_out], [prev], [acc]. *)
Definition cumsum_step (st : (list F * nat) * F) (e : Z * F) : res ((list F * nat) * F) :=
  let '((out, prev), acc) := st in
  let col := Z.to_nat (to_usize (fst e)) in
  let! out := if (prev <? col)%nat then fill_slice out prev col acc else Ok out in
  let acc := fadd acc (snd e) in
  let! out := set_unchecked out col acc in
  Ok ((out, S col), acc).

(** L53-L77: one row into its piece [out] of the output. *)
Definition cumsum_row (A : Csr F) (i : nat) (out : list F) : res (list F) :=
  let! r := get_row A i in
  let! (op, acc) := foldM cumsum_step r ((out, O), f0) in
  let '(out, prev) := op in
  if (prev <? csr_ncols A)%nat then fill_slice out prev (length out) acc else Ok out.

(** L110-L133; the loop returns at the first gap. *)
Fixpoint cumprod_loop (r : list (Z * F)) (out : list F) (prev : nat) (acc : F) : res (list F) :=
  match r with
  | [] => Ok out
  | e :: r' =>
      let col := Z.to_nat (to_usize (fst e)) in
      if (prev <? col)%nat then Ok out
      else
        let acc := fmul acc (snd e) in
        let! out := set_unchecked out col acc in
        cumprod_loop r' out (S col) acc
  end.
(** L110-L133 *)
Definition cumprod_row (A : Csr F) (i : nat) (out : list F) : res (list F) :=
  let! r := get_row A i in cumprod_loop r out O f1.

(** [out.par_chunks_mut(ncols).enumerate().for_each(row)] on a zero array of
    [nrows * ncols] elements (the product wraps in release builds): L43-L79, L101-L135. *)
Definition dense_rows (row : nat -> list F -> res (list F)) (nrows ncols : nat) : res (list F) :=
  if (nrows =? 0)%nat || (ncols =? 0)%nat then Ok []
  else
    let! ps := par_chunks ncols (repeat f0 (y_len nrows ncols)) in
    let! out := mapM (fun iy => row (fst iy) (snd iy)) (combine (seq 0 (length ps)) ps) in
    Ok (concat out).

(** cumulative.rs L43-L79 *)
Definition cumsum_axis1 (A : Csr F) : res (list F) := dense_rows (cumsum_row A) (csr_nrows A) (csr_ncols A).
(** statistical/cumulative.rs L101-L135 *)
Definition cumprod_axis1 (A : Csr F) : res (list F) := dense_rows (cumprod_row A) (csr_nrows A) (csr_ncols A).

(** L23-L37: the two nested loops, as one loop over the pairs in the same order. *)
Definition transpose_dense (input : list F) (rows cols : nat) : res (list F) :=
  foldM (fun out rc =>
      let '(r, c) := rc in
      let! v := get_unchecked input (Z.to_nat (flat_index (Z.of_nat r) cols c)) in
      set_unchecked out (Z.to_nat (flat_index (Z.of_nat c) rows r)) v)
    (list_prod (seq 0 rows) (seq 0 cols)) (repeat f0 (y_len rows cols)).

(** L85-L95, L141-L151 *)
Definition through_dense_transpose (axis1 : Csr F -> res (list F)) threads il sch srt (A : Csr F) : res (list F) :=
  if (csr_nrows A =? 0)%nat || (csr_ncols A =? 0)%nat then Ok []
  else
    let! T := transpose_csr threads il sch srt A in
    let! out := axis1 T in
    transpose_dense out (csr_nrows T) (csr_ncols T).
(** statistical/cumulative.rs L85-L95 *)
Definition cumsum_axis0 threads il sch srt (A : Csr F) := through_dense_transpose cumsum_axis1 threads il sch srt A.
(** statistical/cumulative.rs L141-L151 *)
Definition cumprod_axis0 threads il sch srt (A : Csr F) := through_dense_transpose cumprod_axis1 threads il sch srt A.

(** CSC and COO matrices are converted first, lacuna-py/src/array_api/reduce.rs
    L1154-L1186, L1190-L1222, L1261-L1293, L1297-L1329. *)
Definition via_csc {B} il sch (f : Csr F -> res B) (A : Csc F) : res B := let! R := csc_to_csr il sch A in f R.
(** lacuna-py/src/array_api/reduce.rs L1190-L1222, L1297-L1329 *)
Definition via_coo {B} srt (f : Csr F -> res B) (A : Coo F) : res B := let! R := coo_to_csr srt A in f R.

(** ** diff.rs *)

(** L32-L53: the merge of the sorted pairs. [last], [acc] are the run being summed;
    the in-place compaction only writes below the read position, so the output is
    a list built front to back. *)
Fixpoint merge_pairs (last : Z) (acc : F) (ps : list (Z * F)) : list (Z * F) :=
  match ps with
  | [] => if feqb acc f0 then [] else [(last, acc)]
  | (c, v) :: ps' =>
      if c =? last then merge_pairs last (fadd acc v) ps'
      else (if feqb acc f0 then [] else [(last, acc)]) ++ merge_pairs c v ps'
  end.

(** L26-L54; [srt] is [sort_unstable_by_key(|x| x.0)]. *)
Definition combine_sorted_pairs (srt : list (Z * F) -> list (Z * F)) (ps : list (Z * F)) : list (Z * F) :=
  match ps with
  | [] => []
  | _ => match srt ps with [] => [] | (c, v) :: ps' => merge_pairs c v ps' end
  end.

(** L74-L83; [limit = cur_w - 1]. *)
Definition diff_pairs (limit : Z) (cur : list (Z * F)) : list (Z * F) :=
  flat_map (fun e => (if fst e <? limit then [(fst e, fneg (snd e))] else []) ++
                     (if 1 <=? fst e then [(fst e - 1, snd e)] else [])) cur.

(** L68-L92 *)
Fixpoint diff_loop srt (n : nat) (cur : list (Z * F)) (cur_w : nat) : list (Z * F) :=
  match n with
  | O => cur
  | S n' =>
      if (cur_w =? 0)%nat || (cur_w =? 1)%nat then []
      else
        let next := combine_sorted_pairs srt (diff_pairs (Z.of_nat cur_w - 1) cur) in
        match next with
        | [] => []
        | _ => diff_loop srt n' next (cur_w - 1)
        end
  end.

(** L60-L93 *)
Definition diff_row_pairs srt (ps : list (Z * F)) (width n : nat) : list (Z * F) :=
  if (n =? 0)%nat || (width =? 0)%nat then filter (fun e => negb (feqb (snd e) f0)) ps
  else diff_loop srt n ps width.

(** L116-L128, L144-L166: reading the row, [i64_to_usize] of the columns, and
    [i64::try_from(c).expect(..)] on the way out. *)
Definition diff_row srt (A : Csr F) (n i : nat) : res (list (Z * F)) :=
  let! r := get_row A i in
  Ok (diff_row_pairs srt (map (fun e => (to_usize (fst e), snd e)) r) (csr_ncols A) n).
(** L158-L161 *)
Definition to_i64 (r : list (Z * F)) : res (list (Z * F)) :=
  if forallb (fun e => fst e <=? i64_max) r then Ok r else Panic.

(** L99-L170 *)
Definition diff_csr_axis1 sch srt (A : Csr F) (n : nat) : res (Csr F) :=
  let out_cols := (csr_ncols A - n)%nat in
  if (csr_nrows A =? 0)%nat || (out_cols =? 0)%nat
  then Ok (mkCs (csr_nrows A) out_cols (repeat 0 (S (csr_nrows A))) [] [])
  else two_pass sch (csr_nrows A) out_cols
         (fun i => rmap (@length _) (diff_row srt A n i))
         (fun i => let! r := diff_row srt A n i in to_i64 r).

(** L176-L191 *)
Definition diff_csr_axis0 threads il sch1 srt1 sch srt sch2 srt2 (A : Csr F) (n : nat) : res (Csr F) :=
  if (n =? 0)%nat then Ok A
  else
    let! T := transpose_csr threads il sch1 srt1 A in
    let! D := diff_csr_axis1 sch srt T n in
    transpose_csr threads il sch2 srt2 D.

(** L196-L200 *)
Definition diff_csc_axis1 ila scha sch srt ilb schb (A : Csc F) (n : nat) : res (Csc F) :=
  let! R := csc_to_csr ila scha A in
  let! B := diff_csr_axis1 sch srt R n in
  csr_to_csc ilb schb B.
(** L205-L209 *)
Definition diff_csc_axis0 ila scha threads il sch1 srt1 sch srt sch2 srt2 ilb schb (A : Csc F) (n : nat) : res (Csc F) :=
  let! R := csc_to_csr ila scha A in
  let! B := diff_csr_axis0 threads il sch1 srt1 sch srt sch2 srt2 R n in
  csr_to_csc ilb schb B.
(** L214-L219 *)
Definition diff_coo_axis1 srta sch srt schb (A : Coo F) (n : nat) : res (Coo F) :=
  let! R := coo_to_csr srta A in
  let! B := diff_csr_axis1 sch srt R n in
  csr_to_coo schb B.
(** L224-L229 *)
Definition diff_coo_axis0 srta threads il sch1 srt1 sch srt sch2 srt2 schb (A : Coo F) (n : nat) : res (Coo F) :=
  let! R := coo_to_csr srta A in
  let! B := diff_csr_axis0 threads il sch1 srt1 sch srt sch2 srt2 R n in
  csr_to_coo schb B.
End Cum.
