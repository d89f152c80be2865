(** Models of the statistical kernels: sums, mean, min/max, products, variance,
    logical reductions. Cited files are under crates/lacuna-kernels/src/statistical. *)
Require Import List ZArith Bool Arith.
Require Import Verif.Res Verif.Values Verif.Spec Verif.Mem Verif.Loops Verif.MHash Verif.MScalar Verif.MConvert Verif.MNd Verif.MAcc Verif.MLinalg Verif.MReduce.
Import ListNotations.
Local Open Scope Z_scope.

Section Stat.
Context {F : Fl}.
Notation ops := (list (Z * F)).

(** ** sum.rs *)

(** The reduction of a chunk or row, L39-L56 (repeated at L138-L156, L167-L185,
    L196-L214, L253-L270, L543-L560). *)
Definition lane_sum (chunk : list F) : res F := lane_reduce f0 fadd fadd fadd chunk.

(** Rayon's [sum()] adds partial sums as [[l, r].iter().sum()], and the standard
    library's [sum] starts from a zero [z] (of either sign, depending on the
    version).
    the [sum()] of sum.rs L36-L58 and the other totals *)
Definition radd (z a b : F) : F := fadd (fadd z a) b.
(** sum.rs L36-L58 *)
Definition rayon_sum (z : F) (t : Split) (data : list F) : res F :=
  par_reduce lane_sum (fun xs => radd z z (fold_left fadd xs z)) (radd z) t data.

(** L192-L217, L35-L59, L163-L188, L134-L159 *)
Definition sum_csr z t (A : Csr F) : res F := rayon_sum z t (dat A).
(** sum.rs L35-L59 *)
Definition sum_csc z t (A : Csc F) : res F := rayon_sum z t (dat A).
(** sum.rs L163-L187 *)
Definition sum_coo z t (A : Coo F) : res F := rayon_sum z t (coo_data A).
(** sum.rs L134-L158 *)
Definition sum_coond z t (A : Nd F) : res F := rayon_sum z t (nd_dat A).

(** L253-L270, L543-L560 *)
Definition slice_sum (A : Cs F) (i : nat) : res F := let! r := data_slice A i in lane_sum r.

(** L222-L275; [sch] orders the assignments of the parallel loop. *)
Definition row_sums_csr (sch : list (nat * F) -> list (nat * F)) (A : Csr F) : res (list F) :=
  let! rs := work_ranges A in
  let! ws := mapM (range_stores (slice_sum A)) rs in
  store_all (repeat f0 (csr_nrows A)) (sch (concat ws)).

(** The additions of a slice, L292-L297, L332-L338, L372-L391, L451-L460, L471-L491. *)
Definition slice_ops (A : Cs F) (i : nat) : res ops :=
  let! r := row_checked A i in Ok (map (fun e => (to_usize (fst e), snd e)) r).

(** L280-L438 *)
Definition col_sums_csr (nthreads : nat) dist il (A : Csr F) : res (list F) :=
  let n := csr_ncols A in
  if (n =? 0)%nat then Ok []
  else if Z.of_nat n <=? SMALL_DIM_LIMIT then
    let! tasks := mapM (slice_ops A) (seq 0 (csr_nrows A)) in
    tls_vec n dist tasks (repeat f0 n)
  else if Z.of_nat (length (dat A)) <? sat_mul (Z.of_nat (n / 2)) (Z.of_nat nthreads) then
    let! tasks := mapM (slice_ops A) (seq 0 (csr_nrows A)) in
    tls_hash dist tasks (repeat f0 n)
  else
    let! rs := work_ranges A in
    let! tasks := mapM (range_ops (slice_ops A)) rs in
    tls_stripes_par STRIPE n il dist tasks (repeat f0 n).

(** L443-L528 *)
Definition row_sums_csc dist (A : Csc F) : res (list F) :=
  let n := csc_nrows A in
  if (n =? 0)%nat then Ok []
  else
    let! tasks := mapM (slice_ops A) (seq 0 (csc_ncols A)) in
    if (Z.of_nat n <=? SMALL_DIM_LIMIT) || (Z.of_nat (length (dat A)) <=? SMALL_NNZ_LIMIT)
    then tls_hash dist tasks (repeat f0 n)
    else tls_stripes STRIPE n dist tasks (repeat f0 n).

(** L533-L563: every column writes its own element of [out]. *)
Definition col_sums_csc (A : Csc F) : res (list F) := mapM (slice_sum A) (seq 0 (csc_ncols A)).

(** One entry of a coordinate matrix, keyed by row or by column: L585-L588,
    L612-L628, L668-L671, L690-L703. *)
Definition entry_op (key : list Z) (data : list F) (p : nat) : res ops :=
  let! k := get_checked key p in
  let! v := get_checked data p in
  Ok [(to_usize k, v)].

(** The chunk tasks, L580-L584 and similar. *)
Definition chunk_tasks (nthreads : nat) (key : list Z) (data : list F) : res (list ops) :=
  let nnz := length data in
  mapM (range_ops (entry_op key data)) (chunk_ranges (chunk_len nthreads nnz) nnz).

(** L568-L645 *)
Definition row_sums_coo (nthreads : nat) dist (A : Coo F) : res (list F) :=
  let n := coo_nrows A in
  let nnz := Z.of_nat (length (coo_data A)) in
  if (n =? 0)%nat then Ok []
  else if nnz =? 0 then Ok (repeat f0 n)
  else
    let! tasks := chunk_tasks nthreads (coo_row A) (coo_data A) in
    if (nnz <=? SMALL_NNZ_LIMIT) || (Z.of_nat n <=? SMALL_DIM_LIMIT)
    then tls_hash dist tasks (repeat f0 n)
    else tls_stripes STRIPE n dist tasks (repeat f0 n).

(** L651-L752 *)
Definition col_sums_coo (nthreads : nat) dist il (A : Coo F) : res (list F) :=
  let n := coo_ncols A in
  let nnz := Z.of_nat (length (coo_data A)) in
  if (n =? 0)%nat then Ok []
  else if nnz =? 0 then Ok (repeat f0 n)
  else
    let! tasks := chunk_tasks nthreads (coo_col A) (coo_data A) in
    if nnz <? sat_mul (Z.of_nat (n / 2)) (Z.of_nat nthreads)
    then tls_hash dist tasks (repeat f0 n)
    else tls_stripes_par STRIPE n il dist tasks (repeat f0 n).

(** ** mean.rs L29-L40 *)
Definition mean_coond z t (A : Nd F) : res F :=
  match nd_shape A with
  | [] => Ok f0
  | sh =>
      let! n := product_checked sh in
      if feqb (fofZ n : F) f0 then Ok f0
      else let! s := sum_coond z t A in Ok (fdiv s (fofZ n))
  end.

(** ** minmax.rs. [worst] is the neutral element (plus or minus infinity), [vop] the
    vector and [sop] the scalar minimum or maximum ([f64x4::min], [f64::min]),
    [better x acc] the comparison [x < acc] or [x > acc]. *)
Section Best.
Variables (worst : F) (vop sop : F -> F -> F) (better : F -> F -> bool).

(** L37-L40, L67-L70 *)
Definition pick (acc x : F) : F := if better x acc then x else acc.

(** L19-L44, L49-L74 *)
Definition chunk_best (chunk : list F) : res F :=
  match chunk with
  | [] => Ok worst
  | _ => lane_reduce worst vop sop pick chunk
  end.

(** L80-L98, L103-L121, L195-L211, L216-L232, L306-L322, L327-L342 *)
Definition best_all (t : Split) (nrows ncols : nat) (data : list F) : res F :=
  if (nrows =? 0)%nat || (ncols =? 0)%nat then Ok f0
  else
    let! m := par_reduce chunk_best (fun xs => fold_left sop xs worst) sop t data in
    let full := sat_mul (Z.of_nat nrows) (Z.of_nat ncols) in
    Ok (if Z.of_nat (length data) <? full then sop m f0 else m).

(** One row (column) of L126-L147, L152-L173, L237-L258, L263-L284. *)
Definition slice_best (A : Cs F) (i : nat) : res F :=
  let! n := slice_nnz A i in
  if n =? 0 then Ok f0
  else
    let! r := data_slice A i in
    let! m := chunk_best r in
    Ok (if n <? Z.of_nat (minor A) then sop m f0 else m).
(** L126-L172, L237-L283 *)
Definition major_bests (A : Cs F) : res (list F) := mapM (slice_best A) (seq 0 (major A)).

(** L348-L418, L423-L493, L498-L568, L573-L642; [n] counts the slots, [width] the
    cells of a slot. *)
Definition coo_bests (nthreads : nat) dist (n width : nat) (key : list Z) (data : list F) : res (list F) :=
  if (n =? 0)%nat then Ok []
  else
    let! counts := count_index n key in
    let! tasks := chunk_tasks nthreads key data in
    let! (out, seen) := tls_first f0 (fun x => x) pick (put_seen pick) STRIPE n dist tasks (repeat f0 n, repeat false n) in
    mapM (fun i =>
      let! c := get_checked counts i in
      let! o := get_checked out i in
      let! s := get_checked seen i in
      Ok (if (c <? width)%nat then (if s : bool then sop o f0 else f0) else o)) (seq 0 n).
End Best.

(** [f64::INFINITY] / [f64x4::min] / [f64::min] / [<], and the mirror images. *)
Definition lt_min (x acc : F) : bool := fltb x acc.
(** L103-L120 *)
Definition gt_max (x acc : F) : bool := fltb acc x.

(** Column-wise CSR and row-wise CSC reductions transpose first: L177-L189,
    L288-L300, prod.rs L107-L111, L160-L164, varstd.rs L143-L153, L215-L225. *)
Definition after_transpose {B} threads il sch srt (f : Cs F -> res B) (A : Cs F) : res B :=
  let! T := transpose_cs threads il sch srt A in f T.

(** minmax.rs L80-L97 *)
Definition min_csr vmin smin t (A : Csr F) := best_all finf vmin smin lt_min t (csr_nrows A) (csr_ncols A) (dat A).
(** minmax.rs L103-L120 *)
Definition max_csr vmax smax t (A : Csr F) := best_all (fneg finf) vmax smax gt_max t (csr_nrows A) (csr_ncols A) (dat A).
(** minmax.rs L195-L210 *)
Definition min_csc vmin smin t (A : Csc F) := best_all finf vmin smin lt_min t (csc_nrows A) (csc_ncols A) (dat A).
(** minmax.rs L216-L231 *)
Definition max_csc vmax smax t (A : Csc F) := best_all (fneg finf) vmax smax gt_max t (csc_nrows A) (csc_ncols A) (dat A).
(** minmax.rs L306-L321 *)
Definition min_coo vmin smin t (A : Coo F) := best_all finf vmin smin lt_min t (coo_nrows A) (coo_ncols A) (coo_data A).
(** minmax.rs L327-L342 *)
Definition max_coo vmax smax t (A : Coo F) := best_all (fneg finf) vmax smax gt_max t (coo_nrows A) (coo_ncols A) (coo_data A).

(** minmax.rs L126-L146 *)
Definition row_mins_csr vmin smin (A : Csr F) := major_bests finf vmin smin lt_min A.
(** minmax.rs L152-L172 *)
Definition row_maxs_csr vmax smax (A : Csr F) := major_bests (fneg finf) vmax smax gt_max A.
(** minmax.rs L237-L257 *)
Definition col_mins_csc vmin smin (A : Csc F) := major_bests finf vmin smin lt_min A.
(** minmax.rs L263-L283 *)
Definition col_maxs_csc vmax smax (A : Csc F) := major_bests (fneg finf) vmax smax gt_max A.
(** minmax.rs L177-L181 *)
Definition col_mins_csr vmin smin threads il sch srt (A : Csr F) := after_transpose threads il sch srt (row_mins_csr vmin smin) A.
(** minmax.rs L186-L189 *)
Definition col_maxs_csr vmax smax threads il sch srt (A : Csr F) := after_transpose threads il sch srt (row_maxs_csr vmax smax) A.
(** minmax.rs L288-L292 *)
Definition row_mins_csc vmin smin threads il sch srt (A : Csc F) := after_transpose threads il sch srt (col_mins_csc vmin smin) A.
(** minmax.rs L297-L300 *)
Definition row_maxs_csc vmax smax threads il sch srt (A : Csc F) := after_transpose threads il sch srt (col_maxs_csc vmax smax) A.

(** minmax.rs L348-L417 *)
Definition row_mins_coo smin nthreads dist (A : Coo F) := coo_bests smin lt_min nthreads dist (coo_nrows A) (coo_ncols A) (coo_row A) (coo_data A).
(** minmax.rs L423-L492 *)
Definition row_maxs_coo smax nthreads dist (A : Coo F) := coo_bests smax gt_max nthreads dist (coo_nrows A) (coo_ncols A) (coo_row A) (coo_data A).
(** minmax.rs L498-L567 *)
Definition col_mins_coo smin nthreads dist (A : Coo F) := coo_bests smin lt_min nthreads dist (coo_ncols A) (coo_nrows A) (coo_col A) (coo_data A).
(** minmax.rs L573-L642 *)
Definition col_maxs_coo smax nthreads dist (A : Coo F) := coo_bests smax gt_max nthreads dist (coo_ncols A) (coo_nrows A) (coo_col A) (coo_data A).

(** ** prod.rs *)

(** L24-L46 *)
Definition chunk_prod (chunk : list F) : res F :=
  match chunk with [] => Ok f1 | _ => lane_reduce f1 fmul fmul fmul chunk end.

(** L64-L77, L117-L130, L170-L183, L334-L346; [full] counts the cells. *)
Definition prod_all (t : Split) (full : Z) (data : list F) : res F :=
  if full =? 0 then Ok f1
  else if Z.of_nat (length data) <? full then Ok f0
  else par_reduce chunk_prod (fun xs => fold_left fmul xs f1) fmul t data.

(** prod.rs L64-L76 *)
Definition prod_csr t (A : Csr F) := prod_all t (sat_mul (Z.of_nat (csr_nrows A)) (Z.of_nat (csr_ncols A))) (dat A).
(** prod.rs L117-L129 *)
Definition prod_csc t (A : Csc F) := prod_all t (sat_mul (Z.of_nat (csc_nrows A)) (Z.of_nat (csc_ncols A))) (dat A).
(** prod.rs L170-L182 *)
Definition prod_coo t (A : Coo F) := prod_all t (sat_mul (Z.of_nat (coo_nrows A)) (Z.of_nat (coo_ncols A))) (coo_data A).
(** prod.rs L334-L346 *)
Definition prod_coond t (A : Nd F) := let! full := product_checked (nd_shape A) in prod_all t full (nd_dat A).

(** L82-L104, L135-L157 *)
Definition slice_prod (A : Cs F) (i : nat) : res F :=
  let! n := slice_nnz A i in
  if n <? Z.of_nat (minor A) then Ok f0
  else let! r := data_slice A i in chunk_prod r.
(** L82-L103, L135-L156 *)
Definition major_prods (A : Cs F) : res (list F) :=
  if (major A =? 0)%nat then Ok []
  else if (minor A =? 0)%nat then Ok (repeat f1 (major A))
  else mapM (slice_prod A) (seq 0 (major A)).
(** prod.rs L82-L103 *)
Definition row_prods_csr (A : Csr F) := major_prods A.
(** prod.rs L135-L156 *)
Definition col_prods_csc (A : Csc F) := major_prods A.
(** prod.rs L107-L111 *)
Definition col_prods_csr threads il sch srt (A : Csr F) := after_transpose threads il sch srt row_prods_csr A.
(** prod.rs L160-L164 *)
Definition row_prods_csc threads il sch srt (A : Csc F) := after_transpose threads il sch srt col_prods_csc A.

(** L188-L255, L261-L328 *)
Definition coo_prods (nthreads : nat) dist (n width : nat) (key : list Z) (data : list F) : res (list F) :=
  if (n =? 0)%nat then Ok []
  else if (width =? 0)%nat then Ok (repeat f1 n)
  else
    let! counts := count_index n key in
    let! tasks := chunk_tasks nthreads key data in
    let! (out, _) := tls_first f1 (fun x => x) fmul (put_seen fmul) STRIPE n dist tasks (repeat f1 n, repeat false n) in
    mapM (fun i =>
      let! c := get_checked counts i in
      let! o := get_checked out i in
      Ok (if (c <? width)%nat then f0 else o)) (seq 0 n).
(** prod.rs L188-L255 *)
Definition row_prods_coo nthreads dist (A : Coo F) := coo_prods nthreads dist (coo_nrows A) (coo_ncols A) (coo_row A) (coo_data A).
(** prod.rs L261-L328 *)
Definition col_prods_coo nthreads dist (A : Coo F) := coo_prods nthreads dist (coo_ncols A) (coo_nrows A) (coo_col A) (coo_data A).

(** ** varstd.rs *)
Notation FF := (F * F)%type.
(** L47-L49 *)
Definition add2 (a b : FF) : FF := (fadd (fst a) (fst b), fadd (snd a) (snd b)).
(** L41-L43, L52-L53 *)
Definition acc2 (a : FF) (x : F) : FF := (fadd (fst a) x, fadd (snd a) (fmul x x)).

(** L28-L57 *)
Definition chunk_sum_sum2 (chunk : list F) : res FF :=
  match chunk with [] => Ok (f0, f0) | _ => lane_reduce (f0, f0) acc2 add2 acc2 chunk end.

(** L63-L75; [denom <= 0.0] *)
Definition fleb (x y : F) : bool := fltb x y || feqb x y.
(** varstd.rs L63-L75 *)
Definition variance_from_sums (s : FF) (n : Z) (correction : F) : F :=
  if n =? 0 then f0
  else
    let nf := fofZ n in
    let denom := fsub nf correction in
    if fleb denom f0 then f0
    else
      let mean_sq := fdiv (fmul (fst s) (fst s)) nf in
      let var := fdiv (fsub (snd s) mean_sq) denom in
      if fltb var f0 then f0 else var.

(** L88-L99, L160-L171, L232-L243 *)
Definition var_all (t : Split) (n : Z) (data : list F) (correction : F) : res F :=
  if n =? 0 then Ok f0
  else
    let! s := par_reduce chunk_sum_sum2 (fun xs => fold_left add2 xs (f0, f0)) add2 t data in
    Ok (variance_from_sums s n correction).
(** varstd.rs L88-L99 *)
Definition var_csr t (A : Csr F) := var_all t (sat_mul (Z.of_nat (csr_nrows A)) (Z.of_nat (csr_ncols A))) (dat A).
(** varstd.rs L160-L171 *)
Definition var_csc t (A : Csc F) := var_all t (sat_mul (Z.of_nat (csc_nrows A)) (Z.of_nat (csc_ncols A))) (dat A).
(** varstd.rs L232-L243 *)
Definition var_coo t (A : Coo F) := var_all t (sat_mul (Z.of_nat (coo_nrows A)) (Z.of_nat (coo_ncols A))) (coo_data A).
(** L430-L444 *)
Definition var_coond t (A : Nd F) (correction : F) : res F :=
  match nd_shape A with
  | [] => Ok f0
  | sh => let! n := product_checked sh in var_all t n (nd_dat A) correction
  end.

(** L111-L129, L183-L201 *)
Definition slice_var (A : Cs F) (correction : F) (i : nat) : res F :=
  if (minor A =? 0)%nat then Ok f0
  else
    let! r := data_slice A i in
    let! s := chunk_sum_sum2 r in
    Ok (variance_from_sums s (Z.of_nat (minor A)) correction).
(** L111-L129, L183-L201 *)
Definition major_vars (correction : F) (A : Cs F) : res (list F) := mapM (slice_var A correction) (seq 0 (major A)).
(** varstd.rs L111-L129 *)
Definition row_vars_csr correction (A : Csr F) := major_vars correction A.
(** varstd.rs L183-L201 *)
Definition col_vars_csc correction (A : Csc F) := major_vars correction A.
(** varstd.rs L143-L146 *)
Definition col_vars_csr threads il sch srt correction (A : Csr F) := after_transpose threads il sch srt (row_vars_csr correction) A.
(** varstd.rs L215-L218 *)
Definition row_vars_csc threads il sch srt correction (A : Csc F) := after_transpose threads il sch srt (col_vars_csc correction) A.

(** L255-L321, L336-L402 *)
Definition coo_vars (nthreads : nat) dist (n width : nat) (key : list Z) (data : list F) (correction : F) : res (list F) :=
  if (n =? 0)%nat then Ok []
  else if (width =? 0)%nat then Ok (repeat f0 n)
  else
    let! tasks := chunk_tasks nthreads key data in
    let! sums := tls_first (f0, f0) (fun x => (x, fmul x x)) acc2 (put_add add2) STRIPE n dist tasks (repeat (f0, f0) n) in
    mapM (fun i => let! s := get_checked sums i in Ok (variance_from_sums s (Z.of_nat width) correction)) (seq 0 n).
(** varstd.rs L255-L321 *)
Definition row_vars_coo nthreads dist correction (A : Coo F) := coo_vars nthreads dist (coo_nrows A) (coo_ncols A) (coo_row A) (coo_data A) correction.
(** varstd.rs L336-L401 *)
Definition col_vars_coo nthreads dist correction (A : Coo F) := coo_vars nthreads dist (coo_ncols A) (coo_nrows A) (coo_col A) (coo_data A) correction.

(** L79-L81, and L104-L106, L134-L139, L150-L153, L176-L178, L206-L211, L222-L225,
    L248-L250, L326-L331, L406-L411, L449-L451: the square root of the variance(s). *)
Definition std_of (v : res F) : res F := rmap fsqrt v.
(** L134-L139, L206-L211, L326-L331, L406-L411 *)
Definition stds_of (v : res (list F)) : res (list F) := rmap (map fsqrt) v.

(** ** logic.rs *)

(** L50-L68, L176-L185, L302-L313; [par_iter().any] is an unordered search. *)
Definition all_data (full : Z) (data : list F) : bool :=
  if full =? 0 then true
  else if Z.of_nat (length data) <? full then false
  else negb (existsb (fun x => feqb x f0) data).
(** L76-L83, L191-L197, L319-L325 *)
Definition any_data (full : Z) (data : list F) : bool :=
  if full =? 0 then false else existsb (fun x => negb (feqb x f0)) data.
(** [saturating_mul], L54, L78, L178, L192 *)
Definition cs_full (A : Cs F) : Z := sat_mul (Z.of_nat (major A)) (Z.of_nat (minor A)).
(** logic.rs L50-L67 *)
Definition all_csr (A : Csr F) : bool := all_data (cs_full A) (dat A).
(** logic.rs L76-L83 *)
Definition any_csr (A : Csr F) : bool := any_data (cs_full A) (dat A).
(** logic.rs L176-L186 *)
Definition all_csc (A : Csc F) : bool := all_data (cs_full A) (dat A).
(** logic.rs L191-L197 *)
Definition any_csc (A : Csc F) : bool := any_data (cs_full A) (dat A).
(** logic.rs L302-L313 *)
Definition all_coond (A : Nd F) : res bool := let! n := product_checked (nd_shape A) in Ok (all_data n (nd_dat A)).
(** logic.rs L319-L325 *)
Definition any_coond (A : Nd F) : res bool := let! n := product_checked (nd_shape A) in Ok (any_data n (nd_dat A)).
(** L277-L291 *)
Definition all_coo srt (A : Coo F) : res bool := let! C := coo_to_csr srt A in Ok (all_csr C).
(** logic.rs L287-L291 *)
Definition any_coo srt (A : Coo F) : res bool := let! C := coo_to_csr srt A in Ok (any_csr C).

(** L92-L118, L220-L245 *)
Definition slice_all (A : Cs F) (i : nat) : res bool :=
  let! n := slice_nnz A i in
  if n <? Z.of_nat (minor A) then Ok false
  else let! r := data_slice A i in Ok (negb (existsb (fun x => feqb x f0) r)).
(** L92-L118, L220-L245 *)
Definition major_alls (A : Cs F) : res (list bool) :=
  if (major A =? 0)%nat then Ok []
  else if (minor A =? 0)%nat then Ok (repeat true (major A))
  else mapM (slice_all A) (seq 0 (major A)).
(** L126-L146, L249-L269 *)
Definition slice_any (A : Cs F) (i : nat) : res bool :=
  let! r := data_slice A i in Ok (existsb (fun x => negb (feqb x f0)) r).
(** L126-L146, L249-L269 *)
Definition major_anys (A : Cs F) : res (list bool) :=
  if (major A =? 0)%nat then Ok []
  else if (minor A =? 0)%nat then Ok (repeat false (major A))
  else mapM (slice_any A) (seq 0 (major A)).
(** logic.rs L92-L118 *)
Definition row_alls_csr (A : Csr F) := major_alls A.
(** logic.rs L126-L146 *)
Definition row_anys_csr (A : Csr F) := major_anys A.
(** logic.rs L220-L245 *)
Definition col_alls_csc (A : Csc F) := major_alls A.
(** logic.rs L249-L269 *)
Definition col_anys_csc (A : Csc F) := major_anys A.
(** L153-L167 *)
Definition col_alls_csr threads il sch srt (A : Csr F) := after_transpose threads il sch srt row_alls_csr A.
(** logic.rs L163-L167 *)
Definition col_anys_csr threads il sch srt (A : Csr F) := after_transpose threads il sch srt row_anys_csr A.
(** L201-L213 *)
Definition row_alls_csc il sch (A : Csc F) : res (list bool) := let! C := csc_to_csr il sch A in row_alls_csr C.
(** logic.rs L210-L213 *)
Definition row_anys_csc il sch (A : Csc F) : res (list bool) := let! C := csc_to_csr il sch A in row_anys_csr C.

End Stat.
