(** Models of the 2-D linear algebra kernels. Cited lines are from
    crates/lacuna-kernels/src/linalg/matmul.rs unless a file is named. *)
Require Import List ZArith Bool Arith.
Require Import Verif.Res Verif.Values Verif.Spec Verif.Mem Verif.MHash Verif.MAcc Verif.Loops Verif.MConvert Verif.MScalar Verif.MNd Verif.MNd2.
Import ListNotations.
Local Open Scope Z_scope.

Section Linalg.
Context {F : Fl}.
Notation ops := (list (Z * F)).

(** ** y = A x, compressed by columns: L61-L207 *)

(** The additions of column [j] of a CSC matrix, L69-L76, L108-L115, L130-L141. *)
Definition col_ops (A : Csc F) (x : list F) (j : nat) : res ops :=
  let! r := row_checked A j in
  let! xj := get_checked x j in
  Ok (map (fun e => (to_usize (fst e), fmul (snd e) xj)) r).

(** The additions of a range of positions.
    L105-L116, L331-L341 *)
Definition range_ops (one : nat -> res ops) (r : nat * nat) : res ops :=
  let! ls := mapM one (range r) in Ok (concat ls).

(** The choice among the three thread-local strategies, L79, L103-L206. *)
Definition tls_spmv (nthreads nnz n : nat) dist (tasks : list ops) : res (list F) :=
  let y := repeat f0 n in
  if Z.of_nat nnz <? sat_mul (Z.of_nat (n / 2)) (Z.of_nat nthreads) then tls_hash dist tasks y
  else if Z.of_nat n <=? Z.of_nat STRIPE_ROWS * 2 then tls_dense n dist tasks y
  else tls_stripes STRIPE_ROWS n dist tasks y.

(** L61-L207 *)
Definition spmv_csc (nthreads : nat) (dist : list ops -> list (list ops)) (A : Csc F) (x : list F) : res (list F) :=
  assert! (length x =? csc_ncols A)%nat ;;
  let nnz := length (dat A) in
  if (Z.of_nat (csc_ncols A) <=? SMALL_DIM_LIMIT) || (Z.of_nat nnz <=? SMALL_NNZ_LIMIT) then
    let! ls := mapM (col_ops A x) (seq 0 (csc_ncols A)) in
    add_all Panic (repeat f0 (csc_nrows A)) (concat ls)
  else
    let! rs := work_ranges A in
    let! tasks := mapM (range_ops (col_ops A x)) rs in
    tls_spmv nthreads nnz (csc_nrows A) dist tasks.

(** ** y = A x, coordinate format: L310-L430 *)
Definition coo_ops (A : Coo F) (x : list F) (p : nat) : res ops :=
  let! i := get_checked (coo_row A) p in
  let! j := get_checked (coo_col A) p in
  let! v := get_checked (coo_data A) p in
  let! xj := get_checked x (Z.to_nat (to_usize j)) in
  Ok [(to_usize i, fmul v xj)].

(** L310-L430 *)
Definition spmv_coo (nthreads : nat) (dist : list ops -> list (list ops)) (A : Coo F) (x : list F) : res (list F) :=
  assert! (length x =? coo_ncols A)%nat ;;
  let nnz := length (coo_data A) in
  if (Z.of_nat (coo_nrows A) <=? SMALL_DIM_LIMIT) || (Z.of_nat nnz <=? SMALL_NNZ_LIMIT) then
    let! ls := mapM (coo_ops A x) (seq 0 nnz) in
    add_all Panic (repeat f0 (coo_nrows A)) (concat ls)
  else
    let! tasks := mapM (range_ops (coo_ops A x)) (chunk_ranges (chunk_len nthreads nnz) nnz) in
    tls_spmv nthreads nnz (coo_nrows A) dist tasks.

(** ** y = A x, compressed by rows *)

(** One step [acc = data[p].mul_add(x[indices[p]], acc)], L588-L589 *)
Definition fma_one (A : Cs F) (x : list F) (acc : F) (p : nat) : res F :=
  let! j := get_unchecked (idx A) p in
  let! v := get_unchecked (dat A) p in
  let! xj := get_unchecked x (Z.to_nat (to_usize j)) in
  Ok (ffma v xj acc).

(** A nested chain of four, L568-L583 *)
Definition fma_four (A : Cs F) (x : list F) (p : nat) (acc : F) : res F :=
  let! j0 := get_unchecked (idx A) p in
  let! j1 := get_unchecked (idx A) (p + 1) in
  let! j2 := get_unchecked (idx A) (p + 2) in
  let! j3 := get_unchecked (idx A) (p + 3) in
  let! v3 := get_unchecked (dat A) (p + 3) in
  let! x3 := get_unchecked x (Z.to_nat (to_usize j3)) in
  let! v2 := get_unchecked (dat A) (p + 2) in
  let! x2 := get_unchecked x (Z.to_nat (to_usize j2)) in
  let! v1 := get_unchecked (dat A) (p + 1) in
  let! x1 := get_unchecked x (Z.to_nat (to_usize j1)) in
  let! v0 := get_unchecked (dat A) p in
  let! x0 := get_unchecked x (Z.to_nat (to_usize j0)) in
  Ok (ffma v3 x3 (ffma v2 x2 (ffma v1 x1 (ffma v0 x0 acc)))).

(** L533-L561, L469-L530 *)
Definition fma_eight (A : Cs F) (x : list F) (p : nat) (acc : F) : res F :=
  let! acc := fma_four A x p acc in fma_four A x (p + 4) acc.
(** L468-L530 *)
Definition fma_sixteen (A : Cs F) (x : list F) (p : nat) (acc : F) : res F :=
  let! acc := fma_four A x p acc in
  let! acc := fma_four A x (p + 4) acc in
  let! acc := fma_four A x (p + 8) acc in
  fma_four A x (p + 12) acc.

(** [n & !m]
    L467, L565 *)
Definition and_not (m : N) (n : nat) : nat := N.to_nat (N.ldiff (N.of_nat n) m).

(** L451-L594 *)
Definition spmv_row (A : Csr F) (x : list F) (i : nat) : res F :=
  let! s := get_checked (ptr A) i in
  let! e := get_checked (ptr A) (S i) in
  let start := Z.to_nat (to_usize s) in
  let len := Z.to_nat ((to_usize e - to_usize s) mod 2 ^ 64) in
  if (len =? 0)%nat then Ok f0
  else
    let! (t, acc) := step_loop len 16 (fun t acc => fma_sixteen A x (start + t) acc) (and_not 15 len) 0 f0 in
    let! (t, acc) := step_loop len 8 (fun t acc => fma_eight A x (start + t) acc) (and_not 7 len) t acc in
    let! (t, acc) := step_loop len 4 (fun t acc => fma_four A x (start + t) acc) (and_not 3 len) t acc in
    let! (_, acc) := step_loop len 1 (fun t acc => fma_one A x acc (start + t)) len t acc in
    Ok acc.

(** Assignments [y[i] = v] through a raw pointer, in the order given.
    L656 *)
Definition store (y : list F) (w : nat * F) : res (list F) :=
  if (fst w <? length y)%nat then Ok (upd y (fst w) (snd w)) else UB.
(** L651-L659 *)
Definition store_all (y : list F) (ws : list (nat * F)) : res (list F) := foldM store ws y.

(** The assignments of the rows of a range, L652-L659. *)
Definition range_stores (one : nat -> res F) (r : nat * nat) : res (list (nat * F)) :=
  mapM (fun i => let! v := one i in Ok (i, v)) (range r).

(** L615-L661; [sch] orders the assignments of the parallel loop. *)
Definition spmv_csr (sch : list (nat * F) -> list (nat * F)) (A : Csr F) (x : list F) : res (list F) :=
  assert! (length x =? csr_ncols A)%nat ;;
  let nnz := length (dat A) in
  if (Z.of_nat (csr_nrows A) <=? SMALL_DIM_LIMIT) || (Z.of_nat nnz <=? SMALL_NNZ_LIMIT) then
    mapM (spmv_row A x) (seq 0 (csr_nrows A))
  else
    let! rs := work_ranges A in
    let! ws := mapM (range_stores (spmv_row A x)) rs in
    store_all (repeat f0 (csr_nrows A)) (sch (concat ws)).

(** ** Y = A B with dense row-major B *)

(** [j * k + c] in wrapping arithmetic
    L742, L773, L791, L1008, L1012 *)
Definition flat_index (j : Z) (k c : nat) : Z := (j * Z.of_nat k + Z.of_nat c) mod 2 ^ 64.

(** [B must be ncols x k row-major], L681, L721, L987, L1068 *)
Definition b_ok (b : list F) (ncols k : nat) : bool :=
  Z.of_nat (length b) =? wrap_mul (Z.of_nat ncols) (Z.of_nat k).
(** [nrows * k]
    L724, L994 *)
Definition y_len (nrows k : nat) : nat := Z.to_nat (wrap_mul (Z.of_nat nrows) (Z.of_nat k)).

(** [(0..k).step_by(128)] *)
Definition tiles (k : nat) : list nat := map (fun t => t * 128)%nat (seq 0 (div_ceil k 128)).

(** Columns [c0 .. c0+tk) of [y[dst..] += aij * b[src..]]: four lanes of an [f64x4] at a
    time ([vy + vb * va]), then single columns ([+= aij * b]). The four lanes are
    four independent elements. The additions are listed in order; L1017-L1037,
    L1093-L1112. *)
Definition tile_ops (b : list F) (k : nat) (i j : Z) (aij : F) (c0 tk : nat) (l : ops) : res ops :=
  let! (c, l) := step_loop tk 4 (fun c l =>
      foldM (fun l c =>
          let! bv := get_unchecked b (Z.to_nat (flat_index j k (c0 + c))) in
          Ok (l ++ [(flat_index i k (c0 + c), fmul bv aij)])) (seq c 4) l) (and_not 3 tk) 0 l in
  let! (_, l) := step_loop tk 1 (fun c l =>
      let! bv := get_unchecked b (Z.to_nat (flat_index j k (c0 + c))) in
      Ok (l ++ [(flat_index i k (c0 + c), fmul aij bv)])) tk c l in
  Ok l.

(** The task of the tile at [c0], L1002-L1040. *)
Definition csc_tile (A : Csc F) (b : list F) (k c0 : nat) : res ops :=
  let tk := (Nat.min (c0 + 128) k - c0)%nat in
  foldM (fun l j =>
      let! r := row_checked A j in
      foldM (fun l e => tile_ops b k (to_usize (fst e)) (Z.of_nat j) (snd e) c0 tk l) r l)
    (seq 0 (csc_ncols A)) [].

(** L986-L1042; [il] interleaves the read-modify-writes of the parallel tiles. *)
Definition spmm_csc (il : list ops -> ops) (A : Csc F) (b : list F) (k : nat) : res (list F) :=
  assert! b_ok b (csc_ncols A) k ;;
  if (csc_nrows A =? 0)%nat || (csc_ncols A =? 0)%nat || (k =? 0)%nat then Ok (repeat f0 (y_len (csc_nrows A) k))
  else
    let! ts := mapM (csc_tile A b k) (tiles k) in
    add_all UB (repeat f0 (y_len (csc_nrows A) k)) (il ts).

(** L1084-L1114 *)
Definition coo_tile (A : Coo F) (b : list F) (k c0 : nat) : res ops :=
  let tk := (Nat.min (c0 + 128) k - c0)%nat in
  foldM (fun l p =>
      let! i := get_checked (coo_row A) p in
      let! j := get_checked (coo_col A) p in
      let! v := get_checked (coo_data A) p in
      tile_ops b k (to_usize i) (to_usize j) v c0 tk l)
    (seq 0 (length (coo_data A))) [].

(** L1067-L1117 *)
Definition spmm_coo (il : list ops -> ops) (A : Coo F) (b : list F) (k : nat) : res (list F) :=
  assert! b_ok b (coo_ncols A) k ;;
  if (coo_nrows A =? 0)%nat || (k =? 0)%nat || (length (coo_data A) =? 0)%nat then Ok (repeat f0 (y_len (coo_nrows A) k))
  else
    let! ts := mapM (coo_tile A b k) (tiles k) in
    add_all UB (repeat f0 (y_len (coo_nrows A) k)) (il ts).

(** *** CSR: L720-L801. [yi] is the piece of [y] of row [i]. *)

(** Sparse rows, L739-L766: [yi[c0+c] += aij * b[j*k+c0+c]]. *)
Definition row_axpy (b : list F) (k c0 tk : nat) (yi : list F) (e : Z * F) : res (list F) :=
  let j := to_usize (fst e) in let aij := snd e in
  let! (c, yi) := step_loop tk 4 (fun c yi =>
      foldM (fun yi c =>
          let! bv := get_unchecked b (Z.to_nat (flat_index j k (c0 + c))) in
          let! y0 := get_unchecked yi (c0 + c) in
          Ok (upd yi (c0 + c) (fadd y0 (fmul bv aij)))) (seq c 4) yi) (and_not 3 tk) 0 yi in
  let! (_, yi) := step_loop tk 1 (fun c yi =>
      let! bv := get_unchecked b (Z.to_nat (flat_index j k (c0 + c))) in
      let! y0 := get_checked yi (c0 + c) in
      Ok (upd yi (c0 + c) (fadd y0 (fmul aij bv)))) tk c yi in
  Ok yi.

(** Other rows, L768-L797: one accumulator per column, then assigned. *)
Definition row_dot (b : list F) (k c0 tk : nat) (r : list (Z * F)) (yi : list F) : res (list F) :=
  let! (c, yi) := step_loop tk 4 (fun c yi =>
      foldM (fun yi c =>
          let! acc := foldM (fun acc e =>
              let! bv := get_unchecked b (Z.to_nat (flat_index (to_usize (fst e)) k (c0 + c))) in
              Ok (fadd acc (fmul bv (snd e)))) r f0 in
          if (c0 + c <? length yi)%nat then Ok (upd yi (c0 + c) acc) else UB) (seq c 4) yi) (and_not 3 tk) 0 yi in
  let! (_, yi) := step_loop tk 1 (fun c yi =>
      let! acc := foldM (fun acc e =>
          let! bv := get_unchecked b (Z.to_nat (flat_index (to_usize (fst e)) k (c0 + c))) in
          Ok (fadd acc (fmul (snd e) bv))) r f0 in
      if (c0 + c <? length yi)%nat then Ok (upd yi (c0 + c) acc) else Panic) tk c yi in
  Ok yi.

(** One row, L728-L799. The entries of the row are read once, up front. *)
Definition spmm_row (A : Csr F) (b : list F) (k : nat) (i : nat) (yi : list F) : res (list F) :=
  let! n := slice_nnz A i in
  let! r := row_checked A i in
  foldM (fun yi c0 =>
      let tk := (Nat.min (c0 + 128) k - c0)%nat in
      if (n <=? 8) && (128 <=? Z.of_nat k) then foldM (row_axpy b k c0 tk) r yi
      else row_dot b k c0 tk r yi) (tiles k) yi.

(** [y.par_chunks_mut(k).enumerate()]: the pieces are disjoint, so each is
    processed by itself; [k = 0] panics. *)
Definition spmm_csr (A : Csr F) (b : list F) (k : nat) : res (list F) :=
  assert! b_ok b (csr_ncols A) k ;;
  let! ps := par_chunks k (repeat f0 (y_len (csr_nrows A) k)) in
  let! out := mapM (fun iy => spmm_row A b k (fst iy) (snd iy)) (combine (seq 0 (length ps)) ps) in
  Ok (concat out).

(** L680-L696; the conversion is data_type_functions/astype.rs L47-L78. *)
Definition spmm_auto il1 sch (il2 : list ops -> ops) (A : Csr F) (b : list F) (k : nat) : res (list F) :=
  assert! b_ok b (csr_ncols A) k ;;
  let nnz := Z.of_nat (length (dat A)) in
  if (csr_ncols A =? 0)%nat || (csr_nrows A =? 0)%nat || (k =? 0)%nat || (nnz =? 0) then Ok (repeat f0 (y_len (csr_nrows A) k))
  else
    let avg := nnz / Z.max (Z.of_nat (csr_ncols A)) 1 in
    if (128 <=? Z.of_nat k) || ((64 <=? Z.of_nat k) && (8 <=? avg)) then
      let! C := csr_to_csc il1 sch A in spmm_csc il2 C b k
    else spmm_csr A b k.

(** ** linalg/tensordot.rs L50-L61, L94-L105, L137-L148 *)
Definition tensordot_with (ncols : nat) (mm : list F -> nat -> res (list F)) (b : list F) (b_shape : list Z) : res (list F) :=
  match b_shape with
  | [] => Panic
  | b0 :: rest =>
      let! n := product_checked b_shape in
      assert! (Z.of_nat (length b) =? n) ;;
      assert! (b0 =? Z.of_nat ncols) ;;
      let! k := product_checked rest in
      mm b (Z.to_nat k)
  end.
(** linalg/tensordot.rs L50-L61 *)
Definition tensordot_csr (A : Csr F) := tensordot_with (csr_ncols A) (spmm_csr A).
(** linalg/tensordot.rs L93-L104 *)
Definition tensordot_csc il (A : Csc F) := tensordot_with (csc_ncols A) (spmm_csc il A).
(** linalg/tensordot.rs L136-L147 *)
Definition tensordot_coo il (A : Coo F) := tensordot_with (coo_ncols A) (spmm_coo il A).

(** ** linalg/vecdot.rs *)

(** L58-L61, L205-L208, L409-L412 *)
Definition vecdot_csr_axis1 sch (A : Csr F) (x : list F) : res (list F) :=
  assert! (length x =? csr_ncols A)%nat ;; spmv_csr sch A x.
(** linalg/vecdot.rs L205-L208 *)
Definition vecdot_csc_axis1 nthreads dist (A : Csc F) (x : list F) : res (list F) :=
  assert! (length x =? csc_ncols A)%nat ;; spmv_csc nthreads dist A x.
(** linalg/vecdot.rs L409-L412 *)
Definition vecdot_coo_axis1 nthreads dist (A : Coo F) (x : list F) : res (list F) :=
  assert! (length x =? coo_ncols A)%nat ;; spmv_coo nthreads dist A x.

(** The additions of row [i], L130-L156: a zero weight skips the row. *)
Definition row_ops (A : Csr F) (x : list F) (i : nat) : res ops :=
  let! w := get_checked x i in
  if feqb w f0 then Ok []
  else
    let! r := row_checked A i in
    Ok (map (fun e => (to_usize (fst e), fmul (snd e) w)) r).

(** L90-L183 *)
Definition vecdot_csr_axis0 (dist : list ops -> list (list ops)) (A : Csr F) (x : list F) : res (list F) :=
  assert! (length x =? csr_nrows A)%nat ;;
  if (csr_ncols A =? 0)%nat then Ok []
  else
    let! rs := work_ranges A in
    let! tasks := mapM (range_ops (row_ops A x)) rs in
    tls_stripes STRIPE (csr_ncols A) dist tasks (repeat f0 (csr_ncols A)).

(** One column, L249-L384: [p] runs from [s] to [e] in steps of 16, 8, 4 and 1. *)
Definition dot_col (A : Csc F) (x : list F) (j : nat) : res F :=
  let! s := get_checked (ptr A) j in
  let! e := get_checked (ptr A) (S j) in
  let s := to_usize s in let e := to_usize e in
  let fuel := Z.to_nat e in
  let upto (m : Z) (p : nat) := Z.to_nat ((e - Z.land ((e - Z.of_nat p) mod 2 ^ 64) m) mod 2 ^ 64) in
  let p := Z.to_nat s in
  let! (p, acc) := step_loop fuel 16 (fma_sixteen A x) (upto 15 p) p f0 in
  let! (p, acc) := step_loop fuel 8 (fma_eight A x) (upto 7 p) p acc in
  let! (p, acc) := step_loop fuel 4 (fma_four A x) (upto 3 p) p acc in
  let! (_, acc) := step_loop fuel 1 (fun p acc => fma_one A x acc p) (Z.to_nat e) p acc in
  Ok acc.

(** L243-L387: every column writes its own element of [out]. *)
Definition vecdot_csc_axis0 (A : Csc F) (x : list F) : res (list F) :=
  assert! (length x =? csc_nrows A)%nat ;;
  mapM (dot_col A x) (seq 0 (csc_ncols A)).

(** L455-L464 *)
Definition coo_ops0 (A : Coo F) (x : list F) (p : nat) : res ops :=
  let! i := get_checked (coo_row A) p in
  let! j := get_checked (coo_col A) p in
  let! w := get_checked x (Z.to_nat (to_usize i)) in
  if feqb w f0 then Ok []
  else
    let! v := get_checked (coo_data A) p in
    Ok [(to_usize j, fmul v w)].

(** L440-L473 *)
Definition vecdot_coo_axis0 (nthreads : nat) (dist : list ops -> list (list ops)) (A : Coo F) (x : list F) : res (list F) :=
  assert! (length x =? coo_nrows A)%nat ;;
  let nnz := length (coo_data A) in
  if (coo_ncols A =? 0)%nat || (nnz =? 0)%nat then Ok (repeat f0 (coo_ncols A))
  else
    let! tasks := mapM (range_ops (coo_ops0 A x)) (chunk_ranges (chunk_len nthreads nnz) nnz) in
    tls_hash dist tasks (repeat f0 (coo_ncols A)).

End Linalg.
