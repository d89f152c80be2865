(** Model of the N-dimensional kernels of crates/lacuna-kernels/src. *)
Require Import List ZArith Bool Arith.
Require Import Verif.Res Verif.Values Verif.Spec Verif.Mem Verif.NdLib Verif.MConvert Verif.MScalar Verif.MHash.
Import ListNotations.
Local Open Scope Z_scope.

(** [usize::checked_mul(..).expect(..)] and [checked_add] (64-bit target). *)
Definition checked_mul (x y : Z) : res Z := if x * y <=? usize_max then Ok (x * y) else Panic.
(** the same, elementwise/add.rs L400-L403 *)
Definition checked_add (x y : Z) : res Z := if x + y <=? usize_max then Ok (x + y) else Panic.

(** [i64_to_usize] and [usize_to_i64] in release mode: two's complement casts
    (utility/util.rs L5-L12, manipulation/reshape.rs L6-L22). *)
Definition as_usize (x : Z) : Z := x mod 2 ^ 64.
(** manipulation/reshape.rs L16-L22 *)
Definition as_i64 (x : Z) : Z := if x <=? i64_max then x else x - 2 ^ 64.

(** manipulation/reshape.rs L25-L31, data_type_functions/astype.rs L306-L312,
    statistical/mean.rs L15-L21, linalg/tensordot.rs L14-L18 *)
Definition product_checked (dims : list Z) : res Z := foldM checked_mul dims 1.

(** manipulation/reshape.rs L34-L47, data_type_functions/astype.rs L318-L331; the loop
    runs from the last dimension to the first, as the recursion does. *)
Fixpoint strides_rm (dims : list Z) : res (list Z) :=
  match dims with
  | [] => Ok []
  | _ :: dims' =>
      match dims' with
      | [] => Ok [1]
      | d1 :: _ =>
          let! ss := strides_rm dims' in
          let! s := checked_mul (hd 0 ss) d1 in
          Ok (s :: ss)
      end
  end.

(** The inlined copies, which index [strides[ndim - 1]] first and so panic for an
    empty shape (elementwise/add.rs L384-L391, subtract.rs L408-L415,
    multiply.rs L336-L343, linalg/matmul.rs L247-L254, statistical/sum.rs L82-L89). *)
Definition strides_ne (dims : list Z) : res (list Z) :=
  match dims with [] => Panic | _ => strides_rm dims end.

(** The checked linearisation loop, elementwise/add.rs L396-L403 (same in the others). *)
Definition lin_step (lin : Z) (sx : Z * Z) : res Z :=
  let! m := checked_mul (as_usize (snd sx)) (fst sx) in
  checked_add lin m.
(** elementwise/add.rs L396-L403 *)
Definition linearize (ss ks : list Z) : res Z := foldM lin_step (combine ss ks) 0.

(** The de-linearisation loop, elementwise/add.rs L430-L437 (a division by zero panics). *)
Fixpoint delinearize (ss : list Z) (lin : Z) : res (list Z) :=
  match ss with
  | [] => Ok []
  | s :: ss' =>
      if s =? 0 then Panic
      else
        let ix := lin / s in
        let! ks := delinearize ss' (lin - ix * s) in
        Ok (as_i64 ix :: ks)
  end.

(** Axis lists checked against a [seen] table: permute_dims.rs L9-L14,
    astype.rs L355-L360, sum.rs L67-L72. *)
Definition mark_axis (seen : list bool) (p : nat) : res (list bool) :=
  match nth_error seen p with
  | Some false => Ok (upd seen p true)
  | _ => Panic
  end.
(** permute_dims.rs L9-L14, astype.rs L355-L360, sum.rs L67-L72 *)
Definition mark_axes (ndim : nat) (axes : list nat) : res (list bool) := foldM mark_axis axes (repeat false ndim).

(** The axes not marked, in order (astype.rs L361-L366, sum.rs L73). *)
Definition unmarked (seen : list bool) : list nat := filter (fun d => negb (nth d seen true)) (seq 0 (length seen)).

(** [assert_eq!(a.shape, b.shape)], add.rs L377-L378 *)
Definition shape_eqb (s t : list Z) : bool := if list_eq_dec Z.eq_dec s t then true else false.

Section Nd.
Context {F : Fl}.

(** Coordinates of entry [k] along [axes]: [a.indices[k * ndim + d]], checked.
    add.rs L397-L399 *)
Definition coords (A : Nd F) (axes : list nat) (k : nat) : res (list Z) :=
  mapM (fun d => get_checked (nd_idx A) (k * length (nd_shape A) + d)) axes.
(** The same with [get_unchecked].
    astype.rs L383-L384, L395-L396; reshape.rs L71-L72 *)
Definition coords_unchecked (A : Nd F) (axes : list nat) (k : nat) : res (list Z) :=
  mapM (fun d => get_unchecked (nd_idx A) (k * length (nd_shape A) + d)) axes.

(** The loop over the stored entries that computes linear keys. The key and value
    of every entry are computed before the insertions; in the code each insertion
    follows its key computation, which makes no difference because an insertion
    has no effect on the keys and a failure discards the map.
    add.rs L395-L416 *)
Definition entry_ops (A : Nd F) (axes : list nat) (ss : list Z) (f : F -> F) : res (list (Z * F)) :=
  mapM (fun k =>
      let! ks := coords A axes k in
      let! lin := linearize ss ks in
      let! v := get_checked (nd_dat A) k in
      Ok (lin, f v))
    (seq 0 (length (nd_dat A))).

(** Sorting the pairs, keeping those selected by [keep], writing coordinates and data
    (add.rs L419-L439). The output indices of the [pos]-th pair are written at
    [pos * ndim ..], i.e. the coordinate lists are concatenated. *)
Definition emit (ss sh : list Z) (ps : list (Z * F)) : res (Nd F) :=
  let! es := mapM (fun p => let! k := delinearize ss (fst p) in Ok (k, snd p)) ps in
  Ok (nd_of sh es).

(** [acc.pairs()] then [sort_unstable_by_key], add.rs L419-L420 *)
Definition sorted_pairs (srt : list (Z * F) -> list (Z * F)) (m : Hm F) : list (Z * F) := srt (pairs m).
(** [v != 0.0], add.rs L423 *)
Definition keep_nonzero (ps : list (Z * F)) : list (Z * F) := filter (fun p => nonzero (snd p)) ps.

(** [strides.iter().enumerate()], add.rs L398 *)
Definition all_axes (A : Nd F) : list nat := seq 0 (length (nd_shape A)).
(** [nnz()], lacuna-core/src/coo.rs L141-L143 *)
Definition nnzZ (A : Nd F) : Z := Z.of_nat (length (nd_dat A)).

(** add.rs L376-L440 and subtract.rs L400-L464; [g] is applied to the right values *)
Definition addsub_coond (g : F -> F) (srt : list (Z * F) -> list (Z * F)) (A B : Nd F) : res (Nd F) :=
  assert! (shape_eqb (nd_shape A) (nd_shape B)) ;;
  let! ss := strides_ne (nd_shape A) in
  let! oa := entry_ops A (all_axes A) ss (fun v => v) in
  let! ob := entry_ops B (all_axes A) ss g in
  let! m := accumulate (nnzZ A + nnzZ B) (oa ++ ob) in
  emit ss (nd_shape A) (keep_nonzero (sorted_pairs srt m)).
(** add.rs L376-L440 *)
Definition add_coond := addsub_coond (fun v => v).
(** subtract.rs L400-L464 *)
Definition sub_coond := addsub_coond fneg.

(** The two-pointer intersection of multiply.rs L373-L389. *)
Fixpoint isect2 (fuel : nat) (pa pb : list (Z * F)) : res (list (Z * F)) :=
  match fuel with
  | O => Diverge
  | S fuel' =>
      match pa, pb with
      | (ka, va) :: pa', (kb, vb) :: pb' =>
          if ka =? kb then
            let v := fmul va vb in
            let! r := isect2 fuel' pa' pb' in
            Ok (if nonzero v then (ka, v) :: r else r)
          else if ka <? kb then isect2 fuel' pa' pb
          else isect2 fuel' pa pb'
      | _, _ => Ok []
      end
  end.

(** multiply.rs L330-L404 *)
Definition hadamard_coond (srt : list (Z * F) -> list (Z * F)) (A B : Nd F) : res (Nd F) :=
  assert! (shape_eqb (nd_shape A) (nd_shape B)) ;;
  let! ss := strides_ne (nd_shape A) in
  let! oa := entry_ops A (all_axes A) ss (fun v => v) in
  let! ma := accumulate (nnzZ A) oa in
  let! ob := entry_ops B (all_axes A) ss (fun v => v) in
  let! mb := accumulate (nnzZ B) ob in
  let pa := sorted_pairs srt ma in
  let pb := sorted_pairs srt mb in
  let! outs := isect2 (S (length pa + length pb)) pa pb in
  emit ss (nd_shape A) outs.

(** manipulation/permute_dims.rs L6-L32 *)
Definition permute_axes_coond (A : Nd F) (perm : list nat) : res (Nd F) :=
  let ndim := length (nd_shape A) in
  assert! (length perm =? ndim)%nat ;;
  let! _ := mark_axes ndim perm in
  let! sh := mapM (get_checked (nd_shape A)) perm in
  if (length (nd_dat A) =? 0)%nat then Ok (mkNd sh [] [])
  else
    let! ks := mapM (coords A perm) (seq 0 (length (nd_dat A))) in
    Ok (mkNd sh (concat ks) (nd_dat A)).

(** The writes of the task for entry [k], which fills the slots [k * n ..].
    reshape.rs L79-L89 *)
Definition key_writes {A} (n : nat) (k : nat) (ks : list A) : list (nat * A) := combine (seq (k * n) (length ks)) ks.

(** reshape.rs L78-L89: a zero stride gives index 0 *)
Fixpoint delinearize0 (ss : list Z) (rem : Z) : list Z :=
  match ss with
  | [] => []
  | s :: ss' =>
      let ix := if s =? 0 then 0 else rem / s in
      as_i64 ix :: delinearize0 ss' (rem - ix * s)
  end.

(** manipulation/reshape.rs L51-L92. The parallel tasks write disjoint slots of the
    output; [sch] is the order in which the writes happen. *)
Definition reshape_coond (sch : list (nat * Z) -> list (nat * Z)) (A : Nd F) (new_shape : list Z) : res (Nd F) :=
  let! old_elems := product_checked (nd_shape A) in
  let! new_elems := product_checked new_shape in
  assert! (old_elems =? new_elems) ;;
  let nnz := length (nd_dat A) in
  if (nnz =? 0)%nat then Ok (mkNd new_shape [] [])
  else
    let! olds := strides_rm (nd_shape A) in
    let! news := strides_rm new_shape in
    let! tasks := mapM (fun k =>
        let! ks := coords_unchecked A (all_axes A) k in
        let! lin := linearize olds ks in
        Ok (key_writes (length new_shape) k (delinearize0 news lin)))
      (seq 0 nnz) in
    let! ixs := assemble (nnz * length new_shape) (sch (concat tasks)) in
    Ok (mkNd new_shape ixs (nd_dat A)).

(** ** Unfolding: data_type_functions/astype.rs L353-L446 *)
Definition small_nnz_limit : Z := 32768.
(** astype.rs L381-L408, L414-L442 *)
Definition unfold_one (A : Nd F) (axes : list nat) (ss : list Z) (k : nat) : res Z :=
  let! ks := coords_unchecked A axes k in
  let! r := linearize ss ks in
  Ok (as_i64 r).
(** astype.rs L353-L446 *)
Definition coond_axes_to_coo (sch : list (nat * (Z * Z)) -> list (nat * (Z * Z))) (A : Nd F) (row_axes : list nat) : res (Coo F) :=
  let ndim := length (nd_shape A) in
  let! used := mark_axes ndim row_axes in
  let col_axes := unmarked used in
  let! row_shape := mapM (get_checked (nd_shape A)) row_axes in
  let! col_shape := mapM (get_checked (nd_shape A)) col_axes in
  let! nrows := product_checked row_shape in
  let! ncols := product_checked col_shape in
  let! row_strides := strides_rm row_shape in
  let! col_strides := strides_rm col_shape in
  let nnz := length (nd_dat A) in
  if (nnz =? 0)%nat then Ok (mkCoo (Z.to_nat nrows) (Z.to_nat ncols) [] [] [])
  else
    let! rcs := mapM (fun k =>
        let! r := unfold_one A row_axes row_strides k in
        let! c := unfold_one A col_axes col_strides k in
        Ok (r, c)) (seq 0 nnz) in
    let! rcs :=
      (if Z.of_nat nnz <? small_nnz_limit then Ok rcs
       else assemble nnz (sch (combine (seq 0 nnz) rcs))) in
    Ok (mkCoo (Z.to_nat nrows) (Z.to_nat ncols) (map fst rcs) (map snd rcs) (nd_dat A)).

(** astype.rs L451-L468 *)
Definition coond_axes_to_csr sch srt (A : Nd F) (row_axes : list nat) : res (Csr F) :=
  let! coo := coond_axes_to_coo sch A row_axes in coo_to_csr srt coo.
(** astype.rs L459-L462 *)
Definition coond_axes_to_csc sch srt (A : Nd F) (row_axes : list nat) : res (Csc F) :=
  let! coo := coond_axes_to_coo sch A row_axes in coo_to_csc srt coo.
(** astype.rs L471-L488 *)
Definition coond_mode_to_csr sch srt (A : Nd F) (axis : nat) : res (Csr F) :=
  assert! (axis <? length (nd_shape A))%nat ;; coond_axes_to_csr sch srt A [axis].
(** astype.rs L484-L488 *)
Definition coond_mode_to_csc sch srt (A : Nd F) (axis : nat) : res (Csc F) :=
  assert! (axis <? length (nd_shape A))%nat ;; coond_axes_to_csc sch srt A [axis].

(** ** Axis reductions: statistical/sum.rs L64-L129 *)
Definition reduce_sum_axes_coond (srt : list (Z * F) -> list (Z * F)) (A : Nd F) (axes : list nat) : res (Nd F) :=
  let ndim := length (nd_shape A) in
  assert! (negb (length axes =? 0)%nat) ;;
  let! reduce := mark_axes ndim axes in
  let remain := unmarked reduce in
  assert! (negb (length remain =? 0)%nat) ;;
  let! sh := mapM (get_checked (nd_shape A)) remain in
  let! ss := strides_ne sh in
  if (length (nd_dat A) =? 0)%nat then Ok (mkNd sh [] [])
  else
    let! ops := entry_ops A remain ss (fun v => v) in
    let! m := accumulate (nnzZ A) ops in
    emit ss sh (sorted_pairs srt m).

(** statistical/mean.rs L48-L70 *)
Definition reduce_mean_axes_coond (srt : list (Z * F) -> list (Z * F)) (A : Nd F) (axes : list nat) : res (Nd F) :=
  let! reduced := reduce_sum_axes_coond srt A axes in
  let! reduce := foldM (fun r ax => if (ax <? length r)%nat then Ok (upd r ax true) else Panic) axes
                       (repeat false (length (nd_shape A))) in
  let! denom := foldM (fun acc d => if nth d reduce false
                                    then let! sz := get_checked (nd_shape A) d in checked_mul acc sz
                                    else Ok acc)
                      (seq 0 (length (nd_shape A))) 1 in
  if denom =? 1 then Ok reduced
  else mul_scalar_coond (fdiv f1 (fofZ denom)) reduced.

(** ** Contraction with a vector: linalg/matmul.rs L229-L289 *)
Definition spmv_coond (srt : list (Z * F) -> list (Z * F)) (A : Nd F) (axis : nat) (x : list F) : res (Nd F) :=
  let ndim := length (nd_shape A) in
  assert! (axis <? ndim)%nat ;;
  let! dim := get_checked (nd_shape A) axis in
  assert! (Z.of_nat (length x) =? dim) ;;
  let remain := filter (fun d => negb (d =? axis)%nat) (seq 0 ndim) in
  assert! (negb (length remain =? 0)%nat) ;;
  let! sh := mapM (get_checked (nd_shape A)) remain in
  if (length (nd_dat A) =? 0)%nat then Ok (mkNd sh [] [])
  else
    let! ss := strides_ne sh in
    let! opss := mapM (fun k =>
        let! ax := get_checked (nd_idx A) (k * ndim + axis) in
        let! ks := coords A remain k in
        let! lin := linearize ss ks in
        let! v := get_checked (nd_dat A) k in
        let! w := get_checked x (Z.to_nat (as_usize ax)) in
        let contrib := fmul v w in
        Ok (if nonzero contrib then [(lin, contrib)] else []))
      (seq 0 (length (nd_dat A))) in
    let! m := accumulate (nnzZ A) (concat opss) in
    emit ss sh (sorted_pairs srt m).

(** linalg/vecdot.rs L498-L506 *)
Definition vecdot_coond (srt : list (Z * F) -> list (Z * F)) (A : Nd F) (axis : nat) (x : list F) : res (Nd F) :=
  assert! (axis <? length (nd_shape A))%nat ;;
  let! dim := get_checked (nd_shape A) axis in
  assert! (Z.of_nat (length x) =? dim) ;;
  spmv_coond srt A axis x.

End Nd.
