(** Model of the broadcasting product and of the N-D times matrix product. *)
Require Import List ZArith Bool Arith.
Require Import Verif.Res Verif.Values Verif.Spec Verif.Mem Verif.Loops Verif.NdLib Verif.MScalar Verif.MHash Verif.MNd.
Import ListNotations.
Local Open Scope Z_scope.

(** multiply.rs L107-L115: shapes padded with ones on the left *)
Definition pad_shape (d : nat) (sh : list Z) : list Z := repeat 1 (d - length sh) ++ sh.

(** multiply.rs L118-L126 *)
Definition out_dim (ab : Z * Z) : res Z :=
  assert! (negb (negb (fst ab =? snd ab) && negb (fst ab =? 1) && negb (snd ab =? 1))) ;;
  Ok (Z.max (fst ab) (snd ab)).

(** multiply.rs L132-L139; the masks [a_free] and [b_free] are never read *)
Definition inter_mask (ash bsh : list Z) : list bool :=
  map (fun ab => negb (fst ab =? 1) && negb (snd ab =? 1)) (combine ash bsh).

(** multiply.rs L151-L163: strides over the masked dimensions, last to first *)
Fixpoint inter_strides (ds : list (bool * Z)) : res (list Z * Z) :=
  match ds with
  | [] => Ok ([], 1)
  | (m, n) :: ds' =>
      let! (ss, s) := inter_strides ds' in
      if m then let! s' := checked_mul s n in Ok (s :: ss, s')
      else Ok (0 :: ss, s)
  end.

(** multiply.rs L215-L223: linear key of an entry over the masked dimensions *)
Definition inter_key (mask : list bool) (iss : list Z) (ks : list Z) : res Z :=
  foldM (fun key mx =>
    if fst mx : bool then
      let! p := checked_mul (as_usize (snd (snd mx))) (fst (snd mx)) in
      checked_add key p
    else Ok key) (combine mask (combine iss ks)) 0.

(** [HashMap<usize, Vec<usize>>] as an association list; the iteration order of
    its keys is a parameter of the kernel below.
    multiply.rs L224, L238 *)
Fixpoint entry_push (m : list (Z * list nat)) (key : Z) (k : nat) : list (Z * list nat) :=
  match m with
  | [] => [(key, [k])]
  | (k0, v) :: m' => if k0 =? key then (k0, v ++ [k]) :: m' else (k0, v) :: entry_push m' key k
  end.
(** multiply.rs L243, L258-L259 *)
Definition map_get (m : list (Z * list nat)) (key : Z) : option (list nat) :=
  match find (fun e => fst e =? key) m with Some e => Some (snd e) | None => None end.
(** [unwrap()], multiply.rs L258-L259 *)
Definition unwrap {A} (o : option A) : res A := match o with Some a => Ok a | None => Panic end.

(** multiply.rs L269-L271: the index used in dimension [i] *)
Definition pick (x : Z * (Z * Z)) : Z := let '(ash, (ia, ib)) := x in if ash =? 1 then ib else ia.

Section Nd2.
Context {F : Fl}.

(** multiply.rs L171-L209: coordinates padded with zeros; [sch] orders the parallel writes *)
Definition normalize (sch : list (nat * Z) -> list (nat * Z)) (d : nat) (A : Nd F) : res (list Z) :=
  let ad := length (nd_shape A) in
  let off := (d - ad)%nat in
  let! tasks := mapM (fun k =>
      let! ks := mapM (fun i => if (off <=? i)%nat then get_checked (nd_idx A) (k * ad + (i - off)) else Ok 0) (seq 0 d) in
      Ok (key_writes d k ks))
    (seq 0 (length (nd_dat A))) in
  assemble (length (nd_dat A) * d) (sch (concat tasks)).

(** multiply.rs L178-L187, L198-L207 *)
Definition norm_coords (norm : list Z) (d k : nat) : res (list Z) :=
  mapM (fun i => get_unchecked norm (k * d + i)) (seq 0 d).

(** multiply.rs L212-L239 *)
Definition group_by (norm : list Z) (d : nat) (mask : list bool) (iss : list Z) (nnz : nat) : res (list (Z * list nat)) :=
  foldM (fun m k =>
      let! ks := norm_coords norm d k in
      let! key := inter_key mask iss ks in
      Ok (entry_push m key k))
    (seq 0 nnz) [].

(** multiply.rs L261-L276: one product *)
Definition product_op (A B : Nd F) (na nb : list Z) (d : nat) (ash oss : list Z) (ka kb : nat) : res (Z * F) :=
  let! av := get_checked (nd_dat A) ka in
  let! bv := get_checked (nd_dat B) kb in
  let! ia := norm_coords na d ka in
  let! ib := norm_coords nb d kb in
  let! lin := linearize oss (map pick (combine ash (combine ia ib))) in
  Ok (lin, fmul av bv).

(** multiply.rs L257-L279: the products of one intersection key *)
Definition key_ops (A B : Nd F) na nb d ash oss (ma mb : list (Z * list nat)) (key : Z) : res (list (Z * F)) :=
  let! va := unwrap (map_get ma key) in
  let! vb := unwrap (map_get mb key) in
  let! opss := mapM (fun ka => mapM (product_op A B na nb d ash oss ka) vb) va in
  Ok (concat opss).

(** multiply.rs L100-L308. [scha], [schb] order the parallel writes, [ord] is the
    iteration order of the first hash map, [threads] the size of the pool. As in
    [entry_ops], the products of a chunk are computed before they are inserted. *)
Definition hadamard_broadcast_coond (scha schb : list (nat * Z) -> list (nat * Z)) (ord : list Z -> list Z) (threads : nat)
    (srt : list (Z * F) -> list (Z * F)) (A B : Nd F) : res (Nd F) :=
  let d := Nat.max (length (nd_shape A)) (length (nd_shape B)) in
  let ash := pad_shape d (nd_shape A) in
  let bsh := pad_shape d (nd_shape B) in
  let! osh := mapM out_dim (combine ash bsh) in
  if (length (nd_dat A) =? 0)%nat || (length (nd_dat B) =? 0)%nat then Ok (mkNd osh [] [])
  else
    let mask := inter_mask ash bsh in
    let! oss := strides_rm osh in
    let! (iss, _) := inter_strides (combine mask osh) in
    let! na := normalize scha d A in
    let! nb := normalize schb d B in
    let! ma := group_by na d mask iss (length (nd_dat A)) in
    let! mb := group_by nb d mask iss (length (nd_dat B)) in
    let keys := filter (fun key => existsb (fun e => fst e =? key) mb) (ord (map fst ma)) in
    let chunk := Nat.max 1 (length keys / (Nat.max threads 1 * 4)) in
    let! chunks := par_chunks chunk keys in
    let! parts := mapM (fun ks =>
        let! opss := mapM (key_ops A B na nb d ash oss ma mb) ks in
        let! acc := accumulate 1024 (concat opss) in
        Ok (pairs acc)) chunks in
    let! global := accumulate (Z.of_nat (length (concat parts))) (concat parts) in
    emit oss osh (sorted_pairs srt global).

(** ** N-D times dense matrix: linalg/matmul.rs L832-L961 *)

(** matmul.rs L889-L894 and L928-L934: one product, kept if nonzero *)
Definition spmm_op (lin_base stride_k : Z) (c : nat) (v : F) (ops : list (Z * F)) : res (list (Z * F)) :=
  if nonzero v then
    let! m := checked_mul (Z.of_nat c) stride_k in
    let! key := checked_add lin_base m in
    Ok (ops ++ [(key, v)])
  else Ok ops.

(** matmul.rs L885-L888, L928 *)
Definition read_b (b : list F) (base : Z) (c : nat) : res F := get_unchecked b (Z.to_nat (base + Z.of_nat c)).

(** matmul.rs L884-L926: the four reads come before the four insertions *)
Definition spmm_body4 (a_val : F) (b : list F) (base lin_base stride_k : Z) (c : nat) (ops : list (Z * F)) : res (list (Z * F)) :=
  let! b0 := read_b b base c in
  let! b1 := read_b b base (c + 1) in
  let! b2 := read_b b base (c + 2) in
  let! b3 := read_b b base (c + 3) in
  let! ops := spmm_op lin_base stride_k c (fmul a_val b0) ops in
  let! ops := spmm_op lin_base stride_k (c + 1) (fmul a_val b1) ops in
  let! ops := spmm_op lin_base stride_k (c + 2) (fmul a_val b2) ops in
  spmm_op lin_base stride_k (c + 3) (fmul a_val b3) ops.
(** matmul.rs L927-L936 *)
Definition spmm_body1 (a_val : F) (b : list F) (base lin_base stride_k : Z) (c : nat) (ops : list (Z * F)) : res (list (Z * F)) :=
  let! b0 := read_b b base c in
  spmm_op lin_base stride_k c (fmul a_val b0) ops.

(** The arithmetic [a.shape[axis] * k] (L842), [ax_idx * k] (L881) and [nnz * k.min(8)]
    (L868) is unchecked: it wraps in release builds. *)
Definition wrap_mul (x y : Z) : Z := (x * y) mod 2 ^ 64.

(** matmul.rs L832-L961 *)
Definition spmm_coond (srt : list (Z * F) -> list (Z * F)) (A : Nd F) (axis : nat) (b : list F) (k : nat) : res (Nd F) :=
  let ndim := length (nd_shape A) in
  assert! (axis <? ndim)%nat ;;
  let! dim := get_checked (nd_shape A) axis in
  assert! (Z.of_nat (length b) =? wrap_mul dim (Z.of_nat k)) ;;
  let nnz := length (nd_dat A) in
  let remain := filter (fun d => negb (d =? axis)%nat) (seq 0 ndim) in
  let! rsh := mapM (get_checked (nd_shape A)) remain in
  let osh := rsh ++ [Z.of_nat k] in
  if (nnz =? 0)%nat || (k =? 0)%nat then Ok (mkNd osh [] [])
  else
    let! ss := strides_ne osh in
    let stride_k := last ss 0 in
    let! ops := foldM (fun ops p =>
        let! ax := get_checked (nd_idx A) (p * ndim + axis) in
        let! ks := coords A remain p in
        let! lin_base := linearize ss ks in
        let! a_val := get_checked (nd_dat A) p in
        let base := wrap_mul (as_usize ax) (Z.of_nat k) in
        let! (c, ops) := step_loop k 4 (spmm_body4 a_val b base lin_base stride_k) (and_not3 k) 0 ops in
        let! (_, ops) := step_loop k 1 (spmm_body1 a_val b base lin_base stride_k) k c ops in
        Ok ops) (seq 0 nnz) [] in
    let! m := accumulate (wrap_mul (nnzZ A) (Z.min (Z.of_nat k) 8)) ops in
    emit ss osh (keep_nonzero (sorted_pairs srt m)).

(** linalg/tensordot.rs L180-L201 *)
Definition tensordot_coond (srt : list (Z * F) -> list (Z * F)) (A : Nd F) (axis : nat) (b : list F) (b_shape : list Z) : res (Nd F) :=
  assert! (axis <? length (nd_shape A))%nat ;;
  match b_shape with
  | [] => Panic
  | b0 :: rest =>
      let! n := product_checked b_shape in
      assert! (Z.of_nat (length b) =? n) ;;
      let! dim := get_checked (nd_shape A) axis in
      assert! (b0 =? dim) ;;
      let! k := product_checked rest in
      spmm_coond srt A axis b (Z.to_nat k)
  end.

End Nd2.
