(** Model of the scalar elementwise kernels (elementwise/multiply.rs L705-L981,
    abs.rs, sign.rs, power.rs L279-L329, remainder.rs L285-L339,
    floor_divide.rs L294-L345) and of pruning (utility/prune.rs,
    utility/eliminate_zeros.rs), all in crates/lacuna-kernels/src. *)
Require Import List ZArith Bool Arith.
Require Import Verif.Res Verif.Values Verif.Spec Verif.Mem Verif.MConvert.
Import ListNotations.
Local Open Scope Z_scope.

(** [l[n] = a] with a bounds check.
    multiply.rs L744 *)
Definition set_checked {A} (l : list A) (n : nat) (a : A) : res (list A) :=
  if (n <? length l)%nat then Ok (upd l n a) else Panic.
(** A write through a raw pointer.
    multiply.rs L739 *)
Definition set_unchecked {A} (l : list A) (n : nat) (a : A) : res (list A) :=
  if (n <? length l)%nat then Ok (upd l n a) else UB.

Section Scalar.
Context {F : Fl}.

(** One vector step at offset [i]: [read_unaligned] of four values, lanewise [f],
    [write_unaligned] (multiply.rs L735-L740). *)
Definition simd_step (f : F -> F) (i : nat) (buf : list F) : res (list F) :=
  let! v0 := get_unchecked buf i in
  let! v1 := get_unchecked buf (i + 1) in
  let! v2 := get_unchecked buf (i + 2) in
  let! v3 := get_unchecked buf (i + 3) in
  let! buf := set_unchecked buf i (f v0) in
  let! buf := set_unchecked buf (i + 1) (f v1) in
  let! buf := set_unchecked buf (i + 2) (f v2) in
  set_unchecked buf (i + 3) (f v3).

(** [while i < limit4 { ...; i += 4 }] (multiply.rs L734-L742). *)
Fixpoint simd_loop (fuel : nat) (f : F -> F) (limit4 i : nat) (buf : list F) : res (nat * list F) :=
  if (i <? limit4)%nat then
    match fuel with
    | O => Diverge
    | S fuel' => let! buf := simd_step f i buf in simd_loop fuel' f limit4 (i + 4) buf
    end
  else Ok (i, buf).

(** [while i < len { data[i] = f(data[i]); i += 1 }] (multiply.rs L743-L746). *)
Fixpoint tail_loop (fuel : nat) (f : F -> F) (len i : nat) (buf : list F) : res (list F) :=
  if (i <? len)%nat then
    match fuel with
    | O => Diverge
    | S fuel' =>
        let! v := get_checked buf i in
        let! buf := set_checked buf i (f v) in
        tail_loop fuel' f len (i + 1) buf
    end
  else Ok buf.

(** [len & !3] (multiply.rs L733), the bit operation itself. *)
Definition and_not3 (n : nat) : nat := N.to_nat (N.ldiff (N.of_nat n) 3).

(** The serial path, multiply.rs L730-L746 (and abs.rs L23-L39). *)
Definition simd_map (f : F -> F) (buf : list F) : res (list F) :=
  let len := length buf in
  let! (i, buf) := simd_loop len f (and_not3 len) 0 buf in
  tail_loop len f len i buf.

(** [par_chunks_mut(k)]: consecutive pieces of [k] elements, the last possibly
    shorter; [k = 0] panics. The pieces are disjoint borrows, so processing them
    in parallel is processing each by itself. *)
Fixpoint pieces {A} (fuel k : nat) (l : list A) : list (list A) :=
  match fuel with
  | O => []
  | S fuel' => match l with [] => [] | _ => firstn k l :: pieces fuel' k (skipn k l) end
  end.
(** multiply.rs L751-L767 *)
Definition par_chunks {A} (k : nat) (l : list A) : res (list (list A)) :=
  if (k =? 0)%nat then Panic else Ok (pieces (length l) k l).

(** multiply.rs L749 *)
Definition chunk_size : nat := N.to_nat 4096.

(** The parallel path, multiply.rs L749-L767 (abs.rs L43-L60). *)
Definition par_simd_map (f : F -> F) (buf : list F) : res (list F) :=
  let! cs := par_chunks chunk_size buf in
  let! cs' := mapM (simd_map f) cs in
  Ok (concat cs').

(** [data.par_chunks_mut(4096).for_each(|chunk| for v in chunk { v := f v })]
    (power.rs L283-L288, sign.rs L30-L35, ...). *)
Definition par_map (f : F -> F) (buf : list F) : res (list F) :=
  let! cs := par_chunks chunk_size buf in
  Ok (concat (map (map f) cs)).

(** [SMALL_NNZ_SIMD] = 16 * 1024 (multiply.rs, abs.rs L15). *)
Definition small_simd (n : nat) : bool := Z.of_nat n <? 16384.

(** The value arrays: multiply.rs L923-L981 and its three copies. *)
Definition mul_scalar_data (alpha : F) (d : list F) : res (list F) :=
  if feqb alpha f1 then Ok d
  else if feqb alpha f0 then Ok (repeat f0 (length d))
  else if small_simd (length d) then simd_map (fun v => fmul v alpha) d
  else par_simd_map (fun v => fmul v alpha) d.
(** abs.rs L19-L62 and its three copies. *)
Definition abs_data (d : list F) : res (list F) :=
  if small_simd (length d) then simd_map fabs d else par_simd_map fabs d.
(** sign.rs L14-L24; [nan] is the constant [f64::NAN], here the operand itself,
    which is a NaN in that branch (the model has one NaN). *)
Definition sign_f (x : F) : F :=
  if fnan x then x else if fltb f0 x then f1 else if fltb x f0 then fneg f1 else f0.
(** sign.rs L28-L37 *)
Definition sign_data (d : list F) : res (list F) := par_map sign_f d.
(** power.rs L281-L290 *)
Definition pow_scalar_data (alpha : F) (d : list F) : res (list F) := par_map (fun v => fpow v alpha) d.
(** remainder.rs L287-L297: [q = (v / alpha).floor(); v -= alpha * q] *)
Definition rem_scalar_data (alpha : F) (d : list F) : res (list F) :=
  par_map (fun v => fsub v (fmul alpha (ffloor (fdiv v alpha)))) d.
(** floor_divide.rs L296-L306 *)
Definition floordiv_scalar_data (alpha : F) (d : list F) : res (list F) :=
  par_map (fun v => ffloor (fdiv v alpha)) d.

(** The kernels clone the index arrays and replace the values (CSR and CSC, e.g.
    multiply.rs L980, L837; COO L905; COOND L768). *)
Definition cs_with (g : list F -> res (list F)) (A : Cs F) : res (Cs F) :=
  let! d := g (dat A) in Ok (mkCs (major A) (minor A) (ptr A) (idx A) d).
(** multiply.rs L905 *)
Definition coo_with (g : list F -> res (list F)) (A : Coo F) : res (Coo F) :=
  let! d := g (coo_data A) in Ok (mkCoo (coo_nrows A) (coo_ncols A) (coo_row A) (coo_col A) d).
(** multiply.rs L768 *)
Definition nd_with (g : list F -> res (list F)) (A : Nd F) : res (Nd F) :=
  let! d := g (nd_dat A) in Ok (mkNd (nd_shape A) (nd_idx A) d).

(** multiply.rs L923 / L786 / L855 / L720 *)
Definition mul_scalar_csr (alpha : F) (A : Csr F) : res (Csr F) := cs_with (mul_scalar_data alpha) A.
(** multiply.rs L786-L838 *)
Definition mul_scalar_csc (alpha : F) (A : Csc F) : res (Csc F) := cs_with (mul_scalar_data alpha) A.
(** multiply.rs L855-L906 *)
Definition mul_scalar_coo (alpha : F) (A : Coo F) : res (Coo F) := coo_with (mul_scalar_data alpha) A.
(** multiply.rs L720-L769 *)
Definition mul_scalar_coond (alpha : F) (A : Nd F) : res (Nd F) := nd_with (mul_scalar_data alpha) A.
(** abs.rs L19 / L66 / L112 / L157 *)
Definition abs_csr (A : Csr F) : res (Csr F) := cs_with abs_data A.
(** abs.rs L66-L109 *)
Definition abs_csc (A : Csc F) : res (Csc F) := cs_with abs_data A.
(** abs.rs L113-L156 *)
Definition abs_coo (A : Coo F) : res (Coo F) := coo_with abs_data A.
(** abs.rs L160-L201 *)
Definition abs_coond (A : Nd F) : res (Nd F) := nd_with abs_data A.
(** sign.rs L28 / L41 / L54 / L67 *)
Definition sign_csr (A : Csr F) : res (Csr F) := cs_with sign_data A.
(** sign.rs L41-L50 *)
Definition sign_csc (A : Csc F) : res (Csc F) := cs_with sign_data A.
(** sign.rs L54-L63 *)
Definition sign_coo (A : Coo F) : res (Coo F) := coo_with sign_data A.
(** sign.rs L67-L76 *)
Definition sign_coond (A : Nd F) : res (Nd F) := nd_with sign_data A.
(** power.rs L281 / L294 / L307 / L320 *)
Definition pow_scalar_csr (alpha : F) (A : Csr F) : res (Csr F) := cs_with (pow_scalar_data alpha) A.
(** power.rs L294-L303 *)
Definition pow_scalar_csc (alpha : F) (A : Csc F) : res (Csc F) := cs_with (pow_scalar_data alpha) A.
(** power.rs L307-L316 *)
Definition pow_scalar_coo (alpha : F) (A : Coo F) : res (Coo F) := coo_with (pow_scalar_data alpha) A.
(** power.rs L320-L329 *)
Definition pow_scalar_coond (alpha : F) (A : Nd F) : res (Nd F) := nd_with (pow_scalar_data alpha) A.
(** remainder.rs L287 / L301 / L315 / L329 *)
Definition rem_scalar_csr (alpha : F) (A : Csr F) : res (Csr F) := cs_with (rem_scalar_data alpha) A.
(** remainder.rs L301-L311 *)
Definition rem_scalar_csc (alpha : F) (A : Csc F) : res (Csc F) := cs_with (rem_scalar_data alpha) A.
(** remainder.rs L315-L325 *)
Definition rem_scalar_coo (alpha : F) (A : Coo F) : res (Coo F) := coo_with (rem_scalar_data alpha) A.
(** remainder.rs L329-L339 *)
Definition rem_scalar_coond (alpha : F) (A : Nd F) : res (Nd F) := nd_with (rem_scalar_data alpha) A.
(** floor_divide.rs L296 / L310 / L323 / L336 *)
Definition floordiv_scalar_csr (alpha : F) (A : Csr F) : res (Csr F) := cs_with (floordiv_scalar_data alpha) A.
(** floor_divide.rs L310-L319 *)
Definition floordiv_scalar_csc (alpha : F) (A : Csc F) : res (Csc F) := cs_with (floordiv_scalar_data alpha) A.
(** floor_divide.rs L323-L332 *)
Definition floordiv_scalar_coo (alpha : F) (A : Coo F) : res (Coo F) := coo_with (floordiv_scalar_data alpha) A.
(** floor_divide.rs L336-L345 *)
Definition floordiv_scalar_coond (alpha : F) (A : Nd F) : res (Nd F) := nd_with (floordiv_scalar_data alpha) A.

(** ** Pruning *)

(** [v.abs() > eps]
    prune.rs L46-L61, L80 *)
Definition significant (eps v : F) : bool := fltb eps (fabs v).
(** [if v.abs() > eps { retained += 1 }], prune.rs L46-L63 *)
Definition tick (b : bool) (n : nat) : nat := if b then S n else n.

(** prune.rs L40-L59: four values per step, read through a raw pointer. *)
Fixpoint count4_loop (fuel : nat) (eps : F) (vals : list F) (limit4 off cnt : nat) : res (nat * nat) :=
  if (off <? limit4)%nat then
    match fuel with
    | O => Diverge
    | S fuel' =>
        let! v0 := get_unchecked vals off in
        let! v1 := get_unchecked vals (off + 1) in
        let! v2 := get_unchecked vals (off + 2) in
        let! v3 := get_unchecked vals (off + 3) in
        let cnt := tick (significant eps v0) cnt in
        let cnt := tick (significant eps v1) cnt in
        let cnt := tick (significant eps v2) cnt in
        let cnt := tick (significant eps v3) cnt in
        count4_loop fuel' eps vals limit4 (off + 4) cnt
    end
  else Ok (off, cnt).
(** prune.rs L60-L65 *)
Fixpoint count1_loop (fuel : nat) (eps : F) (vals : list F) (off cnt : nat) : res nat :=
  if (off <? length vals)%nat then
    match fuel with
    | O => Diverge
    | S fuel' =>
        let! v := get_checked vals off in
        count1_loop fuel' eps vals (off + 1) (tick (significant eps v) cnt)
    end
  else Ok cnt.
(** [count_significant], prune.rs L36-L67 *)
Definition count_significant (eps : F) (vals : list F) : res nat :=
  let! (off, cnt) := count4_loop (length vals) eps vals (and_not3 (length vals)) 0 0 in
  count1_loop (length vals) eps vals off cnt.

(** The entries [copy_significant_entries] writes (prune.rs L71-L86; the parallel
    path inlines it, L312-L322), in order. *)
Definition copy_significant (eps : F) (r : list (Z * F)) : list (Z * F) :=
  filter (fun e => significant eps (snd e)) r.

(** prune.rs L36-L67 on one slice *)
Definition prune_count (eps : F) (A : Cs F) (i : nat) : res nat :=
  let! r := get_row_checked A i in count_significant eps (map snd r).
(** prune.rs L71-L86 on one slice *)
Definition prune_fill (get : Cs F -> nat -> res (list (Z * F))) (eps : F) (A : Cs F) (i : nat)
    : res (list (Z * F)) :=
  let! r := get A i in Ok (copy_significant eps r).

(** [prune_eps] (prune.rs L235-L326) and [prune_eps_csc] (L118-L209). In the small
    path the writes are sequential and bounds-checked; the model reads a write
    outside the array as [UB] there too (the theorems exclude both). [par_iter().any]
    is [existsb]. The loops run over [indptr.windows(2)], that is over all slices
    when [indptr] has length major + 1. *)
Definition prune_cs (sch : list (nat * (Z * F)) -> list (nat * (Z * F))) (eps : F) (A : Cs F) : res (Cs F) :=
  if fltb eps f0 then Ok A
  else if feqb eps f0 && negb (existsb (fun v => feqb v f0) (dat A)) then Ok A
  else if Z.of_nat (length (dat A)) <? 16384 then
    two_pass (fun ws => ws) (major A) (minor A) (prune_count eps A) (prune_fill get_row_checked eps A)
  else
    two_pass sch (major A) (minor A) (prune_count eps A) (prune_fill get_row eps A).

(** prune.rs L235, L118 *)
Definition prune_csr sch eps (A : Csr F) : res (Csr F) := prune_cs sch eps A.
(** utility/prune.rs L118-L209 *)
Definition prune_csc sch eps (A : Csc F) : res (Csc F) := prune_cs sch eps A.

(** prune.rs L214-L230 *)
Definition prune_coo (eps : F) (A : Coo F) : res (Coo F) :=
  if fltb eps f0 then Ok A
  else
    let! es := mapM (fun k =>
        let! v := get_checked (coo_data A) k in
        if significant eps v then
          let! i := get_checked (coo_row A) k in
          let! j := get_checked (coo_col A) k in
          Ok [((i, j), v)]
        else Ok []) (seq 0 (length (coo_data A))) in
    let es := concat es in
    Ok (mkCoo (coo_nrows A) (coo_ncols A) (map (fun e => fst (fst e)) es)
          (map (fun e => snd (fst e)) es) (map snd es)).

(** Coordinates of entry [k]: [indices[k * ndim + d]] for [d] in [0..ndim]. *)
Definition nd_key_checked (A : Nd F) (k : nat) : res (list Z) :=
  let ndim := length (nd_shape A) in
  mapM (fun d => get_checked (nd_idx A) (k * ndim + d)) (seq 0 ndim).

(** prune.rs L91-L113 *)
Definition prune_coond (eps : F) (A : Nd F) : res (Nd F) :=
  if fltb eps f0 then Ok A
  else if (length (nd_dat A) =? 0)%nat then Ok A
  else
    let! es := mapM (fun k =>
        let! v := get_checked (nd_dat A) k in
        if significant eps v then
          let! key := nd_key_checked A k in Ok [(key, v)]
        else Ok []) (seq 0 (length (nd_dat A))) in
    let es := concat es in
    Ok (mkNd (nd_shape A) (concat (map fst es)) (map snd es)).

(** eliminate_zeros.rs L7-L24 *)
Definition eliminate_zeros_csr sch (A : Csr F) : res (Csr F) := prune_csr sch f0 A.
(** eliminate_zeros.rs L22-L24 *)
Definition eliminate_zeros_csc sch (A : Csc F) : res (Csc F) := prune_csc sch f0 A.
(** eliminate_zeros.rs L12-L14 *)
Definition eliminate_zeros_coo (A : Coo F) : res (Coo F) := prune_coo f0 A.
(** eliminate_zeros.rs L17-L19 *)
Definition eliminate_zeros_coond (A : Nd F) : res (Nd F) := prune_coond f0 A.

End Scalar.
