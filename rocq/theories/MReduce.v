(** Models of the reduction patterns shared by the statistical kernels: four-lane
    chunk reductions, rayon's [sum] and [reduce], and striped accumulators whose
    slots start with the first value seen. Cited files are under
    crates/lacuna-kernels/src/statistical. *)
Require Import List ZArith Bool Arith.
Require Import Verif.Res Verif.Values Verif.Spec Verif.Mem Verif.Loops Verif.MScalar Verif.MAcc Verif.MLinalg.
Import ListNotations.
Local Open Scope Z_scope.

Section Lanes.
Context {X A : Type}.

(** A chunk reduced with four lanes and a scalar tail: sum.rs L39-L56,
    minmax.rs L23-L43, L53-L73, prod.rs L29-L45, varstd.rs L33-L56. [lop] is the
    lane-wise vector operation, [mrg] combines the four lanes left to right, [top]
    handles the remaining elements. *)
Definition lane_reduce (init : A) (lop : A -> X -> A) (mrg : A -> A -> A) (top : A -> X -> A) (chunk : list X) : res A :=
  let n := length chunk in
  let! (i, (a0, a1, a2, a3)) := step_loop n 4 (fun i '(a0, a1, a2, a3) =>
      let! v0 := get_unchecked chunk i in
      let! v1 := get_unchecked chunk (i + 1) in
      let! v2 := get_unchecked chunk (i + 2) in
      let! v3 := get_unchecked chunk (i + 3) in
      Ok (lop a0 v0, lop a1 v1, lop a2 v2, lop a3 v3)) (and_not 3 n) 0 (init, init, init, init) in
  let! (_, acc) := step_loop n 1 (fun i acc => let! x := get_checked chunk i in Ok (top acc x)) n i
      (mrg (mrg (mrg a0 a1) a2) a3) in
  Ok acc.

(** How rayon split a parallel iterator: run the rest sequentially, or cut after
    [k] items and join.
    every [par_chunks(4096)] reduction, e.g. sum.rs L36-L58 *)
Inductive Split := Whole | At (k : nat) (l r : Split).

(** e.g. sum.rs L36-L58 *)
Fixpoint tree_reduce (leaf : list A -> A) (node : A -> A -> A) (t : Split) (xs : list A) : A :=
  match t with
  | Whole => leaf xs
  | At k l r => node (tree_reduce leaf node l (firstn k xs)) (tree_reduce leaf node r (skipn k xs))
  end.

(** [data.par_chunks(4096).map(chunkf)] reduced along [t]. *)
Definition par_reduce (chunkf : list X -> res A) (leaf : list A -> A) (node : A -> A -> A) (t : Split) (data : list X) : res A :=
  let! cs := par_chunks chunk_size data in
  let! vs := mapM chunkf cs in
  Ok (tree_reduce leaf node t vs).

(** ** Striped accumulators that store the first value of a slot and combine later
    ones: minmax.rs L359-L387, prod.rs L203-L229, varstd.rs L265-L300. *)
Record Gs := mkGs { gvals : list A; gseen : list bool; gtouched : list nat }.
(** minmax.rs L373-L374 *)
Definition gs_new (d : A) (n : nat) : Gs := mkGs (repeat d n) (repeat false n) [].

(** minmax.rs L377-L385 *)
Definition gs_add (first : X -> A) (step : A -> X -> A) (g : Gs) (op : nat * X) : res Gs :=
  let! s := get_checked (gseen g) (fst op) in
  let! v := get_checked (gvals g) (fst op) in
  if s : bool then Ok (mkGs (upd (gvals g) (fst op) (step v (snd op))) (gseen g) (gtouched g))
  else Ok (mkGs (upd (gvals g) (fst op) (first (snd op))) (upd (gseen g) (fst op) true) (gtouched g ++ [fst op])).

(** minmax.rs L368-L385 *)
Definition gst_add (d : A) first step (stripe n : nat) (accs : list (option Gs)) (op : Z * X) : res (list (option Gs)) :=
  let i := Z.to_nat (fst op) in
  let sid := (i / stripe)%nat in
  let base := (sid * stripe)%nat in
  let! o := get_checked accs sid in
  let g := match o with Some g => g | None => gs_new d (Nat.min (n - base) stripe) end in
  let! g := gs_add first step g ((i - base)%nat, snd op) in
  Ok (upd accs sid (Some g)).

(** minmax.rs L365-L386 *)
Definition gst_run d first step (stripe n : nat) (l : list (Z * X)) : res (list (option Gs)) :=
  foldM (gst_add d first step stripe n) l (repeat None (div_ceil n stripe)).

(** The merge, minmax.rs L390-L406 and similar: threads one after the other,
    stripes in order, touched offsets in the order of their first touch. [put] is
    the update of the result for one (index, value). *)
Definition gst_merge {S} (put : S -> nat * A -> res S) (stripe : nat) (cells : list (list (option Gs))) (s : S) : res S :=
  foldM (fun s accs =>
    foldM (fun s so =>
      match snd so with
      | None => Ok s
      | Some g => foldM (fun s off => let! v := get_checked (gvals g) off in put s ((fst so * stripe + off)%nat, v)) (gtouched g) s
      end) (combine (seq 0 (length accs)) accs) s) cells s.

(** The whole pattern: [dist tasks] as in MAcc.
    minmax.rs L359-L406 *)
Definition tls_first {S} d first step (put : S -> nat * A -> res S) (stripe n : nat)
    (dist : list (list (Z * X)) -> list (list (list (Z * X)))) (tasks : list (list (Z * X))) (s : S) : res S :=
  let! cells := mapM (fun ts => gst_run d first step stripe n (concat ts)) (dist tasks) in
  gst_merge put stripe cells s.

(** [if seen[idx] == 0 { seen[idx] = 1; out[idx] = v } else { out[idx] = mrg out[idx] v }] *)
Definition put_seen (mrg : A -> A -> A) (s : list A * list bool) (op : nat * A) : res (list A * list bool) :=
  let (out, seen) := s in
  let! b := get_checked seen (fst op) in
  let! o := get_checked out (fst op) in
  if b : bool then Ok (upd out (fst op) (mrg o (snd op)), seen)
  else Ok (upd out (fst op) (snd op), upd seen (fst op) true).

(** [out[idx] = add out[idx] v], varstd.rs L303-L315 *)
Definition put_add (add : A -> A -> A) (out : list A) (op : nat * A) : res (list A) :=
  let! o := get_checked out (fst op) in Ok (upd out (fst op) (add o (snd op))).

End Lanes.
Arguments Gs A : clear implicits.

(** Occurrences of every index below [n]: minmax.rs L354-L358 and similar. *)
Definition count_index (n : nat) (l : list Z) : res (list nat) :=
  foldM (fun c z =>
    let i := Z.to_nat (to_usize z) in
    let! k := get_checked c i in Ok (upd c i (S k))) l (repeat 0%nat n).

(** [&data[indptr[i]..indptr[i+1]]], a checked slice of the values. *)
Definition data_slice {V} (A : Cs V) (i : nat) : res (list V) :=
  let! s := get_checked (ptr A) i in
  let! e := get_checked (ptr A) (S i) in
  let s := to_usize s in let e := to_usize e in
  if (s <=? e) && (e <=? Z.of_nat (length (dat A))) then Ok (slice (Z.to_nat s) (Z.to_nat e) (dat A)) else Panic.
