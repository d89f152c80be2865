(** Model of the accumulator hash map
    (crates/lacuna-kernels/src/utility/util.rs L31-L148). *)
Require Import List ZArith Bool Arith.
Require Import Verif.Res Verif.Values Verif.Spec Verif.Mem.
Import ListNotations.
Local Open Scope Z_scope.

Section Hash.
Context {F : Fl}.

(** util.rs L33-L38. The two arrays [keys] and [vals] have equal length and are
    always accessed at the same index; the model has one list of slots. *)
Record Hm := mkHm { slots : list (Z * F); mask : Z; hlen : Z }.

(** [usize::next_power_of_two]
    util.rs L45 *)
Definition next_pow2 (n : Z) : Z := if n <=? 1 then 1 else 2 ^ Z.log2_up n.

(** util.rs L44-L55 *)
Definition with_capacity (cap : Z) : Hm :=
  let cap2 := Z.max (next_pow2 cap) 16 in
  mkHm (repeat (usize_max, f0) (Z.to_nat cap2)) (cap2 - 1) 0.

(** util.rs L59-L61 *)
Definition hash (key : Z) : Z := (key * 0x9E3779B97F4A7C15) mod 2 ^ 64.

(** indexing [keys[idx]] and [vals[idx]], util.rs L70-L88 *)
Definition zslot (T : list (Z * F)) (i : Z) : res (Z * F) :=
  if i <? 0 then UB else get_unchecked T (Z.to_nat i).

(** The probing loop of [insert_add], util.rs L69-L89: the index where it stops,
    and whether the slot is empty. *)
Fixpoint probe (fuel : nat) (T : list (Z * F)) (msk key i : Z) : res (Z * bool) :=
  match fuel with
  | O => Diverge
  | S fuel' =>
      let! (k, _) := zslot T i in
      if k =? usize_max then Ok (i, true)
      else if k =? key then Ok (i, false)
      else probe fuel' T msk key (Z.land (i + 1) msk)
  end.

(** The probing loop of [grow], util.rs L104-L111 (checked accesses). *)
Fixpoint probe_empty (fuel : nat) (T : list (Z * F)) (msk i : Z) : res Z :=
  match fuel with
  | O => Diverge
  | S fuel' =>
      let! (k, _) := (if i <? 0 then Panic else get_checked T (Z.to_nat i)) in
      if k =? usize_max then Ok i
      else probe_empty fuel' T msk (Z.land (i + 1) msk)
  end.

(** util.rs L94-L117. The fuel of the probing loops is the table size: after that
    many steps every slot has been seen, so running out means looping forever. *)
Definition rehash_one (msk : Z) (T : list (Z * F)) (s : Z * F) : res (list (Z * F)) :=
  if fst s =? usize_max then Ok T
  else
    let! i := probe_empty (length T) T msk (Z.land (hash (fst s)) msk) in
    Ok (upd T (Z.to_nat i) s).
(** util.rs L94-L117 *)
Definition grow (m : Hm) : res Hm :=
  let new_cap := Z.of_nat (length (slots m)) * 2 in
  let new_mask := new_cap - 1 in
  let! T := foldM (rehash_one new_mask) (slots m) (repeat (usize_max, f0) (Z.to_nat new_cap)) in
  Ok (mkHm T new_mask (hlen m)).

(** util.rs L66-L90 *)
Definition insert_add (m : Hm) (kv : Z * F) : res Hm :=
  let (key, val) := kv in
  let! (i, empty) := probe (length (slots m)) (slots m) (mask m) key (Z.land (hash key) (mask m)) in
  if empty : bool then
    let T := upd (slots m) (Z.to_nat i) (key, val) in
    let m' := mkHm T (mask m) (hlen m + 1) in
    if hlen m' * 10 >? Z.of_nat (length T) * 7 then grow m' else Ok m'
  else
    let! (k, old) := zslot (slots m) i in
    Ok (mkHm (upd (slots m) (Z.to_nat i) (k, fadd old val)) (mask m) (hlen m)).

(** util.rs L137-L147 *)
Definition pairs (m : Hm) : list (Z * F) := filter (fun s => negb (fst s =? usize_max)) (slots m).

(** util.rs L121-L132 *)
Definition drain_to (m : Hm) (out : list F) : res (list F) :=
  foldM (fun out s =>
      if fst s =? usize_max then Ok out
      else
        if fst s <? 0 then UB
        else let! v := get_unchecked out (Z.to_nat (fst s)) in
             Ok (upd out (Z.to_nat (fst s)) (fadd v (snd s))))
    (slots m) out.

(** A sequence of insertions into a new map.
    e.g. elementwise/add.rs L393-L417 *)
Definition accumulate (cap : Z) (ops : list (Z * F)) : res Hm := foldM insert_add ops (with_capacity cap).

End Hash.
Arguments Hm F : clear implicits.
