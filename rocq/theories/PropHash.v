(** C19: the accumulator hash map. Stated for every arithmetic [F], in particular
    for [f64 pw]: no law of addition is used. *)
Require Import List ZArith Bool Lia Permutation Arith.
Require Import Verif.Res Verif.Values Verif.Spec Verif.Mem Verif.Lists Verif.PConvert Verif.MHash Verif.PHash Verif.Witness.
Import ListNotations.
Local Open Scope Z_scope.

Definition usable_key (k : Z) : Prop := 0 <= k < usize_max.

(** Any sequence of insertions, from any requested capacity, terminates without
    a panic or an access outside the table; every inserted key is listed exactly
    once, no other key is, and its value is the left-to-right sum of the values
    inserted for it. *)
Theorem C19_hash_map_sums_by_key : forall (F : Fl) cap (ops : list (Z * F)),
  Forall (fun e => usable_key (fst e)) ops ->
  exists m, accumulate cap ops = Ok m /\
    NoDup (map fst (pairs m)) /\
    (forall k, In k (map fst (pairs m)) <-> In k (map fst ops)) /\
    (forall k, at_index k (pairs m) = left_sum (at_index k ops)).
Proof.
  intros F cap ops FA. destruct (accumulate_ok cap ops) as (m & E & OK & TA).
  { eapply Forall_impl; [|exact FA]. unfold usable_key. intros; lia. }
  exists m. split; auto. pose proof TA as [ND AT]. split; auto. split; auto.
  intros k. apply (tally_keys ops); auto.
Qed.
Print Assumptions C19_hash_map_sums_by_key.

(** Draining adds each key's sum to the output cell of that index and leaves
    every other cell as it was. *)
Theorem C19_drain_to : forall (F : Fl) cap (ops : list (Z * F)) out,
  Forall (fun e => 0 <= fst e < Z.of_nat (length out)) ops -> Z.of_nat (length out) <= usize_max ->
  exists m out', accumulate cap ops = Ok m /\ drain_to m out = Ok out' /\ length out' = length out /\
    forall n, (n < length out)%nat ->
      nth n out' f0 = match left_sum (at_index (Z.of_nat n) ops) with
                      | [] => nth n out f0
                      | s :: _ => fadd (nth n out f0) s
                      end.
Proof.
  intros F cap ops out FA LO. destruct (accumulate_ok cap ops) as (m & E & OK & TA).
  { eapply Forall_impl; [|exact FA]. intros; simpl in *; lia. }
  pose proof TA as [ND AT].
  destruct (drain_slots (slots m) out ND) as (out' & E' & L' & A').
  { apply Forall_forall. intros s I.
    assert (I' : In (fst s) (map fst ops)) by (apply (tally_keys ops (pairs m)); auto; apply in_map; exact I).
    apply in_map_iff in I'. destruct I' as (e & Ee & Ie). rewrite Forall_forall in FA. rewrite <- Ee. apply FA; auto. }
  exists m, out'. split; auto. split; [exact E'|]. split; auto. intros n Hn. rewrite A' by auto.
  rewrite <- AT. reflexivity.
Qed.
Print Assumptions C19_drain_to.

(** The key [usize::MAX] is the empty-slot marker: a value stored under it is lost. *)
Theorem C19_max_key_lost :
  exists m, accumulate (F := f64 pw0) 16 [(usize_max, fz 5)] = Ok m /\ pairs m = [].
Proof.
  assert (E : match accumulate (F := f64 pw0) 16 [(usize_max, fz 5)] with Ok m => length (pairs m) | _ => 1%nat end = 0%nat)
    by (vm_compute; reflexivity).
  destruct (accumulate 16 [(usize_max, fz 5)]) as [m| | |]; try discriminate.
  exists m. split; auto. destruct (pairs m); auto. discriminate.
Qed.
Print Assumptions C19_max_key_lost.

(** Forty insertions of 13 distinct keys make a 16-slot map grow to 32 slots; keys
    that collide are kept apart and the sums are right. *)
Definition hash_ops : list (Z * f64 pw0) := map (fun n => (Z.of_nat n mod 13 * 16, fz (Z.of_nat n))) (seq 0 40).
Example C19_witness :
  Forall (fun e => usable_key (fst e)) hash_ops /\
  (match accumulate 3 hash_ops with
   | Ok m => (length (slots m) =? 32)%nat && (length (pairs m) =? 13)%nat &&
             forallb (fun e => feqb (snd e) (fold_left fadd (at_index (fst e) hash_ops) (fz 0))) (pairs m)
   | _ => false
   end) = true.
Proof.
  split; [|vm_compute; reflexivity].
  apply Forall_forall. intros e I. apply in_map_iff in I. destruct I as (n & <- & _). cbn [fst].
  unfold usable_key. pose proof (Z.mod_pos_bound (Z.of_nat n) 13 ltac:(lia)).
  assert (1000 < usize_max) by reflexivity. lia.
Qed.
