(** [while] loops with a fixed step, used by the unrolled inner loops. *)
Require Import List Arith Lia.
Require Import Verif.Res Verif.Lists.
Import ListNotations.

(** [while c < limit { body; c += w }]; returns the final [c] and state. *)
Fixpoint step_loop {S} (fuel w : nat) (body : nat -> S -> res S) (limit c : nat) (s : S) : res (nat * S) :=
  if (c <? limit)%nat then
    match fuel with
    | O => Diverge
    | S fuel' => let! s := body c s in step_loop fuel' w body limit (c + w) s
    end
  else Ok (c, s).

(** When a group of [w] steps does what [w] single steps do, the loop is a fold. *)
Lemma step_loop_fold : forall {S} (one : S -> nat -> res S) w body limit, (0 < w)%nat ->
  (forall c s, (c + w <= limit)%nat -> body c s = foldM one (seq c w) s) ->
  forall fuel c s, (limit - c <= fuel)%nat -> (c <= limit)%nat -> Nat.divide w (limit - c) ->
  step_loop fuel w body limit c s = (let! s' := foldM one (seq c (limit - c)) s in Ok (limit, s')).
Proof.
  intros S one w body limit W HB. induction fuel; intros c s HF HC [q HQ].
  - cbn [step_loop]. destruct (Nat.ltb_spec c limit); [lia|]. assert (c = limit) by lia. subst. rewrite Nat.sub_diag. auto.
  - cbn [step_loop]. destruct (Nat.ltb_spec c limit).
    + assert (HW : (c + w <= limit)%nat) by (destruct q; [lia|]; simpl in HQ; lia).
      rewrite HB by auto. replace (limit - c)%nat with (w + (limit - (c + w)))%nat by lia.
      rewrite seq_app, foldM_app. destruct (foldM one (seq c w) s); cbn [bind]; auto.
      apply IHfuel; try lia. exists (q - 1)%nat. rewrite Nat.mul_sub_distr_r. lia.
    + assert (c = limit) by lia. subst. rewrite Nat.sub_diag. auto.
Qed.

Lemma step_loop_one : forall {S} (one : S -> nat -> res S) limit fuel c s, (limit - c <= fuel)%nat -> (c <= limit)%nat ->
  step_loop fuel 1 (fun c s => one s c) limit c s = (let! s' := foldM one (seq c (limit - c)) s in Ok (limit, s')).
Proof.
  intros. apply step_loop_fold; auto.
  - intros c0 s0 _. cbn [seq foldM]. destruct (one s0 c0); auto.
  - exists (limit - c)%nat. lia.
Qed.

(** A fold of total steps is a plain fold. *)
Lemma foldM_pure : forall {A S} (f : S -> A -> res S) (g : S -> A -> S) l s,
  (forall s a, In a l -> f s a = Ok (g s a)) -> foldM f l s = Ok (fold_left g l s).
Proof.
  induction l as [|a l IH]; intros s H; auto. cbn [foldM fold_left]. rewrite H by (simpl; auto). cbn [bind].
  apply IH. intros. apply H. simpl. auto.
Qed.
