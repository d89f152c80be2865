(** Lemmas about N-dimensional coordinate arrays. *)
Require Import List ZArith Bool Lia Permutation.
Require Import Verif.Res Verif.Values Verif.Spec Verif.Mem Verif.Lists Verif.PCore.
Import ListNotations.
Local Open Scope Z_scope.

(** The array holding the given entries. *)
Definition nd_of {V} (shape : list Z) (l : list (list Z * V)) : Nd V :=
  mkNd shape (concat (map fst l)) (map snd l).

Lemma chunks_concat : forall {A} d (ls : list (list A)),
  Forall (fun l => length l = d) ls -> chunks d (length ls) (concat ls) = ls.
Proof.
  induction ls as [|l ls IH]; simpl; intros H; auto. inv H.
  rewrite firstn_app, Nat.sub_diag, firstn_all. simpl. rewrite app_nil_r.
  rewrite skipn_app, Nat.sub_diag, skipn_all. simpl. rewrite IH by auto. auto.
Qed.

Lemma concat_chunks : forall {A} d n (l : list A), length l = (n * d)%nat -> concat (chunks d n l) = l.
Proof.
  induction n; simpl; intros l H.
  - destruct l; auto. discriminate.
  - rewrite IHn by (rewrite skipn_length; lia). apply firstn_skipn.
Qed.

Lemma nd_keys_length : forall {V} (A : Nd V), length (nd_keys A) = length (nd_dat A).
Proof. intros. apply chunks_length. Qed.

Lemma nd_entries_length : forall {V} (A : Nd V), length (nd_entries A) = length (nd_dat A).
Proof. intros. unfold nd_entries. rewrite combine_length, nd_keys_length. lia. Qed.

Lemma nd_of_entries : forall {V} sh (l : list (list Z * V)),
  Forall (fun e => length (fst e) = length sh) l -> nd_entries (nd_of sh l) = l.
Proof.
  intros V sh l H. unfold nd_entries, nd_keys, nd_of. cbn [nd_shape nd_idx nd_dat].
  replace (length (map snd l)) with (length (map fst l)) by (rewrite !map_length; auto).
  rewrite chunks_concat.
  - apply combine_split_eq.
  - rewrite Forall_map. exact H.
Qed.

Lemma in_shape_length : forall sh k, in_shape sh k -> length k = length sh.
Proof. intros. eapply Forall2_length'; eauto. Qed.

Lemma nd_of_ok : forall {V} sh (l : list (list Z * V)), sh <> [] ->
  Forall (fun e => in_shape sh (fst e)) l -> nd_ok (nd_of sh l).
Proof.
  intros V sh l N H.
  assert (H' : Forall (fun e => length (fst e) = length sh) l).
  { eapply Forall_impl; [|exact H]. intros. apply in_shape_length. auto. }
  constructor; cbn [nd_shape nd_idx nd_dat nd_of]; auto.
  - clear -H'. induction H'; simpl; auto. rewrite app_length, IHH'. lia.
  - unfold nd_keys, nd_of. cbn [nd_shape nd_idx nd_dat].
    replace (length (map snd l)) with (length (map fst l)) by (rewrite !map_length; auto).
    rewrite chunks_concat; rewrite Forall_map; auto.
Qed.

Lemma nd_entries_keys : forall {V} (A : Nd V), map fst (nd_entries A) = nd_keys A.
Proof. intros. apply map_fst_combine. apply nd_keys_length. Qed.
Lemma nd_entries_vals : forall {V} (A : Nd V), map snd (nd_entries A) = nd_dat A.
Proof. intros. apply map_snd_combine. apply nd_keys_length. Qed.

Lemma nd_entries_ok : forall {V} (A : Nd V), nd_ok A -> Forall (fun e => in_shape (nd_shape A) (fst e)) (nd_entries A).
Proof. intros V A OK. rewrite <- Forall_map, nd_entries_keys. apply (nd_bound _ OK). Qed.

Lemma nd_of_nd_entries : forall {V} (A : Nd V), nd_ok A -> nd_of (nd_shape A) (nd_entries A) = A.
Proof.
  intros V A OK. unfold nd_of. rewrite nd_entries_keys, nd_entries_vals. unfold nd_keys.
  rewrite concat_chunks by apply (nd_len _ OK). destruct A; auto.
Qed.

(** Reading the coordinates of entry [k] one by one. *)
Lemma mapM_seq_slice : forall {A} (l : list A) s n,
  (s + n <= length l)%nat -> mapM (fun d => get_checked l (s + d)) (seq 0 n) = Ok (firstn n (skipn s l)).
Proof.
  intros A l s n. revert s. induction n; intros s H; auto.
  cbn [seq]. rewrite <- seq_shift. cbn [mapM]. rewrite Nat.add_0_r.
  unfold get_checked at 1. destruct (nth_error l s) as [x|] eqn:E.
  2:{ apply nth_error_None in E. lia. }
  cbn [bind].
  assert (EM : mapM (fun d => get_checked l (s + d)) (map S (seq 0 n)) = mapM (fun d => get_checked l (S s + d)) (seq 0 n)).
  { generalize (seq 0 n). induction l0; simpl; auto. rewrite IHl0. rewrite Nat.add_succ_r. auto. }
  rewrite EM, IHn by lia. cbn [bind].
  replace (skipn s l) with (x :: skipn (S s) l); auto.
  clear -E. revert s E. induction l; intros [|s]; simpl; intros; try discriminate.
  - inv E. auto.
  - rewrite <- (IHl s); auto. 
Qed.

Lemma at_key_app : forall {V} k (l l' : list (list Z * V)), at_key k (l ++ l') = at_key k l ++ at_key k l'.
Proof. intros. unfold at_key. rewrite filter_app, map_app. auto. Qed.
Lemma at_key_cons : forall {V} k k' v (l : list (list Z * V)),
  at_key k ((k', v) :: l) = if list_eq_dec Z.eq_dec k' k then v :: at_key k l else at_key k l.
Proof. intros. unfold at_key. simpl. destruct (list_eq_dec Z.eq_dec k' k); auto. Qed.
Lemma at_key_perm : forall {V} k (l l' : list (list Z * V)), Permutation l l' -> Permutation (at_key k l) (at_key k l').
Proof. intros. unfold at_key. apply Permutation_map, Permutation_filter. auto. Qed.
