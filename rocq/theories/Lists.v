(** List lemmas shared by the proofs. *)
Require Import List ZArith Bool Permutation Lia Arith.
Require Import ZifyBool ZifyNat.
Require Import Verif.Res Verif.Spec Verif.Mem.
Import ListNotations.

Ltac inv H := inversion H; subst; clear H.

(** ** Updating *)
Lemma upd_length : forall {A} (l : list A) n a, length (upd l n a) = length l.
Proof. induction l; destruct n; simpl; auto. Qed.

Lemma nth_error_upd_eq : forall {A} (l : list A) n a, n < length l -> nth_error (upd l n a) n = Some a.
Proof. induction l; destruct n; simpl; intros; try lia; auto. apply IHl. lia. Qed.

Lemma nth_error_upd_neq : forall {A} (l : list A) n m a, n <> m -> nth_error (upd l n a) m = nth_error l m.
Proof.
  induction l; destruct n, m; simpl; intros; try congruence; auto.
Qed.

Lemma nth_upd : forall {A} (l : list A) n m a d, n < length l ->
  nth m (upd l n a) d = if n =? m then a else nth m l d.
Proof.
  induction l; destruct n, m; simpl; intros; try lia; auto.
  apply IHl. lia.
Qed.

Lemma nth_error_ext : forall {A} (l l' : list A),
  (forall n, nth_error l n = nth_error l' n) -> l = l'.
Proof.
  induction l; destruct l'; intros H; auto.
  - specialize (H 0); discriminate.
  - specialize (H 0); discriminate.
  - f_equal. + specialize (H 0). simpl in H. congruence.
    + apply IHl. intros n. exact (H (S n)).
Qed.

Lemma nth_error_lt : forall {A} (l : list A) n a, nth_error l n = Some a -> n < length l.
Proof. intros. apply nth_error_Some. congruence. Qed.

Lemma nth_error_nth_iff : forall {A} (l : list A) n d a,
  nth_error l n = Some a <-> (n < length l /\ nth n l d = a).
Proof.
  intros. split.
  - intros H. split. + apply nth_error_Some. congruence. + apply nth_error_nth; auto.
  - intros [H <-]. apply nth_error_nth'; auto.
Qed.

(** ** Writing into an output array whose slots start uninitialised. *)
Lemma foldM_write : forall {A} (ws : list (nat * A)) mem,
  NoDup (map fst ws) -> Forall (fun w => fst w < length mem) ws ->
  exists mem', foldM write ws mem = Ok mem' /\ length mem' = length mem /\
    (forall n v, In (n, v) ws -> nth_error mem' n = Some (Some v)) /\
    (forall n, ~ In n (map fst ws) -> nth_error mem' n = nth_error mem n).
Proof.
  induction ws as [|[p x] ws IH]; intros mem ND FA; simpl in *.
  - exists mem. repeat split; auto. intros n v [].
  - inv ND. inv FA. unfold write at 1; simpl in *.
    destruct (Nat.ltb_spec p (length mem)); [simpl|lia].
    destruct (IH (upd mem p (Some x))) as (m' & R & L & P1 & P2); auto.
    { eapply Forall_impl; [|eauto]. intros w Hw. rewrite upd_length. exact Hw. }
    rewrite upd_length in L.
    exists m'. repeat split; auto.
    + intros n v [E|I].
      * inv E. rewrite P2 by auto. apply nth_error_upd_eq; auto.
      * eauto.
    + intros n N. rewrite P2 by tauto. apply nth_error_upd_neq. tauto.
Qed.

Lemma finish_map : forall {A} (l : list A), finish (map Some l) = Ok l.
Proof. induction l; simpl; auto. rewrite IHl. auto. Qed.

Lemma combine_seq_map_fst : forall {A} (l : list A) s, map fst (combine (seq s (length l)) l) = seq s (length l).
Proof. induction l; simpl; intros; f_equal; auto. Qed.

Lemma combine_seq_In : forall {A} (l : list A) s n v,
  In (n, v) (combine (seq s (length l)) l) <-> (s <= n /\ nth_error l (n - s) = Some v).
Proof.
  induction l; simpl; intros.
  - split; [tauto|]. intros [_ H]. destruct (n - s); discriminate.
  - split.
    + intros [E|I].
      * inv E. rewrite Nat.sub_diag. split; auto.
      * apply IHl in I. destruct I as [L E]. split; [lia|].
        replace (n - s) with (S (n - S s)) by lia. auto.
    + intros [L E]. destruct (Nat.eq_dec n s).
      * subst. rewrite Nat.sub_diag in E. simpl in E. left. congruence.
      * right. apply IHl. split; [lia|]. replace (n - s) with (S (n - S s)) in E by lia. auto.
Qed.

(** Writing every slot of [l] once, in any order, yields [l]. *)
Lemma assemble_perm : forall {A} (l : list A) ws,
  Permutation (combine (seq 0 (length l)) l) ws -> assemble (length l) ws = Ok l.
Proof.
  intros A l ws P. unfold assemble.
  assert (PF : Permutation (seq 0 (length l)) (map fst ws)).
  { rewrite <- (combine_seq_map_fst l 0). apply Permutation_map; auto. }
  destruct (foldM_write ws (repeat None (length l))) as (m & R & L & P1 & P2).
  - eapply Permutation_NoDup; eauto. apply seq_NoDup.
  - apply Forall_forall. intros w I. rewrite repeat_length.
    assert (In (fst w) (seq 0 (length l))).
    { eapply Permutation_in; [symmetry; eauto|]. apply in_map; auto. }
    apply in_seq in H. lia.
  - rewrite R. simpl. rewrite repeat_length in L.
    replace m with (map Some l). apply finish_map.
    apply nth_error_ext. intros n.
    destruct (Nat.lt_ge_cases n (length l)) as [H|H].
    + destruct (nth_error l n) as [v|] eqn:E.
      * rewrite (map_nth_error _ _ _ E). symmetry. apply P1.
        eapply Permutation_in; eauto. apply combine_seq_In. rewrite Nat.sub_0_r. split; [lia|auto].
      * apply nth_error_None in E. lia.
    + rewrite (proj2 (nth_error_None _ _)) by (rewrite map_length; auto).
      symmetry. apply nth_error_None. lia.
Qed.

(** ** foldM / mapM *)
Lemma mapM_ok : forall {A B} (f : A -> res B) g l,
  (forall a, In a l -> f a = Ok (g a)) -> mapM f l = Ok (map g l).
Proof.
  induction l; simpl; intros H; auto.
  rewrite H by auto. simpl. rewrite IHl by auto. auto.
Qed.

Lemma mapM_inv : forall {A B} (f : A -> res B) l r,
  mapM f l = Ok r -> Forall2 (fun a b => f a = Ok b) l r.
Proof.
  induction l; simpl; intros r H.
  - inv H. constructor.
  - destruct (f a) eqn:E; simpl in H; try discriminate.
    destruct (mapM f l) eqn:E2; simpl in H; try discriminate. inv H. constructor; auto.
Qed.

Lemma mapM_ok_Forall2 : forall {A B} (f : A -> res B) l r,
  Forall2 (fun a b => f a = Ok b) l r -> mapM f l = Ok r.
Proof.
  induction 1; simpl; auto. rewrite H. simpl. rewrite IHForall2. auto.
Qed.

Lemma foldM_app : forall {A S} (f : S -> A -> res S) l1 l2 s,
  foldM f (l1 ++ l2) s = (let! s' := foldM f l1 s in foldM f l2 s')%res.
Proof.
  induction l1; simpl; intros; auto. destruct (f s a); simpl; auto.
Qed.

Lemma map_seq_nth : forall {A} (l : list A) d, map (fun i => nth i l d) (seq 0 (length l)) = l.
Proof.
  intros. apply nth_error_ext. intros n.
  destruct (Nat.lt_ge_cases n (length l)).
  - rewrite (map_nth_error (fun i => nth i l d) n (seq 0 (length l)) (d:=n)).
    + symmetry. apply nth_error_nth'; auto.
    + rewrite nth_error_nth' with (d:=0) by (rewrite seq_length; auto). rewrite seq_nth by auto. auto.
  - rewrite !(proj2 (nth_error_None _ _)); auto. rewrite map_length, seq_length; auto.
Qed.

(** ** Prefix sums *)
Lemma psum_length : forall l acc, length (psum acc l) = S (length l).
Proof. induction l; simpl; intros; auto. Qed.

Fixpoint total (l : list nat) : nat := match l with [] => 0 | n :: l' => n + total l' end.

Lemma total_app : forall l l', total (l ++ l') = total l + total l'.
Proof. induction l; simpl; intros; auto. rewrite IHl. lia. Qed.

Lemma nth_psum : forall l acc i, i <= length l -> nth i (psum acc l) 0 = acc + total (firstn i l).
Proof.
  induction l; simpl; intros acc i H.
  - replace i with 0 by lia. simpl. lia.
  - destruct i; simpl; [lia|]. rewrite IHl by lia. lia.
Qed.

Lemma total_length_concat : forall {A} (ls : list (list A)), total (map (@length A) ls) = length (concat ls).
Proof. induction ls; simpl; auto. rewrite app_length. lia. Qed.

(** ** Slices *)
Lemma slice_length : forall {A} s e (l : list A), e <= length l -> length (slice s e l) = e - s.
Proof. intros. unfold slice. rewrite firstn_length, skipn_length. lia. Qed.

Lemma nth_error_firstn' : forall {A} (l : list A) n m, m < n -> nth_error (firstn n l) m = nth_error l m.
Proof.
  induction l; intros; destruct n, m; simpl; try lia; auto. apply IHl. lia.
Qed.

Lemma nth_error_skipn' : forall {A} (l : list A) n m, nth_error (skipn n l) m = nth_error l (n + m).
Proof. induction l; intros; destruct n; simpl; auto. destruct m; auto. Qed.

Lemma nth_error_slice : forall {A} s e (l : list A) k, k < e - s ->
  nth_error (slice s e l) k = nth_error l (s + k).
Proof. intros. unfold slice. rewrite nth_error_firstn' by auto. apply nth_error_skipn'. Qed.

Lemma slice_app_mid : forall {A} (a b c : list A),
  slice (length a) (length a + length b) (a ++ b ++ c) = b.
Proof.
  intros. unfold slice. rewrite skipn_app, skipn_all, Nat.sub_diag. simpl.
  replace (length a + length b - length a) with (length b) by lia.
  rewrite firstn_app, firstn_all, Nat.sub_diag. simpl. apply app_nil_r.
Qed.

Lemma slice_map : forall {A B} (f : A -> B) s e l, slice s e (map f l) = map f (slice s e l).
Proof. intros. unfold slice. rewrite skipn_map, firstn_map. auto. Qed.

Lemma skipn_skipn' : forall {A} (l : list A) a b, skipn a (skipn b l) = skipn (b + a) l.
Proof. induction l; intros; destruct b; simpl; auto. destruct a; auto. Qed.

Lemma slice_split : forall {A} s m e (l : list A), s <= m -> m <= e ->
  slice s e l = slice s m l ++ slice m e l.
Proof.
  intros. unfold slice.
  replace (skipn m l) with (skipn (m - s) (skipn s l)).
  2:{ rewrite skipn_skipn'. f_equal. lia. }
  generalize (skipn s l) as r. intros r.
  replace (e - s) with ((m - s) + (e - m)) by lia.
  generalize (m - s) as u, (e - m) as w. clear.
  induction r; intros; destruct u; simpl; auto.
  - destruct w; auto.
  - f_equal. apply IHr.
Qed.

(** ** combine *)
Lemma combine_split_eq : forall {A B} (l : list (A * B)), combine (map fst l) (map snd l) = l.
Proof. induction l as [|[a b] l IH]; simpl; f_equal; auto. Qed.

Lemma combine_app' : forall {A B} (a a' : list A) (b b' : list B), length a = length b ->
  combine (a ++ a') (b ++ b') = combine a b ++ combine a' b'.
Proof. induction a; destruct b; simpl; intros; try lia; f_equal; auto. Qed.

Lemma map_fst_combine : forall {A B} (a : list A) (b : list B), length a = length b -> map fst (combine a b) = a.
Proof. induction a; destruct b; simpl; intros; try lia; f_equal; auto. Qed.

Lemma map_snd_combine : forall {A B} (a : list A) (b : list B), length a = length b -> map snd (combine a b) = b.
Proof. induction a; destruct b; simpl; intros; try lia; f_equal; auto. Qed.

Lemma nth_error_combine : forall {A B} (a : list A) (b : list B) n x y,
  nth_error (combine a b) n = Some (x, y) <-> nth_error a n = Some x /\ nth_error b n = Some y.
Proof.
  induction a; destruct b; destruct n; simpl; intros; try (split; [congruence|intros [? ?]; congruence]).
  - split; [|intros [? ?]; congruence]. intros H. inv H. auto.
  - apply IHa.
Qed.

(** ** Forall2 / nth *)
Lemma Forall2_length' : forall {A B} (R : A -> B -> Prop) l l', Forall2 R l l' -> length l = length l'.
Proof. induction 1; simpl; auto. Qed.

Lemma Forall2_nth_error : forall {A B} (R : A -> B -> Prop) l l' n a b,
  Forall2 R l l' -> nth_error l n = Some a -> nth_error l' n = Some b -> R a b.
Proof.
  intros A B R l l' n a b H. revert n. induction H; intros [|n]; simpl; intros; try congruence; eauto.
Qed.

Lemma Permutation_concat_map : forall {A B} (f g : A -> list B) l,
  (forall a, In a l -> Permutation (f a) (g a)) -> Permutation (concat (map f l)) (concat (map g l)).
Proof.
  induction l; simpl; intros; auto. apply Permutation_app; auto.
Qed.

Lemma Interleave_perm : forall {A} (ts : list (list A)) tr, Interleave ts tr -> Permutation (concat ts) tr.
Proof.
  induction 1.
  - induction H; simpl; auto. subst. simpl. auto.
  - rewrite concat_app in *. simpl in *. rewrite <- IHInterleave. symmetry.
    apply Permutation_middle.
Qed.

Lemma Permutation_filter : forall {A} (f : A -> bool) l l', Permutation l l' -> Permutation (filter f l) (filter f l').
Proof.
  induction 1; simpl; auto.
  - destruct (f x); auto.
  - destruct (f x), (f y); auto using perm_swap.
  - eauto using Permutation_trans.
Qed.

Lemma mapM_map : forall {A B C} (f : B -> res C) (g : A -> B) l, mapM f (map g l) = mapM (fun a => f (g a)) l.
Proof. induction l; simpl; auto. rewrite IHl. auto. Qed.
