(** Lemmas for conversions and transposes. *)
Require Import List ZArith Bool Lia Permutation Sorted Arith.
Require Import Verif.Res Verif.Values Verif.Spec Verif.Mem Verif.Lists Verif.CsLib Verif.MConvert.
Import ListNotations.
Local Open Scope nat_scope.

Ltac inv H := inversion H; subst; clear H.

(** ** Bags of buckets *)
Section Buckets.
Context {W : Type}.
Implicit Types tr : list (Z * W).

Definition keys_in (n : nat) (keys : list Z) : Prop := Forall (fun k => (0 <= k < Z.of_nat n)%Z) keys.

Lemma concat_map_bump : forall {A B} (eqd : forall x y : A, {x = y} + {x <> y}) (g g' : A -> list B) x j0 l,
  NoDup l -> In j0 l -> g j0 = x :: g' j0 -> (forall j, In j l -> j <> j0 -> g j = g' j) ->
  Permutation (concat (map g l)) (x :: concat (map g' l)).
Proof.
  induction l as [|a l IH]; intros ND I E H; [easy|]. inv ND. simpl.
  destruct (eqd a j0) as [->|N].
  - rewrite E. simpl. constructor. apply Permutation_app_head.
    replace (map g l) with (map g' l); auto. apply map_ext_in. intros j Ij. symmetry. apply H; simpl; auto.
    intros ->. auto.
  - destruct I as [I|I]; [congruence|]. rewrite (H a) by (simpl; auto).
    rewrite IH; auto. 2:{ intros. apply H; simpl; auto. }
    rewrite Permutation_middle. auto.
Qed.

Lemma at_index_cons' : forall j k (w : W) tr,
  at_index j ((k, w) :: tr) = if (k =? j)%Z then w :: at_index j tr else at_index j tr.
Proof. intros. unfold at_index. simpl. destruct (k =? j)%Z; auto. Qed.

Lemma at_index_app' : forall j tr tr', at_index j (tr ++ tr') = at_index j tr ++ at_index j tr'.
Proof. intros. unfold at_index. rewrite filter_app, map_app. auto. Qed.

Lemma at_index_perm : forall j tr tr', Permutation tr tr' -> Permutation (at_index j tr) (at_index j tr').
Proof. intros. unfold at_index. apply Permutation_map. apply Permutation_filter. auto. Qed.

Lemma at_index_In : forall j w tr, In w (at_index j tr) <-> In (j, w) tr.
Proof.
  intros. unfold at_index. rewrite in_map_iff. split.
  - intros ((k & w') & E & I). simpl in E. subst w'. apply filter_In in I. destruct I as [I E]. simpl in E.
    apply Z.eqb_eq in E. subst. auto.
  - intros I. exists (j, w). split; auto. apply filter_In. split; auto. simpl. apply Z.eqb_refl.
Qed.

Definition buckets (n : nat) tr : list (list W) := map (fun j => at_index (Z.of_nat j) tr) (seq 0 n).

Lemma buckets_length : forall n tr, length (buckets n tr) = n.
Proof. intros. unfold buckets. rewrite map_length, seq_length. auto. Qed.

Lemma nth_buckets : forall n tr j d, j < n -> nth j (buckets n tr) d = at_index (Z.of_nat j) tr.
Proof.
  intros. unfold buckets. rewrite nth_indep with (d' := at_index (Z.of_nat 0) tr).
  2:{ rewrite map_length, seq_length. auto. }
  rewrite (map_nth (fun j => at_index (Z.of_nat j) tr)). rewrite seq_nth; auto.
Qed.

Lemma buckets_perm : forall n tr, keys_in n (map fst tr) -> Permutation (concat (buckets n tr)) (map snd tr).
Proof.
  induction tr as [|[k w] tr IH]; intros H.
  - unfold buckets. simpl. replace (concat (map (fun j => at_index (Z.of_nat j) (@nil (Z*W))) (seq 0 n))) with (@nil W); auto.
    generalize (seq 0 n). induction l; simpl; auto.
  - inv H. simpl in *. etransitivity.
    { apply (concat_map_bump Nat.eq_dec (fun j => at_index (Z.of_nat j) ((k, w) :: tr))
        (fun j => at_index (Z.of_nat j) tr) w (Z.to_nat k)).
      - apply seq_NoDup.
      - apply in_seq. lia.
      - rewrite at_index_cons'. rewrite Z2Nat.id by lia. rewrite Z.eqb_refl. auto.
      - intros. rewrite at_index_cons'. destruct (Z.eqb_spec k (Z.of_nat j)); auto. lia. }
    constructor. apply IH; auto.
Qed.

Lemma buckets_total : forall n tr, keys_in n (map fst tr) -> length (concat (buckets n tr)) = length tr.
Proof. intros. rewrite (Permutation_length (buckets_perm n tr H)). apply map_length. Qed.

(** ** Counting *)
Definition cnt (j : Z) (keys : list Z) : nat := length (filter (fun k => (k =? j)%Z) keys).

Lemma cnt_at_index : forall j tr, cnt j (map fst tr) = length (at_index j tr).
Proof.
  intros. unfold cnt, at_index. rewrite map_length. induction tr as [|[k w] tr IH]; simpl; auto.
  destruct (k =? j)%Z; simpl; auto.
Qed.

Lemma cnt_perm : forall j ks ks', Permutation ks ks' -> cnt j ks = cnt j ks'.
Proof. intros. unfold cnt. apply Permutation_length. apply Permutation_filter. auto. Qed.

Lemma foldM_bump : forall keys c (b : list nat -> Z -> res (list nat)),
  (forall c k, (0 <= k < Z.of_nat (length c))%Z -> b c k = Ok (upd c (Z.to_nat k) (S (nth (Z.to_nat k) c 0)))) ->
  keys_in (length c) keys ->
  foldM b keys c = Ok (map (fun j => nth j c 0 + cnt (Z.of_nat j) keys) (seq 0 (length c))).
Proof.
  induction keys as [|k keys IH]; intros c b Hb H.
  - simpl. f_equal. rewrite <- (map_seq_nth c 0) at 1. apply map_ext. intros. unfold cnt. simpl. lia.
  - inv H. simpl. rewrite Hb by auto. simpl. rewrite IH; auto.
    2:{ rewrite upd_length. auto. }
    rewrite upd_length. f_equal. apply map_ext_in. intros j Hj. apply in_seq in Hj.
    rewrite nth_upd by lia. unfold cnt. simpl.
    destruct (Nat.eqb_spec (Z.to_nat k) j); destruct (Z.eqb_spec k (Z.of_nat j)); simpl; try lia. subst j. lia.
Qed.

Lemma bump_ok : forall c k, (0 <= k < Z.of_nat (length c))%Z ->
  bump c k = Ok (upd c (Z.to_nat k) (S (nth (Z.to_nat k) c 0))).
Proof.
  intros. unfold bump, zget, get_checked. destruct (Z.ltb_spec k 0); [lia|].
  rewrite (nth_error_nth' c 0) by lia. auto.
Qed.

Lemma bump_unchecked_ok : forall c k, (0 <= k < Z.of_nat (length c))%Z ->
  bump_unchecked c k = Ok (upd c (Z.to_nat k) (S (nth (Z.to_nat k) c 0))).
Proof.
  intros. unfold bump_unchecked, zget_unchecked, get_unchecked. destruct (Z.ltb_spec k 0); [lia|].
  rewrite (nth_error_nth' c 0) by lia. auto.
Qed.

Definition hist (n : nat) (keys : list Z) : list nat := map (fun j => cnt (Z.of_nat j) keys) (seq 0 n).

Lemma count_keys_ok : forall n keys, keys_in n keys -> count_keys n keys = Ok (hist n keys).
Proof.
  intros. unfold count_keys. rewrite foldM_bump.
  - rewrite repeat_length. f_equal. apply map_ext_in. intros. rewrite nth_repeat. auto.
  - apply bump_ok.
  - rewrite repeat_length. auto.
Qed.

Lemma hist_unchecked_ok : forall n keys, keys_in n keys ->
  foldM bump_unchecked keys (repeat 0 n) = Ok (hist n keys).
Proof.
  intros. rewrite foldM_bump.
  - rewrite repeat_length. f_equal. apply map_ext_in. intros. rewrite nth_repeat. auto.
  - apply bump_unchecked_ok.
  - rewrite repeat_length. auto.
Qed.

Lemma hist_buckets : forall n tr, hist n (map fst tr) = map (@length _) (buckets n tr).
Proof. intros. unfold hist, buckets. rewrite map_map. apply map_ext. intros. apply cnt_at_index. Qed.

(** ** Scattering *)
Definition pbump (pos : list nat) (k : Z) : list nat := upd pos (Z.to_nat k) (S (nth (Z.to_nat k) pos 0)).
Fixpoint pscatter (pos : list nat) tr : list (nat * W) :=
  match tr with
  | [] => []
  | (k, w) :: tr' => (nth (Z.to_nat k) pos 0, w) :: pscatter (pbump pos k) tr'
  end.
Definition advance (pos : list nat) tr : list nat := fold_left pbump (map fst tr) pos.

Lemma pbump_length : forall pos k, length (pbump pos k) = length pos.
Proof. intros. apply upd_length. Qed.

Lemma advance_length : forall tr pos, length (advance pos tr) = length pos.
Proof. unfold advance. induction tr; simpl; intros; auto. rewrite IHtr. apply pbump_length. Qed.

Lemma pscatter_app : forall t1 t2 pos, pscatter pos (t1 ++ t2) = pscatter pos t1 ++ pscatter (advance pos t1) t2.
Proof.
  induction t1 as [|[k w] t1 IH]; simpl; intros; auto. unfold advance. simpl. f_equal. apply IH.
Qed.

Lemma scatter_ok : forall tr next, keys_in (length next) (map fst tr) -> scatter next tr = Ok (pscatter next tr).
Proof.
  induction tr as [|[k w] tr IH]; intros next H; simpl; auto. inv H. simpl in *.
  unfold zget, get_checked. destruct (Z.ltb_spec k 0); [lia|].
  rewrite (nth_error_nth' next 0) by lia. cbn [bind]. rewrite IH; auto. rewrite upd_length. auto.
Qed.

Definition slots (n : nat) (pos : list nat) tr : list (nat * W) :=
  concat (map (fun j => combine (seq (nth j pos 0) (length (at_index (Z.of_nat j) tr))) (at_index (Z.of_nat j) tr)) (seq 0 n)).

Lemma pscatter_perm : forall n tr pos, n <= length pos -> keys_in n (map fst tr) ->
  Permutation (pscatter pos tr) (slots n pos tr).
Proof.
  induction tr as [|[k w] tr IH]; intros pos L H.
  - unfold slots. simpl. generalize (seq 0 n). induction l; simpl; auto.
  - inv H. simpl in *. symmetry. etransitivity.
    + apply (concat_map_bump Nat.eq_dec
        (fun j => combine (seq (nth j pos 0) (length (at_index (Z.of_nat j) ((k, w) :: tr)))) (at_index (Z.of_nat j) ((k, w) :: tr)))
        (fun j => combine (seq (nth j (pbump pos k) 0) (length (at_index (Z.of_nat j) tr))) (at_index (Z.of_nat j) tr))
        (nth (Z.to_nat k) pos 0, w) (Z.to_nat k)).
      * apply seq_NoDup.
      * apply in_seq. lia.
      * rewrite at_index_cons'. rewrite Z2Nat.id by lia. rewrite Z.eqb_refl. simpl.
        unfold pbump. rewrite nth_upd by lia. rewrite Nat.eqb_refl. auto.
      * intros j Hj N. rewrite at_index_cons'. destruct (Z.eqb_spec k (Z.of_nat j)); [lia|].
        unfold pbump. rewrite nth_upd by lia. destruct (Nat.eqb_spec (Z.to_nat k) j); [lia|]. auto.
    + constructor. symmetry. apply IH; auto. rewrite pbump_length. auto.
Qed.

Lemma all_writes_nth : forall (rs : list (list W)) starts, length rs <= length starts ->
  all_writes starts rs = concat (map (fun j => row_writes (nth j starts 0) (nth j rs [])) (seq 0 (length rs))).
Proof.
  induction rs as [|r rs IH]; intros starts H; destruct starts as [|s starts]; simpl in *; auto; try lia.
  f_equal. rewrite IH by lia. rewrite <- seq_shift, map_map. auto.
Qed.

Lemma slots_psum : forall n tr,
  slots n (psum 0 (map (@length _) (buckets n tr))) tr
  = combine (seq 0 (length (concat (buckets n tr)))) (concat (buckets n tr)).
Proof.
  intros. rewrite <- all_writes_psum. rewrite all_writes_nth.
  2:{ rewrite psum_length, map_length. lia. }
  rewrite buckets_length. unfold slots. f_equal. apply map_ext_in. intros j Hj. apply in_seq in Hj.
  rewrite nth_buckets by lia. auto.
Qed.
End Buckets.

(** ** Tasks *)
Section Tasks.
Context {V : Type}.
Notation row := (list (Z * V)).

Definition entries (rs : list row) : list (Z * (Z * V)) := concat (tasks rs).

Lemma tasks_from : forall (rs : list row) s,
  map (fun ir => task (fst ir) (snd ir)) (combine (seq s (length rs)) rs)
  = map (fun i => task (s + i) (nth i rs [])) (seq 0 (length rs)).
Proof.
  induction rs as [|r rs IH]; intros s; simpl; auto. f_equal.
  - f_equal. lia.
  - rewrite IH. rewrite <- seq_shift, map_map. apply map_ext. intros. f_equal. lia.
Qed.

Lemma tasks_nth : forall rs : list row, tasks rs = map (fun i => task i (nth i rs [])) (seq 0 (length rs)).
Proof. intros. unfold tasks. rewrite tasks_from. auto. Qed.

Lemma keys_task : forall i (r : row), map fst (task i r) = map fst r.
Proof. intros. unfold task. rewrite map_map. apply map_ext. auto. Qed.

Lemma keys_entries : forall rs : list row, map fst (entries rs) = map fst (concat rs).
Proof.
  intros. unfold entries. rewrite tasks_nth.
  transitivity (map fst (concat (map (fun i => nth i rs []) (seq 0 (length rs))))).
  2:{ rewrite map_seq_nth. auto. }
  generalize (seq 0 (length rs)). induction l; simpl; auto.
  rewrite !map_app, IHl, keys_task. auto.
Qed.

Lemma entries_length : forall rs : list row, length (entries rs) = length (concat rs).
Proof. intros. rewrite <- (map_length fst (entries rs)), keys_entries, map_length. auto. Qed.

Lemma keys_in_bounds : forall m (rs : list row), Forall (in_bounds m) rs -> keys_in m (map fst (concat rs)).
Proof.
  intros. unfold keys_in. rewrite Forall_map. apply Forall_concat.
  eapply Forall_impl; [|exact H]. intros r Hr. unfold in_bounds in Hr. eapply Forall_impl; [|exact Hr]. simpl. intros. lia.
Qed.

Lemma at_index_task : forall j i (r : row), at_index j (task i r) = map (fun v => (Z.of_nat i, v)) (at_index j r).
Proof.
  intros. induction r as [|[k v] r IH]; simpl; auto. unfold task in *. simpl.
  rewrite !at_index_cons'. destruct (k =? j)%Z; simpl; rewrite IH; auto.
Qed.

(** Steps of one task appear in a trace in task order. *)
Lemma Interleave_filter : forall {A} (P : A -> bool) ts tr, Interleave ts tr ->
  forall k, (forall k', k' <> k -> filter P (nth k' ts []) = []) -> filter P tr = filter P (nth k ts []).
Proof.
  induction 1; intros k H'.
  - assert (nth k ts [] = []) as ->; auto.
    destruct (Nat.lt_ge_cases k (length ts)); [|apply nth_overflow; auto].
    rewrite Forall_forall in H. apply H. apply nth_In. auto.
  - set (n := length ts1).
    assert (N : forall u k', nth k' (ts1 ++ u :: ts2) [] = if k' =? n then u else nth k' (ts1 ++ [] :: ts2) []).
    { intros. destruct (Nat.eqb_spec k' n).
      - subst k' n. apply nth_middle.
      - destruct (Nat.lt_ge_cases k' n).
        + rewrite !app_nth1 by auto. auto.
        + rewrite !app_nth2 by (unfold n in *; lia). destruct (k' - length ts1) eqn:E; [unfold n in *; lia|]. auto. }
    simpl. rewrite (IHInterleave k).
    + rewrite (N t k), (N (a :: t) k). destruct (Nat.eqb_spec k n).
      * simpl. auto.
      * specialize (H' n ltac:(auto)). rewrite (N (a :: t) n), Nat.eqb_refl in H'. simpl in H'.
        destruct (P a); [discriminate|]. auto.
    + intros k' Hk'. specialize (H' k' Hk'). rewrite (N (a :: t)) in H'. rewrite (N t).
      destruct (k' =? n); auto. simpl in H'. destruct (P a); [discriminate|]. auto.
Qed.

Lemma at_index_2 : forall i j (tr : list (Z * (Z * V))),
  at_index i (at_index j tr)
  = at_index j (map (fun e => (fst e, snd (snd e))) (filter (fun e => (fst (snd e) =? i)%Z) tr)).
Proof.
  induction tr as [|[k [i' v]] tr IH]; simpl; auto.
  rewrite at_index_cons'. destruct (Z.eqb_spec k j).
  - rewrite at_index_cons'. destruct (Z.eqb_spec i' i); simpl; auto.
    rewrite at_index_cons'. subst k. rewrite Z.eqb_refl. rewrite IH. auto.
  - destruct (Z.eqb_spec i' i); simpl; auto. rewrite at_index_cons'.
    destruct (Z.eqb_spec k j); [lia|]. auto.
Qed.

Lemma filter_all : forall {A} (P : A -> bool) l, Forall (fun x => P x = true) l -> filter P l = l.
Proof. induction 1; simpl; auto. rewrite H, IHForall. auto. Qed.
Lemma filter_none : forall {A} (P : A -> bool) l, Forall (fun x => P x = false) l -> filter P l = [].
Proof. induction 1; simpl; auto. rewrite H, IHForall. auto. Qed.

Lemma task_filter : forall i i' (r : row),
  filter (fun e : Z * (Z * V) => (fst (snd e) =? Z.of_nat i)%Z) (task i' r) = if i' =? i then task i' r else [].
Proof.
  intros. destruct (Nat.eqb_spec i' i).
  - apply filter_all. unfold task. rewrite Forall_map. apply Forall_forall. intros. simpl. apply Z.eqb_eq. lia.
  - apply filter_none. unfold task. rewrite Forall_map. apply Forall_forall. intros. simpl. apply Z.eqb_neq. lia.
Qed.

Lemma nth_tasks : forall (rs : list row) k, nth k (tasks rs) [] = task k (nth k rs []).
Proof.
  intros. rewrite tasks_nth. destruct (Nat.lt_ge_cases k (length rs)).
  - rewrite nth_indep with (d' := task 0 (nth 0 rs [])) by (rewrite map_length, seq_length; auto).
    rewrite (map_nth (fun i => task i (nth i rs []))). rewrite seq_nth by auto. auto.
  - rewrite !nth_overflow; auto. rewrite map_length, seq_length. auto.
Qed.

(** A cell read back from the buckets of any interleaving. *)
Lemma trace_cell : forall (rs : list row) tr i j, Interleave (tasks rs) tr ->
  at_index (Z.of_nat i) (at_index j tr) = at_index j (nth i rs []).
Proof.
  intros rs tr i j H. rewrite at_index_2. rewrite (Interleave_filter _ _ _ H i).
  - rewrite nth_tasks, task_filter, Nat.eqb_refl.
    f_equal. unfold task. rewrite map_map. simpl. rewrite <- (map_id (nth i rs [])) at 2.
    apply map_ext. intros [? ?]. auto.
  - intros k' N. rewrite nth_tasks, task_filter. destruct (Nat.eqb_spec k' i); congruence.
Qed.

Lemma Interleave_concat : forall {A} (ts : list (list A)), Interleave ts (concat ts).
Proof.
  intros A ts. assert (H : forall n (ts' : list (list A)), length (concat ts') = n -> Interleave ts' (concat ts')).
  { induction n; intros ts' E.
    - destruct (concat ts') eqn:E'; [|discriminate]. constructor.
      clear -E'. induction ts' as [|t ts' IH]; constructor; simpl in E'; apply app_eq_nil in E'; destruct E'; auto.
    - induction ts' as [|t ts' IH] in n, E, IHn |- *; [discriminate|].
      destruct t as [|a t].
      + simpl in *. specialize (IH n IHn E).
        assert (forall (us : list (list A)) tr, Interleave us tr -> Interleave ([] :: us) tr) as K.
        { clear. induction 1; [constructor; auto|]. apply (Il_step ([] :: ts1)). auto. }
        apply K. auto.
      + apply (Il_step [] a t ts'). apply (IHn (t :: ts')). simpl in *. lia. }
  apply (H _ ts eq_refl).
Qed.

Lemma entries_cell : forall (rs : list row) i j,
  at_index (Z.of_nat i) (at_index j (entries rs)) = at_index j (nth i rs []).
Proof. intros. apply trace_cell. apply Interleave_concat. Qed.

(** Bucket contents stay inside the matrix. *)
Lemma bucket_bounds : forall (rs : list row) tr j n, Permutation (entries rs) tr ->
  (Z.of_nat (length rs) <= i64_max)%Z -> length rs <= n -> in_bounds n (at_index j tr).
Proof.
  intros rs tr j n P B L. unfold in_bounds. apply Forall_forall. intros [i v] I.
  apply (proj1 (at_index_In _ _ _)) in I. apply Permutation_in with (l' := entries rs) in I; [|symmetry; auto].
  unfold entries in I. apply in_concat in I. destruct I as (t & It & I).
  rewrite tasks_nth in It. apply in_map_iff in It. destruct It as (k & <- & Ik). apply in_seq in Ik.
  unfold task in I. apply in_map_iff in I. destruct I as (e & E & _). inv E. simpl. lia.
Qed.

Lemma nodup_at_index : forall j (r : row), NoDup (map fst r) -> at_index j r = [] \/ exists v, at_index j r = [v].
Proof.
  intros j r. induction r as [|[k v] r IH]; intros N; [left; auto|]. simpl in N. inversion N as [|? ? NI N']; subst.
  rewrite at_index_cons. destruct (Z.eqb_spec k j) as [->|]; auto.
  right. exists v. rewrite at_index_nil; auto.
Qed.

Lemma bucket_sorted : forall (rs : list row) j, Forall (fun r => NoDup (map fst r)) rs -> srow (at_index j (entries rs)).
Proof.
  intros rs j FS. unfold entries. rewrite tasks_nth.
  assert (H : forall n s, s + n <= length rs -> 
     srow (at_index j (concat (map (fun i => task i (nth i rs [])) (seq s n)))) /\
     Forall (fun e => (Z.of_nat s <= fst e)%Z) (at_index j (concat (map (fun i => task i (nth i rs [])) (seq s n))))).
  { induction n; intros s L; simpl.
    - split; constructor.
    - rewrite at_index_app', at_index_task. destruct (IHn (S s) ltac:(lia)) as [H1 H2].
      assert (S' : NoDup (map fst (nth s rs []))). { rewrite Forall_forall in FS. apply FS. apply nth_In. lia. }
      destruct (nodup_at_index j _ S') as [->|[v ->]]; simpl.
      + split; auto. eapply Forall_impl; eauto. simpl. intros. lia.
      + split.
        * apply srow_cons; auto. eapply Forall_impl; eauto. simpl. intros. lia.
        * constructor; simpl; [lia|]. eapply Forall_impl; eauto. simpl. intros. lia. }
  apply H. lia.
Qed.
End Tasks.
