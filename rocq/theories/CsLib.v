(** Compressed matrices seen as lists of rows; uniqueness of canonical form;
    correctness of the two-pass output assembly. *)
Require Import List ZArith Bool Permutation Lia Arith Sorted.
Require Import ZifyBool ZifyNat.
Require Import Verif.Res Verif.Spec Verif.Mem Verif.Lists.
Import ListNotations.

Section CsLib.
Context {V : Type}.
Notation row := (list (Z * V)).

Definition of_rows (m : nat) (rs : list row) : Cs V :=
  mkCs (length rs) m (indptr_of (map (@length _) rs)) (map fst (concat rs)) (map snd (concat rs)).

Definition rows (A : Cs V) : list row := map (cs_row A) (seq 0 (major A)).

Definition in_bounds (m : nat) (r : row) : Prop :=
  Forall (fun e => (0 <= fst e < Z.of_nat m /\ fst e <= i64_max)%Z) r.

Definition srow (r : row) : Prop := StronglySorted Z.lt (map fst r).

Lemma rows_length : forall A, length (rows A) = major A.
Proof. intros. unfold rows. rewrite map_length, seq_length. auto. Qed.

Lemma nth_rows : forall A i d, i < major A -> nth i (rows A) d = cs_row A i.
Proof.
  intros. unfold rows. rewrite nth_indep with (d' := cs_row A 0) by (rewrite map_length, seq_length; auto).
  rewrite map_nth. rewrite seq_nth by auto. auto.
Qed.

Lemma ptr_nth : forall (A : Cs V) i, cs_ok A -> i <= major A -> nth_error (ptr A) i = Some (nth i (ptr A) 0%Z).
Proof. intros. apply nth_error_nth'. rewrite (ok_ptr_len _ H). lia. Qed.

Lemma ptr_mono : forall (A : Cs V) i j, cs_ok A -> i <= j -> j <= major A ->
  (nth i (ptr A) 0 <= nth j (ptr A) 0)%Z.
Proof.
  intros A i j OK H. induction H; intros; [lia|].
  pose proof (ok_mono _ OK m _ _ (ptr_nth A m OK ltac:(lia)) (ptr_nth A (S m) OK ltac:(lia))).
  specialize (IHle ltac:(lia)). lia.
Qed.

Lemma ptr_0 : forall A : Cs V, cs_ok A -> nth 0 (ptr A) 0%Z = 0%Z.
Proof. intros A OK. apply nth_error_nth. apply (ok_first _ OK). Qed.

Lemma ptr_last : forall A : Cs V, cs_ok A -> nth (major A) (ptr A) 0%Z = Z.of_nat (length (idx A)).
Proof. intros A OK. apply nth_error_nth. apply (ok_last _ OK). Qed.

Lemma ptr_range : forall (A : Cs V) i, cs_ok A -> i <= major A ->
  (0 <= nth i (ptr A) 0 <= Z.of_nat (length (idx A)))%Z.
Proof.
  intros A i OK H. rewrite <- (ptr_0 A OK) at 1. rewrite <- (ptr_last A OK).
  split; apply ptr_mono; auto; lia.
Qed.

Lemma get_row_ok : forall (A : Cs V) i, cs_ok A -> i < major A -> get_row A i = Ok (cs_row A i).
Proof.
  intros A i OK H. unfold get_row, get_checked.
  rewrite !(ptr_nth A) by (auto; lia). simpl.
  pose proof (ptr_range A i OK ltac:(lia)). pose proof (ptr_range A (S i) OK ltac:(lia)).
  pose proof (ptr_mono A i (S i) OK ltac:(lia) ltac:(lia)).
  pose proof (ok_len _ OK).
  replace (_ && _ && _ && _) with true by lia. reflexivity.
Qed.

Lemma concat_rows_firstn : forall (A : Cs V) k, cs_ok A -> k <= major A ->
  concat (map (cs_row A) (seq 0 k)) = firstn (Z.to_nat (nth k (ptr A) 0%Z)) (combine (idx A) (dat A)).
Proof.
  intros A k OK. induction k; intros H.
  - simpl. rewrite ptr_0 by auto. reflexivity.
  - rewrite seq_S, map_app, concat_app, IHk by lia. simpl. rewrite app_nil_r.
    unfold cs_row.
    pose proof (ptr_range A k OK ltac:(lia)).
    pose proof (ptr_mono A k (S k) OK ltac:(lia) ltac:(lia)).
    rewrite <- (Nat.sub_0_r (Z.to_nat (nth k (ptr A) 0%Z))) at 1.
    change (combine (idx A) (dat A)) with (skipn 0 (combine (idx A) (dat A))) at 1.
    fold (slice 0 (Z.to_nat (nth k (ptr A) 0%Z)) (combine (idx A) (dat A))).
    rewrite <- slice_split by lia. unfold slice. rewrite Nat.sub_0_r. reflexivity.
Qed.

Lemma concat_rows : forall A : Cs V, cs_ok A -> concat (rows A) = combine (idx A) (dat A).
Proof.
  intros A OK. unfold rows. rewrite concat_rows_firstn by auto.
  rewrite ptr_last by auto. rewrite Nat2Z.id.
  apply firstn_all2. rewrite combine_length, (ok_len _ OK). lia.
Qed.

Lemma cs_row_length : forall (A : Cs V) i, cs_ok A -> i < major A ->
  length (cs_row A i) = Z.to_nat (nth (S i) (ptr A) 0%Z) - Z.to_nat (nth i (ptr A) 0%Z).
Proof.
  intros A i OK H. unfold cs_row. apply slice_length.
  rewrite combine_length, (ok_len _ OK), Nat.min_id.
  pose proof (ptr_range A (S i) OK ltac:(lia)). pose proof (ok_len _ OK). lia.
Qed.

Lemma of_rows_rows : forall A : Cs V, cs_ok A -> of_rows (minor A) (rows A) = A.
Proof.
  intros A OK. unfold of_rows. rewrite rows_length.
  rewrite concat_rows by auto.
  rewrite map_fst_combine, map_snd_combine by (apply (ok_len _ OK)).
  replace (indptr_of (map (@length _) (rows A))) with (ptr A); [destruct A; reflexivity|].
  unfold indptr_of. apply nth_error_ext. intros n.
  destruct (Nat.lt_ge_cases n (S (major A))) as [H|H].
  2:{ rewrite !(proj2 (nth_error_None _ _)); auto.
      rewrite map_length, psum_length, map_length, rows_length. lia.
      rewrite (ok_ptr_len _ OK). lia. }
  rewrite ptr_nth by (auto; lia).
  erewrite map_nth_error.
  2:{ apply nth_error_nth' with (d := 0). rewrite psum_length, map_length, rows_length. lia. }
  rewrite nth_psum by (rewrite map_length, rows_length; lia).
  rewrite firstn_map. rewrite total_length_concat.
  unfold rows. rewrite firstn_map.
  replace (firstn n (seq 0 (major A))) with (seq 0 n).
  2:{ replace (major A) with (n + (major A - n)) by lia. rewrite seq_app, firstn_app, seq_length, Nat.sub_diag.
      simpl. rewrite app_nil_r. rewrite firstn_all2; auto. rewrite seq_length. lia. }
  rewrite concat_rows_firstn by (auto; lia).
  rewrite firstn_length, combine_length, (ok_len _ OK), Nat.min_id.
  pose proof (ptr_range A n OK ltac:(lia)). pose proof (ok_len _ OK). f_equal. lia.
Qed.

Lemma nth_indptr : forall counts i, i <= length counts ->
  nth i (indptr_of counts) 0%Z = Z.of_nat (total (firstn i counts)).
Proof.
  intros. unfold indptr_of. change 0%Z with (Z.of_nat 0). rewrite map_nth.
  rewrite nth_psum by auto. auto.
Qed.

Lemma slice_concat_mid : forall {W} (l1 l2 : list (list W)) r,
  slice (length (concat (firstn (length l1) (l1 ++ r :: l2))))
        (length (concat (firstn (S (length l1)) (l1 ++ r :: l2)))) (concat (l1 ++ r :: l2)) = r.
Proof.
  intros.
  replace (firstn (length l1) (l1 ++ r :: l2)) with l1.
  2:{ rewrite firstn_app, firstn_all, Nat.sub_diag. simpl. rewrite app_nil_r. auto. }
  replace (firstn (S (length l1)) (l1 ++ r :: l2)) with (l1 ++ [r]).
  2:{ rewrite firstn_app. rewrite firstn_all2 by lia. replace (S (length l1) - length l1) with 1 by lia. reflexivity. }
  rewrite !concat_app. simpl. rewrite app_nil_r, app_length. apply slice_app_mid.
Qed.

Lemma cs_row_of_rows : forall m rs i, cs_row (of_rows m rs) i = nth i rs [].
Proof.
  intros m rs i. unfold cs_row, of_rows; simpl ptr; simpl idx; simpl dat.
  rewrite combine_split_eq.
  destruct (Nat.lt_ge_cases i (length rs)) as [H|H].
  - rewrite !nth_indptr by (rewrite map_length; lia). rewrite !Nat2Z.id.
    rewrite !firstn_map, !total_length_concat.
    destruct (nth_split rs [] H) as (l1 & l2 & E & L).
    set (r := nth i rs []) in *. clearbody r. subst rs i. apply slice_concat_mid.
  - rewrite (nth_overflow rs) by auto.
    rewrite (nth_overflow _ _ (n := S i)).
    2:{ unfold indptr_of. rewrite map_length, psum_length, map_length. lia. }
    unfold slice. simpl. reflexivity.
Qed.

Lemma rows_of_rows : forall m rs, rows (of_rows m rs) = rs.
Proof.
  intros. unfold rows. simpl major.
  rewrite <- (map_seq_nth rs []) at 3. apply map_ext. intros. apply cs_row_of_rows.
Qed.

Lemma of_rows_ok : forall m rs, Forall (in_bounds m) rs -> cs_ok (of_rows m rs).
Proof.
  intros m rs FB. unfold of_rows. constructor; cbn [major minor ptr idx dat].
  - unfold indptr_of. rewrite map_length, psum_length, map_length. auto.
  - rewrite !map_length. auto.
  - unfold indptr_of. destruct rs; reflexivity.
  - rewrite nth_error_nth' with (d := 0%Z).
    2:{ unfold indptr_of. rewrite map_length, psum_length, map_length. lia. }
    rewrite nth_indptr by (rewrite map_length; auto).
    rewrite firstn_all2 by (rewrite map_length; auto). rewrite total_length_concat, map_length. auto.
  - intros i a b Ha Hb.
    assert (S i < S (length rs)).
    { apply nth_error_lt in Hb. unfold indptr_of in Hb. rewrite map_length, psum_length, map_length in Hb. auto. }
    apply nth_error_nth with (d := 0%Z) in Ha. apply nth_error_nth with (d := 0%Z) in Hb.
    rewrite nth_indptr in Ha, Hb by (rewrite map_length; lia).
    subst. rewrite !firstn_map, !total_length_concat.
    replace (S i) with (i + 1) by lia.
    assert (firstn (i + 1) rs = firstn i rs ++ firstn 1 (skipn i rs)) as ->.
    { clear. revert i. induction rs; intros [|i]; simpl; auto. f_equal. apply IHrs. }
    rewrite concat_app, app_length. lia.
  - intros p j H. apply nth_error_In in H. apply in_map_iff in H. destruct H as ((j' & v) & <- & I).
    apply in_concat in I. destruct I as (r & I1 & I2).
    eapply Forall_forall in FB; eauto. unfold in_bounds in FB. eapply Forall_forall in FB; eauto.
Qed.

Lemma of_rows_ok_inv : forall m rs, cs_ok (of_rows m rs) -> Forall (in_bounds m) rs.
Proof.
  intros m rs OK. apply Forall_forall. intros r I. apply Forall_forall. intros e Ie.
  assert (In (fst e) (idx (of_rows m rs))).
  { simpl. apply in_map. apply in_concat. eauto. }
  apply In_nth_error in H. destruct H as [p H]. apply (ok_bound _ OK) in H. exact H.
Qed.

Lemma ok_rows_bounds : forall A : Cs V, cs_ok A -> Forall (in_bounds (minor A)) (rows A).
Proof. intros A OK. apply of_rows_ok_inv. rewrite of_rows_rows; auto. Qed.

Lemma row_bounds : forall (A : Cs V) i, cs_ok A -> i < major A -> in_bounds (minor A) (cs_row A i).
Proof.
  intros A i OK H. pose proof (ok_rows_bounds A OK) as FB. rewrite Forall_forall in FB.
  apply FB. unfold rows. apply in_map. apply in_seq. lia.
Qed.

Lemma StronglySorted_nth : forall {A} (R : A -> A -> Prop) l,
  StronglySorted R l <-> (forall p q a b, p < q -> nth_error l p = Some a -> nth_error l q = Some b -> R a b).
Proof.
  induction l as [|x l IH]; split; intros H.
  - intros p q a b _ E. destruct p; discriminate.
  - constructor.
  - inv H. intros p q a b L Ea Eb. destruct q; [lia|]. simpl in Eb.
    destruct p; simpl in Ea.
    + inv Ea. eapply Forall_forall in H3; eauto. eapply nth_error_In; eauto.
    + apply (proj1 IH H2 p q); auto. lia.
  - constructor.
    + apply IH. intros p q a b L Ea Eb. apply (H (S p) (S q)); auto. lia.
    + apply Forall_forall. intros y I. apply In_nth_error in I. destruct I as [n E].
      apply (H 0 (S n)); auto. lia.
Qed.

Lemma canonical_rows : forall A : Cs V, canonical A <-> cs_ok A /\ Forall srow (rows A).
Proof.
  intros A. split.
  - intros [OK ST]. split; auto. apply Forall_forall. intros r I.
    unfold rows in I. apply in_map_iff in I. destruct I as (i & <- & I). apply in_seq in I.
    unfold srow. apply StronglySorted_nth. intros p q a b L Ea Eb.
    assert (length (cs_row A i) = Z.to_nat (nth (1 + i) (ptr A) 0%Z) - Z.to_nat (nth i (ptr A) 0%Z)) as LR by (apply cs_row_length; auto; lia).
    assert (q < length (cs_row A i)) as Lq.
    { rewrite <- (map_length fst). apply nth_error_Some. congruence. }
    pose proof (ptr_range A i OK ltac:(lia)).
    assert (forall k, k < length (cs_row A i) -> nth_error (map fst (cs_row A i)) k = nth_error (idx A) (Z.to_nat (nth i (ptr A) 0%Z) + k)) as N.
    { intros k Hk. unfold cs_row. rewrite <- slice_map. rewrite map_fst_combine by apply (ok_len _ OK).
      apply nth_error_slice. rewrite LR in Hk. exact Hk. }
    rewrite N in Ea by lia. rewrite N in Eb by lia.
    apply (ST i (nth i (ptr A) 0%Z) (nth (S i) (ptr A) 0%Z)
             (Z.to_nat (nth i (ptr A) 0%Z) + p) (Z.to_nat (nth i (ptr A) 0%Z) + q) a b); auto;
      try (apply ptr_nth; auto; lia).
    + lia.
    + lia.
    + change (nth (1 + i) (ptr A) 0%Z) with (nth (S i) (ptr A) 0%Z) in LR. lia.
  - intros [OK FS]. constructor; auto. intros i s e p q a b Hs He Lp Lpq Lq Ea Eb.
    assert (S i < S (major A)) as Li.
    { rewrite <- (ok_ptr_len _ OK). apply nth_error_Some. congruence. }
    assert (srow (cs_row A i)) as SR.
    { eapply Forall_forall in FS; eauto. unfold rows. apply in_map. apply in_seq. lia. }
    assert (nth i (ptr A) 0%Z = s) as Es by (apply nth_error_nth; auto).
    assert (nth (S i) (ptr A) 0%Z = e) as Ee by (apply nth_error_nth; auto).
    pose proof (ptr_range A i OK ltac:(lia)).
    unfold srow in SR. rewrite StronglySorted_nth in SR.
    apply (SR (p - Z.to_nat s) (q - Z.to_nat s)); [lia| |].
    + unfold cs_row. rewrite <- slice_map, map_fst_combine by apply (ok_len _ OK).
      rewrite Es, Ee. rewrite nth_error_slice by lia. replace (_ + _) with p by lia. auto.
    + unfold cs_row. rewrite <- slice_map, map_fst_combine by apply (ok_len _ OK).
      rewrite Es, Ee. rewrite nth_error_slice by lia. replace (_ + _) with q by lia. auto.
Qed.

Lemma canonical_row : forall (A : Cs V) i, canonical A -> i < major A -> srow (cs_row A i).
Proof.
  intros A i C H. apply canonical_rows in C. destruct C as [_ FS].
  eapply Forall_forall in FS; eauto. unfold rows. apply in_map. apply in_seq. lia.
Qed.

Lemma of_rows_canonical : forall m rs, Forall (in_bounds m) rs -> Forall srow rs -> canonical (of_rows m rs).
Proof.
  intros. apply canonical_rows. rewrite rows_of_rows. split; auto. apply of_rows_ok; auto.
Qed.

(** ** Lookup in sorted rows *)
Lemma at_index_nil : forall j (r : row), ~ In j (map fst r) -> at_index j r = [].
Proof.
  unfold at_index. induction r as [|[k v] r IH]; simpl; intros H; auto.
  destruct (Z.eqb_spec k j); [tauto|]. auto.
Qed.

Lemma at_index_cons : forall j k v (r : row),
  at_index j ((k, v) :: r) = if (k =? j)%Z then v :: at_index j r else at_index j r.
Proof. intros. unfold at_index. simpl. destruct (k =? j)%Z; auto. Qed.

Lemma at_index_app : forall j (r r' : row), at_index j (r ++ r') = at_index j r ++ at_index j r'.
Proof. intros. unfold at_index. rewrite filter_app, map_app. auto. Qed.

Lemma srow_inv : forall k v (r : row), srow ((k, v) :: r) ->
  srow r /\ Forall (fun e => (k < fst e)%Z) r.
Proof.
  unfold srow. simpl. intros k v r H. inv H. split; auto.
  rewrite Forall_map in H3. auto.
Qed.

Lemma srow_cons : forall k v (r : row), srow r -> Forall (fun e => (k < fst e)%Z) r -> srow ((k, v) :: r).
Proof. unfold srow. simpl. intros. constructor; auto. rewrite Forall_map. auto. Qed.

Lemma srow_nil : srow [].
Proof. constructor. Qed.

Lemma at_index_lt : forall j (r : row), Forall (fun e => (j < fst e)%Z) r -> at_index j r = [].
Proof.
  intros. apply at_index_nil. intros I. apply in_map_iff in I. destruct I as (e & <- & I).
  eapply Forall_forall in H; eauto. simpl in H. lia.
Qed.

(** In a sorted row an index is stored at most once. *)
Lemma srow_at_index : forall j (r : row), srow r -> at_index j r = [] \/ exists v, at_index j r = [v].
Proof.
  induction r as [|[k v] r IH]; intros S.
  - left. auto.
  - apply srow_inv in S. destruct S as [S F]. rewrite at_index_cons.
    destruct (Z.eqb_spec k j); auto. subst. right. exists v. rewrite at_index_lt; auto.
Qed.

Lemma srow_ext : forall (r r' : row), srow r -> srow r' ->
  (forall j, at_index j r = at_index j r') -> r = r'.
Proof.
  induction r as [|[k v] r IH]; intros [|[k' v'] r'] S S' H; auto.
  - specialize (H k'). rewrite at_index_cons, Z.eqb_refl in H. discriminate.
  - specialize (H k). rewrite at_index_cons, Z.eqb_refl in H. discriminate.
  - apply srow_inv in S. apply srow_inv in S'. destruct S as [S F], S' as [S' F'].
    assert (k = k').
    { pose proof (H k) as H1. pose proof (H k') as H2.
      rewrite !at_index_cons, Z.eqb_refl in H1. rewrite !at_index_cons, Z.eqb_refl in H2.
      destruct (Z.eqb_spec k' k); auto. destruct (Z.eqb_spec k k'); auto.
      destruct (Z.lt_ge_cases k k').
      - rewrite (at_index_lt k r') in H1. discriminate.
        eapply Forall_impl; [|exact F']. simpl. intros; lia.
      - rewrite (at_index_lt k' r) in H2. discriminate.
        eapply Forall_impl; [|exact F]. simpl. intros; lia. }
    subst k'. pose proof (H k) as H1. rewrite !at_index_cons, Z.eqb_refl in H1. inv H1.
    f_equal. apply IH; auto. intros j. specialize (H j). rewrite !at_index_cons in H.
    destruct (k =? j)%Z; congruence.
Qed.

Lemma at_index_out : forall m j (r : row), in_bounds m r -> ~ (0 <= j < Z.of_nat m)%Z -> at_index j r = [].
Proof.
  intros. apply at_index_nil. intros I. apply in_map_iff in I. destruct I as (e & <- & I).
  unfold in_bounds in H. eapply Forall_forall in H; eauto. simpl in H. lia.
Qed.

(** Canonical matrices of equal shape with the same stored cells are equal. *)
Lemma canonical_ext : forall A B : Cs V, canonical A -> canonical B ->
  major A = major B -> minor A = minor B ->
  (forall i j, i < major A -> j < minor A -> cs_at A i (Z.of_nat j) = cs_at B i (Z.of_nat j)) -> A = B.
Proof.
  intros A B CA CB E1 E2 H.
  rewrite <- (of_rows_rows A) by (apply CA). rewrite <- (of_rows_rows B) by (apply CB).
  rewrite E2. f_equal. unfold rows. rewrite <- E1. apply map_ext_in. intros i I. apply in_seq in I.
  apply srow_ext.
  - apply canonical_row; auto; lia.
  - apply canonical_row; auto; lia.
  - intros j.
    destruct (Z_lt_dec j 0); [|destruct (Z_lt_dec j (Z.of_nat (minor A)))].
    + rewrite (at_index_out (minor A)), (at_index_out (minor B)); auto; try lia;
        apply row_bounds; try apply CA; try apply CB; lia.
    + specialize (H i (Z.to_nat j) ltac:(lia) ltac:(lia)). rewrite Z2Nat.id in H by lia. exact H.
    + rewrite (at_index_out (minor A)), (at_index_out (minor B)); auto; try lia;
        apply row_bounds; try apply CA; try apply CB; lia.
Qed.

(** ** Two-pass assembly *)
Lemma all_writes_psum : forall {W} (rs : list (list W)) s,
  all_writes (psum s (map (@length _) rs)) rs = combine (seq s (length (concat rs))) (concat rs).
Proof.
  induction rs as [|r rs IH]; intros s; simpl; auto.
  rewrite IH. unfold row_writes. rewrite app_length, seq_app.
  rewrite combine_app' by (rewrite seq_length; auto). auto.
Qed.

Lemma last_psum : forall l acc d, last (psum acc l) d = acc + total l.
Proof.
  induction l; intros acc d; simpl; auto.
  destruct (psum (acc + a) l) eqn:E.
  - destruct l; discriminate.
  - rewrite <- E, IHl. lia.
Qed.

Lemma two_pass_ok : forall sch nmaj nmin count fill (rs : list row),
  is_schedule sch -> length rs = nmaj ->
  (forall i, i < nmaj -> fill i = Ok (nth i rs [])) ->
  (forall i, i < nmaj -> count i = Ok (length (nth i rs []))) ->
  two_pass sch nmaj nmin count fill = Ok (of_rows nmin rs).
Proof.
  intros sch nmaj nmin count fill rs Hs L HF HC. unfold two_pass.
  rewrite (mapM_ok count (fun i => length (nth i rs []))) by (intros a I; apply in_seq in I; apply HC; lia).
  simpl.
  rewrite (mapM_ok fill (fun i => nth i rs [])) by (intros a I; apply in_seq in I; apply HF; lia).
  simpl. subst nmaj. rewrite map_seq_nth.
  replace (map (fun i => length (nth i rs [])) (seq 0 (length rs))) with (map (@length _) rs).
  2:{ rewrite <- (map_seq_nth rs []) at 1. rewrite map_map. auto. }
  rewrite last_psum, total_length_concat. simpl.
  rewrite all_writes_psum.
  rewrite assemble_perm by apply Hs. reflexivity.
Qed.

End CsLib.

(** The strict model of array allocation agrees with zeroed arrays. *)
Lemma finish_inv : forall {A} (m : list (option A)) out, finish m = Ok out -> m = map Some out.
Proof.
  induction m as [|[a|] m IH]; intros out E; cbn [finish] in E; [injection E as <-; reflexivity| |discriminate].
  destruct (finish m) as [r| | |]; try discriminate. cbn [bind] in E. injection E as <-. cbn [map]. f_equal. auto.
Qed.
Theorem assemble_zeroed_agrees : forall {A} (zero : A) n ws out, assemble n ws = Ok out -> assemble_zeroed zero n ws = Ok out.
Proof.
  intros A zero n ws out E. unfold assemble in E. destruct (foldM write ws (repeat None n)) as [m| | |] eqn:EM; try discriminate.
  cbn [bind] in E. apply finish_inv in E. subst m. unfold assemble_zeroed.
  set (get := fun o : option A => match o with Some a => a | None => zero end).
  assert (G : forall ws m0 m, foldM write ws m0 = Ok m ->
    foldM (fun m w => if (fst w <? length m)%nat then Ok (upd m (fst w) (snd w)) else UB) ws (map get m0) = Ok (map get m)).
  { clear. induction ws as [|w ws IH]; intros m0 m E; cbn [foldM] in *; [injection E as <-; reflexivity|].
    unfold write in E at 1. rewrite map_length. destruct (fst w <? length m0)%nat eqn:EB; [|discriminate]. cbn [bind] in *.
    rewrite <- (IH _ _ E). f_equal. clear. generalize (fst w). induction m0 as [|x m0 IH]; intros [|k]; cbn [upd map]; auto. rewrite IH. reflexivity. }
  specialize (G _ _ _ EM). rewrite map_map in G.
  assert (E1 : map (fun x => get (Some x)) out = out) by (apply map_id). rewrite E1 in G.
  assert (E2 : map get (repeat None n) = repeat zero n) by (clear; induction n; cbn [repeat map]; [reflexivity|f_equal; auto]).
  rewrite E2 in G. exact G.
Qed.
