(** Proofs about the constructors. *)
Require Import List ZArith Bool Lia Arith Sorted.
Require Import ZifyBool ZifyNat.
Require Import Verif.Res Verif.Spec Verif.Lists Verif.CsLib Verif.MCore.
Import ListNotations.
Local Open Scope Z_scope.

Lemma nth_pairs : forall (l : list Z) i a b,
  nth_error (combine l (skipn 1 l)) i = Some (a, b) <->
  nth_error l i = Some a /\ nth_error l (S i) = Some b.
Proof.
  intros. rewrite nth_error_combine. rewrite nth_error_skipn'. simpl. tauto.
Qed.

Lemma check_row_indices_iff : forall nmin l prev, -1 <= prev ->
  check_row_indices nmin prev l = true <->
  StronglySorted Z.lt (prev :: l) /\ Forall (fun j => 0 <= j < Z.of_nat nmin) l.
Proof.
  induction l as [|j l IH]; intros prev Hp; cbn [check_row_indices].
  - split; auto. intros _. split; repeat constructor.
  - unfold usize_try_from.
    destruct (0 <=? j) eqn:E0; [|replace (j <? 0) with true by lia; cbn [orb]].
    2:{ split; [discriminate|]. intros [_ F]. inv F. lia. }
    replace (j <? 0) with false by lia. cbn [orb].
    destruct (nmin <=? Z.to_nat j)%nat eqn:E1.
    { split; [discriminate|]. intros [_ F]. inv F. lia. }
    destruct (j <=? prev) eqn:E2.
    { split; [discriminate|]. intros [S F]. inv S. inv H2. lia. }
    rewrite IH by lia. split; intros [S F].
    + split; [|constructor; auto; lia].
      constructor; auto. inv S. constructor; [lia|]. eapply Forall_impl; [|exact H2]. simpl. intros; lia.
    + inv S. inv F. split; auto.
Qed.

Lemma last_nth : forall {A} (l : list A) d n, length l = S n -> last l d = nth n l d.
Proof.
  induction l as [|x l IH]; intros d n H; [discriminate|]. simpl in H.
  destruct l as [|y l]. { simpl in H. assert (n = 0)%nat by lia. subst. auto. }
  destruct n; [simpl in H; lia|]. simpl nth. simpl last. apply IH. simpl in *. lia.
Qed.

Section Cs.
Context {V : Type}.
Variables (nmaj nmin : nat) (indptr indices : list Z) (data : list V).
Let A := mkCs nmaj nmin indptr indices data.

Lemma cs_from_parts_value : forall check B,
  cs_from_parts nmaj nmin indptr indices data check = Some B -> B = A.
Proof.
  intros check B H. unfold cs_from_parts in H.
  repeat match type of H with (if ?c then _ else _) = _ => destruct c; [discriminate|] end.
  unfold A; congruence.
Qed.

(** The five conditions that are tested even when [check] is false. *)
Definition lengths_ok : Prop :=
  length indptr = S nmaj /\ length indices = length data /\
  nth_error indptr nmaj = Some (Z.of_nat (length indices)) /\ nth_error indptr 0 = Some 0.

Lemma cs_from_parts_unchecked_iff :
  Z.of_nat (length indptr) <= usize_max ->
  (exists B, cs_from_parts nmaj nmin indptr indices data false = Some B) <-> lengths_ok.
Proof.
  intros RB. unfold cs_from_parts, lengths_ok. simpl andb.
  split.
  - intros [B H].
    repeat match type of H with (if ?c then _ else _) = _ => destruct c eqn:?; [discriminate|] end.
    apply negb_false_iff in Heqb0, Heqb1, Heqb2, Heqb3.
    assert (length indptr = S nmaj) as E by lia.
    rewrite (last_nth _ _ nmaj E) in Heqb2. unfold usize_try_from in Heqb2.
    destruct (0 <=? nth nmaj indptr 0) eqn:E0; [|discriminate].
    repeat split; auto; try lia.
    + rewrite nth_error_nth' with (d := 0) by lia. f_equal. lia.
    + rewrite nth_error_nth' with (d := 0) by lia. f_equal.
      destruct indptr; simpl in *; lia.
  - intros (E1 & E2 & E3 & E4).
    replace (Z.of_nat nmaj + 1 <=? usize_max) with true by lia. cbn [negb].
    replace (length indptr =? nmaj + 1)%nat with true by lia. cbn [negb].
    replace (length indices =? length data)%nat with true by lia. cbn [negb].
    rewrite (last_nth _ _ nmaj E1). rewrite (nth_error_nth _ _ 0 E3).
    unfold usize_try_from. replace (0 <=? Z.of_nat (length indices)) with true by lia.
    replace (Z.to_nat (Z.of_nat (length indices)) =? length indices)%nat with true by lia. cbn [negb].
    destruct indptr as [|x ip]; [discriminate|]. simpl in E4. inv E4. simpl. eauto.
Qed.

Lemma check_row_sorted : forall s e, 0 <= s -> s <= e -> e <= Z.of_nat (length indices) ->
  check_one_row nmin indices (s, e) = true <->
  (forall p q a b, s <= Z.of_nat p -> (p < q)%nat -> Z.of_nat q < e ->
      nth_error indices p = Some a -> nth_error indices q = Some b -> a < b) /\
  (forall p j, s <= Z.of_nat p < e -> nth_error indices p = Some j -> 0 <= j < Z.of_nat nmin).
Proof.
  intros s e H0 H1 H2. unfold check_one_row, usize_try_from. cbn [fst snd].
  replace (0 <=? s) with true by lia. replace (0 <=? e) with true by lia.
  replace (Z.to_nat e <? Z.to_nat s)%nat with false by lia.
  replace (length indices <? Z.to_nat s)%nat with false by lia.
  replace (length indices <? Z.to_nat e)%nat with false by lia. cbn [orb].
  rewrite check_row_indices_iff by lia.
  assert (forall p, (s <= Z.of_nat p < e) ->
     nth_error (slice (Z.to_nat s) (Z.to_nat e) indices) (p - Z.to_nat s) = nth_error indices p) as N.
  { intros p Hp. rewrite nth_error_slice by lia. f_equal. lia. }
  assert (length (slice (Z.to_nat s) (Z.to_nat e) indices) = Z.to_nat e - Z.to_nat s)%nat as LN
    by (apply slice_length; lia).
  split.
  - intros [SS F]. inv SS. rewrite StronglySorted_nth in H4. rewrite Forall_forall in F. split.
    + intros p q a b Ha Hb Hc Ea Eb. apply (H4 (p - Z.to_nat s)%nat (q - Z.to_nat s)%nat); [lia| |];
      rewrite N by lia; auto.
    + intros p j Hp Ej. apply F. rewrite <- N in Ej by lia. eapply nth_error_In; eauto.
  - intros [SS F].
    assert (Forall (fun j => 0 <= j < Z.of_nat nmin) (slice (Z.to_nat s) (Z.to_nat e) indices)) as FF.
    { apply Forall_forall. intros j I. apply In_nth_error in I. destruct I as [n E].
      pose proof (nth_error_lt _ _ _ E) as L. rewrite nth_error_slice in E by lia.
      eapply F; [|exact E]. lia. }
    split; auto. constructor.
    + apply StronglySorted_nth. intros p q a b L Ea Eb.
      pose proof (nth_error_lt _ _ _ Ea). pose proof (nth_error_lt _ _ _ Eb).
      rewrite nth_error_slice in Ea, Eb by lia.
      apply (SS (Z.to_nat s + p)%nat (Z.to_nat s + q)%nat); auto; lia.
    + eapply Forall_impl; [|exact FF]. simpl. intros; lia.
Qed.

Lemma cs_from_parts_iff :
  Z.of_nat (length indptr) <= usize_max -> Forall is_i64 indices ->
  (exists B, cs_from_parts nmaj nmin indptr indices data true = Some B) <-> canonical A.
Proof.
  intros RB RI.
  assert ((exists B, cs_from_parts nmaj nmin indptr indices data true = Some B) <->
          lengths_ok /\ check_ptr_pairs indptr = true /\
          forallb (check_one_row nmin indices) (firstn nmaj (combine indptr (skipn 1 indptr))) = true) as ->.
  { rewrite <- cs_from_parts_unchecked_iff by auto. unfold cs_from_parts. simpl andb.
    repeat match goal with |- context [if ?c then None else _] => destruct c; [split; [intros [? H]|intros [[? H] ?]]; discriminate|] end.
    destruct (check_ptr_pairs indptr) eqn:E1; simpl.
    2:{ split; [intros [? H]; discriminate|intros (_ & H & _); discriminate]. }
    destruct (forallb _ _) eqn:E2; simpl; split; eauto.
    intros [? H]; discriminate. intros (_ & _ & H); discriminate. }
  split.
  - intros ((L1 & L2 & L3 & L4) & CP & CR).
    assert (forall i a b, nth_error indptr i = Some a -> nth_error indptr (S i) = Some b -> a <= b) as MONO.
    { intros i a b Ea Eb. unfold check_ptr_pairs in CP. rewrite forallb_forall in CP.
      specialize (CP (a, b)). cbn [fst snd] in CP.
      assert (In (a, b) (combine indptr (skipn 1 indptr))) as I.
      { eapply nth_error_In. apply nth_pairs. eauto. }
      specialize (CP I). lia. }
    assert (forall i a b, nth_error indptr i = Some a -> nth_error indptr (S i) = Some b ->
      check_one_row nmin indices (a, b) = true) as ROW.
    { intros i a b Ea Eb. rewrite forallb_forall in CR. apply CR.
      pose proof (nth_error_lt _ _ _ Eb).
      apply nth_error_In with (n := i). rewrite nth_error_firstn' by lia. apply nth_pairs. eauto. }
    assert (forall i a b, nth_error indptr i = Some a -> nth_error indptr (S i) = Some b ->
        0 <= a /\ a <= b /\ b <= Z.of_nat (length indices)) as RNG.
    { intros i a b Ea Eb. pose proof (MONO _ _ _ Ea Eb). specialize (ROW _ _ _ Ea Eb).
      unfold check_one_row, usize_try_from in ROW. cbn [fst snd] in ROW.
      destruct (0 <=? a) eqn:?; [|discriminate]. destruct (0 <=? b) eqn:?; [|discriminate].
      destruct (_ <? _)%nat eqn:?; [discriminate|].
      destruct (_ || _)%bool eqn:E; [discriminate|]. apply orb_false_iff in E. lia. }
    assert (forall p, (p < length indices)%nat -> forall m, (m <= nmaj)%nat ->
        (exists s, nth_error indptr m = Some s /\ Z.of_nat p < s) ->
        exists i a b, nth_error indptr i = Some a /\ nth_error indptr (S i) = Some b /\ a <= Z.of_nat p < b) as COVER.
    { intros p Hp. induction m as [|m IH]; intros Hm (s & Es & Hs).
      - rewrite L4 in Es. inv Es. lia.
      - destruct (nth_error indptr m) as [t|] eqn:Et.
        2:{ apply nth_error_None in Et. lia. }
        destruct (Z.lt_ge_cases (Z.of_nat p) t).
        + apply IH; [lia|]. eauto.
        + exists m, t, s. repeat split; auto. }
    constructor.
    + constructor; cbn [major minor ptr idx dat A].
      * auto.
      * auto.
      * auto.
      * auto.
      * auto.
      * intros p j E. pose proof (nth_error_lt _ _ _ E) as L.
        destruct (COVER p L nmaj) as (i & a & b & Ea & Eb & Hp); auto. { eexists. split; eauto. lia. }
        destruct (RNG _ _ _ Ea Eb) as (R1 & R2 & R3).
        pose proof (proj1 (check_row_sorted a b R1 R2 R3) (ROW _ _ _ Ea Eb)) as [_ B].
        split. eapply B; eauto.
        rewrite Forall_forall in RI. apply nth_error_In in E. apply RI in E. unfold is_i64 in E. lia.
    + intros i s e p q a b Es Ee Hp Hpq Hq Ea Eb. cbn [major minor ptr idx dat A] in *.
      destruct (RNG _ _ _ Es Ee) as (R1 & R2 & R3).
      pose proof (proj1 (check_row_sorted s e R1 R2 R3) (ROW _ _ _ Es Ee)) as [SS _].
      eapply SS; eauto.
  - intros C. pose proof (can_ok _ C) as OK.
    assert (forall i a b, nth_error indptr i = Some a -> nth_error indptr (S i) = Some b ->
        0 <= a /\ a <= b /\ b <= Z.of_nat (length indices)) as RNG.
    { intros i a b Ea Eb.
      assert (S i <= nmaj)%nat as Li. { apply nth_error_lt in Eb. pose proof (ok_ptr_len _ OK). simpl in *. lia. }
      pose proof (ptr_range A i OK ltac:(simpl; lia)). pose proof (ptr_range A (S i) OK ltac:(simpl; lia)).
      pose proof (ok_mono _ OK _ _ _ Ea Eb). simpl ptr in *. simpl idx in *.
      rewrite (nth_error_nth _ _ 0 Ea) in *. rewrite (nth_error_nth _ _ 0 Eb) in *. lia. }
    split; [|split].
    + repeat split; [apply (ok_ptr_len _ OK)|apply (ok_len _ OK)|apply (ok_last _ OK)|apply (ok_first _ OK)].
    + unfold check_ptr_pairs. apply forallb_forall. intros [a b] I. apply In_nth_error in I.
      destruct I as [n E]. apply nth_pairs in E. destruct E as [Ea Eb]. pose proof (RNG _ _ _ Ea Eb). simpl. lia.
    + apply forallb_forall. intros [a b] I. apply In_nth_error in I. destruct I as [n E].
      assert (n < nmaj)%nat as Ln.
      { apply nth_error_lt in E. rewrite firstn_length in E. lia. }
      rewrite nth_error_firstn' in E by auto. apply nth_pairs in E. destruct E as [Ea Eb].
      destruct (RNG _ _ _ Ea Eb) as (R1 & R2 & R3). apply check_row_sorted; auto. split.
      * intros p q x y Hp Hpq Hq Ex Ey. apply (can_sorted _ C n a b p q x y); auto.
      * intros p j Hp Ej. apply (ok_bound _ OK) in Ej. simpl in Ej. lia.
Qed.
End Cs.

(** ** Coordinate lists *)
Lemma opt_if : forall {X} (x : X) (b : bool) (P : Prop), (b = true <-> P) ->
  exists r, Ok (if b then Some x else None) = Ok r /\ (r = Some x <-> P) /\ (r = None <-> ~ P).
Proof. intros X x b P H. eexists. split; [reflexivity|]. destruct b; intuition congruence. Qed.

Lemma allM_total : forall {A} (f : A -> res bool) g l,
  (forall a, In a l -> f a = Ok (g a)) -> allM f l = Ok (forallb g l).
Proof.
  induction l; simpl; intros H; auto. rewrite H by auto. simpl.
  destruct (g a); simpl; auto.
Qed.

Section CooS.
Context {V : Type}.
Variables (nrows ncols : nat) (row col : list Z) (data : list V).

Definition cell_in (n : nat) (z : Z) : bool := (0 <=? z) && (z <? Z.of_nat n).

Lemma coo_check_one_eq : forall k, length row = length data -> length col = length data ->
  (k < length data)%nat ->
  coo_check_one nrows ncols row col k = Ok (cell_in nrows (nth k row 0) && cell_in ncols (nth k col 0)).
Proof.
  intros k L1 L2 Lk. unfold coo_check_one, get_checked.
  rewrite (nth_error_nth' row 0) by lia. rewrite (nth_error_nth' col 0) by lia. simpl bind.
  set (i := nth k row 0). set (j := nth k col 0). unfold usize_try_from, cell_in.
  destruct ((i <? 0) || (j <? 0))%bool eqn:E; [f_equal; lia|].
  replace (0 <=? i) with true by lia. replace (0 <=? j) with true by lia. cbn [andb]. f_equal. lia.
Qed.

Lemma coo_from_parts_iff : Forall is_i64 row -> Forall is_i64 col ->
  exists r, coo_from_parts nrows ncols row col data true = Ok r /\
    (r = Some (mkCoo nrows ncols row col data) <-> coo_ok (mkCoo nrows ncols row col data)) /\
    (r = None <-> ~ coo_ok (mkCoo nrows ncols row col data)).
Proof.
  intros I1 I2. unfold coo_from_parts.
  pose proof (opt_if (mkCoo nrows ncols row col data)) as G.
  destruct (length row =? length data)%nat eqn:E1; simpl.
  2:{ specialize (G false (coo_ok (mkCoo nrows ncols row col data))). apply G.
      split; [discriminate|]. intros [H _ _ _]. simpl in H. lia. }
  destruct (length col =? length data)%nat eqn:E2; simpl.
  2:{ specialize (G false (coo_ok (mkCoo nrows ncols row col data))). apply G.
      split; [discriminate|]. intros [_ H _ _]. simpl in H. lia. }
  erewrite allM_total.
  2:{ intros k I. apply in_seq in I. apply coo_check_one_eq; lia. }
  simpl. set (b := forallb _ _).
  replace (if b then Ok (Some (mkCoo nrows ncols row col data)) else Ok None)
     with (Ok (if b then Some (mkCoo nrows ncols row col data) else None)) by (destruct b; auto).
  apply G. unfold b. rewrite forallb_forall. split.
  - intros H. constructor; simpl; try lia.
    + intros p i E. pose proof (nth_error_lt _ _ _ E). specialize (H p ltac:(apply in_seq; lia)).
      rewrite (nth_error_nth _ _ 0 E) in H. unfold cell_in in H.
      apply nth_error_In in E. rewrite Forall_forall in I1. apply I1 in E. unfold is_i64 in E. lia.
    + intros p i E. pose proof (nth_error_lt _ _ _ E). specialize (H p ltac:(apply in_seq; lia)).
      rewrite (nth_error_nth _ _ 0 E) in H. unfold cell_in in H.
      apply nth_error_In in E. rewrite Forall_forall in I2. apply I2 in E. unfold is_i64 in E. lia.
  - intros [_ _ B1 B2] k I. apply in_seq in I. simpl in *.
    specialize (B1 k (nth k row 0) ltac:(apply nth_error_nth'; lia)).
    specialize (B2 k (nth k col 0) ltac:(apply nth_error_nth'; lia)). unfold cell_in. lia.
Qed.

Lemma coo_from_parts_unchecked_iff :
  exists r, coo_from_parts nrows ncols row col data false = Ok r /\
    (r = Some (mkCoo nrows ncols row col data) <-> length row = length data /\ length col = length data) /\
    (r = None <-> ~ (length row = length data /\ length col = length data)).
Proof.
  unfold coo_from_parts.
  destruct (length row =? length data)%nat eqn:E1, (length col =? length data)%nat eqn:E2; simpl;
    eexists; (split; [reflexivity|]); split; split; intros; try discriminate; try lia; auto.
Qed.
End CooS.

Lemma chunks_length : forall {A} d n (l : list A), length (chunks d n l) = n.
Proof. induction n; simpl; auto. Qed.

Lemma nth_chunks : forall {A} d n (l : list A) k, (k < n)%nat ->
  nth k (chunks d n l) [] = firstn d (skipn (k * d) l).
Proof.
  induction n; intros l k H; [lia|]. simpl. destruct k; simpl; auto.
  rewrite IHn by lia. rewrite skipn_skipn'. f_equal.
Qed.

Section NdS.
Context {V : Type}.
Variables (shape indices : list Z) (data : list V).

Lemma nd_check_one_eq : forall k d, length indices = (length data * length shape)%nat ->
  (k < length data)%nat -> (d < length shape)%nat ->
  nd_check_one shape indices k d =
    Ok ((0 <=? nth (k * length shape + d) indices 0) && (nth (k * length shape + d) indices 0 <? nth d shape 0)).
Proof.
  intros k d L Hk Hd. unfold nd_check_one, get_checked.
  rewrite (nth_error_nth' indices 0) by nia. rewrite (nth_error_nth' shape 0) by lia. simpl bind.
  set (x := nth _ indices 0). unfold usize_try_from.
  destruct (x <? 0) eqn:E. { f_equal. lia. }
  replace (0 <=? x) with true by lia. rewrite Z2Nat.id by lia. auto.
Qed.

Lemma nd_from_parts_iff : Forall is_i64 indices ->
  Z.of_nat (length indices) <= usize_max ->
  exists r, nd_from_parts shape indices data true = Ok r /\
    (r = Some (mkNd shape indices data) <-> nd_ok (mkNd shape indices data)) /\
    (r = None <-> ~ nd_ok (mkNd shape indices data)).
Proof.
  intros RI RL. unfold nd_from_parts.
  pose proof (opt_if (mkNd shape indices data)) as G.
  destruct (length shape =? 0)%nat eqn:E0.
  { apply (G false). split; [discriminate|]. intros [H _ _]. simpl in H. destruct shape; simpl in *; congruence. }
  destruct ((length data =? 0)%nat && negb (length indices =? 0)%nat)%bool eqn:E1.
  { apply (G false). split; [discriminate|]. intros [_ H _]. simpl in H. nia. }
  destruct (Z.of_nat (length data) * Z.of_nat (length shape) <=? usize_max) eqn:E2; simpl.
  2:{ apply (G false). split; [discriminate|]. intros [_ H _]. simpl in H. nia. }
  destruct (length indices =? length data * length shape)%nat eqn:E3; simpl.
  2:{ apply (G false). split; [discriminate|]. intros [_ H _]. simpl in H. nia. }
  erewrite allM_total.
  2:{ intros k I. apply in_seq in I. apply allM_total. intros d Id. apply in_seq in Id.
      apply nd_check_one_eq; lia. }
  simpl. set (b := forallb _ _).
  replace (if b then Ok (Some (mkNd shape indices data)) else Ok None)
     with (Ok (if b then Some (mkNd shape indices data) else None)) by (destruct b; auto).
  apply G. unfold b. rewrite forallb_forall.
  assert (forall k d, (k < length data)%nat -> (d < length shape)%nat ->
     nth d (nth k (chunks (length shape) (length data) indices) []) 0 = nth (k * length shape + d) indices 0) as NC.
  { intros k d Hk Hd. rewrite nth_chunks by auto.
    apply nth_error_nth. rewrite nth_error_firstn' by auto. rewrite nth_error_skipn'.
    apply nth_error_nth'. nia. }
  assert (forall k, (k < length data)%nat -> length (nth k (chunks (length shape) (length data) indices) []) = length shape) as LC.
  { intros k Hk. rewrite nth_chunks by auto. rewrite firstn_length, skipn_length. nia. }
  split.
  - intros H. constructor; simpl.
    + destruct shape; simpl in *; congruence.
    + lia.
    + unfold nd_keys. simpl. apply Forall_forall. intros key I.
      apply In_nth with (d := []) in I. destruct I as (k & Hk & <-). rewrite chunks_length in Hk.
      specialize (H k ltac:(apply in_seq; lia)). rewrite forallb_forall in H.
      unfold in_shape.
      assert (forall l l' : list Z, length l = length l' ->
        (forall d, (d < length l')%nat -> 0 <= nth d l 0 < nth d l' 0 /\ nth d l 0 <= i64_max) ->
        Forall2 (fun x n => 0 <= x < n /\ x <= i64_max) l l') as F2.
      { clear. induction l as [|x l IH]; intros [|y l'] L H; try discriminate; constructor.
        - apply (H 0%nat). simpl. lia.
        - apply IH; [simpl in L; lia|]. intros d Hd. apply (H (S d)). simpl. lia. }
      apply F2; auto. intros d Hd. rewrite NC by auto.
      specialize (H d ltac:(apply in_seq; lia)).
      assert (is_i64 (nth (k * length shape + d) indices 0)) as R.
      { rewrite Forall_forall in RI. apply RI. apply nth_In. nia. }
      unfold is_i64 in R. lia.
  - intros [_ _ B] k Ik. apply in_seq in Ik. apply forallb_forall. intros d Id. apply in_seq in Id.
    unfold nd_keys in B. simpl in B. rewrite Forall_forall in B.
    specialize (B (nth k (chunks (length shape) (length data) indices) [])
       ltac:(apply nth_In; rewrite chunks_length; lia)).
    unfold in_shape in B.
    apply Forall2_nth_error with (n := d) (a := nth (k * length shape + d) indices 0) (b := nth d shape 0) in B.
    + lia.
    + rewrite <- NC by lia. apply nth_error_nth'. rewrite LC; lia.
    + apply nth_error_nth'. lia.
Qed.

Lemma nd_from_parts_unchecked_iff : Z.of_nat (length indices) <= usize_max ->
  exists r, nd_from_parts shape indices data false = Ok r /\
    (r = Some (mkNd shape indices data) <->
       shape <> [] /\ length indices = (length data * length shape)%nat) /\
    (r = None <-> ~ (shape <> [] /\ length indices = (length data * length shape)%nat)).
Proof.
  intros RL. unfold nd_from_parts.
  pose proof (opt_if (mkNd shape indices data)) as G.
  destruct (length shape =? 0)%nat eqn:E0.
  { apply (G false). split; [discriminate|]. intros [H _]. destruct shape; simpl in *; congruence. }
  assert (shape <> []) as NS by (destruct shape; simpl in *; [lia|discriminate]).
  destruct ((length data =? 0)%nat && negb (length indices =? 0)%nat)%bool eqn:E1.
  { apply (G false). split; [discriminate|]. intros [_ H]. nia. }
  destruct (Z.of_nat (length data) * Z.of_nat (length shape) <=? usize_max) eqn:E2; simpl.
  2:{ apply (G false). split; [discriminate|]. intros [_ H]. nia. }
  destruct (length indices =? length data * length shape)%nat eqn:E3; simpl.
  - apply (G true). split; auto. intros _. split; auto. lia.
  - apply (G false). split; [discriminate|]. intros [_ H]. nia.
Qed.
End NdS.
