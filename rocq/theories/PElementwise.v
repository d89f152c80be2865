(** Proofs about the binary elementwise kernels. *)
Require Import List ZArith Bool Lia Arith Sorted Permutation.
Require Import ZifyBool ZifyNat.
Require Import Verif.Res Verif.Values Verif.Spec Verif.Mem Verif.Lists Verif.CsLib Verif.Laws.
Require Import Verif.MElementwise.
Import ListNotations.
Local Open Scope Z_scope.

Section PE.
Context {F : Fl}.
Notation row := (list (Z * F)).
Implicit Types (r a b out : row) (v w x y : F) (f g : F -> F -> F) (la lb : list F)
  (keep : F -> F -> bool) (emit : F -> F -> option F) (sch : list (nat * (Z * F)) -> list (nat * (Z * F))).


(** Sorted, repetitions allowed. *)
Definition lsorted (r : row) : Prop := StronglySorted Z.le (map fst r).

Lemma srow_lsorted : forall r, srow r -> lsorted r.
Proof.
  unfold srow, lsorted. intros r. generalize (map fst r) as l. induction 1; constructor; auto.
  eapply Forall_impl; [|exact H0]. intros; simpl in *; lia.
Qed.

(** ** [run] *)
Lemma run_fst : forall f g j r v w, snd (run f j v r) = snd (run g j w r).
Proof. induction r as [|[k x] r IH]; intros; simpl; auto. destruct (k =? j); auto. Qed.

Lemma run_skip : forall f j r v, snd (run f j v r) = skip_run j r.
Proof. induction r as [|[k x] r IH]; intros; simpl; auto. destruct (k =? j); auto. Qed.

Lemma skip_run_length : forall j r, (length (skip_run j r) <= length r)%nat.
Proof. induction r as [|[k x] r IH]; simpl; auto. destruct (k =? j); simpl; lia. Qed.

Lemma skip_run_head : forall j x r, (length (skip_run j ((j, x) :: r)) <= length r)%nat.
Proof. intros. simpl. rewrite Z.eqb_refl. apply skip_run_length. Qed.

Lemma skip_run_lt : forall j x r, (length (skip_run j ((j, x) :: r)) < length ((j, x) :: r))%nat.
Proof. intros. pose proof (skip_run_head j x r). simpl length at 2. lia. Qed.

Lemma skip_run_neq : forall j r, (forall k x r', r = (k, x) :: r' -> k <> j) -> skip_run j r = r.
Proof.
  intros j [|[k x] r] H; auto. simpl. destruct (Z.eqb_spec k j); auto. exfalso. eapply H; eauto.
Qed.

Lemma run_neq : forall f j r v, (forall k x r', r = (k, x) :: r' -> k <> j) -> run f j v r = (v, r).
Proof.
  intros f j [|[k x] r] v H; auto. simpl. destruct (Z.eqb_spec k j); auto. exfalso. eapply H; eauto.
Qed.

Lemma skip_run_In : forall j r e, In e (skip_run j r) -> In e r.
Proof.
  induction r as [|[k x] r IH]; simpl; auto. intros e. destruct (k =? j); simpl; auto.
Qed.

Lemma skip_run_lsorted : forall j r, lsorted r -> lsorted (skip_run j r).
Proof.
  induction r as [|[k x] r IH]; simpl; auto. intros S. destruct (k =? j); auto.
  apply IH. unfold lsorted in *. simpl in S. inv S. auto.
Qed.

Lemma lsorted_inv : forall k (x : F) r, lsorted ((k, x) :: r) -> lsorted r /\ Forall (fun e => k <= fst e) r.
Proof. unfold lsorted. simpl. intros k x r H. inv H. split; auto. rewrite Forall_map in H3. auto. Qed.

Lemma skip_run_gt : forall j r, lsorted r -> Forall (fun e => j <= fst e) r ->
  Forall (fun e => j < fst e) (skip_run j r).
Proof.
  induction r as [|[k x] r IH]; simpl; intros S FA; auto.
  apply lsorted_inv in S. destruct S as [S F']. inv FA. simpl in H1.
  destruct (Z.eqb_spec k j); auto.
  constructor; simpl; [lia|]. eapply Forall_impl; [|exact F']. simpl; intros; lia.
Qed.

Lemma skip_run_at : forall j r j', j' <> j -> at_index j' (skip_run j r) = at_index j' r.
Proof.
  induction r as [|[k x] r IH]; intros j' H; simpl; auto.
  destruct (Z.eqb_spec k j); auto. rewrite IH by auto. rewrite at_index_cons.
  destruct (Z.eqb_spec k j'); auto. congruence.
Qed.

Lemma run_value : forall f j r v, lsorted r -> Forall (fun e => j <= fst e) r ->
  fst (run f j v r) = fold_left f (at_index j r) v.
Proof.
  induction r as [|[k x] r IH]; intros v S FA; simpl; auto.
  apply lsorted_inv in S. destruct S as [S F']. inv FA. simpl in H1. rewrite at_index_cons.
  destruct (Z.eqb_spec k j).
  - simpl. apply IH; auto.
  - simpl. rewrite at_index_lt; auto. eapply Forall_impl; [|exact F']. simpl; intros; lia.
Qed.

Lemma run_split : forall f j v r, run f j v r = (fst (run f j v r), skip_run j r).
Proof. intros. rewrite <- (run_skip f j r v). destruct (run f j v r); auto. Qed.

Lemma lsorted_min : forall r j, lsorted r -> (j <= head_or_max r) -> Forall (fun e => j <= fst e) r.
Proof.
  intros [|[k x] r] j S H; auto. apply lsorted_inv in S. destruct S as [S F'].
  simpl in H. constructor; simpl; auto. eapply Forall_impl; [|exact F']. simpl; intros; lia.
Qed.

(** ** Count and fill agree, for arbitrary rows, and never run out of fuel *)
Lemma merge_step_length : forall (a b : row),
  is_nil a && is_nil b = false ->
  Forall (fun e => fst e <= i64_max) a -> Forall (fun e => fst e <= i64_max) b ->
  let j := if head_or_max a <=? head_or_max b then head_or_max a else head_or_max b in
  (length (skip_run j a) + length (skip_run j b) < length a + length b)%nat.
Proof.
  intros a b N BA BB j.
  assert (LT : forall k x r, (length (skip_run k ((k, x) :: r)) < length ((k, x) :: r))%nat).
  { intros. pose proof (skip_run_head k x r). simpl length in *. lia. }
  pose proof (skip_run_length j a). pose proof (skip_run_length j b).
  destruct a as [|[k x] a]; destruct b as [|[k' x'] b]; try discriminate N; cbn [head_or_max] in *.
  - inv BB. cbn [fst] in *.
    assert (j = k') as E by (unfold j; destruct (i64_max <=? k') eqn:E; lia).
    pose proof (LT k' x' b) as LT'. rewrite <- E in LT'. rewrite <- E. lia.
  - inv BA. cbn [fst] in *.
    assert (j = k) as E by (unfold j; destruct (k <=? i64_max) eqn:E; lia).
    pose proof (LT k x a) as LT'. rewrite <- E in LT'. rewrite <- E. lia.
  - destruct (k <=? k') eqn:E.
    + pose proof (LT k x a). unfold j in *. lia.
    + pose proof (LT k' x' b). unfold j in *. lia.
Qed.

Lemma Forall_skip : forall (P : Z * F -> Prop) j r, Forall P r -> Forall P (skip_run j r).
Proof. intros. rewrite Forall_forall in *. intros. apply H. eapply skip_run_In; eauto. Qed.

Lemma merge_total : forall g fuel (a b : row), (length a + length b <= fuel)%nat ->
  Forall (fun e => fst e <= i64_max) a -> Forall (fun e => fst e <= i64_max) b ->
  exists out, merge_fill g fuel a b = Ok out /\ merge_count g fuel a b = Ok (length out).
Proof.
  induction fuel as [|fuel IH]; intros a b L BA BB.
  - destruct a, b; simpl in L; try lia. exists []. split; reflexivity.
  - cbn [merge_fill merge_count].
    destruct (is_nil a && is_nil b) eqn:N. { exists []. auto. }
    pose proof (merge_step_length a b N BA BB) as LT. cbv zeta in LT.
    set (j := if head_or_max a <=? head_or_max b then head_or_max a else head_or_max b) in *.
    rewrite (run_split fadd j f0 a). rewrite (run_split g j _ b).
    set (v := fst (run g _ _ _)).
    destruct (IH (skip_run j a) (skip_run j b)) as (out & E1 & E2); [lia|apply Forall_skip; auto..|].
    rewrite E1, E2. simpl. eexists. split; [reflexivity|]. destruct (nonzero v); auto.
Qed.

Lemma sub_fill_merge : forall fuel (a b : row),
  sub_fill fuel a b = merge_fill fsub fuel a b.
Proof.
  induction fuel as [|fuel IH]; intros a b; cbn [sub_fill merge_fill]; auto.
  destruct (is_nil a && is_nil b) eqn:N; auto.
  destruct (head_or_max a <=? head_or_max b) eqn:LE.
  - rewrite (run_split fadd). set (v := fst (run fadd _ _ _)).
    destruct (head_or_max b =? head_or_max a) eqn:EQ.
    + rewrite (run_split fsub). rewrite IH. reflexivity.
    + rewrite (run_neq fsub (head_or_max a) b v). rewrite IH. reflexivity.
      intros k x r' -> ->. simpl in EQ. lia.
  - rewrite (run_neq fadd (head_or_max b) a f0).
    2:{ intros k x r' -> E. simpl in LE. lia. }
    rewrite (run_split fsub). rewrite IH. reflexivity.
Qed.

Lemma isect_total : forall keep emit, (forall x y, keep x y = match emit x y with Some _ => true | None => false end) ->
  forall fuel (a b : row), (length a + length b <= fuel)%nat ->
  exists out, isect_fill emit fuel a b = Ok out /\ isect_count keep fuel a b = Ok (length out).
Proof.
  intros keep emit KE. induction fuel as [|fuel IH]; intros a b L.
  - destruct a, b; simpl in L; try lia. exists []. split; reflexivity.
  - cbn [isect_fill isect_count].
    destruct a as [|[ja x] a]; [exists []; split; reflexivity|].
    destruct b as [|[jb y] b]; [exists []; split; reflexivity|].
    pose proof (skip_run_lt ja x a). pose proof (skip_run_lt jb y b).
    destruct (Z.compare_spec ja jb).
    + subst jb. rewrite (run_split fadd ja f0 ((ja, x) :: a)), (run_split fadd ja f0 ((ja, y) :: b)). set (sa := fst (run fadd ja f0 ((ja, x) :: a))). set (sb := fst (run fadd ja f0 ((ja, y) :: b))).
      destruct (IH (skip_run ja ((ja, x) :: a)) (skip_run ja ((ja, y) :: b))) as (out & E1 & E2); [lia|].
      rewrite E1, E2. simpl. eexists. split; [reflexivity|]. rewrite KE. destruct (emit sa sb); auto.
    + apply IH. lia.
    + apply IH. lia.
Qed.

(** ** Meaning on sorted rows *)
Definition merged (g : F -> F -> F) (la lb : list F) : list F :=
  match la, lb with
  | [], [] => []
  | _, _ => let v := fold_left g lb (fold_left fadd la f0) in if nonzero v then [v] else []
  end.

Lemma merge_sem : forall g fuel (a b out : row), merge_fill g fuel a b = Ok out ->
  lsorted a -> lsorted b ->
  Forall (fun e => fst e <= i64_max) a -> Forall (fun e => fst e <= i64_max) b ->
  srow out /\
  (forall e, In e out -> In (fst e) (map fst a) \/ In (fst e) (map fst b)) /\
  (forall j, at_index j out = merged g (at_index j a) (at_index j b)) /\
  Forall (fun e => nonzero (snd e) = true) out.
Proof.
  induction fuel as [|fuel IH]; intros a b out E SA SB BA BB.
  - cbn in E. destruct a, b; simpl in E; inv E. simpl. split; [constructor|].
    split; [simpl; tauto|]. split; auto.
  - cbn [merge_fill] in E. destruct (is_nil a && is_nil b) eqn:N.
    { inv E. destruct a, b; try discriminate. split; [constructor|]. split; [simpl; tauto|]. split; auto. }
    set (j0 := if head_or_max a <=? head_or_max b then head_or_max a else head_or_max b) in *.
    assert (j0 <= head_or_max a /\ j0 <= head_or_max b) as [M1 M2] by (unfold j0; destruct (_ <=? _) eqn:?; lia).
    pose proof (lsorted_min a j0 SA M1) as GA. pose proof (lsorted_min b j0 SB M2) as GB.
    rewrite (run_split fadd j0 f0 a) in E. rewrite (run_split g j0 _ b) in E.
    rewrite !run_value in E by auto. fold (at_index j0 a) in E.
    set (v := fold_left g (at_index j0 b) (fold_left fadd (at_index j0 a) f0)) in *.
    destruct (merge_fill g fuel (skip_run j0 a) (skip_run j0 b)) as [out'| | |] eqn:E'; try discriminate.
    simpl in E.
    destruct (IH _ _ _ E') as (S' & I' & A' & Z').
    { apply skip_run_lsorted; auto. } { apply skip_run_lsorted; auto. }
    { apply Forall_skip; auto. } { apply Forall_skip; auto. }
    assert (Forall (fun e => j0 < fst e) out') as GT.
    { apply Forall_forall. intros e Ie. apply I' in Ie.
      destruct Ie as [Ie|Ie]; apply in_map_iff in Ie; destruct Ie as (e' & <- & Ie);
        pose proof (skip_run_gt j0 a SA GA) as GA'; pose proof (skip_run_gt j0 b SB GB) as GB';
        rewrite Forall_forall in GA', GB'; auto. }
    assert (In j0 (map fst a) \/ In j0 (map fst b)) as IN.
    { unfold j0. destruct a as [|[k x] a], b as [|[k' x'] b]; try discriminate N; simpl.
      - inv BB. simpl in *. destruct (_ <=? _) eqn:?; right; left; lia.
      - inv BA. simpl in *. destruct (_ <=? _) eqn:?; left; left; lia.
      - destruct (_ <=? _); auto. }
    assert (NE : ~ (at_index j0 a = [] /\ at_index j0 b = [])).
    { intros [EA EB].
      assert (forall r : row, In j0 (map fst r) -> at_index j0 r <> []) as NN.
      { clear. induction r as [|[k x] r IHr]; simpl; [tauto|]. rewrite at_index_cons.
        intros [->|I]; [rewrite Z.eqb_refl; discriminate|]. destruct (k =? j0); [discriminate|auto]. }
      destruct IN as [IN|IN]; apply NN in IN; auto. }
    assert (AT : forall j, at_index j (if nonzero v then (j0, v) :: out' else out')
                 = merged g (at_index j a) (at_index j b)).
    { intros j. destruct (Z.eq_dec j j0) as [->|D].
      - assert (at_index j0 out' = []) as Z0 by (apply at_index_lt; auto).
        transitivity (if nonzero v then [v] else []).
        { destruct (nonzero v); rewrite ?at_index_cons, ?Z.eqb_refl, Z0; auto. }
        unfold v, merged. destruct (at_index j0 a), (at_index j0 b); auto. tauto.
      - transitivity (at_index j out').
        { destruct (nonzero v); auto. rewrite at_index_cons. destruct (Z.eqb_spec j0 j); auto. congruence. }
        rewrite A'. rewrite !skip_run_at by auto. auto. }
    assert (I2 : forall e, In e out' -> In (fst e) (map fst a) \/ In (fst e) (map fst b)).
    { intros e Ie. apply I' in Ie. destruct Ie as [Ie|Ie]; apply in_map_iff in Ie; destruct Ie as (e' & <- & Ie);
      apply skip_run_In in Ie; [left|right]; apply in_map; auto. }
    inv E. destruct (nonzero v) eqn:NZ.
    + split; [apply srow_cons; auto|]. split; [|split; auto].
      intros e [<-|Ie]; auto.
    + split; auto.
Qed.

Definition isected (emit : F -> F -> option F) (la lb : list F) : list F :=
  match la, lb with
  | [], _ | _, [] => []
  | _, _ => match emit (fold_left fadd la f0) (fold_left fadd lb f0) with Some v => [v] | None => [] end
  end.

Lemma isected_nil_r : forall emit la, isected emit la [] = [].
Proof. intros. destruct la; auto. Qed.

Lemma isect_sem : forall emit fuel (a b out : row), isect_fill emit fuel a b = Ok out ->
  lsorted a -> lsorted b ->
  srow out /\
  (forall e, In e out -> In (fst e) (map fst a) /\ In (fst e) (map fst b)) /\
  (forall j, at_index j out = isected emit (at_index j a) (at_index j b)) /\
  Forall (fun e => exists x y, emit x y = Some (snd e)) out.
Proof.
  induction fuel as [|fuel IH]; intros a b out E SA SB.
  - cbn in E. destruct a as [|[ja x] a]; [|destruct b as [|[jb y] b]; [|discriminate]]; inv E;
      (split; [constructor|]); (split; [simpl; tauto|]); split; auto.
    intros j. rewrite isected_nil_r. auto.
  - cbn [isect_fill] in E.
    destruct a as [|[ja x] a]. { inv E. split; [constructor|]. split; [simpl; tauto|]. split; auto. }
    destruct b as [|[jb y] b]. { inv E. split; [constructor|]. split; [simpl; tauto|]. split; auto.
       intros. rewrite isected_nil_r. auto. }
    assert (GA : Forall (fun e => ja <= fst e) ((ja, x) :: a)) by (apply lsorted_min; auto; simpl; lia).
    assert (GB : Forall (fun e => jb <= fst e) ((jb, y) :: b)) by (apply lsorted_min; auto; simpl; lia).
    destruct (Z.compare_spec ja jb) as [EQ|LT|GT].
    + subst jb. rewrite (run_split fadd ja f0 ((ja, x) :: a)), (run_split fadd ja f0 ((ja, y) :: b)) in E.
      rewrite !run_value in E by auto.
      set (sa := fold_left fadd (at_index ja ((ja, x) :: a)) f0) in *.
      set (sb := fold_left fadd (at_index ja ((ja, y) :: b)) f0) in *.
      destruct (isect_fill emit fuel _ _) as [out'| | |] eqn:E'; try discriminate. simpl in E.
      destruct (IH _ _ _ E') as (S' & I' & A' & Z'); try (apply skip_run_lsorted; auto).
      assert (Forall (fun e => ja < fst e) out') as G'.
      { apply Forall_forall. intros e Ie. apply I' in Ie. destruct Ie as [Ie _].
        apply in_map_iff in Ie; destruct Ie as (e' & <- & Ie).
        pose proof (skip_run_gt ja _ SA GA) as GA'. rewrite Forall_forall in GA'. auto. }
      assert (I2 : forall e, In e out' -> In (fst e) (map fst ((ja, x) :: a)) /\ In (fst e) (map fst ((ja, y) :: b))).
      { intros e Ie. apply I' in Ie. destruct Ie as [Ie1 Ie2]. split.
        - apply in_map_iff in Ie1; destruct Ie1 as (e' & <- & Ie1). apply skip_run_In in Ie1. apply in_map; auto.
        - apply in_map_iff in Ie2; destruct Ie2 as (e' & <- & Ie2). apply skip_run_In in Ie2. apply in_map; auto. }
      assert (AT : forall j, at_index j (match emit sa sb with Some v => (ja, v) :: out' | None => out' end)
                 = isected emit (at_index j ((ja, x) :: a)) (at_index j ((ja, y) :: b))).
      { intros j. destruct (Z.eq_dec j ja) as [->|D].
        - assert (at_index ja out' = []) as Z0 by (apply at_index_lt; auto).
          transitivity (match emit sa sb with Some v => [v] | None => [] end).
          { destruct (emit sa sb); rewrite ?at_index_cons, ?Z.eqb_refl, Z0; auto. }
          unfold sa, sb. rewrite !at_index_cons, Z.eqb_refl. reflexivity.
        - transitivity (at_index j out').
          { destruct (emit sa sb); auto. rewrite at_index_cons. destruct (Z.eqb_spec ja j); auto. congruence. }
          rewrite A'. rewrite !skip_run_at by auto. auto. }
      inv E. destruct (emit sa sb) eqn:EM.
      * split; [apply srow_cons; auto|]. split; [|split; [auto|constructor; eauto]].
        intros e [<-|Ie]; auto. simpl. auto.
      * split; auto.
    + destruct (IH _ _ _ E) as (S' & I' & A' & Z'); [apply skip_run_lsorted; auto|auto|].
      split; auto. split; [|split; auto].
      * intros e Ie. apply I' in Ie. destruct Ie as [Ie1 Ie2]. split; auto.
        apply in_map_iff in Ie1; destruct Ie1 as (e' & <- & Ie1). apply skip_run_In in Ie1. apply in_map; auto.
      * intros j. rewrite A'. destruct (Z.eq_dec j ja) as [->|D]; [|rewrite skip_run_at by auto; auto].
        rewrite (at_index_lt ja (skip_run ja ((ja, x) :: a))) by (apply skip_run_gt; auto).
        rewrite (at_index_lt ja ((jb, y) :: b)); [symmetry; apply isected_nil_r|].
        eapply Forall_impl; [|exact GB]. simpl; intros; lia.
    + destruct (IH _ _ _ E) as (S' & I' & A' & Z'); [auto|apply skip_run_lsorted; auto|].
      split; auto. split; [|split; auto].
      * intros e Ie. apply I' in Ie. destruct Ie as [Ie1 Ie2]. split; auto.
        apply in_map_iff in Ie2; destruct Ie2 as (e' & <- & Ie2). apply skip_run_In in Ie2. apply in_map; auto.
      * intros j. rewrite A'. destruct (Z.eq_dec j jb) as [->|D]; [|rewrite (skip_run_at jb) by auto; auto].
        rewrite (at_index_lt jb (skip_run jb ((jb, y) :: b))) by (apply skip_run_gt; auto).
        rewrite (at_index_lt jb ((ja, x) :: a)); [reflexivity|].
        eapply Forall_impl; [|exact GA]. simpl; intros; lia.
Qed.

(** ** Whole matrices *)
Lemma in_bounds_max : forall m (r : row), in_bounds m r -> Forall (fun e => fst e <= i64_max) r.
Proof. unfold in_bounds. intros m r H. eapply Forall_impl; [|exact H]. simpl. intros; lia. Qed.

Definition spec_row (fill : row -> row -> res row) (A B : Cs F) (i : nat) : row :=
  match fill (cs_row A i) (cs_row B i) with Ok r => r | _ => [] end.

(** Any kernel whose two passes agree on rows with bounded indices is memory
    safe on structurally valid operands and assembles the rows in place. *)
Lemma binary_cs_rows : forall count fill sch (A B : Cs F),
  is_schedule sch ->
  (forall a b, Forall (fun e => fst e <= i64_max) a -> Forall (fun e => fst e <= i64_max) b ->
     exists out, fill a b = Ok out /\ count a b = Ok (length out)) ->
  cs_ok A -> cs_ok B -> major A = major B -> minor A = minor B ->
  binary_cs count fill sch A B = Ok (of_rows (minor A) (map (spec_row fill A B) (seq 0 (major A)))).
Proof.
  intros count fill sch A B HS AG OA OB E1 E2. unfold binary_cs.
  rewrite E1, E2, !Nat.eqb_refl.
  assert (forall i, (i < major B)%nat -> nth i (map (spec_row fill A B) (seq 0 (major B))) [] = spec_row fill A B i) as N.
  { intros i H. rewrite nth_indep with (d' := spec_row fill A B 0) by (rewrite map_length, seq_length; auto).
    rewrite map_nth, seq_nth by auto. auto. }
  apply two_pass_ok; auto.
  - rewrite map_length, seq_length. auto.
  - intros i H. rewrite N by auto. rewrite !get_row_ok by (auto; lia). simpl. unfold spec_row.
    destruct (AG (cs_row A i) (cs_row B i)) as (out & -> & _); auto;
      eapply in_bounds_max; apply row_bounds; auto; lia.
  - intros i H. rewrite N by auto. rewrite !get_row_ok by (auto; lia). simpl. unfold spec_row.
    destruct (AG (cs_row A i) (cs_row B i)) as (out & -> & ->); auto;
      eapply in_bounds_max; apply row_bounds; auto; lia.
Qed.

Lemma binary_cs_canonical : forall count fill (P : list F -> list F -> list F) sch (A B : Cs F),
  is_schedule sch ->
  (forall a b, Forall (fun e => fst e <= i64_max) a -> Forall (fun e => fst e <= i64_max) b ->
     exists out, fill a b = Ok out /\ count a b = Ok (length out)) ->
  (forall a b out, fill a b = Ok out -> lsorted a -> lsorted b ->
     Forall (fun e => fst e <= i64_max) a -> Forall (fun e => fst e <= i64_max) b ->
     srow out /\ (forall e, In e out -> In (fst e) (map fst a) \/ In (fst e) (map fst b)) /\
     (forall j, at_index j out = P (at_index j a) (at_index j b))) ->
  cs_ok A -> cs_ok B -> Forall lsorted (rows A) -> Forall lsorted (rows B) ->
  major A = major B -> minor A = minor B ->
  exists C, binary_cs count fill sch A B = Ok C /\ canonical C /\
    major C = major A /\ minor C = minor A /\
    (forall i, (i < major A)%nat -> cs_row C i = spec_row fill A B i) /\
    (forall i j, (i < major A)%nat -> cs_at C i j = P (cs_at A i j) (cs_at B i j)).
Proof.
  intros count fill P sch A B HS AG SEM OA OB SA SB E1 E2.
  eexists. split; [apply binary_cs_rows; auto|].
  assert (forall i, (i < major A)%nat -> exists out, fill (cs_row A i) (cs_row B i) = Ok out /\
    spec_row fill A B i = out /\ srow out /\
    (forall e, In e out -> In (fst e) (map fst (cs_row A i)) \/ In (fst e) (map fst (cs_row B i))) /\
     (forall j, at_index j out = P (at_index j (cs_row A i)) (at_index j (cs_row B i)))) as ROW.
  { intros i Hi.
    pose proof (in_bounds_max _ _ (row_bounds A i OA ltac:(lia))) as BA.
    pose proof (in_bounds_max _ _ (row_bounds B i OB ltac:(lia))) as BB.
    destruct (AG _ _ BA BB) as (out & EF & _). exists out. split; auto.
    split. { unfold spec_row. rewrite EF. auto. }
    eapply SEM; eauto; rewrite Forall_forall in SA, SB; [apply SA|apply SB]; unfold rows; apply in_map; apply in_seq; lia. }
  set (RS := map (spec_row fill A B) (seq 0 (major A))).
  assert (RN : forall i, (i < major A)%nat -> cs_row (of_rows (minor A) RS) i = spec_row fill A B i).
  { intros i Hi. rewrite cs_row_of_rows. unfold RS.
    rewrite nth_indep with (d' := spec_row fill A B 0) by (rewrite map_length, seq_length; auto).
    rewrite map_nth, seq_nth by auto. auto. }
  split; [|split; [|split; [|split]]].
  - apply of_rows_canonical; apply Forall_forall; intros r I; apply in_map_iff in I;
      destruct I as (i & <- & I); apply in_seq in I; destruct (ROW i ltac:(lia)) as (out & EF & -> & S & IN & _); auto.
    pose proof (row_bounds A i OA ltac:(lia)) as BA. pose proof (row_bounds B i OB ltac:(lia)) as BB.
    unfold in_bounds in *. rewrite <- E2 in BB.
    apply Forall_forall. intros e Ie. apply IN in Ie. rewrite Forall_forall in BA, BB.
    destruct Ie as [Ie|Ie]; apply in_map_iff in Ie; destruct Ie as (e' & <- & Ie); auto.
  - simpl. unfold RS. rewrite map_length, seq_length. auto.
  - reflexivity.
  - exact RN.
  - intros i j Hi. unfold cs_at. rewrite RN by auto.
    destruct (ROW i Hi) as (out & _ & -> & _ & _ & AT). apply AT.
Qed.

Lemma binary_cs_shape : forall count fill sch (A B : Cs F),
  major A <> major B \/ minor A <> minor B -> binary_cs count fill sch A B = Panic.
Proof.
  intros count fill sch A B H. unfold binary_cs.
  destruct (major A =? major B)%nat eqn:E1; auto. destruct (minor A =? minor B)%nat eqn:E2; auto. lia.
Qed.

Lemma canonical_lsorted : forall A : Cs F, canonical A -> Forall lsorted (rows A).
Proof.
  intros A C. apply canonical_rows in C. destruct C as [_ FS]. eapply Forall_impl; [|exact FS]. apply srow_lsorted.
Qed.

Lemma add_agree : forall g (a b : row), Forall (fun e => fst e <= i64_max) a -> Forall (fun e => fst e <= i64_max) b ->
  exists out, merge_fill g (length a + length b) a b = Ok out /\ merge_count g (length a + length b) a b = Ok (length out).
Proof. intros. apply merge_total; auto. Qed.

Lemma sub_agree : forall (a b : row), Forall (fun e => fst e <= i64_max) a -> Forall (fun e => fst e <= i64_max) b ->
  exists out, sub_row_fill a b = Ok out /\ sub_row_count a b = Ok (length out).
Proof. intros. unfold sub_row_fill. rewrite sub_fill_merge. apply merge_total; auto. Qed.

Lemma hadamard_agree : forall (a b : row),
  exists out, hadamard_row_fill a b = Ok out /\ hadamard_row_count a b = Ok (length out).
Proof.
  intros. apply isect_total; auto. intros. unfold hadamard_keep, hadamard_emit. destruct (nonzero _); auto.
Qed.
Lemma div_agree : forall (a b : row),
  exists out, div_row_fill a b = Ok out /\ div_row_count a b = Ok (length out).
Proof.
  intros. apply isect_total; auto. intros. unfold div_keep, div_emit. destruct (nonzero y); auto. destruct (_ && _); auto.
Qed.
Lemma pow_agree : forall (a b : row),
  exists out, pow_row_fill a b = Ok out /\ pow_row_count a b = Ok (length out).
Proof.
  intros. apply isect_total; auto. intros. unfold pow_keep, pow_emit. destruct (_ && _); auto.
Qed.
Lemma rem_agree : forall (a b : row),
  exists out, rem_row_fill a b = Ok out /\ rem_row_count a b = Ok (length out).
Proof.
  intros. apply isect_total; auto. intros. unfold rem_keep, rem_emit. destruct (nonzero y); auto. destruct (_ && _); auto.
Qed.
Lemma floordiv_agree : forall (a b : row),
  exists out, floordiv_row_fill a b = Ok out /\ floordiv_row_count a b = Ok (length out).
Proof.
  intros. apply isect_total; auto. intros. unfold floordiv_keep, floordiv_emit. destruct (nonzero y); auto. destruct (_ && _); auto.
Qed.

(** ** Values *)
Section Values.
Hypothesis L : NLaws F.

Lemma canonical_at : forall (A : Cs F) i j, canonical A -> (i < major A)%nat ->
  cs_at A i j = [] \/ exists v, cs_at A i j = [v].
Proof. intros. unfold cs_at. apply srow_at_index. apply canonical_row; auto. Qed.

Lemma merged_value : forall (g : F -> F -> F) la lb,
  (la = [] \/ exists x, la = [x]) -> (lb = [] \/ exists y, lb = [y]) ->
  (forall x x' y y', feqv x x' -> feqv y y' -> feqv (g x y) (g x' y')) ->
  (forall x, feqv (g x f0) x) ->
  feqv (one_or f0 (merged g la lb)) (g (one_or f0 la) (one_or f0 lb)).
Proof.
  intros g la lb Ha Hb GP G0.
  assert (forall v w : F, feqv v w -> feqv (one_or f0 (if nonzero v then [v] else [])) w) as K.
  { intros v w H. unfold nonzero. destruct (feqb v f0) eqn:E; simpl; auto.
    right. split. apply (n_zero _ L). rewrite <- (feqv_zero _ _ H). auto. }
  destruct Ha as [->|[x ->]], Hb as [->|[y ->]]; simpl.
  - apply feqv_sym. apply G0.
  - apply K. apply GP; apply feqv_refl.
  - apply K. eapply feqv_trans; [apply (n_add_0_l _ L)|]. apply feqv_sym. apply G0.
  - apply K. apply GP; [apply (n_add_0_l _ L)|apply feqv_refl].
Qed.

Lemma add_0_l_nz : forall x : F, feqb x f0 = false -> fadd f0 x = x.
Proof. intros x H. destruct (n_add_0_l _ L x) as [E|[_ E]]; auto. congruence. Qed.
End Values.
End PE.
