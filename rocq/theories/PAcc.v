(** Proofs about work ranges and thread-local accumulation. *)
Require Import List ZArith Bool Arith Lia Permutation.
Require Import Verif.Res Verif.Values Verif.Spec Verif.Mem Verif.Lists Verif.CsLib Verif.Laws Verif.MHash Verif.PHash Verif.MAcc.
Import ListNotations.
Local Open Scope Z_scope.

(** ** Ranges *)
Definition flat (rs : list (nat * nat)) : list nat := concat (map range rs).

(** ranges between [lo] and [hi], non-empty and in increasing order *)
Fixpoint laid_out (lo hi : nat) (rs : list (nat * nat)) : Prop :=
  match rs with
  | [] => (lo <= hi)%nat
  | r :: rs' => (lo <= fst r < snd r)%nat /\ laid_out (snd r) hi rs'
  end.

Lemma laid_out_weaken : forall rs lo lo' hi, (lo' <= lo)%nat -> laid_out lo hi rs -> laid_out lo' hi rs.
Proof. destruct rs; simpl; intros; [lia|]. split; [lia|tauto]. Qed.

Lemma build_ranges_ok : forall target nnzs j acc c0,
  0 < target -> Forall (fun k => 0 <= k) nnzs -> 0 <= acc -> (acc = 0 \/ (c0 < j)%nat) -> (c0 <= j)%nat ->
  laid_out (if acc =? 0 then j else c0) (j + length nnzs) (build_ranges target j acc c0 nnzs) /\
  forall k, ((if (acc =? 0)%Z then j else c0) <= k < j + length nnzs)%nat ->
    ((k < j)%nat \/ nth (k - j) nnzs 0%Z <> 0%Z) ->
    In k (flat (build_ranges target j acc c0 nnzs)).
Proof.
  induction nnzs as [|x nnzs IH]; intros j acc c0 HT FA HA HC HC'.
  - cbn [build_ranges length]. destruct (Z.eqb_spec acc 0) as [E|N].
    + subst. simpl. split; [lia|]. intros. lia.
    + destruct (Z.ltb_spec 0 acc); [|lia]. simpl. split; [lia|]. intros k Hk [Hl|Hn].
      * unfold flat, range. simpl. rewrite app_nil_r. apply in_seq. lia.
      * destruct (k - j)%nat; simpl in Hn; lia.
  - inv FA. cbn [build_ranges length].
    set (c := if acc =? 0 then j else c0). assert (Hc : (c <= j)%nat) by (unfold c; destruct (acc =? 0); lia).
    destruct (Z.leb_spec target (acc + x)) as [G|G].
    + destruct (IH (S j) 0 c) as [L C]; auto; try lia. simpl Z.eqb in *. cbn match in *. split.
      * cbn [laid_out fst snd]. split; [lia|]. eapply laid_out_weaken; [|replace (j + S (length nnzs))%nat with (S j + length nnzs)%nat by lia; exact L]. lia.
      * intros k Hk Hn. unfold flat. cbn [map concat]. apply in_or_app.
        destruct (Nat.lt_ge_cases k (S j)).
        -- left. unfold range. cbn [fst snd]. apply in_seq. lia.
        -- right. apply C; [lia|]. right. destruct Hn as [Hn|Hn]; [lia|].
           replace (k - j)%nat with (S (k - S j)) in Hn by lia. exact Hn.
    + destruct (IH (S j) (acc + x) c) as [L C]; auto; try lia.
      destruct (Z.eqb_spec (acc + x) 0) as [E|N].
      * assert (acc = 0) by lia. assert (x = 0) by lia. subst acc x.
        assert (c = j) by reflexivity. split.
        -- eapply laid_out_weaken; [|replace (j + S (length nnzs))%nat with (S j + length nnzs)%nat by lia; exact L]. lia.
        -- intros k Hk Hn. destruct (Nat.eq_dec k j) as [->|].
           ++ destruct Hn as [Hn|Hn]; [lia|]. rewrite Nat.sub_diag in Hn. simpl in Hn. lia.
           ++ apply C; [lia|]. right. destruct Hn as [Hn|Hn]; [lia|].
              replace (k - j)%nat with (S (k - S j)) in Hn by lia. exact Hn.
      * split.
        -- replace (j + S (length nnzs))%nat with (S j + length nnzs)%nat by lia. exact L.
        -- intros k Hk Hn. apply C; [lia|]. destruct (Nat.lt_ge_cases k (S j)); [auto|]. right.
           destruct Hn as [Hn|Hn]; [lia|]. replace (k - j)%nat with (S (k - S j)) in Hn by lia. exact Hn.
Qed.

(** Whatever is read from the uncovered positions is empty, so nothing is lost. *)
Lemma concat_nil_map : forall {A} (f : nat -> list A) l, (forall k, In k l -> f k = []) -> concat (map f l) = [].
Proof. induction l; simpl; intros; auto. rewrite H, IHl; auto. Qed.

Lemma concat_laid_out : forall {A} (f : nat -> list A) rs lo hi, laid_out lo hi rs ->
  (forall k, (lo <= k < hi)%nat -> In k (flat rs) \/ f k = []) ->
  concat (map f (flat rs)) = concat (map f (seq lo (hi - lo))).
Proof.
  induction rs as [|[s e] rs IH]; intros lo hi L C; cbn [laid_out fst snd] in L.
  - simpl. symmetry. apply concat_nil_map. intros k I. apply in_seq in I. destruct (C k); [lia| |auto]. contradiction.
  - destruct L as [L1 L2].
    assert (HI : (e <= hi)%nat). { clear - L2. revert e L2. induction rs as [|[a b] rs]; simpl; intros; [lia|]. destruct L2. specialize (IHrs b). simpl in *. apply IHrs in H0. lia. }
    assert (HG : forall k, In k (flat rs) -> (e <= k)%nat).
    { clear - L2. revert e L2. induction rs as [|[a b] rs IH]; simpl; intros; [contradiction|].
      destruct L2 as [L L2]. unfold flat in H. simpl in H. apply in_app_or in H. destruct H as [H|H].
      - unfold range in H. simpl in *. apply in_seq in H. lia.
      - specialize (IH b L2 k H). simpl in *. lia. }
    unfold flat in *. cbn [map concat]. rewrite map_app, concat_app, (IH e hi L2).
    2:{ intros k Hk. destruct (C k) as [I|I]; [lia| |auto]. cbn [map concat] in I. apply in_app_or in I. destruct I as [I|I]; auto.
        unfold range in I. simpl in I. apply in_seq in I. lia. }
    replace (hi - lo)%nat with ((s - lo) + ((e - s) + (hi - e)))%nat by lia.
    rewrite !seq_app, !map_app, !concat_app.
    rewrite (concat_nil_map f (seq lo (s - lo))).
    2:{ intros k I. apply in_seq in I. destruct (C k) as [J|J]; [lia| |auto]. exfalso. cbn [map concat] in J. apply in_app_or in J. destruct J as [J|J].
        - unfold range in J. simpl in J. apply in_seq in J. lia.
        - apply HG in J. lia. }
    cbn [app]. unfold range. cbn [fst snd]. replace (lo + (s - lo))%nat with s by lia. replace (s + (e - s))%nat with e by lia. auto.
Qed.

(** Chunks cover every position once, in order. *)
Lemma div_ceil_spec : forall a b, (0 < b)%nat -> (a <= div_ceil a b * b)%nat /\ (a = 0 \/ (div_ceil a b - 1) * b < a)%nat.
Proof.
  intros a b Hb. unfold div_ceil. pose proof (Nat.div_mod (a + b - 1) b ltac:(lia)) as D.
  pose proof (Nat.mod_upper_bound (a + b - 1) b ltac:(lia)). set (q := ((a + b - 1) / b)%nat) in *. split; [nia|].
  destruct (Nat.eq_dec a 0); [auto|]. right. destruct q; [nia|]. simpl. rewrite Nat.sub_0_r. nia.
Qed.

Lemma flat_chunks_aux : forall chunk nnz m, (0 < chunk)%nat ->
  concat (map range (map (fun t => (t * chunk, Nat.min (t * chunk + chunk) nnz)%nat) (seq 0 m))) = seq 0 (Nat.min (m * chunk) nnz).
Proof.
  intros chunk nnz m HC. induction m as [|m IH]; [reflexivity|].
  rewrite seq_S, !map_app, concat_app, IH. cbn [map concat app]. rewrite app_nil_r. unfold range. cbn [fst snd]. change (0 + m)%nat with m.
  destruct (Nat.le_gt_cases nnz (m * chunk)).
  - replace (Nat.min (m * chunk + chunk) nnz - m * chunk)%nat with 0%nat by lia. change (seq (m * chunk) 0) with (@nil nat). rewrite app_nil_r.
    f_equal. lia.
  - replace (Nat.min (m * chunk) nnz) with (m * chunk)%nat by lia.
    replace (Nat.min (S m * chunk) nnz) with (m * chunk + (Nat.min (m * chunk + chunk) nnz - m * chunk))%nat by (simpl; lia).
    rewrite seq_app. auto.
Qed.

Lemma flat_chunks : forall chunk nnz, (0 < chunk)%nat -> flat (chunk_ranges chunk nnz) = seq 0 nnz.
Proof.
  intros. unfold flat, chunk_ranges. rewrite flat_chunks_aux by auto. f_equal.
  destruct (div_ceil_spec nnz chunk); auto. lia.
Qed.

Lemma map_flat : forall {A} (f : nat -> A) rs, map f (flat rs) = concat (map (fun r => map f (range r)) rs).
Proof. intros. unfold flat. rewrite concat_map, map_map. auto. Qed.

Lemma concat_concat_flat : forall {A} (f : nat -> list A) rs,
  concat (map (fun r => concat (map f (range r))) rs) = concat (map f (flat rs)).
Proof. intros A f rs. unfold flat. induction rs; simpl; auto. rewrite IHrs, map_app, concat_app. auto. Qed.

(** ** Slices *)
Lemma to_usize_id : forall x, 0 <= x <= usize_max -> to_usize x = x.
Proof. intros. unfold to_usize. apply Z.mod_small. unfold usize_max in *. lia. Qed.

Lemma alloc_usize : forall n m, alloc_ok n -> (m <= n)%nat -> 0 <= Z.of_nat m <= usize_max.
Proof. unfold alloc_ok, i64_max, usize_max. intros. lia. Qed.

Lemma row_checked_ok : forall {V} (A : Cs V) i, cs_ok A -> alloc_ok (length (dat A)) -> (i < major A)%nat ->
  row_checked A i = Ok (cs_row A i).
Proof.
  intros V A i OK AL Hi. unfold row_checked, get_checked.
  rewrite !ptr_nth by (auto; lia). cbn [bind].
  pose proof (ptr_range A i OK ltac:(lia)) as R1. pose proof (ptr_range A (S i) OK ltac:(lia)) as R2.
  pose proof (ptr_mono A i (S i) OK ltac:(lia) ltac:(lia)) as M.
  assert (EL : length (idx A) = length (dat A)) by (destruct OK; tauto).
  unfold alloc_ok, i64_max in AL.
  rewrite !to_usize_id by (unfold usize_max; lia).
  unfold cs_row. destruct (Z.leb_spec (nth (S i) (ptr A) 0) (nth i (ptr A) 0)).
  - unfold slice. replace (Z.to_nat (nth (S i) (ptr A) 0%Z) - Z.to_nat (nth i (ptr A) 0%Z))%nat with 0%nat by lia. auto.
  - rewrite !(proj2 (Z.leb_le _ _)) by lia. auto.
Qed.

Lemma slice_nnz_ok : forall {V} (A : Cs V) i, cs_ok A -> alloc_ok (length (dat A)) -> (i < major A)%nat ->
  slice_nnz A i = Ok (Z.of_nat (length (cs_row A i))).
Proof.
  intros V A i OK AL Hi. unfold slice_nnz, get_checked.
  rewrite !ptr_nth by (auto; lia). cbn [bind].
  pose proof (ptr_range A i OK ltac:(lia)) as R1. pose proof (ptr_range A (S i) OK ltac:(lia)) as R2.
  pose proof (ptr_mono A i (S i) OK ltac:(lia) ltac:(lia)) as M.
  assert (EL : length (idx A) = length (dat A)) by (destruct OK; tauto).
  unfold alloc_ok, i64_max in AL. pose proof (cs_row_length A i OK Hi) as CL.
  rewrite !to_usize_id by (unfold usize_max; lia). rewrite Z.mod_small by lia. f_equal. lia.
Qed.

Lemma work_ranges_ok : forall {V} (A : Cs V), cs_ok A -> alloc_ok (length (dat A)) ->
  exists rs, work_ranges A = Ok rs /\ laid_out 0 (major A) rs /\
    forall k, (k < major A)%nat -> In k (flat rs) \/ cs_row A k = [].
Proof.
  intros V A OK AL. unfold work_ranges.
  rewrite (mapM_ok _ (fun i => Z.of_nat (length (cs_row A i)))).
  2:{ intros i I. apply in_seq in I. apply slice_nnz_ok; auto. lia. }
  cbn [bind]. eexists. split; [reflexivity|].
  destruct (build_ranges_ok TARGET (map (fun i => Z.of_nat (length (cs_row A i))) (seq 0 (major A))) 0 0 0) as [L C]; auto; try lia.
  - reflexivity.
  - apply Forall_forall. intros x I. apply in_map_iff in I. destruct I as (i & <- & _). lia.
  - rewrite map_length, seq_length in *. split; [exact L|]. intros k Hk.
    destruct (cs_row A k) eqn:E; [auto|]. left. apply C; [simpl; lia|]. right.
    rewrite Nat.sub_0_r.
    erewrite nth_indep by (rewrite map_length, seq_length; lia).
    rewrite (map_nth (fun i => Z.of_nat (length (cs_row A i)))), seq_nth by lia. simpl Nat.add. rewrite E. simpl. lia.
Unshelve. exact 0%nat.
Qed.

Lemma range_bound : forall rs lo hi k, laid_out lo hi rs -> In k (flat rs) -> (lo <= k < hi)%nat.
Proof.
  induction rs as [|[a b] rs IH]; simpl; intros lo hi k L I; [contradiction|].
  destruct L as [L1 L2]. unfold flat in I. simpl in I. apply in_app_or in I. destruct I as [I|I].
  - unfold range in I. simpl in *. apply in_seq in I.
    assert (b <= hi)%nat. { clear - L2. revert b L2. induction rs as [|[a b'] rs]; simpl; intros; [lia|]. destruct L2. specialize (IHrs b'). simpl in *. apply IHrs in H0. lia. }
    lia.
  - specialize (IH b hi k L2 I). simpl in *. lia.
Qed.

Section Acc.
Context {F : Fl} (Z0 : feqb (f0 : F) f0 = true).
Notation ops := (list (Z * F)).

(** ** Additions into an array *)
Definition slots_below (n : nat) (l : ops) : Prop := Forall (fun e => 0 <= fst e < Z.of_nat n) l.

Lemma add_all_ok : forall oob (l : ops) y, slots_below (length y) l ->
  exists y', add_all oob y l = Ok y' /\ length y' = length y /\
    forall i, nth i y' f0 = fold_left fadd (at_index (Z.of_nat i) l) (nth i y f0).
Proof.
  intros oob. induction l as [|[k v] l IH]; intros y SB.
  - exists y. simpl. auto.
  - inv SB. cbn [fst] in *. unfold add_all. cbn [foldM]. unfold add_at at 1. cbn [fst snd].
    destruct (Z.ltb_spec k 0); [lia|].
    destruct (nth_error y (Z.to_nat k)) as [x|] eqn:EX; [|apply nth_error_None in EX; lia]. cbn [bind].
    destruct (IH (upd y (Z.to_nat k) (fadd x v))) as (y' & E & L & A).
    { unfold slots_below. rewrite upd_length. auto. }
    exists y'. split; [exact E|]. rewrite upd_length in L. split; auto. intros i. rewrite A, at_index_cons.
    rewrite nth_upd by lia. destruct (Nat.eqb_spec (Z.to_nat k) i).
    + subst i. rewrite Z2Nat.id, Z.eqb_refl by lia. cbn [fold_left]. apply nth_error_nth with (d := f0) in EX. rewrite EX. auto.
    + destruct (Z.eqb_spec k (Z.of_nat i)); [lia|]. auto.
Qed.

Lemma add_all_app : forall oob (l l' : ops) y, add_all oob y (l ++ l') = (let! y := add_all oob y l in add_all oob y l').
Proof. intros. unfold add_all. apply foldM_app. Qed.

Lemma add_all_concat : forall oob {X} (g : X -> ops) xs y,
  foldM (fun y x => add_all oob y (g x)) xs y = add_all oob y (concat (map g xs)).
Proof.
  induction xs; intros; [reflexivity|]. cbn [foldM map concat]. rewrite add_all_app.
  destruct (add_all oob y (g a)); cbn [bind]; auto.
Qed.

(** ** Refinement of contributions by merged additions:
    per slot, the merged values are sums of a partition of the contributions. *)
Definition Refines (c d : ops) : Prop :=
  forall i, exists cs, Forall2 FSum cs (at_index i d) /\ Permutation (concat cs) (at_index i c).

Lemma Refines_nil : Refines [] [].
Proof. intros i. exists []. split; constructor. Qed.

Lemma Refines_app : forall c c' d d', Refines c d -> Refines c' d' -> Refines (c ++ c') (d ++ d').
Proof.
  intros c c' d d' H H' i. destruct (H i) as (cs & FS & P). destruct (H' i) as (cs' & FS' & P').
  exists (cs ++ cs'). rewrite !at_index_app, concat_app. split; [apply Forall2_app; auto|]. apply Permutation_app; auto.
Qed.

Lemma at_index_perm : forall i (l l' : ops), Permutation l l' -> Permutation (at_index i l) (at_index i l').
Proof. intros. unfold at_index. apply Permutation_map. apply Permutation_filter. auto. Qed.

Lemma Refines_perm_l : forall c c' d, Permutation c c' -> Refines c d -> Refines c' d.
Proof.
  intros c c' d P H i. destruct (H i) as (cs & FS & Q). exists cs. split; auto.
  eapply Permutation_trans; [exact Q|]. apply at_index_perm. auto.
Qed.

Lemma Forall2_perm_r : forall {A B} (R : A -> B -> Prop) l' l2, Permutation l' l2 -> forall l, Forall2 R l l' -> exists l1, Permutation l l1 /\ Forall2 R l1 l2.
Proof.
  induction 1; intros l0 HF.
  - inv HF. exists []. auto.
  - inv HF. destruct (IHPermutation _ H4) as (m1 & P & HF). exists (x0 :: m1). auto.
  - inversion HF as [|a0 ? r0 ? Ha Hr]; subst. inversion Hr as [|b0 ? r1 ? Hb Hr']; subst. exists (b0 :: a0 :: r1). split; [constructor|auto].
  - destruct (IHPermutation1 _ HF) as (m1 & P1 & F1). destruct (IHPermutation2 _ F1) as (m2 & P2 & F2).
    exists m2. split; auto. eapply Permutation_trans; eauto.
Qed.

Lemma Permutation_concat : forall {A} (l l' : list (list A)), Permutation l l' -> Permutation (concat l) (concat l').
Proof.
  induction 1; simpl; auto.
  - apply Permutation_app_head. auto.
  - rewrite !app_assoc. apply Permutation_app_tail. apply Permutation_app_comm.
  - eapply Permutation_trans; eauto.
Qed.

Lemma Refines_perm_r : forall c d d', Permutation d d' -> Refines c d -> Refines c d'.
Proof.
  intros c d d' P H i. destruct (H i) as (cs & FS & Q).
  destruct (Forall2_perm_r _ _ _ (at_index_perm i _ _ P) _ FS) as (cs' & P' & F').
  exists cs'. split; auto. eapply Permutation_trans; [|exact Q]. apply Permutation_concat. apply Permutation_sym. auto.
Qed.

Lemma Refines_concat : forall {X} (c d : X -> ops) xs, (forall x, In x xs -> Refines (c x) (d x)) ->
  Refines (concat (map c xs)) (concat (map d xs)).
Proof.
  induction xs; intros H; simpl; [apply Refines_nil|]. apply Refines_app; [apply H; simpl; auto|apply IHxs; intros; apply H; simpl; auto].
Qed.

Lemma Refines_sum : forall c d i v0 l0, Refines c d -> FSum l0 v0 ->
  FSum (l0 ++ at_index i c) (fold_left fadd (at_index i d) v0).
Proof.
  intros c d i v0 l0 H HS. destruct (H i) as (cs & FS & P).
  eapply FSum_perm; [apply Permutation_app_head; exact P|]. clear P.
  revert l0 v0 HS. induction FS; intros l0 v0 HS; simpl.
  - rewrite app_nil_r. auto.
  - rewrite app_assoc. apply IHFS. constructor; auto.
Qed.

Lemma Refines_refl : forall c, Refines c c.
Proof.
  intros c i. exists (map (fun v => [v]) (at_index i c)). generalize (at_index i c). induction l; simpl; [split; constructor|].
  destruct IHl. split; [constructor; auto; constructor|]. constructor. auto.
Qed.

(** Adding a refinement to a zero array gives the per-slot sums. *)
Lemma add_refined : forall oob n (c d : ops), slots_below n d -> Refines c d ->
  exists y, add_all oob (repeat f0 n) d = Ok y /\ length y = n /\
    forall i, (i < n)%nat -> FSum (at_index (Z.of_nat i) c) (nth i y f0).
Proof.
  intros oob n c d SB R. destruct (add_all_ok oob d (repeat f0 n)) as (y & E & L & A).
  { rewrite repeat_length. auto. }
  rewrite repeat_length in L. exists y. split; auto. split; auto. intros i Hi. rewrite A, nth_repeat.
  apply (Refines_sum c d (Z.of_nat i) f0 []); auto. apply FSum_nil0. auto.
Qed.

(** ** Hash maps *)
Lemma drain_to_add_all : forall m (y : list F), drain_to m y = add_all UB y (pairs m).
Proof.
  intros m y. unfold drain_to, pairs. revert y. induction (slots m) as [|[k v] l IH]; intros y; [reflexivity|].
  cbn [foldM filter fst]. destruct (Z.eqb_spec k usize_max); cbn [negb].
  - cbn [bind]. apply IH.
  - unfold add_all. cbn [foldM]. unfold add_at at 1. cbn [fst snd]. destruct (Z.ltb_spec k 0); auto.
    unfold get_unchecked. destruct (nth_error y (Z.to_nat k)); cbn [bind]; auto. apply IH.
Qed.

Lemma FSum_left_sum : forall l : list F, match left_sum l with [] => l = [] | v :: _ => FSum l v end.
Proof. destruct l as [|x l]; simpl; auto. apply (FSum_fold_left l [x] x). constructor. Qed.

Lemma tally_refines : forall c P, tally c P -> Refines c P.
Proof.
  intros c P [_ AT] i. rewrite AT. pose proof (FSum_left_sum (at_index i c)) as H.
  destruct (left_sum (at_index i c)) as [|v l] eqn:E.
  - rewrite H. exists []. split; constructor.
  - exists [at_index i c]. simpl. rewrite app_nil_r. split; [|auto].
    destruct (at_index i c); [discriminate|]. simpl in E. inv E. constructor; auto.
Qed.

Lemma concat_concat' : forall {A} (l : list (list (list A))), concat (concat l) = concat (map (@concat A) l).
Proof. induction l; simpl; auto. rewrite concat_app, IHl. auto. Qed.

Lemma foldM_ext : forall {A S} (f g : S -> A -> res S) l s, (forall s a, In a l -> f s a = g s a) -> foldM f l s = foldM g l s.
Proof.
  induction l; intros s H; [reflexivity|]. cbn [foldM]. rewrite H by (simpl; auto). destruct (g s a); cbn [bind]; auto.
  apply IHl. intros. apply H. simpl. auto.
Qed.

Lemma merge_threads : forall n (run : list ops -> res ops) (dist : list ops -> list (list ops)) tasks,
  (forall ts, slots_below n (concat ts) -> exists d, run ts = Ok d /\ slots_below n d /\ Refines (concat ts) d) ->
  is_distribution dist -> slots_below n (concat tasks) ->
  exists ds, mapM run (dist tasks) = Ok ds /\ slots_below n (concat ds) /\ Refines (concat tasks) (concat ds).
Proof.
  intros n run dist tasks HR HD SB.
  assert (P : Permutation (concat tasks) (concat (map (@concat _) (dist tasks)))).
  { eapply Permutation_trans; [apply Permutation_concat; apply HD|].
    rewrite concat_concat'. auto. }
  assert (SB' : slots_below n (concat (map (@concat _) (dist tasks)))).
  { unfold slots_below. eapply Permutation_Forall; [exact P|exact SB]. }
  clear SB. cut (exists ds, mapM run (dist tasks) = Ok ds /\ slots_below n (concat ds) /\ Refines (concat (map (@concat _) (dist tasks))) (concat ds)).
  { intros (ds & E & B & R). exists ds. split; auto. split; auto. eapply Refines_perm_l; [apply Permutation_sym; exact P|auto]. }
  clear P HD. induction (dist tasks) as [|ts l IH].
  - exists []. simpl. split; auto. split; [constructor|apply Refines_nil].
  - simpl in SB'. unfold slots_below in SB'. apply Forall_app in SB'. destruct SB' as [S1 S2].
    destruct (HR ts S1) as (d & E & B & R). destruct (IH S2) as (ds & E' & B' & R').
    exists (d :: ds). cbn [mapM]. rewrite E. cbn [bind]. rewrite E'. cbn [bind]. split; auto. simpl.
    split; [apply Forall_app; auto|]. apply Refines_app; auto.
Qed.

(** From per-thread results to the merged array. *)
Lemma tls_merge : forall {S} oob n (run : list ops -> res S) (out : S -> ops) (dist : list ops -> list (list ops)) tasks,
  (forall ts, slots_below n (concat ts) -> exists s, run ts = Ok s /\ slots_below n (out s) /\ Refines (concat ts) (out s)) ->
  is_distribution dist -> slots_below n (concat tasks) ->
  exists ss y, mapM run (dist tasks) = Ok ss /\
    Forall (fun s => exists ts, slots_below n (concat ts) /\ run ts = Ok s) ss /\ add_all oob (repeat f0 n) (concat (map out ss)) = Ok y /\ length y = n /\
    forall i, (i < n)%nat -> FSum (at_index (Z.of_nat i) (concat tasks)) (nth i y f0).
Proof.
  intros S oob n run out dist tasks HR HD SB.
  assert (P : Permutation (concat tasks) (concat (map (@concat _) (dist tasks)))).
  { eapply Permutation_trans; [apply Permutation_concat; apply HD|]. rewrite concat_concat'. auto. }
  assert (SB' : slots_below n (concat (map (@concat _) (dist tasks)))).
  { unfold slots_below. eapply Permutation_Forall; [exact P|exact SB]. }
  assert (exists ss, mapM run (dist tasks) = Ok ss /\ Forall (fun s => exists ts, slots_below n (concat ts) /\ run ts = Ok s) ss /\ slots_below n (concat (map out ss)) /\ Refines (concat (map (@concat _) (dist tasks))) (concat (map out ss))) as (ss & E & FR & B & R).
  { clear - HR SB'. induction (dist tasks) as [|ts l IH].
    - exists []. simpl. split; auto. split; [constructor|]. split; [constructor|apply Refines_nil].
    - simpl in SB'. unfold slots_below in SB'. apply Forall_app in SB'. destruct SB' as [S1 S2].
      destruct (HR ts S1) as (d & E & B & R). destruct (IH S2) as (ds & E' & FR & B' & R').
      exists (d :: ds). cbn [mapM]. rewrite E. cbn [bind]. rewrite E'. cbn [bind]. split; auto. simpl.
      split; [constructor; eauto|]. split; [apply Forall_app; auto|]. apply Refines_app; auto. }
  destruct (add_refined oob n (concat tasks) (concat (map out ss))) as (y & EY & LY & FY); auto.
  { eapply Refines_perm_l; [apply Permutation_sym; exact P|auto]. }
  exists ss, y. auto 6.
Qed.

(** What every accumulation strategy guarantees: each slot of the result is a sum
    of exactly the values contributed to it. *)
Definition accumulates (n : nat) (run : (list ops -> list (list ops)) -> list ops -> list F -> res (list F)) : Prop :=
  forall dist tasks, is_distribution dist -> slots_below n (concat tasks) ->
  exists y, run dist tasks (repeat f0 n) = Ok y /\ length y = n /\
    forall i, (i < n)%nat -> FSum (at_index (Z.of_nat i) (concat tasks)) (nth i y f0).

Lemma tls_hash_ok : forall n, alloc_ok n -> accumulates n tls_hash.
Proof.
  intros n AL dist tasks HD SB.
  destruct (tls_merge UB n (fun ts => accumulate 1024 (concat ts)) pairs dist tasks) as (ms & y & E & _ & EY & LY & FY); auto.
  - intros ts HS. destruct (accumulate_ok 1024 (concat ts)) as (m & E & _ & TA).
    { unfold slots_below in HS. (eapply Forall_impl; [|exact HS]). intros e He. cbv beta in He |- *.
      unfold alloc_ok, i64_max, usize_max in *. lia. }
    exists m. split; auto. split; [|apply tally_refines; auto].
    apply Forall_forall. intros [k v] I. apply (in_map fst) in I. rewrite (tally_keys _ _ k TA) in I.
    apply in_map_iff in I. destruct I as ([k' v'] & EK & I). simpl in EK. subst. unfold slots_below in HS. rewrite Forall_forall in HS.
    exact (HS _ I).
  - exists y. split; auto. unfold tls_hash. rewrite E. cbn [bind].
    rewrite (foldM_ext _ (fun y m => add_all UB y (pairs m))) by (intros; apply drain_to_add_all).
    rewrite add_all_concat. auto.
Qed.

(** ** Dense accumulators *)
Definition ds_ok (n : nat) (c : ops) (d : Ds F) : Prop :=
  length (vals d) = n /\ length (seen d) = n /\ NoDup (touched d) /\
  (forall off, In off (touched d) <-> nth off (seen d) false = true) /\
  (forall off, In off (touched d) <-> at_index (Z.of_nat off) c <> []) /\
  forall off, (off < n)%nat -> nth off (vals d) f0 = fold_left fadd (at_index (Z.of_nat off) c) f0.

Lemma ds_new_ok : forall n, ds_ok n [] (ds_new n).
Proof.
  intros n. unfold ds_ok, ds_new. cbn [vals seen touched]. rewrite !repeat_length.
  split; [auto|]. split; [auto|]. split; [constructor|]. split; [|split].
  - intros off. rewrite nth_repeat. simpl. intuition discriminate.
  - intros off. unfold at_index. simpl. intuition.
  - intros off _. rewrite nth_repeat. reflexivity.
Qed.

Lemma ds_add_ok : forall n c d k v, ds_ok n c d -> 0 <= k < Z.of_nat n ->
  exists d', ds_add d (k, v) = Ok d' /\ ds_ok n (c ++ [(k, v)]) d'.
Proof.
  intros n c d k v (LV & LS & ND & TS & TC & VV) Hk. unfold ds_add. cbn [fst snd].
  destruct (Z.ltb_spec k 0); [lia|]. remember (Z.to_nat k) as off eqn:EO. assert (HO : (off < n)%nat) by lia.
  assert (EK : k = Z.of_nat off) by lia. clear EO. unfold get_checked.
  destruct (nth_error (seen d) off) as [s|] eqn:ES; [|apply nth_error_None in ES; lia]. cbn [bind].
  assert (NS : nth off (seen d) false = s) by (apply nth_error_nth; auto).
  destruct (nth_error (vals d) off) as [x|] eqn:EX; [|apply nth_error_None in EX; lia].
  assert (NX : nth off (vals d) f0 = x) by (apply nth_error_nth; auto).
  assert (AT : forall o, at_index (Z.of_nat o) (c ++ [(k, v)]) = at_index (Z.of_nat o) c ++ (if Nat.eqb off o then [v] else [])).
  { intros o. rewrite at_index_app. f_equal. rewrite at_index_cons. unfold at_index. simpl. rewrite EK.
    destruct (Nat.eqb_spec off o); [subst; rewrite Z.eqb_refl; auto|]. destruct (Z.eqb_spec (Z.of_nat off) (Z.of_nat o)); [lia|auto]. }
  assert (VV' : forall o, (o < n)%nat -> nth o (upd (vals d) off (fadd x v)) f0 = fold_left fadd (at_index (Z.of_nat o) (c ++ [(k, v)])) f0).
  { intros o Ho. rewrite nth_upd by lia. rewrite AT, fold_left_app. destruct (Nat.eqb_spec off o).
    - subst o. simpl. rewrite <- VV by auto. rewrite NX. auto.
    - simpl. apply VV. auto. }
  destruct s.
  - rewrite EX. cbn [bind]. eexists. split; [reflexivity|]. unfold ds_ok. cbn [vals seen touched].
    rewrite upd_length. split; [auto|]. split; [auto|]. split; [auto|]. split; [auto|]. split; [|auto].
    intros o. rewrite AT. destruct (Nat.eqb_spec off o).
    + subst o. split; intros _.
      * destruct (at_index (Z.of_nat off) c); discriminate.
      * apply TS. auto.
    + rewrite app_nil_r. apply TC.
  - cbn [vals seen touched]. rewrite EX. cbn [bind]. eexists. split; [reflexivity|]. unfold ds_ok. cbn [vals seen touched].
    rewrite !upd_length. split; [auto|]. split; [auto|]. split.
    { eapply Permutation_NoDup; [apply Permutation_cons_append|]. constructor; auto. rewrite TS. congruence. }
    split.
    { intros o. rewrite in_app_iff, TS. rewrite nth_upd by lia. destruct (Nat.eqb_spec off o).
      - subst o. simpl. intuition.
      - simpl. intuition. }
    split; [|auto].
    intros o. rewrite in_app_iff, AT, TC. destruct (Nat.eqb_spec off o).
    + subst o. split; intros _; [destruct (at_index (Z.of_nat off) c); discriminate|simpl; auto].
    + rewrite app_nil_r. simpl. intuition.
Qed.

Lemma ds_adds_ok : forall n (l c : ops) d, ds_ok n c d -> slots_below n l ->
  exists d', foldM ds_add l d = Ok d' /\ ds_ok n (c ++ l) d'.
Proof.
  intros n. induction l as [|[k v] l IH]; intros c d OK SB.
  - exists d. rewrite app_nil_r. simpl. auto.
  - inv SB. cbn [foldM]. destruct (ds_add_ok n c d k v OK H1) as (d1 & E1 & OK1). rewrite E1. cbn [bind].
    destruct (IH _ _ OK1 H2) as (d' & E' & OK'). rewrite <- app_assoc in OK'. exists d'. auto.
Qed.

Definition ds_out (base : nat) (d : Ds F) : ops :=
  map (fun off => (Z.of_nat (base + off), nth off (vals d) f0))
    (if (length (vals d) / 2 <? length (touched d))%nat then seq 0 (length (vals d)) else touched d).

Definition shift (base : nat) (c : ops) : ops := map (fun e => (Z.of_nat base + fst e, snd e)) c.

Lemma at_index_shift : forall base i c, at_index i (shift base c) = at_index (i - Z.of_nat base) c.
Proof.
  intros base i c. induction c as [|[k v] c IH]; auto. cbn [shift map fst snd]. rewrite !at_index_cons.
  fold (shift base c). rewrite IH. destruct (Z.eqb_spec (Z.of_nat base + k) i); destruct (Z.eqb_spec k (i - Z.of_nat base)); auto; lia.
Qed.

Lemma at_index_offsets : forall base (g : nat -> F) offs i, NoDup offs ->
  at_index i (map (fun off => (Z.of_nat (base + off), g off)) offs) =
  if (Z.of_nat base <=? i) && existsb (Nat.eqb (Z.to_nat (i - Z.of_nat base))) offs then [g (Z.to_nat (i - Z.of_nat base))] else [].
Proof.
  intros base g offs i ND. destruct (Z.leb_spec (Z.of_nat base) i); cbn [andb].
  - induction offs as [|o offs IH]; [reflexivity|]. inv ND. cbn [map existsb]. rewrite at_index_cons.
    destruct (Nat.eqb_spec (Z.to_nat (i - Z.of_nat base)) o).
    + destruct (Z.eqb_spec (Z.of_nat (base + o)) i); [|lia]. cbn [orb]. subst o. f_equal. rewrite IH by auto.
      destruct (existsb _ offs) eqn:EX; auto. exfalso. apply existsb_exists in EX. destruct EX as (o' & I & EQ). apply Nat.eqb_eq in EQ. subst o'. auto.
    + destruct (Z.eqb_spec (Z.of_nat (base + o)) i); [lia|]. cbn [orb]. apply IH. auto.
  - apply at_index_nil. intros I. rewrite map_map in I. apply in_map_iff in I. destruct I as (o & E & _). simpl in E. lia.
Qed.

Lemma ds_merge_ok : forall n c d base, ds_ok n c d -> slots_below n c ->
  ds_merge base d = Ok (ds_out base d) /\ slots_below (base + n) (ds_out base d) /\
  Refines (shift base c) (ds_out base d).
Proof.
  intros n c d base (LV & LS & ND & TS & TC & VV) SB.
  assert (TB : forall off, In off (touched d) -> (off < n)%nat).
  { intros off I. apply TS in I. destruct (Nat.lt_ge_cases off n); auto. rewrite nth_overflow in I by lia. discriminate. }
  unfold ds_merge, ds_out. rewrite LV.
  set (offs := if (n / 2 <? length (touched d))%nat then seq 0 n else touched d).
  assert (OB : forall off, In off offs -> (off < n)%nat).
  { unfold offs. destruct (n / 2 <? length (touched d))%nat; auto. intros off I. apply in_seq in I. lia. }
  assert (OD : NoDup offs). { unfold offs. destruct (n / 2 <? length (touched d))%nat; auto. apply seq_NoDup. }
  assert (OT : forall off, In off (touched d) -> In off offs).
  { unfold offs. destruct (n / 2 <? length (touched d))%nat; auto. intros off I. apply in_seq. apply TB in I. lia. }
  split; [|split].
  - rewrite (mapM_ok _ (fun off => (Z.of_nat (base + off), nth off (vals d) f0))); auto.
    intros off I. unfold get_checked. apply OB in I. destruct (nth_error (vals d) off) eqn:E; [|apply nth_error_None in E; lia].
    cbn [bind]. rewrite (nth_error_nth _ _ f0 E). auto.
  - apply Forall_forall. intros e I. apply in_map_iff in I. destruct I as (o & <- & I). apply OB in I. simpl. lia.
  - intros i. rewrite at_index_shift, at_index_offsets by auto.
    destruct (Z.leb_spec (Z.of_nat base) i); cbn [andb].
    + set (o := Z.to_nat (i - Z.of_nat base)). replace (i - Z.of_nat base) with (Z.of_nat o) by lia.
      destruct (existsb (Nat.eqb o) offs) eqn:EX.
      * apply existsb_exists in EX. destruct EX as (o' & I & EQ). apply Nat.eqb_eq in EQ. subst o'.
        exists [at_index (Z.of_nat o) c]. simpl. rewrite app_nil_r. split; [|auto]. constructor; [|constructor].
        rewrite VV by auto. apply (FSum_fold_left _ [] f0). apply FSum_nil0. auto.
      * exists []. split; [constructor|]. simpl. destruct (at_index (Z.of_nat o) c) eqn:EA; [constructor|].
        exfalso. assert (I : In o (touched d)) by (apply TC; congruence). apply OT in I.
        assert (existsb (Nat.eqb o) offs = true) by (apply existsb_exists; exists o; rewrite Nat.eqb_refl; auto). congruence.
    + exists []. split; [constructor|]. simpl. rewrite at_index_nil; [constructor|]. intros I. apply in_map_iff in I.
      destruct I as (e & E & I). unfold slots_below in SB. rewrite Forall_forall in SB. specialize (SB _ I). lia.
Qed.

Lemma shift_0 : forall c, shift 0 c = c.
Proof. intros. unfold shift. rewrite <- (map_id c) at 2. apply map_ext. intros [k v]. reflexivity. Qed.

Lemma tls_dense_ok : forall n, accumulates n (tls_dense n).
Proof.
  intros n dist tasks HD SB.
  assert (HR : forall ts, slots_below n (concat ts) -> exists s, foldM ds_add (concat ts) (ds_new n) = Ok s /\ ds_ok n (concat ts) s).
  { intros ts HS. destruct (ds_adds_ok n (concat ts) [] (ds_new n)) as (d & E & OK); auto; [apply ds_new_ok|]. exists d. auto. }
  destruct (tls_merge Panic n (fun ts => foldM ds_add (concat ts) (ds_new n)) (ds_out 0) dist tasks) as (ds & y & E & FR & EY & LY & FY); auto.
  - intros ts HS. destruct (HR ts HS) as (d & E & OK). exists d. destruct (ds_merge_ok n (concat ts) d 0 OK HS) as (_ & B & R).
    rewrite shift_0 in R. auto.
  - exists y. split; auto. unfold tls_dense. rewrite E. cbn [bind].
    rewrite (foldM_ext _ (fun y d => add_all Panic y (ds_out 0 d))).
    2:{ intros s d I. rewrite Forall_forall in FR. destruct (FR d I) as (ts & HS & ED).
        destruct (HR ts HS) as (d' & ED' & OK). assert (d' = d) by congruence. subst d'.
        destruct (ds_merge_ok n (concat ts) d 0 OK HS) as (-> & _). reflexivity. }
    rewrite add_all_concat. auto.
Qed.

(** ** Striped accumulators *)
Section Stripes.
Variables (stripe n : nat).
Hypothesis HS0 : (0 < stripe)%nat.

Definition bucket (sid : nat) (c : ops) : ops := filter (fun e => (Z.to_nat (fst e) / stripe =? sid)%nat) c.
Definition loc (sid : nat) (c : ops) : ops := map (fun e => (fst e - Z.of_nat (sid * stripe), snd e)) (bucket sid c).
Definition slen (sid : nat) : nat := Nat.min (n - sid * stripe) stripe.

Definition st_ok (c : ops) (accs : list (option (Ds F))) : Prop :=
  length accs = div_ceil n stripe /\
  forall sid, (sid < div_ceil n stripe)%nat ->
    match nth sid accs None with None => bucket sid c = [] | Some d => ds_ok (slen sid) (loc sid c) d end.

Lemma bucket_app : forall sid c c', bucket sid (c ++ c') = bucket sid c ++ bucket sid c'.
Proof. intros. unfold bucket. apply filter_app. Qed.

Lemma stripe_of : forall i, (i < n)%nat -> (i / stripe < div_ceil n stripe)%nat /\ (i / stripe * stripe <= i)%nat /\ (i - i / stripe * stripe < slen (i / stripe))%nat.
Proof.
  intros i Hi. pose proof (Nat.div_mod i stripe ltac:(lia)) as D. pose proof (Nat.mod_upper_bound i stripe ltac:(lia)) as M.
  destruct (div_ceil_spec n stripe HS0) as [C _]. unfold slen. set (q := (i / stripe)%nat) in *. set (m := div_ceil n stripe) in *.
  repeat split; try nia.
Qed.

Lemma st_new_ok : st_ok [] (st_new stripe n).
Proof.
  split; [unfold st_new; apply repeat_length|]. intros sid Hs. unfold st_new. rewrite nth_repeat. reflexivity.
Qed.

Lemma st_add_ok : forall c accs k v, st_ok c accs -> 0 <= k < Z.of_nat n ->
  exists accs', st_add stripe n accs (k, v) = Ok accs' /\ st_ok (c ++ [(k, v)]) accs'.
Proof.
  intros c accs k v (LA & IA) Hk. unfold st_add. cbn [fst snd]. destruct (Z.ltb_spec k 0); [lia|].
  destruct (stripe_of (Z.to_nat k)) as (B1 & B2 & B3); [lia|]. set (sid := (Z.to_nat k / stripe)%nat) in *.
  unfold get_checked at 1. destruct (nth_error accs sid) as [o|] eqn:EO; [|apply nth_error_None in EO; lia]. cbn [bind].
  pose proof (nth_error_nth _ _ None EO) as NO.
  set (d := match o with Some d => d | None => ds_new (Nat.min (n - sid * stripe) stripe) end).
  assert (DO : ds_ok (slen sid) (loc sid c) d).
  { specialize (IA sid B1). rewrite NO in IA. unfold d. destruct o; auto. unfold loc. rewrite IA. apply ds_new_ok. }
  destruct (ds_add_ok (slen sid) (loc sid c) d (Z.of_nat (Z.to_nat k - sid * stripe)) v DO) as (d' & E & DO'); [lia|].
  rewrite E. cbn [bind]. eexists. split; [reflexivity|]. split; [rewrite upd_length; auto|].
  intros s Hs. rewrite nth_upd by lia.
  destruct (Nat.eqb_spec sid s) as [<-|N].
  - replace (loc sid (c ++ [(k, v)])) with (loc sid c ++ [(Z.of_nat (Z.to_nat k - sid * stripe), v)]); auto.
    unfold loc. rewrite bucket_app, map_app. f_equal. unfold bucket. cbn [filter fst]. fold sid. rewrite Nat.eqb_refl. simpl.
    f_equal. f_equal. lia.
  - specialize (IA s Hs). rewrite !bucket_app. unfold loc in *. rewrite !bucket_app.
    assert (EB : bucket s [(k, v)] = []). { unfold bucket. cbn [filter fst]. fold sid. destruct (Nat.eqb_spec sid s); [contradiction|auto]. }
    rewrite EB, app_nil_r. auto.
Qed.

Lemma st_run_ok : forall c, slots_below n c -> exists accs, st_run stripe n c = Ok accs /\ st_ok c accs.
Proof.
  intros c. unfold st_run. cut (forall l c0 accs, st_ok c0 accs -> slots_below n l -> exists accs', foldM (st_add stripe n) l accs = Ok accs' /\ st_ok (c0 ++ l) accs').
  { intros H SB. apply (H c [] _ st_new_ok SB). }
  clear c. induction l as [|[k v] l IH]; intros c0 accs OK SB.
  - exists accs. rewrite app_nil_r. auto.
  - inv SB. cbn [foldM]. destruct (st_add_ok c0 accs k v OK H1) as (a1 & E1 & OK1). rewrite E1. cbn [bind].
    destruct (IH _ _ OK1 H2) as (a' & E' & OK'). rewrite <- app_assoc in OK'. eauto.
Qed.

Definition st_out (accs : list (option (Ds F))) (sid : nat) : ops :=
  match nth sid accs None with None => [] | Some d => ds_out (sid * stripe) d end.

Lemma shift_loc : forall sid c, shift (sid * stripe) (loc sid c) = bucket sid c.
Proof.
  intros. unfold shift, loc. rewrite map_map. rewrite <- map_id. apply map_ext. intros [k v]. simpl. f_equal. lia.
Qed.

Lemma loc_below : forall sid c, slots_below n c -> slots_below (slen sid) (loc sid c).
Proof.
  intros sid c SB. unfold slots_below, loc in *. rewrite Forall_forall in *. intros e I. apply in_map_iff in I. destruct I as ([k v] & <- & I).
  apply filter_In in I. destruct I as [I EQ]. apply Nat.eqb_eq in EQ. specialize (SB _ I). cbn [fst] in *.
  destruct (stripe_of (Z.to_nat k)) as (B1 & B2 & B3); [lia|]. rewrite EQ in *. lia.
Qed.

Lemma st_merge_ok : forall c accs sid, st_ok c accs -> slots_below n c -> (sid < div_ceil n stripe)%nat ->
  merge_opt (sid * stripe) (nth sid accs None) = Ok (st_out accs sid) /\ slots_below n (st_out accs sid) /\
  Refines (bucket sid c) (st_out accs sid).
Proof.
  intros c accs sid (LA & IA) SB Hs. specialize (IA sid Hs). unfold st_out.
  destruct (nth sid accs None) as [d|]; cbn [merge_opt].
  - destruct (ds_merge_ok _ _ d (sid * stripe) IA (loc_below sid c SB)) as (E & B & R). rewrite shift_loc in R.
    split; auto. split; auto. unfold slots_below in *. (eapply Forall_impl; [|exact B]). intros e He. cbv beta in *.
    destruct (div_ceil_spec n stripe HS0) as [_ [->|C]]; unfold slen in He; [|nia]. unfold div_ceil in Hs. rewrite Nat.div_small in Hs; lia.
  - rewrite IA. split; auto. split; [constructor|apply Refines_nil].
Qed.

Lemma bucket_perm : forall c, slots_below n c -> Permutation c (concat (map (fun sid => bucket sid c) (seq 0 (div_ceil n stripe)))).
Proof.
  induction c as [|[k v] c IH]; intros SB.
  - rewrite concat_nil_map; auto.
  - inv SB. destruct (stripe_of (Z.to_nat k)) as (B1 & _); [cbn [fst] in *; lia|].
    set (s := (Z.to_nat k / stripe)%nat) in *. set (m := div_ceil n stripe) in *.
    replace (seq 0 m) with (seq 0 s ++ s :: seq (S s) (m - S s)).
    2:{ replace m with (s + S (m - S s))%nat at 2 by lia. rewrite seq_app. reflexivity. }
    specialize (IH H2). replace (seq 0 m) with (seq 0 s ++ s :: seq (S s) (m - S s)) in IH.
    2:{ replace m with (s + S (m - S s))%nat at 2 by lia. rewrite seq_app. reflexivity. }
    rewrite map_app, concat_app in *. cbn [map concat] in *.
    assert (EQ : forall l, ~ In s l -> map (fun sid => bucket sid ((k, v) :: c)) l = map (fun sid => bucket sid c) l).
    { intros l NI. apply map_ext_in. intros a I. unfold bucket. cbn [filter fst]. fold s. destruct (Nat.eqb_spec s a); [subst; contradiction|auto]. }
    rewrite !EQ by (rewrite in_seq; lia).
    replace (bucket s ((k, v) :: c)) with ((k, v) :: bucket s c) by (unfold bucket; cbn [filter fst]; fold s; rewrite Nat.eqb_refl; auto).
    cbn [app]. apply Permutation_cons_app. auto.
Qed.

Definition st_all (accs : list (option (Ds F))) : ops := concat (map (st_out accs) (seq 0 (div_ceil n stripe))).

Lemma st_all_ok : forall c accs, st_ok c accs -> slots_below n c -> slots_below n (st_all accs) /\ Refines c (st_all accs).
Proof.
  intros c accs OK SB. unfold st_all. split.
  - unfold slots_below. apply Forall_forall. intros e I. apply in_concat in I. destruct I as (l & Il & I).
    apply in_map_iff in Il. destruct Il as (sid & <- & Is). apply in_seq in Is.
    destruct (st_merge_ok c accs sid OK SB) as (_ & B & _); [lia|]. unfold slots_below in B. rewrite Forall_forall in B. auto.
  - eapply Refines_perm_l; [apply Permutation_sym; apply bucket_perm; auto|]. apply Refines_concat.
    intros sid Is. apply in_seq in Is. apply (st_merge_ok c accs sid OK SB). lia.
Qed.

Lemma combine_seq_nth : forall {X} (l : list X) d, combine (seq 0 (length l)) l = map (fun i => (i, nth i l d)) (seq 0 (length l)).
Proof.
  intros X l d. rewrite <- (map_seq_nth l d) at 2. generalize (seq 0 (length l)). induction l0; simpl; auto. f_equal. auto.
Qed.

Lemma tls_stripes_ok : accumulates n (tls_stripes stripe n).
Proof.
  intros dist tasks HD SB.
  destruct (tls_merge Panic n (fun ts => st_run stripe n (concat ts)) st_all dist tasks) as (cells & y & E & FR & EY & LY & FY); auto.
  - intros ts HS. destruct (st_run_ok (concat ts) HS) as (accs & E & OK). exists accs. split; auto. apply (st_all_ok (concat ts)); auto.
  - exists y. split; auto. unfold tls_stripes. rewrite E. cbn [bind].
    rewrite (foldM_ext _ (fun y accs => add_all Panic y (st_all accs))); [rewrite add_all_concat; auto|].
    intros y0 accs I. rewrite Forall_forall in FR. destruct (FR accs I) as (ts & HS & ED).
    destruct (st_run_ok (concat ts) HS) as (accs' & ED' & OK). assert (accs' = accs) by congruence. subst accs'.
    rewrite (combine_seq_nth accs None). destruct OK as [LA OK]. rewrite LA.
    unfold st_all. rewrite <- add_all_concat.
    assert (HM : forall sid, In sid (seq 0 (div_ceil n stripe)) -> merge_opt (sid * stripe) (nth sid accs None) = Ok (st_out accs sid)).
    { intros sid Is. apply in_seq in Is. apply (st_merge_ok (concat ts)); [split; auto|auto|lia]. }
    revert y0 HM. generalize (seq 0 (div_ceil n stripe)). induction l; intros y0 HM; [reflexivity|].
    cbn [map foldM fst snd]. rewrite HM by (simpl; auto). cbn [bind]. destruct (add_all Panic y0 (st_out accs a)); cbn [bind]; auto.
    apply IHl. intros. apply HM. simpl. auto.
Qed.

Lemma tls_stripes_par_ok : forall il : list ops -> ops, is_interleaving il -> accumulates n (tls_stripes_par stripe n il).
Proof.
  intros il HI dist tasks HD SB.
  destruct (tls_merge UB n (fun ts => st_run stripe n (concat ts)) st_all dist tasks) as (cells & y & E & FR & _ & _ & _); auto.
  { intros ts HS. destruct (st_run_ok (concat ts) HS) as (accs & E & OK). exists accs. split; auto. apply (st_all_ok (concat ts)); auto. }
  unfold tls_stripes_par. rewrite E. cbn [bind].
  assert (HC : Forall2 (fun ts accs => slots_below n (concat ts) /\ st_ok (concat ts) accs) (dist tasks) cells).
  { apply mapM_inv in E.
    assert (HB : Forall (fun ts => slots_below n (concat ts)) (dist tasks)).
    { apply Forall_forall. intros ts IT. unfold slots_below in *. rewrite Forall_forall in *. intros e Ie.
      apply SB. apply in_concat in Ie. destruct Ie as (t & It & Ie). apply in_concat. exists t. split; auto.
      eapply Permutation_in; [apply Permutation_sym; apply HD|]. apply in_concat. eauto. }
    clear - E HB HS0 Z0. induction E; [constructor|]. inv HB. constructor; auto. split; auto.
    destruct (st_run_ok (concat x) H2) as (a' & ED' & OK). cbv beta in H. assert (a' = y) by congruence. subst. auto. }
  rewrite (mapM_ok _ (fun sid => concat (map (fun accs => st_out accs sid) cells))).
  2:{ intros sid Is. apply in_seq in Is. rewrite (mapM_ok _ (fun accs => st_out accs sid)); auto.
      intros accs I. rewrite Forall_forall in FR. destruct (FR accs I) as (ts & HS & ED).
      destruct (st_run_ok (concat ts) HS) as (accs' & ED' & OK). assert (accs' = accs) by congruence. subst accs'.
      unfold get_checked. destruct OK as [LA OK]. destruct (nth_error accs sid) as [o|] eqn:EO; [|apply nth_error_None in EO; lia]. cbn [bind].
      rewrite <- (nth_error_nth _ _ None EO). apply (st_merge_ok (concat ts)); [split; auto|auto|lia]. }
  cbn [bind].
  set (merges := map (fun sid => concat (map (fun accs => st_out accs sid) cells)) (seq 0 (div_ceil n stripe))).
  pose proof (Interleave_perm _ _ (HI merges)) as IP.
  assert (R : slots_below n (concat merges) /\ Refines (concat tasks) (concat merges)).
  { assert (P : Permutation (concat tasks) (concat (map (@concat _) (dist tasks)))).
    { eapply Permutation_trans; [apply Permutation_concat; apply HD|]. rewrite concat_concat'. auto. }
    assert (HS : forall sid, In sid (seq 0 (div_ceil n stripe)) ->
       slots_below n (concat (map (fun accs => st_out accs sid) cells)) /\
       Refines (bucket sid (concat (map (@concat _) (dist tasks)))) (concat (map (fun accs => st_out accs sid) cells))).
    { intros sid Is. apply in_seq in Is. clear - HC Is HS0 Z0. induction HC as [|ts accs l cells [HB OK] _ IH]; simpl.
      - split; [constructor|apply Refines_nil].
      - destruct IH as [IB IR]. destruct (st_merge_ok (concat ts) accs sid OK HB) as (_ & B & R); [lia|]. split.
        + apply Forall_app. auto.
        + rewrite bucket_app. apply Refines_app; auto. }
    split.
    - apply Forall_forall. intros e I. apply in_concat in I. destruct I as (l & Il & I). apply in_map_iff in Il.
      destruct Il as (sid & <- & Is). destruct (HS sid Is) as [B _]. unfold slots_below in B. rewrite Forall_forall in B. auto.
    - eapply Refines_perm_l; [apply Permutation_sym; exact P|].
      eapply Refines_perm_l; [apply Permutation_sym; apply bucket_perm|].
      { unfold slots_below. eapply Permutation_Forall; [exact P|exact SB]. }
      apply Refines_concat. intros sid Is. apply HS. auto. }
  destruct R as [B R]. apply add_refined.
  - unfold slots_below. eapply Permutation_Forall; [exact IP|exact B].
  - eapply Refines_perm_r; [exact IP|exact R].
Qed.

End Stripes.

(** ** Plain vectors *)
Lemma tls_vec_ok : forall n, accumulates n (tls_vec n).
Proof.
  intros n dist tasks HD SB.
  destruct (tls_merge UB n (fun ts => add_all Panic (repeat f0 n) (concat ts)) (fun v => combine (map Z.of_nat (seq 0 n)) v) dist tasks)
    as (vs & y & E & FR & EY & LY & FY); auto.
  - intros ts HS. destruct (add_all_ok Panic (concat ts) (repeat f0 n)) as (v & E & LV & A); [rewrite repeat_length; auto|].
    rewrite repeat_length in LV. exists v. split; auto. rewrite <- (map_seq_nth v f0), LV.
    assert (EC : combine (map Z.of_nat (seq 0 n)) (map (fun i => nth i v f0) (seq 0 n)) = map (fun off => (Z.of_nat (0 + off), nth off v f0)) (seq 0 n)).
    { generalize (seq 0 n). induction l; simpl; auto. f_equal. auto. }
    rewrite EC. split.
    + apply Forall_forall. intros e I. apply in_map_iff in I. destruct I as (o & <- & I). apply in_seq in I. simpl. lia.
    + intros i. rewrite at_index_offsets by apply seq_NoDup. rewrite Z.sub_0_r. change (Z.of_nat 0) with 0.
      destruct (Z.leb_spec 0 i); cbn [andb].
      * destruct (existsb (Nat.eqb (Z.to_nat i)) (seq 0 n)) eqn:EX.
        -- exists [at_index i (concat ts)]. simpl. rewrite app_nil_r. split; auto. constructor; [|constructor].
           rewrite A, nth_repeat, Z2Nat.id by lia. apply (FSum_fold_left _ [] f0). apply FSum_nil0. auto.
        -- exists []. split; [constructor|]. simpl. rewrite at_index_nil; [constructor|]. intros I. apply in_map_iff in I.
           destruct I as (e & EE & I). unfold slots_below in HS. rewrite Forall_forall in HS. specialize (HS _ I).
           assert (existsb (Nat.eqb (Z.to_nat i)) (seq 0 n) = true); [|congruence].
           apply existsb_exists. exists (Z.to_nat i). rewrite Nat.eqb_refl, in_seq. split; auto. lia.
      * exists []. split; [constructor|]. simpl. rewrite at_index_nil; [constructor|]. intros I. apply in_map_iff in I.
        destruct I as (e & EE & I). unfold slots_below in HS. rewrite Forall_forall in HS. specialize (HS _ I). lia.
  - exists y. split; auto. unfold tls_vec. rewrite E. cbn [bind]. rewrite add_all_concat. auto.
Qed.

End Acc.
