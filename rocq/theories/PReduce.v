(** Proofs about the shared reduction patterns. [R l a] says that the accumulator
    [a] is a reduction of the values [l]; everything here only uses closure
    properties of [R]. *)
Require Import List ZArith Bool Arith Lia Permutation.
Require Import Verif.Res Verif.Values Verif.Spec Verif.Mem Verif.Lists Verif.CsLib Verif.Loops Verif.MScalar Verif.PScalar Verif.MAcc Verif.PAcc Verif.MLinalg Verif.PLinalg Verif.PLinalg3 Verif.MReduce.
Import ListNotations.
Local Open Scope Z_scope.

(** ** Loops with an invariant *)
Lemma step_loop_inv : forall {S} (I : nat -> S -> Prop) w body limit, (0 < w)%nat ->
  (forall c s, (c + w <= limit)%nat -> I c s -> exists s', body c s = Ok s' /\ I (c + w)%nat s') ->
  forall fuel c s, (limit - c <= fuel)%nat -> (c <= limit)%nat -> Nat.divide w (limit - c) -> I c s ->
  exists s', step_loop fuel w body limit c s = Ok (limit, s') /\ I limit s'.
Proof.
  intros S I w body limit W HB. induction fuel; intros c s HF HC [q HQ] HI.
  - cbn [step_loop]. destruct (Nat.ltb_spec c limit); [lia|]. assert (c = limit) by lia. subst. eauto.
  - cbn [step_loop]. destruct (Nat.ltb_spec c limit).
    + assert (HW : (c + w <= limit)%nat) by (destruct q; [lia|]; simpl in HQ; lia).
      destruct (HB c s HW HI) as (s' & E & HI'). rewrite E. cbn [bind].
      apply IHfuel; try lia; auto. exists (q - 1)%nat. rewrite Nat.mul_sub_distr_r. lia.
    + assert (c = limit) by lia. subst. eauto.
Qed.

Lemma firstn_snoc : forall {X} (l : list X) c x, nth_error l c = Some x -> firstn (S c) l = firstn c l ++ [x].
Proof.
  induction l as [|a l IH]; intros [|c] x H; try discriminate; simpl in *.
  - inv H. auto.
  - rewrite (IH _ _ H). auto.
Qed.

Section Gen.
Context {X A : Type} (R : list X -> A -> Prop).
Hypothesis R_perm : forall l l' a, Permutation l l' -> R l a -> R l' a.

Section Lanes.
Variables (init : A) (lop : A -> X -> A) (mrg : A -> A -> A) (top : A -> X -> A).
Hypothesis R_init : R [] init.
Hypothesis R_lop : forall l a x, R l a -> R (l ++ [x]) (lop a x).
Hypothesis R_mrg : forall l l' a b, R l a -> R l' b -> R (l ++ l') (mrg a b).
Hypothesis R_top : forall l a x, R l a -> R (l ++ [x]) (top a x).

Lemma lane_reduce_ok : forall chunk, exists v, lane_reduce init lop mrg top chunk = Ok v /\ R chunk v.
Proof.
  intros chunk. unfold lane_reduce. set (n := length chunk). rewrite limit4.
  pose proof (Nat.div_mod n 4 ltac:(lia)) as D. pose proof (Nat.mod_upper_bound n 4 ltac:(lia)) as M.
  remember (4 * (n / 4))%nat as lim eqn:EL.
  set (I := fun c (s : A * A * A * A) => let '(a0, a1, a2, a3) := s in exists l0 l1 l2 l3, R l0 a0 /\ R l1 a1 /\ R l2 a2 /\ R l3 a3 /\
              Permutation (l0 ++ l1 ++ l2 ++ l3) (firstn c chunk)).
  match goal with |- context [step_loop n 4 ?b _ _ _] => destruct (step_loop_inv I 4 b lim) with (fuel := n) (c := 0%nat) (s := (init, init, init, init)) as ([[[a0 a1] a2] a3] & E & HI) end.
  - lia.
  - intros c [[[a0 a1] a2] a3] HC (l0 & l1 & l2 & l3 & R0 & R1 & R2 & R3 & P).
    assert (G : forall k, (k < 4)%nat -> exists v, nth_error chunk (c + k) = Some v).
    { intros k Hk. destruct (nth_error chunk (c + k)) eqn:EN; eauto. apply nth_error_None in EN. fold n in EN. lia. }
    destruct (G 0%nat) as [v0 E0]; [lia|]. destruct (G 1%nat) as [v1 E1]; [lia|]. destruct (G 2%nat) as [v2 E2]; [lia|]. destruct (G 3%nat) as [v3 E3]; [lia|].
    rewrite Nat.add_0_r in E0. unfold get_unchecked. rewrite E0, E1, E2, E3. cbn [bind]. eexists. split; [reflexivity|].
    exists (l0 ++ [v0]), (l1 ++ [v1]), (l2 ++ [v2]), (l3 ++ [v3]). repeat (split; [apply R_lop; auto|]).
    replace (c + 4)%nat with (S (S (S (S c)))) by lia.
    rewrite (firstn_snoc chunk (S (S (S c))) v3), (firstn_snoc chunk (S (S c)) v2), (firstn_snoc chunk (S c) v1), (firstn_snoc chunk c v0); auto;
      [| replace (S c) with (c + 1)%nat by lia; auto | replace (S (S c)) with (c + 2)%nat by lia; auto | replace (S (S (S c))) with (c + 3)%nat by lia; auto].
    rewrite <- !app_assoc. cbn [app].
    apply Permutation_trans with ((l0 ++ l1 ++ l2 ++ l3) ++ [v0; v1; v2; v3]).
    + apply Permutation_trans with (v0 :: v1 :: v2 :: v3 :: (l0 ++ l1 ++ l2 ++ l3)).
      * apply Permutation_sym.
        apply Permutation_trans with (l0 ++ v0 :: (v1 :: v2 :: v3 :: l1 ++ l2 ++ l3)).
        { apply Permutation_cons_app. rewrite !app_comm_cons. apply Permutation_trans with ((v1 :: v2 :: v3 :: l0) ++ (l1 ++ l2 ++ l3)); [apply Permutation_refl|].
          change (v1 :: v2 :: v3 :: l0) with ([v1; v2; v3] ++ l0). change (((v1 :: v2 :: v3 :: l1) ++ l2 ++ l3)) with (([v1; v2; v3] ++ l1) ++ l2 ++ l3).
          rewrite <- !app_assoc. rewrite !app_assoc. do 3 apply Permutation_app_tail. apply Permutation_app_comm. }
        apply Permutation_app_head. apply perm_skip.
        apply Permutation_trans with (l1 ++ v1 :: (v2 :: v3 :: l2 ++ l3)).
        { apply Permutation_cons_app. change (v2 :: v3 :: l1 ++ l2 ++ l3) with ([v2; v3] ++ l1 ++ l2 ++ l3). change (v2 :: v3 :: l2 ++ l3) with ([v2; v3] ++ l2 ++ l3).
          rewrite !app_assoc. do 2 apply Permutation_app_tail. apply Permutation_app_comm. }
        apply Permutation_app_head. apply perm_skip.
        apply Permutation_trans with (l2 ++ v2 :: (v3 :: l3)).
        { apply Permutation_cons_app. change (v3 :: l2 ++ l3) with ([v3] ++ l2 ++ l3). change (v3 :: l3) with ([v3] ++ l3).
          rewrite !app_assoc. apply Permutation_app_tail. apply Permutation_app_comm. }
        apply Permutation_app_head. apply perm_skip. apply Permutation_cons_append.
      * change (v0 :: v1 :: v2 :: v3 :: l0 ++ l1 ++ l2 ++ l3) with ([v0; v1; v2; v3] ++ (l0 ++ l1 ++ l2 ++ l3)). apply Permutation_app_comm.
    + apply Permutation_app_tail. exact P.
  - lia.
  - lia.
  - exists (n / 4)%nat. lia.
  - exists [], [], [], []. repeat (split; [exact R_init|]). constructor.
  - rewrite E. cbn [bind]. destruct HI as (l0 & l1 & l2 & l3 & R0 & R1 & R2 & R3 & P).
    set (J := fun c a => R (firstn c chunk) a).
    match goal with |- context [step_loop n 1 ?b _ _ ?s0] => destruct (step_loop_inv J 1 b n) with (fuel := n) (c := lim) (s := s0) as (v & E' & HJ) end.
    + lia.
    + intros c a HC HJ. unfold get_checked. destruct (nth_error chunk c) as [x|] eqn:EX; [|apply nth_error_None in EX; fold n in EX; lia].
      cbn [bind]. eexists. split; [reflexivity|]. unfold J. rewrite Nat.add_1_r. rewrite (firstn_snoc _ _ _ EX). apply R_top. exact HJ.
    + lia.
    + lia.
    + exists (n - lim)%nat. lia.
    + unfold J. eapply R_perm; [exact P|]. rewrite !app_assoc. auto.
    + rewrite E'. cbn [bind]. exists v. split; auto. unfold J, n in HJ. rewrite firstn_all in HJ. auto.
Qed.

(** ** Trees *)
Lemma tree_reduce_ok : forall leaf, (forall ls xs, Forall2 R ls xs -> R (concat ls) (leaf xs)) ->
  forall node, (forall l l' a b, R l a -> R l' b -> R (l ++ l') (node a b)) ->
  forall t ls xs, Forall2 R ls xs -> R (concat ls) (tree_reduce leaf node t xs).
Proof.
  intros leaf HL node HN. induction t as [|k l IHl r IHr]; intros ls xs H; cbn [tree_reduce]; [auto|].
  assert (HF : forall k ls xs, Forall2 R ls xs -> Forall2 R (firstn k ls) (firstn k xs) /\ Forall2 R (skipn k ls) (skipn k xs)).
  { clear. induction k; intros ls xs H; simpl; auto. inv H; simpl; auto. destruct (IHk _ _ H1). auto. }
  destruct (HF k ls xs H) as [H1 H2]. rewrite <- (firstn_skipn k ls), concat_app. apply HN; auto.
Qed.

Lemma fold_leaf_ok : forall op z, R [] z -> (forall l l' a b, R l a -> R l' b -> R (l ++ l') (op a b)) ->
  forall ls xs, Forall2 R ls xs -> R (concat ls) (fold_left op xs z).
Proof.
  intros op z RZ HO. cut (forall ls xs l0 a, R l0 a -> Forall2 R ls xs -> R (l0 ++ concat ls) (fold_left op xs a)).
  { intros H ls xs HF. apply (H ls xs [] z); auto. }
  intros ls xs l0 a Ha HF. revert l0 a Ha. induction HF; intros l0 a Ha; simpl; [rewrite app_nil_r; auto|].
  rewrite app_assoc. apply IHHF. auto.
Qed.

Lemma par_reduce_ok : forall chunkf leaf node, (forall c, exists v, chunkf c = Ok v /\ R c v) ->
  (forall ls xs, Forall2 R ls xs -> R (concat ls) (leaf xs)) ->
  (forall l l' a b, R l a -> R l' b -> R (l ++ l') (node a b)) ->
  forall t data, exists v, par_reduce chunkf leaf node t data = Ok v /\ R data v.
Proof.
  intros chunkf leaf node HC HL HN t data. unfold par_reduce.
  destruct (par_chunks_ok chunk_size data chunk_size_pos) as (ps & -> & <-). cbn [bind].
  assert (exists vs, mapM chunkf ps = Ok vs /\ Forall2 R ps vs) as (vs & E & HF).
  { induction ps as [|p ps (vs & E & HF)]; [exists []; simpl; auto|]. destruct (HC p) as (v & EV & RV).
    exists (v :: vs). cbn [mapM]. rewrite EV. cbn [bind]. rewrite E. cbn [bind]. auto. }
  rewrite E. cbn [bind]. eexists. split; [reflexivity|]. apply tree_reduce_ok; auto.
Qed.

End Lanes.

(** ** Striped accumulators with a first value *)
Notation xops := (list (Z * X)).
Definition below {V} (n : nat) (l : list (Z * V)) : Prop := Forall (fun e => 0 <= fst e < Z.of_nat n) l.

Variables (d : A) (first : X -> A) (step : A -> X -> A).
Hypothesis R_first : forall x, R [x] (first x).
Hypothesis R_step : forall l a x, R l a -> R (l ++ [x]) (step a x).

Definition gs_ok (n : nat) (c : xops) (g : Gs A) : Prop :=
  length (gvals g) = n /\ length (gseen g) = n /\ NoDup (gtouched g) /\
  (forall off, In off (gtouched g) <-> nth off (gseen g) false = true) /\
  (forall off, In off (gtouched g) <-> at_index (Z.of_nat off) c <> []) /\
  forall off, In off (gtouched g) -> R (at_index (Z.of_nat off) c) (nth off (gvals g) d).

Lemma gs_new_ok : forall n, gs_ok n [] (gs_new d n).
Proof.
  intros n. unfold gs_ok, gs_new. cbn [gvals gseen gtouched]. rewrite !repeat_length.
  split; [auto|]. split; [auto|]. split; [constructor|]. split; [|split].
  - intros off. rewrite nth_repeat. simpl. intuition discriminate.
  - intros off. unfold at_index. simpl. intuition.
  - intros off [].
Qed.

Lemma gs_add_ok : forall n c g off x, gs_ok n c g -> (off < n)%nat ->
  exists g', gs_add first step g (off, x) = Ok g' /\ gs_ok n (c ++ [(Z.of_nat off, x)]) g'.
Proof.
  intros n c g off x (LV & LS & ND & TS & TC & VV) HO. unfold gs_add, get_checked. cbn [fst snd].
  destruct (nth_error (gseen g) off) as [s|] eqn:ES; [|apply nth_error_None in ES; lia]. cbn [bind].
  assert (NS : nth off (gseen g) false = s) by (apply nth_error_nth; auto).
  destruct (nth_error (gvals g) off) as [v|] eqn:EX; [|apply nth_error_None in EX; lia]. cbn [bind].
  assert (NX : nth off (gvals g) d = v) by (apply nth_error_nth; auto).
  assert (AT : forall o, at_index (Z.of_nat o) (c ++ [(Z.of_nat off, x)]) = at_index (Z.of_nat o) c ++ (if Nat.eqb off o then [x] else [])).
  { intros o. rewrite at_index_app. f_equal. rewrite at_index_cons. unfold at_index. simpl.
    destruct (Nat.eqb_spec off o); [subst; rewrite Z.eqb_refl; auto|]. destruct (Z.eqb_spec (Z.of_nat off) (Z.of_nat o)); [lia|auto]. }
  destruct s; (eexists; split; [reflexivity|]); unfold gs_ok; cbn [gvals gseen gtouched]; rewrite !upd_length.
  - split; [auto|]. split; [auto|]. split; [auto|]. split; [auto|]. split.
    + intros o. rewrite AT. destruct (Nat.eqb_spec off o).
      * subst o. split; intros _; [destruct (at_index (Z.of_nat off) c); discriminate|]. apply TS. auto.
      * rewrite app_nil_r. apply TC.
    + intros o I. rewrite AT, nth_upd by lia. destruct (Nat.eqb_spec off o).
      * subst o. apply R_step. rewrite <- NX. apply VV. auto.
      * rewrite app_nil_r. apply VV. auto.
  - split; [auto|]. split; [auto|].
    assert (NI : ~ In off (gtouched g)) by (rewrite TS; congruence). split.
    { eapply Permutation_NoDup; [apply Permutation_cons_append|]. constructor; auto. }
    split.
    { intros o. rewrite in_app_iff, TS. rewrite nth_upd by lia. destruct (Nat.eqb_spec off o).
      - subst o. simpl. intuition.
      - simpl. intuition. }
    split.
    + intros o. rewrite in_app_iff, AT, TC. destruct (Nat.eqb_spec off o).
      * subst o. split; intros _; [destruct (at_index (Z.of_nat off) c); discriminate|simpl; auto].
      * rewrite app_nil_r. simpl. intuition.
    + intros o I. rewrite AT, nth_upd by lia. destruct (Nat.eqb_spec off o).
      * subst o. replace (at_index (Z.of_nat off) c) with (@nil X); [apply R_first|].
        destruct (at_index (Z.of_nat off) c) eqn:EA; auto. exfalso. apply NI. apply TC. congruence.
      * rewrite app_nil_r. apply in_app_or in I. destruct I as [I|[I|[]]]; [apply VV; auto|congruence].
Qed.

Section Stripes.
Variables (stripe n : nat).
Hypothesis HS0 : (0 < stripe)%nat.

Definition gbucket (sid : nat) (c : xops) : xops := filter (fun e => (Z.to_nat (fst e) / stripe =? sid)%nat) c.
Definition gloc (sid : nat) (c : xops) : xops := map (fun e => (fst e - Z.of_nat (sid * stripe), snd e)) (gbucket sid c).
Definition glen (sid : nat) : nat := Nat.min (n - sid * stripe) stripe.

Lemma gstripe_of : forall i, (i < n)%nat -> (i / stripe < div_ceil n stripe)%nat /\ (i / stripe * stripe <= i)%nat /\ (i - i / stripe * stripe < glen (i / stripe))%nat.
Proof.
  intros i Hi. pose proof (Nat.div_mod i stripe ltac:(lia)) as D. pose proof (Nat.mod_upper_bound i stripe ltac:(lia)) as M.
  destruct (div_ceil_spec n stripe HS0) as [C _]. unfold glen. set (q := (i / stripe)%nat) in *. set (m := div_ceil n stripe) in *.
  repeat split; try nia.
Qed.

Definition gst_ok (c : xops) (accs : list (option (Gs A))) : Prop :=
  length accs = div_ceil n stripe /\
  forall sid, (sid < div_ceil n stripe)%nat ->
    match nth sid accs None with None => gbucket sid c = [] | Some g => gs_ok (glen sid) (gloc sid c) g end.

Lemma gst_add_ok : forall c accs k x, gst_ok c accs -> 0 <= k < Z.of_nat n ->
  exists accs', gst_add d first step stripe n accs (k, x) = Ok accs' /\ gst_ok (c ++ [(k, x)]) accs'.
Proof.
  intros c accs k x (LA & IA) Hk. unfold gst_add. cbn [fst snd].
  destruct (gstripe_of (Z.to_nat k)) as (B1 & B2 & B3); [lia|]. set (sid := (Z.to_nat k / stripe)%nat) in *.
  unfold get_checked at 1. destruct (nth_error accs sid) as [o|] eqn:EO; [|apply nth_error_None in EO; lia]. cbn [bind].
  pose proof (nth_error_nth _ _ None EO) as NO.
  set (g := match o with Some g => g | None => gs_new d (Nat.min (n - sid * stripe) stripe) end).
  assert (DO : gs_ok (glen sid) (gloc sid c) g).
  { specialize (IA sid B1). rewrite NO in IA. unfold g. destruct o; auto. unfold gloc. rewrite IA. apply gs_new_ok. }
  destruct (gs_add_ok (glen sid) (gloc sid c) g (Z.to_nat k - sid * stripe) x DO) as (g' & E & DO'); [lia|].
  rewrite E. cbn [bind]. eexists. split; [reflexivity|]. split; [rewrite upd_length; auto|].
  intros s Hs. rewrite nth_upd by lia.
  assert (BA : forall s c c', gbucket s (c ++ c') = gbucket s c ++ gbucket s c') by (intros; apply filter_app).
  destruct (Nat.eqb_spec sid s) as [<-|N].
  - replace (gloc sid (c ++ [(k, x)])) with (gloc sid c ++ [(Z.of_nat (Z.to_nat k - sid * stripe), x)]); auto.
    unfold gloc. rewrite BA, map_app. f_equal. unfold gbucket. cbn [filter fst]. fold sid. rewrite Nat.eqb_refl. simpl.
    f_equal. f_equal. lia.
  - specialize (IA s Hs). rewrite !BA. unfold gloc in *. rewrite !BA.
    assert (EB : gbucket s [(k, x)] = []). { unfold gbucket. cbn [filter fst]. fold sid. destruct (Nat.eqb_spec sid s); [contradiction|auto]. }
    rewrite EB, app_nil_r. auto.
Qed.

Lemma gst_run_ok : forall c, below n c -> exists accs, gst_run d first step stripe n c = Ok accs /\ gst_ok c accs.
Proof.
  intros c. unfold gst_run. cut (forall l c0 accs, gst_ok c0 accs -> below n l -> exists accs', foldM (gst_add d first step stripe n) l accs = Ok accs' /\ gst_ok (c0 ++ l) accs').
  { intros H SB. apply (H c []); auto. split; [apply repeat_length|]. intros. rewrite nth_repeat. reflexivity. }
  clear c. induction l as [|[k v] l IH]; intros c0 accs OK SB.
  - exists accs. rewrite app_nil_r. auto.
  - inv SB. cbn [foldM]. destruct (gst_add_ok c0 accs k v OK H1) as (a1 & E1 & OK1). rewrite E1. cbn [bind].
    destruct (IH _ _ OK1 H2) as (a' & E' & OK'). rewrite <- app_assoc in OK'. eauto.
Qed.

(** The (index, value) pairs a thread hands to the merge. *)
Definition g_out (base : nat) (g : Gs A) : list (nat * A) := map (fun off => ((base + off)%nat, nth off (gvals g) d)) (gtouched g).
Definition gst_out (accs : list (option (Gs A))) : list (nat * A) :=
  concat (map (fun sid => match nth sid accs None with None => [] | Some g => g_out (sid * stripe) g end) (seq 0 (div_ceil n stripe))).

Definition vals_at (i : nat) (l : list (nat * A)) : list A := map snd (filter (fun e => (fst e =? i)%nat) l).

Lemma vals_at_app : forall i l l', vals_at i (l ++ l') = vals_at i l ++ vals_at i l'.
Proof. intros. unfold vals_at. rewrite filter_app, map_app. auto. Qed.

(** Per slot: non-empty groups of contributions, each reduced to one value. *)
Definition Grouped (c : xops) (l : list (nat * A)) : Prop :=
  forall i, exists cs, Forall2 (fun x y => x <> [] /\ R x y) cs (vals_at i l) /\ Permutation (concat cs) (at_index (Z.of_nat i) c).

Lemma Grouped_app : forall c c' l l', Grouped c l -> Grouped c' l' -> Grouped (c ++ c') (l ++ l').
Proof.
  intros c c' l l' H H' i. destruct (H i) as (cs & F1 & P1). destruct (H' i) as (cs' & F2 & P2). exists (cs ++ cs').
  rewrite vals_at_app, at_index_app, concat_app. split; [apply Forall2_app; auto|apply Permutation_app; auto].
Qed.

Lemma Grouped_nil : Grouped [] [].
Proof. intros i. exists []. split; constructor. Qed.

Lemma Grouped_perm : forall c c' l, Permutation c c' -> Grouped c l -> Grouped c' l.
Proof.
  intros c c' l P H i. destruct (H i) as (cs & F1 & P1). exists cs. split; auto. eapply Permutation_trans; [exact P1|].
  unfold at_index. apply Permutation_map. apply Permutation_filter. auto.
Qed.

Lemma vals_at_offs : forall base (g : nat -> A) offs i, NoDup offs ->
  vals_at i (map (fun off => ((base + off)%nat, g off)) offs) =
  if (base <=? i)%nat && existsb (Nat.eqb (i - base)%nat) offs then [g (i - base)%nat] else [].
Proof.
  intros base g offs i ND. destruct (Nat.leb_spec base i); cbn [andb].
  - induction offs as [|o offs IH]; [reflexivity|]. inv ND. cbn [map existsb]. unfold vals_at. cbn [filter fst].
    destruct (Nat.eqb_spec (i - base) o).
    + destruct (Nat.eqb_spec (base + o) i); [|lia]. cbn [orb map snd]. subst o. f_equal. fold (vals_at i (map (fun off => ((base + off)%nat, g off)) offs)). rewrite IH by auto.
      destruct (existsb _ offs) eqn:EX; auto. exfalso. apply existsb_exists in EX. destruct EX as (o' & I & EQ). apply Nat.eqb_eq in EQ. subst o'. auto.
    + destruct (Nat.eqb_spec (base + o) i); [lia|]. cbn [orb]. apply IH. auto.
  - unfold vals_at. replace (filter _ _) with (@nil (nat * A)); auto. symmetry.
    induction offs; simpl; auto. inv ND. destruct (Nat.eqb_spec (base + a) i); [lia|]. auto.
Qed.

Lemma stripe_groups : forall sid c g, below n c -> gs_ok (glen sid) (gloc sid c) g -> (sid < div_ceil n stripe)%nat ->
  Forall (fun e => (fst e < n)%nat) (g_out (sid * stripe) g) /\ Grouped (gbucket sid c) (g_out (sid * stripe) g).
Proof.
  intros sid c g SB (LV & LS & ND & TS & TC & VV) Hs.
  assert (TB : forall off, In off (gtouched g) -> (off < glen sid)%nat).
  { intros off I. apply TS in I. destruct (Nat.lt_ge_cases off (glen sid)); auto. rewrite nth_overflow in I by lia. discriminate. }
  assert (AT : forall off, at_index (Z.of_nat off) (gloc sid c) = at_index (Z.of_nat (sid * stripe + off)) (gbucket sid c)).
  { intros off. unfold gloc. induction (gbucket sid c) as [|[k v] l IH]; auto. cbn [map fst snd]. rewrite !at_index_cons, IH.
    destruct (Z.eqb_spec (k - Z.of_nat (sid * stripe)) (Z.of_nat off)); destruct (Z.eqb_spec k (Z.of_nat (sid * stripe + off))); auto; lia. }
  split.
  - apply Forall_forall. intros e I. unfold g_out in I. apply in_map_iff in I. destruct I as (o & <- & I). apply TB in I. cbn [fst].
    unfold glen in I. lia.
  - intros i. unfold g_out. rewrite vals_at_offs by auto. destruct (Nat.leb_spec (sid * stripe) i); cbn [andb].
    + set (o := (i - sid * stripe)%nat). replace i with (sid * stripe + o)%nat by lia. rewrite <- AT.
      destruct (existsb (Nat.eqb o) (gtouched g)) eqn:EX.
      * apply existsb_exists in EX. destruct EX as (o' & I & EQ). apply Nat.eqb_eq in EQ. subst o'.
        exists [at_index (Z.of_nat o) (gloc sid c)]. simpl. rewrite app_nil_r. split; [|auto]. constructor; [|constructor].
        split; [apply TC; auto|apply VV; auto].
      * exists []. split; [constructor|]. destruct (at_index (Z.of_nat o) (gloc sid c)) eqn:EA; [constructor|].
        exfalso. assert (I : In o (gtouched g)) by (apply TC; congruence).
        assert (existsb (Nat.eqb o) (gtouched g) = true) by (apply existsb_exists; exists o; rewrite Nat.eqb_refl; auto). congruence.
    + exists []. split; [constructor|]. simpl. rewrite at_index_nil; [constructor|]. intros I. apply in_map_iff in I.
      destruct I as ([k v] & E & I). cbn [fst] in E. apply filter_In in I. destruct I as [I EQ]. apply Nat.eqb_eq in EQ. cbn [fst] in EQ.
      assert (Z.to_nat k = i) by lia. pose proof (Nat.mul_div_le i stripe ltac:(lia)). rewrite H0 in EQ. rewrite EQ in *. lia.
Qed.

Lemma gbucket_perm : forall c, below n c -> Permutation c (concat (map (fun sid => gbucket sid c) (seq 0 (div_ceil n stripe)))).
Proof.
  induction c as [|[k v] c IH]; intros SB.
  - rewrite concat_nil_map; auto.
  - inv SB. destruct (gstripe_of (Z.to_nat k)) as (B1 & _); [cbn [fst] in *; lia|].
    set (s := (Z.to_nat k / stripe)%nat) in *. set (m := div_ceil n stripe) in *.
    replace (seq 0 m) with (seq 0 s ++ s :: seq (S s) (m - S s)).
    2:{ replace m with (s + S (m - S s))%nat at 2 by lia. rewrite seq_app. reflexivity. }
    specialize (IH H2). replace (seq 0 m) with (seq 0 s ++ s :: seq (S s) (m - S s)) in IH.
    2:{ replace m with (s + S (m - S s))%nat at 2 by lia. rewrite seq_app. reflexivity. }
    rewrite map_app, concat_app in *. cbn [map concat] in *.
    assert (EQ : forall l, ~ In s l -> map (fun sid => gbucket sid ((k, v) :: c)) l = map (fun sid => gbucket sid c) l).
    { intros l NI. apply map_ext_in. intros a I. unfold gbucket. cbn [filter fst]. fold s. destruct (Nat.eqb_spec s a); [subst; contradiction|auto]. }
    rewrite !EQ by (rewrite in_seq; lia).
    replace (gbucket s ((k, v) :: c)) with ((k, v) :: gbucket s c) by (unfold gbucket; cbn [filter fst]; fold s; rewrite Nat.eqb_refl; auto).
    cbn [app]. apply Permutation_cons_app. auto.
Qed.

Lemma gst_out_ok : forall c accs, gst_ok c accs -> below n c ->
  Forall (fun e => (fst e < n)%nat) (gst_out accs) /\ Grouped c (gst_out accs).
Proof.
  intros c accs [LA IA] SB.
  assert (H : forall sids, (forall s, In s sids -> (s < div_ceil n stripe)%nat) ->
    let out := concat (map (fun sid => match nth sid accs None with None => [] | Some g => g_out (sid * stripe) g end) sids) in
    Forall (fun e => (fst e < n)%nat) out /\ Grouped (concat (map (fun sid => gbucket sid c) sids)) out).
  { induction sids as [|s sids IH]; intros HB; simpl; [split; [constructor|apply Grouped_nil]|].
    destruct IH as [I1 I2]; [intros; apply HB; simpl; auto|]. specialize (IA s (HB s (or_introl eq_refl))).
    destruct (nth s accs None) as [g|].
    - destruct (stripe_groups s c g SB IA (HB s (or_introl eq_refl))) as [J1 J2]. split; [apply Forall_app; auto|apply Grouped_app; auto].
    - rewrite IA. split; auto. }
  destruct (H (seq 0 (div_ceil n stripe))) as [H1 H2]; [intros s I; apply in_seq in I; lia|]. split; auto.
  eapply Grouped_perm; [|exact H2]. apply Permutation_sym. apply gbucket_perm. auto.
Qed.

Lemma gst_merge_ok : forall {S} (put : S -> nat * A -> res S) cells (s : S),
  Forall (fun accs => exists c, below n c /\ gst_ok c accs) cells ->
  gst_merge put stripe cells s = foldM put (concat (map gst_out cells)) s.
Proof.
  intros S put cells s HF. unfold gst_merge. revert s. induction HF as [|accs cells (c & SB & OK) HF IH]; intros s; [reflexivity|].
  cbn [foldM map concat]. rewrite foldM_app.
  assert (E : foldM (fun s so =>
      match snd so with
      | None => Ok s
      | Some g => foldM (fun s off => let! v := get_checked (gvals g) off in put s ((fst so * stripe + off)%nat, v)) (gtouched g) s
      end) (combine (seq 0 (length accs)) accs) s = foldM put (gst_out accs) s).
  { rewrite (combine_seq_nth accs None). destruct OK as [LA IA]. rewrite LA. unfold gst_out.
    assert (HB : forall sid, In sid (seq 0 (div_ceil n stripe)) -> (sid < div_ceil n stripe)%nat) by (intros sid I; apply in_seq in I; lia).
    revert s HB. generalize (seq 0 (div_ceil n stripe)). induction l as [|sid l IHl]; intros s HB; [reflexivity|].
    cbn [map foldM concat fst snd]. rewrite foldM_app. specialize (IA sid (HB sid (or_introl eq_refl))).
    assert (E1 : match nth sid accs None with
                 | None => Ok s
                 | Some g => foldM (fun s off => let! v := get_checked (gvals g) off in put s ((sid * stripe + off)%nat, v)) (gtouched g) s
                 end = foldM put (match nth sid accs None with None => [] | Some g => g_out (sid * stripe) g end) s).
    { destruct (nth sid accs None) as [g|]; [|reflexivity]. destruct IA as (LV & LS & ND & TS & TC & VV).
      unfold g_out. revert s. assert (TB : forall off, In off (gtouched g) -> (off < glen sid)%nat).
      { intros off I. apply TS in I. destruct (Nat.lt_ge_cases off (glen sid)); auto. rewrite nth_overflow in I by lia. discriminate. }
      revert TB. generalize (gtouched g). induction l0 as [|o l0 IHo]; intros TB s; [reflexivity|]. cbn [map foldM].
      unfold get_checked at 1. destruct (nth_error (gvals g) o) as [v|] eqn:EV; [|apply nth_error_None in EV; specialize (TB o (or_introl eq_refl)); lia].
      cbn [bind]. rewrite (nth_error_nth _ _ d EV). destruct (put s ((sid * stripe + o)%nat, v)); cbn [bind]; auto.
      apply IHo. intros. apply TB. simpl. auto. }
    rewrite E1. destruct (foldM put _ s); cbn [bind]; auto. apply IHl. intros. apply HB. simpl. auto. }
  rewrite E. destruct (foldM put (gst_out accs) s); cbn [bind]; auto.
Qed.

(** All threads together. *)
Lemma tls_first_ok : forall {S} (put : S -> nat * A -> res S) (dist : list xops -> list (list xops)) tasks (s : S),
  is_distribution dist -> below n (concat tasks) ->
  exists out, tls_first d first step put stripe n dist tasks s = foldM put out s /\
    Forall (fun e => (fst e < n)%nat) out /\ Grouped (concat tasks) out.
Proof.
  intros S put dist tasks s HD SB. unfold tls_first.
  assert (P : Permutation (concat tasks) (concat (map (@concat _) (dist tasks)))).
  { eapply Permutation_trans; [apply Permutation_concat; apply HD|]. rewrite concat_concat'. auto. }
  assert (SB' : below n (concat (map (@concat _) (dist tasks)))).
  { unfold below. eapply Permutation_Forall; [exact P|exact SB]. }
  assert (exists cells, mapM (fun ts => gst_run d first step stripe n (concat ts)) (dist tasks) = Ok cells /\
     Forall (fun accs => exists c, below n c /\ gst_ok c accs) cells /\
     Forall (fun e => (fst e < n)%nat) (concat (map gst_out cells)) /\
     Grouped (concat (map (@concat _) (dist tasks))) (concat (map gst_out cells))) as (cells & E & FC & FB & G).
  { clear - SB' HS0 R_first R_step. induction (dist tasks) as [|ts l IH].
    - exists []. simpl. split; auto. split; [constructor|]. split; [constructor|apply Grouped_nil].
    - simpl in SB'. unfold below in SB'. apply Forall_app in SB'. destruct SB' as [S1 S2].
      destruct (gst_run_ok (concat ts) S1) as (accs & E & OK). destruct (IH S2) as (cells & E' & FC & FB & G).
      destruct (gst_out_ok _ _ OK S1) as [O1 O2].
      exists (accs :: cells). cbn [mapM]. rewrite E. cbn [bind]. rewrite E'. cbn [bind]. split; auto. split; [constructor; eauto|].
      simpl. split; [apply Forall_app; auto|apply Grouped_app; auto]. }
  rewrite E. cbn [bind]. exists (concat (map gst_out cells)). split; [apply gst_merge_ok; auto|]. split; auto.
  eapply Grouped_perm; [apply Permutation_sym; exact P|auto].
Qed.
End Stripes.

(** ** The two merges *)
Lemma put_seen_all : forall mrg l out seen, length seen = length out -> Forall (fun e => (fst e < length out)%nat) l ->
  exists out' seen', foldM (put_seen mrg) l (out, seen) = Ok (out', seen') /\ length out' = length out /\ length seen' = length out /\
    forall i, (i < length out)%nat ->
      (nth i seen' false = match vals_at i l with [] => nth i seen false | _ => true end) /\
      (nth i out' d = if nth i seen false then fold_left mrg (vals_at i l) (nth i out d)
                      else match vals_at i l with [] => nth i out d | v :: vs => fold_left mrg vs v end).
Proof.
  intros mrg. induction l as [|[k v] l IH]; intros out seen LS FA.
  - exists out, seen. simpl. split; [auto|]. split; [auto|]. split; [auto|]. intros i Hi. split; [auto|]. destruct (nth i seen false); auto.
  - inv FA. cbn [fst] in *. cbn [foldM]. unfold put_seen at 1. cbn [fst snd]. unfold get_checked.
    destruct (nth_error seen k) as [b|] eqn:EB; [|apply nth_error_None in EB; lia]. cbn [bind].
    destruct (nth_error out k) as [o|] eqn:EO; [|apply nth_error_None in EO; lia]. cbn [bind].
    pose proof (nth_error_nth _ _ false EB) as NB. pose proof (nth_error_nth _ _ d EO) as NO.
    destruct b; cbn [bind].
    + destruct (IH (upd out k (mrg o v)) seen) as (out' & seen' & E & L1 & L2 & H); [rewrite upd_length; auto|rewrite upd_length; auto|].
      rewrite upd_length in *. exists out', seen'. split; [exact E|]. split; auto. split; auto. intros i Hi. destruct (H i Hi) as [HA HB].
      unfold vals_at. cbn [filter fst map]. rewrite nth_upd in HB by auto. destruct (Nat.eqb_spec k i).
      * subst i. cbn [map snd]. fold (vals_at k l). split; [rewrite HA, NB; destruct (vals_at k l); auto|]. rewrite HB, NB, NO. auto.
      * fold (vals_at i l). auto.
    + destruct (IH (upd out k v) (upd seen k true)) as (out' & seen' & E & L1 & L2 & H); [rewrite !upd_length; auto|rewrite upd_length; auto|].
      rewrite upd_length in *. exists out', seen'. split; [exact E|]. split; auto. split; auto. intros i Hi. destruct (H i Hi) as [HA HB].
      unfold vals_at. cbn [filter fst map]. rewrite !nth_upd in HA, HB by lia. destruct (Nat.eqb_spec k i).
      * subst i. cbn [map snd]. fold (vals_at k l). split; [rewrite HA; destruct (vals_at k l); auto|]. rewrite HB, NB. rewrite nth_upd by auto. rewrite Nat.eqb_refl. auto.
      * fold (vals_at i l). rewrite nth_upd in HB by auto. destruct (Nat.eqb_spec k i); [contradiction|]. auto.
Qed.

Lemma put_add_all : forall add l out, Forall (fun e => (fst e < length out)%nat) l ->
  exists out', foldM (put_add add) l out = Ok out' /\ length out' = length out /\
    forall i, (i < length out)%nat -> nth i out' d = fold_left add (vals_at i l) (nth i out d).
Proof.
  intros add. induction l as [|[k v] l IH]; intros out FA.
  - exists out. simpl. auto.
  - inv FA. cbn [fst] in *. cbn [foldM]. unfold put_add at 1. cbn [fst snd]. unfold get_checked.
    destruct (nth_error out k) as [o|] eqn:EO; [|apply nth_error_None in EO; lia]. cbn [bind].
    pose proof (nth_error_nth _ _ d EO) as NO.
    destruct (IH (upd out k (add o v))) as (out' & E & L1 & H); [rewrite upd_length; auto|].
    rewrite upd_length in *. exists out'. split; [exact E|]. split; auto. intros i Hi. rewrite H by auto.
    unfold vals_at. cbn [filter fst map]. rewrite nth_upd by auto. destruct (Nat.eqb_spec k i).
    + subst i. cbn [map snd fold_left]. rewrite NO. auto.
    + auto.
Qed.

Section Merges.
Variables (mrg : A -> A -> A).
Hypothesis R_mrg : forall l l' a b, R l a -> R l' b -> R (l ++ l') (mrg a b).

Lemma fold_groups : forall cs vs l a, Forall2 (fun x y => x <> [] /\ R x y) cs vs -> R l a -> R (l ++ concat cs) (fold_left mrg vs a).
Proof.
  intros cs vs l a H. revert l a. induction H as [|x y cs vs [_ HR] _ IH]; intros l a Ha; simpl; [rewrite app_nil_r; auto|].
  rewrite app_assoc. apply IH. auto.
Qed.

Lemma tls_seen_ok : forall stripe n dist tasks, (0 < stripe)%nat -> is_distribution dist -> below n (concat tasks) ->
  exists out seen, tls_first d first step (put_seen mrg) stripe n dist tasks (repeat d n, repeat false n) = Ok (out, seen) /\
    length out = n /\ length seen = n /\
    forall i, (i < n)%nat -> let l := at_index (Z.of_nat i) (concat tasks) in
      (l = [] -> nth i seen false = false /\ nth i out d = d) /\
      (l <> [] -> nth i seen false = true /\ R l (nth i out d)).
Proof.
  intros stripe n dist tasks HS HD SB.
  destruct (tls_first_ok stripe n HS (put_seen mrg) dist tasks (repeat d n, repeat false n) HD SB) as (ops & E & FB & G).
  destruct (put_seen_all mrg ops (repeat d n) (repeat false n)) as (out & seen & E' & L1 & L2 & H).
  { rewrite !repeat_length. auto. } { rewrite repeat_length. auto. }
  rewrite repeat_length in *. exists out, seen. rewrite E, E'. split; [auto|]. split; [auto|]. split; [auto|]. intros i H0. cbv zeta. split; intros H1; split.
  - destruct (H i H0) as [HA _]. destruct (G i) as (cs & F2 & P). rewrite H1 in P. apply Permutation_sym, Permutation_nil in P.
    destruct F2 as [|x y cs vs [Hx _]]; [|destruct x; [congruence|discriminate]]. rewrite HA, nth_repeat. auto.
  - destruct (H i H0) as [_ HB]. destruct (G i) as (cs & F2 & P). rewrite H1 in P. apply Permutation_sym, Permutation_nil in P.
    destruct F2 as [|x y cs vs [Hx _]]; [|destruct x; [congruence|discriminate]]. rewrite HB, !nth_repeat. auto.
  - destruct (H i H0) as [HA _]. destruct (G i) as (cs & F2 & P). destruct F2 as [|x y cs vs [Hx _]].
    + simpl in P. apply Permutation_nil in P. contradiction.
    + auto.
  - destruct (H i H0) as [_ HB]. destruct (G i) as (cs & F2 & P). eapply R_perm; [exact P|]. rewrite HB, nth_repeat.
    destruct F2 as [|x y cs vs [Hx HR] F2].
    + simpl in P. apply Permutation_nil in P. contradiction.
    + simpl. apply fold_groups; auto.
Qed.

Lemma tls_add_ok : forall stripe n dist tasks, R [] d -> (0 < stripe)%nat -> is_distribution dist -> below n (concat tasks) ->
  exists out, tls_first d first step (put_add mrg) stripe n dist tasks (repeat d n) = Ok out /\
    length out = n /\ forall i, (i < n)%nat -> R (at_index (Z.of_nat i) (concat tasks)) (nth i out d).
Proof.
  intros stripe n dist tasks RD HS HD SB.
  destruct (tls_first_ok stripe n HS (put_add mrg) dist tasks (repeat d n) HD SB) as (ops & E & FB & G).
  destruct (put_add_all mrg ops (repeat d n)) as (out & E' & L1 & H).
  { rewrite repeat_length. auto. }
  rewrite repeat_length in *. exists out. rewrite E, E'. split; [auto|]. split; [auto|]. intros i Hi. rewrite H, nth_repeat by auto.
  destruct (G i) as (cs & F2 & P). eapply R_perm; [exact P|]. apply (fold_groups cs _ [] d F2 RD).
Qed.
End Merges.

End Gen.

(** ** Slices of the values *)
Lemma slice_combine_snd : forall {V} (A : Cs V) i, cs_ok A -> (i < major A)%nat ->
  slice (Z.to_nat (nth i (ptr A) 0)) (Z.to_nat (nth (S i) (ptr A) 0)) (dat A) = map snd (cs_row A i).
Proof.
  intros V A i OK Hi. unfold cs_row. rewrite <- slice_map, map_snd_combine; auto. destruct OK; auto.
Qed.

Lemma data_slice_ok : forall {V} (A : Cs V) i, cs_ok A -> alloc_ok (length (dat A)) -> (i < major A)%nat ->
  data_slice A i = Ok (map snd (cs_row A i)).
Proof.
  intros V A i OK AL Hi. unfold data_slice, get_checked. rewrite !ptr_nth by (auto; lia). cbn [bind].
  pose proof (ptr_range A i OK ltac:(lia)) as R1. pose proof (ptr_range A (S i) OK ltac:(lia)) as R2.
  pose proof (ptr_mono A i (S i) OK ltac:(lia) ltac:(lia)) as M.
  assert (EL : length (idx A) = length (dat A)) by (destruct OK; tauto).
  unfold alloc_ok, i64_max in AL. rewrite !to_usize_id by (unfold usize_max; lia).
  rewrite !(proj2 (Z.leb_le _ _)) by lia. cbn [andb]. rewrite slice_combine_snd by auto. auto.
Qed.

Lemma count_index_ok : forall n l, Forall (fun z => 0 <= z < Z.of_nat n) l -> alloc_ok n ->
  exists cs, count_index n l = Ok cs /\ length cs = n /\ forall i, (i < n)%nat -> nth i cs 0%nat = count_occ Z.eq_dec l (Z.of_nat i).
Proof.
  intros n l FA AL. unfold count_index.
  cut (forall l cs, Forall (fun z => 0 <= z < Z.of_nat n) l -> length cs = n ->
    exists cs', foldM (fun c z => let i := Z.to_nat (to_usize z) in let! k := get_checked c i in Ok (upd c i (S k))) l cs = Ok cs' /\ length cs' = n /\
      forall i, (i < n)%nat -> nth i cs' 0%nat = (nth i cs 0 + count_occ Z.eq_dec l (Z.of_nat i))%nat).
  { intros H. destruct (H l (repeat 0%nat n) FA (repeat_length _ _)) as (cs & E & L & A). exists cs. split; auto. split; auto.
    intros i Hi. rewrite A, nth_repeat by auto. auto. }
  clear FA l. induction l as [|z l IH]; intros cs FA LC.
  - exists cs. simpl. split; auto.
  - inv FA. cbn [foldM]. unfold alloc_ok, i64_max in AL. cbv zeta. rewrite to_usize_id by (unfold usize_max; lia). unfold get_checked at 1.
    destruct (nth_error cs (Z.to_nat z)) as [k|] eqn:EK; [|apply nth_error_None in EK; lia]. cbn [bind].
    destruct (IH (upd cs (Z.to_nat z) (S k)) H2) as (cs' & E & L & A); [rewrite upd_length; auto|].
    exists cs'. split; [exact E|]. split; auto. intros i Hi. rewrite A by auto. rewrite nth_upd by lia. cbn [count_occ].
    pose proof (nth_error_nth _ _ 0%nat EK) as NK.
    destruct (Nat.eqb_spec (Z.to_nat z) i); destruct (Z.eq_dec z (Z.of_nat i)); try lia. subst i. lia.
Qed.
