(** Correctness of the two axis-exchange algorithms and of the COO expansions. *)
Require Import List ZArith Bool Lia Permutation Sorted Arith.
Require Import Verif.Res Verif.Values Verif.Spec Verif.Mem Verif.Lists Verif.CsLib Verif.MConvert Verif.PConvert.
Import ListNotations.
Local Open Scope nat_scope.

Section Flip.
Context {V : Type} {ZV : Zero V}.
Notation row := (list (Z * V)).

Lemma get_row_checked_ok : forall (A : Cs V) i, cs_ok A -> i < major A -> get_row_checked A i = Ok (cs_row A i).
Proof.
  intros A i OK H. unfold get_row_checked, get_checked.
  rewrite !(ptr_nth A) by (auto; lia). simpl.
  pose proof (ptr_range A i OK ltac:(lia)). pose proof (ptr_range A (S i) OK ltac:(lia)).
  pose proof (ptr_mono A i (S i) OK ltac:(lia) ltac:(lia)). pose proof (ok_len _ OK).
  repeat match goal with |- context [(?a <=? ?b)%Z] => destruct (Z.leb_spec a b); try lia end; reflexivity.
Qed.

Lemma rows_idx : forall A : Cs V, cs_ok A -> map fst (concat (rows A)) = idx A.
Proof. intros. rewrite concat_rows by auto. apply map_fst_combine. apply (ok_len _ H). Qed.

Lemma rows_dat : forall A : Cs V, cs_ok A -> length (concat (rows A)) = length (dat A).
Proof. intros. rewrite concat_rows by auto. rewrite combine_length, (ok_len _ H). lia. Qed.

(** The matrix read off from the buckets of a trace. *)
Definition of_trace (m n : nat) (tr : list (Z * (Z * V))) : Cs V := of_rows m (buckets n tr).

Lemma assemble_trace : forall m n tr tr0 sch nnz, is_schedule sch ->
  Permutation tr0 tr -> keys_in n (map fst tr0) -> nnz = length tr0 ->
  (let! ws := scatter (psum 0 (hist n (map fst tr0))) tr in
   let! out := assemble nnz (sch ws) in
   Ok (mkCs n m (indptr_of (hist n (map fst tr0))) (map fst out) (map snd out))) = Ok (of_trace m n tr).
Proof.
  intros m n tr tr0 sch nnz HS P K L.
  assert (K' : keys_in n (map fst tr)).
  { unfold keys_in in *. rewrite Forall_forall in *. intros k I. apply K.
    eapply Permutation_in; [|exact I]. apply Permutation_map. symmetry. auto. }
  assert (E : hist n (map fst tr0) = hist n (map fst tr)).
  { unfold hist. apply map_ext. intros. apply cnt_perm. apply Permutation_map. auto. }
  rewrite E, hist_buckets.
  rewrite scatter_ok.
  2:{ rewrite psum_length, map_length, buckets_length. unfold keys_in in *.
      eapply Forall_impl; [|exact K']. simpl. intros. lia. }
  cbn [bind].
  pose proof (pscatter_perm n tr (psum 0 (map (@length _) (buckets n tr)))
     ltac:(rewrite psum_length, map_length, buckets_length; lia) K') as PS.
  rewrite slots_psum in PS.
  replace nnz with (length (concat (buckets n tr))).
  2:{ rewrite buckets_total by auto. subst nnz. apply Permutation_length. symmetry. auto. }
  rewrite assemble_perm with (l := concat (buckets n tr)).
  - cbn [bind]. unfold of_trace, of_rows. rewrite buckets_length. auto.
  - rewrite <- PS. apply HS.
Qed.

Lemma rows_keys_in : forall A : Cs V, cs_ok A -> keys_in (minor A) (map fst (concat (rows A))).
Proof. intros. apply keys_in_bounds. apply ok_rows_bounds. auto. Qed.

Lemma flip_atomic_ok : forall il sch get (A : Cs V), is_interleaving il -> is_schedule sch -> cs_ok A ->
  (forall i, i < major A -> get A i = Ok (cs_row A i)) ->
  flip_atomic il sch get A = Ok (of_trace (major A) (minor A) (il (tasks (rows A)))).
Proof.
  intros il sch get A HI HS OK HG. unfold flip_atomic.
  rewrite <- (rows_idx A OK). rewrite count_keys_ok by (apply rows_keys_in; auto). cbn [bind].
  rewrite (mapM_ok _ (cs_row A)). 2:{ intros i I. apply in_seq in I. apply HG. lia. }
  cbn [bind]. change (map (cs_row A) (seq 0 (major A))) with (rows A).
  rewrite <- keys_entries. apply assemble_trace; auto.
  - apply Interleave_perm. apply HI.
  - rewrite keys_entries. apply rows_keys_in. auto.
  - rewrite entries_length. symmetry. apply rows_dat. auto.
Qed.

(** What the result stores, for any interleaving. *)
Lemma of_trace_at : forall m n (rs : list row) tr i j, Interleave (tasks rs) tr -> j < n ->
  cs_at (of_trace m n tr) j (Z.of_nat i) = at_index (Z.of_nat j) (nth i rs []).
Proof.
  intros. unfold cs_at, of_trace. rewrite cs_row_of_rows. rewrite nth_buckets by auto.
  apply trace_cell. auto.
Qed.

Lemma of_trace_ok : forall n (rs : list row) tr, Permutation (entries rs) tr ->
  alloc_ok (length rs) -> cs_ok (of_trace (length rs) n tr).
Proof.
  intros n rs tr P AL. apply of_rows_ok. apply Forall_forall. intros r I.
  unfold buckets in I. apply in_map_iff in I. destruct I as (j & <- & _).
  eapply bucket_bounds; eauto. unfold alloc_ok in AL. lia.
Qed.

Definition flipped (A : Cs V) : Cs V := of_trace (major A) (minor A) (entries (rows A)).

Lemma StronglySorted_NoDup : forall l, StronglySorted Z.lt l -> NoDup l.
Proof.
  induction 1; constructor; auto. intros I. rewrite Forall_forall in H0. apply H0 in I. lia.
Qed.

(** No column occurs twice in a row; the order is arbitrary. *)
Definition distinct (A : Cs V) : Prop := cs_ok A /\ Forall (fun r : row => NoDup (map fst r)) (rows A).

Lemma canonical_distinct : forall A, canonical A -> distinct A.
Proof.
  intros A C. apply canonical_rows in C. destruct C as [OK FS]. split; auto.
  eapply Forall_impl; [|exact FS]. intros r. apply StronglySorted_NoDup.
Qed.

Lemma at_index_nodup : forall r : row, (forall e, In e r -> length (at_index (fst e) r) <= 1) -> NoDup (map fst r).
Proof.
  induction r as [|[k v] r IH]; intros H; simpl; constructor.
  - intros I. apply in_map_iff in I. destruct I as ([k' v'] & E & I). simpl in E. subst k'.
    specialize (H (k, v) (or_introl eq_refl)). cbn [fst] in H. rewrite at_index_cons, Z.eqb_refl in H. simpl in H.
    assert (In v' (at_index k r)). { unfold at_index. apply in_map_iff. exists (k, v'). split; auto. apply filter_In. split; auto. apply Z.eqb_refl. }
    destruct (at_index k r); simpl in *; [tauto|lia].
  - apply IH. intros e I. specialize (H e (or_intror I)). rewrite at_index_cons in H. destruct (k =? fst e)%Z; simpl in H; lia.
Qed.

(** The same, cell by cell. *)
Lemma distinct_cells : forall A : Cs V, cs_ok A ->
  (forall i j, i < major A -> j < minor A -> length (cs_at A i (Z.of_nat j)) <= 1) -> distinct A.
Proof.
  intros A OK H. split; auto. apply Forall_forall. intros r I. unfold rows in I. apply in_map_iff in I.
  destruct I as (i & <- & I). apply in_seq in I. apply at_index_nodup. intros e Ie.
  pose proof (row_bounds A i OK ltac:(lia)) as B. unfold in_bounds in B. rewrite Forall_forall in B. specialize (B e Ie). cbv beta in B.
  replace (fst e) with (Z.of_nat (Z.to_nat (fst e))) by lia. apply H; lia.
Qed.

Lemma distinct_row : forall (A : Cs V) i, distinct A -> i < major A -> NoDup (map fst (cs_row A i)).
Proof.
  intros A i [_ FS] H. eapply Forall_forall in FS; eauto. unfold rows. apply in_map. apply in_seq. lia.
Qed.

Lemma flipped_canonical' : forall A, distinct A -> alloc_ok (major A) -> canonical (flipped A).
Proof.
  intros A CA AL. apply of_rows_canonical.
  - apply Forall_forall. intros r I. unfold buckets in I. apply in_map_iff in I. destruct I as (j & <- & _).
    apply bucket_bounds with (rs := rows A); auto; rewrite rows_length; auto. unfold alloc_ok in AL. lia.
  - apply Forall_forall. intros r I. unfold buckets in I. apply in_map_iff in I. destruct I as (j & <- & _).
    apply bucket_sorted. apply CA.
Qed.

Lemma flipped_canonical : forall A, canonical A -> alloc_ok (major A) -> canonical (flipped A).
Proof. intros. apply flipped_canonical'; auto. apply canonical_distinct. auto. Qed.

Lemma flipped_at : forall A i j, i < major A -> j < minor A ->
  cs_at (flipped A) j (Z.of_nat i) = cs_at A i (Z.of_nat j).
Proof.
  intros. unfold flipped. rewrite of_trace_at with (rs := rows A); auto.
  - rewrite nth_rows by auto. auto.
  - apply Interleave_concat.
Qed.

Lemma flipped_involutive : forall A, canonical A -> alloc_ok (major A) -> alloc_ok (minor A) ->
  flipped (flipped A) = A.
Proof.
  intros A CA A1 A2.
  assert (M1 : major (flipped A) = minor A) by (unfold flipped, of_trace; simpl; apply buckets_length).
  assert (M2 : minor (flipped A) = major A) by reflexivity.
  apply canonical_ext; auto.
  - apply flipped_canonical; [|rewrite M1; auto]. apply flipped_canonical; auto.
  - unfold flipped at 1, of_trace. simpl. rewrite buckets_length. auto.
  - intros i j Hi Hj.
    assert (major (flipped (flipped A)) = major A) as M3.
    { unfold flipped at 1, of_trace. simpl. rewrite buckets_length. auto. }
    assert (minor (flipped (flipped A)) = minor A) as M4.
    { unfold flipped at 1, of_trace. cbn [minor of_rows]. auto. }
    rewrite M3 in Hi. rewrite M4 in Hj.
    rewrite flipped_at by (rewrite ?M1, ?M2; auto). apply flipped_at; auto.
Qed.

(** ** Strategy A *)
Lemma zget_unchecked_ok : forall (pos : list nat) k, (0 <= k < Z.of_nat (length pos))%Z ->
  zget_unchecked pos k = Ok (nth (Z.to_nat k) pos 0).
Proof.
  intros. unfold zget_unchecked, get_unchecked. destruct (Z.ltb_spec k 0); [lia|].
  rewrite (nth_error_nth' pos 0) by lia. auto.
Qed.

Lemma pbump_other : forall pos k k', (0 <= k < Z.of_nat (length pos))%Z -> (0 <= k')%Z -> k <> k' ->
  nth (Z.to_nat k') (pbump pos k) 0 = nth (Z.to_nat k') pos 0.
Proof.
  intros. unfold pbump. rewrite nth_upd by lia. destruct (Nat.eqb_spec (Z.to_nat k) (Z.to_nat k')); auto. lia.
Qed.

Lemma advance_cons : forall {W} (pos : list nat) k (w : W) tr, advance pos ((k, w) :: tr) = advance (pbump pos k) tr.
Proof. reflexivity. Qed.

Lemma fill_row4_ok : forall {W} (r : list (Z * W)) pos, keys_in (length pos) (map fst r) -> NoDup (map fst r) ->
  fill_row4 pos r = Ok (advance pos r, pscatter pos r).
Proof.
  intros W r. assert (H : forall n (r : list (Z * W)), length r <= n -> forall pos, keys_in (length pos) (map fst r) -> NoDup (map fst r) ->
    fill_row4 pos r = Ok (advance pos r, pscatter pos r)).
  2:{ apply (H (length r)). auto. }
  clear r. induction n as [|n IH]; intros r L pos K ND.
  { destruct r; [|simpl in L; lia]. reflexivity. }
  destruct r as [|[k0 w0] [|[k1 w1] [|[k2 w2] [|[k3 w3] r]]]].
  - reflexivity.
  - inv K. simpl in *. rewrite zget_unchecked_ok by auto. reflexivity.
  - inv K. inv H2. simpl in *. rewrite zget_unchecked_ok by auto. cbn [bind].
    rewrite zget_unchecked_ok by (rewrite upd_length; auto). reflexivity.
  - inv K. inv H2. inv H4. simpl in *. rewrite zget_unchecked_ok by auto. cbn [bind].
    rewrite zget_unchecked_ok by (rewrite upd_length; auto). cbn [bind].
    rewrite zget_unchecked_ok by (rewrite !upd_length; auto). reflexivity.
  - cbn [map fst] in K, ND. unfold keys_in in K.
    inversion K as [|? ? K0 K']; subst. inversion K' as [|? ? K1 K'']; subst.
    inversion K'' as [|? ? K2 K3']; subst. inversion K3' as [|? ? K3 KR]; subst.
    inversion ND as [|? ? N0 ND']; subst. inversion ND' as [|? ? N1 ND'']; subst.
    inversion ND'' as [|? ? N2 ND3]; subst. inversion ND3 as [|? ? N3 NDR]; subst.
    simpl in N0, N1, N2.
    cbn [fill_row4]. rewrite !zget_unchecked_ok by auto. cbn [bind].
    set (p1 := pbump pos k0). set (p2 := pbump p1 k1). set (p3 := pbump p2 k2). set (p4 := pbump p3 k3).
    assert (L1 : length p1 = length pos) by apply pbump_length.
    assert (L2 : length p2 = length pos) by (unfold p2; rewrite pbump_length; auto).
    assert (L3 : length p3 = length pos) by (unfold p3; rewrite pbump_length; auto).
    assert (L4 : length p4 = length pos) by (unfold p4; rewrite pbump_length; auto).
    assert (D : k0 <> k1 /\ k0 <> k2 /\ k0 <> k3 /\ k1 <> k2 /\ k1 <> k3 /\ k2 <> k3) by intuition congruence.
    assert (R1 : nth (Z.to_nat k1) p1 0 = nth (Z.to_nat k1) pos 0).
    { unfold p1. rewrite pbump_other by lia. auto. }
    assert (R2 : nth (Z.to_nat k2) p2 0 = nth (Z.to_nat k2) pos 0).
    { unfold p2. rewrite pbump_other by lia. unfold p1. rewrite pbump_other by lia. auto. }
    assert (R3 : nth (Z.to_nat k3) p3 0 = nth (Z.to_nat k3) pos 0).
    { unfold p3. rewrite pbump_other by lia. unfold p2. rewrite pbump_other by lia.
      unfold p1. rewrite pbump_other by lia. auto. }
    assert (E : upd (upd (upd (upd pos (Z.to_nat k0) (S (nth (Z.to_nat k0) pos 0)))
                 (Z.to_nat k1) (S (nth (Z.to_nat k1) pos 0)))
                 (Z.to_nat k2) (S (nth (Z.to_nat k2) pos 0)))
                 (Z.to_nat k3) (S (nth (Z.to_nat k3) pos 0)) = p4).
    { rewrite <- R1, <- R2, <- R3. reflexivity. }
    rewrite E. rewrite IH; auto.
    2:{ simpl in L. lia. }
    2:{ rewrite L4. auto. }
    cbn [bind]. rewrite !advance_cons. cbn [pscatter]. fold p1. fold p2. fold p3. fold p4.
    rewrite R1, R2, R3. auto.
Qed.

Lemma keys_in_app : forall n (a b : list Z), keys_in n (a ++ b) <-> keys_in n a /\ keys_in n b.
Proof. intros. apply Forall_app. Qed.

Lemma fill_tile_ok : forall {W} (rs : list (list (Z * W))) pos, keys_in (length pos) (map fst (concat rs)) ->
  Forall (fun r => NoDup (map fst r)) rs -> fill_tile pos rs = Ok (pscatter pos (concat rs)).
Proof.
  induction rs as [|r rs IH]; intros pos K ND; simpl; auto. inv ND. simpl in K. rewrite map_app in K.
  apply keys_in_app in K. destruct K as [K1 K2].
  rewrite fill_row4_ok by auto. cbn [bind]. rewrite IH; auto.
  2:{ rewrite advance_length. auto. }
  cbn [bind]. rewrite pscatter_app. auto.
Qed.

(** The tiles partition the rows. *)
Lemma tile_seq : forall tile m k,
  concat (map (fun t => seq (t * tile) (Nat.min (t * tile + tile) m - t * tile)) (seq 0 k)) = seq 0 (Nat.min (k * tile) m).
Proof.
  induction k.
  - reflexivity.
  - rewrite seq_S, map_app, concat_app, IHk. simpl map. simpl concat. rewrite app_nil_r.
    simpl (0 + k). destruct (Nat.le_gt_cases (k * tile) m) as [H|H].
    + rewrite Nat.min_l by auto. replace (Nat.min (S k * tile) m) with (k * tile + (Nat.min (k * tile + tile) m - k * tile)) by (simpl; lia).
      rewrite seq_app. auto.
    + replace (Nat.min (k * tile + tile) m - k * tile) with 0 by lia. simpl seq at 2. rewrite app_nil_r.
      f_equal. simpl. lia.
Qed.

Lemma tile_covers : forall m tiles, 1 <= tiles -> m <= tiles * ((m + tiles - 1) / tiles).
Proof.
  intros. pose proof (Nat.div_mod (m + tiles - 1) tiles ltac:(lia)).
  pose proof (Nat.mod_upper_bound (m + tiles - 1) tiles ltac:(lia)). lia.
Qed.

Lemma concat_map_app_perm : forall {A B} (f g : A -> list B) l,
  Permutation (concat (map (fun x => f x ++ g x) l)) (concat (map f l) ++ concat (map g l)).
Proof.
  induction l; simpl; auto. rewrite IHl. rewrite <- !app_assoc. apply Permutation_app_head.
  rewrite !app_assoc. apply Permutation_app_tail. apply Permutation_app_comm.
Qed.

Lemma concat_map_swap : forall {A B C} (g : A -> B -> list C) T J,
  Permutation (concat (map (fun t => concat (map (g t) J)) T))
              (concat (map (fun j => concat (map (fun t => g t j) T)) J)).
Proof.
  induction T as [|t T IH]; intros J; simpl.
  - induction J; simpl; auto.
  - rewrite IH. symmetry. apply (concat_map_app_perm (g t) (fun j => concat (map (fun t => g t j) T))).
Qed.

Lemma fold_left_total : forall {A} (f : A -> nat) l a, fold_left (fun s h => s + f h) l a = a + total (map f l).
Proof. induction l; intros; simpl; auto. rewrite IHl. lia. Qed.

Lemma at_index_concat : forall {W} j (ts : list (list (Z * W))), at_index j (concat ts) = concat (map (at_index j) ts).
Proof. induction ts; simpl; auto. rewrite at_index_app', IHts. auto. Qed.

Lemma map_nth_seq : forall {A B} (f : A -> B) l d n, n = length l -> map (fun i => f (nth i l d)) (seq 0 n) = map f l.
Proof. intros. subst n. rewrite <- (map_seq_nth l d) at 2. rewrite map_map. auto. Qed.

Lemma nth_hist : forall n keys j, j < n -> nth j (hist n keys) 0 = cnt (Z.of_nat j) keys.
Proof.
  intros. unfold hist. rewrite nth_indep with (d' := cnt (Z.of_nat 0) keys) by (rewrite map_length, seq_length; auto).
  rewrite (map_nth (fun j => cnt (Z.of_nat j) keys)). rewrite seq_nth; auto.
Qed.

(** Tiles' traces [trs], each with its own offsets: together they write the
    buckets of the concatenation. *)
Lemma tiles_perm : forall {W} n (trs : list (list (Z * W))) starts, length starts >= n ->
  keys_in n (map fst (concat trs)) ->
  let hists := map (fun tr => hist n (map fst tr)) trs in
  Permutation
    (concat (map (fun t => pscatter (tile_offsets n starts hists t) (nth t trs [])) (seq 0 (length trs))))
    (slots n starts (concat trs)).
Proof.
  intros W n trs starts L K hists.
  assert (KT : forall t, keys_in n (map fst (nth t trs []))).
  { intros t. destruct (Nat.lt_ge_cases t (length trs)).
    - unfold keys_in in *. rewrite Forall_map in *. rewrite Forall_concat in K. rewrite Forall_forall in K.
      apply K. apply nth_In. auto.
    - rewrite nth_overflow by auto. constructor. }
  etransitivity.
  { apply Permutation_concat_map. intros t _. apply pscatter_perm with (n := n); auto.
    unfold tile_offsets. rewrite map_length, seq_length. auto. }
  unfold slots. etransitivity.
  { apply (concat_map_swap (fun t j => combine (seq (nth j (tile_offsets n starts hists t) 0) (length (at_index (Z.of_nat j) (nth t trs []))))
       (at_index (Z.of_nat j) (nth t trs [])))). }
  apply Permutation_concat_map. intros j Hj. apply in_seq in Hj.
  rewrite at_index_concat.
  rewrite <- all_writes_psum. rewrite all_writes_nth.
  2:{ rewrite psum_length, !map_length. lia. }
  rewrite map_length. match goal with |- Permutation ?a ?b => replace b with a; auto end.
  f_equal. apply map_ext_in. intros t Ht. apply in_seq in Ht.
  rewrite nth_indep with (d := []) (d' := at_index (Z.of_nat j) (@nil (Z * W))) by (rewrite map_length; lia).
  rewrite map_nth. unfold row_writes. f_equal. f_equal.
  rewrite nth_psum by (rewrite !map_length; lia).
  unfold tile_offsets. rewrite nth_indep with (d' := fold_left (fun s h => s + nth 0 h 0) (firstn t hists) (nth 0 starts 0)) by (rewrite map_length, seq_length; lia).
  rewrite (map_nth (fun j => fold_left (fun s h => s + nth j h 0) (firstn t hists) (nth j starts 0))).
  rewrite seq_nth by lia. simpl. rewrite fold_left_total. f_equal.
  rewrite !firstn_map. unfold hists. rewrite firstn_map, !map_map. f_equal. apply map_ext.
  intros. rewrite nth_hist by lia. apply cnt_at_index.
Qed.

Lemma hist_sum_ok : forall {W} n (trs : list (list (Z * W))),
  hist_sum n (map (fun tr => hist n (map fst tr)) trs) = map (@length _) (buckets n (concat trs)).
Proof.
  intros. unfold hist_sum, buckets. rewrite map_map. apply map_ext_in. intros j Hj. apply in_seq in Hj.
  rewrite fold_left_total. simpl. rewrite at_index_concat, map_map.
  rewrite <- total_length_concat, map_map. f_equal. apply map_ext. intros.
  rewrite nth_hist by lia. apply cnt_at_index.
Qed.

Lemma combine_seq_nth : forall {A B} (f : nat -> A -> B) l d s, 
  map (fun p => f (fst p) (snd p)) (combine (seq s (length l)) l) = map (fun i => f (s + i) (nth i l d)) (seq 0 (length l)).
Proof.
  induction l; intros; simpl; auto. f_equal.
  - f_equal. lia.
  - rewrite (IHl d). rewrite <- seq_shift, map_map. apply map_ext. intros. f_equal. lia.
Qed.


Lemma flip_tiled_ok : forall tiles sch (A : Cs V), 1 <= tiles -> is_schedule sch -> distinct A ->
  flip_tiled tiles sch A = Ok (flipped A).
Proof.
  intros tiles sch A HT HS CA. pose proof (proj1 CA) as OK. unfold flip_tiled.
  set (tile := (major A + tiles - 1) / tiles).
  set (trows := fun t => map (fun i => task i (cs_row A i)) (seq (t * tile) (Nat.min (t * tile + tile) (major A) - t * tile))).
  assert (E1 : mapM (tile_rows A tile) (seq 0 tiles) = Ok (map trows (seq 0 tiles))).
  { apply mapM_ok. intros t It. unfold tile_rows. apply mapM_ok. intros i Ii. apply in_seq in Ii.
    rewrite get_row_ok by (auto; lia). auto. }
  rewrite E1. cbn [bind].
  set (trs := map (fun t => concat (trows t)) (seq 0 tiles)).
  assert (EC : concat trs = entries (rows A)).
  { unfold trs, entries. rewrite tasks_nth, rows_length.
    pose proof (tile_seq tile (major A) tiles) as TS.
    rewrite Nat.min_r in TS by (apply tile_covers; auto).
    rewrite <- TS. unfold trows. clear TS E1. generalize (seq 0 tiles). induction l as [|t l IH]; simpl; auto.
    rewrite IH. rewrite map_app, concat_app. f_equal. f_equal. apply map_ext_in. intros i Ii. apply in_seq in Ii.
    rewrite nth_rows by lia. auto. }
  assert (KA : keys_in (minor A) (map fst (concat trs))).
  { rewrite EC, keys_entries. apply rows_keys_in. auto. }
  assert (KT : forall t, t < tiles -> keys_in (minor A) (map fst (concat (trows t)))).
  { intros t Ht. unfold keys_in in *. rewrite Forall_map in *. rewrite Forall_concat in KA. rewrite Forall_forall in KA.
    apply KA. unfold trs. apply (in_map (fun t => concat (trows t))). apply in_seq. lia. }
  assert (E2 : mapM (tile_hist (minor A)) (map trows (seq 0 tiles))
             = Ok (map (fun tr => hist (minor A) (map fst tr)) trs)).
  { rewrite (mapM_ok _ (fun rs => hist (minor A) (map fst (concat rs)))).
    - unfold trs. rewrite !map_map. auto.
    - intros rs I. apply in_map_iff in I. destruct I as (t & <- & It). apply in_seq in It.
      unfold tile_hist. apply hist_unchecked_ok. apply KT. lia. }
  rewrite E2. cbn [bind]. rewrite hist_sum_ok.
  set (starts := psum 0 (map (@length _) (buckets (minor A) (concat trs)))).
  assert (LS : length starts >= minor A).
  { unfold starts. rewrite psum_length, map_length, buckets_length. lia. }
  set (hists := map (fun tr => hist (minor A) (map fst tr)) trs).
  assert (LT : length trs = tiles) by (unfold trs; rewrite map_length, seq_length; auto).
  rewrite (mapM_ok _ (fun tr => pscatter (tile_offsets (minor A) starts hists (fst tr)) (concat (snd tr)))).
  2:{ intros [t rs] I. cbn [fst snd].
      assert (t < tiles /\ rs = trows t) as [Ht ->].
      { apply In_nth_error in I. destruct I as [q I].
        apply nth_error_combine in I. destruct I as [I1 I2].
        pose proof (nth_error_lt _ _ _ I1) as Lq. rewrite seq_length in Lq.
        rewrite (nth_error_nth' (seq 0 tiles) 0) in I1 by (rewrite seq_length; auto).
        rewrite seq_nth in I1 by auto. simpl in I1. assert (t = q) as -> by congruence.
        rewrite nth_error_map in I2.
        rewrite (nth_error_nth' (seq 0 tiles) 0) in I2 by (rewrite seq_length; auto).
        rewrite seq_nth in I2 by auto. simpl in I2. split; congruence. }
      apply fill_tile_ok.
      - unfold tile_offsets. rewrite map_length, seq_length. apply KT. auto.
      - apply Forall_forall. intros r Ir. unfold trows in Ir. apply in_map_iff in Ir. destruct Ir as (i & <- & Ii).
        apply in_seq in Ii. rewrite keys_task. apply distinct_row; auto. lia. }
  cbn [bind].
  pose proof (tiles_perm (minor A) trs starts LS KA) as TP. cbn zeta in TP. fold hists in TP.
  rewrite LT in TP.
  assert (EW : map (fun tr : nat * list (list (Z * (Z * V))) => pscatter (tile_offsets (minor A) starts hists (fst tr)) (concat (snd tr)))
       (combine (seq 0 tiles) (map trows (seq 0 tiles)))
     = map (fun t => pscatter (tile_offsets (minor A) starts hists t) (nth t trs [])) (seq 0 tiles)).
  { pose proof (combine_seq_nth (fun t (rs : list (list (Z * (Z * V)))) => pscatter (tile_offsets (minor A) starts hists t) (concat rs)) (map trows (seq 0 tiles)) (trows 0) 0) as CS.
    rewrite map_length, seq_length in CS. rewrite CS. apply map_ext_in. intros t It. apply in_seq in It.
    rewrite (map_nth trows). rewrite seq_nth by lia. f_equal.
    unfold trs. rewrite nth_indep with (d' := concat (trows 0)) by (rewrite map_length, seq_length; lia).
    rewrite (map_nth (fun t => concat (trows t))). rewrite seq_nth by lia. auto. }
  rewrite EW.
  set (ws := concat (map (fun t => pscatter (tile_offsets (minor A) starts hists t) (nth t trs [])) (seq 0 tiles))) in *.
  assert (PW : Permutation (combine (seq 0 (length (concat (buckets (minor A) (concat trs))))) (concat (buckets (minor A) (concat trs)))) (sch ws)).
  { rewrite <- (slots_psum (minor A) (concat trs)). fold starts. rewrite <- TP. apply HS. }
  replace (length (dat A)) with (length (concat (buckets (minor A) (concat trs)))).
  2:{ rewrite buckets_total by auto. rewrite EC, entries_length. apply rows_dat. auto. }
  rewrite (assemble_zeroed_agrees _ _ _ _ (assemble_perm _ _ PW)). cbn [bind]. unfold flipped, of_trace, of_rows. rewrite buckets_length, EC. auto.
Qed.

(** ** Strategy B *)
Definition key_le (x y : Z * V) : Prop := (fst x <= fst y)%Z.

Lemma sorted_unique : forall l l' : row, Permutation l l' -> srow l -> StronglySorted key_le l' -> l' = l.
Proof.
  intros l l' P S1 S2.
  assert (S3 : srow l').
  { unfold srow in *. assert (ND : NoDup (map fst l')).
    { eapply Permutation_NoDup; [apply Permutation_map; exact P|]. apply StronglySorted_NoDup. auto. }
    clear P S1. induction S2; simpl in *; constructor.
    - inv ND. auto.
    - inv ND. rewrite Forall_forall in *. intros k I. apply in_map_iff in I. destruct I as (e & <- & I).
      specialize (H e I). unfold key_le in H. assert (fst a <> fst e). { intros E. apply H2. rewrite E. apply in_map. auto. } lia. }
  apply srow_ext; auto. intros j.
  pose proof (at_index_perm j _ _ P) as PJ.
  destruct (srow_at_index j _ S1) as [E1|[v E1]]; destruct (srow_at_index j _ S3) as [E2|[v' E2]]; rewrite E1, E2 in *; auto.
  - apply Permutation_nil in PJ. congruence.
  - apply Permutation_sym, Permutation_nil in PJ. congruence.
  - apply Permutation_length_1 in PJ. congruence.
Qed.

Lemma sort_slices_ok : forall srt m (rs : list row), is_sorter key_le srt -> Forall (in_bounds m) rs ->
  sort_slices srt (of_rows m rs) = Ok (of_rows m (map (fun r => if length r <=? 1 then r else srt r) rs)).
Proof.
  intros srt m rs HS FB. unfold sort_slices. rewrite (mapM_ok _ (cs_row (of_rows m rs))).
  2:{ intros i I. apply in_seq in I. apply get_row_ok; [apply of_rows_ok; auto|lia]. }
  cbn [bind]. change (map (cs_row (of_rows m rs)) (seq 0 (major (of_rows m rs)))) with (rows (of_rows m rs)).
  rewrite rows_of_rows. unfold of_rows at 4. unfold of_rows. cbn [major minor ptr idx dat].
  rewrite map_length. f_equal. f_equal. f_equal. rewrite map_map. apply map_ext. intros r.
  destruct (length r <=? 1); auto. apply Permutation_length. apply HS.
Qed.

Lemma strategy_b_ok : forall il sch srt (A : Cs V),
  is_interleaving il -> is_schedule sch -> is_sorter key_le srt -> distinct A -> alloc_ok (major A) ->
  (let! B := flip_atomic il sch get_row A in sort_slices srt B) = Ok (flipped A).
Proof.
  intros il sch srt A HI HS HR CA AL.
  pose proof (proj1 CA) as OK. rewrite flip_atomic_ok; auto.
    2:{ intros. apply get_row_ok; auto. }
    cbn [bind]. unfold of_trace.
    assert (PT : Permutation (entries (rows A)) (il (tasks (rows A)))) by (apply Interleave_perm, HI).
    rewrite sort_slices_ok; auto.
    2:{ apply Forall_forall. intros r I. unfold buckets in I. apply in_map_iff in I. destruct I as (j & <- & _).
        eapply bucket_bounds; eauto; rewrite rows_length; auto. unfold alloc_ok in AL. lia. }
    f_equal. unfold flipped, of_trace. f_equal. unfold buckets. rewrite map_map. apply map_ext. intros j.
    pose proof (at_index_perm (Z.of_nat j) _ _ PT) as PJ.
    assert (SJ : srow (at_index (Z.of_nat j) (entries (rows A)))).
    { apply bucket_sorted. apply CA. }
    destruct (Nat.leb_spec (length (at_index (Z.of_nat j) (il (tasks (rows A))))) 1) as [H|H].
    + destruct (at_index (Z.of_nat j) (il (tasks (rows A)))) as [|x [|y l]]; simpl in H; try lia.
      * symmetry in PJ. apply Permutation_nil in PJ. auto.
      * symmetry in PJ. apply Permutation_length_1_inv in PJ. auto.
    + apply sorted_unique; auto.
      * rewrite PJ. apply HR.
      * apply HR.
Qed.

Lemma transpose_cs_ok' : forall threads il sch srt (A : Cs V),
  is_interleaving il -> is_schedule sch -> is_sorter key_le srt -> distinct A -> alloc_ok (major A) ->
  transpose_cs threads il sch srt A = Ok (flipped A).
Proof.
  intros threads il sch srt A HI HS HR CA AL. unfold transpose_cs.
  destruct (_ <=? _)%Z.
  - apply flip_tiled_ok; auto. lia.
  - apply strategy_b_ok; auto.
Qed.

Lemma transpose_cs_ok : forall threads il sch srt (A : Cs V),
  is_interleaving il -> is_schedule sch -> is_sorter key_le srt -> canonical A -> alloc_ok (major A) ->
  transpose_cs threads il sch srt A = Ok (flipped A).
Proof. intros. apply transpose_cs_ok'; auto. apply canonical_distinct. auto. Qed.

(** ** Expansion to COO *)
Lemma expand_ok : forall sch (A : Cs V), is_schedule sch -> cs_ok A ->
  expand sch A = Ok (entries (rows A)).
Proof.
  intros sch A HS OK. unfold expand.
  rewrite (mapM_ok _ (fun i => row_writes (nth i (psum 0 (map (@length _) (rows A))) 0) (nth i (tasks (rows A)) []))).
  2:{ intros i I. apply in_seq in I. unfold expand_writes. unfold get_checked at 1.
      rewrite (ptr_nth A) by (auto; lia). cbn [bind]. rewrite get_row_checked_ok by (auto; lia). cbn [bind].
      rewrite nth_tasks. rewrite nth_rows by lia. unfold row_writes. f_equal. f_equal.
      f_equal.
      - rewrite <- (of_rows_rows A OK) at 1. unfold of_rows. cbn [ptr]. rewrite nth_indptr by (rewrite map_length, rows_length; lia).
        rewrite Nat2Z.id. rewrite nth_psum; auto. rewrite map_length, rows_length. lia.
      - unfold task. rewrite map_length. auto. }
  cbn [bind].
  assert (LT : length (tasks (rows A)) = major A). { rewrite tasks_nth, map_length, seq_length, rows_length. auto. }
  assert (E : map (@length _) (rows A) = map (@length _) (tasks (rows A))).
  { rewrite tasks_nth, map_map. rewrite <- (map_seq_nth (rows A) []) at 1. rewrite map_map. apply map_ext.
    intros. unfold task. rewrite map_length. auto. }
  rewrite E. rewrite <- LT. rewrite <- all_writes_nth by (rewrite psum_length, map_length; lia).
  rewrite all_writes_psum. fold (entries (rows A)).
  replace (length (dat A)) with (length (entries (rows A))).
  2:{ rewrite entries_length. apply rows_dat; auto. }
  apply assemble_perm. apply HS.
Qed.
End Flip.
