(** Proofs about the scalar kernels and pruning. *)
Require Import List ZArith NArith Nnat Bool Lia Permutation Arith.
Require Import Verif.Res Verif.Values Verif.Spec Verif.Mem Verif.Lists Verif.CsLib Verif.Laws.
Require Import Verif.MConvert Verif.PConvert2 Verif.PCore Verif.NdLib Verif.MScalar.
Import ListNotations.
Local Open Scope nat_scope.

Lemma and_not3_spec : forall n, and_not3 n = 4 * (n / 4).
Proof.
  intros n. unfold and_not3. apply Nat2N.inj. rewrite N2Nat.id.
  replace 3%N with (N.ones 2) by reflexivity. rewrite N.ldiff_ones_r.
  rewrite N.shiftl_mul_pow2, N.shiftr_div_pow2. rewrite Nat2N.inj_mul, Nat2N.inj_div. change (N.of_nat 4) with 4%N. change (2 ^ 2)%N with 4%N. lia.
Qed.

Lemma and_not3_le : forall n, and_not3 n <= n.
Proof. intros. rewrite and_not3_spec. apply Nat.mul_div_le. lia. Qed.

Section Scalar.
Context {F : Fl}.
Implicit Types (f : F -> F) (l buf : list F).

Definition half f l i := map f (firstn i l) ++ skipn i l.

Lemma half_length : forall f l i, length (half f l i) = length l.
Proof. intros. unfold half. rewrite app_length, map_length, firstn_length, skipn_length. lia. Qed.

Lemma half_nth : forall f l i k, i <= k -> nth_error (half f l i) k = nth_error l k.
Proof.
  intros f l i k H. unfold half. destruct (Nat.lt_ge_cases k (length l)).
  - rewrite nth_error_app2 by (rewrite map_length, firstn_length; lia).
    rewrite map_length, firstn_length, nth_error_skipn'. f_equal. lia.
  - rewrite !(proj2 (nth_error_None _ _)); auto.
    rewrite app_length, map_length, firstn_length, skipn_length. lia.
Qed.

Lemma half_step : forall f l i v, nth_error l i = Some v -> upd (half f l i) i (f v) = half f l (S i).
Proof.
  intros f l i v E. pose proof (nth_error_lt _ _ _ E) as L. unfold half.
  revert i v E L. induction l as [|x l IH]; intros [|i] v E L; simpl in *; try discriminate.
  - inv E. auto.
  - f_equal. apply IH; auto. lia.
Qed.

Lemma half_full : forall f l i, length l <= i -> half f l i = map f l.
Proof. intros. unfold half. rewrite firstn_all2, skipn_all2 by auto. apply app_nil_r. Qed.

Lemma simd_step_ok : forall f l i, i + 4 <= length l -> simd_step f i (half f l i) = Ok (half f l (i + 4)).
Proof.
  intros f l i H. unfold simd_step, get_unchecked, set_unchecked.
  assert (G : forall k, k < 4 -> exists v, nth_error l (i + k) = Some v).
  { intros k Hk. destruct (nth_error l (i + k)) eqn:E; eauto. apply nth_error_None in E. lia. }
  destruct (G 0 ltac:(lia)) as [v0 E0]. destruct (G 1 ltac:(lia)) as [v1 E1].
  destruct (G 2 ltac:(lia)) as [v2 E2]. destruct (G 3 ltac:(lia)) as [v3 E3]. clear G.
  rewrite Nat.add_0_r in E0. rewrite !half_nth by lia. rewrite E0, E1, E2, E3. cbn [bind].
  repeat (rewrite (proj2 (Nat.ltb_lt _ _)) by (rewrite ?upd_length, half_length; lia); cbn [bind]).
  f_equal. rewrite (half_step f l i v0 E0).
  replace (i + 1) with (S i) in * by lia. rewrite (half_step f l (S i) v1 E1).
  replace (i + 2) with (S (S i)) in * by lia. rewrite (half_step f l (S (S i)) v2 E2).
  replace (i + 3) with (S (S (S i))) in * by lia. rewrite (half_step f l (S (S (S i))) v3 E3).
  replace (i + 4) with (S (S (S (S i)))) by lia. auto.
Qed.

Lemma simd_loop_ok : forall f l q fuel i, i + 4 * q <= length l -> q <= fuel ->
  simd_loop fuel f (i + 4 * q) i (half f l i) = Ok (i + 4 * q, half f l (i + 4 * q)).
Proof.
  induction q; intros fuel i H HF.
  - rewrite Nat.mul_0_r, Nat.add_0_r. destruct fuel; simpl; rewrite (proj2 (Nat.ltb_ge i i)) by lia; auto.
  - destruct fuel; [lia|]. cbn [simd_loop]. rewrite (proj2 (Nat.ltb_lt _ _)) by lia.
    rewrite simd_step_ok by lia. cbn [bind].
    replace (i + 4 * S q) with ((i + 4) + 4 * q) by lia. apply IHq; lia.
Qed.

Lemma tail_loop_ok : forall f l n fuel i, i + n = length l -> n <= fuel ->
  tail_loop fuel f (length l) i (half f l i) = Ok (map f l).
Proof.
  induction n; intros fuel i H HF.
  - destruct fuel; simpl; rewrite (proj2 (Nat.ltb_ge i _)) by lia; rewrite half_full by lia; auto.
  - destruct fuel; [lia|]. cbn [tail_loop]. rewrite (proj2 (Nat.ltb_lt _ _)) by lia.
    destruct (nth_error l i) as [v|] eqn:E; [|apply nth_error_None in E; lia].
    unfold get_checked, set_checked. rewrite half_nth by lia. rewrite E. cbn [bind].
    rewrite (proj2 (Nat.ltb_lt _ _)) by (rewrite half_length; lia). cbn [bind].
    rewrite (half_step f l i v E). replace (i + 1) with (S i) by lia. apply IHn; lia.
Qed.

Lemma simd_map_ok : forall f l, simd_map f l = Ok (map f l).
Proof.
  intros f l. unfold simd_map. rewrite and_not3_spec.
  assert (L := Nat.mul_div_le (length l) 4 ltac:(lia)).
  pose proof (simd_loop_ok f l (length l / 4) (length l) 0) as SL. rewrite Nat.add_0_l in SL.
  change (half f l 0) with l in SL. rewrite SL by lia. cbn [bind].
  apply tail_loop_ok with (n := length l - 4 * (length l / 4)); lia.
Qed.

Lemma pieces_concat : forall {A} k (l : list A) fuel, 0 < k -> length l <= fuel -> concat (pieces fuel k l) = l.
Proof.
  intros A k l fuel Hk. revert l. induction fuel; intros l H; simpl.
  - destruct l; auto. simpl in H. lia.
  - destruct l as [|x l]; auto. cbn [concat]. rewrite IHfuel.
    + apply firstn_skipn.
    + rewrite skipn_length. simpl length in *. lia.
Qed.

Lemma chunk_size_pos : 0 < chunk_size.
Proof. unfold chunk_size. lia. Qed.

Lemma par_chunks_ok : forall {A} k (l : list A), 0 < k -> exists ps, par_chunks k l = Ok ps /\ concat ps = l.
Proof.
  intros A k l H. unfold par_chunks. rewrite (proj2 (Nat.eqb_neq k 0)) by lia.
  eexists. split; [reflexivity|]. apply pieces_concat; auto.
Qed.

Lemma concat_map_map : forall {A B} (f : A -> B) (ls : list (list A)), concat (map (map f) ls) = map f (concat ls).
Proof. induction ls; simpl; auto. rewrite map_app, IHls. auto. Qed.

Lemma par_simd_map_ok : forall f l, par_simd_map f l = Ok (map f l).
Proof.
  intros. unfold par_simd_map. destruct (par_chunks_ok chunk_size l chunk_size_pos) as (ps & E & C).
  rewrite E. cbn [bind]. rewrite (mapM_ok _ (map f)) by (intros; apply simd_map_ok). cbn [bind].
  rewrite concat_map_map, C. auto.
Qed.

Lemma par_map_ok : forall f l, par_map f l = Ok (map f l).
Proof.
  intros. unfold par_map. destruct (par_chunks_ok chunk_size l chunk_size_pos) as (ps & E & C).
  rewrite E. cbn [bind]. rewrite concat_map_map, C. auto.
Qed.

Definition scale (alpha v : F) : F :=
  if feqb alpha f1 then v else if feqb alpha f0 then f0 else fmul v alpha.

Lemma mul_scalar_data_ok : forall alpha l, mul_scalar_data alpha l = Ok (map (scale alpha) l).
Proof.
  intros. unfold mul_scalar_data, scale. destruct (feqb alpha f1).
  - rewrite map_id. auto.
  - destruct (feqb alpha f0).
    + f_equal. induction l; simpl; f_equal; auto.
    + destruct (small_simd (length l)); [apply simd_map_ok|apply par_simd_map_ok].
Qed.

Lemma abs_data_ok : forall l, abs_data l = Ok (map fabs l).
Proof. intros. unfold abs_data. destruct (small_simd _); [apply simd_map_ok|apply par_simd_map_ok]. Qed.

(** ** Pruning *)
Definition nsig eps l := length (filter (significant eps) l).

Lemma nsig_snoc : forall eps l i v, nth_error l i = Some v ->
  nsig eps (firstn (S i) l) = tick (significant eps v) (nsig eps (firstn i l)).
Proof.
  intros eps l i v E. unfold nsig.
  assert (firstn (S i) l = firstn i l ++ [v]) as ->.
  { revert i E. induction l; intros [|i] E; simpl in *; try discriminate.
    - inv E. auto.
    - f_equal. apply IHl. auto. }
  rewrite filter_app, app_length. simpl. unfold tick. destruct (significant eps v); simpl; lia.
Qed.

Lemma count4_ok : forall eps l q fuel i, i + 4 * q <= length l -> q <= fuel ->
  count4_loop fuel eps l (i + 4 * q) i (nsig eps (firstn i l)) = Ok (i + 4 * q, nsig eps (firstn (i + 4 * q) l)).
Proof.
  induction q; intros fuel i H HF.
  - rewrite Nat.mul_0_r, Nat.add_0_r. destruct fuel; simpl; rewrite (proj2 (Nat.ltb_ge i i)) by lia; auto.
  - destruct fuel; [lia|]. cbn [count4_loop]. rewrite (proj2 (Nat.ltb_lt _ _)) by lia.
    assert (G : forall k, k < 4 -> exists v, nth_error l (i + k) = Some v).
    { intros k Hk. destruct (nth_error l (i + k)) eqn:E; eauto. apply nth_error_None in E. lia. }
    destruct (G 0 ltac:(lia)) as [v0 E0]. destruct (G 1 ltac:(lia)) as [v1 E1].
    destruct (G 2 ltac:(lia)) as [v2 E2]. destruct (G 3 ltac:(lia)) as [v3 E3]. clear G.
    rewrite Nat.add_0_r in E0. unfold get_unchecked. rewrite E0, E1, E2, E3. cbn [bind].
    rewrite <- (nsig_snoc eps l i v0 E0).
    replace (i + 1) with (S i) in * by lia. rewrite <- (nsig_snoc eps l _ v1 E1).
    replace (i + 2) with (S (S i)) in * by lia. rewrite <- (nsig_snoc eps l _ v2 E2).
    replace (i + 3) with (S (S (S i))) in * by lia. rewrite <- (nsig_snoc eps l _ v3 E3).
    replace (i + 4 * S q) with ((i + 4) + 4 * q) by lia.
    replace (S (S (S (S i)))) with (i + 4) by lia. apply IHq; lia.
Qed.

Lemma count1_ok : forall eps l n fuel i, i + n = length l -> n <= fuel ->
  count1_loop fuel eps l i (nsig eps (firstn i l)) = Ok (nsig eps l).
Proof.
  induction n; intros fuel i H HF.
  - destruct fuel; simpl; rewrite (proj2 (Nat.ltb_ge i _)) by lia; rewrite firstn_all2 by lia; auto.
  - destruct fuel; [lia|]. cbn [count1_loop]. rewrite (proj2 (Nat.ltb_lt _ _)) by lia.
    destruct (nth_error l i) as [v|] eqn:E; [|apply nth_error_None in E; lia].
    unfold get_checked. rewrite E. cbn [bind]. rewrite <- (nsig_snoc eps l i v E).
    replace (i + 1) with (S i) by lia. apply IHn; lia.
Qed.

Lemma count_significant_ok : forall eps l, count_significant eps l = Ok (nsig eps l).
Proof.
  intros. unfold count_significant. rewrite and_not3_spec.
  assert (L := Nat.mul_div_le (length l) 4 ltac:(lia)).
  pose proof (count4_ok eps l (length l / 4) (length l) 0 ltac:(lia) ltac:(lia)) as C.
  rewrite Nat.add_0_l in C. change (nsig eps (firstn 0 l)) with 0 in C. rewrite C. cbn [bind].
  apply count1_ok with (n := length l - 4 * (length l / 4)); lia.
Qed.

Lemma nsig_copy : forall eps (r : list (Z * F)), nsig eps (map snd r) = length (copy_significant eps r).
Proof.
  intros. unfold nsig, copy_significant. induction r as [|[k v] r IH]; simpl; auto.
  destruct (significant eps v); simpl; auto.
Qed.

Definition pruned (eps : F) (A : Cs F) : Cs F := of_rows (minor A) (map (copy_significant eps) (rows A)).

Lemma prune_two_pass : forall get sch eps (A : Cs F), is_schedule sch -> cs_ok A ->
  (forall i, i < major A -> get A i = Ok (cs_row A i)) ->
  two_pass sch (major A) (minor A) (prune_count eps A) (prune_fill get eps A) = Ok (pruned eps A).
Proof.
  intros get sch eps A HS OK G.
  assert (N : forall i, i < major A -> nth i (map (copy_significant eps) (rows A)) [] = copy_significant eps (cs_row A i)).
  { intros i Hi. change (@nil (Z * F)) with (copy_significant eps []) at 1. rewrite map_nth, nth_rows by auto. auto. }
  apply two_pass_ok; auto.
  - rewrite map_length, rows_length. auto.
  - intros i Hi. unfold prune_fill. rewrite G by auto. cbn [bind]. rewrite N by auto. auto.
  - intros i Hi. unfold prune_count. rewrite get_row_checked_ok by auto. cbn [bind].
    rewrite count_significant_ok, nsig_copy, N by auto. auto.
Qed.

Lemma prune_cs_ok : forall sch eps (A : Cs F), is_schedule sch -> cs_ok A ->
  fltb eps f0 = false -> (feqb eps f0 = true -> existsb (fun v => feqb v f0) (dat A) = true) ->
  prune_cs sch eps A = Ok (pruned eps A).
Proof.
  intros sch eps A HS OK H1 H2. unfold prune_cs. rewrite H1.
  destruct (feqb eps f0).
  - rewrite H2 by auto. simpl. destruct (_ <? _)%Z.
    + apply prune_two_pass; auto. intros l; auto. intros; apply get_row_checked_ok; auto.
    + apply prune_two_pass; auto. intros; apply get_row_ok; auto.
  - simpl. destruct (_ <? _)%Z.
    + apply prune_two_pass; auto. intros l; auto. intros; apply get_row_checked_ok; auto.
    + apply prune_two_pass; auto. intros; apply get_row_ok; auto.
Qed.

Lemma Forall_filter : forall {A} (P : A -> Prop) g (l : list A), Forall P l -> Forall P (filter g l).
Proof. induction 1; simpl; auto. destruct (g x); auto. Qed.

Lemma srow_filter : forall {V} (g : Z * V -> bool) r, srow r -> srow (filter g r).
Proof.
  intros V g r. induction r as [|[k v] r IH]; intros S'; simpl; auto.
  apply srow_inv in S'. destruct S' as [S1 S2]. destruct (g (k, v)); auto.
  apply srow_cons; auto. apply Forall_filter. auto.
Qed.

Lemma filter_rows_ok : forall {V} (g : Z * V -> bool) (A : Cs V), cs_ok A ->
  cs_ok (of_rows (minor A) (map (filter g) (rows A))).
Proof.
  intros V g A OK. apply of_rows_ok. rewrite Forall_map. eapply Forall_impl; [|apply ok_rows_bounds; exact OK].
  intros r. unfold in_bounds. apply Forall_filter.
Qed.

Lemma filter_rows_canonical : forall {V} (g : Z * V -> bool) (A : Cs V), canonical A ->
  canonical (of_rows (minor A) (map (filter g) (rows A))).
Proof.
  intros V g A C. pose proof (proj1 (canonical_rows A) C) as [OK SR].
  apply of_rows_canonical; rewrite Forall_map.
  - eapply Forall_impl; [|apply ok_rows_bounds; exact OK]. intros r. unfold in_bounds. apply Forall_filter.
  - eapply Forall_impl; [|exact SR]. intros. apply srow_filter. auto.
Qed.

Lemma filter_rows_row : forall {V} (g : Z * V -> bool) (A : Cs V) i, i < major A ->
  cs_row (of_rows (minor A) (map (filter g) (rows A))) i = filter g (cs_row A i).
Proof.
  intros V g A i Hi. rewrite cs_row_of_rows. change (@nil (Z * V)) with (filter g []) at 1.
  rewrite map_nth, nth_rows by auto. auto.
Qed.

Lemma filter_rows_major : forall {V} (g : Z * V -> bool) (A : Cs V),
  major (of_rows (minor A) (map (filter g) (rows A))) = major A.
Proof. intros. cbn [of_rows major]. rewrite map_length, rows_length. auto. Qed.

Lemma filter_comm : forall {A} (f g : A -> bool) (l : list A), filter f (filter g l) = filter g (filter f l).
Proof.
  induction l; simpl; auto.
  destruct (f a) eqn:E1; destruct (g a) eqn:E2; simpl; rewrite ?E1, ?E2, ?IHl; auto.
Qed.

Lemma at_index_filter : forall {V} (g : V -> bool) j (r : list (Z * V)),
  at_index j (filter (fun e => g (snd e)) r) = filter g (at_index j r).
Proof.
  intros. unfold at_index. induction r as [|[k v] r IH]; simpl; auto.
  destruct (g v) eqn:G; simpl; destruct (k =? j)%Z; simpl; rewrite ?G, IH; auto.
Qed.

Lemma filter_by_position : forall {A} (g : A -> bool) (l : list A),
  concat (map (fun k => match nth_error l k with Some e => filter g [e] | None => [] end) (seq 0 (length l))) = filter g l.
Proof.
  intros A g l. induction l as [|e l IH]; auto. cbn [length seq map]. rewrite <- seq_shift, map_map.
  cbn [nth_error concat]. rewrite IH. simpl. destruct (g e); auto.
Qed.

(** ** COO and COOND *)
Lemma prune_coo_ok : forall eps (A : Coo F), coo_ok A -> fltb eps f0 = false ->
  exists B, prune_coo eps A = Ok B /\ coo_nrows B = coo_nrows A /\ coo_ncols B = coo_ncols A /\
    coo_ok B /\ coo_entries B = filter (fun e => significant eps (snd e)) (coo_entries A).
Proof.
  intros eps A OK H. unfold prune_coo. rewrite H.
  set (es := coo_entries A).
  assert (LE : length es = length (coo_data A)).
  { unfold es, coo_entries. rewrite !combine_length, (coo_len_r _ OK), (coo_len_c _ OK). lia. }
  assert (GE : forall k, k < length es -> exists i j v, nth_error es k = Some ((i, j), v) /\
     nth_error (coo_row A) k = Some i /\ nth_error (coo_col A) k = Some j /\ nth_error (coo_data A) k = Some v).
  { intros k Hk. destruct (nth_error es k) as [[[i j] v]|] eqn:E; [|apply nth_error_None in E; lia].
    exists i, j, v. unfold es, coo_entries in E. apply nth_error_combine in E. destruct E as [E1 E2].
    apply nth_error_combine in E1. tauto. }
  rewrite (mapM_ok _ (fun k => match nth_error es k with Some e => filter (fun e => significant eps (snd e)) [e] | None => [] end)).
  2:{ intros k I. apply in_seq in I. destruct (GE k ltac:(lia)) as (i & j & v & E & E1 & E2 & E3).
      unfold get_checked. rewrite E, E1, E2, E3. cbn [bind]. simpl. destruct (significant eps v); auto. }
  cbn [bind]. eexists. split; [reflexivity|].
  rewrite <- LE, filter_by_position.
  set (fl := filter (fun e => significant eps (snd e)) es).
  assert (EB : coo_entries (mkCoo (coo_nrows A) (coo_ncols A) (map (fun e => fst (fst e)) fl)
     (map (fun e => snd (fst e)) fl) (map snd fl)) = fl).
  { unfold coo_entries. cbn [coo_row coo_col coo_data]. clear. induction fl as [|[[i j] v] fl IH]; simpl; f_equal; auto. }
  split; [reflexivity|]. split; [reflexivity|]. split; [|exact EB].
  assert (FB : forall e, In e fl -> (exists k, nth_error (coo_row A) k = Some (fst (fst e)) /\ nth_error (coo_col A) k = Some (snd (fst e)))).
  { intros e I. apply filter_In in I. destruct I as [I _]. apply In_nth_error in I. destruct I as [k E]. exists k.
    destruct (GE k (nth_error_lt _ _ _ E)) as (i & j & v & E0 & E1 & E2 & E3). rewrite E in E0. inv E0. auto. }
  constructor; cbn [coo_nrows coo_ncols coo_row coo_col coo_data].
  - rewrite !map_length. auto.
  - rewrite !map_length. auto.
  - intros p i E. rewrite nth_error_map in E. destruct (nth_error fl p) as [e|] eqn:E'; [|discriminate]. inv E.
    destruct (FB e (nth_error_In _ _ E')) as (k & E1 & E2). apply (coo_bound_r _ OK) in E1. auto.
  - intros p i E. rewrite nth_error_map in E. destruct (nth_error fl p) as [e|] eqn:E'; [|discriminate]. inv E.
    destruct (FB e (nth_error_In _ _ E')) as (k & E1 & E2). apply (coo_bound_c _ OK) in E2. auto.
Qed.

Lemma nd_key_checked_ok : forall (A : Nd F) k, nd_ok A -> k < length (nd_dat A) ->
  nd_key_checked A k = Ok (nth k (nd_keys A) []).
Proof.
  intros A k OK Hk. unfold nd_key_checked. rewrite mapM_seq_slice.
  - unfold nd_keys. rewrite nth_chunks by auto. auto.
  - rewrite (nd_len _ OK). nia.
Qed.

Lemma nd_entries_nth : forall {V} (A : Nd V) k v, nth_error (nd_dat A) k = Some v ->
  nth_error (nd_entries A) k = Some (nth k (nd_keys A) [], v).
Proof.
  intros V A k v E. pose proof (nth_error_lt _ _ _ E) as L.
  unfold nd_entries. apply nth_error_combine. split; auto. apply nth_error_nth'. rewrite nd_keys_length. auto.
Qed.

Lemma prune_coond_ok : forall eps (A : Nd F), nd_ok A -> fltb eps f0 = false ->
  prune_coond eps A = Ok (nd_of (nd_shape A) (filter (fun e => significant eps (snd e)) (nd_entries A))).
Proof.
  intros eps A OK H. unfold prune_coond. rewrite H.
  destruct (Nat.eqb_spec (length (nd_dat A)) 0) as [E0|N0].
  - f_equal. assert (nd_entries A = []) as EE.
    { apply length_zero_iff_nil. rewrite nd_entries_length. auto. }
    rewrite EE. simpl. rewrite <- (nd_of_nd_entries A OK) at 1. rewrite EE. auto.
  - rewrite (mapM_ok _ (fun k => match nth_error (nd_entries A) k with Some e => filter (fun e => significant eps (snd e)) [e] | None => [] end)).
    2:{ intros k I. apply in_seq in I. unfold get_checked.
        destruct (nth_error (nd_dat A) k) as [v|] eqn:E; [|apply nth_error_None in E; lia]. cbn [bind].
        rewrite (nd_entries_nth A k v E). rewrite nd_key_checked_ok by (auto; lia). cbn [bind]. simpl.
        destruct (significant eps v); auto. }
    cbn [bind]. rewrite <- nd_entries_length. unfold nd_of.
    rewrite filter_by_position. auto.
Qed.

End Scalar.
