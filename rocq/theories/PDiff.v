(** Proofs about discrete differences. *)
Require Import List ZArith Bool Arith Lia Permutation Sorted.
Require Import Verif.Res Verif.Values Verif.Spec Verif.SpecReduce Verif.SpecDiff Verif.Mem Verif.Lists Verif.CsLib Verif.Laws Verif.MScalar Verif.MConvert Verif.PConvert Verif.PConvert2 Verif.PConvert3 Verif.MAcc Verif.PAcc Verif.PGroup Verif.MCum.
Import ListNotations.
Local Open Scope Z_scope.

Ltac ins I := repeat match type of I with In _ [] => destruct I | In _ (_ :: _) => destruct I as [<-|I] end.

Lemma flipped_dat : forall {V} (A : Cs V), canonical A -> alloc_ok (major A) -> Permutation (dat (flipped A)) (dat A).
Proof.
  intros V A C AL. pose proof (flipped_canonical A C AL) as CF.
  assert (M1 : major (flipped A) = minor A) by apply buckets_length. assert (M2 : minor (flipped A) = major A) by reflexivity.
  eapply Permutation_trans; [apply dat_values; apply (can_ok _ CF)|]. eapply Permutation_trans; [|apply Permutation_sym, dat_values; apply (can_ok _ C)].
  rewrite M1, M2. eapply Permutation_trans; [apply matrix_values_transposed|]. unfold matrix_values. rewrite !flat_map_concat_map.
  erewrite map_ext_in; [apply Permutation_refl|]. intros [i j] I. apply in_grid in I. unfold transposed. cbn [fst snd]. apply flipped_at; tauto.
Qed.

Section Diff.
Context {F : Fl}.
Notation row := (list (Z * F)).

Lemma combined_nil : combined ([] : list F) [].
Proof. split; auto. intros H. congruence. Qed.

Lemma combined_perm : forall l l' (o : list F), Permutation l l' -> combined l o -> combined l' o.
Proof.
  intros l l' o P [H1 H2]. split; intros H.
  - subst. apply H1. apply Permutation_nil. symmetry. auto.
  - destruct H2 as (v & FS & E). { intros ->. apply Permutation_nil in P. auto. } exists v. split; auto. eapply FSum_perm; eauto.
Qed.

Definition nonzero_row (r : row) : Prop := Forall (fun e => feqb (snd e) f0 = false) r.

(** ** Combining sorted pairs *)
Lemma merge_pairs_ok : forall (ps : row) last acc l0, l0 <> [] -> FSum l0 acc -> StronglySorted key_le ((last, acc) :: ps) ->
  srow (merge_pairs last acc ps) /\ Forall (fun e => last <= fst e) (merge_pairs last acc ps) /\ nonzero_row (merge_pairs last acc ps) /\
  (forall e, In e (merge_pairs last acc ps) -> fst e = last \/ In (fst e) (map fst ps)) /\
  (forall k, combined ((if k =? last then l0 else []) ++ at_index k ps) (at_index k (merge_pairs last acc ps))).
Proof.
  induction ps as [|[c v] ps IH]; intros last acc l0 NE FS SS; cbn [merge_pairs].
  - split. { destruct (feqb acc f0); [constructor|apply srow_cons; constructor]. }
    split. { destruct (feqb acc f0); constructor; [cbn [fst]; lia|constructor]. }
    split. { destruct (feqb acc f0) eqn:E; constructor; [auto|constructor]. }
    split. { destruct (feqb acc f0); intros e I; [destruct I|]. destruct I as [<-|I]; [auto|destruct I]. }
    intros k. change (at_index k []) with (@nil F). rewrite app_nil_r. destruct (Z.eqb_spec k last) as [->|NK].
    + split; [congruence|]. intros _. exists acc. split; auto. destruct (feqb acc f0); auto.
      rewrite at_index_cons, Z.eqb_refl. auto.
    + split; [intros _|congruence]. destruct (feqb acc f0); auto. rewrite at_index_cons. rewrite (proj2 (Z.eqb_neq last k)) by auto. auto.
  - inversion SS as [|? ? SS' FA]; subst. inversion FA as [|? ? K FA']; subst. unfold key_le in K. cbn [fst] in K.
    inversion SS' as [|? ? SS2 FA2]; subst.
    destruct (Z.eqb_spec c last) as [->|NC].
    + destruct (IH last (fadd acc v) (l0 ++ [v])) as (I1 & I2 & I3 & I4 & I5).
      { destruct l0; simpl; congruence. } { apply FSum_snoc. auto. } { constructor; auto. }
      split; auto. split; auto. split; auto. split. { intros e I. destruct (I4 e I); auto. cbn [map]. right. right. auto. }
      intros k. specialize (I5 k). rewrite at_index_cons. rewrite (Z.eqb_sym last k). destruct (k =? last); auto.
      rewrite <- app_assoc in I5. exact I5.
    + assert (LT : last < c) by lia.
      destruct (IH c v [v]) as (I1 & I2 & I3 & I4 & I5); [congruence|apply FSum_one|auto|].
      assert (F2 : Forall (fun e => last < fst e) (merge_pairs c v ps)) by (eapply Forall_impl; [|exact I2]; intros a Ha; cbv beta in Ha |- *; lia).
      split. { destruct (feqb acc f0); auto. apply srow_cons; auto. }
      split. { apply Forall_app. split. - destruct (feqb acc f0); constructor; [cbn [fst]; lia|constructor].
               - eapply Forall_impl; [|exact F2]. intros a Ha. cbv beta in Ha |- *. lia. }
      split. { apply Forall_app. split; auto. destruct (feqb acc f0) eqn:E; constructor; [auto|constructor]. }
      split. { intros e I. apply in_app_iff in I. destruct I as [I|I].
               - destruct (feqb acc f0); [destruct I|]. destruct I as [<-|I]; [auto|destruct I].
               - right. cbn [map fst]. destruct (I4 e I); auto. left. auto. right. auto. }
      intros k. rewrite at_index_app. specialize (I5 k). rewrite at_index_cons. destruct (Z.eqb_spec k last) as [->|NK].
      * rewrite (proj2 (Z.eqb_neq c last)) by lia. rewrite (at_index_lt last (merge_pairs c v ps)) by auto.
        rewrite (at_index_lt last ps). 2:{ eapply Forall_impl; [|exact FA2]. intros a Ha. unfold key_le in Ha. cbn [fst] in Ha. lia. }
        rewrite !app_nil_r. split; [congruence|]. intros _. exists acc. split; auto. destruct (feqb acc f0); auto.
        rewrite at_index_cons, Z.eqb_refl. auto.
      * assert (at_index k (if feqb acc f0 then [] else [(last, acc)]) = []) as ->.
        { destruct (feqb acc f0); auto. rewrite at_index_cons. rewrite (proj2 (Z.eqb_neq last k)) by auto. auto. }
        rewrite (Z.eqb_sym c k). destruct (k =? c); exact I5.
Qed.

Lemma combine_sorted_pairs_ok : forall srt (ps : row), is_sorter key_le srt ->
  srow (combine_sorted_pairs srt ps) /\ nonzero_row (combine_sorted_pairs srt ps) /\
  (forall e, In e (combine_sorted_pairs srt ps) -> In (fst e) (map fst ps)) /\
  (forall k, combined (at_index k ps) (at_index k (combine_sorted_pairs srt ps))).
Proof.
  intros srt ps HS. unfold combine_sorted_pairs. destruct ps as [|p0 ps0].
  { split; [constructor|]. split; [constructor|]. split; [intros e I; destruct I|]. intros k. apply combined_nil. }
  set (ps := p0 :: ps0). destruct (HS ps) as [P SS]. destruct (srt ps) as [|[c v] qs].
  { apply Permutation_sym, Permutation_nil in P. discriminate. }
  destruct (merge_pairs_ok qs c v [v]) as (I1 & I2 & I3 & I4 & I5); [congruence|apply FSum_one|auto|].
  split; auto. split; auto. split.
  - intros e I. eapply Permutation_in; [apply Permutation_map; apply Permutation_sym; exact P|]. cbn [map fst]. destruct (I4 e I); [left; auto|right; auto].
  - intros k. eapply combined_perm; [|apply I5]. rewrite (at_index_perm k _ _ P). rewrite at_index_cons, (Z.eqb_sym c k). destruct (k =? c); auto.
Qed.

(** ** One difference *)
Lemma diff_pairs_at : forall w (cur : row) k, Forall (fun e => 0 <= fst e < w) cur -> 0 <= k < w - 1 ->
  Permutation (at_index k (diff_pairs (w - 1) cur)) (map fneg (at_index k cur) ++ at_index (k + 1) cur).
Proof.
  intros w cur k H Hk. induction H as [|[c v] cur Hc _ IH]; auto. unfold diff_pairs. cbn [flat_map]. rewrite at_index_app.
  fold (diff_pairs (w - 1) cur). rewrite IH. cbn [fst snd] in *. rewrite at_index_app, !at_index_cons. clear IH.
  destruct (Z.ltb_spec c (w - 1)).
  - rewrite at_index_cons. destruct (Z.leb_spec 1 c).
    + rewrite at_index_cons. destruct (Z.eqb_spec c k), (Z.eqb_spec (c - 1) k), (Z.eqb_spec c (k + 1)); try lia; auto; cbn [map at_index filter app]; auto.
      apply Permutation_middle.
    + destruct (Z.eqb_spec c k), (Z.eqb_spec c (k + 1)); try lia; auto.
  - destruct (Z.leb_spec 1 c).
    + rewrite at_index_cons. destruct (Z.eqb_spec c k), (Z.eqb_spec (c - 1) k), (Z.eqb_spec c (k + 1)); try lia; auto.
      cbn [map at_index filter app]. apply Permutation_middle.
    + destruct (Z.eqb_spec c k), (Z.eqb_spec c (k + 1)); try lia; auto.
Qed.

Lemma diff_pairs_bounds : forall w (cur : row), Forall (fun e => 0 <= fst e < w) cur -> Forall (fun e => 0 <= fst e < w - 1) (diff_pairs (w - 1) cur).
Proof.
  intros w cur H. unfold diff_pairs. apply Forall_forall. intros e I. apply in_flat_map in I. destruct I as ([c v] & Ic & I).
  rewrite Forall_forall in H. specialize (H _ Ic). cbn [fst snd] in *. apply in_app_iff in I. destruct I as [I|I].
  - destruct (Z.ltb_spec c (w - 1)); ins I; cbn [fst]; lia.
  - destruct (Z.leb_spec 1 c); ins I; cbn [fst]; lia.
Qed.

Lemma diff_of_ext : forall n w (c1 c2 d1 d2 : nat -> list F), diff_of n w c1 d1 -> (n < w)%nat ->
  (forall j, (j < w)%nat -> c1 j = c2 j) -> (forall j, (j < w - n)%nat -> d1 j = d2 j) -> diff_of n w c2 d2.
Proof.
  intros n w c1 c2 d1 d2 D. revert c2 d2. induction D as [w c c' H|n w c c1 c' H D IH]; intros c2 d2 L E1 E2.
  - apply diff_done. intros j Hj. rewrite <- E2, <- E1 by lia. auto.
  - apply diff_step with (c1 := c1).
    + intros j Hj. rewrite <- !E1 by lia. auto.
    + apply IH; auto; [lia|]. intros j Hj. apply E2. lia.
Qed.

Lemma diff_of_empty : forall n w (c : nat -> list F), (n < w)%nat -> (forall j, (j < w)%nat -> c j = []) -> diff_of n w c (fun _ => []).
Proof.
  induction n; intros w c L E.
  - apply diff_done. intros. rewrite E; auto.
  - apply diff_step with (c1 := fun _ => []).
    + intros j Hj. rewrite !E by lia. apply combined_nil.
    + apply IHn; auto. lia.
Qed.

Lemma diff_loop_ok : forall srt n (cur : row) w, is_sorter key_le srt -> (n < w)%nat -> Forall (fun e => 0 <= fst e < Z.of_nat w) cur ->
  let out := diff_loop srt n cur w in
  (srow cur \/ (0 < n)%nat -> srow out) /\ (nonzero_row cur \/ (0 < n)%nat -> nonzero_row out) /\ Forall (fun e => 0 <= fst e < Z.of_nat (w - n)) out /\
  diff_of n w (fun j => at_index (Z.of_nat j) cur) (fun j => at_index (Z.of_nat j) out).
Proof.
  intros srt n. induction n; intros cur w HS L B; cbv zeta; cbn [diff_loop].
  - split. { intros [H|H]; auto; lia. } split. { intros [H|H]; auto; lia. } rewrite Nat.sub_0_r. split; auto. apply diff_done. auto.
  - rewrite (proj2 (Nat.eqb_neq w 0)), (proj2 (Nat.eqb_neq w 1)) by lia. cbn [orb].
    destruct (combine_sorted_pairs_ok srt (diff_pairs (Z.of_nat w - 1) cur) HS) as (C1 & C2 & C3 & C4).
    pose proof (diff_pairs_bounds _ _ B) as DB.
    assert (NB : Forall (fun e => 0 <= fst e < Z.of_nat (w - 1)) (combine_sorted_pairs srt (diff_pairs (Z.of_nat w - 1) cur))).
    { apply Forall_forall. intros e I. apply C3 in I. apply in_map_iff in I. destruct I as (e' & <- & I). rewrite Forall_forall in DB. specialize (DB e' I). cbv beta in DB. lia. }
    assert (ST : forall j, (S j < w)%nat -> combined (map fneg (at_index (Z.of_nat j) cur) ++ at_index (Z.of_nat (S j)) cur)
        (at_index (Z.of_nat j) (combine_sorted_pairs srt (diff_pairs (Z.of_nat w - 1) cur)))).
    { intros j Hj. eapply combined_perm; [|apply C4]. replace (Z.of_nat (S j)) with (Z.of_nat j + 1) by lia. apply diff_pairs_at; auto. lia. }
    destruct (combine_sorted_pairs srt (diff_pairs (Z.of_nat w - 1) cur)) as [|e0 next0] eqn:EN.
    + split; [constructor|]. split; [constructor|]. split; [constructor|]. eapply diff_step; [exact ST|]. apply diff_of_empty; auto. lia.
    + rewrite <- EN in *. clear EN. set (next := combine_sorted_pairs srt (diff_pairs (Z.of_nat w - 1) cur)) in *.
      destruct (IHn next (w - 1)%nat HS ltac:(lia) NB) as (H1 & H2 & H3 & H4).
      split; auto. split; auto. split. { replace (w - S n)%nat with (w - 1 - n)%nat by lia. auto. }
      eapply diff_step; [exact ST|]. auto.
Qed.

(** ** A row *)
Lemma at_index_filter : forall k (p : F -> bool) (r : row), at_index k (filter (fun e => p (snd e)) r) = filter p (at_index k r).
Proof.
  intros k p r. induction r as [|[c v] r IH]; auto. cbn [filter snd]. rewrite at_index_cons. destruct (p v) eqn:E.
  - rewrite at_index_cons, IH. destruct (c =? k); auto. cbn [filter]. rewrite E. auto.
  - rewrite IH. destruct (c =? k); auto. cbn [filter]. rewrite E. auto.
Qed.

Lemma srow_filter : forall (p : Z * F -> bool) (r : row), srow r -> srow (filter p r).
Proof.
  intros p r. induction r as [|[c v] r IH]; intros S; auto. apply srow_inv in S. destruct S as [S1 S2]. cbn [filter].
  destruct (p (c, v)); auto. apply srow_cons; auto. apply Forall_forall. intros e I. apply filter_In in I. destruct I as [I _].
  rewrite Forall_forall in S2. auto.
Qed.

Definition nzb (v : F) : bool := negb (feqb v f0).

Lemma diff_row_pairs_ok : forall srt (r : row) w n, is_sorter key_le srt -> (n < w)%nat -> in_bounds w r ->
  let out := diff_row_pairs srt r w n in
  (srow r \/ (0 < n)%nat -> srow out) /\ nonzero_row out /\ in_bounds (w - n) out /\
  (n = O -> forall j, at_index (Z.of_nat j) out = filter nzb (at_index (Z.of_nat j) r)) /\
  ((0 < n)%nat -> diff_of n w (fun j => at_index (Z.of_nat j) r) (fun j => at_index (Z.of_nat j) out)).
Proof.
  intros srt r w n HS L B. cbv zeta. unfold diff_row_pairs. rewrite (proj2 (Nat.eqb_neq w 0)) by lia. destruct (Nat.eqb_spec n 0) as [->|NN]; cbn [orb].
  - split. { intros [H|H]; [|lia]. apply srow_filter. auto. }
    split. { apply Forall_forall. intros e I. apply filter_In in I. destruct I as [_ I]. apply negb_true_iff. auto. }
    split. { rewrite Nat.sub_0_r. apply Forall_forall. intros e I. apply filter_In in I. destruct I as [I _]. unfold in_bounds in B. rewrite Forall_forall in B. auto. }
    split; [|lia]. intros _ j. apply (at_index_filter (Z.of_nat j) nzb).
  - assert (B' : Forall (fun e => 0 <= fst e < Z.of_nat w) r) by (eapply Forall_impl; [|exact B]; intros a Ha; cbv beta in Ha |- *; lia).
    destruct (diff_loop_ok srt n r w HS L B') as (H1 & H2 & H3 & H4).
    split; auto. split; [apply H2; right; lia|]. split; [|split; auto; lia].
    assert (BI : forall n cur w, Forall (fun e => fst e <= i64_max) cur -> Forall (fun e => fst e <= i64_max) (diff_loop srt n cur w)).
    { clear - HS. induction n; intros cur w H; auto. cbn [diff_loop]. destruct (_ || _); [constructor|].
      destruct (combine_sorted_pairs_ok srt (diff_pairs (Z.of_nat w - 1) cur) HS) as (_ & _ & C3 & _).
      assert (NB : Forall (fun e => fst e <= i64_max) (combine_sorted_pairs srt (diff_pairs (Z.of_nat w - 1) cur))).
      { apply Forall_forall. intros e I. apply C3 in I. apply in_map_iff in I. destruct I as (e' & <- & I). unfold diff_pairs in I. apply in_flat_map in I.
        destruct I as (e0 & I0 & I). rewrite Forall_forall in H. specialize (H _ I0). cbv beta in H. apply in_app_iff in I. destruct I as [I|I].
        - destruct (_ <? _); ins I; cbn [fst]; lia.
        - destruct (_ <=? _); ins I; cbn [fst]; lia. }
      destruct (combine_sorted_pairs srt (diff_pairs (Z.of_nat w - 1) cur)); [constructor|]. apply IHn. auto. }
    assert (B2 : Forall (fun e => fst e <= i64_max) (diff_loop srt n r w)).
    { apply BI. eapply Forall_impl; [|exact B]. intros a Ha. cbv beta in Ha |- *. lia. }
    unfold in_bounds. rewrite Forall_forall in *. intros e I. split; auto.
Qed.

(** ** Matrices *)
Lemma diff_csr_axis1_ok : forall sch srt (A : Csr F) n, is_schedule sch -> is_sorter key_le srt -> cs_ok A ->
  exists B : Csr F, diff_csr_axis1 sch srt A n = Ok B /\ cs_ok B /\ csr_nrows B = csr_nrows A /\ csr_ncols B = (csr_ncols A - n)%nat /\
    (canonical A \/ (0 < n)%nat -> canonical B) /\ Forall (fun v => feqb v f0 = false) (dat B) /\
    (forall i, (i < csr_nrows A)%nat -> (n < csr_ncols A)%nat ->
      (n = O -> forall j, csr_at B i j = filter nzb (csr_at A i j)) /\
      ((0 < n)%nat -> diff_of n (csr_ncols A) (csr_at A i) (csr_at B i))).
Proof.
  intros sch srt A n HS HR OK. unfold diff_csr_axis1.
  assert (EMPTY : forall m k, mkCs m k (repeat 0 (S m)) [] [] = of_rows k (repeat ([] : row) m)).
  { intros m k. unfold of_rows. rewrite repeat_length. f_equal.
    - unfold indptr_of. assert (forall a m, map Z.of_nat (psum a (map (@length (Z * F)) (repeat [] m))) = repeat (Z.of_nat a) (S m)) as ->; auto.
      intros a m'. revert a. induction m'; intros a; auto. cbn [repeat map psum]. f_equal. rewrite Nat.add_0_r. apply IHm'.
    - induction m; auto.
    - induction m; auto. }
  destruct ((csr_nrows A =? 0)%nat || (csr_ncols A - n =? 0)%nat) eqn:EE.
  - eexists. split; [reflexivity|]. rewrite EMPTY.
    assert (FN : Forall (fun r : row => r = []) (repeat [] (csr_nrows A))) by (apply Forall_forall; intros r I; apply repeat_spec in I; auto).
    assert (C : canonical (of_rows (csr_ncols A - n) (repeat ([] : row) (csr_nrows A)))).
    { apply of_rows_canonical; (eapply Forall_impl; [|exact FN]); intros r ->; constructor. }
    split; [apply C|]. split; [apply repeat_length|]. split; auto. split; auto. split.
    + cbn [dat of_rows]. replace (concat (repeat ([] : row) (csr_nrows A))) with ([] : row); [constructor|]. generalize (csr_nrows A) as m. induction m; auto.
    + intros i Hi Hn. apply orb_true_iff in EE. destruct EE as [E|E]; apply Nat.eqb_eq in E; lia.
  - apply orb_false_iff in EE. destruct EE as [E1 E2]. apply Nat.eqb_neq in E1, E2.
    set (out := fun i => diff_row_pairs srt (cs_row A i) (csr_ncols A) n).
    assert (NR : forall i d, (i < csr_nrows A)%nat -> nth i (map out (seq 0 (csr_nrows A))) d = out i).
    { intros i d Hi. rewrite nth_indep with (d' := out O) by (rewrite map_length, seq_length; auto). rewrite map_nth, seq_nth by auto. auto. }
    assert (DR : forall i, (i < csr_nrows A)%nat -> diff_row srt A n i = Ok (out i)).
    { intros i Hi. unfold diff_row. rewrite get_row_ok by auto. cbn [bind]. unfold out. f_equal. f_equal.
      rewrite <- map_id. apply map_ext_in. intros [c v] I. pose proof (row_bounds A i OK Hi) as B. unfold in_bounds in B. rewrite Forall_forall in B. specialize (B _ I). cbn [fst snd] in *.
      f_equal. apply to_usize_id. unfold usize_max, i64_max in *. lia. }
    assert (RO : forall i, (i < csr_nrows A)%nat -> let o := out i in
      (srow (cs_row A i) \/ (0 < n)%nat -> srow o) /\ nonzero_row o /\ in_bounds (csr_ncols A - n) o /\
      (n = O -> forall j, at_index (Z.of_nat j) o = filter nzb (at_index (Z.of_nat j) (cs_row A i))) /\
      ((0 < n)%nat -> diff_of n (csr_ncols A) (fun j => at_index (Z.of_nat j) (cs_row A i)) (fun j => at_index (Z.of_nat j) o))).
    { intros i Hi. apply diff_row_pairs_ok; auto. lia. apply (row_bounds A i OK Hi). }
    exists (of_rows (csr_ncols A - n) (map out (seq 0 (csr_nrows A)))).
    assert (FB : Forall (in_bounds (csr_ncols A - n)) (map out (seq 0 (csr_nrows A)))).
    { apply Forall_forall. intros r I. apply in_map_iff in I. destruct I as (i & <- & I). apply in_seq in I. apply RO. lia. }
    split; [apply two_pass_ok; auto|].
    + rewrite map_length, seq_length. auto.
    + intros i Hi. rewrite DR by auto. cbn [bind]. rewrite NR by auto. unfold to_i64.
      replace (forallb (fun e => fst e <=? i64_max) (out i)) with true; auto. symmetry. apply forallb_forall. intros e I.
      destruct (RO i Hi) as (_ & _ & B & _). unfold in_bounds in B. rewrite Forall_forall in B. specialize (B e I). cbv beta in B. apply Z.leb_le. lia.
    + intros i Hi. rewrite DR, NR by auto. auto.
    + split; [apply of_rows_ok; auto|]. split; [unfold csr_nrows, of_rows; cbn [major]; rewrite map_length, seq_length; auto|]. split; auto. split.
      { intros H. apply of_rows_canonical; auto. apply Forall_forall. intros r I. apply in_map_iff in I. destruct I as (i & <- & I). apply in_seq in I.
        apply RO; [lia|]. destruct H as [H|H]; auto. left. apply canonical_row; auto. unfold csr_nrows in I. lia. }
      split. { cbn [dat of_rows]. rewrite Forall_map. rewrite Forall_concat. apply Forall_forall. intros r I. apply in_map_iff in I. destruct I as (i & <- & I). apply in_seq in I.
        apply RO. lia. }
      intros i Hi Hn. unfold csr_at, cs_at. rewrite cs_row_of_rows, NR by auto. destruct (RO i Hi) as (_ & _ & _ & H4 & H5). auto.
Qed.

Lemma diff_csr_axis0_ok : forall threads il sch1 srt1 sch srt sch2 srt2 (A : Csr F) n,
  is_interleaving il -> is_schedule sch1 -> is_sorter key_le srt1 -> is_schedule sch -> is_sorter key_le srt -> is_schedule sch2 -> is_sorter key_le srt2 ->
  distinct A -> alloc_ok (csr_nrows A) -> alloc_ok (csr_ncols A) ->
  exists B : Csr F, diff_csr_axis0 threads il sch1 srt1 sch srt sch2 srt2 A n = Ok B /\ cs_ok B /\ csr_nrows B = (csr_nrows A - n)%nat /\ csr_ncols B = csr_ncols A /\
    (canonical A \/ (0 < n)%nat -> canonical B) /\ ((0 < n)%nat -> Forall (fun v => feqb v f0 = false) (dat B)) /\
    (forall j, (j < csr_ncols A)%nat -> (n < csr_nrows A)%nat ->
      (n = O -> forall i, csr_at B i j = csr_at A i j) /\
      ((0 < n)%nat -> diff_of n (csr_nrows A) (fun i => csr_at A i j) (fun i => csr_at B i j))).
Proof.
  intros threads il sch1 srt1 sch srt sch2 srt2 A n HI H1 H2 H3 H4 H5 H6 D A1 A2. unfold diff_csr_axis0.
  destruct (Nat.eqb_spec n 0) as [->|NN].
  { exists A. split; auto. split; [apply D|]. split; [lia|]. split; auto. split. { intros [H|H]; auto; lia. } split; [lia|]. intros j Hj Hn. split; auto. lia. }
  unfold transpose_csr. rewrite transpose_cs_ok' by auto. cbn [bind].
  pose proof (flipped_canonical' A D A1) as CT. set (T := flipped A) in *.
  assert (M1 : csr_nrows T = csr_ncols A) by apply buckets_length. assert (M2 : csr_ncols T = csr_nrows A) by reflexivity.
  assert (AT : forall i j, (i < csr_nrows A)%nat -> (j < csr_ncols A)%nat -> csr_at T j i = csr_at A i j) by (intros; apply flipped_at; auto).
  destruct (diff_csr_axis1_ok sch srt T n H3 H4 (can_ok _ CT)) as (B1 & -> & OK1 & N1 & N2 & C1 & Z1 & S1). cbn [bind].
  assert (CB : canonical B1) by auto.
  assert (A3 : alloc_ok (csr_nrows B1)) by (rewrite N1, M1; auto).
  rewrite transpose_cs_ok by auto. exists (flipped B1). split; auto. pose proof (flipped_canonical B1 CB A3) as CF. split; [apply CF|].
  assert (M3 : csr_nrows (flipped B1) = csr_ncols B1) by apply buckets_length. assert (M4 : csr_ncols (flipped B1) = csr_nrows B1) by reflexivity.
  split; [rewrite M3, N2, M2; auto|]. split; [rewrite M4, N1, M1; auto|]. split; auto. split.
  - intros _. apply Forall_forall. intros v I.
    pose proof (flipped_dat B1 CB A3) as P.
    rewrite Forall_forall in Z1. apply Z1. eapply Permutation_in; [exact P|exact I].
  - intros j Hj Hn. split; [lia|]. intros _. destruct (S1 j) as (_ & S2); [rewrite M1; auto|rewrite M2; auto|].
    eapply diff_of_ext; [apply S2; lia|exact Hn| |].
    + intros i Hi. apply AT; auto.
    + intros i Hi. symmetry. apply flipped_at; [unfold csr_nrows in *; lia|]. unfold csr_ncols in *. lia.
Qed.
End Diff.
