(** Transposing any valid matrix is safe, even when rows are unsorted or store an
    index more than once: the tiled fill phase never writes outside its slots. *)
Require Import List ZArith Bool Lia Permutation Sorted Arith.
Require Import Verif.Res Verif.Values Verif.Spec Verif.Mem Verif.Lists Verif.CsLib Verif.MConvert Verif.PConvert Verif.PConvert2.
Import ListNotations.
Local Open Scope nat_scope.

(** ** Zeroed arrays *)
Lemma assemble_zeroed_safe : forall {A} (zero : A) n ws, Forall (fun w => fst w < n) ws ->
  exists out, assemble_zeroed zero n ws = Ok out /\ length out = n /\
    forall a, In a out -> a = zero \/ In a (map snd ws).
Proof.
  intros A zero n ws H. unfold assemble_zeroed.
  assert (G : forall (ws : list (nat * A)) (m : list A), Forall (fun w => fst w < length m) ws ->
    exists out, foldM (fun m w => if fst w <? length m then Ok (upd m (fst w) (snd w)) else UB) ws m = Ok out
      /\ length out = length m /\ forall a, In a out -> In a m \/ In a (map snd ws)).
  { clear. induction ws as [|[k w] ws IH]; intros m H.
    - exists m. simpl. auto.
    - inv H. cbn [foldM fst snd] in *. destruct (Nat.ltb_spec k (length m)); [|lia]. cbn [bind].
      destruct (IH (upd m k w)) as (out & E & L & I).
      { rewrite upd_length. auto. }
      exists out. rewrite E, L, upd_length. split; auto. split; auto. intros a Ia. apply I in Ia.
      destruct Ia as [Ia|Ia]; [|simpl; auto]. apply In_nth_error in Ia. destruct Ia as [q Ia].
      destruct (Nat.eq_dec k q) as [->|N].
      + rewrite nth_error_upd_eq in Ia by auto. injection Ia as <-. simpl. auto.
      + left. apply nth_error_In with (n := q). rewrite <- Ia. clear -N. revert k q N.
        induction m; destruct k, q; simpl; intros; auto; try lia. }
  destruct (G ws (repeat zero n)) as (out & E & L & I).
  { rewrite repeat_length. auto. }
  exists out. rewrite repeat_length in L. split; auto. split; auto. intros a Ia. apply I in Ia. destruct Ia as [Ia|Ia]; auto.
  apply repeat_spec in Ia. auto.
Qed.

(** ** One row of the fill phase *)
Lemma cnt_cons : forall j k ks, cnt j (k :: ks) = (if (k =? j)%Z then 1 else 0) + cnt j ks.
Proof. intros. unfold cnt. simpl. destruct (k =? j)%Z; auto. Qed.

(** the writes [ws] of the entries [r] stay within the counts of [r] above [pos] *)
Definition within {W} (pos : list nat) (r : list (Z * W)) (ws : list (nat * W)) : Prop :=
  forall d w, In (d, w) ws -> In w (map snd r) /\
    exists j, j < length pos /\ nth j pos 0 <= d < nth j pos 0 + cnt (Z.of_nat j) (map fst r).

Definition bumped {W} (pos pos' : list nat) (r : list (Z * W)) : Prop :=
  length pos' = length pos /\
  forall j, nth j pos 0 <= nth j pos' 0 <= nth j pos 0 + cnt (Z.of_nat j) (map fst r).

Lemma within_shift : forall {W} pos p1 (r r' : list (Z * W)) ws, bumped pos p1 r -> within p1 r' ws ->
  within pos (r ++ r') ws.
Proof.
  intros W pos p1 r r' ws [L B] H d w I. apply H in I. destruct I as (Iw & j & Hj & B1). split.
  - rewrite map_app. apply in_or_app. auto.
  - exists j. split; [congruence|]. specialize (B j). rewrite map_app. unfold cnt in *. rewrite filter_app, app_length. lia.
Qed.

Lemma within_weaken : forall {W} pos (r r' : list (Z * W)) ws, within pos r ws -> within pos (r ++ r') ws.
Proof.
  intros W pos r r' ws H d w I. apply H in I. destruct I as (Iw & j & Hj & B1). split.
  - rewrite map_app. apply in_or_app. auto.
  - exists j. split; auto. rewrite map_app. unfold cnt in *. rewrite filter_app, app_length. lia.
Qed.

Lemma bumped_trans : forall {W} pos p1 p2 (r r' : list (Z * W)), bumped pos p1 r -> bumped p1 p2 r' -> bumped pos p2 (r ++ r').
Proof.
  intros W pos p1 p2 r r' [L B] [L' B']. split; [congruence|]. intros j. specialize (B j). specialize (B' j).
  rewrite map_app. unfold cnt in *. rewrite filter_app, app_length. lia.
Qed.

Lemma within_app : forall {W} pos (r : list (Z * W)) ws ws', within pos r ws -> within pos r ws' -> within pos r (ws ++ ws').
Proof. intros W pos r ws ws' H H' d w I. apply in_app_or in I. destruct I; auto. Qed.

Lemma one_step : forall {W} pos k (w : W), (0 <= k < Z.of_nat (length pos))%Z ->
  bumped pos (upd pos (Z.to_nat k) (S (nth (Z.to_nat k) pos 0))) [(k, w)] /\
  within pos [(k, w)] [(nth (Z.to_nat k) pos 0, w)].
Proof.
  intros W pos k w H. split.
  - split; [apply upd_length|]. intros j. rewrite nth_upd by lia. simpl. rewrite cnt_cons. unfold cnt. simpl.
    destruct (Nat.eqb_spec (Z.to_nat k) j); destruct (Z.eqb_spec k (Z.of_nat j)); subst; lia.
  - intros d w' [E|[]]. injection E as <- <-. split; [simpl; auto|]. exists (Z.to_nat k). split; [lia|].
    simpl. rewrite cnt_cons. rewrite Z2Nat.id by lia. rewrite Z.eqb_refl. lia.
Qed.

Lemma fill_row4_safe : forall {W} (r : list (Z * W)) pos, keys_in (length pos) (map fst r) ->
  exists pos' ws, fill_row4 pos r = Ok (pos', ws) /\ bumped pos pos' r /\ within pos r ws.
Proof.
  intros W r. assert (H : forall n (r : list (Z * W)), length r <= n -> forall pos, keys_in (length pos) (map fst r) ->
    exists pos' ws, fill_row4 pos r = Ok (pos', ws) /\ bumped pos pos' r /\ within pos r ws).
  2:{ apply (H (length r)). auto. }
  clear r. induction n as [|n IH]; intros r L pos K.
  { destruct r; [|simpl in L; lia]. exists pos, []. split; auto. split; [split; auto; intros; lia|intros d w []]. }
  destruct r as [|[k0 w0] [|[k1 w1] [|[k2 w2] [|[k3 w3] r]]]]; cbn [map fst] in K; unfold keys_in in K.
  - exists pos, []. split; auto. split; [split; auto; intros; lia|intros d w []].
  - inv K. destruct (one_step pos k0 w0 H1) as [B0 W0].
    cbn [fill_row4]. rewrite zget_unchecked_ok by auto. cbn [bind]. eauto.
  - inv K. inv H2. destruct (one_step pos k0 w0 H1) as [B0 W0].
    set (p1 := upd pos (Z.to_nat k0) (S (nth (Z.to_nat k0) pos 0))) in *.
    assert (L1 : length p1 = length pos) by apply B0. rewrite <- L1 in H3.
    destruct (one_step p1 k1 w1 H3) as [B1 W1].
    cbn [fill_row4]. rewrite zget_unchecked_ok by auto. cbn [bind]. fold p1. rewrite zget_unchecked_ok by auto. cbn [bind].
    eexists _, _. split; [reflexivity|]. split; [exact (bumped_trans _ _ _ _ _ B0 B1)|].
    apply (within_app _ _ [_] [_]); [exact (within_weaken _ _ [_] _ W0)|exact (within_shift _ _ _ _ _ B0 W1)].
  - inv K. inv H2. inv H4. destruct (one_step pos k0 w0 H1) as [B0 W0].
    set (p1 := upd pos (Z.to_nat k0) (S (nth (Z.to_nat k0) pos 0))) in *.
    assert (L1 : length p1 = length pos) by apply B0. rewrite <- L1 in H3, H2.
    destruct (one_step p1 k1 w1 H3) as [B1 W1].
    set (p2 := upd p1 (Z.to_nat k1) (S (nth (Z.to_nat k1) p1 0))) in *.
    assert (L2 : length p2 = length p1) by apply B1. rewrite <- L2 in H2.
    destruct (one_step p2 k2 w2 H2) as [B2 W2].
    cbn [fill_row4]. rewrite zget_unchecked_ok by auto. cbn [bind]. fold p1. rewrite zget_unchecked_ok by auto. cbn [bind].
    fold p2. rewrite zget_unchecked_ok by auto. cbn [bind].
    eexists _, _. split; [reflexivity|]. pose proof (bumped_trans _ _ _ _ _ B0 B1) as B01. cbn [app] in B01.
    split; [exact (bumped_trans _ _ _ _ _ B01 B2)|].
    apply (within_app _ _ [_; _] [_]); [|exact (within_shift _ _ _ _ _ B01 W2)].
    apply (within_weaken _ [_; _] [_]).
    apply (within_app _ _ [_] [_]); [exact (within_weaken _ _ [_] _ W0)|exact (within_shift _ _ _ _ _ B0 W1)].
  - inversion K as [|? ? K0 K']; subst. inversion K' as [|? ? K1 K'']; subst.
    inversion K'' as [|? ? K2 K3']; subst. inversion K3' as [|? ? K3 KR]; subst.
    cbn [fill_row4]. rewrite !zget_unchecked_ok by auto. cbn [bind].
    match goal with |- context [fill_row4 ?p r] => set (p4 := p) end.
    assert (B4 : bumped pos p4 [(k0, w0); (k1, w1); (k2, w2); (k3, w3)]).
    { split; [unfold p4; rewrite !upd_length; auto|]. intros j. unfold p4.
      rewrite !nth_upd by (rewrite ?upd_length; lia). simpl map. rewrite !cnt_cons.
      destruct (Nat.eqb_spec (Z.to_nat k0) j), (Nat.eqb_spec (Z.to_nat k1) j), (Nat.eqb_spec (Z.to_nat k2) j), (Nat.eqb_spec (Z.to_nat k3) j);
        destruct (Z.eqb_spec k0 (Z.of_nat j)), (Z.eqb_spec k1 (Z.of_nat j)), (Z.eqb_spec k2 (Z.of_nat j)), (Z.eqb_spec k3 (Z.of_nat j));
        repeat match goal with E : Z.to_nat ?k = j |- context [nth (Z.to_nat ?k) pos 0] => rewrite E end; lia. }
    assert (W4 : within pos [(k0, w0); (k1, w1); (k2, w2); (k3, w3)]
      [(nth (Z.to_nat k0) pos 0, w0); (nth (Z.to_nat k1) pos 0, w1); (nth (Z.to_nat k2) pos 0, w2); (nth (Z.to_nat k3) pos 0, w3)]).
    { intros d w I. simpl in I.
      destruct I as [E|[E|[E|[E|[]]]]]; injection E as <- <-; (split; [simpl; auto|]);
        [exists (Z.to_nat k0)|exists (Z.to_nat k1)|exists (Z.to_nat k2)|exists (Z.to_nat k3)]; (split; [lia|]);
        simpl map; rewrite !cnt_cons; rewrite !Z2Nat.id by lia; rewrite Z.eqb_refl; lia. }
    destruct (IH r ltac:(simpl in L; lia) p4) as (p' & ws & E & B & HW).
    { rewrite (proj1 B4). exact KR. }
    rewrite E. cbn [bind]. eexists _, _. split; [reflexivity|].
    split; [exact (bumped_trans _ _ _ _ _ B4 B)|].
    apply (within_app _ _ [_; _; _; _] ws); [exact (within_weaken _ _ r _ W4)|exact (within_shift _ _ _ _ _ B4 HW)].
Qed.

Lemma fill_tile_safe : forall {W} (rs : list (list (Z * W))) pos, keys_in (length pos) (map fst (concat rs)) ->
  exists ws, fill_tile pos rs = Ok ws /\ within pos (concat rs) ws.
Proof.
  induction rs as [|r rs IH]; intros pos K; simpl.
  - exists []. split; auto. intros d w [].
  - simpl in K. rewrite map_app in K. apply keys_in_app in K. destruct K as [K1 K2].
    destruct (fill_row4_safe r pos K1) as (p' & ws & E & B & HW). rewrite E. cbn [bind].
    destruct (IH p') as (ws' & E' & HW'). { rewrite (proj1 B). auto. }
    rewrite E'. cbn [bind]. eexists. split; [reflexivity|]. apply within_app; [apply within_weaken; auto|eapply within_shift; eauto].
Qed.

Section Safe.
Context {V : Type} {ZV : Zero V}.

Lemma flipped_ok : forall A : Cs V, cs_ok A -> alloc_ok (major A) -> cs_ok (flipped A).
Proof.
  intros A OK AL. unfold flipped. rewrite <- (rows_length A) at 1. apply of_trace_ok; auto. rewrite rows_length. auto.
Qed.

(** The same pointers, any in-range indices: still a valid matrix. *)
Lemma cs_ok_refill : forall (B : Cs V) out, cs_ok B -> length out = length (dat B) ->
  Forall (fun e : Z * V => (0 <= fst e < Z.of_nat (minor B) /\ fst e <= i64_max)%Z) out ->
  cs_ok (mkCs (major B) (minor B) (ptr B) (map fst out) (map snd out)).
Proof.
  intros B out OK L H. destruct OK as [O1 O2 O3 O4 O5 O6]. constructor; cbn [major minor ptr idx dat]; auto.
  - rewrite !map_length. auto.
  - rewrite map_length, L, <- O2. auto.
  - intros p j E. rewrite nth_error_map in E. destruct (nth_error out p) as [e|] eqn:EE; [|discriminate].
    injection E as <-. rewrite Forall_forall in H. apply (H e). eapply nth_error_In. eauto.
Qed.

Lemma flip_tiled_safe : forall tiles sch (A : Cs V), 1 <= tiles -> is_schedule sch -> cs_ok A -> alloc_ok (major A) ->
  exists B, flip_tiled tiles sch A = Ok B /\ cs_ok B /\ major B = minor A /\ minor B = major A /\ ptr B = ptr (flipped A).
Proof.
  intros tiles sch A HT HS OK AL. unfold flip_tiled.
  set (tile := (major A + tiles - 1) / tiles).
  set (trows := fun t => map (fun i => task i (cs_row A i)) (seq (t * tile) (Nat.min (t * tile + tile) (major A) - t * tile))).
  assert (E1 : mapM (tile_rows A tile) (seq 0 tiles) = Ok (map trows (seq 0 tiles))).
  { apply mapM_ok. intros t It. unfold tile_rows. apply mapM_ok. intros i Ii. apply in_seq in Ii.
    rewrite get_row_ok by (auto; lia). auto. }
  rewrite E1. cbn [bind].
  set (trs := map (fun t => concat (trows t)) (seq 0 tiles)).
  assert (EC : concat trs = entries (rows A)).
  { unfold trs, entries. rewrite tasks_nth, rows_length.
    pose proof (tile_seq tile (major A) tiles) as TS.
    rewrite Nat.min_r in TS by (apply tile_covers; auto).
    rewrite <- TS. unfold trows. clear TS E1. generalize (seq 0 tiles). induction l as [|t l IH]; simpl; auto.
    rewrite IH. rewrite map_app, concat_app. f_equal. f_equal. apply map_ext_in. intros i Ii. apply in_seq in Ii.
    rewrite nth_rows by lia. auto. }
  assert (KA : keys_in (minor A) (map fst (concat trs))).
  { rewrite EC, keys_entries. apply rows_keys_in. auto. }
  assert (IT : forall t, t < tiles -> In (concat (trows t)) trs).
  { intros t Ht. unfold trs. apply (in_map (fun t => concat (trows t))). apply in_seq. lia. }
  assert (KT : forall t, t < tiles -> keys_in (minor A) (map fst (concat (trows t)))).
  { intros t Ht. unfold keys_in in *. rewrite Forall_map in *. rewrite Forall_concat in KA. rewrite Forall_forall in KA.
    apply KA. auto. }
  assert (E2 : mapM (tile_hist (minor A)) (map trows (seq 0 tiles))
             = Ok (map (fun tr => hist (minor A) (map fst tr)) trs)).
  { rewrite (mapM_ok _ (fun rs => hist (minor A) (map fst (concat rs)))).
    - unfold trs. rewrite !map_map. auto.
    - intros rs I. apply in_map_iff in I. destruct I as (t & <- & It). apply in_seq in It.
      unfold tile_hist. apply hist_unchecked_ok. apply KT. lia. }
  rewrite E2. cbn [bind]. rewrite hist_sum_ok.
  set (counts := map (@length _) (buckets (minor A) (concat trs))).
  set (hists := map (fun tr => hist (minor A) (map fst tr)) trs).
  assert (LC : length counts = minor A) by (unfold counts; rewrite map_length, buckets_length; auto).
  assert (NZ : length (dat A) = total counts).
  { unfold counts. rewrite total_length_concat, buckets_total by auto. rewrite EC, entries_length. symmetry. apply rows_dat. auto. }
  assert (CJ : forall j, j < minor A -> nth j counts 0 = total (map (fun h => nth j h 0) hists)).
  { intros j Hj. pose proof (hist_sum_ok (minor A) trs) as HS'. fold counts in HS'. fold hists in HS'. rewrite <- HS'.
    unfold hist_sum. rewrite nth_indep with (d' := fold_left (fun s h => s + nth 0 h 0) hists 0) by (rewrite map_length, seq_length; auto).
    rewrite (map_nth (fun j => fold_left (fun s h => s + nth j h 0) hists 0)). rewrite seq_nth by auto. rewrite fold_left_total. auto. }
  assert (LT : length hists = tiles) by (unfold hists, trs; rewrite !map_length, seq_length; auto).
  (* every tile stays inside its share of the slots *)
  assert (TB : forall t, t < tiles -> exists ws, fill_tile (tile_offsets (minor A) (psum 0 counts) hists t) (trows t) = Ok ws /\
     forall d w, In (d, w) ws -> d < total counts /\ In w (map snd (concat (trows t)))).
  { intros t Ht. destruct (fill_tile_safe (trows t) (tile_offsets (minor A) (psum 0 counts) hists t)) as (ws & E & HW).
    { unfold tile_offsets. rewrite map_length, seq_length. auto. }
    exists ws. split; auto. intros d w I. apply HW in I. destruct I as (Iw & j & Hj & B). split; auto.
    unfold tile_offsets in Hj. rewrite map_length, seq_length in Hj.
    assert (EO : nth j (tile_offsets (minor A) (psum 0 counts) hists t) 0 = nth j (psum 0 counts) 0 + total (map (fun h => nth j h 0) (firstn t hists))).
    { unfold tile_offsets. rewrite nth_indep with (d' := fold_left (fun s h => s + nth 0 h 0) (firstn t hists) (nth 0 (psum 0 counts) 0)) by (rewrite map_length, seq_length; auto).
      rewrite (map_nth (fun j => fold_left (fun s h => s + nth j h 0) (firstn t hists) (nth j (psum 0 counts) 0))).
      rewrite seq_nth by auto. rewrite fold_left_total. auto. }
    rewrite EO in B. rewrite nth_psum in B by lia.
    assert (EH : nth t hists [] = hist (minor A) (map fst (concat (trows t)))).
    { unfold hists. rewrite nth_indep with (d' := (fun tr : list (Z * (Z * V)) => hist (minor A) (map fst tr)) []) by (fold hists; lia).
      rewrite (map_nth (fun tr => hist (minor A) (map fst tr))). f_equal. f_equal. unfold trs.
      rewrite nth_indep with (d' := concat (trows 0)) by (rewrite map_length, seq_length; auto).
      rewrite (map_nth (fun t => concat (trows t))). rewrite seq_nth; auto. }
    assert (S1 : total (map (fun h => nth j h 0) (firstn t hists)) + nth j (nth t hists []) 0 <= nth j counts 0).
    { rewrite CJ by auto. rewrite <- (firstn_skipn t hists) at 3. rewrite map_app, total_app.
      destruct (skipn t hists) as [|h hs] eqn:ES.
      - exfalso. assert (length (skipn t hists) = 0) by (rewrite ES; auto). rewrite skipn_length in H. lia.
      - assert (nth t hists [] = h). { rewrite <- (firstn_skipn t hists), ES. rewrite app_nth2; rewrite firstn_length, Nat.min_l by lia; [|lia]. rewrite Nat.sub_diag. auto. }
        rewrite H. simpl. lia. }
    rewrite EH, nth_hist in S1 by auto.
    assert (S2 : total (firstn j counts) + nth j counts 0 <= total counts).
    { rewrite <- (firstn_skipn j counts) at 3. rewrite total_app. destruct (skipn j counts) as [|c cs] eqn:ES.
      - exfalso. assert (length (skipn j counts) = 0) by (rewrite ES; auto). rewrite skipn_length in H. lia.
      - assert (nth j counts 0 = c). { rewrite <- (firstn_skipn j counts), ES. rewrite app_nth2; rewrite firstn_length, Nat.min_l by lia; [|lia]. rewrite Nat.sub_diag. auto. }
        simpl. lia. }
    lia. }
  assert (TW : exists wss, mapM (fun tr => fill_tile (tile_offsets (minor A) (psum 0 counts) hists (fst tr)) (snd tr))
       (combine (seq 0 tiles) (map trows (seq 0 tiles))) = Ok wss /\
     forall d w, In (d, w) (concat wss) -> d < total counts /\ In w (map snd (concat trs))).
  { assert (G : forall l, (forall t, In t l -> t < tiles) -> exists wss,
      mapM (fun tr => fill_tile (tile_offsets (minor A) (psum 0 counts) hists (fst tr)) (snd tr)) (combine l (map trows l)) = Ok wss /\
      forall d w, In (d, w) (concat wss) -> d < total counts /\ In w (map snd (concat trs))).
    { induction l as [|t l IH]; intros Hl.
      - exists []. split; auto. intros d w [].
      - destruct IH as (wss & E & HW). { intros; apply Hl; simpl; auto. }
        destruct (TB t) as (ws & Et & Ht). { apply Hl. simpl. auto. }
        exists (ws :: wss). cbn [map combine mapM fst snd]. rewrite Et. cbn [bind]. rewrite E. cbn [bind]. split; auto.
        intros d w I. simpl in I. apply in_app_or in I. destruct I as [I|I]; auto. apply Ht in I. destruct I as [I1 I2]. split; auto.
        apply in_map_iff in I2. destruct I2 as (e & <- & Ie). apply in_map. apply in_concat. exists (concat (trows t)). split; auto.
        apply IT. apply Hl. simpl. auto. }
    apply G. intros t I. apply in_seq in I. lia. }
  destruct TW as (wss & EW & HW). rewrite EW. cbn [bind].
  destruct (assemble_zeroed_safe (0%Z, zero_value : V) (length (dat A)) (sch (concat wss))) as (out & EO & LO & IO).
  { apply Forall_forall. intros [d w] I. rewrite NZ. apply (HW d w). eapply Permutation_in; [symmetry; apply HS|exact I]. }
  rewrite EO. cbn [bind].
  eexists. split; [reflexivity|].
  assert (EF : indptr_of counts = ptr (flipped A)).
  { unfold flipped, of_trace, of_rows. cbn [ptr]. unfold counts. rewrite EC. auto. }
  split; [|auto].
  assert (OF : cs_ok (flipped A)) by (apply flipped_ok; auto).
  assert (MF : major (flipped A) = minor A) by (unfold flipped, of_trace; simpl; apply buckets_length).
  assert (MM : minor (flipped A) = major A) by reflexivity.
  rewrite EF, <- MF, <- MM. apply cs_ok_refill; auto.
  - rewrite LO. unfold flipped, of_trace, of_rows. cbn [dat]. rewrite map_length, <- EC, buckets_total by auto.
    rewrite EC, entries_length. symmetry. apply rows_dat. auto.
  - rewrite MM. apply Forall_forall. intros e Ie.
    assert (ME : forall x, In x (map snd (concat trs)) -> (0 <= fst x < Z.of_nat (major A))%Z).
    { intros x Ix. rewrite EC in Ix. unfold entries in Ix. apply in_map_iff in Ix. destruct Ix as (y & <- & Iy).
      apply in_concat in Iy. destruct Iy as (tk & It & Iy). rewrite tasks_nth in It. apply in_map_iff in It. destruct It as (i & <- & Ii).
      apply in_seq in Ii. rewrite rows_length in Ii. unfold task in Iy. apply in_map_iff in Iy. destruct Iy as (z & <- & _). simpl. lia. }
    assert (PO : out <> [] -> (0 < Z.of_nat (major A))%Z).
    { intros NE. destruct out as [|o out']; [congruence|]. simpl in LO.
      destruct (map snd (concat trs)) as [|x xs] eqn:EX.
      - assert (L0 : length (map snd (concat trs)) = 0) by (rewrite EX; auto).
        rewrite map_length, EC, entries_length, rows_dat in L0 by auto. lia.
      - specialize (ME x). specialize (ME (or_introl eq_refl)). lia. }
    assert (NE : out <> []) by (intros ->; destruct Ie).
    apply IO in Ie. unfold alloc_ok in AL. destruct Ie as [->|Ie].
    + cbn [fst]. specialize (PO NE). lia.
    + apply in_map_iff in Ie. destruct Ie as ([d w] & <- & I). cbn [snd].
      assert (In w (map snd (concat trs))). { apply (HW d w). eapply Permutation_in; [symmetry; apply HS|exact I]. }
      apply ME in H. lia.
Qed.

Lemma strategy_b_safe : forall il sch srt (A : Cs V),
  is_interleaving il -> is_schedule sch -> is_sorter key_le srt -> cs_ok A -> alloc_ok (major A) ->
  exists B, (let! B := flip_atomic il sch get_row A in sort_slices srt B) = Ok B /\ cs_ok B /\
    major B = minor A /\ minor B = major A /\ ptr B = ptr (flipped A).
Proof.
  intros il sch srt A HI HS HR OK AL. rewrite flip_atomic_ok; auto.
  2:{ intros. apply get_row_ok; auto. }
  cbn [bind]. unfold of_trace.
  assert (PT : Permutation (entries (rows A)) (il (tasks (rows A)))) by (apply Interleave_perm, HI).
  assert (FB : Forall (in_bounds (major A)) (buckets (minor A) (il (tasks (rows A))))).
  { apply Forall_forall. intros r I. unfold buckets in I. apply in_map_iff in I. destruct I as (j & <- & _).
    eapply bucket_bounds; eauto; rewrite rows_length; auto. unfold alloc_ok in AL. lia. }
  rewrite sort_slices_ok; auto. eexists. split; [reflexivity|]. split.
  - apply of_rows_ok. rewrite Forall_map. eapply Forall_impl; [|exact FB]. cbv beta. intros r B.
    destruct (length r <=? 1); auto. unfold in_bounds in *. eapply Permutation_Forall; [apply HR|exact B].
  - unfold of_rows. cbn [major minor ptr]. rewrite map_length, buckets_length. split; auto. split; auto.
    unfold flipped, of_trace, of_rows. cbn [ptr]. f_equal. rewrite map_map. unfold buckets. rewrite !map_map. apply map_ext. intros j.
    pose proof (Permutation_length (at_index_perm (Z.of_nat j) _ _ PT)) as EL.
    destruct (length (at_index (Z.of_nat j) (il (tasks (rows A)))) <=? 1); auto.
    rewrite EL. symmetry. apply Permutation_length. apply HR.
Qed.

Lemma transpose_cs_safe : forall threads il sch srt (A : Cs V),
  is_interleaving il -> is_schedule sch -> is_sorter key_le srt -> cs_ok A -> alloc_ok (major A) ->
  exists B, transpose_cs threads il sch srt A = Ok B /\ cs_ok B /\ major B = minor A /\ minor B = major A /\ ptr B = ptr (flipped A).
Proof.
  intros threads il sch srt A HI HS HR OK AL. unfold transpose_cs.
  destruct (_ <=? _)%Z; [apply flip_tiled_safe; auto; lia|apply strategy_b_safe; auto].
Qed.
End Safe.
