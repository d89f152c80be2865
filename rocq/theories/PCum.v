(** Proofs about the cumulative kernels. *)
Require Import List ZArith Bool Arith Lia Permutation.
Require Import Verif.Res Verif.Values Verif.Spec Verif.SpecReduce Verif.Mem Verif.Lists Verif.CsLib Verif.Laws Verif.MScalar Verif.PScalar Verif.MHash Verif.MConvert Verif.PConvert Verif.PConvert2 Verif.PConvert3 Verif.MNd2 Verif.MAcc Verif.PAcc Verif.MLinalg Verif.PLinalg Verif.PLinalg2 Verif.PLinalg3 Verif.MReduce Verif.PReduce Verif.PGroup Verif.MStat Verif.PStat Verif.PStat2 Verif.MCum.
Import ListNotations.
Local Open Scope Z_scope.

(** Values of a row up to column [j]. *)
Definition upto {V} (j : nat) (r : list (Z * V)) : list V := map snd (filter (fun e => fst e <=? Z.of_nat j) r).

Lemma upto_app : forall {V} j (r r' : list (Z * V)), upto j (r ++ r') = upto j r ++ upto j r'.
Proof. intros. unfold upto. rewrite filter_app, map_app. auto. Qed.

Lemma upto_all : forall {V} j (r : list (Z * V)), Forall (fun e => fst e <= Z.of_nat j) r -> upto j r = map snd r.
Proof.
  intros V j r H. unfold upto. induction H as [|e r He _ IH]; auto. simpl. rewrite (proj2 (Z.leb_le _ _)) by auto. simpl. f_equal. auto.
Qed.

Lemma upto_none : forall {V} j (r : list (Z * V)), Forall (fun e => Z.of_nat j < fst e) r -> upto j r = [].
Proof.
  intros V j r H. unfold upto. induction H as [|e r He _ IH]; auto. simpl. rewrite (proj2 (Z.leb_gt _ _)) by auto. auto.
Qed.

Lemma at_index_upto : forall {V} j j' (r : list (Z * V)), j' <= Z.of_nat j -> at_index j' (filter (fun e => fst e <=? Z.of_nat j) r) = at_index j' r.
Proof.
  intros V j j' r H. induction r as [|[k v] r IH]; auto. cbn [filter fst]. destruct (Z.leb_spec k (Z.of_nat j)).
  - rewrite !at_index_cons, IH. auto.
  - rewrite at_index_cons, IH. destruct (Z.eqb_spec k j'); auto. lia.
Qed.

(** The values of the cells [0..j]. *)
Lemma upto_cells : forall {V} (r : list (Z * V)) j, Forall (fun e => 0 <= fst e) r ->
  Permutation (upto j r) (flat_map (fun j' => at_index (Z.of_nat j') r) (seq 0 (S j))).
Proof.
  intros V r j H. unfold upto. eapply Permutation_trans; [apply (group_by Z.eqb Z.eqb_eq (map Z.of_nat (seq 0 (S j))))|].
  - apply FinFun.Injective_map_NoDup; [intros a b; lia|apply seq_NoDup].
  - intros e I. apply filter_In in I. destruct I as [I L]. apply Z.leb_le in L. rewrite Forall_forall in H. specialize (H e I). cbv beta in H.
    apply in_map_iff. exists (Z.to_nat (fst e)). split; [lia|]. apply in_seq. lia.
  - rewrite flat_map_concat_map, map_map, flat_map_concat_map.
    erewrite map_ext_in; [apply Permutation_refl|]. intros j' I. apply in_seq in I.
    apply (at_index_upto j (Z.of_nat j')). lia.
Qed.

Lemma row_upto : forall {V} (A : Cs V) i j, cs_ok A -> (i < major A)%nat ->
  Permutation (upto j (cs_row A i)) (row_values (csr_at A) (S j) i).
Proof.
  intros V A i j OK Hi. unfold row_values. apply (upto_cells (cs_row A i) j).
  pose proof (row_bounds A i OK Hi) as B. unfold in_bounds in B. eapply Forall_impl; [|exact B]. intros e He. cbv beta in He. lia.
Qed.

Lemma pieces_rect : forall {X} (v : X) k n fuel, (0 < k)%nat -> (n * k <= fuel)%nat -> pieces fuel k (repeat v (n * k)) = repeat (repeat v k) n.
Proof.
  intros X v k n. induction n; intros fuel Hk HF.
  - destruct fuel; auto.
  - destruct fuel as [|fuel]; [lia|]. cbn [pieces]. destruct (repeat v (S n * k)) eqn:E.
    { apply (f_equal (@length X)) in E. rewrite repeat_length in E. simpl in E. lia. }
    rewrite <- E. replace (S n * k)%nat with (k + n * k)%nat by lia. rewrite repeat_app.
    rewrite firstn_app, skipn_app, repeat_length, Nat.sub_diag. cbn [firstn skipn]. rewrite app_nil_r.
    rewrite firstn_all2 by (rewrite repeat_length; auto). rewrite skipn_all2 by (rewrite repeat_length; auto). cbn [app repeat]. f_equal. apply IHn; auto. lia.
Qed.

Lemma flat_pos : forall n k j c, alloc_ok (n * k) -> (j < n)%nat -> (c < k)%nat -> Z.to_nat (flat_index (Z.of_nat j) k c) = (j * k + c)%nat.
Proof.
  intros n k j c AL Hj Hc. unfold flat_index, alloc_ok, i64_max in *. assert (j * k + c < n * k)%nat by nia.
  rewrite Z.mod_small by lia. lia.
Qed.

Section Cum.
Context {F : Fl}.
Hypothesis Z0 : feqb (f0 : F) f0 = true.

Lemma fill_slice_ok : forall (s : list F) a b v, (a <= b <= length s)%nat -> fill_slice s a b v = Ok (fill_range s a b v).
Proof.
  intros s a b v H. unfold fill_slice. rewrite (proj2 (Nat.leb_le _ _)), (proj2 (Nat.leb_le _ _)) by lia. auto.
Qed.

Lemma set_unchecked_ok : forall (s : list F) n v, (n < length s)%nat -> set_unchecked s n v = Ok (upd s n v).
Proof. intros s n v H. unfold set_unchecked. rewrite (proj2 (Nat.ltb_lt _ _)) by lia. auto. Qed.

(** ** Cumulative sums *)

(** The state after the entries [p] of a row of [n] columns. *)
Definition cs_inv (n : nat) (p : list (Z * F)) (st : (list F * nat) * F) : Prop :=
  let '((out, prev), acc) := st in
  length out = n /\ (prev <= n)%nat /\ FSum (map snd p) acc /\ Forall (fun e => fst e < Z.of_nat prev) p /\
  forall j, (j < prev)%nat -> FSum (upto j p) (nth j out f0).

Lemma to_usize_col : forall n e, 0 <= fst e < Z.of_nat n /\ fst e <= i64_max -> Z.to_nat (to_usize (fst (e : Z * F))) = Z.to_nat (fst e).
Proof. intros n e H. rewrite to_usize_id; auto. unfold usize_max, i64_max in *. lia. Qed.

Lemma cumsum_step_ok : forall n p st e, cs_inv n p st -> 0 <= fst e < Z.of_nat n /\ fst e <= i64_max -> Z.of_nat (snd (fst st)) <= fst e ->
  exists st', cumsum_step st e = Ok st' /\ cs_inv n (p ++ [e]) st' /\ Z.of_nat (snd (fst st')) = fst e + 1.
Proof.
  intros n p [[out prev] acc] e (L & PN & SA & FP & N) B G. cbn [fst snd] in G. unfold cumsum_step.
  rewrite (to_usize_col n e) by auto. set (col := Z.to_nat (fst e)).
  assert (EC : fst e = Z.of_nat col) by (unfold col; lia).
  assert (exists out', (if (prev <? col)%nat then fill_slice out prev col acc else Ok out) = Ok out' /\ length out' = n /\
            forall j, (j < col)%nat -> FSum (upto j p) (nth j out' f0)) as (out' & -> & L' & N').
  { destruct (Nat.ltb_spec prev col).
    - rewrite fill_slice_ok by lia. eexists. split; [reflexivity|]. rewrite fill_range_length. split; auto.
      intros j Hj. rewrite nth_fill_range by lia. destruct (Nat.leb_spec prev j).
      + rewrite (proj2 (Nat.ltb_lt _ _)) by auto. cbn [andb]. rewrite upto_all; auto.
        eapply Forall_impl; [|exact FP]. intros a Ha. cbv beta in Ha |- *. lia.
      + cbn [andb]. apply N. auto.
    - exists out. split; auto. split; auto. intros j Hj. apply N. lia. }
  cbn [bind]. rewrite set_unchecked_ok by lia. cbn [bind]. eexists. split; [reflexivity|]. split; [|cbn [fst snd]; lia].
  unfold cs_inv. rewrite upd_length. split; auto. split; [lia|]. split; [rewrite map_app; apply FSum_snoc; auto|]. split.
  - apply Forall_app. split; [|constructor; auto; lia]. eapply Forall_impl; [|exact FP]. intros a Ha. cbv beta in Ha |- *. lia.
  - intros j Hj. rewrite nth_upd by lia. rewrite upto_app. destruct (Nat.eqb_spec col j) as [->|NE].
    + rewrite !upto_all. { cbn [map]. apply FSum_snoc. auto. }
      { constructor; auto. lia. }
      { eapply Forall_impl; [|exact FP]. intros a Ha. cbv beta in Ha |- *. lia. }
    + rewrite (upto_none j [e]) by (constructor; auto; lia). rewrite app_nil_r. apply N'. lia.
Qed.

Lemma cumsum_fold_ok : forall n r p st, cs_inv n p st -> srow r -> in_bounds n r -> Forall (fun e => Z.of_nat (snd (fst st)) <= fst e) r ->
  exists st', foldM cumsum_step r st = Ok st' /\ cs_inv n (p ++ r) st'.
Proof.
  intros n. induction r as [|[k v] r IH]; intros p st I S B G.
  - exists st. rewrite app_nil_r. auto.
  - apply srow_inv in S. destruct S as [S1 S2]. inversion B as [|? ? B1 B2]; subst. inversion G as [|? ? G1 G2]; subst.
    destruct (cumsum_step_ok n p st (k, v) I B1 G1) as (st' & E & I' & P'). cbn [foldM]. rewrite E. cbn [bind].
    destruct (IH (p ++ [(k, v)]) st' I' S1 B2) as (st2 & E2 & I2).
    { eapply Forall_impl; [|exact S2]. intros a Ha. cbv beta in Ha |- *. cbn [fst] in P'. lia. }
    exists st2. split; auto. rewrite <- app_assoc in I2. exact I2.
Qed.

Lemma cumsum_row_ok : forall (A : Csr F) i out, canonical A -> (i < csr_nrows A)%nat -> length out = csr_ncols A ->
  exists y, cumsum_row A i out = Ok y /\ length y = csr_ncols A /\
    forall j, (j < csr_ncols A)%nat -> FSum (row_values (csr_at A) (S j) i) (nth j y f0).
Proof.
  intros A i out C Hi L. pose proof (can_ok _ C) as OK. unfold cumsum_row. rewrite get_row_ok by auto. cbn [bind].
  pose proof (canonical_row A i C Hi) as SR. pose proof (row_bounds A i OK Hi) as B.
  destruct (cumsum_fold_ok (csr_ncols A) (cs_row A i) [] ((out, O), f0)) as ([[out' prev] acc] & -> & (L' & PN & SA & FP & N)); auto.
  - unfold cs_inv. split; auto. split; [lia|]. split; [apply FSum_zero; auto|]. split; [constructor|]. intros j Hj. lia.
  - unfold in_bounds in B. eapply Forall_impl; [|exact B]. intros e He. cbv beta in He |- *. cbn [fst snd]. lia.
  - cbn [bind app] in *.
    assert (R : forall j, FSum (upto j (cs_row A i)) (nth j (fill_range out' prev (length out') acc) f0) -> FSum (row_values (csr_at A) (S j) i) (nth j (fill_range out' prev (length out') acc) f0))
      by (intros j H; eapply FSum_perm; [apply row_upto; auto|exact H]).
    destruct (Nat.ltb_spec prev (csr_ncols A)).
    + rewrite fill_slice_ok by lia. eexists. split; [reflexivity|]. rewrite fill_range_length. split; auto.
      intros j Hj. apply R. rewrite nth_fill_range by lia. destruct (Nat.leb_spec prev j).
      * rewrite (proj2 (Nat.ltb_lt _ _)) by lia. cbn [andb]. rewrite upto_all; auto.
        eapply Forall_impl; [|exact FP]. intros a Ha. cbv beta in Ha |- *. lia.
      * cbn [andb]. apply N. auto.
    + exists out'. split; auto. split; auto. intros j Hj. eapply FSum_perm; [apply row_upto; auto|]. apply N. lia.
Qed.

(** ** Cumulative products *)

Lemma length_upto : forall (p : list (Z * F)) prev j, map fst p = map Z.of_nat (seq 0 prev) -> (j < prev)%nat -> length (upto j p) = S j.
Proof.
  intros p prev j EP Hj.
  assert (LE : length (upto j p) = length (filter (fun x => x <=? Z.of_nat j) (map fst p))).
  { unfold upto. rewrite map_length. clear. induction p as [|e p IH]; auto. simpl. destruct (fst e <=? Z.of_nat j); simpl; auto. }
  rewrite LE, EP. clear - Hj. replace prev with (S j + (prev - S j))%nat by lia. rewrite seq_app, map_app, filter_app, app_length.
  assert (H1 : forall m a, (a + m <= S j)%nat -> length (filter (fun x => x <=? Z.of_nat j) (map Z.of_nat (seq a m))) = m).
  { induction m; intros a Ha; auto. simpl. rewrite (proj2 (Z.leb_le _ _)) by lia. simpl. rewrite IHm by lia. auto. }
  assert (H2 : forall m a, (S j <= a)%nat -> length (filter (fun x => x <=? Z.of_nat j) (map Z.of_nat (seq a m))) = 0%nat).
  { induction m; intros a Ha; auto. cbn [seq map filter]. rewrite (proj2 (Z.leb_gt _ _)) by lia. auto. }
  rewrite H1, H2 by lia. lia.
Qed.

Lemma cumprod_loop_ok : forall n (r p : list (Z * F)) (out : list F) prev (acc : F), length out = n -> (prev <= n)%nat ->
  map fst p = map Z.of_nat (seq 0 prev) -> FProd (map snd p) acc ->
  (forall j, (j < prev)%nat -> FProd (upto j p) (nth j out f0)) -> (forall j, (prev <= j)%nat -> nth j out f0 = f0) ->
  srow r -> in_bounds n r -> Forall (fun e => Z.of_nat prev <= fst e) r ->
  exists y q, cumprod_loop r out prev acc = Ok y /\ length y = n /\ (q <= n)%nat /\
    (forall j, (j < q)%nat -> FProd (upto j (p ++ r)) (nth j y f0) /\ length (upto j (p ++ r)) = S j) /\
    (forall j, (q <= j)%nat -> nth j y f0 = f0) /\ at_index (Z.of_nat q) (p ++ r) = [].
Proof.
  intros n. induction r as [|[k v] r IH]; intros p out prev acc L PN EP FA N Zs S B G.
  - exists out, prev. cbn [cumprod_loop]. rewrite app_nil_r. split; auto. split; auto. split; auto. split.
    + intros j Hj. split; auto.
      apply length_upto with (prev := prev); auto.
    + split; auto. apply at_index_nil. rewrite EP. intros I. apply in_map_iff in I. destruct I as (x & E & I). apply in_seq in I. lia.
  - apply srow_inv in S. destruct S as [S1 S2]. inversion B as [|? ? B1 B2]; subst. inversion G as [|? ? G1 G2]; subst. cbn [fst snd] in *.
    cbn [cumprod_loop]. rewrite (to_usize_col (length out) (k, v)) by auto. cbn [fst snd].
    destruct (Nat.ltb_spec prev (Z.to_nat k)).
    + exists out, prev. split; auto. split; auto. split; auto. split.
      * intros j Hj. rewrite upto_app. rewrite (upto_none j ((k, v) :: r)).
        2:{ constructor; [cbn [fst]; lia|]. eapply Forall_impl; [|exact S2]. intros a Ha. cbv beta in Ha |- *. lia. }
        rewrite app_nil_r. 
        split; auto. apply length_upto with (prev := prev); auto.
      * split; auto. apply at_index_nil. rewrite map_app, EP. intros I. apply in_app_iff in I. destruct I as [I|I].
        { apply in_map_iff in I. destruct I as (x & E & I). apply in_seq in I. lia. }
        cbn [map fst] in I. destruct I as [I|I]; [lia|]. apply in_map_iff in I. destruct I as (e & E & I).
        rewrite Forall_forall in S2. specialize (S2 e I). cbv beta in S2. lia.
    + assert (EK : k = Z.of_nat prev) by lia. subst k. rewrite Nat2Z.id. rewrite set_unchecked_ok by lia. cbn [bind].
      destruct (IH (p ++ [(Z.of_nat prev, v)]) (upd out prev (fmul acc v)) (S prev) (fmul acc v)) as (y & q & E & H'); auto.
      * apply upd_length.
      * lia.
      * rewrite map_app, EP, seq_S, map_app. auto.
      * rewrite map_app. apply FProd_snoc. auto.
      * assert (FP : Forall (fun e => fst e < Z.of_nat prev) p).
        { rewrite <- Forall_map with (P := fun x => x < Z.of_nat prev). rewrite EP. apply Forall_forall. intros x I. apply in_map_iff in I. destruct I as (a & <- & I). apply in_seq in I. lia. }
        intros j Hj. rewrite nth_upd by lia. rewrite upto_app. destruct (Nat.eqb_spec prev j) as [->|NE].
        -- rewrite !upto_all. { cbn [map]. apply FProd_snoc. auto. }
           { constructor; [cbn [fst]; lia|constructor]. }
           { eapply Forall_impl; [|exact FP]. intros a Ha. cbv beta in Ha |- *. lia. }
        -- rewrite (upto_none j [(Z.of_nat prev, v)]) by (constructor; auto; cbn [fst]; lia). rewrite app_nil_r. apply N. lia.
      * intros j Hj. rewrite nth_upd by lia. rewrite (proj2 (Nat.eqb_neq prev j)) by lia. apply Zs. lia.
      * eapply Forall_impl; [|exact S2]. intros a Ha. cbv beta in Ha |- *. lia.
      * exists y, q. split; auto. rewrite <- app_assoc in H'. exact H'.
Qed.

Lemma cumprod_row_ok : forall (A : Csr F) i, canonical A -> (i < csr_nrows A)%nat ->
  exists y, cumprod_row A i (repeat f0 (csr_ncols A)) = Ok y /\ length y = csr_ncols A /\
    forall j, (j < csr_ncols A)%nat -> prod_spec (csr_at A i) (seq 0 (S j)) (nth j y f0).
Proof.
  intros A i C Hi. pose proof (can_ok _ C) as OK. unfold cumprod_row. rewrite get_row_ok by auto. cbn [bind].
  pose proof (canonical_row A i C Hi) as SR. pose proof (row_bounds A i OK Hi) as B.
  destruct (cumprod_loop_ok (csr_ncols A) (cs_row A i) [] (repeat f0 (csr_ncols A)) 0 f1) as (y & q & -> & L & Q & P1 & P2 & P3); auto.
  - apply repeat_length.
  - lia.
  - apply FProd_one.
  - intros j Hj. lia.
  - intros j _. apply nth_repeat.
  - unfold in_bounds in B. eapply Forall_impl; [|exact B]. intros e He. cbv beta in He |- *. lia.
  - exists y. split; auto. split; auto. intros j Hj. cbn [app] in *.
    assert (SV : forall j', In j' (seq 0 (S j)) -> (length (csr_at A i j') <= 1)%nat) by (intros; apply canonical_single; auto).
    destruct (Nat.ltb_spec j q).
    + destruct (P1 j H) as [FP LP]. apply prod_spec_intro with (l := upto j (cs_row A i)); auto.
      * apply row_upto; auto.
      * intros HL. rewrite LP, seq_length in HL. lia.
    + assert (IQ : In q (seq 0 (S j))) by (apply in_seq; lia).
      split; intros H'; [|apply P2; auto]. exfalso. rewrite Forall_forall in H'. apply (H' q IQ). exact P3.
Qed.

(** ** Dense output *)

Lemma nth_concat_rect : forall (rs : list (list F)) n i j, Forall (fun r => length r = n) rs -> (i < length rs)%nat -> (j < n)%nat ->
  nth (i * n + j) (concat rs) f0 = nth j (nth i rs []) f0.
Proof.
  induction rs as [|r rs IH]; intros n i j H Hi Hj; [simpl in Hi; lia|]. inversion H as [|? ? H1 H2]; subst. destruct i.
  - cbn [concat nth]. rewrite app_nth1 by lia. auto.
  - cbn [concat nth length] in *. rewrite app_nth2 by lia. rewrite <- IH with (n := length r) by (auto; lia). f_equal. lia.
Qed.

Lemma concat_rect_length : forall {X} (rs : list (list X)) n, Forall (fun r => length r = n) rs -> length (concat rs) = (length rs * n)%nat.
Proof. induction 1; auto. cbn [concat length]. rewrite app_length. lia. Qed.

Lemma dense_rows_ok : forall (row : nat -> list F -> res (list F)) m n (P : nat -> nat -> F -> Prop), alloc_ok (m * n) ->
  (forall i, (i < m)%nat -> exists y, row i (repeat f0 n) = Ok y /\ length y = n /\ forall j, (j < n)%nat -> P i j (nth j y f0)) ->
  exists out, dense_rows row m n = Ok out /\ length out = (m * n)%nat /\
    forall i j, (i < m)%nat -> (j < n)%nat -> P i j (nth (i * n + j) out f0).
Proof.
  intros row m n P AL H. unfold dense_rows. destruct (Nat.eqb_spec m 0) as [->|NM].
  { exists []. split; auto. split; auto. intros. lia. }
  destruct (Nat.eqb_spec n 0) as [->|NN]. { exists []. split; auto. split; [simpl; lia|]. intros. lia. }
  cbn [orb]. rewrite y_len_ok by auto. unfold par_chunks. rewrite (proj2 (Nat.eqb_neq n 0)) by lia. cbn [bind].
  rewrite repeat_length, pieces_rect by lia. rewrite repeat_length, combine_seq_repeat, mapM_map. cbn [fst snd].
  destruct (mapM_seq_spec Z0 (fun i => row i (repeat f0 n)) (fun i y => length y = n /\ forall j, (j < n)%nat -> P i j (nth j y f0)) [] m) as (ys & -> & LY & HY).
  { intros i Hi. destruct (H i Hi) as (y & E & Q). exists y. auto. }
  cbn [bind]. assert (FA : Forall (fun r => length r = n) ys).
  { apply Forall_forall. intros r I. apply (In_nth _ _ []) in I. destruct I as (i & Hi & <-). apply HY. lia. }
  exists (concat ys). split; auto. rewrite (concat_rect_length ys n FA). split; [lia|].
  intros i j Hi Hj. rewrite nth_concat_rect by (auto; lia). apply HY; auto.
Qed.

(** ** Transposing a dense matrix *)
Lemma set_grid_ok : forall (input : list F) rows cols (l : list (nat * nat)) (out : list F), alloc_ok (rows * cols) -> length input = (rows * cols)%nat ->
  NoDup l -> (forall r c, In (r, c) l -> (r < rows /\ c < cols)%nat) -> length out = (rows * cols)%nat ->
  exists out', foldM (fun out rc => let '(r, c) := rc in
      let! v := get_unchecked input (Z.to_nat (flat_index (Z.of_nat r) cols c)) in
      set_unchecked out (Z.to_nat (flat_index (Z.of_nat c) rows r)) v) l out = Ok out' /\ length out' = (rows * cols)%nat /\
    forall r c, (r < rows)%nat -> (c < cols)%nat -> nth (c * rows + r) out' f0 =
      if in_dec (fun x y : nat * nat => ltac:(decide equality; apply Nat.eq_dec)) (r, c) l then nth (r * cols + c) input f0 else nth (c * rows + r) out f0.
Proof.
  intros input rows cols l out AL LI. revert out. induction l as [|[r c] l IH]; intros out ND HB LO.
  - exists out. split; auto.
  - destruct (HB r c (or_introl eq_refl)) as [Hr Hc]. inversion ND as [|? ? NI ND']; subst.
    assert (AL' : alloc_ok (cols * rows)) by (rewrite Nat.mul_comm; auto).
    cbn [foldM]. rewrite (flat_pos rows cols), (flat_pos cols rows) by auto. unfold get_unchecked.
    assert (B3 : (r * cols + c < rows * cols)%nat) by nia. assert (B4 : (c * rows + r < rows * cols)%nat) by nia.
    rewrite (nth_error_nth' input f0) by lia. cbn [bind]. rewrite set_unchecked_ok by lia. cbn [bind].
    destruct (IH (upd out (c * rows + r) (nth (r * cols + c) input f0))) as (out' & E & L & N); auto.
    { intros. apply HB. right. auto. } { rewrite upd_length. auto. }
    exists out'. split; auto. split; auto. intros r' c' Hr' Hc'. rewrite N by auto.
    destruct (in_dec _ (r', c') l) as [I|NI']; destruct (in_dec _ (r', c') ((r, c) :: l)) as [J|NJ]; auto.
    + exfalso. apply NJ. right. auto.
    + destruct J as [J|J]; [|contradiction]. inversion J; subst. rewrite nth_upd by lia. rewrite Nat.eqb_refl. auto.
    + rewrite nth_upd by lia. destruct (Nat.eqb_spec (c * rows + r) (c' * rows + r')); auto. exfalso. apply NJ. left.
      assert (c = c') by nia. subst c'. assert (r = r') by lia. subst. auto.
Qed.

Lemma transpose_dense_ok : forall (input : list F) rows cols, alloc_ok (rows * cols) -> length input = (rows * cols)%nat ->
  exists out, transpose_dense input rows cols = Ok out /\ length out = (rows * cols)%nat /\
    forall r c, (r < rows)%nat -> (c < cols)%nat -> nth (c * rows + r) out f0 = nth (r * cols + c) input f0.
Proof.
  intros input rows cols AL LI. unfold transpose_dense. rewrite y_len_ok by auto.
  destruct (set_grid_ok input rows cols (grid rows cols) (repeat f0 (rows * cols)) AL LI) as (out & E & L & N).
  - apply NoDup_grid.
  - intros r c I. apply in_grid in I. auto.
  - apply repeat_length.
  - exists out. split; auto. split; auto. intros r c Hr Hc. rewrite N by auto. destruct in_dec as [|NI]; auto. exfalso. apply NI. apply in_grid. auto.
Qed.

Lemma through_dense_transpose_ok : forall (axis1 : Csr F -> res (list F)) (P : Csr F -> nat -> nat -> F -> Prop) threads il sch srt (A : Csr F),
  is_interleaving il -> is_schedule sch -> is_sorter key_le srt -> distinct A -> alloc_ok (csr_nrows A) -> alloc_ok (csr_nrows A * csr_ncols A) ->
  (forall T : Csr F, canonical T -> alloc_ok (csr_nrows T * csr_ncols T) -> exists out, axis1 T = Ok out /\ length out = (csr_nrows T * csr_ncols T)%nat /\
     forall i j, (i < csr_nrows T)%nat -> (j < csr_ncols T)%nat -> P T i j (nth (i * csr_ncols T + j) out f0)) ->
  exists T : Csr F, canonical T /\ csr_nrows T = csr_ncols A /\ csr_ncols T = csr_nrows A /\
    (forall i j, (i < csr_nrows A)%nat -> (j < csr_ncols A)%nat -> csr_at T j i = csr_at A i j) /\
  exists out, through_dense_transpose axis1 threads il sch srt A = Ok out /\ length out = (csr_nrows A * csr_ncols A)%nat /\
    forall i j, (i < csr_nrows A)%nat -> (j < csr_ncols A)%nat -> P T j i (nth (i * csr_ncols A + j) out f0).
Proof.
  intros axis1 P threads il sch srt A HI HS HR D AL A2 H1. exists (flipped A).
  pose proof (flipped_canonical' A D AL) as CF. split; auto.
  assert (M1 : csr_nrows (flipped A) = csr_ncols A) by apply buckets_length. assert (M2 : csr_ncols (flipped A) = csr_nrows A) by reflexivity.
  split; auto. split; auto. split; [intros; apply flipped_at; auto|].
  unfold through_dense_transpose. destruct (Nat.eqb_spec (csr_nrows A) 0) as [EA|NA].
  { exists []. split; auto. rewrite EA. split; auto. intros. lia. }
  destruct (Nat.eqb_spec (csr_ncols A) 0) as [EB|NB].
  { exists []. split; auto. rewrite EB. split; [simpl; lia|]. intros. lia. }
  cbn [orb]. unfold transpose_csr. rewrite transpose_cs_ok' by auto. cbn [bind].
  assert (A3 : alloc_ok (csr_nrows (flipped A) * csr_ncols (flipped A))) by (rewrite M1, M2, Nat.mul_comm; auto).
  destruct (H1 (flipped A) CF A3) as (o & -> & LO & HO). cbn [bind].
  destruct (transpose_dense_ok o (csr_nrows (flipped A)) (csr_ncols (flipped A)) A3 LO) as (out & -> & L & N).
  exists out. split; auto. rewrite L, M1, M2. split; [apply Nat.mul_comm|]. intros i j Hi Hj.
  specialize (N j i). rewrite M1, M2 in N. rewrite N by auto. rewrite <- M2 at 1. apply HO; rewrite ?M1, ?M2; auto.
Qed.
End Cum.
