(** Proofs about the individual N-dimensional kernels. *)
Require Import List ZArith Bool Lia Permutation Sorted Arith.
Require Import Verif.Res Verif.Values Verif.Spec Verif.Mem Verif.Lists Verif.NdLib Verif.PConvert Verif.MConvert Verif.MScalar Verif.MHash Verif.PHash Verif.MNd Verif.PNd.
Import ListNotations.
Local Open Scope Z_scope.

Section Kernels.
Context {F : Fl}.
Implicit Types (A B C : Nd F).

Lemma seq_axes : forall n, Forall (fun d => (d < n)%nat) (seq 0 n).
Proof. intros. apply Forall_forall. intros d I. apply in_seq in I. lia. Qed.

Definition on_vals (g : F -> F) (l : list (list Z * F)) : list (list Z * F) := map (fun e => (fst e, g (snd e))) l.

Lemma at_key_on_vals : forall g k l, at_key k (on_vals g l) = map g (at_key k l).
Proof.
  intros g k l. induction l as [|[k' v] l IH]; auto.
  cbn [on_vals map fst snd]. rewrite !at_key_cons. fold (on_vals g l). rewrite IH. destruct (list_eq_dec Z.eq_dec k' k); auto.
Qed.
Lemma on_vals_shape : forall g sh l, Forall (fun e => in_shape sh (fst e)) l -> Forall (fun e => in_shape sh (fst e)) (on_vals g l).
Proof. intros. unfold on_vals. rewrite Forall_map. exact H. Qed.

Lemma entry_ops_all : forall A ss f, nd_ok A -> ss = sfx (nd_shape A) -> cells (nd_shape A) <= usize_max ->
  entry_ops A (seq 0 (length (nd_shape A))) ss f = Ok (map (lin_of (nd_shape A)) (on_vals f (nd_entries A))).
Proof.
  intros A ss f OK -> HC. pose proof (entry_ops_ok A (seq 0 (length (nd_shape A))) f OK (seq_axes _)) as E.
  rewrite select_all in E by auto. rewrite E by auto. f_equal. unfold on_vals. rewrite map_map.
  apply map_ext_in. intros e I. unfold lin_of. cbn [fst snd]. f_equal. f_equal.
  pose proof (nd_entries_ok A OK) as FA. rewrite Forall_forall in FA. apply FA in I. apply select_all. apply in_shape_length. auto.
Qed.

Lemma shape_eqb_eq : forall s t, shape_eqb s t = true <-> s = t.
Proof. intros. unfold shape_eqb. destruct (list_eq_dec Z.eq_dec s t); split; auto; discriminate. Qed.

Lemma addsub_ok : forall g srt A B, is_sorter pair_le srt -> nd_ok A -> nd_ok B -> nd_shape A = nd_shape B -> shape_fits (nd_shape A) ->
  exists C, addsub_coond g srt A B = Ok C /\ nd_ok C /\ nd_shape C = nd_shape A /\ nd_sorted C /\
    forall k, in_shape (nd_shape A) k -> nd_at C k = filter nonzero (left_sum (nd_at A k ++ map g (nd_at B k))).
Proof.
  intros g srt A B HS OA OB ES SF. unfold addsub_coond. rewrite (proj2 (shape_eqb_eq _ _) ES).
  pose proof (shape_fits_cells _ SF) as HC. rewrite strides_ne_ok by (auto; apply (nd_ndim _ OA)). cbn [bind].
  unfold all_axes. rewrite (entry_ops_all A) by auto. cbn [bind].
  assert (EB : entry_ops B (seq 0 (length (nd_shape A))) (sfx (nd_shape A)) g = Ok (map (lin_of (nd_shape A)) (on_vals g (nd_entries B)))).
  { rewrite ES in *. apply entry_ops_all; auto. }
  rewrite EB. cbn [bind]. rewrite <- map_app.
  destruct (pipeline_ok srt nonzero (nnzZ A + nnzZ B) (nd_shape A) (on_vals (fun v => v) (nd_entries A) ++ on_vals g (nd_entries B)) HS (nd_ndim _ OA) HC)
    as (m & EA & C & EE & OC & SC & NS & AT).
  { apply Forall_app. split; apply on_vals_shape; [|rewrite ES]; apply nd_entries_ok; auto. }
  rewrite EA. cbn [bind]. exists C. split; [exact EE|]. split; auto. split; auto. split; auto.
  intros k IK. rewrite AT by auto. rewrite at_key_app, !at_key_on_vals, map_id. auto.
Qed.

Lemma addsub_shape : forall g srt A B, nd_shape A <> nd_shape B -> addsub_coond g srt A B = Panic.
Proof.
  intros. unfold addsub_coond. destruct (shape_eqb (nd_shape A) (nd_shape B)) eqn:E; auto.
  apply shape_eqb_eq in E. contradiction.
Qed.

(** ** Intersection *)
Lemma at_index_below : forall k (l : list (Z * F)), Forall (fun e => k < fst e) l -> at_index k l = [].
Proof.
  intros. apply at_index_nil_iff. intros I. apply in_map_iff in I. destruct I as (e & E & IE).
  rewrite Forall_forall in H. apply H in IE. lia.
Qed.

Definition mul_opt (a b : list F) : list F := match a, b with x :: _, y :: _ => [fmul x y] | _, _ => [] end.

Lemma isect2_ok : forall fuel pa pb, (length pa + length pb < fuel)%nat -> StronglySorted key_lt pa -> StronglySorted key_lt pb ->
  exists r, isect2 fuel pa pb = Ok r /\ StronglySorted key_lt r /\
    (forall p, In p r -> In (fst p) (map fst pa) /\ In (fst p) (map fst pb)) /\
    forall k, at_index k r = filter nonzero (mul_opt (at_index k pa) (at_index k pb)).
Proof.
  induction fuel; intros pa pb L SA SB; [lia|].
  destruct pa as [|[ka va] pa].
  { exists []. simpl. split; auto. split; [constructor|]. split; [intros p []|]. auto. }
  destruct pb as [|[kb vb] pb].
  { exists []. simpl. split; auto. split; [constructor|]. split; [intros p []|].
    intros k. unfold mul_opt. change (at_index k (@nil (Z*F))) with (@nil F). destruct (at_index k ((ka, va) :: pa)); auto. }
  pose proof SA as SA0. pose proof SB as SB0. inv SA. inv SB. cbn [length] in L. cbn [isect2].
  destruct (Z.eqb_spec ka kb) as [EQ|NQ].
  - subst kb. destruct (IHfuel pa pb) as (r & E & SR & IN & AT); auto; [lia|]. rewrite E. cbn [bind].
    assert (FR : Forall (fun e => ka < fst e) r).
    { apply Forall_forall. intros p I. apply IN in I. destruct I as [I _]. apply in_map_iff in I. destruct I as (q & EQ & IQ).
      rewrite Forall_forall in H2. apply H2 in IQ. unfold key_lt in IQ. cbn [fst] in IQ. lia. }
    eexists. split; [reflexivity|]. split; [|split].
    + destruct (nonzero (fmul va vb)); auto. constructor; auto.
    + intros p I. simpl. destruct (nonzero (fmul va vb)); [destruct I as [<-|I]|]; auto; apply IN in I; tauto.
    + intros k. rewrite !at_index_cons'. destruct (Z.eqb_spec ka k) as [EK|NK].
      * subst k. cbn [mul_opt filter]. destruct (nonzero (fmul va vb)).
        -- rewrite at_index_cons', Z.eqb_refl. f_equal. apply at_index_below. auto.
        -- apply at_index_below. auto.
      * destruct (nonzero (fmul va vb)); rewrite ?at_index_cons'; auto. destruct (Z.eqb_spec ka k); [contradiction|auto].
  - destruct (Z.ltb_spec ka kb) as [LT|GE].
    + destruct (IHfuel pa ((kb, vb) :: pb)) as (r & E & SR & IN & AT); auto; [simpl; lia|].
      exists r. split; auto. split; auto. split.
      * intros p I. apply IN in I. simpl in *. tauto.
      * intros k. rewrite AT. rewrite (at_index_cons' k ka va). destruct (Z.eqb_spec ka k); auto. subst k.
        rewrite (at_index_below ka ((kb, vb) :: pb)).
        -- unfold mul_opt. destruct (at_index ka pa); auto.
        -- constructor; auto. eapply Forall_impl; [|exact H4]. unfold key_lt. cbn [fst]. intros; lia.
    + destruct (IHfuel ((ka, va) :: pa) pb) as (r & E & SR & IN & AT); auto; [simpl; lia|].
      exists r. split; auto. split; auto. split.
      * intros p I. apply IN in I. simpl in *. tauto.
      * intros k. rewrite AT. rewrite (at_index_cons' k kb vb). destruct (Z.eqb_spec kb k); auto. subst k.
        rewrite (at_index_below kb ((ka, va) :: pa)); auto.
        constructor; [cbn [fst]; lia|]. eapply Forall_impl; [|exact H2]. unfold key_lt. cbn [fst]. intros; lia.
Qed.

Lemma sorted_tally : forall srt m (ops : list (Z * F)), is_sorter pair_le srt -> tally ops (pairs m) ->
  StronglySorted key_lt (sorted_pairs srt m) /\ (forall k, at_index k (sorted_pairs srt m) = left_sum (at_index k ops)) /\
  (forall k, In k (map fst (sorted_pairs srt m)) <-> In k (map fst ops)).
Proof.
  intros srt m ops HS TA. pose proof TA as [ND AT]. destruct (HS (pairs m)) as [PM SS].
  assert (ND' : NoDup (map fst (srt (pairs m)))) by (eapply Permutation_NoDup; [apply Permutation_map; exact PM|auto]).
  split; [apply sorted_strict; auto|]. split.
  - intros k. rewrite <- AT. unfold sorted_pairs. apply at_index_sorter; auto.
  - intros k. rewrite <- (tally_keys ops (pairs m)) by auto. unfold sorted_pairs.
    split; apply Permutation_in; apply Permutation_map; [symmetry|]; auto.
Qed.

Lemma hadamard_coond_ok : forall srt A B, is_sorter pair_le srt -> nd_ok A -> nd_ok B -> nd_shape A = nd_shape B -> shape_fits (nd_shape A) ->
  exists C, hadamard_coond srt A B = Ok C /\ nd_ok C /\ nd_shape C = nd_shape A /\ nd_sorted C /\
    forall k, in_shape (nd_shape A) k -> nd_at C k = filter nonzero (mul_opt (left_sum (nd_at A k)) (left_sum (nd_at B k))).
Proof.
  intros srt A B HS OA OB ES SF. unfold hadamard_coond. rewrite (proj2 (shape_eqb_eq _ _) ES).
  pose proof (shape_fits_cells _ SF) as HC. rewrite strides_ne_ok by (auto; apply (nd_ndim _ OA)). cbn [bind].
  unfold all_axes. rewrite (entry_ops_all A) by auto. cbn [bind].
  assert (EB : entry_ops B (seq 0 (length (nd_shape A))) (sfx (nd_shape A)) (fun v => v) = Ok (map (lin_of (nd_shape A)) (on_vals (fun v => v) (nd_entries B)))).
  { rewrite ES in *. apply entry_ops_all; auto. }
  assert (FAs : forall X, nd_ok X -> nd_shape X = nd_shape A -> Forall (fun e => in_shape (nd_shape A) (fst e)) (on_vals (fun v => v) (nd_entries X))).
  { intros X OX EX. apply on_vals_shape. rewrite <- EX. apply nd_entries_ok; auto. }
  assert (FK : forall l : list (list Z * F), Forall (fun e => in_shape (nd_shape A) (fst e)) l -> Forall (fun e => fst e <> usize_max) (map (lin_of (nd_shape A)) l)).
  { intros l FA. rewrite Forall_map. eapply Forall_impl; [|exact FA]. intros e H. cbn [lin_of fst]. pose proof (position_bounds _ _ H). lia. }
  destruct (accumulate_ok (nnzZ A) _ (FK _ (FAs A OA eq_refl))) as (ma & EMA & _ & TA). rewrite EMA. cbn [bind].
  rewrite EB. cbn [bind].
  destruct (accumulate_ok (nnzZ B) _ (FK _ (FAs B OB (eq_sym ES)))) as (mb & EMB & _ & TB). rewrite EMB. cbn [bind].
  destruct (sorted_tally srt ma _ HS TA) as (SA & ATA & KA). destruct (sorted_tally srt mb _ HS TB) as (SB & ATB & KB).
  destruct (isect2_ok (S (length (sorted_pairs srt ma) + length (sorted_pairs srt mb))) (sorted_pairs srt ma) (sorted_pairs srt mb) ltac:(lia) SA SB)
    as (r & ER & SR & IN & AT).
  rewrite ER. cbn [bind].
  destruct (emit_ok (nd_shape A) r (nd_ndim _ OA)) as (O & EE & EM & FO & OK & EN & SO); auto.
  { apply Forall_forall. intros p I. apply IN in I. destruct I as [I _]. apply KA in I.
    apply in_map_iff in I. destruct I as (q & EQ & IQ). apply in_map_iff in IQ. destruct IQ as (e & Ee & IE).
    pose proof (FAs A OA eq_refl) as FA. rewrite Forall_forall in FA. exists (fst e). split; [apply FA; auto|].
    rewrite <- EQ, <- Ee. auto. }
  exists (nd_of (nd_shape A) O). split; auto. split; auto. split; auto. split; auto.
  intros k IK. unfold nd_at. rewrite EN. rewrite <- (at_index_lin (nd_shape A) O k) by auto. rewrite EM, AT, ATA, ATB.
  rewrite !at_index_lin by auto. rewrite !at_key_on_vals, !map_id. auto.
Qed.

Lemma hadamard_coond_shape : forall srt A B, nd_shape A <> nd_shape B -> hadamard_coond srt A B = Panic.
Proof.
  intros. unfold hadamard_coond. destruct (shape_eqb (nd_shape A) (nd_shape B)) eqn:E; auto.
  apply shape_eqb_eq in E. contradiction.
Qed.

(** ** Permuting dimensions *)
Lemma perm_axes_ok : forall n p, Permutation p (seq 0 n) <-> axes_ok n p /\ length p = n.
Proof.
  intros n p. split.
  - intros P. split; [|rewrite (Permutation_length P), seq_length; auto]. split.
    + eapply Permutation_NoDup; [symmetry; exact P|apply seq_NoDup].
    + eapply Permutation_Forall; [symmetry; exact P|apply seq_axes].
  - intros [[ND FA] L]. apply NoDup_Permutation_bis; auto.
    + rewrite seq_length. lia.
    + intros d I. rewrite Forall_forall in FA. apply FA in I. apply in_seq. lia.
Qed.

Lemma permute_ok : forall A p, nd_ok A -> Permutation p (seq 0 (length (nd_shape A))) ->
  permute_axes_coond A p = Ok (nd_of (select p (nd_shape A)) (map (fun e => (select p (fst e), snd e)) (nd_entries A))).
Proof.
  intros A p OK P. pose proof (proj1 (perm_axes_ok _ _) P) as [AX L]. unfold permute_axes_coond.
  rewrite L, Nat.eqb_refl. destruct (mark_axes_ok _ _ AX) as (seen & -> & _). cbn [bind].
  rewrite select_shape by apply AX. cbn [bind].
  unfold nd_of. rewrite !map_map. cbn [fst snd].
  replace (map (fun x => snd x) (nd_entries A)) with (nd_dat A) by (symmetry; apply nd_entries_vals).
  destruct (Nat.eqb_spec (length (nd_dat A)) 0) as [Z0|NZ].
  - pose proof (nd_entries_length A) as EL. rewrite Z0 in EL. destruct (nd_entries A); [|discriminate].
    destruct (nd_dat A); [|discriminate]. auto.
  - rewrite (mapM_seq_entries A _ (fun e => select p (fst e)) OK).
    + auto.
    + intros k key v EK _ _. apply (coords_ok A p k key OK); auto. apply AX.
Qed.

Lemma permute_bad : forall A p, ~ Permutation p (seq 0 (length (nd_shape A))) -> permute_axes_coond A p = Panic.
Proof.
  intros A p N. unfold permute_axes_coond. destruct (Nat.eqb_spec (length p) (length (nd_shape A))); auto.
  rewrite mark_axes_bad; auto. intros AX. apply N. apply perm_axes_ok. auto.
Qed.

Lemma permute_entries : forall A p, nd_ok A -> Permutation p (seq 0 (length (nd_shape A))) ->
  let C := nd_of (select p (nd_shape A)) (map (fun e => (select p (fst e), snd e)) (nd_entries A)) in
  nd_ok C /\ nd_entries C = map (fun e => (select p (fst e), snd e)) (nd_entries A).
Proof.
  intros A p OK P C. pose proof (proj1 (perm_axes_ok _ _) P) as [AX L]. split.
  - apply nd_of_ok.
    + pose proof (nd_ndim _ OK). destruct (nd_shape A); [congruence|]. destruct p; simpl in *; [lia|discriminate].
    + rewrite Forall_map. eapply Forall_impl; [|apply nd_entries_ok; exact OK]. intros e H. apply select_in_shape; auto. apply AX.
  - apply nd_of_entries. rewrite Forall_map. apply Forall_forall. intros e _. unfold select. cbn [fst]. rewrite !map_length. auto.
Qed.

Lemma select_select : forall p q k, Forall (fun d => (d < length p)%nat) q -> select q (select p k) = select (map (fun d => nth d p 0%nat) q) k.
Proof.
  intros p q k H. unfold select. rewrite map_map. apply map_ext_in. intros d I. rewrite Forall_forall in H. apply H in I.
  rewrite nth_indep with (d' := nth 0 k 0) by (rewrite map_length; auto). rewrite (map_nth (fun d => nth d k 0)). auto.
Qed.

(** ** Reshape *)
Lemma concat_key_writes : forall {X} n (ls : list (list X)) s, Forall (fun l => length l = n) ls ->
  concat (map (fun kl => key_writes n (fst kl) (snd kl)) (combine (seq s (length ls)) ls)) = combine (seq (s * n) (length ls * n)) (concat ls).
Proof.
  intros X n ls. induction ls as [|l ls IH]; intros s FA; auto. inv FA.
  cbn [length seq combine map concat fst snd]. rewrite IH by auto. unfold key_writes.
  cbn [Nat.mul]. rewrite seq_app, combine_app' by (rewrite seq_length; auto). rewrite (Nat.add_comm (s * length l) (length l)). auto.
Qed.

Lemma reshape_ok : forall sch A sh, is_schedule sch -> nd_ok A -> sh <> [] -> shape_fits (nd_shape A) -> shape_fits sh ->
  Forall (fun n => n <= i64_max + 1) sh -> cells (nd_shape A) = cells sh ->
  exists C, reshape_coond sch A sh = Ok C /\ nd_ok C /\ nd_shape C = sh /\ nd_dat C = nd_dat A /\
    Forall2 (fun e e' => snd e = snd e' /\ position (nd_shape A) (fst e) = position sh (fst e')) (nd_entries A) (nd_entries C).
Proof.
  intros sch A sh HS OK N FO FN FB EC. unfold reshape_coond.
  rewrite product_checked_ok by auto. cbn [bind]. rewrite product_checked_ok by auto. cbn [bind].
  rewrite EC, Z.eqb_refl.
  destruct (Nat.eqb_spec (length (nd_dat A)) 0) as [Z0|NZ].
  - pose proof (nd_entries_length A) as EL. rewrite Z0 in EL. destruct (nd_entries A); [|discriminate].
    destruct (nd_dat A); [|discriminate]. eexists. split; [reflexivity|].
    split; [|split; auto; split; auto; constructor]. apply (nd_of_ok sh (@nil (list Z * F))); auto.
  - rewrite strides_rm_ok by auto. cbn [bind]. rewrite strides_rm_ok by auto. cbn [bind].
    pose proof (shape_fits_cells _ FO) as HC.
    set (h := fun e : list Z * F => delinearize0 (sfx sh) (position (nd_shape A) (fst e))).
    assert (HH : forall e, In e (nd_entries A) -> in_shape sh (h e) /\ position sh (h e) = position (nd_shape A) (fst e)).
    { intros e I. pose proof (nd_entries_ok A OK) as FA. rewrite Forall_forall in FA. apply FA in I.
      pose proof (position_bounds _ _ I) as PB. rewrite EC in PB.
      destruct (position_surj sh (position (nd_shape A) (fst e)) FB (proj1 FN) PB) as (k & IK & EK).
      unfold h. rewrite <- EK. rewrite delinearize0_ok by auto. auto. }
    assert (EM : mapM (fun k =>
        let! ks := coords_unchecked A (all_axes A) k in
        let! lin := linearize (sfx (nd_shape A)) ks in
        Ok (key_writes (length sh) k (delinearize0 (sfx sh) lin))) (seq 0 (length (nd_dat A)))
      = Ok (map (fun ke => key_writes (length sh) (fst ke) (h (snd ke))) (combine (seq 0 (length (nd_entries A))) (nd_entries A)))).
    { rewrite <- nd_entries_length.
      assert (EL : length (combine (seq 0 (length (nd_entries A))) (nd_entries A)) = length (nd_entries A)) by (rewrite combine_length, seq_length; lia).
      rewrite <- EL at 1. apply mapM_seq. intros k [k' [key v]] E.
      assert (E1 : nth_error (seq 0 (length (nd_entries A))) k = Some k') by (rewrite <- (map_fst_combine (seq 0 (length (nd_entries A))) (nd_entries A)) by (rewrite seq_length; auto); apply map_nth_error with (f := fst) in E; exact E).
      assert (E2 : nth_error (nd_entries A) k = Some (key, v)) by (rewrite <- (map_snd_combine (seq 0 (length (nd_entries A))) (nd_entries A)) by (rewrite seq_length; auto); apply map_nth_error with (f := snd) in E; exact E).
      assert (k' = k). { pose proof (nth_error_lt _ _ _ E2) as LK. apply nth_error_nth with (d := 0%nat) in E1. rewrite seq_nth in E1 by auto. lia. }
      subst k'. cbn [fst snd]. assert (I : In (key, v) (nd_entries A)) by (eapply nth_error_In; eauto).
      assert (EK : nth_error (nd_keys A) k = Some key) by (rewrite <- nd_entries_keys; apply map_nth_error with (f := fst) in E2; exact E2).
      pose proof (nd_entries_ok A OK) as FA. rewrite Forall_forall in FA. apply FA in I. cbn [fst] in I.
      destruct (coords_ok A (all_axes A) k key OK (seq_axes _) EK) as [_ ->]. cbn [bind].
      unfold all_axes. rewrite select_all by (apply in_shape_length; auto). rewrite linearize_ok by auto. reflexivity. }
    rewrite EM. cbn [bind].
    set (L := map h (nd_entries A)).
    assert (FL : Forall (fun l => length l = length sh) L).
    { unfold L. rewrite Forall_map. apply Forall_forall. intros e I. apply in_shape_length. apply HH. auto. }
    assert (EW : concat (map (fun ke => key_writes (length sh) (fst ke) (h (snd ke))) (combine (seq 0 (length (nd_entries A))) (nd_entries A)))
             = combine (seq 0 (length (concat L))) (concat L)).
    { assert (LL : length (concat L) = (length L * length sh)%nat).
      { clear -FL. induction FL; auto. cbn [concat length]. rewrite app_length, IHFL. lia. }
      rewrite LL. pose proof (concat_key_writes (length sh) L 0 FL) as CW. rewrite Nat.mul_0_l in CW. rewrite <- CW.
      unfold L. rewrite map_length. f_equal. generalize 0%nat. clear. induction (nd_entries A) as [|e l IH]; intros s; auto.
      cbn [length seq map combine]. f_equal. apply IH. }
    rewrite EW.
    assert (EA : assemble (length (nd_dat A) * length sh) (sch (combine (seq 0 (length (concat L))) (concat L))) = Ok (concat L)).
    { replace (length (nd_dat A) * length sh)%nat with (length (concat L)).
      - apply assemble_perm. apply HS.
      - rewrite <- nd_entries_length, <- (map_length h). fold L. clear -FL. induction FL; auto. cbn [concat length]. rewrite app_length, IHFL. lia. }
    rewrite EA. cbn [bind].
    assert (EN : mkNd sh (concat L) (nd_dat A) = nd_of sh (map (fun e => (h e, snd e)) (nd_entries A))).
    { unfold nd_of. rewrite !map_map. cbn [fst snd]. f_equal. symmetry. apply nd_entries_vals. }
    rewrite EN. eexists. split; [reflexivity|].
    split; [|split; [reflexivity|split]].
    + apply nd_of_ok; auto. rewrite Forall_map. apply Forall_forall. intros e I. apply HH. auto.
    + cbn [nd_of nd_dat]. rewrite map_map. apply nd_entries_vals.
    + rewrite nd_of_entries.
      * assert (HH' : Forall (fun e => position sh (h e) = position (nd_shape A) (fst e)) (nd_entries A)).
        { apply Forall_forall. intros e I. apply HH. auto. }
        clear -HH'. induction HH'; constructor; auto.
      * rewrite Forall_map. apply Forall_forall. intros e I. apply in_shape_length. apply HH. auto.
Qed.

Lemma reshape_bad : forall sch A sh, cells (nd_shape A) <> cells sh -> reshape_coond sch A sh = Panic.
Proof.
  intros sch A sh N. unfold reshape_coond, product_checked.
  destruct (product_checked_total (nd_shape A) 1) as (r1 & E1 & [H1|[p1 H1]]); rewrite E1; subst r1; rewrite H1; auto.
  destruct (product_checked_total sh 1) as (r2 & E2 & [H2|[p2 H2]]); rewrite E2; subst r2; rewrite H2; auto.
  cbn [bind]. apply product_checked_inv in H1, H2. destruct (Z.eqb_spec p1 p2); auto. congruence.
Qed.

End Kernels.
