(** Proofs about unfolding, axis reductions and contraction with a vector. *)
Require Import List ZArith Bool Lia Permutation Sorted Arith.
Require Import Verif.Res Verif.Values Verif.Spec Verif.Mem Verif.Lists Verif.NdLib Verif.PConvert Verif.MConvert Verif.MScalar Verif.PScalar Verif.MHash Verif.PHash Verif.MNd Verif.PNd Verif.PNd2.
Import ListNotations.
Local Open Scope Z_scope.

(** ** Selections of axes *)
Lemma NoDup_app_iff' : forall {X} (a b : list X), NoDup a -> NoDup b -> (forall x, In x a -> In x b -> False) -> NoDup (a ++ b).
Proof.
  induction 1 as [|x a N ND IH]; intros NB D; auto. cbn [app]. constructor.
  - rewrite in_app_iff. intros [I|I]; [contradiction|]. apply (D x); simpl; auto.
  - apply IH; auto. intros y I1 I2. apply (D y); simpl; auto.
Qed.
Lemma others_perm : forall n axes, axes_ok n axes -> Permutation (axes ++ others n axes) (seq 0 n).
Proof.
  intros n axes [ND FA]. apply NoDup_Permutation.
  - apply NoDup_app_iff'; auto.
    + apply NoDup_filter, seq_NoDup.
    + intros d I1 I2. apply filter_In in I2. destruct I2 as [_ I2]. apply negb_true_iff in I2.
      assert (existsb (Nat.eqb d) axes = true) by (apply existsb_exists; exists d; split; auto; apply Nat.eqb_refl). congruence.
  - apply seq_NoDup.
  - intros d. rewrite in_app_iff. unfold other_axes. rewrite filter_In, in_seq. rewrite Forall_forall in FA. split.
    + intros [I|[I _]]; [apply FA in I|]; lia.
    + intros I. destruct (existsb (Nat.eqb d) axes) eqn:E.
      * left. apply existsb_exists in E. destruct E as (d' & I' & E). apply Nat.eqb_eq in E. subst. auto.
      * right. split; auto.
Qed.

Lemma cells_app : forall a b, cells (a ++ b) = cells a * cells b.
Proof.
  induction a as [|n a IH]; intros b; [cbn [app]; change (cells []) with 1; lia|].
  cbn [app]. change (cells (n :: a ++ b)) with (n * cells (a ++ b)). change (cells (n :: a)) with (n * cells a). rewrite IH. lia.
Qed.
Lemma cells_perm : forall a b, Permutation a b -> cells a = cells b.
Proof.
  induction 1; auto; try congruence.
  - change (cells (x :: l)) with (x * cells l). change (cells (x :: l')) with (x * cells l'). congruence.
  - change (cells (y :: x :: l)) with (y * (x * cells l)). change (cells (x :: y :: l)) with (x * (y * cells l)). lia.
Qed.
Lemma select_app : forall a b k, select (a ++ b) k = select a k ++ select b k.
Proof. intros. apply map_app. Qed.

Lemma select_perm_shape : forall sh axes, axes_ok (length sh) axes ->
  Permutation (select axes sh ++ select (others (length sh) axes) sh) sh.
Proof.
  intros sh axes AX. rewrite <- select_app. rewrite <- (select_all sh (length sh) eq_refl) at 3.
  apply Permutation_map. apply others_perm. auto.
Qed.

Lemma shape_fits_select : forall sh axes, axes_ok (length sh) axes -> shape_fits sh -> shape_fits (select axes sh).
Proof.
  intros sh axes AX [H1 H2]. pose proof (select_perm_shape sh axes AX) as P. 
  assert (H3 : Forall (fun n => 0 <= n) (select axes sh ++ select (others (length sh) axes) sh)).
  { eapply Permutation_Forall; [symmetry; exact P|auto]. }
  apply Forall_app in H3. destruct H3 as [H3 H4]. split; auto.
  rewrite <- (cells_perm _ _ (Permutation_map (Z.max 1) P)), map_app, cells_app in H2.
  pose proof (max1_cells _ H3) as [A1 _]. pose proof (max1_cells _ H4) as [A2 _]. nia.
Qed.

Lemma cells_select : forall sh axes, axes_ok (length sh) axes ->
  cells (select axes sh) * cells (select (others (length sh) axes) sh) = cells sh.
Proof. intros. rewrite <- cells_app. apply cells_perm. apply select_perm_shape. auto. Qed.

Lemma select_eq_nth : forall axes k k' d, select axes k = select axes k' -> In d axes -> nth d k 0 = nth d k' 0.
Proof.
  unfold select. induction axes as [|a axes IH]; intros k k' d E I; [destruct I|]. cbn [map] in E. inv E.
  destruct I as [<-|I]; auto.
Qed.

(** The coordinates along the chosen axes and along the others determine the tuple. *)
Lemma select_inj : forall n axes k k', axes_ok n axes -> length k = n -> length k' = n ->
  select axes k = select axes k' -> select (others n axes) k = select (others n axes) k' -> k = k'.
Proof.
  intros n axes k k' AX L L' E1 E2. apply nth_ext with (d := 0) (d' := 0); [congruence|].
  intros d Hd. rewrite L in Hd.
  assert (I : In d (axes ++ others n axes)).
  { eapply Permutation_in; [symmetry; apply others_perm; auto|]. apply in_seq. lia. }
  apply in_app_iff in I. destruct I as [I|I]; [apply (select_eq_nth axes)|apply (select_eq_nth (others n axes))]; auto.
Qed.

Section Unfold.
Context {F : Fl}.
Implicit Types (A B C : Nd F).

(** ** Unfolding *)
Definition unfold_entry (sh : list Z) (axes : list nat) (e : list Z * F) : (Z * Z) * F :=
  ((position (select axes sh) (select axes (fst e)),
    position (select (others (length sh) axes) sh) (select (others (length sh) axes) (fst e))), snd e).

Lemma coo_of_entries : forall m n (l : list ((Z * Z) * F)),
  coo_entries (mkCoo m n (map fst (map fst l)) (map snd (map fst l)) (map snd l)) = l.
Proof.
  intros. unfold coo_entries. cbn [coo_row coo_col coo_data]. rewrite combine_split_eq. apply combine_split_eq.
Qed.

Lemma coond_axes_to_coo_ok : forall sch A axes, is_schedule sch -> nd_ok A -> axes_ok (length (nd_shape A)) axes ->
  shape_fits (nd_shape A) ->
  cells (select axes (nd_shape A)) <= i64_max + 1 -> cells (select (others (length (nd_shape A)) axes) (nd_shape A)) <= i64_max + 1 ->
  exists C : Coo F, coond_axes_to_coo sch A axes = Ok C /\ coo_ok C /\
    Z.of_nat (coo_nrows C) = cells (select axes (nd_shape A)) /\
    Z.of_nat (coo_ncols C) = cells (select (others (length (nd_shape A)) axes) (nd_shape A)) /\
    coo_entries C = map (unfold_entry (nd_shape A) axes) (nd_entries A).
Proof.
  intros sch A axes HS OK AX SF HR HC. unfold coond_axes_to_coo.
  destruct (mark_axes_ok _ _ AX) as (used & -> & EU). cbn [bind]. rewrite EU.
  pose proof (others_ok (length (nd_shape A)) axes) as OX.
  set (cols := others (length (nd_shape A)) axes) in *.
  rewrite select_shape by apply AX. cbn [bind]. rewrite select_shape by apply OX. cbn [bind].
  pose proof (shape_fits_select _ _ AX SF) as FR. pose proof (shape_fits_select _ _ OX SF) as FC.
  set (rsh := select axes (nd_shape A)) in *. set (csh := select cols (nd_shape A)) in *.
  rewrite (product_checked_ok rsh FR), (product_checked_ok csh FC). cbn [bind].
  rewrite (strides_rm_ok rsh FR), (strides_rm_ok csh FC). cbn [bind].
  pose proof (shape_fits_cells _ FR) as CR. pose proof (shape_fits_cells _ FC) as CC.
  set (E := map (unfold_entry (nd_shape A) axes) (nd_entries A)).
  assert (FE : Forall (fun e => (0 <= fst (fst e) < cells rsh) /\ 0 <= snd (fst e) < cells csh) E).
  { unfold E. rewrite Forall_map. eapply Forall_impl; [|apply nd_entries_ok; exact OK]. intros e H. cbn [unfold_entry fst snd].
    split; apply position_bounds; apply select_in_shape; auto; [apply AX|apply OX]. }
  assert (KR : Z.of_nat (Z.to_nat (cells rsh)) = cells rsh) by (apply Z2Nat.id; apply cells_nonneg; apply FR).
  assert (KC : Z.of_nat (Z.to_nat (cells csh)) = cells csh) by (apply Z2Nat.id; apply cells_nonneg; apply FC).
  destruct (Nat.eqb_spec (length (nd_dat A)) 0) as [Z0|NZ].
  - pose proof (nd_entries_length A) as EL. rewrite Z0 in EL. unfold E. destruct (nd_entries A); [|discriminate].
    eexists. split; [reflexivity|]. split; [|auto].
    constructor; cbn; auto; intros [|p] i Hp; discriminate.
  - assert (EM : mapM (fun k =>
        let! r := unfold_one A axes (sfx rsh) k in
        let! c := unfold_one A cols (sfx csh) k in
        Ok (r, c)) (seq 0 (length (nd_dat A))) = Ok (map fst E)).
    { unfold E. rewrite map_map. apply mapM_seq_entries; auto. intros k key v EK EV IK.
      unfold unfold_one. destruct (coords_ok A axes k key OK (proj2 AX) EK) as [_ ->]. cbn [bind].
      destruct (coords_ok A cols k key OK (proj2 OX) EK) as [_ ->]. cbn [bind].
      pose proof (select_in_shape _ axes key (proj2 AX) IK) as IR. pose proof (select_in_shape _ cols key (proj2 OX) IK) as IC.
      fold rsh in IR. fold csh in IC.
      rewrite (linearize_ok rsh) by auto. cbn [bind]. rewrite (linearize_ok csh) by auto. cbn [bind].
      pose proof (position_bounds _ _ IR). pose proof (position_bounds _ _ IC).
      rewrite !as_i64_id by lia. reflexivity. }
    rewrite EM. cbn [bind].
    assert (EL : length (map fst E) = length (nd_dat A)) by (unfold E; rewrite !map_length; apply nd_entries_length).
    assert (EA : assemble (length (nd_dat A)) (sch (combine (seq 0 (length (nd_dat A))) (map fst E))) = Ok (map fst E)).
    { rewrite <- EL. apply assemble_perm. apply HS. }
    rewrite EA.
    replace (if Z.of_nat (length (nd_dat A)) <? small_nnz_limit then Ok (map fst E) else Ok (map fst E)) with (Ok (map fst E)) by (destruct (_ <? _); auto).
    cbn [bind].
    assert (ED : nd_dat A = map snd E) by (unfold E; rewrite map_map; cbn [unfold_entry snd]; symmetry; apply nd_entries_vals).
    rewrite ED. eexists. split; [reflexivity|]. split; [|cbn [coo_nrows coo_ncols]; rewrite coo_of_entries; auto].
    constructor; cbn [coo_row coo_col coo_data coo_nrows coo_ncols]; rewrite ?map_length; auto.
    + intros p i Hp. apply nth_error_In in Hp. rewrite map_map in Hp. apply in_map_iff in Hp. destruct Hp as (e & <- & I).
      rewrite Forall_forall in FE. apply FE in I. rewrite KR. lia.
    + intros p i Hp. apply nth_error_In in Hp. rewrite map_map in Hp. apply in_map_iff in Hp. destruct Hp as (e & <- & I).
      rewrite Forall_forall in FE. apply FE in I. rewrite KC. lia.
Qed.

Lemma coond_axes_to_coo_bad : forall sch A axes, ~ axes_ok (length (nd_shape A)) axes -> coond_axes_to_coo sch A axes = Panic.
Proof. intros. unfold coond_axes_to_coo. rewrite mark_axes_bad by auto. auto. Qed.

Lemma at_cell_unfold : forall sh axes E k, axes_ok (length sh) axes -> Forall (fun e => in_shape sh (fst e)) E -> in_shape sh k ->
  at_cell (position (select axes sh) (select axes k))
          (position (select (others (length sh) axes) sh) (select (others (length sh) axes) k)) (map (unfold_entry sh axes) E)
  = at_key k E.
Proof.
  intros sh axes E k AX FA IK. pose proof (others_ok (length sh) axes) as OX.
  induction FA as [|[k' v] E H FA IH]; auto. cbn [map]. rewrite at_key_cons, <- IH. cbn [fst] in H.
  unfold at_cell. cbn [filter unfold_entry fst snd map].
  destruct (list_eq_dec Z.eq_dec k' k) as [->|N].
  - rewrite !Z.eqb_refl. reflexivity.
  - match goal with |- map snd (if ?b then _ else _) = _ => destruct b eqn:EB end; auto.
    exfalso. apply N. apply andb_true_iff in EB. destruct EB as [E1 E2]. apply Z.eqb_eq in E1, E2.
    apply position_inj in E1; [|apply select_in_shape; auto; apply AX|apply select_in_shape; auto; apply AX].
    apply position_inj in E2; [|apply select_in_shape; auto; apply OX|apply select_in_shape; auto; apply OX].
    apply (select_inj (length sh) axes); auto; apply in_shape_length; auto.
Qed.

(** ** Axis reductions *)
Definition proj (axes : list nat) (l : list (list Z * F)) : list (list Z * F) := map (fun e => (select axes (fst e), snd e)) l.
Lemma at_key_proj : forall A axes k, at_key k (proj axes (nd_entries A)) = fiber A axes k.
Proof.
  intros. unfold at_key, proj, fiber, fiber_entries. induction (nd_entries A) as [|e l IH]; auto.
  cbn [map filter fst snd]. destruct (list_eq_dec Z.eq_dec (select axes (fst e)) k); cbn [map snd]; rewrite ?IH; auto.
Qed.
Lemma proj_shape : forall A axes, nd_ok A -> Forall (fun d => (d < length (nd_shape A))%nat) axes ->
  Forall (fun e => in_shape (select axes (nd_shape A)) (fst e)) (proj axes (nd_entries A)).
Proof.
  intros A axes OK FA. unfold proj. rewrite Forall_map. eapply Forall_impl; [|apply nd_entries_ok; exact OK].
  intros e H. apply select_in_shape; auto.
Qed.

Lemma nil_nd_at : forall sh k, nd_at (mkNd sh [] (@nil F)) k = [].
Proof. auto. Qed.

Lemma reduce_sum_ok : forall srt A axes, is_sorter pair_le srt -> nd_ok A -> shape_fits (nd_shape A) ->
  axes_ok (length (nd_shape A)) axes -> axes <> [] -> (length axes < length (nd_shape A))%nat ->
  let remain := others (length (nd_shape A)) axes in
  exists C, reduce_sum_axes_coond srt A axes = Ok C /\ nd_ok C /\ nd_shape C = select remain (nd_shape A) /\ nd_sorted C /\
    forall k, in_shape (nd_shape C) k -> nd_at C k = left_sum (fiber A remain k).
Proof.
  intros srt A axes HS OK SF AX NE LT remain. unfold reduce_sum_axes_coond.
  destruct (Nat.eqb_spec (length axes) 0) as [Z0|_]; [destruct axes; [congruence|discriminate]|]. cbn [negb].
  destruct (mark_axes_ok _ _ AX) as (used & -> & EU). cbn [bind]. rewrite EU. fold remain.
  pose proof (others_ok (length (nd_shape A)) axes) as OX. fold remain in OX.
  assert (LR : (length axes + length remain = length (nd_shape A))%nat).
  { rewrite <- app_length. unfold remain. rewrite (Permutation_length (others_perm _ _ AX)), seq_length. auto. }
  destruct (Nat.eqb_spec (length remain) 0) as [Z0|NR]; [lia|]. cbn [negb].
  rewrite select_shape by apply OX. cbn [bind].
  pose proof (shape_fits_select _ _ OX SF) as FS. set (sh := select remain (nd_shape A)) in *.
  assert (NS : sh <> []). { unfold sh, select. destruct remain; [simpl in NR; congruence|discriminate]. }
  rewrite strides_ne_ok by auto. cbn [bind].
  destruct (Nat.eqb_spec (length (nd_dat A)) 0) as [Z0|NZ].
  - pose proof (nd_entries_length A) as EL. rewrite Z0 in EL.
    eexists. split; [reflexivity|]. split; [apply (nd_of_ok sh (@nil (list Z * F))); auto|]. split; [auto|].
    split; [constructor|]. intros k _. rewrite nil_nd_at. unfold fiber, fiber_entries. destruct (nd_entries A); [auto|discriminate].
  - pose proof (entry_ops_ok A remain (fun v => v) OK (proj2 OX) (shape_fits_cells _ FS)) as EO. fold sh in EO.
    rewrite EO. cbn [bind].
    destruct (pipeline_ok srt (fun _ => true) (nnzZ A) sh (proj remain (nd_entries A)) HS NS (shape_fits_cells _ FS) (proj_shape A remain OK (proj2 OX)))
      as (m & EA & C & EE & OC & SC & NSo & AT).
    assert (EQ : map (fun e : list Z * F => (position sh (select remain (fst e)), snd e)) (nd_entries A) = map (lin_of sh) (proj remain (nd_entries A))).
    { unfold proj. rewrite map_map. auto. }
    rewrite EQ, EA. cbn [bind]. rewrite filter_true in EE. exists C. split; auto. split; auto. split; auto. split; auto.
    intros k IK. rewrite SC in IK. rewrite AT by auto. rewrite filter_true, at_key_proj. auto.
Qed.

Lemma reduce_sum_bad : forall srt A axes,
  ~ (axes_ok (length (nd_shape A)) axes /\ axes <> [] /\ (length axes < length (nd_shape A))%nat) ->
  reduce_sum_axes_coond srt A axes = Panic.
Proof.
  intros srt A axes N. unfold reduce_sum_axes_coond.
  destruct (Nat.eqb_spec (length axes) 0) as [Z0|NZ]; auto. cbn [negb].
  destruct (mark_axes (length (nd_shape A)) axes) as [seen| | |] eqn:EM.
  - assert (AX : axes_ok (length (nd_shape A)) axes).
    { unfold mark_axes in EM. destruct (mark_axes_spec axes (repeat false (length (nd_shape A)))) as (I1 & _ & _).
      destruct (I1 _ EM) as (ND & FA & _). split; auto. rewrite repeat_length in FA. eapply Forall_impl; [|exact FA]. simpl. tauto. }
    destruct (mark_axes_ok _ _ AX) as (used & EM' & EU). rewrite EM in EM'. inv EM'. cbn [bind]. rewrite EU.
    assert (LR : (length axes + length (others (length (nd_shape A)) axes) = length (nd_shape A))%nat).
    { rewrite <- app_length. rewrite (Permutation_length (others_perm _ _ AX)), seq_length. auto. }
    destruct (Nat.eqb_spec (length (others (length (nd_shape A)) axes)) 0) as [E0|N0]; auto.
    exfalso. apply N. split; auto. split; [destruct axes; [simpl in NZ; congruence|discriminate]|lia].
  - auto.
  - exfalso. unfold mark_axes in EM. destruct (mark_axes_spec axes (repeat false (length (nd_shape A)))) as (_ & _ & [I3|[s I3]]); congruence.
  - exfalso. unfold mark_axes in EM. destruct (mark_axes_spec axes (repeat false (length (nd_shape A)))) as (_ & _ & [I3|[s I3]]); congruence.
Qed.

(** ** Mean *)
Lemma mark_plain : forall axes n, Forall (fun d => (d < n)%nat) axes -> forall r, length r = n ->
  exists r', foldM (fun r ax => if (ax <? length r)%nat then Ok (upd r ax true) else Panic) axes r = Ok r' /\ length r' = n /\
    forall d, (d < n)%nat -> nth d r' false = (nth d r false || existsb (Nat.eqb d) axes).
Proof.
  induction axes as [|a axes IH]; intros n FA r L; cbn [foldM].
  - exists r. split; auto. split; auto. intros. rewrite orb_false_r. auto.
  - inv FA. destruct (Nat.ltb_spec a (length r)); [|lia]. cbn [bind].
    destruct (IH (length r) H2 (upd r a true)) as (r' & E & L' & N'); [apply upd_length|].
    exists r'. split; auto. split; auto. intros d Hd. rewrite N' by auto. rewrite nth_upd by auto. cbn [existsb].
    rewrite (Nat.eqb_sym d a). destruct (a =? d)%nat; simpl; auto. rewrite orb_true_r. auto.
Qed.

Lemma foldM_filter : forall sh (p : nat -> bool) ds acc, Forall (fun d => (d < length sh)%nat) ds ->
  foldM (fun acc d => if p d then let! sz := get_checked sh d in checked_mul acc sz else Ok acc) ds acc
  = foldM checked_mul (select (filter p ds) sh) acc.
Proof.
  induction ds as [|d ds IH]; intros acc FA; auto. inv FA. cbn [foldM filter]. destruct (p d).
  - unfold get_checked at 1. rewrite (nth_error_nth' sh 0) by auto. cbn [bind].
    change (select (d :: filter p ds) sh) with (nth d sh 0 :: select (filter p ds) sh). cbn [foldM].
    destruct (checked_mul acc (nth d sh 0)); cbn [bind]; auto.
  - cbn [bind]. auto.
Qed.

Lemma mean_denom : forall sh axes, axes_ok (length sh) axes -> shape_fits sh ->
  exists reduce, foldM (fun r ax => if (ax <? length r)%nat then Ok (upd r ax true) else Panic) axes (repeat false (length sh)) = Ok reduce /\
    foldM (fun acc d => if nth d reduce false then let! sz := get_checked sh d in checked_mul acc sz else Ok acc) (seq 0 (length sh)) 1
      = Ok (cells (select axes sh)).
Proof.
  intros sh axes AX SF. destruct (mark_plain axes (length sh) (proj2 AX) (repeat false (length sh)) (repeat_length _ _)) as (r & E & L & N).
  exists r. split; auto. rewrite (foldM_filter sh (fun d => nth d r false)) by apply seq_axes.
  assert (P : Permutation (filter (fun d => nth d r false) (seq 0 (length sh))) axes).
  { apply NoDup_Permutation; [apply NoDup_filter, seq_NoDup|apply AX|]. intros d. rewrite filter_In, in_seq. split.
    - intros [I H]. rewrite N in H by lia. rewrite nth_repeat' in H by lia. cbn [orb] in H.
      apply existsb_exists in H. destruct H as (d' & I' & E'). apply Nat.eqb_eq in E'. subst. auto.
    - intros I. pose proof (proj2 AX) as FA. rewrite Forall_forall in FA. pose proof (FA _ I). split; [lia|].
      rewrite N by auto. rewrite nth_repeat' by auto. cbn [orb]. apply existsb_exists. exists d. split; auto. apply Nat.eqb_refl. }
  set (ax := filter _ _) in *.
  change (product_checked (select ax sh) = Ok (cells (select axes sh))).
  rewrite product_checked_ok.
  - f_equal. apply cells_perm. apply Permutation_map. auto.
  - apply shape_fits_select; auto. split; [apply NoDup_filter, seq_NoDup|].
    apply Forall_forall. intros d I. apply filter_In in I. destruct I as [I _]. apply in_seq in I. lia.
Qed.

Definition scale (alpha v : F) : F := if feqb alpha f1 then v else if feqb alpha f0 then f0 else fmul v alpha.

Lemma at_key_map_dat : forall (f : F -> F) A k, nd_at (mkNd (nd_shape A) (nd_idx A) (map f (nd_dat A))) k = map f (nd_at A k).
Proof.
  intros. unfold nd_at, nd_entries, nd_keys. cbn [nd_shape nd_idx nd_dat]. rewrite map_length.
  rewrite <- at_key_on_vals. f_equal. unfold on_vals.
  generalize (chunks (length (nd_shape A)) (length (nd_dat A)) (nd_idx A)). generalize (nd_dat A).
  induction l as [|v l IH]; intros [|k0 l0]; simpl; auto. rewrite IH. auto.
Qed.

Lemma nd_ok_map_dat : forall (f : F -> F) A, nd_ok A -> nd_ok (mkNd (nd_shape A) (nd_idx A) (map f (nd_dat A))).
Proof.
  intros f A [H1 H2 H3]. constructor; cbn [nd_shape nd_idx nd_dat]; rewrite ?map_length; auto.
  unfold nd_keys in *. cbn [nd_shape nd_idx nd_dat]. rewrite map_length. auto.
Qed.

Lemma reduce_mean_ok : forall srt A axes, is_sorter pair_le srt -> nd_ok A -> shape_fits (nd_shape A) ->
  axes_ok (length (nd_shape A)) axes -> axes <> [] -> (length axes < length (nd_shape A))%nat ->
  let remain := others (length (nd_shape A)) axes in
  let n := cells (select axes (nd_shape A)) in
  let f := fun v => if n =? 1 then v else scale (fdiv f1 (fofZ n)) v in
  exists C, reduce_mean_axes_coond srt A axes = Ok C /\ nd_ok C /\ nd_shape C = select remain (nd_shape A) /\ nd_sorted C /\
    forall k, in_shape (nd_shape C) k -> nd_at C k = map f (left_sum (fiber A remain k)).
Proof.
  intros srt A axes HS OK SF AX NE LT remain n f. unfold reduce_mean_axes_coond.
  destruct (reduce_sum_ok srt A axes HS OK SF AX NE LT) as (C & EC & OC & SC & NC & AT). fold remain in SC, AT.
  rewrite EC. cbn [bind]. destruct (mean_denom _ _ AX SF) as (r & -> & ED). cbn [bind]. rewrite ED. cbn [bind]. fold n.
  unfold f. destruct (Z.eqb_spec n 1) as [E1|N1].
  - exists C. split; auto. split; auto. split; auto. split; auto. intros. rewrite map_id. auto.
  - unfold mul_scalar_coond, nd_with. rewrite mul_scalar_data_ok. cbn [bind rmap].
    eexists. split; [reflexivity|]. split; [apply nd_ok_map_dat; auto|]. split; [auto|]. split.
    + unfold nd_sorted, nd_keys in *. cbn [nd_shape nd_idx nd_dat]. rewrite map_length. auto.
    + intros k IK. rewrite at_key_map_dat. rewrite AT by auto. reflexivity.
Qed.

(** ** Contraction with a vector *)
(** The nonzero products v * x[i] over the fiber [k], in storage order. *)
Definition contrib (axis : nat) (x : list F) (e : list Z * F) : F := fmul (snd e) (nth (Z.to_nat (nth axis (fst e) 0)) x f0).

Notation fiber_products := (@line_products F).

Lemma concat_filter : forall {X Y} (p : X -> bool) (f : X -> Y) l, concat (map (fun e => if p e then [f e] else []) l) = map f (filter p l).
Proof. induction l as [|e l IH]; simpl; auto. destruct (p e); simpl; rewrite IH; auto. Qed.

Lemma spmv_coond_ok : forall srt A axis x, is_sorter pair_le srt -> nd_ok A -> shape_fits (nd_shape A) ->
  (axis < length (nd_shape A))%nat -> (1 < length (nd_shape A))%nat -> Z.of_nat (length x) = nth axis (nd_shape A) 0 ->
  let remain := others (length (nd_shape A)) [axis] in
  exists C, spmv_coond srt A axis x = Ok C /\ nd_ok C /\ nd_shape C = select remain (nd_shape A) /\ nd_sorted C /\
    forall k, in_shape (nd_shape C) k -> nd_at C k = left_sum (filter nonzero (fiber_products A axis x k)).
Proof.
  intros srt A axis x HS OK SF LA LD LX remain. unfold spmv_coond.
  destruct (Nat.ltb_spec axis (length (nd_shape A))); [|lia].
  unfold get_checked at 1. rewrite (nth_error_nth' (nd_shape A) 0) by auto. cbn [bind]. rewrite LX, Z.eqb_refl.
  assert (AX : axes_ok (length (nd_shape A)) [axis]) by (split; repeat constructor; auto).
  assert (ER : filter (fun d => negb (d =? axis)%nat) (seq 0 (length (nd_shape A))) = remain).
  { unfold remain, other_axes. apply filter_ext. intros d. cbn [existsb]. rewrite orb_false_r. auto. }
  rewrite ER. pose proof (others_ok (length (nd_shape A)) [axis]) as OX. fold remain in OX.
  assert (LR : (S (length remain) = length (nd_shape A))%nat).
  { change (S (length remain)) with (length ([axis] ++ remain)). unfold remain. rewrite (Permutation_length (others_perm _ _ AX)), seq_length. auto. }
  destruct (Nat.eqb_spec (length remain) 0) as [Z0|NR]; [lia|]. cbn [negb].
  rewrite select_shape by apply OX. cbn [bind].
  pose proof (shape_fits_select _ _ OX SF) as FS. set (sh := select remain (nd_shape A)) in *.
  assert (NS : sh <> []). { unfold sh, select. destruct remain; [simpl in NR; congruence|discriminate]. }
  destruct (Nat.eqb_spec (length (nd_dat A)) 0) as [Z0|NZ].
  - pose proof (nd_entries_length A) as EL. rewrite Z0 in EL.
    eexists. split; [reflexivity|]. split; [apply (nd_of_ok sh (@nil (list Z * F))); auto|]. split; [auto|].
    split; [constructor|]. intros k _. rewrite nil_nd_at. unfold line_products, fiber_entries. destruct (nd_entries A); [auto|discriminate].
  - rewrite strides_ne_ok by auto. cbn [bind].
    rewrite (mapM_seq_entries A _ (fun e => if nonzero (contrib axis x e) then [(position sh (select remain (fst e)), contrib axis x e)] else []) OK).
    2:{ intros k key v EK EV IK. unfold get_checked at 1. rewrite (coord_nth A k key axis OK EK LA). cbn [bind].
        destruct (coords_ok A remain k key OK (proj2 OX) EK) as [-> _]. cbn [bind].
        rewrite (linearize_ok sh (select remain key) (select_in_shape _ remain key (proj2 OX) IK) (shape_fits_cells _ FS)). cbn [bind].
        unfold get_checked at 1. rewrite EV. cbn [bind].
        assert (IA : 0 <= nth axis key 0 < Z.of_nat (length x) /\ nth axis key 0 <= i64_max).
        { rewrite LX. apply (Forall2_nth_error (fun x n => 0 <= x < n /\ x <= i64_max) key (nd_shape A) axis); auto; apply nth_error_nth'; auto.
          rewrite (in_shape_length _ _ IK). auto. }
        rewrite as_usize_id by lia. unfold get_checked. rewrite (nth_error_nth' x f0) by lia. cbn [bind]. unfold contrib. cbn [fst snd].
        reflexivity. }
    cbn [bind]. rewrite (concat_filter (fun e => nonzero (contrib axis x e)) (fun e => (position sh (select remain (fst e)), contrib axis x e))).
    set (E := map (fun e => (select remain (fst e), contrib axis x e)) (filter (fun e => nonzero (contrib axis x e)) (nd_entries A))).
    destruct (pipeline_ok srt (fun _ => true) (nnzZ A) sh E HS NS (shape_fits_cells _ FS)) as (m & EA & C & EE & OC & SC & NSo & AT).
    { unfold E. rewrite Forall_map. apply Forall_forall. intros e I. apply filter_In in I. destruct I as [I _].
      pose proof (nd_entries_ok A OK) as FA. rewrite Forall_forall in FA. apply select_in_shape; auto. apply OX. }
    assert (EQ : map (fun e : list Z * F => (position sh (select remain (fst e)), contrib axis x e)) (filter (fun e => nonzero (contrib axis x e)) (nd_entries A)) = map (lin_of sh) E).
    { unfold E. rewrite map_map. auto. }
    rewrite EQ, EA. cbn [bind]. rewrite filter_true in EE. exists C. split; auto. split; auto. split; auto. split; auto.
    intros k IK. rewrite SC in IK. rewrite AT by auto. rewrite filter_true. f_equal. unfold E, line_products, fiber_entries. fold remain. fold (contrib axis x).
    clear. induction (nd_entries A) as [|e l IH]; auto. cbn [filter].
    destruct (nonzero (contrib axis x e)) eqn:EN; destruct (list_eq_dec Z.eq_dec (select remain (fst e)) k) as [EK|NK]; cbn [map]; rewrite ?at_key_cons.
    + rewrite IH. cbn [filter]. rewrite EN. destruct (list_eq_dec Z.eq_dec (select remain (fst e)) k); [auto|contradiction].
    + rewrite IH. destruct (list_eq_dec Z.eq_dec (select remain (fst e)) k); [contradiction|auto].
    + rewrite IH. cbn [filter]. rewrite EN. auto.
    + auto.
Qed.

Lemma spmv_coond_bad : forall srt A axis x,
  ~ ((axis < length (nd_shape A))%nat /\ (1 < length (nd_shape A))%nat /\ Z.of_nat (length x) = nth axis (nd_shape A) 0) ->
  spmv_coond srt A axis x = Panic.
Proof.
  intros srt A axis x N. unfold spmv_coond. destruct (Nat.ltb_spec axis (length (nd_shape A))) as [LA|]; auto.
  unfold get_checked at 1. rewrite (nth_error_nth' (nd_shape A) 0) by auto. cbn [bind].
  destruct (Z.eqb_spec (Z.of_nat (length x)) (nth axis (nd_shape A) 0)) as [EX|]; auto.
  destruct (Nat.eqb_spec (length (filter (fun d => negb (d =? axis)%nat) (seq 0 (length (nd_shape A))))) 0) as [E0|N0]; auto.
  exfalso. apply N. split; auto. split; auto.
  destruct (nd_shape A) as [|n [|n' sh]]; cbn [length] in *; try lia.
  assert (axis = 0%nat) by lia. subst. simpl in N0. lia.
Qed.

Lemma vecdot_coond_eq : forall srt A axis x, vecdot_coond srt A axis x = spmv_coond srt A axis x.
Proof.
  intros. unfold vecdot_coond. destruct (Nat.ltb_spec axis (length (nd_shape A))) as [LA|GA].
  - unfold get_checked. rewrite (nth_error_nth' (nd_shape A) 0) by auto. cbn [bind].
    destruct (Z.eqb_spec (Z.of_nat (length x)) (nth axis (nd_shape A) 0)) as [EX|NX]; auto.
    symmetry. apply spmv_coond_bad. tauto.
  - symmetry. apply spmv_coond_bad. lia.
Qed.

End Unfold.
