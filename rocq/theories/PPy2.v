(** Proofs about the Python layer: counting, axis arguments, kept dimensions, N-D
    densification, batched products. *)
Require Import List ZArith Bool Arith Lia Sorted Permutation.
Require Import Verif.Res Verif.Values Verif.Spec Verif.SpecReduce Verif.Mem Verif.Lists Verif.CsLib Verif.Laws Verif.NdLib Verif.PCore Verif.PNd Verif.PGroup Verif.MCore Verif.MScalar Verif.SpecPy Verif.MPy Verif.PPy.
Import ListNotations.
Local Open Scope Z_scope.

(** ** Axis arguments *)
Definition norm_of (ndim : nat) (a : Z) : nat := Z.to_nat (if a <? 0 then Z.of_nat ndim + a else a).

Lemma norm_one_ok : forall ndim norm a, axis_valid ndim a = true ->
  norm_one ndim norm a = Ok (if existsb (Nat.eqb (norm_of ndim a)) norm then norm else norm ++ [norm_of ndim a]).
Proof.
  intros ndim norm a V. unfold axis_valid in V. unfold norm_one, norm_of. cbv zeta.
  apply andb_true_iff in V. destruct (Z.ltb_spec a 0).
  - replace ((0 <=? Z.of_nat ndim + a) && (Z.of_nat ndim + a <? Z.of_nat ndim)) with true by (symmetry; apply andb_true_iff; lia). reflexivity.
  - replace ((0 <=? a) && (a <? Z.of_nat ndim)) with true by (symmetry; apply andb_true_iff; lia). reflexivity.
Qed.

Lemma norm_one_bad : forall ndim norm a, axis_valid ndim a = false -> norm_one ndim norm a = Panic.
Proof.
  intros ndim norm a V. unfold axis_valid in V. unfold norm_one. cbv zeta.
  apply andb_false_iff in V. destruct (Z.ltb_spec a 0).
  - replace ((0 <=? Z.of_nat ndim + a) && (Z.of_nat ndim + a <? Z.of_nat ndim)) with false by (symmetry; apply andb_false_iff; lia). reflexivity.
  - replace ((0 <=? a) && (a <? Z.of_nat ndim)) with false by (symmetry; apply andb_false_iff; lia). reflexivity.
Qed.

Lemma norm_of_names : forall ndim a d, axis_valid ndim a = true -> (d < ndim)%nat -> (d =? norm_of ndim a)%nat = names_axis ndim a d.
Proof.
  intros ndim a d V Hd. unfold axis_valid in V. unfold norm_of, names_axis.
  destruct (Z.ltb_spec a 0); destruct (Nat.eqb_spec d (Z.to_nat (if a <? 0 then Z.of_nat ndim + a else a))) as [E|N];
    destruct (Z.ltb_spec a 0); try lia; destruct (Z.eqb_spec a (Z.of_nat d)), (Z.eqb_spec a (Z.of_nat d - Z.of_nat ndim)); cbn [orb]; try reflexivity; lia.
Qed.

Lemma norm_fold_ok : forall ndim l norm, forallb (axis_valid ndim) l = true ->
  exists n, foldM (norm_one ndim) l norm = Ok n /\
    forall d, (d < ndim)%nat -> existsb (Nat.eqb d) n = existsb (Nat.eqb d) norm || existsb (fun a => names_axis ndim a d) l.
Proof.
  induction l as [|a l IH]; intros norm V.
  - exists norm. split; [reflexivity|]. intros. cbn [existsb]. rewrite orb_false_r. reflexivity.
  - cbn [forallb] in V. apply andb_true_iff in V. destruct V as [V1 V2]. cbn [foldM]. rewrite norm_one_ok by auto. cbn [bind].
    destruct (IH (if existsb (Nat.eqb (norm_of ndim a)) norm then norm else norm ++ [norm_of ndim a]) V2) as (n & E & H).
    exists n. split; auto. intros d Hd. rewrite H by auto. cbn [existsb]. rewrite <- norm_of_names by auto.
    destruct (existsb (Nat.eqb (norm_of ndim a)) norm) eqn:EX.
    + destruct (Nat.eqb_spec d (norm_of ndim a)) as [->|N]; [rewrite EX; reflexivity|reflexivity].
    + rewrite existsb_app. cbn [existsb]. rewrite orb_false_r, <- orb_assoc. reflexivity.
Qed.

Lemma norm_fold_bad : forall ndim l norm, forallb (axis_valid ndim) l = false -> foldM (norm_one ndim) l norm = Panic.
Proof.
  induction l as [|a l IH]; intros norm V; [discriminate|]. cbn [forallb] in V. cbn [foldM].
  destruct (axis_valid ndim a) eqn:E; [|rewrite norm_one_bad by auto; reflexivity]. rewrite norm_one_ok by auto. cbn [bind]. apply IH. exact V.
Qed.

Definition axis_list (axis : axis_arg) : list Z := match axis with AxNone => [] | AxInt a => [a] | AxTuple l => l end.

Lemma named_axes_sorted : forall ndim l n, (forall d, (d < ndim)%nat -> existsb (Nat.eqb d) n = existsb (fun a => names_axis ndim a d) l) ->
  sorted_axes ndim n = named_axes ndim l.
Proof.
  intros ndim l n H. unfold sorted_axes, named_axes. apply filter_ext_in. intros d I. apply in_seq in I. apply H. lia.
Qed.

Lemma norm_axes_ok : forall ndim axis, axis <> AxNone -> forallb (axis_valid ndim) (axis_list axis) = true ->
  norm_axes ndim axis = Ok (Some (named_axes ndim (axis_list axis))).
Proof.
  intros ndim axis NN V.
  assert (G : forall l, forallb (axis_valid ndim) l = true ->
     (let! n := foldM (norm_one ndim) l [] in Ok (Some (sorted_axes ndim n))) = Ok (Some (named_axes ndim l))).
  { intros l VL. destruct (norm_fold_ok ndim l [] VL) as (n & E & H). rewrite E. cbn [bind]. do 2 f_equal. apply named_axes_sorted. exact H. }
  destruct axis as [|a|l]; [congruence| |].
  - cbn [axis_list norm_axes] in *. specialize (G [a] V). cbn [foldM] in G. destruct (norm_one ndim [] a); exact G.
  - cbn [axis_list] in *. destruct l as [|a l].
    + cbn [norm_axes]. f_equal. f_equal. unfold named_axes. symmetry. induction (seq 0 ndim) as [|x s IH]; cbn; auto.
    + apply G. auto.
Qed.

Lemma norm_axes_bad : forall ndim axis, forallb (axis_valid ndim) (axis_list axis) = false -> norm_axes ndim axis = Panic.
Proof.
  intros ndim axis V. destruct axis as [|a|l]; cbn [axis_list] in V.
  - discriminate.
  - cbn [norm_axes]. cbn [forallb] in V. rewrite andb_true_r in V. rewrite norm_one_bad; auto.
  - destruct l as [|a l]; [discriminate|]. cbn [norm_axes]. rewrite norm_fold_bad; auto.
Qed.

Lemma reduce_2d_ok : forall {A} (whole : A) percol perrow nrows ncols axis keepdims, length percol = ncols -> length perrow = nrows ->
  reduce_2d (Ok whole) (Ok percol) (Ok perrow) nrows ncols axis keepdims =
  match reduction_2d whole percol perrow axis keepdims with Some x => Ok x | None => Panic end.
Proof.
  intros A whole percol perrow nrows ncols axis keepdims LC LR.
  assert (G : forall axis, axis <> AxNone -> reduce_2d (Ok whole) (Ok percol) (Ok perrow) nrows ncols axis keepdims =
     match reduction_2d whole percol perrow (AxTuple (axis_list axis)) keepdims with Some x => Ok x | None => Panic end).
  { clear axis. intros axis NN. unfold reduce_2d, reduction_2d. destruct (forallb (axis_valid 2) (axis_list axis)) eqn:V.
    - rewrite norm_axes_ok by auto. cbn [bind]. unfold named_axes. cbn [seq filter].
      destruct (existsb (fun a => names_axis 2 a 0) (axis_list axis)), (existsb (fun a => names_axis 2 a 1) (axis_list axis)).
      + destruct keepdims; reflexivity.
      + destruct keepdims; [|reflexivity]. unfold reshape_to. cbn [fold_right]. rewrite LC.
        replace (ncols =? 1 * (ncols * 1))%nat with true by (symmetry; apply Nat.eqb_eq; lia). reflexivity.
      + destruct keepdims; [|reflexivity]. unfold reshape_to. cbn [fold_right]. rewrite LR.
        replace (nrows =? nrows * (1 * 1))%nat with true by (symmetry; apply Nat.eqb_eq; lia). reflexivity.
      + reflexivity.
    - rewrite norm_axes_bad by auto. reflexivity. }
  destruct axis as [|a|l].
  - unfold reduce_2d, reduction_2d. cbn. destruct keepdims; reflexivity.
  - rewrite G by discriminate. reflexivity.
  - rewrite G by discriminate. reflexivity.
Qed.

(** ** Counting *)
Lemma bincount_ok : forall (xs : list Z) m, Forall (fun x => 0 <= x < Z.of_nat m) xs ->
  bincount xs m = Ok (map (fun i => Z.of_nat (length (filter (Z.eqb (Z.of_nat i)) xs))) (seq 0 m)).
Proof.
  intros xs m B. unfold bincount.
  assert (forallb (Z.leb 0) xs = true) as ->. { apply forallb_forall. intros x I. rewrite Forall_forall in B. specialize (B x I). lia. }
  assert (Nat.max m (fold_right (fun x acc => Nat.max (S (Z.to_nat x)) acc) 0%nat xs) = m) as ->; [|reflexivity].
  enough (fold_right (fun x acc => Nat.max (S (Z.to_nat x)) acc) 0%nat xs <= m)%nat by lia.
  induction B as [|x xs HB B IH]; cbn [fold_right]; lia.
Qed.

Section Count.
Context {F : Fl}.
Hypothesis Z0 : feqb (f0 : F) f0 = true.

Lemma count_cells : forall {J} (cell : J -> list F) js, (forall j, In j js -> (length (cell j) <= 1)%nat) ->
  Forall (fun v => nonzero v = true) (flat_map cell js) ->
  length (filter (fun j => nonzero (one_or f0 (cell j))) js) = length (flat_map cell js).
Proof.
  intros J cell js. induction js as [|j js IH]; intros L NZ; [reflexivity|]. cbn [flat_map filter] in *.
  apply Forall_app in NZ. destruct NZ as [N1 N2]. specialize (L j (or_introl eq_refl)) as LJ.
  rewrite app_length, <- IH by (auto; intros; apply L; right; auto).
  destruct (cell j) as [|v [|? ?]]; cbn [one_or length] in *; [|inversion N1 as [|? ? NV _]; subst; rewrite NV; reflexivity|lia].
  unfold nonzero at 1. rewrite Z0. reflexivity.
Qed.

Lemma count_all_ok : forall (cell : nat -> nat -> list F) m n l, (forall i j, (i < m)%nat -> (j < n)%nat -> (length (cell i j) <= 1)%nat) ->
  Permutation l (matrix_values cell m n) -> Forall (fun v => nonzero v = true) l ->
  length l = count_all (fun i j => one_or f0 (cell i j)) m n.
Proof.
  intros cell m n l L P NZ. rewrite (Permutation_length P). unfold count_all, matrix_values in *.
  symmetry. apply (count_cells (fun p => cell (fst p) (snd p)) (grid m n)).
  - intros [i j] I. apply in_grid in I. apply L; tauto.
  - eapply Permutation_Forall; [exact P|exact NZ].
Qed.

Lemma count_row_ok : forall (cell : nat -> nat -> list F) n i, (forall j, (j < n)%nat -> (length (cell i j) <= 1)%nat) ->
  Forall (fun v => nonzero v = true) (row_values cell n i) ->
  length (row_values cell n i) = count_row (fun i j => one_or f0 (cell i j)) n i.
Proof.
  intros cell n i L NZ. symmetry. apply (count_cells (cell i) (seq 0 n)); auto. intros j I. apply in_seq in I. apply L. lia.
Qed.

Lemma row_values_part : forall (cell : nat -> nat -> list F) m n i l, (i < m)%nat -> Permutation l (matrix_values cell m n) ->
  Forall (fun v => nonzero v = true) l -> Forall (fun v => nonzero v = true) (row_values cell n i).
Proof. clear Z0.
  intros cell m n i l Hi P NZ. assert (H : Forall (fun v => nonzero v = true) (matrix_values cell m n)) by (eapply Permutation_Forall; [exact P|exact NZ]).
  rewrite matrix_values_rows in H. rewrite Forall_forall in *. intros v I. apply H. apply in_flat_map. exists i. split; auto. apply in_seq. lia.
Qed.

Lemma at_index_concat : forall j (rs : list (list (Z * F))), at_index j (concat rs) = concat (map (at_index j) rs).
Proof. clear Z0. induction rs; [reflexivity|]. cbn [concat map]. rewrite at_index_app, IHrs. reflexivity. Qed.

Lemma col_values_ok : forall (A : Cs F) j, cs_ok A ->
  at_index (Z.of_nat j) (combine (idx A) (dat A)) = row_values (transposed (csr_at A)) (major A) j.
Proof. clear Z0.
  intros A j OK. rewrite <- concat_rows by auto. rewrite at_index_concat. unfold rows. rewrite map_map.
  unfold row_values. rewrite flat_map_concat_map. reflexivity.
Qed.

Lemma filter_count : forall j (xs : list Z) (ds : list F), length xs = length ds ->
  length (filter (Z.eqb j) xs) = length (at_index j (combine xs ds)).
Proof. clear Z0.
  induction xs as [|x xs IH]; intros [|d ds] L; try discriminate; [reflexivity|]. cbn [combine]. rewrite at_index_cons. cbn [filter].
  rewrite (Z.eqb_sym x). destruct (j =? x); cbn [length]; rewrite (IH ds) by (cbn in L; lia); reflexivity.
Qed.

Lemma np_diff_ok : forall (A : Cs F), cs_ok A -> np_diff (ptr A) = map (fun i => Z.of_nat (length (cs_row A i))) (seq 0 (major A)).
Proof. clear Z0.
  intros A OK. unfold np_diff. apply nth_error_ext. intros i.
  assert (LL : length (combine (ptr A) (tl (ptr A))) = major A).
  { rewrite combine_length. pose proof (ok_ptr_len _ OK) as L. destruct (ptr A); cbn [tl length] in *; lia. }
  destruct (Nat.lt_ge_cases i (major A)) as [H|H].
  - rewrite nth_error_seq_map by auto. rewrite nth_error_map.
    assert (nth_error (combine (ptr A) (tl (ptr A))) i = Some (nth i (ptr A) 0, nth (S i) (ptr A) 0)) as ->.
    { apply nth_error_combine. split; [apply ptr_nth; auto; lia|]. pose proof (ptr_nth A (S i) OK ltac:(lia)) as E.
      destruct (ptr A); [discriminate|exact E]. }
    cbn [option_map fst snd]. f_equal. rewrite cs_row_length by auto.
    pose proof (ptr_range A i OK ltac:(lia)). pose proof (ptr_mono A i (S i) OK ltac:(lia) ltac:(lia)). lia.
  - rewrite !(proj2 (nth_error_None _ _)); auto; rewrite map_length, ?seq_length; lia.
Qed.

Lemma idx_bounds : forall A : Cs F, cs_ok A -> Forall (fun x => 0 <= x < Z.of_nat (minor A)) (idx A).
Proof. clear Z0. intros A OK. apply Forall_forall. intros x I. apply In_nth_error in I. destruct I as [p E]. pose proof (ok_bound _ OK p x E). lia. Qed.

(** Counts of stored entries per major and per minor slice. *)
Lemma diff_counts : forall A : Cs F, cs_ok A -> np_diff (ptr A) = map (fun i => Z.of_nat (length (row_values (csr_at A) (minor A) i))) (seq 0 (major A)).
Proof. clear Z0.
  intros A OK. rewrite np_diff_ok by auto. apply map_ext_in. intros i I. apply in_seq in I.
  rewrite <- (Permutation_length (row_values_ok A i OK ltac:(lia))), map_length. reflexivity.
Qed.
Lemma bincount_counts : forall A : Cs F, cs_ok A -> bincount (idx A) (minor A) =
  Ok (map (fun j => Z.of_nat (length (row_values (transposed (csr_at A)) (major A) j))) (seq 0 (minor A))).
Proof. clear Z0.
  intros A OK. rewrite bincount_ok by (apply idx_bounds; auto). f_equal. apply map_ext. intros j.
  rewrite (filter_count _ _ (dat A)) by (apply (ok_len _ OK)). rewrite col_values_ok by auto. reflexivity.
Qed.
End Count.

(** ** N-D densification *)
Lemma in_shape_lt : forall sh k, in_shape sh k -> Forall2 (fun x n => 0 <= x < n) k sh.
Proof. intros sh k H. induction H; constructor; auto. lia. Qed.

Lemma flat_map_nth : forall {A B} (f : A -> list B) n l p q x b, (forall y, In y l -> length (f y) = n) ->
  nth_error l p = Some x -> (q < n)%nat -> nth_error (f x) q = Some b -> nth_error (flat_map f l) (p * n + q) = Some b.
Proof.
  intros A B f n. induction l as [|y l IH]; intros p q x b L E Hq Eb; [destruct p; discriminate|]. cbn [flat_map].
  destruct p as [|p]; cbn [nth_error] in E.
  - injection E as ->. cbn [Nat.mul Nat.add]. rewrite nth_error_app1; [exact Eb|]. rewrite L by (left; reflexivity). exact Hq.
  - assert (LY := L y (or_introl eq_refl)). rewrite nth_error_app2 by lia. replace (S p * n + q - length (f y))%nat with (p * n + q)%nat by lia.
    eapply IH; eauto. intros. apply L. right. auto.
Qed.

Lemma all_keys_nth : forall sh k, in_shape sh k -> nth_error (all_keys sh) (Z.to_nat (position sh k)) = Some k.
Proof.
  intros sh k H. induction H as [|x n k sh HX H IH]; [reflexivity|]. cbn [all_keys position].
  assert (PB := position_bounds sh k H). assert (NN : Forall (fun n => 0 <= n) sh).
  { pose proof (in_shape_pos _ _ H) as FP. (eapply Forall_impl; [|exact FP]). intros a Ha. cbv beta in Ha. lia. }
  assert (LK := all_keys_length sh NN).
  replace (Z.to_nat (x * cells sh + position sh k)) with (Z.to_nat x * length (all_keys sh) + Z.to_nat (position sh k))%nat by nia.
  apply flat_map_nth with (x := Z.to_nat x).
  - intros. apply map_length.
  - rewrite nth_error_nth' with (d := 0%nat) by (rewrite seq_length; lia). rewrite seq_nth by lia. reflexivity.
  - lia.
  - rewrite nth_error_map, IH. cbn. do 2 f_equal. lia.
Qed.

Lemma upd_map_key : forall {A} (g : list Z -> A) ks p k v, NoDup ks -> nth_error ks p = Some k ->
  upd (map g ks) p v = map (fun k' => if list_eq_dec Z.eq_dec k' k then v else g k') ks.
Proof.
  intros A g ks p k v ND E. apply nth_error_ext. intros q. rewrite nth_error_map. destruct (Nat.eq_dec p q) as [<-|N].
  - rewrite nth_error_upd_eq by (rewrite map_length; apply (nth_error_lt _ _ _ E)). rewrite E. cbn [option_map].
    destruct (list_eq_dec Z.eq_dec k k); congruence.
  - rewrite nth_error_upd_neq by auto. rewrite nth_error_map. destruct (nth_error ks q) as [k'|] eqn:EQ; [|reflexivity].
    cbn [option_map]. destruct (list_eq_dec Z.eq_dec k' k) as [->|]; [|reflexivity].
    exfalso. apply N. apply (proj1 (NoDup_nth_error ks) ND); [apply (nth_error_lt _ _ _ E)|]. congruence.
Qed.

Lemma nd_toarray_ok : forall {F : Fl} (A : Nd F), nd_ok A -> Forall (fun n => 0 <= n) (nd_shape A) ->
  nd_toarray A = Ok (map (fun k => fold_left fadd (nd_at A k) f0) (all_keys (nd_shape A))).
Proof.
  intros F A OK NN. unfold nd_toarray. replace (forallb (Z.leb 0) (nd_shape A)) with true
    by (symmetry; apply forallb_forall; intros n Hn; rewrite Forall_forall in NN; apply Z.leb_le, NN, Hn). assert (LK := all_keys_length _ NN). rewrite <- LK, Nat2Z.id.
  assert (ER : forall l : list (list Z), repeat (f0 : F) (length l) = map (fun _ => f0) l) by (induction l; cbn; f_equal; auto).
  rewrite ER. destruct (Nat.eqb_spec (length (nd_dat A)) 0) as [E0|N0].
  - f_equal. apply map_ext. intros k. unfold nd_at, nd_entries. destruct (nd_dat A); [|discriminate]. rewrite combine_nil. reflexivity.
  - rewrite (nd_len _ OK), Nat.eqb_refl.
    assert (FE := nd_entries_ok A OK). unfold nd_at. revert FE. generalize (nd_entries A). intros E FE.
    enough (G : forall g : list Z -> F, foldM (fun o e =>
        let! k := mapM (fun xn => py_index (Z.to_nat (snd xn)) (fst xn)) (combine (fst e) (nd_shape A)) in
        let! x := get_checked o (Z.to_nat (position (nd_shape A) (map Z.of_nat k))) in
        Ok (upd o (Z.to_nat (position (nd_shape A) (map Z.of_nat k))) (fadd x (snd e)))) E (map g (all_keys (nd_shape A)))
      = Ok (map (fun k => fold_left fadd (at_key k E) (g k)) (all_keys (nd_shape A)))) by apply G.
    induction FE as [|[k v] E HK FE IH]; intros g; [reflexivity|]. cbn [foldM fst snd].
    assert (EM : mapM (fun xn => py_index (Z.to_nat (snd xn)) (fst xn)) (combine k (nd_shape A)) = Ok (map Z.to_nat k)).
    { clear - HK. cbn [fst] in HK. induction HK as [|x n k sh HX H IH]; [reflexivity|]. cbn [combine mapM fst snd]. rewrite py_index_ok by lia.
      cbn [bind]. rewrite IH. reflexivity. }
    rewrite EM. cbn [bind].
    assert (EK : map Z.of_nat (map Z.to_nat k) = k).
    { clear - HK. cbn [fst] in HK. induction HK as [|x n k sh HX H IH]; [reflexivity|]. cbn [map]. rewrite IH. f_equal. lia. }
    rewrite EK. cbn [fst] in HK. pose proof (all_keys_nth _ _ HK) as NK. unfold get_checked. rewrite nth_error_map, NK. cbn [option_map bind].
    rewrite (upd_map_key _ _ _ k _ (NoDup_all_keys _) NK). rewrite IH. f_equal. apply map_ext. intros k'.
    rewrite at_key_cons. destruct (list_eq_dec Z.eq_dec k' k) as [E1|N1], (list_eq_dec Z.eq_dec k k') as [E2|N2]; try congruence; try reflexivity.
    rewrite E1. reflexivity.
Qed.

(** ** Kept dimensions *)
Lemma fold_upd : forall (ds : list nat) (k out : list Z), NoDup ds -> length ds = length k -> Forall (fun d => (d < length out)%nat) ds ->
  let res := fold_left (fun o dx => upd o (fst dx) (snd dx)) (combine ds k) out in
  length res = length out /\ map (fun d => nth d res 0) ds = k /\ (forall d, ~ In d ds -> nth d res 0 = nth d out 0).
Proof.
  induction ds as [|d ds IH]; intros [|x k] out ND L B; try discriminate; cbn [combine fold_left fst snd]; [repeat split; auto|].
  inversion ND as [|? ? NI ND']; subst. inversion B as [|? ? B1 B2]; subst.
  destruct (IH k (upd out d x) ND') as (R1 & R2 & R3); [cbn in L; lia|rewrite upd_length; auto|]. cbv zeta in *. rewrite upd_length in R1.
  split; [exact R1|]. split.
  - cbn [map]. rewrite R3, R2 by auto. rewrite nth_upd, Nat.eqb_refl by auto. reflexivity.
  - intros e NE. cbn [In] in NE. rewrite R3 by tauto. rewrite nth_upd by auto. destruct (Nat.eqb_spec d e); [tauto|reflexivity].
Qed.

Lemma in_other_axes : forall ndim axes d, In d (other_axes ndim axes) <-> (d < ndim)%nat /\ ~ In d axes.
Proof.
  intros. unfold other_axes. rewrite filter_In, in_seq, negb_true_iff. split; intros [H1 H2]; (split; [lia|]).
  - intros I. assert (existsb (Nat.eqb d) axes = true); [|congruence]. apply existsb_exists. exists d. split; auto. apply Nat.eqb_refl.
  - apply not_true_iff_false. intros H. apply existsb_exists in H. destruct H as (x & I & E). apply Nat.eqb_eq in E. subst. tauto.
Qed.

Lemma other_axes_NoDup : forall ndim axes, NoDup (other_axes ndim axes).
Proof. intros. apply NoDup_filter, seq_NoDup. Qed.

Lemma spread_ok : forall ndim axes fill k, length k = length (other_axes ndim axes) ->
  length (spread ndim axes fill k) = ndim /\ select (other_axes ndim axes) (spread ndim axes fill k) = k /\
  forall d, (d < ndim)%nat -> In d axes -> nth d (spread ndim axes fill k) 0 = fill.
Proof.
  intros ndim axes fill k L. unfold spread.
  destruct (fold_upd (other_axes ndim axes) k (repeat fill ndim)) as (R1 & R2 & R3); auto.
  - apply other_axes_NoDup.
  - apply Forall_forall. intros d I. apply in_other_axes in I. rewrite repeat_length. lia.
  - cbv zeta in *. rewrite repeat_length in R1. split; [exact R1|]. split; [exact R2|].
    intros d Hd I. rewrite R3 by (rewrite in_other_axes; tauto). rewrite nth_indep with (d' := fill) by (rewrite repeat_length; auto). apply nth_repeat.
Qed.

(** A list is determined by its part outside [axes] and its part on [axes]. *)
Lemma spread_unique : forall ndim axes fill l, length l = ndim -> (forall d, (d < ndim)%nat -> In d axes -> nth d l 0 = fill) ->
  spread ndim axes fill (select (other_axes ndim axes) l) = l.
Proof.
  intros ndim axes fill l L H. destruct (spread_ok ndim axes fill (select (other_axes ndim axes) l)) as (S1 & S2 & S3).
  { unfold select. apply map_length. }
  apply (nth_ext _ _ 0 0); [congruence|]. intros d Hd. rewrite S1 in Hd. destruct (in_dec Nat.eq_dec d axes) as [I|NI].
  - rewrite S3, H by auto. reflexivity.
  - assert (I : In d (other_axes ndim axes)) by (apply in_other_axes; auto). revert S2 I.
    generalize (spread ndim axes fill (select (other_axes ndim axes) l)). clear. intros sp. unfold select. induction (other_axes ndim axes) as [|e es IH]; cbn [map In]; [tauto|].
    intros E [->|I]; injection E as E1 E2; auto.
Qed.

Section Keep.
Context {F : Fl}.

Lemma nd_ok_entries : forall (A : Nd F), nd_ok A -> nd_idx A = concat (nd_keys A).
Proof.
  intros A OK. unfold nd_keys. pose proof (nd_len _ OK) as L. revert L. generalize (nd_idx A). induction (length (nd_dat A)) as [|n IH]; intros l L; cbn [chunks concat].
  - destruct l; [reflexivity|discriminate].
  - rewrite <- IH by (rewrite skipn_length; lia). symmetry. apply firstn_skipn.
Qed.

Lemma with_keepdims_ok : forall ndim axes (sh : list Z) (R : Nd F), length sh = ndim -> (0 < length (other_axes ndim axes))%nat -> nd_ok R ->
  nd_shape R = select (other_axes ndim axes) sh ->
  exists C, with_keepdims ndim axes R = Ok C /\ nd_ok C /\ length (nd_shape C) = ndim /\
    (forall d, (d < ndim)%nat -> nth d (nd_shape C) 0 = if existsb (Nat.eqb d) axes then 1 else nth d sh 0) /\
    forall k, in_shape (nd_shape C) k -> nd_at C k = nd_at R (select (other_axes ndim axes) k).
Proof.
  intros ndim axes sh R LS LR OK ES. unfold with_keepdims.
  destruct (Nat.eqb_spec (length (other_axes ndim axes)) 0) as [E|_]; [lia|].
  assert (LSR : length (nd_shape R) = length (other_axes ndim axes)) by (rewrite ES; apply map_length).
  rewrite (nd_len _ OK), LSR, Nat.eqb_refl. eexists. split; [reflexivity|].
  set (S1 := spread ndim axes 1 (nd_shape R)).
  destruct (spread_ok ndim axes 1 (nd_shape R) LSR) as (SL & SS & SA). fold S1 in SL, SS, SA.
  assert (KL : Forall (fun k => length k = length (other_axes ndim axes)) (nd_keys R)).
  { pose proof (nd_bound _ OK) as B. (eapply Forall_impl; [|exact B]). intros k Hk. cbv beta in *. rewrite (in_shape_length _ _ Hk). exact LSR. }
  assert (EK : chunks (length (other_axes ndim axes)) (length (nd_dat R)) (nd_idx R) = nd_keys R) by (unfold nd_keys; rewrite LSR; reflexivity).
  rewrite EK.
  assert (NKS : chunks ndim (length (nd_dat R)) (concat (map (spread ndim axes 0) (nd_keys R))) = map (spread ndim axes 0) (nd_keys R)).
  { rewrite <- (nd_keys_length R). rewrite <- (map_length (spread ndim axes 0) (nd_keys R)). apply chunks_concat.
    apply Forall_forall. intros k I. apply in_map_iff in I. destruct I as (k' & <- & I). rewrite Forall_forall in KL. apply (spread_ok ndim axes 0 k' (KL k' I)). }
  assert (SH : forall k', In k' (nd_keys R) -> in_shape S1 (spread ndim axes 0 k')).
  { intros k' I. pose proof (nd_bound _ OK) as B. rewrite Forall_forall in B, KL. specialize (B k' I). specialize (KL k' I).
    destruct (spread_ok ndim axes 0 k' KL) as (KL1 & KS & KA).
    assert (G : forall d, (d < ndim)%nat -> 0 <= nth d (spread ndim axes 0 k') 0 < nth d S1 0 /\ nth d (spread ndim axes 0 k') 0 <= i64_max).
    { intros d Hd. destruct (in_dec Nat.eq_dec d axes) as [IA|NI].
      - rewrite KA, SA by auto. unfold i64_max. lia.
      - assert (IO : In d (other_axes ndim axes)) by (apply in_other_axes; auto). rewrite <- KS, <- SS in B.
        unfold select in B. revert B IO. clear. induction (other_axes ndim axes) as [|e es IH]; cbn [map In]; [tauto|].
        intros B [->|I]; inversion B; subst; auto. }
    clear - G KL1 SL. unfold in_shape. revert G KL1 SL. generalize (spread ndim axes 0 k') S1. clear. revert ndim.
    induction ndim as [|n IH]; intros [|x k] [|s S1] G L1 L2; try discriminate; constructor.
    - apply (G 0%nat). lia.
    - apply IH; [|cbn in L1; lia|cbn in L2; lia]. intros d Hd. apply (G (S d)). lia. }
  split; [|split; [exact SL|split]].
  - constructor; cbn [nd_shape nd_idx nd_dat].
    + intros E. apply (nd_ndim _ OK). apply length_zero_iff_nil. apply (f_equal (@length Z)) in E. cbn [length] in E. fold S1 in E. rewrite SL in E.
      rewrite LSR. subst ndim. rewrite E in LR. cbn in LR. lia.
    + fold S1. rewrite SL. rewrite <- (nd_keys_length R). clear - KL. induction KL as [|k ks HK KL IH]; [reflexivity|]. cbn [map concat length].
      rewrite app_length, IH. destruct (spread_ok ndim axes 0 k HK) as (L & _). lia.
    + unfold nd_keys at 1. cbn [nd_shape nd_idx nd_dat]. fold S1. rewrite SL, NKS. apply Forall_forall. intros k I. apply in_map_iff in I.
      destruct I as (k' & <- & I). apply SH. exact I.
  - intros d Hd. cbn [nd_shape]. fold S1. destruct (existsb (Nat.eqb d) axes) eqn:EX.
    + apply SA; auto. apply existsb_exists in EX. destruct EX as (x & I & E). apply Nat.eqb_eq in E. subst. auto.
    + assert (NI : ~ In d axes). { intros I. assert (existsb (Nat.eqb d) axes = true); [|congruence]. apply existsb_exists. exists d. split; auto. apply Nat.eqb_refl. }
      assert (IO : In d (other_axes ndim axes)) by (apply in_other_axes; auto). rewrite ES in SS. unfold select in SS. revert SS IO.
      clear. induction (other_axes ndim axes) as [|e es IH]; cbn [map In]; [tauto|]. intros E [->|I]; injection E as E1 E2; auto.
  - intros k IK. cbn [nd_shape] in IK. fold S1 in IK. unfold nd_at, nd_entries. unfold nd_keys at 1. cbn [nd_shape nd_idx nd_dat]. fold S1.
    rewrite SL, NKS.
    assert (EKEY : k = spread ndim axes 0 (select (other_axes ndim axes) k)).
    { symmetry. apply spread_unique; [rewrite (in_shape_length _ _ IK); exact SL|]. intros d Hd I.
      pose proof (in_shape_lt _ _ IK) as F2. assert (N1 : nth d S1 0 = 1) by (apply SA; auto).
      assert (LK := in_shape_length _ _ IK).
      assert (0 <= nth d k 0 < nth d S1 0); [|lia].
      assert (Hd' : (d < length k)%nat) by (rewrite LK, SL; exact Hd). revert Hd'. clear - F2. revert d. induction F2; intros [|d]; cbn [nth length]; intros; try lia; try exact H. apply IHF2. lia. }
    assert (LSK : length (select (other_axes ndim axes) k) = length (other_axes ndim axes)) by apply map_length.
    assert (INJ : forall k', length k' = length (other_axes ndim axes) -> spread ndim axes 0 k' = k -> k' = select (other_axes ndim axes) k).
    { intros k' L E. destruct (spread_ok ndim axes 0 k' L) as (_ & S2 & _). rewrite E in S2. auto. }
    unfold at_key. revert KL. generalize (nd_keys R) (nd_dat R). clear - EKEY INJ.
    induction l as [|k' ks IH]; intros ds KL; [reflexivity|]. inversion KL as [|? ? K1 K2]; subst. destruct ds as [|v ds]; [reflexivity|].
    cbn [map combine filter fst]. destruct (list_eq_dec Z.eq_dec (spread ndim axes 0 k') k) as [E|N], (list_eq_dec Z.eq_dec k' (select (other_axes ndim axes) k)) as [E'|N'].
    + cbn [map snd]. f_equal. apply IH; auto.
    + exfalso. apply N', INJ; auto.
    + exfalso. apply N. rewrite E'. symmetry. exact EKEY.
    + apply IH; auto.
Qed.
End Keep.

(** ** Batched products *)
Section Batch.
Context {F : Fl}.

Lemma flat3_lt : forall d0 d1 d2 a b c, (a < d0 -> b < d1 -> c < d2 -> (a * d1 + b) * d2 + c < d0 * d1 * d2)%nat.
Proof. intros d0 d1 d2 a b c Ha Hb Hc. assert (a * d1 + b + 1 <= d0 * d1)%nat by nia. nia. Qed.

Lemma swap01_ok : forall d0 d1 d2 (l : list F), length l = (d0 * d1 * d2)%nat ->
  exists out, swap01 d0 d1 d2 l = Ok out /\ length out = (d1 * d0 * d2)%nat /\
    forall i0 i1 i2, (i0 < d0)%nat -> (i1 < d1)%nat -> (i2 < d2)%nat ->
      nth ((i1 * d0 + i0) * d2 + i2) out f0 = nth ((i0 * d1 + i1) * d2 + i2) l f0.
Proof.
  intros d0 d1 d2 l L. set (src := fun p => (((p / d2) mod d0 * d1 + p / d2 / d0) * d2 + p mod d2)%nat).
  exists (map (fun p => nth (src p) l f0) (seq 0 (d1 * d0 * d2))). split; [|split].
  - unfold swap01. apply mapM_ok. intros p I. apply in_seq in I. fold (src p).
    assert (B : (src p < length l)%nat).
    { rewrite L. unfold src. assert (D2 : (d2 <> 0)%nat) by nia. assert (D0 : (d0 <> 0)%nat) by nia.
      pose proof (Nat.mod_upper_bound p d2 D2). pose proof (Nat.mod_upper_bound (p / d2) d0 D0).
      assert (p / d2 / d0 < d1)%nat. { apply Nat.div_lt_upper_bound; [exact D0|]. apply Nat.div_lt_upper_bound; [exact D2|]. nia. }
      apply flat3_lt; assumption. }
    unfold get_checked. rewrite nth_error_nth' with (d := f0) by exact B. reflexivity.
  - rewrite map_length, seq_length. reflexivity.
  - intros i0 i1 i2 H0 H1 H2. rewrite nth_seq_map by (apply flat3_lt; assumption). f_equal. unfold src.
    assert (E1 : (((i1 * d0 + i0) * d2 + i2) / d2 = i1 * d0 + i0)%nat) by (rewrite Nat.div_add_l by lia; rewrite Nat.div_small by lia; lia).
    assert (E2 : (((i1 * d0 + i0) * d2 + i2) mod d2 = i2)%nat) by (rewrite (Nat.add_comm _ i2), Nat.mod_add by lia; apply Nat.mod_small; lia).
    rewrite E1, E2. rewrite Nat.div_add_l by lia. rewrite (Nat.div_small i0) by lia.
    rewrite (Nat.add_comm (i1 * d0) i0), Nat.mod_add by lia. rewrite (Nat.mod_small i0) by lia. lia.
Qed.

Lemma nth_slice : forall {A} s e (l : list A) p d, (p < e - s)%nat -> nth p (slice s e l) d = nth (s + p) l d.
Proof.
  intros. destruct (nth_error l (s + p)) as [a|] eqn:E.
  - rewrite (nth_error_nth _ _ d E). apply nth_error_nth. rewrite nth_error_slice; auto.
  - rewrite nth_overflow with (l := l) by (apply nth_error_None; exact E). apply nth_overflow. apply nth_error_None. rewrite nth_error_slice; auto.
Qed.

Lemma column_batch : forall (y y2 : list F) b k n q c, (q < b)%nat -> (c < n)%nat ->
  (forall i0 i1 i2, (i0 < b)%nat -> (i1 < k)%nat -> (i2 < n)%nat -> nth ((i1 * b + i0) * n + i2) y2 f0 = nth ((i0 * k + i1) * n + i2) y f0) ->
  column y2 k (b * n) (q * n + c) = column (batch (k * n) q y) k n c.
Proof.
  intros y y2 b k n q c Hq Hc H. unfold column. apply map_ext_in. intros j I. apply in_seq in I.
  replace (j * (b * n) + (q * n + c))%nat with ((j * b + q) * n + c)%nat by lia. rewrite H by lia.
  unfold batch. rewrite nth_slice by nia. f_equal. lia.
Qed.

(** If [mm] multiplies by an m x k matrix with cells [cell], the batched product
    multiplies every batch. *)
Lemma py_matmul_batched : forall mv mm m k (cell : nat -> nat -> list F) batch_shape n y,
  let b := fold_right Nat.mul 1%nat batch_shape in
  batch_shape <> [] -> length y = (b * k * n)%nat ->
  (forall y2, length y2 = (k * (b * n))%nat -> exists out, mm y2 (b * n)%nat = Ok out /\ length out = (m * (b * n))%nat /\
     forall i c, (i < m)%nat -> (c < b * n)%nat -> FSum (dot_terms cell k (column y2 k (b * n) c) i) (nth (i * (b * n) + c) out f0)) ->
  exists out, py_matmul mv mm m k (batch_shape ++ [k; n]) y = Ok (batch_shape ++ [m; n], out) /\ length out = (b * m * n)%nat /\
    forall q i c, (q < b)%nat -> (i < m)%nat -> (c < n)%nat ->
      FSum (dot_terms cell k (column (batch (k * n) q y) k n c) i) (nth ((q * m + i) * n + c) out f0).
Proof.
  intros mv mm m k cell bs n y b NE LY HM. unfold py_matmul.
  rewrite rev_app_distr. cbn [rev app]. destruct (rev bs) as [|x rb] eqn:ER.
  { apply (f_equal (@rev nat)) in ER. rewrite rev_involutive in ER. cbn in ER. congruence. }
  rewrite Nat.eqb_refl. rewrite <- ER, rev_involutive. fold b.
  destruct (swap01_ok b k n y LY) as (y2 & E2 & L2 & N2). rewrite E2. cbn [bind].
  destruct (HM y2) as (o2 & E3 & L3 & N3); [lia|]. rewrite E3. cbn [bind].
  destruct (swap01_ok m b n o2) as (out & E4 & L4 & N4); [lia|]. rewrite E4. cbn [bind].
  exists out. split; [reflexivity|]. split; [exact L4|]. intros q i c Hq Hi Hc.
  rewrite N4 by auto. replace ((i * b + q) * n + c)%nat with (i * (b * n) + (q * n + c))%nat by lia.
  rewrite <- (column_batch y y2 b k n q c) by auto. apply N3; nia.
Qed.
End Batch.
