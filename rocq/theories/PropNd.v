(** C20-C26, C29 and the N-D parts of C30-C32: N-D coordinate arrays. The theorems
    without suffix hold for every arithmetic [F], in particular [f64 pw]; no law of
    arithmetic is used. Those with suffix [_exact] are for exact arithmetic. *)
Require Import List ZArith Bool Lia Permutation Sorted Arith.
Require Import Verif.Res Verif.Values Verif.Spec Verif.Mem Verif.Lists Verif.CsLib Verif.Laws Verif.MConvert Verif.PConvert Verif.PConvert2 Verif.PConvert3 Verif.NdLib.
Require Import Verif.MHash Verif.PHash Verif.MNd Verif.MNd2 Verif.PNd Verif.PNd2 Verif.PNd3 Verif.PNd4 Verif.PNd5 Verif.Witness Verif.PropConvert.
Import ListNotations.
Local Open Scope Z_scope.

(** ** Helpers *)
Section Exact.
Context {F : Fl}.
Hypothesis L : ELaws F.

Lemma left_sum_exact : forall l : list F, one_or f0 (left_sum l) = fsum l.
Proof.
  intros [|v l]; auto. cbn [left_sum one_or]. apply FSum_exact; auto.
  apply (FSum_fold_left l [v] v). apply FSum_one.
Qed.

Lemma nonzero_false : forall v : F, nonzero v = false -> v = f0.
Proof. intros v H. unfold nonzero in H. apply negb_false_iff in H. apply (e_eqb _ L). auto. Qed.

Lemma one_or_filter : forall l : list F, (length l <= 1)%nat -> one_or f0 (filter nonzero l) = one_or f0 l.
Proof.
  intros [|v [|w l]] H; simpl in H; try lia; auto. cbn [filter]. destruct (nonzero v) eqn:E; auto.
  simpl. symmetry. apply nonzero_false. auto.
Qed.

Lemma left_sum_length : forall l : list F, (length (left_sum l) <= 1)%nat.
Proof. destruct l; simpl; lia. Qed.

Lemma fsum_filter : forall l : list F, fsum (filter nonzero l) = fsum l.
Proof.
  induction l as [|v l IH]; auto. cbn [filter fsum]. destruct (nonzero v) eqn:E; cbn [fsum]; rewrite IH; auto.
  rewrite (nonzero_false v E). symmetry. apply (e_add_0_l _ L).
Qed.

Lemma e_mul_0_l : forall y : F, fmul f0 y = f0.
Proof.
  intros y. assert (H : fadd (fmul f0 y) (fmul f0 y) = fmul f0 y).
  { rewrite <- (e_distr_l _ L), (e_add_0_l _ L). auto. }
  transitivity (fadd (fadd (fmul f0 y) (fmul f0 y)) (fneg (fmul f0 y))).
  - rewrite <- (e_add_assoc _ L), (e_add_neg _ L), (e_add_comm _ L), (e_add_0_l _ L). auto.
  - rewrite H. apply (e_add_neg _ L).
Qed.

Lemma fsum_map_mul : forall (x : F) ys, fsum (map (fmul x) ys) = fmul x (fsum ys).
Proof.
  induction ys as [|y ys IH]; cbn [map fsum].
  - rewrite (e_mul_comm _ L), e_mul_0_l. auto.
  - rewrite IH. rewrite !(e_mul_comm _ L x). symmetry. apply (e_distr_l _ L).
Qed.

Lemma fsum_products : forall xs ys : list F, fsum (products xs ys) = fmul (fsum xs) (fsum ys).
Proof.
  unfold products. induction xs as [|x xs IH]; intros ys; cbn [map concat fsum].
  - symmetry. apply e_mul_0_l.
  - rewrite (fsum_app L), IH, fsum_map_mul. symmetry. apply (e_distr_l _ L).
Qed.

Lemma fsum_neg : forall l : list F, fsum (map fneg l) = fneg (fsum l).
Proof.
  assert (U : forall x y : F, fadd x y = f0 -> y = fneg x).
  { intros x y H. rewrite <- (e_add_0_l _ L (fneg x)), <- H.
    rewrite (e_add_comm _ L x y), <- (e_add_assoc _ L), (e_add_neg _ L), (e_add_comm _ L). symmetry. apply (e_add_0_l _ L). }
  induction l as [|v l IH]; cbn [map fsum].
  - apply U. apply (e_add_0_l _ L).
  - rewrite IH. apply U.
    rewrite (e_add_comm _ L v), <- (e_add_assoc _ L), (e_add_assoc _ L v), (e_add_neg _ L), (e_add_0_l _ L). apply (e_add_neg _ L).
Qed.
End Exact.

Lemma nd_at_In : forall {V} (A : Nd V) k v, In (k, v) (nd_entries A) -> In v (nd_at A k).
Proof.
  intros V A k v H. unfold nd_at, at_key. apply in_map_iff. exists (k, v). split; auto.
  apply filter_In. split; auto. cbn [fst]. destruct (list_eq_dec Z.eq_dec k k); auto.
Qed.

Lemma nd_dat_nonzero : forall {F : Fl} (C : Nd F) (g : list Z -> list F), nd_ok C ->
  (forall k, in_shape (nd_shape C) k -> nd_at C k = filter nonzero (g k)) -> Forall (fun v => nonzero v = true) (nd_dat C).
Proof.
  intros F C g OK H. rewrite <- nd_entries_vals.
  apply Forall_forall. intros v HI. apply in_map_iff in HI. destruct HI as ((k & w) & E1 & I). cbn [snd] in E1. subst w.
  pose proof (nd_at_In _ _ _ I) as IV. rewrite H in IV.
  - apply filter_In in IV. tauto.
  - pose proof (nd_bound _ OK) as B. rewrite Forall_forall in B. apply B. unfold nd_entries in I. apply in_combine_l in I. auto.
Qed.

Lemma sort_pairs_le : forall {V}, is_sorter (@pair_le V) sort_pairs.
Proof. intros V. exact sort_pairs_sorter. Qed.

(** Deciding [nd_ok] of a literal. *)
Definition nd_ok_b {V} (A : Nd V) : bool :=
  negb (length (nd_shape A) =? 0)%nat && (length (nd_idx A) =? length (nd_dat A) * length (nd_shape A))%nat &&
  forallb (fun k => (length k =? length (nd_shape A))%nat &&
     forallb (fun xn => (0 <=? fst xn) && (fst xn <? snd xn) && (fst xn <=? i64_max)) (combine k (nd_shape A))) (nd_keys A).
Lemma nd_ok_literal : forall {V} (A : Nd V), nd_ok_b A = true -> nd_ok A.
Proof.
  intros V A H. unfold nd_ok_b in H. apply andb_prop in H. destruct H as [H H3]. apply andb_prop in H. destruct H as [H1 H2].
  constructor.
  - intros E. rewrite E in H1. discriminate.
  - apply Nat.eqb_eq. auto.
  - apply Forall_forall. intros k I. rewrite forallb_forall in H3. specialize (H3 k I). apply andb_prop in H3. destruct H3 as [LK H3].
    apply Nat.eqb_eq in LK. revert LK H3. generalize (nd_shape A). clear. induction k as [|x k IH]; intros [|n sh] LK H; simpl in LK; try lia.
    + constructor.
    + cbn [combine forallb fst snd] in H. apply andb_prop in H. destruct H as [H H']. constructor; [|apply IH; auto].
      rewrite !andb_true_iff in H. lia.
Qed.

(** ** C20: linear positions *)

(** The strides are the products of the later dimensions, whenever they are
    computed at all; they are whenever the cell count fits. *)
Theorem C20_strides_exact : forall sh ss, strides_rm sh = Ok ss ->
  length ss = length sh /\ forall d, (d < length sh)%nat -> nth d ss 0 = cells (skipn (S d) sh).
Proof.
  intros sh ss E. apply strides_rm_inv in E. subst ss. split; [apply sfx_length|].
  induction sh as [|n sh IH]; intros d H; simpl in H; [lia|]. destruct d as [|d]; auto.
  cbn [sfx nth skipn]. rewrite IH by lia. auto.
Qed.
Print Assumptions C20_strides_exact.

Theorem C20_strides_defined : forall sh, shape_fits sh -> exists ss, strides_rm sh = Ok ss.
Proof. intros. eexists. apply strides_rm_ok. auto. Qed.
Print Assumptions C20_strides_defined.

(** The linear index of in-bounds coordinates is the row-major position if it is
    representable, and a panic (never a wrapped value) otherwise. *)
Theorem C20_linearize_exact_or_panic : forall sh ss k, strides_rm sh = Ok ss -> in_shape sh k ->
  linearize ss k = if position sh k <=? usize_max then Ok (position sh k) else Panic.
Proof. intros sh ss k E H. apply strides_rm_inv in E. subst ss. apply linearize_exact. auto. Qed.
Print Assumptions C20_linearize_exact_or_panic.

Theorem C20_linearize : forall sh k, shape_fits sh -> in_shape sh k ->
  exists ss lin, strides_rm sh = Ok ss /\ linearize ss k = Ok lin /\ lin = position sh k /\
    0 <= lin < cells sh /\ lin < usize_max /\ delinearize ss lin = Ok k.
Proof.
  intros sh k SF IK. exists (sfx sh), (position sh k). pose proof (position_bounds sh k IK) as PB.
  pose proof (shape_fits_cells sh SF) as CB. split; [apply strides_rm_ok; auto|]. split.
  - rewrite linearize_exact by auto. destruct (Z.leb_spec (position sh k) usize_max); auto. lia.
  - split; auto. split; [lia|]. split; [lia|]. apply delinearize_ok. auto.
Qed.
Print Assumptions C20_linearize.

Theorem C20_positions_distinct : forall sh k k', in_shape sh k -> in_shape sh k' -> k <> k' -> position sh k <> position sh k'.
Proof. intros sh k k' H H' N E. apply N. eapply position_inj; eauto. Qed.
Print Assumptions C20_positions_distinct.

(** Every number below the cell count is the position of one coordinate tuple. *)
Theorem C20_positions_onto : forall sh p, Forall (fun n => 0 <= n <= i64_max + 1) sh -> 0 <= p < cells sh ->
  exists k, in_shape sh k /\ position sh k = p.
Proof.
  intros sh p H Hp. apply position_surj; auto; (eapply Forall_impl; [|exact H]); intros a Ha; cbv beta in Ha |- *; lia.
Qed.
Print Assumptions C20_positions_onto.

(** No wrap-around: a product of dimensions is exact or the call panics. *)
Theorem C20_product_exact_or_panic : forall sh, Forall (fun n => 0 <= n) sh ->
  product_checked sh = Ok (cells sh) /\ cells sh <= usize_max \/ product_checked sh = Panic.
Proof.
  intros sh N. unfold product_checked, cells.
  assert (G : forall l acc, Forall (fun n => 0 <= n) l -> 0 <= acc <= usize_max ->
     foldM checked_mul l acc = Ok (acc * fold_right Z.mul 1 l) /\ acc * fold_right Z.mul 1 l <= usize_max \/ foldM checked_mul l acc = Panic).
  { induction l as [|n l IH]; intros acc HN HA.
    - cbn [foldM fold_right]. left. rewrite Z.mul_1_r. split; auto. lia.
    - inversion HN; subst. cbn [foldM fold_right]. unfold checked_mul at 1 3. destruct (Z.leb_spec (acc * n) usize_max); cbn [bind]; auto.
      destruct (IH (acc * n) H2 ltac:(nia)) as [[E B]|E]; [left|right; auto].
      rewrite E. split; [f_equal; ring|]. rewrite Z.mul_assoc. lia. }
  destruct (G sh 1 N) as [[E B]|E]; [unfold usize_max; lia| |right; auto].
  left. rewrite Z.mul_1_l in *. auto.
Qed.
Print Assumptions C20_product_exact_or_panic.

(** With positive dimensions, too many cells is a panic of both computations. *)
Theorem C20_overflow_panics : forall sh, Forall (fun n => 0 < n) sh -> usize_max < cells sh ->
  product_checked sh = Panic /\ (usize_max < cells (tl sh) -> strides_rm sh = Panic).
Proof.
  intros sh P H. split.
  - destruct (C20_product_exact_or_panic sh) as [[_ B]|E]; auto; [|lia]. eapply Forall_impl; [|exact P]. simpl. intros; lia.
  - intros H'. apply strides_rm_panic; auto.
Qed.
Print Assumptions C20_overflow_panics.

Example C20_example :
  shape_fits [2; 3; 4] /\ in_shape [2; 3; 4] [1; 2; 3] /\ strides_rm [2; 3; 4] = Ok [12; 4; 1] /\
  linearize [12; 4; 1] [1; 2; 3] = Ok 23 /\ delinearize [12; 4; 1] 23 = Ok [1; 2; 3] /\
  usize_max < cells [2 ^ 40; 2 ^ 40] /\ product_checked [2 ^ 40; 2 ^ 40] = Panic /\
  strides_rm [3; 2 ^ 40; 2 ^ 40] = Panic.
Proof.
  split; [split; [repeat constructor; lia|vm_compute; discriminate]|].
  split; [unfold in_shape; repeat constructor; try lia; vm_compute; discriminate|].
  repeat split; vm_compute; auto.
Qed.

(** ** C21: reshape *)
Theorem C21_reshape : forall (F : Fl) sch (A : Nd F) sh, is_schedule sch -> nd_ok A -> sh <> [] ->
  shape_fits (nd_shape A) -> shape_fits sh -> Forall (fun n => n <= i64_max + 1) sh -> cells (nd_shape A) = cells sh ->
  exists C, reshape_coond sch A sh = Ok C /\ nd_ok C /\ nd_shape C = sh /\ nd_dat C = nd_dat A /\
    Forall2 (fun e e' => snd e = snd e' /\ position (nd_shape A) (fst e) = position sh (fst e')) (nd_entries A) (nd_entries C).
Proof. intros. apply reshape_ok; auto. Qed.
Print Assumptions C21_reshape.

Theorem C21_count_mismatch_panics : forall (F : Fl) sch (A : Nd F) sh, cells (nd_shape A) <> cells sh ->
  reshape_coond sch A sh = Panic.
Proof. intros. apply reshape_bad. auto. Qed.
Print Assumptions C21_count_mismatch_panics.

(** Reshaping and reshaping back, under any two schedules, restores the array. *)
Theorem C21_reshape_back : forall (F : Fl) sch sch' (A : Nd F) sh, is_schedule sch -> is_schedule sch' -> nd_ok A -> sh <> [] ->
  shape_fits (nd_shape A) -> shape_fits sh -> Forall (fun n => n <= i64_max + 1) sh ->
  Forall (fun n => n <= i64_max + 1) (nd_shape A) -> cells (nd_shape A) = cells sh ->
  exists C, reshape_coond sch A sh = Ok C /\ reshape_coond sch' C (nd_shape A) = Ok A.
Proof.
  intros F sch sch' A sh HS HS' OK NE SF SF' HI HI' EC.
  destruct (reshape_ok sch A sh HS OK NE SF SF' HI EC) as (C & E & OC & SC & DC & F2).
  exists C. split; auto.
  destruct (reshape_ok sch' C (nd_shape A) HS' OC) as (D & E' & OD & SD & DD & F2'); auto; try (rewrite SC; auto).
  { apply (nd_ndim _ OK). }
  rewrite E'. f_equal.
  assert (EE : nd_entries D = nd_entries A).
  { rewrite SC in F2'. pose proof (nd_bound _ OK) as B. pose proof (nd_bound _ OD) as BD. rewrite SD in BD.
    rewrite <- nd_entries_keys in B, BD. revert B BD F2 F2'. generalize (nd_entries A) (nd_entries C) (nd_entries D). clear.
    induction l as [|a l IH]; intros l0 l1 B BD F2 F2'.
    - inversion F2; subst. inversion F2'; subst. auto.
    - inversion F2 as [|? b ? l0' [V1 P1]]; subst. inversion F2' as [|? d ? l1' [V2 P2]]; subst.
      cbn [map] in B, BD. inversion B; subst. inversion BD; subst. f_equal; [|eapply IH; eauto].
      destruct a as [ka va], d as [kd vd]. cbn [fst snd] in *. f_equal; [|congruence].
      eapply position_inj; eauto. congruence. }
  rewrite <- (nd_of_nd_entries D), <- (nd_of_nd_entries A) at 1 by auto. rewrite EE, SD. auto.
Qed.
Print Assumptions C21_reshape_back.

(** Finding: without the bound on the new dimensions the result need not be
    in bounds: a coordinate of 2^63 or more is stored as a negative number. *)
Theorem C21_huge_dimension_refuted :
  exists (A C : Nd (f64 pw0)) sh, nd_ok A /\ shape_fits (nd_shape A) /\ shape_fits sh /\ cells (nd_shape A) = cells sh /\
    reshape_coond (fun l => l) A sh = Ok C /\ nd_idx C = [-4611686018427387905] /\ ~ nd_ok C.
Proof.
  exists (mkNd [3; 2 ^ 62] [2; 2 ^ 62 - 1] [fz 1]), (mkNd [3 * 2 ^ 62] [-4611686018427387905] [fz 1]), [3 * 2 ^ 62].
  split; [apply nd_ok_literal; vm_compute; auto|].
  split; [split; [repeat constructor; lia|vm_compute; discriminate]|].
  split; [split; [repeat constructor; lia|vm_compute; discriminate]|].
  split; [vm_compute; auto|]. split; [vm_compute; reflexivity|]. split; [reflexivity|].
  intros [_ _ B]. cbn [nd_keys nd_shape nd_idx nd_dat length chunks firstn] in B.
  inversion B as [|? ? H]; subst. inversion H; subst. lia.
Qed.
Print Assumptions C21_huge_dimension_refuted.

Definition W3 : Nd (f64 pw0) := mkNd [2; 3; 2] [0;2;1; 1;0;0; 0;2;1; 1;2;0] [fz 1; fz 2; fz 3; fz (-5)].
Lemma W3_ok : nd_ok W3.
Proof. apply nd_ok_literal. vm_compute. auto. Qed.
Lemma W3_fits : shape_fits (nd_shape W3).
Proof. split; [repeat constructor; lia|vm_compute; discriminate]. Qed.

Example C21_example :
  nd_ok W3 /\ shape_fits [4; 3] /\ cells (nd_shape W3) = cells [4; 3] /\
  reshape_coond (@rev _) W3 [4; 3] = Ok (mkNd [4; 3] [1;2; 2;0; 1;2; 3;1] (nd_dat W3)) /\
  reshape_coond (@rev _) (mkNd [4; 3] [1;2; 2;0; 1;2; 3;1] (nd_dat W3)) (nd_shape W3) = Ok W3.
Proof.
  split; [apply W3_ok|]. split; [split; [repeat constructor; lia|vm_compute; discriminate]|].
  repeat split; vm_compute; reflexivity.
Qed.

(** ** C22: permute_dims *)
Theorem C22_permute : forall (F : Fl) (A : Nd F) p, nd_ok A -> Permutation p (seq 0 (length (nd_shape A))) ->
  exists C, permute_axes_coond A p = Ok C /\ nd_ok C /\
    nd_shape C = map (fun d => nth d (nd_shape A) 0) p /\
    nd_entries C = map (fun e => (map (fun d => nth d (fst e) 0) p, snd e)) (nd_entries A).
Proof.
  intros F A p OK P. destruct (permute_entries A p OK P) as [OC EC]. eexists. split; [apply permute_ok; auto|].
  split; [exact OC|]. split; [reflexivity|]. exact EC.
Qed.
Print Assumptions C22_permute.

Theorem C22_not_a_permutation_panics : forall (F : Fl) (A : Nd F) p,
  ~ Permutation p (seq 0 (length (nd_shape A))) -> permute_axes_coond A p = Panic.
Proof. intros. apply permute_bad. auto. Qed.
Print Assumptions C22_not_a_permutation_panics.

(** [q] is the inverse of [p]: axis d of the second result is axis p[q[d]] = d. *)
Theorem C22_inverse_restores : forall (F : Fl) (A : Nd F) p q, nd_ok A -> Permutation p (seq 0 (length (nd_shape A))) ->
  Permutation q (seq 0 (length (nd_shape A))) -> map (fun d => nth d p 0%nat) q = seq 0 (length (nd_shape A)) ->
  exists C, permute_axes_coond A p = Ok C /\ permute_axes_coond C q = Ok A.
Proof.
  intros F A p q OK P Q INV. eexists. split; [apply permute_ok; auto|].
  destruct (permute_entries A p OK P) as [OC EC].
  set (C := nd_of (select p (nd_shape A)) (map (fun e => (select p (fst e), snd e)) (nd_entries A))) in *.
  assert (LP : length p = length (nd_shape A)) by (rewrite (Permutation_length P), seq_length; auto).
  assert (SC : nd_shape C = select p (nd_shape A)) by reflexivity.
  assert (LC : length (nd_shape C) = length (nd_shape A)) by (rewrite SC; unfold select; rewrite map_length; auto).
  rewrite permute_ok by (auto; rewrite LC; auto).
  rewrite EC, SC, map_map. cbn [fst snd].
  assert (QB : Forall (fun d => (d < length p)%nat) q).
  { apply Forall_forall. intros d I. apply (Permutation_in d Q) in I. apply in_seq in I. lia. }
  assert (SID : forall k, length k = length (nd_shape A) -> select q (select p k) = k).
  { intros k LK. rewrite select_select, INV by auto. unfold select. rewrite (map_nth_seq (fun x => x)) by auto. apply map_id. }
  rewrite SID by auto. f_equal.
  pose proof (nd_bound _ OK) as B. pose proof (nd_entries_keys A) as KE.
  assert (ME : map (fun x => (select q (select p (fst x)), snd x)) (nd_entries A) = nd_entries A).
  { rewrite <- (map_id (nd_entries A)) at 2. apply map_ext_in. intros [k v] I. cbn [fst snd]. rewrite SID; auto.
    apply (in_map fst) in I. rewrite KE in I. rewrite Forall_forall in B. specialize (B _ I). apply in_shape_length in B. auto. }
  rewrite ME. apply nd_of_nd_entries. auto.
Qed.
Print Assumptions C22_inverse_restores.

Example C22_example :
  nd_ok W3 /\ Permutation [2; 0; 1]%nat (seq 0 (length (nd_shape W3))) /\
  permute_axes_coond W3 [2; 0; 1]%nat = Ok (mkNd [2; 2; 3] [1;0;2; 0;1;0; 1;0;2; 0;1;2] (nd_dat W3)) /\
  map (fun d => nth d [2; 0; 1]%nat 0%nat) [1; 2; 0]%nat = seq 0 (length (nd_shape W3)) /\
  ~ Permutation [2; 0; 0]%nat (seq 0 (length (nd_shape W3))).
Proof.
  split; [apply W3_ok|]. split.
  { cbn. change [0; 1; 2]%nat with ([0; 1] ++ [2])%nat. change [2; 0; 1]%nat with ([2] ++ [0; 1])%nat. apply Permutation_app_comm. }
  split; [vm_compute; reflexivity|]. split; [reflexivity|].
  intros P. apply Permutation_sym in P. pose proof (Permutation_NoDup P (seq_NoDup _ _)) as N. inversion N as [|? ? N1 N2]. inversion N2 as [|? ? N3 N4]. apply N3. left. auto.
Qed.

(** ** C23: add and subtract *)
Theorem C23_add : forall (F : Fl) srt (A B : Nd F), is_sorter pair_le srt -> nd_ok A -> nd_ok B ->
  nd_shape A = nd_shape B -> shape_fits (nd_shape A) ->
  exists C, add_coond srt A B = Ok C /\ nd_ok C /\ nd_shape C = nd_shape A /\ nd_sorted C /\
    Forall (fun v => nonzero v = true) (nd_dat C) /\
    forall k, in_shape (nd_shape A) k -> nd_at C k = filter nonzero (left_sum (nd_at A k ++ nd_at B k)).
Proof.
  intros F srt A B HS OA OB ES SF. destruct (addsub_ok (fun v => v) srt A B HS OA OB ES SF) as (C & E & OC & SC & SO & AT).
  exists C. repeat (split; [assumption|]). split.
  - eapply nd_dat_nonzero; eauto. rewrite SC. exact AT.
  - intros k IK. rewrite AT by auto. rewrite map_id. auto.
Qed.
Print Assumptions C23_add.

Theorem C23_sub : forall (F : Fl) srt (A B : Nd F), is_sorter pair_le srt -> nd_ok A -> nd_ok B ->
  nd_shape A = nd_shape B -> shape_fits (nd_shape A) ->
  exists C, sub_coond srt A B = Ok C /\ nd_ok C /\ nd_shape C = nd_shape A /\ nd_sorted C /\
    Forall (fun v => nonzero v = true) (nd_dat C) /\
    forall k, in_shape (nd_shape A) k -> nd_at C k = filter nonzero (left_sum (nd_at A k ++ map fneg (nd_at B k))).
Proof.
  intros F srt A B HS OA OB ES SF. destruct (addsub_ok fneg srt A B HS OA OB ES SF) as (C & E & OC & SC & SO & AT).
  exists C. repeat (split; [assumption|]). split; auto.
  eapply nd_dat_nonzero; eauto. rewrite SC. exact AT.
Qed.
Print Assumptions C23_sub.

Theorem C23_shape_mismatch_panics : forall (F : Fl) srt (A B : Nd F), nd_shape A <> nd_shape B ->
  add_coond srt A B = Panic /\ sub_coond srt A B = Panic.
Proof. intros. split; apply addsub_shape; auto. Qed.
Print Assumptions C23_shape_mismatch_panics.

(** Strictly increasing positions mean at most one entry per coordinate. *)
Theorem C23_sorted_no_duplicates : forall V (C : Nd V), nd_ok C -> nd_sorted C ->
  NoDup (nd_keys C) /\ forall k, (length (nd_at C k) <= 1)%nat.
Proof.
  intros V C OK SO.
  assert (ND : NoDup (nd_keys C)).
  { unfold nd_sorted in SO. induction SO; constructor; auto. intros I. rewrite Forall_forall in H. specialize (H _ I). lia. }
  split; auto. intros k. unfold nd_at, at_key. rewrite map_length. unfold nd_entries.
  revert ND. generalize (nd_keys C) (nd_dat C). induction l as [|a l IH]; intros [|v vs] ND; cbn [combine filter length]; try lia.
  inversion ND; subst. cbn [fst]. destruct (list_eq_dec Z.eq_dec a k) as [->|]; cbn [length]; auto.
  assert (E : filter (fun e => if list_eq_dec Z.eq_dec (fst e) k then true else false) (combine l vs) = []).
  { clear - H1. revert vs. induction l as [|b l IH]; intros [|v vs]; auto. cbn [combine filter fst].
    destruct (list_eq_dec Z.eq_dec b k) as [->|]; [exfalso; apply H1; left; auto|]. apply IH. intros I. apply H1. right. auto. }
  rewrite E. simpl. lia.
Qed.
Print Assumptions C23_sorted_no_duplicates.

Theorem C23_add_sub_exact : forall srt (A B : Nd qc), is_sorter pair_le srt -> nd_ok A -> nd_ok B ->
  nd_shape A = nd_shape B -> shape_fits (nd_shape A) ->
  exists C D, add_coond srt A B = Ok C /\ sub_coond srt A B = Ok D /\
    forall k, in_shape (nd_shape A) k ->
      one_or f0 (nd_at C k) = fadd (fold_right fadd f0 (nd_at A k)) (fold_right fadd f0 (nd_at B k)) /\
      one_or f0 (nd_at D k) = fsub (fold_right fadd f0 (nd_at A k)) (fold_right fadd f0 (nd_at B k)).
Proof.
  intros srt A B HS OA OB ES SF. destruct (C23_add _ srt A B HS OA OB ES SF) as (C & E & _ & _ & _ & _ & AT).
  destruct (C23_sub _ srt A B HS OA OB ES SF) as (D & E' & _ & _ & _ & _ & AT').
  exists C, D. split; auto. split; auto. intros k IK. rewrite AT, AT' by auto.
  change (fold_right (@fadd qc) f0) with (@fsum qc).
  rewrite !(one_or_filter qc_elaws) by apply left_sum_length. rewrite !(left_sum_exact qc_elaws).
  split; [apply (fsum_app qc_elaws)|]. rewrite (fsum_app qc_elaws), (fsum_neg qc_elaws). symmetry. apply (e_sub _ qc_elaws).
Qed.
Print Assumptions C23_add_sub_exact.

(** Finding: the limit of 2^64 - 1 cells is sharp. With 2^64 cells no overflow is
    detected, yet the value in the last cell (whose position is the hash map's
    reserved key) is lost. *)
Theorem C23_beyond_limit_value_lost :
  exists A B : Nd (f64 pw0), nd_ok A /\ nd_ok B /\ nd_shape A = nd_shape B /\
    nd_at A [2 ^ 32 - 1; 2 ^ 32 - 1] = [fz 1] /\ nd_dat B = [] /\
    rmap (fun C => length (nd_dat C)) (add_coond sort_pairs A B) = Ok 0%nat.
Proof.
  exists (mkNd [2 ^ 32; 2 ^ 32] [2 ^ 32 - 1; 2 ^ 32 - 1] [fz 1]), (mkNd [2 ^ 32; 2 ^ 32] [] []).
  split; [apply nd_ok_literal; vm_compute; auto|]. split; [apply nd_ok_literal; vm_compute; auto|].
  repeat split; vm_compute; reflexivity.
Qed.
Print Assumptions C23_beyond_limit_value_lost.

Definition W3b : Nd (f64 pw0) := mkNd [2; 3; 2] [0;2;1; 1;0;0; 1;1;1] [fz (-4); fz 2; fz 7].
Lemma W3b_ok : nd_ok W3b.
Proof. apply nd_ok_literal. vm_compute. auto. Qed.
Example C23_example :
  nd_ok W3 /\ nd_ok W3b /\ nd_shape W3 = nd_shape W3b /\ shape_fits (nd_shape W3) /\ is_sorter (@pair_le (f64 pw0)) sort_pairs /\
  add_coond sort_pairs W3 W3b = Ok (mkNd [2; 3; 2] [1;0;0; 1;1;1; 1;2;0] [fz 4; fz 7; fz (-5)]) /\
  sub_coond sort_pairs W3 W3b = Ok (mkNd [2; 3; 2] [0;2;1; 1;1;1; 1;2;0] [fz 8; fz (-7); fz (-5)]).
Proof.
  split; [apply W3_ok|]. split; [apply W3b_ok|]. split; [auto|]. split; [apply W3_fits|]. split; [apply sort_pairs_le|].
  split; vm_compute; reflexivity.
Qed.

(** ** C24: elementwise product, plain and broadcasting *)
Theorem C24_hadamard : forall (F : Fl) srt (A B : Nd F), is_sorter pair_le srt -> nd_ok A -> nd_ok B ->
  nd_shape A = nd_shape B -> shape_fits (nd_shape A) ->
  exists C, hadamard_coond srt A B = Ok C /\ nd_ok C /\ nd_shape C = nd_shape A /\ nd_sorted C /\
    forall k, in_shape (nd_shape A) k ->
      nd_at C k = filter nonzero (match left_sum (nd_at A k), left_sum (nd_at B k) with
                                  | a :: _, b :: _ => [fmul a b] | _, _ => [] end).
Proof. intros. apply hadamard_coond_ok; auto. Qed.
Print Assumptions C24_hadamard.

Theorem C24_hadamard_shape_mismatch_panics : forall (F : Fl) srt (A B : Nd F), nd_shape A <> nd_shape B ->
  hadamard_coond srt A B = Panic.
Proof. intros. apply hadamard_coond_shape. auto. Qed.
Print Assumptions C24_hadamard_shape_mismatch_panics.

(** Positive dimensions: see the finding below for empty ones. *)
Theorem C24_broadcast : forall (F : Fl) scha schb ord threads srt (A B : Nd F),
  is_schedule scha -> is_schedule schb -> (forall l, Permutation l (ord l)) -> is_sorter pair_le srt ->
  nd_ok A -> nd_ok B -> broadcastable (nd_shape A) (nd_shape B) ->
  Forall (fun n => 0 < n) (nd_shape A) -> Forall (fun n => 0 < n) (nd_shape B) ->
  cells (broadcast_shape (nd_shape A) (nd_shape B)) <= usize_max ->
  exists C, hadamard_broadcast_coond scha schb ord threads srt A B = Ok C /\ nd_ok C /\
    nd_shape C = broadcast_shape (nd_shape A) (nd_shape B) /\ nd_sorted C /\
    forall k, in_shape (nd_shape C) k ->
      nd_at C k = left_sum (products (nd_at A (source_cell (nd_shape A) k)) (nd_at B (source_cell (nd_shape B) k))).
Proof. intros. apply hadamard_broadcast_ok; auto. Qed.
Print Assumptions C24_broadcast.

Theorem C24_broadcast_mismatch_panics : forall (F : Fl) scha schb ord threads srt (A B : Nd F),
  ~ broadcastable (nd_shape A) (nd_shape B) -> hadamard_broadcast_coond scha schb ord threads srt A B = Panic.
Proof. intros. apply hadamard_broadcast_bad. auto. Qed.
Print Assumptions C24_broadcast_mismatch_panics.

Theorem C24_hadamard_exact : forall srt (A B : Nd qc), is_sorter pair_le srt -> nd_ok A -> nd_ok B ->
  nd_shape A = nd_shape B -> shape_fits (nd_shape A) ->
  exists C, hadamard_coond srt A B = Ok C /\
    forall k, in_shape (nd_shape A) k ->
      one_or f0 (nd_at C k) = fmul (fold_right fadd f0 (nd_at A k)) (fold_right fadd f0 (nd_at B k)).
Proof.
  intros srt A B HS OA OB ES SF. destruct (C24_hadamard _ srt A B HS OA OB ES SF) as (C & E & _ & _ & _ & AT).
  exists C. split; auto. intros k IK. rewrite AT by auto. change (fold_right (@fadd qc) f0) with (@fsum qc).
  rewrite <- !(left_sum_exact qc_elaws). rewrite (one_or_filter qc_elaws).
  - pose proof (left_sum_length (nd_at A k)). pose proof (left_sum_length (nd_at B k)).
    destruct (left_sum (nd_at A k)) as [|a la].
    + cbn [one_or]. symmetry. apply (e_mul_0_l qc_elaws).
    + destruct (left_sum (nd_at B k)) as [|b lb]; cbn [one_or]; auto.
      rewrite (e_mul_comm _ qc_elaws). symmetry. apply (e_mul_0_l qc_elaws).
  - destruct (left_sum (nd_at A k)); destruct (left_sum (nd_at B k)); simpl; lia.
Qed.
Print Assumptions C24_hadamard_exact.

Theorem C24_broadcast_exact : forall scha schb ord threads srt (A B : Nd qc),
  is_schedule scha -> is_schedule schb -> (forall l, Permutation l (ord l)) -> is_sorter pair_le srt ->
  nd_ok A -> nd_ok B -> broadcastable (nd_shape A) (nd_shape B) ->
  Forall (fun n => 0 < n) (nd_shape A) -> Forall (fun n => 0 < n) (nd_shape B) ->
  cells (broadcast_shape (nd_shape A) (nd_shape B)) <= usize_max ->
  exists C, hadamard_broadcast_coond scha schb ord threads srt A B = Ok C /\
    forall k, in_shape (nd_shape C) k ->
      one_or f0 (nd_at C k) = fmul (fold_right fadd f0 (nd_at A (source_cell (nd_shape A) k)))
                                   (fold_right fadd f0 (nd_at B (source_cell (nd_shape B) k))).
Proof.
  intros scha schb ord threads srt A B H1 H2 H3 H4 OA OB BC PA PB CB.
  destruct (C24_broadcast _ scha schb ord threads srt A B) as (C & E & _ & _ & _ & AT); auto.
  exists C. split; auto. intros k IK. rewrite AT by auto. change (fold_right (@fadd qc) f0) with (@fsum qc).
  rewrite (left_sum_exact qc_elaws). apply (fsum_products qc_elaws).
Qed.
Print Assumptions C24_broadcast_exact.

(** Finding: a dimension of size 0 aligned with one of size 1 broadcasts to 1, where
    the NumPy rule gives 0. *)
Theorem C24_broadcast_empty_dimension_refuted :
  exists (A B C : Nd (f64 pw0)), nd_ok A /\ nd_ok B /\ broadcastable (nd_shape A) (nd_shape B) /\
    hadamard_broadcast_coond (fun l => l) (fun l => l) (fun l => l) 1%nat sort_pairs A B = Ok C /\
    nd_shape C = [1] /\ broadcast_shape (nd_shape A) (nd_shape B) = [0].
Proof.
  exists (mkNd [1] [0] [fz 1]), (mkNd [0] [] []), (mkNd [1] [] []).
  split; [apply nd_ok_literal; vm_compute; auto|]. split; [apply nd_ok_literal; vm_compute; auto|].
  split; [unfold broadcastable; cbn; constructor; [lia|constructor]|].
  repeat split; vm_compute; reflexivity.
Qed.
Print Assumptions C24_broadcast_empty_dimension_refuted.

Definition W1 : Nd (f64 pw0) := mkNd [3; 1] [0;0; 2;0; 2;0] [fz 3; fz 5; fz 1].
Example C24_example :
  nd_ok W3 /\ nd_ok W1 /\ broadcastable (nd_shape W3) (nd_shape W1) /\
  broadcast_shape (nd_shape W3) (nd_shape W1) = [2; 3; 2] /\ cells [2; 3; 2] <= usize_max /\
  hadamard_broadcast_coond (@rev _) (fun l => l) (@rev _) 3%nat sort_pairs W3 W1 =
    Ok (mkNd [2; 3; 2] [0;2;1; 1;0;0; 1;2;0] [fz 24; fz 6; fz (-30)]) /\
  hadamard_coond sort_pairs W3 W3b = Ok (mkNd [2; 3; 2] [0;2;1; 1;0;0] [fz (-16); fz 4]).
Proof.
  split; [apply W3_ok|]. split; [apply nd_ok_literal; vm_compute; auto|].
  split; [unfold broadcastable; cbn; repeat constructor; lia|].
  split; [reflexivity|]. split; [vm_compute; discriminate|].
  split; vm_compute; reflexivity.
Qed.
