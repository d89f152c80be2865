(** Properties C16-C18: scalar elementwise operations, pruning, zero elimination. *)
Require Import List ZArith Bool Lia Permutation.
Require Import Coq.Floats.SpecFloat.
Require Import Verif.Res Verif.Values Verif.Spec Verif.Mem Verif.Lists Verif.CsLib Verif.Laws Verif.FloatFacts.
Require Import Verif.MConvert Verif.NdLib Verif.MScalar Verif.PScalar Verif.Witness.
Import ListNotations.
Local Open Scope Z_scope.

(** ** C16. Shape and index arrays unchanged, the p-th value is the image of the p-th value. *)

Theorem C16_mul_scalar : forall pw (alpha : f64 pw),
  let f := fun v : f64 pw => if feqb alpha f1 then v else if feqb alpha f0 then f0 else fmul v alpha in
  (forall A : Csr (f64 pw), mul_scalar_csr alpha A = Ok (mkCs (major A) (minor A) (ptr A) (idx A) (map f (dat A)))) /\
  (forall A : Csc (f64 pw), mul_scalar_csc alpha A = Ok (mkCs (major A) (minor A) (ptr A) (idx A) (map f (dat A)))) /\
  (forall A : Coo (f64 pw), mul_scalar_coo alpha A
     = Ok (mkCoo (coo_nrows A) (coo_ncols A) (coo_row A) (coo_col A) (map f (coo_data A)))) /\
  (forall A : Nd (f64 pw), mul_scalar_coond alpha A = Ok (mkNd (nd_shape A) (nd_idx A) (map f (nd_dat A)))).
Proof.
  intros pw alpha f. unfold mul_scalar_csr, mul_scalar_csc, mul_scalar_coo, mul_scalar_coond, cs_with, coo_with, nd_with.
  repeat split; intros A; rewrite mul_scalar_data_ok; reflexivity.
Qed.
Print Assumptions C16_mul_scalar.

Theorem C16_abs : forall pw,
  let f := fun v : f64 pw => fabs v in
  (forall A : Csr (f64 pw), abs_csr A = Ok (mkCs (major A) (minor A) (ptr A) (idx A) (map f (dat A)))) /\
  (forall A : Csc (f64 pw), abs_csc A = Ok (mkCs (major A) (minor A) (ptr A) (idx A) (map f (dat A)))) /\
  (forall A : Coo (f64 pw), abs_coo A
     = Ok (mkCoo (coo_nrows A) (coo_ncols A) (coo_row A) (coo_col A) (map f (coo_data A)))) /\
  (forall A : Nd (f64 pw), abs_coond A = Ok (mkNd (nd_shape A) (nd_idx A) (map f (nd_dat A)))).
Proof.
  intros pw f. unfold abs_csr, abs_csc, abs_coo, abs_coond, cs_with, coo_with, nd_with.
  repeat split; intros A; rewrite abs_data_ok; reflexivity.
Qed.
Print Assumptions C16_abs.

Theorem C16_sign : forall pw,
  let f := fun v : f64 pw => if fnan v then v else if fltb f0 v then f1 else if fltb v f0 then fneg f1 else f0 in
  (forall A : Csr (f64 pw), sign_csr A = Ok (mkCs (major A) (minor A) (ptr A) (idx A) (map f (dat A)))) /\
  (forall A : Csc (f64 pw), sign_csc A = Ok (mkCs (major A) (minor A) (ptr A) (idx A) (map f (dat A)))) /\
  (forall A : Coo (f64 pw), sign_coo A
     = Ok (mkCoo (coo_nrows A) (coo_ncols A) (coo_row A) (coo_col A) (map f (coo_data A)))) /\
  (forall A : Nd (f64 pw), sign_coond A = Ok (mkNd (nd_shape A) (nd_idx A) (map f (nd_dat A)))).
Proof.
  intros pw f. unfold sign_csr, sign_csc, sign_coo, sign_coond, cs_with, coo_with, nd_with.
  repeat split; intros A; unfold sign_data; rewrite par_map_ok; reflexivity.
Qed.
Print Assumptions C16_sign.

Theorem C16_pow_scalar : forall pw (alpha : f64 pw),
  let f := fun v : f64 pw => fpow v alpha in
  (forall A : Csr (f64 pw), pow_scalar_csr alpha A = Ok (mkCs (major A) (minor A) (ptr A) (idx A) (map f (dat A)))) /\
  (forall A : Csc (f64 pw), pow_scalar_csc alpha A = Ok (mkCs (major A) (minor A) (ptr A) (idx A) (map f (dat A)))) /\
  (forall A : Coo (f64 pw), pow_scalar_coo alpha A
     = Ok (mkCoo (coo_nrows A) (coo_ncols A) (coo_row A) (coo_col A) (map f (coo_data A)))) /\
  (forall A : Nd (f64 pw), pow_scalar_coond alpha A = Ok (mkNd (nd_shape A) (nd_idx A) (map f (nd_dat A)))).
Proof.
  intros pw alpha f. unfold pow_scalar_csr, pow_scalar_csc, pow_scalar_coo, pow_scalar_coond, cs_with, coo_with, nd_with.
  repeat split; intros A; unfold pow_scalar_data; rewrite par_map_ok; reflexivity.
Qed.
Print Assumptions C16_pow_scalar.

Theorem C16_rem_scalar : forall pw (alpha : f64 pw),
  let f := fun v : f64 pw => fsub v (fmul alpha (ffloor (fdiv v alpha))) in
  (forall A : Csr (f64 pw), rem_scalar_csr alpha A = Ok (mkCs (major A) (minor A) (ptr A) (idx A) (map f (dat A)))) /\
  (forall A : Csc (f64 pw), rem_scalar_csc alpha A = Ok (mkCs (major A) (minor A) (ptr A) (idx A) (map f (dat A)))) /\
  (forall A : Coo (f64 pw), rem_scalar_coo alpha A
     = Ok (mkCoo (coo_nrows A) (coo_ncols A) (coo_row A) (coo_col A) (map f (coo_data A)))) /\
  (forall A : Nd (f64 pw), rem_scalar_coond alpha A = Ok (mkNd (nd_shape A) (nd_idx A) (map f (nd_dat A)))).
Proof.
  intros pw alpha f. unfold rem_scalar_csr, rem_scalar_csc, rem_scalar_coo, rem_scalar_coond, cs_with, coo_with, nd_with.
  repeat split; intros A; unfold rem_scalar_data; rewrite par_map_ok; reflexivity.
Qed.
Print Assumptions C16_rem_scalar.

Theorem C16_floordiv_scalar : forall pw (alpha : f64 pw),
  let f := fun v : f64 pw => ffloor (fdiv v alpha) in
  (forall A : Csr (f64 pw), floordiv_scalar_csr alpha A = Ok (mkCs (major A) (minor A) (ptr A) (idx A) (map f (dat A)))) /\
  (forall A : Csc (f64 pw), floordiv_scalar_csc alpha A = Ok (mkCs (major A) (minor A) (ptr A) (idx A) (map f (dat A)))) /\
  (forall A : Coo (f64 pw), floordiv_scalar_coo alpha A
     = Ok (mkCoo (coo_nrows A) (coo_ncols A) (coo_row A) (coo_col A) (map f (coo_data A)))) /\
  (forall A : Nd (f64 pw), floordiv_scalar_coond alpha A = Ok (mkNd (nd_shape A) (nd_idx A) (map f (nd_dat A)))).
Proof.
  intros pw alpha f. unfold floordiv_scalar_csr, floordiv_scalar_csc, floordiv_scalar_coo, floordiv_scalar_coond, cs_with, coo_with, nd_with.
  repeat split; intros A; unfold floordiv_scalar_data; rewrite par_map_ok; reflexivity.
Qed.
Print Assumptions C16_floordiv_scalar.

(** The two shortcuts of scalar multiplication agree with IEEE multiplication up
    to the sign of zero, except for non-finite values times zero. *)
Theorem C16_mul_scalar_is_product : forall pw alpha (A : Csr (f64 pw)),
  Forall valid64 (dat A) -> (feqb alpha f0 = true -> Forall (fun v : f64 pw => ffinite v = true) (dat A)) ->
  exists B, mul_scalar_csr alpha A = Ok B /\ ptr B = ptr A /\ idx B = idx A /\
    Forall2 (fun v w : f64 pw => feqv w (fmul v alpha)) (dat A) (dat B).
Proof.
  intros pw alpha A V Fin. destruct (C16_mul_scalar pw alpha) as [H _]. eexists. split; [apply H|].
  split; [reflexivity|]. split; [reflexivity|]. cbn [dat]. clear H.
  induction (dat A) as [|v l IH]; [constructor|]. inv V.
  cbn [map]. constructor.
  - destruct (feqb alpha f1) eqn:E1.
    + apply SFeqb_one in E1. subst. left. symmetry. apply SFmul_1_r. auto.
    + destruct (feqb alpha f0) eqn:E0; [|apply feqv_refl].
      specialize (Fin eq_refl). inv Fin. apply feqv_sym.
      apply feqv_trans with (fmul v f0).
      * apply (n_mul_feqv _ (f64_laws pw)); [apply feqv_refl|]. right. split; auto.
      * rewrite (n_mul_comm _ (f64_laws pw)). apply (n_mul_0_finite _ (f64_laws pw)). auto.
  - apply IH; auto. intros E. specialize (Fin E). inv Fin. auto.
Qed.
Print Assumptions C16_mul_scalar_is_product.

(** Without the finiteness condition this fails: NaN times zero is stored as 0. *)
Theorem C16_mul_scalar_zero_times_nan_refuted : exists (A B : Csr (f64 pw0)) (alpha : f64 pw0) v w,
  canonical A /\ mul_scalar_csr alpha A = Ok B /\ csr_at A 0 0 = [v] /\ csr_at B 0 0 = [w] /\
  fnan (fmul v alpha) = true /\ fnan w = false.
Proof.
  exists (mkCs 1 1 [0; 1] [0] [fnan0]), (mkCs 1 1 [0; 1] [0] [fz 0]), (fz 0), fnan0, (fz 0).
  split; [apply canonical_literal; reflexivity|]. repeat split; vm_compute; reflexivity.
Qed.
Print Assumptions C16_mul_scalar_zero_times_nan_refuted.

Example C16_example : canonical WA /\ Forall valid64 (dat WA) /\
  mul_scalar_csr (fz 2) WA = Ok (mkCs 3 4 (ptr WA) (idx WA) (map (fun v : f64 pw0 => fmul v (fz 2)) (dat WA))) /\
  abs_csr WA = Ok (mkCs 3 4 (ptr WA) (idx WA) [fz 1; fz 2; fz 3; fnan0; fz 4]).
Proof.
  split; [apply WA_canonical|]. split; [repeat constructor|]. split; vm_compute; reflexivity.
Qed.

(** ** C17 *)

Theorem C17_prune_csr : forall pw sch (eps : f64 pw) (A : Csr (f64 pw)),
  is_schedule sch -> cs_ok A -> fltb eps f0 = false -> feqb eps f0 = false ->
  exists B : Csr (f64 pw), prune_csr sch eps A = Ok B /\ cs_ok B /\ (canonical A -> canonical B) /\
    csr_nrows B = csr_nrows A /\ csr_ncols B = csr_ncols A /\
    (forall k, (k < major A)%nat -> cs_row B k = filter (fun e => fltb eps (fabs (snd e))) (cs_row A k)) /\
    (forall i j, (i < csr_nrows A)%nat -> (j < csr_ncols A)%nat ->
       csr_at B i j = filter (fun v => fltb eps (fabs v)) (csr_at A i j)).
Proof.
  intros pw sch eps A HS OK H1 H2. exists (pruned eps A).
  split. { apply prune_cs_ok; auto. congruence. }
  split; [apply filter_rows_ok; auto|]. split; [apply filter_rows_canonical|].
  split; [apply filter_rows_major|]. split; [reflexivity|].
  split; [intros; apply filter_rows_row; auto|].
  intros i j Hi Hj. unfold csr_at, cs_at, pruned, copy_significant. rewrite filter_rows_row by auto.
  apply (at_index_filter (significant eps)).
Qed.
Print Assumptions C17_prune_csr.

Theorem C17_prune_csc : forall pw sch (eps : f64 pw) (A : Csc (f64 pw)),
  is_schedule sch -> cs_ok A -> fltb eps f0 = false -> feqb eps f0 = false ->
  exists B : Csc (f64 pw), prune_csc sch eps A = Ok B /\ cs_ok B /\ (canonical A -> canonical B) /\
    csc_nrows B = csc_nrows A /\ csc_ncols B = csc_ncols A /\
    (forall k, (k < major A)%nat -> cs_row B k = filter (fun e => fltb eps (fabs (snd e))) (cs_row A k)) /\
    (forall i j, (i < csc_nrows A)%nat -> (j < csc_ncols A)%nat ->
       csc_at B i j = filter (fun v => fltb eps (fabs v)) (csc_at A i j)).
Proof.
  intros pw sch eps A HS OK H1 H2. exists (pruned eps A).
  split. { apply prune_cs_ok; auto. congruence. }
  split; [apply filter_rows_ok; auto|]. split; [apply filter_rows_canonical|].
  split; [reflexivity|]. split; [apply filter_rows_major|].
  split; [intros; apply filter_rows_row; auto|].
  intros i j Hi Hj. unfold csc_at, cs_at, pruned, copy_significant. rewrite filter_rows_row by auto.
  apply (at_index_filter (significant eps)).
Qed.
Print Assumptions C17_prune_csc.

Theorem C17_prune_coo : forall pw (eps : f64 pw) (A : Coo (f64 pw)),
  coo_ok A -> fltb eps f0 = false ->
  exists B, prune_coo eps A = Ok B /\ coo_ok B /\ coo_nrows B = coo_nrows A /\ coo_ncols B = coo_ncols A /\
    coo_entries B = filter (fun e => fltb eps (fabs (snd e))) (coo_entries A).
Proof.
  intros pw eps A OK H. destruct (prune_coo_ok eps A OK H) as (B & E & N1 & N2 & OB & EB).
  exists B. repeat (split; [assumption|]). exact EB.
Qed.
Print Assumptions C17_prune_coo.

Theorem C17_prune_coond : forall pw (eps : f64 pw) (A : Nd (f64 pw)),
  nd_ok A -> fltb eps f0 = false ->
  exists B, prune_coond eps A = Ok B /\ nd_ok B /\ nd_shape B = nd_shape A /\
    nd_entries B = filter (fun e => fltb eps (fabs (snd e))) (nd_entries A).
Proof.
  intros pw eps A OK H. eexists. split; [apply prune_coond_ok; auto|].
  assert (FB := nd_entries_ok A OK).
  split; [|split; [reflexivity|]].
  - apply nd_of_ok; [apply (nd_ndim _ OK)|]. apply Forall_filter. auto.
  - apply nd_of_entries. apply Forall_filter. eapply Forall_impl; [|exact FB]. intros. apply in_shape_length. auto.
Qed.
Print Assumptions C17_prune_coond.

Theorem C17_negative_eps_is_identity : forall pw sch (eps : f64 pw), fltb eps f0 = true ->
  (forall A, prune_csr sch eps A = Ok A) /\ (forall A, prune_csc sch eps A = Ok A) /\
  (forall A, prune_coo eps A = Ok A) /\ (forall A, prune_coond eps A = Ok A).
Proof.
  intros pw sch eps H. unfold prune_csr, prune_csc, prune_cs, prune_coo, prune_coond. rewrite H. auto.
Qed.
Print Assumptions C17_negative_eps_is_identity.

Example C17_example : cs_ok WA /\ fltb (fz 2) (f0 : f64 pw0) = false /\ feqb (fz 2) (f0 : f64 pw0) = false /\
  prune_csr (@rev _) (fz 2) WA = Ok (mkCs 3 4 [0; 0; 0; 2] [1; 3] [fz (-3); fz 4]).
Proof.
  split; [apply (can_ok _ WA_canonical)|]. repeat split; vm_compute; reflexivity.
Qed.

(** ** C18. As stated, for every f64, the property is false: *)
Theorem C18_eliminate_zeros_drops_nan_refuted : exists sch (A B : Csr (f64 pw0)),
  is_schedule sch /\ canonical A /\ eliminate_zeros_csr sch A = Ok B /\
  csr_at A 0 1 = [fnan0] /\ feqb fnan0 (f0 : f64 pw0) = false /\ csr_at B 0 1 = [].
Proof.
  exists (fun l => l), (mkCs 1 2 [0; 2] [0; 1] [fz 0; fnan0]), (mkCs 1 2 [0; 0] [] []).
  split; [apply id_schedule|]. split; [apply canonical_literal; reflexivity|]. repeat split; vm_compute; reflexivity.
Qed.
Print Assumptions C18_eliminate_zeros_drops_nan_refuted.

(** ... and whether the NaN survives depends on an unrelated entry being zero. *)
Theorem C18_nan_survival_depends_on_other_entries_refuted : exists sch (A A' B B' : Csr (f64 pw0)),
  is_schedule sch /\ canonical A /\ canonical A' /\ csr_at A 0 1 = csr_at A' 0 1 /\
  eliminate_zeros_csr sch A = Ok B /\ eliminate_zeros_csr sch A' = Ok B' /\ csr_at B 0 1 <> csr_at B' 0 1.
Proof.
  exists (fun l => l), (mkCs 1 2 [0; 2] [0; 1] [fz 0; fnan0]), (mkCs 1 2 [0; 2] [0; 1] [fz 1; fnan0]),
    (mkCs 1 2 [0; 0] [] []), (mkCs 1 2 [0; 2] [0; 1] [fz 1; fnan0]).
  split; [apply id_schedule|]. split; [apply canonical_literal; reflexivity|].
  split; [apply canonical_literal; reflexivity|]. repeat split; try (vm_compute; reflexivity).
  vm_compute. discriminate.
Qed.
Print Assumptions C18_nan_survival_depends_on_other_entries_refuted.

Lemma filter_ext_Forall : forall {A} (P : A -> Prop) (f g : A -> bool) l,
  Forall P l -> (forall a, P a -> f a = g a) -> filter f l = filter g l.
Proof. induction 1; simpl; intros H1; auto. rewrite H1 by auto. destruct (g x); rewrite IHForall by auto; auto. Qed.

Lemma filter_id : forall {A} (f : A -> bool) l, Forall (fun a => f a = true) l -> filter f l = l.
Proof. induction 1; simpl; auto. rewrite H, IHForall. auto. Qed.

Lemma row_values : forall {V} (P : V -> Prop) (A : Cs V) k, cs_ok A -> (k < major A)%nat ->
  Forall P (dat A) -> Forall (fun e => P (snd e)) (cs_row A k).
Proof.
  intros V P A k OK Hk H. apply Forall_forall. intros e I.
  assert (In e (combine (idx A) (dat A))) as I'.
  { rewrite <- concat_rows by auto. apply in_concat. exists (cs_row A k). split; auto.
    rewrite <- (nth_rows A k [] Hk). apply nth_In. rewrite rows_length. auto. }
  rewrite Forall_forall in H. destruct e as [j v]. apply in_combine_r in I'. apply H. auto.
Qed.

Lemma eliminate_cs : forall pw sch (A : Cs (f64 pw)), is_schedule sch -> cs_ok A ->
  Forall (fun v : f64 pw => fnan v = false) (dat A) ->
  exists B, prune_cs sch f0 A = Ok B /\ cs_ok B /\ (canonical A -> canonical B) /\ major B = major A /\ minor B = minor A /\
    (forall k, (k < major A)%nat -> cs_row B k = filter (fun e => negb (feqb (snd e) f0)) (cs_row A k)).
Proof.
  intros pw sch A HS OK NN. destruct (existsb (fun v => feqb v f0) (dat A)) eqn:EX.
  - exists (pruned f0 A). split; [apply prune_cs_ok; auto|]. split; [apply filter_rows_ok; auto|].
    split; [apply filter_rows_canonical|]. split; [apply filter_rows_major|]. split; [reflexivity|].
    intros k Hk. unfold pruned, copy_significant. rewrite filter_rows_row by auto.
    eapply filter_ext_Forall; [apply row_values; eauto|]. intros [j v] H. apply f64_abs_pos. auto.
  - exists A. split. { unfold prune_cs. rewrite EX. reflexivity. }
    split; [auto|]. split; [auto|]. split; [reflexivity|]. split; [reflexivity|].
    intros k Hk. symmetry. apply filter_id. apply (row_values (fun v : f64 pw => negb (feqb v f0) = true)); auto.
    apply Forall_forall. intros v I. apply negb_true_iff. destruct (feqb v f0) eqn:E; auto.
    assert (existsb (fun v => feqb v f0) (dat A) = true) by (apply existsb_exists; eauto). congruence.
Qed.

(** What holds: without NaN among the stored values. *)
Theorem C18_eliminate_zeros_csr_partial : forall pw sch (A : Csr (f64 pw)),
  is_schedule sch -> cs_ok A -> Forall (fun v : f64 pw => fnan v = false) (dat A) ->
  exists B : Csr (f64 pw), eliminate_zeros_csr sch A = Ok B /\ cs_ok B /\ (canonical A -> canonical B) /\
    csr_nrows B = csr_nrows A /\ csr_ncols B = csr_ncols A /\
    (forall i, (i < csr_nrows A)%nat -> cs_row B i = filter (fun e => negb (feqb (snd e) f0)) (cs_row A i)) /\
    (forall i j, (i < csr_nrows A)%nat -> (j < csr_ncols A)%nat -> canonical A ->
       feqv (csr_val f0 B i j) (csr_val f0 A i j)).
Proof.
  intros pw sch A HS OK NN. destruct (eliminate_cs pw sch A HS OK NN) as (B & E & OB & CB & M1 & M2 & RB).
  exists B. repeat (split; [assumption|]). intros i j Hi Hj CA.
  unfold csr_val, csr_at, cs_at. rewrite RB by auto. rewrite (at_index_filter (fun v => negb (feqb v f0))).
  destruct (srow_at_index (Z.of_nat j) _ (canonical_row A i CA Hi)) as [E0|[v E0]]; rewrite E0; simpl; [apply feqv_refl|].
  destruct (SFeqb v b64_zero) eqn:EZ; simpl; [|apply feqv_refl]. apply feqv_sym. right. split; [exact EZ|reflexivity].
Qed.
Print Assumptions C18_eliminate_zeros_csr_partial.

Theorem C18_eliminate_zeros_csc_partial : forall pw sch (A : Csc (f64 pw)),
  is_schedule sch -> cs_ok A -> Forall (fun v : f64 pw => fnan v = false) (dat A) ->
  exists B : Csc (f64 pw), eliminate_zeros_csc sch A = Ok B /\ cs_ok B /\ (canonical A -> canonical B) /\
    csc_nrows B = csc_nrows A /\ csc_ncols B = csc_ncols A /\
    (forall j, (j < csc_ncols A)%nat -> cs_row B j = filter (fun e => negb (feqb (snd e) f0)) (cs_row A j)) /\
    (forall i j, (i < csc_nrows A)%nat -> (j < csc_ncols A)%nat -> canonical A ->
       feqv (csc_val f0 B i j) (csc_val f0 A i j)).
Proof.
  intros pw sch A HS OK NN.
  destruct (C18_eliminate_zeros_csr_partial pw sch A HS OK NN) as (B & E & OB & CB & M1 & M2 & RB & VB).
  exists B. repeat (split; [assumption|]). intros i j Hi Hj CA. apply (VB j i); auto.
Qed.
Print Assumptions C18_eliminate_zeros_csc_partial.

Theorem C18_eliminate_zeros_coo_partial : forall pw (A : Coo (f64 pw)),
  coo_ok A -> Forall (fun v : f64 pw => fnan v = false) (coo_data A) ->
  exists B, eliminate_zeros_coo A = Ok B /\ coo_ok B /\ coo_nrows B = coo_nrows A /\ coo_ncols B = coo_ncols A /\
    coo_entries B = filter (fun e => negb (feqb (snd e) f0)) (coo_entries A).
Proof.
  intros pw A OK NN. destruct (C17_prune_coo pw f0 A OK eq_refl) as (B & E & OB & N1 & N2 & EB).
  exists B. repeat (split; [assumption|]). rewrite EB.
  apply filter_ext_Forall with (P := fun e => fnan (snd e) = false).
  - apply Forall_forall. intros [[i j] v] I. apply in_combine_r in I. rewrite Forall_forall in NN. apply NN. auto.
  - intros [[i j] v] H. apply f64_abs_pos. auto.
Qed.
Print Assumptions C18_eliminate_zeros_coo_partial.

Theorem C18_eliminate_zeros_coond_partial : forall pw (A : Nd (f64 pw)),
  nd_ok A -> Forall (fun v : f64 pw => fnan v = false) (nd_dat A) ->
  exists B, eliminate_zeros_coond A = Ok B /\ nd_ok B /\ nd_shape B = nd_shape A /\
    nd_entries B = filter (fun e => negb (feqb (snd e) f0)) (nd_entries A).
Proof.
  intros pw A OK NN. destruct (C17_prune_coond pw f0 A OK eq_refl) as (B & E & OB & N1 & EB).
  exists B. repeat (split; [assumption|]). rewrite EB.
  apply filter_ext_Forall with (P := fun e => fnan (snd e) = false).
  - apply Forall_forall. intros [k v] I. apply in_combine_r in I. rewrite Forall_forall in NN. apply NN. auto.
  - intros [k v] H. apply f64_abs_pos. auto.
Qed.
Print Assumptions C18_eliminate_zeros_coond_partial.

Example C18_example :
  let A := mkCs 2 3 [0; 2; 3] [0; 2; 1] [fz 0; fz 5; fz 0] : Csr (f64 pw0) in
  canonical A /\ Forall (fun v : f64 pw0 => fnan v = false) (dat A) /\
  eliminate_zeros_csr (@rev _) A = Ok (mkCs 2 3 [0; 1; 1] [2] [fz 5]).
Proof.
  split; [apply canonical_literal; reflexivity|]. split; [repeat constructor|]. vm_compute. reflexivity.
Qed.
