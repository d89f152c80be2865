(** Final statements about the binary elementwise kernels, over any value type
    satisfying [NLaws]. *)
Require Import List ZArith Bool Lia Arith Sorted Permutation.
Require Import ZifyBool ZifyNat.
Require Import Verif.Res Verif.Values Verif.Spec Verif.Mem Verif.Lists Verif.CsLib Verif.Laws.
Require Import Verif.MElementwise Verif.PElementwise.
Import ListNotations.
Local Open Scope Z_scope.

Section PE2.
Context {F : Fl} (L : NLaws F).
Notation row := (list (Z * F)).

Lemma dat_rows : forall (A : Cs F) v, cs_ok A -> In v (dat A) ->
  exists i e, (i < major A)%nat /\ In e (cs_row A i) /\ snd e = v.
Proof.
  intros A v OK I. rewrite <- (map_snd_combine (idx A) (dat A) (ok_len _ OK)) in I.
  rewrite <- concat_rows in I by auto. apply in_map_iff in I. destruct I as (e & E & I).
  apply in_concat in I. destruct I as (r & Ir & Ie). unfold rows in Ir. apply in_map_iff in Ir.
  destruct Ir as (i & <- & Ii). apply in_seq in Ii. exists i, e. repeat split; auto. lia.
Qed.

Definition merge_kernel_correct (k : (list (nat * (Z * F)) -> list (nat * (Z * F))) -> Cs F -> Cs F -> res (Cs F))
    (op : F -> F -> F) : Prop :=
  forall sch (A B : Cs F), is_schedule sch -> canonical A -> canonical B ->
  major A = major B -> minor A = minor B ->
  exists C, k sch A B = Ok C /\ canonical C /\ major C = major A /\ minor C = minor A /\
    (forall v, In v (dat C) -> feqb v f0 = false) /\
    (forall i j, (i < major A)%nat ->
       feqv (one_or f0 (cs_at C i j)) (op (one_or f0 (cs_at A i j)) (one_or f0 (cs_at B i j)))).

Lemma merge_kernel_generic : forall count fill (g : F -> F -> F),
  (forall a b : row, Forall (fun e => fst e <= i64_max) a -> Forall (fun e => fst e <= i64_max) b ->
     exists out, fill a b = Ok out /\ count a b = Ok (length out)) ->
  (forall a b, fill a b = merge_fill g (length a + length b) a b) ->
  (forall x x' y y', feqv x x' -> feqv y y' -> feqv (g x y) (g x' y')) ->
  (forall x, feqv (g x f0) x) ->
  merge_kernel_correct (binary_cs count fill) g.
Proof.
  intros count fill g AG EF GP G0 sch A B HS CA CB E1 E2.
  destruct (binary_cs_canonical count fill (merged g) sch A B) as (C & EC & CC & M1 & M2 & RW & AT); auto.
  - intros a b out EO SA SB BA BB. rewrite EF in EO.
    destruct (merge_sem g _ _ _ _ EO SA SB BA BB) as (X1 & X2 & X3 & X4). auto.
  - apply CA. - apply CB. - apply canonical_lsorted; auto. - apply canonical_lsorted; auto.
  - exists C. split; auto. split; auto. split; auto. split; auto. split.
    + intros v I. apply dat_rows in I; [|apply CC]. destruct I as (i & e & Hi & Ie & <-).
      rewrite M1 in Hi. rewrite RW in Ie by auto. unfold spec_row in Ie.
      pose proof (in_bounds_max _ _ (row_bounds A i (can_ok _ CA) ltac:(lia))) as BA.
      pose proof (in_bounds_max _ _ (row_bounds B i (can_ok _ CB) ltac:(lia))) as BB.
      destruct (AG _ _ BA BB) as (out & EO & _). rewrite EO in Ie. rewrite EF in EO.
      destruct (merge_sem g _ _ _ _ EO) as (_ & _ & _ & Z); auto.
      { apply srow_lsorted. apply canonical_row; auto. }
      { apply srow_lsorted. apply canonical_row; auto. lia. }
      rewrite Forall_forall in Z. apply Z in Ie. unfold nonzero in Ie. destruct (feqb (snd e) f0); auto.
    + intros i j Hi. rewrite AT by auto. apply merged_value; auto; apply canonical_at; auto. lia.
Qed.

Lemma add_correct : merge_kernel_correct add_csr fadd.
Proof.
  apply merge_kernel_generic.
  - intros. apply add_agree; auto.
  - reflexivity.
  - apply (n_add_feqv _ L).
  - apply (n_add_0_r _ L).
Qed.

Lemma sub_correct : merge_kernel_correct sub_csr fsub.
Proof.
  apply merge_kernel_generic.
  - intros. apply sub_agree; auto.
  - intros. apply sub_fill_merge.
  - apply (n_sub_feqv _ L).
  - apply (n_sub_0_r _ L).
Qed.

(** Intersection kernels: a cell holds [v] iff both operands store it and
    [defined x y v]. *)
Definition isect_kernel_correct (k : (list (nat * (Z * F)) -> list (nat * (Z * F))) -> Cs F -> Cs F -> res (Cs F))
    (defined : F -> F -> F -> Prop) : Prop :=
  forall sch (A B : Cs F), is_schedule sch -> canonical A -> canonical B ->
  major A = major B -> minor A = minor B ->
  exists C, k sch A B = Ok C /\ canonical C /\ major C = major A /\ minor C = minor A /\
    (forall v, In v (dat C) -> feqb v f0 = false) /\
    (forall i j, (i < major A)%nat ->
      (forall v, cs_at C i j = [v] <->
         exists x y, cs_at A i j = [x] /\ cs_at B i j = [y] /\ defined x y v) /\
      (cs_at C i j = [] \/ exists v, cs_at C i j = [v])).

Lemma isect_kernel_generic : forall count fill (emit : F -> F -> option F) (defined : F -> F -> F -> Prop),
  (forall a b : row, exists out, fill a b = Ok out /\ count a b = Ok (length out)) ->
  (forall a b, fill a b = isect_fill emit (length a + length b) a b) ->
  (forall x y v, emit (fadd f0 x) (fadd f0 y) = Some v <-> defined x y v) ->
  (forall x y v, emit x y = Some v -> feqb v f0 = false) ->
  isect_kernel_correct (binary_cs count fill) defined.
Proof.
  intros count fill emit defined AG EF DEF NZ sch A B HS CA CB E1 E2.
  destruct (binary_cs_canonical count fill (isected emit) sch A B) as (C & EC & CC & M1 & M2 & RW & AT); auto.
  - intros a b out EO SA SB BA BB. rewrite EF in EO.
    destruct (isect_sem emit _ _ _ _ EO SA SB) as (X1 & X2 & X3 & X4). split; auto. split; auto.
    intros e Ie. left. apply X2. auto.
  - apply CA. - apply CB. - apply canonical_lsorted; auto. - apply canonical_lsorted; auto.
  - exists C. split; auto. split; auto. split; auto. split; auto. split.
    + intros v I. apply dat_rows in I; [|apply CC]. destruct I as (i & e & Hi & Ie & <-).
      rewrite M1 in Hi. rewrite RW in Ie by auto. unfold spec_row in Ie.
      destruct (AG (cs_row A i) (cs_row B i)) as (out & EO & _). rewrite EO in Ie. rewrite EF in EO.
      destruct (isect_sem emit _ _ _ _ EO) as (_ & _ & _ & Z); auto.
      { apply srow_lsorted. apply canonical_row; auto. }
      { apply srow_lsorted. apply canonical_row; auto. lia. }
      rewrite Forall_forall in Z. apply Z in Ie. destruct Ie as (x & y & E). eauto.
    + intros i j Hi. split; [|apply canonical_at; auto; lia].
      intros v. rewrite AT by auto.
      destruct (canonical_at A i j CA ltac:(lia)) as [EA|[x EA]];
      destruct (canonical_at B i j CB ltac:(lia)) as [EB|[y EB]]; rewrite EA, EB; simpl.
      * split; [discriminate|]. intros (x' & y' & H & _); discriminate.
      * split; [discriminate|]. intros (x' & y' & H & _); discriminate.
      * split; [discriminate|]. intros (x' & y' & _ & H & _); discriminate.
      * split.
        -- destruct (emit _ _) eqn:E; [|discriminate]. intros H. inv H. exists x, y. repeat split; auto. apply DEF. auto.
        -- intros (x' & y' & H1 & H2 & D). inv H1. inv H2. apply DEF in D. rewrite D. auto.
Qed.

Lemma nonzero_false : forall x : F, nonzero x = true <-> feqb x f0 = false.
Proof. intros. unfold nonzero. destruct (feqb x f0); split; auto; discriminate. Qed.

Lemma feqv_nz : forall x y : F, feqv x y -> nonzero x = true -> x = y.
Proof. intros x y [E|[A B]] H; auto. apply nonzero_false in H. congruence. Qed.

Lemma feqv_nonzero : forall x y : F, feqv x y -> nonzero x = nonzero y.
Proof. intros x y H. unfold nonzero. rewrite (feqv_zero _ _ H). auto. Qed.

(** [if keepcond v then Some v else None] only depends on [v] up to [feqv]. *)
Lemma emit_feqv : forall (fin : bool) (v w : F), feqv v w ->
  (if nonzero v && (negb fin || ffinite v) then Some v else None) =
  (if nonzero w && (negb fin || ffinite w) then Some w else None).
Proof.
  intros fin v w H. rewrite <- (feqv_nonzero v w H). destruct (nonzero v) eqn:E; auto.
  rewrite (feqv_nz v w H E). auto.
Qed.

Lemma hadamard_correct : isect_kernel_correct hadamard_csr
  (fun x y v => v = fmul x y /\ feqb v f0 = false).
Proof.
  apply isect_kernel_generic with (emit := hadamard_emit).
  - apply hadamard_agree.
  - reflexivity.
  - intros x y v. unfold hadamard_emit.
    pose proof (emit_feqv false _ _ (n_mul_feqv _ L _ _ _ _ (n_add_0_l _ L x) (n_add_0_l _ L y))) as E.
    simpl in E. rewrite !andb_true_r in E. rewrite E.
    destruct (nonzero (fmul x y)) eqn:N; split; intros H.
    + inv H. split; auto. apply nonzero_false; auto.
    + destruct H. congruence.
    + discriminate.
    + destruct H. subst. apply nonzero_false in H0. congruence.
  - intros x y v. unfold hadamard_emit. destruct (nonzero _) eqn:N; [|discriminate].
    intros H; inv H. apply nonzero_false; auto.
Qed.

Lemma hadamard_dense : forall sch (A B : Cs F), is_schedule sch -> canonical A -> canonical B ->
  major A = major B -> minor A = minor B ->
  (forall v, In v (dat A) -> ffinite v = true) -> (forall v, In v (dat B) -> ffinite v = true) ->
  exists C, hadamard_csr sch A B = Ok C /\
    (forall i j, (i < major A)%nat ->
       feqv (one_or f0 (cs_at C i j)) (fmul (one_or f0 (cs_at A i j)) (one_or f0 (cs_at B i j)))).
Proof.
  intros sch A B HS CA CB E1 E2 FA FB.
  destruct (hadamard_correct sch A B HS CA CB E1 E2) as (C & EC & CC & M1 & M2 & NZ & AT).
  exists C. split; auto. intros i j Hi. destruct (AT i j Hi) as [AT1 AT2].
  assert (SD : forall (M : Cs F) v, canonical M -> cs_at M i j = [v] -> In v (dat M)).
  { intros M v CM EM. assert (In v (cs_at M i j)) as I by (rewrite EM; simpl; auto).
    unfold cs_at, at_index in I. apply in_map_iff in I. destruct I as (e & <- & I). apply filter_In in I.
    destruct I as [I _]. unfold cs_row, slice in I.
    assert (In e (combine (idx M) (dat M))) as I'.
    { rewrite <- (firstn_skipn (Z.to_nat (nth i (ptr M) 0)) (combine (idx M) (dat M))). apply in_or_app. right.
      set (l := skipn _ _) in *. rewrite <- (firstn_skipn (Z.to_nat (nth (S i) (ptr M) 0) - Z.to_nat (nth i (ptr M) 0)) l).
      apply in_or_app. left. auto. }
    destruct e as [k w]. apply in_combine_r in I'. auto. }
  assert (Z0 : forall x : F, ffinite x = true -> feqv f0 (fmul f0 x)).
  { intros. apply feqv_sym. apply (n_mul_0_finite _ L). auto. }
  assert (F0 : ffinite (f0 : F) = true \/ ffinite (f0 : F) = false) by (destruct (ffinite f0); auto).
  destruct (canonical_at A i j CA ltac:(lia)) as [EA|[x EA]];
  destruct (canonical_at B i j CB ltac:(lia)) as [EB|[y EB]]; rewrite ?EA, ?EB; cbn [one_or].
  - replace (cs_at C i j) with (@nil F).
    2:{ destruct AT2 as [E|[v E]]; auto. apply AT1 in E. destruct E as (x & y & H & _). congruence. }
    simpl. apply feqv_sym. apply (n_mul_0_0 _ L).
  - replace (cs_at C i j) with (@nil F).
    2:{ destruct AT2 as [E|[v E]]; auto. apply AT1 in E. destruct E as (x & y' & H & _). congruence. }
    simpl. apply Z0. apply FB. eapply SD; eauto.
  - replace (cs_at C i j) with (@nil F).
    2:{ destruct AT2 as [E|[v E]]; auto. apply AT1 in E. destruct E as (x' & y & _ & H & _). congruence. }
    simpl. rewrite (n_mul_comm _ L). apply Z0. apply FA. eapply SD; eauto.
  - destruct (feqb (fmul x y) f0) eqn:E.
    + replace (cs_at C i j) with (@nil F).
      2:{ destruct AT2 as [E'|[v E']]; auto. apply AT1 in E'. destruct E' as (x' & y' & H1 & H2 & H3 & H4).
          rewrite EA in H1. rewrite EB in H2. inv H1. inv H2. congruence. }
      simpl. right. split; auto. apply (n_zero _ L).
    + assert (cs_at C i j = [fmul x y]) as ->. { apply AT1. exists x, y. auto. }
      simpl. apply feqv_refl.
Qed.

Lemma fin_emit_nz : forall v w : F, (if nonzero v && ffinite v then Some v else None) = Some w -> feqb w f0 = false.
Proof.
  intros v w H. destruct (nonzero v) eqn:N; [|discriminate]. destruct (ffinite v); [|discriminate].
  inv H. apply nonzero_false; auto.
Qed.

Lemma fin_emit_iff : forall v w v0 : F, feqv v w ->
  (if nonzero v && ffinite v then Some v else None) = Some v0 <->
  v0 = w /\ feqb v0 f0 = false /\ ffinite v0 = true.
Proof.
  intros v w v0 H. pose proof (emit_feqv true v w H) as E. simpl in E. rewrite E.
  destruct (nonzero w) eqn:N; simpl.
  - apply nonzero_false in N. destruct (ffinite w) eqn:FW; split; intros K; try discriminate.
    + inv K. auto.
    + destruct K as (-> & _). auto.
    + destruct K as (-> & _ & K). congruence.
  - split; [discriminate|]. intros (-> & K & _). apply nonzero_false in K. congruence.
Qed.

Lemma add0_nz : forall y : F, nonzero (fadd f0 y) = nonzero y.
Proof. intros. apply feqv_nonzero. apply (n_add_0_l _ L). Qed.

Lemma add0_eq : forall y : F, nonzero y = true -> fadd f0 y = y.
Proof. intros y H. apply add_0_l_nz; auto. apply nonzero_false; auto. Qed.

Lemma div_correct : isect_kernel_correct div_csr
  (fun x y v => feqb y f0 = false /\ v = fdiv x y /\ feqb v f0 = false /\ ffinite v = true).
Proof.
  apply isect_kernel_generic with (emit := div_emit).
  - apply div_agree.
  - reflexivity.
  - intros x y v. unfold div_emit. rewrite add0_nz. destruct (nonzero y) eqn:NY.
    + rewrite (add0_eq y NY). apply nonzero_false in NY.
      rewrite (fin_emit_iff _ (fdiv x y)); [tauto|].
      apply (n_div_feqv _ L); auto. apply (n_add_0_l _ L).
    + split; [discriminate|]. intros (K & _). apply nonzero_false in K. congruence.
  - intros x y v. unfold div_emit. destruct (nonzero y); [|discriminate]. apply fin_emit_nz.
Qed.

Lemma rem_correct : isect_kernel_correct rem_csr
  (fun x y v => feqb y f0 = false /\ v = fsub x (fmul y (ffloor (fdiv x y))) /\
                feqb v f0 = false /\ ffinite v = true).
Proof.
  apply isect_kernel_generic with (emit := rem_emit).
  - apply rem_agree.
  - reflexivity.
  - intros x y v. unfold rem_emit. rewrite add0_nz. destruct (nonzero y) eqn:NY.
    + rewrite (add0_eq y NY). apply nonzero_false in NY.
      rewrite (fin_emit_iff _ (fsub x (fmul y (ffloor (fdiv x y))))); [tauto|].
      apply (n_sub_feqv _ L). apply (n_add_0_l _ L).
      apply (n_mul_feqv _ L). apply feqv_refl. apply (n_floor_feqv _ L).
      apply (n_div_feqv _ L); auto. apply (n_add_0_l _ L).
    + split; [discriminate|]. intros (K & _). apply nonzero_false in K. congruence.
  - intros x y v. unfold rem_emit. destruct (nonzero y); [|discriminate]. apply fin_emit_nz.
Qed.

Lemma floordiv_correct : isect_kernel_correct floordiv_csr
  (fun x y v => feqb y f0 = false /\ v = ffloor (fdiv x y) /\ feqb v f0 = false /\ ffinite v = true).
Proof.
  apply isect_kernel_generic with (emit := floordiv_emit).
  - apply floordiv_agree.
  - reflexivity.
  - intros x y v. unfold floordiv_emit. rewrite add0_nz. destruct (nonzero y) eqn:NY.
    + rewrite (add0_eq y NY). apply nonzero_false in NY.
      rewrite (fin_emit_iff _ (ffloor (fdiv x y))); [tauto|].
      apply (n_floor_feqv _ L). apply (n_div_feqv _ L); auto. apply (n_add_0_l _ L).
    + split; [discriminate|]. intros (K & _). apply nonzero_false in K. congruence.
  - intros x y v. unfold floordiv_emit. destruct (nonzero y); [|discriminate]. apply fin_emit_nz.
Qed.

(** [powf] is an arbitrary function, so the operands are exactly those the code
    passes: [0.0 + x] and [0.0 + y], i.e. x and y with the sign of a zero dropped. *)
Lemma pow_correct : isect_kernel_correct pow_csr
  (fun x y v => v = fpow (fadd f0 x) (fadd f0 y) /\ feqb v f0 = false /\ ffinite v = true).
Proof.
  apply isect_kernel_generic with (emit := pow_emit).
  - apply pow_agree.
  - reflexivity.
  - intros x y v. unfold pow_emit. apply fin_emit_iff. apply feqv_refl.
  - intros x y v. unfold pow_emit. apply fin_emit_nz.
Qed.

(** If [powf] does not distinguish the two zeros except between zero/non-finite
    results, it is [powf x y]. *)
Lemma pow_correct_zero_sign :
  (forall x x' y y' : F, feqv x x' -> feqv y y' ->
     feqv (fpow x y) (fpow x' y') \/ (ffinite (fpow x y) = false /\ ffinite (fpow x' y') = false)) ->
  isect_kernel_correct pow_csr
    (fun x y v => v = fpow x y /\ feqb v f0 = false /\ ffinite v = true).
Proof.
  intros PZ sch A B HS CA CB E1 E2.
  destruct (pow_correct sch A B HS CA CB E1 E2) as (C & EC & CC & M1 & M2 & NZ & AT).
  exists C. split; [auto|]. split; [auto|]. split; [auto|]. split; [auto|]. split; [auto|].
  intros i j Hi. destruct (AT i j Hi) as [AT1 AT2]. split; [|exact AT2]. intros v.
  rewrite AT1. clear AT AT1.
  assert (forall x y, v = fpow (fadd f0 x) (fadd f0 y) /\ feqb v f0 = false /\ ffinite v = true <->
     v = fpow x y /\ feqb v f0 = false /\ ffinite v = true) as EQ.
  { intros x y. destruct (PZ (fadd f0 x) x (fadd f0 y) y (n_add_0_l _ L x) (n_add_0_l _ L y)) as [K|[K1 K2]].
    - rewrite <- (fin_emit_iff _ _ v (feqv_refl (fpow (fadd f0 x) (fadd f0 y)))). apply fin_emit_iff; auto.
    - split; intros (-> & _ & FF); congruence. }
  split; intros (x & y & H1 & H2 & D); exists x, y; (split; [auto|split; [auto|]]); apply EQ; auto.
Qed.

(** ** Memory safety for arbitrary structurally valid operands *)
Definition two_pass_safe (k : (list (nat * (Z * F)) -> list (nat * (Z * F))) -> Cs F -> Cs F -> res (Cs F)) : Prop :=
  forall sch (A B : Cs F), is_schedule sch -> cs_ok A -> cs_ok B ->
  major A = major B -> minor A = minor B -> exists C, k sch A B = Ok C.

Lemma safe_generic : forall count fill,
  (forall a b : row, Forall (fun e => fst e <= i64_max) a -> Forall (fun e => fst e <= i64_max) b ->
     exists out, fill a b = Ok out /\ count a b = Ok (length out)) ->
  two_pass_safe (binary_cs count fill).
Proof. intros count fill AG sch A B HS OA OB E1 E2. eexists. apply binary_cs_rows; auto. Qed.

(** The slots written by the fill pass are exactly 0 .. nnz-1, each once. *)
Lemma slots_once : forall (rs : list row),
  map fst (all_writes (psum 0 (map (@length _) rs)) rs) = seq 0 (length (concat rs)).
Proof. intros. rewrite all_writes_psum. apply combine_seq_map_fst. Qed.
End PE2.
