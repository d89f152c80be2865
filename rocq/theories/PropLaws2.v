(** C48, continued: laws in exact arithmetic. *)
Require Import List ZArith Bool Arith Lia Permutation QArith Qcanon.
Require Import Verif.Res Verif.Values Verif.Spec Verif.Mem Verif.Lists Verif.CsLib Verif.Laws Verif.MElementwise Verif.PElementwise Verif.PElementwise2 Verif.MScalar Verif.PScalar Verif.MConvert Verif.PConvert Verif.PConvert2 Verif.PConvert3 Verif.MLinalg Verif.MReduce Verif.MStat Verif.PGroup Verif.Witness Verif.PropElementwise Verif.PropConvert Verif.PropLinalg Verif.SpecReduce Verif.PropStat Verif.MPy Verif.PropPy Verif.PropPy2 Verif.PropDup Verif.PropLaws.
Import ListNotations.
Local Open Scope Z_scope.

(** ** Specification: vectors of rationals *)
Definition vadd (x y : list Qc) : list Qc := map (fun i => Qcplus (nth i x (Q2Qc 0)) (nth i y (Q2Qc 0))) (seq 0 (length x)).
Definition vscale (a : Qc) (x : list Qc) : list Qc := map (Qcmult a) x.
Definition vdot (x y : list Qc) : Qc := qsum (map (fun i => Qcmult (nth i x (Q2Qc 0)) (nth i y (Q2Qc 0))) (seq 0 (length x))).

(** ** Finite sums *)
Definition sumto (n : nat) (f : nat -> Qc) : Qc := qsum (map f (seq 0 n)).
Lemma qsum_app : forall l l', qsum (l ++ l') = (qsum l + qsum l')%Qc.
Proof. intros l l'. induction l as [|x l IH]; unfold qsum in *; cbn [app fold_right]; [ring|]. rewrite IH. ring. Qed.
Lemma sumto_S : forall n f, sumto (S n) f = (sumto n f + f n)%Qc.
Proof.
  intros n f. unfold sumto. rewrite seq_S, map_app, qsum_app. change (0 + n)%nat with n. unfold qsum at 2. cbn [map fold_right]. ring.
Qed.
Lemma sumto_ext : forall n f g, (forall i, (i < n)%nat -> f i = g i) -> sumto n f = sumto n g.
Proof. intros n f g H. unfold sumto. f_equal. apply map_ext_in. intros i I. apply in_seq in I. apply H. lia. Qed.
Lemma sumto_add : forall n f g, sumto n (fun i => (f i + g i)%Qc) = (sumto n f + sumto n g)%Qc.
Proof. induction n as [|n IH]; intros; [reflexivity|]. rewrite !sumto_S, IH. ring. Qed.
Lemma sumto_scale : forall n a f, sumto n (fun i => (a * f i)%Qc) = (a * sumto n f)%Qc.
Proof. induction n as [|n IH]; intros; [unfold sumto; cbn; ring|]. rewrite !sumto_S, IH. ring. Qed.
Lemma sumto_0 : forall n, sumto n (fun _ => Q2Qc 0) = Q2Qc 0.
Proof. induction n as [|n IH]; intros; [reflexivity|]. rewrite sumto_S, IH. ring. Qed.
Lemma sumto_swap : forall m n f, sumto m (fun i => sumto n (f i)) = sumto n (fun j => sumto m (fun i => f i j)).
Proof.
  induction m as [|m IH]; intros n f.
  - change (Q2Qc 0 = sumto n (fun _ => Q2Qc 0)). symmetry. apply sumto_0.
  - rewrite sumto_S, IH, <- sumto_add. apply sumto_ext. intros j Hj. rewrite sumto_S. reflexivity.
Qed.
Lemma sumto_delta : forall n k f, (k < n)%nat -> sumto n (fun i => if (i =? k)%nat then f i else Q2Qc 0) = f k.
Proof.
  induction n as [|n IH]; intros k f H; [lia|]. rewrite sumto_S. destruct (Nat.eqb_spec n k) as [->|N].
  - rewrite (sumto_ext k _ (fun _ => Q2Qc 0)), sumto_0; [ring|]. intros i Hi. destruct (Nat.eqb_spec i k); [lia|auto].
  - rewrite IH by lia. ring.
Qed.
Lemma nth_map_seq : forall (f : nat -> Qc) n i, (i < n)%nat -> nth i (map f (seq 0 n)) (Q2Qc 0) = f i.
Proof. intros f n i H. rewrite (nth_indep _ _ (f 0%nat)) by (rewrite map_length, seq_length; auto). rewrite map_nth, seq_nth; auto. Qed.

(** ** Cells of the elementwise operations *)
Definition val (A : Csr qc) (i j : nat) : Qc := csr_val f0 A i j.

Lemma add_val : forall sch (A B C : Csr qc), is_schedule sch -> canonical A -> canonical B -> csr_nrows A = csr_nrows B -> csr_ncols A = csr_ncols B ->
  add_csr sch A B = Ok C -> canonical C /\ no_stored_zero C /\ csr_nrows C = csr_nrows A /\ csr_ncols C = csr_ncols A /\
  forall i j, (i < csr_nrows A)%nat -> val C i j = (val A i j + val B i j)%Qc.
Proof.
  intros sch A B C HS CA CB E1 E2 E. destruct (add_correct qc_laws sch A B HS CA CB E1 E2) as (C' & E' & CC & M1 & M2 & NZ & V).
  rewrite E in E'. injection E' as <-. repeat (split; [assumption|]). intros i j Hi. apply (feqv_exact qc_elaws). apply V. auto.
Qed.
Lemma sub_val : forall sch (A B C : Csr qc), is_schedule sch -> canonical A -> canonical B -> csr_nrows A = csr_nrows B -> csr_ncols A = csr_ncols B ->
  sub_csr sch A B = Ok C -> canonical C /\ no_stored_zero C /\ csr_nrows C = csr_nrows A /\ csr_ncols C = csr_ncols A /\
  forall i j, (i < csr_nrows A)%nat -> val C i j = (val A i j - val B i j)%Qc.
Proof.
  intros sch A B C HS CA CB E1 E2 E. destruct (sub_correct qc_laws sch A B HS CA CB E1 E2) as (C' & E' & CC & M1 & M2 & NZ & V).
  rewrite E in E'. injection E' as <-. repeat (split; [assumption|]). intros i j Hi. apply (feqv_exact qc_elaws). apply V. auto.
Qed.

Lemma had_val : forall sch (A B C : Csr qc), is_schedule sch -> canonical A -> canonical B -> csr_nrows A = csr_nrows B -> csr_ncols A = csr_ncols B ->
  hadamard_csr sch A B = Ok C -> canonical C /\ no_stored_zero C /\ csr_nrows C = csr_nrows A /\ csr_ncols C = csr_ncols A /\
  forall i j, (i < csr_nrows A)%nat -> val C i j = (val A i j * val B i j)%Qc.
Proof.
  intros sch A B C HS CA CB E1 E2 E. destruct (hadamard_correct qc_laws sch A B HS CA CB E1 E2) as (C' & E' & CC & M1 & M2 & NZ & V).
  rewrite E in E'. injection E' as <-. repeat (split; [assumption|]). intros i j Hi.
  destruct (V i (Z.of_nat j) Hi) as [V1 V2]. unfold val, csr_val, csr_at.
  destruct V2 as [EC|[v EC]]; rewrite EC.
  - destruct (canonical_at A i (Z.of_nat j) CA Hi) as [EA|[x EA]]; rewrite EA; [symmetry; apply Qcmult_0_l|].
    destruct (canonical_at B i (Z.of_nat j) CB ltac:(unfold csr_nrows in *; lia)) as [EB|[y EB]]; rewrite EB; [symmetry; apply Qcmult_0_r|]. cbn [one_or].
    destruct (feqb (fmul (x : qc) y) f0) eqn:EZ.
    + apply (e_eqb _ qc_elaws) in EZ. symmetry. exact EZ.
    + rewrite EC in V1. specialize (V1 (fmul (x : qc) y)). destruct V1 as [_ V1]. discriminate V1. eauto 8.
  - apply V1 in EC. destruct EC as (x & y & -> & -> & -> & _). reflexivity.
Qed.

Lemma val_ext : forall A B : Csr qc, canonical A -> canonical B -> no_stored_zero A -> no_stored_zero B ->
  csr_nrows A = csr_nrows B -> csr_ncols A = csr_ncols B ->
  (forall i j, (i < csr_nrows A)%nat -> (j < csr_ncols A)%nat -> val A i j = val B i j) -> A = B.
Proof. intros A B CA CB NA NB E1 E2 H. apply (nz_ext A B qc_laws); auto. intros i j Hi Hj. left. apply H; auto. Qed.

Lemma add_ok : forall sch (A B : Csr qc), is_schedule sch -> canonical A -> canonical B -> csr_nrows A = csr_nrows B -> csr_ncols A = csr_ncols B ->
  exists C, add_csr sch A B = Ok C.
Proof. intros sch A B HS CA CB E1 E2. destruct (add_correct qc_laws sch A B HS CA CB E1 E2) as (C & E & _). eauto. Qed.
Lemma sub_ok : forall sch (A B : Csr qc), is_schedule sch -> canonical A -> canonical B -> csr_nrows A = csr_nrows B -> csr_ncols A = csr_ncols B ->
  exists C, sub_csr sch A B = Ok C.
Proof. intros sch A B HS CA CB E1 E2. destruct (sub_correct qc_laws sch A B HS CA CB E1 E2) as (C & E & _). eauto. Qed.
Lemma had_ok : forall sch (A B : Csr qc), is_schedule sch -> canonical A -> canonical B -> csr_nrows A = csr_nrows B -> csr_ncols A = csr_ncols B ->
  exists C, hadamard_csr sch A B = Ok C.
Proof. intros sch A B HS CA CB E1 E2. destruct (hadamard_correct qc_laws sch A B HS CA CB E1 E2) as (C & E & _). eauto. Qed.

(** ** Ring laws of the elementwise operations *)
Theorem C48_add_assoc : forall s1 s2 s3 s4 (A B C : Csr qc), is_schedule s1 -> is_schedule s2 -> is_schedule s3 -> is_schedule s4 ->
  canonical A -> canonical B -> canonical C ->
  csr_nrows A = csr_nrows B -> csr_ncols A = csr_ncols B -> csr_nrows B = csr_nrows C -> csr_ncols B = csr_ncols C ->
  exists R, (let! AB := add_csr s1 A B in add_csr s2 AB C) = Ok R /\ (let! BC := add_csr s3 B C in add_csr s4 A BC) = Ok R.
Proof.
  intros s1 s2 s3 s4 A B C H1 H2 H3 H4 CA CB CC E1 E2 E3 E4.
  destruct (add_ok s1 A B H1 CA CB E1 E2) as [AB EAB]. destruct (add_val s1 A B AB H1 CA CB E1 E2 EAB) as (C1 & N1 & R1 & K1 & V1).
  destruct (add_ok s3 B C H3 CB CC E3 E4) as [BC EBC]. destruct (add_val s3 B C BC H3 CB CC E3 E4 EBC) as (C2 & N2 & R2 & K2 & V2).
  destruct (add_ok s2 AB C H2 C1 CC) as [L EL]; [congruence|congruence|].
  destruct (add_val s2 AB C L H2 C1 CC ltac:(congruence) ltac:(congruence) EL) as (C3 & N3 & R3 & K3 & V3).
  destruct (add_ok s4 A BC H4 CA C2) as [R ER]; [congruence|congruence|].
  destruct (add_val s4 A BC R H4 CA C2 ltac:(congruence) ltac:(congruence) ER) as (C5 & N5 & R5 & K5 & V5).
  exists L. rewrite EAB, EBC. cbn [bind]. split; auto. rewrite ER. f_equal. apply val_ext; auto; try congruence.
  intros i j Hi Hj. rewrite V5, V2, V3, V1 by congruence. ring.
Qed.
Print Assumptions C48_add_assoc.

Theorem C48_add_sub_cancel : forall s1 s2 (A B : Csr qc), is_schedule s1 -> is_schedule s2 ->
  canonical A -> canonical B -> no_stored_zero A -> csr_nrows A = csr_nrows B -> csr_ncols A = csr_ncols B ->
  (let! AB := add_csr s1 A B in sub_csr s2 AB B) = Ok A.
Proof.
  intros s1 s2 A B H1 H2 CA CB NA E1 E2.
  destruct (add_ok s1 A B H1 CA CB E1 E2) as [AB EAB]. destruct (add_val s1 A B AB H1 CA CB E1 E2 EAB) as (C1 & N1 & R1 & K1 & V1).
  rewrite EAB. cbn [bind]. destruct (sub_ok s2 AB B H2 C1 CB) as [L EL]; [congruence|congruence|].
  destruct (sub_val s2 AB B L H2 C1 CB ltac:(congruence) ltac:(congruence) EL) as (C3 & N3 & R3 & K3 & V3).
  rewrite EL. f_equal. apply val_ext; auto; try congruence. intros i j Hi Hj. rewrite V3, V1 by congruence. ring.
Qed.
Print Assumptions C48_add_sub_cancel.

Theorem C48_mul_distributes : forall s1 s2 s3 s4 s5 (A B C : Csr qc), is_schedule s1 -> is_schedule s2 -> is_schedule s3 -> is_schedule s4 -> is_schedule s5 ->
  canonical A -> canonical B -> canonical C ->
  csr_nrows A = csr_nrows B -> csr_ncols A = csr_ncols B -> csr_nrows B = csr_nrows C -> csr_ncols B = csr_ncols C ->
  exists R, (let! BC := add_csr s1 B C in hadamard_csr s2 A BC) = Ok R /\
    (let! P := hadamard_csr s3 A B in let! Q := hadamard_csr s4 A C in add_csr s5 P Q) = Ok R.
Proof.
  intros s1 s2 s3 s4 s5 A B C H1 H2 H3 H4 H5 CA CB CC E1 E2 E3 E4.
  destruct (add_ok s1 B C H1 CB CC E3 E4) as [BC EBC]. destruct (add_val s1 B C BC H1 CB CC E3 E4 EBC) as (C1 & N1 & R1 & K1 & V1).
  destruct (had_ok s2 A BC H2 CA C1) as [L EL]; [congruence|congruence|].
  destruct (had_val s2 A BC L H2 CA C1 ltac:(congruence) ltac:(congruence) EL) as (C2 & N2 & R2 & K2 & V2).
  destruct (had_ok s3 A B H3 CA CB E1 E2) as [P EP]. destruct (had_val s3 A B P H3 CA CB E1 E2 EP) as (C3 & N3 & R3 & K3 & V3).
  destruct (had_ok s4 A C H4 CA CC) as [Q EQ]; [congruence|congruence|].
  destruct (had_val s4 A C Q H4 CA CC ltac:(congruence) ltac:(congruence) EQ) as (C4 & N4 & R4 & K4 & V4).
  destruct (add_ok s5 P Q H5 C3 C4) as [R ER]; [congruence|congruence|].
  destruct (add_val s5 P Q R H5 C3 C4 ltac:(congruence) ltac:(congruence) ER) as (C5 & N5 & R5 & K5 & V5).
  exists L. rewrite EBC, EP, EQ. cbn [bind]. split; auto. rewrite ER. f_equal. apply val_ext; auto; try congruence.
  intros i j Hi Hj. rewrite V5, V3, V4, V2, V1 by congruence. ring.
Qed.
Print Assumptions C48_mul_distributes.

Theorem C48_mul_assoc : forall s1 s2 s3 s4 (A B C : Csr qc), is_schedule s1 -> is_schedule s2 -> is_schedule s3 -> is_schedule s4 ->
  canonical A -> canonical B -> canonical C ->
  csr_nrows A = csr_nrows B -> csr_ncols A = csr_ncols B -> csr_nrows B = csr_nrows C -> csr_ncols B = csr_ncols C ->
  exists R, (let! AB := hadamard_csr s1 A B in hadamard_csr s2 AB C) = Ok R /\ (let! BC := hadamard_csr s3 B C in hadamard_csr s4 A BC) = Ok R.
Proof.
  intros s1 s2 s3 s4 A B C H1 H2 H3 H4 CA CB CC E1 E2 E3 E4.
  destruct (had_ok s1 A B H1 CA CB E1 E2) as [AB EAB]. destruct (had_val s1 A B AB H1 CA CB E1 E2 EAB) as (C1 & N1 & R1 & K1 & V1).
  destruct (had_ok s3 B C H3 CB CC E3 E4) as [BC EBC]. destruct (had_val s3 B C BC H3 CB CC E3 E4 EBC) as (C2 & N2 & R2 & K2 & V2).
  destruct (had_ok s2 AB C H2 C1 CC) as [L EL]; [congruence|congruence|].
  destruct (had_val s2 AB C L H2 C1 CC ltac:(congruence) ltac:(congruence) EL) as (C3 & N3 & R3 & K3 & V3).
  destruct (had_ok s4 A BC H4 CA C2) as [R ER]; [congruence|congruence|].
  destruct (had_val s4 A BC R H4 CA C2 ltac:(congruence) ltac:(congruence) ER) as (C5 & N5 & R5 & K5 & V5).
  exists L. rewrite EAB, EBC. cbn [bind]. split; auto. rewrite ER. f_equal. apply val_ext; auto; try congruence.
  intros i j Hi Hj. rewrite V5, V2, V3, V1 by congruence. ring.
Qed.
Print Assumptions C48_mul_assoc.

(** ** Matrix-vector products are linear *)
Lemma fold_one : forall (A : Csr qc) i j, canonical A -> (i < csr_nrows A)%nat -> fold_right fadd f0 (csr_at A i j) = val A i j.
Proof. intros A i j C Hi. apply qsum_one. apply canonical_single; auto. Qed.

Lemma spmv_val : forall sch (A : Csr qc) x, is_schedule sch -> canonical A -> alloc_ok (length (dat A)) -> alloc_ok (csr_ncols A) -> length x = csr_ncols A ->
  spmv_csr sch A x = Ok (map (fun i => sumto (csr_ncols A) (fun j => (val A i j * nth j x (Q2Qc 0))%Qc)) (seq 0 (csr_nrows A))).
Proof.
  intros sch A x HS C A1 A2 LX. destruct (C27_spmv_csr_exact sch A x HS (can_ok _ C) A1 A2 LX) as (y & E & LY & N). rewrite E. f_equal.
  apply (exact_list _ y); auto. intros i Hi. rewrite N by auto. unfold dot_exact. apply (f_equal qsum). apply map_ext_in. intros j J.
  rewrite fold_one by auto. reflexivity.
Qed.

Lemma swap_l : forall a b c : Qc, (a * (b * c))%Qc = (b * (a * c))%Qc.
Proof. intros. ring. Qed.

Lemma map_seq_len : forall {V} (f : nat -> V) n, length (map f (seq 0 n)) = n.
Proof. intros. rewrite map_length, seq_length. auto. Qed.

Lemma vadd_len : forall x y, length (vadd x y) = length x.
Proof. intros. apply map_seq_len. Qed.
Lemma vadd_nth : forall x y i, (i < length x)%nat -> nth i (vadd x y) (Q2Qc 0) = (nth i x (Q2Qc 0) + nth i y (Q2Qc 0))%Qc.
Proof. intros. unfold vadd. rewrite nth_map_seq; auto. Qed.
Lemma vscale_nth : forall a x i, nth i (vscale a x) (Q2Qc 0) = (a * nth i x (Q2Qc 0))%Qc.
Proof. intros a x i. unfold vscale. rewrite <- (Qcmult_0_r a) at 1. apply map_nth. Qed.
Lemma vadd_seq : forall f g n, vadd (map f (seq 0 n)) (map g (seq 0 n)) = map (fun i => (f i + g i)%Qc) (seq 0 n).
Proof.
  intros f g n. unfold vadd. rewrite map_seq_len. apply map_ext_in. intros i I. apply in_seq in I. rewrite !nth_map_seq by lia. reflexivity.
Qed.

Theorem C48_spmv_add_vector : forall s1 s2 s3 (A : Csr qc) x y, is_schedule s1 -> is_schedule s2 -> is_schedule s3 -> canonical A ->
  alloc_ok (length (dat A)) -> alloc_ok (csr_ncols A) -> length x = csr_ncols A -> length y = csr_ncols A ->
  exists u v, spmv_csr s1 A x = Ok u /\ spmv_csr s2 A y = Ok v /\ spmv_csr s3 A (vadd x y) = Ok (vadd u v).
Proof.
  intros s1 s2 s3 A x y H1 H2 H3 C A1 A2 LX LY. rewrite !spmv_val; auto; [|rewrite vadd_len; auto].
  do 2 eexists. split; [reflexivity|]. split; [reflexivity|]. f_equal. rewrite vadd_seq. apply map_ext_in. intros i I.
  rewrite <- sumto_add. apply sumto_ext. intros j Hj. rewrite vadd_nth by (eapply Nat.lt_le_trans; [exact Hj|apply Nat.eq_le_incl; symmetry; exact LX]). apply Qcmult_plus_distr_r.
Qed.
Print Assumptions C48_spmv_add_vector.

Theorem C48_spmv_scale_vector : forall s1 s2 (A : Csr qc) a x, is_schedule s1 -> is_schedule s2 -> canonical A ->
  alloc_ok (length (dat A)) -> alloc_ok (csr_ncols A) -> length x = csr_ncols A ->
  exists u, spmv_csr s1 A x = Ok u /\ spmv_csr s2 A (vscale a x) = Ok (vscale a u).
Proof.
  intros s1 s2 A a x H1 H2 C A1 A2 LX. rewrite !spmv_val; auto; [|unfold vscale; rewrite map_length; auto].
  eexists. split; [reflexivity|]. f_equal. unfold vscale at 2. rewrite map_map. apply map_ext_in. intros i I.
  rewrite <- sumto_scale. apply sumto_ext. intros j Hj. rewrite vscale_nth. apply swap_l.
Qed.
Print Assumptions C48_spmv_scale_vector.

Theorem C48_spmv_add_matrix : forall s s1 s2 s3 (A B C : Csr qc) x, is_schedule s -> is_schedule s1 -> is_schedule s2 -> is_schedule s3 ->
  canonical A -> canonical B -> csr_nrows A = csr_nrows B -> csr_ncols A = csr_ncols B -> add_csr s A B = Ok C ->
  alloc_ok (length (dat A)) -> alloc_ok (length (dat B)) -> alloc_ok (length (dat C)) -> alloc_ok (csr_ncols A) -> length x = csr_ncols A ->
  exists u v, spmv_csr s1 A x = Ok u /\ spmv_csr s2 B x = Ok v /\ spmv_csr s3 C x = Ok (vadd u v).
Proof.
  intros s s1 s2 s3 A B C x HS H1 H2 H3 CA CB E1 E2 E A1 A2 A3 AL LX.
  destruct (add_val s A B C HS CA CB E1 E2 E) as (CC & _ & R & K & V).
  rewrite !spmv_val; auto; try congruence; try (rewrite K; auto; fail).
  do 2 eexists. split; [reflexivity|]. split; [reflexivity|]. f_equal. rewrite R, K, <- E1, <- E2, vadd_seq. apply map_ext_in. intros i I. apply in_seq in I.
  rewrite <- sumto_add. apply sumto_ext. intros j Hj. rewrite V by lia. ring.
Qed.
Print Assumptions C48_spmv_add_matrix.

(** x . (A @ y) = (A^T @ x) . y *)
Theorem C48_adjoint : forall tr s1 s2 (A T : Csr qc) x y, is_transposition tr -> is_schedule s1 -> is_schedule s2 -> canonical A -> tr A = Ok T ->
  alloc_ok (csr_nrows A) -> alloc_ok (csr_ncols A) -> alloc_ok (length (dat A)) -> alloc_ok (length (dat T)) ->
  length x = csr_nrows A -> length y = csr_ncols A ->
  exists u v, spmv_csr s1 A y = Ok u /\ spmv_csr s2 T x = Ok v /\ vdot x u = vdot v y.
Proof.
  intros tr s1 s2 A T x y HT H1 H2 C E A1 A2 A3 A4 LX LY.
  destruct (flip_facts tr A HT C A1) as (T' & E' & CT & M1 & M2 & V & _). rewrite E in E'. injection E' as <-.
  assert (N1 : csr_nrows T = csr_ncols A) by exact M1. assert (N2 : csr_ncols T = csr_nrows A) by exact M2.
  rewrite !spmv_val; auto; try congruence.
  do 2 eexists. split; [reflexivity|]. split; [reflexivity|]. rewrite N1, N2. unfold vdot. rewrite map_seq_len. replace (@length Qc x) with (csr_nrows A) by (symmetry; exact LX).
  change (sumto (csr_nrows A) (fun i => (nth i x (Q2Qc 0) * nth i (map (fun i => sumto (csr_ncols A) (fun j => val A i j * nth j y (Q2Qc 0))) (seq 0 (csr_nrows A))) (Q2Qc 0)))
    = sumto (csr_ncols A) (fun i => (nth i (map (fun i => sumto (csr_nrows A) (fun j => val T i j * nth j x (Q2Qc 0))) (seq 0 (csr_ncols A))) (Q2Qc 0) * nth i y (Q2Qc 0))))%Qc.
  rewrite (sumto_ext (csr_nrows A) _ (fun i => sumto (csr_ncols A) (fun j => (nth i x (Q2Qc 0) * (val A i j * nth j y (Q2Qc 0)))%Qc))).
  - rewrite sumto_swap. apply sumto_ext. intros j Hj. rewrite nth_map_seq by auto. rewrite (Qcmult_comm _ (nth j y (Q2Qc 0))), <- sumto_scale.
    apply sumto_ext. intros i Hi. assert (EV : val T j i = val A i j) by (unfold val, csr_val, csr_at; rewrite V; auto). rewrite EV. ring.
  - intros i Hi. rewrite nth_map_seq by auto. rewrite <- sumto_scale. reflexivity.
Qed.
Print Assumptions C48_adjoint.

(** The identity matrix. *)
Theorem C48_eye : forall s n x, is_schedule s -> alloc_ok n -> length x = n -> spmv_csr s (eye_csr (F := qc) n) x = Ok x.
Proof.
  intros s n x HS AL LX. destruct (C46_eye qc n AL) as (C & R & K & V). rewrite spmv_val; auto; try (rewrite ?K; auto).
  - apply (f_equal Ok). rewrite R. symmetry. apply (exact_list _ x); auto. intros i Hi.
    rewrite (sumto_ext n _ (fun j => if (j =? i)%nat then nth j x (Q2Qc 0) else Q2Qc 0)); [rewrite sumto_delta; auto|].
    intros j Hj. unfold val, csr_val. rewrite V by auto. rewrite Nat.eqb_sym. destruct (j =? i)%nat; cbn [one_or]; [apply Qcmult_1_l|apply Qcmult_0_l].
  - cbn [eye_csr dat]. rewrite repeat_length. auto.
Qed.
Print Assumptions C48_eye.

(** ** Sums *)
Lemma sum_val : forall t (A : Csr qc), canonical A -> sum_csr f0 t A = Ok (sumto (csr_nrows A) (fun i => sumto (csr_ncols A) (val A i))).
Proof.
  intros t A C. destruct (C33_sum_exact t A (mkCs 0 0 [0] [] []) (mkCoo 0 0 [] [] []) (mkNd [1] [] [])) as (-> & _); auto.
  { apply C. } { apply cs_ok_literal. reflexivity. } { apply coo_ok_literal. reflexivity. } { apply PropNd.nd_ok_literal. reflexivity. }
  f_equal. unfold grid, sumto. 
  assert (G : forall l, (forall i, In i l -> (i < csr_nrows A)%nat) ->
    qsum (map (fun p => qsum (csr_at A (fst p) (snd p))) (list_prod l (seq 0 (csr_ncols A)))) = qsum (map (fun i => qsum (map (val A i) (seq 0 (csr_ncols A)))) l)).
  { induction l as [|i l IH]; intros H; [reflexivity|]. cbn [list_prod map]. rewrite map_app, qsum_app, IH by (intros; apply H; right; auto).
    rewrite map_map. unfold qsum at 5. cbn [fold_right]. fold (qsum (map (fun i => qsum (map (val A i) (seq 0 (csr_ncols A)))) l)). f_equal. f_equal.
    apply map_ext. intros j. cbn [fst snd]. apply (fold_one A i j C). apply H. left. auto. }
  apply G. intros i I. apply in_seq in I. lia.
Qed.

Theorem C48_sum_add : forall s t1 t2 t3 (A B C : Csr qc), is_schedule s -> canonical A -> canonical B -> csr_nrows A = csr_nrows B -> csr_ncols A = csr_ncols B ->
  add_csr s A B = Ok C -> exists a b, sum_csr f0 t1 A = Ok a /\ sum_csr f0 t2 B = Ok b /\ sum_csr f0 t3 C = Ok (fadd a b).
Proof.
  intros s t1 t2 t3 A B C HS CA CB E1 E2 E. destruct (add_val s A B C HS CA CB E1 E2 E) as (CC & _ & R & K & V).
  rewrite !sum_val by auto. do 2 eexists. split; [reflexivity|]. split; [reflexivity|]. apply (f_equal Ok). rewrite R, K, <- E1, <- E2.
  change (sumto (csr_nrows A) (fun i => sumto (csr_ncols A) (val C i)) = (sumto (csr_nrows A) (fun i => sumto (csr_ncols A) (val A i)) + sumto (csr_nrows A) (fun i => sumto (csr_ncols A) (val B i)))%Qc).
  rewrite <- sumto_add. apply sumto_ext. intros i Hi. rewrite <- sumto_add. apply sumto_ext. intros j Hj. apply V. auto.
Qed.
Print Assumptions C48_sum_add.

Theorem C48_sum_transpose : forall tr t1 t2 (A T : Csr qc), is_transposition tr -> canonical A -> alloc_ok (csr_nrows A) -> tr A = Ok T ->
  sum_csr f0 t1 T = sum_csr f0 t2 A.
Proof.
  intros tr t1 t2 A T HT C AL E. destruct (flip_facts tr A HT C AL) as (T' & E' & CT & M1 & M2 & V & _). rewrite E in E'. injection E' as <-.
  rewrite !sum_val by auto. f_equal. assert (N1 : csr_nrows T = csr_ncols A) by exact M1. assert (N2 : csr_ncols T = csr_nrows A) by exact M2.
  rewrite N1, N2, sumto_swap. apply sumto_ext. intros i Hi. apply sumto_ext. intros j Hj. unfold val, csr_val, csr_at. rewrite V; auto.
Qed.
Print Assumptions C48_sum_transpose.

Theorem C48_row_sums_transpose : forall tr sch nt dist il (A T : Csr qc), is_transposition tr -> is_schedule sch -> is_distribution dist -> is_interleaving il ->
  canonical A -> alloc_ok (csr_nrows A) -> alloc_ok (csr_ncols A) -> alloc_ok (length (dat A)) -> alloc_ok (length (dat T)) -> tr A = Ok T ->
  row_sums_csr sch T = col_sums_csr nt dist il A.
Proof.
  intros tr sch nt dist il A T HT HS HD HI C A1 A2 A3 A4 E. destruct (flip_facts tr A HT C A1) as (T' & E' & CT & M1 & M2 & V & _). rewrite E in E'. injection E' as <-.
  assert (N1 : csr_nrows T = csr_ncols A) by exact M1. assert (N2 : csr_ncols T = csr_nrows A) by exact M2.
  destruct (C34_sums_exact sch nt dist il A (mkCs 0 0 [0] [] []) (mkCoo 0 0 [] [] [])) as (_ & -> & _); auto; try reflexivity; try apply C;
    [apply cs_ok_literal; reflexivity|apply coo_ok_literal; reflexivity|].
  destruct (C34_sums_exact sch nt dist il T (mkCs 0 0 [0] [] []) (mkCoo 0 0 [] [] [])) as (-> & _); auto; try reflexivity; try apply CT;
    [apply cs_ok_literal; reflexivity|apply coo_ok_literal; reflexivity|rewrite N2; auto|].
  f_equal. rewrite N1, N2. apply map_ext_in. intros i I. apply in_seq in I. f_equal. apply map_ext_in. intros j J. apply in_seq in J.
  unfold csr_at. rewrite V by (unfold csr_nrows, csr_ncols in *; lia). reflexivity.
Qed.
Print Assumptions C48_row_sums_transpose.

Definition AW : Csr qc := mkCs 2 3 [0; 2; 3] [0; 2; 1] (map (@fofZ qc) [1; 2; 3]).
Definition AV : Csr qc := mkCs 2 3 [0; 1; 3] [2; 0; 1] (map (@fofZ qc) [-2; 4; 5]).
Lemma example_transposition_exact : is_transposition (V := qc) (transpose_csr 2 backward (@rev _) sort_pairs).
Proof. exists 2%nat, backward, (@rev _), sort_pairs. split; [apply backward_interleaving|]. split; [apply rev_schedule|]. split; [apply sort_pairs_sorter|reflexivity]. Qed.
Example C48_example_exact : canonical AW /\ canonical AV /\ csr_nrows AW = csr_nrows AV /\ csr_ncols AW = csr_ncols AV /\
  alloc_ok (length (dat AW)) /\ alloc_ok (csr_ncols AW) /\
  (exists C, add_csr (@rev _) AW AV = Ok C /\ length (dat C) = 3%nat) /\
  (exists T, transpose_csr 2 backward (@rev _) sort_pairs AW = Ok T /\ csr_nrows T = 3%nat) /\
  (exists y, spmv_csr (@rev _) AW (map (@fofZ qc) [1; 1; 1]) = Ok y /\ length y = 2%nat).
Proof.
  split; [apply canonical_literal; reflexivity|]. split; [apply canonical_literal; reflexivity|].
  repeat (split; [reflexivity|]). split; [|split]; eexists; (split; [vm_compute; reflexivity|reflexivity]).
Qed.
