(** C48: algebraic laws of the operations. The laws of the elementwise operations
    and of the transpose hold for IEEE doubles, array for array; those that need
    associativity or distributivity hold in exact arithmetic. *)
Require Import List ZArith Bool Arith Lia Permutation QArith Qcanon.
Require Import Coq.Floats.SpecFloat.
Require Import Verif.Res Verif.Values Verif.Spec Verif.Mem Verif.Lists Verif.CsLib Verif.Laws Verif.MElementwise Verif.PElementwise Verif.PElementwise2 Verif.MScalar Verif.PScalar Verif.MConvert Verif.PConvert Verif.PConvert2 Verif.PConvert3 Verif.MLinalg Verif.MReduce Verif.MStat Verif.PGroup Verif.Witness Verif.PropElementwise Verif.PropConvert Verif.PropLinalg Verif.SpecReduce Verif.PropStat Verif.MPy Verif.PropPy Verif.PropPy2 Verif.PropDup.
Import ListNotations.
Local Open Scope Z_scope.

(** ** Matrices without stored zeros are determined by their cells *)
Definition no_stored_zero {F : Fl} (A : Cs F) : Prop := forall v, In v (dat A) -> feqb v f0 = false.

Lemma stored_in_dat : forall {F : Fl} (A : Cs F) i j v, cs_ok A -> (i < major A)%nat -> In v (cs_at A i j) -> In v (dat A).
Proof.
  intros F A i j v OK Hi I. unfold cs_at, at_index in I. apply in_map_iff in I. destruct I as (e & <- & I). apply filter_In in I. destruct I as [I _].
  rewrite <- (map_snd_combine (idx A) (dat A) (ok_len _ OK)). apply in_map. rewrite <- concat_rows by auto. apply in_concat. exists (cs_row A i). split; auto.
  unfold rows. apply in_map. apply in_seq. lia.
Qed.

Lemma nz_ext : forall {F : Fl} (A B : Cs F), NLaws F -> canonical A -> canonical B -> no_stored_zero A -> no_stored_zero B ->
  major A = major B -> minor A = minor B ->
  (forall i j, (i < major A)%nat -> (j < minor A)%nat -> feqv (one_or f0 (cs_at A i (Z.of_nat j))) (one_or f0 (cs_at B i (Z.of_nat j)))) -> A = B.
Proof.
  intros F A B L CA CB NA NB E1 E2 H. apply canonical_ext; auto. intros i j Hi Hj. specialize (H i j Hi Hj).
  assert (SA := stored_in_dat A i (Z.of_nat j)). assert (SB := stored_in_dat B i (Z.of_nat j)).
  destruct (canonical_at A i (Z.of_nat j) CA Hi) as [EA|[x EA]]; destruct (canonical_at B i (Z.of_nat j) CB ltac:(lia)) as [EB|[y EB]];
    rewrite EA, EB in *; cbn [one_or] in H; auto.
  - specialize (NB y (SB y (can_ok _ CB) ltac:(lia) (or_introl eq_refl))). apply feqv_zero in H. rewrite (n_zero _ L) in H. congruence.
  - specialize (NA x (SA x (can_ok _ CA) Hi (or_introl eq_refl))). apply feqv_zero in H. rewrite (n_zero _ L) in H. congruence.
  - f_equal. apply feqv_nz; auto. apply nonzero_false. apply NA. apply SA; auto. apply (can_ok _ CA). left. auto.
Qed.

(** ** Commutativity, for IEEE doubles and bit for bit; shape mismatches included. *)
Lemma binary_mismatch : forall {F : Fl} count fill sch (A B : Cs F), major A <> major B \/ minor A <> minor B -> binary_cs count fill sch A B = Panic.
Proof. intros. apply binary_cs_shape. auto. Qed.

Lemma merge_comm : forall {F : Fl} (L : NLaws F) k op, merge_kernel_correct (F := F) k op -> (forall x y, op x y = op y x) ->
  forall sch sch' (A B : Cs F), is_schedule sch -> is_schedule sch' -> canonical A -> canonical B -> major A = major B -> minor A = minor B ->
  k sch A B = k sch' B A.
Proof.
  intros F L k op K OC sch sch' A B HS HS' CA CB E1 E2.
  destruct (K sch A B HS CA CB E1 E2) as (C & -> & CC & M1 & M2 & NZ & V).
  destruct (K sch' B A HS' CB CA (eq_sym E1) (eq_sym E2)) as (D & -> & CD & N1 & N2 & NZ' & V').
  f_equal. apply nz_ext; auto; try congruence. intros i j Hi Hj. eapply feqv_trans; [apply V; congruence|].
  apply feqv_sym. rewrite OC. apply V'. congruence.
Qed.

Theorem C48_add_comm : forall pw sch sch' (A B : Csr (f64 pw)), is_schedule sch -> is_schedule sch' -> canonical A -> canonical B ->
  add_csr sch A B = add_csr sch' B A.
Proof.
  intros pw sch sch' A B HS HS' CA CB.
  destruct (Nat.eq_dec (major A) (major B)) as [E1|E1]; [destruct (Nat.eq_dec (minor A) (minor B)) as [E2|E2]|].
  - eapply (merge_comm (f64_laws pw)); auto using add_correct, (f64_laws pw), (n_add_comm _ (f64_laws pw)).
  - unfold add_csr. rewrite !binary_mismatch; auto.
  - unfold add_csr. rewrite !binary_mismatch; auto.
Qed.
Print Assumptions C48_add_comm.

Lemma isect_at : forall {F : Fl} k def, isect_kernel_correct (F := F) k def -> forall sch (A B C : Cs F), is_schedule sch -> canonical A -> canonical B ->
  major A = major B -> minor A = minor B -> k sch A B = Ok C ->
  canonical C /\ major C = major A /\ minor C = minor A /\ no_stored_zero C /\
  forall i j v, (i < major A)%nat -> (cs_at C i j = [v] <-> exists x y, cs_at A i j = [x] /\ cs_at B i j = [y] /\ def x y v).
Proof.
  intros F k def K sch A B C HS CA CB E1 E2 E. destruct (K sch A B HS CA CB E1 E2) as (C' & E' & CC & M1 & M2 & NZ & V).
  rewrite E in E'. injection E' as <-. repeat (split; [assumption|]). intros i j v Hi. apply (V i j Hi).
Qed.

Lemma single_ext : forall {V} (A B : Cs V), canonical A -> canonical B -> major A = major B -> minor A = minor B ->
  (forall i j v, (i < major A)%nat -> (j < minor A)%nat -> cs_at A i (Z.of_nat j) = [v] <-> cs_at B i (Z.of_nat j) = [v]) -> A = B.
Proof.
  intros V A B CA CB E1 E2 H. apply canonical_ext; auto. intros i j Hi Hj.
  destruct (srow_at_index (Z.of_nat j) _ (canonical_row A i CA Hi)) as [EA|[x EA]]; fold (cs_at A i (Z.of_nat j)) in EA.
  - destruct (srow_at_index (Z.of_nat j) _ (canonical_row B i CB ltac:(lia))) as [EB|[y EB]]; fold (cs_at B i (Z.of_nat j)) in EB; [congruence|].
    apply (H i j y Hi Hj) in EB. congruence.
  - rewrite EA. symmetry. apply (H i j x Hi Hj). auto.
Qed.

Theorem C48_mul_comm : forall pw sch sch' (A B : Csr (f64 pw)), is_schedule sch -> is_schedule sch' -> canonical A -> canonical B ->
  hadamard_csr sch A B = hadamard_csr sch' B A.
Proof.
  intros pw sch sch' A B HS HS' CA CB.
  destruct (Nat.eq_dec (major A) (major B)) as [E1|E1]; [destruct (Nat.eq_dec (minor A) (minor B)) as [E2|E2]|].
  2, 3: unfold hadamard_csr; rewrite !binary_mismatch; auto.
  destruct (hadamard_correct (f64_laws pw) sch A B HS CA CB E1 E2) as (C & -> & CC & M1 & M2 & NZ & V).
  destruct (hadamard_correct (f64_laws pw) sch' B A HS' CB CA (eq_sym E1) (eq_sym E2)) as (D & -> & CD & N1 & N2 & NZ' & V').
  f_equal. apply single_ext; auto; try congruence. intros i j v Hi Hj.
  rewrite (proj1 (V i (Z.of_nat j) ltac:(lia)) v), (proj1 (V' i (Z.of_nat j) ltac:(lia)) v).
  split; intros (x & y & H1 & H2 & H3); exists y, x; repeat (split; [assumption|]); rewrite (n_mul_comm _ (f64_laws pw)); auto.
Qed.
Print Assumptions C48_mul_comm.

(** ** Identity and inverse *)
Lemma zeros_facts : forall {F : Fl} m n, canonical (zeros_csr (F := F) m n) /\ no_stored_zero (zeros_csr (F := F) m n) /\
  forall i j, cs_at (zeros_csr (F := F) m n) i (Z.of_nat j) = [].
Proof.
  intros F m n. destruct (C46_zeros F m n) as ((C & _ & _ & H) & _). split; auto. split; [intros v []|exact H].
Qed.

Theorem C48_add_zero : forall pw sch (A : Csr (f64 pw)), is_schedule sch -> canonical A -> no_stored_zero A ->
  let O := zeros_csr (csr_nrows A) (csr_ncols A) in
  add_csr sch A O = Ok A /\ add_csr sch O A = Ok A /\ sub_csr sch A O = Ok A.
Proof.
  intros pw sch A HS CA NA O. destruct (zeros_facts (F := f64 pw) (csr_nrows A) (csr_ncols A)) as (CO & NO & AO). fold O in CO, NO, AO.
  pose proof (f64_laws pw) as L.
  assert (E1 : add_csr sch A O = Ok A).
  { destruct (add_correct L sch A O HS CA CO eq_refl eq_refl) as (C & -> & CC & M1 & M2 & NZ & V). f_equal. apply nz_ext; auto.
    intros i j Hi Hj. rewrite M1 in Hi. eapply feqv_trans; [apply V; auto|]. rewrite AO. apply (n_add_0_r _ L). }
  split; [exact E1|]. split; [rewrite <- E1; apply C48_add_comm; auto|].
  destruct (sub_correct L sch A O HS CA CO eq_refl eq_refl) as (C & -> & CC & M1 & M2 & NZ & V). f_equal. apply nz_ext; auto.
  intros i j Hi Hj. rewrite M1 in Hi. eapply feqv_trans; [apply V; auto|]. rewrite AO. apply (n_sub_0_r _ L).
Qed.
Print Assumptions C48_add_zero.

Theorem C48_sub_self : forall pw sch (A : Csr (f64 pw)), is_schedule sch -> canonical A -> (forall v, In v (dat A) -> ffinite v = true) ->
  sub_csr sch A A = Ok (zeros_csr (csr_nrows A) (csr_ncols A)).
Proof.
  intros pw sch A HS CA FA. pose proof (f64_laws pw) as L. destruct (zeros_facts (F := f64 pw) (csr_nrows A) (csr_ncols A)) as (CO & NO & AO).
  destruct (sub_correct L sch A A HS CA CA eq_refl eq_refl) as (C & -> & CC & M1 & M2 & NZ & V). f_equal. apply nz_ext; auto.
  intros i j Hi Hj. rewrite M1 in Hi. eapply feqv_trans; [apply V; auto|]. rewrite AO. cbn [one_or]. apply (n_sub_diag _ L).
  destruct (canonical_at A i (Z.of_nat j) CA Hi) as [EA|[x EA]]; rewrite EA; cbn [one_or]; [reflexivity|].
  apply FA. eapply stored_in_dat; [apply CA|exact Hi|rewrite EA; left; reflexivity].
Qed.
Print Assumptions C48_sub_self.

(** Without finiteness the law fails, as it does for dense arrays: infinity - infinity
    is NaN and is stored. *)
Theorem C48_sub_self_infinite : exists A : Csr (f64 pw0), canonical A /\ sub_csr (@rev _) A A = Ok (mkCs 1 1 [0; 1] [0] [fnan0]).
Proof. exists (mkCs 1 1 [0; 1] [0] [finf0]). split; [apply canonical_literal; reflexivity|vm_compute; reflexivity]. Qed.
Print Assumptions C48_sub_self_infinite.

(** ** Transposition distributes over the elementwise operations *)
Definition is_transposition {V} {ZV : Zero V} (tr : Csr V -> res (Csr V)) : Prop :=
  exists threads il sch srt, is_interleaving il /\ is_schedule sch /\ is_sorter key_le srt /\ tr = transpose_csr threads il sch srt.

Lemma flip_facts : forall {F : Fl} tr (A : Csr F), is_transposition tr -> canonical A -> alloc_ok (csr_nrows A) ->
  exists T, tr A = Ok T /\ canonical T /\ major T = minor A /\ minor T = major A /\
  (forall i j, (i < major A)%nat -> (j < minor A)%nat -> cs_at T j (Z.of_nat i) = cs_at A i (Z.of_nat j)) /\
  (no_stored_zero A -> no_stored_zero T).
Proof.
  intros F tr A (th & il & sch & srt & HI & HS & HR & ->) CA AL. destruct (C09_transpose_csr F th il sch srt A HI HS HR CA AL) as (T & E & CT & M1 & M2 & V).
  exists T. repeat (split; [assumption|]). intros NA v I. apply NA.
  apply (Permutation_in v (dat_values T (can_ok _ CT))) in I. unfold matrix_values in I. apply in_flat_map in I. destruct I as ([j i] & G & I).
  apply in_grid in G. cbn [fst snd] in I. destruct G as [Gj Gi]. unfold csr_nrows in *. rewrite M1 in Gj. fold (csr_ncols T) in Gi. rewrite M2 in Gi.
  rewrite V in I by auto. eapply stored_in_dat; [apply CA|exact Gi|exact I].
Qed.

Theorem C48_transpose_add : forall pw sch sch' t1 t2 t3 (A B : Csr (f64 pw)),
  is_schedule sch -> is_schedule sch' -> is_transposition t1 -> is_transposition t2 -> is_transposition t3 ->
  canonical A -> canonical B -> csr_nrows A = csr_nrows B -> csr_ncols A = csr_ncols B -> alloc_ok (csr_nrows A) ->
  exists S T, add_csr sch A B = Ok S /\ t1 S = Ok T /\
    (let! A' := t2 A in let! B' := t3 B in add_csr sch' A' B') = Ok T.
Proof.
  intros pw sch sch' t1 t2 t3 A B HS HS' T1 T2 T3 CA CB E1 E2 AL. pose proof (f64_laws pw) as L.
  destruct (add_correct L sch A B HS CA CB E1 E2) as (C & EC & CC & M1 & M2 & NZ & V).
  assert (ALC : alloc_ok (csr_nrows C)) by (unfold csr_nrows in *; rewrite M1; auto).
  destruct (flip_facts t1 C T1 CC ALC) as (T & ET & CT & P1 & P2 & VT & NT).
  destruct (flip_facts t2 A T2 CA AL) as (A' & EA & CA' & Q1 & Q2 & VA & _).
  rewrite E1 in AL. destruct (flip_facts t3 B T3 CB AL) as (B' & EB & CB' & R1 & R2 & VB & _).
  exists C, T. split; auto. split; auto. rewrite EA, EB. cbn [bind]. unfold csr_nrows, csr_ncols in *.
  destruct (add_correct L sch' A' B' HS' CA' CB') as (D & -> & CD & N1 & N2 & NZ' & V'); try congruence.
  f_equal. apply nz_ext; auto; try congruence. intros j i Hj Hi.
  eapply feqv_trans; [apply V'; congruence|]. rewrite VA, VB, VT by congruence. apply feqv_sym. apply V. congruence.
Qed.
Print Assumptions C48_transpose_add.

Theorem C48_transpose_sub : forall pw sch sch' t1 t2 t3 (A B : Csr (f64 pw)),
  is_schedule sch -> is_schedule sch' -> is_transposition t1 -> is_transposition t2 -> is_transposition t3 ->
  canonical A -> canonical B -> csr_nrows A = csr_nrows B -> csr_ncols A = csr_ncols B -> alloc_ok (csr_nrows A) ->
  exists S T, sub_csr sch A B = Ok S /\ t1 S = Ok T /\
    (let! A' := t2 A in let! B' := t3 B in sub_csr sch' A' B') = Ok T.
Proof.
  intros pw sch sch' t1 t2 t3 A B HS HS' T1 T2 T3 CA CB E1 E2 AL. pose proof (f64_laws pw) as L.
  destruct (sub_correct L sch A B HS CA CB E1 E2) as (C & EC & CC & M1 & M2 & NZ & V).
  assert (ALC : alloc_ok (csr_nrows C)) by (unfold csr_nrows in *; rewrite M1; auto).
  destruct (flip_facts t1 C T1 CC ALC) as (T & ET & CT & P1 & P2 & VT & NT).
  destruct (flip_facts t2 A T2 CA AL) as (A' & EA & CA' & Q1 & Q2 & VA & _).
  rewrite E1 in AL. destruct (flip_facts t3 B T3 CB AL) as (B' & EB & CB' & R1 & R2 & VB & _).
  exists C, T. split; auto. split; auto. rewrite EA, EB. cbn [bind]. unfold csr_nrows, csr_ncols in *.
  destruct (sub_correct L sch' A' B' HS' CA' CB') as (D & -> & CD & N1 & N2 & NZ' & V'); try congruence.
  f_equal. apply nz_ext; auto; try congruence. intros j i Hj Hi.
  eapply feqv_trans; [apply V'; congruence|]. rewrite VA, VB, VT by congruence. apply feqv_sym. apply V. congruence.
Qed.
Print Assumptions C48_transpose_sub.

Lemma isect_transpose : forall {F : Fl} k def, isect_kernel_correct (F := F) k def -> forall sch sch' t1 t2 t3 (A B : Csr F),
  is_schedule sch -> is_schedule sch' -> is_transposition t1 -> is_transposition t2 -> is_transposition t3 ->
  canonical A -> canonical B -> csr_nrows A = csr_nrows B -> csr_ncols A = csr_ncols B -> alloc_ok (csr_nrows A) ->
  exists S T, k sch A B = Ok S /\ t1 S = Ok T /\
    (let! A' := t2 A in let! B' := t3 B in k sch' A' B') = Ok T.
Proof.
  intros F k def K sch sch' t1 t2 t3 A B HS HS' T1 T2 T3 CA CB E1 E2 AL.
  destruct (K sch A B HS CA CB E1 E2) as (C & EC & CC & M1 & M2 & NZ & V).
  assert (ALC : alloc_ok (csr_nrows C)) by (unfold csr_nrows in *; rewrite M1; auto).
  destruct (flip_facts t1 C T1 CC ALC) as (T & ET & CT & P1 & P2 & VT & NT).
  destruct (flip_facts t2 A T2 CA AL) as (A' & EA & CA' & Q1 & Q2 & VA & _).
  rewrite E1 in AL. destruct (flip_facts t3 B T3 CB AL) as (B' & EB & CB' & R1 & R2 & VB & _).
  exists C, T. split; auto. split; auto. rewrite EA, EB. cbn [bind]. unfold csr_nrows, csr_ncols in *.
  destruct (K sch' A' B' HS' CA' CB') as (D & -> & CD & N1 & N2 & NZ' & V'); try congruence.
  f_equal. apply single_ext; auto; try congruence. intros j i v Hj Hi.
  rewrite (proj1 (V' j (Z.of_nat i) ltac:(congruence)) v). rewrite VA, VB, VT by congruence. symmetry. apply V. congruence.
Qed.

Theorem C48_transpose_mul : forall pw sch sch' t1 t2 t3 (A B : Csr (f64 pw)),
  is_schedule sch -> is_schedule sch' -> is_transposition t1 -> is_transposition t2 -> is_transposition t3 ->
  canonical A -> canonical B -> csr_nrows A = csr_nrows B -> csr_ncols A = csr_ncols B -> alloc_ok (csr_nrows A) ->
  exists S T, hadamard_csr sch A B = Ok S /\ t1 S = Ok T /\
    (let! A' := t2 A in let! B' := t3 B in hadamard_csr sch' A' B') = Ok T.
Proof. intros pw. apply (isect_transpose _ _ (hadamard_correct (f64_laws pw))). Qed.
Print Assumptions C48_transpose_mul.

Theorem C48_transpose_div : forall pw sch sch' t1 t2 t3 (A B : Csr (f64 pw)),
  is_schedule sch -> is_schedule sch' -> is_transposition t1 -> is_transposition t2 -> is_transposition t3 ->
  canonical A -> canonical B -> csr_nrows A = csr_nrows B -> csr_ncols A = csr_ncols B -> alloc_ok (csr_nrows A) ->
  exists S T, div_csr sch A B = Ok S /\ t1 S = Ok T /\
    (let! A' := t2 A in let! B' := t3 B in div_csr sch' A' B') = Ok T.
Proof. intros pw. apply (isect_transpose _ _ (div_correct (f64_laws pw))). Qed.
Print Assumptions C48_transpose_div.

Lemma example_transposition : is_transposition (V := f64 pw0) (transpose_csr 2 backward (@rev _) sort_pairs).
Proof. exists 2%nat, backward, (@rev _), sort_pairs. split; [apply backward_interleaving|]. split; [apply rev_schedule|]. split; [apply sort_pairs_sorter|reflexivity]. Qed.
Definition FW : Csr (f64 pw0) := mkCs 3 2 [0; 1; 1; 3] [1; 0; 1] [fz 2; fz (-3); fz 4].
Example C48_example : canonical WA /\ canonical WB /\ csr_nrows WA = csr_nrows WB /\ csr_ncols WA = csr_ncols WB /\ alloc_ok (csr_nrows WA) /\
  csr_nrows WA <> csr_ncols WA /\
  (exists C, add_csr (@rev _) WA WB = Ok C /\ dat C <> [] /\ C <> WA) /\ (exists C, hadamard_csr (@rev _) WA WB = Ok C /\ dat C <> []) /\
  canonical FW /\ no_stored_zero FW /\ (forall v, In v (dat FW) -> ffinite v = true).
Proof.
  split; [apply WA_canonical|]. split; [apply WB_canonical|]. split; [reflexivity|]. split; [reflexivity|]. split; [reflexivity|].
  split; [vm_compute; discriminate|].
  split; [eexists; split; [vm_compute; reflexivity|split; discriminate]|]. split; [eexists; split; [vm_compute; reflexivity|discriminate]|].
  split; [apply canonical_literal; reflexivity|].
  split; intros v I; repeat (destruct I as [<-|I]; [reflexivity|]); destruct I.
Qed.
