(** C50 and C51: results do not depend on the schedule, and are canonical again. *)
Require Import List ZArith Bool Arith Lia Permutation QArith Qcanon.
Require Import Coq.Floats.SpecFloat.
Require Import Verif.Res Verif.Values Verif.Spec Verif.Mem Verif.Lists Verif.CsLib Verif.Laws Verif.MElementwise Verif.PElementwise Verif.PElementwise2 Verif.MScalar Verif.PScalar Verif.PropScalar Verif.MConvert Verif.PConvert Verif.PConvert2 Verif.PConvert3 Verif.MLinalg Verif.PLinalg Verif.MReduce Verif.MStat Verif.PGroup Verif.Witness Verif.PropElementwise Verif.PropConvert Verif.PropLinalg Verif.SpecReduce Verif.PropStat Verif.MCum Verif.SpecDiff Verif.PropDiff Verif.MPy Verif.PropPy Verif.PropLaws Verif.MNd Verif.MNd2 Verif.PropNd Verif.PropNd2.
Import ListNotations.
Local Open Scope Z_scope.

(** ** C50. Equal arrays under any two schedules. Indices need not be sorted, nor the
    shapes agree (then both panic). *)
Lemma binary_deterministic : forall {F : Fl} count fill sch sch' (A B : Cs F), is_schedule sch -> is_schedule sch' ->
  (forall a b, Forall (fun e => fst e <= i64_max) a -> Forall (fun e => fst e <= i64_max) b ->
     exists out, fill a b = Ok out /\ count a b = Ok (length out)) ->
  cs_ok A -> cs_ok B -> binary_cs count fill sch A B = binary_cs count fill sch' A B.
Proof.
  intros F count fill sch sch' A B HS HS' AG OA OB.
  destruct (Nat.eq_dec (major A) (major B)) as [E1|E1]; [destruct (Nat.eq_dec (minor A) (minor B)) as [E2|E2]|].
  - rewrite !binary_cs_rows by auto. reflexivity.
  - rewrite !binary_mismatch; auto.
  - rewrite !binary_mismatch; auto.
Qed.

Theorem C50_elementwise : forall pw sch sch' (A B : Cs (f64 pw)), is_schedule sch -> is_schedule sch' -> cs_ok A -> cs_ok B ->
  (add_csr sch A B = add_csr sch' A B /\ add_csc sch A B = add_csc sch' A B) /\
  (sub_csr sch A B = sub_csr sch' A B /\ sub_csc sch A B = sub_csc sch' A B) /\
  (hadamard_csr sch A B = hadamard_csr sch' A B /\ hadamard_csc sch A B = hadamard_csc sch' A B) /\
  (div_csr sch A B = div_csr sch' A B /\ div_csc sch A B = div_csc sch' A B) /\
  (pow_csr sch A B = pow_csr sch' A B /\ pow_csc sch A B = pow_csc sch' A B) /\
  (rem_csr sch A B = rem_csr sch' A B /\ rem_csc sch A B = rem_csc sch' A B) /\
  (floordiv_csr sch A B = floordiv_csr sch' A B /\ floordiv_csc sch A B = floordiv_csc sch' A B).
Proof.
  intros pw sch sch' A B HS HS' OA OB.
  repeat match goal with |- _ /\ _ => split end; apply binary_deterministic; auto; intros a b Ha Hb;
    first [apply add_agree; assumption|apply sub_agree; assumption|apply hadamard_agree|apply div_agree|apply pow_agree|apply rem_agree|apply floordiv_agree].
Qed.
Print Assumptions C50_elementwise.

Theorem C50_prune : forall pw sch sch' (eps : f64 pw) (A : Cs (f64 pw)), is_schedule sch -> is_schedule sch' -> cs_ok A ->
  prune_csr sch eps A = prune_csr sch' eps A /\ prune_csc sch eps A = prune_csc sch' eps A /\
  eliminate_zeros_csr sch A = eliminate_zeros_csr sch' A /\ eliminate_zeros_csc sch A = eliminate_zeros_csc sch' A.
Proof.
  intros pw sch sch' eps A HS HS' OK.
  assert (G : forall e, prune_cs sch e A = prune_cs sch' e A).
  { intros e. destruct (fltb e f0) eqn:E1; [unfold prune_cs; rewrite E1; reflexivity|].
    destruct (feqb e f0 && negb (existsb (fun v => feqb v f0) (dat A))) eqn:E2; [unfold prune_cs; rewrite E1, E2; reflexivity|].
    rewrite !prune_cs_ok; auto; intros E3; rewrite E3 in E2; apply negb_false_iff in E2; auto. }
  split; [apply G|]. split; [apply G|]. split; apply G.
Qed.
Print Assumptions C50_prune.

Theorem C50_transpose : forall V {ZV : Zero V} t t' il il' sch sch' srt srt' (A : Cs V),
  is_interleaving il -> is_interleaving il' -> is_schedule sch -> is_schedule sch' -> is_sorter key_le srt -> is_sorter key_le srt' ->
  cs_ok A -> (forall i j, (i < major A)%nat -> (j < minor A)%nat -> (length (cs_at A i (Z.of_nat j)) <= 1)%nat) -> alloc_ok (major A) ->
  transpose_csr t il sch srt A = transpose_csr t' il' sch' srt' A /\ transpose_csc t il sch srt A = transpose_csc t' il' sch' srt' A.
Proof.
  intros V ZV t t' il il' sch sch' srt srt' A H1 H2 H3 H4 H5 H6 OK SV AL.
  destruct (C09_transpose_unsorted V t il sch srt A H1 H3 H5 OK AL SV) as (B & E & CB & M1 & M2 & AT).
  destruct (C09_transpose_unsorted V t' il' sch' srt' A H2 H4 H6 OK AL SV) as (B' & E' & CB' & M1' & M2' & AT').
  assert (EQ : B = B').
  { apply canonical_ext; auto; unfold csr_nrows, csr_ncols in *; try congruence. intros j i Hj Hi. rewrite M1 in Hj. rewrite M2 in Hi.
    change (csr_at B j i = csr_at B' j i). rewrite AT, AT'; auto. }
  subst B'. unfold transpose_csc, transpose_csr in *. split; congruence.
Qed.
Print Assumptions C50_transpose.

Theorem C50_to_coo : forall V sch sch' (A : Cs V), is_schedule sch -> is_schedule sch' -> cs_ok A ->
  csr_to_coo sch A = csr_to_coo sch' A /\ csc_to_coo sch A = csc_to_coo sch' A.
Proof. intros V sch sch' A HS HS' OK. unfold csr_to_coo, csc_to_coo. rewrite !expand_ok by auto. auto. Qed.
Print Assumptions C50_to_coo.

(** CSR matrix-vector products and dense products of CSR, CSC and COO as well: every
    element is computed in a fixed order. *)
Theorem C50_products : forall (F : Fl) sch sch' il il' x b k, NLaws F -> is_schedule sch -> is_schedule sch' -> is_interleaving il -> is_interleaving il' ->
  (forall A : Csr F, cs_ok A -> alloc_ok (length (dat A)) -> alloc_ok (csr_ncols A) -> length x = csr_ncols A -> spmv_csr sch A x = spmv_csr sch' A x) /\
  (forall A : Csc F, cs_ok A -> alloc_ok (length (dat A)) -> dense_ok (csc_nrows A) (csc_ncols A) k b -> spmm_csc il A b k = spmm_csc il' A b k) /\
  (forall A : Coo F, coo_ok A -> dense_ok (coo_nrows A) (coo_ncols A) k b -> spmm_coo il A b k = spmm_coo il' A b k).
Proof.
  intros F sch sch' il il' x b k L HS HS' HI HI'. split; [|split].
  - intros A OK A1 A2 LX. rewrite !(spmv_csr_ok (n_zero F L)) by auto. reflexivity.
  - intros A OK A1 D. destruct (C30_spmm_csc F A b k L OK A1 D) as (y & H & _). rewrite !H by auto. reflexivity.
  - intros A OK D. destruct (C30_spmm_coo F A b k L OK D) as (y & H & _). rewrite !H by auto. reflexivity.
Qed.
Print Assumptions C50_products.

(** Not among them: the sum of all values depends on how the work was split, once there
    is more than one chunk of 4096 values. *)
Definition split_data : list (f64 pw0) :=
  fz (2 ^ 53) :: repeat (fz 0) (N.to_nat 4095) ++ fz 1 :: repeat (fz 0) (N.to_nat 4095) ++ [fz 1].
Theorem C50_sum_depends_on_split : exists A : Coo (f64 pw0), coo_data A = split_data /\
  sum_coo f0 Whole A = Ok (fz (2 ^ 53)) /\ sum_coo f0 (At 1 Whole Whole) A = Ok (fz (2 ^ 53 + 2)).
Proof.
  exists (mkCoo 1 (N.to_nat 8193) (repeat 0 (N.to_nat 8193)) (map Z.of_nat (seq 0 (N.to_nat 8193))) split_data).
  split; [reflexivity|]. split; vm_compute; reflexivity.
Qed.
Print Assumptions C50_sum_depends_on_split.

Example C50_example : cs_ok WA /\ cs_ok WB /\ is_schedule (@rev (nat * (Z * f64 pw0))) /\ is_schedule (fun l : list (nat * (Z * f64 pw0)) => l) /\
  add_csr (@rev _) WA WB <> Panic /\ prune_csr (@rev _) (fz 2) WA = Ok (mkCs 3 4 [0; 0; 0; 2] [1; 3] [fz (-3); fz 4]).
Proof.
  split; [apply (can_ok _ WA_canonical)|]. split; [apply (can_ok _ WB_canonical)|]. split; [apply rev_schedule|]. split; [apply id_schedule|].
  split; [vm_compute; discriminate|vm_compute; reflexivity].
Qed.

(** ** C51. Everything built by operations from canonical matrices is canonical. *)
Inductive format := CSR | CSC.

(** The possible outcomes of an expression over CSR and CSC matrices: every leaf is a
    canonical matrix or comes from COO data, every node is an operation under any
    schedule (shape mismatches panic). Not here: the direct conversions between CSR and
    CSC and [diff] of a CSC matrix, which goes through them; see the refutations below. *)
Inductive outcome {pw} : format -> res (Cs (f64 pw)) -> Prop :=
| O_given : forall f A, canonical A -> outcome f (Ok A)
| O_from_coo : forall srt (D : Coo (f64 pw)), is_sorter key2_le srt -> coo_ok D -> outcome CSR (coo_to_csr srt D)
| O_from_coo' : forall srt (D : Coo (f64 pw)), is_sorter key2_le srt -> coo_ok D -> outcome CSC (coo_to_csc srt D)
| O_unfold : forall sch srt (D : Nd (f64 pw)) rows, is_schedule sch -> is_sorter key2_le srt -> nd_ok D ->
    axes_ok (length (nd_shape D)) rows -> unfold_fits (nd_shape D) rows -> outcome CSR (coond_axes_to_csr sch srt D rows)
| O_unfold' : forall sch srt (D : Nd (f64 pw)) rows, is_schedule sch -> is_sorter key2_le srt -> nd_ok D ->
    axes_ok (length (nd_shape D)) rows -> unfold_fits (nd_shape D) rows -> outcome CSC (coond_axes_to_csc sch srt D rows)
| O_binary_csr : forall op sch a b, is_schedule sch ->
    In op [add_csr; sub_csr; hadamard_csr; div_csr; pow_csr; rem_csr; floordiv_csr] ->
    outcome CSR a -> outcome CSR b -> outcome CSR (let! A := a in let! B := b in op sch A B)
| O_binary_csc : forall op sch a b, is_schedule sch ->
    In op [add_csc; sub_csc; hadamard_csc; div_csc; pow_csc; rem_csc; floordiv_csc] ->
    outcome CSC a -> outcome CSC b -> outcome CSC (let! A := a in let! B := b in op sch A B)
| O_unary_csr : forall op a alpha,
    In op [abs_csr; sign_csr; mul_scalar_csr alpha; pow_scalar_csr alpha; rem_scalar_csr alpha; floordiv_scalar_csr alpha] ->
    outcome CSR a -> outcome CSR (let! A := a in op A)
| O_unary_csc : forall op a alpha,
    In op [abs_csc; sign_csc; mul_scalar_csc alpha; pow_scalar_csc alpha; rem_scalar_csc alpha; floordiv_scalar_csc alpha] ->
    outcome CSC a -> outcome CSC (let! A := a in op A)
| O_prune_csr : forall sch eps a, is_schedule sch -> outcome CSR a -> outcome CSR (let! A := a in prune_csr sch eps A)
| O_prune_csc : forall sch eps a, is_schedule sch -> outcome CSC a -> outcome CSC (let! A := a in prune_csc sch eps A)
| O_elim_csr : forall sch a, is_schedule sch -> outcome CSR a -> outcome CSR (let! A := a in eliminate_zeros_csr sch A)
| O_elim_csc : forall sch a, is_schedule sch -> outcome CSC a -> outcome CSC (let! A := a in eliminate_zeros_csc sch A)
| O_transpose_csr : forall t il sch srt a, is_interleaving il -> is_schedule sch -> is_sorter key_le srt ->
    (forall A, a = Ok A -> alloc_ok (csr_nrows A)) -> outcome CSR a -> outcome CSR (let! A := a in transpose_csr t il sch srt A)
| O_transpose_csc : forall t il sch srt a, is_interleaving il -> is_schedule sch -> is_sorter key_le srt ->
    (forall A, a = Ok A -> alloc_ok (csc_ncols A)) -> outcome CSC a -> outcome CSC (let! A := a in transpose_csc t il sch srt A)
| O_diff_columns : forall sch srt n a, is_schedule sch -> is_sorter key_le srt ->
    outcome CSR a -> outcome CSR (let! A := a in diff_csr_axis1 sch srt A n)
| O_diff_rows : forall t il sch1 srt1 sch srt sch2 srt2 n a,
    is_interleaving il -> is_schedule sch1 -> is_sorter key_le srt1 -> is_schedule sch -> is_sorter key_le srt -> is_schedule sch2 -> is_sorter key_le srt2 ->
    (forall A, a = Ok A -> alloc_ok (csr_nrows A) /\ alloc_ok (csr_ncols A)) ->
    outcome CSR a -> outcome CSR (let! A := a in diff_csr_axis0 t il sch1 srt1 sch srt sch2 srt2 A n)
| O_csr_to_csc_through_coo : forall sch srt a, is_schedule sch -> is_sorter key2_le srt -> (forall A, a = Ok A -> alloc_ok (csr_nrows A)) ->
    outcome CSR a -> outcome CSC (let! A := a in let! D := csr_to_coo sch A in coo_to_csc srt D)
| O_csc_to_csr_through_coo : forall sch srt a, is_schedule sch -> is_sorter key2_le srt -> (forall A, a = Ok A -> alloc_ok (csc_ncols A)) ->
    outcome CSC a -> outcome CSR (let! A := a in let! D := csc_to_coo sch A in coo_to_csr srt D).

(** A canonical matrix, or an orderly refusal. *)
Definition fine {pw} (r : res (Cs (f64 pw))) : Prop := r = Panic \/ exists C, r = Ok C /\ canonical C.

Lemma fine1 : forall {pw} (a : res (Cs (f64 pw))) (g : Cs (f64 pw) -> res (Cs (f64 pw))), fine a -> (forall A, a = Ok A -> canonical A -> fine (g A)) -> fine (bind a g).
Proof. intros pw a g [->|(A & -> & C)] H; [left; reflexivity|apply H; auto]. Qed.

Lemma fine_merge : forall {pw} k op, merge_kernel_correct (F := f64 pw) k op -> (forall sch A B, major A <> major B \/ minor A <> minor B -> k sch A B = Panic) ->
  forall sch A B, is_schedule sch -> canonical A -> canonical B -> fine (pw := pw) (k sch A B).
Proof.
  intros pw k op K MM sch A B HS CA CB.
  destruct (Nat.eq_dec (major A) (major B)) as [E1|E1]; [destruct (Nat.eq_dec (minor A) (minor B)) as [E2|E2]|].
  - destruct (K sch A B HS CA CB E1 E2) as (C' & E' & CC & _). right. eauto.
  - left; apply MM; auto.
  - left; apply MM; auto.
Qed.
Lemma fine_isect : forall {pw} k def, isect_kernel_correct (F := f64 pw) k def -> (forall sch A B, major A <> major B \/ minor A <> minor B -> k sch A B = Panic) ->
  forall sch A B, is_schedule sch -> canonical A -> canonical B -> fine (pw := pw) (k sch A B).
Proof.
  intros pw k op K MM sch A B HS CA CB.
  destruct (Nat.eq_dec (major A) (major B)) as [E1|E1]; [destruct (Nat.eq_dec (minor A) (minor B)) as [E2|E2]|].
  - destruct (K sch A B HS CA CB E1 E2) as (C' & E' & CC & _). right. eauto.
  - left; apply MM; auto.
  - left; apply MM; auto.
Qed.
Lemma fine_binary : forall {pw} op sch (A B : Cs (f64 pw)), is_schedule sch ->
  In op [add_csr; sub_csr; hadamard_csr; div_csr; pow_csr; rem_csr; floordiv_csr] -> canonical A -> canonical B -> fine (pw := pw) (op sch A B).
Proof.
  intros pw op sch A B HS HI CA CB. pose proof (f64_laws pw) as L.
  assert (MM : forall count fill sch (A B : Cs (f64 pw)), major A <> major B \/ minor A <> minor B -> binary_cs count fill sch A B = Panic) by (intros; apply binary_mismatch; auto).
  cbn [In] in HI. destruct HI as [<-|[<-|[<-|[<-|[<-|[<-|[<-|[]]]]]]]].
  - apply (fine_merge _ _ (add_correct L)); auto. intros; apply MM; assumption.
  - apply (fine_merge _ _ (sub_correct L)); auto. intros; apply MM; assumption.
  - apply (fine_isect _ _ (hadamard_correct L)); auto. intros; apply MM; assumption.
  - apply (fine_isect _ _ (div_correct L)); auto. intros; apply MM; assumption.
  - apply (fine_isect _ _ pow_correct); auto. intros; apply MM; assumption.
  - apply (fine_isect _ _ (rem_correct L)); auto. intros; apply MM; assumption.
  - apply (fine_isect _ _ (floordiv_correct L)); auto. intros; apply MM; assumption.
Qed.
Lemma fine_values : forall {pw} f (A : Cs (f64 pw)), canonical A -> fine (pw := pw) (Ok (mkCs (major A) (minor A) (ptr A) (idx A) (map f (dat A)))).
Proof.
  intros pw f A CA. right. eexists. split; [reflexivity|]. destruct CA as [[H1 H2 H3 H4 H5 H6] H7].
  constructor; [constructor|]; cbn [major minor ptr idx dat]; auto; try rewrite map_length; auto.
Qed.
Lemma fine_prune : forall {pw} sch (eps : f64 pw) (A : Cs (f64 pw)), is_schedule sch -> canonical A -> fine (pw := pw) (prune_cs sch eps A).
Proof.
  intros pw sch eps A HS CA.
  destruct (fltb eps f0) eqn:E1; [right; exists A; unfold prune_cs; rewrite E1; auto|].
  destruct (feqb eps f0 && negb (existsb (fun v => feqb v f0) (dat A))) eqn:E2; [right; exists A; unfold prune_cs; rewrite E1, E2; auto|].
  right. exists (pruned eps A). split; [|apply filter_rows_canonical; auto].
  apply prune_cs_ok; auto; [apply CA|]. intros E3. rewrite E3 in E2. apply negb_false_iff in E2. auto.
Qed.

Theorem C51_closure_partial : forall pw f (r : res (Cs (f64 pw))), outcome f r ->
  r = Panic \/ exists C, r = Ok C /\ canonical C.
Proof.
  intros pw f r H. change (fine (pw := pw) r). induction H.
  - right. eauto.
  - destruct (C07_coo_to_csr pw srt D) as (B & E & CB & _); auto. right; eauto.
  - destruct (C07_coo_to_csc pw srt D) as (B & E & CB & _); auto. right; eauto.
  - destruct (C25_unfold_to_csr pw sch srt D rows) as (B & E & CB & _); auto. right; eauto.
  - destruct (C25_unfold_to_csc pw sch srt D rows) as (B & E & CB & _); auto. right; eauto.
  - apply fine1; auto. intros A _ CA. apply fine1; auto. intros B _ CB. apply fine_binary; auto.
  - apply fine1; auto. intros A _ CA. apply fine1; auto. intros B _ CB. apply fine_binary; auto.
  - apply fine1; auto. intros A _ CA. cbn [In] in H. destruct H as [<-|[<-|[<-|[<-|[<-|[<-|[]]]]]]].
    + rewrite (proj1 (C16_abs pw)). apply fine_values; auto.
    + rewrite (proj1 (C16_sign pw)). apply fine_values; auto.
    + rewrite (proj1 (C16_mul_scalar pw alpha)). apply fine_values; auto.
    + rewrite (proj1 (C16_pow_scalar pw alpha)). apply fine_values; auto.
    + rewrite (proj1 (C16_rem_scalar pw alpha)). apply fine_values; auto.
    + rewrite (proj1 (C16_floordiv_scalar pw alpha)). apply fine_values; auto.
  - apply fine1; auto. intros A _ CA. cbn [In] in H. destruct H as [<-|[<-|[<-|[<-|[<-|[<-|[]]]]]]].
    + rewrite (proj1 (proj2 (C16_abs pw))). apply fine_values; auto.
    + rewrite (proj1 (proj2 (C16_sign pw))). apply fine_values; auto.
    + rewrite (proj1 (proj2 (C16_mul_scalar pw alpha))). apply fine_values; auto.
    + rewrite (proj1 (proj2 (C16_pow_scalar pw alpha))). apply fine_values; auto.
    + rewrite (proj1 (proj2 (C16_rem_scalar pw alpha))). apply fine_values; auto.
    + rewrite (proj1 (proj2 (C16_floordiv_scalar pw alpha))). apply fine_values; auto.
  - apply fine1; auto. intros A _ CA. apply fine_prune; auto.
  - apply fine1; auto. intros A _ CA. apply fine_prune; auto.
  - apply fine1; auto. intros A _ CA. apply fine_prune; auto.
  - apply fine1; auto. intros A _ CA. apply fine_prune; auto.
  - apply fine1; auto. intros A E CA. destruct (C09_transpose_csr _ t il sch srt A H H0 H1 CA (H2 A E)) as (T & ET & CT & _). right; eauto.
  - apply fine1; auto. intros A E CA. destruct (C09_transpose_csc _ t il sch srt A H H0 H1 CA (H2 A E)) as (T & ET & CT & _). right; eauto.
  - apply fine1; auto. intros A E CA. destruct (C41_diff_csr_axis1 pw sch srt A n H H0 CA) as (T & ET & CT & _). right; eauto.
  - apply fine1; auto. intros A E CA. destruct (H6 A E) as [A1 A2].
    destruct (C41_diff_csr_axis0 pw t il sch1 srt1 sch srt sch2 srt2 A n H H0 H1 H2 H3 H4 H5 CA A1 A2) as (T & ET & CT & _). right; eauto.
  - apply fine1; auto. intros A E CA. destruct (C06_csr_to_coo _ sch A H (can_ok _ CA) (H1 A E)) as (D & ED & OD & _). rewrite ED. cbn [bind].
    destruct (C07_coo_to_csc pw srt D H0 OD) as (T & ET & CT & _). right; eauto.
  - apply fine1; auto. intros A E CA. destruct (C06_csc_to_coo _ sch A H (can_ok _ CA) (H1 A E)) as (D & ED & OD & _). rewrite ED. cbn [bind].
    destruct (C07_coo_to_csr pw srt D H0 OD) as (T & ET & CT & _). right; eauto.
Qed.
Print Assumptions C51_closure_partial.

Example C51_example : exists r : res (Cs (f64 pw0)), outcome CSR r /\ exists C, r = Ok C /\ dat C <> [] /\ csr_nrows C = 4%nat.
Proof.
  eexists. split.
  - apply (O_transpose_csr 2 backward (@rev _) sort_pairs); [apply backward_interleaving|apply rev_schedule|apply sort_pairs_sorter| |].
    2: { refine (O_binary_csr add_csr (@rev _) _ _ _ _ _ _); [apply rev_schedule|left; reflexivity| |].
         - refine (O_unary_csr abs_csr (Ok WA) f0 _ _); [left; reflexivity|]. apply O_given. apply WA_canonical.
         - apply O_given. apply WB_canonical. }
    intros A E. vm_compute in E. injection E as <-. reflexivity.
  - eexists. split; [vm_compute; reflexivity|]. split; [discriminate|reflexivity].
Qed.

(** ** Where it fails. Under some schedules the direct conversion returns unsorted
    columns (C05) ... *)
Theorem C51_conversion_refuted :
  exists (il : list (list (Z * (Z * f64 pw0))) -> list (Z * (Z * f64 pw0))) sch (A : Csr (f64 pw0)) B,
    is_interleaving il /\ is_schedule sch /\ canonical A /\ csr_to_csc il sch A = Ok B /\ ~ canonical B.
Proof. destruct C05_csr_to_csc_canonical_refuted as (il & sch & A & B & H1 & H2 & H3 & _ & H4 & H5). exists il, sch, A, B. auto. Qed.
Print Assumptions C51_conversion_refuted.

(** ... and the next operation then gives wrong results: the product of two matrices with
    non-zero values in the same cell has nothing there, and a sum has a duplicate. *)
Theorem C51_chain_refuted :
  exists (il : list (list (Z * (Z * f64 pw0))) -> list (Z * (Z * f64 pw0))) (A : Csr (f64 pw0)) (B : Csc (f64 pw0)) A' C D,
    is_interleaving il /\ canonical A /\ canonical B /\ csr_to_csc il (fun l => l) A = Ok A' /\
    csr_at A 0 0 = [fz 1] /\ csc_at A' 0 0 = [fz 1] /\ csc_at B 0 0 = [fz 5] /\
    hadamard_csc (fun l => l) A' B = Ok C /\ csc_at C 0 0 = [] /\
    add_csc (fun l => l) A' B = Ok D /\ csc_at D 0 0 = [fz 5; fz 1].
Proof.
  exists backward, (mkCs 2 1 [0; 1; 2] [0; 0] [fz 1; fz 2]), (mkCs 1 2 [0; 2] [0; 1] [fz 5; fz 6]).
  eexists. eexists. eexists. split; [apply backward_interleaving|]. split; [apply canonical_literal; reflexivity|]. split; [apply canonical_literal; reflexivity|].
  split; [vm_compute; reflexivity|]. split; [reflexivity|]. split; [reflexivity|]. split; [reflexivity|].
  split; [vm_compute; reflexivity|]. split; [vm_compute; reflexivity|]. split; [vm_compute; reflexivity|]. vm_compute; reflexivity.
Qed.
Print Assumptions C51_chain_refuted.
