(** What single calls on regular objects compute: scalar, unary and binary operators. *)
Require Import List ZArith Bool Arith Lia Permutation.
Require Import ZifyBool ZifyNat.
Require Import Verif.Res Verif.Values Verif.Spec Verif.Mem Verif.Lists Verif.CsLib Verif.Laws Verif.NdLib Verif.MCore Verif.PCore Verif.MElementwise Verif.PElementwise Verif.PElementwise2 Verif.MConvert Verif.PConvert Verif.PConvert2 Verif.PConvert3 Verif.PTrans Verif.MScalar Verif.PScalar.
Require Import Verif.PropConvert Verif.PGroup Verif.PropScalar Verif.PropPy Verif.PropLaws Verif.SpecReduce Verif.SpecDiff Verif.MCum Verif.PDiff Verif.PropDiff Verif.SpecPy Verif.MNd Verif.MNd2 Verif.PNd Verif.PNd2 Verif.PNd3 Verif.PropNd Verif.PropNd2 Verif.MPy Verif.PPy2 Verif.PropPy2 Verif.MObj Verif.SpecObj Verif.PSafe Verif.PSafe2 Verif.PSafe3 Verif.PSafe4 Verif.PObj Verif.PDense Verif.SpecCall Verif.PCall Verif.PCall2.
Import ListNotations.
Local Open Scope Z_scope.

Section Steps.
Context {F : Fl}.
Implicit Types x y : value F.

Lemma csr_new_is : forall B : Cs F, exists H, csr_new B = Ok (VCsr (mkPyCs B H)).
Proof. intros B. unfold csr_new, csr_init. cbn [bind]. rewrite cs_eta. eauto. Qed.
Lemma csc_new_is : forall B : Cs F, exists H, csc_new B = Ok (VCsc (mkPyCs B H)).
Proof. intros B. unfold csc_new, csc_init. cbn [bind]. unfold csc_nrows, csc_ncols. rewrite cs_eta. eauto. Qed.
Lemma coo_new_is : forall B : Coo F, coo_ok B -> coo_new B = Ok (VCoo (mkPyCoo B (Some B))).
Proof. intros B OK. unfold coo_new, coo_init. rewrite coo_from_parts_ok by auto. cbn [bind]. rewrite coo_eta. reflexivity. Qed.
Lemma get_is : forall h a x, nth_error h a = Some x -> get_checked h a = Ok x.
Proof. intros h a x E. unfold get_checked. rewrite E. reflexivity. Qed.
Lemma nd_new_is : forall B : Nd F, nd_ok B -> Forall (fun n => n <= i64_max) (nd_shape B) -> nd_new B = Ok (VNd B).
Proof.
  intros B OK SM. unfold nd_new, nd_init. replace (forallb _ _) with true by (symmetry; apply forallb_forall; intros n I; rewrite Forall_forall in SM; specialize (SM n I); lia).
  assert (NE := nd_ndim _ OK). destruct (Nat.eqb_spec (length (nd_shape B)) 0) as [E|E]; [destruct (nd_shape B); [congruence|discriminate]|].
  rewrite (nd_len _ OK). rewrite Nat.mod_mul by auto. cbn. rewrite nd_eta. reflexivity.
Qed.
Lemma small_dims : forall A : Nd F, nd_small A -> Forall (fun n => n <= i64_max) (nd_shape A).
Proof.
  intros A [NN SM]. clear -NN SM. induction (nd_shape A) as [|n sh IH]; [constructor|]. inversion NN as [|? ? N1 N2]; subst.
  assert (E : shape_cells (n :: sh) = Z.max 1 n * shape_cells sh) by reflexivity. assert (P := shape_cells_pos sh). rewrite E in SM.
  constructor; [nia|]. apply IH; auto. nia.
Qed.

Ltac held K :=
  match type of K with
  | held (VCsr _) => destruct (csr_held _ K) as (C & U1 & U2 & U3 & U4 & UH & A1 & A2 & A3 & A4)
  | held (VCsc _) => destruct (csc_held _ K) as (C & U1 & U2 & U3 & U4 & UH & A1 & A2 & A3 & A4)
  | held (VCoo _) => destruct (coo_held _ K) as (C & U1 & U2 & UH & A1 & A2 & A3 & A4)
  | held (VNd _) => destruct (nd_held _ K) as (C & SV & U1 & SM)
  end.

(** results that keep class and shape and apply [f] to every stored value *)
Definition mapped (f : F -> F) x (r : res (value F)) : Prop :=
  exists y, r = Ok y /\ class_of y = class_of x /\ shape2 y = shape2 x /\ forall i j, stored y i j = map f (stored x i j).
Lemma csr_mapped : forall f X, mapped f (VCsr X) (csr_new (with_values f (py_arrays X))).
Proof.
  intros f X. destruct (csr_new_is (with_values f (py_arrays X))) as [H E]. eexists. split; [exact E|]. split; [reflexivity|]. split; [reflexivity|].
  intros i j. cbn [stored py_arrays]. apply with_values_at.
Qed.
Lemma csc_mapped : forall f X, mapped f (VCsc X) (csc_new (with_values f (py_arrays X))).
Proof.
  intros f X. destruct (csc_new_is (with_values f (py_arrays X))) as [H E]. eexists. split; [exact E|]. split; [reflexivity|]. split; [reflexivity|].
  intros i j. cbn [stored py_arrays]. apply (with_values_at f (py_arrays X) j i).
Qed.
Lemma coo_mapped : forall f X, coo_ok (pyc_arrays X) -> mapped f (VCoo X) (coo_new (coo_with_values f (pyc_arrays X))).
Proof.
  intros f X OK. eexists. split; [apply coo_new_is; destruct OK; constructor; cbn [coo_with_values coo_row coo_col coo_data coo_nrows coo_ncols]; rewrite ?map_length; auto|].
  split; [reflexivity|]. split; [reflexivity|]. intros i j. cbn [stored pyc_arrays]. apply coo_with_at.
Qed.
Definition mapped_nd (f : F -> F) (A : Nd F) (r : res (value F)) : Prop :=
  exists B, r = Ok (VNd B) /\ nd_shape B = nd_shape A /\ nd_keys B = nd_keys A /\ forall k, nd_at B k = map f (nd_at A k).
Lemma nd_mapped : forall f A, nd_ok A -> nd_small A -> mapped_nd f A (nd_new (nd_values f A)).
Proof.
  intros f A OK SM. eexists. split; [apply nd_new_is; [apply nd_values_ok; auto|apply (small_dims A); auto]|]. split; [reflexivity|].
  split; [apply nd_values_keys|]. intros k. apply at_key_map_dat.
Qed.
Lemma nd_parts_is : forall A : Nd F, held (VNd A) -> Forall (fun n => 0 <= n) (nd_shape A) -> nd_parts A = Ok A /\ nd_ok A /\ single_valued_nd A /\ nd_small A.
Proof.
  intros A K NN. held K. assert (B : forallb (Z.leb 0) (nd_shape A) = true) by (apply forallb_forall; intros n I; rewrite Forall_forall in NN; specialize (NN n I); lia).
  rewrite U1, B. auto.
Qed.

Lemma do_scalar_raises : forall op x alpha, scalar_raises op alpha = true -> held x -> do_scalar op x alpha = Panic.
Proof.
  intros op x alpha R K. destruct op; try discriminate R; cbn [scalar_raises] in R; destruct x as [X|X|X|X|? ?|? ?|? ?]; cbn [do_scalar]; try reflexivity; held K;
  rewrite ?U1, ?U2, ?U3, ?U4; try (destruct (forallb _ _); [|reflexivity]); cbn [bind]; unfold py_truediv, py_floordiv, py_mod; rewrite R; reflexivity.
Qed.
Lemma do_scalar_is : forall op x alpha, scalar_raises op alpha = false -> held x -> class_of x <> None -> mapped (scalar_value op alpha) x (do_scalar op x alpha).
Proof.
  intros op x alpha R K NC. destruct op, x as [X|X|X|X|? ?|? ?|? ?]; try (exfalso; apply NC; reflexivity); cbn [do_scalar scalar_raises scalar_value] in *; held K;
  rewrite ?U1, ?U2, ?U3, ?U4; cbn [bind];
  unfold py_mul, py_truediv, py_floordiv, py_mod, py_pow; rewrite ?R; unfold py_mul,
    mul_scalar_csr, mul_scalar_csc, mul_scalar_coo, mul_scalar_coond, floordiv_scalar_csr, floordiv_scalar_csc, floordiv_scalar_coo, floordiv_scalar_coond,
    rem_scalar_csr, rem_scalar_csc, rem_scalar_coo, rem_scalar_coond, pow_scalar_csr, pow_scalar_csc, pow_scalar_coo, pow_scalar_coond, floordiv_scalar_data, rem_scalar_data, pow_scalar_data;
  first [erewrite cs_with_maps by first [apply maps_mul|apply maps_par] | erewrite coo_with_maps by first [apply maps_mul|apply maps_par]];
  cbn [bind]; first [apply csr_mapped|apply csc_mapped|apply coo_mapped; apply C].
Qed.
Lemma do_scalar_nd : forall op A alpha, scalar_raises op alpha = false -> op <> SMul -> op <> SDiv -> held (VNd A) -> Forall (fun n => 0 <= n) (nd_shape A) ->
  mapped_nd (scalar_value op alpha) A (do_scalar op (VNd A) alpha).
Proof.
  intros op A alpha R N1 N2 K NN. destruct (nd_parts_is A K NN) as (P & OK & SV & SM).
  destruct op; try congruence; cbn [do_scalar scalar_raises scalar_value] in *; rewrite P; cbn [bind]; unfold py_floordiv, py_mod, py_pow; rewrite ?R;
  unfold floordiv_scalar_coond, rem_scalar_coond, pow_scalar_coond, floordiv_scalar_data, rem_scalar_data, pow_scalar_data;
  erewrite nd_with_maps by apply maps_par; cbn [bind]; apply nd_mapped; auto.
Qed.

Lemma reached_nth : forall (h : list (value F)) a x, NLaws F -> reached h -> nth_error h a = Some x -> held x.
Proof. intros h a x NL R N. pose proof (reached_held NL h R) as H. rewrite Forall_forall in H. apply H. eapply nth_error_In; eauto. Qed.

Variable e : Env F.
Lemma do_unary_is : forall op x, is_map op = true -> held x -> class_of x <> None -> mapped (unary_value op) x (do_unary e op x).
Proof.
  intros op x M K NC. destruct op; try discriminate M; destruct x as [X|X|X|X|? ?|? ?|? ?]; try (exfalso; apply NC; reflexivity); cbn [do_unary unary_value] in *; held K;
  rewrite ?U1, ?U2, ?U3, ?U4; cbn [bind];
  unfold abs_csr, abs_csc, abs_coo, sign_csr, sign_csc, sign_coo, sign_data, py_neg, py_mul, mul_scalar_csr, mul_scalar_csc, mul_scalar_coo;
  first [erewrite cs_with_maps by first [apply maps_abs|apply maps_mul|apply maps_par] | erewrite coo_with_maps by first [apply maps_abs|apply maps_mul|apply maps_par]];
  cbn [bind]; first [apply csr_mapped|apply csc_mapped|apply coo_mapped; apply C].
Qed.
Lemma do_unary_nd : forall op A, is_map op = true -> held (VNd A) -> Forall (fun n => 0 <= n) (nd_shape A) -> mapped_nd (unary_value op) A (do_unary e op (VNd A)).
Proof.
  intros op A M K NN. destruct (nd_parts_is A K NN) as (P & OK & SV & SM).
  destruct op; try discriminate M; cbn [do_unary unary_value] in *; rewrite P; cbn [bind];
  unfold abs_coond, sign_coond, sign_data, py_neg, py_mul, mul_scalar_coond;
  erewrite nd_with_maps by first [apply maps_abs|apply maps_mul|apply maps_par]; cbn [bind]; apply nd_mapped; auto.
Qed.
Hypothesis FE : fair e.

(** results that keep class and shape and some of the stored values *)
Definition filtered (p : F -> bool) x (r : res (value F)) : Prop :=
  exists y, r = Ok y /\ class_of y = class_of x /\ shape2 y = shape2 x /\
    forall i j, (i < fst (shape2 x))%nat -> (j < snd (shape2 x))%nat -> stored y i j = filter p (stored x i j).
Lemma cs_filter_at : forall (A B : Cs F) p k j, cs_row B k = filter (fun e => p (snd e)) (cs_row A k) -> cs_at B k j = filter p (cs_at A k j).
Proof. intros A B p k j E. unfold cs_at. rewrite E. apply at_index_filter. Qed.
Lemma csr_filtered : forall p X B, major B = major (py_arrays X) -> minor B = minor (py_arrays X) ->
  (forall k, (k < major (py_arrays X))%nat -> cs_row B k = filter (fun e => p (snd e)) (cs_row (py_arrays X) k)) -> filtered p (VCsr X) (csr_new B).
Proof.
  intros p X B M1 M2 R. destruct (csr_new_is B) as [H E]. eexists. split; [exact E|]. split; [reflexivity|].
  split; [cbn [shape2 py_arrays]; unfold csr_nrows, csr_ncols; congruence|]. intros i j Hi Hj. cbn [stored py_arrays]. unfold csr_at. apply cs_filter_at. apply R. exact Hi.
Qed.
Lemma csc_filtered : forall p X B, major B = major (py_arrays X) -> minor B = minor (py_arrays X) ->
  (forall k, (k < major (py_arrays X))%nat -> cs_row B k = filter (fun e => p (snd e)) (cs_row (py_arrays X) k)) -> filtered p (VCsc X) (csc_new B).
Proof.
  intros p X B M1 M2 R. destruct (csc_new_is B) as [H E]. eexists. split; [exact E|]. split; [reflexivity|].
  split; [cbn [shape2 py_arrays]; unfold csc_nrows, csc_ncols; congruence|]. intros i j Hi Hj. cbn [stored py_arrays]. unfold csc_at. apply cs_filter_at. apply R. exact Hj.
Qed.
Lemma coo_filtered : forall p X B, coo_ok B -> coo_nrows B = coo_nrows (pyc_arrays X) -> coo_ncols B = coo_ncols (pyc_arrays X) ->
  coo_entries B = filter (fun e => p (snd e)) (coo_entries (pyc_arrays X)) -> filtered p (VCoo X) (coo_new B).
Proof.
  intros p X B OK M1 M2 R. eexists. split; [apply coo_new_is; exact OK|]. split; [reflexivity|].
  split; [cbn [shape2 pyc_arrays]; congruence|]. intros i j _ _. cbn [stored pyc_arrays]. apply coo_filter_at. exact R.
Qed.
Lemma prune_rows : forall sch eps (A : Cs F), is_schedule sch -> cs_ok A -> fltb eps f0 = false -> feqb eps f0 = false ->
  exists B, prune_cs sch eps A = Ok B /\ major B = major A /\ minor B = minor A /\
    forall k, (k < major A)%nat -> cs_row B k = filter (fun e => fltb eps (fabs (snd e))) (cs_row A k).
Proof.
  intros sch eps A HS OK E1 E2. exists (pruned eps A). split; [apply prune_cs_ok; auto; rewrite E2; discriminate|].
  split; [apply filter_rows_major|]. split; [reflexivity|]. intros k Hk. unfold pruned, copy_significant. apply filter_rows_row; auto.
Qed.
Lemma filter_all : forall {A} (l : list A), filter (fun _ => true) l = l.
Proof. induction l; cbn; congruence. Qed.
Lemma do_prune_is : forall eps x, fltb eps f0 = false -> feqb eps f0 = false -> held x -> class_of x <> None ->
  filtered (fun v => fltb eps (fabs v)) x (do_unary e (UPrune eps) x).
Proof.
  intros eps x E1 E2 K NC. destruct x as [X|X|X|X|? ?|? ?|? ?]; try (exfalso; apply NC; reflexivity); cbn [do_unary]; held K; rewrite ?U1, ?U3; cbn [bind].
  - destruct (prune_rows (e_sch e 0) eps (py_arrays X)) as (B & E & M1 & M2 & R); auto; [apply FE|apply C|]. unfold prune_csr. rewrite E. cbn [bind]. apply csr_filtered; auto.
  - destruct (prune_rows (e_sch e 0) eps (py_arrays X)) as (B & E & M1 & M2 & R); auto; [apply FE|apply C|]. unfold prune_csc. rewrite E. cbn [bind]. apply csc_filtered; auto.
  - destruct C as [OK SV]. destruct (PScalar.prune_coo_ok eps (pyc_arrays X) OK E1) as (B & E & N1 & N2 & OB & EB). rewrite E. cbn [bind]. apply coo_filtered; auto.
Qed.
Lemma do_prune_negative : forall eps x, fltb eps f0 = true -> held x -> class_of x <> None -> filtered (fun _ => true) x (do_unary e (UPrune eps) x).
Proof.
  intros eps x E1 K NC. destruct x as [X|X|X|X|? ?|? ?|? ?]; try (exfalso; apply NC; reflexivity); cbn [do_unary]; held K; rewrite ?U1, ?U3; cbn [bind].
  - unfold prune_csr, prune_cs. rewrite E1. cbn [bind]. apply csr_filtered; auto. intros. symmetry. apply filter_all.
  - unfold prune_csc, prune_cs. rewrite E1. cbn [bind]. apply csc_filtered; auto. intros. symmetry. apply filter_all.
  - unfold prune_coo. rewrite E1. cbn [bind]. apply coo_filtered; auto; [apply C|]. symmetry. apply filter_all.
Qed.

(** transposes *)
Lemma do_T_is : forall x, held x -> class_of x <> None -> exists y, do_unary e UT x = Ok y /\ class_of y = class_of x /\ shape2 y = (snd (shape2 x), fst (shape2 x)) /\
  forall i j, (i < fst (shape2 x))%nat -> (j < snd (shape2 x))%nat -> stored y j i = stored x i j.
Proof.
  intros x K NC. destruct x as [X|X|X|X|? ?|? ?|? ?]; try (exfalso; apply NC; reflexivity); cbn [do_unary]; held K; rewrite ?U1, ?U3; cbn [bind].
  - destruct (C09_transpose_csr F (e_threads e) (e_il e 0) (e_sch e 0) (e_srt e 0) (py_arrays X)) as (B & E & CB & M1 & M2 & AT); auto; try apply FE.
    rewrite E. cbn [bind]. destruct (csr_new_is B) as [H EN]. eexists. split; [exact EN|]. split; [reflexivity|]. cbn [shape2 py_arrays fst snd stored]. split; [congruence|auto].
  - destruct (C09_transpose_csc F (e_threads e) (e_il e 0) (e_sch e 0) (e_srt e 0) (py_arrays X)) as (B & E & CB & M1 & M2 & AT); auto; try apply FE.
    unfold csc_T. rewrite UH, E. cbn [bind]. destruct (csc_new_is B) as [H EN]. eexists. split; [exact EN|]. split; [reflexivity|]. cbn [shape2 py_arrays fst snd stored]. split; [congruence|auto].
  - destruct C as [OK SV]. destruct (C09_transpose_coo F (pyc_arrays X) OK) as (OB & M1 & M2 & AT). rewrite UH. cbn [bind]. eexists. split; [apply coo_new_is; exact OB|].
    split; [reflexivity|]. cbn [shape2 pyc_arrays fst snd stored]. split; [congruence|]. intros. apply AT.
Qed.

(** two operands *)
Hypothesis NL : NLaws F.
Definition kernel_of (op : bop) := match op with
  | BAdd => add_csr | BSub => sub_csr | BMul => hadamard_csr | BDiv => div_csr | BFloorDiv => floordiv_csr | BMod => rem_csr | BPow => pow_csr (F := F) end.
Definition binary_class (c : option class) : Prop := c = Some CsrClass \/ c = Some CscClass.
Lemma do_binary_is : forall op x y, held x -> held y -> class_of x = class_of y -> binary_class (class_of x) ->
  exists A B : Cs F, canonical A /\ canonical B /\
   (class_of x = Some CsrClass -> do_binary e op x y = (let! C := kernel_of op (e_sch e 0) A B in csr_new C) /\
       shape2 x = (major A, minor A) /\ shape2 y = (major B, minor B) /\ (forall i j, stored x i j = cs_at A i (Z.of_nat j)) /\ (forall i j, stored y i j = cs_at B i (Z.of_nat j))) /\
   (class_of x = Some CscClass -> do_binary e op x y = (let! C := kernel_of op (e_sch e 0) A B in csc_new C) /\
       shape2 x = (minor A, major A) /\ shape2 y = (minor B, major B) /\ (forall i j, stored x i j = cs_at A j (Z.of_nat i)) /\ (forall i j, stored y i j = cs_at B j (Z.of_nat i))).
Proof.
  intros op x y Kx Ky EC BC. destruct x as [X|X|X|X|? ?|? ?|? ?]; try (destruct BC as [BC|BC]; discriminate BC); destruct y as [Y|Y|Y|Y|? ?|? ?|? ?]; try discriminate EC.
  - destruct (csr_held _ Kx) as (CX & UX & PX & _ & _ & HX & _). destruct (csr_held _ Ky) as (CY & UY & PY & _ & _ & HY & _).
    exists (py_arrays X), (py_arrays Y). split; auto. split; auto. split; [|discriminate]. intros _. split; [|repeat split].
    cbn [do_binary]. destruct op; unfold csr_both, csr_both_parts; rewrite ?HX, ?HY, ?PX, ?PY; reflexivity.
  - destruct (csc_held _ Kx) as (CX & _ & _ & UX & PX & HX & _). destruct (csc_held _ Ky) as (CY & _ & _ & UY & PY & HY & _).
    exists (py_arrays X), (py_arrays Y). split; auto. split; auto. split; [discriminate|]. intros _. split; [|repeat split].
    cbn [do_binary]. destruct op; unfold csc_both, csc_both_parts, csc_both_use; rewrite ?HX, ?HY, ?PX, ?PY, ?UX, ?UY; reflexivity.
Qed.
Lemma kernel_mismatch : forall op sch (A B : Cs F), major A <> major B \/ minor A <> minor B -> kernel_of op sch A B = Panic.
Proof. intros op sch A B H. destruct op; apply (binary_mismatch (F := F)); exact H. Qed.
Lemma kernel_isect : forall op, sum_of (F := F) op = None -> isect_kernel_correct (kernel_of op) (combines op).
Proof.
  intros op N. destruct op; try discriminate N; [apply hadamard_correct|apply div_correct|apply floordiv_correct|apply rem_correct|apply pow_correct]; auto.
Qed.
Lemma kernel_merge : forall op g, sum_of (F := F) op = Some g -> merge_kernel_correct (kernel_of op) g.
Proof. intros op g N. destruct op; try discriminate N; injection N as <-; [apply add_correct|apply sub_correct]; auto. Qed.
Lemma do_binary_mismatch : forall op x y, held x -> held y -> class_of x = class_of y -> binary_class (class_of x) -> shape2 x <> shape2 y -> do_binary e op x y = Panic.
Proof.
  intros op x y Kx Ky EC BC NS. destruct (do_binary_is op x y Kx Ky EC BC) as (A & B & CA & CB & H1 & H2).
  destruct BC as [BC|BC]; [destruct (H1 BC) as (E & S1 & S2 & _)|destruct (H2 BC) as (E & S1 & S2 & _)]; rewrite E, kernel_mismatch; auto;
  rewrite S1, S2 in NS; destruct (Nat.eq_dec (major A) (major B)); auto; right; intros Q; apply NS; congruence.
Qed.
Lemma do_binary_isect : forall op x y, held x -> held y -> class_of x = class_of y -> binary_class (class_of x) -> shape2 x = shape2 y -> sum_of (F := F) op = None ->
  exists z, do_binary e op x y = Ok z /\ class_of z = class_of x /\ shape2 z = shape2 x /\
    forall i j, (i < fst (shape2 x))%nat -> (j < snd (shape2 x))%nat ->
      (forall v, stored z i j = [v] <-> exists p q, stored x i j = [p] /\ stored y i j = [q] /\ combines op p q v) /\ (stored z i j = [] \/ exists v, stored z i j = [v]).
Proof.
  intros op x y Kx Ky EC BC ES N. destruct (do_binary_is op x y Kx Ky EC BC) as (A & B & CA & CB & H1 & H2).
  destruct BC as [BC|BC]; [destruct (H1 BC) as (E & S1 & S2 & V1 & V2)|destruct (H2 BC) as (E & S1 & S2 & V1 & V2)]; rewrite S1, S2 in ES; injection ES as E1 E2;
  destruct (kernel_isect op N (e_sch e 0) A B (fair_sch _ FE 0%nat) CA CB) as (C & EK & CC & M1 & M2 & _ & AT); auto; rewrite E, EK; cbn [bind].
  - destruct (csr_new_is C) as [H EN]. eexists. split; [exact EN|]. split; [symmetry; exact BC|]. rewrite S1. cbn [shape2 py_arrays fst snd stored]. split; [unfold csr_nrows, csr_ncols; congruence|].
    intros i j Hi Hj. rewrite V1, V2. apply AT. exact Hi.
  - destruct (csc_new_is C) as [H EN]. eexists. split; [exact EN|]. split; [symmetry; exact BC|]. rewrite S1. cbn [shape2 py_arrays fst snd stored]. split; [unfold csc_nrows, csc_ncols; congruence|].
    intros i j Hi Hj. rewrite V1, V2. apply AT. exact Hj.
Qed.
Lemma do_binary_merge : forall op g x y, held x -> held y -> class_of x = class_of y -> binary_class (class_of x) -> shape2 x = shape2 y -> sum_of op = Some g ->
  exists z, do_binary e op x y = Ok z /\ class_of z = class_of x /\ shape2 z = shape2 x /\
    forall i j, (i < fst (shape2 x))%nat -> (j < snd (shape2 x))%nat -> feqv (cell z i j) (g (cell x i j) (cell y i j)).
Proof.
  intros op g x y Kx Ky EC BC ES N. destruct (do_binary_is op x y Kx Ky EC BC) as (A & B & CA & CB & H1 & H2).
  destruct BC as [BC|BC]; [destruct (H1 BC) as (E & S1 & S2 & V1 & V2)|destruct (H2 BC) as (E & S1 & S2 & V1 & V2)]; rewrite S1, S2 in ES; injection ES as E1 E2;
  destruct (kernel_merge op g N (e_sch e 0) A B (fair_sch _ FE 0%nat) CA CB) as (C & EK & CC & M1 & M2 & _ & AT); auto; rewrite E, EK; cbn [bind].
  - destruct (csr_new_is C) as [H EN]. eexists. split; [exact EN|]. split; [symmetry; exact BC|]. rewrite S1. cbn [shape2 py_arrays fst snd]. split; [unfold csr_nrows, csr_ncols; congruence|].
    intros i j Hi Hj. unfold cell. rewrite V1, V2. cbn [stored py_arrays]. apply AT. exact Hi.
  - destruct (csc_new_is C) as [H EN]. eexists. split; [exact EN|]. split; [symmetry; exact BC|]. rewrite S1. cbn [shape2 py_arrays fst snd]. split; [unfold csc_nrows, csc_ncols; congruence|].
    intros i j Hi Hj. unfold cell. rewrite V1, V2. cbn [stored py_arrays]. apply AT. exact Hj.
Qed.
End Steps.

Lemma do_eliminate_is : forall pw (e : Env (f64 pw)), fair e -> forall x, held x -> class_of x <> None -> no_nan (matrix_values (stored x) (fst (shape2 x)) (snd (shape2 x))) ->
  filtered (fun v => negb (feqb v f0)) x (do_unary e UElim x).
Proof.
  intros pw e FE x K NC NN. destruct x as [X|X|X|X|? ?|? ?|? ?]; try (exfalso; apply NC; reflexivity); cbn [do_unary shape2 stored fst snd] in *.
  - destruct (csr_held _ K) as (C & U1 & U2 & U3 & U4 & UH & A1 & A2 & A3 & A4). rewrite U1. cbn [bind]. unfold csr_nrows, csr_ncols in NN.
    assert (ND : Forall (fun v : f64 pw => fnan v = false) (dat (py_arrays X))) by (eapply Permutation_Forall; [apply Permutation_sym, dat_values; apply C|exact NN]).
    destruct (eliminate_cs pw (e_sch e 0) (py_arrays X)) as (B & E & OB & _ & M1 & M2 & RB); [apply FE|apply C|exact ND|].
    unfold eliminate_zeros_csr, prune_csr. rewrite E. cbn [bind]. apply csr_filtered; auto.
  - destruct (csc_held _ K) as (C & U1 & U2 & U3 & U4 & UH & A1 & A2 & A3 & A4). rewrite U3. cbn [bind].
    assert (ND : Forall (fun v : f64 pw => fnan v = false) (dat (py_arrays X))) by (eapply Permutation_Forall; [apply Permutation_sym, csc_dat_values; apply C|exact NN]).
    destruct (eliminate_cs pw (e_sch e 0) (py_arrays X)) as (B & E & OB & _ & M1 & M2 & RB); [apply FE|apply C|exact ND|].
    unfold eliminate_zeros_csc, prune_csc. rewrite E. cbn [bind]. apply csc_filtered; auto.
  - destruct (coo_held _ K) as (C & U1 & U2 & UH & A1 & A2 & A3 & A4). destruct C as [OK SV]. rewrite U1. cbn [bind].
    assert (ND : Forall (fun v : f64 pw => fnan v = false) (coo_data (pyc_arrays X))) by (eapply Permutation_Forall; [apply Permutation_sym, coo_dat_values; auto|exact NN]).
    destruct (C18_eliminate_zeros_coo_partial pw (pyc_arrays X) OK ND) as (B & E & OB & N1 & N2 & EB). rewrite E. cbn [bind]. apply coo_filtered; auto.
Qed.
