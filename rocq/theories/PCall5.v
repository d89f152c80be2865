(** Products of the matrices of a running program with dense arrays (for C64). *)
Require Import List ZArith Bool Arith Lia Permutation Sorting.Sorted.
Require Import ZifyBool ZifyNat.
Require Verif.PDense2 Verif.PSafe3 Verif.PSafe4.
Require Import Verif.Res Verif.Values Verif.Spec Verif.Mem Verif.Lists Verif.CsLib Verif.Laws Verif.PropLinalg Verif.SpecReduce Verif.SpecPy Verif.MLinalg Verif.MPy Verif.PPy2 Verif.PropPy2 Verif.MObj Verif.SpecObj Verif.PObj Verif.SpecCall Verif.SpecCall2 Verif.PCall Verif.PCall2 Verif.PCall3.
Import ListNotations.
Local Open Scope Z_scope.

Lemma filter_split : forall {V} (l : list (Z * V)) k, StronglySorted (fun a b => fst a < fst b) l ->
  filter (fun e => fst e <? k + 1) l = filter (fun e => fst e <? k) l ++ filter (fun e => fst e =? k) l.
Proof.
  induction l as [|[a v] l IH]; intros k S; [reflexivity|]. inversion S as [|x l' S' FA]; subst x l'. cbn [filter fst]. rewrite IH by auto.
  destruct (Z.ltb_spec a (k + 1)); destruct (Z.ltb_spec a k); destruct (Z.eqb_spec a k); try lia; cbn [app]; auto.
  subst a. replace (filter (fun e => fst e <? k) l) with (@nil (Z * V)); [reflexivity|]. symmetry. clear - FA. induction FA as [|x l H FA IH]; [reflexivity|].
  cbn [filter fst] in *. destruct (Z.ltb_spec (fst x) k); [lia|auto].
Qed.
Lemma at_index_pairs : forall {V} (l : list (Z * V)) k, map (fun v => (k, v)) (at_index k l) = filter (fun e => fst e =? k) l.
Proof.
  induction l as [|[a v] l IH]; intros k; [reflexivity|]. unfold at_index in *. cbn [filter fst]. destruct (Z.eqb_spec a k); cbn [map snd]; rewrite ?IH; auto. subst a. auto.
Qed.
Lemma filter_none_below : forall {V} (l : list (Z * V)) n, Forall (fun e => 0 <= fst e < n) l -> filter (fun e => fst e <? n) l = l.
Proof. induction l as [|x l IH]; intros n H; [reflexivity|]. inversion H; subst. cbn [filter]. destruct (Z.ltb_spec (fst x) n); [rewrite IH; auto|lia]. Qed.
Lemma sorted_by_column : forall {V} (l : list (Z * V)) n, StronglySorted (fun a b => fst a < fst b) l -> Forall (fun e => 0 <= fst e < Z.of_nat n) l ->
  l = by_column (fun j => at_index (Z.of_nat j) l) n.
Proof.
  intros V l n S B. rewrite <- (filter_none_below l (Z.of_nat n) B) at 1. assert (B0 : Forall (fun e => 0 <= fst e) l) by (eapply Forall_impl; [|exact B]; cbv beta; lia). clear B.
  unfold by_column. induction n as [|n IH].
  - cbn. clear S. induction B0 as [|x l H B0 IH]; [reflexivity|]. cbn [filter]. destruct (Z.ltb_spec (fst x) 0); [lia|auto].
  - rewrite seq_S, flat_map_app. cbn [flat_map Nat.add]. rewrite app_nil_r, <- IH, at_index_pairs. rewrite Nat2Z.inj_succ. apply filter_split; auto.
Qed.

Lemma sorted_pairs : forall {V} (l : list (Z * V)), StronglySorted Z.lt (map fst l) -> StronglySorted (fun a b => fst a < fst b) l.
Proof.
  induction l as [|x l IH]; intros S; [constructor|]. cbn [map] in S. inversion S as [|y l' S' FA]; subst. constructor; auto.
  apply Forall_forall. intros y I. rewrite Forall_forall in FA. apply FA. apply in_map. auto.
Qed.
Lemma row_by_column : forall {V} (A : Cs V) i, canonical A -> (i < major A)%nat -> cs_row A i = by_column (fun j => csr_at A i j) (minor A).
Proof.
  intros V A i C Hi. apply canonical_rows in C. destruct C as [OK FS]. apply sorted_by_column.
  - apply sorted_pairs. rewrite Forall_forall in FS. apply FS. unfold rows. apply in_map. apply in_seq. lia.
  - pose proof (row_bounds A i OK Hi) as B. unfold in_bounds in B. eapply Forall_impl; [|exact B]. intros e He. cbv beta in He |- *. tauto.
Qed.

(** The sizes of a product with an array of shape (bs..., n, k). *)
Lemma batch_alloc : forall m n k bs, Z.max 1 (Z.of_nat m) * shape_cells (map Z.of_nat (bs ++ [n; k])) < i64_max -> let b := fold_right Nat.mul 1%nat bs in
  alloc_ok (n * (b * k)) /\ alloc_ok (m * (b * k)).
Proof.
  intros m n k bs D b. destruct (PDense2.alloc_rest m n (bs ++ [k])) as (_ & A1 & A2).
  - replace (shape_cells (map Z.of_nat (n :: bs ++ [k]))) with (shape_cells (map Z.of_nat (bs ++ [n; k]))); [exact D|].
    cbn [map]. rewrite !map_app. cbn [map]. change (Z.of_nat n :: map Z.of_nat bs ++ [Z.of_nat k]) with ([Z.of_nat n] ++ map Z.of_nat bs ++ [Z.of_nat k]).
    change [Z.of_nat n; Z.of_nat k] with ([Z.of_nat n] ++ [Z.of_nat k]). rewrite !PSafe3.shape_cells_app. ring.
  - rewrite PSafe4.count_app in A1, A2. change (PSafe4.count bs) with b in A1, A2. replace (PSafe4.count [k]) with k in A1, A2 by (cbn; lia). auto.
Qed.

(** ** The products of the three classes *)
Section Env.
Context {F : Fl} (e : Env F) (FE : fair e) (L : NLaws F).

Definition mv_is (x : value F) (mv : list F -> res (list F)) : Prop := let (m, n) := shape2 x in
  forall v, length v = n -> exists c, mv v = Ok c /\ length c = m /\ forall i, (i < m)%nat -> row_times x i v (nth i c f0).
Definition mm_is (x : value F) (mm : list F -> nat -> res (list F)) : Prop := let (m, n) := shape2 x in
  forall b k, columns_ok x k -> length b = (n * k)%nat -> alloc_ok (n * k) -> alloc_ok (m * k) ->
    exists c, mm b k = Ok c /\ length c = (m * k)%nat /\
      forall i q, (i < m)%nat -> (q < k)%nat -> FSum (dot_terms (stored x) n (column b n k q) i) (nth (i * k + q) c f0).
Lemma reshape_mm : forall x mm, mm_is x mm -> mm_is x (fun b k => let! c := mm b k in let! (_, c) := reshape_to [fst (shape2 x); k] c in Ok c).
Proof.
  intros x mm H. unfold mm_is in *. destruct (shape2 x) as [m n]. intros b k K L1 A1 A2. destruct (H b k K L1 A1 A2) as (c & E & LC & HC). exists c. rewrite E. cbn [bind fst].
  unfold reshape_to. rewrite LC. cbn [fold_right]. rewrite Nat.mul_1_r, Nat.eqb_refl. auto.
Qed.

Lemma mm_kernels : forall x, held x -> class_of x <> None ->
  match x with
  | VCsr X => mv_is x (spmv_csr (e_schv e) (py_arrays X)) /\ mm_is x (spmm_csr (py_arrays X))
  | VCsc X => mv_is x (spmv_csc (e_threads e) (e_dist e) (py_arrays X)) /\ mm_is x (spmm_csc (e_ilo e) (py_arrays X))
  | VCoo X => mv_is x (spmv_coo (e_threads e) (e_dist e) (pyc_arrays X)) /\ mm_is x (spmm_coo (e_ilo e) (pyc_arrays X))
  | _ => True
  end.
Proof using FE L.
  intros x K NC. destruct x as [X|X|X|X|? ?|? ?|? ?]; try exact I; split; unfold mv_is, mm_is; cbn [shape2].
  - destruct (csr_held X K) as (C & _ & _ & _ & _ & _ & A1 & A2 & A3 & A4). intros v LV.
    destruct (C27_spmv_csr F (e_schv e) (py_arrays X) v L (fair_schv _ FE) (can_ok _ C) A4 A2 LV) as (c & E & LC & N). exists c. split; [exact E|]. split; [exact LC|].
    intros i Hi. unfold row_times. rewrite N by auto. f_equal. apply row_by_column; auto.
  - destruct (csr_held X K) as (C & _ & _ & _ & _ & _ & A1 & A2 & A3 & A4). intros b k KK LB B1 B2.
    destruct (C30_spmm_csr F (py_arrays X) b k L (can_ok _ C) A4) as (c & E & LC & N); [repeat split; auto|exact KK|]. exists c. split; [exact E|]. split; [exact LC|]. intros i q Hi Hq. apply N; auto.
  - destruct (csc_held X K) as (C & _ & _ & _ & _ & _ & A1 & A2 & A3 & A4). intros v LV.
    destruct (C28_spmv_csc F (e_threads e) (e_dist e) (py_arrays X) v L (fair_dist _ FE) (can_ok _ C) A4 A2 LV) as (c & E & LC & N). exists c. split; [exact E|]. split; [exact LC|]. exact N.
  - destruct (csc_held X K) as (C & _ & _ & _ & _ & _ & A1 & A2 & A3 & A4). intros b k KK LB B1 B2.
    destruct (C30_spmm_csc F (py_arrays X) b k L (can_ok _ C) A4) as (c & E & LC & N); [repeat split; auto|]. exists c. split; [apply E, (fair_ilo _ FE)|]. split; [exact LC|]. intros i q Hi Hq. apply N; auto.
  - destruct (coo_held X K) as ([C SV] & _ & _ & _ & A1 & A2 & A3 & A4). intros v LV.
    destruct (C28_spmv_coo F (e_threads e) (e_dist e) (pyc_arrays X) v L (fair_dist _ FE) C A1 LV) as (c & E & LC & N). exists c. split; [exact E|]. split; [exact LC|]. exact N.
  - destruct (coo_held X K) as ([C SV] & _ & _ & _ & A1 & A2 & A3 & A4). intros b k KK LB B1 B2.
    destruct (C30_spmm_coo F (pyc_arrays X) b k L C) as (c & E & LC & N); [repeat split; auto|]. exists c. split; [apply E, (fair_ilo _ FE)|]. split; [exact LC|]. exact N.
Qed.

Lemma do_matmul_is : forall x, held x -> class_of x <> None -> exists mv mm,
  (forall sh d, do_matmul e x (VArr sh d) = arr_new VArr (py_matmul mv mm (fst (shape2 x)) (snd (shape2 x)) sh d)) /\
  mv_is x mv /\ mm_is x mm /\ (class_of x = Some CsrClass -> mm [] 0%nat = Panic).
Proof using FE L.
  intros x K NC. assert (H := mm_kernels x K NC). destruct x as [X|X|X|X|? ?|? ?|? ?]; try (exfalso; apply NC; reflexivity); destruct H as [H1 H2]; apply reshape_mm in H2.
  - destruct (csr_held X K) as (C & U & P & _). do 2 eexists. split; [intros sh d; unfold do_matmul; rewrite U; cbn [bind]; reflexivity|]. split; [exact H1|]. split; [exact H2|].
    intros _. rewrite (proj1 (C31_csr_zero_columns_refuted F _)). reflexivity.
  - destruct (csc_held X K) as (C & _ & _ & U & P & _). do 2 eexists. split; [intros sh d; unfold do_matmul; rewrite U; cbn [bind]; reflexivity|]. split; [exact H1|]. split; [exact H2|]. discriminate.
  - destruct (coo_held X K) as (C & U & P & _). do 2 eexists. split; [intros sh d; unfold do_matmul; rewrite U; cbn [bind]; reflexivity|]. split; [exact H1|]. split; [exact H2|]. discriminate.
Qed.

Lemma do_tensordot_is : forall x, held x -> class_of x <> None -> exists mm, mm_is x mm /\ (class_of x = Some CsrClass -> mm [] 0%nat = Panic) /\
  forall axis rest d, axis = None \/ axis = Some 1 -> rest <> [] -> length d = fold_right Nat.mul 1%nat (snd (shape2 x) :: rest) ->
    Z.max 1 (Z.of_nat (fst (shape2 x))) * shape_cells (map Z.of_nat (snd (shape2 x) :: rest)) < i64_max ->
    do_tensordot e x (VArr (snd (shape2 x) :: rest) d) axis =
      (let! c := mm d (fold_right Nat.mul 1%nat rest) in tensordot_result (fst (shape2 x)) (snd (shape2 x) :: rest) c).
Proof using FE L.
  intros x K NC. assert (H := mm_kernels x K NC).
  assert (AX : forall axis : option Z, axis = None \/ axis = Some 1 -> match axis with None => true | Some ax => ax =? 1 end = true) by (intros axis [-> | ->]; reflexivity).
  assert (G : forall n rest (d : list F), length d = fold_right Nat.mul 1%nat (n :: rest) -> Z.of_nat (length d) = cells (Z.of_nat n :: map Z.of_nat rest)).
  { intros n rest d LD. rewrite LD. exact (PSafe4.count_cells (n :: rest)). }
  destruct x as [X|X|X|X|? ?|? ?|? ?]; try (exfalso; apply NC; reflexivity); destruct H as [H1 H2].
  - destruct (csr_held X K) as (C & U & P & _). exists (spmm_csr (py_arrays X)). split; [exact H2|]. split; [intros _; apply C31_csr_zero_columns_refuted|].
    cbn [shape2 fst snd]. intros axis [|r rest] d EA NR LD D; [congruence|]. destruct (PDense2.alloc_rest _ _ _ D) as (SF & _). unfold do_tensordot. rewrite (AX _ EA). cbn [bind].
    rewrite Nat.eqb_refl, P. cbn [bind]. destruct (C31_tensordot F d _ _ SF (G _ _ _ LD)) as (T & _). cbn [map]. change (Z.of_nat r :: map Z.of_nat rest) with (map Z.of_nat (r :: rest)).
    rewrite T by reflexivity. rewrite <- PSafe4.count_cells, Nat2Z.id. reflexivity.
  - destruct (csc_held X K) as (C & _ & _ & U & P & _). exists (spmm_csc (e_ilo e) (py_arrays X)). split; [exact H2|]. split; [discriminate|].
    cbn [shape2 fst snd]. intros axis [|r rest] d EA NR LD D; [congruence|]. destruct (PDense2.alloc_rest _ _ _ D) as (SF & _). unfold do_tensordot. rewrite (AX _ EA). cbn [bind].
    rewrite Nat.eqb_refl, P. cbn [bind]. destruct (C31_tensordot F d _ _ SF (G _ _ _ LD)) as (_ & T & _). cbn [map]. change (Z.of_nat r :: map Z.of_nat rest) with (map Z.of_nat (r :: rest)).
    rewrite T by reflexivity. rewrite <- PSafe4.count_cells, Nat2Z.id. reflexivity.
  - destruct (coo_held X K) as (C & U & P & _). exists (spmm_coo (e_ilo e) (pyc_arrays X)). split; [exact H2|]. split; [discriminate|].
    cbn [shape2 fst snd]. intros axis [|r rest] d EA NR LD D; [congruence|]. destruct (PDense2.alloc_rest _ _ _ D) as (SF & _). unfold do_tensordot. rewrite (AX _ EA). cbn [bind].
    rewrite Nat.eqb_refl, P. cbn [bind]. destruct (C31_tensordot F d _ _ SF (G _ _ _ LD)) as (_ & _ & T). cbn [map]. change (Z.of_nat r :: map Z.of_nat rest) with (map Z.of_nat (r :: rest)).
    rewrite T by reflexivity. rewrite <- PSafe4.count_cells, Nat2Z.id. reflexivity.
Qed.

Lemma do_vecdot_axis0 : forall x d, held x -> class_of x <> None -> length d = fst (shape2 x) ->
  exists c, do_vecdot e x (VArr [fst (shape2 x)] d) (Some 0) = Ok (VArr [snd (shape2 x)] c) /\ length c = snd (shape2 x) /\
    forall j, (j < snd (shape2 x))%nat -> col_times x j d (nth j c f0).
Proof using FE L.
  intros x d K NC LD. destruct x as [X|X|X|X|? ?|? ?|? ?]; try (exfalso; apply NC; reflexivity); cbn [shape2 fst snd] in *; unfold do_vecdot; change (0 =? -1) with false; change (0 =? 1) with false; change (0 =? 0) with true; cbv iota; rewrite Nat.eqb_refl.
  - destruct (csr_held X K) as (C & U & P & _ & _ & _ & A1 & A2 & A3 & A4). destruct (C32_vecdot_csr_axis0 F (e_dist e) (py_arrays X) d L (fair_dist _ FE) (can_ok _ C) A4 A2 LD) as (c & E & LC & HC).
    exists c. rewrite P. cbn [bind]. rewrite E. cbn [bind]. rewrite LC. auto.
  - destruct (csc_held X K) as (C & _ & _ & U & P & _ & A1 & A2 & A3 & A4). destruct (C32_vecdot_csc_axis0 F (py_arrays X) d L (can_ok _ C) A4 A2 LD) as (c & E & LC & HC).
    exists c. rewrite P. cbn [bind]. rewrite E. cbn [bind]. rewrite LC. split; [reflexivity|]. split; [reflexivity|]. intros j Hj. cbn [col_times shape2 fst]. rewrite HC by auto. f_equal.
    exact (row_by_column (py_arrays X) j C Hj).
  - destruct (coo_held X K) as ([C SV] & U & P & _ & A1 & A2 & A3 & A4). destruct (C32_vecdot_coo_axis0 F (e_threads e) (e_dist e) (pyc_arrays X) d L (fair_dist _ FE) C A2 LD) as (c & E & LC & HC).
    exists c. rewrite P. cbn [bind]. rewrite E. cbn [bind]. rewrite LC. auto.
Qed.
End Env.
