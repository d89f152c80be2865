(** Programs compute what the dense machine of SpecDense computes: reductions. *)
Require Import List ZArith Bool Arith Lia QArith Qcanon Permutation.
Require Import ZifyBool ZifyNat.
Require Import Verif.Res Verif.Values Verif.Spec Verif.Mem Verif.Lists Verif.CsLib Verif.Laws Verif.Witness Verif.MCore Verif.MConvert Verif.PConvert2 Verif.PConvert3 Verif.PropConvert Verif.PGroup Verif.PropScalar.
Require Import Verif.MReduce Verif.MStat Verif.MCum Verif.SpecReduce Verif.PStat Verif.PStat2 Verif.PStat3 Verif.PropStat Verif.PropNd.
Require Import Verif.SpecPy Verif.MPy Verif.PropPy Verif.PropPy2 Verif.MObj Verif.SpecObj Verif.PObj Verif.SpecDense Verif.PDense Verif.PDense2.
Import ListNotations.
Local Open Scope nat_scope.

(** The three results a reduction chooses from: over everything, per column, per row. *)
Definition triple {B} (red : list Qc -> B) (all : res B) (ax0 ax1 : res (list B)) (m n : nat) (a : nat -> nat -> Qc) : Prop :=
  all = Ok (red (table m n a)) /\
  ax0 = Ok (map (fun j => red (map (fun i => a i j) (seq 0 m))) (seq 0 n)) /\
  ax1 = Ok (map (fun i => red (map (a i) (seq 0 n))) (seq 0 m)).

Lemma reduction_sized : forall {B} (w : B) cs rs ax kd sh d, reduction_2d w cs rs ax kd = Some (sh, d) -> length d = fold_right Nat.mul 1 sh.
Proof.
  intros B w cs rs ax kd sh d H. unfold reduction_2d in H.
  assert (A1 : forall s l, Some (if kd then [1; 1] else [], [w]) = Some (s, l) -> length l = fold_right Nat.mul 1 s) by (intros s l E; injection E as <- <-; destruct kd; reflexivity).
  assert (OF : forall l, (if forallb (axis_valid 2) l then
       if existsb (fun a => names_axis 2 a 0) l then
         if existsb (fun a => names_axis 2 a 1) l then Some (if kd then [1; 1] else [], [w]) else Some (if kd then [1; length cs] else [length cs], cs)
       else if existsb (fun a => names_axis 2 a 1) l then Some (if kd then [length rs; 1] else [length rs], rs) else None
     else None) = Some (sh, d) -> length d = fold_right Nat.mul 1 sh).
  { intros l E. destruct (forallb _ l); [|discriminate E]. destruct (existsb _ l); destruct (existsb _ l); try discriminate E; try (apply A1; exact E); injection E as <- <-; destruct kd; cbn; lia. }
  destruct ax; [apply A1; exact H|apply (OF _ H)|apply (OF _ H)].
Qed.
Lemma reduce_core : forall {B} (red : list Qc -> B) all ax0 ax1 m n a ax kd sh d mk, triple red all ax0 ax1 m n a ->
  reduced red m n a ax kd = Some (sh, d) -> arr_new (F := qc) mk (reduce_2d all ax0 ax1 m n ax kd) = Ok (mk sh d).
Proof.
  intros B red all ax0 ax1 m n a ax kd sh d mk (-> & -> & ->) D. rewrite C56_dispatch by (rewrite map_length, seq_length; reflexivity).
  unfold reduced in D. rewrite D. reflexivity.
Qed.
Lemma reduce_arr : forall red all ax0 ax1 m n a ax kd Y, triple red all ax0 ax1 m n a ->
  arr (reduced red m n a ax kd) = Some Y -> done (arr_new (F := qc) VArr (reduce_2d all ax0 ax1 m n ax kd)) Y.
Proof.
  intros red all ax0 ax1 m n a ax kd Y T D. destruct (reduced red m n a ax kd) as [[sh d]|] eqn:E; [|discriminate D]. injection D as <-.
  exists (VArr (F := qc) sh d). split; [exact (reduce_core red all ax0 ax1 m n a ax kd sh d (VArr (F := qc)) T E)|]. intros _. split; [reflexivity|]. split; [reflexivity|]. eapply reduction_sized. exact E.
Qed.
Lemma reduce_bools : forall red all ax0 ax1 m n a ax kd Y, triple red all ax0 ax1 m n a ->
  bools (reduced red m n a ax kd) = Some Y -> done (arr_new (F := qc) VBools (reduce_2d all ax0 ax1 m n ax kd)) Y.
Proof.
  intros red all ax0 ax1 m n a ax kd Y T D. destruct (reduced red m n a ax kd) as [[sh d]|] eqn:E; [|discriminate D]. injection D as <-.
  exists (VBools sh d). split; [exact (reduce_core red all ax0 ax1 m n a ax kd sh d (VBools (F := qc)) T E)|]. intros _. split; reflexivity.
Qed.
Lemma of_nat_nonzero : forall k, 0 < k -> qc_eqb (Q2Qc (inject_Z (Z.of_nat k))) 0q = false.
Proof.
  intros k K. destruct (qc_eqb _ _) eqn:E; auto. apply qc_eqb_iff in E. apply (f_equal this) in E. cbn [this Q2Qc] in E.
  assert (E2 : (inject_Z (Z.of_nat k) == 0)%Q) by (rewrite <- (Qred_correct (inject_Z (Z.of_nat k))), E; reflexivity). unfold Qeq in E2. simpl in E2. lia.
Qed.
Lemma mean_arr : forall all ax0 ax1 m n a ax kd Y, triple qsum all ax0 ax1 m n a -> 0 < m * n ->
  arr (reduced qmean m n a ax kd) = Some Y -> done (arr_new (F := qc) VArr (mean_2d (F := qc) all ax0 ax1 m n ax kd)) Y.
Proof.
  intros all ax0 ax1 m n a ax kd Y (E1 & E2 & E3) K D. unfold mean_2d. eapply reduce_arr; [|exact D]. split; [|split].
  - rewrite E1. cbn [bind]. change (feqb (fofZ (Z.of_nat (m * n)) : qc) f0) with (qc_eqb (Q2Qc (inject_Z (Z.of_nat (m * n)))) 0q).
    rewrite of_nat_nonzero by auto. cbn [negb]. unfold qmean, qlen. rewrite table_length. reflexivity.
  - rewrite E2. cbn [rmap bind]. f_equal. rewrite map_map. apply map_seq_ext. intros j Hj. unfold qmean, qlen. rewrite map_length, seq_length. reflexivity.
  - rewrite E3. cbn [rmap bind]. f_equal. rewrite map_map. apply map_seq_ext. intros j Hj. unfold qmean, qlen. rewrite map_length, seq_length. reflexivity.
Qed.

(** ** Triples from the values stored at each position *)
Lemma triple_cells : forall {B} (red : list Qc -> B) all ax0 ax1 m n a cell, cell_rep cell m n a ->
  all = Ok (red (matrix_cells 0q cell m n)) ->
  ax0 = Ok (map (fun j => red (row_cells 0q (transposed cell) m j)) (seq 0 n)) ->
  ax1 = Ok (map (fun i => red (row_cells 0q cell n i)) (seq 0 m)) -> triple red all ax0 ax1 m n a.
Proof.
  intros B red all ax0 ax1 m n a cell CR -> -> ->. rewrite (cr_matrix _ _ _ _ CR). split; [reflexivity|]. split; f_equal; apply map_seq_ext; intros k Hk; f_equal.
  - apply (cr_row _ _ _ _ (cr_t _ _ _ _ CR)); auto.
  - apply (cr_row _ _ _ _ CR); auto.
Qed.
Lemma triple_sums : forall all ax0 ax1 m n a cell, cell_rep cell m n a ->
  all = Ok (qsum (map (fun p => qsum (cell (fst p) (snd p))) (grid m n))) ->
  ax0 = Ok (map (fun j => qsum (map (fun i => qsum (cell i j)) (seq 0 m))) (seq 0 n)) ->
  ax1 = Ok (map (fun i => qsum (map (fun j => qsum (cell i j)) (seq 0 n))) (seq 0 m)) -> triple qsum all ax0 ax1 m n a.
Proof.
  intros all ax0 ax1 m n a cell CR -> -> ->. rewrite (cr_sums _ _ _ _ CR). split; [reflexivity|]. split; f_equal; apply map_seq_ext; intros k Hk; f_equal.
  - apply (cr_colsum _ _ _ _ CR); auto.
  - apply (cr_rowsum _ _ _ _ CR); auto.
Qed.
Lemma prods_list : forall (cell : nat -> nat -> list Qc) m n (r : res (list Qc)),
  (exists y : list qc, r = Ok y /\ length y = m /\ forall i, i < m -> prod_spec (F := qc) (cell i) (seq 0 n) (nth i y f0)) ->
  r = Ok (map (fun i => qprod (row_cells 0q cell n i)) (seq 0 m)).
Proof. intros cell m n r (y & -> & L & H). f_equal. apply exact_list; auto. intros i Hi. apply prod_spec_exact. apply H; auto. Qed.

Section Env.
Context (e : Env qc) (FE : fair e).

Lemma zero_is : e_zero e = (f0 : qc).
Proof. apply (e_eqb _ qc_elaws). apply (fair_zero _ FE). Qed.
Definition no_coo : Coo qc := mkCoo 0 0 [] [] [].
Definition no_nd : Nd qc := mkNd [1%Z] [] [].
Definition no_cs : Cs qc := mkCs 0 0 [0%Z] [] [].
Lemma no_coo_ok : coo_ok no_coo. Proof. apply coo_ok_literal. reflexivity. Qed.
Lemma no_nd_ok : nd_ok no_nd. Proof. apply nd_ok_literal. reflexivity. Qed.
Lemma no_cs_ok : cs_ok no_cs. Proof. apply cs_ok_literal. reflexivity. Qed.
Lemma no_canonical : canonical no_cs. Proof. apply canonical_literal; reflexivity. Qed.
Lemma no_coo_single : single_valued (coo_at no_coo). Proof. intros i j. cbn. lia. Qed.
Lemma alloc_0 : alloc_ok 0. Proof. reflexivity. Qed.

(** ** CSR *)
Section Csr.
Context (A : Cs qc) (m n : nat) (a : nat -> nat -> Qc) (R : cs_rep A m n a) (AM : alloc_ok m) (AN : alloc_ok n) (AMN : alloc_ok (m * n)) (AZ : alloc_ok (length (dat A))).
Lemma csr_sums : triple qsum (sum_csr (e_zero e) (e_split e) A) (col_sums_csr (e_threads e) (e_dist e) (e_ilo e) A) (row_sums_csr (e_schv e) A) m n a.
Proof using FE R AM AN AMN AZ.
  rewrite zero_is. apply (triple_sums _ _ _ _ _ _ (csr_at A)); [apply cr_csr; auto|..]; destruct R as (C & E1 & E2 & V); subst m n.
  - apply (C33_sum_exact (e_split e) A no_cs no_coo no_nd (can_ok _ C) no_cs_ok no_coo_ok no_nd_ok).
  - apply (C34_sums_exact (e_schv e) (e_threads e) (e_dist e) (e_ilo e) A no_cs no_coo (fair_schv _ FE) (fair_dist _ FE) (fair_ilo _ FE) (can_ok _ C) no_cs_ok no_coo_ok AZ AN alloc_0 alloc_0 alloc_0 alloc_0).
  - apply (C34_sums_exact (e_schv e) (e_threads e) (e_dist e) (e_ilo e) A no_cs no_coo (fair_schv _ FE) (fair_dist _ FE) (fair_ilo _ FE) (can_ok _ C) no_cs_ok no_coo_ok AZ AN alloc_0 alloc_0 alloc_0 alloc_0).
Qed.
Lemma csr_prods : triple qprod (prod_csr (e_split e) A) (col_prods_csr (e_threads e) (e_il e 0) (e_sch e 0) (e_srt e 0) A) (row_prods_csr A) m n a.
Proof using FE R AM AN AMN AZ.
  apply (triple_cells _ _ _ _ _ _ _ (csr_at A)); [apply cr_csr; auto|..]; pose proof R as (C & E1 & E2 & V).
  - subst m n. apply (C37_prod_exact (e_split e) A no_cs no_coo C no_canonical no_coo_ok no_coo_single AZ alloc_0 alloc_0).
  - destruct (transpose_rep (e_threads e) (e_il e 0) (e_sch e 0) (e_srt e 0) A m n a (fair_il _ FE 0) (fair_sch _ FE 0) (fair_srt _ FE 0) AM R) as (T & E & RT).
    destruct (after_transpose_ok (e_threads e) (e_il e 0) (e_sch e 0) (e_srt e 0) row_prods_csr A (fair_il _ FE 0) (fair_sch _ FE 0) (fair_srt _ FE 0) C) as (T' & E' & CT & M1 & M2 & LD & PD & AT); [congruence|].
    apply prods_list. destruct (major_prods_ok (n_zero _ qc_laws) T' CT) as (y & EY & LY & HY); [rewrite LD; auto|]. exists y. unfold col_prods_csr. rewrite E'. split; [exact EY|].
    subst m n. rewrite M1, M2 in *. split; [exact LY|]. intros j Hj. eapply prod_spec_ext; [|apply HY; auto]. intros i I. apply in_seq in I. apply AT; auto. lia.
  - apply prods_list. subst m n. apply (major_prods_ok (n_zero _ qc_laws)); auto.
Qed.
Lemma csr_vars : forall c : qc, triple (fun l => qvariance l c) (var_csr (e_split e) A c) (col_vars_csr (e_threads e) (e_il e 0) (e_sch e 0) (e_srt e 0) c A) (row_vars_csr c A) m n a.
Proof using FE R AM AN AMN AZ.
  intros c. apply (triple_cells _ _ _ _ _ _ _ (csr_at A)); [apply cr_csr; auto|..]; pose proof R as (C & E1 & E2 & V); subst m n.
  - apply C38_var_csr; auto. unfold alloc_ok, i64_max, usize_max in *. unfold csr_nrows, csr_ncols. lia.
  - apply (C38_col_vars_csr (e_threads e) (e_il e 0) (e_sch e 0) (e_srt e 0) c A (fair_il _ FE 0) (fair_sch _ FE 0) (fair_srt _ FE 0)); auto.
  - apply C38_row_vars_csr; auto.
Qed.
Lemma logic_whole : forall full, full = Z.min (Z.of_nat (m * n)) usize_max ->
  all_data full (dat A) = forallb (nonzero (F := qc)) (matrix_cells 0q (csr_at A) m n) /\ any_data full (dat A) = existsb (nonzero (F := qc)) (matrix_cells 0q (csr_at A) m n).
Proof using FE R AM AN AMN AZ.
  intros full EF. destruct R as (C & E1 & E2 & V). subst m n. destruct (csr_cells_perm A C) as [LE P]. unfold csr_nrows, csr_ncols in *.
  rewrite <- (matrix_cells_length f0 (csr_at A)) in *. apply (all_data_ok (n_zero _ qc_laws)); auto.
Qed.
Lemma logic_rows : row_alls_csr A = Ok (map (fun i => forallb (nonzero (F := qc)) (row_cells 0q (csr_at A) n i)) (seq 0 m)) /\
  row_anys_csr A = Ok (map (fun i => existsb (nonzero (F := qc)) (row_cells 0q (csr_at A) n i)) (seq 0 m)).
Proof using FE R AM AN AMN AZ.
  destruct R as (C & E1 & E2 & V). subst m n. apply (major_logic_ok (n_zero _ qc_laws)); auto; [apply C|]. intros. apply canonical_single; auto.
Qed.
End Csr.
Lemma csr_logic_cols : forall A m n a, cs_rep A m n a -> alloc_ok m -> alloc_ok n -> alloc_ok (length (dat A)) ->
  col_alls_csr (e_threads e) (e_il e 0) (e_sch e 0) (e_srt e 0) A = Ok (map (fun j => forallb (nonzero (F := qc)) (row_cells 0q (transposed (csr_at A)) m j)) (seq 0 n)) /\
  col_anys_csr (e_threads e) (e_il e 0) (e_sch e 0) (e_srt e 0) A = Ok (map (fun j => existsb (nonzero (F := qc)) (row_cells 0q (transposed (csr_at A)) m j)) (seq 0 n)).
Proof.
  intros A m n a R AM AN AZ. pose proof R as (C & E1 & E2 & V). subst m n. split.
  - destruct (after_transpose_ok (e_threads e) (e_il e 0) (e_sch e 0) (e_srt e 0) row_alls_csr A (fair_il _ FE 0) (fair_sch _ FE 0) (fair_srt _ FE 0) C AM) as (T & E & CT & M1 & M2 & LD & PD & AT).
    unfold col_alls_csr. rewrite E. destruct (major_logic_ok (n_zero _ qc_laws) T (can_ok _ CT)) as [H1 H2]; [intros; apply canonical_single; auto|rewrite LD; auto|].
    unfold row_alls_csr. rewrite H1, M1, M2. f_equal. apply map_seq_ext. intros j Hj. f_equal. apply row_cells_ext. intros i Hi. apply AT; auto.
  - destruct (after_transpose_ok (e_threads e) (e_il e 0) (e_sch e 0) (e_srt e 0) row_anys_csr A (fair_il _ FE 0) (fair_sch _ FE 0) (fair_srt _ FE 0) C AM) as (T & E & CT & M1 & M2 & LD & PD & AT).
    unfold col_anys_csr. rewrite E. destruct (major_logic_ok (n_zero _ qc_laws) T (can_ok _ CT)) as [H1 H2]; [intros; apply canonical_single; auto|rewrite LD; auto|].
    unfold row_anys_csr. rewrite H2, M1, M2. f_equal. apply map_seq_ext. intros j Hj. f_equal. apply row_cells_ext. intros i Hi. apply AT; auto.
Qed.
Lemma csr_alls : forall A m n a, cs_rep A m n a -> alloc_ok m -> alloc_ok n -> alloc_ok (m * n) -> alloc_ok (length (dat A)) ->
  triple (forallb (nonzero (F := qc))) (Ok (all_csr A)) (col_alls_csr (e_threads e) (e_il e 0) (e_sch e 0) (e_srt e 0) A) (row_alls_csr A) m n a /\
  triple (existsb (nonzero (F := qc))) (Ok (any_csr A)) (col_anys_csr (e_threads e) (e_il e 0) (e_sch e 0) (e_srt e 0) A) (row_anys_csr A) m n a.
Proof.
  intros A m n a R AM AN AMN AZ. destruct (logic_whole A m n a R AM AN AMN AZ (cs_full A)) as [W1 W2].
  { destruct R as (C & E1 & E2 & V). unfold cs_full. rewrite sat_min, E1, E2, grid_length. reflexivity. }
  destruct (csr_logic_cols A m n a R AM AN AZ) as [C1 C2]. destruct (logic_rows A m n a R AM AN AMN AZ) as [R1 R2].
  split; apply (triple_cells _ _ _ _ _ _ _ (csr_at A)); auto; try (apply cr_csr; auto); f_equal; auto.
Qed.

(** ** CSC *)
Section Csc.
Context (A : Cs qc) (m n : nat) (a : nat -> nat -> Qc) (R : cs_rep A n m (fun j i => a i j)) (AM : alloc_ok m) (AN : alloc_ok n) (AMN : alloc_ok (m * n)) (AZ : alloc_ok (length (dat A))).
Lemma csc_sums : triple qsum (sum_csc (e_zero e) (e_split e) A) (col_sums_csc A) (row_sums_csc (e_dist e) A) m n a.
Proof using FE R AM AN AMN AZ.
  rewrite zero_is. apply (triple_sums _ _ _ _ _ _ (csc_at A)); [apply cr_csc; auto|..]; destruct R as (C & E1 & E2 & V); subst m n.
  - apply (C33_sum_exact (e_split e) no_cs A no_coo no_nd no_cs_ok (can_ok _ C) no_coo_ok no_nd_ok).
  - apply (C34_sums_exact (e_schv e) (e_threads e) (e_dist e) (e_ilo e) no_cs A no_coo (fair_schv _ FE) (fair_dist _ FE) (fair_ilo _ FE) no_cs_ok (can_ok _ C) no_coo_ok alloc_0 alloc_0 AZ AM alloc_0 alloc_0).
  - apply (C34_sums_exact (e_schv e) (e_threads e) (e_dist e) (e_ilo e) no_cs A no_coo (fair_schv _ FE) (fair_dist _ FE) (fair_ilo _ FE) no_cs_ok (can_ok _ C) no_coo_ok alloc_0 alloc_0 AZ AM alloc_0 alloc_0).
Qed.
Lemma csc_prods : triple qprod (prod_csc (e_split e) A) (col_prods_csc A) (row_prods_csc (e_threads e) (e_il e 0) (e_sch e 0) (e_srt e 0) A) m n a.
Proof using FE R AM AN AMN AZ.
  assert (ANM : alloc_ok (n * m)) by (rewrite Nat.mul_comm; exact AMN). destruct (csr_prods A n m _ R AN AM ANM AZ) as (_ & P1 & P2). split; [|split; [exact P2|exact P1]].
  rewrite <- (cr_matrix _ _ _ _ (cr_csc _ _ _ _ R)). destruct R as (C & E1 & E2 & V). subst m n.
  apply (C37_prod_exact (e_split e) no_cs A no_coo no_canonical C no_coo_ok no_coo_single alloc_0 AZ alloc_0).
Qed.
Lemma csc_vars : forall c : qc, triple (fun l => qvariance l c) (var_csc (e_split e) A c) (col_vars_csc c A) (row_vars_csc (e_threads e) (e_il e 0) (e_sch e 0) (e_srt e 0) c A) m n a.
Proof using FE R AM AN AMN AZ.
  intros c. assert (ANM : alloc_ok (n * m)) by (rewrite Nat.mul_comm; exact AMN). destruct (csr_vars A n m _ R AN AM ANM AZ c) as (_ & P1 & P2). split; [|split; [exact P2|exact P1]].
  rewrite <- (cr_matrix _ _ _ _ (cr_csc _ _ _ _ R)). destruct R as (C & E1 & E2 & V). subst m n.
  apply C38_var_csc; auto. unfold alloc_ok, i64_max, usize_max in *. unfold csc_nrows, csc_ncols. lia.
Qed.
Lemma csc_alls :
  triple (forallb (nonzero (F := qc))) (Ok (all_csc A)) (col_alls_csc A) (row_alls_csc (e_il e 0) (e_sch e 0) A) m n a /\
  triple (existsb (nonzero (F := qc))) (Ok (any_csc A)) (col_anys_csc A) (row_anys_csc (e_il e 0) (e_sch e 0) A) m n a.
Proof using FE R AM AN AMN AZ.
  assert (ANM : alloc_ok (n * m)) by (rewrite Nat.mul_comm; exact AMN). destruct (logic_rows A n m _ R AN AM ANM AZ) as [R1 R2]. pose proof R as (C & E1 & E2 & V).
  assert (W : all_csc A = forallb (nonzero (F := qc)) (matrix_cells 0q (csc_at A) m n) /\ any_csc A = existsb (nonzero (F := qc)) (matrix_cells 0q (csc_at A) m n)).
  { clear R R1 R2. subst m n. destruct (csc_cells_perm A C) as [LE P]. rewrite <- (matrix_cells_length f0 (csc_at A)) in *.
    apply (all_data_ok (n_zero _ qc_laws)); auto. unfold cs_full. rewrite sat_min, matrix_cells_length, ?grid_length. unfold csc_nrows, csc_ncols. rewrite Nat.mul_comm. reflexivity. }
  assert (Q : row_alls_csc (e_il e 0) (e_sch e 0) A = Ok (map (fun i => forallb (nonzero (F := qc)) (row_cells 0q (csc_at A) n i)) (seq 0 m)) /\
              row_anys_csc (e_il e 0) (e_sch e 0) A = Ok (map (fun i => existsb (nonzero (F := qc)) (row_cells 0q (csc_at A) n i)) (seq 0 m))).
  { clear R R1 R2 W. subst m n. destruct (C04_csc_to_csr_preserves_cells _ (e_il e 0) (e_sch e 0) A (fair_il _ FE 0) (fair_sch _ FE 0) (can_ok _ C) AN) as (B & E & OB & M1 & M2 & LD & AT).
    unfold row_alls_csc, row_anys_csc. rewrite E. cbn [bind].
    destruct (major_logic_ok (n_zero _ qc_laws) B OB) as [H1 H2].
    - intros i j Hi. destruct (lt_dec j (minor B)) as [Hj|Hj].
      + unfold csr_nrows, csr_ncols in *. rewrite AT by lia. apply (canonical_single A C). unfold csc_ncols in *. lia.
      + unfold csr_at, cs_at, at_index. pose proof (row_bounds B i OB Hi) as RB. unfold in_bounds in RB.
        induction (cs_row B i) as [|x l IH]; [simpl; lia|]. inversion RB; subst. cbn [filter]. destruct (Z.eqb_spec (fst x) (Z.of_nat j)); [lia|auto].
    - rewrite LD. auto.
    - unfold row_alls_csr, row_anys_csr. rewrite H1, H2. unfold csr_nrows, csr_ncols in *. rewrite M1, M2.
      split; f_equal; apply map_seq_ext; intros i Hi; f_equal; apply row_cells_ext; intros j Hj; apply AT; auto. }
  destruct W as [W1 W2]. destruct Q as [Q1 Q2].
  split; apply (triple_cells _ _ _ _ _ _ _ (csc_at A)); auto; try (apply cr_csc; auto); f_equal; auto.
Qed.
End Csc.

(** ** COO *)
Section Coo.
Context (A : Coo qc) (m n : nat) (a : nat -> nat -> Qc) (R : coo_rep A m n a) (AM : alloc_ok m) (AN : alloc_ok n) (AMN : alloc_ok (m * n)) (AZ : alloc_ok (length (coo_data A))).
Lemma coo_sums : triple qsum (sum_coo (e_zero e) (e_split e) A) (col_sums_coo (e_threads e) (e_dist e) (e_ilo e) A) (row_sums_coo (e_threads e) (e_dist e) A) m n a.
Proof using FE R AM AN AMN AZ.
  rewrite zero_is. apply (triple_sums _ _ _ _ _ _ (coo_at A)); [apply cr_coo; auto|..]; destruct R as (C & SV & E1 & E2 & V); subst m n.
  - apply (C33_sum_exact (e_split e) no_cs no_cs A no_nd no_cs_ok no_cs_ok C no_nd_ok).
  - apply (C34_sums_exact (e_schv e) (e_threads e) (e_dist e) (e_ilo e) no_cs no_cs A (fair_schv _ FE) (fair_dist _ FE) (fair_ilo _ FE) no_cs_ok no_cs_ok C alloc_0 alloc_0 alloc_0 alloc_0 AM AN).
  - apply (C34_sums_exact (e_schv e) (e_threads e) (e_dist e) (e_ilo e) no_cs no_cs A (fair_schv _ FE) (fair_dist _ FE) (fair_ilo _ FE) no_cs_ok no_cs_ok C alloc_0 alloc_0 alloc_0 alloc_0 AM AN).
Qed.
Lemma coo_prods3 : triple qprod (prod_coo (e_split e) A) (col_prods_coo (e_threads e) (e_dist e) A) (row_prods_coo (e_threads e) (e_dist e) A) m n a.
Proof using FE R AM AN AMN AZ.
  apply (triple_cells _ _ _ _ _ _ _ (coo_at A)); [apply cr_coo; auto|..]; destruct R as (C & SV & E1 & E2 & V); subst m n.
  - apply (C37_prod_exact (e_split e) no_cs no_cs A no_canonical no_canonical C SV alloc_0 alloc_0 AZ).
  - apply prods_list. destruct (coo_rows_in (n_zero _ qc_laws) _ (PGroup.coo_swap_ok A C)) as [B1 _].
    assert (HL : length (coo_col A) = length (coo_data A)) by (destruct C; auto).
    apply (coo_prods_ok (n_zero _ qc_laws) (e_threads e) (e_dist e) _ _ _ _ (transposed (coo_at A))); auto; [apply (fair_dist _ FE)|intros; apply coo_col_values; auto|]. intros i j. apply SV.
  - apply prods_list. destruct (coo_rows_in (n_zero _ qc_laws) A C) as [B1 _]. assert (HL : length (coo_row A) = length (coo_data A)) by (destruct C; auto).
    apply (coo_prods_ok (n_zero _ qc_laws) (e_threads e) (e_dist e) _ _ _ _ (coo_at A)); auto; [apply (fair_dist _ FE)|]. intros. apply coo_row_values; auto.
Qed.
Lemma coo_vars : forall c : qc, triple (fun l => qvariance l c) (var_coo (e_split e) A c) (col_vars_coo (e_threads e) (e_dist e) c A) (row_vars_coo (e_threads e) (e_dist e) c A) m n a.
Proof using FE R AM AN AMN AZ.
  intros c. apply (triple_cells _ _ _ _ _ _ _ (coo_at A)); [apply cr_coo; auto|..]; destruct R as (C & SV & E1 & E2 & V); subst m n.
  - apply C38_var_coo; auto. unfold alloc_ok, i64_max, usize_max in *. lia.
  - apply (C38_vars_coo (e_threads e) (e_dist e) c A (fair_dist _ FE)); auto.
  - apply (C38_vars_coo (e_threads e) (e_dist e) c A (fair_dist _ FE)); auto.
Qed.
End Coo.

(** COO matrices are converted to CSR for [all] and [any]. *)
Lemma canonical_nnz : forall (A : Cs qc) m n a, cs_rep A m n a -> length (dat A) <= m * n.
Proof. intros A m n a (C & E1 & E2 & V). subst m n. apply (csr_cells_perm A C). Qed.
Lemma coo_to_csr_rep : forall A m n a, coo_rep A m n a -> exists B, coo_to_csr (e_srt2 e) A = Ok B /\ cs_rep B m n a.
Proof.
  intros A m n a R. pose proof (cr_coo _ _ _ _ R) as CR. destruct R as (OK & SV & E1 & E2 & V).
  destruct (C07_coo_to_csr_exact (e_srt2 e) A (fair_srt2 _ FE) OK) as (B & E & CB & N1 & N2 & H). subst m n. exists B. split; [exact E|]. split; [exact CB|].
  split; [exact N1|]. split; [exact N2|]. intros i j Hi Hj. rewrite H by auto. apply (cr_sum _ _ _ _ CR); auto.
Qed.
Lemma alloc_le : forall k l, k <= l -> alloc_ok l -> alloc_ok k. Proof. unfold alloc_ok. intros. lia. Qed.
Lemma coo_alls : forall A m n a, coo_rep A m n a -> alloc_ok m -> alloc_ok n -> alloc_ok (m * n) ->
  triple (forallb (nonzero (F := qc))) (all_coo (e_srt2 e) A) (col_alls_coo e A) (row_alls_coo e A) m n a /\
  triple (existsb (nonzero (F := qc))) (any_coo (e_srt2 e) A) (col_anys_coo e A) (row_anys_coo e A) m n a.
Proof.
  intros A m n a R AM AN AMN. destruct (coo_to_csr_rep A m n a R) as (B & E & RB).
  unfold all_coo, any_coo, row_alls_coo, row_anys_coo, col_alls_coo, col_anys_coo, via_coo. rewrite E. cbn [bind].
  apply csr_alls; auto. eapply alloc_le; [eapply canonical_nnz; eauto|auto].
Qed.

Lemma reduce_rep : forall op x X ax kd Y, held x X -> dense_reduce op X ax kd = Some Y -> done (do_reduce e op x ax kd) Y.
Proof.
  intros op x X ax kd Y H D. destruct X as [k m n a| | |]; try discriminate D.
  destruct k; destruct x as [x|x|x| | | |]; try (exfalso; exact (proj1 H)); cbn [do_reduce dense_reduce] in *.
  - open_csr H. pose proof R as (C & E1 & E2 & V). unfold reduce_csr, csr_use, on, csr_nrows, csr_ncols. rewrite U, P, E1, E2. cbn [bind].
    destruct op; try discriminate D.
    + eapply reduce_arr; [|exact D]. apply csr_sums; auto.
    + destruct (0 <? m * n) eqn:K; [|discriminate D]. apply Nat.ltb_lt in K. eapply mean_arr; [|exact K|exact D]. apply csr_sums; auto.
    + eapply reduce_arr; [|exact D]. apply csr_prods; auto.
    + eapply reduce_arr; [|exact D]. apply csr_vars; auto.
    + eapply reduce_bools; [|exact D]. apply csr_alls; auto.
    + eapply reduce_bools; [|exact D]. apply csr_alls; auto.
  - open_csc H. pose proof R as (C & E1 & E2 & V). unfold reduce_csc, csc_use, on, csc_nrows, csc_ncols. rewrite U, P, E1, E2. cbn [bind]. rewrite Nat.mul_comm in AMN.
    destruct op; try discriminate D.
    + eapply reduce_arr; [|exact D]. apply csc_sums; auto.
    + destruct (0 <? m * n) eqn:K; [|discriminate D]. apply Nat.ltb_lt in K. eapply mean_arr; [|exact K|exact D]. apply csc_sums; auto.
    + eapply reduce_arr; [|exact D]. apply csc_prods; auto.
    + eapply reduce_arr; [|exact D]. apply csc_vars; auto.
    + eapply reduce_bools; [|exact D]. apply csc_alls; auto.
    + eapply reduce_bools; [|exact D]. apply csc_alls; auto.
  - open_coo H. pose proof R as (C & SV & E1 & E2 & V). unfold reduce_coo, coo_use, on. rewrite U, P, E1, E2. cbn [bind].
    destruct op; try discriminate D.
    + eapply reduce_arr; [|exact D]. apply coo_sums; auto.
    + destruct (0 <? m * n) eqn:K; [|discriminate D]. apply Nat.ltb_lt in K. eapply mean_arr; [|exact K|exact D]. apply coo_sums; auto.
    + eapply reduce_arr; [|exact D]. apply coo_prods3; auto.
    + eapply reduce_arr; [|exact D]. apply coo_vars; auto.
    + eapply reduce_bools; [|exact D]. apply coo_alls; auto.
    + eapply reduce_bools; [|exact D]. apply coo_alls; auto.
Qed.
End Env.
