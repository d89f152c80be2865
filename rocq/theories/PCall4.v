(** Reductions of the objects of a running program (for C60). *)
Require Import List ZArith Bool Arith Lia Permutation.
Require Import ZifyBool ZifyNat.
Require Import Verif.Res Verif.Values Verif.Spec Verif.Mem Verif.Lists Verif.Laws Verif.FloatFacts Verif.FloatPos Verif.PConvert3 Verif.PGroup Verif.PropScalar Verif.PropConvert Verif.PropStat Verif.SpecReduce Verif.SpecPy Verif.PStat Verif.PStat3 Verif.MConvert Verif.MReduce Verif.MStat Verif.MCum Verif.MPy Verif.PPy2 Verif.PropPy Verif.MObj Verif.SpecObj Verif.PObj Verif.SpecCall Verif.PCall Verif.PCall2 Verif.PCall3.
Import ListNotations.
Local Open Scope Z_scope.

(** The three results of a reduction: the total, one per column, one per row. *)
Definition three {F : Fl} {V} (P : forall J, (J -> list F) -> list J -> V -> Prop) (d : V) (cell : nat -> nat -> list F) (m n : nat)
    (w : res V) (pc pr : res (list V)) : Prop :=
  (exists t, w = Ok t /\ P _ (fun p => cell (fst p) (snd p)) (grid m n) t) /\
  (exists cs, pc = Ok cs /\ length cs = n /\ forall j, (j < n)%nat -> P _ (fun i => cell i j) (seq 0 m) (nth j cs d)) /\
  (exists rs, pr = Ok rs /\ length rs = m /\ forall i, (i < m)%nat -> P _ (cell i) (seq 0 n) (nth i rs d)).
Definition red {F : Fl} op : forall J, (J -> list F) -> list J -> F -> Prop := fun J => @reduces F J op.

Lemma grid_length : forall m n, length (grid m n) = (m * n)%nat.
Proof. intros. unfold grid. rewrite prod_length, !seq_length. reflexivity. Qed.

Lemma three_std : forall {F : Fl} c (cell : nat -> nat -> list F) m n w pc pr, three (red (RVar c)) f0 cell m n w pc pr ->
  three (red (RStd c)) f0 cell m n (std_of w) (stds_of pc) (stds_of pr).
Proof.
  intros F c cell m n w pc pr ((t & -> & H) & (cs & -> & L & HC) & (rs & -> & LR & HR)). split; [|split].
  - exists (fsqrt t). split; [reflexivity|]. exists t. auto.
  - exists (map fsqrt cs). split; [reflexivity|]. split; [rewrite map_length; auto|]. intros j Hj. exists (nth j cs f0). split; [|apply HC; auto].
    rewrite (nth_indep _ f0 (fsqrt f0)) by (rewrite map_length; lia). apply map_nth.
  - exists (map fsqrt rs). split; [reflexivity|]. split; [rewrite map_length; auto|]. intros j Hj. exists (nth j rs f0). split; [|apply HR; auto].
    rewrite (nth_indep _ f0 (fsqrt f0)) by (rewrite map_length; lia). apply map_nth.
Qed.
Lemma three_2d : forall {F : Fl} {V} (P : forall J, (J -> list F) -> list J -> V -> Prop) d cell m n w pc pr, three P d cell m n w pc pr ->
  exists t cs rs, P _ (fun p => cell (fst p) (snd p)) (grid m n) t /\ length cs = n /\ (forall j, (j < n)%nat -> P _ (fun i => cell i j) (seq 0 m) (nth j cs d)) /\
    length rs = m /\ (forall i, (i < m)%nat -> P _ (cell i) (seq 0 n) (nth i rs d)) /\
    forall axis kd, reduce_2d w pc pr m n axis kd = match reduction_2d t cs rs axis kd with Some x => Ok x | None => Panic end.
Proof.
  intros F V P d cell m n w pc pr ((t & -> & H) & (cs & -> & L & HC) & (rs & -> & LR & HR)). exists t, cs, rs. repeat (split; [assumption|]). intros. apply reduce_2d_ok; auto.
Qed.
Lemma three_mean : forall pw (cell : nat -> nat -> list (f64 pw)) m n w pc pr, m <> 0%nat -> n <> 0%nat -> three (red RSum) f0 cell m n w pc pr ->
  exists w' pc' pr', three (red RMean) f0 cell m n w' pc' pr' /\ forall axis kd, mean_2d w pc pr m n axis kd = reduce_2d w' pc' pr' m n axis kd.
Proof.
  intros pw cell m n w pc pr NM NN ((t & -> & H) & (cs & -> & L & HC) & (rs & -> & LR & HR)).
  eexists _, _, _. split; [|intros; unfold mean_2d; cbn [bind]; rewrite f64_ofZ_pos by nia; cbn [negb]; reflexivity].
  assert (ND : forall (k : Z) l j, (j < length l)%nat -> nth j (map (fun s : f64 pw => fdiv s (fofZ k)) l) f0 = fdiv (nth j l f0) (fofZ k)).
  { intros k l j Hj. rewrite (nth_indep _ f0 (fdiv f0 (fofZ k))) by (rewrite map_length; lia). apply (map_nth (fun s : f64 pw => fdiv s (fofZ k))). }
  split; [|split].
  - eexists. split; [reflexivity|]. exists t. split; [exact H|]. rewrite grid_length. reflexivity.
  - eexists. split; [reflexivity|]. split; [rewrite map_length; auto|]. intros j Hj. exists (nth j cs f0). split; [apply HC; auto|]. rewrite seq_length. apply ND. lia.
  - eexists. split; [reflexivity|]. split; [rewrite map_length; auto|]. intros j Hj. exists (nth j rs f0). split; [apply HR; auto|]. rewrite seq_length. apply ND. lia.
Qed.

Lemma major_var3 : forall pw c (M : Cs (f64 pw)), cs_ok M -> alloc_ok (length (dat M)) -> exists y, major_vars c M = Ok y /\ length y = major M /\
  forall i, (i < major M)%nat -> var_of (row_values (csr_at M) (minor M) i) (Z.of_nat (minor M)) c (nth i y f0).
Proof.
  intros pw c M OM AM. destruct (major_vars_ok (n_zero _ (f64_laws pw)) c M OM AM) as (y & E & L & H). exists y. split; auto. split; auto. intros i Hi.
  destruct (H i Hi) as (s & HS & ->). eapply var_of_intro; [|exact HS]. apply row_values_ok; auto.
Qed.
Lemma minor_var3 : forall pw c threads il sch srt (M : Cs (f64 pw)), is_interleaving il -> is_schedule sch -> is_sorter pair_le srt -> canonical M ->
  alloc_ok (major M) -> alloc_ok (length (dat M)) ->
  exists y, after_transpose threads il sch srt (major_vars c) M = Ok y /\ length y = minor M /\
  forall j, (j < minor M)%nat -> var_of (row_values (transposed (csr_at M)) (major M) j) (Z.of_nat (major M)) c (nth j y f0).
Proof.
  intros pw c threads il sch srt M HI HS HR C AM AD. destruct (after_transpose_ok threads il sch srt (major_vars c) M HI HS HR C AM) as (T & -> & CT & M1 & M2 & LD & _ & AT).
  assert (ADT : alloc_ok (length (dat T))) by (rewrite LD; exact AD).
  destruct (major_var3 pw c T (can_ok _ CT) ADT) as (y & E & L & H). exists y. split; [exact E|]. split; [congruence|]. intros j Hj. rewrite M1, M2 in *.
  specialize (H j Hj). replace (row_values (transposed (csr_at M)) (major M) j) with (row_values (csr_at T) (major M) j); [exact H|].
  unfold row_values. rewrite !flat_map_concat_map. f_equal. apply map_ext_in. intros i I. apply in_seq in I. unfold transposed. apply AT; lia.
Qed.
Lemma all_var3 : forall pw t c n (data values : list (f64 pw)), Permutation data values -> exists v, var_all t n data c = Ok v /\ var_of values n c v.
Proof. intros pw t c n data values P. destruct (var_all_ok (n_zero _ (f64_laws pw)) t n data c) as (s & H & E). eexists. split; [exact E|]. eapply var_of_intro; eauto. Qed.
Definition dec {F : Fl} op : forall J, (J -> list F) -> list J -> bool -> Prop := fun J cell js b => b = decides op cell js.
Lemma forallb_cells : forall {F : Fl} {J} (cell : J -> list F) js, forallb nonzero (map (fun j => one_or f0 (cell j)) js) = decides RAll cell js.
Proof. intros. induction js as [|j js IH]; [reflexivity|]. cbn [map forallb decides]. rewrite IH. reflexivity. Qed.
Lemma existsb_cells : forall {F : Fl} {J} (cell : J -> list F) js, existsb nonzero (map (fun j => one_or f0 (cell j)) js) = decides RAny cell js.
Proof. intros. induction js as [|j js IH]; [reflexivity|]. cbn [map existsb decides]. rewrite IH. reflexivity. Qed.
Lemma nth_seq_map : forall {B} (f : nat -> B) n i d, (i < n)%nat -> nth i (map f (seq 0 n)) d = f i.
Proof. intros B f n i d H. rewrite (nth_indep _ d (f 0%nat)) by (rewrite map_length, seq_length; auto). rewrite map_nth, seq_nth by auto. reflexivity. Qed.
Lemma three_bools : forall {F : Fl} (cell : nat -> nat -> list F) m n (g : list F -> bool) op w pc pr, (forall J (c : J -> list F) js, g (map (fun j => one_or f0 (c j)) js) = decides op c js) ->
  w = Ok (g (matrix_cells f0 cell m n)) -> pc = Ok (map (fun j => g (row_cells f0 (transposed cell) m j)) (seq 0 n)) -> pr = Ok (map (fun i => g (row_cells f0 cell n i)) (seq 0 m)) ->
  three (dec op) false cell m n w pc pr.
Proof.
  intros F cell m n g op w pc pr HG -> -> ->. split; [|split]; eexists; (split; [reflexivity|]); [apply HG| |]; (split; [rewrite map_length, seq_length; reflexivity|]);
    intros j Hj; rewrite nth_seq_map by auto; apply HG.
Qed.

Section Csr.
Context {pw} (e : Env (f64 pw)) (FE : fair e) (A : Cs (f64 pw)).
Hypotheses (C : canonical A) (A1 : alloc_ok (major A)) (A2 : alloc_ok (minor A)) (A3 : alloc_ok (major A * minor A)) (A4 : alloc_ok (length (dat A))).
Let m := major A. Let n := minor A.
Let OK := can_ok _ C.

Lemma csr_sum3 : three (red RSum) f0 (csr_at A) m n (sum_csr (e_zero e) (e_split e) A) (col_sums_csr (e_threads e) (e_dist e) (e_ilo e) A) (row_sums_csr (e_schv e) A).
Proof using FE C A1 A2 A4.
  split; [|split].
  - apply C33_sum_csr; auto. apply (fair_zero _ FE).
  - apply C34_col_sums_csr; auto; [apply (fair_dist _ FE)|apply (fair_ilo _ FE)].
  - apply C34_row_sums_csr; auto. apply (fair_schv _ FE).
Qed.
Lemma csr_prod3 : three (red RProd) f0 (csr_at A) m n (prod_csr (e_split e) A) (col_prods_csr (e_threads e) (e_il e 0) (e_sch e 0) (e_srt e 0) A) (row_prods_csr A).
Proof using FE C A1 A2 A4.
  split; [|split].
  - apply C37_prod_csr; auto.
  - apply C37_cols_csr; auto; [apply (fair_il _ FE)|apply (fair_sch _ FE)|apply (fair_srt _ FE)].
  - apply C37_rows_csr; auto.
Qed.
Lemma csr_var3 c : three (red (RVar c)) f0 (csr_at A) m n (var_csr (e_split e) A c) (col_vars_csr (e_threads e) (e_il e 0) (e_sch e 0) (e_srt e 0) c A) (row_vars_csr c A).
Proof using FE C A1 A2 A3 A4.
  split; [|split].
  - unfold var_csr. rewrite sat_fits by (unfold alloc_ok, i64_max, usize_max in *; unfold csr_nrows, csr_ncols in *; lia).
    destruct (all_var3 pw (e_split e) c (Z.of_nat (m * n)) _ _ (dat_values A OK)) as (v & E & H). exists v. split; [exact E|]. unfold red, reduces. rewrite grid_length. exact H.
  - destruct (minor_var3 pw c (e_threads e) (e_il e 0) (e_sch e 0) (e_srt e 0) A (fair_il _ FE 0) (fair_sch _ FE 0) (fair_srt _ FE 0) C A1 A4) as (y & E & L & H).
    exists y. split; [exact E|]. split; [exact L|]. intros j Hj. unfold red, reduces. rewrite seq_length. apply H; auto.
  - destruct (major_var3 pw c A OK A4) as (y & E & L & H). exists y. split; [exact E|]. split; [exact L|]. intros j Hj. unfold red, reduces. rewrite seq_length. apply H; auto.
Qed.
Lemma csr_all3 : three (dec RAll) false (csr_at A) m n (Ok (all_csr A)) (col_alls_csr (e_threads e) (e_il e 0) (e_sch e 0) (e_srt e 0) A) (row_alls_csr A).
Proof using FE C A1 A2 A3 A4.
  apply (three_bools _ _ _ (forallb nonzero)); [intros; apply forallb_cells|..].
  - f_equal. apply C39_csr; auto.
  - apply C39_cols_csr; auto; [apply (fair_il _ FE)|apply (fair_sch _ FE)|apply (fair_srt _ FE)].
  - apply C39_rows_csr; auto.
Qed.
Lemma csr_any3 : three (dec RAny) false (csr_at A) m n (Ok (any_csr A)) (col_anys_csr (e_threads e) (e_il e 0) (e_sch e 0) (e_srt e 0) A) (row_anys_csr A).
Proof using FE C A1 A2 A3 A4.
  apply (three_bools _ _ _ (existsb nonzero)); [intros; apply existsb_cells|..].
  - f_equal. apply C39_csr; auto.
  - apply C39_cols_csr; auto; [apply (fair_il _ FE)|apply (fair_sch _ FE)|apply (fair_srt _ FE)].
  - apply C39_rows_csr; auto.
Qed.
Hypothesis NN : no_nan (matrix_values (csr_at A) m n).
Lemma csr_no_nan : no_nan (dat A).
Proof using C NN. eapply Permutation_Forall; [apply Permutation_sym, (dat_values A OK)|exact NN]. Qed.
Lemma csr_min3 : is_min (e_vmin e) -> is_min (e_smin e) -> three (red RMin) f0 (csr_at A) m n (min_csr (e_vmin e) (e_smin e) (e_split e) A)
  (col_mins_csr (e_vmin e) (e_smin e) (e_threads e) (e_il e 0) (e_sch e 0) (e_srt e 0) A) (row_mins_csr (e_vmin e) (e_smin e) A).
Proof using FE C A1 A2 A4 NN.
  intros V S. pose proof csr_no_nan as ND. split; [|split].
  - apply (mins_all pw); auto; apply csr_cells_perm; auto.
  - apply (through_transpose (major_bests finf (e_vmin e) (e_smin e) lt_min) f0 least_or_0); auto; [apply (fair_il _ FE)|apply (fair_sch _ FE)|apply (fair_srt _ FE)|].
    intros T CT P. apply mins_major; auto; [|eapply Permutation_Forall; [apply Permutation_sym; exact P|auto]]. rewrite (Permutation_length P). auto.
  - apply mins_major; auto.
Qed.
Lemma csr_max3 : is_max (e_vmax e) -> is_max (e_smax e) -> three (red RMax) f0 (csr_at A) m n (max_csr (e_vmax e) (e_smax e) (e_split e) A)
  (col_maxs_csr (e_vmax e) (e_smax e) (e_threads e) (e_il e 0) (e_sch e 0) (e_srt e 0) A) (row_maxs_csr (e_vmax e) (e_smax e) A).
Proof using FE C A1 A2 A4 NN.
  intros V S. pose proof csr_no_nan as ND. split; [|split].
  - apply (maxs_all pw); auto; apply csr_cells_perm; auto.
  - apply (through_transpose (major_bests (fneg finf) (e_vmax e) (e_smax e) gt_max) f0 greatest_or_0); auto; [apply (fair_il _ FE)|apply (fair_sch _ FE)|apply (fair_srt _ FE)|].
    intros T CT P. apply maxs_major; auto; [|eapply Permutation_Forall; [apply Permutation_sym; exact P|auto]]. rewrite (Permutation_length P). auto.
  - apply maxs_major; auto.
Qed.
End Csr.

Section Csc.
Context {pw} (e : Env (f64 pw)) (FE : fair e) (A : Cs (f64 pw)).
Hypotheses (C : canonical A) (A1 : alloc_ok (major A)) (A2 : alloc_ok (minor A)) (A3 : alloc_ok (major A * minor A)) (A4 : alloc_ok (length (dat A))).
Let m := minor A. Let n := major A.
Let OK := can_ok _ C.

Lemma csc_sum3 : three (red RSum) f0 (csc_at A) m n (sum_csc (e_zero e) (e_split e) A) (col_sums_csc A) (row_sums_csc (e_dist e) A).
Proof using FE C A1 A2 A4.
  split; [|split].
  - apply C33_sum_csc; auto. apply (fair_zero _ FE).
  - apply C34_col_sums_csc; auto.
  - apply C34_row_sums_csc; auto. apply (fair_dist _ FE).
Qed.
Lemma csc_prod3 : three (red RProd) f0 (csc_at A) m n (prod_csc (e_split e) A) (col_prods_csc A) (row_prods_csc (e_threads e) (e_il e 0) (e_sch e 0) (e_srt e 0) A).
Proof using FE C A1 A2 A4.
  split; [|split].
  - apply C37_prod_csc; auto.
  - apply C37_cols_csc; auto.
  - apply C37_rows_csc; auto; [apply (fair_il _ FE)|apply (fair_sch _ FE)|apply (fair_srt _ FE)].
Qed.
Lemma csc_var3 c : three (red (RVar c)) f0 (csc_at A) m n (var_csc (e_split e) A c) (col_vars_csc c A) (row_vars_csc (e_threads e) (e_il e 0) (e_sch e 0) (e_srt e 0) c A).
Proof using FE C A1 A2 A3 A4.
  split; [|split].
  - unfold var_csc. rewrite sat_fits by (unfold alloc_ok, i64_max, usize_max in *; unfold csc_nrows, csc_ncols in *; lia).
    destruct (all_var3 pw (e_split e) c (Z.of_nat (m * n)) _ _ (csc_dat_values A OK)) as (v & E & H). exists v. split; [exact E|]. unfold red, reduces. rewrite grid_length. exact H.
  - destruct (major_var3 pw c A OK A4) as (y & E & L & H). exists y. split; [exact E|]. split; [exact L|]. intros j Hj. unfold red, reduces. rewrite seq_length. apply H; auto.
  - destruct (minor_var3 pw c (e_threads e) (e_il e 0) (e_sch e 0) (e_srt e 0) A (fair_il _ FE 0) (fair_sch _ FE 0) (fair_srt _ FE 0) C A1 A4) as (y & E & L & H).
    exists y. split; [exact E|]. split; [exact L|]. intros j Hj. unfold red, reduces. rewrite seq_length. apply H; auto.
Qed.
Lemma csc_all3 : three (dec RAll) false (csc_at A) m n (Ok (all_csc A)) (col_alls_csc A) (row_alls_csc (e_il e 0) (e_sch e 0) A).
Proof using FE C A1 A2 A3 A4.
  apply (three_bools _ _ _ (forallb nonzero)); [intros; apply forallb_cells|..].
  - f_equal. apply C39_csc; auto.
  - apply C39_cols_csc; auto.
  - apply C39_rows_csc; auto; [apply (fair_il _ FE)|apply (fair_sch _ FE)].
Qed.
Lemma csc_any3 : three (dec RAny) false (csc_at A) m n (Ok (any_csc A)) (col_anys_csc A) (row_anys_csc (e_il e 0) (e_sch e 0) A).
Proof using FE C A1 A2 A3 A4.
  apply (three_bools _ _ _ (existsb nonzero)); [intros; apply existsb_cells|..].
  - f_equal. apply C39_csc; auto.
  - apply C39_cols_csc; auto.
  - apply C39_rows_csc; auto; [apply (fair_il _ FE)|apply (fair_sch _ FE)].
Qed.
Hypothesis NN : no_nan (matrix_values (csc_at A) m n).
Lemma csc_no_nan : no_nan (dat A).
Proof using C NN. eapply Permutation_Forall; [apply Permutation_sym, (csc_dat_values A OK)|exact NN]. Qed.
Lemma csc_min3 : is_min (e_vmin e) -> is_min (e_smin e) -> three (red RMin) f0 (csc_at A) m n (min_csc (e_vmin e) (e_smin e) (e_split e) A)
  (col_mins_csc (e_vmin e) (e_smin e) A) (row_mins_csc (e_vmin e) (e_smin e) (e_threads e) (e_il e 0) (e_sch e 0) (e_srt e 0) A).
Proof using FE C A1 A2 A4 NN.
  intros V S. pose proof csc_no_nan as ND. split; [|split].
  - apply (mins_all pw); auto; apply csc_cells_perm; auto.
  - apply mins_major; auto.
  - apply (through_transpose (major_bests finf (e_vmin e) (e_smin e) lt_min) f0 least_or_0); auto; [apply (fair_il _ FE)|apply (fair_sch _ FE)|apply (fair_srt _ FE)|].
    intros T CT P. apply mins_major; auto; [|eapply Permutation_Forall; [apply Permutation_sym; exact P|auto]]. rewrite (Permutation_length P). auto.
Qed.
Lemma csc_max3 : is_max (e_vmax e) -> is_max (e_smax e) -> three (red RMax) f0 (csc_at A) m n (max_csc (e_vmax e) (e_smax e) (e_split e) A)
  (col_maxs_csc (e_vmax e) (e_smax e) A) (row_maxs_csc (e_vmax e) (e_smax e) (e_threads e) (e_il e 0) (e_sch e 0) (e_srt e 0) A).
Proof using FE C A1 A2 A4 NN.
  intros V S. pose proof csc_no_nan as ND. split; [|split].
  - apply (maxs_all pw); auto; apply csc_cells_perm; auto.
  - apply maxs_major; auto.
  - apply (through_transpose (major_bests (fneg finf) (e_vmax e) (e_smax e) gt_max) f0 greatest_or_0); auto; [apply (fair_il _ FE)|apply (fair_sch _ FE)|apply (fair_srt _ FE)|].
    intros T CT P. apply maxs_major; auto; [|eapply Permutation_Forall; [apply Permutation_sym; exact P|auto]]. rewrite (Permutation_length P). auto.
Qed.
End Csc.

Lemma var_of_none : forall pw (c : f64 pw), var_of [] (Z.of_nat 0) c f0.
Proof.
  intros pw c. split; [reflexivity|]. exists f0, f0. split; [constructor; reflexivity|]. split; [constructor; reflexivity|].
  split; [reflexivity|]. split; [reflexivity|]. intros H. exfalso. apply H. reflexivity.
Qed.
Section Coo.
Context {pw} (e : Env (f64 pw)) (FE : fair e) (A : Coo (f64 pw)).
Hypotheses (OK : coo_ok A) (SV : single_valued (coo_at A)) (A1 : alloc_ok (coo_nrows A)) (A2 : alloc_ok (coo_ncols A)) (A3 : alloc_ok (coo_nrows A * coo_ncols A)) (A4 : alloc_ok (length (coo_data A))).
Let m := coo_nrows A. Let n := coo_ncols A.

Lemma coo_sum3 : three (red RSum) f0 (coo_at A) m n (sum_coo (e_zero e) (e_split e) A) (col_sums_coo (e_threads e) (e_dist e) (e_ilo e) A) (row_sums_coo (e_threads e) (e_dist e) A).
Proof using FE OK A1 A2.
  split; [|split].
  - apply C33_sum_coo; auto. apply (fair_zero _ FE).
  - apply C34_col_sums_coo; auto; [apply (fair_dist _ FE)|apply (fair_ilo _ FE)].
  - apply C34_row_sums_coo; auto. apply (fair_dist _ FE).
Qed.
Lemma coo_prod3 : three (red RProd) f0 (coo_at A) m n (prod_coo (e_split e) A) (col_prods_coo (e_threads e) (e_dist e) A) (row_prods_coo (e_threads e) (e_dist e) A).
Proof using FE OK SV A1 A2 A4.
  split; [|split].
  - apply C37_prod_coo; auto.
  - apply C37_cols_coo; auto. apply (fair_dist _ FE).
  - apply C37_rows_coo; auto. apply (fair_dist _ FE).
Qed.
Lemma coo_var3 c : three (red (RVar c)) f0 (coo_at A) m n (var_coo (e_split e) A c) (col_vars_coo (e_threads e) (e_dist e) c A) (row_vars_coo (e_threads e) (e_dist e) c A).
Proof using FE OK SV A1 A2 A3 A4.
  split; [|split].
  - unfold var_coo. rewrite sat_fits by (unfold alloc_ok, i64_max, usize_max in *; lia).
    destruct (all_var3 pw (e_split e) c (Z.of_nat (m * n)) _ _ (coo_dat_values A OK)) as (v & E & H). exists v. split; [exact E|]. unfold red, reduces. rewrite grid_length. exact H.
  - destruct (coo_rows_in (n_zero _ (f64_laws pw)) _ (PGroup.coo_swap_ok A OK)) as [B1 _].
    destruct (coo_vars_ok (n_zero _ (f64_laws pw)) (e_threads e) (e_dist e) (coo_ncols A) (coo_nrows A) (coo_col A) (coo_data A) c (fair_dist _ FE) A2) as (y & E & L & H); auto; [destruct OK; auto|].
    exists y. split; [exact E|]. split; [exact L|]. intros i Hi. unfold red, reduces. rewrite seq_length. destruct (H i Hi) as [[-> Z]|(s & HS & ->)]; [unfold m; rewrite Z; apply var_of_none|].
    eapply var_of_intro; [|exact HS]. apply coo_col_values; auto.
  - destruct (coo_rows_in (n_zero _ (f64_laws pw)) A OK) as [B1 _].
    destruct (coo_vars_ok (n_zero _ (f64_laws pw)) (e_threads e) (e_dist e) (coo_nrows A) (coo_ncols A) (coo_row A) (coo_data A) c (fair_dist _ FE) A1) as (y & E & L & H); auto; [destruct OK; auto|].
    exists y. split; [exact E|]. split; [exact L|]. intros i Hi. unfold red, reduces. rewrite seq_length. destruct (H i Hi) as [[-> Z]|(s & HS & ->)]; [unfold n; rewrite Z; apply var_of_none|].
    eapply var_of_intro; [|exact HS]. apply coo_row_values; auto.
Qed.
Lemma single_csr : exists B, coo_to_csr (e_srt2 e) A = Ok B /\ canonical B /\ major B = m /\ minor B = n /\ alloc_ok (length (dat B)) /\
  forall i j, (i < m)%nat -> csr_at B i j = coo_at A i j.
Proof using FE OK SV A3.
  destruct (coo_to_csr_ok (e_srt2 e) A (fair_srt2 _ FE) OK) as (B & E & CB & M1 & M2 & AT). exists B. split; [exact E|]. split; [exact CB|]. split; [exact M1|]. split; [exact M2|].
  split. { destruct (csr_cells_perm B CB) as [L _]. unfold csr_nrows, csr_ncols in L. rewrite M1, M2 in L. unfold alloc_ok in *. lia. }
  intros i j Hi. destruct (AT i (Z.of_nat j) Hi) as (l & P & EA). unfold csr_at. rewrite EA. fold (coo_at A i j) in P. specialize (SV i j).
  destruct (coo_at A i j) as [|v [|w t]]; [apply Permutation_nil in P; subst l; reflexivity|apply Permutation_length_1_inv in P; subst l; reflexivity|cbn [length] in SV; lia].
Qed.
Lemma coo_cells_csr : forall B : Csr (f64 pw), major B = m -> minor B = n -> (forall i j, (i < m)%nat -> csr_at B i j = coo_at A i j) ->
  forall op (w : res bool) pc pr, three (dec op) false (csr_at B) (major B) (minor B) w pc pr -> three (dec op) false (coo_at A) m n w pc pr.
Proof using.
  intros B -> -> AT op w pc pr ((t & E & H) & (cs & E' & L & HC) & (rs & E'' & LR & HR)).
  assert (X : forall J (c c' : J -> list (f64 pw)) js b, (forall j, In j js -> c j = c' j) -> dec op J c js b -> dec op J c' js b).
  { unfold dec, decides. intros J c c' js b EQ ->. destruct op; induction js as [|j js IH]; cbn [forallb existsb]; auto; rewrite (EQ j) by (left; auto); rewrite IH; auto; intros; apply EQ; right; auto. }
  split; [|split].
  - exists t. split; [exact E|]. eapply X; [|exact H]. intros [i j] I. apply in_grid in I. cbn [fst snd]. apply AT. apply I.
  - exists cs. split; [exact E'|]. split; [exact L|]. intros j Hj. eapply X; [|apply HC; auto]. intros i I. apply in_seq in I. cbv beta. apply AT. lia.
  - exists rs. split; [exact E''|]. split; [exact LR|]. intros i Hi. eapply X; [|apply HR; auto]. intros j I. cbv beta. apply AT. auto.
Qed.
Lemma coo_all3 : three (dec RAll) false (coo_at A) m n (all_coo (e_srt2 e) A) (col_alls_coo e A) (row_alls_coo e A).
Proof using FE OK SV A1 A2 A3.
  destruct single_csr as (B & E & CB & M1 & M2 & AD & AT). unfold all_coo, col_alls_coo, row_alls_coo, via_coo. rewrite E. cbn [bind].
  apply (coo_cells_csr B M1 M2 AT). apply csr_all3; auto; rewrite ?M1, ?M2; auto.
Qed.
Lemma coo_any3 : three (dec RAny) false (coo_at A) m n (any_coo (e_srt2 e) A) (col_anys_coo e A) (row_anys_coo e A).
Proof using FE OK SV A1 A2 A3.
  destruct single_csr as (B & E & CB & M1 & M2 & AD & AT). unfold any_coo, col_anys_coo, row_anys_coo, via_coo. rewrite E. cbn [bind].
  apply (coo_cells_csr B M1 M2 AT). apply csr_any3; auto; rewrite ?M1, ?M2; auto.
Qed.
Hypothesis NN : no_nan (matrix_values (coo_at A) m n).
Lemma coo_no_nan : no_nan (coo_data A).
Proof using OK NN. eapply Permutation_Forall; [apply Permutation_sym, (coo_dat_values A OK)|exact NN]. Qed.
Lemma coo_min3 : is_min (e_vmin e) -> is_min (e_smin e) -> three (red RMin) f0 (coo_at A) m n (min_coo (e_vmin e) (e_smin e) (e_split e) A)
  (col_mins_coo (e_smin e) (e_threads e) (e_dist e) A) (row_mins_coo (e_smin e) (e_threads e) (e_dist e) A).
Proof using FE OK SV A1 A2 A4 NN.
  intros V S. pose proof coo_no_nan as ND. split; [|split].
  - apply (mins_all pw); auto; apply coo_cells_perm; auto.
  - apply (mins_coo pw (e_smin e) (e_threads e) (e_dist e) (coo_ncols A) (coo_nrows A) (coo_col A) (coo_data A) (transposed (coo_at A))); auto; [apply (fair_dist _ FE)|destruct OK; auto| | |].
    + apply (coo_rows_in (n_zero _ (f64_laws pw)) _ (PGroup.coo_swap_ok A OK)).
    + intros i Hi. apply coo_col_values; auto.
    + intros i j. apply SV.
  - apply (mins_coo pw (e_smin e) (e_threads e) (e_dist e) (coo_nrows A) (coo_ncols A) (coo_row A) (coo_data A) (coo_at A)); auto; [apply (fair_dist _ FE)|destruct OK; auto| |].
    + apply (coo_rows_in (n_zero _ (f64_laws pw)) A OK).
    + intros i Hi. apply coo_row_values; auto.
Qed.
Lemma coo_max3 : is_max (e_vmax e) -> is_max (e_smax e) -> three (red RMax) f0 (coo_at A) m n (max_coo (e_vmax e) (e_smax e) (e_split e) A)
  (col_maxs_coo (e_smax e) (e_threads e) (e_dist e) A) (row_maxs_coo (e_smax e) (e_threads e) (e_dist e) A).
Proof using FE OK SV A1 A2 A4 NN.
  intros V S. pose proof coo_no_nan as ND. split; [|split].
  - apply (maxs_all pw); auto; apply coo_cells_perm; auto.
  - apply (maxs_coo pw (e_smax e) (e_threads e) (e_dist e) (coo_ncols A) (coo_nrows A) (coo_col A) (coo_data A) (transposed (coo_at A))); auto; [apply (fair_dist _ FE)|destruct OK; auto| | |].
    + apply (coo_rows_in (n_zero _ (f64_laws pw)) _ (PGroup.coo_swap_ok A OK)).
    + intros i Hi. apply coo_col_values; auto.
    + intros i j. apply SV.
  - apply (maxs_coo pw (e_smax e) (e_threads e) (e_dist e) (coo_nrows A) (coo_ncols A) (coo_row A) (coo_data A) (coo_at A)); auto; [apply (fair_dist _ FE)|destruct OK; auto| |].
    + apply (coo_rows_in (n_zero _ (f64_laws pw)) A OK).
    + intros i Hi. apply coo_row_values; auto.
Qed.
End Coo.

Section Call.
Context {pw} (e : Env (f64 pw)) (FE : fair e).

Lemma do_reduce_is : forall op x, held x -> class_of x <> None -> numeric op = true -> can_reduce e op x ->
  exists w pc pr, three (red op) f0 (stored x) (fst (shape2 x)) (snd (shape2 x)) w pc pr /\
    forall axis kd, do_reduce e op x axis kd = arr_new (VArr (F := f64 pw)) (reduce_2d w pc pr (fst (shape2 x)) (snd (shape2 x)) axis kd).
Proof using FE.
  intros op x K NC NU CR. destruct x as [X|X|X|X|? ?|? ?|? ?]; try (exfalso; apply NC; reflexivity); cbn [do_reduce shape2 stored fst snd] in *.
  - destruct (csr_held X K) as (C & U & P & _ & _ & _ & A1 & A2 & A3 & A4). unfold reduce_csr, on. rewrite U, P. cbn [bind].
    destruct op; try discriminate NU; cbn [can_reduce shape2 stored fst snd] in CR;
      lazymatch goal with |- context [mean_2d] => idtac | _ => eexists _, _, _; split; [|intros; reflexivity] end.
    + apply csr_sum3; auto.
    + destruct CR as [N1 N2]. destruct (three_mean pw _ _ _ _ _ _ N1 N2 (csr_sum3 e FE _ C A1 A2 A4)) as (w & pc & pr & T & E). exists w, pc, pr. split; [exact T|].
      intros axis kd. f_equal. apply E.
    + apply csr_prod3; auto.
    + apply csr_min3; auto; apply CR.
    + apply csr_max3; auto; apply CR.
    + apply csr_var3; auto.
    + apply three_std, csr_var3; auto.
  - destruct (csc_held X K) as (C & _ & _ & U & P & _ & A1 & A2 & A3 & A4). unfold reduce_csc, on. rewrite U, P. cbn [bind].
    destruct op; try discriminate NU; cbn [can_reduce shape2 stored fst snd] in CR;
      lazymatch goal with |- context [mean_2d] => idtac | _ => eexists _, _, _; split; [|intros; reflexivity] end.
    + apply csc_sum3; auto.
    + destruct CR as [N1 N2]. destruct (three_mean pw _ _ _ _ _ _ N1 N2 (csc_sum3 e FE _ C A1 A2 A4)) as (w & pc & pr & T & E). exists w, pc, pr. split; [exact T|].
      intros axis kd. f_equal. apply E.
    + apply csc_prod3; auto.
    + apply csc_min3; auto; apply CR.
    + apply csc_max3; auto; apply CR.
    + apply csc_var3; auto.
    + apply three_std, csc_var3; auto.
  - destruct (coo_held X K) as ([C SV] & U & P & _ & A1 & A2 & A3 & A4). unfold reduce_coo, on. rewrite U, P. cbn [bind].
    destruct op; try discriminate NU; cbn [can_reduce shape2 stored fst snd] in CR;
      lazymatch goal with |- context [mean_2d] => idtac | _ => eexists _, _, _; split; [|intros; reflexivity] end.
    + apply coo_sum3; auto.
    + destruct CR as [N1 N2]. destruct (three_mean pw _ _ _ _ _ _ N1 N2 (coo_sum3 e FE _ C A1 A2)) as (w & pc & pr & T & E). exists w, pc, pr. split; [exact T|].
      intros axis kd. f_equal. apply E.
    + apply coo_prod3; auto.
    + apply coo_min3; auto; apply CR.
    + apply coo_max3; auto; apply CR.
    + apply coo_var3; auto.
    + apply three_std, coo_var3; auto.
Qed.

Lemma do_logic_is : forall op x, held x -> class_of x <> None -> op = RAll \/ op = RAny ->
  exists w pc pr, three (dec op) false (stored x) (fst (shape2 x)) (snd (shape2 x)) w pc pr /\
    forall axis kd, do_reduce e op x axis kd = arr_new (VBools (F := f64 pw)) (reduce_2d w pc pr (fst (shape2 x)) (snd (shape2 x)) axis kd).
Proof using FE.
  intros op x K NC NU. destruct x as [X|X|X|X|? ?|? ?|? ?]; try (exfalso; apply NC; reflexivity); cbn [do_reduce shape2 stored fst snd] in *.
  - destruct (csr_held X K) as (C & U & P & _ & _ & _ & A1 & A2 & A3 & A4). unfold reduce_csr, on. rewrite P. cbn [bind].
    destruct NU as [-> | ->]; eexists _, _, _; (split; [|intros; reflexivity]); [apply csr_all3|apply csr_any3]; auto.
  - destruct (csc_held X K) as (C & _ & _ & U & P & _ & A1 & A2 & A3 & A4). unfold reduce_csc, on. rewrite P. cbn [bind].
    destruct NU as [-> | ->]; eexists _, _, _; (split; [|intros; reflexivity]); [apply csc_all3|apply csc_any3]; auto.
  - destruct (coo_held X K) as ([C SV] & U & P & _ & A1 & A2 & A3 & A4). unfold reduce_coo, on. rewrite P. cbn [bind].
    destruct NU as [-> | ->]; eexists _, _, _; (split; [|intros; reflexivity]); [apply coo_all3|apply coo_any3]; auto.
Qed.

Lemma do_count_is : forall x axis kd, held x -> class_of x <> None ->
  do_reduce e RCount x axis kd = arr_new (VInts (F := f64 pw)) (stored_counts (stored x) (fst (shape2 x)) (snd (shape2 x)) axis kd).
Proof using.
  intros x axis kd K NC. destruct (C45_counts_stored_entries (f64 pw) axis kd) as (H1 & H2 & H3).
  destruct x as [X|X|X|X|? ?|? ?|? ?]; try (exfalso; apply NC; reflexivity); cbn [do_reduce shape2 stored fst snd] in *.
  - destruct (csr_held X K) as (C & _). unfold reduce_csr. rewrite H1 by apply (can_ok _ C). reflexivity.
  - destruct (csc_held X K) as (C & _). unfold reduce_csc. rewrite H2 by apply (can_ok _ C). reflexivity.
  - destruct (coo_held X K) as ([C _] & _). unfold reduce_coo. rewrite H3 by exact C. reflexivity.
Qed.
End Call.
