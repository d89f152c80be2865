(** Proofs about sums, mean and products. *)
Require Import List ZArith Bool Arith Lia Permutation.
Require Import Verif.Res Verif.Values Verif.Spec Verif.SpecReduce Verif.Mem Verif.Lists Verif.CsLib Verif.Laws Verif.Loops Verif.NdLib Verif.MScalar Verif.PScalar Verif.MHash Verif.MNd Verif.PNd Verif.MAcc Verif.PAcc Verif.MLinalg Verif.PLinalg Verif.PLinalg2 Verif.PLinalg3 Verif.MConvert Verif.PConvert Verif.PConvert2 Verif.PConvert3 Verif.MReduce Verif.MStat Verif.PReduce Verif.PGroup.
Import ListNotations.
Local Open Scope Z_scope.

Lemma STRIPE_gt0 : (0 < STRIPE)%nat.
Proof. unfold STRIPE. lia. Qed.

Lemma chunk_len_gt0 : forall t n, (0 < chunk_len t n)%nat.
Proof. intros. apply (chunk_len_pos (F := qc) eq_refl). Qed.

Section Stat.
Context {F : Fl}.
Hypothesis Z0 : feqb (f0 : F) f0 = true.
Notation ops := (list (Z * F)).

Lemma chunk_tasks_eq : forall nthreads key (data : list F), length key = length data ->
  Forall (fun k => 0 <= k <= usize_max) key ->
  exists tasks, chunk_tasks nthreads key data = Ok tasks /\ concat tasks = combine key data.
Proof.
  intros nt key data HL FK. unfold chunk_tasks.
  set (g := fun p => match nth_error key p, nth_error data p with Some k, Some v => [(k, v)] | _, _ => [] end).
  assert (HO : forall p, (p < length data)%nat -> entry_op key data p = Ok (g p)).
  { intros p Hp. unfold entry_op, g, get_checked. destruct (nth_error key p) as [k|] eqn:EK; [|apply nth_error_None in EK; lia].
    destruct (nth_error data p) as [v|] eqn:EV; [|apply nth_error_None in EV; lia]. cbn [bind].
    rewrite to_usize_id; auto. rewrite Forall_forall in FK. apply FK. eapply nth_error_In; eauto. }
  destruct (chunk_tasks_ok Z0 (entry_op key data) g (chunk_len nt (length data)) (length data) (chunk_len_gt0 _ _) HO) as [E1 E2].
  rewrite E1. eexists. split; [reflexivity|]. rewrite E2.
  replace (length data) with (length (combine key data)) by (rewrite combine_length; lia).
  rewrite (map_nth_error_seq (combine key data) g (fun e => e)); [apply map_id|].
  intros p [k v] E. apply nth_error_combine in E. destruct E as [E3 E4]. unfold g. rewrite E3, E4. auto.
Qed.

Lemma keys_below : forall n key (data : list F), Forall (fun k => 0 <= k < Z.of_nat n) key -> slots_below n (combine key data).
Proof.
  intros n key data FK. unfold slots_below. apply Forall_forall. intros [k v] I. apply in_combine_l in I. rewrite Forall_forall in FK.
  cbn [fst]. auto.
Qed.

Lemma coo_rows_in : forall A : Coo F, coo_ok A -> Forall (fun k => 0 <= k < Z.of_nat (coo_nrows A)) (coo_row A) /\ Forall (fun k => 0 <= k <= usize_max) (coo_row A).
Proof.
  intros A OK. split; apply Forall_forall; intros k I; apply In_nth_error in I; destruct I as [p E]; pose proof (coo_bound_r A OK p k E); unfold i64_max, usize_max in *; lia.
Qed.

(** ** Sums *)
Lemma lane_sum_ok : forall chunk : list F, exists v, lane_sum chunk = Ok v /\ FSum chunk v.
Proof.
  intros. unfold lane_sum. apply (lane_reduce_ok FSum).
  - intros. eapply FSum_perm; eauto.
  - apply FSum_zero. auto.
  - intros. apply FSum_snoc. auto.
  - intros. apply FSum_add; auto.
  - intros. apply FSum_snoc. auto.
Qed.

Lemma rayon_sum_ok : forall z t (data : list F), feqb z f0 = true -> exists v, rayon_sum z t data = Ok v /\ FSum data v.
Proof.
  intros z t data HZ. unfold rayon_sum.
  assert (N : forall l l' a b, FSum l a -> FSum l' b -> FSum (l ++ l') (radd z a b)).
  { intros l l' a b H H'. unfold radd. apply FSum_add; auto. change l with ([] ++ l). apply FSum_add; auto. apply FSum_zero. auto. }
  apply (par_reduce_ok FSum); auto using lane_sum_ok.
  intros ls xs H. change (concat ls) with ([] ++ concat ls). apply N; [apply FSum_zero; auto|].
  apply fold_leaf_ok; auto; [apply FSum_zero; auto|]. intros. apply FSum_add; auto.
Qed.

Lemma slice_sum_ok : forall (A : Cs F) i, cs_ok A -> alloc_ok (length (dat A)) -> (i < major A)%nat ->
  exists v, slice_sum A i = Ok v /\ FSum (map snd (cs_row A i)) v.
Proof.
  intros A i OK AD Hi. unfold slice_sum. rewrite data_slice_ok by auto. cbn [bind]. apply lane_sum_ok.
Qed.

(** Pointwise results of a fallible function over a range. *)
Lemma mapM_seq_spec : forall {B} (f : nat -> res B) (P : nat -> B -> Prop) (d : B) n,
  (forall i, (i < n)%nat -> exists v, f i = Ok v /\ P i v) ->
  exists y, mapM f (seq 0 n) = Ok y /\ length y = n /\ forall i, (i < n)%nat -> P i (nth i y d).
Proof.
  intros B f P d n. cut (forall n s, (forall i, (s <= i < s + n)%nat -> exists v, f i = Ok v /\ P i v) ->
    exists y, mapM f (seq s n) = Ok y /\ length y = n /\ forall i, (i < n)%nat -> P (s + i)%nat (nth i y d)).
  { intros H HF. destruct (H n 0%nat) as (y & E & L & HP); [intros; apply HF; lia|]. exists y. auto. }
  clear n. induction n as [|n IH]; intros s HF.
  - exists []. simpl. split; auto. split; auto. intros. lia.
  - destruct (HF s) as (v & EV & PV); [lia|]. destruct (IH (S s)) as (y & E & L & HP); [intros; apply HF; lia|].
    exists (v :: y). cbn [seq mapM]. rewrite EV. cbn [bind]. rewrite E. cbn [bind]. split; auto. split; [simpl; auto|].
    intros [|i] Hi; simpl; [rewrite Nat.add_0_r; auto|]. rewrite <- plus_n_Sm. apply HP. lia.
Qed.

Lemma flat_NoDup : forall rs lo hi, laid_out lo hi rs -> NoDup (flat rs).
Proof.
  intros rs. induction rs as [|[a b] rs IH]; intros lo hi L; [constructor|].
  destruct L as [L1 L2]. cbn [fst snd] in *. unfold flat. cbn [map concat]. pose proof (range_bound rs b hi) as RB.
  specialize (IH _ _ L2). unfold flat in *. unfold range at 1. cbn [fst snd].
  apply NoDup_join; auto; [apply seq_NoDup|]. intros z I1 I2. apply in_seq in I1. specialize (RB z L2 I2). lia.
Qed.

Lemma row_sums_csr_ok : forall sch (A : Csr F), is_schedule sch -> cs_ok A -> alloc_ok (length (dat A)) ->
  exists y, row_sums_csr sch A = Ok y /\ length y = csr_nrows A /\
    forall i, (i < csr_nrows A)%nat -> FSum (map snd (cs_row A i)) (nth i y f0).
Proof.
  intros sch A HS OK AD. unfold row_sums_csr, csr_nrows.
  assert (exists g : nat -> F, forall i, (i < major A)%nat -> slice_sum A i = Ok (g i) /\ FSum (map snd (cs_row A i)) (g i)) as [g HG].
  { destruct (mapM_seq_spec (slice_sum A) (fun i v => slice_sum A i = Ok v /\ FSum (map snd (cs_row A i)) v) f0 (major A)) as (y & _ & _ & HP).
    { intros i Hi. destruct (slice_sum_ok A i OK AD Hi) as (v & E & H). eauto. }
    exists (fun i => nth i y f0). auto. }
  destruct (work_ranges_ok A OK AD) as (rs & ER & LO & CV). rewrite ER. cbn [bind].
  assert (RI : forall r i, In r rs -> In i (range r) -> (i < major A)%nat).
  { intros r i I Ii. apply (range_bound rs 0 (major A) i LO). unfold flat. apply in_concat. exists (range r). split; auto. apply in_map. auto. }
  rewrite (mapM_ok _ (fun r => map (fun i => (i, g i)) (range r))).
  2:{ intros r I. unfold range_stores. apply mapM_ok. intros i Ii. destruct (HG i (RI _ _ I Ii)) as [-> _]. auto. }
  cbn [bind]. rewrite <- map_flat. set (ws := map (fun i => (i, g i)) (flat rs)).
  assert (KF : map fst ws = flat rs). { unfold ws. rewrite map_map. simpl. apply map_id. }
  pose proof (flat_NoDup rs 0 _ LO) as NDF. pose proof (HS ws) as P.
  destruct (store_all_ok Z0 (sch ws) (repeat f0 (major A))) as (y & E & L & HI & HO).
  { eapply Permutation_NoDup; [apply Permutation_map; exact P|]. rewrite KF. auto. }
  { eapply Permutation_Forall; [exact P|]. apply Forall_forall. intros w I. unfold ws in I. apply in_map_iff in I. destruct I as (i & <- & I).
    rewrite repeat_length. cbn [fst]. apply (range_bound rs 0 (major A) i LO). auto. }
  rewrite repeat_length in L. exists y. split; auto. split; auto. intros i Hi.
  destruct (in_dec Nat.eq_dec i (flat rs)) as [J|J].
  - rewrite (HI i (g i)); [apply HG; auto|]. eapply Permutation_in; [exact P|]. unfold ws. apply in_map_iff. exists i. auto.
  - rewrite HO, nth_repeat.
    + destruct (CV i) as [K|K]; [auto|contradiction|]. rewrite K. apply FSum_zero. auto.
    + intros K. apply J. rewrite <- KF. eapply Permutation_in; [apply Permutation_map; apply Permutation_sym; exact P|exact K].
Qed.

Lemma col_sums_csc_ok : forall (A : Csc F), cs_ok A -> alloc_ok (length (dat A)) ->
  exists y, col_sums_csc A = Ok y /\ length y = csc_ncols A /\
    forall i, (i < csc_ncols A)%nat -> FSum (map snd (cs_row A i)) (nth i y f0).
Proof. intros A OK AD. apply (mapM_seq_spec (slice_sum A) (fun i v => FSum (map snd (cs_row A i)) v) f0). intros i Hi. apply slice_sum_ok; auto. Qed.

Lemma slice_ops_ok : forall (A : Cs F) i, cs_ok A -> alloc_ok (length (dat A)) -> alloc_ok (minor A) -> (i < major A)%nat ->
  slice_ops A i = Ok (cs_row A i).
Proof.
  intros A i OK AD AM Hi. unfold slice_ops. rewrite row_checked_ok by auto. cbn [bind]. f_equal.
  rewrite <- (map_id (cs_row A i)) at 2. pose proof (row_bounds A i OK Hi) as B. unfold in_bounds in B.
  apply (map_ext_Forall _ _ _ _ B). intros [k v] Hk. cbn [fst snd] in *. unfold alloc_ok, i64_max in AM.
  rewrite to_usize_id; [auto|]. unfold usize_max. lia.
Qed.

Lemma minor_terms : forall (A : Cs F) j, cs_ok A -> (j < minor A)%nat ->
  Permutation (at_index (Z.of_nat j) (concat (map (cs_row A) (seq 0 (major A))))) (row_values (transposed (csr_at A)) (major A) j).
Proof. intros A j OK Hj. rewrite at_index_concat_map. apply Permutation_refl. Qed.

Lemma rows_below : forall A : Cs F, cs_ok A -> slots_below (minor A) (concat (map (cs_row A) (seq 0 (major A)))).
Proof.
  intros A OK. unfold slots_below. apply Forall_concat. apply Forall_forall. intros r I. apply in_map_iff in I. destruct I as (i & <- & I). apply in_seq in I.
  pose proof (row_bounds A i OK ltac:(lia)) as B. unfold in_bounds in B. eapply Forall_impl; [|exact B]. intros e He. cbv beta in He. lia.
Qed.

Lemma col_sums_csr_ok : forall nthreads dist il (A : Csr F), is_distribution dist -> is_interleaving il -> cs_ok A ->
  alloc_ok (length (dat A)) -> alloc_ok (csr_ncols A) ->
  exists y, col_sums_csr nthreads dist il A = Ok y /\ length y = csr_ncols A /\
    forall j, (j < csr_ncols A)%nat -> FSum (row_values (transposed (csr_at A)) (csr_nrows A) j) (nth j y f0).
Proof.
  intros nt dist il A HD HI OK AD AM. unfold col_sums_csr, csr_ncols, csr_nrows in *.
  assert (ES : mapM (slice_ops A) (seq 0 (major A)) = Ok (map (cs_row A) (seq 0 (major A)))).
  { apply mapM_ok. intros i I. apply in_seq in I. apply slice_ops_ok; auto. lia. }
  assert (FIN : forall run tasks, accumulates (minor A) run -> concat tasks = concat (map (cs_row A) (seq 0 (major A))) ->
    exists y, run dist tasks (repeat f0 (minor A)) = Ok y /\ length y = minor A /\
    forall j, (j < minor A)%nat -> FSum (row_values (transposed (csr_at A)) (major A) j) (nth j y f0)).
  { intros run tasks AC EC. destruct (accumulates_eq (minor A) run dist tasks _ AC HD EC (rows_below A OK)) as (y & E & L & HF).
    exists y. split; auto. split; auto. intros j Hj. eapply FSum_perm; [apply minor_terms; auto|]. auto. }
  destruct (Nat.eqb_spec (minor A) 0) as [E0|N0].
  - exists []. split; auto. split; [auto|]. intros. lia.
  - destruct (Z.of_nat (minor A) <=? SMALL_DIM_LIMIT).
    + rewrite ES. cbn [bind]. apply (FIN (tls_vec (minor A))); auto. apply (tls_vec_ok Z0).
    + destruct (_ <? _).
      * rewrite ES. cbn [bind]. apply (FIN tls_hash); auto. apply (tls_hash_ok Z0); auto.
      * destruct (work_ranges_ok A OK AD) as (rs & ER & LO & CV). rewrite ER. cbn [bind].
        rewrite (range_tasks_ok (slice_ops A) (cs_row A) rs (major A)); auto; [|intros; apply slice_ops_ok; auto]. cbn [bind].
        apply (FIN (tls_stripes_par STRIPE (minor A) il)); [apply (tls_stripes_par_ok Z0); auto using STRIPE_gt0|].
        rewrite concat_concat_flat. rewrite (concat_laid_out _ rs 0 (major A)); auto; [rewrite Nat.sub_0_r; auto|].
        intros k Hk. destruct (CV k) as [K|K]; try lia; auto.
Qed.

Lemma row_sums_csc_ok : forall dist (A : Csc F), is_distribution dist -> cs_ok A ->
  alloc_ok (length (dat A)) -> alloc_ok (csc_nrows A) ->
  exists y, row_sums_csc dist A = Ok y /\ length y = csc_nrows A /\
    forall i, (i < csc_nrows A)%nat -> FSum (row_values (csc_at A) (csc_ncols A) i) (nth i y f0).
Proof.
  intros dist A HD OK AD AM. unfold row_sums_csc, csc_ncols, csc_nrows in *.
  assert (ES : mapM (slice_ops A) (seq 0 (major A)) = Ok (map (cs_row A) (seq 0 (major A)))).
  { apply mapM_ok. intros i I. apply in_seq in I. apply slice_ops_ok; auto. lia. }
  assert (FIN : forall run, accumulates (minor A) run -> exists y, run dist (map (cs_row A) (seq 0 (major A))) (repeat f0 (minor A)) = Ok y /\ length y = minor A /\
    forall j, (j < minor A)%nat -> FSum (row_values (csc_at A) (major A) j) (nth j y f0)).
  { intros run AC. destruct (accumulates_eq (minor A) run dist _ _ AC HD eq_refl (rows_below A OK)) as (y & E & L & HF).
    exists y. split; auto. split; auto. intros j Hj. eapply FSum_perm; [apply minor_terms; auto|]. auto. }
  destruct (Nat.eqb_spec (minor A) 0) as [E0|N0].
  - exists []. split; auto. split; [auto|]. intros. lia.
  - rewrite ES. cbn [bind]. destruct (_ || _).
    + apply (FIN tls_hash); auto. apply (tls_hash_ok Z0); auto.
    + apply (FIN (tls_stripes STRIPE (minor A))). apply (tls_stripes_ok Z0); auto using STRIPE_gt0.
Qed.

Lemma keyed_sums : forall nthreads dist n key (data : list F) run, is_distribution dist -> length key = length data ->
  Forall (fun k => 0 <= k < Z.of_nat n) key -> Forall (fun k => 0 <= k <= usize_max) key -> accumulates n run ->
  exists y, (let! tasks := chunk_tasks nthreads key data in run dist tasks (repeat f0 n)) = Ok y /\ length y = n /\
    forall i, (i < n)%nat -> FSum (at_index (Z.of_nat i) (combine key data)) (nth i y f0).
Proof.
  intros nt dist n key data run HD HL FK FU AC. destruct (chunk_tasks_eq nt key data HL FU) as (tasks & E & EC). rewrite E. cbn [bind].
  apply (accumulates_eq n run dist tasks _ AC HD EC). apply keys_below. auto.
Qed.

Lemma row_sums_coo_ok : forall nthreads dist (A : Coo F), is_distribution dist -> coo_ok A -> alloc_ok (coo_nrows A) ->
  exists y, row_sums_coo nthreads dist A = Ok y /\ length y = coo_nrows A /\
    forall i, (i < coo_nrows A)%nat -> FSum (row_values (coo_at A) (coo_ncols A) i) (nth i y f0).
Proof.
  intros nt dist A HD OK AR. unfold row_sums_coo. destruct (coo_rows_in A OK) as [B1 B2].
  assert (HL : length (coo_row A) = length (coo_data A)) by (destruct OK; auto).
  assert (CV : forall y, (forall i, (i < coo_nrows A)%nat -> FSum (at_index (Z.of_nat i) (combine (coo_row A) (coo_data A))) (nth i y f0)) ->
     forall i, (i < coo_nrows A)%nat -> FSum (row_values (coo_at A) (coo_ncols A) i) (nth i y f0)).
  { intros y H i Hi. eapply FSum_perm; [apply coo_row_values; auto|]. auto. }
  destruct (Nat.eqb_spec (coo_nrows A) 0) as [E0|N0].
  { exists []. split; auto. split; [auto|]. intros. lia. }
  destruct (Z.eqb_spec (Z.of_nat (length (coo_data A))) 0) as [E1|N1].
  { exists (repeat f0 (coo_nrows A)). split; auto. split; [apply repeat_length|]. apply CV. intros i Hi. rewrite nth_repeat.
    destruct (coo_data A); [|simpl in E1; lia]. destruct (coo_row A); [|discriminate]. apply FSum_zero. auto. }
  destruct (_ || _).
  - destruct (keyed_sums nt dist (coo_nrows A) (coo_row A) (coo_data A) tls_hash) as (y & E & L & H); auto using (tls_hash_ok Z0). eauto.
  - destruct (keyed_sums nt dist (coo_nrows A) (coo_row A) (coo_data A) (tls_stripes STRIPE (coo_nrows A))) as (y & E & L & H); auto.
    + apply (tls_stripes_ok Z0); auto using STRIPE_gt0.
    + eauto.
Qed.

Lemma col_sums_coo_ok : forall nthreads dist il (A : Coo F), is_distribution dist -> is_interleaving il -> coo_ok A -> alloc_ok (coo_ncols A) ->
  exists y, col_sums_coo nthreads dist il A = Ok y /\ length y = coo_ncols A /\
    forall j, (j < coo_ncols A)%nat -> FSum (row_values (transposed (coo_at A)) (coo_nrows A) j) (nth j y f0).
Proof.
  intros nt dist il A HD HI OK AR. unfold col_sums_coo. destruct (coo_rows_in _ (coo_swap_ok A OK)) as [B1 B2].
  cbn [coo_swap coo_row coo_nrows] in B1, B2.
  assert (HL : length (coo_col A) = length (coo_data A)) by (destruct OK; auto).
  assert (CV : forall y, (forall i, (i < coo_ncols A)%nat -> FSum (at_index (Z.of_nat i) (combine (coo_col A) (coo_data A))) (nth i y f0)) ->
     forall i, (i < coo_ncols A)%nat -> FSum (row_values (transposed (coo_at A)) (coo_nrows A) i) (nth i y f0)).
  { intros y H i Hi. eapply FSum_perm; [apply coo_col_values; auto|]. auto. }
  destruct (Nat.eqb_spec (coo_ncols A) 0) as [E0|N0].
  { exists []. split; auto. split; [auto|]. intros. lia. }
  destruct (Z.eqb_spec (Z.of_nat (length (coo_data A))) 0) as [E1|N1].
  { exists (repeat f0 (coo_ncols A)). split; auto. split; [apply repeat_length|]. apply CV. intros i Hi. rewrite nth_repeat.
    destruct (coo_data A); [|simpl in E1; lia]. destruct (coo_col A); [|discriminate]. apply FSum_zero. auto. }
  destruct (_ <? _).
  - destruct (keyed_sums nt dist (coo_ncols A) (coo_col A) (coo_data A) tls_hash) as (y & E & L & H); auto using (tls_hash_ok Z0). eauto.
  - destruct (keyed_sums nt dist (coo_ncols A) (coo_col A) (coo_data A) (tls_stripes_par STRIPE (coo_ncols A) il)) as (y & E & L & H); auto.
    + apply (tls_stripes_par_ok Z0); auto using STRIPE_gt0.
    + eauto.
Qed.
End Stat.
