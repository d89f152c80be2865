(** Proofs about the 2-D matrix-vector products. *)
Require Import List ZArith NArith Nnat Bool Arith Lia Permutation.
Require Import Verif.Res Verif.Values Verif.Spec Verif.Mem Verif.Lists Verif.CsLib Verif.Laws Verif.MHash Verif.PHash Verif.MAcc Verif.PAcc Verif.Loops Verif.MLinalg.
Import ListNotations.
Local Open Scope Z_scope.

(** ** Grouping entries by index *)
Lemma group_perm : forall {V} n (l : list (Z * V)), Forall (fun e => 0 <= fst e < Z.of_nat n) l ->
  Permutation l (flat_map (fun j => map (fun v => (Z.of_nat j, v)) (at_index (Z.of_nat j) l)) (seq 0 n)).
Proof.
  intros V n l. induction l as [|[k v] l IH]; intros FA.
  - rewrite flat_map_concat_map, concat_nil_map; auto.
  - inv FA. cbn [fst] in *. set (s := Z.to_nat k). specialize (IH H2).
    replace (seq 0 n) with (seq 0 s ++ s :: seq (S s) (n - S s)) in *.
    2:{ replace n with (s + S (n - S s))%nat at 2 by lia. rewrite seq_app. reflexivity. }
    rewrite flat_map_app in *. cbn [flat_map] in *.
    assert (EQ : forall m, ~ In s m -> flat_map (fun j => map (fun v => (Z.of_nat j, v)) (at_index (Z.of_nat j) ((k, v) :: l))) m =
       flat_map (fun j => map (fun v => (Z.of_nat j, v)) (at_index (Z.of_nat j) l)) m).
    { intros m NI. rewrite !flat_map_concat_map. f_equal. apply map_ext_in. intros a I. rewrite at_index_cons.
      destruct (Z.eqb_spec k (Z.of_nat a)); auto. exfalso. apply NI. replace s with a by lia. auto. }
    rewrite !EQ by (rewrite in_seq; lia). rewrite at_index_cons. replace (Z.of_nat s) with k in * by lia. rewrite Z.eqb_refl.
    cbn [map app]. apply Permutation_cons_app. auto.
Qed.

Lemma flat_map_map_l : forall {A B C} (f : B -> C) (g : A -> list B) l, map f (flat_map g l) = flat_map (fun a => map f (g a)) l.
Proof. intros. rewrite !flat_map_concat_map, concat_map, map_map. auto. Qed.

Lemma flat_map_ext_in' : forall {A B} (f g : A -> list B) l, (forall a, In a l -> f a = g a) -> flat_map f l = flat_map g l.
Proof. intros. rewrite !flat_map_concat_map. f_equal. apply map_ext_in. auto. Qed.

Section Linalg.
Context {F : Fl} (Z0 : feqb (f0 : F) f0 = true).
Notation ops := (list (Z * F)).

(** The terms of a row, in storage order, are the terms of the cells. *)
Lemma row_terms_perm : forall n x (r : list (Z * F)), Forall (fun e => 0 <= fst e < Z.of_nat n) r ->
  Permutation (map (fun e => fmul (snd e) (nth (Z.to_nat (fst e)) x f0)) r)
    (flat_map (fun j => map (fun v => fmul v (nth j x f0)) (at_index (Z.of_nat j) r)) (seq 0 n)).
Proof.
  intros n x r FA. eapply Permutation_trans; [apply Permutation_map; apply (group_perm n); auto|].
  rewrite flat_map_map_l. erewrite flat_map_ext; [apply Permutation_refl|]. intros j. rewrite map_map. apply map_ext.
  intros v. cbn [fst snd]. rewrite Nat2Z.id. auto.
Qed.

Lemma csr_terms_perm : forall (A : Csr F) x i, cs_ok A -> (i < csr_nrows A)%nat ->
  Permutation (map (fun e => fmul (snd e) (nth (Z.to_nat (fst e)) x f0)) (cs_row A i)) (dot_terms (csr_at A) (csr_ncols A) x i).
Proof.
  intros A x i OK Hi. unfold dot_terms, csr_at, cs_at. apply row_terms_perm.
  pose proof (row_bounds A i OK Hi) as B. unfold in_bounds in B. (eapply Forall_impl; [|exact B]). intros e He. cbv beta in *. unfold csr_ncols. tauto.
Qed.

(** ** Thread-local strategies *)
Lemma accumulates_eq : forall n run dist (tasks : list ops) c, accumulates n run -> is_distribution dist -> concat tasks = c -> slots_below n c ->
  exists y, run dist tasks (repeat f0 n) = Ok y /\ length y = n /\ forall i, (i < n)%nat -> FSum (at_index (Z.of_nat i) c) (nth i y f0).
Proof. intros. subst. auto. Qed.

Lemma tls_spmv_ok : forall nthreads nnz n, alloc_ok n -> accumulates n (fun dist tasks _ => @tls_spmv F nthreads nnz n dist tasks).
Proof.
  intros nthreads nnz n AL dist tasks HD SB. unfold tls_spmv. destruct (Z.of_nat nnz <? _).
  - apply tls_hash_ok; auto.
  - destruct (_ <=? _); [apply tls_dense_ok; auto|].
    apply tls_stripes_ok; auto. unfold STRIPE_ROWS. change 0%nat with (N.to_nat 0). lia.
Qed.

Lemma range_tasks_ok : forall (one : nat -> res ops) g rs n, (forall i, (i < n)%nat -> one i = Ok (g i)) -> laid_out 0 n rs ->
  mapM (range_ops one) rs = Ok (map (fun r => concat (map g (range r))) rs).
Proof.
  intros one g rs n H L. apply mapM_ok. intros r I. unfold range_ops. rewrite (mapM_ok _ g); auto.
  intros i Ii. apply H. apply (range_bound rs 0 n i L). unfold flat. apply in_concat. exists (range r). split; auto. apply in_map. auto.
Qed.

Lemma chunk_tasks_ok : forall (one : nat -> res ops) g chunk nnz, (0 < chunk)%nat -> (forall p, (p < nnz)%nat -> one p = Ok (g p)) ->
  mapM (range_ops one) (chunk_ranges chunk nnz) = Ok (map (fun r => concat (map g (range r))) (chunk_ranges chunk nnz)) /\
  concat (map (fun r => concat (map g (range r))) (chunk_ranges chunk nnz)) = concat (map g (seq 0 nnz)).
Proof.
  intros one g chunk nnz HC H. split.
  - apply mapM_ok. intros r I. unfold range_ops. rewrite (mapM_ok _ g); auto.
    intros i Ii. apply H. assert (IF : In i (flat (chunk_ranges chunk nnz))). { unfold flat. apply in_concat. exists (range r). split; auto. apply in_map. auto. }
    rewrite flat_chunks in IF by auto. apply in_seq in IF. lia.
  - rewrite concat_concat_flat, flat_chunks by auto. auto.
Qed.

(** ** CSC *)
Definition col_pure (A : Csc F) (x : list F) (j : nat) : ops := map (fun e => (fst e, fmul (snd e) (nth j x f0))) (cs_row A j).

Lemma map_ext_Forall : forall {A B} (f g : A -> B) P l, Forall P l -> (forall a, P a -> f a = g a) -> map f l = map g l.
Proof. induction 1; simpl; intros; auto. f_equal; auto. Qed.

Lemma col_ops_ok : forall (A : Csc F) x j, cs_ok A -> alloc_ok (length (dat A)) -> alloc_ok (csc_nrows A) -> length x = csc_ncols A -> (j < csc_ncols A)%nat ->
  col_ops A x j = Ok (col_pure A x j).
Proof.
  intros A x j OK AD AR LX Hj. unfold col_ops. rewrite row_checked_ok by auto. cbn [bind]. unfold get_checked.
  destruct (nth_error x j) as [xj|] eqn:E; [|apply nth_error_None in E; unfold csc_ncols in *; lia]. cbn [bind].
  unfold col_pure. rewrite (nth_error_nth _ _ f0 E). f_equal. pose proof (row_bounds A j OK Hj) as B. unfold in_bounds in B.
  eapply map_ext_Forall; [exact B|]. intros e He. cbv beta in He. rewrite to_usize_id; auto.
  unfold alloc_ok, csc_nrows, i64_max, usize_max in *. lia.
Qed.

Lemma at_index_map_val : forall i (h : F -> F) (r : list (Z * F)), at_index i (map (fun e => (fst e, h (snd e))) r) = map h (at_index i r).
Proof.
  intros. induction r as [|[k v] r IH]; auto. cbn [map fst snd]. rewrite !at_index_cons, IH. destruct (k =? i); auto.
Qed.

Lemma at_index_concat_map : forall {X} i (f : X -> ops) l, at_index i (concat (map f l)) = flat_map (fun a => at_index i (f a)) l.
Proof. induction l; auto. cbn [map concat flat_map]. rewrite at_index_app, IHl. auto. Qed.

Lemma col_pure_terms : forall (A : Csc F) x i, at_index (Z.of_nat i) (concat (map (col_pure A x) (seq 0 (csc_ncols A)))) = dot_terms (csc_at A) (csc_ncols A) x i.
Proof.
  intros. rewrite at_index_concat_map. unfold dot_terms. apply flat_map_ext. intros j. unfold col_pure, csc_at, cs_at.
  apply (at_index_map_val (Z.of_nat i) (fun v => fmul v (nth j x f0))).
Qed.

Lemma col_pure_below : forall (A : Csc F) x n, cs_ok A -> n = csc_ncols A -> slots_below (csc_nrows A) (concat (map (col_pure A x) (seq 0 n))).
Proof.
  intros A x n OK ->. apply Forall_forall. intros e I. apply in_concat in I. destruct I as (l & Il & I). apply in_map_iff in Il.
  destruct Il as (j & <- & Ij). apply in_seq in Ij. unfold col_pure in I. apply in_map_iff in I. destruct I as (e' & <- & I).
  pose proof (row_bounds A j OK ltac:(unfold csc_ncols in *; lia)) as B. unfold in_bounds in B. rewrite Forall_forall in B. specialize (B _ I). cbn [fst]. unfold csc_nrows. tauto.
Qed.

Lemma spmv_csc_ok : forall nthreads dist (A : Csc F) x, is_distribution dist -> cs_ok A -> alloc_ok (length (dat A)) -> alloc_ok (csc_nrows A) ->
  length x = csc_ncols A ->
  exists y, spmv_csc nthreads dist A x = Ok y /\ length y = csc_nrows A /\
    forall i, (i < csc_nrows A)%nat -> FSum (dot_terms (csc_at A) (csc_ncols A) x i) (nth i y f0).
Proof.
  intros nthreads dist A x HD OK AD AR LX. unfold spmv_csc. rewrite LX, Nat.eqb_refl.
  assert (EQ : forall y : list F, (forall i, (i < csc_nrows A)%nat -> FSum (at_index (Z.of_nat i) (concat (map (col_pure A x) (seq 0 (csc_ncols A))))) (nth i y f0)) ->
     forall i, (i < csc_nrows A)%nat -> FSum (dot_terms (csc_at A) (csc_ncols A) x i) (nth i y f0)).
  { intros y H i Hi. rewrite <- col_pure_terms. auto. }
  destruct ((_ <=? _) || _).
  - rewrite (mapM_ok _ (col_pure A x)). 2:{ intros j I. apply in_seq in I. apply col_ops_ok; auto. lia. }
    cbn [bind]. destruct (add_refined Z0 Panic (csc_nrows A) _ _ (col_pure_below A x _ OK eq_refl) (Refines_refl _)) as (y & E & L & FS).
    exists y. auto.
  - destruct (work_ranges_ok A OK AD) as (rs & ER & LO & CV). rewrite ER. cbn [bind].
    rewrite (range_tasks_ok _ (col_pure A x) rs (csc_ncols A)); auto.
    2:{ intros j Hj. apply col_ops_ok; auto. }
    cbn [bind].
    destruct (accumulates_eq _ _ dist (map (fun r => concat (map (col_pure A x) (range r))) rs) (concat (map (col_pure A x) (seq 0 (csc_ncols A)))) (tls_spmv_ok nthreads (length (dat A)) (csc_nrows A) AR)) as (y & E & L & FS); auto.
    + rewrite concat_concat_flat. rewrite (concat_laid_out _ rs 0 (csc_ncols A)); auto; [rewrite Nat.sub_0_r; auto|].
      intros k Hk. destruct (CV k) as [I|I]; [unfold csc_ncols in *; lia|auto|]. right. unfold col_pure. rewrite I. auto.
    + apply col_pure_below; auto.
    + exists y. auto.
Qed.

(** ** COO *)
Definition coo_pure (A : Coo F) (x : list F) : ops :=
  map (fun e => (fst (fst e), fmul (snd e) (nth (Z.to_nat (snd (fst e))) x f0))) (coo_entries A).

Lemma coo_nth : forall (A : Coo F) p, coo_ok A -> (p < length (coo_data A))%nat ->
  exists i j v, nth_error (coo_row A) p = Some i /\ nth_error (coo_col A) p = Some j /\ nth_error (coo_data A) p = Some v /\
    nth_error (coo_entries A) p = Some (i, j, v) /\ 0 <= i < Z.of_nat (coo_nrows A) /\ 0 <= j < Z.of_nat (coo_ncols A) /\ i <= i64_max /\ j <= i64_max.
Proof.
  intros A p OK Hp. destruct OK as [LR LC BR BC].
  destruct (nth_error (coo_row A) p) as [i|] eqn:ER; [|apply nth_error_None in ER; lia].
  destruct (nth_error (coo_col A) p) as [j|] eqn:EC; [|apply nth_error_None in EC; lia].
  destruct (nth_error (coo_data A) p) as [v|] eqn:ED; [|apply nth_error_None in ED; lia].
  exists i, j, v. destruct (BR _ _ ER). destruct (BC _ _ EC).
  assert (nth_error (coo_entries A) p = Some (i, j, v)).
  { unfold coo_entries. apply nth_error_combine. split; auto. apply nth_error_combine. auto. }
  auto 10.
Qed.

Lemma coo_entries_length : forall A : Coo F, coo_ok A -> length (coo_entries A) = length (coo_data A).
Proof. intros A OK. destruct OK as [LR LC _ _]. unfold coo_entries. rewrite !combine_length. lia. Qed.

Lemma map_nth_error_seq : forall {X Y} (l : list X) (f : nat -> list Y) (g : X -> Y),
  (forall p e, nth_error l p = Some e -> f p = [g e]) -> concat (map f (seq 0 (length l))) = map g l.
Proof.
  intros X Y l f g. revert f. induction l as [|a l IH]; intros f H; auto.
  cbn [length seq map concat]. rewrite (H 0%nat a eq_refl). cbn [app]. f_equal.
  rewrite <- seq_shift, map_map. apply (IH (fun p => f (S p))). intros p e E. apply H. auto.
Qed.

Lemma coo_entry_in : forall (A : Coo F) e, coo_ok A -> In e (coo_entries A) ->
  0 <= fst (fst e) < Z.of_nat (coo_nrows A) /\ 0 <= snd (fst e) < Z.of_nat (coo_ncols A) /\ fst (fst e) <= i64_max /\ snd (fst e) <= i64_max.
Proof.
  intros A e OK I. apply In_nth_error in I. destruct I as (p & E).
  assert (Hp : (p < length (coo_data A))%nat). { rewrite <- coo_entries_length by auto. apply nth_error_Some. congruence. }
  destruct (coo_nth A p OK Hp) as (i & j & v & _ & _ & _ & E' & ?). rewrite E in E'. inv E'. auto.
Qed.

Definition coo_one (A : Coo F) (x : list F) (p : nat) : ops :=
  match nth_error (coo_entries A) p with
  | Some e => [(fst (fst e), fmul (snd e) (nth (Z.to_nat (snd (fst e))) x f0))]
  | None => []
  end.

Lemma coo_one_all : forall (A : Coo F) x, coo_ok A -> concat (map (coo_one A x) (seq 0 (length (coo_data A)))) = coo_pure A x.
Proof.
  intros A x OK. rewrite <- coo_entries_length by auto. apply map_nth_error_seq. intros p e E. unfold coo_one. rewrite E. auto.
Qed.

Lemma coo_ops_ok : forall (A : Coo F) x p, coo_ok A -> length x = coo_ncols A -> (p < length (coo_data A))%nat ->
  coo_ops A x p = Ok (coo_one A x p).
Proof.
  intros A x p OK LX Hp. destruct (coo_nth A p OK Hp) as (i & j & v & ER & EC & ED & EE & Bi & Bj & Mi & Mj).
  unfold coo_ops, coo_one, get_checked. rewrite ER, EC, ED, EE. cbn [bind fst snd].
  unfold i64_max, usize_max in *. rewrite !to_usize_id by (unfold usize_max; lia).
  destruct (nth_error x (Z.to_nat j)) as [xj|] eqn:EX; [|apply nth_error_None in EX; lia]. cbn [bind].
  rewrite (nth_error_nth _ _ f0 EX). auto.
Qed.

Lemma coo_pure_terms : forall (A : Coo F) x i, coo_ok A ->
  Permutation (at_index (Z.of_nat i) (coo_pure A x)) (dot_terms (coo_at A) (coo_ncols A) x i).
Proof.
  intros A x i OK. unfold coo_pure.
  set (r := map (fun e : Z * Z * F => (snd (fst e), snd e)) (filter (fun e => fst (fst e) =? Z.of_nat i) (coo_entries A))).
  assert (E1 : at_index (Z.of_nat i) (map (fun e : Z * Z * F => (fst (fst e), fmul (snd e) (nth (Z.to_nat (snd (fst e))) x f0))) (coo_entries A)) =
     map (fun e => fmul (snd e) (nth (Z.to_nat (fst e)) x f0)) r).
  { unfold r. clear. induction (coo_entries A) as [|[[a b] v] l IH]; auto. cbn [map fst snd filter]. rewrite at_index_cons, IH.
    destruct (a =? Z.of_nat i); auto. }
  rewrite E1. eapply Permutation_trans; [apply (row_terms_perm (coo_ncols A))|].
  - apply Forall_forall. intros e I. unfold r in I. apply in_map_iff in I. destruct I as (e' & <- & I). apply filter_In in I.
    destruct I as [I _]. apply (coo_entry_in A e' OK) in I. cbn [fst]. tauto.
  - unfold dot_terms. erewrite flat_map_ext; [apply Permutation_refl|]. intros j. cbv beta. f_equal. unfold coo_at, r.
    clear. induction (coo_entries A) as [|[[a b] v] l IH]; auto. unfold at_cell in *. cbn [filter fst snd].
    destruct (a =? Z.of_nat i); cbn [andb map]; auto. rewrite at_index_cons. cbn [fst snd]. destruct (b =? Z.of_nat j); cbn [map snd]; rewrite IH; auto.
Qed.

Lemma coo_pure_below : forall (A : Coo F) x, coo_ok A -> slots_below (coo_nrows A) (coo_pure A x).
Proof.
  intros A x OK. apply Forall_forall. intros e I. unfold coo_pure in I. apply in_map_iff in I. destruct I as (e' & <- & I).
  apply (coo_entry_in A e' OK) in I. cbn [fst]. tauto.
Qed.

Lemma chunk_len_pos : forall t n, (0 < chunk_len t n)%nat.
Proof. intros. unfold chunk_len. lia. Qed.

Lemma spmv_coo_ok : forall nthreads dist (A : Coo F) x, is_distribution dist -> coo_ok A -> alloc_ok (coo_nrows A) ->
  length x = coo_ncols A ->
  exists y, spmv_coo nthreads dist A x = Ok y /\ length y = coo_nrows A /\
    forall i, (i < coo_nrows A)%nat -> FSum (dot_terms (coo_at A) (coo_ncols A) x i) (nth i y f0).
Proof.
  intros nthreads dist A x HD OK AR LX. unfold spmv_coo. rewrite LX, Nat.eqb_refl.
  assert (EQ : forall y : list F, (forall i, (i < coo_nrows A)%nat -> FSum (at_index (Z.of_nat i) (coo_pure A x)) (nth i y f0)) ->
     forall i, (i < coo_nrows A)%nat -> FSum (dot_terms (coo_at A) (coo_ncols A) x i) (nth i y f0)).
  { intros y H i Hi. eapply FSum_perm; [apply coo_pure_terms; auto|]. auto. }
  destruct ((_ <=? _) || _).
  - rewrite (mapM_ok _ (coo_one A x)). 2:{ intros j I. apply in_seq in I. apply coo_ops_ok; auto. lia. }
    cbn [bind]. rewrite coo_one_all by auto.
    destruct (add_refined Z0 Panic (coo_nrows A) _ _ (coo_pure_below A x OK) (Refines_refl _)) as (y & E & L & FS).
    exists y. auto.
  - destruct (chunk_tasks_ok (coo_ops A x) (coo_one A x) (chunk_len nthreads (length (coo_data A))) (length (coo_data A))) as [E1 E2].
    { apply chunk_len_pos. } { intros. apply coo_ops_ok; auto. }
    rewrite E1. cbn [bind]. rewrite coo_one_all in E2 by auto.
    destruct (accumulates_eq _ _ dist _ _ (tls_spmv_ok nthreads (length (coo_data A)) (coo_nrows A) AR) HD E2 (coo_pure_below A x OK)) as (y & E & L & FS).
    exists y. auto.
Qed.

(** ** CSR: the unrolled row kernel *)
Lemma fma_four_fold : forall (A : Cs F) x p acc, fma_four A x p acc = foldM (fma_one A x) (seq p 4) acc.
Proof.
  intros. unfold fma_four, fma_one, get_unchecked. cbn [seq foldM].
  replace (S p) with (p + 1)%nat by lia. replace (S (p + 1)) with (p + 2)%nat by lia. replace (S (p + 2)) with (p + 3)%nat by lia.
  repeat (match goal with |- context [match nth_error ?l ?n with _ => _ end] => destruct (nth_error l n) end; cbn [bind]; auto).
Qed.

Lemma foldM_seq_app : forall {S} (f : S -> nat -> res S) p a b s, foldM f (seq p (a + b)) s = (let! s := foldM f (seq p a) s in foldM f (seq (p + a) b) s).
Proof. intros. rewrite seq_app. apply foldM_app. Qed.

Lemma fma_eight_fold : forall (A : Cs F) x p acc, fma_eight A x p acc = foldM (fma_one A x) (seq p 8) acc.
Proof.
  intros. unfold fma_eight. change 8%nat with (4 + 4)%nat. rewrite foldM_seq_app, <- fma_four_fold.
  destruct (fma_four A x p acc); cbn [bind]; auto. apply fma_four_fold.
Qed.

Lemma fma_sixteen_fold : forall (A : Cs F) x p acc, fma_sixteen A x p acc = foldM (fma_one A x) (seq p 16) acc.
Proof.
  intros. unfold fma_sixteen. change 16%nat with (4 + (4 + (4 + 4)))%nat. rewrite foldM_seq_app, <- fma_four_fold.
  destruct (fma_four A x p acc); cbn [bind]; auto. rewrite foldM_seq_app, <- fma_four_fold.
  destruct (fma_four A x (p + 4) a); cbn [bind]; auto. replace (p + 4 + 4)%nat with (p + 8)%nat by lia.
  rewrite foldM_seq_app, <- fma_four_fold. destruct (fma_four A x (p + 8) a0); cbn [bind]; auto.
  replace (p + 8 + 4)%nat with (p + 12)%nat by lia. apply fma_four_fold.
Qed.

Lemma and_not_spec : forall b n, and_not (N.ones b) n = (2 ^ N.to_nat b * (n / 2 ^ N.to_nat b))%nat.
Proof.
  intros b n. unfold and_not. rewrite N.ldiff_ones_r. rewrite N.shiftl_mul_pow2, N.shiftr_div_pow2.
  apply Nat2N.inj. rewrite N2Nat.id, Nat2N.inj_mul, Nat2N.inj_div, Nat2N.inj_pow, N2Nat.id. change (N.of_nat 2) with 2%N. lia.
Qed.

Lemma foldM_seq_shift : forall {S} (f : S -> nat -> res S) a p n s,
  foldM (fun s t => f s (a + t)%nat) (seq p n) s = foldM f (seq (a + p) n) s.
Proof.
  intros S f a p n. revert p. induction n; intros p s; auto. cbn [seq foldM]. destruct (f s (a + p)%nat); cbn [bind]; auto.
  rewrite IHn. f_equal. f_equal. lia.
Qed.

(** steps of 16, 8, 4 and 1 are single steps *)
Lemma unroll_ok : forall {S} (one : S -> nat -> res S) (b16 b8 b4 : nat -> S -> res S) fuel s e l16 l8 l4 (st : S),
  (forall c t, b16 c t = foldM one (seq c 16) t) -> (forall c t, b8 c t = foldM one (seq c 8) t) -> (forall c t, b4 c t = foldM one (seq c 4) t) ->
  (e - s <= fuel)%nat -> (s <= l16 <= l8)%nat -> (l8 <= l4 <= e)%nat ->
  Nat.divide 16 (l16 - s) -> Nat.divide 8 (l8 - l16) -> Nat.divide 4 (l4 - l8) ->
  (let! (p, a) := step_loop fuel 16 b16 l16 s st in
   let! (p, a) := step_loop fuel 8 b8 l8 p a in
   let! (p, a) := step_loop fuel 4 b4 l4 p a in
   let! (_, a) := step_loop fuel 1 (fun p a => one a p) e p a in Ok a) = foldM one (seq s (e - s)) st.
Proof.
  intros S one b16 b8 b4 fuel s e l16 l8 l4 st H16 H8 H4 HF B1 B2 D16 D8 D4.
  replace (e - s)%nat with ((l16 - s) + ((l8 - l16) + ((l4 - l8) + (e - l4))))%nat by lia.
  rewrite foldM_seq_app. rewrite (step_loop_fold one 16) by (auto; lia).
  destruct (foldM one (seq s (l16 - s)) st) as [a| | |]; cbn [bind]; auto. replace (s + (l16 - s))%nat with l16 by lia.
  rewrite foldM_seq_app. rewrite (step_loop_fold one 8) by (auto; lia).
  destruct (foldM one (seq l16 (l8 - l16)) a) as [a1| | |]; cbn [bind]; auto. replace (l16 + (l8 - l16))%nat with l8 by lia.
  rewrite foldM_seq_app. rewrite (step_loop_fold one 4) by (auto; lia).
  destruct (foldM one (seq l8 (l4 - l8)) a1) as [a2| | |]; cbn [bind]; auto. replace (l8 + (l4 - l8))%nat with l4 by lia.
  rewrite step_loop_one by lia. destruct (foldM one (seq l4 (e - l4)) a2); cbn [bind]; auto.
Qed.

Lemma fma_range : forall (A : Cs F) x m s acc, cs_ok A -> alloc_ok (minor A) -> length x = minor A -> (s + m <= length (dat A))%nat ->
  foldM (fma_one A x) (seq s m) acc =
  Ok (fold_left (fun acc e => ffma (snd e) (nth (Z.to_nat (fst e)) x f0) acc) (slice s (s + m) (combine (idx A) (dat A))) acc).
Proof.
  intros A x m. induction m; intros s acc OK AM LX HB.
  - unfold slice. rewrite Nat.add_0_r, Nat.sub_diag. auto.
  - assert (EL : length (idx A) = length (dat A)) by (destruct OK; auto).
    assert (HS : (s < length (dat A))%nat) by lia.
    cbn [seq foldM]. unfold fma_one at 1, get_unchecked.
    destruct (nth_error (idx A) s) as [j|] eqn:EI; [|apply nth_error_None in EI; lia].
    destruct (nth_error (dat A) s) as [v|] eqn:EV; [|apply nth_error_None in EV; lia]. cbn [bind].
    assert (BJ : 0 <= j < Z.of_nat (minor A)).
    { pose proof (concat_rows A OK) as C. pose proof (proj2 (nth_error_combine (idx A) (dat A) s j v) (conj EI EV)) as EC. rewrite <- C in EC.
      apply nth_error_In in EC. apply in_concat in EC. destruct EC as (r & Ir & I). pose proof (ok_rows_bounds A OK) as RB. rewrite Forall_forall in RB.
      specialize (RB _ Ir). unfold in_bounds in RB. rewrite Forall_forall in RB. specialize (RB _ I). cbn [fst] in RB. tauto. }
    rewrite to_usize_id by (unfold alloc_ok, i64_max, usize_max in *; lia).
    destruct (nth_error x (Z.to_nat j)) as [xj|] eqn:EX; [|apply nth_error_None in EX; lia]. cbn [bind].
    rewrite IHm by (auto; lia). f_equal.
    replace (slice s (s + S m) (combine (idx A) (dat A))) with ((j, v) :: slice (S s) (S s + m) (combine (idx A) (dat A))).
    + cbn [fold_left fst snd]. rewrite (nth_error_nth _ _ f0 EX). auto.
    + unfold slice. replace (s + S m - s)%nat with (S m) by lia. replace (S s + m - S s)%nat with m by lia.
      assert (SK : forall {X} (l : list X) n a, nth_error l n = Some a -> skipn n l = a :: skipn (S n) l).
      { induction l; destruct n; simpl; intros; try discriminate; [congruence|]. apply IHl. auto. }
      rewrite (SK _ _ s (j, v)) by (apply nth_error_combine; auto). auto.
Qed.

Lemma limits_ok : forall n, (16 * (n / 16) <= 8 * (n / 8) /\ 8 * (n / 8) <= 4 * (n / 4) /\ 4 * (n / 4) <= n)%nat /\
  Nat.divide 16 (16 * (n / 16)) /\ Nat.divide 8 (8 * (n / 8) - 16 * (n / 16)) /\ Nat.divide 4 (4 * (n / 4) - 8 * (n / 8)).
Proof.
  intros n. pose proof (Nat.div_mod n 16 ltac:(lia)) as D16. pose proof (Nat.mod_upper_bound n 16 ltac:(lia)) as M16.
  pose proof (Nat.div_mod n 8 ltac:(lia)) as D8. pose proof (Nat.mod_upper_bound n 8 ltac:(lia)) as M8.
  pose proof (Nat.div_mod n 4 ltac:(lia)) as D4. pose proof (Nat.mod_upper_bound n 4 ltac:(lia)) as M4.
  revert D16 M16 D8 M8 D4 M4. generalize (n / 16)%nat (n mod 16)%nat (n / 8)%nat (n mod 8)%nat (n / 4)%nat (n mod 4)%nat.
  intros a b c d e f D16 M16 D8 M8 D4 M4. split; [lia|]. split; [exists a; lia|]. split; [exists (c - 2 * a)%nat; lia|exists (e - 2 * c)%nat; lia].
Qed.

Lemma spmv_row_ok : forall (A : Csr F) x i, cs_ok A -> alloc_ok (length (dat A)) -> alloc_ok (csr_ncols A) -> length x = csr_ncols A -> (i < csr_nrows A)%nat ->
  spmv_row A x i = Ok (fma_sum x (cs_row A i)).
Proof.
  intros A x i OK AD AC LX Hi. unfold csr_nrows, csr_ncols in *. unfold spmv_row, get_checked.
  rewrite !ptr_nth by (auto; lia). cbn [bind].
  pose proof (ptr_range A i OK ltac:(lia)) as R1. pose proof (ptr_range A (S i) OK ltac:(lia)) as R2.
  pose proof (ptr_mono A i (S i) OK ltac:(lia) ltac:(lia)) as M.
  assert (EL : length (idx A) = length (dat A)) by (destruct OK; tauto).
  unfold alloc_ok, i64_max in AD. rewrite !to_usize_id by (unfold usize_max; lia). rewrite Z.mod_small by lia.
  set (s := Z.to_nat (nth i (ptr A) 0)). set (len := Z.to_nat (nth (S i) (ptr A) 0 - nth i (ptr A) 0)).
  unfold fma_sum, cs_row. fold s. replace (Z.to_nat (nth (S i) (ptr A) 0)) with (s + len)%nat by (unfold s, len; lia).
  rewrite <- fma_range by (auto; unfold s, len; lia).
  destruct (Nat.eqb_spec len 0) as [->|N]; [reflexivity|].
  rewrite (and_not_spec 4 len : and_not 15 len = _), (and_not_spec 3 len : and_not 7 len = _), (and_not_spec 2 len : and_not 3 len = _).
  change (2 ^ N.to_nat 4)%nat with 16%nat. change (2 ^ N.to_nat 3)%nat with 8%nat. change (2 ^ N.to_nat 2)%nat with 4%nat.
  rewrite (unroll_ok (fun acc t => fma_one A x acc (s + t)%nat)).
  - rewrite foldM_seq_shift. rewrite Nat.add_0_r, Nat.sub_0_r. auto.
  - intros. rewrite fma_sixteen_fold. symmetry. apply foldM_seq_shift.
  - intros. rewrite fma_eight_fold. symmetry. apply foldM_seq_shift.
  - intros. rewrite fma_four_fold. symmetry. apply foldM_seq_shift.
  - lia.
  - destruct (limits_ok len) as (? & _). clearbody len. lia.
  - destruct (limits_ok len) as (? & _). clearbody len. lia.
  - rewrite Nat.sub_0_r. apply (limits_ok len).
  - apply (limits_ok len).
  - apply (limits_ok len).
Qed.

(** ** Assignments in any order *)
Lemma store_all_ok : forall ws (y : list F), NoDup (map fst ws) -> Forall (fun w => (fst w < length y)%nat) ws ->
  exists y', store_all y ws = Ok y' /\ length y' = length y /\
    (forall i v, In (i, v) ws -> nth i y' f0 = v) /\ (forall i, ~ In i (map fst ws) -> nth i y' f0 = nth i y f0).
Proof.
  unfold store_all. induction ws as [|[i v] ws IH]; intros y ND FA.
  - exists y. simpl. intuition.
  - simpl in ND. inv ND. inv FA. cbn [fst] in *. cbn [foldM]. unfold store at 1. cbn [fst snd].
    destruct (Nat.ltb_spec i (length y)); [|lia]. cbn [bind].
    destruct (IH (upd y i v) H2) as (y' & E & L & HI & HO). { rewrite upd_length. auto. }
    exists y'. rewrite upd_length in L. split; auto. split; auto. split.
    + intros k w [EQ|I]; [|auto]. inv EQ. rewrite HO by auto. rewrite nth_upd, Nat.eqb_refl by auto. auto.
    + intros k NI. simpl in NI. rewrite HO by tauto. rewrite nth_upd by auto. destruct (Nat.eqb_spec i k); [subst; tauto|auto].
Qed.

Lemma spmv_csr_ok : forall sch (A : Csr F) x, is_schedule sch -> cs_ok A -> alloc_ok (length (dat A)) -> alloc_ok (csr_ncols A) ->
  length x = csr_ncols A -> spmv_csr sch A x = Ok (map (fun i => fma_sum x (cs_row A i)) (seq 0 (csr_nrows A))).
Proof.
  intros sch A x HS OK AD AC LX. unfold spmv_csr. rewrite LX, Nat.eqb_refl. destruct ((_ <=? _) || _).
  - apply mapM_ok. intros i I. apply in_seq in I. apply spmv_row_ok; auto. lia.
  - destruct (work_ranges_ok A OK AD) as (rs & ER & LO & CV). rewrite ER. cbn [bind].
    rewrite (mapM_ok _ (fun r => map (fun i => (i, fma_sum x (cs_row A i))) (range r))).
    2:{ intros r I. unfold range_stores. apply mapM_ok. intros i Ii. rewrite spmv_row_ok; auto. unfold csr_nrows.
        apply (range_bound rs 0 (major A) i LO). unfold flat. apply in_concat. exists (range r). split; auto. apply in_map. auto. }
    cbn [bind]. rewrite <- map_flat. set (ws := map (fun i => (i, fma_sum x (cs_row A i))) (flat rs)).
    assert (KF : map fst ws = flat rs). { unfold ws. rewrite map_map. simpl. apply map_id. }
    assert (NDF : NoDup (flat rs)).
    { clear - LO. revert LO. generalize 0%nat at 1. generalize (major A). intros hi lo. revert lo. induction rs as [|[a b] rs IH]; intros lo L; [constructor|].
      destruct L as [L1 L2]. cbn [fst snd] in *. unfold flat. cbn [map concat]. pose proof (range_bound rs b hi) as RB.
      specialize (IH _ L2). unfold flat in *. unfold range at 1. cbn [fst snd].
      assert (NA : forall (l1 l2 : list nat), NoDup l1 -> NoDup l2 -> (forall z, In z l1 -> ~ In z l2) -> NoDup (l1 ++ l2)).
      { induction l1; simpl; intros; auto. inv H. constructor.
        - rewrite in_app_iff. intros [?|?]; [auto|]. apply (H1 a0); auto.
        - apply IHl1; auto. }
      apply NA; auto; [apply seq_NoDup|]. intros z I1 I2. apply in_seq in I1. apply RB in I2; auto. lia. }
    pose proof (HS ws) as P.
    destruct (store_all_ok (sch ws) (repeat f0 (csr_nrows A))) as (y & E & L & HI & HO).
    { eapply Permutation_NoDup; [apply Permutation_map; exact P|]. rewrite KF. auto. }
    { eapply Permutation_Forall; [exact P|]. apply Forall_forall. intros w I. unfold ws in I. apply in_map_iff in I. destruct I as (i & <- & I).
      rewrite repeat_length. cbn [fst]. apply (range_bound rs 0 (major A) i LO). auto. }
    rewrite E. f_equal. rewrite repeat_length in L. rewrite <- (map_seq_nth y f0), L. apply map_ext_in. intros i I. apply in_seq in I.
    destruct (in_dec Nat.eq_dec i (flat rs)) as [J|J].
    + apply HI. eapply Permutation_in; [exact P|]. unfold ws. apply in_map_iff. exists i. auto.
    + rewrite HO, nth_repeat.
      * destruct (CV i) as [K|K]; [unfold csr_nrows in *; lia|contradiction|]. rewrite K. auto.
      * intros K. apply J. rewrite <- KF. eapply Permutation_in; [apply Permutation_map; apply Permutation_sym; exact P|exact K].
Qed.

End Linalg.
