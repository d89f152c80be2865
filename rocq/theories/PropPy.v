(** Property theorems about the Python layer: C44-C46. *)
Require Import List ZArith Bool Arith Lia Sorted Permutation.
Require Import Verif.Res Verif.Values Verif.Spec Verif.SpecReduce Verif.Mem Verif.Lists Verif.CsLib Verif.Laws Verif.NdLib Verif.PCore Verif.PNd Verif.PGroup Verif.MCore Verif.MScalar Verif.SpecPy Verif.MPy Verif.PPy Verif.PPy2 Verif.Witness Verif.PropNd Verif.PropNd2.
Import ListNotations.
Local Open Scope Z_scope.

(** ** C44: indexing and densification *)

(** [A[i, j]] is the stored value or 0; indices out of range, negative ones included, raise. *)
Theorem C44_getitem : forall (F : Fl) ss (A : Csr F) i j, is_searchsorted ss -> canonical A ->
  ((0 <= i < Z.of_nat (csr_nrows A) /\ 0 <= j < Z.of_nat (csr_ncols A)) ->
     csr_getitem ss A i j = Ok (csr_val f0 A (Z.to_nat i) (Z.to_nat j))) /\
  (~ (0 <= i < Z.of_nat (csr_nrows A) /\ 0 <= j < Z.of_nat (csr_ncols A)) -> csr_getitem ss A i j = Panic).
Proof.
  intros F ss A i j SS C. rewrite csr_getitem_ok by auto. destruct (_ && _) eqn:E; split; intros H; auto; exfalso; lia.
Qed.
Print Assumptions C44_getitem.

(** Rows and columns in range. *)
Theorem C44_getrow_partial : forall (F : Fl) (A : Csr F) i, canonical A -> 0 <= i < Z.of_nat (csr_nrows A) ->
  csr_getrow A i = Ok (map (csr_val f0 A (Z.to_nat i)) (seq 0 (csr_ncols A))).
Proof.
  intros F A i C H. rewrite csr_getrow_ok by (auto; apply can_ok; auto). f_equal. apply map_ext. intros j.
  apply last_one. apply canonical_at_one; auto. change (major A) with (csr_nrows A). lia.
Qed.
Print Assumptions C44_getrow_partial.

Theorem C44_getcol_partial : forall (F : Fl) ss (A : Csr F) j, is_searchsorted ss -> canonical A -> 0 <= j < Z.of_nat (csr_ncols A) ->
  csr_getcol ss A j = Ok (map (fun i => csr_val f0 A i (Z.to_nat j)) (seq 0 (csr_nrows A))).
Proof.
  intros F ss A j SS C H. rewrite csr_getcol_ok by auto. f_equal. apply map_ext. intros i. unfold csr_val, csr_at. rewrite Z2Nat.id by lia. reflexivity.
Qed.
Print Assumptions C44_getcol_partial.

(** [toarray()] of canonical matrices. *)
Theorem C44_toarray : forall (F : Fl),
  (forall A : Csr F, canonical A -> csr_toarray A = Ok (dense (csr_nrows A) (csr_ncols A) (csr_val f0 A))) /\
  (forall A : Csc F, canonical A -> csc_toarray A = Ok (dense (csc_nrows A) (csc_ncols A) (csc_val f0 A))).
Proof.
  intros F. split; intros A C.
  - rewrite csr_toarray_ok by (apply can_ok; auto). f_equal. apply dense_ext. intros i j Hi Hj. apply last_one. apply canonical_at_one; auto.
  - rewrite csc_toarray_ok by (apply can_ok; auto). f_equal. apply dense_ext. intros i j Hi Hj. apply last_one. apply (canonical_at_one A j (Z.of_nat i)); auto.
Qed.
Print Assumptions C44_toarray.

(** [toarray()] of matrices built without checks that are merely well formed: of the
    values stored for a cell, the last one is shown. *)
Theorem C44_toarray_unsorted : forall (F : Fl),
  (forall A : Csr F, cs_ok A -> csr_toarray A = Ok (dense (csr_nrows A) (csr_ncols A) (fun i j => last (csr_at A i j) f0))) /\
  (forall A : Csc F, cs_ok A -> csc_toarray A = Ok (dense (csc_nrows A) (csc_ncols A) (fun i j => last (csc_at A i j) f0))).
Proof. intros F. split; intros A OK; [apply csr_toarray_ok|apply csc_toarray_ok]; auto. Qed.
Print Assumptions C44_toarray_unsorted.

(** [toarray()] of coordinate lists adds duplicates, starting from 0, in storage order. *)
Theorem C44_toarray_coo : forall (F : Fl) (A : Coo F), coo_ok A ->
  coo_toarray A = Ok (dense (coo_nrows A) (coo_ncols A) (fun i j => fold_left fadd (coo_at A i j) f0)).
Proof. intros F A OK. apply coo_toarray_ok. auto. Qed.
Print Assumptions C44_toarray_coo.

(** The same for the N-D helper used by the comparison functions; the cells are
    listed in row-major order. *)
Theorem C44_toarray_coond : forall (F : Fl) (A : Nd F), nd_ok A -> Forall (fun n => 0 <= n) (nd_shape A) ->
  nd_toarray A = Ok (map (fun k => fold_left fadd (nd_at A k) f0) (all_keys (nd_shape A))).
Proof. intros F A OK NN. apply nd_toarray_ok; auto. Qed.
Print Assumptions C44_toarray_coond.

Lemma searchsorted0 : is_searchsorted (fun xs j => length (filter (fun x => x <? j) xs)).
Proof. intros xs j _. reflexivity. Qed.

(** Finding: [A[i, :]] accepts i = -1 and returns zeros, for i = -2 it returns the last
    row, and [A[:, j]] returns zeros for any j out of range. *)
Theorem C44_getrow_getcol_range_refuted : exists A : Csr (f64 pw0), canonical A /\
  csr_nrows A = 2%nat /\ csr_ncols A = 2%nat /\
  csr_toarray A = Ok [[fz 1; fz 2]; [fz 3; fz 4]] /\
  csr_getrow A (-1) = Ok [fz 0; fz 0] /\ csr_getrow A (-2) = Ok [fz 3; fz 4] /\
  forall ss, is_searchsorted ss -> csr_getcol ss A 7 = Ok [fz 0; fz 0] /\ csr_getcol ss A (-1) = Ok [fz 0; fz 0].
Proof.
  assert (C : canonical (mkCs 2 2 [0; 2; 4] [0; 1; 0; 1] [fz 1; fz 2; fz 3; fz 4])) by (apply canonical_literal; reflexivity).
  eexists. split; [exact C|]. repeat (split; [vm_compute; reflexivity|]).
  intros ss SS. rewrite !csr_getcol_ok by auto. split; vm_compute; reflexivity.
Qed.
Print Assumptions C44_getrow_getcol_range_refuted.

Example C44_nonvacuous : canonical WA /\ canonical WB /\
  csr_getitem (fun xs j => length (filter (fun x => x <? j) xs)) WA 2 1 = Ok (fz (-3)) /\
  csr_getitem (fun xs j => length (filter (fun x => x <? j) xs)) WA 1 1 = Ok (fz 0) /\
  csr_getitem (fun xs j => length (filter (fun x => x <? j) xs)) WA (-1) 1 = Panic /\
  csr_getrow WA 2 = Ok [fz 0; fz (-3); fnan0; fz 4] /\
  csc_toarray (mkCs 2 3 [0; 1; 3] [2; 0; 1] [fz 5; fz 6; fz 7]) = Ok [[fz 0; fz 6]; [fz 0; fz 7]; [fz 5; fz 0]] /\
  coo_toarray (mkCoo 2 2 [1; 0; 1] [0; 1; 0] [fz 5; fz 6; fz 7]) = Ok [[fz 0; fz 6]; [fz 12; fz 0]] /\
  nd_ok W3 /\ rmap (@length _) (nd_toarray W3) = Ok 12%nat.
Proof.
  split; [exact WA_canonical|]. split; [exact WB_canonical|]. repeat (split; [vm_compute; reflexivity|]). split; [exact W3_ok|]. vm_compute. reflexivity.
Qed.

(** ** C45: counting nonzero cells *)

(** The result that counts the nonzero cells of the m x n matrix with the given cells. *)
Definition nonzero_counts {F : Fl} (cell : nat -> nat -> F) (m n : nat) (axis : axis_arg) (keepdims : bool) : res (list nat * list Z) :=
  match reduction_2d (Z.of_nat (count_all cell m n)) (map (fun j => Z.of_nat (count_col cell m j)) (seq 0 n))
          (map (fun i => Z.of_nat (count_row cell n i)) (seq 0 m)) axis keepdims with
  | Some r => Ok r
  | None => Panic
  end.

Lemma counts_2d : forall {F : Fl} (cell : nat -> nat -> F) m n whole percol perrow axis keepdims,
  whole = Z.of_nat (count_all cell m n) -> percol = map (fun j => Z.of_nat (count_col cell m j)) (seq 0 n) ->
  perrow = map (fun i => Z.of_nat (count_row cell n i)) (seq 0 m) ->
  reduce_2d (Ok whole) (Ok percol) (Ok perrow) m n axis keepdims = nonzero_counts cell m n axis keepdims.
Proof.
  intros F cell m n whole percol perrow axis keepdims -> -> ->. unfold nonzero_counts. apply reduce_2d_ok; rewrite map_length, seq_length; reflexivity.
Qed.

(** For matrices that store no zeros and no duplicates, the counts are right. *)
Theorem C45_count_nonzero_csr_partial : forall (F : Fl) (A : Csr F) axis keepdims, NLaws F -> canonical A -> Forall (fun v => nonzero v = true) (dat A) ->
  count_nonzero_csr A axis keepdims = nonzero_counts (csr_val f0 A) (csr_nrows A) (csr_ncols A) axis keepdims.
Proof.
  intros F A axis keepdims L C NZ. pose proof (can_ok _ C) as OK. pose proof (n_zero F L) as Z0. unfold count_nonzero_csr.
  assert (P := dat_values A OK).
  assert (S1 : forall i j, (i < major A)%nat -> (j < minor A)%nat -> (length (csr_at A i j) <= 1)%nat) by (intros; apply canonical_single; auto).
  change (csr_ncols A) with (minor A). change (csr_nrows A) with (major A).
  rewrite bincount_counts by auto. apply counts_2d.
  - f_equal. apply (count_all_ok Z0 (csr_at A)); auto.
  - apply map_ext_in. intros j I. apply in_seq in I. f_equal.
    apply (count_row_ok Z0 (transposed (csr_at A))); [intros; apply S1; lia|].
    apply (row_values_part (transposed (csr_at A)) (minor A) (major A) j (dat A)); auto; [lia|].
    eapply Permutation_trans; [exact P|]. apply matrix_values_transposed.
  - rewrite diff_counts by auto. apply map_ext_in. intros i I. apply in_seq in I. f_equal.
    apply (count_row_ok Z0 (csr_at A)); [intros; apply S1; lia|]. apply (row_values_part (csr_at A) (major A) (minor A) i (dat A)); auto. lia.
Qed.
Print Assumptions C45_count_nonzero_csr_partial.

Theorem C45_count_nonzero_csc_partial : forall (F : Fl) (A : Csc F) axis keepdims, NLaws F -> canonical A -> Forall (fun v => nonzero v = true) (dat A) ->
  count_nonzero_csc A axis keepdims = nonzero_counts (csc_val f0 A) (csc_nrows A) (csc_ncols A) axis keepdims.
Proof.
  intros F A axis keepdims L C NZ. pose proof (can_ok _ C) as OK. pose proof (n_zero F L) as Z0. unfold count_nonzero_csc.
  assert (P := csc_dat_values A OK). assert (P2 := dat_values A OK).
  assert (S1 : forall i j, (i < major A)%nat -> (length (csr_at A i j) <= 1)%nat) by (intros; apply canonical_single; auto).
  change (csc_ncols A) with (major A) in *. change (csc_nrows A) with (minor A) in *.
  rewrite bincount_counts by auto. apply counts_2d.
  - f_equal. apply (count_all_ok Z0 (csc_at A)); auto. intros. apply S1; auto.
  - rewrite diff_counts by auto. apply map_ext_in. intros j I. apply in_seq in I. f_equal.
    apply (count_row_ok Z0 (csr_at A)); [intros; apply S1; lia|]. apply (row_values_part (csr_at A) (major A) (minor A) j (dat A)); auto. lia.
  - apply map_ext_in. intros i I. apply in_seq in I. f_equal.
    apply (count_row_ok Z0 (csc_at A)); [intros; apply S1; lia|].
    apply (row_values_part (csc_at A) (minor A) (major A) i (dat A)); auto. lia.
Qed.
Print Assumptions C45_count_nonzero_csc_partial.

Lemma coo_bincount : forall {F : Fl} (A : Coo F), coo_ok A ->
  bincount (coo_row A) (coo_nrows A) = Ok (map (fun i => Z.of_nat (length (row_values (coo_at A) (coo_ncols A) i))) (seq 0 (coo_nrows A))) /\
  bincount (coo_col A) (coo_ncols A) = Ok (map (fun j => Z.of_nat (length (row_values (transposed (coo_at A)) (coo_nrows A) j))) (seq 0 (coo_ncols A))).
Proof.
  intros F A OK. pose proof OK as [L1 L2 B1 B2]. split; rewrite bincount_ok.
  - f_equal. apply map_ext_in. intros i I. apply in_seq in I. f_equal. rewrite (filter_count _ _ (coo_data A)) by auto.
    apply Permutation_length, coo_row_values; auto. lia.
  - apply Forall_forall. intros x I. apply In_nth_error in I. destruct I as [p E]. apply B1 in E. lia.
  - f_equal. apply map_ext_in. intros j I. apply in_seq in I. f_equal. rewrite (filter_count _ _ (coo_data A)) by auto.
    apply Permutation_length, coo_col_values; auto. lia.
  - apply Forall_forall. intros x I. apply In_nth_error in I. destruct I as [p E]. apply B2 in E. lia.
Qed.

Theorem C45_count_nonzero_coo_partial : forall (F : Fl) (A : Coo F) axis keepdims, NLaws F -> coo_ok A -> single_valued (coo_at A) ->
  Forall (fun v => nonzero v = true) (coo_data A) ->
  count_nonzero_coo A axis keepdims = nonzero_counts (fun i j => one_or f0 (coo_at A i j)) (coo_nrows A) (coo_ncols A) axis keepdims.
Proof.
  intros F A axis keepdims L OK SV NZ. pose proof (n_zero F L) as Z0. unfold count_nonzero_coo. destruct (coo_bincount A OK) as [E1 E2]. rewrite E1, E2.
  pose proof (coo_dat_values A OK) as P. apply counts_2d.
  - f_equal. apply (count_all_ok Z0 (coo_at A)); auto.
  - apply map_ext_in. intros j I. apply in_seq in I. f_equal.
    apply (count_row_ok Z0 (transposed (coo_at A))); [intros; apply SV|].
    apply (row_values_part (transposed (coo_at A)) (coo_ncols A) (coo_nrows A) j (coo_data A)); auto; [lia|].
    eapply Permutation_trans; [exact P|]. apply matrix_values_transposed.
  - apply map_ext_in. intros i I. apply in_seq in I. f_equal.
    apply (count_row_ok Z0 (coo_at A)); [intros; apply SV|]. apply (row_values_part (coo_at A) (coo_nrows A) (coo_ncols A) i (coo_data A)); auto. lia.
Qed.
Print Assumptions C45_count_nonzero_coo_partial.

(** What is counted in general is the stored entries. *)
Definition stored_counts {V} (cell : nat -> nat -> list V) (m n : nat) (axis : axis_arg) (keepdims : bool) : res (list nat * list Z) :=
  match reduction_2d (Z.of_nat (length (matrix_values cell m n)))
          (map (fun j => Z.of_nat (length (row_values (transposed cell) m j))) (seq 0 n))
          (map (fun i => Z.of_nat (length (row_values cell n i))) (seq 0 m)) axis keepdims with
  | Some r => Ok r
  | None => Panic
  end.

Theorem C45_counts_stored_entries : forall (F : Fl) axis keepdims,
  (forall A : Csr F, cs_ok A -> count_nonzero_csr A axis keepdims = stored_counts (csr_at A) (csr_nrows A) (csr_ncols A) axis keepdims) /\
  (forall A : Csc F, cs_ok A -> count_nonzero_csc A axis keepdims = stored_counts (csc_at A) (csc_nrows A) (csc_ncols A) axis keepdims) /\
  (forall A : Coo F, coo_ok A -> count_nonzero_coo A axis keepdims = stored_counts (coo_at A) (coo_nrows A) (coo_ncols A) axis keepdims).
Proof.
  intros F axis keepdims. split; [|split]; intros A OK.
  - unfold count_nonzero_csr, stored_counts. rewrite (Permutation_length (dat_values A OK)).
    change (csr_ncols A) with (minor A). change (csr_nrows A) with (major A). rewrite bincount_counts, diff_counts by auto.
    apply reduce_2d_ok; rewrite map_length, seq_length; reflexivity.
  - unfold count_nonzero_csc, stored_counts. rewrite (Permutation_length (csc_dat_values A OK)).
    change (csc_ncols A) with (major A). change (csc_nrows A) with (minor A). rewrite bincount_counts, diff_counts by auto.
    apply reduce_2d_ok; rewrite map_length, seq_length; reflexivity.
  - unfold count_nonzero_coo, stored_counts. destruct (coo_bincount A OK) as [E1 E2]. rewrite E1, E2, (Permutation_length (coo_dat_values A OK)).
    apply reduce_2d_ok; rewrite map_length, seq_length; reflexivity.
Qed.
Print Assumptions C45_counts_stored_entries.

(** Finding: explicit zeros and duplicates are counted. *)
Theorem C45_explicit_zeros_and_duplicates_refuted :
  (exists A : Csr (f64 pw0), canonical A /\ count_nonzero_csr A AxNone false = Ok ([], [2]) /\
     nonzero_counts (csr_val f0 A) (csr_nrows A) (csr_ncols A) AxNone false = Ok ([], [1])) /\
  (exists A : Coo (f64 pw0), coo_ok A /\ Forall (fun v => nonzero v = true) (coo_data A) /\ count_nonzero_coo A AxNone false = Ok ([], [2]) /\
     coo_toarray A = Ok [[fz 7; fz 0]]).
Proof.
  split.
  - exists (mkCs 1 2 [0; 2] [0; 1] [fz 1; fz 0]). split; [apply canonical_literal; reflexivity|]. split; vm_compute; reflexivity.
  - exists (mkCoo 1 2 [0; 0] [0; 0] [fz 3; fz 4]). split; [apply coo_ok_literal; reflexivity|]. split; [repeat constructor|]. split; vm_compute; reflexivity.
Qed.
Print Assumptions C45_explicit_zeros_and_duplicates_refuted.

Example C45_nonvacuous : canonical WA /\ Forall (fun v => nonzero v = true) (dat WA) /\
  count_nonzero_csr WA (AxInt (-1)) true = Ok ([3; 1]%nat, [2; 0; 3]) /\
  count_nonzero_csr WA (AxTuple [0]) false = Ok ([4]%nat, [1; 1; 2; 1]) /\
  count_nonzero_csr WA (AxTuple [1; -2]) true = Ok ([1; 1]%nat, [5]) /\
  count_nonzero_csr WA (AxInt 2) true = Panic /\ count_nonzero_csr WA (AxTuple []) true = Panic.
Proof. split; [exact WA_canonical|]. split; [repeat constructor|]. repeat split; vm_compute; reflexivity. Qed.

(** ** C46: creation *)
Lemma psum_ones : forall n a, psum a (repeat 1%nat n) = seq a (S n).
Proof. induction n as [|n IH]; intros a; [reflexivity|]. cbn [repeat psum]. rewrite IH. cbn [seq]. rewrite Nat.add_1_r. reflexivity. Qed.

Lemma psum_zeros : forall n a, psum a (repeat 0%nat n) = repeat a (S n).
Proof. induction n as [|n IH]; intros a; [reflexivity|]. cbn [repeat psum]. rewrite IH, Nat.add_0_r. reflexivity. Qed.

Lemma map_repeat : forall {A B} (f : A -> B) x n, map f (repeat x n) = repeat (f x) n.
Proof. induction n; cbn; f_equal; auto. Qed.

Lemma zeros_rows : forall (F : Fl) nmaj nmin, mkCs (V := F) nmaj nmin (repeat 0 (nmaj + 1)) [] [] = of_rows nmin (repeat [] nmaj).
Proof.
  intros F m n. unfold of_rows. rewrite repeat_length. unfold indptr_of. f_equal.
  - rewrite (map_repeat (@length (Z * F))). cbn [length]. rewrite psum_zeros. rewrite map_repeat. f_equal. lia.
  - induction m; cbn; auto.
  - induction m; cbn; auto.
Qed.

Lemma diag_rows : forall (F : Fl) (d : list F),
  diag_csr d = of_rows (length d) (map (fun p => [p]) (combine (map Z.of_nat (seq 0 (length d))) d)).
Proof.
  intros F d. unfold of_rows, diag_csr. rewrite map_length, combine_length, map_length, seq_length, Nat.min_id.
  assert (LL : length (combine (map Z.of_nat (seq 0 (length d))) d) = length d) by (rewrite combine_length, map_length, seq_length; lia).
  assert (EC : forall l : list (Z * F), concat (map (fun p => [p]) l) = l) by (induction l; cbn; f_equal; auto).
  rewrite EC. f_equal.
  - unfold indptr_of. rewrite map_map. cbn [length]. rewrite <- psum_ones. f_equal. f_equal.
    rewrite <- LL at 1. generalize (combine (map Z.of_nat (seq 0 (length d))) d). induction l; cbn; f_equal; auto.
  - rewrite map_fst_combine; auto. rewrite map_length, seq_length. reflexivity.
  - rewrite map_snd_combine; auto. rewrite map_length, seq_length. reflexivity.
Qed.

Theorem C46_zeros : forall (F : Fl) nrows ncols,
  (canonical (zeros_csr (F := F) nrows ncols) /\ csr_nrows (zeros_csr (F := F) nrows ncols) = nrows /\ csr_ncols (zeros_csr (F := F) nrows ncols) = ncols /\
     forall i j, csr_at (zeros_csr (F := F) nrows ncols) i j = []) /\
  (canonical (zeros_csc (F := F) nrows ncols) /\ csc_nrows (zeros_csc (F := F) nrows ncols) = nrows /\ csc_ncols (zeros_csc (F := F) nrows ncols) = ncols /\
     forall i j, csc_at (zeros_csc (F := F) nrows ncols) i j = []) /\
  (coo_ok (zeros_coo (F := F) nrows ncols) /\ coo_nrows (zeros_coo (F := F) nrows ncols) = nrows /\ coo_ncols (zeros_coo (F := F) nrows ncols) = ncols /\
     forall i j, coo_at (zeros_coo (F := F) nrows ncols) i j = []).
Proof.
  intros F m n.
  assert (FB : forall k p, Forall (in_bounds k) (repeat (@nil (Z * F)) p)) by (intros; apply Forall_forall; intros r I; apply repeat_spec in I; subst; constructor).
  assert (FS : forall p, Forall srow (repeat (@nil (Z * F)) p)) by (intros; apply Forall_forall; intros r I; apply repeat_spec in I; subst; constructor).
  assert (NT : forall p i, nth i (repeat (@nil (Z * F)) p) [] = []) by (intros; apply nth_repeat).
  split; [|split].
  - unfold zeros_csr. rewrite zeros_rows. split; [apply of_rows_canonical; auto|]. split; [apply repeat_length|]. split; [reflexivity|].
    intros i j. unfold csr_at, cs_at. rewrite cs_row_of_rows, NT. reflexivity.
  - unfold zeros_csc. rewrite zeros_rows. split; [apply of_rows_canonical; auto|]. split; [reflexivity|]. split; [apply repeat_length|].
    intros i j. unfold csc_at, cs_at. rewrite cs_row_of_rows, NT. reflexivity.
  - split; [constructor; cbn; auto; intros [|p] x H; discriminate|]. repeat split.
Qed.
Print Assumptions C46_zeros.

Theorem C46_diag : forall (F : Fl) (d : list F), alloc_ok (length d) ->
  let D := diag_csr d in
  canonical D /\ csr_nrows D = length d /\ csr_ncols D = length d /\
  forall i j, (i < length d)%nat -> csr_at D i j = if (i =? j)%nat then [nth i d f0] else [].
Proof.
  intros F d AL D. subst D. rewrite diag_rows. set (ps := combine (map Z.of_nat (seq 0 (length d))) d).
  assert (NP : forall i, (i < length d)%nat -> nth_error ps i = Some (Z.of_nat i, nth i d f0)).
  { intros i Hi. apply nth_error_combine. split; [rewrite nth_error_map, nth_error_nth' with (d := 0%nat) by (rewrite seq_length; auto); rewrite seq_nth by auto; reflexivity|apply nth_error_nth'; auto]. }
  assert (LP : length ps = length d) by (unfold ps; rewrite combine_length, map_length, seq_length; lia).
  split; [|split; [|split]].
  - apply of_rows_canonical; apply Forall_forall; intros r I; apply in_map_iff in I; destruct I as (p & <- & I).
    + constructor; [|constructor]. apply In_nth_error in I. destruct I as [i E]. assert (Hi := nth_error_lt _ _ _ E). rewrite LP in Hi.
      rewrite NP in E by auto. injection E as <-. cbn [fst]. unfold alloc_ok in AL. lia.
    + repeat constructor.
  - unfold csr_nrows, of_rows. cbn [major]. rewrite map_length. exact LP.
  - reflexivity.
  - intros i j Hi. unfold csr_at, cs_at. rewrite cs_row_of_rows.
    assert (EN : nth_error (map (fun p => [p]) ps) i = Some [(Z.of_nat i, nth i d f0)]) by (rewrite nth_error_map, NP by auto; reflexivity).
    rewrite (nth_error_nth _ _ [] EN).
    rewrite at_index_cons, at_index_nil by (intros []). destruct (Z.eqb_spec (Z.of_nat i) (Z.of_nat j)), (Nat.eqb_spec i j); try lia; reflexivity.
Qed.
Print Assumptions C46_diag.

Theorem C46_eye : forall (F : Fl) n, alloc_ok n ->
  let I := eye_csr (F := F) n in
  canonical I /\ csr_nrows I = n /\ csr_ncols I = n /\
  forall i j, (i < n)%nat -> csr_at I i j = if (i =? j)%nat then [f1] else [].
Proof.
  intros F n AL I. assert (E : I = diag_csr (repeat f1 n)) by (unfold I, diag_csr, eye_csr; rewrite repeat_length; reflexivity). rewrite E. clear E I.
  destruct (C46_diag F (repeat f1 n)) as (C & R & K & A); [rewrite repeat_length; auto|]. rewrite repeat_length in *. repeat (split; [assumption|]).
  intros i j Hi. rewrite A by auto. destruct (i =? j)%nat; auto. rewrite nth_indep with (d' := f1) by (rewrite repeat_length; auto). rewrite nth_repeat. reflexivity.
Qed.
Print Assumptions C46_eye.

Example C46_nonvacuous : alloc_ok 3 /\
  csr_toarray (eye_csr (F := f64 pw0) 3) = Ok [[f1; f0; f0]; [f0; f1; f0]; [f0; f0; f1]] /\
  csr_toarray (diag_csr [fz 4; fz 5]) = Ok [[fz 4; f0]; [f0; fz 5]] /\
  coo_toarray (zeros_coo (F := f64 pw0) 1 2) = Ok [[f0; f0]].
Proof. split; [unfold alloc_ok, i64_max; lia|]. repeat split; vm_compute; reflexivity. Qed.
