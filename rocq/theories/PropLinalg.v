(** Properties C27, C28, C30-C32 (2-D) and C42, C43. *)
Require Import List ZArith NArith Bool Arith Lia Permutation Sorted.
Require Import Verif.Res Verif.Values Verif.Spec Verif.Mem Verif.Lists Verif.CsLib Verif.Laws Verif.MHash Verif.PHash Verif.MAcc Verif.PAcc Verif.Loops Verif.MNd Verif.MNd2 Verif.PNd Verif.PropNd Verif.PropNd2 Verif.MScalar Verif.MConvert Verif.PConvert Verif.PConvert2 Verif.MLinalg Verif.PLinalg Verif.PLinalg2 Verif.PLinalg3 Verif.PropConvert Verif.Witness.
Import ListNotations.
Local Open Scope Z_scope.

(** ** C27: CSR matrix-vector product *)
Theorem C27_spmv_csr : forall (F : Fl) sch (A : Csr F) x, NLaws F -> is_schedule sch -> cs_ok A ->
  alloc_ok (length (dat A)) -> alloc_ok (csr_ncols A) -> length x = csr_ncols A ->
  exists y, spmv_csr sch A x = Ok y /\ length y = csr_nrows A /\
    forall i, (i < csr_nrows A)%nat -> nth i y f0 = fma_sum x (cs_row A i).
Proof.
  intros F sch A x L HS OK AD AC LX. exists (map (fun i => fma_sum x (cs_row A i)) (seq 0 (csr_nrows A))).
  split; [apply (spmv_csr_ok (n_zero F L)); auto|]. split; [rewrite map_length, seq_length; auto|].
  intros i Hi. rewrite (nth_indep _ f0 (fma_sum x (cs_row A 0))) by (rewrite map_length, seq_length; auto).
  rewrite (map_nth (fun i => fma_sum x (cs_row A i))), seq_nth by auto. auto.
Qed.
Print Assumptions C27_spmv_csr.

Theorem C27_spmv_csr_exact : forall sch (A : Csr qc) x, is_schedule sch -> cs_ok A ->
  alloc_ok (length (dat A)) -> alloc_ok (csr_ncols A) -> length x = csr_ncols A ->
  exists y, spmv_csr sch A x = Ok y /\ length y = csr_nrows A /\
    forall i, (i < csr_nrows A)%nat -> nth i y f0 = dot_exact (csr_at A) (csr_ncols A) x i.
Proof.
  intros sch A x HS OK AD AC LX. destruct (C27_spmv_csr qc sch A x qc_laws HS OK AD AC LX) as (y & E & LY & NY).
  exists y. split; auto. split; auto. intros i Hi. rewrite NY by auto. apply (fma_sum_dot qc_elaws).
  pose proof (row_bounds A i OK Hi) as B. unfold in_bounds in B. (eapply Forall_impl; [|exact B]). intros e He. cbv beta in He |- *. unfold csr_ncols. tauto.
Qed.
Print Assumptions C27_spmv_csr_exact.

Theorem C27_length_mismatch_panics : forall (F : Fl) sch (A : Csr F) x, length x <> csr_ncols A -> spmv_csr sch A x = Panic.
Proof. intros F sch A x N. unfold spmv_csr. rewrite (proj2 (Nat.eqb_neq _ _) N). auto. Qed.
Print Assumptions C27_length_mismatch_panics.

(** A matrix over the rationals with unsorted and repeated columns. *)
Definition LA : Cs qc := mkCs 3 4 [0; 3; 3; 6] [2; 0; 2; 1; 3; 1] (map (@fofZ qc) [2; 1; 5; -3; 4; 7]).
Lemma LA_ok : cs_ok LA. Proof. apply cs_ok_literal. reflexivity. Qed.
Definition Lx4 : list qc := map (@fofZ qc) [1; 2; 3; 4].
Definition Lx3 : list qc := map (@fofZ qc) [1; 0; 3].

Example C27_nonvacuous : cs_ok WA /\ alloc_ok (length (dat WA)) /\ alloc_ok (csr_ncols WA) /\
  spmv_csr (@rev _) WA (map fz [1; 2; 3; 4]) = Ok [fz 7; fz 0; fnan0] /\
  spmv_csr (@rev _) LA Lx4 = Ok (map (@fofZ qc) [22; 0; 24]).
Proof. split; [apply WA_canonical|]. split; [vm_compute; reflexivity|]. split; [vm_compute; reflexivity|]. split; vm_compute; reflexivity. Qed.

(** ** C28: CSC and COO matrix-vector products *)
Theorem C28_spmv_csc : forall (F : Fl) nthreads dist (A : Csc F) x, NLaws F -> is_distribution dist -> cs_ok A ->
  alloc_ok (length (dat A)) -> alloc_ok (csc_nrows A) -> length x = csc_ncols A ->
  exists y, spmv_csc nthreads dist A x = Ok y /\ length y = csc_nrows A /\
    forall i, (i < csc_nrows A)%nat -> FSum (dot_terms (csc_at A) (csc_ncols A) x i) (nth i y f0).
Proof. intros F nthreads dist A x L. intros. apply (spmv_csc_ok (n_zero F L)); auto. Qed.
Print Assumptions C28_spmv_csc.

Theorem C28_spmv_coo : forall (F : Fl) nthreads dist (A : Coo F) x, NLaws F -> is_distribution dist -> coo_ok A ->
  alloc_ok (coo_nrows A) -> length x = coo_ncols A ->
  exists y, spmv_coo nthreads dist A x = Ok y /\ length y = coo_nrows A /\
    forall i, (i < coo_nrows A)%nat -> FSum (dot_terms (coo_at A) (coo_ncols A) x i) (nth i y f0).
Proof. intros F nthreads dist A x L. intros. apply (spmv_coo_ok (n_zero F L)); auto. Qed.
Print Assumptions C28_spmv_coo.

Lemma exact_of : forall cell n (x : list qc) i v, FSum (dot_terms cell n x i) v -> v = dot_exact cell n x i.
Proof. intros cell n x i v H. rewrite <- (dot_terms_exact qc_elaws). apply FSum_exact; [exact qc_elaws|exact H]. Qed.

Theorem C28_spmv_csc_exact : forall nthreads dist (A : Csc qc) x, is_distribution dist -> cs_ok A ->
  alloc_ok (length (dat A)) -> alloc_ok (csc_nrows A) -> length x = csc_ncols A ->
  exists y, spmv_csc nthreads dist A x = Ok y /\ length y = csc_nrows A /\
    forall i, (i < csc_nrows A)%nat -> nth i y f0 = dot_exact (csc_at A) (csc_ncols A) x i.
Proof.
  intros nthreads dist A x HD OK AD AR LX. destruct (C28_spmv_csc qc nthreads dist A x qc_laws HD OK AD AR LX) as (y & E & L & FS).
  exists y. split; auto. split; auto. intros. apply exact_of. auto.
Qed.
Print Assumptions C28_spmv_csc_exact.

Theorem C28_spmv_coo_exact : forall nthreads dist (A : Coo qc) x, is_distribution dist -> coo_ok A ->
  alloc_ok (coo_nrows A) -> length x = coo_ncols A ->
  exists y, spmv_coo nthreads dist A x = Ok y /\ length y = coo_nrows A /\
    forall i, (i < coo_nrows A)%nat -> nth i y f0 = dot_exact (coo_at A) (coo_ncols A) x i.
Proof.
  intros nthreads dist A x HD OK AR LX. destruct (C28_spmv_coo qc nthreads dist A x qc_laws HD OK AR LX) as (y & E & L & FS).
  exists y. split; auto. split; auto. intros. apply exact_of. auto.
Qed.
Print Assumptions C28_spmv_coo_exact.

Lemma dot_exact_ext : forall (F : Fl) cell cell' n (x : list F) i,
  (forall j, (j < n)%nat -> fold_right fadd f0 (cell i j) = fold_right fadd f0 (cell' i j)) -> dot_exact cell n x i = dot_exact cell' n x i.
Proof.
  intros F cell cell' n x i H. unfold dot_exact. f_equal. apply map_ext_in. intros j I. apply in_seq in I. rewrite H by lia. auto.
Qed.

Lemma same_values : forall (F : Fl) (y y' : list F) n, length y = n -> length y' = n -> (forall i, (i < n)%nat -> nth i y f0 = nth i y' f0) -> y = y'.
Proof. intros F y y' n L L' H. apply nth_ext with (d := f0) (d' := f0); [congruence|]. intros i Hi. apply H. lia. Qed.

(** The three formats agree whenever their cells hold the same values. *)
Theorem C28_formats_agree_exact : forall sch nt1 d1 nt2 d2 (A : Csr qc) (B : Csc qc) (C : Coo qc) x,
  is_schedule sch -> is_distribution d1 -> is_distribution d2 -> cs_ok A -> cs_ok B -> coo_ok C ->
  alloc_ok (length (dat A)) -> alloc_ok (length (dat B)) -> alloc_ok (csr_nrows A) -> alloc_ok (csr_ncols A) ->
  csc_nrows B = csr_nrows A -> csc_ncols B = csr_ncols A -> coo_nrows C = csr_nrows A -> coo_ncols C = csr_ncols A ->
  (forall i j, (i < csr_nrows A)%nat -> (j < csr_ncols A)%nat ->
     fold_right fadd f0 (csc_at B i j) = fold_right fadd f0 (csr_at A i j) /\
     fold_right fadd f0 (coo_at C i j) = fold_right fadd f0 (csr_at A i j)) ->
  length x = csr_ncols A ->
  spmv_csc nt1 d1 B x = spmv_csr sch A x /\ spmv_coo nt2 d2 C x = spmv_csr sch A x.
Proof.
  intros sch nt1 d1 nt2 d2 A B C x HS H1 H2 OA OB OC AA AB AR AC RB CB RC CC EQ LX.
  destruct (C27_spmv_csr_exact sch A x HS OA AA AC LX) as (y & EY & LY & NY).
  destruct (C28_spmv_csc_exact nt1 d1 B x H1 OB AB) as (y1 & E1 & L1 & N1); [congruence|congruence|].
  destruct (C28_spmv_coo_exact nt2 d2 C x H2 OC) as (y2 & E2 & L2 & N2); [congruence|congruence|].
  rewrite EY, E1, E2. split; f_equal; apply (same_values _ _ _ (csr_nrows A)); try congruence; intros i Hi.
  - rewrite N1, NY by congruence. rewrite CB. apply dot_exact_ext. intros j Hj. apply EQ; auto.
  - rewrite N2, NY by congruence. rewrite CC. apply dot_exact_ext. intros j Hj. apply EQ; auto.
Qed.
Print Assumptions C28_formats_agree_exact.

Theorem C28_length_mismatch_panics : forall (F : Fl) nthreads dist x,
  (forall A : Csc F, length x <> csc_ncols A -> spmv_csc nthreads dist A x = Panic) /\
  (forall A : Coo F, length x <> coo_ncols A -> spmv_coo nthreads dist A x = Panic).
Proof. intros F nthreads dist x. split; intros A N; unfold spmv_csc, spmv_coo; rewrite (proj2 (Nat.eqb_neq _ _) N); auto. Qed.
Print Assumptions C28_length_mismatch_panics.

(** Two threads: the first task on one, the rest in reverse order on the other. *)
Definition two_threads {A} (l : list A) : list (list A) := match l with [] => [] | a :: l' => [rev l'; [a]] end.
Lemma two_threads_distribution : forall {A}, is_distribution (@two_threads A).
Proof.
  intros A [|a l]; simpl; auto. rewrite app_nil_r || idtac. eapply Permutation_trans; [|apply Permutation_app_comm]. cbn [app].
  constructor. apply Permutation_rev.
Qed.

Definition LC : Coo qc := mkCoo 3 4 [2; 0; 2; 0] [1; 2; 1; 0] (map (@fofZ qc) [5; 2; -1; 3]).
Lemma LC_ok : coo_ok LC.
Proof. apply coo_ok_literal. reflexivity. Qed.

Example C28_nonvacuous :
  spmv_csc 4 two_threads LA Lx3 = Ok (map (@fofZ qc) [1; 12; 7; 12]) /\
  spmv_coo 4 two_threads LC Lx4 = Ok (map (@fofZ qc) [9; 0; 8]).
Proof. split; vm_compute; reflexivity. Qed.

(** ** C30: products with a dense matrix *)
Lemma fold_is_sum : forall (F : Fl) (l : list F), NLaws F -> FSum l (fold_left fadd l f0).
Proof. intros F l L. apply (FSum_fold_left l [] f0). apply FSum_nil0, (n_zero F L). Qed.

Lemma grid_eq : forall (F : Fl) (G : nat -> nat -> F) n k y, length y = (n * k)%nat ->
  (forall i c, (i < n)%nat -> (c < k)%nat -> nth (i * k + c) y f0 = G i c) ->
  y = concat (map (fun i => map (G i) (seq 0 k)) (seq 0 n)).
Proof.
  intros F G n k y L H. apply (same_values _ _ _ (n * k)); auto; [apply length_grid|].
  intros p Hp. assert (k <> 0)%nat by (intros ->; lia). rewrite (Nat.div_mod p k) by auto. rewrite (Nat.mul_comm k).
  pose proof (Nat.mod_upper_bound p k ltac:(auto)). assert (p / k < n)%nat by (apply Nat.div_lt_upper_bound; lia).
  rewrite H by auto. rewrite nth_grid by auto. auto.
Qed.

(** [b] has as many elements as a [ncols] x [k] matrix; sizes are those of arrays in memory. *)
Definition dense_ok {F : Fl} (nrows ncols k : nat) (b : list F) : Prop :=
  length b = (ncols * k)%nat /\ alloc_ok (ncols * k) /\ alloc_ok (nrows * k) /\ alloc_ok nrows /\ alloc_ok ncols.

(** For CSR the terms are added from left to right in storage order. *)
Theorem C30_spmm_csr : forall (F : Fl) (A : Csr F) b k, NLaws F -> cs_ok A -> alloc_ok (length (dat A)) ->
  dense_ok (csr_nrows A) (csr_ncols A) k b -> (0 < k)%nat ->
  exists y, spmm_csr A b k = Ok y /\ length y = (csr_nrows A * k)%nat /\
    forall i c, (i < csr_nrows A)%nat -> (c < k)%nat ->
      nth (i * k + c) y f0 = fold_left fadd (map (fun e => fmul (snd e) (nth (Z.to_nat (fst e)) (column b (csr_ncols A) k c) f0)) (cs_row A i)) f0 /\
      FSum (dot_terms (csr_at A) (csr_ncols A) (column b (csr_ncols A) k c) i) (nth (i * k + c) y f0).
Proof.
  intros F A b k L OK AD (LB & A1 & A2 & A3 & A4) Hk. eexists. split; [apply (spmm_csr_ok (n_zero F L) (n_mul_comm F L)); auto|].
  split; [apply length_grid|]. intros i c Hi Hc. rewrite nth_grid by auto. change (0 + i)%nat with i. split; [reflexivity|].
  eapply FSum_perm; [apply csr_terms_cell; auto|]. apply fold_is_sum. auto.
Qed.
Print Assumptions C30_spmm_csr.

(** For CSC and COO the result does not depend on the interleaving of the tiles. *)
Theorem C30_spmm_csc : forall (F : Fl) (A : Csc F) b k, NLaws F -> cs_ok A -> alloc_ok (length (dat A)) ->
  dense_ok (csc_nrows A) (csc_ncols A) k b ->
  exists y, (forall il, is_interleaving il -> spmm_csc il A b k = Ok y) /\ length y = (csc_nrows A * k)%nat /\
    forall i c, (i < csc_nrows A)%nat -> (c < k)%nat ->
      nth (i * k + c) y f0 = fold_left fadd (dot_terms (csc_at A) (csc_ncols A) (column b (csc_ncols A) k c) i) f0 /\
      FSum (dot_terms (csc_at A) (csc_ncols A) (column b (csc_ncols A) k c) i) (nth (i * k + c) y f0).
Proof.
  intros F A b k L OK AD (LB & A1 & A2 & A3 & A4).
  exists (concat (map (fun i => map (fun c => fold_left fadd (dot_terms (csc_at A) (csc_ncols A) (column b (csc_ncols A) k c) i) f0) (seq 0 k)) (seq 0 (csc_nrows A)))).
  split; [|split; [apply length_grid|]].
  - intros il HI. destruct (spmm_csc_ok (n_zero F L) (n_mul_comm F L) il A b k) as (y & E & LY & NY); auto. rewrite E. f_equal. apply grid_eq; auto.
  - intros i c Hi Hc. rewrite nth_grid by auto. change (0 + i)%nat with i. split; [reflexivity|]. apply fold_is_sum. auto.
Qed.
Print Assumptions C30_spmm_csc.

Theorem C30_spmm_coo : forall (F : Fl) (A : Coo F) b k, NLaws F -> coo_ok A ->
  dense_ok (coo_nrows A) (coo_ncols A) k b ->
  exists y, (forall il, is_interleaving il -> spmm_coo il A b k = Ok y) /\ length y = (coo_nrows A * k)%nat /\
    forall i c, (i < coo_nrows A)%nat -> (c < k)%nat ->
      FSum (dot_terms (coo_at A) (coo_ncols A) (column b (coo_ncols A) k c) i) (nth (i * k + c) y f0).
Proof.
  intros F A b k L OK (LB & A1 & A2 & A3 & A4).
  exists (concat (map (fun i => map (fun c => fold_left fadd (ent_terms (column b (coo_ncols A) k c) i (coo_entries A)) f0) (seq 0 k)) (seq 0 (coo_nrows A)))).
  split; [|split; [apply length_grid|]].
  - intros il HI. destruct (spmm_coo_ok (n_zero F L) (n_mul_comm F L) il A b k) as (y & E & LY & NY); auto. rewrite E. f_equal. apply grid_eq; auto.
  - intros i c Hi Hc. rewrite nth_grid by auto. change (0 + i)%nat with i.
    eapply FSum_perm; [apply (coo_ents_terms (n_zero F L)); auto|]. apply fold_is_sum. auto.
Qed.
Print Assumptions C30_spmm_coo.

Lemma dot_terms_ext : forall (F : Fl) cell cell' n (x : list F) i, (forall j, (j < n)%nat -> cell i j = cell' i j) -> dot_terms cell n x i = dot_terms cell' n x i.
Proof.
  intros F cell cell' n x i H. unfold dot_terms. rewrite !flat_map_concat_map. f_equal. apply map_ext_in. intros j I. apply in_seq in I. rewrite H by lia. auto.
Qed.

(** The automatic strategy, which may go through the parallel conversion to CSC: still
    one result for all schedules. *)
Theorem C30_spmm_auto : forall (F : Fl) (A : Csr F) b k, NLaws F -> cs_ok A -> alloc_ok (length (dat A)) ->
  dense_ok (csr_nrows A) (csr_ncols A) k b ->
  exists y, (forall il1 sch il2, is_interleaving il1 -> is_schedule sch -> is_interleaving il2 -> spmm_auto il1 sch il2 A b k = Ok y) /\
    length y = (csr_nrows A * k)%nat /\
    forall i c, (i < csr_nrows A)%nat -> (c < k)%nat ->
      FSum (dot_terms (csr_at A) (csr_ncols A) (column b (csr_ncols A) k c) i) (nth (i * k + c) y f0).
Proof.
  intros F A b k L OK AD DO. pose proof DO as (LB & A1 & A2 & A3 & A4). unfold spmm_auto. rewrite b_ok_true, y_len_ok by auto.
  assert (ZT : forall n, FSum (F := F) [] (nth n (repeat f0 (csr_nrows A * k)) f0)).
  { intros n. rewrite nth_repeat. apply FSum_nil0, (n_zero F L). }
  destruct (Nat.eqb_spec (csr_ncols A) 0) as [E|N2]; cbn [orb].
  { eexists. split; [reflexivity|]. rewrite repeat_length. split; auto. intros. rewrite E. apply ZT. }
  destruct (Nat.eqb_spec (csr_nrows A) 0) as [E|N1]; cbn [orb].
  { eexists. split; [reflexivity|]. rewrite repeat_length. split; auto. intros. lia. }
  destruct (Nat.eqb_spec k 0) as [E|N3]; cbn [orb].
  { eexists. split; [reflexivity|]. rewrite repeat_length. split; auto. intros. lia. }
  destruct (Z.eqb_spec (Z.of_nat (length (dat A))) 0) as [E|N4].
  { eexists. split; [reflexivity|]. rewrite repeat_length. split; auto. intros i c Hi Hc.
    eapply FSum_perm; [apply (csr_terms_cell A b k i c OK Hi)|].
    assert (cs_row A i = []) as ->. { unfold cs_row. destruct (dat A); [|cbn in E; lia]. destruct (idx A); unfold slice; cbn; rewrite skipn_nil, firstn_nil; auto. }
    apply ZT. }
  destruct (_ || _).
  - set (G := fun i c => fold_left fadd (dot_terms (csr_at A) (csr_ncols A) (column b (csr_ncols A) k c) i) f0).
    exists (concat (map (fun i => map (G i) (seq 0 k)) (seq 0 (csr_nrows A)))). split; [|split; [apply length_grid|]].
    + intros il1 sch il2 H1 HS H2. destruct (C04_csr_to_csc_preserves_cells F il1 sch A H1 HS OK A3) as (B & EB & OB & RB & CB & LD & AT).
      rewrite EB. cbn [bind]. destruct (spmm_csc_ok (n_zero F L) (n_mul_comm F L) il2 B b k) as (y & E & LY & NY); auto; try (rewrite ?LD, ?RB, ?CB; auto).
      rewrite E. f_equal. apply grid_eq; [rewrite RB in LY; auto|]. intros i c Hi Hc. rewrite NY by (auto; congruence). unfold G. rewrite CB. f_equal. apply dot_terms_ext.
      intros j Hj. apply AT; auto.
    + intros i c Hi Hc. rewrite nth_grid by auto. apply fold_is_sum. auto.
  - destruct (C30_spmm_csr F A b k L OK AD DO) as (y & E & LY & NY); [lia|]. exists y. split; auto. split; auto. intros i c Hi Hc. apply NY; auto.
Qed.
Print Assumptions C30_spmm_auto.

(** In exact arithmetic all four compute the matrix product. *)
Theorem C30_spmm_exact : forall k (b : list qc),
  (forall A : Csr qc, cs_ok A -> alloc_ok (length (dat A)) -> dense_ok (csr_nrows A) (csr_ncols A) k b -> (0 < k)%nat ->
     exists y, spmm_csr A b k = Ok y /\ length y = (csr_nrows A * k)%nat /\
       forall i c, (i < csr_nrows A)%nat -> (c < k)%nat -> nth (i * k + c) y f0 = dot_exact (csr_at A) (csr_ncols A) (column b (csr_ncols A) k c) i) /\
  (forall A : Csc qc, cs_ok A -> alloc_ok (length (dat A)) -> dense_ok (csc_nrows A) (csc_ncols A) k b -> forall il, is_interleaving il ->
     exists y, spmm_csc il A b k = Ok y /\ length y = (csc_nrows A * k)%nat /\
       forall i c, (i < csc_nrows A)%nat -> (c < k)%nat -> nth (i * k + c) y f0 = dot_exact (csc_at A) (csc_ncols A) (column b (csc_ncols A) k c) i) /\
  (forall A : Coo qc, coo_ok A -> dense_ok (coo_nrows A) (coo_ncols A) k b -> forall il, is_interleaving il ->
     exists y, spmm_coo il A b k = Ok y /\ length y = (coo_nrows A * k)%nat /\
       forall i c, (i < coo_nrows A)%nat -> (c < k)%nat -> nth (i * k + c) y f0 = dot_exact (coo_at A) (coo_ncols A) (column b (coo_ncols A) k c) i) /\
  (forall A : Csr qc, cs_ok A -> alloc_ok (length (dat A)) -> dense_ok (csr_nrows A) (csr_ncols A) k b -> forall il1 sch il2, is_interleaving il1 -> is_schedule sch -> is_interleaving il2 ->
     exists y, spmm_auto il1 sch il2 A b k = Ok y /\ length y = (csr_nrows A * k)%nat /\
       forall i c, (i < csr_nrows A)%nat -> (c < k)%nat -> nth (i * k + c) y f0 = dot_exact (csr_at A) (csr_ncols A) (column b (csr_ncols A) k c) i).
Proof.
  intros k b. split; [|split; [|split]].
  - intros A OK AD DO Hk. destruct (C30_spmm_csr qc A b k qc_laws OK AD DO Hk) as (y & E & LY & NY).
    exists y. split; auto. split; auto. intros. apply exact_of. apply NY; auto.
  - intros A OK AD DO il HI. destruct (C30_spmm_csc qc A b k qc_laws OK AD DO) as (y & E & LY & NY).
    exists y. split; auto. split; auto. intros. apply exact_of. apply NY; auto.
  - intros A OK DO il HI. destruct (C30_spmm_coo qc A b k qc_laws OK DO) as (y & E & LY & NY).
    exists y. split; auto. split; auto. intros. apply exact_of. apply NY; auto.
  - intros A OK AD DO il1 sch il2 H1 HS H2. destruct (C30_spmm_auto qc A b k qc_laws OK AD DO) as (y & E & LY & NY).
    exists y. split; auto. split; auto. intros. apply exact_of. apply NY; auto.
Qed.
Print Assumptions C30_spmm_exact.

Theorem C30_spmm_size_mismatch_panics : forall (F : Fl) (b : list F) k,
  (forall A : Csr F, alloc_ok (csr_ncols A * k) -> length b <> (csr_ncols A * k)%nat -> spmm_csr A b k = Panic /\ forall i1 s i2, spmm_auto i1 s i2 A b k = Panic) /\
  (forall il (A : Csc F), alloc_ok (csc_ncols A * k) -> length b <> (csc_ncols A * k)%nat -> spmm_csc il A b k = Panic) /\
  (forall il (A : Coo F), alloc_ok (coo_ncols A * k) -> length b <> (coo_ncols A * k)%nat -> spmm_coo il A b k = Panic).
Proof.
  intros F b k.
  assert (B : forall n, alloc_ok (n * k) -> length b <> (n * k)%nat -> b_ok b n k = false).
  { intros n A N. unfold b_ok, wrap_mul. apply Z.eqb_neq. unfold alloc_ok, i64_max in A. rewrite Nat2Z.inj_mul in A. rewrite Z.mod_small by nia. nia. }
  split; [|split].
  - intros A HA N. unfold spmm_csr, spmm_auto. rewrite B by auto. auto.
  - intros il A HA N. unfold spmm_csc. rewrite B by auto. auto.
  - intros il A HA N. unfold spmm_coo. rewrite B by auto. auto.
Qed.
Print Assumptions C30_spmm_size_mismatch_panics.

(** Finding: as for N-D arrays, the size check wraps around, and a matrix with 2^63
    columns then makes the kernel read outside of an empty dense operand. *)
Theorem C30_spmm_wrapping_size_check_refuted :
  exists A : Csr (f64 pw0), cs_ok A /\ csr_ncols A = Z.to_nat (2 ^ 63) /\ spmm_csr A [] 2 = UB.
Proof.
  exists (mkCs 1 (Z.to_nat (2 ^ 63)) [0; 1] [5] [fz 1]). split; [|split; [reflexivity|]].
  - assert (EN : Z.of_nat (Z.to_nat (2 ^ 63)) = 2 ^ 63) by (apply Z2Nat.id; lia). revert EN. generalize (Z.to_nat (2 ^ 63)) as n. intros n EN.
    constructor; cbn [major minor ptr idx dat]; auto.
    + intros [|[|[|i]]] a b H1 H2; cbn in H1, H2; try discriminate. inversion H1; inversion H2; lia.
    + intros [|[|p]] j H1; cbn in H1; try discriminate. inversion H1. rewrite EN. unfold i64_max. lia.
  - assert (EN : Z.of_nat (Z.to_nat (2 ^ 63)) = 2 ^ 63) by (apply Z2Nat.id; lia). revert EN. generalize (Z.to_nat (2 ^ 63)) as n. intros n EN.
    unfold spmm_csr, b_ok, wrap_mul, csr_ncols. cbn [minor]. rewrite EN. vm_compute. reflexivity.
Qed.
Print Assumptions C30_spmm_wrapping_size_check_refuted.

Definition Lb : list qc := map (@fofZ qc) [1; 2; 3; 4; 5; 6; 7; 8].
Example C30_nonvacuous : dense_ok 3 4 2 Lb /\
  spmm_csr LA Lb 2 = Ok (map (@fofZ qc) [36; 44; 0; 0; 40; 48]) /\
  spmm_auto backward (@rev _) backward LA Lb 2 = spmm_csr LA Lb 2 /\
  spmm_csc backward (mkCs 4 3 [0; 1; 3; 4; 4] [1; 0; 2; 2] (map (@fofZ qc) [1; 2; 3; 4])) Lb 2 = Ok (map (@fofZ qc) [6; 8; 1; 2; 29; 36]) /\
  spmm_coo backward LC Lb 2 = Ok (map (@fofZ qc) [13; 18; 0; 0; 12; 16]).
Proof. split; [repeat split; vm_compute; reflexivity|]. repeat split; vm_compute; reflexivity. Qed.

(** ** C31: tensordot *)
Theorem C31_tensordot : forall (F : Fl) b n rest, shape_fits (n :: rest) -> Z.of_nat (length b) = cells (n :: rest) ->
  (forall A : Csr F, n = Z.of_nat (csr_ncols A) -> tensordot_csr A b (n :: rest) = spmm_csr A b (Z.to_nat (cells rest))) /\
  (forall il (A : Csc F), n = Z.of_nat (csc_ncols A) -> tensordot_csc il A b (n :: rest) = spmm_csc il A b (Z.to_nat (cells rest))) /\
  (forall il (A : Coo F), n = Z.of_nat (coo_ncols A) -> tensordot_coo il A b (n :: rest) = spmm_coo il A b (Z.to_nat (cells rest))).
Proof.
  intros F b n rest SF LB.
  assert (K : forall ncols mm, n = Z.of_nat ncols -> tensordot_with (F := F) ncols mm b (n :: rest) = mm b (Z.to_nat (cells rest))).
  { intros ncols mm ->. unfold tensordot_with. rewrite product_checked_ok by auto. cbn [bind]. rewrite LB, !Z.eqb_refl.
    rewrite product_checked_ok by (eapply shape_fits_cons; eauto). reflexivity. }
  split; [|split]; intros; apply K; auto.
Qed.
Print Assumptions C31_tensordot.

Theorem C31_tensordot_mismatch_panics : forall (F : Fl) b b_shape, Forall (fun n => 0 <= n) b_shape ->
  (forall A : Csr F, b_shape = [] \/ Z.of_nat (length b) <> cells b_shape \/ hd 0 b_shape <> Z.of_nat (csr_ncols A) -> tensordot_csr A b b_shape = Panic) /\
  (forall il (A : Csc F), b_shape = [] \/ Z.of_nat (length b) <> cells b_shape \/ hd 0 b_shape <> Z.of_nat (csc_ncols A) -> tensordot_csc il A b b_shape = Panic) /\
  (forall il (A : Coo F), b_shape = [] \/ Z.of_nat (length b) <> cells b_shape \/ hd 0 b_shape <> Z.of_nat (coo_ncols A) -> tensordot_coo il A b b_shape = Panic).
Proof.
  intros F b b_shape NN.
  assert (K : forall ncols mm, b_shape = [] \/ Z.of_nat (length b) <> cells b_shape \/ hd 0 b_shape <> Z.of_nat ncols -> tensordot_with (F := F) ncols mm b b_shape = Panic).
  { intros ncols mm H. unfold tensordot_with. destruct b_shape as [|n rest]; auto.
    destruct (C20_product_exact_or_panic (n :: rest) NN) as [[E _]|E]; rewrite E; cbn [bind]; auto.
    destruct (Z.eqb_spec (Z.of_nat (length b)) (cells (n :: rest))) as [EB|NB]; auto.
    destruct (Z.eqb_spec n (Z.of_nat ncols)) as [EN|NN']; auto.
    exfalso. cbn [hd] in H. destruct H as [H|[H|H]]; try contradiction; discriminate. }
  split; [|split]; intros; apply K; auto.
Qed.
Print Assumptions C31_tensordot_mismatch_panics.

Theorem C31_zero_columns : forall (F : Fl) il,
  (forall A : Csc F, spmm_csc il A [] 0 = Ok []) /\ (forall A : Coo F, spmm_coo il A [] 0 = Ok []) /\
  (forall i1 s (A : Csr F), spmm_auto i1 s il A [] 0 = Ok []).
Proof.
  intros F il.
  assert (B : forall n, b_ok (F := F) [] n 0 = true). { intros. unfold b_ok, wrap_mul. cbn [Z.of_nat length]. rewrite Z.mul_0_r. reflexivity. }
  assert (Y : forall n, y_len n 0 = 0%nat). { intros. unfold y_len, wrap_mul. cbn [Z.of_nat]. rewrite Z.mul_0_r. reflexivity. }
  split; [|split].
  - intros A. unfold spmm_csc. rewrite B, Y, !orb_true_r. auto.
  - intros A. unfold spmm_coo. rewrite B, Y, orb_true_r. auto.
  - intros i1 s A. unfold spmm_auto. rewrite B, Y, orb_true_r. auto.
Qed.
Print Assumptions C31_zero_columns.

(** Finding: the CSR kernel, and with it tensordot of a CSR matrix, panics instead. *)
Theorem C31_csr_zero_columns_refuted : forall (F : Fl) (A : Csr F), spmm_csr A [] 0 = Panic /\
  (Z.of_nat (csr_ncols A) <= usize_max -> tensordot_csr A [] [Z.of_nat (csr_ncols A); 0] = Panic).
Proof.
  intros F A. assert (P : spmm_csr A [] 0 = Panic).
  { unfold spmm_csr, par_chunks. rewrite Nat.eqb_refl. destruct (b_ok [] (csr_ncols A) 0); auto. }
  split; auto. intros U. unfold tensordot_csr, tensordot_with. cbn [product_checked foldM]. unfold checked_mul.
  unfold product_checked. cbn [foldM]. unfold checked_mul. rewrite Z.mul_1_l.
  destruct (Z.leb_spec (Z.of_nat (csr_ncols A)) usize_max); [|lia]. cbn [bind]. rewrite Z.mul_0_r. cbn [bind].
  change (0 <=? usize_max) with true. cbn [bind length]. change (Z.of_nat 0 =? 0) with true. cbn [bind]. rewrite Z.eqb_refl. cbn [bind]. exact P.
Qed.
Print Assumptions C31_csr_zero_columns_refuted.

Example C31_nonvacuous : shape_fits [4; 1; 2] /\ Z.of_nat (length Lb) = cells [4; 1; 2] /\
  tensordot_csr LA Lb [4; 1; 2] = Ok (map (@fofZ qc) [36; 44; 0; 0; 40; 48]).
Proof. split; [split; [repeat (constructor; [lia|]); constructor|vm_compute; discriminate]|]. split; vm_compute; reflexivity. Qed.

(** ** C32: vecdot *)
Theorem C32_vecdot_axis1_is_spmv : forall (F : Fl) nthreads dist sch x,
  (forall A : Csr F, vecdot_csr_axis1 sch A x = spmv_csr sch A x) /\
  (forall A : Csc F, vecdot_csc_axis1 nthreads dist A x = spmv_csc nthreads dist A x) /\
  (forall A : Coo F, vecdot_coo_axis1 nthreads dist A x = spmv_coo nthreads dist A x).
Proof.
  intros. split; [|split]; intros A; unfold vecdot_csr_axis1, vecdot_csc_axis1, vecdot_coo_axis1, spmv_csr, spmv_csc, spmv_coo; destruct (_ =? _)%nat; auto.
Qed.
Print Assumptions C32_vecdot_axis1_is_spmv.

Theorem C32_vecdot_csr_axis0 : forall (F : Fl) dist (A : Csr F) x, NLaws F -> is_distribution dist -> cs_ok A ->
  alloc_ok (length (dat A)) -> alloc_ok (csr_ncols A) -> length x = csr_nrows A ->
  exists y, vecdot_csr_axis0 dist A x = Ok y /\ length y = csr_ncols A /\
    forall j, (j < csr_ncols A)%nat -> FSum (dot_terms_nz (transposed (csr_at A)) (csr_nrows A) x j) (nth j y f0).
Proof. intros F dist A x L. intros. apply (vecdot_csr_axis0_ok (n_zero F L)); auto. Qed.
Print Assumptions C32_vecdot_csr_axis0.

Theorem C32_vecdot_csc_axis0 : forall (F : Fl) (A : Csc F) x, NLaws F -> cs_ok A ->
  alloc_ok (length (dat A)) -> alloc_ok (csc_nrows A) -> length x = csc_nrows A ->
  exists y, vecdot_csc_axis0 A x = Ok y /\ length y = csc_ncols A /\
    forall j, (j < csc_ncols A)%nat -> nth j y f0 = fma_sum x (cs_row A j).
Proof.
  intros F A x L OK AD AR LX. eexists. split; [apply (vecdot_csc_axis0_ok (n_zero F L)); auto|]. split; [rewrite map_length, seq_length; auto|].
  intros i Hi. rewrite (nth_indep _ f0 (fma_sum x (cs_row A 0))) by (rewrite map_length, seq_length; auto).
  rewrite (map_nth (fun i => fma_sum x (cs_row A i))), seq_nth by auto. auto.
Qed.
Print Assumptions C32_vecdot_csc_axis0.

Theorem C32_vecdot_coo_axis0 : forall (F : Fl) nthreads dist (A : Coo F) x, NLaws F -> is_distribution dist -> coo_ok A ->
  alloc_ok (coo_ncols A) -> length x = coo_nrows A ->
  exists y, vecdot_coo_axis0 nthreads dist A x = Ok y /\ length y = coo_ncols A /\
    forall j, (j < coo_ncols A)%nat -> FSum (dot_terms_nz (transposed (coo_at A)) (coo_nrows A) x j) (nth j y f0).
Proof. intros F nthreads dist A x L. intros. apply (vecdot_coo_axis0_ok (n_zero F L)); auto. Qed.
Print Assumptions C32_vecdot_coo_axis0.

Theorem C32_vecdot_axis0_exact : forall nthreads dist x, is_distribution dist ->
  (forall A : Csr qc, cs_ok A -> alloc_ok (length (dat A)) -> alloc_ok (csr_ncols A) -> length x = csr_nrows A ->
     exists y, vecdot_csr_axis0 dist A x = Ok y /\ length y = csr_ncols A /\
       forall j, (j < csr_ncols A)%nat -> nth j y f0 = dot_exact (transposed (csr_at A)) (csr_nrows A) x j) /\
  (forall A : Csc qc, cs_ok A -> alloc_ok (length (dat A)) -> alloc_ok (csc_nrows A) -> length x = csc_nrows A ->
     exists y, vecdot_csc_axis0 A x = Ok y /\ length y = csc_ncols A /\
       forall j, (j < csc_ncols A)%nat -> nth j y f0 = dot_exact (transposed (csc_at A)) (csc_nrows A) x j) /\
  (forall A : Coo qc, coo_ok A -> alloc_ok (coo_ncols A) -> length x = coo_nrows A ->
     exists y, vecdot_coo_axis0 nthreads dist A x = Ok y /\ length y = coo_ncols A /\
       forall j, (j < coo_ncols A)%nat -> nth j y f0 = dot_exact (transposed (coo_at A)) (coo_nrows A) x j).
Proof.
  intros nthreads dist x HD.
  assert (NZ : forall cell n i v, FSum (dot_terms_nz cell n x i) v -> v = dot_exact cell n x i).
  { intros cell n i v H. rewrite <- (dot_terms_nz_exact qc_elaws). apply FSum_exact; [exact qc_elaws|exact H]. }
  split; [|split].
  - intros A OK AD AC LX. destruct (C32_vecdot_csr_axis0 qc dist A x qc_laws HD OK AD AC LX) as (y & E & LY & NY). exists y. split; auto.
  - intros A OK AD AC LX. destruct (C32_vecdot_csc_axis0 qc A x qc_laws OK AD AC LX) as (y & E & LY & NY). exists y. split; auto. split; auto.
    intros j Hj. rewrite NY by auto. apply (fma_sum_dot qc_elaws).
    pose proof (row_bounds A j OK Hj) as B. unfold in_bounds in B. (eapply Forall_impl; [|exact B]). intros e He. cbv beta in He |- *. unfold csc_nrows. tauto.
  - intros A OK AC LX. destruct (C32_vecdot_coo_axis0 qc nthreads dist A x qc_laws HD OK AC LX) as (y & E & LY & NY). exists y. split; auto.
Qed.
Print Assumptions C32_vecdot_axis0_exact.

Theorem C32_vecdot_length_mismatch_panics : forall (F : Fl) nthreads dist (x : list F),
  (forall A : Csr F, length x <> csr_nrows A -> vecdot_csr_axis0 dist A x = Panic) /\
  (forall A : Csc F, length x <> csc_nrows A -> vecdot_csc_axis0 A x = Panic) /\
  (forall A : Coo F, length x <> coo_nrows A -> vecdot_coo_axis0 nthreads dist A x = Panic).
Proof.
  intros. split; [|split]; intros A N; unfold vecdot_csr_axis0, vecdot_csc_axis0, vecdot_coo_axis0; rewrite (proj2 (Nat.eqb_neq _ _) N); auto.
Qed.
Print Assumptions C32_vecdot_length_mismatch_panics.

Example C32_nonvacuous :
  vecdot_csr_axis0 two_threads LA Lx3 = Ok (map (@fofZ qc) [1; 12; 7; 12]) /\
  vecdot_csc_axis0 LA Lx4 = Ok (map (@fofZ qc) [22; 0; 24]) /\
  vecdot_coo_axis0 4 two_threads LC Lx3 = Ok (map (@fofZ qc) [3; 12; 2; 0]).
Proof. repeat split; vm_compute; reflexivity. Qed.

(** ** C42: work partitioning *)
Definition positions (rs : list (nat * nat)) : list nat := concat (map (fun r => seq (fst r) (snd r - fst r)) rs).

Lemma laid_out_sorted : forall rs lo hi, laid_out lo hi rs ->
  StronglySorted lt (positions rs) /\ Forall (fun k => lo <= k < hi)%nat (positions rs) /\ Forall (fun r => lo <= fst r < snd r /\ snd r <= hi)%nat rs /\ (lo <= hi)%nat.
Proof.
  induction rs as [|[s e] rs IH]; intros lo hi L; cbn [laid_out fst snd] in L.
  - repeat split; auto; constructor.
  - destruct L as [B L]. destruct (IH _ _ L) as (S1 & F1 & R1 & LE). unfold positions in *. cbn [map concat fst snd].
    assert (G : forall n a (l : list nat), StronglySorted lt l -> Forall (fun k => a + n <= k)%nat l -> StronglySorted lt (seq a n ++ l)).
    { induction n; intros a l Sl Fl; auto. cbn [seq app]. constructor.
      - apply IHn; auto. eapply Forall_impl; [|exact Fl]. intros; cbv beta in *; lia.
      - apply Forall_app. split; [apply Forall_forall; intros k I; apply in_seq in I; lia|]. eapply Forall_impl; [|exact Fl]. intros; cbv beta in *; lia. }
    split; [|split; [|split]].
    + apply G; auto. eapply Forall_impl; [|exact F1]. intros; cbv beta in *; lia.
    + apply Forall_app. split; [apply Forall_forall; intros k I; apply in_seq in I; lia|]. eapply Forall_impl; [|exact F1]. intros; cbv beta in *; lia.
    + constructor; [cbn [fst snd]; lia|]. eapply Forall_impl; [|exact R1]. intros; cbv beta in *; lia.
    + lia.
Qed.

(** The positions of all ranges, range by range, form a strictly increasing list inside
    [0, n) (so no position occurs twice) that contains every non-empty row. *)
Theorem C42_work_ranges : forall V (A : Cs V), cs_ok A -> alloc_ok (length (dat A)) ->
  exists rs, work_ranges A = Ok rs /\ Forall (fun r => fst r < snd r)%nat rs /\
    StronglySorted lt (positions rs) /\ Forall (fun k => k < major A)%nat (positions rs) /\
    forall k, (k < major A)%nat -> cs_row A k <> [] -> In k (positions rs).
Proof.
  intros V A OK AD. destruct (work_ranges_ok A OK AD) as (rs & E & LO & CV). destruct (laid_out_sorted _ _ _ LO) as (S1 & F1 & R1 & _).
  exists rs. split; auto. split; [eapply Forall_impl; [|exact R1]; intros; cbv beta in *; lia|]. split; auto.
  split; [eapply Forall_impl; [|exact F1]; intros; cbv beta in *; lia|]. intros k Hk N. destruct (CV k Hk) as [I|I]; [exact I|contradiction].
Qed.
Print Assumptions C42_work_ranges.

Theorem C42_chunks_cover : forall nthreads n, positions (chunk_ranges (chunk_len nthreads n) n) = seq 0 n.
Proof. intros. apply (flat_chunks (chunk_len nthreads n) n). apply (chunk_len_pos (F := qc) eq_refl). Qed.
Print Assumptions C42_chunks_cover.

Example C42_nonvacuous : cs_ok WA /\ work_ranges WA = Ok [(0, 3)%nat] /\ cs_row WA 1 = [] /\
  chunk_ranges (chunk_len 2 9) 9 <> [] /\ positions (chunk_ranges 4 9) = seq 0 9.
Proof. split; [apply WA_canonical|]. split; [vm_compute; reflexivity|]. split; [reflexivity|]. split; [vm_compute; discriminate|reflexivity]. Qed.

(** ** C43: thread-local accumulation *)
(** [run dist tasks y]: [tasks] lists the additions (slot, value) of each task. *)
Definition accumulates_all {F : Fl} (n : nat) (run : (list (list (Z * F)) -> list (list (list (Z * F)))) -> list (list (Z * F)) -> list F -> res (list F)) : Prop :=
  forall dist tasks, is_distribution dist -> Forall (fun op => 0 <= fst op < Z.of_nat n) (concat tasks) ->
  exists y, run dist tasks (repeat f0 n) = Ok y /\ length y = n /\
    forall i, (i < n)%nat -> FSum (at_index (Z.of_nat i) (concat tasks)) (nth i y f0).

Theorem C43_accumulators : forall (F : Fl) n, NLaws F -> alloc_ok n ->
  accumulates_all n (@tls_hash F) /\ accumulates_all n (@tls_dense F n) /\ accumulates_all n (@tls_vec F n) /\
  forall stripe, (0 < stripe)%nat -> accumulates_all n (@tls_stripes F stripe n) /\
    forall il, is_interleaving il -> accumulates_all n (@tls_stripes_par F stripe n il).
Proof.
  intros F n L AL. pose proof (n_zero F L) as Z0.
  split; [exact (tls_hash_ok Z0 n AL)|]. split; [exact (tls_dense_ok Z0 n)|]. split; [exact (tls_vec_ok Z0 n)|].
  intros stripe HS. split; [exact (tls_stripes_ok Z0 stripe n HS)|]. intros il HI. exact (tls_stripes_par_ok Z0 stripe n HS il HI).
Qed.
Print Assumptions C43_accumulators.

(** In exact arithmetic every accumulator returns, under every schedule, the same array. *)
Definition exact_all (n : nat) (run : (list (list (Z * qc)) -> list (list (list (Z * qc)))) -> list (list (Z * qc)) -> list qc -> res (list qc)) : Prop :=
  forall dist tasks, is_distribution dist -> Forall (fun op => 0 <= fst op < Z.of_nat n) (concat tasks) ->
  run dist tasks (repeat f0 n) = Ok (map (fun i => fold_right fadd f0 (at_index (Z.of_nat i) (concat tasks))) (seq 0 n)).
Theorem C43_accumulators_exact : forall n, alloc_ok n ->
  exact_all n tls_hash /\ exact_all n (tls_dense n) /\ exact_all n (tls_vec n) /\
  forall stripe, (0 < stripe)%nat -> exact_all n (tls_stripes stripe n) /\
    forall il, is_interleaving il -> exact_all n (tls_stripes_par stripe n il).
Proof.
  intros n AL.
  assert (K : forall run, accumulates_all (F := qc) n run -> exact_all n run).
  { intros run H dist tasks HD SB. destruct (H dist tasks HD SB) as (y & E & LY & FS). rewrite E. f_equal.
    apply (same_values _ _ _ n); auto; [rewrite map_length, seq_length; auto|]. intros i Hi.
    rewrite (FSum_exact qc_elaws _ _ (FS i Hi)). symmetry. set (G := fun i => fold_right fadd f0 (at_index (Z.of_nat i) (concat tasks))).
    change (nth i (map G (seq 0 n)) f0 = G i). rewrite (nth_indep _ f0 (G 0%nat)) by (rewrite map_length, seq_length; auto). rewrite map_nth, seq_nth by auto. auto. }
  destruct (C43_accumulators qc n qc_laws AL) as (H1 & H2 & H3 & H4).
  split; [auto|]. split; [auto|]. split; [auto|]. intros stripe HS. destruct (H4 stripe HS) as [H5 H6]. split; auto.
Qed.
Print Assumptions C43_accumulators_exact.

Example C43_nonvacuous : let tasks := [[(0, @fofZ qc 1); (4, @fofZ qc 2)]; []; [(4, @fofZ qc 5); (2, @fofZ qc 7)]] in
  Forall (fun op : Z * qc => 0 <= fst op < Z.of_nat 5) (concat tasks) /\
  tls_stripes 2 5 two_threads tasks (repeat f0 5) = Ok (map (@fofZ qc) [1; 0; 7; 0; 7]).
Proof. split; [repeat constructor; cbn; lia|vm_compute; reflexivity]. Qed.
