(** Memory safety of the reductions, cumulative kernels and differences for every
    structurally valid operand. *)
Require Import List ZArith Bool Arith Lia Permutation Sorted.
Require Import ZifyBool ZifyNat.
Require Import Verif.Res Verif.Values Verif.Spec Verif.Mem Verif.Lists Verif.CsLib Verif.Loops Verif.MElementwise Verif.MConvert Verif.PConvert Verif.PConvert2 Verif.PConvert3 Verif.PTrans Verif.MScalar Verif.PScalar Verif.MAcc Verif.PAcc Verif.MLinalg Verif.MReduce Verif.PReduce Verif.MStat Verif.MCum Verif.PCum Verif.PDiff Verif.PSafe Verif.PLinalg Verif.PLinalg3 Verif.PropConvert.
Import ListNotations.
Local Open Scope Z_scope.

(** Code whose accesses are all checked. *)
Notation fine r := (safe (fun _ => True) r).

Lemma fine_mapM : forall {A B} (f : A -> res B) l, (forall a, In a l -> fine (f a)) -> fine (mapM f l).
Proof. intros. eapply safe_any, safe_mapM_len. auto. Qed.
Lemma fine_foldM : forall {A X} (f : X -> A -> res X) l s, (forall s a, In a l -> fine (f s a)) -> fine (foldM f l s).
Proof. intros. apply (safe_foldM (fun _ => True)); auto. Qed.
Lemma fine_get : forall {A} (l : list A) n, fine (get_checked l n).
Proof. intros. eapply safe_any, safe_get_checked. Qed.
Lemma fine_bind : forall {A B} (r : res A) (f : A -> res B), fine r -> (forall a, fine (f a)) -> fine (bind r f).
Proof. intros. eapply safe_bind; eauto. Qed.
Lemma fine_ok : forall {A} (a : A), fine (Ok a).
Proof. intros. exact I. Qed.

Ltac fines := repeat match goal with
  | |- fine (bind _ _) => apply fine_bind; [|intros ?]
  | |- fine (Ok _) => exact I
  | |- fine Panic => exact I
  | |- fine (get_checked _ _) => apply fine_get
  | |- fine (mapM _ _) => apply fine_mapM; intros ? _
  | |- fine (foldM _ _ _) => apply fine_foldM; intros ? ? _
  | |- fine (if ?b then _ else _) => destruct b
  | |- fine (match ?x with _ => _ end) => destruct x
  | |- fine (let '(_, _) := ?x in _) => destruct x
  | _ => progress cbv zeta
  end.

Section Stat.
Context {F : Fl}.

Lemma fine_lane : forall {X A} (init : A) (lop : A -> X -> A) mrg top chunk, fine (lane_reduce init lop mrg top chunk).
Proof.
  intros. eapply safe_ex. destruct (lane_reduce_ok (fun (_ : list X) (_ : A) => True)) with (init := init) (lop := lop) (mrg := mrg) (top := top) (chunk := chunk) as (v & E & _); auto.
  eauto.
Qed.
Lemma fine_par_reduce : forall {X A} (chunkf : list X -> res A) leaf node t data, (forall c, fine (chunkf c)) -> fine (par_reduce chunkf leaf node t data).
Proof.
  intros X A chunkf leaf node t data H. unfold par_reduce.
  destruct (par_chunks_ok chunk_size data chunk_size_pos) as (ps & -> & _). cbn [bind]. fines. auto.
Qed.
Lemma fine_slice_nnz : forall (A : Cs F) i, fine (slice_nnz A i).
Proof. intros. unfold slice_nnz. fines. Qed.
Lemma fine_data_slice : forall (A : Cs F) i, fine (data_slice A i).
Proof. intros. unfold data_slice. fines. Qed.
Lemma fine_count_index : forall n l, fine (count_index n l).
Proof. intros. unfold count_index. fines. Qed.
Lemma fine_chunk_tasks : forall nt key (data : list F), fine (chunk_tasks nt key data).
Proof. intros. unfold chunk_tasks, range_ops, entry_op. fines. Qed.
Lemma fine_tls_first : forall {S X A} d first step (put : S -> nat * A -> res S) stripe n dist (tasks : list (list (Z * X))) (s : S),
  (forall s e, fine (put s e)) -> fine (tls_first d first step put stripe n dist tasks s).
Proof.
  intros. unfold tls_first, gst_run, gst_merge, gst_add, gs_add. fines. auto.
Qed.

Lemma fine_best_all : forall worst vop sop better t nr nc (data : list F), fine (best_all worst vop sop better t nr nc data).
Proof. intros. unfold best_all. fines. apply fine_par_reduce. intros c. unfold chunk_best. destruct c; fines. apply fine_lane. Qed.
Lemma fine_major_bests : forall worst vop sop better (A : Cs F), fine (major_bests worst vop sop better A).
Proof.
  intros. unfold major_bests, slice_best. fines; [apply fine_slice_nnz|apply fine_data_slice|].
  unfold chunk_best. fines. apply fine_lane.
Qed.
Lemma fine_coo_bests : forall sop better nt dist n width key (data : list F), fine (coo_bests sop better nt dist n width key data).
Proof.
  intros. unfold coo_bests. fines; [apply fine_count_index|apply fine_chunk_tasks|].
  apply fine_tls_first. intros [] ?. unfold put_seen. fines.
Qed.
Lemma fine_prod_all : forall t full (data : list F), fine (prod_all t full data).
Proof. intros. unfold prod_all. fines. apply fine_par_reduce. intros c. unfold chunk_prod. fines. apply fine_lane. Qed.
Lemma fine_major_prods : forall (A : Cs F), fine (major_prods A).
Proof. intros. unfold major_prods, slice_prod, chunk_prod. fines; [apply fine_slice_nnz|apply fine_data_slice|apply fine_lane]. Qed.
Lemma fine_coo_prods : forall nt dist n width key (data : list F), fine (coo_prods nt dist n width key data).
Proof.
  intros. unfold coo_prods. fines; [apply fine_count_index|apply fine_chunk_tasks|].
  apply fine_tls_first. intros [] ?. unfold put_seen. fines.
Qed.
Lemma fine_var_all : forall t n (data : list F) c, fine (var_all t n data c).
Proof. intros. unfold var_all. fines. apply fine_par_reduce. intros ch. unfold chunk_sum_sum2. fines. apply fine_lane. Qed.
Lemma fine_major_vars : forall c (A : Cs F), fine (major_vars c A).
Proof. intros. unfold major_vars, slice_var, chunk_sum_sum2. fines; [apply fine_data_slice|apply fine_lane]. Qed.
Lemma fine_coo_vars : forall nt dist n width key (data : list F) c, fine (coo_vars nt dist n width key data c).
Proof.
  intros. unfold coo_vars. fines; [apply fine_chunk_tasks|]. apply fine_tls_first. intros. unfold put_add. fines.
Qed.
Lemma fine_major_alls : forall (A : Cs F), fine (major_alls A).
Proof. intros. unfold major_alls, slice_all. fines; [apply fine_slice_nnz|apply fine_data_slice]. Qed.
Lemma fine_major_anys : forall (A : Cs F), fine (major_anys A).
Proof. intros. unfold major_anys, slice_any. fines. apply fine_data_slice. Qed.

(** through a transpose or a conversion *)
Lemma fine_after_transpose : forall {B} threads il sch srt (f : Cs F -> res B) (A : Cs F),
  is_interleaving il -> is_schedule sch -> is_sorter key_le srt -> cs_ok A -> alloc_ok (major A) ->
  (forall T, fine (f T)) -> fine (after_transpose threads il sch srt f A).
Proof. intros. unfold after_transpose. eapply safe_bind; [eapply transpose_safe; eauto|auto]. Qed.

Lemma csc_to_csr_safe : forall il sch (A : Csc F), is_interleaving il -> is_schedule sch -> cs_ok A -> alloc_ok (csc_ncols A) ->
  safe (fun B : Csr F => cs_ok B /\ csr_nrows B = csc_nrows A /\ csr_ncols B = csc_ncols A) (csc_to_csr il sch A).
Proof.
  intros il sch A H1 H2 OK AL. destruct (C04_csc_to_csr_preserves_cells F il sch A H1 H2 OK AL) as (B & -> & OB & M1 & M2 & _). simpl. auto.
Qed.
Lemma csr_to_csc_safe : forall il sch (A : Csr F), is_interleaving il -> is_schedule sch -> cs_ok A -> alloc_ok (csr_nrows A) ->
  safe (fun B : Csc F => cs_ok B /\ csc_nrows B = csr_nrows A /\ csc_ncols B = csr_ncols A) (csr_to_csc il sch A).
Proof.
  intros il sch A H1 H2 OK AL. destruct (C04_csr_to_csc_preserves_cells F il sch A H1 H2 OK AL) as (B & -> & OB & M1 & M2 & _). simpl. auto.
Qed.
Lemma coo_to_csr_safe : forall srt (A : Coo F), is_sorter key2_le srt -> coo_ok A ->
  safe (fun B : Csr F => cs_ok B /\ csr_nrows B = coo_nrows A /\ csr_ncols B = coo_ncols A) (coo_to_csr srt A).
Proof.
  intros. destruct (coo_to_csr_ok srt A) as (B & -> & C & M1 & M2 & _); auto. simpl. split; auto. apply C.
Qed.
(** ** Cumulative kernels *)
Hypothesis Z0 : feqb (f0 : F) f0 = true.

Lemma set_safe : forall (s : list F) n v, (n < length s)%nat -> safe (fun s' => length s' = length s) (set_unchecked s n v).
Proof. intros. rewrite set_unchecked_ok by auto. simpl. apply upd_length. Qed.
Lemma fill_safe : forall (s : list F) a b v, safe (fun s' => length s' = length s) (fill_slice s a b v).
Proof.
  intros. unfold fill_slice. destruct (_ && _) eqn:E; [|exact I]. simpl. apply fill_range_length.
Qed.

Lemma get_row_safe : forall (A : Csr F) i, cs_ok A -> (i < csr_nrows A)%nat -> safe (in_bounds (csr_ncols A)) (get_row A i).
Proof. intros. rewrite get_row_ok by auto. simpl. apply row_bounds; auto. Qed.

Lemma cumsum_row_safe : forall (A : Csr F) i (out : list F), cs_ok A -> (i < csr_nrows A)%nat -> length out = csr_ncols A ->
  safe (fun y => length y = csr_ncols A) (cumsum_row A i out).
Proof.
  intros A i out OK Hi L. unfold cumsum_row. eapply safe_bind; [apply get_row_safe; auto|]. intros r B.
  eapply safe_bind with (P := fun st => length (fst (fst st)) = csr_ncols A).
  - apply (safe_foldM (fun st => length (fst (fst st)) = csr_ncols A)); [exact L|].
    intros [[o prev] acc] e Ie HL. cbn [fst] in HL. unfold in_bounds in B. rewrite Forall_forall in B. specialize (B _ Ie).
    unfold cumsum_step. rewrite (to_usize_col Z0 (csr_ncols A) e) by auto.
    eapply safe_bind with (P := fun o => length o = csr_ncols A).
    { destruct (_ <? _)%nat; [|exact HL]. eapply safe_imp; [apply fill_safe|]. intros; congruence. }
    intros o' HL'. eapply safe_bind with (P := fun o => length o = csr_ncols A).
    { eapply safe_imp; [apply set_safe; lia|]. intros; congruence. }
    intros o'' HL''. exact HL''.
  - intros [[o prev] acc] HL. cbn [fst] in HL. destruct (_ <? _)%nat; [|exact HL]. eapply safe_imp; [apply fill_safe|]. intros; congruence.
Qed.

Lemma cumprod_row_safe : forall (A : Csr F) i (out : list F), cs_ok A -> (i < csr_nrows A)%nat -> length out = csr_ncols A ->
  safe (fun y => length y = csr_ncols A) (cumprod_row A i out).
Proof.
  intros A i out OK Hi L. unfold cumprod_row. eapply safe_bind; [apply get_row_safe; auto|]. intros r B.
  assert (H : forall (r : list (Z * F)) (out : list F) prev acc, in_bounds (csr_ncols A) r -> length out = csr_ncols A ->
    safe (fun y => length y = csr_ncols A) (cumprod_loop r out prev acc)).
  { clear - Z0. induction r as [|e r IH]; intros out prev acc B L; cbn [cumprod_loop]; [exact L|].
    inversion B as [|? ? B1 B2]; subst. rewrite (to_usize_col Z0 (csr_ncols A) e) by auto. destruct (_ <? _)%nat; [exact L|]. cbv zeta.
    eapply safe_bind with (P := fun o => length o = csr_ncols A).
    { eapply safe_imp; [apply set_safe; lia|]. intros; congruence. }
    intros o HL. apply IH; auto. }
  apply H; auto.
Qed.

Lemma dense_rows_safe : forall (row : nat -> list F -> res (list F)) m n, alloc_ok (m * n) ->
  (forall i out, (i < m)%nat -> length out = n -> safe (fun y => length y = n) (row i out)) ->
  safe (fun out => length out = (m * n)%nat) (dense_rows row m n).
Proof.
  intros row m n AL H. unfold dense_rows. destruct (Nat.eqb_spec m 0) as [->|NM]; [reflexivity|].
  destruct (Nat.eqb_spec n 0) as [->|NN]; [rewrite Nat.mul_0_r; reflexivity|]. cbn [orb]. rewrite y_len_ok by auto.
  unfold par_chunks. destruct (Nat.eqb_spec n 0); [lia|]. rewrite repeat_length, pieces_rect by lia. cbn [bind].
  rewrite repeat_length.
  eapply safe_bind with (P := Forall2 (fun _ y => length y = n) (combine (seq 0 m) (repeat (repeat f0 n) m))).
  - apply safe_mapM. intros [i y] I. cbn [fst snd]. pose proof (in_combine_l _ _ _ _ I) as I1. pose proof (in_combine_r _ _ _ _ I) as I2.
    apply in_seq in I1. apply repeat_spec in I2. subst y. apply H; [lia|apply repeat_length].
  - intros ys F2. simpl. rewrite (concat_rect_length Z0 ys n).
    + replace (length ys) with (length (combine (seq 0 m) (repeat (repeat (f0 : F) n) m))) by (clear -F2; induction F2; simpl; auto).
      rewrite combine_length, seq_length, repeat_length. lia.
    + clear -F2. induction F2; auto.
Qed.

Definition axis1_safe (k : Csr F -> res (list F)) : Prop := forall A, cs_ok A -> alloc_ok (csr_nrows A * csr_ncols A) ->
  safe (fun out => length out = (csr_nrows A * csr_ncols A)%nat) (k A).
Lemma cumsum_axis1_safe : axis1_safe cumsum_axis1.
Proof. intros A OK AL. apply dense_rows_safe; auto. intros. apply cumsum_row_safe; auto. Qed.
Lemma cumprod_axis1_safe : axis1_safe cumprod_axis1.
Proof. intros A OK AL. apply dense_rows_safe; auto. intros. apply cumprod_row_safe; auto. Qed.

Lemma through_dense_safe : forall k threads il sch srt (A : Csr F), axis1_safe k ->
  is_interleaving il -> is_schedule sch -> is_sorter key_le srt -> cs_ok A -> alloc_ok (csr_nrows A) -> alloc_ok (csr_nrows A * csr_ncols A) ->
  safe (fun out => length out = (csr_nrows A * csr_ncols A)%nat) (through_dense_transpose k threads il sch srt A).
Proof.
  intros k threads il sch srt A HK H1 H2 H3 OK A1 A2. unfold through_dense_transpose.
  destruct (Nat.eqb_spec (csr_nrows A) 0) as [E|NM]; [rewrite E; reflexivity|].
  destruct (Nat.eqb_spec (csr_ncols A) 0) as [E|NN]; [rewrite E, Nat.mul_0_r; reflexivity|]. cbn [orb].
  eapply safe_bind; [apply transpose_safe; auto|]. intros T (OT & M1 & M2).
  assert (AT : alloc_ok (csr_nrows T * csr_ncols T)).
  { unfold csr_nrows, csr_ncols in *. rewrite M1, M2, Nat.mul_comm. auto. }
  eapply safe_bind; [apply HK; auto|]. intros out LO.
  destruct (transpose_dense_ok Z0 out (csr_nrows T) (csr_ncols T) AT LO) as (o & -> & L & _). simpl. rewrite L.
  unfold csr_nrows, csr_ncols in *. rewrite M1, M2. lia.
Qed.

(** ** Differences *)
Lemma diff1_safe : forall sch srt (A : Csr F) n, is_schedule sch -> is_sorter key_le srt -> cs_ok A ->
  safe (fun B : Csr F => cs_ok B /\ csr_nrows B = csr_nrows A /\ (csr_ncols B <= csr_ncols A)%nat) (diff_csr_axis1 sch srt A n).
Proof.
  intros. destruct (diff_csr_axis1_ok sch srt A n) as (B & -> & OB & M1 & M2 & _); auto. simpl. split; auto. split; auto. lia.
Qed.
Lemma diff0_safe : forall threads il sch1 srt1 sch srt sch2 srt2 (A : Csr F) n,
  is_interleaving il -> is_schedule sch1 -> is_sorter key_le srt1 -> is_schedule sch -> is_sorter key_le srt -> is_schedule sch2 -> is_sorter key_le srt2 ->
  cs_ok A -> alloc_ok (csr_nrows A) -> alloc_ok (csr_ncols A) ->
  safe (fun B : Csr F => cs_ok B /\ (csr_nrows B <= csr_nrows A)%nat /\ csr_ncols B = csr_ncols A)
    (diff_csr_axis0 threads il sch1 srt1 sch srt sch2 srt2 A n).
Proof.
  intros threads il sch1 srt1 sch srt sch2 srt2 A n H1 H2 H3 H4 H5 H6 H7 OK A1 A2. unfold diff_csr_axis0.
  destruct (n =? 0)%nat; [simpl; auto|].
  eapply safe_bind; [apply transpose_safe; auto|]. intros T (OT & M1 & M2).
  eapply safe_bind; [apply diff1_safe; auto|]. intros D (OD & N1 & N2). unfold csr_nrows, csr_ncols in *.
  eapply safe_imp; [apply transpose_safe; auto; rewrite N1, M1; auto|]. intros B (OB & K1 & K2).
  split; auto. rewrite K1, K2, N1, M1. split; auto. lia.
Qed.
End Stat.
