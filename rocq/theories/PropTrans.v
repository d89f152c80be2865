(** C09, continued: transposing matrices with unsorted or repeated entries. *)
Require Import List ZArith Bool Arith Lia Permutation.
Require Import Verif.Res Verif.Values Verif.Spec Verif.Mem Verif.Lists Verif.CsLib Verif.MConvert Verif.PConvert Verif.PConvert2 Verif.PTrans Verif.Witness.
Import ListNotations.
Local Open Scope Z_scope.

Lemma task_keys : forall V i (r : list (Z * V)), map fst (task i r) = map fst r.
Proof. intros. unfold task. rewrite map_map. auto. Qed.

Lemma tasks_keys_from : forall V (rs : list (list (Z * V))) s,
  map fst (concat (map (fun ir => task (fst ir) (snd ir)) (combine (seq s (length rs)) rs))) = map fst (concat rs).
Proof.
  intros V rs. induction rs as [|r rs IH]; intros s; simpl; auto.
  rewrite !map_app, task_keys, IH. auto.
Qed.

Lemma column_count : forall V (A : Cs V) j, cs_ok A -> (j < minor A)%nat ->
  length (cs_row (flipped A) j) = count_occ Z.eq_dec (idx A) (Z.of_nat j).
Proof.
  intros V A j OK Hj. unfold flipped, of_trace. rewrite cs_row_of_rows, nth_buckets by auto.
  unfold at_index. rewrite map_length.
  assert (E : map fst (entries (rows A)) = idx A).
  { unfold entries, tasks. rewrite tasks_keys_from, concat_rows by auto. apply map_fst_combine. apply (ok_len _ OK). }
  rewrite <- E. clear E. induction (entries (rows A)) as [|e l IH]; auto.
  simpl. destruct (Z.eq_dec (fst e) (Z.of_nat j)) as [H|H].
  - rewrite H, Z.eqb_refl. simpl. auto.
  - destruct (Z.eqb_spec (fst e) (Z.of_nat j)); [contradiction|auto].
Qed.

Lemma transpose_counts : forall V {ZV : Zero V} threads il sch srt (A : Cs V),
  is_interleaving il -> is_schedule sch -> is_sorter key_le srt -> cs_ok A -> alloc_ok (major A) ->
  exists B, transpose_cs threads il sch srt A = Ok B /\ cs_ok B /\ major B = minor A /\ minor B = major A /\
    length (dat B) = length (dat A) /\
    (forall j, (j < minor A)%nat -> length (cs_row B j) = count_occ Z.eq_dec (idx A) (Z.of_nat j)).
Proof.
  intros V ZV threads il sch srt A HI HS HR OK AL.
  destruct (transpose_cs_safe threads il sch srt A HI HS HR OK AL) as (B & E & OB & M1 & M2 & P).
  exists B. split; auto. split; auto. split; auto. split; auto.
  pose proof (flipped_ok A OK AL) as OF.
  assert (MF : major (flipped A) = minor A) by (unfold flipped, of_trace; simpl; apply buckets_length).
  split.
  - pose proof (ok_last _ OB) as L1. pose proof (ok_last _ OF) as L2. rewrite P, M1, <- MF in L1. rewrite L2 in L1.
    injection L1 as L1. apply Nat2Z.inj in L1. rewrite <- (ok_len _ OB), <- L1.
    unfold flipped, of_trace, of_rows. cbn [idx]. rewrite map_length, buckets_total.
    + rewrite entries_length. apply rows_dat. auto.
    + unfold entries, tasks. rewrite tasks_keys_from, concat_rows by auto. rewrite map_fst_combine by apply (ok_len _ OK).
      apply Forall_forall. intros k I. apply In_nth_error in I. destruct I as (p & Hp). apply (ok_bound _ OK) in Hp. tauto.
  - intros j Hj. rewrite <- column_count by auto. rewrite !cs_row_length by (auto; lia). rewrite P. auto.
Qed.

(** Whatever order the entries of a row come in and however often a cell is stored, both
    transposes stay within their buffers, return a structurally valid matrix of the
    swapped shape, and keep the number of entries of each column (row). *)
Theorem C09_transpose_csr_valid : forall V {ZV : Zero V} threads il sch srt (A : Csr V),
  is_interleaving il -> is_schedule sch -> is_sorter key_le srt -> cs_ok A -> alloc_ok (csr_nrows A) ->
  exists B : Csr V, transpose_csr threads il sch srt A = Ok B /\ cs_ok B /\
    csr_nrows B = csr_ncols A /\ csr_ncols B = csr_nrows A /\ length (dat B) = length (dat A) /\
    (forall j, (j < csr_ncols A)%nat -> length (cs_row B j) = count_occ Z.eq_dec (idx A) (Z.of_nat j)).
Proof. intros V ZV. exact (transpose_counts V). Qed.
Print Assumptions C09_transpose_csr_valid.

Theorem C09_transpose_csc_valid : forall V {ZV : Zero V} threads il sch srt (A : Csc V),
  is_interleaving il -> is_schedule sch -> is_sorter key_le srt -> cs_ok A -> alloc_ok (csc_ncols A) ->
  exists B : Csc V, transpose_csc threads il sch srt A = Ok B /\ cs_ok B /\
    csc_ncols B = csc_nrows A /\ csc_nrows B = csc_ncols A /\ length (dat B) = length (dat A) /\
    (forall i, (i < csc_nrows A)%nat -> length (cs_row B i) = count_occ Z.eq_dec (idx A) (Z.of_nat i)).
Proof. intros V ZV. exact (transpose_counts V). Qed.
Print Assumptions C09_transpose_csc_valid.

(** The values do not survive in general: with two entries of one cell inside a group of
    four, the tiled strategy writes both to the same slot and leaves a zero in the other.
    The 1 x 3 matrix stores 1 and 2 in cell (0,0). *)
Definition TW : Csr (f64 pw0) := mkCs 1 3 [0; 4] [0; 0; 1; 2] [fz 1; fz 2; fz 3; fz 4].
Theorem C09_duplicates_lost : cs_ok TW /\ alloc_ok (csr_nrows TW) /\ alloc_ok (csr_ncols TW) /\
  csr_at TW 0 0 = [fz 1; fz 2] /\
  forall threads, (threads <= 1)%nat ->
  exists B : Csr (f64 pw0), @transpose_csr (f64 pw0) (zero_of_floats (f64 pw0)) threads backward (fun l => l) sort_pairs TW = Ok B /\ csr_at B 0 0 = [fz 2; fz 0].
Proof.
  split; [apply cs_ok_literal; reflexivity|]. split; [reflexivity|]. split; [reflexivity|]. split; [vm_compute; reflexivity|].
  intros threads Ht. destruct threads as [|[|n]]; [| |lia]; eexists; split; vm_compute; reflexivity.
Qed.
Print Assumptions C09_duplicates_lost.

Example C09_valid_example : cs_ok TW /\ ~ canonical TW /\ alloc_ok (csr_nrows TW).
Proof.
  split; [apply cs_ok_literal; reflexivity|]. split; [|reflexivity].
  intros C. pose proof (can_sorted _ C 0%nat 0 4 0%nat 1%nat 0 0 eq_refl eq_refl) as H. simpl in H.
  specialize (H ltac:(lia) ltac:(lia) ltac:(lia) eq_refl eq_refl). lia.
Qed.
