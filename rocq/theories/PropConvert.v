(** Properties C04-C10: format conversions and transposes.
    [il] is the interleaving of the atomic steps of the parallel tasks, [sch] the
    order in which raw-pointer writes take effect, [srt] the sorting routine. *)
Require Import List ZArith Bool Lia Permutation Sorted.
Require Import Coq.Floats.SpecFloat.
Require Import Verif.Res Verif.Values Verif.Spec Verif.Mem Verif.Lists Verif.CsLib Verif.Laws.
Require Import Verif.MConvert Verif.PConvert Verif.PConvert2 Verif.PConvert3 Verif.Witness.
Import ListNotations.
Local Open Scope Z_scope.

(** ** C04 *)
Lemma flip_atomic_spec : forall {V} il sch (A : Cs V),
  is_interleaving il -> is_schedule sch -> cs_ok A -> alloc_ok (major A) ->
  exists B, flip_atomic il sch get_row_checked A = Ok B /\ cs_ok B /\ major B = minor A /\ minor B = major A /\
    length (dat B) = length (dat A) /\
    (forall i j, (i < major A)%nat -> (j < minor A)%nat -> cs_at B j (Z.of_nat i) = cs_at A i (Z.of_nat j)).
Proof.
  intros V il sch A HI HS OK AL. eexists. split.
  { apply flip_atomic_ok; auto. intros. apply get_row_checked_ok; auto. }
  assert (P : Permutation (entries (rows A)) (il (tasks (rows A)))) by (apply Interleave_perm, HI).
  split; [|split; [|split; [|split]]].
  - rewrite <- (rows_length A). apply of_trace_ok; rewrite ?rows_length; auto.
  - simpl. apply buckets_length.
  - reflexivity.
  - unfold of_trace, of_rows. cbn [dat]. rewrite map_length, buckets_total.
    + rewrite <- (Permutation_length P), entries_length. apply rows_dat. auto.
    + unfold keys_in. eapply Permutation_Forall.
      * apply Permutation_map. exact P.
      * rewrite keys_entries. apply rows_keys_in. auto.
  - intros i j Hi Hj. rewrite of_trace_at with (rs := rows A); auto. rewrite nth_rows by auto. auto.
Qed.

Theorem C04_csr_to_csc_preserves_cells : forall V il sch (A : Csr V),
  is_interleaving il -> is_schedule sch -> cs_ok A -> alloc_ok (csr_nrows A) ->
  exists B : Csc V, csr_to_csc il sch A = Ok B /\ cs_ok B /\
    csc_nrows B = csr_nrows A /\ csc_ncols B = csr_ncols A /\ length (dat B) = length (dat A) /\
    (forall i j, (i < csr_nrows A)%nat -> (j < csr_ncols A)%nat -> csc_at B i j = csr_at A i j).
Proof.
  intros V il sch A HI HS OK AL. destruct (flip_atomic_spec il sch A HI HS OK AL) as (B & E & OB & M1 & M2 & LD & AT).
  exists B. repeat (split; [assumption|]). intros i j Hi Hj. apply AT; auto.
Qed.
Print Assumptions C04_csr_to_csc_preserves_cells.

Theorem C04_csc_to_csr_preserves_cells : forall V il sch (A : Csc V),
  is_interleaving il -> is_schedule sch -> cs_ok A -> alloc_ok (csc_ncols A) ->
  exists B : Csr V, csc_to_csr il sch A = Ok B /\ cs_ok B /\
    csr_nrows B = csc_nrows A /\ csr_ncols B = csc_ncols A /\ length (dat B) = length (dat A) /\
    (forall i j, (i < csc_nrows A)%nat -> (j < csc_ncols A)%nat -> csr_at B i j = csc_at A i j).
Proof.
  intros V il sch A HI HS OK AL. destruct (flip_atomic_spec il sch A HI HS OK AL) as (B & E & OB & M1 & M2 & LD & AT).
  exists B. repeat (split; [assumption|]). intros i j Hi Hj. apply AT; auto.
Qed.
Print Assumptions C04_csc_to_csr_preserves_cells.

(** The reserved slots are 0 .. nnz-1, each exactly once, for every interleaving. *)
Theorem C04_every_slot_reserved_once : forall V il (A : Cs V), is_interleaving il -> cs_ok A ->
  exists counts rs ws,
    count_keys (minor A) (idx A) = Ok counts /\
    mapM (get_row_checked A) (seq 0 (major A)) = Ok rs /\
    scatter (psum 0 counts) (il (tasks rs)) = Ok ws /\
    Permutation (map fst ws) (seq 0 (length (dat A))).
Proof.
  intros V il A HI OK. exists (hist (minor A) (idx A)), (rows A).
  assert (KE : keys_in (minor A) (map fst (entries (rows A)))) by (rewrite keys_entries; apply rows_keys_in; auto).
  assert (P : Permutation (entries (rows A)) (il (tasks (rows A)))) by (apply Interleave_perm, HI).
  assert (K' : keys_in (minor A) (map fst (il (tasks (rows A))))).
  { unfold keys_in. eapply Permutation_Forall; [apply Permutation_map; exact P|exact KE]. }
  assert (EH : hist (minor A) (idx A) = map (@length _) (buckets (minor A) (il (tasks (rows A))))).
  { rewrite <- hist_buckets. rewrite <- (rows_idx A OK), <- keys_entries. unfold hist. apply map_ext. intros.
    apply cnt_perm. apply Permutation_map. auto. }
  eexists. split; [apply count_keys_ok; rewrite <- (rows_idx A OK); apply rows_keys_in; auto|].
  split. { apply mapM_ok. intros i I. apply in_seq in I. apply get_row_checked_ok; auto. lia. }
  split. { apply scatter_ok. rewrite psum_length, EH, map_length, buckets_length. unfold keys_in in *.
           eapply Forall_impl; [|exact K']. simpl. intros. lia. }
  rewrite (pscatter_perm (minor A)); auto.
  2:{ rewrite psum_length, EH, map_length, buckets_length. lia. }
  rewrite EH, slots_psum. rewrite combine_seq_map_fst. rewrite buckets_total by auto.
  rewrite <- (Permutation_length P), entries_length. rewrite (rows_dat A OK). auto.
Qed.
Print Assumptions C04_every_slot_reserved_once.

(** A matrix with an unsorted row and a repeated cell meets the hypotheses. *)
Definition WU : Cs (f64 pw0) := mkCs 2 3 [0; 3; 5] [2; 0; 2; 1; 0] [fz 1; fz 2; fz 3; fz 4; fz 5].
Example C04_example : cs_ok WU /\ alloc_ok (csr_nrows WU) /\
  csr_to_csc backward (@rev _) WU = Ok (mkCs 3 2 [0; 2; 3; 5] [1; 0; 1; 0; 0] [fz 5; fz 2; fz 4; fz 1; fz 3]).
Proof.
  split; [apply cs_ok_literal; reflexivity|]. split; [reflexivity|]. vm_compute. reflexivity.
Qed.

(** ** C05: false in general: the order inside a column depends on the schedule. *)
Theorem C05_csr_to_csc_canonical_refuted :
  exists (il : list (list (Z * (Z * f64 pw0))) -> list (Z * (Z * f64 pw0))) sch (A : Csr (f64 pw0)) B,
    is_interleaving il /\ is_schedule sch /\ canonical A /\ alloc_ok (csr_nrows A) /\
    csr_to_csc il sch A = Ok B /\ ~ canonical B.
Proof.
  exists backward, (@rev _), (mkCs 2 1 [0; 1; 2] [0; 0] [fz 1; fz 2]),
    (mkCs 1 2 [0; 2] [1; 0] [fz 2; fz 1]).
  split; [apply backward_interleaving|]. split; [apply rev_schedule|].
  split; [apply canonical_literal; reflexivity|]. split; [reflexivity|]. split; [vm_compute; reflexivity|].
  intros C. pose proof (can_sorted _ C 0%nat 0 2 0%nat 1%nat 1 0 eq_refl eq_refl) as H. simpl in H.
  specialize (H ltac:(lia) ltac:(lia) ltac:(lia) eq_refl eq_refl). lia.
Qed.
Print Assumptions C05_csr_to_csc_canonical_refuted.

Theorem C05_csc_to_csr_canonical_refuted :
  exists (il : list (list (Z * (Z * f64 pw0))) -> list (Z * (Z * f64 pw0))) sch (A : Csc (f64 pw0)) B,
    is_interleaving il /\ is_schedule sch /\ canonical A /\ alloc_ok (csc_ncols A) /\
    csc_to_csr il sch A = Ok B /\ ~ canonical B.
Proof. exact C05_csr_to_csc_canonical_refuted. Qed.
Print Assumptions C05_csc_to_csr_canonical_refuted.

(** What remains: when the rows (columns) are processed in order, the result is
    canonical. Missing: every other schedule. *)
Theorem C05_sequential_canonical_partial : forall V sch (A : Cs V),
  is_schedule sch -> canonical A -> alloc_ok (major A) ->
  exists B, csr_to_csc (fun ts => concat ts) sch A = Ok B /\ csc_to_csr (fun ts => concat ts) sch A = Ok B /\ canonical B.
Proof.
  intros V sch A HS CA AL. exists (flipped A). unfold csr_to_csc, csc_to_csr.
  assert (flip_atomic (fun ts => concat ts) sch get_row_checked A = Ok (flipped A)) as E.
  { rewrite flip_atomic_ok; auto.
    - intros ts. apply Interleave_concat.
    - apply (can_ok _ CA).
    - intros. apply get_row_checked_ok; auto. apply (can_ok _ CA). }
  repeat (split; [exact E|]). apply flipped_canonical; auto.
Qed.
Print Assumptions C05_sequential_canonical_partial.

Example C05_example : canonical WA /\ alloc_ok (major WA) /\ is_schedule (@rev (nat * (Z * f64 pw0))) /\
  csr_to_csc (fun ts => concat ts) (@rev _) WA <> Panic /\ (2 <= length (dat WA))%nat.
Proof. split; [apply WA_canonical|]. split; [reflexivity|]. split; [apply rev_schedule|]. split; [vm_compute; discriminate|vm_compute; lia]. Qed.

(** ** C06 *)
Lemma entries_values : forall {V} (A : Cs V), cs_ok A -> map (fun e => snd (snd e)) (entries (rows A)) = dat A.
Proof.
  intros V A OK. transitivity (map snd (concat (rows A))).
  2:{ rewrite concat_rows by auto. apply map_snd_combine. apply (ok_len _ OK). }
  unfold entries. rewrite tasks_nth.
  transitivity (map snd (concat (map (fun i => nth i (rows A) []) (seq 0 (length (rows A)))))).
  2:{ rewrite map_seq_nth. auto. }
  generalize (seq 0 (length (rows A))). induction l as [|i l IH]; simpl; auto.
  rewrite !map_app, IH. f_equal. unfold task. rewrite map_map. auto.
Qed.

Lemma entries_at_cell : forall {V} (l : list (Z * (Z * V))) i j,
  at_cell i j (combine (combine (map (fun e => fst (snd e)) l) (map fst l)) (map (fun e => snd (snd e)) l))
  = at_index i (at_index j l).
Proof.
  intros. induction l as [|[k [i' v]] l IH]; simpl; auto. rewrite at_index_cons'.
  unfold at_cell in *. simpl. destruct (Z.eqb_spec k j); destruct (Z.eqb_spec i' i); simpl; rewrite IH; auto.
  - rewrite at_index_cons'. destruct (Z.eqb_spec i' i); [auto|lia].
  - rewrite at_index_cons'. destruct (Z.eqb_spec i' i); [lia|auto].
Qed.

Lemma entries_at_cell' : forall {V} (l : list (Z * (Z * V))) i j,
  at_cell j i (combine (combine (map fst l) (map (fun e => fst (snd e)) l)) (map (fun e => snd (snd e)) l))
  = at_index i (at_index j l).
Proof.
  intros. rewrite <- entries_at_cell. induction l as [|[k [i' v]] l IH]; simpl; auto.
  unfold at_cell in *. simpl. rewrite andb_comm. destruct ((i' =? i) && (k =? j)); simpl; rewrite IH; auto.
Qed.

Lemma entries_rows_bound : forall {V} (A : Cs V) e, alloc_ok (major A) -> In e (entries (rows A)) ->
  0 <= fst (snd e) < Z.of_nat (major A) /\ fst (snd e) <= i64_max.
Proof.
  intros V A e AL I. pose proof (bucket_bounds (rows A) (entries (rows A)) (fst e) (major A) (Permutation_refl _)) as B.
  rewrite rows_length in B. specialize (B ltac:(unfold alloc_ok in AL; lia) ltac:(lia)).
  unfold in_bounds in B. rewrite Forall_forall in B. destruct e as [k [i v]].
  apply (B (i, v)). apply at_index_In. auto.
Qed.

Theorem C06_csr_to_coo : forall V sch (A : Csr V), is_schedule sch -> cs_ok A -> alloc_ok (csr_nrows A) ->
  exists B : Coo V, csr_to_coo sch A = Ok B /\ coo_ok B /\
    coo_nrows B = csr_nrows A /\ coo_ncols B = csr_ncols A /\
    coo_col B = idx A /\ coo_data B = dat A /\
    (forall i j, (i < csr_nrows A)%nat -> (j < csr_ncols A)%nat -> coo_at B i j = csr_at A i j).
Proof.
  intros V sch A HS OK AL. unfold csr_to_coo. rewrite expand_ok by auto. cbn [bind].
  eexists. split; [reflexivity|]. cbn [coo_nrows coo_ncols coo_col coo_data].
  assert (EK : map fst (entries (rows A)) = idx A) by (rewrite keys_entries; apply rows_idx; auto).
  split; [|split; [reflexivity|split; [reflexivity|split; [auto|split; [apply entries_values; auto|]]]]].
  - constructor; cbn [coo_nrows coo_ncols coo_row coo_col coo_data].
    + rewrite !map_length. auto.
    + rewrite !map_length. auto.
    + intros p i H. rewrite nth_error_map in H. destruct (nth_error (entries (rows A)) p) eqn:E; [|discriminate].
      inv H. apply entries_rows_bound; auto. eapply nth_error_In; eauto.
    + intros p j H. rewrite EK in H. apply (ok_bound _ OK) in H. auto.
  - intros i j Hi Hj. unfold coo_at, coo_entries. cbn [coo_row coo_col coo_data].
    rewrite entries_at_cell. rewrite entries_cell. rewrite nth_rows by auto. auto.
Qed.
Print Assumptions C06_csr_to_coo.

Theorem C06_csc_to_coo : forall V sch (A : Csc V), is_schedule sch -> cs_ok A -> alloc_ok (csc_ncols A) ->
  exists B : Coo V, csc_to_coo sch A = Ok B /\ coo_ok B /\
    coo_nrows B = csc_nrows A /\ coo_ncols B = csc_ncols A /\
    coo_row B = idx A /\ coo_data B = dat A /\
    (forall i j, (i < csc_nrows A)%nat -> (j < csc_ncols A)%nat -> coo_at B i j = csc_at A i j).
Proof.
  intros V sch A HS OK AL. unfold csc_to_coo. rewrite expand_ok by auto. cbn [bind].
  eexists. split; [reflexivity|]. cbn [coo_nrows coo_ncols coo_row coo_data].
  assert (EK : map fst (entries (rows A)) = idx A) by (rewrite keys_entries; apply rows_idx; auto).
  split; [|split; [reflexivity|split; [reflexivity|split; [auto|split; [apply entries_values; auto|]]]]].
  - constructor; cbn [coo_nrows coo_ncols coo_row coo_col coo_data].
    + rewrite !map_length. auto.
    + rewrite !map_length. auto.
    + intros p i H. rewrite EK in H. apply (ok_bound _ OK) in H. auto.
    + intros p j H. rewrite nth_error_map in H. destruct (nth_error (entries (rows A)) p) eqn:E; [|discriminate].
      inv H. apply entries_rows_bound; auto. eapply nth_error_In; eauto.
  - intros i j Hi Hj. unfold coo_at, coo_entries. cbn [coo_row coo_col coo_data].
    rewrite entries_at_cell'. rewrite entries_cell. rewrite nth_rows by auto. auto.
Qed.
Print Assumptions C06_csc_to_coo.

Example C06_example : csr_to_coo (@rev _) WU =
  Ok (mkCoo 2 3 [0; 0; 0; 1; 1] [2; 0; 2; 1; 0] [fz 1; fz 2; fz 3; fz 4; fz 5]).
Proof. vm_compute. reflexivity. Qed.

(** ** C07 *)
Lemma sum_of_FSum : forall {F : Fl} (l l' : list F), Permutation l l' ->
  (l = [] -> sum_of l' = []) /\ (l <> [] -> exists v, sum_of l' = [v] /\ FSum l v).
Proof.
  intros F l l' P. split.
  - intros ->. apply Permutation_nil in P. subst. auto.
  - intros N. destruct l' as [|v vs]; [apply Permutation_sym, Permutation_nil in P; congruence|].
    simpl. eexists. split; [reflexivity|]. apply FSum_perm with (l := v :: vs); [symmetry; auto|].
    apply (FSum_fold_left vs [v] v). apply FSum_one.
Qed.

Theorem C07_coo_to_csr : forall pw srt (A : Coo (f64 pw)), is_sorter key2_le srt -> coo_ok A ->
  exists B : Csr (f64 pw), coo_to_csr srt A = Ok B /\ canonical B /\
    csr_nrows B = coo_nrows A /\ csr_ncols B = coo_ncols A /\
    (forall i j, (i < coo_nrows A)%nat -> (j < coo_ncols A)%nat ->
       (coo_at A i j = [] -> csr_at B i j = []) /\
       (coo_at A i j <> [] -> exists v, csr_at B i j = [v] /\ FSum (coo_at A i j) v)).
Proof.
  intros pw srt A HS OK. destruct (coo_to_csr_ok srt A HS OK) as (B & E & CB & M1 & M2 & AT).
  exists B. repeat (split; [assumption|]). intros i j Hi Hj.
  destruct (AT i (Z.of_nat j) Hi) as (l & P & EA). unfold csr_at. rewrite EA. apply sum_of_FSum. exact P.
Qed.
Print Assumptions C07_coo_to_csr.

Definition coo_swap {V} (A : Coo V) : Coo V := mkCoo (coo_ncols A) (coo_nrows A) (coo_col A) (coo_row A) (coo_data A).
Lemma coo_swap_ok : forall {V} (A : Coo V), coo_ok A -> coo_ok (coo_swap A).
Proof. intros V A [H1 H2 H3 H4]. constructor; auto. Qed.
Lemma coo_swap_at : forall {V} (A : Coo V) i j, coo_at (coo_swap A) j i = coo_at A i j.
Proof.
  intros. unfold coo_at, coo_entries, coo_swap, at_cell. cbn [coo_row coo_col coo_data].
  generalize (coo_row A) (coo_col A) (coo_data A).
  induction l as [|a l IH]; intros [|b l0] [|c l1]; simpl; auto.
  rewrite andb_comm. destruct ((a =? Z.of_nat i) && (b =? Z.of_nat j)); simpl; rewrite IH; auto.
Qed.

Theorem C07_coo_to_csc : forall pw srt (A : Coo (f64 pw)), is_sorter key2_le srt -> coo_ok A ->
  exists B : Csc (f64 pw), coo_to_csc srt A = Ok B /\ canonical B /\
    csc_nrows B = coo_nrows A /\ csc_ncols B = coo_ncols A /\
    (forall i j, (i < coo_nrows A)%nat -> (j < coo_ncols A)%nat ->
       (coo_at A i j = [] -> csc_at B i j = []) /\
       (coo_at A i j <> [] -> exists v, csc_at B i j = [v] /\ FSum (coo_at A i j) v)).
Proof.
  intros pw srt A HS OK. destruct (C07_coo_to_csr pw srt (coo_swap A) HS (coo_swap_ok A OK)) as (B & E & CB & M1 & M2 & AT).
  exists B. repeat (split; [assumption|]). intros i j Hi Hj.
  specialize (AT j i Hj Hi). rewrite coo_swap_at in AT. exact AT.
Qed.
Print Assumptions C07_coo_to_csc.

(** In exact arithmetic the stored value is the sum of the listed values. *)
Theorem C07_coo_to_csr_exact : forall srt (A : Coo qc), is_sorter key2_le srt -> coo_ok A ->
  exists B : Csr qc, coo_to_csr srt A = Ok B /\ canonical B /\
    csr_nrows B = coo_nrows A /\ csr_ncols B = coo_ncols A /\
    (forall i j, (i < coo_nrows A)%nat -> (j < coo_ncols A)%nat ->
       csr_val f0 B i j = fold_right fadd f0 (coo_at A i j)).
Proof.
  intros srt A HS OK. destruct (coo_to_csr_ok srt A HS OK) as (B & E & CB & M1 & M2 & AT).
  exists B. repeat (split; [assumption|]). intros i j Hi Hj.
  destruct (AT i (Z.of_nat j) Hi) as (l & P & EA). unfold csr_val, csr_at. rewrite EA.
  destruct (sum_of_FSum _ _ P) as [S1 S2]. fold (coo_at A i j) in S1, S2.
  destruct (coo_at A i j) as [|x xs] eqn:EC.
  - rewrite S1 by auto. reflexivity.
  - destruct S2 as (v & Ev & FS); [discriminate|]. rewrite Ev. change (v = fsum (x :: xs)). apply FSum_exact; [exact qc_elaws|exact FS].
Qed.
Print Assumptions C07_coo_to_csr_exact.

Example C07_example :
  let A := mkCoo 3 3 [2; 0; 2; 0; 2] [1; 2; 1; 0; 0] [fz 1; fz 2; fz 3; fz 4; fz (-5)] : Coo (f64 pw0) in
  is_sorter (@key2_le (f64 pw0)) sort_triples /\
  coo_to_csr sort_triples A = Ok (mkCs 3 3 [0; 2; 2; 4] [0; 2; 0; 1] [fz 4; fz 2; fz (-5); fz 4]).
Proof. split; [apply sort_triples_sorter|]. vm_compute. reflexivity. Qed.

(** ** C08 *)
Lemma roundtrip_coo : forall {F : Fl} srt (A : Cs F) (B : Coo F),
  is_sorter key2_le srt -> canonical A -> coo_ok B ->
  coo_nrows B = major A -> coo_ncols B = minor A ->
  (forall i j, (i < major A)%nat -> (j < minor A)%nat -> coo_at B i j = cs_at A i (Z.of_nat j)) ->
  coo_to_csr srt B = Ok A.
Proof.
  intros F srt A B HS CA OB E1 E2 AT. destruct (coo_to_csr_ok srt B HS OB) as (C & E & CC & M1 & M2 & AC).
  rewrite E. f_equal. apply canonical_ext; auto; try congruence. intros i j Hi Hj.
  destruct (AC i (Z.of_nat j) ltac:(congruence)) as (l & P & EC). rewrite EC.
  fold (coo_at B i j) in P. rewrite M1, E1 in Hi. rewrite M2, E2 in Hj. rewrite AT in P by auto.
  assert (S' : srow (cs_row A i)) by (apply canonical_row; auto).
  unfold cs_at in *. destruct (srow_at_index (Z.of_nat j) _ S') as [E0|[v E0]]; rewrite E0 in *.
  - apply Permutation_nil in P. subst. auto.
  - apply Permutation_length_1_inv in P. subst. auto.
Qed.

Theorem C08_csr_coo_csr : forall pw sch srt (A : Csr (f64 pw)),
  is_schedule sch -> is_sorter key2_le srt -> canonical A -> alloc_ok (csr_nrows A) ->
  exists B, csr_to_coo sch A = Ok B /\ coo_to_csr srt B = Ok A.
Proof.
  intros pw sch srt A HS HR CA AL. destruct (C06_csr_to_coo _ sch A HS (can_ok _ CA) AL) as (B & E & OB & M1 & M2 & _ & _ & AT).
  exists B. split; auto. apply roundtrip_coo; auto.
Qed.
Print Assumptions C08_csr_coo_csr.

Theorem C08_csc_coo_csc : forall pw sch srt (A : Csc (f64 pw)),
  is_schedule sch -> is_sorter key2_le srt -> canonical A -> alloc_ok (csc_ncols A) ->
  exists B, csc_to_coo sch A = Ok B /\ coo_to_csc srt B = Ok A.
Proof.
  intros pw sch srt A HS HR CA AL. destruct (C06_csc_to_coo _ sch A HS (can_ok _ CA) AL) as (B & E & OB & M1 & M2 & _ & _ & AT).
  exists B. split; auto. apply (roundtrip_coo srt A (coo_swap B)); auto.
  - apply coo_swap_ok. auto.
  - intros i j Hi Hj. rewrite coo_swap_at. apply AT; auto.
Qed.
Print Assumptions C08_csc_coo_csc.

Theorem C08_csr_csc_csr : forall V il il' sch sch' (A : Csr V),
  is_interleaving il -> is_interleaving il' -> is_schedule sch -> is_schedule sch' ->
  cs_ok A -> alloc_ok (csr_nrows A) -> alloc_ok (csr_ncols A) ->
  exists B C, csr_to_csc il sch A = Ok B /\ csc_to_csr il' sch' B = Ok C /\
    csr_nrows C = csr_nrows A /\ csr_ncols C = csr_ncols A /\
    (forall i j, (i < csr_nrows A)%nat -> (j < csr_ncols A)%nat -> csr_at C i j = csr_at A i j).
Proof.
  intros V il il' sch sch' A H1 H2 H3 H4 OK A1 A2.
  destruct (C04_csr_to_csc_preserves_cells V il sch A H1 H3 OK A1) as (B & E & OB & M1 & M2 & _ & AT).
  destruct (C04_csc_to_csr_preserves_cells V il' sch' B H2 H4 OB ltac:(rewrite M2; auto)) as (C & E' & OC & M1' & M2' & _ & AT').
  exists B, C. repeat (split; [congruence|]). intros i j Hi Hj. rewrite AT' by congruence. auto.
Qed.
Print Assumptions C08_csr_csc_csr.

Theorem C08_csc_csr_csc : forall V il il' sch sch' (A : Csc V),
  is_interleaving il -> is_interleaving il' -> is_schedule sch -> is_schedule sch' ->
  cs_ok A -> alloc_ok (csc_nrows A) -> alloc_ok (csc_ncols A) ->
  exists B C, csc_to_csr il sch A = Ok B /\ csr_to_csc il' sch' B = Ok C /\
    csc_nrows C = csc_nrows A /\ csc_ncols C = csc_ncols A /\
    (forall i j, (i < csc_nrows A)%nat -> (j < csc_ncols A)%nat -> csc_at C i j = csc_at A i j).
Proof.
  intros V il il' sch sch' A H1 H2 H3 H4 OK A1 A2.
  destruct (C04_csc_to_csr_preserves_cells V il sch A H1 H3 OK A2) as (B & E & OB & M1 & M2 & _ & AT).
  destruct (C04_csr_to_csc_preserves_cells V il' sch' B H2 H4 OB ltac:(rewrite M1; auto)) as (C & E' & OC & M1' & M2' & _ & AT').
  exists B, C. repeat (split; [congruence|]). intros i j Hi Hj. rewrite AT' by congruence. auto.
Qed.
Print Assumptions C08_csc_csr_csc.

Example C08_example : canonical WA /\ alloc_ok (csr_nrows WA) /\ alloc_ok (csr_ncols WA) /\
  (let! B := csr_to_coo (@rev _) WA in coo_to_csr sort_triples B) = Ok WA.
Proof. split; [apply WA_canonical|]. split; [reflexivity|]. split; [reflexivity|]. vm_compute. reflexivity. Qed.

(** ** C09 *)
Theorem C09_transpose_csr : forall V {ZV : Zero V} threads il sch srt (A : Csr V),
  is_interleaving il -> is_schedule sch -> is_sorter key_le srt -> canonical A -> alloc_ok (csr_nrows A) ->
  exists B : Csr V, transpose_csr threads il sch srt A = Ok B /\ canonical B /\
    csr_nrows B = csr_ncols A /\ csr_ncols B = csr_nrows A /\
    (forall i j, (i < csr_nrows A)%nat -> (j < csr_ncols A)%nat -> csr_at B j i = csr_at A i j).
Proof.
  intros V ZV threads il sch srt A H1 H2 H3 CA AL. exists (flipped A).
  split; [apply transpose_cs_ok; auto|]. split; [apply flipped_canonical; auto|].
  split; [apply buckets_length|]. split; [reflexivity|]. intros i j Hi Hj. apply flipped_at; auto.
Qed.
Print Assumptions C09_transpose_csr.

Theorem C09_transpose_csc : forall V {ZV : Zero V} threads il sch srt (A : Csc V),
  is_interleaving il -> is_schedule sch -> is_sorter key_le srt -> canonical A -> alloc_ok (csc_ncols A) ->
  exists B : Csc V, transpose_csc threads il sch srt A = Ok B /\ canonical B /\
    csc_nrows B = csc_ncols A /\ csc_ncols B = csc_nrows A /\
    (forall i j, (i < csc_nrows A)%nat -> (j < csc_ncols A)%nat -> csc_at B j i = csc_at A i j).
Proof.
  intros V ZV threads il sch srt A H1 H2 H3 CA AL. exists (flipped A).
  split; [apply transpose_cs_ok; auto|]. split; [apply flipped_canonical; auto|].
  split; [reflexivity|]. split; [apply buckets_length|]. intros i j Hi Hj. apply flipped_at; auto.
Qed.
Print Assumptions C09_transpose_csc.

(** The entries of a row may come in any order, as long as no cell is stored twice;
    the result is canonical all the same. *)
Theorem C09_transpose_unsorted : forall V {ZV : Zero V} threads il sch srt (A : Csr V),
  is_interleaving il -> is_schedule sch -> is_sorter key_le srt -> cs_ok A -> alloc_ok (csr_nrows A) ->
  (forall i j, (i < csr_nrows A)%nat -> (j < csr_ncols A)%nat -> (length (csr_at A i j) <= 1)%nat) ->
  exists B : Csr V, transpose_csr threads il sch srt A = Ok B /\ canonical B /\
    csr_nrows B = csr_ncols A /\ csr_ncols B = csr_nrows A /\
    (forall i j, (i < csr_nrows A)%nat -> (j < csr_ncols A)%nat -> csr_at B j i = csr_at A i j).
Proof.
  intros V ZV threads il sch srt A H1 H2 H3 OK AL SV. exists (flipped A). pose proof (distinct_cells A OK SV) as D.
  split; [apply transpose_cs_ok'; auto|]. split; [apply flipped_canonical'; auto|].
  split; [apply buckets_length|]. split; [reflexivity|]. intros i j Hi Hj. apply flipped_at; auto.
Qed.
Print Assumptions C09_transpose_unsorted.

Definition UW : Csr (f64 pw0) := mkCs 2 3 [0; 2; 3] [2; 0; 1] [fz 1; fz 2; fz 3].
Example C09_unsorted_example : cs_ok UW /\ ~ canonical UW /\ alloc_ok (csr_nrows UW) /\
  (forall i j, (i < csr_nrows UW)%nat -> (j < csr_ncols UW)%nat -> (length (csr_at UW i j) <= 1)%nat) /\
  transpose_csr 2 backward (@rev _) sort_pairs UW = Ok (mkCs 3 2 [0; 1; 2; 3] [0; 1; 0] [fz 2; fz 3; fz 1]).
Proof.
  split; [apply cs_ok_literal; reflexivity|]. split.
  { intros C. pose proof (can_sorted _ C 0%nat 0 2 0%nat 1%nat 2 0 eq_refl eq_refl) as H. simpl in H.
    specialize (H ltac:(lia) ltac:(lia) ltac:(lia) eq_refl eq_refl). lia. }
  split; [reflexivity|]. split; [|vm_compute; reflexivity].
  intros i j Hi Hj. destruct i as [|[|i]]; [| |cbn in Hi; lia]; (destruct j as [|[|[|j]]]; [| | |cbn in Hj; lia]); vm_compute; lia.
Qed.

(** Each strategy by itself, whatever the size of the matrix (the selection above
    depends on the number of threads and the dimension only). *)
Theorem C09_both_strategies_agree : forall V {ZV : Zero V} tiles il sch sch' srt (A : Cs V),
  (1 <= tiles)%nat -> is_interleaving il -> is_schedule sch -> is_schedule sch' -> is_sorter key_le srt ->
  canonical A -> alloc_ok (major A) ->
  exists B, flip_tiled tiles sch A = Ok B /\
    (let! B' := flip_atomic il sch' get_row A in sort_slices srt B') = Ok B /\ canonical B /\
    (forall i j, (i < major A)%nat -> (j < minor A)%nat -> cs_at B j (Z.of_nat i) = cs_at A i (Z.of_nat j)).
Proof.
  intros V ZV tiles il sch sch' srt A HT HI HS HS' HR CA AL. exists (flipped A).
  pose proof (canonical_distinct A CA) as D.
  split; [apply flip_tiled_ok; auto|]. split; [apply strategy_b_ok; auto|].
  split; [apply flipped_canonical; auto|]. intros. apply flipped_at; auto.
Qed.
Print Assumptions C09_both_strategies_agree.

Theorem C09_transpose_coo : forall V (A : Coo V), coo_ok A ->
  coo_ok (transpose_coo A) /\ coo_nrows (transpose_coo A) = coo_ncols A /\ coo_ncols (transpose_coo A) = coo_nrows A /\
  (forall i j, coo_at (transpose_coo A) j i = coo_at A i j).
Proof.
  intros V A OK. split; [apply (coo_swap_ok A OK)|]. split; [reflexivity|]. split; [reflexivity|].
  intros. apply (coo_swap_at A i j).
Qed.
Print Assumptions C09_transpose_coo.

Example C09_example : canonical WA /\ alloc_ok (csr_nrows WA) /\
  transpose_csr 2 backward (@rev _) sort_pairs WA
    = Ok (mkCs 4 3 [0; 1; 2; 4; 5] [0; 2; 0; 2; 2] [fz 1; fz (-3); fz 2; fnan0; fz 4]) /\
  (let! B := flip_atomic backward (@rev _) get_row WA in sort_slices sort_pairs B)
    = transpose_csr 2 backward (@rev _) sort_pairs WA.
Proof. split; [apply WA_canonical|]. split; [reflexivity|]. split; vm_compute; reflexivity. Qed.

(** ** C10 *)
Theorem C10_transpose_csr_involutive : forall V {ZV : Zero V} t t' il il' sch sch' srt srt' (A : Csr V),
  is_interleaving il -> is_interleaving il' -> is_schedule sch -> is_schedule sch' ->
  is_sorter key_le srt -> is_sorter key_le srt' -> canonical A ->
  alloc_ok (csr_nrows A) -> alloc_ok (csr_ncols A) ->
  exists B, transpose_csr t il sch srt A = Ok B /\ transpose_csr t' il' sch' srt' B = Ok A.
Proof.
  intros V ZV t t' il il' sch sch' srt srt' A H1 H2 H3 H4 H5 H6 CA A1 A2. exists (flipped A).
  split; [apply transpose_cs_ok; auto|]. unfold transpose_csr.
  rewrite transpose_cs_ok; auto.
  - f_equal. apply flipped_involutive; auto.
  - apply flipped_canonical; auto.
  - unfold flipped, of_trace. cbn [major of_rows]. rewrite buckets_length. auto.
Qed.
Print Assumptions C10_transpose_csr_involutive.

Theorem C10_transpose_csc_involutive : forall V {ZV : Zero V} t t' il il' sch sch' srt srt' (A : Csc V),
  is_interleaving il -> is_interleaving il' -> is_schedule sch -> is_schedule sch' ->
  is_sorter key_le srt -> is_sorter key_le srt' -> canonical A ->
  alloc_ok (csc_nrows A) -> alloc_ok (csc_ncols A) ->
  exists B, transpose_csc t il sch srt A = Ok B /\ transpose_csc t' il' sch' srt' B = Ok A.
Proof. intros. apply C10_transpose_csr_involutive; auto. Qed.
Print Assumptions C10_transpose_csc_involutive.

Theorem C10_transpose_coo_involutive : forall V (A : Coo V), transpose_coo (transpose_coo A) = A.
Proof. intros V []. reflexivity. Qed.
Print Assumptions C10_transpose_coo_involutive.

Example C10_example :
  (let! B := transpose_csr 3 backward (@rev _) sort_pairs WA in transpose_csr 1 forward (@rev _) sort_pairs B) = Ok WA.
Proof. vm_compute. reflexivity. Qed.
