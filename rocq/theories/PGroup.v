(** Stored values grouped by position, and cells as stored values plus zeros. *)
Require Import List ZArith Bool Arith Lia Permutation.
Require Import Verif.Res Verif.Values Verif.Spec Verif.SpecReduce Verif.Mem Verif.Lists Verif.CsLib Verif.Loops Verif.NdLib Verif.MAcc Verif.PAcc Verif.MLinalg Verif.PLinalg Verif.MConvert Verif.PConvert Verif.PConvert2 Verif.PConvert3.
Import ListNotations.
Local Open Scope Z_scope.

Lemma group_by : forall {K V} (t : K -> K -> bool) (HT : forall a b, t a b = true <-> a = b) (ks : list K) (l : list (K * V)),
  NoDup ks -> (forall e, In e l -> In (fst e) ks) ->
  Permutation (map snd l) (flat_map (fun k => map snd (filter (fun e => t (fst e) k) l)) ks).
Proof.
  intros K V t HT ks l ND. induction l as [|[k v] l IH]; intros HI.
  - rewrite flat_map_concat_map. replace (map _ ks) with (map (fun _ => @nil V) ks) by (apply map_ext; auto).
    clear. induction ks; simpl; auto.
  - specialize (IH (fun e I => HI e (or_intror I))). pose proof (HI _ (or_introl eq_refl)) as IK. cbn [fst] in IK.
    apply in_split in IK. destruct IK as (k1 & k2 & ->). rewrite flat_map_app in *. cbn [flat_map] in *. cbn [map snd].
    assert (EQ : forall ks', ~ In k ks' -> flat_map (fun k0 => map snd (filter (fun e => t (fst e) k0) ((k, v) :: l))) ks' =
        flat_map (fun k0 => map snd (filter (fun e => t (fst e) k0) l)) ks').
    { intros ks' NI. rewrite !flat_map_concat_map. f_equal. apply map_ext_in. intros a I. cbn [filter fst].
      destruct (t k a) eqn:E; auto. apply HT in E. subst. contradiction. }
    apply NoDup_remove_2 in ND. rewrite in_app_iff in ND. rewrite !EQ by tauto. cbn [filter fst].
    rewrite (proj2 (HT k k) eq_refl). cbn [map snd]. cbn [app]. apply Permutation_cons_app. exact IH.
Qed.

Lemma cells_perm : forall {J V} (z : V) (cell : J -> list V) js, (forall j, In j js -> (length (cell j) <= 1)%nat) ->
  (length (flat_map cell js) <= length js)%nat /\
  Permutation (map (fun j => one_or z (cell j)) js) (flat_map cell js ++ repeat z (length js - length (flat_map cell js))).
Proof.
  intros J V z cell js. induction js as [|j js IH]; intros H.
  - simpl. auto.
  - destruct IH as [L P]; [intros; apply H; simpl; auto|]. specialize (H j (or_introl eq_refl)). cbn [flat_map map].
    rewrite app_length. destruct (cell j) as [|v [|? ?]]; cbn [length app one_or Nat.add] in *; [| |lia].
    + split; [lia|]. rewrite Nat.sub_succ_l by auto. cbn [repeat]. apply Permutation_cons_app. exact P.
    + split; [lia|]. apply perm_skip. exact P.
Qed.

Lemma flat_map_length_all : forall {J V} (cell : J -> list V) js, (forall j, In j js -> (length (cell j) <= 1)%nat) ->
  length (flat_map cell js) = length js -> forall z, flat_map cell js = map (fun j => one_or z (cell j)) js.
Proof.
  intros J V cell js. induction js as [|j js IH]; intros H E z; auto. cbn [flat_map map] in *. rewrite app_length in E. simpl in E.
  pose proof (H j (or_introl eq_refl)) as HJ. destruct (cells_perm z cell js) as [L _]; [intros; apply H; simpl; auto|].
  destruct (cell j) as [|v [|? ?]]; simpl in *; try lia. f_equal. apply IH; [intros; apply H; auto|lia].
Qed.

Lemma cells_all : forall {J V} (z : V) (cell : J -> list V) js l, (forall j, In j js -> (length (cell j) <= 1)%nat) ->
  Permutation l (flat_map cell js) -> length l = length js -> Permutation l (map (fun j => one_or z (cell j)) js).
Proof.
  intros. rewrite <- flat_map_length_all; auto. apply Permutation_length in H0. lia.
Qed.

Lemma grid_length : forall m n, length (grid m n) = (m * n)%nat.
Proof. intros. unfold grid. rewrite prod_length, !seq_length. auto. Qed.

Lemma NoDup_join : forall {A} (l l' : list A), NoDup l -> NoDup l' -> (forall x, In x l -> ~ In x l') -> NoDup (l ++ l').
Proof.
  intros A l l' H H'. induction H; simpl; intros D; auto. constructor.
  - rewrite in_app_iff. intros [?|?]; [auto|]. apply (D x); auto.
  - apply IHNoDup. intros. apply D. auto.
Qed.

Lemma NoDup_list_prod : forall {A B} (l : list A) (l' : list B), NoDup l -> NoDup l' -> NoDup (list_prod l l').
Proof.
  intros A B l l' H H'. induction H as [|x l NI ND IH]; [constructor|]. cbn [list_prod].
  apply NoDup_join; auto.
  - apply FinFun.Injective_map_NoDup; auto. intros a b E. congruence.
  - intros [a b] I. apply in_map_iff in I. destruct I as (y & E & I). inv E. rewrite in_prod_iff. tauto.
Qed.

Lemma NoDup_grid : forall m n, NoDup (grid m n).
Proof. intros. apply NoDup_list_prod; apply seq_NoDup. Qed.

Lemma in_grid : forall m n i j, In (i, j) (grid m n) <-> (i < m /\ j < n)%nat.
Proof. intros. unfold grid. rewrite in_prod_iff, !in_seq. lia. Qed.

Lemma matrix_values_rows : forall {V} (cell : nat -> nat -> list V) m n, matrix_values cell m n = flat_map (row_values cell n) (seq 0 m).
Proof.
  intros. unfold matrix_values, grid. generalize (seq 0 m). induction l as [|i l IH]; auto. cbn [list_prod flat_map].
  rewrite flat_map_app, IH. f_equal. unfold row_values. rewrite !flat_map_concat_map, map_map. auto.
Qed.

Lemma matrix_values_transposed : forall {V} (cell : nat -> nat -> list V) m n,
  Permutation (matrix_values cell m n) (matrix_values (transposed cell) n m).
Proof.
  intros. unfold matrix_values. apply Permutation_trans with (flat_map (fun p => cell (snd p) (fst p)) (map (fun p => (snd p, fst p)) (grid m n))).
  - rewrite !flat_map_concat_map, map_map. apply Permutation_refl.
  - unfold transposed. rewrite !flat_map_concat_map. apply Permutation_concat. apply Permutation_map.
    apply NoDup_Permutation.
    + apply FinFun.Injective_map_NoDup; [intros [a b] [c d] E; cbn in E; congruence|apply NoDup_grid].
    + apply NoDup_grid.
    + intros [a b]. rewrite in_map_iff, in_grid. split.
      * intros ([c d] & E & I). cbn in E. inv E. apply in_grid in I. lia.
      * intros I. exists (b, a). split; auto. apply in_grid. lia.
Qed.

Lemma matrix_cells_transposed : forall {V} (z : V) (cell : nat -> nat -> list V) m n,
  Permutation (matrix_cells z cell m n) (matrix_cells z (transposed cell) n m).
Proof.
  intros. unfold matrix_cells, transposed.
  apply Permutation_trans with (map (fun p => one_or z (cell (snd p) (fst p))) (map (fun p => (snd p, fst p)) (grid m n))).
  - rewrite map_map. apply Permutation_refl.
  - apply Permutation_map. apply NoDup_Permutation.
    + apply FinFun.Injective_map_NoDup; [intros [a b] [c d] E; cbn in E; congruence|apply NoDup_grid].
    + apply NoDup_grid.
    + intros [a b]. rewrite in_map_iff, in_grid. split.
      * intros ([c d] & E & I). cbn in E. inv E. apply in_grid in I. lia.
      * intros I. exists (b, a). split; auto. apply in_grid. lia.
Qed.

(** ** Compressed matrices *)
Lemma row_values_ok : forall {V} (A : Cs V) i, cs_ok A -> (i < major A)%nat ->
  Permutation (map snd (cs_row A i)) (row_values (csr_at A) (minor A) i).
Proof.
  intros V A i OK Hi. pose proof (row_bounds A i OK Hi) as B.
  pose proof (group_perm (minor A) (cs_row A i)) as G.
  eapply Permutation_trans; [apply Permutation_map; apply G|].
  - unfold in_bounds in B. eapply Forall_impl; [|exact B]. intros e He. cbv beta in He. lia.
  - rewrite flat_map_concat_map, concat_map, map_map. unfold row_values. rewrite flat_map_concat_map.
    replace (map (fun j => map snd (map (fun v => (Z.of_nat j, v)) (at_index (Z.of_nat j) (cs_row A i)))) (seq 0 (minor A)))
      with (map (csr_at A i) (seq 0 (minor A))); [auto|]. apply map_ext. intros j. rewrite map_map. cbn [snd]. rewrite map_id. auto.
Qed.

Lemma dat_rows : forall {V} (A : Cs V), cs_ok A -> dat A = flat_map (fun i => map snd (cs_row A i)) (seq 0 (major A)).
Proof.
  intros V A OK. rewrite <- (map_snd_combine (idx A) (dat A)) by (destruct OK; auto). rewrite <- concat_rows by auto.
  unfold rows. rewrite concat_map, map_map, flat_map_concat_map. auto.
Qed.

Lemma dat_values : forall {V} (A : Cs V), cs_ok A -> Permutation (dat A) (matrix_values (csr_at A) (major A) (minor A)).
Proof.
  intros V A OK. rewrite (dat_rows A OK), matrix_values_rows, !flat_map_concat_map. apply Permutation_concat_map.
  intros i I. apply in_seq in I. apply row_values_ok; auto. lia.
Qed.

Lemma csc_transposed : forall {V} (A : Csc V) i j, csc_at A i j = transposed (csr_at A) i j.
Proof. reflexivity. Qed.

Lemma csc_dat_values : forall {V} (A : Csc V), cs_ok A -> Permutation (dat A) (matrix_values (csc_at A) (csc_nrows A) (csc_ncols A)).
Proof.
  intros V A OK. eapply Permutation_trans; [apply dat_values; auto|]. eapply Permutation_trans; [apply matrix_values_transposed|]. apply Permutation_refl.
Qed.

Lemma canonical_single : forall {V} (A : Cs V), canonical A -> forall i j, (i < major A)%nat -> (length (csr_at A i j) <= 1)%nat.
Proof.
  intros V A C i j Hi. unfold csr_at, cs_at. destruct (srow_at_index (Z.of_nat j) (cs_row A i) (canonical_row A i C Hi)) as [->|[v ->]]; simpl; lia.
Qed.

(** ** Coordinate matrices *)
Lemma coo_entry_bounds : forall {V} (A : Coo V) e, coo_ok A -> In e (coo_entries A) ->
  0 <= fst (fst e) < Z.of_nat (coo_nrows A) /\ 0 <= snd (fst e) < Z.of_nat (coo_ncols A).
Proof.
  intros V A [[i j] v] OK I. unfold coo_entries in I. apply in_combine_l in I. cbn [fst snd]. split.
  - apply in_combine_l in I. apply In_nth_error in I. destruct I as [p E]. apply (coo_bound_r A OK p i E).
  - apply in_combine_r in I. apply In_nth_error in I. destruct I as [p E]. apply (coo_bound_c A OK p j E).
Qed.

Lemma coo_entries_vals : forall {V} (A : Coo V), coo_ok A -> map snd (coo_entries A) = coo_data A.
Proof.
  intros V A OK. unfold coo_entries. apply map_snd_combine. rewrite combine_length. destruct OK. lia.
Qed.

Definition rc_eqb (a b : Z * Z) : bool := (fst a =? fst b) && (snd a =? snd b).
Lemma rc_eqb_iff : forall a b, rc_eqb a b = true <-> a = b.
Proof.
  intros [a b] [c d]. unfold rc_eqb. cbn [fst snd]. rewrite andb_true_iff, !Z.eqb_eq. intuition congruence.
Qed.

Lemma coo_dat_values : forall {V} (A : Coo V), coo_ok A ->
  Permutation (coo_data A) (matrix_values (coo_at A) (coo_nrows A) (coo_ncols A)).
Proof.
  intros V A OK. rewrite <- (coo_entries_vals A OK) at 1.
  eapply Permutation_trans; [apply (group_by rc_eqb rc_eqb_iff (map (fun p => (Z.of_nat (fst p), Z.of_nat (snd p))) (grid (coo_nrows A) (coo_ncols A))))|].
  - apply FinFun.Injective_map_NoDup; [|apply NoDup_grid]. intros [a b] [c d] E. cbn in E. inv E. f_equal; lia.
  - intros e I. pose proof (coo_entry_bounds A e OK I) as [B1 B2]. apply in_map_iff.
    exists (Z.to_nat (fst (fst e)), Z.to_nat (snd (fst e))). split; [|apply in_grid; lia].
    cbn [fst snd]. rewrite !Z2Nat.id by lia. destruct (fst e). auto.
  - unfold matrix_values. rewrite !flat_map_concat_map, map_map. apply Permutation_refl.
Qed.

(** Values of one row, keyed by the row index as the kernels see them. *)
Lemma coo_row_values : forall {V} (A : Coo V) i, coo_ok A -> (i < coo_nrows A)%nat ->
  Permutation (at_index (Z.of_nat i) (combine (coo_row A) (coo_data A))) (row_values (coo_at A) (coo_ncols A) i).
Proof.
  intros V A i OK Hi.
  set (l := map (fun e => (snd (fst e), snd e)) (filter (fun e => fst (fst e) =? Z.of_nat i) (coo_entries A))).
  assert (E1 : at_index (Z.of_nat i) (combine (coo_row A) (coo_data A)) = map snd l).
  { unfold l, at_index, coo_entries. rewrite map_map. cbn [snd]. destruct OK as [L1 L2 _ _]. revert L1 L2.
    generalize (coo_row A) (coo_col A) (coo_data A). induction l0 as [|r l0 IH]; intros [|c lc] [|v ld]; simpl; intros; try discriminate; auto.
    inv L1. inv L2. specialize (IH lc ld H0 H1). destruct (r =? Z.of_nat i); simpl; [f_equal|]; auto. }
  assert (E2 : forall j, at_index (Z.of_nat j) l = coo_at A i j).
  { intros j. unfold l, at_index, coo_at, at_cell. clear E1 l. induction (coo_entries A) as [|[[a b] v] es IH]; auto. cbn [filter fst snd].
    destruct (a =? Z.of_nat i); cbn [map filter fst snd andb]; auto. destruct (b =? Z.of_nat j); cbn [map snd]; [f_equal|]; auto. }
  rewrite E1. eapply Permutation_trans; [apply Permutation_map; apply (group_perm (coo_ncols A))|].
  - apply Forall_forall. intros e I. unfold l in I. apply in_map_iff in I. destruct I as (e' & <- & I). apply filter_In in I. destruct I as [I _].
    cbn [fst]. apply (coo_entry_bounds A e' OK I).
  - unfold row_values. rewrite !flat_map_concat_map, concat_map, map_map.
    replace (map (fun x => map snd (map (fun v => (Z.of_nat x, v)) (at_index (Z.of_nat x) l))) (seq 0 (coo_ncols A))) with (map (coo_at A i) (seq 0 (coo_ncols A))); [auto|].
    apply map_ext. intros j. rewrite map_map. cbn [snd]. rewrite map_id, E2. auto.
Qed.

(** The same matrix with rows and columns exchanged. *)
Definition coo_swap {V} (A : Coo V) : Coo V := mkCoo (coo_ncols A) (coo_nrows A) (coo_col A) (coo_row A) (coo_data A).
Lemma coo_swap_ok : forall {V} (A : Coo V), coo_ok A -> coo_ok (coo_swap A).
Proof. intros V A [H1 H2 H3 H4]. constructor; auto. Qed.
Lemma coo_swap_at : forall {V} (A : Coo V) i j, coo_at (coo_swap A) i j = transposed (coo_at A) i j.
Proof.
  intros V A i j. unfold transposed, coo_at, at_cell, coo_entries, coo_swap. cbn [coo_row coo_col coo_data].
  generalize (coo_row A) (coo_col A) (coo_data A). induction l as [|r l IH]; intros [|c lc] [|v ld]; simpl; auto.
  rewrite andb_comm. destruct ((r =? Z.of_nat j) && (c =? Z.of_nat i)); simpl; [f_equal|]; auto.
Qed.

Lemma flat_map_ext' : forall {J V} (f g : J -> list V) l, (forall j, f j = g j) -> flat_map f l = flat_map g l.
Proof. intros. rewrite !flat_map_concat_map. f_equal. apply map_ext. auto. Qed.

Lemma coo_col_values : forall {V} (A : Coo V) j, coo_ok A -> (j < coo_ncols A)%nat ->
  Permutation (at_index (Z.of_nat j) (combine (coo_col A) (coo_data A))) (row_values (transposed (coo_at A)) (coo_nrows A) j).
Proof.
  intros V A j OK Hj. pose proof (coo_row_values (coo_swap A) j (coo_swap_ok A OK) Hj) as P. cbn [coo_swap coo_row coo_data coo_ncols] in P.
  eapply Permutation_trans; [exact P|]. unfold row_values. erewrite flat_map_ext'; [apply Permutation_refl|]. intros. apply coo_swap_at.
Qed.

(** ** N-dimensional arrays *)
Lemma all_keys_length : forall sh, Forall (fun n => 0 <= n) sh -> Z.of_nat (length (all_keys sh)) = cells sh.
Proof.
  induction sh as [|n sh IH]; intros F; [reflexivity|]. inv F. specialize (IH H2). cbn [all_keys].
  replace (cells (n :: sh)) with (n * cells sh) by reflexivity. rewrite <- IH. rewrite <- (Z2Nat.id n) at 2 by auto.
  rewrite <- Nat2Z.inj_mul. f_equal. generalize (Z.to_nat n) as m. intros m. rewrite <- (seq_length m 0) at 2. generalize (seq 0 m).
  induction l; auto. cbn [flat_map length]. rewrite app_length, map_length, IHl. lia.
Qed.

Lemma in_all_keys : forall sh k, in_shape sh k -> In k (all_keys sh).
Proof.
  induction sh as [|n sh IH]; intros k H; inv H; [simpl; auto|]. cbn [all_keys]. apply in_flat_map. exists (Z.to_nat x). split.
  - apply in_seq. lia.
  - apply in_map_iff. exists l. split; [f_equal; lia|]. apply IH. auto.
Qed.

Lemma NoDup_all_keys : forall sh, NoDup (all_keys sh).
Proof.
  induction sh as [|n sh IH]; [repeat constructor; auto|]. cbn [all_keys]. generalize (Z.to_nat n) as m. intros m.
  pose proof (seq_NoDup m 0) as ND. induction ND as [|x l NI ND IHl]; [constructor|]. cbn [flat_map]. apply NoDup_join; auto.
  - apply FinFun.Injective_map_NoDup; auto. intros a b E. congruence.
  - intros k I. apply in_map_iff in I. destruct I as (k' & <- & I). rewrite in_flat_map. intros (y & J & K).
    apply in_map_iff in K. destruct K as (k2 & E & _). inv E. assert (x = y) by lia. subst. contradiction.
Qed.

Lemma nd_dat_values : forall {V} (A : Nd V), nd_ok A -> Permutation (nd_dat A) (array_values A).
Proof.
  intros V A OK. rewrite <- (nd_entries_vals A) at 1. unfold array_values.
  eapply Permutation_trans; [apply (group_by (fun a b => if list_eq_dec Z.eq_dec a b then true else false))|].
  - intros a b. destruct (list_eq_dec Z.eq_dec a b); intuition congruence.
  - apply (NoDup_all_keys (nd_shape A)).
  - intros e I. apply in_all_keys. pose proof (nd_entries_ok A OK) as F. rewrite Forall_forall in F. auto.
  - apply Permutation_refl.
Qed.

(** ** Row cells *)
Lemma row_cells_perm : forall {V} (z : V) cell n i (l : list V), (forall j, (j < n)%nat -> (length (cell i j) <= 1)%nat) ->
  Permutation l (row_values cell n i) ->
  (length l <= n)%nat /\ Permutation (row_cells z cell n i) (l ++ repeat z (n - length l)).
Proof.
  intros V z cell n i l H P. destruct (cells_perm z (cell i) (seq 0 n)) as [L Q]; [intros j I; apply in_seq in I; apply H; lia|].
  rewrite seq_length in *. unfold row_values in P. rewrite (Permutation_length P). split; auto. unfold row_cells.
  eapply Permutation_trans; [exact Q|]. apply Permutation_app_tail. apply Permutation_sym. auto.
Qed.

Lemma matrix_cells_perm : forall {V} (z : V) cell m n (l : list V), (forall i j, (i < m)%nat -> (j < n)%nat -> (length (cell i j) <= 1)%nat) ->
  Permutation l (matrix_values cell m n) ->
  (length l <= m * n)%nat /\ Permutation (matrix_cells z cell m n) (l ++ repeat z (m * n - length l)).
Proof.
  intros V z cell m n l H P. destruct (cells_perm z (fun p => cell (fst p) (snd p)) (grid m n)) as [L Q].
  { intros [i j] I. apply in_grid in I. cbn [fst snd]. apply H; tauto. }
  rewrite grid_length in *. unfold matrix_values in P. rewrite (Permutation_length P). split; auto. unfold matrix_cells.
  eapply Permutation_trans; [exact Q|]. apply Permutation_app_tail. apply Permutation_sym. auto.
Qed.

Lemma array_cells_perm : forall {V} (z : V) (A : Nd V), nd_ok A -> single_valued_nd A ->
  (length (nd_dat A) <= length (all_keys (nd_shape A)))%nat /\
  Permutation (array_cells z A) (nd_dat A ++ repeat z (length (all_keys (nd_shape A)) - length (nd_dat A))).
Proof.
  intros V z A OK SV. destruct (cells_perm z (nd_at A) (all_keys (nd_shape A))) as [L Q]; [intros; apply SV|].
  pose proof (nd_dat_values A OK) as P. unfold array_values in P. rewrite (Permutation_length P). split; auto.
  eapply Permutation_trans; [exact Q|]. apply Permutation_app_tail. apply Permutation_sym. auto.
Qed.
