(** Proofs about the Python layer: indexing and densification. *)
Require Import List ZArith Bool Arith Lia Sorted Permutation.
Require Import Verif.Res Verif.Values Verif.Spec Verif.Mem Verif.Lists Verif.CsLib Verif.Laws Verif.MCore Verif.MScalar Verif.SpecPy Verif.MPy.
Import ListNotations.
Local Open Scope Z_scope.

Lemma py_index_ok : forall n i, 0 <= i < Z.of_nat n -> py_index n i = Ok (Z.to_nat i).
Proof. intros. unfold py_index. replace (0 <=? i) with true by lia. replace (i <? Z.of_nat n) with true by lia. reflexivity. Qed.

Lemma py_index_nat : forall n i, (i < n)%nat -> py_index n (Z.of_nat i) = Ok i.
Proof. intros. rewrite py_index_ok by lia. rewrite Nat2Z.id. reflexivity. Qed.

Lemma py_get_ok : forall {A} (l : list A) i a, 0 <= i -> nth_error l (Z.to_nat i) = Some a -> py_get l i = Ok a.
Proof.
  intros A l i a H E. unfold py_get. pose proof (nth_error_lt _ _ _ E).
  rewrite py_index_ok by lia. cbn [bind]. unfold get_checked. rewrite E. reflexivity.
Qed.

Lemma py_slice_ok : forall {A} s e (l : list A), 0 <= s -> 0 <= e <= Z.of_nat (length l) -> s <= e ->
  py_slice s e l = slice (Z.to_nat s) (Z.to_nat e) l.
Proof.
  intros. unfold py_slice, py_bound. replace (s <? 0) with false by lia. replace (e <? 0) with false by lia.
  f_equal; lia.
Qed.

Lemma combine_slice : forall {A B} s e (a : list A) (b : list B), combine (slice s e a) (slice s e b) = slice s e (combine a b).
Proof.
  intros. unfold slice. rewrite <- combine_firstn. f_equal.
  revert a b. induction s; intros a b; [reflexivity|]. destruct a, b; cbn [skipn combine]; auto.
  - destruct (skipn s a0); reflexivity.
Qed.

Lemma nth_seq_map : forall {A} (g : nat -> A) n i d, (i < n)%nat -> nth i (map g (seq 0 n)) d = g i.
Proof.
  intros. rewrite nth_indep with (d' := g 0%nat) by (rewrite map_length, seq_length; auto).
  rewrite map_nth, seq_nth by auto. reflexivity.
Qed.

Lemma nth_error_seq_map : forall {A} (g : nat -> A) n i, (i < n)%nat -> nth_error (map g (seq 0 n)) i = Some (g i).
Proof.
  intros. rewrite nth_error_map. rewrite nth_error_nth' with (d := 0%nat) by (rewrite seq_length; auto).
  rewrite seq_nth by auto. reflexivity.
Qed.

Lemma upd_seq_map : forall {A} (g : nat -> A) n i v, (i < n)%nat ->
  upd (map g (seq 0 n)) i v = map (fun k => if (k =? i)%nat then v else g k) (seq 0 n).
Proof.
  intros. apply nth_error_ext. intros k. destruct (Nat.lt_ge_cases k n) as [L|G].
  - rewrite nth_error_seq_map by auto. destruct (Nat.eqb_spec k i) as [->|N].
    + apply nth_error_upd_eq. rewrite map_length, seq_length. auto.
    + rewrite nth_error_upd_neq by auto. apply nth_error_seq_map. auto.
  - rewrite !(proj2 (nth_error_None _ _)); auto; rewrite ?upd_length, map_length, seq_length; auto.
Qed.

(** ** One dimension *)
Section Vec.
Context {F : Fl}.

Definition vec (n : nat) (g : nat -> F) : list F := map g (seq 0 n).

Lemma vec_length : forall n g, length (vec n g) = n.
Proof. intros. unfold vec. rewrite map_length, seq_length. reflexivity. Qed.

Lemma vec_ext : forall n g h, (forall i, (i < n)%nat -> g i = h i) -> vec n g = vec n h.
Proof. intros. apply map_ext_in. intros a I. apply in_seq in I. apply H. lia. Qed.

Lemma repeat_vec : forall (x : F) n, repeat x n = vec n (fun _ => x).
Proof. intros x n. unfold vec. generalize 0%nat. induction n; intros s; cbn; [reflexivity|]. f_equal. apply IHn. Qed.

Lemma py_set_vec : forall n g i v, 0 <= i < Z.of_nat n ->
  py_set (vec n g) i v = Ok (vec n (fun k => if Z.of_nat k =? i then v else g k)).
Proof.
  intros. unfold py_set. rewrite vec_length, py_index_ok by auto. cbn [bind]. unfold vec. rewrite upd_seq_map by lia.
  f_equal. apply map_ext. intros k. destruct (Nat.eqb_spec k (Z.to_nat i)), (Z.eqb_spec (Z.of_nat k) i); auto; lia.
Qed.

Lemma last_cons_d : forall {A} (a : A) l d, last (a :: l) d = last l a.
Proof. intros A a l. revert a. induction l; intros; [reflexivity|]. change (last (a0 :: a :: l) d) with (last (a :: l) d). rewrite !IHl. reflexivity. Qed.

Lemma assign_vec : forall n (r : list (Z * F)) g, Forall (fun e => 0 <= fst e < Z.of_nat n) r ->
  foldM (fun o e => py_set o (fst e) (snd e)) r (vec n g) = Ok (vec n (fun k => last (at_index (Z.of_nat k) r) (g k))).
Proof.
  induction r as [|[j v] r IH]; intros g FB; [reflexivity|]. inversion FB as [|? ? B FB']; subst. cbn [foldM fst snd].
  rewrite py_set_vec by exact B. cbn [bind]. rewrite IH by auto. f_equal. apply vec_ext. intros k Hk.
  rewrite at_index_cons, Z.eqb_sym. destruct (j =? Z.of_nat k); [rewrite last_cons_d|]; reflexivity.
Qed.

(** The part of [indices]/[data] of one major slice. *)
Lemma row_parts : forall (A : Cs F) i, cs_ok A -> (i < major A)%nat ->
  let s := nth i (ptr A) 0 in let e := nth (S i) (ptr A) 0 in
  py_get (ptr A) (Z.of_nat i) = Ok s /\ py_get (ptr A) (Z.of_nat i + 1) = Ok e /\ 0 <= s <= e /\
  combine (py_slice s e (idx A)) (py_slice s e (dat A)) = cs_row A i /\
  length (py_slice s e (idx A)) = length (py_slice s e (dat A)) /\
  py_slice s e (idx A) = map fst (cs_row A i).
Proof.
  intros A i OK H s e.
  assert (S1 := ptr_range A i OK ltac:(lia)). assert (E1 := ptr_range A (S i) OK ltac:(lia)).
  assert (M := ptr_mono A i (S i) OK ltac:(lia) ltac:(lia)). fold s in S1, M. fold e in E1, M.
  split; [apply py_get_ok; [lia|]; rewrite Nat2Z.id; apply ptr_nth; auto; lia|].
  split; [apply py_get_ok; [lia|]; replace (Z.to_nat (Z.of_nat i + 1)) with (S i) by lia; apply ptr_nth; auto; lia|].
  split; [lia|]. pose proof (ok_len _ OK) as L.
  rewrite !py_slice_ok by lia.
  assert (EQ : length (slice (Z.to_nat s) (Z.to_nat e) (idx A)) = length (slice (Z.to_nat s) (Z.to_nat e) (dat A))).
  { rewrite !slice_length by lia. reflexivity. }
  split; [apply combine_slice|]. split; [exact EQ|].
  rewrite <- (map_fst_combine _ _ EQ). f_equal. apply combine_slice.
Qed.

Lemma bounds_Z : forall (A : Cs F) i, cs_ok A -> (i < major A)%nat -> Forall (fun e => 0 <= fst e < Z.of_nat (minor A)) (cs_row A i).
Proof. intros. eapply Forall_impl; [|apply row_bounds; eauto]. intros a Ha. cbv beta in *. unfold in_bounds in Ha. lia. Qed.

Lemma np_values_ok : forall {A} n (vs : list A), length vs = n -> np_values n vs = Ok vs.
Proof. intros. unfold np_values. rewrite (proj2 (Nat.eqb_eq _ _) H). reflexivity. Qed.

(** Densifying one row: every column holds the last value stored there. *)
Lemma assign_row : forall (A : Cs F) i, cs_ok A -> (i < major A)%nat ->
  np_assign (repeat f0 (minor A)) (py_slice (nth i (ptr A) 0) (nth (S i) (ptr A) 0) (idx A))
     (py_slice (nth i (ptr A) 0) (nth (S i) (ptr A) 0) (dat A))
  = Ok (map (fun j => last (cs_at A i (Z.of_nat j)) f0) (seq 0 (minor A))).
Proof.
  intros A i OK H. destruct (row_parts A i OK H) as (_ & _ & _ & EC & EL & _).
  unfold np_assign. rewrite np_values_ok by auto. cbn [bind]. rewrite EC, repeat_vec, assign_vec by (apply bounds_Z; auto).
  reflexivity.
Qed.

Lemma empty_row : forall (A : Cs F) i, cs_ok A -> (i < major A)%nat -> ~ nth i (ptr A) 0 < nth (S i) (ptr A) 0 -> cs_row A i = [].
Proof.
  intros A i OK H N. assert (L := cs_row_length A i OK H). destruct (cs_row A i); [reflexivity|]. cbn [length] in L. lia.
Qed.

Lemma csr_toarray_ok : forall A : Csr F, cs_ok A ->
  csr_toarray A = Ok (dense (csr_nrows A) (csr_ncols A) (fun i j => last (csr_at A i j) f0)).
Proof.
  intros A OK. unfold csr_toarray, dense. apply mapM_ok. intros i I. apply in_seq in I. change (csr_nrows A) with (major A) in I.
  destruct (row_parts A i OK ltac:(lia)) as (E1 & E2 & _). cbv zeta in E1, E2. rewrite E1. cbn [bind]. rewrite E2. cbn [bind].
  destruct (Z.ltb_spec (nth i (ptr A) 0) (nth (S i) (ptr A) 0)) as [L|G].
  - apply assign_row; auto. lia.
  - f_equal. change (csr_ncols A) with (minor A). rewrite repeat_vec. apply vec_ext. intros j Hj. unfold csr_at, cs_at. rewrite empty_row; auto; lia.
Qed.

Lemma csr_getrow_ok : forall (A : Csr F) i, cs_ok A -> 0 <= i < Z.of_nat (csr_nrows A) ->
  csr_getrow A i = Ok (map (fun j => last (csr_at A (Z.to_nat i) j) f0) (seq 0 (csr_ncols A))).
Proof.
  intros A i OK H. unfold csr_getrow. rewrite <- (Z2Nat.id i) by lia. change (csr_nrows A) with (major A) in H.
  destruct (row_parts A (Z.to_nat i) OK ltac:(lia)) as (E1 & E2 & _). cbv zeta in E1, E2. rewrite E1. cbn [bind]. rewrite E2. cbn [bind].
  rewrite Nat2Z.id. apply assign_row; auto. lia.
Qed.

(** ** searchsorted *)
Lemma search_row : forall j (r : list (Z * F)), srow r ->
  match nth_error r (length (filter (fun x => x <? j) (map fst r))) with
  | Some (c, v) => at_index j r = if c =? j then [v] else []
  | None => at_index j r = []
  end.
Proof.
  induction r as [|[c v] r IH]; intros SR; [reflexivity|]. apply srow_inv in SR. destruct SR as [SR FA].
  cbn [map fst filter]. destruct (Z.ltb_spec c j) as [L|G].
  - cbn [length nth_error]. specialize (IH SR). rewrite at_index_cons. replace (c =? j) with false by lia. exact IH.
  - assert (filter (fun x => x <? j) (map fst r) = []) as ->.
    { clear IH SR. induction FA as [|[c' v'] r HA FA IH]; [reflexivity|]. cbn [map fst filter] in *.
      replace (c' <? j) with false by lia. exact IH. }
    cbn [length nth_error]. rewrite at_index_cons. destruct (Z.eqb_spec c j) as [->|N].
    + rewrite at_index_lt; auto.
    + rewrite at_index_lt; auto. (eapply Forall_impl; [|exact FA]). intros a Ha. cbv beta in Ha |- *. lia.
Qed.

Lemma lt_le_sorted : forall l, StronglySorted Z.lt l -> StronglySorted Z.le l.
Proof.
  induction 1 as [|a l SL IH FA]; constructor; auto. (eapply Forall_impl; [|exact FA]). intros b Hb. cbv beta in *. lia.
Qed.

Lemma csr_lookup_ok : forall ss (A : Csr F) i j, is_searchsorted ss -> canonical A -> 0 <= i < Z.of_nat (csr_nrows A) ->
  csr_lookup ss A i j = Ok (one_or f0 (cs_at A (Z.to_nat i) j)).
Proof.
  intros ss A i j SS C H. pose proof (can_ok _ C) as OK. change (csr_nrows A) with (major A) in H.
  unfold csr_lookup. rewrite <- (Z2Nat.id i) by lia. rewrite Nat2Z.id.
  destruct (row_parts A (Z.to_nat i) OK ltac:(lia)) as (E1 & E2 & R & EC & EL & EF). cbv zeta in *. rewrite E1. cbn [bind]. rewrite E2. cbn [bind].
  pose proof (canonical_row A (Z.to_nat i) C ltac:(lia)) as SR.
  rewrite EF, SS by (apply lt_le_sorted; exact SR). pose proof (search_row j _ SR) as SE.
  set (pos := length (filter (fun x => x <? j) (map fst (cs_row A (Z.to_nat i))))) in *.
  rewrite nth_error_map. unfold cs_at. destruct (nth_error (cs_row A (Z.to_nat i)) pos) as [[c v]|] eqn:EN; cbn [option_map fst].
  - rewrite SE. destruct (c =? j); [|reflexivity]. cbn [one_or].
    pose proof (nth_error_lt _ _ _ EN) as LT. rewrite cs_row_length in LT by (auto; lia).
    unfold cs_row in EN. rewrite nth_error_slice in EN by lia. apply nth_error_combine in EN. destruct EN as [_ EN].
    apply py_get_ok; [lia|]. rewrite <- EN. f_equal. lia.
  - rewrite SE. reflexivity.
Qed.

Lemma csr_getitem_ok : forall ss (A : Csr F) i j, is_searchsorted ss -> canonical A ->
  csr_getitem ss A i j = if (0 <=? i) && (i <? Z.of_nat (csr_nrows A)) && (0 <=? j) && (j <? Z.of_nat (csr_ncols A))
                         then Ok (csr_val f0 A (Z.to_nat i) (Z.to_nat j)) else Panic.
Proof.
  intros ss A i j SS C. unfold csr_getitem.
  destruct ((0 <=? i) && (i <? Z.of_nat (csr_nrows A)) && (0 <=? j) && (j <? Z.of_nat (csr_ncols A))) eqn:E; [|reflexivity].
  rewrite csr_lookup_ok by (auto; lia). unfold csr_val, csr_at. rewrite Z2Nat.id by lia. reflexivity.
Qed.

Lemma csr_getcol_ok : forall ss (A : Csr F) j, is_searchsorted ss -> canonical A ->
  csr_getcol ss A j = Ok (map (fun i => one_or f0 (cs_at A i j)) (seq 0 (csr_nrows A))).
Proof.
  intros ss A j SS C. unfold csr_getcol. apply mapM_ok. intros i I. apply in_seq in I. rewrite csr_lookup_ok by (auto; lia).
  rewrite Nat2Z.id. reflexivity.
Qed.

(** ** Two dimensions *)
Lemma dense_length : forall {A} m n (g : nat -> nat -> A), length (dense m n g) = m.
Proof. intros. unfold dense. rewrite map_length, seq_length. reflexivity. Qed.

Lemma dense_ext : forall {A} m n (g h : nat -> nat -> A), (forall i j, (i < m)%nat -> (j < n)%nat -> g i j = h i j) -> dense m n g = dense m n h.
Proof.
  intros. apply map_ext_in. intros i I. apply map_ext_in. intros j J. apply in_seq in I. apply in_seq in J. apply H; lia.
Qed.

Lemma repeat_dense : forall (x : F) m n, repeat (repeat x n) m = dense m n (fun _ _ => x).
Proof.
  intros x m n. unfold dense. fold (vec n (fun _ => x)). rewrite <- repeat_vec. generalize 0%nat.
  induction m; intros s; cbn; [reflexivity|]. f_equal. apply IHm.
Qed.

Lemma py_update2_dense : forall (f : F -> F) m n g r c, 0 <= r < Z.of_nat m -> 0 <= c < Z.of_nat n ->
  py_update2 f (dense m n g) r c
  = Ok (dense m n (fun i j => if (Z.of_nat i =? r) && (Z.of_nat j =? c) then f (g i j) else g i j)).
Proof.
  intros f m n g r c Hr Hc. unfold py_update2.
  assert (py_get (dense m n g) r = Ok (vec n (g (Z.to_nat r)))) as ->.
  { apply py_get_ok; [lia|]. unfold dense. rewrite nth_error_seq_map by lia. reflexivity. }
  cbn [bind].
  assert (py_get (vec n (g (Z.to_nat r))) c = Ok (g (Z.to_nat r) (Z.to_nat c))) as ->.
  { apply py_get_ok; [lia|]. unfold vec. apply nth_error_seq_map. lia. }
  cbn [bind]. rewrite py_set_vec by auto. cbn [bind].
  unfold py_set. rewrite dense_length, py_index_ok by auto. cbn [bind]. unfold dense. rewrite upd_seq_map by lia.
  f_equal. apply map_ext. intros i. destruct (Nat.eqb_spec i (Z.to_nat r)) as [->|N].
  - replace (Z.of_nat (Z.to_nat r) =? r) with true by lia. cbn [andb]. apply map_ext. intros j.
    destruct (Z.eqb_spec (Z.of_nat j) c) as [<-|]; [rewrite Nat2Z.id|]; reflexivity.
  - replace (Z.of_nat i =? r) with false by lia. reflexivity.
Qed.

Lemma foldM_update2 : forall {W} (f : W -> F -> F) (rc : W -> Z * Z) m n ws g,
  Forall (fun w => 0 <= fst (rc w) < Z.of_nat m /\ 0 <= snd (rc w) < Z.of_nat n) ws ->
  foldM (fun o w => py_update2 (f w) o (fst (rc w)) (snd (rc w))) ws (dense m n g)
  = Ok (dense m n (fun i j => fold_left (fun x w => if (Z.of_nat i =? fst (rc w)) && (Z.of_nat j =? snd (rc w)) then f w x else x) ws (g i j))).
Proof.
  intros W f rc m n. induction ws as [|w ws IH]; intros g FB; [reflexivity|]. inversion FB as [|? ? [B1 B2] FB']; subst.
  cbn [foldM]. rewrite py_update2_dense by auto. cbn [bind]. rewrite IH by auto. reflexivity.
Qed.

Lemma coo_toarray_ok : forall A : Coo F, coo_ok A ->
  coo_toarray A = Ok (dense (coo_nrows A) (coo_ncols A) (fun i j => fold_left fadd (coo_at A i j) f0)).
Proof.
  intros A OK. unfold coo_toarray.
  set (step := fun (out : list (list F)) (e : (Z * Z) * F) => py_update2 (fun x => fadd x (snd e)) out (fst (fst e)) (snd (fst e))).
  assert (E : forall out, foldM (fun out k =>
    let! r := py_get (coo_row A) (Z.of_nat k) in
    let! c := py_get (coo_col A) (Z.of_nat k) in
    let! v := py_get (coo_data A) (Z.of_nat k) in
    py_update2 (fun x => fadd x v) out r c) (seq 0 (length (coo_data A))) out = foldM step (coo_entries A) out).
  { assert (LE : length (coo_entries A) = length (coo_data A)).
    { unfold coo_entries. rewrite !combine_length, (coo_len_r _ OK), (coo_len_c _ OK). lia. }
    rewrite <- LE. intros out. rewrite <- (skipn_O (coo_entries A)) at 2. replace (length (coo_entries A)) with (length (coo_entries A) - 0)%nat by lia.
    assert (H : (0 <= length (coo_entries A))%nat) by lia. revert H out. generalize 0%nat as s. intros s.
    remember (length (coo_entries A) - s)%nat as d eqn:ED. revert s ED. induction d as [|d IHd]; intros s ED H out.
    - rewrite skipn_all2 by lia. reflexivity.
    - destruct (nth_error (coo_entries A) s) as [[[r c] v]|] eqn:EN; [|apply nth_error_None in EN; lia].
      assert (skipn s (coo_entries A) = ((r, c), v) :: skipn (S s) (coo_entries A)) as ->.
      { clear - EN. revert EN. generalize (coo_entries A). induction s; intros [|x l] EN; try discriminate; cbn in *; [congruence|apply IHs; auto]. }
      unfold coo_entries in EN. apply nth_error_combine in EN. destruct EN as [EN E3]. apply nth_error_combine in EN. destruct EN as [E1 E2].
      cbn [seq foldM]. rewrite (py_get_ok (coo_row A) (Z.of_nat s) r) by (rewrite ?Nat2Z.id; auto; lia).
      rewrite (py_get_ok (coo_col A) (Z.of_nat s) c) by (rewrite ?Nat2Z.id; auto; lia).
      rewrite (py_get_ok (coo_data A) (Z.of_nat s) v) by (rewrite ?Nat2Z.id; auto; lia). cbn [bind].
      unfold step at 1. cbn [fst snd]. destruct (py_update2 _ out r c); cbn [bind]; auto. apply IHd; lia. }
  rewrite E. unfold step. rewrite repeat_dense. rewrite foldM_update2 with (rc := fst).
  - f_equal. apply dense_ext. intros i j _ _. unfold coo_at, at_cell. generalize (coo_entries A) (f0 (f := F)). clear.
    induction l as [|[[r c] v] l IH]; intros x; [reflexivity|]. cbn [fold_left filter fst snd].
    rewrite (Z.eqb_sym r), (Z.eqb_sym c). destruct (_ && _); cbn [map fold_left snd]; apply IH.
  - apply Forall_forall. intros [[r c] v] I. apply In_nth_error in I. destruct I as [p I]. unfold coo_entries in I.
    apply nth_error_combine in I. destruct I as [I _]. apply nth_error_combine in I. destruct I as [I1 I2].
    pose proof (coo_bound_r _ OK _ _ I1). pose proof (coo_bound_c _ OK _ _ I2). cbn [fst snd]. lia.
Qed.

Lemma csc_toarray_ok : forall A : Csc F, cs_ok A ->
  csc_toarray A = Ok (dense (csc_nrows A) (csc_ncols A) (fun i j => last (csc_at A i j) f0)).
Proof.
  intros A OK. unfold csc_toarray. rewrite repeat_dense. change (csc_nrows A) with (minor A). change (csc_ncols A) with (major A).
  assert (H : forall k g, (k <= major A)%nat -> foldM (fun out j =>
    let! s := py_get (ptr A) (Z.of_nat j) in
    let! e := py_get (ptr A) (Z.of_nat j + 1) in
    if s <? e then
      let ix := py_slice s e (idx A) in
      let! vs := np_values (length ix) (py_slice s e (dat A)) in
      foldM (fun o w => py_update2 (fun _ => snd w) o (fst w) (Z.of_nat j)) (combine ix vs) out
    else Ok out) (seq 0 k) (dense (minor A) (major A) g)
    = Ok (dense (minor A) (major A) (fun i j => if (j <? k)%nat then last (csc_at A i j) (g i j) else g i j))).
  { induction k as [|k IH]; intros g Hk; [reflexivity|].
    rewrite seq_S, foldM_app, IH by lia. cbn [bind]. cbn [foldM]. change (0 + k)%nat with k.
    destruct (row_parts A k OK ltac:(lia)) as (E1 & E2 & R & EC & EL & EF). cbv zeta in *. rewrite E1. cbn [bind]. rewrite E2. cbn [bind].
    destruct (Z.ltb_spec (nth k (ptr A) 0) (nth (S k) (ptr A) 0)) as [L|G].
    - rewrite np_values_ok by auto. cbn [bind]. rewrite EC.
      rewrite foldM_update2 with (rc := fun w => (fst w, Z.of_nat k)) (f := fun w _ => snd w).
      + cbn [bind]. f_equal. apply dense_ext. intros i j Hi Hj. cbn [fst snd].
        destruct (Nat.eq_dec j k) as [->|N].
        * rewrite Nat.ltb_irrefl. replace (k <? S k)%nat with true by (symmetry; apply Nat.ltb_lt; lia).
          unfold csc_at, cs_at. rewrite Z.eqb_refl. generalize (g i k). clear. induction (cs_row A k) as [|[r v] l IH]; intros x; [reflexivity|].
          cbn [fold_left fst snd]. rewrite at_index_cons, Bool.andb_true_r, (Z.eqb_sym r).
          destruct (Z.of_nat i =? r); [rewrite last_cons_d|]; apply IH.
        * assert (fold_left (fun x w => if (Z.of_nat i =? fst w) && (Z.of_nat j =? Z.of_nat k) then snd w else x) (cs_row A k)
             (if (j <? k)%nat then last (csc_at A i j) (g i j) else g i j) = (if (j <? k)%nat then last (csc_at A i j) (g i j) else g i j)) as ->.
          { generalize (if (j <? k)%nat then last (csc_at A i j) (g i j) else g i j). replace (Z.of_nat j =? Z.of_nat k) with false by lia. clear. induction (cs_row A k) as [|w l IH]; intros x; [reflexivity|].
            cbn [fold_left]. rewrite Bool.andb_false_r. apply IH. }
          destruct (Nat.ltb_spec j k), (Nat.ltb_spec j (S k)); auto; lia.
      + (eapply Forall_impl; [|apply bounds_Z; [exact OK|]]); [|lia]. intros a Ha. cbv beta in Ha |- *. cbn [fst snd]. lia.
    - cbn [bind]. f_equal. apply dense_ext. intros i j Hi Hj. destruct (Nat.eq_dec j k) as [->|N].
      + rewrite Nat.ltb_irrefl. replace (k <? S k)%nat with true by (symmetry; apply Nat.ltb_lt; lia).
        unfold csc_at, cs_at. rewrite empty_row; auto; lia.
      + destruct (Nat.ltb_spec j k), (Nat.ltb_spec j (S k)); auto; lia. }
  rewrite H by lia. f_equal. apply dense_ext. intros i j Hi Hj. replace (j <? major A)%nat with true by (symmetry; apply Nat.ltb_lt; lia). reflexivity.
Qed.

Lemma last_one : forall (l : list F) z, (length l <= 1)%nat -> last l z = one_or z l.
Proof. intros [|a [|b l]] z L; cbn in *; auto; lia. Qed.

Lemma canonical_at_one : forall (A : Cs F) i j, canonical A -> (i < major A)%nat -> (length (cs_at A i j) <= 1)%nat.
Proof.
  intros A i j C H. unfold cs_at. destruct (srow_at_index j _ (canonical_row A i C H)) as [->|[v ->]]; cbn; lia.
Qed.
End Vec.
