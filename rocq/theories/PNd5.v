(** Proofs about the N-D array times dense matrix product. *)
Require Import List ZArith Bool Lia Permutation Sorted Arith.
Require Import Verif.Res Verif.Values Verif.Spec Verif.Mem Verif.Lists Verif.NdLib Verif.PConvert Verif.MConvert Verif.MScalar Verif.PScalar Verif.MHash Verif.PHash Verif.MNd Verif.PNd Verif.PNd2 Verif.PNd3 Verif.Loops Verif.MNd2 Verif.PNd4.
Import ListNotations.
Local Open Scope Z_scope.

Lemma sfx_app_last : forall sh n, last (sfx (sh ++ [n])) 0 = 1.
Proof.
  induction sh as [|a sh IH]; intros n; [reflexivity|]. cbn [app sfx]. specialize (IH n).
  destruct (sfx (sh ++ [n])) eqn:E; [destruct sh; discriminate|]. exact IH.
Qed.

Lemma linearize_prefix : forall sh k n acc, in_shape sh k -> 0 <= n -> 0 <= acc -> acc + position sh k * n <= usize_max ->
  foldM lin_step (combine (sfx (sh ++ [n])) k) acc = Ok (acc + position sh k * n).
Proof.
  intros sh k n acc IK HN. revert acc. induction IK as [|x m k sh [H1 H2] IK IH]; intros acc HA HB.
  - cbn [app sfx combine foldM position]. f_equal. lia.
  - cbn [app sfx combine foldM position] in *. rewrite cells_app. change (cells [n]) with (n * 1).
    pose proof (position_bounds _ _ IK) as PB. unfold lin_step at 1. cbn [fst snd].
    assert (0 <= x * cells sh * n) by (apply Z.mul_nonneg_nonneg; nia). assert (0 <= position sh k * n) by nia.
    rewrite as_usize_id by lia. rewrite checked_mul_ok by nia. cbn [bind]. rewrite checked_add_ok by nia. cbn [bind].
    rewrite IH by nia. f_equal. nia.
Qed.

Lemma position_snoc : forall sh k n c, length k = length sh -> position (sh ++ [n]) (k ++ [c]) = position sh k * n + c.
Proof.
  induction sh as [|m sh IH]; intros [|x k] n c L; try discriminate.
  - cbn [app position]. change (cells []) with 1. lia.
  - cbn [app position]. rewrite IH by (simpl in L; lia). rewrite cells_app. change (cells [n]) with (n * 1). lia.
Qed.

Lemma in_shape_snoc : forall sh k n c, in_shape sh k -> 0 <= c < n -> c <= i64_max -> in_shape (sh ++ [n]) (k ++ [c]).
Proof. intros. apply Forall2_app; auto. Qed.

Section Spmm.
Context {F : Fl}.
Implicit Types (A : Nd F) (b : list F).

(** The entry of the matrix [b] ([k] columns, row-major) in row [i], column [c]. *)
Notation mat := (@matrix_at F).

Definition opl (lin_base : Z) (g : nat -> F) (c : nat) : list (Z * F) :=
  if nonzero (g c) then [(lin_base + Z.of_nat c, g c)] else [].

Lemma foldM_app_list : forall {X Y} (one : list Y -> X -> res (list Y)) (g : X -> list Y) l s,
  (forall s x, In x l -> one s x = Ok (s ++ g x)) -> foldM one l s = Ok (s ++ concat (map g l)).
Proof.
  induction l as [|x l IH]; intros s H; cbn [foldM map concat]; [rewrite app_nil_r; auto|].
  rewrite H by (simpl; auto). cbn [bind]. rewrite IH by (intros; apply H; simpl; auto). rewrite app_assoc. auto.
Qed.

Lemma inner_loops : forall a_val b base lin_base k (g : nat -> F) ops, 0 <= lin_base -> lin_base + Z.of_nat k <= usize_max ->
  (forall c, (c < k)%nat -> exists x, read_b b base c = Ok x /\ g c = fmul a_val x) ->
  (let! (c, ops) := step_loop k 4 (spmm_body4 a_val b base lin_base 1) (and_not3 k) 0 ops in
   let! (_, ops) := step_loop k 1 (spmm_body1 a_val b base lin_base 1) k c ops in
   Ok ops) = Ok (ops ++ concat (map (opl lin_base g) (seq 0 k))).
Proof.
  intros a_val b base lin_base k g ops H0 HB HR.
  set (one := fun (ops : list (Z * F)) c => spmm_body1 a_val b base lin_base 1 c ops).
  assert (SO : forall c ops, (c < k)%nat -> spmm_op lin_base 1 c (g c) ops = Ok (ops ++ opl lin_base g c)).
  { intros c o Hc. unfold spmm_op, opl. destruct (nonzero (g c)); [|rewrite app_nil_r; auto].
    rewrite checked_mul_ok by lia. cbn [bind]. rewrite Z.mul_1_r. rewrite checked_add_ok by lia. auto. }
  assert (ONE : forall o c, (c < k)%nat -> one o c = Ok (o ++ opl lin_base g c)).
  { intros o c Hc. unfold one, spmm_body1. destruct (HR c Hc) as (x & E & G). rewrite E. cbn [bind]. rewrite <- G. apply SO. auto. }
  pose proof (and_not3_le k) as LE.
  rewrite (step_loop_fold one 4).
  - rewrite Nat.sub_0_r. rewrite (foldM_app_list one (opl lin_base g)).
    2:{ intros s c I. apply in_seq in I. apply ONE. lia. }
    cbn [bind]. change (spmm_body1 a_val b base lin_base 1) with (fun c s => one s c).
    rewrite step_loop_one by lia. rewrite (foldM_app_list one (opl lin_base g)).
    2:{ intros s c I. apply in_seq in I. apply ONE. lia. }
    cbn [bind]. rewrite <- app_assoc, <- concat_app, <- map_app.
    replace (seq 0 (and_not3 k) ++ seq (and_not3 k) (k - and_not3 k)) with (seq 0 k); auto.
    change (seq (and_not3 k)) with (seq (0 + and_not3 k)). rewrite <- (seq_app (and_not3 k) (k - and_not3 k) 0). f_equal. lia.
  - lia.
  - intros c s Hc. rewrite (foldM_app_list one (opl lin_base g)).
    2:{ intros s' c' I. apply in_seq in I. apply ONE. lia. }
    unfold spmm_body4.
    destruct (HR c ltac:(lia)) as (x0 & E0 & G0). destruct (HR (c + 1)%nat ltac:(lia)) as (x1 & E1 & G1).
    destruct (HR (c + 2)%nat ltac:(lia)) as (x2 & E2 & G2). destruct (HR (c + 3)%nat ltac:(lia)) as (x3 & E3 & G3).
    rewrite E0, E1, E2, E3. cbn [bind]. rewrite <- G0, <- G1, <- G2, <- G3.
    rewrite SO by lia. cbn [bind]. rewrite SO by lia. cbn [bind]. rewrite SO by lia. cbn [bind]. rewrite SO by lia.
    cbn [seq map concat]. rewrite app_nil_r, !app_assoc. rewrite <- !plus_n_Sm, <- plus_n_O. auto.
  - lia.
  - lia.
  - rewrite Nat.sub_0_r, and_not3_spec. exists (k / 4)%nat. lia.
Qed.



Lemma spmm_coond_ok : forall srt A axis b k, is_sorter pair_le srt -> nd_ok A ->
  (axis < length (nd_shape A))%nat -> Forall (fun n => 0 <= n) (nd_shape A) ->
  Z.of_nat (length b) = nth axis (nd_shape A) 0 * Z.of_nat k -> Z.of_nat (length b) <= i64_max ->
  Z.of_nat k <= i64_max ->
  shape_fits (select (other_axes (length (nd_shape A)) [axis]) (nd_shape A) ++ [Z.of_nat k]) ->
  let remain := other_axes (length (nd_shape A)) [axis] in
  exists C, spmm_coond srt A axis b k = Ok C /\ nd_ok C /\ nd_shape C = select remain (nd_shape A) ++ [Z.of_nat k] /\ nd_sorted C /\
    forall key c, in_shape (select remain (nd_shape A)) key -> (c < k)%nat ->
      nd_at C (key ++ [Z.of_nat c]) = filter nonzero (left_sum (filter nonzero (matrix_products A axis b k key c))).
Proof.
  intros srt A axis b k HS OK LA HN LB HI HK SF remain. fold remain in SF. unfold spmm_coond.
  destruct (Nat.ltb_spec axis (length (nd_shape A))); [|lia].
  unfold get_checked at 1. rewrite (nth_error_nth' (nd_shape A) 0) by auto. cbn [bind].
  set (dim := nth axis (nd_shape A) 0) in *.
  assert (WM : forall x, 0 <= x <= i64_max -> x mod 2 ^ 64 = x).
  { intros x Hx. apply Z.mod_small. unfold i64_max in Hx. lia. }
  unfold wrap_mul at 1. rewrite <- LB. rewrite WM by lia. rewrite Z.eqb_refl.
  assert (ER : filter (fun d => negb (d =? axis)%nat) (seq 0 (length (nd_shape A))) = remain).
  { unfold remain, other_axes. apply filter_ext. intros d. cbn [existsb]. rewrite orb_false_r. auto. }
  rewrite ER. pose proof (others_ok (length (nd_shape A)) [axis]) as OX. fold remain in OX.
  rewrite select_shape by apply OX. cbn [bind].
  set (rsh := select remain (nd_shape A)) in *. set (osh := rsh ++ [Z.of_nat k]) in *.
  assert (NS : osh <> []) by (unfold osh; destruct rsh; discriminate).
  destruct ((length (nd_dat A) =? 0)%nat || (k =? 0)%nat) eqn:EZ.
  { eexists. split; [reflexivity|]. split; [apply (nd_of_ok osh (@nil (list Z * F))); auto|]. split; [auto|]. split; [constructor|].
    intros key c _ Hc. rewrite nil_nd_at. apply orb_true_iff in EZ. destruct EZ as [EZ|EZ]; apply Nat.eqb_eq in EZ; [|lia].
    pose proof (nd_entries_length A) as EL. rewrite EZ in EL. unfold matrix_products, fiber_entries. destruct (nd_entries A); [auto|discriminate]. }
  apply orb_false_iff in EZ. destruct EZ as [_ EK]. apply Nat.eqb_neq in EK.
  rewrite strides_ne_ok by auto. cbn [bind]. replace (last (sfx osh) 0) with 1 by (symmetry; apply sfx_app_last).
  pose proof (shape_fits_cells _ SF) as HC.
  set (lb := fun e : list Z * F => position rsh (select remain (fst e)) * Z.of_nat k).
  set (g := fun (e : list Z * F) c => fmul (snd e) (mat b k (nth axis (fst e) 0) c)).
  set (opse := fun e => concat (map (opl (lb e) (g e)) (seq 0 k))).
  assert (PB : forall e, In e (nd_entries A) -> in_shape rsh (select remain (fst e)) /\ 0 <= lb e /\ lb e + Z.of_nat k <= cells osh).
  { intros e I. pose proof (nd_entries_ok A OK) as FA. rewrite Forall_forall in FA. apply FA in I.
    assert (IS : in_shape rsh (select remain (fst e))) by (apply select_in_shape; auto; apply OX).
    split; auto. pose proof (position_bounds _ _ IS). unfold lb. split; [nia|]. unfold osh. rewrite cells_app. change (cells [Z.of_nat k]) with (Z.of_nat k * 1). nia. }
  assert (EF : forall l s, (forall p, In p l -> (p < length (nd_dat A))%nat) ->
    foldM (fun ops p =>
        let! ax := get_checked (nd_idx A) (p * length (nd_shape A) + axis) in
        let! ks := coords A remain p in
        let! lin_base := linearize (sfx osh) ks in
        let! a_val := get_checked (nd_dat A) p in
        let base := wrap_mul (as_usize ax) (Z.of_nat k) in
        let! (c, ops) := step_loop k 4 (spmm_body4 a_val b base lin_base 1) (and_not3 k) 0 ops in
        let! (_, ops) := step_loop k 1 (spmm_body1 a_val b base lin_base 1) k c ops in
        Ok ops) l s = Ok (s ++ concat (map (fun p => opse (nth p (nd_entries A) ([], f0))) l))).
  { intros l s HL. apply foldM_app_list. intros s0 p I. apply HL in I.
    rewrite <- nd_entries_length in I. pose proof (nth_error_nth' (nd_entries A) ([], f0) I) as E.
    set (e := nth p (nd_entries A) ([], f0)) in *. destruct e as [key v] eqn:Ee.
    assert (EKy : nth_error (nd_keys A) p = Some key) by (rewrite <- nd_entries_keys; apply map_nth_error with (f := fst) in E; exact E).
    assert (EV : nth_error (nd_dat A) p = Some v) by (rewrite <- nd_entries_vals; apply map_nth_error with (f := snd) in E; exact E).
    assert (II : In (key, v) (nd_entries A)) by (eapply nth_error_In; eauto).
    destruct (PB _ II) as (IS & L0 & L1). cbn [fst] in IS.
    pose proof (nd_entries_ok A OK) as FA. rewrite Forall_forall in FA. pose proof (FA _ II) as IKy. cbn [fst] in IKy.
    unfold get_checked at 1. rewrite (coord_nth A p key axis OK EKy LA). cbn [bind].
    destruct (coords_ok A remain p key OK (proj2 OX) EKy) as [-> _]. cbn [bind].
    unfold linearize, osh. rewrite linearize_prefix by (auto; try lia; unfold lb in L1; cbn [fst] in L1; lia). cbn [bind].
    unfold get_checked at 1. rewrite EV. cbn [bind].
    assert (IA : 0 <= nth axis key 0 < dim /\ nth axis key 0 <= i64_max).
    { apply (Forall2_nth_error (fun x n => 0 <= x < n /\ x <= i64_max) key (nd_shape A) axis); auto; apply nth_error_nth'; auto.
      rewrite (in_shape_length _ _ IKy). auto. }
    assert (IB : nth axis key 0 * Z.of_nat k + Z.of_nat k <= Z.of_nat (length b)) by nia.
    rewrite as_usize_id by lia. unfold wrap_mul. rewrite WM by nia.
    rewrite Z.add_0_l. apply (inner_loops v b _ _ k (g (key, v))).
    - exact L0.
    - unfold lb in L1. cbn [fst] in L1. lia.
    - intros c Hc. unfold read_b, get_unchecked. rewrite (nth_error_nth' b f0) by lia. eexists. split; [reflexivity|].
      unfold g, mat. cbn [fst snd]. auto. }
  rewrite EF by (intros p I; apply in_seq in I; lia). cbn [bind app].
  set (ops := concat (map (fun p => opse (nth p (nd_entries A) ([], f0))) (seq 0 (length (nd_dat A))))).
  assert (EO : ops = concat (map opse (nd_entries A))).
  { unfold ops. f_equal. rewrite <- nd_entries_length. rewrite <- (map_map (fun p => nth p (nd_entries A) ([], f0)) opse). rewrite map_seq_nth. auto. }
  rewrite EO. clear EO ops EF.
  assert (VO : Forall (fun p => exists q, in_shape osh q /\ position osh q = fst p) (concat (map opse (nd_entries A)))).
  { apply Forall_concat. rewrite Forall_map. apply Forall_forall. intros e I. unfold opse. apply Forall_concat. rewrite Forall_map.
    apply Forall_forall. intros c Ic. apply in_seq in Ic. unfold opl. destruct (nonzero (g e c)); constructor; auto.
    destruct (PB e I) as (IS & _). exists (select remain (fst e) ++ [Z.of_nat c]). split; [apply in_shape_snoc; auto; lia|].
    cbn [fst]. unfold osh. rewrite position_snoc by (apply in_shape_length in IS; auto). auto. }
  destruct (accumulate_ok (wrap_mul (nnzZ A) (Z.min (Z.of_nat k) 8)) _ (position_key_bound osh _ HC VO)) as (m & -> & _ & TA). cbn [bind].
  destruct (finish_ok srt nonzero osh m _ HS NS HC TA VO) as (C & EC & OC & SC & NC & AT).
  exists C. split; [exact EC|]. split; auto. split; auto. split; auto.
  intros key c IKy Hc. rewrite AT by (apply in_shape_snoc; auto; lia). f_equal. f_equal.
  rewrite at_index_concat, map_map. unfold matrix_products, fiber_entries. fold remain.
  assert (EE : forall e, In e (nd_entries A) -> at_index (position osh (key ++ [Z.of_nat c])) (opse e)
     = if list_eq_dec Z.eq_dec (select remain (fst e)) key then (if nonzero (g e c) then [g e c] else []) else []).
  { intros e I. destruct (PB e I) as (IS & L0 & L1). unfold osh. rewrite position_snoc by (apply in_shape_length in IKy; auto).
    assert (PK : forall c', (c' < k)%nat -> (lb e + Z.of_nat c' =? position rsh key * Z.of_nat k + Z.of_nat c) = true <->
        (select remain (fst e) = key /\ c' = c)).
    { intros c' Hc'. rewrite Z.eqb_eq. unfold lb. split.
      - intros E. assert (E2 : position rsh (select remain (fst e)) = position rsh key) by nia. split; [eapply position_inj; eauto|]. rewrite E2 in E. lia.
      - intros [-> ->]. auto. }
    unfold opse. rewrite at_index_concat, map_map.
    assert (EC1 : forall c', In c' (seq 0 k) -> at_index (position rsh key * Z.of_nat k + Z.of_nat c) (opl (lb e) (g e) c')
        = if list_eq_dec Z.eq_dec (select remain (fst e)) key then (if (c' =? c)%nat then (if nonzero (g e c) then [g e c] else []) else []) else []).
    { intros c' Ic. apply in_seq in Ic. specialize (PK c' ltac:(lia)). unfold opl, at_index.
      destruct (list_eq_dec Z.eq_dec (select remain (fst e)) key) as [E1|N1].
      - destruct (Nat.eqb_spec c' c) as [->|N2].
        + destruct (nonzero (g e c)); auto. cbn [filter map fst snd]. rewrite (proj2 PK) by auto. auto.
        + destruct (nonzero (g e c')); auto. cbn [filter fst].
          destruct (lb e + Z.of_nat c' =? position rsh key * Z.of_nat k + Z.of_nat c); auto. destruct (proj1 PK); auto. contradiction.
      - destruct (nonzero (g e c')); auto. cbn [filter fst].
        destruct (lb e + Z.of_nat c' =? position rsh key * Z.of_nat k + Z.of_nat c); auto. destruct (proj1 PK); auto. contradiction. }
    rewrite (map_ext_in _ _ _ EC1). destruct (list_eq_dec Z.eq_dec (select remain (fst e)) key).
    - rewrite (concat_map_cond (fun c' => (c' =? c)%nat)).
      assert (ES : filter (fun c' => (c' =? c)%nat) (seq 0 k) = [c]).
      { replace k with (c + (1 + (k - c - 1)))%nat by lia. rewrite seq_app, filter_app. cbn [Nat.add seq]. cbn [filter]. rewrite Nat.eqb_refl.
        rewrite filter_none, filter_none; auto; intros x I'; apply in_seq in I'; apply Nat.eqb_neq; lia. }
      rewrite ES. cbn [map concat]. rewrite app_nil_r. auto.
    - apply concat_map_nil. auto. }
  rewrite (map_ext_in _ _ _ EE). clear. induction (nd_entries A) as [|e l IH]; auto. cbn [map concat filter].
  destruct (list_eq_dec Z.eq_dec (select remain (fst e)) key); auto. cbn [map filter]. fold (g e c).
  destruct (nonzero (g e c)); cbn [app]; rewrite IH; auto.
Qed.

Lemma spmm_coond_bad : forall srt A axis b k, Z.of_nat (length b) <> wrap_mul (nth axis (nd_shape A) 0) (Z.of_nat k) \/ (length (nd_shape A) <= axis)%nat ->
  spmm_coond srt A axis b k = Panic.
Proof.
  intros srt A axis b k H. unfold spmm_coond. destruct (Nat.ltb_spec axis (length (nd_shape A))) as [LA|]; auto.
  unfold get_checked at 1. rewrite (nth_error_nth' (nd_shape A) 0) by auto. cbn [bind].
  destruct (Z.eqb_spec (Z.of_nat (length b)) (wrap_mul (nth axis (nd_shape A) 0) (Z.of_nat k))); auto. destruct H; [contradiction|lia].
Qed.

End Spmm.
