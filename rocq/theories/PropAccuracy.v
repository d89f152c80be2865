(** Property theorems: how far sums and products in doubles are from the exact ones (C82),
    and data for which they are exact (C83). The vocabulary is in SpecAccuracy. *)
Require Import List ZArith Bool Arith Lia Permutation QArith Qabs Qpower.
Require Import Coq.Floats.SpecFloat.
Require Import Verif.Res Verif.Values Verif.Spec Verif.Mem Verif.Laws Verif.Witness Verif.SpecReduce Verif.SpecPy Verif.MPy Verif.PropPy2 Verif.MObj Verif.SpecObj Verif.PObj Verif.PropObj Verif.SpecCall Verif.SpecCall2 Verif.PropCall Verif.PropCall2 Verif.PropCall3 Verif.PropCall4 Verif.PropCall6.
Require Import Verif.SpecAccuracy Verif.FloatErr Verif.PAccuracy Verif.PAccuracy2 Verif.PAccuracy3.
Require Verif.PAcc.
Import ListNotations.
Local Open Scope Z_scope.

Lemma firstn_sub : forall {A} n (l : list A) x, In x (firstn n l) -> In x l.
Proof. intros A n l x H. rewrite <- (firstn_skipn n l). apply in_or_app. auto. Qed.
Lemma skipn_sub : forall {A} n (l : list A) x, In x (skipn n l) -> In x l.
Proof. intros A n l x H. rewrite <- (firstn_skipn n l). apply in_or_app. auto. Qed.

Lemma filter_snd : forall {K V} (p : K * V -> bool) (ks : list K) (l : list V) v, In v (map snd (filter p (combine ks l))) -> In v l.
Proof. intros K V p ks l v H. apply in_map_iff in H. destruct H as ([k w] & E & H). cbn in E. subst w. apply filter_In in H. destruct H as [H _]. eapply in_combine_r. exact H. Qed.
(** What a matrix stores is in its [data] array. *)
Lemma stored_in_data : forall (F : Fl) (x : value F) d i j v, data_array x = Some d -> In v (stored x i j) -> In v d.
Proof.
  intros F x d i j v E H. destruct x; try destruct H; injection E as <-; cbn [stored] in H.
  - unfold csr_at, cs_at, at_index, cs_row, slice in H. apply in_map_iff in H. destruct H as ([k w] & E & H). cbn in E. subst w. apply filter_In in H. destruct H as [H _].
    apply firstn_sub in H. apply skipn_sub in H. eapply in_combine_r. exact H.
  - unfold csc_at, cs_at, at_index, cs_row, slice in H. apply in_map_iff in H. destruct H as ([k w] & E & H). cbn in E. subst w. apply filter_In in H. destruct H as [H _].
    apply firstn_sub in H. apply skipn_sub in H. eapply in_combine_r. exact H.
  - unfold coo_at, at_cell, coo_entries in H. eapply filter_snd. exact H.
Qed.
Lemma stored_all : forall (F : Fl) (x : value F) d (P : F -> Prop), data_array x = Some d -> Forall P d -> forall i j, Forall P (stored x i j).
Proof. intros F x d P E H i j. apply Forall_forall. intros v Hv. rewrite Forall_forall in H. apply H. eapply stored_in_data; eauto. Qed.

Lemma left_sum_is : forall pw (l : list (f64 pw)), FSum l (one_or f0 (left_sum l)).
Proof. intros pw l. assert (S := PAcc.FSum_left_sum l). destruct l as [|v l']; [apply FSum_nil0; reflexivity|]. exact S. Qed.

(** ** C82: the rounding error of sums and products *)

(** [A.sum(axis)] of a matrix whose values are doubles: each number of the result that is
    finite is within the bound of the exact sum of the values stored in the cells it covers,
    in every environment (number of threads, schedule, processor features). *)
Theorem C82_sums : forall pw (e : Env (f64 pw)) (h : list (value (f64 pw))) a (x : value (f64 pw)) values, fair e -> reached h -> nth_error h a = Some x -> class_of x <> None ->
  data_array x = Some values -> Forall double values ->
  let m := fst (shape2 x) in let n := snd (shape2 x) in
  let close {J} (cell : J -> list (f64 pw)) (js : list J) (v : f64 pw) := ffinite v = true -> sum_within (map number (flat_map cell js)) (number v) in
  exists total cols rows,
    close (fun p => stored x (fst p) (snd p)) (grid m n) total /\
    length cols = n /\ (forall j, (j < n)%nat -> close (fun i => stored x i j) (seq 0 m) (nth j cols f0)) /\
    length rows = m /\ (forall i, (i < m)%nat -> close (fun j => stored x i j) (seq 0 n) (nth i rows f0)) /\
    forall axis kd, step e h (Reduce RSum a axis kd) = reduction_result VArr total cols rows axis kd h.
Proof.
  intros pw e h a x values FE R N NC ED D0 m n close. assert (D := stored_all _ x values _ ED D0). destruct (C62_reductions pw e h a x RSum FE R N NC eq_refl I) as (t & cs & rs & H1 & H2 & H3 & H4 & H5 & H6).
  exists t, cs, rs. unfold reduces in *. fold m n in H1, H2, H3, H4, H5. unfold close. split; [|split; [|split; [|split; [|split]]]]; auto.
  - apply (sum_accurate pw _ _ H1). apply Forall_flat_map, Forall_forall. auto.
  - intros j Hj. apply (sum_accurate pw _ _ (H3 j Hj)). apply Forall_flat_map, Forall_forall. auto.
  - intros i Hi. apply (sum_accurate pw _ _ (H5 i Hi)). apply Forall_flat_map, Forall_forall. auto.
Qed.
Print Assumptions C82_sums.

(** The same for every position of [A.cumsum(axis)]. *)
Theorem C82_cumulative_sums : forall pw (e : Env (f64 pw)) (h : list (value (f64 pw))) a (x : value (f64 pw)) values axis, fair e -> reached h -> nth_error h a = Some x -> class_of x <> None ->
  data_array x = Some values -> Forall double values ->
  let m := fst (shape2 x) in let n := snd (shape2 x) in
  let close (cell : nat -> list (f64 pw)) (js : list nat) (v : f64 pw) := ffinite v = true -> sum_within (map number (flat_map cell js)) (number v) in
  (single_axis axis = Some 0%nat -> exists out, step e h (Cum CumSum a axis) = Ok (h ++ [VArr [m; n] out]) /\ length out = (m * n)%nat /\
     forall i j, (i < m)%nat -> (j < n)%nat -> close (fun i' => stored x i' j) (seq 0 (S i)) (nth (i * n + j) out f0)) /\
  (class_of x <> Some CscClass -> single_axis axis = Some 1%nat -> exists out, step e h (Cum CumSum a axis) = Ok (h ++ [VArr [m; n] out]) /\ length out = (m * n)%nat /\
     forall i j, (i < m)%nat -> (j < n)%nat -> close (fun j' => stored x i j') (seq 0 (S j)) (nth (i * n + j) out f0)).
Proof.
  intros pw e h a x values axis FE R N NC ED D0 m n close. assert (D := stored_all _ x values _ ED D0). destruct (C66_cumulative pw e h a x CumSum axis FE R N) as (_ & H1 & H2). fold m n in H1, H2. unfold accumulates in *. split.
  - intros A. destruct (H1 NC A) as (out & E & L & V). exists out. split; [exact E|]. split; [exact L|]. intros i j Hi Hj FI. apply (sum_accurate pw _ _ (V i j Hi Hj)); [|exact FI]. apply Forall_flat_map, Forall_forall. auto.
  - intros C A. destruct H2 as (out & E & L & V); [destruct (class_of x) as [[| |]|]; [auto|exfalso; auto|auto|exfalso; auto]|exact A|]. exists out. split; [exact E|]. split; [exact L|].
    intros i j Hi Hj FI. apply (sum_accurate pw _ _ (V i j Hi Hj)); [|exact FI]. apply Forall_flat_map, Forall_forall. auto.
Qed.
Print Assumptions C82_cumulative_sums.

(** [A.sum(axis)] of an N-dimensional array. *)
Theorem C82_nd_sums : forall pw (e : Env (f64 pw)) (h : list (value (f64 pw))) a (A : Nd (f64 pw)) axis kd, fair e -> reached h -> nth_error h a = Some (VNd A) -> Forall (fun n => 0 <= n) (nd_shape A) ->
  Forall double (nd_dat A) ->
  let ndim := length (nd_shape A) in
  let numbers := match axis with AxNone => [] | AxInt a => [a] | AxTuple l => l end in
  let axes := named_axes ndim numbers in
  let remain := other_axes ndim axes in
  (axis = AxNone -> exists s, step e h (Reduce RSum a axis kd) = Ok (h ++ [VArr (if kd then repeat 1%nat ndim else []) [s]]) /\
     (ffinite s = true -> sum_within (map number (array_values A)) (number s))) /\
  (numbers <> [] -> Forall (fun a => - Z.of_nat ndim <= a < Z.of_nat ndim) numbers -> (length axes < ndim)%nat ->
     exists C, step e h (Reduce RSum a axis kd) = Ok (h ++ [VNd C]) /\
       forall k, in_shape (nd_shape C) k -> ffinite (one_or f0 (nd_at C k)) = true ->
         sum_within (map number (fiber A remain (if kd then select remain k else k))) (number (one_or f0 (nd_at C k)))).
Proof.
  intros pw e h a A axis kd FE R N NN D ndim numbers axes remain. destruct (C63_sum_mean pw e h a A RSum axis kd FE R N NN (or_introl eq_refl)) as (H1 & _ & H3).
  fold ndim numbers axes remain in H1, H3. cbv zeta iota beta in H1, H3. fold ndim numbers axes remain in H1, H3. split.
  - intros EA. destruct (H1 EA) as (s & S & E). exists s. split; [exact E|]. apply (sum_accurate pw _ _ S). unfold array_values. apply Forall_flat_map, Forall_forall. intros k _.
    apply Forall_forall. intros v Iv. rewrite Forall_forall in D. apply D. eapply filter_snd. exact Iv.
  - intros A1 A2 A3. destruct (H3 A1 A2 A3) as (C & E & _ & V). exists C. split; [exact E|]. intros k Hk. rewrite (V k Hk), map_id. set (l := fiber A remain (if kd then select remain k else k)).
    assert (DL : Forall double l).
    { apply Forall_forall. intros v Iv. rewrite Forall_forall in D. apply D. eapply filter_snd. exact Iv. }
    apply (sum_accurate pw _ _ (left_sum_is pw l) DL).
Qed.
Print Assumptions C82_nd_sums.

(** [A.mean(axis)] of a matrix with at most 2^53 cells: the sums, and one more rounding. *)
Theorem C82_means : forall pw (e : Env (f64 pw)) (h : list (value (f64 pw))) a (x : value (f64 pw)) values, fair e -> reached h -> nth_error h a = Some x -> class_of x <> None ->
  data_array x = Some values -> Forall double values ->
  let m := fst (shape2 x) in let n := snd (shape2 x) in
  m <> 0%nat -> n <> 0%nat -> Z.of_nat m * Z.of_nat n <= 2 ^ 53 ->
  let close {J} (cell : J -> list (f64 pw)) (js : list J) (v : f64 pw) :=
    ffinite v = true -> mean_within (map number (flat_map cell js)) (inject_Z (Z.of_nat (length js))) (number v) in
  exists total cols rows,
    close (fun p => stored x (fst p) (snd p)) (grid m n) total /\
    length cols = n /\ (forall j, (j < n)%nat -> close (fun i => stored x i j) (seq 0 m) (nth j cols f0)) /\
    length rows = m /\ (forall i, (i < m)%nat -> close (fun j => stored x i j) (seq 0 n) (nth i rows f0)) /\
    forall axis kd, step e h (Reduce RMean a axis kd) = reduction_result VArr total cols rows axis kd h.
Proof.
  intros pw e h a x values FE R N NC ED D0 m n M0 N0 SZ close. assert (D := stored_all _ x values _ ED D0).
  destruct (C62_reductions pw e h a x RMean FE R N NC eq_refl (conj M0 N0)) as (t & cs & rs & H1 & H2 & H3 & H4 & H5 & H6).
  exists t, cs, rs. unfold reduces in *. fold m n in H1, H2, H3, H4, H5. unfold close.
  assert (G : forall J (cell : J -> list (f64 pw)) js v, (forall j, Forall double (cell j)) -> (1 <= Z.of_nat (length js) <= 2 ^ 53) ->
    (exists s, FSum (flat_map cell js) s /\ v = fdiv s (fofZ (Z.of_nat (length js)))) -> ffinite v = true -> mean_within (map number (flat_map cell js)) (inject_Z (Z.of_nat (length js))) (number v)).
  { intros J cell js v HD LJ (s & S & ->) FI. apply (mean_accurate pw _ s _ S); [|exact LJ|exact FI]. apply Forall_flat_map, Forall_forall. auto. }
  assert (LG : length (grid m n) = (m * n)%nat) by (unfold grid; rewrite prod_length, !seq_length; reflexivity).
  split; [|split; [|split; [|split; [|split]]]]; auto.
  - intros FI. apply G; auto. rewrite LG. nia.
  - intros j Hj FI. apply G; auto. rewrite seq_length. nia.
  - intros i Hi FI. apply G; auto. rewrite seq_length. nia.
Qed.
Print Assumptions C82_means.

(** [A.mean(axis)] of an N-dimensional array. Along axes the code multiplies with a rounded
    [1 / n], which costs another rounding. *)
Theorem C82_nd_means : forall pw (e : Env (f64 pw)) (h : list (value (f64 pw))) a (A : Nd (f64 pw)) axis kd, fair e -> reached h -> nth_error h a = Some (VNd A) -> Forall (fun n => 0 <= n) (nd_shape A) ->
  Forall double (nd_dat A) ->
  let ndim := length (nd_shape A) in
  let numbers := match axis with AxNone => [] | AxInt a => [a] | AxTuple l => l end in
  let axes := named_axes ndim numbers in
  let remain := other_axes ndim axes in
  let n := cells (select axes (nd_shape A)) in
  (axis = AxNone -> 1 <= cells (nd_shape A) <= 2 ^ 53 -> exists v, step e h (Reduce RMean a axis kd) = Ok (h ++ [VArr (if kd then repeat 1%nat ndim else []) [v]]) /\
     (ffinite v = true -> mean_within (map number (array_values A)) (inject_Z (cells (nd_shape A))) (number v))) /\
  (numbers <> [] -> Forall (fun a => - Z.of_nat ndim <= a < Z.of_nat ndim) numbers -> (length axes < ndim)%nat -> 1 <= n <= 2 ^ 53 ->
     exists C, step e h (Reduce RMean a axis kd) = Ok (h ++ [VNd C]) /\
       forall k, in_shape (nd_shape C) k -> ffinite (one_or f0 (nd_at C k)) = true ->
         scaled_within (map number (fiber A remain (if kd then select remain k else k))) (inject_Z n) (number (one_or f0 (nd_at C k)))).
Proof.
  intros pw e h a A axis kd FE R N NN D ndim numbers axes remain n. destruct (C63_sum_mean pw e h a A RMean axis kd FE R N NN (or_intror eq_refl)) as (H1 & _ & H3).
  fold ndim numbers axes remain n in H1, H3. cbv zeta iota beta in H1, H3. fold ndim numbers axes remain n in H1, H3. split.
  - intros EA SZ. destruct (H1 EA) as (s & S & E). assert (EZ : (cells (nd_shape A) =? 0) = false) by lia. rewrite EZ in E. eexists. split; [exact E|].
    apply (mean_accurate pw _ s _ S); [|exact SZ]. unfold array_values. apply Forall_flat_map, Forall_forall. intros k _.
    apply Forall_forall. intros v Iv. rewrite Forall_forall in D. apply D. eapply filter_snd. exact Iv.
  - intros A1 A2 A3 SZ. destruct (H3 A1 A2 A3) as (C & E & _ & V). exists C. split; [exact E|]. intros k Hk. rewrite (V k Hk). set (l := fiber A remain (if kd then select remain k else k)).
    assert (DL : Forall double l).
    { apply Forall_forall. intros v Iv. rewrite Forall_forall in D. apply D. eapply filter_snd. exact Iv. }
    assert (S := PAcc.FSum_left_sum l). destruct l as [|v l'] eqn:EL.
    + intros _. unfold scaled_within. cbn [left_sum map one_or f0 length]. change (total []) with 0%Q. change (magnitude []) with 0%Q. change (number (f0 : f64 pw)) with 0%Q.
      assert (NP : (0 / inject_Z n == 0)%Q) by (unfold Qdiv; ring). rewrite NP. assert (R0 : (((1 + u) ^ (Z.of_nat (0 + 1)) - 1) * 0 + ((1 + u) ^ Z.of_nat 0 * 0 + 1) * tiny == tiny)%Q) by ring. rewrite R0. vm_compute. discriminate.
    + rewrite <- EL in S, DL |- *. assert (EQ : left_sum l = [one_or f0 (left_sum l)]) by (rewrite EL; reflexivity). rewrite EQ in S |- *. cbn [map one_or].
      intros FI. apply (scaled_accurate pw l _ n S DL SZ). exact FI.
Qed.
Print Assumptions C82_nd_means.

(** [A @ y]: every finite number of the result is within the bound of the exact sum of the
    exact products. Nothing is assumed about the values. *)
Theorem C82_matmul : forall pw (e : Env (f64 pw)) (h : list (value (f64 pw))) a b (x : value (f64 pw)) y sh (d : list (f64 pw)), fair e -> reached h ->
  nth_error h a = Some x -> nth_error h b = Some y -> floats y = Some (sh, d) -> class_of x <> None -> demand h (Matmul a b) < i64_max ->
  let m := fst (shape2 x) in let n := snd (shape2 x) in
  (sh = [n] -> exists c, step e h (Matmul a b) = Ok (h ++ [VArr [m] c]) /\ length c = m /\
     forall i, (i < m)%nat -> ffinite (nth i c f0) = true -> dot_within (products (stored x) n d i) (number (nth i c f0))) /\
  (forall bs k, sh = bs ++ [n; k] -> let s := fold_right Nat.mul 1%nat bs in columns_ok x (s * k) ->
     exists R, step e h (Matmul a b) = Ok (h ++ [VArr (bs ++ [m; k]) R]) /\ length R = (s * m * k)%nat /\
       forall q i c, (q < s)%nat -> (i < m)%nat -> (c < k)%nat -> let v := nth (i * k + c) (batch (m * k) q R) f0 in
         ffinite v = true -> dot_within (products (stored x) n (column (batch (n * k) q d) n k c) i) (number v)).
Proof.
  intros pw e h a b x y sh d FE R N M EF NC DM m n. destruct (C64_matmul _ e h a b x y sh d (f64_laws pw) FE R N M EF NC DM) as (_ & _ & H1 & _ & H2). fold m n in H1, H2. split.
  - intros ES. destruct (H1 ES) as (c & E & L & V). exists c. split; [exact E|]. split; [exact L|]. intros i Hi FI. specialize (V i Hi). unfold row_times in V. fold n in V.
    destruct x; try (exfalso; apply NC; reflexivity); first [apply fma_accurate; assumption|apply dot_accurate; assumption].
  - intros bs k ES s CK. destruct (proj1 (H2 bs k ES) CK) as (Q & E & L & V). exists Q. split; [exact E|]. split; [exact L|]. intros q i c Hq Hi Hc v FI. apply dot_accurate; [apply V; assumption|exact FI].
Qed.
Print Assumptions C82_matmul.

(** [tensordot(A, y)] over the columns of [A] and the first axis of [y]. *)
Theorem C82_tensordot : forall pw (e : Env (f64 pw)) (h : list (value (f64 pw))) a b (x : value (f64 pw)) (d : list (f64 pw)) axis rest, fair e -> reached h ->
  let m := fst (shape2 x) in let n := snd (shape2 x) in
  nth_error h a = Some x -> nth_error h b = Some (VArr (n :: rest) d) -> class_of x <> None -> demand h (Tensordot a b axis) < i64_max ->
  axis = None \/ axis = Some 1 -> rest <> [] -> let k := fold_right Nat.mul 1%nat rest in columns_ok x k ->
  exists R, step e h (Tensordot a b axis) = Ok (h ++ [VArr (m :: rest) R]) /\ length R = (m * k)%nat /\
    forall i c, (i < m)%nat -> (c < k)%nat -> ffinite (nth (i * k + c) R f0) = true ->
      dot_within (products (stored x) n (column d n k c) i) (number (nth (i * k + c) R f0)).
Proof.
  intros pw e h a b x d axis rest FE R m n N M NC DM OA NR k CK. destruct (C64_tensordot _ e h a b x _ d axis (f64_laws pw) FE R N M NC DM) as (_ & H). destruct (H OA) as (_ & _ & _ & H1).
  destruct (proj1 (H1 rest eq_refl NR) CK) as (Q & E & L & V). exists Q. split; [exact E|]. split; [exact L|]. intros i c Hi Hc FI. apply dot_accurate; [apply V; assumption|exact FI].
Qed.
Print Assumptions C82_tensordot.

(** [vecdot(A, y, axis=0)]: the products run down the columns. (The last axis is [A @ y], C64.) *)
Theorem C82_vecdot : forall pw (e : Env (f64 pw)) (h : list (value (f64 pw))) a b (x : value (f64 pw)) (d : list (f64 pw)), fair e -> reached h ->
  let m := fst (shape2 x) in let n := snd (shape2 x) in
  nth_error h a = Some x -> nth_error h b = Some (VArr [m] d) -> class_of x <> None ->
  exists c, step e h (Vecdot a b (Some 0)) = Ok (h ++ [VArr [n] c]) /\ length c = n /\
    forall j, (j < n)%nat -> ffinite (nth j c f0) = true -> dot_within (products (fun j i => stored x i j) m d j) (number (nth j c f0)).
Proof.
  intros pw e h a b x d FE R m n N M NC. destruct (C64_vecdot _ e h a b x m d None (f64_laws pw) FE R N M NC) as (_ & H & _). destruct (H eq_refl) as (c & E & L & V).
  exists c. split; [exact E|]. split; [exact L|]. intros j Hj FI. specialize (V j Hj). unfold col_times in V. fold m in V.
  destruct x; try (exfalso; apply NC; reflexivity); first [apply (dot_nz_accurate pw (fun j i => stored _ i j)); assumption|apply (fma_accurate pw (fun j i => stored _ i j)); assumption].
Qed.
Print Assumptions C82_vecdot.

(** [vecdot] of an N-dimensional array. *)
Theorem C82_nd_vecdot : forall pw (e : Env (f64 pw)) (h : list (value (f64 pw))) a b (A : Nd (f64 pw)) n (d : list (f64 pw)) axis, fair e -> reached h -> nth_error h a = Some (VNd A) -> nth_error h b = Some (VArr [n] d) ->
  Forall (fun n => 0 <= n) (nd_shape A) ->
  let ndim := length (nd_shape A) in
  let last := match axis with None => true | Some z => z =? -1 end in
  let ax := if last then (ndim - 1)%nat else match axis with Some z => Z.to_nat z | None => 0%nat end in
  (last = true \/ exists z, axis = Some z /\ 0 <= z < Z.of_nat ndim) -> ndim <> 1%nat -> Z.of_nat n = nth ax (nd_shape A) 0 ->
  exists C, step e h (Vecdot a b axis) = Ok (h ++ [VNd C]) /\ nd_shape C = select (other_axes ndim [ax]) (nd_shape A) /\
    forall k, in_shape (nd_shape C) k -> ffinite (one_or f0 (nd_at C k)) = true -> dot_within (line_exact A ax d k) (number (one_or f0 (nd_at C k))).
Proof.
  intros pw e h a b A n d axis FE R N M NN ndim last ax OA N1 EN. destruct (C63_vecdot _ e h a b A n d axis (f64_laws pw) FE R N M NN) as (_ & H). fold ndim last ax in H.
  destruct (H OA N1 EN) as (C & E & S & V). exists C. split; [exact E|]. split; [exact S|]. intros k Hk. rewrite (V k Hk). set (l := filter nonzero (line_products A ax d k)).
  apply line_accurate. apply left_sum_is.
Qed.
Print Assumptions C82_nd_vecdot.

(** ** C83: integer data *)
(** Sums and products of integers are exact as long as the absolute values of the terms add up
    to at most 2^53, whatever the environment. *)
Theorem C83_sums : forall pw (e : Env (f64 pw)) (h : list (value (f64 pw))) a (x : value (f64 pw)) values, fair e -> reached h -> nth_error h a = Some x -> class_of x <> None ->
  data_array x = Some values -> Forall integral values ->
  let m := fst (shape2 x) in let n := snd (shape2 x) in
  let exactly {J} (cell : J -> list (f64 pw)) (js : list J) (v : f64 pw) := (magnitude (map number (flat_map cell js)) <= inject_Z (2 ^ 53))%Q ->
    integral v /\ (number v == total (map number (flat_map cell js)))%Q in
  exists total cols rows,
    exactly (fun p => stored x (fst p) (snd p)) (grid m n) total /\
    length cols = n /\ (forall j, (j < n)%nat -> exactly (fun i => stored x i j) (seq 0 m) (nth j cols f0)) /\
    length rows = m /\ (forall i, (i < m)%nat -> exactly (fun j => stored x i j) (seq 0 n) (nth i rows f0)) /\
    forall axis kd, step e h (Reduce RSum a axis kd) = reduction_result VArr total cols rows axis kd h.
Proof.
  intros pw e h a x values FE R N NC ED D0 m n close. assert (D := stored_all _ x values _ ED D0). destruct (C62_reductions pw e h a x RSum FE R N NC eq_refl I) as (t & cs & rs & H1 & H2 & H3 & H4 & H5 & H6).
  exists t, cs, rs. unfold reduces in *. fold m n in H1, H2, H3, H4, H5. unfold close. split; [|split; [|split; [|split; [|split]]]]; auto.
  - apply (sum_integers pw _ _ H1). apply Forall_flat_map, Forall_forall. auto.
  - intros j Hj. apply (sum_integers pw _ _ (H3 j Hj)). apply Forall_flat_map, Forall_forall. auto.
  - intros i Hi. apply (sum_integers pw _ _ (H5 i Hi)). apply Forall_flat_map, Forall_forall. auto.
Qed.
Print Assumptions C83_sums.

Theorem C83_matmul : forall pw (e : Env (f64 pw)) (h : list (value (f64 pw))) a b (x : value (f64 pw)) y values sh (d : list (f64 pw)), fair e -> reached h ->
  nth_error h a = Some x -> nth_error h b = Some y -> floats y = Some (sh, d) -> class_of x <> None -> demand h (Matmul a b) < i64_max ->
  data_array x = Some values -> Forall integral values -> Forall integral d ->
  let m := fst (shape2 x) in let n := snd (shape2 x) in
  let exactly (ps : list Q) (v : f64 pw) := (magnitude ps <= inject_Z (2 ^ 53))%Q -> integral v /\ (number v == total ps)%Q in
  (sh = [n] -> exists c, step e h (Matmul a b) = Ok (h ++ [VArr [m] c]) /\ length c = m /\
     forall i, (i < m)%nat -> exactly (products (stored x) n d i) (nth i c f0)) /\
  (forall bs k, sh = bs ++ [n; k] -> let s := fold_right Nat.mul 1%nat bs in columns_ok x (s * k) ->
     exists R, step e h (Matmul a b) = Ok (h ++ [VArr (bs ++ [m; k]) R]) /\ length R = (s * m * k)%nat /\
       forall q i c, (q < s)%nat -> (i < m)%nat -> (c < k)%nat ->
         exactly (products (stored x) n (column (batch (n * k) q d) n k c) i) (nth (i * k + c) (batch (m * k) q R) f0)).
Proof.
  intros pw e h a b x y values sh d FE R N M EF NC DM ED IX0 ID m n exactly. assert (IX := stored_all _ x values _ ED IX0). destruct (C64_matmul _ e h a b x y sh d (f64_laws pw) FE R N M EF NC DM) as (_ & _ & H1 & _ & H2). fold m n in H1, H2. split.
  - intros ES. destruct (H1 ES) as (c & E & L & V). exists c. split; [exact E|]. split; [exact L|]. intros i Hi B. specialize (V i Hi). unfold row_times in V. fold n in V.
    assert (IC : int_cells pw (stored x) n i) by (intros j _; apply IX).
    destruct x; try (exfalso; apply NC; reflexivity); first [apply fma_integers; assumption|apply dot_integers; assumption].
  - intros bs k ES s CK. destruct (proj1 (H2 bs k ES) CK) as (Q & E & L & V). exists Q. split; [exact E|]. split; [exact L|]. intros q i c Hq Hi Hc B.
    apply dot_integers; [apply V; assumption|intros j _; apply IX| |exact B]. unfold column. apply Forall_map, Forall_forall. intros j _. apply nth_integral.
    apply Forall_forall. intros v Iv. rewrite Forall_forall in ID. apply ID. unfold batch, slice in Iv. apply firstn_sub in Iv. apply skipn_sub in Iv. exact Iv.
Qed.
Print Assumptions C83_matmul.

(** So for such data the product with a vector does not depend on the format of the matrix, nor
    on the environment: two matrices with the same cells give the same numbers. *)
Theorem C83_format_independent : forall pw (e1 e2 : Env (f64 pw)) h1 h2 a1 a2 b1 b2 (x1 x2 : value (f64 pw)) values1 values2 m n d, fair e1 -> fair e2 -> reached h1 -> reached h2 ->
  nth_error h1 a1 = Some x1 -> nth_error h2 a2 = Some x2 -> class_of x1 <> None -> class_of x2 <> None -> shape2 x1 = (m, n) -> shape2 x2 = (m, n) ->
  nth_error h1 b1 = Some (VArr [n] d) -> nth_error h2 b2 = Some (VArr [n] d) -> demand h1 (Matmul a1 b1) < i64_max -> demand h2 (Matmul a2 b2) < i64_max ->
  data_array x1 = Some values1 -> Forall integral values1 -> data_array x2 = Some values2 -> Forall integral values2 -> Forall integral d ->
  (forall i j, (i < m)%nat -> (j < n)%nat -> stored x1 i j = stored x2 i j) ->
  (forall i, (i < m)%nat -> (magnitude (products (stored x1) n d i) <= inject_Z (2 ^ 53))%Q) ->
  exists c1 c2, step e1 h1 (Matmul a1 b1) = Ok (h1 ++ [VArr [m] c1]) /\ step e2 h2 (Matmul a2 b2) = Ok (h2 ++ [VArr [m] c2]) /\ length c1 = m /\ length c2 = m /\
    forall i, (i < m)%nat -> integral (nth i c1 f0) /\ integral (nth i c2 f0) /\ (number (nth i c1 f0) == number (nth i c2 f0))%Q.
Proof.
  intros pw e1 e2 h1 h2 a1 a2 b1 b2 x1 x2 values1 values2 m n d FE1 FE2 R1 R2 N1 N2 NC1 NC2 S1 S2 M1 M2 D1 D2 ED1 I1 ED2 I2 ID EQ B.
  destruct (C83_matmul pw e1 h1 a1 b1 x1 _ values1 [n] d FE1 R1 N1 M1 eq_refl NC1 D1 ED1 I1 ID) as [H1 _].
  destruct (C83_matmul pw e2 h2 a2 b2 x2 _ values2 [n] d FE2 R2 N2 M2 eq_refl NC2 D2 ED2 I2 ID) as [H2 _].
  rewrite S1 in H1. rewrite S2 in H2. cbn [fst snd] in H1, H2. destruct (H1 eq_refl) as (c1 & E1 & L1 & V1). destruct (H2 eq_refl) as (c2 & E2 & L2 & V2).
  exists c1, c2. do 4 (split; [assumption|]). intros i Hi.
  assert (EP : products (stored x1) n d i = products (stored x2) n d i).
  { unfold products. assert (G : forall js, (forall j, In j js -> (j < n)%nat) -> flat_map (fun j => map (fun v : spec_float => (number v * number (nth j d (S754_zero false)))%Q) (stored x1 i j)) js = flat_map (fun j => map (fun v : spec_float => (number v * number (nth j d (S754_zero false)))%Q) (stored x2 i j)) js).
    { induction js as [|j js IH]; intros Hj; [reflexivity|]. cbn [flat_map]. rewrite IH by (intros; apply Hj; right; assumption). rewrite EQ by (try exact Hi; apply Hj; left; reflexivity). reflexivity. }
    apply G. intros j Hj. apply in_seq in Hj. lia. }
  destruct (V1 i Hi (B i Hi)) as [A1 A2]. destruct (V2 i Hi) as [A3 A4]; [rewrite <- EP; apply B; exact Hi|]. split; [exact A1|]. split; [exact A3|]. rewrite A2, A4, EP. reflexivity.
Qed.
Print Assumptions C83_format_independent.

(** *** The theorems apply *)
(** 0, 1, 2: the row [2^53 1 1] in the three formats; 3: the vector [1 1 1]; 4: a 3x1 matrix;
    5: an N-dimensional array. *)
Definition calls4 : list (call (f64 pw0)) :=
  [NewCsr 1 3 [0; 3] [0; 1; 2] [fz (2 ^ 53); fz 1; fz 1] true;
   NewCsc 1 3 [0; 1; 2; 3] [0; 0; 0] [fz (2 ^ 53); fz 1; fz 1] false;
   NewCoo 1 3 [0; 0; 0] [0; 1; 2] [fz (2 ^ 53); fz 1; fz 1] false;
   NewArr [3%nat] [fz 1; fz 1; fz 1];
   NewArr [3%nat; 1%nat] [fz 1; fz 1; fz 1];
   NewNd [1; 3] [0; 0; 0; 1; 0; 2] [fz (2 ^ 53); fz 1; fz 1] false].
Definition state4 : list (value (f64 pw0)) :=
  match run [] (map (fun c => (env2, c)) calls4) with Running h => h | _ => [] end.
Lemma state4_reached : reached state4.
Proof.
  assert (O : match objects (run [] (map (fun c => (env2, c)) calls4)) with Some _ => true | None => false end = true) by (vm_compute; reflexivity).
  destruct (objects (run [] (map (fun c => (env2, c)) calls4))) as [x|] eqn:EO; [|discriminate O]. destruct (objects_running _ _ EO) as (h & ER & EH).
  unfold state4. rewrite ER. apply (C61_programs_reach _ (map (fun c => (env2, c)) calls4) h); [|exact ER].
  apply Forall_forall. intros ec Hec. apply in_map_iff in Hec. destruct Hec as (c & <- & Hc). cbn [fst snd]. split; [apply env2_fair|]. cbn [calls4 In] in Hc.
  repeat (destruct Hc as [<-|Hc]; [split; [|exact I]; cbn [regular_arguments]; try exact I|]); try contradiction.
  - split; [reflexivity|]. split; [repeat constructor; discriminate|left; reflexivity].
  - apply canonical_literal; reflexivity.
  - split; [apply coo_ok_literal; reflexivity|]. intros i j. unfold coo_at, at_cell, coo_entries. cbn [coo_row coo_col coo_data combine filter fst snd].
    repeat match goal with |- context [?x =? ?y] => destruct (Z.eqb_spec x y) end; cbn; lia.
  - split; [apply PropNd.nd_ok_literal; reflexivity|]. apply PCall.single_keys. vm_compute. repeat constructor; cbn; intuition congruence.
Qed.
Definition obj4 (a : nat) : value (f64 pw0) := nth a state4 (VInts [] []).
Lemma obj4_is a : (a < 6)%nat -> nth_error state4 a = Some (obj4 a).
Proof. intros H. apply nth_error_nth'. assert (L : length state4 = 6%nat) by (vm_compute; reflexivity). rewrite L. exact H. Qed.
Definition last_array (r : res (list (value (f64 pw0)))) : list spec_float :=
  match r with Ok h => match last h (VInts [] []) with VArr _ d => d | _ => [] end | _ => [] end.
Lemma last_array_is h sh d : last_array (Ok (h ++ [VArr sh d])) = d.
Proof. unfold last_array. rewrite last_last. reflexivity. Qed.
Lemma vals4 a : (a < 3)%nat -> class_of (obj4 a) <> None /\ shape2 (obj4 a) = (1, 3)%nat /\ data_array (obj4 a) = Some [fz (2 ^ 53); fz 1; fz 1] /\
  (forall i j, (i < 1)%nat -> (j < 3)%nat -> stored (obj4 a) i j = [nth j [fz (2 ^ 53); fz 1; fz 1] f0]).
Proof.
  intros H. assert (C : match class_of (obj4 a) with Some _ => true | None => false end = true) by (do 3 (destruct a as [|a]; [vm_compute; reflexivity|]); lia).
  split; [destruct (class_of (obj4 a)); [discriminate|discriminate C]|]. clear C.
  split; [do 3 (destruct a as [|a]; [vm_compute; reflexivity|]); lia|]. split; [do 3 (destruct a as [|a]; [vm_compute; reflexivity|]); lia|].
  intros i j Hi Hj. replace i with 0%nat by lia. do 3 (destruct a as [|a]; [do 3 (destruct j as [|j]; [vm_compute; reflexivity|]); lia|]). lia.
Qed.
Lemma arr4 : nth_error state4 3 = Some (VArr [3%nat] [fz 1; fz 1; fz 1]) /\ nth_error state4 4 = Some (VArr [3%nat; 1%nat] [fz 1; fz 1; fz 1]).
Proof.
  assert (V3 : arr_view (obj4 3) = Some ([3%nat], [fz 1; fz 1; fz 1])) by (vm_compute; reflexivity).
  assert (V4 : arr_view (obj4 4) = Some ([3%nat; 1%nat], [fz 1; fz 1; fz 1])) by (vm_compute; reflexivity).
  rewrite !obj4_is by lia. destruct (obj4 3); try discriminate V3. destruct (obj4 4); try discriminate V4. injection V3 as -> ->. injection V4 as -> ->. split; reflexivity.
Qed.
Lemma doubles4 : Forall double [fz (2 ^ 53); fz 1; fz 1].
Proof. repeat constructor. Qed.
Lemma integral_fz z : match fz z with S754_finite _ _ _ | S754_zero _ => true | _ => false end = true -> (number (fz z) == inject_Z z)%Q -> integral (fz z).
Proof. intros H E. split; [destruct (fz z); try discriminate H; reflexivity|]. exists z. exact E. Qed.

(** The exact sum is 2^53 + 2; the result is 2^53 and within the bound. *)
Example C82_sums_nonvacuous : forall a, (a < 3)%nat -> exists t, step env2 state4 (Reduce RSum a AxNone false) = Ok (state4 ++ [VArr [] [t]]) /\
  (number t == inject_Z (2 ^ 53))%Q /\ sum_within [number (fz (2 ^ 53)); number (fz 1); number (fz 1)] (number t) /\ ~ (number t == total [number (fz (2 ^ 53)); number (fz 1); number (fz 1)])%Q.
Proof.
  intros a Ha. destruct (vals4 a Ha) as (NC & SH & DA & ST).
  assert (N := obj4_is a ltac:(lia)). assert (H := C82_sums pw0 env2 state4 a (obj4 a) _ env2_fair state4_reached N NC DA doubles4). cbv zeta in H. destruct H as (t & cs & rs & T & _ & _ & _ & _ & E).
  exists t. specialize (E AxNone false). change (reduction_result VArr t cs rs AxNone false state4) with (Ok (state4 ++ [VArr [] [t]])) in E. split; [exact E|].
  assert (V : last_array (step env2 state4 (Reduce RSum a AxNone false)) = [S754_finite false 4503599627370496 1]) by (clear - Ha; do 3 (destruct a as [|a]; [vm_compute; reflexivity|]); lia).
  rewrite E, last_array_is in V. assert (V' : (t : spec_float) = S754_finite false 4503599627370496 1) by congruence. rewrite V' in T |- *. split; [reflexivity|]. split; [|vm_compute; discriminate].
  specialize (T eq_refl). rewrite SH in T.
  assert (EV : flat_map (fun p => stored (obj4 a) (fst p) (snd p)) (grid 1 3) = [fz (2 ^ 53); fz 1; fz 1]).
  { assert (G : grid 1 3 = [(0, 0); (0, 1); (0, 2)]%nat) by reflexivity. rewrite G. cbn [flat_map fst snd]. rewrite !ST by lia. reflexivity. }
  cbn [fst snd] in T. rewrite EV in T. exact T.
Qed.

Example C82_cumulative_sums_nonvacuous : exists out, step env2 state4 (Cum CumSum 0 (AxInt 1)) = Ok (state4 ++ [VArr [1; 3]%nat out]) /\
  (ffinite (nth 2 out f0) = true -> sum_within [number (fz (2 ^ 53)); number (fz 1); number (fz 1)] (number (nth 2 out f0))).
Proof.
  destruct (vals4 0 ltac:(lia)) as (NC & SH & DA & ST).
  destruct (C82_cumulative_sums pw0 env2 state4 0 (obj4 0) _ (AxInt 1) env2_fair state4_reached (obj4_is 0 ltac:(lia)) NC DA doubles4) as (_ & H).
  destruct H as (out & E & L & V); [vm_compute; discriminate|reflexivity|]. rewrite SH in E, V. cbn [fst snd] in E, V. exists out. split; [exact E|].
  specialize (V 0%nat 2%nat ltac:(lia) ltac:(lia)). cbn [flat_map seq map app] in V. rewrite !ST in V by lia. exact V.
Qed.

Example C82_nd_sums_nonvacuous : exists s, step env2 state2 (Reduce RSum 5 AxNone false) = Ok (state2 ++ [VArr [] [s]]) /\
  (ffinite s = true -> sum_within (map number (array_values N5)) (number s)).
Proof.
  destruct (C82_nd_sums pw0 env2 state2 5 N5 AxNone false env2_fair state2_reached N5_is (proj2 N5_dims)) as (H & _); [vm_compute; repeat constructor|]. exact (H eq_refl).
Qed.

Example C82_means_nonvacuous : forall a, (a < 3)%nat -> exists t, step env2 state4 (Reduce RMean a AxNone false) = Ok (state4 ++ [VArr [] [t]]) /\
  mean_within [number (fz (2 ^ 53)); number (fz 1); number (fz 1)] 3 (number t) /\ ~ (number t == (inject_Z (2 ^ 53 + 2)) / 3)%Q.
Proof.
  intros a Ha. destruct (vals4 a Ha) as (NC & SH & DA & ST). assert (N := obj4_is a ltac:(lia)).
  assert (H := C82_means pw0 env2 state4 a (obj4 a) _ env2_fair state4_reached N NC DA doubles4). cbv zeta in H. rewrite SH in H. cbn [fst snd] in H.
  destruct (H ltac:(discriminate) ltac:(discriminate) ltac:(vm_compute; discriminate)) as (t & cs & rs & T & _ & _ & _ & _ & E).
  exists t. specialize (E AxNone false). change (reduction_result VArr t cs rs AxNone false state4) with (Ok (state4 ++ [VArr [] [t]])) in E. split; [exact E|].
  assert (V : last_array (step env2 state4 (Reduce RMean a AxNone false)) = [S754_finite false 6004799503160661 (-1)]) by (clear - Ha; do 3 (destruct a as [|a]; [vm_compute; reflexivity|]); lia).
  rewrite E, last_array_is in V. assert (V' : (t : spec_float) = S754_finite false 6004799503160661 (-1)) by congruence. rewrite V' in T |- *. split; [|vm_compute; discriminate].
  specialize (T eq_refl). assert (EV : flat_map (fun p => stored (obj4 a) (fst p) (snd p)) (grid 1 3) = [fz (2 ^ 53); fz 1; fz 1]).
  { assert (G : grid 1 3 = [(0, 0); (0, 1); (0, 2)]%nat) by reflexivity. rewrite G. cbn [flat_map fst snd]. rewrite !ST by lia. reflexivity. }
  rewrite EV in T. exact T.
Qed.
(** What the array that a call appends holds at position [k], and its dimensions. *)
Definition last_cell (r : res (list (value (f64 pw0)))) (k : list Z) : list Z * list spec_float :=
  match r with Ok h => match last h (VArr [] []) with VNd C => (nd_shape C, nd_at C k) | _ => ([], []) end | _ => ([], []) end.
Lemma last_cell_is : forall h (C : Nd (f64 pw0)) k, last_cell (Ok (h ++ [VNd C])) k = (nd_shape C, nd_at C k).
Proof. intros. unfold last_cell. rewrite last_last. reflexivity. Qed.
Lemma one_finite (l : list spec_float) : map b64_finite l = [true] -> exists v, l = [v] /\ b64_finite v = true.
Proof. destruct l as [|v [|w l]]; intros H; try discriminate H. exists v. split; [reflexivity|]. injection H. auto. Qed.
Example C82_nd_means_nonvacuous : exists C, step env2 state2 (Reduce RMean 5 (AxInt 2) false) = Ok (state2 ++ [VNd C]) /\
  nd_at C [1; 0] <> [] /\ scaled_within (map number (fiber N5 [0%nat; 1%nat] [1; 0])) 3 (number (one_or f0 (nd_at C [1; 0]))).
Proof.
  assert (D : Forall double (nd_dat N5)) by (vm_compute; repeat constructor). assert (SN : nd_shape N5 = [2; 1; 3]) by (vm_compute; reflexivity).
  destruct (C82_nd_means pw0 env2 state2 5 N5 (AxInt 2) false env2_fair state2_reached N5_is (proj2 N5_dims) D) as (_ & H). rewrite SN in H.
  destruct H as (C & E & V); [discriminate|repeat constructor; cbn; lia|cbn; lia|vm_compute; split; discriminate|]. exists C. split; [exact E|].
  specialize (V [1; 0]).
  assert (W : (fst (last_cell (step env2 state2 (Reduce RMean 5 (AxInt 2) false)) [1; 0]), map (@b64_finite) (snd (last_cell (step env2 state2 (Reduce RMean 5 (AxInt 2) false)) [1; 0]))) = ([2; 1], [true])) by (vm_compute; reflexivity).
  rewrite E, last_cell_is in W. cbn [fst snd] in W. injection W as W1 W2. assert (IS : in_shape (nd_shape C) [1; 0]) by (pose (sh := nd_shape C); change (in_shape sh [1; 0]); change (sh = [2; 1]) in W1; rewrite W1; repeat constructor; cbn; lia). specialize (V IS).
  destruct (one_finite _ W2) as (v & EL & FV). assert (EL' : nd_at C [1; 0] = [v : f64 pw0]) by exact EL. rewrite EL' in V |- *. split; [discriminate|]. exact (V FV).
Qed.

(** The product of the row [2^53 1 1] with [1 1 1] is rounded too. *)
Example C82_matmul_nonvacuous : forall a, (a < 3)%nat -> exists c, step env2 state4 (Matmul a 3) = Ok (state4 ++ [VArr [1%nat] c]) /\
  (number (nth 0 c f0) == inject_Z (2 ^ 53))%Q /\ dot_within (products (stored (obj4 a)) 3 [fz 1; fz 1; fz 1] 0) (number (nth 0 c f0)).
Proof.
  intros a Ha. destruct (vals4 a Ha) as (NC & SH & DA & ST).
  destruct arr4 as [A3 _].
  assert (D : demand state4 (Matmul a 3) < i64_max) by (clear - Ha; do 3 (destruct a as [|a]; [vm_compute; reflexivity|]); lia).
  destruct (C82_matmul pw0 env2 state4 a 3 (obj4 a) _ _ _ env2_fair state4_reached (obj4_is a ltac:(lia)) A3 eq_refl NC D) as (H & _).
  rewrite SH in H. cbn [fst snd] in H. destruct (H eq_refl) as (c & E & L & V). exists c. split; [exact E|].
  assert (W : last_array (step env2 state4 (Matmul a 3)) = [S754_finite false 4503599627370496 1]) by (clear - Ha; do 3 (destruct a as [|a]; [vm_compute; reflexivity|]); lia).
  rewrite E, last_array_is in W. assert (W' : (nth 0 c f0 : spec_float) = S754_finite false 4503599627370496 1) by (rewrite W; reflexivity).
  specialize (V 0%nat ltac:(lia)). rewrite W' in V |- *. split; [reflexivity|]. apply V. reflexivity.
Qed.

Example C82_tensordot_nonvacuous : exists R, step env2 state4 (Tensordot 2 4 (Some 1)) = Ok (state4 ++ [VArr [1; 1]%nat R]) /\
  (ffinite (nth 0 R f0) = true -> dot_within (products (stored (obj4 2)) 3 (column [fz 1; fz 1; fz 1] 3 1 0) 0) (number (nth 0 R f0))).
Proof.
  destruct (vals4 2 ltac:(lia)) as (NC & SH & DA & ST).
  destruct arr4 as [_ A4].
  assert (D : demand state4 (Tensordot 2 4 (Some 1)) < i64_max) by (vm_compute; reflexivity).
  destruct (C82_tensordot pw0 env2 state4 2 4 (obj4 2) [fz 1; fz 1; fz 1] (Some 1) [1%nat] env2_fair state4_reached (obj4_is 2 ltac:(lia))) as (R & E & L & V);
    [rewrite SH; exact A4|exact NC|exact D|auto|discriminate|apply not_csr_columns; vm_compute; reflexivity|].
  rewrite SH in E, V. cbn [fst snd] in E, V. exists R. split; [exact E|]. apply (V 0%nat 0%nat); cbn; lia.
Qed.

Example C82_vecdot_nonvacuous : exists c, step env2 state3 (Vecdot 1 10 (Some 0)) = Ok (state3 ++ [VArr [3%nat] c]) /\
  (ffinite (nth 0 c f0) = true -> dot_within (products (fun j i => stored (obj 1) i j) 2 [fz 10; fz 100] 0) (number (nth 0 c f0))).
Proof.
  destruct arr3 as (_ & _ & A10). assert (S1 : shape2 (obj 1) = (2, 3)%nat) by (vm_compute; reflexivity).
  destruct (C82_vecdot pw0 env2 state3 1 10 (obj 1) [fz 10; fz 100] env2_fair state3_reached (obj3 1 ltac:(lia))) as (c & E & L & V); [rewrite S1; exact A10|vm_compute; discriminate|].
  rewrite S1 in E, V. cbn [fst snd] in E, V. exists c. split; [exact E|]. apply V. lia.
Qed.

Example C82_nd_vecdot_nonvacuous : exists C, step env2 state2 (Vecdot 5 7 None) = Ok (state2 ++ [VNd C]) /\
  (in_shape (nd_shape C) [0; 0] -> ffinite (one_or f0 (nd_at C [0; 0])) = true -> dot_within (line_exact N5 2 [fz 5; fz 2; fz 0] [0; 0]) (number (one_or f0 (nd_at C [0; 0])))) /\ nd_shape C = [2; 1].
Proof.
  assert (SN : nd_shape N5 = [2; 1; 3]) by (vm_compute; reflexivity).
  destruct (C82_nd_vecdot pw0 env2 state2 5 7 N5 3 [fz 5; fz 2; fz 0] None env2_fair state2_reached N5_is V7_is (proj2 N5_dims)) as (C & E & S & V); [auto|rewrite SN; discriminate|rewrite SN; reflexivity|].
  exists C. split; [exact E|]. split; [|rewrite S, SN; reflexivity]. intros IS. specialize (V [0; 0] IS). rewrite SN in V. exact V.
Qed.

(** Integers below the bound: object 2 of [state2] is [. . -1; 7 . .], times [5 2 0]. *)
Lemma integrals : Forall integral [fz 7; fz (-1)] /\ Forall integral [fz 5; fz 2; fz 0].
Proof. split; repeat constructor; try (apply integral_fz; vm_compute; reflexivity); try (split; [reflexivity|]); try (eexists; vm_compute; reflexivity). Qed.
Example C83_sums_nonvacuous : exists t, step env2 state2 (Reduce RSum 2 AxNone false) = Ok (state2 ++ [VArr [] [t]]) /\ integral t /\ (number t == inject_Z 6)%Q.
Proof.
  assert (NC : class_of (obj 2) <> None) by (vm_compute; discriminate). assert (DA : data_array (obj 2) = Some [fz 7; fz (-1)]) by (vm_compute; reflexivity).
  assert (H := C83_sums pw0 env2 state2 2 (obj 2) _ env2_fair state2_reached (obj_is 2 ltac:(lia)) NC DA (proj1 integrals)). cbv zeta in H. destruct H as (t & cs & rs & T & _ & _ & _ & _ & E).
  exists t. specialize (E AxNone false). change (reduction_result VArr t cs rs AxNone false state2) with (Ok (state2 ++ [VArr [] [t]])) in E. split; [exact E|].
  assert (EV : flat_map (fun p => stored (obj 2) (fst p) (snd p)) (grid (fst (shape2 (obj 2))) (snd (shape2 (obj 2)))) = [fz (-1); fz 7]) by (vm_compute; reflexivity).
  rewrite EV in T. destruct T as [T1 T2]; [vm_compute; discriminate|]. split; [exact T1|]. rewrite T2. vm_compute. reflexivity.
Qed.

(** 0, 1: [1 . -2; . 4 .] in CSR and CSC; 2: the vector [5 2 -7]. *)
Definition calls5 : list (call (f64 pw0)) :=
  [NewCsr 2 3 [0; 2; 3] [0; 2; 1] [fz 1; fz (-2); fz 4] true;
   NewCsc 2 3 [0; 1; 2; 3] [0; 1; 0] [fz 1; fz 4; fz (-2)] false;
   NewArr [3%nat] [fz 5; fz 2; fz (-7)]].
Definition state5 : list (value (f64 pw0)) :=
  match run [] (map (fun c => (env2, c)) calls5) with Running h => h | _ => [] end.
Lemma state5_reached : reached state5.
Proof.
  assert (O : match objects (run [] (map (fun c => (env2, c)) calls5)) with Some _ => true | None => false end = true) by (vm_compute; reflexivity).
  destruct (objects (run [] (map (fun c => (env2, c)) calls5))) as [x|] eqn:EO; [|discriminate O]. destruct (objects_running _ _ EO) as (h & ER & EH).
  unfold state5. rewrite ER. apply (C61_programs_reach _ (map (fun c => (env2, c)) calls5) h); [|exact ER].
  apply Forall_forall. intros ec Hec. apply in_map_iff in Hec. destruct Hec as (c & <- & Hc). cbn [fst snd]. split; [apply env2_fair|]. cbn [calls5 In] in Hc.
  repeat (destruct Hc as [<-|Hc]; [split; [|exact I]; cbn [regular_arguments]; try exact I|]); try contradiction.
  - split; [reflexivity|]. split; [repeat constructor; discriminate|left; reflexivity].
  - apply canonical_literal; reflexivity.
Qed.
Definition obj5 (a : nat) : value (f64 pw0) := nth a state5 (VInts [] []).
Lemma obj5_is a : (a < 3)%nat -> nth_error state5 a = Some (obj5 a).
Proof. intros H. apply nth_error_nth'. assert (L : length state5 = 3%nat) by (vm_compute; reflexivity). rewrite L. exact H. Qed.
Lemma arr5 : nth_error state5 2 = Some (VArr [3%nat] [fz 5; fz 2; fz (-7)]).
Proof.
  assert (V : arr_view (obj5 2) = Some ([3%nat], [fz 5; fz 2; fz (-7)])) by (vm_compute; reflexivity). rewrite obj5_is by lia.
  destruct (obj5 2); try discriminate V. injection V as -> ->. reflexivity.
Qed.
Lemma integrals5 : Forall integral [fz 1; fz (-2); fz 4] /\ Forall integral [fz 1; fz 4; fz (-2)] /\ Forall integral [fz 5; fz 2; fz (-7)].
Proof. split; [|split]; repeat constructor; try (apply integral_fz; vm_compute; reflexivity); try (split; [reflexivity|]); try (eexists; vm_compute; reflexivity). Qed.

(** Both products are [19 8]. *)
Example C83_matmul_nonvacuous : exists c, step env2 state5 (Matmul 1 2) = Ok (state5 ++ [VArr [2%nat] c]) /\
  integral (nth 0 c f0) /\ (number (nth 0 c f0) == inject_Z 19)%Q /\ (number (nth 1 c f0) == inject_Z 8)%Q.
Proof.
  assert (NC : class_of (obj5 1) <> None) by (vm_compute; discriminate). assert (DA : data_array (obj5 1) = Some [fz 1; fz 4; fz (-2)]) by (vm_compute; reflexivity).
  assert (SH : shape2 (obj5 1) = (2, 3)%nat) by (vm_compute; reflexivity). assert (D : demand state5 (Matmul 1 2) < i64_max) by (vm_compute; reflexivity).
  destruct (C83_matmul pw0 env2 state5 1 2 (obj5 1) _ _ _ _ env2_fair state5_reached (obj5_is 1 ltac:(lia)) arr5 eq_refl NC D DA (proj1 (proj2 integrals5)) (proj2 (proj2 integrals5))) as [H _].
  rewrite SH in H. cbn [fst snd] in H. destruct (H eq_refl) as (c & E & L & V). exists c. split; [exact E|].
  destruct (V 0%nat ltac:(lia)) as [A1 A2]; [vm_compute; discriminate|]. destruct (V 1%nat ltac:(lia)) as [A3 A4]; [vm_compute; discriminate|].
  split; [exact A1|]. rewrite A2, A4. split; vm_compute; reflexivity.
Qed.

Example C83_format_independent_nonvacuous : exists c1 c2, step env2 state5 (Matmul 0 2) = Ok (state5 ++ [VArr [2%nat] c1]) /\
  step (env0 (f64 pw0)) state5 (Matmul 1 2) = Ok (state5 ++ [VArr [2%nat] c2]) /\ (number (nth 1 c1 f0) == number (nth 1 c2 f0))%Q.
Proof.
  assert (K : class_of (obj5 0) <> None /\ class_of (obj5 1) <> None) by (split; vm_compute; discriminate).
  assert (DA : data_array (obj5 0) = Some [fz 1; fz (-2); fz 4] /\ data_array (obj5 1) = Some [fz 1; fz 4; fz (-2)]) by (split; vm_compute; reflexivity).
  assert (SH : shape2 (obj5 0) = (2, 3)%nat /\ shape2 (obj5 1) = (2, 3)%nat) by (split; vm_compute; reflexivity).
  assert (D : demand state5 (Matmul 0 2) < i64_max /\ demand state5 (Matmul 1 2) < i64_max) by (split; vm_compute; reflexivity).
  assert (EQ : forall i j, (i < 2)%nat -> (j < 3)%nat -> stored (obj5 0) i j = stored (obj5 1) i j).
  { intros i j Hi Hj. do 2 (destruct i as [|i]; [do 3 (destruct j as [|j]; [vm_compute; reflexivity|]); lia|]). lia. }
  assert (B : forall i, (i < 2)%nat -> (magnitude (products (stored (obj5 0)) 3 [fz 5; fz 2; fz (-7)] i) <= inject_Z (2 ^ 53))%Q).
  { intros i Hi. do 2 (destruct i as [|i]; [vm_compute; discriminate|]). lia. }
  destruct (C83_format_independent pw0 env2 (env0 (f64 pw0)) state5 state5 0 1 2 2 (obj5 0) (obj5 1) _ _ 2 3 _ env2_fair (env0_fair _ (f64_laws pw0)) state5_reached state5_reached
    (obj5_is 0 ltac:(lia)) (obj5_is 1 ltac:(lia)) (proj1 K) (proj2 K) (proj1 SH) (proj2 SH) arr5 arr5 (proj1 D) (proj2 D) (proj1 DA) (proj1 integrals5) (proj2 DA) (proj1 (proj2 integrals5)) (proj2 (proj2 integrals5)) EQ B)
    as (c1 & c2 & E1 & E2 & _ & _ & V).
  exists c1, c2. split; [exact E1|]. split; [exact E2|]. apply V. lia.
Qed.
