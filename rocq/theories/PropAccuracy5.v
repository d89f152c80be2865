(** Property theorems: accuracy and exactness of the remaining sums and products - cumulative
    sums, means, tensordot, vecdot and N-dimensional arrays (C82, C83), and the rounding of
    broadcast products (C86, C87). The vocabulary is in SpecAccuracy; [matrix_exact] in
    PAccuracy7 lists the exact products of a line of an N-dimensional array with a column of a
    dense matrix. *)
Require Import List ZArith Bool Arith Lia Permutation QArith Qabs Qpower.
Require Import Coq.Floats.SpecFloat.
Require Import Verif.Res Verif.Values Verif.Spec Verif.Mem Verif.Laws Verif.Witness Verif.SpecReduce Verif.SpecPy Verif.MPy Verif.PropPy2 Verif.MObj Verif.SpecObj Verif.PObj Verif.PropObj Verif.SpecCall Verif.SpecCall2 Verif.PropCall Verif.PropCall2 Verif.PropCall3 Verif.PropCall4 Verif.PropCall6.
Require Import Verif.SpecAccuracy Verif.FloatErr Verif.PAccuracy Verif.PAccuracy2 Verif.PAccuracy3 Verif.PAccuracy6 Verif.PAccuracy7 Verif.PropAccuracy.
Require Verif.PAcc Verif.PCall3 Verif.PCall Verif.FloatValid.
Import ListNotations.
Local Open Scope Z_scope.

(** ** C82 for tensordot of an N-dimensional array *)

Lemma tensordot_number : forall pw (l : list (f64 pw)), exists s, FSum l s /\ number (one_or f0 (filter nonzero (left_sum l))) = number s /\ (b64_finite (one_or f0 (filter nonzero (left_sum l)) : f64 pw) = true -> b64_finite s = true) /\
  (b64_finite s = true -> b64_finite (one_or f0 (filter nonzero (left_sum l)) : f64 pw) = true).
Proof.
  intros pw l. exists (one_or f0 (left_sum l)). split; [apply left_sum_is|]. destruct l as [|v l]; [cbn; auto|]. cbn [left_sum one_or]. set (s := fold_left fadd l v : f64 pw). cbn [filter]. destruct (nonzero s) eqn:E; cbn [one_or]; [auto|].
  assert (Z : feqb s f0 = true) by (unfold nonzero in E; destruct (feqb s f0); [reflexivity|discriminate E]). rewrite (zero_number pw s Z). split; [reflexivity|]. split; intros _; [apply (zero_finite pw); exact Z|reflexivity].
Qed.

(** [tensordot(A, y, axis)] with a dense array [y]. *)
Theorem C82_nd_tensordot : forall pw (e : Env (f64 pw)) (h : list (value (f64 pw))) a b (A : Nd (f64 pw)) m rest (d : list (f64 pw)) axis, fair e -> reached h -> nth_error h a = Some (VNd A) -> nth_error h b = Some (VArr (m :: rest) d) ->
  Forall (fun n => 0 <= n) (nd_shape A) ->
  let ndim := length (nd_shape A) in
  let ax := match axis with None => (ndim - 1)%nat | Some z => Z.to_nat z end in
  let remain := other_axes ndim [ax] in
  match axis with None => True | Some z => 0 <= z < Z.of_nat ndim end -> Z.of_nat m = nth ax (nd_shape A) 0 -> shape_cells (nd_shape A) * shape_cells (map Z.of_nat (m :: rest)) < i64_max ->
  let k := Z.to_nat (cells (map Z.of_nat rest)) in
  exists C, step e h (Tensordot a b axis) = Ok (h ++ [VNd C]) /\ nd_shape C = select remain (nd_shape A) ++ [Z.of_nat k] /\
    forall key c, in_shape (select remain (nd_shape A)) key -> (c < k)%nat -> let v := one_or f0 (nd_at C (key ++ [Z.of_nat c])) in
      ffinite v = true -> dot_within (matrix_exact A ax d k key c) (number v).
Proof.
  intros pw e h a b A m rest d axis FE R N M NN ndim ax remain AL EM SZ k. destruct (C63_tensordot _ e h a b A _ d axis (f64_laws pw) FE R N M NN) as (_ & H).
  destruct (H m rest AL eq_refl EM SZ) as (C & E & S & V). exists C. split; [exact E|]. split; [exact S|]. intros key c IK Hc v. unfold v. rewrite (V key c IK Hc). fold ndim ax k.
  destruct (tensordot_number pw (filter nonzero (matrix_products A ax d k key c))) as (s & S1 & S2 & S3 & _). rewrite S2. intros FI. apply (matrix_accurate pw _ _ _ _ _ _ s S1). apply S3. exact FI.
Qed.
Print Assumptions C82_nd_tensordot.

(** ** C83 for the remaining sums and products of integers *)

(** [v] is the exact sum of the integers [ps] if their absolute values add up to at most 2^53. *)
Definition exactly (ps : list Q) (v : spec_float) : Prop := (magnitude ps <= inject_Z (2 ^ 53))%Q -> integral v /\ (number v == total ps)%Q.

Theorem C83_cumulative_sums : forall pw (e : Env (f64 pw)) (h : list (value (f64 pw))) a (x : value (f64 pw)) values axis, fair e -> reached h -> nth_error h a = Some x -> class_of x <> None ->
  data_array x = Some values -> Forall integral values ->
  let m := fst (shape2 x) in let n := snd (shape2 x) in
  (single_axis axis = Some 0%nat -> exists out, step e h (Cum CumSum a axis) = Ok (h ++ [VArr [m; n] out]) /\ length out = (m * n)%nat /\
     forall i j, (i < m)%nat -> (j < n)%nat -> exactly (map number (flat_map (fun i' => stored x i' j) (seq 0 (S i)))) (nth (i * n + j) out f0)) /\
  (class_of x <> Some CscClass -> single_axis axis = Some 1%nat -> exists out, step e h (Cum CumSum a axis) = Ok (h ++ [VArr [m; n] out]) /\ length out = (m * n)%nat /\
     forall i j, (i < m)%nat -> (j < n)%nat -> exactly (map number (flat_map (fun j' => stored x i j') (seq 0 (S j)))) (nth (i * n + j) out f0)).
Proof.
  intros pw e h a x values axis FE R N NC ED D0 m n. assert (D := stored_all _ x values _ ED D0). destruct (C66_cumulative pw e h a x CumSum axis FE R N) as (_ & H1 & H2). fold m n in H1, H2. unfold accumulates, exactly in *. split.
  - intros A. destruct (H1 NC A) as (out & E & L & V). exists out. split; [exact E|]. split; [exact L|]. intros i j Hi Hj B. apply (sum_integers pw _ _ (V i j Hi Hj)); [|exact B]. apply Forall_flat_map, Forall_forall. auto.
  - intros C A. destruct H2 as (out & E & L & V); [destruct (class_of x) as [[| |]|]; [auto|exfalso; auto|auto|exfalso; auto]|exact A|]. exists out. split; [exact E|]. split; [exact L|].
    intros i j Hi Hj B. apply (sum_integers pw _ _ (V i j Hi Hj)); [|exact B]. apply Forall_flat_map, Forall_forall. auto.
Qed.
Print Assumptions C83_cumulative_sums.

(** The mean of integers whose sum is exact is the exact mean rounded once. *)
Theorem C83_means : forall pw (e : Env (f64 pw)) (h : list (value (f64 pw))) a (x : value (f64 pw)) values, fair e -> reached h -> nth_error h a = Some x -> class_of x <> None ->
  data_array x = Some values -> Forall integral values ->
  let m := fst (shape2 x) in let n := snd (shape2 x) in
  m <> 0%nat -> n <> 0%nat -> Z.of_nat m * Z.of_nat n <= 2 ^ 53 ->
  let once {J} (cell : J -> list (f64 pw)) (js : list J) (v : f64 pw) := let ps := map number (flat_map cell js) in
    (magnitude ps <= inject_Z (2 ^ 53))%Q -> ffinite v = true /\ rounded (total ps / inject_Z (Z.of_nat (length js))) (number v) in
  exists all cols rows,
    once (fun p => stored x (fst p) (snd p)) (grid m n) all /\
    length cols = n /\ (forall j, (j < n)%nat -> once (fun i => stored x i j) (seq 0 m) (nth j cols f0)) /\
    length rows = m /\ (forall i, (i < m)%nat -> once (fun j => stored x i j) (seq 0 n) (nth i rows f0)) /\
    forall axis kd, step e h (Reduce RMean a axis kd) = reduction_result VArr all cols rows axis kd h.
Proof.
  intros pw e h a x values FE R N NC ED D0 m n M0 N0 SZ once. assert (D := stored_all _ x values _ ED D0).
  destruct (C62_reductions pw e h a x RMean FE R N NC eq_refl (conj M0 N0)) as (t & cs & rs & H1 & H2 & H3 & H4 & H5 & H6).
  exists t, cs, rs. unfold reduces in *. fold m n in H1, H2, H3, H4, H5. unfold once.
  assert (G : forall J (cell : J -> list (f64 pw)) js v, (forall j, Forall integral (cell j)) -> (1 <= Z.of_nat (length js) <= 2 ^ 53) ->
    (exists s, FSum (flat_map cell js) s /\ v = fdiv s (fofZ (Z.of_nat (length js)))) -> (magnitude (map number (flat_map cell js)) <= inject_Z (2 ^ 53))%Q ->
    ffinite v = true /\ rounded (total (map number (flat_map cell js)) / inject_Z (Z.of_nat (length js))) (number v)).
  { intros J cell js v HD LJ (s & S & ->) B. apply (mean_integers pw _ s _ S); [|exact B|exact LJ]. apply Forall_flat_map, Forall_forall. auto. }
  assert (LG : length (grid m n) = (m * n)%nat) by (unfold grid; rewrite prod_length, !seq_length; reflexivity).
  split; [|split; [|split; [|split; [|split]]]]; auto.
  - intros B. apply G; auto. rewrite LG. nia.
  - intros j Hj B. apply G; auto. rewrite seq_length. nia.
  - intros i Hi B. apply G; auto. rewrite seq_length. nia.
Qed.
Print Assumptions C83_means.

Theorem C83_tensordot : forall pw (e : Env (f64 pw)) (h : list (value (f64 pw))) a b (x : value (f64 pw)) values (d : list (f64 pw)) axis rest, fair e -> reached h ->
  let m := fst (shape2 x) in let n := snd (shape2 x) in
  nth_error h a = Some x -> nth_error h b = Some (VArr (n :: rest) d) -> class_of x <> None -> demand h (Tensordot a b axis) < i64_max ->
  data_array x = Some values -> Forall integral values -> Forall integral d ->
  axis = None \/ axis = Some 1 -> rest <> [] -> let k := fold_right Nat.mul 1%nat rest in columns_ok x k ->
  exists R, step e h (Tensordot a b axis) = Ok (h ++ [VArr (m :: rest) R]) /\ length R = (m * k)%nat /\
    forall i c, (i < m)%nat -> (c < k)%nat -> exactly (products (stored x) n (column d n k c) i) (nth (i * k + c) R f0).
Proof.
  intros pw e h a b x values d axis rest FE R m n N M NC DM ED D0 ID OA NR k CK. assert (D := stored_all _ x values _ ED D0).
  destruct (C64_tensordot _ e h a b x _ d axis (f64_laws pw) FE R N M NC DM) as (_ & H). destruct (H OA) as (_ & _ & _ & H1).
  destruct (proj1 (H1 rest eq_refl NR) CK) as (Q & E & L & V). exists Q. split; [exact E|]. split; [exact L|]. intros i c Hi Hc B.
  apply dot_integers; [apply V; assumption|intros j _; apply D| |exact B]. unfold column. apply Forall_map, Forall_forall. intros j _. apply nth_integral. exact ID.
Qed.
Print Assumptions C83_tensordot.

Theorem C83_vecdot : forall pw (e : Env (f64 pw)) (h : list (value (f64 pw))) a b (x : value (f64 pw)) values (d : list (f64 pw)), fair e -> reached h ->
  let m := fst (shape2 x) in let n := snd (shape2 x) in
  nth_error h a = Some x -> nth_error h b = Some (VArr [m] d) -> class_of x <> None ->
  data_array x = Some values -> Forall integral values -> Forall integral d ->
  exists c, step e h (Vecdot a b (Some 0)) = Ok (h ++ [VArr [n] c]) /\ length c = n /\
    forall j, (j < n)%nat -> exactly (products (fun j i => stored x i j) m d j) (nth j c f0).
Proof.
  intros pw e h a b x values d FE R m n N M NC ED D0 ID. assert (D := stored_all _ x values _ ED D0).
  destruct (C64_vecdot _ e h a b x m d None (f64_laws pw) FE R N M NC) as (_ & H & _). destruct (H eq_refl) as (c & E & L & V).
  exists c. split; [exact E|]. split; [exact L|]. intros j Hj B. specialize (V j Hj). unfold col_times in V. fold m in V.
  assert (IC : int_cells pw (fun j i => stored x i j) m j) by (intros i _; apply D).
  destruct x; try (exfalso; apply NC; reflexivity); first [apply (dot_nz_integers pw (fun j i => stored _ i j)); assumption|apply (fma_integers pw (fun j i => stored _ i j)); assumption].
Qed.
Print Assumptions C83_vecdot.

(** N-dimensional arrays. *)
Theorem C83_nd_sums : forall pw (e : Env (f64 pw)) (h : list (value (f64 pw))) a (A : Nd (f64 pw)) axis kd, fair e -> reached h -> nth_error h a = Some (VNd A) -> Forall (fun n => 0 <= n) (nd_shape A) ->
  Forall integral (nd_dat A) ->
  let ndim := length (nd_shape A) in
  let numbers := match axis with AxNone => [] | AxInt a => [a] | AxTuple l => l end in
  let axes := named_axes ndim numbers in
  let remain := other_axes ndim axes in
  (axis = AxNone -> exists s, step e h (Reduce RSum a axis kd) = Ok (h ++ [VArr (if kd then repeat 1%nat ndim else []) [s]]) /\ exactly (map number (array_values A)) s) /\
  (numbers <> [] -> Forall (fun a => - Z.of_nat ndim <= a < Z.of_nat ndim) numbers -> (length axes < ndim)%nat ->
     exists C, step e h (Reduce RSum a axis kd) = Ok (h ++ [VNd C]) /\
       forall k, in_shape (nd_shape C) k -> exactly (map number (fiber A remain (if kd then select remain k else k))) (one_or f0 (nd_at C k))).
Proof.
  intros pw e h a A axis kd FE R N NN D ndim numbers axes remain. destruct (C63_sum_mean pw e h a A RSum axis kd FE R N NN (or_introl eq_refl)) as (H1 & _ & H3).
  fold ndim numbers axes remain in H1, H3. cbv zeta iota beta in H1, H3. fold ndim numbers axes remain in H1, H3. split.
  - intros EA. destruct (H1 EA) as (s & S & E). exists s. split; [exact E|]. intros B. apply (sum_integers pw _ _ S); [|exact B]. unfold array_values. apply Forall_flat_map, Forall_forall. intros k _.
    apply Forall_forall. intros v Iv. rewrite Forall_forall in D. apply D. eapply filter_snd. exact Iv.
  - intros A1 A2 A3. destruct (H3 A1 A2 A3) as (C & E & _ & V). exists C. split; [exact E|]. intros k Hk. rewrite (V k Hk), map_id. set (l := fiber A remain (if kd then select remain k else k)).
    intros B. apply (sum_integers pw _ _ (left_sum_is pw l)); [|exact B]. apply Forall_forall. intros v Iv. rewrite Forall_forall in D. apply D. eapply filter_snd. exact Iv.
Qed.
Print Assumptions C83_nd_sums.

Theorem C83_nd_vecdot : forall pw (e : Env (f64 pw)) (h : list (value (f64 pw))) a b (A : Nd (f64 pw)) n (d : list (f64 pw)) axis, fair e -> reached h -> nth_error h a = Some (VNd A) -> nth_error h b = Some (VArr [n] d) ->
  Forall (fun n => 0 <= n) (nd_shape A) -> Forall integral (nd_dat A) -> Forall integral d ->
  let ndim := length (nd_shape A) in
  let last := match axis with None => true | Some z => z =? -1 end in
  let ax := if last then (ndim - 1)%nat else match axis with Some z => Z.to_nat z | None => 0%nat end in
  (last = true \/ exists z, axis = Some z /\ 0 <= z < Z.of_nat ndim) -> ndim <> 1%nat -> Z.of_nat n = nth ax (nd_shape A) 0 ->
  exists C, step e h (Vecdot a b axis) = Ok (h ++ [VNd C]) /\ nd_shape C = select (other_axes ndim [ax]) (nd_shape A) /\
    forall k, in_shape (nd_shape C) k -> exactly (line_exact A ax d k) (one_or f0 (nd_at C k)).
Proof.
  intros pw e h a b A n d axis FE R N M NN IA ID ndim last ax OA N1 EN. destruct (C63_vecdot _ e h a b A n d axis (f64_laws pw) FE R N M NN) as (_ & H). fold ndim last ax in H.
  destruct (H OA N1 EN) as (C & E & S & V). exists C. split; [exact E|]. split; [exact S|]. intros k Hk. rewrite (V k Hk). intros B.
  apply (line_integers pw); [apply left_sum_is|exact IA|exact ID|exact B].
Qed.
Print Assumptions C83_nd_vecdot.

Theorem C83_nd_tensordot : forall pw (e : Env (f64 pw)) (h : list (value (f64 pw))) a b (A : Nd (f64 pw)) m rest (d : list (f64 pw)) axis, fair e -> reached h -> nth_error h a = Some (VNd A) -> nth_error h b = Some (VArr (m :: rest) d) ->
  Forall (fun n => 0 <= n) (nd_shape A) -> Forall integral (nd_dat A) -> Forall integral d ->
  let ndim := length (nd_shape A) in
  let ax := match axis with None => (ndim - 1)%nat | Some z => Z.to_nat z end in
  let remain := other_axes ndim [ax] in
  match axis with None => True | Some z => 0 <= z < Z.of_nat ndim end -> Z.of_nat m = nth ax (nd_shape A) 0 -> shape_cells (nd_shape A) * shape_cells (map Z.of_nat (m :: rest)) < i64_max ->
  let k := Z.to_nat (cells (map Z.of_nat rest)) in
  exists C, step e h (Tensordot a b axis) = Ok (h ++ [VNd C]) /\ nd_shape C = select remain (nd_shape A) ++ [Z.of_nat k] /\
    forall key c, in_shape (select remain (nd_shape A)) key -> (c < k)%nat -> exactly (matrix_exact A ax d k key c) (one_or f0 (nd_at C (key ++ [Z.of_nat c]))).
Proof.
  intros pw e h a b A m rest d axis FE R N M NN IA ID ndim ax remain AL EM SZ k. destruct (C63_tensordot _ e h a b A _ d axis (f64_laws pw) FE R N M NN) as (_ & H).
  destruct (H m rest AL eq_refl EM SZ) as (C & E & S & V). exists C. split; [exact E|]. split; [exact S|]. intros key c IK Hc B. rewrite (V key c IK Hc). fold ndim ax k.
  destruct (tensordot_number pw (filter nonzero (matrix_products A ax d k key c))) as (s & S1 & S2 & _ & S4).
  destruct (matrix_integers pw _ _ _ _ _ _ s S1 IA ID B) as [[F1 (z & Z1)] E1]. rewrite S2. split; [|exact E1]. split; [apply S4; exact F1|]. exists z. rewrite S2. exact Z1.
Qed.
Print Assumptions C83_nd_tensordot.

(** ** C86 and C87 for products of N-dimensional arrays *)

(** [A * B] with broadcasting: every cell is the product of the two cells it comes from, rounded
    once; on integers it is exact. *)
Theorem C86_nd_products : forall pw (e : Env (f64 pw)) (h : list (value (f64 pw))) a b (A B : Nd (f64 pw)), fair e -> reached h -> nth_error h a = Some (VNd A) -> nth_error h b = Some (VNd B) ->
  Forall (fun n => 0 < n) (nd_shape A) -> Forall (fun n => 0 < n) (nd_shape B) -> Forall finite_double (nd_dat A) -> Forall finite_double (nd_dat B) ->
  broadcastable (nd_shape A) (nd_shape B) -> cells (broadcast_shape (nd_shape A) (nd_shape B)) <= usize_max ->
  exists C, step e h (Binary BMul a b) = Ok (h ++ [VNd C]) /\ nd_shape C = broadcast_shape (nd_shape A) (nd_shape B) /\
    forall k, in_shape (nd_shape C) k ->
      let w := (number (one_or f0 (nd_at A (source_cell (nd_shape A) k))) * number (one_or f0 (nd_at B (source_cell (nd_shape B) k))))%Q in
      (Qabs w < (2 # 1) ^ 1023)%Q -> finite_double (one_or f0 (nd_at C k)) /\ rounded w (number (one_or f0 (nd_at C k))).
Proof.
  intros pw e h a b A B FE R NA NB PA PB FA FB BC CL. assert (KA := PCall3.reached_nth h a _ (f64_laws pw) R NA). assert (KB := PCall3.reached_nth h b _ (f64_laws pw) R NB).
  assert (W : forall sh, Forall (fun n => 0 < n) sh -> Forall (fun n => 0 <= n) sh) by (intros sh; apply Forall_impl; intros; lia).
  destruct (PCall3.nd_parts_is A KA (W _ PA)) as (_ & _ & SVA & _). destruct (PCall3.nd_parts_is B KB (W _ PB)) as (_ & _ & SVB & _).
  destruct (C63_broadcast _ e h a b A B (f64_laws pw) FE R NA NB PA PB) as (_ & H). destruct (H BC CL) as (C & E & S & V). exists C. split; [exact E|]. split; [exact S|].
  intros k Hk w Bw. subst w. rewrite (V k Hk). assert (LA := SVA (source_cell (nd_shape A) k)). assert (LB := SVB (source_cell (nd_shape B) k)).
  assert (QA : Forall finite_double (nd_at A (source_cell (nd_shape A) k))) by (apply Forall_forall; intros v Iv; rewrite Forall_forall in FA; apply FA; eapply filter_snd; exact Iv).
  assert (QB : Forall finite_double (nd_at B (source_cell (nd_shape B) k))) by (apply Forall_forall; intros v Iv; rewrite Forall_forall in FB; apply FB; eapply filter_snd; exact Iv).
  assert (Z0 : finite_double (f0 : f64 pw)) by (split; reflexivity).
  destruct (nd_at A (source_cell (nd_shape A) k)) as [|p [|? ?]], (nd_at B (source_cell (nd_shape B) k)) as [|q [|? ?]]; cbn [length] in LA, LB; try (exfalso; clear - LA LB; lia);
    unfold Spec.products; cbn [map concat app one_or] in Bw |- *; try (split; [exact Z0|]; apply rounded_zero; change (number (f0 : f64 pw)) with 0%Q; ring).
  inversion QA as [|? ? QP _]; subst. inversion QB as [|? ? QQ _]; subst. apply mul_rounded; assumption.
Qed.
Print Assumptions C86_nd_products.

Theorem C87_nd_products : forall pw (e : Env (f64 pw)) (h : list (value (f64 pw))) a b (A B : Nd (f64 pw)), fair e -> reached h -> nth_error h a = Some (VNd A) -> nth_error h b = Some (VNd B) ->
  Forall (fun n => 0 < n) (nd_shape A) -> Forall (fun n => 0 < n) (nd_shape B) -> Forall finite_double (nd_dat A) -> Forall finite_double (nd_dat B) ->
  broadcastable (nd_shape A) (nd_shape B) -> cells (broadcast_shape (nd_shape A) (nd_shape B)) <= usize_max ->
  exists C, step e h (Binary BMul a b) = Ok (h ++ [VNd C]) /\ nd_shape C = broadcast_shape (nd_shape A) (nd_shape B) /\
    forall k x y, in_shape (nd_shape C) k -> (number (one_or f0 (nd_at A (source_cell (nd_shape A) k))) == inject_Z x)%Q -> (number (one_or f0 (nd_at B (source_cell (nd_shape B) k))) == inject_Z y)%Q ->
      Z.abs (x * y) <= 2 ^ 53 -> finite_double (one_or f0 (nd_at C k)) /\ (number (one_or f0 (nd_at C k)) == inject_Z (x * y))%Q.
Proof.
  intros pw e h a b A B FE R NA NB PA PB FA FB BC CL. assert (KA := PCall3.reached_nth h a _ (f64_laws pw) R NA). assert (KB := PCall3.reached_nth h b _ (f64_laws pw) R NB).
  assert (W : forall sh, Forall (fun n => 0 < n) sh -> Forall (fun n => 0 <= n) sh) by (intros sh; apply Forall_impl; intros; lia).
  destruct (PCall3.nd_parts_is A KA (W _ PA)) as (_ & _ & SVA & _). destruct (PCall3.nd_parts_is B KB (W _ PB)) as (_ & _ & SVB & _).
  destruct (C63_broadcast _ e h a b A B (f64_laws pw) FE R NA NB PA PB) as (_ & H). destruct (H BC CL) as (C & E & S & V). exists C. split; [exact E|]. split; [exact S|].
  intros k x y Hk Ex Ey Bw. rewrite (V k Hk). assert (LA := SVA (source_cell (nd_shape A) k)). assert (LB := SVB (source_cell (nd_shape B) k)).
  assert (QA : Forall finite_double (nd_at A (source_cell (nd_shape A) k))) by (apply Forall_forall; intros v Iv; rewrite Forall_forall in FA; apply FA; eapply filter_snd; exact Iv).
  assert (QB : Forall finite_double (nd_at B (source_cell (nd_shape B) k))) by (apply Forall_forall; intros v Iv; rewrite Forall_forall in FB; apply FB; eapply filter_snd; exact Iv).
  assert (Z0 : finite_double (f0 : f64 pw)) by (split; reflexivity). change (inject_Z 0) with 0%Q in *.
  destruct (nd_at A (source_cell (nd_shape A) k)) as [|p [|? ?]], (nd_at B (source_cell (nd_shape B) k)) as [|q [|? ?]]; cbn [length] in LA, LB; try (exfalso; clear - LA LB; lia);
    unfold Spec.products; cbn [map concat app one_or] in Ex, Ey |- *; try (split; [exact Z0|]; change (number (f0 : f64 pw)) with (inject_Z 0) in *; rewrite inject_Z_mult, <- ?Ex, <- ?Ey; ring).
  inversion QA as [|? ? [DP FP] _]; subst. inversion QB as [|? ? [DQ FQ] _]; subst. destruct (mul_exact p q x y FP FQ Ex Ey Bw) as [X Y]. split; [split; [apply FloatValid.mul_double; assumption|exact X]|exact Y].
Qed.
Print Assumptions C87_nd_products.

(** ** The hypotheses are met *)

Lemma integrals_N5 : Forall integral (nd_dat N5).
Proof.
  assert (E : nd_dat N5 = [fz 6; fz 8; fz (-3)]) by (vm_compute; reflexivity). rewrite E. repeat constructor; try (apply integral_fz; vm_compute; reflexivity); eexists; vm_compute; reflexivity.
Qed.
Lemma finites_N5' : Forall finite_double (nd_dat N5).
Proof. assert (E : nd_dat N5 = [fz 6; fz 8; fz (-3)]) by (vm_compute; reflexivity). rewrite E. repeat constructor. Qed.
Lemma shape_N5 : nd_shape N5 = [2; 1; 3].
Proof. vm_compute. reflexivity. Qed.
Lemma obj2_parts : class_of (obj 2) <> None /\ data_array (obj 2) = Some [fz 7; fz (-1)] /\ shape2 (obj 2) = (2, 3)%nat.
Proof. split; [vm_compute; discriminate|split; vm_compute; reflexivity]. Qed.

(** Row 1 of object 2 is 7, 0, 0; its column sums are 7, 0, -1. *)
Example C83_cumulative_sums_nonvacuous : exists out, step env2 state2 (Cum CumSum 2 (AxInt 0)) = Ok (state2 ++ [VArr [2; 3]%nat out]) /\ integral (nth 5 out f0) /\ (number (nth 5 out f0) == inject_Z (-1))%Q.
Proof.
  destruct obj2_parts as (NC & DA & SH).
  destruct (C83_cumulative_sums pw0 env2 state2 2 (obj 2) _ (AxInt 0) env2_fair state2_reached (obj_is 2 ltac:(lia)) NC DA (proj1 integrals)) as (H & _).
  destruct (H eq_refl) as (out & E & _ & V). clear H. rewrite SH in E, V. cbn [fst snd] in E, V. exists out. split; [exact E|]. specialize (V 1%nat 2%nat ltac:(lia) ltac:(lia)).
  assert (EV : flat_map (fun i => stored (obj 2) i 2) (seq 0 2) = [fz (-1)]) by (vm_compute; reflexivity). rewrite EV in V. unfold exactly in V.
  assert (T : (total (map number [fz (-1)]) == inject_Z (-1))%Q) by (vm_compute; reflexivity). rewrite T in V. apply V. vm_compute. discriminate.
Qed.

(** The mean of all six cells is 6 / 6. *)
Example C83_means_nonvacuous : exists t, step env2 state2 (Reduce RMean 2 AxNone false) = Ok (state2 ++ [VArr [] [t]]) /\ ffinite t = true /\ rounded 1 (number t).
Proof.
  destruct obj2_parts as (NC & DA & SH).
  assert (H := C83_means pw0 env2 state2 2 (obj 2) _ env2_fair state2_reached (obj_is 2 ltac:(lia)) NC DA (proj1 integrals)). cbv zeta in H. rewrite SH in H. cbn [fst snd] in H.
  destruct (H ltac:(discriminate) ltac:(discriminate) ltac:(vm_compute; discriminate)) as (t & cs & rs & T & _ & _ & _ & _ & E). clear H.
  exists t. specialize (E AxNone false). change (reduction_result VArr t cs rs AxNone false state2) with (Ok (state2 ++ [VArr [] [t]])) in E. split; [exact E|].
  assert (EV : flat_map (fun p => stored (obj 2) (fst p) (snd p)) (grid 2 3) = [fz (-1); fz 7]) by (vm_compute; reflexivity). rewrite EV in T.
  destruct T as [T1 T2]; [vm_compute; discriminate|]. split; [exact T1|].
  assert (Q1 : (total (map number [fz (-1); fz 7]) / inject_Z (Z.of_nat (length (grid 2 3))) == 1)%Q) by (vm_compute; reflexivity). unfold rounded in *. rewrite Q1 in T2. exact T2.
Qed.

Example C83_tensordot_nonvacuous : exists R, step env2 state3 (Tensordot 2 8 (Some 1)) = Ok (state3 ++ [VArr [2; 2]%nat R]) /\ integral (nth 3 R f0) /\ (number (nth 3 R f0) == inject_Z 14)%Q.
Proof.
  destruct arr3 as (A8 & _ & _). destruct obj2_parts as (NC & DA & SH).
  assert (I2 : Forall integral [fz 1; fz 2; fz 3; fz 4; fz 5; fz 6]) by (repeat constructor; try (apply integral_fz; vm_compute; reflexivity); eexists; vm_compute; reflexivity).
  assert (DM := demand3 (Tensordot 2 8 (Some 1)) _ _ _ (conj (obj3 2 ltac:(lia)) A8) NC ltac:(rewrite SH; reflexivity)).
  assert (H := C83_tensordot pw0 env2 state3 2 8 (obj 2) [fz 7; fz (-1)] [fz 1; fz 2; fz 3; fz 4; fz 5; fz 6] (Some 1) [2%nat] env2_fair state3_reached). cbv zeta in H. rewrite SH in H. cbn [fst snd] in H.
  destruct (H (obj3 2 ltac:(lia)) A8 NC DM DA (proj1 integrals) I2 (or_intror eq_refl) ltac:(discriminate) (not_csr_columns (obj 2) _ ltac:(vm_compute; reflexivity))) as (R & E & L & V). clear H.
  exists R. split; [exact E|]. specialize (V 1%nat 1%nat ltac:(lia) ltac:(cbn; lia)). unfold exactly in V.
  assert (T : (total (products (stored (obj 2)) 3 (column [fz 1; fz 2; fz 3; fz 4; fz 5; fz 6] 3 2 1) 1) == inject_Z 14)%Q) by (vm_compute; reflexivity).
  change (fold_right Nat.mul 1%nat [2%nat]) with 2%nat in V. rewrite T in V. apply V. vm_compute. discriminate.
Qed.

Example C83_vecdot_nonvacuous : exists c, step env2 state3 (Vecdot 2 10 (Some 0)) = Ok (state3 ++ [VArr [3%nat] c]) /\ integral (nth 0 c f0) /\ (number (nth 0 c f0) == inject_Z 700)%Q.
Proof.
  destruct arr3 as (_ & _ & A10). destruct obj2_parts as (NC & DA & SH).
  assert (I2 : Forall integral [fz 10; fz 100]) by (repeat constructor; try (apply integral_fz; vm_compute; reflexivity); eexists; vm_compute; reflexivity).
  destruct (C83_vecdot pw0 env2 state3 2 10 (obj 2) [fz 7; fz (-1)] [fz 10; fz 100] env2_fair state3_reached (obj3 2 ltac:(lia))) as (c & E & L & V); [rewrite SH; exact A10|exact NC|exact DA|exact (proj1 integrals)|exact I2|].
  rewrite SH in E, V. cbn [fst snd] in E, V. exists c. split; [exact E|]. specialize (V 0%nat ltac:(lia)). unfold exactly in V.
  assert (T : (total (products (fun j i => stored (obj 2) i j) 2 [fz 10; fz 100] 0) == inject_Z 700)%Q) by (vm_compute; reflexivity). rewrite T in V. apply V. vm_compute. discriminate.
Qed.

Example C83_nd_sums_nonvacuous : exists s, step env2 state2 (Reduce RSum 5 AxNone false) = Ok (state2 ++ [VArr [] [s]]) /\ integral s /\ (number s == inject_Z 11)%Q.
Proof.
  destruct (C83_nd_sums pw0 env2 state2 5 N5 AxNone false env2_fair state2_reached N5_is (proj2 N5_dims) integrals_N5) as (H & _). destruct (H eq_refl) as (s & E & V). exists s. split; [exact E|].
  unfold exactly in V. assert (T : (total (map number (array_values N5)) == inject_Z 11)%Q) by (vm_compute; reflexivity). rewrite T in V. apply V. vm_compute. discriminate.
Qed.

Example C83_nd_vecdot_nonvacuous : exists C, step env2 state2 (Vecdot 5 7 None) = Ok (state2 ++ [VNd C]) /\ (number (one_or f0 (nd_at C [0; 0]%Z)) == inject_Z 12)%Q.
Proof.
  destruct (C83_nd_vecdot pw0 env2 state2 5 7 N5 3 [fz 5; fz 2; fz 0] None env2_fair state2_reached N5_is V7_is (proj2 N5_dims) integrals_N5 (proj2 integrals)) as (C & E & S & V); [auto|rewrite shape_N5; discriminate|rewrite shape_N5; reflexivity|].
  exists C. split; [exact E|]. specialize (V [0; 0]). rewrite S, shape_N5 in V. specialize (V ltac:(repeat constructor; cbn; lia)). unfold exactly in V.
  assert (T : (total (line_exact N5 2 [fz 5; fz 2; fz 0] [0; 0]%Z) == inject_Z 12)%Q) by (vm_compute; reflexivity). cbn [length Nat.sub] in V. rewrite T in V. apply V. vm_compute. discriminate.
Qed.

Lemma matrix_N5 : (total (matrix_exact N5 2 [fz 5; fz 2; fz 0] 1 [1; 0]%Z 0) == inject_Z (-15))%Q /\ (magnitude (matrix_exact N5 2 [fz 5; fz 2; fz 0] 1 [1; 0]%Z 0) == inject_Z 15)%Q.
Proof. split; vm_compute; reflexivity. Qed.
Example C82_nd_tensordot_nonvacuous : exists C, step env2 state2 (Tensordot 5 7 None) = Ok (state2 ++ [VNd C]) /\
  (ffinite (one_or f0 (nd_at C [1; 0; 0])) = true -> dot_within (matrix_exact N5 2 [fz 5; fz 2; fz 0] 1 [1; 0] 0) (number (one_or f0 (nd_at C [1; 0; 0])))).
Proof.
  destruct (C82_nd_tensordot pw0 env2 state2 5 7 N5 3 [] [fz 5; fz 2; fz 0] None env2_fair state2_reached N5_is V7_is (proj2 N5_dims) I) as (C & E & S & V); [rewrite shape_N5; reflexivity|rewrite shape_N5; reflexivity|].
  exists C. split; [exact E|]. rewrite shape_N5 in V. apply (V [1; 0] 0%nat); [repeat constructor; cbn; lia|cbn; lia].
Qed.
Example C83_nd_tensordot_nonvacuous : exists C, step env2 state2 (Tensordot 5 7 None) = Ok (state2 ++ [VNd C]) /\ (number (one_or f0 (nd_at C [1; 0; 0]%Z)) == inject_Z (-15))%Q.
Proof.
  destruct (C83_nd_tensordot pw0 env2 state2 5 7 N5 3 [] [fz 5; fz 2; fz 0] None env2_fair state2_reached N5_is V7_is (proj2 N5_dims) integrals_N5 (proj2 integrals) I) as (C & E & S & V); [rewrite shape_N5; reflexivity|rewrite shape_N5; reflexivity|].
  exists C. split; [exact E|]. rewrite shape_N5 in V. specialize (V [1; 0] 0%nat ltac:(repeat constructor; cbn; lia) ltac:(cbn; lia)). unfold exactly in V. destruct matrix_N5 as [T1 T2].
  rewrite <- T1. apply V. rewrite T2. vm_compute. discriminate.
Qed.

Lemma broadcast_N5 : broadcastable (nd_shape N5) (nd_shape N5) /\ cells (broadcast_shape (nd_shape N5) (nd_shape N5)) <= usize_max.
Proof. rewrite shape_N5. split; [unfold broadcastable; cbn; repeat constructor; auto|vm_compute; discriminate]. Qed.
Example C86_nd_products_nonvacuous : exists C, step env2 state2 (Binary BMul 5 5) = Ok (state2 ++ [VNd C]) /\ finite_double (one_or f0 (nd_at C [1; 0; 0])) /\ rounded 9 (number (one_or f0 (nd_at C [1; 0; 0]))).
Proof.
  destruct broadcast_N5 as [B1 B2]. destruct (C86_nd_products pw0 env2 state2 5 5 N5 N5 env2_fair state2_reached N5_is N5_is (proj1 N5_dims) (proj1 N5_dims) finites_N5' finites_N5' B1 B2) as (C & E & S & V).
  exists C. split; [exact E|]. specialize (V [1; 0; 0]). cbv zeta in V. assert (Q9 : (number (one_or f0 (nd_at N5 (source_cell (nd_shape N5) [1; 0; 0]%Z%Z))) * number (one_or f0 (nd_at N5 (source_cell (nd_shape N5) [1; 0; 0]%Z%Z))) == 9)%Q) by (vm_compute; reflexivity).
  destruct V as [V1 V2]; [rewrite S, shape_N5; repeat constructor; cbn; lia|rewrite Q9; vm_compute; reflexivity|]. split; [exact V1|]. unfold rounded in *. rewrite Q9 in V2. exact V2.
Qed.
Example C87_nd_products_nonvacuous : exists C, step env2 state2 (Binary BMul 5 5) = Ok (state2 ++ [VNd C]) /\ (number (one_or f0 (nd_at C [1; 0; 0]%Z)) == inject_Z 9)%Q.
Proof.
  destruct broadcast_N5 as [B1 B2]. destruct (C87_nd_products pw0 env2 state2 5 5 N5 N5 env2_fair state2_reached N5_is N5_is (proj1 N5_dims) (proj1 N5_dims) finites_N5' finites_N5' B1 B2) as (C & E & S & V).
  exists C. split; [exact E|]. apply (V [1; 0; 0] (-3) (-3)); [rewrite S, shape_N5; repeat constructor; cbn; lia|vm_compute; reflexivity|vm_compute; reflexivity|vm_compute; discriminate].
Qed.
