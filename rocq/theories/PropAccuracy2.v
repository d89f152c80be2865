(** Property theorems: sums, means and products of data of modest size are finite (C84). The
    vocabulary is in SpecAccuracy; the error bounds are those of C82. *)
Require Import List ZArith Bool Arith Lia Permutation QArith Qabs Qpower.
Require Import Coq.Floats.SpecFloat.
Require Import Verif.Res Verif.Values Verif.Spec Verif.Mem Verif.Laws Verif.Witness Verif.SpecReduce Verif.SpecPy Verif.MPy Verif.PropPy2 Verif.MObj Verif.SpecObj Verif.PObj Verif.PropObj Verif.SpecCall Verif.SpecCall2 Verif.PropCall Verif.PropCall2 Verif.PropCall3 Verif.PropCall4 Verif.PropCall6.
Require Import Verif.SpecAccuracy Verif.FloatErr Verif.PAccuracy Verif.PAccuracy2 Verif.PAccuracy3 Verif.PAccuracy4 Verif.PropAccuracy.
Require Verif.PAcc.
Import ListNotations.
Local Open Scope Z_scope.

Lemma both : forall l : list spec_float, Forall finite_double l -> Forall double l /\ Forall (fun x => b64_finite x = true) l.
Proof. intros l H. split; (eapply Forall_impl; [|exact H]; intros x [A B]; assumption). Qed.
Lemma fiber_all : forall pw (A : Nd (f64 pw)) P axes k, Forall P (nd_dat A) -> Forall P (fiber A axes k).
Proof. intros pw A P axes k D. apply Forall_forall. intros v Iv. rewrite Forall_forall in D. apply D. eapply filter_snd. exact Iv. Qed.
Lemma array_all : forall pw (A : Nd (f64 pw)) P, Forall P (nd_dat A) -> Forall P (array_values A).
Proof.
  intros pw A P D. unfold array_values. apply Forall_flat_map, Forall_forall. intros k _. apply Forall_forall. intros v Iv. rewrite Forall_forall in D. apply D. eapply filter_snd. exact Iv.
Qed.
Lemma sum_in_range : forall pw (l : list (f64 pw)) v, FSum l v -> Forall finite_double l -> modest (map number l) -> ffinite v = true /\ sum_within (map number l) (number v).
Proof. intros pw l v H A M. destruct (both l A) as [D B]. assert (FI : ffinite v = true) by (apply (sum_finite pw l v H D B M)). split; [exact FI|]. apply (sum_accurate pw l v H D FI). Qed.
Lemma column_all : forall pw (P : f64 pw -> Prop) d n k c, P f0 -> Forall P d -> Forall P (column d n k c).
Proof.
  intros pw P d n k c P0 H. unfold column. apply Forall_map, Forall_forall. intros j _. match goal with |- P (nth ?i d f0) => destruct (nth_in_or_default i d (f0 : f64 pw)) as [I| ->]; [rewrite Forall_forall in H; auto|exact P0] end.
Qed.
Lemma batch_all : forall pw (P : f64 pw -> Prop) k q d, Forall P d -> Forall P (batch k q d).
Proof. intros pw P k q d H. apply Forall_forall. intros v Iv. rewrite Forall_forall in H. apply H. unfold batch, slice in Iv. apply firstn_sub in Iv. apply skipn_sub in Iv. exact Iv. Qed.
Lemma zero_double : finite_double (S754_zero false).
Proof. split; reflexivity. Qed.

(** ** C84: no overflow *)

(** [A.sum(axis)] of a matrix of finite doubles: a sum of modest size is finite (and within
    the bound of C82), in every environment. *)
Theorem C84_sums : forall pw (e : Env (f64 pw)) (h : list (value (f64 pw))) a (x : value (f64 pw)) values, fair e -> reached h -> nth_error h a = Some x -> class_of x <> None ->
  data_array x = Some values -> Forall finite_double values ->
  let m := fst (shape2 x) in let n := snd (shape2 x) in
  let close {J} (cell : J -> list (f64 pw)) (js : list J) (v : f64 pw) :=
    modest (map number (flat_map cell js)) -> ffinite v = true /\ sum_within (map number (flat_map cell js)) (number v) in
  exists total cols rows,
    close (fun p => stored x (fst p) (snd p)) (grid m n) total /\
    length cols = n /\ (forall j, (j < n)%nat -> close (fun i => stored x i j) (seq 0 m) (nth j cols f0)) /\
    length rows = m /\ (forall i, (i < m)%nat -> close (fun j => stored x i j) (seq 0 n) (nth i rows f0)) /\
    forall axis kd, step e h (Reduce RSum a axis kd) = reduction_result VArr total cols rows axis kd h.
Proof.
  intros pw e h a x values FE R N NC ED D0 m n close. assert (D := stored_all _ x values _ ED D0). destruct (C62_reductions pw e h a x RSum FE R N NC eq_refl I) as (t & cs & rs & H1 & H2 & H3 & H4 & H5 & H6).
  exists t, cs, rs. unfold reduces in *. fold m n in H1, H2, H3, H4, H5. unfold close. split; [|split; [|split; [|split; [|split]]]]; auto.
  - apply (sum_in_range pw _ _ H1). apply Forall_flat_map, Forall_forall. auto.
  - intros j Hj. apply (sum_in_range pw _ _ (H3 j Hj)). apply Forall_flat_map, Forall_forall. auto.
  - intros i Hi. apply (sum_in_range pw _ _ (H5 i Hi)). apply Forall_flat_map, Forall_forall. auto.
Qed.
Print Assumptions C84_sums.

Theorem C84_cumulative_sums : forall pw (e : Env (f64 pw)) (h : list (value (f64 pw))) a (x : value (f64 pw)) values axis, fair e -> reached h -> nth_error h a = Some x -> class_of x <> None ->
  data_array x = Some values -> Forall finite_double values ->
  let m := fst (shape2 x) in let n := snd (shape2 x) in
  let close (cell : nat -> list (f64 pw)) (js : list nat) (v : f64 pw) :=
    modest (map number (flat_map cell js)) -> ffinite v = true /\ sum_within (map number (flat_map cell js)) (number v) in
  (single_axis axis = Some 0%nat -> exists out, step e h (Cum CumSum a axis) = Ok (h ++ [VArr [m; n] out]) /\ length out = (m * n)%nat /\
     forall i j, (i < m)%nat -> (j < n)%nat -> close (fun i' => stored x i' j) (seq 0 (S i)) (nth (i * n + j) out f0)) /\
  (class_of x <> Some CscClass -> single_axis axis = Some 1%nat -> exists out, step e h (Cum CumSum a axis) = Ok (h ++ [VArr [m; n] out]) /\ length out = (m * n)%nat /\
     forall i j, (i < m)%nat -> (j < n)%nat -> close (fun j' => stored x i j') (seq 0 (S j)) (nth (i * n + j) out f0)).
Proof.
  intros pw e h a x values axis FE R N NC ED D0 m n close. assert (D := stored_all _ x values _ ED D0). destruct (C66_cumulative pw e h a x CumSum axis FE R N) as (_ & H1 & H2). fold m n in H1, H2. unfold accumulates in *. unfold close. split.
  - intros A. destruct (H1 NC A) as (out & E & L & V). exists out. split; [exact E|]. split; [exact L|]. intros i j Hi Hj. apply (sum_in_range pw _ _ (V i j Hi Hj)). apply Forall_flat_map, Forall_forall. auto.
  - intros C A. destruct H2 as (out & E & L & V); [destruct (class_of x) as [[| |]|]; [auto|exfalso; auto|auto|exfalso; auto]|exact A|]. exists out. split; [exact E|]. split; [exact L|].
    intros i j Hi Hj. apply (sum_in_range pw _ _ (V i j Hi Hj)). apply Forall_flat_map, Forall_forall. auto.
Qed.
Print Assumptions C84_cumulative_sums.

Theorem C84_nd_sums : forall pw (e : Env (f64 pw)) (h : list (value (f64 pw))) a (A : Nd (f64 pw)) axis kd, fair e -> reached h -> nth_error h a = Some (VNd A) -> Forall (fun n => 0 <= n) (nd_shape A) ->
  Forall finite_double (nd_dat A) ->
  let ndim := length (nd_shape A) in
  let numbers := match axis with AxNone => [] | AxInt a => [a] | AxTuple l => l end in
  let axes := named_axes ndim numbers in
  let remain := other_axes ndim axes in
  let close (l : list (f64 pw)) (v : f64 pw) := modest (map number l) -> ffinite v = true /\ sum_within (map number l) (number v) in
  (axis = AxNone -> exists s, step e h (Reduce RSum a axis kd) = Ok (h ++ [VArr (if kd then repeat 1%nat ndim else []) [s]]) /\ close (array_values A) s) /\
  (numbers <> [] -> Forall (fun a => - Z.of_nat ndim <= a < Z.of_nat ndim) numbers -> (length axes < ndim)%nat ->
     exists C, step e h (Reduce RSum a axis kd) = Ok (h ++ [VNd C]) /\
       forall k, in_shape (nd_shape C) k -> close (fiber A remain (if kd then select remain k else k)) (one_or f0 (nd_at C k))).
Proof.
  intros pw e h a A axis kd FE R N NN D ndim numbers axes remain close. destruct (C63_sum_mean pw e h a A RSum axis kd FE R N NN (or_introl eq_refl)) as (H1 & _ & H3).
  fold ndim numbers axes remain in H1, H3. cbv zeta iota beta in H1, H3. fold ndim numbers axes remain in H1, H3. unfold close. split.
  - intros EA. destruct (H1 EA) as (s & S & E). exists s. split; [exact E|]. apply (sum_in_range pw _ _ S). apply array_all. exact D.
  - intros A1 A2 A3. destruct (H3 A1 A2 A3) as (C & E & _ & V). exists C. split; [exact E|]. intros k Hk. rewrite (V k Hk), map_id. apply (sum_in_range pw _ _ (left_sum_is pw _)). apply fiber_all. exact D.
Qed.
Print Assumptions C84_nd_sums.

(** [A.mean(axis)]. *)
Theorem C84_means : forall pw (e : Env (f64 pw)) (h : list (value (f64 pw))) a (x : value (f64 pw)) values, fair e -> reached h -> nth_error h a = Some x -> class_of x <> None ->
  data_array x = Some values -> Forall finite_double values ->
  let m := fst (shape2 x) in let n := snd (shape2 x) in
  m <> 0%nat -> n <> 0%nat -> Z.of_nat m * Z.of_nat n <= 2 ^ 53 ->
  let close {J} (cell : J -> list (f64 pw)) (js : list J) (v : f64 pw) :=
    modest (map number (flat_map cell js)) -> ffinite v = true /\ mean_within (map number (flat_map cell js)) (inject_Z (Z.of_nat (length js))) (number v) in
  exists total cols rows,
    close (fun p => stored x (fst p) (snd p)) (grid m n) total /\
    length cols = n /\ (forall j, (j < n)%nat -> close (fun i => stored x i j) (seq 0 m) (nth j cols f0)) /\
    length rows = m /\ (forall i, (i < m)%nat -> close (fun j => stored x i j) (seq 0 n) (nth i rows f0)) /\
    forall axis kd, step e h (Reduce RMean a axis kd) = reduction_result VArr total cols rows axis kd h.
Proof.
  intros pw e h a x values FE R N NC ED D0 m n M0 N0 SZ close. assert (D := stored_all _ x values _ ED D0).
  destruct (C62_reductions pw e h a x RMean FE R N NC eq_refl (conj M0 N0)) as (t & cs & rs & H1 & H2 & H3 & H4 & H5 & H6).
  exists t, cs, rs. unfold reduces in *. fold m n in H1, H2, H3, H4, H5. unfold close.
  assert (G : forall J (cell : J -> list (f64 pw)) js v, (forall j, Forall finite_double (cell j)) -> (1 <= Z.of_nat (length js) <= 2 ^ 53) ->
    (exists s, FSum (flat_map cell js) s /\ v = fdiv s (fofZ (Z.of_nat (length js)))) -> modest (map number (flat_map cell js)) ->
    ffinite v = true /\ mean_within (map number (flat_map cell js)) (inject_Z (Z.of_nat (length js))) (number v)).
  { intros J cell js v HD LJ (s & S & ->) M. assert (HF : Forall finite_double (flat_map cell js)) by (apply Forall_flat_map, Forall_forall; auto). destruct (both _ HF) as [B1 B2].
    assert (FI : ffinite (fdiv s (fofZ (Z.of_nat (length js))) : f64 pw) = true) by (apply (mean_finite pw _ s _ S B1 B2 M LJ)). split; [exact FI|]. apply (mean_accurate pw _ s _ S B1 LJ FI). }
  assert (LG : length (grid m n) = (m * n)%nat) by (unfold grid; rewrite prod_length, !seq_length; reflexivity).
  split; [|split; [|split; [|split; [|split]]]]; auto.
  - intros FI. apply G; auto. rewrite LG. nia.
  - intros j Hj FI. apply G; auto. rewrite seq_length. nia.
  - intros i Hi FI. apply G; auto. rewrite seq_length. nia.
Qed.
Print Assumptions C84_means.

Theorem C84_nd_means : forall pw (e : Env (f64 pw)) (h : list (value (f64 pw))) a (A : Nd (f64 pw)) axis kd, fair e -> reached h -> nth_error h a = Some (VNd A) -> Forall (fun n => 0 <= n) (nd_shape A) ->
  Forall finite_double (nd_dat A) ->
  let ndim := length (nd_shape A) in
  let numbers := match axis with AxNone => [] | AxInt a => [a] | AxTuple l => l end in
  let axes := named_axes ndim numbers in
  let remain := other_axes ndim axes in
  let n := cells (select axes (nd_shape A)) in
  (axis = AxNone -> 1 <= cells (nd_shape A) <= 2 ^ 53 -> exists v, step e h (Reduce RMean a axis kd) = Ok (h ++ [VArr (if kd then repeat 1%nat ndim else []) [v]]) /\
     (modest (map number (array_values A)) -> ffinite v = true /\ mean_within (map number (array_values A)) (inject_Z (cells (nd_shape A))) (number v))) /\
  (numbers <> [] -> Forall (fun a => - Z.of_nat ndim <= a < Z.of_nat ndim) numbers -> (length axes < ndim)%nat -> 1 <= n <= 2 ^ 53 ->
     exists C, step e h (Reduce RMean a axis kd) = Ok (h ++ [VNd C]) /\
       forall k, in_shape (nd_shape C) k -> let l := fiber A remain (if kd then select remain k else k) in
         modest (map number l) -> ffinite (one_or f0 (nd_at C k)) = true /\ scaled_within (map number l) (inject_Z n) (number (one_or f0 (nd_at C k)))).
Proof.
  intros pw e h a A axis kd FE R N NN D ndim numbers axes remain n. destruct (both _ D) as [DD DF].
  destruct (C63_sum_mean pw e h a A RMean axis kd FE R N NN (or_intror eq_refl)) as (H1 & _ & H3).
  fold ndim numbers axes remain n in H1, H3. cbv zeta iota beta in H1, H3. fold ndim numbers axes remain n in H1, H3. split.
  - intros EA SZ. destruct (H1 EA) as (s & S & E). assert (EZ : (cells (nd_shape A) =? 0) = false) by lia. rewrite EZ in E. eexists. split; [exact E|]. intros M.
    assert (AD := array_all pw A _ DD). assert (AF := array_all pw A _ DF). assert (FI := mean_finite pw _ s _ S AD AF M SZ). split; [exact FI|]. apply (mean_accurate pw _ s _ S AD SZ FI).
  - intros A1 A2 A3 SZ. destruct (C82_nd_means pw e h a A axis kd FE R N NN DD) as (_ & H4). fold ndim numbers axes remain n in H4. destruct (H4 A1 A2 A3 SZ) as (C' & E' & V').
    destruct (H3 A1 A2 A3) as (C & E & _ & V). exists C. split; [exact E|]. rewrite E in E'. assert (EC : C' = C). { injection E' as E'. apply app_inj_tail in E'. destruct E' as [_ E']. congruence. }
    rewrite EC in V'. clear C' EC E'. intros k Hk l M.
    assert (FI : ffinite (one_or f0 (nd_at C k)) = true).
    { rewrite (V k Hk). fold l. assert (S := PAcc.FSum_left_sum l). destruct l as [|v l'] eqn:EL; [reflexivity|].
      rewrite <- EL in S, M |- *. assert (EQ : left_sum l = [one_or f0 (left_sum l)]) by (rewrite EL; reflexivity). rewrite EQ in S |- *. cbn [map one_or].
      apply (scaled_finite pw l _ n S); [apply fiber_all; exact DD|apply fiber_all; exact DF|exact M|exact SZ]. }
    split; [exact FI|]. apply (V' k Hk FI).
Qed.
Print Assumptions C84_nd_means.

(** [A @ y]. *)
Theorem C84_matmul : forall pw (e : Env (f64 pw)) (h : list (value (f64 pw))) a b (x : value (f64 pw)) y values sh (d : list (f64 pw)), fair e -> reached h ->
  nth_error h a = Some x -> nth_error h b = Some y -> floats y = Some (sh, d) -> class_of x <> None -> demand h (Matmul a b) < i64_max ->
  data_array x = Some values -> Forall finite_double values -> Forall finite_double d ->
  let m := fst (shape2 x) in let n := snd (shape2 x) in
  let close (ps : list Q) (v : f64 pw) := modest ps -> ffinite v = true /\ dot_within ps (number v) in
  (sh = [n] -> exists c, step e h (Matmul a b) = Ok (h ++ [VArr [m] c]) /\ length c = m /\
     forall i, (i < m)%nat -> close (products (stored x) n d i) (nth i c f0)) /\
  (forall bs k, sh = bs ++ [n; k] -> let s := fold_right Nat.mul 1%nat bs in columns_ok x (s * k) ->
     exists R, step e h (Matmul a b) = Ok (h ++ [VArr (bs ++ [m; k]) R]) /\ length R = (s * m * k)%nat /\
       forall q i c, (q < s)%nat -> (i < m)%nat -> (c < k)%nat ->
         close (products (stored x) n (column (batch (n * k) q d) n k c) i) (nth (i * k + c) (batch (m * k) q R) f0)).
Proof.
  intros pw e h a b x y values sh d FE R N M EF NC DM ED D0 DY m n close. assert (D := stored_all _ x values _ ED D0).
  destruct (C64_matmul _ e h a b x y sh d (f64_laws pw) FE R N M EF NC DM) as (_ & _ & H1 & _ & H2). fold m n in H1, H2.
  assert (CD : forall i j, Forall double (stored x i j)) by (intros; apply both; apply D). assert (CF : forall i j, Forall (fun v : f64 pw => b64_finite v = true) (stored x i j)) by (intros i j; exact (proj2 (both _ (D i j)))).
  split.
  - intros ES. destruct (H1 ES) as (c & E & L & V). exists c. split; [exact E|]. split; [exact L|]. intros i Hi MO. specialize (V i Hi). unfold row_times in V. fold n in V.
    destruct (both d DY) as [DD DF]. specialize (CD i). specialize (CF i).
    destruct x; try (exfalso; apply NC; reflexivity);
      first [assert (FI : ffinite (nth i c f0) = true) by (eapply fma_finite; eassumption); split; [exact FI|apply fma_accurate; assumption]
            |assert (FI : ffinite (nth i c f0) = true) by (eapply dot_finite; eassumption); split; [exact FI|apply dot_accurate; assumption]].
  - intros bs k ES s CK. destruct (proj1 (H2 bs k ES) CK) as (Q & E & L & V). exists Q. split; [exact E|]. split; [exact L|]. intros q i c Hq Hi Hc MO. specialize (V q i c Hq Hi Hc).
    destruct (both (column (batch (n * k) q d) n k c)) as [DD DF]; [apply column_all; [exact zero_double|apply batch_all; exact DY]|]. specialize (CD i). specialize (CF i).
    assert (FI : ffinite (nth (i * k + c) (batch (m * k) q Q) f0) = true) by (eapply dot_finite; eassumption). split; [exact FI|]. apply dot_accurate; assumption.
Qed.
Print Assumptions C84_matmul.

Theorem C84_tensordot : forall pw (e : Env (f64 pw)) (h : list (value (f64 pw))) a b (x : value (f64 pw)) values (d : list (f64 pw)) axis rest, fair e -> reached h ->
  let m := fst (shape2 x) in let n := snd (shape2 x) in
  nth_error h a = Some x -> nth_error h b = Some (VArr (n :: rest) d) -> class_of x <> None -> demand h (Tensordot a b axis) < i64_max ->
  data_array x = Some values -> Forall finite_double values -> Forall finite_double d ->
  axis = None \/ axis = Some 1 -> rest <> [] -> let k := fold_right Nat.mul 1%nat rest in columns_ok x k ->
  exists R, step e h (Tensordot a b axis) = Ok (h ++ [VArr (m :: rest) R]) /\ length R = (m * k)%nat /\
    forall i c, (i < m)%nat -> (c < k)%nat -> modest (products (stored x) n (column d n k c) i) ->
      ffinite (nth (i * k + c) R f0) = true /\ dot_within (products (stored x) n (column d n k c) i) (number (nth (i * k + c) R f0)).
Proof.
  intros pw e h a b x values d axis rest FE R m n N M NC DM ED D0 DY OA NR k CK. assert (D := stored_all _ x values _ ED D0).
  destruct (C64_tensordot _ e h a b x _ d axis (f64_laws pw) FE R N M NC DM) as (_ & H). destruct (H OA) as (_ & _ & _ & H1).
  destruct (proj1 (H1 rest eq_refl NR) CK) as (Q & E & L & V). exists Q. split; [exact E|]. split; [exact L|]. intros i c Hi Hc MO. specialize (V i c Hi Hc).
  destruct (both (column d n k c)) as [DD DF]; [apply column_all; [exact zero_double|exact DY]|].
  assert (CD : forall j, Forall double (stored x i j)) by (intros; apply both; apply D). assert (CF : forall j, Forall (fun v : f64 pw => b64_finite v = true) (stored x i j)) by (intros j; exact (proj2 (both _ (D i j)))).
  assert (FI : ffinite (nth (i * k + c) Q f0) = true) by (eapply dot_finite; eassumption). split; [exact FI|]. apply dot_accurate; assumption.
Qed.
Print Assumptions C84_tensordot.

Theorem C84_vecdot : forall pw (e : Env (f64 pw)) (h : list (value (f64 pw))) a b (x : value (f64 pw)) values (d : list (f64 pw)), fair e -> reached h ->
  let m := fst (shape2 x) in let n := snd (shape2 x) in
  nth_error h a = Some x -> nth_error h b = Some (VArr [m] d) -> class_of x <> None ->
  data_array x = Some values -> Forall finite_double values -> Forall finite_double d ->
  exists c, step e h (Vecdot a b (Some 0)) = Ok (h ++ [VArr [n] c]) /\ length c = n /\
    forall j, (j < n)%nat -> modest (products (fun j i => stored x i j) m d j) -> ffinite (nth j c f0) = true /\ dot_within (products (fun j i => stored x i j) m d j) (number (nth j c f0)).
Proof.
  intros pw e h a b x values d FE R m n N M NC ED D0 DY. assert (D := stored_all _ x values _ ED D0). destruct (both d DY) as [DD DF].
  destruct (C64_vecdot _ e h a b x m d None (f64_laws pw) FE R N M NC) as (_ & H & _). destruct (H eq_refl) as (c & E & L & V).
  exists c. split; [exact E|]. split; [exact L|]. intros j Hj MO. specialize (V j Hj). unfold col_times in V. fold m in V.
  assert (CD : forall i, Forall double (stored x i j)) by (intros; apply both; apply D). assert (CF : forall i, Forall (fun v : f64 pw => b64_finite v = true) (stored x i j)) by (intros i; exact (proj2 (both _ (D i j)))).
  destruct x as [v|v|v|v|v|v|v]; try (exfalso; apply NC; reflexivity);
    match goal with V : context [stored ?y] |- _ =>
      first [assert (FI : ffinite (nth j c f0) = true) by (apply (dot_nz_finite pw (fun j i => stored y i j) m d j CD CF DD DF _ V MO)); split; [exact FI|apply (dot_nz_accurate pw (fun j i => stored y i j)); assumption]
            |assert (FI : ffinite (nth j c f0) = true) by (apply (fma_finite pw (fun j i => stored y i j) m d j CD CF DF _ V MO)); split; [exact FI|apply (fma_accurate pw (fun j i => stored y i j)); assumption]] end.
Qed.
Print Assumptions C84_vecdot.

Theorem C84_nd_vecdot : forall pw (e : Env (f64 pw)) (h : list (value (f64 pw))) a b (A : Nd (f64 pw)) n (d : list (f64 pw)) axis, fair e -> reached h -> nth_error h a = Some (VNd A) -> nth_error h b = Some (VArr [n] d) ->
  Forall (fun n => 0 <= n) (nd_shape A) -> Forall finite_double (nd_dat A) -> Forall finite_double d ->
  let ndim := length (nd_shape A) in
  let last := match axis with None => true | Some z => z =? -1 end in
  let ax := if last then (ndim - 1)%nat else match axis with Some z => Z.to_nat z | None => 0%nat end in
  (last = true \/ exists z, axis = Some z /\ 0 <= z < Z.of_nat ndim) -> ndim <> 1%nat -> Z.of_nat n = nth ax (nd_shape A) 0 ->
  exists C, step e h (Vecdot a b axis) = Ok (h ++ [VNd C]) /\ nd_shape C = select (other_axes ndim [ax]) (nd_shape A) /\
    forall k, in_shape (nd_shape C) k -> modest (line_exact A ax d k) -> ffinite (one_or f0 (nd_at C k)) = true /\ dot_within (line_exact A ax d k) (number (one_or f0 (nd_at C k))).
Proof.
  intros pw e h a b A n d axis FE R N M NN DA DY ndim last ax OA N1 EN. destruct (both _ DA) as [AD AF]. destruct (both d DY) as [DD DF].
  destruct (C63_vecdot _ e h a b A n d axis (f64_laws pw) FE R N M NN) as (_ & H). fold ndim last ax in H.
  destruct (H OA N1 EN) as (C & E & S & V). exists C. split; [exact E|]. split; [exact S|]. intros k Hk MO. rewrite (V k Hk). set (l := filter nonzero (line_products A ax d k)).
  assert (FI : ffinite (one_or f0 (left_sum l)) = true) by (apply (line_finite pw A ax d k _ (left_sum_is pw l) AD AF DD DF MO)). split; [exact FI|].
  apply line_accurate; [apply left_sum_is|exact FI].
Qed.
Print Assumptions C84_nd_vecdot.

(** *** The theorems apply *)
Lemma modest_by : forall l, (Z.of_nat (length l) <=? 2 ^ 51) = true -> Qle_bool (magnitude l) ((2 # 1) ^ 1022) = true -> modest l.
Proof. intros l A B. split; [apply Z.leb_le; exact A|apply Qle_bool_iff; exact B]. Qed.
Lemma finites4 : Forall finite_double [fz (2 ^ 53); fz 1; fz 1] /\ Forall finite_double [fz 1; fz 1; fz 1].
Proof. split; repeat constructor. Qed.
(** 0, 1, 2: the row [2^1021 -2^1021 1] in the three formats; 3: the vector [1 1/2 1]. *)
Definition huge : f64 pw0 := S754_finite false 4503599627370496 969.
Definition huge' : f64 pw0 := S754_finite true 4503599627370496 969.
Definition half : f64 pw0 := S754_finite false 4503599627370496 (-53).
Definition calls6 : list (call (f64 pw0)) :=
  [NewCsr 1 3 [0; 3] [0; 1; 2] [huge; huge'; fz 1] true;
   NewCsc 1 3 [0; 1; 2; 3] [0; 0; 0] [huge; huge'; fz 1] false;
   NewCoo 1 3 [0; 0; 0] [0; 1; 2] [huge; huge'; fz 1] false;
   NewArr [3%nat] [fz 1; half; fz 1]].
Definition state6 : list (value (f64 pw0)) :=
  match run [] (map (fun c => (env2, c)) calls6) with Running h => h | _ => [] end.
Lemma state6_reached : reached state6.
Proof.
  assert (O : match objects (run [] (map (fun c => (env2, c)) calls6)) with Some _ => true | None => false end = true) by (vm_compute; reflexivity).
  destruct (objects (run [] (map (fun c => (env2, c)) calls6))) as [x|] eqn:EO; [|discriminate O]. destruct (objects_running _ _ EO) as (h & ER & EH).
  unfold state6. rewrite ER. apply (C61_programs_reach _ (map (fun c => (env2, c)) calls6) h); [|exact ER].
  apply Forall_forall. intros ec Hec. apply in_map_iff in Hec. destruct Hec as (c & <- & Hc). cbn [fst snd]. split; [apply env2_fair|]. cbn [calls6 In] in Hc.
  repeat (destruct Hc as [<-|Hc]; [split; [|exact I]; cbn [regular_arguments]; try exact I|]); try contradiction.
  - split; [reflexivity|]. split; [repeat constructor; discriminate|left; reflexivity].
  - apply canonical_literal; reflexivity.
  - split; [apply coo_ok_literal; reflexivity|]. intros i j. unfold coo_at, at_cell, coo_entries. cbn [coo_row coo_col coo_data combine filter fst snd].
    repeat match goal with |- context [?x =? ?y] => destruct (Z.eqb_spec x y) end; cbn; lia.
Qed.
Definition obj6 (a : nat) : value (f64 pw0) := nth a state6 (VInts [] []).
Lemma obj6_is a : (a < 4)%nat -> nth_error state6 a = Some (obj6 a).
Proof. intros H. apply nth_error_nth'. assert (L : length state6 = 4%nat) by (vm_compute; reflexivity). rewrite L. exact H. Qed.
Lemma vals6 a : (a < 3)%nat -> class_of (obj6 a) <> None /\ shape2 (obj6 a) = (1, 3)%nat /\ data_array (obj6 a) = Some [huge; huge'; fz 1] /\
  (forall i j, (i < 1)%nat -> (j < 3)%nat -> stored (obj6 a) i j = [nth j [huge; huge'; fz 1] f0]).
Proof.
  intros H. assert (C : match class_of (obj6 a) with Some _ => true | None => false end = true) by (do 3 (destruct a as [|a]; [vm_compute; reflexivity|]); lia).
  split; [destruct (class_of (obj6 a)); [discriminate|discriminate C]|]. clear C.
  split; [do 3 (destruct a as [|a]; [vm_compute; reflexivity|]); lia|]. split; [do 3 (destruct a as [|a]; [vm_compute; reflexivity|]); lia|].
  intros i j Hi Hj. replace i with 0%nat by lia. do 3 (destruct a as [|a]; [do 3 (destruct j as [|j]; [vm_compute; reflexivity|]); lia|]). lia.
Qed.
Lemma arr6 : nth_error state6 3 = Some (VArr [3%nat] [fz 1; half; fz 1]).
Proof.
  assert (V3 : arr_view (obj6 3) = Some ([3%nat], [fz 1; half; fz 1])) by (vm_compute; reflexivity).
  rewrite !obj6_is by lia. destruct (obj6 3); try discriminate V3. injection V3 as -> ->. reflexivity.
Qed.
Lemma finites6 : Forall finite_double [huge; huge'; fz 1] /\ Forall finite_double [fz 1; half; fz 1].
Proof. split; repeat constructor. Qed.
(** The absolute values add up to 2^1022 and 1, just more than [modest]: the first two alone are modest. *)
Example C84_cumulative_sums_nonvacuous : forall a, (a = 0 \/ a = 2)%nat -> exists out, step env2 state6 (Cum CumSum a (AxInt 1)) = Ok (state6 ++ [VArr [1; 3]%nat out]) /\
  ffinite (nth 1 out f0) = true /\ sum_within [number huge; number huge'] (number (nth 1 out f0)).
Proof.
  intros a Ha. destruct (vals6 a ltac:(lia)) as (NC & SH & DA & ST).
  destruct (C84_cumulative_sums pw0 env2 state6 a (obj6 a) _ (AxInt 1) env2_fair state6_reached (obj6_is a ltac:(lia)) NC DA (proj1 finites6)) as (_ & H).
  destruct H as (out & E & L & V); [clear - Ha; destruct Ha as [-> | ->]; vm_compute; discriminate|reflexivity|]. rewrite SH in E, V. cbn [fst snd] in E, V. exists out. split; [exact E|].
  specialize (V 0%nat 1%nat ltac:(lia) ltac:(lia)). cbn [flat_map seq map app] in V. rewrite !ST in V by lia. apply V. apply modest_by; vm_compute; reflexivity.
Qed.

Example C84_sums_nonvacuous : forall a, (a < 3)%nat -> exists cols, step env2 state6 (Reduce RSum a (AxInt 0) false) = Ok (state6 ++ [VArr [3%nat] cols]) /\
  ffinite (nth 0 cols f0) = true /\ sum_within [number huge] (number (nth 0 cols f0)).
Proof.
  intros a Ha. destruct (vals6 a Ha) as (NC & SH & DA & ST).
  assert (H := C84_sums pw0 env2 state6 a (obj6 a) _ env2_fair state6_reached (obj6_is a ltac:(lia)) NC DA (proj1 finites6)). cbv zeta in H. destruct H as (t & cs & rs & T & LC & V & LR & _ & E).
  exists cs. specialize (E (AxInt 0) false). rewrite SH in LC, LR, V. cbn [fst snd] in LC, LR, V.
  assert (ER : reduction_result VArr t cs rs (AxInt 0) false state6 = Ok (state6 ++ [VArr [length cs] cs])) by reflexivity. rewrite LC in ER.
  rewrite ER in E. split; [exact E|]. specialize (V 0%nat ltac:(lia)). cbn [flat_map seq map app] in V. rewrite !ST in V by lia. apply V. apply modest_by; vm_compute; reflexivity.
Qed.
(** Without the bound the sum of two finite doubles can overflow. *)
Example C84_sums_need_modest : b64_finite (S754_finite false 4503599627370496 971) = true /\ SFadd prec emax (S754_finite false 4503599627370496 971) (S754_finite false 4503599627370496 971) = S754_infinity false.
Proof. split; vm_compute; reflexivity. Qed.

Lemma finites_N5 : Forall finite_double (nd_dat N5).
Proof. vm_compute. repeat constructor. Qed.
Example C84_nd_sums_nonvacuous : exists s, step env2 state2 (Reduce RSum 5 AxNone false) = Ok (state2 ++ [VArr [] [s]]) /\
  ffinite s = true /\ sum_within (map number (array_values N5)) (number s).
Proof.
  destruct (C84_nd_sums pw0 env2 state2 5 N5 AxNone false env2_fair state2_reached N5_is (proj2 N5_dims) finites_N5) as (H & _).
  destruct (H eq_refl) as (s & E & V). exists s. split; [exact E|]. apply V. apply modest_by; vm_compute; reflexivity.
Qed.

Example C84_means_nonvacuous : forall a, (a < 3)%nat -> exists cols, step env2 state6 (Reduce RMean a (AxInt 0) false) = Ok (state6 ++ [VArr [3%nat] cols]) /\
  ffinite (nth 1 cols f0) = true /\ mean_within [number huge'] 1 (number (nth 1 cols f0)).
Proof.
  intros a Ha. destruct (vals6 a Ha) as (NC & SH & DA & ST).
  assert (H := C84_means pw0 env2 state6 a (obj6 a) _ env2_fair state6_reached (obj6_is a ltac:(lia)) NC DA (proj1 finites6)). cbv zeta in H. rewrite SH in H. cbn [fst snd] in H.
  destruct (H ltac:(discriminate) ltac:(discriminate) ltac:(vm_compute; discriminate)) as (t & cs & rs & T & LC & V & LR & _ & E).
  exists cs. specialize (E (AxInt 0) false).
  assert (ER : reduction_result VArr t cs rs (AxInt 0) false state6 = Ok (state6 ++ [VArr [length cs] cs])) by reflexivity. rewrite LC in ER.
  rewrite ER in E. split; [exact E|]. specialize (V 1%nat ltac:(lia)). cbn [flat_map seq map app length] in V. rewrite !ST in V by lia. apply V. apply modest_by; vm_compute; reflexivity.
Qed.

Example C84_nd_means_nonvacuous : exists C, step env2 state2 (Reduce RMean 5 (AxInt 2) false) = Ok (state2 ++ [VNd C]) /\
  (in_shape (nd_shape C) [1; 0] -> ffinite (one_or f0 (nd_at C [1; 0])) = true /\ scaled_within (map number (fiber N5 [0%nat; 1%nat] [1; 0])) 3 (number (one_or f0 (nd_at C [1; 0])))) /\ fiber N5 [0%nat; 1%nat] [1; 0] <> [].
Proof.
  assert (SN : nd_shape N5 = [2; 1; 3]) by (vm_compute; reflexivity).
  destruct (C84_nd_means pw0 env2 state2 5 N5 (AxInt 2) false env2_fair state2_reached N5_is (proj2 N5_dims) finites_N5) as (_ & H). rewrite SN in H.
  destruct H as (C & E & V); [discriminate|repeat constructor; cbn; lia|cbn; lia|vm_compute; split; discriminate|]. exists C. split; [exact E|]. split; [|vm_compute; discriminate].
  intros IS. apply (V [1; 0] IS). apply modest_by; vm_compute; reflexivity.
Qed.

(** The row [2^53 1 1] times [1 1 1]. *)
Example C84_matmul_nonvacuous : forall a, (a < 3)%nat -> exists c, step env2 state4 (Matmul a 3) = Ok (state4 ++ [VArr [1%nat] c]) /\
  ffinite (nth 0 c f0) = true /\ dot_within (products (stored (obj4 a)) 3 [fz 1; fz 1; fz 1] 0) (number (nth 0 c f0)).
Proof.
  intros a Ha. destruct (vals4 a Ha) as (NC & SH & DA & ST). destruct arr4 as [A3 _].
  assert (D : demand state4 (Matmul a 3) < i64_max) by (clear - Ha; do 3 (destruct a as [|a]; [vm_compute; reflexivity|]); lia).
  destruct (C84_matmul pw0 env2 state4 a 3 (obj4 a) _ _ _ _ env2_fair state4_reached (obj4_is a ltac:(lia)) A3 eq_refl NC D DA (proj1 finites4) (proj2 finites4)) as (H & _).
  rewrite SH in H. cbn [fst snd] in H. destruct (H eq_refl) as (c & E & L & V). exists c. split; [exact E|]. apply (V 0%nat ltac:(lia)).
  clear - Ha. do 3 (destruct a as [|a]; [apply modest_by; vm_compute; reflexivity|]). lia.
Qed.
(** The row [2^1021 -2^1021 1] times [1 1/2 1]. *)
Example C84_matmul_huge_nonvacuous : forall a, (a < 3)%nat -> exists c, step env2 state6 (Matmul a 3) = Ok (state6 ++ [VArr [1%nat] c]) /\
  ffinite (nth 0 c f0) = true /\ dot_within (products (stored (obj6 a)) 3 [fz 1; half; fz 1] 0) (number (nth 0 c f0)).
Proof.
  intros a Ha. destruct (vals6 a Ha) as (NC & SH & DA & ST).
  assert (D : demand state6 (Matmul a 3) < i64_max) by (clear - Ha; do 3 (destruct a as [|a]; [vm_compute; reflexivity|]); lia).
  destruct (C84_matmul pw0 env2 state6 a 3 (obj6 a) _ _ _ _ env2_fair state6_reached (obj6_is a ltac:(lia)) arr6 eq_refl NC D DA (proj1 finites6) (proj2 finites6)) as (H & _).
  rewrite SH in H. cbn [fst snd] in H. destruct (H eq_refl) as (c & E & L & V). exists c. split; [exact E|]. apply (V 0%nat ltac:(lia)).
  clear - Ha. do 3 (destruct a as [|a]; [apply modest_by; vm_compute; reflexivity|]). lia.
Qed.

Example C84_tensordot_nonvacuous : exists R, step env2 state4 (Tensordot 2 4 (Some 1)) = Ok (state4 ++ [VArr [1; 1]%nat R]) /\
  ffinite (nth 0 R f0) = true /\ dot_within (products (stored (obj4 2)) 3 (column [fz 1; fz 1; fz 1] 3 1 0) 0) (number (nth 0 R f0)).
Proof.
  destruct (vals4 2 ltac:(lia)) as (NC & SH & DA & ST). destruct arr4 as [_ A4].
  assert (D : demand state4 (Tensordot 2 4 (Some 1)) < i64_max) by (vm_compute; reflexivity).
  destruct (C84_tensordot pw0 env2 state4 2 4 (obj4 2) [fz (2 ^ 53); fz 1; fz 1] [fz 1; fz 1; fz 1] (Some 1) [1%nat] env2_fair state4_reached (obj4_is 2 ltac:(lia))) as (R & E & L & V);
    [rewrite SH; exact A4|exact NC|exact D|exact DA|apply finites4|apply finites4|auto|discriminate|apply not_csr_columns; vm_compute; reflexivity|].
  rewrite SH in E, V. cbn [fst snd] in E, V. exists R. split; [exact E|]. apply (V 0%nat 0%nat); [cbn; lia|cbn; lia|]. apply modest_by; vm_compute; reflexivity.
Qed.

Example C84_vecdot_nonvacuous : exists c, step env2 state3 (Vecdot 1 10 (Some 0)) = Ok (state3 ++ [VArr [3%nat] c]) /\
  ffinite (nth 0 c f0) = true /\ dot_within (products (fun j i => stored (obj 1) i j) 2 [fz 10; fz 100] 0) (number (nth 0 c f0)).
Proof.
  destruct arr3 as (_ & _ & A10). assert (S1 : shape2 (obj 1) = (2, 3)%nat) by (vm_compute; reflexivity).
  assert (DA : exists values, data_array (obj 1) = Some values /\ Forall finite_double values) by (eexists; split; [vm_compute; reflexivity|repeat constructor]). destruct DA as (values & DA & DF).
  destruct (C84_vecdot pw0 env2 state3 1 10 (obj 1) values [fz 10; fz 100] env2_fair state3_reached (obj3 1 ltac:(lia))) as (c & E & L & V); [rewrite S1; exact A10|vm_compute; discriminate|exact DA|exact DF|repeat constructor|].
  rewrite S1 in E, V. cbn [fst snd] in E, V. exists c. split; [exact E|]. apply V; [lia|]. apply modest_by; vm_compute; reflexivity.
Qed.

Example C84_nd_vecdot_nonvacuous : exists C, step env2 state2 (Vecdot 5 7 None) = Ok (state2 ++ [VNd C]) /\
  (in_shape (nd_shape C) [0; 0] -> ffinite (one_or f0 (nd_at C [0; 0])) = true /\ dot_within (line_exact N5 2 [fz 5; fz 2; fz 0] [0; 0]) (number (one_or f0 (nd_at C [0; 0])))) /\ nd_shape C = [2; 1].
Proof.
  assert (SN : nd_shape N5 = [2; 1; 3]) by (vm_compute; reflexivity).
  destruct (C84_nd_vecdot pw0 env2 state2 5 7 N5 3 [fz 5; fz 2; fz 0] None env2_fair state2_reached N5_is V7_is (proj2 N5_dims) finites_N5) as (C & E & S & V); [repeat constructor|auto|rewrite SN; discriminate|rewrite SN; reflexivity|].
  exists C. split; [exact E|]. split; [|rewrite S, SN; reflexivity]. intros IS. specialize (V [0; 0] IS). rewrite SN in V. apply V. apply modest_by; vm_compute; reflexivity.
Qed.
