(** C80: the functions of the extension module refuse arguments that do not fit the arrays. *)
Require Import List ZArith Bool Arith Lia Permutation.
Require Import ZifyBool ZifyNat.
Require Import Verif.Res Verif.Values Verif.Spec Verif.Mem Verif.Lists Verif.CsLib Verif.Laws Verif.FloatFacts Verif.Witness Verif.SpecPy Verif.MElementwise Verif.PElementwise Verif.MLinalg Verif.PropLinalg Verif.NdLib Verif.MNd Verif.PNd Verif.PNd2 Verif.PNd3 Verif.PNd4 Verif.PropNd Verif.PropNd2 Verif.MPy Verif.MObj Verif.SpecObj Verif.SpecCall Verif.PropCall Verif.MNative Verif.SpecNative Verif.PNative Verif.PNative2 Verif.PropNative.
Import ListNotations.
Local Open Scope Z_scope.

(** Axis numbers of an array with [ndim] axes: in range and distinct. *)
Definition distinct_axes (ndim : nat) (l : list Z) : Prop := NoDup l /\ Forall (fun a => 0 <= a < Z.of_nat ndim) l.
(** When the other arguments fit the arrays: equal or broadcastable shapes, vectors as long as
    the axis they are multiplied along, dense arrays of the length their shape says, axis
    numbers in range and distinct. *)
Definition arguments_fit {F : Fl} (f : native F) : Prop :=
  match f with
  | NBinary _ (RNd sh _ _) (RNd sh' _ _) => broadcastable sh sh'
  | NBinary _ x y => shape2 (arrays x) = shape2 (arrays y)
  | NSpmv x v => length v = snd (shape2 (arrays x))
  | NSpmm x r k b => r = snd (shape2 (arrays x)) /\ length b = (r * k)%nat
  | NTensordot (RNd sh _ _) axis b b_shape =>
      0 <= axis < Z.of_nat (length sh) /\ Forall (Z.le 0) b_shape /\ Z.of_nat (length b) = cells b_shape /\ hd_error b_shape = nth_error sh (Z.to_nat axis)
  | NTensordot x _ b b_shape =>
      Forall (Z.le 0) b_shape /\ Z.of_nat (length b) = cells b_shape /\ hd_error b_shape = Some (Z.of_nat (snd (shape2 (arrays x))))
  | NVecdot (RNd sh _ _) axis v => 0 <= axis < Z.of_nat (length sh) /\ nth_error sh (Z.to_nat axis) = Some (Z.of_nat (length v)) /\ (1 < length sh)%nat
  | NVecdot x _ v => length v = fst (shape2 (arrays x))
  | NCum _ _ axis => axis = 0 \/ axis = 1
  | NNd (NdPermute axes) (RNd sh _ _) => Permutation axes (map Z.of_nat (seq 0 (length sh)))
  | NNd (NdReshape sh') (RNd sh _ _) => Forall (Z.le 0) sh' /\ cells sh' = cells sh
  | NNd (NdReduce _ axes) (RNd sh _ _) => distinct_axes (length sh) axes /\ (0 < length axes < length sh)%nat
  | NNd (NdUnfold _ axes) (RNd sh _ _) => distinct_axes (length sh) axes
  | NNd (NdMode _ m) (RNd sh _ _) => (m < length sh)%nat
  | _ => True
  end.

Lemma to_axes_cases : forall l, (exists z, In z l /\ z < 0) /\ to_axes l = Panic \/ Forall (Z.le 0) l /\ to_axes l = Ok (map Z.to_nat l).
Proof.
  intros l. unfold to_axes. destruct (forallb (Z.leb 0) l) eqn:E.
  - right. split; [|reflexivity]. apply Forall_forall. intros z I. rewrite forallb_forall in E. apply E in I. lia.
  - left. split; [|reflexivity]. clear - E. induction l as [|z l IH]; [discriminate E|]. cbn in E. destruct (0 <=? z) eqn:Z0.
    + destruct (IH E) as (y & I & Y). exists y. split; [right; exact I|exact Y].
    + exists z. split; [left; reflexivity|lia].
Qed.
Lemma axes_fit : forall n l, Forall (Z.le 0) l -> axes_ok n (map Z.to_nat l) -> distinct_axes n l.
Proof.
  intros n l P [ND R]. split; [eapply NoDup_map_inv; exact ND|]. rewrite Forall_forall in *. intros z I. split; [apply P; exact I|].
  specialize (R (Z.to_nat z) (in_map _ _ _ I)). specialize (P z I). cbn in R. lia.
Qed.
Lemma nonneg_list : forall l, Forall (Z.le 0) l <-> forallb (Z.leb 0) l = true.
Proof.
  intros l. rewrite forallb_forall, Forall_forall. split; intros H z I; specialize (H z I); lia.
Qed.
Lemma permutation_back : forall n l, Forall (Z.le 0) l -> Permutation (map Z.to_nat l) (seq 0 n) -> Permutation l (map Z.of_nat (seq 0 n)).
Proof.
  intros n l P H. apply (Permutation_map Z.of_nat) in H. rewrite map_map in H. replace (map (fun z => Z.of_nat (Z.to_nat z)) l) with l in H; [exact H|].
  clear - P. induction P as [|z l Z0 P IH]; [reflexivity|]. cbn [map]. rewrite <- IH, Z2Nat.id by exact Z0. reflexivity.
Qed.

Theorem C80_bad_arguments_raise : forall (F : Fl) (e : Env F) f ck, provided f = true ->
  Forall numpy_arrays (operands f) -> Forall small (operands f) -> Forall valid (operands f) ->
  ~ arguments_fit f -> native_call e ck f = Panic.
Proof.
  intros F e f ck P N S V NF. rewrite native_call_ok by assumption. clear ck N.
  assert (SH : forall a b c d : nat, (a, b) <> (c, d) -> a <> c \/ b <> d).
  { intros a b c d H. destruct (Nat.eq_dec a c) as [->|]; [right|left; assumption]. intros ->. apply H. reflexivity. }
  destruct f as [op x|op x al|op x y|x v|x r k b|x axis b bsh|x axis v|op x|op x|op x|op x axis|x n axis|op x|t x]; cbn [operands] in *; try (exfalso; apply NF; exact I);
  cbn [on_cores].
  - (* NBinary *)
    destruct x as [nr nc p i d|nr nc p i d|nr nc r c d|sh i d]; destruct y as [nr' nc' p' i' d'|nr' nc' p' i' d'|nr' nc' r' c' d'|sh' i' d']; try discriminate P; try (destruct op; discriminate P);
    cbn [the_core n_binary].
    + apply SH in NF. destruct op; unfold add_csr, sub_csr, hadamard_csr, div_csr, floordiv_csr, rem_csr, pow_csr; rewrite binary_cs_shape by exact NF; reflexivity.
    + apply SH in NF. destruct op; try discriminate P; unfold div_csc, floordiv_csc, rem_csc, pow_csc; rewrite binary_cs_shape by (cbn [major minor]; tauto); reflexivity.
    + destruct op; try discriminate P. rewrite hadamard_broadcast_bad by exact NF. reflexivity.
  - (* NSpmv *)
    destruct x as [nr nc p i d|nr nc p i d|nr nc r c d|sh i d]; try discriminate P. cbn [the_core n_spmv]. rewrite C27_length_mismatch_panics by exact NF. reflexivity.
  - (* NSpmm *)
    destruct x as [nr nc p i d|nr nc p i d|nr nc r' c d|sh i d]; try discriminate P. cbn [the_core n_spmm arguments_fit arrays shape2 snd py_arrays csr_ncols minor] in *.
    unfold reshape_to. cbn [fold_right]. rewrite Nat.mul_1_r. destruct (Nat.eqb_spec (length b) (r * k)) as [EL|NL]; [|reflexivity]. cbn [bind].
    destruct (Nat.eqb_spec r nc) as [ER|NR]; [|reflexivity]. exfalso. apply NF. split; assumption.
  - (* NTensordot *)
    assert (G : forall m n c, ~ (Forall (Z.le 0) bsh /\ Z.of_nat (length b) = cells bsh /\ hd_error bsh = Some (Z.of_nat n)) ->
      (Forall (fun n => 0 <= n) bsh -> bsh = [] \/ Z.of_nat (length b) <> cells bsh \/ hd 0 bsh <> Z.of_nat n -> c = Panic) -> n_flat (F := F) m n bsh c = Panic).
    { intros m n c NF' H. unfold n_flat. destruct (forallb (Z.leb 0) bsh) eqn:NN; [|reflexivity]. apply nonneg_list in NN. destruct bsh as [|n0 rest]; [reflexivity|].
      destruct (Z.eqb_spec n0 (Z.of_nat n)) as [E0|N0]; [|reflexivity]. rewrite H; [reflexivity|exact NN|]. right. left. intros EL. apply NF'. split; [exact NN|]. split; [exact EL|]. cbn. congruence. }
    destruct x as [nr nc p i d|nr nc p i d|nr nc r' c d|sh i d]; cbn [the_core n_tensordot arguments_fit arrays shape2 snd py_arrays pyc_arrays] in *.
    + apply G; [exact NF|]. intros NN H. apply (C31_tensordot_mismatch_panics F b bsh NN). exact H.
    + apply G; [exact NF|]. intros NN H. apply (C31_tensordot_mismatch_panics F b bsh NN). exact H.
    + apply G; [exact NF|]. intros NN H. apply (C31_tensordot_mismatch_panics F b bsh NN). exact H.
    + destruct (forallb (Z.leb 0) bsh) eqn:NN; [|reflexivity]. apply nonneg_list in NN. destruct (0 <=? axis) eqn:AX; [|reflexivity].
      rewrite C31_tensordot_nd_mismatch_panics; [reflexivity|exact NN|]. cbn [nd_shape].
      destruct (le_lt_dec (length sh) (Z.to_nat axis)) as [L|L]; [left; exact L|right]. destruct bsh as [|n0 rest]; [left; reflexivity|right].
      destruct (Z.eq_dec (Z.of_nat (length b)) (cells (n0 :: rest))) as [EL|NL]; [right|left; exact NL]. cbn [hd]. intros E0. apply NF.
      split; [lia|]. split; [exact NN|]. split; [exact EL|]. cbn [hd_error]. rewrite (nth_error_nth' _ 0) by exact L. congruence.
  - (* NVecdot *)
    destruct x as [nr nc p i d|nr nc p i d|nr nc r' c d|sh i d]; cbn [the_core n_vecdot arguments_fit arrays shape2 fst py_arrays pyc_arrays] in *.
    + rewrite (proj1 (C32_vecdot_length_mismatch_panics F 1 (e_dist e) v)) by exact NF. reflexivity.
    + rewrite (proj1 (proj2 (C32_vecdot_length_mismatch_panics F 1 (e_dist e) v))) by exact NF. reflexivity.
    + rewrite (proj2 (proj2 (C32_vecdot_length_mismatch_panics F (e_threads e) (e_dist e) v))) by exact NF. reflexivity.
    + destruct (0 <=? axis) eqn:AX; [|reflexivity]. rewrite C32_vecdot_nd_is_spmv, C29_mismatch_panics; [reflexivity|]. intros (H1 & H2 & H3). cbn [nd_shape] in *. apply NF.
      split; [lia|]. split; [|exact H2]. rewrite (nth_error_nth' _ 0) by exact H1. congruence.
  - (* NCum *)
    cbn [arguments_fit] in NF. assert (EA : (axis =? 0) || (axis =? 1) = false) by lia.
    destruct x as [nr nc p i d|nr nc p i d|nr nc r' c d|sh i d]; cbn [the_core n_cum]; unfold n_cum; rewrite EA; reflexivity.
  - (* NNd *)
    destruct x as [nr nc p i d|nr nc p i d|nr nc r' c d|sh i d]; try (destruct op; discriminate P). cbn [the_core n_nd].
    destruct op as [axes|sh'|o axes|ff axes|ff m]; cbn [arguments_fit] in NF.
    + destruct (to_axes_cases axes) as [(_ & ->)|(PA & ->)]; [reflexivity|]. cbn [bind]. rewrite C22_not_a_permutation_panics; [reflexivity|]. cbn [nd_shape]. intros H. apply NF. apply permutation_back; assumption.
    + destruct (forallb (Z.leb 0) sh') eqn:NN; [|reflexivity]. apply nonneg_list in NN. rewrite C21_count_mismatch_panics; [reflexivity|]. cbn [nd_shape]. intros H. apply NF. split; [exact NN|congruence].
    + assert (K : to_axes axes = Panic \/ exists q, to_axes axes = Ok q /\ forall srt, reduce_sum_axes_coond srt (mkNd sh i d) q = Panic /\ reduce_mean_axes_coond srt (mkNd sh i d) q = Panic).
      { destruct (to_axes_cases axes) as [(_ & ->)|(PA & ->)]; [left; reflexivity|right]. eexists. split; [reflexivity|]. intros srt. apply C26_bad_axes_panic. cbn [nd_shape]. intros (H1 & H2 & H3). apply NF.
        split; [apply axes_fit; assumption|]. rewrite map_length in H3. destruct axes; [exfalso; apply H2; reflexivity|]. cbn [length] in *. lia. }
      destruct o; destruct K as [->|(q & -> & K)]; try reflexivity; cbn [bind]; destruct (K (e_srt e 0)) as [K1 K2]; rewrite ?K1, ?K2; reflexivity.
    + destruct (to_axes_cases axes) as [(_ & ->)|(PA & ->)]; [destruct ff; reflexivity|]. cbn [bind].
      destruct (C25_bad_axes_panic F (e_schu e) (e_srt2 e) (mkNd sh i d) (map Z.to_nat axes)) as (_ & K1 & K2); [cbn [nd_shape]; intros H; apply NF, axes_fit; assumption|].
      destruct ff; rewrite ?K1, ?K2; reflexivity.
    + destruct (proj2 (C25_mode F (e_schu e) (e_srt2 e) (mkNd sh i d) m)) as [K1 K2]; [cbn [nd_shape]; lia|]. destruct ff; rewrite ?K1, ?K2; reflexivity.
Qed.
Print Assumptions C80_bad_arguments_raise.

(** [diff] is the exception: any axis other than 0 is taken for the last one. *)
Theorem C80_diff_axis_refuted : exists x : raw (f64 pw0), numpy_arrays x /\ small x /\ valid x /\
  forall axis, axis <> 0 -> native_call env2 true (NDiff x 1 axis) = native_call env2 true (NDiff x 1 1) /\
    shown (native_call env2 true (NDiff x 1 axis)) = Some ([2; 2]%nat, [fz (-1); fz (-2); fz 4; fz (-4)]).
Proof.
  exists WR. split; [apply WR_numpy|]. split; [apply WR_small|]. split; [apply WR_valid|]. intros axis NA.
  assert (E : native_call env2 true (NDiff WR 1 axis) = native_call env2 true (NDiff WR 1 1)).
  { rewrite !native_call_ok by (constructor; [|constructor]; first [apply WR_numpy|apply WR_small|apply WR_valid]). cbn [on_cores the_core WR n_diff].
    replace (axis =? 0) with false by lia. reflexivity. }
  split; [exact E|]. rewrite E. vm_compute. reflexivity.
Qed.
Print Assumptions C80_diff_axis_refuted.

Example C80_nonvacuous :
  (~ arguments_fit (NTensordot WN (-1) [fz 1; fz 2; fz 3] [3]) /\ native_call env2 false (NTensordot WN (-1) [fz 1; fz 2; fz 3] [3]) = Panic) /\
  (~ arguments_fit (NNd (NdReduce NMean [0; 0]) WN) /\ native_call env2 true (NNd (NdReduce NMean [0; 0]) WN) = Panic) /\
  (~ arguments_fit (NSpmv WR [fz 1]) /\ native_call env2 true (NSpmv WR [fz 1]) = Panic) /\
  (arguments_fit (NTensordot WN 2 [fz 1; fz 2; fz 3] [3]) /\ arguments_fit (NNd (NdReduce NMean [2; 0]) WN) /\ arguments_fit (NCum CumSum WR 1)) /\
  match native_call env2 true (NTensordot WN 2 [fz 1; fz 2; fz 3] [3]), native_call env2 true (NNd (NdReduce NMean [2; 0]) WN) with Ok _, Ok _ => True | _, _ => False end.
Proof.
  assert (A1 : ~ arguments_fit (NTensordot WN (-1) [fz 1; fz 2; fz 3] [3])) by (cbn; lia).
  assert (A2 : ~ arguments_fit (NNd (NdReduce NMean [0; 0]) WN)).
  { cbn. intros [[H _] _]. inversion H as [|? ? H1 _]. apply H1. left. reflexivity. }
  assert (A3 : ~ arguments_fit (NSpmv WR [fz 1])) by (cbn; lia).
  split; [|split; [|split; [|split]]].
  - split; [exact A1|]. apply C80_bad_arguments_raise; [reflexivity|..|exact A1]; (constructor; [|constructor]); [apply WN_numpy|apply WN_small|apply WN_valid].
  - split; [exact A2|]. apply C80_bad_arguments_raise; [reflexivity|..|exact A2]; (constructor; [|constructor]); [apply WN_numpy|apply WN_small|apply WN_valid].
  - split; [exact A3|]. apply C80_bad_arguments_raise; [reflexivity|..|exact A3]; (constructor; [|constructor]); [apply WR_numpy|apply WR_small|apply WR_valid].
  - split; [|split].
    + cbn. repeat split; try lia. repeat constructor; lia.
    + cbn. split; [|lia]. split; [repeat constructor; cbn; intuition discriminate|repeat constructor; lia].
    + right. reflexivity.
  - vm_compute. exact I.
Qed.
