(** Property theorems about the functions of the extension module that take arrays: C75
    (safety), C76 (same results as the package's methods) and C77 (conversions). *)
Require Import List ZArith Bool Arith Lia Permutation.
Require Import ZifyBool ZifyNat.
Require Import Verif.Res Verif.Values Verif.Spec Verif.SpecReduce Verif.Mem Verif.Lists Verif.CsLib Verif.Laws Verif.FloatFacts Verif.Witness Verif.SpecPy Verif.MConvert Verif.PConvert2 Verif.PConvert3 Verif.PropConvert Verif.MLinalg Verif.MNd2 Verif.MPy Verif.MObj Verif.SpecObj Verif.PSafe Verif.PSafe3 Verif.PObj Verif.SpecCall Verif.PCall Verif.PCall3 Verif.PropCall Verif.PropApi2 Verif.MNative Verif.SpecNative Verif.PNative Verif.PNative2 Verif.PNative3.
Import ListNotations.
Local Open Scope Z_scope.

(** ** C75: called with the check (the default), a function of the extension module either
    raises or returns arrays that describe a matrix, whatever arrays it is given; it never
    reads or writes outside them. *)
Theorem C75_checked_calls_are_safe : forall (F : Fl) (e : Env F) f, NLaws F -> fair e -> within_limits f ->
  match native_call e true f with
  | Ok v => fits v = true -> describes v
  | Panic => True
  | UB | Diverge => False
  end.
Proof. intros F e f NL FE W. apply (native_safe NL e FE f W). Qed.
Print Assumptions C75_checked_calls_are_safe.
Theorem C75_ieee : forall pw (e : Env (f64 pw)) f, fair e -> within_limits f ->
  native_call e true f <> UB /\ native_call e true f <> Diverge /\ (forall v, native_call e true f = Ok v -> fits v = true -> describes v).
Proof.
  intros pw e f FE W. pose proof (C75_checked_calls_are_safe _ e f (f64_laws pw) FE W) as H.
  destruct (native_call e true f); repeat split; try discriminate; try contradiction. intros v E. injection E as <-. exact H.
Qed.
Print Assumptions C75_ieee.

(** Arrays that do not describe a matrix are refused. *)
Theorem C75_invalid_arrays_raise : forall (F : Fl) (e : Env F) f, Forall numpy_arrays (operands f) -> Forall small (operands f) ->
  ~ Forall valid (operands f) -> native_call e true f = Panic.
Proof. intros. apply native_rejects; auto. Qed.
Print Assumptions C75_invalid_arrays_raise.

(** Without the check the same holds for valid arrays, and the answer is the same ... *)
Theorem C75_unchecked_valid : forall (F : Fl) (e : Env F) f ck, NLaws F -> fair e -> within_limits f -> Forall valid (operands f) ->
  native_call e ck f = native_call e true f.
Proof. intros F e f ck NL FE (N & S & _) V. rewrite !native_call_ok by auto. reflexivity. Qed.
Print Assumptions C75_unchecked_valid.

(** ... but not for other arrays: [spmv_from_parts(1, 1, [0, 1], [5], [1.0], [1.0], check=False)]
    reads outside the vector. *)
Definition shown {F : Fl} (r : res (value F)) : option (list nat * list F) := match r with Ok v => Some (data_of v) | _ => None end.
Definition is_ub {F : Fl} (r : res (value F)) : bool := match r with UB => true | _ => false end.
Definition is_panic {F : Fl} (r : res (value F)) : bool := match r with Panic => true | _ => false end.
Lemma is_ub_eq : forall (F : Fl) (r : res (value F)), is_ub r = true -> r = UB. Proof. intros F []; cbn; congruence. Qed.
Lemma is_panic_eq : forall (F : Fl) (r : res (value F)), is_panic r = true -> r = Panic. Proof. intros F []; cbn; congruence. Qed.
Theorem C75_unchecked_refuted : exists f : native (f64 pw0), within_limits f /\ native_call env2 false f = UB /\ native_call env2 true f = Panic.
Proof.
  exists (NSpmv (RCsr 1 1 [0; 1] [5] [fz 1]) [fz 1]). split; [|split; [apply is_ub_eq|apply is_panic_eq]; vm_compute; reflexivity].
  split; [|split]; [|constructor; [vm_compute; reflexivity|constructor]|vm_compute; reflexivity].
  repeat constructor; discriminate.
Qed.
Print Assumptions C75_unchecked_refuted.

Definition WR : raw (f64 pw0) := RCsr 2 3 [0; 2; 3] [0; 2; 1] [fz 1; fz (-2); fz 4].
Definition WN : raw (f64 pw0) := RNd [2; 1; 3] [0; 0; 1; 1; 0; 2; 1; 0; 0] [fz 6; fz 8; fz (-3)].
Lemma WR_numpy : numpy_arrays WR. Proof. repeat constructor; discriminate. Qed.
Lemma WN_numpy : numpy_arrays WN. Proof. repeat constructor; discriminate. Qed.
Lemma WR_small : small WR. Proof. vm_compute. reflexivity. Qed.
Lemma WN_small : small WN. Proof. vm_compute. reflexivity. Qed.
Lemma WR_valid : valid WR. Proof. apply canonical_literal; reflexivity. Qed.
Lemma WN_valid : valid WN. Proof. split; [apply PropNd.nd_ok_literal; reflexivity|repeat constructor; discriminate]. Qed.
Example C75_nonvacuous :
  within_limits (NSpmv WR [fz 1; fz 2; fz 3]) /\ shown (native_call env2 true (NSpmv WR [fz 1; fz 2; fz 3])) = Some ([2%nat], [fz (-5); fz 8]) /\
  within_limits (NBinary BMul WN WN) /\
  (exists A, native_call env2 true (NBinary BMul WN WN) = Ok (VNd A) /\ length (nd_dat A) = 3%nat /\ describes (VNd A)) /\
  native_call env2 true (NUnary NAbs (RCsr 2 3 [0; 2; 3] [0; 3; 1] [fz 1; fz (-2); fz 4])) = Panic.
Proof.
  assert (W1 : within_limits (NSpmv WR [fz 1; fz 2; fz 3])).
  { split; [|split]; [repeat constructor; discriminate|constructor; [apply WR_small|constructor]|vm_compute; reflexivity]. }
  assert (W2 : within_limits (NBinary BMul WN WN)).
  { split; [|split]; [repeat (constructor; [apply WN_numpy|]); constructor|repeat (constructor; [apply WN_small|]); constructor|vm_compute; reflexivity]. }
  split; [exact W1|]. split; [vm_compute; reflexivity|]. split; [exact W2|]. split; [|apply is_panic_eq; vm_compute; reflexivity].
  pose proof (proj2 (proj2 (C75_ieee pw0 env2 _ env2_fair W2))) as D.
  assert (K : match native_call env2 true (NBinary BMul WN WN) with Ok (VNd A) => (length (nd_dat A) =? 3)%nat && fits (VNd A) | _ => false end = true) by (vm_compute; reflexivity).
  destruct (native_call env2 true (NBinary BMul WN WN)) as [v| | |]; try discriminate K. specialize (D v eq_refl). destruct v as [| | |A| | |]; try discriminate K. exists A. apply andb_true_iff in K. split; [reflexivity|]. split; [apply Nat.eqb_eq; apply K|apply D; apply K].
Qed.

(** ** C76: a function of the extension module, given the arrays of an object, returns the
    arrays of what the object's own method (or operator, or the namespace function) returns. *)
Theorem C76_same_as_the_method : forall (F : Fl) (e : Env F) h f c ck v, NLaws F -> fair e -> counterpart h f c -> provided f = true ->
  Forall numpy_arrays (operands f) -> Forall small (operands f) -> Forall valid (operands f) ->
  exec e h c = Ok v -> native_call e ck f = Ok (attributes v).
Proof. intros F e h f c ck v NL FE C P N S V. apply (counterpart_agrees NL e FE h f c ck C P N S V). Qed.
Print Assumptions C76_same_as_the_method.

(** In a state that a program with regular arguments reaches, the objects' arrays qualify. *)
Theorem C76_reached_objects_qualify : forall (F : Fl) (h : list (value F)) a x, NLaws F -> reached h -> object h a x ->
  match x with RNd sh _ _ => Forall (Z.le 0) sh | _ => True end -> small x /\ valid x.
Proof.
  intros F h a x NL R (v & E & H) NN. pose proof (reached_nth h a v NL R E) as K. destruct K as [K FT]. unfold small.
  destruct x as [nr nc p i d|nr nc p i d|nr nc r c d|sh i d]; destruct v as [X|X|X|X| | |]; try contradiction; cbn [holds regular fits arrays valid py_arrays pyc_arrays] in *.
  - destruct H as [H _]. rewrite H in *. split; [exact FT|apply K].
  - destruct H as [H _]. rewrite H in *. split; [exact FT|apply K].
  - destruct H as [H _]. rewrite H in *. split; [exact FT|apply K].
  - subst X. split; [exact FT|]. split; [apply K|exact NN].
Qed.
Print Assumptions C76_reached_objects_qualify.
Theorem C76_holds : forall (F : Fl) (h : list (value F)) a v, NLaws F -> reached h -> nth_error h a = Some v -> sparse v = true -> exists x, object h a x.
Proof.
  intros F h a v NL R E SP. pose proof (reached_nth h a v NL R E) as [K _]. destruct v as [X|X|X|X| | |]; try discriminate SP; cbn [regular] in K.
  - exists (RCsr (major (py_arrays X)) (minor (py_arrays X)) (ptr (py_arrays X)) (idx (py_arrays X)) (dat (py_arrays X))), (VCsr X). split; [exact E|]. split; [destruct (py_arrays X); reflexivity|]. intros H EH. destruct K as [_ K]. congruence.
  - exists (RCsc (minor (py_arrays X)) (major (py_arrays X)) (ptr (py_arrays X)) (idx (py_arrays X)) (dat (py_arrays X))), (VCsc X). split; [exact E|]. split; [destruct (py_arrays X); reflexivity|]. intros H EH. destruct K as [_ K]. congruence.
  - exists (RCoo (coo_nrows (pyc_arrays X)) (coo_ncols (pyc_arrays X)) (coo_row (pyc_arrays X)) (coo_col (pyc_arrays X)) (coo_data (pyc_arrays X))), (VCoo X). split; [exact E|]. split; [destruct (pyc_arrays X); reflexivity|]. intros H EH. destruct K as (_ & _ & K). congruence.
  - exists (RNd (nd_shape X) (nd_idx X) (nd_dat X)), (VNd X). split; [exact E|]. destruct X. reflexivity.
Qed.
Print Assumptions C76_holds.

(** [tensordot] of a matrix and an array of two or more dimensions: the native function
    returns the numbers of the package's result as a table with one row per matrix row. *)
Definition matrix_rows {F} (x : raw F) : nat :=
  match x with RCsr nr _ _ _ _ | RCsc nr _ _ _ _ | RCoo nr _ _ _ _ => nr | RNd _ _ _ => 0 end.
Theorem C76_tensordot_of_a_matrix : forall (F : Fl) (e : Env F) h a b x n0 n1 rest d axis ck v, object h a x ->
  match x with RNd _ _ _ => False | _ => True end -> nth_error h b = Some (VArr (n0 :: n1 :: rest) d) ->
  numpy_arrays x -> small x -> valid x -> exec e h (Tensordot a b axis) = Ok v ->
  exists c, v = VArr (matrix_rows x :: n1 :: rest) c /\
    native_call e ck (NTensordot x 0 d (map Z.of_nat (n0 :: n1 :: rest))) = Ok (VArr [matrix_rows x; fold_right Nat.mul 1%nat (n1 :: rest)] c).
Proof.
  intros F e h a b x n0 n1 rest d axis ck v (v0 & E0 & H) NX EB N S V E.
  rewrite native_call_ok; [|constructor; [assumption|constructor]..]. cbn [on_cores].
  cbn [exec] in E. rewrite (get_ok _ _ _ E0), (get_ok _ _ _ EB) in E. cbn [bind do_tensordot] in E.
  assert (NN : forallb (Z.leb 0) (map Z.of_nat (n0 :: n1 :: rest)) = true) by (generalize (n0 :: n1 :: rest); clear; induction l as [|n l IH]; cbn; [reflexivity|rewrite IH; destruct n; reflexivity]).
  assert (EC : Z.to_nat (cells (map Z.of_nat (n1 :: rest))) = fold_right Nat.mul 1%nat (n1 :: rest)).
  { generalize (n1 :: rest); clear. intros l. replace (cells (map Z.of_nat l)) with (Z.of_nat (fold_right Nat.mul 1%nat l)); [apply Nat2Z.id|].
    unfold cells. induction l as [|n l IH]; [reflexivity|]. cbn [map fold_right]. rewrite Nat2Z.inj_mul, IH. reflexivity. }
  assert (G : forall nr nc (c0 : res (list F)), (let! c := c0 in tensordot_result nr (n0 :: n1 :: rest) c) = Ok v -> (n0 =? nc)%nat = true ->
    exists c, v = VArr (nr :: n1 :: rest) c /\ n_flat nr nc (map Z.of_nat (n0 :: n1 :: rest)) c0 = Ok (VArr [nr; fold_right Nat.mul 1%nat (n1 :: rest)] c)).
  { intros nr nc c0 E' EN. apply Nat.eqb_eq in EN. unfold n_flat. rewrite NN. cbn [map] in *. replace (Z.of_nat n0 =? Z.of_nat nc) with true by lia. rewrite EC.
    destruct c0 as [c| | |]; try discriminate E'. cbn [bind] in *. unfold tensordot_result in E'. cbn [tl] in E'.
    destruct (reshape_to [nr; _] c) as [[s l]| | |] eqn:ER; try discriminate E'. cbn [bind] in E'.
    assert (s = [nr; fold_right Nat.mul 1%nat (n1 :: rest)] /\ l = c) as [-> ->] by (unfold reshape_to in ER; destruct (_ =? _)%nat; [injection ER as <- <-; auto|discriminate ER]).
    unfold reshape_to, arr_new in E'. destruct (_ =? _)%nat; [|discriminate E']. cbn [bind] in E'. injection E' as <-. exists c. split; [reflexivity|].
    unfold arr_new. reflexivity. }
  destruct (match axis with None => true | Some ax => ax =? 1 end) eqn:EA.
  2: { destruct x as [nr nc p i d'|nr nc p i d'|nr nc r c d'|sh i d']; [| | |contradiction];
       destruct v0 as [X|X|X|X| | |]; try contradiction; cbv beta iota in E; discriminate E. }
  destruct x as [nr nc p i d'|nr nc p i d'|nr nc r c d'|sh i d']; [| | |contradiction]; cbn [the_core n_tensordot matrix_rows].
  - destruct (held_csr _ _ _ _ _ _ V S H) as (X & -> & EX & EP & EU & EH). cbv beta iota in E.
    destruct (_ =? _)%nat eqn:EN in E; [|discriminate E]. rewrite EP in E. cbn [bind] in E. rewrite EX in EN. apply G; [exact E|exact EN].
  - destruct (held_csc _ _ _ _ _ _ V S H) as (X & -> & EX & EP & EH). cbv beta iota in E.
    destruct (_ =? _)%nat eqn:EN in E; [|discriminate E]. rewrite EP in E. cbn [bind] in E. rewrite EX in EN. apply G; [exact E|exact EN].
  - destruct (held_coo _ _ _ _ _ _ V H) as (X & -> & EX & EP & EH). cbv beta iota in E.
    destruct (_ =? _)%nat eqn:EN in E; [|discriminate E]. rewrite EP in E. cbn [bind] in E. rewrite EX in EN. apply G; [exact E|exact EN].
Qed.
Print Assumptions C76_tensordot_of_a_matrix.

(** ** C77: the conversion functions keep every cell. *)
Definition kept_cells {F} (x y : value F) : Prop :=
  shape2 y = shape2 x /\ (forall i j, (i < fst (shape2 x))%nat -> (j < snd (shape2 x))%nat -> stored y i j = stored x i j).
Theorem C77_conversions_keep_cells : forall (F : Fl) (e : Env F) x t ck, fair e -> numpy_arrays x -> small x -> valid x ->
  provided (NConvert t x) = true -> match x with RCoo _ _ _ _ _ => False | _ => True end ->
  exists y, native_call e ck (NConvert t x) = Ok y /\ kept_cells (arrays x) y /\
    class_of y = Some (match t with ToCsr => CsrClass | ToCsc => CscClass | ToCoo => CooClass end).
Proof.
  intros F e x t ck FE N S V P NC. rewrite native_call_ok; [|constructor; [assumption|constructor]..]. cbn [on_cores].
  pose proof (valid_csmall e FE x S V) as K.
  destruct x as [nr nc p i d|nr nc p i d|nr nc r c d|sh i d]; [| |contradiction|destruct t; discriminate P]; cbn [the_core csmall] in *;
  destruct K as (OK & A1 & A2 & A3 & A4); destruct t; try discriminate P; cbn [n_convert].
  - destruct (C04_csr_to_csc_preserves_cells _ (e_il e 0) (e_sch e 0) _ (fair_il e FE 0%nat) (fair_sch e FE 0%nat) OK A1) as (B & -> & _ & M1 & M2 & _ & AT).
    eexists. split; [reflexivity|]. split; [|reflexivity]. split; [cbn [shape2 py_arrays arrays]; rewrite M1, M2; reflexivity|exact AT].
  - destruct (C06_csr_to_coo _ (e_schc e) _ (fair_schc e FE) OK A1) as (B & -> & _ & M1 & M2 & _ & _ & AT).
    eexists. split; [reflexivity|]. split; [|reflexivity]. split; [cbn [shape2 pyc_arrays py_arrays arrays]; rewrite M1, M2; reflexivity|exact AT].
  - destruct (C04_csc_to_csr_preserves_cells _ (e_il e 0) (e_sch e 0) _ (fair_il e FE 0%nat) (fair_sch e FE 0%nat) OK A1) as (B & -> & _ & M1 & M2 & _ & AT).
    eexists. split; [reflexivity|]. split; [|reflexivity]. split; [cbn [shape2 py_arrays arrays]; rewrite M1, M2; reflexivity|exact AT].
  - destruct (C06_csc_to_coo _ (e_schc e) _ (fair_schc e FE) OK A1) as (B & -> & _ & M1 & M2 & _ & _ & AT).
    eexists. split; [reflexivity|]. split; [|reflexivity]. split; [cbn [shape2 pyc_arrays py_arrays arrays]; rewrite M1, M2; reflexivity|exact AT].
Qed.
Print Assumptions C77_conversions_keep_cells.

(** From COO, duplicates are added in floating point and the result is sorted. *)
Theorem C77_from_coo : forall pw (e : Env (f64 pw)) nr nc r c d t ck, fair e ->
  let x := RCoo nr nc r c d in numpy_arrays x -> small x -> valid x -> provided (NConvert t x) = true ->
  exists y, native_call e ck (NConvert t x) = Ok y /\ shape2 y = (nr, nc) /\
    class_of y = Some (match t with ToCsr => CsrClass | ToCsc => CscClass | ToCoo => CooClass end) /\
    forall i j, (i < nr)%nat -> (j < nc)%nat ->
      (stored (arrays x) i j = [] -> stored y i j = []) /\
      (stored (arrays x) i j <> [] -> exists v, stored y i j = [v] /\ FSum (stored (arrays x) i j) v).
Proof.
  intros pw e nr nc r c d t ck FE x N S V P. rewrite native_call_ok; [|constructor; [assumption|constructor]..]. cbn [on_cores].
  unfold x in *. cbn [valid] in V. destruct t; try discriminate P; cbn [the_core n_convert].
  - destruct (C07_coo_to_csr pw (e_srt2 e) _ (fair_srt2 e FE) V) as (B & -> & _ & M1 & M2 & AT).
    eexists. split; [reflexivity|]. split; [cbn [shape2 py_arrays]; rewrite M1, M2; reflexivity|]. split; [reflexivity|]. exact AT.
  - destruct (C07_coo_to_csc pw (e_srt2 e) _ (fair_srt2 e FE) V) as (B & -> & _ & M1 & M2 & AT).
    eexists. split; [reflexivity|]. split; [cbn [shape2 py_arrays]; rewrite M1, M2; reflexivity|]. split; [reflexivity|]. exact AT.
Qed.
Print Assumptions C77_from_coo.

Lemma object0 : object state2 0 WR.
Proof.
  exists (obj 0). split; [apply obj_is; lia|].
  assert (R : regular (obj 0)).
  { pose proof (C61_ieee _ _ state2_reached) as R. rewrite Forall_forall in R. apply R. eapply nth_error_In. apply obj_is. lia. }
  assert (E : match obj 0 with VCsr X => Some (py_arrays X) | _ => None end = Some (mkCs 2 3 [0; 2; 3] [0; 2; 1] [fz 1; fz (-2); fz 4])) by (vm_compute; reflexivity).
  revert R E. generalize (obj 0). intros v R E. destruct v as [X| | | | | |]; try discriminate E. split; [apply some_inj; exact E|].
  intros H EH. destruct R as [_ R]. rewrite EH in R. apply some_inj. exact R.
Qed.
Lemma returned : forall (F : Fl) (r : res (value F)) x, shown r = Some x -> exists v, r = Ok v /\ data_of v = x.
Proof. intros F r x E. destruct r; try discriminate E. exists a. split; [reflexivity|]. apply some_inj. exact E. Qed.
Example C76_nonvacuous :
  (exists v, exec env2 state2 (Scalar SFloorDiv 0 (fz 3)) = Ok v /\ data_of v = ([2; 3]%nat, [fz 0; fz (-1); fz 1]) /\
     native_call env2 true (NScalar SFloorDiv WR (fz 3)) = Ok (attributes v)) /\
  (exists v, exec env2 state2 (Reduce RSum 0 (AxInt 1) false) = Ok v /\ data_of v = ([2%nat], [fz (-1); fz 4]) /\
     native_call env2 false (NRows RSum WR) = Ok (attributes v)).
Proof.
  assert (O := object0). split.
  - destruct (returned _ (exec env2 state2 (Scalar SFloorDiv 0 (fz 3))) ([2; 3]%nat, [fz 0; fz (-1); fz 1])) as (v & E & D); [vm_compute; reflexivity|].
    exists v. split; [exact E|]. split; [exact D|].
    apply (C76_same_as_the_method _ env2 state2 _ _ true v (f64_laws pw0) env2_fair (CpScalar _ SFloorDiv WR 0 (fz 3) O) eq_refl); [constructor; [|constructor]..|exact E].
    + apply WR_numpy.
    + apply WR_small.
    + apply WR_valid.
  - destruct (returned _ (exec env2 state2 (Reduce RSum 0 (AxInt 1) false)) ([2%nat], [fz (-1); fz 4])) as (v & E & D); [vm_compute; reflexivity|].
    exists v. split; [exact E|]. split; [exact D|].
    apply (C76_same_as_the_method _ env2 state2 _ _ false v (f64_laws pw0) env2_fair (CpRows _ RSum WR 0 O) eq_refl); [constructor; [|constructor]..|exact E].
    + apply WR_numpy.
    + apply WR_small.
    + apply WR_valid.
Qed.
Example C76_reached_nonvacuous : small WR /\ valid WR.
Proof. apply (C76_reached_objects_qualify _ state2 0 WR (f64_laws pw0) state2_reached object0 I). Qed.
Example C77_nonvacuous :
  (exists y, native_call env2 true (NConvert ToCsc WR) = Ok y /\ kept_cells (arrays WR) y /\ class_of y = Some CscClass) /\
  shown (native_call env2 true (NConvert ToCsr (RCoo 2 2 [1; 0; 1] [0; 1; 0] [fz 3; fz 7; fz 4]))) = Some ([2; 2]%nat, [fz 7; fz 7]).
Proof.
  split; [|vm_compute; reflexivity].
  apply (C77_conversions_keep_cells _ env2 WR ToCsc true env2_fair WR_numpy WR_small WR_valid eq_refl I).
Qed.
