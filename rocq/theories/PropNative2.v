(** C79: what the functions of the extension module that no method of the package reaches
    compute: totals of N-D arrays, a number times an N-D array, and [tensordot] of a matrix
    with an array of any shape. *)
Require Import List ZArith Bool Arith Lia Permutation QArith Qcanon.
Require Import ZifyBool ZifyNat.
Require Import Verif.Res Verif.Values Verif.Spec Verif.SpecReduce Verif.Mem Verif.Lists Verif.CsLib Verif.Laws Verif.FloatFacts Verif.Witness Verif.SpecPy Verif.MScalar Verif.PScalar Verif.PropScalar Verif.MLinalg Verif.PropLinalg Verif.MStat Verif.PropStat Verif.NdLib Verif.PNd Verif.MNd Verif.MPy Verif.MObj Verif.SpecObj Verif.PSafe3 Verif.SpecCall Verif.PropCall Verif.PropCall4 Verif.PropDense Verif.MNative Verif.SpecNative Verif.PNative Verif.PNative2 Verif.PropNative.
Import ListNotations.
Local Open Scope Z_scope.

(** The arrays of an N-D array within the limits, with no position stored twice. *)
Record nd_arrays {F : Fl} (sh i : list Z) (d : list F) : Prop := {
  na_numpy : numpy_arrays (RNd sh i d);
  na_small : small (RNd sh i d);
  na_valid : valid (RNd sh i d);
  na_distinct : single_valued_nd (mkNd sh i d) }.

Lemma on_nd : forall (F : Fl) (e : Env F) ck op sh i d, nd_arrays sh i d -> native_call e ck (NTotal op (RNd sh i d)) = n_total e op (KNd (mkNd sh i d)).
Proof. intros F e ck op sh i d H. rewrite native_call_ok; [reflexivity|..]; (constructor; [|constructor]); apply H. Qed.
Lemma nd_fits : forall (F : Fl) sh i (d : list F), nd_arrays sh i d -> nd_ok (mkNd sh i d) /\ shape_fits sh /\ alloc_ok (length d).
Proof.
  intros F sh i d H. destruct (na_valid _ _ _ H) as [V NN]. pose proof (na_small _ _ _ H) as S. unfold small in S. cbn [arrays fits nd_shape nd_idx nd_dat] in S.
  apply andb_true_iff in S. split; [exact V|]. split; [apply shape_cells_fits; [exact NN|lia]|unfold alloc_ok; lia].
Qed.

(** ** Totals over all cells, implicit zeros included *)
Theorem C79_product : forall pw (e : Env (f64 pw)) sh i d ck, nd_arrays sh i d ->
  exists v, native_call e ck (NTotal RProd (RNd sh i d)) = Ok (VArr [] [v]) /\ prod_spec (nd_at (mkNd sh i d)) (all_keys sh) v.
Proof.
  intros pw e sh i d ck H. rewrite (on_nd _ _ _ _ _ _ _ H). cbn [n_total].
  destruct (nd_fits _ _ _ _ H) as (OK & SF & AL). destruct (C37_prod_coond pw (e_split e) (mkNd sh i d) OK (na_distinct _ _ _ H) SF AL) as (v & E & P).
  exists v. split; [|exact P]. unfold ret_one. rewrite E. reflexivity.
Qed.
Print Assumptions C79_product.

Theorem C79_all_any : forall pw (e : Env (f64 pw)) sh i d ck, nd_arrays sh i d ->
  native_call e ck (NTotal RAll (RNd sh i d)) = Ok (VBools [] [forallb nonzero (array_cells f0 (mkNd sh i d))]) /\
  native_call e ck (NTotal RAny (RNd sh i d)) = Ok (VBools [] [existsb nonzero (array_cells f0 (mkNd sh i d))]).
Proof.
  intros pw e sh i d ck H. rewrite !(on_nd _ _ _ _ _ _ _ H). cbn [n_total].
  destruct (nd_fits _ _ _ _ H) as (OK & SF & AL). destruct (C39_coond pw (mkNd sh i d) OK (na_distinct _ _ _ H) SF AL) as [E1 E2].
  unfold ret_one. rewrite E1, E2. split; reflexivity.
Qed.
Print Assumptions C79_all_any.

(** Variance in exact arithmetic ... *)
Theorem C79_variance : forall (e : Env qc) sh i d c ck, nd_arrays sh i d ->
  native_call e ck (NTotal (RVar c) (RNd sh i d)) = Ok (VArr (F := qc) [] [qvariance (array_cells f0 (mkNd sh i d)) c]).
Proof.
  intros e sh i d c ck H. rewrite (on_nd _ _ _ _ _ _ _ H). cbn [n_total].
  destruct (nd_fits _ _ _ _ H) as (OK & SF & AL). unfold ret_one. rewrite (C38_var_coond (e_split e) (mkNd sh i d) c OK (na_distinct _ _ _ H) SF). reflexivity.
Qed.
Print Assumptions C79_variance.

(** ... and in IEEE arithmetic the documented formula, from floating-point sums; the standard
    deviation is its square root. *)
Theorem C79_variance_ieee : forall pw (e : Env (f64 pw)) sh i d c ck, nd_arrays sh i d ->
  exists v, var_of (array_values (mkNd sh i d)) (cells sh) c v /\
    native_call e ck (NTotal (RVar c) (RNd sh i d)) = Ok (VArr [] [v]) /\ native_call e ck (NTotal (RStd c) (RNd sh i d)) = Ok (VArr [] [fsqrt v]).
Proof.
  intros pw e sh i d c ck H. rewrite !(on_nd _ _ _ _ _ _ _ H). cbn [n_total].
  destruct (nd_fits _ _ _ _ H) as (OK & SF & AL).
  assert (OC : cs_ok (V := f64 pw) (mkCs 0 0 [0] [] [])) by (apply can_ok, canonical_literal; reflexivity).
  assert (OO : coo_ok (V := f64 pw) (mkCoo 0 0 [] [] [])) by (apply coo_ok_literal; reflexivity).
  destruct (C38_var_ieee pw (e_split e) c (mkCs 0 0 [0] [] []) (mkCs 0 0 [0] [] []) (mkCoo 0 0 [] [] []) (mkNd sh i d) OC OC OO OK SF) as (_ & _ & _ & v & E & VO); try (cbn; unfold usize_max; lia).
  exists v. split; [exact VO|]. unfold ret_one, std_of. rewrite E. split; reflexivity.
Qed.
Print Assumptions C79_variance_ieee.

(** ** A number times an N-D array: the same positions, each value times the number (1 leaves
    the values alone, 0 makes them zero). *)
Theorem C79_scalar_multiple : forall pw (e : Env (f64 pw)) sh i d alpha ck, numpy_arrays (RNd sh i d) -> small (RNd sh i d) -> valid (RNd sh i d) ->
  native_call e ck (NScalar SMul (RNd sh i d) alpha) =
    Ok (VNd (mkNd sh i (map (fun v => if feqb alpha f1 then v else if feqb alpha f0 then f0 else fmul v alpha) d))).
Proof.
  intros pw e sh i d alpha ck N S V. rewrite native_call_ok; [|constructor; [assumption|constructor]..]. cbn [on_cores the_core n_scalar].
  rewrite (proj2 (proj2 (proj2 (C16_mul_scalar pw alpha)))). cbn [bind nd_shape nd_idx nd_dat]. unfold ret_nd. cbn [nd_shape].
  replace (forallb (fun n => n <=? i64_max) sh) with true; [reflexivity|]. symmetry. apply forallb_forall. intros z I.
  destruct N as [[N _] _]. rewrite Forall_forall in N. specialize (N _ I). unfold is_i64 in N. lia.
Qed.
Print Assumptions C79_scalar_multiple.

(** ** [tensordot] of a matrix with an array of shape [ncols :: rest]: a table with one column
    per remaining position of the array. *)
Theorem C79_tensordot : forall (F : Fl) (e : Env F) x axis b m n rest ck, NLaws F -> fair e -> numpy_arrays x -> small x -> valid x ->
  class_of (arrays x) <> None -> shape2 (arrays x) = (m, n) -> let k := fold_right Nat.mul 1%nat rest in
  length b = (n * k)%nat -> (0 < k)%nat -> Z.max 1 (Z.of_nat m) * shape_cells (map Z.of_nat (n :: rest)) < i64_max ->
  exists R, native_call e ck (NTensordot x axis b (map Z.of_nat (n :: rest))) = Ok (VArr [m; k] R) /\ length R = (m * k)%nat /\
    forall i c, (i < m)%nat -> (c < k)%nat -> FSum (dot_terms (stored (arrays x)) n (column b n k c) i) (nth (i * k + c) R f0).
Proof.
  intros F e x axis b m n rest ck NL FE N S V NC SH k LB KP D. rewrite native_call_ok; [|constructor; [assumption|constructor]..]. cbn [on_cores].
  destruct (PDense2.alloc_rest _ _ _ D) as (SF & A1 & A2). fold k in A1, A2.
  assert (EC : cells (map Z.of_nat rest) = Z.of_nat k).
  { unfold k, cells. clear. induction rest as [|z l IH]; [reflexivity|]. cbn [map fold_right]. rewrite Nat2Z.inj_mul, IH. reflexivity. }
  assert (LB' : Z.of_nat (length b) = cells (Z.of_nat n :: map Z.of_nat rest)).
  { rewrite LB, Nat2Z.inj_mul, <- EC. reflexivity. }
  assert (NN : forallb (Z.leb 0) (map Z.of_nat (n :: rest)) = true) by (generalize (n :: rest); clear; induction l as [|z l IH]; cbn; [reflexivity|rewrite IH; destruct z; reflexivity]).
  assert (G : forall (P : list F -> Prop) c0, (exists y, c0 = Ok y /\ length y = (m * k)%nat /\ P y) ->
    exists R, n_flat m n (map Z.of_nat (n :: rest)) c0 = Ok (VArr [m; k] R) /\ length R = (m * k)%nat /\ P R).
  { intros P c0 (y & -> & LY & PY). exists y. split; [|auto]. unfold n_flat. rewrite NN. cbn [map]. rewrite Z.eqb_refl, EC, Nat2Z.id. cbn [bind].
    unfold reshape_to. rewrite LY. cbn [fold_right]. rewrite Nat.mul_1_r, Nat.eqb_refl. reflexivity. }
  pose proof (valid_csmall e FE x S V) as K. destruct (C31_tensordot F b (Z.of_nat n) (map Z.of_nat rest) SF LB') as (T1 & T2 & T3). rewrite EC, Nat2Z.id in T1, T2, T3.
  destruct x as [nr nc p i d|nr nc p i d|nr nc r c d|sh i d]; [| | |exfalso; apply NC; reflexivity]; cbn [the_core csmall n_tensordot arrays shape2 py_arrays pyc_arrays] in *; injection SH as E1 E2.
  - destruct K as (OK & A3 & A4 & A5 & AL). cbn [csr_nrows csr_ncols] in *. subst nr nc. change (csr_nrows _) with m. change (csr_ncols _) with n.
    apply G. rewrite T1 by reflexivity. destruct (C30_spmm_csr F (mkCs m n p i d) b k NL OK AL) as (y & E & LY & HY); auto.
    { split; [exact LB|]. auto. }
    exists y. split; [exact E|]. split; [exact LY|]. intros i0 c0 Hi Hc. apply (HY i0 c0 Hi Hc).
  - destruct K as (OK & A3 & A4 & A5 & AL). subst nr nc. change (csc_nrows _) with m. change (csc_ncols _) with n.
    apply G. rewrite T2 by reflexivity. destruct (C30_spmm_csc F (mkCs n m p i d) b k NL OK AL) as (y & E & LY & HY).
    { split; [exact LB|]. auto. }
    exists y. split; [apply E, FE|]. split; [exact LY|]. intros i0 c0 Hi Hc. apply (HY i0 c0 Hi Hc).
  - destruct K as (OK & A3 & A4 & A5 & AL). subst nr nc. change (coo_nrows _) with m. change (coo_ncols _) with n.
    apply G. rewrite T3 by reflexivity. destruct (C30_spmm_coo F (mkCoo m n r c d) b k NL OK) as (y & E & LY & HY).
    { split; [exact LB|]. auto. }
    exists y. split; [apply E, FE|]. split; [exact LY|]. intros i0 c0 Hi Hc. apply (HY i0 c0 Hi Hc).
Qed.
Print Assumptions C79_tensordot.

(** An N-D array of shape [2; 2] with the values 1, 2, 3 and one implicit zero, and one of
    shape [2; 1] with the values 3 and -4. *)
Lemma WQ_ok : nd_arrays [2; 2] [0; 0; 0; 1; 1; 1] (map (@fofZ qc) [1; 2; 3]).
Proof.
  constructor; [repeat constructor; discriminate|vm_compute; reflexivity| |].
  - split; [apply PropNd.nd_ok_literal; reflexivity|repeat constructor; discriminate].
  - apply PCall.single_keys. vm_compute. repeat constructor; cbn; intuition discriminate.
Qed.
Lemma WF_ok : nd_arrays [2; 1] [0; 0; 1; 0] [fz 3; fz (-4)].
Proof.
  constructor; [repeat constructor; discriminate|vm_compute; reflexivity| |].
  - split; [apply PropNd.nd_ok_literal; reflexivity|repeat constructor; discriminate].
  - apply PCall.single_keys. vm_compute. repeat constructor; cbn; intuition discriminate.
Qed.
Definition truth {F : Fl} (r : res (value F)) : option (list bool) := match r with Ok (VBools [] l) => Some l | _ => None end.
Example C79_nonvacuous :
  nd_arrays [2; 2] [0; 0; 0; 1; 1; 1] (map (@fofZ qc) [1; 2; 3]) /\ nd_arrays [2; 1] [0; 0; 1; 0] [fz 3; fz (-4)] /\
  qvariance (array_cells f0 (mkNd [2; 2] [0; 0; 0; 1; 1; 1] (map (@fofZ qc) [1; 2; 3]))) (Q2Qc 0) = Q2Qc (5 # 4) /\
  shown (native_call env2 true (NTotal RProd (RNd [2; 1] [0; 0; 1; 0] [fz 3; fz (-4)]))) = Some ([], [fz (-12)]) /\
  truth (native_call env2 true (NTotal RAll (RNd [2; 1] [0; 0; 1; 0] [fz 3; fz (-4)]))) = Some [true] /\
  shown (native_call env2 true (NScalar SMul (RNd [2; 1] [0; 0; 1; 0] [fz 3; fz (-4)]) (fz 2))) = Some ([2; 1]%nat, [fz 6; fz (-8)]) /\
  shown (native_call env2 true (NTensordot WR 0 [fz 1; fz 2; fz 3] [3])) = Some ([2; 1]%nat, [fz (-5); fz 8]) /\
  shown (native_call env2 true (NTensordot WR 0 [fz 1; fz 2; fz 3; fz 4; fz 5; fz 6] [3; 2; 1])) = Some ([2; 2]%nat, [fz (-9); fz (-10); fz 12; fz 16]).
Proof.
  split; [apply WQ_ok|]. split; [apply WF_ok|]. split; [apply Qc_is_canon; vm_compute; reflexivity|]. repeat (split; [vm_compute; reflexivity|]). vm_compute. reflexivity.
Qed.

(** C76 for the product of the matrix above with the array of shape [3; 2] of state3. *)
Example C76_tensordot_nonvacuous :
  exists v c, exec env2 state3 (Tensordot 0 8 None) = Ok v /\ v = VArr [2; 2]%nat c /\
    native_call env2 true (NTensordot WR 0 [fz 1; fz 2; fz 3; fz 4; fz 5; fz 6] [3; 2]) = Ok (VArr [2; 2]%nat c).
Proof.
  assert (O : object state3 0 WR).
  { destruct object0 as (v & E & H). exists v. split; [|exact H]. rewrite (obj3 0 ltac:(lia)). rewrite <- E. symmetry. apply obj_is. lia. }
  assert (K : match exec env2 state3 (Tensordot 0 8 None) with Ok _ => true | _ => false end = true) by (vm_compute; reflexivity).
  destruct (exec env2 state3 (Tensordot 0 8 None)) as [v| | |] eqn:E; try discriminate K. exists v.
  destruct (C76_tensordot_of_a_matrix _ env2 state3 0 8 WR 3 2 [] _ None true v O I (proj1 arr3) WR_numpy WR_small WR_valid E) as (c & EV & EN).
  exists c. split; [reflexivity|]. split; [exact EV|exact EN].
Qed.
