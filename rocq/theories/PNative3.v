(** A function of the extension module and the method of the package that does the same
    return the same arrays. *)
Require Import List ZArith Bool Arith Lia Permutation Sorted.
Require Import ZifyBool ZifyNat.
Require Import Verif.Res Verif.Values Verif.Spec Verif.Mem Verif.Lists Verif.CsLib Verif.Laws Verif.NdLib Verif.SpecPy Verif.MCore Verif.PCore Verif.MElementwise Verif.MConvert Verif.PConvert Verif.PConvert2 Verif.PConvert3 Verif.PTrans Verif.MScalar Verif.PScalar.
Require Import Verif.MHash Verif.MAcc Verif.MLinalg Verif.MReduce Verif.MStat Verif.MCum Verif.MNd Verif.MNd2 Verif.PNd Verif.PropConvert Verif.MPy Verif.PBroadcast Verif.MObj Verif.SpecObj Verif.PSafe Verif.PSafe2 Verif.PSafe3 Verif.PSafe4 Verif.PObj Verif.PDense Verif.PCall3 Verif.MNative Verif.SpecNative Verif.PNative Verif.PNative2.
Import ListNotations.
Local Open Scope Z_scope.

Section Same.
Context {F : Fl}.
Hypothesis NL : NLaws F.
Variable e : Env F.
Hypothesis FE : fair e.

Definition agrees (m n : res (value F)) : Prop := forall v, m = Ok v -> n = Ok (attributes v).
Lemma agrees_panic : forall n, agrees Panic n.
Proof. intros n v H. discriminate H. Qed.
Lemma agrees_bind : forall {A} (r : res A) f g, (forall a, agrees (f a) (g a)) -> agrees (bind r f) (bind r g).
Proof. intros A r f g H v. destruct r; cbn [bind]; try discriminate. apply H. Qed.
Lemma agrees_assert : forall (b : bool) m n, (b = true -> agrees m n) -> agrees (assert! b ;; m) n.
Proof. intros [|] m n H; [auto|apply agrees_panic]. Qed.
Lemma agrees_csr : forall B : Csr F, agrees (csr_new B) (ret_csr B).
Proof. intros B v H. destruct (csr_new_is B) as [h E]. rewrite E in H. injection H as <-. reflexivity. Qed.
Lemma agrees_csc : forall B : Csc F, agrees (csc_new B) (ret_csc B).
Proof. intros B v H. destruct (csc_new_is B) as [h E]. rewrite E in H. injection H as <-. reflexivity. Qed.
Lemma agrees_coo : forall B : Coo F, agrees (coo_new B) (ret_coo B).
Proof.
  intros B v H. unfold coo_new, coo_init in H. destruct (coo_from_parts _ _ _ _ _ _) as [o| | |]; try discriminate H.
  cbn [bind] in H. injection H as <-. destruct B. reflexivity.
Qed.
Lemma agrees_nd : forall B : Nd F, agrees (nd_new B) (ret_nd B).
Proof.
  intros B v H. unfold nd_new, nd_init, ret_nd in *. destruct (forallb _ _); [|discriminate H].
  repeat match type of H with bind (if ?c then _ else _) _ = _ => destruct c; try discriminate H end.
  cbn [bind] in H. injection H as <-. destruct B. reflexivity.
Qed.

(** What the methods load from an object that holds the arrays *)
Lemma held_csr : forall nr nc p i (d : list F) v, valid (RCsr nr nc p i d) -> small (RCsr nr nc p i d) -> holds (RCsr nr nc p i d) v ->
  exists X, v = VCsr X /\ py_arrays X = mkCs nr nc p i d /\ csr_parts X = Ok (mkCs nr nc p i d) /\ csr_use X = Ok (mkCs nr nc p i d) /\
  (py_handle X = None \/ py_handle X = Some (mkCs nr nc p i d)).
Proof.
  intros nr nc p i d v V S H. destruct v as [X| | | | | |]; try contradiction. destruct H as [E H]. exists X.
  assert (P : csr_parts X = Ok (mkCs nr nc p i d)).
  { rewrite <- E. apply csr_parts_ok; [rewrite E; exact V|]. cbn [fits]. rewrite E. exact S. }
  cbn [in_sync] in H. unfold csr_use. destruct (py_handle X) as [A|] eqn:EH; [rewrite (H A eq_refl)|]; rewrite ?E; auto 8.
Qed.
Lemma held_csc : forall nr nc p i (d : list F) v, valid (RCsc nr nc p i d) -> small (RCsc nr nc p i d) -> holds (RCsc nr nc p i d) v ->
  exists X, v = VCsc X /\ py_arrays X = mkCs nc nr p i d /\ csc_parts X = Ok (mkCs nc nr p i d) /\
  (py_handle X = None \/ py_handle X = Some (mkCs nc nr p i d)).
Proof.
  intros nr nc p i d v V S H. destruct v as [|X| | | | |]; try contradiction. destruct H as [E H]. exists X.
  assert (P : csc_parts X = Ok (mkCs nc nr p i d)).
  { rewrite <- E. apply csc_parts_ok; [rewrite E; exact V|]. cbn [fits]. rewrite E. exact S. }
  cbn [in_sync] in H. destruct (py_handle X) as [A|] eqn:EH; [rewrite (H A eq_refl)|]; rewrite ?E; auto 8.
Qed.
Lemma held_coo : forall nr nc r c (d : list F) v, valid (RCoo nr nc r c d) -> holds (RCoo nr nc r c d) v ->
  exists X, v = VCoo X /\ pyc_arrays X = mkCoo nr nc r c d /\ coo_parts X = Ok (mkCoo nr nc r c d) /\
  (pyc_handle X = None \/ pyc_handle X = Some (mkCoo nr nc r c d)).
Proof.
  intros nr nc r c d v V H. destruct v as [| |X| | | |]; try contradiction. destruct H as [E H]. exists X.
  assert (P : coo_parts X = Ok (mkCoo nr nc r c d)).
  { rewrite <- E. apply coo_parts_ok. rewrite E. exact V. }
  cbn [in_sync] in H. destruct (pyc_handle X) as [A|] eqn:EH; [rewrite (H A eq_refl)|]; rewrite ?E; auto 8.
Qed.
Lemma held_nd : forall sh i (d : list F) v, valid (RNd sh i d) -> small (RNd sh i d) -> numpy_arrays (RNd sh i d) -> holds (RNd sh i d) v ->
  v = VNd (mkNd sh i d) /\ nd_parts (mkNd sh i d) = Ok (mkNd sh i d).
Proof.
  intros sh i d v V S N H. destruct v as [| | |X| | |]; try contradiction. cbn [holds] in H. subst X. split; [reflexivity|].
  pose proof (load_ok (RNd sh i d) false S N V) as L. unfold load, load_nd in L. unfold nd_parts. cbn [nd_shape nd_idx nd_dat].
  destruct (forallb _ _); [|discriminate L]. destruct (nd_from_parts _ _ _ _) as [[B|]| | |]; try discriminate L. cbn [bind] in *. injection L as ->. reflexivity.
Qed.

(** The call on an object: all four classes *)
Ltac opened V S N H :=
  match type of H with holds ?x _ =>
    destruct x as [nr nc p i d|nr nc p i d|nr nc ro c d|sh i d];
    [ destruct (held_csr _ _ _ _ _ _ V S H) as (X & -> & EX & EP & EU & EH)
    | destruct (held_csc _ _ _ _ _ _ V S H) as (X & -> & EX & EP & EH)
    | destruct (held_coo _ _ _ _ _ _ V H) as (X & -> & EX & EP & EH)
    | destruct (held_nd _ _ _ _ V S N H) as [-> EP] ]
  end.
Ltac use := unfold csc_use, coo_use; try match goal with EH : _ \/ _ |- _ => destruct EH as [EH|EH]; rewrite EH end.
Ltac ends := cbn [bind]; first [apply agrees_csr | apply agrees_csc | apply agrees_coo | apply agrees_nd].
Ltac rew := repeat match goal with
  | E : csr_parts _ = _ |- _ => rewrite E
  | E : csr_use _ = _ |- _ => rewrite E
  | E : csc_parts _ = _ |- _ => rewrite E
  | E : coo_parts _ = _ |- _ => rewrite E
  | E : nd_parts _ = _ |- _ => rewrite E end; cbn [bind].

Definition uop_of (op : @nuop F) : @uop F :=
  match op with NAbs => UAbs | NSign => USign | NTranspose => UT | NPrune eps => UPrune eps | NElim => UElim end.
Lemma unary_agrees : forall op x v, numpy_arrays x -> small x -> valid x -> holds x v -> provided (NUnary op x) = true ->
  agrees (do_unary e (uop_of op) v) (n_unary e op (the_core x)).
Proof.
  intros op x v N S V H P. opened V S N H; destruct op; try discriminate P; cbn [uop_of do_unary n_unary the_core]; rew; try (apply agrees_bind; intros; ends).
  - unfold csc_T. destruct EH as [EH|EH]; rewrite EH.
    + unfold csc_parts in EP. destruct (csc_from_parts _ _ _ _ _ _) as [B|]; [|discriminate EP]. injection EP as ->. apply agrees_bind; intros; ends.
    + apply agrees_bind; intros; ends.
  - destruct EH as [EH|EH]; rewrite EH; rew; ends.
Qed.
Lemma scalar_agrees : forall op x v alpha, numpy_arrays x -> small x -> valid x -> holds x v -> provided (NScalar op x alpha) = true ->
  agrees (do_scalar op v alpha) (n_scalar op (the_core x) alpha).
Proof.
  intros op x v alpha N S V H P. opened V S N H; destruct op; try discriminate P; cbn [do_scalar n_scalar the_core]; use; rew;
  unfold py_mul, py_floordiv, py_mod, py_pow; try apply agrees_panic;
  try (destruct (feqb alpha f0); [apply agrees_panic|]); apply agrees_bind; intros; ends.
Qed.
Lemma neg_agrees : forall x v, numpy_arrays x -> small x -> valid x -> holds x v ->
  agrees (do_unary e UNeg v) (n_scalar SMul (the_core x) (fneg f1)).
Proof.
  intros x v N S V H. opened V S N H; cbn [do_unary n_scalar the_core]; use; rew; unfold py_neg, py_mul; try apply agrees_panic; apply agrees_bind; intros; ends.
Qed.
Lemma truediv_agrees : forall x v alpha, numpy_arrays x -> small x -> valid x -> holds x v ->
  agrees (do_scalar SDiv v alpha) (n_scalar SMul (the_core x) (fdiv f1 alpha)).
Proof.
  intros x v alpha N S V H. opened V S N H; cbn [do_scalar n_scalar the_core]; use; rew; unfold py_truediv, py_mul; try apply agrees_panic;
  (destruct (feqb alpha f0); [apply agrees_panic|]); apply agrees_bind; intros; ends.
Qed.
Lemma binary_agrees : forall op x y v w, numpy_arrays x -> small x -> valid x -> holds x v -> numpy_arrays y -> small y -> valid y -> holds y w ->
  provided (NBinary op x y) = true -> agrees (do_binary e op v w) (n_binary e op (the_core x) (the_core y)).
Proof.
  intros op x y v w N S V H N' S' V' H' P.
  destruct x as [nr nc p i d|nr nc p i d|nr nc r c d|sh i d]; destruct y as [nr' nc' p' i' d'|nr' nc' p' i' d'|nr' nc' r' c' d'|sh' i' d']; try (destruct op; discriminate P).
  - destruct (held_csr _ _ _ _ _ _ V S H) as (X & -> & EX & EP & EU & EH). destruct (held_csr _ _ _ _ _ _ V' S' H') as (X' & -> & EX' & EP' & EU' & EH').
    assert (B : csr_both X X' = Ok (mkCs nr nc p i d, mkCs nr' nc' p' i' d')).
    { unfold csr_both. destruct EH as [->| ->]; [|destruct EH' as [->| ->]]; rew; reflexivity. }
    cbn [do_binary the_core n_binary]. unfold csr_both_parts. rewrite B. rew. destruct op; cbn [bind]; apply agrees_bind; intros; ends.
  - destruct (held_csc _ _ _ _ _ _ V S H) as (X & -> & EX & EP & EH). destruct (held_csc _ _ _ _ _ _ V' S' H') as (X' & -> & EX' & EP' & EH').
    assert (B : csc_both X X' = Ok (mkCs nc nr p i d, mkCs nc' nr' p' i' d')).
    { unfold csc_both. destruct EH as [->| ->]; [|destruct EH' as [->| ->]]; rew; reflexivity. }
    cbn [do_binary the_core n_binary]. unfold csc_both_parts. rewrite B. rew. destruct op; try discriminate P; cbn [bind]; apply agrees_bind; intros; ends.
  - destruct (held_nd _ _ _ _ V S N H) as [-> EP]. destruct (held_nd _ _ _ _ V' S' N' H') as [-> EP'].
    destruct op; try discriminate P. cbn [do_binary the_core n_binary]. rew. apply agrees_bind; intros; ends.
Qed.
Lemma spmv_agrees : forall x v b, numpy_arrays x -> small x -> valid x -> holds x v -> provided (NSpmv x b) = true ->
  agrees (do_matmul e v (as_float64 (VArr [length b] b))) (n_spmv e (the_core x) b).
Proof.
  intros x v b N S V H P. pose proof (valid_csmall e FE x S V) as K. opened V S N H; try discriminate P. cbn [do_matmul as_float64 n_spmv the_core].
  rewrite EX. unfold py_matmul. cbn [rev app]. rew. destruct K as (OK & A1 & A2 & A3 & A4). cbn [csr_nrows csr_ncols major minor].
  destruct (_ =? _)%nat; [|apply agrees_panic]. pose proof (spmv_csr_safe NL (e_schv e) (mkCs nr nc p i d) b) as SF.
  unfold ret_vec. destruct (spmv_csr _ _ _) as [out| | |]; cbn [bind arr_new]; try apply agrees_panic; try (intros ? ?; discriminate).
  intros w E. injection E as <-. cbn [attributes].
  assert (L : length out = nr). { apply SF; auto; apply (fair_schv e FE). }
  rewrite L. reflexivity.
Qed.
Lemma spmm_agrees : forall x v r k b, numpy_arrays x -> small x -> valid x -> holds x v -> provided (NSpmm x r k b) = true -> length b = (r * k)%nat ->
  agrees (do_matmul e v (as_float64 (VArr [r; k] b))) (n_spmm (the_core x) r k b).
Proof.
  intros x v r k b N S V H P L. opened V S N H; try discriminate P. cbn [do_matmul as_float64 n_spmm the_core].
  rewrite EX. unfold py_matmul. cbn [rev app]. rew. cbn [csr_nrows csr_ncols major minor].
  destruct (r =? nc)%nat; [|apply agrees_panic]. assert (R : reshape_to [r; k] b = Ok ([r; k], b)).
  { unfold reshape_to. cbn [fold_right]. rewrite L, Nat.mul_1_r, Nat.eqb_refl. reflexivity. }
  rewrite R. cbn [bind]. destruct (spmm_csr _ _ _) as [c| | |]; cbn [bind arr_new]; try (intros ? ?; discriminate).
  unfold reshape_to. destruct (_ =? _)%nat; cbn [bind arr_new]; [|apply agrees_panic]. intros w E. injection E as <-. reflexivity.
Qed.
Lemma tensordot_agrees : forall sh i d v ax bsh bd, let x := RNd sh i d in numpy_arrays x -> small x -> valid x -> holds x v ->
  agrees (do_tensordot e v (VArr bsh bd) (Some ax)) (n_tensordot e (the_core x) ax bd (map Z.of_nat bsh)).
Proof.
  intros sh i d v ax bsh bd x N S V H. subst x. destruct (held_nd _ _ _ _ V S N H) as [-> EP]. cbn [do_tensordot nd_axis n_tensordot the_core].
  destruct (py_get _ _); cbn [bind]; try apply agrees_panic; try (intros ? ?; discriminate).
  destruct (0 <=? ax) eqn:EA; cbn [bind]; [|apply agrees_panic].
  assert (NN : forallb (Z.leb 0) (map Z.of_nat bsh) = true) by (clear; induction bsh as [|n l IH]; cbn; [reflexivity|rewrite IH; destruct n; reflexivity]).
  rewrite NN. destruct bsh as [|n0 rest]; [apply agrees_panic|].
  destruct (get_checked _ _); cbn [bind]; try apply agrees_panic; try (intros ? ?; discriminate).
  match goal with |- agrees (if ?b then _ else _) _ => destruct b; [|apply agrees_panic] end. rew. apply agrees_bind; intros; ends.
Qed.
Lemma vecdot_nd_agrees : forall sh i d v ax b, let x := RNd sh i d in numpy_arrays x -> small x -> valid x -> holds x v -> ax <> -1 ->
  agrees (do_vecdot e v (VArr [length b] b) (Some ax)) (n_vecdot e (the_core x) ax b).
Proof.
  intros sh i d v ax b x N S V H NE. subst x. destruct (held_nd _ _ _ _ V S N H) as [-> EP]. cbn [do_vecdot n_vecdot the_core].
  destruct (ax =? -1) eqn:E1; [lia|]. unfold nd_axis.
  destruct (py_get _ _); cbn [bind]; try apply agrees_panic; try (intros ? ?; discriminate).
  destruct (0 <=? ax) eqn:EA; cbn [bind]; [|apply agrees_panic].
  destruct (get_checked _ _); cbn [bind]; try apply agrees_panic; try (intros ? ?; discriminate).
  match goal with |- agrees (if ?b then _ else _) _ => destruct b; [|apply agrees_panic] end. rew. apply agrees_bind; intros; ends.
Qed.
Lemma agrees_vec : forall (r : res (list F)), agrees (let! v := r in Ok (VArr [length v] v)) (ret_vec VArr r).
Proof. intros r. unfold ret_vec. apply agrees_bind. intros a v E. injection E as <-. reflexivity. Qed.
Lemma vecdot0_agrees : forall x v b, numpy_arrays x -> small x -> valid x -> holds x v ->
  agrees (do_vecdot e v (VArr [length b] b) (Some 0)) (n_vecdot e (the_core x) 0 b).
Proof.
  intros x v b N S V H. destruct x as [nr nc p i d|nr nc p i d|nr nc r c d|sh i d].
  4: apply vecdot_nd_agrees; auto; lia.
  - destruct (held_csr _ _ _ _ _ _ V S H) as (X & -> & EX & EP & EU & EH). cbn [do_vecdot n_vecdot the_core Z.eqb].
    apply agrees_assert. intros _. rew. apply agrees_vec.
  - destruct (held_csc _ _ _ _ _ _ V S H) as (X & -> & EX & EP & EH). cbn [do_vecdot n_vecdot the_core Z.eqb].
    apply agrees_assert. intros _. rew. apply agrees_vec.
  - destruct (held_coo _ _ _ _ _ _ V H) as (X & -> & EX & EP & EH). cbn [do_vecdot n_vecdot the_core Z.eqb].
    apply agrees_assert. intros _. rew. apply agrees_vec.
Qed.

(** ** Reductions *)
Lemma total_arr : forall (r : res F) a b nr nc, agrees (arr_new VArr (reduce_2d r a b nr nc AxNone false)) (ret_one VArr r).
Proof. intros. unfold reduce_2d, ret_one. cbn [norm_axes bind]. destruct r; cbn [bind arr_new]; intros v E; try discriminate E. injection E as <-. reflexivity. Qed.
Lemma total_bools : forall (r : res bool) a b nr nc, agrees (arr_new VBools (reduce_2d r a b nr nc AxNone false)) (ret_one VBools r).
Proof. intros. unfold reduce_2d, ret_one. cbn [norm_axes bind]. destruct r; cbn [bind arr_new]; intros v E; try discriminate E. injection E as <-. reflexivity. Qed.
Lemma rows_arr : forall (t : res F) a r nr nc, agrees (arr_new VArr (reduce_2d t a r nr nc (AxInt 1) false)) (ret_vec VArr r).
Proof. intros. unfold reduce_2d, ret_vec. replace (norm_axes 2 (AxInt 1)) with (Ok (Some [1%nat])) by reflexivity. cbn [bind]. destruct r; cbn [bind arr_new]; intros v E; try discriminate E. injection E as <-. reflexivity. Qed.
Lemma rows_bools : forall (t : res bool) a r nr nc, agrees (arr_new VBools (reduce_2d t a r nr nc (AxInt 1) false)) (ret_vec VBools r).
Proof. intros. unfold reduce_2d, ret_vec. replace (norm_axes 2 (AxInt 1)) with (Ok (Some [1%nat])) by reflexivity. cbn [bind]. destruct r; cbn [bind arr_new]; intros v E; try discriminate E. injection E as <-. reflexivity. Qed.
Lemma cols_arr : forall (t : res F) a r nr nc, agrees (arr_new VArr (reduce_2d t a r nr nc (AxInt 0) false)) (ret_vec VArr a).
Proof. intros. unfold reduce_2d, ret_vec. replace (norm_axes 2 (AxInt 0)) with (Ok (Some [0%nat])) by reflexivity. cbn [bind]. destruct a; cbn [bind arr_new]; intros v E; try discriminate E. injection E as <-. reflexivity. Qed.
Lemma cols_bools : forall (t : res bool) a r nr nc, agrees (arr_new VBools (reduce_2d t a r nr nc (AxInt 0) false)) (ret_vec VBools a).
Proof. intros. unfold reduce_2d, ret_vec. replace (norm_axes 2 (AxInt 0)) with (Ok (Some [0%nat])) by reflexivity. cbn [bind]. destruct a; cbn [bind arr_new]; intros v E; try discriminate E. injection E as <-. reflexivity. Qed.
Ltac red2 := first [apply total_arr | apply total_bools | apply rows_arr | apply rows_bools | apply cols_arr | apply cols_bools].
Lemma total_agrees : forall op x v, numpy_arrays x -> small x -> valid x -> holds x v -> provided (NTotal op x) = true ->
  agrees (do_reduce e op v AxNone false) (n_total e op (the_core x)).
Proof.
  intros op x v N S V H P. opened V S N H; cbn [do_reduce the_core];
  [unfold reduce_csr|unfold reduce_csc|unfold reduce_coo|unfold reduce_coond]; destruct op; try discriminate P; cbn [n_total]; try apply agrees_panic; try (rew; red2).
  - unfold reduce_nd. cbn [norm_axes bind]. rew. unfold ret_one. apply agrees_bind. intros a w E. injection E as <-. reflexivity.
  - unfold reduce_nd. cbn [norm_axes bind]. rew. unfold ret_one. apply agrees_bind. intros a w E. injection E as <-. reflexivity.
Qed.
Lemma rows_agrees : forall op x v, numpy_arrays x -> small x -> valid x -> holds x v -> provided (NRows op x) = true ->
  agrees (do_reduce e op v (AxInt 1) false) (n_rows e op (the_core x)).
Proof.
  intros op x v N S V H P. opened V S N H; try (destruct op; discriminate P); cbn [do_reduce the_core];
  [unfold reduce_csr|unfold reduce_csc|unfold reduce_coo]; destruct op; try discriminate P; cbn [n_rows]; rew; red2.
Qed.
Lemma cols_agrees : forall op x v, numpy_arrays x -> small x -> valid x -> holds x v -> provided (NCols op x) = true ->
  agrees (do_reduce e op v (AxInt 0) false) (n_cols e op (the_core x)).
Proof.
  intros op x v N S V H P. opened V S N H; try (destruct op; discriminate P); cbn [do_reduce the_core];
  [unfold reduce_csr|unfold reduce_csc|unfold reduce_coo]; destruct op; try discriminate P; cbn [n_cols]; rew; red2.
Qed.
Lemma agrees_arr : forall (r : res (list nat * list F)), agrees (arr_new VArr r) (arr_new VArr r).
Proof. intros r v. unfold arr_new. destruct r as [[sh d]| | |]; cbn [bind]; intros E; try discriminate E. injection E as <-. reflexivity. Qed.
Lemma cum_agrees : forall op x v axis, numpy_arrays x -> small x -> valid x -> holds x v -> provided (NCum op x axis) = true -> axis = 0 \/ axis = 1 ->
  agrees (do_cum e op v (AxInt axis)) (n_cum e op axis (the_core x)).
Proof.
  intros op x v axis N S V H P A. unfold do_cum. destruct A as [-> | ->].
  - replace (norm_axes 2 (AxInt 0)) with (Ok (Some [0%nat])) by reflexivity. opened V S N H; try discriminate P; destruct op; cbn [the_core n_cum bind Z.eqb orb]; rew; apply agrees_bind; intros; apply agrees_arr.
  - replace (norm_axes 2 (AxInt 1)) with (Ok (Some [1%nat])) by reflexivity. opened V S N H; try discriminate P; destruct op; cbn [the_core n_cum bind Z.eqb Pos.eqb orb]; rew; apply agrees_bind; intros; apply agrees_arr.
Qed.
Lemma diff_agrees : forall x v n axis, numpy_arrays x -> small x -> valid x -> holds x v -> provided (NDiff x n axis) = true -> axis = 0 \/ axis = 1 ->
  agrees (do_diff e v n axis) (n_diff e n axis (the_core x)).
Proof.
  intros x v n axis N S V H P A. unfold do_diff. destruct A as [-> | ->].
  - opened V S N H; try discriminate P; cbn [the_core n_diff Z.eqb Z.leb Z.compare Pos.compare Pos.compare_cont CompOpp orb andb]; rew; apply agrees_bind; intros; ends.
  - opened V S N H; try discriminate P; cbn [the_core n_diff Z.eqb Z.leb Z.compare Pos.compare Pos.compare_cont CompOpp orb andb]; rew; apply agrees_bind; intros; ends.
Qed.
Lemma nd_op_agrees : forall sh i d v, let x := RNd sh i d in numpy_arrays x -> small x -> valid x -> holds x v ->
  (forall axes, agrees (do_permute v axes) (n_nd e (NdPermute axes) (the_core x))) /\
  (forall s, agrees (do_reshape e v s) (n_nd e (NdReshape s) (the_core x))) /\
  (forall op axes, agrees (do_reduce_axes e op v axes) (n_nd e (NdReduce op axes) (the_core x))) /\
  (forall f rows, agrees (do_unfold e f v rows) (n_nd e (NdUnfold f rows) (the_core x))) /\
  (forall f m, agrees (do_mode e f v (Z.of_nat m)) (n_nd e (NdMode f m) (the_core x))).
Proof.
  intros sh i d v x N S V H. subst x. destruct (held_nd _ _ _ _ V S N H) as [-> EP].
  cbn [do_permute do_reshape do_reduce_axes do_unfold do_mode n_nd the_core]. rew. repeat apply conj; intros.
  - apply agrees_bind. intros q. rew. apply agrees_bind. intros. ends.
  - destruct (forallb _ _); [|apply agrees_panic]. apply agrees_bind. intros. ends.
  - destruct op; (apply agrees_bind; intros q; rew; apply agrees_bind; intros; ends).
  - destruct f; (apply agrees_bind; intros q; rew; apply agrees_bind; intros; ends).
  - replace (0 <=? Z.of_nat m) with true by lia. rewrite Nat2Z.id. destruct f; (apply agrees_bind; intros; ends).
Qed.

Lemma get_ok : forall h a (v : value F), nth_error h a = Some v -> get_checked h a = Ok v.
Proof. intros h a v E. unfold get_checked. rewrite E. reflexivity. Qed.
Theorem counterpart_agrees : forall h f c ck, counterpart h f c -> provided f = true ->
  Forall numpy_arrays (operands f) -> Forall small (operands f) -> Forall valid (operands f) ->
  agrees (exec e h c) (native_call e ck f).
Proof.
  intros h f c ck C P N S V. rewrite native_call_ok by auto. destruct C; cbn [operands] in N, S, V;
  inversion N as [|? ? N1 N2]; inversion S as [|? ? S1 S2]; inversion V as [|? ? V1 V2]; subst;
  repeat match goal with O : object h _ _ |- _ => destruct O as (? & ? & ?) end; cbn [exec on_cores];
  repeat match goal with E : nth_error h _ = Some _ |- _ => rewrite (get_ok _ _ _ E) end; cbn [bind].
  1: apply (unary_agrees NAbs); auto.
  1: apply (unary_agrees NSign); auto.
  1: apply (unary_agrees NTranspose); auto.
  1: apply (unary_agrees (NPrune eps)); auto.
  1: apply (unary_agrees NElim); auto.
  1: apply scalar_agrees; auto.
  1: apply neg_agrees; auto.
  1: apply truediv_agrees; auto.
  1: inversion N2; inversion S2; inversion V2; subst; apply binary_agrees; auto.
  - apply spmv_agrees; auto.
  - apply spmm_agrees; auto.
  - apply tensordot_agrees; auto.
  - apply vecdot_nd_agrees; auto.
  - apply vecdot0_agrees; auto.
  - apply total_agrees; auto.
  - apply rows_agrees; auto.
  - apply cols_agrees; auto.
  - apply cum_agrees; auto.
  - apply diff_agrees; auto.
  - destruct x; try discriminate P. apply nd_op_agrees; auto.
  - destruct x; try discriminate P. apply nd_op_agrees; auto.
  - destruct x; try discriminate P. apply nd_op_agrees; auto.
  - destruct x; try discriminate P. apply nd_op_agrees; auto.
  - destruct x; try discriminate P. apply nd_op_agrees; auto.
Qed.
End Same.
