(** Programs compute what the dense machine of SpecDense computes: cumulative sums,
    differences, reading, comparisons, construction, and whole programs. *)
Require Import List ZArith Bool Arith Lia QArith Qcanon Permutation.
Require Import ZifyBool ZifyNat.
Require Import Verif.Res Verif.Values Verif.Spec Verif.Mem Verif.Lists Verif.CsLib Verif.Laws Verif.Witness Verif.MCore Verif.MConvert Verif.PConvert2 Verif.PConvert3 Verif.PropConvert Verif.PGroup Verif.PropScalar.
Require Import Verif.MReduce Verif.MStat Verif.MCum Verif.SpecReduce Verif.SpecDiff Verif.PStat Verif.PStat2 Verif.PStat3 Verif.PropStat Verif.PCum Verif.PropCum Verif.PropDiff.
Require Import Verif.SpecPy Verif.MPy Verif.PBroadcast Verif.PropPy Verif.PropPy2 Verif.MObj Verif.SpecObj Verif.PObj Verif.SpecDense Verif.PDense Verif.PDense2 Verif.PDense3.
Import ListNotations.
Local Open Scope nat_scope.

(** ** Helpers *)
Lemma coo_at_out : forall (A : Coo qc) i j, coo_ok A -> ~ (i < coo_nrows A /\ j < coo_ncols A) -> coo_at A i j = [].
Proof.
  intros A i j OK N. destruct (coo_at A i j) as [|v l] eqn:E; [reflexivity|exfalso]. apply N. clear N.
  assert (IV : In v (coo_at A i j)) by (rewrite E; left; reflexivity). unfold coo_at in IV. apply in_map_iff in IV. destruct IV as ([k w] & _ & I).
  apply filter_In in I. destruct I as [I M].
  unfold coo_entries in I. cbn [fst snd] in M. apply In_nth_error in I. destruct I as [p I]. apply nth_error_combine in I. destruct I as [I _]. destruct k as [r c].
  apply nth_error_combine in I. destruct I as [I1 I2]. apply (coo_bound_r _ OK) in I1. apply (coo_bound_c _ OK) in I2. cbn [fst snd] in M. lia.
Qed.
Lemma concat_dense : forall {B} m n (g : nat -> nat -> B), concat (dense m n g) = table m n g.
Proof. intros B m n g. unfold dense, table. rewrite flat_map_concat_map. reflexivity. Qed.

Section Env.
Context (e : Env qc) (FE : fair e).

(** ** Cumulative sums and products *)
Definition cum_red (op : cop) : list Qc -> Qc := match op with CumSum => qsum | CumProd => qprod end.
Definition cum0 (op : cop) : Csr qc -> res (list qc) :=
  match op with CumSum => cumsum_axis0 (e_threads e) (e_il e 0) (e_sch e 0) (e_srt e 0) | CumProd => cumprod_axis0 (e_threads e) (e_il e 0) (e_sch e 0) (e_srt e 0) end.
Definition cum1 (op : cop) : Csr qc -> res (list qc) := match op with CumSum => cumsum_axis1 | CumProd => cumprod_axis1 end.
Lemma cum_csr : forall op A m n a, cs_rep A m n a -> alloc_ok m -> alloc_ok (m * n) ->
  cum0 op A = Ok (table m n (fun i j => cum_red op (map (fun i' => a i' j) (seq 0 (S i))))) /\
  cum1 op A = Ok (table m n (fun i j => cum_red op (map (fun j' => a i j') (seq 0 (S j))))).
Proof.
  intros op A m n a (C & E1 & E2 & V) AM AMN. subst m n.
  destruct (C40_exact (e_threads e) (e_il e 0) (e_sch e 0) (e_srt e 0) A (fair_il _ FE 0) (fair_sch _ FE 0) (fair_srt _ FE 0) C AM AMN) as (H1 & H2 & H3 & H4).
  assert (T0 : forall red : list Qc -> Qc, table (major A) (minor A) (fun i j => red (map (fun i' => csr_val f0 A i' j) (seq 0 (S i)))) = table (major A) (minor A) (fun i j => red (map (fun i' => a i' j) (seq 0 (S i))))).
  { intros red. apply table_ext. intros i j Hi Hj. f_equal. apply map_ext_in. intros i' I. apply in_seq in I. apply V; lia. }
  assert (T1 : forall red : list Qc -> Qc, table (major A) (minor A) (fun i j => red (map (fun j' => csr_val f0 A i j') (seq 0 (S j)))) = table (major A) (minor A) (fun i j => red (map (fun j' => a i j') (seq 0 (S j))))).
  { intros red. apply table_ext. intros i j Hi Hj. f_equal. apply map_ext_in. intros j' I. apply in_seq in I. apply V; lia. }
  destruct op; cbn [cum0 cum1 cum_red]; rewrite <- T0, <- T1; split; assumption.
Qed.
Lemma cum_csc : forall op A m n a, cs_rep A n m (fun j i => a i j) -> alloc_ok m -> alloc_ok n -> alloc_ok (m * n) ->
  via_csc (e_il e 1) (e_sch e 1) (cum0 op) A = Ok (table m n (fun i j => cum_red op (map (fun i' => a i' j) (seq 0 (S i))))).
Proof.
  intros op A m n a R AM AN AMN. pose proof (cr_csc _ _ _ _ R) as CR. destruct R as (C & E1 & E2 & V). subst m n.
  destruct (C04_csc_to_csr_preserves_cells _ (e_il e 1) (e_sch e 1) A (fair_il _ FE 1) (fair_sch _ FE 1) (can_ok _ C) AN) as (B & E & OR & M1 & M2 & LD & AT).
  assert (D : distinct B).
  { apply distinct_cells; auto. intros i j Hi Hj. fold (csr_at B i j). change (major B) with (csr_nrows B) in Hi. change (minor B) with (csr_ncols B) in Hj.
    rewrite AT by lia. unfold csc_at. apply (canonical_single A C). unfold csc_ncols in *. lia. }
  unfold via_csc. rewrite E. cbn [bind]. pose proof (n_zero _ qc_laws) as ZZ.
  assert (A0' : alloc_ok (csr_nrows B)) by (rewrite M1; auto). assert (A2' : alloc_ok (csr_nrows B * csr_ncols B)) by (rewrite M1, M2; auto).
  destruct op; cbn [cum0 cum_red].
  - destruct (cumsum_axis0_ok ZZ (e_threads e) (e_il e 0) (e_sch e 0) (e_srt e 0) B (fair_il _ FE 0) (fair_sch _ FE 0) (fair_srt _ FE 0) D A0' A2') as (y & -> & L & H).
    rewrite M1, M2 in *. f_equal. apply (table_intro _ _ _ 0q); auto. intros i j Hi Hj. etransitivity; [exact (qsum_cells _ _ _ (H i j Hi Hj))|]. f_equal. apply map_ext_in. intros i' I. apply in_seq in I.
    unfold transposed. rewrite AT by (unfold csc_nrows, csc_ncols in *; lia). apply (cr_sum _ _ _ _ CR); unfold csc_nrows, csc_ncols in *; lia.
  - destruct (cumprod_axis0_ok ZZ (e_threads e) (e_il e 0) (e_sch e 0) (e_srt e 0) B (fair_il _ FE 0) (fair_sch _ FE 0) (fair_srt _ FE 0) D A0' A2') as (y & -> & L & H).
    rewrite M1, M2 in *. f_equal. apply (table_intro _ _ _ 0q); auto. intros i j Hi Hj. etransitivity; [exact (prod_spec_exact _ _ _ (H i j Hi Hj))|]. f_equal. apply map_ext_in. intros i' I. apply in_seq in I.
    unfold transposed. rewrite AT by (unfold csc_nrows, csc_ncols in *; lia). apply CR; unfold csc_nrows, csc_ncols in *; lia.
Qed.
Lemma cum_result : forall m n f, done (arr_new VArr (reshape_to [m; n] (table m n f : list qc))) (DArr [m; n] (table m n f)).
Proof.
  intros m n f. unfold reshape_to. rewrite table_length. cbn [fold_right]. rewrite Nat.mul_1_r, Nat.eqb_refl. cbn [bind arr_new]. apply done_arr. rewrite table_length. cbn. lia.
Qed.
Lemma axis0_norm : forall ax, is_axis0 ax = true -> norm_axes 2 (AxInt ax) = Ok (Some [0]).
Proof. intros ax H. unfold is_axis0 in H. assert (H' : ax = 0%Z \/ ax = (-2)%Z) by lia. destruct H' as [-> | ->]; reflexivity. Qed.
Lemma axis1_norm : forall ax, is_axis1 ax = true -> norm_axes 2 (AxInt ax) = Ok (Some [1]).
Proof. intros ax H. unfold is_axis1 in H. assert (H' : ax = 1%Z \/ ax = (-1)%Z) by lia. destruct H' as [-> | ->]; reflexivity. Qed.
Lemma cum_rep : forall op x X ax Y, held x X -> dense_cum op X ax = Some Y -> done (do_cum e op x ax) Y.
Proof.
  intros op x X ax Y H D. unfold dense_cum in D. fold (cum_red op) in D. destruct X as [k m n a| | |]; try discriminate D. destruct ax as [|ax|]; try discriminate D.
  unfold do_cum. fold (cum0 op). fold (cum1 op).
  destruct (is_axis0 ax) eqn:A0.
  - injection D as <-. rewrite (axis0_norm _ A0). cbn [bind]. destruct k; destruct x as [x|x|x| | | |]; try (exfalso; exact (proj1 H)).
    + open_csr H. rewrite P. cbn [bind]. rewrite (proj1 (cum_csr op _ _ _ _ R AM AMN)). cbn [bind]. destruct R as (_ & E1 & E2 & _). unfold csr_nrows, csr_ncols. rewrite E1, E2. apply cum_result.
    + open_csc H. rewrite P. cbn [bind]. rewrite Nat.mul_comm in AMN. rewrite (cum_csc op _ _ _ _ R AM AN AMN). cbn [bind]. destruct R as (_ & E1 & E2 & _). unfold csc_nrows, csc_ncols. rewrite E1, E2. apply cum_result.
    + open_coo H. rewrite P. cbn [bind]. unfold via_coo. destruct (coo_to_csr_rep e FE _ _ _ _ R) as (B & E & RB). rewrite E. cbn [bind].
      rewrite (proj1 (cum_csr op _ _ _ _ RB AM AMN)). cbn [bind]. destruct R as (_ & _ & E1 & E2 & _). rewrite E1, E2. apply cum_result.
  - destruct (is_axis1 ax && negb (same_kind k KCsc)) eqn:A1; [|discriminate D]. injection D as <-. apply andb_true_iff in A1. destruct A1 as [A1 K].
    rewrite (axis1_norm _ A1). cbn [bind]. destruct k; destruct x as [x|x|x| | | |]; try (exfalso; exact (proj1 H)); try discriminate K.
    + open_csr H. rewrite P. cbn [bind]. rewrite (proj2 (cum_csr op _ _ _ _ R AM AMN)). cbn [bind]. destruct R as (_ & E1 & E2 & _). unfold csr_nrows, csr_ncols. rewrite E1, E2. apply cum_result.
    + open_coo H. rewrite P. cbn [bind]. unfold via_coo. destruct (coo_to_csr_rep e FE _ _ _ _ R) as (B & E & RB). rewrite E. cbn [bind].
      rewrite (proj2 (cum_csr op _ _ _ _ RB AM AMN)). cbn [bind]. destruct R as (_ & _ & E1 & E2 & _). rewrite E1, E2. apply cum_result.
Qed.

(** ** Differences *)
Lemma iter_delta_ext : forall t (f g : nat -> Qc) j n, (forall k, k < n -> f k = g k) -> j < n - t -> Nat.iter t qdelta f j = Nat.iter t qdelta g j.
Proof.
  induction t as [|t IH]; intros f g j n H Hj; [apply H; lia|]. change (qdelta (Nat.iter t qdelta f) j = qdelta (Nat.iter t qdelta g) j). unfold qdelta at 1 3. rewrite (IH f g (S j) n), (IH f g j n); auto; lia.
Qed.
Lemma diff_csr : forall A m n a t, cs_rep A m n a -> alloc_ok m -> alloc_ok n ->
  (exists B, diff_csr_axis0 (e_threads e) (e_il e 0) (e_sch e 0) (e_srt e 0) (e_sch e 1) (e_srt e 1) (e_sch e 2) (e_srt e 2) A t = Ok B /\
     cs_rep B (m - t) n (fun i j => Nat.iter t qdelta (fun i' => a i' j) i)) /\
  (exists B, diff_csr_axis1 (e_sch e 1) (e_srt e 1) A t = Ok B /\ cs_rep B m (n - t) (fun i j => Nat.iter t qdelta (a i) j)).
Proof.
  intros A m n a t (C & E1 & E2 & V) AM AN. subst m n.
  destruct (C41_exact (e_threads e) (e_il e 0) (e_sch e 0) (e_srt e 0) (e_sch e 1) (e_srt e 1) (e_sch e 2) (e_srt e 2) A t
     (fair_il _ FE 0) (fair_sch _ FE 0) (fair_srt _ FE 0) (fair_sch _ FE 1) (fair_srt _ FE 1) (fair_sch _ FE 2) (fair_srt _ FE 2) C AM AN) as (B1 & B0 & H1 & H0 & C1 & C0 & M1 & N1 & M0 & N0 & V1 & V0).
  unfold csr_nrows, csr_ncols in *. split.
  - exists B0. split; [exact H0|]. split; [exact C0|]. split; [exact M0|]. split; [exact N0|]. intros i j Hi Hj. rewrite V0 by congruence.
    apply (iter_delta_ext t _ _ i (major A)); auto.
  - exists B1. split; [exact H1|]. split; [exact C1|]. split; [exact M1|]. split; [exact N1|]. intros i j Hi Hj. rewrite V1 by congruence.
    apply (iter_delta_ext t _ _ j (minor A)); auto.
Qed.
Lemma csr_to_coo_rep : forall A m n a, cs_rep A m n a -> alloc_ok m -> exists B, csr_to_coo (e_schc e) A = Ok B /\ coo_rep B m n a.
Proof.
  intros A m n a (C & E1 & E2 & V) AM. subst m n. destruct (C06_csr_to_coo _ (e_schc e) A (fair_schc _ FE) (can_ok _ C) AM) as (B & E & OB & M & N & _ & _ & AT).
  unfold csr_nrows, csr_ncols in *. exists B. split; [exact E|]. split; [exact OB|]. split.
  - intros i j. destruct (lt_dec i (major A)) as [Hi|Hi]; [destruct (lt_dec j (minor A)) as [Hj|Hj]|].
    + rewrite AT by auto. apply (canonical_single A C). exact Hi.
    + rewrite coo_at_out; [simpl; lia|exact OB|rewrite M, N; lia].
    + rewrite coo_at_out; [simpl; lia|exact OB|rewrite M, N; lia].
  - split; [exact M|]. split; [exact N|]. intros i j Hi Hj. rewrite AT by auto. apply V; auto.
Qed.
Lemma diff_rep : forall x X t ax Y, held x X -> dense_diff X t ax = Some Y -> done (do_diff e x t ax) Y.
Proof.
  intros x X t ax Y H D. unfold dense_diff in D. destruct X as [k m n a| | |]; try discriminate D. destruct (same_kind k KCsc) eqn:K; [discriminate D|].
  assert (EA : (-2 <=? ax)%Z && (ax <=? 1)%Z = true) by (unfold is_axis0, is_axis1 in D; destruct (ax =? 0)%Z eqn:?; destruct (ax =? -2)%Z eqn:?; destruct (ax =? 1)%Z eqn:?; destruct (ax =? -1)%Z eqn:?; try discriminate D; lia).
  unfold do_diff. rewrite EA. cbn [bind]. fold (is_axis0 ax).
  destruct k; destruct x as [x|x|x| | | |]; try (exfalso; exact (proj1 H)); try discriminate K.
  - open_csr H. rewrite P. cbn [bind]. destruct (diff_csr _ _ _ _ t R AM AN) as [(B0 & D0 & R0) (B1 & D1 & R1)].
    destruct (is_axis0 ax).
    + injection D as <-. rewrite D0. cbn [bind]. apply csr_new_rep. auto.
    + destruct (is_axis1 ax); [|discriminate D]. injection D as <-. rewrite D1. cbn [bind]. apply csr_new_rep. auto.
  - open_coo H. rewrite P. cbn [bind]. destruct (coo_to_csr_rep e FE _ _ _ _ R) as (C & E & RC). destruct (diff_csr _ _ _ _ t RC AM AN) as [(B0 & D0 & R0) (B1 & D1 & R1)].
    unfold diff_coo_axis0, diff_coo_axis1. rewrite E. cbn [bind]. destruct (is_axis0 ax).
    + injection D as <-. rewrite D0. cbn [bind]. destruct (csr_to_coo_rep _ _ _ _ R0) as (Z0 & EZ & RZ); [unfold alloc_ok in *; lia|]. rewrite EZ. cbn [bind]. apply coo_new_rep. exact RZ.
    + destruct (is_axis1 ax); [|discriminate D]. injection D as <-. rewrite D1. cbn [bind]. destruct (csr_to_coo_rep _ _ _ _ R1 AM) as (Z0 & EZ & RZ). rewrite EZ. cbn [bind]. apply coo_new_rep. exact RZ.
Qed.

(** ** Reading and comparing *)
Context (SS : is_searchsorted (e_search e)).
Lemma getitem_rep : forall x X i j Y, held x X -> dense_getitem X i j = Some Y -> done (do_getitem e x i j) Y.
Proof.
  intros x X i j Y H D. destruct X as [k m n a| | |]; try discriminate D. destruct k; try discriminate D. destruct x as [x|x|x| | | |]; try (exfalso; exact (proj1 H)).
  cbn [dense_getitem] in D. destruct (within i m && within j n) eqn:W; [|discriminate D]. injection D as <-. open_csr H. destruct R as (C & E1 & E2 & V). unfold within in W.
  cbn [do_getitem]. rewrite (proj1 (C44_getitem qc (e_search e) (py_arrays x) i j SS C)) by (unfold csr_nrows, csr_ncols; lia). cbn [bind]. rewrite V by lia. apply done_arr. reflexivity.
Qed.
Lemma getrow_rep : forall x X i Y, held x X -> dense_getrow X i = Some Y -> done (do_getrow x i) Y.
Proof.
  intros x X i Y H D. destruct X as [k m n a| | |]; try discriminate D. destruct k; try discriminate D. destruct x as [x|x|x| | | |]; try (exfalso; exact (proj1 H)).
  cbn [dense_getrow] in D. destruct (within i m) eqn:W; [|discriminate D]. injection D as <-. open_csr H. destruct R as (C & E1 & E2 & V). unfold within in W.
  cbn [do_getrow]. rewrite (C44_getrow_partial qc (py_arrays x) i C) by (unfold csr_nrows, csr_ncols; lia). cbn [bind]. unfold csr_ncols. rewrite E2, map_length, seq_length.
  rewrite (map_seq_ext _ (a (Z.to_nat i))) by (intros j Hj; apply V; auto; lia). apply done_arr. rewrite map_length, seq_length. cbn. lia.
Qed.
Lemma getcol_rep : forall x X j Y, held x X -> dense_getcol X j = Some Y -> done (do_getcol e x j) Y.
Proof.
  intros x X j Y H D. destruct X as [k m n a| | |]; try discriminate D. destruct k; try discriminate D. destruct x as [x|x|x| | | |]; try (exfalso; exact (proj1 H)).
  cbn [dense_getcol] in D. destruct (within j n) eqn:W; [|discriminate D]. injection D as <-. open_csr H. destruct R as (C & E1 & E2 & V). unfold within in W.
  cbn [do_getcol]. rewrite (C44_getcol_partial qc (e_search e) (py_arrays x) j SS C) by (unfold csr_nrows, csr_ncols; lia). cbn [bind]. unfold csr_nrows. rewrite E1, map_length, seq_length.
  rewrite (map_seq_ext _ (fun i => a i (Z.to_nat j))) by (intros i Hi; apply V; auto; lia). apply done_arr. rewrite map_length, seq_length. cbn. lia.
Qed.
Lemma densify_rep : forall x X sh d, held x X -> dense_cells X = Some (sh, d) -> densify x = Ok (sh, d) /\ length d = fold_right Nat.mul 1 sh.
Proof.
  intros x X sh d H D. destruct X as [k m n a|sh' d'| |sh' a]; try discriminate D.
  - injection D as <- <-. split; [|rewrite table_length; cbn; lia]. destruct k; destruct x as [x|x|x| | | |]; try (exfalso; exact (proj1 H)); cbn [densify as_float64].
    + open_csr H. destruct R as (C & E1 & E2 & V). rewrite (proj1 (C44_toarray qc) _ C). cbn [bind]. unfold csr_nrows, csr_ncols. rewrite E1, E2, concat_dense. do 2 f_equal. apply table_ext. exact V.
    + open_csc H. destruct R as (C & E1 & E2 & V). rewrite (proj2 (C44_toarray qc) _ C). cbn [bind]. unfold csc_nrows, csc_ncols. rewrite E1, E2, concat_dense. do 2 f_equal. apply table_ext. intros i j Hi Hj. apply (V j i); auto.
    + open_coo H. pose proof (cr_coo _ _ _ _ R) as CR. destruct R as (C & SV & E1 & E2 & V). rewrite (C44_toarray_coo qc _ C). cbn [bind]. rewrite E1, E2, concat_dense. do 2 f_equal. apply table_ext.
      intros i j Hi Hj. destruct (CR i j Hi Hj) as [L <-]. destruct (coo_at (pyc_arrays x) i j) as [|v [|w l]]; [reflexivity| |simpl in L; lia]. apply Qcplus_0_l.
  - injection D as <- <-. destruct x as [x|x|x| |sh d| |]; try (exfalso; exact (proj1 H)). destruct H as [(-> & -> & L) _]. split; [reflexivity|exact L].
  - injection D as <- <-. destruct x as [| | |x| | |]; try (exfalso; exact (proj1 H)). destruct H as [(OK & SV & <- & NN & V) FT]. cbn [densify as_float64].
    rewrite PPy2.nd_toarray_ok by assumption. cbn [bind]. split.
    + do 2 f_equal. apply map_ext_in. intros k I. rewrite <- V by (apply keys_in_shape with (1 := NN) (2 := FT); exact I).
      specialize (SV k). destruct (nd_at x k) as [|v [|w l]]; [reflexivity| |simpl in SV; lia]. apply Qcplus_0_l.
    + rewrite map_length. apply Nat2Z.inj. rewrite PGroup.all_keys_length by assumption. clear - NN. induction NN as [|n l Hn NN IH]; [reflexivity|]. cbn [map fold_right]. rewrite Nat2Z.inj_mul, <- IH, Z2Nat.id by assumption. reflexivity.
Qed.
Lemma toarray_rep : forall x X Y, held x X -> dense_toarray X = Some Y -> done (do_toarray x) Y.
Proof.
  intros x X Y H D. destruct X as [k m n a| | |]; try discriminate D. injection D as <-.
  destruct (densify_rep x _ [m; n] (table m n a) H eq_refl) as [E L].
  destruct k; destruct x as [x|x|x| | | |]; try (exfalso; exact (proj1 H)); cbn [do_toarray]; rewrite E; apply done_arr; exact L.
Qed.
Lemma qcompare_ok : forall c x y, cmp_fun (F := qc) c x y = qcompare c x y.
Proof.
  intros c x y. destruct c; try reflexivity. cbn [cmp_fun qcompare]. f_equal. change (feqb (y : qc) (x : qc)) with (qc_eqb y x).
  destruct (qc_eqb x y) eqn:E1; destruct (qc_eqb y x) eqn:E2; auto.
  - apply qc_eqb_iff in E1. subst. rewrite (proj2 (qc_eqb_iff y y) eq_refl) in E2. discriminate.
  - apply qc_eqb_iff in E2. subst. rewrite (proj2 (qc_eqb_iff x x) eq_refl) in E1. discriminate.
Qed.
Lemma compare_rep : forall c x y X Y O, held x X -> held y Y -> dense_compare c X Y = Some O -> done (do_compare c x y) O.
Proof.
  intros c x y X Y O HX HY D. unfold dense_compare in D.
  assert (NA : match X, Y with DArr _ _, DArr _ _ => false | _, _ => true end = true) by (destruct X, Y; auto; discriminate D).
  assert (D2 : match dense_cells X, dense_cells Y with
    | Some (sx, dx), Some (sy, dy) => if list_eq_dec Nat.eq_dec sx sy then Some (DBools sx (map (fun ab => qcompare c (fst ab) (snd ab)) (combine dx dy))) else None
    | _, _ => None end = Some O) by (destruct X, Y; try exact D; discriminate NA). clear D.
  destruct (dense_cells X) as [[sx dx]|] eqn:EX; [|discriminate D2]. destruct (dense_cells Y) as [[sy dy]|] eqn:EY; [|discriminate D2].
  destruct (densify_rep _ _ _ _ HX EX) as [F1 L1]. destruct (densify_rep _ _ _ _ HY EY) as [F2 L2].
  assert (NA2 : sparse x || sparse y = true).
  { destruct x; try reflexivity; destruct y; try reflexivity; destruct X as [k ? ? ?|? ?|? ?|? ?]; try discriminate EX; try (destruct k); try (exfalso; exact (proj1 HX));
      destruct Y as [k ? ? ?|? ?|? ?|? ?]; try discriminate EY; try (destruct k); try (exfalso; exact (proj1 HY)); discriminate NA. }
  unfold do_compare. rewrite NA2, F1, F2. cbn [bind]. destruct (list_eq_dec Nat.eq_dec sx sy) as [ES|]; [|discriminate D2]. injection D2 as <-. subst sy.
  match goal with |- done (arr_new _ ?t) _ => replace t with (Ok (sx, map (fun ab => cmp_fun (F := qc) c (fst ab) (snd ab)) (combine dx dy))) by (symmetry; exact (np_compare_same (F := qc) c sx dx dy L1 L2)) end.
  cbn [bind arr_new]. eexists. split; [reflexivity|]. intros _. split; [reflexivity|]. apply map_ext. intros [u v]. apply qcompare_ok.
Qed.
End Env.
