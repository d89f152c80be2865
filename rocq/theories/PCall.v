(** Programs that pass sorted arrays without duplicates only ever hold such objects. *)
Require Import List ZArith Bool Arith Lia Permutation Sorted.
Require Import ZifyBool ZifyNat.
Require Import Verif.Res Verif.Values Verif.Spec Verif.Mem Verif.Lists Verif.CsLib Verif.Laws Verif.NdLib Verif.MCore Verif.PCore Verif.MElementwise Verif.PElementwise2 Verif.MConvert Verif.PConvert Verif.PConvert2 Verif.PConvert3 Verif.PTrans Verif.MScalar Verif.PScalar.
Require Import Verif.PropConvert Verif.PGroup Verif.PropScalar Verif.SpecReduce Verif.SpecDiff Verif.MCum Verif.PropDiff Verif.SpecPy Verif.MNd Verif.MNd2 Verif.PNd Verif.PNd2 Verif.PNd3 Verif.PropNd Verif.PropNd2 Verif.MPy Verif.PPy2 Verif.PropPy2 Verif.MObj Verif.SpecObj Verif.PSafe Verif.PSafe3 Verif.PObj Verif.PDense Verif.PropClosure Verif.SpecCall.
Import ListNotations.
Local Open Scope Z_scope.

(** ** At most one entry per coordinate *)
Lemma single_NoDup : forall {V} (l : list (list Z * V)), (forall k, (length (at_key k l) <= 1)%nat) <-> NoDup (map fst l).
Proof.
  intros V. induction l as [|[k0 v] l IH]; [split; [constructor|cbn; lia]|].
  cbn [map fst]. split.
  - intros H. constructor.
    + intros I. apply in_map_iff in I. destruct I as ([k1 v1] & E & I). cbn [fst] in E. subst k1. specialize (H k0).
      rewrite at_key_cons in H. destruct (list_eq_dec Z.eq_dec k0 k0) as [e0|N]; [|exfalso; apply N; reflexivity]. cbn [length] in H.
      assert (G : at_key k0 l = []) by (destruct (at_key k0 l); [auto|cbn in H; lia]).
      unfold at_key in G. apply map_eq_nil in G. assert (J : In (k0, v1) []) by (rewrite <- G; apply filter_In; split; [exact I|cbn [fst]; destruct (list_eq_dec Z.eq_dec k0 k0) as [e1|N1]; [reflexivity|exfalso; apply N1; reflexivity]]).
      destruct J.
    + apply IH. intros k. specialize (H k). rewrite at_key_cons in H. destruct (list_eq_dec Z.eq_dec k0 k); cbn [length] in H; lia.
  - intros H. inversion H as [|? ? NI ND]; subst. intros k. rewrite at_key_cons. destruct (list_eq_dec Z.eq_dec k0 k) as [->|N]; [|apply IH; auto].
    cbn [length]. assert (G : at_key k l = []); [|rewrite G; cbn; lia].
    unfold at_key. destruct (filter _ l) as [|[k1 v1] l'] eqn:E; [reflexivity|]. exfalso.
    assert (I : In (k1, v1) (filter (fun e => if list_eq_dec Z.eq_dec (fst e) k then true else false) l)) by (rewrite E; left; auto).
    apply filter_In in I. destruct I as [I E1]. cbn [fst] in E1. destruct (list_eq_dec Z.eq_dec k1 k); [|discriminate]. subst k1.
    apply NI. apply in_map_iff. exists (k, v1). auto.
Qed.
Lemma single_keys : forall {V} (A : Nd V), single_valued_nd A <-> NoDup (nd_keys A).
Proof. intros V A. unfold single_valued_nd, nd_at. rewrite single_NoDup, nd_entries_keys. reflexivity. Qed.
Lemma NoDup_map_on : forall {A B} (f : A -> B) l, (forall x y, In x l -> In y l -> f x = f y -> x = y) -> NoDup l -> NoDup (map f l).
Proof.
  intros A B f l I H. induction H as [|x l NI ND IH]; cbn [map]; constructor.
  - intros J. apply in_map_iff in J. destruct J as (y & E & J). apply NI. rewrite (I x y); cbn; auto.
  - apply IH. intros a b Ha Hb. apply I; right; auto.
Qed.

Section Call.
Context {F : Fl}.

Definition sparse_ok (v : value F) : Prop :=
  match v with VCsr _ | VCsc _ | VCoo _ | VNd _ => regular v | _ => True end.
Definition keeps (r : res (value F)) : Prop := forall v, r = Ok v -> fits v = true -> sparse_ok v.

Lemma keeps_panic : keeps Panic. Proof. intros v E. discriminate. Qed.
Lemma keeps_bind : forall {A} (r : res A) f, (forall a, r = Ok a -> keeps (f a)) -> keeps (bind r f).
Proof. intros A [a| | |] f H v E; try discriminate E. apply (H a eq_refl). exact E. Qed.
Lemma keeps_assert : forall (b : bool) (r : res (value F)), (b = true -> keeps r) -> keeps (if b then r else Panic).
Proof. intros [] r H; [apply H; auto|apply keeps_panic]. Qed.
Lemma keeps_arr : forall r, keeps (arr_new (VArr (F := F)) r).
Proof. intros r. unfold arr_new. apply keeps_bind. intros [sh d] _ v E _. injection E as <-. exact I. Qed.
Lemma keeps_bools : forall r, keeps (arr_new (VBools (F := F)) r).
Proof. intros r. unfold arr_new. apply keeps_bind. intros [sh d] _ v E _. injection E as <-. exact I. Qed.
Lemma keeps_ints : forall r, keeps (arr_new (VInts (F := F)) r).
Proof. intros r. unfold arr_new. apply keeps_bind. intros [sh d] _ v E _. injection E as <-. exact I. Qed.
Lemma keeps_ok_arr : forall sh d, keeps (Ok (VArr (F := F) sh d)).
Proof. intros sh d v E _. injection E as <-. exact I. Qed.

(** ** Building objects *)
Lemma csr_new_keeps : forall B : Cs F, (alloc_ok (major B) -> canonical B) -> keeps (csr_new B).
Proof.
  intros B C v E FT. unfold csr_new, csr_init in E. cbn [bind] in E. injection E as <-. apply fits_cs in FT. destruct FT as (AL & _).
  cbn [py_arrays] in AL. unfold csr_nrows, csr_ncols in *. cbn [major] in AL. specialize (C AL).
  cbn [sparse_ok regular py_arrays py_handle]. rewrite cs_eta. split; [exact C|]. apply from_parts_ok; [apply C|exact AL].
Qed.
Lemma csc_new_keeps : forall B : Cs F, (alloc_ok (major B) -> canonical B) -> keeps (csc_new B).
Proof.
  intros B C v E FT. unfold csc_new, csc_init in E. cbn [bind] in E. injection E as <-. apply (fits_cs (mkPyCs _ _)) in FT. destruct FT as (AL & _).
  cbn [py_arrays] in AL. unfold csc_nrows, csc_ncols in *. cbn [major] in AL. specialize (C AL).
  cbn [sparse_ok regular py_arrays py_handle]. rewrite cs_eta. split; [exact C|]. apply from_parts_ok; [apply C|exact AL].
Qed.
Definition coo_reg (B : Coo F) : Prop := coo_ok B /\ single_valued (coo_at B).
Lemma coo_new_keeps : forall B : Coo F, coo_reg B -> keeps (coo_new B).
Proof.
  intros B [OK SV] v E _. unfold coo_new, coo_init in E. rewrite coo_from_parts_ok in E by auto. cbn [bind] in E. injection E as <-.
  cbn [sparse_ok regular pyc_arrays pyc_handle]. rewrite coo_eta. auto.
Qed.
(** a result without dimensions is refused by the constructor *)
Definition nd_reg (B : Nd F) : Prop := nd_shape B <> [] -> nd_ok B /\ single_valued_nd B.
Lemma nd_eta : forall B : Nd F, mkNd (nd_shape B) (nd_idx B) (nd_dat B) = B. Proof. intros []; reflexivity. Qed.
Lemma nd_new_keeps : forall B : Nd F, nd_reg B -> keeps (nd_new B).
Proof.
  intros B R. unfold nd_new. apply keeps_assert. intros _. unfold nd_init. destruct (Nat.eqb_spec (length (nd_shape B)) 0) as [E|E]; [apply keeps_panic|].
  destruct (negb _); [apply keeps_panic|]. intros v EV _. cbn [bind] in EV. injection EV as <-. rewrite nd_eta. apply R. intros Q. rewrite Q in E. auto.
Qed.

(** ** Using objects *)
Definition held (v : value F) : Prop := regular v /\ fits v = true.
Lemma csr_held : forall X, held (VCsr X) -> canonical (py_arrays X) /\ csr_use X = Ok (py_arrays X) /\ csr_parts X = Ok (py_arrays X) /\
  csc_use X = Ok (py_arrays X) /\ csc_parts X = Ok (py_arrays X) /\ py_handle X = Some (py_arrays X) /\
  alloc_ok (major (py_arrays X)) /\ alloc_ok (minor (py_arrays X)) /\ alloc_ok (major (py_arrays X) * minor (py_arrays X)) /\ alloc_ok (length (dat (py_arrays X))).
Proof.
  intros X [[C H] FT]. split; auto. unfold csr_use, csc_use. rewrite H. split; auto. split; [apply csr_parts_ok; auto|]. split; auto.
  split; [apply csc_parts_ok; auto|]. split; auto. apply fits_cs. exact FT.
Qed.
Lemma csc_held : forall X, held (VCsc X) -> canonical (py_arrays X) /\ csr_use X = Ok (py_arrays X) /\ csr_parts X = Ok (py_arrays X) /\
  csc_use X = Ok (py_arrays X) /\ csc_parts X = Ok (py_arrays X) /\ py_handle X = Some (py_arrays X) /\
  alloc_ok (major (py_arrays X)) /\ alloc_ok (minor (py_arrays X)) /\ alloc_ok (major (py_arrays X) * minor (py_arrays X)) /\ alloc_ok (length (dat (py_arrays X))).
Proof. intros X H. apply csr_held. exact H. Qed.
Lemma coo_held : forall X, held (VCoo X) -> coo_reg (pyc_arrays X) /\ coo_use X = Ok (pyc_arrays X) /\ coo_parts X = Ok (pyc_arrays X) /\ pyc_handle X = Some (pyc_arrays X) /\
  alloc_ok (coo_nrows (pyc_arrays X)) /\ alloc_ok (coo_ncols (pyc_arrays X)) /\ alloc_ok (coo_nrows (pyc_arrays X) * coo_ncols (pyc_arrays X)) /\ alloc_ok (length (coo_data (pyc_arrays X))).
Proof.
  intros X [(OK & SV & H) FT]. split; [split; auto|]. unfold coo_use. rewrite H. split; auto. split; [apply coo_parts_ok; auto|]. split; auto. apply fits_coo; auto.
Qed.
Lemma nd_held : forall A, held (VNd A) -> nd_ok A /\ single_valued_nd A /\ nd_parts A = (if forallb (Z.leb 0) (nd_shape A) then Ok A else Panic) /\
  (forallb (Z.leb 0) (nd_shape A) = true -> nd_small A).
Proof.
  intros A [[OK SV] FT]. split; auto. split; auto.
  assert (SM : forallb (Z.leb 0) (nd_shape A) = true -> nd_small A).
  { intros NN. cbn [fits] in FT. split; [|lia]. rewrite forallb_forall in NN. apply Forall_forall. intros n Hn. apply NN in Hn. lia. }
  split; auto. unfold nd_parts. destruct (forallb _ _) eqn:NN; [|reflexivity]. specialize (SM eq_refl). destruct SM as [N1 _].
  unfold nd_from_parts. destruct (Nat.eqb_spec (length (nd_shape A)) 0) as [E|E].
  { apply length_zero_iff_nil in E. exfalso. apply (nd_ndim _ OK E). }
  assert (L := nd_len _ OK). cbn [fits] in FT. apply andb_true_iff in FT. destruct FT as [_ FT].
  destruct (Nat.eqb_spec (length (nd_dat A)) 0) as [E1|E1]; destruct (Nat.eqb_spec (length (nd_idx A)) 0) as [E2|E2]; cbn [andb negb];
    try (exfalso; rewrite E1 in L; cbn in L; lia);
    (destruct (Z.leb_spec (Z.of_nat (length (nd_dat A)) * Z.of_nat (length (nd_shape A))) usize_max) as [E3|E3]; cbn [negb];
      [|exfalso; clear - FT L E3; unfold i64_max, usize_max in *; nia]);
    rewrite L, Nat.eqb_refl; cbn [negb bind]; rewrite nd_eta; reflexivity.
Qed.

(** ** Operations on the stored values *)
Definition maps (g : list F -> res (list F)) (f : F -> F) : Prop := forall l, g l = Ok (map f l).
Lemma maps_mul : forall alpha, maps (mul_scalar_data alpha) (times alpha). Proof. intros alpha l. apply mul_scalar_data_ok. Qed.
Lemma maps_abs : maps abs_data fabs. Proof. intros l. apply abs_data_ok. Qed.
Lemma maps_par : forall f, maps (par_map f) f. Proof. intros f l. apply par_map_ok. Qed.
Lemma cs_with_maps : forall g f (A : Cs F), maps g f -> cs_with g A = Ok (with_values f A).
Proof. intros g f A H. unfold cs_with. rewrite H. reflexivity. Qed.
Lemma coo_with_maps : forall g f (A : Coo F), maps g f -> coo_with g A = Ok (coo_with_values f A).
Proof. intros g f A H. unfold coo_with. rewrite H. reflexivity. Qed.
Definition nd_values (f : F -> F) (A : Nd F) : Nd F := mkNd (nd_shape A) (nd_idx A) (map f (nd_dat A)).
Lemma nd_with_maps : forall g f (A : Nd F), maps g f -> nd_with g A = Ok (nd_values f A).
Proof. intros g f A H. unfold nd_with. rewrite H. reflexivity. Qed.
Lemma coo_with_reg : forall f (A : Coo F), coo_reg A -> coo_reg (coo_with_values f A).
Proof.
  intros f A [OK SV]. split.
  - destruct OK. constructor; cbn [coo_with_values coo_row coo_col coo_data coo_nrows coo_ncols]; rewrite ?map_length; auto.
  - intros i j. rewrite coo_with_at, map_length. apply SV.
Qed.
Lemma nd_values_keys : forall f (A : Nd F), nd_keys (nd_values f A) = nd_keys A.
Proof. intros. unfold nd_keys, nd_values. cbn [nd_shape nd_idx nd_dat]. rewrite map_length. reflexivity. Qed.
Lemma nd_values_ok : forall f (A : Nd F), nd_ok A -> nd_ok (nd_values f A).
Proof.
  intros f A [H1 H2 H3]. constructor; [exact H1| |rewrite nd_values_keys; exact H3]. unfold nd_values. cbn [nd_shape nd_idx nd_dat]. rewrite map_length. exact H2.
Qed.
Lemma nd_values_reg : forall f (A : Nd F), nd_ok A -> single_valued_nd A -> nd_reg (nd_values f A).
Proof. intros f A OK SV _. split; [apply nd_values_ok; auto|]. apply single_keys. rewrite nd_values_keys. apply single_keys. exact SV. Qed.

(** ** Kernels *)
Lemma merge_can : forall k op, merge_kernel_correct (F := F) k op -> (forall sch A B, major A <> major B \/ minor A <> minor B -> k sch A B = Panic) ->
  forall sch A B C, is_schedule sch -> canonical A -> canonical B -> k sch A B = Ok C -> canonical C.
Proof.
  intros k op K MM sch A B C HS CA CB E.
  destruct (Nat.eq_dec (major A) (major B)) as [E1|E1]; [destruct (Nat.eq_dec (minor A) (minor B)) as [E2|E2]|].
  - destruct (K sch A B HS CA CB E1 E2) as (C' & E' & CC & _). congruence.
  - rewrite MM in E by auto. discriminate.
  - rewrite MM in E by auto. discriminate.
Qed.
Lemma isect_can : forall k def, isect_kernel_correct (F := F) k def -> (forall sch A B, major A <> major B \/ minor A <> minor B -> k sch A B = Panic) ->
  forall sch A B C, is_schedule sch -> canonical A -> canonical B -> k sch A B = Ok C -> canonical C.
Proof.
  intros k op K MM sch A B C HS CA CB E.
  destruct (Nat.eq_dec (major A) (major B)) as [E1|E1]; [destruct (Nat.eq_dec (minor A) (minor B)) as [E2|E2]|].
  - destruct (K sch A B HS CA CB E1 E2) as (C' & E' & CC & _). congruence.
  - rewrite MM in E by auto. discriminate.
  - rewrite MM in E by auto. discriminate.
Qed.
Lemma prune_can : forall sch eps (A B : Cs F), is_schedule sch -> canonical A -> prune_cs sch eps A = Ok B -> canonical B.
Proof.
  intros sch eps A B HS CA E.
  destruct (fltb eps f0) eqn:E1; [unfold prune_cs in E; rewrite E1 in E; injection E as <-; auto|].
  destruct (feqb eps f0 && negb (existsb (fun v => feqb v f0) (dat A))) eqn:E2; [unfold prune_cs in E; rewrite E1, E2 in E; injection E as <-; auto|].
  rewrite prune_cs_ok in E; auto; [injection E as <-; apply filter_rows_canonical; auto|apply CA|].
  intros E3. rewrite E3 in E2. apply negb_false_iff in E2. auto.
Qed.
Lemma prune_coo_reg : forall eps (A B : Coo F), coo_reg A -> prune_coo eps A = Ok B -> coo_reg B.
Proof.
  intros eps A B [OK SV] E. destruct (fltb eps f0) eqn:EN; [unfold prune_coo in E; rewrite EN in E; injection E as <-; split; auto|].
  destruct (PScalar.prune_coo_ok eps A OK EN) as (B' & E' & _ & _ & OB & EB). assert (B' = B) by congruence. subst B'. split; auto.
  intros i j. rewrite (coo_filter_at A B (significant eps)) by exact EB. eapply Nat.le_trans; [apply filter_le|apply SV].
Qed.
Lemma transpose_can : forall t il sch srt (A B : Cs F), is_interleaving il -> is_schedule sch -> is_sorter pair_le srt -> canonical A -> alloc_ok (major A) ->
  transpose_cs t il sch srt A = Ok B -> canonical B.
Proof.
  intros t il sch srt A B H1 H2 H3 C AL E. destruct (C09_transpose_csr F t il sch srt A H1 H2 H3 C AL) as (B' & E' & CB & _). unfold transpose_csr in E'. congruence.
Qed.
Lemma transpose_coo_reg : forall A : Coo F, coo_reg A -> coo_reg (transpose_coo A).
Proof. intros A [OK SV]. destruct (C09_transpose_coo F A OK) as (OB & _ & _ & AT). split; auto. intros i j. rewrite AT. apply SV. Qed.
Lemma coo_outside : forall (A : Coo F) i j, coo_ok A -> ~ (i < coo_nrows A /\ j < coo_ncols A)%nat -> coo_at A i j = [].
Proof.
  intros A i j OK N. destruct (coo_at A i j) as [|v l] eqn:E; [reflexivity|exfalso]. apply N. clear N.
  assert (IV : In v (coo_at A i j)) by (rewrite E; left; reflexivity). unfold coo_at in IV. apply in_map_iff in IV. destruct IV as ([k w] & _ & I).
  apply filter_In in I. destruct I as [I M].
  unfold coo_entries in I. cbn [fst snd] in M. apply In_nth_error in I. destruct I as [p I]. apply nth_error_combine in I. destruct I as [I _]. destruct k as [r c].
  apply nth_error_combine in I. destruct I as [I1 I2]. apply (coo_bound_r _ OK) in I1. apply (coo_bound_c _ OK) in I2. cbn [fst snd] in M. lia.
Qed.
Lemma csr_to_coo_reg : forall sch (A : Csr F) B, is_schedule sch -> canonical A -> alloc_ok (csr_nrows A) -> csr_to_coo sch A = Ok B -> coo_reg B.
Proof.
  intros sch A B HS C AL E. destruct (C06_csr_to_coo F sch A HS (can_ok _ C) AL) as (B' & E' & OB & N1 & N2 & _ & _ & AT).
  assert (B' = B) by congruence. subst B'. split; auto. intros i j.
  destruct (lt_dec i (csr_nrows A)) as [Hi|Hi]; [destruct (lt_dec j (csr_ncols A)) as [Hj|Hj]|].
  - rewrite AT by auto. apply canonical_single; auto.
  - rewrite coo_outside by (auto; lia). simpl. lia.
  - rewrite coo_outside by (auto; lia). simpl. lia.
Qed.

(** *** N-D kernels *)
Lemma sorted_reg : forall C : Nd F, nd_ok C -> nd_sorted C -> nd_reg C.
Proof. intros C OK SO _. split; auto. exact (proj2 (C23_sorted_no_duplicates F C OK SO)). Qed.
Lemma nd_empty_reg : forall sh, nd_reg (mkNd sh [] ([] : list F)).
Proof. intros sh N. split; [apply empty_nd_fine; exact N|]. apply single_keys. constructor. Qed.
Lemma permute_reg : forall (A C : Nd F) p, nd_ok A -> single_valued_nd A -> permute_axes_coond A p = Ok C -> nd_reg C.
Proof.
  intros A C p OK SV E _.
  assert (D : Permutation p (seq 0 (length (nd_shape A))) \/ ~ Permutation p (seq 0 (length (nd_shape A)))).
  { rewrite perm_axes_ok. destruct (axes_ok_dec (length (nd_shape A)) p) as [H|H]; [|right; tauto].
    destruct (Nat.eq_dec (length p) (length (nd_shape A))); [left|right]; tauto. }
  destruct D as [D|D]; [|rewrite (C22_not_a_permutation_panics F A p D) in E; discriminate].
  destruct (C22_permute F A p OK D) as (C' & E' & OC & _ & EN). assert (C' = C) by congruence. subst C'. split; auto.
  apply single_keys. rewrite <- nd_entries_keys, EN, map_map. cbn [fst]. rewrite <- (map_map fst (fun k => map (fun d => nth d k 0) p)), nd_entries_keys.
  apply NoDup_map_on; [|apply single_keys; exact SV]. intros k k' I I' EQ. pose proof (nd_bound _ OK) as B. rewrite Forall_forall in B.
  pose proof (in_shape_length _ _ (B k I)) as L. pose proof (in_shape_length _ _ (B k' I')) as L'.
  apply nth_ext with (d := 0) (d' := 0); [congruence|]. intros d Hd. rewrite L in Hd.
  assert (J : In d p) by (apply (Permutation_in d (Permutation_sym D)); apply in_seq; lia).
  revert EQ J. clear. induction p as [|e p IH]; cbn [map In]; [tauto|]. intros EQ [->|J]; injection EQ as E1 E2; auto.
Qed.
Lemma reshape_reg : forall sch (A C : Nd F) sh, is_schedule sch -> nd_ok A -> single_valued_nd A -> nd_small A -> Forall (fun n => 0 <= n) sh ->
  reshape_coond sch A sh = Ok C -> nd_reg C.
Proof.
  intros sch A C sh HS OK SV [NN SM] NS E.
  destruct (Z.eq_dec (cells (nd_shape A)) (cells sh)) as [EC|NE]; [|rewrite reshape_bad in E by auto; discriminate].
  destruct (Nat.eq_dec (length (nd_dat A)) 0) as [E0|E0].
  - unfold reshape_coond in E. rewrite E0 in E. cbn [Nat.eqb] in E.
    destruct (product_checked (nd_shape A)); try discriminate E. cbn [bind] in E. destruct (product_checked sh); try discriminate E. cbn [bind] in E.
    destruct (_ =? _); [|discriminate E]. injection E as <-. apply nd_empty_reg.
  - assert (P := nd_positive A OK ltac:(lia)). assert (CP := cells_pos _ P).
    assert (PS : Forall (fun n => 0 < n) sh) by (apply cells_positive; auto; lia).
    assert (SC := positive_shape_cells _ PS). rewrite (positive_shape_cells _ P) in SM.
    destruct (list_eq_dec Z.eq_dec sh []) as [->|NE].
    + unfold reshape_coond in E. intros Q. exfalso. apply Q.
      repeat (match type of E with
        | bind ?r _ = Ok _ => destruct r; [|discriminate E|discriminate E|discriminate E]; cbn [bind] in E
        | (if ?b then _ else _) = Ok _ => destruct b; try discriminate E
        end); injection E as <-; reflexivity.
    + destruct (C21_reshape F sch A sh HS OK NE) as (C' & E' & OC & SH & _ & F2).
      * apply shape_cells_fits; auto. rewrite positive_shape_cells; auto.
      * apply shape_cells_fits; auto. lia.
      * eapply Forall_impl; [|apply dim_le_cells; eauto]. intros n Hn. cbv beta in *. rewrite SC in Hn. unfold i64_max in *. lia.
      * exact EC.
      * assert (C' = C) by congruence. subst C'. intros _. split; auto. apply single_keys. apply single_keys in SV.
        rewrite <- nd_entries_keys in *. pose proof (nd_entries_ok A OK) as BA. clear - F2 SV BA.
        induction F2 as [|a b la lb [_ HP] F2 IH]; [constructor|]. cbn [map] in *. inversion SV as [|? ? NI ND]; subst. inversion BA as [|? ? B1 BA']; subst.
        constructor; [|apply IH; auto]. intros J. apply NI. apply in_map_iff in J. destruct J as (b' & EB & J).
        clear IH SV BA ND NI. induction F2 as [|a2 b2 la lb [_ HP2] F2 IH]; [destruct J|]. inversion BA' as [|? ? B2 BA'']; subst. destruct J as [->|J].
        -- left. eapply position_inj; [exact B2|exact B1|]. congruence.
        -- right. apply IH; auto.
Qed.
Lemma sum_reg : forall srt (A C : Nd F) axes, is_sorter pair_le srt -> nd_ok A -> nd_small A -> reduce_sum_axes_coond srt A axes = Ok C ->
  nd_ok C /\ nd_sorted C /\ proper_axes (length (nd_shape A)) axes /\ nd_shape C = select (other_axes (length (nd_shape A)) axes) (nd_shape A).
Proof.
  intros srt A C axes HS OK [NN SM] E. destruct (proper_dec (length (nd_shape A)) axes) as [P|P].
  - destruct (C26_reduce_sum F srt A axes HS OK (shape_cells_fits _ NN SM) P) as (C' & E' & OC & SH & SO & _). assert (C' = C) by congruence. subst C'. auto.
  - destruct (C26_bad_axes_panic F srt A axes P) as [Q _]. congruence.
Qed.
Lemma mean_reg : forall srt (A C : Nd F) axes, is_sorter pair_le srt -> nd_ok A -> nd_small A -> reduce_mean_axes_coond srt A axes = Ok C ->
  nd_ok C /\ nd_sorted C /\ proper_axes (length (nd_shape A)) axes /\ nd_shape C = select (other_axes (length (nd_shape A)) axes) (nd_shape A).
Proof.
  intros srt A C axes HS OK [NN SM] E. destruct (proper_dec (length (nd_shape A)) axes) as [P|P].
  - destruct (C26_reduce_mean F srt A axes HS OK (shape_cells_fits _ NN SM) P) as (C' & E' & OC & SH & SO & _). assert (C' = C) by congruence. subst C'. auto.
  - destruct (C26_bad_axes_panic F srt A axes P) as [_ Q]. congruence.
Qed.
Lemma nd_outside : forall (A : Nd F) k, nd_ok A -> ~ in_shape (nd_shape A) k -> nd_at A k = [].
Proof.
  intros A k OK N. unfold nd_at, at_key. destruct (filter _ _) as [|[k' v] l] eqn:E; [reflexivity|]. exfalso. apply N.
  assert (I : In (k', v) (filter (fun e => if list_eq_dec Z.eq_dec (fst e) k then true else false) (nd_entries A))) by (rewrite E; left; reflexivity).
  apply filter_In in I. destruct I as [I Q]. cbn [fst] in Q. destruct (list_eq_dec Z.eq_dec k' k); [|discriminate]. subst k'.
  pose proof (nd_entries_ok A OK) as B. rewrite Forall_forall in B. apply (B _ I).
Qed.
Lemma in_shape_dec : forall sh k, in_shape sh k \/ ~ in_shape sh k.
Proof.
  intros sh k. unfold in_shape. revert sh. induction k as [|x k IH]; intros [|n sh]; try solve [left; constructor]; try solve [right; intros Q; inversion Q].
  destruct (IH sh) as [H|H]; [|right; intros Q; inversion Q; auto].
  assert (D : (0 <= x < n /\ x <= i64_max) \/ ~ (0 <= x < n /\ x <= i64_max)) by lia. destruct D as [D|D]; [left; constructor; auto|right; intros Q; inversion Q; auto].
Qed.
Lemma reduce_nd_reg : forall (red : (list (Z * F) -> list (Z * F)) -> Nd F -> list nat -> res (Nd F)) srt (A C : Nd F) axis kd, is_sorter pair_le srt -> nd_ok A -> nd_small A ->
  (forall axes C, red srt A axes = Ok C -> nd_ok C /\ nd_sorted C /\ proper_axes (length (nd_shape A)) axes /\ nd_shape C = select (other_axes (length (nd_shape A)) axes) (nd_shape A)) ->
  reduce_nd (red srt A) (length (nd_shape A)) axis kd = Ok (Some C) -> nd_reg C.
Proof.
  intros red srt A C axis kd HS OK SM K E. unfold reduce_nd in E. destruct (norm_axes (length (nd_shape A)) axis) as [norm| | |]; try discriminate E. cbn [bind] in E.
  destruct norm as [axes|]; [|discriminate E]. destruct axes as [|a l]; [discriminate E|].
  destruct (red srt A (a :: l)) as [R| | |] eqn:ER; try discriminate E. cbn [bind] in E. destruct (K _ _ ER) as (OR & SR & PA & ES).
  destruct kd; [|cbn [bind] in E; injection E as <-; apply sorted_reg; auto].
  destruct PA as (AX & _ & LT).
  destruct (with_keepdims_ok (length (nd_shape A)) (a :: l) (nd_shape A) R) as (C' & E' & OC & _ & _ & AT); auto; [apply other_axes_pos; auto|].
  rewrite E' in E. cbn [bind] in E. injection E as <-. intros _. split; auto. intros k. destruct (in_shape_dec (nd_shape C') k) as [I|I].
  - rewrite AT by auto. exact (proj2 (C23_sorted_no_duplicates F R OR SR) _).
  - rewrite nd_outside by auto. simpl. lia.
Qed.
Lemma unfold_sizes : forall (A : Nd F) rows, nd_small A -> axes_ok (length (nd_shape A)) rows -> unfold_fits (nd_shape A) rows.
Proof.
  intros A rows [NN SM] AX. assert (SF := shape_cells_fits _ NN SM).
  assert (H : forall axes, axes_ok (length (nd_shape A)) axes -> cells (select axes (nd_shape A)) <= i64_max + 1).
  { intros axes HA. pose proof (shape_cells_select _ _ HA). pose proof (proj1 (shape_fits_select _ _ HA SF)) as N2.
    pose proof (cells_shape_cells _ N2). lia. }
  split; [auto|split; apply H; auto]. apply other_axes_ok.
Qed.
Lemma unfold_csr_can : forall sch srt (A : Nd F) rows B, is_schedule sch -> is_sorter key2_le srt -> nd_ok A -> nd_small A ->
  coond_axes_to_csr sch srt A rows = Ok B -> canonical B.
Proof.
  intros sch srt A rows B HS HT OK SM E. destruct (axes_ok_dec (length (nd_shape A)) rows) as [AX|AX].
  - destruct (C25_unfold_to_coo F sch A rows HS OK AX (unfold_sizes _ _ SM AX)) as (C & E' & OC & _).
    unfold coond_axes_to_csr in E. rewrite E' in E. cbn [bind] in E. destruct (coo_to_csr_ok srt C HT OC) as (B' & EB & CB & _). congruence.
  - destruct (C25_bad_axes_panic F sch srt A rows AX) as (E1 & _). unfold coond_axes_to_csr in E. rewrite E1 in E. discriminate.
Qed.
Lemma unfold_csc_can : forall sch srt (A : Nd F) rows B, is_schedule sch -> is_sorter key2_le srt -> nd_ok A -> nd_small A ->
  coond_axes_to_csc sch srt A rows = Ok B -> canonical B.
Proof.
  intros sch srt A rows B HS HT OK SM E. destruct (axes_ok_dec (length (nd_shape A)) rows) as [AX|AX].
  - destruct (C25_unfold_to_coo F sch A rows HS OK AX (unfold_sizes _ _ SM AX)) as (C & E' & OC & _).
    unfold coond_axes_to_csc in E. rewrite E' in E. cbn [bind] in E.
    change (coo_to_csc srt C) with (coo_to_csr srt (PropConvert.coo_swap C) : res (Csc F)) in E.
    destruct (coo_to_csr_ok srt (PropConvert.coo_swap C) HT) as (B' & EB & CB & _); [apply PropConvert.coo_swap_ok; auto|]. congruence.
  - destruct (C25_bad_axes_panic F sch srt A rows AX) as (E1 & _). unfold coond_axes_to_csc in E. rewrite E1 in E. discriminate.
Qed.
Lemma spmv_nd_reg : forall srt (A C : Nd F) axis x, is_sorter pair_le srt -> nd_ok A -> nd_small A -> spmv_coond srt A axis x = Ok C -> nd_reg C.
Proof.
  intros srt A C axis x HS OK [NN SM] E.
  assert (D : contractible A axis x \/ ~ contractible A axis x) by (unfold contractible; lia).
  destruct D as [D|D]; [|rewrite C29_mismatch_panics in E by auto; discriminate].
  destruct (C29_spmv_nd F srt A axis x HS OK (shape_cells_fits _ NN SM) D) as (C' & E' & OC & _ & SO & _).
  assert (C' = C) by congruence. subst C'. apply sorted_reg; auto.
Qed.
End Call.
