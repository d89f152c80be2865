(** Programs compute what the dense machine of SpecDense computes: objects, unary, scalar
    and binary operations. *)
Require Import List ZArith Bool Arith Lia QArith Qcanon.
Require Import ZifyBool ZifyNat.
Require Import Verif.Res Verif.Values Verif.Spec Verif.Mem Verif.Lists Verif.CsLib Verif.Laws Verif.MCore Verif.PCore Verif.MElementwise Verif.PElementwise2 Verif.MConvert Verif.PConvert Verif.PConvert2 Verif.PConvert3 Verif.PTrans Verif.MScalar Verif.PScalar.
Require Import Verif.PropConvert Verif.PGroup Verif.PropScalar Verif.SpecReduce Verif.SpecDiff Verif.SpecPy Verif.MPy Verif.PropPy Verif.PropPy2 Verif.PropLaws2 Verif.MObj Verif.SpecObj Verif.PObj Verif.SpecDense.
Import ListNotations.
Local Open Scope nat_scope.

(** ** Objects that stand for a dense value *)
Definition cs_rep (A : Cs qc) (m n : nat) (a : nat -> nat -> Qc) : Prop :=
  canonical A /\ major A = m /\ minor A = n /\ forall i j, i < m -> j < n -> csr_val f0 A i j = a i j.
Definition coo_rep (A : Coo qc) (m n : nat) (a : nat -> nat -> Qc) : Prop :=
  coo_ok A /\ single_valued (coo_at A) /\ coo_nrows A = m /\ coo_ncols A = n /\ forall i j, i < m -> j < n -> one_or f0 (coo_at A i j) = a i j.
Definition rep (v : value qc) (x : dval) : Prop :=
  match v, x with
  | VCsr X, DMat KCsr m n a => py_handle X = Some (py_arrays X) /\ cs_rep (py_arrays X) m n a
  | VCsc X, DMat KCsc m n a => py_handle X = Some (py_arrays X) /\ cs_rep (py_arrays X) n m (fun j i => a i j)
  | VCoo X, DMat KCoo m n a => pyc_handle X = Some (pyc_arrays X) /\ coo_rep (pyc_arrays X) m n a
  | VNd A, DNd sh a => nd_ok A /\ single_valued_nd A /\ nd_shape A = sh /\ Forall (Z.le 0) sh /\ forall k, in_shape sh k -> one_or f0 (nd_at A k) = a k
  | VArr sh d, DArr sh' d' => sh = sh' /\ d = d' /\ length d = fold_right Nat.mul 1 sh
  | VBools sh d, DBools sh' d' => sh = sh' /\ d = d'
  | _, _ => False
  end.
Definition held (v : value qc) (x : dval) : Prop := rep v x /\ fits v = true.
Definition done (r : res (value qc)) (x : dval) : Prop := exists v, r = Ok v /\ (fits v = true -> rep v x).

Lemma rep_eta : forall {A B} (a : A -> B -> Qc), (fun i j => a i j) = a. Proof. reflexivity. Qed.

(** ** Coordinates *)
Lemma all_keys_in : forall sh, Forall (Z.le 0) sh -> (shape_cells sh < i64_max)%Z -> forall k, In k (all_keys sh) -> in_shape sh k.
Proof.
  induction 1 as [|n sh N0 NN IH]; intros SM k I.
  - destruct I as [<-|[]]. constructor.
  - assert (E : shape_cells (n :: sh) = (Z.max 1 n * shape_cells sh)%Z) by reflexivity.
    assert (P : (1 <= shape_cells sh)%Z) by apply PSafe3.shape_cells_pos.
    rewrite E in SM. cbn [all_keys] in I. apply in_flat_map in I. destruct I as (x & IX & I). apply in_map_iff in I. destruct I as (k' & <- & I). apply in_seq in IX.
    assert (n <= i64_max)%Z by (revert P SM; generalize (shape_cells sh), i64_max; clear; intros; nia).
    constructor; [lia|]. apply IH; [revert P SM; generalize (shape_cells sh), i64_max; clear; intros; nia|exact I].
Qed.
Lemma keys_in_shape : forall A : Nd qc, Forall (Z.le 0) (nd_shape A) -> fits (VNd A) = true -> forall k, In k (all_keys (nd_shape A)) -> in_shape (nd_shape A) k.
Proof. intros A NN FT. cbn [fits] in FT. apply all_keys_in; [exact NN|]. apply andb_true_iff in FT. lia. Qed.

(** ** Building objects *)
Lemma fits_cs : forall {F : Fl} (X : @PyCs F), fits (VCsr X) = true ->
  alloc_ok (major (py_arrays X)) /\ alloc_ok (minor (py_arrays X)) /\ alloc_ok (major (py_arrays X) * minor (py_arrays X)) /\ alloc_ok (length (dat (py_arrays X))).
Proof.
  intros F X FT. cbn [fits] in FT. apply andb_true_iff in FT. destruct FT as [F1 F2].
  apply cells_fit_spec in F1. destruct F1 as (A1 & A2 & A3). repeat (split; [assumption|]). unfold alloc_ok. lia.
Qed.
Lemma fits_coo : forall {F : Fl} (X : @PyCoo F), fits (VCoo X) = true ->
  alloc_ok (coo_nrows (pyc_arrays X)) /\ alloc_ok (coo_ncols (pyc_arrays X)) /\ alloc_ok (coo_nrows (pyc_arrays X) * coo_ncols (pyc_arrays X)) /\ alloc_ok (length (coo_data (pyc_arrays X))).
Proof.
  intros F X FT. cbn [fits] in FT. apply andb_true_iff in FT. destruct FT as [F1 F2].
  apply cells_fit_spec in F1. destruct F1 as (A1 & A2 & A3). repeat (split; [assumption|]). unfold alloc_ok. lia.
Qed.
Lemma from_parts_ok : forall {F : Fl} (A : Cs F), cs_ok A -> alloc_ok (major A) ->
  cs_from_parts (major A) (minor A) (ptr A) (idx A) (dat A) false = Some A.
Proof.
  intros F A OK AL.
  destruct (proj2 (cs_from_parts_unchecked_iff (major A) (minor A) (ptr A) (idx A) (dat A) ltac:(rewrite (ok_ptr_len _ OK); unfold alloc_ok, usize_max, i64_max in *; lia))) as [B E].
  { repeat split; apply OK. }
  rewrite E. apply cs_from_parts_value in E. rewrite cs_eta in E. congruence.
Qed.
Lemma from_parts_check : forall {F : Fl} (A : Cs F), canonical A -> (Z.of_nat (length (ptr A)) <= usize_max)%Z ->
  cs_from_parts (major A) (minor A) (ptr A) (idx A) (dat A) true = Some A.
Proof.
  intros F A CA AL.
  destruct (proj2 (cs_from_parts_iff (major A) (minor A) (ptr A) (idx A) (dat A) AL
    ltac:(apply Forall_forall; intros z I; apply In_nth_error in I; destruct I as [p E]; apply (ok_bound _ (can_ok _ CA)) in E; unfold is_i64, i64_min, i64_max in *; lia))) as [B E].
  { rewrite cs_eta. exact CA. }
  rewrite E. apply cs_from_parts_value in E. rewrite cs_eta in E. congruence.
Qed.
Lemma coo_from_parts_ok : forall {F : Fl} (A : Coo F) ck, coo_ok A ->
  coo_from_parts (coo_nrows A) (coo_ncols A) (coo_row A) (coo_col A) (coo_data A) ck = Ok (Some A).
Proof.
  intros F A ck OK. destruct ck.
  - assert (I1 : Forall is_i64 (coo_row A)) by (apply Forall_forall; intros z I; apply In_nth_error in I; destruct I as [p E]; apply (coo_bound_r _ OK) in E; unfold is_i64, i64_min, i64_max in *; lia).
    assert (I2 : Forall is_i64 (coo_col A)) by (apply Forall_forall; intros z I; apply In_nth_error in I; destruct I as [p E]; apply (coo_bound_c _ OK) in E; unfold is_i64, i64_min, i64_max in *; lia).
    destruct (coo_from_parts_iff (coo_nrows A) (coo_ncols A) (coo_row A) (coo_col A) (coo_data A) I1 I2) as (r & E & H & _).
    rewrite E. rewrite coo_eta in H. rewrite (proj2 H OK). reflexivity.
  - destruct (coo_from_parts_unchecked_iff (coo_nrows A) (coo_ncols A) (coo_row A) (coo_col A) (coo_data A)) as (r & E & H & _).
    rewrite E. rewrite coo_eta in H. rewrite (proj2 H); [reflexivity|]. split; [apply (coo_len_r _ OK)|apply (coo_len_c _ OK)].
Qed.

Lemma csr_new_rep : forall B m n a, (alloc_ok (major B) -> cs_rep B m n a) -> done (csr_new B) (DMat KCsr m n a).
Proof.
  intros B m n a R. unfold csr_new, csr_init. cbn [bind]. eexists. split; [reflexivity|]. intros FT. apply fits_cs in FT.
  cbn [py_arrays major] in FT. unfold csr_nrows in FT. destruct FT as (AL & _). specialize (R AL). cbn [rep py_handle py_arrays].
  unfold csr_nrows, csr_ncols, csr_from_parts. rewrite cs_eta. split; [|exact R]. apply from_parts_ok; [apply R|exact AL].
Qed.
Lemma csc_new_rep : forall B m n a, (alloc_ok (major B) -> cs_rep B n m (fun j i => a i j)) -> done (csc_new B) (DMat KCsc m n a).
Proof.
  intros B m n a R. unfold csc_new, csc_init. cbn [bind]. eexists. split; [reflexivity|]. intros FT. apply (fits_cs (F := qc) (mkPyCs _ _)) in FT.
  cbn [py_arrays major] in FT. unfold csc_ncols in FT. destruct FT as (AL & _). specialize (R AL). cbn [rep py_handle py_arrays].
  unfold csc_nrows, csc_ncols, csc_from_parts. rewrite cs_eta. split; [|exact R]. apply from_parts_ok; [apply R|exact AL].
Qed.
Lemma coo_new_rep : forall B m n a, coo_rep B m n a -> done (coo_new B) (DMat KCoo m n a).
Proof.
  intros B m n a R. unfold coo_new, coo_init. rewrite coo_from_parts_ok by apply R. cbn [bind]. eexists. split; [reflexivity|]. intros _.
  cbn [rep pyc_handle pyc_arrays]. rewrite coo_eta. split; [reflexivity|exact R].
Qed.

(** ** Using objects *)
Lemma csr_parts_ok : forall {F : Fl} (X : @PyCs F), canonical (py_arrays X) -> fits (VCsr X) = true -> csr_parts X = Ok (py_arrays X).
Proof.
  intros F X C FT. unfold csr_parts, csr_from_parts, csr_nrows, csr_ncols. rewrite from_parts_ok; [reflexivity|apply C|apply fits_cs in FT; apply FT].
Qed.
Lemma csc_parts_ok : forall {F : Fl} (X : @PyCs F), canonical (py_arrays X) -> fits (VCsc X) = true -> csc_parts X = Ok (py_arrays X).
Proof.
  intros F X C FT. unfold csc_parts, csc_from_parts, csc_nrows, csc_ncols. rewrite from_parts_ok; [reflexivity|apply C|apply fits_cs in FT; apply FT].
Qed.
Lemma coo_parts_ok : forall {F : Fl} (X : @PyCoo F), coo_ok (pyc_arrays X) -> coo_parts X = Ok (pyc_arrays X).
Proof. intros F X OK. unfold coo_parts. rewrite coo_from_parts_ok by auto. reflexivity. Qed.

(** What is known about an operand, class by class. *)
Record csr_held (X : @PyCs qc) (m n : nat) (a : nat -> nat -> Qc) : Prop := {
  h_use : py_handle X = Some (py_arrays X);
  h_parts : csr_parts X = Ok (py_arrays X);
  h_cparts : csc_parts X = Ok (py_arrays X);
  h_rep : cs_rep (py_arrays X) m n a;
  h_m : alloc_ok m; h_n : alloc_ok n; h_mn : alloc_ok (m * n); h_nnz : alloc_ok (length (dat (py_arrays X)))
}.
Lemma held_csr : forall X m n a, held (VCsr X) (DMat KCsr m n a) -> csr_held X m n a.
Proof.
  intros X m n a [[H R] FT]. destruct (fits_cs X FT) as (A1 & A2 & A3 & A4). destruct R as (C & E1 & E2 & V). rewrite E1, E2 in *.
  constructor; auto; [apply csr_parts_ok; auto|apply csc_parts_ok; auto|]. unfold cs_rep. auto.
Qed.
Lemma held_csc : forall X m n a, held (VCsc X) (DMat KCsc m n a) -> csr_held X n m (fun j i => a i j).
Proof. intros X m n a H. apply held_csr. exact H. Qed.
Record coo_held (X : @PyCoo qc) (m n : nat) (a : nat -> nat -> Qc) : Prop := {
  c_use : pyc_handle X = Some (pyc_arrays X);
  c_parts : coo_parts X = Ok (pyc_arrays X);
  c_rep : coo_rep (pyc_arrays X) m n a;
  c_m : alloc_ok m; c_n : alloc_ok n; c_mn : alloc_ok (m * n); c_nnz : alloc_ok (length (coo_data (pyc_arrays X)))
}.
Lemma held_coo : forall X m n a, held (VCoo X) (DMat KCoo m n a) -> coo_held X m n a.
Proof.
  intros X m n a [[H R] FT]. destruct (fits_coo X FT) as (A1 & A2 & A3 & A4). destruct R as (C & SV & E1 & E2 & V). rewrite E1, E2 in *.
  constructor; auto; [apply coo_parts_ok; auto|]. unfold coo_rep. auto.
Qed.

(** ** Operations on the stored values *)
Lemma combine_map_r : forall {A B C} (f : B -> C) (l : list A) (l' : list B), combine l (map f l') = map (fun e => (fst e, f (snd e))) (combine l l').
Proof. induction l as [|x l IH]; intros [|y l']; cbn; auto. f_equal. apply IH. Qed.
Lemma filter_map_comm : forall {A B} (f : A -> B) (g : B -> bool) (l : list A), filter g (map f l) = map f (filter (fun x => g (f x)) l).
Proof. induction l as [|x l IH]; cbn [map filter]; auto. destruct (g (f x)); cbn [map]; rewrite IH; auto. Qed.
Lemma slice_map' : forall {A B} (f : A -> B) s e l, slice s e (map f l) = map f (slice s e l).
Proof. intros. unfold slice. rewrite skipn_map, firstn_map. reflexivity. Qed.
Lemma with_values_at : forall {V} (f : V -> V) (A : Cs V) i j, csr_at (with_values f A : Csr V) i j = map f (csr_at A i j).
Proof.
  intros V f A i j. unfold csr_at, cs_at, cs_row, with_values. cbn [ptr idx dat]. rewrite combine_map_r, slice_map'.
  unfold at_index. rewrite filter_map_comm, !map_map. cbn [fst snd]. reflexivity.
Qed.
Lemma with_values_canonical : forall {V} (f : V -> V) (A : Cs V), canonical A -> canonical (with_values f A).
Proof.
  intros V f A [OK S]. constructor; [|exact S]. destruct OK. constructor; cbn [with_values ptr idx dat major minor]; auto. rewrite map_length. auto.
Qed.
Lemma one_or_map : forall (f : Qc -> Qc) l, f 0q = 0q -> one_or 0q (map f l) = f (one_or 0q l).
Proof. intros f [|x l] H; cbn [map one_or]; auto. Qed.
Lemma with_values_rep : forall (f : Qc -> Qc) A m n a b, cs_rep A m n a -> f 0q = 0q -> (forall i j, b i j = f (a i j)) -> cs_rep (with_values f A : Cs qc) m n b.
Proof.
  intros f A m n a b (C & E1 & E2 & V) F0 HB. split; [apply with_values_canonical; auto|]. split; [exact E1|]. split; [exact E2|].
  intros i j Hi Hj. unfold csr_val. rewrite with_values_at. rewrite HB. change (f0 : qc) with 0q. rewrite one_or_map by auto. f_equal. apply (V i j Hi Hj).
Qed.
Lemma coo_with_at : forall {V} (f : V -> V) (A : Coo V) i j, coo_at (coo_with_values f A) i j = map f (coo_at A i j).
Proof.
  intros V f A i j. unfold coo_at, coo_entries, coo_with_values. cbn [coo_row coo_col coo_data]. rewrite combine_map_r.
  unfold at_cell. rewrite filter_map_comm, !map_map. cbn [fst snd]. reflexivity.
Qed.
Lemma coo_with_rep : forall (f : Qc -> Qc) A m n a b, coo_rep A m n a -> f 0q = 0q -> (forall i j, b i j = f (a i j)) -> coo_rep (coo_with_values f A : Coo qc) m n b.
Proof.
  intros f A m n a b (OK & SV & E1 & E2 & V) F0 HB. split; [|split; [|split; [exact E1|split; [exact E2|]]]].
  - destruct OK. constructor; cbn [coo_with_values coo_row coo_col coo_data coo_nrows coo_ncols]; rewrite ?map_length; auto.
  - intros i j. rewrite coo_with_at, map_length. apply SV.
  - intros i j Hi Hj. rewrite coo_with_at, HB. change (f0 : qc) with 0q. rewrite one_or_map by auto. f_equal. apply (V i j Hi Hj).
Qed.

(** Pruning. *)
Lemma qc_ltb_iff : forall x y, qc_ltb x y = true <-> (x < y)%Qc.
Proof. intros x y. unfold qc_ltb. rewrite Qclt_alt. destruct (Qccompare x y); split; congruence. Qed.
Lemma qc_ltb_false : forall x y, qc_ltb x y = false <-> (y <= x)%Qc.
Proof.
  intros x y. destruct (qc_ltb x y) eqn:E.
  - apply qc_ltb_iff in E. split; [discriminate|]. intros L. exfalso. exact (Qclt_not_le _ _ E L).
  - split; auto. intros _. apply Qcnot_lt_le. intros L. apply qc_ltb_iff in L. congruence.
Qed.
Lemma Qcopp_pos : forall x, (x < 0q)%Qc -> (0q < - x)%Qc.
Proof. intros x L. apply Qclt_minus_iff in L. rewrite Qcplus_0_l in L. exact L. Qed.
Lemma qc_abs_nonneg : forall x : Qc, (0q <= qc_abs x)%Qc.
Proof.
  intros x. unfold qc_abs. destruct (qc_ltb x 0q) eqn:E; [|apply qc_ltb_false; exact E].
  apply Qclt_le_weak, Qcopp_pos, qc_ltb_iff. exact E.
Qed.
Definition kept_by (eps x : Qc) : Qc := if qc_ltb eps (qc_abs x) then x else 0q.
Lemma filter_one : forall eps (l : list Qc), length l <= 1 -> one_or 0q (filter (fun v => qc_ltb eps (qc_abs v)) l) = kept_by eps (one_or 0q l).
Proof.
  intros eps [|x [|y l]] H; cbn [length] in H; try lia; cbn [filter one_or]; unfold kept_by.
  - destruct (qc_ltb _ _); auto.
  - destruct (qc_ltb _ _); auto.
Qed.
Lemma kept_neg : forall eps x, qc_ltb eps 0q = true -> kept_by eps x = x.
Proof.
  intros eps x H. unfold kept_by. apply qc_ltb_iff in H. rewrite (proj2 (qc_ltb_iff _ _)); auto.
  eapply Qclt_le_trans; [exact H|apply qc_abs_nonneg].
Qed.
Lemma kept_zero : forall x, kept_by 0q x = x.
Proof.
  intros x. unfold kept_by. destruct (qc_ltb 0q (qc_abs x)) eqn:E; auto. apply qc_ltb_false in E. unfold qc_abs in E.
  destruct (qc_ltb x 0q) eqn:L.
  - apply qc_ltb_iff, Qcopp_pos in L. exfalso. exact (Qclt_not_le _ _ L E).
  - apply qc_ltb_false in L. apply Qcle_antisym; auto.
Qed.
Lemma prune_rep : forall sch eps A m n a b, is_schedule sch -> cs_rep A m n a -> (forall i j, b i j = kept_by eps (a i j)) ->
  exists B, prune_cs (F := qc) sch eps A = Ok B /\ cs_rep B m n b.
Proof.
  intros sch eps A m n a b HS (C & E1 & E2 & V) HB.
  destruct (fltb (eps : qc) f0) eqn:EN.
  - exists A. unfold prune_cs. rewrite EN. split; auto. split; [exact C|split; [exact E1|split; [exact E2|]]].
    intros i j Hi Hj. rewrite HB, kept_neg by exact EN. apply V; auto.
  - destruct (feqb (eps : qc) f0 && negb (existsb (fun v : qc => feqb v f0) (dat A))) eqn:EZ.
    + exists A. unfold prune_cs. rewrite EN, EZ. split; auto. split; [exact C|split; [exact E1|split; [exact E2|]]].
      apply andb_true_iff in EZ. destruct EZ as [EZ _]. apply (e_eqb _ qc_elaws) in EZ. subst eps.
      intros i j Hi Hj. rewrite HB. change (f0 : qc) with 0q. rewrite kept_zero. apply V; auto.
    + exists (pruned (F := qc) eps A). split.
      { apply prune_cs_ok; [exact HS|apply C|exact EN|]. intros EE. rewrite EE in EZ. cbn [andb] in EZ. apply negb_false_iff in EZ. exact EZ. }
      unfold pruned, copy_significant. split; [apply filter_rows_canonical; exact C|]. split; [rewrite filter_rows_major; exact E1|]. split; [exact E2|].
      intros i j Hi Hj. unfold csr_val, csr_at, cs_at. rewrite filter_rows_row by congruence.
      rewrite (at_index_filter (significant (F := qc) eps)). change (one_or 0q (filter (fun v => qc_ltb eps (qc_abs v)) (csr_at A i j)) = b i j).
      rewrite filter_one by (apply canonical_single; [exact C|exact (eq_ind_r (fun k => i < k) Hi E1)]). rewrite HB. f_equal. apply V; auto.
Qed.
Lemma coo_filter_at : forall {V} (A B : Coo V) g i j, coo_entries B = filter (fun e => g (snd e)) (coo_entries A) -> coo_at B i j = filter g (coo_at A i j).
Proof.
  intros V A B g i j E. unfold coo_at. rewrite E. unfold at_cell. clear E. induction (coo_entries A) as [|e l IH]; auto. cbn [filter].
  destruct (g (snd e)) eqn:G; cbn [filter]; destruct ((fst (fst e) =? Z.of_nat i)%Z && (snd (fst e) =? Z.of_nat j)%Z); cbn [map filter]; rewrite ?G, ?IH; reflexivity.
Qed.
Lemma filter_le : forall {A} (g : A -> bool) l, length (filter g l) <= length l.
Proof. induction l as [|x l IH]; cbn; auto. destruct (g x); cbn; lia. Qed.
Lemma prune_coo_rep : forall eps A m n a b, coo_rep A m n a -> (forall i j, b i j = kept_by eps (a i j)) ->
  exists B, prune_coo (F := qc) eps A = Ok B /\ coo_rep B m n b.
Proof.
  intros eps A m n a b (OK & SV & E1 & E2 & V) HB.
  destruct (fltb (eps : qc) f0) eqn:EN.
  - exists A. unfold prune_coo. rewrite EN. split; auto. split; [exact OK|split; [exact SV|split; [exact E1|split; [exact E2|]]]].
    intros i j Hi Hj. rewrite HB, kept_neg by exact EN. apply V; auto.
  - destruct (PScalar.prune_coo_ok (F := qc) eps A OK EN) as (B & E & N1 & N2 & OB & EB). exists B. split; auto.
    assert (AT : forall i j, coo_at B i j = filter (fun v => qc_ltb eps (qc_abs v)) (coo_at A i j)) by (intros; apply coo_filter_at; exact EB).
    split; [exact OB|]. split; [intros i j; rewrite AT; eapply Nat.le_trans; [apply filter_le|apply SV]|]. split; [congruence|]. split; [congruence|].
    intros i j Hi Hj. rewrite AT. change (f0 : qc) with 0q. rewrite filter_one by apply SV. rewrite HB. f_equal. apply V; auto.
Qed.

(** Transposing. *)
Lemma transpose_rep : forall t il sch srt A m n a, is_interleaving il -> is_schedule sch -> is_sorter pair_le srt -> alloc_ok m -> cs_rep A m n a ->
  exists B, transpose_cs (V := qc) t il sch srt A = Ok B /\ cs_rep B n m (fun i j => a j i).
Proof.
  intros t il sch srt A m n a HI HS HT AL (C & E1 & E2 & V).
  destruct (C09_transpose_csr qc t il sch srt A HI HS HT C ltac:(unfold csr_nrows; congruence)) as (B & E & CB & N1 & N2 & AT).
  unfold csr_nrows, csr_ncols in *. exists B. split; [exact E|]. split; [exact CB|]. split; [congruence|]. split; [congruence|].
  intros i j Hi Hj. unfold csr_val. rewrite AT by congruence. apply V; auto.
Qed.
Lemma transpose_coo_rep : forall A m n a, coo_rep A m n a -> coo_rep (transpose_coo A) n m (fun i j => a j i).
Proof.
  intros A m n a (OK & SV & E1 & E2 & V). destruct (C09_transpose_coo qc A OK) as (OB & N1 & N2 & AT).
  split; [exact OB|]. split; [intros i j; rewrite AT; apply SV|]. split; [congruence|]. split; [congruence|]. intros i j Hi Hj. rewrite AT. apply V; auto.
Qed.

Ltac open_csr H := apply held_csr in H; destruct H as [U P _ R AM AN AMN AZ].
Ltac open_csc H := apply held_csc in H; destruct H as [U _ P R AN AM AMN AZ].
Ltac open_coo H := apply held_coo in H; destruct H as [U P R AM AN AMN AZ].

Section Env.
Variable e : Env qc.
Hypothesis FE : fair e.

Lemma cs_with_map : forall g f (A : Cs qc), (forall l, g l = Ok (map f l)) -> cs_with (F := qc) g A = Ok (with_values f A).
Proof. intros g f A H. unfold cs_with. rewrite H. reflexivity. Qed.
Lemma coo_with_map : forall g f (A : Coo qc), (forall l, g l = Ok (map f l)) -> coo_with (F := qc) g A = Ok (coo_with_values f A).
Proof. intros g f A H. unfold coo_with. rewrite H. reflexivity. Qed.
Lemma sign_q : forall x : Qc, sign_f (F := qc) x = qsign x. Proof. reflexivity. Qed.

Lemma prune_cs_done : forall eps A m n a b, cs_rep A m n a -> (forall i j, b i j = kept_by eps (a i j)) ->
  exists B, prune_cs (F := qc) (e_sch e 0) eps A = Ok B /\ cs_rep B m n b.
Proof. intros. eapply prune_rep; eauto. apply (fair_sch _ FE). Qed.

Lemma done_bind : forall {A} (r : res A) (k : A -> res (value qc)) v x, r = Ok v -> done (k v) x -> done (bind r k) x.
Proof. intros A r k v x -> H. exact H. Qed.

Lemma unary_rep : forall op x X Y, held x X -> dense_unary op X = Some Y -> done (do_unary e op x) Y.
Proof.
  intros op x X Y H D. destruct X as [k m n a| | |]; try discriminate D.
  destruct k; destruct x as [x|x|x| | | |]; try (exfalso; exact (proj1 H)).
  - open_csr H. destruct op; injection D as <-; cbn [do_unary]; unfold csr_use; rewrite ?U, ?P; cbn [bind].
    + unfold abs_csr. erewrite cs_with_map by apply abs_data_ok. apply csr_new_rep. intros _. eapply with_values_rep; eauto; reflexivity.
    + unfold sign_csr. erewrite cs_with_map by apply par_map_ok. apply csr_new_rep. intros _. eapply with_values_rep; eauto; reflexivity.
    + destruct (C53_exact 0q) as [H1 _]. destruct (H1 (py_arrays x)) as (_ & _ & ->). cbn [bind]. apply csr_new_rep. intros _. eapply with_values_rep; eauto; reflexivity.
    + destruct (prune_cs_done eps _ _ _ _ (fun i j => kept_by eps (a i j)) R) as (B & E & RB); [reflexivity|]. unfold prune_csr. rewrite E. cbn [bind]. apply csr_new_rep. auto.
    + unfold eliminate_zeros_csr, prune_csr. destruct (prune_cs_done (f0 : qc) _ _ _ _ a R) as (B & E & RB); [symmetry; apply kept_zero|]. rewrite E. cbn [bind]. apply csr_new_rep. auto.
    + destruct (transpose_rep (e_threads e) (e_il e 0) (e_sch e 0) (e_srt e 0) _ _ _ _ (fair_il _ FE 0) (fair_sch _ FE 0) (fair_srt _ FE 0) AM R) as (B & E & RB).
      unfold transpose_csr. rewrite E. cbn [bind]. apply csr_new_rep. auto.
  - open_csc H. destruct op; injection D as <-; cbn [do_unary]; unfold csc_use, csc_T; rewrite ?U, ?P; cbn [bind].
    + unfold abs_csc. erewrite cs_with_map by apply abs_data_ok. apply csc_new_rep. intros _. eapply with_values_rep; eauto; reflexivity.
    + unfold sign_csc. erewrite cs_with_map by apply par_map_ok. apply csc_new_rep. intros _. eapply with_values_rep; eauto; reflexivity.
    + destruct (C53_exact 0q) as [_ [H1 _]]. destruct (H1 (py_arrays x)) as (_ & _ & ->). cbn [bind]. apply csc_new_rep. intros _. eapply with_values_rep; eauto; reflexivity.
    + destruct (prune_cs_done eps _ _ _ _ (fun j i => kept_by eps (a i j)) R) as (B & E & RB); [reflexivity|]. unfold prune_csc. rewrite E. cbn [bind]. apply csc_new_rep. auto.
    + unfold eliminate_zeros_csc, prune_csc. destruct (prune_cs_done (f0 : qc) _ _ _ _ (fun j i => a i j) R) as (B & E & RB); [intros; symmetry; apply kept_zero|]. rewrite E. cbn [bind]. apply csc_new_rep. auto.
    + destruct (transpose_rep (e_threads e) (e_il e 0) (e_sch e 0) (e_srt e 0) _ _ _ _ (fair_il _ FE 0) (fair_sch _ FE 0) (fair_srt _ FE 0) AN R) as (B & E & RB).
      unfold transpose_csc. rewrite E. cbn [bind]. apply csc_new_rep. auto.
  - open_coo H. destruct op; injection D as <-; cbn [do_unary]; unfold coo_use; rewrite ?U, ?P; cbn [bind].
    + unfold abs_coo. erewrite coo_with_map by apply abs_data_ok. apply coo_new_rep. eapply coo_with_rep; eauto; reflexivity.
    + unfold sign_coo. erewrite coo_with_map by apply par_map_ok. apply coo_new_rep. eapply coo_with_rep; eauto; reflexivity.
    + destruct (C53_exact 0q) as [_ [_ H1]]. destruct (H1 (pyc_arrays x)) as (_ & _ & ->). cbn [bind]. apply coo_new_rep. eapply coo_with_rep; eauto; reflexivity.
    + destruct (prune_coo_rep eps _ _ _ _ (fun i j => kept_by eps (a i j)) R) as (B & E & RB); [reflexivity|]. rewrite E. cbn [bind]. apply coo_new_rep. auto.
    + unfold eliminate_zeros_coo. destruct (prune_coo_rep (f0 : qc) _ _ _ _ a R) as (B & E & RB); [symmetry; apply kept_zero|]. rewrite E. cbn [bind]. apply coo_new_rep. auto.
    + apply coo_new_rep. apply transpose_coo_rep. exact R.
Qed.

(** ** Scalar operators *)
Lemma qdiv_0 : forall alpha, (0q / alpha)%Qc = 0q.
Proof. intros. unfold Qcdiv. apply Qcmult_0_l. Qed.
Lemma qfloor_0 : qc_floor 0q = 0q. Proof. reflexivity. Qed.
Lemma scalar_rep : forall op x X Y alpha, held x X -> dense_scalar op X alpha = Some Y -> done (do_scalar op x alpha) Y.
Proof.
  intros op x X Y alpha H D. destruct X as [k m n a| | |]; try discriminate D. cbn [dense_scalar] in D.
  assert (FD : forall g (A : Cs qc), qc_eqb alpha 0q = false -> py_floordiv (F := qc) g A alpha = g alpha A) by (intros g A E; unfold py_floordiv; change (feqb (alpha : qc) f0) with (qc_eqb alpha 0q); rewrite E; auto).
  assert (FC : forall g (A : Coo qc), qc_eqb alpha 0q = false -> py_floordiv (F := qc) g A alpha = g alpha A) by (intros g A E; unfold py_floordiv; change (feqb (alpha : qc) f0) with (qc_eqb alpha 0q); rewrite E; auto).
  assert (MD : forall g (A : Cs qc), qc_eqb alpha 0q = false -> py_mod (F := qc) g A alpha = g alpha A) by (intros g A E; unfold py_mod; change (feqb (alpha : qc) f0) with (qc_eqb alpha 0q); rewrite E; auto).
  assert (MC : forall g (A : Coo qc), qc_eqb alpha 0q = false -> py_mod (F := qc) g A alpha = g alpha A) by (intros g A E; unfold py_mod; change (feqb (alpha : qc) f0) with (qc_eqb alpha 0q); rewrite E; auto).
  assert (N0 : qc_eqb alpha 0q = false -> alpha <> (f0 : qc)) by (intros E Q; apply qc_eqb_iff in Q; change (qc_eqb alpha 0q = true) in Q; congruence).
  assert (Z1 : (fun v : Qc => v * alpha)%Qc 0q = 0q) by apply Qcmult_0_l.
  assert (Z2 : (fun v : Qc => v / alpha)%Qc 0q = 0q) by apply qdiv_0.
  assert (Z3 : (fun v : Qc => qc_floor (v / alpha)%Qc) 0q = 0q) by (cbv beta; rewrite qdiv_0; apply qfloor_0).
  assert (Z4 : (fun v : Qc => v - alpha * qc_floor (v / alpha))%Qc 0q = 0q) by (cbv beta; rewrite qdiv_0, qfloor_0; ring).
  destruct (C53_exact alpha) as (H1 & H2 & H3).
  destruct k; destruct x as [x|x|x| | | |]; try (exfalso; exact (proj1 H)).
  - open_csr H. destruct (H1 (py_arrays x)) as (ED & EM & _).
    destruct op; try discriminate D; try (destruct (qc_eqb alpha 0q) eqn:EA; [discriminate D|]); injection D as <-;
      cbn [do_scalar]; unfold csr_use; rewrite ?U, ?P; cbn [bind]; rewrite ?FD, ?MD by auto.
    + rewrite EM. cbn [bind]. apply csr_new_rep. intros _. exact (with_values_rep _ _ _ _ _ _ R Z1 (fun _ _ => eq_refl)).
    + rewrite ED by auto. cbn [bind]. apply csr_new_rep. intros _. exact (with_values_rep _ _ _ _ _ _ R Z2 (fun _ _ => eq_refl)).
    + unfold floordiv_scalar_csr. erewrite cs_with_map by apply par_map_ok. apply csr_new_rep. intros _. exact (with_values_rep _ _ _ _ _ _ R Z3 (fun _ _ => eq_refl)).
    + unfold rem_scalar_csr. erewrite cs_with_map by apply par_map_ok. apply csr_new_rep. intros _. exact (with_values_rep _ _ _ _ _ _ R Z4 (fun _ _ => eq_refl)).
  - open_csc H. destruct (H2 (py_arrays x)) as (ED & EM & _).
    destruct op; try discriminate D; try (destruct (qc_eqb alpha 0q) eqn:EA; [discriminate D|]); injection D as <-;
      cbn [do_scalar]; unfold csc_use; rewrite ?U, ?P; cbn [bind]; rewrite ?FD, ?MD by auto.
    + rewrite EM. cbn [bind]. apply csc_new_rep. intros _. exact (with_values_rep _ _ _ _ _ _ R Z1 (fun _ _ => eq_refl)).
    + rewrite ED by auto. cbn [bind]. apply csc_new_rep. intros _. exact (with_values_rep _ _ _ _ _ _ R Z2 (fun _ _ => eq_refl)).
    + unfold floordiv_scalar_csc. erewrite cs_with_map by apply par_map_ok. apply csc_new_rep. intros _. exact (with_values_rep _ _ _ _ _ _ R Z3 (fun _ _ => eq_refl)).
    + unfold rem_scalar_csc. erewrite cs_with_map by apply par_map_ok. apply csc_new_rep. intros _. exact (with_values_rep _ _ _ _ _ _ R Z4 (fun _ _ => eq_refl)).
  - open_coo H. destruct (H3 (pyc_arrays x)) as (ED & EM & _).
    destruct op; try discriminate D; try (destruct (qc_eqb alpha 0q) eqn:EA; [discriminate D|]); injection D as <-;
      cbn [do_scalar]; unfold coo_use; rewrite ?U, ?P; cbn [bind]; rewrite ?FC, ?MC by auto.
    + rewrite EM. cbn [bind]. apply coo_new_rep. exact (coo_with_rep _ _ _ _ _ _ R Z1 (fun _ _ => eq_refl)).
    + rewrite ED by auto. cbn [bind]. apply coo_new_rep. exact (coo_with_rep _ _ _ _ _ _ R Z2 (fun _ _ => eq_refl)).
    + unfold floordiv_scalar_coo. erewrite coo_with_map by apply par_map_ok. apply coo_new_rep. exact (coo_with_rep _ _ _ _ _ _ R Z3 (fun _ _ => eq_refl)).
    + unfold rem_scalar_coo. erewrite coo_with_map by apply par_map_ok. apply coo_new_rep. exact (coo_with_rep _ _ _ _ _ _ R Z4 (fun _ _ => eq_refl)).
Qed.

(** ** Binary operators *)
Definition combines (k : Cs qc -> Cs qc -> res (Cs qc)) (f : Qc -> Qc -> Qc) : Prop :=
  forall A B m n a b, cs_rep A m n a -> cs_rep B m n b -> exists C, k A B = Ok C /\ cs_rep C m n (fun i j => f (a i j) (b i j)).
Lemma add_combines : combines (add_csr (F := qc) (e_sch e 0)) Qcplus.
Proof.
  intros A B m n a b (CA & A1 & A2 & VA) (CB & B1 & B2 & VB). assert (S := fair_sch _ FE 0).
  destruct (add_ok (e_sch e 0) A B S CA CB) as [C E]; try (unfold csr_nrows, csr_ncols; congruence). exists C. split; auto.
  apply add_val in E; auto; try (unfold csr_nrows, csr_ncols; congruence). unfold csr_nrows, csr_ncols in E. destruct E as (CC & _ & E1 & E2 & V).
  split; [exact CC|]. split; [congruence|]. split; [congruence|]. intros i j Hi Hj. change (val C i j = (a i j + b i j)%Qc). rewrite V by congruence.
  rewrite <- VA, <- VB by auto. reflexivity.
Qed.
Lemma sub_combines : combines (sub_csr (F := qc) (e_sch e 0)) Qcminus.
Proof.
  intros A B m n a b (CA & A1 & A2 & VA) (CB & B1 & B2 & VB). assert (S := fair_sch _ FE 0).
  destruct (sub_ok (e_sch e 0) A B S CA CB) as [C E]; try (unfold csr_nrows, csr_ncols; congruence). exists C. split; auto.
  apply sub_val in E; auto; try (unfold csr_nrows, csr_ncols; congruence). unfold csr_nrows, csr_ncols in E. destruct E as (CC & _ & E1 & E2 & V).
  split; [exact CC|]. split; [congruence|]. split; [congruence|]. intros i j Hi Hj. change (val C i j = (a i j - b i j)%Qc). rewrite V by congruence.
  rewrite <- VA, <- VB by auto. reflexivity.
Qed.
Lemma had_combines : combines (hadamard_csr (F := qc) (e_sch e 0)) Qcmult.
Proof.
  intros A B m n a b (CA & A1 & A2 & VA) (CB & B1 & B2 & VB). assert (S := fair_sch _ FE 0).
  destruct (had_ok (e_sch e 0) A B S CA CB) as [C E]; try (unfold csr_nrows, csr_ncols; congruence). exists C. split; auto.
  apply had_val in E; auto; try (unfold csr_nrows, csr_ncols; congruence). unfold csr_nrows, csr_ncols in E. destruct E as (CC & _ & E1 & E2 & V).
  split; [exact CC|]. split; [congruence|]. split; [congruence|]. intros i j Hi Hj. change (val C i j = (a i j * b i j)%Qc). rewrite V by congruence.
  rewrite <- VA, <- VB by auto. reflexivity.
Qed.
Lemma binary_rep : forall op x y X Y Z, held x X -> held y Y -> dense_binary op X Y = Some Z -> done (do_binary e op x y) Z.
Proof.
  intros op x y X Y Z HX HY D. destruct X as [k m n a| | |]; try discriminate D. destruct Y as [k' m' n' b| | |]; try discriminate D.
  cbn [dense_binary] in D. destruct (_ && _ && _ && _) eqn:G; [|discriminate D].
  apply andb_true_iff in G. destruct G as [G G4]. apply andb_true_iff in G. destruct G as [G G3]. apply andb_true_iff in G. destruct G as [G1 G2].
  apply Nat.eqb_eq in G3. apply Nat.eqb_eq in G4. subst m' n'.
  destruct k; destruct k'; try discriminate G1; try discriminate G2;
    destruct x as [x|x|x| | | |]; try (exfalso; exact (proj1 HX)); destruct y as [y|y|y| | | |]; try (exfalso; exact (proj1 HY)).
  - apply held_csr in HX, HY. destruct HX as [UX _ _ RX _ _ _ _]. destruct HY as [UY _ _ RY _ _ _ _].
    destruct op; try discriminate D; injection D as <-; cbn [do_binary]; unfold csr_both; rewrite UX, UY; cbn [bind].
    + destruct (add_combines _ _ _ _ _ _ RX RY) as (C & -> & RC). cbn [bind]. apply csr_new_rep. auto.
    + destruct (sub_combines _ _ _ _ _ _ RX RY) as (C & -> & RC). cbn [bind]. apply csr_new_rep. auto.
    + destruct (had_combines _ _ _ _ _ _ RX RY) as (C & -> & RC). cbn [bind]. apply csr_new_rep. auto.
  - apply held_csc in HX, HY. destruct HX as [UX _ _ RX _ _ _ _]. destruct HY as [UY _ _ RY _ _ _ _].
    destruct op; try discriminate D; injection D as <-; cbn [do_binary]; unfold csc_both_use, csc_use; rewrite UX, UY; cbn [bind].
    + destruct (add_combines _ _ _ _ _ _ RX RY) as (C & E & RC). change (add_csc (e_sch e 0)) with (add_csr (F := qc) (e_sch e 0)). rewrite E. cbn [bind]. apply csc_new_rep. auto.
    + destruct (sub_combines _ _ _ _ _ _ RX RY) as (C & E & RC). change (sub_csc (e_sch e 0)) with (sub_csr (F := qc) (e_sch e 0)). rewrite E. cbn [bind]. apply csc_new_rep. auto.
    + destruct (had_combines _ _ _ _ _ _ RX RY) as (C & E & RC). change (hadamard_csc (e_sch e 0)) with (hadamard_csr (F := qc) (e_sch e 0)). rewrite E. cbn [bind]. apply csc_new_rep. auto.
Qed.
End Env.
