(** Property theorems: the format of a matrix does not matter (C91). *)
Require Import List ZArith Bool Arith Lia Permutation.
Require Import Coq.Floats.SpecFloat.
Require Import Verif.Res Verif.Values Verif.Spec Verif.Mem Verif.Laws Verif.Witness Verif.SpecReduce Verif.SpecPy Verif.MPy Verif.PPy Verif.PropPy2 Verif.PropStat Verif.MObj Verif.SpecObj Verif.PObj Verif.PropObj Verif.SpecCall Verif.SpecCall2 Verif.PropCall Verif.PropCall2 Verif.PropCall5 Verif.PCall.
Require Verif.PGroup Verif.PropAccuracy Verif.PCall3 Verif.PropAccuracy3 Verif.PInt Verif.PropNan.
Import ListNotations.
Local Open Scope Z_scope.

(** *** Specification *)
(** The same matrix, maybe in another format. *)
Definition same_matrix {F : Fl} (x y : value F) : Prop :=
  shape2 x = shape2 y /\ forall i j, (i < fst (shape2 x))%nat -> (j < snd (shape2 x))%nat -> stored x i j = stored y i j.
(** Two objects whose formats correspond by [t]: the same matrix, or the same dense array (a zero
    of either sign counts as zero). *)
Definition alike {F : Fl} (t : class -> class) (x y : value F) : Prop :=
  match x, y with
  | VArr s d, VArr s' d' => s = s' /\ Forall2 feqv d d'
  | VInts s d, VInts s' d' => s = s' /\ d = d'
  | VBools s d, VBools s' d' => s = s' /\ d = d'
  | _, _ => exists k, class_of x = Some k /\ class_of y = Some (t k) /\ same_matrix x y
  end.
(** The calls: operators with a number, abs, sign, [-A], [A.T], prune, toarray, all, any and
    count_nonzero, the comparisons, dense arrays; and the operators of two matrices, if
    the translation of formats keeps apart what was apart. *)
Definition blind {F : Fl} (t : class -> class) (c : call F) : Prop :=
  match c with
  | Scalar _ _ _ | ToArray _ | Compare _ _ _ | NewArr _ _ => True
  | Unary (UPrune eps) _ => feqb eps f0 = false
  | Unary UElim _ => False
  | Unary _ _ => True
  | Reduce op _ _ _ => op = RAll \/ op = RAny \/ op = RCount
  | Binary _ _ _ => (forall k k', t k = t k' -> k = k') /\ t CooClass = CooClass
  | _ => False
  end.

(** [A + B] and [A - B], entry by entry: the rounded sum or difference of the cells is stored unless
    it is zero. *)
Theorem C60_sums_entries : forall pw (e : Env (f64 pw)) h a b x y op g, fair e -> reached h -> nth_error h a = Some x -> nth_error h b = Some y ->
  class_of x = class_of y -> class_of x = Some CsrClass \/ class_of x = Some CscClass -> sum_of op = Some g -> shape2 x = shape2 y ->
  exists z, step e h (Binary op a b) = Ok (h ++ [z]) /\ class_of z = class_of x /\ shape2 z = shape2 x /\
    forall i j, (i < fst (shape2 x))%nat -> (j < snd (shape2 x))%nat -> let w := g (cell x i j) (cell y i j) in stored z i j = if feqb w f0 then [] else [w].
Proof.
  intros pw e h a b x y op g FE R Na Nb EC BC N ES. assert (NL := f64_laws pw). assert (Kx := PCall3.reached_nth h a x NL R Na). assert (Ky := PCall3.reached_nth h b y NL R Nb).
  cbn [step exec]. rewrite (PCall3.get_is _ _ _ Na), (PCall3.get_is _ _ _ Nb). cbn [bind].
  assert (ONE : forall (l : list (f64 pw)) w, (length l <= 1)%nat -> (forall v, In v l -> feqb v f0 = false) -> feqv (one_or f0 l) w -> l = if feqb w f0 then [] else [w]).
  { intros [|v [|? ?]] w L NZ Q; [| |cbn in L; lia].
    - destruct Q as [<-|[_ Q]]; [reflexivity|]. rewrite Q. reflexivity.
    - assert (Z := NZ v (or_introl eq_refl)). cbn [one_or] in Q. destruct Q as [<-|[Q _]]; [rewrite Z; reflexivity|congruence]. }
  destruct (PCall3.do_binary_is e op x y Kx Ky EC BC) as (A & B & CA & CB & H1 & H2).
  destruct BC as [BC|BC]; [destruct (H1 BC) as (E & S1 & S2 & V1 & V2)|destruct (H2 BC) as (E & S1 & S2 & V1 & V2)]; rewrite S1, S2 in ES; injection ES as E1 E2;
  destruct (PCall3.kernel_merge NL op g N (e_sch e 0) A B (fair_sch _ FE 0%nat) CA CB) as (C & EK & CC & M1 & M2 & NZ & AT); auto; rewrite E, EK; cbn [bind].
  - destruct (PCall3.csr_new_is C) as [H EN]. rewrite EN. cbn [bind]. eexists. split; [reflexivity|]. split; [symmetry; exact BC|]. rewrite S1. cbn [shape2 py_arrays fst snd]. split; [unfold csr_nrows, csr_ncols; congruence|].
    intros i j Hi Hj. apply ONE.
    + cbn [stored py_arrays]. apply PGroup.canonical_single; [exact CC|congruence].
    + intros v Hv. apply NZ. eapply (PropAccuracy.stored_in_data _ _ (dat C) i j); [|exact Hv]. reflexivity.
    + unfold cell. rewrite V1, V2. cbn [stored py_arrays]. apply AT. exact Hi.
  - destruct (PCall3.csc_new_is C) as [H EN]. rewrite EN. cbn [bind]. eexists. split; [reflexivity|]. split; [symmetry; exact BC|]. rewrite S1. cbn [shape2 py_arrays fst snd]. split; [unfold csc_nrows, csc_ncols; congruence|].
    intros i j Hi Hj. apply ONE.
    + cbn [stored py_arrays]. apply (PGroup.canonical_single _ CC). congruence.
    + intros v Hv. apply NZ. eapply (PropAccuracy.stored_in_data _ _ (dat C) i j); [|exact Hv]. reflexivity.
    + unfold cell. rewrite V1, V2. cbn [stored py_arrays]. apply AT. exact Hj.
Qed.
Print Assumptions C60_sums_entries.

(** *** Proofs *)
Section Steps.
Context {pw : spec_float -> spec_float -> spec_float}.
Notation F := (f64 pw).
Implicit Types (h : list (value F)) (x y z : value F).

Lemma feqv_zero : forall v : F, feqv (fadd f0 v) v.
Proof. intros [[]|[]| |]; try (left; reflexivity); right; split; reflexivity. Qed.
Lemma cmp_feqv : forall c (u u' v v' : F), feqv u u' -> feqv v v' -> cmp_fun c u v = cmp_fun c u' v'.
Proof.
  assert (Z : forall a : F, feqb a f0 = true -> exists s, a = S754_zero s).
  { intros [s|s| |s m x] E; try discriminate E; [exists s; reflexivity|destruct s; discriminate E|destruct s; discriminate E]. }
  assert (G : forall (u u' : F), feqv u u' -> forall v, feqb u v = feqb u' v /\ fltb u v = fltb u' v /\ feqb v u = feqb v u' /\ fltb v u = fltb v u').
  { intros u u' [-> |[E E']] v; [repeat split|]. destruct (Z _ E) as [s ->]. destruct (Z _ E') as [s' ->]. destruct v as [s2|[]| |[] m x]; repeat split. }
  intros c u u' v v' U V. destruct (G _ _ U v) as (A1 & A2 & A3 & A4). destruct (G _ _ V u') as (B1 & B2 & B3 & B4). unfold cmp_fun. destruct c; congruence.
Qed.
Lemma feqv_nth : forall (d d' : list F) k, Forall2 feqv d d' -> feqv (nth k d f0) (nth k d' f0).
Proof. intros d d' k H. revert k. induction H; intros [|k]; cbn [nth]; auto; left; reflexivity. Qed.
Lemma np_compare_alike : forall c s s' (d1 d1' d2 d2' : list F), Forall2 feqv d1 d1' -> Forall2 feqv d2 d2' -> np_compare c (s, d1) (s', d2) = np_compare c (s, d1') (s', d2').
Proof.
  intros c s s' d1 d1' d2 d2' H1 H2. unfold np_compare. cbn [fst]. destruct (np_broadcast s s') as [sh|]; [|reflexivity]. do 2 f_equal. apply map_ext. intros k. apply cmp_feqv; apply feqv_nth; assumption.
Qed.

Lemma shown_alike : forall x y i j, held x -> held y -> same_matrix x y -> (i < fst (shape2 x))%nat -> (j < snd (shape2 x))%nat -> feqv (shown x i j) (shown y i j).
Proof.
  intros x y i j Kx Ky [S M] Hi Hj. assert (L := PropAccuracy3.stored_one pw x i j Kx Hi Hj). assert (E := M i j Hi Hj).
  assert (G : forall w : value F, stored w i j = stored x i j -> feqv (shown w i j) (one_or f0 (stored x i j))).
  { intros w EW. unfold shown. rewrite EW. destruct w; try (left; reflexivity). destruct (stored x i j) as [|v [|? ?]]; [left; reflexivity| |cbn in L; lia]. apply feqv_zero. }
  assert (Q := G x eq_refl). assert (Q' := G y (eq_sym E)). destruct Q as [Q|[Q1 Q2]], Q' as [Q'|[Q1' Q2']]; [left|right|right|right]; [congruence|..]; split; congruence.
Qed.
Lemma concat_feqv : forall (l l' : list (list F)), Forall2 (Forall2 feqv) l l' -> Forall2 feqv (concat l) (concat l').
Proof. intros l l' H. induction H; cbn [concat]; [constructor|]. apply Forall2_app; assumption. Qed.
Lemma map_F2 : forall {A B} (P : B -> B -> Prop) (f g : A -> B) l, (forall a, In a l -> P (f a) (g a)) -> Forall2 P (map f l) (map g l).
Proof. intros A B P f g l. induction l as [|a l IH]; intros H; cbn [map]; constructor; [apply H; left; reflexivity|]. apply IH. intros b Hb. apply H. right. exact Hb. Qed.
Lemma dense_alike : forall x y, held x -> held y -> same_matrix x y ->
  Forall2 feqv (concat (dense (fst (shape2 x)) (snd (shape2 x)) (shown x))) (concat (dense (fst (shape2 y)) (snd (shape2 y)) (shown y))).
Proof.
  intros x y Kx Ky SM. assert (S := proj1 SM). rewrite <- S. apply concat_feqv. unfold dense. apply map_F2. intros i Hi. apply in_seq in Hi. apply map_F2. intros j Hj. apply in_seq in Hj. apply shown_alike; auto; lia.
Qed.

Lemma alike_class : forall t x y, alike t x y -> class_of y = option_map t (class_of x).
Proof. intros t x y A. destruct x; destruct y; cbn [alike] in A; try (destruct A as (k & E1 & E2 & _); rewrite E1, E2; reflexivity); reflexivity. Qed.
Lemma alike_matrix : forall t x y k, class_of x = Some k -> alike t x y -> class_of y = Some (t k) /\ same_matrix x y.
Proof.
  intros t x y k C A. destruct x; try discriminate C; destruct y; cbn [alike] in A; destruct A as (k' & E1 & E2 & SM); rewrite C in E1; injection E1 as <-; auto.
Qed.
Lemma matrix_alike : forall t x y k, class_of x = Some k -> class_of y = Some (t k) -> same_matrix x y -> alike t x y.
Proof. intros t x y k C C' SM. destruct x; try discriminate C; destruct y; try discriminate C'; exists k; auto. Qed.
Lemma alike_dense : forall t x y, alike t x y -> held x -> held y -> plain_shape x /\ plain_shape y /\ sparse x = sparse y /\ (exists s d d', dense_form x = Some (s, d) /\ dense_form y = Some (s, d') /\ Forall2 feqv d d').
Proof.
  intros t x y A Kx Ky.
  assert (R : forall l : list F, Forall2 feqv l l) by (intros l; induction l; constructor; auto; left; reflexivity).
  assert (PS : plain_shape x /\ plain_shape y) by (destruct x; destruct y; cbn [alike] in A; try (destruct A as (? & E1 & E2 & _); discriminate E1 || discriminate E2); split; exact I).
  destruct PS as [P1 P2]. split; [exact P1|]. split; [exact P2|]. destruct (class_of x) as [k|] eqn:C.
  - destruct (alike_matrix t x y k C A) as [C' SM]. split; [destruct x; try discriminate C; destruct y; try discriminate C'; reflexivity|].
    exists [fst (shape2 x); snd (shape2 x)], (concat (dense (fst (shape2 x)) (snd (shape2 x)) (shown x))), (concat (dense (fst (shape2 y)) (snd (shape2 y)) (shown y))).
    split; [destruct x; try discriminate C; reflexivity|]. split; [|apply dense_alike; assumption]. rewrite (proj1 SM). destruct y; try discriminate C'; reflexivity.
  - destruct x; try discriminate C; destruct y; cbn [alike] in A; try (destruct A as (? & E1 & E2 & _); discriminate E1 || discriminate E2); destruct A as [-> A]; (split; [reflexivity|]); cbn [dense_form floats]; try subst; do 3 eexists; split; try reflexivity; split; try reflexivity; auto.
Qed.

Lemma counts_ext : forall {J} (c c' : J -> list F) js, (forall j, In j js -> c j = c' j) -> counts c js = counts c' js.
Proof. intros J c c' js H. unfold counts. do 2 f_equal. rewrite !flat_map_concat_map. f_equal. apply map_ext_in. exact H. Qed.
Lemma decides_ext : forall {J} op (c c' : J -> list F) js, (forall j, In j js -> c j = c' j) -> decides op c js = decides op c' js.
Proof.
  intros J op c c' js H. unfold decides. assert (G1 : forallb (fun j => negb (feqb (one_or f0 (c j)) f0)) js = forallb (fun j => negb (feqb (one_or f0 (c' j)) f0)) js /\ existsb (fun j => negb (feqb (one_or f0 (c j)) f0)) js = existsb (fun j => negb (feqb (one_or f0 (c' j)) f0)) js).
  { induction js as [|j js IH]; [auto|]. cbn [forallb existsb]. rewrite (H j (or_introl eq_refl)). destruct IH as [I1 I2]; [intros j' Hj; apply H; right; exact Hj|]. rewrite I1, I2. auto. }
  destruct G1 as [G1 G2]. destruct op; assumption.
Qed.
Lemma in_grid : forall m n p, In p (grid m n) -> (fst p < m)%nat /\ (snd p < n)%nat.
Proof. intros m n [i j] H. unfold grid in H. apply in_prod_iff in H. destruct H as [Hi Hj]. apply in_seq in Hi. apply in_seq in Hj. cbn. lia. Qed.

Lemma nth_alike : forall t h h' a, Forall2 (alike t) h h' -> (nth_error h a = None /\ nth_error h' a = None) \/ exists x y, nth_error h a = Some x /\ nth_error h' a = Some y /\ alike t x y.
Proof. intros t h h' a H. revert a. induction H; intros [|a]; cbn [nth_error]; auto. right. exists x, y. auto. Qed.
Lemma no_class : forall t x y, alike t x y -> class_of x = None -> match x with VArr _ _ | VInts _ _ | VBools _ _ => True | _ => False end /\ match y with VArr _ _ | VInts _ _ | VBools _ _ => True | _ => False end.
Proof. intros t x y A C. destruct x; try discriminate C; destruct y; cbn [alike] in A; try (destruct A as (? & E1 & E2 & _); discriminate E1 || discriminate E2); auto. Qed.

(** Both raise, or both return objects that are alike. *)
Definition together (t : class -> class) (e e' : Env F) h h' c : Prop :=
  (step e h c = Panic /\ step e' h' c = Panic) \/ exists z z', step e h c = Ok (h ++ [z]) /\ step e' h' c = Ok (h' ++ [z']) /\ alike t z z'.

Lemma step_alike : forall t (e e' : Env F) h h' c, fair e -> fair e' -> reached h -> reached h' -> Forall2 (alike t) h h' -> blind t c -> together t e e' h h' c.
Proof.
  intros t e e' h h' c FE FE' R R' H B. assert (NL := f64_laws pw). unfold together. destruct c; cbn [blind] in B; try contradiction.
  - (* NewArr *) cbn [step exec]. unfold new_arr, arr_new. destruct (reshape_to shape data) as [[sh d]| | |] eqn:EL; [|left; auto|unfold reshape_to in EL; destruct (_ =? _)%nat in EL; discriminate EL|unfold reshape_to in EL; destruct (_ =? _)%nat in EL; discriminate EL].
    right. exists (VArr sh d), (VArr sh d). split; [reflexivity|]. split; [reflexivity|]. split; [reflexivity|]. clear. induction d; constructor; auto. left. reflexivity.
  - (* Unary *) destruct (nth_alike t h h' a H) as [[N N']|(x & y & N & N' & A)]; [left; cbn [step exec]; unfold get_checked; rewrite N, N'; auto|].
    destruct (class_of x) as [k|] eqn:C.
    + destruct (alike_matrix t x y k C A) as [C' [S M]]. assert (NC : class_of x <> None) by (rewrite C; discriminate). assert (NC' : class_of y <> None) by (rewrite C'; discriminate). right.
      assert (MAP : is_map op = true -> exists z z', step e h (Unary op a) = Ok (h ++ [z]) /\ step e' h' (Unary op a) = Ok (h' ++ [z']) /\ alike t z z').
      { intros IM. destruct (C60_unary_maps F e h a x op NL R N NC IM) as (z & E & Cz & Sz & Vz). destruct (C60_unary_maps F e' h' a y op NL R' N' NC' IM) as (z' & E' & Cz' & Sz' & Vz').
        exists z, z'. split; [exact E|]. split; [exact E'|]. apply (matrix_alike t z z' k); [congruence|congruence|]. split; [congruence|]. intros i j Hi Hj. rewrite Sz in Hi, Hj. rewrite Vz, Vz', (M i j Hi Hj). reflexivity. }
      destruct op as [| | |eps| |]; try (apply MAP; reflexivity); cbn [blind] in B; try contradiction.
      * destruct (C60_prune F e h a x eps NL FE R N NC B) as (z & E & Cz & Sz & Vz). destruct (C60_prune F e' h' a y eps NL FE' R' N' NC' B) as (z' & E' & Cz' & Sz' & Vz').
        exists z, z'. split; [exact E|]. split; [exact E'|]. apply (matrix_alike t z z' k); [congruence|congruence|]. split; [congruence|]. intros i j Hi Hj. rewrite Sz in Hi, Hj. rewrite Vz, Vz' by (rewrite <- ?S; assumption). rewrite (M i j Hi Hj). reflexivity.
      * destruct (C60_transpose F e h a x NL FE R N NC) as (z & E & Cz & Sz & Vz). destruct (C60_transpose F e' h' a y NL FE' R' N' NC') as (z' & E' & Cz' & Sz' & Vz').
        exists z, z'. split; [exact E|]. split; [exact E'|]. apply (matrix_alike t z z' k); [congruence|congruence|]. split; [rewrite Sz, Sz', S; reflexivity|]. intros i j Hi Hj. rewrite Sz in Hi, Hj. cbn [fst snd] in Hi, Hj.
        rewrite Vz, Vz' by (rewrite <- ?S; assumption). apply M; assumption.
    + left. destruct (no_class t x y A C) as [Q Q']. cbn [step exec]. rewrite (PCall3.get_is _ _ _ N), (PCall3.get_is _ _ _ N'). cbn [bind].
      split; [destruct x; try contradiction; destruct op; reflexivity|destruct y; try contradiction; destruct op; reflexivity].
  - (* Scalar *) destruct (nth_alike t h h' a H) as [[N N']|(x & y & N & N' & A)]; [left; cbn [step exec]; unfold get_checked; rewrite N, N'; auto|].
    destruct (class_of x) as [k|] eqn:C.
    + destruct (alike_matrix t x y k C A) as [C' [S M]]. assert (NC : class_of x <> None) by (rewrite C; discriminate). assert (NC' : class_of y <> None) by (rewrite C'; discriminate).
      destruct (C60_scalar_operators F e h a x op alpha NL R N NC) as [P Q]. destruct (C60_scalar_operators F e' h' a y op alpha NL R' N' NC') as [P' Q']. destruct (scalar_raises op alpha).
      * left. auto.
      * right. destruct (Q eq_refl) as (z & E & Cz & Sz & Vz). destruct (Q' eq_refl) as (z' & E' & Cz' & Sz' & Vz'). exists z, z'. split; [exact E|]. split; [exact E'|]. apply (matrix_alike t z z' k); [congruence|congruence|].
        split; [congruence|]. intros i j Hi Hj. rewrite Sz in Hi, Hj. rewrite Vz, Vz', (M i j Hi Hj). reflexivity.
    + left. destruct (no_class t x y A C) as [Q Q']. cbn [step exec]. rewrite (PCall3.get_is _ _ _ N), (PCall3.get_is _ _ _ N'). cbn [bind].
      split; [destruct x; try contradiction; destruct op; reflexivity|destruct y; try contradiction; destruct op; reflexivity].
  - (* Binary *) destruct B as (IT & TC). destruct (nth_alike t h h' a H) as [[N N']|(x & y & N & N' & A)]; [left; cbn [step exec]; unfold get_checked; rewrite N, N'; auto|].
    destruct (nth_alike t h h' b H) as [[Nb Nb']|(x2 & y2 & Nb & Nb' & A2)]; [left; cbn [step exec]; unfold get_checked; rewrite N, N', Nb, Nb'; auto|].
    assert (CC := alike_class t x y A). assert (CC2 := alike_class t x2 y2 A2).
    destruct (class_of x) as [k|] eqn:C.
    + destruct (alike_matrix t x y k C A) as [C' [S M]]. cbn [option_map] in CC.
      assert (D : class_of x2 = Some k \/ class_of x2 <> Some k) by (destruct (class_of x2) as [k2|]; [destruct k, k2; first [left; reflexivity|right; discriminate]|right; discriminate]).
      destruct D as [C2|C2].
      * destruct (alike_matrix t x2 y2 k C2 A2) as [C2' [S2 M2]].
        assert (K3 : k = CooClass \/ (k = CsrClass \/ k = CscClass)) by (destruct k; auto). destruct K3 as [-> |K3].
        -- left. split; [apply (C60_no_binary_operators F e h a b x x2 op N Nb); right; exact C|apply (C60_no_binary_operators F e' h' a b y y2 op N' Nb'); right; rewrite C', TC; reflexivity].
        -- assert (K4 : t k = CsrClass \/ t k = CscClass). { destruct (t k) eqn:ET; auto. rewrite <- TC in ET. apply IT in ET. destruct K3; congruence. }
           assert (BC : class_of x = Some CsrClass \/ class_of x = Some CscClass) by (rewrite C; destruct K3 as [-> | ->]; auto).
           assert (BC' : class_of y = Some CsrClass \/ class_of y = Some CscClass) by (rewrite C'; destruct K4 as [-> | ->]; auto).
           assert (DS : shape2 x = shape2 x2 \/ shape2 x <> shape2 x2) by (destruct (shape2 x) as [p1 p2], (shape2 x2) as [p3 p4]; destruct (Nat.eq_dec p1 p3), (Nat.eq_dec p2 p4); subst; auto; right; congruence).
           destruct (sum_of (F := F) op) as [g|] eqn:NS.
           ++ destruct DS as [DS|DS]; [|left; split; [apply (C60_sums F e h a b x x2 op g NL FE R N Nb ltac:(congruence) BC NS); exact DS|apply (C60_sums F e' h' a b y y2 op g NL FE' R' N' Nb' ltac:(congruence) BC' NS); congruence]]. right.
              destruct (C60_sums_entries pw e h a b x x2 op g FE R N Nb ltac:(congruence) BC NS DS) as (z & E & Cz & Sz & Vz). destruct (C60_sums_entries pw e' h' a b y y2 op g FE' R' N' Nb' ltac:(congruence) BC' NS ltac:(congruence)) as (z' & E' & Cz' & Sz' & Vz').
              exists z, z'. split; [exact E|]. split; [exact E'|]. apply (matrix_alike t z z' k); [congruence|congruence|]. split; [congruence|]. intros i j Hi Hj. rewrite Sz in Hi, Hj. specialize (Vz i j Hi Hj). specialize (Vz' i j ltac:(rewrite <- S; exact Hi) ltac:(rewrite <- S; exact Hj)).
              unfold cell in Vz, Vz'. rewrite <- (M i j Hi Hj), <- (M2 i j ltac:(rewrite <- DS; exact Hi) ltac:(rewrite <- DS; exact Hj)) in Vz'. cbv zeta in Vz, Vz'. rewrite Vz, Vz'. reflexivity.
           ++ destruct (C60_common_entries F e h a b x x2 op NL FE R N Nb ltac:(congruence) BC NS) as [P Q]. destruct (C60_common_entries F e' h' a b y y2 op NL FE' R' N' Nb' ltac:(congruence) BC' NS) as [P' Q'].
              destruct DS as [DS|DS]; [|left; split; [apply P; exact DS|apply P'; congruence]]. right.
              destruct (Q DS) as (z & E & Cz & Sz & Vz). destruct (Q' ltac:(congruence)) as (z' & E' & Cz' & Sz' & Vz'). exists z, z'. split; [exact E|]. split; [exact E'|]. apply (matrix_alike t z z' k); [congruence|congruence|].
              split; [congruence|]. intros i j Hi Hj. rewrite Sz in Hi, Hj. destruct (Vz i j Hi Hj) as [V1 V2]. destruct (Vz' i j ltac:(rewrite <- S; exact Hi) ltac:(rewrite <- S; exact Hj)) as [V1' V2'].
              rewrite <- (M i j Hi Hj), <- (M2 i j ltac:(rewrite <- DS; exact Hi) ltac:(rewrite <- DS; exact Hj)) in V1'. destruct V2 as [V2|[v V2]].
              ** destruct V2' as [V2'|[v V2']]; [congruence|]. exfalso. assert (W := proj1 (V1' v) V2'). apply V1 in W. congruence.
              ** rewrite V2. symmetry. apply V1'. apply V1. exact V2.
      * left. split; [apply (C60_no_binary_operators F e h a b x x2 op N Nb); left; congruence|]. apply (C60_no_binary_operators F e' h' a b y y2 op N' Nb'). left. rewrite CC, CC2. destruct (class_of x2) as [k2|]; cbn [option_map]; [|discriminate]. intros EQ. injection EQ as EQ. apply IT in EQ. congruence.
    + left. destruct (no_class t x y A C) as [Q Q']. cbn [step exec]. rewrite (PCall3.get_is _ _ _ N), (PCall3.get_is _ _ _ N'), (PCall3.get_is _ _ _ Nb), (PCall3.get_is _ _ _ Nb'). cbn [bind].
      split; [destruct x; try contradiction; destruct op; reflexivity|destruct y; try contradiction; destruct op; reflexivity].
  - (* Reduce *) destruct (nth_alike t h h' a H) as [[N N']|(x & y & N & N' & A)]; [left; cbn [step exec]; unfold get_checked; rewrite N, N'; auto|].
    destruct (class_of x) as [k|] eqn:C.
    + destruct (alike_matrix t x y k C A) as [C' [S M]]. assert (NC : class_of x <> None) by (rewrite C; discriminate). assert (NC' : class_of y <> None) by (rewrite C'; discriminate).
      assert (G : op = RCount \/ (op = RAll \/ op = RAny)) by tauto. destruct G as [-> |G].
      * rewrite (C62_count_nonzero pw e h a x FE R N NC), (C62_count_nonzero pw e' h' a y FE' R' N' NC'). rewrite <- S. unfold reduction_result.
        assert (G1 : counts (fun p => stored y (fst p) (snd p)) (grid (fst (shape2 x)) (snd (shape2 x))) = counts (fun p => stored x (fst p) (snd p)) (grid (fst (shape2 x)) (snd (shape2 x)))).
        { apply counts_ext. intros p Hp. apply in_grid in Hp. symmetry. apply M; apply Hp. }
        assert (G2 : map (fun j => counts (fun i => stored y i j) (seq 0 (fst (shape2 x)))) (seq 0 (snd (shape2 x))) = map (fun j => counts (fun i => stored x i j) (seq 0 (fst (shape2 x)))) (seq 0 (snd (shape2 x)))).
        { apply map_ext_in. intros j Hj. apply in_seq in Hj. apply counts_ext. intros i Hi. apply in_seq in Hi. symmetry. apply M; lia. }
        assert (G3 : map (fun i => counts (fun j => stored y i j) (seq 0 (snd (shape2 x)))) (seq 0 (fst (shape2 x))) = map (fun i => counts (fun j => stored x i j) (seq 0 (snd (shape2 x)))) (seq 0 (fst (shape2 x)))).
        { apply map_ext_in. intros i Hi. apply in_seq in Hi. apply counts_ext. intros j Hj. apply in_seq in Hj. symmetry. apply M; lia. }
        rewrite G1, G2, G3. match goal with |- context [reduction_2d ?p ?q ?r ?s ?u] => destruct (reduction_2d p q r s u) as [[sh d]|] end; [right|left; auto]. exists (VInts sh d), (VInts sh d). repeat split.
      * rewrite (C62_all_any pw e h a x op FE R N NC G), (C62_all_any pw e' h' a y op FE' R' N' NC' G). rewrite <- S. unfold reduction_result.
        assert (G1 : decides op (fun p => stored y (fst p) (snd p)) (grid (fst (shape2 x)) (snd (shape2 x))) = decides op (fun p => stored x (fst p) (snd p)) (grid (fst (shape2 x)) (snd (shape2 x)))).
        { apply decides_ext. intros p Hp. apply in_grid in Hp. symmetry. apply M; apply Hp. }
        assert (G2 : map (fun j => decides op (fun i => stored y i j) (seq 0 (fst (shape2 x)))) (seq 0 (snd (shape2 x))) = map (fun j => decides op (fun i => stored x i j) (seq 0 (fst (shape2 x)))) (seq 0 (snd (shape2 x)))).
        { apply map_ext_in. intros j Hj. apply in_seq in Hj. apply decides_ext. intros i Hi. apply in_seq in Hi. symmetry. apply M; lia. }
        assert (G3 : map (fun i => decides op (fun j => stored y i j) (seq 0 (snd (shape2 x)))) (seq 0 (fst (shape2 x))) = map (fun i => decides op (fun j => stored x i j) (seq 0 (snd (shape2 x)))) (seq 0 (fst (shape2 x)))).
        { apply map_ext_in. intros i Hi. apply in_seq in Hi. apply decides_ext. intros j Hj. apply in_seq in Hj. symmetry. apply M; lia. }
        rewrite G1, G2, G3. match goal with |- context [reduction_2d ?p ?q ?r ?s ?u] => destruct (reduction_2d p q r s u) as [[sh d]|] end; [right|left; auto]. exists (VBools sh d), (VBools sh d). repeat split.
    + left. destruct (no_class t x y A C) as [Q Q']. cbn [step exec]. rewrite (PCall3.get_is _ _ _ N), (PCall3.get_is _ _ _ N'). cbn [bind].
      split; [destruct x; try contradiction; reflexivity|destruct y; try contradiction; reflexivity].
  - (* ToArray *) destruct (nth_alike t h h' a H) as [[N N']|(x & y & N & N' & A)]; [left; cbn [step exec]; unfold get_checked; rewrite N, N'; auto|].
    assert (Kx := PCall3.reached_nth h a x NL R N). assert (Ky := PCall3.reached_nth h' a y NL R' N').
    destruct (C65_toarray F e h a x NL R N) as [P Q]. destruct (C65_toarray F e' h' a y NL R' N') as [P' Q']. assert (CC := alike_class t x y A). destruct (class_of x) as [k|] eqn:C.
    + right. destruct (alike_matrix t x y k C A) as [C' SM]. do 2 eexists. split; [apply P; discriminate|]. split; [apply P'; rewrite C'; discriminate|]. split; [rewrite (proj1 SM); reflexivity|]. apply dense_alike; assumption.
    + left. split; [apply Q; reflexivity|apply Q'; exact CC].
  - (* Compare *) destruct (nth_alike t h h' a H) as [[N N']|(x & y & N & N' & A)]; [left; cbn [step exec]; unfold get_checked; rewrite N, N'; auto|].
    destruct (nth_alike t h h' b H) as [[Nb Nb']|(x2 & y2 & Nb & Nb' & A2)]; [left; cbn [step exec]; unfold get_checked; rewrite N, N', Nb, Nb'; auto|].
    assert (Kx := PCall3.reached_nth h a x NL R N). assert (Ky := PCall3.reached_nth h' a y NL R' N'). assert (Kx2 := PCall3.reached_nth h b x2 NL R Nb). assert (Ky2 := PCall3.reached_nth h' b y2 NL R' Nb').
    destruct (alike_dense t x y A Kx Ky) as (P1 & P1' & SP & s & d & d' & D1 & D1' & V1). destruct (alike_dense t x2 y2 A2 Kx2 Ky2) as (P2 & P2' & SP2 & s2 & d2 & d2' & D2 & D2' & V2).
    cbn [step exec]. rewrite (PCall3.get_is _ _ _ N), (PCall3.get_is _ _ _ N'), (PCall3.get_is _ _ _ Nb), (PCall3.get_is _ _ _ Nb'). cbn [bind]. unfold do_compare.
    rewrite (densify_is x Kx P1), (densify_is y Ky P1'), (densify_is x2 Kx2 P2), (densify_is y2 Ky2 P2'), D1, D1', D2, D2', SP, SP2. destruct (sparse y || sparse y2); cbn [bind]; [|left; auto].
    rewrite (np_compare_alike c s s2 d d' d2 d2' V1 V2). unfold np_compare. cbn [fst]. destruct (np_broadcast s s2) as [sh|]; cbn [bind arr_new]; [right|left; auto]. do 2 eexists. split; [reflexivity|]. split; [reflexivity|]. split; reflexivity.
Qed.
End Steps.

(** *** Properties *)
(** One call on two heaps whose objects are alike. *)
Theorem C91_calls : forall pw t (e e' : Env (f64 pw)) h h' c, fair e -> fair e' -> reached h -> reached h' -> Forall2 (alike t) h h' -> blind t c ->
  (step e h c = Panic /\ step e' h' c = Panic) \/ exists z z', step e h c = Ok (h ++ [z]) /\ step e' h' c = Ok (h' ++ [z']) /\ alike t z z'.
Proof. intros pw t e e' h h' c FE FE' R R' H B. apply (step_alike t e e' h h' c FE FE' R R' H B). Qed.
Print Assumptions C91_calls.

(** Whole programs: the same calls on matrices in other formats, under other schedules. *)
Theorem C91_programs : forall pw t (l l' : list (Env (f64 pw) * call (f64 pw))) h h' g g', map snd l = map snd l' -> Forall (fun s => fair (fst s) /\ blind t (snd s)) l -> Forall (fun s => fair (fst s)) l' ->
  reached h -> reached h' -> Forall2 (alike t) h h' -> run h l = Running g -> run h' l' = Running g' -> Forall2 (alike t) g g'.
Proof.
  intros pw t l. induction l as [|[e c] l IH]; intros [|[e' c'] l'] h h' g g' EM B FR R R' H E E'; try discriminate EM.
  { cbn [run] in E, E'. injection E as <-. injection E' as <-. exact H. }
  cbn [map snd] in EM. injection EM as EC EM. subst c'. inversion B as [|? ? [FE BC] B']; subst. inversion FR as [|? ? FE' FR']; subst. cbn [fst snd] in *. cbn [run] in E, E'.
  destruct (i64_max <=? demand h c) eqn:D; [discriminate E|]. destruct (i64_max <=? demand h' c) eqn:D'; [discriminate E'|]. apply Z.leb_gt in D. apply Z.leb_gt in D'.
  assert (RA : regular_arguments c) by (destruct c; cbn [blind] in BC; try contradiction; exact I).
  assert (NE : forall h0, ~ excluded h0 c) by (intros h0 X; destruct c; cbn [blind] in BC; try contradiction; exact X).
  destruct (C91_calls pw t e e' h h' c FE FE' R R' H BC) as [[P P']|(z & z' & P & P' & A)].
  - rewrite P in E. rewrite P' in E'. exact (IH l' h h' g g' EM B' FR' R R' H E E').
  - rewrite P in E. rewrite P' in E'. destruct (forallb fits (h ++ [z])) eqn:FT; [|discriminate E]. destruct (forallb fits (h' ++ [z'])) eqn:FT'; [|discriminate E'].
    apply (IH l' (h ++ [z]) (h' ++ [z']) g g' EM B' FR'); [| | |exact E|exact E'].
    + apply (reached_call h e c _ R FE RA (NE h) D P FT).
    + apply (reached_call h' e' c _ R' FE' RA (NE h') D' P' FT').
    + apply Forall2_app; [exact H|]. constructor; [exact A|constructor].
Qed.
Print Assumptions C91_programs.

(** Minima and maxima of matrices without NaN. *)
Lemma neither_less : forall pw (u v : f64 pw), fnan u = false -> fnan v = false -> fltb u v = false -> fltb v u = false -> feqv u v.
Proof.
  intros pw u v NU NV L1 L2. change (SFltb u v = false) in L1. change (SFltb v u = false) in L2. unfold SFltb in L1, L2.
  destruct u as [su|su| |su mu eu], v as [sv|sv| |sv mv ev]; try discriminate NU; try discriminate NV; try (right; split; reflexivity); try destruct su; try destruct sv; cbn [SFcompare] in L1, L2; try discriminate L1; try discriminate L2; try (left; reflexivity).
  - destruct (eu ?= ev) eqn:E; rewrite Z.compare_antisym, E in L2; cbn [CompOpp] in L2; try discriminate L1; try discriminate L2. apply Z.compare_eq in E. subst ev.
    change (Pos.compare_cont Eq mu mv) with (mu ?= mv)%positive in L1. change (Pos.compare_cont Eq mv mu) with (mv ?= mu)%positive in L2. rewrite (Pos.compare_antisym mu mv) in L2. destruct (mu ?= mv)%positive eqn:E; try discriminate L1; try discriminate L2. apply Pos.compare_eq in E. subst. left. reflexivity.
  - destruct (eu ?= ev) eqn:E; rewrite Z.compare_antisym, E in L2; cbn [CompOpp] in L2; try discriminate L1; try discriminate L2. apply Z.compare_eq in E. subst ev.
    change (Pos.compare_cont Eq mu mv) with (mu ?= mv)%positive in L1. change (Pos.compare_cont Eq mv mu) with (mv ?= mu)%positive in L2. rewrite (Pos.compare_antisym mu mv) in L2. destruct (mu ?= mv)%positive eqn:E; try discriminate L1; try discriminate L2. apply Pos.compare_eq in E. subst. left. reflexivity.
Qed.
Lemma extrema_one : forall pw {J} op (c c' : J -> list (f64 pw)) js v v', op = RMin \/ op = RMax -> (forall j, In j js -> c j = c' j /\ no_nan (c j)) -> reduces op c js v -> reduces op c' js v' -> feqv v v'.
Proof.
  intros pw J op c c' js v v' OP H R R'. assert (E : map (fun j => one_or f0 (c' j)) js = map (fun j => one_or (f0 : f64 pw) (c j)) js) by (apply map_ext_in; intros j Hj; rewrite (proj1 (H j Hj)); reflexivity).
  set (l := map (fun j => one_or (f0 : f64 pw) (c j)) js) in *.
  assert (NN : forall w, In w l -> fnan w = false).
  { intros w Hw. apply in_map_iff in Hw. destruct Hw as (j & <- & Hj). destruct (H j Hj) as [_ N]. destruct (c j) as [|p q]; [reflexivity|]. inversion N; subst. destruct q; cbn [one_or]; [assumption|]. first [assumption|reflexivity]. }
  destruct OP as [-> | ->]; cbn [reduces] in R, R'; rewrite E in R'; fold l in R; destruct R as [R0 R1], R' as [R0' R1']; (destruct l as [|w0 l0] eqn:EL; [rewrite R0, R0' by reflexivity; left; reflexivity|]);
    destruct (R1 ltac:(discriminate)) as [I1 F1]; destruct (R1' ltac:(discriminate)) as [I2 F2]; rewrite Forall_forall in F1, F2; apply neither_less; auto.
Qed.
Theorem C91_extrema : forall pw t (e e' : Env (f64 pw)) h h' a x y op axis kd, fair e -> fair e' -> reached h -> reached h' -> nth_error h a = Some x -> nth_error h' a = Some y -> class_of x <> None -> alike t x y ->
  op = RMin \/ op = RMax -> can_reduce e op x -> can_reduce e' op y ->
  (step e h (Reduce op a axis kd) = Panic /\ step e' h' (Reduce op a axis kd) = Panic) \/
  exists z z', step e h (Reduce op a axis kd) = Ok (h ++ [z]) /\ step e' h' (Reduce op a axis kd) = Ok (h' ++ [z']) /\ alike t z z'.
Proof.
  intros pw t e e' h h' a x y op axis kd FE FE' R R' N N' NC A OP CR CR'. destruct (class_of x) as [k|] eqn:C; [|contradiction]. destruct (alike_matrix t x y k C A) as [C' [S M]].
  assert (NU : numeric op = true) by (destruct OP as [-> | ->]; reflexivity).
  destruct (C62_reductions pw e h a x op FE R N ltac:(rewrite C; discriminate) NU CR) as (v & cs & rs & Q1 & Q2 & Q3 & Q4 & Q5 & Q6).
  destruct (C62_reductions pw e' h' a y op FE' R' N' ltac:(rewrite C'; discriminate) NU CR') as (v' & cs' & rs' & Q1' & Q2' & Q3' & Q4' & Q5' & Q6'). rewrite <- S in *.
  assert (NN : forall i j, (i < fst (shape2 x))%nat -> (j < snd (shape2 x))%nat -> no_nan (stored x i j)).
  { assert (G : no_nan (matrix_values (stored x) (fst (shape2 x)) (snd (shape2 x)))) by (destruct OP as [-> | ->]; apply CR). intros i j Hi Hj. unfold no_nan in *. rewrite Forall_forall in *. intros w Hw. apply G. unfold matrix_values.
    apply in_flat_map. exists (i, j). split; [apply in_prod; apply in_seq; lia|exact Hw]. }
  assert (P1 : feqv v v'). { apply (extrema_one pw op _ _ _ v v' OP) with (2 := Q1) (3 := Q1'). intros p Hp. apply in_grid in Hp. split; [apply M; apply Hp|apply NN; apply Hp]. }
  assert (P2 : Forall2 feqv cs cs'). { apply (PInt.F2_intro feqv cs cs' f0 f0); [congruence|]. intros j Hj. rewrite Q2 in Hj. apply (extrema_one pw op _ _ _ _ _ OP) with (2 := Q3 j Hj) (3 := Q3' j Hj). intros i Hi. apply in_seq in Hi. split; [apply M; lia|apply NN; lia]. }
  assert (P3 : Forall2 feqv rs rs'). { apply (PInt.F2_intro feqv rs rs' f0 f0); [congruence|]. intros i Hi. rewrite Q4 in Hi. apply (extrema_one pw op _ _ _ _ _ OP) with (2 := Q5 i Hi) (3 := Q5' i Hi). intros j Hj. apply in_seq in Hj. split; [apply M; lia|apply NN; lia]. }
  rewrite Q6, Q6'. unfold reduction_result. destruct (reduction_2d v' cs' rs' axis kd) as [[sh ls]|] eqn:E.
  - right. destruct (PropNan.reduction_lines feqv v v' cs cs' rs rs' axis kd sh ls P1 P2 P3 E) as (l & EL & FL). rewrite EL. exists (VArr sh l), (VArr sh ls). split; [reflexivity|]. split; [reflexivity|]. split; [reflexivity|exact FL].
  - left. split; [|reflexivity]. destruct (reduction_2d v cs rs axis kd) as [[sh ls]|] eqn:E'; [|reflexivity].
    destruct (PropNan.reduction_lines feqv v' v cs' cs rs' rs axis kd sh ls) as (l & EL & _); [| | |exact E'|rewrite EL in E; discriminate E].
    + destruct P1 as [P1|[P1 P1']]; [left; congruence|right; auto].
    + clear - P2. induction P2 as [|? ? ? ? [P|[P P']]]; constructor; auto; [left; congruence|right; auto].
    + clear - P3. induction P3 as [|? ? ? ? [P|[P P']]]; constructor; auto; [left; congruence|right; auto].
Qed.
Print Assumptions C91_extrema.

(** *** The theorems apply *)
(** [1 . -2; . 4 .] and [3 5 .; . -1 .], by rows and by columns (the first also as triples). *)
Definition by_rows : list (call (f64 pw0)) := [NewCsr 2 3 [0; 2; 3] [0; 2; 1] [fz 1; fz (-2); fz 4] true; NewCsr 2 3 [0; 2; 3] [0; 1; 1] [fz 3; fz 5; fz (-1)] true].
Definition by_columns : list (call (f64 pw0)) := [NewCsc 2 3 [0; 1; 2; 3] [0; 1; 0] [fz 1; fz 4; fz (-2)] false; NewCsc 2 3 [0; 1; 3; 3] [0; 0; 1] [fz 3; fz 5; fz (-1)] false].
Definition as_triples : list (call (f64 pw0)) := [NewCoo 2 3 [1; 0; 0] [1; 2; 0] [fz 4; fz (-2); fz 1] false; NewCoo 2 3 [0; 1; 0] [0; 1; 1] [fz 3; fz (-1); fz 5] false].
Definition heap_of (l : list (call (f64 pw0))) : list (value (f64 pw0)) := match run [] (map (fun c => (env2, c)) l) with Running h => h | _ => [] end.
Lemma heap_reached : forall l, l = by_rows \/ l = by_columns \/ l = as_triples -> reached (heap_of l).
Proof.
  intros l CL. assert (O : match objects (run [] (map (fun c => (env2, c)) l)) with Some _ => true | None => false end = true) by (destruct CL as [-> |[-> | ->]]; vm_compute; reflexivity).
  destruct (objects (run [] (map (fun c => (env2, c)) l))) as [x|] eqn:EO; [|discriminate O]. destruct (objects_running _ _ EO) as (h & ER & EH).
  unfold heap_of. rewrite ER. apply (C61_programs_reach _ (map (fun c => (env2, c)) l) h); [|exact ER].
  apply Forall_forall. intros ec Hec. apply in_map_iff in Hec. destruct Hec as (c & <- & Hc). cbn [fst snd]. split; [apply env2_fair|].
  destruct CL as [-> |[-> | ->]]; cbn [by_rows by_columns as_triples In] in Hc; destruct Hc as [<-|[<-|[]]]; split; try exact I; cbn [regular_arguments];
    first [apply canonical_literal; reflexivity
          |split; [reflexivity|]; split; [repeat constructor; discriminate|left; reflexivity]
          |split; [apply coo_ok_literal; reflexivity|]; intros i j; unfold coo_at, at_cell, coo_entries; cbn [coo_row coo_col coo_data combine filter fst snd];
           repeat match goal with |- context [?x =? ?y] => destruct (Z.eqb_spec x y) end; cbn; lia].
Qed.
Definition swap (k : class) : class := match k with CsrClass => CscClass | CscClass => CsrClass | CooClass => CooClass end.
Definition to_coo (k : class) : class := CooClass.
Lemma heaps_alike : Forall2 (alike swap) (heap_of by_rows) (heap_of by_columns) /\ Forall2 (alike to_coo) (heap_of by_rows) (heap_of as_triples).
Proof.
  assert (L : forall l, l = by_rows \/ l = by_columns \/ l = as_triples -> exists x y, heap_of l = [x; y] /\ x = nth 0 (heap_of l) (VInts [] []) /\ y = nth 1 (heap_of l) (VInts [] [])).
  { intros l CL. assert (E : length (heap_of l) = 2%nat) by (destruct CL as [-> |[-> | ->]]; vm_compute; reflexivity). destruct (heap_of l) as [|x [|y [|? ?]]]; try discriminate E. exists x, y. repeat split. }
  destruct (L by_rows) as (x & y & E & Ex & Ey); [auto|]. destruct (L by_columns) as (x' & y' & E' & Ex' & Ey'); [auto|]. destruct (L as_triples) as (x2 & y2 & E2 & Ex2 & Ey2); [auto|].
  assert (C : class_of x = Some CsrClass /\ class_of y = Some CsrClass /\ class_of x' = Some CscClass /\ class_of y' = Some CscClass /\ class_of x2 = Some CooClass /\ class_of y2 = Some CooClass) by (subst x y x' y' x2 y2; repeat split; vm_compute; reflexivity).
  destruct C as (C1 & C2 & C3 & C4 & C5 & C6).
  assert (G : forall v w : value (f64 pw0), shape2 v = (2, 3)%nat -> shape2 w = (2, 3)%nat -> map (fun p => stored v (fst p) (snd p)) (grid 2 3) = map (fun p => stored w (fst p) (snd p)) (grid 2 3) -> same_matrix v w).
  { intros v w S S' M. split; [congruence|]. rewrite S. cbn [fst snd]. intros i j Hi Hj. cbn in M. injection M as M1 M2 M3 M4 M5 M6. destruct i as [|[|i]]; destruct j as [|[|[|j]]]; try lia; assumption. }
  rewrite E, E', E2. split; (constructor; [|constructor; [|constructor]]).
  - apply (matrix_alike _ _ _ _ C1 C3). subst x x'. apply G; vm_compute; reflexivity.
  - apply (matrix_alike _ _ _ _ C2 C4). subst y y'. apply G; vm_compute; reflexivity.
  - apply (matrix_alike _ _ _ _ C1 C5). subst x x2. apply G; vm_compute; reflexivity.
  - apply (matrix_alike _ _ _ _ C2 C6). subst y y2. apply G; vm_compute; reflexivity.
Qed.
(** Ten calls, the last of which raises. *)
Definition program12 : list (call (f64 pw0)) :=
  [Binary BMul 0 1; Scalar SDiv 2 (fz 2); Unary UT 3; Unary (UPrune (fz 1 : f64 pw0)) 4; ToArray 5; Reduce RAny 4 (AxInt 1) true; Compare CLt 4 6; Unary UNeg 0; Binary BSub 0 1; Scalar SMod 6 (fz 2)].
Example C60_sums_entries_nonvacuous : exists z, step env2 (heap_of by_columns) (Binary BAdd 0 1) = Ok (heap_of by_columns ++ [z]) /\ stored z 0 1 = [fz 5] /\ stored z 1 0 = [].
Proof.
  assert (L : length (heap_of by_columns) = 2%nat) by (vm_compute; reflexivity). set (x := nth 0 (heap_of by_columns) (VInts [] [])). set (y := nth 1 (heap_of by_columns) (VInts [] [])).
  assert (Nx : nth_error (heap_of by_columns) 0 = Some x) by (apply nth_error_nth'; lia). assert (Ny : nth_error (heap_of by_columns) 1 = Some y) by (apply nth_error_nth'; lia).
  assert (C : class_of x = Some CscClass) by (vm_compute; reflexivity). assert (C' : class_of y = Some CscClass) by (vm_compute; reflexivity). assert (S : shape2 x = (2, 3)%nat) by (vm_compute; reflexivity). assert (S' : shape2 y = (2, 3)%nat) by (vm_compute; reflexivity).
  destruct (C60_sums_entries pw0 env2 _ 0 1 x y BAdd fadd env2_fair (heap_reached _ (or_intror (or_introl eq_refl))) Nx Ny ltac:(congruence) (or_intror C) eq_refl ltac:(congruence)) as (z & E & _ & _ & V). rewrite S in V. cbn [fst snd] in V.
  exists z. split; [exact E|]. split; [rewrite (V 0%nat 1%nat) by lia; vm_compute; reflexivity|rewrite (V 1%nat 0%nat) by lia; vm_compute; reflexivity].
Qed.
Example C91_programs_nonvacuous : exists g g', run (heap_of by_rows) (map (fun c => (env2, c)) program12) = Running g /\ run (heap_of by_columns) (map (fun c => (env2, c)) program12) = Running g' /\
  length g = 11%nat /\ class_of (nth 5 g (VInts [] [])) = Some CsrClass /\ class_of (nth 5 g' (VInts [] [])) = Some CscClass /\ Forall2 (alike swap) g g'.
Proof.
  assert (X : forall l, l = by_rows \/ l = by_columns -> exists g, run (heap_of l) (map (fun c => (env2, c)) program12) = Running g /\
    (length g, class_of (nth 5 g (VInts [] []))) = (11%nat, Some (if match l with NewCsr _ _ _ _ _ _ :: _ => true | _ => false end then CsrClass else CscClass))).
  { intros l CL.
    assert (O : match run (heap_of l) (map (fun c => (env2, c)) program12) with Running g => Some (length g, class_of (nth 5 g (VInts [] []))) | _ => None end = Some (11%nat, Some (if match l with NewCsr _ _ _ _ _ _ :: _ => true | _ => false end then CsrClass else CscClass))).
    { destruct CL as [-> | ->]; vm_compute; reflexivity. }
    destruct (run (heap_of l) (map (fun c => (env2, c)) program12)) as [g| |]; try discriminate O. exists g. split; [reflexivity|]. injection O as -> ->. reflexivity. }
  destruct (X by_rows (or_introl eq_refl)) as (g & E & V). destruct (X by_columns (or_intror eq_refl)) as (g' & E' & V'). injection V as V1 V2. injection V' as V1' V2'.
  exists g, g'. split; [exact E|]. split; [exact E'|]. split; [exact V1|]. split; [exact V2|]. split; [exact V2'|].
  refine (C91_programs pw0 swap _ _ _ _ g g' eq_refl _ _ (heap_reached _ (or_introl eq_refl)) (heap_reached _ (or_intror (or_introl eq_refl))) (proj1 heaps_alike) E E').
  - apply Forall_forall. intros s Hs. apply in_map_iff in Hs. destruct Hs as (c & <- & Hc). cbn [fst snd]. split; [apply env2_fair|]. cbn [program12 In] in Hc.
    assert (IT : forall k k', swap k = swap k' -> k = k') by (intros [] [] Q; first [reflexivity|discriminate Q]).
    repeat (destruct Hc as [<-|Hc]; [first [exact I|exact (conj IT eq_refl)|exact (or_intror (or_introl eq_refl))|exact (eq_refl false)]|]). contradiction.
  - apply Forall_forall. intros s Hs. apply in_map_iff in Hs. destruct Hs as (c & <- & Hc). apply env2_fair.
Qed.
(** The matrix by rows and as triples: count_nonzero over the rows, and the smallest cells of the columns. *)
Definition is_ok {A} (r : res A) : bool := match r with Ok _ => true | _ => false end.
Example C91_calls_nonvacuous : exists z z', step env2 (heap_of by_rows) (Reduce RCount 0 (AxInt 0) false) = Ok (heap_of by_rows ++ [z]) /\ step env2 (heap_of as_triples) (Reduce RCount 0 (AxInt 0) false) = Ok (heap_of as_triples ++ [z']) /\ alike to_coo z z'.
Proof.
  assert (O : is_ok (step env2 (heap_of by_rows) (Reduce RCount 0 (AxInt 0) false)) = true) by (vm_compute; reflexivity).
  destruct (C91_calls pw0 to_coo env2 env2 _ _ (Reduce RCount 0 (AxInt 0) false) env2_fair env2_fair (heap_reached _ (or_introl eq_refl)) (heap_reached _ (or_intror (or_intror eq_refl))) (proj2 heaps_alike) (or_intror (or_intror eq_refl))) as [[Q _]|Q]; [rewrite Q in O; discriminate O|exact Q].
Qed.
Example C91_extrema_nonvacuous : exists z z', step env2 (heap_of by_rows) (Reduce RMin 0 (AxInt 0) false) = Ok (heap_of by_rows ++ [z]) /\ step env2 (heap_of as_triples) (Reduce RMin 0 (AxInt 0) false) = Ok (heap_of as_triples ++ [z']) /\ alike to_coo z z'.
Proof.
  assert (O : is_ok (step env2 (heap_of by_rows) (Reduce RMin 0 (AxInt 0) false)) = true) by (vm_compute; reflexivity).
  destruct (nth_alike to_coo _ _ 0%nat (proj2 heaps_alike)) as [[Q _]|(x & y & N & N' & A)]; [exfalso; assert (L : length (heap_of by_rows) = 2%nat) by (vm_compute; reflexivity); apply nth_error_None in Q; lia|].
  assert (Ex : x = nth 0 (heap_of by_rows) (VInts [] [])) by (symmetry; apply nth_error_nth; exact N). assert (Ey : y = nth 0 (heap_of as_triples) (VInts [] [])) by (symmetry; apply nth_error_nth; exact N').
  assert (NN : forall b, forallb (fun v => negb (fnan v)) (matrix_values (stored (if b : bool then nth 0 (heap_of by_rows) (VInts [] []) else nth 0 (heap_of as_triples) (VInts [] []))) 2 3) = true) by (intros []; vm_compute; reflexivity).
  assert (CR : forall b, can_reduce env2 RMin (if b : bool then nth 0 (heap_of by_rows) (VInts [] []) else nth 0 (heap_of as_triples) (VInts [] []))).
  { intros b. split; [exact smin0_min|]. split; [exact smin0_min|]. assert (S : shape2 (if b : bool then nth 0 (heap_of by_rows) (VInts [] []) else nth 0 (heap_of as_triples) (VInts [] [])) = (2, 3)%nat) by (destruct b; vm_compute; reflexivity).
    rewrite S. cbn [fst snd]. apply Forall_forall. intros w Hw. assert (G := NN b). rewrite forallb_forall in G. apply G in Hw. destruct (fnan w); [discriminate Hw|reflexivity]. }
  destruct (C91_extrema pw0 to_coo env2 env2 _ _ 0 x y RMin (AxInt 0) false env2_fair env2_fair (heap_reached _ (or_introl eq_refl)) (heap_reached _ (or_intror (or_intror eq_refl))) N N') as [[Q _]|Q]; [| |left; reflexivity| | |rewrite Q in O; discriminate O|exact Q].
  - rewrite Ex. vm_compute. discriminate.
  - exact A.
  - rewrite Ex. exact (CR true).
  - rewrite Ey. exact (CR false).
Qed.
