(** Property theorems: transposing the inputs of a program transposes its outputs (C92). *)
Require Import List ZArith Bool Arith Lia Permutation.
Require Import Coq.Floats.SpecFloat.
Require Import Verif.Res Verif.Values Verif.Spec Verif.Mem Verif.Laws Verif.Witness Verif.SpecReduce Verif.SpecPy Verif.MPy Verif.PPy Verif.PropPy2 Verif.PropStat Verif.MObj Verif.SpecObj Verif.PObj Verif.PropObj Verif.SpecCall Verif.SpecCall2 Verif.PropCall Verif.PropCall2 Verif.PropCall5 Verif.PCall Verif.PropFormat.
Require Verif.PGroup Verif.PCall3 Verif.PInt Verif.PropNan.
Import ListNotations.
Local Open Scope Z_scope.

(** *** Specification *)
(** [y] is [x] transposed, in the same format. *)
Definition turned {F : Fl} (x y : value F) : Prop :=
  class_of y = class_of x /\ shape2 y = (snd (shape2 x), fst (shape2 x)) /\
  forall i j, (i < fst (shape2 x))%nat -> (j < snd (shape2 x))%nat -> stored y j i = stored x i j.
(** Matrices are transposed; the results of reductions (one row, one column, a list or a number)
    have the same elements and the dimensions in reverse order. *)
Definition mirrored {F : Fl} (x y : value F) : Prop :=
  match x, y with
  | VArr s d, VArr s' d' => s' = rev s /\ Forall2 feqv d d'
  | VInts s d, VInts s' d' => s' = rev s /\ d = d'
  | VBools s d, VBools s' d' => s' = rev s /\ d = d'
  | _, _ => class_of x <> None /\ turned x y
  end.
(** The calls, and the call on the other side: axes 0 and 1 change places. *)
Definition other_axis (a : Z) : Z := if axis_valid 2 a then if a =? 0 then 1 else if a =? 1 then 0 else if a =? -1 then -2 else -1 else a.
Definition other (ax : axis_arg) : axis_arg := match ax with AxNone => AxNone | AxInt a => AxInt (other_axis a) | AxTuple l => AxTuple (map other_axis l) end.
Definition turn {F : Fl} (c : call F) : call F := match c with Reduce op a ax kd => Reduce op a (other ax) kd | _ => c end.
Definition turns {F : Fl} (c : call F) : Prop :=
  match c with
  | Scalar _ _ _ | Binary _ _ _ => True
  | Unary (UPrune eps) _ => feqb eps f0 = false
  | Unary UElim _ => False
  | Unary _ _ => True
  | Reduce op _ _ _ => op = RAll \/ op = RAny \/ op = RCount
  | _ => False
  end.

(** *** Proofs *)
Lemma other_names : forall a, axis_valid 2 (other_axis a) = axis_valid 2 a /\ (axis_valid 2 a = true -> names_axis 2 (other_axis a) 0 = names_axis 2 a 1 /\ names_axis 2 (other_axis a) 1 = names_axis 2 a 0).
Proof.
  intros a. unfold other_axis. destruct (axis_valid 2 a) eqn:V; [|split; [exact V|discriminate]]. unfold axis_valid in V. apply andb_true_iff in V. destruct V as [V1 V2]. apply Z.leb_le in V1. apply Z.ltb_lt in V2. change (Z.of_nat 2) with 2 in V1, V2.
  assert (G : a = 0 \/ a = 1 \/ a = -1 \/ a = -2) by lia. destruct G as [-> |[-> |[-> | ->]]]; split; try reflexivity; intros _; split; reflexivity.
Qed.
Lemma other_list : forall l, forallb (axis_valid 2) (map other_axis l) = forallb (axis_valid 2) l /\ (forallb (axis_valid 2) l = true ->
  existsb (fun a => names_axis 2 a 0) (map other_axis l) = existsb (fun a => names_axis 2 a 1) l /\ existsb (fun a => names_axis 2 a 1) (map other_axis l) = existsb (fun a => names_axis 2 a 0) l).
Proof.
  induction l as [|a l [I1 I2]]; [split; [reflexivity|]; intros _; split; reflexivity|]. cbn [map forallb existsb]. destruct (other_names a) as [N1 N2]. rewrite N1, I1. split; [reflexivity|]. intros V. apply andb_true_iff in V. destruct V as [V1 V2].
  destruct (N2 V1) as [M1 M2]. destruct (I2 V2) as [J1 J2]. rewrite M1, M2, J1, J2. auto.
Qed.
Lemma reduction_turned : forall {A} (t : A) cols rows ax kd, reduction_2d t cols rows (other ax) kd = match reduction_2d t rows cols ax kd with Some (s, d) => Some (rev s, d) | None => None end.
Proof.
  intros A t cols rows ax kd. unfold reduction_2d. destruct ax as [|a|l]; cbn [other].
  - destruct kd; reflexivity.
  - destruct (other_list [a]) as [G1 G2]. cbn [map] in G1, G2. rewrite G1. destruct (forallb (axis_valid 2) [a]); [|reflexivity]. destruct (G2 eq_refl) as [G3 G4]. rewrite G3, G4.
    destruct (existsb (fun a => names_axis 2 a 1) [a]), (existsb (fun a => names_axis 2 a 0) [a]); destruct kd; reflexivity.
  - destruct (other_list l) as [G1 G2]. rewrite G1. destruct (forallb (axis_valid 2) l); [|reflexivity]. destruct (G2 eq_refl) as [G3 G4]. rewrite G3, G4.
    destruct (existsb (fun a => names_axis 2 a 1) l), (existsb (fun a => names_axis 2 a 0) l); destruct kd; reflexivity.
Qed.
Lemma grid_turned : forall m n, Permutation (map (fun p => (snd p, fst p)) (grid m n)) (grid n m).
Proof.
  intros m n. apply NoDup_Permutation.
  - apply FinFun.Injective_map_NoDup; [intros [a b] [c d] E; cbn in E; congruence|apply PGroup.NoDup_grid].
  - apply PGroup.NoDup_grid.
  - intros [j i]. rewrite in_map_iff, PGroup.in_grid. split.
    + intros ([a b] & E & I). cbn in E. injection E as -> ->. apply PGroup.in_grid in I. tauto.
    + intros I. exists (i, j). split; [reflexivity|]. apply PGroup.in_grid. tauto.
Qed.
Lemma perm_forallb : forall {A} (f : A -> bool) l l', Permutation l l' -> forallb f l = forallb f l'.
Proof. intros A f l l' P. induction P; cbn [forallb]; try congruence. destruct (f x), (f y); reflexivity. Qed.
Lemma perm_existsb : forall {A} (f : A -> bool) l l', Permutation l l' -> existsb f l = existsb f l'.
Proof. intros A f l l' P. induction P; cbn [existsb]; try congruence. destruct (f x), (f y); reflexivity. Qed.

Section Steps.
Context {pw : spec_float -> spec_float -> spec_float}.
Notation F := (f64 pw).
Implicit Types (h : list (value F)) (x y z : value F).

Lemma counts_perm : forall {J} (c : J -> list F) l l', Permutation l l' -> counts c l = counts c l'.
Proof. intros J c l l' P. unfold counts. f_equal. apply Permutation_length. apply Permutation_flat_map. exact P. Qed.
Lemma decides_perm : forall {J} op (c : J -> list F) l l', Permutation l l' -> decides op c l = decides op c l'.
Proof. intros J op c l l' P. unfold decides. destruct op; first [apply (perm_forallb _ _ _ P)|apply (perm_existsb _ _ _ P)]. Qed.
Lemma counts_map : forall {J K} (c : K -> list F) (g : J -> K) l, counts c (map g l) = counts (fun j => c (g j)) l.
Proof. intros. unfold counts. rewrite !flat_map_concat_map, map_map. reflexivity. Qed.
Lemma decides_map : forall {J K} op (c : K -> list F) (g : J -> K) l, decides op c (map g l) = decides op (fun j => c (g j)) l.
Proof.
  intros J K op c g l. unfold decides. assert (G : forall (f : K -> bool), forallb f (map g l) = forallb (fun j => f (g j)) l /\ existsb f (map g l) = existsb (fun j => f (g j)) l).
  { intros f. induction l as [|a l [I1 I2]]; [auto|]. cbn [map forallb existsb]. rewrite I1, I2. auto. }
  destruct op; apply G.
Qed.

Lemma nth_mirrored : forall h h' a, Forall2 mirrored h h' -> (nth_error h a = None /\ nth_error h' a = None) \/ exists x y, nth_error h a = Some x /\ nth_error h' a = Some y /\ mirrored x y.
Proof. intros h h' a H. revert a. induction H; intros [|a]; cbn [nth_error]; auto. right. exists x, y. auto. Qed.
Lemma mirrored_class : forall x y, mirrored x y -> class_of y = class_of x.
Proof. intros x y A. destruct x; destruct y; cbn [mirrored] in A; try apply A; reflexivity. Qed.
Lemma mirrored_turned : forall x y k, class_of x = Some k -> mirrored x y -> class_of y = Some k /\ turned x y.
Proof. intros x y k C A. assert (E := mirrored_class x y A). split; [congruence|]. destruct x; try discriminate C; destruct y; apply A. Qed.
Lemma turned_mirrored : forall x y k, class_of x = Some k -> turned x y -> mirrored x y.
Proof. intros x y k C T. assert (E := proj1 T). destruct x; try discriminate C; destruct y; try discriminate E; split; first [discriminate|exact T]. Qed.
Lemma mirrored_dense : forall x y, mirrored x y -> class_of x = None -> match x with VArr _ _ | VInts _ _ | VBools _ _ => True | _ => False end /\ match y with VArr _ _ | VInts _ _ | VBools _ _ => True | _ => False end.
Proof. intros x y A C. destruct x; try discriminate C; destruct y; cbn [mirrored] in A; auto; exfalso; apply (proj1 A); reflexivity. Qed.

Lemma step_turned : forall (e e' : Env F) h h' c, fair e -> fair e' -> reached h -> reached h' -> Forall2 mirrored h h' -> turns c ->
  (step e h c = Panic /\ step e' h' (turn c) = Panic) \/ exists z z', step e h c = Ok (h ++ [z]) /\ step e' h' (turn c) = Ok (h' ++ [z']) /\ mirrored z z'.
Proof.
  intros e e' h h' c FE FE' R R' H B. assert (NL := f64_laws pw). destruct c; cbn [turns] in B; try contradiction; cbn [turn].
  - (* Unary *) destruct (nth_mirrored h h' a H) as [[N N']|(x & y & N & N' & A)]; [left; cbn [step exec]; unfold get_checked; rewrite N, N'; auto|].
    destruct (class_of x) as [k|] eqn:C.
    + destruct (mirrored_turned x y k C A) as (C' & _ & S & M). assert (NC : class_of x <> None) by (rewrite C; discriminate). assert (NC' : class_of y <> None) by (rewrite C'; discriminate). right.
      assert (MAP : is_map op = true -> exists z z', step e h (Unary op a) = Ok (h ++ [z]) /\ step e' h' (Unary op a) = Ok (h' ++ [z']) /\ mirrored z z').
      { intros IM. destruct (C60_unary_maps F e h a x op NL R N NC IM) as (z & E & Cz & Sz & Vz). destruct (C60_unary_maps F e' h' a y op NL R' N' NC' IM) as (z' & E' & Cz' & Sz' & Vz').
        exists z, z'. split; [exact E|]. split; [exact E'|]. apply (turned_mirrored z z' k); [congruence|]. split; [congruence|]. split; [congruence|]. intros i j Hi Hj. rewrite Sz in Hi, Hj. rewrite Vz, Vz', (M i j Hi Hj). reflexivity. }
      destruct op as [| | |eps| |]; try (apply MAP; reflexivity); cbn [turns] in B; try contradiction.
      * destruct (C60_prune F e h a x eps NL FE R N NC B) as (z & E & Cz & Sz & Vz). destruct (C60_prune F e' h' a y eps NL FE' R' N' NC' B) as (z' & E' & Cz' & Sz' & Vz').
        exists z, z'. split; [exact E|]. split; [exact E'|]. apply (turned_mirrored z z' k); [congruence|]. split; [congruence|]. split; [congruence|]. intros i j Hi Hj. rewrite Sz in Hi, Hj. rewrite Vz, Vz' by (rewrite ?S; assumption). rewrite (M i j Hi Hj). reflexivity.
      * destruct (C60_transpose F e h a x NL FE R N NC) as (z & E & Cz & Sz & Vz). destruct (C60_transpose F e' h' a y NL FE' R' N' NC') as (z' & E' & Cz' & Sz' & Vz').
        exists z, z'. split; [exact E|]. split; [exact E'|]. apply (turned_mirrored z z' k); [congruence|]. split; [congruence|]. split; [rewrite Sz, Sz', S; reflexivity|]. intros i j Hi Hj. rewrite Sz in Hi, Hj. cbn [fst snd] in Hi, Hj.
        rewrite (Vz j i) by assumption. rewrite (Vz' i j) by (rewrite S; assumption). apply M; assumption.
    + left. destruct (mirrored_dense x y A C) as [Q Q']. cbn [step exec]. rewrite (PCall3.get_is _ _ _ N), (PCall3.get_is _ _ _ N'). cbn [bind].
      split; [destruct x; try contradiction; destruct op; reflexivity|destruct y; try contradiction; destruct op; reflexivity].
  - (* Scalar *) destruct (nth_mirrored h h' a H) as [[N N']|(x & y & N & N' & A)]; [left; cbn [step exec]; unfold get_checked; rewrite N, N'; auto|].
    destruct (class_of x) as [k|] eqn:C.
    + destruct (mirrored_turned x y k C A) as (C' & _ & S & M). assert (NC : class_of x <> None) by (rewrite C; discriminate). assert (NC' : class_of y <> None) by (rewrite C'; discriminate).
      destruct (C60_scalar_operators F e h a x op alpha NL R N NC) as [P Q]. destruct (C60_scalar_operators F e' h' a y op alpha NL R' N' NC') as [P' Q']. destruct (scalar_raises op alpha).
      * left. auto.
      * right. destruct (Q eq_refl) as (z & E & Cz & Sz & Vz). destruct (Q' eq_refl) as (z' & E' & Cz' & Sz' & Vz'). exists z, z'. split; [exact E|]. split; [exact E'|]. apply (turned_mirrored z z' k); [congruence|].
        split; [congruence|]. split; [congruence|]. intros i j Hi Hj. rewrite Sz in Hi, Hj. rewrite Vz, Vz', (M i j Hi Hj). reflexivity.
    + left. destruct (mirrored_dense x y A C) as [Q Q']. cbn [step exec]. rewrite (PCall3.get_is _ _ _ N), (PCall3.get_is _ _ _ N'). cbn [bind].
      split; [destruct x; try contradiction; destruct op; reflexivity|destruct y; try contradiction; destruct op; reflexivity].
  - (* Binary *) destruct (nth_mirrored h h' a H) as [[N N']|(x & y & N & N' & A)]; [left; cbn [step exec]; unfold get_checked; rewrite N, N'; auto|].
    destruct (nth_mirrored h h' b H) as [[Nb Nb']|(x2 & y2 & Nb & Nb' & A2)]; [left; cbn [step exec]; unfold get_checked; rewrite N, N', Nb, Nb'; auto|].
    assert (CC := mirrored_class x y A). assert (CC2 := mirrored_class x2 y2 A2).
    destruct (class_of x) as [k|] eqn:C.
    + destruct (mirrored_turned x y k C A) as (C' & _ & S & M).
      assert (D : class_of x2 = Some k \/ class_of x2 <> Some k) by (destruct (class_of x2) as [k2|]; [destruct k, k2; first [left; reflexivity|right; discriminate]|right; discriminate]).
      destruct D as [C2|C2].
      * destruct (mirrored_turned x2 y2 k C2 A2) as (C2' & _ & S2 & M2).
        assert (K3 : k = CooClass \/ (k = CsrClass \/ k = CscClass)) by (destruct k; auto). destruct K3 as [-> |K3].
        -- left. split; [apply (C60_no_binary_operators F e h a b x x2 op N Nb); right; exact C|apply (C60_no_binary_operators F e' h' a b y y2 op N' Nb'); right; exact C'].
        -- assert (BC : class_of x = Some CsrClass \/ class_of x = Some CscClass) by (rewrite C; destruct K3 as [-> | ->]; auto).
           assert (BC' : class_of y = Some CsrClass \/ class_of y = Some CscClass) by (rewrite C'; destruct K3 as [-> | ->]; auto).
           assert (DS : shape2 x = shape2 x2 \/ shape2 x <> shape2 x2) by (destruct (shape2 x) as [p1 p2], (shape2 x2) as [p3 p4]; destruct (Nat.eq_dec p1 p3), (Nat.eq_dec p2 p4); subst; auto; right; congruence).
           assert (DS' : shape2 x <> shape2 x2 -> shape2 y <> shape2 y2) by (rewrite S, S2; intros Q1 Q2; apply Q1; injection Q2 as Q2 Q3; rewrite (surjective_pairing (shape2 x)), (surjective_pairing (shape2 x2)), Q2, Q3; reflexivity).
           destruct (sum_of (F := F) op) as [g|] eqn:NS.
           ++ destruct DS as [DS|DS]; [|left; split; [apply (C60_sums F e h a b x x2 op g NL FE R N Nb ltac:(congruence) BC NS); exact DS|apply (C60_sums F e' h' a b y y2 op g NL FE' R' N' Nb' ltac:(congruence) BC' NS); apply DS'; exact DS]]. right.
              destruct (C60_sums_entries pw e h a b x x2 op g FE R N Nb ltac:(congruence) BC NS DS) as (z & E & Cz & Sz & Vz). destruct (C60_sums_entries pw e' h' a b y y2 op g FE' R' N' Nb' ltac:(congruence) BC' NS ltac:(congruence)) as (z' & E' & Cz' & Sz' & Vz').
              exists z, z'. split; [exact E|]. split; [exact E'|]. apply (turned_mirrored z z' k); [congruence|]. split; [congruence|]. split; [congruence|]. intros i j Hi Hj. rewrite Sz in Hi, Hj. specialize (Vz i j Hi Hj). specialize (Vz' j i ltac:(rewrite S; exact Hj) ltac:(rewrite S; exact Hi)).
              unfold cell in Vz, Vz'. rewrite (M i j Hi Hj), (M2 i j ltac:(rewrite <- DS; exact Hi) ltac:(rewrite <- DS; exact Hj)) in Vz'. cbv zeta in Vz, Vz'. rewrite Vz, Vz'. reflexivity.
           ++ destruct (C60_common_entries F e h a b x x2 op NL FE R N Nb ltac:(congruence) BC NS) as [P Q]. destruct (C60_common_entries F e' h' a b y y2 op NL FE' R' N' Nb' ltac:(congruence) BC' NS) as [P' Q'].
              destruct DS as [DS|DS]; [|left; split; [apply P; exact DS|apply P'; apply DS'; exact DS]]. right.
              destruct (Q DS) as (z & E & Cz & Sz & Vz). destruct (Q' ltac:(congruence)) as (z' & E' & Cz' & Sz' & Vz'). exists z, z'. split; [exact E|]. split; [exact E'|]. apply (turned_mirrored z z' k); [congruence|].
              split; [congruence|]. split; [congruence|]. intros i j Hi Hj. rewrite Sz in Hi, Hj. destruct (Vz i j Hi Hj) as [V1 V2]. destruct (Vz' j i ltac:(rewrite S; exact Hj) ltac:(rewrite S; exact Hi)) as [V1' V2'].
              rewrite (M i j Hi Hj), (M2 i j ltac:(rewrite <- DS; exact Hi) ltac:(rewrite <- DS; exact Hj)) in V1'. destruct V2 as [V2|[v V2]].
              ** destruct V2' as [V2'|[v V2']]; [congruence|]. exfalso. assert (W := proj1 (V1' v) V2'). apply V1 in W. congruence.
              ** rewrite V2. apply V1'. apply V1. exact V2.
      * left. split; [apply (C60_no_binary_operators F e h a b x x2 op N Nb); left; congruence|]. apply (C60_no_binary_operators F e' h' a b y y2 op N' Nb'). left. congruence.
    + left. destruct (mirrored_dense x y A C) as [Q Q']. cbn [step exec]. rewrite (PCall3.get_is _ _ _ N), (PCall3.get_is _ _ _ N'), (PCall3.get_is _ _ _ Nb), (PCall3.get_is _ _ _ Nb'). cbn [bind].
      split; [destruct x; try contradiction; destruct op; reflexivity|destruct y; try contradiction; destruct op; reflexivity].
  - (* Reduce *) destruct (nth_mirrored h h' a H) as [[N N']|(x & y & N & N' & A)]; [left; cbn [step exec]; unfold get_checked; rewrite N, N'; auto|].
    destruct (class_of x) as [k|] eqn:C.
    + destruct (mirrored_turned x y k C A) as (C' & _ & S & M). assert (NC : class_of x <> None) by (rewrite C; discriminate). assert (NC' : class_of y <> None) by (rewrite C'; discriminate).
      assert (G : op = RCount \/ (op = RAll \/ op = RAny)) by tauto. destruct G as [-> |G].
      * rewrite (C62_count_nonzero pw e h a x FE R N NC), (C62_count_nonzero pw e' h' a y FE' R' N' NC'). rewrite S. cbn [fst snd]. unfold reduction_result. rewrite reduction_turned.
        assert (G1 : counts (fun p => stored y (fst p) (snd p)) (grid (snd (shape2 x)) (fst (shape2 x))) = counts (fun p => stored x (fst p) (snd p)) (grid (fst (shape2 x)) (snd (shape2 x)))).
        { rewrite <- (counts_perm _ _ _ (grid_turned (fst (shape2 x)) (snd (shape2 x)))), counts_map. apply counts_ext. intros p Hp. apply in_grid in Hp. apply M; apply Hp. }
        assert (G2 : map (fun i => counts (fun j => stored y i j) (seq 0 (fst (shape2 x)))) (seq 0 (snd (shape2 x))) = map (fun j => counts (fun i => stored x i j) (seq 0 (fst (shape2 x)))) (seq 0 (snd (shape2 x)))).
        { apply map_ext_in. intros j Hj. apply in_seq in Hj. apply counts_ext. intros i Hi. apply in_seq in Hi. apply M; lia. }
        assert (G3 : map (fun j => counts (fun i => stored y i j) (seq 0 (snd (shape2 x)))) (seq 0 (fst (shape2 x))) = map (fun i => counts (fun j => stored x i j) (seq 0 (snd (shape2 x)))) (seq 0 (fst (shape2 x)))).
        { apply map_ext_in. intros i Hi. apply in_seq in Hi. apply counts_ext. intros j Hj. apply in_seq in Hj. apply M; lia. }
        rewrite G1, G2, G3. match goal with |- context [reduction_2d ?p ?q ?r ?s ?u] => destruct (reduction_2d p q r s u) as [[sh d]|] end; [right|left; auto]. exists (VInts sh d), (VInts (rev sh) d). repeat split.
      * rewrite (C62_all_any pw e h a x op FE R N NC G), (C62_all_any pw e' h' a y op FE' R' N' NC' G). rewrite S. cbn [fst snd]. unfold reduction_result. rewrite reduction_turned.
        assert (G1 : decides op (fun p => stored y (fst p) (snd p)) (grid (snd (shape2 x)) (fst (shape2 x))) = decides op (fun p => stored x (fst p) (snd p)) (grid (fst (shape2 x)) (snd (shape2 x)))).
        { rewrite <- (decides_perm op _ _ _ (grid_turned (fst (shape2 x)) (snd (shape2 x)))), decides_map. apply decides_ext. intros p Hp. apply in_grid in Hp. apply M; apply Hp. }
        assert (G2 : map (fun i => decides op (fun j => stored y i j) (seq 0 (fst (shape2 x)))) (seq 0 (snd (shape2 x))) = map (fun j => decides op (fun i => stored x i j) (seq 0 (fst (shape2 x)))) (seq 0 (snd (shape2 x)))).
        { apply map_ext_in. intros j Hj. apply in_seq in Hj. apply decides_ext. intros i Hi. apply in_seq in Hi. apply M; lia. }
        assert (G3 : map (fun j => decides op (fun i => stored y i j) (seq 0 (snd (shape2 x)))) (seq 0 (fst (shape2 x))) = map (fun i => decides op (fun j => stored x i j) (seq 0 (snd (shape2 x)))) (seq 0 (fst (shape2 x)))).
        { apply map_ext_in. intros i Hi. apply in_seq in Hi. apply decides_ext. intros j Hj. apply in_seq in Hj. apply M; lia. }
        rewrite G1, G2, G3. match goal with |- context [reduction_2d ?p ?q ?r ?s ?u] => destruct (reduction_2d p q r s u) as [[sh d]|] end; [right|left; auto]. exists (VBools sh d), (VBools (rev sh) d). repeat split.
    + left. destruct (mirrored_dense x y A C) as [Q Q']. cbn [step exec]. rewrite (PCall3.get_is _ _ _ N), (PCall3.get_is _ _ _ N'). cbn [bind].
      split; [destruct x; try contradiction; reflexivity|destruct y; try contradiction; reflexivity].
Qed.
End Steps.

(** *** Properties *)
Theorem C92_calls : forall pw (e e' : Env (f64 pw)) h h' c, fair e -> fair e' -> reached h -> reached h' -> Forall2 mirrored h h' -> turns c ->
  (step e h c = Panic /\ step e' h' (turn c) = Panic) \/ exists z z', step e h c = Ok (h ++ [z]) /\ step e' h' (turn c) = Ok (h' ++ [z']) /\ mirrored z z'.
Proof. intros pw e e' h h' c. apply step_turned. Qed.
Print Assumptions C92_calls.
Theorem C92_programs : forall pw (l l' : list (Env (f64 pw) * call (f64 pw))) h h' g g', map (fun s => turn (snd s)) l = map snd l' -> Forall (fun s => fair (fst s) /\ turns (snd s)) l -> Forall (fun s => fair (fst s)) l' ->
  reached h -> reached h' -> Forall2 mirrored h h' -> run h l = Running g -> run h' l' = Running g' -> Forall2 mirrored g g'.
Proof.
  intros pw l. induction l as [|[e c] l IH]; intros [|[e' c'] l'] h h' g g' EM B FR R R' H E E'; try discriminate EM.
  { cbn [run] in E, E'. injection E as <-. injection E' as <-. exact H. }
  cbn [map snd] in EM. injection EM as EC EM. subst c'. inversion B as [|? ? [FE BC] B']; subst. inversion FR as [|? ? FE' FR']; subst. cbn [fst snd] in *. cbn [run] in E, E'.
  destruct (i64_max <=? demand h c) eqn:D; [discriminate E|]. destruct (i64_max <=? demand h' (turn c)) eqn:D'; [discriminate E'|]. apply Z.leb_gt in D. apply Z.leb_gt in D'.
  assert (RA : regular_arguments c /\ regular_arguments (turn c)) by (destruct c; cbn [turns] in BC; try contradiction; split; exact I).
  assert (NE : forall h0, ~ excluded h0 c /\ ~ excluded h0 (turn c)) by (intros h0; split; intros X; destruct c; cbn [turns] in BC; try contradiction; exact X).
  destruct (C92_calls pw e e' h h' c FE FE' R R' H BC) as [[P P']|(z & z' & P & P' & A)].
  - rewrite P in E. rewrite P' in E'. exact (IH l' h h' g g' EM B' FR' R R' H E E').
  - rewrite P in E. rewrite P' in E'. destruct (forallb fits (h ++ [z])) eqn:FT; [|discriminate E]. destruct (forallb fits (h' ++ [z'])) eqn:FT'; [|discriminate E'].
    apply (IH l' (h ++ [z]) (h' ++ [z']) g g' EM B' FR'); [| | |exact E|exact E'].
    + apply (reached_call h e c _ R FE (proj1 RA) (proj1 (NE h)) D P FT).
    + apply (reached_call h' e' (turn c) _ R' FE' (proj2 RA) (proj2 (NE h')) D' P' FT').
    + apply Forall2_app; [exact H|]. constructor; [exact A|constructor].
Qed.
Print Assumptions C92_programs.

(** The smallest and the largest cells, if no NaN is stored. *)
Lemma extrema_perm : forall pw {J K} op (c : J -> list (f64 pw)) (c' : K -> list (f64 pw)) js ks (g : J -> K) v v', op = RMin \/ op = RMax -> Permutation (map g js) ks -> (forall j, In j js -> c j = c' (g j) /\ no_nan (c j)) ->
  reduces op c js v -> reduces op c' ks v' -> feqv v v'.
Proof.
  intros pw J K op c c' js ks g v v' OP PM H R R'.
  assert (PL : Permutation (map (fun j => one_or (f0 : f64 pw) (c j)) js) (map (fun k => one_or f0 (c' k)) ks)).
  { rewrite <- (Permutation_map (fun k => one_or f0 (c' k)) PM), map_map. erewrite map_ext_in; [apply Permutation_refl|]. intros j Hj. cbv beta. rewrite (proj1 (H j Hj)). reflexivity. }
  apply (extrema_one pw op c c js v v' OP); [intros j Hj; split; [reflexivity|apply H; exact Hj]|exact R|].
  destruct OP as [-> | ->]; cbn [reduces] in R' |- *; destruct R' as [R0 R1]; (split; [intros E; apply R0; rewrite E in PL; apply Permutation_nil in PL; exact PL|]);
    intros NE; destruct R1 as [I1 F1]; try (intros E; apply NE; rewrite E in PL; apply Permutation_sym, Permutation_nil in PL; exact PL);
    (split; [apply (Permutation_in _ (Permutation_sym PL)); exact I1|]); rewrite Forall_forall in F1 |- *; intros w Hw; apply F1; apply (Permutation_in _ PL); exact Hw.
Qed.
Theorem C92_extrema : forall pw (e e' : Env (f64 pw)) h h' a x y op axis kd, fair e -> fair e' -> reached h -> reached h' -> nth_error h a = Some x -> nth_error h' a = Some y -> class_of x <> None -> mirrored x y ->
  op = RMin \/ op = RMax -> can_reduce e op x -> can_reduce e' op y ->
  (step e h (Reduce op a axis kd) = Panic /\ step e' h' (Reduce op a (other axis) kd) = Panic) \/
  exists z z', step e h (Reduce op a axis kd) = Ok (h ++ [z]) /\ step e' h' (Reduce op a (other axis) kd) = Ok (h' ++ [z']) /\ mirrored z z'.
Proof.
  intros pw e e' h h' a x y op axis kd FE FE' R R' N N' NC A OP CR CR'. destruct (class_of x) as [k|] eqn:C; [|contradiction]. destruct (mirrored_turned x y k C A) as (C' & _ & S & M).
  assert (NU : numeric op = true) by (destruct OP as [-> | ->]; reflexivity).
  destruct (C62_reductions pw e h a x op FE R N ltac:(rewrite C; discriminate) NU CR) as (v & cs & rs & Q1 & Q2 & Q3 & Q4 & Q5 & Q6).
  destruct (C62_reductions pw e' h' a y op FE' R' N' ltac:(rewrite C'; discriminate) NU CR') as (v' & cs' & rs' & Q1' & Q2' & Q3' & Q4' & Q5' & Q6'). rewrite S in Q1', Q2', Q3', Q4', Q5'. cbn [fst snd] in Q1', Q2', Q3', Q4', Q5'.
  assert (NN : forall i j, (i < fst (shape2 x))%nat -> (j < snd (shape2 x))%nat -> no_nan (stored x i j)).
  { assert (G : no_nan (matrix_values (stored x) (fst (shape2 x)) (snd (shape2 x)))) by (destruct OP as [-> | ->]; apply CR). intros i j Hi Hj. unfold no_nan in *. rewrite Forall_forall in *. intros w Hw. apply G. unfold matrix_values.
    apply in_flat_map. exists (i, j). split; [apply in_prod; apply in_seq; lia|exact Hw]. }
  assert (P1 : feqv v v').
  { apply (extrema_perm pw op _ _ _ _ (fun p => (snd p, fst p)) v v' OP (grid_turned _ _)) with (2 := Q1) (3 := Q1'). intros p Hp. apply in_grid in Hp. split; [symmetry; apply M; apply Hp|apply NN; apply Hp]. }
  assert (P2 : Forall2 feqv cs rs').
  { apply (PInt.F2_intro feqv cs rs' f0 f0); [congruence|]. intros j Hj. rewrite Q2 in Hj. apply (extrema_one pw op _ _ _ _ _ OP) with (2 := Q3 j Hj) (3 := Q5' j Hj). intros i Hi. apply in_seq in Hi. split; [symmetry; apply M; lia|apply NN; lia]. }
  assert (P3 : Forall2 feqv rs cs').
  { apply (PInt.F2_intro feqv rs cs' f0 f0); [congruence|]. intros i Hi. rewrite Q4 in Hi. apply (extrema_one pw op _ _ _ _ _ OP) with (2 := Q5 i Hi) (3 := Q3' i Hi). intros j Hj. apply in_seq in Hj. split; [symmetry; apply M; lia|apply NN; lia]. }
  rewrite Q6, Q6'. unfold reduction_result. rewrite reduction_turned. destruct (reduction_2d v' rs' cs' axis kd) as [[sh ls]|] eqn:E.
  - right. destruct (PropNan.reduction_lines feqv v v' cs rs' rs cs' axis kd sh ls P1 P2 P3 E) as (l & EL & FL). rewrite EL. exists (VArr sh l), (VArr (rev sh) ls). split; [reflexivity|]. split; [reflexivity|]. split; [reflexivity|exact FL].
  - left. split; [|reflexivity]. destruct (reduction_2d v cs rs axis kd) as [[sh ls]|] eqn:E'; [|reflexivity].
    destruct (PropNan.reduction_lines feqv v' v rs' cs cs' rs axis kd sh ls) as (l & EL & _); [| | |exact E'|rewrite EL in E; discriminate E].
    + destruct P1 as [P1|[P1 P1']]; [left; congruence|right; auto].
    + clear - P2. induction P2 as [|? ? ? ? [P|[P P']]]; constructor; auto; [left; congruence|right; auto].
    + clear - P3. induction P3 as [|? ? ? ? [P|[P P']]]; constructor; auto; [left; congruence|right; auto].
Qed.
Print Assumptions C92_extrema.

(** *** The theorems apply *)
(** [1 . -2; . 4 .] and [3 5 .; . -1 .] by rows, and their transposes. *)
Definition by_rows_T : list (call (f64 pw0)) := [NewCsr 3 2 [0; 1; 2; 3] [0; 1; 0] [fz 1; fz 4; fz (-2)] true; NewCsr 3 2 [0; 1; 3; 3] [0; 0; 1] [fz 3; fz 5; fz (-1)] true].
Lemma reached_T : reached (heap_of by_rows_T).
Proof.
  assert (O : match objects (run [] (map (fun c => (env2, c)) by_rows_T)) with Some _ => true | None => false end = true) by (vm_compute; reflexivity).
  destruct (objects (run [] (map (fun c => (env2, c)) by_rows_T))) as [x|] eqn:EO; [|discriminate O]. destruct (objects_running _ _ EO) as (h & ER & EH).
  unfold heap_of. rewrite ER. apply (C61_programs_reach _ (map (fun c => (env2, c)) by_rows_T) h); [|exact ER].
  apply Forall_forall. intros ec Hec. apply in_map_iff in Hec. destruct Hec as (c & <- & Hc). cbn [fst snd]. split; [apply env2_fair|].
  cbn [by_rows_T In] in Hc; destruct Hc as [<-|[<-|[]]]; split; try exact I; cbn [regular_arguments];
    first [apply canonical_literal; reflexivity
          |split; [reflexivity|]; split; [repeat constructor; discriminate|left; reflexivity]].
Qed.
Lemma heaps_mirrored : Forall2 mirrored (heap_of by_rows) (heap_of by_rows_T).
Proof.
  assert (L : forall l, l = by_rows \/ l = by_rows_T -> exists x y, heap_of l = [x; y] /\ x = nth 0 (heap_of l) (VInts [] []) /\ y = nth 1 (heap_of l) (VInts [] [])).
  { intros l CL. assert (E : length (heap_of l) = 2%nat) by (destruct CL as [-> | ->]; vm_compute; reflexivity). destruct (heap_of l) as [|x [|y [|? ?]]]; try discriminate E. exists x, y. repeat split. }
  destruct (L by_rows) as (x & y & E & Ex & Ey); [auto|]. destruct (L by_rows_T) as (x' & y' & E' & Ex' & Ey'); [auto|].
  assert (C : class_of x = Some CsrClass /\ class_of y = Some CsrClass /\ class_of x' = Some CsrClass /\ class_of y' = Some CsrClass) by (subst x y x' y'; repeat split; vm_compute; reflexivity). destruct C as (C1 & C2 & C3 & C4).
  assert (G : forall v w : value (f64 pw0), class_of v = Some CsrClass -> class_of w = Some CsrClass -> shape2 v = (2, 3)%nat -> shape2 w = (3, 2)%nat -> map (fun p => stored v (fst p) (snd p)) (grid 2 3) = map (fun p => stored w (snd p) (fst p)) (grid 2 3) -> turned v w).
  { intros v w K K' S S' M. split; [congruence|]. rewrite S. split; [exact S'|]. cbn [fst snd]. intros i j Hi Hj. cbn in M. injection M as M1 M2 M3 M4 M5 M6. destruct i as [|[|i]]; destruct j as [|[|[|j]]]; try lia; symmetry; assumption. }
  rewrite E, E'. constructor; [|constructor; [|constructor]].
  - apply (turned_mirrored _ _ _ C1). apply G; [exact C1|exact C3| | |]; subst x x'; vm_compute; reflexivity.
  - apply (turned_mirrored _ _ _ C2). apply G; [exact C2|exact C4| | |]; subst y y'; vm_compute; reflexivity.
Qed.
(** Eight calls, the last of which raises. *)
Definition program13 : list (call (f64 pw0)) :=
  [Binary BAdd 0 1; Scalar SDiv 2 (fz 2); Unary UT 3; Unary (UPrune (fz 1 : f64 pw0)) 4; Reduce RCount 2 (AxInt 0) true; Reduce RAny 5 (AxInt (-1)) false; Binary BMul 3 0; Reduce RAll 0 (AxInt 2) false].
Definition ints_of {F : Fl} (v : value F) : option (list nat * list Z) := match v with VInts s d => Some (s, d) | _ => None end.
Example C92_programs_nonvacuous : exists g g', run (heap_of by_rows) (map (fun c => (env2, c)) program13) = Running g /\ run (heap_of by_rows_T) (map (fun c => (env2, turn c)) program13) = Running g' /\
  ints_of (nth 6 g (VInts [] [])) = Some ([1%nat; 3%nat], [1; 2; 1]) /\ ints_of (nth 6 g' (VInts [] [])) = Some ([3%nat; 1%nat], [1; 2; 1]) /\ length g = 9%nat /\ Forall2 mirrored g g'.
Proof.
  assert (X : exists g, run (heap_of by_rows) (map (fun c => (env2, c)) program13) = Running g /\ (length g, ints_of (nth 6 g (VInts [] []))) = (9%nat, Some ([1%nat; 3%nat], [1; 2; 1]))).
  { assert (O : match run (heap_of by_rows) (map (fun c => (env2, c)) program13) with Running g => Some (length g, ints_of (nth 6 g (VInts [] []))) | _ => None end = Some (9%nat, Some ([1%nat; 3%nat], [1; 2; 1]))) by (vm_compute; reflexivity).
    destruct (run (heap_of by_rows) (map (fun c => (env2, c)) program13)) as [g| |]; try discriminate O. exists g. split; [reflexivity|]. injection O as -> ->. reflexivity. }
  assert (X' : exists g, run (heap_of by_rows_T) (map (fun c => (env2, turn c)) program13) = Running g /\ ints_of (nth 6 g (VInts [] [])) = Some ([3%nat; 1%nat], [1; 2; 1])).
  { assert (O : match run (heap_of by_rows_T) (map (fun c => (env2, turn c)) program13) with Running g => Some (ints_of (nth 6 g (VInts [] []))) | _ => None end = Some (Some ([3%nat; 1%nat], [1; 2; 1]))) by (vm_compute; reflexivity).
    destruct (run (heap_of by_rows_T) (map (fun c => (env2, turn c)) program13)) as [g| |]; try discriminate O. exists g. split; [reflexivity|]. injection O as ->. reflexivity. }
  destruct X as (g & E & V). destruct X' as (g' & E' & V'). injection V as V1 V2.
  exists g, g'. split; [exact E|]. split; [exact E'|]. split; [exact V2|]. split; [exact V'|]. split; [exact V1|].
  refine (C92_programs pw0 _ _ _ _ g g' _ _ _ (heap_reached _ (or_introl eq_refl)) reached_T heaps_mirrored E E').
  - rewrite !map_map. reflexivity.
  - apply Forall_forall. intros s Hs. apply in_map_iff in Hs. destruct Hs as (c & <- & Hc). cbn [fst snd]. split; [apply env2_fair|]. cbn [program13 In] in Hc.
    repeat (destruct Hc as [<-|Hc]; [first [exact I|exact (or_introl eq_refl)|exact (or_intror (or_introl eq_refl))|exact (or_intror (or_intror eq_refl))|exact (eq_refl false)]|]). contradiction.
  - apply Forall_forall. intros s Hs. apply in_map_iff in Hs. destruct Hs as (c & <- & Hc). apply env2_fair.
Qed.
Example C92_calls_nonvacuous : exists z z', step env2 (heap_of by_rows) (Binary BSub 0 1) = Ok (heap_of by_rows ++ [z]) /\ step env2 (heap_of by_rows_T) (Binary BSub 0 1) = Ok (heap_of by_rows_T ++ [z']) /\ mirrored z z'.
Proof.
  assert (O : is_ok (step env2 (heap_of by_rows) (Binary BSub 0 1)) = true) by (vm_compute; reflexivity).
  destruct (C92_calls pw0 env2 env2 _ _ (Binary BSub 0 1) env2_fair env2_fair (heap_reached _ (or_introl eq_refl)) reached_T heaps_mirrored I) as [[Q _]|Q]; [rewrite Q in O; discriminate O|exact Q].
Qed.
(** The smallest cells of the columns of the matrix and of the rows of its transpose. *)
Example C92_extrema_nonvacuous : exists z z', step env2 (heap_of by_rows) (Reduce RMin 0 (AxInt 0) false) = Ok (heap_of by_rows ++ [z]) /\ step env2 (heap_of by_rows_T) (Reduce RMin 0 (AxInt 1) false) = Ok (heap_of by_rows_T ++ [z']) /\ mirrored z z'.
Proof.
  assert (O : is_ok (step env2 (heap_of by_rows) (Reduce RMin 0 (AxInt 0) false)) = true) by (vm_compute; reflexivity).
  destruct (nth_mirrored _ _ 0%nat heaps_mirrored) as [[Q _]|(x & y & N & N' & A)]; [exfalso; assert (L : length (heap_of by_rows) = 2%nat) by (vm_compute; reflexivity); apply nth_error_None in Q; lia|].
  assert (Ex : x = nth 0 (heap_of by_rows) (VInts [] [])) by (symmetry; apply nth_error_nth; exact N). assert (Ey : y = nth 0 (heap_of by_rows_T) (VInts [] [])) by (symmetry; apply nth_error_nth; exact N').
  assert (CR : forall l, l = by_rows \/ l = by_rows_T -> can_reduce env2 RMin (nth 0 (heap_of l) (VInts [] []))).
  { intros l CL. split; [exact smin0_min|]. split; [exact smin0_min|].
    assert (G : forallb (fun v => negb (fnan v)) (let z := nth 0 (heap_of l) (VInts [] []) in matrix_values (stored z) (fst (shape2 z)) (snd (shape2 z))) = true) by (destruct CL as [-> | ->]; vm_compute; reflexivity). cbv zeta in G.
    apply Forall_forall. intros w Hw. rewrite forallb_forall in G. apply G in Hw. destruct (fnan w); [discriminate Hw|reflexivity]. }
  destruct (C92_extrema pw0 env2 env2 _ _ 0 x y RMin (AxInt 0) false env2_fair env2_fair (heap_reached _ (or_introl eq_refl)) reached_T N N') as [[Q _]|Q]; [| |left; reflexivity| | |rewrite Q in O; discriminate O|exact Q].
  - rewrite Ex. vm_compute. discriminate.
  - exact A.
  - rewrite Ex. apply CR. auto.
  - rewrite Ey. apply CR. auto.
Qed.
