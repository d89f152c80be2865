(** Property theorems: the algebraic laws of C48 for the calls of programs on any reachable
    matrices. *)
Require Import List ZArith Bool Arith Lia.
Require Import Coq.Floats.SpecFloat.
Require Import Verif.Res Verif.Values Verif.Spec Verif.Mem Verif.Laws Verif.Witness Verif.SpecReduce Verif.SpecPy Verif.MPy Verif.PropPy2 Verif.MObj Verif.SpecObj Verif.PropObj Verif.SpecCall Verif.SpecCall2 Verif.PropCall Verif.PropCall2 Verif.PropCall5 Verif.PCall Verif.PropFormat.
Require Verif.PCall3 Verif.PropAccuracy3 Verif.FloatFacts Verif.FloatValid Verif.SpecAccuracy.
Import ListNotations.
Local Open Scope Z_scope.

(** *** Specification *)
(** The same matrix in the same format: the same entries, bit by bit. *)
Definition same_object {F : Fl} (z z' : value F) : Prop := class_of z = class_of z' /\ same_matrix z z'.
(** Two calls raise both or return the same matrix. *)
Definition same_outcome {F : Fl} (h h' : list (value F)) (r r' : res (list (value F))) : Prop :=
  (r = Panic /\ r' = Panic) \/ exists z z', r = Ok (h ++ [z]) /\ r' = Ok (h' ++ [z']) /\ same_object z z'.

(** The stored numbers are doubles: what a NumPy array of float64 can hold. *)
Definition stores_doubles {pw} (x : value (f64 pw)) : Prop := forall i j, (i < fst (shape2 x))%nat -> (j < snd (shape2 x))%nat -> Forall SpecAccuracy.double (stored x i j).

(** *** Proofs *)
(** Negation multiplies by -1. *)
Lemma neg_is : forall pw (v : f64 pw), SpecAccuracy.double v -> unary_value UNeg v = fneg v.
Proof.
  intros pw v D. change (SFmul prec emax v (SFopp b64_one) = SFopp v). rewrite <- (FloatFacts.SFmul_1_r (SFopp v)) by (apply FloatValid.opp_double; exact D).
  change (f64 pw : Type) with spec_float in v. destruct v as [[]|[]| |[] m e]; reflexivity.
Qed.
Lemma negs_are : forall pw (l : list (f64 pw)), Forall SpecAccuracy.double l -> map (unary_value UNeg) l = map fneg l.
Proof. intros pw l D. apply map_ext_in. intros v Hv. rewrite Forall_forall in D. apply neg_is. apply D. exact Hv. Qed.
Section Laws.
Context {pw : spec_float -> spec_float -> spec_float}.
Notation F := (f64 pw).
Lemma shapes_dec : forall p q : nat * nat, p = q \/ p <> q.
Proof. intros [a b] [c d]. destruct (Nat.eq_dec a c), (Nat.eq_dec b d); subst; auto; right; congruence. Qed.
Lemma classes_dec : forall x y : value F, (class_of x = class_of y /\ (class_of x = Some CsrClass \/ class_of x = Some CscClass)) \/ (class_of x = None) \/ (class_of x <> class_of y \/ class_of x = Some CooClass).
Proof.
  intros x y. destruct (class_of x) as [[| |]|]; [| | |right; left; reflexivity].
  - destruct (class_of y) as [[| |]|]; first [left; split; [reflexivity|auto]|right; right; left; discriminate].
  - destruct (class_of y) as [[| |]|]; first [left; split; [reflexivity|auto]|right; right; left; discriminate].
  - right. right. auto.
Qed.
Lemma not_a_matrix : forall (e : Env F) h a b x y op, nth_error h a = Some x -> nth_error h b = Some y -> class_of x <> class_of y \/ class_of x = Some CooClass \/ class_of y = Some CooClass -> step e h (Binary op a b) = Panic.
Proof.
  intros e h a b x y op N N' H. apply (C60_no_binary_operators F e h a b x y op N N').
  destruct (class_of x) as [k|] eqn:C; destruct (class_of y) as [k'|] eqn:C'; try (left; discriminate).
  - destruct k, k'; first [left; discriminate|right; reflexivity|destruct H as [H|[H|H]]; try discriminate H; exfalso; apply H; reflexivity].
  - exfalso. destruct H as [H|[H|H]]; try discriminate H. apply H. reflexivity.
Qed.
End Laws.

(** *** Properties *)
(** [A + B] and [B + A] *)
Theorem C48_calls_add_comm : forall pw (e e' : Env (f64 pw)) h a b x y, fair e -> fair e' -> reached h -> nth_error h a = Some x -> nth_error h b = Some y -> class_of x <> None ->
  same_outcome h h (step e h (Binary BAdd a b)) (step e' h (Binary BAdd b a)).
Proof.
  intros pw e e' h a b x y FE FE' R N N' NC. assert (NL := f64_laws pw). destruct (classes_dec x y) as [[CE BC]|[CN|NB]]; [|contradiction|].
  - assert (BC' : class_of y = Some CsrClass \/ class_of y = Some CscClass) by (rewrite <- CE; exact BC).
    destruct (shapes_dec (shape2 x) (shape2 y)) as [S|S].
    + right. destruct (C60_sums_entries pw e h a b x y BAdd fadd FE R N N' CE BC eq_refl S) as (z & E & Cz & Sz & V). destruct (C60_sums_entries pw e' h b a y x BAdd fadd FE' R N' N (eq_sym CE) BC' eq_refl (eq_sym S)) as (z' & E' & Cz' & Sz' & V').
      exists z, z'. split; [exact E|]. split; [exact E'|]. split; [congruence|]. split; [congruence|]. intros i j Hi Hj. rewrite Sz in Hi, Hj. specialize (V i j Hi Hj). rewrite S in Hi, Hj. specialize (V' i j Hi Hj). cbv zeta in V, V'.
      rewrite V, V', (n_add_comm _ NL (cell y i j) (cell x i j)). reflexivity.
    + left. split; [apply (C60_sums (f64 pw) e h a b x y BAdd fadd NL FE R N N' CE BC eq_refl); exact S|apply (C60_sums (f64 pw) e' h b a y x BAdd fadd NL FE' R N' N (eq_sym CE) BC' eq_refl); congruence].
  - left. split; [apply (not_a_matrix e h a b x y BAdd N N')|apply (not_a_matrix e' h b a y x BAdd N' N)]; [tauto|]. destruct NB as [NB|NB]; [left; congruence|right; right; exact NB].
Qed.
Print Assumptions C48_calls_add_comm.

(** [A * B] and [B * A] *)
Theorem C48_calls_mul_comm : forall pw (e e' : Env (f64 pw)) h a b x y, fair e -> fair e' -> reached h -> nth_error h a = Some x -> nth_error h b = Some y -> class_of x <> None ->
  same_outcome h h (step e h (Binary BMul a b)) (step e' h (Binary BMul b a)).
Proof.
  intros pw e e' h a b x y FE FE' R N N' NC. assert (NL := f64_laws pw). destruct (classes_dec x y) as [[CE BC]|[CN|NB]]; [|contradiction|].
  - assert (BC' : class_of y = Some CsrClass \/ class_of y = Some CscClass) by (rewrite <- CE; exact BC).
    destruct (C60_common_entries _ e h a b x y BMul NL FE R N N' CE BC eq_refl) as [P Q]. destruct (C60_common_entries _ e' h b a y x BMul NL FE' R N' N (eq_sym CE) BC' eq_refl) as [P' Q'].
    destruct (shapes_dec (shape2 x) (shape2 y)) as [S|S]; [right|left; split; [apply P; exact S|apply P'; congruence]].
    destruct (Q S) as (z & E & Cz & Sz & V). destruct (Q' (eq_sym S)) as (z' & E' & Cz' & Sz' & V').
    exists z, z'. split; [exact E|]. split; [exact E'|]. split; [congruence|]. split; [congruence|]. intros i j Hi Hj. rewrite Sz in Hi, Hj. destruct (V i j Hi Hj) as [V1 V2]. rewrite S in Hi, Hj. destruct (V' i j Hi Hj) as [V1' V2'].
    assert (G : forall v, stored z i j = [v] <-> stored z' i j = [v]).
    { intros v. rewrite V1, V1'. split; intros (p & q & H1 & H2 & H3); exists q, p; (split; [exact H2|]); (split; [exact H1|]); cbn [combines] in *; rewrite (n_mul_comm _ NL); exact H3. }
    destruct V2 as [V2|[v V2]]; [destruct V2' as [V2'|[v V2']]; [congruence|exfalso; apply G in V2'; congruence]|]. rewrite V2. symmetry. apply G. exact V2.
  - left. split; [apply (not_a_matrix e h a b x y BMul N N')|apply (not_a_matrix e' h b a y x BMul N' N)]; [tauto|]. destruct NB as [NB|NB]; [left; congruence|right; right; exact NB].
Qed.
Print Assumptions C48_calls_mul_comm.

(** [A - B] and [A + (-B)] *)
Theorem C48_calls_sub_neg : forall pw (e e1 e2 : Env (f64 pw)) h h1 a b x y, fair e -> fair e2 -> reached h -> nth_error h a = Some x -> nth_error h b = Some y -> class_of y <> None -> stores_doubles y ->
  step e1 h (Unary UNeg b) = Ok h1 -> reached h1 ->
  same_outcome h h1 (step e h (Binary BSub a b)) (step e2 h1 (Binary BAdd a (length h))).
Proof.
  intros pw e e1 e2 h h1 a b x y FE FE2 R N N' NC DB E1 R1. assert (NL := f64_laws pw). destruct (C60_unary_maps _ e1 h b y UNeg NL R N' NC eq_refl) as (n & En & Cn & Sn & Vn). rewrite En in E1. injection E1 as <-.
  assert (N1 : nth_error (h ++ [n]) a = Some x) by (rewrite nth_error_app1; [exact N|]; apply nth_error_Some; rewrite N; discriminate).
  assert (Nn : nth_error (h ++ [n]) (length h) = Some n) by (rewrite nth_error_app2, Nat.sub_diag by lia; reflexivity).
  assert (ONE : forall i j, (i < fst (shape2 y))%nat -> (j < snd (shape2 y))%nat -> (length (stored y i j) <= 1)%nat) by (intros i j Hi Hj; apply (PropAccuracy3.stored_one pw y i j (PCall3.reached_nth h b y NL R N') Hi Hj)).
  destruct (classes_dec x y) as [[CE BC]|[CN|NB]].
  - assert (CEn : class_of x = class_of n) by congruence.
    destruct (shapes_dec (shape2 x) (shape2 y)) as [S|S].
    + right. destruct (C60_sums_entries pw e h a b x y BSub fsub FE R N N' CE BC eq_refl S) as (z & E & Cz & Sz & V). destruct (C60_sums_entries pw e2 _ a (length h) x n BAdd fadd FE2 R1 N1 Nn CEn BC eq_refl ltac:(congruence)) as (z' & E' & Cz' & Sz' & V').
      exists z, z'. split; [exact E|]. split; [exact E'|]. split; [congruence|]. split; [congruence|]. intros i j Hi Hj. rewrite Sz in Hi, Hj. specialize (V i j Hi Hj). specialize (V' i j Hi Hj). cbv zeta in V, V'. rewrite V, V'. clear V V'.
      rewrite S in Hi, Hj. specialize (ONE i j Hi Hj). unfold cell. rewrite (Vn i j), (negs_are pw _ (DB i j Hi Hj)). destruct (stored y i j) as [|q [|? ?]]; [| |cbn in ONE; lia]; cbn [map one_or].
      * generalize (one_or (f0 : f64 pw) (stored x i j)). intros w. change (f64 pw : Type) with spec_float in w. destruct w as [[]|[]| |[] m ex]; reflexivity.
      * rewrite (n_sub_add _ NL). reflexivity.
    + left. split; [apply (C60_sums (f64 pw) e h a b x y BSub fsub NL FE R N N' CE BC eq_refl); exact S|apply (C60_sums (f64 pw) e2 _ a (length h) x n BAdd fadd NL FE2 R1 N1 Nn CEn BC eq_refl); congruence].
  - left. split; [apply (not_a_matrix e h a b x y BSub N N')|apply (not_a_matrix e2 _ a (length h) x n BAdd N1 Nn)]; left; congruence.
  - left. split; [apply (not_a_matrix e h a b x y BSub N N'); tauto|apply (not_a_matrix e2 _ a (length h) x n BAdd N1 Nn)]. destruct NB as [NB|NB]; [left; congruence|tauto].
Qed.
Print Assumptions C48_calls_sub_neg.

(** [A - A] stores nothing, if the stored numbers are finite. *)
Theorem C48_calls_sub_self : forall pw (e : Env (f64 pw)) h a x, fair e -> reached h -> nth_error h a = Some x -> class_of x = Some CsrClass \/ class_of x = Some CscClass ->
  (forall i j, (i < fst (shape2 x))%nat -> (j < snd (shape2 x))%nat -> Forall (fun v => ffinite v = true) (stored x i j)) ->
  exists z, step e h (Binary BSub a a) = Ok (h ++ [z]) /\ class_of z = class_of x /\ shape2 z = shape2 x /\ forall i j, (i < fst (shape2 x))%nat -> (j < snd (shape2 x))%nat -> stored z i j = [].
Proof.
  intros pw e h a x FE R N BC FI. assert (NL := f64_laws pw). destruct (C60_sums_entries pw e h a a x x BSub fsub FE R N N eq_refl BC eq_refl eq_refl) as (z & E & Cz & Sz & V). exists z. split; [exact E|]. split; [exact Cz|]. split; [exact Sz|].
  intros i j Hi Hj. specialize (V i j Hi Hj). cbv zeta in V. rewrite V.
  assert (G : ffinite (cell x i j) = true). { unfold cell. specialize (FI i j Hi Hj). destruct (stored x i j) as [|v [|? ?]]; [reflexivity| |]; inversion FI; subst; cbn [one_or]; [assumption|first [assumption|reflexivity]]. }
  destruct (n_sub_diag _ NL _ G) as [Q|[Q _]]; rewrite Q; reflexivity.
Qed.
Print Assumptions C48_calls_sub_self.

(** [-(-A)], [abs(-A)] and [A.T.T] *)
Theorem C48_calls_neg_neg : forall pw (e1 e2 : Env (f64 pw)) h h1 a x, reached h -> nth_error h a = Some x -> class_of x <> None -> stores_doubles x -> step e1 h (Unary UNeg a) = Ok h1 -> reached h1 ->
  exists z, step e2 h1 (Unary UNeg (length h)) = Ok (h1 ++ [z]) /\ same_object z x.
Proof.
  intros pw e1 e2 h h1 a x R N NC DB E1 R1. assert (NL := f64_laws pw). destruct (C60_unary_maps _ e1 h a x UNeg NL R N NC eq_refl) as (n & En & Cn & Sn & Vn). rewrite En in E1. injection E1 as <-.
  assert (Nn : nth_error (h ++ [n]) (length h) = Some n) by (rewrite nth_error_app2, Nat.sub_diag by lia; reflexivity).
  destruct (C60_unary_maps _ e2 _ _ n UNeg NL R1 Nn ltac:(congruence) eq_refl) as (z & E & Cz & Sz & Vz). exists z. split; [exact E|]. split; [congruence|]. split; [congruence|]. intros i j Hi Hj. rewrite Sz, Sn in Hi, Hj. specialize (DB i j Hi Hj). rewrite Vz, Vn, (negs_are pw _ DB), negs_are, map_map by (apply Forall_map; revert DB; apply Forall_impl; intros v; apply FloatValid.opp_double).
  rewrite <- map_id. apply map_ext. intros v. apply (n_neg_neg _ NL).
Qed.
Print Assumptions C48_calls_neg_neg.
Theorem C48_calls_abs_neg : forall pw (e e1 e2 : Env (f64 pw)) h h1 a x, reached h -> nth_error h a = Some x -> class_of x <> None -> stores_doubles x -> step e1 h (Unary UNeg a) = Ok h1 -> reached h1 ->
  same_outcome h h1 (step e h (Unary UAbs a)) (step e2 h1 (Unary UAbs (length h))).
Proof.
  intros pw e e1 e2 h h1 a x R N NC DB E1 R1. assert (NL := f64_laws pw). destruct (C60_unary_maps _ e1 h a x UNeg NL R N NC eq_refl) as (n & En & Cn & Sn & Vn). rewrite En in E1. injection E1 as <-.
  assert (Nn : nth_error (h ++ [n]) (length h) = Some n) by (rewrite nth_error_app2, Nat.sub_diag by lia; reflexivity).
  destruct (C60_unary_maps _ e h a x UAbs NL R N NC eq_refl) as (z & E & Cz & Sz & Vz). destruct (C60_unary_maps _ e2 _ _ n UAbs NL R1 Nn ltac:(congruence) eq_refl) as (z' & E' & Cz' & Sz' & Vz').
  right. exists z, z'. split; [exact E|]. split; [exact E'|]. split; [congruence|]. split; [congruence|]. intros i j Hi Hj. rewrite Sz in Hi, Hj. rewrite Vz, Vz', Vn, (negs_are pw _ (DB i j Hi Hj)), map_map. apply map_ext. intros v. change (f64 pw : Type) with spec_float in v. destruct v; reflexivity.
Qed.
Print Assumptions C48_calls_abs_neg.
Theorem C48_calls_transpose_twice : forall pw (e1 e2 : Env (f64 pw)) h h1 a x, fair e1 -> fair e2 -> reached h -> nth_error h a = Some x -> class_of x <> None -> step e1 h (Unary UT a) = Ok h1 -> reached h1 ->
  exists z, step e2 h1 (Unary UT (length h)) = Ok (h1 ++ [z]) /\ same_object z x.
Proof.
  intros pw e1 e2 h h1 a x FE1 FE2 R N NC E1 R1. assert (NL := f64_laws pw). destruct (C60_transpose _ e1 h a x NL FE1 R N NC) as (n & En & Cn & Sn & Vn). rewrite En in E1. injection E1 as <-.
  assert (Nn : nth_error (h ++ [n]) (length h) = Some n) by (rewrite nth_error_app2, Nat.sub_diag by lia; reflexivity).
  destruct (C60_transpose _ e2 _ _ n NL FE2 R1 Nn ltac:(congruence)) as (z & E & Cz & Sz & Vz). exists z. split; [exact E|]. rewrite Sn in Sz, Vz. cbn [fst snd] in Sz, Vz. rewrite <- surjective_pairing in Sz.
  split; [congruence|]. split; [exact Sz|]. rewrite Sz. intros i j Hi Hj. rewrite (Vz j i Hj Hi). apply Vn; assumption.
Qed.
Print Assumptions C48_calls_transpose_twice.

(** abs, sign and prune twice are the same as once. *)
Definition idempotent {F : Fl} (op : uop (F := F)) : Prop := match op with UAbs | USign => True | UPrune eps => feqb eps f0 = false | _ => False end.
Theorem C48_calls_idempotent : forall pw (e1 e2 : Env (f64 pw)) h h1 a x op, fair e1 -> fair e2 -> reached h -> nth_error h a = Some x -> class_of x <> None -> idempotent op -> step e1 h (Unary op a) = Ok h1 -> reached h1 ->
  exists y z, h1 = h ++ [y] /\ step e2 h1 (Unary op (length h)) = Ok (h1 ++ [z]) /\ same_object z y.
Proof.
  intros pw e1 e2 h h1 a x op FE1 FE2 R N NC ID E1 R1. assert (NL := f64_laws pw).
  assert (MAP : is_map op = true -> (forall v, unary_value op (unary_value op v) = unary_value op v) -> exists y z, h1 = h ++ [y] /\ step e2 h1 (Unary op (length h)) = Ok (h1 ++ [z]) /\ same_object z y).
  { intros IM TW. destruct (C60_unary_maps _ e1 h a x op NL R N NC IM) as (n & En & Cn & Sn & Vn). rewrite En in E1. injection E1 as <-.
    assert (Nn : nth_error (h ++ [n]) (length h) = Some n) by (rewrite nth_error_app2, Nat.sub_diag by lia; reflexivity).
    destruct (C60_unary_maps _ e2 _ _ n op NL R1 Nn ltac:(congruence) IM) as (z & E & Cz & Sz & Vz). exists n, z. split; [reflexivity|]. split; [exact E|]. split; [congruence|]. split; [congruence|]. intros i j _ _. rewrite Vz, Vn, map_map. apply map_ext. exact TW. }
  destruct op as [| | |eps| |]; try contradiction ID.
  - apply MAP; [reflexivity|]. intros v. change (f64 pw : Type) with spec_float in v. destruct v; reflexivity.
  - apply MAP; [reflexivity|]. intros v. cbn [unary_value]. destruct (fnan v) eqn:NV; [rewrite NV; reflexivity|]. destruct (fltb f0 v); [reflexivity|]. destruct (fltb v f0); reflexivity.
  - cbn [idempotent] in ID. destruct (C60_prune _ e1 h a x eps NL FE1 R N NC ID) as (n & En & Cn & Sn & Vn). rewrite En in E1. injection E1 as <-.
    assert (Nn : nth_error (h ++ [n]) (length h) = Some n) by (rewrite nth_error_app2, Nat.sub_diag by lia; reflexivity).
    destruct (C60_prune _ e2 _ _ n eps NL FE2 R1 Nn ltac:(congruence) ID) as (z & E & Cz & Sz & Vz). exists n, z. split; [reflexivity|]. split; [exact E|]. split; [congruence|]. split; [congruence|].
    intros i j Hi Hj. rewrite Sz in Hi, Hj. rewrite (Vz i j Hi Hj). rewrite Sn in Hi, Hj. rewrite (Vn i j Hi Hj). generalize (stored x i j). intros l. induction l as [|v l IH]; [reflexivity|]. cbn [filter].
    match goal with |- context [if ?c then v :: _ else _] => destruct c eqn:EC end; [cbn [filter]; rewrite EC, IH; reflexivity|exact IH].
Qed.
Print Assumptions C48_calls_idempotent.

(** *** The theorems apply *)
(** The two matrices of [by_rows] and [by_columns]; [after l c] is the heap after one more call. *)
Definition after (l : list (call (f64 pw0))) (c : call (f64 pw0)) : list (value (f64 pw0)) := match step env2 (heap_of l) c with Ok g => g | _ => [] end.
Lemma after_reached : forall l c, l = by_rows \/ l = by_columns -> c = Unary UNeg 1%nat \/ c = Unary UNeg 0%nat \/ c = Unary UT 0%nat \/ c = Unary (UPrune (fz 1 : f64 pw0)) 0%nat ->
  step env2 (heap_of l) c = Ok (after l c) /\ reached (after l c).
Proof.
  intros l c CL CC. assert (R : reached (heap_of l)) by (apply heap_reached; tauto).
  assert (O : (is_ok (step env2 (heap_of l) c) && (demand (heap_of l) c <? i64_max) && forallb fits (after l c))%bool = true) by (destruct CL as [-> | ->]; destruct CC as [-> |[-> |[-> | ->]]]; vm_compute; reflexivity).
  apply andb_true_iff in O. destruct O as [O FT]. apply andb_true_iff in O. destruct O as [O D]. apply Z.ltb_lt in D.
  assert (E : step env2 (heap_of l) c = Ok (after l c)) by (unfold after; destruct (step env2 (heap_of l) c); [reflexivity|discriminate O..]).
  split; [exact E|]. apply (reached_call (heap_of l) env2 c (after l c) R env2_fair); [| |exact D|exact E|exact FT].
  - destruct CC as [-> |[-> |[-> | ->]]]; exact I.
  - intros X. destruct CC as [-> |[-> |[-> | ->]]]; exact X.
Qed.
Lemma two : forall l k, l = by_rows \/ l = by_columns -> (k < 2)%nat -> exists x, nth_error (heap_of l) k = Some x /\ x = nth k (heap_of l) (VInts [] []) /\ shape2 x = (2, 3)%nat /\ class_of x = (if match l with NewCsr _ _ _ _ _ _ :: _ => true | _ => false end then Some CsrClass else Some CscClass) /\
  forallb (fun v : spec_float => valid_binary 53 1024 v && b64_finite v) (flat_map (fun p => stored x (fst p) (snd p)) (grid 2 3)) = true.
Proof.
  intros l k CL K. assert (L : length (heap_of l) = 2%nat) by (destruct CL as [-> | ->]; vm_compute; reflexivity). exists (nth k (heap_of l) (VInts [] [])).
  split; [apply nth_error_nth'; lia|]. split; [reflexivity|]. destruct k as [|[|k]]; [| |lia]; destruct CL as [-> | ->]; (split; [vm_compute; reflexivity|]); (split; [vm_compute; reflexivity|]); vm_compute; reflexivity.
Qed.
Lemma two_matrix : forall l k, l = by_rows \/ l = by_columns -> (k < 2)%nat -> exists x, nth_error (heap_of l) k = Some x /\ class_of x <> None /\ stores_doubles x.
Proof.
  intros l k CL K. destruct (two l k CL K) as (x & N & _ & S & C & D). exists x. split; [exact N|]. split; [rewrite C; destruct CL as [-> | ->]; discriminate|].
  intros i j Hi Hj. rewrite S in Hi, Hj. rewrite forallb_forall in D. apply Forall_forall. intros v Hv. assert (G := D v). rewrite andb_true_iff in G. apply G. apply in_flat_map. exists (i, j). split; [apply in_prod; apply in_seq; cbn [fst snd] in *; lia|exact Hv].
Qed.
Example C48_calls_add_comm_nonvacuous : same_outcome (heap_of by_columns) (heap_of by_columns) (step env2 (heap_of by_columns) (Binary BAdd 0 1)) (step env2 (heap_of by_columns) (Binary BAdd 1 0)) /\ is_ok (step env2 (heap_of by_columns) (Binary BAdd 0 1)) = true.
Proof.
  destruct (two_matrix by_columns 0 (or_intror eq_refl) ltac:(lia)) as (x & N & C & _). destruct (two_matrix by_columns 1 (or_intror eq_refl) ltac:(lia)) as (y & N' & _). split; [|vm_compute; reflexivity].
  exact (C48_calls_add_comm pw0 env2 env2 _ 0 1 x y env2_fair env2_fair (heap_reached _ (or_intror (or_introl eq_refl))) N N' C).
Qed.
Example C48_calls_mul_comm_nonvacuous : same_outcome (heap_of by_rows) (heap_of by_rows) (step env2 (heap_of by_rows) (Binary BMul 0 1)) (step env2 (heap_of by_rows) (Binary BMul 1 0)) /\ is_ok (step env2 (heap_of by_rows) (Binary BMul 0 1)) = true.
Proof.
  destruct (two_matrix by_rows 0 (or_introl eq_refl) ltac:(lia)) as (x & N & C & _). destruct (two_matrix by_rows 1 (or_introl eq_refl) ltac:(lia)) as (y & N' & _). split; [|vm_compute; reflexivity].
  exact (C48_calls_mul_comm pw0 env2 env2 _ 0 1 x y env2_fair env2_fair (heap_reached _ (or_introl eq_refl)) N N' C).
Qed.
Example C48_calls_sub_neg_nonvacuous : same_outcome (heap_of by_columns) (after by_columns (Unary UNeg 1)) (step env2 (heap_of by_columns) (Binary BSub 0 1)) (step env2 (after by_columns (Unary UNeg 1)) (Binary BAdd 0 (length (heap_of by_columns)))) /\
  is_ok (step env2 (heap_of by_columns) (Binary BSub 0 1)) = true.
Proof.
  destruct (two_matrix by_columns 0 (or_intror eq_refl) ltac:(lia)) as (x & N & _). destruct (two_matrix by_columns 1 (or_intror eq_refl) ltac:(lia)) as (y & N' & C & D). split; [|vm_compute; reflexivity].
  destruct (after_reached by_columns (Unary UNeg 1) (or_intror eq_refl) (or_introl eq_refl)) as [E R]. exact (C48_calls_sub_neg pw0 env2 env2 env2 _ _ 0 1 x y env2_fair env2_fair (heap_reached _ (or_intror (or_introl eq_refl))) N N' C D E R).
Qed.
Example C48_calls_sub_self_nonvacuous : exists z, step env2 (heap_of by_rows) (Binary BSub 1 1) = Ok (heap_of by_rows ++ [z]) /\ shape2 z = (2, 3)%nat /\ stored z 0 1 = [].
Proof.
  destruct (two by_rows 1 (or_introl eq_refl) ltac:(lia)) as (x & N & _ & S & C & D).
  destruct (C48_calls_sub_self pw0 env2 _ 1 x env2_fair (heap_reached _ (or_introl eq_refl)) N (or_introl C)) as (z & E & _ & Sz & V).
  - intros i j Hi Hj. rewrite S in Hi, Hj. rewrite forallb_forall in D. apply Forall_forall. intros v Hv. assert (G := D v). rewrite andb_true_iff in G. apply G. apply in_flat_map. exists (i, j). split; [apply in_prod; apply in_seq; cbn [fst snd] in *; lia|exact Hv].
  - exists z. split; [exact E|]. split; [congruence|]. apply V; rewrite S; cbn; lia.
Qed.
Example C48_calls_neg_neg_nonvacuous : exists x z, nth_error (heap_of by_rows) 0 = Some x /\ step env2 (after by_rows (Unary UNeg 0)) (Unary UNeg (length (heap_of by_rows))) = Ok (after by_rows (Unary UNeg 0) ++ [z]) /\ same_object z x.
Proof.
  destruct (two_matrix by_rows 0 (or_introl eq_refl) ltac:(lia)) as (x & N & C & D). destruct (after_reached by_rows (Unary UNeg 0) (or_introl eq_refl) (or_intror (or_introl eq_refl))) as [E R].
  destruct (C48_calls_neg_neg pw0 env2 env2 _ _ 0 x (heap_reached _ (or_introl eq_refl)) N C D E R) as (z & Ez & S). exists x, z. auto.
Qed.
Example C48_calls_abs_neg_nonvacuous : same_outcome (heap_of by_rows) (after by_rows (Unary UNeg 0)) (step env2 (heap_of by_rows) (Unary UAbs 0)) (step env2 (after by_rows (Unary UNeg 0)) (Unary UAbs (length (heap_of by_rows)))) /\ is_ok (step env2 (heap_of by_rows) (Unary UAbs 0)) = true.
Proof.
  destruct (two_matrix by_rows 0 (or_introl eq_refl) ltac:(lia)) as (x & N & C & D). destruct (after_reached by_rows (Unary UNeg 0) (or_introl eq_refl) (or_intror (or_introl eq_refl))) as [E R]. split; [|vm_compute; reflexivity].
  exact (C48_calls_abs_neg pw0 env2 env2 env2 _ _ 0 x (heap_reached _ (or_introl eq_refl)) N C D E R).
Qed.
Example C48_calls_transpose_twice_nonvacuous : exists x z, nth_error (heap_of by_columns) 0 = Some x /\ step env2 (after by_columns (Unary UT 0)) (Unary UT (length (heap_of by_columns))) = Ok (after by_columns (Unary UT 0) ++ [z]) /\ same_object z x.
Proof.
  destruct (two_matrix by_columns 0 (or_intror eq_refl) ltac:(lia)) as (x & N & C & _). destruct (after_reached by_columns (Unary UT 0) (or_intror eq_refl) (or_intror (or_intror (or_introl eq_refl)))) as [E R].
  destruct (C48_calls_transpose_twice pw0 env2 env2 _ _ 0 x env2_fair env2_fair (heap_reached _ (or_intror (or_introl eq_refl))) N C E R) as (z & Ez & S). exists x, z. auto.
Qed.
Example C48_calls_idempotent_nonvacuous : exists y z, after by_rows (Unary (UPrune (fz 1 : f64 pw0)) 0) = heap_of by_rows ++ [y] /\
  step env2 (after by_rows (Unary (UPrune (fz 1 : f64 pw0)) 0)) (Unary (UPrune (fz 1 : f64 pw0)) (length (heap_of by_rows))) = Ok (after by_rows (Unary (UPrune (fz 1 : f64 pw0)) 0) ++ [z]) /\ same_object z y.
Proof.
  destruct (two_matrix by_rows 0 (or_introl eq_refl) ltac:(lia)) as (x & N & C & _). destruct (after_reached by_rows (Unary (UPrune (fz 1 : f64 pw0)) 0) (or_introl eq_refl) (or_intror (or_intror (or_intror eq_refl)))) as [E R].
  assert (ID : idempotent (UPrune (fz 1 : f64 pw0))) by (vm_compute; reflexivity).
  exact (C48_calls_idempotent pw0 env2 env2 _ _ 0 x _ env2_fair env2_fair (heap_reached _ (or_introl eq_refl)) N C ID E R).
Qed.
