(** Programs on integers: looking up operands, and the values of single cells. *)
Require Import List ZArith Bool Arith Lia Permutation QArith Qabs Qpower.
Require Import Coq.Floats.SpecFloat.
Require Import Verif.Res Verif.Values Verif.Spec Verif.Mem Verif.Laws Verif.Witness Verif.SpecReduce Verif.SpecPy Verif.MPy Verif.PPy Verif.PropPy2 Verif.PropStat Verif.MObj Verif.SpecObj Verif.PObj Verif.PropObj Verif.SpecCall Verif.SpecCall2 Verif.PropCall Verif.PropCall2 Verif.PropCall3 Verif.PropCall4 Verif.PropCall5 Verif.PropCall6 Verif.PropCall7 Verif.PropDiff.
Require Import Verif.SpecAccuracy Verif.FloatErr Verif.FloatFloor Verif.PAccuracy2 Verif.PAccuracy5 Verif.PAccuracy6 Verif.PropAccuracy Verif.PropAccuracy2 Verif.PropAccuracy3 Verif.PropAccuracy4 Verif.SpecInt Verif.PInt Verif.PInt2.
Require Verif.PCall Verif.PCall3 Verif.PDense2 Verif.PDense4.
Import ListNotations.
Local Open Scope Z_scope.

Section Steps.
Context {pw : spec_float -> spec_float -> spec_float}.
Notation F := (f64 pw).
Implicit Types (h : list (value F)) (v z : value F) (H : list ival) (e : Env F).

Lemma at_class : forall h H a k m n x, reached h -> Forall2 holds h H -> nth_error H a = Some (IMat k m n x) ->
  exists v, nth_error h a = Some v /\ class_of v = Some k /\ shape2 v = (m, n) /\ class_of v <> None /\
    (forall i j, (i < m)%nat -> (j < n)%nat -> is_int (SpecCall.cell v i j) (x i j)) /\ (forall i j, (i < m)%nat -> (j < n)%nat -> (length (stored v i j) <= 1)%nat).
Proof.
  intros h H a k m n x R HH N. assert (G : exists v, nth_error h a = Some v /\ holds v (IMat k m n x)).
  { clear R. revert a N. induction HH as [|v y h H V HH IH]; intros [|a] N; try discriminate N; [injection N as ->; exists v; auto|]. apply IH. exact N. }
  destruct G as (v & E & C & S & V). exists v. assert (K := PCall3.reached_nth h a v (f64_laws pw) R E). split; [exact E|]. split; [exact C|]. split; [exact S|]. split; [rewrite C; discriminate|]. split; [exact V|].
  intros i j Hi Hj. apply (stored_one pw v i j K); rewrite S; assumption.
Qed.
Lemma at_array : forall h H a sh d, Forall2 holds h H -> nth_error H a = Some (IArr sh d) -> exists d' : list F, nth_error h a = Some (VArr sh d') /\ Forall2 is_int d' d.
Proof.
  intros h H a sh d HH N. revert a N. induction HH as [|v y h H V HH IH]; intros [|a] N; try discriminate N; [|apply IH; exact N]. injection N as ->. destruct V as (d' & -> & V). exists d'. auto.
Qed.
Lemma cells_of_some : forall k m n f y, cells_of k m n f = Some y -> y = IMat k m n (fun i j => from_some (f i j)) /\ forall i j, (i < m)%nat -> (j < n)%nat -> f i j = Some (from_some (f i j)).
Proof.
  intros k m n f y E. unfold cells_of in E. destruct (forallb _ _) eqn:B; [|discriminate E]. injection E as <-. split; [reflexivity|]. intros i j Hi Hj. rewrite forallb_forall in B.
  specialize (B (i, j)). cbn [fst snd] in B. destruct (f i j); [reflexivity|]. discriminate B. apply in_prod_iff. rewrite !in_seq. lia.
Qed.
Lemma one_map : forall (g : F -> F) (l : list F), (length l <= 1)%nat -> (forall w, l = [w] -> one_or f0 (map g l) = g w).
Proof. intros g l L w ->. reflexivity. Qed.

(** One stored value. *)
Lemma map_cell : forall (g : F -> F) (l : list F) x r, (length l <= 1)%nat -> is_int (one_or f0 l) x -> (x = 0 -> r = 0) -> (forall w, is_int w x -> is_int (g w) r) -> is_int (one_or f0 (map g l)) r.
Proof.
  intros g l x r L I Z G. destruct l as [|w [|? ?]]; [|apply G; exact I|cbn in L; lia]. destruct I as [_ I]. change (inject_Z 0 == inject_Z x)%Q in I. apply Zinj in I. rewrite Z by (symmetry; exact I). apply int_zero.
Qed.
Lemma abs_int : forall (w : F) x, is_int w x -> is_int (fabs w) (Z.abs x).
Proof.
  intros w x [[D A] B]. split; [split; [apply FloatValid.abs_double; exact D|destruct w; try discriminate A; reflexivity]|].
  assert (E : (number (SFabs w) == Qabs (number w))%Q).
  { destruct w as [s|s| |s m e]; try reflexivity. cbn [SFabs number]. rewrite Qabs_Qmult. rewrite (Qabs_pos ((2 # 1) ^ e)%Q) by (apply Qpower_pos; discriminate). destruct s; reflexivity. }
  etransitivity; [exact E|]. rewrite B. apply abs_inject.
Qed.
Lemma sign_int : forall (w : F) x, is_int w x -> is_int (unary_value USign w) (Z.sgn x).
Proof.
  intros w x [[D A] B]. destruct w as [s|s| |s m e]; try discriminate A.
  - change (inject_Z 0 == inject_Z x)%Q in B. apply Zinj in B. subst x. destruct s; apply int_zero.
  - assert (P : (0 < (2 # 1) ^ e)%Q) by (apply q2_pos). cbn [number] in B. destruct s.
    + assert (N : x < 0). { rewrite Zlt_Qlt. rewrite <- B. change (inject_Z 0) with 0%Q. rewrite <- (Qmult_0_l ((2 # 1) ^ e)). apply Qmult_lt_compat_r; [exact P|]. reflexivity. }
      rewrite Z.sgn_neg by exact N. split; [split; reflexivity|vm_compute; reflexivity].
    + assert (N : 0 < x). { rewrite Zlt_Qlt. rewrite <- B. change (inject_Z 0) with 0%Q. rewrite <- (Qmult_0_l ((2 # 1) ^ e)). apply Qmult_lt_compat_r; [exact P|]. reflexivity. }
      rewrite Z.sgn_pos by exact N. split; [split; reflexivity|vm_compute; reflexivity].
Qed.

Lemma limit_is : limit = 2 ^ 53. Proof. reflexivity. Qed.
Ltac bounds := unfold small in *; rewrite ?andb_true_iff, ?Z.leb_le, ?Z.ltb_lt, ?Z.eqb_eq, ?limit_is in *.
Lemma binary_fits : forall op a b r, int_binary op a b = Some r -> (match op with BDiv | BFloorDiv | BMod => b = 0 /\ r = 0 | _ => False end) \/ PropAccuracy4.fits op a b /\ r = integer_result op a b.
Proof.
  intros op a b r E. destruct op; cbn [int_binary] in E; try discriminate E.
  4-6: (destruct (Z.eqb_spec b 0) as [B|B]; [left; injection E as <-; auto|]).
  all: right; match type of E with (if ?c then _ else _) = _ => destruct c eqn:C; [|discriminate E] end; injection E as <-; cbn [PropAccuracy4.fits integer_result]; bounds.
  1-3: auto.
  - split; [|reflexivity]. split; [exact B|]. split; [apply Z.mod_divide; [exact B|apply C]|apply C].
  - auto.
  - auto.
Qed.
Lemma scalar_int : forall op (w : F) x y r, is_int w x -> small y = true -> int_scalar op x y = Some r -> is_int (scalar_value op (fofZ y) w) r /\ (x = 0 -> r = 0).
Proof.
  intros op w x y r [FW NW] S E. destruct (int_ofZ y S) as [FA NA].
  assert (G : scalar_fits op x y /\ r = scalar_result op x y /\ (x = 0 -> scalar_result op x y = 0)).
  { destruct op; cbn [int_scalar] in E; try discriminate E; try (destruct (Z.eqb_spec y 0) as [B|B]; [discriminate E|]);
      destruct (binary_fits _ _ _ _ E) as [[]|[A ->]]; try contradiction; (split; [exact A|]; split; [reflexivity|]; intros ->; cbn [scalar_result]; try reflexivity). }
  destruct G as (G1 & -> & G2). split; [|exact G2]. apply scalar_integers; auto.
Qed.

End Steps.
