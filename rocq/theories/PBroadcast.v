(** NumPy's broadcasting, as modelled in MPy, against the vocabulary of Spec. *)
Require Import List ZArith Bool Arith Lia.
Require Import ZifyBool ZifyNat.
Require Import Verif.Res Verif.Values Verif.Spec Verif.SpecReduce Verif.SpecPy Verif.MPy.
Import ListNotations.
Local Open Scope Z_scope.

Lemma np_keys_length : forall sh, length (np_keys sh) = fold_right Nat.mul 1%nat sh.
Proof.
  induction sh as [|n sh IH]; [reflexivity|]. cbn [np_keys fold_right]. rewrite <- IH. generalize (np_keys sh) as K. intros K. generalize 0%nat as s.
  induction n as [|n IHn]; intros s; [reflexivity|]. cbn [seq flat_map]. rewrite app_length, map_length, IHn. reflexivity.
Qed.

(** Index tuples within a shape. *)
Definition inside (sh k : list nat) : Prop := Forall2 (fun i n => (i < n)%nat) k sh.
Lemma np_keys_nth : forall sh k, inside sh k -> nth_error (np_keys sh) (Z.to_nat (position (map Z.of_nat sh) (map Z.of_nat k))) = Some k.
Proof.
  intros sh k H. induction H as [|i n k sh Hi H IH]; [reflexivity|]. cbn [map position np_keys].
  set (P := position (map Z.of_nat sh) (map Z.of_nat k)) in *.
  assert (L := np_keys_length sh).
  assert (EC : cells (map Z.of_nat sh) = Z.of_nat (length (np_keys sh))).
  { rewrite L. clear. induction sh as [|n sh IH]; [reflexivity|]. unfold cells in *. cbn [map fold_right]. rewrite IH. lia. }
  assert (HP : (Z.to_nat P < length (np_keys sh))%nat) by (apply nth_error_Some; rewrite IH; discriminate).
  assert (P0 : 0 <= P).
  { subst P. clear. revert k. induction sh as [|n sh IH]; intros [|i k]; cbn [map position]; try lia. specialize (IH k).
    assert (0 <= cells (map Z.of_nat sh)) by (clear; induction sh; unfold cells in *; cbn [map fold_right]; lia). lia. }
  rewrite EC. replace (Z.to_nat (Z.of_nat i * Z.of_nat (length (np_keys sh)) + P)) with (i * length (np_keys sh) + Z.to_nat P)%nat by lia.
  revert Hi HP IH. generalize (Z.to_nat P) as p. generalize (np_keys sh) as K. clear. intros K p Hi HP E.
  assert (G : forall s, nth_error (flat_map (fun x => map (cons x) K) (seq s n)) (i * length K + p) = Some ((s + i)%nat :: k)); [|exact (G 0%nat)].
  revert i Hi. induction n as [|n IH]; intros i Hi s; [lia|]. cbn [seq flat_map]. destruct i as [|i].
  - rewrite nth_error_app1 by (rewrite map_length; lia). cbn [Nat.mul Nat.add]. rewrite nth_error_map, E. cbn [option_map]. rewrite Nat.add_0_r. reflexivity.
  - rewrite nth_error_app2 by (rewrite map_length; lia). rewrite map_length. replace (S i * length K + p - length K)%nat with (i * length K + p)%nat by lia.
    rewrite IH by lia. do 2 f_equal. lia.
Qed.
Lemma in_shape_inside : forall sh k, in_shape (map Z.of_nat sh) k -> inside sh (map Z.to_nat k) /\ map Z.of_nat (map Z.to_nat k) = k.
Proof.
  intros sh k H. revert k H. induction sh as [|n sh IH]; intros k H; inversion H as [|x m k' sh' Hx Hk]; subst; [split; [constructor|reflexivity]|].
  destruct (IH _ Hk) as [I E]. split; [constructor; [lia|exact I]|]. cbn [map]. rewrite E. f_equal. lia.
Qed.
Lemma np_offset_is : forall s k, np_offset s k = Z.to_nat (position (map Z.of_nat s) (map (fun nx => if fst nx =? 1 then 0 else snd nx) (combine (map Z.of_nat s) (map Z.of_nat k)))).
Proof.
  assert (C0 : forall s, cells (map Z.of_nat s) = Z.of_nat (fold_right Nat.mul 1%nat s)) by (induction s as [|n s IH]; [reflexivity|]; unfold cells in *; cbn [map fold_right]; rewrite IH; lia).
  induction s as [|n s IH]; intros [|i k]; try reflexivity. cbn [np_offset map combine position fst snd]. rewrite IH, C0.
  assert (P0 : forall s k, 0 <= position (map Z.of_nat s) (map (fun nx => if fst nx =? 1 then 0 else snd nx) (combine (map Z.of_nat s) (map Z.of_nat k)))).
  { clear - C0. induction s as [|n s IH]; intros [|i k]; cbn [map combine position fst snd]; try lia. rewrite C0. specialize (IH k). destruct (Z.of_nat n =? 1); lia. }
  specialize (P0 s k). replace (Z.of_nat n =? 1) with (n =? 1)%nat by lia.
  set (p := position _ _) in *. set (c := fold_right Nat.mul 1%nat s). clearbody p c. destruct (n =? 1)%nat; lia.
Qed.

(** ** Shapes *)
Lemma repeat_rev : forall {A} (a : A) n, rev (repeat a n) = repeat a n.
Proof.
  intros A a n. induction n as [|n IH]; [reflexivity|]. cbn [repeat rev]. rewrite IH. clear. induction n; [reflexivity|]. cbn [repeat app]. f_equal. exact IHn.
Qed.
Definition fit (a b : Z) : Prop := a = b \/ a = 1 \/ b = 1.
Definition tail_ones (d : nat) (s : list Z) : list Z := s ++ repeat 1 (d - length s).
Lemma stretch_spec : forall s t,
  let d := Nat.max (length s) (length t) in
  let S := tail_ones d (map Z.of_nat s) in let T := tail_ones d (map Z.of_nat t) in
  match np_stretch s t with
  | Some r => Forall2 fit S T /\ map Z.of_nat r = map (fun ab => bdim (fst ab) (snd ab)) (combine S T)
  | None => ~ Forall2 fit S T
  end.
Proof.
  unfold tail_ones. induction s as [|a s IH]; intros t.
  - cbn [np_stretch length Nat.max map app]. rewrite Nat.sub_0_r, map_length, Nat.sub_diag. cbn [repeat]. rewrite app_nil_r. split.
    + induction t; cbn; constructor; auto. right. left. reflexivity.
    + induction t; cbn [map length repeat combine fst snd]; f_equal; auto.
  - destruct t as [|b t].
    + cbn [np_stretch length Nat.max]. rewrite map_length, Nat.sub_diag. cbn [map length app]. rewrite Nat.sub_0_r, app_nil_r. cbn [repeat]. split.
      * constructor; [right; right; reflexivity|]. clear. induction s; cbn; constructor; auto. right. right. reflexivity.
      * cbn [combine map fst snd]. assert (E : forall x, bdim x 1 = x) by (intros x; unfold bdim; destruct (Z.eqb_spec x 1); congruence).
        f_equal; [symmetry; apply E|]. clear - E. induction s as [|x s IH]; cbn [length repeat map combine fst snd]; [reflexivity|]. f_equal; [symmetry; apply E|exact IH].
    + specialize (IH t). cbv zeta in *. cbn [np_stretch length Nat.max map app]. rewrite !map_length in *. cbn [Nat.sub].
      destruct (np_stretch s t) as [r|].
      * destruct IH as [I1 I2]. destruct (Nat.eqb_spec a b) as [->|NE].
        { split; [constructor; [left; reflexivity|exact I1]|]. cbn [map combine fst snd]. rewrite I2. f_equal. unfold bdim. destruct (Z.eqb_spec (Z.of_nat b) 1); congruence. }
        destruct (Nat.eqb_spec a 1) as [->|N1].
        { split; [constructor; [right; left; reflexivity|exact I1]|]. cbn [map combine fst snd]. rewrite I2. f_equal. }
        destruct (Nat.eqb_spec b 1) as [->|N2].
        { split; [constructor; [right; right; reflexivity|exact I1]|]. cbn [map combine fst snd]. rewrite I2. f_equal. unfold bdim. replace (Z.of_nat a =? 1) with false by lia. reflexivity. }
        intros H. inversion H as [|? ? ? ? HF]; subst. destruct HF as [HF|[HF|HF]]; lia.
      * intros H. inversion H; subst. contradiction.
Qed.
Lemma pad_tail : forall d s, pad_ones d (map Z.of_nat s) = rev (tail_ones d (map Z.of_nat (rev s))).
Proof. intros d s. unfold pad_ones, tail_ones. rewrite rev_app_distr, repeat_rev, !map_length, rev_length, map_rev, rev_involutive. reflexivity. Qed.
Lemma Forall2_rev : forall {A B} (R : A -> B -> Prop) l m, Forall2 R l m -> Forall2 R (rev l) (rev m).
Proof. intros A B R l m H. induction H; cbn [rev]; [constructor|]. apply Forall2_app; [assumption|]. repeat constructor. assumption. Qed.
Lemma combine_rev : forall {A B} (l : list A) (m : list B), length l = length m -> combine (rev l) (rev m) = rev (combine l m).
Proof.
  intros A B. induction l as [|a l IH]; intros [|b m] H; try discriminate H; [reflexivity|]. cbn [rev combine]. rewrite <- IH by (cbn in H; lia).
  assert (G : forall (p : list A) (q : list B), length p = length q -> combine (p ++ [a]) (q ++ [b]) = combine p q ++ [(a, b)]).
  { clear. induction p as [|x p IH]; intros [|y q] H; try discriminate H; [reflexivity|]. cbn [app combine]. f_equal. apply IH. cbn in H. lia. }
  apply G. rewrite !rev_length. cbn in H. lia.
Qed.
Lemma np_broadcast_spec : forall s t, let s' := map Z.of_nat s in let t' := map Z.of_nat t in
  (broadcastable s' t' -> exists sh, np_broadcast s t = Some sh /\ map Z.of_nat sh = broadcast_shape s' t') /\
  (~ broadcastable s' t' -> np_broadcast s t = None).
Proof.
  intros s t s' t'. unfold np_broadcast, broadcastable, broadcast_shape. subst s' t'. rewrite !map_length, !pad_tail.
  assert (H := stretch_spec (rev s) (rev t)). cbv zeta in H. rewrite !rev_length in H. set (d := Nat.max (length s) (length t)) in *.
  set (S := tail_ones d (map Z.of_nat (rev s))) in *. set (T := tail_ones d (map Z.of_nat (rev t))) in *.
  assert (LST : length S = length T) by (subst S T d; unfold tail_ones; rewrite !app_length, !repeat_length, !map_length, !rev_length; lia).
  destruct (np_stretch (rev s) (rev t)) as [r|]; cbn [option_map].
  - destruct H as [H1 H2]. split.
    + intros _. exists (rev r). split; [reflexivity|]. rewrite combine_rev, map_rev, map_rev by auto. f_equal. exact H2.
    + intros N. exfalso. apply N. apply Forall2_rev in H1. exact H1.
  - split; [|reflexivity]. intros G. exfalso. apply H. apply Forall2_rev in G. rewrite !rev_involutive in G. exact G.
Qed.

Lemma Forall2_len : forall {A B} (R : A -> B -> Prop) l m, Forall2 R l m -> length l = length m.
Proof. intros A B R l m H. induction H; cbn; auto. Qed.
Lemma Forall2_skipn : forall {A B} (R : A -> B -> Prop) n l m, Forall2 R l m -> Forall2 R (skipn n l) (skipn n m).
Proof. intros A B R n. induction n as [|n IH]; intros l m H; [exact H|]. destruct H; cbn [skipn]; [constructor|]. apply IH. assumption. Qed.
Lemma sources : forall S T k, Forall2 fit S T -> in_shape (map (fun ab => bdim (fst ab) (snd ab)) (combine S T)) k ->
  Forall2 (fun x a => 0 <= (if a =? 1 then 0 else x) < a /\ (if a =? 1 then 0 else x) <= i64_max) k S /\
  Forall2 (fun x a => 0 <= (if a =? 1 then 0 else x) < a /\ (if a =? 1 then 0 else x) <= i64_max) k T.
Proof.
  intros S T k HB. revert k. induction HB as [|a b S T HF HB IH]; intros k HK; [inversion HK; subst; split; constructor|]. cbn [combine map fst snd] in HK. inversion HK as [|x n k' sh Hx Hk]; subst.
  destruct (IH k' Hk) as [I1 I2]. unfold bdim in Hx. unfold i64_max in *. split; constructor; auto; destruct (Z.eqb_spec a 1); destruct (Z.eqb_spec b 1); destruct HF as [HF|[HF|HF]]; lia.
Qed.
(** The cells that are read exist. *)
Lemma source_in_shape : forall s t k, broadcastable s t -> in_shape (broadcast_shape s t) k -> in_shape s (source_cell s k) /\ in_shape t (source_cell t k).
Proof.
  intros s t k HB HK. unfold broadcastable, broadcast_shape in *. set (d := Nat.max (length s) (length t)) in *.
  assert (LP : forall u, (length u <= d)%nat -> length (pad_ones d u) = d) by (intros u H; unfold pad_ones; rewrite app_length, repeat_length; lia).
  assert (LK : length k = d). { assert (H := Forall2_len _ _ _ HK). rewrite map_length, combine_length, (LP s), (LP t) in H by (subst d; lia). lia. }
  assert (G : Forall2 (fun x a => 0 <= (if a =? 1 then 0 else x) < a /\ (if a =? 1 then 0 else x) <= i64_max) k (pad_ones d s) /\
              Forall2 (fun x a => 0 <= (if a =? 1 then 0 else x) < a /\ (if a =? 1 then 0 else x) <= i64_max) k (pad_ones d t)).
  { apply sources; assumption. }
  assert (P : forall u, (length u <= d)%nat -> Forall2 (fun x a => 0 <= (if a =? 1 then 0 else x) < a /\ (if a =? 1 then 0 else x) <= i64_max) k (pad_ones d u) -> in_shape u (source_cell u k)).
  { intros u LU H. unfold in_shape, source_cell. rewrite LK. apply (Forall2_skipn _ (d - length u)) in H. unfold pad_ones in H.
    rewrite skipn_app, repeat_length, Nat.sub_diag in H. cbn [skipn] in H. rewrite (skipn_all2 (repeat 1 (d - length u))) in H by (rewrite repeat_length; lia). cbn [app] in H.
    revert H. generalize (skipn (d - length u) k) as w. clear. intros w H. induction H as [|x a w u Hx H IH]; cbn [combine map fst snd]; constructor; auto. }
  destruct G as [G1 G2]. split; apply P; auto; subst d; lia.
Qed.

(** ** Arrays *)
Section Read.
Context {F : Fl}.
Lemma np_read_is : forall s d k, np_read (F := F) (s, d) (map Z.to_nat k) =
  nth (np_offset s (map Z.to_nat (skipn (length k - length s) k))) d f0.
Proof. intros s d k. unfold np_read. cbn [fst snd]. rewrite map_length, skipn_map. reflexivity. Qed.

Lemma np_compare_is : forall c sx (dx : list F) sy dy, let sx' := map Z.of_nat sx in let sy' := map Z.of_nat sy in
  (broadcastable sx' sy' -> exists sh r, np_compare c (sx, dx) (sy, dy) = Ok (sh, r) /\ map Z.of_nat sh = broadcast_shape sx' sy' /\
     length r = fold_right Nat.mul 1%nat sh /\
     forall k, in_shape (broadcast_shape sx' sy') k -> nth_error r (Z.to_nat (position (broadcast_shape sx' sy') k)) =
       Some (cmp_fun c (array_at sx dx k) (array_at sy dy k))) /\
  (~ broadcastable sx' sy' -> np_compare c (sx, dx) (sy, dy) = Panic).
Proof.
  intros c sx dx sy dy sx' sy'. destruct (np_broadcast_spec sx sy) as [H1 H2]. unfold np_compare. cbn [fst snd]. split.
  - intros B. destruct (H1 B) as (sh & E & ES). fold sx' sy' in ES. rewrite E. eexists sh, _. split; [reflexivity|]. split; [exact ES|]. split; [rewrite map_length; apply np_keys_length|].
    intros k I. rewrite <- ES in *. destruct (in_shape_inside _ _ I) as [IN EK]. rewrite <- EK at 1. rewrite nth_error_map, (np_keys_nth sh _ IN). cbn [option_map].
    assert (R : forall s (d : list F), np_read (s, d) (map Z.to_nat k) = array_at s d k).
    { intros s d. rewrite np_read_is, np_offset_is. unfold array_at, source_cell. rewrite map_length. do 4 f_equal.
      assert (G : forall n, map Z.of_nat (map Z.to_nat (skipn n k)) = skipn n k) by (intros n; rewrite <- !skipn_map, EK; reflexivity). rewrite G. reflexivity. }
    rewrite !R. reflexivity.
  - intros B. rewrite (H2 B). reflexivity.
Qed.

(** Operands of the same shape. *)
Lemma np_broadcast_same : forall s, np_broadcast s s = Some s.
Proof.
  intros s. unfold np_broadcast. assert (G : forall l, np_stretch l l = Some l) by (induction l as [|a l IH]; [reflexivity|]; cbn [np_stretch]; rewrite IH, Nat.eqb_refl; reflexivity).
  rewrite G. cbn [option_map]. rewrite rev_involutive. reflexivity.
Qed.
Lemma offsets : forall sh, map (np_offset sh) (np_keys sh) = seq 0 (fold_right Nat.mul 1%nat sh).
Proof.
  induction sh as [|n sh IH]; [reflexivity|]. cbn [np_keys fold_right]. set (P := fold_right Nat.mul 1%nat sh) in *.
  assert (G : forall m s, (s + m <= n)%nat -> map (np_offset (n :: sh)) (flat_map (fun i => map (cons i) (np_keys sh)) (seq s m)) = seq (s * P) (m * P)).
  { induction m as [|m IHm]; intros s L; [reflexivity|]. cbn [seq flat_map]. rewrite map_app, IHm by lia. cbn [Nat.mul]. rewrite seq_app. f_equal; [|f_equal; lia].
    rewrite map_map. cbn [np_offset]. fold P. transitivity (map (fun x => s * P + x)%nat (seq 0 P)).
    - rewrite <- IH, map_map. apply map_ext. intros k. destruct (Nat.eqb_spec n 1); [|reflexivity]. replace s with 0%nat by lia. reflexivity.
    - assert (T : forall q a b, map (fun x => b + x)%nat (seq a q) = seq (b + a) q) by (induction q as [|q IHq]; intros a b; [reflexivity|]; cbn [seq map]; f_equal; rewrite IHq; f_equal; lia).
      rewrite T. f_equal. lia. }
  apply (G n 0%nat). lia.
Qed.
Lemma np_keys_ranks : forall sh k, In k (np_keys sh) -> length k = length sh.
Proof.
  induction sh as [|n sh IH]; intros k H; [destruct H as [<-|[]]; reflexivity|]. cbn [np_keys] in H. apply in_flat_map in H. destruct H as (i & _ & H). apply in_map_iff in H.
  destruct H as (k' & <- & H). cbn [length]. f_equal. apply IH. exact H.
Qed.
Lemma read_all : forall s (d : list F), length d = fold_right Nat.mul 1%nat s -> map (np_read (s, d)) (np_keys s) = d.
Proof.
  intros s d L. rewrite (map_ext_in (np_read (s, d)) (fun k => nth (np_offset s k) d f0)).
  - rewrite <- (map_map (np_offset s) (fun p => nth p d f0)), offsets, <- L. clear. induction d as [|x d IH]; [reflexivity|]. cbn [length seq map nth]. f_equal. rewrite <- seq_shift, map_map. exact IH.
  - intros k I. unfold np_read. cbn [fst snd]. rewrite (np_keys_ranks _ _ I), Nat.sub_diag. reflexivity.
Qed.
Lemma np_compare_same : forall c s (dx dy : list F), length dx = fold_right Nat.mul 1%nat s -> length dy = fold_right Nat.mul 1%nat s ->
  np_compare c (s, dx) (s, dy) = Ok (s, map (fun ab => cmp_fun c (fst ab) (snd ab)) (combine dx dy)).
Proof.
  intros c s dx dy L1 L2. unfold np_compare. cbn [fst]. rewrite np_broadcast_same.
  assert (E : combine dx dy = map (fun k => (np_read (s, dx) k, np_read (s, dy) k)) (np_keys s)).
  { transitivity (combine (map (np_read (s, dx)) (np_keys s)) (map (np_read (s, dy)) (np_keys s))); [rewrite !read_all by assumption; reflexivity|].
    generalize (np_keys s). clear. induction l as [|k l IH]; [reflexivity|]. cbn [map combine]. f_equal. exact IH. }
  rewrite E, map_map. reflexivity.
Qed.
End Read.
