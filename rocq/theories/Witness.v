(** Concrete matrices used by the non-vacuity examples. *)
Require Import List ZArith Bool Lia Permutation.
Require Import Coq.Floats.SpecFloat.
Require Import Verif.Res Verif.Values Verif.Spec Verif.MCore Verif.PCore Verif.MConvert Verif.PConvert Verif.PConvert2 Verif.PConvert3.
Import ListNotations.
Local Open Scope Z_scope.

(** A decision procedure for [canonical] on literals: the checked constructor. *)
Lemma canonical_literal : forall {V} nmaj nmin p i (d : list V),
  cs_from_parts nmaj nmin p i d true = Some (mkCs nmaj nmin p i d) ->
  forallb (fun z => (i64_min <=? z) && (z <=? i64_max)) i = true ->
  (Z.of_nat (length p) <=? usize_max) = true ->
  canonical (mkCs nmaj nmin p i d).
Proof.
  intros V nmaj nmin p i d H1 H2 H3. apply cs_from_parts_iff.
  - apply Z.leb_le. auto.
  - apply Forall_forall. intros z I. rewrite forallb_forall in H2. apply H2 in I.
    apply andb_true_iff in I. destruct I. split; apply Z.leb_le; auto.
  - eauto.
Qed.

Definition pw0 : spec_float -> spec_float -> spec_float := fun x _ => x.
Definition fz (z : Z) : f64 pw0 := b64_ofZ z.
Definition fnan0 : f64 pw0 := S754_nan.
Definition finf0 : f64 pw0 := S754_infinity false.

(** [[1 0 2 0] [0 0 0 0] [0 -3 NaN 4]] *)
Definition WA : Cs (f64 pw0) := mkCs 3 4 [0; 2; 2; 5] [0; 2; 1; 2; 3] [fz 1; fz 2; fz (-3); fnan0; fz 4].
(** [[0 5 -2 0] [0 0 0 7] [0 2 8 inf]] *)
Definition WB : Cs (f64 pw0) := mkCs 3 4 [0; 2; 3; 6] [1; 2; 3; 1; 2; 3] [fz 5; fz (-2); fz 7; fz 2; fz 8; finf0].

Lemma WA_canonical : canonical WA.
Proof. apply canonical_literal; reflexivity. Qed.
Lemma WB_canonical : canonical WB.
Proof. apply canonical_literal; reflexivity. Qed.

Lemma rev_schedule : forall {A}, is_schedule (@rev A).
Proof. intros A l. apply Permutation_rev. Qed.
Lemma id_schedule : forall {A}, is_schedule (fun l : list A => l).
Proof. intros A l. apply Permutation_refl. Qed.

Definition cs_ok_b {V} (A : Cs V) : bool :=
  (length (ptr A) =? S (major A))%nat && (length (idx A) =? length (dat A))%nat &&
  match ptr A with p0 :: _ => p0 =? 0 | [] => false end &&
  (nth (major A) (ptr A) 0 =? Z.of_nat (length (idx A))) &&
  forallb (fun ab => fst ab <=? snd ab) (combine (ptr A) (tl (ptr A))) &&
  forallb (fun j => (0 <=? j) && (j <? Z.of_nat (minor A)) && (j <=? i64_max)) (idx A).

Lemma cs_ok_literal : forall {V} (A : Cs V), cs_ok_b A = true -> cs_ok A.
Proof.
  intros V [nmaj nmin p i d]. unfold cs_ok_b. cbn [major minor ptr idx dat]. intros H.
  repeat (apply andb_true_iff in H; destruct H as [H ?]).
  apply Nat.eqb_eq in H. apply Nat.eqb_eq in H4. rewrite forallb_forall in H0, H1. apply Z.eqb_eq in H2.
  constructor; cbn [major minor ptr idx dat]; auto.
  - destruct p; [discriminate|]. apply Z.eqb_eq in H3. subst. auto.
  - rewrite <- H2. apply nth_error_nth'. lia.
  - intros k a b Ha Hb. apply Z.leb_le. apply (H1 (a, b)).
    apply nth_error_In with (n := k). revert k Ha Hb. clear. induction p as [|x [|y p] IH]; intros k Ha Hb.
    + destruct k; discriminate.
    + destruct k as [|[|k]]; discriminate.
    + destruct k; simpl in *; [congruence|]. apply IH; auto.
  - intros k j Hk. apply nth_error_In in Hk. apply H0 in Hk. repeat (apply andb_true_iff in Hk; destruct Hk as [Hk ?]).
    repeat match goal with H : (_ <=? _) = true |- _ => apply Z.leb_le in H | H : (_ <? _) = true |- _ => apply Z.ltb_lt in H end.
    auto.
Qed.

(** ** A concrete sorting function and concrete interleavings *)
Section Isort.
Context {A : Type} (leb : A -> A -> bool).
Fixpoint insert (x : A) (l : list A) : list A :=
  match l with [] => [x] | y :: l' => if leb x y then x :: l else y :: insert x l' end.
Definition isort (l : list A) : list A := fold_right insert [] l.
Variable le : A -> A -> Prop.
Hypothesis leb_le : forall x y, leb x y = true -> le x y.
Hypothesis leb_total : forall x y, leb x y = false -> le y x.
Hypothesis le_trans : forall x y z, le x y -> le y z -> le x z.

Lemma insert_perm : forall x l, Permutation (x :: l) (insert x l).
Proof.
  induction l as [|y l IH]; simpl; auto. destruct (leb x y); auto.
  rewrite perm_swap. constructor. auto.
Qed.

Lemma insert_sorted : forall x l, Sorted.StronglySorted le l -> Sorted.StronglySorted le (insert x l).
Proof.
  induction 1 as [|y l HS IH HF]; simpl; [repeat constructor|].
  destruct (leb x y) eqn:E.
  - constructor; [constructor; auto|]. constructor; auto. eapply Forall_impl; [|exact HF]. simpl. eauto.
  - constructor; auto. rewrite Forall_forall in *. intros z I.
    apply Permutation_in with (l' := x :: l) in I; [|symmetry; apply insert_perm].
    destruct I as [<-|I]; auto.
Qed.

Lemma isort_sorter : is_sorter le isort.
Proof.
  intros l. induction l as [|x l [IH1 IH2]]; simpl.
  - split; auto. constructor.
  - split.
    + rewrite <- insert_perm. constructor. auto.
    + apply insert_sorted. auto.
Qed.
End Isort.

Lemma Interleave_perm_tasks : forall {A} (ts ts' : list (list A)) tr,
  Permutation ts ts' -> Interleave ts tr -> Interleave ts' tr.
Proof.
  intros A ts ts' tr P H. revert ts' P. induction H; intros ts' P.
  - constructor. rewrite Forall_forall in *. intros t I. apply H. eapply Permutation_in; [symmetry; exact P|auto].
  - destruct (in_split (a :: t) ts') as (u1 & u2 & ->).
    { eapply Permutation_in; [exact P|]. apply in_or_app. right. simpl. auto. }
    apply Il_step. apply IHInterleave.
    apply Permutation_app_inv in P. rewrite <- !Permutation_middle. constructor. auto.
Qed.

Definition forward {A} (ts : list (list A)) : list A := concat ts.
Definition backward {A} (ts : list (list A)) : list A := concat (rev ts).
Lemma forward_interleaving : forall {A}, is_interleaving (@forward A).
Proof. intros A ts. apply Interleave_concat. Qed.
Lemma backward_interleaving : forall {A}, is_interleaving (@backward A).
Proof.
  intros A ts. apply Interleave_perm_tasks with (ts := rev ts).
  - symmetry. apply Permutation_rev.
  - apply Interleave_concat.
Qed.

Definition sort_pairs {V} : list (Z * V) -> list (Z * V) := isort (fun x y => fst x <=? fst y).
Lemma sort_pairs_sorter : forall {V}, is_sorter (@key_le V) sort_pairs.
Proof.
  intros. apply isort_sorter; unfold key_le; intros.
  - apply Z.leb_le. auto.
  - apply Z.leb_gt in H. lia.
  - lia.
Qed.

Definition sort_triples {F : Fl} : list ((Z * Z) * F) -> list ((Z * Z) * F) :=
  isort (fun x y => (fst (fst x) <? fst (fst y)) || ((fst (fst x) =? fst (fst y)) && (snd (fst x) <=? snd (fst y)))).
Lemma sort_triples_sorter : forall {F : Fl}, is_sorter (@key2_le F) sort_triples.
Proof.
  intros. apply isort_sorter; unfold key2_le; intros.
  - apply orb_true_iff in H. destruct H as [H|H].
    + left. lia.
    + right. apply andb_true_iff in H. lia.
  - apply orb_false_iff in H. destruct H as [H1 H2]. apply andb_false_iff in H2. lia.
  - lia.
Qed.

Definition coo_ok_b {V} (A : Coo V) : bool :=
  (length (coo_row A) =? length (coo_data A))%nat && (length (coo_col A) =? length (coo_data A))%nat &&
  forallb (fun i => (0 <=? i) && (i <? Z.of_nat (coo_nrows A)) && (i <=? i64_max)) (coo_row A) &&
  forallb (fun i => (0 <=? i) && (i <? Z.of_nat (coo_ncols A)) && (i <=? i64_max)) (coo_col A).
Lemma coo_ok_literal : forall {V} (A : Coo V), coo_ok_b A = true -> coo_ok A.
Proof.
  intros V A H. unfold coo_ok_b in H. rewrite !andb_true_iff, !forallb_forall in H. destruct H as [[[H1 H2] H3] H4].
  apply Nat.eqb_eq in H1, H2.
  constructor; auto; intros p i E; apply nth_error_In in E; [apply H3 in E|apply H4 in E]; rewrite !andb_true_iff in E;
    destruct E as [[E1 E2] E3]; apply Z.leb_le in E1, E3; apply Z.ltb_lt in E2; auto.
Qed.
