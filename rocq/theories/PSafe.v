(** Memory safety for every structurally valid operand, sorted or not: a call may panic,
    but never reads or writes out of range and never loops forever, and the arrays it
    returns are valid again. *)
Require Import List ZArith Bool Arith Lia Permutation Sorted.
Require Import ZifyBool ZifyNat.
Require Import Verif.Res Verif.Values Verif.Spec Verif.Mem Verif.Lists Verif.CsLib Verif.MElementwise Verif.PElementwise Verif.MConvert Verif.PConvert Verif.PConvert2 Verif.PTrans Verif.MScalar Verif.PScalar.
Import ListNotations.
Local Open Scope Z_scope.

(** ** No undefined behaviour, and [P] of the result *)
Definition safe {A} (P : A -> Prop) (r : res A) : Prop :=
  match r with Ok a => P a | Panic => True | UB | Diverge => False end.

Lemma safe_ok : forall {A} (P : A -> Prop) a, P a -> safe P (Ok a).
Proof. intros. exact H. Qed.
Lemma safe_eq : forall {A} (P : A -> Prop) r a, r = Ok a -> P a -> safe P r.
Proof. intros. subst. exact H0. Qed.
Lemma safe_ex : forall {A} (P : A -> Prop) r, (exists a, r = Ok a /\ P a) -> safe P r.
Proof. intros A P r (a & -> & H). exact H. Qed.
Lemma safe_panic : forall {A} (P : A -> Prop), safe P Panic.
Proof. intros. exact I. Qed.
Lemma safe_imp : forall {A} (P Q : A -> Prop) r, safe P r -> (forall a, P a -> Q a) -> safe Q r.
Proof. intros A P Q [a| | |] H HI; simpl in *; auto. Qed.
Lemma safe_any : forall {A} (P : A -> Prop) r, safe P r -> safe (fun _ => True) r.
Proof. intros. eapply safe_imp; eauto. Qed.
Lemma safe_bind : forall {A B} (P : A -> Prop) (Q : B -> Prop) r f,
  safe P r -> (forall a, P a -> safe Q (f a)) -> safe Q (bind r f).
Proof. intros A B P Q [a| | |] f H HF; simpl in *; auto. Qed.
Lemma safe_bind_ok : forall {A B} (Q : B -> Prop) (r : res A) f,
  safe (fun _ => True) r -> (forall a, r = Ok a -> safe Q (f a)) -> safe Q (bind r f).
Proof. intros A B Q [a| | |] f H HF; simpl in *; auto. Qed.
Lemma safe_rmap : forall {A B} (P : A -> Prop) (Q : B -> Prop) (f : A -> B) r,
  safe P r -> (forall a, P a -> Q (f a)) -> safe Q (rmap f r).
Proof. intros. unfold rmap. eapply safe_bind; eauto. Qed.
Lemma safe_assert : forall {A} (P : A -> Prop) (b : bool) r, (b = true -> safe P r) -> safe P (if b then r else Panic).
Proof. intros A P [|] r H; simpl; auto. Qed.
Lemma safe_inv : forall {A} (P : A -> Prop) r a, safe P r -> r = Ok a -> P a.
Proof. intros. subst. exact H. Qed.
Lemma safe_and : forall {A} (P Q : A -> Prop) r, safe P r -> safe Q r -> safe (fun a => P a /\ Q a) r.
Proof. intros A P Q [a| | |]; simpl; auto. Qed.
Lemma safe_split : forall {A} (P : A -> Prop) r, safe P r -> r = Panic \/ exists a, r = Ok a /\ P a.
Proof. intros A P [a| | |] H; simpl in *; try tauto; eauto. Qed.

Lemma safe_mapM : forall {A B} (P : A -> B -> Prop) (f : A -> res B) l,
  (forall a, In a l -> safe (P a) (f a)) -> safe (Forall2 P l) (mapM f l).
Proof.
  intros A B P f l. induction l as [|a l IH]; intros H; cbn [mapM].
  - constructor.
  - eapply safe_bind; [apply H; left; auto|]. intros b Hb. eapply safe_bind; [apply IH; intros; apply H; right; auto|].
    intros bs Hbs. apply safe_ok. constructor; auto.
Qed.
Lemma safe_mapM_len : forall {A B} (f : A -> res B) l,
  (forall a, In a l -> safe (fun _ => True) (f a)) -> safe (fun bs => length bs = length l) (mapM f l).
Proof.
  intros. eapply safe_imp; [apply (safe_mapM (fun _ _ => True)); auto|]. intros bs F2. clear -F2. induction F2; simpl; auto.
Qed.
Lemma safe_foldM : forall {A X} (P : X -> Prop) (f : X -> A -> res X) l s,
  P s -> (forall s a, In a l -> P s -> safe P (f s a)) -> safe P (foldM f l s).
Proof.
  intros A X P f l. induction l as [|a l IH]; intros s HP H; cbn [foldM]; [exact HP|].
  eapply safe_bind; [apply H; [left; auto|auto]|]. intros s' Hs'. apply IH; auto. intros; apply H; [right; auto|auto].
Qed.
Lemma safe_get_checked : forall {A} (l : list A) n, safe (fun a => nth_error l n = Some a) (get_checked l n).
Proof. intros. unfold get_checked. destruct (nth_error l n); simpl; auto. Qed.
Lemma safe_get_unchecked : forall {A} (l : list A) n, (n < length l)%nat -> safe (fun a => nth_error l n = Some a) (get_unchecked l n).
Proof.
  intros. unfold get_unchecked. destruct (nth_error l n) eqn:E; simpl; auto. apply nth_error_None in E. lia.
Qed.
Lemma safe_set_checked : forall {A} (l : list A) n a, safe (fun l' => length l' = length l) (set_checked l n a).
Proof. intros. unfold set_checked. destruct (n <? length l)%nat; simpl; auto. apply upd_length. Qed.

(** ** Elementwise operations of two matrices *)
Section Cs.
Context {F : Fl}.
Notation row := (list (Z * F)).

(** the indices a fill loop writes are indices of the operands *)
Definition from_rows (a b out : row) : Prop :=
  forall e, In e out -> In (fst e) (map fst a) \/ In (fst e) (map fst b).

Lemma merge_from : forall g fuel (a b out : row), merge_fill g fuel a b = Ok out ->
  Forall (fun e => fst e <= i64_max) a -> Forall (fun e => fst e <= i64_max) b -> from_rows a b out.
Proof.
  unfold from_rows. induction fuel as [|fuel IH]; intros a b out E BA BB.
  - cbn in E. destruct a, b; simpl in E; inv E. simpl. tauto.
  - cbn [merge_fill] in E. destruct (is_nil a && is_nil b) eqn:N.
    { inv E. simpl. tauto. }
    set (j0 := if head_or_max a <=? head_or_max b then head_or_max a else head_or_max b) in *.
    rewrite (run_split fadd j0 f0 a) in E. rewrite (run_split g j0 _ b) in E.
    set (v := fst (run g _ _ _)) in *.
    destruct (merge_fill g fuel (skip_run j0 a) (skip_run j0 b)) as [out'| | |] eqn:E'; try discriminate.
    simpl in E.
    assert (I' := IH _ _ _ E' (Forall_skip _ _ _ BA) (Forall_skip _ _ _ BB)).
    assert (IN : In j0 (map fst a) \/ In j0 (map fst b)).
    { unfold j0. destruct a as [|[k x] a], b as [|[k' x'] b]; try discriminate N; simpl.
      - inv BB. simpl in *. destruct (_ <=? _) eqn:?; right; left; lia.
      - inv BA. simpl in *. destruct (_ <=? _) eqn:?; left; left; lia.
      - destruct (_ <=? _); auto. }
    assert (I2 : forall e, In e out' -> In (fst e) (map fst a) \/ In (fst e) (map fst b)).
    { intros e Ie. apply I' in Ie. destruct Ie as [Ie|Ie]; apply in_map_iff in Ie; destruct Ie as (e' & <- & Ie);
      apply skip_run_In in Ie; [left|right]; apply in_map; auto. }
    inv E. destruct (nonzero v); auto. intros e [<-|Ie]; auto.
Qed.

Lemma isect_from : forall emit fuel (a b out : row), isect_fill emit fuel a b = Ok out -> from_rows a b out.
Proof.
  unfold from_rows. induction fuel as [|fuel IH]; intros a b out E.
  - destruct a as [|[ja x] a], b as [|[jb y] b]; cbn in E; inv E; simpl; tauto.
  - cbn [isect_fill] in E.
    destruct a as [|[ja x] a]; [inv E; simpl; tauto|]. destruct b as [|[jb y] b]; [inv E; simpl; tauto|].
    assert (W : forall j (r : row) (e : Z * F), In (fst e) (map fst (skip_run j r)) -> In (fst e) (map fst r)).
    { intros j r e I. apply in_map_iff in I. destruct I as (e' & <- & I). apply skip_run_In in I. apply in_map; auto. }
    destruct (Z.compare_spec ja jb).
    + subst jb. rewrite (run_split fadd ja f0 ((ja, x) :: a)), (run_split fadd ja f0 ((ja, y) :: b)) in E.
      match type of E with context [isect_fill emit fuel ?p ?q] => destruct (isect_fill emit fuel p q) as [out'| | |] eqn:E'; try discriminate end.
      cbn [bind] in E. assert (I2 : forall e, In e out' -> In (fst e) (map fst ((ja, x) :: a)) \/ In (fst e) (map fst ((ja, y) :: b))).
      { intros e Ie. destruct (IH _ _ _ E' e Ie); [left|right]; eapply W; eauto. }
      injection E as <-. destruct (emit _ _); auto. intros e [<-|Ie]; auto. left. left. auto.
    + intros e Ie. destruct (IH _ _ _ E e Ie); [left; eapply W; eauto|right; auto].
    + intros e Ie. destruct (IH _ _ _ E e Ie); [left; auto|right; eapply W; eauto].
Qed.

Lemma binary_safe : forall count fill sch (A B : Cs F),
  is_schedule sch ->
  (forall a b, Forall (fun e => fst e <= i64_max) a -> Forall (fun e => fst e <= i64_max) b ->
     exists out, fill a b = Ok out /\ count a b = Ok (length out) /\ from_rows a b out) ->
  cs_ok A -> cs_ok B ->
  safe (fun C => cs_ok C /\ major C = major A /\ minor C = minor A) (binary_cs count fill sch A B).
Proof.
  intros count fill sch A B HS AG OA OB.
  destruct (Nat.eq_dec (major A) (major B)) as [E1|]; [|rewrite binary_cs_shape by auto; exact I].
  destruct (Nat.eq_dec (minor A) (minor B)) as [E2|]; [|rewrite binary_cs_shape by auto; exact I].
  rewrite binary_cs_rows; auto.
  2:{ intros a b BA BB. destruct (AG a b BA BB) as (out & ? & ? & _); eauto. }
  simpl. rewrite map_length, seq_length. split; auto. apply of_rows_ok.
  apply Forall_forall; intros r Hr; apply in_map_iff in Hr; destruct Hr as (i & <- & Hi); apply in_seq in Hi.
  pose proof (row_bounds A i OA ltac:(lia)) as BA. pose proof (row_bounds B i OB ltac:(lia)) as BB.
  destruct (AG _ _ (in_bounds_max _ _ BA) (in_bounds_max _ _ BB)) as (out & E & _ & FR).
  unfold spec_row. rewrite E. unfold in_bounds in *. rewrite <- E2 in BB.
  apply Forall_forall. intros e Ie. apply FR in Ie. rewrite Forall_forall in BA, BB.
  destruct Ie as [Ie|Ie]; apply in_map_iff in Ie; destruct Ie as (e' & <- & Ie); auto.
Qed.

Lemma add_fine : forall g (a b : row), Forall (fun e => fst e <= i64_max) a -> Forall (fun e => fst e <= i64_max) b ->
  exists out, merge_fill g (length a + length b) a b = Ok out /\ merge_count g (length a + length b) a b = Ok (length out) /\ from_rows a b out.
Proof. intros g a b BA BB. destruct (add_agree g a b BA BB) as (out & E1 & E2). exists out. split; auto. split; auto. eapply merge_from; eauto. Qed.
Lemma sub_fine : forall (a b : row), Forall (fun e => fst e <= i64_max) a -> Forall (fun e => fst e <= i64_max) b ->
  exists out, sub_row_fill a b = Ok out /\ sub_row_count a b = Ok (length out) /\ from_rows a b out.
Proof.
  intros a b BA BB. destruct (sub_agree a b BA BB) as (out & E1 & E2). exists out. split; auto. split; auto.
  unfold sub_row_fill in E1. rewrite sub_fill_merge in E1. eapply merge_from; eauto.
Qed.

Ltac fine agree := intros; edestruct agree as (out & E1 & E2); exists out; split; [exact E1|split; [exact E2|eapply isect_from; eauto]].
Lemma hadamard_fine : forall (a b : row), exists out, hadamard_row_fill a b = Ok out /\ hadamard_row_count a b = Ok (length out) /\ from_rows a b out.
Proof. fine @hadamard_agree. Qed.
Lemma div_fine : forall (a b : row), exists out, div_row_fill a b = Ok out /\ div_row_count a b = Ok (length out) /\ from_rows a b out.
Proof. fine @div_agree. Qed.
Lemma pow_fine : forall (a b : row), exists out, pow_row_fill a b = Ok out /\ pow_row_count a b = Ok (length out) /\ from_rows a b out.
Proof. fine @pow_agree. Qed.
Lemma rem_fine : forall (a b : row), exists out, rem_row_fill a b = Ok out /\ rem_row_count a b = Ok (length out) /\ from_rows a b out.
Proof. fine @rem_agree. Qed.
Lemma floordiv_fine : forall (a b : row), exists out, floordiv_row_fill a b = Ok out /\ floordiv_row_count a b = Ok (length out) /\ from_rows a b out.
Proof. fine @floordiv_agree. Qed.

(** the seven kernels *)
Definition cs_kernel (k : (list (nat * (Z * F)) -> list (nat * (Z * F))) -> Cs F -> Cs F -> res (Cs F)) : Prop :=
  forall sch A B, is_schedule sch -> cs_ok A -> cs_ok B ->
  safe (fun C => cs_ok C /\ major C = major A /\ minor C = minor A) (k sch A B).
Lemma add_kernel : cs_kernel add_csr.
Proof. intros sch A B HS OA OB. apply binary_safe; auto. apply add_fine. Qed.
Lemma sub_kernel : cs_kernel sub_csr.
Proof. intros sch A B HS OA OB. apply binary_safe; auto. apply sub_fine. Qed.
Lemma hadamard_kernel : cs_kernel hadamard_csr.
Proof. intros sch A B HS OA OB. apply binary_safe; auto. intros; apply hadamard_fine. Qed.
Lemma div_kernel : cs_kernel div_csr.
Proof. intros sch A B HS OA OB. apply binary_safe; auto. intros; apply div_fine. Qed.
Lemma pow_kernel : cs_kernel pow_csr.
Proof. intros sch A B HS OA OB. apply binary_safe; auto. intros; apply pow_fine. Qed.
Lemma rem_kernel : cs_kernel rem_csr.
Proof. intros sch A B HS OA OB. apply binary_safe; auto. intros; apply rem_fine. Qed.
Lemma floordiv_kernel : cs_kernel floordiv_csr.
Proof. intros sch A B HS OA OB. apply binary_safe; auto. intros; apply floordiv_fine. Qed.

(** ** Value maps *)
Definition same_len (g : list F -> res (list F)) : Prop := forall l, safe (fun l' => length l' = length l) (g l).

Lemma refill_ok : forall (A : Cs F) (d : list F), cs_ok A -> length d = length (dat A) -> cs_ok (mkCs (major A) (minor A) (ptr A) (idx A) d).
Proof. intros A d [] E. constructor; simpl; auto. congruence. Qed.
Lemma cs_with_safe : forall g (A : Cs F), same_len g -> cs_ok A ->
  safe (fun B => cs_ok B /\ major B = major A /\ minor B = minor A /\ ptr B = ptr A /\ idx B = idx A) (cs_with g A).
Proof.
  intros g A G OA. unfold cs_with. eapply safe_bind; [apply G|]. intros d E. apply safe_ok. simpl. split; [|auto].
  apply refill_ok; auto.
Qed.
Lemma coo_with_safe : forall g (A : Coo F), same_len g -> coo_ok A ->
  safe (fun B => coo_ok B /\ coo_nrows B = coo_nrows A /\ coo_ncols B = coo_ncols A) (coo_with g A).
Proof.
  intros g A G [L1 L2 B1 B2]. unfold coo_with. eapply safe_bind; [apply G|]. intros d E. apply safe_ok. simpl. split; [|auto].
  constructor; simpl; auto; congruence.
Qed.
Lemma nd_with_safe : forall g (A : Nd F), same_len g -> nd_ok A ->
  safe (fun B => nd_ok B /\ nd_shape B = nd_shape A /\ length (nd_dat B) = length (nd_dat A) /\ nd_idx B = nd_idx A) (nd_with g A).
Proof.
  intros g A G [L1 L2 B1]. unfold nd_with. eapply safe_bind; [apply G|]. intros d E. apply safe_ok. simpl. split; [|auto].
  constructor; simpl; auto; [congruence|]. unfold nd_keys in *. simpl. rewrite E. auto.
Qed.

Lemma map_same_len : forall (g : list F -> res (list F)) (f : F -> F), (forall l, g l = Ok (map f l)) -> same_len g.
Proof. intros g f E l. rewrite E. simpl. apply map_length. Qed.
Lemma mul_same : forall alpha, same_len (mul_scalar_data alpha).
Proof. intros. eapply map_same_len. intros. apply mul_scalar_data_ok. Qed.
Lemma abs_same : same_len abs_data.
Proof. eapply map_same_len. intros. apply abs_data_ok. Qed.
Lemma par_map_same : forall f, same_len (par_map f).
Proof. intros. eapply map_same_len. intros. apply par_map_ok. Qed.

(** ** Pruning *)
Lemma prune_safe : forall sch eps (A : Cs F), is_schedule sch -> cs_ok A ->
  safe (fun B => cs_ok B /\ major B = major A /\ minor B = minor A) (prune_cs sch eps A).
Proof.
  intros sch eps A HS OA.
  destruct (fltb eps f0) eqn:E1; [unfold prune_cs; rewrite E1; simpl; auto|].
  destruct (feqb eps f0 && negb (existsb (fun v => feqb v f0) (dat A))) eqn:E2.
  { unfold prune_cs. rewrite E1, E2. simpl. auto. }
  rewrite prune_cs_ok; auto.
  2:{ intros E. rewrite E in E2. destruct (existsb _ _); auto. }
  simpl. rewrite map_length, rows_length. split; auto. apply of_rows_ok.
  apply Forall_forall. intros r Hr. apply in_map_iff in Hr. destruct Hr as (r' & <- & Hr).
  pose proof (ok_rows_bounds A OA) as B. rewrite Forall_forall in B. specialize (B _ Hr). unfold in_bounds, copy_significant in *.
  rewrite Forall_forall in B |- *. intros e Ie. apply filter_In in Ie. apply B. tauto.
Qed.

Lemma coo_entries_ok : forall (A : Coo F) es, 
  (forall e, In e es -> In e (coo_entries A)) -> coo_ok A ->
  coo_ok (mkCoo (coo_nrows A) (coo_ncols A) (map (fun e => fst (fst e)) es) (map (fun e => snd (fst e)) es) (map snd es)).
Proof.
  intros A es H [L1 L2 B1 B2]. constructor; simpl; rewrite ?map_length; auto.
  - intros p i E. apply nth_error_In in E. apply in_map_iff in E. destruct E as ([[a b] v] & <- & E).
    apply H in E. unfold coo_entries in E. apply in_combine_l in E. apply in_combine_l in E.
    apply In_nth_error in E. destruct E as [n E]. eapply B1; eauto.
  - intros p i E. apply nth_error_In in E. apply in_map_iff in E. destruct E as ([[a b] v] & <- & E).
    apply H in E. unfold coo_entries in E. apply in_combine_l in E. apply in_combine_r in E.
    apply In_nth_error in E. destruct E as [n E]. eapply B2; eauto.
Qed.
Lemma prune_coo_safe : forall eps (A : Coo F), coo_ok A ->
  safe (fun B => coo_ok B /\ coo_nrows B = coo_nrows A /\ coo_ncols B = coo_ncols A) (prune_coo eps A).
Proof.
  intros eps A OA. unfold prune_coo. destruct (fltb eps f0); [simpl; auto|].
  eapply safe_bind with (P := Forall (fun es => forall e, In e es -> In e (coo_entries A))).
  - eapply safe_imp; [apply (safe_mapM (fun _ es => forall e, In e es -> In e (coo_entries A)))|].
    + intros k Ik. apply in_seq in Ik. eapply safe_bind; [apply safe_get_checked|]. intros v Ev.
      destruct (significant eps v); [|simpl; tauto].
      eapply safe_bind; [apply safe_get_checked|]. intros i Ei. eapply safe_bind; [apply safe_get_checked|]. intros j Ej.
      simpl. intros e [<-|[]]. apply nth_error_In with (n := k). unfold coo_entries.
      erewrite nth_error_combine; eauto. erewrite nth_error_combine; eauto.
    + intros ess F2. clear -F2. induction F2; constructor; auto.
  - intros ess H. simpl. split; [|auto]. apply coo_entries_ok; auto. intros e Ie. apply in_concat in Ie.
    destruct Ie as (es & I1 & I2). rewrite Forall_forall in H. eapply H; eauto.
Qed.

(** ** Creation *)
Lemma empty_ok : forall m n, cs_ok (mkCs m n (repeat 0 (m + 1)) [] ([] : list F)).
Proof.
  intros. assert (R : forall i a, nth_error (repeat 0 (m + 1)) i = Some a -> a = 0).
  { intros i a E. apply nth_error_In in E. apply repeat_spec in E. auto. }
  constructor; cbn [major minor ptr idx dat length]; auto.
  - rewrite repeat_length. lia.
  - rewrite Nat.add_1_r. reflexivity.
  - rewrite nth_error_repeat by lia. auto.
  - intros i a b Ea Eb. apply R in Ea. apply R in Eb. lia.
  - intros p j E. destruct p; discriminate.
Qed.
Lemma diag_ok : forall d : list F, alloc_ok (length d) ->
  cs_ok (mkCs (length d) (length d) (map Z.of_nat (seq 0 (S (length d)))) (map Z.of_nat (seq 0 (length d))) d).
Proof.
  intros d AL. unfold alloc_ok in AL.
  assert (R : forall n i a, nth_error (map Z.of_nat (seq 0 n)) i = Some a -> a = Z.of_nat i /\ (i < n)%nat).
  { intros n i a E. assert (L := nth_error_lt _ _ _ E). rewrite map_length, seq_length in L.
    rewrite nth_error_map, (nth_error_nth' (seq 0 n) 0%nat), seq_nth in E by (rewrite ?seq_length; auto).
    simpl in E. inv E. split; auto. }
  constructor; cbn [major minor ptr idx dat].
  - rewrite map_length, seq_length. auto.
  - rewrite map_length, seq_length. auto.
  - reflexivity.
  - rewrite nth_error_map, (nth_error_nth' (seq 0 (S (length d))) 0%nat), seq_nth by (rewrite ?seq_length; lia).
    rewrite map_length, seq_length. auto.
  - intros i a b Ea Eb. apply R in Ea. apply R in Eb. lia.
  - intros p j E. apply R in E. lia.
Qed.

(** ** Transposes and conversions *)
Lemma transpose_safe : forall threads il sch srt (A : Cs F),
  is_interleaving il -> is_schedule sch -> is_sorter key_le srt -> cs_ok A -> alloc_ok (major A) ->
  safe (fun B => cs_ok B /\ major B = minor A /\ minor B = major A) (transpose_cs threads il sch srt A).
Proof.
  intros. destruct (transpose_cs_safe threads il sch srt A) as (B & -> & OB & E1 & E2 & _); auto. simpl. auto.
Qed.

End Cs.
