(** Proofs about variances, and about reductions that transpose first. *)
Require Import List ZArith Bool Arith Lia Permutation QArith Qcanon.
Require Import Verif.Res Verif.Values Verif.Spec Verif.SpecReduce Verif.Mem Verif.Lists Verif.CsLib Verif.Laws Verif.Loops Verif.NdLib Verif.MScalar Verif.PScalar Verif.MHash Verif.MNd Verif.PNd Verif.MAcc Verif.PAcc Verif.MLinalg Verif.PLinalg Verif.PLinalg2 Verif.PLinalg3 Verif.MConvert Verif.PConvert Verif.PConvert2 Verif.PConvert3 Verif.MReduce Verif.MStat Verif.PReduce Verif.PGroup Verif.PStat Verif.PStat2.
Import ListNotations.
Local Open Scope Z_scope.

(** ** Sums and sums of squares *)
Section Var.
Context {F : Fl}.
Hypothesis Z0 : feqb (f0 : F) f0 = true.

Definition sq (x : F) : F := fmul x x.
Definition Sums (l : list F) (s : F * F) : Prop := FSum l (fst s) /\ FSum (map sq l) (snd s).

Lemma Sums_nil : Sums [] (f0, f0).
Proof. split; apply FSum_zero; auto. Qed.
Lemma Sums_one : forall x, Sums [x] (x, fmul x x).
Proof. intros. split; apply FSum_one. Qed.
Lemma Sums_perm : forall l l' s, Permutation l l' -> Sums l s -> Sums l' s.
Proof. intros l l' s P [H1 H2]. split; [eapply FSum_perm; eauto|]. eapply FSum_perm; [|exact H2]. apply Permutation_map. auto. Qed.
Lemma Sums_app : forall l l' a b, Sums l a -> Sums l' b -> Sums (l ++ l') (add2 a b).
Proof. intros l l' a b [H1 H2] [H3 H4]. split; cbn [add2 fst snd]; [apply FSum_add; auto|]. rewrite map_app. apply FSum_add; auto. Qed.
Lemma Sums_snoc : forall l a x, Sums l a -> Sums (l ++ [x]) (acc2 a x).
Proof. intros l a x H. apply (Sums_app l [x] a (x, fmul x x)); auto using Sums_one. Qed.

Lemma chunk_sum_sum2_ok : forall l : list F, exists s, chunk_sum_sum2 l = Ok s /\ Sums l s.
Proof.
  intros l. unfold chunk_sum_sum2. destruct l as [|x l]; [exists (f0, f0); split; auto; apply Sums_nil|].
  apply (lane_reduce_ok Sums).
  - apply Sums_perm.
  - apply Sums_nil.
  - apply Sums_snoc.
  - apply Sums_app.
  - apply Sums_snoc.
Qed.

Lemma var_all_ok : forall t n (data : list F) c, exists s, Sums data s /\ var_all t n data c = Ok (variance_from_sums s n c).
Proof.
  intros t n data c. unfold var_all.
  destruct (par_reduce_ok Sums chunk_sum_sum2 (fun xs => fold_left add2 xs (f0, f0)) add2) with (t := t) (data := data) as (s & E & H).
  { apply chunk_sum_sum2_ok. } { intros. apply fold_leaf_ok; auto using Sums_nil. intros. apply Sums_app; auto. } { intros. apply Sums_app; auto. }
  exists s. split; auto. rewrite E. cbn [bind]. unfold variance_from_sums. destruct (n =? 0); auto.
Qed.

Lemma major_vars_ok : forall c (A : Cs F), cs_ok A -> alloc_ok (length (dat A)) ->
  exists y, major_vars c A = Ok y /\ length y = major A /\
    forall i, (i < major A)%nat -> exists s, Sums (map snd (cs_row A i)) s /\ nth i y f0 = variance_from_sums s (Z.of_nat (minor A)) c.
Proof.
  intros c A OK AL. apply (mapM_seq_spec Z0 (slice_var A c) (fun i v => exists s, Sums (map snd (cs_row A i)) s /\ v = variance_from_sums s (Z.of_nat (minor A)) c)).
  intros i Hi. unfold slice_var. rewrite data_slice_ok by auto. cbn [bind]. destruct (chunk_sum_sum2_ok (map snd (cs_row A i))) as (s & E & H).
  rewrite E. cbn [bind]. destruct (Nat.eqb_spec (minor A) 0) as [->|N].
  - exists f0. split; auto. exists s. split; auto.
  - eexists. split; [reflexivity|]. exists s. split; auto.
Qed.

Lemma coo_vars_ok : forall nthreads dist n width key (data : list F) c, is_distribution dist -> alloc_ok n ->
  length key = length data -> Forall (fun k => 0 <= k < Z.of_nat n) key ->
  exists y, coo_vars nthreads dist n width key data c = Ok y /\ length y = n /\
    forall i, (i < n)%nat -> nth i y f0 = f0 /\ width = 0%nat \/
      exists s, Sums (at_index (Z.of_nat i) (combine key data)) s /\ nth i y f0 = variance_from_sums s (Z.of_nat width) c.
Proof.
  intros nt dist n width key data c HD AN HL FK. unfold coo_vars.
  destruct (Nat.eqb_spec n 0) as [->|N0]; [exists []; split; auto; split; auto; intros; lia|].
  destruct (Nat.eqb_spec width 0) as [E0|N1].
  { exists (repeat f0 n). split; auto. split; [apply repeat_length|]. intros i Hi. left. split; auto. apply nth_repeat. }
  assert (FU : Forall (fun k => 0 <= k <= usize_max) key).
  { (eapply Forall_impl; [|exact FK]). intros k Hk. cbv beta in Hk |- *. unfold alloc_ok, i64_max, usize_max in *. lia. }
  destruct (chunk_tasks_eq Z0 nt key data HL FU) as (tasks & ET & ECT). rewrite ET. cbn [bind].
  destruct (tls_add_ok Sums Sums_perm (f0, f0) (fun x => (x, fmul x x)) acc2 Sums_one) with (mrg := @add2 F) (stripe := STRIPE) (n := n) (dist := dist) (tasks := tasks)
    as (out & E & LO & H); auto using STRIPE_gt0, Sums_nil.
  { intros. apply Sums_snoc. auto. }
  { intros. apply Sums_app; auto. }
  { rewrite ECT. apply keys_below. auto. }
  rewrite E. cbn [bind]. rewrite ECT in H.
  match goal with |- context [mapM ?f _] => apply (mapM_seq_spec Z0 f (fun i v => v = f0 /\ width = 0%nat \/ exists s, Sums (at_index (Z.of_nat i) (combine key data)) s /\ v = variance_from_sums s (Z.of_nat width) c)) end.
  intros i Hi. unfold get_checked. rewrite (nth_error_nth' out (f0, f0)) by lia. cbn [bind]. eexists. split; [reflexivity|]. right. eauto.
Qed.
End Var.

(** ** The exact variance *)
Lemma qlen_cons : forall x l, qlen (x :: l) = (qlen l + Q2Qc 1)%Qc.
Proof.
  intros x l. unfold qlen. cbn [length]. rewrite Nat2Z.inj_succ. unfold Z.succ. apply (e_ofZ_S _ qc_elaws). lia.
Qed.

Lemma qlen_0 : forall l, length l = 0%nat -> qlen l = Q2Qc 0.
Proof. intros l H. unfold qlen. rewrite H. reflexivity. Qed.

Lemma qlen_nonzero : forall l, l <> [] -> qlen l <> Q2Qc 0.
Proof. intros l H. apply (e_ofZ_pos _ qc_elaws). destruct l; [congruence|simpl; lia]. Qed.

Lemma deviations : forall (mu : Qc) l,
  qsum (map (fun x => (x - mu) * (x - mu))%Qc l) =
  (qsum (map (fun x => x * x) l) - (mu * qsum l + mu * qsum l) + qlen l * (mu * mu))%Qc.
Proof.
  intros mu l. induction l as [|x l IH].
  - rewrite (qlen_0 []) by auto. cbn [map qsum fold_right]. change (Q2Qc 0) with 0%Qc. ring.
  - rewrite qlen_cons. cbn [map]. unfold qsum in *. cbn [fold_right]. rewrite IH. change (Q2Qc 1) with 1%Qc. ring.
Qed.

Lemma qsum_nonneg : forall l, Forall (fun x => 0 <= x)%Qc l -> (0 <= qsum l)%Qc.
Proof.
  induction 1; [apply Qcle_refl|]. unfold qsum in *. cbn [fold_right]. rewrite <- (Qcplus_0_l 0). apply Qcplus_le_compat; auto.
Qed.

Lemma Qc_square : forall x : Qc, (0 <= x * x)%Qc.
Proof.
  intros x. destruct (Qclt_le_dec x 0) as [H|H].
  - replace (x * x)%Qc with ((- x) * (- x))%Qc by ring. apply Qclt_le_weak in H. apply Qcopp_le_compat in H. change (- 0)%Qc with 0%Qc in H.
    rewrite <- (Qcmult_0_l (- x)). apply Qcmult_le_compat_r; auto.
  - rewrite <- (Qcmult_0_l x) at 1. apply Qcmult_le_compat_r; auto.
Qed.

Lemma qc_ltb_iff : forall x y : Qc, qc_ltb x y = true <-> (x < y)%Qc.
Proof. intros x y. unfold qc_ltb. rewrite Qclt_alt. destruct (x ?= y)%Qc; intuition discriminate. Qed.

Lemma Qcdiv_nonneg : forall x y : Qc, (0 <= x)%Qc -> (0 < y)%Qc -> (0 <= x / y)%Qc.
Proof.
  intros x y Hx Hy. unfold Qcdiv. rewrite <- (Qcmult_0_l (/ y)). apply Qcmult_le_compat_r; auto.
  destruct (Qclt_le_dec (/ y) 0) as [L|L]; auto. exfalso. assert (NY : y <> 0%Qc) by (intros ->; apply (Qcle_not_lt 0 0); auto using Qcle_refl).
  assert (H : (/ y * y < 0 * y)%Qc) by (apply Qcmult_lt_compat_r; auto). rewrite Qcmult_0_l in H.
  rewrite Qcmult_inv_l in H by auto. revert H. apply Qcle_not_lt. discriminate.
Qed.

Lemma variance_exact : forall (l : list qc) s c, Sums l s -> variance_from_sums s (Z.of_nat (length l)) c = qvariance l c.
Proof.
  intros l [s s2] c [H1 H2]. cbn [fst snd] in *. apply (FSum_exact qc_elaws) in H1. apply (FSum_exact qc_elaws) in H2.
  change (fsum l) with (qsum l) in H1. change (fsum (map sq l)) with (qsum (map (fun x => (x * x)%Qc) l)) in H2.
  unfold variance_from_sums. cbn [fst snd]. destruct (Z.eqb_spec (Z.of_nat (length l)) 0) as [E|N].
  - destruct l; [|simpl in E; lia]. unfold qvariance. destruct (Qclt_le_dec c _); auto.
  - assert (NE : l <> []) by (destruct l; simpl in *; congruence). pose proof (qlen_nonzero l NE) as NZ. change (fofZ (Z.of_nat (length l)) : qc) with (qlen l).
    unfold qvariance. cbn [fsub fdiv fmul fltb feqb f0 qc car] in *. change (Q2Qc 0) with 0%Qc in *.
    assert (EL : fleb (F := qc) (qlen l - c)%Qc 0%Qc = if Qclt_le_dec c (qlen l) then false else true).
    { unfold fleb. cbn [fltb feqb f0 qc car]. destruct (Qclt_le_dec c (qlen l)) as [L|L].
      - apply Qclt_minus_iff in L. fold (qlen l - c)%Qc in L. apply orb_false_iff. split.
        + apply not_true_is_false. rewrite qc_ltb_iff. apply Qcle_not_lt. apply Qclt_le_weak. auto.
        + apply not_true_is_false. intros E. apply (e_eqb _ qc_elaws) in E. cbn [qc car] in E. rewrite E in L. apply Qclt_not_le in L. apply L. apply Qcle_refl.
      - apply orb_true_iff. rewrite qc_ltb_iff. destruct (Qcle_lt_or_eq _ _ L) as [L'|L'].
        + left. apply Qclt_minus_iff in L'. rewrite Qclt_minus_iff. replace (0 + - (qlen l - c))%Qc with (c + - qlen l)%Qc by ring. auto.
        + right. apply (e_eqb _ qc_elaws). cbn [qc car]. rewrite L'. ring. }
    change (if fleb (F := qc) (qlen l - c)%Qc 0%Qc then (0%Qc : qc)
      else if qc_ltb ((s2 - s * s / qlen l) / (qlen l - c))%Qc 0%Qc then (0%Qc : qc) else ((s2 - s * s / qlen l) / (qlen l - c))%Qc : qc) with
      (if fleb (F := qc) (qlen l - c)%Qc 0%Qc then 0%Qc
      else if qc_ltb ((s2 - s * s / qlen l) / (qlen l - c))%Qc 0%Qc then 0%Qc else ((s2 - s * s / qlen l) / (qlen l - c))%Qc).
    rewrite EL. destruct (Qclt_le_dec c (qlen l)) as [L|L]; auto.
    assert (LP : (0 < qlen l - c)%Qc) by (apply Qclt_minus_iff in L; exact L).
    assert (EN : (s2 - s * s / qlen l)%Qc = qsum (map (fun x => (x - qmean l) * (x - qmean l))%Qc l)).
    { rewrite deviations, <- H1, <- H2. unfold qmean. rewrite <- H1. field. auto. }
    rewrite EN. replace (qc_ltb _ 0%Qc) with false; auto. symmetry. apply not_true_is_false. rewrite qc_ltb_iff. apply Qcle_not_lt.
    apply Qcdiv_nonneg; auto. apply qsum_nonneg. apply Forall_forall. intros x I. apply in_map_iff in I. destruct I as (y & <- & _). apply Qc_square.
Qed.

Lemma Sums_zeros : forall (l cells : list qc) k s, Permutation cells (l ++ repeat f0 k) -> Sums l s -> Sums cells s.
Proof.
  intros l cells k s P H. apply (Sums_perm _ _ _ (Permutation_sym P)).
  replace s with (add2 s (f0, f0)).
  - apply Sums_app; auto. clear P. induction k as [|k IH]; [apply Sums_nil; reflexivity|]. cbn [repeat].
    replace ((f0, f0) : qc * qc) with (add2 ((f0, fmul f0 f0) : qc * qc) (f0, f0)) by reflexivity. apply (Sums_app [f0]); auto. apply (Sums_one f0).
  - destruct s as [a b]. unfold add2. cbn [fst snd fadd f0 qc car]. f_equal; apply Qcplus_0_r.
Qed.

Lemma Qc_variance_nonneg : forall l c, (0 <= qvariance l c)%Qc.
Proof.
  intros l c. unfold qvariance. destruct (Qclt_le_dec c (qlen l)) as [L|L]; [|apply Qcle_refl].
  apply Qcdiv_nonneg; [|apply Qclt_minus_iff in L; exact L]. apply qsum_nonneg. apply Forall_forall. intros x I. apply in_map_iff in I. destruct I as (y & <- & _). apply Qc_square.
Qed.

(** ** Transposing first *)
Lemma after_transpose_ok : forall {F : Fl} {B} threads il sch srt (f : Cs F -> res B) (A : Cs F),
  is_interleaving il -> is_schedule sch -> is_sorter key_le srt -> canonical A -> alloc_ok (major A) ->
  exists T : Cs F, after_transpose threads il sch srt f A = f T /\ canonical T /\ major T = minor A /\ minor T = major A /\
    length (dat T) = length (dat A) /\ Permutation (dat T) (dat A) /\
    (forall i j, (i < major A)%nat -> (j < minor A)%nat -> csr_at T j i = csr_at A i j).
Proof.
  intros F B threads il sch srt f A HI HS HR C AL. exists (flipped A). unfold after_transpose. rewrite transpose_cs_ok by auto. cbn [bind].
  split; auto. pose proof (flipped_canonical A C AL) as CF. split; auto.
  assert (M1 : major (flipped A) = minor A) by apply buckets_length. assert (M2 : minor (flipped A) = major A) by reflexivity.
  split; auto. split; auto.
  assert (AT : forall i j, (i < major A)%nat -> (j < minor A)%nat -> csr_at (flipped A) j i = csr_at A i j) by (intros; apply flipped_at; auto).
  assert (P : Permutation (dat (flipped A)) (dat A)).
  { eapply Permutation_trans; [apply dat_values; apply (can_ok _ CF)|]. eapply Permutation_trans; [|apply Permutation_sym, dat_values; apply (can_ok _ C)].
    rewrite M1, M2. eapply Permutation_trans; [apply matrix_values_transposed|]. unfold matrix_values. rewrite !flat_map_concat_map.
    erewrite map_ext_in; [apply Permutation_refl|]. intros [i j] I. apply in_grid in I. unfold transposed. cbn [fst snd]. apply AT; tauto. }
  split; auto. apply Permutation_length. auto.
Qed.

Lemma row_cells_ext : forall {V} (z : V) (c c' : nat -> nat -> list V) n i, (forall j, (j < n)%nat -> c i j = c' i j) -> row_cells z c n i = row_cells z c' n i.
Proof. intros. unfold row_cells. apply map_ext_in. intros j I. apply in_seq in I. rewrite H; auto. lia. Qed.
