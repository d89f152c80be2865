(** Proofs about minima and maxima, products, variances and logical reductions. *)
Require Import List ZArith Bool Arith Lia Permutation QArith Qcanon.
Require Import Coq.Floats.SpecFloat.
Require Import Verif.Res Verif.Values Verif.Spec Verif.SpecReduce Verif.Mem Verif.Lists Verif.CsLib Verif.Laws Verif.Loops Verif.NdLib Verif.MScalar Verif.PScalar Verif.MHash Verif.MNd Verif.PNd Verif.MAcc Verif.PAcc Verif.MLinalg Verif.PLinalg Verif.PLinalg2 Verif.PLinalg3 Verif.MConvert Verif.PConvert Verif.PConvert2 Verif.PConvert3 Verif.MReduce Verif.MStat Verif.PReduce Verif.PGroup Verif.PStat.
Import ListNotations.
Local Open Scope Z_scope.

(** ** Order of the floats *)
Record OLaws (F : Fl) : Prop := {
  o_nan_0 : fnan (f0 : F) = false;
  o_nan_inf : fnan (finf : F) = false;
  o_nan_ninf : fnan (fneg finf : F) = false;
  o_asym : forall x y : F, fltb x y = true -> fltb y x = false;
  o_trans : forall x y z : F, fnan y = false -> fltb y x = false -> fltb z y = false -> fltb z x = false;
  o_inf : forall x : F, fltb finf x = false;
  o_inf_unique : forall x : F, fnan x = false -> fltb x finf = false -> x = finf;
  o_ninf : forall x : F, fltb x (fneg finf) = false;
  o_ninf_unique : forall x : F, fnan x = false -> fltb (fneg finf) x = false -> x = fneg finf
}.

(** The key of a finite number: the comparison is lexicographic. *)
Definition fkey (x : spec_float) : option (Z * (Z * Z)) :=
  match x with
  | S754_nan => None
  | S754_infinity true => Some (-2, (0, 0))
  | S754_infinity false => Some (2, (0, 0))
  | S754_zero _ => Some (0, (0, 0))
  | S754_finite true m e => Some (-1, (- e, - Zpos m))
  | S754_finite false m e => Some (1, (e, Zpos m))
  end.
Definition klt (a b : Z * (Z * Z)) : Prop :=
  fst a < fst b \/ fst a = fst b /\ (fst (snd a) < fst (snd b) \/ fst (snd a) = fst (snd b) /\ snd (snd a) < snd (snd b)).

Lemma SFltb_key : forall x y, SFltb x y = true <-> exists a b, fkey x = Some a /\ fkey y = Some b /\ klt a b.
Proof.
  intros x y.
  assert (G : forall a b : Z * (Z * Z), (exists a' b', Some a = Some a' /\ Some b = Some b' /\ klt a' b') <-> klt a b).
  { intros a b. split; [intros (a' & b' & E1 & E2 & K); inv E1; inv E2; auto|intros; eauto]. }
  assert (N1 : forall o (P : Prop), (exists a' b' : Z * (Z * Z), @None (Z * (Z * Z)) = Some a' /\ o = Some b' /\ klt a' b') <-> False).
  { intros. split; [intros (a' & b' & E1 & _); discriminate|tauto]. }
  unfold SFltb, SFcompare. destruct x as [sx|[]| |[] mx ex], y as [sy|[]| |[] my ey]; cbn [fkey];
    try (split; [discriminate|intros (a & b & E1 & E2 & _); discriminate]);
    rewrite G; unfold klt; cbn [fst snd];
    try (split; intros; auto; try discriminate; lia).
  - destruct (Z.compare_spec ex ey) as [E|E|E]; cbn [CompOpp]; try (split; intros; auto; try discriminate; lia).
    subst. change (Pos.compare_cont Eq mx my) with (Pos.compare mx my). destruct (Pos.compare_spec mx my); cbn [CompOpp]; split; intros; auto; try discriminate; lia.
  - destruct (Z.compare_spec ex ey) as [E|E|E]; try (split; intros; auto; try discriminate; lia).
    subst. change (Pos.compare_cont Eq mx my) with (Pos.compare mx my). destruct (Pos.compare_spec mx my); split; intros; auto; try discriminate; lia.
Qed.

Lemma f64_olaws : forall pw, OLaws (f64 pw).
Proof.
  intros pw.
  assert (NK : forall x y, SFltb x y = false <-> ~ exists a b, fkey x = Some a /\ fkey y = Some b /\ klt a b).
  { intros x y. rewrite <- SFltb_key. destruct (SFltb x y); intuition congruence. }
  constructor; cbn [fnan f0 finf fneg fltb f64 car]; try reflexivity.
  - intros x y H. apply SFltb_key in H. destruct H as (a & b & E1 & E2 & K). apply NK. intros (a' & b' & E1' & E2' & K').
    rewrite E1 in E2'. rewrite E2 in E1'. inv E1'. inv E2'. unfold klt in *. lia.
  - intros x y z NY H1 H2. apply NK. apply NK in H1, H2. intros (a & b & E1 & E2 & K).
    assert (exists c, fkey y = Some c) as [c EC] by (destruct y as [|[]| |[]]; try discriminate; cbn [fkey]; eauto).
    assert (~ klt a c) by (intros K'; apply H2; eauto). assert (~ klt c b) by (intros K'; apply H1; eauto 6). unfold klt in *. lia.
  - intros x. destruct x as [|[]| |[]]; reflexivity.
  - intros x N H. destruct x as [|[]| |[]]; try discriminate; reflexivity.
  - intros x. destruct x as [|[]| |[]]; reflexivity.
  - intros x N H. destruct x as [|[]| |[]]; try discriminate; reflexivity.
Qed.

(** ** Minima and maxima *)
Section Best.
Context {F : Fl}.
Variables (worst : F) (better : F -> F -> bool).
Hypothesis Z0 : feqb (f0 : F) f0 = true.
Hypothesis nan_0 : fnan (f0 : F) = false.
Hypothesis nan_w : fnan worst = false.
Hypothesis b_asym : forall x y, better x y = true -> better y x = false.
Hypothesis b_trans : forall x y a, fnan y = false -> better x y = false -> better y a = false -> better x a = false.
Hypothesis b_worst : forall x, better worst x = false.
Hypothesis b_unique : forall x, fnan x = false -> better x worst = false -> x = worst.

Lemma b_irrefl : forall x, better x x = false.
Proof. intros x. destruct (better x x) eqn:E; auto. rewrite (b_asym _ _ E) in E. discriminate. Qed.

Definition is_best (op : F -> F -> F) : Prop := forall x y, fnan x = false -> fnan y = false ->
  (op x y = x \/ op x y = y) /\ better x (op x y) = false /\ better y (op x y) = false.

Notation numbers := no_nan.
Definition Best (l : list F) (a : F) : Prop := numbers l ->
  fnan a = false /\ (In a l \/ a = worst) /\ Forall (fun x => better x a = false) l.

Lemma pick_best : is_best (pick better).
Proof.
  intros x y _ _. unfold pick. destruct (better y x) eqn:E; split; auto; split; auto using b_irrefl.
Qed.

Lemma Best_perm : forall l l' a, Permutation l l' -> Best l a -> Best l' a.
Proof.
  intros l l' a P H N. destruct H as (H1 & H2 & H3).
  - unfold no_nan in *. eapply Permutation_Forall; [apply Permutation_sym; exact P|auto].
  - split; auto. split.
    + destruct H2; auto. left. eapply Permutation_in; eauto.
    + eapply Permutation_Forall; eauto.
Qed.

Lemma Best_op : forall op, is_best op -> forall l l' a b, Best l a -> Best l' b -> Best (l ++ l') (op a b).
Proof.
  intros op OP l l' a b HA HB N. apply Forall_app in N. destruct N as [N1 N2].
  destruct (HA N1) as (A1 & A2 & A3). destruct (HB N2) as (B1 & B2 & B3). destruct (OP a b A1 B1) as (O1 & O2 & O3).
  split; [destruct O1 as [-> | ->]; auto|]. split.
  - rewrite in_app_iff. destruct O1 as [-> | ->]; tauto.
  - apply Forall_app. split; (eapply Forall_impl; [|eassumption]); intros x Hx; cbv beta in Hx |- *; [apply b_trans with a|apply b_trans with b]; auto.
Qed.

Lemma Best_one : forall x, Best [x] x.
Proof. intros x N. inv N. split; auto. split; [simpl; auto|]. constructor; [apply b_irrefl|constructor]. Qed.

Lemma Best_nil : Best [] worst.
Proof. intros _. split; auto. Qed.

(** The result over cells. *)
Definition best_of (l : list F) (v : F) : Prop := In v l /\ Forall (fun x => better x v = false) l.

Lemma Best_cells : forall sop l m k cells, is_best sop -> numbers l -> Best l m -> Permutation cells (l ++ repeat f0 k) -> cells <> [] ->
  best_of cells (if (0 <? k)%nat then sop m f0 else m).
Proof.
  intros sop l m k cells HS N HB P NE. destruct (HB N) as (M1 & M2 & M3).
  set (v := if (0 <? k)%nat then sop m f0 else m).
  assert (NC : numbers cells).
  { unfold no_nan. eapply Permutation_Forall; [apply Permutation_sym; exact P|]. apply Forall_app. split; auto.
    apply Forall_forall. intros x I. apply repeat_spec in I. subst. auto. }
  assert (HV : fnan v = false /\ (In v (l ++ repeat f0 k) \/ v = worst) /\ Forall (fun x => better x v = false) (l ++ repeat f0 k)).
  { unfold v. destruct (Nat.ltb_spec 0 k) as [K|K].
    - destruct (HS m f0 M1 nan_0) as (O1 & O2 & O3). split; [destruct O1 as [-> | ->]; auto|]. split.
      + rewrite in_app_iff. destruct O1 as [-> | ->]; [tauto|]. left. right. destruct k; [lia|]. simpl. auto.
      + apply Forall_app. split; [(eapply Forall_impl; [|exact M3]); intros x Hx; cbv beta in Hx |- *; apply b_trans with m; auto|].
        apply Forall_forall. intros x I. apply repeat_spec in I. subst. auto.
    - assert (k = 0%nat) by lia. subst k. simpl. rewrite app_nil_r. auto. }
  destruct HV as (V1 & V2 & V3). assert (V4 : Forall (fun x => better x v = false) cells) by (eapply Permutation_Forall; [apply Permutation_sym; exact P|auto]).
  split; auto. destruct V2 as [V2|V2]; [eapply Permutation_in; [apply Permutation_sym; exact P|auto]|].
  destruct cells as [|c cs]; [congruence|]. inv V4. inv NC. left. rewrite V2 in *. apply b_unique; auto.
Qed.

Variables (vop sop : F -> F -> F).
Hypothesis VOP : is_best vop.
Hypothesis SOP : is_best sop.

Lemma chunk_best_ok : forall l, exists m, chunk_best worst vop sop better l = Ok m /\ Best l m.
Proof.
  intros l. unfold chunk_best. destruct l as [|x l]; [exists worst; split; auto; apply Best_nil|].
  apply (lane_reduce_ok Best).
  - apply Best_perm.
  - apply Best_nil.
  - intros. apply Best_op; auto. apply Best_one.
  - intros. apply Best_op; auto.
  - intros. apply Best_op; auto using pick_best, Best_one.
Qed.

Lemma sat_mul_lt : forall m n len, alloc_ok len -> (Z.of_nat len <? sat_mul (Z.of_nat m) (Z.of_nat n)) = (0 <? m * n - len)%nat.
Proof.
  intros m n len AL. unfold sat_mul. rewrite <- Nat2Z.inj_mul. unfold alloc_ok, i64_max, usize_max in *.
  destruct (Z.ltb_spec (Z.of_nat len) (Z.min (Z.of_nat (m * n)) (2 ^ 64 - 1))); destruct (Nat.ltb_spec 0 (m * n - len)); auto; lia.
Qed.

Lemma best_all_ok : forall t m n (data cells : list F), alloc_ok (length data) -> numbers data ->
  (length data <= m * n)%nat -> Permutation cells (data ++ repeat f0 (m * n - length data)) ->
  exists v, best_all worst vop sop better t m n data = Ok v /\ (cells = [] -> v = f0) /\ (cells <> [] -> best_of cells v).
Proof.
  intros t m n data cells AL N LE P. unfold best_all.
  assert (LC : length cells = (m * n)%nat) by (apply Permutation_length in P; rewrite app_length, repeat_length in P; lia).
  destruct (Nat.eqb_spec m 0) as [->|M]; cbn [orb].
  { exists f0. split; auto. split; auto. destruct cells; [congruence|discriminate]. }
  destruct (Nat.eqb_spec n 0) as [->|NN]; cbn [orb].
  { exists f0. split; auto. split; auto. rewrite Nat.mul_0_r in LC. destruct cells; [congruence|discriminate]. }
  destruct (par_reduce_ok Best (chunk_best worst vop sop better) (fun xs => fold_left sop xs worst) sop) with (t := t) (data := data) as (v & E & HB).
  { apply chunk_best_ok. } { intros. apply fold_leaf_ok; auto using Best_nil. intros. apply Best_op; auto. } { intros. apply Best_op; auto. }
  rewrite E. cbn [bind]. rewrite sat_mul_lt by auto. eexists. split; [reflexivity|]. split.
  - intros ->. simpl in LC. assert (m * n <> 0)%nat by (apply Nat.neq_mul_0; auto). lia.
  - intros NE. apply (Best_cells sop data); auto.
Qed.

Lemma slice_best_ok : forall (A : Cs F) i, cs_ok A -> alloc_ok (length (dat A)) -> (i < major A)%nat -> numbers (map snd (cs_row A i)) ->
  (forall j, (j < minor A)%nat -> (length (csr_at A i j) <= 1)%nat) ->
  exists v, slice_best worst vop sop better A i = Ok v /\
    let cs := row_cells f0 (csr_at A) (minor A) i in (cs = [] -> v = f0) /\ (cs <> [] -> best_of cs v).
Proof.
  intros A i OK AL Hi N SV. unfold slice_best. rewrite slice_nnz_ok by auto. cbn [bind].
  destruct (row_cells_perm f0 (csr_at A) (minor A) i (map snd (cs_row A i)) SV (row_values_ok A i OK Hi)) as [LE P].
  rewrite map_length in *. destruct (Z.eqb_spec (Z.of_nat (length (cs_row A i))) 0) as [E0|N0].
  - exists f0. split; auto. split; auto. intros NE. destruct (cs_row A i); [|simpl in E0; lia]. cbn [map length app] in P. rewrite Nat.sub_0_r in P.
    assert (AZ : forall x, In x (row_cells f0 (csr_at A) (minor A) i) -> x = f0).
    { intros x I. eapply Permutation_in in I; [|exact P]. apply repeat_spec in I. auto. }
    split; [|apply Forall_forall; intros x I; rewrite (AZ x I); apply b_irrefl].
    destruct (row_cells f0 (csr_at A) (minor A) i) as [|c cs] eqn:EC; [congruence|]. left. apply AZ. simpl. auto.
  - rewrite data_slice_ok by auto. cbn [bind]. destruct (chunk_best_ok (map snd (cs_row A i))) as (m & E & HB). rewrite E. cbn [bind].
    eexists. split; [reflexivity|]. split.
    + intros E1. rewrite E1 in P. apply Permutation_length in P. rewrite app_length, map_length in P. simpl in P. lia.
    + intros NE. pose proof (Best_cells sop _ m _ _ SOP N HB P NE) as H.
      replace (Z.of_nat (length (cs_row A i)) <? Z.of_nat (minor A)) with (0 <? minor A - length (cs_row A i))%nat; auto.
      destruct (Z.ltb_spec (Z.of_nat (length (cs_row A i))) (Z.of_nat (minor A))); destruct (Nat.ltb_spec 0 (minor A - length (cs_row A i))); auto; lia.
Qed.

Lemma numbers_row : forall (A : Cs F) i, cs_ok A -> numbers (dat A) -> (i < major A)%nat -> numbers (map snd (cs_row A i)).
Proof.
  intros A i OK N Hi. unfold no_nan in *. rewrite (dat_rows A OK) in N. rewrite Forall_forall in *. intros x I. apply N.
  apply in_flat_map. exists i. split; auto. apply in_seq. lia.
Qed.

Lemma major_bests_ok : forall (A : Cs F), canonical A -> alloc_ok (length (dat A)) -> numbers (dat A) ->
  exists y, major_bests worst vop sop better A = Ok y /\ length y = major A /\
    forall i, (i < major A)%nat -> let cs := row_cells f0 (csr_at A) (minor A) i in
      (cs = [] -> nth i y f0 = f0) /\ (cs <> [] -> best_of cs (nth i y f0)).
Proof.
  intros A C AL N. apply (mapM_seq_spec Z0 (slice_best worst vop sop better A)
    (fun i v => let cs := row_cells f0 (csr_at A) (minor A) i in (cs = [] -> v = f0) /\ (cs <> [] -> best_of cs v))).
  intros i Hi. apply slice_best_ok; auto; [apply (can_ok _ C)|apply numbers_row; auto; apply (can_ok _ C)|]. intros. apply canonical_single; auto.
Qed.

Lemma count_at_index : forall {V} key (data : list V) i, length key = length data ->
  count_occ Z.eq_dec key i = length (at_index i (combine key data)).
Proof.
  intros V key. induction key as [|k key IH]; intros [|v data] i H; try discriminate; auto. inv H. cbn [combine count_occ].
  rewrite at_index_cons. destruct (Z.eq_dec k i), (Z.eqb_spec k i); try contradiction; cbn [length]; auto.
Qed.

Lemma coo_bests_ok : forall nthreads dist n width key (data : list F) (cell : nat -> nat -> list F), is_distribution dist -> alloc_ok n ->
  length key = length data -> Forall (fun k => 0 <= k < Z.of_nat n) key -> numbers data ->
  (forall i, (i < n)%nat -> Permutation (at_index (Z.of_nat i) (combine key data)) (row_values cell width i)) ->
  (forall i j, (length (cell i j) <= 1)%nat) ->
  exists y, coo_bests sop better nthreads dist n width key data = Ok y /\ length y = n /\
    forall i, (i < n)%nat -> let cs := row_cells f0 cell width i in
      (cs = [] -> nth i y f0 = f0) /\ (cs <> [] -> best_of cs (nth i y f0)).
Proof.
  intros nt dist n width key data cell HD AN HL FK N HP SV. unfold coo_bests.
  destruct (Nat.eqb_spec n 0) as [->|N0]; [exists []; split; auto; split; auto; intros; lia|].
  destruct (count_index_ok n key FK AN) as (cnt & EC & LC & HC). rewrite EC. cbn [bind].
  assert (FU : Forall (fun k => 0 <= k <= usize_max) key).
  { (eapply Forall_impl; [|exact FK]). intros k Hk. cbv beta in Hk |- *. unfold alloc_ok, i64_max, usize_max in *. lia. }
  destruct (chunk_tasks_eq Z0 nt key data HL FU) as (tasks & ET & ECT). rewrite ET. cbn [bind].
  destruct (tls_seen_ok Best Best_perm f0 (fun x => x) (pick better) Best_one) with (mrg := pick better) (stripe := STRIPE) (n := n) (dist := dist) (tasks := tasks)
    as (out & seen & E & LO & LS & H); auto using STRIPE_gt0.
  { intros. apply Best_op; auto using pick_best, Best_one. }
  { intros. apply Best_op; auto using pick_best. }
  { rewrite ECT. apply keys_below. auto. }
  rewrite E. cbn [bind]. rewrite ECT in H.
  match goal with |- context [mapM ?f _] => apply (mapM_seq_spec Z0 f (fun i v => let cs := row_cells f0 cell width i in (cs = [] -> v = f0) /\ (cs <> [] -> best_of cs v))) end.
  intros i Hi. unfold get_checked. rewrite (nth_error_nth' cnt 0%nat), (nth_error_nth' out f0), (nth_error_nth' seen false) by lia. cbn [bind].
  eexists. split; [reflexivity|]. rewrite HC by auto. rewrite (count_at_index key data) by auto.
  set (l := at_index (Z.of_nat i) (combine key data)) in *. destruct (H i Hi) as [H1 H2]. fold l in H1, H2.
  destruct (row_cells_perm f0 cell width i l) as [LE P]; [intros; apply SV|apply HP; auto|].
  assert (NL : numbers l).
  { unfold no_nan, l, at_index in *. rewrite Forall_forall in *. intros x I. apply in_map_iff in I. destruct I as ([k v] & <- & I). apply filter_In in I.
    destruct I as [I _]. apply in_combine_r in I. auto. }
  destruct l as [|x l'] eqn:EL.
  - destruct (H1 eq_refl) as [-> ->]. cbn [length app] in *. rewrite Nat.sub_0_r in P. split.
    + intros. destruct (_ <? _)%nat; auto.
    + intros NE. assert (AZ : forall x, In x (row_cells f0 cell width i) -> x = f0).
      { intros x I. eapply Permutation_in in I; [|exact P]. apply repeat_spec in I. auto. }
      replace (if (0 <? width)%nat then f0 else f0) with (f0 : F) by (destruct (0 <? width)%nat; auto).
      split; [|apply Forall_forall; intros x I; rewrite (AZ x I); apply b_irrefl].
      destruct (row_cells f0 cell width i) as [|c cs]; [congruence|]. left. apply AZ. simpl. auto.
  - destruct (H2 ltac:(discriminate)) as [-> HB]. split.
    + intros E1. rewrite E1 in P. apply Permutation_length in P. simpl in P. lia.
    + intros NE. pose proof (Best_cells sop _ _ _ _ SOP NL HB P NE) as G.
      replace (length (x :: l') <? width)%nat with (0 <? width - length (x :: l'))%nat; auto.
      destruct (Nat.ltb_spec 0 (width - length (x :: l'))); destruct (Nat.ltb_spec (length (x :: l')) width); auto; lia.
Qed.
End Best.

(** ** Products *)
Section Prod.
Context {F : Fl}.
Hypothesis Z0 : feqb (f0 : F) f0 = true.

Lemma FProd_snoc : forall l (a x : F), FProd l a -> FProd (l ++ [x]) (fmul a x).
Proof. intros. apply FProd_mul; auto. apply FProd_sing. Qed.

Lemma chunk_prod_ok : forall l : list F, exists v, chunk_prod l = Ok v /\ FProd l v.
Proof.
  intros l. unfold chunk_prod. destruct l as [|x l]; [exists f1; split; auto; constructor|].
  apply (lane_reduce_ok FProd).
  - intros. eapply FProd_perm; eauto.
  - constructor.
  - apply FProd_snoc.
  - intros. apply FProd_mul; auto.
  - apply FProd_snoc.
Qed.

Lemma stored_or_missing : forall {J} (cell : J -> list F) js, (forall j, In j js -> (length (cell j) <= 1)%nat) ->
  (length (flat_map cell js) = length js /\ Forall (fun j => cell j <> []) js) \/
  (length (flat_map cell js) < length js /\ Exists (fun j => cell j = []) js)%nat.
Proof.
  intros J cell js. induction js as [|j js IH]; intros H; [left; simpl; auto|]. cbn [flat_map length]. rewrite app_length.
  pose proof (H j (or_introl eq_refl)) as HJ. destruct IH as [[I1 I2]|[I1 I2]]; [intros; apply H; simpl; auto| |].
  - destruct (cell j) as [|v [|? ?]] eqn:EJ; cbn [length] in *; [right; split; [lia|constructor; auto]|left; split; [lia|constructor; auto; congruence]|lia].
  - right. split; [|apply Exists_cons_tl; auto]. destruct (cell j) as [|v [|? ?]]; cbn [length] in *; lia.
Qed.

Lemma prod_spec_intro : forall {J} (cell : J -> list F) js l v, (forall j, In j js -> (length (cell j) <= 1)%nat) ->
  Permutation l (flat_map cell js) -> (length l = length js -> FProd l v) -> (length l < length js -> v = f0)%nat -> prod_spec cell js v.
Proof.
  intros J cell js l v SV P H1 H2. rewrite (Permutation_length P) in *.
  assert (EX : Exists (fun j => cell j = []) js -> Forall (fun j => cell j <> []) js -> False).
  { intros E A. apply Exists_exists in E. destruct E as (j & I & E). rewrite Forall_forall in A. apply (A j I). auto. }
  destruct (stored_or_missing cell js SV) as [[L A]|[L E]]; split; intros G.
  - eapply FProd_perm; [|apply H1; auto]. apply cells_all; auto. rewrite (Permutation_length P). auto.
  - exfalso. auto.
  - exfalso. auto.
  - auto.
Qed.

Lemma prod_all_ok : forall {J} t full (data : list F) (cell : J -> list F) js, (forall j, In j js -> (length (cell j) <= 1)%nat) ->
  Permutation data (flat_map cell js) -> alloc_ok (length data) -> full = Z.min (Z.of_nat (length js)) usize_max ->
  exists v, prod_all t full data = Ok v /\ prod_spec cell js v.
Proof.
  intros J t full data cell js SV P AL EF. unfold prod_all. destruct (cells_perm f0 cell js SV) as [LE _]. rewrite <- (Permutation_length P) in LE.
  unfold alloc_ok, i64_max, usize_max in *. destruct (Z.eqb_spec full 0) as [E0|N0].
  - exists f1. split; auto. apply (prod_spec_intro cell js data); auto; [|lia]. intros. destruct data; [constructor|simpl in *; lia].
  - destruct (Z.ltb_spec (Z.of_nat (length data)) full).
    + exists f0. split; auto. apply (prod_spec_intro cell js data); auto. lia.
    + destruct (par_reduce_ok FProd chunk_prod (fun xs => fold_left (@fmul F) xs f1) (@fmul F)) with (t := t) (data := data) as (v & E & HB).
      { apply chunk_prod_ok. } { intros. apply fold_leaf_ok; auto using FProd_one. intros. apply FProd_mul; auto. } { intros. apply FProd_mul; auto. }
      exists v. split; auto. apply (prod_spec_intro cell js data); auto. lia.
Qed.

Lemma slice_prod_ok : forall (A : Cs F) i, canonical A -> alloc_ok (length (dat A)) -> (i < major A)%nat ->
  exists v, slice_prod A i = Ok v /\ prod_spec (csr_at A i) (seq 0 (minor A)) v.
Proof.
  intros A i C AL Hi. pose proof (can_ok _ C) as OK. unfold slice_prod. rewrite slice_nnz_ok by auto. cbn [bind].
  assert (SV : forall j, In j (seq 0 (minor A)) -> (length (csr_at A i j) <= 1)%nat) by (intros; apply canonical_single; auto).
  pose proof (row_values_ok A i OK Hi) as P. unfold row_values in P.
  destruct (Z.ltb_spec (Z.of_nat (length (cs_row A i))) (Z.of_nat (minor A))).
  - exists f0. split; auto. apply (prod_spec_intro _ _ _ f0 SV P); auto. rewrite map_length, seq_length. lia.
  - rewrite data_slice_ok by auto. cbn [bind]. destruct (chunk_prod_ok (map snd (cs_row A i))) as (v & E & H1). exists v. split; auto.
    apply (prod_spec_intro _ _ _ v SV P); auto. rewrite map_length, seq_length. lia.
Qed.

Lemma prod_spec_repeat1 : forall (cell : nat -> list F), prod_spec cell (seq 0 0) f1.
Proof. intros. split; intros H; [constructor|inv H]. Qed.

Lemma major_prods_ok : forall A : Cs F, canonical A -> alloc_ok (length (dat A)) ->
  exists y, major_prods A = Ok y /\ length y = major A /\
    forall i, (i < major A)%nat -> prod_spec (csr_at A i) (seq 0 (minor A)) (nth i y f0).
Proof.
  intros A C AL. unfold major_prods. destruct (Nat.eqb_spec (major A) 0) as [->|N0]; [exists []; split; auto; split; auto; intros; lia|].
  destruct (Nat.eqb_spec (minor A) 0) as [E0|N1].
  - exists (repeat f1 (major A)). split; auto. split; [apply repeat_length|]. intros i Hi. rewrite E0.
    rewrite (nth_indep _ f0 f1) by (rewrite repeat_length; auto). rewrite nth_repeat. apply prod_spec_repeat1.
  - apply (mapM_seq_spec Z0 (slice_prod A) (fun i v => prod_spec (csr_at A i) (seq 0 (minor A)) v)). intros. apply slice_prod_ok; auto.
Qed.

Lemma coo_prods_ok : forall nthreads dist n width key (data : list F) (cell : nat -> nat -> list F), is_distribution dist -> alloc_ok n ->
  length key = length data -> Forall (fun k => 0 <= k < Z.of_nat n) key ->
  (forall i, (i < n)%nat -> Permutation (at_index (Z.of_nat i) (combine key data)) (row_values cell width i)) ->
  (forall i j, (length (cell i j) <= 1)%nat) ->
  exists y, coo_prods nthreads dist n width key data = Ok y /\ length y = n /\
    forall i, (i < n)%nat -> prod_spec (cell i) (seq 0 width) (nth i y f0).
Proof.
  intros nt dist n width key data cell HD AN HL FK HP SV. unfold coo_prods.
  destruct (Nat.eqb_spec n 0) as [->|N0]; [exists []; split; auto; split; auto; intros; lia|].
  destruct (Nat.eqb_spec width 0) as [E0|N1].
  { exists (repeat f1 n). split; auto. split; [apply repeat_length|]. intros i Hi. rewrite E0.
    rewrite (nth_indep _ f0 f1) by (rewrite repeat_length; auto). rewrite nth_repeat. apply prod_spec_repeat1. }
  destruct (count_index_ok n key FK AN) as (cnt & EC & LC & HC). rewrite EC. cbn [bind].
  assert (FU : Forall (fun k => 0 <= k <= usize_max) key).
  { (eapply Forall_impl; [|exact FK]). intros k Hk. cbv beta in Hk |- *. unfold alloc_ok, i64_max, usize_max in *. lia. }
  destruct (chunk_tasks_eq Z0 nt key data HL FU) as (tasks & ET & ECT). rewrite ET. cbn [bind].
  destruct (tls_seen_ok FProd FProd_perm f1 (fun x => x) fmul FProd_sing FProd_snoc) with (mrg := @fmul F) (stripe := STRIPE) (n := n) (dist := dist) (tasks := tasks)
    as (out & seen & E & LO & LS & H); auto using STRIPE_gt0.
  { intros. apply FProd_mul; auto. }
  { rewrite ECT. apply keys_below. auto. }
  rewrite E. cbn [bind]. rewrite ECT in H.
  match goal with |- context [mapM ?f _] => apply (mapM_seq_spec Z0 f (fun i v => prod_spec (cell i) (seq 0 width) v)) end.
  intros i Hi. unfold get_checked. rewrite (nth_error_nth' cnt 0%nat), (nth_error_nth' out f1) by lia. cbn [bind].
  eexists. split; [reflexivity|]. rewrite HC by auto. rewrite (count_at_index key data) by auto.
  apply (prod_spec_intro _ _ (at_index (Z.of_nat i) (combine key data))).
  - intros. apply SV.
  - apply HP. auto.
  - rewrite seq_length. intros EL. rewrite EL, Nat.ltb_irrefl. apply H; auto. destruct (at_index _ _); [simpl in EL; lia|discriminate].
  - rewrite seq_length. intros EL. apply Nat.ltb_lt in EL. rewrite EL. auto.
Qed.
End Prod.

(** ** Logical reductions *)
Section Logic.
Context {F : Fl}.
Hypothesis Z0 : feqb (f0 : F) f0 = true.

Lemma forallb_perm : forall {X} (f : X -> bool) l l', Permutation l l' -> forallb f l = forallb f l'.
Proof. induction 1; simpl; auto; [congruence| |congruence]. rewrite !andb_assoc. f_equal. apply andb_comm. Qed.
Lemma existsb_perm : forall {X} (f : X -> bool) l l', Permutation l l' -> existsb f l = existsb f l'.
Proof. induction 1; simpl; auto; [congruence| |congruence]. rewrite !orb_assoc. f_equal. apply orb_comm. Qed.

Lemma nonzero_0 : nonzero (f0 : F) = false.
Proof. unfold nonzero. rewrite Z0. auto. Qed.

Lemma all_cells : forall (l cells : list F) k, Permutation cells (l ++ repeat f0 k) ->
  forallb nonzero cells = if (0 <? k)%nat then false else negb (existsb (fun x => feqb x f0) l).
Proof.
  intros l cells k P. rewrite (forallb_perm _ _ _ P), forallb_app. destruct k; cbn [Nat.ltb Nat.leb repeat forallb].
  - rewrite andb_true_r. unfold nonzero. clear P. induction l; simpl; auto. rewrite IHl, negb_orb. auto.
  - rewrite nonzero_0. apply andb_false_r.
Qed.
Lemma any_cells : forall (l cells : list F) k, Permutation cells (l ++ repeat f0 k) ->
  existsb nonzero cells = existsb nonzero l.
Proof.
  intros l cells k P. rewrite (existsb_perm _ _ _ P), existsb_app. replace (existsb nonzero (repeat f0 k)) with false; [apply orb_false_r|]. clear P.
  induction k; simpl; auto. rewrite nonzero_0. auto.
Qed.

Lemma all_data_ok : forall full (data cells : list F), alloc_ok (length data) -> (length data <= length cells)%nat ->
  full = Z.min (Z.of_nat (length cells)) usize_max -> Permutation cells (data ++ repeat f0 (length cells - length data)) ->
  all_data full data = forallb nonzero cells /\ any_data full data = existsb nonzero cells.
Proof.
  intros full data cells AL LE EF P. rewrite (all_cells _ _ _ P), (any_cells _ _ _ P). unfold all_data, any_data.
  unfold alloc_ok, i64_max, usize_max in *. destruct (Z.eqb_spec full 0) as [E0|N0].
  - destruct data; [|simpl in *; lia]. replace (length cells) with 0%nat by lia. auto.
  - split; auto. destruct (Z.ltb_spec (Z.of_nat (length data)) full); destruct (Nat.ltb_spec 0 (length cells - length data)); auto; lia.
Qed.

Lemma slice_logic_ok : forall (A : Cs F) i, cs_ok A -> (forall j, (length (csr_at A i j) <= 1)%nat) -> alloc_ok (length (dat A)) -> (i < major A)%nat ->
  slice_all A i = Ok (forallb nonzero (row_cells f0 (csr_at A) (minor A) i)) /\
  slice_any A i = Ok (existsb nonzero (row_cells f0 (csr_at A) (minor A) i)).
Proof.
  intros A i OK SV AL Hi. unfold slice_all, slice_any. rewrite slice_nnz_ok, data_slice_ok by auto. cbn [bind].
  destruct (row_cells_perm f0 (csr_at A) (minor A) i (map snd (cs_row A i))) as [LE P]; [intros; apply SV|apply row_values_ok; auto|].
  rewrite (all_cells _ _ _ P), (any_cells _ _ _ P). rewrite map_length. split; [|auto].
  destruct (Z.ltb_spec (Z.of_nat (length (cs_row A i))) (Z.of_nat (minor A))); destruct (Nat.ltb_spec 0 (minor A - length (cs_row A i))); auto; lia.
Qed.

Lemma major_logic_ok : forall A : Cs F, cs_ok A -> (forall i j, (i < major A)%nat -> (length (csr_at A i j) <= 1)%nat) -> alloc_ok (length (dat A)) ->
  major_alls A = Ok (map (fun i => forallb nonzero (row_cells f0 (csr_at A) (minor A) i)) (seq 0 (major A))) /\
  major_anys A = Ok (map (fun i => existsb nonzero (row_cells f0 (csr_at A) (minor A) i)) (seq 0 (major A))).
Proof.
  intros A OK SV AL. unfold major_alls, major_anys. destruct (Nat.eqb_spec (major A) 0) as [->|N0]; [auto|].
  destruct (Nat.eqb_spec (minor A) 0) as [->|N1].
  - assert (ER : forall (b : bool) (g : nat -> bool) n, (forall i, g i = b) -> repeat b n = map g (seq 0 n)).
    { intros b g n H. rewrite <- (seq_length n 0) at 1. generalize (seq 0 n). induction l; simpl; auto. rewrite H, IHl. auto. }
    split; f_equal; apply ER; auto.
  - split; apply mapM_ok; intros i I; apply in_seq in I; apply slice_logic_ok; auto; try lia; intros; apply SV; lia.
Qed.
End Logic.
