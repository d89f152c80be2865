(** C40: cumulative sums and products. *)
Require Import List ZArith Bool Arith Lia Permutation QArith Qcanon.
Require Import Verif.Res Verif.Values Verif.Spec Verif.SpecReduce Verif.SpecDiff Verif.Mem Verif.Lists Verif.CsLib Verif.Laws Verif.MConvert Verif.PConvert Verif.PConvert2 Verif.PConvert3 Verif.MScalar Verif.MLinalg Verif.MHash Verif.MNd Verif.MNd2 Verif.MAcc Verif.PAcc Verif.MCum Verif.PCum Verif.PDiff Verif.Witness Verif.PropConvert Verif.PGroup Verif.PropStat.
Import ListNotations.
Local Open Scope Z_scope.

(** ** C40 *)
Section Generic.
Context {F : Fl}.
Hypothesis Z0 : feqb (f0 : F) f0 = true.

Lemma cumsum_axis1_ok : forall (A : Csr F), canonical A -> alloc_ok (csr_nrows A * csr_ncols A) ->
  exists out, cumsum_axis1 A = Ok out /\ length out = (csr_nrows A * csr_ncols A)%nat /\
    forall i j, (i < csr_nrows A)%nat -> (j < csr_ncols A)%nat -> FSum (row_values (csr_at A) (S j) i) (nth (i * csr_ncols A + j) out f0).
Proof.
  intros A C AL. apply (dense_rows_ok Z0 (cumsum_row A) _ _ (fun i j v => FSum (row_values (csr_at A) (S j) i) v)); auto.
  intros i Hi. apply (cumsum_row_ok Z0); auto. apply repeat_length.
Qed.

Lemma cumprod_axis1_ok : forall (A : Csr F), canonical A -> alloc_ok (csr_nrows A * csr_ncols A) ->
  exists out, cumprod_axis1 A = Ok out /\ length out = (csr_nrows A * csr_ncols A)%nat /\
    forall i j, (i < csr_nrows A)%nat -> (j < csr_ncols A)%nat -> prod_spec (csr_at A i) (seq 0 (S j)) (nth (i * csr_ncols A + j) out f0).
Proof.
  intros A C AL. apply (dense_rows_ok Z0 (cumprod_row A) _ _ (fun i j v => prod_spec (csr_at A i) (seq 0 (S j)) v)); auto.
  intros i Hi. apply (cumprod_row_ok Z0); auto.
Qed.

Lemma flat_map_in_ext : forall {J X} (f g : J -> list X) l, (forall j, In j l -> f j = g j) -> flat_map f l = flat_map g l.
Proof. intros J X f g l H. rewrite !flat_map_concat_map. f_equal. apply map_ext_in. auto. Qed.

Lemma prod_spec_ext : forall {J} (c c' : J -> list F) js v, (forall j, In j js -> c j = c' j) -> prod_spec c js v -> prod_spec c' js v.
Proof.
  intros J c c' js v H [H1 H2]. split; intros G.
  - rewrite <- (map_ext_in (fun j => one_or f0 (c j))) by (intros j I; rewrite H; auto). apply H1.
    rewrite Forall_forall in *. intros j I. rewrite H by auto. auto.
  - apply H2. apply Exists_exists in G. destruct G as (j & I & G). apply Exists_exists. exists j. rewrite H; auto.
Qed.

Lemma cumsum_axis0_ok : forall threads il sch srt (A : Csr F), is_interleaving il -> is_schedule sch -> is_sorter key_le srt ->
  distinct A -> alloc_ok (csr_nrows A) -> alloc_ok (csr_nrows A * csr_ncols A) ->
  exists out, cumsum_axis0 threads il sch srt A = Ok out /\ length out = (csr_nrows A * csr_ncols A)%nat /\
    forall i j, (i < csr_nrows A)%nat -> (j < csr_ncols A)%nat ->
      FSum (row_values (transposed (csr_at A)) (S i) j) (nth (i * csr_ncols A + j) out f0).
Proof.
  intros threads il sch srt A HI HS HR D A1 A2.
  destruct (through_dense_transpose_ok Z0 cumsum_axis1 (fun T j i v => FSum (row_values (csr_at T) (S i) j) v) threads il sch srt A HI HS HR D A1 A2 cumsum_axis1_ok)
    as (T & CT & M1 & M2 & AT & out & E & L & H).
  exists out. split; auto. split; auto. intros i j Hi Hj. specialize (H i j Hi Hj). cbv beta in H.
  replace (row_values (transposed (csr_at A)) (S i) j) with (row_values (csr_at T) (S i) j); auto.
  unfold row_values. apply flat_map_in_ext. intros i' I. apply in_seq in I. unfold transposed. apply AT; lia.
Qed.

Lemma cumprod_axis0_ok : forall threads il sch srt (A : Csr F), is_interleaving il -> is_schedule sch -> is_sorter key_le srt ->
  distinct A -> alloc_ok (csr_nrows A) -> alloc_ok (csr_nrows A * csr_ncols A) ->
  exists out, cumprod_axis0 threads il sch srt A = Ok out /\ length out = (csr_nrows A * csr_ncols A)%nat /\
    forall i j, (i < csr_nrows A)%nat -> (j < csr_ncols A)%nat ->
      prod_spec (fun i' => csr_at A i' j) (seq 0 (S i)) (nth (i * csr_ncols A + j) out f0).
Proof.
  intros threads il sch srt A HI HS HR D A1 A2.
  destruct (through_dense_transpose_ok Z0 cumprod_axis1 (fun T j i v => prod_spec (csr_at T j) (seq 0 (S i)) v) threads il sch srt A HI HS HR D A1 A2 cumprod_axis1_ok)
    as (T & CT & M1 & M2 & AT & out & E & L & H).
  exists out. split; auto. split; auto. intros i j Hi Hj. specialize (H i j Hi Hj). cbv beta in H.
  eapply prod_spec_ext; [|exact H]. intros i' I. apply in_seq in I. cbv beta. apply AT; lia.
Qed.

Lemma Forall2_perm_r : forall {X Y} (R : X -> Y -> Prop) l l', Permutation l l' -> forall ls', Forall2 R ls' l' ->
  exists ls, Permutation ls ls' /\ Forall2 R ls l.
Proof.
  induction 1 as [|x l l' P IH|x y l|l l' l'' P1 IH1 P2 IH2]; intros ls' F2.
  - inversion F2. exists []. auto.
  - inversion F2 as [|a ? ls ? H1 H2]; subst. destruct (IH ls H2) as (ls0 & PL & F0). exists (a :: ls0). auto.
  - inversion F2 as [|a ? ls ? H1 H2]; subst. inversion H2 as [|b ? ls1 ? H3 H4]; subst. exists (b :: a :: ls1). split; [apply perm_swap|auto].
  - destruct (IH2 ls' F2) as (l1 & PL1 & F1). destruct (IH1 l1 F1) as (l2 & PL2 & F3). exists l2. split; auto. etransitivity; eauto.
Qed.

Lemma flat_map_id' : forall {X} (l : list (list X)), flat_map (fun x => x) l = concat l.
Proof. intros. rewrite flat_map_concat_map, map_id. auto. Qed.

(** A sum of sums. *)
Lemma FSum_concat : forall vs (v : F), FSum vs v -> forall ls, Forall2 FSum ls vs -> FSum (concat ls) v.
Proof.
  induction 1 as [z Hz|x|l1 l2 x y _ IH1 _ IH2|l l' x P _ IH]; intros ls FA.
  - inversion FA. apply FSum_zero. auto.
  - inversion FA as [|l ? ls' ? H1 H2]; subst. inversion H2; subst. cbn [concat]. rewrite app_nil_r. auto.
  - apply Forall2_app_inv_r in FA. destruct FA as (ls1 & ls2 & F1 & F2 & ->). rewrite concat_app. apply FSum_add; auto.
  - destruct (Forall2_perm_r FSum l l' P ls FA) as (ls' & PL & FA'). eapply FSum_perm; [|apply IH; exact FA'].
    rewrite <- !flat_map_id'. apply Permutation_flat_map. auto.
Qed.

Lemma FSum_summed : forall {J} (c d : J -> list F) js v, (forall j, In j js -> summed (c j) (d j)) ->
  FSum (flat_map d js) v -> FSum (flat_map c js) v.
Proof.
  intros J c d js v H FS.
  assert (exists ls, Forall2 FSum ls (flat_map d js) /\ concat ls = flat_map c js) as (ls & F2 & <-).
  { clear FS. induction js as [|j js IH]; [exists []; split; auto; constructor|].
    destruct IH as (ls & F2 & E); [intros; apply H; right; auto|]. destruct (H j (or_introl eq_refl)) as [S1 S2]. cbn [flat_map].
    destruct (c j) as [|x xs] eqn:EC.
    - rewrite S1 by auto. exists ls. auto.
    - destruct S2 as (w & FW & ->); [discriminate|]. exists ((x :: xs) :: ls). split; [constructor; auto|]. cbn [concat]. rewrite E. auto. }
  eapply FSum_concat; eauto.
Qed.
End Generic.

(** The result is a dense row-major array: element [(i, j)] is at [i * ncols + j].
    Cumulative sum along axis 1: the sum of the values stored in the cells [(i, 0) .. (i, j)]. *)
Theorem C40_cumsum_axis1 : forall pw (A : Csr (f64 pw)), canonical A -> alloc_ok (csr_nrows A * csr_ncols A) ->
  exists out, cumsum_axis1 A = Ok out /\ length out = (csr_nrows A * csr_ncols A)%nat /\
    forall i j, (i < csr_nrows A)%nat -> (j < csr_ncols A)%nat ->
      FSum (flat_map (fun j' => csr_at A i j') (seq 0 (S j))) (nth (i * csr_ncols A + j) out f0).
Proof. intros pw. apply (cumsum_axis1_ok (n_zero _ (f64_laws pw))). Qed.
Print Assumptions C40_cumsum_axis1.

Theorem C40_cumsum_axis0 : forall pw threads il sch srt (A : Csr (f64 pw)), is_interleaving il -> is_schedule sch -> is_sorter key_le srt ->
  canonical A -> alloc_ok (csr_nrows A) -> alloc_ok (csr_nrows A * csr_ncols A) ->
  exists out, cumsum_axis0 threads il sch srt A = Ok out /\ length out = (csr_nrows A * csr_ncols A)%nat /\
    forall i j, (i < csr_nrows A)%nat -> (j < csr_ncols A)%nat ->
      FSum (flat_map (fun i' => csr_at A i' j) (seq 0 (S i))) (nth (i * csr_ncols A + j) out f0).
Proof. intros. apply (cumsum_axis0_ok (n_zero _ (f64_laws pw))); auto. apply canonical_distinct. auto. Qed.
Print Assumptions C40_cumsum_axis0.

(** Cumulative product: the product of the cells if all of them are stored, 0 otherwise. *)
Theorem C40_cumprod_axis1 : forall pw (A : Csr (f64 pw)), canonical A -> alloc_ok (csr_nrows A * csr_ncols A) ->
  exists out, cumprod_axis1 A = Ok out /\ length out = (csr_nrows A * csr_ncols A)%nat /\
    forall i j, (i < csr_nrows A)%nat -> (j < csr_ncols A)%nat ->
      prod_spec (fun j' => csr_at A i j') (seq 0 (S j)) (nth (i * csr_ncols A + j) out f0).
Proof. intros pw. apply (cumprod_axis1_ok (n_zero _ (f64_laws pw))). Qed.
Print Assumptions C40_cumprod_axis1.

Theorem C40_cumprod_axis0 : forall pw threads il sch srt (A : Csr (f64 pw)), is_interleaving il -> is_schedule sch -> is_sorter key_le srt ->
  canonical A -> alloc_ok (csr_nrows A) -> alloc_ok (csr_nrows A * csr_ncols A) ->
  exists out, cumprod_axis0 threads il sch srt A = Ok out /\ length out = (csr_nrows A * csr_ncols A)%nat /\
    forall i j, (i < csr_nrows A)%nat -> (j < csr_ncols A)%nat ->
      prod_spec (fun i' => csr_at A i' j) (seq 0 (S i)) (nth (i * csr_ncols A + j) out f0).
Proof. intros. apply (cumprod_axis0_ok (n_zero _ (f64_laws pw))); auto. apply canonical_distinct. auto. Qed.
Print Assumptions C40_cumprod_axis0.

(** In exact arithmetic: sums and products of cells, a cell being 0 where nothing is stored. *)
Lemma exact_matrix : forall (g : nat -> nat -> qc) y m n, length y = (m * n)%nat ->
  (forall i j, (i < m)%nat -> (j < n)%nat -> nth (i * n + j) y f0 = g i j) -> y = flat_map (fun i => map (g i) (seq 0 n)) (seq 0 m).
Proof.
  intros g y m n L H.
  assert (LR : forall m, length (flat_map (fun i => map (g i) (seq 0 n)) (seq 0 m)) = (m * n)%nat).
  { intros m'. rewrite flat_map_concat_map, (concat_rect_length (n_zero _ qc_laws) _ n).
    - rewrite map_length, seq_length. auto.
    - apply Forall_forall. intros r I. apply in_map_iff in I. destruct I as (i & <- & _). rewrite map_length, seq_length. auto. }
  apply (nth_ext _ _ f0 f0); [rewrite LR; auto|]. intros p Hp. rewrite L in Hp.
  assert (NN : n <> 0%nat) by nia. pose proof (Nat.div_mod p n NN) as DM. pose proof (Nat.mod_upper_bound p n NN).
  assert (p / n < m)%nat by (apply Nat.div_lt_upper_bound; lia).
  replace p with (p / n * n + p mod n)%nat by lia. rewrite H by auto. rewrite flat_map_concat_map.
  rewrite (nth_concat_rect (F := qc) (n_zero _ qc_laws) _ n) by (rewrite ?map_length, ?seq_length; auto; apply Forall_forall; intros r I; apply in_map_iff in I; destruct I as (i & <- & _); rewrite map_length, seq_length; auto).
  rewrite (nth_indep _ [] (map (g 0%nat) (seq 0 n))) by (rewrite map_length, seq_length; auto).
  rewrite (map_nth (fun i => map (g i) (seq 0 n))), seq_nth by auto.
  rewrite (nth_indep _ f0 (g (0 + p / n)%nat 0%nat)) by (rewrite map_length, seq_length; auto). rewrite map_nth, seq_nth by auto. auto.
Qed.

Corollary C40_exact : forall threads il sch srt (A : Csr qc), is_interleaving il -> is_schedule sch -> is_sorter key_le srt ->
  canonical A -> alloc_ok (csr_nrows A) -> alloc_ok (csr_nrows A * csr_ncols A) ->
  let m := csr_nrows A in let n := csr_ncols A in let a := csr_val f0 A in
  cumsum_axis1 A = Ok (flat_map (fun i => map (fun j => qsum (map (fun j' => a i j') (seq 0 (S j)))) (seq 0 n)) (seq 0 m)) /\
  cumsum_axis0 threads il sch srt A = Ok (flat_map (fun i => map (fun j => qsum (map (fun i' => a i' j) (seq 0 (S i)))) (seq 0 n)) (seq 0 m)) /\
  cumprod_axis1 A = Ok (flat_map (fun i => map (fun j => qprod (map (fun j' => a i j') (seq 0 (S j)))) (seq 0 n)) (seq 0 m)) /\
  cumprod_axis0 threads il sch srt A = Ok (flat_map (fun i => map (fun j => qprod (map (fun i' => a i' j) (seq 0 (S i)))) (seq 0 n)) (seq 0 m)).
Proof.
  intros threads il sch srt A HI HS HR C A1 A2. cbv zeta.
  assert (QV : forall i j, (i < csr_nrows A)%nat -> qsum (csr_at A i j) = csr_val f0 A i j).
  { intros i j Hi. pose proof (canonical_single A C i j Hi) as S. unfold csr_val. destruct (csr_at A i j) as [|x [|y l]]; simpl in S; try lia; auto.
    cbn [qsum fold_right one_or]. apply (Qcplus_0_r x). }
  split; [|split; [|split]].
  - destruct (cumsum_axis1_ok (F := qc) (n_zero _ qc_laws) A C A2) as (out & -> & L & H). f_equal. apply exact_matrix; auto. intros i j Hi Hj.
    rewrite (qsum_cells _ _ _ (H i j Hi Hj)). f_equal. apply map_ext_in. intros j' _. apply QV. auto.
  - destruct (cumsum_axis0_ok (F := qc) (n_zero _ qc_laws) threads il sch srt A HI HS HR (canonical_distinct A C) A1 A2) as (out & -> & L & H). f_equal. apply exact_matrix; auto. intros i j Hi Hj.
    rewrite (qsum_cells _ _ _ (H i j Hi Hj)). f_equal. apply map_ext_in. intros i' I. apply in_seq in I. apply QV. lia.
  - destruct (cumprod_axis1_ok (F := qc) (n_zero _ qc_laws) A C A2) as (out & -> & L & H). f_equal. apply exact_matrix; auto. intros i j Hi Hj.
    apply (prod_spec_exact _ _ _ (H i j Hi Hj)).
  - destruct (cumprod_axis0_ok (F := qc) (n_zero _ qc_laws) threads il sch srt A HI HS HR (canonical_distinct A C) A1 A2) as (out & -> & L & H). f_equal. apply exact_matrix; auto. intros i j Hi Hj.
    apply (prod_spec_exact _ _ _ (H i j Hi Hj)).
Qed.
Print Assumptions C40_exact.

(** COO: duplicates are added up first. *)
Lemma coo_to_csr_summed : forall {F : Fl} srt (A : Coo F), is_sorter key2_le srt -> coo_ok A ->
  exists B : Csr F, coo_to_csr srt A = Ok B /\ canonical B /\ csr_nrows B = coo_nrows A /\ csr_ncols B = coo_ncols A /\
    forall i j, (i < coo_nrows A)%nat -> summed (coo_at A i j) (csr_at B i j).
Proof.
  intros F srt A HS OK. destruct (coo_to_csr_ok srt A HS OK) as (B & E & CB & M1 & M2 & AT).
  exists B. repeat (split; [assumption|]). intros i j Hi.
  destruct (AT i (Z.of_nat j) Hi) as (l & P & EA). unfold csr_at. rewrite EA. destruct (sum_of_FSum _ _ P) as [S1 S2].
  fold (coo_at A i j) in S1, S2. split; auto. intros N. destruct (S2 N) as (v & Ev & FS). eauto.
Qed.

Theorem C40_coo : forall pw srta threads il sch srt (A : Coo (f64 pw)), is_sorter key2_le srta ->
  is_interleaving il -> is_schedule sch -> is_sorter key_le srt ->
  coo_ok A -> alloc_ok (coo_nrows A) -> alloc_ok (coo_nrows A * coo_ncols A) ->
  let n := coo_ncols A in
  exists cell, (forall i j, (i < coo_nrows A)%nat -> summed (coo_at A i j) (cell i j)) /\
  exists s1 s0 p1 p0,
    via_coo srta cumsum_axis1 A = Ok s1 /\ via_coo srta (cumsum_axis0 threads il sch srt) A = Ok s0 /\
    via_coo srta cumprod_axis1 A = Ok p1 /\ via_coo srta (cumprod_axis0 threads il sch srt) A = Ok p0 /\
    Forall (fun y => length y = coo_nrows A * n)%nat [s1; s0; p1; p0] /\
    forall i j, (i < coo_nrows A)%nat -> (j < n)%nat ->
      FSum (flat_map (fun j' => coo_at A i j') (seq 0 (S j))) (nth (i * n + j) s1 f0) /\
      FSum (flat_map (fun i' => coo_at A i' j) (seq 0 (S i))) (nth (i * n + j) s0 f0) /\
      prod_spec (fun j' => cell i j') (seq 0 (S j)) (nth (i * n + j) p1 f0) /\
      prod_spec (fun i' => cell i' j) (seq 0 (S i)) (nth (i * n + j) p0 f0).
Proof.
  intros pw srta threads il sch srt A HA HI HS HR OK A1 A2. cbv zeta.
  destruct (coo_to_csr_summed srta A HA OK) as (R & E & CR & M1 & M2 & SU). exists (csr_at R). split; auto.
  unfold via_coo. rewrite E. cbn [bind]. rewrite <- M1, <- M2 in *.
  pose proof (canonical_distinct R CR) as D. pose proof (n_zero _ (f64_laws pw)) as ZZ.
  destruct (cumsum_axis1_ok ZZ R CR A2) as (s1 & E1 & L1 & H1).
  destruct (cumsum_axis0_ok ZZ threads il sch srt R HI HS HR D A1 A2) as (s0 & E2 & L2 & H2).
  destruct (cumprod_axis1_ok ZZ R CR A2) as (p1 & E3 & L3 & H3).
  destruct (cumprod_axis0_ok ZZ threads il sch srt R HI HS HR D A1 A2) as (p0 & E4 & L4 & H4).
  exists s1, s0, p1, p0. repeat (split; [assumption|]). split; [repeat (constructor; auto)|].
  intros i j Hi Hj. split; [|split; [|split; [apply H3|apply H4]]]; auto.
  - eapply FSum_summed; [|apply (H1 i j Hi Hj)]. intros j' _. cbv beta. apply SU. auto.
  - eapply FSum_summed; [|apply (H2 i j Hi Hj)]. intros i' I. apply in_seq in I. apply SU. lia.
Qed.
Print Assumptions C40_coo.

(** CSC along axis 0. The conversion to CSR may leave the entries of a row in any order;
    the transpose of this path sorts them. *)
Theorem C40_csc_axis0 : forall pw ila scha threads il sch srt (A : Csc (f64 pw)), is_interleaving ila -> is_schedule scha ->
  is_interleaving il -> is_schedule sch -> is_sorter key_le srt ->
  canonical A -> alloc_ok (csc_nrows A) -> alloc_ok (csc_ncols A) -> alloc_ok (csc_nrows A * csc_ncols A) ->
  let n := csc_ncols A in
  exists s p, via_csc ila scha (cumsum_axis0 threads il sch srt) A = Ok s /\ via_csc ila scha (cumprod_axis0 threads il sch srt) A = Ok p /\
    Forall (fun y => length y = csc_nrows A * n)%nat [s; p] /\
    forall i j, (i < csc_nrows A)%nat -> (j < n)%nat ->
      FSum (flat_map (fun i' => csc_at A i' j) (seq 0 (S i))) (nth (i * n + j) s f0) /\
      prod_spec (fun i' => csc_at A i' j) (seq 0 (S i)) (nth (i * n + j) p f0).
Proof.
  intros pw ila scha threads il sch srt A HA HB HI HS HR C A0 A1 A2. cbv zeta.
  destruct (C04_csc_to_csr_preserves_cells _ ila scha A HA HB (can_ok _ C) A1) as (R & E & OR & M1 & M2 & LD & AT).
  assert (D : distinct R).
  { apply distinct_cells; auto. intros i j Hi Hj. fold (csr_at R i j). change (major R) with (csr_nrows R) in Hi. change (minor R) with (csr_ncols R) in Hj.
    rewrite AT by lia. unfold csc_at. apply (canonical_single A C). unfold csc_ncols in *. lia. }
  unfold via_csc. rewrite E. cbn [bind]. pose proof (n_zero _ (f64_laws pw)) as ZZ.
  assert (A0' : alloc_ok (csr_nrows R)) by (rewrite M1; auto). assert (A2' : alloc_ok (csr_nrows R * csr_ncols R)) by (rewrite M1, M2; auto).
  destruct (cumsum_axis0_ok ZZ threads il sch srt R HI HS HR D A0' A2') as (s0 & E2 & L2 & H2).
  destruct (cumprod_axis0_ok ZZ threads il sch srt R HI HS HR D A0' A2') as (p0 & E4 & L4 & H4).
  rewrite M1, M2 in *. exists s0, p0. split; auto. split; auto. split; [repeat (constructor; auto)|].
  intros i j Hi Hj. split.
  - specialize (H2 i j Hi Hj). eapply FSum_perm; [|exact H2]. unfold row_values. erewrite flat_map_in_ext; [apply Permutation_refl|].
    intros i' I. apply in_seq in I. unfold transposed. apply AT; lia.
  - eapply prod_spec_ext; [|apply (H4 i j Hi Hj)]. intros i' I. apply in_seq in I. cbv beta. apply AT; lia.
Qed.
Print Assumptions C40_csc_axis0.

(** CSC along axis 1 is wrong when the parallel conversion leaves a row unsorted: the row
    [1 2] gives [3 3] instead of [1 3]. *)
Theorem C40_csc_axis1_refuted :
  exists (il : list (list (Z * (Z * qc))) -> list (Z * (Z * qc))) sch (A : Csc qc) out,
    is_interleaving il /\ is_schedule sch /\ canonical A /\ csc_nrows A = 1%nat /\ csc_ncols A = 2%nat /\
    via_csc il sch cumsum_axis1 A = Ok out /\
    nth 0 out f0 <> qsum (map (fun j => one_or f0 (csc_at A 0 j)) (seq 0 1)).
Proof.
  exists backward, (fun l => l), (mkCs 2 1 [0; 1; 2] [0; 0] [Q2Qc 1; Q2Qc 2]), [Q2Qc 3; Q2Qc 3].
  split; [apply backward_interleaving|]. split; [apply id_schedule|]. split; [apply canonical_literal; reflexivity|].
  split; [reflexivity|]. split; [reflexivity|]. split.
  - vm_compute. repeat f_equal; apply Qc_is_canon; reflexivity.
  - vm_compute. discriminate.
Qed.
Print Assumptions C40_csc_axis1_refuted.

(** What holds: when the columns are converted in order the result is right.
    Missing: every other schedule of the conversion. *)
Theorem C40_csc_axis1_partial : forall pw scha (A : Csc (f64 pw)), is_schedule scha ->
  canonical A -> alloc_ok (csc_ncols A) -> alloc_ok (csc_nrows A * csc_ncols A) ->
  let n := csc_ncols A in
  exists s p, via_csc (fun ts => concat ts) scha cumsum_axis1 A = Ok s /\ via_csc (fun ts => concat ts) scha cumprod_axis1 A = Ok p /\
    Forall (fun y => length y = csc_nrows A * n)%nat [s; p] /\
    forall i j, (i < csc_nrows A)%nat -> (j < n)%nat ->
      FSum (flat_map (fun j' => csc_at A i j') (seq 0 (S j))) (nth (i * n + j) s f0) /\
      prod_spec (fun j' => csc_at A i j') (seq 0 (S j)) (nth (i * n + j) p f0).
Proof.
  intros pw scha A HB C A1 A2. cbv zeta.
  destruct (C05_sequential_canonical_partial _ scha A HB C A1) as (R & _ & E & CR).
  destruct (C04_csc_to_csr_preserves_cells _ (fun ts => concat ts) scha A (fun ts => Interleave_concat ts) HB (can_ok _ C) A1) as (R' & E' & OR & M1 & M2 & LD & AT).
  rewrite E in E'. injection E' as <-. unfold via_csc. rewrite E. cbn [bind]. pose proof (n_zero _ (f64_laws pw)) as ZZ.
  assert (A2' : alloc_ok (csr_nrows R * csr_ncols R)) by (rewrite M1, M2; auto).
  destruct (cumsum_axis1_ok ZZ R CR A2') as (s1 & E1 & L1 & H1). destruct (cumprod_axis1_ok ZZ R CR A2') as (p1 & E3 & L3 & H3).
  rewrite M1, M2 in *. exists s1, p1. split; auto. split; auto. split; [repeat (constructor; auto)|].
  intros i j Hi Hj. split.
  - specialize (H1 i j Hi Hj). eapply FSum_perm; [|exact H1]. unfold row_values. erewrite flat_map_in_ext; [apply Permutation_refl|].
    intros j' I. apply in_seq in I. apply AT; lia.
  - eapply prod_spec_ext; [|apply (H3 i j Hi Hj)]. intros j' I. apply in_seq in I. cbv beta. apply AT; lia.
Qed.
Print Assumptions C40_csc_axis1_partial.

Definition CW : Cs (f64 pw0) := mkCs 2 3 [0; 3; 5] [0; 1; 2; 0; 2] [fz 2; fz 3; fz 4; fz 5; fz 6].
Lemma CW_canonical : canonical CW. Proof. apply canonical_literal; reflexivity. Qed.
Example C40_example : canonical CW /\ alloc_ok (csr_nrows CW) /\ alloc_ok (csr_nrows CW * csr_ncols CW) /\
  cumsum_axis1 CW = Ok [fz 2; fz 5; fz 9; fz 5; fz 5; fz 11] /\
  cumprod_axis1 CW = Ok [fz 2; fz 6; fz 24; fz 5; fz 0; fz 0] /\
  cumsum_axis0 2 backward (@rev _) sort_pairs CW = Ok [fz 2; fz 3; fz 4; fz 7; fz 3; fz 10] /\
  cumprod_axis0 2 backward (@rev _) sort_pairs CW = Ok [fz 2; fz 3; fz 4; fz 10; fz 0; fz 24].
Proof. split; [apply CW_canonical|]. split; [reflexivity|]. split; [reflexivity|]. vm_compute. auto. Qed.

(** ** Beyond [alloc_ok]: [nrows * ncols] wraps modulo 2^64 in release builds, the output is too short and the
    unchecked store of the loop goes past its end. Three rows of 6148914691236517206
    columns make 2^64 + 2 cells. *)
Lemma canonical_wider : forall {V} m n n' p i (d : list V), (n <= n')%nat -> canonical (mkCs m n p i d) -> canonical (mkCs m n' p i d).
Proof.
  intros V m n n' p i d L [[] S]. constructor; [|exact S]. constructor; auto. cbn [minor idx] in *. intros q j E. apply ok_bound in E. lia.
Qed.
Lemma short_output : forall n, Z.of_nat n = 6148914691236517206 ->
  let A : Csr (f64 pw0) := mkCs 3 n [0; 3; 3; 3] [0; 1; 2] [fz 1; fz 1; fz 1] in
  cumsum_axis1 A = UB /\ cumprod_axis1 A = UB.
Proof.
  intros n E A. unfold cumsum_axis1, cumprod_axis1, dense_rows, A, csr_nrows, csr_ncols. cbn [major minor].
  assert (Y : y_len 3 n = 2%nat) by (unfold y_len, wrap_mul; rewrite E; reflexivity).
  destruct (Nat.eqb_spec n 0) as [->|N0]; [discriminate E|]. cbn [Nat.eqb orb]. rewrite Y.
  unfold par_chunks. destruct (Nat.eqb_spec n 0) as [|_]; [contradiction|]. cbn [repeat length pieces]. rewrite firstn_all2 by (simpl; lia).
  rewrite skipn_all2 by (simpl; lia). cbn [bind combine seq length mapM fst snd].
  split; vm_compute; reflexivity.
Qed.
Theorem C40_wrapping_size_refuted :
  exists A : Csr (f64 pw0), canonical A /\ cumsum_axis1 A = UB /\ cumprod_axis1 A = UB.
Proof.
  exists (mkCs 3 (Z.to_nat 6148914691236517206) [0; 3; 3; 3] [0; 1; 2] [fz 1; fz 1; fz 1]). split.
  - apply (canonical_wider 3 3); [apply Nat2Z.inj_le; rewrite Z2Nat.id by discriminate; discriminate|]. apply canonical_literal; reflexivity.
  - apply short_output. apply Z2Nat.id. discriminate.
Qed.
Print Assumptions C40_wrapping_size_refuted.
