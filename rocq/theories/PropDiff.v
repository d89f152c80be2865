(** C41: discrete differences. *)
Require Import List ZArith Bool Arith Lia Permutation QArith Qcanon.
Require Import Verif.Res Verif.Values Verif.Spec Verif.SpecReduce Verif.SpecDiff Verif.Mem Verif.Lists Verif.CsLib Verif.Laws Verif.MConvert Verif.PConvert Verif.PConvert2 Verif.PConvert3 Verif.MAcc Verif.PAcc Verif.MCum Verif.PCum Verif.PDiff Verif.Witness Verif.PropConvert Verif.PGroup Verif.PropStat Verif.PropCum.
Import ListNotations.
Local Open Scope Z_scope.

(** Order 0 along axis 1 drops the stored zeros and changes nothing else. *)
Definition start {F : Fl} (n : nat) (vs : list F) : list F :=
  if (n =? 0)%nat then filter (fun v => negb (feqb v f0)) vs else vs.

Theorem C41_diff_csr_axis1 : forall pw sch srt (A : Csr (f64 pw)) n, is_schedule sch -> is_sorter key_le srt -> canonical A ->
  exists B : Csr (f64 pw), diff_csr_axis1 sch srt A n = Ok B /\ canonical B /\
    csr_nrows B = csr_nrows A /\ csr_ncols B = (csr_ncols A - n)%nat /\
    Forall (fun v => feqb v f0 = false) (dat B) /\
    (forall i, (i < csr_nrows A)%nat -> (n < csr_ncols A)%nat ->
      diff_of n (csr_ncols A) (fun j => start n (csr_at A i j)) (fun j => csr_at B i j)).
Proof.
  intros pw sch srt A n HS HR C. destruct (diff_csr_axis1_ok sch srt A n HS HR (can_ok _ C)) as (B & E & OB & M1 & M2 & CB & NZ & H).
  exists B. split; auto. split; auto. repeat (split; [assumption|]). intros i Hi Hn. destruct (H i Hi Hn) as [H0 H1].
  unfold start. destruct (Nat.eqb_spec n 0) as [->|N]; [apply diff_done; intros j _; apply H0; auto|apply H1; lia].
Qed.
Print Assumptions C41_diff_csr_axis1.

Theorem C41_diff_csr_axis0 : forall pw threads il sch1 srt1 sch srt sch2 srt2 (A : Csr (f64 pw)) n,
  is_interleaving il -> is_schedule sch1 -> is_sorter key_le srt1 -> is_schedule sch -> is_sorter key_le srt -> is_schedule sch2 -> is_sorter key_le srt2 ->
  canonical A -> alloc_ok (csr_nrows A) -> alloc_ok (csr_ncols A) ->
  exists B : Csr (f64 pw), diff_csr_axis0 threads il sch1 srt1 sch srt sch2 srt2 A n = Ok B /\ canonical B /\
    csr_nrows B = (csr_nrows A - n)%nat /\ csr_ncols B = csr_ncols A /\
    ((0 < n)%nat -> Forall (fun v => feqb v f0 = false) (dat B)) /\
    (forall j, (j < csr_ncols A)%nat -> (n < csr_nrows A)%nat ->
      diff_of n (csr_nrows A) (fun i => csr_at A i j) (fun i => csr_at B i j)).
Proof.
  intros pw threads il sch1 srt1 sch srt sch2 srt2 A n HI H1 H2 H3 H4 H5 H6 C A1 A2.
  destruct (diff_csr_axis0_ok threads il sch1 srt1 sch srt sch2 srt2 A n HI H1 H2 H3 H4 H5 H6 (canonical_distinct A C) A1 A2) as (B & E & OB & M1 & M2 & CB & NZ & H).
  exists B. split; auto. split; auto. repeat (split; [assumption|]). intros j Hj Hn. destruct (H j Hj Hn) as [G0 G1].
  destruct (Nat.eqb_spec n 0) as [->|N]; [apply diff_done; intros i _; apply G0; auto|apply G1; lia].
Qed.
Print Assumptions C41_diff_csr_axis0.

(** CSC: the same cells; the order of the entries of a column depends on the schedule of
    the last conversion (C41_csc_canonical_refuted). *)
Theorem C41_diff_csc_axis1 : forall pw ila scha sch srt ilb schb (A : Csc (f64 pw)) n,
  is_interleaving ila -> is_schedule scha -> is_schedule sch -> is_sorter key_le srt -> is_interleaving ilb -> is_schedule schb ->
  canonical A -> alloc_ok (csc_nrows A) -> alloc_ok (csc_ncols A) ->
  exists B : Csc (f64 pw), diff_csc_axis1 ila scha sch srt ilb schb A n = Ok B /\ cs_ok B /\
    csc_nrows B = csc_nrows A /\ csc_ncols B = (csc_ncols A - n)%nat /\
    (forall i, (i < csc_nrows A)%nat -> (n < csc_ncols A)%nat ->
      diff_of n (csc_ncols A) (fun j => start n (csc_at A i j)) (fun j => csc_at B i j)).
Proof.
  intros pw ila scha sch srt ilb schb A n H1 H2 H3 H4 H5 H6 C A1 A2.
  destruct (C04_csc_to_csr_preserves_cells _ ila scha A H1 H2 (can_ok _ C) A2) as (R & E & OR & M1 & M2 & _ & AT).
  unfold diff_csc_axis1. rewrite E. cbn [bind].
  destruct (diff_csr_axis1_ok sch srt R n H3 H4 OR) as (D & -> & OD & N1 & N2 & _ & NZ & H). cbn [bind].
  destruct (C04_csr_to_csc_preserves_cells _ ilb schb D H5 H6 OD) as (B & E' & OB & K1 & K2 & _ & AT'); [rewrite N1, M1; auto|].
  exists B. split; auto. split; auto. split; [congruence|]. split; [congruence|]. intros i Hi Hn.
  destruct (H i ltac:(rewrite M1; auto) ltac:(rewrite M2; auto)) as [G0 G1]. rewrite M2 in *.
  unfold start. destruct (Nat.eqb_spec n 0) as [->|N].
  - apply diff_done. intros j Hj. rewrite AT', <- AT by lia. apply G0. auto.
  - eapply diff_of_ext; [apply G1; lia|auto| |]; cbv beta; intros j Hj; [apply AT; lia|symmetry; apply AT'; lia].
Qed.
Print Assumptions C41_diff_csc_axis1.

Theorem C41_diff_csc_axis0 : forall pw ila scha threads il sch1 srt1 sch srt sch2 srt2 ilb schb (A : Csc (f64 pw)) n,
  is_interleaving ila -> is_schedule scha -> is_interleaving il -> is_schedule sch1 -> is_sorter key_le srt1 ->
  is_schedule sch -> is_sorter key_le srt -> is_schedule sch2 -> is_sorter key_le srt2 -> is_interleaving ilb -> is_schedule schb ->
  canonical A -> alloc_ok (csc_nrows A) -> alloc_ok (csc_ncols A) ->
  exists B : Csc (f64 pw), diff_csc_axis0 ila scha threads il sch1 srt1 sch srt sch2 srt2 ilb schb A n = Ok B /\ cs_ok B /\
    csc_nrows B = (csc_nrows A - n)%nat /\ csc_ncols B = csc_ncols A /\
    (forall j, (j < csc_ncols A)%nat -> (n < csc_nrows A)%nat ->
      diff_of n (csc_nrows A) (fun i => csc_at A i j) (fun i => csc_at B i j)).
Proof.
  intros pw ila scha threads il sch1 srt1 sch srt sch2 srt2 ilb schb A n H1 H2 H3 H4 H5 H6 H7 H8 H9 HA HB C A1 A2.
  destruct (C04_csc_to_csr_preserves_cells _ ila scha A H1 H2 (can_ok _ C) A2) as (R & E & OR & M1 & M2 & _ & AT).
  assert (D0 : distinct R).
  { apply distinct_cells; auto. intros i j Hi Hj. fold (csr_at R i j). change (major R) with (csr_nrows R) in Hi. change (minor R) with (csr_ncols R) in Hj.
    rewrite AT by lia. unfold csc_at. apply (canonical_single A C). unfold csc_ncols in *. lia. }
  unfold diff_csc_axis0. rewrite E. cbn [bind].
  destruct (diff_csr_axis0_ok threads il sch1 srt1 sch srt sch2 srt2 R n H3 H4 H5 H6 H7 H8 H9 D0) as (D & -> & OD & N1 & N2 & _ & NZ & H);
    [rewrite M1; auto|rewrite M2; auto|]. cbn [bind].
  destruct (C04_csr_to_csc_preserves_cells _ ilb schb D HA HB OD) as (B & E' & OB & K1 & K2 & _ & AT'); [unfold alloc_ok in *; rewrite N1, M1; lia|].
  exists B. split; auto. split; auto. split; [congruence|]. split; [congruence|]. intros j Hj Hn.
  destruct (H j ltac:(rewrite M2; auto) ltac:(rewrite M1; auto)) as [G0 G1]. rewrite M1 in *.
  destruct (Nat.eqb_spec n 0) as [->|N].
  - apply diff_done. intros i Hi. rewrite AT', <- AT by lia. apply G0. auto.
  - eapply diff_of_ext; [apply G1; lia|auto| |]; cbv beta; intros i Hi; [apply AT; lia|symmetry; apply AT'; lia].
Qed.
Print Assumptions C41_diff_csc_axis0.

(** COO: duplicates are added up, then the differences are taken. *)
Theorem C41_diff_coo_axis1 : forall pw srta sch srt schb (A : Coo (f64 pw)) n,
  is_sorter key2_le srta -> is_schedule sch -> is_sorter key_le srt -> is_schedule schb -> coo_ok A -> alloc_ok (coo_nrows A) ->
  exists cell, (forall i j, (i < coo_nrows A)%nat -> summed (coo_at A i j) (cell i j)) /\
  exists B : Coo (f64 pw), diff_coo_axis1 srta sch srt schb A n = Ok B /\ coo_ok B /\
    coo_nrows B = coo_nrows A /\ coo_ncols B = (coo_ncols A - n)%nat /\ Forall (fun v => feqb v f0 = false) (coo_data B) /\
    (forall i, (i < coo_nrows A)%nat -> (n < coo_ncols A)%nat ->
      diff_of n (coo_ncols A) (fun j => start n (cell i j)) (fun j => coo_at B i j)).
Proof.
  intros pw srta sch srt schb A n H1 H2 H3 H4 OK AL. destruct (coo_to_csr_summed srta A H1 OK) as (R & E & CR & M1 & M2 & SU).
  exists (csr_at R). split; auto. unfold diff_coo_axis1. rewrite E. cbn [bind].
  destruct (diff_csr_axis1_ok sch srt R n H2 H3 (can_ok _ CR)) as (D & -> & OD & N1 & N2 & _ & NZ & H). cbn [bind].
  destruct (C06_csr_to_coo _ schb D H4 OD) as (B & E' & OB & K1 & K2 & _ & KD & AT); [rewrite N1, M1; auto|].
  exists B. split; auto. split; auto. split; [congruence|]. split; [congruence|]. split; [rewrite KD; auto|]. intros i Hi Hn.
  destruct (H i ltac:(rewrite M1; auto) ltac:(rewrite M2; auto)) as [G0 G1]. rewrite M2 in *.
  unfold start. destruct (Nat.eqb_spec n 0) as [->|N].
  - apply diff_done. intros j Hj. rewrite AT by lia. apply G0. auto.
  - eapply diff_of_ext; [apply G1; lia|auto|auto|]; cbv beta; intros j Hj; symmetry; apply AT; lia.
Qed.
Print Assumptions C41_diff_coo_axis1.

Theorem C41_diff_coo_axis0 : forall pw srta threads il sch1 srt1 sch srt sch2 srt2 schb (A : Coo (f64 pw)) n,
  is_sorter key2_le srta -> is_interleaving il -> is_schedule sch1 -> is_sorter key_le srt1 ->
  is_schedule sch -> is_sorter key_le srt -> is_schedule sch2 -> is_sorter key_le srt2 -> is_schedule schb ->
  coo_ok A -> alloc_ok (coo_nrows A) -> alloc_ok (coo_ncols A) ->
  exists cell, (forall i j, (i < coo_nrows A)%nat -> summed (coo_at A i j) (cell i j)) /\
  exists B : Coo (f64 pw), diff_coo_axis0 srta threads il sch1 srt1 sch srt sch2 srt2 schb A n = Ok B /\ coo_ok B /\
    coo_nrows B = (coo_nrows A - n)%nat /\ coo_ncols B = coo_ncols A /\
    ((0 < n)%nat -> Forall (fun v => feqb v f0 = false) (coo_data B)) /\
    (forall j, (j < coo_ncols A)%nat -> (n < coo_nrows A)%nat ->
      diff_of n (coo_nrows A) (fun i => cell i j) (fun i => coo_at B i j)).
Proof.
  intros pw srta threads il sch1 srt1 sch srt sch2 srt2 schb A n H1 H3 H4 H5 H6 H7 H8 H9 HB OK A1 A2.
  destruct (coo_to_csr_summed srta A H1 OK) as (R & E & CR & M1 & M2 & SU).
  exists (csr_at R). split; auto. unfold diff_coo_axis0. rewrite E. cbn [bind].
  destruct (diff_csr_axis0_ok threads il sch1 srt1 sch srt sch2 srt2 R n H3 H4 H5 H6 H7 H8 H9 (canonical_distinct R CR)) as (D & -> & OD & N1 & N2 & _ & NZ & H);
    [rewrite M1; auto|rewrite M2; auto|]. cbn [bind].
  destruct (C06_csr_to_coo _ schb D HB OD) as (B & E' & OB & K1 & K2 & _ & KD & AT); [unfold alloc_ok in *; rewrite N1, M1; lia|].
  exists B. split; auto. split; auto. split; [congruence|]. split; [congruence|]. split; [rewrite KD; auto|]. intros j Hj Hn.
  destruct (H j ltac:(rewrite M2; auto) ltac:(rewrite M1; auto)) as [G0 G1]. rewrite M1 in *.
  destruct (Nat.eqb_spec n 0) as [->|N].
  - apply diff_done. intros i Hi. rewrite AT by lia. apply G0. auto.
  - eapply diff_of_ext; [apply G1; lia|auto|auto|]; cbv beta; intros i Hi; symmetry; apply AT; lia.
Qed.
Print Assumptions C41_diff_coo_axis0.

Theorem C41_csc_canonical_refuted :
  exists (ilb : list (list (Z * (Z * f64 pw0))) -> list (Z * (Z * f64 pw0))) (A : Csc (f64 pw0)) B,
    is_interleaving ilb /\ canonical A /\
    diff_csc_axis1 (fun ts => concat ts) (fun l => l) (fun l => l) sort_pairs ilb (fun l => l) A 1 = Ok B /\ ~ canonical B.
Proof.
  exists backward, (mkCs 2 2 [0; 2; 2] [0; 1] [fz 1; fz 2]), (mkCs 1 2 [0; 2] [1; 0] [fz (-2); fz (-1)]).
  split; [apply backward_interleaving|]. split; [apply canonical_literal; reflexivity|]. split; [vm_compute; reflexivity|].
  intros C. pose proof (can_sorted _ C 0%nat 0 2 0%nat 1%nat 1 0 eq_refl eq_refl) as H. simpl in H.
  specialize (H ltac:(lia) ltac:(lia) ltac:(lia) eq_refl eq_refl). lia.
Qed.
Print Assumptions C41_csc_canonical_refuted.

(** ** Exact arithmetic *)
Lemma iter_succ_r : forall {X} n (f : X -> X) x, Nat.iter (S n) f x = Nat.iter n f (f x).
Proof. intros X n f x. induction n; auto. change (f (Nat.iter (S n) f x) = f (Nat.iter n f (f x))). rewrite IHn. auto. Qed.

Lemma qdelta_ext : forall n w f g j, (forall k, (k < w)%nat -> f k = g k) -> (j + n < w)%nat -> Nat.iter n qdelta f j = Nat.iter n qdelta g j.
Proof.
  intros n w f g j H. revert j. induction n; intros j L.
  - apply H. lia.
  - change (qdelta (Nat.iter n qdelta f) j = qdelta (Nat.iter n qdelta g) j). unfold qdelta at 1 3. rewrite !IHn by lia. auto.
Qed.

Lemma combined_exact : forall (vs out : list qc), combined vs out -> qsum out = qsum vs.
Proof.
  intros vs out [H1 H2]. destruct vs as [|v vs]. { rewrite H1; auto. }
  destruct H2 as (s & FS & ->); [congruence|]. apply (FSum_exact qc_elaws) in FS. change (s = qsum (v :: vs)) in FS. rewrite <- FS.
  destruct (feqb s f0) eqn:E. { apply (e_eqb _ qc_elaws) in E. subst s. auto. } apply (Qcplus_0_r s).
Qed.

Lemma summed_exact : forall (vs out : list qc), summed vs out -> qsum out = qsum vs.
Proof.
  intros vs out [H1 H2]. destruct vs as [|v vs]. { rewrite H1; auto. }
  destruct H2 as (s & FS & ->); [congruence|]. apply (FSum_exact qc_elaws) in FS. rewrite FS. apply (Qcplus_0_r (qsum (v :: vs))).
Qed.

Lemma diff_of_exact : forall n w (c c' : nat -> list qc), diff_of n w c c' -> forall j, (j + n < w)%nat ->
  qsum (c' j) = Nat.iter n qdelta (fun k => qsum (c k)) j.
Proof.
  induction 1 as [w c c' H|n w c c1 c' H D IH]; intros j L.
  - cbn [Nat.iter]. rewrite H by lia. auto.
  - rewrite iter_succ_r. rewrite IH by lia. apply (qdelta_ext n (w - 1)); [|lia]. intros k Hk. cbv beta.
    rewrite (combined_exact _ _ (H k ltac:(lia))). unfold qdelta.
    assert (G : forall l1 l2 : list qc, qsum (map fneg l1 ++ l2) = (qsum l2 - qsum l1)%Qc).
    { induction l1 as [|x l1 IH1]; intros l2. { cbn [map app]. change (qsum []) with (Q2Qc 0). ring. }
      cbn [map app]. change (qsum (fneg x :: map fneg l1 ++ l2)) with ((- x) + qsum (map fneg l1 ++ l2))%Qc. rewrite IH1.
      change (qsum (x :: l1)) with (x + qsum l1)%Qc. ring. }
    apply G.
Qed.

Lemma qsum_start : forall n (vs : list qc), qsum (start n vs) = qsum vs.
Proof.
  intros n vs. unfold start. destruct (n =? 0)%nat; auto. induction vs as [|v vs IH]; auto. cbn [filter].
  destruct (feqb v f0) eqn:E; cbn [negb].
  - apply (e_eqb _ qc_elaws) in E. subst v. rewrite IH. change (qsum (f0 :: vs)) with (Q2Qc 0 + qsum vs)%Qc. ring.
  - change (v + qsum (filter (fun v => negb (feqb v f0)) vs) = v + qsum vs)%Qc. rewrite IH. auto.
Qed.

Corollary C41_exact : forall threads il sch1 srt1 sch srt sch2 srt2 (A : Csr qc) n,
  is_interleaving il -> is_schedule sch1 -> is_sorter key_le srt1 -> is_schedule sch -> is_sorter key_le srt -> is_schedule sch2 -> is_sorter key_le srt2 ->
  canonical A -> alloc_ok (csr_nrows A) -> alloc_ok (csr_ncols A) ->
  exists B1 B0 : Csr qc, diff_csr_axis1 sch srt A n = Ok B1 /\ diff_csr_axis0 threads il sch1 srt1 sch srt sch2 srt2 A n = Ok B0 /\
    canonical B1 /\ canonical B0 /\
    csr_nrows B1 = csr_nrows A /\ csr_ncols B1 = (csr_ncols A - n)%nat /\ csr_nrows B0 = (csr_nrows A - n)%nat /\ csr_ncols B0 = csr_ncols A /\
    (forall i j, (i < csr_nrows B1)%nat -> (j < csr_ncols B1)%nat ->
      csr_val f0 B1 i j = Nat.iter n qdelta (fun j' => csr_val f0 A i j') j) /\
    (forall i j, (i < csr_nrows B0)%nat -> (j < csr_ncols B0)%nat ->
      csr_val f0 B0 i j = Nat.iter n qdelta (fun i' => csr_val f0 A i' j) i).
Proof.
  intros threads il sch1 srt1 sch srt sch2 srt2 A n HI H1 H2 H3 H4 H5 H6 C A1 A2.
  destruct (diff_csr_axis1_ok sch srt A n H3 H4 (can_ok _ C)) as (B1 & E1 & O1 & M1 & M2 & C1 & _ & G1).
  destruct (diff_csr_axis0_ok threads il sch1 srt1 sch srt sch2 srt2 A n HI H1 H2 H3 H4 H5 H6 (canonical_distinct A C) A1 A2) as (B0 & E0 & O0 & N1 & N2 & C0 & _ & G0).
  exists B1, B0. split; auto. split; auto. split; auto. split; auto. repeat (split; [assumption|]).
  assert (QV : forall (X : Csr qc) i j, canonical X -> (i < csr_nrows X)%nat -> csr_val f0 X i j = qsum (csr_at X i j)).
  { intros X i j CX Hi. pose proof (canonical_single X CX i j Hi) as SG. unfold csr_val. destruct (csr_at X i j) as [|x [|y l]]; simpl in SG; try lia; auto.
    cbn [qsum fold_right one_or]. symmetry. apply (Qcplus_0_r x). }
  split; intros i j Hi Hj; rewrite QV by auto.
  - destruct (G1 i ltac:(lia) ltac:(lia)) as [K0 K1]. destruct (Nat.eqb_spec n 0) as [->|N].
    + change (qsum (csr_at B1 i j) = csr_val f0 A i j). rewrite K0, QV by (auto; lia). apply (qsum_start 0).
    + rewrite (diff_of_exact _ _ _ _ (K1 ltac:(lia))) by lia. apply (qdelta_ext n (csr_ncols A)); [|lia]. intros k _. symmetry. apply QV; auto. lia.
  - destruct (G0 j ltac:(lia) ltac:(lia)) as [K0 K1]. destruct (Nat.eqb_spec n 0) as [->|N].
    + change (qsum (csr_at B0 i j) = csr_val f0 A i j). rewrite K0, QV by (auto; lia). auto.
    + rewrite (diff_of_exact _ _ _ _ (K1 ltac:(lia))) by lia. apply (qdelta_ext n (csr_nrows A)); [|lia]. intros k Hk. symmetry. apply QV; auto.
Qed.
Print Assumptions C41_exact.

(** Second difference of the rows [2 3 4] and [5 0 6]: 0 is not stored, 11 is. *)
Example C41_example : canonical CW /\ alloc_ok (csr_nrows CW) /\ alloc_ok (csr_ncols CW) /\
  diff_csr_axis1 (@rev _) sort_pairs CW 1 = Ok (mkCs 2 2 [0; 2; 4] [0; 1; 0; 1] [fz 1; fz 1; fz (-5); fz 6]) /\
  diff_csr_axis1 (@rev _) sort_pairs CW 2 = Ok (mkCs 2 1 [0; 0; 1] [0] [fz 11]) /\
  diff_csr_axis0 2 backward (@rev _) sort_pairs (@rev _) sort_pairs (@rev _) sort_pairs CW 1 = Ok (mkCs 1 3 [0; 3] [0; 1; 2] [fz 3; fz (-3); fz 2]).
Proof. split; [apply CW_canonical|]. split; [reflexivity|]. split; [reflexivity|]. vm_compute. auto. Qed.
