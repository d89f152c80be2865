(** Proofs about the functions of the extension module (MNative.v). *)
Require Import List ZArith Bool Arith Lia Permutation Sorted.
Require Import ZifyBool ZifyNat.
Require Import Verif.Res Verif.Values Verif.Spec Verif.Mem Verif.Lists Verif.CsLib Verif.Laws Verif.NdLib Verif.SpecPy Verif.MCore Verif.PCore Verif.MElementwise Verif.MConvert Verif.PConvert Verif.PConvert2 Verif.PConvert3 Verif.PTrans Verif.MScalar Verif.PScalar.
Require Import Verif.MHash Verif.MAcc Verif.MLinalg Verif.MReduce Verif.MStat Verif.MCum Verif.MNd Verif.MNd2 Verif.PNd Verif.PropConvert Verif.MPy Verif.PBroadcast Verif.MObj Verif.SpecObj Verif.PSafe Verif.PSafe2 Verif.PSafe3 Verif.PSafe4 Verif.PObj Verif.PDense Verif.MNative Verif.SpecNative.
Import ListNotations.
Local Open Scope Z_scope.

Section Load.
Context {F : Fl}.

(** ** Loading *)
Definition core_value (c : core F) : value F :=
  match c with
  | KCsr A => VCsr (mkPyCs A (Some A))
  | KCsc A => VCsc (mkPyCs A (Some A))
  | KCoo A => VCoo (mkPyCoo A (Some A))
  | KNd A => VNd A
  end.
Definition the_core (x : raw F) : core F :=
  match x with
  | RCsr nr nc p i d => KCsr (mkCs nr nc p i d)
  | RCsc nr nc p i d => KCsc (mkCs nc nr p i d)
  | RCoo nr nc r c d => KCoo (mkCoo nr nc r c d)
  | RNd sh i d => KNd (mkNd sh i d)
  end.

Lemma load_value : forall (x : raw F) ck, small x -> numpy_arrays x ->
  safe (fun c => c = the_core x) (load x ck).
Proof.
  intros x ck S N. destruct x as [nr nc p i d|nr nc p i d|nr nc r c d|sh i d]; cbn [load the_core].
  - unfold load_csr. destruct (csr_from_parts nr nc p i d ck) eqn:E; [|exact I]. apply cs_from_parts_value in E. subst. reflexivity.
  - unfold load_csc. destruct (csc_from_parts nr nc p i d ck) eqn:E; [|exact I]. apply cs_from_parts_value in E. subst. reflexivity.
  - unfold load_coo. eapply safe_bind with (P := fun A => A = mkCoo nr nc r c d); [|intros A ->; reflexivity].
    eapply safe_bind; [apply coo_from_parts_shape|]. intros [B|] E; [|exact I]. apply E. reflexivity.
  - unfold load_nd. eapply safe_bind with (P := fun A => A = mkNd sh i d); [|intros A ->; reflexivity]. apply safe_assert. intros _.
    destruct N as [_ [N1 N2]]. unfold alloc_ok in N2.
    assert (L : Z.of_nat (length i) <= usize_max) by (unfold i64_max, usize_max in *; lia).
    destruct ck.
    + destruct (nd_from_parts_iff sh i d N1 L) as (r & E & H & H'). rewrite E. cbn [bind].
      destruct r as [B|]; [|exact I]. unfold nd_from_parts in E. repeat (match type of E with (if ?c then _ else _) = _ => destruct c; [discriminate|] end).
      destruct (allM _ _) as [[]| | |]; try discriminate. cbn [bind] in E. injection E as <-. reflexivity.
    + destruct (nd_from_parts_unchecked_iff sh i d L) as (r & E & H & H'). rewrite E. cbn [bind].
      destruct r as [B|]; [|exact I]. unfold nd_from_parts in E. repeat (match type of E with (if ?c then _ else _) = _ => destruct c; [discriminate|] end).
      cbn [bind] in E. injection E as <-. reflexivity.
Qed.
Lemma load_ok : forall (x : raw F) ck, small x -> numpy_arrays x -> valid x -> load x ck = Ok (the_core x).
Proof.
  intros x ck S N V. destruct x as [nr nc p i d|nr nc p i d|nr nc r c d|sh i d]; cbn [load the_core].
  - unfold load_csr, csr_from_parts. destruct N as [[_ NP] [NI _]]. cbn [valid] in V.
    assert (L : Z.of_nat (length p) <= usize_max) by (unfold alloc_ok, i64_max, usize_max in *; lia).
    destruct ck.
    + pose proof (from_parts_check _ V L) as E. cbn [major minor ptr idx dat] in E. rewrite E. reflexivity.
    + pose proof (from_parts_ok _ (can_ok _ V)) as E. cbn [major minor ptr idx dat] in E. rewrite E; [reflexivity|].
      apply can_ok in V. pose proof (ok_ptr_len _ V) as LP. cbn [ptr major] in LP. unfold alloc_ok in *. lia.
  - unfold load_csc, csc_from_parts. destruct N as [[_ NP] [NI _]]. cbn [valid] in V.
    assert (L : Z.of_nat (length p) <= usize_max) by (unfold alloc_ok, i64_max, usize_max in *; lia).
    destruct ck.
    + pose proof (from_parts_check _ V L) as E. cbn [major minor ptr idx dat] in E. rewrite E. reflexivity.
    + pose proof (from_parts_ok _ (can_ok _ V)) as E. cbn [major minor ptr idx dat] in E. rewrite E; [reflexivity|].
      apply can_ok in V. pose proof (ok_ptr_len _ V) as LP. cbn [ptr major] in LP. unfold alloc_ok in *. lia.
  - unfold load_coo. pose proof (coo_from_parts_ok _ ck V) as E. cbn [coo_nrows coo_ncols coo_row coo_col coo_data] in E. rewrite E. reflexivity.
  - destruct V as [V NN]. unfold load_nd. replace (forallb (Z.leb 0) sh) with true.
    2:{ symmetry. apply forallb_forall. intros z I. rewrite Forall_forall in NN. apply NN in I. lia. }
    destruct N as [_ [N1 N2]]. unfold alloc_ok in N2.
    assert (L : Z.of_nat (length i) <= usize_max) by (unfold i64_max, usize_max in *; lia).
    destruct ck.
    + destruct (nd_from_parts_iff sh i d N1 L) as (r & E & H & H'). rewrite E. rewrite (proj2 H V). reflexivity.
    + destruct (nd_from_parts_unchecked_iff sh i d L) as (r & E & H & H'). rewrite E. rewrite (proj2 H); [reflexivity|].
      split; [apply (nd_ndim _ V)|]. apply (nd_len _ V).
Qed.
Lemma load_rejects : forall x : raw F, small x -> numpy_arrays x -> ~ valid x -> load x true = Panic.
Proof.
  intros x S N V. destruct x as [nr nc p i d|nr nc p i d|nr nc r c d|sh i d]; cbn [load].
  - unfold load_csr, csr_from_parts. destruct N as [[_ NP] [NI _]]. cbn [valid] in V.
    assert (L : Z.of_nat (length p) <= usize_max) by (unfold alloc_ok, i64_max, usize_max in *; lia).
    destruct (cs_from_parts nr nc p i d true) as [B|] eqn:E; [|reflexivity]. exfalso. apply V. apply (cs_from_parts_iff nr nc p i d L NI). eauto.
  - unfold load_csc, csc_from_parts. destruct N as [[_ NP] [NI _]]. cbn [valid] in V.
    assert (L : Z.of_nat (length p) <= usize_max) by (unfold alloc_ok, i64_max, usize_max in *; lia).
    destruct (cs_from_parts nc nr p i d true) as [B|] eqn:E; [|reflexivity]. exfalso. apply V. apply (cs_from_parts_iff nc nr p i d L NI). eauto.
  - destruct N as [[N1 _] [N2 _]]. unfold load_coo. destruct (coo_from_parts_iff nr nc r c d N1 N2) as (o & E & _ & H). rewrite E.
    rewrite (proj2 H V). reflexivity.
  - unfold load_nd. destruct (forallb (Z.leb 0) sh) eqn:NN; [|reflexivity].
    destruct N as [_ [N1 N2]]. unfold alloc_ok in N2.
    assert (L : Z.of_nat (length i) <= usize_max) by (unfold i64_max, usize_max in *; lia).
    destruct (nd_from_parts_iff sh i d N1 L) as (r & E & _ & H). rewrite E. rewrite (proj2 H); [reflexivity|].
    intros OK. apply V. split; [exact OK|]. apply Forall_forall. intros z I. rewrite forallb_forall in NN. apply NN in I. lia.
Qed.
(** With [check] the loaded matrix is valid and small. *)
Lemma load_checked : forall x : raw F, small x -> numpy_arrays x ->
  load x true = Panic \/ (load x true = Ok (the_core x) /\ valid x).
Proof.
  intros x S N. pose proof (load_value x true S N) as V.
  destruct (load x true) as [c| | |] eqn:E; try contradiction; auto. right. cbn in V. subst c. split; [reflexivity|].
  destruct x as [nr nc p i d|nr nc p i d|nr nc r c d|sh i d]; cbn [load the_core] in E.
  - unfold load_csr, csr_from_parts in E. destruct N as [[_ NP] [NI _]].
    assert (L : Z.of_nat (length p) <= usize_max) by (unfold alloc_ok, i64_max, usize_max in *; lia).
    apply (cs_from_parts_iff nr nc p i d L NI). destruct (cs_from_parts nr nc p i d true); [eauto|discriminate].
  - unfold load_csc, csc_from_parts in E. destruct N as [[_ NP] [NI _]].
    assert (L : Z.of_nat (length p) <= usize_max) by (unfold alloc_ok, i64_max, usize_max in *; lia).
    apply (cs_from_parts_iff nc nr p i d L NI). destruct (cs_from_parts nc nr p i d true); [eauto|discriminate].
  - destruct N as [[N1 _] [N2 _]]. unfold load_coo in E. destruct (coo_from_parts_iff nr nc r c d N1 N2) as (o & E' & H & _). rewrite E' in E.
    destruct o as [B|]; [|discriminate]. cbn in E. injection E as ->. apply H. reflexivity.
  - unfold load_nd in E. destruct (forallb (Z.leb 0) sh) eqn:NN; [|discriminate].
    destruct N as [_ [N1 N2]]. unfold alloc_ok in N2.
    assert (L : Z.of_nat (length i) <= usize_max) by (unfold i64_max, usize_max in *; lia).
    destruct (nd_from_parts_iff sh i d N1 L) as (r & E' & H & _). rewrite E' in E. cbn in E. destruct r as [B|]; [|discriminate]. injection E as ->.
    split; [apply H; reflexivity|]. apply Forall_forall. intros z I. rewrite forallb_forall in NN. apply NN in I. lia.
Qed.
Lemma valid_intact : forall x : raw F, valid x -> intact (core_value (the_core x)).
Proof.
  intros [nr nc p i d|nr nc p i d|nr nc r c d|sh i d] V; cbn [the_core core_value intact py_arrays py_handle pyc_arrays pyc_handle] in *.
  - split; [apply can_ok; exact V|]. intros H [= <-]. auto 6.
  - split; [apply can_ok; exact V|]. intros H [= <-]. auto 6.
  - split; [exact V|]. intros H [= <-]. auto 6.
  - apply V.
Qed.
Lemma valid_kept : forall x : raw F, small x -> valid x -> kept (core_value (the_core x)).
Proof. intros x S V. split; [apply valid_intact; exact V|]. destruct x; exact S. Qed.
End Load.
