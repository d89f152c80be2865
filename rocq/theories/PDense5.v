(** Programs compute what the dense machine of SpecDense computes: construction and whole
    programs. *)
Require Import List ZArith Bool Arith Lia QArith Qcanon.
Require Import ZifyBool ZifyNat.
Require Import Verif.Res Verif.Values Verif.Spec Verif.Mem Verif.Lists Verif.Laws Verif.MCore Verif.PropScalar Verif.SpecReduce.
Require Import Verif.SpecPy Verif.MPy Verif.PropPy Verif.PropPy2 Verif.MObj Verif.SpecObj Verif.PObj Verif.SpecDense Verif.PDense Verif.PDense2 Verif.PDense3 Verif.PDense4 Verif.PDense6.
Import ListNotations.
Local Open Scope nat_scope.

(** ** Construction *)
Lemma cs_rep_self : forall A : Cs qc, canonical A -> cs_rep A (major A) (minor A) (csr_val 0q A).
Proof. intros A C. split; [exact C|]. split; [reflexivity|]. split; [reflexivity|]. reflexivity. Qed.
Lemma new_csr_rep : forall nr nc p i d ck, canonical (mkCs nr nc p i d) -> alloc_ok (length p) ->
  done (let! X := csr_init (F := qc) nr nc p i d ck in Ok (VCsr X)) (DMat KCsr nr nc (csr_val 0q (mkCs nr nc p i d))).
Proof.
  intros nr nc p i d ck C AL. assert (UM : (Z.of_nat (length p) <= usize_max)%Z) by (unfold alloc_ok, usize_max, i64_max in *; lia).
  pose proof (from_parts_check _ C UM) as CK. cbn [major minor ptr idx dat] in CK.
  assert (E : csr_init (F := qc) nr nc p i d ck = Ok (mkPyCs (mkCs nr nc p i d) (csr_from_parts nr nc p i d false))).
  { unfold csr_init. destruct ck; [|reflexivity]. change (csr_from_parts nr nc p i d true = Some (mkCs nr nc p i d)) in CK. rewrite CK. reflexivity. }
  rewrite E. cbn [bind]. eexists. split; [reflexivity|]. intros FT. apply fits_cs in FT. destruct FT as (AM & _). cbn [py_arrays major] in AM.
  split; [exact (from_parts_ok _ (can_ok _ C) AM)|exact (cs_rep_self _ C)].
Qed.
Lemma new_csc_rep : forall nr nc p i d ck, canonical (mkCs nc nr p i d) ->
  done (let! X := csc_init (F := qc) nr nc p i d ck in Ok (VCsc X)) (DMat KCsc nr nc (csc_val 0q (mkCs nc nr p i d))).
Proof.
  intros nr nc p i d ck C. unfold csc_init. cbn [bind]. eexists. split; [reflexivity|]. intros FT. apply (fits_cs (mkPyCs _ _)) in FT. destruct FT as (AM & _). cbn [py_arrays major] in AM.
  split; [|exact (cs_rep_self _ C)]. destruct ck; [|exact (from_parts_ok _ (can_ok _ C) AM)]. apply (from_parts_check _ C).
  rewrite (ok_ptr_len _ (can_ok _ C)). cbn [major]. unfold alloc_ok, usize_max, i64_max in *. lia.
Qed.
Lemma new_coo_rep : forall nr nc r c d ck, coo_ok (mkCoo nr nc r c d) -> single_valued (coo_at (mkCoo nr nc r c d)) ->
  done (let! X := coo_init (F := qc) nr nc r c d ck in Ok (VCoo X)) (DMat KCoo nr nc (fun i j => one_or 0q (coo_at (mkCoo nr nc r c d) i j))).
Proof.
  intros nr nc r c d ck OK SV. unfold coo_init. pose proof (coo_from_parts_ok _ ck OK) as E. cbn [coo_nrows coo_ncols coo_row coo_col coo_data] in E. rewrite E. cbn [bind].
  eexists. split; [reflexivity|]. intros _. split; [reflexivity|]. cbn [pyc_arrays]. split; [exact OK|]. split; [exact SV|]. split; [reflexivity|]. split; [reflexivity|]. reflexivity.
Qed.
Lemma zeros_rep : forall nr nc, done (csr_new (zeros_csr (F := qc) nr nc)) (DMat KCsr nr nc (fun _ _ => 0q)).
Proof.
  intros nr nc. apply csr_new_rep. intros _. destruct (C46_zeros qc nr nc) as [(C & M & N & H) _]. split; [exact C|]. split; [exact M|]. split; [exact N|].
  intros i j _ _. unfold csr_val. rewrite H. reflexivity.
Qed.
Lemma diag_rep : forall d, done (csr_new (diag_csr (F := qc) d)) (DMat KCsr (length d) (length d) (fun i j => if i =? j then nth i d 0q else 0q)).
Proof.
  intros d. apply csr_new_rep. intros AM. destruct (C46_diag qc d AM) as (C & M & N & H). split; [exact C|]. split; [exact M|]. split; [exact N|].
  intros i j Hi _. unfold csr_val. rewrite H by auto. destruct (i =? j); reflexivity.
Qed.
Lemma eye_rep : forall n, done (csr_new (eye_csr (F := qc) n)) (DMat KCsr n n (fun i j => if i =? j then 1q else 0q)).
Proof.
  intros n. apply csr_new_rep. intros AM. destruct (C46_eye qc n AM) as (C & M & N & H). split; [exact C|]. split; [exact M|]. split; [exact N|].
  intros i j Hi _. unfold csr_val. rewrite H by auto. destruct (i =? j); reflexivity.
Qed.

(** ** One call *)
Lemma held_get : forall h H, Forall2 held h H -> forall a X, nth_error H a = Some X -> exists x, get_checked h a = Ok x /\ nth_error h a = Some x /\ held x X.
Proof.
  induction 1 as [|x X h H HX HH IH]; intros [|a] Y E; try discriminate E; cbn [nth_error] in *.
  - injection E as <-. exists x. auto.
  - destruct (IH a Y E) as (y & G & N & HY). exists y. split; [|split; auto]. exact G.
Qed.
Lemma or_nd_split : forall f g x X Y, held x X -> or_nd f g X = Some Y ->
  (exists A sh a, x = VNd A /\ X = DNd sh a /\ f sh a = Some Y) \/ g X = Some Y.
Proof.
  intros f g x X Y HX E. destruct X as [k m n a|sh d|sh d|sh a]; try (right; exact E). left. destruct x as [| | |A| | |]; try (exfalso; exact (proj1 HX)). exists A, sh, a. auto.
Qed.
Lemma nd_held_shape : forall A sh a, held (VNd A) (DNd sh a) -> nd_shape A = sh.
Proof. intros A sh a [(_ & _ & E & _) _]. exact E. Qed.
Lemma exec_rep : forall e h H c Y, exact_env e -> plain_arguments c -> Forall2 held h H -> (demand h c < i64_max)%Z ->
  dense_call H c = Some Y -> done (exec e h c) Y.
Proof.
  intros e h H c Y [FE SS] PA HH DM D.
  assert (W1 : forall a f, with1 H a f = Some Y -> exists x X, get_checked h a = Ok x /\ held x X /\ f X = Some Y).
  { intros a f E. unfold with1 in E. destruct (nth_error H a) as [X|] eqn:N; [|discriminate E]. destruct (held_get _ _ HH _ _ N) as (x & G & _ & HX). eauto. }
  assert (W2 : forall a b f, with2 H a b f = Some Y -> exists x X y Z, get_checked h a = Ok x /\ held x X /\ get_checked h b = Ok y /\ held y Z /\ f X Z = Some Y /\
     nth_error h a = Some x /\ nth_error h b = Some y).
  { intros a b f E. unfold with2 in E. destruct (nth_error H a) as [X|] eqn:N; [|discriminate E]. destruct (nth_error H b) as [Z|] eqn:N'; [|discriminate E].
    destruct (held_get _ _ HH _ _ N) as (x & G & K & HX). destruct (held_get _ _ HH _ _ N') as (y & G' & K' & HY). exists x, X, y, Z. auto 10. }
  destruct c; cbn [dense_call exec plain_arguments] in *; try discriminate D.
  - injection D as <-. apply new_csr_rep; apply PA.
  - injection D as <-. apply new_csc_rep; apply PA.
  - injection D as <-. apply new_coo_rep; apply PA.
  - injection D as <-. apply new_nd_rep; apply PA.
  - destruct (_ =? _) eqn:L in D; [|discriminate D]. injection D as <-. unfold new_arr, reshape_to. rewrite L. cbn [arr_new bind]. apply done_arr. apply Nat.eqb_eq. exact L.
  - injection D as <-. apply zeros_rep.
  - injection D as <-. apply eye_rep.
  - injection D as <-. apply diag_rep.
  - destruct (W1 _ _ D) as (x & X & -> & HX & E). cbn [bind]. destruct (or_nd_split _ _ _ _ _ HX E) as [(A & sh & d & -> & -> & E')|E']; [eapply unary_nd_rep; eauto|eapply unary_rep; eauto].
  - destruct (W1 _ _ D) as (x & X & -> & HX & E). cbn [bind]. destruct (or_nd_split _ _ _ _ _ HX E) as [(A & sh & d & -> & -> & E')|E']; [eapply scalar_nd_rep; eauto|eapply scalar_rep; eauto].
  - destruct (W2 _ _ _ D) as (x & X & y & Z & -> & HX & -> & HY & E & N1 & N2). cbn [bind]. destruct (or_nd_split _ _ _ _ _ HX E) as [(A & sh & d & -> & -> & E')|E']; [|eapply binary_rep; eauto].
    eapply binary_nd_rep; eauto. destruct y as [| | |B| | |]; auto. destruct op; try discriminate E'. cbn [demand] in DM. rewrite N1, N2, (nd_held_shape _ _ _ HX) in DM. exact DM.
  - destruct (W2 _ _ _ D) as (x & X & y & Z & -> & HX & -> & HY & E & N1 & N2). cbn [bind].
    replace (as_float64 y) with y by (destruct Z as [[] ? ? ?|? ?|? ?|? ?]; try (destruct X as [[] ? ? ?|? ?|? ?|? ?]; discriminate E); destruct y; try (exfalso; exact (proj1 HY)); reflexivity).
    eapply matmul_rep; eauto.
    intros sh d ->. cbn [demand] in DM. rewrite N1, N2 in DM. destruct x; cbn [mul_demand]; try exact DM; unfold i64_max; lia.
  - destruct (W2 _ _ _ D) as (x & X & y & Z & -> & HX & -> & HY & E & N1 & N2). cbn [bind]. destruct (or_nd_split _ _ _ _ _ HX E) as [(A & s & d & -> & -> & E')|E'].
    { eapply tensordot_nd_rep; eauto. destruct y; auto. cbn [demand] in DM. rewrite N1, N2, (nd_held_shape _ _ _ HX) in DM. exact DM. }
    eapply tensordot_rep; eauto.
    intros sh d ->. cbn [demand] in DM. rewrite N1, N2 in DM. destruct x; cbn [mul_demand]; try exact DM; unfold i64_max; lia.
  - destruct (W2 _ _ _ D) as (x & X & y & Z & -> & HX & -> & HY & E & N1 & N2). cbn [bind]. destruct (or_nd_split _ _ _ _ _ HX E) as [(A & s & d & -> & -> & E')|E'].
    { eapply vecdot_nd_rep; eauto. }
    eapply vecdot_rep; eauto.
    intros sh d ->. cbn [demand] in DM. rewrite N1, N2 in DM. destruct x; cbn [mul_demand]; try exact DM; unfold i64_max; lia.
  - destruct (W1 _ _ D) as (x & X & -> & HX & E). cbn [bind]. destruct (or_nd_split _ _ _ _ _ HX E) as [(A & sh & d & -> & -> & E')|E']; [eapply reduce_nd_rep; eauto|eapply reduce_rep; eauto].
  - destruct (W1 _ _ D) as (x & X & -> & HX & E). cbn [bind]. eapply cum_rep; eauto.
  - destruct (W1 _ _ D) as (x & X & -> & HX & E). cbn [bind]. eapply diff_rep; eauto.
  - destruct (W1 _ _ D) as (x & X & -> & HX & E). cbn [bind]. eapply getitem_rep; eauto.
  - destruct (W1 _ _ D) as (x & X & -> & HX & E). cbn [bind]. eapply getrow_rep; eauto.
  - destruct (W1 _ _ D) as (x & X & -> & HX & E). cbn [bind]. eapply getcol_rep; eauto.
  - destruct (W1 _ _ D) as (x & X & -> & HX & E). cbn [bind]. eapply toarray_rep; eauto.
  - destruct (W2 _ _ _ D) as (x & X & y & Z & -> & HX & -> & HY & E & _). cbn [bind]. eapply compare_rep; eauto.
  - destruct (W1 _ _ D) as (x & X & -> & HX & E). cbn [bind]. destruct (or_nd_split _ _ _ _ _ HX E) as [(A & sh & d & -> & -> & E')|E']; [eapply permute_nd_rep; eauto|discriminate E'].
  - destruct (W1 _ _ D) as (x & X & -> & HX & E). cbn [bind]. destruct (or_nd_split _ _ _ _ _ HX E) as [(A & sh & d & -> & -> & E')|E']; [eapply reshape_nd_rep; eauto|discriminate E'].
  - destruct (W1 _ _ D) as (x & X & -> & HX & E). cbn [bind]. destruct (or_nd_split _ _ _ _ _ HX E) as [(A & sh & d & -> & -> & E')|E']; [eapply reduce_axes_rep; eauto|discriminate E'].
  - destruct (W1 _ _ D) as (x & X & -> & HX & E). cbn [bind]. destruct (or_nd_split _ _ _ _ _ HX E) as [(A & sh & d & -> & -> & E')|E']; [eapply unfold_nd_rep; eauto|discriminate E'].
  - destruct (W1 _ _ D) as (x & X & -> & HX & E). cbn [bind]. destruct (or_nd_split _ _ _ _ _ HX E) as [(A & sh & d & -> & -> & E')|E']; [eapply mode_nd_rep; eauto|discriminate E'].
Qed.

(** ** Programs *)
Lemma run_rep : forall l h H0 H, Forall (fun s => exact_env (fst s) /\ plain_arguments (snd s)) l -> Forall2 held h H0 ->
  dense_run H0 (map snd l) = Some H -> (exists h', run h l = Running h' /\ Forall2 held h' H) \/ run h l = TooBig.
Proof.
  induction l as [|[e c] l IH]; intros h H0 H PA HH D; cbn [map snd dense_run run] in *.
  - injection D as <-. left. exists h. auto.
  - inversion PA as [|? ? [EE PC] PL]; subst. cbn [fst snd] in EE, PC. destruct (dense_call H0 c) as [Y|] eqn:DC; [|discriminate D].
    destruct (i64_max <=? demand h c)%Z eqn:DM; [right; reflexivity|]. destruct (exec_rep e h H0 c Y EE PC HH ltac:(lia) DC) as (v & EX & FV).
    assert (ST : step e h c = Ok (h ++ [v])) by (destruct c; try discriminate DC; unfold step; rewrite EX; reflexivity). rewrite ST.
    destruct (forallb fits (h ++ [v])) eqn:FT; [|right; reflexivity].
    apply (IH (h ++ [v]) (H0 ++ [Y]) H PL); auto. apply Forall2_app; auto. constructor; [|constructor].
    rewrite forallb_app in FT. apply andb_true_iff in FT. destruct FT as [_ FT]. cbn [forallb] in FT. rewrite andb_true_r in FT. split; auto.
Qed.
Lemma held_shows : forall v x, held v x -> shows v x.
Proof.
  intros v x [R _]. destruct v as [X|X|X|X|sh d|sh d|sh d]; destruct x as [k m n a|sh' d'|sh' d'|sh' a]; try (destruct k); cbn [rep shows] in *; try exact R.
  - destruct R as [_ R]. pose proof (cr_csr _ _ _ _ R) as CR. destruct R as (C & E1 & E2 & V). split; [exact E1|]. split; [exact E2|]. intros i j Hi Hj. apply (cr_sum _ _ _ _ CR); auto.
  - destruct R as [_ R]. pose proof (cr_csc _ _ _ _ R) as CR. destruct R as (C & E1 & E2 & V). split; [exact E2|]. split; [exact E1|]. intros i j Hi Hj. apply (cr_sum _ _ _ _ CR); auto.
  - destruct R as [_ R]. pose proof (cr_coo _ _ _ _ R) as CR. destruct R as (C & SV & E1 & E2 & V). split; [exact E1|]. split; [exact E2|]. intros i j Hi Hj. apply (cr_sum _ _ _ _ CR); auto.
  - destruct R as (OK & SV & E & _ & V). split; [exact E|]. intros k I. rewrite <- V by exact I. symmetry. apply one_or_qsum. apply SV.
  - destruct R as (-> & -> & _). auto.
Qed.
