(** Every call on intact objects, in every fair environment, either raises or returns an
    intact object; it never reads or writes out of range. *)
Require Import List ZArith Bool Arith Lia Permutation Sorted.
Require Import ZifyBool ZifyNat.
Require Import Verif.Res Verif.Values Verif.Spec Verif.Mem Verif.Lists Verif.CsLib Verif.Laws Verif.NdLib Verif.SpecPy Verif.MCore Verif.PCore Verif.MElementwise Verif.MConvert Verif.PConvert Verif.PConvert2 Verif.PConvert3 Verif.PTrans Verif.MScalar Verif.PScalar.
Require Import Verif.MHash Verif.MAcc Verif.MLinalg Verif.MReduce Verif.MStat Verif.MCum Verif.MNd Verif.MNd2 Verif.PNd Verif.PropConvert Verif.MPy Verif.PBroadcast Verif.MObj Verif.SpecObj Verif.PSafe Verif.PSafe2 Verif.PSafe3 Verif.PSafe4.
Import ListNotations.
Local Open Scope Z_scope.

Section Obj.
Context {F : Fl}.
Hypothesis NL : NLaws F.

(** ** From objects to matrices and back *)
Definition cs_small (B : Cs F) : Prop :=
  cs_ok B /\ alloc_ok (major B) /\ alloc_ok (minor B) /\ alloc_ok (major B * minor B) /\ alloc_ok (length (dat B)).
Definition coo_small (B : Coo F) : Prop :=
  coo_ok B /\ alloc_ok (coo_nrows B) /\ alloc_ok (coo_ncols B) /\ alloc_ok (coo_nrows B * coo_ncols B) /\ alloc_ok (length (coo_data B)).
Definition cs_like (A B : Cs F) : Prop := cs_small B /\ major B = major A /\ minor B = minor A.
Definition coo_like (A B : Coo F) : Prop := coo_small B /\ coo_nrows B = coo_nrows A /\ coo_ncols B = coo_ncols A.
Definition kept (v : value F) : Prop := intact v /\ fits v = true.
Definition good (v : value F) : Prop := fits v = true -> intact v.

Lemma cells_fit_spec : forall n m, cells_fit n m = true -> alloc_ok n /\ alloc_ok m /\ alloc_ok (n * m).
Proof.
  intros n m H. unfold cells_fit in H. apply andb_true_iff in H. destruct H as [H H3]. apply andb_true_iff in H. destruct H as [H1 H2].
  apply Z.ltb_lt in H1. apply Z.ltb_lt in H2. apply Z.ltb_lt in H3. unfold alloc_ok. rewrite Nat2Z.inj_mul. auto.
Qed.
Lemma cs_kept : forall X : @PyCs F, kept (VCsr X) -> cs_small (py_arrays X).
Proof.
  intros X [[OK _] FT]. cbn [fits] in FT. apply andb_true_iff in FT. destruct FT as [F1 F2].
  apply cells_fit_spec in F1. destruct F1 as (A1 & A2 & A3). unfold cs_small. repeat (split; [assumption|]). unfold alloc_ok. lia.
Qed.
Lemma kept_csc : forall X : @PyCs F, kept (VCsc X) -> kept (VCsr X).
Proof. auto. Qed.
Lemma coo_kept : forall X : @PyCoo F, kept (VCoo X) -> coo_small (pyc_arrays X).
Proof.
  intros X [[OK _] FT]. cbn [fits] in FT. apply andb_true_iff in FT. destruct FT as [F1 F2].
  apply cells_fit_spec in F1. destruct F1 as (A1 & A2 & A3). unfold coo_small. repeat (split; [assumption|]). unfold alloc_ok. lia.
Qed.
Lemma cs_eta : forall A : Cs F, mkCs (major A) (minor A) (ptr A) (idx A) (dat A) = A.
Proof. destruct A; auto. Qed.
Lemma coo_eta : forall A : Coo F, mkCoo (coo_nrows A) (coo_ncols A) (coo_row A) (coo_col A) (coo_data A) = A.
Proof. destruct A; auto. Qed.

Lemma csr_parts_safe : forall X, kept (VCsr X) -> safe (cs_like (py_arrays X)) (csr_parts X).
Proof.
  intros X K. apply cs_kept in K. unfold csr_parts. destruct (csr_from_parts _ _ _ _ _ false) as [B|] eqn:E; [|exact I].
  apply cs_from_parts_value in E. unfold csr_nrows, csr_ncols in E. rewrite cs_eta in E. subst B. simpl. unfold cs_like. auto.
Qed.
Lemma csc_parts_safe : forall X, kept (VCsc X) -> safe (cs_like (py_arrays X)) (csc_parts X).
Proof.
  intros X K. apply kept_csc, cs_kept in K. unfold csc_parts. destruct (csc_from_parts _ _ _ _ _ false) as [B|] eqn:E; [|exact I].
  apply cs_from_parts_value in E. unfold csc_nrows, csc_ncols in E. rewrite cs_eta in E. subst B. simpl. unfold cs_like. auto.
Qed.
Lemma coo_from_parts_shape : forall nr nc r c (d : list F) ck, safe (fun o => forall B, o = Some B -> B = mkCoo nr nc r c d) (coo_from_parts nr nc r c d ck).
Proof.
  intros. unfold coo_from_parts. destruct (_ || _); [simpl; congruence|].
  eapply safe_bind with (P := fun _ => True).
  - destruct ck; [|exact I]. generalize (seq 0 (length d)). induction l as [|a l IH]; [exact I|]. cbn [allM]. apply fine_bind.
    + unfold coo_check_one. apply fine_bind; [apply fine_get|]. intros. apply fine_bind; [apply fine_get|]. intros. destruct (_ || _); exact I.
    + intros []; [exact IH|exact I].
  - intros [] _; simpl; congruence.
Qed.
Lemma coo_parts_safe : forall X, kept (VCoo X) -> safe (coo_like (pyc_arrays X)) (coo_parts X).
Proof.
  intros X K. apply coo_kept in K. unfold coo_parts. eapply safe_bind; [apply coo_from_parts_shape|]. intros [B|] E; [|exact I].
  specialize (E _ eq_refl). rewrite coo_eta in E. subst B. simpl. unfold coo_like. auto.
Qed.
Lemma nd_parts_safe : forall A : Nd F, kept (VNd A) -> safe (fun B => B = A /\ nd_ok B /\ nd_small B) (nd_parts A).
Proof.
  intros A [OK FT]. unfold nd_parts. apply safe_assert. intros NN.
  unfold nd_from_parts. destruct (_ =? 0)%nat; [exact I|]. destruct (_ && _); [exact I|]. destruct (negb _); [exact I|]. destruct (negb _); [exact I|].
  cbn [bind]. simpl. assert (E : mkNd (nd_shape A) (nd_idx A) (nd_dat A) = A) by (destruct A; auto). rewrite E. split; auto. split; [exact OK|].
  cbn [fits] in FT. split; [|lia]. rewrite forallb_forall in NN. apply Forall_forall. intros n Hn. apply NN in Hn. lia.
Qed.

Lemma handle_like : forall (X : @PyCs F) H, kept (VCsr X) -> py_handle X = Some H -> cs_like (py_arrays X) H.
Proof.
  intros X H K E. pose proof (cs_kept _ K) as (OK & A1 & A2 & A3 & A4). destruct K as [[_ S] _]. destruct (S H E) as (E1 & E2 & E3 & E4 & E5).
  unfold cs_like, cs_small. rewrite E1, E2, E5. repeat (split; [|auto]); auto.
  destruct OK. constructor; rewrite ?E1, ?E2, ?E3, ?E4, ?E5; auto.
Qed.
Lemma csr_use_safe : forall X, kept (VCsr X) -> safe (cs_like (py_arrays X)) (csr_use X).
Proof. intros X K. unfold csr_use. destruct (py_handle X) eqn:E; [apply (handle_like X); auto|apply csr_parts_safe; auto]. Qed.
Lemma csc_use_safe : forall X, kept (VCsc X) -> safe (cs_like (py_arrays X)) (csc_use X).
Proof. intros X K. unfold csc_use. destruct (py_handle X) eqn:E; [apply (handle_like X); auto|exact I]. Qed.
Lemma coo_handle_like : forall (X : @PyCoo F) H, kept (VCoo X) -> pyc_handle X = Some H -> coo_like (pyc_arrays X) H.
Proof.
  intros X H K E. pose proof (coo_kept _ K) as (OK & A1 & A2 & A3 & A4). destruct K as [[_ S] _]. destruct (S H E) as (E1 & E2 & E3 & E4 & E5).
  unfold coo_like, coo_small. rewrite E1, E2, E5. repeat (split; [|auto]); auto.
  destruct OK. constructor; rewrite ?E1, ?E2, ?E3, ?E4, ?E5; auto.
Qed.
Lemma coo_use_safe : forall X, kept (VCoo X) -> safe (coo_like (pyc_arrays X)) (coo_use X).
Proof. intros X K. unfold coo_use. destruct (pyc_handle X) eqn:E; [apply (coo_handle_like X); auto|exact I]. Qed.
Lemma both_safe : forall (X Y : @PyCs F) (r : res (Cs F * Cs F)) (pX pY : res (Cs F)),
  kept (VCsr X) -> kept (VCsr Y) -> safe cs_small pX -> safe cs_small pY ->
  safe (fun p => cs_small (fst p) /\ cs_small (snd p))
    (match py_handle X, py_handle Y with Some A, Some B => Ok (A, B) | _, _ => let! A := pX in let! B := pY in Ok (A, B) end).
Proof.
  intros X Y r pX pY KX KY HX HY.
  assert (P : safe (fun p => cs_small (fst p) /\ cs_small (snd p)) (let! A := pX in let! B := pY in Ok (A, B))).
  { eapply safe_bind; [exact HX|]. intros A HA. eapply safe_bind; [exact HY|]. intros B HB. simpl. auto. }
  destruct (py_handle X) as [A|] eqn:EX; auto. destruct (py_handle Y) as [B|] eqn:EY; auto.
  simpl. split; [apply (handle_like X); auto|apply (handle_like Y); auto].
Qed.
Lemma like_small : forall A (r : res (Cs F)), safe (cs_like A) r -> safe cs_small r.
Proof. intros. eapply safe_imp; eauto. intros B [H1 _]. exact H1. Qed.
Lemma csr_both_safe : forall X Y, kept (VCsr X) -> kept (VCsr Y) -> safe (fun p => cs_small (fst p) /\ cs_small (snd p)) (csr_both X Y).
Proof. intros. apply both_safe; auto; [exact Panic| |]; eapply like_small; apply csr_parts_safe; auto. Qed.
Lemma csc_both_safe : forall X Y, kept (VCsc X) -> kept (VCsc Y) -> safe (fun p => cs_small (fst p) /\ cs_small (snd p)) (csc_both X Y).
Proof. intros. apply both_safe; auto; [exact Panic| |]; eapply like_small; apply csc_parts_safe; auto. Qed.
Lemma pair_safe : forall (pX pY : res (Cs F)), safe cs_small pX -> safe cs_small pY ->
  safe (fun p => cs_small (fst p) /\ cs_small (snd p)) (let! A := pX in let! B := pY in Ok (A, B)).
Proof. intros pX pY HX HY. eapply safe_bind; [exact HX|]. intros A HA. eapply safe_bind; [exact HY|]. intros B HB. simpl. auto. Qed.

Lemma csr_new_safe : forall B : Cs F, cs_ok B -> safe good (csr_new B).
Proof.
  intros B OK. unfold csr_new, csr_init. cbn [bind]. unfold safe. intros _. cbn [intact py_arrays py_handle].
  unfold csr_nrows, csr_ncols. rewrite cs_eta. split; auto. intros H E. apply cs_from_parts_value in E. rewrite cs_eta in E. subst H. auto.
Qed.
Lemma csr_new_small : forall B : Cs F, (alloc_ok (major B) -> cs_ok B) -> safe good (csr_new B).
Proof.
  intros B OK. unfold csr_new, csr_init. cbn [bind]. unfold safe. intros FT.
  assert (OB : cs_ok B).
  { apply OK. cbn [fits py_arrays] in FT. apply andb_true_iff in FT. destruct FT as [F1 _]. apply cells_fit_spec in F1. apply F1. }
  cbn [intact py_arrays py_handle]. unfold csr_nrows, csr_ncols. rewrite cs_eta. split; auto.
  intros H E. apply cs_from_parts_value in E. rewrite cs_eta in E. subst H. auto.
Qed.
Lemma csc_new_safe : forall B : Cs F, cs_ok B -> safe good (csc_new B).
Proof.
  intros B OK. unfold csc_new, csc_init. cbn [bind]. unfold safe. intros _. cbn [intact py_arrays py_handle].
  unfold csc_nrows, csc_ncols. rewrite cs_eta. split; auto. intros H E. apply cs_from_parts_value in E. rewrite cs_eta in E. subst H. auto.
Qed.
Lemma coo_new_safe : forall B : Coo F, coo_ok B -> safe good (coo_new B).
Proof.
  intros B OK. unfold coo_new, coo_init. eapply safe_bind with (P := fun X => intact (VCoo X)); [|intros X HX _; exact HX].
  eapply safe_bind; [apply coo_from_parts_shape|]. intros o E. simpl. rewrite coo_eta in *. split; auto. intros H E'. apply E in E'. subst H. auto.
Qed.
Lemma nd_new_safe : forall B : Nd F, nd_fine B -> safe good (nd_new B).
Proof.
  intros B OK. unfold nd_new. apply safe_assert. intros _. unfold nd_init. destruct (Nat.eqb_spec (length (nd_shape B)) 0) as [E|E]; [exact I|].
  destruct (negb _); [exact I|]. cbn [bind]. simpl. intros _. simpl. assert (EB : mkNd (nd_shape B) (nd_idx B) (nd_dat B) = B) by (destruct B; auto).
  rewrite EB. apply OK. intros Q. rewrite Q in E. apply E. reflexivity.
Qed.
Lemma arr_new_safe : forall r, safe sized r -> safe good (arr_new (VArr (F := F)) r).
Proof. intros r H. unfold arr_new. eapply safe_bind; [exact H|]. intros [sh d] S. simpl. intros _. exact S. Qed.
Lemma bools_new_safe : forall r, safe sized r -> safe good (arr_new (VBools (F := F)) r).
Proof. intros r H. unfold arr_new. eapply safe_bind; [exact H|]. intros [sh d] S. simpl. intros _. exact S. Qed.
Lemma ints_new_safe : forall r, safe sized r -> safe good (arr_new (VInts (F := F)) r).
Proof. intros r H. unfold arr_new. eapply safe_bind; [exact H|]. intros [sh d] S. simpl. intros _. exact S. Qed.

Variable e : Env F.
Hypothesis FE : fair e.
Let Fil := fair_il e FE. Let Filo := fair_ilo e FE. Let Fsch := fair_sch e FE. Let Fschv := fair_schv e FE. Let Fschc := fair_schc e FE.
Let Fschz := fair_schz e FE. Let Fschu := fair_schu e FE. Let Fdist := fair_dist e FE. Let Fsrt := fair_srt e FE. Let Fsrt2 := fair_srt2 e FE.
Let Ford := fair_ord e FE. Let Fzero := fair_zero e FE.

(** ** Unary operations *)
Ltac new_one := first [apply csr_new_safe | apply csc_new_safe | apply coo_new_safe | apply nd_new_safe].
Ltac parts K := match goal with
  | |- safe _ (bind (csr_parts _) _) => eapply safe_bind; [apply csr_parts_safe; exact K|]; intros ?A ((?OK & ?A1 & ?A2 & ?A3 & ?A4) & ?E1 & ?E2)
  | |- safe _ (bind (csc_parts _) _) => eapply safe_bind; [apply csc_parts_safe; exact K|]; intros ?A ((?OK & ?A1 & ?A2 & ?A3 & ?A4) & ?E1 & ?E2)
  | |- safe _ (bind (csr_use _) _) => eapply safe_bind; [apply csr_use_safe; exact K|]; intros ?A ((?OK & ?A1 & ?A2 & ?A3 & ?A4) & ?E1 & ?E2)
  | |- safe _ (bind (csc_use _) _) => eapply safe_bind; [apply csc_use_safe; exact K|]; intros ?A ((?OK & ?A1 & ?A2 & ?A3 & ?A4) & ?E1 & ?E2)
  | |- safe _ (bind (coo_parts _) _) => eapply safe_bind; [apply coo_parts_safe; exact K|]; intros ?A ((?OK & ?A1 & ?A2 & ?A3 & ?A4) & ?E1 & ?E2)
  | |- safe _ (bind (coo_use _) _) => eapply safe_bind; [apply coo_use_safe; exact K|]; intros ?A ((?OK & ?A1 & ?A2 & ?A3 & ?A4) & ?E1 & ?E2)
  | |- safe _ (bind (nd_parts _) _) => eapply safe_bind; [apply nd_parts_safe; exact K|]; intros ?A (?EA & ?OK & ?SM)
  end.
Lemma cs_with_ok : forall g (A : Cs F), same_len g -> cs_ok A -> safe cs_ok (cs_with g A).
Proof. intros g A G OK. eapply safe_imp; [apply cs_with_safe; auto|]. intros ? HB; apply HB. Qed.
Lemma coo_with_ok : forall g (A : Coo F), same_len g -> coo_ok A -> safe coo_ok (coo_with g A).
Proof. intros g A G OK. eapply safe_imp; [apply coo_with_safe; auto|]. intros ? HB; apply HB. Qed.
Lemma nd_with_ok : forall g (A : Nd F), same_len g -> nd_ok A -> safe nd_fine (nd_with g A).
Proof. intros g A G OK. eapply safe_imp; [apply nd_with_safe; auto|]. intros B HB _; apply HB. Qed.
Ltac withs := eapply safe_bind; [first [apply cs_with_ok | apply coo_with_ok | apply nd_with_ok]; [first [apply abs_same|apply mul_same|apply par_map_same]|assumption]|]; intros B HB; new_one; exact HB.
Lemma prune_ok : forall eps (A : Cs F), cs_ok A -> safe cs_ok (prune_cs (e_sch e 0) eps A).
Proof. intros eps A OK. eapply safe_imp; [apply prune_safe; auto|]. intros ? HB; apply HB. Qed.
Lemma prune_coo_ok : forall eps (A : Coo F), coo_ok A -> safe coo_ok (prune_coo eps A).
Proof. intros eps A OK. eapply safe_imp; [apply prune_coo_safe; auto|]. intros ? HB; apply HB. Qed.
Lemma transpose_ok : forall (A : Cs F), cs_small A -> safe cs_ok (transpose_cs (e_threads e) (e_il e 0) (e_sch e 0) (e_srt e 0) A).
Proof. intros A (OK & A1 & _). eapply safe_imp; [apply transpose_safe; auto|]. intros ? HB; apply HB. Qed.
Lemma coo_transpose_ok : forall A : Coo F, coo_ok A -> coo_ok (transpose_coo A).
Proof. intros A OK. destruct OK. constructor; auto. Qed.
Lemma do_unary_safe : forall op x, kept x -> safe good (do_unary e op x).
Proof.
  intros op x K.
  destruct op; destruct x as [X|X|X|X|sh d|sh d|sh d]; try exact I; cbn [do_unary]; try (parts K; withs).
  - parts K. eapply safe_bind; [apply prune_ok; auto|]. intros B HB. new_one; auto.
  - parts K. eapply safe_bind; [apply prune_ok; auto|]. intros B HB. new_one; auto.
  - parts K. eapply safe_bind; [apply prune_coo_ok; auto|]. intros B HB. new_one; auto.
  - parts K. eapply safe_bind; [apply prune_ok; auto|]. intros B HB. new_one; auto.
  - parts K. eapply safe_bind; [apply prune_ok; auto|]. intros B HB. new_one; auto.
  - parts K. eapply safe_bind; [apply prune_coo_ok; auto|]. intros B HB. new_one; auto.
  - parts K. eapply safe_bind; [apply transpose_ok; unfold cs_small; auto 6|]. intros B HB. new_one; auto.
  - eapply safe_bind with (P := cs_ok); [|intros B HB; new_one; auto]. pose proof (csc_parts_safe X K) as S. unfold csc_T. unfold csc_parts in S.
    destruct (py_handle X) as [H|] eqn:EH; [apply transpose_ok; apply (handle_like X); auto|].
    destruct (csc_from_parts _ _ _ _ _ _) as [B|]; [|exact I]. apply transpose_ok. destruct S; auto.
  - eapply safe_bind with (P := coo_like (pyc_arrays X)).
    + destruct (pyc_handle X) eqn:EH; [apply (coo_handle_like X); auto|apply coo_parts_safe; auto].
    + intros A ((OK & _) & _). new_one. apply coo_transpose_ok; auto.
Qed.
Lemma do_scalar_safe : forall op x alpha, kept x -> safe good (do_scalar op x alpha).
Proof.
  intros op x alpha K.
  destruct op; destruct x as [X|X|X|X|sh d|sh d|sh d]; try exact I; cbn [do_scalar]; parts K; unfold py_truediv, py_floordiv, py_mod;
  try (destruct (feqb alpha f0); [exact I|]); withs.
Qed.

(** ** Binary operations *)
Lemma binary_cs : forall k (new : Cs F -> res (value F)) r, cs_kernel k -> (forall B, cs_ok B -> safe good (new B)) ->
  safe (fun p => cs_small (fst p) /\ cs_small (snd p)) r ->
  safe good (let! (A, B) := r in let! C := k (e_sch e 0) A B in new C).
Proof.
  intros k new r HK HN HR. eapply safe_bind; [exact HR|]. intros [A B] [(OA & _) (OB & _)]. eapply safe_bind; [apply HK; auto|].
  intros C (OC & _). auto.
Qed.
Lemma do_binary_safe : forall op x y, kept x -> kept y ->
  (forall A B, op = BMul -> x = VNd A -> y = VNd B -> shape_cells (broadcast_shape (nd_shape A) (nd_shape B)) < i64_max) ->
  safe good (do_binary e op x y).
Proof.
  intros op x y KX KY D.
  destruct x as [X|X|X|X|sh d|sh d|sh d]; try exact I; destruct y as [Y|Y|Y|Y|sh' d'|sh' d'|sh' d']; try exact I; cbn [do_binary].
  - assert (S1 := like_small _ _ (csr_parts_safe X KX)). assert (S2 := like_small _ _ (csr_parts_safe Y KY)).
    destruct op; unfold csr_both_parts; refine (binary_cs _ _ _ _ csr_new_safe _); first [apply csr_both_safe; auto|apply pair_safe; auto|idtac].
    all: [> apply add_kernel | apply sub_kernel | apply hadamard_kernel | apply div_kernel | apply floordiv_kernel | apply rem_kernel | apply pow_kernel].
  - assert (S1 := like_small _ _ (csc_parts_safe X KX)). assert (S2 := like_small _ _ (csc_parts_safe Y KY)).
    assert (S3 := like_small _ _ (csc_use_safe X KX)). assert (S4 := like_small _ _ (csc_use_safe Y KY)).
    destruct op; unfold csc_both_parts, csc_both_use; refine (binary_cs _ _ _ _ csc_new_safe _); first [apply csc_both_safe; auto|apply pair_safe; auto|idtac].
    all: [> apply add_kernel | apply sub_kernel | apply hadamard_kernel | apply div_kernel | apply floordiv_kernel | apply rem_kernel | apply pow_kernel].
  - destruct op; try exact I. parts KX. subst A. eapply safe_bind; [apply nd_parts_safe; exact KY|]. intros B (-> & OB & SB).
    eapply safe_bind; [apply broadcast_safe; auto|]. intros C HC. apply nd_new_safe; auto.
Qed.

(** ** Products *)
Lemma like_m : forall (A B : Cs F), cs_like A B -> major B = major A. Proof. intros A B H. apply H. Qed.
Definition mul_demand (x : value F) (sh : list nat) : Z :=
  match x with
  | VCsr X => Z.max 1 (Z.of_nat (csr_nrows (py_arrays X))) * shape_cells (map Z.of_nat sh)
  | VCsc X => Z.max 1 (Z.of_nat (csc_nrows (py_arrays X))) * shape_cells (map Z.of_nat sh)
  | VCoo X => Z.max 1 (Z.of_nat (coo_nrows (pyc_arrays X))) * shape_cells (map Z.of_nat sh)
  | VNd A => shape_cells (nd_shape A) * shape_cells (map Z.of_nat sh)
  | _ => 0
  end.
Lemma reshape_mm : forall m k (c : list F), length c = (m * k)%nat ->
  safe (fun y => length y = (m * k)%nat) (let! (_, c) := reshape_to [m; k] c in Ok c).
Proof. intros m k c L. eapply safe_bind; [apply reshape_to_safe|]. intros [s c'] (_ & E & _). simpl in *. subst c'. exact L. Qed.
Lemma do_matmul_safe : forall x sh d, kept x -> mul_demand x sh < i64_max -> safe good (do_matmul e x (VArr sh d)).
Proof.
  intros x sh d K D. destruct x as [X|X|X|X|? ?|? ?|? ?]; try exact I; cbn [do_matmul mul_demand] in *; apply arr_new_safe; apply matmul_safe; auto.
  - intros v. parts K. unfold csr_nrows in *. rewrite <- E1. apply (spmv_csr_safe NL); auto.
  - intros b n B1 B2. parts K. unfold csr_nrows, csr_ncols in *. rewrite <- E1 in *. rewrite <- E2 in *. eapply safe_bind; [apply (spmm_csr_safe NL); auto|]. intros c L. apply reshape_mm; auto.
  - intros v. parts K. unfold csc_nrows in *. rewrite <- E2. apply (spmv_csc_safe NL); auto.
  - intros b n B1 B2. parts K. unfold csc_nrows, csc_ncols in *. rewrite <- E1 in *. rewrite <- E2 in *. eapply safe_bind; [apply (spmm_csc_safe NL); auto|]. intros c L. apply reshape_mm; auto.
  - intros v. parts K. rewrite <- E1. apply (spmv_coo_safe NL); auto.
  - intros b n B1 B2. parts K. rewrite <- E1 in *. rewrite <- E2 in *. eapply safe_bind; [apply (spmm_coo_safe NL); auto|]. intros c L. apply reshape_mm; auto.
Qed.

Lemma fine_unit : forall {A B} (r : res A) (f : A -> res B) (P : B -> Prop), fine r -> (forall a, safe P (f a)) -> safe P (bind r f).
Proof. intros. eapply safe_bind; eauto. Qed.
Lemma tensordot_result_safe : forall n sh c, safe good (tensordot_result n sh c).
Proof.
  intros. unfold tensordot_result. eapply safe_bind; [apply reshape_to_safe|]. intros _ _. apply arr_new_safe.
  eapply safe_imp; [apply reshape_to_safe|]. intros r H. apply H.
Qed.
Lemma fine_axis : forall (X : Nd F) ax, fine (nd_axis X ax).
Proof. intros X [a|]; cbn [nd_axis]; [|exact I]. apply fine_bind; [apply fine_py_get|]. intros _. destruct (0 <=? a); exact I. Qed.
Lemma do_tensordot_safe : forall x sh d ax, kept x -> mul_demand x sh < i64_max -> safe good (do_tensordot e x (VArr sh d) ax).
Proof.
  intros x sh d ax K D.
  assert (S2 : forall x, kept x -> mul_demand x sh < i64_max -> match x with VCsr _ | VCsc _ | VCoo _ => True | _ => False end -> safe good (do_tensordot e x (VArr sh d) ax)).
  { clear x K D. intros x K D Hx. pose proof (do_matmul_safe x sh d K D) as MM.
    destruct x as [X|X|X|X|? ?|? ?|? ?]; try contradiction; cbn [do_tensordot mul_demand] in *; apply safe_assert; intros _; destruct sh as [|n0 [|n1 sh]]; try exact I; try exact MM;
    apply safe_assert; intros EN.
    - parts K. eapply safe_bind; [|intros c _; apply tensordot_result_safe]. unfold csr_nrows in *. rewrite <- E1 in D. apply (tensordot_mm_safe _ (major A)); auto.
      intros b n B1 B2. unfold csr_ncols in *. apply (spmm_csr_safe NL); auto.
    - parts K. eapply safe_bind; [|intros c _; apply tensordot_result_safe]. unfold csc_nrows in *. rewrite <- E2 in D. apply (tensordot_mm_safe _ (minor A)); auto.
      intros b n B1 B2. unfold csc_ncols in *. apply (spmm_csc_safe NL); auto.
    - parts K. eapply safe_bind; [|intros c _; apply tensordot_result_safe]. rewrite <- E1 in D. apply (tensordot_mm_safe _ (coo_nrows A)); auto.
      intros b n B1 B2. apply (spmm_coo_safe NL); auto. }
  destruct x as [X|X|X|X|? ?|? ?|? ?]; try (apply S2; auto; fail); try exact I.
  cbn [do_tensordot mul_demand] in *. apply fine_unit; [apply fine_axis|]. intros a. destruct sh as [|n0 sh]; [exact I|].
  apply fine_unit; [apply fine_get|]. intros n. apply safe_assert. intros _. parts K. subst A.
  eapply safe_bind; [apply tensordot_nd_safe; auto; apply nonneg_of_nat|]. intros C OC. apply nd_new_safe. intros _. exact OC.
Qed.
Lemma good_vec : forall v : list F, good (VArr [length v] v).
Proof. intros v _. simpl. rewrite Nat.mul_1_r. reflexivity. Qed.
Lemma do_vecdot_safe : forall x sh d ax, kept x -> mul_demand x sh < i64_max -> safe good (do_vecdot e x (VArr sh d) ax).
Proof.
  intros x sh d ax K D. pose proof (do_matmul_safe x sh d K D) as MM. destruct sh as [|n [|n1 sh]]; try exact I.
  destruct x as [X|X|X|X|? ?|? ?|? ?]; cbn [do_vecdot mul_demand] in *; try (destruct (_ =? 1); [exact MM|]; destruct (_ =? 0); exact I).
  - destruct (_ =? 1); [exact MM|]. destruct (_ =? 0); [|exact I]. apply safe_assert. intros EN. parts K. eapply safe_bind; [apply (vecdot_csr_safe NL); auto|]. intros v _. apply good_vec.
  - destruct (_ =? 1); [exact MM|]. destruct (_ =? 0); [|exact I]. apply safe_assert. intros EN. parts K. eapply safe_bind; [apply (vecdot_csc_safe NL); auto|]. intros v _. apply good_vec.
  - destruct (_ =? 1); [exact MM|]. destruct (_ =? 0); [|exact I]. apply safe_assert. intros EN. parts K. eapply safe_bind; [apply (vecdot_coo_safe NL); auto|]. intros v _. apply good_vec.
  - apply fine_unit; [apply fine_axis|]. intros a. apply fine_unit; [apply fine_get|]. intros m. apply safe_assert. intros _. parts K. subst A.
    eapply safe_bind with (P := nd_ok); [|intros C OC; apply nd_new_safe; intros _; exact OC].
    unfold vecdot_coond. apply safe_assert. intros _. eapply safe_bind; [apply fine_get|]. intros m' _. apply safe_assert. intros _. apply spmv_nd_safe; auto.
Qed.

(** ** Reductions *)
Lemma fine_on : forall {A B} (P : A -> Prop) (r : res A) (f : A -> res B), safe P r -> (forall a, P a -> fine (f a)) -> fine (on r f).
Proof. intros A B P r f H1 H2. unfold on. eapply safe_bind; eauto. Qed.
Lemma fine_rmap : forall {A B} (f : A -> B) r, fine r -> fine (rmap f r).
Proof. intros A B f [a| | |] H; simpl in *; auto. Qed.
Lemma fine_transposed : forall {B} (f : Cs F -> res B) (A : Cs F), cs_ok A -> alloc_ok (major A) -> (forall T, fine (f T)) ->
  fine (after_transpose (e_threads e) (e_il e 0) (e_sch e 0) (e_srt e 0) f A).
Proof. intros B f A OK A1 H. apply fine_after_transpose; auto. Qed.
Ltac cs_red := first
  [ apply fine_rayon_sum; assumption
  | apply fine_best_all | apply fine_prod_all | apply fine_var_all
  | apply fine_major_bests | apply fine_major_prods | apply fine_major_vars | apply fine_major_alls | apply fine_major_anys
  | apply fine_coo_bests | apply fine_coo_prods | apply fine_coo_vars
  | apply fine_rmap; cs_red
  | apply fine_transposed; [assumption|assumption|intros; cs_red]
  | exact I ].
Lemma reduce_csr_safe : forall op X axis kd, kept (VCsr X) -> safe good (reduce_csr e op X axis kd).
Proof.
  intros op X axis kd K.
  assert (P := like_small _ _ (csr_parts_safe X K)). assert (U := like_small _ _ (csr_use_safe X K)).
  destruct op; cbn [reduce_csr]; first [apply arr_new_safe | apply bools_new_safe | apply ints_new_safe]; first [apply mean_2d_safe | apply reduce_2d_safe].
  all: try (eapply fine_on; [first [exact P | exact U]|]; intros A HA; try destruct HA as (OK & A1 & _); cs_red; fail).
  all: try (eapply fine_on; [first [exact P | exact U]|]; intros A (OK & A1 & A2 & A3 & A4); first [apply (col_sums_csr_safe NL) | apply (row_sums_csr_safe NL)]; auto; fail).
  all: first [exact I | apply fine_bincount].
Qed.
Lemma reduce_csc_safe : forall op X axis kd, kept (VCsc X) -> safe good (reduce_csc e op X axis kd).
Proof.
  intros op X axis kd K.
  assert (P := like_small _ _ (csc_parts_safe X K)). assert (U := like_small _ _ (csc_use_safe X K)).
  destruct op; cbn [reduce_csc]; first [apply arr_new_safe | apply bools_new_safe | apply ints_new_safe]; first [apply mean_2d_safe | apply reduce_2d_safe].
  all: try (eapply fine_on; [first [exact P | exact U]|]; intros A HA; try destruct HA as (OK & A1 & _); cs_red; fail).
  all: try (eapply fine_on; [first [exact P | exact U]|]; intros A (OK & A1 & A2 & A3 & A4); first [apply (col_sums_csc_safe NL) | apply (row_sums_csc_safe NL)]; auto; fail).
  all: try (eapply fine_on; [exact P|]; intros A (OK & A1 & A2 & A3 & A4); first [unfold row_alls_csc | unfold row_anys_csc]; eapply safe_bind; [apply csc_to_csr_safe; auto|]; intros; cs_red; fail).
  all: first [exact I | apply fine_bincount].
Qed.
Lemma reduce_coo_safe : forall op X axis kd, kept (VCoo X) -> safe good (reduce_coo e op X axis kd).
Proof.
  intros op X axis kd K.
  assert (P := coo_parts_safe X K). assert (U := coo_use_safe X K).
  assert (V : forall {B} (f : Csr F -> res B) (A : Coo F), coo_small A -> (forall T : Csr F, cs_ok T -> alloc_ok (major T) -> fine (f T)) -> fine (via_coo (e_srt2 e) f A)).
  { intros B f A (OK & A1 & _) Hf. unfold via_coo. eapply safe_bind; [apply coo_to_csr_safe; auto|].
    intros T (OT & M1 & M2). apply Hf; auto. unfold csr_nrows in M1. rewrite M1. exact A1. }
  destruct op; cbn [reduce_coo]; first [apply arr_new_safe | apply bools_new_safe | apply ints_new_safe]; first [apply mean_2d_safe | apply reduce_2d_safe].
  all: try (eapply fine_on; [first [exact P | exact U]|]; intros A HA; try destruct HA as (OK & A1 & _); cs_red; fail).
  all: try (eapply fine_on; [first [exact P | exact U]|]; intros A ((OK & A1 & A2 & A3 & A4) & _); first [apply (col_sums_coo_safe NL) | apply (row_sums_coo_safe NL)]; auto; fail).
  all: try (eapply fine_on; [exact P|]; intros A ((OK & A1 & A2 & A3 & A4) & _); first [unfold all_coo | unfold any_coo]; eapply safe_bind; [apply coo_to_csr_safe; auto|]; intros; cs_red; fail).
  all: try (eapply fine_on; [exact P|]; intros A (HA & _); apply V; auto; intros T OK A1; cs_red; fail).
  all: first [exact I | apply fine_bincount].
Qed.

Lemma parts_cases : forall X : Nd F, kept (VNd X) -> nd_parts X = Panic \/ (nd_parts X = Ok X /\ nd_ok X /\ nd_small X).
Proof.
  intros X K. destruct (safe_split _ _ (nd_parts_safe X K)) as [->|(A & -> & -> & OK & SM)]; auto.
Qed.
Lemma count_ones : forall n, fold_right Nat.mul 1%nat (repeat 1%nat n) = 1%nat.
Proof. induction n; cbn [repeat fold_right]; lia. Qed.
Lemma reduce_coond_safe : forall op X axis kd, kept (VNd X) -> safe good (reduce_coond e op X axis kd).
Proof.
  intros op X axis kd K.
  assert (R : forall red, axes_kernel red ->
    safe (fun o => match o with None => True | Some C => nd_ok C end)
      (reduce_nd (fun axes => let! A := nd_parts X in red (e_srt e 0) A axes) (length (nd_shape X)) axis kd)).
  { intros red HK. destruct (parts_cases X K) as [->|(-> & OK & SM)].
    - cbn [bind]. unfold reduce_nd. eapply safe_bind; [apply fine_norm|]. intros [axes|] _; [|exact I]. destruct axes; exact I.
    - cbn [bind]. apply (reduce_nd_safe red (e_srt e 0) X); auto. }
  assert (T : forall (s : F) b, good (VArr (if b : bool then repeat 1%nat (length (nd_shape X)) else []) [s])).
  { intros s b _. cbn [intact]. destruct b; [rewrite count_ones|]; reflexivity. }
  destruct op; try exact I; cbn [reduce_coond].
  3: { destruct axis as [|[|[]|[]]|[|]]; try exact I; intros _; reflexivity. }
  - eapply safe_bind; [apply R, reduce_sum_safe|]. intros [C|] HC; [apply nd_new_safe; intros _; exact HC|].
    parts K. eapply safe_bind; [apply fine_rayon_sum; assumption|]. intros s _. apply T.
  - eapply safe_bind; [apply R, reduce_mean_safe|]. intros [C|] HC; [apply nd_new_safe; intros _; exact HC|].
    parts K. eapply safe_bind; [apply mean_coond_safe; assumption|]. intros s _. apply T.
Qed.
Lemma do_reduce_safe : forall op x axis kd, kept x -> safe good (do_reduce e op x axis kd).
Proof.
  intros op x axis kd K. destruct x; try exact I; cbn [do_reduce];
  [apply reduce_csr_safe|apply reduce_csc_safe|apply reduce_coo_safe|apply reduce_coond_safe]; auto.
Qed.

(** ** Cumulative operations and differences *)
Definition dense_safe (f : Csr F -> res (list F)) : Prop := forall A, cs_ok A -> alloc_ok (csr_nrows A) -> alloc_ok (csr_nrows A * csr_ncols A) ->
  safe (fun out => length out = (csr_nrows A * csr_ncols A)%nat) (f A).
Lemma arr_reshape : forall sh (v : list F), safe good (arr_new (VArr (F := F)) (reshape_to sh v)).
Proof. intros. apply arr_new_safe. eapply safe_imp; [apply reshape_to_safe|]. intros r H. apply H. Qed.
Lemma do_cum_safe : forall op x axis, kept x -> safe good (do_cum e op x axis).
Proof.
  intros op x axis K. unfold do_cum. apply fine_unit; [apply fine_norm|]. intros norm.
  eapply safe_bind with (P := dense_safe).
  - assert (Z0 := zero_eq NL).
    assert (S1 : dense_safe (match op with CumSum => cumsum_axis1 | CumProd => cumprod_axis1 end)).
    { intros A OK A1 A2. destruct op; [apply cumsum_axis1_safe|apply cumprod_axis1_safe]; auto. }
    assert (S0 : dense_safe (match op with CumSum => cumsum_axis0 (e_threads e) (e_il e 0) (e_sch e 0) (e_srt e 0) | CumProd => cumprod_axis0 (e_threads e) (e_il e 0) (e_sch e 0) (e_srt e 0) end)).
    { intros A OK A1 A2. destruct op; apply through_dense_safe; auto; [apply cumsum_axis1_safe|apply cumprod_axis1_safe]; auto. }
    destruct norm as [[|[|[|]] [|]]|]; try exact I; assumption.
  - intros f Hf. destruct x as [X|X|X|X|? ?|? ?|? ?]; try exact I.
    + parts K. eapply safe_bind; [apply Hf; auto|]. intros v _. apply arr_reshape.
    + parts K. unfold via_csc. eapply safe_bind with (P := fun _ => True); [|intros v _; apply arr_reshape].
      eapply safe_bind; [apply csc_to_csr_safe; auto|]. intros R (OR & M1 & M2). eapply safe_any. apply Hf; auto.
      * unfold csc_nrows in M1. rewrite M1. exact A2.
      * unfold csc_nrows, csc_ncols in *. rewrite M1, M2, Nat.mul_comm. exact A3.
    + parts K. unfold via_coo. eapply safe_bind with (P := fun _ => True); [|intros v _; apply arr_reshape].
      eapply safe_bind; [apply coo_to_csr_safe; auto|]. intros R (OR & M1 & M2). eapply safe_any. apply Hf; auto.
      * rewrite M1. exact A1.
      * rewrite M1, M2. exact A3.
Qed.
Lemma alloc_le : forall a b, (a <= b)%nat -> alloc_ok b -> alloc_ok a.
Proof. unfold alloc_ok. intros. lia. Qed.
Lemma diff_safe : forall (b : bool) (A : Csr F) n, cs_ok A -> alloc_ok (csr_nrows A) -> alloc_ok (csr_ncols A) ->
  safe (fun B : Csr F => cs_ok B /\ (csr_nrows B <= csr_nrows A)%nat)
    (if b then diff_csr_axis0 (e_threads e) (e_il e 0) (e_sch e 0) (e_srt e 0) (e_sch e 1) (e_srt e 1) (e_sch e 2) (e_srt e 2) A n
     else diff_csr_axis1 (e_sch e 1) (e_srt e 1) A n).
Proof.
  intros b A n OK A1 A2. assert (Z0 := zero_eq NL). destruct b.
  - eapply safe_imp; [apply diff0_safe; auto|]. intros B (OB & L & _). auto.
  - eapply safe_imp; [apply diff1_safe; auto|]. intros B (OB & L & _). split; auto. rewrite L. auto.
Qed.
Lemma do_diff_safe : forall x n axis, kept x -> safe good (do_diff e x n axis).
Proof.
  intros x n axis K. unfold do_diff. apply safe_assert. intros _. destruct x as [X|X|X|X|? ?|? ?|? ?]; try exact I.
  - parts K. eapply safe_bind; [apply diff_safe; auto|]. intros B (OB & _). apply csr_new_safe; auto.
  - parts K. eapply safe_bind with (P := cs_ok); [|intros B OB; apply csc_new_safe; auto].
    match goal with |- safe _ (if ?b then _ else _) => set (b0 := b) end.
    assert (S : safe (fun B : Csc F => cs_ok B) (let! R := csc_to_csr (e_il e 1) (e_sch e 3) A in
       let! B := if b0 then diff_csr_axis0 (e_threads e) (e_il e 0) (e_sch e 0) (e_srt e 0) (e_sch e 1) (e_srt e 1) (e_sch e 2) (e_srt e 2) R n
                 else diff_csr_axis1 (e_sch e 1) (e_srt e 1) R n in csr_to_csc (e_il e 2) (e_sch e 4) B)).
    { eapply safe_bind; [apply csc_to_csr_safe; auto|]. intros R (OR & M1 & M2). unfold csc_nrows, csc_ncols in *.
      eapply safe_bind; [apply diff_safe; auto; [rewrite M1; exact A2|rewrite M2; exact A1]|]. intros B (OB & L). 
      eapply safe_imp; [apply csr_to_csc_safe; auto; eapply alloc_le; [exact L|rewrite M1; exact A2]|]. intros C HC. apply HC. }
    destruct b0; exact S.
  - parts K. eapply safe_bind with (P := coo_ok); [|intros B OB; apply coo_new_safe; auto].
    match goal with |- safe _ (if ?b then _ else _) => set (b0 := b) end.
    assert (S : safe (fun B : Coo F => coo_ok B) (let! R := coo_to_csr (e_srt2 e) A in
       let! B := if b0 then diff_csr_axis0 (e_threads e) (e_il e 0) (e_sch e 0) (e_srt e 0) (e_sch e 1) (e_srt e 1) (e_sch e 2) (e_srt e 2) R n
                 else diff_csr_axis1 (e_sch e 1) (e_srt e 1) R n in csr_to_coo (e_schc e) B)).
    { eapply safe_bind; [apply coo_to_csr_safe; auto|]. intros R (OR & M1 & M2).
      eapply safe_bind; [apply diff_safe; auto; [rewrite M1; exact A1|rewrite M2; exact A2]|]. intros B (OB & L).
      destruct (C06_csr_to_coo _ (e_schc e) B Fschc OB) as (C & -> & OC & _); [eapply alloc_le; [exact L|rewrite M1; exact A1]|]. exact OC. }
    destruct b0; exact S.
Qed.

(** ** Reading *)
Lemma densify_safe : forall x, kept x -> safe sized (densify x).
Proof.
  intros x K. destruct x as [X|X|X|X|sh d|sh d|sh d]; try exact I; cbn [densify as_float64].
  - eapply safe_bind; [apply csr_toarray_safe|]. intros m R. apply (rect_concat _ _ _ R).
  - eapply safe_bind; [apply csc_toarray_safe|]. intros m R. apply (rect_concat _ _ _ R).
  - eapply safe_bind; [apply coo_toarray_safe|]. intros m R. apply (rect_concat _ _ _ R).
  - eapply safe_bind; [apply nd_toarray_safe|]. intros m L. exact L.
  - apply K.
  - cbn [safe]. unfold sized. cbn [fst snd]. rewrite map_length. apply K.
  - cbn [safe]. unfold sized. cbn [fst snd]. rewrite map_length. apply K.
Qed.
Lemma do_toarray_safe : forall x, kept x -> safe good (do_toarray x).
Proof. intros x K. pose proof (densify_safe x K) as S. destruct x as [X|X|X|X|sh d|? ?|? ?]; try exact I; apply arr_new_safe; exact S. Qed.
Lemma do_compare_safe : forall c x y, kept x -> kept y -> safe good (do_compare c x y).
Proof.
  intros c x y KX KY. unfold do_compare. apply safe_assert. intros _. eapply safe_bind; [apply densify_safe; auto|]. intros dx _.
  eapply safe_bind; [apply densify_safe; auto|]. intros dy _. apply bools_new_safe. unfold np_compare. destruct (np_broadcast _ _) as [sh|]; [|exact I].
  cbn [safe]. unfold sized. cbn [fst snd]. rewrite map_length. apply np_keys_length.
Qed.
Lemma do_getitem_safe : forall x i j, safe good (do_getitem e x i j).
Proof.
  intros x i j. destruct x as [X|X|X|X|sh d|? ?|? ?]; try exact I. cbn [do_getitem]. apply fine_unit; [|intros v _; reflexivity].
  unfold csr_getitem. destruct (_ && _); [apply fine_lookup|exact I].
Qed.
Lemma do_getrow_safe : forall x i, safe good (do_getrow x i).
Proof.
  intros x i. destruct x as [X|X|X|X|sh d|? ?|? ?]; try exact I. cbn [do_getrow]. apply fine_unit; [|intros v; apply good_vec].
  unfold csr_getrow. apply fine_bind; [apply fine_py_get|]. intros s. apply fine_bind; [apply fine_py_get|]. intros t. eapply safe_any. apply np_assign_safe.
Qed.
Lemma do_getcol_safe : forall x i, safe good (do_getcol e x i).
Proof.
  intros x i. destruct x as [X|X|X|X|sh d|? ?|? ?]; try exact I. cbn [do_getcol]. apply fine_unit; [|intros v; apply good_vec].
  unfold csr_getcol. apply fine_mapM. intros. apply fine_lookup.
Qed.

(** ** N-D operations *)
Lemma fine_axes : forall l, fine (to_axes l).
Proof. intros. unfold to_axes. destruct (forallb _ _); exact I. Qed.
Lemma do_permute_safe : forall x p, kept x -> safe good (do_permute x p).
Proof.
  intros x p K. destruct x as [X|X|X|X|sh d|? ?|? ?]; try exact I. cbn [do_permute]. apply fine_unit; [apply fine_axes|]. intros q. parts K.
  eapply safe_bind; [apply permute_safe; auto|]. intros B HB. apply nd_new_safe; auto.
Qed.
Lemma do_reshape_safe : forall x sh, kept x -> safe good (do_reshape e x sh).
Proof.
  intros x sh K. destruct x as [X|X|X|X|? d|? ?|? ?]; try exact I. cbn [do_reshape]. apply safe_assert. intros NN. parts K.
  eapply safe_bind; [apply reshape_safe; auto|].
  - rewrite forallb_forall in NN. apply Forall_forall. intros n Hn. apply NN in Hn. lia.
  - intros B HB. apply nd_new_safe; auto.
Qed.
Lemma do_reduce_axes_safe : forall op x p, kept x -> safe good (do_reduce_axes e op x p).
Proof.
  intros op x p K. destruct x as [X|X|X|X|sh d|? ?|? ?]; try exact I. cbn [do_reduce_axes]. apply fine_unit; [apply fine_axes|]. intros q. parts K.
  eapply safe_bind with (P := nd_ok); [|intros B HB; apply nd_new_safe; intros _; exact HB].
  destruct op; (eapply safe_imp; [first [apply reduce_sum_safe|apply reduce_mean_safe]; auto|]); intros B HB; apply HB.
Qed.
Lemma do_unfold_safe : forall f x p, kept x -> safe good (do_unfold e f x p).
Proof.
  intros f x p K. destruct x as [X|X|X|X|sh d|? ?|? ?]; try exact I. cbn [do_unfold]. apply fine_unit; [apply fine_axes|]. intros q. parts K.
  destruct f; (eapply safe_bind; [first [apply unfold_csr_safe|apply unfold_csc_safe]; auto|]); intros B HB; new_one; auto.
Qed.
Lemma do_mode_safe : forall f x p, kept x -> safe good (do_mode e f x p).
Proof.
  intros f x p K. destruct x as [X|X|X|X|sh d|? ?|? ?]; try exact I. cbn [do_mode]. apply safe_assert. intros _. parts K.
  destruct f; unfold coond_mode_to_csr, coond_mode_to_csc; (eapply safe_bind; [apply safe_assert; intros _; first [apply unfold_csr_safe|apply unfold_csc_safe]; auto|]); intros B HB; new_one; auto.
Qed.

(** ** One call, and histories *)
Lemma new_csr_safe : forall nr nc p i (d : list F) ck, valid_arguments (NewCsr nr nc p i d ck) ->
  safe good (let! X := csr_init nr nc p i d ck in Ok (VCsr X)).
Proof.
  intros nr nc p i d ck (AP & II & V).
  assert (G : cs_ok (mkCs nr nc p i d) -> good (VCsr (mkPyCs (mkCs nr nc p i d) (csr_from_parts nr nc p i d false)))).
  { intros OK _. cbn [intact py_arrays py_handle]. split; auto. intros H E. apply cs_from_parts_value in E. subst H. auto. }
  unfold csr_init. destruct ck; [|destruct V as [V|V]; [discriminate|apply G; exact V]].
  destruct (csr_from_parts nr nc p i d true) as [B|] eqn:E; [|exact I]. apply G. apply can_ok.
  apply (cs_from_parts_iff nr nc p i d); [unfold alloc_ok, i64_max, usize_max in *; lia|auto|]. exists B. exact E.
Qed.
Lemma kept_nth : forall h n (x : value F), Forall kept h -> nth_error h n = Some x -> kept x.
Proof. intros h n x H E. rewrite Forall_forall in H. apply H. eapply nth_error_In; eauto. Qed.
Lemma exec_safe : forall h c, Forall kept h -> valid_arguments c -> demand h c < i64_max -> safe good (exec e h c).
Proof.
  intros h c HK V D.
  destruct c; cbn [exec]; try exact I;
  try (eapply safe_bind; [apply safe_get_checked|]; intros x Ex; pose proof (kept_nth _ _ _ HK Ex) as Kx; cbv beta in Ex);
  try (eapply safe_bind; [apply safe_get_checked|]; intros y Ey; pose proof (kept_nth _ _ _ HK Ey) as Ky; cbv beta in Ey).
  - apply new_csr_safe; auto.
  - intros _. cbn [intact py_arrays py_handle]. split; auto. intros H E. apply cs_from_parts_value in E. subst H. auto.
  - eapply safe_bind with (P := fun X => intact (VCoo X)); [|intros X HX _; exact HX]. unfold coo_init.
    eapply safe_bind; [apply coo_from_parts_shape|]. intros o E. simpl. split; auto. intros H E'. apply E in E'. subst H. auto.
  - unfold nd_init. destruct (_ =? 0)%nat; [exact I|]. destruct (negb _); [exact I|]. intros _. exact V.
  - apply arr_reshape.
  - apply csr_new_safe. apply empty_ok.
  - apply csr_new_small. cbn [major eye_csr]. intros A. assert (L : length (repeat (f1 : F) n) = n) by apply repeat_length.
    pose proof (diag_ok (repeat (f1 : F) n)) as O. rewrite L in O. apply O. exact A.
  - apply csr_new_small. cbn [major diag_csr]. apply diag_ok.
  - apply do_unary_safe; auto.
  - apply do_scalar_safe; auto.
  - apply do_binary_safe; auto. intros A B -> -> ->. cbn [demand] in D. rewrite Ex, Ey in D. exact D.
  - cbn [demand] in D. rewrite Ex, Ey in D. cbn [option_map] in D. destruct y as [Y|Y|Y|Y|sh d|sh d|sh d]; try (destruct x; exact I);
      cbn [as_float64] in *; apply do_matmul_safe; auto; destruct x; try exact D; reflexivity.
  - cbn [demand] in D. rewrite Ex, Ey in D. cbn [option_map] in D. destruct y as [Y|Y|Y|Y|sh d|sh d|sh d]; try (destruct x; exact I); cbn [as_float64] in D.
    + apply do_tensordot_safe; auto. destruct x; try exact D; reflexivity.
    + cbn [do_tensordot]. destruct sh as [|n1 [|? ?]]; try exact I. apply safe_assert. intros _. apply do_matmul_safe; auto. destruct x; try exact D; reflexivity.
    + cbn [do_tensordot]. destruct sh as [|n1 [|? ?]]; try exact I. apply safe_assert. intros _. apply do_matmul_safe; auto. destruct x; try exact D; reflexivity.
  - cbn [demand] in D. rewrite Ex, Ey in D. cbn [option_map] in D. destruct y as [Y|Y|Y|Y|sh d|sh d|sh d]; try (destruct x; exact I); cbn [as_float64] in D.
    + apply do_vecdot_safe; auto. destruct x; try exact D; reflexivity.
    + cbn [do_vecdot]. destruct sh as [|n1 [|? ?]]; try exact I. apply safe_assert. intros _. apply do_matmul_safe; auto. destruct x; try exact D; reflexivity.
    + cbn [do_vecdot]. destruct sh as [|n1 [|? ?]]; try exact I. apply safe_assert. intros _. apply do_matmul_safe; auto. destruct x; try exact D; reflexivity.
  - apply do_reduce_safe; auto.
  - apply do_cum_safe; auto.
  - apply do_diff_safe; auto.
  - apply do_getitem_safe; auto.
  - apply do_getrow_safe; auto.
  - apply do_getcol_safe; auto.
  - apply do_toarray_safe; auto.
  - apply do_compare_safe; auto.
  - apply do_permute_safe; auto.
  - apply do_reshape_safe; auto.
  - apply do_reduce_axes_safe; auto.
  - apply do_unfold_safe; auto.
  - apply do_mode_safe; auto.
Qed.
Lemma set_data_safe : forall x k v, kept x -> safe intact (set_data x k v).
Proof.
  intros x k v [K _]. destruct x as [X|X|X|X|sh d|? ?|? ?]; try exact I; cbn [set_data]; (eapply safe_bind; [apply py_set_safe|]); intros d' L.
  - destruct K as [OK S]. cbn [safe intact py_arrays py_handle]. cbn [major minor ptr idx dat]. split; [apply refill_ok; auto|]. rewrite L. exact S.
  - destruct K as [OK S]. cbn [safe intact py_arrays py_handle]. cbn [major minor ptr idx dat]. split; [apply refill_ok; auto|]. rewrite L. exact S.
  - destruct K as [OK S]. cbn [safe intact pyc_arrays pyc_handle]. cbn [coo_nrows coo_ncols coo_row coo_col coo_data]. rewrite L. split; [|exact S].
    destruct OK. constructor; cbn [coo_nrows coo_ncols coo_row coo_col coo_data]; auto; congruence.
  - cbn [safe intact]. destruct K as [K1 K2 K3]. constructor; cbn [nd_shape nd_idx nd_dat]; auto; [congruence|].
    unfold nd_keys in *. cbn [nd_shape nd_idx nd_dat]. rewrite L. exact K3.
Qed.
Lemma upd_All : forall {A} (P : A -> Prop) l n a, Forall P l -> P a -> Forall P (upd l n a).
Proof. intros. apply upd_Forall; auto. Qed.
Lemma step_safe : forall h c, Forall kept h -> valid_arguments c -> demand h c < i64_max ->
  safe (fun h' => forallb fits h' = true -> Forall kept h') (step e h c).
Proof.
  intros h c HK V D.
  assert (W : forall c', c' = c -> safe (fun h' => forallb fits h' = true -> Forall kept h') (let! v := exec e h c' in Ok (h ++ [v]))).
  { intros c' ->. eapply safe_bind; [apply exec_safe; auto|]. intros v G FT. rewrite forallb_app in FT. apply andb_true_iff in FT. destruct FT as [_ FT].
    cbn [forallb] in FT. rewrite andb_true_r in FT. apply Forall_app. split; auto. constructor; [|constructor]. split; auto. }
  destruct c as [| | | | | | | | | | | | | | | | | | | | | | | | | | |a k v]; try (cbn [step]; apply W; reflexivity).
  cbn [step]. eapply safe_bind; [apply safe_get_checked|]. intros x Ex. pose proof (kept_nth _ _ _ HK Ex) as Kx.
  eapply safe_bind; [apply set_data_safe; exact Kx|]. intros y Hy FT.
  assert (HI : Forall intact (upd h a y)).
  { apply upd_All; auto. eapply Forall_impl; [|exact HK]. intros z Hz. apply Hz. }
  rewrite Forall_forall in *. rewrite forallb_forall in FT. intros z Hz. split; auto.
Qed.
End Obj.

Theorem run_safe : forall {F : Fl} (NL : NLaws F) l (h : list (value F)),
  Forall (fun ec => fair (fst ec) /\ valid_arguments (snd ec)) l -> Forall kept h ->
  match run h l with Running h' => Forall kept h' | TooBig => True | Crashed => False end.
Proof.
  intros F NL. induction l as [|[e c] l IH]; intros h HL HK; [exact HK|].
  inversion HL as [|? ? [FE V] HL']; subst. cbn [fst snd] in *. cbn [run]. destruct (Z.leb_spec i64_max (demand h c)) as [D|D]; [exact I|].
  pose proof (step_safe NL e FE h c HK V D) as S. destruct (step e h c) as [h'| | |]; try contradiction; [|apply IH; auto].
  destruct (forallb fits h') eqn:FT; [|exact I]. apply IH; auto.
Qed.
