(** Proofs about vecdot, the dense matrix products and exact arithmetic. *)
Require Import List ZArith NArith Nnat Bool Arith Lia Permutation.
Require Import Verif.Res Verif.Values Verif.Spec Verif.Mem Verif.Lists Verif.CsLib Verif.Laws Verif.MHash Verif.PHash Verif.MAcc Verif.PAcc Verif.Loops Verif.MNd Verif.MNd2 Verif.MScalar Verif.PScalar Verif.MConvert Verif.MLinalg Verif.PLinalg.
Import ListNotations.
Local Open Scope Z_scope.

Section Vecdot.
Context {F : Fl} (Z0 : feqb (f0 : F) f0 = true).
Notation ops := (list (Z * F)).

Definition row_pure (A : Csr F) (x : list F) (i : nat) : ops :=
  if feqb (nth i x f0) f0 then [] else map (fun e => (fst e, fmul (snd e) (nth i x f0))) (cs_row A i).

Lemma row_ops_ok : forall (A : Csr F) x i, cs_ok A -> alloc_ok (length (dat A)) -> alloc_ok (csr_ncols A) -> length x = csr_nrows A -> (i < csr_nrows A)%nat ->
  row_ops A x i = Ok (row_pure A x i).
Proof.
  intros A x i OK AD AR LX Hi. unfold row_ops, row_pure, get_checked.
  destruct (nth_error x i) as [w|] eqn:E; [|apply nth_error_None in E; unfold csr_nrows in *; lia]. cbn [bind].
  rewrite (nth_error_nth _ _ f0 E). destruct (feqb w f0); auto. rewrite row_checked_ok by auto. cbn [bind].
  f_equal. pose proof (row_bounds A i OK Hi) as B. unfold in_bounds in B.
  eapply map_ext_Forall; [exact B|]. intros e He. cbv beta in He. rewrite to_usize_id; auto.
  unfold alloc_ok, csr_ncols, i64_max, usize_max in *. lia.
Qed.

Lemma row_pure_terms : forall (A : Csr F) x j, at_index (Z.of_nat j) (concat (map (row_pure A x) (seq 0 (csr_nrows A)))) = dot_terms_nz (transposed (csr_at A)) (csr_nrows A) x j.
Proof.
  intros. rewrite at_index_concat_map. unfold dot_terms_nz. apply flat_map_ext. intros i. unfold row_pure, transposed, csr_at, cs_at.
  destruct (feqb (nth i x f0) f0); auto. apply (at_index_map_val (Z.of_nat j) (fun v => fmul v (nth i x f0))).
Qed.

Lemma row_pure_below : forall (A : Csr F) x, cs_ok A -> slots_below (csr_ncols A) (concat (map (row_pure A x) (seq 0 (csr_nrows A)))).
Proof.
  intros A x OK. apply Forall_forall. intros e I. apply in_concat in I. destruct I as (l & Il & I). apply in_map_iff in Il.
  destruct Il as (j & <- & Ij). apply in_seq in Ij. unfold row_pure in I. destruct (feqb (nth j x f0) f0); [contradiction|].
  apply in_map_iff in I. destruct I as (e' & <- & I).
  pose proof (row_bounds A j OK ltac:(unfold csr_nrows in *; lia)) as B. unfold in_bounds in B. rewrite Forall_forall in B. specialize (B _ I). cbn [fst]. unfold csr_ncols. tauto.
Qed.

Lemma STRIPE_pos : (0 < STRIPE)%nat.
Proof. unfold STRIPE. change 0%nat with (N.to_nat 0). lia. Qed.

Lemma vecdot_csr_axis0_ok : forall dist (A : Csr F) x, is_distribution dist -> cs_ok A -> alloc_ok (length (dat A)) -> alloc_ok (csr_ncols A) ->
  length x = csr_nrows A ->
  exists y, vecdot_csr_axis0 dist A x = Ok y /\ length y = csr_ncols A /\
    forall j, (j < csr_ncols A)%nat -> FSum (dot_terms_nz (transposed (csr_at A)) (csr_nrows A) x j) (nth j y f0).
Proof.
  intros dist A x HD OK AD AC LX. unfold vecdot_csr_axis0. rewrite LX, Nat.eqb_refl.
  destruct (Nat.eqb_spec (csr_ncols A) 0) as [E0|N0].
  { exists []. rewrite E0. split; auto. split; auto. intros. lia. }
  destruct (work_ranges_ok A OK AD) as (rs & ER & LO & CV). rewrite ER. cbn [bind].
  rewrite (range_tasks_ok _ (row_pure A x) rs (csr_nrows A)); auto. 2:{ intros. apply row_ops_ok; auto. }
  cbn [bind].
  destruct (accumulates_eq _ _ dist (map (fun r => concat (map (row_pure A x) (range r))) rs) (concat (map (row_pure A x) (seq 0 (csr_nrows A)))) (tls_stripes_ok Z0 STRIPE (csr_ncols A) STRIPE_pos)) as (y & E & L & FS); auto.
  - rewrite concat_concat_flat. rewrite (concat_laid_out _ rs 0 (csr_nrows A)); auto; [rewrite Nat.sub_0_r; auto|].
    intros k Hk. destruct (CV k) as [I|I]; [unfold csr_nrows in *; lia|auto|]. right. unfold row_pure. rewrite I. cbn [map]. destruct (feqb (nth k x f0) f0); reflexivity.
  - apply row_pure_below; auto.
  - exists y. split; auto. split; auto. intros j Hj. rewrite <- row_pure_terms. auto.
Qed.

Lemma land_low : forall a b, 0 <= a -> 0 <= b -> Z.land a (2 ^ b - 1) = a mod 2 ^ b.
Proof. intros. rewrite <- Z.land_ones by auto. f_equal. rewrite Z.ones_equiv. lia. Qed.

Lemma dot_col_ok : forall (A : Csc F) x j, cs_ok A -> alloc_ok (length (dat A)) -> alloc_ok (csc_nrows A) -> length x = csc_nrows A -> (j < csc_ncols A)%nat ->
  dot_col A x j = Ok (fma_sum x (cs_row A j)).
Proof.
  intros A x i OK AD AC LX Hi. unfold csc_nrows, csc_ncols in *. unfold dot_col, get_checked.
  rewrite !ptr_nth by (auto; lia). cbn [bind].
  pose proof (ptr_range A i OK ltac:(lia)) as R1. pose proof (ptr_range A (S i) OK ltac:(lia)) as R2.
  pose proof (ptr_mono A i (S i) OK ltac:(lia) ltac:(lia)) as M.
  assert (EL : length (idx A) = length (dat A)) by (destruct OK; tauto).
  unfold alloc_ok, i64_max in AD. rewrite !to_usize_id by (unfold usize_max; lia). cbv zeta.
  unfold fma_sum, cs_row.
  set (s := nth i (ptr A) 0) in *. set (e := nth (S i) (ptr A) 0) in *. clearbody s e.
  transitivity (foldM (fma_one A x) (seq (Z.to_nat s) (Z.to_nat (e - s))) f0).
  2:{ rewrite fma_range by (auto; lia). replace (Z.to_nat s + Z.to_nat (e - s))%nat with (Z.to_nat e) by lia. auto. }
  assert (UP : forall b m q p, 2 ^ b - 1 = m -> 2 ^ b = q -> 0 <= b <= 10 -> s <= Z.of_nat p <= e ->
    Z.to_nat ((e - Z.land ((e - Z.of_nat p) mod 2 ^ 64) m) mod 2 ^ 64) = Z.to_nat (e - (e - Z.of_nat p) mod q)).
  { intros b m q p <- <- Hb Hp. rewrite (Z.mod_small (e - Z.of_nat p)) by lia. rewrite land_low by lia.
    assert (0 <= (e - Z.of_nat p) mod 2 ^ b <= e - Z.of_nat p).
    { pose proof (Z.pow_pos_nonneg 2 b). split; [apply Z.mod_pos_bound; lia|apply Z.mod_le; lia]. }
    rewrite Z.mod_small by lia. auto. }
  rewrite (UP 4 15 16 (Z.to_nat s)) by lia. rewrite Z2Nat.id by lia.
  remember (e - s) as L eqn:HL. assert (L0 : 0 <= L) by lia.
  pose proof (Z.div_mod L 16 ltac:(lia)) as D16. pose proof (Z.mod_pos_bound L 16 ltac:(lia)) as B16.
  remember (Z.to_nat (e - L mod 16)) as l16 eqn:H16.
  assert (E16 : Z.of_nat l16 = s + 16 * (L / 16)) by lia.
  assert (N16 : (l16 - Z.to_nat s = Z.to_nat (L / 16) * 16)%nat) by (clear - L0 E16 R1 D16 B16; lia).
  assert (O16 : s <= Z.of_nat l16 <= e) by (clear - L0 E16 R1 D16 B16 HL; lia). clear D16 B16 H16 E16.
  rewrite (step_loop_fold (fma_one A x) 16); [|lia|intros; apply (fma_sixteen_fold Z0)|lia|lia|exists (Z.to_nat (L / 16)); lia].
  destruct (foldM (fma_one A x) (seq (Z.to_nat s) (l16 - Z.to_nat s)) f0) as [a| | |] eqn:EA.
  2-4: exfalso; rewrite fma_range in EA by (auto; lia); discriminate.
  cbn [bind]. rewrite (UP 3 7 8 l16) by lia.
  remember (Z.to_nat (e - (e - Z.of_nat l16) mod 8)) as l8 eqn:H8.
  pose proof (Z.div_mod (e - Z.of_nat l16) 8 ltac:(lia)) as D8. pose proof (Z.mod_pos_bound (e - Z.of_nat l16) 8 ltac:(lia)) as B8.
  assert (E8 : Z.of_nat l8 = Z.of_nat l16 + 8 * ((e - Z.of_nat l16) / 8)) by (clear - D8 B8 H8 O16 R1; lia).
  assert (N8 : (l8 - l16 = Z.to_nat ((e - Z.of_nat l16) / 8) * 8)%nat) by (clear - E8 O16 D8 B8; lia).
  assert (O8 : Z.of_nat l16 <= Z.of_nat l8 <= e) by (clear - E8 O16 D8 B8; lia). clear D8 B8 H8 E8.
  rewrite (step_loop_fold (fma_one A x) 8); [|lia|intros; apply (fma_eight_fold Z0)|lia|lia|exists (Z.to_nat ((e - Z.of_nat l16) / 8)); lia].
  destruct (foldM (fma_one A x) (seq l16 (l8 - l16)) a) as [a1| | |] eqn:EA1.
  2-4: exfalso; rewrite fma_range in EA1 by (auto; lia); discriminate.
  cbn [bind]. rewrite (UP 2 3 4 l8) by lia.
  remember (Z.to_nat (e - (e - Z.of_nat l8) mod 4)) as l4 eqn:H4.
  pose proof (Z.div_mod (e - Z.of_nat l8) 4 ltac:(lia)) as D4. pose proof (Z.mod_pos_bound (e - Z.of_nat l8) 4 ltac:(lia)) as B4.
  assert (E4 : Z.of_nat l4 = Z.of_nat l8 + 4 * ((e - Z.of_nat l8) / 4)) by (clear - D4 B4 H4 O16 O8 R1; lia).
  assert (N4 : (l4 - l8 = Z.to_nat ((e - Z.of_nat l8) / 4) * 4)%nat) by (clear - E4 O8 D4 B4; lia).
  assert (O4 : Z.of_nat l8 <= Z.of_nat l4 <= e) by (clear - E4 O8 D4 B4; lia). clear D4 B4 H4 E4.
  rewrite (step_loop_fold (fma_one A x) 4); [|lia|intros; apply (fma_four_fold Z0)|lia|lia|exists (Z.to_nat ((e - Z.of_nat l8) / 4)); lia].
  destruct (foldM (fma_one A x) (seq l8 (l4 - l8)) a1) as [a2| | |] eqn:EA2.
  2-4: exfalso; rewrite fma_range in EA2 by (auto; lia); discriminate.
  cbn [bind]. rewrite step_loop_one by lia.
  replace (Z.to_nat L) with ((l16 - Z.to_nat s) + ((l8 - l16) + ((l4 - l8) + (Z.to_nat e - l4))))%nat by lia.
  rewrite foldM_seq_app, EA. cbn [bind]. replace (Z.to_nat s + (l16 - Z.to_nat s))%nat with l16 by lia.
  rewrite foldM_seq_app, EA1. cbn [bind]. replace (l16 + (l8 - l16))%nat with l8 by lia.
  rewrite foldM_seq_app, EA2. cbn [bind]. replace (l8 + (l4 - l8))%nat with l4 by lia.
  destruct (foldM (fma_one A x) (seq l4 (Z.to_nat e - l4)) a2); auto.
Qed.

Lemma vecdot_csc_axis0_ok : forall (A : Csc F) x, cs_ok A -> alloc_ok (length (dat A)) -> alloc_ok (csc_nrows A) -> length x = csc_nrows A ->
  vecdot_csc_axis0 A x = Ok (map (fun j => fma_sum x (cs_row A j)) (seq 0 (csc_ncols A))).
Proof.
  intros A x OK AD AR LX. unfold vecdot_csc_axis0. rewrite LX, Nat.eqb_refl. apply mapM_ok. intros j I. apply in_seq in I.
  apply dot_col_ok; auto. lia.
Qed.

Definition coo_pure0 (A : Coo F) (x : list F) : ops :=
  flat_map (fun e => let w := nth (Z.to_nat (fst (fst e))) x f0 in if feqb w f0 then [] else [(snd (fst e), fmul (snd e) w)]) (coo_entries A).
Definition coo_one0 (A : Coo F) (x : list F) (p : nat) : ops :=
  match nth_error (coo_entries A) p with
  | Some e => let w := nth (Z.to_nat (fst (fst e))) x f0 in if feqb w f0 then [] else [(snd (fst e), fmul (snd e) w)]
  | None => []
  end.

Lemma concat_nth_error_seq : forall {X Y} (l : list X) (f : nat -> list Y) (g : X -> list Y),
  (forall p e, nth_error l p = Some e -> f p = g e) -> concat (map f (seq 0 (length l))) = flat_map g l.
Proof.
  intros X Y l f g. revert f. induction l as [|a l IH]; intros f H; auto.
  cbn [length seq map concat flat_map]. rewrite (H 0%nat a eq_refl). f_equal.
  rewrite <- seq_shift, map_map. apply (IH (fun p => f (S p))). intros p e E. apply H. auto.
Qed.

Lemma coo_one0_all : forall (A : Coo F) x, coo_ok A -> concat (map (coo_one0 A x) (seq 0 (length (coo_data A)))) = coo_pure0 A x.
Proof.
  intros A x OK. rewrite <- coo_entries_length by auto. apply concat_nth_error_seq. intros p e E. unfold coo_one0. rewrite E. auto.
Qed.

Lemma coo_ops0_ok : forall (A : Coo F) x p, coo_ok A -> length x = coo_nrows A -> (p < length (coo_data A))%nat ->
  coo_ops0 A x p = Ok (coo_one0 A x p).
Proof.
  intros A x p OK LX Hp. destruct (coo_nth Z0 A p OK Hp) as (i & j & v & ER & EC & ED & EE & Bi & Bj & Mi & Mj).
  unfold coo_ops0, coo_one0, get_checked. rewrite ER, EC, ED, EE. cbn [bind fst snd].
  unfold i64_max, usize_max in *. rewrite !to_usize_id by (unfold usize_max; lia).
  destruct (nth_error x (Z.to_nat i)) as [xj|] eqn:EX; [|apply nth_error_None in EX; lia]. cbn [bind].
  rewrite (nth_error_nth _ _ f0 EX). destruct (feqb xj f0); auto.
Qed.

Lemma coo_pure0_terms : forall (A : Coo F) x j, coo_ok A ->
  Permutation (at_index (Z.of_nat j) (coo_pure0 A x)) (dot_terms_nz (transposed (coo_at A)) (coo_nrows A) x j).
Proof.
  intros A x j OK. unfold coo_pure0.
  set (h := fun e : Z * F => let w := nth (Z.to_nat (fst e)) x f0 in if feqb w f0 then [] else [fmul (snd e) w]).
  set (r := map (fun e : Z * Z * F => (fst (fst e), snd e)) (filter (fun e => snd (fst e) =? Z.of_nat j) (coo_entries A))).
  assert (E1 : at_index (Z.of_nat j) (flat_map (fun e : Z * Z * F => let w := nth (Z.to_nat (fst (fst e))) x f0 in if feqb w f0 then [] else [(snd (fst e), fmul (snd e) w)]) (coo_entries A)) = flat_map h r).
  { unfold r, h. clear. cbv zeta. induction (coo_entries A) as [|[[a b] v] l IH]; auto. cbn [flat_map fst snd filter]. rewrite at_index_app, IH. clear IH.
    destruct (feqb (nth (Z.to_nat a) x f0) f0) eqn:EZ; [|rewrite at_index_cons]; cbn [fst snd]; destruct (b =? Z.of_nat j); cbn [map flat_map fst snd]; rewrite ?EZ; auto. }
  cbv zeta in E1. rewrite E1.
  assert (FA : Forall (fun e => 0 <= fst e < Z.of_nat (coo_nrows A)) r).
  { apply Forall_forall. intros e I. unfold r in I. apply in_map_iff in I. destruct I as (e' & <- & I). apply filter_In in I.
    destruct I as [I _]. apply (coo_entry_in Z0 A e' OK) in I. cbn [fst]. tauto. }
  eapply Permutation_trans; [apply Permutation_flat_map; apply (group_perm (coo_nrows A)); auto|].
  unfold dot_terms_nz. rewrite !flat_map_concat_map, concat_map, map_map, <- flat_map_concat_map.
  rewrite <- (flat_map_concat_map (fun j0 : nat => if feqb (nth j0 x f0) f0 then [] else map (fun v => fmul v (nth j0 x f0)) (transposed (coo_at A) j j0))).
  assert (FM : forall (l : list nat) (f : nat -> list (Z * F)), concat (flat_map (fun a => map h (f a)) l) = flat_map (fun a => flat_map h (f a)) l).
  { induction l; intros; simpl; auto. rewrite concat_app, IHl, <- flat_map_concat_map. auto. }
  rewrite FM. erewrite flat_map_ext; [apply Permutation_refl|]. intros i. cbv beta.
  rewrite flat_map_concat_map, map_map. unfold h. cbn [fst snd]. rewrite Nat2Z.id.
  assert (EA : at_index (Z.of_nat i) r = transposed (coo_at A) j i).
  { unfold transposed, coo_at, r. clear. induction (coo_entries A) as [|[[a b] v] l IH]; auto. unfold at_cell in *. cbn [filter fst snd].
    destruct (b =? Z.of_nat j); cbn [map]; [rewrite at_index_cons; cbn [fst snd]|]; destruct (a =? Z.of_nat i); cbn [andb map snd]; rewrite ?IH; auto. }
  rewrite EA. clear. generalize (transposed (coo_at A) j i) as g. intros g.
  destruct (feqb (nth i x f0) f0); induction g as [|e g IH]; auto; cbn [map concat app]; try congruence; auto.
Qed.

Lemma coo_pure0_below : forall (A : Coo F) x, coo_ok A -> slots_below (coo_ncols A) (coo_pure0 A x).
Proof.
  intros A x OK. apply Forall_forall. intros e I. unfold coo_pure0 in I. apply in_flat_map in I. destruct I as (e' & I & J).
  cbv zeta in J. destruct (feqb (nth (Z.to_nat (fst (fst e'))) x f0) f0); [contradiction|]. destruct J as [<-|[]].
  apply (coo_entry_in Z0 A e' OK) in I. cbn [fst]. tauto.
Qed.

Lemma vecdot_coo_axis0_ok : forall nthreads dist (A : Coo F) x, is_distribution dist -> coo_ok A -> alloc_ok (coo_ncols A) ->
  length x = coo_nrows A ->
  exists y, vecdot_coo_axis0 nthreads dist A x = Ok y /\ length y = coo_ncols A /\
    forall j, (j < coo_ncols A)%nat -> FSum (dot_terms_nz (transposed (coo_at A)) (coo_nrows A) x j) (nth j y f0).
Proof.
  intros nthreads dist A x HD OK AR LX. unfold vecdot_coo_axis0. rewrite LX, Nat.eqb_refl.
  assert (EQ : forall y : list F, (forall i, (i < coo_ncols A)%nat -> FSum (at_index (Z.of_nat i) (coo_pure0 A x)) (nth i y f0)) ->
     forall i, (i < coo_ncols A)%nat -> FSum (dot_terms_nz (transposed (coo_at A)) (coo_nrows A) x i) (nth i y f0)).
  { intros y H i Hi. eapply FSum_perm; [apply coo_pure0_terms; auto|]. auto. }
  destruct (Nat.eqb_spec (coo_ncols A) 0) as [E0|N0]; cbn [orb].
  { exists (repeat f0 (coo_ncols A)). rewrite repeat_length. split; auto. split; auto. lia. }
  destruct (Nat.eqb_spec (length (coo_data A)) 0) as [E1|N1].
  { exists (repeat f0 (coo_ncols A)). rewrite repeat_length. split; auto. split; auto. apply EQ. intros i Hi. rewrite nth_repeat.
    assert (coo_pure0 A x = []) as ->. { unfold coo_pure0. pose proof (coo_entries_length Z0 A OK) as CL. rewrite E1 in CL. apply length_zero_iff_nil in CL. rewrite CL. auto. }
    apply FSum_nil0. auto. }
  destruct (chunk_tasks_ok Z0 (coo_ops0 A x) (coo_one0 A x) (chunk_len nthreads (length (coo_data A))) (length (coo_data A))) as [E1 E2].
  { apply (chunk_len_pos Z0). } { intros. apply coo_ops0_ok; auto. }
  rewrite E1. cbn [bind]. rewrite coo_one0_all in E2 by auto.
  destruct (accumulates_eq _ _ dist _ _ (tls_hash_ok Z0 (coo_ncols A) AR) HD E2 (coo_pure0_below A x OK)) as (y & E & L & FS).
  exists y. auto.
Qed.

End Vecdot.

(** ** Exact arithmetic *)
Section Exact.
Context {F : Fl} (L : ELaws F).

Lemma ex_mul_0_r : forall x : F, fmul x f0 = f0.
Proof.
  intros x. assert (E : fadd (fmul x f0) (fmul x f0) = fmul x f0).
  { rewrite (e_mul_comm F L x f0). rewrite <- (e_distr_l F L). rewrite (e_add_0_l F L). auto. }
  assert (E2 : fadd (fadd (fmul x f0) (fmul x f0)) (fneg (fmul x f0)) = fadd (fmul x f0) (fneg (fmul x f0))) by congruence.
  rewrite <- (e_add_assoc F L), (e_add_neg F L) in E2. rewrite (e_add_comm F L), (e_add_0_l F L) in E2. auto.
Qed.

Lemma fsum_scale : forall (l : list F) w, fsum (map (fun v => fmul v w) l) = fmul (fsum l) w.
Proof.
  induction l; intros w; cbn [map].
  - change (fsum (@nil F)) with (f0 : F). rewrite (e_mul_comm F L). symmetry. apply ex_mul_0_r.
  - change (fsum (fmul a w :: map (fun v => fmul v w) l)) with (fadd (fmul a w) (fsum (map (fun v => fmul v w) l))).
    change (fsum (a :: l)) with (fadd a (fsum l)). rewrite IHl. rewrite (e_distr_l F L). auto.
Qed.

Lemma fsum_flat_map : forall {X} (f : X -> list F) l, fsum (flat_map f l) = fsum (map (fun a => fsum (f a)) l).
Proof. induction l; auto. cbn [flat_map map]. rewrite (fsum_app L), IHl. auto. Qed.

Lemma dot_terms_exact : forall cell n (x : list F) i, fsum (dot_terms cell n x i) = dot_exact cell n x i.
Proof.
  intros. unfold dot_terms, dot_exact. rewrite fsum_flat_map. change (fold_right (@fadd F) f0) with (@fsum F). f_equal. apply map_ext. intros j. apply fsum_scale.
Qed.

Lemma dot_terms_nz_exact : forall cell n (x : list F) i, fsum (dot_terms_nz cell n x i) = dot_exact cell n x i.
Proof.
  intros. unfold dot_terms_nz, dot_exact. rewrite fsum_flat_map. change (fold_right (@fadd F) f0) with (@fsum F). f_equal. apply map_ext. intros j.
  destruct (feqb (nth j x f0) f0) eqn:E.
  - apply (e_eqb F L) in E. rewrite E. symmetry. apply ex_mul_0_r.
  - apply fsum_scale.
Qed.

Lemma fma_fold_exact : forall x (r : list (Z * F)) acc,
  fold_left (fun acc e => ffma (snd e) (nth (Z.to_nat (fst e)) x f0) acc) r acc =
  fadd acc (fsum (map (fun e => fmul (snd e) (nth (Z.to_nat (fst e)) x f0)) r)).
Proof.
  induction r as [|e r IH]; intros acc; cbn [fold_left map].
  - change (fsum (@nil F)) with (f0 : F). rewrite (e_add_comm F L), (e_add_0_l F L). auto.
  - rewrite IH, (e_fma F L). match goal with |- context [fsum (?a :: ?l)] => change (fsum (a :: l)) with (fadd a (fsum l)) end.
    rewrite (e_add_comm F L _ acc), <- (e_add_assoc F L). auto.
Qed.

Lemma fma_sum_exact : forall x (r : list (Z * F)), fma_sum x r = fsum (map (fun e => fmul (snd e) (nth (Z.to_nat (fst e)) x f0)) r).
Proof. intros. unfold fma_sum. rewrite fma_fold_exact, (e_add_0_l F L). auto. Qed.

Lemma fma_sum_dot : forall x n (r : list (Z * F)), Forall (fun e => 0 <= fst e < Z.of_nat n) r ->
  fma_sum x r = fold_right fadd f0 (map (fun j => fmul (fold_right fadd f0 (at_index (Z.of_nat j) r)) (nth j x f0)) (seq 0 n)).
Proof.
  intros x n r FA. rewrite fma_sum_exact. rewrite (fsum_perm L _ _ (row_terms_perm n x r FA)).
  rewrite fsum_flat_map. change (fold_right (@fadd F) f0) with (@fsum F). f_equal. apply map_ext. intros j. apply fsum_scale.
Qed.

End Exact.
