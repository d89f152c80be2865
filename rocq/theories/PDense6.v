(** Programs compute what the dense machine of SpecDense computes: N-D arrays. *)
Require Import List ZArith Bool Arith Lia QArith Qcanon Permutation.
Require Import ZifyBool ZifyNat.
Require Import Verif.Res Verif.Values Verif.Spec Verif.Mem Verif.Lists Verif.Laws Verif.NdLib Verif.MConvert Verif.PropConvert Verif.MNd Verif.MNd2 Verif.PNd Verif.PNd2 Verif.PNd3 Verif.PropNd Verif.PropNd2 Verif.PSafe3 Verif.MScalar Verif.PScalar Verif.PropScalar Verif.MReduce Verif.MStat Verif.Witness Verif.SpecReduce Verif.PGroup.
Require Import Verif.SpecPy Verif.MPy Verif.PPy2 Verif.PropPy2 Verif.PropStat Verif.MObj Verif.SpecObj Verif.PObj Verif.SpecCall Verif.PCall Verif.PCall2 Verif.PCall3 Verif.PropCall3 Verif.SpecDense Verif.PDense.
Import ListNotations.
Local Open Scope Z_scope.

(** ** Sums over stored entries and over all coordinates *)
Lemma qsum_app : forall l l' : list Qc, qsum (l ++ l') = (qsum l + qsum l')%Qc.
Proof. induction l as [|x l IH]; intros l'; cbn [qsum app]; [symmetry; apply Qcplus_0_l|]. change (x + qsum (l ++ l') = x + qsum l + qsum l')%Qc. rewrite IH. ring. Qed.
Lemma qsum_zero : forall l : list Qc, Forall (fun x => x = 0q) l -> qsum l = 0q.
Proof. induction 1 as [|x l -> _ IH]; [reflexivity|]. change (0q + qsum l = 0q)%Qc. rewrite IH. apply Qcplus_0_l. Qed.
Lemma sum_grouped : forall (E : list (list Z * Qc)) K, NoDup K -> (forall e, In e E -> In (fst e) K) ->
  qsum (map snd E) = qsum (map (fun k => qsum (at_key k E)) K).
Proof.
  intros E K ND. induction E as [|[k0 v] E IH]; intros IN.
  - symmetry. apply qsum_zero, Forall_map, Forall_forall. reflexivity.
  - cbn [map snd]. change (qsum (v :: map snd E)) with (v + qsum (map snd E))%Qc. rewrite IH by (intros e I; apply IN; right; exact I).
    specialize (IN (k0, v) (or_introl eq_refl)). cbn [fst] in IN. clear IH.
    assert (S : forall k, qsum (at_key k ((k0, v) :: E)) = ((if list_eq_dec Z.eq_dec k0 k then v else 0q) + qsum (at_key k E))%Qc).
    { intros k. unfold at_key. cbn [filter fst]. destruct (list_eq_dec Z.eq_dec k0 k); [reflexivity|symmetry; apply Qcplus_0_l]. }
    assert (N : forall K', ~ In k0 K' -> qsum (map (fun k => qsum (at_key k ((k0, v) :: E))) K') = qsum (map (fun k => qsum (at_key k E)) K')).
    { intros K' NI. f_equal. apply map_ext_in. intros k I. rewrite S. destruct (list_eq_dec Z.eq_dec k0 k) as [->|_]; [contradiction|apply Qcplus_0_l]. }
    induction ND as [|k K NI ND IH]; [destruct IN|]. cbn [map]. destruct IN as [->|IN].
    + change (v + (qsum (at_key k0 E) + qsum (map (fun k => qsum (at_key k E)) K)) = qsum (at_key k0 ((k0, v) :: E)) + qsum (map (fun k => qsum (at_key k ((k0, v) :: E))) K))%Qc.
      rewrite N, S by exact NI. destruct (list_eq_dec Z.eq_dec k0 k0) as [_|Q]; [|contradiction]. ring.
    + specialize (IH IN).
      change (v + (qsum (at_key k E) + qsum (map (fun k => qsum (at_key k E)) K)) = qsum (at_key k ((k0, v) :: E)) + qsum (map (fun k => qsum (at_key k ((k0, v) :: E))) K))%Qc.
      rewrite <- IH, S. destruct (list_eq_dec Z.eq_dec k0 k) as [->|_]; [contradiction|]. ring.
Qed.
Lemma one_or_qsum : forall l : list Qc, (length l <= 1)%nat -> one_or 0q l = qsum l.
Proof. intros [|v [|w l]] L; [reflexivity| |cbn in L; lia]. cbn [one_or]. change (v = v + 0q)%Qc. symmetry. apply Qcplus_0_r. Qed.

(** An N-D array of values [a], stored without repeated coordinates. *)
Record nd_rep (A : Nd qc) (sh : list Z) (a : list Z -> Qc) : Prop := {
  nr_ok : nd_ok A;
  nr_single : single_valued_nd A;
  nr_shape : nd_shape A = sh;
  nr_small : nd_small A;
  nr_parts : nd_parts A = Ok A;
  nr_at : forall k, in_shape sh k -> qsum (nd_at A k) = a k
}.
Lemma nd_open : forall A sh a, PDense.held (VNd A) (DNd sh a) -> nd_rep A sh a.
Proof.
  intros A sh a [(OK & SV & ES & NN & V) FT].
  destruct (nd_parts_is A) as (P & _ & _ & SM); [split; [split; assumption|exact FT]|rewrite ES; exact NN|].
  constructor; auto. intros k I. rewrite <- V by exact I. symmetry. apply one_or_qsum. apply SV.
Qed.
Lemma nr_keys : forall A sh a, nd_rep A sh a -> forall k, In k (all_keys sh) -> in_shape sh k.
Proof. intros A sh a [_ _ <- [NN SM] _ _]. apply all_keys_in; auto. Qed.

(** A sum over the stored entries is a sum over all coordinates. *)
Lemma entries_sum : forall A sh a (p : list Z -> bool) (w : list Z -> Qc), nd_rep A sh a ->
  qsum (map (fun e => snd e * w (fst e))%Qc (filter (fun e => p (fst e)) (nd_entries A))) = nd_sum sh (fun k => a k * w k)%Qc p.
Proof.
  intros A sh a p w R. set (E := map (fun e => (fst e, snd e * w (fst e))%Qc) (filter (fun e => p (fst e)) (nd_entries A))).
  replace (map (fun e => snd e * w (fst e))%Qc (filter (fun e => p (fst e)) (nd_entries A))) with (map snd E) by (unfold E; rewrite map_map; reflexivity).
  rewrite (sum_grouped E (filter p (all_keys sh))).
  - unfold nd_sum. f_equal. apply map_ext_in. intros k I. apply filter_In in I. destruct I as [I PK].
    rewrite <- (nr_at _ _ _ R) by (eapply nr_keys; eauto). unfold nd_at, E. generalize (nd_entries A). intros L. clear - PK. induction L as [|[k0 v] L IH].
    + cbn. symmetry. apply Qcmult_0_l.
    + unfold at_key in *. cbn [filter fst]. destruct (p k0) eqn:P0; cbn [map filter fst snd]; destruct (list_eq_dec Z.eq_dec k0 k) as [->|NE]; cbn [map filter fst snd]; try exact IH; try congruence.
      change (v * w k + qsum (map snd (filter (fun e => if list_eq_dec Z.eq_dec (fst e) k then true else false) (map (fun e => (fst e, snd e * w (fst e))%Qc) (filter (fun e => p (fst e)) L)))) =
        (v + qsum (map snd (filter (fun e => if list_eq_dec Z.eq_dec (fst e) k then true else false) L))) * w k)%Qc.
      rewrite IH. ring.
  - apply NoDup_filter, NoDup_all_keys.
  - intros e I. unfold E in I. apply in_map_iff in I. destruct I as ([k v] & <- & I). cbn [fst]. apply filter_In in I. destruct I as [I PK]. apply filter_In. split; [|exact PK].
    apply in_all_keys. rewrite <- (nr_shape _ _ _ R). pose proof (nd_entries_ok _ (nr_ok _ _ _ R)) as B. rewrite Forall_forall in B. exact (B _ I).
Qed.
Lemma values_sum : forall A sh a (p : list Z -> bool), nd_rep A sh a ->
  qsum (map snd (filter (fun e => p (fst e)) (nd_entries A))) = nd_sum sh a p.
Proof.
  intros A sh a p R. rewrite <- (map_ext (fun e : list Z * Qc => (snd e * 1)%Qc)) by (intros [k v]; apply Qcmult_1_r).
  rewrite (entries_sum A sh a p (fun _ => 1%Qc) R). unfold nd_sum. f_equal. apply map_ext. intros k. apply Qcmult_1_r.
Qed.
Lemma fiber_sum : forall A sh a axes k, nd_rep A sh a -> qsum (fiber A axes k) = nd_sum sh a (fun k' => same_key (select axes k') k).
Proof. intros A sh a axes k R. unfold fiber, fiber_entries. rewrite <- (values_sum A sh a _ R). reflexivity. Qed.
Lemma unfold_sum : forall A sh a rows r c, nd_rep A sh a ->
  qsum (unfold_cell A rows r c) = nd_sum sh a (fun k => (position (select rows sh) (select rows k) =? r) && (position (select (other_axes (length sh) rows) sh) (select (other_axes (length sh) rows) k) =? c)).
Proof. intros A sh a rows r c R. unfold unfold_cell. rewrite (nr_shape _ _ _ R), <- (values_sum A sh a _ R). reflexivity. Qed.

(** ** Results *)
Lemma nd_done : forall (B : Nd qc) sh b, nd_ok B -> nd_shape B = sh -> Forall (fun n => n <= i64_max) sh -> Forall (Z.le 0) sh -> (forall k, in_shape sh k -> (length (nd_at B k) <= 1)%nat) ->
  (forall k, in_shape sh k -> one_or 0q (nd_at B k) = b k) -> done (nd_new B) (DNd sh b).
Proof.
  intros B sh b OK ES DM NN SV V. exists (VNd B). split; [apply nd_new_is; [exact OK|rewrite ES; exact DM]|]. intros _. split; [exact OK|]. split; [|split; [exact ES|split; [exact NN|exact V]]].
  intros k. destruct (in_shape_dec sh k) as [I|I]; [apply SV; exact I|]. rewrite nd_outside; [cbn; lia|exact OK|rewrite ES; exact I].
Qed.

Section Env.
Variable e : Env qc.
Hypothesis FE : fair e.

(** ** Operators on the stored values *)
Lemma nr_nonneg : forall A sh a, nd_rep A sh a -> Forall (Z.le 0) sh.
Proof. intros A sh a R. rewrite <- (nr_shape _ _ _ R). apply (nr_small _ _ _ R). Qed.
Lemma nr_dims : forall A sh a, nd_rep A sh a -> Forall (fun n => n <= i64_max) sh.
Proof. intros A sh a R. rewrite <- (nr_shape _ _ _ R). apply small_dims, R. Qed.
Lemma nr_cells : forall A sh a, nd_rep A sh a -> shape_cells sh < i64_max.
Proof. intros A sh a R. rewrite <- (nr_shape _ _ _ R). apply (nr_small _ _ _ R). Qed.
Lemma nr_one : forall A sh a k, nd_rep A sh a -> in_shape sh k -> one_or 0q (nd_at A k) = a k.
Proof. intros A sh a k R I. rewrite <- (nr_at _ _ _ R k I). apply one_or_qsum. apply (nr_single _ _ _ R). Qed.
Lemma values_done : forall f g A sh a, nd_rep A sh a -> f 0q = 0q -> (forall v, f v = g v) -> done (nd_new (nd_values (F := qc) f A)) (DNd sh (fun k => g (a k))).
Proof.
  intros f g A sh a R F0 FG.
  assert (AT : forall k, nd_at (nd_values (F := qc) f A) k = map f (nd_at A k)) by (intros k; apply (at_key_map_dat (F := qc) f A k)).
  apply nd_done; [apply nd_values_ok, R|exact (nr_shape _ _ _ R)|exact (nr_dims _ _ _ R)|exact (nr_nonneg _ _ _ R)| |]; intros k I; rewrite AT.
  - rewrite map_length. apply (nr_single _ _ _ R).
  - rewrite <- (nr_one _ _ _ k R I). destruct (nd_at A k) as [|v l]; cbn [map one_or]; rewrite <- FG; auto.
Qed.
Lemma times_q : forall alpha v : qc, times alpha v = (v * alpha)%Qc.
Proof.
  intros alpha v. unfold times. destruct (feqb alpha f1) eqn:E1.
  - apply qc_eqb_iff in E1. subst alpha. symmetry. apply Qcmult_1_r.
  - destruct (feqb alpha f0) eqn:E0; [|reflexivity]. apply qc_eqb_iff in E0. subst alpha. symmetry. apply Qcmult_0_r.
Qed.
Lemma unary_nd_rep : forall op A sh a Y, PDense.held (VNd A) (DNd sh a) -> nd_unary op sh a = Some Y -> done (do_unary e op (VNd A)) Y.
Proof.
  intros op A sh a Y H D. apply nd_open in H. rename H into R.
  destruct op; try discriminate D; injection D as <-; cbn [do_unary]; rewrite (nr_parts _ _ _ R); cbn [bind];
  unfold abs_coond, sign_coond, sign_data, py_neg, py_mul, mul_scalar_coond;
  erewrite nd_with_maps by first [apply maps_abs|apply maps_mul|apply maps_par]; cbn [bind]; apply values_done; auto.
  - intros v. rewrite times_q. change (v * (- (1)) = - v)%Qc. ring.
Qed.
Lemma scalar_nd_rep : forall op A sh a Y alpha, PDense.held (VNd A) (DNd sh a) -> nd_scalar op alpha sh a = Some Y -> done (do_scalar op (VNd A) alpha) Y.
Proof.
  intros op A sh a Y alpha H D. apply nd_open in H. rename H into R. unfold nd_scalar in D. destruct (qc_eqb alpha 0q) eqn:Z0; [discriminate D|].
  change (feqb (alpha : qc) f0 = false) in Z0.
  destruct op; try discriminate D; injection D as <-; cbn [do_scalar]; rewrite (nr_parts _ _ _ R); cbn [bind]; unfold py_floordiv, py_mod; rewrite Z0;
  unfold floordiv_scalar_coond, rem_scalar_coond, floordiv_scalar_data, rem_scalar_data; erewrite nd_with_maps by apply maps_par; cbn [bind].
  - apply (values_done _ (fun v => qc_floor (v / alpha)%Qc)); [exact R| |reflexivity]. change (qc_floor (0q / alpha)%Qc = 0q). rewrite qdiv_0. apply qfloor_0.
  - apply (values_done _ (fun v => (v - alpha * qc_floor (v / alpha))%Qc)); [exact R| |reflexivity]. change ((0q - alpha * qc_floor (0q / alpha))%Qc = 0q). rewrite qdiv_0, qfloor_0. ring.
Qed.

(** ** Broadcasting *)
Lemma stretch_iff : forall s t, stretch s t = true -> broadcastable s t.
Proof.
  intros s t. unfold stretch, broadcastable. set (d := Nat.max (length s) (length t)).
  assert (L : length (pad_ones d s) = length (pad_ones d t)) by (unfold pad_ones; rewrite !app_length, !repeat_length; unfold d; lia).
  revert L. generalize (pad_ones d s), (pad_ones d t). intros l. induction l as [|x l IH]; intros [|y l'] L H; try discriminate L; constructor.
  - cbn [combine forallb fst snd] in H. lia.
  - apply IH; [cbn in L; lia|]. cbn [combine forallb] in H. apply andb_true_iff in H. apply H.
Qed.
Lemma positive_iff : forall sh, forallb (Z.ltb 0) sh = true -> Forall (fun n => 0 < n) sh.
Proof. intros sh H. apply Forall_forall. intros n I. rewrite forallb_forall in H. specialize (H n I). lia. Qed.
Lemma positive_cells : forall sh, Forall (fun n => 0 < n) sh -> shape_cells sh = cells sh.
Proof. intros sh P. apply positive_shape_cells. exact P. Qed.
Lemma broadcast_positive : forall s t, Forall (fun n => 0 < n) s -> Forall (fun n => 0 < n) t -> Forall (fun n => 0 < n) (broadcast_shape s t).
Proof.
  intros u v NA NB. unfold broadcast_shape. apply Forall_forall. intros n I. apply in_map_iff in I. destruct I as ([a b] & <- & I).
  assert (I1 := in_combine_l _ _ _ _ I). assert (I2 := in_combine_r _ _ _ _ I). unfold pad_ones in I1, I2.
  apply in_app_or in I1. apply in_app_or in I2. rewrite Forall_forall in NA, NB.
  assert (0 < a) by (destruct I1 as [I1|I1]; [apply repeat_spec in I1; lia|auto]).
  assert (0 < b) by (destruct I2 as [I2|I2]; [apply repeat_spec in I2; lia|auto]).
  unfold bdim. cbn [fst snd]. destruct (a =? 1); auto.
Qed.
Lemma binary_nd_rep : forall op A y sh a Y O, PDense.held (VNd A) (DNd sh a) -> PDense.held y Y ->
  match y with VNd B => shape_cells (broadcast_shape sh (nd_shape B)) < i64_max | _ => True end ->
  nd_binary op Y sh a = Some O -> done (do_binary e op (VNd A) y) O.
Proof.
  intros op A y sh a Y O HA HY DM D. apply nd_open in HA. rename HA into R. destruct op; try discriminate D. destruct Y as [| | |sh' b]; try discriminate D.
  destruct y as [| | |B| | |]; try (exfalso; exact (proj1 HY)). apply nd_open in HY. rename HY into S. cbn [nd_binary] in D.
  destruct (forallb (Z.ltb 0) sh && forallb (Z.ltb 0) sh' && stretch sh sh') eqn:C; [|discriminate D]. injection D as <-.
  apply andb_true_iff in C. destruct C as [C ST]. apply andb_true_iff in C. destruct C as [P1 P2]. apply positive_iff in P1, P2. apply stretch_iff in ST.
  cbn [do_binary]. rewrite (nr_parts _ _ _ R), (nr_parts _ _ _ S). cbn [bind].
  pose proof (nr_shape _ _ _ R) as E1. pose proof (nr_shape _ _ _ S) as E2. rewrite E2 in DM.
  assert (BP := broadcast_positive _ _ P1 P2). rewrite positive_cells in DM by exact BP.
  destruct (C24_broadcast qc (e_schz e 0) (e_schz e 1) (e_ord e) (e_threads e) (e_srt e 0) A B (fair_schz _ FE 0) (fair_schz _ FE 1) (fair_ord _ FE) (fair_srt _ FE 0) (nr_ok _ _ _ R) (nr_ok _ _ _ S))
    as (C & EC & OC & SC & _ & V); rewrite ?E1, ?E2; auto; [unfold i64_max, usize_max in *; lia|].
  rewrite EC. cbn [bind]. rewrite E1, E2 in *.
  assert (SRC : forall k, in_shape (broadcast_shape sh sh') k -> in_shape sh (source_cell sh k) /\ in_shape sh' (source_cell sh' k)).
  { intros k. apply PBroadcast.source_in_shape. exact ST. }
  apply nd_done; [exact OC|exact SC|apply broadcast_dims; [exact (nr_dims _ _ _ R)|exact (nr_dims _ _ _ S)]|eapply Forall_impl; [|exact BP]; cbv beta; intros; lia| |]; intros k I; rewrite V by (rewrite SC; exact I);
  destruct (SRC k I) as [I1 I2].
  - apply (left_sum_length (F := qc)).
  - rewrite <- (nr_at _ _ _ R), <- (nr_at _ _ _ S) by assumption. pose proof (nr_single _ _ _ R (source_cell sh k)) as L1. pose proof (nr_single _ _ _ S (source_cell sh' k)) as L2.
    destruct (nd_at A (source_cell sh k)) as [|u [|]], (nd_at B (source_cell sh' k)) as [|v [|]]; cbn [length] in *; try lia; unfold products; cbn; try (symmetry; (apply Qcmult_0_l || apply Qcmult_0_r)); try ring.
Qed.

(** ** Permuted axes and new shapes *)
Lemma axes_of_ok : forall ndim l p, axes_of ndim l = Some p -> to_axes l = Ok p /\ axes_ok ndim p.
Proof.
  intros ndim l p H. unfold axes_of in H. destruct (forallb _ l && all_different l) eqn:C; [|discriminate H]. injection H as <-. apply andb_true_iff in C. destruct C as [W D].
  split; [|split].
  - unfold to_axes. replace (forallb (Z.leb 0) l) with true; [reflexivity|]. symmetry. apply forallb_forall. intros z I. rewrite forallb_forall in W. specialize (W z I). unfold within in W. lia.
  - induction l as [|z l IH]; [constructor|]. cbn [all_different forallb map] in *. apply andb_true_iff in W, D. destruct W as [W1 W2], D as [D1 D2]. constructor; [|apply IH; auto].
    intros I. apply in_map_iff in I. destruct I as (z' & E & I). rewrite forallb_forall in W2. specialize (W2 z' I). unfold within in *. assert (z' = z) by lia. subst z'.
    apply negb_true_iff in D1. rewrite <- not_true_iff_false in D1. apply D1. apply existsb_exists. exists z. split; [exact I|lia].
  - apply Forall_map, Forall_forall. intros z I. rewrite forallb_forall in W. specialize (W z I). unfold within in W. lia.
Qed.
Lemma select_nonneg : forall axes sh, Forall (Z.le 0) sh -> Forall (Z.le 0) (select axes sh).
Proof.
  intros axes sh N. apply Forall_map, Forall_forall. intros d _. destruct (le_lt_dec (length sh) d) as [L|L]; [rewrite nth_overflow by exact L; lia|].
  rewrite Forall_forall in N. apply N. apply nth_In. exact L.
Qed.
Lemma permute_nd_rep : forall A sh a axes Y, PDense.held (VNd A) (DNd sh a) -> nd_permute axes sh a = Some Y -> done (do_permute (VNd A) axes) Y.
Proof.
  intros A sh a axes Y H D. apply nd_open in H. rename H into R. unfold nd_permute in D. destruct (axes_of (length sh) axes) as [p|] eqn:EA; [|discriminate D].
  destruct (Nat.eqb_spec (length p) (length sh)) as [EL|]; [|discriminate D]. injection D as <-. apply axes_of_ok in EA. destruct EA as [TA AX].
  cbn [do_permute]. rewrite TA, (nr_parts _ _ _ R). cbn [bind]. pose proof (nr_shape _ _ _ R) as ES.
  assert (PP : Permutation p (seq 0 (length (nd_shape A)))) by (apply perm_axes_ok; rewrite ES; auto).
  destruct (C22_permute qc A p (nr_ok _ _ _ R) PP) as (C & EC & OC & SC & EN). pose proof (permute_reg A C p (nr_ok _ _ _ R) (nr_single _ _ _ R) EC (nd_ndim _ OC)) as [_ SV].
  rewrite EC. cbn [bind]. rewrite ES in *.
  apply nd_done; [exact OC|exact SC|apply perm_dims; exact (nr_dims _ _ _ R)|apply select_nonneg; exact (nr_nonneg _ _ _ R)|intros k _; apply SV|].
  intros k _. rewrite one_or_qsum by apply SV. rewrite <- (values_sum A sh a _ R). unfold nd_at, at_key. rewrite EN. f_equal.
  generalize (nd_entries A). intros L. clear. induction L as [|[k0 v] L IH]; [reflexivity|]. cbn [map filter fst snd]. unfold same_key. cbn [fst]. unfold select at 1.
  destruct (list_eq_dec Z.eq_dec (map (fun d => nth d k0 0) p) k); cbn [map snd]; [f_equal|]; apply IH.
Qed.
Lemma reshape_nd_rep : forall A sh a new Y, PDense.held (VNd A) (DNd sh a) -> nd_reshape new sh a = Some Y -> done (do_reshape e (VNd A) new) Y.
Proof.
  intros A sh a new Y H D. apply nd_open in H. rename H into R. unfold nd_reshape in D.
  destruct (forallb (Z.ltb 0) new && (0 <? length new)%nat && (cells sh =? cells new)) eqn:C; [|discriminate D]. injection D as <-.
  apply andb_true_iff in C. destruct C as [C EC]. apply andb_true_iff in C. destruct C as [P NE]. apply positive_iff in P. apply Z.eqb_eq in EC.
  assert (NN : Forall (Z.le 0) new) by (eapply Forall_impl; [|exact P]; cbv beta; intros; lia).
  cbn [do_reshape]. replace (forallb (Z.leb 0) new) with true by (symmetry; apply forallb_forall; intros z I; rewrite Forall_forall in NN; specialize (NN z I); lia).
  rewrite (nr_parts _ _ _ R). cbn [bind]. pose proof (nr_shape _ _ _ R) as ES. pose proof (nr_cells _ _ _ R) as CS. pose proof (nr_nonneg _ _ _ R) as N0.
  assert (SC : shape_cells new < i64_max) by (rewrite positive_cells, <- EC by exact P; pose proof (cells_shape_cells sh N0); lia).
  assert (DM : Forall (fun n => n <= i64_max) new) by (apply (small_dims (mkNd (V := car qc) new [] [])); split; assumption).
  assert (NE' : new <> []) by (intros ->; discriminate NE).
  destruct (C21_reshape qc (e_schz e 0) A new (fair_schz _ FE 0) (nr_ok _ _ _ R) NE') as (C & E & OC & SH & _ & F2); rewrite ?ES; try (apply shape_cells_fits; assumption); auto.
  { eapply Forall_impl; [|exact DM]. cbv beta. intros; lia. }
  rewrite E. cbn [bind].
  pose proof (reshape_reg (e_schz e 0) A C new (fair_schz _ FE 0) (nr_ok _ _ _ R) (nr_single _ _ _ R) (nr_small _ _ _ R) NN E (nd_ndim _ OC)) as [_ SV].
  apply nd_done; [exact OC|exact SH|exact DM|exact NN|intros k _; apply SV|].
  intros k I. rewrite one_or_qsum by apply SV. rewrite <- (values_sum A sh a _ R). unfold nd_at, at_key. f_equal.
  pose proof (nd_entries_ok C OC) as BC. rewrite SH in BC. rewrite ES in F2. clear - F2 BC I. induction F2 as [|x y la lb [EV EP] F2 IH]; [reflexivity|]. inversion BC as [|? ? B1 B2]; subst.
  cbn [filter]. specialize (IH B2). destruct (list_eq_dec Z.eq_dec (fst y) k) as [EK|NK].
  - rewrite EP, EK, Z.eqb_refl. cbn [map]. rewrite IH, EV. reflexivity.
  - destruct (Z.eqb_spec (position sh (fst x)) (position new k)) as [Q|Q]; [|exact IH]. exfalso. apply NK. eapply position_inj; [exact B1|exact I|congruence].
Qed.

(** ** Reductions *)
Lemma qdiv_zero : forall x : Qc, (x / 0q = 0q)%Qc.
Proof. intros x. unfold Qcdiv. replace (/ Q2Qc 0)%Qc with (Q2Qc 0) by (apply Qc_is_canon; reflexivity). apply Qcmult_0_r. Qed.
Lemma mean_value : forall n (s : qc),
  (if n =? 1 then s else if feqb (fdiv f1 (fofZ n) : qc) f1 then s else if feqb (fdiv f1 (fofZ n) : qc) f0 then f0 else fmul s (fdiv f1 (fofZ n))) = (s / Q2Qc (inject_Z n))%Qc.
Proof.
  intros n s. assert (E : forall i : Qc, i = (1 / Q2Qc (inject_Z n))%Qc -> (s * i = s / Q2Qc (inject_Z n))%Qc) by (intros i ->; unfold Qcdiv; ring).
  destruct (Z.eqb_spec n 1) as [->|N1].
  - change (s = s / 1)%Qc. unfold Qcdiv. replace (/ 1)%Qc with 1%Qc by (apply Qc_is_canon; reflexivity). symmetry. apply Qcmult_1_r.
  - change (fdiv f1 (fofZ n) : qc) with (1 / Q2Qc (inject_Z n))%Qc. destruct (feqb _ _) eqn:E1.
    + apply qc_eqb_iff in E1. rewrite <- (E 1%Qc); [symmetry; apply Qcmult_1_r|]. symmetry. exact E1.
    + destruct (feqb (_ : qc) f0) eqn:E0.
      * apply qc_eqb_iff in E0. rewrite <- (E 0q); [symmetry; apply Qcmult_0_r|]. symmetry. exact E0.
      * apply E. reflexivity.
Qed.
Lemma left_sum_q : forall l : list Qc, one_or 0q (left_sum (F := qc) l) = qsum l.
Proof. intros l. apply (left_sum_exact qc_elaws l). Qed.
Lemma one_or_map_left : forall (f : Qc -> Qc) (l : list Qc), f 0q = 0q -> one_or 0q (map f (left_sum (F := qc) l)) = f (qsum l).
Proof. intros f l F0. rewrite <- left_sum_q. destruct (left_sum (F := qc) l) as [|v t]; [symmetry; exact F0|reflexivity]. Qed.
Lemma reduce_axes_rep : forall op A sh a axes Y, PDense.held (VNd A) (DNd sh a) -> nd_reduce_axes op axes sh a = Some Y -> done (do_reduce_axes e op (VNd A) axes) Y.
Proof.
  intros op A sh a axes Y H D. apply nd_open in H. rename H into R. unfold nd_reduce_axes in D. destruct (axes_of (length sh) axes) as [p|] eqn:EA; [|discriminate D].
  destruct ((0 <? length p)%nat && (length p <? length sh)%nat && _) eqn:C in D; [|discriminate D]. injection D as <-. apply axes_of_ok in EA. destruct EA as [TA AX].
  cbn [do_reduce_axes]. rewrite TA, (nr_parts _ _ _ R). cbn [bind]. pose proof (nr_shape _ _ _ R) as ES.
  assert (PA : proper_axes (length (nd_shape A)) p).
  { rewrite ES. split; [exact AX|]. split; [intros ->; cbn in C; lia|lia]. }
  pose proof (shape_cells_fits _ (nr_nonneg _ _ _ R) (nr_cells _ _ _ R)) as SF. assert (SFA : shape_fits (nd_shape A)) by (rewrite ES; exact SF).
  assert (DM : Forall (fun n => n <= i64_max) (select (other_axes (length sh) p) sh)) by (apply select_dims; [apply other_axes_ok|exact (nr_nonneg _ _ _ R)|exact (nr_cells _ _ _ R)]).
  assert (NN : Forall (Z.le 0) (select (other_axes (length sh) p) sh)) by (apply select_nonneg; exact (nr_nonneg _ _ _ R)).
  destruct op.
  - destruct (C26_reduce_sum qc (e_srt e 0) A p (fair_srt _ FE 0) (nr_ok _ _ _ R) SFA PA) as (B & E & OB & SB & _ & V). rewrite E. cbn [bind]. rewrite ES in SB, V. rewrite SB in V.
    apply nd_done; auto; intros k I; rewrite V by exact I; [apply (left_sum_length (F := qc))|]. rewrite left_sum_q. apply fiber_sum. exact R.
  - destruct (C26_reduce_mean qc (e_srt e 0) A p (fair_srt _ FE 0) (nr_ok _ _ _ R) SFA PA) as (B & E & OB & SB & _ & V). rewrite E. cbn [bind]. rewrite ES in SB, V. rewrite SB in V.
    apply nd_done; auto; intros k I; rewrite V by exact I; [rewrite map_length; apply (left_sum_length (F := qc))|].
    rewrite (map_ext _ (fun s : Qc => (s / Q2Qc (inject_Z (cells (select p sh))))%Qc)) by (intros s; apply mean_value).
    rewrite one_or_map_left by (unfold Qcdiv; apply Qcmult_0_l). unfold nd_along. rewrite (fiber_sum _ _ _ _ _ R). reflexivity.
Qed.
Lemma zero_q : (e_zero e : qc) = f0.
Proof. apply qc_eqb_iff. exact (fair_zero _ FE). Qed.
Lemma sum_all : forall A sh a, nd_rep A sh a -> sum_coond (F := qc) (e_zero e) (e_split e) A = Ok (qsum (map a (all_keys sh))).
Proof.
  intros A sh a R. rewrite zero_q.
  destruct (C33_sum_exact (e_split e) (mkCs 0 0 [0] [] []) (mkCs 0 0 [0] [] []) (mkCoo 0 0 [] [] []) A) as (_ & _ & _ & E);
    [apply cs_ok_literal; reflexivity|apply cs_ok_literal; reflexivity|apply coo_ok_literal; reflexivity|exact (nr_ok _ _ _ R)|].
  rewrite E, (nr_shape _ _ _ R). do 2 f_equal. apply map_ext_in. intros k I. apply (nr_at _ _ _ R). eapply nr_keys; eauto.
Qed.
Lemma mean_all : forall A sh a, nd_rep A sh a -> mean_coond (F := qc) (e_zero e) (e_split e) A = Ok (qsum (map a (all_keys sh)) / Q2Qc (inject_Z (cells sh)))%Qc.
Proof.
  intros A sh a R. rewrite zero_q. rewrite C35_mean_exact; [|apply R|rewrite (nr_shape _ _ _ R); apply shape_cells_fits; [exact (nr_nonneg _ _ _ R)|exact (nr_cells _ _ _ R)]].
  rewrite (nr_shape _ _ _ R). do 3 f_equal. apply map_ext_in. intros k I. apply (nr_at _ _ _ R). eapply nr_keys; eauto.
Qed.
Lemma keep_shape : forall (C : Nd qc) ndim f, length (nd_shape C) = ndim -> (forall d, (d < ndim)%nat -> nth d (nd_shape C) 0 = f d) -> nd_shape C = map f (seq 0 ndim).
Proof.
  intros C ndim f L V. apply nth_ext with (d := 0) (d' := 0); [rewrite map_length, seq_length; exact L|]. intros d Hd. rewrite L in Hd. rewrite V by exact Hd.
  rewrite (nth_indep _ 0 (f 0%nat)) by (rewrite map_length, seq_length; exact Hd). rewrite map_nth, seq_nth by exact Hd. reflexivity.
Qed.
Lemma reduce_nd_rep : forall op A sh a ax kd Y, PDense.held (VNd A) (DNd sh a) -> nd_reduce op ax kd sh a = Some Y -> done (do_reduce e op (VNd A) ax kd) Y.
Proof.
  intros op A sh a ax kd Y H D. apply nd_open in H. rename H into R. pose proof (nr_shape _ _ _ R) as ES.
  pose proof (shape_cells_fits _ (nr_nonneg _ _ _ R) (nr_cells _ _ _ R)) as SF.
  cbn [do_reduce]. unfold reduce_coond. rewrite (nr_parts _ _ _ R). cbn [bind].
  set (ndim := length (nd_shape A)) in *. assert (EN : ndim = length sh) by (unfold ndim; rewrite ES; reflexivity).
  assert (ONE : forall v : Qc, done (Ok (VArr (F := qc) (if kd then repeat 1%nat ndim else []) [v])) (DArr (if kd then repeat 1%nat (length sh) else []) [v])).
  { intros v. rewrite EN. exists (VArr (F := qc) (if kd then repeat 1%nat (length sh) else []) [v]). split; [reflexivity|]. intros _. split; [reflexivity|]. split; [reflexivity|].
    destruct kd; [|reflexivity]. clear. induction (length sh) as [|n IH]; [reflexivity|]. cbn [repeat fold_right]. rewrite <- IH. reflexivity. }
  (* along axes *)
  assert (AL : forall mean (red : list nat -> res (Nd qc)) (f : Qc -> Qc) numbers,
    let axes := named_axes ndim numbers in let remain := other_axes ndim axes in
    f 0q = 0q -> (forall s, f s = if mean : bool then (s / Q2Qc (inject_Z (cells (select axes sh))))%Qc else s) -> (length axes < ndim)%nat ->
    ((exists C, reduce_nd red ndim ax false = Ok (Some C) /\ nd_ok C /\ nd_shape C = select remain (nd_shape A) /\ forall k, in_shape (nd_shape C) k -> nd_at C k = map f (left_sum (F := qc) (fiber A remain k))) /\
     (exists C, reduce_nd red ndim ax true = Ok (Some C) /\ nd_ok C /\ length (nd_shape C) = ndim /\
       (forall d, (d < ndim)%nat -> nth d (nd_shape C) 0 = if existsb (Nat.eqb d) axes then 1 else nth d (nd_shape A) 0) /\
       forall k, in_shape (nd_shape C) k -> nd_at C k = map f (left_sum (F := qc) (fiber A remain (select remain k))))) ->
    forall k1, done (let! o := reduce_nd red ndim ax kd in match o with Some R0 => nd_new R0 | None => k1 end)
      (if kd then DNd (map (fun d => if existsb (Nat.eqb d) axes then 1 else nth d sh 0) (seq 0 (length sh))) (fun k => nd_along mean axes sh a (select remain k))
       else DNd (select remain sh) (nd_along mean axes sh a))).
  { intros mean red f numbers axes remain F0 FV LT [(C1 & E1 & O1 & S1 & V1) (C2 & E2 & O2 & L2 & S2 & V2)] k1.
    assert (AT : forall k, one_or 0q (map f (left_sum (F := qc) (fiber A remain k))) = nd_along mean axes sh a k).
    { intros k. rewrite one_or_map_left by exact F0. rewrite FV, (fiber_sum _ _ _ _ _ R). unfold nd_along. rewrite <- EN. destruct mean; reflexivity. }
    destruct kd.
    - rewrite E2. cbn [bind]. rewrite ES in S2. pose proof (keep_shape C2 ndim _ L2 S2) as S2'. rewrite EN in S2'.
      assert (IN : forall P : Z -> Prop, P 1 -> Forall P sh -> Forall P (map (fun d => if existsb (Nat.eqb d) axes then 1 else nth d sh 0) (seq 0 (length sh)))).
      { intros P P1 PS. apply Forall_map, Forall_forall. intros d I. apply in_seq in I. destruct (existsb _ _); [exact P1|]. rewrite Forall_forall in PS. apply PS, nth_In. lia. }
      apply nd_done; [exact O2|exact S2'|apply IN; [discriminate|exact (nr_dims _ _ _ R)]|apply IN; [lia|exact (nr_nonneg _ _ _ R)]| |]; intros k I; rewrite V2 by (rewrite S2'; exact I);
        [rewrite map_length; apply (left_sum_length (F := qc))|apply AT].
    - rewrite E1. cbn [bind]. rewrite ES in S1.
      apply nd_done; [exact O1|exact S1|apply select_dims; [rewrite <- EN; apply other_axes_ok|exact (nr_nonneg _ _ _ R)|exact (nr_cells _ _ _ R)]|apply select_nonneg; exact (nr_nonneg _ _ _ R)| |];
        intros k I; rewrite V1 by (rewrite S1; exact I); [rewrite map_length; apply (left_sum_length (F := qc))|apply AT]. }
  unfold nd_reduce in D. rewrite <- EN in D, AL. assert (SFA : shape_fits (nd_shape A)) by (rewrite ES; exact SF).
  assert (ND : forall numbers, (0 <? length numbers)%nat && forallb (fun z => (- Z.of_nat ndim <=? z) && (z <? Z.of_nat ndim)) numbers && (length (named_axes ndim numbers) <? ndim)%nat = true ->
    numbers <> [] /\ Forall (fun z => - Z.of_nat ndim <= z < Z.of_nat ndim) numbers /\ (length (named_axes ndim numbers) < ndim)%nat).
  { intros numbers C. split; [intros ->; discriminate C|]. split; [|lia]. apply Forall_forall. intros z I. apply andb_true_iff in C. destruct C as [C _]. apply andb_true_iff in C. destruct C as [_ C].
    rewrite forallb_forall in C. specialize (C z I). lia. }
  assert (SUM : forall numbers, match ax with AxNone => [] | AxInt a => [a] | AxTuple l => l end = numbers ->
    numbers <> [] /\ Forall (fun z => - Z.of_nat ndim <= z < Z.of_nat ndim) numbers /\ (length (named_axes ndim numbers) < ndim)%nat ->
    forall k1, done (let! o := reduce_nd (reduce_sum_axes_coond (e_srt e 0) A) ndim ax kd in match o with Some R0 => nd_new R0 | None => k1 end)
      (if kd then DNd (map (fun d => if existsb (Nat.eqb d) (named_axes ndim numbers) then 1 else nth d sh 0) (seq 0 ndim)) (fun k => nd_along false (named_axes ndim numbers) sh a (select (other_axes ndim (named_axes ndim numbers)) k))
       else DNd (select (other_axes ndim (named_axes ndim numbers)) sh) (nd_along false (named_axes ndim numbers) sh a))).
  { intros numbers <- (N1 & N2 & N3). apply (AL false _ (fun s => s)); auto.
    destruct (C55_reduce_sum_axes qc (e_srt e 0) A ax (fair_srt _ FE 0) (nr_ok _ _ _ R) SFA N1 N2 N3) as [(C1 & E1 & O1 & H1 & V1) (C2 & E2 & O2 & L2 & H2 & V2)].
    split; [exists C1|exists C2]; repeat (split; [assumption|]); intros k I; rewrite map_id; [apply V1|apply V2]; exact I. }
  assert (MEAN : forall numbers, match ax with AxNone => [] | AxInt a => [a] | AxTuple l => l end = numbers ->
    numbers <> [] /\ Forall (fun z => - Z.of_nat ndim <= z < Z.of_nat ndim) numbers /\ (length (named_axes ndim numbers) < ndim)%nat ->
    forall k1, done (let! o := reduce_nd (reduce_mean_axes_coond (e_srt e 0) A) ndim ax kd in match o with Some R0 => nd_new R0 | None => k1 end)
      (if kd then DNd (map (fun d => if existsb (Nat.eqb d) (named_axes ndim numbers) then 1 else nth d sh 0) (seq 0 ndim)) (fun k => nd_along true (named_axes ndim numbers) sh a (select (other_axes ndim (named_axes ndim numbers)) k))
       else DNd (select (other_axes ndim (named_axes ndim numbers)) sh) (nd_along true (named_axes ndim numbers) sh a))).
  { intros numbers <- (N1 & N2 & N3).
    destruct (C55_reduce_mean_axes qc (e_srt e 0) A ax (fair_srt _ FE 0) (nr_ok _ _ _ R) SFA N1 N2 N3) as [(C1 & E1 & O1 & H1 & V1) (C2 & E2 & O2 & L2 & H2 & V2)].
    fold ndim in E1, E2, H1, H2, L2, V1, V2. rewrite ES in V1, V2. apply (AL true _ (fun s => (s / Q2Qc (inject_Z (cells (select (named_axes ndim (match ax with AxNone => [] | AxInt a => [a] | AxTuple l => l end)) sh))))%Qc)); auto.
    { unfold Qcdiv. apply Qcmult_0_l. }
    split; [exists C1|exists C2]; repeat (split; [assumption|]); intros k I; [rewrite V1 by exact I|rewrite V2 by exact I]; apply (map_ext (A := Qc) (B := Qc)); intros s; apply mean_value. }
  clear AL. destruct op; try discriminate D; cbn [andb] in D.
  - destruct ax as [|z|l]; [injection D as <-; cbn [reduce_nd norm_axes bind]; rewrite (sum_all _ _ _ R); cbn [bind]; rewrite EN in *; apply ONE| |].
    + destruct (_ && _ && _) eqn:C in D; [|discriminate D]. injection D as <-. apply SUM; auto.
    + destruct (_ && _ && _) eqn:C in D; [|discriminate D]. injection D as <-. apply SUM; auto.
  - destruct (cells sh =? 0) in D; [discriminate D|].
    destruct ax as [|z|l]; [injection D as <-; cbn [reduce_nd norm_axes bind]; rewrite (mean_all _ _ _ R); cbn [bind]; rewrite EN in *; apply ONE| |].
    + destruct (_ && _ && _) eqn:C in D; [|discriminate D]. injection D as <-. apply MEAN; auto.
    + destruct (_ && _ && _) eqn:C in D; [|discriminate D]. injection D as <-. apply MEAN; auto.
Qed.

(** ** Unfolding *)
Lemma unfold_axes : forall A sh a p f, nd_rep A sh a -> axes_ok (length sh) p ->
  let q := other_axes (length sh) p in
  done (match f with FCsr => let! B := coond_axes_to_csr (e_schu e) (e_srt2 e) A p in csr_new B | FCsc => let! B := coond_axes_to_csc (e_schu e) (e_srt2 e) A p in csc_new B end)
    (DMat (match f with FCsr => KCsr | FCsc => KCsc end) (Z.to_nat (cells (select p sh))) (Z.to_nat (cells (select q sh)))
      (fun i j => nd_sum sh a (fun k => (position (select p sh) (select p k) =? Z.of_nat i) && (position (select q sh) (select q k) =? Z.of_nat j)))).
Proof.
  intros A sh a p f R AX q. pose proof (nr_shape _ _ _ R) as ES. assert (AXA : axes_ok (length (nd_shape A)) p) by (rewrite ES; exact AX).
  destruct (C25_unfold_to_coo qc (e_schu e) A p (fair_schu _ FE) (nr_ok _ _ _ R) AXA (unfold_sizes _ _ (nr_small _ _ _ R) AXA)) as (C & E & OC & R1 & R2 & V).
  rewrite ES in R1, R2. fold q in R2. unfold coond_axes_to_csr, coond_axes_to_csc. rewrite E. cbn [bind].
  assert (N1 : Z.to_nat (cells (select p sh)) = coo_nrows C) by (rewrite <- R1; apply Nat2Z.id). assert (N2 : Z.to_nat (cells (select q sh)) = coo_ncols C) by (rewrite <- R2; apply Nat2Z.id).
  rewrite N1, N2. destruct f.
  - destruct (C07_coo_to_csr_exact (e_srt2 e) C (fair_srt2 _ FE) OC) as (B & EB & CB & M1 & M2 & H). rewrite EB. cbn [bind]. apply csr_new_rep. intros _.
    split; [exact CB|]. split; [exact M1|]. split; [exact M2|]. intros i j Hi Hj. etransitivity; [apply H; auto|]. etransitivity; [|apply (unfold_sum A); exact R]. change (qsum (coo_at C i j) = qsum (unfold_cell A p (Z.of_nat i) (Z.of_nat j))). f_equal. apply V.
  - change (coo_to_csc (e_srt2 e) C) with (coo_to_csr (e_srt2 e) (coo_swap C) : res (Csc qc)).
    destruct (C07_coo_to_csr_exact (e_srt2 e) (coo_swap C) (fair_srt2 _ FE)) as (B & EB & CB & M1 & M2 & H); [apply coo_swap_ok; exact OC|]. rewrite EB. cbn [bind]. apply csc_new_rep. intros _.
    split; [exact CB|]. split; [exact M1|]. split; [exact M2|]. intros j i Hj Hi. etransitivity; [apply H; auto|]. etransitivity; [|apply (unfold_sum A); exact R]. change (qsum (coo_at (coo_swap C) j i) = qsum (unfold_cell A p (Z.of_nat i) (Z.of_nat j))). f_equal. rewrite coo_swap_at. apply V.
Qed.
Lemma unfold_nd_rep : forall f A sh a rows Y, PDense.held (VNd A) (DNd sh a) -> nd_unfold f rows sh a = Some Y -> done (do_unfold e f (VNd A) rows) Y.
Proof.
  intros f A sh a rows Y H D. apply nd_open in H. unfold nd_unfold in D. destruct (axes_of (length sh) rows) as [p|] eqn:EA; [|discriminate D]. injection D as <-.
  apply axes_of_ok in EA. destruct EA as [TA AX]. cbn [do_unfold]. rewrite TA, (nr_parts _ _ _ H). cbn [bind]. apply unfold_axes; assumption.
Qed.
Lemma mode_nd_rep : forall f A sh a ax Y, PDense.held (VNd A) (DNd sh a) -> nd_unfold f [ax] sh a = Some Y -> done (do_mode e f (VNd A) ax) Y.
Proof.
  intros f A sh a ax Y H D. apply nd_open in H. unfold nd_unfold in D. destruct (axes_of (length sh) [ax]) as [p|] eqn:EA; [|discriminate D]. injection D as <-.
  pose proof EA as EA'. unfold axes_of in EA'. destruct (forallb _ _ && _) eqn:W in EA'; [|discriminate EA']. injection EA' as <-.
  apply axes_of_ok in EA. destruct EA as [_ AX]. cbn [forallb within] in W. cbn [do_mode]. destruct (Z.leb_spec 0 ax) as [_|L]; [|unfold within in W; lia].
  rewrite (nr_parts _ _ _ H). cbn [bind map] in *.
  destruct (C25_mode qc (e_schu e) (e_srt2 e) A (Z.to_nat ax)) as [M _]. destruct M as (M1 & M2 & _); [rewrite (nr_shape _ _ _ H); unfold within in W; lia|].
  rewrite M1, M2. apply unfold_axes; assumption.
Qed.

(** ** Products with a dense array *)
Lemma nd_axis_rep : forall A sh a axis ax, nd_rep A sh a -> nd_axis_of (length sh) axis = Some ax -> nd_axis A axis = Ok ax /\ (ax < length sh)%nat.
Proof.
  intros A sh a axis ax R D. pose proof (nr_shape _ _ _ R) as ES. assert (N0 : (0 < length (nd_shape A))%nat) by (pose proof (nd_ndim _ (nr_ok _ _ _ R)); destruct (nd_shape A); [congruence|cbn; lia]).
  destruct (nd_axis_is A axis N0) as [_ H]. rewrite ES in *. destruct axis as [z|]; cbn [nd_axis_of] in D.
  - destruct (within z (length sh)) eqn:W; [|discriminate D]. injection D as <-. apply H. unfold within in W. lia.
  - injection D as <-. apply H. exact I.
Qed.
Lemma products_sum : forall A sh a axes k (w : list Z -> Qc), nd_rep A sh a ->
  qsum (map (fun x => snd x * w (fst x))%Qc (fiber_entries A axes k)) = nd_sum sh (fun k' => a k' * w k')%Qc (fun k' => same_key (select axes k') k).
Proof. intros A sh a axes k w R. rewrite <- (entries_sum A sh a _ w R). reflexivity. Qed.
Lemma in_shape_last : forall sh n k, in_shape (sh ++ [n]) k -> exists key c, k = key ++ [Z.of_nat c] /\ in_shape sh key /\ Z.of_nat c < n.
Proof.
  intros sh n k I. apply Forall2_app_inv_r in I. destruct I as (key & l & I1 & I2 & ->). inversion I2 as [|x ? l' ? HX HL]; subst. inversion HL; subst.
  exists key, (Z.to_nat x). rewrite Z2Nat.id by lia. split; [reflexivity|]. split; [exact I1|lia].
Qed.
Lemma cells_prod : forall sh, cells (map Z.of_nat sh) = Z.of_nat (fold_right Nat.mul 1%nat sh).
Proof. induction sh as [|n sh IH]; [reflexivity|]. cbn [map fold_right]. rewrite Nat2Z.inj_mul, <- IH. reflexivity. Qed.
Lemma tensordot_nd_rep : forall A sh a y Yd axis Y, PDense.held (VNd A) (DNd sh a) -> PDense.held y Yd ->
  match y with VArr sh' _ => shape_cells sh * shape_cells (map Z.of_nat sh') < i64_max | _ => True end ->
  nd_tensordot Yd axis sh a = Some Y -> done (do_tensordot e (VNd A) y axis) Y.
Proof.
  intros A sh a y Yd axis Y H HY DM D. apply nd_open in H. rename H into R. pose proof (nr_shape _ _ _ R) as ES. unfold nd_tensordot in D.
  destruct Yd as [|[|n rest] d| |]; try discriminate D. destruct (nd_axis_of (length sh) axis) as [ax|] eqn:EX; [|discriminate D].
  destruct (Z.eqb_spec (Z.of_nat n) (nth ax sh 0)) as [EM|]; [|discriminate D]. injection D as <-.
  destruct y as [| | | |sh' d'| |]; destruct HY as [HY _]; try contradiction HY. destruct HY as (-> & -> & LD). destruct (nd_axis_rep _ _ _ _ _ R EX) as [NX AX].
  cbn [do_tensordot]. rewrite NX. cbn [bind]. unfold get_checked. rewrite ES, (nth_error_nth' sh 0) by exact AX. cbn [bind]. rewrite EM, Z.eqb_refl, (nr_parts _ _ _ R). cbn [bind].
  set (p := fold_right Nat.mul 1%nat rest). set (q := other_axes (length sh) [ax]).
  assert (LD' : Z.of_nat (length d) = cells (nth ax (nd_shape A) 0 :: map Z.of_nat rest)).
  { rewrite ES, <- EM. change (Z.of_nat n :: map Z.of_nat rest) with (map Z.of_nat (n :: rest)). rewrite cells_prod. f_equal. exact LD. }
  destruct (tensordot_sizes A ax d (map Z.of_nat rest) (nr_ok _ _ _ R) (nr_small _ _ _ R)) as [SF PS]; [rewrite ES; exact AX| |exact LD'| |].
  { constructor; [rewrite ES; lia|]. apply Forall_map, Forall_forall. intros; lia. }
  { rewrite ES, <- EM. exact DM. }
  cbn [map]. rewrite EM, <- ES. rewrite C31_tensordot_nd by (auto; rewrite ES; exact AX). rewrite cells_prod, Nat2Z.id in *. fold p in PS |- *.
  destruct (C30_spmm_nd qc (e_srt e 0) A ax d p (fair_srt _ FE 0) (nr_ok _ _ _ R) PS) as (C & -> & OC & SC & _ & V). cbn [bind]. rewrite ES in *. fold q in SC, V |- *.
  assert (AT : forall k, in_shape (select q sh ++ [Z.of_nat p]) k -> (length (nd_at C k) <= 1)%nat /\
    one_or 0q (nd_at C k) = nd_sum sh (fun k' => a k' * nth (Z.to_nat (nth ax k' 0%Z) * p + Z.to_nat (last k 0%Z))%nat d 0q)%Qc (fun k' => same_key (select q k') (removelast k))).
  { intros k I. apply in_shape_last in I. destruct I as (key & c & -> & IK & Hc). rewrite V by (auto; lia). rewrite last_last, removelast_last, Nat2Z.id. split.
    - etransitivity; [apply PDense.filter_le|apply (left_sum_length (F := qc))].
    - etransitivity; [apply (one_or_filter qc_elaws), (left_sum_length (F := qc))|]. etransitivity; [apply (left_sum_exact qc_elaws)|]. etransitivity; [apply (fsum_filter qc_elaws)|].
      unfold matrix_products. rewrite ES. fold q. etransitivity; [apply (products_sum A sh a q key (fun k' => matrix_at (F := qc) d p (nth ax k' 0) c) R)|].
      assert (EW : forall l : list (list Z), Forall (in_shape sh) l -> map (fun k' => a k' * matrix_at (F := qc) d p (nth ax k' 0%Z) c)%Qc l = map (fun k' => a k' * nth (Z.to_nat (nth ax k' 0%Z) * p + c)%nat d 0q)%Qc l).
      { intros l FL. apply map_ext_in. intros k' I'. rewrite Forall_forall in FL. specialize (FL k' I'). f_equal. unfold matrix_at. f_equal.
        assert (0 <= nth ax k' 0). { clear - FL AX. revert ax AX. induction FL as [|x n k' sh HX FL IH]; intros ax AX; [cbn in AX; lia|]. destruct ax as [|ax]; cbn [nth]; [lia|]. apply IH; cbn in *; lia. }
        nia. }
      unfold nd_sum. rewrite EW; [reflexivity|]. apply Forall_forall. intros k' I'. apply filter_In in I'. eapply nr_keys; [exact R|apply I']. }
  apply nd_done; [exact OC|exact SC| | |intros k I; apply AT; exact I|intros k I; apply AT; exact I].
  - apply Forall_app. split; [apply select_dims; [apply other_axes_ok|exact (nr_nonneg _ _ _ R)|exact (nr_cells _ _ _ R)]|]. destruct PS as (_ & _ & _ & _ & PK & _). repeat constructor. exact PK.
  - apply Forall_app. split; [apply select_nonneg; exact (nr_nonneg _ _ _ R)|]. repeat constructor. lia.
Qed.
Lemma vecdot_nd_rep : forall A sh a y Yd axis Y, PDense.held (VNd A) (DNd sh a) -> PDense.held y Yd -> nd_vecdot Yd axis sh a = Some Y -> done (do_vecdot e (VNd A) y axis) Y.
Proof.
  intros A sh a y Yd axis Y H HY D. apply nd_open in H. rename H into R. pose proof (nr_shape _ _ _ R) as ES. unfold nd_vecdot in D.
  destruct Yd as [|[|n [|? ?]] d| |]; try discriminate D. destruct (nd_axis_of _ _) as [ax|] eqn:EX in D; [|discriminate D].
  destruct (Z.eqb_spec (Z.of_nat n) (nth ax sh 0)) as [EM|]; [|discriminate D]. destruct (Nat.ltb_spec 1 (length sh)) as [L1|]; [|discriminate D]. injection D as <-.
  destruct y as [| | | |sh' d'| |]; destruct HY as [HY _]; try contradiction HY. destruct HY as (-> & -> & LD). destruct (nd_axis_rep _ _ _ _ _ R EX) as [NX AX].
  cbn [do_vecdot]. rewrite NX. cbn [bind]. unfold get_checked. rewrite ES, (nth_error_nth' sh 0) by exact AX. cbn [bind]. rewrite EM, Z.eqb_refl, (nr_parts _ _ _ R). cbn [bind].
  rewrite C32_vecdot_nd_is_spmv. set (q := other_axes (length sh) [ax]). cbn [fold_right] in LD.
  destruct (C29_spmv_nd qc (e_srt e 0) A ax d (fair_srt _ FE 0) (nr_ok _ _ _ R)) as (C & E & OC & SC & _ & V).
  { rewrite ES. apply shape_cells_fits; [exact (nr_nonneg _ _ _ R)|exact (nr_cells _ _ _ R)]. }
  { unfold contractible. rewrite ES. split; [exact AX|]. split; [exact L1|lia]. }
  rewrite E. cbn [bind]. rewrite ES in *. fold q in SC, V.
  apply nd_done; [exact OC|exact SC|apply select_dims; [apply other_axes_ok|exact (nr_nonneg _ _ _ R)|exact (nr_cells _ _ _ R)]|apply select_nonneg; exact (nr_nonneg _ _ _ R)| |];
    intros k I; rewrite V by (rewrite SC; exact I); [apply (left_sum_length (F := qc))|].
  etransitivity; [apply (left_sum_exact qc_elaws)|]. etransitivity; [apply (fsum_filter qc_elaws)|]. unfold line_products. rewrite ES. fold q.
  apply (products_sum A sh a q k (fun k' => nth (Z.to_nat (nth ax k' 0)) d 0q) R).
Qed.

(** ** A new array *)
Lemma new_nd_rep : forall sh i d ck, nd_ok (mkNd sh i d) -> single_valued_nd (mkNd sh i d) -> Forall (Z.le 0) sh ->
  done (let! A := nd_init sh i d ck in Ok (VNd A)) (DNd sh (fun k => one_or 0q (nd_at (V := Qc) (mkNd sh i d) k))).
Proof.
  intros sh i d ck OK SV NN. exists (VNd (F := qc) (mkNd sh i d)). split.
  - destruct OK as [ND NL _]. cbn [nd_shape nd_idx nd_dat] in *. unfold nd_init. destruct sh as [|s sh]; [congruence|]. cbn [length Nat.eqb] in *. rewrite NL, Nat.mod_mul by lia. reflexivity.
  - intros _. split; [exact OK|]. split; [exact SV|]. split; [reflexivity|]. split; [exact NN|]. reflexivity.
Qed.
End Env.
