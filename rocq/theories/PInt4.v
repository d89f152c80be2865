(** Programs on integers: N-dimensional arrays. *)
Require Import List ZArith Bool Arith Lia Permutation QArith Qabs Qpower.
Require Import Coq.Floats.SpecFloat.
Require Import Verif.Res Verif.Values Verif.Spec Verif.Mem Verif.Laws Verif.SpecReduce Verif.SpecPy Verif.MPy Verif.MObj Verif.SpecObj Verif.PObj Verif.SpecCall Verif.SpecCall2 Verif.PropCall Verif.PropCall2 Verif.PropCall3 Verif.PropCall7.
Require Import Verif.SpecAccuracy Verif.FloatErr Verif.PAccuracy2 Verif.PAccuracy3 Verif.PAccuracy6 Verif.PAccuracy7 Verif.PropAccuracy Verif.PropAccuracy4 Verif.PropAccuracy5 Verif.SpecInt Verif.PInt Verif.PInt2 Verif.PInt3.
Require Verif.PAccuracy Verif.PCall Verif.PCall3 Verif.PDense Verif.PDense6 Verif.PNd Verif.PNd2 Verif.NdLib Verif.PGroup Verif.PSafe3 Verif.PBroadcast Verif.FloatValid Verif.SpecDense.
Import ListNotations.
Local Open Scope Z_scope.

(** ** Sums over stored entries and over all coordinates *)
Lemma ints_perm : forall l l' zs, Permutation l l' -> ints l zs -> ints l' zs.
Proof. intros l l' zs P [A B]. split; [rewrite <- (PAccuracy.total_perm _ _ P)|rewrite <- (PAccuracy.magnitude_perm _ _ P)]; assumption. Qed.
Lemma filter_split : forall {A} (p : A -> bool) l, Permutation (filter p l ++ filter (fun x => negb (p x)) l) l.
Proof.
  intros A p l. induction l as [|x l IH]; [constructor|]. cbn [filter]. destruct (p x); cbn [negb app].
  - constructor. exact IH.
  - etransitivity; [apply Permutation_sym, Permutation_middle|]. constructor. exact IH.
Qed.
Lemma same_key_true : forall k k', same_key k k' = true <-> k = k'.
Proof. intros k k'. unfold same_key. destruct (list_eq_dec Z.eq_dec k k'); split; intros; congruence. Qed.
Lemma filter_in : forall {A} (p q : A -> bool) l, (forall x, p x = true -> q x = true) -> filter p (filter q l) = filter p l.
Proof.
  intros A p q l H. induction l as [|x l IH]; [reflexivity|]. cbn [filter]. destruct (q x) eqn:Q; cbn [filter]; rewrite IH; [reflexivity|]. destruct (p x) eqn:P; [|reflexivity]. rewrite (H x P) in Q. discriminate Q.
Qed.
Lemma grouped_ints : forall {V} K (E : list (list Z * V)) g c, NoDup K -> (forall e, In e E -> In (fst e) K) -> (forall k, In k K -> ints (map g (filter (fun e => same_key (fst e) k) E)) [c k]) ->
  ints (map g E) (map c K).
Proof.
  intros V K. induction K as [|k K IH]; intros E g c ND IN H.
  - destruct E as [|e E]; [apply ints_nil|]. destruct (IN e (or_introl eq_refl)).
  - inversion ND as [|? ? NI ND']; subst. apply (ints_perm (map g (filter (fun e => same_key (fst e) k) E ++ filter (fun e => negb (same_key (fst e) k)) E))).
    { apply Permutation_map. exact (filter_split (fun e => same_key (fst e) k) E). }
    rewrite map_app. change (map c (k :: K)) with ([c k] ++ map c K). apply ints_app; [apply H; left; reflexivity|]. apply IH; [exact ND'| |].
    + intros e Ie. apply filter_In in Ie. destruct Ie as [Ie NE]. destruct (IN e Ie) as [Q|Q]; [|exact Q]. exfalso. rewrite <- Q in NE. unfold same_key in NE. destruct (list_eq_dec Z.eq_dec k k); [discriminate NE|contradiction].
    + intros k' Ik. assert (NK : k <> k') by (intros ->; contradiction). specialize (H k' (or_intror Ik)).
      rewrite (filter_in (fun e => same_key (fst e) k')); [exact H|]. intros e S. apply same_key_true in S. apply negb_true_iff. destruct (same_key (fst e) k) eqn:S'; [|reflexivity]. apply same_key_true in S'. congruence.
Qed.
(** At most one entry satisfies a condition that determines the coordinates. *)
Lemma filter_one : forall {V} (E : list (list Z * V)) (q : list Z -> bool), NoDup (map fst E) -> (forall e e', In e E -> In e' E -> q (fst e) = true -> q (fst e') = true -> fst e = fst e') ->
  (length (filter (fun e => q (fst e)) E) <= 1)%nat.
Proof.
  intros V E q. induction E as [|e E IH]; intros ND INJ; [cbn; lia|]. cbn [map] in ND. inversion ND as [|? ? NI ND']; subst. cbn [filter].
  assert (IH' : (length (filter (fun e => q (fst e)) E) <= 1)%nat) by (apply IH; [exact ND'|intros; apply INJ; [right|right| |]; assumption]).
  destruct (q (fst e)) eqn:Q; [|exact IH']. cbn [length]. enough (N : filter (fun e => q (fst e)) E = []) by (rewrite N; cbn; lia).
  destruct (filter (fun e => q (fst e)) E) as [|e' l] eqn:FE; [reflexivity|]. exfalso. assert (I : In e' (filter (fun e => q (fst e)) E)) by (rewrite FE; left; reflexivity). apply filter_In in I. destruct I as [I Q'].
  apply NI. rewrite (INJ e e' (or_introl eq_refl) (or_intror I) Q Q'). apply in_map. exact I.
Qed.

Section Nd.
Context {pw : spec_float -> spec_float -> spec_float}.
Notation F := (f64 pw).
Implicit Types (h : list (value F)) (H : list ival) (e : Env F) (A B C : Nd F).

(** An N-D array of the integers [x]. *)
Record nd_int A (sh : list Z) (x : list Z -> Z) : Prop := {
  ni_ok : nd_ok A;
  ni_single : single_valued_nd A;
  ni_shape : nd_shape A = sh;
  ni_nonneg : Forall (Z.le 0) sh;
  ni_at : forall k, in_shape sh k -> is_int (one_or f0 (nd_at A k)) (x k);
  ni_keys : forall k, In k (all_keys sh) -> in_shape sh k
}.
Lemma at_nd : forall h H a sh x, reached h -> Forall2 holds h H -> nth_error H a = Some (INd sh x) -> exists A, nth_error h a = Some (VNd A) /\ nd_int A sh x.
Proof.
  intros h H a sh x R HH N. assert (G : exists v, nth_error h a = Some v /\ holds v (INd sh x)).
  { clear R. revert a N. induction HH as [|v y h H V HH IH]; intros [|a] N; try discriminate N; [injection N as ->; exists v; auto|]. apply IH. exact N. }
  destruct G as (v & E & A & -> & S & NN & V). exists A. split; [exact E|]. assert (K := PCall3.reached_nth h a _ (f64_laws pw) R E).
  destruct (PCall3.nd_parts_is A K) as (_ & OK & SV & SM); [rewrite S; exact NN|]. constructor; auto. subst sh. apply PDense.all_keys_in; [exact NN|apply SM].
Qed.
Lemma stored_int : forall A sh x k w, nd_int A sh x -> In (k, w) (nd_entries A) -> in_shape sh k /\ nd_at A k = [w] /\ is_int w (x k).
Proof.
  intros A sh x k w R I. pose proof (NdLib.nd_entries_ok _ (ni_ok _ _ _ R)) as B. rewrite Forall_forall in B. specialize (B _ I). cbn [fst] in B. rewrite (ni_shape _ _ _ R) in B. split; [exact B|].
  assert (J : In w (nd_at A k)). { unfold nd_at, at_key. apply in_map_iff. exists (k, w). split; [reflexivity|]. apply filter_In. split; [exact I|]. cbn [fst]. destruct (list_eq_dec Z.eq_dec k k); [reflexivity|contradiction]. }
  assert (L := ni_single _ _ _ R k). assert (N := ni_at _ _ _ R k B). destruct (nd_at A k) as [|w' [|? ?]]; [destruct J|destruct J as [->|[]]; auto|cbn in L; lia].
Qed.
Lemma data_ints : forall A sh x, nd_int A sh x -> Forall (fun w : F => double w /\ integral w) (nd_dat A).
Proof.
  intros A sh x R. apply Forall_forall. intros w I.
  assert (G : exists k, In (k, w) (nd_entries A)).
  { unfold nd_entries. assert (L := NdLib.nd_keys_length A). revert L I. generalize (nd_keys A). generalize (nd_dat A). intros l. induction l as [|y l IH]; intros [|k ks] L I; try destruct I; try discriminate L.
    - subst y. exists k. left. reflexivity.
    - destruct (IH ks) as [k' J]; [injection L; auto|assumption|]. exists k'. right. exact J. }
  destruct G as [k G]. destruct (stored_int A sh x k w R G) as (_ & _ & N). split; [apply N|eapply is_int_integral; exact N].
Qed.
Lemma entries_in : forall A (p : list Z * F -> bool) w, In w (map snd (filter p (nd_entries A))) -> In w (nd_dat A).
Proof. intros A p w. unfold nd_entries. apply filter_snd. Qed.

(** A sum over the stored entries is a sum over all coordinates. *)
Lemma entries_ints : forall A sh x (p : list Z -> bool) (g : list Z * F -> Q) c, nd_int A sh x -> (forall k w, in_shape sh k -> is_int w (x k) -> (g (k, w) == inject_Z (c k))%Q) -> (forall k, in_shape sh k -> x k = 0 -> c k = 0) ->
  ints (map g (filter (fun t => p (fst t)) (nd_entries A))) (picked sh c p).
Proof.
  intros A sh x p g c R HG H0. unfold picked. apply grouped_ints; [apply NoDup_filter, PGroup.NoDup_all_keys| |].
  - intros [k w] I. apply filter_In in I. destruct I as [I P]. cbn [fst] in *. apply filter_In. split; [|exact P]. apply PGroup.in_all_keys. eapply stored_int; eauto.
  - intros k I. apply filter_In in I. destruct I as [I P]. assert (IK := ni_keys _ _ _ R k I).
    assert (E : filter (fun t => same_key (fst t) k) (filter (fun t => p (fst t)) (nd_entries A)) = filter (fun t => same_key (fst t) k) (nd_entries A)).
    { apply (filter_in (fun t : list Z * F => same_key (fst t) k) (fun t => p (fst t))). intros t S. apply same_key_true in S. rewrite S. exact P. }
    rewrite E. assert (N := ni_at _ _ _ R k IK). assert (L := ni_single _ _ _ R k). unfold nd_at, at_key in N, L. change (fun t : list Z * F => if list_eq_dec Z.eq_dec (fst t) k then true else false) with (fun t : list Z * F => same_key (fst t) k) in N, L.
    destruct (filter (fun t => same_key (fst t) k) (nd_entries A)) as [|[k' w] [|? ?]] eqn:FE; [| |cbn in L; lia].
    + destruct N as [_ N]. change (inject_Z 0 == inject_Z (x k))%Q in N. apply Zinj in N. rewrite (H0 k IK (eq_sym N)). apply ints_zero.
    + assert (Q : same_key k' k = true). { assert (J : In (k', w) (filter (fun t => same_key (fst t) k) (nd_entries A))) by (rewrite FE; left; reflexivity). apply filter_In in J. apply J. }
      apply same_key_true in Q. subst k'. cbn [map]. apply ints_cons; [apply HG; [exact IK|exact N]|apply ints_nil].
Qed.
Lemma values_ints : forall A sh x (p : list Z -> bool), nd_int A sh x -> ints (map number (map snd (filter (fun t => p (fst t)) (nd_entries A)))) (picked sh x p).
Proof. intros A sh x p R. rewrite map_map. apply (entries_ints A sh x p (fun t => number (snd t)) x R); [intros k w _ N; apply N|auto]. Qed.

(** Exact sums. *)
Lemma ints_bound : forall l zs, ints l zs -> small_sum zs = true -> (magnitude l <= inject_Z (2 ^ 53))%Q.
Proof. intros l zs [_ B] S. rewrite B. rewrite <- Zle_Qle. apply Z.leb_le in S. exact S. Qed.
Lemma small_total_some : forall l r, small_total l = Some r -> small_sum l = true /\ r = sumz l.
Proof. intros l r E. unfold small_total in E. destruct (small_sum l); [|discriminate E]. injection E as <-. auto. Qed.
Lemma sum_int : forall (l : list F) s zs, FSum l s -> Forall (fun w : F => double w /\ integral w) l -> ints (map number l) zs -> small_sum zs = true -> is_int s (sumz zs).
Proof.
  intros l s zs S D I B. assert (DD : Forall double l) by (eapply Forall_impl; [|exact D]; intros w [X _]; exact X). assert (DI : Forall integral l) by (eapply Forall_impl; [|exact D]; intros w [_ X]; exact X).
  destruct (sum_integers pw l s S DI (ints_bound _ _ I B)) as [[FS _] E]. split; [split; [exact (FSum_double l s S DD)|exact FS]|]. rewrite E. apply I.
Qed.
Lemma fiber_int : forall A sh x axes k, nd_int A sh x -> small_sum (picked sh x (fun k' => same_key (select axes k') k)) = true ->
  is_int (one_or f0 (left_sum (fiber A axes k))) (sumz (picked sh x (fun k' => same_key (select axes k') k))).
Proof.
  intros A sh x axes k R B. apply (sum_int (fiber A axes k)); [apply left_sum_is| |apply (values_ints A sh x (fun k' => same_key (select axes k') k) R)|exact B].
  apply Forall_forall. intros w I. pose proof (data_ints A sh x R) as D. rewrite Forall_forall in D. apply D. eapply entries_in. exact I.
Qed.
Lemma nd_cells_some : forall sh f y, nd_cells sh f = Some y -> y = INd sh (fun k => from_some (f k)) /\ forall k, in_shape sh k -> f k = Some (from_some (f k)).
Proof.
  intros sh f y E. unfold nd_cells in E. destruct (forallb _ _) eqn:B; [|discriminate E]. injection E as <-. split; [reflexivity|]. intros k I. rewrite forallb_forall in B. specialize (B k (PGroup.in_all_keys sh k I)).
  destruct (f k); [reflexivity|discriminate B].
Qed.
Lemma holds_nd : forall A sh x, nd_shape A = sh -> Forall (Z.le 0) sh -> (forall k, in_shape sh k -> is_int (one_or f0 (nd_at A k)) (x k)) -> holds (VNd A : value F) (INd sh x).
Proof. intros A sh x S N V. exists A. auto. Qed.

(** Axes. *)
Lemma axes_back : forall ndim l p, SpecDense.axes_of ndim l = Some p -> l = map Z.of_nat p /\ axes_ok ndim p.
Proof.
  intros ndim l p E. destruct (PDense6.axes_of_ok _ _ _ E) as [_ AX]. split; [|exact AX]. unfold SpecDense.axes_of in E. destruct (forallb _ l && _) eqn:C; [|discriminate E]. injection E as <-.
  apply andb_true_iff in C. destruct C as [C _]. rewrite forallb_forall in C. rewrite map_map, <- (map_id l) at 1. apply map_ext_in. intros z I. specialize (C z I). unfold SpecDense.within in C. apply andb_true_iff in C. destruct C as [C _]. apply Z.leb_le in C. rewrite Z2Nat.id by exact C. reflexivity.
Qed.
Lemma select_inj : forall n p k k', Permutation p (seq 0 n) -> length k = n -> length k' = n -> select p k = select p k' -> k = k'.
Proof.
  intros n p k k' P L L' E. apply nth_ext with (d := 0) (d' := 0); [congruence|]. intros d Hd. assert (I : In d p) by (apply (Permutation_in d (Permutation_sym P)), in_seq; lia).
  unfold select in E. clear - E I. induction p as [|q p IH]; [destruct I|]. cbn [map] in E. injection E as E1 E2. destruct I as [->|I]; auto.
Qed.
Lemma in_shape_length : forall sh k, in_shape sh k -> length k = length sh.
Proof. intros sh k I. unfold in_shape in I. eapply PAccuracy.F2_length. exact I. Qed.
Lemma keep_shape : forall (s : list Z) ndim f, length s = ndim -> (forall d, (d < ndim)%nat -> nth d s 0 = f d) -> s = map f (seq 0 ndim).
Proof.
  intros s ndim f L V. apply nth_ext with (d := 0) (d' := 0); [rewrite map_length, seq_length; exact L|]. intros d Hd. rewrite L in Hd. rewrite V by exact Hd.
  rewrite (nth_indep _ 0 (f 0%nat)) by (rewrite map_length, seq_length; exact Hd). rewrite map_nth, seq_nth by exact Hd. reflexivity.
Qed.

(** A single value. *)
Lemma single_int : forall (l : list F) zs, (length l <= 1)%nat -> Forall (fun w : F => double w /\ integral w) l -> ints (map number l) zs -> is_int (one_or f0 l) (sumz zs).
Proof.
  intros l zs L D [I _]. destruct l as [|w [|? ?]]; [| |cbn in L; lia].
  - change (inject_Z 0 == inject_Z (sumz zs))%Q in I. apply Zinj in I. rewrite <- I. apply int_zero.
  - inversion D as [|? ? [D1 [D2 _]] _]; subst. split; [split; assumption|]. rewrite <- I. cbn [map total fold_right]. symmetry. apply Qplus_0_r.
Qed.
Lemma data_part : forall A sh x (p : list Z * F -> bool), nd_int A sh x -> Forall (fun w : F => double w /\ integral w) (map snd (filter p (nd_entries A))).
Proof. intros A sh x p R. apply Forall_forall. intros w I. pose proof (data_ints A sh x R) as D. rewrite Forall_forall in D. apply D. eapply entries_in. exact I. Qed.
Lemma nodup_keys : forall A sh x, nd_int A sh x -> NoDup (map fst (nd_entries A)).
Proof. intros A sh x R. rewrite NdLib.nd_entries_keys. apply PCall.single_keys. apply (ni_single _ _ _ R). Qed.

(** ** The calls *)
Section Call.
Variables (e : Env F) (h : list (value F)) (H : list ival) (a : nat) (A : Nd F) (sh : list Z) (x : list Z -> Z).
Hypothesis FE : fair e.
Hypothesis RE : reached h.
Hypothesis Na : nth_error h a = Some (VNd A).
Hypothesis R : nd_int A sh x.
Definition steps_to (c : call F) (y : ival) : Prop := exists z, step e h c = Ok (h ++ [z]) /\ holds z y.

Lemma nonneg_shape : Forall (fun n => 0 <= n) (nd_shape A).
Proof. rewrite (ni_shape _ _ _ R). exact (ni_nonneg _ _ _ R). Qed.
Lemma maps_nd : forall (c : call F) (g : F -> F) (r : list Z -> Z) B, step e h c = Ok (h ++ [VNd B]) -> nd_shape B = nd_shape A -> (forall k, nd_at B k = map g (nd_at A k)) ->
  (forall k, in_shape sh k -> (x k = 0 -> r k = 0) /\ forall w : F, is_int w (x k) -> is_int (g w) (r k)) -> steps_to c (INd sh r).
Proof.
  intros c g r B E S V G. exists (VNd B). split; [exact E|]. apply holds_nd; [rewrite S; exact (ni_shape _ _ _ R)|exact (ni_nonneg _ _ _ R)|]. intros k I. rewrite V. destruct (G k I) as [G1 G2].
  apply (map_cell _ _ (x k)); [apply (ni_single _ _ _ R)|apply (ni_at _ _ _ R); exact I|exact G1|exact G2].
Qed.
Lemma unary_nd : forall op y, match op with
          | IAbs => Some (INd sh (fun k => Z.abs (x k)))
          | ISign => Some (INd sh (fun k => Z.sgn (x k)))
          | INeg => nd_cells sh (fun k => int_binary BMul (x k) (-1))
          | _ => None
          end = Some y -> steps_to (Unary (floating_op op) a) y.
Proof.
  intros op y E. assert (M : forall uo, is_map uo = true -> exists B, step e h (Unary uo a) = Ok (h ++ [VNd B]) /\ nd_shape B = nd_shape A /\ forall k, nd_at B k = map (unary_value uo) (nd_at A k)).
  { intros uo U. destruct (C60_unary_maps_coond F e h a A uo (f64_laws pw) RE Na nonneg_shape U) as (B & Q1 & Q2 & _ & Q3). exists B. auto. }
  destruct op; try discriminate E; cbn [floating_op].
  - injection E as <-. destruct (M UAbs eq_refl) as (B & Q1 & Q2 & Q3). apply (maps_nd _ _ _ B Q1 Q2 Q3). intros k _. split; [intros ->; reflexivity|intros w; apply abs_int].
  - injection E as <-. destruct (M USign eq_refl) as (B & Q1 & Q2 & Q3). apply (maps_nd _ _ _ B Q1 Q2 Q3). intros k _. split; [intros ->; reflexivity|intros w; apply sign_int].
  - destruct (nd_cells_some _ _ _ E) as [-> SO]. destruct (M UNeg eq_refl) as (B & Q1 & Q2 & Q3). apply (maps_nd _ _ _ B Q1 Q2 Q3). intros k I. specialize (SO k I). split; [intros X0; rewrite X0; reflexivity|].
    intros w Iw. apply (scalar_int SMul w (x k) (-1) _ Iw eq_refl SO).
Qed.
Lemma scalar_nd : forall op q y, op = SFloorDiv \/ op = SMod -> (if small q && is_some (int_scalar op 0 q) then nd_cells sh (fun k => int_scalar op (x k) q) else None) = Some y -> steps_to (Scalar op a (fofZ q)) y.
Proof.
  intros op q y OP E. destruct (small q && _) eqn:B; [|discriminate E]. apply andb_true_iff in B. destruct B as [B1 B2]. destruct (nd_cells_some _ _ _ E) as [-> SO].
  destruct (C60_scalar_operators_coond F e h a A op (fofZ q) (f64_laws pw) RE Na nonneg_shape) as [_ Q]. destruct Q as (B & Q1 & Q2 & _ & Q3); [destruct OP; congruence|destruct OP; congruence| |].
  { apply (scalar_quiet pw op (fofZ q) q); [apply int_ofZ; exact B1|]. destruct OP as [-> | ->]; cbn [int_scalar] in B2; right; (split; [auto|]); intros ->; discriminate B2. }
  apply (maps_nd _ _ _ B Q1 Q2 Q3). intros k I. specialize (SO k I). split.
  - intros X0. apply (scalar_int (pw := pw) op (S754_zero false) (x k) q); [rewrite X0; apply int_zero|exact B1|exact SO|exact X0].
  - intros w Iw. apply (scalar_int op w (x k) q); assumption.
Qed.
Lemma mul_nd : forall b B sh' x' y, nth_error h b = Some (VNd B) -> nd_int B sh' x' -> shape_cells (broadcast_shape sh sh') < i64_max ->
  (if forallb (Z.ltb 0) sh && forallb (Z.ltb 0) sh' && SpecDense.stretch sh sh' then nd_cells (broadcast_shape sh sh') (fun k => int_binary BMul (x (source_cell sh k)) (x' (source_cell sh' k))) else None) = Some y ->
  steps_to (Binary BMul a b) y.
Proof.
  intros b B sh' x' y Nb R' DM E. destruct (_ && _ && _) eqn:C in E; [|discriminate E]. apply andb_true_iff in C. destruct C as [C ST]. apply andb_true_iff in C. destruct C as [P1 P2].
  apply PDense6.positive_iff in P1, P2. apply PDense6.stretch_iff in ST. destruct (nd_cells_some _ _ _ E) as [-> SO]. assert (E1 := ni_shape _ _ _ R). assert (E2 := ni_shape _ _ _ R').
  assert (BP := PDense6.broadcast_positive _ _ P1 P2). rewrite PDense6.positive_cells in DM by exact BP.
  destruct (C63_broadcast F e h a b A B (f64_laws pw) FE RE Na Nb) as [_ Q]; [rewrite E1; exact P1|rewrite E2; exact P2|]. rewrite E1, E2 in Q.
  destruct (Q ST) as (C & Q1 & Q2 & Q3); [clear - DM; unfold i64_max, usize_max in *; lia|]. exists (VNd C). split; [exact Q1|].
  apply holds_nd; [exact Q2|eapply Forall_impl; [|exact BP]; cbv beta; intros; lia|]. intros k I. rewrite Q2 in Q3. rewrite (Q3 k I). specialize (SO k I). destruct (PBroadcast.source_in_shape _ _ _ ST I) as [I1 I2].
  assert (X := ni_at _ _ _ R _ I1). assert (Y := ni_at _ _ _ R' _ I2). assert (L1 := ni_single _ _ _ R (source_cell sh k)). assert (L2 := ni_single _ _ _ R' (source_cell sh' k)).
  set (kx := x (source_cell sh k)) in *. set (ky := x' (source_cell sh' k)) in *. destruct (binary_fits _ _ _ _ SO) as [[]|[FT ->]]. cbn [PropAccuracy4.fits integer_result] in *.
  assert (Z0 : is_int (f0 : F) kx -> kx = 0) by (intros [_ Z]; change (inject_Z 0 == inject_Z kx)%Q in Z; apply Zinj in Z; auto). assert (Z1 : is_int (f0 : F) ky -> ky = 0) by (intros [_ Z]; change (inject_Z 0 == inject_Z ky)%Q in Z; apply Zinj in Z; auto).
  destruct (nd_at A (source_cell sh k)) as [|u [|? ?]]; [|destruct (nd_at B (source_cell sh' k)) as [|v [|? ?]]|cbn in L1; lia].
  - rewrite (Z0 X). unfold Spec.products. cbn [list_prod map left_sum one_or]. apply int_zero.
  - rewrite (Z1 Y), Z.mul_0_r. apply int_zero.
  - destruct X as [[DX FX] NX]. destruct Y as [[DY FY] NY]. cbn [one_or] in *. destruct (mul_exact u v kx ky FX FY NX NY FT) as [M1 M2].
    change (is_int (fmul u v : F) (kx * ky)). split; [split; [apply FloatValid.mul_double; assumption|exact M1]|exact M2].
  - cbn in L2; lia.
Qed.
Lemma permute_nd : forall axes y, match SpecDense.axes_of (length sh) axes with
          | Some p => if (length p =? length sh)%nat then Some (INd (select p sh) (fun k => sumz (picked sh x (fun k' => same_key (select p k') k)))) else None
          | None => None
          end = Some y -> steps_to (Permute a axes) y.
Proof.
  intros axes y E. destruct (SpecDense.axes_of (length sh) axes) as [p|] eqn:EA; [|discriminate E]. destruct (Nat.eqb_spec (length p) (length sh)) as [EL|]; [|discriminate E]. injection E as <-.
  destruct (axes_back _ _ _ EA) as [-> AX]. assert (ES := ni_shape _ _ _ R). assert (PP : Permutation p (seq 0 (length sh))) by (apply PNd2.perm_axes_ok; auto).
  destruct (C63_permute F e h a A (f64_laws pw) RE Na nonneg_shape) as (_ & _ & Q). rewrite ES in Q. destruct (Q p PP) as (B & Q1 & Q2 & Q3). exists (VNd B). split; [exact Q1|].
  apply holds_nd; [exact Q2|apply PDense6.select_nonneg; exact (ni_nonneg _ _ _ R)|]. intros k _.
  assert (EB : nd_at B k = map snd (filter (fun t => same_key (select p (fst t)) k) (nd_entries A))).
  { unfold nd_at, at_key. rewrite Q3. generalize (nd_entries A). intros L. clear. induction L as [|[k0 v] L IH]; [reflexivity|]. cbn [map filter fst snd]. unfold same_key. cbn [fst]. unfold select at 1.
    destruct (list_eq_dec Z.eq_dec (map (fun d => nth d k0 0) p) k); cbn [map snd]; [f_equal|]; apply IH. }
  rewrite EB. apply single_int; [|apply (data_part A sh x _ R)|apply (values_ints A sh x (fun k' => same_key (select p k') k) R)].
  rewrite map_length. apply (filter_one (nd_entries A) (fun k' => same_key (select p k') k)); [apply (nodup_keys A sh x R)|]. intros [k1 w1] [k2 w2] I1 I2 S1 S2. cbn [fst] in *. apply same_key_true in S1, S2.
  destruct (stored_int _ _ _ _ _ R I1) as [J1 _]. destruct (stored_int _ _ _ _ _ R I2) as [J2 _]. apply in_shape_length in J1, J2. apply (select_inj (length sh) p); auto. congruence.
Qed.
Lemma reshape_nd : forall new y, (if forallb (Z.ltb 0) new && (0 <? length new)%nat && (Spec.cells sh =? Spec.cells new) then
            Some (INd new (fun k => sumz (picked sh x (fun k' => position sh k' =? position new k)))) else None) = Some y -> steps_to (Reshape a new) y.
Proof.
  intros new y E. destruct (_ && _ && _) eqn:C in E; [|discriminate E]. injection E as <-. apply andb_true_iff in C. destruct C as [C EC]. apply andb_true_iff in C. destruct C as [P NE]. apply PDense6.positive_iff in P. apply Z.eqb_eq in EC.
  assert (NN : Forall (Z.le 0) new) by (eapply Forall_impl; [|exact P]; cbv beta; intros; lia). assert (NE' : new <> []) by (intros ->; discriminate NE). assert (ES := ni_shape _ _ _ R).
  assert (K := PCall3.reached_nth h a _ (f64_laws pw) RE Na). destruct (PCall3.nd_parts_is A K nonneg_shape) as (_ & _ & _ & SM1 & SM2). rewrite ES in SM1, SM2.
  assert (SC : shape_cells new < i64_max) by (rewrite PDense6.positive_cells, <- EC by exact P; pose proof (PSafe3.cells_shape_cells sh SM1); lia).
  assert (DM : Forall (fun n => n <= i64_max) new) by (apply (PCall3.small_dims (mkNd (V := car F) new [] [])); split; assumption).
  destruct (C63_reshape F e h a A new (f64_laws pw) FE RE Na nonneg_shape) as [_ Q]. rewrite ES in Q. destruct (Q NE') as (B & Q1 & Q2 & OB & Q3); [apply PSafe3.shape_cells_fits; assumption|exact DM|exact EC|].
  exists (VNd B). split; [exact Q1|]. apply holds_nd; [exact Q2|exact NN|]. intros k I.
  assert (EB : nd_at B k = map snd (filter (fun t => position sh (fst t) =? position new k) (nd_entries A))).
  { unfold nd_at, at_key. clear - Q3 OB I. induction Q3 as [|s t la lb [EV EP] F2 IH]; [reflexivity|]. inversion OB as [|? ? B1 B2]; subst. cbn [filter]. specialize (IH B2). destruct (list_eq_dec Z.eq_dec (fst t) k) as [EK|NK].
    - rewrite EP, EK, Z.eqb_refl. cbn [map]. rewrite IH, EV. reflexivity.
    - destruct (Z.eqb_spec (position sh (fst s)) (position new k)) as [Q|Q]; [|exact IH]. exfalso. apply NK. eapply PNd.position_inj; [exact B1|exact I|congruence]. }
  rewrite EB. apply single_int; [|apply (data_part A sh x _ R)|apply (values_ints A sh x (fun k' => position sh k' =? position new k) R)].
  rewrite map_length. apply (filter_one (nd_entries A) (fun k' => position sh k' =? position new k)); [apply (nodup_keys A sh x R)|]. intros [k1 w1] [k2 w2] I1 I2 S1 S2. cbn [fst] in *. apply Z.eqb_eq in S1, S2.
  destruct (stored_int _ _ _ _ _ R I1) as [J1 _]. destruct (stored_int _ _ _ _ _ R I2) as [J2 _]. apply (PNd.position_inj sh); auto. congruence.
Qed.

Lemma sum_axes_nd : forall axes y, match SpecDense.axes_of (length sh) axes with
          | Some p =>
              if (0 <? length p)%nat && (length p <? length sh)%nat then
                nd_cells (select (other_axes (length sh) p) sh) (fun k => small_total (picked sh x (fun k' => same_key (select (other_axes (length sh) p) k') k)))
              else None
          | None => None
          end = Some y -> steps_to (ReduceAxes NSum a axes) y.
Proof.
  intros axes y E. destruct (SpecDense.axes_of (length sh) axes) as [p|] eqn:EA; [|discriminate E]. destruct (_ && _) eqn:C in E; [|discriminate E]. apply andb_true_iff in C. destruct C as [C1 C2]. apply Nat.ltb_lt in C1, C2.
  destruct (axes_back _ _ _ EA) as [-> AX]. assert (ES := ni_shape _ _ _ R). destruct (nd_cells_some _ _ _ E) as [-> SO].
  destruct (C63_reduce_axes F e h a A NSum (f64_laws pw) FE RE Na nonneg_shape) as (_ & _ & Q). rewrite ES in Q. destruct (Q p) as (B & Q1 & Q2 & Q3).
  { split; [exact AX|]. split; [intros ->; cbn in C1; lia|exact C2]. }
  exists (VNd B). split; [exact Q1|]. apply holds_nd; [exact Q2|apply PDense6.select_nonneg; exact (ni_nonneg _ _ _ R)|]. intros k I. rewrite Q2 in Q3. rewrite (Q3 k I). destruct (small_total_some _ _ (SO k I)) as [SB ->]. apply fiber_int; assumption.
Qed.
Lemma sum_nd : forall (axis : axis_arg) (kd : bool) y, (let ndim := length sh in
          match axis with
          | AxNone => sums (if kd then repeat 1%nat ndim else []) [map x (all_keys sh)]
          | _ =>
              let numbers := match axis with AxInt z => [z] | AxTuple l => l | AxNone => [] end in
              let axes := named_axes ndim numbers in
              let remain := other_axes ndim axes in
              if (0 <? length numbers)%nat && forallb (fun z => (- Z.of_nat ndim <=? z) && (z <? Z.of_nat ndim)) numbers && (length axes <? ndim)%nat then
                nd_cells (if kd then map (fun d => if existsb (Nat.eqb d) axes then 1 else nth d sh 0) (seq 0 ndim) else select remain sh)
                  (fun k => small_total (picked sh x (fun k' => same_key (select remain k') (if kd then select remain k else k))))
              else None
          end) = Some y -> steps_to (Reduce RSum a axis kd) y.
Proof.
  intros axis kd y E. assert (ES := ni_shape _ _ _ R).
  destruct (C63_sum_mean pw e h a A RSum axis kd FE RE Na nonneg_shape (or_introl eq_refl)) as (Q0 & _ & Q). rewrite ES in Q0, Q.
  assert (AL : forall numbers : list Z, numbers = match axis with AxNone => [] | AxInt z => [z] | AxTuple l => l end -> (let ndim := length sh in let axes := named_axes ndim numbers in
              let remain := other_axes ndim axes in
              if (0 <? length numbers)%nat && forallb (fun z => (- Z.of_nat ndim <=? z) && (z <? Z.of_nat ndim)) numbers && (length axes <? ndim)%nat then
                nd_cells (if kd then map (fun d => if existsb (Nat.eqb d) axes then 1 else nth d sh 0) (seq 0 ndim) else select remain sh)
                  (fun k => small_total (picked sh x (fun k' => same_key (select remain k') (if kd then select remain k else k))))
              else None) = Some y -> steps_to (Reduce RSum a axis kd) y).
  { intros numbers EN E'. cbv zeta in E'. destruct (_ && _ && _) eqn:C in E'; [|discriminate E']. apply andb_true_iff in C. destruct C as [C C3]. apply andb_true_iff in C. destruct C as [C1 C2]. apply Nat.ltb_lt in C1, C3.
    rewrite <- EN in Q. destruct Q as (B & Q1 & Q2 & Q3).
    { intros ->; cbn in C1; lia. }
    { apply Forall_forall. intros q I. rewrite forallb_forall in C2. specialize (C2 q I). apply andb_true_iff in C2. rewrite Z.leb_le, Z.ltb_lt in C2. exact C2. }
    { exact C3. }
    destruct (nd_cells_some _ _ _ E') as [-> SO]. exists (VNd B). split; [exact Q1|].
    assert (SB : nd_shape B = if kd then map (fun d => if existsb (Nat.eqb d) (named_axes (length sh) numbers) then 1 else nth d sh 0) (seq 0 (length sh)) else select (other_axes (length sh) (named_axes (length sh) numbers)) sh).
    { destruct kd; [|exact Q2]. destruct Q2 as [L2 V2]. apply keep_shape; [exact L2|exact V2]. }
    apply holds_nd; [exact SB| |].
    { destruct kd; [|apply PDense6.select_nonneg; exact (ni_nonneg _ _ _ R)]. apply Forall_map, Forall_forall. intros d I. apply in_seq in I. destruct (existsb _ _); [lia|]. pose proof (ni_nonneg _ _ _ R) as P. rewrite Forall_forall in P. apply P, nth_In. lia. }
    intros k I. rewrite SB in Q3. rewrite (Q3 k I). rewrite map_id. destruct (small_total_some _ _ (SO k I)) as [SM ->]. apply fiber_int; assumption. }
  destruct axis as [|z|l]; [|apply (AL [z]); [reflexivity|exact E]|apply (AL l); [reflexivity|exact E]].
  destruct (Q0 eq_refl) as (s & S1 & S2). cbv zeta in E. unfold sums, lines in E. cbn [forallb map] in E. destruct (small_sum (map x (all_keys sh))) eqn:SB; [|discriminate E]. cbn [andb] in E. injection E as <-.
  eexists. split; [exact S2|]. exists [s]. split; [reflexivity|]. constructor; [|constructor]. apply (sum_is_int (nd_at A) x (all_keys sh) s); [|intros k I; split; [apply (ni_single _ _ _ R)|apply (ni_at _ _ _ R), (ni_keys _ _ _ R); exact I]|exact SB].
  rewrite <- ES. exact S1.
Qed.
Lemma unfold_done : forall f p (c : call F) y v, axes_ok (length sh) p ->
  cells_of (match f with FCsr => CsrClass | FCsc => CscClass end) (Z.to_nat (Spec.cells (select p sh))) (Z.to_nat (Spec.cells (select (other_axes (length sh) p) sh)))
        (fun i j => small_total (picked sh x (fun k => (position (select p sh) (select p k) =? Z.of_nat i) && (position (select (other_axes (length sh) p) sh) (select (other_axes (length sh) p) k) =? Z.of_nat j)))) = Some y ->
  step e h c = Ok (h ++ [v]) -> class_of v = Some (match f with FCsr => CsrClass | FCsc => CscClass end) ->
  Z.of_nat (fst (shape2 v)) = Spec.cells (select p sh) -> Z.of_nat (snd (shape2 v)) = Spec.cells (select (other_axes (length sh) p) sh) ->
  (forall i j, (i < fst (shape2 v))%nat -> (j < snd (shape2 v))%nat ->
      (unfold_cell A p (Z.of_nat i) (Z.of_nat j) = [] -> stored v i j = []) /\ (unfold_cell A p (Z.of_nat i) (Z.of_nat j) <> [] -> exists w, stored v i j = [w] /\ FSum (unfold_cell A p (Z.of_nat i) (Z.of_nat j)) w)) ->
  steps_to c y.
Proof.
  intros f p c y v AX E ST CV M1 M2 V. destruct (cells_of_some _ _ _ _ _ E) as [-> SO]. exists v. split; [exact ST|]. rewrite <- M1, <- M2, !Nat2Z.id in *.
  split; [exact CV|]. split; [destruct (shape2 v); reflexivity|]. intros i j Hi Hj. specialize (SO i j Hi Hj). apply small_total_some in SO. destruct SO as [SB ->]. destruct (V i j Hi Hj) as [V0 V1]. unfold SpecCall.cell.
  assert (EU : unfold_cell A p (Z.of_nat i) (Z.of_nat j) = map snd (filter (fun t => (position (select p sh) (select p (fst t)) =? Z.of_nat i) && (position (select (other_axes (length sh) p) sh) (select (other_axes (length sh) p) (fst t)) =? Z.of_nat j)) (nd_entries A))).
  { unfold unfold_cell. rewrite (ni_shape _ _ _ R). reflexivity. }
  assert (VI := values_ints A sh x (fun k => (position (select p sh) (select p k) =? Z.of_nat i) && (position (select (other_axes (length sh) p) sh) (select (other_axes (length sh) p) k) =? Z.of_nat j)) R). cbv beta in VI. rewrite <- EU in VI.
  assert (DP := data_part A sh x (fun t => (position (select p sh) (select p (fst t)) =? Z.of_nat i) && (position (select (other_axes (length sh) p) sh) (select (other_axes (length sh) p) (fst t)) =? Z.of_nat j)) R). cbv beta in DP. rewrite <- EU in DP.
  destruct (unfold_cell A p (Z.of_nat i) (Z.of_nat j)) as [|u l] eqn:EC.
  - rewrite V0 by reflexivity. cbn [one_or]. apply (single_int [] _ (Nat.le_0_l _) (Forall_nil _) VI).
  - destruct V1 as (w & -> & S); [discriminate|]. cbn [one_or]. apply (sum_int (u :: l) w); assumption.
Qed.
Lemma unfold_nd : forall f rows y, unfolded f rows sh x = Some y -> steps_to (Unfold f a rows) y.
Proof.
  intros f rows y E. unfold unfolded in E. destruct (SpecDense.axes_of (length sh) rows) as [p|] eqn:EA; [|discriminate E]. destruct (axes_back _ _ _ EA) as [-> AX].
  destruct (C63_unfold pw e h a A f FE RE Na nonneg_shape) as (_ & _ & Q & _). rewrite (ni_shape _ _ _ R) in Q. destruct (Q p AX) as (v & Q1 & Q2 & Q3 & Q4 & Q5). exact (unfold_done f p _ y v AX E Q1 Q2 Q3 Q4 Q5).
Qed.
Lemma mode_nd : forall f ax y, unfolded f [ax] sh x = Some y -> steps_to (Mode f a ax) y.
Proof.
  intros f ax y E. unfold unfolded in E. destruct (SpecDense.axes_of (length sh) [ax]) as [p|] eqn:EA; [|discriminate E]. destruct (axes_back _ _ _ EA) as [EP AX].
  destruct p as [|n [|? ?]]; try discriminate EP. injection EP as ->. assert (L : (n < length sh)%nat) by (destruct AX as [_ AX]; inversion AX; assumption).
  destruct (C63_unfold pw e h a A f FE RE Na nonneg_shape) as (_ & _ & _ & _ & Q). rewrite (ni_shape _ _ _ R) in Q. destruct (Q n L) as (v & Q1 & Q2 & Q3 & Q4 & Q5). exact (unfold_done f [n] _ y v AX E Q1 Q2 Q3 Q4 Q5).
Qed.

(** Products with a dense array. *)
Lemma nth_int : forall (d : list F) y n, Forall2 is_int d y -> is_int (nth n d f0) (nth n y 0).
Proof. intros d y n D. revert n. induction D as [|w z d y W D IH]; intros [|n]; cbn [nth]; try apply int_zero; auto. Qed.
Lemma dense_integral : forall (d : list F) y, Forall2 is_int d y -> Forall integral d /\ Forall double d.
Proof. intros d y D. induction D as [|w z d y W D [I1 I2]]; split; constructor; auto; [eapply is_int_integral; exact W|apply W]. Qed.
Lemma data_integral : Forall integral (nd_dat A).
Proof. eapply Forall_impl; [|exact (data_ints A sh x R)]. intros w [_ I]. exact I. Qed.
Lemma products_double : forall axes k (w : list Z -> F), (forall k', double (w k')) -> Forall double (filter Spec.nonzero (map (fun t => fmul (snd t) (w (fst t))) (fiber_entries A axes k))).
Proof.
  intros axes k w W. apply Forall_forall. intros u I. apply filter_In in I. destruct I as [I _]. apply in_map_iff in I. destruct I as (t & <- & I). apply FloatValid.mul_double; [|apply W].
  pose proof (data_part A sh x (fun t => if list_eq_dec Z.eq_dec (select axes (fst t)) k then true else false) R) as D. rewrite Forall_forall in D. apply D. apply in_map. exact I.
Qed.
Lemma dot_int : forall axes k (w : list Z -> F) b s, (forall k', is_int (w k') (b k')) -> FSum (filter Spec.nonzero (map (fun t => fmul (snd t) (w (fst t))) (fiber_entries A axes k))) s ->
  (magnitude (map (fun t => number (snd t) * number (w (fst t)))%Q (fiber_entries A axes k)) <= inject_Z (2 ^ 53) -> integral s /\ (number s == total (map (fun t => number (snd t) * number (w (fst t)))%Q (fiber_entries A axes k))))%Q ->
  small_sum (picked sh (fun k' => x k' * b k') (fun k' => same_key (select axes k') k)) = true -> is_int s (sumz (picked sh (fun k' => x k' * b k') (fun k' => same_key (select axes k') k))).
Proof.
  intros axes k w b s W S G B.
  assert (I : ints (map (fun t => number (snd t) * number (w (fst t)))%Q (fiber_entries A axes k)) (picked sh (fun k' => x k' * b k') (fun k' => same_key (select axes k') k))).
  { apply (entries_ints A sh x (fun k' => same_key (select axes k') k) (fun t => number (snd t) * number (w (fst t)))%Q _ R).
    - intros k' v _ [_ NV]. cbn [fst snd]. destruct (W k') as [_ NW]. rewrite NV, NW, inject_Z_mult. reflexivity.
    - intros k' _ ->. reflexivity. }
  destruct (G (ints_bound _ _ I B)) as [[FS _] E]. split; [split; [|exact FS]|].
  - apply (FSum_double _ s S). apply products_double. intros k'. apply W.
  - rewrite E. apply I.
Qed.
Lemma vecdot_nd : forall b n (d : list F) y axis o, nth_error h b = Some (VArr [n] d) -> Forall2 is_int d y ->
  match SpecDense.nd_axis_of (length sh) (match axis with Some z => if z =? -1 then None else Some z | None => None end) with
          | Some ax =>
              let remain := other_axes (length sh) [ax] in
              if (Z.of_nat n =? nth ax sh 0) && (1 <? length sh)%nat then
                nd_cells (select remain sh) (fun k => small_total (picked sh (fun k' => x k' * nth (Z.to_nat (nth ax k' 0)) y 0) (fun k' => same_key (select remain k') k)))
              else None
          | None => None
          end = Some o -> steps_to (Vecdot a b axis) o.
Proof.
  intros b n d y axis o Nb D E. assert (ES := ni_shape _ _ _ R). destruct (SpecDense.nd_axis_of _ _) as [ax|] eqn:EX in E; [|discriminate E]. cbv zeta in E. destruct (_ && _) eqn:C in E; [|discriminate E]. apply andb_true_iff in C. destruct C as [C1 C2]. apply Z.eqb_eq in C1. apply Nat.ltb_lt in C2.
  destruct (nd_cells_some _ _ _ E) as [-> SO]. destruct (C63_vecdot F e h a b A n d axis (f64_laws pw) FE RE Na Nb nonneg_shape) as [_ Q]. rewrite ES in Q.
  set (last := match axis with None => true | Some z => z =? -1 end) in Q.
  assert (AL : (last = true \/ exists z, axis = Some z /\ 0 <= z < Z.of_nat (length sh)) /\ (if last then (length sh - 1)%nat else match axis with Some z => Z.to_nat z | None => 0%nat end) = ax).
  { unfold last. destruct axis as [z|]; cbn [SpecDense.nd_axis_of] in EX; [|injection EX as <-; auto]. destruct (z =? -1) eqn:EZ; cbn [SpecDense.nd_axis_of] in EX; [injection EX as <-; auto|].
    destruct (SpecDense.within z (length sh)) eqn:W; [|discriminate EX]. injection EX as <-. split; [|reflexivity]. right. exists z. split; [reflexivity|]. unfold SpecDense.within in W. apply andb_true_iff in W. rewrite Z.leb_le, Z.ltb_lt in W. exact W. }
  destruct AL as [AL EA]. rewrite EA in Q. destruct (Q AL) as (B & Q1 & Q2 & Q3); [clear - C2; lia|exact C1|]. exists (VNd B). split; [exact Q1|].
  apply holds_nd; [exact Q2|apply PDense6.select_nonneg; exact (ni_nonneg _ _ _ R)|]. intros k I. rewrite Q2 in Q3. rewrite (Q3 k I). destruct (small_total_some _ _ (SO k I)) as [SB ->].
  destruct (dense_integral d y D) as [DI DD].
  apply (dot_int (other_axes (length sh) [ax]) k (fun k' => nth (Z.to_nat (nth ax k' 0)) d f0) (fun k' => nth (Z.to_nat (nth ax k' 0)) y 0)); [intros k'; apply nth_int; exact D| | |exact SB].
  - assert (S := left_sum_is pw (filter Spec.nonzero (line_products A ax d k))). unfold line_products in S at 1. rewrite ES in S. exact S.
  - intros BD. assert (G := line_integers pw A ax d k _ (left_sum_is pw (filter Spec.nonzero (line_products A ax d k))) data_integral DI). unfold line_exact in G. assert (ES0 : nd_shape (A : Nd spec_float) = sh) by exact ES. rewrite ES0 in G. exact (G BD).
Qed.
Lemma filter_double : forall l : list F, Forall double l -> double (one_or (f0 : F) (filter Spec.nonzero l)).
Proof. intros l L. destruct (filter Spec.nonzero l) as [|u t] eqn:E; [reflexivity|]. cbn [one_or]. rewrite Forall_forall in L. apply L. assert (I : In u (filter Spec.nonzero l)) by (rewrite E; left; reflexivity). apply filter_In in I. apply I. Qed.
Lemma tensordot_nd : forall b n rest (d : list F) y axis o, nth_error h b = Some (VArr (n :: rest) d) -> Forall2 is_int d y -> shape_cells sh * shape_cells (map Z.of_nat (n :: rest)) < i64_max ->
  match SpecDense.nd_axis_of (length sh) axis with
          | Some ax =>
              let q := fold_right Nat.mul 1%nat rest in
              let remain := other_axes (length sh) [ax] in
              if Z.of_nat n =? nth ax sh 0 then
                nd_cells (select remain sh ++ [Z.of_nat q]) (fun k => small_total
                  (picked sh (fun k' => x k' * nth (Z.to_nat (nth ax k' 0 * Z.of_nat q + last k 0)) y 0) (fun k' => same_key (select remain k') (removelast k))))
              else None
          | None => None
          end = Some o -> steps_to (Tensordot a b axis) o.
Proof.
  intros b n rest d y axis o Nb D DM E. assert (ES := ni_shape _ _ _ R). destruct (SpecDense.nd_axis_of _ _) as [ax|] eqn:EX in E; [|discriminate E]. cbv zeta in E. destruct (Z.eqb_spec (Z.of_nat n) (nth ax sh 0)) as [EM|]; [|discriminate E].
  destruct (nd_cells_some _ _ _ E) as [-> SO]. destruct (C63_tensordot F e h a b A (n :: rest) d axis (f64_laws pw) FE RE Na Nb nonneg_shape) as [_ Q]. rewrite ES in Q.
  assert (AL : match axis with None => True | Some z => 0 <= z < Z.of_nat (length sh) end /\ match axis with None => (length sh - 1)%nat | Some z => Z.to_nat z end = ax).
  { destruct axis as [z|]; cbn [SpecDense.nd_axis_of] in EX; [|injection EX as <-; auto]. destruct (SpecDense.within z (length sh)) eqn:W; [|discriminate EX]. injection EX as <-. split; [|reflexivity]. unfold SpecDense.within in W. apply andb_true_iff in W. rewrite Z.leb_le, Z.ltb_lt in W. exact W. }
  destruct AL as [AL EA]. rewrite EA in Q. destruct (Q n rest AL eq_refl EM DM) as (B & Q1 & Q2 & Q3). rewrite PDense6.cells_prod, Nat2Z.id in Q2, Q3. set (q := fold_right Nat.mul 1%nat rest) in *. set (remain := other_axes (length sh) [ax]) in *.
  exists (VNd B). split; [exact Q1|]. apply holds_nd; [exact Q2|apply Forall_app; split; [apply PDense6.select_nonneg; exact (ni_nonneg _ _ _ R)|repeat constructor; lia]|].
  intros k I. destruct (small_total_some _ _ (SO k I)) as [SB ->]. destruct (PDense6.in_shape_last _ _ _ I) as (key & c & -> & IK & Hc). rewrite last_last, removelast_last in *. rewrite (Q3 key c IK) by (clear - Hc; lia).
  destruct (dense_integral d y D) as [DI DD]. destruct (tensordot_number pw (filter Spec.nonzero (matrix_products A ax d q key c))) as (s & S1 & S2 & _ & S4).
  assert (G := matrix_integers pw A ax d q key c s S1 data_integral DI).
  assert (IS : is_int s (sumz (picked sh (fun k' => x k' * nth (Z.to_nat (nth ax k' 0 * Z.of_nat q + Z.of_nat c)) y 0) (fun k' => same_key (select remain k') key)))).
  { apply (dot_int remain key (fun k' => nth (Z.to_nat (nth ax k' 0 * Z.of_nat q + Z.of_nat c)) d f0) (fun k' => nth (Z.to_nat (nth ax k' 0 * Z.of_nat q + Z.of_nat c)) y 0)); [intros k'; apply nth_int; exact D| | |exact SB].
    - unfold matrix_products in S1. rewrite ES in S1. exact S1.
    - intros BD. unfold matrix_exact in G. assert (ES0 : nd_shape (A : Nd spec_float) = sh) by exact ES. rewrite ES0 in G. exact (G BD). }
  destruct IS as [[DS FS] NS]. split; [split; [|apply S4; exact FS]|rewrite S2; exact NS].
  clear - R S1 ES D DD. assert (LS : Forall double (left_sum (filter Spec.nonzero (matrix_products A ax d q key c)))).
  { assert (FD := FSum_double _ _ (left_sum_is pw (filter Spec.nonzero (matrix_products A ax d q key c)))). destruct (filter Spec.nonzero (matrix_products A ax d q key c)) as [|u l] eqn:EL; [constructor|]. constructor; [|constructor]. apply FD. rewrite <- EL.
    unfold matrix_products. apply (products_double (other_axes (length (nd_shape A)) [ax]) key (fun k' => matrix_at d q (nth ax k' 0) c)). intros k'. unfold matrix_at. destruct (nth_in_or_default (Z.to_nat (nth ax k' 0 * Z.of_nat q + Z.of_nat c)) d f0) as [I|E]; [rewrite Forall_forall in DD; apply DD; exact I|rewrite E; reflexivity]. }
  apply filter_double. exact LS.
Qed.
End Call.

(** ** New arrays *)
Lemma nd_at_map : forall s i (d : list Z) k, nd_at (mkNd s i (map (fofZ : Z -> F) d)) k = map fofZ (nd_at (mkNd s i d) k).
Proof.
  intros s i d k. unfold nd_at, at_key, nd_entries, nd_keys. cbn [nd_shape nd_idx nd_dat]. rewrite ?map_length. generalize (chunks (length s) (length d) i). clear. intros ks.
  revert d. induction ks as [|q ks IH]; intros [|z d]; cbn [combine map filter]; try reflexivity. cbn [fst snd]. destruct (list_eq_dec Z.eq_dec q k); cbn [map snd]; [f_equal|]; apply IH.
Qed.
Lemma nd_map_ok : forall s i (d : list Z), nd_ok (mkNd s i d) -> nd_ok (mkNd s i (map (fofZ : Z -> F) d)).
Proof.
  intros s i d [O1 O2 O3]. constructor; cbn [nd_shape nd_idx nd_dat] in *; [exact O1|rewrite map_length; exact O2|]. unfold nd_keys in *. cbn [nd_shape nd_idx nd_dat] in *. rewrite ?map_length. exact O3.
Qed.

Lemma nd_step : forall e h H c y, fair e -> reached h -> Forall2 holds h H -> plain_integers (INdCall c) -> int_nd H c = Some y -> demand h (floating_nd c) < i64_max ->
  exists z, step e h (floating_nd c) = Ok (h ++ [z]) /\ holds z y.
Proof.
  intros e h H c y FE RE HH PL E DM.
  destruct c as [sh i d ck|op a|op a q|a b|a axes|a new|a axis kd|a axes|f a rows|f a ax|a b axis|a b axis]; cbn [int_nd floating_nd] in *.
  - cbn [plain_integers] in PL. destruct PL as (OK & SV & NN). destruct (forallb small d) eqn:B; [|discriminate E]. injection E as <-.
    assert (OK' : nd_ok (mkNd sh i (map (fofZ : Z -> F) d))) by (apply nd_map_ok; exact OK).
    destruct (C67_valid_arrays F e h 0 0 [] [] [] [] sh i (map fofZ d) ck) as (_ & _ & _ & Q); [vm_compute; reflexivity|vm_compute; reflexivity|]. exists (VNd (mkNd sh i (map fofZ d))). split; [apply Q; exact OK'|].
    apply holds_nd; [reflexivity|exact NN|]. intros k I. rewrite nd_at_map. apply one_or_map. apply Forall_forall. intros z Iz. rewrite forallb_forall in B. apply B.
    unfold nd_at, at_key, nd_entries in Iz. apply in_map_iff in Iz. destruct Iz as ([k' w] & EW & Iz). cbn in EW. subst w. apply filter_In in Iz. destruct Iz as [Iz _]. apply in_combine_r in Iz. exact Iz.
  - destruct (nth_error H a) as [[| | |sh x]|] eqn:N; try discriminate E. destruct (at_nd _ _ _ _ _ RE HH N) as (A & Na & R). eapply unary_nd; eauto.
  - destruct (nth_error H a) as [[| | |sh x]|] eqn:N; try discriminate E. destruct (at_nd _ _ _ _ _ RE HH N) as (A & Na & R). destruct op; try discriminate E; eapply scalar_nd; eauto.
  - destruct (nth_error H a) as [[| | |sh x]|] eqn:N; try discriminate E. destruct (nth_error H b) as [[| | |sh' x']|] eqn:N'; try discriminate E.
    destruct (at_nd _ _ _ _ _ RE HH N) as (A & Na & R). destruct (at_nd _ _ _ _ _ RE HH N') as (B & Nb & R'). apply (mul_nd e h a A sh x FE RE Na R b B sh' x' y Nb R'); [|exact E].
    cbn [demand] in DM. rewrite Na, Nb in DM. rewrite (ni_shape _ _ _ R), (ni_shape _ _ _ R') in DM. exact DM.
  - destruct (nth_error H a) as [[| | |sh x]|] eqn:N; try discriminate E. destruct (at_nd _ _ _ _ _ RE HH N) as (A & Na & R). eapply permute_nd; eauto.
  - destruct (nth_error H a) as [[| | |sh x]|] eqn:N; try discriminate E. destruct (at_nd _ _ _ _ _ RE HH N) as (A & Na & R). eapply reshape_nd; eauto.
  - destruct (nth_error H a) as [[| | |sh x]|] eqn:N; try discriminate E. destruct (at_nd _ _ _ _ _ RE HH N) as (A & Na & R). eapply sum_nd; eauto.
  - destruct (nth_error H a) as [[| | |sh x]|] eqn:N; try discriminate E. destruct (at_nd _ _ _ _ _ RE HH N) as (A & Na & R). eapply sum_axes_nd; eauto.
  - destruct (nth_error H a) as [[| | |sh x]|] eqn:N; try discriminate E. destruct (at_nd _ _ _ _ _ RE HH N) as (A & Na & R). eapply unfold_nd; eauto.
  - destruct (nth_error H a) as [[| | |sh x]|] eqn:N; try discriminate E. destruct (at_nd _ _ _ _ _ RE HH N) as (A & Na & R). eapply mode_nd; eauto.
  - destruct (nth_error H a) as [[| | |sh x]|] eqn:N; try discriminate E. destruct (nth_error H b) as [[|[|n rest] d| |]|] eqn:N'; try discriminate E.
    destruct (at_nd _ _ _ _ _ RE HH N) as (A & Na & R). destruct (at_array _ _ _ _ _ HH N') as (d' & Nb & D). apply (tensordot_nd e h a A sh x FE RE Na R b n rest d' d axis y Nb D); [|exact E].
    cbn [demand] in DM. rewrite Na, Nb in DM. rewrite (ni_shape _ _ _ R) in DM. exact DM.
  - destruct (nth_error H a) as [[| | |sh x]|] eqn:N; try discriminate E. destruct (nth_error H b) as [[|[|n [|? ?]] d| |]|] eqn:N'; try discriminate E.
    destruct (at_nd _ _ _ _ _ RE HH N) as (A & Na & R). destruct (at_array _ _ _ _ _ HH N') as (d' & Nb & D). apply (vecdot_nd e h a A sh x FE RE Na R b n d' d axis y Nb D). exact E.
Qed.
End Nd.
