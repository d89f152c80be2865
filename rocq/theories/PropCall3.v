(** Property theorems about single calls on the objects of a running program, continued:
    N-D arrays (C63). *)
Require Import List ZArith Bool Arith Lia Permutation.
Require Import ZifyBool ZifyNat.
Require Import Verif.Res Verif.Values Verif.Spec Verif.Mem Verif.Lists Verif.Laws Verif.FloatFacts Verif.Witness Verif.MNd Verif.PNd3 Verif.PropNd Verif.PropNd2 Verif.PSafe3 Verif.PropScalar Verif.SpecReduce Verif.SpecPy Verif.MPy Verif.PPy2 Verif.PropPy2 Verif.PropStat Verif.MObj Verif.SpecObj Verif.PObj Verif.PropObj Verif.SpecCall Verif.PCall Verif.PCall2 Verif.PCall3 Verif.PropCall.
Require Verif.NdLib.
Import ListNotations.
Local Open Scope Z_scope.

Section Helpers.
Context {F : Fl}.
Lemma to_axes_nat : forall p, to_axes (map Z.of_nat p) = Ok p.
Proof.
  intros p. unfold to_axes. replace (forallb (Z.leb 0) (map Z.of_nat p)) with true by (symmetry; apply forallb_forall; intros z I; apply in_map_iff in I; destruct I as (n & <- & _); lia).
  rewrite map_map. f_equal. rewrite <- (map_id p) at 2. apply map_ext. intros n. apply Nat2Z.id.
Qed.
Lemma to_axes_negative : forall l, Exists (fun z => z < 0) l -> to_axes l = Panic.
Proof.
  intros l H. unfold to_axes. replace (forallb (Z.leb 0) l) with false; [reflexivity|]. symmetry. apply Exists_exists in H. destruct H as (z & I & N).
  apply not_true_is_false. intros Q. rewrite forallb_forall in Q. apply Q in I. lia.
Qed.
Lemma select_dims : forall sh axes, axes_ok (length sh) axes -> Forall (fun n => 0 <= n) sh -> shape_cells sh < i64_max -> Forall (fun n => n <= i64_max) (select axes sh).
Proof.
  intros sh axes AX NN SM. assert (H := shape_cells_select sh axes AX). assert (N2 := proj1 (shape_fits_select _ _ AX (shape_cells_fits _ NN SM))).
  apply (small_dims (mkNd (V := car qc) (select axes sh) [] [])). split; cbn [nd_shape]; [exact N2|lia].
Qed.
Lemma perm_dims : forall sh p, Forall (fun n => n <= i64_max) sh -> Forall (fun n => n <= i64_max) (map (fun d => nth d sh 0) p).
Proof.
  intros sh p H. apply Forall_map. apply Forall_forall. intros d _. destruct (le_lt_dec (length sh) d) as [L|L]; [rewrite nth_overflow by auto; discriminate|].
  rewrite Forall_forall in H. apply H. apply nth_In. auto.
Qed.
Lemma broadcast_dims : forall a b, Forall (fun n => n <= i64_max) a -> Forall (fun n => n <= i64_max) b -> Forall (fun n => n <= i64_max) (broadcast_shape a b).
Proof.
  intros u v NA NB. unfold broadcast_shape. apply Forall_forall. intros n I. apply in_map_iff in I. destruct I as ([a b] & <- & I).
  assert (I1 := in_combine_l _ _ _ _ I). assert (I2 := in_combine_r _ _ _ _ I). unfold pad_ones in I1, I2.
  apply in_app_or in I1. apply in_app_or in I2. rewrite Forall_forall in NA, NB.
  assert (a <= i64_max) by (destruct I1 as [I1|I1]; [apply repeat_spec in I1; subst a; discriminate|auto]).
  assert (b <= i64_max) by (destruct I2 as [I2|I2]; [apply repeat_spec in I2; subst b; discriminate|auto]).
  unfold bdim. cbn [fst snd]. destruct (a =? 1); auto.
Qed.
Lemma nd_axis_is : forall (A : Nd F) axis, (0 < length (nd_shape A))%nat ->
  let ax := match axis with None => (length (nd_shape A) - 1)%nat | Some z => Z.to_nat z end in
  let allowed := match axis with None => True | Some z => 0 <= z < Z.of_nat (length (nd_shape A)) end in
  (~ allowed -> nd_axis A axis = Panic) /\ (allowed -> nd_axis A axis = Ok ax /\ (ax < length (nd_shape A))%nat).
Proof.
  intros A axis N0 ax allowed. unfold nd_axis, ax, allowed. destruct axis as [z|]; [|split; [intros H; exfalso; auto|intros _; split; [reflexivity|lia]]].
  unfold py_get, py_index. split.
  - intros H. destruct (Z.leb_spec 0 z) as [L|L].
    + replace (z <? Z.of_nat (length (nd_shape A))) with false by lia. replace (z <? 0) with false by lia. reflexivity.
    + cbn [andb]. destruct (_ && _); [|reflexivity]. cbn [bind]. unfold get_checked. destruct (nth_error _ _); reflexivity.
  - intros H. replace (z <? Z.of_nat (length (nd_shape A))) with true by lia. replace (0 <=? z) with true by lia. cbn [andb bind]. unfold get_checked.
    rewrite (nth_error_nth' (nd_shape A) 0) by lia. cbn [bind]. split; [reflexivity|lia].
Qed.
Lemma classic_allowed : forall axis ndim, match axis with None => True | Some z => 0 <= z < Z.of_nat ndim end \/ ~ match axis with None => True | Some z => 0 <= z < Z.of_nat ndim end.
Proof. intros [z|] ndim; [lia|auto]. Qed.
End Helpers.

(** The N-D calls. [axes] are numbers of axes from 0; a negative one raises. *)

(** [permute_axes] *)
Theorem C63_permute : forall (F : Fl) (e : Env F) h a A, NLaws F -> reached h -> nth_error h a = Some (VNd A) -> Forall (fun n => 0 <= n) (nd_shape A) ->
  (forall axes, Exists (fun z => z < 0) axes -> step e h (Permute a axes) = Panic) /\
  (forall p, ~ Permutation p (seq 0 (length (nd_shape A))) -> step e h (Permute a (map Z.of_nat p)) = Panic) /\
  (forall p, Permutation p (seq 0 (length (nd_shape A))) ->
     exists B, step e h (Permute a (map Z.of_nat p)) = Ok (h ++ [VNd B]) /\ nd_shape B = map (fun d => nth d (nd_shape A) 0) p /\
       nd_entries B = map (fun x => (map (fun d => nth d (fst x) 0) p, snd x)) (nd_entries A)).
Proof.
  intros F e h a A NL R N NN. assert (K := reached_nth h a _ NL R N). destruct (nd_parts_is A K NN) as (P & OK & SV & SM).
  cbn [step exec]. rewrite (get_is _ _ _ N). cbn [bind do_permute]. split; [|split].
  - intros axes H. rewrite to_axes_negative by auto. reflexivity.
  - intros p H. rewrite to_axes_nat. cbn [bind]. rewrite P. cbn [bind]. rewrite C22_not_a_permutation_panics by auto. reflexivity.
  - intros p H. rewrite to_axes_nat. cbn [bind]. rewrite P. cbn [bind]. destruct (C22_permute F A p OK H) as (B & -> & OB & SH & EN). cbn [bind].
    rewrite nd_new_is; [exists B; auto|exact OB|]. rewrite SH. apply perm_dims, small_dims, SM.
Qed.
Print Assumptions C63_permute.

(** [reshape]: values keep their row-major position. *)
Theorem C63_reshape : forall (F : Fl) (e : Env F) h a A sh, NLaws F -> fair e -> reached h -> nth_error h a = Some (VNd A) -> Forall (fun n => 0 <= n) (nd_shape A) ->
  (Exists (fun n => n < 0) sh \/ cells (nd_shape A) <> cells sh -> step e h (Reshape a sh) = Panic) /\
  (sh <> [] -> shape_fits sh -> Forall (fun n => n <= i64_max) sh -> cells (nd_shape A) = cells sh ->
     exists B, step e h (Reshape a sh) = Ok (h ++ [VNd B]) /\ nd_shape B = sh /\ Forall (fun y => in_shape sh (fst y)) (nd_entries B) /\
       Forall2 (fun x y => snd x = snd y /\ position (nd_shape A) (fst x) = position sh (fst y)) (nd_entries A) (nd_entries B)).
Proof.
  intros F e h a A sh NL FE R N NN. assert (K := reached_nth h a _ NL R N). destruct (nd_parts_is A K NN) as (P & OK & SV & SM).
  cbn [step exec]. rewrite (get_is _ _ _ N). cbn [bind do_reshape]. split.
  - destruct (forallb (Z.leb 0) sh) eqn:Q; [|reflexivity]. intros [H|H].
    + exfalso. apply Exists_exists in H. destruct H as (z & I & L). rewrite forallb_forall in Q. apply Q in I. lia.
    + rewrite P. cbn [bind]. rewrite C21_count_mismatch_panics by auto. reflexivity.
  - intros NE SF DM EC. replace (forallb (Z.leb 0) sh) with true by (symmetry; apply forallb_forall; intros z I; destruct SF as [SF _]; rewrite Forall_forall in SF; apply SF in I; lia).
    rewrite P. cbn [bind]. destruct SM as [N1 N2].
    destruct (C21_reshape F (e_schz e 0) A sh (fair_schz _ FE 0) OK NE (shape_cells_fits _ N1 N2) SF) as (B & -> & OB & SB & DB & EN); auto.
    { eapply Forall_impl; [|exact DM]. cbv beta. intros; lia. }
    cbn [bind]. rewrite nd_new_is; [|exact OB|rewrite SB; exact DM]. exists B. split; [reflexivity|]. split; [exact SB|]. split; [|exact EN]. rewrite <- SB. apply NdLib.nd_entries_ok. exact OB.
Qed.
Print Assumptions C63_reshape.

(** [sum_axes] and [mean_axes] of COOND: for every position of the result, the stored
    values of its fiber are added up; the mean multiplies by the reciprocal of the count. *)
Theorem C63_reduce_axes : forall (F : Fl) (e : Env F) h a A op, NLaws F -> fair e -> reached h -> nth_error h a = Some (VNd A) -> Forall (fun n => 0 <= n) (nd_shape A) ->
  (forall axes, Exists (fun z => z < 0) axes -> step e h (ReduceAxes op a axes) = Panic) /\
  (forall p, ~ proper_axes (length (nd_shape A)) p -> step e h (ReduceAxes op a (map Z.of_nat p)) = Panic) /\
  (forall p, proper_axes (length (nd_shape A)) p ->
     let remain := other_axes (length (nd_shape A)) p in
     let n := cells (select p (nd_shape A)) in
     let inv : F := fdiv f1 (fofZ n) in
     exists B, step e h (ReduceAxes op a (map Z.of_nat p)) = Ok (h ++ [VNd B]) /\ nd_shape B = select remain (nd_shape A) /\
       forall k, in_shape (nd_shape B) k ->
         nd_at B k = match op with
                     | NSum => left_sum (fiber A remain k)
                     | NMean => map (fun v => if n =? 1 then v else if feqb inv f1 then v else if feqb inv f0 then f0 else fmul v inv) (left_sum (fiber A remain k))
                     end).
Proof.
  intros F e h a A op NL FE R N NN. assert (K := reached_nth h a _ NL R N). destruct (nd_parts_is A K NN) as (P & OK & SV & N1 & N2).
  cbn [step exec]. rewrite (get_is _ _ _ N). cbn [bind do_reduce_axes]. split; [|split].
  - intros axes H. rewrite to_axes_negative by auto. reflexivity.
  - intros p H. rewrite to_axes_nat. cbn [bind]. rewrite P. cbn [bind]. destruct (C26_bad_axes_panic F (e_srt e 0) A p H) as [E1 E2]. destruct op; [rewrite E1|rewrite E2]; reflexivity.
  - intros p H. set (remain := other_axes (length (nd_shape A)) p). rewrite to_axes_nat. cbn [bind]. rewrite P. cbn [bind].
    assert (D : Forall (fun n => n <= i64_max) (select remain (nd_shape A))) by (apply select_dims; auto; apply other_axes_ok). destruct op.
    + destruct (C26_reduce_sum F (e_srt e 0) A p (fair_srt _ FE 0) OK (shape_cells_fits _ N1 N2) H) as (B & -> & OB & SB & _ & V). cbn [bind].
      rewrite nd_new_is; [exists B; auto|exact OB|rewrite SB; exact D].
    + destruct (C26_reduce_mean F (e_srt e 0) A p (fair_srt _ FE 0) OK (shape_cells_fits _ N1 N2) H) as (B & -> & OB & SB & _ & V). cbn [bind].
      rewrite nd_new_is; [exists B; auto|exact OB|rewrite SB; exact D].
Qed.
Print Assumptions C63_reduce_axes.

(** [axes_to_csr], [axes_to_csc] and the unfoldings [mode_to_csr], [mode_to_csc] along one
    axis: row [i], column [j] holds the value whose coordinates along the row axes have
    row-major position [i] and along the other axes position [j]. *)
Theorem C63_unfold : forall pw (e : Env (f64 pw)) h a A f, fair e -> reached h -> nth_error h a = Some (VNd A) -> Forall (fun n => 0 <= n) (nd_shape A) ->
  let unfolded rows y :=
    class_of y = Some (match f with FCsr => CsrClass | FCsc => CscClass end) /\
    Z.of_nat (fst (shape2 y)) = cells (select rows (nd_shape A)) /\
    Z.of_nat (snd (shape2 y)) = cells (select (other_axes (length (nd_shape A)) rows) (nd_shape A)) /\
    forall i j, (i < fst (shape2 y))%nat -> (j < snd (shape2 y))%nat ->
      let values := unfold_cell A rows (Z.of_nat i) (Z.of_nat j) in
      (values = [] -> stored y i j = []) /\ (values <> [] -> exists v, stored y i j = [v] /\ FSum values v) in
  (forall axes, Exists (fun z => z < 0) axes -> step e h (Unfold f a axes) = Panic) /\
  (forall p, ~ axes_ok (length (nd_shape A)) p -> step e h (Unfold f a (map Z.of_nat p)) = Panic) /\
  (forall p, axes_ok (length (nd_shape A)) p -> exists y, step e h (Unfold f a (map Z.of_nat p)) = Ok (h ++ [y]) /\ unfolded p y) /\
  (forall ax, ax < 0 \/ Z.of_nat (length (nd_shape A)) <= ax -> step e h (Mode f a ax) = Panic) /\
  (forall ax, (ax < length (nd_shape A))%nat -> exists y, step e h (Mode f a (Z.of_nat ax)) = Ok (h ++ [y]) /\ unfolded [ax] y).
Proof.
  intros pw e h a A f FE R N NN unfolded. assert (K := reached_nth h a _ (f64_laws pw) R N). destruct (nd_parts_is A K NN) as (P & OK & SV & SM).
  cbn [step exec]. rewrite (get_is _ _ _ N). cbn [bind do_unfold do_mode].
  assert (G : forall p, axes_ok (length (nd_shape A)) p -> exists y,
    match f with FCsr => let! B := coond_axes_to_csr (e_schu e) (e_srt2 e) A p in csr_new B | FCsc => let! B := coond_axes_to_csc (e_schu e) (e_srt2 e) A p in csc_new B end = Ok y /\ unfolded p y).
  { intros p H. destruct f.
    - destruct (C25_unfold_to_csr pw (e_schu e) (e_srt2 e) A p (fair_schu _ FE) (fair_srt2 _ FE) OK H (unfold_sizes _ _ SM H)) as (B & -> & _ & R1 & R2 & V). cbn [bind].
      destruct (csr_new_is B) as (H' & ->). eexists. split; [reflexivity|]. split; [reflexivity|]. split; [exact R1|]. split; [exact R2|]. exact V.
    - destruct (C25_unfold_to_csc pw (e_schu e) (e_srt2 e) A p (fair_schu _ FE) (fair_srt2 _ FE) OK H (unfold_sizes _ _ SM H)) as (B & -> & _ & R1 & R2 & V). cbn [bind].
      destruct (csc_new_is B) as (H' & ->). eexists. split; [reflexivity|]. split; [reflexivity|]. split; [exact R1|]. split; [exact R2|]. exact V. }
  split; [|split; [|split; [|split]]].
  - intros axes H. rewrite to_axes_negative by auto. reflexivity.
  - intros p H. rewrite to_axes_nat. cbn [bind]. rewrite P. cbn [bind]. destruct (C25_bad_axes_panic _ (e_schu e) (e_srt2 e) A p H) as (_ & E1 & E2). destruct f; [rewrite E1|rewrite E2]; reflexivity.
  - intros p H. rewrite to_axes_nat. cbn [bind]. rewrite P. cbn [bind]. destruct (G p H) as (y & E & U). exists y. split; [|exact U]. destruct f; rewrite E; reflexivity.
  - intros ax H. destruct (Z.leb_spec 0 ax) as [L|L]; [|reflexivity]. rewrite P. cbn [bind].
    destruct (C25_mode _ (e_schu e) (e_srt2 e) A (Z.to_nat ax)) as [_ Q]. destruct Q as [E1 E2]; [lia|]. destruct f; [rewrite E1|rewrite E2]; reflexivity.
  - intros ax H. replace (0 <=? Z.of_nat ax) with true by lia. rewrite P. cbn [bind]. rewrite Nat2Z.id.
    destruct (C25_mode _ (e_schu e) (e_srt2 e) A ax) as [Q _]. destruct (Q H) as (E1 & E2 & AX). destruct (G [ax] AX) as (y & E & U).
    exists y. split; [|exact U]. destruct f; [rewrite E1|rewrite E2]; rewrite E; reflexivity.
Qed.
Print Assumptions C63_unfold.

(** [A * B]: NumPy broadcasting. Dimensions are positive (an array with an empty one is
    the finding of C24). Other operators between two N-D arrays do not exist. *)
Theorem C63_broadcast : forall (F : Fl) (e : Env F) h a b A B, NLaws F -> fair e -> reached h -> nth_error h a = Some (VNd A) -> nth_error h b = Some (VNd B) ->
  Forall (fun n => 0 < n) (nd_shape A) -> Forall (fun n => 0 < n) (nd_shape B) ->
  (forall op, op <> BMul \/ ~ broadcastable (nd_shape A) (nd_shape B) -> step e h (Binary op a b) = Panic) /\
  (broadcastable (nd_shape A) (nd_shape B) -> cells (broadcast_shape (nd_shape A) (nd_shape B)) <= usize_max ->
     exists C, step e h (Binary BMul a b) = Ok (h ++ [VNd C]) /\ nd_shape C = broadcast_shape (nd_shape A) (nd_shape B) /\
       forall k, in_shape (nd_shape C) k ->
         nd_at C k = products (nd_at A (source_cell (nd_shape A) k)) (nd_at B (source_cell (nd_shape B) k))).
Proof.
  intros F e h a b A B NL FE R NA NB PA PB. assert (KA := reached_nth h a _ NL R NA). assert (KB := reached_nth h b _ NL R NB).
  assert (W : forall sh, Forall (fun n => 0 < n) sh -> Forall (fun n => 0 <= n) sh) by (intros sh; apply Forall_impl; intros; lia).
  destruct (nd_parts_is A KA (W _ PA)) as (UA & OA & SVA & SA). destruct (nd_parts_is B KB (W _ PB)) as (UB & OB & SVB & SB).
  cbn [step exec]. rewrite (get_is _ _ _ NA), (get_is _ _ _ NB). cbn [bind do_binary]. split.
  - intros op H. destruct op; try reflexivity. destruct H as [H|H]; [congruence|]. rewrite UA, UB. cbn [bind]. rewrite C24_broadcast_mismatch_panics by auto. reflexivity.
  - intros BC CL. rewrite UA, UB. cbn [bind].
    destruct (C24_broadcast F (e_schz e 0) (e_schz e 1) (e_ord e) (e_threads e) (e_srt e 0) A B (fair_schz _ FE 0) (fair_schz _ FE 1) (fair_ord _ FE) (fair_srt _ FE 0) OA OB BC PA PB CL)
      as (C & -> & OC & SC & _ & V). cbn [bind].
    rewrite nd_new_is; [|exact OC|rewrite SC; apply broadcast_dims; [exact (small_dims _ SA)|exact (small_dims _ SB)]].
    exists C. split; [reflexivity|]. split; [exact SC|]. intros k IK. rewrite V by auto.
    assert (LA := SVA (source_cell (nd_shape A) k)). assert (LB := SVB (source_cell (nd_shape B) k)).
    destruct (nd_at A (source_cell (nd_shape A) k)) as [|u [|]], (nd_at B (source_cell (nd_shape B) k)) as [|v [|]]; cbn [length] in *; try lia; reflexivity.
Qed.
Print Assumptions C63_broadcast.

(** [tensordot(A, y, axes)] with a dense array [y]: the sum over the chosen axis of [A]
    (the last one by default) and the first axis of [y]; products that are zero are skipped
    and a sum that is zero is not stored. The other axes of [y] are merged into one. *)
Theorem C63_tensordot : forall (F : Fl) (e : Env F) h a b A sh d axis, NLaws F -> fair e -> reached h -> nth_error h a = Some (VNd A) -> nth_error h b = Some (VArr sh d) ->
  Forall (fun n => 0 <= n) (nd_shape A) ->
  let ndim := length (nd_shape A) in
  let ax := match axis with None => (ndim - 1)%nat | Some z => Z.to_nat z end in
  let remain := other_axes ndim [ax] in
  let allowed := match axis with None => True | Some z => 0 <= z < Z.of_nat ndim end in
  (~ allowed \/ sh = [] \/ Z.of_nat (hd 0%nat sh) <> nth ax (nd_shape A) 0 -> step e h (Tensordot a b axis) = Panic) /\
  (forall m rest, allowed -> sh = m :: rest -> Z.of_nat m = nth ax (nd_shape A) 0 -> shape_cells (nd_shape A) * shape_cells (map Z.of_nat sh) < i64_max ->
     let k := Z.to_nat (cells (map Z.of_nat rest)) in
     exists C, step e h (Tensordot a b axis) = Ok (h ++ [VNd C]) /\ nd_shape C = select remain (nd_shape A) ++ [Z.of_nat k] /\
       forall key c, in_shape (select remain (nd_shape A)) key -> (c < k)%nat ->
         nd_at C (key ++ [Z.of_nat c]) = filter nonzero (left_sum (filter nonzero (matrix_products A ax d k key c)))).
Proof.
  intros F e h a b A sh d axis NL FE R NA NB NN ndim ax remain allowed. assert (KA := reached_nth h a _ NL R NA). assert (KB := reached_nth h b _ NL R NB).
  destruct (nd_parts_is A KA NN) as (UA & OA & SVA & SA). assert (NE := nd_ndim _ OA).
  assert (N0 : (0 < ndim)%nat) by (unfold ndim; destruct (nd_shape A); [congruence|cbn; lia]).
  assert (LD : Z.of_nat (length d) = cells (map Z.of_nat sh)).
  { destruct KB as [KB _]. cbn [regular] in KB. rewrite KB. clear. induction sh as [|n sh IH]; [reflexivity|]. cbn [map fold_right]. rewrite Nat2Z.inj_mul, IH. reflexivity. }
  assert (NX := nd_axis_is A axis N0). fold ndim ax allowed in NX. destruct NX as [NX1 NX2].
  assert (ST : step e h (Tensordot a b axis) = let! v := do_tensordot e (VNd A) (VArr sh d) axis in Ok (h ++ [v])).
  { cbn [step exec]. rewrite (get_is _ _ _ NA), (get_is _ _ _ NB). reflexivity. }
  rewrite ST. cbn [do_tensordot]. split.
  - intros H. destruct (classic_allowed axis ndim) as [AL|AL]; [|rewrite NX1 by auto; reflexivity]. fold allowed in AL. destruct (NX2 AL) as [-> AX]. cbn [bind].
    destruct sh as [|m rest]; [reflexivity|]. unfold get_checked. rewrite (nth_error_nth' (nd_shape A) 0) by exact AX. cbn [bind].
    destruct (Z.eqb_spec (Z.of_nat m) (nth ax (nd_shape A) 0)) as [E|_]; [|reflexivity]. exfalso. destruct H as [H|[H|H]]; [auto|discriminate|auto].
  - intros m rest AL -> EM DM. destruct (NX2 AL) as [-> AX]. cbn [bind]. unfold get_checked. rewrite (nth_error_nth' (nd_shape A) 0) by exact AX. cbn [bind].
    rewrite EM, Z.eqb_refl, UA. cbn [bind]. cbn [map] in *. rewrite EM in *.
    assert (NS : Forall (fun n => 0 <= n) (nth ax (nd_shape A) 0 :: map Z.of_nat rest)).
    { constructor; [lia|]. apply Forall_map, Forall_forall. intros; lia. }
    destruct (tensordot_sizes A ax d (map Z.of_nat rest) OA SA AX NS LD DM) as [SF PS]. rewrite C31_tensordot_nd by auto.
    destruct (C30_spmm_nd F (e_srt e 0) A ax d (Z.to_nat (cells (map Z.of_nat rest))) (fair_srt _ FE 0) OA PS) as (C & -> & OC & SC & _ & V). cbn [bind].
    rewrite nd_new_is; [exists C; auto|exact OC|]. rewrite SC. apply Forall_app. split; [destruct SA as [S1 S2]; apply select_dims; auto; apply other_axes_ok|].
    destruct PS as (_ & _ & _ & _ & PK & _). repeat constructor. exact PK.
Qed.
Print Assumptions C63_tensordot.

(** [vecdot(A, y)] with a dense vector [y] along an axis, by default (and for -1) the last. *)
Theorem C63_vecdot : forall (F : Fl) (e : Env F) h a b A n d axis, NLaws F -> fair e -> reached h -> nth_error h a = Some (VNd A) -> nth_error h b = Some (VArr [n] d) ->
  Forall (fun n => 0 <= n) (nd_shape A) ->
  let ndim := length (nd_shape A) in
  let last := match axis with None => true | Some z => z =? -1 end in
  let ax := if last then (ndim - 1)%nat else match axis with Some z => Z.to_nat z | None => 0%nat end in
  let remain := other_axes ndim [ax] in
  let allowed := last = true \/ exists z, axis = Some z /\ 0 <= z < Z.of_nat ndim in
  (~ allowed \/ ndim = 1%nat \/ Z.of_nat n <> nth ax (nd_shape A) 0 -> step e h (Vecdot a b axis) = Panic) /\
  (allowed -> ndim <> 1%nat -> Z.of_nat n = nth ax (nd_shape A) 0 ->
     exists C, step e h (Vecdot a b axis) = Ok (h ++ [VNd C]) /\ nd_shape C = select remain (nd_shape A) /\
       forall k, in_shape (nd_shape C) k -> nd_at C k = left_sum (filter nonzero (line_products A ax d k))).
Proof.
  intros F e h a b A n d axis NL FE R NA NB NN ndim last ax remain allowed. assert (KA := reached_nth h a _ NL R NA). assert (KB := reached_nth h b _ NL R NB).
  destruct (nd_parts_is A KA NN) as (UA & OA & SVA & S1 & S2). assert (NE := nd_ndim _ OA).
  assert (N0 : (0 < ndim)%nat) by (unfold ndim; destruct (nd_shape A); [congruence|cbn; lia]).
  assert (LD : length d = n) by (destruct KB as [KB _]; cbn [regular fold_right] in KB; lia).
  set (axis' := match axis with Some z => if z =? -1 then None else Some z | None => None end).
  assert (NX := nd_axis_is A axis' N0).
  assert (ST : step e h (Vecdot a b axis) = let! v := do_vecdot e (VNd A) (VArr [n] d) axis in Ok (h ++ [v])).
  { cbn [step exec]. rewrite (get_is _ _ _ NA), (get_is _ _ _ NB). reflexivity. }
  rewrite ST. cbn [do_vecdot]. fold axis'. fold ndim in NX. cbv zeta in NX.
  assert (EA : match axis' with None => (ndim - 1)%nat | Some z => Z.to_nat z end = ax) by (unfold ax, last, axis'; destruct axis as [z|]; [destruct (z =? -1)|]; reflexivity).
  assert (AA : allowed <-> match axis' with None => True | Some z => 0 <= z < Z.of_nat ndim end).
  { unfold allowed, last, axis'. destruct axis as [z|]; [|split; auto]. destruct (Z.eqb_spec z (-1)) as [E|E]; [split; auto|].
    split; [intros [H|(z' & [= <-] & H)]; [discriminate|exact H]|]. intros H. right. exists z. auto. }
  rewrite EA in NX. destruct NX as [NX1 NX2]. split.
  - intros H. destruct (classic_allowed axis' ndim) as [AL|AL]; [|rewrite NX1 by auto; reflexivity]. destruct (NX2 AL) as [-> AX]. cbn [bind].
    unfold get_checked. rewrite (nth_error_nth' (nd_shape A) 0) by exact AX. cbn [bind].
    destruct (Z.eqb_spec (Z.of_nat n) (nth ax (nd_shape A) 0)) as [E|_]; [|reflexivity]. rewrite UA. cbn [bind].
    rewrite C32_vecdot_nd_is_spmv, C29_mismatch_panics; [reflexivity|]. intros (C1 & C2 & C3). fold ndim in C2. destruct H as [H|[H|H]]; [apply H, AA, AL|lia|auto].
  - intros AL N1 EM. apply AA in AL. destruct (NX2 AL) as [-> AX]. cbn [bind]. unfold get_checked. rewrite (nth_error_nth' (nd_shape A) 0) by exact AX. cbn [bind].
    rewrite EM, Z.eqb_refl, UA. cbn [bind]. rewrite C32_vecdot_nd_is_spmv.
    destruct (C29_spmv_nd F (e_srt e 0) A ax d (fair_srt _ FE 0) OA (shape_cells_fits _ S1 S2)) as (C & -> & OC & SC & _ & V).
    { split; [exact AX|]. split; [fold ndim; lia|]. rewrite LD. exact EM. }
    cbn [bind]. rewrite nd_new_is; [exists C; auto|exact OC|]. rewrite SC. apply select_dims; auto. apply other_axes_ok.
Qed.
Print Assumptions C63_vecdot.

(** [sum] and [mean]: without [axis] the total, otherwise along the named axes (negative
    ones count from the end, repeated ones count once), leaving out the axes or with
    [keepdims] giving them length 1. Naming an axis that does not exist, none or all of them raises. *)
Theorem C63_sum_mean : forall pw (e : Env (f64 pw)) h a A op axis kd, fair e -> reached h -> nth_error h a = Some (VNd A) -> Forall (fun n => 0 <= n) (nd_shape A) ->
  op = RSum \/ op = RMean ->
  let ndim := length (nd_shape A) in
  let numbers := match axis with AxNone => [] | AxInt a => [a] | AxTuple l => l end in
  let axes := named_axes ndim numbers in
  let remain := other_axes ndim axes in
  let n := cells (select axes (nd_shape A)) in
  let inv : f64 pw := fdiv f1 (fofZ n) in
  let value (s : f64 pw) := match op with RMean => if n =? 1 then s else if feqb inv f1 then s else if feqb inv f0 then f0 else fmul s inv | _ => s end in
  (axis = AxNone -> exists s, FSum (array_values A) s /\
     step e h (Reduce op a axis kd) = Ok (h ++ [VArr (if kd then repeat 1%nat ndim else [])
       [match op with RMean => if cells (nd_shape A) =? 0 then f0 else fdiv s (fofZ (cells (nd_shape A))) | _ => s end]])) /\
  (axis <> AxNone -> numbers = [] \/ Exists (fun a => ~ - Z.of_nat ndim <= a < Z.of_nat ndim) numbers \/ length axes = ndim -> step e h (Reduce op a axis kd) = Panic) /\
  (numbers <> [] -> Forall (fun a => - Z.of_nat ndim <= a < Z.of_nat ndim) numbers -> (length axes < ndim)%nat ->
     exists C, step e h (Reduce op a axis kd) = Ok (h ++ [VNd C]) /\
       (if kd then length (nd_shape C) = ndim /\ (forall i, (i < ndim)%nat -> nth i (nd_shape C) 0 = if existsb (Nat.eqb i) axes then 1 else nth i (nd_shape A) 0)
        else nd_shape C = select remain (nd_shape A)) /\
       forall k, in_shape (nd_shape C) k -> nd_at C k = map value (left_sum (fiber A remain (if kd then select remain k else k)))).
Proof.
  intros pw e h a A op axis kd FE R N NN OP ndim numbers axes remain n inv value. assert (K := reached_nth h a _ (f64_laws pw) R N).
  destruct (nd_parts_is A K NN) as (P & OK & SV & S1 & S2). assert (SF := shape_cells_fits _ S1 S2).
  assert (ST : step e h (Reduce op a axis kd) = let! v := reduce_coond e op A axis kd in Ok (h ++ [v])).
  { cbn [step exec]. rewrite (get_is _ _ _ N). reflexivity. }
  rewrite ST. clear ST. unfold reduce_coond. rewrite P. fold ndim.
  assert (DK : forall C : Nd (f64 pw), length (nd_shape C) = ndim -> (forall i, (i < ndim)%nat -> nth i (nd_shape C) 0 = if existsb (Nat.eqb i) axes then 1 else nth i (nd_shape A) 0) ->
    Forall (fun n => n <= i64_max) (nd_shape C)).
  { intros C L V. apply Forall_forall. intros z I. apply (In_nth _ _ 0) in I. destruct I as (i & LI & <-). rewrite L in LI. rewrite V by auto.
    destruct (existsb _ _); [discriminate|]. assert (D := small_dims A (conj S1 S2)). rewrite Forall_forall in D. apply D, nth_In. exact LI. }
  assert (DS : Forall (fun n => n <= i64_max) (select remain (nd_shape A))) by (apply select_dims; auto; apply other_axes_ok).
  split; [|split].
  - intros ->. destruct (C33_sum_coond pw (e_zero e) (e_split e) A (fair_zero _ FE) OK) as (s & ES & FS).
    destruct OP as [-> | ->]; cbn [reduce_nd norm_axes bind].
    + exists s. rewrite ES. auto.
    + destruct (C35_mean pw (e_zero e) (e_split e) A (fair_zero _ FE) OK SF) as [M0 M1]. destruct (Z.eqb_spec (cells (nd_shape A)) 0) as [E|E].
      * exists s. rewrite (M0 E). auto.
      * assert (C0 := cells_shape_cells _ NN). destruct M1 as (s' & FS' & E'); [lia|]. exists s'. rewrite E'. auto.
  - intros NA B. assert (E : forall red : Nd (f64 pw) -> list nat -> res (Nd (f64 pw)), (forall p, ~ proper_axes ndim p -> red A p = Panic) ->
      reduce_nd (fun axes => let! A := Ok A in red A axes) ndim axis kd = Panic).
    { intros red HR. cbn [bind]. destruct (list_eq_dec Z.eq_dec numbers []) as [E|NE].
      - apply C55_bad_axis. right. unfold numbers in E. destruct axis; congruence.
      - destruct (Exists_dec (fun a => ~ - Z.of_nat ndim <= a < Z.of_nat ndim) numbers) as [X|X]; [intros z; destruct (Z_le_dec (- Z.of_nat ndim) z), (Z_lt_dec z (Z.of_nat ndim)); ((left; lia) || (right; lia))| |].
        + apply C55_bad_axis. left. exact X.
        + destruct B as [B|[B|B]]; [contradiction|contradiction|]. unfold reduce_nd. rewrite norm_axes_ok; [|exact NA|].
          * cbn [bind]. fold numbers. change (axis_list axis) with numbers. fold axes. destruct axes as [|x l] eqn:EA; [reflexivity|]. rewrite <- EA in *.
            rewrite HR; [reflexivity|]. intros (_ & _ & L). lia.
          * apply forallb_forall. intros z I. change (axis_list axis) with numbers in I. unfold axis_valid. destruct (Z_le_dec (- Z.of_nat ndim) z); [destruct (Z_lt_dec z (Z.of_nat ndim)); [lia|]|];
            (exfalso; apply X, Exists_exists; exists z; split; [exact I|lia]). }
    destruct OP as [-> | ->]; rewrite E; try reflexivity; intros p Q; apply (C26_bad_axes_panic _ (e_srt e 0) A p Q).
  - intros NE V LT. destruct OP as [-> | ->]; cbn [bind].
    + change (fun l : list nat => reduce_sum_axes_coond (e_srt e 0) A l) with (reduce_sum_axes_coond (e_srt e 0) A). fold ndim.
      destruct (C55_reduce_sum_axes _ (e_srt e 0) A axis (fair_srt _ FE 0) OK SF NE V LT) as [(C1 & E1 & O1 & H1 & V1) (C2 & E2 & O2 & L2 & H2 & V2)]. fold ndim in E1, E2.
      destruct kd.
      * rewrite E2. cbn [bind]. rewrite nd_new_is; [|exact O2|exact (DK C2 L2 H2)]. exists C2. split; [reflexivity|]. split; [auto|].
        intros k IK. unfold value. rewrite map_id. apply V2. exact IK.
      * rewrite E1. cbn [bind]. rewrite nd_new_is; [|exact O1|rewrite H1; exact DS]. exists C1. split; [reflexivity|]. split; [exact H1|].
        intros k IK. unfold value. rewrite map_id. apply V1. exact IK.
    + change (fun l : list nat => reduce_mean_axes_coond (e_srt e 0) A l) with (reduce_mean_axes_coond (e_srt e 0) A). fold ndim.
      destruct (C55_reduce_mean_axes _ (e_srt e 0) A axis (fair_srt _ FE 0) OK SF NE V LT) as [(C1 & E1 & O1 & H1 & V1) (C2 & E2 & O2 & L2 & H2 & V2)]. fold ndim in E1, E2.
      destruct kd.
      * rewrite E2. cbn [bind]. rewrite nd_new_is; [|exact O2|exact (DK C2 L2 H2)]. exists C2. split; [reflexivity|]. split; [auto|exact V2].
      * rewrite E1. cbn [bind]. rewrite nd_new_is; [|exact O1|rewrite H1; exact DS]. exists C1. split; [reflexivity|]. split; [exact H1|exact V1].
Qed.
Print Assumptions C63_sum_mean.

(** The other reductions of an N-D array raise, whatever [axis] and [keepdims] are. *)
Theorem C63_other_reductions : forall (F : Fl) (e : Env F) h a A op axis kd, nth_error h a = Some (VNd A) ->
  op <> RSum -> op <> RMean -> op <> RCount -> step e h (Reduce op a axis kd) = Panic.
Proof.
  intros F e h a A op axis kd N N1 N2 N3. cbn [step exec]. rewrite (get_is _ _ _ N). cbn [bind do_reduce]. destruct op; try contradiction; reflexivity.
Qed.
Print Assumptions C63_other_reductions.

(** [count_nonzero] of an N-D array does not count: without [axis] the answer is 1 for every
    array, because the object itself is handed to NumPy. *)
Theorem C45_coond_refuted : forall (F : Fl) (e : Env F) h a A kd, nth_error h a = Some (VNd A) ->
  step e h (Reduce RCount a AxNone kd) = Ok (h ++ [VInts [] [1]]).
Proof.
  intros F e h a A kd N. cbn [step exec]. rewrite (get_is _ _ _ N). reflexivity.
Qed.
Print Assumptions C45_coond_refuted.


(** ** Non-vacuity: the N-D array 5 of [state2] has shape (2, 1, 3) and stores 6, 8, -3 at
    (0,0,1), (1,0,2), (1,0,0); object 7 is the vector (5, 2, 0). *)
Definition nd_all (v : value (f64 pw0)) : option (list Z * list Z * list (f64 pw0)) := match v with VNd A => Some (nd_shape A, nd_idx A, nd_dat A) | _ => None end.
Definition N5 : Nd (f64 pw0) := mkNd [2; 1; 3] [0; 0; 1; 1; 0; 2; 1; 0; 0] [fz 6; fz 8; fz (-3)].
Lemma N5_is : nth_error state2 5 = Some (VNd N5).
Proof.
  assert (V : nd_all (obj 5) = Some ([2; 1; 3], [0; 0; 1; 1; 0; 2; 1; 0; 0], [fz 6; fz 8; fz (-3)])) by (vm_compute; reflexivity). rewrite (obj_is 5) by lia.
  destruct (obj 5) as [| | |A| | |]; try discriminate V. destruct A as [s i d]. cbn [nd_all nd_shape nd_idx nd_dat] in V. injection V as -> -> ->. reflexivity.
Qed.
Lemma N5_dims : Forall (fun n => 0 < n) (nd_shape N5) /\ Forall (fun n => 0 <= n) (nd_shape N5).
Proof. split; repeat constructor; discriminate. Qed.
Definition arr_view (v : value (f64 pw0)) : option (list nat * list (f64 pw0)) := match v with VArr sh d => Some (sh, d) | _ => None end.
Lemma V7_is : nth_error state2 7 = Some (VArr [3%nat] [fz 5; fz 2; fz 0]).
Proof.
  assert (V : arr_view (obj 7) = Some ([3%nat], [fz 5; fz 2; fz 0])) by (vm_compute; reflexivity). rewrite (obj_is 7) by lia.
  destruct (obj 7); try discriminate V. injection V as -> ->. reflexivity.
Qed.

Example C63_permute_nonvacuous : exists B, step env2 state2 (Permute 5 [2; 0; 1]) = Ok (state2 ++ [VNd B]) /\ nd_shape B = [3; 2; 1] /\
  nd_entries B = [([1; 0; 0], fz 6); ([2; 1; 0], fz 8); ([0; 1; 0], fz (-3))] /\ step env2 state2 (Permute 5 [2; 0; 2]) = Panic.
Proof.
  destruct (C63_permute _ env2 state2 5 N5 (f64_laws pw0) state2_reached N5_is (proj2 N5_dims)) as (_ & H1 & H2).
  destruct (H2 [2; 0; 1]%nat) as (B & E & S & EN).
  { apply NoDup_Permutation; [repeat constructor; cbn; intuition lia|apply seq_NoDup|]. intros x. cbn. intuition. }
  exists B. split; [exact E|]. split; [exact S|]. split; [rewrite EN; reflexivity|]. apply (H1 [2; 0; 2]%nat).
  intros P. assert (I : In 1%nat [2; 0; 2]%nat) by (eapply Permutation_in; [symmetry; exact P|cbn; auto]). cbn in I. intuition lia.
Qed.

Example C63_reshape_nonvacuous : exists B, step env2 state2 (Reshape 5 [3; 2]) = Ok (state2 ++ [VNd B]) /\ nd_shape B = [3; 2] /\
  Forall2 (fun x y => snd x = snd y /\ position (nd_shape N5) (fst x) = position [3; 2] (fst y)) (nd_entries N5) (nd_entries B) /\
  position (nd_shape N5) [1; 0; 2] = position [3; 2] [2; 1] /\ step env2 state2 (Reshape 5 [3; 3]) = Panic.
Proof.
  destruct (C63_reshape _ env2 state2 5 N5 [3; 2] (f64_laws pw0) env2_fair state2_reached N5_is (proj2 N5_dims)) as (_ & H).
  destruct (C63_reshape _ env2 state2 5 N5 [3; 3] (f64_laws pw0) env2_fair state2_reached N5_is (proj2 N5_dims)) as (H0 & _).
  destruct H as (B & E & S & _ & V); [discriminate|split; [repeat constructor; discriminate|vm_compute; discriminate]|repeat constructor; discriminate|reflexivity|].
  exists B. split; [exact E|]. split; [exact S|]. split; [exact V|]. split; [reflexivity|]. apply H0. right. discriminate.
Qed.

Example C63_reduce_axes_nonvacuous : exists B, step env2 state2 (ReduceAxes NSum 5 [2; 1]) = Ok (state2 ++ [VNd B]) /\ nd_at B [1] = [fz 5] /\
  step env2 state2 (ReduceAxes NSum 5 [2; 1; 0]) = Panic.
Proof.
  destruct (C63_reduce_axes _ env2 state2 5 N5 NSum (f64_laws pw0) env2_fair state2_reached N5_is (proj2 N5_dims)) as (_ & H1 & H2).
  destruct (H2 [2; 1]%nat) as (B & E & S & V). { split; [split; [repeat constructor; cbn; intuition lia|repeat constructor]|]. split; [discriminate|cbn; lia]. }
  exists B. split; [exact E|]. split; [rewrite V; [vm_compute; reflexivity|rewrite S; repeat constructor; cbn; lia]|]. apply (H1 [2; 1; 0]%nat). intros (_ & _ & L). cbn in L. lia.
Qed.

Example C63_unfold_nonvacuous : exists y, step env2 state2 (Mode FCsc 5 2) = Ok (state2 ++ [y]) /\ class_of y = Some CscClass /\ shape2 y = (3%nat, 2%nat) /\
  (exists v, stored y 2 1 = [v] /\ FSum [fz 8] v) /\ stored y 0 0 = [] /\ step env2 state2 (Mode FCsr 5 3) = Panic.
Proof.
  destruct (C63_unfold pw0 env2 state2 5 N5 FCsc env2_fair state2_reached N5_is (proj2 N5_dims)) as (_ & _ & _ & _ & H).
  destruct (C63_unfold pw0 env2 state2 5 N5 FCsr env2_fair state2_reached N5_is (proj2 N5_dims)) as (_ & _ & _ & H0 & _).
  destruct (H 2%nat) as (y & E & C & R1 & R2 & V); [cbn; lia|]. exists y. split; [exact E|]. split; [exact C|].
  assert (S1 : fst (shape2 y) = 3%nat) by (apply Nat2Z.inj; rewrite R1; reflexivity). assert (S2 : snd (shape2 y) = 2%nat) by (apply Nat2Z.inj; rewrite R2; reflexivity).
  split; [rewrite <- S1, <- S2; destruct (shape2 y); reflexivity|]. split.
  - apply (V 2%nat 1%nat); [rewrite S1; lia|rewrite S2; lia|]. vm_compute. discriminate.
  - split; [apply (V 0%nat 0%nat); [rewrite S1; lia|rewrite S2; lia|vm_compute; reflexivity]|]. apply H0. right. cbn. lia.
Qed.

Example C63_broadcast_nonvacuous : exists C, step env2 state2 (Binary BMul 5 5) = Ok (state2 ++ [VNd C]) /\ nd_at C [1; 0; 0] = [fz 9] /\ step env2 state2 (Binary BAdd 5 5) = Panic.
Proof.
  destruct (C63_broadcast _ env2 state2 5 5 N5 N5 (f64_laws pw0) env2_fair state2_reached N5_is N5_is (proj1 N5_dims) (proj1 N5_dims)) as (H0 & H).
  destruct H as (C & E & S & V); [unfold broadcastable; cbn; repeat constructor; auto|vm_compute; discriminate|].
  exists C. split; [exact E|]. split; [rewrite V; [vm_compute; reflexivity|rewrite S; repeat constructor; cbn; lia]|]. apply H0. left. discriminate.
Qed.

Example C63_tensordot_nonvacuous : exists C, step env2 state2 (Tensordot 5 7 None) = Ok (state2 ++ [VNd C]) /\ nd_shape C = [2; 1; 1] /\ nd_at C [1; 0; 0] = [fz (-15)] /\
  step env2 state2 (Tensordot 5 7 (Some 0)) = Panic.
Proof.
  destruct (C63_tensordot _ env2 state2 5 7 N5 _ _ None (f64_laws pw0) env2_fair state2_reached N5_is V7_is (proj2 N5_dims)) as (_ & H).
  destruct (C63_tensordot _ env2 state2 5 7 N5 _ _ (Some 0) (f64_laws pw0) env2_fair state2_reached N5_is V7_is (proj2 N5_dims)) as (H0 & _).
  destruct (H 3%nat [] I eq_refl eq_refl eq_refl) as (C & E & S & V). exists C. split; [exact E|]. split; [exact S|]. split; [|apply H0; right; right; discriminate].
  change [1; 0; 0] with ([1; 0] ++ [Z.of_nat 0]). rewrite (V [1; 0] 0%nat); [vm_compute; reflexivity|repeat constructor; cbn; lia|cbn; lia].
Qed.

Example C63_vecdot_nonvacuous : exists C, step env2 state2 (Vecdot 5 7 (Some (-1))) = Ok (state2 ++ [VNd C]) /\ nd_shape C = [2; 1] /\ nd_at C [0; 0] = [fz 12] /\
  step env2 state2 (Vecdot 5 7 (Some (-3))) = Panic.
Proof.
  destruct (C63_vecdot _ env2 state2 5 7 N5 _ _ (Some (-1)) (f64_laws pw0) env2_fair state2_reached N5_is V7_is (proj2 N5_dims)) as (_ & H).
  destruct (C63_vecdot _ env2 state2 5 7 N5 _ _ (Some (-3)) (f64_laws pw0) env2_fair state2_reached N5_is V7_is (proj2 N5_dims)) as (H0 & _).
  destruct H as (C & E & S & V); [left; reflexivity|discriminate|reflexivity|]. exists C. split; [exact E|]. split; [exact S|]. split.
  - rewrite V; [vm_compute; reflexivity|rewrite S; repeat constructor; cbn; lia].
  - apply H0. left. intros [Q|(z & [= <-] & L)]; [discriminate|lia].
Qed.

Example C63_sum_mean_nonvacuous : exists C, step env2 state2 (Reduce RSum 5 (AxInt (-1)) true) = Ok (state2 ++ [VNd C]) /\ length (nd_shape C) = 3%nat /\ nth 2 (nd_shape C) 0 = 1 /\
  nd_at C [1; 0; 0] = [fz 5] /\ step env2 state2 (Reduce RMean 5 (AxInt 3) false) = Panic /\
  exists s, FSum (array_values N5) s /\ step env2 state2 (Reduce RMean 5 AxNone false) = Ok (state2 ++ [VArr [] [fdiv s (fz 6)]]).
Proof.
  destruct (C63_sum_mean pw0 env2 state2 5 N5 RSum (AxInt (-1)) true env2_fair state2_reached N5_is (proj2 N5_dims) ltac:(auto)) as (_ & _ & H).
  destruct (C63_sum_mean pw0 env2 state2 5 N5 RMean (AxInt 3) false env2_fair state2_reached N5_is (proj2 N5_dims) ltac:(auto)) as (_ & H0 & _).
  destruct (C63_sum_mean pw0 env2 state2 5 N5 RMean AxNone false env2_fair state2_reached N5_is (proj2 N5_dims) ltac:(auto)) as (H1 & _ & _).
  destruct H as (C & E & (L & D) & V); [discriminate|repeat constructor; cbn; lia|cbn; lia|]. exists C. split; [exact E|]. split; [exact L|]. split; [rewrite D by (cbn; lia); reflexivity|].
  split; [|split].
  - assert (S : nd_shape C = [2; 1; 1]).
    { apply (nth_ext _ _ 0 0); [exact L|]. intros i Hi. rewrite L in Hi. cbn [length nd_shape N5] in Hi. rewrite D by exact Hi. destruct i as [|[|[|]]]; [reflexivity..|lia]. }
    rewrite V; [vm_compute; reflexivity|rewrite S; repeat constructor; cbn; lia].
  - apply H0; [discriminate|]. right. left. constructor. cbn. lia.
  - destruct (H1 eq_refl) as (s & FS & E1). exists s. split; [exact FS|exact E1].
Qed.

(** Three values are stored. *)
Example C45_coond_refuted_nonvacuous :
  step env2 state2 (Reduce RCount 5 AxNone false) = Ok (state2 ++ [VInts [] [1]]) /\ length (filter (fun v : f64 pw0 => negb (feqb v f0)) (array_values N5)) = 3%nat.
Proof. split; [exact (C45_coond_refuted _ env2 state2 5 N5 false N5_is)|reflexivity]. Qed.
Example C63_other_reductions_nonvacuous : step env2 state2 (Reduce RMax 5 AxNone false) = Panic.
Proof. apply (C63_other_reductions _ env2 state2 5 N5 RMax AxNone false N5_is); discriminate. Qed.
