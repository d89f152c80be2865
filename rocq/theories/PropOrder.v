(** Property theorems: comparisons, minima and maxima of doubles are those of the numbers they
    stand for (C89). *)
Require Import List ZArith Bool Arith Lia Permutation QArith Qabs Qpower.
Require Import Coq.Floats.SpecFloat.
Require Import Verif.Res Verif.Values Verif.Spec Verif.Mem Verif.Laws Verif.Witness Verif.SpecReduce Verif.SpecPy Verif.MPy Verif.PBroadcast Verif.PropPy2 Verif.PropStat Verif.MObj Verif.SpecObj Verif.PropObj Verif.SpecCall Verif.SpecCall2 Verif.PropCall Verif.PropCall2 Verif.PropCall5 Verif.PropCall7 Verif.PropNative.
Require Import Verif.SpecAccuracy Verif.FloatOrd Verif.SpecOrder.
Import ListNotations.
Local Open Scope Z_scope.

Lemma compare_extended : forall x y, double x -> double y -> SFcompare x y = ext_compare (extended_of x) (extended_of y).
Proof.
  intros x y DX DY. destruct x as [s|s| |s m e]; [| | |]; destruct y as [t|t| |t n f]; try reflexivity; try (destruct s; reflexivity); try (destruct t; reflexivity); try (destruct s, t; reflexivity).
  - rewrite compare_numbers by (assumption || reflexivity). reflexivity.
  - rewrite compare_numbers by (assumption || reflexivity). reflexivity.
  - rewrite compare_numbers by (assumption || reflexivity). reflexivity.
Qed.
Lemma compare_sym : forall a b, ext_compare b a = match ext_compare a b with Some c => Some (CompOpp c) | None => None end.
Proof. intros [|p| |] [|q| |]; try reflexivity. cbn [ext_compare]. rewrite (Qcompare_antisym p q). reflexivity. Qed.
Section Pw.
Context {pw : spec_float -> spec_float -> spec_float}.
Notation F := (f64 pw).
Lemma cmp_extended : forall c (x y : F), double x -> double y -> holds c x y = ext_cmp c (extended_of x) (extended_of y).
Proof.
  intros c x y DX DY. assert (E := compare_extended x y DX DY). assert (E' := compare_extended y x DY DX). rewrite compare_sym, <- E in E'.
  assert (L : fltb x y = match SFcompare x y with Some Lt => true | _ => false end) by reflexivity. assert (Q : feqb x y = match SFcompare x y with Some Eq => true | _ => false end) by reflexivity.
  assert (L' : fltb y x = match SFcompare y x with Some Lt => true | _ => false end) by reflexivity. assert (Q' : feqb y x = match SFcompare y x with Some Eq => true | _ => false end) by reflexivity.
  rewrite E' in L', Q'. unfold ext_cmp. rewrite <- E. destruct c; cbn [holds]; rewrite ?L, ?Q, ?L', ?Q'; destruct (SFcompare x y) as [[]|]; reflexivity.
Qed.
Lemma extreme_of : forall (least : bool) (l : list F) v, Forall double l -> no_nan l -> (if least then least_or_0 l v else greatest_or_0 l v) -> extreme least (map extended_of l) (extended_of v).
Proof.
  intros least l v D NN H. assert (LT : forall x y : F, In x l -> In y l -> fltb x y = false -> ext_cmp CGe (extended_of x) (extended_of y) = true).
  { intros x y Ix Iy E. rewrite Forall_forall in D. unfold no_nan in NN. rewrite Forall_forall in NN. assert (C := compare_extended x y (D x Ix) (D y Iy)). change (fltb x y) with (match SFcompare x y with Some Lt => true | _ => false end) in E.
    unfold ext_cmp. rewrite <- C. destruct (SFcompare x y) as [[]|] eqn:EC; try reflexivity; try discriminate E. exfalso. assert (NX := NN x Ix). assert (NY := NN y Iy). clear - EC NX NY.
    destruct x as [s|s| |s m e]; try discriminate NX; destruct y as [t|t| |t n f]; try discriminate NY; try discriminate EC; destruct s, t; cbn in EC; try discriminate EC; destruct (e ?= f); discriminate EC. }
  assert (FLIP : forall a b, ext_cmp CGe a b = true -> ext_cmp CLe b a = true) by (intros a b E; unfold ext_cmp in *; rewrite (compare_sym a b); destruct (ext_compare a b) as [[]|]; try discriminate E; reflexivity).
  split.
  - intros E. destruct l; [|discriminate E]. destruct least; destruct H as [H _]; rewrite H by reflexivity; reflexivity.
  - intros N. assert (NL : l <> []) by (intros ->; apply N; reflexivity). assert (IV : In v l) by (destruct least; destruct H as [_ H]; apply H; exact NL).
    assert (B : Forall (fun w => ext_cmp (if least then CLe else CGe) (extended_of v) w = true) (map extended_of l)).
    { apply Forall_forall. intros w Iw. apply in_map_iff in Iw. destruct Iw as (x & <- & Ix). destruct least; destruct H as [_ H]; destruct (H NL) as [_ G]; rewrite Forall_forall in G; specialize (G x Ix); [apply FLIP|]; apply LT; assumption. }
    split; [|exact B]. exists (extended_of v). split; [apply in_map; exact IV|]. rewrite Forall_forall in B. specialize (B _ (in_map extended_of _ _ IV)). destruct (extended_of v) as [|q| |]; try reflexivity; [|destruct least; discriminate B].
    cbn [ext_compare]. f_equal. apply -> Qeq_alt. reflexivity.
Qed.
End Pw.

(** ** C89: comparisons, minima and maxima *)

(** Comparing two objects of the same shape compares the numbers, infinities and NaNs in their
    cells. *)
Theorem C89_comparisons : forall pw (e : Env (f64 pw)) h a b x y c s (dx dy : list (f64 pw)), reached h -> nth_error h a = Some x -> nth_error h b = Some y ->
  plain_shape x -> plain_shape y -> floats x = None \/ floats y = None -> dense_form x = Some (s, dx) -> dense_form y = Some (s, dy) -> Forall double dx -> Forall double dy ->
  step e h (Compare c a b) = Ok (h ++ [VBools s (map (fun uv => ext_cmp c (extended_of (fst uv)) (extended_of (snd uv))) (combine dx dy))]).
Proof.
  intros pw e h a b x y c s dx dy R Na Nb PX PY FN DX DY Dx Dy. destruct (C65_compare_same_shape _ e h a b x y c s dx dy (f64_laws pw) R Na Nb PX PY FN DX DY) as [Q _]. rewrite Q. do 4 f_equal.
  apply map_ext_in. intros [u v] I. cbn [fst snd]. rewrite Forall_forall in Dx, Dy. apply cmp_extended; [apply Dx; apply (in_combine_l _ _ _ _ I)|apply Dy; apply (in_combine_r _ _ _ _ I)].
Qed.
Print Assumptions C89_comparisons.

(** Comparing with broadcasting. *)
Theorem C89_broadcast_comparisons : forall pw (e : Env (f64 pw)) h a b x y c sx (dx : list (f64 pw)) sy dy, reached h -> nth_error h a = Some x -> nth_error h b = Some y ->
  plain_shape x -> plain_shape y -> floats x = None \/ floats y = None -> dense_form x = Some (sx, dx) -> dense_form y = Some (sy, dy) -> Forall double dx -> Forall double dy ->
  let S := broadcast_shape (map Z.of_nat sx) (map Z.of_nat sy) in broadcastable (map Z.of_nat sx) (map Z.of_nat sy) ->
  exists sh r, step e h (Compare c a b) = Ok (h ++ [VBools sh r]) /\ map Z.of_nat sh = S /\ length r = fold_right Nat.mul 1%nat sh /\
    forall k, in_shape S k -> nth_error r (Z.to_nat (position S k)) = Some (ext_cmp c (extended_of (array_at sx dx k)) (extended_of (array_at sy dy k))).
Proof.
  intros pw e h a b x y c sx dx sy dy R Na Nb PX PY FN DX DY Dx Dy S B.
  destruct (C65_compare _ e h a b x y c (f64_laws pw) R Na Nb PX PY FN) as (sx' & dx' & sy' & dy' & E1 & E2 & _ & _ & H & _). rewrite DX in E1. rewrite DY in E2. injection E1 as <- <-. injection E2 as <- <-.
  destruct (H B) as (sh & r & E & ES & LR & V). exists sh, r. split; [exact E|]. split; [exact ES|]. split; [exact LR|]. intros k K. refine (eq_trans (V k K) _). f_equal.
  assert (G : forall s (d : list (f64 pw)), Forall double d -> double (array_at s d k)).
  { intros s d D. unfold array_at. match goal with |- double (nth ?n d _) => destruct (nth_in_or_default n d (f0 : f64 pw)) as [I|I]; [rewrite Forall_forall in D; apply D; exact I|rewrite I; reflexivity] end. }
  apply cmp_extended; apply G; assumption.
Qed.
Print Assumptions C89_broadcast_comparisons.

(** [min] and [max] over everything, each column or each row. *)
Theorem C89_min_max : forall pw (e : Env (f64 pw)) (h : list (value (f64 pw))) a (x : value (f64 pw)) (least : bool), fair e -> reached h -> nth_error h a = Some x -> class_of x <> None ->
  let m := fst (shape2 x) in let n := snd (shape2 x) in
  (if least then is_min (e_vmin e) /\ is_min (e_smin e) else is_max (e_vmax e) /\ is_max (e_smax e)) ->
  (forall i j, (i < m)%nat -> (j < n)%nat -> Forall (fun v : f64 pw => double v) (stored x i j)) -> no_nan (matrix_values (stored x) m n) ->
  let value_at i j := extended_of (SpecCall.cell x i j) in
  exists (total : f64 pw) (cols rows : list (f64 pw)),
    extreme least (map (fun p => value_at (fst p) (snd p)) (grid m n)) (extended_of total) /\
    length cols = n /\ (forall j, (j < n)%nat -> extreme least (map (fun i => value_at i j) (seq 0 m)) (extended_of (nth j cols f0))) /\
    length rows = m /\ (forall i, (i < m)%nat -> extreme least (map (fun j => value_at i j) (seq 0 n)) (extended_of (nth i rows f0))) /\
    forall axis kd, step e h (Reduce (if least then RMin else RMax) a axis kd) = reduction_result VArr total cols rows axis kd h.
Proof.
  intros pw e h a x least FE R Na NC m n MM D NN value_at. set (op := (if least then RMin else RMax) : rop (F := f64 pw)).
  destruct (C62_reductions pw e h a x op FE R Na NC) as (t & cs & rs & Q1 & Q2 & Q3 & Q4 & Q5 & Q6); [unfold op; destruct least; reflexivity|unfold op; destruct least; destruct MM; split; auto|].
  fold m n in Q1, Q2, Q3, Q4, Q5. exists t, cs, rs.
  assert (G : forall (J : Set) (c : J -> list (f64 pw)) js v, (forall j, In j js -> Forall double (c j) /\ no_nan (c j)) -> reduces op c js v -> extreme least (map (fun j => extended_of (one_or f0 (c j))) js) (extended_of v)).
  { intros J c js v K H. rewrite <- (map_map (fun j => one_or f0 (c j)) extended_of). apply extreme_of.
    - apply Forall_map, Forall_forall. intros j Ij. destruct (K j Ij) as [K1 _]. destruct (c j) as [|w l]; [reflexivity|]. inversion K1; subst; assumption.
    - apply Forall_map, Forall_forall. intros j Ij. destruct (K j Ij) as [_ K1]. destruct (c j) as [|w l]; [reflexivity|]. inversion K1; subst; assumption.
    - unfold op in H. destruct least; exact H. }
  assert (K : forall i j, (i < m)%nat -> (j < n)%nat -> Forall double (stored x i j) /\ no_nan (stored x i j)).
  { intros i j Hi Hj. split; [apply D; assumption|]. unfold no_nan, matrix_values in NN. rewrite Forall_flat_map, Forall_forall in NN. apply (NN (i, j)). apply in_prod_iff. rewrite !in_seq. lia. }
  split; [refine (G _ _ _ _ _ Q1); intros [i j] Hij; apply in_prod_iff in Hij; rewrite !in_seq in Hij; apply K; cbn [fst snd]; lia|]. split; [exact Q2|].
  split; [intros j Hj; refine (G _ _ _ _ _ (Q3 j Hj)); intros i Hi; apply in_seq in Hi; apply K; lia|]. split; [exact Q4|].
  split; [intros i Hi; refine (G _ _ _ _ _ (Q5 i Hi)); intros j Hj; apply in_seq in Hj; apply K; lia|]. exact Q6.
Qed.
Print Assumptions C89_min_max.

(** *** The theorems apply *)
(** 0, 1: the rows [nan inf 2] and [_ 3 2]; 2: [[-inf 0.1] [7 _]] by columns; 3: a vector. *)
Definition minf : f64 pw0 := S754_infinity true.
Definition tenth : f64 pw0 := S754_finite false 7205759403792794 (-56).
Definition mzero : f64 pw0 := S754_zero true.
Definition calls10 : list (call (f64 pw0)) :=
  [NewCsr 1 3 [0; 3] [0; 1; 2] [fnan0; finf0; fz 2] true; NewCsr 1 3 [0; 2] [1; 2] [fz 3; fz 2] true;
   NewCsc 2 2 [0; 2; 3] [0; 1; 0] [minf; fz 7; tenth] true; NewArr [2]%nat [fz 0; mzero]].
Definition state10 : list (value (f64 pw0)) :=
  match run [] (map (fun c => (env2, c)) calls10) with Running h => h | _ => [] end.
Lemma state10_reached : reached state10.
Proof.
  assert (O : match objects (run [] (map (fun c => (env2, c)) calls10)) with Some _ => true | None => false end = true) by (vm_compute; reflexivity).
  destruct (objects (run [] (map (fun c => (env2, c)) calls10))) as [x|] eqn:EO; [|discriminate O]. destruct (objects_running _ _ EO) as (h & ER & EH).
  unfold state10. rewrite ER. apply (C61_programs_reach _ (map (fun c => (env2, c)) calls10) h); [|exact ER].
  apply Forall_forall. intros ec Hec. apply in_map_iff in Hec. destruct Hec as (c & <- & Hc). cbn [fst snd]. split; [apply env2_fair|]. cbn [calls10 In] in Hc.
  repeat (destruct Hc as [<-|Hc]; [split; [|exact I]; cbn [regular_arguments]; try exact I|]); try contradiction;
    solve [split; [reflexivity|]; split; [repeat constructor; discriminate|left; reflexivity] | apply canonical_literal; reflexivity].
Qed.
Definition obj10 (a : nat) : value (f64 pw0) := nth a state10 (VInts [] []).
Lemma obj10_is a : (a < 4)%nat -> nth_error state10 a = Some (obj10 a).
Proof. intros H. apply nth_error_nth'. assert (L : length state10 = 4%nat) by (vm_compute; reflexivity). rewrite L. exact H. Qed.
Lemma matrix10 : forall a, match class_of (obj10 a) with None => false | _ => true end = true -> plain_shape (obj10 a) /\ floats (obj10 a) = None.
Proof. intros a H. destruct (obj10 a); try discriminate H; split; try exact I; reflexivity. Qed.
Example C89_comparisons_nonvacuous :
  step env2 state10 (Compare CLe 1 0) = Ok (state10 ++ [VBools [1; 3]%nat [false; true; true]]) /\ step env2 state10 (Compare CNe 0 0) = Ok (state10 ++ [VBools [1; 3]%nat [true; false; false]]).
Proof.
  destruct (matrix10 0%nat ltac:(vm_compute; reflexivity)) as [P0 F0]. destruct (matrix10 1%nat ltac:(vm_compute; reflexivity)) as [P1 F1].
  assert (D0 : dense_form (obj10 0) = Some ([1; 3]%nat, [fnan0; finf0; fz 2])) by (vm_compute; reflexivity). assert (D1 : dense_form (obj10 1) = Some ([1; 3]%nat, [fz 0; fz 3; fz 2])) by (vm_compute; reflexivity).
  split.
  - rewrite (C89_comparisons pw0 env2 state10 1 0 _ _ CLe _ _ _ state10_reached (obj10_is 1 ltac:(lia)) (obj10_is 0 ltac:(lia)) P1 P0 (or_introl F1) D1 D0) by (repeat constructor). do 4 f_equal; vm_compute; reflexivity.
  - rewrite (C89_comparisons pw0 env2 state10 0 0 _ _ CNe _ _ _ state10_reached (obj10_is 0 ltac:(lia)) (obj10_is 0 ltac:(lia)) P0 P0 (or_introl F0) D0 D0) by (repeat constructor). do 4 f_equal; vm_compute; reflexivity.
Qed.
(** Two zeros of different signs against a matrix of two rows. *)
Example C89_broadcast_comparisons_nonvacuous : exists sh r, step env2 state10 (Compare CEq 2 3) = Ok (state10 ++ [VBools sh r]) /\ map Z.of_nat sh = [2; 2] /\ length r = fold_right Nat.mul 1%nat sh /\
  nth_error r 0 = Some false /\ nth_error r 3 = Some true.
Proof.
  destruct (matrix10 2%nat ltac:(vm_compute; reflexivity)) as [P2 F2]. assert (D2 : dense_form (obj10 2) = Some ([2; 2]%nat, [minf; tenth; fz 7; fz 0])) by (vm_compute; reflexivity).
  assert (D3 : dense_form (obj10 3) = Some ([2]%nat, [fz 0; mzero])) by (vm_compute; reflexivity). assert (P3 : plain_shape (obj10 3)).
  { assert (B : match obj10 3 with VNd _ => false | _ => true end = true) by (vm_compute; reflexivity). clear - B. destruct (obj10 3); try exact I. discriminate B. }
 
  destruct (C89_broadcast_comparisons pw0 env2 state10 2 3 _ _ CEq _ _ _ _ state10_reached (obj10_is 2 ltac:(lia)) (obj10_is 3 ltac:(lia)) P2 P3 (or_introl F2) D2 D3) as (sh & r & E & ES & LR & V); [repeat constructor|repeat constructor|repeat constructor; vm_compute; intros; lia|].
  exists sh, r. split; [exact E|]. split; [exact ES|]. split; [exact LR|]. assert (4 < i64_max) by reflexivity. split.
  - refine (eq_trans (V [0; 0] _) _); [repeat constructor; lia|vm_compute; reflexivity].
  - refine (eq_trans (V [1; 1] _) _); [repeat constructor; lia|vm_compute; reflexivity].
Qed.
(** The least number is -inf, the greatest in each row 0.1 and 7. *)
Example C89_min_max_nonvacuous : exists t rows : list (f64 pw0), step env2 state10 (Reduce RMin 2 AxNone false) = Ok (state10 ++ [VArr [] t]) /\ step env2 state10 (Reduce RMax 2 (AxInt 1) false) = Ok (state10 ++ [VArr [2]%nat rows]) /\
  map extended_of t = [MinusInf] /\ extreme false [MinusInf; extended_of tenth] (extended_of (nth 0 rows f0)) /\ extreme false [extended_of (fz 7); Num 0] (extended_of (nth 1 rows f0)).
Proof.
  assert (C2 : class_of (obj10 2) = Some CscClass) by (vm_compute; reflexivity). assert (S2 : shape2 (obj10 2) = (2, 2)%nat) by (vm_compute; reflexivity).
  assert (ST : forall i j, (i < 2)%nat -> (j < 2)%nat -> Forall (fun v : f64 pw0 => double v) (stored (obj10 2) i j)).
  { intros i j Hi Hj. assert (G : forallb (fun v : spec_float => valid_binary 53 1024 v) (stored (obj10 2) i j) = true) by (destruct i as [|[|?]]; [| |lia]; (destruct j as [|[|?]]; [| |lia]); vm_compute; reflexivity).
    rewrite forallb_forall in G. apply Forall_forall. exact G. }
  assert (NN : no_nan (matrix_values (stored (obj10 2)) 2 2)).
  { assert (G : forallb (fun v : f64 pw0 => negb (fnan v)) (matrix_values (stored (obj10 2)) 2 2) = true) by (vm_compute; reflexivity). rewrite forallb_forall in G. apply Forall_forall. intros v Iv. specialize (G v Iv). apply negb_true_iff in G. exact G. }
  assert (M := C89_min_max pw0 env2 state10 2 (obj10 2) true env2_fair state10_reached (obj10_is 2 ltac:(lia)) ltac:(rewrite C2; discriminate)).
  assert (N := C89_min_max pw0 env2 state10 2 (obj10 2) false env2_fair state10_reached (obj10_is 2 ltac:(lia)) ltac:(rewrite C2; discriminate)).
  rewrite S2 in M, N. cbn [fst snd] in M, N. destruct (M (conj smin0_min smin0_min) ST NN) as (t & cs1 & rs1 & T & _ & _ & _ & _ & E). destruct (N (conj smax0_max smax0_max) ST NN) as (t2 & cs2 & rows & _ & _ & _ & LR & RR & E').
  exists [t], rows. split; [rewrite E; reflexivity|]. split; [rewrite E'; unfold reduction_result, reduction_2d; cbn [forallb axis_valid existsb]; rewrite LR; reflexivity|]. 
  assert (V00 : extended_of (SpecCall.cell (obj10 2) 0 0) = MinusInf) by (vm_compute; reflexivity).
  split.
  - destruct T as [_ T]. destruct T as [_ T]; [discriminate|]. rewrite Forall_forall in T. specialize (T MinusInf). cbn [map]. destruct (extended_of t) as [|q| |]; [reflexivity| | |]; exfalso; (assert (X : false = true) by (apply T; apply in_map_iff; exists (0, 0)%nat; split; [exact V00|apply in_prod_iff; rewrite !in_seq; lia]); discriminate X).
  - split; [assert (R0 := RR 0%nat ltac:(lia))|assert (R0 := RR 1%nat ltac:(lia))]; (match type of R0 with extreme _ ?l _ => match goal with |- extreme _ ?l' _ => replace l with l' in R0 by (vm_compute; reflexivity) end end; exact R0).
Qed.
