(** Property theorems about single calls on the objects of a running program: C60 (what a
    call computes) and C61 (objects stay sorted and free of duplicates). *)
Require Import List ZArith Bool Arith Lia Permutation.
Require Import ZifyBool ZifyNat.
Require Import Verif.Res Verif.Values Verif.Spec Verif.Mem Verif.Lists Verif.Laws Verif.FloatFacts Verif.FloatPos Verif.Witness Verif.PropLinalg Verif.PropNd Verif.PGroup Verif.PropScalar Verif.PropStat Verif.SpecReduce Verif.SpecPy Verif.MReduce Verif.MPy Verif.MObj Verif.SpecObj Verif.PObj Verif.PropObj Verif.SpecCall Verif.PCall Verif.PCall2 Verif.PCall3.
Import ListNotations.
Local Open Scope Z_scope.

(** ** C61: whatever calls a program makes, starting from sorted arrays without duplicates,
    all its objects are sorted, free of duplicates and in step with their native handles. *)
Theorem C61_objects_stay_regular : forall (F : Fl) (h : list (value F)), NLaws F -> reached h -> Forall regular h.
Proof. intros F h NL R. eapply Forall_impl; [|apply (reached_held NL h R)]. intros x K. apply K. Qed.
Print Assumptions C61_objects_stay_regular.

Theorem C61_ieee : forall pw (h : list (value (f64 pw))), reached h -> Forall regular h.
Proof. intros pw h. apply C61_objects_stay_regular. apply f64_laws. Qed.
Print Assumptions C61_ieee.

(** [reached] is what programs reach: the state after any run of regular calls. *)
Theorem C61_programs_reach : forall (F : Fl) (l : list (Env F * call F)) h,
  Forall (fun s => fair (fst s) /\ regular_arguments (snd s) /\ match snd s with SetData _ _ _ | Diff _ _ _ => False | _ => True end) l ->
  run [] l = Running h -> reached h.
Proof.
  intros F l h H E. assert (R := @reached_start F). revert R E. generalize (@nil (value F)).
  induction H as [|[e c] l (FE & V & NX) H IH]; intros h0 R E; cbn [run] in E; [injection E as <-; exact R|]. cbn [fst snd] in *.
  destruct (i64_max <=? demand h0 c) eqn:D; [discriminate|]. destruct (step e h0 c) as [h'| | |] eqn:ES; try discriminate E; [|apply (IH h0 R E)].
  destruct (forallb fits h') eqn:FT; [|discriminate]. apply (IH h'); auto. eapply reached_call; eauto; [|lia].
  destruct c; try contradiction; intros [].
Qed.
Print Assumptions C61_programs_reach.

Definition env2 : Env (f64 pw0) :=
  mkEnv 2 (fun _ => backward) backward (fun _ => @rev _) (@rev _) (@rev _) (fun _ => @rev _) (@rev _)
    two_threads (fun _ => sort_pairs) sort_triples (@rev _) Whole f0 smin0 smin0 smax0 smax0 (fun xs j => length (filter (fun x => x <? j) xs)).
Lemma env2_fair : fair env2.
Proof. destruct (env0_fair _ (f64_laws pw0)). constructor; assumption. Qed.

(** A program whose objects the theorems below apply to. *)
Definition calls2 : list (call (f64 pw0)) :=
  [NewCsr 2 3 [0; 2; 3] [0; 2; 1] [fz 1; fz (-2); fz 4] true;     (* 0: [1 . -2; . 4 .] *)
   NewCsc 2 3 [0; 1; 2; 3] [0; 1; 0] [fz 5; fz 2; fz 0] false;    (* 1: [5 . 0; . 2 .] *)
   NewCoo 2 3 [1; 0] [0; 2] [fz 7; fz (-1)] false;                (* 2: [. . -1; 7 . .] *)
   Scalar SMul 0 (fz 3);                                          (* 3: [3 . -6; . 12 .] *)
   Binary BDiv 3 0;                                               (* 4: [3 . 3; . 3 .] *)
   NewNd [2; 1; 3] [0; 0; 1; 1; 0; 2; 1; 0; 0] [fz 6; fz 8; fz (-3)] false; (* 5 *)
   Unary UT 2;                                                    (* 6: [. 7; . .; -1 .] *)
   Reduce RSum 1 (AxInt 0) false].                                (* 7: [5; 2; 0] *)
Definition state2 : list (value (f64 pw0)) :=
  match run [] (map (fun c => (env2, c)) calls2) with Running h => h | _ => [] end.
Lemma state2_reached : reached state2.
Proof.
  assert (O : match objects (run [] (map (fun c => (env2, c)) calls2)) with Some _ => true | None => false end = true) by (vm_compute; reflexivity).
  destruct (objects (run [] (map (fun c => (env2, c)) calls2))) as [x|] eqn:EO; [|discriminate O]. destruct (objects_running _ _ EO) as (h & ER & EH).
  unfold state2. rewrite ER. apply (C61_programs_reach _ (map (fun c => (env2, c)) calls2) h); [|exact ER].
  apply Forall_forall. intros ec Hec. apply in_map_iff in Hec. destruct Hec as (c & <- & Hc). cbn [fst snd]. split; [apply env2_fair|]. cbn [calls2 In] in Hc.
  repeat (destruct Hc as [<-|Hc]; [split; [|exact I]; cbn [regular_arguments]; try exact I|]); try contradiction.
  - split; [reflexivity|]. split; [repeat constructor; discriminate|left; reflexivity].
  - apply canonical_literal; reflexivity.
  - split; [apply coo_ok_literal; reflexivity|]. intros i j. unfold coo_at, at_cell, coo_entries. cbn [coo_row coo_col coo_data combine filter fst snd].
    repeat match goal with |- context [?x =? ?y] => destruct (Z.eqb_spec x y) end; cbn; lia.
  - split; [apply nd_ok_literal; reflexivity|]. apply single_keys. vm_compute. repeat constructor; cbn; intuition congruence.
Qed.

Example C61_nonvacuous : reached state2 /\ length state2 = 8%nat /\ regular (nth 4 state2 (VInts [] [])).
Proof.
  split; [exact state2_reached|]. split; [vm_compute; reflexivity|].
  assert (R := C61_ieee _ _ state2_reached). rewrite Forall_forall in R. apply R. apply nth_In. vm_compute. lia.
Qed.

(** ** C60: what a call computes, for the objects of any state a program reaches *)

(** [A * s], [A / s], [A // s], [A % s], [A ** s] for the matrix classes: the operator is
    applied to every stored value, nothing else changes; division by zero raises. *)
Theorem C60_scalar_operators : forall (F : Fl) (e : Env F) h a x op alpha, NLaws F -> reached h -> nth_error h a = Some x -> class_of x <> None ->
  (scalar_raises op alpha = true -> step e h (Scalar op a alpha) = Panic) /\
  (scalar_raises op alpha = false -> exists y, step e h (Scalar op a alpha) = Ok (h ++ [y]) /\ class_of y = class_of x /\ shape2 y = shape2 x /\
     forall i j, stored y i j = map (scalar_value op alpha) (stored x i j)).
Proof.
  intros F e h a x op alpha NL R N NC. assert (K := reached_nth h a x NL R N). cbn [step exec]. rewrite (get_is _ _ _ N). cbn [bind]. split; intros B.
  - rewrite do_scalar_raises by auto. reflexivity.
  - destruct (do_scalar_is op x alpha B K NC) as (y & E & H). rewrite E. exists y. auto.
Qed.
Print Assumptions C60_scalar_operators.

(** The same for COOND arrays, which have neither [*] nor [/] with a number. *)
Theorem C60_scalar_operators_coond : forall (F : Fl) (e : Env F) h a A op alpha, NLaws F -> reached h -> nth_error h a = Some (VNd A) ->
  Forall (fun n => 0 <= n) (nd_shape A) ->
  (op = SMul \/ op = SDiv \/ scalar_raises op alpha = true -> step e h (Scalar op a alpha) = Panic) /\
  (op <> SMul -> op <> SDiv -> scalar_raises op alpha = false ->
     exists B, step e h (Scalar op a alpha) = Ok (h ++ [VNd B]) /\ nd_shape B = nd_shape A /\ nd_keys B = nd_keys A /\
       forall k, nd_at B k = map (scalar_value op alpha) (nd_at A k)).
Proof.
  intros F e h a A op alpha NL R N NN. assert (K := reached_nth h a _ NL R N). cbn [step exec]. rewrite (get_is _ _ _ N). cbn [bind]. split.
  - intros [-> |[-> |B]]; [reflexivity|reflexivity|]. rewrite do_scalar_raises by auto. reflexivity.
  - intros N1 N2 B. destruct (do_scalar_nd op A alpha B N1 N2 K NN) as (C & E & H). rewrite E. exists C. auto.
Qed.
Print Assumptions C60_scalar_operators_coond.

(** abs, sign and [-A]. *)
Theorem C60_unary_maps : forall (F : Fl) (e : Env F) h a x op, NLaws F -> reached h -> nth_error h a = Some x -> class_of x <> None -> is_map op = true ->
  exists y, step e h (Unary op a) = Ok (h ++ [y]) /\ class_of y = class_of x /\ shape2 y = shape2 x /\
    forall i j, stored y i j = map (unary_value op) (stored x i j).
Proof.
  intros F e h a x op NL R N NC M. assert (K := reached_nth h a x NL R N). cbn [step exec]. rewrite (get_is _ _ _ N). cbn [bind].
  destruct (do_unary_is e op x M K NC) as (y & E & H). rewrite E. exists y. auto.
Qed.
Print Assumptions C60_unary_maps.

Theorem C60_unary_maps_coond : forall (F : Fl) (e : Env F) h a A op, NLaws F -> reached h -> nth_error h a = Some (VNd A) ->
  Forall (fun n => 0 <= n) (nd_shape A) -> is_map op = true ->
  exists B, step e h (Unary op a) = Ok (h ++ [VNd B]) /\ nd_shape B = nd_shape A /\ nd_keys B = nd_keys A /\
    forall k, nd_at B k = map (unary_value op) (nd_at A k).
Proof.
  intros F e h a A op NL R N NN M. assert (K := reached_nth h a _ NL R N). cbn [step exec]. rewrite (get_is _ _ _ N). cbn [bind].
  destruct (do_unary_nd e op A M K NN) as (C & E & H). rewrite E. exists C. auto.
Qed.
Print Assumptions C60_unary_maps_coond.

(** [A.prune(eps)] keeps the values with |v| > eps, [eps] other than zero; everything for a
    negative [eps]. *)
Theorem C60_prune : forall (F : Fl) (e : Env F) h a x eps, NLaws F -> fair e -> reached h -> nth_error h a = Some x -> class_of x <> None -> feqb eps f0 = false ->
  exists y, step e h (Unary (UPrune eps) a) = Ok (h ++ [y]) /\ class_of y = class_of x /\ shape2 y = shape2 x /\
    forall i j, (i < fst (shape2 x))%nat -> (j < snd (shape2 x))%nat ->
      stored y i j = filter (fun v => fltb eps f0 || fltb eps (fabs v)) (stored x i j).
Proof.
  intros F e h a x eps NL FE R N NC B. assert (K := reached_nth h a x NL R N). cbn [step exec]. rewrite (get_is _ _ _ N). cbn [bind].
  destruct (fltb eps f0) eqn:E1.
  - destruct (do_prune_negative e eps x E1 K NC) as (y & E & H). rewrite E. exists y. auto.
  - destruct (do_prune_is e FE eps x E1 B K NC) as (y & E & H). rewrite E. exists y. auto.
Qed.
Print Assumptions C60_prune.

(** [A.eliminate_zeros()] drops the zeros, provided no NaN is stored (C18). *)
Theorem C60_eliminate_zeros : forall pw (e : Env (f64 pw)) h a x, fair e -> reached h -> nth_error h a = Some x -> class_of x <> None ->
  no_nan (matrix_values (stored x) (fst (shape2 x)) (snd (shape2 x))) ->
  exists y, step e h (Unary UElim a) = Ok (h ++ [y]) /\ class_of y = class_of x /\ shape2 y = shape2 x /\
    forall i j, (i < fst (shape2 x))%nat -> (j < snd (shape2 x))%nat -> stored y i j = filter (fun v => negb (feqb v f0)) (stored x i j).
Proof.
  intros pw e h a x FE R N NC NN. assert (K := reached_nth h a x (f64_laws pw) R N). cbn [step exec]. rewrite (get_is _ _ _ N). cbn [bind].
  destruct (do_eliminate_is pw e FE x K NC NN) as (y & E & H). rewrite E. exists y. auto.
Qed.
Print Assumptions C60_eliminate_zeros.

(** [A.T] *)
Theorem C60_transpose : forall (F : Fl) (e : Env F) h a x, NLaws F -> fair e -> reached h -> nth_error h a = Some x -> class_of x <> None ->
  exists y, step e h (Unary UT a) = Ok (h ++ [y]) /\ class_of y = class_of x /\ shape2 y = (snd (shape2 x), fst (shape2 x)) /\
    forall i j, (i < fst (shape2 x))%nat -> (j < snd (shape2 x))%nat -> stored y j i = stored x i j.
Proof.
  intros F e h a x NL FE R N NC. assert (K := reached_nth h a x NL R N). cbn [step exec]. rewrite (get_is _ _ _ N). cbn [bind].
  destruct (do_T_is e FE x K NC) as (y & E & H). rewrite E. exists y. auto.
Qed.
Print Assumptions C60_transpose.

(** [A * B], [A / B], [A // B], [A % B], [A ** B] of two CSR or two CSC matrices: a value is
    stored exactly where both operands store one and the operator gives a number other than
    zero. Different shapes raise. *)
Theorem C60_common_entries : forall (F : Fl) (e : Env F) h a b x y op, NLaws F -> fair e -> reached h -> nth_error h a = Some x -> nth_error h b = Some y ->
  class_of x = class_of y -> class_of x = Some CsrClass \/ class_of x = Some CscClass -> sum_of (F := F) op = None ->
  (shape2 x <> shape2 y -> step e h (Binary op a b) = Panic) /\
  (shape2 x = shape2 y -> exists z, step e h (Binary op a b) = Ok (h ++ [z]) /\ class_of z = class_of x /\ shape2 z = shape2 x /\
     forall i j, (i < fst (shape2 x))%nat -> (j < snd (shape2 x))%nat ->
       (forall v, stored z i j = [v] <-> exists p q, stored x i j = [p] /\ stored y i j = [q] /\ combines op p q v) /\
       (stored z i j = [] \/ exists v, stored z i j = [v])).
Proof.
  intros F e h a b x y op NL FE R Na Nb EC BC NS. assert (Kx := reached_nth h a x NL R Na). assert (Ky := reached_nth h b y NL R Nb).
  cbn [step exec]. rewrite (get_is _ _ _ Na), (get_is _ _ _ Nb). cbn [bind]. split; intros S.
  - rewrite do_binary_mismatch by auto. reflexivity.
  - destruct (do_binary_isect e FE NL op x y Kx Ky EC BC S NS) as (z & E & H). rewrite E. exists z. auto.
Qed.
Print Assumptions C60_common_entries.

(** [A + B] and [A - B]: every cell is the sum or difference of the cells (a zero of either
    sign counts as zero). *)
Theorem C60_sums : forall (F : Fl) (e : Env F) h a b x y op g, NLaws F -> fair e -> reached h -> nth_error h a = Some x -> nth_error h b = Some y ->
  class_of x = class_of y -> class_of x = Some CsrClass \/ class_of x = Some CscClass -> sum_of op = Some g ->
  (shape2 x <> shape2 y -> step e h (Binary op a b) = Panic) /\
  (shape2 x = shape2 y -> exists z, step e h (Binary op a b) = Ok (h ++ [z]) /\ class_of z = class_of x /\ shape2 z = shape2 x /\
     forall i j, (i < fst (shape2 x))%nat -> (j < snd (shape2 x))%nat -> feqv (cell z i j) (g (cell x i j) (cell y i j))).
Proof.
  intros F e h a b x y op g NL FE R Na Nb EC BC NS. assert (Kx := reached_nth h a x NL R Na). assert (Ky := reached_nth h b y NL R Nb).
  cbn [step exec]. rewrite (get_is _ _ _ Na), (get_is _ _ _ Nb). cbn [bind]. split; intros S.
  - rewrite do_binary_mismatch by auto. reflexivity.
  - destruct (do_binary_merge e FE NL op g x y Kx Ky EC BC S NS) as (z & E & H). rewrite E. exists z. auto.
Qed.
Print Assumptions C60_sums.

(** COO matrices and operands of different classes have no binary operators. *)
Theorem C60_no_binary_operators : forall (F : Fl) (e : Env F) h a b x y op, nth_error h a = Some x -> nth_error h b = Some y ->
  class_of x <> class_of y \/ class_of x = Some CooClass -> step e h (Binary op a b) = Panic.
Proof.
  intros F e h a b x y op Na Nb H. cbn [step exec]. rewrite (get_is _ _ _ Na), (get_is _ _ _ Nb). cbn [bind].
  destruct x as [X|X|X|X|? ?|? ?|? ?], y as [Y|Y|Y|Y|? ?|? ?|? ?]; try reflexivity; destruct H as [H|H]; try discriminate H; exfalso; apply H; reflexivity.
Qed.
Print Assumptions C60_no_binary_operators.

(** [A.data[k] = v] changes that one element of that one object, and nothing else; an index
    out of range raises. *)
Theorem C60_set_data : forall (F : Fl) (e : Env F) h a x d k v, nth_error h a = Some x -> data_array x = Some d ->
  (~ - Z.of_nat (length d) <= k < Z.of_nat (length d) -> step e h (SetData a k v) = Panic) /\
  (- Z.of_nat (length d) <= k < Z.of_nat (length d) ->
     let p := Z.to_nat (if k <? 0 then Z.of_nat (length d) + k else k) in
     exists h' d', step e h (SetData a k v) = Ok h' /\ length h' = length h /\ nth_error h' a = Some (with_data x d') /\
       (forall b, b <> a -> nth_error h' b = nth_error h b) /\
       length d' = length d /\ nth_error d' p = Some v /\ forall q, q <> p -> nth_error d' q = nth_error d q).
Proof.
  intros F e h a x d k v N D.
  assert (PS : forall f : list F -> value F, (~ - Z.of_nat (length d) <= k < Z.of_nat (length d) -> bind (py_set d k v) (fun d => Ok (f d)) = Panic) /\
    (- Z.of_nat (length d) <= k < Z.of_nat (length d) -> (Z.to_nat (if k <? 0 then Z.of_nat (length d) + k else k)%Z < length d)%nat /\
      bind (py_set d k v) (fun d => Ok (f d)) = Ok (f (upd d (Z.to_nat (if k <? 0 then Z.of_nat (length d) + k else k)) v)))).
  { intros f. unfold py_set, py_index. split; intros H.
    - replace ((0 <=? k) && (k <? Z.of_nat (length d))) with false by lia. replace ((k <? 0) && (- Z.of_nat (length d) <=? k)) with false by lia. reflexivity.
    - split; [destruct (k <? 0) eqn:Q; lia|]. destruct (k <? 0) eqn:Q.
      + replace ((0 <=? k) && (k <? Z.of_nat (length d))) with false by lia. replace (true && (- Z.of_nat (length d) <=? k)) with true by lia. reflexivity.
      + replace ((0 <=? k) && (k <? Z.of_nat (length d))) with true by lia. reflexivity. }
  assert (SD : set_data x k v = bind (py_set d k v) (fun d' => Ok (with_data x d'))).
  { destruct x as [X|X|X|X|? ?|? ?|? ?]; try discriminate D; injection D as <-; reflexivity. }
  destruct (PS (with_data x)) as [P1 P2]. cbn [step]. rewrite (get_is _ _ _ N). cbn [bind]. rewrite SD. split; intros H.
  - rewrite P1 by auto. reflexivity.
  - destruct (P2 H) as [L E]. set (p := Z.to_nat (if k <? 0 then Z.of_nat (length d) + k else k)) in *. rewrite E. cbn [bind]. eexists. exists (upd d p v). split; [reflexivity|].
    split; [apply upd_length|]. assert (La : (a < length h)%nat) by (apply nth_error_Some; congruence).
    split; [apply nth_error_upd_eq; exact La|]. split; [intros b Hb; apply nth_error_upd_neq; auto|]. split; [apply upd_length|].
    split; [apply nth_error_upd_eq; exact L|]. intros q Hq. apply nth_error_upd_neq. auto.
Qed.
Print Assumptions C60_set_data.

(** *** The theorems apply: objects of [state2] *)
Definition obj (a : nat) : value (f64 pw0) := nth a state2 (VInts [] []).
Lemma obj_is a : (a < 8)%nat -> nth_error state2 a = Some (obj a).
Proof. intros H. apply nth_error_nth'. assert (L : length state2 = 8%nat) by (vm_compute; reflexivity). rewrite L. exact H. Qed.
Lemma obj_class a k : class_of (obj a) = Some k -> class_of (obj a) <> None.
Proof. intros ->. discriminate. Qed.
Definition nd_view (v : value (f64 pw0)) : option (list Z * list (f64 pw0)) :=
  match v with VNd A => Some (nd_shape A, nd_at A [1; 0; 0]) | _ => None end.
Lemma obj5 : exists A, nth_error state2 5 = Some (VNd A) /\ nd_shape A = [2; 1; 3] /\ nd_at A [1; 0; 0] = [fz (-3)].
Proof.
  assert (V : nd_view (obj 5) = Some ([2; 1; 3], [fz (-3)])) by (vm_compute; reflexivity). assert (N := obj_is 5 ltac:(lia)).
  destruct (obj 5) as [| | |A| | |]; try discriminate V. injection V as V1 V2. exists A. auto.
Qed.

Example C60_scalar_operators_nonvacuous : exists y, step env2 state2 (Scalar SFloorDiv 0 (fz 3)) = Ok (state2 ++ [y]) /\ stored y 0 2 = [fz (-1)] /\
  step env2 state2 (Scalar SFloorDiv 0 (fz 0)) = Panic.
Proof.
  destruct (C60_scalar_operators _ env2 state2 0 (obj 0) SFloorDiv (fz 3) (f64_laws pw0) state2_reached (obj_is 0 ltac:(lia)) ltac:(vm_compute; discriminate)) as [_ H].
  destruct (C60_scalar_operators _ env2 state2 0 (obj 0) SFloorDiv (fz 0) (f64_laws pw0) state2_reached (obj_is 0 ltac:(lia)) ltac:(vm_compute; discriminate)) as [H0 _].
  destruct (H ltac:(vm_compute; reflexivity)) as (y & E & _ & _ & V). exists y. split; [exact E|]. split; [rewrite V; vm_compute; reflexivity|]. apply H0. vm_compute. reflexivity.
Qed.

Example C60_scalar_operators_coond_nonvacuous : exists A B, nth_error state2 5 = Some (VNd A) /\ step env2 state2 (Scalar SMod 5 (fz 4)) = Ok (state2 ++ [VNd B]) /\ nd_at B [1; 0; 0] = [fz 1].
Proof.
  destruct obj5 as (A & N & ES & EV).
  destruct (C60_scalar_operators_coond _ env2 state2 5 A SMod (fz 4) (f64_laws pw0) state2_reached N ltac:(rewrite ES; repeat constructor; discriminate)) as [_ H].
  destruct (H ltac:(discriminate) ltac:(discriminate) ltac:(vm_compute; reflexivity)) as (B & E & _ & _ & V). exists A, B. split; [exact N|]. split; [exact E|]. rewrite V, EV. vm_compute. reflexivity.
Qed.

Example C60_unary_maps_nonvacuous : exists y z, step env2 state2 (Unary USign 1) = Ok (state2 ++ [y]) /\ stored y 0 0 = [fz 1] /\ stored y 0 2 = [fz 0] /\
  step env2 state2 (Unary UNeg 2) = Ok (state2 ++ [z]) /\ stored z 1 0 = [fz (-7)].
Proof.
  destruct (C60_unary_maps _ env2 state2 1 (obj 1) USign (f64_laws pw0) state2_reached (obj_is 1 ltac:(lia)) ltac:(vm_compute; discriminate) eq_refl) as (y & E & _ & _ & V).
  destruct (C60_unary_maps _ env2 state2 2 (obj 2) UNeg (f64_laws pw0) state2_reached (obj_is 2 ltac:(lia)) ltac:(vm_compute; discriminate) eq_refl) as (z & E' & _ & _ & V').
  exists y, z. rewrite !V, V'. split; [exact E|]. split; [vm_compute; reflexivity|]. split; [vm_compute; reflexivity|]. split; [exact E'|]. vm_compute. reflexivity.
Qed.

Example C60_unary_maps_coond_nonvacuous : exists A B, nth_error state2 5 = Some (VNd A) /\ step env2 state2 (Unary UNeg 5) = Ok (state2 ++ [VNd B]) /\ nd_at B [1; 0; 0] = [fz 3].
Proof.
  destruct obj5 as (A & N & ES & EV).
  destruct (C60_unary_maps_coond _ env2 state2 5 A UNeg (f64_laws pw0) state2_reached N ltac:(rewrite ES; repeat constructor; discriminate) eq_refl) as (B & E & _ & _ & V).
  exists A, B. split; [exact N|]. split; [exact E|]. rewrite V, EV. vm_compute. reflexivity.
Qed.

Example C60_prune_nonvacuous : exists y, step env2 state2 (Unary (UPrune (fz 1)) 0) = Ok (state2 ++ [y]) /\ stored y 0 0 = [] /\ stored y 0 2 = [fz (-2)].
Proof.
  destruct (C60_prune _ env2 state2 0 (obj 0) (fz 1) (f64_laws pw0) env2_fair state2_reached (obj_is 0 ltac:(lia)) ltac:(vm_compute; discriminate) ltac:(vm_compute; reflexivity)) as (y & E & _ & _ & V).
  exists y. split; [exact E|]. split; (rewrite V; [vm_compute; reflexivity| |]; apply Nat.ltb_lt; vm_compute; reflexivity).
Qed.

Example C60_eliminate_zeros_nonvacuous : exists y, step env2 state2 (Unary UElim 1) = Ok (state2 ++ [y]) /\ stored (obj 1) 0 2 = [fz 0] /\ stored y 0 2 = [] /\ stored y 0 0 = [fz 5].
Proof.
  destruct (C60_eliminate_zeros _ env2 state2 1 (obj 1) env2_fair state2_reached (obj_is 1 ltac:(lia)) ltac:(vm_compute; discriminate) ltac:(vm_compute; repeat constructor)) as (y & E & _ & _ & V).
  exists y. split; [exact E|]. split; [vm_compute; reflexivity|]. split; (rewrite V; [vm_compute; reflexivity| |]; apply Nat.ltb_lt; vm_compute; reflexivity).
Qed.

Example C60_transpose_nonvacuous : exists y, step env2 state2 (Unary UT 0) = Ok (state2 ++ [y]) /\ shape2 y = (3%nat, 2%nat) /\ stored y 2 0 = [fz (-2)].
Proof.
  destruct (C60_transpose _ env2 state2 0 (obj 0) (f64_laws pw0) env2_fair state2_reached (obj_is 0 ltac:(lia)) ltac:(vm_compute; discriminate)) as (y & E & _ & S & V).
  exists y. split; [exact E|]. split; [rewrite S; vm_compute; reflexivity|]. rewrite V; [vm_compute; reflexivity| |]; apply Nat.ltb_lt; vm_compute; reflexivity.
Qed.

Example C60_common_entries_nonvacuous : exists z, step env2 state2 (Binary BDiv 0 3) = Ok (state2 ++ [z]) /\ stored z 1 1 = [fdiv (fz 4) (fz 12)].
Proof.
  destruct (C60_common_entries _ env2 state2 0 3 (obj 0) (obj 3) BDiv (f64_laws pw0) env2_fair state2_reached (obj_is 0 ltac:(lia)) (obj_is 3 ltac:(lia))
    ltac:(vm_compute; reflexivity) ltac:(left; vm_compute; reflexivity) eq_refl) as [_ H].
  destruct (H ltac:(vm_compute; reflexivity)) as (z & E & _ & _ & V). exists z. split; [exact E|].
  apply V; try (apply Nat.ltb_lt; vm_compute; reflexivity). exists (fz 4), (fz 12). repeat split; vm_compute; reflexivity.
Qed.

Example C60_sums_nonvacuous : exists z, step env2 state2 (Binary BSub 0 3) = Ok (state2 ++ [z]) /\ feqv (SpecCall.cell z 0 0) (fz (-2)) /\
  step env2 state2 (Binary BSub 0 1) = Panic.
Proof.
  destruct (C60_sums _ env2 state2 0 3 (obj 0) (obj 3) BSub fsub (f64_laws pw0) env2_fair state2_reached (obj_is 0 ltac:(lia)) (obj_is 3 ltac:(lia))
    ltac:(vm_compute; reflexivity) ltac:(left; vm_compute; reflexivity) eq_refl) as [_ H].
  destruct (H ltac:(vm_compute; reflexivity)) as (z & E & _ & _ & V). exists z. split; [exact E|]. split.
  - replace (fz (-2)) with (fsub (SpecCall.cell (obj 0) 0 0) (SpecCall.cell (obj 3) 0 0)) by (vm_compute; reflexivity).
    apply V; apply Nat.ltb_lt; vm_compute; reflexivity.
  - apply (C60_no_binary_operators _ env2 state2 0 1 (obj 0) (obj 1) BSub (obj_is 0 ltac:(lia)) (obj_is 1 ltac:(lia))). left. vm_compute. discriminate.
Qed.

Example C60_set_data_nonvacuous : exists h', step env2 state2 (SetData 2 (-1) (fz 9)) = Ok h' /\ nth_error h' 4 = nth_error state2 4 /\
  step env2 state2 (SetData 2 2 (fz 9)) = Panic.
Proof.
  destruct (C60_set_data _ env2 state2 2 (obj 2) [fz 7; fz (-1)] (-1) (fz 9) (obj_is 2 ltac:(lia)) ltac:(vm_compute; reflexivity)) as [_ H].
  destruct (C60_set_data _ env2 state2 2 (obj 2) [fz 7; fz (-1)] 2 (fz 9) (obj_is 2 ltac:(lia)) ltac:(vm_compute; reflexivity)) as [H0 _].
  destruct (H ltac:(cbn; lia)) as (h' & d' & E & _ & _ & B & _). exists h'. split; [exact E|]. split; [apply B; discriminate|]. apply H0. cbn. lia.
Qed.
