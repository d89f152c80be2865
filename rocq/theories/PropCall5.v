(** Property theorems about single calls on the objects of a running program, continued:
    reading and comparing (C65). *)
Require Import List ZArith Bool Arith Lia Permutation.
Require Import ZifyBool ZifyNat.
Require Import Verif.Res Verif.Values Verif.Spec Verif.Mem Verif.Lists Verif.CsLib Verif.Laws Verif.FloatFacts Verif.Witness Verif.PropLinalg Verif.PropScalar Verif.SpecReduce Verif.SpecPy Verif.MPy Verif.PBroadcast Verif.PPy Verif.PPy2 Verif.PropPy Verif.PropPy2 Verif.PropStat Verif.MObj Verif.SpecObj Verif.PObj Verif.PropObj Verif.SpecCall Verif.SpecCall2 Verif.PCall Verif.PCall2 Verif.PCall3 Verif.PropCall Verif.PropCall3 Verif.PropCall4.
Import ListNotations.
Local Open Scope Z_scope.

Section Helpers.
Context {F : Fl}.
Lemma densify_is : forall x : value F, held x -> plain_shape x -> densify x = match dense_form x with Some r => Ok r | None => Panic end.
Proof.
  intros x K PS. destruct x as [X|X|X|A|sh d|? ?|? ?]; cbn [densify as_float64 dense_form floats shape2 fst snd]; auto.
  - destruct (csr_held X K) as (C & _). rewrite (proj1 (C44_toarray F) _ C). reflexivity.
  - destruct (csc_held X K) as (C & _). rewrite (proj2 (C44_toarray F) _ C). reflexivity.
  - destruct (coo_held X K) as ([C SV] & _). rewrite (C44_toarray_coo F _ C). reflexivity.
  - destruct (nd_held A K) as (OK & _). rewrite (C44_toarray_coond F A OK PS). reflexivity.
Qed.
Lemma length_dense : forall {A} m n (g : nat -> nat -> A), length (concat (dense m n g)) = (m * n)%nat.
Proof.
  intros A m n g. unfold dense. generalize 0%nat at 2. induction m as [|m IH]; intros s; [reflexivity|]. cbn [seq map concat]. rewrite app_length, IH, map_length, seq_length. reflexivity.
Qed.
Lemma py_index_in : forall n i, 0 <= i < Z.of_nat n -> py_index n i = Ok (Z.to_nat i).
Proof. intros n i H. unfold py_index. replace ((0 <=? i) && (i <? Z.of_nat n)) with true by lia. reflexivity. Qed.
Lemma py_index_wrap : forall n i, - Z.of_nat n <= i < 0 -> py_index n i = py_index n (i + Z.of_nat n).
Proof.
  intros n i H. rewrite (py_index_in n (i + Z.of_nat n)) by lia. unfold py_index. replace ((0 <=? i) && (i <? Z.of_nat n)) with false by lia.
  replace ((i <? 0) && (- Z.of_nat n <=? i)) with true by lia. f_equal. lia.
Qed.
Lemma py_get_wrap : forall {A} (l : list A) i, - Z.of_nat (length l) <= i < 0 -> py_get l i = py_get l (i + Z.of_nat (length l)).
Proof. intros A l i H. unfold py_get. rewrite py_index_wrap by auto. reflexivity. Qed.
Lemma py_get_outside : forall {A} (l : list A) i, ~ - Z.of_nat (length l) <= i < Z.of_nat (length l) -> py_get l i = Panic.
Proof.
  intros A l i H. unfold py_get, py_index. replace ((0 <=? i) && (i <? Z.of_nat (length l))) with false by lia.
  replace ((i <? 0) && (- Z.of_nat (length l) <=? i)) with false by lia. reflexivity.
Qed.
Lemma py_get_in : forall {A} (l : list A) i, 0 <= i < Z.of_nat (length l) -> exists v, py_get l i = Ok v /\ nth_error l (Z.to_nat i) = Some v.
Proof.
  intros A l i H. unfold py_get. rewrite py_index_in by auto. cbn [bind]. unfold get_checked. destruct (nth_error l (Z.to_nat i)) eqn:E; [eauto|].
  apply nth_error_None in E. lia.
Qed.
Lemma py_slice_rev : forall {A} (l : list A) s, 0 <= s -> py_slice s 0 l = [].
Proof. intros A l s H. unfold py_slice, slice. replace (py_bound (length l) 0) with 0%nat; [reflexivity|]. unfold py_bound. cbn. lia. Qed.
Lemma map_const_repeat : forall {A B} (b : B) (l : list A), map (fun _ => b) l = repeat b (length l).
Proof. induction l; cbn; f_equal; auto. Qed.
End Helpers.

(** [x.toarray()]: the cells in row-major order; N-D arrays have no such method. *)
Theorem C65_toarray : forall (F : Fl) (e : Env F) h a x, NLaws F -> reached h -> nth_error h a = Some x ->
  (class_of x <> None -> step e h (ToArray a) = Ok (h ++ [VArr [fst (shape2 x); snd (shape2 x)] (concat (dense (fst (shape2 x)) (snd (shape2 x)) (shown x)))])) /\
  (class_of x = None -> step e h (ToArray a) = Panic).
Proof.
  intros F e h a x L R N. assert (K := reached_nth h a x L R N). cbn [step exec]. rewrite (get_is _ _ _ N). cbn [bind]. split; intros NC.
  - assert (E := densify_is x K). destruct x; try (exfalso; apply NC; reflexivity); unfold do_toarray; rewrite (E I); reflexivity.
  - destruct x; try discriminate NC; reflexivity.
Qed.
Print Assumptions C65_toarray.

Lemma dense_form_length : forall {F : Fl} (z : value F) s d, held z -> plain_shape z -> dense_form z = Some (s, d) -> length d = fold_right Nat.mul 1%nat s.
Proof.
  intros F z s d KZ PZ E. destruct z as [X|X|X|A|sh w|sh w|sh w]; cbn [dense_form floats] in E; try discriminate E.
  5-7: injection E as <- <-; rewrite ?map_length; exact (proj1 KZ).
  4: { injection E as <- <-. rewrite map_length. cbn [plain_shape] in PZ. clear - PZ. assert (H := PGroup.all_keys_length _ PZ). apply Nat2Z.inj. rewrite H. clear H. induction PZ as [|n sh Hn PZ IH]; [reflexivity|].
       cbn [cells fold_right map]. unfold cells in *. cbn [fold_right]. rewrite IH. lia. }
  all: injection E as <- <-; rewrite length_dense; cbn [fold_right]; lia.
Qed.

(** [==], [!=], [<], [<=], [>], [>=] of two objects, one of which may be a dense array (whose
    integers or booleans become floats): cell by cell, zeros included, the shapes broadcast
    against each other; shapes that do not broadcast raise. *)
Theorem C65_compare : forall (F : Fl) (e : Env F) h a b x y c, NLaws F -> reached h -> nth_error h a = Some x -> nth_error h b = Some y ->
  plain_shape x -> plain_shape y -> floats x = None \/ floats y = None ->
  exists sx dx sy dy, dense_form x = Some (sx, dx) /\ dense_form y = Some (sy, dy) /\
    length dx = fold_right Nat.mul 1%nat sx /\ length dy = fold_right Nat.mul 1%nat sy /\
    let S := broadcast_shape (map Z.of_nat sx) (map Z.of_nat sy) in
    (broadcastable (map Z.of_nat sx) (map Z.of_nat sy) ->
       exists sh r, step e h (Compare c a b) = Ok (h ++ [VBools sh r]) /\ map Z.of_nat sh = S /\ length r = fold_right Nat.mul 1%nat sh /\
         forall k, in_shape S k -> nth_error r (Z.to_nat (position S k)) = Some (holds c (array_at sx dx k) (array_at sy dy k))) /\
    (~ broadcastable (map Z.of_nat sx) (map Z.of_nat sy) -> step e h (Compare c a b) = Panic).
Proof.
  intros F e h a b x y c L R N M PX PY SP. assert (K := reached_nth h a x L R N). assert (K' := reached_nth h b y L R M).
  assert (ST : step e h (Compare c a b) = (let! v := do_compare c x y in Ok (h ++ [v]))) by (cbn [step exec]; rewrite (get_is _ _ _ N), (get_is _ _ _ M); reflexivity).
  rewrite ST. unfold do_compare. rewrite (densify_is x K PX), (densify_is y K' PY).
  assert (DF : forall z : value F, exists s d, dense_form z = Some (s, d)) by (intros []; eexists _, _; reflexivity).
  destruct (DF x) as (sx & dx & EX). destruct (DF y) as (sy & dy & EY). exists sx, dx, sy, dy. rewrite EX, EY.
  replace (sparse x || sparse y) with true by (destruct SP as [E|E]; [destruct x; try discriminate E; reflexivity|destruct y; try discriminate E; destruct x; reflexivity]).
  cbn [bind]. split; [reflexivity|]. split; [reflexivity|]. split; [exact (dense_form_length _ _ _ K PX EX)|]. split; [exact (dense_form_length _ _ _ K' PY EY)|].
  destruct (np_compare_is c sx dx sy dy) as [H1 H2]. split.
  - intros B. destruct (H1 B) as (sh & r & E & ES & LR & V). exists sh, r. rewrite E. split; [reflexivity|]. split; [exact ES|]. split; [exact LR|].
    intros k I. rewrite (V k I). destruct c; reflexivity.
  - intros B. rewrite (H2 B). reflexivity.
Qed.
Print Assumptions C65_compare.

(** Two equal shapes. *)
Theorem C65_compare_same_shape : forall (F : Fl) (e : Env F) h a b x y c s dx dy, NLaws F -> reached h -> nth_error h a = Some x -> nth_error h b = Some y ->
  plain_shape x -> plain_shape y -> floats x = None \/ floats y = None -> dense_form x = Some (s, dx) -> dense_form y = Some (s, dy) ->
  step e h (Compare c a b) = Ok (h ++ [VBools s (map (fun uv => holds c (fst uv) (snd uv)) (combine dx dy))]) /\ length dx = length dy.
Proof.
  intros F e h a b x y c s dx dy L R N M PX PY SP EX EY. assert (K := reached_nth h a x L R N). assert (K' := reached_nth h b y L R M).
  assert (ST : step e h (Compare c a b) = (let! v := do_compare c x y in Ok (h ++ [v]))) by (cbn [step exec]; rewrite (get_is _ _ _ N), (get_is _ _ _ M); reflexivity).
  assert (L1 := dense_form_length _ _ _ K PX EX). assert (L2 := dense_form_length _ _ _ K' PY EY). split; [|congruence].
  rewrite ST. unfold do_compare. rewrite (densify_is x K PX), (densify_is y K' PY), EX, EY.
  replace (sparse x || sparse y) with true by (destruct SP as [E|E]; [destruct x; try discriminate E; reflexivity|destruct y; try discriminate E; destruct x; reflexivity]).
  cbn [bind]. rewrite np_compare_same by auto. cbn [bind arr_new].
  rewrite (map_ext (fun ab => cmp_fun c (fst ab) (snd ab)) (fun uv => holds c (fst uv) (snd uv))) by (intros [u v]; destruct c; reflexivity). reflexivity.
Qed.
Print Assumptions C65_compare_same_shape.

(** [x[i, j]] of a CSR matrix; indices out of range, and the other classes, raise. *)
Theorem C65_getitem : forall (F : Fl) (e : Env F) h a x i j, NLaws F -> is_searchsorted (e_search e) -> reached h -> nth_error h a = Some x ->
  let inside := 0 <= i < Z.of_nat (fst (shape2 x)) /\ 0 <= j < Z.of_nat (snd (shape2 x)) in
  (class_of x = Some CsrClass -> inside -> step e h (GetItem a i j) = Ok (h ++ [VArr [] [SpecCall.cell x (Z.to_nat i) (Z.to_nat j)]])) /\
  (class_of x = Some CsrClass -> ~ inside -> step e h (GetItem a i j) = Panic) /\
  (class_of x <> Some CsrClass -> step e h (GetItem a i j) = Panic).
Proof.
  intros F e h a x i j L SS R N. assert (K := reached_nth h a x L R N). cbn [step exec]. rewrite (get_is _ _ _ N). cbn [bind]. split; [|split]; intros NC.
  - intros IN. destruct x as [X|X|X|A|sh d|? ?|? ?]; try discriminate NC. destruct (csr_held X K) as (C & _). cbn [do_getitem]. rewrite (proj1 (C44_getitem F (e_search e) (py_arrays X) i j SS C) IN). reflexivity.
  - intros IN. destruct x as [X|X|X|A|sh d|? ?|? ?]; try discriminate NC. destruct (csr_held X K) as (C & _). cbn [do_getitem]. rewrite (proj2 (C44_getitem F (e_search e) (py_arrays X) i j SS C) IN). reflexivity.
  - destruct x; try (exfalso; apply NC; reflexivity); reflexivity.
Qed.
Print Assumptions C65_getitem.

(** [x[i, :]]: the row for an index in range and an exception above it. Below 0 it is not
    Python's convention: -1 shows zeros and -k - 1 the k-th row from the end (C44). *)
Theorem C65_getrow : forall (F : Fl) (e : Env F) h a x i, NLaws F -> reached h -> nth_error h a = Some x ->
  let m := Z.of_nat (fst (shape2 x)) in let n := snd (shape2 x) in
  (class_of x = Some CsrClass ->
    (0 <= i < m -> step e h (GetRow a i) = Ok (h ++ [VArr [n] (map (SpecCall.cell x (Z.to_nat i)) (seq 0 n))])) /\
    (m <= i \/ i < - (m + 1) -> step e h (GetRow a i) = Panic) /\
    (i = -1 -> step e h (GetRow a i) = Ok (h ++ [VArr [n] (repeat f0 n)])) /\
    (- (m + 1) <= i <= -2 -> step e h (GetRow a i) = step e h (GetRow a (m + 1 + i)))) /\
  (class_of x <> Some CsrClass -> step e h (GetRow a i) = Panic).
Proof.
  intros F e h a x i L R N m n. assert (K := reached_nth h a x L R N). cbn [step exec]. rewrite (get_is _ _ _ N). cbn [bind].
  split; intros NC; [|destruct x; try (exfalso; apply NC; reflexivity); reflexivity].
  destruct x as [X|X|X|A|sh d|? ?|? ?]; try discriminate NC. destruct (csr_held X K) as (C & _). cbn [do_getrow shape2 fst snd] in *.
  assert (LP := ok_ptr_len _ (can_ok _ C)). unfold csr_nrows in m. split; [|split; [|split]].
  - intros H. rewrite (C44_getrow_partial F (py_arrays X) i C H). cbn [bind]. rewrite map_length, seq_length. reflexivity.
  - intros H. unfold csr_getrow. destruct H as [H|H]; [|rewrite py_get_outside by lia; reflexivity].
    rewrite (py_get_outside _ (i + 1)) by lia. destruct (Z.eq_dec i m) as [->|NE]; [|rewrite py_get_outside by lia; reflexivity].
    destruct (py_get_in (ptr (py_arrays X)) m) as (v & -> & _); [lia|]. reflexivity.
  - intros ->. unfold csr_getrow. rewrite py_get_wrap by lia. rewrite LP. replace (-1 + Z.of_nat (S (major (py_arrays X)))) with m by lia.
    destruct (py_get_in (ptr (py_arrays X)) m) as (v & E1 & V1); [lia|]. destruct (py_get_in (ptr (py_arrays X)) 0) as (w & E2 & V2); [lia|]. rewrite E1. cbn [bind]. change (-1 + 1) with 0. rewrite E2. cbn [bind].
    change (Z.to_nat 0) with 0%nat in V2. rewrite (ok_first _ (can_ok _ C)) in V2. injection V2 as <-. unfold m in V1. rewrite Nat2Z.id, (ok_last _ (can_ok _ C)) in V1. injection V1 as <-.
    rewrite !py_slice_rev by lia. cbn [np_assign np_values length combine foldM bind Nat.eqb]. rewrite repeat_length. reflexivity.
  - intros H. unfold csr_getrow. rewrite py_get_wrap by lia. rewrite (py_get_wrap _ (i + 1)) by lia. rewrite LP.
    replace (i + Z.of_nat (S (major (py_arrays X)))) with (m + 1 + i) by lia. replace (i + 1 + Z.of_nat (S (major (py_arrays X)))) with (m + 1 + i + 1) by lia. reflexivity.
Qed.
Print Assumptions C65_getrow.

(** [x[:, j]]: the column, zeros for an index out of range (C44). *)
Theorem C65_getcol : forall (F : Fl) (e : Env F) h a x j, NLaws F -> is_searchsorted (e_search e) -> reached h -> nth_error h a = Some x ->
  let m := fst (shape2 x) in let n := snd (shape2 x) in
  (class_of x = Some CsrClass ->
    (0 <= j < Z.of_nat n -> step e h (GetCol a j) = Ok (h ++ [VArr [m] (map (fun i => SpecCall.cell x i (Z.to_nat j)) (seq 0 m))])) /\
    (~ 0 <= j < Z.of_nat n -> step e h (GetCol a j) = Ok (h ++ [VArr [m] (repeat f0 m)]))) /\
  (class_of x <> Some CsrClass -> step e h (GetCol a j) = Panic).
Proof.
  intros F e h a x j L SS R N m n. assert (K := reached_nth h a x L R N). cbn [step exec]. rewrite (get_is _ _ _ N). cbn [bind].
  split; intros NC; [|destruct x; try (exfalso; apply NC; reflexivity); reflexivity].
  destruct x as [X|X|X|A|sh d|? ?|? ?]; try discriminate NC. destruct (csr_held X K) as (C & _). cbn [do_getcol shape2 fst snd] in *. split; intros H.
  - rewrite (C44_getcol_partial F (e_search e) (py_arrays X) j SS C H). cbn [bind]. rewrite map_length, seq_length. reflexivity.
  - rewrite csr_getcol_ok by auto. cbn [bind]. rewrite map_length, seq_length. fold m.
    replace (map (fun i => one_or f0 (cs_at (py_arrays X) i j)) (seq 0 m)) with (repeat (@f0 F) m); [reflexivity|]. rewrite <- (seq_length m 0) at 1. symmetry. 
    rewrite <- (map_const_repeat f0). apply map_ext_in. intros i I. apply in_seq in I. assert (B := row_bounds _ i (can_ok _ C) ltac:(unfold m, csr_nrows in I; lia)). unfold cs_at, at_index.
    replace (filter (fun e0 => fst e0 =? j) (cs_row (py_arrays X) i)) with (@nil (Z * F)); [reflexivity|]. symmetry. clear - B H. unfold in_bounds in B. unfold n, csr_ncols in H.
    induction B as [|p l HB B IH]; [reflexivity|]. cbn [filter]. destruct (Z.eqb_spec (fst p) j); [exfalso; lia|exact IH].
Qed.
Print Assumptions C65_getcol.

(** *** The theorems apply *)
Example C65_toarray_nonvacuous :
  step env2 state2 (ToArray 2) = Ok (state2 ++ [VArr [2; 3]%nat [fz 0; fz 0; fz (-1); fz 7; fz 0; fz 0]]) /\ step env2 state2 (ToArray 5) = Panic.
Proof.
  split.
  - rewrite (proj1 (C65_toarray _ env2 state2 2 (obj 2) (f64_laws pw0) state2_reached (obj_is 2 ltac:(lia))) ltac:(vm_compute; discriminate)).
    replace (shape2 (obj 2)) with (2, 3)%nat by (vm_compute; reflexivity). cbn [fst snd].
    replace (concat (dense 2 3 (shown (obj 2)))) with [fz 0; fz 0; fz (-1); fz 7; fz 0; fz 0] by (vm_compute; reflexivity). reflexivity.
  - apply (proj2 (C65_toarray _ env2 state2 5 (obj 5) (f64_laws pw0) state2_reached (obj_is 5 ltac:(lia)))). vm_compute. reflexivity.
Qed.

(** Two equal shapes; a (2, 3) matrix against a vector of three; (2, 3) against (3, 2); and
    (2, 3) against the N-D shape (2, 1, 3), which broadcasts to (2, 2, 3). *)
Lemma not_floats : forall a, match floats (obj a) with None => true | _ => false end = true -> floats (obj a) = None.
Proof. intros a H. destruct (floats (obj a)); [discriminate H|reflexivity]. Qed.
Lemma matrix_plain : forall a, match class_of (obj a) with None => false | _ => true end = true -> plain_shape (obj a).
Proof. intros a H. destruct (obj a); try exact I. discriminate H. Qed.
Example C65_compare_same_shape_nonvacuous :
  step env2 state3 (Compare CLt 0 1) = Ok (state3 ++ [VBools [2; 3]%nat [true; false; true; false; false; false]]).
Proof.
  pose proof (C65_compare_same_shape _ env2 state3 0 1 (obj 0) (obj 1) CLt [2; 3]%nat [fz 1; fz 0; fz (-2); fz 0; fz 4; fz 0] [fz 5; fz 0; fz 0; fz 0; fz 2; fz 0] (f64_laws pw0) state3_reached (obj3 0 ltac:(lia)) (obj3 1 ltac:(lia))
    (matrix_plain 0%nat ltac:(vm_compute; reflexivity)) (matrix_plain 1%nat ltac:(vm_compute; reflexivity)) (or_introl (not_floats 0%nat ltac:(vm_compute; reflexivity)))) as H.
  destruct H as [H _]; [vm_compute; reflexivity|vm_compute; reflexivity|].
  rewrite H. replace (map (fun uv : f64 pw0 * f64 pw0 => holds CLt (fst uv) (snd uv)) _) with [true; false; true; false; false; false] by (vm_compute; reflexivity). reflexivity.
Qed.
Lemma to_of_nat : forall l : list nat, map Z.to_nat (map Z.of_nat l) = l.
Proof. induction l as [|a l IH]; [reflexivity|]. cbn [map]. rewrite IH, Nat2Z.id. reflexivity. Qed.
Lemma bcast_2_1_3 : broadcastable [2; 3] [2; 1; 3].
Proof. repeat (constructor; [auto|]). constructor. Qed.
Lemma cell23 : forall i j, 0 <= i < 2 -> 0 <= j < 3 -> in_shape [2; 3] [i; j].
Proof. intros i j Hi Hj. assert (4 < i64_max) by reflexivity. repeat constructor; lia. Qed.
Example C65_compare_nonvacuous :
  (exists r, step env2 state3 (Compare CLt 0 7) = Ok (state3 ++ [VBools [2; 3]%nat r]) /\ nth_error r 0 = Some true /\ nth_error r 4 = Some false) /\
  step env2 state3 (Compare CLt 0 6) = Panic /\
  (exists r, step env2 state3 (Compare CEq 0 5) = Ok (state3 ++ [VBools [2; 2; 3]%nat r]) /\ length r = 12%nat).
Proof.
  assert (D0 : dense_form (obj 0) = Some ([2; 3]%nat, [fz 1; fz 0; fz (-2); fz 0; fz 4; fz 0])) by (vm_compute; reflexivity).
  assert (P0 := matrix_plain 0%nat ltac:(vm_compute; reflexivity)). assert (F0 := not_floats 0%nat ltac:(vm_compute; reflexivity)).
  split; [|split].
  - destruct (C65_compare _ env2 state3 0 7 (obj 0) _ CLt (f64_laws pw0) state3_reached (obj3 0 ltac:(lia)) (eq_trans (obj3 7 ltac:(lia)) (eq_trans (eq_sym (obj_is 7 ltac:(lia))) V7_is)) P0 I (or_introl F0))
      as (sx & dx & sy & dy & E1 & E2 & _ & _ & H & _). rewrite D0 in E1. injection E1 as <- <-. injection E2 as <- <-.
    destruct H as (sh & r & E & ES & LR & V); [repeat constructor; vm_compute; intros; lia|].
    assert (sh = [2; 3]%nat) as -> by (rewrite <- (to_of_nat sh), ES; reflexivity). exists r. split; [exact E|].
    split; [refine (eq_trans (V [0; 0] _) _); [apply cell23; lia|vm_compute; reflexivity]
    |refine (eq_trans (V [1; 1] _) _); [apply cell23; lia|vm_compute; reflexivity]].
  - assert (D6 : dense_form (obj 6) = Some ([3; 2]%nat, [fz 0; fz 7; fz 0; fz 0; fz (-1); fz 0])) by (vm_compute; reflexivity).
    destruct (C65_compare _ env2 state3 0 6 (obj 0) (obj 6) CLt (f64_laws pw0) state3_reached (obj3 0 ltac:(lia)) (obj3 6 ltac:(lia)) P0 (matrix_plain 6%nat ltac:(vm_compute; reflexivity)) (or_introl F0))
      as (sx & dx & sy & dy & E1 & E2 & _ & _ & _ & H). rewrite D0 in E1. rewrite D6 in E2. injection E1 as <- <-. injection E2 as <- <-.
    apply H. intros Q. vm_compute in Q. inversion Q. lia.
  - destruct (C65_compare _ env2 state3 0 5 (obj 0) (VNd N5) CEq (f64_laws pw0) state3_reached (obj3 0 ltac:(lia)) (eq_trans (obj3 5 ltac:(lia)) (eq_trans (eq_sym (obj_is 5 ltac:(lia))) N5_is)) P0 (proj2 N5_dims) (or_introl F0))
      as (sx & dx & sy & dy & E1 & E2 & _ & _ & H & _). rewrite D0 in E1. injection E1 as <- <-. cbn [dense_form] in E2. injection E2 as <- _.
    destruct H as (sh & r & E & ES & LR & V); [exact bcast_2_1_3|].
    assert (sh = [2; 2; 3]%nat) as -> by (rewrite <- (to_of_nat sh), ES; vm_compute; reflexivity). exists r. split; [exact E|]. rewrite LR. reflexivity.
Qed.

Lemma search2 : is_searchsorted (e_search env2).
Proof. exact searchsorted0. Qed.
Example C65_getitem_nonvacuous : step env2 state2 (GetItem 0 0 2) = Ok (state2 ++ [VArr [] [fz (-2)]]) /\ step env2 state2 (GetItem 0 1 0) = Ok (state2 ++ [VArr [] [fz 0]]) /\
  step env2 state2 (GetItem 0 (-1) 0) = Panic /\ step env2 state2 (GetItem 1 0 0) = Panic.
Proof.
  assert (G : forall i j, _) by (intros i j; exact (C65_getitem _ env2 state2 0 (obj 0) i j (f64_laws pw0) search2 state2_reached (obj_is 0 ltac:(lia)))).
  assert (S0 : shape2 (obj 0) = (2, 3)%nat) by (vm_compute; reflexivity). rewrite S0 in G. cbn [fst snd] in G. cbv zeta in G.
  split; [|split; [|split]].
  - rewrite (proj1 (G 0 2)); [|vm_compute; reflexivity|cbn; lia]. replace (SpecCall.cell (obj 0) (Z.to_nat 0) (Z.to_nat 2)) with (fz (-2)) by (vm_compute; reflexivity). reflexivity.
  - rewrite (proj1 (G 1 0)); [|vm_compute; reflexivity|cbn; lia]. replace (SpecCall.cell (obj 0) (Z.to_nat 1) (Z.to_nat 0)) with (fz 0) by (vm_compute; reflexivity). reflexivity.
  - apply (proj1 (proj2 (G (-1) 0))); [vm_compute; reflexivity|lia].
  - apply (C65_getitem _ env2 state2 1 (obj 1) 0 0 (f64_laws pw0) search2 state2_reached (obj_is 1 ltac:(lia))). vm_compute. discriminate.
Qed.

Example C65_getrow_nonvacuous : step env2 state2 (GetRow 0 1) = Ok (state2 ++ [VArr [3%nat] [fz 0; fz 4; fz 0]]) /\
  step env2 state2 (GetRow 0 (-2)) = Ok (state2 ++ [VArr [3%nat] [fz 0; fz 4; fz 0]]) /\ step env2 state2 (GetRow 0 (-1)) = Ok (state2 ++ [VArr [3%nat] [fz 0; fz 0; fz 0]]) /\ step env2 state2 (GetRow 0 2) = Panic.
Proof.
  assert (G : forall i, _) by (intros i; exact (proj1 (C65_getrow _ env2 state2 0 (obj 0) i (f64_laws pw0) state2_reached (obj_is 0 ltac:(lia))) ltac:(vm_compute; reflexivity))).
  assert (S0 : shape2 (obj 0) = (2, 3)%nat) by (vm_compute; reflexivity). rewrite S0 in G. cbn [fst snd] in G. cbv zeta in G.
  assert (G1 : step env2 state2 (GetRow 0 1) = Ok (state2 ++ [VArr [3%nat] [fz 0; fz 4; fz 0]])).
  { rewrite (proj1 (G 1)) by (cbn; lia). replace (map (SpecCall.cell (obj 0) (Z.to_nat 1)) (seq 0 3)) with [fz 0; fz 4; fz 0] by (vm_compute; reflexivity). reflexivity. }
  split; [exact G1|]. split; [|split].
  - destruct (G (-2)) as (_ & _ & _ & H). rewrite H by (cbn; lia). exact G1.
  - destruct (G (-1)) as (_ & _ & H & _). rewrite H by reflexivity. reflexivity.
  - destruct (G 2) as (_ & H & _). apply H. cbn. lia.
Qed.

Example C65_getcol_nonvacuous : step env2 state2 (GetCol 0 2) = Ok (state2 ++ [VArr [2%nat] [fz (-2); fz 0]]) /\ step env2 state2 (GetCol 0 (-1)) = Ok (state2 ++ [VArr [2%nat] [fz 0; fz 0]]) /\
  step env2 state2 (GetCol 2 0) = Panic.
Proof.
  assert (G : forall j, _) by (intros j; exact (proj1 (C65_getcol _ env2 state2 0 (obj 0) j (f64_laws pw0) search2 state2_reached (obj_is 0 ltac:(lia))) ltac:(vm_compute; reflexivity))).
  assert (S0 : shape2 (obj 0) = (2, 3)%nat) by (vm_compute; reflexivity). rewrite S0 in G. cbn [fst snd] in G. cbv zeta in G. split; [|split].
  - rewrite (proj1 (G 2)) by (cbn; lia). replace (map (fun i => SpecCall.cell (obj 0) i (Z.to_nat 2)) (seq 0 2)) with [fz (-2); fz 0] by (vm_compute; reflexivity). reflexivity.
  - rewrite (proj2 (G (-1))) by lia. reflexivity.
  - apply (C65_getcol _ env2 state2 2 (obj 2) 0 (f64_laws pw0) search2 state2_reached (obj_is 2 ltac:(lia))). vm_compute. discriminate.
Qed.
