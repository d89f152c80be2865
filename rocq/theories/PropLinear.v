(** Property theorems: products with dense vectors are linear, and the two products of a matrix
    with vectors are adjoint to each other (C94). *)
Require Import List ZArith Bool Arith Lia QArith Lqa.
Require Import Coq.Floats.SpecFloat.
Require Import Verif.Res Verif.Values Verif.Spec Verif.Mem Verif.Laws Verif.Witness Verif.SpecReduce Verif.SpecPy Verif.MPy Verif.MObj Verif.SpecObj Verif.PObj Verif.PropObj Verif.SpecCall Verif.SpecCall2 Verif.SpecAccuracy Verif.PAccuracy Verif.PAccuracy2 Verif.PropCall Verif.PropCall4 Verif.PropAccuracy Verif.PropAccuracy5.
Import ListNotations.
Local Open Scope Z_scope.

(** *** Specification *)
(** The inner product of two lists of [n] doubles, exactly. *)
Definition inner (n : nat) (v w : list spec_float) : Q := total (map (fun k => number (nth k v (S754_zero false)) * number (nth k w (S754_zero false)))%Q (seq 0 n)).
(** [u] is [p * v + q * w]. *)
Definition combines (n : nat) (p q : Q) (v w u : list spec_float) : Prop :=
  forall k, (k < n)%nat -> (number (nth k u (S754_zero false)) == p * number (nth k v (S754_zero false)) + q * number (nth k w (S754_zero false)))%Q.
(** The terms of every number of a product are small enough for exact arithmetic. *)
Definition small (cell : nat -> nat -> list spec_float) (m n : nat) (v : list spec_float) : Prop := forall i, (i < m)%nat -> (magnitude (products cell n v i) <= inject_Z (2 ^ 53))%Q.

(** *** Proofs *)
Local Open Scope Q_scope.
Lemma sums_same : forall {J} (f g : J -> Q) l, (forall j, In j l -> f j == g j) -> total (map f l) == total (map g l).
Proof. intros J f g l H. induction l as [|a l IH]; [reflexivity|]. cbn [map]. change (f a + total (map f l) == g a + total (map g l)). rewrite (H a (or_introl eq_refl)), IH; [reflexivity|]. intros j Hj. apply H. right. exact Hj. Qed.
Lemma sums_plus : forall {J} (f g : J -> Q) l, total (map (fun j => f j + g j) l) == total (map f l) + total (map g l).
Proof. intros J f g l. induction l as [|a l IH]; [reflexivity|]. cbn [map]. change (f a + g a + total (map (fun j => f j + g j) l) == (f a + total (map f l)) + (g a + total (map g l))). rewrite IH. ring. Qed.
Lemma sums_times : forall {J} (q : Q) (f : J -> Q) l, total (map (fun j => q * f j) l) == q * total (map f l).
Proof. intros J q f l. induction l as [|a l IH]; [cbn; ring|]. cbn [map]. change (q * f a + total (map (fun j => q * f j) l) == q * (f a + total (map f l))). rewrite IH. ring. Qed.
Lemma sums_flat : forall {J} (f : J -> list Q) l, total (flat_map f l) == total (map (fun j => total (f j)) l).
Proof. intros J f l. induction l as [|a l IH]; [reflexivity|]. cbn [map flat_map]. rewrite total_app, IH. reflexivity. Qed.
Lemma sums_zero : forall {J} (l : list J), total (map (fun _ => 0) l) == 0.
Proof. intros J l. induction l as [|a l IH]; [reflexivity|]. cbn [map]. change (0 + total (map (fun _ => 0) l) == 0). rewrite IH. reflexivity. Qed.
Lemma sums_swap : forall {I J} (g : I -> J -> Q) (is : list I) (js : list J), total (map (fun i => total (map (g i) js)) is) == total (map (fun j => total (map (fun i => g i j) is)) js).
Proof.
  intros I J g is js. induction is as [|i is IH]; [cbn [map]; rewrite sums_zero; reflexivity|]. cbn [map].
  change (total (map (g i) js) + total (map (fun i => total (map (g i) js)) is) == total (map (fun j => g i j + total (map (fun i => g i j) is)) js)). rewrite sums_plus, IH. reflexivity.
Qed.
Lemma swapped : forall a b c : Q, a * (b * c) == b * (a * c).
Proof. intros. ring. Qed.
Lemma products_total : forall cell n v i, total (products cell n v i) == total (map (fun j => number (nth j v (S754_zero false)) * total (map number (cell i j))) (seq 0 n)).
Proof.
  intros cell n v i. unfold products. rewrite sums_flat. apply sums_same. intros j _. rewrite <- sums_times. apply sums_same. intros s _. ring.
Qed.
Local Open Scope Z_scope.

(** *** Properties *)
(** [A @ (p v + q w)] is [p (A @ v) + q (A @ w)]. *)
Theorem C94_linear : forall pw (e e' e'' : Env (f64 pw)) (h : list (value (f64 pw))) a b b' b'' (x : value (f64 pw)) (values v w u : list (f64 pw)) p q, fair e -> fair e' -> fair e'' -> reached h ->
  let m := fst (shape2 x) in let n := snd (shape2 x) in
  nth_error h a = Some x -> class_of x <> None -> data_array x = Some values -> Forall integral values ->
  nth_error h b = Some (VArr [n] v) -> nth_error h b' = Some (VArr [n] w) -> nth_error h b'' = Some (VArr [n] u) -> Forall integral v -> Forall integral w -> Forall integral u ->
  demand h (Matmul a b) < i64_max -> demand h (Matmul a b') < i64_max -> demand h (Matmul a b'') < i64_max ->
  small (stored x) m n v -> small (stored x) m n w -> small (stored x) m n u -> combines n p q v w u ->
  exists c c' c'', step e h (Matmul a b) = Ok (h ++ [VArr [m] c]) /\ step e' h (Matmul a b') = Ok (h ++ [VArr [m] c']) /\ step e'' h (Matmul a b'') = Ok (h ++ [VArr [m] c'']) /\
    length c = m /\ length c' = m /\ length c'' = m /\ combines m p q c c' c''.
Proof.
  intros pw e e' e'' h a b b' b'' x values v w u p q FE FE' FE'' R m n N NC ED IV Nv Nw Nu Iv Iw Iu Dv Dw Du Sv Sw Su CO.
  destruct (C83_matmul pw e h a b x (VArr [n] v) values [n] v FE R N Nv eq_refl NC Dv ED IV Iv) as (Hv & _). destruct (C83_matmul pw e' h a b' x (VArr [n] w) values [n] w FE' R N Nw eq_refl NC Dw ED IV Iw) as (Hw & _).
  destruct (C83_matmul pw e'' h a b'' x (VArr [n] u) values [n] u FE'' R N Nu eq_refl NC Du ED IV Iu) as (Hu & _).
  destruct (Hv eq_refl) as (c & E & L & V). destruct (Hw eq_refl) as (c' & E' & L' & V'). destruct (Hu eq_refl) as (c'' & E'' & L'' & V''). exists c, c', c''. do 6 (split; [assumption|]).
  intros i Hi. destruct (V i Hi (Sv i Hi)) as [_ T]. destruct (V' i Hi (Sw i Hi)) as [_ T']. destruct (V'' i Hi (Su i Hi)) as [_ T'']. change (S754_zero false) with (f0 : f64 pw) in *. rewrite T, T', T'', !products_total, <- !sums_times, <- sums_plus.
  apply sums_same. intros j Hj. apply in_seq in Hj. rewrite (CO j ltac:(lia)). ring.
Qed.
Print Assumptions C94_linear.

(** [w . (A @ v)] is [vecdot(A, w, axis=0) . v]. *)
Theorem C94_adjoint : forall pw (e e' : Env (f64 pw)) (h : list (value (f64 pw))) a b b' (x : value (f64 pw)) (values v w : list (f64 pw)), fair e -> fair e' -> reached h ->
  let m := fst (shape2 x) in let n := snd (shape2 x) in
  nth_error h a = Some x -> class_of x <> None -> data_array x = Some values -> Forall integral values ->
  nth_error h b = Some (VArr [n] v) -> nth_error h b' = Some (VArr [m] w) -> Forall integral v -> Forall integral w -> demand h (Matmul a b) < i64_max ->
  small (stored x) m n v -> small (fun j i => stored x i j) n m w ->
  exists c c', step e h (Matmul a b) = Ok (h ++ [VArr [m] c]) /\ step e' h (Vecdot a b' (Some 0)) = Ok (h ++ [VArr [n] c']) /\ length c = m /\ length c' = n /\ (inner m w c == inner n c' v)%Q.
Proof.
  intros pw e e' h a b b' x values v w FE FE' R m n N NC ED IV Nv Nw Iv Iw Dv Sv Sw.
  destruct (C83_matmul pw e h a b x (VArr [n] v) values [n] v FE R N Nv eq_refl NC Dv ED IV Iv) as (Hv & _). destruct (Hv eq_refl) as (c & E & L & V).
  destruct (C83_vecdot pw e' h a b' x values w FE' R N Nw NC ED IV Iw) as (c' & E' & L' & V'). exists c, c'. do 4 (split; [assumption|]). unfold inner. change (S754_zero false) with (f0 : f64 pw).
  rewrite (sums_same _ (fun i => total (map (fun j => number (nth i w (f0 : f64 pw)) * (number (nth j v (f0 : f64 pw)) * total (map number (stored x i j))))%Q (seq 0 n)))).
  - rewrite sums_swap. apply sums_same. intros j Hj. apply in_seq in Hj. destruct (V' j ltac:(lia) (Sw j ltac:(lia))) as [_ T]. rewrite T, products_total. eapply Qeq_trans; [|apply Qmult_comm]. rewrite <- sums_times. apply sums_same. intros i _. exact (swapped _ _ _).
  - intros i Hi. apply in_seq in Hi. destruct (V i ltac:(lia) (Sv i ltac:(lia))) as [_ T]. rewrite T, products_total, <- sums_times. reflexivity.
Qed.
Print Assumptions C94_adjoint.

(** *** The theorems apply *)
(** [obj 2], with entries -1 and 7, the vectors [1 2 3], [10 0 -1] and 2 [1 2 3] - 3 [10 0 -1];
    and [10 100] for the other side. *)
Definition vectors3 : list (value (f64 pw0)) := ((state3 ++ [VArr [3%nat] [fz 1; fz 2; fz 3]]) ++ [VArr [3%nat] [fz 10; fz 0; fz (-1)]]) ++ [VArr [3%nat] [fz (-28); fz 4; fz 9]].
Lemma vectors3_reached : reached vectors3.
Proof. unfold vectors3. do 3 (apply (reached_new_arr _ env2); [apply f64_laws|exact env2_fair| |reflexivity|reflexivity]). exact state3_reached. Qed.
Lemma vectors3_are : nth_error vectors3 2 = Some (obj 2) /\ nth_error vectors3 10 = Some (VArr [2%nat] [fz 10; fz 100]) /\ nth_error vectors3 11 = Some (VArr [3%nat] [fz 1; fz 2; fz 3]) /\
  nth_error vectors3 12 = Some (VArr [3%nat] [fz 10; fz 0; fz (-1)]) /\ nth_error vectors3 13 = Some (VArr [3%nat] [fz (-28); fz 4; fz 9]).
Proof.
  assert (L : length state3 = 11%nat) by (vm_compute; reflexivity). destruct arr3 as (_ & _ & A10). unfold vectors3. split; [|split].
  - rewrite !nth_error_app1 by (rewrite ?app_length, L; cbn [length]; lia). exact (obj3 2 ltac:(lia)).
  - rewrite !nth_error_app1 by (rewrite ?app_length, L; cbn [length]; lia). exact A10.
  - split; [|split].
    + rewrite !nth_error_app1 by (rewrite ?app_length, L; cbn [length]; lia). rewrite nth_error_app2, L by lia. reflexivity.
    + rewrite nth_error_app1 by (rewrite ?app_length, L; cbn [length]; lia). rewrite nth_error_app2, app_length, L by (rewrite app_length, L; cbn [length]; lia). reflexivity.
    + rewrite nth_error_app2, !app_length, L by (rewrite !app_length, L; cbn [length]; lia). reflexivity.
Qed.
Lemma integrals3 : Forall integral [fz 1; fz 2; fz 3] /\ Forall integral [fz 10; fz 0; fz (-1)] /\ Forall integral [fz (-28); fz 4; fz 9] /\ Forall integral [fz 10; fz 100].
Proof. repeat split; repeat constructor; try (apply integral_fz; vm_compute; reflexivity); eexists; vm_compute; reflexivity. Qed.
Lemma demands3 : (demand vectors3 (Matmul 2 11) <? i64_max) && (demand vectors3 (Matmul 2 12) <? i64_max) && (demand vectors3 (Matmul 2 13) <? i64_max) = true.
Proof. vm_compute. reflexivity. Qed.
Lemma small_2 : forall (v : list (f64 pw0)), (magnitude (products (stored (obj 2)) 3 v 0) <= inject_Z (2 ^ 53))%Q -> (magnitude (products (stored (obj 2)) 3 v 1) <= inject_Z (2 ^ 53))%Q -> small (stored (obj 2)) 2 3 v.
Proof. intros v H0 H1 [|[|i]] Hi; [exact H0|exact H1|lia]. Qed.
Lemma small_3 : small (stored (obj 2)) 2 3 [fz 1 : f64 pw0; fz 2; fz 3] /\ small (stored (obj 2)) 2 3 [fz 10 : f64 pw0; fz 0; fz (-1)] /\ small (stored (obj 2)) 2 3 [fz (-28) : f64 pw0; fz 4; fz 9] /\
  small (fun j i => stored (obj 2) i j) 3 2 [fz 10 : f64 pw0; fz 100] /\ combines 3 (inject_Z 2) (inject_Z (-3)) [fz 1 : f64 pw0; fz 2; fz 3] [fz 10 : f64 pw0; fz 0; fz (-1)] [fz (-28) : f64 pw0; fz 4; fz 9].
Proof.
  split; [apply small_2; vm_compute; discriminate|]. split; [apply small_2; vm_compute; discriminate|]. split; [apply small_2; vm_compute; discriminate|]. split.
  - intros [|[|[|k]]] Hk; [vm_compute; discriminate..|lia].
  - intros [|[|[|k]]] Hk; [vm_compute; reflexivity..|lia].
Qed.
Example C94_linear_nonvacuous : exists c c' c'', step env2 vectors3 (Matmul 2 11) = Ok (vectors3 ++ [VArr [2%nat] c]) /\ step env2 vectors3 (Matmul 2 12) = Ok (vectors3 ++ [VArr [2%nat] c']) /\
  step env2 vectors3 (Matmul 2 13) = Ok (vectors3 ++ [VArr [2%nat] c'']) /\ combines 2 (inject_Z 2) (inject_Z (-3)) c c' c''.
Proof.
  destruct obj2_parts as (NC & DA & SH). destruct vectors3_are as (N2 & _ & N11 & N12 & N13). destruct integrals3 as (I1 & I2 & I3 & _). destruct small_3 as (S1 & S2 & S3 & _ & CO).
  assert (D := demands3). apply andb_true_iff in D. destruct D as [D D3]. apply andb_true_iff in D. destruct D as [D1 D2]. apply Z.ltb_lt in D1, D2, D3.
  assert (H := C94_linear pw0 env2 env2 env2 vectors3 2 11 12 13 (obj 2) [fz 7; fz (-1)] [fz 1; fz 2; fz 3] [fz 10; fz 0; fz (-1)] [fz (-28); fz 4; fz 9] (inject_Z 2) (inject_Z (-3)) env2_fair env2_fair env2_fair vectors3_reached).
  rewrite SH in H. cbn [fst snd] in H. destruct (H N2 NC DA (proj1 integrals) N11 N12 N13 I1 I2 I3 D1 D2 D3 S1 S2 S3 CO) as (c & c' & c'' & E & E' & E'' & _ & _ & _ & C). exists c, c', c''. auto.
Qed.
Example C94_adjoint_nonvacuous : exists c c', step env2 vectors3 (Matmul 2 11) = Ok (vectors3 ++ [VArr [2%nat] c]) /\ step env2 vectors3 (Vecdot 2 10 (Some 0)) = Ok (vectors3 ++ [VArr [3%nat] c']) /\
  (inner 2 [fz 10 : f64 pw0; fz 100] c == inner 3 c' [fz 1 : f64 pw0; fz 2; fz 3])%Q.
Proof.
  destruct obj2_parts as (NC & DA & SH). destruct vectors3_are as (N2 & N10 & N11 & _). destruct integrals3 as (I1 & _ & _ & I4). destruct small_3 as (S1 & _ & _ & S4 & _).
  assert (D := demands3). apply andb_true_iff in D. destruct D as [D _]. apply andb_true_iff in D. destruct D as [D1 _]. apply Z.ltb_lt in D1.
  assert (H := C94_adjoint pw0 env2 env2 vectors3 2 11 10 (obj 2) [fz 7; fz (-1)] [fz 1; fz 2; fz 3] [fz 10; fz 100] env2_fair env2_fair vectors3_reached).
  rewrite SH in H. cbn [fst snd] in H. destruct (H N2 NC DA (proj1 integrals) N11 N10 I1 I4 D1 S1 S4) as (c & c' & E & E' & _ & _ & C). exists c, c'. auto.
Qed.
