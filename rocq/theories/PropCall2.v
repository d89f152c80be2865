(** Property theorems about single calls on the objects of a running program, continued:
    reductions (C62). *)
Require Import List ZArith Bool Arith Lia Permutation.
Require Import ZifyBool ZifyNat.
Require Import Verif.Res Verif.Values Verif.Spec Verif.Mem Verif.Lists Verif.Laws Verif.FloatFacts Verif.FloatPos Verif.Witness Verif.PropLinalg Verif.PropNd Verif.PGroup Verif.PropScalar Verif.PropStat Verif.SpecReduce Verif.SpecPy Verif.MReduce Verif.MPy Verif.PPy2 Verif.PropPy Verif.MObj Verif.SpecObj Verif.PObj Verif.PropObj Verif.SpecCall Verif.PCall Verif.PCall2 Verif.PCall3 Verif.PCall4 Verif.PropCall.
Import ListNotations.
Local Open Scope Z_scope.

(** sum, mean, prod, min, max, var and std of a CSR, CSC or COO matrix, for every [axis]
    and [keepdims]: the total, one value per column, or one per row. *)
Theorem C62_reductions : forall pw (e : Env (f64 pw)) h a x op, fair e -> reached h -> nth_error h a = Some x -> class_of x <> None ->
  numeric op = true -> can_reduce e op x ->
  let m := fst (shape2 x) in let n := snd (shape2 x) in
  exists total cols rows,
    reduces op (fun p => stored x (fst p) (snd p)) (grid m n) total /\
    length cols = n /\ (forall j, (j < n)%nat -> reduces op (fun i => stored x i j) (seq 0 m) (nth j cols f0)) /\
    length rows = m /\ (forall i, (i < m)%nat -> reduces op (fun j => stored x i j) (seq 0 n) (nth i rows f0)) /\
    forall axis kd, step e h (Reduce op a axis kd) = reduction_result VArr total cols rows axis kd h.
Proof.
  intros pw e h a x op FE R N NC NU CR m n. assert (K := reached_nth h a x (f64_laws pw) R N).
  destruct (do_reduce_is e FE op x K NC NU CR) as (w & pc & pr & T & E). destruct (three_2d _ _ _ _ _ _ _ _ T) as (t & cs & rs & H1 & H2 & H3 & H4 & H5 & H6).
  exists t, cs, rs. repeat (split; [assumption|]). intros axis kd. cbn [step exec]. rewrite (get_is _ _ _ N). cbn [bind]. rewrite E, H6. unfold reduction_result.
  destruct (reduction_2d t cs rs axis kd) as [[sh d]|]; reflexivity.
Qed.
Print Assumptions C62_reductions.

(** The mean of all cells of a matrix without cells raises. *)
Theorem C62_mean_of_nothing : forall pw (e : Env (f64 pw)) h a x, fair e -> reached h -> nth_error h a = Some x -> class_of x <> None ->
  fst (shape2 x) = 0%nat \/ snd (shape2 x) = 0%nat -> step e h (Reduce RMean a AxNone false) = Panic.
Proof.
  intros pw e h a x FE R N NC MN. assert (K := reached_nth h a x (f64_laws pw) R N). cbn [step exec]. rewrite (get_is _ _ _ N). cbn [bind].
  assert (G : forall w pc pr, (exists t, w = Ok t) -> mean_2d (F := f64 pw) w pc pr (fst (shape2 x)) (snd (shape2 x)) AxNone false = Panic).
  { intros w pc pr [t ->]. unfold mean_2d, reduce_2d. replace (fst (shape2 x) * snd (shape2 x))%nat with 0%nat by (destruct MN as [-> | ->]; lia). reflexivity. }
  destruct x as [X|X|X|X|? ?|? ?|? ?]; try (exfalso; apply NC; reflexivity); cbn [do_reduce shape2 fst snd] in *.
  - destruct (csr_held X K) as (C & U & P & _ & _ & _ & A1 & A2 & A3 & A4). unfold reduce_csr, on. rewrite U. cbn [bind]. rewrite G; [reflexivity|].
    destruct (csr_sum3 e FE _ C A1 A2 A4) as ((t & E & _) & _). eauto.
  - destruct (csc_held X K) as (C & _ & _ & U & P & _ & A1 & A2 & A3 & A4). unfold reduce_csc, on. rewrite U. cbn [bind]. rewrite G; [reflexivity|].
    destruct (csc_sum3 e FE _ C A1 A2 A4) as ((t & E & _) & _). eauto.
  - destruct (coo_held X K) as ([C SV] & U & P & _ & A1 & A2 & A3 & A4). unfold reduce_coo, on. rewrite U. cbn [bind]. rewrite G; [reflexivity|].
    destruct (coo_sum3 e FE _ C A1 A2) as ((t & E & _) & _). eauto.
Qed.
Print Assumptions C62_mean_of_nothing.

(** [all] and [any]. *)
Theorem C62_all_any : forall pw (e : Env (f64 pw)) h a x op, fair e -> reached h -> nth_error h a = Some x -> class_of x <> None -> op = RAll \/ op = RAny ->
  let m := fst (shape2 x) in let n := snd (shape2 x) in
  forall axis kd, step e h (Reduce op a axis kd) =
    reduction_result VBools (decides op (fun p => stored x (fst p) (snd p)) (grid m n))
      (map (fun j => decides op (fun i => stored x i j) (seq 0 m)) (seq 0 n)) (map (fun i => decides op (fun j => stored x i j) (seq 0 n)) (seq 0 m)) axis kd h.
Proof.
  intros pw e h a x op FE R N NC NU m n axis kd. assert (K := reached_nth h a x (f64_laws pw) R N).
  destruct (do_logic_is e FE op x K NC NU) as (w & pc & pr & T & E). destruct (three_2d _ _ _ _ _ _ _ _ T) as (t & cs & rs & H1 & H2 & H3 & H4 & H5 & H6).
  fold m in H1, H3, H4, H5. fold n in H1, H2, H3, H5. unfold dec in H1, H3, H5.
  assert (EC : cs = map (fun j => decides op (fun i => stored x i j) (seq 0 m)) (seq 0 n)).
  { apply (nth_ext _ _ false false); [rewrite map_length, seq_length; exact H2|]. intros j Hj. rewrite nth_seq_map by lia. apply H3. lia. }
  assert (ER : rs = map (fun i => decides op (fun j => stored x i j) (seq 0 n)) (seq 0 m)).
  { apply (nth_ext _ _ false false); [rewrite map_length, seq_length; exact H4|]. intros i Hi. rewrite nth_seq_map by lia. apply H5. lia. }
  rewrite <- EC, <- ER, <- H1. cbn [step exec]. rewrite (get_is _ _ _ N). cbn [bind]. rewrite E, H6. unfold reduction_result.
  destruct (reduction_2d t cs rs axis kd) as [[sh d]|]; reflexivity.
Qed.
Print Assumptions C62_all_any.

(** [count_nonzero] counts the stored entries. *)
Theorem C62_count_nonzero : forall pw (e : Env (f64 pw)) h a x, fair e -> reached h -> nth_error h a = Some x -> class_of x <> None ->
  let m := fst (shape2 x) in let n := snd (shape2 x) in
  forall axis kd, step e h (Reduce RCount a axis kd) =
    reduction_result VInts (counts (fun p => stored x (fst p) (snd p)) (grid m n))
      (map (fun j => counts (fun i => stored x i j) (seq 0 m)) (seq 0 n)) (map (fun i => counts (fun j => stored x i j) (seq 0 n)) (seq 0 m)) axis kd h.
Proof.
  intros pw e h a x FE R N NC m n axis kd. assert (K := reached_nth h a x (f64_laws pw) R N). cbn [step exec]. rewrite (get_is _ _ _ N). cbn [bind].
  rewrite do_count_is by auto. unfold stored_counts, reduction_result.
  change (reduction_2d (Z.of_nat (length (matrix_values (stored x) (fst (shape2 x)) (snd (shape2 x))))) _ _ axis kd) with
    (reduction_2d (counts (fun p => stored x (fst p) (snd p)) (grid m n)) (map (fun j => counts (fun i => stored x i j) (seq 0 m)) (seq 0 n))
       (map (fun i => counts (fun j => stored x i j) (seq 0 n)) (seq 0 m)) axis kd).
  destruct (reduction_2d _ _ _ axis kd) as [[sh d]|]; reflexivity.
Qed.
Print Assumptions C62_count_nonzero.

(** Non-vacuity: the theorems at the objects of [state2]. *)
Example C62_reductions_nonvacuous : can_reduce env2 RMin (obj 0) /\ can_reduce env2 RMean (obj 2) /\
  exists total cols rows, reduces RMin (fun i => stored (obj 0) i 2) (seq 0 2) (nth 2 cols f0) /\
    step env2 state2 (Reduce RMin 0 AxNone false) = Ok (state2 ++ [VArr [] [total]]) /\
    step env2 state2 (Reduce RMin 0 (AxInt 0) false) = Ok (state2 ++ [VArr [3%nat] cols]) /\
    step env2 state2 (Reduce RMin 0 (AxInt (-1)) true) = Ok (state2 ++ [VArr [2%nat; 1%nat] rows]) /\
    step env2 state2 (Reduce RMin 0 (AxInt 2) false) = Panic.
Proof.
  assert (C : can_reduce env2 RMin (obj 0)).
  { split; [exact (smin0_min)|]. split; [exact (smin0_min)|]. vm_compute. repeat constructor; discriminate. }
  split; [exact C|]. split; [split; vm_compute; discriminate|].
  destruct (C62_reductions pw0 env2 state2 0 (obj 0) RMin env2_fair state2_reached (obj_is 0 ltac:(lia)) ltac:(vm_compute; discriminate) eq_refl C) as (t & cs & rs & _ & L1 & V & L2 & _ & E).
  assert (S : shape2 (obj 0) = (2%nat, 3%nat)) by (vm_compute; reflexivity). rewrite S in *. cbn [fst snd] in *.
  exists t, cs, rs. split; [apply V; lia|]. rewrite !E, <- L1, <- L2. repeat split.
Qed.

(** A state whose only object has no rows. *)
Definition no_rows : list (value (f64 pw0)) := match step env2 [] (Zeros 0 3) with Ok h => h | _ => [] end.
Lemma no_rows_reached : reached no_rows /\ step env2 [] (Zeros 0 3) = Ok no_rows.
Proof.
  assert (E : step env2 [] (Zeros 0 3) = Ok no_rows) by (unfold no_rows, step, exec; cbn; reflexivity).
  split; [|exact E]. apply (reached_call [] env2 (Zeros 0 3)); [constructor|exact env2_fair|exact I|exact (fun H => H)|reflexivity|exact E|vm_compute; reflexivity].
Qed.
Example C62_mean_of_nothing_nonvacuous : step env2 no_rows (Reduce RMean 0 AxNone false) = Panic.
Proof.
  apply (C62_mean_of_nothing pw0 env2 no_rows 0 (nth 0 no_rows (VInts [] [])) env2_fair (proj1 no_rows_reached)).
  - apply nth_error_nth'. apply Nat.ltb_lt. vm_compute. reflexivity.
  - vm_compute. discriminate.
  - left. vm_compute. reflexivity.
Qed.

Example C62_all_any_nonvacuous : step env2 state2 (Reduce RAny 1 (AxInt 0) false) = Ok (state2 ++ [VBools [3%nat] [true; true; false]]) /\
  step env2 state2 (Reduce RAll 4 AxNone false) = Ok (state2 ++ [VBools [] [false]]).
Proof.
  rewrite (C62_all_any pw0 env2 state2 1 (obj 1) RAny env2_fair state2_reached (obj_is 1 ltac:(lia)) ltac:(vm_compute; discriminate) ltac:(auto)).
  rewrite (C62_all_any pw0 env2 state2 4 (obj 4) RAll env2_fair state2_reached (obj_is 4 ltac:(lia)) ltac:(vm_compute; discriminate) ltac:(auto)).
  unfold reduction_result. split.
  - match goal with |- context [reduction_2d ?t ?c ?r ?a ?k] => replace (reduction_2d t c r a k) with (Some ([3%nat], [true; true; false])) by (vm_compute; reflexivity) end. reflexivity.
  - match goal with |- context [reduction_2d ?t ?c ?r ?a ?k] => replace (reduction_2d t c r a k) with (Some (@nil nat, [false])) by (vm_compute; reflexivity) end. reflexivity.
Qed.

Example C62_count_nonzero_nonvacuous : step env2 state2 (Reduce RCount 1 (AxInt 1) true) = Ok (state2 ++ [VInts [2%nat; 1%nat] [2; 1]]).
Proof.
  rewrite (C62_count_nonzero pw0 env2 state2 1 (obj 1) env2_fair state2_reached (obj_is 1 ltac:(lia)) ltac:(vm_compute; discriminate)). unfold reduction_result.
  match goal with |- context [reduction_2d ?t ?c ?r ?a ?k] => replace (reduction_2d t c r a k) with (Some ([2%nat; 1%nat], [2; 1])) by (vm_compute; reflexivity) end. reflexivity.
Qed.
