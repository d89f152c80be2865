(** Property theorems: the rounding error of variances and standard deviations (C85). *)
Require Import List ZArith Bool Arith Lia Permutation QArith Qabs Qpower.
Require Import Coq.Floats.SpecFloat.
Require Import Verif.Res Verif.Values Verif.Spec Verif.Mem Verif.Laws Verif.Witness Verif.SpecReduce Verif.SpecPy Verif.MPy Verif.PPy Verif.PropPy2 Verif.MObj Verif.SpecObj Verif.PObj Verif.PropObj Verif.SpecCall Verif.SpecCall2 Verif.PropCall Verif.PropCall2 Verif.PropCall3 Verif.PropCall4 Verif.PropCall6.
Require Import Verif.SpecAccuracy Verif.FloatErr Verif.FloatValid Verif.FloatSqrt Verif.PAccuracy Verif.PAccuracy2 Verif.PAccuracy3 Verif.PAccuracy4 Verif.PAccuracy5 Verif.PropAccuracy Verif.PropAccuracy2.
Require Verif.PAcc Verif.PCall Verif.PCall3 Verif.PGroup.
Import ListNotations.
Local Open Scope Z_scope.

Lemma stored_one : forall pw (x : value (f64 pw)) i j, PCall.held x -> (i < fst (shape2 x))%nat -> (j < snd (shape2 x))%nat -> (length (stored x i j) <= 1)%nat.
Proof.
  intros pw x i j K Hi Hj. destruct x as [X|X|X|X|? ?|? ?|? ?]; cbn [stored shape2 fst snd] in *; try (cbn; lia).
  - destruct (PCall.csr_held X K) as (C & _). apply PGroup.canonical_single; auto.
  - destruct (PCall.csc_held X K) as (C & _). apply (PGroup.canonical_single _ C); auto.
  - destruct (PCall.coo_held X K) as ([C SV] & _). apply SV.
Qed.
Lemma flat_one : forall {J V} (cell : J -> list V) js, (forall j, In j js -> (length (cell j) <= 1)%nat) -> (length (flat_map cell js) <= length js)%nat.
Proof. intros J V cell js. induction js as [|j js IH]; intros H; [cbn; lia|]. cbn [flat_map length]. rewrite app_length. pose proof (H j (or_introl eq_refl)). specialize (IH ltac:(intros; apply H; right; auto)). lia. Qed.
Lemma root_of : forall w v : Q, (0 <= v)%Q -> ((1 - u) * (1 - u) * w <= v * v)%Q -> (v * v <= (1 + u) * (1 + u) * w)%Q -> root_within w v.
Proof.
  intros w v A B C. assert (SQ : forall q : Q, (q ^ 2 == q * q)%Q) by (intros q; reflexivity || (unfold Qpower, Qpower_positive; cbn; ring)). unfold root_within. rewrite !SQ. auto.
Qed.

Lemma not_negative : forall x, b64_finite x = true -> SFltb x (S754_zero false) = false -> (0 <= number x)%Q.
Proof.
  intros [s|s| |s m e] FI LT; try discriminate FI; [apply Qle_refl|]. destruct s; [discriminate LT|]. apply Qlt_le_weak, scaled_sign.
Qed.

(** ** C85: variances and standard deviations *)

(** [A.var(axis, correction)] of a matrix of at most 2^53 cells with finite doubles whose squares
    do not overflow, and an integer correction below the number of cells: the result is a finite
    double whose distance from the exact variance is at most a few roundings per stored value,
    relative to the mean square of the cells. *)
Theorem C85_vars : forall pw (e : Env (f64 pw)) (h : list (value (f64 pw))) a (x : value (f64 pw)) values (c : f64 pw) z, fair e -> reached h -> nth_error h a = Some x -> class_of x <> None ->
  data_array x = Some values -> Forall finite_double values -> finite_double c -> (number c == inject_Z z)%Q -> 0 <= z ->
  let m := fst (shape2 x) in let n := snd (shape2 x) in
  Z.of_nat m * Z.of_nat n <= 2 ^ 53 ->
  let close {J} (cell : J -> list (f64 pw)) (js : list J) (v : f64 pw) :=
    let l := map number (flat_map cell js) in let cells := Z.of_nat (length js) in
    z < cells -> roomy l -> finite_double v /\ (0 <= number v)%Q /\ var_within l (inject_Z cells) (inject_Z (cells - z)) (number v) in
  exists total cols rows,
    close (fun p => stored x (fst p) (snd p)) (grid m n) total /\
    length cols = n /\ (forall j, (j < n)%nat -> close (fun i => stored x i j) (seq 0 m) (nth j cols f0)) /\
    length rows = m /\ (forall i, (i < m)%nat -> close (fun j => stored x i j) (seq 0 n) (nth i rows f0)) /\
    forall axis kd, step e h (Reduce (RVar c) a axis kd) = reduction_result VArr total cols rows axis kd h.
Proof.
  intros pw e h a x values c z FE R N NC ED D0 DC NZ Z0 m n SZ close. assert (D := stored_all _ x values _ ED D0). assert (K := PCall3.reached_nth h a x (f64_laws pw) R N). assert (ONE := stored_one pw x).
  destruct (C62_reductions pw e h a x (RVar c) FE R N NC eq_refl I) as (t & cs & rs & H1 & H2 & H3 & H4 & H5 & H6). fold m n in H1, H2, H3, H4, H5, ONE.
  assert (G : forall J (cell : J -> list (f64 pw)) js v, (forall j, Forall finite_double (cell j)) -> (Z.of_nat (length js) <= 2 ^ 53) -> (length (flat_map cell js) <= length js)%nat ->
    reduces (RVar c) cell js v -> z < Z.of_nat (length js) -> roomy (map number (flat_map cell js)) ->
    finite_double v /\ (0 <= number v)%Q /\ var_within (map number (flat_map cell js)) (inject_Z (Z.of_nat (length js))) (inject_Z (Z.of_nat (length js) - z)) (number v)).
  { intros J cell js v HD LJ LF (NV & s & s2 & S1 & S2 & VF) ZJ RO. assert (HF : Forall finite_double (flat_map cell js)) by (apply Forall_flat_map, Forall_forall; auto).
    destruct (var_accurate pw (flat_map cell js) s s2 (Z.of_nat (length js)) z c v S1 S2 HF RO) as [A B]; auto; [lia|apply Nat2Z.inj_le; exact LF|]. split; [exact A|]. split; [|exact B].
    apply not_negative; [apply A|exact NV]. }
  exists t, cs, rs.
  assert (LG : length (grid m n) = (m * n)%nat) by (unfold grid; rewrite prod_length, !seq_length; reflexivity).
  split; [|split; [|split; [|split; [|split]]]]; auto.
  - intros l cells. apply G; auto; [rewrite LG; nia|]. apply flat_one. intros [i j] I. cbn [fst snd]. apply in_prod_iff in I. destruct I as [I1 I2]. apply in_seq in I1, I2. apply ONE; auto; lia.
  - intros j Hj l cells. apply G; auto; [rewrite seq_length; nia|]. apply flat_one. intros i I. apply in_seq in I. apply ONE; auto; lia.
  - intros i Hi l cells. apply G; auto; [rewrite seq_length; nia|]. apply flat_one. intros j I. apply in_seq in I. apply ONE; auto; lia.
Qed.
Print Assumptions C85_vars.

(** [A.std(axis, correction)]: the square root, up to one more rounding, of a number within that
    bound of the variance. *)
Theorem C85_stds : forall pw (e : Env (f64 pw)) (h : list (value (f64 pw))) a (x : value (f64 pw)) values (c : f64 pw) z, fair e -> reached h -> nth_error h a = Some x -> class_of x <> None ->
  data_array x = Some values -> Forall finite_double values -> finite_double c -> (number c == inject_Z z)%Q -> 0 <= z ->
  let m := fst (shape2 x) in let n := snd (shape2 x) in
  Z.of_nat m * Z.of_nat n <= 2 ^ 53 ->
  let close {J} (cell : J -> list (f64 pw)) (js : list J) (v : f64 pw) :=
    let l := map number (flat_map cell js) in let cells := Z.of_nat (length js) in
    z < cells -> roomy l -> finite_double v /\ exists w, (0 <= w)%Q /\ var_within l (inject_Z cells) (inject_Z (cells - z)) w /\ root_within w (number v) in
  exists total cols rows,
    close (fun p => stored x (fst p) (snd p)) (grid m n) total /\
    length cols = n /\ (forall j, (j < n)%nat -> close (fun i => stored x i j) (seq 0 m) (nth j cols f0)) /\
    length rows = m /\ (forall i, (i < m)%nat -> close (fun j => stored x i j) (seq 0 n) (nth i rows f0)) /\
    forall axis kd, step e h (Reduce (RStd c) a axis kd) = reduction_result VArr total cols rows axis kd h.
Proof.
  intros pw e h a x values c z FE R N NC ED D0 DC NZ Z0 m n SZ close. assert (D := stored_all _ x values _ ED D0). assert (K := PCall3.reached_nth h a x (f64_laws pw) R N). assert (ONE := stored_one pw x).
  destruct (C62_reductions pw e h a x (RStd c) FE R N NC eq_refl I) as (t & cs & rs & H1 & H2 & H3 & H4 & H5 & H6). fold m n in H1, H2, H3, H4, H5, ONE.
  assert (G : forall J (cell : J -> list (f64 pw)) js v, (forall j, Forall finite_double (cell j)) -> (Z.of_nat (length js) <= 2 ^ 53) -> (length (flat_map cell js) <= length js)%nat ->
    reduces (RStd c) cell js v -> z < Z.of_nat (length js) -> roomy (map number (flat_map cell js)) ->
    finite_double v /\ exists w, (0 <= w)%Q /\ var_within (map number (flat_map cell js)) (inject_Z (Z.of_nat (length js))) (inject_Z (Z.of_nat (length js) - z)) w /\ root_within w (number v)).
  { intros J cell js v HD LJ LF (w & -> & NV & s & s2 & S1 & S2 & VF) ZJ RO. assert (HF : Forall finite_double (flat_map cell js)) by (apply Forall_flat_map, Forall_forall; auto).
    destruct (var_accurate pw (flat_map cell js) s s2 (Z.of_nat (length js)) z c w S1 S2 HF RO) as [[A1 A2] B]; auto; [lia|apply Nat2Z.inj_le; exact LF|].
    destruct (sqrt_err w A1 A2 NV) as (Q1 & Q2 & Q3 & Q4 & Q5). split; [split; [exact Q1|exact Q2]|]. exists (number w). split; [apply not_negative; assumption|]. split; [exact B|]. apply root_of; assumption. }
  exists t, cs, rs.
  assert (LG : length (grid m n) = (m * n)%nat) by (unfold grid; rewrite prod_length, !seq_length; reflexivity).
  split; [|split; [|split; [|split; [|split]]]]; auto.
  - intros l cells. apply G; auto; [rewrite LG; nia|]. apply flat_one. intros [i j] I. cbn [fst snd]. apply in_prod_iff in I. destruct I as [I1 I2]. apply in_seq in I1, I2. apply ONE; auto; lia.
  - intros j Hj l cells. apply G; auto; [rewrite seq_length; nia|]. apply flat_one. intros i I. apply in_seq in I. apply ONE; auto; lia.
  - intros i Hi l cells. apply G; auto; [rewrite seq_length; nia|]. apply flat_one. intros j I. apply in_seq in I. apply ONE; auto; lia.
Qed.
Print Assumptions C85_stds.

(** *** The theorems apply *)
(** 0, 1, 2: the row [1 2 _ 3], whose third cell stores nothing,, in the three formats; 3: the row
    [2^27 2^27+1]; 4: a row of eight cells of which four store 2^510. *)
Definition p510 : f64 pw0 := S754_finite false 4503599627370496 458.
Definition calls7 : list (call (f64 pw0)) :=
  [NewCsr 1 4 [0; 3] [0; 1; 3] [fz 1; fz 2; fz 3] true;
   NewCsc 1 4 [0; 1; 2; 2; 3] [0; 0; 0] [fz 1; fz 2; fz 3] false;
   NewCoo 1 4 [0; 0; 0] [0; 1; 3] [fz 1; fz 2; fz 3] false;
   NewCsr 1 2 [0; 2] [0; 1] [fz (2 ^ 27); fz (2 ^ 27 + 1)] true;
   NewCsr 1 8 [0; 4] [0; 1; 2; 3] [p510; p510; p510; p510] true].
Definition state7 : list (value (f64 pw0)) :=
  match run [] (map (fun c => (env2, c)) calls7) with Running h => h | _ => [] end.
Lemma state7_reached : reached state7.
Proof.
  assert (O : match objects (run [] (map (fun c => (env2, c)) calls7)) with Some _ => true | None => false end = true) by (vm_compute; reflexivity).
  destruct (objects (run [] (map (fun c => (env2, c)) calls7))) as [x|] eqn:EO; [|discriminate O]. destruct (objects_running _ _ EO) as (h & ER & EH).
  unfold state7. rewrite ER. apply (C61_programs_reach _ (map (fun c => (env2, c)) calls7) h); [|exact ER].
  apply Forall_forall. intros ec Hec. apply in_map_iff in Hec. destruct Hec as (c & <- & Hc). cbn [fst snd]. split; [apply env2_fair|]. cbn [calls7 In] in Hc.
  repeat (destruct Hc as [<-|Hc]; [split; [|exact I]; cbn [regular_arguments]; try exact I|]); try contradiction.
  - split; [reflexivity|]. split; [repeat constructor; discriminate|left; reflexivity].
  - apply canonical_literal; reflexivity.
  - split; [apply coo_ok_literal; reflexivity|]. intros i j. unfold coo_at, at_cell, coo_entries. cbn [coo_row coo_col coo_data combine filter fst snd].
    repeat match goal with |- context [?x =? ?y] => destruct (Z.eqb_spec x y) end; cbn; lia.
  - split; [reflexivity|]. split; [repeat constructor; discriminate|left; reflexivity].
  - split; [reflexivity|]. split; [repeat constructor; discriminate|left; reflexivity].
Qed.
Definition obj7 (a : nat) : value (f64 pw0) := nth a state7 (VInts [] []).
Lemma obj7_is a : (a < 5)%nat -> nth_error state7 a = Some (obj7 a).
Proof. intros H. apply nth_error_nth'. assert (L : length state7 = 5%nat) by (vm_compute; reflexivity). rewrite L. exact H. Qed.
Lemma vals7 a : (a < 3)%nat -> class_of (obj7 a) <> None /\ shape2 (obj7 a) = (1, 4)%nat /\ data_array (obj7 a) = Some [fz 1; fz 2; fz 3] /\
  flat_map (fun p => stored (obj7 a) (fst p) (snd p)) (grid 1 4) = [fz 1; fz 2; fz 3].
Proof.
  intros H. assert (C : match class_of (obj7 a) with Some _ => true | None => false end = true) by (do 3 (destruct a as [|a]; [vm_compute; reflexivity|]); lia).
  split; [destruct (class_of (obj7 a)); [discriminate|discriminate C]|]. clear C.
  split; [do 3 (destruct a as [|a]; [vm_compute; reflexivity|]); lia|]. split; [do 3 (destruct a as [|a]; [vm_compute; reflexivity|]); lia|].
  do 3 (destruct a as [|a]; [vm_compute; reflexivity|]). lia.
Qed.
Lemma finites7 : Forall finite_double [fz 1; fz 2; fz 3].
Proof. repeat constructor. Qed.
Lemma roomy_by : forall l, (Z.of_nat (length l) <=? 2 ^ 51) = true -> Qle_bool (inject_Z (Z.of_nat (length l)) * squares l) ((2 # 1) ^ 1020) = true -> roomy l.
Proof. intros l A B. split; [apply Z.leb_le; exact A|apply Qle_bool_iff; exact B]. Qed.
(** Four cells 1, 2, 0, 3 with the divisor 3: the exact variance is 5/3. *)
Example C85_vars_nonvacuous : forall a, (a < 3)%nat -> exists t, step env2 state7 (Reduce (RVar (fz 1)) a AxNone false) = Ok (state7 ++ [VArr [] [t]]) /\
  finite_double t /\ var_within [number (fz 1); number (fz 2); number (fz 3)] 4 3 (number t) /\
  (spread [number (fz 1); number (fz 2); number (fz 3)] 4 / 3 == 5 # 3)%Q /\ ~ (number t == 5 # 3)%Q.
Proof.
  intros a Ha. destruct (vals7 a Ha) as (NC & SH & DA & ST). assert (N := obj7_is a ltac:(lia)).
  assert (H := C85_vars pw0 env2 state7 a (obj7 a) _ (fz 1) 1 env2_fair state7_reached N NC DA finites7 ltac:(split; reflexivity) ltac:(vm_compute; reflexivity) ltac:(lia)). cbv zeta in H. rewrite SH in H. cbn [fst snd] in H.
  destruct (H ltac:(vm_compute; discriminate)) as (t & cs & rs & T & _ & _ & _ & _ & E).
  exists t. specialize (E AxNone false). change (reduction_result VArr t cs rs AxNone false state7) with (Ok (state7 ++ [VArr [] [t]])) in E. split; [exact E|].
  rewrite ST in T. destruct (T ltac:(vm_compute; reflexivity) ltac:(apply roomy_by; vm_compute; reflexivity)) as (A & _ & B). split; [exact A|]. split; [exact B|]. split; [vm_compute; reflexivity|].
  assert (V : last_array (step env2 state7 (Reduce (RVar (fz 1)) a AxNone false)) = [S754_finite false 7505999378950827 (-52)]) by (clear - Ha; do 3 (destruct a as [|a]; [vm_compute; reflexivity|]); lia).
  rewrite E, last_array_is in V. assert (V' : (t : spec_float) = S754_finite false 7505999378950827 (-52)) by congruence. rewrite V'. vm_compute. discriminate.
Qed.
Example C85_stds_nonvacuous : forall a, (a < 3)%nat -> exists t w, step env2 state7 (Reduce (RStd (fz 1)) a AxNone false) = Ok (state7 ++ [VArr [] [t]]) /\
  finite_double t /\ var_within [number (fz 1); number (fz 2); number (fz 3)] 4 3 w /\ root_within w (number t).
Proof.
  intros a Ha. destruct (vals7 a Ha) as (NC & SH & DA & ST). assert (N := obj7_is a ltac:(lia)).
  assert (H := C85_stds pw0 env2 state7 a (obj7 a) _ (fz 1) 1 env2_fair state7_reached N NC DA finites7 ltac:(split; reflexivity) ltac:(vm_compute; reflexivity) ltac:(lia)). cbv zeta in H. rewrite SH in H. cbn [fst snd] in H.
  destruct (H ltac:(vm_compute; discriminate)) as (t & cs & rs & T & _ & _ & _ & _ & E).
  specialize (E AxNone false). change (reduction_result VArr t cs rs AxNone false state7) with (Ok (state7 ++ [VArr [] [t]])) in E.
  rewrite ST in T. destruct (T ltac:(vm_compute; reflexivity) ltac:(apply roomy_by; vm_compute; reflexivity)) as (A & w & _ & B & C). exists t, w. auto.
Qed.

(** A variance is not accurate relative to itself: the cells 2^27 and 2^27+1 have variance 1/4,
    the result is 0. *)
Theorem C85_relative_refuted : exists (e : Env (f64 pw0)) (h : list (value (f64 pw0))) a (x : value (f64 pw0)) (values : list (f64 pw0)), fair e /\ reached h /\ nth_error h a = Some x /\ data_array x = Some values /\ Forall finite_double values /\ roomy (map number values) /\
  stored x 0 0 = [fz (2 ^ 27)] /\ stored x 0 1 = [fz (2 ^ 27 + 1)] /\ shape2 x = (1, 2)%nat /\ step e h (Reduce (RVar f0) a AxNone false) = Ok (h ++ [VArr [] [f0]]) /\
  (spread [number (fz (2 ^ 27)); number (fz (2 ^ 27 + 1))] 2 / 2 == 1 # 4)%Q.
Proof.
  exists env2, state7, 3%nat, (obj7 3), [fz (2 ^ 27); fz (2 ^ 27 + 1)]. split; [exact env2_fair|]. split; [exact state7_reached|]. split; [apply obj7_is; lia|]. split; [vm_compute; reflexivity|].
  split; [repeat constructor|]. split; [apply roomy_by; vm_compute; reflexivity|]. split; [vm_compute; reflexivity|]. split; [vm_compute; reflexivity|]. split; [vm_compute; reflexivity|]. split; [|vm_compute; reflexivity].
  assert (NC : class_of (obj7 3) <> None) by (vm_compute; discriminate).
  destruct (C62_reductions pw0 env2 state7 3 (obj7 3) (RVar (f0 : f64 pw0)) env2_fair state7_reached (obj7_is 3 ltac:(lia)) NC eq_refl I) as (t & cs & rs & _ & _ & _ & _ & _ & E).
  specialize (E AxNone false). change (reduction_result VArr t cs rs AxNone false state7) with (Ok (state7 ++ [VArr [] [t]])) in E.
  assert (V : last_array (step env2 state7 (Reduce (RVar (f0 : f64 pw0)) 3 AxNone false)) = [S754_zero false]) by (vm_compute; reflexivity).
  rewrite E, last_array_is in V. assert (V' : (t : spec_float) = S754_zero false) by congruence. assert (V2 : t = (f0 : f64 pw0)) by exact V'. rewrite E, V2. reflexivity.
Qed.
Print Assumptions C85_relative_refuted.

(** Without the bound on the squares the result can be finite and wrong: four of eight cells hold
    2^510, the variance is 2^1018, a double. The square of the sum overflows, the difference
    is minus infinity, and the result is 0. *)
Theorem C85_overflow_refuted : exists (e : Env (f64 pw0)) (h : list (value (f64 pw0))) a (x : value (f64 pw0)) (values : list (f64 pw0)), fair e /\ reached h /\ nth_error h a = Some x /\ data_array x = Some values /\ Forall finite_double values /\
  (forall j, (j < 8)%nat -> stored x 0 j = if (j <? 4)%nat then [p510] else []) /\ shape2 x = (1, 8)%nat /\ (number p510 == (2 # 1) ^ 510)%Q /\ step e h (Reduce (RVar f0) a AxNone false) = Ok (h ++ [VArr [] [f0]]) /\
  (spread [number p510; number p510; number p510; number p510] 8 / 8 == (2 # 1) ^ 1018)%Q.
Proof.
  exists env2, state7, 4%nat, (obj7 4), [p510; p510; p510; p510]. split; [exact env2_fair|]. split; [exact state7_reached|]. split; [apply obj7_is; lia|]. split; [vm_compute; reflexivity|].
  split; [repeat constructor|]. split; [intros j Hj; do 8 (destruct j as [|j]; [vm_compute; reflexivity|]); lia|]. split; [vm_compute; reflexivity|]. split; [vm_compute; reflexivity|]. split; [|vm_compute; reflexivity].
  assert (NC : class_of (obj7 4) <> None) by (vm_compute; discriminate).
  destruct (C62_reductions pw0 env2 state7 4 (obj7 4) (RVar (f0 : f64 pw0)) env2_fair state7_reached (obj7_is 4 ltac:(lia)) NC eq_refl I) as (t & cs & rs & _ & _ & _ & _ & _ & E).
  specialize (E AxNone false). change (reduction_result VArr t cs rs AxNone false state7) with (Ok (state7 ++ [VArr [] [t]])) in E.
  assert (V : last_array (step env2 state7 (Reduce (RVar (f0 : f64 pw0)) 4 AxNone false)) = [S754_zero false]) by (vm_compute; reflexivity).
  rewrite E, last_array_is in V. assert (V' : (t : spec_float) = S754_zero false) by congruence. assert (V2 : t = (f0 : f64 pw0)) by exact V'. rewrite E, V2. reflexivity.
Qed.
Print Assumptions C85_overflow_refuted.
