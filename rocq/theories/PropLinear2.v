(** Property theorems: the product of a sum of matrices with a vector (C94). *)
Require Import List ZArith Bool Arith Lia QArith Lqa.
Require Import Coq.Floats.SpecFloat.
Require Import Verif.Res Verif.Values Verif.Spec Verif.Mem Verif.Laws Verif.Witness Verif.SpecReduce Verif.SpecPy Verif.MPy Verif.MObj Verif.SpecObj Verif.PObj Verif.PropObj Verif.SpecCall Verif.SpecCall2 Verif.SpecAccuracy Verif.PAccuracy Verif.PAccuracy2 Verif.PropCall Verif.PropCall4 Verif.PropAccuracy Verif.PropAccuracy3 Verif.PropAccuracy4 Verif.PropAccuracy5 Verif.PropFormat Verif.PropLinear.
Require Verif.PCall3.
Import ListNotations.
Local Open Scope Z_scope.

Lemma one_total : forall l : list spec_float, (length l <= 1)%nat -> (total (map number l) == number (one_or (S754_zero false) l))%Q.
Proof. intros [|v [|? ?]] L; [reflexivity|cbn; ring|cbn in L; lia]. Qed.
Lemma scaled : forall w z x y s : Q, (z == x + s * y)%Q -> (w * z == 1 * (w * x) + s * (w * y))%Q.
Proof. intros w z x y s ->. ring. Qed.
Lemma cell_int : forall pw (x : value (f64 pw)) i j, Forall integral (stored x i j) -> exists k, (number (cell x i j) == inject_Z k)%Q.
Proof. intros pw x i j H. unfold cell. destruct (stored x i j) as [|v l]; [exists 0; reflexivity|]. inversion H as [|? ? [_ [k K]] _]; subst. exists k. exact K. Qed.

(** [(A + B) @ v] is [A @ v + B @ v], and so for differences: [s] is 1 or -1. *)
Theorem C94_sum : forall pw (e e' e'' e1 : Env (f64 pw)) (h : list (value (f64 pw))) a a' b op s (x y z : value (f64 pw)) (vx vy v : list (f64 pw)), fair e -> fair e' -> fair e'' -> fair e1 -> reached h ->
  op = BAdd /\ s = 1%Q \/ op = BSub /\ s = (-1 # 1)%Q ->
  let m := fst (shape2 x) in let n := snd (shape2 x) in
  nth_error h a = Some x -> nth_error h a' = Some y -> nth_error h b = Some (VArr [n] v) -> class_of x = class_of y -> class_of x = Some CsrClass \/ class_of x = Some CscClass -> shape2 x = shape2 y ->
  data_array x = Some vx -> Forall integral vx -> Forall finite_double vx -> data_array y = Some vy -> Forall integral vy -> Forall finite_double vy -> Forall integral v ->
  step e1 h (Binary op a a') = Ok (h ++ [z]) -> reached (h ++ [z]) ->
  (forall i j k l, (i < m)%nat -> (j < n)%nat -> (number (cell x i j) == inject_Z k)%Q -> (number (cell y i j) == inject_Z l)%Q -> fits op k l) ->
  demand h (Matmul a b) < i64_max -> demand h (Matmul a' b) < i64_max -> demand (h ++ [z]) (Matmul (length h) b) < i64_max ->
  small (stored x) m n v -> small (stored y) m n v -> small (stored z) m n v ->
  exists c c' c'', step e h (Matmul a b) = Ok (h ++ [VArr [m] c]) /\ step e' h (Matmul a' b) = Ok (h ++ [VArr [m] c']) /\ step e'' (h ++ [z]) (Matmul (length h) b) = Ok ((h ++ [z]) ++ [VArr [m] c'']) /\
    length c = m /\ length c' = m /\ length c'' = m /\ combines m 1 s c c' c''.
Proof.
  intros pw e e' e'' e1 h a a' b op s x y z vx vy v FE FE' FE'' FE1 R OP m n Na Na' Nb CE BC SE Dx Ix Fx Dy Iy Fy Iv E1 R1 FT M1 M2 M3 Sx Sy Sz. assert (NL := f64_laws pw).
  assert (NCx : class_of x <> None) by (destruct BC as [-> | ->]; discriminate). assert (NCy : class_of y <> None) by congruence.
  assert (Kx := PCall3.reached_nth h a x NL R Na). assert (Ky := PCall3.reached_nth h a' y NL R Na').
  assert (Jx := stored_all _ x vx _ Dx Ix). assert (Jy := stored_all _ y vy _ Dy Iy).
  assert (SG : exists g, sum_of (F := f64 pw) op = Some g) by (destruct OP as [[-> _]|[-> _]]; eexists; reflexivity). destruct SG as [g SG].
  destruct (C60_sums_entries pw e1 h a a' x y op g FE1 R Na Na' CE BC SG SE) as (z0 & E0 & Cz & Shz & Vz). rewrite E1 in E0. injection E0 as E0. apply app_inv_head in E0. injection E0 as <-.
  destruct (C87_operators pw e1 h a a' x y vx vy op FE1 R Na Na' CE BC SE Dx Fx Dy Fy) as (z1 & E2 & Wz). rewrite E1 in E2. specialize (E2 ltac:(destruct OP as [[-> _]|[-> _]]; discriminate)). injection E2 as E2. apply app_inv_head in E2. injection E2 as <-.
  fold m n in Vz, Wz.
  assert (CELL : forall i j, (i < m)%nat -> (j < n)%nat -> integral (cell z i j) /\ (number (cell z i j) == number (cell x i j) + s * number (cell y i j))%Q).
  { intros i j Hi Hj. destruct (cell_int pw x i j (Jx i j)) as [k Hk]. destruct (cell_int pw y i j (Jy i j)) as [l Hl]. destruct (Wz i j k l Hi Hj Hk Hl (FT i j k l Hi Hj Hk Hl)) as [[_ F1] W].
    split; [split; [exact F1|eexists; exact W]|]. rewrite W, Hk, Hl. destruct OP as [[-> ->]|[-> ->]]; cbn [integer_result]; [rewrite inject_Z_plus; ring|]. unfold Z.sub. rewrite inject_Z_plus, inject_Z_opp. ring. }
  assert (ONEz : forall i j, (i < m)%nat -> (j < n)%nat -> (length (stored z i j) <= 1)%nat) by (intros i j Hi Hj; rewrite (Vz i j Hi Hj); destruct (feqb _ _); cbn; lia).
  assert (Iz : forall i j, (i < m)%nat -> (j < n)%nat -> Forall integral (stored z i j)).
  { intros i j Hi Hj. assert (G := proj1 (CELL i j Hi Hj)). assert (L := ONEz i j Hi Hj). unfold cell in G. destruct (stored z i j) as [|w [|? ?]]; [constructor|constructor; [exact G|constructor]|cbn in L; lia]. }
  destruct (C83_matmul pw e h a b x (VArr [n] v) vx [n] v FE R Na Nb eq_refl NCx M1 Dx Ix Iv) as (Hx & _). destruct (Hx eq_refl) as (c & Ec & Lc & Vc).
  destruct (C83_matmul pw e' h a' b y (VArr [n] v) vy [n] v FE' R Na' Nb eq_refl NCy M2 Dy Iy Iv) as (Hy & _). rewrite <- SE in Hy. fold m n in Hy. destruct (Hy eq_refl) as (c' & Ec' & Lc' & Vc').
  assert (Nz : nth_error (h ++ [z]) (length h) = Some z) by (rewrite nth_error_app2, Nat.sub_diag by lia; reflexivity).
  assert (Mb : nth_error (h ++ [z]) b = Some (VArr [n] v)) by (rewrite nth_error_app1; [exact Nb|apply nth_error_Some; rewrite Nb; discriminate]).
  assert (NCz : class_of z <> None) by congruence.
  destruct (C64_matmul _ e'' _ _ b z (VArr [n] v) [n] v NL FE'' R1 Nz Mb eq_refl NCz M3) as (_ & _ & H1 & _). rewrite Shz in H1. fold m n in H1. destruct (H1 eq_refl) as (c'' & Ec'' & Lc'' & Vc'').
  exists c, c', c''. do 6 (split; [assumption|]). intros i Hi.
  assert (T'' : (number (nth i c'' (f0 : f64 pw)) == total (products (stored z) n v i))%Q).
  { apply (proj2 (A := integral (nth i c'' (f0 : f64 pw)))). specialize (Vc'' i Hi). unfold row_times in Vc''. rewrite Shz in Vc''. fold n in Vc''. specialize (Sz i Hi).
    assert (IC : int_cells pw (stored z) n i) by (intros j Hj; apply Iz; assumption).
    destruct z; try (exfalso; apply NCz; reflexivity); first [apply fma_integers; assumption|apply dot_integers; assumption]. }
  destruct (Vc i Hi (Sx i Hi)) as [_ T]. destruct (Vc' i Hi (Sy i Hi)) as [_ T']. change (S754_zero false) with (f0 : f64 pw) in *. rewrite T, T', T'', !products_total, <- !sums_times. fold n. rewrite <- sums_plus.
  apply sums_same. intros j Hj. apply in_seq in Hj. assert (Hn : (j < n)%nat) by lia.
  rewrite (one_total (stored z i j)) by (apply ONEz; assumption). rewrite (one_total (stored x i j)) by (apply stored_one; assumption).
  rewrite (one_total (stored y i j)) by (apply stored_one; [exact Ky|rewrite <- SE; assumption..]).
  assert (G := proj2 (CELL i j Hi Hn)). exact (scaled _ _ _ _ _ G).
Qed.
Print Assumptions C94_sum.

(** The matrices of [by_rows], [1 0 -2; 0 4 0] and [3 5 0; 0 -1 0], and the vector [1 2 3]: the
    products are [-5 8] and [13 -2], those of the sum [8 6]. *)
Definition pair_v : list (value (f64 pw0)) := heap_of by_rows ++ [VArr [3%nat] [fz 1; fz 2; fz 3]].
Lemma pair_v_reached : reached pair_v.
Proof. unfold pair_v. apply (reached_new_arr _ env2); [apply f64_laws|exact env2_fair| |reflexivity|reflexivity]. apply heap_reached. auto. Qed.
Definition sum_v : value (f64 pw0) := match step env2 pair_v (Binary BAdd 0 1) with Ok g => nth 3 g (VInts [] []) | _ => VInts [] [] end.
Lemma sum_v_is : step env2 pair_v (Binary BAdd 0 1) = Ok (pair_v ++ [sum_v]) /\ reached (pair_v ++ [sum_v]).
Proof.
  assert (O : (is_ok (step env2 pair_v (Binary BAdd 0 1)) && (demand pair_v (Binary BAdd 0 1) <? i64_max) && forallb MObj.fits (pair_v ++ [sum_v]))%bool = true) by (vm_compute; reflexivity).
  apply andb_true_iff in O. destruct O as [O FT]. apply andb_true_iff in O. destruct O as [O D]. apply Z.ltb_lt in D.
  assert (L : length pair_v = 3%nat) by (vm_compute; reflexivity).
  assert (E : step env2 pair_v (Binary BAdd 0 1) = Ok (pair_v ++ [sum_v])).
  { unfold sum_v. cbn [step] in O |- *. destruct (exec env2 pair_v (Binary BAdd 0 1)) as [r| | |]; try discriminate O. cbn [bind]. rewrite app_nth2, L by lia. reflexivity. }
  split; [exact E|]. apply (reached_call pair_v env2 (Binary BAdd 0 1) _ pair_v_reached env2_fair); [exact I|intros X; exact X|exact D|exact E|exact FT].
Qed.
Notation first_v := (nth 0 pair_v (VInts [] [])).
Notation second_v := (nth 1 pair_v (VInts [] [])).
Lemma pair_v_are : shape2 first_v = (2, 3)%nat /\ shape2 second_v = (2, 3)%nat /\ class_of first_v = Some CsrClass /\ class_of second_v = Some CsrClass /\
  data_array first_v = Some [fz 1; fz (-2); fz 4] /\ data_array second_v = Some [fz 3; fz 5; fz (-1)].
Proof. repeat split; vm_compute; reflexivity. Qed.
Lemma pair_v_ints : Forall integral [fz 1; fz (-2); fz 4] /\ Forall integral [fz 3; fz 5; fz (-1)] /\ Forall integral [fz 1; fz 2; fz 3] /\ Forall finite_double [fz 1; fz (-2); fz 4] /\ Forall finite_double [fz 3; fz 5; fz (-1)].
Proof.
  repeat split; repeat constructor; try (apply integral_fz; vm_compute; reflexivity); try (vm_compute; reflexivity); eexists; vm_compute; reflexivity.
Qed.
Lemma pair_v_fits : forall i j k l, (i < 2)%nat -> (j < 3)%nat -> (number (cell first_v i j) == inject_Z k)%Q -> (number (cell second_v i j) == inject_Z l)%Q -> Z.abs (k + l) <= 2 ^ 53.
Proof.
  intros i j k l Hi Hj Hk Hl.
  assert (C : exists k0 l0, (number (cell first_v i j) == inject_Z k0)%Q /\ (number (cell second_v i j) == inject_Z l0)%Q /\ Z.abs (k0 + l0) <= 2 ^ 53).
  { destruct i as [|[|i]]; [| |lia]; (destruct j as [|[|[|j]]]; [| | |lia]);
      [exists 1, 3|exists 0, 5|exists (-2), 0|exists 0, 0|exists 4, (-1)|exists 0, 0]; (split; [vm_compute; reflexivity|]); (split; [vm_compute; reflexivity|]); vm_compute; discriminate. }
  destruct C as (k0 & l0 & K & L & B). rewrite K in Hk. rewrite L in Hl. apply (proj1 (inject_Z_injective _ _)) in Hk. apply (proj1 (inject_Z_injective _ _)) in Hl. subst k l. exact B.
Qed.
Lemma small_rows : forall (c : nat -> nat -> list spec_float) v, (magnitude (products c 3 v 0) <= inject_Z (2 ^ 53))%Q -> (magnitude (products c 3 v 1) <= inject_Z (2 ^ 53))%Q -> small c 2 3 v.
Proof. intros c v H0 H1 [|[|i]] Hi; [exact H0|exact H1|lia]. Qed.
Lemma pair_v_small : small (stored first_v) 2 3 [fz 1 : f64 pw0; fz 2; fz 3] /\ small (stored second_v) 2 3 [fz 1 : f64 pw0; fz 2; fz 3] /\ small (stored sum_v) 2 3 [fz 1 : f64 pw0; fz 2; fz 3].
Proof. split; [|split]; apply small_rows; vm_compute; discriminate. Qed.
Lemma pair_v_demand : (demand pair_v (Matmul 0 2) <? i64_max) && (demand pair_v (Matmul 1 2) <? i64_max) && (demand (pair_v ++ [sum_v]) (Matmul 3 2) <? i64_max) = true.
Proof. vm_compute. reflexivity. Qed.
Example C94_sum_nonvacuous : exists c c' c'', step env2 pair_v (Matmul 0 2) = Ok (pair_v ++ [VArr [2%nat] c]) /\ step env2 pair_v (Matmul 1 2) = Ok (pair_v ++ [VArr [2%nat] c']) /\
  step env2 (pair_v ++ [sum_v]) (Matmul 3 2) = Ok ((pair_v ++ [sum_v]) ++ [VArr [2%nat] c'']) /\ combines 2 1 1 c c' c''.
Proof.
  destruct pair_v_are as (S1 & S2 & C1 & C2 & D1 & D2). destruct pair_v_ints as (I1 & I2 & I3 & F1 & F2). destruct pair_v_small as (B1 & B2 & B3). destruct sum_v_is as [E1 R1].
  assert (D := pair_v_demand). apply andb_true_iff in D. destruct D as [D Q3]. apply andb_true_iff in D. destruct D as [Q1 Q2]. apply Z.ltb_lt in Q1, Q2, Q3.
  assert (L : length pair_v = 3%nat) by (vm_compute; reflexivity).
  assert (N0 : nth_error pair_v 0 = Some first_v) by (apply nth_error_nth'; lia). assert (N1 : nth_error pair_v 1 = Some second_v) by (apply nth_error_nth'; lia).
  assert (N2 : nth_error pair_v 2 = Some (VArr [3%nat] [fz 1; fz 2; fz 3])).
  { unfold pair_v. assert (L2 : length (heap_of by_rows) = 2%nat) by (vm_compute; reflexivity). rewrite nth_error_app2, L2 by lia. reflexivity. }
  assert (H := C94_sum pw0 env2 env2 env2 env2 pair_v 0 1 2 BAdd 1 first_v second_v sum_v [fz 1; fz (-2); fz 4] [fz 3; fz 5; fz (-1)] [fz 1; fz 2; fz 3] env2_fair env2_fair env2_fair env2_fair pair_v_reached (or_introl (conj eq_refl eq_refl))).
  rewrite S1, S2, L in H. cbn [fst snd] in H.
  destruct (H N0 N1 N2 ltac:(congruence) (or_introl C1) eq_refl D1 I1 F1 D2 I2 F2 I3 E1 R1 pair_v_fits Q1 Q2 Q3 B1 B2 B3) as (c & c' & c'' & E & E' & E'' & _ & _ & _ & C). exists c, c', c''. auto.
Qed.
