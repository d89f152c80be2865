(** Property theorems: the product of a transposed matrix with a vector (C92). *)
Require Import List ZArith Bool Arith Lia QArith.
Require Import Coq.Floats.SpecFloat.
Require Import Verif.Res Verif.Values Verif.Spec Verif.Mem Verif.Laws Verif.Witness Verif.SpecReduce Verif.SpecPy Verif.MPy Verif.MObj Verif.SpecObj Verif.PObj Verif.PropObj Verif.SpecCall Verif.SpecCall2 Verif.SpecAccuracy Verif.PAccuracy Verif.PAccuracy2 Verif.PropCall Verif.PropCall4 Verif.PropAccuracy Verif.PropAccuracy5 Verif.PropFormat.
Import ListNotations.
Local Open Scope Z_scope.

(** [A.T @ v] and [vecdot(A, v, axis=0)], for integers whose products add up to at most 2^53 in
    absolute value: the same numbers. *)
Theorem C92_matmul : forall pw (e e1 e2 : Env (f64 pw)) (h h1 : list (value (f64 pw))) a b (x : value (f64 pw)) (values d : list (f64 pw)), fair e -> fair e1 -> fair e2 -> reached h ->
  let m := fst (shape2 x) in let n := snd (shape2 x) in
  nth_error h a = Some x -> nth_error h b = Some (VArr [m] d) -> class_of x <> None -> data_array x = Some values -> Forall integral values -> Forall integral d ->
  step e1 h (Unary UT a) = Ok h1 -> reached h1 -> demand h1 (Matmul (length h) b) < i64_max ->
  exists c c', step e h (Vecdot a b (Some 0)) = Ok (h ++ [VArr [n] c]) /\ step e2 h1 (Matmul (length h) b) = Ok (h1 ++ [VArr [n] c']) /\ length c = n /\ length c' = n /\
    forall j, (j < n)%nat -> let ps := products (fun j i => stored x i j) m d j in (magnitude ps <= inject_Z (2 ^ 53))%Q ->
      (number (nth j c f0) == total ps)%Q /\ (number (nth j c' f0) == total ps)%Q.
Proof.
  intros pw e e1 e2 h h1 a b x values d FE FE1 FE2 R m n N M NC ED IV ID E1 R1 DM. assert (NL := f64_laws pw). assert (D := stored_all _ x values _ ED IV).
  destruct (C83_vecdot pw e h a b x values d FE R N M NC ED IV ID) as (c & Ec & Lc & Vc). fold n in Ec, Lc, Vc. fold m in Vc.
  destruct (C60_transpose _ e1 h a x NL FE1 R N NC) as (z & En & Cn & Sn & Vn). rewrite En in E1. injection E1 as <-.
  assert (Nn : nth_error (h ++ [z]) (length h) = Some z) by (rewrite nth_error_app2, Nat.sub_diag by lia; reflexivity).
  assert (Mb : nth_error (h ++ [z]) b = Some (VArr [m] d)) by (rewrite nth_error_app1; [exact M|apply nth_error_Some; rewrite M; discriminate]).
  assert (NCz : class_of z <> None) by (rewrite Cn; exact NC).
  destruct (C64_matmul _ e2 _ _ b z (VArr [m] d) [m] d NL FE2 R1 Nn Mb eq_refl NCz DM) as (_ & _ & H1 & _). rewrite Sn in H1. cbn [fst snd] in H1. fold m n in H1, Sn.
  destruct (H1 eq_refl) as (c' & Ec' & Lc' & Vc'). exists c, c'. split; [exact Ec|]. split; [exact Ec'|]. split; [exact Lc|]. split; [exact Lc'|].
  intros j Hj ps B. split; [exact (proj2 (Vc j Hj B))|]. specialize (Vc' j Hj). unfold row_times in Vc'. rewrite Sn in Vc'. cbn [fst snd] in Vc'.
  assert (EP : products (stored z) m d j = ps).
  { unfold ps, products. rewrite !flat_map_concat_map. f_equal. apply map_ext_in. intros i Hi. apply in_seq in Hi. rewrite (Vn i j ltac:(lia) Hj). reflexivity. }
  assert (IC : int_cells pw (stored z) m j) by (intros i Hi; rewrite (Vn i j Hi Hj); apply D).
  rewrite <- EP in B |- *. apply (proj2 (A := integral (nth j c' (f0 : f64 pw)))).
  destruct z; try (exfalso; apply NCz; reflexivity); first [apply fma_integers; assumption|apply dot_integers; assumption].
Qed.
Print Assumptions C92_matmul.

(** [obj 2] has -1 and 7 as entries, the vector is [10 100]: the first number is 700. *)
Definition turned3 : list (value (f64 pw0)) := match step env2 state3 (Unary UT 2%nat) with Ok g => g | _ => [] end.
Lemma turned3_reached : step env2 state3 (Unary UT 2%nat) = Ok turned3 /\ reached turned3.
Proof.
  assert (O : (is_ok (step env2 state3 (Unary UT 2%nat)) && (demand state3 (Unary UT 2%nat) <? i64_max) && forallb fits turned3)%bool = true) by (vm_compute; reflexivity).
  apply andb_true_iff in O. destruct O as [O FT]. apply andb_true_iff in O. destruct O as [O D]. apply Z.ltb_lt in D.
  assert (E : step env2 state3 (Unary UT 2%nat) = Ok turned3) by (unfold turned3; destruct (step env2 state3 (Unary UT 2%nat)); [reflexivity|discriminate O..]).
  split; [exact E|]. apply (reached_call state3 env2 (Unary UT 2%nat) turned3 state3_reached env2_fair); [exact I|intros X; exact X|exact D|exact E|exact FT].
Qed.
Example C92_matmul_nonvacuous : exists c c', step env2 state3 (Vecdot 2 10 (Some 0)) = Ok (state3 ++ [VArr [3%nat] c]) /\ step env2 turned3 (Matmul 11 10) = Ok (turned3 ++ [VArr [3%nat] c']) /\
  (number (nth 0 c f0) == inject_Z 700)%Q /\ (number (nth 0 c' f0) == inject_Z 700)%Q.
Proof.
  destruct arr3 as (_ & _ & A10). destruct obj2_parts as (NC & DA & SH). destruct turned3_reached as [ET RT].
  assert (I2 : Forall integral [fz 10; fz 100]) by (repeat constructor; try (apply integral_fz; vm_compute; reflexivity); eexists; vm_compute; reflexivity).
  assert (LH : length state3 = 11%nat) by (vm_compute; reflexivity).
  destruct (C92_matmul pw0 env2 env2 env2 state3 turned3 2 10 (obj 2) [fz 7; fz (-1)] [fz 10; fz 100] env2_fair env2_fair env2_fair state3_reached (obj3 2 ltac:(lia))) as (c & c' & E & E' & L & L' & V);
    [rewrite SH; exact A10|exact NC|exact DA|exact (proj1 integrals)|exact I2|exact ET|exact RT|rewrite LH; vm_compute; reflexivity|].
  rewrite SH in E, E', V. rewrite LH in E'. cbn [fst snd] in E, E', V. exists c, c'. split; [exact E|]. split; [exact E'|]. specialize (V 0%nat ltac:(lia)). cbv zeta in V.
  assert (T : (total (products (fun j i => stored (obj 2) i j) 2 [fz 10; fz 100] 0) == inject_Z 700)%Q) by (vm_compute; reflexivity). rewrite T in V. apply V. vm_compute. discriminate.
Qed.
