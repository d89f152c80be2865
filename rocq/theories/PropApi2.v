(** The theorems of PropApi.v apply: concrete cases. *)
Require Import List ZArith Bool Arith Lia Permutation.
Require Import ZifyBool ZifyNat.
Require Import Verif.Res Verif.Values Verif.Spec Verif.Mem Verif.Lists Verif.CsLib Verif.Laws Verif.FloatFacts Verif.Witness Verif.PropLinalg Verif.PropScalar Verif.SpecReduce Verif.SpecPy Verif.MCore Verif.MPy Verif.PBroadcast Verif.PropPy2 Verif.PropStat Verif.MObj Verif.SpecObj Verif.PObj Verif.PropObj Verif.SpecCall Verif.SpecCall2 Verif.PCall Verif.PCall2 Verif.PCall3 Verif.PropCall Verif.PropCall2 Verif.PropCall3 Verif.PropCall4 Verif.PropCall5 Verif.PropCall7 Verif.MApi Verif.SpecApi Verif.PropApi.
Import ListNotations.
Local Open Scope Z_scope.

Lemma step_method : forall (F : Fl) (e : Env F) h c h', step e h c = Ok h' -> method e h c = Returns h'.
Proof. intros F e h c h' E. unfold method. rewrite E. reflexivity. Qed.
Lemma some_inj : forall (A : Type) (a b : A), Some a = Some b -> a = b.
Proof. intros A a b E. injection E as ->. reflexivity. Qed.
Definition kinds2 := [Matrix CsrClass; Matrix CscClass; Matrix CooClass; Matrix CsrClass; Matrix CsrClass; NdArray; Matrix CooClass; DenseArray 1].
Lemma kinds2_is : map (fun a => kind_of_value (obj a)) (seq 0 8) = kinds2.
Proof. vm_compute. reflexivity. Qed.
Lemma kind2 : forall a k, nth_error kinds2 a = Some k -> kind_of state2 (Ref a) = k.
Proof.
  intros a k E. assert (H : (a < 8)%nat) by (change 8%nat with (length kinds2); apply nth_error_Some; congruence). rewrite (kind_ref state2 a (obj a) (obj_is a H)).
  rewrite <- kinds2_is, nth_error_map in E. assert (S : nth_error (seq 0 8) a = Some a). { rewrite (nth_error_nth' _ 0%nat) by (rewrite seq_length; exact H). rewrite seq_nth by exact H. reflexivity. }
  rewrite S in E. apply some_inj. exact E.
Qed.

Example C68_supported_pairs_nonvacuous :
  call_api env2 state2 (ApiBinary BAdd (Ref 0) (Ref 1)) = IsNotImplemented /\ call_api env2 state2 (ApiBinary BDiv (Num (fz 2)) (Ref 0)) = IsNotImplemented /\
  call_api env2 state2 (ApiBinary BAdd (Ref 7) (Num (fz 2))) = AsksNumpy /\ call_api env2 state2 (ApiBinary BMul (Ref 5) (Num (fz 2))) = IsNotImplemented.
Proof.
  assert (K0 := kind2 0 _ eq_refl). assert (K1 := kind2 1 _ eq_refl). assert (K5 := kind2 5 _ eq_refl). assert (K7 := kind2 7 _ eq_refl).
  split; [|split; [|split]].
  - apply (C68_supported_pairs _ env2 state2 BAdd (Ref 0) (Ref 1)); rewrite K0, ?K1; [left|]; reflexivity.
  - apply (C68_supported_pairs _ env2 state2 BDiv (Num (fz 2)) (Ref 0)); rewrite K0; [right|]; reflexivity.
  - apply (C68_supported_pairs _ env2 state2 BAdd (Ref 7) (Num (fz 2))). rewrite K7. split; reflexivity.
  - apply (C68_supported_pairs _ env2 state2 BMul (Ref 5) (Num (fz 2))); rewrite K5; [left|]; reflexivity.
Qed.
Example C68_with_a_number_nonvacuous :
  (exists z, call_api env2 state2 (ApiBinary BFloorDiv (Ref 0) (Num (fz 3))) = Returns (state2 ++ [z]) /\ stored z 0 2 = [fz (-1)]) /\
  (exists z, call_api env2 state2 (ApiBinary BMul (Num (fz 3)) (Ref 1)) = Returns (state2 ++ [z]) /\ stored z 0 0 = [fz 15]) /\
  call_api env2 state2 (ApiBinary BMod (Ref 2) (Num (fz 0))) = Fails.
Proof.
  split; [|split].
  - destruct (C68_with_a_number _ env2 state2 0 (obj 0) BFloorDiv SFloorDiv (Num (fz 3)) (fz 3) (f64_laws pw0) state2_reached (obj_is 0 ltac:(lia)) ltac:(vm_compute; discriminate) eq_refl (or_introl eq_refl)) as (_ & H & _).
    destruct (H eq_refl) as (z & E & _ & _ & V). exists z. split; [exact E|]. rewrite V. vm_compute. reflexivity.
  - destruct (C68_with_a_number _ env2 state2 1 (obj 1) BMul SMul (Num (fz 3)) (fz 3) (f64_laws pw0) state2_reached (obj_is 1 ltac:(lia)) ltac:(vm_compute; discriminate) eq_refl (or_introl eq_refl)) as (_ & H & Q).
    destruct (H eq_refl) as (z & E & _ & _ & V). exists z. rewrite (Q eq_refl). split; [exact E|]. rewrite V. vm_compute. reflexivity.
  - apply (C68_with_a_number _ env2 state2 2 (obj 2) BMod SMod (Num (fz 0)) (fz 0) (f64_laws pw0) state2_reached (obj_is 2 ltac:(lia)) ltac:(vm_compute; discriminate) eq_refl (or_introl eq_refl)). reflexivity.
Qed.
Example C68_with_a_number_coond_nonvacuous : exists B, call_api env2 state2 (ApiBinary BMod (Ref 5) (Num (fz 4))) = Returns (state2 ++ [VNd B]) /\ nd_at B [1; 0; 0] = [fz 1].
Proof.
  destruct (C68_with_a_number_coond _ env2 state2 5 N5 BMod SMod (Num (fz 4)) (fz 4) (f64_laws pw0) state2_reached N5_is (proj2 N5_dims) eq_refl ltac:(discriminate) ltac:(discriminate) (or_introl eq_refl)) as (_ & H).
  destruct (H eq_refl) as (B & E & _ & _ & V). exists B. split; [exact E|]. rewrite V. vm_compute. reflexivity.
Qed.
Example C68_pairs_nonvacuous : exists z, call_api env2 state2 (ApiBinary BSub (Ref 0) (Ref 3)) = Returns (state2 ++ [z]) /\ feqv (SpecCall.cell z 0 0) (fz (-2)).
Proof.
  assert (S : shape2 (obj 0) = (2, 3)%nat /\ shape2 (obj 3) = (2, 3)%nat) by (split; vm_compute; reflexivity). destruct S as [S0 S3].
  destruct (C68_pairs _ env2 state2 0 3 (obj 0) (obj 3) BSub (f64_laws pw0) env2_fair state2_reached (obj_is 0 ltac:(lia)) (obj_is 3 ltac:(lia)) ltac:(vm_compute; reflexivity) ltac:(left; vm_compute; reflexivity)) as (_ & H).
  destruct H as (z & E & _ & _ & V); [rewrite S0, S3; reflexivity|]. exists z. split; [exact E|]. rewrite S0 in V.
  assert (V0 := V 0%nat 0%nat ltac:(cbn; lia) ltac:(cbn; lia)). cbn [sum_of] in V0.
  assert (EQ : fsub (SpecCall.cell (obj 0) 0 0) (SpecCall.cell (obj 3) 0 0) = fz (-2)) by (vm_compute; reflexivity). rewrite EQ in V0. exact V0.
Qed.
Example C68_multiply_coond_nonvacuous : exists C, call_api env2 state2 (ApiBinary BMul (Ref 5) (Ref 5)) = Returns (state2 ++ [VNd C]) /\ nd_at C [1; 0; 0] = [fz 9].
Proof.
  destruct C63_broadcast_nonvacuous as (C & E & V & _). exists C. split; [|exact V]. rewrite (C68_multiply_coond _ env2 state2 5 5 N5 N5 N5_is N5_is). apply step_method. exact E.
Qed.
Example C68_unary_nonvacuous :
  (exists z, call_api env2 state2 (ApiUnary UAbs (Ref 2)) = Returns (state2 ++ [z]) /\ stored z 0 2 = [fz 1]) /\
  (exists B, call_api env2 state2 (ApiUnary UNeg (Ref 5)) = Returns (state2 ++ [VNd B]) /\ nd_at B [1; 0; 0] = [fz 3]) /\
  call_api env2 state2 (ApiUnary USign (Ref 7)) = AsksNumpy.
Proof.
  split; [|split].
  - destruct (C68_unary _ env2 state2 UAbs (Ref 2)) as (_ & H). destruct (H 2%nat (obj 2) (f64_laws pw0) state2_reached eq_refl (obj_is 2 ltac:(lia)) eq_refl) as (H1 & _).
    destruct H1 as (z & E & _ & _ & V); [vm_compute; discriminate|]. exists z. split; [exact E|]. rewrite V. vm_compute. reflexivity.
  - destruct (C68_unary _ env2 state2 UNeg (Ref 5)) as (_ & H). destruct (H 5%nat (VNd N5) (f64_laws pw0) state2_reached eq_refl N5_is eq_refl) as (_ & H1).
    destruct (H1 N5 eq_refl (proj2 N5_dims)) as (B & E & _ & _ & V). exists B. split; [exact E|]. rewrite V. vm_compute. reflexivity.
  - apply (C68_unary _ env2 state2 USign (Ref 7)). rewrite (kind2 7 _ eq_refl). reflexivity.
Qed.
Example C68_compare_nonvacuous :
  call_api env2 state2 (ApiCompare CGe (Ref 0) (Num (fz 0))) = Returns (state2 ++ [VArr [] [fz 0]; VBools [2; 3]%nat [true; true; false; true; true; true]]).
Proof.
  assert (V : dense_form (obj 0) = Some ([2; 3]%nat, [fz 1; fz 0; fz (-2); fz 0; fz 4; fz 0])) by (vm_compute; reflexivity).
  assert (K : match kind_of_value (obj 0) with Matrix _ => true | _ => false end = true) by (vm_compute; reflexivity).
  destruct (C68_compare _ env2 state2 0 (obj 0) CGe (obj_is 0 ltac:(lia))) as (_ & H); [destruct (kind_of_value (obj 0)); try discriminate K; reflexivity|].
  refine (eq_trans (proj1 (H (fz 0) _ _ (f64_laws pw0) state2_reached _ V)) _); [destruct (obj 0); try exact I; discriminate K|]. reflexivity.
Qed.

Lemma kind3 : forall a k, nth_error (kinds2 ++ [DenseArray 2; DenseArray 3; DenseArray 1]) a = Some k -> kind_of state3 (Ref a) = k.
Proof.
  intros a k E. destruct (Nat.ltb_spec a 8) as [H|H].
  - rewrite nth_error_app1 in E by exact H. rewrite <- (kind2 a k E). rewrite (kind_ref state3 a (obj a) (obj3 a H)), (kind_ref state2 a (obj a) (obj_is a H)). reflexivity.
  - destruct arr3 as (A8 & A9 & A10). do 8 (destruct a as [|a]; [lia|]). destruct a as [|[|[|a]]]; cbn in E; try (destruct a; discriminate E); injection E as <-;
      [rewrite (kind_ref _ _ _ A8)|rewrite (kind_ref _ _ _ A9)|rewrite (kind_ref _ _ _ A10)]; reflexivity.
Qed.
Example C69_matmul_nonvacuous :
  (exists c, call_api env2 state3 (ApiMatmul (Ref 0) (Ref 7)) = Returns (state3 ++ [VArr [2%nat] c]) /\ nth 0 c f0 = fz 5) /\
  call_api env2 state3 (ApiMatmul (Ref 0) (Ref 1)) = IsNotImplemented /\ call_api env2 state3 (ApiMatmul (Ref 8) (Ref 0)) = IsNotImplemented /\
  call_api env2 state3 (ApiMatmul (Ref 8) (Ref 10)) = AsksNumpy.
Proof.
  assert (K0 := kind3 0 _ eq_refl). assert (K1 := kind3 1 _ eq_refl). assert (K7 := kind3 7 _ eq_refl). assert (K8 := kind3 8 _ eq_refl). assert (K10 := kind3 10 _ eq_refl).
  split; [|split; [|split]].
  - destruct C64_matmul_nonvacuous as ((c & E & V & _) & _). exists c. split; [|exact V]. rewrite (proj1 (C69_matmul _ env2 state3 (Ref 0) (Ref 7)) 0%nat 7%nat _ _ eq_refl eq_refl K0 K7). apply step_method. exact E.
  - apply (proj1 (proj2 (C69_matmul _ env2 state3 (Ref 0) (Ref 1)))); rewrite K0, K1; [left; reflexivity|]. intros (c & n & _ & Q). discriminate Q.
  - apply (proj1 (proj2 (C69_matmul _ env2 state3 (Ref 8) (Ref 0)))); rewrite K0, K8; [right; reflexivity|]. intros (c & n & Q & _). discriminate Q.
  - apply (proj2 (proj2 (C69_matmul _ env2 state3 (Ref 8) (Ref 10)))); rewrite ?K8, ?K10; reflexivity.
Qed.
Example C69_tensordot_nonvacuous :
  (exists R, call_api env2 state3 (ApiTensordot (Ref 1) (Ref 8) (AxesPair (Many [1]) (One 0))) = Returns (state3 ++ [VArr [2; 2]%nat R]) /\ FSum [fz 8] (nth 3 R f0)) /\
  call_api env2 state3 (ApiTensordot (Ref 1) (Ref 8) (AxesInt 2)) = IsNotImplemented /\ call_api env2 state3 (ApiTensordot (Ref 1) (Ref 8) (AxesPair (One (-1)) (One 0))) = IsNotImplemented /\
  call_api env2 state3 (ApiTensordot (Ref 8) (Ref 1) (AxesInt 1)) = IsNotImplemented.
Proof.
  assert (K1 := kind3 1 _ eq_refl). assert (K8 := kind3 8 _ eq_refl). cbn [nth_error kinds2 app] in K1, K8.
  assert (G : forall axes, _) by (intros axes; exact (proj2 (proj2 (C69_tensordot _ env2 state3 (Ref 1) (Ref 8) axes)) 1%nat 8%nat 2%nat eq_refl eq_refl (f_equal sparse_kind K1) K8)).
  split; [|split; [|split]].
  - destruct C64_tensordot_nonvacuous as ((R & E & V) & Q & _). exists R. rewrite Q in V. split; [|exact V].
    destruct (proj2 (proj2 (G (AxesPair (Many [1]) (One 0)))) (Many [1]) (One 0) 1 0 eq_refl (or_intror eq_refl) (or_introl eq_refl)) as (H & _). rewrite H; [apply step_method; exact E|auto].
  - apply (proj1 (proj2 (G (AxesInt 2))) 2); [reflexivity|discriminate].
  - destruct (proj2 (proj2 (G (AxesPair (One (-1)) (One 0)))) (One (-1)) (One 0) (-1) 0 eq_refl (or_introl eq_refl) (or_introl eq_refl)) as (_ & H). apply H. rewrite K1. intros (_ & [Q|Q]); discriminate Q.
  - apply (proj1 (proj2 (C69_tensordot _ env2 state3 (Ref 8) (Ref 1) (AxesInt 1)))); rewrite K8, ?K1; [right|left]; reflexivity.
Qed.

(** Refuted: the result of [tensordot(x, y, axes=(p, q))] has the axes of both operands except
    the contracted ones. [tensordot(A, B, axes=([1, 0], [0, 1]))], a number in NumPy, is the
    matrix product here. *)
Theorem C69_more_axes_refuted : ~ (forall (e : Env (f64 pw0)) h a b x sh d p q s r, fair e -> reached h -> nth_error h a = Some x -> class_of x <> None ->
  nth_error h b = Some (VArr sh d) -> length p = length q ->
  call_api e h (ApiTensordot (Ref a) (Ref b) (AxesPair (Many p) (Many q))) = Returns (h ++ [VArr s r]) -> (length s + 2 * length p = 2 + length sh)%nat).
Proof.
  intros H. destruct C69_tensordot_nonvacuous as ((R & E & _) & _). destruct arr3 as (A8 & _). assert (K1 := kind3 1 _ eq_refl). cbn [nth_error kinds2 app] in K1.
  specialize (H env2 state3 1%nat 8%nat (obj 1) _ _ [1; 0] [0; 1] [2; 2]%nat R env2_fair state3_reached (obj3 1 ltac:(lia)) ltac:(vm_compute; discriminate) A8 eq_refl).
  rewrite (C69_only_the_first_axes_count _ env2 state3 (Ref 1) (Ref 8) 1 0 [0] [1]) in H by (left; rewrite K1; reflexivity).
  change (call_api env2 state3 (ApiTensordot (Ref 1) (Ref 8) (AxesPair (Many [1]) (One 0)))) with (call_api env2 state3 (ApiTensordot (Ref 1) (Ref 8) (AxesPair (One 1) (One 0)))) in E.
  specialize (H E). discriminate H.
Qed.
Print Assumptions C69_more_axes_refuted.

Example C69_vecdot_nonvacuous :
  (exists c, call_api env2 state3 (ApiVecdot (Ref 1) (Ref 10) (Some 0)) = Returns (state3 ++ [VArr [3%nat] c]) /\ nth 0 c f0 = fz 50) /\
  call_api env2 state3 (ApiVecdot (Ref 1) (Ref 8) None) = IsNotImplemented /\ call_api env2 state3 (ApiVecdot (Ref 10) (Ref 1) None) = IsNotImplemented.
Proof.
  assert (K1 := kind3 1 _ eq_refl). assert (K8 := kind3 8 _ eq_refl). assert (K10 := kind3 10 _ eq_refl). cbn [nth_error kinds2 app] in K1, K8, K10. split; [|split].
  - destruct C64_vecdot_nonvacuous as ((c & E & V & _) & _). exists c. split; [|exact V].
    rewrite (proj1 (C69_vecdot _ env2 state3 (Ref 1) (Ref 10) (Some 0)) 1%nat 10%nat eq_refl eq_refl (f_equal sparse_kind K1) K10). apply step_method. exact E.
  - apply (proj1 (proj2 (C69_vecdot _ env2 state3 (Ref 1) (Ref 8) None))); rewrite K1, K8; [left; reflexivity|]. intros [_ Q]. discriminate Q.
  - apply (proj1 (proj2 (C69_vecdot _ env2 state3 (Ref 10) (Ref 1) None))); rewrite K1, K10; [right; reflexivity|]. intros [Q _]. discriminate Q.
Qed.
Example C69_matrix_transpose_nonvacuous : exists y, call_api env2 state2 (ApiMatrixTranspose (Ref 0)) = Returns (state2 ++ [y]) /\ stored y 2 0 = [fz (-2)].
Proof.
  assert (S0 : shape2 (obj 0) = (2, 3)%nat) by (vm_compute; reflexivity).
  destruct (C69_matrix_transpose _ env2 state2 0 (obj 0) (f64_laws pw0) env2_fair state2_reached (obj_is 0 ltac:(lia)) ltac:(vm_compute; discriminate)) as (y & E & _ & _ & V). exists y. split; [exact E|].
  rewrite S0 in V. refine (eq_trans (V 0%nat 2%nat _ _) _); [cbn; lia|cbn; lia|]. vm_compute. reflexivity.
Qed.

Example C70_nonvacuous : call_api env2 state2 (Other [Num (fz 1); Ref 5]) = IsNotImplemented /\ call_api env2 state2 (Other [Ref 7]) = AsksNumpy /\
  call_api env2 state2 (ApiBinary BAdd (Ref 7) (Num (fz 1))) = AsksNumpy.
Proof.
  split; [|split].
  - apply (C70_other_functions _ env2 state2 [Num (fz 1); Ref 5]). apply Exists_cons_tl, Exists_cons_hd. rewrite (kind2 5 _ eq_refl). reflexivity.
  - apply (C70_other_functions _ env2 state2 [Ref 7]). constructor; [|constructor]. rewrite (kind2 7 _ eq_refl). reflexivity.
  - apply C68_supported_pairs_nonvacuous.
Qed.
Example C70_exceptions_nonvacuous : call_api env2 state2 (ApiMatrixTranspose (Ref 5)) = AsksNumpy /\ call_api env2 state2 (Other [Items [0%nat]]) = AsksNumpy.
Proof. split; [exact (proj1 (proj1 (C70_exceptions_refuted _ env2 state2 5) N5 N5_is))|exact (proj2 (C70_exceptions_refuted _ env2 state2 0) (obj 0) (obj_is 0 ltac:(lia)))]. Qed.

Example C71_nonvacuous :
  call_api env2 state2 (ApiReduce RAny (Ref 1) (AxInt 0) false) = Returns (state2 ++ [VBools [3%nat] [true; true; false]]) /\
  (exists B, call_api env2 state2 (ApiReshape (Ref 5) [3; 2]) = Returns (state2 ++ [VNd B]) /\ nd_shape B = [3; 2]) /\
  call_api env2 state2 (ApiReshape (Ref 0) [3; 2]) = IsNotImplemented /\ call_api env2 state2 (ApiDiff (Ref 5) 1 (-1)) = IsNotImplemented.
Proof.
  split; [|split; [|split]].
  - rewrite (proj1 (proj1 (C71_one_argument _ env2 state2 1 (obj 1) (obj_is 1 ltac:(lia))) ltac:(vm_compute; discriminate))). apply step_method. apply C62_all_any_nonvacuous.
  - destruct C63_reshape_nonvacuous as (B & E & S & _). exists B. split; [|exact S]. destruct (proj2 (C71_one_argument _ env2 state2 5 (VNd N5) N5_is) N5 eq_refl) as (_ & _ & _ & _ & H). rewrite H. apply step_method. exact E.
  - destruct (proj1 (C71_one_argument _ env2 state2 0 (obj 0) (obj_is 0 ltac:(lia))) ltac:(vm_compute; discriminate)) as (_ & _ & _ & _ & H). apply H.
  - destruct (proj2 (C71_one_argument _ env2 state2 5 (VNd N5) N5_is) N5 eq_refl) as (_ & _ & H & _). apply H.
Qed.

Example C73_nonvacuous :
  (exists y, call_api env2 state2 (ApiZeros [2; 3] None) = Returns (state2 ++ [y]) /\ shape2 y = (2, 3)%nat) /\ call_api env2 state2 (ApiZeros [2] None) = Fails /\
  (exists y, call_api env2 state2 (ApiEye 3 (Some 3) 0 (Some Cpu)) = Returns (state2 ++ [y]) /\ stored y 1 1 = [f1]) /\ call_api env2 state2 (ApiEye 3 (Some 4) 0 None) = IsNotImplemented /\
  call_api env2 state2 (ApiAstype (Ref 0) true) = Returns (state2 ++ [obj 0]) /\ call_api env2 state2 (ApiAstype (Ref 1) true) = IsNotImplemented.
Proof.
  split; [|split; [|split; [|split; [|split]]]].
  - destruct (proj1 (C73_zeros _ env2 state2 [2; 3] None) 2 3 eq_refl ltac:(lia) ltac:(lia) ltac:(discriminate)) as (y & E & _ & S & _). exists y. split; [exact E|exact S].
  - apply (proj2 (C73_zeros _ env2 state2 [2] None)). left. intros (r & c & Q & _). discriminate Q.
  - destruct (proj1 (C73_eye _ env2 state2 3 (Some 3) 0 (Some Cpu)) ltac:(unfold i64_max; lia) ltac:(auto) eq_refl ltac:(discriminate)) as (y & E & _ & _ & V). exists y. split; [exact E|].
    rewrite V by (change (Z.to_nat 3) with 3%nat; lia). reflexivity.
  - apply (proj1 (proj2 (C73_eye _ env2 state2 3 (Some 4) 0 None))); [discriminate|]. left. intros [Q|Q]; discriminate Q.
  - apply (proj1 (C73_astype _ env2 state2 0 (obj 0) true (f64_laws pw0) state2_reached (obj_is 0 ltac:(lia)))); [vm_compute; reflexivity|reflexivity].
  - apply (proj1 (proj2 (proj2 (C73_astype _ env2 state2 1 (obj 1) true (f64_laws pw0) state2_reached (obj_is 1 ltac:(lia)))))).
    + rewrite <- (kind_ref state2 1 (obj 1) (obj_is 1 ltac:(lia))), (kind2 1 _ eq_refl). reflexivity.
    + vm_compute. discriminate.
Qed.

(** A program with a namespace call: [multiply(A, 3)]. *)
Definition view_fits (r : res (list (value (f64 pw0)))) : bool := match r with Ok h => forallb fits h | _ => true end.
Lemma multiply_within : calls_within env2 state2 [Scalar SMul 0 (fz 3)] /\ calls_allowed env2 state2 [Scalar SMul 0 (fz 3)].
Proof.
  assert (V : view_fits (step env2 state2 (Scalar SMul 0 (fz 3))) = true) by (vm_compute; reflexivity).
  split.
  - split; [split; [reflexivity|exact I]|]. intros h' E. rewrite E in V. split; [exact V|exact I].
  - split; [intros []|]. intros; exact I.
Qed.
Lemma multiply_dispatch : dispatch state2 (ApiBinary BMul (Ref 0) (Num (fz 3))) = Calls [Scalar SMul 0 (fz 3)].
Proof.
  destruct (is_kind state2 (Ref 0)) as (_ & X2 & _). rewrite (kind2 0 _ eq_refl) in X2. cbn [dispatch api_binary]. unfold api_multiply. rewrite X2. reflexivity.
Qed.
Example C72_nonvacuous : exists z, call_api env2 state2 (ApiBinary BMul (Ref 0) (Num (fz 3))) = Returns (state2 ++ [z]) /\ reached_with_functions (state2 ++ [z]) /\
  call_api env2 state2 (ApiBinary BMul (Ref 0) (Num (fz 3))) <> Crashes.
Proof.
  destruct (C68_with_a_number _ env2 state2 0 (obj 0) BMul SMul (Num (fz 3)) (fz 3) (f64_laws pw0) state2_reached (obj_is 0 ltac:(lia)) ltac:(vm_compute; discriminate) eq_refl (or_introl eq_refl)) as (_ & H & _).
  destruct (H eq_refl) as (z & E & _). exists z. split; [exact E|]. split; [|rewrite E; discriminate].
  destruct multiply_within as [W A]. apply (with_function state2 env2 _ _ _ (proj2 (C72_functions_add_no_states _ state2 (f64_laws pw0)) state2_reached) env2_fair multiply_dispatch W A E).
Qed.
Example C72_memory_safe_nonvacuous : exists h, run [] (map (fun c => (env2, c)) calls2) = Running h /\ call_api env2 h (ApiBinary BMul (Ref 0) (Num (fz 3))) <> Crashes.
Proof.
  exists state2. assert (R : run [] (map (fun c => (env2, c)) calls2) = Running state2).
  { assert (O : match objects (run [] (map (fun c => (env2, c)) calls2)) with Some _ => true | None => false end = true) by (vm_compute; reflexivity).
    destruct (objects (run [] (map (fun c => (env2, c)) calls2))) as [x|] eqn:EO; [|discriminate O]. destruct (objects_running _ _ EO) as (h & ER & EH). unfold state2. rewrite ER. reflexivity. }
  split; [exact R|]. apply (C72_memory_safe _ (map (fun c => (env2, c)) calls2) state2 env2 _ (f64_laws pw0)); [|exact R|exact env2_fair|].
  - apply Forall_forall. intros ec Hec. apply in_map_iff in Hec. destruct Hec as (c & <- & Hc). cbn [fst snd]. split; [apply env2_fair|]. cbn [calls2 In] in Hc.
    repeat (destruct Hc as [<-|Hc]; [cbn [valid_arguments]; try exact I|]); try contradiction.
    + split; [reflexivity|]. split; [repeat constructor; discriminate|left; reflexivity].
    + apply cs_ok_literal; reflexivity.
    + apply coo_ok_literal; reflexivity.
    + apply PropNd.nd_ok_literal; reflexivity.
  - intros cs D. rewrite multiply_dispatch in D. injection D as <-. apply multiply_within.
Qed.
Example C74_nonvacuous : get_num_threads (fold_left configure [SetThreads 8 0; SetThreads (-3) 0; SetVariable (MApi.Number 5)] (mkThreads 4 Unset)) = 5 /\
  get_num_threads (fold_left configure [SetThreads 8 0; SetThreads (-3) 0] (mkThreads 4 Unset)) = 8.
Proof. split; reflexivity. Qed.
