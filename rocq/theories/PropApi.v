(** Property theorems about the functions of the namespace [lacuna.array_api]: C68
    (elementwise functions), C69 (linear algebra), C70 (what is handed to NumPy), C71
    (functions of one array), C72 (programs that use functions), C73 (creation functions,
    astype), C74 (thread settings). *)
Require Import List ZArith Bool Arith Lia Permutation.
Require Import ZifyBool ZifyNat.
Require Import Verif.Res Verif.Values Verif.Spec Verif.Mem Verif.Lists Verif.CsLib Verif.Laws Verif.FloatFacts Verif.Witness Verif.PropLinalg Verif.PropScalar Verif.SpecReduce Verif.SpecPy Verif.MCore Verif.MPy Verif.PBroadcast Verif.PropPy2 Verif.PropStat Verif.MObj Verif.SpecObj Verif.PObj Verif.PropObj Verif.SpecCall Verif.SpecCall2 Verif.PCall Verif.PCall2 Verif.PCall3 Verif.PropCall Verif.PropCall3 Verif.PropCall4 Verif.PropCall5 Verif.PropCall7 Verif.MApi Verif.SpecApi.
Import ListNotations.
Local Open Scope Z_scope.

Section Helpers.
Context {F : Fl}.
Implicit Types (h : list (value F)) (x y : operand F).
Lemma is_kind : forall h x,
  is sparse h x = sparse_kind (kind_of h x) /\ is is_matrix h x = match kind_of h x with Matrix _ => true | _ => false end /\
  is csr h x = match kind_of h x with Matrix CsrClass => true | _ => false end /\
  is csc h x = match kind_of h x with Matrix CscClass => true | _ => false end /\
  is coond h x = match kind_of h x with NdArray => true | _ => false end /\
  is ndarray h x = match kind_of h x with DenseArray _ => true | _ => false end /\
  is vector h x = match kind_of h x with DenseArray 1 => true | _ => false end /\
  (match number h x with Some _ => true | None => false end) = match kind_of h x with ANumber => true | _ => false end.
Proof.
  intros h x. destruct x as [a|v|l|]; try (repeat split; reflexivity). unfold is, kind_of, number. destruct (nth_error h a) as [v|]; [|repeat split; reflexivity].
  destruct v as [X|X|X|A|[|n [|]] d|[|n [|]] d|[|n [|]] d]; try (repeat split; reflexivity); destruct d as [|? [|]]; repeat split; reflexivity.
Qed.
Lemma number_denotes : forall h x v, denotes h x v -> number h x = Some v.
Proof.
  intros h x v [->|(a & y & -> & N & E)]; [reflexivity|]. unfold number. rewrite N. destruct y as [| | | |[|] d|[|] d|[|] d]; try discriminate E; cbn [floats] in E.
  - injection E as ->. reflexivity.
  - destruct d as [|z [|]]; try discriminate E. injection E as <-. reflexivity.
  - destruct d as [|z [|]]; try discriminate E. injection E as <-. reflexivity.
Qed.
Lemma denotes_kind : forall h x v, denotes h x v -> kind_of h x = ANumber.
Proof.
  intros h x v D. apply number_denotes in D. destruct (is_kind h x) as (_ & _ & _ & _ & _ & _ & _ & H). rewrite D in H. destruct (kind_of h x); try discriminate H; reflexivity.
Qed.
Lemma kind_ref : forall h a v, nth_error h a = Some v -> kind_of h (Ref a) = kind_of_value v.
Proof. intros h a v N. unfold kind_of. rewrite N. reflexivity. Qed.
Lemma kind_class : forall (v : value F) c, class_of v = Some c -> kind_of_value v = Matrix c.
Proof. intros v c E. destruct v; try discriminate E; injection E as <-; reflexivity. Qed.
Lemma one_call : forall (e : Env F) h f c, dispatch h f = Calls [c] -> call_api e h f = method e h c.
Proof. intros e h f c E. unfold call_api, method. rewrite E. cbn [run_calls]. destruct (step e h c); reflexivity. Qed.
Lemma api_quotient_is : forall h p s b x y,
  (is p h x = true -> forall v, number h y = Some v -> api_quotient h p s b x y = Calls [Scalar s (pos x) v]) /\
  (is p h x = false \/ number h y = None -> api_quotient h p s b x y =
     if match number h x with Some _ => true | None => false end && is sparse h y then NotImplemented
     else if is csr h x && is csr h y then Calls [Binary b (pos x) (pos y)]
     else if is csc h x && is csc h y then Calls [Binary b (pos x) (pos y)]
     else if is coond h x && is coond h y then NotImplemented
     else otherwise h x y).
Proof.
  intros h p s b x y. unfold api_quotient. split.
  - intros -> v ->. reflexivity.
  - intros [-> | H]; [reflexivity|]. rewrite H. destruct (is p h x); reflexivity.
Qed.
End Helpers.

(** ** C68: the elementwise functions *)

(** add, subtract, multiply, divide, floor_divide, remainder, pow: without a sparse argument
    they are NumPy's; with one they make one method call if the pair is supported and
    otherwise raise NotImplementedError, whatever the state. *)
Theorem C68_supported_pairs : forall (F : Fl) (e : Env F) h op x y,
  let kx := kind_of h x in let ky := kind_of h y in
  (sparse_kind kx = false /\ sparse_kind ky = false -> call_api e h (ApiBinary op x y) = AsksNumpy) /\
  (sparse_kind kx = true \/ sparse_kind ky = true -> implemented op kx ky = false -> call_api e h (ApiBinary op x y) = IsNotImplemented) /\
  (implemented op kx ky = true -> exists c, call_api e h (ApiBinary op x y) = method e h c).
Proof.
  intros F e h op x y kx ky. destruct (is_kind h x) as (X1 & X2 & X3 & X4 & X5 & _ & _ & X8), (is_kind h y) as (Y1 & Y2 & Y3 & Y4 & Y5 & _ & _ & Y8).
  assert (D : dispatch h (ApiBinary op x y) = api_binary h op x y) by reflexivity.
  assert (G : (sparse_kind kx = false /\ sparse_kind ky = false -> api_binary h op x y = Numpy) /\
    (sparse_kind kx = true \/ sparse_kind ky = true -> implemented op kx ky = false -> api_binary h op x y = NotImplemented) /\
    (implemented op kx ky = true -> exists c, api_binary h op x y = Calls [c])).
  { fold kx in X1, X2, X3, X4, X5, X8. fold ky in Y1, Y2, Y3, Y4, Y5, Y8. clearbody kx ky. unfold api_binary, api_sum, api_multiply, api_quotient, otherwise.
    destruct op; rewrite ?X1, ?X2, ?X3, ?X4, ?X5, ?Y1, ?Y2, ?Y3, ?Y4, ?Y5;
      destruct kx as [[]| | | |], ky as [[]| | | |]; cbn [sparse_kind implemented andb orb] in *;
      repeat match goal with
        | H : (match ?o with Some _ => true | None => false end) = true |- _ => destruct o; [clear H|discriminate H]
        | H : (match ?o with Some _ => true | None => false end) = false |- _ => destruct o; [discriminate H|clear H]
        end; cbn [andb orb];
      (split; [intros [? ?]|split; [intros [?|?] ?|intros ?]]; try discriminate; try reflexivity; eexists; reflexivity). }
  destruct G as (G1 & G2 & G3). split; [|split].
  - intros H. unfold call_api. rewrite D, (G1 H). reflexivity.
  - intros H I. unfold call_api. rewrite D, (G2 H I). reflexivity.
  - intros I. destruct (G3 I) as [c E]. exists c. apply one_call. rewrite D. exact E.
Qed.
Print Assumptions C68_supported_pairs.

(** A matrix and a number: the operator is applied to every stored value; division by zero
    raises. A product may have the number first. *)
Theorem C68_with_a_number : forall (F : Fl) (e : Env F) h a v op s y alpha, NLaws F -> reached h -> nth_error h a = Some v -> class_of v <> None ->
  with_number op = Some s -> denotes h y alpha ->
  (scalar_raises s alpha = true -> call_api e h (ApiBinary op (Ref a) y) = Fails) /\
  (scalar_raises s alpha = false -> exists z, call_api e h (ApiBinary op (Ref a) y) = Returns (h ++ [z]) /\ class_of z = class_of v /\ shape2 z = shape2 v /\
     forall i j, stored z i j = map (scalar_value s alpha) (stored v i j)) /\
  (op = BMul -> call_api e h (ApiBinary op y (Ref a)) = call_api e h (ApiBinary op (Ref a) y)).
Proof.
  intros F e h a v op s y alpha L R N NC W DN. destruct (C60_scalar_operators F e h a v s alpha L R N NC) as [P1 P2].
  destruct (class_of v) as [c|] eqn:EC; [|congruence]. assert (KX := kind_ref h a v N). rewrite (kind_class v c EC) in KX. assert (KY := denotes_kind h y alpha DN). apply number_denotes in DN.
  destruct (is_kind h (Ref a)) as (X1 & X2 & _ & _ & _ & _ & _ & X8). destruct (is_kind h y) as (_ & Y2 & _). rewrite KX in X1, X2, X8. rewrite KY in Y2. cbn [sparse_kind] in X1.
  assert (E1 : dispatch h (ApiBinary op (Ref a) y) = Calls [Scalar s a alpha]).
  { cbn [dispatch]. unfold api_binary. destruct op; try discriminate W; injection W as <-;
      try (apply (proj1 (api_quotient_is h _ _ _ (Ref a) y)); auto). unfold api_multiply. rewrite X2, Y2, DN. reflexivity. }
  rewrite (one_call e h _ _ E1). unfold method. split; [|split].
  - intros B. rewrite (P1 B). reflexivity.
  - intros B. destruct (P2 B) as (z & E & H). exists z. rewrite E. auto.
  - intros ->. injection W as <-. assert (E2 : dispatch h (ApiBinary BMul y (Ref a)) = Calls [Scalar SMul a alpha]).
    { cbn [dispatch]. unfold api_binary, api_multiply. rewrite X2, DN. reflexivity. }
    rewrite (one_call e h _ _ E2). reflexivity.
Qed.
Print Assumptions C68_with_a_number.

(** An N-D array and a number: floor_divide, remainder and pow. *)
Theorem C68_with_a_number_coond : forall (F : Fl) (e : Env F) h a A op s y alpha, NLaws F -> reached h -> nth_error h a = Some (VNd A) ->
  Forall (fun n => 0 <= n) (nd_shape A) -> with_number op = Some s -> op <> BMul -> op <> BDiv -> denotes h y alpha ->
  (scalar_raises s alpha = true -> call_api e h (ApiBinary op (Ref a) y) = Fails) /\
  (scalar_raises s alpha = false -> exists B, call_api e h (ApiBinary op (Ref a) y) = Returns (h ++ [VNd B]) /\ nd_shape B = nd_shape A /\ nd_keys B = nd_keys A /\
     forall k, nd_at B k = map (scalar_value s alpha) (nd_at A k)).
Proof.
  intros F e h a A op s y alpha L R N NN W M1 M2 DN. destruct (C60_scalar_operators_coond F e h a A s alpha L R N NN) as [P1 P2]. apply number_denotes in DN.
  destruct (is_kind h (Ref a)) as (X1 & _). rewrite (kind_ref h a _ N) in X1. cbn [sparse_kind kind_of_value] in X1.
  assert (E1 : dispatch h (ApiBinary op (Ref a) y) = Calls [Scalar s a alpha]).
  { cbn [dispatch]. unfold api_binary. destruct op; try discriminate W; try congruence; injection W as <-; apply (proj1 (api_quotient_is h _ _ _ (Ref a) y)); auto. }
  rewrite (one_call e h _ _ E1). unfold method. split.
  - intros B. rewrite P1; auto.
  - intros B. destruct P2 as (z & E & H); auto; [destruct op; try discriminate W; try congruence; injection W as <-; discriminate..|]. exists z. rewrite E. auto.
Qed.
Print Assumptions C68_with_a_number_coond.

(** Two CSR or two CSC matrices. *)
Theorem C68_pairs : forall (F : Fl) (e : Env F) h a b x y op, NLaws F -> fair e -> reached h -> nth_error h a = Some x -> nth_error h b = Some y ->
  class_of x = class_of y -> class_of x = Some CsrClass \/ class_of x = Some CscClass ->
  (shape2 x <> shape2 y -> call_api e h (ApiBinary op (Ref a) (Ref b)) = Fails) /\
  (shape2 x = shape2 y -> exists z, call_api e h (ApiBinary op (Ref a) (Ref b)) = Returns (h ++ [z]) /\ class_of z = class_of x /\ shape2 z = shape2 x /\
     forall i j, (i < fst (shape2 x))%nat -> (j < snd (shape2 x))%nat ->
       match sum_of op with
       | Some g => feqv (SpecCall.cell z i j) (g (SpecCall.cell x i j) (SpecCall.cell y i j))
       | None => forall v, stored z i j = [v] <-> exists p q, stored x i j = [p] /\ stored y i j = [q] /\ combines op p q v
       end).
Proof.
  intros F e h a b x y op L FE R Na Nb EC BC.
  assert (E1 : dispatch h (ApiBinary op (Ref a) (Ref b)) = Calls [Binary op a b]).
  { destruct (is_kind h (Ref a)) as (_ & X2 & X3 & X4 & X5 & _ & _ & X8), (is_kind h (Ref b)) as (_ & Y2 & Y3 & Y4 & Y5 & _ & _ & Y8).
    rewrite (kind_ref h a x Na) in X2, X3, X4, X5, X8. rewrite (kind_ref h b y Nb) in Y2, Y3, Y4, Y5, Y8.
    destruct BC as [BC|BC]; rewrite (kind_class x _ BC) in X2, X3, X4, X5, X8; rewrite EC in BC; rewrite (kind_class y _ BC) in Y2, Y3, Y4, Y5, Y8;
      (destruct (number h (Ref a)) as [|] eqn:NA; [discriminate X8|]); (destruct (number h (Ref b)) as [|] eqn:NB; [discriminate Y8|]);
      cbn [dispatch]; unfold api_binary, api_sum, api_multiply, api_quotient; rewrite ?NA, ?NB, ?X2, ?X3, ?X4, ?X5, ?Y2, ?Y3, ?Y4, ?Y5; cbn [andb pos];
      destruct op; rewrite ?X2, ?Y2; try reflexivity; destruct (is sparse h (Ref a)); reflexivity. }
  rewrite (one_call e h _ _ E1). unfold method. destruct (sum_of (F := F) op) as [g|] eqn:ES.
  - destruct (C60_sums F e h a b x y op g L FE R Na Nb EC BC ES) as [P1 P2]. split; intros S; [rewrite (P1 S); reflexivity|].
    destruct (P2 S) as (z & E & H). exists z. rewrite E. auto.
  - destruct (C60_common_entries F e h a b x y op L FE R Na Nb EC BC ES) as [P1 P2]. split; intros S; [rewrite (P1 S); reflexivity|].
    destruct (P2 S) as (z & E & C & SH & H). exists z. rewrite E. split; [reflexivity|]. split; [exact C|]. split; [exact SH|]. intros i j Hi Hj. apply (H i j Hi Hj).
Qed.
Print Assumptions C68_pairs.

(** [multiply] of two N-D arrays is the product of C63, with broadcasting. *)
Theorem C68_multiply_coond : forall (F : Fl) (e : Env F) h a b A B, nth_error h a = Some (VNd A) -> nth_error h b = Some (VNd B) ->
  call_api e h (ApiBinary BMul (Ref a) (Ref b)) = method e h (Binary BMul a b).
Proof.
  intros F e h a b A B Na Nb. apply one_call. cbn [dispatch]. unfold api_binary, api_multiply, is, number. rewrite Na, Nb. reflexivity.
Qed.
Print Assumptions C68_multiply_coond.

(** abs, negative and sign: all four classes; anything else is NumPy's. *)
Theorem C68_unary : forall (F : Fl) (e : Env F) h op x, 
  (sparse_kind (kind_of h x) = false -> call_api e h (ApiUnary op x) = AsksNumpy) /\
  (forall a v, NLaws F -> reached h -> x = Ref a -> nth_error h a = Some v -> is_map op = true ->
     (class_of v <> None -> exists z, call_api e h (ApiUnary op x) = Returns (h ++ [z]) /\ class_of z = class_of v /\ shape2 z = shape2 v /\
        forall i j, stored z i j = map (unary_value op) (stored v i j)) /\
     (forall A, v = VNd A -> Forall (fun n => 0 <= n) (nd_shape A) ->
        exists B, call_api e h (ApiUnary op x) = Returns (h ++ [VNd B]) /\ nd_shape B = nd_shape A /\ nd_keys B = nd_keys A /\
          forall k, nd_at B k = map (unary_value op) (nd_at A k))).
Proof.
  intros F e h op x. destruct (is_kind h x) as (X1 & _). split.
  - intros K. unfold call_api. cbn [dispatch]. unfold api_unary. rewrite X1, K. reflexivity.
  - intros a v L R -> N M. rewrite (kind_ref h a v N) in X1. split.
    + intros NC. destruct (class_of v) as [c|] eqn:EC; [|congruence]. rewrite (kind_class v c EC) in X1.
      rewrite (one_call e h _ (Unary op a)) by (cbn [dispatch]; unfold api_unary; rewrite X1; reflexivity). unfold method.
      destruct (C60_unary_maps F e h a v op L R N) as (z & E & H); [congruence|exact M|]. exists z. rewrite E, <- EC. auto.
    + intros A -> NN. rewrite (one_call e h _ (Unary op a)) by (cbn [dispatch]; unfold api_unary; rewrite X1; reflexivity). unfold method.
      destruct (C60_unary_maps_coond F e h a A op L R N NN M) as (z & E & H). exists z. rewrite E. auto.
Qed.
Print Assumptions C68_unary.

Section Numbers.
Context {F : Fl}.
Lemma np_compare_number : forall c s (d : list F) alpha, length d = fold_right Nat.mul 1%nat s ->
  np_compare c (s, d) ([], [alpha]) = Ok (s, map (fun v => cmp_fun c v alpha) d) /\ np_compare c ([], [alpha]) (s, d) = Ok (s, map (fun v => cmp_fun c alpha v) d).
Proof.
  intros c s d alpha L. unfold np_compare, np_broadcast. cbn [fst rev].
  assert (N1 : forall l, np_stretch l [] = Some l) by (intros []; reflexivity). assert (N2 : forall l, np_stretch [] l = Some l) by (intros []; reflexivity).
  rewrite N1, N2. cbn [option_map]. rewrite rev_involutive. split; do 2 f_equal.
  - transitivity (map (fun v => cmp_fun c v alpha) (map (np_read (s, d)) (np_keys s))); [rewrite map_map; reflexivity|]. rewrite (read_all s d L). reflexivity.
  - transitivity (map (fun v => cmp_fun c alpha v) (map (np_read (s, d)) (np_keys s))); [rewrite map_map; reflexivity|]. rewrite (read_all s d L). reflexivity.
Qed.
Lemma step_new_number : forall (e : Env F) h alpha, step e h (NewArr [] [alpha]) = Ok (h ++ [VArr [] [alpha]]).
Proof. reflexivity. Qed.
Lemma nth_error_last : forall {A} (l : list A) a, nth_error (l ++ [a]) (length l) = Some a.
Proof. intros A l a. rewrite nth_error_app2 by lia. rewrite Nat.sub_diag. reflexivity. Qed.
Lemma nth_error_front : forall {A} (l : list A) a i x, nth_error l i = Some x -> nth_error (l ++ [a]) i = Some x.
Proof. intros A l a i x E. rewrite nth_error_app1; [exact E|]. apply nth_error_Some. congruence. Qed.
End Numbers.

(** equal, not_equal, less, ...: of two objects the comparison of C65; with a number every
    cell, zeros included, is compared with the number (which the model keeps as an object). *)
Theorem C68_compare : forall (F : Fl) (e : Env F) h a x c, nth_error h a = Some x -> sparse_kind (kind_of_value x) = true ->
  (forall b y, nth_error h b = Some y ->
     call_api e h (ApiCompare c (Ref a) (Ref b)) = method e h (Compare c a b) /\ call_api e h (ApiCompare c (Ref b) (Ref a)) = method e h (Compare c b a)) /\
  (forall alpha sh d, NLaws F -> reached h -> plain_shape x -> dense_form x = Some (sh, d) ->
     call_api e h (ApiCompare c (Ref a) (Num alpha)) = Returns (h ++ [VArr [] [alpha]; VBools sh (map (fun v => holds c v alpha) d)]) /\
     call_api e h (ApiCompare c (Num alpha) (Ref a)) = Returns (h ++ [VArr [] [alpha]; VBools sh (map (fun v => holds c alpha v) d)])).
Proof.
  intros F e h a x c N K. destruct (is_kind h (Ref a)) as (X1 & _). rewrite (kind_ref h a x N), K in X1. split.
  - intros b y M. split; apply one_call; cbn [dispatch]; unfold api_compare; rewrite X1; [reflexivity|rewrite orb_true_r; reflexivity].
  - intros alpha sh d L R PS ED. assert (KX := reached_nth h a x L R N). assert (LD := dense_form_length x sh d KX PS ED).
    assert (SP : sparse x = true) by (clear - K; destruct x as [| | | |[|] [|? [|]]|[|] [|? [|]]|[|] [|? [|]]]; try discriminate K; reflexivity).
    assert (T : forall (l : list (value F)) u w, (l ++ [u]) ++ [w] = l ++ [u; w]) by (intros; rewrite <- app_assoc; reflexivity).
    destruct (np_compare_number c sh d alpha LD) as [C1 C2].
    assert (M1 : map (fun v => cmp_fun c v alpha) d = map (fun v => holds c v alpha) d) by (apply map_ext; intros v; destruct c; reflexivity).
    assert (M2 : map (fun v => cmp_fun c alpha v) d = map (fun v => holds c alpha v) d) by (apply map_ext; intros v; destruct c; reflexivity).
    split; unfold call_api; cbn [dispatch]; unfold api_compare; rewrite X1, ?orb_true_r; cbn [orb]; cbn [run_calls]; rewrite step_new_number; cbn [bind];
      cbn [step exec]; rewrite (get_is _ _ _ (nth_error_last h (VArr [] [alpha]))), (get_is _ _ _ (nth_error_front h (VArr [] [alpha]) a x N)); cbn [bind];
      unfold do_compare; rewrite (densify_is x KX PS), ED, SP, ?orb_true_r; cbn [orb bind densify as_float64].
    + rewrite C1. cbn [bind arr_new]. rewrite M1, T. reflexivity.
    + rewrite C2. cbn [bind arr_new]. rewrite M2, T. reflexivity.
Qed.
Print Assumptions C68_compare.

(** ** C69: matmul, tensordot, vecdot, matrix_transpose *)

(** [matmul(x, y)] is [x @ y] (C64) of a matrix and a dense array. Everything else that is
    sparse is not implemented; without a sparse argument it is NumPy's. *)
Theorem C69_matmul : forall (F : Fl) (e : Env F) h x y,
  let kx := kind_of h x in let ky := kind_of h y in
  (forall a b c n, x = Ref a -> y = Ref b -> kx = Matrix c -> ky = DenseArray n -> call_api e h (ApiMatmul x y) = method e h (Matmul a b)) /\
  (sparse_kind kx = true \/ sparse_kind ky = true -> ~ (exists c n, kx = Matrix c /\ ky = DenseArray n) -> call_api e h (ApiMatmul x y) = IsNotImplemented) /\
  (sparse_kind kx = false -> sparse_kind ky = false -> call_api e h (ApiMatmul x y) = AsksNumpy).
Proof.
  intros F e h x y kx ky. destruct (is_kind h x) as (X1 & X2 & _). destruct (is_kind h y) as (Y1 & _ & _ & _ & _ & Y6 & _). fold kx in X1, X2. fold ky in Y1, Y6.
  assert (D : dispatch h (ApiMatmul x y) = if sparse_kind kx || sparse_kind ky then if sparse_kind kx && sparse_kind ky then NotImplemented else
     if match kx with Matrix _ => true | _ => false end && match ky with DenseArray _ => true | _ => false end then Calls [Matmul (pos x) (pos y)] else NotImplemented else Numpy)
    by (cbn [dispatch]; unfold api_matmul; rewrite X1, X2, Y1, Y6; reflexivity).
  split; [|split].
  - intros a b c n -> -> E1 E2. apply one_call. rewrite D, E1, E2. reflexivity.
  - intros S NE. unfold call_api. rewrite D. destruct kx as [c| | | |], ky as [c'| | |n|]; try reflexivity; try (destruct S as [S|S]; discriminate S). exfalso. apply NE. eauto.
  - intros S1 S2. unfold call_api. rewrite D, S1, S2. reflexivity.
Qed.
Print Assumptions C69_matmul.

(** [tensordot(x, y, axes)] of a sparse [x] and a dense [y] of at least one dimension, where
    [axes] names one axis each: 1, (i, j), ([i], [j]). For matrices these must be the columns
    of [x] and the first axis of [y], for N-D arrays any axis and the first one; then it is the
    product of C63 and C64. Anything else is not implemented. *)
Theorem C69_tensordot : forall (F : Fl) (e : Env F) h x y axes,
  let kx := kind_of h x in let ky := kind_of h y in
  (sparse_kind kx = false -> sparse_kind ky = false -> call_api e h (ApiTensordot x y axes) = AsksNumpy) /\
  (sparse_kind kx = true \/ sparse_kind ky = true -> sparse_kind kx = false \/ ~ (exists n, ky = DenseArray n) -> call_api e h (ApiTensordot x y axes) = IsNotImplemented) /\
  (forall a b n, x = Ref a -> y = Ref b -> sparse_kind kx = true -> ky = DenseArray n ->
     (forall k, axes = AxesInt k -> k = 1 -> call_api e h (ApiTensordot x y axes) = method e h (Tensordot a b None)) /\
     (forall k, axes = AxesInt k -> k <> 1 -> call_api e h (ApiTensordot x y axes) = IsNotImplemented) /\
     (forall p q i j, axes = AxesPair p q -> one_axis p i -> one_axis q j ->
        let supported := j = 0 /\ (kx = NdArray \/ i = 1) in
        (supported -> call_api e h (ApiTensordot x y axes) = method e h (Tensordot a b (Some i))) /\
        (~ supported -> call_api e h (ApiTensordot x y axes) = IsNotImplemented))).
Proof.
  intros F e h x y axes kx ky. destruct (is_kind h x) as (X1 & X2 & _ & _ & X5 & _). destruct (is_kind h y) as (Y1 & _ & _ & _ & _ & Y6 & _).
  fold kx in X1, X2, X5. fold ky in Y1, Y6. split; [|split].
  - intros S1 S2. unfold call_api. cbn [dispatch]. unfold api_tensordot. rewrite X1, Y1, S1, S2. reflexivity.
  - intros S NE. unfold call_api. cbn [dispatch]. unfold api_tensordot. rewrite X1, X2, X5, Y1, Y6.
    destruct kx as [c| | | |], ky as [c'| | |n|]; try reflexivity; try (destruct S as [S|S]; discriminate S); destruct NE as [NE|NE]; try discriminate NE; exfalso; apply NE; eauto.
  - intros a b n -> -> S EY. rewrite EY in Y1, Y6. cbn [sparse_kind] in Y1.
    assert (FA : forall p z, one_axis p z -> first_axis p = Some z) by (intros p z [-> | ->]; reflexivity).
    split; [|split].
    + intros k -> ->. apply one_call. cbn [dispatch]. unfold api_tensordot. rewrite X1, X2, X5, Y1, Y6, S. destruct kx; try discriminate S; reflexivity.
    + intros k -> NK. unfold call_api. cbn [dispatch]. unfold api_tensordot. rewrite X1, X2, X5, Y1, Y6, S. apply Z.eqb_neq in NK. rewrite NK. destruct kx; try discriminate S; reflexivity.
    + intros p q i j -> P Q supported. assert (D : dispatch h (ApiTensordot (Ref a) (Ref b) (AxesPair p q)) = if (j =? 0) && match kx with NdArray => true | _ => i =? 1 end then Calls [Tensordot a b (Some i)] else NotImplemented).
      { cbn [dispatch]. unfold api_tensordot. rewrite X1, X2, X5, Y1, Y6, S, (FA p i P), (FA q j Q). destruct kx; try discriminate S; cbn [andb orb pos]; rewrite ?andb_true_r; [rewrite andb_comm|]; reflexivity. }
      split.
      * intros [-> HA]. apply one_call. rewrite D. destruct HA as [-> | ->]; [reflexivity|]. destruct kx; reflexivity.
      * intros NS. unfold call_api. rewrite D. destruct (Z.eqb_spec j 0) as [->|]; [|reflexivity]. cbn [andb]. destruct kx; try discriminate S; try (exfalso; apply NS; split; auto; fail).
        destruct (Z.eqb_spec i 1) as [->|]; [exfalso; apply NS; split; auto|reflexivity].
Qed.
Print Assumptions C69_tensordot.

(** When [axes] names several axes of each operand, only the first pair counts; the others
    are dropped. *)
Theorem C69_only_the_first_axes_count : forall (F : Fl) (e : Env F) h x y i j is js, sparse_kind (kind_of h x) = true \/ sparse_kind (kind_of h y) = true ->
  call_api e h (ApiTensordot x y (AxesPair (Many (i :: is)) (Many (j :: js)))) = call_api e h (ApiTensordot x y (AxesPair (One i) (One j))).
Proof.
  intros F e h x y i j is js S. destruct (is_kind h x) as (X1 & _). destruct (is_kind h y) as (Y1 & _). unfold call_api. cbn [dispatch]. unfold api_tensordot. rewrite X1, Y1.
  destruct S as [-> | ->]; rewrite ?orb_true_r; reflexivity.
Qed.
Print Assumptions C69_only_the_first_axes_count.

(** [vecdot(x, y, axis)] is the product of C63 and C64 when [x] is sparse and [y] a dense
    vector; anything else with a sparse argument is not implemented. *)
Theorem C69_vecdot : forall (F : Fl) (e : Env F) h x y axis,
  let kx := kind_of h x in let ky := kind_of h y in
  (forall a b, x = Ref a -> y = Ref b -> sparse_kind kx = true -> ky = DenseArray 1 -> call_api e h (ApiVecdot x y axis) = method e h (Vecdot a b axis)) /\
  (sparse_kind kx = true \/ sparse_kind ky = true -> ~ (sparse_kind kx = true /\ ky = DenseArray 1) -> call_api e h (ApiVecdot x y axis) = IsNotImplemented) /\
  (sparse_kind kx = false -> sparse_kind ky = false -> call_api e h (ApiVecdot x y axis) = AsksNumpy).
Proof.
  intros F e h x y axis kx ky. destruct (is_kind h x) as (X1 & _). destruct (is_kind h y) as (Y1 & _ & _ & _ & _ & _ & Y7 & _). fold kx in X1. fold ky in Y1, Y7.
  assert (D : dispatch h (ApiVecdot x y axis) = if sparse_kind kx || sparse_kind ky then if sparse_kind kx && sparse_kind ky then NotImplemented else
     if negb (match ky with DenseArray 1 => true | _ => false end) then NotImplemented else if sparse_kind kx then Calls [Vecdot (pos x) (pos y) axis] else NotImplemented else Numpy)
    by (cbn [dispatch]; unfold api_vecdot; rewrite X1, Y1, Y7; reflexivity).
  split; [|split].
  - intros a b -> -> E1 E2. apply one_call. rewrite D, E1, E2. reflexivity.
  - intros S NE. unfold call_api. rewrite D. destruct kx as [c| | | |], ky as [c'| | |[|[|n]]|]; try reflexivity; try (destruct S as [S|S]; discriminate S); exfalso; apply NE; auto.
  - intros S1 S2. unfold call_api. rewrite D, S1, S2. reflexivity.
Qed.
Print Assumptions C69_vecdot.

(** [matrix_transpose(x)] of a matrix is its transpose. *)
Theorem C69_matrix_transpose : forall (F : Fl) (e : Env F) h a x, NLaws F -> fair e -> reached h -> nth_error h a = Some x -> class_of x <> None ->
  exists y, call_api e h (ApiMatrixTranspose (Ref a)) = Returns (h ++ [y]) /\ class_of y = class_of x /\ shape2 y = (snd (shape2 x), fst (shape2 x)) /\
    forall i j, (i < fst (shape2 x))%nat -> (j < snd (shape2 x))%nat -> stored y j i = stored x i j.
Proof.
  intros F e h a x L FE R N NC. destruct (C60_transpose F e h a x L FE R N NC) as (y & E & H). exists y.
  rewrite (one_call e h _ (Unary UT a)); [unfold method; rewrite E; auto|]. cbn [dispatch]. unfold api_matrix_transpose, is. rewrite N. destruct x; try (exfalso; apply NC; reflexivity); reflexivity.
Qed.
Print Assumptions C69_matrix_transpose.

(** ** C70: what is handed to NumPy *)

(** A function gives its arguments to NumPy only if none of them is sparse, with two
    exceptions: matrix_transpose and count_nonzero of an N-D array. Every function that is
    not written for sparse arguments raises NotImplementedError if one of its arguments is. *)
Theorem C70_no_sparse_argument_reaches_numpy : forall (F : Fl) (e : Env F) h f, call_api e h f = AsksNumpy ->
  Forall (fun x => sparse_kind (kind_of h x) = false) (arguments f) \/
  exists x, kind_of h x = NdArray /\ (f = ApiMatrixTranspose x \/ exists axis kd, f = ApiReduce RCount x axis kd).
Proof.
  intros F e h f E. assert (D : dispatch h f = Numpy). { unfold call_api in E. destruct (dispatch h f); try discriminate E; [|reflexivity]. destruct (run_calls e h l); discriminate E. }
  clear E. destruct f; cbn [dispatch arguments] in D; cbn [arguments];
    try (destruct (is_kind h x) as (X1 & X2 & X3 & X4 & X5 & X6 & X7 & X8)); try (destruct (is_kind h y) as (Y1 & Y2 & Y3 & Y4 & Y5 & Y6 & Y7 & Y8)).
  - left. unfold api_unary in D. rewrite X1 in D. destruct (sparse_kind (kind_of h x)) eqn:S; [discriminate D|]. auto.
  - left. destruct (C68_supported_pairs F e h op x y) as (_ & P2 & P3). unfold call_api in P2, P3. cbn [dispatch] in P2, P3. rewrite D in P2, P3.
    destruct (sparse_kind (kind_of h x)) eqn:SX, (sparse_kind (kind_of h y)) eqn:SY; auto; exfalso;
      (destruct (implemented op (kind_of h x) (kind_of h y)) eqn:I; [destruct (P3 eq_refl) as [c E]; unfold method in E; destruct (step e h c); discriminate E|]);
      discriminate P2; auto.
  - left. unfold api_compare in D. rewrite X1, Y1 in D. destruct (sparse_kind (kind_of h x)) eqn:SX, (sparse_kind (kind_of h y)) eqn:SY; auto; destruct x, y; discriminate D.
  - left. unfold api_matmul in D. rewrite X1, Y1 in D. destruct (sparse_kind (kind_of h x)) eqn:SX, (sparse_kind (kind_of h y)) eqn:SY; auto; try discriminate D; cbn [orb andb] in D; destruct (_ && _) in D; discriminate D.
  - left. unfold api_tensordot in D. rewrite X1, Y1 in D. destruct (sparse_kind (kind_of h x)) eqn:SX, (sparse_kind (kind_of h y)) eqn:SY; auto; try discriminate D; cbn [orb andb] in D;
      repeat match type of D with (match ?u with _ => _ end) = _ => destruct u; try discriminate D end.
  - left. unfold api_vecdot in D. rewrite X1, Y1 in D. destruct (sparse_kind (kind_of h x)) eqn:SX, (sparse_kind (kind_of h y)) eqn:SY; auto; try discriminate D; cbn [orb andb] in D; destruct (negb _) in D; discriminate D.
  - unfold api_matrix_transpose in D. rewrite X2 in D. destruct (kind_of h x) eqn:K; try discriminate D; [right; exists x; auto|left; constructor; [rewrite K; reflexivity|constructor]..].
  - unfold api_reduce in D. rewrite X1, X2 in D. destruct (kind_of h x) eqn:K; destruct op; try discriminate D; try (left; constructor; [rewrite K; reflexivity|constructor]). right. exists x. eauto.
  - left. unfold api_cum in D. rewrite X2, X5 in D. destruct (kind_of h x) eqn:K; try discriminate D; (constructor; [rewrite K; reflexivity|constructor]).
  - left. unfold api_diff in D. rewrite X2, X5 in D. destruct (kind_of h x) eqn:K; try discriminate D; (constructor; [rewrite K; reflexivity|constructor]).
  - left. unfold api_permute_dims in D. rewrite X1, X5 in D. destruct (kind_of h x) eqn:K; try discriminate D; (constructor; [rewrite K; reflexivity|constructor]).
  - left. unfold api_reshape in D. rewrite X1, X5 in D. destruct (kind_of h x) eqn:K; try discriminate D; (constructor; [rewrite K; reflexivity|constructor]).
  - left. constructor.
  - left. constructor.
  - left. constructor; [|constructor]. unfold api_astype in D. destruct x as [a| | |]; try reflexivity. unfold kind_of. unfold is in D. destruct (nth_error h a) as [v|]; [|reflexivity].
    destruct v as [X|X|X|X|sh d|sh d|sh d]; cbn [sparse] in D; try discriminate D; [cbv zeta in D; destruct float64; discriminate D|..]; destruct sh; try reflexivity; destruct d as [|? [|]]; reflexivity.
  - left. unfold api_other in D. destruct (existsb (is sparse h) args) eqn:S; [discriminate D|]. apply Forall_forall. intros x I. rewrite <- (proj1 (is_kind h x)).
    destruct (is sparse h x) eqn:E; [|reflexivity]. assert (T : existsb (is sparse h) args = true) by (apply existsb_exists; eauto). congruence.
Qed.
Print Assumptions C70_no_sparse_argument_reaches_numpy.

(** The functions not written for sparse arguments, __getattr__ of the namespace. *)
Theorem C70_other_functions : forall (F : Fl) (e : Env F) h args,
  (Exists (fun x => sparse_kind (kind_of h x) = true) args -> call_api e h (Other args) = IsNotImplemented) /\
  (Forall (fun x => sparse_kind (kind_of h x) = false) args -> call_api e h (Other args) = AsksNumpy).
Proof.
  intros F e h args. unfold call_api. cbn [dispatch]. unfold api_other. split.
  - intros H. replace (existsb (is sparse h) args) with true; [reflexivity|]. symmetry. apply existsb_exists. apply Exists_exists in H. destruct H as (x & I & K). exists x. rewrite (proj1 (is_kind h x)). auto.
  - intros H. replace (existsb (is sparse h) args) with false; [reflexivity|]. symmetry. apply not_true_iff_false. intros E. apply existsb_exists in E. destruct E as (x & I & K).
    rewrite (proj1 (is_kind h x)) in K. rewrite Forall_forall in H. rewrite (H x I) in K. discriminate K.
Qed.
Print Assumptions C70_other_functions.

(** Refuted for the two exceptions, and for lists of arrays ([stack([A, B])], [concat]), whose
    elements are not looked at: NumPy gets the sparse objects. *)
Theorem C70_exceptions_refuted : forall (F : Fl) (e : Env F) h a,
  (forall A, nth_error h a = Some (VNd A) ->
     call_api e h (ApiMatrixTranspose (Ref a)) = AsksNumpy /\ forall axis kd, call_api e h (ApiReduce RCount (Ref a) axis kd) = AsksNumpy) /\
  (forall x, nth_error h a = Some x -> call_api e h (Other [Items [a]]) = AsksNumpy).
Proof.
  intros F e h a. split; [|intros; reflexivity]. intros A N. unfold call_api. cbn [dispatch]. unfold api_matrix_transpose, api_reduce, is. rewrite N. split; reflexivity.
Qed.
Print Assumptions C70_exceptions_refuted.

(** ** C71: reductions, cumulative operations, diff, permute_dims and reshape *)
Theorem C71_one_argument : forall (F : Fl) (e : Env F) h a x, nth_error h a = Some x ->
  (class_of x <> None ->
     (forall op axis kd, call_api e h (ApiReduce op (Ref a) axis kd) = method e h (Reduce op a axis kd)) /\
     (forall op axis, call_api e h (ApiCum op (Ref a) axis) = method e h (Cum op a axis)) /\
     (forall n axis, call_api e h (ApiDiff (Ref a) n axis) = method e h (Diff a n axis)) /\
     (forall axes, call_api e h (ApiPermuteDims (Ref a) axes) = IsNotImplemented) /\
     (forall sh, call_api e h (ApiReshape (Ref a) sh) = IsNotImplemented)) /\
  (forall A, x = VNd A ->
     (forall op axis kd, op <> RCount -> call_api e h (ApiReduce op (Ref a) axis kd) = method e h (Reduce op a axis kd)) /\
     (forall op axis, call_api e h (ApiCum op (Ref a) axis) = IsNotImplemented) /\
     (forall n axis, call_api e h (ApiDiff (Ref a) n axis) = IsNotImplemented) /\
     (forall axes, call_api e h (ApiPermuteDims (Ref a) axes) = method e h (Permute a axes)) /\
     (forall sh, call_api e h (ApiReshape (Ref a) sh) = method e h (Reshape a sh))).
Proof.
  intros F e h a x N. destruct (is_kind h (Ref a)) as (X1 & X2 & _ & _ & X5 & _). rewrite (kind_ref h a x N) in X1, X2, X5. split.
  - intros NC. destruct (class_of x) as [c|] eqn:EC; [|congruence]. rewrite (kind_class x c EC) in X1, X2, X5. cbn [sparse_kind] in X1.
    split; [|split; [|split; [|split]]]; intros; try apply one_call; unfold call_api; cbn [dispatch]; unfold api_reduce, api_cum, api_diff, api_permute_dims, api_reshape; rewrite ?X1, ?X2, ?X5; try reflexivity.
    destruct op; reflexivity.
  - intros A ->. cbn [kind_of_value sparse_kind] in X1, X2, X5.
    split; [|split; [|split; [|split]]]; intros; try apply one_call; unfold call_api; cbn [dispatch]; unfold api_reduce, api_cum, api_diff, api_permute_dims, api_reshape; rewrite ?X1, ?X2, ?X5; try reflexivity.
    destruct op; try reflexivity. congruence.
Qed.
Print Assumptions C71_one_argument.

(** ** C72: programs that use functions of the namespace *)

Section Programs.
Context {F : Fl}.
Definition plain_call (c : call F) : Prop := match c with NewCsr _ _ _ _ _ _ | NewCsc _ _ _ _ _ _ | NewCoo _ _ _ _ _ _ | NewNd _ _ _ _ => False | _ => True end.
Definition plain_target (t : target F) : Prop := match t with Calls l => Forall plain_call l | _ => True end.
Lemma dispatch_plain : forall (h : list (value F)) f, (forall x f64, f <> ApiAstype x f64) -> plain_target (dispatch h f).
Proof.
  intros h f NA. assert (C1 : forall c : call F, plain_call c -> plain_target (Calls [c])) by (intros c H; constructor; [exact H|constructor]).
  assert (O : forall x y, plain_target (otherwise h x y)) by (intros x y; unfold otherwise; destruct (_ || _); exact I).
  destruct f; cbn [dispatch].
  - unfold api_unary. destruct (is sparse h x); [apply C1|]; exact I.
  - assert (Q : forall p s b, plain_target (api_quotient h p s b x y)).
    { intros p s b. unfold api_quotient. destruct (if is p h x then number h y else None); [apply C1; exact I|]. destruct (_ && _); [exact I|]. destruct (_ && _); [apply C1; exact I|].
      destruct (_ && _); [apply C1; exact I|]. destruct (_ && _); [exact I|apply O]. }
    assert (S : forall o, plain_target (api_sum h o x y)) by (intros o; unfold api_sum; destruct (_ && _); [apply C1; exact I|]; destruct (_ && _); [apply C1; exact I|apply O]).
    destruct op; cbn [api_binary]; auto. unfold api_multiply. destruct (if is is_matrix h y then number h x else None); [apply C1; exact I|].
    destruct (if is is_matrix h x then number h y else None); [apply C1; exact I|]. destruct (_ && _); [apply C1; exact I|]. destruct (_ && _); [apply C1; exact I|]. destruct (_ && _); [apply C1; exact I|apply O].
  - unfold api_compare. destruct (_ || _); [|exact I]. destruct x, y; try exact I; repeat constructor.
  - unfold api_matmul. destruct (_ || _); [|exact I]. destruct (_ && _); [exact I|]. destruct (_ && _); [apply C1|]; exact I.
  - unfold api_tensordot. destruct (_ || _); [|exact I]. destruct (_ && _); [exact I|].
    destruct (_ && _); [|destruct (_ && _); [|exact I]];
      (destruct axes as [n|p q]; [destruct (n =? 1); [apply C1|]; exact I|]; destruct (first_axis p), (first_axis q); try exact I; destruct (_ =? 0); rewrite ?andb_false_r; try exact I; rewrite ?andb_true_r);
      try (apply C1; exact I). destruct (_ =? 1); [apply C1|]; exact I.
  - unfold api_vecdot. destruct (_ || _); [|exact I]. destruct (_ && _); [exact I|]. destruct (negb _); [exact I|]. destruct (is sparse h x); [apply C1|]; exact I.
  - unfold api_matrix_transpose. destruct (is is_matrix h x); [apply C1|]; exact I.
  - unfold api_reduce. destruct op; destruct (is _ h x); try (apply C1); exact I.
  - unfold api_cum. destruct (is is_matrix h x); [apply C1; exact I|]. destruct (is coond h x); exact I.
  - unfold api_diff. destruct (is is_matrix h x); [apply C1; exact I|]. destruct (is coond h x); exact I.
  - unfold api_permute_dims. destruct (is coond h x); [apply C1; exact I|]. destruct (is sparse h x); exact I.
  - unfold api_reshape. destruct (is coond h x); [apply C1; exact I|]. destruct (is sparse h x); exact I.
  - unfold api_zeros. destruct (device_ok dev); [|exact I]. destruct shape as [|r [|c [|]]]; try exact I. destruct (_ && _); [apply C1|]; exact I.
  - unfold api_eye. destruct (device_ok dev); [|exact I]. destruct (match n_cols with Some _ => _ | None => _ end); [exact I|]. destruct (negb _); [exact I|]. destruct (_ <=? _); [apply C1|]; exact I.
  - exfalso. eapply NA. reflexivity.
  - unfold api_other. destruct (existsb _ _); exact I.
Qed.
Lemma dispatch_astype : forall (h : list (value F)) x fl l, dispatch h (ApiAstype x fl) = Calls l -> exists a X, x = Ref a /\ fl = true /\ nth_error h a = Some (VCsr X) /\
  l = [NewCsr (csr_nrows (py_arrays X)) (csr_ncols (py_arrays X)) (ptr (py_arrays X)) (idx (py_arrays X)) (dat (py_arrays X)) false].
Proof.
  intros h x fl l D. cbn [dispatch] in D. unfold api_astype in D. destruct x as [a| | |]; try discriminate D. destruct (nth_error h a) as [v|] eqn:N; [|destruct (is sparse h (Ref a)); discriminate D].
  destruct v as [X|X|X|X|? ?|? ?|? ?]; try (destruct (is sparse h (Ref a)); discriminate D). cbv zeta in D. destruct fl; [|discriminate D]. injection D as <-. eauto 6.
Qed.
Lemma i64_indices : forall A : Cs F, cs_ok A -> Forall is_i64 (idx A).
Proof.
  intros A OK. apply Forall_forall. intros z Hz. apply In_nth_error in Hz. destruct Hz as [k Hk]. destruct (ok_bound _ OK _ _ Hk). unfold is_i64, i64_min. lia.
Qed.
Lemma cs_eta : forall A : Cs F, mkCs (csr_nrows A) (csr_ncols A) (ptr A) (idx A) (dat A) = A. Proof. intros []; reflexivity. Qed.
(** The calls a function makes have arguments that are as good as the objects. *)
Lemma calls_regular : forall (h : list (value F)) f l, Forall regular h -> dispatch h f = Calls l ->
  Forall (fun c => match c with NewCsr _ _ p _ _ _ => alloc_ok (length p) | _ => True end -> regular_arguments c) l.
Proof.
  intros h f l HR D. destruct f as [| | | | | | | | | | | | | |x fl|] eqn:EF;
    try (assert (P := dispatch_plain h f); rewrite EF, D in P; eapply Forall_impl; [|apply P; intros ? ?; discriminate]; intros c0 PC _; destruct c0; try contradiction; exact I).
  destruct (dispatch_astype h x fl l D) as (a & X & -> & -> & N & ->). constructor; [|constructor]. intros AL. rewrite Forall_forall in HR. destruct (HR _ (nth_error_In _ _ N)) as [C _].
  cbn [regular_arguments]. split; [exact AL|]. split; [apply i64_indices, C|]. right. rewrite cs_eta. exact C.
Qed.
Lemma calls_valid : forall (h : list (value F)) f l, Forall intact h -> dispatch h f = Calls l ->
  Forall (fun c => match c with NewCsr _ _ p _ _ _ => alloc_ok (length p) | _ => True end -> valid_arguments c) l.
Proof.
  intros h f l HR D. destruct f as [| | | | | | | | | | | | | |x fl|] eqn:EF;
    try (assert (P := dispatch_plain h f); rewrite EF, D in P; eapply Forall_impl; [|apply P; intros ? ?; discriminate]; intros c0 PC _; destruct c0; try contradiction; exact I).
  destruct (dispatch_astype h x fl l D) as (a & X & -> & -> & N & ->). constructor; [|constructor]. intros AL. rewrite Forall_forall in HR. destruct (HR _ (nth_error_In _ _ N)) as [C _].
  cbn [valid_arguments]. split; [exact AL|]. split; [apply i64_indices, C|]. right. rewrite cs_eta. exact C.
Qed.
Lemma run_calls_reached : forall (e : Env F) l h h', fair e -> reached h ->
  Forall (fun c => match c with NewCsr _ _ p _ _ _ => alloc_ok (length p) | _ => True end -> regular_arguments c) l -> calls_within e h l -> calls_allowed e h l -> run_calls e h l = Ok h' -> reached h'.
Proof.
  intros e l. induction l as [|c l IH]; intros h h' FE R V W A E; [injection E as <-; exact R|]. inversion V as [|? ? V1 V2]; subst. destruct W as ([W1 W2] & W4). destruct A as [W3 A].
  cbn [run_calls] in E. destruct (step e h c) as [h1| | |] eqn:ES; try discriminate E. destruct (W4 h1 eq_refl) as [W5 W6]. cbn [bind] in E.
  apply (IH h1 h' FE); auto. apply (reached_call h e c h1); auto.
Qed.
Lemma run_calls_safe : forall (e : Env F) l h, NLaws F -> fair e -> Forall kept h ->
  Forall (fun c => match c with NewCsr _ _ p _ _ _ => alloc_ok (length p) | _ => True end -> valid_arguments c) l -> calls_within e h l ->
  match run_calls e h l with Ok _ | Panic => True | UB | Diverge => False end.
Proof.
  intros e l. induction l as [|c l IH]; intros h L FE K V W; [exact I|]. inversion V as [|? ? V1 V2]; subst. destruct W as ([W1 W2] & W4).
  cbn [run_calls]. pose proof (step_safe L e FE h c K (V1 W2) W1) as S. destruct (step e h c) as [h1| | |] eqn:ES; try contradiction; [|exact I]. destruct (W4 h1 eq_refl) as [W5 W6].
  cbn [bind]. apply IH; auto.
Qed.
End Programs.

(** A program that also uses functions of the namespace reaches no state that it could not
    reach with methods, so all theorems about [reached] states apply to it. *)
Theorem C72_functions_add_no_states : forall (F : Fl) (h : list (value F)), NLaws F -> (reached_with_functions h <-> reached h).
Proof.
  intros F h L. split.
  - intros R. induction R as [|h e c h' _ R FE V X D E FT|h e f l h' _ R FE D W A E]; [constructor|eapply reached_call; eauto|].
    unfold call_api in E. rewrite D in E. destruct (run_calls e h l) as [h1| | |] eqn:ER; try discriminate E. injection E as ->.
    apply (run_calls_reached e l h h' FE R); auto. apply (calls_regular h f l); auto. apply C61_objects_stay_regular; auto.
  - intros R. induction R as [|h e c h' _ R FE V X D E FT]; [constructor|eapply with_method; eauto].
Qed.
Print Assumptions C72_functions_add_no_states.

(** No function call reads or writes outside an allocation, after any history of calls that
    passed valid arrays to the constructors. *)
Theorem C72_memory_safe : forall (F : Fl) (l : list (Env F * call F)) h e f, NLaws F ->
  Forall (fun ec => fair (fst ec) /\ valid_arguments (snd ec)) l -> run [] l = Running h -> fair e ->
  (forall cs, dispatch h f = Calls cs -> calls_within e h cs) -> call_api e h f <> Crashes.
Proof.
  intros F l h e f L HL ER FE W E. pose proof (run_safe L l [] HL (Forall_nil _)) as K. rewrite ER in K. unfold call_api in E. destruct (dispatch h f) as [cs| | | |] eqn:D; try discriminate E.
  assert (S := run_calls_safe e cs h L FE K). assert (V := calls_valid h f cs). destruct (run_calls e h cs); try discriminate E; apply S; auto;
    apply V; auto; (eapply Forall_impl; [|exact K]); intros v Hv; apply Hv.
Qed.
Print Assumptions C72_memory_safe.

(** ** C73: zeros, eye and astype *)
Theorem C73_zeros : forall (F : Fl) (e : Env F) (h : list (value F)) shape dev,
  (forall r c, shape = [r; c] -> 0 <= r -> 0 <= c -> dev <> Some OtherDevice ->
     exists y, call_api e h (ApiZeros shape dev) = Returns (h ++ [y]) /\ class_of y = Some CsrClass /\ shape2 y = (Z.to_nat r, Z.to_nat c) /\ forall i j, stored y i j = []) /\
  (~ (exists r c, shape = [r; c] /\ 0 <= r /\ 0 <= c) \/ dev = Some OtherDevice -> call_api e h (ApiZeros shape dev) = Fails).
Proof.
  intros F e h shape dev. split.
  - intros r c -> Hr Hc ND. destruct (C67_generated F e h) as (Z & _). destruct (Z (Z.to_nat r) (Z.to_nat c)) as (y & E & H). exists y.
    rewrite (one_call e h _ (Zeros (Z.to_nat r) (Z.to_nat c))); [unfold method; rewrite E; auto|]. cbn [dispatch]. unfold api_zeros.
    replace (device_ok dev) with true by (destruct dev as [[]|]; [reflexivity|congruence|reflexivity]). replace ((0 <=? r) && (0 <=? c)) with true by lia. reflexivity.
  - intros H. unfold call_api. cbn [dispatch]. unfold api_zeros. destruct (device_ok dev) eqn:DV; [|reflexivity]. destruct H as [H| ->]; [|discriminate DV].
    destruct shape as [|r [|c [|]]]; try reflexivity. destruct ((0 <=? r) && (0 <=? c)) eqn:B; [|reflexivity]. exfalso. apply H. exists r, c. split; [reflexivity|lia].
Qed.
Print Assumptions C73_zeros.

Theorem C73_eye : forall (F : Fl) (e : Env F) (h : list (value F)) n m k dev,
  (0 <= n < i64_max -> m = None \/ m = Some n -> k = 0 -> dev <> Some OtherDevice ->
     exists y, call_api e h (ApiEye n m k dev) = Returns (h ++ [y]) /\ class_of y = Some CsrClass /\ shape2 y = (Z.to_nat n, Z.to_nat n) /\
       forall i j, (i < Z.to_nat n)%nat -> stored y i j = if (i =? j)%nat then [f1] else []) /\
  (dev <> Some OtherDevice -> ~ (m = None \/ m = Some n) \/ k <> 0 -> call_api e h (ApiEye n m k dev) = IsNotImplemented) /\
  (dev = Some OtherDevice -> call_api e h (ApiEye n m k dev) = Fails) /\
  (n < 0 -> m = None \/ m = Some n -> k = 0 -> call_api e h (ApiEye n m k dev) = Fails).
Proof.
  intros F e h n m k dev. assert (MB : match m with Some n0 => negb (n0 =? n) | None => false end = true <-> ~ (m = None \/ m = Some n)).
  { destruct m as [z|]; [|split; [discriminate|intros H; exfalso; auto]]. rewrite negb_true_iff, Z.eqb_neq. split; [intros NE [?|[= ->]]; congruence|intros H ->; auto]. }
  assert (DB : dev <> Some OtherDevice -> device_ok dev = true) by (destruct dev as [[]|]; auto; congruence).
  assert (MT : m = None \/ m = Some n -> match m with Some n0 => negb (n0 =? n) | None => false end = false) by (intros H; apply not_true_iff_false; intros B; apply MB in B; auto).
  split; [|split; [|split]].
  - intros Hn HM -> ND. destruct (C67_generated F e h) as (_ & EY & _). destruct (EY (Z.to_nat n)) as (y & E & H); [unfold alloc_ok; lia|]. exists y.
    rewrite (one_call e h _ (Eye (Z.to_nat n))); [unfold method; rewrite E; auto|]. cbn [dispatch]. unfold api_eye. rewrite (DB ND), (MT HM). cbn. replace (0 <=? n) with true by lia. reflexivity.
  - intros ND H. unfold call_api. cbn [dispatch]. unfold api_eye. rewrite (DB ND). destruct (match m with Some n0 => negb (n0 =? n) | None => false end) eqn:B; [reflexivity|].
    destruct H as [H|H]; [apply MB in H; congruence|]. apply Z.eqb_neq in H. rewrite H. reflexivity.
  - intros ->. reflexivity.
  - intros Hn HM ->. unfold call_api. cbn [dispatch]. unfold api_eye. destruct (device_ok dev); [|reflexivity]. rewrite (MT HM). cbn. replace (0 <=? n) with false by lia. reflexivity.
Qed.
Print Assumptions C73_eye.

(** [astype(x, float64)] of a CSR matrix is an equal matrix with its own handle. Other types
    and classes are not implemented. *)
Theorem C73_astype : forall (F : Fl) (e : Env F) h a x fl, NLaws F -> reached h -> nth_error h a = Some x ->
  (class_of x = Some CsrClass -> fl = true -> call_api e h (ApiAstype (Ref a) fl) = Returns (h ++ [x])) /\
  (class_of x = Some CsrClass -> fl = false -> call_api e h (ApiAstype (Ref a) fl) = IsNotImplemented) /\
  (sparse_kind (kind_of_value x) = true -> class_of x <> Some CsrClass -> call_api e h (ApiAstype (Ref a) fl) = IsNotImplemented) /\
  (sparse_kind (kind_of_value x) = false -> call_api e h (ApiAstype (Ref a) fl) = AsksNumpy).
Proof.
  intros F e h a x fl L R N. assert (K := reached_nth h a x L R N). split; [|split; [|split]].
  - intros C ->. destruct x as [X| | | | | |]; try discriminate C. destruct (csr_held X K) as (CA & _ & _ & _ & _ & HD & A1 & A2 & _).
    rewrite (one_call e h _ (NewCsr (csr_nrows (py_arrays X)) (csr_ncols (py_arrays X)) (ptr (py_arrays X)) (idx (py_arrays X)) (dat (py_arrays X)) false)) by (cbn [dispatch api_astype]; rewrite N; reflexivity).
    unfold method. destruct (C67_valid_arrays F e h (csr_nrows (py_arrays X)) (csr_ncols (py_arrays X)) (ptr (py_arrays X)) (idx (py_arrays X)) [] [] [] [] (dat (py_arrays X)) false A1 A2) as (H & _).
    rewrite cs_eta in H. rewrite (H CA). do 4 f_equal. destruct X as [A HX]. cbn in *. subst HX. reflexivity.
  - intros C ->. unfold call_api. cbn [dispatch api_astype]. rewrite N. destruct x; try discriminate C. reflexivity.
  - intros S C. unfold call_api. cbn [dispatch]. unfold api_astype, is. rewrite N. destruct x as [| | | |[|] [|? [|]]|[|] [|? [|]]|[|] [|? [|]]]; try discriminate S; try reflexivity. exfalso. apply C. reflexivity.
  - intros S. unfold call_api. cbn [dispatch]. unfold api_astype, is. rewrite N. destruct x; try discriminate S; reflexivity.
Qed.
Print Assumptions C73_astype.

(** ** C74: the thread setting *)

(** What a program does with it: [set_num_threads(p / 2^q)], or changing the environment
    variable itself. *)
Inductive setting := SetThreads (p : Z) (q : nat) | SetVariable (v : env_var).
Definition configure (s : threads) (c : setting) : threads :=
  match c with SetThreads p q => set_num_threads s p q | SetVariable v => mkThreads (current s) v end.

(** [set_num_threads(n)] with a positive integer makes [get_num_threads()] answer [n]; with
    zero or a negative number it changes nothing. *)
Theorem C74_set_get : forall s n,
  (0 < n -> get_num_threads (set_num_threads s n 0) = n) /\ (forall p q, p <= 0 -> set_num_threads s p q = s).
Proof.
  intros s n. split.
  - intros H. unfold set_num_threads. replace (0 <? n) with true by lia. unfold get_num_threads. cbn [variable]. change (2 ^ Z.of_nat 0) with 1. rewrite Z.div_1_r. lia.
  - intros p q H. unfold set_num_threads. replace (0 <? p) with false by lia. reflexivity.
Qed.
Print Assumptions C74_set_get.

(** [get_num_threads()] is positive after any history of integer settings and changes of the
    variable, and after any history of settings alone. *)
Theorem C74_positive : forall s l, 1 <= current s ->
  Forall (fun c => match c with SetThreads _ q => q = 0%nat | SetVariable _ => True end) l \/ Forall (fun c => match c with SetThreads _ _ => True | SetVariable _ => False end) l ->
  1 <= get_num_threads (fold_left configure l s).
Proof.
  intros s l P [H|H].
  - assert (G : 1 <= current (fold_left configure l s)).
    { revert s P. induction H as [|c l Hc H IH]; intros s P; [exact P|]. cbn [fold_left]. apply IH. destruct c as [p q|v]; [|exact P]. subst q. cbn [configure]. unfold set_num_threads.
      change (2 ^ Z.of_nat 0) with 1. rewrite Z.div_1_r. destruct (0 <? p) eqn:B; cbn [current]; lia. }
    unfold get_num_threads. destruct (variable _); lia.
  - assert (G : 1 <= get_num_threads s) by (unfold get_num_threads; destruct (variable s); lia). clear P. revert s G. induction H as [|c l Hc H IH]; intros s G; [exact G|]. cbn [fold_left]. apply IH.
    destruct c as [p q|v]; [|contradiction]. cbn [configure]. unfold set_num_threads. destruct (0 <? p); [|exact G]. unfold get_num_threads. cbn [variable]. lia.
Qed.
Print Assumptions C74_positive.

(** Refuted for fractions: [set_num_threads(0.5)] stores 0, which [get_num_threads()] answers
    once the variable is removed. *)
Theorem C74_fraction_refuted : forall s, get_num_threads (fold_left configure [SetThreads 1 1; SetVariable Unset] s) = 0.
Proof. intros s. reflexivity. Qed.
Print Assumptions C74_fraction_refuted.
