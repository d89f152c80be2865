(** Property theorems about single calls on the objects of a running program, continued:
    products of matrices with dense arrays (C64). *)
Require Import List ZArith Bool Arith Lia Permutation.
Require Import ZifyBool ZifyNat.
Require Verif.PDense2 Verif.PSafe4.
Require Import Verif.Res Verif.Values Verif.Spec Verif.Mem Verif.Lists Verif.CsLib Verif.Laws Verif.FloatFacts Verif.Witness Verif.PropLinalg Verif.PropScalar Verif.SpecReduce Verif.SpecPy Verif.MLinalg Verif.MPy Verif.PPy2 Verif.PropPy2 Verif.PropStat Verif.MObj Verif.SpecObj Verif.PObj Verif.PropObj Verif.SpecCall Verif.SpecCall2 Verif.PCall Verif.PCall2 Verif.PCall3 Verif.PCall5 Verif.PropCall Verif.PropCall3.
Import ListNotations.
Local Open Scope Z_scope.

Section Helpers.
Context {F : Fl}.
Lemma floats_is : forall y sh (d : list F), floats y = Some (sh, d) -> as_float64 y = VArr sh d.
Proof. intros y sh d E. destruct y; try discriminate E; injection E as <- <-; reflexivity. Qed.
Lemma floats_none : forall y : value F, floats y = None -> as_float64 y = y /\ forall sh d, y <> VArr sh d.
Proof. intros y E. destruct y; try discriminate E; split; try reflexivity; discriminate. Qed.
Lemma arr_length : forall (h : list (value F)) b y sh d, NLaws F -> reached h -> nth_error h b = Some y -> floats y = Some (sh, d) -> length d = fold_right Nat.mul 1%nat sh.
Proof.
  intros h b y sh d L R N E. assert (K := proj1 (reached_nth h b _ L R N)). destruct y; try discriminate E; injection E as <- <-; cbn [regular] in K; rewrite ?map_length; exact K.
Qed.
Lemma mul_size : forall (h : list (value F)) a b x y sh d, nth_error h a = Some x -> nth_error h b = Some y -> floats y = Some (sh, d) -> class_of x <> None ->
  demand h (Matmul a b) < i64_max -> Z.max 1 (Z.of_nat (fst (shape2 x))) * shape_cells (map Z.of_nat sh) < i64_max.
Proof.
  intros h a b x y sh d N M E NC D. unfold demand in D. rewrite N, M in D. cbn [option_map] in D. rewrite (floats_is _ _ _ E) in D. destruct x; try (exfalso; apply NC; reflexivity); exact D.
Qed.
Lemma step_matmul : forall (e : Env F) h a b x y, nth_error h a = Some x -> nth_error h b = Some y -> step e h (Matmul a b) = (let! v := do_matmul e x (as_float64 y) in Ok (h ++ [v])).
Proof. intros e h a b x y N M. cbn [step exec]. rewrite (get_is _ _ _ N), (get_is _ _ _ M). reflexivity. Qed.
Lemma prod_app : forall a b, fold_right Nat.mul 1%nat (a ++ b) = (fold_right Nat.mul 1 a * fold_right Nat.mul 1 b)%nat.
Proof. apply PSafe4.count_app. Qed.
Lemma batch_whole : forall (l : list F) s, length l = s -> batch s 0 l = l.
Proof. intros l s H. unfold batch, slice. cbn [Nat.mul Nat.add]. rewrite Nat.add_0_r, Nat.sub_0_r. cbn [skipn]. rewrite <- H. apply firstn_all. Qed.
End Helpers.

(** [x @ y] and [matmul(x, y)]: a matrix times a vector, a matrix, or a stack of matrices of
    shape (bs..., n, k). *)
Theorem C64_matmul : forall (F : Fl) (e : Env F) h a b x y sh d, NLaws F -> fair e -> reached h ->
  nth_error h a = Some x -> nth_error h b = Some y -> floats y = Some (sh, d) -> class_of x <> None -> demand h (Matmul a b) < i64_max ->
  let m := fst (shape2 x) in let n := snd (shape2 x) in
  (sh = [] -> step e h (Matmul a b) = Panic) /\
  (forall l, sh = [l] -> l <> n -> step e h (Matmul a b) = Panic) /\
  (sh = [n] -> exists c, step e h (Matmul a b) = Ok (h ++ [VArr [m] c]) /\ length c = m /\ forall i, (i < m)%nat -> row_times x i d (nth i c f0)) /\
  (forall bs l k, sh = bs ++ [l; k] -> l <> n -> step e h (Matmul a b) = Panic) /\
  (forall bs k, sh = bs ++ [n; k] -> let s := fold_right Nat.mul 1%nat bs in
     (columns_ok x (s * k) -> exists R, step e h (Matmul a b) = Ok (h ++ [VArr (bs ++ [m; k]) R]) /\ stack_product (stored x) m n k s d R) /\
     (~ columns_ok x (s * k) -> step e h (Matmul a b) = Panic)).
Proof.
  intros F e h a b x y sh d L FE R N M EF NC D m n. assert (K := reached_nth h a x L R N). assert (LD := arr_length h b y sh d L R M EF). apply (mul_size _ _ _ _ _ _ _ N M EF NC) in D.
  rewrite (step_matmul e h a b _ _ N M), (floats_is _ _ _ EF). destruct (do_matmul_is e FE L x K NC) as (mv & mm & E & HV & HM & HP). rewrite E. fold m n. fold m in D.
  unfold mv_is in HV. unfold mm_is in HM. rewrite (surjective_pairing (shape2 x)) in HV, HM. fold m n in HV, HM.
  split; [intros ->; reflexivity|]. split; [intros l -> NE; unfold py_matmul; cbn [rev app]; destruct (Nat.eqb_spec l n); [contradiction|reflexivity]|].
  split.
  { intros ->. cbn [fold_right] in LD. rewrite Nat.mul_1_r in LD. destruct (HV d LD) as (c & EC & LC & HC). exists c. unfold py_matmul. cbn [rev app]. rewrite Nat.eqb_refl, EC. cbn. auto. }
  split; [intros bs l k -> NE; rewrite C49_inner_mismatch by auto; reflexivity|].
  intros bs k -> s. destruct (batch_alloc m n k bs D) as [A1 A2]. fold s in A1, A2. rewrite prod_app in LD. fold s in LD. cbn [fold_right] in LD.
  split.
  - intros CK. destruct (list_eq_dec Nat.eq_dec bs []) as [->|NB].
    + cbn [fold_right] in s. subst s. rewrite !Nat.mul_1_l in *. cbn [app]. unfold py_matmul. cbn [rev app]. rewrite Nat.eqb_refl.
      destruct (HM d k CK) as (c & EC & LC & HC); auto; [lia|]. exists c. rewrite EC. split; [reflexivity|]. split; [lia|]. intros q i j Hq Hi Hj. replace q with 0%nat by lia.
      rewrite !batch_whole by lia. apply HC; auto.
    + destruct (py_matmul_batched mv mm m n (stored x) bs k d NB) as (Q & EQ & LQ & HQ); fold s; [lia|intros y2 L2; apply HM; auto|].
      exists Q. rewrite EQ. split; [reflexivity|]. split; [exact LQ|]. intros q i c Hq Hi Hc. rewrite batch_nth by auto. apply HQ; auto.
  - intros CK. destruct x as [X|X|X|X|? ?|? ?|? ?]; cbn [columns_ok] in CK; try (exfalso; apply CK; exact I). assert (EZ : (s * k = 0)%nat) by lia. specialize (HP eq_refl).
    assert (d = []) as -> by (apply length_zero_iff_nil; nia). destruct (list_eq_dec Nat.eq_dec bs []) as [->|NB].
    + cbn [app]. unfold py_matmul. cbn [rev app]. rewrite Nat.eqb_refl. assert (k = 0%nat) as -> by (cbn in s; subst s; lia). rewrite HP. reflexivity.
    + unfold py_matmul. rewrite rev_app_distr. cbn [rev app]. destruct (rev bs) as [|b0 rb] eqn:ER.
      { apply (f_equal (@rev nat)) in ER. rewrite rev_involutive in ER. cbn in ER. congruence. }
      rewrite Nat.eqb_refl. rewrite <- ER, rev_involutive. fold s. destruct (swap01_ok s n k (@nil F)) as (y2 & E2 & L2 & _); [cbn; nia|].
      rewrite E2. cbn [bind]. rewrite EZ. assert (y2 = []) as ->. { apply length_zero_iff_nil. rewrite L2. nia. } rewrite HP. reflexivity.
Qed.
Print Assumptions C64_matmul.

(** Only a matrix times a dense array is a product: everything else raises. *)
Theorem C64_matmul_operands : forall (F : Fl) (e : Env F) h a b x y, nth_error h a = Some x -> nth_error h b = Some y ->
  class_of x = None \/ floats y = None -> step e h (Matmul a b) = Panic.
Proof.
  intros F e h a b x y N M H. rewrite (step_matmul e h a b _ _ N M). destruct H as [H|H].
  - destruct x; try discriminate H; reflexivity.
  - destruct y; try discriminate H; destruct x; reflexivity.
Qed.
Print Assumptions C64_matmul_operands.

(** [tensordot(x, y)] of a matrix: over the columns of [x] and the first axis of [y], with
    [axes] 1 (here [None]) or ([1], [0]) (here [Some 1]). *)
Theorem C64_tensordot : forall (F : Fl) (e : Env F) h a b x sh d axis, NLaws F -> fair e -> reached h ->
  nth_error h a = Some x -> nth_error h b = Some (VArr sh d) -> class_of x <> None -> demand h (Tensordot a b axis) < i64_max ->
  let m := fst (shape2 x) in let n := snd (shape2 x) in
  (~ (axis = None \/ axis = Some 1) -> step e h (Tensordot a b axis) = Panic) /\
  (axis = None \/ axis = Some 1 ->
    (sh = [] -> step e h (Tensordot a b axis) = Panic) /\
    (forall l, sh = [l] -> step e h (Tensordot a b axis) = step e h (Matmul a b)) /\
    (forall l rest, sh = l :: rest -> l <> n -> step e h (Tensordot a b axis) = Panic) /\
    (forall rest, sh = n :: rest -> rest <> [] -> let k := fold_right Nat.mul 1%nat rest in
       (columns_ok x k -> exists R, step e h (Tensordot a b axis) = Ok (h ++ [VArr (m :: rest) R]) /\ length R = (m * k)%nat /\
          forall i c, (i < m)%nat -> (c < k)%nat -> FSum (dot_terms (stored x) n (column d n k c) i) (nth (i * k + c) R f0)) /\
       (~ columns_ok x k -> step e h (Tensordot a b axis) = Panic))).
Proof.
  intros F e h a b x sh d axis L FE R N M NC D m n. assert (K := reached_nth h a x L R N). assert (LD := arr_length h b _ sh d L R M eq_refl). apply (mul_size _ _ _ _ _ _ _ N M eq_refl NC) in D. fold m in D.
  assert (ST : step e h (Tensordot a b axis) = (let! v := do_tensordot e x (VArr sh d) axis in Ok (h ++ [v]))) by (cbn [step exec]; rewrite (get_is _ _ _ N), (get_is _ _ _ M); reflexivity).
  rewrite ST. split.
  { intros NA. assert (EA : match axis with None => true | Some ax => ax =? 1 end = false). { destruct axis as [z|]; [|exfalso; auto]. apply Z.eqb_neq. intros ->. auto. }
    destruct x; try (exfalso; apply NC; reflexivity); unfold do_tensordot; rewrite EA; reflexivity. }
  intros OA. assert (EA : match axis with None => true | Some ax => ax =? 1 end = true) by (destruct OA as [-> | ->]; reflexivity).
  assert (E1 : forall l, sh = [l] -> do_tensordot e x (VArr sh d) axis = do_matmul e x (VArr sh d)).
  { intros l ->. destruct x; try (exfalso; apply NC; reflexivity); unfold do_tensordot; rewrite EA; reflexivity. }
  split; [intros ->; destruct x; try (exfalso; apply NC; reflexivity); unfold do_tensordot; rewrite EA; reflexivity|].
  split; [intros l EL; rewrite (step_matmul e h a b _ _ N M), (E1 l EL); reflexivity|].
  split.
  { intros l rest ES NE. destruct rest as [|r rest].
    - rewrite (E1 l ES). assert (D' : demand h (Matmul a b) < i64_max) by (unfold demand; rewrite N, M; destruct x; try (exfalso; apply NC; reflexivity); exact D).
      change (VArr sh d) with (as_float64 (VArr sh d)). rewrite <- (step_matmul e h a b _ _ N M). apply (proj1 (proj2 (C64_matmul F e h a b x _ sh d L FE R N M eq_refl NC D')) l); auto.
    - subst sh. destruct x as [X|X|X|X|? ?|? ?|? ?]; try (exfalso; apply NC; reflexivity); unfold do_tensordot; rewrite EA; cbn [bind]; cbn [shape2 snd] in n; fold n; destruct (Nat.eqb_spec l n); try contradiction; reflexivity. }
  intros rest -> NR k. destruct (do_tensordot_is e FE L x K NC) as (mm & HM & HP & E). unfold n. rewrite E by auto. fold m n k. clear E.
  destruct (PDense2.alloc_rest _ _ _ D) as (_ & A1 & A2). unfold mm_is in HM. rewrite (surjective_pairing (shape2 x)) in HM. fold m n in HM. split.
  - intros CK. destruct (HM d k CK LD A1 A2) as (c & EC & LC & HC). exists c. rewrite EC. cbn [bind]. unfold tensordot_result, reshape_to. cbn [tl fold_right]. fold k. rewrite LC, Nat.mul_1_r, Nat.eqb_refl. cbn [bind arr_new]. auto.
  - intros CK. destruct x as [X|X|X|X|? ?|? ?|? ?]; cbn [columns_ok] in CK; try (exfalso; apply CK; exact I). assert (EZ : (k = 0)%nat) by lia. cbn [fold_right] in LD. fold k in LD.
    rewrite EZ in *. assert (d = []) as -> by (apply length_zero_iff_nil; lia). rewrite (HP eq_refl). reflexivity.
Qed.
Print Assumptions C64_tensordot.

(** [vecdot(x, v, axis)] of a matrix: over the columns (axis 1, -1 or absent) the product with
    the vector, over the rows (axis 0) the product of the transposed matrix. *)
Theorem C64_vecdot : forall (F : Fl) (e : Env F) h a b x l d axis, NLaws F -> fair e -> reached h ->
  nth_error h a = Some x -> nth_error h b = Some (VArr [l] d) -> class_of x <> None ->
  let m := fst (shape2 x) in let n := snd (shape2 x) in
  (axis = None \/ axis = Some 1 \/ axis = Some (-1) -> step e h (Vecdot a b axis) = step e h (Matmul a b)) /\
  (l = m -> exists c, step e h (Vecdot a b (Some 0)) = Ok (h ++ [VArr [n] c]) /\ length c = n /\ forall j, (j < n)%nat -> col_times x j d (nth j c f0)) /\
  (l <> m -> step e h (Vecdot a b (Some 0)) = Panic) /\
  (forall z, z < -1 \/ 1 < z -> step e h (Vecdot a b (Some z)) = Panic).
Proof.
  intros F e h a b x l d axis L FE R N M NC m n. assert (K := reached_nth h a x L R N). assert (LD := arr_length h b _ _ d L R M eq_refl). cbn [fold_right] in LD. rewrite Nat.mul_1_r in LD.
  assert (ST : forall axis, step e h (Vecdot a b axis) = (let! v := do_vecdot e x (VArr [l] d) axis in Ok (h ++ [v]))) by (intros; cbn [step exec]; rewrite (get_is _ _ _ N), (get_is _ _ _ M); reflexivity).
  rewrite !ST. split; [|split; [|split]].
  - intros HA. rewrite (step_matmul e h a b _ _ N M). destruct x; try (exfalso; apply NC; reflexivity); destruct HA as [-> | [-> | ->]]; reflexivity.
  - intros ->. destruct (do_vecdot_axis0 e FE L x d K NC LD) as (c & E & LC & HC). exists c. fold m in E. rewrite E. auto.
  - intros NE. destruct x as [X|X|X|X|? ?|? ?|? ?]; try (exfalso; apply NC; reflexivity); unfold do_vecdot; change (0 =? -1) with false; change (0 =? 1) with false; change (0 =? 0) with true; cbv iota;
      cbn [shape2 fst] in m; fold m; destruct (Nat.eqb_spec l m); try contradiction; reflexivity.
  - intros z Hz. rewrite ST. assert (z =? -1 = false) by lia. assert (z =? 1 = false) by lia. assert (z =? 0 = false) by lia.
    destruct x; try (exfalso; apply NC; reflexivity); unfold do_vecdot; rewrite H, H0, H1; reflexivity.
Qed.
Print Assumptions C64_vecdot.

(** Integer and boolean arrays: one-dimensional ones are multiplied like floats (over the
    columns); otherwise, and for any other operand, [tensordot] and [vecdot] raise. *)
Theorem C64_other_operands : forall (F : Fl) (e : Env F) h a b x y axis, nth_error h a = Some x -> nth_error h b = Some y ->
  let vector := exists l d, floats y = Some ([l], d) in
  ((forall sh d, y <> VArr sh d) -> class_of x <> None -> vector -> axis = None \/ axis = Some 1 ->
     step e h (Tensordot a b axis) = step e h (Matmul a b) /\ step e h (Vecdot a b axis) = step e h (Matmul a b) /\ step e h (Vecdot a b (Some (-1))) = step e h (Matmul a b)) /\
  ((forall sh d, y <> VArr sh d) -> class_of x = None \/ ~ vector \/ ~ (axis = None \/ axis = Some 1) -> step e h (Tensordot a b axis) = Panic) /\
  ((forall sh d, y <> VArr sh d) -> class_of x = None \/ ~ vector \/ ~ (axis = None \/ axis = Some 1 \/ axis = Some (-1)) -> step e h (Vecdot a b axis) = Panic) /\
  (~ vector -> step e h (Vecdot a b axis) = Panic) /\
  (class_of x = None -> (forall A, x <> VNd A) -> step e h (Tensordot a b axis) = Panic /\ step e h (Vecdot a b axis) = Panic).
Proof.
  intros F e h a b x y axis N M vector.
  assert (S1 : step e h (Tensordot a b axis) = (let! v := do_tensordot e x y axis in Ok (h ++ [v]))) by (cbn [step exec]; rewrite (get_is _ _ _ N), (get_is _ _ _ M); reflexivity).
  assert (S2 : forall axis, step e h (Vecdot a b axis) = (let! v := do_vecdot e x y axis in Ok (h ++ [v]))) by (intros; cbn [step exec]; rewrite (get_is _ _ _ N), (get_is _ _ _ M); reflexivity).
  rewrite S1, !S2. split; [|split; [|split; [|split]]].
  - intros NA NC (l & d & E) OA. rewrite (step_matmul e h a b _ _ N M).
    destruct y as [| | | |sh w|sh w|sh w]; try discriminate E; [exfalso; apply (NA sh w); reflexivity| |]; injection E as -> <-; cbn [do_tensordot do_vecdot as_float64];
      (destruct OA as [-> | ->]; [|change (1 =? 1) with true; change (1 =? -1) with false]; change (-1 =? -1) with true; cbn [bind orb]; auto).
  - intros NA H. destruct y as [| | | |sh w|sh w|sh w]; try reflexivity; [exfalso; apply (NA sh w); reflexivity| |];
      (destruct sh as [|l [|]]; try reflexivity; cbn [do_tensordot as_float64]; destruct H as [H|[H|H]];
       [destruct x; try discriminate H; (destruct axis as [z|]; [destruct (z =? 1)|]); reflexivity
       |exfalso; apply H; eexists l, _; reflexivity
       |destruct axis as [z|]; [|exfalso; auto]; destruct (Z.eqb_spec z 1) as [->|]; [exfalso; auto|reflexivity]]).
  - intros NA H. destruct y as [| | | |sh w|sh w|sh w]; try reflexivity; [exfalso; apply (NA sh w); reflexivity| |];
      (destruct sh as [|l [|]]; try reflexivity; cbn [do_vecdot as_float64]; destruct H as [H|[H|H]];
       [destruct x; try discriminate H; (destruct axis as [z|]; [destruct ((z =? -1) || (z =? 1))|]); reflexivity
       |exfalso; apply H; eexists l, _; reflexivity
       |destruct axis as [z|]; [|exfalso; auto]; destruct (Z.eqb_spec z (-1)) as [->|]; [exfalso; auto|]; destruct (Z.eqb_spec z 1) as [->|]; [exfalso; auto|reflexivity]]).
  - intros H. destruct y as [| | | |[|l [|]] w|[|l [|]] w|[|l [|]] w]; try reflexivity; exfalso; apply H; eexists l, _; reflexivity.
  - intros NC ND. split.
    + destruct x; try discriminate NC; try (exfalso; eapply ND; reflexivity); unfold do_tensordot; destruct y as [| | | |[|l0 [|]] d0|[|l0 [|]] d0|[|l0 [|]] d0]; try reflexivity;
        (destruct axis as [z|]; [destruct (z =? 1)|]); reflexivity.
    + destruct x; try discriminate NC; try (exfalso; eapply ND; reflexivity); unfold do_vecdot; destruct y as [| | | |[|l0 [|]] d0|[|l0 [|]] d0|[|l0 [|]] d0]; try reflexivity;
        first [destruct (_ =? 1); try reflexivity; destruct (_ =? 0); reflexivity | (destruct axis as [z|]; [destruct (_ || _)|]); reflexivity].
Qed.
Print Assumptions C64_other_operands.

(** *** The theorems apply *)
Lemma reached_new_arr : forall (F : Fl) (e : Env F) (h : list (value F)) sh d, NLaws F -> fair e -> reached h ->
  length d = fold_right Nat.mul 1%nat sh -> fits (VArr sh d) = true -> reached (h ++ [VArr sh d]).
Proof.
  intros F e h sh d L FE R LD FT. eapply reached_call with (e := e) (c := NewArr sh d); [exact R|exact FE|exact I|intros []|reflexivity| |].
  - cbn [step exec]. unfold new_arr, reshape_to. rewrite (proj2 (Nat.eqb_eq _ _) LD). reflexivity.
  - rewrite forallb_app. cbn [forallb]. rewrite FT, andb_true_r. apply forallb_forall. intros x I.
    assert (H := reached_held L h R). rewrite Forall_forall in H. apply (H x I).
Qed.
(** 8: [1 2; 3 4; 5 6]; 9: two 3x1 matrices; 10: a vector of two *)
Definition state3 : list (value (f64 pw0)) :=
  ((state2 ++ [VArr [3; 2]%nat [fz 1; fz 2; fz 3; fz 4; fz 5; fz 6]]) ++ [VArr [2; 3; 1]%nat [fz 1; fz 2; fz 3; fz 4; fz 5; fz 6]]) ++ [VArr [2]%nat [fz 10; fz 100]].
Lemma state3_reached : reached state3.
Proof. unfold state3. do 3 (apply (reached_new_arr _ env2); [apply f64_laws|exact env2_fair| |reflexivity|reflexivity]). exact state2_reached. Qed.
Lemma obj3 a : (a < 8)%nat -> nth_error state3 a = Some (obj a).
Proof.
  intros H. assert (N := obj_is a H). assert (L : length state2 = 8%nat) by (vm_compute; reflexivity). unfold state3.
  rewrite !nth_error_app1 by (rewrite ?app_length, L; cbn [length]; lia). exact N.
Qed.
Lemma arr3 : nth_error state3 8 = Some (VArr [3; 2]%nat [fz 1; fz 2; fz 3; fz 4; fz 5; fz 6]) /\
  nth_error state3 9 = Some (VArr [2; 3; 1]%nat [fz 1; fz 2; fz 3; fz 4; fz 5; fz 6]) /\ nth_error state3 10 = Some (VArr [2]%nat [fz 10; fz 100]).
Proof.
  assert (L : length state2 = 8%nat) by (vm_compute; reflexivity). unfold state3. split; [|split].
  - rewrite nth_error_app1 by (rewrite !app_length, L; cbn; lia). rewrite nth_error_app1 by (rewrite !app_length, L; cbn; lia). rewrite nth_error_app2 by lia. rewrite L. reflexivity.
  - rewrite nth_error_app1 by (rewrite !app_length, L; cbn; lia). rewrite nth_error_app2 by (rewrite !app_length, L; cbn; lia). rewrite !app_length, L. reflexivity.
  - rewrite nth_error_app2 by (rewrite !app_length, L; cbn; lia). rewrite !app_length, L. reflexivity.
Qed.

Lemma demand3 c x sh d : match c with Matmul a b | Tensordot a b _ => nth_error state3 a = Some x /\ nth_error state3 b = Some (VArr sh d) | _ => False end ->
  class_of x <> None -> Z.max 1 (Z.of_nat (fst (shape2 x))) * shape_cells (map Z.of_nat sh) < i64_max -> demand state3 c < i64_max.
Proof.
  destruct c; try contradiction; intros [N M] NC H; unfold demand; rewrite N, M; cbn [option_map as_float64]; destruct x; try (exfalso; apply NC; reflexivity); exact H.
Qed.

Lemma not_csr_columns (x : value (f64 pw0)) k : match x with VCsr _ => false | _ => true end = true -> columns_ok x k.
Proof. destruct x; [discriminate| | | | | |]; intros _; exact I. Qed.
Example C64_matmul_nonvacuous :
  (exists c, step env2 state3 (Matmul 0 7) = Ok (state3 ++ [VArr [2%nat] c]) /\ nth 0 c f0 = fz 5 /\ nth 1 c f0 = fz 8) /\
  (exists R, step env2 state3 (Matmul 2 8) = Ok (state3 ++ [VArr [2; 2]%nat R]) /\ stack_product (stored (obj 2)) 2 3 2 1 [fz 1; fz 2; fz 3; fz 4; fz 5; fz 6] R) /\
  (exists R, step env2 state3 (Matmul 1 9) = Ok (state3 ++ [VArr [2; 2; 1]%nat R]) /\ stack_product (stored (obj 1)) 2 3 1 2 [fz 1; fz 2; fz 3; fz 4; fz 5; fz 6] R) /\
  step env2 state3 (Matmul 0 10) = Panic /\ step env2 state3 (Matmul 6 8) = Panic /\ step env2 state3 (Matmul 7 8) = Panic.
Proof.
  destruct arr3 as (A8 & A9 & A10). assert (A7 : nth_error state3 7 = Some (VArr [3%nat] [fz 5; fz 2; fz 0])) by (rewrite obj3 by lia; rewrite <- (obj_is 7) by lia; exact V7_is).
  assert (S : shape2 (obj 0) = (2, 3)%nat /\ shape2 (obj 1) = (2, 3)%nat /\ shape2 (obj 2) = (2, 3)%nat /\ shape2 (obj 6) = (3, 2)%nat) by (repeat split; vm_compute; reflexivity).
  destruct S as (S0 & S1 & S2 & S6).
  assert (G : forall a b sh d, (a < 8)%nat -> nth_error state3 b = Some (VArr sh d) -> class_of (obj a) <> None -> Z.max 1 (Z.of_nat (fst (shape2 (obj a)))) * shape_cells (map Z.of_nat sh) < i64_max -> _) by
    (intros a b sh d Ha Hb NC D; exact (C64_matmul _ env2 state3 a b (obj a) _ sh d (f64_laws pw0) env2_fair state3_reached (obj3 a Ha) Hb eq_refl NC (demand3 (Matmul a b) _ _ _ (conj (obj3 a Ha) Hb) NC D))).
  split; [|split; [|split; [|split; [|split]]]].
  - destruct (G 0%nat 7%nat _ _ ltac:(lia) A7 ltac:(vm_compute; discriminate) ltac:(rewrite S0; reflexivity)) as (_ & _ & H & _). rewrite S0 in H. destruct (H eq_refl) as (c & E & _ & V).
    exists c. split; [exact E|]. assert (V0 := V 0%nat ltac:(cbn; lia)). assert (V1 := V 1%nat ltac:(cbn; lia)). unfold row_times in V0, V1.
    assert (K : match obj 0 with VCsr _ => true | _ => false end = true) by (vm_compute; reflexivity). destruct (obj 0) as [X| | | | | |] eqn:EO; try discriminate K. rewrite V0, V1, <- EO. split; vm_compute; reflexivity.
  - destruct (G 2%nat 8%nat _ _ ltac:(lia) A8 ltac:(vm_compute; discriminate) ltac:(rewrite S2; reflexivity)) as (_ & _ & _ & _ & H). rewrite S2 in H. destruct (H [] 2%nat eq_refl) as [H1 _].
    specialize (H1 (not_csr_columns (obj 2) _ ltac:(vm_compute; reflexivity))).
    destruct H1 as (R & E & V).
    exists R.
    split; [exact E|exact V].
  - destruct (G 1%nat 9%nat _ _ ltac:(lia) A9 ltac:(vm_compute; discriminate) ltac:(rewrite S1; reflexivity)) as (_ & _ & _ & _ & H). rewrite S1 in H. destruct (H [2%nat] 1%nat eq_refl) as [H1 _].
    specialize (H1 (not_csr_columns (obj 1) _ ltac:(vm_compute; reflexivity))).
    destruct H1 as (R & E & V).
    exists R.
    split; [exact E|exact V].
  - destruct (G 0%nat 10%nat _ _ ltac:(lia) A10 ltac:(vm_compute; discriminate) ltac:(rewrite S0; reflexivity)) as (_ & H & _). apply (H 2%nat eq_refl). rewrite S0. discriminate.
  - destruct (G 6%nat 8%nat _ _ ltac:(lia) A8 ltac:(vm_compute; discriminate) ltac:(rewrite S6; reflexivity)) as (_ & _ & _ & H & _). apply (H [] 3%nat 2%nat eq_refl). rewrite S6. discriminate.
  - apply (C64_matmul_operands _ env2 state3 7 8 _ _ A7 A8). left. reflexivity.
Qed.

Example C64_tensordot_nonvacuous :
  (exists R, step env2 state3 (Tensordot 1 8 (Some 1)) = Ok (state3 ++ [VArr [2; 2]%nat R]) /\ FSum (dot_terms (stored (obj 1)) 3 [fz 2; fz 4; fz 6] 1) (nth 3 R f0)) /\
  dot_terms (stored (obj 1)) 3 [fz 2; fz 4; fz 6] 1 = [fz 8] /\
  step env2 state3 (Tensordot 1 8 (Some 0)) = Panic /\ step env2 state3 (Tensordot 1 5 None) = Panic.
Proof.
  destruct arr3 as (A8 & A9 & A10). assert (S1 : shape2 (obj 1) = (2, 3)%nat) by (vm_compute; reflexivity). assert (NC : class_of (obj 1) <> None) by (vm_compute; discriminate).
  assert (G : forall ax, _) by (intros ax; exact (C64_tensordot _ env2 state3 1 8 (obj 1) _ _ ax (f64_laws pw0) env2_fair state3_reached (obj3 1 ltac:(lia)) A8 NC
    (demand3 (Tensordot 1 8 ax) _ _ _ (conj (obj3 1 ltac:(lia)) A8) NC ltac:(rewrite S1; reflexivity)))).
  split; [|split; [|split]].
  - destruct (G (Some 1)) as (_ & H). destruct (H (or_intror eq_refl)) as (_ & _ & _ & H1). rewrite S1 in H1. destruct (H1 [2%nat] eq_refl ltac:(discriminate)) as [H2 _].
    specialize (H2 (not_csr_columns (obj 1) _ ltac:(vm_compute; reflexivity))).
    destruct H2 as (R & E & _ & V).
    exists R. split; [exact E|]. apply (V 1%nat 1%nat); cbn; lia.
  - vm_compute. reflexivity.
  - destruct (G (Some 0)) as (H & _). apply H. intros [Q|Q]; discriminate Q.
  - assert (K : match obj 5 with VNd _ => true | _ => false end = true) by (vm_compute; reflexivity).
    apply (proj1 (proj2 (C64_other_operands _ env2 state3 1 5 (obj 1) (obj 5) None (obj3 1 ltac:(lia)) (obj3 5 ltac:(lia))))).
    + intros sh d Q. rewrite Q in K. discriminate K.
    + right. left. intros (l & d & Q). destruct (obj 5); discriminate.
Qed.

Example C64_vecdot_nonvacuous :
  (exists c, step env2 state3 (Vecdot 1 10 (Some 0)) = Ok (state3 ++ [VArr [3%nat] c]) /\ nth 0 c f0 = fz 50 /\ nth 1 c f0 = fz 200) /\
  step env2 state3 (Vecdot 6 10 (Some 0)) = Panic /\ step env2 state3 (Vecdot 1 8 (Some 0)) = Panic.
Proof.
  destruct arr3 as (A8 & A9 & A10). assert (S1 : shape2 (obj 1) = (2, 3)%nat) by (vm_compute; reflexivity). assert (S6 : shape2 (obj 6) = (3, 2)%nat) by (vm_compute; reflexivity).
  split; [|split].
  - destruct (C64_vecdot _ env2 state3 1 10 (obj 1) _ _ (Some 0) (f64_laws pw0) env2_fair state3_reached (obj3 1 ltac:(lia)) A10 ltac:(vm_compute; discriminate)) as (_ & H & _). rewrite S1 in H.
    destruct (H eq_refl) as (c & E & _ & V). exists c. split; [exact E|]. assert (V0 := V 0%nat ltac:(cbn; lia)). assert (V1 := V 1%nat ltac:(cbn; lia)). unfold col_times in V0, V1.
    assert (K : match obj 1 with VCsc _ => true | _ => false end = true) by (vm_compute; reflexivity). destruct (obj 1) as [|X| | | | |] eqn:EO; try discriminate K. rewrite V0, V1, <- EO. split; vm_compute; reflexivity.
  - destruct (C64_vecdot _ env2 state3 6 10 (obj 6) _ _ (Some 0) (f64_laws pw0) env2_fair state3_reached (obj3 6 ltac:(lia)) A10 ltac:(vm_compute; discriminate)) as (_ & _ & H & _). apply H. rewrite S6. discriminate.
  - apply (proj1 (proj2 (proj2 (proj2 (C64_other_operands _ env2 state3 1 8 (obj 1) _ (Some 0) (obj3 1 ltac:(lia)) A8))))). intros (l & d & Q). discriminate.
Qed.
