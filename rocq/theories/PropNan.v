(** Property theorems: a NaN is not lost (C90). *)
Require Import List ZArith Bool Arith Lia Permutation.
Require Import Coq.Floats.SpecFloat.
Require Import Verif.Res Verif.Values Verif.Spec Verif.Mem Verif.Laws Verif.Witness Verif.SpecReduce Verif.SpecDiff Verif.SpecPy Verif.MPy Verif.PPy Verif.PropPy2 Verif.PropStat Verif.MObj Verif.SpecObj Verif.PObj Verif.PropObj Verif.SpecCall Verif.SpecCall2 Verif.PropCall Verif.PropCall2 Verif.PropCall3 Verif.PropCall4 Verif.PropCall5 Verif.PropCall6 Verif.PropCall7 Verif.PropDiff Verif.PropNd Verif.PropNd2 Verif.PCall Verif.PNan.
Require Verif.PInt Verif.PCall3 Verif.PDense2 Verif.PropAccuracy3.
Import ListNotations.
Local Open Scope Z_scope.

Notation nan := S754_nan.
(** What the cells of a matrix store ([[]] or one value): all of them, by columns, by rows. *)
Definition all_cells {pw} (x : value (f64 pw)) : list (list (f64 pw)) := map (fun p => stored x (fst p) (snd p)) (grid (fst (shape2 x)) (snd (shape2 x))).
Definition columns {pw} (x : value (f64 pw)) : list (list (list (f64 pw))) := map (fun j => map (fun i => stored x i j) (seq 0 (fst (shape2 x)))) (seq 0 (snd (shape2 x))).
Definition rows {pw} (x : value (f64 pw)) : list (list (list (f64 pw))) := map (fun i => map (fun j => stored x i j) (seq 0 (snd (shape2 x)))) (seq 0 (fst (shape2 x))).
(** [w], computed from the cells of [line], is NaN if one of them is; for a variance if the number
    of cells exceeds the correction, for a product if every cell is stored. *)
Definition keeps_nan {pw} (op : rop (F := f64 pw)) (w : f64 pw) (line : list (list (f64 pw))) : Prop :=
  In [nan : f64 pw] line ->
  match op with
  | RSum | RMean => w = nan
  | RVar c | RStd c => let d := fsub (fofZ (Z.of_nat (length line))) c in fltb d f0 = false -> feqb d f0 = false -> w = nan
  | RProd => ~ In [] line -> w = nan
  | _ => True
  end.

Section Steps.
Context {pw : spec_float -> spec_float -> spec_float}.
Notation F := (f64 pw).
Implicit Types (h : list (value F)) (x y z : value F).

Lemma reduction_lines : forall {A B} (P : A -> B -> Prop) t T cs CS rs RS ax kd sh ls, P t T -> Forall2 P cs CS -> Forall2 P rs RS -> reduction_2d T CS RS ax kd = Some (sh, ls) ->
  exists l, reduction_2d t cs rs ax kd = Some (sh, l) /\ Forall2 P l ls.
Proof.
  intros A B P t T cs CS rs RS ax kd sh ls HT HC HR E. assert (FL : forall (X : list A) (Y : list B) (Z0 : Forall2 P X Y), length X = length Y) by (intros X Y Z0; induction Z0; cbn [length]; congruence). assert (L1 := FL _ _ HC). assert (L2 := FL _ _ HR). unfold reduction_2d in *.
  destruct ax as [|a|l].
  - injection E as <- <-. eexists. split; [reflexivity|]. constructor; [exact HT|constructor].
  - destruct (forallb (axis_valid 2) [a]); [|discriminate E]. destruct (existsb _ _); destruct (existsb _ _); try discriminate E; injection E as <- <-; rewrite ?L1, ?L2; eexists; (split; [reflexivity|]); try assumption. constructor; [exact HT|constructor].
  - destruct l as [|a l]; [discriminate E|]. destruct (forallb (axis_valid 2) (a :: l)); [|discriminate E]. destruct (existsb _ _); destruct (existsb _ _); try discriminate E; injection E as <- <-; rewrite ?L1, ?L2; eexists; (split; [reflexivity|]); try assumption. constructor; [exact HT|constructor].
Qed.
Lemma lines_seq : forall {A B} (P : A -> B -> Prop) (d : list A) n (f : nat -> B) w, length d = n -> (forall i, (i < n)%nat -> P (nth i d w) (f i)) -> Forall2 P d (map f (seq 0 n)).
Proof.
  intros A B P d n f w L G. apply (PInt.F2_intro P d (map f (seq 0 n)) w (f 0%nat)); [rewrite map_length, seq_length; exact L|]. intros i Hi. rewrite L in Hi.
  rewrite (map_nth f (seq 0 n) 0%nat i), seq_nth by exact Hi. apply G. exact Hi.
Qed.
Lemma reduces_nan : forall {J} op (c : J -> list F) js (w : F), reduces op c js w -> keeps_nan op w (map c js).
Proof.
  intros J op c js w R I. assert (I' : In (nan : F) (map (fun j => one_or f0 (c j)) js)) by (apply in_map_iff in I; destruct I as (j & E & I); apply in_map_iff; exists j; rewrite E; auto).
  assert (VAR : forall q v, var_of (flat_map c js) (Z.of_nat (length js)) q v -> let d := fsub (fofZ (Z.of_nat (length js))) q in fltb d f0 = false -> feqb d f0 = false -> v = nan).
  { intros q v [_ (s & s2 & S & S2 & _ & _ & V)] d D1 D2. rewrite (V ltac:(destruct js; [destruct I|cbn [length]; lia]) D1 D2). rewrite (line_squares c js s2 S2 I'). reflexivity. }
  destruct op as [| | | | |q|q| | | ]; try exact Logic.I; cbn [reduces] in R.
  - apply (line_sum c js w R I').
  - destruct R as (s & S & ->). rewrite (line_sum c js s S I'). reflexivity.
  - intros NE. apply (line_prod c js w R); [|exact I']. apply Forall_forall. intros j Hj E. apply NE. rewrite <- E. apply in_map. exact Hj.
  - rewrite map_length. apply (VAR q w R).
  - destruct R as (v & -> & V). rewrite map_length. intros d D1 D2. rewrite (VAR q v V D1 D2). reflexivity.
Qed.
End Steps.

(** ** C90 *)

(** sum, mean, var, std and prod, for every [axis] and [keepdims]. *)
Theorem C90_reductions : forall pw (e : Env (f64 pw)) h a x op axis kd sh ls, fair e -> reached h -> nth_error h a = Some x -> class_of x <> None -> numeric op = true -> can_reduce e op x ->
  reduction_2d (all_cells x) (columns x) (rows x) axis kd = Some (sh, ls) ->
  exists l, step e h (Reduce op a axis kd) = Ok (h ++ [VArr sh l]) /\ Forall2 (keeps_nan op) l ls.
Proof.
  intros pw e h a x op axis kd sh ls FE R Na NC NU CR ER.
  destruct (C62_reductions pw e h a x op FE R Na NC NU CR) as (t & cs & rs & Q1 & Q2 & Q3 & Q4 & Q5 & Q6).
  destruct (reduction_lines (keeps_nan op) t (all_cells x) cs (columns x) rs (rows x) axis kd sh ls) as (l & EL & RL); [| | |exact ER|].
  - apply reduces_nan. exact Q1.
  - apply (lines_seq _ _ _ _ (f0 : f64 pw) Q2). intros j Hj. apply (reduces_nan op (fun i => stored x i j)). apply Q3. exact Hj.
  - apply (lines_seq _ _ _ _ (f0 : f64 pw) Q4). intros i Hi. apply (reduces_nan op (fun j => stored x i j)). apply Q5. exact Hi.
  - exists l. split; [rewrite Q6; unfold reduction_result; rewrite EL; reflexivity|exact RL].
Qed.
Print Assumptions C90_reductions.

(** Cumulative sums: everything from the NaN on; cumulative products: if every cell up to there is
    stored. Not for CSC along axis 1 (C40). *)
Theorem C90_cumulative : forall pw (e : Env (f64 pw)) h a x op axis, fair e -> reached h -> nth_error h a = Some x -> class_of x <> None ->
  let m := fst (shape2 x) in let n := snd (shape2 x) in
  let kept (line : list (list (f64 pw))) (w : f64 pw) := In [nan : f64 pw] line -> (op = CumSum \/ ~ In [] line) -> w = nan in
  (single_axis axis = Some 0%nat -> exists out, step e h (Cum op a axis) = Ok (h ++ [VArr [m; n] out]) /\ length out = (m * n)%nat /\
     forall i j, (i < m)%nat -> (j < n)%nat -> kept (map (fun i' => stored x i' j) (seq 0 (S i))) (nth (i * n + j) out f0)) /\
  (single_axis axis = Some 1%nat -> class_of x <> Some CscClass -> exists out, step e h (Cum op a axis) = Ok (h ++ [VArr [m; n] out]) /\ length out = (m * n)%nat /\
     forall i j, (i < m)%nat -> (j < n)%nat -> kept (map (fun j' => stored x i j') (seq 0 (S j))) (nth (i * n + j) out f0)).
Proof.
  intros pw e h a x op axis FE R Na NC m n kept. destruct (C66_cumulative pw e h a x op axis FE R Na) as (_ & Q0 & Q1). fold m n in Q0, Q1.
  assert (G : forall (c : nat -> list (f64 pw)) js w, accumulates op c js w -> kept (map c js) w).
  { intros c js w A I O. destruct op; cbn [accumulates] in A; [apply (reduces_nan RSum c js w A I)|]. apply (reduces_nan RProd c js w A I). destruct O as [O|O]; [discriminate O|exact O]. }
  split.
  - intros SA. destruct (Q0 NC SA) as (out & E & L & V). exists out. split; [exact E|]. split; [exact L|]. intros i j Hi Hj. apply G. apply V; assumption.
  - intros SA NS. destruct Q1 as (out & E & L & V); [destruct (class_of x) as [[| |]|]; auto; contradiction|exact SA|]. exists out. split; [exact E|]. split; [exact L|]. intros i j Hi Hj. apply G. apply V; assumption.
Qed.
Print Assumptions C90_cumulative.

(** Products with dense arrays: a NaN that the matrix stores, or one in the array that meets a
    stored entry, makes the element NaN. *)
Definition meets {pw} (l : list (f64 pw)) (y : f64 pw) : Prop := In (nan : f64 pw) l \/ (l <> [] /\ y = nan).
Theorem C90_matmul : forall pw (e : Env (f64 pw)) h a b x sh d, fair e -> reached h -> nth_error h a = Some x -> nth_error h b = Some (VArr sh d) -> class_of x <> None -> demand h (Matmul a b) < i64_max ->
  let m := fst (shape2 x) in let n := snd (shape2 x) in
  (sh = [n] -> exists c, step e h (Matmul a b) = Ok (h ++ [VArr [m] c]) /\ length c = m /\
     forall i j, (i < m)%nat -> (j < n)%nat -> meets (stored x i j) (nth j d f0) -> nth i c f0 = nan) /\
  (forall bs k, sh = bs ++ [n; k] -> let s := fold_right Nat.mul 1%nat bs in columns_ok x (s * k) ->
     exists R, step e h (Matmul a b) = Ok (h ++ [VArr (bs ++ [m; k]) R]) /\ length R = (s * m * k)%nat /\
       forall q i j c, (q < s)%nat -> (i < m)%nat -> (j < n)%nat -> (c < k)%nat -> meets (stored x i j) (nth ((q * n + j) * k + c) d f0) -> nth ((q * m + i) * k + c) R f0 = nan).
Proof.
  intros pw e h a b x sh d FE R Na Nb NC DM m n. destruct (C64_matmul (f64 pw) e h a b x (VArr sh d) sh d (f64_laws pw) FE R Na Nb eq_refl NC DM) as (_ & _ & Q1 & _ & Q2). fold m n in Q1, Q2. split.
  - intros ES. destruct (Q1 ES) as (c & E & L & V). exists c. split; [exact E|]. split; [exact L|]. intros i j Hi Hj M. specialize (V i Hi). unfold row_times in V. fold n in V.
    assert (G : FSum (dot_terms (stored x) n d i) (nth i c f0) \/ nth i c f0 = fma_sum d (by_column (fun j => stored x i j) n)) by (destruct x; auto).
    destruct G as [G|G]; [apply (dot_nan (stored x) n d i j _ G Hj M)|]. rewrite G. apply (fused_nan (fun j => stored x i j) n d j Hj M).
  - intros bs k ES s CK. destruct (Q2 bs k ES) as [Q3 _]. fold s in Q3. destruct (Q3 CK) as (Rl & E & L & V). exists Rl. split; [exact E|]. split; [exact L|]. intros q i j c Hq Hi Hj Hc M.
    specialize (V q i c Hq Hi Hc). rewrite batch_nth in V by assumption. apply (dot_nan (stored x) n _ i j _ V Hj). destruct M as [M|[M1 M2]]; [left; exact M|]. right. split; [exact M1|].
    unfold column. rewrite (nth_indep _ f0 (nth (0 * k + c) (batch (n * k) q d) f0)) by (rewrite map_length, seq_length; exact Hj). rewrite (map_nth (fun j => nth (j * k + c) (batch (n * k) q d) f0)), seq_nth by exact Hj.
    cbn [Nat.add]. rewrite batch_nth by assumption. exact M2.
Qed.
Print Assumptions C90_matmul.

(** Over the rows: CSC always; the others where the vector is not zero. *)
Theorem C90_vecdot : forall pw (e : Env (f64 pw)) h a b x l d, fair e -> reached h -> nth_error h a = Some x -> nth_error h b = Some (VArr [l] d) -> class_of x <> None -> l = fst (shape2 x) ->
  exists c, step e h (Vecdot a b (Some 0)) = Ok (h ++ [VArr [snd (shape2 x)] c]) /\ length c = snd (shape2 x) /\
    forall i j, (i < fst (shape2 x))%nat -> (j < snd (shape2 x))%nat -> meets (stored x i j) (nth i d f0) -> class_of x = Some CscClass \/ feqb (nth i d f0) f0 = false -> nth j c f0 = nan.
Proof.
  intros pw e h a b x l d FE R Na Nb NC EL. destruct (C64_vecdot (f64 pw) e h a b x l d None (f64_laws pw) FE R Na Nb NC) as (_ & Q & _). destruct (Q EL) as (c & E & L & V). exists c. split; [exact E|]. split; [exact L|].
  intros i j Hi Hj M O. specialize (V j Hj). unfold col_times in V.
  assert (G : (class_of x <> Some CscClass /\ FSum (dot_terms_nz (transposed (stored x)) (fst (shape2 x)) d j) (nth j c f0)) \/ nth j c f0 = fma_sum d (by_column (fun i => stored x i j) (fst (shape2 x)))).
  { destruct x; try (exfalso; apply NC; reflexivity); [left|right|left]; try (split; [discriminate|]); exact V. }
  destruct G as [[G1 G]|G]; [|rewrite G; apply (fused_nan (fun i => stored x i j) _ d i Hi M)]. destruct O as [O|O]; [contradiction|].
  apply (sum_nan _ _ G). unfold dot_terms_nz. apply in_flat_map. exists i. split; [apply in_seq; lia|]. rewrite O. unfold transposed. apply in_map_iff. destruct M as [I|[NE EN]].
  - exists (nan : f64 pw). split; [apply mul_l|exact I].
  - destruct (stored x i j) as [|w l']; [contradiction|]. exists w. rewrite EN. split; [apply mul_r|left; reflexivity].
Qed.
Print Assumptions C90_vecdot.

(** [A + B] and [A - B]; [A * B] where both store something. *)
Theorem C90_elementwise : forall pw (e : Env (f64 pw)) h a b x y op, fair e -> reached h -> nth_error h a = Some x -> nth_error h b = Some y ->
  class_of x = class_of y -> class_of x = Some CsrClass \/ class_of x = Some CscClass -> shape2 x = shape2 y -> op = BAdd \/ op = BSub \/ op = BMul ->
  exists z, step e h (Binary op a b) = Ok (h ++ [z]) /\ class_of z = class_of x /\ shape2 z = shape2 x /\
    forall i j, (i < fst (shape2 x))%nat -> (j < snd (shape2 x))%nat -> (op = BMul -> stored x i j <> [] /\ stored y i j <> []) ->
      cell x i j = nan \/ cell y i j = nan -> cell z i j = nan.
Proof.
  intros pw e h a b x y op FE R Na Nb EC BC SH OP. destruct (sum_of (F := f64 pw) op) as [g|] eqn:EG.
  - destruct (C60_sums (f64 pw) e h a b x y op g (f64_laws pw) FE R Na Nb EC BC EG) as [_ Q]. destruct (Q SH) as (z & E & C & S & V). exists z. repeat (split; [assumption|]). intros i j Hi Hj _ NN.
    assert (G : g (cell x i j) (cell y i j) = nan) by (destruct OP as [-> |[-> | ->]]; try discriminate EG; injection EG as <-; destruct NN as [-> | ->]; first [reflexivity|apply add_r|apply sub_r]).
    specialize (V i j Hi Hj). rewrite G in V. destruct V as [V|[_ V]]; [exact V|discriminate V].
  - assert (op = BMul) as -> by (destruct OP as [-> |[-> | ->]]; try discriminate EG; reflexivity).
    destruct (C60_common_entries (f64 pw) e h a b x y BMul (f64_laws pw) FE R Na Nb EC BC EG) as [_ Q]. destruct (Q SH) as (z & E & C & S & V). exists z. repeat (split; [assumption|]). intros i j Hi Hj NE NN. destruct (NE eq_refl) as [N1 N2].
    assert (Kx := PCall3.reached_nth h a x (f64_laws pw) R Na). assert (Ky := PCall3.reached_nth h b y (f64_laws pw) R Nb). destruct (V i j Hi Hj) as [V1 _].
    assert (L1 := PropAccuracy3.stored_one pw x i j Kx Hi Hj). assert (L2 : (length (stored y i j) <= 1)%nat) by (apply (PropAccuracy3.stored_one pw y i j Ky); rewrite <- SH; assumption). unfold cell in *.
    destruct (stored x i j) as [|p [|? ?]]; [contradiction| |cbn in L1; lia]. destruct (stored y i j) as [|q [|? ?]]; [contradiction| |cbn in L2; lia]. cbn [one_or] in NN.
    assert (G : fmul p q = (nan : f64 pw)) by (destruct NN as [-> | ->]; [apply mul_l|apply mul_r]).
    rewrite (proj2 (V1 (nan : f64 pw))); [reflexivity|]. exists p, q. split; [reflexivity|]. split; [reflexivity|]. cbn [combines]. rewrite G. split; reflexivity.
Qed.
Print Assumptions C90_elementwise.

(** [A * s], [A / s], [A // s], [A % s], unless [s], or 1 / [s], is zero; abs, sign, [-A]. *)
Definition clears {pw} (op : sop) (s : f64 pw) : bool := match op with SMul => feqb s f0 | SDiv => feqb (fdiv f1 s) f0 | _ => false end.
Theorem C90_scalar_operators : forall pw (e : Env (f64 pw)) h a x op s, reached h -> nth_error h a = Some x -> class_of x <> None -> op <> SPow -> scalar_raises op s = false -> clears op s = false ->
  exists y, step e h (Scalar op a s) = Ok (h ++ [y]) /\ class_of y = class_of x /\ shape2 y = shape2 x /\ forall i j, cell x i j = nan -> cell y i j = nan.
Proof.
  intros pw e h a x op s R Na NC NP SR CL. destruct (C60_scalar_operators (f64 pw) e h a x op s (f64_laws pw) R Na NC) as [_ Q]. destruct (Q SR) as (y & E & C & S & V). exists y. repeat (split; [assumption|]). intros i j NN. unfold cell in *. rewrite V.
  assert (G : scalar_value op s (nan : f64 pw) = nan).
  { destruct op; cbn [scalar_value clears] in *; unfold times; try reflexivity; [rewrite CL; destruct (feqb s f1); reflexivity|rewrite CL; destruct (feqb (fdiv f1 s) f1); reflexivity|contradiction]. }
  destruct (stored x i j) as [|v l]; [discriminate NN|]. destruct l as [|v' l]; cbn [map one_or] in *; [rewrite NN; exact G|]. discriminate NN || (rewrite NN; exact G).
Qed.
Print Assumptions C90_scalar_operators.
Theorem C90_unary_maps : forall pw (e : Env (f64 pw)) h a x op, reached h -> nth_error h a = Some x -> class_of x <> None -> is_map op = true ->
  exists y, step e h (Unary op a) = Ok (h ++ [y]) /\ class_of y = class_of x /\ shape2 y = shape2 x /\ forall i j, cell x i j = nan -> cell y i j = nan.
Proof.
  intros pw e h a x op R Na NC M. destruct (C60_unary_maps (f64 pw) e h a x op (f64_laws pw) R Na NC M) as (y & E & C & S & V). exists y. repeat (split; [assumption|]). intros i j NN. unfold cell in *. rewrite V.
  assert (G : unary_value op (nan : f64 pw) = nan) by (destruct op; try discriminate M; reflexivity).
  destruct (stored x i j) as [|v l]; [discriminate NN|]. destruct l as [|v' l]; cbn [map one_or] in *; [rewrite NN; exact G|]. discriminate NN || (rewrite NN; exact G).
Qed.
Print Assumptions C90_unary_maps.

(** [diff]: a NaN reaches every difference it takes part in. *)
Theorem C90_diff : forall pw (e : Env (f64 pw)) h a x t axis, fair e -> reached h -> nth_error h a = Some x -> class_of x <> None ->
  let m := fst (shape2 x) in let n := snd (shape2 x) in
  (axis = 0 \/ axis = -2 -> exists y, step e h (Diff a t axis) = Ok (h ++ [y]) /\ shape2 y = ((m - t)%nat, n) /\
     forall i j q, (i < m - t)%nat -> (j < n)%nat -> (i <= q <= i + t)%nat -> In (nan : f64 pw) (stored x q j) -> In (nan : f64 pw) (stored y i j)) /\
  (axis = 1 \/ axis = -1 -> exists y, step e h (Diff a t axis) = Ok (h ++ [y]) /\ shape2 y = (m, (n - t)%nat) /\
     forall i j q, (i < m)%nat -> (j < n - t)%nat -> (j <= q <= j + t)%nat -> In (nan : f64 pw) (stored x i q) -> In (nan : f64 pw) (stored y i j)).
Proof.
  intros pw e h a x t axis FE R Na NC m n. destruct (C66_diff pw e h a x t axis FE R Na) as (_ & Q0 & Q1). fold m n in Q0, Q1. split; intros AX.
  - destruct (Q0 NC AX) as (y & E & _ & S & V). exists y. split; [exact E|]. split; [exact S|]. intros i j q Hi Hj Hq I. apply (diff_nan _ _ _ _ (V j Hj ltac:(lia)) i q Hi ltac:(lia) Hq I).
  - destruct (Q1 NC AX) as (y & E & _ & S & V). exists y. split; [exact E|]. split; [exact S|]. intros i j q Hi Hj Hq I. apply (diff_nan _ _ _ _ (V i Hi ltac:(lia)) j q Hj ltac:(lia) Hq). apply start_nan. exact I.
Qed.
Print Assumptions C90_diff.

(** N-D arrays: sums over axes, and products where both store something. *)
Lemma left_sum_nan : forall pw (l : list (f64 pw)), In (nan : f64 pw) l -> left_sum l = [nan : f64 pw].
Proof.
  intros pw [|v l] I; [destruct I|]. unfold left_sum. f_equal. revert v I. induction l as [|w l IH]; intros v I; [destruct I as [I|[]]; exact I|]. cbn [fold_left]. apply IH.
  destruct I as [-> |[-> |I]]; [left; reflexivity|left; apply add_r|right; exact I].
Qed.
Theorem C90_nd_sums : forall pw (e : Env (f64 pw)) h a A p, fair e -> reached h -> nth_error h a = Some (VNd A) -> Forall (fun n => 0 <= n) (nd_shape A) -> proper_axes (length (nd_shape A)) p ->
  let remain := other_axes (length (nd_shape A)) p in
  exists B, step e h (ReduceAxes NSum a (map Z.of_nat p)) = Ok (h ++ [VNd B]) /\ nd_shape B = select remain (nd_shape A) /\
    forall k, in_shape (nd_shape B) k -> In (nan : f64 pw) (fiber A remain k) -> nd_at B k = [nan : f64 pw].
Proof.
  intros pw e h a A p FE R Na NN PA remain. destruct (C63_reduce_axes (f64 pw) e h a A NSum (f64_laws pw) FE R Na NN) as (_ & _ & Q). destruct (Q p PA) as (B & E & S & V). exists B. split; [exact E|]. split; [exact S|].
  intros k IK I. rewrite (V k IK). apply left_sum_nan. exact I.
Qed.
Print Assumptions C90_nd_sums.
Theorem C90_nd_total : forall pw (e : Env (f64 pw)) h a A op kd, fair e -> reached h -> nth_error h a = Some (VNd A) -> Forall (fun n => 0 <= n) (nd_shape A) -> op = RSum \/ op = RMean -> Spec.cells (nd_shape A) <> 0 ->
  In (nan : f64 pw) (array_values A) ->
  step e h (Reduce op a AxNone kd) = Ok (h ++ [VArr (if kd then repeat 1%nat (length (nd_shape A)) else []) [nan : f64 pw]]).
Proof.
  intros pw e h a A op kd FE R Na NN OP NZ I. destruct (C63_sum_mean pw e h a A op AxNone kd FE R Na NN OP) as (Q & _). destruct (Q eq_refl) as (s & FS & E). rewrite E. assert (s = nan) as -> by (apply (sum_nan _ _ FS I)).
  destruct OP as [-> | ->]; [reflexivity|]. apply Z.eqb_neq in NZ. rewrite NZ. reflexivity.
Qed.
Print Assumptions C90_nd_total.
Theorem C90_nd_products : forall pw (e : Env (f64 pw)) h a b A B, fair e -> reached h -> nth_error h a = Some (VNd A) -> nth_error h b = Some (VNd B) ->
  Forall (fun n => 0 < n) (nd_shape A) -> Forall (fun n => 0 < n) (nd_shape B) -> broadcastable (nd_shape A) (nd_shape B) -> Spec.cells (broadcast_shape (nd_shape A) (nd_shape B)) <= usize_max ->
  exists C, step e h (Binary BMul a b) = Ok (h ++ [VNd C]) /\ nd_shape C = broadcast_shape (nd_shape A) (nd_shape B) /\
    forall k p q, in_shape (nd_shape C) k -> nd_at A (source_cell (nd_shape A) k) = [p] -> nd_at B (source_cell (nd_shape B) k) = [q] -> p = nan \/ q = nan -> nd_at C k = [nan : f64 pw].
Proof.
  intros pw e h a b A B FE R Na Nb PA PB BC SZ. destruct (C63_broadcast (f64 pw) e h a b A B (f64_laws pw) FE R Na Nb PA PB) as [_ Q]. destruct (Q BC SZ) as (C & E & S & V). exists C. split; [exact E|]. split; [exact S|].
  intros k p q IK Ep Eq NN. rewrite (V k IK), Ep, Eq. unfold Spec.products. cbn [map concat app]. assert (G : fmul p q = (nan : f64 pw)) by (destruct NN as [-> | ->]; [apply mul_l|apply mul_r]). rewrite ?G. reflexivity.
Qed.
Print Assumptions C90_nd_products.

(** *** The theorems apply, and where NaNs are lost *)
Definition calls11 : list (call (f64 pw0)) :=
  [NewCsr 2 3 [0; 2; 3] [0; 2; 1] [fz 1; nan : f64 pw0; fz 4] true;            (* 0: [1 . NaN; . 4 .] *)
   NewCsr 2 3 [0; 3; 6] [0; 1; 2; 0; 1; 2] [nan : f64 pw0; fz 5; fz 3; fz 7; fz 8; fz 9] true; (* 1: [NaN 5 3; 7 8 9] *)
   NewCsc 2 3 [0; 1; 2; 3] [0; 1; 0] [fz 1; fz 4; nan : f64 pw0] false;        (* 2: 0 by columns *)
   NewCoo 2 3 [0; 1; 0] [2; 1; 0] [nan : f64 pw0; fz 4; fz 1] false;           (* 3: 0 as triples *)
   NewNd [2; 1; 3] [0; 0; 1; 1; 0; 2; 1; 0; 0] [nan : f64 pw0; fz 8; fz (-3)] false; (* 4 *)
   NewArr [3%nat] [fz 1; nan : f64 pw0; fz 0];                                 (* 5 *)
   NewArr [2%nat] [fz 0; fz 1]].                                     (* 6 *)
Definition state11 : list (value (f64 pw0)) :=
  match run [] (map (fun c => (env2, c)) calls11) with Running h => h | _ => [] end.
Lemma state11_reached : reached state11.
Proof.
  assert (O : match objects (run [] (map (fun c => (env2, c)) calls11)) with Some _ => true | None => false end = true) by (vm_compute; reflexivity).
  destruct (objects (run [] (map (fun c => (env2, c)) calls11))) as [x|] eqn:EO; [|discriminate O]. destruct (objects_running _ _ EO) as (h & ER & EH).
  unfold state11. rewrite ER. apply (C61_programs_reach _ (map (fun c => (env2, c)) calls11) h); [|exact ER].
  apply Forall_forall. intros ec Hec. apply in_map_iff in Hec. destruct Hec as (c & <- & Hc). cbn [fst snd]. split; [apply env2_fair|]. cbn [calls11 In] in Hc.
  repeat (destruct Hc as [<-|Hc]; [split; [|exact I]; cbn [regular_arguments]; try exact I|]); try contradiction.
  - split; [reflexivity|]. split; [repeat constructor; discriminate|left; reflexivity].
  - split; [reflexivity|]. split; [repeat constructor; discriminate|left; reflexivity].
  - apply canonical_literal; reflexivity.
  - split; [apply coo_ok_literal; reflexivity|]. intros i j. unfold coo_at, at_cell, coo_entries. cbn [coo_row coo_col coo_data combine filter fst snd].
    repeat match goal with |- context [?x =? ?y] => destruct (Z.eqb_spec x y) end; cbn; lia.
  - split; [apply nd_ok_literal; reflexivity|]. apply single_keys. vm_compute. repeat constructor; cbn; intuition congruence.
Qed.
Definition obj11 (a : nat) : value (f64 pw0) := nth a state11 (VInts [] []).
Lemma obj11_is a : (a < 7)%nat -> nth_error state11 a = Some (obj11 a).
Proof. intros H. apply nth_error_nth'. assert (L : length state11 = 7%nat) by (vm_compute; reflexivity). rewrite L. exact H. Qed.
(** What a call returns, seen through [g]. *)
Lemma returned : forall {T} (g : value (f64 pw0) -> T) c r, match c with SetData _ _ _ => False | _ => True end -> match exec env2 state11 c with Ok v => Some (g v) | _ => None end = Some r -> exists y, step env2 state11 c = Ok (state11 ++ [y]) /\ g y = r.
Proof. intros T g c r NS H. assert (E : step env2 state11 c = let! v := exec env2 state11 c in Ok (state11 ++ [v])) by (destruct c; try reflexivity; contradiction). rewrite E. destruct (exec env2 state11 c) as [v| | |]; try discriminate H. injection H as <-. exists v. split; reflexivity. Qed.

(** Where a NaN is lost: [A * 0] and [A / inf] hold only zeros; [A / B] keeps only finite results; a
    product over an axis with an absent cell is 0; prune drops NaNs (with [eps] = 0 only COO does); the sum of
    the rows weighted by a vector skips the rows of weight 0 in CSR and COO, but not in CSC. *)
Theorem C90_lost_refuted : exists (e : Env (f64 pw0)) h a b c d v (x y xc xt : value (f64 pw0)), fair e /\ reached h /\ nth_error h a = Some x /\ nth_error h b = Some y /\ nth_error h c = Some xc /\ nth_error h d = Some xt /\
  nth_error h v = Some (VArr [2%nat] [fz 0; fz 1]) /\
  stored x 0 2 = [nan : f64 pw0] /\ stored y 0 2 = [fz 3] /\ stored xc 0 2 = [nan : f64 pw0] /\ stored xt 0 2 = [nan : f64 pw0] /\
  (exists z, step e h (Scalar SMul a (fz 0)) = Ok (h ++ [z]) /\ stored z 0 2 = [fz 0]) /\
  (exists z, step e h (Scalar SDiv a (S754_infinity false : f64 pw0)) = Ok (h ++ [z]) /\ stored z 0 2 = [fz 0]) /\
  (exists z, step e h (Binary BDiv a b) = Ok (h ++ [z]) /\ stored z 0 2 = []) /\
  (exists z, step e h (Binary BFloorDiv a b) = Ok (h ++ [z]) /\ stored z 0 2 = []) /\
  (exists z, step e h (Binary BMod a b) = Ok (h ++ [z]) /\ stored z 0 2 = []) /\
  (exists z, step e h (Unary (UPrune (fz 1 : f64 pw0)) a) = Ok (h ++ [z]) /\ stored z 0 2 = []) /\
  (exists z, step e h (Unary (UPrune (fz 0 : f64 pw0)) a) = Ok (h ++ [z]) /\ stored z 0 2 = [nan : f64 pw0]) /\
  (exists z, step e h (Unary (UPrune (fz 0 : f64 pw0)) d) = Ok (h ++ [z]) /\ stored z 0 2 = []) /\
  (exists z, step e h (Reduce RProd a (AxInt 1) false) = Ok (h ++ [z]) /\ arr_view z = Some ([2%nat], [fz 0; fz 0])) /\
  (exists z, step e h (Vecdot a v (Some 0)) = Ok (h ++ [z]) /\ arr_view z = Some ([3%nat], [fz 0; fz 4; fz 0])) /\
  (exists z, step e h (Vecdot d v (Some 0)) = Ok (h ++ [z]) /\ arr_view z = Some ([3%nat], [fz 0; fz 4; fz 0])) /\
  (exists z, step e h (Vecdot c v (Some 0)) = Ok (h ++ [z]) /\ arr_view z = Some ([3%nat], [fz 0; fz 4; nan : f64 pw0])).
Proof.
  exists env2, state11, 0%nat, 1%nat, 2%nat, 3%nat, 6%nat, (obj11 0), (obj11 1), (obj11 2), (obj11 3). split; [exact env2_fair|]. split; [exact state11_reached|]. do 4 (split; [apply obj11_is; lia|]).
  split; [rewrite (obj11_is 6) by lia; reflexivity|].
  do 4 (split; [vm_compute; reflexivity|]).
  repeat split; match goal with
    | |- exists z, step env2 state11 ?c = _ /\ stored z 0 2 = ?r => apply (returned (fun z => stored z 0 2) c r I)
    | |- exists z, step env2 state11 ?c = _ /\ arr_view z = ?r => apply (returned arr_view c r I)
    end; vm_compute; reflexivity.
Qed.
Print Assumptions C90_lost_refuted.


(** Objects 0 and 1: sum, mean and variance of the first row of 0, product of the first row of 1. *)
Example C90_reductions_nonvacuous :
  (forall op, op = RSum \/ op = RMean \/ op = RVar (fz 1) -> exists w w', step env2 state11 (Reduce op 0 (AxInt 1) false) = Ok (state11 ++ [VArr [2%nat] [w; w']]) /\ w = (nan : f64 pw0)) /\
  (exists w w', step env2 state11 (Reduce RProd 1 (AxInt 1) true) = Ok (state11 ++ [VArr [2; 1]%nat [w; w']]) /\ w = (nan : f64 pw0)).
Proof.
  assert (G : forall a op kd, (a < 2)%nat -> numeric op = true -> can_reduce env2 op (obj11 a) ->
    exists w w', step env2 state11 (Reduce op a (AxInt 1) kd) = Ok (state11 ++ [VArr (if kd then [2; 1]%nat else [2%nat]) [w; w']]) /\ keeps_nan op w (map (fun j => stored (obj11 a) 0 j) (seq 0 3))).
  { intros a op kd Ha NU CR. assert (S : shape2 (obj11 a) = (2, 3)%nat) by (destruct a as [|[|a]]; [vm_compute; reflexivity|vm_compute; reflexivity|lia]).
    assert (NC : class_of (obj11 a) <> None) by (destruct a as [|[|a]]; [vm_compute; discriminate|vm_compute; discriminate|lia]).
    destruct (C90_reductions pw0 env2 state11 a (obj11 a) op (AxInt 1) kd (if kd then [2; 1]%nat else [2%nat]) (map (fun i => map (fun j => stored (obj11 a) i j) (seq 0 3)) (seq 0 2)) env2_fair state11_reached (obj11_is a ltac:(lia)) NC NU CR) as (l & E & V).
    { unfold all_cells, columns, rows. rewrite S. cbn [fst snd]. destruct kd; reflexivity. }
    cbn [seq map] in V. inversion V as [|w ? l1 ? V1 V2]; subst. inversion V2 as [|w' ? l2 ? V3 V4]; subst. inversion V4; subst. exists w, w'. split; [exact E|exact V1]. }
  assert (T0 : map (fun j => stored (obj11 0) 0 j) (seq 0 3) = [[fz 1]; []; [nan : f64 pw0]]) by (vm_compute; reflexivity).
  assert (T1 : map (fun j => stored (obj11 1) 0 j) (seq 0 3) = [[nan : f64 pw0]; [fz 5]; [fz 3]]) by (vm_compute; reflexivity). split.
  - intros op OP. destruct (G 0%nat op false) as (w & w' & E & K); [lia|destruct OP as [-> |[-> | ->]]; reflexivity|destruct OP as [-> |[-> | ->]]; cbn [can_reduce]; try exact I; split; vm_compute; discriminate|].
    exists w, w'. split; [exact E|]. rewrite T0 in K. unfold keeps_nan in K. specialize (K ltac:(right; right; left; reflexivity)). destruct OP as [-> |[-> | ->]]; [exact K|exact K|]. apply K; vm_compute; reflexivity.
  - destruct (G 1%nat RProd true) as (w & w' & E & K); [lia|reflexivity|exact I|]. exists w, w'. split; [exact E|]. rewrite T1 in K. apply K; [left; reflexivity|]. intros [Q|[Q|[Q|[]]]]; discriminate Q.
Qed.
Example C90_cumulative_nonvacuous : exists out, step env2 state11 (Cum CumSum 3 (AxInt 1)) = Ok (state11 ++ [VArr [2; 3]%nat out]) /\ nth 2 out f0 = (nan : f64 pw0).
Proof.
  destruct (C90_cumulative pw0 env2 state11 3 (obj11 3) CumSum (AxInt 1) env2_fair state11_reached (obj11_is 3 ltac:(lia)) ltac:(vm_compute; discriminate)) as [_ Q]. destruct (Q eq_refl ltac:(vm_compute; discriminate)) as (out & E & _ & V).
  assert (S : shape2 (obj11 3) = (2, 3)%nat) by (vm_compute; reflexivity). rewrite S in E, V. cbn [fst snd] in E, V. exists out. split; [exact E|].
  assert (T : map (fun j => stored (obj11 3) 0 j) (seq 0 3) = [[fz 1]; []; [nan : f64 pw0]]) by (vm_compute; reflexivity). specialize (V 0%nat 2%nat ltac:(lia) ltac:(lia)). cbn [Nat.mul Nat.add] in V. rewrite T in V.
  apply V; [right; right; left; reflexivity|left; reflexivity].
Qed.
(** A stored NaN times 0, and 4 times NaN. *)
Example C90_matmul_nonvacuous : exists c, step env2 state11 (Matmul 0 5) = Ok (state11 ++ [VArr [2%nat] c]) /\ nth 0 c f0 = (nan : f64 pw0) /\ nth 1 c f0 = (nan : f64 pw0).
Proof.
  assert (S : shape2 (obj11 0) = (2, 3)%nat) by (vm_compute; reflexivity). assert (N : nth_error state11 5 = Some (VArr [3%nat] [fz 1; nan : f64 pw0; fz 0])) by (rewrite (obj11_is 5) by lia; reflexivity).
  destruct (C90_matmul pw0 env2 state11 0 5 (obj11 0) _ _ env2_fair state11_reached (obj11_is 0 ltac:(lia)) N ltac:(vm_compute; discriminate) ltac:(vm_compute; reflexivity)) as [Q _]. rewrite S in Q. cbn [fst snd] in Q. destruct (Q eq_refl) as (c & E & _ & V).
  exists c. split; [exact E|]. assert (T : stored (obj11 0) 0 2 = [nan : f64 pw0]) by (vm_compute; reflexivity). assert (T' : stored (obj11 0) 1 1 = [fz 4]) by (vm_compute; reflexivity). split.
  - apply (V 0%nat 2%nat ltac:(lia) ltac:(lia)). left. rewrite T. left. reflexivity.
  - apply (V 1%nat 1%nat ltac:(lia) ltac:(lia)). right. rewrite T'. split; [discriminate|reflexivity].
Qed.
Example C90_vecdot_nonvacuous : exists c, step env2 state11 (Vecdot 2 6 (Some 0)) = Ok (state11 ++ [VArr [3%nat] c]) /\ nth 2 c f0 = (nan : f64 pw0).
Proof.
  assert (S : shape2 (obj11 2) = (2, 3)%nat) by (vm_compute; reflexivity). assert (N : nth_error state11 6 = Some (VArr [2%nat] [fz 0; fz 1])) by (rewrite (obj11_is 6) by lia; reflexivity).
  destruct (C90_vecdot pw0 env2 state11 2 6 (obj11 2) _ _ env2_fair state11_reached (obj11_is 2 ltac:(lia)) N ltac:(vm_compute; discriminate) ltac:(rewrite S; reflexivity)) as (c & E & _ & V). rewrite S in E, V. cbn [fst snd] in E, V.
  exists c. split; [exact E|]. assert (T : stored (obj11 2) 0 2 = [nan : f64 pw0]) by (vm_compute; reflexivity). apply (V 0%nat 2%nat ltac:(lia) ltac:(lia)); [left; rewrite T; left; reflexivity|]. left. vm_compute. reflexivity.
Qed.
Example C90_elementwise_nonvacuous : forall op, op = BAdd \/ op = BSub \/ op = BMul -> exists z, step env2 state11 (Binary op 0 1) = Ok (state11 ++ [z]) /\ cell z 0 0 = (nan : f64 pw0) /\ cell z 0 2 = (nan : f64 pw0).
Proof.
  intros op OP. assert (S0 : shape2 (obj11 0) = (2, 3)%nat) by (vm_compute; reflexivity). assert (S1 : shape2 (obj11 1) = (2, 3)%nat) by (vm_compute; reflexivity).
  destruct (C90_elementwise pw0 env2 state11 0 1 (obj11 0) (obj11 1) op env2_fair state11_reached (obj11_is 0 ltac:(lia)) (obj11_is 1 ltac:(lia)) ltac:(vm_compute; reflexivity) ltac:(left; vm_compute; reflexivity) ltac:(rewrite S0, S1; reflexivity) OP) as (z & E & _ & _ & V).
  rewrite S0 in V. cbn [fst snd] in V. exists z. split; [exact E|]. split.
  - apply (V 0%nat 0%nat ltac:(lia) ltac:(lia)); [intros _; split; vm_compute; discriminate|right; vm_compute; reflexivity].
  - apply (V 0%nat 2%nat ltac:(lia) ltac:(lia)); [intros _; split; vm_compute; discriminate|left; vm_compute; reflexivity].
Qed.
Example C90_scalar_operators_nonvacuous : forall op, op <> SPow -> exists y, step env2 state11 (Scalar op 0 (fz 3)) = Ok (state11 ++ [y]) /\ cell y 0 2 = (nan : f64 pw0).
Proof.
  intros op OP. destruct (C90_scalar_operators pw0 env2 state11 0 (obj11 0) op (fz 3) state11_reached (obj11_is 0 ltac:(lia)) ltac:(vm_compute; discriminate) OP ltac:(destruct op; vm_compute; reflexivity) ltac:(destruct op; vm_compute; reflexivity)) as (y & E & _ & _ & V).
  exists y. split; [exact E|]. apply V. vm_compute. reflexivity.
Qed.
Example C90_unary_maps_nonvacuous : exists y, step env2 state11 (Unary UAbs 2) = Ok (state11 ++ [y]) /\ cell y 0 2 = (nan : f64 pw0).
Proof.
  destruct (C90_unary_maps pw0 env2 state11 2 (obj11 2) UAbs state11_reached (obj11_is 2 ltac:(lia)) ltac:(vm_compute; discriminate) eq_refl) as (y & E & _ & _ & V). exists y. split; [exact E|]. apply V. vm_compute. reflexivity.
Qed.
Example C90_diff_nonvacuous : exists y, step env2 state11 (Diff 0 2 1) = Ok (state11 ++ [y]) /\ In (nan : f64 pw0) (stored y 0 0).
Proof.
  destruct (C90_diff pw0 env2 state11 0 (obj11 0) 2 1 env2_fair state11_reached (obj11_is 0 ltac:(lia)) ltac:(vm_compute; discriminate)) as [_ Q]. destruct (Q (or_introl eq_refl)) as (y & E & _ & V).
  assert (S : shape2 (obj11 0) = (2, 3)%nat) by (vm_compute; reflexivity). rewrite S in V. cbn [fst snd] in V. exists y. split; [exact E|]. apply (V 0%nat 0%nat 2%nat ltac:(lia) ltac:(lia) ltac:(lia)). vm_compute. left. reflexivity.
Qed.

Definition N11 : Nd (f64 pw0) := mkNd [2; 1; 3] [0; 0; 1; 1; 0; 2; 1; 0; 0] [nan : f64 pw0; fz 8; fz (-3)].
Lemma N11_is : nth_error state11 4 = Some (VNd N11).
Proof. rewrite (obj11_is 4) by lia. reflexivity. Qed.
Lemma N11_dims : Forall (fun n => 0 < n) (nd_shape N11) /\ Forall (fun n => 0 <= n) (nd_shape N11).
Proof. split; repeat constructor; lia. Qed.
Example C90_nd_sums_nonvacuous : exists B, step env2 state11 (ReduceAxes NSum 4 (map Z.of_nat [0%nat])) = Ok (state11 ++ [VNd B]) /\ nd_at B [0; 1] = [nan : f64 pw0].
Proof.
  destruct (C90_nd_sums pw0 env2 state11 4 N11 [0%nat] env2_fair state11_reached N11_is (proj2 N11_dims)) as (B & E & S & V); [split; [|split; [discriminate|cbn; lia]]; split; repeat constructor; cbn; intuition lia|].
  exists B. split; [exact E|]. assert (T : fiber N11 (other_axes (length (nd_shape N11)) [0%nat]) [0; 1] = [nan : f64 pw0]) by (vm_compute; reflexivity).
  apply V; [rewrite S; repeat constructor; cbn; lia|]. rewrite T. left. reflexivity.
Qed.
Example C90_nd_total_nonvacuous : forall op, op = RSum \/ op = RMean -> step env2 state11 (Reduce op 4 AxNone true) = Ok (state11 ++ [VArr [1; 1; 1]%nat [nan : f64 pw0]]).
Proof.
  intros op OP. apply (C90_nd_total pw0 env2 state11 4 N11 op true env2_fair state11_reached N11_is (proj2 N11_dims) OP); [vm_compute; discriminate|]. assert (T : array_values N11 = [nan : f64 pw0; fz (-3); fz 8]) by (vm_compute; reflexivity). rewrite T. left. reflexivity.
Qed.
Example C90_nd_products_nonvacuous : exists C, step env2 state11 (Binary BMul 4 4) = Ok (state11 ++ [VNd C]) /\ nd_at C [0; 0; 1] = [nan : f64 pw0].
Proof.
  destruct (C90_nd_products pw0 env2 state11 4 4 N11 N11 env2_fair state11_reached N11_is N11_is (proj1 N11_dims) (proj1 N11_dims)) as (C & E & S & V); [unfold broadcastable; cbn; repeat constructor; auto|vm_compute; discriminate|].
  exists C. split; [exact E|]. apply (V [0; 0; 1] (nan : f64 pw0) (nan : f64 pw0)); [rewrite S; repeat constructor; cbn; lia|vm_compute; reflexivity|vm_compute; reflexivity|left; reflexivity].
Qed.
