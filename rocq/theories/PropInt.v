(** Property theorems: programs on integers compute exact results in doubles (C88). The integer
    machine is in SpecInt. *)
Require Import List ZArith Bool Arith Lia Permutation QArith Qabs Qpower.
Require Import Coq.Floats.SpecFloat.
Require Import Verif.Res Verif.Values Verif.Spec Verif.Mem Verif.Laws Verif.Witness Verif.SpecReduce Verif.SpecPy Verif.MPy Verif.PPy Verif.PropPy2 Verif.PropStat Verif.MObj Verif.SpecObj Verif.PObj Verif.PropObj Verif.SpecCall Verif.SpecCall2 Verif.PropCall Verif.PropCall2 Verif.PropCall3 Verif.PropCall4 Verif.PropCall5 Verif.PropCall6 Verif.PropCall7 Verif.PropDiff.
Require Import Verif.SpecAccuracy Verif.FloatErr Verif.FloatFloor Verif.PAccuracy2 Verif.PAccuracy5 Verif.PAccuracy6 Verif.PropAccuracy Verif.PropAccuracy2 Verif.PropAccuracy3 Verif.PropAccuracy4 Verif.SpecInt Verif.PInt Verif.PInt2 Verif.PInt3 Verif.PInt4.
Require Verif.PropNd Verif.PCall Verif.PCall3 Verif.PDense2 Verif.PDense4.
Import ListNotations.
Local Open Scope Z_scope.

Section Steps.
Context {pw : spec_float -> spec_float -> spec_float}.
Notation F := (f64 pw).
Implicit Types (h : list (value F)) (v z : value F) (H : list ival) (e : Env F).

Lemma binary_step : forall e h a b v w op k m n x y, fair e -> reached h -> nth_error h a = Some v -> nth_error h b = Some w -> class_of v = Some k -> class_of w = Some k -> k <> CooClass ->
  shape2 v = (m, n) -> shape2 w = (m, n) -> (forall i j, (i < m)%nat -> (j < n)%nat -> is_int (SpecCall.cell v i j) (x i j)) -> (forall i j, (i < m)%nat -> (j < n)%nat -> is_int (SpecCall.cell w i j) (y i j)) ->
  op <> BPow -> exists z, step e h (Binary op a b) = Ok (h ++ [z]) /\ class_of z = Some k /\ shape2 z = (m, n) /\
    forall i j r, (i < m)%nat -> (j < n)%nat -> int_binary op (x i j) (y i j) = Some r -> is_int (SpecCall.cell z i j) r.
Proof.
  intros e h a b v w op k m n x y FE R Na Nb Cv Cw NK Sv Sw X Y NP. assert (Kv := PCall3.reached_nth h a v (f64_laws pw) R Na). assert (Kw := PCall3.reached_nth h b w (f64_laws pw) R Nb).
  assert (EC : class_of v = class_of w) by congruence. assert (BC : class_of v = Some CsrClass \/ class_of v = Some CscClass) by (rewrite Cv; destruct k; auto; contradiction). assert (SH : shape2 v = shape2 w) by congruence.
  destruct (sum_of (F := F) op) as [g|] eqn:EG.
  - destruct (C60_sums F e h a b v w op g (f64_laws pw) FE R Na Nb EC BC EG) as [_ Q]. destruct (Q SH) as (z & E & C & S & V). exists z. split; [exact E|]. split; [congruence|]. split; [congruence|]. intros i j r Hi Hj ER.
    rewrite Sv in V. specialize (V i j Hi Hj). destruct (same_number pw _ _ V) as [S1 S2]. clear V. unfold is_int. rewrite S2. destruct (X i j Hi Hj) as [[DP FP] NX]. destruct (Y i j Hi Hj) as [[DQ FQ] NY]. set (p := SpecCall.cell v i j) in *. set (q := SpecCall.cell w i j) in *.
    destruct (binary_fits _ _ _ _ ER) as [B|[B ->]]; [destruct op; try contradiction; discriminate EG|].
    destruct op; try discriminate EG; injection EG as <-; cbn [PropAccuracy4.fits integer_result] in *.
    + destruct (add_exact p q _ _ FP FQ NX NY B) as [A D]. split; [|exact D]. apply S1. split; [apply FloatValid.add_double; assumption|exact A].
    + destruct (sub_exact p q _ _ FP FQ NX NY B) as [A D]. split; [|exact D]. apply S1. split; [apply FloatValid.sub_double; assumption|exact A].
  - destruct (C60_common_entries F e h a b v w op (f64_laws pw) FE R Na Nb EC BC EG) as [_ Q]. destruct (Q SH) as (z & E & C & S & V). exists z. split; [exact E|]. split; [congruence|]. split; [congruence|]. intros i j r Hi Hj ER.
    rewrite Sv in V. destruct (V i j Hi Hj) as [V1 V2].
    assert (Lv : (length (stored v i j) <= 1)%nat) by (apply (stored_one pw v i j Kv); rewrite Sv; assumption). assert (Lw : (length (stored w i j) <= 1)%nat) by (apply (stored_one pw w i j Kw); rewrite Sw; assumption).
    specialize (X i j Hi Hj). specialize (Y i j Hi Hj). unfold SpecCall.cell in *. set (kx := x i j) in *. set (ky := y i j) in *.
    destruct (binary_fits _ _ _ _ ER) as [B|[B ->]].
    + (* a divisor of zero *)
      assert (B2 : ky = 0 /\ r = 0) by (destruct op; try contradiction; exact B). destruct B2 as [B1 ->].
      destruct V2 as [->|[u V2]]; [apply int_zero|]. destruct (proj1 (V1 u) V2) as (p & q & Ep & Eq & CO). exfalso. rewrite Eq in Y. destruct Y as [[_ FQ] NQ]. cbn [one_or] in FQ, NQ. rewrite B1 in NQ.
      assert (ZQ : feqb q f0 = true).
      { destruct q as [s|s| |s mm ee]; try discriminate FQ; [destruct s; reflexivity|]. exfalso. cbn [number] in NQ. assert (P : (0 < (2 # 1) ^ ee)%Q) by (apply q2_pos). change (inject_Z 0) with 0%Q in NQ. apply Qmult_integral in NQ. destruct NQ as [NQ|NQ]; [|rewrite NQ in P; discriminate P].
        change 0%Q with (inject_Z 0) in NQ. apply Zinj in NQ. destruct s; discriminate NQ. }
      destruct op; cbn [combines] in CO; try contradiction; destruct CO as [CO _]; rewrite CO in ZQ; discriminate ZQ.
    + destruct X as [FX NX]. destruct Y as [FY NY]. destruct (common_cell pw op _ _ _ EG Lv Lw V1 V2) as [(p & q & Ep & Eq & G)|(G & F0 & N0)].
      * rewrite Ep in FX, NX. rewrite Eq in FY, NY. cbn [one_or] in *. destruct (value_integers pw op p q kx ky EG FX FY NX NY B) as (A & D & N). destruct (G ltac:(apply D) A D) as [G1 G2]. split; [exact G1|]. rewrite G2. exact N.
      * split; [exact F0|]. rewrite N0. change 0%Q with (inject_Z 0). apply inject_Z_injective. symmetry.
        assert (K0 : kx = 0 \/ ky = 0) by (destruct G as [[G _]|[G _]]; [left|right]; [rewrite G in NX|rewrite G in NY]; change 0%Q with (inject_Z 0) in *; apply Zinj; symmetry; assumption).
        clear - K0 EG B. destruct op; try discriminate EG; cbn [PropAccuracy4.fits integer_result] in *; try contradiction; destruct K0 as [-> | ->]; try (destruct B as [B _]; exfalso; apply B; reflexivity); try reflexivity. apply Z.mul_0_r.
Qed.

(** Related reductions. *)
Lemma reduction_rel : forall {A B} (P : A -> B -> Prop) t T cs CS rs RS ax kd sh ls, P t T -> Forall2 P cs CS -> Forall2 P rs RS -> reduction_2d T CS RS ax kd = Some (sh, ls) ->
  exists l, reduction_2d t cs rs ax kd = Some (sh, l) /\ Forall2 P l ls.
Proof.
  intros A B P t T cs CS rs RS ax kd sh ls HT HC HR E. assert (FL : forall (X : list A) (Y : list B) (Z0 : Forall2 P X Y), length X = length Y) by (intros X Y Z0; induction Z0; cbn [length]; congruence). assert (L1 := FL _ _ HC). assert (L2 := FL _ _ HR). unfold reduction_2d in *.
  destruct ax as [|a|l].
  - injection E as <- <-. eexists. split; [reflexivity|]. constructor; [exact HT|constructor].
  - destruct (forallb (axis_valid 2) [a]); [|discriminate E]. destruct (existsb _ _); destruct (existsb _ _); try discriminate E; injection E as <- <-; rewrite ?L1, ?L2; eexists; (split; [reflexivity|]); try assumption. constructor; [exact HT|constructor].
  - destruct l as [|a l]; [discriminate E|]. destruct (forallb (axis_valid 2) (a :: l)); [|discriminate E]. destruct (existsb _ _); destruct (existsb _ _); try discriminate E; injection E as <- <-; rewrite ?L1, ?L2; eexists; (split; [reflexivity|]); try assumption. constructor; [exact HT|constructor].
Qed.
Definition line_to (ok : list Z -> bool) (r : list Z -> Z) (w : F) (line : list Z) : Prop := ok line = true -> is_int w (r line).
Notation sum_to := (line_to small_sum sumz).
Lemma lines_hold : forall ok r sh ls (d : list F) y, lines ok r sh ls = Some y -> Forall2 (line_to ok r) d ls -> holds (VArr sh d : value F) y.
Proof.
  intros ok r sh ls d y E G. unfold lines in E. destruct (forallb ok ls) eqn:B; [|discriminate E]. injection E as <-. exists d. split; [reflexivity|].
  induction G as [|w l d ls HW G IH]; [constructor|]. cbn [forallb map] in *. apply andb_true_iff in B. destruct B as [B1 B2]. constructor; auto.
Qed.
Definition sums_hold : forall sh ls (d : list F) y, sums sh ls = Some y -> Forall2 sum_to d ls -> holds (VArr sh d : value F) y := lines_hold small_sum sumz.
Lemma F2_seq : forall {A} (P : A -> list Z -> Prop) (d : list A) n (f : nat -> list Z) w, length d = n -> (forall i, (i < n)%nat -> P (nth i d w) (f i)) -> Forall2 P d (map f (seq 0 n)).
Proof.
  intros A P d n f w L G. apply (F2_intro P d (map f (seq 0 n)) w (f 0%nat)); [rewrite map_length, seq_length; exact L|]. intros i Hi. rewrite L in Hi.
  rewrite (map_nth f (seq 0 n) 0%nat i), seq_nth by exact Hi. apply G. exact Hi.
Qed.
Lemma all_small : forall d, forallb small d = true -> Forall (fun c => small c = true) d.
Proof. intros d B. apply Forall_forall. apply forallb_forall. exact B. Qed.
Lemma sub_small : forall (d l : list Z), forallb small d = true -> (forall c, In c l -> In c d) -> Forall (fun c => small c = true) l.
Proof. intros d l B G. rewrite forallb_forall in B. apply Forall_forall. auto. Qed.

(** A matrix of integers: no NaN; its reductions; its dense form. *)
Lemma ints_no_nan : forall v m n x, (forall i j, (i < m)%nat -> (j < n)%nat -> is_int (SpecCall.cell v i j) (x i j)) -> (forall i j, (i < m)%nat -> (j < n)%nat -> (length (stored v i j) <= 1)%nat) -> no_nan (matrix_values (stored v) m n).
Proof.
  intros v m n x X L1. unfold matrix_values. apply Forall_flat_map, Forall_forall. intros [i j] Hij. apply in_prod_iff in Hij. rewrite !in_seq in Hij. cbn [fst snd].
  assert (Hi : (i < m)%nat) by lia. assert (Hj : (j < n)%nat) by lia. specialize (X i j Hi Hj). specialize (L1 i j Hi Hj). unfold SpecCall.cell in X. destruct (stored v i j) as [|w [|? ?]]; [constructor| |cbn in L1; lia].
  constructor; [|constructor]. destruct X as [[_ X] _]. cbn [one_or] in X. destruct w; try discriminate X; reflexivity.
Qed.
Lemma reduce_lines : forall e h a v op m n x (P : F -> list Z -> Prop) axis kd sh ls, fair e -> reached h -> nth_error h a = Some v -> class_of v <> None -> shape2 v = (m, n) ->
  (forall i j, (i < m)%nat -> (j < n)%nat -> is_int (SpecCall.cell v i j) (x i j)) -> (forall i j, (i < m)%nat -> (j < n)%nat -> (length (stored v i j) <= 1)%nat) -> numeric op = true -> can_reduce e op v ->
  (forall (J : Set) (cell : J -> list F) (b : J -> Z) js w, (forall j, In j js -> (length (cell j) <= 1)%nat /\ is_int (one_or f0 (cell j)) (b j)) -> reduces op cell js w -> P w (map b js)) ->
  reduction_2d (cells m n x) (cols_of m n x) (rows_of m n x) axis kd = Some (sh, ls) ->
  exists l, step e h (Reduce op a axis kd) = Ok (h ++ [VArr sh l]) /\ Forall2 P l ls.
Proof.
  intros e h a v op m n x P axis kd sh ls FE R Na NC Sv X L1 NU CR HP ER.
  destruct (C62_reductions pw e h a v op FE R Na NC NU CR) as (t & cs & rs & Q1 & Q2 & Q3 & Q4 & Q5 & Q6). rewrite Sv in Q1, Q2, Q3, Q4, Q5. cbn [fst snd] in Q1, Q2, Q3, Q4, Q5.
  destruct (reduction_rel P t (cells m n x) cs (cols_of m n x) rs (rows_of m n x) axis kd sh ls) as (l & EL & RL); [| | |exact ER|].
  + rewrite (cells_table m n x), <- PDense2.map_grid. refine (HP _ _ _ _ _ _ Q1). intros [i j] Hij. apply in_prod_iff in Hij. rewrite !in_seq in Hij. cbn [fst snd]. split; [apply L1; lia|apply X; lia].
  + apply (F2_seq _ _ _ _ (f0 : F) Q2). intros j Hj. refine (HP _ _ _ _ _ _ (Q3 j Hj)). intros i Hi. apply in_seq in Hi. split; [apply L1; lia|apply X; lia].
  + apply (F2_seq _ _ _ _ (f0 : F) Q4). intros i Hi. refine (HP _ _ _ _ _ _ (Q5 i Hi)). intros j Hj. apply in_seq in Hj. split; [apply L1; lia|apply X; lia].
  + exists l. split; [rewrite Q6; unfold reduction_result; rewrite EL; reflexivity|exact RL].
Qed.
Lemma shown_ints : forall v m n x, shape2 v = (m, n) -> (forall i j, (i < m)%nat -> (j < n)%nat -> is_int (SpecCall.cell v i j) (x i j)) -> (forall i j, (i < m)%nat -> (j < n)%nat -> (length (stored v i j) <= 1)%nat) ->
  Forall2 is_int (concat (dense m n (shown v))) (cells m n x).
Proof.
  intros v m n x Sv X L1. rewrite PDense4.concat_dense.
  apply (F2_cells is_int _ m n x (f0 : F)); [apply PDense2.table_length|]. intros i j Hi Hj. rewrite PDense2.table_nth by assumption. specialize (X i j Hi Hj). specialize (L1 i j Hi Hj). unfold SpecCall.cell in X.
  assert (G : shown v i j = one_or f0 (stored v i j) \/ shown v i j = fold_left fadd (stored v i j) f0) by (destruct v; auto).
  destruct G as [-> | ->]; [exact X|]. destruct (stored v i j) as [|w [|? ?]]; [exact X| |cbn in L1; lia]. cbn [fold_left one_or] in *. destruct w as [s|s| |s mm ee]; try exact X. destruct s; exact X.
Qed.
Lemma dense_ints : forall h H a x, reached h -> Forall2 holds h H -> nth_error H a = Some x -> is_nd x = false ->
  exists v d, nth_error h a = Some v /\ plain_shape v /\ dense_form v = Some (fst (table_of x), d) /\ Forall2 is_int d (snd (table_of x)) /\ (is_mat x = true -> floats v = None).
Proof.
  intros h H a x R HH N ND. destruct x as [k m n x|sh d|sh d|sh d]; [| | |discriminate ND]; clear ND; cbn [table_of fst snd is_mat].
  - destruct (at_class _ _ _ _ _ _ _ R HH N) as (v & Na & Cv & Sv & NC & X & L1). assert (G := shown_ints v m n x Sv X L1). exists v, (concat (dense m n (shown v))). split; [exact Na|].
    destruct v; try discriminate Cv; (split; [exact I|]; split; [cbn [dense_form]; rewrite Sv; reflexivity|]; split; [exact G|]; intros _; reflexivity).
  - destruct (at_array _ _ _ _ _ HH N) as (d' & Na & D). exists (VArr sh d'), d'. repeat split; auto. discriminate.
  - assert (G : nth_error h a = Some (VBools sh d)).
    { clear R. revert a N. induction HH as [|v y h H V HH IH]; intros [|a] N; try discriminate N; [injection N as ->; cbn [holds] in V; rewrite V; reflexivity|]. apply IH. exact N. }
    exists (VBools sh d), (map (fun b : bool => if b then f1 else f0) d). split; [exact G|]. split; [exact I|]. split; [reflexivity|]. split; [|discriminate].
    clear. induction d as [|b d IH]; [constructor|]. cbn [map]. constructor; [|exact IH]. destruct b; [split; [split; reflexivity|vm_compute; reflexivity]|apply int_zero].
Qed.
Lemma same_shape_eq : forall a b, same_shape a b = true -> a = b.
Proof. induction a as [|x a IH]; intros [|y b] E; try discriminate E; [reflexivity|]. cbn [same_shape] in E. apply andb_true_iff in E. destruct E as [E1 E2]. apply Nat.eqb_eq in E1. rewrite E1, (IH b E2). reflexivity. Qed.

(** A stack of matrices. *)
Lemma slice_app : forall {A} (l l' : list A) (s e : nat), (e <= length l)%nat -> slice s e (l ++ l') = slice s e l.
Proof.
  intros A l l' s e H. unfold slice. rewrite skipn_app, firstn_app, skipn_length. replace (e - s - (length l - s))%nat with 0%nat by lia. rewrite firstn_O, app_nil_r. reflexivity.
Qed.
Lemma batches : forall {A} L s (l : list A), length l = (s * L)%nat -> l = flat_map (fun t => batch L t l) (seq 0 s).
Proof.
  intros A L. induction s as [|s IH]; intros l E; [destruct l; [reflexivity|discriminate E]|]. assert (E' : length (firstn (s * L) l) = (s * L)%nat) by (rewrite firstn_length; lia).
  rewrite seq_S, flat_map_app. cbn [flat_map Nat.add]. rewrite app_nil_r. rewrite <- (firstn_skipn (s * L) l) at 1. f_equal.
  - rewrite (IH _ E') at 1. rewrite !flat_map_concat_map. f_equal. apply map_ext_in. intros t Ht. apply in_seq in Ht. unfold batch. rewrite <- (firstn_skipn (s * L) l) at 2. symmetry. apply slice_app. rewrite E'. nia.
  - unfold batch, slice. symmetry. apply firstn_all2. rewrite skipn_length. lia.
Qed.
Lemma F2_stack : forall {A B} (P : A -> B -> Prop) (out : list A) L s (g : nat -> list B), length out = (s * L)%nat -> (forall t, (t < s)%nat -> Forall2 P (batch L t out) (g t)) -> Forall2 P out (flat_map g (seq 0 s)).
Proof.
  intros A B P out L s g E G. rewrite (batches L s out E). assert (K : forall l, (forall t, In t l -> (t < s)%nat) -> Forall2 P (flat_map (fun t => batch L t out) l) (flat_map g l)).
  { induction l as [|t l IH]; intros K; [constructor|]. cbn [flat_map]. apply Forall2_app; [apply G, K; left; reflexivity|]. apply IH. intros; apply K; right; assumption. }
  apply K. intros t Ht. apply in_seq in Ht. lia.
Qed.
Lemma column_dot : forall v m n x (d : list F) (ys : list Z) q i c off w, (forall i j, (i < m)%nat -> (j < n)%nat -> is_int (SpecCall.cell v i j) (x i j)) -> (forall i j, (i < m)%nat -> (j < n)%nat -> (length (stored v i j) <= 1)%nat) ->
  (i < m)%nat -> (c < q)%nat -> (forall r, (r < n)%nat -> is_int (nth (r * q + c) d (f0 : F)) (nth (off + (r * q + c)) ys 0)) ->
  FSum (dot_terms (stored v) n (column d n q c) i) w -> line_to small_sum sumz w (map (fun r => x i r * nth (off + (r * q + c)) ys 0) (seq 0 n)).
Proof.
  intros v m n x d ys q i c off w X L1 Hi Hc D S B.
  assert (CL : Forall2 is_int (column d n q c) (map (fun r => nth (off + (r * q + c)) ys 0) (seq 0 n))).
  { unfold column. assert (G : forall l, (forall r, In r l -> (r < n)%nat) -> Forall2 is_int (map (fun r => nth (r * q + c) d f0) l) (map (fun r => nth (off + (r * q + c)) ys 0) l)).
    { induction l as [|r l IH]; intros K; [constructor|]. cbn [map]. constructor; [apply D, K; left; reflexivity|apply IH; intros; apply K; right; assumption]. }
    apply G. intros r Hr. apply in_seq in Hr. lia. }
  assert (ES : map (fun r => x i r * nth r (map (fun r0 => nth (off + (r0 * q + c)) ys 0) (seq 0 n)) 0) (seq 0 n) = map (fun r => x i r * nth (off + (r * q + c)) ys 0) (seq 0 n)).
  { apply map_ext_in. intros r Hr. apply in_seq in Hr. f_equal. rewrite (nth_indep _ 0 (nth (off + (0 * q + c)) ys 0)) by (rewrite map_length, seq_length; lia). rewrite (map_nth (fun r0 => nth (off + (r0 * q + c)) ys 0)), seq_nth by lia. reflexivity. }
  rewrite <- ES in B |- *. apply (dot_is_int (stored v) n (column d n q c) i (x i) _ w); [left; exact S| |exact CL|unfold column; rewrite map_length, seq_length; reflexivity|exact B].
  intros r Hr. split; [apply L1; assumption|apply X; assumption].
Qed.

Theorem int_step : forall e h H c y, fair e -> suits e c -> reached h -> Forall2 holds h H -> plain_integers c -> int_call H c = Some y -> demand h (floating c) < i64_max ->
  exists z, step e h (floating c) = Ok (h ++ [z]) /\ holds z y.
Proof.
  intros e h H c y FE SU R HH PL E DM. destruct c as [nr nc p i d ck|nr nc p i d ck|nr nc r c d ck|sh d|nr nc|n|d|op a|op a q|op a b|a b|a axis kd|a axis kd|least a axis kd|every a axis kd|op a axis|a t axis|a b axis|a b axis|a i j|a i|a j|c a b|a|c]; cbn [int_call floating] in *.
  - destruct PL as (C & _ & A1 & A2). destruct (forallb small d) eqn:B; [|discriminate E]. injection E as <-. destruct (C67_valid_arrays F e h nr nc p i [] [] [] [] (map fofZ d) ck A1 A2) as (Q & _).
    eexists. split; [apply Q; apply canonical_map; exact C|]. split; [reflexivity|]. split; [reflexivity|]. intros i0 j Hi Hj. unfold SpecCall.cell. cbn [stored py_arrays]. unfold csr_at. rewrite cs_at_map. apply one_or_map.
    apply (sub_small d); [exact B|]. intros w Iw. eapply at_sub. exact Iw.
  - destruct PL as (C & A1 & A2). destruct (forallb small d) eqn:B; [|discriminate E]. injection E as <-. destruct (C67_valid_arrays F e h nr nc p i [] [] [] [] (map fofZ d) ck A1 A2) as (_ & Q & _).
    eexists. split; [apply Q; apply canonical_map; exact C|]. split; [reflexivity|]. split; [reflexivity|]. intros i0 j Hi Hj. unfold SpecCall.cell. cbn [stored py_arrays]. unfold csc_at. rewrite cs_at_map. apply one_or_map.
    apply (sub_small d); [exact B|]. intros w Iw. eapply at_sub. exact Iw.
  - destruct PL as (C & SV & A1 & A2). destruct (forallb small d) eqn:B; [|discriminate E]. injection E as <-. destruct (C67_valid_arrays F e h nr nc [] [] r c [] [] (map fofZ d) ck A1 A2) as (_ & _ & Q & _).
    eexists. split; [apply Q; apply coo_map_ok; exact C|]. split; [reflexivity|]. split; [reflexivity|]. intros i0 j Hi Hj. unfold SpecCall.cell. cbn [stored pyc_arrays]. rewrite coo_at_map. apply one_or_map.
    apply (sub_small d); [exact B|]. intros w Iw. eapply coo_sub. exact Iw.
  - destruct (forallb small d && _) eqn:B; [|discriminate E]. injection E as <-. apply andb_true_iff in B. destruct B as [B L]. destruct (C67_generated F e h) as (_ & _ & _ & Q). rewrite Q, map_length, L. eexists. split; [reflexivity|].
    eexists. split; [reflexivity|]. apply all_small in B. clear - B. induction B as [|w d Hw B IH]; [constructor|]. cbn [map]. constructor; [apply int_ofZ; exact Hw|exact IH].
  - injection E as <-. destruct (C67_generated F e h) as (Q & _). destruct (Q nr nc) as (z & Q1 & Q2 & Q3 & Q4). exists z. split; [exact Q1|]. split; [exact Q2|]. split; [exact Q3|]. intros i j _ _. unfold SpecCall.cell. rewrite Q4. apply int_zero.
  - injection E as <-. destruct (C67_generated F e h) as (_ & Q & _). destruct (Q n PL) as (z & Q1 & Q2 & Q3 & Q4). exists z. split; [exact Q1|]. split; [exact Q2|]. split; [exact Q3|]. intros i j Hi _. unfold SpecCall.cell. rewrite Q4 by exact Hi.
    destruct (i =? j)%nat; [|apply int_zero]. split; [split; reflexivity|vm_compute; reflexivity].
  - destruct (forallb small d) eqn:B; [|discriminate E]. injection E as <-. destruct (C67_generated F e h) as (_ & _ & Q & _). assert (PL' : alloc_ok (length (map (fofZ : Z -> F) d))) by (rewrite map_length; exact PL).
    destruct (Q _ PL') as (z & Q1 & Q2 & Q3 & Q4). rewrite map_length in Q3, Q4. exists z. split; [exact Q1|]. split; [exact Q2|]. split; [exact Q3|]. intros i j Hi _. unfold SpecCall.cell. rewrite Q4 by exact Hi.
    destruct (i =? j)%nat; [|apply int_zero]. cbn [one_or]. rewrite (nth_indep _ f0 (fofZ 0 : F)) by (rewrite map_length; exact Hi). rewrite (map_nth (fofZ : Z -> F)). apply int_ofZ. rewrite forallb_forall in B. apply B. apply nth_In. exact Hi.
  - destruct (nth_error H a) as [[k m n x| | |]|] eqn:N; try discriminate E. destruct (at_class _ _ _ _ _ _ _ R HH N) as (v & Na & Cv & Sv & NC & X & L1).
    assert (MAP : forall (uo : uop (F := F)) (g : nat -> nat -> Z), is_map uo = true -> (forall i j, (i < m)%nat -> (j < n)%nat -> (x i j = 0 -> g i j = 0) /\ forall w : F, is_int w (x i j) -> is_int (unary_value uo w) (g i j)) ->
      exists z, step e h (Unary uo a) = Ok (h ++ [z]) /\ holds z (IMat k m n g)).
    { intros uo g M G. destruct (C60_unary_maps F e h a v uo (f64_laws pw) R Na NC M) as (z & Q1 & Q2 & Q3 & Q4). exists z. split; [exact Q1|]. split; [congruence|]. split; [congruence|]. intros i j Hi Hj. unfold SpecCall.cell. rewrite Q4.
      destruct (G i j Hi Hj) as [G1 G2]. apply (map_cell _ _ (x i j)); auto. apply X; assumption. }
    destruct op.
    + injection E as <-. apply (MAP UAbs); [reflexivity|]. intros i j _ _. split; [intros ->; reflexivity|]. intros w. apply abs_int.
    + injection E as <-. apply (MAP USign); [reflexivity|]. intros i j _ _. split; [intros ->; reflexivity|]. intros w. apply sign_int.
    + destruct (cells_of_some _ _ _ _ _ E) as [-> SO]. apply (MAP UNeg); [reflexivity|]. intros i j Hi Hj. specialize (SO i j Hi Hj). split.
      * intros X0. rewrite X0. reflexivity.
      * intros w Iw. apply (scalar_int SMul w (x i j) (-1) _ Iw eq_refl SO).
    + injection E as <-. destruct (C60_eliminate_zeros pw e h a v FE R Na NC) as (z & Q1 & Q2 & Q3 & Q4).
      { rewrite Sv. apply (ints_no_nan v m n x X L1). }
      exists z. split; [exact Q1|]. split; [congruence|]. split; [congruence|]. intros i j Hi Hj. rewrite Sv in Q4. specialize (Q4 i j Hi Hj). specialize (X i j Hi Hj). specialize (L1 i j Hi Hj). unfold SpecCall.cell in *. rewrite Q4.
      destruct (stored v i j) as [|w [|? ?]]; [exact X| |cbn in L1; lia]. cbn [filter]. destruct (feqb w f0) eqn:E0; cbn [negb one_or] in *; [|exact X]. destruct X as [_ X]. rewrite (zero_number pw w E0) in X. split; [apply zero_is_double|exact X].
    + injection E as <-. destruct (C60_transpose F e h a v (f64_laws pw) FE R Na NC) as (z & Q1 & Q2 & Q3 & Q4). exists z. split; [exact Q1|]. split; [congruence|]. rewrite Sv in Q3, Q4. split; [exact Q3|]. intros i j Hi Hj. unfold SpecCall.cell. rewrite Q4 by assumption. apply X; assumption.
  - destruct (nth_error H a) as [[k m n x| | |]|] eqn:N; try discriminate E. destruct (at_class _ _ _ _ _ _ _ R HH N) as (v & Na & Cv & Sv & NC & X & L1).
    destruct (small q && _) eqn:B; [|discriminate E]. apply andb_true_iff in B. destruct B as [B1 B2]. destruct (cells_of_some _ _ _ _ _ E) as [-> SO].
    destruct (C60_scalar_operators F e h a v op (fofZ q) (f64_laws pw) R Na NC) as [_ Q]. destruct Q as (z & Q1 & Q2 & Q3 & Q4).
    { apply (scalar_quiet pw op (fofZ q) q); [apply int_ofZ; exact B1|]. destruct op; cbn [int_scalar] in B2; try discriminate B2; [left; reflexivity| |]; right; (split; [auto|]); intros ->; discriminate B2. }
    exists z. split; [exact Q1|]. split; [congruence|]. split; [congruence|]. intros i j Hi Hj. unfold SpecCall.cell. rewrite Q4. specialize (SO i j Hi Hj).
    apply (map_cell _ _ (x i j)); [apply L1; assumption|apply X; assumption| |].
    + intros X0. apply (scalar_int (pw := pw) op (S754_zero false) (x i j) q); [rewrite X0; apply int_zero|exact B1|exact SO|exact X0].
    + intros w Iw. apply (scalar_int op w (x i j) q); assumption.
  - destruct (nth_error H a) as [[k m n x| | |]|] eqn:N; try discriminate E. destruct (nth_error H b) as [[k' m' n' y0| | |]|] eqn:N'; try discriminate E.
    destruct (at_class _ _ _ _ _ _ _ R HH N) as (v & Na & Cv & Sv & NC & X & L1). destruct (at_class _ _ _ _ _ _ _ R HH N') as (w & Nb & Cw & Sw & NC' & Y & L2).
    match type of E with (if ?c then _ else _) = _ => destruct c eqn:B; [|discriminate E] end. rewrite !andb_true_iff in B. destruct B as ((((B1 & B2) & B3) & B4) & B5). apply Nat.eqb_eq in B3, B4. subst m' n'.
    assert (k = k') by (destruct k, k'; try discriminate B1; reflexivity). subst k'. destruct (cells_of_some _ _ _ _ _ E) as [-> SO].
    destruct (binary_step e h a b v w op k m n x y0 FE R Na Nb Cv Cw ltac:(intros ->; discriminate B2) Sv Sw X Y ltac:(intros ->; discriminate B5)) as (z & Q1 & Q2 & Q3 & Q4).
    exists z. split; [exact Q1|]. split; [exact Q2|]. split; [exact Q3|]. intros i j Hi Hj. apply Q4; auto.
  - destruct (nth_error H a) as [[k m n x| | |]|] eqn:N; try discriminate E. destruct (nth_error H b) as [[|sh y0| |]|] eqn:N'; try discriminate E.
    destruct (at_class _ _ _ _ _ _ _ R HH N) as (v & Na & Cv & Sv & NC & X & L1). destruct (at_array _ _ _ _ _ HH N') as (d & Nb & D).
    destruct (C64_matmul F e h a b v (VArr sh d) sh d (f64_laws pw) FE R Na Nb eq_refl NC DM) as (_ & _ & Q1 & _ & Q2). rewrite Sv in Q1, Q2. cbn [fst snd] in Q1, Q2.
    assert (LD := arr_length h b (VArr sh d) sh d (f64_laws pw) R Nb eq_refl).
    assert (VEC : forall l, sh = [l] -> (if (l =? n)%nat then sums [m] (map (fun i => map (fun j => x i j * nth j y0 0) (seq 0 n)) (seq 0 m)) else None) = Some y -> exists z, step e h (Matmul a b) = Ok (h ++ [z]) /\ holds z y).
    { clear E. intros l ES E. subst sh. destruct (Nat.eqb_spec l n) as [->|]; [|discriminate E]. destruct (Q1 eq_refl) as (c & Q3 & Q4 & Q5). eexists. split; [exact Q3|]. apply (sums_hold _ _ _ _ E). apply (F2_seq _ _ _ _ (f0 : F) Q4). intros i Hi B.
      specialize (Q5 i Hi). unfold row_times in Q5. rewrite Sv in Q5. cbn [snd] in Q5. cbn [fold_right] in LD. rewrite Nat.mul_1_r in LD.
      apply (dot_is_int (stored v) n d i (x i) y0 (nth i c f0)); [destruct v; try (exfalso; apply NC; reflexivity); [right|left|left]; exact Q5| |exact D|exact LD|exact B].
      intros j Hj. split; [apply L1; assumption|apply X; assumption]. }
    assert (E2 : (exists l, sh = [l]) \/ match rev sh with
          | q :: l :: bs =>
              let s := fold_right Nat.mul 1%nat (rev bs) in
              if (l =? n)%nat && (0 <? s * q)%nat then
                sums (rev bs ++ [m; q]) (flat_map (fun t => cells m q (fun i c => map (fun j => x i j * nth (t * (n * q) + (j * q + c)) y0 0) (seq 0 n))) (seq 0 s)) else None
          | _ => None
          end = Some y) by (destruct sh as [|l [|q sh]]; [right; exact E|left; eauto|right; exact E]).
    destruct E2 as [[l ES]|E2]; [apply (VEC l ES); subst sh; exact E|]. clear VEC E Q1.
    destruct (rev sh) as [|q [|l bs]] eqn:ER; try discriminate E2. assert (ES : sh = rev bs ++ [l; q]) by (rewrite <- (rev_involutive sh), ER; cbn [rev]; rewrite <- app_assoc; reflexivity). cbv zeta in E2.
    set (s := fold_right Nat.mul 1%nat (rev bs)) in *. destruct (Nat.eqb_spec l n) as [->|]; [|discriminate E2]. destruct (Nat.ltb_spec 0 (s * q)) as [HQ|]; [|discriminate E2]. cbn [andb] in E2.
    destruct (Q2 (rev bs) q ES) as [Q3 _]. fold s in Q3. destruct Q3 as (c & Q3 & Q4 & Q5); [destruct v; try exact I; cbn [columns_ok]; lia|]. eexists. split; [exact Q3|].
    rewrite ES, prod_app in LD. fold s in LD. cbn [fold_right] in LD. rewrite Nat.mul_1_r in LD.
    apply (sums_hold _ _ _ _ E2). apply (F2_stack _ c (m * q)); [rewrite Q4; lia|]. intros t Ht. assert (LB : length (batch (m * q) t c) = (m * q)%nat) by (unfold batch; rewrite Lists.slice_length by (rewrite Q4; nia); lia).
    apply (F2_cells _ _ _ _ _ (f0 : F) LB). intros i j Hi Hj. apply (column_dot v m n x (batch (n * q) t d) y0 q i j (t * (n * q)) _ X L1 Hi Hj); [|apply (Q5 t i j Ht Hi Hj)].
    intros r Hr. unfold batch. rewrite PPy2.nth_slice by nia. apply F2_nth; [exact D|]. rewrite LD. nia.
  - destruct (nth_error H a) as [[k m n x| | |]|] eqn:N; try discriminate E. destruct (at_class _ _ _ _ _ _ _ R HH N) as (v & Na & Cv & Sv & NC & X & L1).
    destruct (reduction_2d (cells m n x) (cols_of m n x) (rows_of m n x) axis kd) as [[sh ls]|] eqn:ER; [|discriminate E].
    destruct (reduce_lines e h a v RSum m n x sum_to axis kd sh ls FE R Na NC Sv X L1 eq_refl I) as (l & Q1 & Q2); [|exact ER|eexists; split; [exact Q1|apply (sums_hold _ _ _ _ E Q2)]].
    intros J cell b js w G S B. apply (sum_is_int cell b js w S G B).
  - destruct (nth_error H a) as [[k m n x| | |]|] eqn:N; try discriminate E. destruct (at_class _ _ _ _ _ _ _ R HH N) as (v & Na & Cv & Sv & NC & X & L1).
    destruct (reduction_2d (cells m n x) (cols_of m n x) (rows_of m n x) axis kd) as [[sh ls]|] eqn:ER; [|discriminate E].
    destruct (reduce_lines e h a v RProd m n x (line_to small_prod prodz) axis kd sh ls FE R Na NC Sv X L1 eq_refl I) as (l & Q1 & Q2); [|exact ER|eexists; split; [exact Q1|apply (lines_hold _ _ _ _ _ _ E Q2)]].
    intros J cell b js w G S B. apply (prod_is_int cell b js w S); [|exact B]. intros j Hj. apply (G j Hj).
  - destruct (nth_error H a) as [[k m n x| | |]|] eqn:N; try discriminate E. destruct (at_class _ _ _ _ _ _ _ R HH N) as (v & Na & Cv & Sv & NC & X & L1).
    destruct (reduction_2d (cells m n x) (cols_of m n x) (rows_of m n x) axis kd) as [[sh ls]|] eqn:ER; [|discriminate E].
    assert (NN : no_nan (matrix_values (stored v) (fst (shape2 v)) (snd (shape2 v)))) by (rewrite Sv; apply (ints_no_nan v m n x X L1)).
    destruct (reduce_lines e h a v (if least then RMin else RMax) m n x (line_to any_line (best least)) axis kd sh ls FE R Na NC Sv X L1) as (l & Q1 & Q2);
      [destruct least; reflexivity|destruct least; destruct SU; split; auto| |exact ER|eexists; split; [exact Q1|apply (lines_hold _ _ _ _ _ _ E Q2)]].
    intros J cell b js w G S _. assert (G' : forall j, In j js -> is_int (one_or f0 (cell j)) (b j)) by (intros j Hj; apply (G j Hj)). apply F2_line in G'. destruct least; [apply (least_int _ _ _ G' S)|apply (greatest_int _ _ _ G' S)].
  - destruct (nth_error H a) as [[k m n x| | |]|] eqn:N; try discriminate E. destruct (at_class _ _ _ _ _ _ _ R HH N) as (v & Na & Cv & Sv & NC & X & L1).
    destruct (reduction_2d (cells m n x) (cols_of m n x) (rows_of m n x) axis kd) as [[sh ls]|] eqn:ER; [|discriminate E].
    injection E as <-. set (op := (if every then RAll else RAny) : rop (F := F)). assert (OP : op = RAll \/ op = RAny) by (unfold op; destruct every; auto).
    assert (Q := C62_all_any pw e h a v _ FE R Na NC OP axis kd). rewrite Sv in Q. cbn [fst snd] in Q.
    assert (DE : forall (J : Set) (cell : J -> list F) (b : J -> Z) js, (forall j, In j js -> is_int (one_or f0 (cell j)) (b j)) -> decides op cell js = decide every (map b js)).
    { intros J cell b js G. rewrite <- (decide_ints every cell b js G). unfold op. destruct every; reflexivity. }
    assert (EQ : reduction_result VBools (decides op (fun p => stored v (fst p) (snd p)) (grid m n))
      (map (fun j => decides op (fun i => stored v i j) (seq 0 m)) (seq 0 n)) (map (fun i => decides op (fun j => stored v i j) (seq 0 n)) (seq 0 m)) axis kd h = Ok (h ++ [VBools sh (map (decide every) ls)])).
    { destruct (reduction_rel (fun (w : bool) line => w = decide every line) (decides op (fun p => stored v (fst p) (snd p)) (grid m n)) (cells m n x)
        (map (fun j => decides op (fun i => stored v i j) (seq 0 m)) (seq 0 n)) (cols_of m n x) (map (fun i => decides op (fun j => stored v i j) (seq 0 n)) (seq 0 m)) (rows_of m n x) axis kd sh ls) as (l & EL & RL); [| | |exact ER|].
      - rewrite (cells_table m n x), <- PDense2.map_grid. apply DE. intros [i j] Hij. apply in_prod_iff in Hij. rewrite !in_seq in Hij. apply X; cbn [fst snd]; lia.
      - unfold cols_of. assert (G : forall l, (forall j, In j l -> (j < n)%nat) -> Forall2 (fun (w : bool) line => w = decide every line) (map (fun j => decides op (fun i => stored v i j) (seq 0 m)) l) (map (fun j => map (fun i => x i j) (seq 0 m)) l)).
        { induction l as [|j l IH]; intros K; [constructor|]. cbn [map]. constructor; [|apply IH; intros; apply K; right; assumption]. apply (DE nat (fun i => stored v i j) (fun i => x i j)). intros i Hi. apply in_seq in Hi. apply X; [lia|apply K; left; reflexivity]. }
        apply G. intros j Hj. apply in_seq in Hj. lia.
      - unfold rows_of. assert (G : forall l, (forall i, In i l -> (i < m)%nat) -> Forall2 (fun (w : bool) line => w = decide every line) (map (fun i => decides op (fun j => stored v i j) (seq 0 n)) l) (map (fun i => map (x i) (seq 0 n)) l)).
        { induction l as [|i l IH]; intros K; [constructor|]. cbn [map]. constructor; [|apply IH; intros; apply K; right; assumption]. apply (DE nat (fun j => stored v i j) (x i)). intros j Hj. apply in_seq in Hj. apply X; [apply K; left; reflexivity|lia]. }
        apply G. intros i Hi. apply in_seq in Hi. lia.
      - unfold reduction_result. rewrite EL. do 4 f_equal. clear - RL. induction RL as [|w line l ls W RL IH]; [reflexivity|]. cbn [map]. rewrite W, IH. reflexivity. }
    eexists. split; [rewrite Q; exact EQ|reflexivity].
  - destruct (nth_error H a) as [[k m n x| | |]|] eqn:N; try discriminate E. destruct (at_class _ _ _ _ _ _ _ R HH N) as (v & Na & Cv & Sv & NC & X & L1).
    destruct (C66_cumulative pw e h a v op axis FE R Na) as (_ & Q1 & Q2). rewrite Sv in Q1, Q2. cbn [fst snd] in Q1, Q2. cbv zeta in E.
    assert (RUN : forall out ls, Forall2 (line_to (match op with CumSum => small_sum | CumProd => small_prod end) (match op with CumSum => sumz | CumProd => prodz end)) out ls ->
      match op with CumSum => lines small_sum sumz | CumProd => lines small_prod prodz end [m; n] ls = Some y -> holds (VArr [m; n] out : value F) y) by (intros out ls G E'; destruct op; apply (lines_hold _ _ _ _ _ _ E' G)).
    assert (ACC : forall (cell : nat -> list F) (g : nat -> Z) js w, accumulates op cell js w -> (forall j, In j js -> (length (cell j) <= 1)%nat /\ is_int (one_or f0 (cell j)) (g j)) ->
      line_to (match op with CumSum => small_sum | CumProd => small_prod end) (match op with CumSum => sumz | CumProd => prodz end) w (map g js)).
    { intros cell g js w A G B. destruct op; [apply (sum_is_int _ _ _ _ A G B)|apply (prod_is_int cell g js w A (fun j Hj => proj2 (G j Hj)) B)]. }
    destruct (single_axis axis) as [[|[|?]]|]; try discriminate E.
    + destruct (Q1 NC eq_refl) as (out & Q3 & Q4 & Q5). eexists. split; [exact Q3|]. refine (RUN _ _ _ E). apply (F2_cells _ _ _ _ _ (f0 : F) Q4). intros i j Hi Hj.
      apply (ACC _ _ _ _ (Q5 i j Hi Hj)). intros i' Hi'. apply in_seq in Hi'. split; [apply L1; lia|apply X; lia].
    + destruct (same_class k CscClass) eqn:B0; [discriminate E|]. destruct Q2 as (out & Q3 & Q4 & Q5); [rewrite Cv; destruct k; auto; discriminate B0|reflexivity|]. eexists. split; [exact Q3|]. refine (RUN _ _ _ E).
      apply (F2_cells _ _ _ _ _ (f0 : F) Q4). intros i j Hi Hj. apply (ACC _ _ _ _ (Q5 i j Hi Hj)). intros j' Hj'. apply in_seq in Hj'. split; [apply L1; lia|apply X; lia].
  - destruct (nth_error H a) as [[k m n x| | |]|] eqn:N; try discriminate E. destruct (at_class _ _ _ _ _ _ _ R HH N) as (v & Na & Cv & Sv & NC & X & L1).
    destruct (same_class k CscClass); [discriminate E|]. destruct (C66_diff pw e h a v t axis FE R Na) as (_ & Q0 & Q1). rewrite Sv in Q0, Q1. cbn [fst snd] in Q0, Q1. destruct ((axis =? 0) || (axis =? -2)) eqn:A0; [|destruct ((axis =? 1) || (axis =? -1)) eqn:A1; [|discriminate E]].
    + assert (AX : axis = 0 \/ axis = -2) by (apply orb_true_iff in A0; rewrite !Z.eqb_eq in A0; exact A0). destruct (Q0 NC AX) as (z & E1 & C1 & S1 & V1). cbv zeta in E. destruct (forallb _ _) eqn:B; [|discriminate E]. injection E as <-. exists z. split; [exact E1|].
      split; [congruence|]. split; [exact S1|]. intros i j Hi Hj. rewrite forallb_forall in B. specialize (B j ltac:(apply in_seq; lia)). destruct (differences t m (fun i => x i j)) as [g|] eqn:EG; [|discriminate B].
      apply (diff_int t m _ _ (V1 j Hj ltac:(lia)) (fun i => x i j) g); [|exact EG|exact Hi]. intros i' Hi'. split; [apply L1; assumption|apply X; assumption].
    + assert (AX : axis = 1 \/ axis = -1) by (apply orb_true_iff in A1; rewrite !Z.eqb_eq in A1; exact A1). destruct (Q1 NC AX) as (z & E1 & C1 & S1 & V1). cbv zeta in E. destruct (forallb _ _) eqn:B; [|discriminate E]. injection E as <-. exists z. split; [exact E1|].
      split; [congruence|]. split; [exact S1|]. intros i j Hi Hj. rewrite forallb_forall in B. specialize (B i ltac:(apply in_seq; lia)). destruct (differences t n (x i)) as [g|] eqn:EG; [|discriminate B].
      apply (diff_int t n _ _ (V1 i Hi ltac:(lia)) (x i) g); [|exact EG|exact Hj]. intros j' Hj'. apply start_int; [apply L1; assumption|apply X; assumption].
  - destruct (nth_error H a) as [[k m n x| | |]|] eqn:N; try discriminate E. destruct (nth_error H b) as [[|sh y0| |]|] eqn:N'; try discriminate E. destruct sh as [|l [|? ?]]; try discriminate E.
    destruct (at_class _ _ _ _ _ _ _ R HH N) as (v & Na & Cv & Sv & NC & X & L1). destruct (at_array _ _ _ _ _ HH N') as (d & Nb & D).
    assert (LD := arr_length h b (VArr [l] d) [l] d (f64_laws pw) R Nb eq_refl). cbn [fold_right] in LD. rewrite Nat.mul_1_r in LD.
    destruct (C64_vecdot F e h a b v l d axis (f64_laws pw) FE R Na Nb NC) as (Q1 & Q2 & _). rewrite Sv in Q2. cbn [fst snd] in Q2.
    assert (ROW : axis = None \/ axis = Some 1 \/ axis = Some (-1) -> (if (l =? n)%nat then sums [m] (map (fun i => map (fun j => x i j * nth j y0 0) (seq 0 n)) (seq 0 m)) else None) = Some y -> exists z, step e h (Vecdot a b axis) = Ok (h ++ [z]) /\ holds z y).
    { clear E. intros AX E. rewrite (Q1 AX). destruct (C64_matmul F e h a b v (VArr [l] d) [l] d (f64_laws pw) FE R Na Nb eq_refl NC DM) as (_ & _ & Q3 & _). rewrite Sv in Q3. cbn [fst snd] in Q3.
      destruct (Nat.eqb_spec l n) as [->|]; [|discriminate E]. destruct (Q3 eq_refl) as (c & Q4 & Q5 & Q6). eexists. split; [exact Q4|]. apply (sums_hold _ _ _ _ E). apply (F2_seq _ _ _ _ (f0 : F) Q5). intros i Hi B.
      specialize (Q6 i Hi). unfold row_times in Q6. rewrite Sv in Q6. cbn [snd] in Q6.
      apply (dot_is_int (stored v) n d i (x i) y0 (nth i c f0)); [destruct v; try (exfalso; apply NC; reflexivity); [right|left|left]; exact Q6| |exact D|exact LD|exact B].
      intros j Hj. split; [apply L1; assumption|apply X; assumption]. }
    destruct axis as [[|[?|?|]|[?|?|]]|]; try discriminate E; [|apply ROW; auto|apply ROW; auto|apply ROW; auto]. clear ROW Q1.
    destruct (Nat.eqb_spec l m) as [->|]; [|discriminate E]. destruct (Q2 eq_refl) as (c & Q3 & Q4 & Q5). eexists. split; [exact Q3|]. apply (sums_hold _ _ _ _ E). apply (F2_seq _ _ _ _ (f0 : F) Q4). intros j Hj B.
    specialize (Q5 j Hj). unfold col_times in Q5. rewrite Sv in Q5. cbn [fst] in Q5.
    assert (G : forall i, (i < m)%nat -> (length (transposed (stored v) j i) <= 1)%nat /\ is_int (one_or f0 (transposed (stored v) j i)) (x i j)) by (intros i Hi; split; [apply L1; assumption|apply X; assumption]).
    assert (Q6 : FSum (dot_terms_nz (transposed (stored v)) m d j) (nth j c f0) \/ nth j c f0 = fma_sum d (by_column (transposed (stored v) j) m)) by (destruct v; try (exfalso; apply NC; reflexivity); [left|right|left]; exact Q5).
    destruct Q6 as [Q6|Q6]; [apply (dot_nz_is_int (transposed (stored v)) m d j (fun i => x i j) y0 (nth j c f0) Q6 G D LD B)|apply (dot_is_int (transposed (stored v)) m d j (fun i => x i j) y0 (nth j c f0) (or_intror Q6) G D LD B)].
  - destruct (nth_error H a) as [[k m n x| | |]|] eqn:N; try discriminate E. destruct (nth_error H b) as [[|sh y0| |]|] eqn:N'; try discriminate E. destruct sh as [|l rest]; try discriminate E.
    destruct (at_class _ _ _ _ _ _ _ R HH N) as (v & Na & Cv & Sv & NC & X & L1). destruct (at_array _ _ _ _ _ HH N') as (d & Nb & D).
    assert (LD := arr_length h b (VArr (l :: rest) d) (l :: rest) d (f64_laws pw) R Nb eq_refl). cbn [fold_right] in LD.
    assert (AX : axis = None \/ axis = Some 1) by (destruct axis as [[|[?|?|]|?]|]; try discriminate E; auto).
    assert (E2 : (if (l =? n)%nat && (0 <? fold_right Nat.mul 1 rest)%nat then sums (m :: rest) (cells m (fold_right Nat.mul 1%nat rest) (fun i c => map (fun j => x i j * nth (j * fold_right Nat.mul 1%nat rest + c) y0 0) (seq 0 n))) else None) = Some y)
      by (destruct AX as [-> | ->]; exact E).
    clear E. set (q := fold_right Nat.mul 1%nat rest) in *. destruct (Nat.eqb_spec l n) as [->|]; [|discriminate E2]. destruct (Nat.ltb_spec 0 q) as [HQ|]; [|discriminate E2]. cbn [andb] in E2.
    destruct (C64_tensordot F e h a b v (n :: rest) d axis (f64_laws pw) FE R Na Nb NC DM) as [_ Q]. rewrite Sv in Q. cbn [fst snd] in Q. destruct (Q AX) as (_ & Q1 & _ & Q2). clear Q.
    assert (DEC : rest = [] \/ rest <> []) by (destruct rest; [left; reflexivity|right; discriminate]). destruct DEC as [ER|NR].
    + subst rest. rewrite (Q1 n eq_refl). assert (DM' : demand h (Matmul a b) < i64_max) by exact DM.
      destruct (C64_matmul F e h a b v (VArr [n] d) [n] d (f64_laws pw) FE R Na Nb eq_refl NC DM') as (_ & _ & Q3 & _). rewrite Sv in Q3. cbn [fst snd] in Q3. destruct (Q3 eq_refl) as (c & Q4 & Q5 & Q6). eexists. split; [exact Q4|]. apply (sums_hold _ _ _ _ E2).
      apply (F2_cells _ c m q _ (f0 : F)); [subst q; cbn [fold_right]; lia|]. intros i j Hi Hj B. assert (j = 0)%nat as -> by (subst q; cbn [fold_right] in Hj; lia). replace (i * q + 0)%nat with i by (subst q; cbn [fold_right]; lia).
      assert (ES : map (fun r => x i r * nth (r * q + 0) y0 0) (seq 0 n) = map (fun r => x i r * nth r y0 0) (seq 0 n)) by (apply map_ext; intros r; do 2 f_equal; subst q; cbn [fold_right]; lia). rewrite ES in B |- *.
      specialize (Q6 i Hi). unfold row_times in Q6. rewrite Sv in Q6. cbn [snd] in Q6. subst q. cbn [fold_right] in LD. rewrite Nat.mul_1_r in LD.
      apply (dot_is_int (stored v) n d i (x i) y0 (nth i c f0)); [destruct v; try (exfalso; apply NC; reflexivity); [right|left|left]; exact Q6| |exact D|exact LD|exact B].
      intros r Hr. split; [apply L1; assumption|apply X; assumption].
    + destruct (Q2 rest eq_refl NR) as [Q3 _]. fold q in Q3. destruct Q3 as (c & Q3 & Q4 & Q5); [destruct v; try exact I; cbn [columns_ok]; lia|]. eexists. split; [exact Q3|]. apply (sums_hold _ _ _ _ E2). apply (F2_cells _ c m q _ (f0 : F) Q4). intros i j Hi Hj.
      apply (column_dot v m n x d y0 q i j 0 _ X L1 Hi Hj); [|apply (Q5 i j Hi Hj)]. intros r Hr. cbn [Nat.add]. apply F2_nth; [exact D|]. rewrite LD. nia.
  - destruct (nth_error H a) as [[[| |] m n x| | |]|] eqn:N; try discriminate E. destruct (at_class _ _ _ _ _ _ _ R HH N) as (v & Na & Cv & Sv & NC & X & L1). destruct (_ && _) eqn:B; [|discriminate E]. injection E as <-. rewrite !andb_true_iff, !Z.leb_le, !Z.ltb_lt in B.
    destruct (C65_getitem F e h a v i j (f64_laws pw) SU R Na) as (Q & _). rewrite Sv in Q. cbn [fst snd] in Q. eexists. split; [apply Q; [exact Cv|lia]|]. eexists. split; [reflexivity|]. constructor; [apply X; lia|constructor].
  - destruct (nth_error H a) as [[[| |] m n x| | |]|] eqn:N; try discriminate E. destruct (at_class _ _ _ _ _ _ _ R HH N) as (v & Na & Cv & Sv & NC & X & L1). destruct (_ && _) eqn:B; [|discriminate E]. injection E as <-. rewrite !andb_true_iff, !Z.leb_le, !Z.ltb_lt in B.
    destruct (C65_getrow F e h a v i (f64_laws pw) R Na) as (Q & _). rewrite Sv in Q. cbn [fst snd] in Q. destruct (Q Cv) as (Q1 & _). eexists. split; [apply Q1; lia|]. eexists. split; [reflexivity|].
    assert (G : forall l, (forall j, In j l -> (j < n)%nat) -> Forall2 is_int (map (SpecCall.cell v (Z.to_nat i)) l) (map (x (Z.to_nat i)) l)) by (induction l as [|j l IH]; intros K; [constructor|]; cbn [map]; constructor; [apply X; [lia|apply K; left; reflexivity]|apply IH; intros; apply K; right; assumption]).
    apply G. intros j Hj. apply in_seq in Hj. lia.
  - destruct (nth_error H a) as [[[| |] m n x| | |]|] eqn:N; try discriminate E. destruct (at_class _ _ _ _ _ _ _ R HH N) as (v & Na & Cv & Sv & NC & X & L1). destruct (_ && _) eqn:B; [|discriminate E]. injection E as <-. rewrite !andb_true_iff, !Z.leb_le, !Z.ltb_lt in B.
    destruct (C65_getcol F e h a v j (f64_laws pw) SU R Na) as (Q & _). rewrite Sv in Q. cbn [fst snd] in Q. destruct (Q Cv) as (Q1 & _). eexists. split; [apply Q1; lia|]. eexists. split; [reflexivity|].
    assert (G : forall l, (forall i, In i l -> (i < m)%nat) -> Forall2 is_int (map (fun i => SpecCall.cell v i (Z.to_nat j)) l) (map (fun i => x i (Z.to_nat j)) l)) by (induction l as [|i l IH]; intros K; [constructor|]; cbn [map]; constructor; [apply X; [apply K; left; reflexivity|lia]|apply IH; intros; apply K; right; assumption]).
    apply G. intros i Hi. apply in_seq in Hi. lia.
  - destruct (nth_error H a) as [x|] eqn:N; [|discriminate E]. destruct (nth_error H b) as [x'|] eqn:N'; [|discriminate E]. destruct (_ && _) eqn:B; [|discriminate E]. injection E as <-. apply andb_true_iff in B. destruct B as [B1 B2]. apply same_shape_eq in B2. apply andb_true_iff in B1. destruct B1 as [B1 BN]. apply negb_true_iff, orb_false_iff in BN. destruct BN as [BN1 BN2].
    destruct (dense_ints h H a x R HH N BN1) as (v & d & Na & PS & DF & DI & FN). destruct (dense_ints h H b x' R HH N' BN2) as (v' & d' & Nb & PS' & DF' & DI' & FN'). rewrite <- B2 in DF'.
    assert (FL : floats v = None \/ floats v' = None) by (apply orb_true_iff in B1; destruct B1 as [B1|B1]; auto).
    destruct (C65_compare_same_shape F e h a b v v' c (fst (table_of x)) d d' (f64_laws pw) R Na Nb PS PS' FL DF DF') as [Q _]. eexists. split; [exact Q|]. cbn [holds]. f_equal.
    generalize dependent (snd (table_of x')). generalize dependent (snd (table_of x)). clear. intros zs Z1 zs' Z2. revert d' zs' Z2. induction Z1 as [|u q d zs U Z1 IH]; intros d' zs' Z2; [reflexivity|]. inversion Z2 as [|u' q' d2 zs2 U' Z3]; subst; [reflexivity|].
    cbn [combine map fst snd]. rewrite (cmp_ints c u u' q q' U U'). f_equal. apply IH. exact Z3.
  - destruct (nth_error H a) as [[k m n x| | |]|] eqn:N; try discriminate E. destruct (at_class _ _ _ _ _ _ _ R HH N) as (v & Na & Cv & Sv & NC & X & L1). injection E as <-.
    destruct (C65_toarray F e h a v (f64_laws pw) R Na) as [Q _]. eexists. split; [apply Q; exact NC|]. rewrite Sv. cbn [fst snd]. eexists. split; [reflexivity|]. apply (shown_ints v m n x Sv X L1).
  - apply (nd_step e h H c y FE R HH PL E DM).
Qed.
End Steps.

Lemma floating_regular : forall pw (c : icall), plain_integers c -> regular_arguments (floating c : call (f64 pw)).
Proof.
  intros pw c P. destruct c; cbn [plain_integers floating regular_arguments] in *; try exact I.
  - destruct P as (C & A & _). split; [exact A|]. split; [|right; apply canonical_map; exact C]. apply Forall_forall. intros j Hj. apply In_nth_error in Hj. destruct Hj as [q Hq]. destruct (ok_bound _ (can_ok _ C) q j Hq) as [B1 B2]. unfold is_i64, i64_min, i64_max in *. lia.
  - apply canonical_map. apply P.
  - destruct P as (C & SV & _). split; [apply coo_map_ok; exact C|]. intros i j. rewrite coo_at_map, map_length. apply SV.
  - destruct c; cbn [plain_integers floating_nd regular_arguments] in *; try exact I. destruct P as (C & SV & _). split; [apply nd_map_ok; exact C|]. intros k. rewrite nd_at_map, map_length. apply SV.
Qed.
Lemma floating_allowed : forall pw (h : list (value (f64 pw))) (H : list ival) (c : icall) y, reached h -> Forall2 holds h H -> int_call H c = Some y -> ~ excluded h (floating c).
Proof.
  intros pw h H c y R HH E. destruct c as [nr nc p i d ck|nr nc p i d ck|nr nc r c d ck|sh d|nr nc|n|d|op a|op a q|op a b|a b|a axis kd|a axis kd|least a axis kd|every a axis kd|op a axis|a t axis|a b axis|a b axis|a i j|a i|a j|c a b|a|c]; cbn [floating excluded int_call] in *; auto; [|destruct c; cbn [floating_nd excluded]; auto].
  intros [X NX]. destruct (nth_error H a) as [[k m n x| | |]|] eqn:N; try discriminate E. destruct (at_class _ _ _ _ _ _ _ R HH N) as (v & Na & Cv & _). assert (v = VCsc X) by congruence. subst v. injection Cv as <-. discriminate E.
Qed.

(** ** C88: programs on integers *)

(** A program that builds matrices, arrays and N-D arrays of integers and adds, multiplies, divides, takes
    remainders, absolute values, signs, transposes, matrix products, sums, products and their
    cumulative forms computes exactly the integers of the dense program, as long as sums of absolute values stay
    within 2^53: whatever the threads, schedules and sorts of each call. *)
Theorem C88_integer_programs : forall pw (l : list (Env (f64 pw) * icall)) (H : list ival),
  Forall (fun s => fair (fst s) /\ suits (fst s) (snd s) /\ plain_integers (snd s)) l ->
  int_run [] (map snd l) = Some H ->
  let program := map (fun s => (fst s, floating (snd s))) l in
  (exists h, run [] program = Running h /\ Forall2 holds h H) \/ run [] program = TooBig.
Proof.
  intros pw l H A E program. subst program.
  assert (G : forall l h H0, Forall (fun s => fair (fst s) /\ suits (fst s) (snd s) /\ plain_integers (snd s)) l -> reached h -> Forall2 holds h H0 -> int_run H0 (map snd l) = Some H ->
    (exists h', run h (map (fun s : Env (f64 pw) * icall => (fst s, floating (snd s))) l) = Running h' /\ Forall2 holds h' H) \/ run h (map (fun s : Env (f64 pw) * icall => (fst s, floating (snd s))) l) = TooBig).
  { clear. induction l as [|[e c] l IH]; intros h H0 A R HH E; cbn [map int_run run fst snd] in *.
    - injection E as <-. left. exists h. auto.
    - inversion A as [|? ? (FE & SU & PL) A']; subst. cbn [fst snd] in *. destruct (int_call H0 c) as [y|] eqn:EC; [|discriminate E]. destruct (Z.leb_spec i64_max (demand h (floating c))) as [|DM]; [right; reflexivity|].
      destruct (int_step e h H0 c y FE SU R HH PL EC DM) as (z & ES & HZ). rewrite ES. destruct (forallb MObj.fits (h ++ [z])) eqn:FT; [|right; reflexivity].
      apply (IH _ (H0 ++ [y]) A'); [|apply Forall2_app; [exact HH|constructor; [exact HZ|constructor]]|exact E].
      eapply (reached_call h e (floating c)); eauto; [apply floating_regular; exact PL|apply (floating_allowed pw h H0 c y R HH EC)]. }
  apply (G l [] [] A); [constructor|constructor|exact E].
Qed.
Print Assumptions C88_integer_programs.

(** So two runs of such a program, with other threads, schedules and sorts, show the same numbers
    in every object. *)
Definition same_contents {pw} (v w : value (f64 pw)) : Prop :=
  class_of v = class_of w /\ shape2 v = shape2 w /\
  (forall i j, (i < fst (shape2 v))%nat -> (j < snd (shape2 v))%nat -> (number (SpecCall.cell v i j) == number (SpecCall.cell w i j))%Q) /\
  (forall sh (d : list (f64 pw)), v = VArr sh d -> exists d' : list (f64 pw), w = VArr sh d' /\ Forall2 (fun a b : spec_float => (number a == number b)%Q) d d') /\
  (forall sh d, v = VBools sh d -> w = VBools sh d) /\
  (forall A : Nd (f64 pw), v = VNd A -> exists B : Nd (f64 pw), w = VNd B /\ nd_shape A = nd_shape B /\ forall k, in_shape (nd_shape A) k -> (number (one_or f0 (nd_at A k)) == number (one_or f0 (nd_at B k)))%Q).
Theorem C88_environment_does_not_matter : forall pw (l l' : list (Env (f64 pw) * icall)) (H : list ival) h h',
  Forall (fun s => fair (fst s) /\ suits (fst s) (snd s) /\ plain_integers (snd s)) l -> Forall (fun s => fair (fst s) /\ suits (fst s) (snd s)) l' -> map snd l = map snd l' -> int_run [] (map snd l) = Some H ->
  run [] (map (fun s => (fst s, floating (snd s))) l) = Running h -> run [] (map (fun s => (fst s, floating (snd s))) l') = Running h' ->
  Forall2 same_contents h h'.
Proof.
  intros pw l l' H h h' A A' EL EI R R'.
  assert (A2 : Forall (fun s => fair (fst s) /\ suits (fst s) (snd s) /\ plain_integers (snd s)) l').
  { clear - A A' EL. revert l' A' EL. induction A as [|s l (_ & _ & P) A IH]; intros [|s' l'] A' EL; try discriminate EL; constructor; inversion A' as [|? ? [P1 P2] A2]; subst; injection EL as E EL; [rewrite E in P; auto|apply IH; auto]. }
  destruct (C88_integer_programs pw l H A EI) as [(k & E & S)|E]; rewrite R in E; [|discriminate E]. injection E as <-.
  rewrite EL in EI. destruct (C88_integer_programs pw l' H A2 EI) as [(k & E & S')|E]; rewrite R' in E; [|discriminate E]. injection E as <-.
  clear - S S'. revert h' S'. induction S as [|v x h H V S IH]; intros h' S'; inversion S' as [|w ? h2 ? W S2]; subst; constructor; [|apply IH; exact S2].
  destruct x as [k m n a|sh d|sh d|sh d].
  - destruct V as (C1 & S1 & V1). destruct W as (C2 & T2 & V2). split; [congruence|]. split; [congruence|]. split.
    + rewrite S1. cbn [fst snd]. intros i j Hi Hj. rewrite (proj2 (V1 i j Hi Hj)), (proj2 (V2 i j Hi Hj)). reflexivity.
    + split; [|split]; [intros sh d ->; discriminate C1|intros sh d ->; discriminate C1|intros A ->; discriminate C1].
  - destruct V as (d1 & -> & V1). destruct W as (d2 & -> & V2). split; [reflexivity|]. split; [reflexivity|]. split; [intros i j Hi; cbn in Hi; lia|]. split; [|split; discriminate]. intros sh' d' E. injection E as <- <-. exists d2. split; [reflexivity|].
    clear - V1 V2. revert d2 V2. induction V1 as [|a z l zs Ha V1 IH]; intros d2 V2; inversion V2 as [|b ? l2 ? Hb V3]; subst; constructor; [|apply IH; exact V3]. rewrite (proj2 Ha), (proj2 Hb). reflexivity.
  - cbn [holds] in V, W. rewrite V, W. split; [reflexivity|]. split; [reflexivity|]. split; [intros i j Hi; cbn in Hi; lia|]. split; [discriminate|]. split; [auto|discriminate].
  - destruct V as (A & -> & S1 & _ & V1). destruct W as (B & -> & S3 & _ & V2). split; [reflexivity|]. split; [reflexivity|]. split; [intros i j Hi; cbn in Hi; lia|]. split; [discriminate|]. split; [discriminate|]. intros A' E. injection E as <-.
    exists B. split; [reflexivity|]. split; [congruence|]. intros k I. rewrite S1 in I. rewrite (proj2 (V1 k I)), (proj2 (V2 k I)). reflexivity.
Qed.
Print Assumptions C88_environment_does_not_matter.

(** *** The theorems apply *)
(** A = [[5 0 -3] [0 2 0]] by rows, B = A with other numbers, by rows; their sum, product, floor
    quotient and remainder; A^T, A^T * 3, -(A^T); a vector; A @ v; sums, cumulative sums, C by
    columns, D by coordinates; products, minima, maxima, all, any, differences, products with
    rows and columns, single elements, rows and columns, comparisons; an array of shape (2, 1, 3),
    its absolute values, floor quotients by 2, product with an array of shape (3,), permuted axes,
    another shape, sums, unfoldings, products with dense arrays; cumulative products, a product
    with a stack of matrices, a tensor product. *)
Definition program9 : list icall :=
  [INewCsr 2 3 [0; 2; 3] [0; 2; 1] [5; -3; 2] true; INewCsr 2 3 [0; 3; 5] [0; 1; 2; 0; 1] [-2; 7; 2; 9; 2] false;
   IBinary BAdd 0 1; IBinary BMul 0 1; IBinary BFloorDiv 0 1; IBinary BMod 0 1; IUnary IT 0; IScalar SMul 6 3; IUnary INeg 7;
   INewArr [3]%nat [1; 10; 100]; IMatmul 0 9; ISum 1 (AxInt 1) true; ICum CumSum 0 (AxInt 1);
   INewCsc 2 2 [0; 1; 2] [1; 0] [4; -6] true; INewCoo 2 2 [1; 0] [0; 1] [4; -6] false; IToArray 14; IMatmul 13 15; IUnary IAbs 13; IUnary ISign 14; IUnary IElim 2;
   IProd 1 (AxInt 0) false; IBest true 0 AxNone false; IBest false 0 (AxInt 1) false; IDecide true 1 (AxInt 0) false; IDecide false 0 (AxInt 1) true; IDiff 0 1 1; INewArr [2]%nat [1; -1];
   IVecdot 0 26 (Some 0); IVecdot 13 26 (Some 0); IVecdot 0 9 None; IGetItem 0 0 2; IGetRow 0 0; IGetCol 0 1; ICompare CLt 0 1; ICompare CGe 13 15;
   INdCall (NdNew [2; 1; 3] [0; 0; 0; 0; 0; 2; 1; 0; 1; 1; 0; 2] [5; -3; 2; 4] true); INdCall (NdUnary IAbs 35); INdCall (NdScalar SFloorDiv 35 2); INdCall (NdNew [3] [0; 2] [10; 7] false); INdCall (NdMul 35 38);
   INdCall (NdPermute 35 [2; 0; 1]); INdCall (NdReshape 35 [3; 2]); INdCall (NdSum 35 (AxInt 0) true); INdCall (NdSum 35 AxNone false); INdCall (NdSumAxes 35 [0; 1]); INdCall (NdUnfold FCsr 35 [2; 0]); INdCall (NdMode FCsc 35 2);
   INewArr [3; 2]%nat [1; 2; 3; 4; 5; 6]; INdCall (NdTensordot 35 47 None); INdCall (NdVecdot 35 9 None); IMatmul 46 26;
   ICum CumProd 1 (AxInt 0); INewArr [2; 3; 1]%nat [1; 2; 3; 4; 5; 6]; IMatmul 0 52; ITensordot 0 47 None].
Definition arrays9 : list (list nat * list Z) :=
  map table_of (match int_run [] program9 with Some H => H | None => [] end).
Example C88_machine : arrays9 =
  [([2; 3]%nat, [5; 0; -3; 0; 2; 0]); ([2; 3]%nat, [-2; 7; 2; 9; 2; 0]); ([2; 3]%nat, [3; 7; -1; 9; 4; 0]); ([2; 3]%nat, [-10; 0; -6; 0; 4; 0]); ([2; 3]%nat, [-3; 0; -2; 0; 1; 0]); ([2; 3]%nat, [-1; 0; 1; 0; 0; 0]);
   ([3; 2]%nat, [5; 0; 0; 2; -3; 0]); ([3; 2]%nat, [15; 0; 0; 6; -9; 0]); ([3; 2]%nat, [-15; 0; 0; -6; 9; 0]); ([3]%nat, [1; 10; 100]); ([2]%nat, [-295; 20]); ([2; 1]%nat, [7; 11]); ([2; 3]%nat, [5; 5; 2; 0; 2; 2]);
   ([2; 2]%nat, [0; -6; 4; 0]); ([2; 2]%nat, [0; -6; 4; 0]); ([2; 2]%nat, [0; -6; 4; 0]); ([2; 2]%nat, [-24; 0; 0; -24]); ([2; 2]%nat, [0; 6; 4; 0]); ([2; 2]%nat, [0; -1; 1; 0]); ([2; 3]%nat, [3; 7; -1; 9; 4; 0]);
   ([3]%nat, [-18; 14; 0]); ([], [-3]); ([2]%nat, [5; 2]); ([3]%nat, [1; 1; 0]); ([2; 1]%nat, [1; 1]); ([2; 2]%nat, [-5; -3; 2; -2]); ([2]%nat, [1; -1]);
   ([3]%nat, [5; -2; -3]); ([2]%nat, [-4; -6]); ([2]%nat, [-295; 20]); ([], [-3]); ([3]%nat, [5; 0; -3]); ([2]%nat, [0; 2]); ([2; 3]%nat, [0; 1; 1; 1; 0; 0]); ([2; 2]%nat, [1; 1; 1; 1]);
   ([2; 1; 3]%nat, [5; 0; -3; 0; 2; 4]); ([2; 1; 3]%nat, [5; 0; 3; 0; 2; 4]); ([2; 1; 3]%nat, [2; 0; -2; 0; 1; 2]); ([3]%nat, [10; 0; 7]); ([2; 1; 3]%nat, [50; 0; -21; 0; 0; 28]);
   ([3; 2; 1]%nat, [5; 0; 0; 2; -3; 4]); ([3; 2]%nat, [5; 0; -3; 0; 2; 4]); ([1; 1; 3]%nat, [5; 2; 1]); ([], [8]); ([3]%nat, [5; 2; 1]); ([6; 1]%nat, [5; 0; 0; 2; -3; 4]); ([3; 2]%nat, [5; 0; 0; 2; -3; 4]);
   ([3; 2]%nat, [1; 2; 3; 4; 5; 6]); ([2; 1; 2]%nat, [-10; -8; 26; 32]); ([2; 1]%nat, [-295; 420]); ([3]%nat, [5; -2; -7]);
   ([2; 3]%nat, [-2; 7; 2; -18; 14; 0]); ([2; 3; 1]%nat, [1; 2; 3; 4; 5; 6]); ([2; 2; 1]%nat, [-4; 4; 2; 10]); ([2; 2]%nat, [-10; -8; 6; 8])].
Proof. vm_compute. reflexivity. Qed.

Lemma program9_suits : forall e : Env (f64 pw0), is_min (e_vmin e) -> is_min (e_smin e) -> is_max (e_vmax e) -> is_max (e_smax e) -> is_searchsorted (e_search e) -> Forall (suits e) program9.
Proof. intros e H1 H2 H3 H4 H5. repeat (apply Forall_cons; [cbn [suits]; auto|]). apply Forall_nil. Qed.
Lemma env2_suits : Forall (suits env2) program9.
Proof. apply program9_suits; [apply smin0_min|apply smin0_min|apply smax0_max|apply smax0_max|apply search2]. Qed.
Lemma env3_suits : Forall (suits env3) program9.
Proof. apply program9_suits; [apply smin0_min|apply smin0_min|apply smax0_max|apply smax0_max|apply search2]. Qed.
Lemma program9_plain : Forall plain_integers program9.
Proof.
  repeat (apply Forall_cons; [cbn [plain_integers]; try exact I|]); try apply Forall_nil.
  - split; [apply canonical_literal; reflexivity|]. repeat split; reflexivity.
  - split; [apply canonical_literal; reflexivity|]. repeat split; reflexivity.
  - split; [apply canonical_literal; reflexivity|]. split; reflexivity.
  - split; [apply coo_ok_literal; reflexivity|]. split; [|split; reflexivity]. intros i j. unfold coo_at, at_cell, coo_entries. cbn [coo_row coo_col coo_data combine filter fst snd].
    repeat match goal with |- context [?x =? ?y] => destruct (Z.eqb_spec x y) end; cbn; lia.
  - split; [apply PropNd.nd_ok_literal; reflexivity|]. split; [apply PCall.single_keys; vm_compute; repeat constructor; cbn; intuition discriminate|repeat constructor; discriminate].
  - split; [apply PropNd.nd_ok_literal; reflexivity|]. split; [apply PCall.single_keys; vm_compute; repeat constructor; cbn; intuition discriminate|repeat constructor; discriminate].
Qed.
Example C88_integer_programs_nonvacuous : exists H, int_run [] program9 = Some H /\ length H = 55%nat /\ Forall (fun s : Env (f64 pw0) * icall => fair (fst s) /\ suits (fst s) (snd s) /\ plain_integers (snd s)) (map (fun c => (env2, c)) program9) /\
  exists h, run [] (map (fun s => (fst s, floating (snd s))) (map (fun c => (env2, c)) program9)) = Running h.
Proof.
  assert (E : match int_run [] program9 with Some H => length H | None => 0%nat end = 55%nat) by (vm_compute; reflexivity).
  destruct (int_run [] program9) as [H|]; [|discriminate E]. exists H. split; [reflexivity|]. split; [exact E|]. split.
  - apply Forall_forall. intros s Is. apply in_map_iff in Is. destruct Is as (c & <- & Ic). split; [apply env2_fair|]. assert (P := program9_plain). assert (Q := env2_suits). rewrite Forall_forall in P, Q. split; [apply Q|apply P]; exact Ic.
  - assert (O : match objects (run [] (map (fun s => (fst s, floating (snd s))) (map (fun c => (env2, c)) program9))) with Some _ => true | None => false end = true) by (vm_compute; reflexivity).
    destruct (objects (run [] (map (fun s => (fst s, floating (snd s))) (map (fun c => (env2, c)) program9)))) as [x|] eqn:EO; [|discriminate O]. destruct (objects_running _ _ EO) as (h & ER & _). exists h. exact ER.
Qed.
Example C88_environment_does_not_matter_nonvacuous : exists h h', run [] (map (fun s => (fst s, floating (snd s))) (map (fun c => (env2, c)) program9)) = Running h /\ run [] (map (fun s => (fst s, floating (snd s))) (map (fun c => (env3, c)) program9)) = Running h' /\ Forall2 same_contents h h'.
Proof.
  assert (O : forall e : Env (f64 pw0), match objects (run [] (map (fun s => (fst s, floating (snd s))) (map (fun c => (e, c)) program9))) with Some _ => true | None => false end = true -> exists h, run [] (map (fun s => (fst s, floating (snd s))) (map (fun c => (e, c)) program9)) = Running h).
  { intros e O. destruct (objects (run [] (map (fun s => (fst s, floating (snd s))) (map (fun c => (e, c)) program9)))) as [x|] eqn:EO; [|discriminate O]. destruct (objects_running _ _ EO) as (h & ER & _). exists h. exact ER. }
  destruct (O env2 ltac:(vm_compute; reflexivity)) as [h E]. destruct (O (env3) ltac:(vm_compute; reflexivity)) as [h' E']. exists h, h'. split; [exact E|]. split; [exact E'|].
  destruct C88_integer_programs_nonvacuous as (H & EI & _ & A & _).
  assert (MS : forall e : Env (f64 pw0), map snd (map (fun c => (e, c)) program9) = program9) by (intros e; rewrite map_map; apply map_id).
  apply (C88_environment_does_not_matter pw0 (map (fun c => (env2, c)) program9) (map (fun c => (env3, c)) program9) H); [exact A| | | |exact E|exact E'].
  - apply Forall_forall. intros s Is. apply in_map_iff in Is. destruct Is as (c & <- & Ic). split; [apply env3_fair|]. assert (Q := env3_suits). rewrite Forall_forall in Q. apply Q. exact Ic.
  - rewrite !MS. reflexivity.
  - rewrite MS. exact EI.
Qed.
