(** Programs compute what the dense machine of SpecDense computes: products with dense arrays. *)
Require Import List ZArith Bool Arith Lia QArith Qcanon.
Require Import ZifyBool ZifyNat.
Require Import Verif.Res Verif.Values Verif.Spec Verif.Mem Verif.Lists Verif.CsLib Verif.Laws Verif.MCore Verif.MConvert Verif.PConvert2 Verif.PropConvert Verif.PGroup Verif.PropScalar.
Require Import Verif.MReduce Verif.MLinalg Verif.MStat Verif.SpecReduce Verif.PStat Verif.PStat2 Verif.PStat3 Verif.PropLinalg Verif.PropStat Verif.PropDup.
Require Import Verif.SpecPy Verif.MPy Verif.PropPy Verif.PropPy2 Verif.MObj Verif.SpecObj Verif.PSafe3 Verif.PSafe4 Verif.PObj Verif.SpecDense Verif.PDense.
Import ListNotations.
Local Open Scope nat_scope.

(** ** What is stored at each position, and the dense values *)
Definition cell_rep (cell : nat -> nat -> list Qc) (m n : nat) (a : nat -> nat -> Qc) : Prop :=
  forall i j, i < m -> j < n -> length (cell i j) <= 1 /\ one_or 0q (cell i j) = a i j.
Lemma cr_csr : forall A m n a, cs_rep A m n a -> cell_rep (csr_at A) m n a.
Proof. intros A m n a (C & E1 & E2 & V) i j Hi Hj. subst m n. split; [apply (canonical_single A); auto|]. apply V; auto. Qed.
Lemma cr_t : forall cell m n a, cell_rep cell m n a -> cell_rep (transposed cell) n m (fun j i => a i j).
Proof. intros cell m n a H i j Hi Hj. apply H; auto. Qed.
Lemma cr_csc : forall A m n a, cs_rep A n m (fun j i => a i j) -> cell_rep (csc_at A) m n a.
Proof. intros A m n a H. exact (cr_t _ _ _ _ (cr_csr _ _ _ _ H)). Qed.
Lemma cr_coo : forall A m n a, coo_rep A m n a -> cell_rep (coo_at A) m n a.
Proof. intros A m n a (OK & SV & E1 & E2 & V) i j Hi Hj. split; [apply SV|]. apply V; auto. Qed.

Lemma one_sum : forall l : list Qc, length l <= 1 -> qsum l = one_or 0q l.
Proof. intros [|x [|y l]] H; [reflexivity| |simpl in H; lia]. simpl. apply Qcplus_0_r. Qed.
Lemma cr_sum : forall cell m n a, cell_rep cell m n a -> forall i j, i < m -> j < n -> qsum (cell i j) = a i j.
Proof. intros cell m n a H i j Hi Hj. destruct (H i j Hi Hj) as [L E]. rewrite one_sum; auto. Qed.
Lemma cr_row : forall cell m n a, cell_rep cell m n a -> forall i, i < m -> row_cells 0q cell n i = map (a i) (seq 0 n).
Proof. intros cell m n a H i Hi. apply map_seq_ext. intros j Hj. apply H; auto. Qed.
Lemma cr_rowsum : forall cell m n a, cell_rep cell m n a -> forall i, i < m -> map (fun j => qsum (cell i j)) (seq 0 n) = map (a i) (seq 0 n).
Proof. intros cell m n a H i Hi. apply map_seq_ext. intros j Hj. apply (cr_sum _ _ _ _ H); auto. Qed.
Lemma cr_colsum : forall cell m n a, cell_rep cell m n a -> forall j, j < n -> map (fun i => qsum (cell i j)) (seq 0 m) = map (fun i => a i j) (seq 0 m).
Proof. intros cell m n a H j Hj. apply map_seq_ext. intros i Hi. apply (cr_sum _ _ _ _ H); auto. Qed.

Lemma map_grid : forall {B} (f : nat -> nat -> B) m n, map (fun p => f (fst p) (snd p)) (grid m n) = table m n f.
Proof.
  intros B f m n. unfold grid, table. induction (seq 0 m) as [|i l IH]; auto. cbn [list_prod flat_map]. rewrite map_app, map_map, IH. reflexivity.
Qed.
Lemma table_ext : forall {B} (f g : nat -> nat -> B) m n, (forall i j, i < m -> j < n -> f i j = g i j) -> table m n f = table m n g.
Proof.
  intros B f g m n H. rewrite <- !map_grid. apply map_ext_in. intros [i j] I. apply in_grid in I. apply H; apply I.
Qed.
Lemma cr_matrix : forall cell m n a, cell_rep cell m n a -> matrix_cells 0q cell m n = table m n a.
Proof. intros cell m n a H. unfold matrix_cells. rewrite (map_grid (fun i j => one_or 0q (cell i j))). apply table_ext. intros. apply H; auto. Qed.
Lemma cr_sums : forall cell m n a, cell_rep cell m n a -> map (fun p => qsum (cell (fst p) (snd p))) (grid m n) = table m n a.
Proof. intros cell m n a H. rewrite (map_grid (fun i j => qsum (cell i j))). apply table_ext. intros. apply (cr_sum _ _ _ _ H); auto. Qed.
Lemma cr_dot : forall cell m n a x i, cell_rep cell m n a -> i < m -> dot_exact (F := qc) cell n x i = dot n a x i.
Proof.
  intros cell m n a x i H Hi. unfold dot_exact, dot, total. change (fold_right (fadd : qc -> qc -> qc) f0) with qsum. f_equal.
  apply map_seq_ext. intros j Hj. rewrite (cr_sum _ _ _ _ H); auto.
Qed.

Lemma table_length : forall {B} (f : nat -> nat -> B) m n, length (table m n f) = m * n.
Proof. intros B f m n. rewrite <- map_grid, map_length. unfold grid. rewrite prod_length, !seq_length. reflexivity. Qed.
Lemma nth_flat_map : forall {B} (g : nat -> list B) p d (l : list nat) i c, (forall x, length (g x) = p) -> i < length l -> c < p ->
  nth (i * p + c) (flat_map g l) d = nth c (g (nth i l 0)) d.
Proof.
  intros B g p d l. induction l as [|x l IH]; intros i c HL Hi Hc; [simpl in Hi; lia|]. cbn [flat_map]. destruct i as [|i].
  - cbn [Nat.mul Nat.add nth]. apply app_nth1. rewrite HL; auto.
  - rewrite app_nth2; rewrite HL; [|nia]. replace (S i * p + c - p) with (i * p + c) by nia. cbn [nth]. apply IH; auto. simpl in Hi. lia.
Qed.
Lemma table_nth : forall {B} (f : nat -> nat -> B) m n d i j, i < m -> j < n -> nth (i * n + j) (table m n f) d = f i j.
Proof.
  intros B f m n d i j Hi Hj. unfold table. rewrite nth_flat_map; auto; [|intros; rewrite map_length, seq_length; auto|rewrite seq_length; auto].
  rewrite seq_nth by auto. cbn [Nat.add]. rewrite (nth_indep _ d (f i 0)) by (rewrite map_length, seq_length; auto).
  rewrite (map_nth (f i)), seq_nth by auto. reflexivity.
Qed.
Lemma table_intro : forall {B} (f : nat -> nat -> B) m n d y, length y = m * n -> (forall i j, i < m -> j < n -> nth (i * n + j) y d = f i j) -> y = table m n f.
Proof.
  intros B f m n d y L H. apply (nth_ext _ _ d d); [rewrite table_length; auto|]. intros k Hk. rewrite L in Hk.
  assert (n <> 0) by (intros ->; lia). pose proof (Nat.div_mod k n H0) as E. pose proof (Nat.mod_upper_bound k n H0).
  assert (k / n < m) by (apply Nat.div_lt_upper_bound; auto; lia).
  replace k with (k / n * n + k mod n) by lia. rewrite H, table_nth by auto. reflexivity.
Qed.

Section Env.
Context (e : Env qc) (FE : fair e).

(** ** The native products *)
Definition mv_ok (mv : list Qc -> res (list Qc)) (m n : nat) (a : nat -> nat -> Qc) : Prop :=
  forall y, length y = n -> mv y = Ok (map (dot n a y) (seq 0 m)).
Definition mm_ok (mm : list Qc -> nat -> res (list Qc)) (m n : nat) (a : nat -> nat -> Qc) : Prop :=
  forall b k, 0 < k -> length b = n * k -> alloc_ok (n * k) -> alloc_ok (m * k) -> mm b k = Ok (product m n k a b).

Lemma spmv_list : forall cell m n a (r : res (list Qc)) x, cell_rep cell m n a ->
  (exists y : list qc, r = Ok y /\ length y = m /\ forall i, i < m -> nth i y f0 = dot_exact (F := qc) cell n x i) -> r = Ok (map (dot n a x) (seq 0 m)).
Proof.
  intros cell m n a r x H (y & -> & L & N). f_equal. apply exact_list; auto. intros i Hi. rewrite N by auto. eapply cr_dot; eauto.
Qed.
Lemma column_nth : forall b n k c j, j < n -> nth j (column (F := qc) b n k c) 0q = nth (j * k + c) b 0q.
Proof.
  intros b n k c j Hj. unfold column. change (@f0 qc) with 0q. rewrite (nth_indep _ 0q (nth (0 * k + c) b 0q)) by (rewrite map_length, seq_length; auto).
  rewrite (map_nth (fun j => nth (j * k + c) b 0q)), seq_nth by auto. reflexivity.
Qed.
Lemma spmm_list : forall cell m n a (r : res (list Qc)) b k, cell_rep cell m n a ->
  (exists y : list qc, r = Ok y /\ length y = m * k /\ forall i c, i < m -> c < k -> nth (i * k + c) y f0 = dot_exact (F := qc) cell n (column b n k c) i) ->
  r = Ok (product m n k a b).
Proof.
  intros cell m n a r b k H (y & -> & L & N). f_equal. apply (table_intro _ m k 0q); auto. intros i c Hi Hc. change 0q with (@f0 qc). rewrite N by auto.
  rewrite (cr_dot _ _ _ _ _ _ H Hi). unfold dot, total. f_equal. apply map_seq_ext. intros j Hj. rewrite column_nth; auto.
Qed.

Lemma csr_mv : forall A m n a, cs_rep A m n a -> alloc_ok (length (dat A)) -> alloc_ok n -> mv_ok (spmv_csr (e_schv e) A) m n a.
Proof.
  intros A m n a R AZ AN y L. eapply spmv_list; [apply cr_csr; eauto|]. destruct R as (C & E1 & E2 & V). subst m n.
  apply C27_spmv_csr_exact; auto. apply fair_schv; auto. apply C.
Qed.
Lemma csc_mv : forall A m n a, cs_rep A n m (fun j i => a i j) -> alloc_ok (length (dat A)) -> alloc_ok m -> mv_ok (spmv_csc (e_threads e) (e_dist e) A) m n a.
Proof.
  intros A m n a R AZ AN y L. eapply spmv_list; [apply cr_csc; eauto|]. destruct R as (C & E1 & E2 & V). subst m n.
  apply C28_spmv_csc_exact; auto. apply fair_dist; auto. apply C.
Qed.
Lemma coo_mv : forall A m n a, coo_rep A m n a -> alloc_ok m -> mv_ok (spmv_coo (e_threads e) (e_dist e) A) m n a.
Proof.
  intros A m n a R AM y L. eapply spmv_list; [apply cr_coo; eauto|]. destruct R as (OK & SV & E1 & E2 & V). subst m n.
  apply C28_spmv_coo_exact; auto. apply fair_dist; auto.
Qed.
Lemma csr_mm : forall A m n a, cs_rep A m n a -> alloc_ok (length (dat A)) -> alloc_ok m -> alloc_ok n -> mm_ok (spmm_csr A) m n a.
Proof.
  intros A m n a R AZ AM AN b k K L A1 A2. eapply spmm_list; [apply cr_csr; eauto|]. destruct R as (C & E1 & E2 & V). subst m n.
  apply (C30_spmm_exact k b); auto; [apply C|]. unfold dense_ok. auto.
Qed.
Lemma csc_mm : forall A m n a, cs_rep A n m (fun j i => a i j) -> alloc_ok (length (dat A)) -> alloc_ok m -> alloc_ok n -> mm_ok (spmm_csc (e_ilo e) A) m n a.
Proof.
  intros A m n a R AZ AM AN b k K L A1 A2. eapply spmm_list; [apply cr_csc; eauto|]. destruct R as (C & E1 & E2 & V). subst m n.
  apply (C30_spmm_exact k b); auto; [apply C| |apply fair_ilo; auto]. unfold dense_ok. auto.
Qed.
Lemma coo_mm : forall A m n a, coo_rep A m n a -> alloc_ok m -> alloc_ok n -> mm_ok (spmm_coo (e_ilo e) A) m n a.
Proof.
  intros A m n a R AM AN b k K L A1 A2. eapply spmm_list; [apply cr_coo; eauto|]. destruct R as (OK & SV & E1 & E2 & V). subst m n.
  apply (C30_spmm_exact k b); auto; [|apply fair_ilo; auto]. unfold dense_ok. auto.
Qed.
Lemma product_length : forall m n k a b, length (product m n k a b) = m * k.
Proof. intros. apply table_length. Qed.
Lemma mm_reshape : forall mm m n a, mm_ok mm m n a -> mm_ok (fun b k => let! c := mm b k in let! (_, c) := reshape_to [m; k] c in Ok c) m n a.
Proof.
  intros mm m n a H b k K L A1 A2. rewrite (H b k) by auto. cbn [bind]. unfold reshape_to. rewrite product_length. cbn [fold_right].
  rewrite Nat.mul_1_r, Nat.eqb_refl. reflexivity.
Qed.
Lemma done_arr : forall sh d, length d = fold_right Nat.mul 1 sh -> done (Ok (VArr sh d)) (DArr sh d).
Proof. intros sh d L. exists (VArr sh d). split; [reflexivity|]. intros _. repeat split; auto. Qed.

Lemma alloc_two : forall m n k, (Z.max 1 (Z.of_nat m) * shape_cells (map Z.of_nat [n; k]) < i64_max)%Z -> alloc_ok (n * k) /\ alloc_ok (m * k).
Proof.
  intros m n k D. unfold shape_cells, cells in D. cbn [map fold_right] in D. rewrite Z.mul_1_r in D. unfold alloc_ok. rewrite !Nat2Z.inj_mul.
  assert (H1 : (0 <= Z.of_nat m <= Z.max 1 (Z.of_nat m))%Z) by lia. assert (H2 : (0 <= Z.of_nat n <= Z.max 1 (Z.of_nat n))%Z) by lia. assert (H3 : (0 <= Z.of_nat k <= Z.max 1 (Z.of_nat k))%Z) by lia.
  assert (H4 : (1 <= Z.max 1 (Z.of_nat m))%Z) by lia. assert (H5 : (1 <= Z.max 1 (Z.of_nat n))%Z) by lia. assert (H6 : (1 <= Z.max 1 (Z.of_nat k))%Z) by lia.
  revert D H1 H2 H3 H4 H5 H6. generalize (Z.of_nat m) (Z.of_nat n) (Z.of_nat k) (Z.max 1 (Z.of_nat m)) (Z.max 1 (Z.of_nat n)) (Z.max 1 (Z.of_nat k)). clear.
  intros x y z x' y' z' D H1 H2 H3 H4 H5 H6.
  assert (y * z <= y' * z')%Z by (apply Z.mul_le_mono_nonneg; lia). assert (x * z <= x' * z')%Z by (apply Z.mul_le_mono_nonneg; lia).
  assert (1 * (y' * z') <= x' * (y' * z'))%Z by (apply Z.mul_le_mono_nonneg_r; nia). assert (x' * (1 * z') <= x' * (y' * z'))%Z by (apply Z.mul_le_mono_nonneg_l; nia). lia.
Qed.

Lemma matmul_core : forall mv mm k m n a sh d Y, mv_ok mv m n a -> mm_ok mm m n a -> length d = fold_right Nat.mul 1 sh ->
  (Z.max 1 (Z.of_nat m) * shape_cells (map Z.of_nat sh) < i64_max)%Z ->
  dense_matmul (DMat k m n a) (DArr sh d) = Some Y -> done (arr_new VArr (py_matmul (F := qc) mv mm m n sh d)) Y.
Proof.
  intros mv mm k m n a sh d Y HV HM L DM D. destruct sh as [|n' [|p [|q sh]]]; try discriminate D; cbn [dense_matmul] in D; unfold py_matmul; cbn [rev app].
  - destruct (n' =? n) eqn:EN; [|discriminate D]. injection D as <-. cbn [bind]. apply Nat.eqb_eq in EN. subst n'.
    rewrite HV by (cbn [fold_right] in L; lia). cbn [bind arr_new]. apply done_arr. rewrite map_length, seq_length. cbn. lia.
  - apply alloc_two in DM. destruct ((n' =? n) && (0 <? p)) eqn:EN; [|discriminate D]. injection D as <-. apply andb_true_iff in EN. destruct EN as [EN EP]. rewrite EN. cbn [bind]. apply Nat.eqb_eq in EN. subst n'.
    apply Nat.ltb_lt in EP. rewrite HM; try apply DM; auto; [|cbn [fold_right] in L; lia]. cbn [bind arr_new]. apply done_arr. rewrite product_length. cbn. lia.
Qed.

Lemma matmul_rep : forall x y X Y O, held x X -> held y Y -> (forall sh d, y = VArr sh d -> (mul_demand x sh < i64_max)%Z) ->
  dense_matmul X Y = Some O -> done (do_matmul e x y) O.
Proof.
  intros x y X Y O HX HY DM D. destruct X as [k m n a| | |]; try discriminate D. destruct Y as [|sh d| |]; try discriminate D.
  destruct y as [| | | |sh' d'| |]; try (exfalso; exact (proj1 HY)). destruct HY as [(-> & -> & L) FY]. specialize (DM _ _ eq_refl).
  destruct k; destruct x as [x|x|x| | | |]; try (exfalso; exact (proj1 HX)); cbn [do_matmul mul_demand] in *.
  - open_csr HX. unfold csr_use. rewrite U. cbn [bind]. pose proof R as (C & E1 & E2 & V). unfold csr_nrows, csr_ncols in *. rewrite E1, E2 in *.
    eapply matmul_core; eauto; [apply csr_mv; auto|apply mm_reshape, csr_mm; auto].
  - open_csc HX. unfold csc_use. rewrite U. cbn [bind]. pose proof R as (C & E1 & E2 & V). unfold csc_nrows, csc_ncols in *. rewrite E1, E2 in *.
    eapply matmul_core; eauto; [apply csc_mv; auto|apply mm_reshape, csc_mm; auto].
  - open_coo HX. unfold coo_use. rewrite U. cbn [bind]. pose proof R as (C & SV & E1 & E2 & V). rewrite E1, E2 in *.
    eapply matmul_core; eauto; [apply coo_mv; auto|apply mm_reshape, coo_mm; auto].
Qed.

(** ** tensordot and vecdot *)
Lemma alloc_rest : forall m n rest, (Z.max 1 (Z.of_nat m) * shape_cells (map Z.of_nat (n :: rest)) < i64_max)%Z ->
  shape_fits (Z.of_nat n :: map Z.of_nat rest) /\ alloc_ok (n * count rest) /\ alloc_ok (m * count rest).
Proof.
  intros m n rest DM. assert (P2 := shape_cells_pos (map Z.of_nat (n :: rest))). assert (M1 : (1 <= Z.max 1 (Z.of_nat m))%Z) by lia.
  split; [apply (shape_cells_fits (map Z.of_nat (n :: rest))); [apply nonneg_of_nat|nia]|]. split; unfold alloc_ok; rewrite Nat2Z.inj_mul.
  - assert (P := count_le (n :: rest)). unfold count in P. cbn [fold_right] in P. fold (count rest) in P. rewrite Nat2Z.inj_mul in P. set (q := shape_cells _) in *. clear - DM P P2 M1. nia.
  - assert (P := count_le rest). cbn [map] in DM. replace (shape_cells (Z.of_nat n :: map Z.of_nat rest)) with (Z.max 1 (Z.of_nat n) * shape_cells (map Z.of_nat rest))%Z in DM by reflexivity.
    assert (P3 := shape_cells_pos (map Z.of_nat rest)). set (q := shape_cells (map Z.of_nat rest)) in *. assert (H1 : (1 <= Z.max 1 (Z.of_nat n))%Z) by lia.
    assert (H2 : (Z.of_nat m <= Z.max 1 (Z.of_nat m))%Z) by lia. assert (H3 : (0 <= Z.of_nat m)%Z) by lia. assert (H4 : (0 <= Z.of_nat (count rest))%Z) by lia. clear - DM P P3 M1 H1 H2 H3 H4.
    set (m1 := Z.max 1 (Z.of_nat m)) in *. set (n1 := Z.max 1 (Z.of_nat n)) in *. set (mz := Z.of_nat m) in *. set (cz := Z.of_nat (count rest)) in *. clearbody m1 n1 mz cz q.
    assert (mz * cz <= m1 * q)%Z by (apply Z.mul_le_mono_nonneg; lia). assert (m1 * q <= m1 * (n1 * q))%Z by (apply Z.mul_le_mono_nonneg_l; nia). lia.
Qed.
Lemma tensordot_core : forall (td : list Qc -> list Z -> res (list Qc)) mm m n a rest d, mm_ok mm m n a -> length d = fold_right Nat.mul 1 (n :: rest) -> 0 < count rest ->
  (Z.max 1 (Z.of_nat m) * shape_cells (map Z.of_nat (n :: rest)) < i64_max)%Z ->
  (shape_fits (Z.of_nat n :: map Z.of_nat rest) -> Z.of_nat (length d) = cells (Z.of_nat n :: map Z.of_nat rest) ->
   td d (Z.of_nat n :: map Z.of_nat rest) = mm d (Z.to_nat (cells (map Z.of_nat rest)))) ->
  done (let! c := td d (map Z.of_nat (n :: rest)) in tensordot_result (F := qc) m (n :: rest) c) (DArr (m :: rest) (product m n (count rest) a d)).
Proof.
  intros td mm m n a rest d HM L K DM HT. destruct (alloc_rest _ _ _ DM) as (SF & A1 & A2). cbn [map].
  rewrite HT; auto; [|rewrite L; exact (count_cells (n :: rest))]. rewrite <- count_cells, Nat2Z.id. rewrite HM; auto. cbn [bind]. unfold tensordot_result. cbn [tl].
  unfold reshape_to. cbn [fold_right]. fold (count rest). rewrite product_length, Nat.mul_1_r, Nat.eqb_refl. cbn [bind arr_new].
  apply done_arr. rewrite product_length. reflexivity.
Qed.
Lemma tensordot_rep : forall x y X Y ax O, held x X -> held y Y -> (forall sh d, y = VArr sh d -> (mul_demand x sh < i64_max)%Z) ->
  dense_tensordot X Y ax = Some O -> done (do_tensordot e x y ax) O.
Proof.
  intros x y X Y ax O HX HY DM D. unfold dense_tensordot in D. destruct (match ax with None => true | Some ax => (ax =? 1)%Z end) eqn:EA; [|discriminate D].
  destruct X as [k m n a| | |]; try discriminate D. destruct Y as [|sh d| |]; try discriminate D. pose proof (matmul_rep x y _ _ O HX HY DM) as MM.
  destruct y as [| | | |sh' d'| |]; try (exfalso; exact (proj1 HY)). destruct HY as [(-> & -> & L) FY]. specialize (DM _ _ eq_refl).
  destruct sh as [|n' [|p rest]]; try discriminate D.
  - destruct k; destruct x as [x|x|x| | | |]; try (exfalso; exact (proj1 HX)); cbn [do_tensordot]; rewrite EA; cbn [bind]; apply MM; exact D.
  - set (sh := p :: rest) in *. destruct ((n' =? n) && (0 <? fold_right Nat.mul 1 sh)) eqn:EN; [|discriminate D]. injection D as <-. apply andb_true_iff in EN. destruct EN as [EN EP].
    apply Nat.eqb_eq in EN. subst n'. apply Nat.ltb_lt in EP.
    destruct k; destruct x as [x|x|x| | | |]; try (exfalso; exact (proj1 HX)); cbn [do_tensordot mul_demand] in *; rewrite EA; cbn [bind]; subst sh.
    + open_csr HX. rewrite P. pose proof R as (C & E1 & E2 & V). unfold csr_nrows, csr_ncols in *. rewrite E1, E2 in *. rewrite Nat.eqb_refl. cbn [bind]. rewrite E1.
      refine (tensordot_core (tensordot_csr (py_arrays x)) (spmm_csr (py_arrays x)) _ _ _ _ _ _ L EP DM _); [apply csr_mm; auto|].
      intros SF LD. apply (proj1 (C31_tensordot qc d _ _ SF LD)). unfold csr_ncols. f_equal. symmetry. exact E2.
    + open_csc HX. rewrite P. pose proof R as (C & E1 & E2 & V). unfold csc_nrows, csc_ncols in *. rewrite E1, E2 in *. rewrite Nat.eqb_refl. cbn [bind]. rewrite E2.
      refine (tensordot_core (tensordot_csc (e_ilo e) (py_arrays x)) (spmm_csc (e_ilo e) (py_arrays x)) _ _ _ _ _ _ L EP DM _); [apply csc_mm; auto|].
      intros SF LD. apply (proj1 (proj2 (C31_tensordot qc d _ _ SF LD))). unfold csc_ncols. f_equal. symmetry. exact E1.
    + open_coo HX. rewrite P. pose proof R as (C & SV & E1 & E2 & V). rewrite E1, E2 in *. rewrite Nat.eqb_refl. cbn [bind]. rewrite E1.
      refine (tensordot_core (tensordot_coo (e_ilo e) (pyc_arrays x)) (spmm_coo (e_ilo e) (pyc_arrays x)) _ _ _ _ _ _ L EP DM _); [apply coo_mm; auto|].
      intros SF LD. apply (proj2 (proj2 (C31_tensordot qc d _ _ SF LD))). f_equal. symmetry. exact E2.
Qed.
Lemma vecdot_rep : forall x y X Y ax O, held x X -> held y Y -> (forall sh d, y = VArr sh d -> (mul_demand x sh < i64_max)%Z) ->
  dense_vecdot X Y ax = Some O -> done (do_vecdot e x y ax) O.
Proof.
  intros x y X Y ax O HX HY DM D. unfold dense_vecdot in D.
  destruct X as [k m n a| | |]; try discriminate D. destruct Y as [|sh d| |]; try discriminate D. pose proof (matmul_rep x y _ _ O HX HY DM) as MM.
  destruct y as [| | | |sh' d'| |]; try (exfalso; exact (proj1 HY)). destruct HY as [(-> & -> & L) FY]. clear DM.
  destruct sh as [|n' [|p rest]]; try discriminate D. cbn [do_vecdot].
  assert (NX : match x with VNd _ => False | _ => True end) by (destruct k; destruct x; try exact I; exact (proj1 HX)).
  set (ax' := match ax with None => 1%Z | Some a => if (a =? -1)%Z then 1%Z else a end).
  assert (CASES : (ax' = 1%Z /\ dense_matmul (DMat k m n a) (DArr [n'] d) = Some O) \/
    (ax' = 0%Z /\ n' = m /\ O = DArr [n] (map (dot m (fun j i => a i j) d) (seq 0 n)))).
  { subst ax'. destruct ax as [z|]; [|left; auto]. destruct (Z.eqb_spec z 1); destruct (Z.eqb_spec z (-1)); cbn [orb] in D; try (left; split; [lia|exact D]).
    destruct (Z.eqb_spec z 0); [|discriminate D]. destruct (Nat.eqb_spec n' m); [|discriminate D]. injection D as <-. right. auto. }
  destruct CASES as [[E1 E2]|(E1 & -> & ->)]; rewrite E1.
  { specialize (MM E2). destruct x; try contradiction; exact MM. }
  cbn [fold_right] in L. rewrite Nat.mul_1_r in L. cbn [Z.eqb].
  assert (FIN : forall cell (r : res (list Qc)), cell_rep cell m n a ->
     (exists y : list qc, r = Ok y /\ length y = n /\ forall j, j < n -> nth j y f0 = dot_exact (F := qc) (transposed cell) m d j) ->
     done (let! v := r in Ok (VArr (F := qc) [length v] v)) (DArr [n] (map (dot m (fun j i => a i j) d) (seq 0 n)))).
  { intros cell r CR HR. rewrite (spmv_list _ _ _ _ r d (cr_t _ _ _ _ CR) HR). cbn [bind]. rewrite map_length, seq_length. apply done_arr. rewrite map_length, seq_length. cbn. lia. }
  destruct k; destruct x as [x|x|x| | | |]; try (exfalso; exact (proj1 HX)).
  - open_csr HX. pose proof R as (C & F1 & F2 & V). unfold csr_nrows, csr_ncols in *. rewrite F1, Nat.eqb_refl, P. cbn [bind].
    apply (FIN (csr_at (py_arrays x))); [apply cr_csr; auto|]. clear D MM FIN. revert L. rewrite <- F1, <- F2 in *. intros L.
    apply (proj1 (C32_vecdot_axis0_exact (e_threads e) (e_dist e) d (fair_dist _ FE))); auto. apply C.
  - open_csc HX. pose proof R as (C & F1 & F2 & V). unfold csc_nrows, csc_ncols in *. rewrite F2, Nat.eqb_refl, P. cbn [bind].
    apply (FIN (csc_at (py_arrays x))); [apply cr_csc; auto|]. clear D MM FIN. revert L. rewrite <- F1, <- F2 in *. intros L.
    apply (proj1 (proj2 (C32_vecdot_axis0_exact (e_threads e) (e_dist e) d (fair_dist _ FE)))); auto. apply C.
  - open_coo HX. pose proof R as (C & SV & F1 & F2 & V). rewrite F1, Nat.eqb_refl, P. cbn [bind].
    apply (FIN (coo_at (pyc_arrays x))); [apply cr_coo; auto|]. clear D MM FIN. revert L. rewrite <- F1, <- F2 in *. intros L.
    apply (proj2 (proj2 (C32_vecdot_axis0_exact (e_threads e) (e_dist e) d (fair_dist _ FE)))); auto.
Qed.
End Env.
