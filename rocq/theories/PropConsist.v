(** Property theorems: the reduction of a whole matrix is the reduction of its row results and of
    its column results (C93). *)
Require Import List ZArith Bool Arith Lia Permutation.
Require Import Coq.Floats.SpecFloat.
Require Import Verif.Res Verif.Values Verif.Spec Verif.Mem Verif.Laws Verif.Witness Verif.SpecReduce Verif.SpecPy Verif.MPy Verif.PPy Verif.PropPy2 Verif.PropStat Verif.MObj Verif.SpecObj Verif.PObj Verif.PropObj Verif.SpecCall Verif.SpecCall2 Verif.PropCall Verif.PropCall2 Verif.PropCall5 Verif.PCall Verif.PropFormat Verif.PropTranspose.
Require Verif.PGroup Verif.PCall3 Verif.PropAccuracy3.
Import ListNotations.
Local Open Scope Z_scope.

(** *** Specification *)
Definition sumZ (l : list Z) : Z := fold_right Z.add 0 l.
(** The three results of a reduction: of everything, of each column (axis 0), of each row (axis 1);
    the three calls may run under different schedules. *)
Definition results {F : Fl} {V} (e e0 e1 : Env F) h op a (mk : list nat -> list V -> value F) (t : V) (cs rs : list V) : Prop :=
  step e h (Reduce op a AxNone false) = Ok (h ++ [mk [] [t]]) /\
  step e0 h (Reduce op a (AxInt 0) false) = Ok (h ++ [mk [length cs] cs]) /\
  step e1 h (Reduce op a (AxInt 1) false) = Ok (h ++ [mk [length rs] rs]).

(** *** Proofs *)
Lemma grid_rows : forall m n, grid m n = flat_map (fun i => map (fun j => (i, j)) (seq 0 n)) (seq 0 m).
Proof. intros m n. unfold grid. generalize (seq 0 m). induction l as [|i l IH]; [reflexivity|]. cbn [list_prod flat_map]. rewrite IH. reflexivity. Qed.
Lemma grid_cols : forall m n, Permutation (grid m n) (flat_map (fun j => map (fun i => (i, j)) (seq 0 m)) (seq 0 n)).
Proof.
  intros m n. rewrite <- (grid_turned n m), grid_rows. rewrite (flat_map_concat_map _ (seq 0 n)), concat_map, map_map, <- flat_map_concat_map.
  erewrite flat_map_ext; [apply Permutation_refl|]. intros j. rewrite map_map. reflexivity.
Qed.
Section Lines.
Context {pw : spec_float -> spec_float -> spec_float}.
Notation F := (f64 pw).
Lemma counts_lines : forall {J K} (c : J -> list F) (line : K -> list J) ks, counts c (flat_map line ks) = sumZ (map (fun k => counts c (line k)) ks).
Proof. intros J K c line ks. induction ks as [|k ks IH]; [reflexivity|]. cbn [flat_map map sumZ fold_right]. fold (sumZ (map (fun k => counts c (line k)) ks)). rewrite <- IH. unfold counts. rewrite flat_map_app, app_length. lia. Qed.
Lemma forallb_lines : forall {J K} (f : J -> bool) (line : K -> list J) ks, forallb f (flat_map line ks) = forallb (fun b => b) (map (fun k => forallb f (line k)) ks).
Proof. intros J K f line ks. induction ks as [|k ks IH]; [reflexivity|]. cbn [flat_map map forallb]. rewrite forallb_app, IH. reflexivity. Qed.
Lemma existsb_lines : forall {J K} (f : J -> bool) (line : K -> list J) ks, existsb f (flat_map line ks) = existsb (fun b => b) (map (fun k => existsb f (line k)) ks).
Proof. intros J K f line ks. induction ks as [|k ks IH]; [reflexivity|]. cbn [flat_map map existsb]. rewrite existsb_app, IH. reflexivity. Qed.
Lemma counts_range : forall {J} (c : J -> list F) js, (forall j, In j js -> (length (c j) <= 1)%nat) -> 0 <= counts c js <= Z.of_nat (length js).
Proof.
  intros J c js H. unfold counts. split; [lia|]. apply Nat2Z.inj_le. induction js as [|j js IH]; [cbn; lia|]. cbn [flat_map length]. rewrite app_length. specialize (IH (fun k Hk => H k (or_intror Hk))). specialize (H j (or_introl eq_refl)). lia.
Qed.
End Lines.

(** *** Properties *)
(** count_nonzero *)
Theorem C93_counts : forall pw (e e0 e1 : Env (f64 pw)) h a x, fair e -> fair e0 -> fair e1 -> reached h -> nth_error h a = Some x -> class_of x <> None ->
  let m := fst (shape2 x) in let n := snd (shape2 x) in
  exists t cs rs, results e e0 e1 h RCount a VInts t cs rs /\ length cs = n /\ length rs = m /\ sumZ cs = t /\ sumZ rs = t /\
    0 <= t <= Z.of_nat (m * n) /\ Forall (fun c => 0 <= c <= Z.of_nat m) cs /\ Forall (fun c => 0 <= c <= Z.of_nat n) rs.
Proof.
  intros pw e e0 e1 h a x FE FE0 FE1 R N NC m n. assert (NL := f64_laws pw). assert (K := PCall3.reached_nth h a x NL R N).
  assert (ONE : forall i j, (i < m)%nat -> (j < n)%nat -> (length (stored x i j) <= 1)%nat) by (intros i j Hi Hj; apply PropAccuracy3.stored_one; assumption).
  exists (counts (fun p => stored x (fst p) (snd p)) (grid m n)), (map (fun j => counts (fun i => stored x i j) (seq 0 m)) (seq 0 n)), (map (fun i => counts (fun j => stored x i j) (seq 0 n)) (seq 0 m)).
  split.
  { split; [|split]; [rewrite (C62_count_nonzero pw e h a x FE R N NC)|rewrite (C62_count_nonzero pw e0 h a x FE0 R N NC)|rewrite (C62_count_nonzero pw e1 h a x FE1 R N NC)]; unfold reduction_result; reflexivity. }
  split; [rewrite map_length, seq_length; reflexivity|]. split; [rewrite map_length, seq_length; reflexivity|]. split; [|split].
  - rewrite (counts_perm _ _ _ (grid_cols m n)), counts_lines. f_equal. apply map_ext. intros j. rewrite counts_map. reflexivity.
  - rewrite grid_rows, counts_lines. f_equal. apply map_ext. intros i. rewrite counts_map. reflexivity.
  - split; [|split].
    + replace (m * n)%nat with (length (grid m n)) by (unfold grid; rewrite prod_length, !seq_length; reflexivity). apply counts_range. intros p Hp. apply in_grid in Hp. apply ONE; apply Hp.
    + apply Forall_forall. intros c Hc. apply in_map_iff in Hc. destruct Hc as (j & <- & Hj). apply in_seq in Hj. replace (Z.of_nat m) with (Z.of_nat (length (seq 0 m))) by (rewrite seq_length; reflexivity). apply counts_range. intros i Hi. apply in_seq in Hi. apply ONE; lia.
    + apply Forall_forall. intros c Hc. apply in_map_iff in Hc. destruct Hc as (i & <- & Hi). apply in_seq in Hi. replace (Z.of_nat n) with (Z.of_nat (length (seq 0 n))) by (rewrite seq_length; reflexivity). apply counts_range. intros j Hj. apply in_seq in Hj. apply ONE; lia.
Qed.
Print Assumptions C93_counts.

(** all and any, and what they say about the count *)
Theorem C93_all_any : forall pw (e e0 e1 : Env (f64 pw)) h a x, fair e -> fair e0 -> fair e1 -> reached h -> nth_error h a = Some x -> class_of x <> None ->
  let m := fst (shape2 x) in let n := snd (shape2 x) in
  (exists t cs rs, results e e0 e1 h RAll a VBools t cs rs /\ length cs = n /\ length rs = m /\ forallb (fun b => b) cs = t /\ forallb (fun b => b) rs = t /\
     (t = true -> step e h (Reduce RCount a AxNone false) = Ok (h ++ [VInts [] [Z.of_nat (m * n)]]))) /\
  (exists t cs rs, results e e0 e1 h RAny a VBools t cs rs /\ length cs = n /\ length rs = m /\ existsb (fun b => b) cs = t /\ existsb (fun b => b) rs = t /\
     (t = true -> exists k, step e h (Reduce RCount a AxNone false) = Ok (h ++ [VInts [] [k]]) /\ 0 < k)).
Proof.
  intros pw e e0 e1 h a x FE FE0 FE1 R N NC m n. assert (NL := f64_laws pw). assert (K := PCall3.reached_nth h a x NL R N).
  assert (ONE : forall i j, (i < m)%nat -> (j < n)%nat -> (length (stored x i j) <= 1)%nat) by (intros i j Hi Hj; apply PropAccuracy3.stored_one; assumption).
  assert (RES : forall op, op = RAll \/ op = RAny -> results e e0 e1 h op a VBools (decides op (fun p => stored x (fst p) (snd p)) (grid m n)) (map (fun j => decides op (fun i => stored x i j) (seq 0 m)) (seq 0 n)) (map (fun i => decides op (fun j => stored x i j) (seq 0 n)) (seq 0 m))).
  { intros op OP. split; [|split]; [rewrite (C62_all_any pw e h a x op FE R N NC OP)|rewrite (C62_all_any pw e0 h a x op FE0 R N NC OP)|rewrite (C62_all_any pw e1 h a x op FE1 R N NC OP)]; unfold reduction_result; reflexivity. }
  assert (CNT : step e h (Reduce RCount a AxNone false) = Ok (h ++ [VInts [] [counts (fun p => stored x (fst p) (snd p)) (grid m n)]])) by (rewrite (C62_count_nonzero pw e h a x FE R N NC); reflexivity).
  assert (NZ : forall l : list (f64 pw), negb (feqb (one_or f0 l) f0) = true -> (1 <= length l)%nat) by (intros [|? ?] Q; [discriminate Q|cbn; lia]).
  split.
  - eexists _, _, _. split; [apply RES; left; reflexivity|]. split; [rewrite map_length, seq_length; reflexivity|]. split; [rewrite map_length, seq_length; reflexivity|]. split; [|split].
    + unfold decides. rewrite (perm_forallb _ _ _ (grid_cols m n)), forallb_lines. f_equal. apply map_ext. intros j. generalize (seq 0 m). induction l as [|i l IH]; [reflexivity|]. cbn [map forallb]. rewrite IH. reflexivity.
    + unfold decides. rewrite grid_rows, forallb_lines. f_equal. apply map_ext. intros i. generalize (seq 0 n). induction l as [|j l IH]; [reflexivity|]. cbn [map forallb]. rewrite IH. reflexivity.
    + intros T. rewrite CNT. do 5 f_equal. unfold decides in T. replace (m * n)%nat with (length (grid m n)) by (unfold grid; rewrite prod_length, !seq_length; reflexivity). unfold counts. f_equal.
      assert (G : forall p, In p (grid m n) -> length (stored x (fst p) (snd p)) = 1%nat).
      { intros p Hp. rewrite forallb_forall in T. specialize (T p Hp). apply NZ in T. apply in_grid in Hp. specialize (ONE (fst p) (snd p) (proj1 Hp) (proj2 Hp)). lia. }
      revert G. generalize (grid m n). induction l as [|p l IH]; intros G; [reflexivity|]. cbn [flat_map length]. rewrite app_length, (G p (or_introl eq_refl)), IH; [reflexivity|]. intros q Hq. apply G. right. exact Hq.
  - eexists _, _, _. split; [apply RES; right; reflexivity|]. split; [rewrite map_length, seq_length; reflexivity|]. split; [rewrite map_length, seq_length; reflexivity|]. split; [|split].
    + unfold decides. rewrite (perm_existsb _ _ _ (grid_cols m n)), existsb_lines. f_equal. apply map_ext. intros j. generalize (seq 0 m). induction l as [|i l IH]; [reflexivity|]. cbn [map existsb]. rewrite IH. reflexivity.
    + unfold decides. rewrite grid_rows, existsb_lines. f_equal. apply map_ext. intros i. generalize (seq 0 n). induction l as [|j l IH]; [reflexivity|]. cbn [map existsb]. rewrite IH. reflexivity.
    + intros T. eexists. split; [exact CNT|]. unfold decides in T. apply existsb_exists in T. destruct T as (p & Hp & Q). apply NZ in Q. unfold counts. apply in_split in Hp. destruct Hp as (l1 & l2 & ->). rewrite flat_map_app. cbn [flat_map]. rewrite !app_length. lia.
Qed.
Print Assumptions C93_all_any.

(** min and max: the result for the whole matrix is the least (greatest) of the results for the
    rows and of those for the columns, up to the sign of a zero. *)
Definition extremum_of {F : Fl} (op : rop (F := F)) (l : list F) (v : F) : Prop :=
  Exists (feqv v) l /\ Forall (fun w => match op with RMin => fltb w v | _ => fltb v w end = false) l.
Lemma extremum_lines : forall pw {J K} (op : rop (F := f64 pw)) (c : J -> list (f64 pw)) (line : K -> list J) (all : list J) ks t (r : K -> f64 pw), op = RMin \/ op = RMax ->
  (forall j, In j all -> no_nan (c j)) -> (forall j, In j all <-> exists k, In k ks /\ In j (line k)) -> all <> [] -> (forall k, In k ks -> line k <> []) ->
  reduces op c all t -> (forall k, In k ks -> reduces op c (line k) (r k)) -> extremum_of op (map r ks) t.
Proof.
  intros pw J K op c line all ks t r OP NN MEM NE NEL T L.
  set (w := fun j => one_or (f0 : f64 pw) (c j)).
  assert (NW : forall j, In j all -> fnan (w j) = false).
  { intros j Hj. unfold w. specialize (NN j Hj). destruct (c j) as [|p q]; [reflexivity|]. inversion NN; subst. destruct q; cbn [one_or]; [assumption|]. first [assumption|reflexivity]. }
  set (below := fun a b : f64 pw => match op with RMin => fltb a b | _ => fltb b a end).
  assert (G : forall js v, js <> [] -> reduces op c js v -> (exists j, In j js /\ v = w j) /\ forall j, In j js -> below (w j) v = false).
  { intros js v NJ RJ. assert (NM : map w js <> []) by (destruct js; [contradiction|discriminate]).
    destruct OP as [-> | ->]; cbn [reduces] in RJ; destruct RJ as [_ RJ]; destruct (RJ NM) as [I1 F1]; (split; [apply in_map_iff in I1; destruct I1 as (j & E & Hj); exists j; auto|]); rewrite Forall_forall in F1; intros j Hj; apply F1; apply in_map_iff; exists j; auto. }
  destruct (G all t NE T) as [(j & Hj & ->) LT]. split.
  - destruct (proj1 (MEM j) Hj) as (k & Hk & Hjk). destruct (G (line k) (r k) (NEL k Hk) (L k Hk)) as [(j' & Hj' & E') LK]. assert (Ha : In j' all) by (apply MEM; exists k; auto).
    apply Exists_exists. exists (r k). split; [apply in_map; exact Hk|]. assert (B1 := LT j' Ha). assert (B2 := LK j Hjk). rewrite E' in *. unfold below in B1, B2. destruct OP as [-> | ->]; apply neither_less; auto.
  - apply Forall_forall. intros v Hv. apply in_map_iff in Hv. destruct Hv as (k & <- & Hk). destruct (G (line k) (r k) (NEL k Hk) (L k Hk)) as [(j' & Hj' & ->) _]. apply (LT j'). apply MEM. exists k. auto.
Qed.
Theorem C93_extrema : forall pw (e e0 e1 : Env (f64 pw)) h a x op, fair e -> fair e0 -> fair e1 -> reached h -> nth_error h a = Some x -> class_of x <> None ->
  op = RMin \/ op = RMax -> can_reduce e op x -> can_reduce e0 op x -> can_reduce e1 op x ->
  let m := fst (shape2 x) in let n := snd (shape2 x) in (0 < m)%nat -> (0 < n)%nat ->
  exists t cs rs, results e e0 e1 h op a VArr t cs rs /\ length cs = n /\ length rs = m /\ extremum_of op cs t /\ extremum_of op rs t.
Proof.
  intros pw e e0 e1 h a x op FE FE0 FE1 R N NC OP CR CR0 CR1 m n Hm Hn. assert (NU : numeric op = true) by (destruct OP as [-> | ->]; reflexivity).
  destruct (C62_reductions pw e h a x op FE R N NC NU CR) as (t & cs' & rs' & Q1 & _ & _ & _ & _ & Q6). destruct (C62_reductions pw e0 h a x op FE0 R N NC NU CR0) as (t0 & cs & rs0 & _ & Q2 & Q3 & _ & _ & Q60).
  destruct (C62_reductions pw e1 h a x op FE1 R N NC NU CR1) as (t1 & cs1 & rs & _ & _ & _ & Q4 & Q5 & Q61). fold m n in Q1, Q2, Q3, Q4, Q5.
  assert (NN : forall i j, (i < m)%nat -> (j < n)%nat -> no_nan (stored x i j)).
  { assert (G : no_nan (matrix_values (stored x) m n)) by (destruct OP as [-> | ->]; apply CR). intros i j Hi Hj. unfold no_nan in *. rewrite Forall_forall in *. intros w Hw. apply G. unfold matrix_values. apply in_flat_map. exists (i, j). split; [apply in_prod; apply in_seq; lia|exact Hw]. }
  assert (RM : forall {J K} (c : K -> list (f64 pw)) (g : J -> K) js v, reduces op (fun j => c (g j)) js v -> reduces op c (map g js) v) by (intros J K c g js v H; destruct OP as [-> | ->]; cbn [reduces] in *; rewrite map_map; exact H).
  assert (IG : forall p, In p (grid m n) <-> (fst p < m)%nat /\ (snd p < n)%nat) by (intros [i j]; rewrite PGroup.in_grid; tauto).
  assert (GN : grid m n <> []) by (intros Q; assert (G := proj2 (IG (0%nat, 0%nat)) (conj Hm Hn)); rewrite Q in G; contradiction).
  exists t, cs, rs. split.
  { split; [|split]; [rewrite Q6|rewrite Q60|rewrite Q61]; reflexivity. }
  split; [exact Q2|]. split; [exact Q4|]. split.
  - assert (E : cs = map (fun j => nth j cs f0) (seq 0 n)) by (apply (nth_ext _ _ f0 f0); [rewrite map_length, seq_length; exact Q2|intros j Hj; rewrite PPy.nth_seq_map by lia; reflexivity]). rewrite E.
    apply (extremum_lines pw op (fun p => stored x (fst p) (snd p)) (fun j => map (fun i => (i, j)) (seq 0 m)) (grid m n) (seq 0 n) t); [exact OP| | |exact GN| |exact Q1|].
    + intros p Hp. apply IG in Hp. apply NN; apply Hp.
    + intros [i j]. rewrite IG. cbn [fst snd]. split; [intros [Hi Hj]; exists j; split; [apply in_seq; lia|]; apply in_map_iff; exists i; split; [reflexivity|apply in_seq; lia]|].
      intros (k & Hk & H). apply in_map_iff in H. destruct H as (i' & Q & Hi'). injection Q as -> ->. apply in_seq in Hk. apply in_seq in Hi'. lia.
    + intros k _ Q. apply (f_equal (@length _)) in Q. rewrite map_length, seq_length in Q. cbn in Q. lia.
    + intros j Hj. apply in_seq in Hj. apply (RM _ _ (fun p => stored x (fst p) (snd p)) (fun i => (i, j))). exact (Q3 j ltac:(lia)).
  - assert (E : rs = map (fun i => nth i rs f0) (seq 0 m)) by (apply (nth_ext _ _ f0 f0); [rewrite map_length, seq_length; exact Q4|intros j Hj; rewrite PPy.nth_seq_map by lia; reflexivity]). rewrite E.
    apply (extremum_lines pw op (fun p => stored x (fst p) (snd p)) (fun i => map (fun j => (i, j)) (seq 0 n)) (grid m n) (seq 0 m) t); [exact OP| | |exact GN| |exact Q1|].
    + intros p Hp. apply IG in Hp. apply NN; apply Hp.
    + intros [i j]. rewrite IG. cbn [fst snd]. split; [intros [Hi Hj]; exists i; split; [apply in_seq; lia|]; apply in_map_iff; exists j; split; [reflexivity|apply in_seq; lia]|].
      intros (k & Hk & H). apply in_map_iff in H. destruct H as (j' & Q & Hj'). injection Q as -> ->. apply in_seq in Hk. apply in_seq in Hj'. lia.
    + intros k _ Q. apply (f_equal (@length _)) in Q. rewrite map_length, seq_length in Q. cbn in Q. lia.
    + intros i Hi. apply in_seq in Hi. apply (RM _ _ (fun p => stored x (fst p) (snd p)) (fun j => (i, j))). exact (Q5 i ltac:(lia)).
Qed.
Print Assumptions C93_extrema.

(** *** The theorems apply *)
(** [1 . -2; . 4 .] as triples: three entries, neither all nor none of the cells, and zeros beside the entries. *)
Lemma triples_0 : exists x, nth_error (heap_of as_triples) 0 = Some x /\ x = nth 0 (heap_of as_triples) (VInts [] []) /\ class_of x <> None /\ shape2 x = (2, 3)%nat.
Proof.
  exists (nth 0 (heap_of as_triples) (VInts [] [])). assert (L : length (heap_of as_triples) = 2%nat) by (vm_compute; reflexivity). split; [apply nth_error_nth'; lia|]. split; [reflexivity|].
  assert (C : class_of (nth 0 (heap_of as_triples) (VInts [] [])) = Some CooClass) by (vm_compute; reflexivity). split; [rewrite C; discriminate|vm_compute; reflexivity].
Qed.
Definition total_of (r : res (list (value (f64 pw0)))) : option (list Z) := match r with Ok g => match last g (VInts [] []) with VInts _ d => Some d | VBools _ d => Some (map (fun b : bool => if b then 1 else 0) d) | _ => None end | _ => None end.
Example C93_counts_nonvacuous : exists t cs rs, results env2 env2 env2 (heap_of as_triples) RCount 0 VInts t cs rs /\ t = 3 /\ sumZ cs = 3 /\ sumZ rs = 3 /\ length cs = 3%nat.
Proof.
  destruct triples_0 as (x & N & _ & C & S). destruct (C93_counts pw0 env2 env2 env2 _ 0 x env2_fair env2_fair env2_fair (heap_reached _ (or_intror (or_intror eq_refl))) N C) as (t & cs & rs & RS & L1 & L2 & S1 & S2 & _).
  exists t, cs, rs. split; [exact RS|]. assert (T : total_of (step env2 (heap_of as_triples) (Reduce RCount 0 AxNone false)) = Some [3]) by (vm_compute; reflexivity).
  destruct RS as [E _]. rewrite E in T. cbn [total_of] in T. rewrite last_last in T. injection T as ->. rewrite S in L1. auto.
Qed.
Example C93_all_any_nonvacuous : (exists t cs rs, results env2 env2 env2 (heap_of as_triples) RAll 0 VBools t cs rs /\ t = false /\ forallb (fun b => b) rs = false) /\
  (exists t cs rs, results env2 env2 env2 (heap_of as_triples) RAny 0 VBools t cs rs /\ t = true /\ existsb (fun b => b) rs = true).
Proof.
  destruct triples_0 as (x & N & _ & C & S).
  destruct (C93_all_any pw0 env2 env2 env2 _ 0 x env2_fair env2_fair env2_fair (heap_reached _ (or_intror (or_intror eq_refl))) N C) as [(t & cs & rs & RS & _ & _ & _ & S2 & _) (t' & cs' & rs' & RS' & _ & _ & _ & S2' & _)].
  assert (T : total_of (step env2 (heap_of as_triples) (Reduce RAll 0 AxNone false)) = Some [0]) by (vm_compute; reflexivity). assert (T' : total_of (step env2 (heap_of as_triples) (Reduce RAny 0 AxNone false)) = Some [1]) by (vm_compute; reflexivity).
  split; [exists t, cs, rs; split; [exact RS|]; destruct RS as [E _]; rewrite E in T; cbn [total_of] in T; rewrite last_last in T; destruct t; [discriminate T|auto]|].
  exists t', cs', rs'. split; [exact RS'|]. destruct RS' as [E _]. rewrite E in T'. cbn [total_of] in T'. rewrite last_last in T'. destruct t'; [auto|discriminate T'].
Qed.
Example C93_extrema_nonvacuous : exists t cs rs, results env2 env2 env2 (heap_of as_triples) RMin 0 VArr t cs rs /\ length cs = 3%nat /\ length rs = 2%nat /\ extremum_of RMin cs t /\ extremum_of RMin rs t.
Proof.
  destruct triples_0 as (x & N & Ex & C & S).
  assert (CR : can_reduce env2 RMin x).
  { split; [exact smin0_min|]. split; [exact smin0_min|]. rewrite S. cbn [fst snd]. assert (G : forallb (fun v => negb (fnan v)) (matrix_values (stored x) 2 3) = true) by (rewrite Ex; vm_compute; reflexivity).
    apply Forall_forall. intros w Hw. rewrite forallb_forall in G. apply G in Hw. destruct (fnan w); [discriminate Hw|reflexivity]. }
  destruct (C93_extrema pw0 env2 env2 env2 _ 0 x RMin env2_fair env2_fair env2_fair (heap_reached _ (or_intror (or_intror eq_refl))) N C (or_introl eq_refl) CR CR CR) as (t & cs & rs & RS & L1 & L2 & X1 & X2); [rewrite S; cbn; lia|rewrite S; cbn; lia|].
  rewrite S in L1, L2. exists t, cs, rs. auto.
Qed.
