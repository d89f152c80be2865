(** Property theorems about single calls on the objects of a running program, continued:
    cumulative sums and products and differences (C66). *)
Require Import List ZArith Bool Arith Lia Permutation.
Require Import ZifyBool ZifyNat.
Require Verif.PConvert.
Require Import Verif.Res Verif.Values Verif.Spec Verif.Mem Verif.Lists Verif.CsLib Verif.Laws Verif.FloatFacts Verif.Witness Verif.MReduce Verif.PropLinalg Verif.PropConvert Verif.PropScalar Verif.PropStat Verif.SpecReduce Verif.SpecDiff Verif.SpecPy Verif.MConvert Verif.MCum Verif.PDiff Verif.PropCum Verif.PropDiff Verif.MPy Verif.PPy2 Verif.PropPy Verif.MObj Verif.SpecObj Verif.PObj Verif.PropObj Verif.SpecCall Verif.SpecCall2 Verif.PCall Verif.PCall2 Verif.PCall3 Verif.PCall4 Verif.PropCall Verif.PropCall3 Verif.PropCall4.
Import ListNotations.
Local Open Scope Z_scope.

Lemma norm_axes_single : forall axis, match single_axis axis with
  | Some d => norm_axes 2 axis = Ok (Some [d]) /\ (d < 2)%nat
  | None => norm_axes 2 axis = Panic \/ exists o, norm_axes 2 axis = Ok o /\ forall d, o <> Some [d]
  end.
Proof.
  assert (G : forall axis, axis <> AxNone -> match (if forallb (axis_valid 2) (axis_list axis) then match named_axes 2 (axis_list axis) with [d] => Some d | _ => None end else None) with
    | Some d => norm_axes 2 axis = Ok (Some [d]) /\ (d < 2)%nat
    | None => norm_axes 2 axis = Panic \/ exists o, norm_axes 2 axis = Ok o /\ forall d, o <> Some [d] end).
  { intros axis NN. destruct (forallb (axis_valid 2) (axis_list axis)) eqn:V; [|left; apply norm_axes_bad; auto].
    rewrite norm_axes_ok by auto. assert (B : forall d, In d (named_axes 2 (axis_list axis)) -> (d < 2)%nat) by (intros d I; apply filter_In in I; destruct I as [I _]; apply in_seq in I; lia).
    destruct (named_axes 2 (axis_list axis)) as [|d [|d' l]]; [right; eexists; split; [reflexivity|]; intros; discriminate|split; [reflexivity|apply B; left; reflexivity]|].
    right. eexists. split; [reflexivity|]. intros; discriminate. }
  intros [|z|l]; [right; eexists; split; [reflexivity|]; discriminate|apply (G (AxInt z)); discriminate|apply (G (AxTuple l)); discriminate].
Qed.

Section Cum.
Context {pw} (e : Env (f64 pw)) (FE : fair e).
Definition cum_kernel (op : cop) (d : nat) : Csr (f64 pw) -> res (list (f64 pw)) :=
  match d with
  | O => match op with CumSum => cumsum_axis0 (e_threads e) (e_il e 0) (e_sch e 0) (e_srt e 0) | CumProd => cumprod_axis0 (e_threads e) (e_il e 0) (e_sch e 0) (e_srt e 0) end
  | _ => match op with CumSum => cumsum_axis1 | CumProd => cumprod_axis1 end
  end.
Definition cum_is (op : cop) (d : nat) (cell : nat -> nat -> list (f64 pw)) (m n : nat) (out : list (f64 pw)) : Prop :=
  length out = (m * n)%nat /\ forall i j, (i < m)%nat -> (j < n)%nat ->
    match d with
    | O => accumulates op (fun i' => cell i' j) (seq 0 (S i)) (nth (i * n + j) out f0)
    | _ => accumulates op (fun j' => cell i j') (seq 0 (S j)) (nth (i * n + j) out f0)
    end.
Lemma csr_cum : forall op d (A : Csr (f64 pw)), canonical A -> alloc_ok (csr_nrows A) -> alloc_ok (csr_nrows A * csr_ncols A) ->
  exists out, cum_kernel op d A = Ok out /\ cum_is op d (csr_at A) (csr_nrows A) (csr_ncols A) out.
Proof using FE.
  intros op d A C A1 A2. destruct d as [|d]; destruct op; cbn [cum_kernel].
  - destruct (C40_cumsum_axis0 pw (e_threads e) (e_il e 0) (e_sch e 0) (e_srt e 0) A (fair_il _ FE 0%nat) (fair_sch _ FE 0%nat) (fair_srt _ FE 0%nat) C A1 A2) as (o & E & L & H). exists o. split; [exact E|]. split; auto.
  - destruct (C40_cumprod_axis0 pw (e_threads e) (e_il e 0) (e_sch e 0) (e_srt e 0) A (fair_il _ FE 0%nat) (fair_sch _ FE 0%nat) (fair_srt _ FE 0%nat) C A1 A2) as (o & E & L & H). exists o. split; [exact E|]. split; auto.
  - destruct (C40_cumsum_axis1 pw A C A2) as (o & E & L & H). exists o. split; [exact E|]. split; auto.
  - destruct (C40_cumprod_axis1 pw A C A2) as (o & E & L & H). exists o. split; [exact E|]. split; auto.
Qed.
Lemma cum_ext : forall op d (c c' : nat -> nat -> list (f64 pw)) m n out, (forall i j, (i < m)%nat -> (j < n)%nat -> c i j = c' i j) -> cum_is op d c m n out -> cum_is op d c' m n out.
Proof.
  intros op d c c' m n out EQ [L H]. split; auto. intros i j Hi Hj. specialize (H i j Hi Hj).
  assert (X : forall (f g : nat -> list (f64 pw)) k v, (forall t, (t < k)%nat -> f t = g t) -> accumulates op f (seq 0 k) v -> accumulates op g (seq 0 k) v).
  { intros f g k v E. assert (E2 : forall t, In t (seq 0 k) -> f t = g t) by (intros t I; apply in_seq in I; apply E; lia). destruct op; cbn [accumulates].
    - rewrite !flat_map_concat_map, (map_ext_in f g) by auto. auto.
    - intros [P1 P2]. split; intros Q.
      + rewrite <- (map_ext_in (fun j => one_or f0 (f j)) (fun j => one_or f0 (g j))) by (intros t I; rewrite E2; auto). apply P1. rewrite Forall_forall in *. intros t I. rewrite E2; auto.
      + apply P2. apply Exists_exists in Q. destruct Q as (t & I & Z). apply Exists_exists. exists t. rewrite E2; auto. }
  destruct d; eapply X; [|exact H| |exact H]; intros t Ht; apply EQ; lia.
Qed.
End Cum.

(** [cumsum] and [cumprod] of a matrix along one axis. A CSC matrix along axis 1 is left out:
    its result depends on the thread schedule (C40). *)
Theorem C66_cumulative : forall pw (e : Env (f64 pw)) h a x op axis, fair e -> reached h -> nth_error h a = Some x ->
  let m := fst (shape2 x) in let n := snd (shape2 x) in
  (class_of x = None \/ single_axis axis = None -> step e h (Cum op a axis) = Panic) /\
  (class_of x <> None -> single_axis axis = Some 0%nat ->
     exists out, step e h (Cum op a axis) = Ok (h ++ [VArr [m; n] out]) /\ length out = (m * n)%nat /\
       forall i j, (i < m)%nat -> (j < n)%nat -> accumulates op (fun i' => stored x i' j) (seq 0 (S i)) (nth (i * n + j) out f0)) /\
  (class_of x = Some CsrClass \/ class_of x = Some CooClass -> single_axis axis = Some 1%nat ->
     exists out, step e h (Cum op a axis) = Ok (h ++ [VArr [m; n] out]) /\ length out = (m * n)%nat /\
       forall i j, (i < m)%nat -> (j < n)%nat -> accumulates op (fun j' => stored x i j') (seq 0 (S j)) (nth (i * n + j) out f0)).
Proof.
  intros pw e h a x op axis FE R N m n. assert (K := reached_nth h a x (f64_laws pw) R N). assert (NA := norm_axes_single axis).
  assert (ST : step e h (Cum op a axis) = (let! v := do_cum e op x axis in Ok (h ++ [v]))) by (cbn [step exec]; rewrite (get_is _ _ _ N); reflexivity).
  rewrite ST. clear ST.
  assert (G : forall d, single_axis axis = Some d -> class_of x <> None -> (class_of x = Some CscClass -> d = 0%nat) ->
    exists out, (let! v := do_cum e op x axis in Ok (h ++ [v])) = Ok (h ++ [VArr [m; n] out]) /\ cum_is op d (stored x) m n out).
  { intros d ED NC HC. rewrite ED in NA. destruct NA as [NA D2].
    assert (KD : forall B (k : _ -> res B), (let! norm := norm_axes 2 axis in
       let! f := match norm with Some [0]%nat => Ok (cum_kernel e op 0) | Some [1]%nat => Ok (cum_kernel e op 1) | _ => Panic end in k f) = k (cum_kernel e op d)).
    { intros B k. rewrite NA. cbn [bind]. destruct d as [|[|d]]; [reflexivity|reflexivity|lia]. }
    assert (SH : forall out : list (f64 pw), length out = (m * n)%nat -> reshape_to [m; n] out = Ok ([m; n], out)).
    { intros out L. unfold reshape_to. cbn [fold_right]. rewrite Nat.mul_1_r, L, Nat.eqb_refl. reflexivity. }
    destruct x as [X|X|X|X|? ?|? ?|? ?]; try (exfalso; apply NC; reflexivity); cbn [shape2 fst snd] in m, n.
    - destruct (csr_held X K) as (C & _ & P & _ & _ & _ & A1 & A2 & A3 & A4). destruct (csr_cum e FE op d (py_arrays X) C A1 A3) as (out & E & LO & H). exists out. split; [|split; auto].
      change (do_cum e op (VCsr X) axis) with (let! norm := norm_axes 2 axis in let! f := match norm with Some [0]%nat => Ok (cum_kernel e op 0) | Some [1]%nat => Ok (cum_kernel e op 1) | _ => Panic end in
        let! A := csr_parts X in let! v := f A in arr_new (VArr (F := f64 pw)) (reshape_to [csr_nrows A; csr_ncols A] v)).
      rewrite KD, P. cbn [bind]. rewrite E. cbn [bind]. fold m n. rewrite SH by auto. reflexivity.
    - destruct (csc_held X K) as (C & _ & _ & _ & P & _ & A1 & A2 & A3 & A4). specialize (HC eq_refl). subst d.
      destruct (C40_csc_axis0 pw (e_il e 1) (e_sch e 1) (e_threads e) (e_il e 0) (e_sch e 0) (e_srt e 0) (py_arrays X) (fair_il _ FE 1%nat) (fair_sch _ FE 1%nat) (fair_il _ FE 0%nat) (fair_sch _ FE 0%nat) (fair_srt _ FE 0%nat) C A2 A1)
        as (s & p & E1 & E2 & FL & H); [unfold csc_nrows, csc_ncols; rewrite Nat.mul_comm; exact A3|]. inversion FL as [|? ? L1 FL']; subst. inversion FL' as [|? ? L2 _]; subst.
      change (do_cum e op (VCsc X) axis) with (let! norm := norm_axes 2 axis in let! f := match norm with Some [0]%nat => Ok (cum_kernel e op 0) | Some [1]%nat => Ok (cum_kernel e op 1) | _ => Panic end in
        let! A := csc_parts X in let! v := via_csc (e_il e 1) (e_sch e 1) f A in arr_new (VArr (F := f64 pw)) (reshape_to [csc_nrows A; csc_ncols A] v)).
      exists (match op with CumSum => s | CumProd => p end). rewrite KD, P. cbn [bind]. fold m n.
      destruct op; cbn [cum_kernel]; [rewrite E1|rewrite E2]; cbn [bind]; (rewrite SH by auto); (split; [reflexivity|]); (split; [auto|]); intros i j Hi Hj; apply (H i j Hi Hj).
    - destruct (coo_held X K) as ([OK SV] & _ & P & _ & A1 & A2 & A3 & A4). destruct (single_csr e FE (pyc_arrays X) OK SV A3) as (B & EB & CB & M1 & M2 & LB & AT).
      destruct (csr_cum e FE op d B CB) as (out & E & HO); [unfold csr_nrows; rewrite M1; exact A1|unfold csr_nrows, csr_ncols; rewrite M1, M2; exact A3|]. unfold csr_nrows, csr_ncols in HO. rewrite M1, M2 in HO. fold m n in HO.
      exists out. split; [|apply (cum_ext op d (csr_at B)); [intros i j Hi Hj; apply AT; auto|exact HO]].
      change (do_cum e op (VCoo X) axis) with (let! norm := norm_axes 2 axis in let! f := match norm with Some [0]%nat => Ok (cum_kernel e op 0) | Some [1]%nat => Ok (cum_kernel e op 1) | _ => Panic end in
        let! A := coo_parts X in let! v := via_coo (e_srt2 e) f A in arr_new (VArr (F := f64 pw)) (reshape_to [coo_nrows A; coo_ncols A] v)).
      rewrite KD, P. cbn [bind]. unfold via_coo. rewrite EB. cbn [bind]. rewrite E. cbn [bind]. fold m n. rewrite SH by apply HO. reflexivity. }
  split; [|split].
  - intros [NC|ES].
    + unfold do_cum. destruct (norm_axes 2 axis) as [o| | |] eqn:EN; cbn [bind]; try (exfalso; destruct (single_axis axis); [destruct NA; discriminate|destruct NA as [?|(? & ? & _)]; discriminate]); auto.
      destruct o as [[|[|[|d]] [|? l]]|]; destruct x; try discriminate NC; reflexivity.
    + rewrite ES in NA. unfold do_cum. destruct NA as [-> | (o & -> & NO)]; [reflexivity|]. cbn [bind]. destruct o as [[|d [|? l]]|]; try reflexivity.
      * exfalso. apply (NO d). reflexivity.
      * destruct d as [|[|d]]; reflexivity.
  - intros NC ED. destruct (G 0%nat ED NC ltac:(auto)) as (out & E & L & H). exists out. auto.
  - intros NC ED. destruct (G 1%nat ED) as (out & E & L & H); [destruct NC as [-> | ->]; discriminate|destruct NC as [-> | ->]; discriminate|]. exists out. auto.
Qed.
Print Assumptions C66_cumulative.

Section Diff.
Context {pw} (e : Env (f64 pw)) (FE : fair e).
Lemma coo_diff0 : forall A t, coo_ok A -> single_valued (coo_at A) -> alloc_ok (coo_nrows A) -> alloc_ok (coo_ncols A) -> alloc_ok (coo_nrows A * coo_ncols A) ->
  exists B : Coo (f64 pw), diff_coo_axis0 (e_srt2 e) (e_threads e) (e_il e 0) (e_sch e 0) (e_srt e 0) (e_sch e 1) (e_srt e 1) (e_sch e 2) (e_srt e 2) (e_schc e) A t = Ok B /\ coo_ok B /\
    coo_nrows B = (coo_nrows A - t)%nat /\ coo_ncols B = coo_ncols A /\
    forall j, (j < coo_ncols A)%nat -> (t < coo_nrows A)%nat -> diff_of t (coo_nrows A) (fun i => coo_at A i j) (fun i => coo_at B i j).
Proof using FE.
  intros A t OK SV A1 A2 A3. destruct (single_csr e FE A OK SV A3) as (R & E & CR & M1 & M2 & _ & AT). unfold diff_coo_axis0. rewrite E. cbn [bind].
  destruct (C41_diff_csr_axis0 pw (e_threads e) (e_il e 0) (e_sch e 0) (e_srt e 0) (e_sch e 1) (e_srt e 1) (e_sch e 2) (e_srt e 2) R t (fair_il _ FE 0%nat) (fair_sch _ FE 0%nat) (fair_srt _ FE 0%nat)
    (fair_sch _ FE 1%nat) (fair_srt _ FE 1%nat) (fair_sch _ FE 2%nat) (fair_srt _ FE 2%nat) CR) as (D & ED & CD & N1 & N2 & _ & H); [unfold csr_nrows; rewrite M1; auto|unfold csr_ncols; rewrite M2; auto|].
  rewrite ED. cbn [bind]. unfold csr_nrows, csr_ncols in N1, N2, H. rewrite M1 in N1, H. rewrite M2 in N2, H.
  destruct (C06_csr_to_coo _ (e_schc e) D (fair_schc _ FE) (can_ok _ CD)) as (B & EB & OB & K1 & K2 & _ & _ & AT'); [unfold csr_nrows, alloc_ok in *; rewrite N1; lia|].
  unfold csr_nrows, csr_ncols in K1, K2, AT'. rewrite N1 in K1, AT'. rewrite N2 in K2, AT'. exists B. split; [exact EB|]. split; [exact OB|]. split; [exact K1|]. split; [exact K2|].
  intros j Hj Ht. eapply diff_of_ext; [apply (H j Hj Ht)|exact Ht| |]; [intros i Hi; apply AT; lia|intros i Hi; symmetry; apply AT'; lia].
Qed.
Lemma coo_diff1 : forall A t, coo_ok A -> single_valued (coo_at A) -> alloc_ok (coo_nrows A) -> alloc_ok (coo_nrows A * coo_ncols A) ->
  exists B : Coo (f64 pw), diff_coo_axis1 (e_srt2 e) (e_sch e 1) (e_srt e 1) (e_schc e) A t = Ok B /\ coo_ok B /\
    coo_nrows B = coo_nrows A /\ coo_ncols B = (coo_ncols A - t)%nat /\
    forall i, (i < coo_nrows A)%nat -> (t < coo_ncols A)%nat -> diff_of t (coo_ncols A) (fun j => start t (coo_at A i j)) (fun j => coo_at B i j).
Proof using FE.
  intros A t OK SV A1 A3. destruct (single_csr e FE A OK SV A3) as (R & E & CR & M1 & M2 & _ & AT). unfold diff_coo_axis1. rewrite E. cbn [bind].
  destruct (C41_diff_csr_axis1 pw (e_sch e 1) (e_srt e 1) R t (fair_sch _ FE 1%nat) (fair_srt _ FE 1%nat) CR) as (D & ED & CD & N1 & N2 & _ & H).
  rewrite ED. cbn [bind]. unfold csr_nrows, csr_ncols in N1, N2, H. rewrite M1 in N1, H. rewrite M2 in N2, H.
  destruct (C06_csr_to_coo _ (e_schc e) D (fair_schc _ FE) (can_ok _ CD)) as (B & EB & OB & K1 & K2 & _ & _ & AT'); [unfold csr_nrows, alloc_ok in *; rewrite N1; lia|].
  unfold csr_nrows, csr_ncols in K1, K2, AT'. rewrite N1 in K1, AT'. rewrite N2 in K2, AT'. exists B. split; [exact EB|]. split; [exact OB|]. split; [exact K1|]. split; [exact K2|].
  intros i Hi Ht. eapply diff_of_ext; [apply (H i Hi Ht)|exact Ht| |]; [intros j Hj; cbv beta; rewrite AT by auto; reflexivity|intros j Hj; symmetry; apply AT'; lia].
Qed.
End Diff.

(** [diff(x, n=t, axis)] of a matrix. *)
Theorem C66_diff : forall pw (e : Env (f64 pw)) h a x t axis, fair e -> reached h -> nth_error h a = Some x ->
  let m := fst (shape2 x) in let n := snd (shape2 x) in
  (class_of x = None \/ ~ -2 <= axis <= 1 -> step e h (Diff a t axis) = Panic) /\
  (class_of x <> None -> axis = 0 \/ axis = -2 ->
     exists y, step e h (Diff a t axis) = Ok (h ++ [y]) /\ class_of y = class_of x /\ shape2 y = ((m - t)%nat, n) /\
       forall j, (j < n)%nat -> (t < m)%nat -> diff_of t m (fun i => stored x i j) (fun i => stored y i j)) /\
  (class_of x <> None -> axis = 1 \/ axis = -1 ->
     exists y, step e h (Diff a t axis) = Ok (h ++ [y]) /\ class_of y = class_of x /\ shape2 y = (m, (n - t)%nat) /\
       forall i, (i < m)%nat -> (t < n)%nat -> diff_of t n (fun j => start t (stored x i j)) (fun j => stored y i j)).
Proof.
  intros pw e h a x t axis FE R N m n. assert (K := reached_nth h a x (f64_laws pw) R N).
  assert (ST : step e h (Diff a t axis) = (let! v := do_diff e x t axis in Ok (h ++ [v]))) by (cbn [step exec]; rewrite (get_is _ _ _ N); reflexivity).
  rewrite ST. clear ST. split; [|split].
  - intros [NC|NA]; unfold do_diff.
    + destruct ((-2 <=? axis) && (axis <=? 1)); [|reflexivity]. cbn [bind]. destruct x; try discriminate NC; reflexivity.
    + replace ((-2 <=? axis) && (axis <=? 1)) with false by lia. reflexivity.
  - intros NC HA. unfold do_diff. replace ((-2 <=? axis) && (axis <=? 1)) with true by lia. replace ((axis =? 0) || (axis =? -2)) with true by lia. cbn [bind].
    destruct x as [X|X|X|X|? ?|? ?|? ?]; try (exfalso; apply NC; reflexivity); cbn [shape2 fst snd] in m, n.
    + destruct (csr_held X K) as (C & _ & P & _ & _ & _ & A1 & A2 & A3 & A4). rewrite P. cbn [bind].
      destruct (C41_diff_csr_axis0 pw (e_threads e) (e_il e 0) (e_sch e 0) (e_srt e 0) (e_sch e 1) (e_srt e 1) (e_sch e 2) (e_srt e 2) (py_arrays X) t (fair_il _ FE 0%nat) (fair_sch _ FE 0%nat) (fair_srt _ FE 0%nat)
        (fair_sch _ FE 1%nat) (fair_srt _ FE 1%nat) (fair_sch _ FE 2%nat) (fair_srt _ FE 2%nat) C A1 A2) as (B & E & CB & N1 & N2 & _ & H). rewrite E. cbn [bind].
      destruct (csr_new_is B) as [Hd EN]. rewrite EN. cbn [bind]. eexists. split; [reflexivity|]. split; [reflexivity|]. split; [cbn [shape2 py_arrays]; rewrite N1, N2; reflexivity|]. exact H.
    + destruct (csc_held X K) as (C & _ & _ & _ & P & _ & A1 & A2 & A3 & A4). rewrite P. cbn [bind].
      destruct (C41_diff_csc_axis0 pw (e_il e 1) (e_sch e 3) (e_threads e) (e_il e 0) (e_sch e 0) (e_srt e 0) (e_sch e 1) (e_srt e 1) (e_sch e 2) (e_srt e 2) (e_il e 2) (e_sch e 4) (py_arrays X) t
        (fair_il _ FE 1%nat) (fair_sch _ FE 3%nat) (fair_il _ FE 0%nat) (fair_sch _ FE 0%nat) (fair_srt _ FE 0%nat)
        (fair_sch _ FE 1%nat) (fair_srt _ FE 1%nat) (fair_sch _ FE 2%nat) (fair_srt _ FE 2%nat) (fair_il _ FE 2%nat) (fair_sch _ FE 4%nat) C A2 A1) as (B & E & CB & N1 & N2 & H). rewrite E. cbn [bind].
      destruct (csc_new_is B) as [Hd EN]. rewrite EN. cbn [bind]. eexists. split; [reflexivity|]. split; [reflexivity|]. split; [cbn [shape2 py_arrays]; rewrite N1, N2; reflexivity|]. exact H.
    + destruct (coo_held X K) as ([OK SV] & _ & P & _ & A1 & A2 & A3 & A4). rewrite P. cbn [bind].
      destruct (coo_diff0 e FE (pyc_arrays X) t OK SV A1 A2 A3) as (B & E & OB & N1 & N2 & H). rewrite E. cbn [bind].
      rewrite coo_new_is by auto. cbn [bind]. eexists. split; [reflexivity|]. split; [reflexivity|]. split; [cbn [shape2 pyc_arrays]; rewrite N1, N2; reflexivity|]. exact H.
  - intros NC HA. unfold do_diff. replace ((-2 <=? axis) && (axis <=? 1)) with true by lia. replace ((axis =? 0) || (axis =? -2)) with false by lia. cbn [bind].
    destruct x as [X|X|X|X|? ?|? ?|? ?]; try (exfalso; apply NC; reflexivity); cbn [shape2 fst snd] in m, n.
    + destruct (csr_held X K) as (C & _ & P & _ & _ & _ & A1 & A2 & A3 & A4). rewrite P. cbn [bind].
      destruct (C41_diff_csr_axis1 pw (e_sch e 1) (e_srt e 1) (py_arrays X) t (fair_sch _ FE 1%nat) (fair_srt _ FE 1%nat) C) as (B & E & CB & N1 & N2 & _ & H). rewrite E. cbn [bind].
      destruct (csr_new_is B) as [Hd EN]. rewrite EN. cbn [bind]. eexists. split; [reflexivity|]. split; [reflexivity|]. split; [cbn [shape2 py_arrays]; rewrite N1, N2; reflexivity|]. exact H.
    + destruct (csc_held X K) as (C & _ & _ & _ & P & _ & A1 & A2 & A3 & A4). rewrite P. cbn [bind].
      destruct (C41_diff_csc_axis1 pw (e_il e 1) (e_sch e 3) (e_sch e 1) (e_srt e 1) (e_il e 2) (e_sch e 4) (py_arrays X) t
        (fair_il _ FE 1%nat) (fair_sch _ FE 3%nat) (fair_sch _ FE 1%nat) (fair_srt _ FE 1%nat) (fair_il _ FE 2%nat) (fair_sch _ FE 4%nat) C A2 A1) as (B & E & CB & N1 & N2 & H). rewrite E. cbn [bind].
      destruct (csc_new_is B) as [Hd EN]. rewrite EN. cbn [bind]. eexists. split; [reflexivity|]. split; [reflexivity|]. split; [cbn [shape2 py_arrays]; rewrite N1, N2; reflexivity|]. exact H.
    + destruct (coo_held X K) as ([OK SV] & _ & P & _ & A1 & A2 & A3 & A4). rewrite P. cbn [bind].
      destruct (coo_diff1 e FE (pyc_arrays X) t OK SV A1 A3) as (B & E & OB & N1 & N2 & H). rewrite E. cbn [bind].
      rewrite coo_new_is by auto. cbn [bind]. eexists. split; [reflexivity|]. split; [reflexivity|]. split; [cbn [shape2 pyc_arrays]; rewrite N1, N2; reflexivity|]. exact H.
Qed.
Print Assumptions C66_diff.

(** A CSC matrix along axis 1 when the conversion handles the columns in order.
    Missing: every other schedule, for which it is false (C40_csc_axis1_refuted). *)
Theorem C66_cumulative_csc_axis1_partial : forall pw (e : Env (f64 pw)) h a x op axis, fair e -> reached h -> nth_error h a = Some x ->
  e_il e 1 = (fun ts => concat ts) -> class_of x = Some CscClass -> single_axis axis = Some 1%nat ->
  let m := fst (shape2 x) in let n := snd (shape2 x) in
  exists out, step e h (Cum op a axis) = Ok (h ++ [VArr [m; n] out]) /\ length out = (m * n)%nat /\
    forall i j, (i < m)%nat -> (j < n)%nat -> accumulates op (fun j' => stored x i j') (seq 0 (S j)) (nth (i * n + j) out f0).
Proof.
  intros pw e h a x op axis FE R N IL NC HA m n. assert (K := reached_nth h a x (f64_laws pw) R N). assert (NA := norm_axes_single axis). rewrite HA in NA. destruct NA as [NA _].
  assert (ST : step e h (Cum op a axis) = (let! v := do_cum e op x axis in Ok (h ++ [v]))) by (cbn [step exec]; rewrite (get_is _ _ _ N); reflexivity).
  rewrite ST. clear ST. destruct x as [X|X|X|X|? ?|? ?|? ?]; try discriminate NC. cbn [shape2 fst snd] in m, n.
  destruct (csc_held X K) as (C & _ & _ & _ & P & _ & A1 & A2 & A3 & A4).
  destruct (C40_csc_axis1_partial pw (e_sch e 1) (py_arrays X) (fair_sch _ FE 1%nat) C A1) as (s & p & E1 & E2 & FL & H); [unfold csc_nrows, csc_ncols; rewrite Nat.mul_comm; exact A3|].
  inversion FL as [|? ? L1 FL']; subst. inversion FL' as [|? ? L2 _]; subst.
  assert (SH : forall out : list (f64 pw), length out = (m * n)%nat -> reshape_to [m; n] out = Ok ([m; n], out)).
  { intros out L. unfold reshape_to. cbn [fold_right]. rewrite Nat.mul_1_r, L, Nat.eqb_refl. reflexivity. }
  exists (match op with CumSum => s | CumProd => p end). unfold do_cum. rewrite NA, P, IL. cbn [bind]. fold m n. fold m n in L1, L2.
  destruct op; [rewrite E1|rewrite E2]; cbn [bind]; (rewrite SH by auto); (split; [reflexivity|]); (split; [auto|]); intros i j Hi Hj; apply (H i j Hi Hj).
Qed.
Print Assumptions C66_cumulative_csc_axis1_partial.

(** *** The theorems apply *)
Example C66_cumulative_nonvacuous :
  (exists out, step env2 state2 (Cum CumSum 1 (AxInt (-2))) = Ok (state2 ++ [VArr [2; 3]%nat out]) /\ FSum [fz 5] (nth 3 out f0)) /\
  (exists out, step env2 state2 (Cum CumProd 4 (AxInt 1)) = Ok (state2 ++ [VArr [2; 3]%nat out]) /\ nth 2 out f0 = fz 0) /\
  step env2 state2 (Cum CumSum 0 AxNone) = Panic /\ step env2 state2 (Cum CumSum 5 (AxInt 0)) = Panic.
Proof.
  assert (S : shape2 (obj 1) = (2, 3)%nat /\ shape2 (obj 4) = (2, 3)%nat) by (split; vm_compute; reflexivity). destruct S as [S1 S4].
  split; [|split; [|split]].
  - destruct (C66_cumulative pw0 env2 state2 1 (obj 1) CumSum (AxInt (-2)) env2_fair state2_reached (obj_is 1 ltac:(lia))) as (_ & H & _). rewrite S1 in H. cbn [fst snd] in H.
    destruct (H ltac:(vm_compute; discriminate) eq_refl) as (out & E & _ & V). exists out. split; [exact E|]. specialize (V 1%nat 0%nat ltac:(lia) ltac:(lia)). cbn [accumulates] in V.
    replace (flat_map (fun i' => stored (obj 1) i' 0%nat) (seq 0 2)) with [fz 5] in V by (vm_compute; reflexivity). exact V.
  - destruct (C66_cumulative pw0 env2 state2 4 (obj 4) CumProd (AxInt 1) env2_fair state2_reached (obj_is 4 ltac:(lia))) as (_ & _ & H). rewrite S4 in H. cbn [fst snd] in H.
    destruct (H ltac:(left; vm_compute; reflexivity) eq_refl) as (out & E & _ & V). exists out. split; [exact E|]. destruct (V 0%nat 2%nat ltac:(lia) ltac:(lia)) as [_ V0].
    change (0 * 3 + 2)%nat with 2%nat in V0. rewrite V0; [reflexivity|]. apply Exists_cons_tl, Exists_cons_hd. vm_compute. reflexivity.
  - apply (C66_cumulative pw0 env2 state2 0 (obj 0) CumSum AxNone env2_fair state2_reached (obj_is 0 ltac:(lia))). right. reflexivity.
  - apply (C66_cumulative pw0 env2 state2 5 (obj 5) CumSum (AxInt 0) env2_fair state2_reached (obj_is 5 ltac:(lia))). left. vm_compute. reflexivity.
Qed.

(** The environment of [env2] with conversions in order. *)
Definition env3 : Env (f64 pw0) :=
  mkEnv 2 (fun _ ts => concat ts) backward (fun _ => @rev _) (@rev _) (@rev _) (fun _ => @rev _) (@rev _)
    two_threads (fun _ => sort_pairs) sort_triples (@rev _) Whole f0 smin0 smin0 smax0 smax0 (fun xs j => length (filter (fun x => x <? j) xs)).
Lemma env3_fair : fair env3.
Proof. destruct env2_fair. constructor; try assumption. intros k ts. apply PConvert.Interleave_concat. Qed.
Example C66_cumulative_csc_axis1_nonvacuous : exists out, step env3 state2 (Cum CumSum 1 (AxInt 1)) = Ok (state2 ++ [VArr [2; 3]%nat out]) /\ FSum [fz 2] (nth 5 out f0).
Proof.
  assert (S1 : shape2 (obj 1) = (2, 3)%nat) by (vm_compute; reflexivity).
  destruct (C66_cumulative_csc_axis1_partial pw0 env3 state2 1 (obj 1) CumSum (AxInt 1) env3_fair state2_reached (obj_is 1 ltac:(lia)) eq_refl ltac:(vm_compute; reflexivity) eq_refl) as (out & E & _ & V).
  rewrite S1 in E, V. cbn [fst snd] in E, V. exists out. split; [exact E|]. specialize (V 1%nat 2%nat ltac:(lia) ltac:(lia)). cbn [accumulates] in V.
  replace (flat_map (fun j' => stored (obj 1) 1 j') (seq 0 3)) with [fz 2] in V by (vm_compute; reflexivity). exact V.
Qed.

Example C66_diff_nonvacuous :
  (exists y, step env2 state2 (Diff 0 1 0) = Ok (state2 ++ [y]) /\ shape2 y = (1, 3)%nat /\ combined (map fneg (stored (obj 0) 0 2) ++ stored (obj 0) 1 2) (stored y 0 2)) /\
  map fneg (stored (obj 0) 0 2) ++ stored (obj 0) 1 2 = [fz 2] /\
  (exists y, step env2 state2 (Diff 2 2 (-1)) = Ok (state2 ++ [y]) /\ class_of y = Some CooClass /\ shape2 y = (2, 1)%nat) /\
  step env2 state2 (Diff 0 1 2) = Panic.
Proof.
  assert (S : shape2 (obj 0) = (2, 3)%nat /\ shape2 (obj 2) = (2, 3)%nat) by (split; vm_compute; reflexivity). destruct S as [S0 S2].
  split; [|split; [|split]].
  - destruct (C66_diff pw0 env2 state2 0 (obj 0) 1 0 env2_fair state2_reached (obj_is 0 ltac:(lia))) as (_ & H & _). rewrite S0 in H. cbn [fst snd] in H.
    destruct (H ltac:(vm_compute; discriminate) (or_introl eq_refl)) as (y & E & _ & SY & V). exists y. split; [exact E|]. split; [exact SY|]. specialize (V 2%nat ltac:(lia) ltac:(lia)).
    inversion V as [|? ? ? c1 ? HC HD]; subst. inversion HD as [? ? ? HZ|]; subst. rewrite HZ by lia. apply HC. lia.
  - vm_compute. reflexivity.
  - destruct (C66_diff pw0 env2 state2 2 (obj 2) 2 (-1) env2_fair state2_reached (obj_is 2 ltac:(lia))) as (_ & _ & H). rewrite S2 in H. cbn [fst snd] in H.
    destruct (H ltac:(vm_compute; discriminate) (or_intror eq_refl)) as (y & E & C & SY & _). exists y. split; [exact E|]. split; [rewrite C; vm_compute; reflexivity|exact SY].
  - apply (C66_diff pw0 env2 state2 0 (obj 0) 1 2 env2_fair state2_reached (obj_is 0 ltac:(lia))). right. lia.
Qed.
