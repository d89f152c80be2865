(** COO to CSR: sorting, summing runs, building the pointers. *)
Require Import List ZArith Bool Lia Permutation Sorted Arith.
Require Import Verif.Res Verif.Values Verif.Spec Verif.Mem Verif.Lists Verif.CsLib Verif.MConvert Verif.PConvert.
Import ListNotations.
Local Open Scope nat_scope.

(** ** Sums of runs of equal keys *)
Section Group.
Context {F : Fl}.
Implicit Types v acc : F.
Notation row := (list (Z * F)).

Definition gstep (g : row) (e : Z * F) : row :=
  match g with
  | (c', a) :: g' => if (fst e =? c')%Z then (c', fadd a (snd e)) :: g' else e :: g
  | [] => [e]
  end.
Definition group_rev (l : row) : row := fold_left gstep l [].
Definition group (l : row) : row := rev (group_rev l).

Lemma group_rev_snoc : forall l e, group_rev (l ++ [e]) = gstep (group_rev l) e.
Proof. intros. unfold group_rev. rewrite fold_left_app. auto. Qed.

Definition sum_of (l : list F) : list F := match l with [] => [] | v :: vs => [fold_left fadd vs v] end.

Definition sorted_le (l : row) : Prop := StronglySorted (fun x y => (fst x <= fst y)%Z) l.

Lemma StronglySorted_snoc : forall {A} (R : A -> A -> Prop) l x,
  StronglySorted R (l ++ [x]) <-> StronglySorted R l /\ Forall (fun y => R y x) l.
Proof.
  induction l as [|a l IH]; intros x; simpl; split; intros H.
  - split; constructor.
  - repeat constructor.
  - inv H. apply IH in H2. destruct H2. apply Forall_app in H3. destruct H3 as [H3 H4]. inv H4.
    split; constructor; auto.
  - destruct H as [H H']. inv H. inv H'. constructor.
    + apply IH. auto.
    + apply Forall_app. split; auto.
Qed.

Lemma srow_snoc : forall (l : row) c v, srow (l ++ [(c, v)]) <-> srow l /\ Forall (fun e => (fst e < c)%Z) l.
Proof.
  intros. unfold srow. rewrite map_app. simpl. rewrite StronglySorted_snoc, Forall_map. tauto.
Qed.

Lemma group_spec : forall l, sorted_le l ->
  srow (group l) /\
  (forall j, at_index j (group l) = sum_of (at_index j l)) /\
  (forall l0 c v, l = l0 ++ [(c, v)] -> exists a g, group_rev l = (c, a) :: g).
Proof.
  induction l as [|[c v] l IH] using rev_ind; intros HS.
  - repeat split; try constructor. intros. destruct l0; discriminate.
  - apply StronglySorted_snoc in HS. destruct HS as [HS HL]. destruct (IH HS) as (S1 & A1 & L1).
    unfold group. rewrite group_rev_snoc. unfold group in S1, A1.
    destruct l as [|e0 l0 _] using rev_ind.
    + simpl. split; [|split].
      * unfold srow. simpl. constructor; constructor.
      * intros j. rewrite at_index_cons'. unfold at_index at 1 2. simpl. destruct (c =? j)%Z; auto.
      * intros l0 c' v' E. destruct l0 as [|? [|? ?]]; inv E. eauto.
    + destruct e0 as [c0 v0]. destruct (L1 l0 c0 v0 eq_refl) as (a & g & Eg). rewrite Eg in *.
      assert (C0 : (c0 <= c)%Z).
      { apply Forall_app in HL. destruct HL as [_ HL]. inv HL. auto. }
      simpl gstep. simpl rev in *. apply srow_snoc in S1. destruct S1 as [S1 SB].
      assert (NG : at_index c0 (rev g) = []).
      { apply at_index_nil. intros I. apply in_map_iff in I. destruct I as (e & Ee & I).
        rewrite Forall_forall in SB. apply SB in I. lia. }
      destruct (Z.eqb_spec c c0) as [->|NE].
      * simpl rev. split; [|split].
        -- apply srow_snoc. auto.
        -- intros j. specialize (A1 j). rewrite at_index_app' in A1. rewrite at_index_app'.
           rewrite (at_index_app' j (l0 ++ [(c0, v0)])).
           rewrite at_index_cons' in A1 |- *. rewrite (at_index_cons' j c0 v).
           destruct (Z.eqb_spec c0 j) as [Ej|Nj]; [subst j|].
           ++ rewrite NG in *. change (at_index c0 (@nil (Z * F))) with (@nil F) in *. simpl app in *.
              destruct (at_index c0 (l0 ++ [(c0, v0)])) as [|w ws]; simpl in A1; [discriminate|].
              simpl. rewrite fold_left_app. simpl. inv A1. auto.
           ++ rewrite A1. change (at_index j (@nil (Z * F))) with (@nil F). rewrite app_nil_r. auto.
        -- intros l1 c' v' E. apply app_inj_tail in E. destruct E as [_ E]. inv E. eauto.
      * simpl rev. split; [|split].
        -- rewrite srow_snoc. split; [apply srow_snoc; auto|].
           apply Forall_app. split; [|constructor; [simpl; lia|constructor]].
           eapply Forall_impl; [|exact SB]. simpl. intros. lia.
        -- intros j. specialize (A1 j). rewrite at_index_app'. rewrite A1.
           rewrite (at_index_app' j (l0 ++ [(c0, v0)])). rewrite (at_index_cons' j c v).
           change (at_index j (@nil (Z * F))) with (@nil F).
           destruct (Z.eqb_spec c j) as [Ej|Nj]; [subst j|]; [|rewrite !app_nil_r; auto].
           replace (at_index c (l0 ++ [(c0, v0)])) with (@nil F); auto.
           symmetry. rewrite <- (app_nil_r (at_index c (rev g ++ [(c0, a)]))) in A1.
           assert (at_index c (rev g ++ [(c0, a)]) = []) as E0.
           { apply at_index_nil. rewrite map_app. intros I. apply in_app_or in I. destruct I as [I|I].
             - apply in_map_iff in I. destruct I as (e & Ee & I). rewrite Forall_forall in SB. apply SB in I. lia.
             - destruct I as [I|[]]. simpl in I. lia. }
           rewrite app_nil_r, E0 in A1. destruct (at_index c (l0 ++ [(c0, v0)])); [auto|discriminate].
        -- intros l1 c' v' E. apply app_inj_tail in E. destruct E as [_ E]. inv E. eauto.
Qed.

Lemma group_keys : forall l k, In k (map fst (group l)) -> In k (map fst l).
Proof.
  intros l k. unfold group. rewrite map_rev, <- in_rev. induction l as [|e l IH] using rev_ind; simpl; auto.
  rewrite group_rev_snoc. rewrite map_app, in_app_iff. unfold gstep.
  destruct (group_rev l) as [|[c a] g]; simpl in *; [tauto|].
  destruct (fst e =? c)%Z; simpl; tauto.
Qed.

Lemma group_nil_iff : forall l, group_rev l = [] <-> l = [].
Proof.
  intros l. split; [|intros ->; reflexivity]. destruct l as [|e l] using rev_ind; auto.
  rewrite group_rev_snoc. unfold gstep. destruct (group_rev l) as [|[c a] g]; [discriminate|].
  destruct (fst e =? c)%Z; discriminate.
Qed.
End Group.

Lemma fill_range_length : forall {A} (l : list A) a b v, length (fill_range l a b v) = length l.
Proof. induction l; intros; destruct b; simpl; auto. destruct a0; simpl; auto. Qed.

Lemma nth_fill_range : forall {A} (l : list A) a b v i d, i < length l ->
  nth i (fill_range l a b v) d = if (a <=? i) && (i <? b) then v else nth i l d.
Proof.
  induction l as [|x l IH]; intros a b v i d H; simpl in H; [lia|].
  destruct b; simpl.
  - rewrite andb_false_r. auto.
  - destruct a; destruct i; simpl; auto.
    + rewrite IH by lia. auto.
    + rewrite IH by lia. auto.
Qed.

Section CooCsr.
Context {F : Fl}.
Notation triple := ((Z * Z) * F)%type.
Implicit Types ts : list triple.

Definition R ts (i : nat) : list (Z * F) :=
  map (fun t => (snd (fst t), snd t)) (filter (fun t : triple => (fst (fst t) =? Z.of_nat i)%Z) ts).
Definition G ts (n : nat) : list (Z * F) := concat (map (fun i => group (R ts i)) (seq 0 n)).

Definition key2_le (x y : triple) : Prop :=
  (fst (fst x) < fst (fst y) \/ (fst (fst x) = fst (fst y) /\ snd (fst x) <= snd (fst y)))%Z.

Lemma G_S : forall ts n, G ts (S n) = G ts n ++ group (R ts n).
Proof. intros. unfold G. rewrite seq_S, map_app, concat_app. simpl. rewrite app_nil_r. auto. Qed.

Lemma R_snoc : forall ts r c v i, (0 <= r)%Z ->
  R (ts ++ [((r, c), v)]) i = if Z.to_nat r =? i then R ts i ++ [(c, v)] else R ts i.
Proof.
  intros. unfold R. rewrite filter_app, map_app. simpl.
  destruct (Z.eqb_spec r (Z.of_nat i)); destruct (Nat.eqb_spec (Z.to_nat r) i); try lia; simpl; auto.
  rewrite app_nil_r. auto.
Qed.

Lemma G_snoc : forall ts r c v n, (0 <= r)%Z -> n <= Z.to_nat r -> G (ts ++ [((r, c), v)]) n = G ts n.
Proof.
  intros. unfold G. f_equal. apply map_ext_in. intros i I. apply in_seq in I.
  rewrite R_snoc by auto. destruct (Nat.eqb_spec (Z.to_nat r) i); auto. lia.
Qed.

Lemma R_above : forall ts i, Forall (fun t : triple => (fst (fst t) < Z.of_nat i)%Z) ts -> R ts i = [].
Proof.
  intros. unfold R. rewrite filter_none; auto. eapply Forall_impl; [|exact H]. simpl. intros. apply Z.eqb_neq. lia.
Qed.

Lemma G_above : forall ts n m, Forall (fun t : triple => (fst (fst t) < Z.of_nat n)%Z) ts -> n <= m -> G ts m = G ts n.
Proof.
  intros ts n m H L. induction L; auto. rewrite G_S, IHL. rewrite R_above.
  - apply app_nil_r.
  - eapply Forall_impl; [|exact H]. simpl. intros. lia.
Qed.

Definition init_st (nrows : nat) : coo_state (F := F) := mkSt (repeat 0%Z (S nrows)) [] (-1) (-1) f0.

(** What has been produced: pending entry included. *)
Definition st_all (st : coo_state) : list (Z * F) :=
  if ((st_row st >=? 0) && (st_col st >=? 0))%Z then (st_col st, st_acc st) :: st_out st else st_out st.

Record Inv (nrows : nat) ts (st : coo_state (F := F)) : Prop := {
  inv_len : length (st_ptr st) = S nrows;
  inv_row_lo : (-1 <= st_row st)%Z;
  inv_below : Forall (fun t : triple => (fst (fst t) <= st_row st)%Z) ts;
  inv_all : rev (st_all st) = G ts (Z.to_nat (st_row st + 1));
  inv_ptr : forall i, i < Z.to_nat (st_row st + 1) -> nth i (st_ptr st) 0%Z = Z.of_nat (length (G ts i));
  inv_last : ts = [] /\ st = init_st nrows \/
             (exists t0 v, ts = t0 ++ [((st_row st, st_col st), v)]) /\ (0 <= st_row st)%Z /\ (0 <= st_col st)%Z
}.

Lemma inv_fold : forall nrows ts, StronglySorted key2_le ts ->
  Forall (fun t : triple => (0 <= fst (fst t) < Z.of_nat nrows /\ 0 <= snd (fst t))%Z) ts ->
  Inv nrows ts (fold_left coo_step ts (init_st nrows)).
Proof.
  intros nrows ts. induction ts as [|[[r c] v] ts IH] using rev_ind; intros HS HB.
  - constructor; simpl; auto.
    + rewrite repeat_length. auto.
    + lia.
    + intros. lia.
  - apply StronglySorted_snoc in HS. destruct HS as [HS HL].
    apply Forall_app in HB. destruct HB as [HB HB1]. inv HB1. clear H2. simpl in H1.
    specialize (IH HS HB). rewrite fold_left_app. simpl fold_left.
    set (st := fold_left coo_step ts (init_st nrows)) in *. clearbody st.
    destruct IH as [I1 I2 I3 I4 I5 I6].
    assert (LE : (st_row st <= r)%Z).
    { destruct I6 as [[-> ->]|((t0 & v0 & E) & P1 & P2)]; [simpl; lia|]. rewrite E in HL.
      apply Forall_app in HL. destruct HL as [_ HL]. inv HL. unfold key2_le in H2. simpl in H2. lia. }
    unfold coo_step. destruct (Z.eqb_spec r (st_row st)) as [Er|Nr]; cbn [negb].
    + (* same row *)
      destruct I6 as [[-> ->]|((t0 & v0 & E) & P1 & P2)]; [simpl in Er; lia|].
      assert (CL : (st_col st <= c)%Z).
      { rewrite E in HL. apply Forall_app in HL. destruct HL as [_ HL]. inv HL. unfold key2_le in H2. simpl in H2. lia. }
      replace (Z.to_nat (st_row st + 1)) with (S (Z.to_nat r)) in I4, I5 by lia.
      assert (EA : st_all st = (st_col st, st_acc st) :: st_out st).
      { unfold st_all. destruct (st_row st >=? 0)%Z eqn:E1; destruct (st_col st >=? 0)%Z eqn:E2; auto; lia. }
      assert (EG : st_all st = group_rev (R ts (Z.to_nat r)) ++ rev (G ts (Z.to_nat r))).
      { rewrite <- (rev_involutive (st_all st)), I4, G_S, rev_app_distr. unfold group. rewrite rev_involutive. auto. }
      assert (NE : exists g', group_rev (R ts (Z.to_nat r)) = (st_col st, st_acc st) :: g' /\ st_out st = g' ++ rev (G ts (Z.to_nat r))).
      { destruct (group_rev (R ts (Z.to_nat r))) as [|x g'] eqn:Eg.
        - apply (proj1 (group_nil_iff _)) in Eg. rewrite E, R_snoc in Eg by auto. rewrite Er in Eg. rewrite Nat.eqb_refl in Eg.
          apply app_eq_nil in Eg. destruct Eg as [_ Eg]. discriminate.
        - rewrite EA in EG. simpl in EG. inv EG. exists g'. auto. }
      destruct NE as (g' & Eg & Eo).
      assert (EGN : forall n, n <= Z.to_nat r -> G (ts ++ [(r, c, v)]) n = G ts n) by (intros; apply G_snoc; lia).
      assert (ERN : R (ts ++ [(r, c, v)]) (Z.to_nat r) = R ts (Z.to_nat r) ++ [(c, v)]).
      { rewrite R_snoc by lia. rewrite Nat.eqb_refl. auto. }
      destruct (Z.eqb_spec c (st_col st)) as [Ec|Nc].
      * constructor; cbn [st_ptr st_out st_row st_col st_acc]; auto.
        -- apply Forall_app. split; auto. constructor; auto. simpl. lia.
        -- replace (Z.to_nat (st_row st + 1)) with (S (Z.to_nat r)) by lia.
           rewrite G_S, EGN by auto. unfold group. rewrite ERN, group_rev_snoc, Eg. unfold gstep. cbn [fst snd].
           destruct (Z.eqb_spec c (st_col st)); [|lia].
           unfold st_all. cbn [st_ptr st_out st_row st_col st_acc].
           destruct (st_row st >=? 0)%Z eqn:E1; destruct (st_col st >=? 0)%Z eqn:E2; try lia. cbn [andb].
           rewrite Eo. simpl rev. rewrite rev_app_distr, rev_involutive. rewrite app_assoc. auto.
        -- replace (Z.to_nat (st_row st + 1)) with (S (Z.to_nat r)) by lia. intros i Hi.
           rewrite EGN by lia. apply I5. auto.
        -- right. split; [|auto]. exists ts, v. rewrite Er, Ec. auto.
      * constructor; cbn [st_ptr st_out st_row st_col st_acc]; auto.
        -- apply Forall_app. split; auto. constructor; auto. simpl. lia.
        -- replace (Z.to_nat (st_row st + 1)) with (S (Z.to_nat r)) by lia.
           rewrite G_S, EGN by auto. unfold group. rewrite ERN, group_rev_snoc, Eg. unfold gstep. cbn [fst snd].
           destruct (Z.eqb_spec c (st_col st)); [lia|].
           unfold st_all. cbn [st_ptr st_out st_row st_col st_acc].
           destruct (st_row st >=? 0)%Z eqn:E1; destruct (c >=? 0)%Z eqn:E2; try lia. cbn [andb].
           rewrite Eo. simpl rev. rewrite rev_app_distr, rev_involutive. rewrite !app_assoc. auto.
        -- replace (Z.to_nat (st_row st + 1)) with (S (Z.to_nat r)) by lia. intros i Hi.
           rewrite EGN by lia. apply I5. auto.
        -- right. split; [|lia]. exists ts, v. rewrite Er. auto.
    + (* new row *)
      assert (LT : (st_row st < r)%Z) by lia.
      fold (st_all st).
      assert (AB : Forall (fun t : triple => (fst (fst t) < Z.of_nat (Z.to_nat (st_row st + 1)))%Z) ts).
      { eapply Forall_impl; [|exact I3]. simpl. intros. lia. }
      assert (GA : forall m, Z.to_nat (st_row st + 1) <= m -> G ts m = G ts (Z.to_nat (st_row st + 1))).
      { intros. apply G_above; auto. }
      assert (LA : length (st_all st) = length (G ts (Z.to_nat (st_row st + 1)))).
      { rewrite <- I4, rev_length. auto. }
      constructor; cbn [st_ptr st_out st_row st_col st_acc].
      * rewrite fill_range_length. auto.
      * lia.
      * apply Forall_app. split; [eapply Forall_impl; [|exact I3]; simpl; intros; lia|]. constructor; auto. simpl. lia.
      * unfold st_all at 1. cbn [st_ptr st_out st_row st_col st_acc].
        destruct (r >=? 0)%Z eqn:E1; destruct (c >=? 0)%Z eqn:E2; try lia. cbn [andb]. simpl rev.
        rewrite I4. replace (Z.to_nat (r + 1)) with (S (Z.to_nat r)) by lia. rewrite G_S, G_snoc by lia.
        rewrite (GA (Z.to_nat r)) by lia. f_equal. unfold group. rewrite R_snoc by lia. rewrite Nat.eqb_refl.
        rewrite R_above. { reflexivity. }
        eapply Forall_impl; [|exact I3]. simpl. intros. lia.
      * intros i Hi. rewrite nth_fill_range by lia.
        rewrite G_snoc by lia.
        destruct (Nat.leb_spec (Z.to_nat (Z.max (st_row st + 1) 0)) i); destruct (Nat.ltb_spec i (Z.to_nat r + 1)); try lia; simpl.
        -- rewrite LA. rewrite (GA i) by lia. auto.
        -- apply I5. lia.
      * right. split; [|lia]. exists ts, v. auto.
Qed.

Lemma at_index_R : forall ts i j, at_index j (R ts i) = at_cell (Z.of_nat i) j ts.
Proof.
  intros. unfold R, at_cell, at_index. induction ts as [|[[r c] v] ts IH]; simpl; auto.
  destruct (r =? Z.of_nat i)%Z; simpl; auto. destruct (c =? j)%Z; simpl; auto. rewrite IH. auto.
Qed.

Lemma at_cell_perm : forall i j ts ts', Permutation ts ts' -> Permutation (at_cell i j ts) (at_cell i j ts').
Proof. intros. unfold at_cell. apply Permutation_map, Permutation_filter. auto. Qed.

Lemma R_sorted : forall ts i, StronglySorted key2_le ts -> sorted_le (R ts i).
Proof.
  intros ts i. unfold sorted_le, R. induction 1 as [|[[r c] v] ts HS IH HF]; simpl.
  - constructor.
  - destruct (Z.eqb_spec r (Z.of_nat i)); simpl; auto. constructor; auto.
    rewrite Forall_map. apply Forall_forall. intros [[r' c'] v'] I. apply filter_In in I. simpl in *. destruct I as [I E].
    rewrite Forall_forall in HF. apply HF in I. unfold key2_le in I. simpl in I. lia.
Qed.

Lemma coo_to_csr_rows : forall srt (A : Coo F), is_sorter key2_le srt -> coo_ok A ->
  coo_to_csr srt A = Ok (of_rows (coo_ncols A) (map (fun i => group (R (srt (coo_entries A)) i)) (seq 0 (coo_nrows A)))).
Proof.
  intros srt A HS OK. unfold coo_to_csr, coo_triples.
  rewrite (coo_len_r _ OK), (coo_len_c _ OK), Nat.leb_refl. cbn [andb bind].
  destruct (HS (coo_entries A)) as [P SO]. set (ts := srt (coo_entries A)) in *.
  assert (B : Forall (fun t : triple => (0 <= fst (fst t) < Z.of_nat (coo_nrows A) /\ 0 <= snd (fst t))%Z) ts).
  { apply Forall_forall. intros [[r c] v] I. apply Permutation_in with (l' := coo_entries A) in I; [|symmetry; auto].
    unfold coo_entries in I. apply In_nth_error in I. destruct I as [n I].
    apply nth_error_combine in I. destruct I as [I _]. apply nth_error_combine in I. destruct I as [I1 I2].
    apply (coo_bound_r _ OK) in I1. apply (coo_bound_c _ OK) in I2. simpl. lia. }
  pose proof (inv_fold (coo_nrows A) ts SO B) as [I1 I2 I3 I4 I5 I6].
  change (mkSt (repeat 0%Z (S (coo_nrows A))) [] (-1) (-1) f0) with (init_st (coo_nrows A)).
  set (st := fold_left coo_step ts (init_st (coo_nrows A))) in *. clearbody st.
  fold (st_all st).
  set (cur := Z.to_nat (st_row st + 1)) in *.
  replace (if (st_row st <? 0)%Z then 0 else cur) with cur.
  2:{ destruct (Z.ltb_spec (st_row st) 0); auto. unfold cur. lia. }
  assert (CB : cur <= coo_nrows A).
  { unfold cur. destruct I6 as [[-> ->]|((t0 & v0 & E) & P1 & P2)]; [simpl; lia|].
    rewrite E in B. apply Forall_app in B. destruct B as [_ B]. inv B. simpl in H1. lia. }
  assert (GA : forall m, cur <= m -> G ts m = G ts cur).
  { intros. apply G_above; auto. eapply Forall_impl; [|exact I3]. simpl. intros. unfold cur. lia. }
  assert (EG : concat (map (fun i => group (R ts i)) (seq 0 (coo_nrows A))) = rev (st_all st)).
  { rewrite I4. apply GA. auto. }
  unfold of_rows. rewrite map_length, seq_length, EG. f_equal. f_equal.
  apply nth_ext with (d := 0%Z) (d' := 0%Z).
  { rewrite fill_range_length, I1. unfold indptr_of. rewrite map_length, psum_length, !map_length, seq_length. auto. }
  intros i Hi. rewrite fill_range_length, I1 in Hi. rewrite nth_fill_range by lia.
  rewrite nth_indptr by (rewrite !map_length, seq_length; lia).
  assert (ET : total (firstn i (map (@length _) (map (fun i => group (R ts i)) (seq 0 (coo_nrows A))))) = length (G ts i)).
  { rewrite firstn_map, total_length_concat, firstn_map. unfold G. f_equal. f_equal. f_equal.
    replace (coo_nrows A) with (i + (coo_nrows A - i)) by lia. rewrite seq_app.
    rewrite firstn_app. rewrite seq_length, Nat.sub_diag. simpl. rewrite app_nil_r.
    apply firstn_all2. rewrite seq_length. lia. }
  rewrite ET.
  destruct (Nat.leb_spec cur i); destruct (Nat.ltb_spec i (coo_nrows A + 1)); try lia; simpl.
  - rewrite (GA i) by auto. rewrite <- I4, rev_length. auto.
  - apply I5. auto.
Qed.

Lemma coo_to_csr_ok : forall srt (A : Coo F), is_sorter key2_le srt -> coo_ok A ->
  exists B, coo_to_csr srt A = Ok B /\ canonical B /\ major B = coo_nrows A /\ minor B = coo_ncols A /\
    (forall i j, i < coo_nrows A ->
       exists l, Permutation (at_cell (Z.of_nat i) j (coo_entries A)) l /\ cs_at B i j = sum_of l).
Proof.
  intros srt A HS OK. eexists. split; [apply coo_to_csr_rows; auto|].
  destruct (HS (coo_entries A)) as [P SO]. set (ts := srt (coo_entries A)) in *.
  split; [|split; [|split]].
  - apply of_rows_canonical.
    + apply Forall_forall. intros r I. apply in_map_iff in I. destruct I as (i & <- & _).
      unfold in_bounds. apply Forall_forall. intros e Ie.
      assert (In (fst e) (map fst (R ts i))) as Ik. { apply group_keys. apply in_map. auto. }
      unfold R in Ik. rewrite map_map in Ik. apply in_map_iff in Ik. destruct Ik as ([[r c] v] & E & Ik). simpl in E. subst c.
      apply filter_In in Ik. destruct Ik as [Ik _].
      apply Permutation_in with (l' := coo_entries A) in Ik; [|symmetry; auto].
      unfold coo_entries in Ik. apply In_nth_error in Ik. destruct Ik as [n Ik].
      apply nth_error_combine in Ik. destruct Ik as [Ik _]. apply nth_error_combine in Ik. destruct Ik as [_ I2].
      apply (coo_bound_c _ OK) in I2. auto.
    + apply Forall_forall. intros r I. apply in_map_iff in I. destruct I as (i & <- & _).
      apply group_spec. apply R_sorted. auto.
  - simpl. rewrite map_length, seq_length. auto.
  - reflexivity.
  - intros i j Hi. exists (at_index j (R ts i)). split.
    + rewrite at_index_R. apply at_cell_perm. auto.
    + unfold cs_at. rewrite cs_row_of_rows.
      rewrite nth_indep with (d' := group (R ts 0)) by (rewrite map_length, seq_length; auto).
      rewrite (map_nth (fun i => group (R ts i))). rewrite seq_nth by auto. simpl.
      apply group_spec. apply R_sorted. auto.
Qed.
End CooCsr.
