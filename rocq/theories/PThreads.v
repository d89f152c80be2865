(** Proofs about programs with several Python threads. *)
Require Import List ZArith Bool Lia Arith.
Require Import Verif.Res Verif.Values Verif.Spec Verif.Mem Verif.Lists Verif.Laws Verif.MCore Verif.MPy Verif.MObj Verif.SpecObj Verif.MThreads Verif.PObj Verif.PSafe.
Import ListNotations.
Local Open Scope Z_scope.

Section Threads.
Context {F : Fl}.
Notation heap := (list (value F)).

(** ** A call depends on its operands only *)
Definition same_on (l : list nat) (h h' : heap) : Prop := forall a, In a l -> nth_error h a = nth_error h' a.

Lemma get_checked_same : forall {A} (l l' : list A) n, nth_error l n = nth_error l' n -> get_checked l n = get_checked l' n.
Proof. intros. unfold get_checked. rewrite H. reflexivity. Qed.

Lemma exec_frame : forall e (h h' : heap) c, same_on (operands c) h h' -> exec e h c = exec e h' c.
Proof.
  intros e h h' c S. destruct c; cbn [operands] in S; cbn [exec]; try reflexivity;
  repeat match goal with
  | H : same_on [?a; ?b] h h' |- _ =>
      rewrite (get_checked_same h h' a (H a (or_introl eq_refl))), (get_checked_same h h' b (H b (or_intror (or_introl eq_refl)))); clear H
  | H : same_on [?a] h h' |- _ => rewrite (get_checked_same h h' a (H a (or_introl eq_refl))); clear H
  end; reflexivity.
Qed.
Lemma demand_frame : forall (h h' : heap) c, same_on (operands c) h h' -> demand h c = demand h' c.
Proof.
  intros h h' c S. destruct c; try reflexivity; cbn [operands] in S; cbn [demand];
  rewrite (S a (or_introl eq_refl)), (S b (or_intror (or_introl eq_refl))); reflexivity.
Qed.
Lemma borrowed_operand : forall (h : heap) c b, borrowed h c = Some b -> In b (operands c).
Proof.
  intros h c b H. destruct c; try discriminate H; cbn [borrowed] in H; cbn [operands]; right; left.
  - destruct (nth_error h a) as [[X|X|X|X|sx dx|sx dx|sx dx]|]; try discriminate H; destruct (nth_error h b0) as [[Y|Y|Y|Y|sy dy|sy dy|sy dy]|]; try discriminate H;
    try (destruct sy as [|? [|? ?]]; try discriminate H); injection H as <-; reflexivity.
  - destruct (nth_error h a) as [[X|X|X|X|sx dx|sx dx|sx dx]|]; try discriminate H; destruct (nth_error h b0) as [[Y|Y|Y|Y|sy dy|sy dy|sy dy]|]; try discriminate H;
    try (destruct axis as [ax|]; [|discriminate H]; destruct (ax =? 0); [|discriminate H]); injection H as <-; reflexivity.
Qed.
Lemma upd_self : forall {A} (l : list A) n a, nth_error l n = Some a -> upd l n a = l.
Proof. induction l as [|x l IH]; intros [|n] a H; try discriminate H; cbn [upd nth_error] in *; [injection H as ->; reflexivity|]. f_equal. apply IH. exact H. Qed.
Lemma same_elements : forall {A} (d d' : list A), length d' = length d -> (forall j x, nth_error d' j = Some x -> nth_error d j = Some x) -> d' = d.
Proof.
  induction d as [|y d IH]; intros [|x d'] L H; try discriminate L; [reflexivity|]. f_equal.
  - specialize (H 0%nat x eq_refl). cbn in H. congruence.
  - apply IH; [cbn in L; lia|]. intros j z Hj. exact (H (S j) z Hj).
Qed.

(** ** Writes *)
Lemma write_inv : forall (h : heap) a k v h', write h a k v = Ok h' ->
  exists x y, nth_error h a = Some x /\ h' = upd h a y /\
    ((exists sh d d', x = VArr sh d /\ y = VArr sh d' /\ length d' = length d) \/ set_data x k v = Ok y).
Proof.
  intros h a k v h' W. unfold write, get_checked in W. destruct (nth_error h a) as [x|] eqn:E; [|discriminate W]. cbn [bind] in W.
  exists x. destruct x as [X|X|X|X|sh d|sh d|sh d];
  try (destruct (set_data _ k v) as [y| | |] eqn:S; try discriminate W; cbn [bind] in W; injection W as <-; exists y; auto; fail).
  unfold py_set in W. destruct (py_index (length d) k) as [p| | |]; try discriminate W. cbn [bind] in W. injection W as <-.
  eexists. split; [reflexivity|]. split; [reflexivity|]. left. exists sh, d, (upd d p v). split; [reflexivity|]. split; [reflexivity|]. apply upd_length.
Qed.
Lemma write_elsewhere : forall (h : heap) a k v h' b, write h a k v = Ok h' -> b <> a -> nth_error h' b = nth_error h b.
Proof. intros h a k v h' b W N. destruct (write_inv _ _ _ _ _ W) as (x & y & _ & -> & _). apply nth_error_upd_neq. auto. Qed.
Lemma set_data_fits : forall (x : value F) k v y, set_data x k v = Ok y -> fits y = fits x.
Proof.
  intros x k v y S. destruct x as [X|X|X|X|sh d|sh d|sh d]; try discriminate S; cbn [set_data] in S;
  match type of S with context [py_set ?d _ _] => unfold py_set in S; destruct (py_index (length d) k) as [p| | |]; try discriminate S end;
  cbn [bind] in S; injection S as <-; cbn [fits py_arrays pyc_arrays major minor dat coo_nrows coo_ncols coo_data nd_shape nd_idx nd_dat];
  rewrite upd_length; reflexivity.
Qed.
Lemma write_fits : forall (h : heap) a k v h', write h a k v = Ok h' -> forallb fits h = true -> forallb fits h' = true.
Proof.
  intros h a k v h' W FT. destruct (write_inv _ _ _ _ _ W) as (x & y & E & -> & C).
  assert (FY : fits y = true).
  { assert (FX : fits x = true) by (rewrite forallb_forall in FT; apply FT; eapply nth_error_In; exact E).
    destruct C as [(sh & d & d' & -> & -> & L)|S]; [|rewrite (set_data_fits _ _ _ _ S); exact FX].
    cbn [fits] in *. rewrite L. exact FX. }
  apply forallb_forall. intros z Z. rewrite forallb_forall in FT.
  assert (A : Forall (fun z => fits z = true) (upd h a y)) by (apply upd_All; [apply Forall_forall; exact FT|exact FY]).
  rewrite Forall_forall in A. auto.
Qed.
Lemma write_kept : forall (h : heap) a k v h', write h a k v = Ok h' -> Forall kept h -> Forall kept h'.
Proof.
  intros h a k v h' W K. pose proof (write_inv _ _ _ _ _ W) as (x & y & E & -> & C). pose proof (kept_nth _ _ _ K E) as Kx.
  apply upd_All; [exact K|]. destruct C as [(sh & d & d' & -> & -> & L)|S].
  - destruct Kx as [I FT]. split; [cbn [intact] in *; lia|cbn [fits] in *; rewrite L; exact FT].
  - pose proof (set_data_safe x k v Kx) as G. rewrite S in G. split; [exact G|]. rewrite (set_data_fits _ _ _ _ S). apply Kx.
Qed.

(** ** Quiet programs are sequential *)
Definition undisturbed (h : heap) (f : flight F) : Prop :=
  is_set_data (f_call f) = false /\ demand (f_found f) (f_call f) < i64_max /\
  Forall (fun a => (a < length h)%nat) (operands (f_call f)) /\
  same_on (operands (f_call f)) (f_found f) h /\ Forall (same_on (operands (f_call f)) (f_found f)) (f_since f).

Lemma sees_undisturbed : forall h f h', undisturbed h f -> sees f h' -> h' = f_found f.
Proof.
  intros h f h' (_ & _ & _ & _ & S) G. unfold sees in G. destruct (borrowed (f_found f) (f_call f)) as [b|] eqn:B; [|exact G].
  destruct G as (sh & d & d' & E & L & M & ->). apply borrowed_operand in B.
  rewrite (same_elements d d' L); [apply upd_self; exact E|]. intros j x Hj. destruct (M j x Hj) as (hs & sh2 & dh & I & E2 & Ex).
  destruct I as [<-|I]; [|rewrite Forall_forall in S; rewrite <- (S hs I b B) in E2]; rewrite E in E2; injection E2 as _ ->; exact Ex.
Qed.
Lemma witnessed_undisturbed : forall h h' (fs : list (flight F)),
  (length h <= length h')%nat -> Forall (fun f => same_on (operands (f_call f)) h h') fs -> Forall (undisturbed h) fs -> Forall (undisturbed h') (witnessed h' fs).
Proof.
  intros h h' fs L S U. unfold witnessed. apply Forall_map. rewrite Forall_forall in *. intros f I. destruct (U f I) as (A & B & C & D & E).
  specialize (S f I). cbv beta in S.
  assert (T : same_on (operands (f_call f)) (f_found f) h') by (intros a Ia; rewrite (D a Ia); apply S; exact Ia).
  unfold undisturbed; cbn [f_call f_found f_since]. repeat split; auto.
  - eapply Forall_impl; [|exact C]. cbv beta. intros; lia.
  - apply Forall_app. split; auto.
Qed.
Lemma same_on_app : forall l (h : heap) x, Forall (fun a => (a < length h)%nat) l -> same_on l h (h ++ x).
Proof. intros l h x B a I. rewrite Forall_forall in B. rewrite nth_error_app1; auto. Qed.

Lemma perform_app : forall l1 l2 (h : heap), perform h (l1 ++ l2) = match perform h l1 with Running h' => perform h' l2 | o => o end.
Proof.
  induction l1 as [|[e c|a k v] l1 IH]; intros l2 h; [reflexivity| |]; cbn [app perform].
  - destruct (i64_max <=? demand h c); [reflexivity|]. destruct (step e h c) as [h'| | |]; try reflexivity; [|apply IH].
    destruct (forallb fits h'); [apply IH|reflexivity].
  - destruct (write h a k v) as [h'| | |]; try reflexivity; apply IH.
Qed.
Lemma step_exec : forall e (h : heap) c, is_set_data c = false -> step e h c = (let! v := exec e h c in Ok (h ++ [v])).
Proof. intros e h c S. destruct c; try reflexivity. discriminate S. Qed.

Theorem threads_quiet : forall h0 h fs l, threads (F := F) true h0 h fs l -> forallb fits h0 = true ->
  perform h0 l = Running h /\ forallb fits h = true /\ Forall (undisturbed h) fs.
Proof.
  intros h0 h fs l T F0. induction T as [|h fs l t e c T IH B SD O FE V D|h fs1 f fs2 l h' v T IH S E FV|h fs1 f fs2 l h' T IH S E|h fs l a k v h' T IH W Q].
  - repeat split; auto.
  - destruct IH as (P & FT & U). repeat split; auto. constructor; auto. unfold undisturbed; cbn [f_call f_found f_since]. repeat split; auto.
  - destruct IH as (P & FT & U). apply Forall_app in U. destruct U as [U1 U]. inversion U as [|? ? Uf U2]; subst.
    pose proof (sees_undisturbed _ _ _ Uf S) as ->. pose proof Uf as (SD & D & O & SM & _).
    rewrite (exec_frame _ _ _ _ SM) in E. rewrite (demand_frame _ _ _ SM) in D.
    assert (FT' : forallb fits (h ++ [v]) = true) by (rewrite forallb_app, FT; cbn [forallb andb]; rewrite FV; reflexivity).
    assert (U' : Forall (undisturbed h) (fs1 ++ fs2)) by (apply Forall_app; auto).
    split; [|split; [exact FT'|]].
    + rewrite perform_app, P. cbn [perform]. rewrite (proj2 (Z.leb_gt _ _) D), (step_exec _ _ _ SD), E. cbn [bind]. rewrite FT'. reflexivity.
    + apply witnessed_undisturbed with (h := h); auto; [rewrite app_length; lia|].
      eapply Forall_impl; [|exact U']. intros g (_ & _ & G & _). apply same_on_app. exact G.
  - destruct IH as (P & FT & U). apply Forall_app in U. destruct U as [U1 U]. inversion U as [|? ? Uf U2]; subst.
    pose proof (sees_undisturbed _ _ _ Uf S) as ->. pose proof Uf as (SD & D & O & SM & _).
    rewrite (exec_frame _ _ _ _ SM) in E. rewrite (demand_frame _ _ _ SM) in D.
    split; [|split; [exact FT|apply Forall_app; auto]].
    rewrite perform_app, P. cbn [perform]. rewrite (proj2 (Z.leb_gt _ _) D), (step_exec _ _ _ SD), E. reflexivity.
  - destruct IH as (P & FT & U). split; [|split; [eapply write_fits; eauto|]].
    + rewrite perform_app, P. cbn [perform]. rewrite W. reflexivity.
    + apply witnessed_undisturbed with (h := h); auto.
      * destruct (write_inv _ _ _ _ _ W) as (x & y & _ & -> & _). rewrite upd_length. lia.
      * eapply Forall_impl; [|exact (Q eq_refl)]. cbv beta. intros g N b I. symmetry. eapply write_elsewhere; [exact W|]. intros ->. auto.
Qed.

(** ** Every program is memory safe *)
Definition sound (f : flight F) : Prop :=
  fair (f_env f) /\ valid_arguments (f_call f) /\ demand (f_found f) (f_call f) < i64_max /\ Forall kept (f_found f).

Lemma nth_upd_arr : forall (h : heap) b sh d d' a, nth_error h b = Some (VArr sh d) ->
  nth_error (upd h b (VArr sh d')) a = if (a =? b)%nat then Some (VArr sh d') else nth_error h a.
Proof.
  intros h b sh d d' a E. destruct (Nat.eqb_spec a b) as [->|N]; [apply nth_error_upd_eq; apply nth_error_Some; congruence|apply nth_error_upd_neq; auto].
Qed.
Lemma demand_upd : forall (h : heap) b sh d d' c, nth_error h b = Some (VArr sh d) -> demand (upd h b (VArr sh d')) c = demand h c.
Proof.
  intros h b sh d d' c E. destruct c; try reflexivity; cbn [demand]; [destruct op; try reflexivity| | |];
  rewrite !(nth_upd_arr _ _ _ _ _ _ E);
  repeat match goal with |- context [(?x =? b)%nat] => destruct (Nat.eqb_spec x b); [subst x; rewrite ?E|] end; cbn [option_map as_float64]; try reflexivity;
  try (destruct (nth_error h a) as [[]|]; reflexivity); try (destruct (nth_error h b0) as [[]|]; reflexivity).
Qed.
Lemma sees_sound : forall f h', sound f -> sees f h' -> Forall kept h' /\ demand h' (f_call f) < i64_max.
Proof.
  intros f h' (_ & _ & D & K) G. unfold sees in G. destruct (borrowed (f_found f) (f_call f)) as [b|]; [|subst; auto].
  destruct G as (sh & d & d' & E & L & _ & ->). split; [|rewrite (demand_upd _ _ _ _ _ _ E); exact D].
  pose proof (kept_nth _ _ _ K E) as [I FT]. apply upd_All; [exact K|]. split; [cbn [intact] in *; lia|cbn [fits] in *; rewrite L; exact FT].
Qed.
Theorem threads_sound (NL : NLaws F) : forall quiet h0 h fs l, threads (F := F) quiet h0 h fs l -> Forall kept h0 ->
  Forall kept h /\ Forall sound fs.
Proof.
  intros quiet h0 h fs l T K0. induction T as [|h fs l t e c T IH B SD O FE V D|h fs1 f fs2 l h' v T IH S E FV|h fs1 f fs2 l h' T IH S E|h fs l a k v h' T IH W Q].
  - auto.
  - destruct IH as [K U]. split; auto. constructor; auto. unfold sound; cbn; auto.
  - destruct IH as [K U]. apply Forall_app in U. destruct U as [U1 U]. inversion U as [|? ? Uf U2]; subst.
    pose proof (sees_sound _ _ Uf S) as [K' D']. destruct Uf as (FE & V & _).
    pose proof (exec_safe NL (f_env f) FE h' (f_call f) K' V D') as G. rewrite E in G. cbn [safe] in G. split.
    + apply Forall_app. split; auto. constructor; [|constructor]. split; auto.
    + unfold witnessed. apply Forall_map. apply Forall_app; auto.
  - destruct IH as [K U]. apply Forall_app in U. destruct U as [U1 U]. inversion U; subst. split; auto. apply Forall_app; auto.
  - destruct IH as [K U]. split; [eapply write_kept; eauto|]. unfold witnessed. apply Forall_map. exact U.
Qed.
Theorem ending_safe (NL : NLaws F) : forall f h', sound f -> sees f h' -> safe good (exec (f_env f) h' (f_call f)).
Proof. intros f h' U S. pose proof (sees_sound _ _ U S) as [K D]. destruct U as (FE & V & _). apply exec_safe; auto. Qed.

(** ** A call finds the objects of the moment it begins *)
Lemma begun : forall quiet h0 h fs l, threads (F := F) quiet h0 h fs l -> forall f, In f fs ->
  exists l1 l2 fs1, l = l1 ++ l2 /\ threads quiet h0 (f_found f) fs1 l1.
Proof.
  intros quiet h0 h fs l T. induction T as [|h fs l t e c T IH B SD O FE V D|h fs1 f fs2 l h' v T IH S E FV|h fs1 f fs2 l h' T IH S E|h fs l a k v h' T IH W Q]; intros g I.
  - destruct I.
  - destruct I as [<-|I]; [|auto]. exists l, [], fs. rewrite app_nil_r. auto.
  - unfold witnessed in I. apply in_map_iff in I. destruct I as (g' & <- & I). cbn [f_found].
    destruct (IH g') as (l1 & l2 & fs & -> & G); [apply in_app_iff in I; apply in_app_iff; cbn [In]; tauto|].
    exists l1, (l2 ++ [Did (f_env f) (f_call f)]), fs. rewrite app_assoc. auto.
  - destruct (IH g) as (l1 & l2 & fs & -> & G); [apply in_app_iff in I; apply in_app_iff; cbn [In]; tauto|].
    exists l1, (l2 ++ [Did (f_env f) (f_call f)]), fs. rewrite app_assoc. auto.
  - unfold witnessed in I. apply in_map_iff in I. destruct I as (g' & <- & I). cbn [f_found].
    destruct (IH g' I) as (l1 & l2 & fs1 & -> & G). exists l1, (l2 ++ [Wrote a k v]), fs1. rewrite app_assoc. auto.
Qed.
Lemma sees_found : forall f : flight F, sees f (f_found f).
Proof.
  intros f. unfold sees. destruct (borrowed (f_found f) (f_call f)) as [b|] eqn:B; [|reflexivity].
  assert (E : exists sh d, nth_error (f_found f) b = Some (VArr sh d)).
  { destruct (f_call f); try discriminate B; cbn [borrowed] in B;
    destruct (nth_error (f_found f) a) as [[X|X|X|X|sx dx|sx dx|sx dx]|]; try discriminate B;
    destruct (nth_error (f_found f) b0) as [[Y|Y|Y|Y|sy dy|sy dy|sy dy]|] eqn:E; try discriminate B;
    try (destruct sy as [|? [|? ?]]; try discriminate B);
    try (destruct axis as [ax|]; [|discriminate B]; destruct (ax =? 0); [|discriminate B]);
    injection B as <-; eauto. }
  destruct E as (sh & d & E). exists sh, d, d. split; [exact E|]. split; [reflexivity|]. split; [|symmetry; apply upd_self; exact E].
  intros j x Hj. exists (f_found f), sh, d. split; [left; reflexivity|auto].
Qed.

(** ** Without writes the acts are a program *)
Lemma perform_run : forall l (h : heap), perform h (map (fun ec => Did (fst ec) (snd ec)) l) = run h l.
Proof.
  induction l as [|[e c] l IH]; intros h; [reflexivity|]. cbn [map fst snd perform run].
  destruct (i64_max <=? demand h c); [reflexivity|]. destruct (step e h c) as [h'| | |]; try reflexivity; [|apply IH]. destruct (forallb fits h'); [apply IH|reflexivity].
Qed.
End Threads.
