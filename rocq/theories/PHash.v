(** Proofs about the accumulator hash map. *)
Require Import List ZArith Bool Lia Permutation Arith.
Require Import Verif.Res Verif.Values Verif.Spec Verif.Mem Verif.Lists Verif.PConvert Verif.MHash.
Import ListNotations.
Local Open Scope Z_scope.

Section Hash.
Context {F : Fl}.
Notation slot := (Z * F)%type.
Implicit Types (T : list slot) (k : Z).

Definition emptyb (s : slot) : bool := fst s =? usize_max.
Definition live T := filter (fun s => negb (fst s =? usize_max)) T.

(** Slot at cyclic distance [i] from [h]. *)
Definition cyc (cap h i : Z) : Z := (h + i) mod cap.
Definition at_ T (i : Z) : slot := nth (Z.to_nat i) T (usize_max, f0).

(** [T] is a power-of-two table in which every key can be reached from its hash
    position through occupied slots. *)
Record wft (p : Z) T : Prop := {
  w_p : 0 <= p;
  w_len : Z.of_nat (length T) = 2 ^ p;
  w_nodup : NoDup (map fst (live T));
  w_reach : forall j, 0 <= j < 2 ^ p -> fst (at_ T j) <> usize_max ->
     exists i, 0 <= i < 2 ^ p /\ j = cyc (2 ^ p) (hash (fst (at_ T j))) i /\
       forall i', 0 <= i' < i -> fst (at_ T (cyc (2 ^ p) (hash (fst (at_ T j))) i')) <> usize_max
}.

Lemma pow2_pos : forall p, 0 <= p -> 0 < 2 ^ p.
Proof. intros. apply Z.pow_pos_nonneg; lia. Qed.

Lemma land_mask : forall p x, 0 <= p -> Z.land x (2 ^ p - 1) = x mod 2 ^ p.
Proof. intros. rewrite <- Z.land_ones by auto. rewrite Z.ones_equiv. f_equal. Qed.

Lemma cyc_range : forall p h i, 0 <= p -> 0 <= cyc (2 ^ p) h i < 2 ^ p.
Proof. intros. apply Z.mod_pos_bound, pow2_pos. auto. Qed.

Lemma cyc_next : forall p h i, 0 <= p -> Z.land (cyc (2 ^ p) h i + 1) (2 ^ p - 1) = cyc (2 ^ p) h (i + 1).
Proof. intros. rewrite land_mask by auto. unfold cyc. rewrite Zplus_mod_idemp_l. f_equal. lia. Qed.

Lemma cyc_inj : forall p h i i', 0 <= p -> 0 <= i < 2 ^ p -> 0 <= i' < 2 ^ p -> cyc (2 ^ p) h i = cyc (2 ^ p) h i' -> i = i'.
Proof.
  intros p h i i' P H H' E. unfold cyc in E. pose proof (pow2_pos p P).
  assert ((i - i') mod 2 ^ p = 0).
  { replace (i - i') with ((h + i) - (h + i')) by lia. rewrite Zminus_mod, E, Z.sub_diag. apply Z.mod_0_l. lia. }
  apply Z.mod_divide in H1; [|lia]. destruct H1 as [q Q].
  destruct (Z.eq_dec q 0); nia.
Qed.

Lemma cyc_surj : forall p h j, 0 <= p -> 0 <= j < 2 ^ p -> exists i, 0 <= i < 2 ^ p /\ cyc (2 ^ p) h i = j.
Proof.
  intros p h j P H. pose proof (pow2_pos p P). exists ((j - h) mod 2 ^ p).
  split; [apply Z.mod_pos_bound; auto|]. unfold cyc. rewrite Zplus_mod_idemp_r.
  replace (h + (j - h)) with j by lia. apply Z.mod_small. auto.
Qed.

Lemma at_nth_error : forall T j, 0 <= j < Z.of_nat (length T) -> nth_error T (Z.to_nat j) = Some (at_ T j).
Proof. intros. apply nth_error_nth'. lia. Qed.

(** The first probing position at which [P] holds. *)
Lemma first_stop : forall (P : Z -> bool) n i, (exists j, i <= j < i + Z.of_nat n /\ P j = true) ->
  exists j, i <= j < i + Z.of_nat n /\ P j = true /\ forall j', i <= j' < j -> P j' = false.
Proof.
  induction n; intros i (j & R & H); [lia|].
  destruct (P i) eqn:E.
  - exists i. split; [lia|]. split; auto. intros; lia.
  - destruct (IHn (i + 1)) as (j0 & R0 & H0 & M0).
    { exists j. split; auto. destruct (Z.eq_dec i j); [congruence|lia]. }
    exists j0. split; [lia|]. split; auto. intros j' Hj'. destruct (Z.eq_dec i j'); [congruence|apply M0; lia].
Qed.

Definition stopb (key : Z) (s : slot) : bool := (fst s =? usize_max) || (fst s =? key).

Lemma probe_ok : forall p T key h i d fuel, 0 <= p -> Z.of_nat (length T) = 2 ^ p ->
  0 <= d -> d < Z.of_nat fuel ->
  (forall d', 0 <= d' < d -> stopb key (at_ T (cyc (2 ^ p) h (i + d'))) = false) ->
  stopb key (at_ T (cyc (2 ^ p) h (i + d))) = true ->
  probe fuel T (2 ^ p - 1) key (cyc (2 ^ p) h i)
    = Ok (cyc (2 ^ p) h (i + d), fst (at_ T (cyc (2 ^ p) h (i + d))) =? usize_max).
Proof.
  intros p T key h i d fuel P L. revert i d. induction fuel; intros i d D0 DF NS ST; [lia|].
  simpl. pose proof (cyc_range p h i P) as R.
  unfold zslot. destruct (Z.ltb_spec (cyc (2 ^ p) h i) 0); [lia|].
  unfold get_unchecked. rewrite at_nth_error by lia. cbn [bind].
  destruct (at_ T (cyc (2 ^ p) h i)) as [k v] eqn:EA.
  destruct (Z.eq_dec d 0) as [->|N].
  - rewrite Z.add_0_r in *. rewrite EA in *. unfold stopb in ST. cbn [fst] in *.
    destruct (k =? usize_max); auto. simpl in ST. rewrite ST. auto.
  - pose proof (NS 0 ltac:(lia)) as S0. rewrite Z.add_0_r, EA in S0. unfold stopb in S0. cbn [fst] in S0.
    apply orb_false_iff in S0. destruct S0 as [-> ->].
    rewrite cyc_next by auto. replace (i + d) with ((i + 1) + (d - 1)) by lia.
    apply IHfuel; try lia.
    + intros d' Hd'. replace (i + 1 + d') with (i + (d' + 1)) by lia. apply NS. lia.
    + replace (i + 1 + (d - 1)) with (i + d) by lia. auto.
Qed.

Lemma probe_empty_ok : forall p T h i d fuel, 0 <= p -> Z.of_nat (length T) = 2 ^ p ->
  0 <= d -> d < Z.of_nat fuel ->
  (forall d', 0 <= d' < d -> emptyb (at_ T (cyc (2 ^ p) h (i + d'))) = false) ->
  emptyb (at_ T (cyc (2 ^ p) h (i + d))) = true ->
  probe_empty fuel T (2 ^ p - 1) (cyc (2 ^ p) h i) = Ok (cyc (2 ^ p) h (i + d)).
Proof.
  intros p T h i d fuel P L. revert i d. induction fuel; intros i d D0 DF NS ST; [lia|].
  simpl. pose proof (cyc_range p h i P) as R.
  destruct (Z.ltb_spec (cyc (2 ^ p) h i) 0); [lia|].
  unfold get_checked. rewrite at_nth_error by lia. cbn [bind].
  destruct (at_ T (cyc (2 ^ p) h i)) as [k v] eqn:EA.
  destruct (Z.eq_dec d 0) as [->|N].
  - rewrite Z.add_0_r in *. rewrite EA in *. unfold emptyb in ST. cbn [fst] in *. rewrite ST. auto.
  - pose proof (NS 0 ltac:(lia)) as S0. rewrite Z.add_0_r, EA in S0. unfold emptyb in S0. cbn [fst] in S0.
    rewrite S0. rewrite cyc_next by auto. replace (i + d) with ((i + 1) + (d - 1)) by lia.
    apply IHfuel; try lia.
    + intros d' Hd'. replace (i + 1 + d') with (i + (d' + 1)) by lia. apply NS. lia.
    + replace (i + 1 + (d - 1)) with (i + d) by lia. auto.
Qed.

(** An empty slot exists when there are fewer live slots than slots. *)
Lemma exists_empty : forall T, (length (live T) < length T)%nat -> exists j, 0 <= j < Z.of_nat (length T) /\ fst (at_ T j) = usize_max.
Proof.
  induction T as [|[k v] T IH]; simpl; intros H; [lia|].
  destruct (Z.eqb_spec k usize_max) as [E|N].
  - exists 0. split; [lia|]. exact E.
  - change (filter _ T) with (live T) in H. simpl in H. destruct IH as (j & R & E); [lia|]. exists (j + 1). split; [lia|].
    unfold at_ in *. replace (Z.to_nat (j + 1)) with (S (Z.to_nat j)) by lia. exact E.
Qed.

Lemma live_upd_empty : forall T n s, (n < length T)%nat -> fst (nth n T (usize_max, f0)) = usize_max ->
  fst s <> usize_max -> Permutation (s :: live T) (live (upd T n s)).
Proof.
  induction T as [|[k v] T IH]; intros n s L E N; simpl in *; [lia|]. destruct n as [|n]; simpl in *.
  - rewrite E, Z.eqb_refl. simpl. destruct (Z.eqb_spec (fst s) usize_max); [congruence|]. simpl. auto.
  - destruct (k =? usize_max); simpl.
    + apply IH; auto. lia.
    + rewrite perm_swap. constructor. apply IH; auto. lia.
Qed.

Lemma live_upd_live : forall T n s, (n < length T)%nat -> fst (nth n T (usize_max, f0)) <> usize_max -> fst s <> usize_max ->
  exists R, Permutation (live T) (nth n T (usize_max, f0) :: R) /\ Permutation (live (upd T n s)) (s :: R).
Proof.
  induction T as [|[k v] T IH]; intros n s L E N; simpl in *; [lia|]. destruct n as [|n]; simpl in *.
  - exists (live T). destruct (Z.eqb_spec k usize_max); [congruence|]. destruct (Z.eqb_spec (fst s) usize_max); [congruence|].
    simpl. auto.
  - destruct (IH n s) as (R & P1 & P2); auto; [lia|].
    destruct (k =? usize_max); simpl.
    + exists R. auto.
    + exists ((k, v) :: R). fold (live T) (live (upd T n s)). rewrite P1, P2. split; apply perm_swap.
Qed.

Lemma at_upd : forall T j j' s, 0 <= j < Z.of_nat (length T) -> 0 <= j' ->
  at_ (upd T (Z.to_nat j) s) j' = if j =? j' then s else at_ T j'.
Proof.
  intros T j j' s R R'. unfold at_. rewrite nth_upd by lia.
  destruct (Z.eqb_spec j j'); destruct (Nat.eqb_spec (Z.to_nat j) (Z.to_nat j')); auto; lia.
Qed.

Lemma in_live : forall T s, In s (live T) <-> exists j, 0 <= j < Z.of_nat (length T) /\ at_ T j = s /\ fst s <> usize_max.
Proof.
  intros T s. unfold live. rewrite filter_In. split.
  - intros [I N]. apply In_nth with (d := (usize_max, f0)) in I. destruct I as (n & L & E).
    exists (Z.of_nat n). split; [lia|]. unfold at_. rewrite Nat2Z.id. split; auto.
    intros E'. rewrite E' in N. rewrite Z.eqb_refl in N. discriminate.
  - intros (j & R & E & N). split.
    + rewrite <- E. apply nth_In. lia.
    + apply negb_true_iff, Z.eqb_neq. auto.
Qed.

(** Putting a new key into the first empty slot of its probe sequence. *)
Lemma wft_add : forall p T key v i, wft p T -> key <> usize_max -> ~ In key (map fst (live T)) ->
  0 <= i < 2 ^ p -> fst (at_ T (cyc (2 ^ p) (hash key) i)) = usize_max ->
  (forall i', 0 <= i' < i -> fst (at_ T (cyc (2 ^ p) (hash key) i')) <> usize_max) ->
  wft p (upd T (Z.to_nat (cyc (2 ^ p) (hash key) i)) (key, v)) /\
  Permutation ((key, v) :: live T) (live (upd T (Z.to_nat (cyc (2 ^ p) (hash key) i)) (key, v))).
Proof.
  intros p T key v i W NK NI RI EM PRE. set (j := cyc (2 ^ p) (hash key) i) in *.
  pose proof (w_p _ _ W) as P. pose proof (w_len _ _ W) as L.
  assert (RJ : 0 <= j < 2 ^ p) by (apply cyc_range; auto).
  assert (PM : Permutation ((key, v) :: live T) (live (upd T (Z.to_nat j) (key, v)))).
  { apply live_upd_empty; auto. lia. }
  split; auto. constructor; auto.
  - rewrite upd_length. auto.
  - eapply Permutation_NoDup; [apply Permutation_map; exact PM|]. simpl. constructor; auto. apply (w_nodup _ _ W).
  - intros j1 R1. rewrite at_upd by lia. destruct (Z.eqb_spec j j1) as [E1|N1].
    + intros _. cbn [fst]. exists i. split; [lia|]. split; [subst j1; reflexivity|].
      intros i' Hi'. rewrite at_upd by (try lia; apply cyc_range; auto).
      destruct (_ =? _); auto.
    + intros NE. destruct (w_reach _ _ W j1 R1 NE) as (i1 & RI1 & EJ & PR).
      exists i1. split; auto. split; auto. intros i' Hi'. rewrite at_upd by (try lia; apply cyc_range; auto).
      destruct (_ =? _); auto.
Qed.

(** If the key is present, the probe cannot meet an empty slot before it. *)
Lemma reach_before_empty : forall p T key i, wft p T -> key <> usize_max -> In key (map fst (live T)) ->
  0 <= i < 2 ^ p -> fst (at_ T (cyc (2 ^ p) (hash key) i)) = usize_max ->
  exists i', 0 <= i' < i /\ fst (at_ T (cyc (2 ^ p) (hash key) i')) = key.
Proof.
  intros p T key i W NK I RI EM. apply in_map_iff in I. destruct I as (s & Es & Is).
  apply in_live in Is. destruct Is as (j & RJ & EJ & NJ).
  pose proof (w_len _ _ W). destruct (w_reach _ _ W j ltac:(lia) ltac:(congruence)) as (i1 & R1 & Ej & PR).
  rewrite EJ, Es in Ej, PR. exists i1. split.
  - destruct (Z_lt_le_dec i1 i); [lia|]. exfalso. destruct (Z.eq_dec i1 i).
    + subst i1. rewrite <- Ej, EJ in EM. congruence.
    + apply (PR i); [lia|auto].
  - rewrite <- Ej, EJ. auto.
Qed.

Lemma wft_new : forall p, 0 <= p -> wft p (repeat (usize_max, f0) (Z.to_nat (2 ^ p))) /\
  live (repeat (usize_max, f0) (Z.to_nat (2 ^ p))) = [].
Proof.
  intros p P. pose proof (pow2_pos p P).
  assert (LE : forall n, live (repeat (usize_max, f0) n) = []).
  { induction n; auto. }
  split; auto. constructor; auto.
  - rewrite repeat_length. lia.
  - rewrite LE. constructor.
  - intros j RJ N. exfalso. apply N. unfold at_. rewrite nth_repeat. auto.
Qed.

(** ** Growing *)
Lemma rehash_one_ok : forall p T s, wft p T -> (length (live T) < length T)%nat ->
  (fst s = usize_max -> rehash_one (2 ^ p - 1) T s = Ok T) /\
  (fst s <> usize_max -> ~ In (fst s) (map fst (live T)) ->
     exists T', rehash_one (2 ^ p - 1) T s = Ok T' /\ wft p T' /\ Permutation (s :: live T) (live T')).
Proof.
  intros p T [k v] W LV. unfold rehash_one. cbn [fst]. split.
  - intros ->. rewrite Z.eqb_refl. auto.
  - intros N NI. destruct (Z.eqb_spec k usize_max); [congruence|].
    pose proof (w_p _ _ W) as P. pose proof (w_len _ _ W) as L. pose proof (pow2_pos p P).
    destruct (exists_empty T LV) as (j & RJ & EJ).
    destruct (cyc_surj p (hash k) j P ltac:(lia)) as (i0 & RI0 & EI0).
    destruct (first_stop (fun i => emptyb (at_ T (cyc (2 ^ p) (hash k) i))) (Z.to_nat (2 ^ p)) 0) as (i & RI & SI & MI).
    { exists i0. split; [lia|]. rewrite EI0. unfold emptyb. apply Z.eqb_eq. auto. }
    rewrite land_mask by auto. replace (hash k mod 2 ^ p) with (cyc (2 ^ p) (hash k) 0) by (unfold cyc; f_equal; lia).
    rewrite (probe_empty_ok p T (hash k) 0 i (length T)); auto; try lia.
    cbn [bind]. rewrite Z.add_0_l. unfold emptyb in SI. apply Z.eqb_eq in SI.
    destruct (wft_add p T k v i W N NI ltac:(lia) SI) as [W' P'].
    { intros i' Hi' E. specialize (MI i' ltac:(lia)). unfold emptyb in MI. apply Z.eqb_neq in MI. auto. }
    eexists. split; [reflexivity|]. auto.
Qed.

Lemma rehash_ok : forall p S T, wft p T -> NoDup (map fst (live S)) ->
  (forall k, In k (map fst (live S)) -> ~ In k (map fst (live T))) ->
  (length (live S) + length (live T) < length T)%nat ->
  exists T', foldM (rehash_one (2 ^ p - 1)) S T = Ok T' /\ wft p T' /\ Permutation (live S ++ live T) (live T') /\ length T' = length T.
Proof.
  induction S as [|[k v] S IH]; intros T W ND DJ LN.
  - exists T. simpl. auto.
  - simpl foldM. destruct (rehash_one_ok p T (k, v) W) as [R1 R2]; [lia|].
    destruct (Z.eq_dec k usize_max) as [->|N].
    + rewrite R1 by auto. cbn [bind]. assert (live ((usize_max, v) :: S) = live S) as EL by reflexivity.
      rewrite EL in *. apply IH; auto.
    + assert (EL : live ((k, v) :: S) = (k, v) :: live S).
      { simpl. destruct (Z.eqb_spec k usize_max); [congruence|]. auto. }
      rewrite EL in *. simpl in ND, DJ, LN. inv ND.
      destruct (R2 N (DJ k (or_introl eq_refl))) as (T1 & E1 & W1 & P1).
      rewrite E1. cbn [bind].
      pose proof (Permutation_length P1) as PL. simpl in PL.
      assert (LT : length T1 = length T). { pose proof (w_len _ _ W1). pose proof (w_len _ _ W). lia. }
      destruct (IH T1) as (T' & E' & W' & P' & L'); auto.
      { intros k' I' I. apply Permutation_in with (l' := map fst ((k, v) :: live T)) in I.
        - simpl in I. destruct I as [<-|I]; [auto|]. apply (DJ k'); auto.
        - apply Permutation_map. symmetry. auto. }
      { rewrite LT. lia. }
      exists T'. split; auto. split; auto. split; [|congruence].
      rewrite <- P', <- P1. simpl. apply Permutation_middle.
Qed.

(** ** The map invariant *)
Record hm_ok (m : Hm F) : Prop := {
  h_wft : exists p, 4 <= p /\ wft p (slots m) /\ mask m = 2 ^ p - 1;
  h_len : hlen m = Z.of_nat (length (live (slots m)));
  h_load : hlen m * 10 <= Z.of_nat (length (slots m)) * 7
}.

Lemma next_pow2_pow : forall n, exists p, 0 <= p /\ next_pow2 n = 2 ^ p.
Proof.
  intros n. unfold next_pow2. destruct (n <=? 1).
  - exists 0. split; [lia|reflexivity].
  - exists (Z.log2_up n). split; [apply Z.log2_up_nonneg|auto].
Qed.

Lemma with_capacity_ok : forall cap, hm_ok (with_capacity cap) /\ pairs (with_capacity (F:=F) cap) = [].
Proof.
  intros cap. unfold with_capacity.
  assert (exists p, 4 <= p /\ Z.max (next_pow2 cap) 16 = 2 ^ p) as (p & P & E).
  { destruct (next_pow2_pow cap) as (p & P & ->). exists (Z.max p 4). split; [lia|].
    change 16 with (2 ^ 4). destruct (Z.max_spec p 4) as [[H ->]|[H ->]].
    - apply Z.max_r. apply Z.pow_le_mono_r; lia.
    - apply Z.max_l. apply Z.pow_le_mono_r; lia. }
  rewrite E. destruct (wft_new p ltac:(lia)) as [W L]. split.
  - constructor; cbn [slots mask hlen].
    + exists p. auto.
    + rewrite L. auto.
    + lia.
  - exact L.
Qed.

Lemma grow_ok : forall m p, 4 <= p -> wft p (slots m) -> hlen m = Z.of_nat (length (live (slots m))) ->
  hlen m < Z.of_nat (length (slots m)) -> (hlen m * 10 <= Z.of_nat (length (slots m)) * 14) ->
  exists m', grow m = Ok m' /\ hm_ok m' /\ Permutation (pairs m) (pairs m').
Proof.
  intros m p P W HL LT HB. unfold grow. pose proof (w_len _ _ W) as L.
  rewrite L. replace (2 ^ p * 2) with (2 ^ (p + 1)) by (rewrite Z.pow_add_r by lia; lia).
  destruct (wft_new (p + 1) ltac:(lia)) as [W0 L0]. pose proof (pow2_pos p ltac:(lia)).
  assert (E2 : 2 ^ (p + 1) = 2 * 2 ^ p) by (rewrite Z.pow_add_r by lia; lia).
  destruct (rehash_ok (p + 1) (slots m) _ W0 (w_nodup _ _ W)) as (T' & E & W' & P' & LT').
  { rewrite L0. simpl. auto. }
  { rewrite L0, repeat_length. simpl. lia. }
  rewrite E. cbn [bind]. eexists. split; [reflexivity|]. rewrite L0, app_nil_r in P'.
  split; [|exact P']. constructor; cbn [slots mask hlen].
  - exists (p + 1). split; [lia|]. auto.
  - rewrite HL. rewrite (Permutation_length P'). auto.
  - rewrite (w_len _ _ W'). lia.
Qed.

(** What one insertion does to the multiset of pairs. *)
Definition upsert (P P' : list slot) (key : Z) (v : F) : Prop :=
  (~ In key (map fst P) /\ Permutation P' ((key, v) :: P)) \/
  (exists old R, Permutation P ((key, old) :: R) /\ Permutation P' ((key, fadd old v) :: R)).

Lemma insert_add_ok : forall m key v, hm_ok m -> key <> usize_max ->
  exists m', insert_add m (key, v) = Ok m' /\ hm_ok m' /\ upsert (pairs m) (pairs m') key v.
Proof.
  intros m key v [(p & P & W & HM) HL HB] NK. unfold insert_add.
  pose proof (w_len _ _ W) as L. pose proof (pow2_pos p ltac:(lia)) as PP.
  assert (P16 : 16 <= 2 ^ p) by (change 16 with (2 ^ 4); apply Z.pow_le_mono_r; lia).
  assert (LV : (length (live (slots m)) < length (slots m))%nat) by lia.
  destruct (exists_empty _ LV) as (j & RJ & EJ).
  destruct (cyc_surj p (hash key) j ltac:(lia) ltac:(lia)) as (i0 & RI0 & EI0).
  destruct (first_stop (fun i => stopb key (at_ (slots m) (cyc (2 ^ p) (hash key) i))) (Z.to_nat (2 ^ p)) 0) as (i & RI & SI & MI).
  { exists i0. split; [lia|]. rewrite EI0. unfold stopb. apply orb_true_iff. left. apply Z.eqb_eq. auto. }
  rewrite HM, land_mask by lia.
  replace (hash key mod 2 ^ p) with (cyc (2 ^ p) (hash key) 0) by (unfold cyc; f_equal; lia).
  rewrite (probe_ok p (slots m) key (hash key) 0 i (length (slots m))); auto; try lia.
  cbn [bind]. rewrite Z.add_0_l. set (jj := cyc (2 ^ p) (hash key) i) in *.
  assert (RJJ : 0 <= jj < 2 ^ p) by (apply cyc_range; lia).
  destruct (Z.eqb_spec (fst (at_ (slots m) jj)) usize_max) as [EM|NM].
  - assert (NI : ~ In key (map fst (live (slots m)))).
    { intros I. destruct (reach_before_empty p (slots m) key i W NK I ltac:(lia) EM) as (i' & R' & E').
      specialize (MI i' ltac:(lia)). unfold stopb in MI. rewrite E', Z.eqb_refl, orb_true_r in MI. discriminate. }
    destruct (wft_add p (slots m) key v i W NK NI ltac:(lia) EM) as [W' P'].
    { intros i' Hi' E'. specialize (MI i' ltac:(lia)). unfold stopb in MI. rewrite E', Z.eqb_refl in MI. discriminate. }
    fold jj in W', P'.
    set (m1 := mkHm (upd (slots m) (Z.to_nat jj) (key, v)) (2 ^ p - 1) (hlen m + 1)).
    assert (HL1 : hlen m1 = Z.of_nat (length (live (slots m1)))).
    { unfold m1. cbn [hlen slots]. pose proof (Permutation_length P') as PL. cbn [length] in PL. lia. }
    cbn [hlen]. cbn zeta. rewrite upd_length. change (hlen m1) with (hlen m + 1).
    destruct (Z.gtb_spec ((hlen m + 1) * 10) (Z.of_nat (length (slots m)) * 7)) as [G|NG].
    + destruct (grow_ok m1 p P W' HL1) as (m' & E' & OK' & PP').
      { unfold m1; cbn [hlen slots]. rewrite upd_length. lia. }
      { unfold m1; cbn [hlen slots]. rewrite upd_length. lia. }
      exists m'. split; [exact E'|]. split; auto. left. split; auto.
      rewrite <- PP'. symmetry. exact P'.
    + exists m1. split; [reflexivity|]. split.
      * constructor; auto; unfold m1; cbn [hlen slots mask].
        -- exists p. auto.
        -- rewrite upd_length. lia.
      * left. split; auto. symmetry. exact P'.
  - assert (EK : fst (at_ (slots m) jj) = key).
    { unfold stopb in SI. apply orb_true_iff in SI. destruct SI as [SI|SI]; apply Z.eqb_eq in SI; congruence. }
    unfold zslot. destruct (Z.ltb_spec jj 0); [lia|]. unfold get_unchecked. rewrite at_nth_error by lia. cbn [bind].
    destruct (at_ (slots m) jj) as [k old] eqn:EA. cbn [fst] in *. subst k.
    destruct (live_upd_live (slots m) (Z.to_nat jj) (key, fadd old v)) as (R & P1 & P2); auto.
    { lia. } { unfold at_ in EA. rewrite EA. auto. }
    unfold at_ in EA. rewrite EA in P1.
    eexists. split; [reflexivity|]. split.
    + constructor; cbn [slots mask hlen].
      * exists p. split; auto. split; auto. constructor; [lia|rewrite upd_length; auto| |].
        -- eapply Permutation_NoDup; [apply Permutation_map; symmetry; exact P2|]. simpl.
           pose proof (w_nodup _ _ W) as ND. eapply Permutation_NoDup in ND; [|apply Permutation_map; exact P1]. exact ND.
        -- assert (EF : forall j', 0 <= j' -> fst (at_ (upd (slots m) (Z.to_nat jj) (key, fadd old v)) j') = fst (at_ (slots m) j')).
           { intros j' Hj'. rewrite at_upd by lia. destruct (Z.eqb_spec jj j'); auto. subst j'. unfold at_. rewrite EA. auto. }
           intros j' Rj'. rewrite EF by lia. intros NE. destruct (w_reach _ _ W j' Rj' NE) as (i1 & R1 & E1 & PR).
           exists i1. split; auto. split; auto. intros i' Hi'. rewrite EF by (apply cyc_range; lia). auto.
      * rewrite HL. rewrite (Permutation_length P1), (Permutation_length P2). auto.
      * rewrite upd_length. auto.
    + right. exists old, R. auto.
Qed.

(** ** Sequences of insertions *)
Definition tally (ops P : list slot) : Prop :=
  NoDup (map fst P) /\ forall k, at_index k P = left_sum (at_index k ops).

Lemma at_index_NoDup : forall k (P : list slot), NoDup (map fst P) -> at_index k P = [] \/ exists v, at_index k P = [v].
Proof.
  induction P as [|[k' v] P IH]; simpl; intros ND; [left; reflexivity|]. inv ND.
  rewrite at_index_cons'. destruct (Z.eqb_spec k' k) as [->|]; auto.
  right. exists v. f_equal. unfold at_index. rewrite filter_none; auto.
  apply Forall_forall. intros [k1 v1] I. simpl. apply Z.eqb_neq. intros ->. apply H1. apply (in_map fst) in I. exact I.
Qed.

Lemma perm_single : forall {A} (l l' : list A) , Permutation l l' -> (l = [] \/ exists v, l = [v]) -> l' = l.
Proof.
  intros A l l' P [->|[v ->]].
  - apply Permutation_nil. auto.
  - apply Permutation_length_1_inv. auto.
Qed.

Lemma left_sum_snoc : forall (l : list F) x, left_sum (l ++ [x]) = match left_sum l with [] => [x] | s :: _ => [fadd s x] end.
Proof. intros [|v l] x; simpl; auto. rewrite fold_left_app. auto. Qed.

Lemma tally_upsert : forall ops P P' key v, tally ops P -> upsert P P' key v -> tally (ops ++ [(key, v)]) P'.
Proof.
  intros ops P P' key v [ND AT] [[NI PP]|(old & R & P1 & P2)].
  - assert (ND' : NoDup (map fst P')).
    { eapply Permutation_NoDup; [apply Permutation_map; symmetry; exact PP|]. simpl. constructor; auto. }
    split; auto. intros k. rewrite at_index_app', at_index_cons'. change (at_index k (@nil slot)) with (@nil F).
    assert (E : at_index k P' = at_index k ((key, v) :: P)).
    { apply perm_single.
      - apply at_index_perm. symmetry. auto.
      - apply at_index_NoDup. simpl. constructor; auto. }
    rewrite E, at_index_cons'. destruct (Z.eqb_spec key k) as [EK|NK].
    + subst k. rewrite left_sum_snoc, <- AT.
      assert (at_index key P = []) as ->; auto. unfold at_index. rewrite filter_none; auto.
      apply Forall_forall. intros [k1 v1] I. simpl. apply Z.eqb_neq. intros ->. apply NI. apply (in_map fst) in I. exact I.
    + rewrite app_nil_r. auto.
  - assert (ND1 : NoDup (map fst ((key, old) :: R))) by (eapply Permutation_NoDup; [apply Permutation_map; exact P1|auto]).
    assert (ND' : NoDup (map fst P')) by (eapply Permutation_NoDup; [apply Permutation_map; symmetry; exact P2|exact ND1]).
    split; auto. intros k. rewrite at_index_app', at_index_cons'. change (at_index k (@nil slot)) with (@nil F).
    assert (E : at_index k P' = at_index k ((key, fadd old v) :: R)).
    { apply perm_single; [apply at_index_perm; symmetry; auto|apply at_index_NoDup; exact ND1]. }
    assert (E' : at_index k P = at_index k ((key, old) :: R)).
    { apply perm_single; [apply at_index_perm; symmetry; auto|apply at_index_NoDup; exact ND1]. }
    rewrite E, at_index_cons'. rewrite at_index_cons' in E'. destruct (Z.eqb_spec key k) as [EK|NK].
    + subst k. rewrite left_sum_snoc, <- AT, E'. f_equal.
      simpl in ND1. inv ND1. unfold at_index. rewrite filter_none; auto.
      apply Forall_forall. intros [k1 v1] I. simpl. apply Z.eqb_neq. intros ->. apply H1. apply (in_map fst) in I. exact I.
    + rewrite app_nil_r, <- AT. auto.
Qed.

Lemma insert_all_ok : forall ops ops0 m, hm_ok m -> tally ops0 (pairs m) -> Forall (fun e => fst e <> usize_max) ops ->
  exists m', foldM insert_add ops m = Ok m' /\ hm_ok m' /\ tally (ops0 ++ ops) (pairs m').
Proof.
  induction ops as [|[k v] ops IH]; intros ops0 m OK TA FA.
  - exists m. rewrite app_nil_r. simpl. auto.
  - inv FA. cbn [foldM]. destruct (insert_add_ok m k v OK H1) as (m1 & E1 & OK1 & U1). rewrite E1. cbn [bind].
    destruct (IH (ops0 ++ [(k, v)]) m1) as (m' & E' & OK' & T'); auto.
    { eapply tally_upsert; eauto. }
    rewrite <- app_assoc in T'. exists m'. auto.
Qed.

Lemma accumulate_ok : forall cap ops, Forall (fun e : slot => fst e <> usize_max) ops ->
  exists m, accumulate cap ops = Ok m /\ hm_ok m /\ tally ops (pairs m).
Proof.
  intros cap ops FA. destruct (with_capacity_ok cap) as [OK EP].
  apply (insert_all_ok ops [] (with_capacity cap)); auto.
  rewrite EP. split; [constructor|]. auto.
Qed.

Lemma at_index_nil_iff : forall k (l : list slot), at_index k l = [] <-> ~ In k (map fst l).
Proof.
  intros k l. induction l as [|[k' v] l IH]; simpl.
  - split; auto.
  - rewrite at_index_cons'. destruct (Z.eqb_spec k' k).
    + split; [discriminate|]. intros H. exfalso. auto.
    + rewrite IH. intuition.
Qed.

Lemma tally_keys : forall ops P k, tally ops P -> (In k (map fst P) <-> In k (map fst ops)).
Proof.
  intros ops P k [_ AT]. specialize (AT k).
  destruct (in_dec Z.eq_dec k (map fst P)) as [I|N]; destruct (in_dec Z.eq_dec k (map fst ops)) as [I'|N']; try tauto.
  - apply at_index_nil_iff in N'. rewrite N' in AT. simpl in AT. apply at_index_nil_iff in AT. tauto.
  - apply at_index_nil_iff in N. rewrite N in AT. exfalso.
    destruct (at_index k ops) eqn:E; [|discriminate]. apply at_index_nil_iff in E. auto.
Qed.

(** ** Draining *)
Lemma drain_slots : forall S out, NoDup (map fst (live S)) ->
  Forall (fun s => 0 <= fst s < Z.of_nat (length out)) (live S) ->
  exists out', foldM (fun out s =>
      if fst s =? usize_max then Ok out
      else if fst s <? 0 then UB
        else let! v := get_unchecked out (Z.to_nat (fst s)) in
             Ok (upd out (Z.to_nat (fst s)) (fadd v (snd s)))) S out = Ok out' /\
    length out' = length out /\
    forall n d, (n < length out)%nat ->
      nth n out' d = match at_index (Z.of_nat n) (live S) with [] => nth n out d | s :: _ => fadd (nth n out d) s end.
Proof.
  induction S as [|[k v] S IH]; intros out ND FA.
  - exists out. simpl. auto.
  - simpl foldM. cbn [fst snd]. destruct (Z.eqb_spec k usize_max) as [E|N].
    + assert (live ((k, v) :: S) = live S) as EL by (simpl; rewrite (proj2 (Z.eqb_eq _ _) E); auto).
      rewrite EL in *. cbn [bind]. apply IH; auto.
    + assert (EL : live ((k, v) :: S) = (k, v) :: live S) by (simpl; rewrite (proj2 (Z.eqb_neq _ _) N); auto).
      rewrite EL in *. simpl in ND. inv ND. inv FA. cbn [fst] in *.
      destruct (Z.ltb_spec k 0); [lia|]. unfold get_unchecked.
      destruct (nth_error out (Z.to_nat k)) as [x|] eqn:EX; [|apply nth_error_None in EX; lia]. cbn [bind].
      destruct (IH (upd out (Z.to_nat k) (fadd x v))) as (out' & E' & L' & A'); auto.
      { rewrite upd_length. auto. }
      exists out'. split; auto. rewrite upd_length in *. split; auto. intros n d Hn. rewrite A' by auto.
      rewrite at_index_cons'. rewrite nth_upd by lia. destruct (Z.eqb_spec k (Z.of_nat n)) as [EK|NK].
      * destruct (Nat.eqb_spec (Z.to_nat k) n); [|lia]. 
        assert (at_index (Z.of_nat n) (live S) = []) as ->. { apply at_index_nil_iff. rewrite <- EK. auto. }
        f_equal. apply nth_error_nth with (d := d) in EX. subst n. auto.
      * destruct (Nat.eqb_spec (Z.to_nat k) n); [lia|]. auto.
Qed.

End Hash.
