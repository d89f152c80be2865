(** Proofs about the broadcasting product. *)
Require Import List ZArith Bool Lia Permutation Sorted Arith.
Require Import Verif.Res Verif.Values Verif.Spec Verif.Mem Verif.Lists Verif.NdLib Verif.PConvert Verif.MConvert Verif.MScalar Verif.PScalar Verif.MHash Verif.PHash Verif.MNd Verif.PNd Verif.PNd2 Verif.PNd3 Verif.Loops Verif.MNd2.
Import ListNotations.
Local Open Scope Z_scope.

(** ** Masked dimensions *)
Fixpoint masked (mask : list bool) (l : list Z) : list Z :=
  match mask, l with
  | true :: mask', x :: l' => x :: masked mask' l'
  | false :: mask', _ :: l' => masked mask' l'
  | _, _ => []
  end.
Fixpoint isfx (mask : list bool) (sh : list Z) : list Z :=
  match mask, sh with
  | m :: mask', _ :: sh' => (if m : bool then cells (masked mask' sh') else 0) :: isfx mask' sh'
  | _, _ => []
  end.

Lemma cells_masked : forall sh, Forall (fun n => 0 < n) sh -> forall mask, 0 < cells (masked mask sh) <= cells sh.
Proof.
  induction 1 as [|n sh H HF IH]; intros [|[] mask]; cbn [masked].
  - unfold cells; simpl; lia.
  - unfold cells; simpl; lia.
  - unfold cells; simpl; lia.
  - change (cells (n :: sh)) with (n * cells sh). pose proof (cells_pos _ HF). change (cells []) with 1. nia.
  - change (cells (n :: sh)) with (n * cells sh). change (cells (n :: masked mask sh)) with (n * cells (masked mask sh)). specialize (IH mask). nia.
  - change (cells (n :: sh)) with (n * cells sh). specialize (IH mask). nia.
Qed.

Lemma inter_strides_ok : forall sh mask, Forall (fun n => 0 < n) sh -> cells sh <= usize_max -> length mask = length sh ->
  inter_strides (combine mask sh) = Ok (isfx mask sh, cells (masked mask sh)).
Proof.
  induction sh as [|n sh IH]; intros [|m mask] HF HC HL; try discriminate; auto.
  inv HF. pose proof (cells_pos _ H2) as CP. change (cells (n :: sh)) with (n * cells sh) in HC.
  cbn [combine inter_strides]. rewrite IH by (auto; nia). cbn [bind isfx masked]. destruct m; auto.
  pose proof (cells_masked sh H2 mask) as CM. rewrite checked_mul_ok by nia. cbn [bind].
  change (cells (n :: masked mask sh)) with (n * cells (masked mask sh)). rewrite (Z.mul_comm (cells (masked mask sh))). auto.
Qed.

Lemma masked_in_shape : forall sh k, in_shape sh k -> forall mask, in_shape (masked mask sh) (masked mask k).
Proof. unfold in_shape. induction 1; intros [|[] mask]; simpl; try constructor; auto. Qed.

Lemma inter_key_ok : forall sh k mask, in_shape sh k -> length mask = length sh -> cells (masked mask sh) <= usize_max ->
  inter_key mask (isfx mask sh) k = Ok (position (masked mask sh) (masked mask k)).
Proof.
  intros sh k mask IK HL HC. unfold inter_key.
  assert (G : forall acc, 0 <= acc -> acc + position (masked mask sh) (masked mask k) <= usize_max ->
    foldM (fun key mx => if fst mx : bool then let! p := checked_mul (as_usize (snd (snd mx))) (fst (snd mx)) in checked_add key p else Ok key)
       (combine mask (combine (isfx mask sh) k)) acc = Ok (acc + position (masked mask sh) (masked mask k))).
  { clear HC. revert mask HL. induction IK as [|x n k sh [H1 H2] IK IH]; intros [|m mask] HL acc HA HB; try discriminate.
    - cbn [combine foldM masked position]. f_equal. lia.
    - cbn [length] in HL. cbn [isfx combine foldM]. destruct m; cbn [fst snd].
      + cbn [masked position] in *. pose proof (position_bounds _ _ (masked_in_shape _ _ IK mask)) as PB.
        rewrite as_usize_id by lia. rewrite checked_mul_ok by nia. cbn [bind]. rewrite checked_add_ok by nia. cbn [bind].
        rewrite IH by (auto; nia). f_equal. lia.
      + cbn [masked] in *. cbn [bind]. apply IH; auto. }
  rewrite G; [auto|lia|]. pose proof (position_bounds _ _ (masked_in_shape _ _ IK mask)). lia.
Qed.

(** ** Grouping entries by key *)
Definition grp (key_of : nat -> Z) (key : Z) (l : list nat) : list nat := filter (fun k => key_of k =? key) l.
Definition opt_list {X} (l : list X) : option (list X) := match l with [] => None | _ => Some l end.

Lemma entry_push_ok : forall m key k, NoDup (map fst m) ->
  NoDup (map fst (entry_push m key k)) /\
  (forall q, In q (map fst (entry_push m key k)) <-> q = key \/ In q (map fst m)) /\
  forall q, map_get (entry_push m key k) q = if q =? key then Some (match map_get m key with Some v => v | None => [] end ++ [k]) else map_get m q.
Proof.
  unfold map_get. induction m as [|[k0 v] m IH]; intros key k ND.
  - cbn. split; [repeat constructor; auto|]. split; [intuition|]. intros q. rewrite (Z.eqb_sym key q). destruct (q =? key); auto.
  - cbn [map fst] in ND. inv ND. cbn [entry_push]. destruct (Z.eqb_spec k0 key) as [->|N].
    + cbn [map fst]. split; [constructor; auto|]. split; [simpl; intuition|].
      intros q. cbn [find fst]. rewrite Z.eqb_refl. rewrite (Z.eqb_sym key q). destruct (q =? key); auto.
    + destruct (IH key k H2) as (N1 & I1 & G1). cbn [map fst]. split; [|split].
      * constructor; auto. rewrite I1. intuition.
      * intros q. cbn [In]. rewrite I1. intuition.
      * intros q. cbn [find fst]. destruct (Z.eqb_spec k0 q) as [->|N'].
        -- destruct (Z.eqb_spec q key); [contradiction|auto].
        -- rewrite G1. destruct (Z.eqb_spec k0 key); [contradiction|]. auto.
Qed.

Lemma group_ok : forall (f : nat -> res Z) (key_of : nat -> Z) l, (forall k, In k l -> f k = Ok (key_of k)) ->
  exists m, foldM (fun m k => let! key := f k in Ok (entry_push m key k)) l [] = Ok m /\
    NoDup (map fst m) /\ (forall q, In q (map fst m) <-> grp key_of q l <> []) /\
    forall q, map_get m q = opt_list (grp key_of q l).
Proof.
  intros f key_of l H.
  assert (G : forall l l0 m0, (forall k, In k l -> f k = Ok (key_of k)) -> NoDup (map fst m0) ->
     (forall q, In q (map fst m0) <-> grp key_of q l0 <> []) -> (forall q, map_get m0 q = opt_list (grp key_of q l0)) ->
     exists m, foldM (fun m k => let! key := f k in Ok (entry_push m key k)) l m0 = Ok m /\
       NoDup (map fst m) /\ (forall q, In q (map fst m) <-> grp key_of q (l0 ++ l) <> []) /\
       forall q, map_get m q = opt_list (grp key_of q (l0 ++ l))).
  { clear. induction l as [|k l IH]; intros l0 m0 H ND I0 G0.
    - exists m0. rewrite app_nil_r. auto.
    - cbn [foldM]. rewrite H by (simpl; auto). cbn [bind].
      destruct (entry_push_ok m0 (key_of k) k ND) as (N1 & I1 & G1).
      destruct (IH (l0 ++ [k]) (entry_push m0 (key_of k) k)) as (m & E & N & I & G); auto.
      + intros; apply H; simpl; auto.
      + intros q. rewrite I1, I0. unfold grp. rewrite filter_app. cbn [filter]. destruct (Z.eqb_spec (key_of k) q) as [E|N].
        * subst q. split; auto. intros _ E. apply app_eq_nil in E. destruct E. discriminate.
        * rewrite app_nil_r. split; auto. intros [E|E]; auto.
      + intros q. rewrite G1, (G0 (key_of k)), (G0 q). unfold grp. rewrite filter_app. cbn [filter].
        rewrite (Z.eqb_sym q). destruct (Z.eqb_spec (key_of k) q) as [E|N].
        * subst q. destruct (filter _ l0); auto.
        * rewrite app_nil_r. auto.
      + exists m. rewrite <- app_assoc in I, G. auto. }
  destruct (G l [] [] H) as (m & E & N & I & G1); auto.
  - constructor.
  - intros q. cbn. tauto.
  - exists m. auto.
Qed.

(** Filtering by index is filtering the list. *)
Lemma map_filter_map : forall {X Y Z} (g : X -> Y) (f : Y -> Z) (p : Y -> bool) l,
  map f (filter p (map g l)) = map (fun x => f (g x)) (filter (fun x => p (g x)) l).
Proof. induction l as [|x l IH]; auto. cbn [map filter]. destruct (p (g x)); cbn [map]; rewrite IH; auto. Qed.

Lemma map_nth_filter_seq : forall {X} (L : list X) d (p : X -> bool),
  map (fun k => nth k L d) (filter (fun k => p (nth k L d)) (seq 0 (length L))) = filter p L.
Proof.
  intros X L d p. induction L as [|x L IH]; auto.
  change (seq 0 (length (x :: L))) with (0%nat :: seq 1 (length L)). rewrite <- seq_shift.
  pose proof (map_filter_map S (fun k => nth k (x :: L) d) (fun k => p (nth k (x :: L) d)) (seq 0 (length L))) as E. cbv beta in E.
  change (fun x0 : nat => nth (S x0) (x :: L) d) with (fun x0 : nat => nth x0 L d) in E.
  change (fun x0 : nat => p (nth (S x0) (x :: L) d)) with (fun x0 : nat => p (nth x0 L d)) in E.
  rewrite IH in E. cbn [filter]. change (nth 0 (x :: L) d) with x. destruct (p x); auto.
  rewrite <- E. auto.
Qed.

(** At most one chunk sees the key, so chunked accumulation is plain accumulation. *)
Section OneChunk.
Context {F : Fl}.
Lemma left_sum_idem : forall l : list F, left_sum (left_sum l) = left_sum l.
Proof. destruct l; auto. Qed.
Lemma concat_map_nil : forall {X Y} (f : X -> list Y) l, (forall x, In x l -> f x = []) -> concat (map f l) = [].
Proof. induction l as [|x l IH]; intros H; auto. cbn [map concat]. rewrite H, IH; simpl; auto. intros. apply H. simpl. auto. Qed.

Lemma one_chunk : forall (f : Z -> list F) K cs, NoDup (concat cs) -> (forall key, key <> K -> f key = []) ->
  concat (map (fun c => left_sum (concat (map f c))) cs) = left_sum (concat (map f (concat cs))).
Proof.
  intros f K cs ND HK. induction cs as [|c cs IH]; auto. cbn [map concat] in *.
  rewrite map_app, concat_app.
  assert (ND' : NoDup (concat cs)) by (clear -ND; induction c; simpl in ND; auto; inv ND; auto).
  destruct (in_dec Z.eq_dec K c) as [I|N].
  - assert (NC : forall key, In key (concat cs) -> f key = []).
    { intros key IK. apply HK. intros ->. clear -ND I IK. induction c; [destruct I|]. simpl in ND. inv ND.
      destruct I as [<-|I]; auto. apply H1. apply in_or_app. auto. }
    rewrite IH by auto. rewrite (concat_map_nil f (concat cs)) by auto. rewrite !app_nil_r. auto.
  - rewrite (concat_map_nil f c) by (intros key IK; apply HK; congruence). cbn [left_sum app]. apply IH. auto.
Qed.
End OneChunk.

(** ** The accumulated map turned into an array *)
Section Finish.
Context {F : Fl}.
Implicit Types (A B C : Nd F).

Lemma finish_ok : forall srt g sh m ops, is_sorter pair_le srt -> sh <> [] -> cells sh <= usize_max ->
  tally ops (pairs m) -> Forall (fun p => exists k, in_shape sh k /\ position sh k = fst p) ops ->
  exists C, emit (sfx sh) sh (filter (fun p => g (snd p)) (sorted_pairs srt m)) = Ok C /\
    nd_ok C /\ nd_shape C = sh /\ nd_sorted C /\
    forall k, in_shape sh k -> nd_at C k = filter g (left_sum (at_index (position sh k) ops)).
Proof.
  intros srt g sh m ops HS N HC TA FA. pose proof TA as [ND AT]. destruct (HS (pairs m)) as [PM SS].
  assert (ND' : NoDup (map fst (srt (pairs m)))) by (eapply Permutation_NoDup; [apply Permutation_map; exact PM|auto]).
  destruct (emit_ok sh (filter (fun p => g (snd p)) (sorted_pairs srt m)) N) as (O & EE & EM & FO & OK & EN & SO).
  { apply Forall_forall. intros p I. apply filter_In in I. destruct I as [I _].
    apply Permutation_in with (l' := pairs m) in I; [|symmetry; exact PM].
    assert (I' : In (fst p) (map fst ops)) by (apply (tally_keys _ (pairs m)); auto; apply in_map; auto).
    apply in_map_iff in I'. destruct I' as (q & EQ & IQ). rewrite Forall_forall in FA. apply FA in IQ. rewrite <- EQ. auto. }
  { apply StronglySorted_filter. apply sorted_strict; auto. }
  exists (nd_of sh O). split; auto. split; auto. split; auto. split; auto.
  intros k IK. unfold nd_at. rewrite EN. rewrite <- (at_index_lin sh O k) by auto. rewrite EM.
  assert (TA' : tally ops (sorted_pairs srt m)).
  { split; auto. intros j. rewrite <- AT. unfold sorted_pairs. apply at_index_sorter; auto. }
  apply (tally_keep g _ _ _ TA').
Qed.

Lemma position_key_bound : forall sh (ops : list (Z * F)), cells sh <= usize_max ->
  Forall (fun p => exists k, in_shape sh k /\ position sh k = fst p) ops -> Forall (fun e => fst e <> usize_max) ops.
Proof. intros sh ops HC FA. eapply Forall_impl; [|exact FA]. intros p (k & IK & E). pose proof (position_bounds _ _ IK). lia. Qed.

Lemma at_index_concat : forall j (ls : list (list (Z * F))), at_index j (concat ls) = concat (map (at_index j) ls).
Proof. induction ls; auto. cbn [concat map]. rewrite <- IHls. unfold at_index. rewrite filter_app, map_app. auto. Qed.

(** ** Padded entries *)
Definition padk (d : nat) (k : list Z) : list Z := repeat 0 (d - length k) ++ k.
Definition pad_entries (d : nat) A : list (list Z * F) := map (fun e => (padk d (fst e), snd e)) (nd_entries A).

Lemma padk_in_shape : forall d sh k, (length sh <= d)%nat -> in_shape sh k -> in_shape (pad_shape d sh) (padk d k).
Proof.
  intros d sh k L IK. unfold pad_shape, padk. rewrite (in_shape_length _ _ IK). apply Forall2_app; auto.
  induction (d - length sh)%nat; simpl; constructor; auto. unfold i64_max. lia.
Qed.
Lemma pad_shape_length : forall d sh, (length sh <= d)%nat -> length (pad_shape d sh) = d.
Proof. intros. unfold pad_shape. rewrite app_length, repeat_length. lia. Qed.

Lemma pad_entries_shape : forall d A, nd_ok A -> (length (nd_shape A) <= d)%nat ->
  Forall (fun e => in_shape (pad_shape d (nd_shape A)) (fst e)) (pad_entries d A).
Proof.
  intros d A OK L. unfold pad_entries. rewrite Forall_map. eapply Forall_impl; [|apply nd_entries_ok; exact OK].
  intros e H. apply padk_in_shape; auto.
Qed.

Lemma mapM_pad : forall (key : list Z) d (g : nat -> res Z), (length key <= d)%nat ->
  (forall j, (j < length key)%nat -> g j = Ok (nth j key 0)) ->
  mapM (fun i => if (d - length key <=? i)%nat then g (i - (d - length key))%nat else Ok 0) (seq 0 d) = Ok (padk d key).
Proof.
  intros key d g L H.
  replace (seq 0 d) with (seq 0 (length (padk d key))) by (f_equal; unfold padk; rewrite app_length, repeat_length; lia).
  rewrite <- (map_id (padk d key)) at 2. apply mapM_seq. intros i x E. unfold padk in E.
  destruct (Nat.leb_spec (d - length key) i) as [LE|LT].
  - rewrite nth_error_app2 in E by (rewrite repeat_length; auto). rewrite repeat_length in E.
    rewrite H by (eapply nth_error_lt; eauto). f_equal. symmetry. apply nth_error_nth with (d := 0) in E. auto.
  - rewrite nth_error_app1 in E by (rewrite repeat_length; auto). apply nth_error_In in E. apply repeat_spec in E. subst. auto.
Qed.

Lemma normalize_ok : forall sch d A, is_schedule sch -> nd_ok A -> (length (nd_shape A) <= d)%nat ->
  normalize sch d A = Ok (concat (map fst (pad_entries d A))).
Proof.
  intros sch d A HS OK L. unfold normalize.
  set (h := fun e : list Z * F => padk d (fst e)).
  assert (LH : forall e, In e (nd_entries A) -> length (h e) = d).
  { intros e I. pose proof (nd_entries_ok A OK) as FA. rewrite Forall_forall in FA. apply FA in I.
    unfold h. rewrite (in_shape_length _ _ (padk_in_shape d _ _ L I)). apply pad_shape_length. auto. }
  assert (EM : mapM (fun k =>
      let! ks := mapM (fun i => if (d - length (nd_shape A) <=? i)%nat then get_checked (nd_idx A) (k * length (nd_shape A) + (i - (d - length (nd_shape A)))) else Ok 0) (seq 0 d) in
      Ok (key_writes d k ks)) (seq 0 (length (nd_dat A)))
    = Ok (map (fun ke => key_writes d (fst ke) (h (snd ke))) (combine (seq 0 (length (nd_entries A))) (nd_entries A)))).
  { rewrite <- nd_entries_length.
    assert (EL : length (combine (seq 0 (length (nd_entries A))) (nd_entries A)) = length (nd_entries A)) by (rewrite combine_length, seq_length; lia).
    rewrite <- EL at 1. apply mapM_seq. intros k [k' [key v]] E.
    apply nth_error_combine in E. destruct E as [E1 E2].
    assert (k' = k). { pose proof (nth_error_lt _ _ _ E2) as LK. apply nth_error_nth with (d := 0%nat) in E1. rewrite seq_nth in E1 by auto. lia. }
    subst k'. cbn [fst snd]. assert (I : In (key, v) (nd_entries A)) by (eapply nth_error_In; eauto).
    assert (EK : nth_error (nd_keys A) k = Some key) by (rewrite <- nd_entries_keys; apply map_nth_error with (f := fst) in E2; exact E2).
    pose proof (nd_entries_ok A OK) as FA. rewrite Forall_forall in FA. apply FA in I. cbn [fst] in I.
    rewrite <- (in_shape_length _ _ I) in *.
    rewrite (mapM_pad key d (fun j => get_checked (nd_idx A) (k * length key + j))).
    - reflexivity.
    - auto.
    - intros j Hj. rewrite (in_shape_length _ _ I) in *. unfold get_checked. rewrite (coord_nth A k key j OK EK Hj). auto. }
  rewrite EM. cbn [bind].
  set (PL := map h (nd_entries A)).
  assert (FL : Forall (fun l => length l = d) PL).
  { unfold PL. rewrite Forall_map. apply Forall_forall. auto. }
  assert (EP : map fst (pad_entries d A) = PL) by (unfold pad_entries; rewrite map_map; auto).
  rewrite EP.
  assert (LL : length (concat PL) = (length PL * d)%nat).
  { clear -FL. induction FL; auto. cbn [concat length]. rewrite app_length, IHFL. lia. }
  assert (EW : concat (map (fun ke => key_writes d (fst ke) (h (snd ke))) (combine (seq 0 (length (nd_entries A))) (nd_entries A)))
           = combine (seq 0 (length (concat PL))) (concat PL)).
  { rewrite LL. pose proof (concat_key_writes d PL 0 FL) as CW. rewrite Nat.mul_0_l in CW. rewrite <- CW.
    unfold PL. rewrite map_length. f_equal. generalize 0%nat. clear. induction (nd_entries A) as [|e l IH]; intros s; auto.
    cbn [length seq map combine]. f_equal. apply IH. }
  rewrite EW. rewrite <- nd_entries_length, <- (map_length h). fold PL. rewrite <- LL.
  apply assemble_perm. apply HS.
Qed.

Lemma norm_coords_ok : forall d (PL : list (list Z)) k key, Forall (fun l => length l = d) PL -> nth_error PL k = Some key ->
  norm_coords (concat PL) d k = Ok key.
Proof.
  intros d PL k key FL E. unfold norm_coords.
  assert (EK : nth_error (chunks d (length PL) (concat PL)) k = Some key) by (rewrite chunks_concat; auto).
  assert (LK : length key = d) by (rewrite Forall_forall in FL; apply FL; eapply nth_error_In; eauto).
  replace (seq 0 d) with (seq 0 (length key)) by (rewrite LK; auto). rewrite <- (map_id key) at 2. apply mapM_seq. intros i x Ei. unfold get_unchecked.
  assert (G : nth_error (concat PL) (k * d + i) = nth_error key i); [|rewrite G, Ei; auto].
  assert (HI : (i < d)%nat) by (apply nth_error_lt in Ei; lia).
  clear EK LK Ei. revert k E. induction FL as [|l PL H FL IH]; intros [|k] E; try discriminate.
  - inv E. cbn [concat]. rewrite nth_error_app1 by lia. auto.
  - cbn [concat]. rewrite nth_error_app2 by lia. replace (S k * d + i - length l)%nat with (k * d + i)%nat by lia. apply IH. auto.
Qed.

(** ** Combining two padded keys *)
Definition comb (ash : list Z) (pa pb : list Z) : list Z := map pick (combine ash (combine pa pb)).
Definition bsrc (sh k : list Z) : list Z := map (fun nx => if fst nx =? 1 then 0 else snd nx) (combine sh k).

Definition compat (a b : Z) : Prop := a = b \/ a = 1 \/ b = 1.

Lemma comb_in_shape : forall ash bsh pa pb, Forall2 compat ash bsh -> in_shape ash pa -> in_shape bsh pb ->
  in_shape (map (fun ab => bdim (fst ab) (snd ab)) (combine ash bsh)) (comb ash pa pb).
Proof.
  intros ash bsh pa pb CM. revert pa pb. induction CM as [|a b ash bsh C CM IH]; intros pa pb IA IB; inversion IA; inversion IB; subst.
  - constructor.
  - cbn [combine map comb fst snd pick]. constructor; [|apply IH; auto].
    unfold bdim. destruct (Z.eqb_spec a 1); auto.
Qed.

Lemma in_shape_cons_inv : forall n sh k, in_shape (n :: sh) k ->
  exists x k', k = x :: k' /\ (0 <= x < n /\ x <= i64_max) /\ in_shape sh k'.
Proof. intros n sh k H. inversion H; subst. eauto 6. Qed.

(** Two entries meet in output cell [k] and share their intersection key exactly
    when both are the sources of [k]. *)
Lemma comb_eq : forall ash bsh pa pb k, Forall2 compat ash bsh -> in_shape ash pa -> in_shape bsh pb ->
  in_shape (map (fun ab => bdim (fst ab) (snd ab)) (combine ash bsh)) k ->
  (comb ash pa pb = k /\ masked (inter_mask ash bsh) pa = masked (inter_mask ash bsh) pb) <-> (pa = bsrc ash k /\ pb = bsrc bsh k).
Proof.
  intros ash bsh pa pb k CM. revert pa pb k. unfold inter_mask.
  induction CM as [|a b ash bsh C CM IH]; intros pa pb k IA IB IK.
  - inversion IA; inversion IB; inversion IK; subst. cbn. tauto.
  - apply in_shape_cons_inv in IA. destruct IA as (xa & l & -> & XA & IA).
    apply in_shape_cons_inv in IB. destruct IB as (xb & l0 & -> & XB & IB).
    cbn [combine map fst snd] in IK. apply in_shape_cons_inv in IK. destruct IK as (xk & l1 & -> & XK & IK). unfold bdim in XK.
    specialize (IH _ _ _ IA IB IK). cbn [comb pick combine map masked bsrc fst snd] in *.
    fold (comb ash l l0). fold (bsrc ash l1). fold (bsrc bsh l1).
    destruct (Z.eqb_spec a 1) as [Ea|Na], (Z.eqb_spec b 1) as [Eb|Nb]; cbn [negb andb masked]; split.
    + intros [E1 E2]. inv E1. destruct (proj1 IH (conj eq_refl E2)) as [E3 E4]. rewrite <- E3, <- E4. split; f_equal; lia.
    + intros [E1 E2]. inv E1. inv E2. destruct (proj2 IH (conj eq_refl eq_refl)) as [E3 E4]. split; auto. f_equal; auto. lia.
    + intros [E1 E2]. inv E1. destruct (proj1 IH (conj eq_refl E2)) as [E3 E4]. rewrite <- E3, <- E4. split; f_equal; lia.
    + intros [E1 E2]. inv E1. inv E2. destruct (proj2 IH (conj eq_refl eq_refl)) as [E3 E4]. split; auto. f_equal; auto.
    + intros [E1 E2]. inv E1. destruct (proj1 IH (conj eq_refl E2)) as [E3 E4]. rewrite <- E3, <- E4. split; f_equal; lia.
    + intros [E1 E2]. inv E1. inv E2. destruct (proj2 IH (conj eq_refl eq_refl)) as [E3 E4]. split; auto. f_equal; auto.
    + intros [E1 E2]. injection E1 as E1 E1'. injection E2 as E2 E2'. destruct (proj1 IH (conj E1' E2')) as [E3 E4]. rewrite <- E3, <- E4. split; f_equal; lia.
    + intros [E1 E2]. injection E1 as E1 E1'. injection E2 as E2 E2'. destruct (proj2 IH (conj E1' E2')) as [E3 E4]. split; f_equal; auto. lia.
Qed.

(** The masked dimensions have the same size in both operands and in the output. *)
Lemma masked_shapes : forall ash bsh, Forall2 compat ash bsh ->
  masked (inter_mask ash bsh) ash = masked (inter_mask ash bsh) (map (fun ab => bdim (fst ab) (snd ab)) (combine ash bsh)) /\
  masked (inter_mask ash bsh) bsh = masked (inter_mask ash bsh) (map (fun ab => bdim (fst ab) (snd ab)) (combine ash bsh)).
Proof.
  unfold inter_mask. induction 1 as [|a b ash bsh C CM [IH1 IH2]]; auto. cbn [combine map fst snd].
  unfold bdim at 1 3. destruct (Z.eqb_spec a 1), (Z.eqb_spec b 1); cbn [negb andb masked]; try (split; assumption).
  rewrite IH1, IH2. destruct C as [->|[?|?]]; [auto|congruence|congruence].
Qed.

Lemma isfx_masked : forall mask sh sh', length sh = length sh' -> masked mask sh = masked mask sh' -> isfx mask sh = isfx mask sh'.
Proof.
  induction mask as [|[] mask IH]; intros [|n sh] [|n' sh'] L E; try discriminate; auto; cbn [isfx masked length] in *.
  - inv E. rewrite (IH sh sh'); auto.
  - assert (EE : isfx mask sh = isfx mask sh') by (apply IH; auto). rewrite EE. auto.
Qed.

Lemma out_dim_ok : forall ash bsh, Forall2 compat ash bsh -> Forall (fun n => 0 < n) ash -> Forall (fun n => 0 < n) bsh ->
  mapM out_dim (combine ash bsh) = Ok (map (fun ab => bdim (fst ab) (snd ab)) (combine ash bsh)).
Proof.
  induction 1 as [|a b ash bsh C CM IH]; intros FA FB; auto. inv FA. inv FB. cbn [combine mapM map].
  rewrite IH by auto. unfold out_dim. cbn [fst snd]. unfold bdim.
  destruct (Z.eqb_spec a b), (Z.eqb_spec a 1), (Z.eqb_spec b 1); cbn [negb andb bind]; try (destruct C as [?|[?|?]]; congruence);
    f_equal; f_equal; lia.
Qed.

Lemma out_dim_bad : forall ash bsh, length ash = length bsh -> ~ Forall2 compat ash bsh -> mapM out_dim (combine ash bsh) = Panic.
Proof.
  induction ash as [|a ash IH]; intros [|b bsh] L N; try discriminate.
  - exfalso. apply N. constructor.
  - cbn [combine mapM]. unfold out_dim at 1. cbn [fst snd].
    destruct (Z.eqb_spec a b), (Z.eqb_spec a 1), (Z.eqb_spec b 1); cbn [negb andb bind]; auto;
      (rewrite IH; [auto|auto|intros FF; apply N; constructor; auto; unfold compat; auto]).
Qed.

(** ** The kernel *)
Lemma mapM_nth_list : forall {X Y} (L : list X) d (f : nat -> res Y) (g : X -> Y) ks,
  Forall (fun k => (k < length L)%nat) ks -> (forall k x, nth_error L k = Some x -> f k = Ok (g x)) ->
  mapM f ks = Ok (map g (map (fun k => nth k L d) ks)).
Proof.
  induction ks as [|k ks IH]; intros FA H; auto. inv FA. cbn [mapM map]. rewrite (H k (nth k L d)) by (apply nth_error_nth'; auto).
  cbn [bind]. rewrite IH; auto.
Qed.

Lemma grp_lt : forall key_of key n, Forall (fun k => (k < n)%nat) (grp key_of key (seq 0 n)).
Proof. intros. apply Forall_forall. intros k I. apply filter_In in I. destruct I as [I _]. apply in_seq in I. lia. Qed.

Definition bop (osh ash : list Z) (a b : list Z * F) : Z * F := (position osh (comb ash (fst a) (fst b)), fmul (snd a) (snd b)).

Lemma linearize_comb : forall osh ash pa pb, in_shape osh (comb ash pa pb) -> cells osh <= usize_max ->
  linearize (sfx osh) (comb ash pa pb) = Ok (position osh (comb ash pa pb)).
Proof. intros. apply linearize_ok; auto. Qed.

Lemma foldM_ext : forall {X S} (f g : S -> X -> res S) l s, (forall s x, In x l -> f s x = g s x) -> foldM f l s = foldM g l s.
Proof.
  induction l as [|x l IH]; intros s H; auto. cbn [foldM]. rewrite H by (simpl; auto). destruct (g s x); cbn [bind]; auto.
  apply IH. intros. apply H. simpl. auto.
Qed.
Lemma mapM_exists : forall {X Y} (f : X -> res Y) (R : X -> Y -> Prop) l, (forall x, In x l -> exists y, f x = Ok y /\ R x y) ->
  exists ys, mapM f l = Ok ys /\ Forall2 R l ys.
Proof.
  induction l as [|x l IH]; intros H; [exists []; split; auto; constructor|].
  destruct (H x) as (y & E & HR); [simpl; auto|]. destruct IH as (ys & E' & HR'); [intros; apply H; simpl; auto|].
  exists (y :: ys). cbn [mapM]. rewrite E, E'. split; auto.
Qed.

Lemma masked_bsrc : forall ash bsh k, length ash = length bsh -> length k = length ash ->
  masked (inter_mask ash bsh) (bsrc ash k) = masked (inter_mask ash bsh) k /\
  masked (inter_mask ash bsh) (bsrc bsh k) = masked (inter_mask ash bsh) k.
Proof.
  unfold inter_mask, bsrc. induction ash as [|a ash IH]; intros [|b bsh] [|x k] L1 L2; try discriminate; auto.
  cbn [combine map fst snd]. cbn [length] in *. destruct (IH bsh k) as [I1 I2]; [lia|lia|].
  destruct (Z.eqb_spec a 1), (Z.eqb_spec b 1); cbn [negb andb masked]; auto. rewrite I1, I2. auto.
Qed.

Lemma bsrc_pad : forall d sh k, length k = d -> (length sh <= d)%nat -> bsrc (pad_shape d sh) k = padk d (source_cell sh k).
Proof.
  intros d sh k L LS. unfold pad_shape, padk, source_cell. fold (bsrc sh (skipn (length k - length sh) k)).
  assert (LB : length (bsrc sh (skipn (length k - length sh) k)) = length sh).
  { unfold bsrc. rewrite map_length, combine_length, skipn_length. lia. }
  rewrite LB, L. rewrite <- (firstn_skipn (d - length sh) k) at 1. unfold bsrc at 1.
  rewrite combine_app' by (rewrite repeat_length, firstn_length; lia). rewrite map_app. f_equal.
  assert (LF : length (firstn (d - length sh) k) = (d - length sh)%nat) by (rewrite firstn_length; lia).
  revert LF. generalize (firstn (d - length sh) k). generalize (d - length sh)%nat. clear.
  induction n; intros [|x l] H; try discriminate; auto. cbn [repeat combine map fst]. rewrite Z.eqb_refl. f_equal. apply IHn. auto.
Qed.

Lemma padk_inj : forall d k k', length k = length k' -> padk d k = padk d k' -> k = k'.
Proof. intros d k k' L E. unfold padk in E. rewrite L in E. apply app_inv_head in E. auto. Qed.

Lemma at_key_pad : forall d A q, nd_ok A -> length q = length (nd_shape A) ->
  at_key (padk d q) (pad_entries d A) = nd_at A q.
Proof.
  intros d A q OK L. unfold nd_at, pad_entries.
  assert (FA : Forall (fun e => length (fst e) = length q) (nd_entries A)).
  { eapply Forall_impl; [|apply nd_entries_ok; exact OK]. intros e H. apply in_shape_length in H. congruence. }
  induction FA as [|[k v] l H FA IH]; auto. cbn [map fst snd]. rewrite !at_key_cons, IH.
  destruct (list_eq_dec Z.eq_dec (padk d k) (padk d q)) as [E|N], (list_eq_dec Z.eq_dec k q) as [E'|N']; auto.
  - apply padk_inj in E; auto. contradiction.
  - subst. contradiction.
Qed.

Lemma filter_filter' : forall {X} (p q : X -> bool) l, filter p (filter q l) = filter (fun x => q x && p x) l.
Proof. induction l as [|x l IH]; auto. cbn [filter]. destruct (q x); cbn [filter andb]; rewrite IH; auto. Qed.
Lemma filter_none : forall {X} (p : X -> bool) l, (forall x, In x l -> p x = false) -> filter p l = [].
Proof. induction l as [|x l IH]; intros H; auto. cbn [filter]. rewrite H by (simpl; auto). apply IH. intros; apply H; simpl; auto. Qed.

Lemma concat_map_cond : forall {X Y} (p : X -> bool) (f : X -> list Y) l, concat (map (fun x => if p x then f x else []) l) = concat (map f (filter p l)).
Proof. induction l as [|x l IH]; auto. cbn [map concat filter]. destruct (p x); cbn [map concat app]; rewrite IH; auto. Qed.

Lemma products_nil_r : forall xs : list F, products xs [] = [].
Proof. induction xs; auto. Qed.

Definition keyb (q : list Z) (e : list Z * F) : bool := if list_eq_dec Z.eq_dec (fst e) q then true else false.
Lemma products_at : forall q q' (LA LB : list (list Z * F)),
  concat (map (fun a => map (fun b => fmul (snd a) (snd b)) (filter (keyb q') LB)) (filter (keyb q) LA)) = products (at_key q LA) (at_key q' LB).
Proof.
  intros. unfold products, at_key. rewrite map_map. f_equal. apply map_ext. intros a. rewrite map_map. auto.
Qed.

Lemma pad_pos : forall d sh, Forall (fun n => 0 < n) sh -> Forall (fun n => 0 < n) (pad_shape d sh).
Proof. intros. unfold pad_shape. apply Forall_app. split; auto. apply Forall_forall. intros x I. apply repeat_spec in I. lia. Qed.

Theorem hadamard_broadcast_ok : forall scha schb ord threads srt A B,
  is_schedule scha -> is_schedule schb -> (forall l, Permutation l (ord l)) -> is_sorter pair_le srt ->
  nd_ok A -> nd_ok B -> broadcastable (nd_shape A) (nd_shape B) ->
  Forall (fun n => 0 < n) (nd_shape A) -> Forall (fun n => 0 < n) (nd_shape B) ->
  cells (broadcast_shape (nd_shape A) (nd_shape B)) <= usize_max ->
  exists C, hadamard_broadcast_coond scha schb ord threads srt A B = Ok C /\ nd_ok C /\
    nd_shape C = broadcast_shape (nd_shape A) (nd_shape B) /\ nd_sorted C /\
    forall k, in_shape (nd_shape C) k ->
      nd_at C k = left_sum (products (nd_at A (source_cell (nd_shape A) k)) (nd_at B (source_cell (nd_shape B) k))).
Proof.
  intros scha schb ord threads srt A B HSA HSB HO HS OA OB BC PA PB HC.
  unfold hadamard_broadcast_coond, broadcastable, broadcast_shape in *.
  set (d := Nat.max (length (nd_shape A)) (length (nd_shape B))) in *.
  assert (DA : (length (nd_shape A) <= d)%nat) by lia. assert (DB : (length (nd_shape B) <= d)%nat) by lia.
  change (pad_ones d (nd_shape A)) with (pad_shape d (nd_shape A)) in *. change (pad_ones d (nd_shape B)) with (pad_shape d (nd_shape B)) in *.
  pose proof (pad_shape_length d _ DA) as LSA. pose proof (pad_shape_length d _ DB) as LSB.
  set (ash := pad_shape d (nd_shape A)) in *. set (bsh := pad_shape d (nd_shape B)) in *.
  assert (CM : Forall2 compat ash bsh) by exact BC.
  assert (PA' : Forall (fun n => 0 < n) ash) by (apply pad_pos; auto). assert (PB' : Forall (fun n => 0 < n) bsh) by (apply pad_pos; auto).
  rewrite out_dim_ok by auto. cbn [bind].
  set (osh := map (fun ab => bdim (fst ab) (snd ab)) (combine ash bsh)) in *.
  assert (LO : length osh = d) by (unfold osh; rewrite map_length, combine_length; lia).
  assert (NO : osh <> []). { pose proof (nd_ndim _ OA). destruct (nd_shape A); [congruence|]. cbn [length] in DA. destruct osh; [cbn [length] in LO; lia|discriminate]. }
  assert (PO : Forall (fun n => 0 < n) osh).
  { unfold osh. rewrite Forall_map. apply Forall_forall. intros [a b] I. rewrite Forall_forall in PA', PB'.
    pose proof (PA' _ (in_combine_l _ _ _ _ I)). pose proof (PB' _ (in_combine_r _ _ _ _ I)). unfold bdim. cbn [fst snd]. destruct (a =? 1); auto. }
  assert (SRC : forall k X, nd_ok X -> (length (nd_shape X) <= d)%nat -> in_shape osh k ->
      nd_at X (source_cell (nd_shape X) k) = at_key (bsrc (pad_shape d (nd_shape X)) k) (pad_entries d X)).
  { intros k X OX LX IK. apply in_shape_length in IK. rewrite bsrc_pad by (auto; lia). rewrite at_key_pad; auto.
    unfold source_cell. rewrite map_length, combine_length, skipn_length. lia. }
  destruct ((length (nd_dat A) =? 0)%nat || (length (nd_dat B) =? 0)%nat) eqn:EZ.
  { eexists. split; [reflexivity|]. split; [apply (nd_of_ok osh (@nil (list Z * F))); auto|]. split; [auto|]. split; [constructor|].
    intros k _. rewrite nil_nd_at. apply orb_true_iff in EZ. destruct EZ as [EZ|EZ]; apply Nat.eqb_eq in EZ.
    - pose proof (nd_entries_length A) as EL. rewrite EZ in EL. unfold nd_at at 1. destruct (nd_entries A); [auto|discriminate].
    - pose proof (nd_entries_length B) as EL. rewrite EZ in EL. unfold nd_at at 2. destruct (nd_entries B); [|discriminate].
      cbn [at_key filter map]. rewrite products_nil_r. auto. }
  clear EZ.
  assert (SF : shape_fits osh).
  { split; [eapply Forall_impl; [|exact PO]; simpl; intros; lia|]. replace (map (Z.max 1) osh) with osh; auto.
    clear -PO. induction PO; auto. cbn [map]. f_equal; auto. lia. }
  rewrite strides_rm_ok by auto. cbn [bind].
  set (mask := inter_mask ash bsh).
  assert (LM : length mask = d) by (unfold mask, inter_mask; rewrite map_length, combine_length; lia).
  rewrite inter_strides_ok by (auto; lia). cbn [bind].
  rewrite normalize_ok by auto. cbn [bind]. rewrite normalize_ok by auto. cbn [bind].
  pose proof (pad_entries_shape d A OA DA) as FLA. pose proof (pad_entries_shape d B OB DB) as FLB.
  fold ash in FLA. fold bsh in FLB.
  set (LA := pad_entries d A) in *. set (LB := pad_entries d B) in *.
  destruct (masked_shapes ash bsh CM) as [MA MB]. fold mask osh in MA, MB.
  pose proof (cells_masked osh PO mask) as CMK.
  set (kof := fun e : list Z * F => position (masked mask osh) (masked mask (fst e))).
  set (dft := (@nil Z, @f0 F)).
  assert (NC : forall sh (X : Nd F) L, Forall (fun e : list Z * F => in_shape sh (fst e)) L -> length sh = d ->
     masked mask sh = masked mask osh ->
     forall k e, nth_error L k = Some e -> norm_coords (concat (map fst L)) d k = Ok (fst e) /\
        inter_key mask (isfx mask osh) (fst e) = Ok (kof e)).
  { intros sh X L FL Lsh EM k e E. split.
    - apply norm_coords_ok.
      + rewrite Forall_map. eapply Forall_impl; [|exact FL]. intros a H. apply in_shape_length in H. lia.
      + apply map_nth_error. auto.
    - rewrite <- (isfx_masked mask sh osh) by (auto; lia). unfold kof. rewrite <- EM. apply inter_key_ok; try lia.
      + rewrite Forall_forall in FL. apply FL. eapply nth_error_In; eauto.
      + rewrite EM. lia. }
  assert (GR : forall sh (X : Nd F) L, Forall (fun e : list Z * F => in_shape sh (fst e)) L -> length sh = d ->
     masked mask sh = masked mask osh -> exists m, group_by (concat (map fst L)) d mask (isfx mask osh) (length L) = Ok m /\
       NoDup (map fst m) /\ (forall q, In q (map fst m) <-> grp (fun k => kof (nth k L dft)) q (seq 0 (length L)) <> []) /\
       forall q, map_get m q = opt_list (grp (fun k => kof (nth k L dft)) q (seq 0 (length L)))).
  { intros sh X L FL Lsh EM. unfold group_by.
    destruct (group_ok (fun k => let! ks := norm_coords (concat (map fst L)) d k in inter_key mask (isfx mask osh) ks)
        (fun k => kof (nth k L dft)) (seq 0 (length L))) as (m & E & R).
    - intros k I. apply in_seq in I. destruct (NC sh X L FL Lsh EM k (nth k L dft)) as [-> E2]; [apply nth_error_nth'; lia|]. auto.
    - exists m. split; auto. rewrite <- E. apply foldM_ext. intros s k I. apply in_seq in I.
      destruct (NC sh X L FL Lsh EM k (nth k L dft)) as [-> E2]; [apply nth_error_nth'; lia|]. cbn [bind]. rewrite E2. auto. }
  assert (LLA : length LA = length (nd_dat A)) by (unfold LA, pad_entries; rewrite map_length; apply nd_entries_length).
  assert (LLB : length LB = length (nd_dat B)) by (unfold LB, pad_entries; rewrite map_length; apply nd_entries_length).
  rewrite <- LLA, <- LLB.
  destruct (GR ash A LA FLA LSA MA) as (ma & -> & NDA & INA & GA). cbn [bind].
  destruct (GR bsh B LB FLB LSB MB) as (mb & -> & NDB & INB & GB). cbn [bind].
  set (keys := filter (fun key => existsb (fun e => fst e =? key) mb) (ord (map fst ma))).
  assert (NK : NoDup keys). { apply NoDup_filter. eapply Permutation_NoDup; [apply HO|auto]. }
  assert (IK : forall key, In key keys <-> In key (map fst ma) /\ In key (map fst mb)).
  { intros key. unfold keys. rewrite filter_In, existsb_exists. split.
    - intros [I (e & Ie & E)]. apply Z.eqb_eq in E. split; [eapply Permutation_in; [symmetry; apply HO|auto]|]. rewrite <- E. apply in_map. auto.
    - intros [I1 I2]. split; [eapply Permutation_in; [apply HO|auto]|]. apply in_map_iff in I2. destruct I2 as (e & E & Ie). exists e. split; auto.
      apply Z.eqb_eq. auto. }
  match goal with |- context [par_chunks ?c keys] => destruct (par_chunks_ok c keys) as (cs & -> & CS) end; [lia|]. cbn [bind].
  set (flt := fun (key : Z) (L : list (list Z * F)) => filter (fun e => kof e =? key) L).
  set (opsk := fun key => concat (map (fun a => map (bop osh ash a) (flt key LB)) (flt key LA))).
  assert (FLT : forall L key, map (fun k => nth k L dft) (grp (fun k => kof (nth k L dft)) key (seq 0 (length L))) = flt key L).
  { intros. unfold grp, flt. apply (map_nth_filter_seq L dft (fun e => kof e =? key)). }
  assert (BI : forall a b, In a LA -> In b LB -> in_shape osh (comb ash (fst a) (fst b))).
  { intros a b Ia Ib. rewrite Forall_forall in FLA, FLB. apply comb_in_shape; auto. }
  assert (KO : forall key, In key keys -> key_ops A B (concat (map fst LA)) (concat (map fst LB)) d ash (sfx osh) ma mb key = Ok (opsk key)).
  { intros key I. apply IK in I. destruct I as [I1 I2]. apply INA in I1. apply INB in I2. unfold key_ops. rewrite GA, GB.
    destruct (grp (fun k => kof (nth k LA dft)) key (seq 0 (length LA))) as [|ka0 kas] eqn:EA; [congruence|].
    destruct (grp (fun k => kof (nth k LB dft)) key (seq 0 (length LB))) as [|kb0 kbs] eqn:EB; [congruence|].
    cbn [opt_list unwrap bind]. rewrite <- EA, <- EB. clear EA EB I1 I2.
    rewrite (mapM_nth_list LA dft _ (fun a => map (bop osh ash a) (flt key LB))).
    - cbn [bind]. unfold opsk. rewrite FLT. auto.
    - apply grp_lt.
    - intros ka a Ea. rewrite (mapM_nth_list LB dft _ (bop osh ash a)).
      + rewrite FLT. auto.
      + apply grp_lt.
      + intros kb b Eb. unfold product_op.
        assert (Da : nth_error (nd_dat A) ka = Some (snd a)).
        { rewrite <- nd_entries_vals. unfold LA, pad_entries in Ea. rewrite nth_error_map in Ea. rewrite nth_error_map.
          destruct (nth_error (nd_entries A) ka); inv Ea. auto. }
        assert (Db : nth_error (nd_dat B) kb = Some (snd b)).
        { rewrite <- nd_entries_vals. unfold LB, pad_entries in Eb. rewrite nth_error_map in Eb. rewrite nth_error_map.
          destruct (nth_error (nd_entries B) kb); inv Eb. auto. }
        unfold get_checked. rewrite Da, Db. cbn [bind].
        destruct (NC ash A LA FLA LSA MA ka a Ea) as [-> _]. cbn [bind].
        destruct (NC bsh B LB FLB LSB MB kb b Eb) as [-> _]. cbn [bind].
        fold (comb ash (fst a) (fst b)). rewrite linearize_comb by (auto; apply BI; eapply nth_error_In; eauto). auto. }
  assert (VO : forall key, Forall (fun p => exists k, in_shape osh k /\ position osh k = fst p) (opsk key)).
  { intros key. unfold opsk. apply Forall_concat. rewrite Forall_map. apply Forall_forall. intros a Ia. rewrite Forall_map.
    apply Forall_forall. intros b Ib. apply filter_In in Ia, Ib. destruct Ia as [Ia _], Ib as [Ib _]. cbn [bop fst]. eauto. }
  destruct (mapM_exists (fun ks =>
        let! opss := mapM (key_ops A B (concat (map fst LA)) (concat (map fst LB)) d ash (sfx osh) ma mb) ks in
        let! acc := accumulate 1024 (concat opss) in
        Ok (pairs acc)) (fun c p => tally (concat (map opsk c)) p) cs) as (parts & EP & RP).
  { intros c Ic. assert (EM : mapM (key_ops A B (concat (map fst LA)) (concat (map fst LB)) d ash (sfx osh) ma mb) c = Ok (map opsk c)).
    { apply mapM_ok. intros key I. apply KO. rewrite <- CS. apply in_concat. eauto. }
    rewrite EM. cbn [bind]. destruct (accumulate_ok 1024 (concat (map opsk c))) as (m & -> & _ & TA).
    { apply (position_key_bound osh); auto. apply Forall_concat. rewrite Forall_map. apply Forall_forall. auto. }
    cbn [bind]. eauto. }
  rewrite EP. cbn [bind].
  assert (VP : Forall (fun p => exists k, in_shape osh k /\ position osh k = fst p) (concat parts)).
  { apply Forall_concat. clear -RP VO. induction RP as [|c p cs parts TA RP IH]; constructor; auto.
    apply Forall_forall. intros x I. assert (I' : In (fst x) (map fst (concat (map opsk c)))) by (apply (tally_keys _ p); auto; apply in_map; auto).
    apply in_map_iff in I'. destruct I' as (y & E & Iy). apply in_concat in Iy. destruct Iy as (l & Il & Iy).
    apply in_map_iff in Il. destruct Il as (key & <- & _). specialize (VO key). rewrite Forall_forall in VO. rewrite <- E. apply VO. auto. }
  destruct (accumulate_ok (Z.of_nat (length (concat parts))) (concat parts) (position_key_bound osh _ HC VP)) as (gm & -> & _ & TG). cbn [bind].
  destruct (finish_ok srt (fun _ => true) osh gm (concat parts) HS NO HC TG VP) as (C & EC & OC & SC & NC' & AT).
  rewrite filter_true in EC. exists C. split; auto. split; auto. split; auto. split; auto.
  intros k Ik. rewrite SC in Ik. rewrite AT by auto. rewrite filter_true.
  set (p := position osh k). set (f := fun key => at_index p (opsk key)).
  set (K := position (masked mask osh) (masked mask k)).
  assert (LK : length k = d) by (apply in_shape_length in Ik; lia).
  destruct (masked_bsrc ash bsh k ltac:(lia) ltac:(lia)) as [SA SB]. fold mask in SA, SB.
  (* two entries with equal intersection keys meet in cell k *)
  assert (MEET : forall a b, In a LA -> In b LB ->
     (kof a = kof b /\ position osh (comb ash (fst a) (fst b)) = p) <-> (fst a = bsrc ash k /\ fst b = bsrc bsh k)).
  { intros a b Ia Ib. pose proof (BI a b Ia Ib) as IC. rewrite Forall_forall in FLA, FLB. pose proof (FLA _ Ia) as Sa. pose proof (FLB _ Ib) as Sb.
    rewrite <- (comb_eq ash bsh (fst a) (fst b) k CM Sa Sb Ik). fold mask. split.
    - intros [E1 E2]. split; [eapply position_inj; eauto|]. unfold kof in E1. apply position_inj in E1; auto.
      + rewrite <- MA. apply masked_in_shape. auto.
      + rewrite <- MB. apply masked_in_shape. auto.
    - intros [E1 E2]. split; [unfold kof; rewrite E2; auto|]. rewrite E1. auto. }
  assert (KA : forall a, fst a = bsrc ash k -> kof a = K) by (intros a E; unfold kof, K; rewrite E, SA; auto).
  assert (KB : forall a, fst a = bsrc bsh k -> kof a = K) by (intros a E; unfold kof, K; rewrite E, SB; auto).
  assert (INNER : forall key a, at_index p (map (bop osh ash a) (flt key LB))
     = map (fun b => fmul (snd a) (snd b)) (filter (fun b => (kof b =? key) && (position osh (comb ash (fst a) (fst b)) =? p)) LB)).
  { intros key a. unfold at_index, flt. rewrite map_filter_map. cbn [bop fst snd]. rewrite filter_filter'. auto. }
  assert (FE : forall key, f key = concat (map (fun a => map (fun b => fmul (snd a) (snd b))
       (filter (fun b => (kof b =? key) && (position osh (comb ash (fst a) (fst b)) =? p)) LB)) (flt key LA))).
  { intros key. unfold f, opsk. rewrite at_index_concat, map_map. f_equal. apply map_ext. intros a. apply INNER. }
  assert (FN : forall key, key <> K -> f key = []).
  { intros key NE. rewrite FE. apply concat_map_nil. intros a Ia. apply filter_In in Ia. destruct Ia as [Ia Ea]. apply Z.eqb_eq in Ea.
    rewrite filter_none; auto. intros b Ib. apply andb_false_iff. destruct (Z.eqb_spec (kof b) key) as [Eb|]; auto.
    right. apply Z.eqb_neq. intros EPp. destruct (proj1 (MEET a b Ia Ib)) as [E1 _]; [split; congruence|]. apply KA in E1. congruence. }
  assert (FK : f K = products (at_key (bsrc ash k) LA) (at_key (bsrc bsh k) LB)).
  { rewrite FE. rewrite <- products_at.
    transitivity (concat (map (fun a => if keyb (bsrc ash k) a then map (fun b => fmul (snd a) (snd b)) (filter (keyb (bsrc bsh k)) LB) else []) (flt K LA))).
    - f_equal. apply map_ext_in. intros a Ia. apply filter_In in Ia. destruct Ia as [Ia Ea]. apply Z.eqb_eq in Ea.
      unfold keyb at 1. destruct (list_eq_dec Z.eq_dec (fst a) (bsrc ash k)) as [E|N].
      + f_equal. apply filter_ext_in. intros b Ib. unfold keyb. destruct (list_eq_dec Z.eq_dec (fst b) (bsrc bsh k)) as [E'|N'].
        * destruct (proj2 (MEET a b Ia Ib) (conj E E')) as [_ ->]. rewrite (KB b E'), !Z.eqb_refl. auto.
        * apply andb_false_iff. destruct (Z.eqb_spec (kof b) K) as [Eb|]; auto. right. apply Z.eqb_neq. intros EPp.
          destruct (proj1 (MEET a b Ia Ib)) as [_ E2]; [split; congruence|]. contradiction.
      + rewrite filter_none; auto. intros b Ib. apply andb_false_iff. destruct (Z.eqb_spec (kof b) K) as [Eb|]; auto.
        right. apply Z.eqb_neq. intros EPp. destruct (proj1 (MEET a b Ia Ib)) as [E1 _]; [split; congruence|]. contradiction.
    - rewrite concat_map_cond. f_equal. f_equal. unfold flt. rewrite filter_filter'. apply filter_ext. intros a.
      unfold keyb. destruct (list_eq_dec Z.eq_dec (fst a) (bsrc ash k)) as [E|N]; [|apply andb_false_r].
      rewrite (KA a E), Z.eqb_refl. auto. }
  assert (E1 : at_index p (concat parts) = concat (map (fun c => left_sum (concat (map f c))) cs)).
  { rewrite at_index_concat. f_equal. clear -RP. induction RP as [|c q cs parts TA RP IH]; auto. cbn [map]. f_equal; auto.
    destruct TA as [_ TA]. rewrite TA, at_index_concat, map_map. auto. }
  rewrite E1, (one_chunk f K cs) by (auto; rewrite CS; auto). rewrite left_sum_idem, CS.
  rewrite (SRC k A OA DA Ik), (SRC k B OB DB Ik). fold ash bsh LA LB. rewrite <- FK. f_equal.
  destruct (in_dec Z.eq_dec K keys) as [I|N].
  - apply in_split in I. destruct I as (k1 & k2 & E). rewrite E in *. rewrite map_app, concat_app. cbn [map concat].
    apply NoDup_remove_2 in NK. rewrite (concat_map_nil f k1), (concat_map_nil f k2), app_nil_r; auto.
    + intros x I. apply FN. intros ->. apply NK. apply in_or_app. auto.
    + intros x I. apply FN. intros ->. apply NK. apply in_or_app. auto.
  - rewrite (concat_map_nil f keys) by (intros x I; apply FN; congruence).
    destruct (flt K LA) as [|a0 la] eqn:ELA.
    + unfold f, opsk. rewrite ELA. auto.
    + destruct (flt K LB) as [|b0 lb] eqn:ELB.
      * unfold f, opsk. rewrite ELB. rewrite concat_map_nil; auto.
      * exfalso. apply N. apply IK. rewrite INA, INB. split; intros E.
        -- rewrite <- FLT, E in ELA. discriminate.
        -- rewrite <- FLT, E in ELB. discriminate.
Qed.

Lemma hadamard_broadcast_bad : forall scha schb ord threads srt A B, ~ broadcastable (nd_shape A) (nd_shape B) ->
  hadamard_broadcast_coond scha schb ord threads srt A B = Panic.
Proof.
  intros scha schb ord threads srt A B N. unfold hadamard_broadcast_coond.
  rewrite out_dim_bad; auto. rewrite !pad_shape_length by lia. auto.
Qed.
End Finish.
