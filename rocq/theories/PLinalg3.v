(** Proofs about the products with a dense matrix. *)
Require Import List ZArith NArith Nnat Bool Arith Lia Permutation.
Require Import Verif.Res Verif.Values Verif.Spec Verif.Mem Verif.Lists Verif.CsLib Verif.Laws Verif.MHash Verif.PHash Verif.MAcc Verif.PAcc Verif.Loops Verif.MNd Verif.MNd2 Verif.MScalar Verif.PScalar Verif.MConvert Verif.PConvert Verif.PConvert2 Verif.MLinalg Verif.PLinalg Verif.PLinalg2.
Import ListNotations.
Local Open Scope Z_scope.

Lemma limit4 : forall n, and_not 3 n = (4 * (n / 4))%nat.
Proof. exact (and_not_spec (F := qc) eq_refl 2). Qed.

(** A four-lane loop followed by a scalar loop visits 0 .. tk-1 in order. *)
Lemma simd_loop_ok : forall {S} (one4 one1 : S -> nat -> res S) (g : S -> nat -> S) (Inv : S -> Prop) tk st,
  Inv st -> (forall s c, Inv s -> (c < tk)%nat -> one4 s c = Ok (g s c) /\ one1 s c = Ok (g s c) /\ Inv (g s c)) ->
  (let! (c, s) := step_loop tk 4 (fun c s => foldM one4 (seq c 4) s) (and_not 3 tk) 0 st in
   let! (_, s) := step_loop tk 1 (fun c s => one1 s c) tk c s in Ok s) = Ok (fold_left g (seq 0 tk) st) /\
  Inv (fold_left g (seq 0 tk) st).
Proof.
  intros S one4 one1 g Inv tk st I H.
  rewrite limit4.
  assert (FM : forall (one : S -> nat -> res S) a m s, Inv s -> (a + m <= tk)%nat -> (forall s c, Inv s -> (c < tk)%nat -> one s c = Ok (g s c) /\ Inv (g s c)) ->
     foldM one (seq a m) s = Ok (fold_left g (seq a m) s) /\ Inv (fold_left g (seq a m) s)).
  { intros one a m. revert a. induction m; intros a s Is B HO; cbn [seq foldM fold_left]; auto.
    destruct (HO s a Is ltac:(lia)) as [E I']. rewrite E. cbn [bind]. apply IHm; auto. lia. }
  pose proof (Nat.mul_div_le tk 4 ltac:(lia)) as ML.
  rewrite (step_loop_fold one4 4); [|lia|auto|lia|lia|exists (tk / 4)%nat; lia].
  rewrite Nat.sub_0_r. set (m := (4 * (tk / 4))%nat) in *.
  destruct (FM one4 0%nat m st I) as [E1 I1]; [lia|intros s c Is Hc; destruct (H s c Is Hc) as (? & ? & ?); auto|].
  rewrite E1. cbn [bind]. rewrite step_loop_one by lia.
  destruct (FM one1 m (tk - m)%nat _ I1) as [E2 I2]; [lia|intros s c Is Hc; destruct (H s c Is Hc) as (? & ? & ?); auto|].
  rewrite E2. cbn [bind]. rewrite <- fold_left_app in *. replace (seq 0 m ++ seq m (tk - m)) with (seq 0 tk) in *; auto.
  replace tk with (m + (tk - m))%nat at 1 by lia. apply seq_app.
Qed.

Lemma foldM_append : forall {X Y} (f : list Y -> X -> res (list Y)) (h : X -> list Y) xs l,
  (forall l a, In a xs -> f l a = Ok (l ++ h a)) -> foldM f xs l = Ok (l ++ concat (map h xs)).
Proof.
  induction xs as [|a xs IH]; intros l H; cbn [foldM map concat]; [rewrite app_nil_r; auto|].
  rewrite H by (simpl; auto). cbn [bind]. rewrite IH by (intros; apply H; simpl; auto). rewrite app_assoc. auto.
Qed.

Lemma fold_left_snoc : forall {X Y} (h : X -> Y) xs l, fold_left (fun l a => l ++ [h a]) xs l = l ++ map h xs.
Proof. induction xs; intros l; simpl; [rewrite app_nil_r; auto|]. rewrite IHxs, <- app_assoc. auto. Qed.

Lemma tiles_length : forall k, length (tiles k) = div_ceil k 128.
Proof. intros. unfold tiles. rewrite map_length, seq_length. auto. Qed.

Lemma tiles_nth : forall k t, (t < div_ceil k 128)%nat -> nth_error (tiles k) t = Some (t * 128)%nat.
Proof.
  intros k t H. unfold tiles. rewrite nth_error_map, (nth_error_nth' _ 0%nat) by (rewrite seq_length; auto).
  rewrite seq_nth by auto. auto.
Qed.

Lemma div_ceil_128 : forall k, (128 * div_ceil k 128 < k + 128)%nat /\ (k <= 128 * div_ceil k 128)%nat.
Proof.
  intros k. unfold div_ceil.
  pose proof (Nat.div_mod (k + (128 - 1)) 128 ltac:(lia)) as D. pose proof (Nat.mod_upper_bound (k + (128 - 1)) 128 ltac:(lia)).
  first [lia | (pose proof (Nat.div_mod k 128 ltac:(lia)); pose proof (Nat.mod_upper_bound k 128 ltac:(lia)); destruct (k mod 128 =? 0)%nat eqn:E; lia)].
Qed.

Lemma nth_grid : forall {F : Fl} (G : nat -> nat -> F) k n a i c, (c < k)%nat -> (i < n)%nat ->
  nth (i * k + c) (concat (map (fun i => map (G i) (seq 0 k)) (seq a n))) f0 = G (a + i)%nat c.
Proof.
  intros F G k n. induction n; intros a i c Hc Hi; [lia|]. cbn [seq map concat]. destruct i as [|i].
  - rewrite app_nth1 by (rewrite map_length, seq_length; lia). cbn [Nat.mul Nat.add]. rewrite Nat.add_0_r.
    rewrite (nth_indep _ f0 (G a 0%nat)) by (rewrite map_length, seq_length; auto). rewrite map_nth, seq_nth by auto. auto.
  - rewrite app_nth2 by (rewrite map_length, seq_length; nia). rewrite map_length, seq_length.
    replace (S i * k + c - k)%nat with (i * k + c)%nat by nia. rewrite IHn by lia. f_equal. lia.
Qed.

Lemma length_grid : forall {F : Fl} (G : nat -> nat -> F) k n a, length (concat (map (fun i => map (G i) (seq 0 k)) (seq a n))) = (n * k)%nat.
Proof. intros F G k n. induction n; intros; auto. cbn [seq map concat]. rewrite app_length, IHn, map_length, seq_length. lia. Qed.

Lemma b_ok_true : forall {F : Fl} (b : list F) n k, alloc_ok (n * k) -> length b = (n * k)%nat -> b_ok b n k = true.
Proof.
  intros F b n k A L. unfold b_ok, wrap_mul. apply Z.eqb_eq. unfold alloc_ok, i64_max in A. rewrite L, Nat2Z.inj_mul in *. rewrite Z.mod_small by nia. auto.
Qed.
Lemma y_len_ok : forall n k, alloc_ok (n * k) -> y_len n k = (n * k)%nat.
Proof. intros n k A. unfold y_len, wrap_mul. unfold alloc_ok, i64_max in A. rewrite Nat2Z.inj_mul in A. rewrite Z.mod_small by nia. lia. Qed.

Section Spmm.
Context {F : Fl} (Z0 : feqb (f0 : F) f0 = true) (MC : forall x y : F, fmul x y = fmul y x).
Notation ops := (list (Z * F)).

Lemma flat_small : forall n k j c, alloc_ok (n * k) -> 0 <= j < Z.of_nat n -> (c < k)%nat -> flat_index j k c = j * Z.of_nat k + Z.of_nat c /\ j * Z.of_nat k + Z.of_nat c < Z.of_nat (n * k).
Proof.
  intros n k j c A Hj Hc. unfold alloc_ok, i64_max in A. assert (j * Z.of_nat k + Z.of_nat c < Z.of_nat (n * k)) by (rewrite Nat2Z.inj_mul; nia).
  split; auto. unfold flat_index. apply Z.mod_small. nia.
Qed.

Definition tile_pure (b : list F) (k : nat) (i j : Z) (v : F) (c0 tk : nat) : ops :=
  map (fun c => (i * Z.of_nat k + Z.of_nat (c0 + c), fmul v (nth (Z.to_nat (j * Z.of_nat k + Z.of_nat (c0 + c))) b f0))) (seq 0 tk).

Lemma tile_ops_ok : forall b nr nc k i j v c0 tk l, alloc_ok (nr * k) -> alloc_ok (nc * k) -> length b = (nc * k)%nat ->
  0 <= i < Z.of_nat nr -> 0 <= j < Z.of_nat nc -> (c0 + tk <= k)%nat ->
  tile_ops b k i j v c0 tk l = Ok (l ++ tile_pure b k i j v c0 tk).
Proof.
  intros b nr nc k i j v c0 tk l AR AC LB Hi Hj Hk. unfold tile_ops, tile_pure.
  set (h := fun c => (i * Z.of_nat k + Z.of_nat (c0 + c), fmul v (nth (Z.to_nat (j * Z.of_nat k + Z.of_nat (c0 + c))) b f0))).
  rewrite <- fold_left_snoc.
  refine (proj1 (simd_loop_ok _ _ (fun (l : ops) a => l ++ [h a]) (fun _ => True) tk l _ _)); auto.
  intros s c _ Hc. destruct (flat_small nr k i (c0 + c) AR Hi ltac:(lia)) as [E1 _]. destruct (flat_small nc k j (c0 + c) AC Hj ltac:(lia)) as [E2 B2].
  unfold get_unchecked. rewrite E1, E2.
  destruct (nth_error b (Z.to_nat (j * Z.of_nat k + Z.of_nat (c0 + c)))) as [bv|] eqn:EB; [|apply nth_error_None in EB; nia].
  cbn [bind]. unfold h. rewrite (nth_error_nth _ _ f0 EB), (MC bv v). auto.
Qed.

(** The entries (row, column, value) of a matrix and the additions they cause. *)
Definition ent_tile (b : list F) (k c0 : nat) (es : list (Z * Z * F)) : ops :=
  concat (map (fun e => tile_pure b k (fst (fst e)) (snd (fst e)) (snd e) c0 (Nat.min (c0 + 128) k - c0)) es).
Definition ent_terms (x : list F) (i : nat) (es : list (Z * Z * F)) : list F :=
  map (fun e => fmul (snd e) (nth (Z.to_nat (snd (fst e))) x f0)) (filter (fun e => fst (fst e) =? Z.of_nat i) es).
Definition ents_ok (nr nc : nat) (es : list (Z * Z * F)) : Prop :=
  Forall (fun e => 0 <= fst (fst e) < Z.of_nat nr /\ 0 <= snd (fst e) < Z.of_nat nc) es.

Lemma column_nth : forall (b : list F) n k c j, (j < n)%nat -> nth j (column b n k c) f0 = nth (j * k + c) b f0.
Proof.
  intros. unfold column. rewrite (nth_indep _ f0 ((fun j => nth (j * k + c) b f0) 0%nat)) by (rewrite map_length, seq_length; auto).
  rewrite (map_nth (fun j => nth (j * k + c) b f0)), seq_nth by auto. auto.
Qed.

Lemma at_index_hd : forall s (e : Z * F) l, at_index s (e :: l) = if fst e =? s then snd e :: at_index s l else at_index s l.
Proof. intros. unfold at_index. cbn [filter]. destruct (fst e =? s); auto. Qed.

Lemma at_index_map_one : forall (h : nat -> Z * F) s a m c, (forall c', (a <= c' < a + m)%nat -> (fst (h c') = s <-> c' = c)) ->
  at_index s (map h (seq a m)) = if ((a <=? c) && (c <? a + m))%nat then [snd (h c)] else [].
Proof.
  intros h s a m. revert a. induction m; intros a c H; cbn [seq map].
  - destruct (Nat.leb_spec a c), (Nat.ltb_spec c (a + 0)); auto; lia.
  - rewrite at_index_hd. rewrite (IHm (S a) c) by (intros; apply H; lia).
    pose proof (H a ltac:(lia)) as Ha. destruct (Z.eqb_spec (fst (h a)) s) as [E|E].
    + apply Ha in E. subst c. destruct (Nat.leb_spec (S a) a); [lia|]. rewrite Nat.leb_refl. cbn [andb].
      destruct (Nat.ltb_spec a (a + S m)); auto; lia.
    + assert (a <> c) by tauto. replace (a + S m)%nat with (S a + m)%nat by lia.
      destruct (Nat.leb_spec (S a) c), (Nat.leb_spec a c); auto; lia.
Qed.

Lemma tile_pure_at : forall b nc k i' j v c0 tk i c, (c0 + tk <= k)%nat -> (c < k)%nat -> 0 <= i' -> 0 <= j < Z.of_nat nc ->
  at_index (Z.of_nat (i * k + c)) (tile_pure b k i' j v c0 tk) =
  if (i' =? Z.of_nat i) && ((c0 <=? c) && (c <? c0 + tk))%nat then [fmul v (nth (Z.to_nat j) (column b nc k c) f0)] else [].
Proof.
  intros b nc k i' j v c0 tk i c Hk Hc Hi Hj. unfold tile_pure.
  set (h := fun c => (i' * Z.of_nat k + Z.of_nat (c0 + c), fmul v (nth (Z.to_nat (j * Z.of_nat k + Z.of_nat (c0 + c))) b f0))).
  assert (U : forall c', (c' < tk)%nat -> fst (h c') = Z.of_nat (i * k + c) <-> i' = Z.of_nat i /\ (c0 + c')%nat = c).
  { intros c' Hc'. unfold h. cbn [fst]. rewrite !Nat2Z.inj_add, Nat2Z.inj_mul. split.
    - intros E. assert (i' = Z.of_nat i) by nia. subst i'. split; auto. lia.
    - intros [-> <-]. lia. }
  destruct (Z.eqb_spec i' (Z.of_nat i)) as [->|N]; cbn [andb].
  - destruct (Nat.leb_spec c0 c) as [L|L]; cbn [andb].
    + rewrite (at_index_map_one h _ 0 tk (c - c0)).
      2:{ intros c' Hc'. rewrite U by lia. split; [intros [_ <-]|intros ->; split; auto]; lia. }
      cbn [Nat.leb andb]. destruct (Nat.ltb_spec (c - c0) (0 + tk)), (Nat.ltb_spec c (c0 + tk)); auto; try lia.
      unfold h. cbn [snd]. rewrite column_nth by lia. replace (c0 + (c - c0))%nat with c by lia.
      replace (Z.to_nat (j * Z.of_nat k + Z.of_nat c)) with (Z.to_nat j * k + c)%nat by nia. auto.
    + rewrite (at_index_map_one h _ 0 tk tk).
      2:{ intros c' Hc'. rewrite U by lia. split; [intros [_ <-]|intros ->]; lia. }
      destruct (Nat.ltb_spec tk (0 + tk)); [lia|]. rewrite andb_false_r. auto.
  - rewrite (at_index_map_one h _ 0 tk tk).
    2:{ intros c' Hc'. rewrite U by lia. split; [tauto|]. intros ->. lia. }
    destruct (Nat.ltb_spec tk (0 + tk)); [lia|]. rewrite andb_false_r. auto.
Qed.

Lemma ent_tile_at : forall b nr nc k c0 es i c, ents_ok nr nc es -> (c < k)%nat -> (c0 <= k)%nat ->
  at_index (Z.of_nat (i * k + c)) (ent_tile b k c0 es) =
  if ((c0 <=? c) && (c <? c0 + 128))%nat then ent_terms (column b nc k c) i es else [].
Proof.
  intros b nr nc k c0 es i c E Hc H0. unfold ent_tile, ent_terms.
  set (tk := (Nat.min (c0 + 128) k - c0)%nat).
  assert (ET : ((c0 <=? c) && (c <? c0 + 128) = (c0 <=? c) && (c <? c0 + tk))%nat).
  { unfold tk. destruct (Nat.leb_spec c0 c); cbn [andb]; auto. destruct (Nat.ltb_spec c (c0 + 128)), (Nat.ltb_spec c (c0 + (Nat.min (c0 + 128) k - c0))); auto; lia. }
  rewrite ET. induction E as [|[[i' j] v] es [Hi Hj] E IH]; cbn [map concat filter].
  - destruct ((c0 <=? c) && (c <? c0 + tk))%nat; reflexivity.
  - rewrite at_index_app, IH. cbn [fst snd] in *. rewrite (tile_pure_at b nc) by (unfold tk; lia).
    destruct ((c0 <=? c) && (c <? c0 + tk))%nat; rewrite ?andb_true_r, ?andb_false_r.
    + destruct (i' =? Z.of_nat i); auto.
    + destruct (i' =? Z.of_nat i); auto.
Qed.

Lemma ent_tile_below : forall b nr nc k c0 es, ents_ok nr nc es -> (c0 <= k)%nat -> slots_below (nr * k) (ent_tile b k c0 es).
Proof.
  intros b nr nc k c0 es E H0. apply Forall_forall. intros e I. unfold ent_tile in I. apply in_concat in I. destruct I as (l & Il & I).
  apply in_map_iff in Il. destruct Il as (e' & <- & Ie). unfold ents_ok in E. rewrite Forall_forall in E. specialize (E _ Ie).
  unfold tile_pure in I. apply in_map_iff in I. destruct I as (c & <- & Ic). apply in_seq in Ic. cbn [fst]. rewrite Nat2Z.inj_mul. nia.
Qed.

(** Any interleaving of the tiles gives every element the terms of its row, in order. *)
Lemma tiles_ok : forall oob il b nr nc k es, is_interleaving il -> ents_ok nr nc es ->
  exists y, add_all oob (repeat f0 (nr * k)) (il (map (fun c0 => ent_tile b k c0 es) (tiles k))) = Ok y /\ length y = (nr * k)%nat /\
    forall i c, (c < k)%nat -> (i < nr)%nat -> nth (i * k + c) y f0 = fold_left fadd (ent_terms (column b nc k c) i es) f0.
Proof.
  intros oob il b nr nc k es HI E. set (ts := map (fun c0 => ent_tile b k c0 es) (tiles k)).
  pose proof (div_ceil_128 k) as [D1 D2].
  assert (TL : forall c0, In c0 (tiles k) -> (c0 <= k)%nat).
  { intros c0 I. unfold tiles in I. apply in_map_iff in I. destruct I as (t & <- & I). apply in_seq in I. lia. }
  destruct (add_all_ok Z0 oob (il ts) (repeat f0 (nr * k))) as (y & EY & LY & NY).
  { rewrite repeat_length. eapply Permutation_Forall; [apply Interleave_perm, HI|]. apply Forall_forall. intros e I.
    apply in_concat in I. destruct I as (l & Il & I). unfold ts in Il. apply in_map_iff in Il. destruct Il as (c0 & <- & I0).
    pose proof (ent_tile_below b nr nc k c0 es E (TL _ I0)) as B. unfold slots_below in B. rewrite Forall_forall in B. auto. }
  rewrite repeat_length in LY. exists y. split; auto. split; auto. intros i c Hc Hi. rewrite NY, nth_repeat. f_equal.
  assert (NT : forall t, nth t ts [] = if (t <? div_ceil k 128)%nat then ent_tile b k (t * 128) es else []).
  { intros t. unfold ts. destruct (Nat.ltb_spec t (div_ceil k 128)).
    - apply nth_error_nth. rewrite nth_error_map, tiles_nth by auto. auto.
    - apply nth_overflow. rewrite map_length, tiles_length. auto. }
  assert (AT : forall t, at_index (Z.of_nat (i * k + c)) (nth t ts []) = if (t =? c / 128)%nat then ent_terms (column b nc k c) i es else []).
  { intros t. rewrite NT. pose proof (Nat.div_mod c 128 ltac:(lia)) as DM. pose proof (Nat.mod_upper_bound c 128 ltac:(lia)).
    destruct (Nat.ltb_spec t (div_ceil k 128)).
    - rewrite (ent_tile_at b nr nc) by (auto; lia). destruct (Nat.eqb_spec t (c / 128)) as [->|N].
      + destruct (Nat.leb_spec (c / 128 * 128) c); [|lia]. destruct (Nat.ltb_spec c (c / 128 * 128 + 128)); [|lia]. auto.
      + destruct (Nat.leb_spec (t * 128) c); auto. destruct (Nat.ltb_spec c (t * 128 + 128)); auto. lia.
    - destruct (Nat.eqb_spec t (c / 128)); auto. lia. }
  unfold at_index at 1. rewrite (Interleave_filter (fun e => fst e =? Z.of_nat (i * k + c)) ts _ (HI ts) (c / 128)%nat).
  - change (map snd (filter (fun e => fst e =? Z.of_nat (i * k + c)) (nth (c / 128) ts []))) with (at_index (Z.of_nat (i * k + c)) (nth (c / 128) ts [])).
    rewrite AT, Nat.eqb_refl. auto.
  - intros t N. specialize (AT t). rewrite (proj2 (Nat.eqb_neq _ _) N) in AT. unfold at_index in AT. apply map_eq_nil in AT. auto.
Qed.

(** ** CSC *)
Definition csc_ents (A : Csc F) : list (Z * Z * F) :=
  concat (map (fun j => map (fun e => (fst e, Z.of_nat j, snd e)) (cs_row A j)) (seq 0 (csc_ncols A))).

Lemma csc_ents_ok : forall A : Csc F, cs_ok A -> ents_ok (csc_nrows A) (csc_ncols A) (csc_ents A).
Proof.
  intros A OK. apply Forall_forall. intros e I. unfold csc_ents in I. apply in_concat in I. destruct I as (l & Il & I).
  apply in_map_iff in Il. destruct Il as (j & <- & Ij). apply in_seq in Ij. apply in_map_iff in I. destruct I as (e' & <- & I).
  pose proof (row_bounds A j OK ltac:(unfold csc_ncols in *; lia)) as B. unfold in_bounds in B. rewrite Forall_forall in B. specialize (B _ I). cbn [fst snd].
  unfold csc_nrows. split; [tauto|lia].
Qed.

Lemma csc_ents_terms : forall (A : Csc F) x i, ent_terms x i (csc_ents A) = dot_terms (csc_at A) (csc_ncols A) x i.
Proof.
  intros A x i. unfold ent_terms, csc_ents, dot_terms. rewrite flat_map_concat_map. generalize (seq 0 (csc_ncols A)) as js.
  induction js as [|j js IH]; auto. cbn [map concat]. rewrite filter_app, map_app, IH. f_equal.
  unfold csc_at, cs_at. induction (cs_row A j) as [|e r IHr]; auto. cbn [map filter fst snd]. rewrite at_index_hd.
  destruct (fst e =? Z.of_nat i); auto. cbn [map fst snd]. rewrite IHr, Nat2Z.id. auto.
Qed.

Lemma concat_map_concat : forall {X Y} (f : X -> list Y) (l : list (list X)), concat (map f (concat l)) = concat (map (fun a => concat (map f a)) l).
Proof. induction l; auto. cbn [map concat]. rewrite map_app, concat_app, IHl. auto. Qed.

Lemma csc_tile_ok : forall (A : Csc F) b k c0, cs_ok A -> alloc_ok (length (dat A)) -> alloc_ok (csc_nrows A) -> alloc_ok (csc_nrows A * k) -> alloc_ok (csc_ncols A * k) ->
  length b = (csc_ncols A * k)%nat -> (c0 <= k)%nat ->
  csc_tile A b k c0 = Ok (ent_tile b k c0 (csc_ents A)).
Proof.
  intros A b k c0 OK AD AM AR AC LB H0. unfold csc_tile, ent_tile, csc_ents. cbv zeta. rewrite concat_map_concat, map_map.
  rewrite (foldM_append _ (fun j => concat (map (fun e => tile_pure b k (fst e) (Z.of_nat j) (snd e) c0 (Nat.min (c0 + 128) k - c0)) (cs_row A j)))).
  - cbn [app]. f_equal. f_equal. apply map_ext. intros j. rewrite map_map. auto.
  - intros l j Ij. apply in_seq in Ij. rewrite row_checked_ok by (auto; unfold csc_ncols in *; lia). cbn [bind].
    apply foldM_append. intros l' e Ie. pose proof (row_bounds A j OK ltac:(unfold csc_ncols in *; lia)) as B. unfold in_bounds in B. rewrite Forall_forall in B. specialize (B _ Ie).
    rewrite to_usize_id by (unfold alloc_ok, csc_nrows, i64_max, usize_max in *; lia).
    apply (tile_ops_ok b (csc_nrows A) (csc_ncols A)); auto; try lia. unfold csc_nrows. tauto.
Qed.

Lemma spmm_csc_ok : forall il (A : Csc F) b k, is_interleaving il -> cs_ok A -> alloc_ok (length (dat A)) -> alloc_ok (csc_nrows A) ->
  alloc_ok (csc_nrows A * k) -> alloc_ok (csc_ncols A * k) -> length b = (csc_ncols A * k)%nat ->
  exists y, spmm_csc il A b k = Ok y /\ length y = (csc_nrows A * k)%nat /\
    forall i c, (i < csc_nrows A)%nat -> (c < k)%nat ->
      nth (i * k + c) y f0 = fold_left fadd (dot_terms (csc_at A) (csc_ncols A) (column b (csc_ncols A) k c) i) f0.
Proof.
  intros il A b k HI OK AD AM AR AC LB. unfold spmm_csc. rewrite b_ok_true, y_len_ok by auto.
  destruct (Nat.eqb_spec (csc_nrows A) 0) as [E|N1]; cbn [orb].
  { eexists. split; [reflexivity|]. rewrite repeat_length. split; auto. intros. lia. }
  destruct (Nat.eqb_spec (csc_ncols A) 0) as [E|N2]; cbn [orb].
  { eexists. split; [reflexivity|]. rewrite repeat_length. split; auto. intros. rewrite E, nth_repeat. auto. }
  destruct (Nat.eqb_spec k 0) as [E|N3].
  { eexists. split; [reflexivity|]. rewrite repeat_length. split; auto. intros. lia. }
  rewrite (mapM_ok _ (fun c0 => ent_tile b k c0 (csc_ents A))).
  2:{ intros c0 I. apply csc_tile_ok; auto. pose proof (div_ceil_128 k). unfold tiles in I. apply in_map_iff in I. destruct I as (t & <- & I). apply in_seq in I. lia. }
  cbn [bind]. destruct (tiles_ok UB il b _ _ k (csc_ents A) HI (csc_ents_ok A OK)) as (y & E & L & NY).
  exists y. split; auto. split; auto. intros i c Hi Hc. rewrite NY by auto. rewrite csc_ents_terms. auto.
Qed.

(** ** COO *)
Lemma coo_ents_ok : forall A : Coo F, coo_ok A -> ents_ok (coo_nrows A) (coo_ncols A) (coo_entries A).
Proof. intros A OK. apply Forall_forall. intros e I. apply (coo_entry_in Z0 A e OK) in I. tauto. Qed.

Lemma coo_ents_terms : forall (A : Coo F) x i, coo_ok A -> Permutation (ent_terms x i (coo_entries A)) (dot_terms (coo_at A) (coo_ncols A) x i).
Proof.
  intros A x i OK. eapply Permutation_trans; [|apply (coo_pure_terms Z0); auto].
  unfold ent_terms, coo_pure. clear OK. induction (coo_entries A) as [|e l IH]; auto. cbn [filter map]. rewrite at_index_hd. cbn [fst snd].
  destruct (fst (fst e) =? Z.of_nat i); cbn [map]; auto.
Qed.

Lemma concat_map_nth_error : forall {X Y} (l : list X) (f : nat -> list Y) (g : X -> list Y),
  (forall p e, nth_error l p = Some e -> f p = g e) -> concat (map f (seq 0 (length l))) = concat (map g l).
Proof. intros. rewrite (concat_nth_error_seq l f g H), flat_map_concat_map. auto. Qed.

Lemma coo_tile_ok : forall (A : Coo F) b k c0, coo_ok A -> alloc_ok (coo_nrows A * k) -> alloc_ok (coo_ncols A * k) ->
  length b = (coo_ncols A * k)%nat -> (c0 <= k)%nat ->
  coo_tile A b k c0 = Ok (ent_tile b k c0 (coo_entries A)).
Proof.
  intros A b k c0 OK AR AC LB H0. unfold coo_tile, ent_tile. cbv zeta. rewrite <- (coo_entries_length Z0 A OK).
  set (g := fun e : Z * Z * F => tile_pure b k (fst (fst e)) (snd (fst e)) (snd e) c0 (Nat.min (c0 + 128) k - c0)).
  rewrite <- (concat_map_nth_error (coo_entries A) (fun p => match nth_error (coo_entries A) p with Some e => g e | None => [] end) g).
  2:{ intros p e E. rewrite E. auto. }
  apply (foldM_append _ (fun p => match nth_error (coo_entries A) p with Some e => g e | None => [] end)).
  intros l p Ip. apply in_seq in Ip. rewrite (coo_entries_length Z0 A OK) in Ip.
  destruct (coo_nth Z0 A p OK ltac:(lia)) as (i & j & v & ER & EC & ED & EE & Bi & Bj & Mi & Mj).
  unfold get_checked. rewrite ER, EC, ED, EE. cbn [bind].
  unfold i64_max, usize_max in *. rewrite !to_usize_id by (unfold usize_max; lia).
  apply (tile_ops_ok b (coo_nrows A) (coo_ncols A)); auto. lia.
Qed.

Lemma spmm_coo_ok : forall il (A : Coo F) b k, is_interleaving il -> coo_ok A ->
  alloc_ok (coo_nrows A * k) -> alloc_ok (coo_ncols A * k) -> length b = (coo_ncols A * k)%nat ->
  exists y, spmm_coo il A b k = Ok y /\ length y = (coo_nrows A * k)%nat /\
    forall i c, (i < coo_nrows A)%nat -> (c < k)%nat ->
      nth (i * k + c) y f0 = fold_left fadd (ent_terms (column b (coo_ncols A) k c) i (coo_entries A)) f0.
Proof.
  intros il A b k HI OK AR AC LB. unfold spmm_coo. rewrite b_ok_true, y_len_ok by auto.
  destruct (Nat.eqb_spec (coo_nrows A) 0) as [E|N1]; cbn [orb].
  { eexists. split; [reflexivity|]. rewrite repeat_length. split; auto. intros. lia. }
  destruct (Nat.eqb_spec k 0) as [E|N3]; cbn [orb].
  { eexists. split; [reflexivity|]. rewrite repeat_length. split; auto. intros. lia. }
  destruct (Nat.eqb_spec (length (coo_data A)) 0) as [E|N2].
  { eexists. split; [reflexivity|]. rewrite repeat_length. split; auto. intros. rewrite nth_repeat.
    pose proof (coo_entries_length Z0 A OK) as CL. rewrite E in CL. apply length_zero_iff_nil in CL. rewrite CL. auto. }
  rewrite (mapM_ok _ (fun c0 => ent_tile b k c0 (coo_entries A))).
  2:{ intros c0 I. apply coo_tile_ok; auto. pose proof (div_ceil_128 k). unfold tiles in I. apply in_map_iff in I. destruct I as (t & <- & I). apply in_seq in I. lia. }
  cbn [bind]. destruct (tiles_ok UB il b _ _ k (coo_entries A) HI (coo_ents_ok A OK)) as (y & E & L & NY).
  exists y. split; auto.
Qed.

(** ** CSR *)
Lemma nth_upd_iff : forall (y : list F) n v p, (n < length y)%nat -> nth p (upd y n v) f0 = if (p =? n)%nat then v else nth p y f0.
Proof. intros. rewrite nth_upd by auto. destruct (Nat.eqb_spec p n), (Nat.eqb_spec n p); auto; lia. Qed.

Lemma upd_fold : forall (h : nat -> F -> F) c0 m a (y : list F), (c0 + a + m <= length y)%nat ->
  let r := fold_left (fun y c => upd y (c0 + c) (h (c0 + c)%nat (nth (c0 + c) y f0))) (seq a m) y in
  length r = length y /\ forall p, nth p r f0 = if ((c0 + a <=? p) && (p <? c0 + a + m))%nat then h p (nth p y f0) else nth p y f0.
Proof.
  intros h c0 m. induction m; intros a y B; cbn [seq fold_left].
  - split; auto. intros p. destruct (Nat.leb_spec (c0 + a) p), (Nat.ltb_spec p (c0 + a + 0)); auto; lia.
  - destruct (IHm (S a) (upd y (c0 + a) (h (c0 + a)%nat (nth (c0 + a) y f0)))) as [L N]; [rewrite upd_length; lia|].
    rewrite upd_length in L. split; auto. intros p. rewrite N. rewrite nth_upd_iff by lia.
    destruct (Nat.eqb_spec p (c0 + a)) as [->|NE].
    + destruct (Nat.leb_spec (c0 + S a) (c0 + a)); [lia|]. cbn [andb]. rewrite Nat.leb_refl. destruct (Nat.ltb_spec (c0 + a) (c0 + a + S m)); [auto|lia].
    + replace (c0 + a + S m)%nat with (c0 + S a + m)%nat by lia.
      destruct (Nat.leb_spec (c0 + S a) p), (Nat.leb_spec (c0 + a) p); auto; lia.
Qed.

Section Row.
Variables (b : list F) (nc k : nat).
Hypothesis AC : alloc_ok (nc * k).
Hypothesis LB : length b = (nc * k)%nat.

Definition term (c : nat) (e : Z * F) : F := fmul (snd e) (nth (Z.to_nat (fst e)) (column b nc k c) f0).

Lemma read_b : forall j c, 0 <= j < Z.of_nat nc -> (c < k)%nat -> alloc_ok nc ->
  nth_error b (Z.to_nat (flat_index (to_usize j) k c)) = Some (nth (Z.to_nat j) (column b nc k c) f0).
Proof.
  intros j c Hj Hc AN. rewrite to_usize_id by (unfold alloc_ok, i64_max, usize_max in *; lia).
  destruct (flat_small nc k j c AC Hj Hc) as [E B]. rewrite E, column_nth by lia.
  rewrite (nth_error_nth' b f0) by nia. f_equal. f_equal. nia.
Qed.

Lemma row_axpy_ok : forall c0 tk yi e, alloc_ok nc -> length yi = k -> (c0 + tk <= k)%nat -> 0 <= fst e < Z.of_nat nc ->
  exists yi', row_axpy b k c0 tk yi e = Ok yi' /\ length yi' = k /\
    forall p, nth p yi' f0 = if ((c0 <=? p) && (p <? c0 + tk))%nat then fadd (nth p yi f0) (term p e) else nth p yi f0.
Proof.
  intros c0 tk yi e AN LY Hk He. unfold row_axpy. cbv zeta.
  set (g := fun (y : list F) c => upd y (c0 + c) ((fun p v => fadd v (term p e)) (c0 + c)%nat (nth (c0 + c) y f0))).
  destruct (upd_fold (fun p v => fadd v (term p e)) c0 tk 0 yi ltac:(lia)) as [L N]. rewrite Nat.add_0_r in N.
  exists (fold_left g (seq 0 tk) yi). split; [|split; [cbv zeta in L; unfold g; lia|exact N]].
  refine (proj1 (simd_loop_ok _ _ g (fun y => length y = k) tk yi _ _)); auto.
  intros y c Ly Hc. unfold get_unchecked, get_checked, g. rewrite read_b by (auto; lia). cbn [bind].
  rewrite (nth_error_nth' y f0) by lia. cbn [bind]. unfold term. rewrite (MC (nth _ _ _) (snd e)). rewrite upd_length. auto.
Qed.

Lemma row_axpy_fold : forall c0 tk r yi, alloc_ok nc -> length yi = k -> (c0 + tk <= k)%nat -> Forall (fun e => 0 <= fst e < Z.of_nat nc) r ->
  exists yi', foldM (row_axpy b k c0 tk) r yi = Ok yi' /\ length yi' = k /\
    forall p, nth p yi' f0 = if ((c0 <=? p) && (p <? c0 + tk))%nat then fold_left fadd (map (term p) r) (nth p yi f0) else nth p yi f0.
Proof.
  intros c0 tk r. induction r as [|e r IH]; intros yi AN LY Hk FR; cbn [foldM map fold_left].
  - exists yi. split; auto. split; auto. intros p. destruct (_ && _)%nat; auto.
  - inversion FR; subst. destruct (row_axpy_ok c0 tk yi e AN LY Hk) as (y1 & E1 & L1 & N1); auto. rewrite E1. cbn [bind].
    destruct (IH y1 AN L1 Hk) as (y2 & E2 & L2 & N2); auto. exists y2. split; auto. split; auto. intros p. rewrite N2, N1.
    destruct (_ && _)%nat; auto.
Qed.

Lemma row_dot_ok : forall c0 tk r yi, alloc_ok nc -> length yi = k -> (c0 + tk <= k)%nat -> Forall (fun e => 0 <= fst e < Z.of_nat nc) r ->
  exists yi', row_dot b k c0 tk r yi = Ok yi' /\ length yi' = k /\
    forall p, nth p yi' f0 = if ((c0 <=? p) && (p <? c0 + tk))%nat then fold_left fadd (map (term p) r) f0 else nth p yi f0.
Proof.
  intros c0 tk r yi AN LY Hk FR. unfold row_dot.
  set (G := fun p => fold_left fadd (map (term p) r) f0).
  assert (D1 : forall c, (c0 + c < k)%nat -> foldM (fun acc e => let! bv := get_unchecked b (Z.to_nat (flat_index (to_usize (fst e)) k (c0 + c))) in Ok (fadd acc (fmul bv (snd e)))) r f0 = Ok (G (c0 + c)%nat)).
  { intros c Hc. unfold G. rewrite (foldM_pure _ (fun acc e => fadd acc (term (c0 + c) e))).
    - generalize (f0 : F). clear. induction r; intros; auto. cbn [fold_left map]. auto.
    - intros s a Ia. rewrite Forall_forall in FR. specialize (FR _ Ia). unfold get_unchecked. rewrite read_b by auto. cbn [bind]. unfold term. rewrite MC. auto. }
  assert (D2 : forall c, (c0 + c < k)%nat -> foldM (fun acc e => let! bv := get_unchecked b (Z.to_nat (flat_index (to_usize (fst e)) k (c0 + c))) in Ok (fadd acc (fmul (snd e) bv))) r f0 = Ok (G (c0 + c)%nat)).
  { intros c Hc. unfold G. rewrite (foldM_pure _ (fun acc e => fadd acc (term (c0 + c) e))).
    - generalize (f0 : F). clear. induction r; intros; auto. cbn [fold_left map]. auto.
    - intros s a Ia. rewrite Forall_forall in FR. specialize (FR _ Ia). unfold get_unchecked. rewrite read_b by auto. cbn [bind]. auto. }
  set (g := fun (y : list F) c => upd y (c0 + c) ((fun p (_ : F) => G p) (c0 + c)%nat (nth (c0 + c) y f0))).
  destruct (upd_fold (fun p _ => G p) c0 tk 0 yi ltac:(lia)) as [L N]. rewrite Nat.add_0_r in N.
  exists (fold_left g (seq 0 tk) yi). split; [|split; [cbv zeta in L; unfold g; lia|exact N]].
  refine (proj1 (simd_loop_ok _ _ g (fun y => length y = k) tk yi _ _)); auto.
  intros y c Ly Hc. rewrite D1, D2 by lia. cbn [bind]. destruct (Nat.ltb_spec (c0 + c) (length y)); [|lia]. unfold g. rewrite upd_length. auto.
Qed.

Lemma tiles_fold : forall (body : list F -> nat -> res (list F)) (G : nat -> F),
  (forall yi c0, length yi = k -> (c0 <= k)%nat -> (forall p, (c0 <= p)%nat -> nth p yi f0 = f0) ->
     exists yi', body yi c0 = Ok yi' /\ length yi' = k /\
       forall p, nth p yi' f0 = if ((c0 <=? p) && (p <? Nat.min (c0 + 128) k))%nat then G p else nth p yi f0) ->
  foldM body (tiles k) (repeat f0 k) = Ok (map G (seq 0 k)).
Proof.
  intros body G H. pose proof (div_ceil_128 k) as [D1 D2]. unfold tiles.
  assert (K : forall m, (m <= div_ceil k 128)%nat -> exists yi, foldM body (map (fun t => t * 128)%nat (seq 0 m)) (repeat f0 k) = Ok yi /\ length yi = k /\
     forall p, nth p yi f0 = if (p <? Nat.min (m * 128) k)%nat then G p else f0).
  { induction m; intros Hm.
    - exists (repeat f0 k). split; auto. rewrite repeat_length. split; auto. intros p. rewrite nth_repeat. destruct (Nat.ltb_spec p (Nat.min (0 * 128) k)); auto; lia.
    - destruct IHm as (yi & E & L & N); [lia|]. rewrite seq_S, map_app, foldM_app, E. cbn [bind map foldM]. change (0 + m)%nat with m.
      destruct (H yi (m * 128)%nat L) as (y2 & E2 & L2 & N2); [lia| |].
      { intros p Hp. rewrite N. destruct (Nat.ltb_spec p (Nat.min (m * 128) k)); auto; lia. }
      rewrite E2. cbn [bind]. exists y2. split; auto. split; auto. intros p. rewrite N2, N.
      replace (m * 128 + 128)%nat with (S m * 128)%nat by lia.
      destruct (Nat.leb_spec (m * 128) p), (Nat.ltb_spec p (Nat.min (S m * 128) k)), (Nat.ltb_spec p (Nat.min (m * 128) k)); cbn [andb]; auto; lia. }
  destruct (K (div_ceil k 128) (le_n _)) as (yi & E & L & N). rewrite E. f_equal.
  apply nth_ext with (d := f0) (d' := G 0%nat); [rewrite map_length, seq_length; auto|]. intros p Hp. rewrite N, map_nth, seq_nth by lia.
  destruct (Nat.ltb_spec p (Nat.min (div_ceil k 128 * 128) k)); auto; lia.
Qed.
End Row.

Definition csr_cell (A : Csr F) (b : list F) (k i c : nat) : F :=
  fold_left fadd (map (term b (csr_ncols A) k c) (cs_row A i)) f0.

Lemma spmm_row_ok : forall (A : Csr F) b k i, cs_ok A -> alloc_ok (length (dat A)) -> alloc_ok (csr_ncols A) -> alloc_ok (csr_ncols A * k) ->
  length b = (csr_ncols A * k)%nat -> (i < csr_nrows A)%nat ->
  spmm_row A b k i (repeat f0 k) = Ok (map (csr_cell A b k i) (seq 0 k)).
Proof.
  intros A b k i OK AD AN AC LB Hi. unfold spmm_row. rewrite slice_nnz_ok by auto. cbn [bind]. generalize (Z.of_nat (length (cs_row A i))) as n. intros n.
  rewrite row_checked_ok by auto. cbn [bind].
  pose proof (row_bounds A i OK Hi) as B. unfold in_bounds in B.
  assert (FR : Forall (fun e => 0 <= fst e < Z.of_nat (csr_ncols A)) (cs_row A i)).
  { eapply Forall_impl; [|exact B]. intros e He. cbv beta in He. unfold csr_ncols. tauto. }
  apply (tiles_fold b (csr_ncols A) k LB). intros yi c0 LY H0 ZY. cbv zeta.
  assert (EK : (c0 + (Nat.min (c0 + 128) k - c0))%nat = Nat.min (c0 + 128) k) by lia.
  destruct ((n <=? 8) && (128 <=? Z.of_nat k)).
  - destruct (row_axpy_fold b (csr_ncols A) k AC LB c0 (Nat.min (c0 + 128) k - c0) (cs_row A i) yi) as (y' & E & L & N); auto; [lia|].
    exists y'. split; auto. split; auto. intros p. rewrite N, EK. destruct (Nat.leb_spec c0 p); cbn [andb]; auto.
    destruct (_ <? _)%nat; auto. rewrite ZY by auto. auto.
  - destruct (row_dot_ok b (csr_ncols A) k AC LB c0 (Nat.min (c0 + 128) k - c0) (cs_row A i) yi) as (y' & E & L & N); auto; [lia|].
    exists y'. split; auto. split; auto. intros p. rewrite N, EK. auto.
Qed.

Lemma pieces_repeat : forall k n fuel, (0 < k)%nat -> (n * k <= fuel)%nat -> pieces fuel k (repeat (f0 : F) (n * k)) = repeat (repeat f0 k) n.
Proof.
  intros k n. induction n; intros fuel Hk HF.
  - destruct fuel; auto.
  - destruct fuel as [|fuel]; [lia|]. cbn [pieces]. destruct (repeat f0 (S n * k)) eqn:E.
    { apply (f_equal (@length F)) in E. rewrite repeat_length in E. simpl in E. lia. }
    rewrite <- E. replace (S n * k)%nat with (k + n * k)%nat by lia. rewrite repeat_app.
    rewrite firstn_app, skipn_app, repeat_length, Nat.sub_diag. cbn [firstn skipn]. rewrite app_nil_r.
    rewrite firstn_all2 by (rewrite repeat_length; auto). rewrite skipn_all2 by (rewrite repeat_length; auto). cbn [app repeat]. f_equal. apply IHn; auto. lia.
Qed.

Lemma combine_seq_repeat : forall {X} (v : X) n a, combine (seq a n) (repeat v n) = map (fun i => (i, v)) (seq a n).
Proof. induction n; intros; simpl; auto. rewrite IHn. auto. Qed.

Lemma mapM_map : forall {X Y W} (f : Y -> res W) (g : X -> Y) l, mapM f (map g l) = mapM (fun a => f (g a)) l.
Proof. induction l; auto. cbn [map mapM]. rewrite IHl. auto. Qed.

Lemma spmm_csr_ok : forall (A : Csr F) b k, (0 < k)%nat -> cs_ok A -> alloc_ok (length (dat A)) -> alloc_ok (csr_ncols A) ->
  alloc_ok (csr_nrows A * k) -> alloc_ok (csr_ncols A * k) -> length b = (csr_ncols A * k)%nat ->
  spmm_csr A b k = Ok (concat (map (fun i => map (csr_cell A b k i) (seq 0 k)) (seq 0 (csr_nrows A)))).
Proof.
  intros A b k Hk OK AD AN AR AC LB. unfold spmm_csr. rewrite b_ok_true, y_len_ok by auto.
  unfold par_chunks. rewrite (proj2 (Nat.eqb_neq k 0)) by lia. cbn [bind].
  rewrite repeat_length. rewrite pieces_repeat by auto. rewrite repeat_length, combine_seq_repeat, mapM_map. cbn [fst snd].
  rewrite (mapM_ok _ (fun i => map (csr_cell A b k i) (seq 0 k))). { auto. }
  intros i I. apply in_seq in I. apply spmm_row_ok; auto. lia.
Qed.

Lemma csr_terms_cell : forall (A : Csr F) b k i c, cs_ok A -> (i < csr_nrows A)%nat ->
  Permutation (map (term b (csr_ncols A) k c) (cs_row A i)) (dot_terms (csr_at A) (csr_ncols A) (column b (csr_ncols A) k c) i).
Proof.
  intros A b k i c OK Hi. apply (row_terms_perm (csr_ncols A) (column b (csr_ncols A) k c) (cs_row A i)).
  pose proof (row_bounds A i OK Hi) as B. unfold in_bounds in B. eapply Forall_impl; [|exact B]. intros e He. cbv beta in He. unfold csr_ncols. tauto.
Qed.

End Spmm.
