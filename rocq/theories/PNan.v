(** Proofs for C90: sums, products and fused sums of doubles that contain a NaN. *)
Require Import List ZArith Bool Arith Lia Permutation.
Require Import Coq.Floats.SpecFloat.
Require Import Verif.Res Verif.Values Verif.Spec Verif.SpecReduce Verif.SpecDiff Verif.SpecCall2 Verif.PropDiff.
Import ListNotations.
Local Open Scope Z_scope.

Section Pw.
Context {pw : spec_float -> spec_float -> spec_float}.
Notation F := (f64 pw).
Notation nan := (S754_nan : F).

Lemma add_l : forall x : F, fadd nan x = nan.
Proof. reflexivity. Qed.
Lemma add_r : forall x : F, fadd x nan = nan.
Proof. intros [| | |]; reflexivity. Qed.
Lemma sub_r : forall x : F, fsub x nan = nan.
Proof. intros [| | |]; reflexivity. Qed.
Lemma mul_l : forall x : F, fmul nan x = nan.
Proof. reflexivity. Qed.
Lemma mul_r : forall x : F, fmul x nan = nan.
Proof. intros [| | |]; reflexivity. Qed.
Lemma div_l : forall x : F, fdiv nan x = nan.
Proof. reflexivity. Qed.
Lemma fma_1 : forall x y : F, ffma nan x y = nan.
Proof. intros [| | |] [| | |]; reflexivity. Qed.
Lemma fma_2 : forall x y : F, ffma x nan y = nan.
Proof. intros [| | |] [| | |]; reflexivity. Qed.
Lemma fma_3 : forall x y : F, ffma x y nan = nan.
Proof. intros [| | |] [| | |]; reflexivity. Qed.

Lemma sum_nan : forall (l : list F) v, FSum l v -> In nan l -> v = nan.
Proof.
  intros l v S. induction S as [z E|x|l1 l2 x y S1 IH1 S2 IH2|l l' x P S IH]; intros I.
  - destruct I.
  - destruct I as [I|[]]. exact I.
  - apply in_app_or in I. destruct I as [I|I]; [rewrite (IH1 I); apply add_l|rewrite (IH2 I); apply add_r].
  - apply IH. apply (Permutation_in _ (Permutation_sym P) I).
Qed.
Lemma prod_nan : forall (l : list F) v, FProd l v -> In nan l -> v = nan.
Proof.
  intros l v S. induction S as [|x|l1 l2 x y S1 IH1 S2 IH2|l l' x P S IH]; intros I.
  - destruct I.
  - destruct I as [I|[]]. exact I.
  - apply in_app_or in I. destruct I as [I|I]; [rewrite (IH1 I); apply mul_l|rewrite (IH2 I); apply mul_r].
  - apply IH. apply (Permutation_in _ (Permutation_sym P) I).
Qed.
Lemma one_or_nan : forall l : list F, one_or f0 l = nan -> In nan l.
Proof. intros [|x [|? ?]] E; cbn [one_or] in E; try discriminate E; subst; left; reflexivity. Qed.

(** A line of cells. *)
Lemma line_sum : forall {J} (cell : J -> list F) js v, FSum (flat_map cell js) v -> In nan (map (fun j => one_or f0 (cell j)) js) -> v = nan.
Proof.
  intros J cell js v S I. apply (sum_nan _ _ S). apply in_map_iff in I. destruct I as (j & E & I). apply in_flat_map. exists j. split; [exact I|apply one_or_nan; exact E].
Qed.
Lemma line_prod : forall {J} (cell : J -> list F) js v, prod_spec cell js v -> Forall (fun j => cell j <> []) js -> In nan (map (fun j => one_or f0 (cell j)) js) -> v = nan.
Proof. intros J cell js v [S _] A I. apply (prod_nan _ _ (S A) I). Qed.
Lemma line_squares : forall {J} (cell : J -> list F) js v, FSum (map (fun x => fmul x x) (flat_map cell js)) v -> In nan (map (fun j => one_or f0 (cell j)) js) -> v = nan.
Proof.
  intros J cell js v S I. apply (sum_nan _ _ S). apply in_map_iff in I. destruct I as (j & E & I). apply in_map_iff. exists nan. split; [reflexivity|]. apply in_flat_map. exists j. split; [exact I|apply one_or_nan; exact E].
Qed.

(** Products with a vector. *)
Lemma dot_nan : forall (cell : nat -> nat -> list F) n x i j v, FSum (dot_terms cell n x i) v -> (j < n)%nat -> In nan (cell i j) \/ (cell i j <> [] /\ nth j x f0 = nan) -> v = nan.
Proof.
  intros cell n x i j v S Hj H. apply (sum_nan _ _ S). unfold dot_terms. apply in_flat_map. exists j. split; [apply in_seq; lia|]. apply in_map_iff. destruct H as [I|[NE E]].
  - exists nan. split; [apply mul_l|exact I].
  - destruct (cell i j) as [|w l]; [contradiction|]. exists w. rewrite E. split; [apply mul_r|left; reflexivity].
Qed.
Lemma fma_from_nan : forall x (row : list (Z * F)), fold_left (fun acc e => ffma (snd e) (nth (Z.to_nat (fst e)) x f0) acc) row nan = nan.
Proof. intros x row. induction row as [|e row IH]; [reflexivity|]. cbn [fold_left]. rewrite fma_3. exact IH. Qed.
Lemma fma_nan : forall x (row : list (Z * F)) e, In e row -> snd e = nan \/ nth (Z.to_nat (fst e)) x f0 = nan -> fma_sum x row = nan.
Proof.
  intros x row e I H. unfold fma_sum. assert (G : forall acc : F, fold_left (fun acc e => ffma (snd e) (nth (Z.to_nat (fst e)) x f0) acc) row acc = nan); [|apply G]. induction row as [|e' row IH]; intros acc; [destruct I|]. cbn [fold_left]. destruct I as [-> |I]; [|apply IH; exact I].
  destruct H as [-> | ->]; [rewrite fma_1|rewrite fma_2]; apply fma_from_nan.
Qed.
Lemma fused_nan : forall (cell : nat -> list F) n x j, (j < n)%nat -> In nan (cell j) \/ (cell j <> [] /\ nth j x f0 = nan) -> fma_sum x (by_column cell n) = nan.
Proof.
  intros cell n x j Hj H. assert (G : exists w, In w (cell j) /\ (w = nan \/ nth j x f0 = nan)).
  { destruct H as [I|[NE E]]; [exists nan; auto|]. destruct (cell j) as [|w l]; [contradiction|]. exists w. split; [left; reflexivity|right; exact E]. }
  destruct G as (w & I & G). apply (fma_nan x _ (Z.of_nat j, w)).
  - unfold by_column. apply in_flat_map. exists j. split; [apply in_seq; lia|]. apply in_map_iff. exists w. auto.
  - cbn [fst snd]. rewrite Nat2Z.id. exact G.
Qed.

(** Differences: a NaN reaches every difference it takes part in. *)
Lemma combined_nan : forall vs out : list F, combined vs out -> In nan vs -> out = [nan].
Proof.
  intros vs out [_ C] I. destruct C as (v & S & ->); [intros ->; destruct I|]. rewrite (sum_nan _ _ S I). reflexivity.
Qed.
Lemma diff_nan : forall t w (c c' : nat -> list F), diff_of t w c c' -> forall j q, (j < w - t)%nat -> (t < w)%nat -> (j <= q <= j + t)%nat -> In nan (c q) -> In nan (c' j).
Proof.
  intros t w c c' D. induction D as [w c c' E|t w c c1 c' C D IH]; intros j q Hj Ht Hq I.
  - rewrite E by lia. replace j with q by lia. exact I.
  - destruct (Nat.eq_dec q (j + S t)) as [->|NE].
    + apply (IH j (j + t)%nat); [lia|lia|lia|]. rewrite (combined_nan _ _ (C (j + t)%nat ltac:(lia))); [left; reflexivity|]. apply in_or_app. right. replace (S (j + t)) with (j + S t)%nat by lia. exact I.
    + apply (IH j q); [lia|lia|lia|]. rewrite (combined_nan _ _ (C q ltac:(lia))); [left; reflexivity|]. apply in_or_app. left. apply in_map_iff. exists nan. split; [reflexivity|exact I].
Qed.
Lemma start_nan : forall t (l : list F), In nan l -> In nan (start t l).
Proof. intros t l I. unfold start. destruct (t =? 0)%nat; [|exact I]. apply filter_In. split; [exact I|reflexivity]. Qed.
End Pw.
