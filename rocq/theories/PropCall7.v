(** Property theorems about single calls, continued: building objects (C67). *)
Require Import List ZArith Bool Arith Lia Permutation.
Require Import ZifyBool ZifyNat.
Require Verif.PDense Verif.PropNd.
Require Import Verif.Res Verif.Values Verif.Spec Verif.Mem Verif.Lists Verif.CsLib Verif.Laws Verif.FloatFacts Verif.Witness Verif.PropLinalg Verif.PropScalar Verif.SpecReduce Verif.SpecPy Verif.MCore Verif.MPy Verif.PPy Verif.PPy2 Verif.PropPy Verif.PropPy2 Verif.PropStat Verif.MObj Verif.SpecObj Verif.PObj Verif.PropObj Verif.SpecCall Verif.SpecCall2 Verif.PCall Verif.PCall2 Verif.PCall3 Verif.PropCall.
Import ListNotations.
Local Open Scope Z_scope.

(** [CSR(...)], [CSC(...)], [COO(...)], [COOND(...)] given valid arrays: the object has these
    arrays and this shape, with or without checks. *)
Theorem C67_valid_arrays : forall (F : Fl) (e : Env F) h nr nc p i r c sh ix (d : list F) check, alloc_ok nr -> alloc_ok nc ->
  (canonical (mkCs nr nc p i d) -> step e h (NewCsr nr nc p i d check) = Ok (h ++ [VCsr (mkPyCs (mkCs nr nc p i d) (Some (mkCs nr nc p i d)))])) /\
  (canonical (mkCs nc nr p i d) -> step e h (NewCsc nr nc p i d check) = Ok (h ++ [VCsc (mkPyCs (mkCs nc nr p i d) (Some (mkCs nc nr p i d)))])) /\
  (coo_ok (mkCoo nr nc r c d) -> step e h (NewCoo nr nc r c d check) = Ok (h ++ [VCoo (mkPyCoo (mkCoo nr nc r c d) (Some (mkCoo nr nc r c d)))])) /\
  (nd_ok (mkNd sh ix d) -> step e h (NewNd sh ix d check) = Ok (h ++ [VNd (mkNd sh ix d)])).
Proof.
  intros F e h nr nc p i r c sh ix d check A1 A2. split; [|split; [|split]].
  - intros C. cbn [step exec]. unfold csr_init. rewrite (PDense.from_parts_ok (mkCs nr nc p i d) (can_ok _ C) A1 : csr_from_parts nr nc p i d false = _). destruct check; [|reflexivity].
    assert (U : Z.of_nat (length (ptr (mkCs nr nc p i d))) <= usize_max) by (rewrite (ok_ptr_len _ (can_ok _ C)); cbn [major]; unfold alloc_ok, usize_max, i64_max in *; lia).
    rewrite (PDense.from_parts_check (mkCs nr nc p i d) C U : csr_from_parts nr nc p i d true = _). reflexivity.
  - intros C. cbn [step exec]. unfold csc_init.
    assert (U : Z.of_nat (length (ptr (mkCs nc nr p i d))) <= usize_max) by (rewrite (ok_ptr_len _ (can_ok _ C)); cbn [major]; unfold alloc_ok, usize_max, i64_max in *; lia).
    assert (E : csc_from_parts nr nc p i d check = Some (mkCs nc nr p i d)).
    { destruct check; [apply (PDense.from_parts_check (mkCs nc nr p i d)); auto|apply (PDense.from_parts_ok (mkCs nc nr p i d)); [apply C|exact A2]]. }
    rewrite E. reflexivity.
  - intros C. cbn [step exec]. unfold coo_init. rewrite (PDense.coo_from_parts_ok _ check C : coo_from_parts nr nc r c d check = _). reflexivity.
  - intros [ND NL _]. cbn [nd_shape nd_idx nd_dat] in *. cbn [step exec]. unfold nd_init. destruct sh as [|s sh]; [congruence|]. cbn [length Nat.eqb] in *. rewrite NL, Nat.mod_mul by lia. reflexivity.
Qed.
Print Assumptions C67_valid_arrays.

(** Invalid arrays: [CSR(..., check=True)] raises exactly then; the other classes keep them as
    they are (C52); COOND looks at the number of coordinates only. *)
Theorem C67_invalid_arrays : forall (F : Fl) (e : Env F) h nr nc p i r c sh ix (d : list F) check,
  Z.of_nat (length p) <= usize_max -> Forall is_i64 i -> Forall is_i64 r -> Forall is_i64 c ->
  (~ canonical (mkCs nr nc p i d) -> step e h (NewCsr nr nc p i d true) = Panic) /\
  (exists hd, step e h (NewCsr nr nc p i d false) = Ok (h ++ [VCsr (mkPyCs (mkCs nr nc p i d) hd)])) /\
  (exists hd, step e h (NewCsc nr nc p i d check) = Ok (h ++ [VCsc (mkPyCs (mkCs nc nr p i d) hd)]) /\ (check = true -> ~ canonical (mkCs nc nr p i d) -> hd = None)) /\
  (exists hd, step e h (NewCoo nr nc r c d true) = Ok (h ++ [VCoo (mkPyCoo (mkCoo nr nc r c d) hd)]) /\ (~ coo_ok (mkCoo nr nc r c d) -> hd = None)) /\
  (step e h (NewNd sh ix d check) = if (length sh =? 0)%nat || negb (length ix mod length sh =? 0)%nat then Panic else Ok (h ++ [VNd (mkNd sh ix d)])).
Proof.
  intros F e h nr nc p i r c sh ix d check HP HI HR HC. split; [|split; [|split; [|split]]].
  - intros NC. cbn [step exec]. rewrite (proj2 (C52_csr F nr nc p i d HP HI) NC). reflexivity.
  - eexists. reflexivity.
  - cbn [step exec]. unfold csc_init. eexists. split; [reflexivity|]. intros -> NC. destruct (C52_csc_partial F nr nc p i d HP HI) as (hd & E & _ & H). unfold csc_init in E. injection E as ->. auto.
  - destruct (C52_coo_partial F nr nc r c d HR HC) as (hd & E & _ & H). exists hd. cbn [step exec]. rewrite E. split; [reflexivity|]. apply H.
  - cbn [step exec]. unfold nd_init. destruct (length sh =? 0)%nat; [reflexivity|]. destruct (length ix mod length sh =? 0)%nat; reflexivity.
Qed.
Print Assumptions C67_invalid_arrays.

(** [zeros], [eye], [diag] and dense arrays. *)
Theorem C67_generated : forall (F : Fl) (e : Env F) (h : list (value F)),
  (forall nr nc, exists y, step e h (Zeros nr nc) = Ok (h ++ [y]) /\ class_of y = Some CsrClass /\ shape2 y = (nr, nc) /\ forall i j, stored y i j = []) /\
  (forall n, alloc_ok n -> exists y, step e h (Eye n) = Ok (h ++ [y]) /\ class_of y = Some CsrClass /\ shape2 y = (n, n) /\
     forall i j, (i < n)%nat -> stored y i j = if (i =? j)%nat then [f1] else []) /\
  (forall d, alloc_ok (length d) -> exists y, step e h (Diag d) = Ok (h ++ [y]) /\ class_of y = Some CsrClass /\ shape2 y = (length d, length d) /\
     forall i j, (i < length d)%nat -> stored y i j = if (i =? j)%nat then [nth i d f0] else []) /\
  (forall sh d, step e h (NewArr sh d) = if (length d =? fold_right Nat.mul 1 sh)%nat then Ok (h ++ [VArr sh d]) else Panic).
Proof.
  intros F e h. split; [|split; [|split]].
  - intros nr nc. destruct (C46_zeros F nr nc) as ((_ & R & K & H) & _). destruct (csr_new_is (zeros_csr (F := F) nr nc)) as [hd E]. eexists. split; [cbn [step exec]; rewrite E; reflexivity|].
    split; [reflexivity|]. split; [reflexivity|]. exact H.
  - intros n A. destruct (C46_eye F n A) as (_ & R & K & H). destruct (csr_new_is (eye_csr (F := F) n)) as [hd E]. eexists. split; [cbn [step exec]; rewrite E; reflexivity|].
    split; [reflexivity|]. split; [reflexivity|]. exact H.
  - intros d A. destruct (C46_diag F d A) as (_ & R & K & H). destruct (csr_new_is (diag_csr d)) as [hd E]. eexists. split; [cbn [step exec]; rewrite E; reflexivity|].
    split; [reflexivity|]. split; [reflexivity|]. exact H.
  - intros sh d. cbn [step exec]. unfold new_arr, reshape_to. destruct (_ =? _)%nat; reflexivity.
Qed.
Print Assumptions C67_generated.

(** *** The theorems apply *)
Example C67_valid_arrays_nonvacuous : alloc_ok 2 /\ alloc_ok 3 /\
  canonical (mkCs 2 3 [0; 2; 3] [0; 2; 1] [fz 1; fz (-2); fz 4]) /\ coo_ok (mkCoo 2 3 [1; 0; 1] [0; 2; 0] [fz 7; fz (-1); fz 2]) /\ nd_ok (mkNd [2; 1; 3] [0; 0; 1; 1; 0; 2] [fz 6; fz 8]).
Proof. split; [reflexivity|]. split; [reflexivity|]. split; [apply canonical_literal; reflexivity|]. split; [apply coo_ok_literal; reflexivity|apply PropNd.nd_ok_literal; reflexivity]. Qed.
Example C67_invalid_arrays_nonvacuous :
  step env2 [] (NewCsr 1 2 [0; 1] [2] [fz 1] true) = Panic /\
  step env2 [] (NewCsc 2 1 [0; 1] [2] [fz 1] true) = Ok ([] ++ [VCsc (mkPyCs (mkCs 1 2 [0; 1] [2] [fz 1]) None)]) /\
  step env2 [] (NewNd [2; 2] [0; 1; 1] [fz 1] true) = Panic.
Proof.
  assert (NC : ~ canonical (mkCs 1 2 [0; 1] [2] [fz 1])) by (intros [OK _]; assert (B := ok_bound _ OK 0%nat 2 eq_refl); cbn in B; lia).
  assert (I : Forall is_i64 [2]) by (repeat constructor; discriminate). assert (I0 : Forall is_i64 []) by constructor.
  destruct (C67_invalid_arrays _ env2 [] 1 2 [0; 1] [2] [] [] [2; 2] [0; 1; 1] [fz 1] true ltac:(discriminate) I I0 I0) as (H1 & _ & _ & _ & H5).
  destruct (C67_invalid_arrays _ env2 [] 2 1 [0; 1] [2] [] [] [2; 2] [0; 1; 1] [fz 1] true ltac:(discriminate) I I0 I0) as (_ & _ & (hd & E & H3) & _).
  split; [apply H1; exact NC|]. split; [rewrite E, (H3 eq_refl NC); reflexivity|]. rewrite H5. reflexivity.
Qed.
Example C67_generated_nonvacuous : exists y, step env2 state2 (Diag [fz 4; fz 5]) = Ok (state2 ++ [y]) /\ shape2 y = (2, 2)%nat /\ stored y 1 1 = [fz 5] /\ stored y 0 1 = [] /\
  step env2 state2 (NewArr [2; 2]%nat [fz 1; fz 2]) = Panic.
Proof.
  destruct (C67_generated _ env2 state2) as (_ & _ & H & HA). destruct (H [fz 4; fz 5] ltac:(reflexivity)) as (y & E & _ & S & V). exists y. split; [exact E|]. split; [exact S|].
  split; [rewrite V by (cbn; lia); reflexivity|]. split; [rewrite V by (cbn; lia); reflexivity|]. rewrite HA. reflexivity.
Qed.
