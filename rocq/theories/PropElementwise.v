(** Properties C11-C15: binary elementwise kernels on CSR and CSC.
    [f64 pw] is IEEE-754 binary64 with an arbitrary [powf = pw]; [qc] is exact
    rational arithmetic. [sch] is the order in which the parallel tasks' writes
    take effect. *)
Require Import List ZArith Bool Lia Permutation.
Require Import Coq.Floats.SpecFloat.
Require Import Verif.Res Verif.Values Verif.Spec Verif.Mem Verif.Lists Verif.CsLib Verif.Laws.
Require Import Verif.MElementwise Verif.PElementwise Verif.PElementwise2 Verif.Witness.
Import ListNotations.
Local Open Scope Z_scope.

(** C11, CSR: addition. *)
Theorem C11_add_csr : forall pw sch (A B : Csr (f64 pw)),
  is_schedule sch -> canonical A -> canonical B ->
  csr_nrows A = csr_nrows B -> csr_ncols A = csr_ncols B ->
  exists C : Csr (f64 pw), add_csr sch A B = Ok C /\ canonical C /\
    csr_nrows C = csr_nrows A /\ csr_ncols C = csr_ncols A /\
    (forall v, In v (dat C) -> feqb v f0 = false) /\
    (forall i j, (i < csr_nrows A)%nat -> (j < csr_ncols A)%nat ->
       feqv (csr_val f0 C i j) (fadd (csr_val f0 A i j) (csr_val f0 B i j))).
Proof.
  intros pw sch A B HS CA CB E1 E2.
  destruct (add_correct (f64_laws pw) sch A B HS CA CB E1 E2) as (C & EC & CC & M1 & M2 & NZ & V).
  exists C. repeat (split; [assumption|]). intros i j Hi Hj. apply V. assumption.
Qed.
Print Assumptions C11_add_csr.

(** The same in exact arithmetic: equality of the cells. *)
Theorem C11_add_csr_exact : forall sch (A B : Csr qc),
  is_schedule sch -> canonical A -> canonical B ->
  csr_nrows A = csr_nrows B -> csr_ncols A = csr_ncols B ->
  exists C : Csr qc, add_csr sch A B = Ok C /\ canonical C /\
    csr_nrows C = csr_nrows A /\ csr_ncols C = csr_ncols A /\
    (forall v, In v (dat C) -> v <> f0) /\
    (forall i j, (i < csr_nrows A)%nat -> (j < csr_ncols A)%nat ->
       csr_val f0 C i j = fadd (csr_val f0 A i j) (csr_val f0 B i j)).
Proof.
  intros sch A B HS CA CB E1 E2.
  destruct (add_correct qc_laws sch A B HS CA CB E1 E2) as (C & EC & CC & M1 & M2 & NZ & V).
  exists C. repeat (split; [assumption|]). split.
  - intros v I E. apply NZ in I. subst v. discriminate.
  - intros i j Hi Hj. apply (feqv_exact qc_elaws). apply V. assumption.
Qed.
Print Assumptions C11_add_csr_exact.

Theorem C11_add_csr_shape_mismatch : forall pw sch (A B : Csr (f64 pw)),
  csr_nrows A <> csr_nrows B \/ csr_ncols A <> csr_ncols B -> add_csr sch A B = Panic.
Proof. intros pw sch A B H. apply binary_cs_shape. unfold csr_nrows, csr_ncols, csc_nrows, csc_ncols in H. tauto. Qed.
Print Assumptions C11_add_csr_shape_mismatch.

(** C11, CSC: addition. *)
Theorem C11_add_csc : forall pw sch (A B : Csc (f64 pw)),
  is_schedule sch -> canonical A -> canonical B ->
  csc_nrows A = csc_nrows B -> csc_ncols A = csc_ncols B ->
  exists C : Csc (f64 pw), add_csc sch A B = Ok C /\ canonical C /\
    csc_nrows C = csc_nrows A /\ csc_ncols C = csc_ncols A /\
    (forall v, In v (dat C) -> feqb v f0 = false) /\
    (forall i j, (i < csc_nrows A)%nat -> (j < csc_ncols A)%nat ->
       feqv (csc_val f0 C i j) (fadd (csc_val f0 A i j) (csc_val f0 B i j))).
Proof.
  intros pw sch A B HS CA CB E1 E2.
  destruct (add_correct (f64_laws pw) sch A B HS CA CB E2 E1) as (C & EC & CC & M1 & M2 & NZ & V).
  exists C. repeat (split; [assumption|]). intros i j Hi Hj. apply V. assumption.
Qed.
Print Assumptions C11_add_csc.

(** The same in exact arithmetic: equality of the cells. *)
Theorem C11_add_csc_exact : forall sch (A B : Csc qc),
  is_schedule sch -> canonical A -> canonical B ->
  csc_nrows A = csc_nrows B -> csc_ncols A = csc_ncols B ->
  exists C : Csc qc, add_csc sch A B = Ok C /\ canonical C /\
    csc_nrows C = csc_nrows A /\ csc_ncols C = csc_ncols A /\
    (forall v, In v (dat C) -> v <> f0) /\
    (forall i j, (i < csc_nrows A)%nat -> (j < csc_ncols A)%nat ->
       csc_val f0 C i j = fadd (csc_val f0 A i j) (csc_val f0 B i j)).
Proof.
  intros sch A B HS CA CB E1 E2.
  destruct (add_correct qc_laws sch A B HS CA CB E2 E1) as (C & EC & CC & M1 & M2 & NZ & V).
  exists C. repeat (split; [assumption|]). split.
  - intros v I E. apply NZ in I. subst v. discriminate.
  - intros i j Hi Hj. apply (feqv_exact qc_elaws). apply V. assumption.
Qed.
Print Assumptions C11_add_csc_exact.

Theorem C11_add_csc_shape_mismatch : forall pw sch (A B : Csc (f64 pw)),
  csc_nrows A <> csc_nrows B \/ csc_ncols A <> csc_ncols B -> add_csc sch A B = Panic.
Proof. intros pw sch A B H. apply binary_cs_shape. unfold csr_nrows, csr_ncols, csc_nrows, csc_ncols in H. tauto. Qed.
Print Assumptions C11_add_csc_shape_mismatch.

(** The witnesses meet the hypotheses of C11-C14, and the kernel computes: *)
Example C11_example :
  canonical WA /\ canonical WB /\ csr_nrows WA = csr_nrows WB /\ csr_ncols WA = csr_ncols WB /\
  add_csr (@rev _) WA WB = Ok (mkCs 3 4 [0; 2; 3; 6] [0; 1; 3; 1; 2; 3]
    [fz 1; fz 5; fz 7; fz (-1); fnan0; finf0]).
Proof. repeat (split; [first [apply WA_canonical|apply WB_canonical|reflexivity]|]). vm_compute. reflexivity. Qed.

(** C12, CSR: subtraction. *)
Theorem C12_sub_csr : forall pw sch (A B : Csr (f64 pw)),
  is_schedule sch -> canonical A -> canonical B ->
  csr_nrows A = csr_nrows B -> csr_ncols A = csr_ncols B ->
  exists C : Csr (f64 pw), sub_csr sch A B = Ok C /\ canonical C /\
    csr_nrows C = csr_nrows A /\ csr_ncols C = csr_ncols A /\
    (forall v, In v (dat C) -> feqb v f0 = false) /\
    (forall i j, (i < csr_nrows A)%nat -> (j < csr_ncols A)%nat ->
       feqv (csr_val f0 C i j) (fsub (csr_val f0 A i j) (csr_val f0 B i j))).
Proof.
  intros pw sch A B HS CA CB E1 E2.
  destruct (sub_correct (f64_laws pw) sch A B HS CA CB E1 E2) as (C & EC & CC & M1 & M2 & NZ & V).
  exists C. repeat (split; [assumption|]). intros i j Hi Hj. apply V. assumption.
Qed.
Print Assumptions C12_sub_csr.

(** The same in exact arithmetic: equality of the cells. *)
Theorem C12_sub_csr_exact : forall sch (A B : Csr qc),
  is_schedule sch -> canonical A -> canonical B ->
  csr_nrows A = csr_nrows B -> csr_ncols A = csr_ncols B ->
  exists C : Csr qc, sub_csr sch A B = Ok C /\ canonical C /\
    csr_nrows C = csr_nrows A /\ csr_ncols C = csr_ncols A /\
    (forall v, In v (dat C) -> v <> f0) /\
    (forall i j, (i < csr_nrows A)%nat -> (j < csr_ncols A)%nat ->
       csr_val f0 C i j = fsub (csr_val f0 A i j) (csr_val f0 B i j)).
Proof.
  intros sch A B HS CA CB E1 E2.
  destruct (sub_correct qc_laws sch A B HS CA CB E1 E2) as (C & EC & CC & M1 & M2 & NZ & V).
  exists C. repeat (split; [assumption|]). split.
  - intros v I E. apply NZ in I. subst v. discriminate.
  - intros i j Hi Hj. apply (feqv_exact qc_elaws). apply V. assumption.
Qed.
Print Assumptions C12_sub_csr_exact.

Theorem C12_sub_csr_shape_mismatch : forall pw sch (A B : Csr (f64 pw)),
  csr_nrows A <> csr_nrows B \/ csr_ncols A <> csr_ncols B -> sub_csr sch A B = Panic.
Proof. intros pw sch A B H. apply binary_cs_shape. unfold csr_nrows, csr_ncols, csc_nrows, csc_ncols in H. tauto. Qed.
Print Assumptions C12_sub_csr_shape_mismatch.

(** C12, CSC: subtraction. *)
Theorem C12_sub_csc : forall pw sch (A B : Csc (f64 pw)),
  is_schedule sch -> canonical A -> canonical B ->
  csc_nrows A = csc_nrows B -> csc_ncols A = csc_ncols B ->
  exists C : Csc (f64 pw), sub_csc sch A B = Ok C /\ canonical C /\
    csc_nrows C = csc_nrows A /\ csc_ncols C = csc_ncols A /\
    (forall v, In v (dat C) -> feqb v f0 = false) /\
    (forall i j, (i < csc_nrows A)%nat -> (j < csc_ncols A)%nat ->
       feqv (csc_val f0 C i j) (fsub (csc_val f0 A i j) (csc_val f0 B i j))).
Proof.
  intros pw sch A B HS CA CB E1 E2.
  destruct (sub_correct (f64_laws pw) sch A B HS CA CB E2 E1) as (C & EC & CC & M1 & M2 & NZ & V).
  exists C. repeat (split; [assumption|]). intros i j Hi Hj. apply V. assumption.
Qed.
Print Assumptions C12_sub_csc.

(** The same in exact arithmetic: equality of the cells. *)
Theorem C12_sub_csc_exact : forall sch (A B : Csc qc),
  is_schedule sch -> canonical A -> canonical B ->
  csc_nrows A = csc_nrows B -> csc_ncols A = csc_ncols B ->
  exists C : Csc qc, sub_csc sch A B = Ok C /\ canonical C /\
    csc_nrows C = csc_nrows A /\ csc_ncols C = csc_ncols A /\
    (forall v, In v (dat C) -> v <> f0) /\
    (forall i j, (i < csc_nrows A)%nat -> (j < csc_ncols A)%nat ->
       csc_val f0 C i j = fsub (csc_val f0 A i j) (csc_val f0 B i j)).
Proof.
  intros sch A B HS CA CB E1 E2.
  destruct (sub_correct qc_laws sch A B HS CA CB E2 E1) as (C & EC & CC & M1 & M2 & NZ & V).
  exists C. repeat (split; [assumption|]). split.
  - intros v I E. apply NZ in I. subst v. discriminate.
  - intros i j Hi Hj. apply (feqv_exact qc_elaws). apply V. assumption.
Qed.
Print Assumptions C12_sub_csc_exact.

Theorem C12_sub_csc_shape_mismatch : forall pw sch (A B : Csc (f64 pw)),
  csc_nrows A <> csc_nrows B \/ csc_ncols A <> csc_ncols B -> sub_csc sch A B = Panic.
Proof. intros pw sch A B H. apply binary_cs_shape. unfold csr_nrows, csr_ncols, csc_nrows, csc_ncols in H. tauto. Qed.
Print Assumptions C12_sub_csc_shape_mismatch.

Example C12_example :
  sub_csr (@rev _) WA WB = Ok (mkCs 3 4 [0; 3; 4; 7] [0; 1; 2; 3; 1; 2; 3]
    [fz 1; fz (-5); fz 4; fz (-7); fz (-5); fnan0; S754_infinity true]).
Proof. vm_compute. reflexivity. Qed.

(** C13, CSR: a cell is stored iff both operands store it and the product is not 0.0. *)
Theorem C13_hadamard_csr : forall pw sch (A B : Csr (f64 pw)),
  is_schedule sch -> canonical A -> canonical B ->
  csr_nrows A = csr_nrows B -> csr_ncols A = csr_ncols B ->
  exists C : Csr (f64 pw), hadamard_csr sch A B = Ok C /\ canonical C /\
    csr_nrows C = csr_nrows A /\ csr_ncols C = csr_ncols A /\
    (forall v, In v (dat C) -> feqb v f0 = false) /\
    (forall i j, (i < csr_nrows A)%nat -> (j < csr_ncols A)%nat ->
       (forall v, csr_at C i j = [v] <->
          exists x y, csr_at A i j = [x] /\ csr_at B i j = [y] /\
            v = fmul x y /\ feqb v f0 = false) /\
       (csr_at C i j = [] \/ exists v, csr_at C i j = [v])).
Proof.
  intros pw sch A B  HS CA CB E1 E2.
  destruct (hadamard_correct (f64_laws pw) sch A B HS CA CB E1 E2) as (C & EC & CC & M1 & M2 & NZ & V).
  exists C. repeat (split; [assumption|]). intros i j Hi Hj. apply V. assumption.
Qed.
Print Assumptions C13_hadamard_csr.

(** C13, CSC: a cell is stored iff both operands store it and the product is not 0.0. *)
Theorem C13_hadamard_csc : forall pw sch (A B : Csc (f64 pw)),
  is_schedule sch -> canonical A -> canonical B ->
  csc_nrows A = csc_nrows B -> csc_ncols A = csc_ncols B ->
  exists C : Csc (f64 pw), hadamard_csc sch A B = Ok C /\ canonical C /\
    csc_nrows C = csc_nrows A /\ csc_ncols C = csc_ncols A /\
    (forall v, In v (dat C) -> feqb v f0 = false) /\
    (forall i j, (i < csc_nrows A)%nat -> (j < csc_ncols A)%nat ->
       (forall v, csc_at C i j = [v] <->
          exists x y, csc_at A i j = [x] /\ csc_at B i j = [y] /\
            v = fmul x y /\ feqb v f0 = false) /\
       (csc_at C i j = [] \/ exists v, csc_at C i j = [v])).
Proof.
  intros pw sch A B  HS CA CB E1 E2.
  destruct (hadamard_correct (f64_laws pw) sch A B HS CA CB E2 E1) as (C & EC & CC & M1 & M2 & NZ & V).
  exists C. repeat (split; [assumption|]). intros i j Hi Hj. apply V. assumption.
Qed.
Print Assumptions C13_hadamard_csc.

Theorem C13_hadamard_csr_shape_mismatch : forall pw sch (A B : Csr (f64 pw)),
  csr_nrows A <> csr_nrows B \/ csr_ncols A <> csr_ncols B -> hadamard_csr sch A B = Panic.
Proof. intros pw sch A B H. apply binary_cs_shape. unfold csr_nrows, csr_ncols, csc_nrows, csc_ncols in H. tauto. Qed.
Print Assumptions C13_hadamard_csr_shape_mismatch.

Theorem C13_hadamard_csc_shape_mismatch : forall pw sch (A B : Csc (f64 pw)),
  csc_nrows A <> csc_nrows B \/ csc_ncols A <> csc_ncols B -> hadamard_csc sch A B = Panic.
Proof. intros pw sch A B H. apply binary_cs_shape. unfold csr_nrows, csr_ncols, csc_nrows, csc_ncols in H. tauto. Qed.
Print Assumptions C13_hadamard_csc_shape_mismatch.

(** Finite operands: the result is the dense product at every cell. *)
Theorem C13_hadamard_csr_dense : forall pw sch (A B : Csr (f64 pw)),
  is_schedule sch -> canonical A -> canonical B ->
  csr_nrows A = csr_nrows B -> csr_ncols A = csr_ncols B ->
  (forall v, In v (dat A) -> ffinite v = true) -> (forall v, In v (dat B) -> ffinite v = true) ->
  exists C : Csr (f64 pw), hadamard_csr sch A B = Ok C /\
    (forall i j, (i < csr_nrows A)%nat -> (j < csr_ncols A)%nat ->
       feqv (csr_val f0 C i j) (fmul (csr_val f0 A i j) (csr_val f0 B i j))).
Proof.
  intros pw sch A B HS CA CB E1 E2 FA FB.
  destruct (hadamard_dense (f64_laws pw) sch A B HS CA CB E1 E2 FA FB) as (C & EC & V).
  exists C. split; [exact EC|]. intros i j Hi Hj. apply V. assumption.
Qed.
Print Assumptions C13_hadamard_csr_dense.

(** Finite operands: the result is the dense product at every cell. *)
Theorem C13_hadamard_csc_dense : forall pw sch (A B : Csc (f64 pw)),
  is_schedule sch -> canonical A -> canonical B ->
  csc_nrows A = csc_nrows B -> csc_ncols A = csc_ncols B ->
  (forall v, In v (dat A) -> ffinite v = true) -> (forall v, In v (dat B) -> ffinite v = true) ->
  exists C : Csc (f64 pw), hadamard_csc sch A B = Ok C /\
    (forall i j, (i < csc_nrows A)%nat -> (j < csc_ncols A)%nat ->
       feqv (csc_val f0 C i j) (fmul (csc_val f0 A i j) (csc_val f0 B i j))).
Proof.
  intros pw sch A B HS CA CB E1 E2 FA FB.
  destruct (hadamard_dense (f64_laws pw) sch A B HS CA CB E2 E1 FA FB) as (C & EC & V).
  exists C. split; [exact EC|]. intros i j Hi Hj. apply V. assumption.
Qed.
Print Assumptions C13_hadamard_csc_dense.

Example C13_example :
  hadamard_csr (@rev _) WA WB = Ok (mkCs 3 4 [0; 1; 1; 4] [2; 1; 2; 3]
    [fz (-4); fz (-6); fnan0; finf0]).
Proof. vm_compute. reflexivity. Qed.

(** C14, CSR: x / y at the common cells with non-zero divisor and finite non-zero quotient. *)
Theorem C14_div_csr : forall pw sch (A B : Csr (f64 pw)),
  is_schedule sch -> canonical A -> canonical B ->
  csr_nrows A = csr_nrows B -> csr_ncols A = csr_ncols B ->
  exists C : Csr (f64 pw), div_csr sch A B = Ok C /\ canonical C /\
    csr_nrows C = csr_nrows A /\ csr_ncols C = csr_ncols A /\
    (forall v, In v (dat C) -> feqb v f0 = false) /\
    (forall i j, (i < csr_nrows A)%nat -> (j < csr_ncols A)%nat ->
       (forall v, csr_at C i j = [v] <->
          exists x y, csr_at A i j = [x] /\ csr_at B i j = [y] /\
            feqb y f0 = false /\ v = fdiv x y /\ feqb v f0 = false /\ ffinite v = true) /\
       (csr_at C i j = [] \/ exists v, csr_at C i j = [v])).
Proof.
  intros pw sch A B  HS CA CB E1 E2.
  destruct (div_correct (f64_laws pw) sch A B HS CA CB E1 E2) as (C & EC & CC & M1 & M2 & NZ & V).
  exists C. repeat (split; [assumption|]). intros i j Hi Hj. apply V. assumption.
Qed.
Print Assumptions C14_div_csr.

(** C14, CSC: x / y at the common cells with non-zero divisor and finite non-zero quotient. *)
Theorem C14_div_csc : forall pw sch (A B : Csc (f64 pw)),
  is_schedule sch -> canonical A -> canonical B ->
  csc_nrows A = csc_nrows B -> csc_ncols A = csc_ncols B ->
  exists C : Csc (f64 pw), div_csc sch A B = Ok C /\ canonical C /\
    csc_nrows C = csc_nrows A /\ csc_ncols C = csc_ncols A /\
    (forall v, In v (dat C) -> feqb v f0 = false) /\
    (forall i j, (i < csc_nrows A)%nat -> (j < csc_ncols A)%nat ->
       (forall v, csc_at C i j = [v] <->
          exists x y, csc_at A i j = [x] /\ csc_at B i j = [y] /\
            feqb y f0 = false /\ v = fdiv x y /\ feqb v f0 = false /\ ffinite v = true) /\
       (csc_at C i j = [] \/ exists v, csc_at C i j = [v])).
Proof.
  intros pw sch A B  HS CA CB E1 E2.
  destruct (div_correct (f64_laws pw) sch A B HS CA CB E2 E1) as (C & EC & CC & M1 & M2 & NZ & V).
  exists C. repeat (split; [assumption|]). intros i j Hi Hj. apply V. assumption.
Qed.
Print Assumptions C14_div_csc.

Theorem C14_div_csr_shape_mismatch : forall pw sch (A B : Csr (f64 pw)),
  csr_nrows A <> csr_nrows B \/ csr_ncols A <> csr_ncols B -> div_csr sch A B = Panic.
Proof. intros pw sch A B H. apply binary_cs_shape. unfold csr_nrows, csr_ncols, csc_nrows, csc_ncols in H. tauto. Qed.
Print Assumptions C14_div_csr_shape_mismatch.

Theorem C14_div_csc_shape_mismatch : forall pw sch (A B : Csc (f64 pw)),
  csc_nrows A <> csc_nrows B \/ csc_ncols A <> csc_ncols B -> div_csc sch A B = Panic.
Proof. intros pw sch A B H. apply binary_cs_shape. unfold csr_nrows, csr_ncols, csc_nrows, csc_ncols in H. tauto. Qed.
Print Assumptions C14_div_csc_shape_mismatch.

(** C14, CSR: x - y*floor(x/y). *)
Theorem C14_rem_csr : forall pw sch (A B : Csr (f64 pw)),
  is_schedule sch -> canonical A -> canonical B ->
  csr_nrows A = csr_nrows B -> csr_ncols A = csr_ncols B ->
  exists C : Csr (f64 pw), rem_csr sch A B = Ok C /\ canonical C /\
    csr_nrows C = csr_nrows A /\ csr_ncols C = csr_ncols A /\
    (forall v, In v (dat C) -> feqb v f0 = false) /\
    (forall i j, (i < csr_nrows A)%nat -> (j < csr_ncols A)%nat ->
       (forall v, csr_at C i j = [v] <->
          exists x y, csr_at A i j = [x] /\ csr_at B i j = [y] /\
            feqb y f0 = false /\ v = fsub x (fmul y (ffloor (fdiv x y))) /\ feqb v f0 = false /\ ffinite v = true) /\
       (csr_at C i j = [] \/ exists v, csr_at C i j = [v])).
Proof.
  intros pw sch A B  HS CA CB E1 E2.
  destruct (rem_correct (f64_laws pw) sch A B HS CA CB E1 E2) as (C & EC & CC & M1 & M2 & NZ & V).
  exists C. repeat (split; [assumption|]). intros i j Hi Hj. apply V. assumption.
Qed.
Print Assumptions C14_rem_csr.

(** C14, CSC: x - y*floor(x/y). *)
Theorem C14_rem_csc : forall pw sch (A B : Csc (f64 pw)),
  is_schedule sch -> canonical A -> canonical B ->
  csc_nrows A = csc_nrows B -> csc_ncols A = csc_ncols B ->
  exists C : Csc (f64 pw), rem_csc sch A B = Ok C /\ canonical C /\
    csc_nrows C = csc_nrows A /\ csc_ncols C = csc_ncols A /\
    (forall v, In v (dat C) -> feqb v f0 = false) /\
    (forall i j, (i < csc_nrows A)%nat -> (j < csc_ncols A)%nat ->
       (forall v, csc_at C i j = [v] <->
          exists x y, csc_at A i j = [x] /\ csc_at B i j = [y] /\
            feqb y f0 = false /\ v = fsub x (fmul y (ffloor (fdiv x y))) /\ feqb v f0 = false /\ ffinite v = true) /\
       (csc_at C i j = [] \/ exists v, csc_at C i j = [v])).
Proof.
  intros pw sch A B  HS CA CB E1 E2.
  destruct (rem_correct (f64_laws pw) sch A B HS CA CB E2 E1) as (C & EC & CC & M1 & M2 & NZ & V).
  exists C. repeat (split; [assumption|]). intros i j Hi Hj. apply V. assumption.
Qed.
Print Assumptions C14_rem_csc.

Theorem C14_rem_csr_shape_mismatch : forall pw sch (A B : Csr (f64 pw)),
  csr_nrows A <> csr_nrows B \/ csr_ncols A <> csr_ncols B -> rem_csr sch A B = Panic.
Proof. intros pw sch A B H. apply binary_cs_shape. unfold csr_nrows, csr_ncols, csc_nrows, csc_ncols in H. tauto. Qed.
Print Assumptions C14_rem_csr_shape_mismatch.

Theorem C14_rem_csc_shape_mismatch : forall pw sch (A B : Csc (f64 pw)),
  csc_nrows A <> csc_nrows B \/ csc_ncols A <> csc_ncols B -> rem_csc sch A B = Panic.
Proof. intros pw sch A B H. apply binary_cs_shape. unfold csr_nrows, csr_ncols, csc_nrows, csc_ncols in H. tauto. Qed.
Print Assumptions C14_rem_csc_shape_mismatch.

(** C14, CSR: floor(x/y). *)
Theorem C14_floordiv_csr : forall pw sch (A B : Csr (f64 pw)),
  is_schedule sch -> canonical A -> canonical B ->
  csr_nrows A = csr_nrows B -> csr_ncols A = csr_ncols B ->
  exists C : Csr (f64 pw), floordiv_csr sch A B = Ok C /\ canonical C /\
    csr_nrows C = csr_nrows A /\ csr_ncols C = csr_ncols A /\
    (forall v, In v (dat C) -> feqb v f0 = false) /\
    (forall i j, (i < csr_nrows A)%nat -> (j < csr_ncols A)%nat ->
       (forall v, csr_at C i j = [v] <->
          exists x y, csr_at A i j = [x] /\ csr_at B i j = [y] /\
            feqb y f0 = false /\ v = ffloor (fdiv x y) /\ feqb v f0 = false /\ ffinite v = true) /\
       (csr_at C i j = [] \/ exists v, csr_at C i j = [v])).
Proof.
  intros pw sch A B  HS CA CB E1 E2.
  destruct (floordiv_correct (f64_laws pw) sch A B HS CA CB E1 E2) as (C & EC & CC & M1 & M2 & NZ & V).
  exists C. repeat (split; [assumption|]). intros i j Hi Hj. apply V. assumption.
Qed.
Print Assumptions C14_floordiv_csr.

(** C14, CSC: floor(x/y). *)
Theorem C14_floordiv_csc : forall pw sch (A B : Csc (f64 pw)),
  is_schedule sch -> canonical A -> canonical B ->
  csc_nrows A = csc_nrows B -> csc_ncols A = csc_ncols B ->
  exists C : Csc (f64 pw), floordiv_csc sch A B = Ok C /\ canonical C /\
    csc_nrows C = csc_nrows A /\ csc_ncols C = csc_ncols A /\
    (forall v, In v (dat C) -> feqb v f0 = false) /\
    (forall i j, (i < csc_nrows A)%nat -> (j < csc_ncols A)%nat ->
       (forall v, csc_at C i j = [v] <->
          exists x y, csc_at A i j = [x] /\ csc_at B i j = [y] /\
            feqb y f0 = false /\ v = ffloor (fdiv x y) /\ feqb v f0 = false /\ ffinite v = true) /\
       (csc_at C i j = [] \/ exists v, csc_at C i j = [v])).
Proof.
  intros pw sch A B  HS CA CB E1 E2.
  destruct (floordiv_correct (f64_laws pw) sch A B HS CA CB E2 E1) as (C & EC & CC & M1 & M2 & NZ & V).
  exists C. repeat (split; [assumption|]). intros i j Hi Hj. apply V. assumption.
Qed.
Print Assumptions C14_floordiv_csc.

Theorem C14_floordiv_csr_shape_mismatch : forall pw sch (A B : Csr (f64 pw)),
  csr_nrows A <> csr_nrows B \/ csr_ncols A <> csr_ncols B -> floordiv_csr sch A B = Panic.
Proof. intros pw sch A B H. apply binary_cs_shape. unfold csr_nrows, csr_ncols, csc_nrows, csc_ncols in H. tauto. Qed.
Print Assumptions C14_floordiv_csr_shape_mismatch.

Theorem C14_floordiv_csc_shape_mismatch : forall pw sch (A B : Csc (f64 pw)),
  csc_nrows A <> csc_nrows B \/ csc_ncols A <> csc_ncols B -> floordiv_csc sch A B = Panic.
Proof. intros pw sch A B H. apply binary_cs_shape. unfold csr_nrows, csr_ncols, csc_nrows, csc_ncols in H. tauto. Qed.
Print Assumptions C14_floordiv_csc_shape_mismatch.

(** C14, CSR: powf at the common cells; 0.0 + x is x with the sign of a zero dropped. *)
Theorem C14_pow_csr : forall pw sch (A B : Csr (f64 pw)),
  is_schedule sch -> canonical A -> canonical B ->
  csr_nrows A = csr_nrows B -> csr_ncols A = csr_ncols B ->
  exists C : Csr (f64 pw), pow_csr sch A B = Ok C /\ canonical C /\
    csr_nrows C = csr_nrows A /\ csr_ncols C = csr_ncols A /\
    (forall v, In v (dat C) -> feqb v f0 = false) /\
    (forall i j, (i < csr_nrows A)%nat -> (j < csr_ncols A)%nat ->
       (forall v, csr_at C i j = [v] <->
          exists x y, csr_at A i j = [x] /\ csr_at B i j = [y] /\
            v = fpow (fadd f0 x) (fadd f0 y) /\ feqb v f0 = false /\ ffinite v = true) /\
       (csr_at C i j = [] \/ exists v, csr_at C i j = [v])).
Proof.
  intros pw sch A B  HS CA CB E1 E2.
  destruct (@pow_correct (f64 pw) sch A B HS CA CB E1 E2) as (C & EC & CC & M1 & M2 & NZ & V).
  exists C. repeat (split; [assumption|]). intros i j Hi Hj. apply V. assumption.
Qed.
Print Assumptions C14_pow_csr.

(** C14, CSC: powf at the common cells; 0.0 + x is x with the sign of a zero dropped. *)
Theorem C14_pow_csc : forall pw sch (A B : Csc (f64 pw)),
  is_schedule sch -> canonical A -> canonical B ->
  csc_nrows A = csc_nrows B -> csc_ncols A = csc_ncols B ->
  exists C : Csc (f64 pw), pow_csc sch A B = Ok C /\ canonical C /\
    csc_nrows C = csc_nrows A /\ csc_ncols C = csc_ncols A /\
    (forall v, In v (dat C) -> feqb v f0 = false) /\
    (forall i j, (i < csc_nrows A)%nat -> (j < csc_ncols A)%nat ->
       (forall v, csc_at C i j = [v] <->
          exists x y, csc_at A i j = [x] /\ csc_at B i j = [y] /\
            v = fpow (fadd f0 x) (fadd f0 y) /\ feqb v f0 = false /\ ffinite v = true) /\
       (csc_at C i j = [] \/ exists v, csc_at C i j = [v])).
Proof.
  intros pw sch A B  HS CA CB E1 E2.
  destruct (@pow_correct (f64 pw) sch A B HS CA CB E2 E1) as (C & EC & CC & M1 & M2 & NZ & V).
  exists C. repeat (split; [assumption|]). intros i j Hi Hj. apply V. assumption.
Qed.
Print Assumptions C14_pow_csc.

Theorem C14_pow_csr_shape_mismatch : forall pw sch (A B : Csr (f64 pw)),
  csr_nrows A <> csr_nrows B \/ csr_ncols A <> csr_ncols B -> pow_csr sch A B = Panic.
Proof. intros pw sch A B H. apply binary_cs_shape. unfold csr_nrows, csr_ncols, csc_nrows, csc_ncols in H. tauto. Qed.
Print Assumptions C14_pow_csr_shape_mismatch.

Theorem C14_pow_csc_shape_mismatch : forall pw sch (A B : Csc (f64 pw)),
  csc_nrows A <> csc_nrows B \/ csc_ncols A <> csc_ncols B -> pow_csc sch A B = Panic.
Proof. intros pw sch A B H. apply binary_cs_shape. unfold csr_nrows, csr_ncols, csc_nrows, csc_ncols in H. tauto. Qed.
Print Assumptions C14_pow_csc_shape_mismatch.

(** C14, CSR: for a powf that distinguishes the two zeros at most between two zero or two non-finite results. *)
Theorem C14_pow_csr_zero_sign : forall pw sch (A B : Csr (f64 pw)),
  (forall x x' y y' : f64 pw, feqv x x' -> feqv y y' ->
     feqv (fpow x y) (fpow x' y') \/ (ffinite (fpow x y) = false /\ ffinite (fpow x' y') = false)) ->
  is_schedule sch -> canonical A -> canonical B ->
  csr_nrows A = csr_nrows B -> csr_ncols A = csr_ncols B ->
  exists C : Csr (f64 pw), pow_csr sch A B = Ok C /\ canonical C /\
    csr_nrows C = csr_nrows A /\ csr_ncols C = csr_ncols A /\
    (forall v, In v (dat C) -> feqb v f0 = false) /\
    (forall i j, (i < csr_nrows A)%nat -> (j < csr_ncols A)%nat ->
       (forall v, csr_at C i j = [v] <->
          exists x y, csr_at A i j = [x] /\ csr_at B i j = [y] /\
            v = fpow x y /\ feqb v f0 = false /\ ffinite v = true) /\
       (csr_at C i j = [] \/ exists v, csr_at C i j = [v])).
Proof.
  intros pw sch A B HP HS CA CB E1 E2.
  destruct (pow_correct_zero_sign (f64_laws pw) HP sch A B HS CA CB E1 E2) as (C & EC & CC & M1 & M2 & NZ & V).
  exists C. repeat (split; [assumption|]). intros i j Hi Hj. apply V. assumption.
Qed.
Print Assumptions C14_pow_csr_zero_sign.

(** C14, CSC: for a powf that distinguishes the two zeros at most between two zero or two non-finite results. *)
Theorem C14_pow_csc_zero_sign : forall pw sch (A B : Csc (f64 pw)),
  (forall x x' y y' : f64 pw, feqv x x' -> feqv y y' ->
     feqv (fpow x y) (fpow x' y') \/ (ffinite (fpow x y) = false /\ ffinite (fpow x' y') = false)) ->
  is_schedule sch -> canonical A -> canonical B ->
  csc_nrows A = csc_nrows B -> csc_ncols A = csc_ncols B ->
  exists C : Csc (f64 pw), pow_csc sch A B = Ok C /\ canonical C /\
    csc_nrows C = csc_nrows A /\ csc_ncols C = csc_ncols A /\
    (forall v, In v (dat C) -> feqb v f0 = false) /\
    (forall i j, (i < csc_nrows A)%nat -> (j < csc_ncols A)%nat ->
       (forall v, csc_at C i j = [v] <->
          exists x y, csc_at A i j = [x] /\ csc_at B i j = [y] /\
            v = fpow x y /\ feqb v f0 = false /\ ffinite v = true) /\
       (csc_at C i j = [] \/ exists v, csc_at C i j = [v])).
Proof.
  intros pw sch A B HP HS CA CB E1 E2.
  destruct (pow_correct_zero_sign (f64_laws pw) HP sch A B HS CA CB E2 E1) as (C & EC & CC & M1 & M2 & NZ & V).
  exists C. repeat (split; [assumption|]). intros i j Hi Hj. apply V. assumption.
Qed.
Print Assumptions C14_pow_csc_zero_sign.

Example C14_example :
  div_csr (@rev _) WB WA = Ok (mkCs 3 4 [0; 1; 1; 2] [2; 1] [fz (-1); SFdiv prec emax (fz 2) (fz (-3))]) /\
  rem_csr (@rev _) WB WA = Ok (mkCs 3 4 [0; 0; 0; 1] [1] [fz (-1)]) /\
  floordiv_csr (@rev _) WB WA = Ok (mkCs 3 4 [0; 1; 1; 2] [2; 1] [fz (-1); fz (-1)]) /\
  pow_csr (@rev _) WB WA = Ok (mkCs 3 4 [0; 1; 1; 3] [2; 1; 2] [fz (-2); fz 2; fz 8]).
Proof. repeat split; vm_compute; reflexivity. Qed.
(** A [powf] meeting the hypothesis of the [_zero_sign] theorems. *)
Example C14_zero_sign_example : forall x x' y y' : f64 pw0, feqv x x' -> feqv y y' ->
  feqv (fpow x y) (fpow x' y') \/ (ffinite (fpow x y) = false /\ ffinite (fpow x' y') = false).
Proof. intros. left. exact H. Qed.

(** C15: the two passes agree on every pair of row segments with i64 indices,
    sorted or not, with or without repetitions. *)
Theorem C15_add_passes_agree : forall pw (a b : list (Z * f64 pw)),
  Forall (fun e => fst e <= i64_max) a -> Forall (fun e => fst e <= i64_max) b ->
  exists out, add_row_fill a b = Ok out /\ add_row_count a b = Ok (length out).
Proof. intros; apply add_agree; assumption. Qed.
Print Assumptions C15_add_passes_agree.

Theorem C15_sub_passes_agree : forall pw (a b : list (Z * f64 pw)),
  Forall (fun e => fst e <= i64_max) a -> Forall (fun e => fst e <= i64_max) b ->
  exists out, sub_row_fill a b = Ok out /\ sub_row_count a b = Ok (length out).
Proof. intros; apply sub_agree; assumption. Qed.
Print Assumptions C15_sub_passes_agree.

Theorem C15_hadamard_passes_agree : forall pw (a b : list (Z * f64 pw)),
  Forall (fun e => fst e <= i64_max) a -> Forall (fun e => fst e <= i64_max) b ->
  exists out, hadamard_row_fill a b = Ok out /\ hadamard_row_count a b = Ok (length out).
Proof. intros; apply hadamard_agree. Qed.
Print Assumptions C15_hadamard_passes_agree.

Theorem C15_div_passes_agree : forall pw (a b : list (Z * f64 pw)),
  Forall (fun e => fst e <= i64_max) a -> Forall (fun e => fst e <= i64_max) b ->
  exists out, div_row_fill a b = Ok out /\ div_row_count a b = Ok (length out).
Proof. intros; apply div_agree. Qed.
Print Assumptions C15_div_passes_agree.

Theorem C15_pow_passes_agree : forall pw (a b : list (Z * f64 pw)),
  Forall (fun e => fst e <= i64_max) a -> Forall (fun e => fst e <= i64_max) b ->
  exists out, pow_row_fill a b = Ok out /\ pow_row_count a b = Ok (length out).
Proof. intros; apply pow_agree. Qed.
Print Assumptions C15_pow_passes_agree.

Theorem C15_rem_passes_agree : forall pw (a b : list (Z * f64 pw)),
  Forall (fun e => fst e <= i64_max) a -> Forall (fun e => fst e <= i64_max) b ->
  exists out, rem_row_fill a b = Ok out /\ rem_row_count a b = Ok (length out).
Proof. intros; apply rem_agree. Qed.
Print Assumptions C15_rem_passes_agree.

Theorem C15_floordiv_passes_agree : forall pw (a b : list (Z * f64 pw)),
  Forall (fun e => fst e <= i64_max) a -> Forall (fun e => fst e <= i64_max) b ->
  exists out, floordiv_row_fill a b = Ok out /\ floordiv_row_count a b = Ok (length out).
Proof. intros; apply floordiv_agree. Qed.
Print Assumptions C15_floordiv_passes_agree.

(** C15: hence, on every pair of structurally valid operands and for every order
    of the row tasks, no kernel panics, reads or writes out of bounds, or exposes
    an uninitialised slot (all of which the model reports as [Panic] or [UB]). *)
Theorem C15_add_csr_safe : forall pw sch (A B : Csr (f64 pw)),
  is_schedule sch -> cs_ok A -> cs_ok B ->
  csr_nrows A = csr_nrows B -> csr_ncols A = csr_ncols B ->
  exists C, add_csr sch A B = Ok C.
Proof.
  intros pw sch A B HS OA OB E1 E2.
  exact (safe_generic add_row_count add_row_fill (fun a b Ha Hb => C15_add_passes_agree pw a b Ha Hb) sch A B HS OA OB E1 E2).
Qed.
Print Assumptions C15_add_csr_safe.

Theorem C15_add_csc_safe : forall pw sch (A B : Csc (f64 pw)),
  is_schedule sch -> cs_ok A -> cs_ok B ->
  csc_nrows A = csc_nrows B -> csc_ncols A = csc_ncols B ->
  exists C, add_csc sch A B = Ok C.
Proof.
  intros pw sch A B HS OA OB E1 E2.
  exact (safe_generic add_row_count add_row_fill (fun a b Ha Hb => C15_add_passes_agree pw a b Ha Hb) sch A B HS OA OB E2 E1).
Qed.
Print Assumptions C15_add_csc_safe.

Theorem C15_sub_csr_safe : forall pw sch (A B : Csr (f64 pw)),
  is_schedule sch -> cs_ok A -> cs_ok B ->
  csr_nrows A = csr_nrows B -> csr_ncols A = csr_ncols B ->
  exists C, sub_csr sch A B = Ok C.
Proof.
  intros pw sch A B HS OA OB E1 E2.
  exact (safe_generic sub_row_count sub_row_fill (fun a b Ha Hb => C15_sub_passes_agree pw a b Ha Hb) sch A B HS OA OB E1 E2).
Qed.
Print Assumptions C15_sub_csr_safe.

Theorem C15_sub_csc_safe : forall pw sch (A B : Csc (f64 pw)),
  is_schedule sch -> cs_ok A -> cs_ok B ->
  csc_nrows A = csc_nrows B -> csc_ncols A = csc_ncols B ->
  exists C, sub_csc sch A B = Ok C.
Proof.
  intros pw sch A B HS OA OB E1 E2.
  exact (safe_generic sub_row_count sub_row_fill (fun a b Ha Hb => C15_sub_passes_agree pw a b Ha Hb) sch A B HS OA OB E2 E1).
Qed.
Print Assumptions C15_sub_csc_safe.

Theorem C15_hadamard_csr_safe : forall pw sch (A B : Csr (f64 pw)),
  is_schedule sch -> cs_ok A -> cs_ok B ->
  csr_nrows A = csr_nrows B -> csr_ncols A = csr_ncols B ->
  exists C, hadamard_csr sch A B = Ok C.
Proof.
  intros pw sch A B HS OA OB E1 E2.
  exact (safe_generic hadamard_row_count hadamard_row_fill (fun a b _ _ => hadamard_agree a b) sch A B HS OA OB E1 E2).
Qed.
Print Assumptions C15_hadamard_csr_safe.

Theorem C15_hadamard_csc_safe : forall pw sch (A B : Csc (f64 pw)),
  is_schedule sch -> cs_ok A -> cs_ok B ->
  csc_nrows A = csc_nrows B -> csc_ncols A = csc_ncols B ->
  exists C, hadamard_csc sch A B = Ok C.
Proof.
  intros pw sch A B HS OA OB E1 E2.
  exact (safe_generic hadamard_row_count hadamard_row_fill (fun a b _ _ => hadamard_agree a b) sch A B HS OA OB E2 E1).
Qed.
Print Assumptions C15_hadamard_csc_safe.

Theorem C15_div_csr_safe : forall pw sch (A B : Csr (f64 pw)),
  is_schedule sch -> cs_ok A -> cs_ok B ->
  csr_nrows A = csr_nrows B -> csr_ncols A = csr_ncols B ->
  exists C, div_csr sch A B = Ok C.
Proof.
  intros pw sch A B HS OA OB E1 E2.
  exact (safe_generic div_row_count div_row_fill (fun a b _ _ => div_agree a b) sch A B HS OA OB E1 E2).
Qed.
Print Assumptions C15_div_csr_safe.

Theorem C15_div_csc_safe : forall pw sch (A B : Csc (f64 pw)),
  is_schedule sch -> cs_ok A -> cs_ok B ->
  csc_nrows A = csc_nrows B -> csc_ncols A = csc_ncols B ->
  exists C, div_csc sch A B = Ok C.
Proof.
  intros pw sch A B HS OA OB E1 E2.
  exact (safe_generic div_row_count div_row_fill (fun a b _ _ => div_agree a b) sch A B HS OA OB E2 E1).
Qed.
Print Assumptions C15_div_csc_safe.

Theorem C15_pow_csr_safe : forall pw sch (A B : Csr (f64 pw)),
  is_schedule sch -> cs_ok A -> cs_ok B ->
  csr_nrows A = csr_nrows B -> csr_ncols A = csr_ncols B ->
  exists C, pow_csr sch A B = Ok C.
Proof.
  intros pw sch A B HS OA OB E1 E2.
  exact (safe_generic pow_row_count pow_row_fill (fun a b _ _ => pow_agree a b) sch A B HS OA OB E1 E2).
Qed.
Print Assumptions C15_pow_csr_safe.

Theorem C15_pow_csc_safe : forall pw sch (A B : Csc (f64 pw)),
  is_schedule sch -> cs_ok A -> cs_ok B ->
  csc_nrows A = csc_nrows B -> csc_ncols A = csc_ncols B ->
  exists C, pow_csc sch A B = Ok C.
Proof.
  intros pw sch A B HS OA OB E1 E2.
  exact (safe_generic pow_row_count pow_row_fill (fun a b _ _ => pow_agree a b) sch A B HS OA OB E2 E1).
Qed.
Print Assumptions C15_pow_csc_safe.

Theorem C15_rem_csr_safe : forall pw sch (A B : Csr (f64 pw)),
  is_schedule sch -> cs_ok A -> cs_ok B ->
  csr_nrows A = csr_nrows B -> csr_ncols A = csr_ncols B ->
  exists C, rem_csr sch A B = Ok C.
Proof.
  intros pw sch A B HS OA OB E1 E2.
  exact (safe_generic rem_row_count rem_row_fill (fun a b _ _ => rem_agree a b) sch A B HS OA OB E1 E2).
Qed.
Print Assumptions C15_rem_csr_safe.

Theorem C15_rem_csc_safe : forall pw sch (A B : Csc (f64 pw)),
  is_schedule sch -> cs_ok A -> cs_ok B ->
  csc_nrows A = csc_nrows B -> csc_ncols A = csc_ncols B ->
  exists C, rem_csc sch A B = Ok C.
Proof.
  intros pw sch A B HS OA OB E1 E2.
  exact (safe_generic rem_row_count rem_row_fill (fun a b _ _ => rem_agree a b) sch A B HS OA OB E2 E1).
Qed.
Print Assumptions C15_rem_csc_safe.

Theorem C15_floordiv_csr_safe : forall pw sch (A B : Csr (f64 pw)),
  is_schedule sch -> cs_ok A -> cs_ok B ->
  csr_nrows A = csr_nrows B -> csr_ncols A = csr_ncols B ->
  exists C, floordiv_csr sch A B = Ok C.
Proof.
  intros pw sch A B HS OA OB E1 E2.
  exact (safe_generic floordiv_row_count floordiv_row_fill (fun a b _ _ => floordiv_agree a b) sch A B HS OA OB E1 E2).
Qed.
Print Assumptions C15_floordiv_csr_safe.

Theorem C15_floordiv_csc_safe : forall pw sch (A B : Csc (f64 pw)),
  is_schedule sch -> cs_ok A -> cs_ok B ->
  csc_nrows A = csc_nrows B -> csc_ncols A = csc_ncols B ->
  exists C, floordiv_csc sch A B = Ok C.
Proof.
  intros pw sch A B HS OA OB E1 E2.
  exact (safe_generic floordiv_row_count floordiv_row_fill (fun a b _ _ => floordiv_agree a b) sch A B HS OA OB E2 E1).
Qed.
Print Assumptions C15_floordiv_csc_safe.

(** C15: the slots written in the fill pass are exactly 0 .. nnz-1, each once. *)
Theorem C15_slots_disjoint_and_cover : forall (V : Type) (rs : list (list V)),
  map fst (all_writes (psum 0 (map (@length V) rs)) rs) = seq 0 (length (concat rs)).
Proof. intros. rewrite all_writes_psum. apply combine_seq_map_fst. Qed.
Print Assumptions C15_slots_disjoint_and_cover.

(** Unsorted operands with repetitions meet the hypotheses of C15. *)
Example C15_example :
  let A := mkCs 1 4 [0; 4] [3; 1; 1; 0] [fz 1; fz 2; fz 3; fz 4] : Cs (f64 pw0) in
  let B := mkCs 1 4 [0; 3] [1; 0; 1] [fz 5; fz 6; fz 7] : Cs (f64 pw0) in
  cs_ok A /\ cs_ok B /\ exists C, add_csr (@rev _) A B = Ok C /\ length (idx C) = 6%nat.
Proof.
  split; [apply cs_ok_literal; reflexivity|]. split; [apply cs_ok_literal; reflexivity|].
  eexists. split; vm_compute; reflexivity.
Qed.
