(** Properties C01-C03: construction of matrices. *)
Require Import List ZArith Bool Lia.
Require Import Verif.Res Verif.Spec Verif.MCore Verif.PCore.
Import ListNotations.
Local Open Scope Z_scope.

(** C01, CSR. [canonical] is spelled out in Spec.v. The hypotheses say that the
    arrays are machine arrays ([Vec<i64>] elements, length fits in usize). *)
Theorem C01_csr_checked_construction :
  forall (V : Type) nrows ncols indptr indices (data : list V),
  Z.of_nat (length indptr) <= usize_max -> Forall is_i64 indices ->
  ((exists A, csr_from_parts nrows ncols indptr indices data true = Some A) <->
     canonical (mkCs nrows ncols indptr indices data)) /\
  (forall A, csr_from_parts nrows ncols indptr indices data true = Some A ->
     csr_nrows A = nrows /\ csr_ncols A = ncols /\ ptr A = indptr /\ idx A = indices /\ dat A = data).
Proof.
  intros V nrows ncols indptr indices data H1 H2. split.
  - exact (cs_from_parts_iff nrows ncols indptr indices data H1 H2).
  - intros A E. apply cs_from_parts_value in E. subst A. repeat split.
Qed.
Print Assumptions C01_csr_checked_construction.

Example C01_csr_accepts :
  csr_from_parts 3 4 [0; 2; 2; 3] [0; 3; 1] [10; 20; 30] true
  = Some (mkCs 3 4 [0; 2; 2; 3] [0; 3; 1] [10; 20; 30]).
Proof. reflexivity. Qed.
Example C01_csr_rejects :
  csr_from_parts 2 4 [0; 2; 1] [0; 3] [10; 20] true = None /\
  csr_from_parts 1 4 [0; 2] [3; 3] [10; 20] true = None /\
  csr_from_parts 1 4 [0; 2] [3; 4] [10; 20] true = None.
Proof. repeat split. Qed.

(** C01, CSC: [mkCs ncols nrows ...], the columns are the major dimension. *)
Theorem C01_csc_checked_construction :
  forall (V : Type) nrows ncols indptr indices (data : list V),
  Z.of_nat (length indptr) <= usize_max -> Forall is_i64 indices ->
  ((exists A, csc_from_parts nrows ncols indptr indices data true = Some A) <->
     canonical (mkCs ncols nrows indptr indices data)) /\
  (forall A, csc_from_parts nrows ncols indptr indices data true = Some A ->
     csc_nrows A = nrows /\ csc_ncols A = ncols /\ ptr A = indptr /\ idx A = indices /\ dat A = data).
Proof.
  intros V nrows ncols indptr indices data H1 H2. split.
  - exact (cs_from_parts_iff ncols nrows indptr indices data H1 H2).
  - intros A E. apply cs_from_parts_value in E. subst A. repeat split.
Qed.
Print Assumptions C01_csc_checked_construction.

Example C01_csc_accepts :
  csc_from_parts 4 3 [0; 2; 2; 3] [0; 3; 1] [10; 20; 30] true
  = Some (mkCs 3 4 [0; 2; 2; 3] [0; 3; 1] [10; 20; 30]).
Proof. reflexivity. Qed.

(** C02: COO. No panic, accepted iff in bounds, duplicates allowed. *)
Theorem C02_coo_checked_construction :
  forall (V : Type) nrows ncols row col (data : list V),
  Forall is_i64 row -> Forall is_i64 col ->
  exists r, coo_from_parts nrows ncols row col data true = Ok r /\
    (r = Some (mkCoo nrows ncols row col data) <-> coo_ok (mkCoo nrows ncols row col data)) /\
    (r = None <-> ~ coo_ok (mkCoo nrows ncols row col data)).
Proof. intros. apply coo_from_parts_iff; auto. Qed.
Print Assumptions C02_coo_checked_construction.

Example C02_coo_accepts_duplicates :
  coo_from_parts 2 3 [1; 1; 0] [2; 2; 0] [7; 8; 9] true = Ok (Some (mkCoo 2 3 [1; 1; 0] [2; 2; 0] [7; 8; 9])) /\
  coo_from_parts 2 3 [1; 2] [2; 2] [7; 8] true = Ok None.
Proof. split; reflexivity. Qed.

(** C02: N-dimensional COO. *)
Theorem C02_coond_checked_construction :
  forall (V : Type) shape indices (data : list V),
  Forall is_i64 indices -> Z.of_nat (length indices) <= usize_max ->
  exists r, nd_from_parts shape indices data true = Ok r /\
    (r = Some (mkNd shape indices data) <-> nd_ok (mkNd shape indices data)) /\
    (r = None <-> ~ nd_ok (mkNd shape indices data)).
Proof. intros. apply nd_from_parts_iff; auto. Qed.
Print Assumptions C02_coond_checked_construction.

Example C02_coond_accepts :
  nd_from_parts [2; 3; 4] [1; 2; 3; 0; 0; 0] [7; 8] true = Ok (Some (mkNd [2; 3; 4] [1; 2; 3; 0; 0; 0] [7; 8])) /\
  nd_from_parts [2; 3; 4] [1; 2; 4; 0; 0; 0] [7; 8] true = Ok None.
Proof. split; reflexivity. Qed.

(** C03: with [check = false] exactly the length, first-pointer and last-pointer
    conditions are tested. *)
Theorem C03_csr_unchecked_construction :
  forall (V : Type) nrows ncols indptr indices (data : list V),
  Z.of_nat (length indptr) <= usize_max ->
  ((exists A, csr_from_parts nrows ncols indptr indices data false = Some A) <->
   (length indptr = S nrows /\ length indices = length data /\
    nth_error indptr nrows = Some (Z.of_nat (length indices)) /\ nth_error indptr 0 = Some 0)).
Proof. intros. apply (cs_from_parts_unchecked_iff nrows ncols indptr indices data H). Qed.
Print Assumptions C03_csr_unchecked_construction.

Theorem C03_csc_unchecked_construction :
  forall (V : Type) nrows ncols indptr indices (data : list V),
  Z.of_nat (length indptr) <= usize_max ->
  ((exists A, csc_from_parts nrows ncols indptr indices data false = Some A) <->
   (length indptr = S ncols /\ length indices = length data /\
    nth_error indptr ncols = Some (Z.of_nat (length indices)) /\ nth_error indptr 0 = Some 0)).
Proof. intros. apply (cs_from_parts_unchecked_iff ncols nrows indptr indices data H). Qed.
Print Assumptions C03_csc_unchecked_construction.

(** ... so non-canonical matrices can be built. *)
Theorem C03_unchecked_can_be_invalid :
  exists A : Csr Z, csr_from_parts 2 2 [0; 5; 1] [7] [1] false = Some A /\ ~ cs_ok A.
Proof.
  eexists. split; [reflexivity|]. intros OK.
  pose proof (ok_mono _ OK 1%nat 5 1 eq_refl eq_refl). lia.
Qed.
Print Assumptions C03_unchecked_can_be_invalid.

Example C03_example : csr_from_parts 2 2 [0; 1; 2] [1; 1] [5; 6] false <> None /\ csr_from_parts 2 2 [0; 2; 1] [1; 1] [5; 6] false = None /\
  nd_from_parts [2; 2] [9; 9] [5] false = Ok (Some (mkNd [2; 2] [9; 9] [5])).
Proof. repeat split; discriminate. Qed.

Theorem C03_coo_unchecked_construction :
  forall (V : Type) nrows ncols row col (data : list V),
  exists r, coo_from_parts nrows ncols row col data false = Ok r /\
    (r = Some (mkCoo nrows ncols row col data) <-> length row = length data /\ length col = length data) /\
    (r = None <-> ~ (length row = length data /\ length col = length data)).
Proof. intros. apply coo_from_parts_unchecked_iff. Qed.
Print Assumptions C03_coo_unchecked_construction.

Theorem C03_coond_unchecked_construction :
  forall (V : Type) shape indices (data : list V),
  Z.of_nat (length indices) <= usize_max ->
  exists r, nd_from_parts shape indices data false = Ok r /\
    (r = Some (mkNd shape indices data) <->
       shape <> [] /\ length indices = (length data * length shape)%nat) /\
    (r = None <-> ~ (shape <> [] /\ length indices = (length data * length shape)%nat)).
Proof. intros. apply nd_from_parts_unchecked_iff; auto. Qed.
Print Assumptions C03_coond_unchecked_construction.
