(** Vocabulary for histories of calls on the Python package: which environments and which
    constructor calls are considered, and what it means for an object to be intact. *)
Require Import List ZArith Bool Permutation.
Require Import Verif.Res Verif.Values Verif.Spec Verif.PConvert3 Verif.MPy Verif.MObj.
Import ListNotations.
Local Open Scope Z_scope.

Section Obj.
Context {F : Fl}.

(** The environment may order parallel steps and resolve ties as it likes, but runs every
    step once, sorts correctly, and starts sums from a zero. *)
Record fair (e : Env F) : Prop := {
  fair_il : forall n, is_interleaving (e_il e n);
  fair_ilo : is_interleaving (e_ilo e);
  fair_sch : forall n, is_schedule (e_sch e n);
  fair_schv : is_schedule (e_schv e);
  fair_schc : is_schedule (e_schc e);
  fair_schz : forall n, is_schedule (e_schz e n);
  fair_schu : is_schedule (e_schu e);
  fair_dist : is_distribution (e_dist e);
  fair_srt : forall n, is_sorter pair_le (e_srt e n);
  fair_srt2 : is_sorter key2_le (e_srt2 e);
  fair_ord : forall l, Permutation l (e_ord e l);
  fair_zero : feqb (e_zero e) f0 = true
}.

(** Arrays given to a constructor are valid ones. For [CSR(..., check=True)] nothing is
    required beyond what NumPy ensures (64-bit indices, fewer than 2^63 - 1 elements): the
    constructor checks. The other constructors do not reject bad arrays (C52), whatever
    [check] is. *)
Definition valid_arguments (c : call F) : Prop :=
  match c with
  | NewCsr nr nc p i d check => alloc_ok (length p) /\ Forall is_i64 i /\ (check = true \/ cs_ok (mkCs nr nc p i d))
  | NewCsc nr nc p i d _ => cs_ok (mkCs nc nr p i d)
  | NewCoo nr nc r c d _ => coo_ok (mkCoo nr nc r c d)
  | NewNd sh i d _ => nd_ok (mkNd sh i d)
  | _ => True
  end.

(** The object's arrays are valid and describe a matrix of its shape, and the native
    handle, if there is one, has the same structure and as many values. *)
Definition intact (v : value F) : Prop :=
  match v with
  | VCsr X | VCsc X =>
      cs_ok (py_arrays X) /\
      forall H, py_handle X = Some H ->
        major H = major (py_arrays X) /\ minor H = minor (py_arrays X) /\ ptr H = ptr (py_arrays X) /\
        idx H = idx (py_arrays X) /\ length (dat H) = length (dat (py_arrays X))
  | VCoo X =>
      coo_ok (pyc_arrays X) /\
      forall H, pyc_handle X = Some H ->
        coo_nrows H = coo_nrows (pyc_arrays X) /\ coo_ncols H = coo_ncols (pyc_arrays X) /\
        coo_row H = coo_row (pyc_arrays X) /\ coo_col H = coo_col (pyc_arrays X) /\
        length (coo_data H) = length (coo_data (pyc_arrays X))
  | VNd A => nd_ok A
  | VArr sh d => length d = fold_right Nat.mul 1%nat sh
  | VInts sh d => length d = fold_right Nat.mul 1%nat sh
  | VBools sh d => length d = fold_right Nat.mul 1%nat sh
  end.

(** The native handle holds exactly the object's arrays. *)
Definition in_sync (v : value F) : Prop :=
  match v with
  | VCsr X | VCsc X => forall H, py_handle X = Some H -> H = py_arrays X
  | VCoo X => forall H, pyc_handle X = Some H -> H = pyc_arrays X
  | _ => True
  end.
Definition is_set_data (c : call F) : bool := match c with SetData _ _ _ => true | _ => false end.

(** What a program can read off an object: its shape and its values (for sparse objects the array [data]). *)
Definition data_of (v : value F) : list nat * list F :=
  match v with
  | VCsr X => ([csr_nrows (py_arrays X); csr_ncols (py_arrays X)], dat (py_arrays X))
  | VCsc X => ([csc_nrows (py_arrays X); csc_ncols (py_arrays X)], dat (py_arrays X))
  | VCoo X => ([coo_nrows (pyc_arrays X); coo_ncols (pyc_arrays X)], coo_data (pyc_arrays X))
  | VNd A => (map Z.to_nat (nd_shape A), nd_dat A)
  | VArr sh d => (sh, d)
  | VInts sh d => (sh, map fofZ d)
  | VBools sh d => (sh, map (fun b : bool => if b then f1 else f0) d)
  end.
Definition objects (o : outcome F) : option (list (list nat * list F)) :=
  match o with Running h => Some (map data_of h) | _ => None end.
Lemma objects_running : forall o x, objects o = Some x -> exists h, o = Running h /\ map data_of h = x.
Proof. intros [h| |] x H; try discriminate H. injection H as <-. eauto. Qed.
Definition has_crashed (o : outcome F) : bool := match o with Crashed => true | _ => false end.
Lemma has_crashed_iff : forall o, has_crashed o = true -> o = Crashed.
Proof. intros [h| |] H; try discriminate H. reflexivity. Qed.
End Obj.
