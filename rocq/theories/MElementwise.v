(** Model of the binary elementwise kernels on CSR and CSC
    (crates/lacuna-kernels/src/elementwise).

    A row segment (pointer pair plus length) is the list of its (index, value)
    pairs; advancing [pa] / [pb] is moving to the tail. The output of a [*_fill]
    function is the list of (index, value) pairs written to [out_i[dst]],
    [out_v[dst]] for dst = 0, 1, ...; [two_pass] (Mem.v) places it at the row
    start. The [while] loops take a fuel argument; running out of it is
    [Diverge], which the theorems exclude. *)
Require Import List ZArith Bool Arith.
Require Import Verif.Res Verif.Values Verif.Spec Verif.Mem.
Import ListNotations.
Local Open Scope Z_scope.

Section Elementwise.
Context {F : Fl}.
Notation row := (list (Z * F)).

(** [while p < len && i[p] == j { v = f(v, x[p]); p += 1 }]
    e.g. add.rs L89-L92; returns the final [v] and the unread rest. *)
Fixpoint run (f : F -> F -> F) (j : Z) (v : F) (r : row) : F * row :=
  match r with
  | [] => (v, [])
  | (k, x) :: r' => if k =? j then run f j (f v x) r' else (v, r)
  end.

(** [while p < len && i[p] == j { p += 1 }], e.g. multiply.rs L454-L459. *)
Fixpoint skip_run (j : Z) (r : row) : row :=
  match r with
  | [] => []
  | (k, x) :: r' => if k =? j then skip_run j r' else r
  end.

(** [if p < len { i[p] } else { i64::MAX }], add.rs L77-L86. *)
Definition head_or_max (r : row) : Z := match r with [] => i64_max | (k, _) :: _ => k end.

(** [p < len], add.rs L76 *)
Definition is_nil (r : row) : bool := match r with [] => true | _ => false end.

(** [v != 0.0] *)
Definition nonzero (v : F) : bool := negb (feqb v f0).

(** *** Union kernels *)

(** Loop of [add_row_count] (add.rs L65-L102) with [g] the update applied to the
    entries of B ([+=]); [sub_row_count] (subtract.rs L71-L108) is the same loop
    with [-=]. *)
Fixpoint merge_count (g : F -> F -> F) (fuel : nat) (a b : row) : res nat :=
  if is_nil a && is_nil b then Ok O
  else match fuel with
  | O => Diverge
  | S fuel' =>
      let ja := head_or_max a in
      let jb := head_or_max b in
      let j := if ja <=? jb then ja else jb in
      let (v, a') := run fadd j f0 a in
      let (v, b') := run g j v b in
      let! cnt := merge_count g fuel' a' b' in
      Ok (if nonzero v then S cnt else cnt)
  end.

(** Loop of [add_row_fill] (add.rs L126-L169). *)
Fixpoint merge_fill (g : F -> F -> F) (fuel : nat) (a b : row) : res row :=
  if is_nil a && is_nil b then Ok []
  else match fuel with
  | O => Diverge
  | S fuel' =>
      let ja := head_or_max a in
      let jb := head_or_max b in
      let j := if ja <=? jb then ja else jb in
      let (v, a') := run fadd j f0 a in
      let (v, b') := run g j v b in
      let! out := merge_fill g fuel' a' b' in
      Ok (if nonzero v then (j, v) :: out else out)
  end.

(** Loop of [sub_row_fill] (subtract.rs L132-L193). *)
Fixpoint sub_fill (fuel : nat) (a b : row) : res row :=
  if is_nil a && is_nil b then Ok []
  else match fuel with
  | O => Diverge
  | S fuel' =>
      let ja := head_or_max a in
      let jb := head_or_max b in
      if ja <=? jb then
        let j := ja in
        let (v, a') := run fadd j f0 a in
        let (v, b') := if jb =? j then run fsub j v b else (v, b) in
        let! out := sub_fill fuel' a' b' in
        Ok (if nonzero v then (j, v) :: out else out)
      else
        let j := jb in
        let (v, b') := run fsub j f0 b in
        let! out := sub_fill fuel' a b' in
        Ok (if nonzero v then (j, v) :: out else out)
  end.

(** add.rs L65-L102 *)
Definition add_row_count (a b : row) : res nat := merge_count fadd (length a + length b) a b.
(** add.rs L126-L169 *)
Definition add_row_fill (a b : row) : res row := merge_fill fadd (length a + length b) a b.
(** subtract.rs L71-L108 *)
Definition sub_row_count (a b : row) : res nat := merge_count fsub (length a + length b) a b.
(** subtract.rs L132-L193 *)
Definition sub_row_fill (a b : row) : res row := sub_fill (length a + length b) a b.

(** *** Intersection kernels *)

(** Loop shared by [hadamard_row_count] (multiply.rs L422-L469), [div_row_count]
    (divide.rs L48-L106), [pow_row_count] (power.rs L33-L80), [rem_row_count]
    (remainder.rs L33-L83) and [floordiv_row_count] (floor_divide.rs L44-L93);
    [keep sa sb] is the innermost test that decides [cnt += 1]. *)
Fixpoint isect_count (keep : F -> F -> bool) (fuel : nat) (a b : row) : res nat :=
  match a, b with
  | (ja, _) :: _, (jb, _) :: _ =>
      match fuel with
      | O => Diverge
      | S fuel' =>
          match ja ?= jb with
          | Eq =>
              let j := ja in
              let (sa, a') := run fadd j f0 a in
              let (sb, b') := run fadd j f0 b in
              let! cnt := isect_count keep fuel' a' b' in
              Ok (if keep sa sb then S cnt else cnt)
          | Lt => isect_count keep fuel' (skip_run ja a) b
          | Gt => isect_count keep fuel' a (skip_run jb b)
          end
      end
  | _, _ => Ok O
  end.

(** Loop shared by the [*_row_fill] functions of the same files (multiply.rs
    L490-L543, divide.rs L121-L183, power.rs L85-L138, remainder.rs L88-L144,
    floor_divide.rs L98-L153); [emit sa sb] is the value written, if any. *)
Fixpoint isect_fill (emit : F -> F -> option F) (fuel : nat) (a b : row) : res row :=
  match a, b with
  | (ja, _) :: _, (jb, _) :: _ =>
      match fuel with
      | O => Diverge
      | S fuel' =>
          match ja ?= jb with
          | Eq =>
              let j := ja in
              let (sa, a') := run fadd j f0 a in
              let (sb, b') := run fadd j f0 b in
              let! out := isect_fill emit fuel' a' b' in
              Ok (match emit sa sb with Some v => (j, v) :: out | None => out end)
          | Lt => isect_fill emit fuel' (skip_run ja a) b
          | Gt => isect_fill emit fuel' a (skip_run jb b)
          end
      end
  | _, _ => Ok []
  end.

(** Innermost blocks of the count loops. *)
(** multiply.rs L449-L452 *)
Definition hadamard_keep (sa sb : F) : bool := let v := fmul sa sb in nonzero v.
(** divide.rs L81-L86 *)
Definition div_keep (sa sb : F) : bool :=
  if nonzero sb then let v := fdiv sa sb in nonzero v && ffinite v else false.
(** power.rs L60-L63 *)
Definition pow_keep (sa sb : F) : bool := let v := fpow sa sb in nonzero v && ffinite v.
(** remainder.rs L60-L66 *)
Definition rem_keep (sa sb : F) : bool :=
  if nonzero sb then
    let q := ffloor (fdiv sa sb) in let v := fsub sa (fmul sb q) in nonzero v && ffinite v
  else false.
(** floor_divide.rs L71-L76 *)
Definition floordiv_keep (sa sb : F) : bool :=
  if nonzero sb then let v := ffloor (fdiv sa sb) in nonzero v && ffinite v else false.

(** Innermost blocks of the fill loops. *)
(** multiply.rs L519-L526 *)
Definition hadamard_emit (sa sb : F) : option F :=
  let v := fmul sa sb in if nonzero v then Some v else None.
(** divide.rs L156-L163 *)
Definition div_emit (sa sb : F) : option F :=
  if nonzero sb then let v := fdiv sa sb in if nonzero v && ffinite v then Some v else None
  else None.
(** power.rs L114-L121 *)
Definition pow_emit (sa sb : F) : option F :=
  let v := fpow sa sb in if nonzero v && ffinite v then Some v else None.
(** remainder.rs L117-L127 *)
Definition rem_emit (sa sb : F) : option F :=
  if nonzero sb then
    let q := ffloor (fdiv sa sb) in
    let v := fsub sa (fmul sb q) in if nonzero v && ffinite v then Some v else None
  else None.
(** floor_divide.rs L127-L136 *)
Definition floordiv_emit (sa sb : F) : option F :=
  if nonzero sb then
    let v := ffloor (fdiv sa sb) in if nonzero v && ffinite v then Some v else None
  else None.

(** multiply.rs L422-L469 / L490-L543 *)
Definition hadamard_row_count (a b : row) : res nat := isect_count hadamard_keep (length a + length b) a b.
(** multiply.rs L490-L543 *)
Definition hadamard_row_fill (a b : row) : res row := isect_fill hadamard_emit (length a + length b) a b.
(** divide.rs L48-L106 / L121-L183 *)
Definition div_row_count (a b : row) : res nat := isect_count div_keep (length a + length b) a b.
(** divide.rs L121-L183 *)
Definition div_row_fill (a b : row) : res row := isect_fill div_emit (length a + length b) a b.
(** power.rs L33-L80 / L85-L138 *)
Definition pow_row_count (a b : row) : res nat := isect_count pow_keep (length a + length b) a b.
(** power.rs L85-L138 *)
Definition pow_row_fill (a b : row) : res row := isect_fill pow_emit (length a + length b) a b.
(** remainder.rs L33-L83 / L88-L144 *)
Definition rem_row_count (a b : row) : res nat := isect_count rem_keep (length a + length b) a b.
(** remainder.rs L88-L144 *)
Definition rem_row_fill (a b : row) : res row := isect_fill rem_emit (length a + length b) a b.
(** floor_divide.rs L44-L93 / L98-L153 *)
Definition floordiv_row_count (a b : row) : res nat := isect_count floordiv_keep (length a + length b) a b.
(** floor_divide.rs L98-L153 *)
Definition floordiv_row_fill (a b : row) : res row := isect_fill floordiv_emit (length a + length b) a b.

(** *** Whole-matrix kernels *)

(** The body shared by every [<op>_csr_f64_i64] / [<op>_csc_f64_i64] of this
    family (e.g. add.rs L194-L261, multiply.rs L562-L703, divide.rs L189-L258):
    the two [assert_eq!]s on the shape, then the two-pass scheme. *)
Definition binary_cs (count : row -> row -> res nat) (fill : row -> row -> res row)
    (sch : list (nat * (Z * F)) -> list (nat * (Z * F))) (A B : Cs F) : res (Cs F) :=
  assert! (major A =? major B)%nat ;;
  assert! (minor A =? minor B)%nat ;;
  two_pass sch (major A) (minor A)
    (fun i => let! ra := get_row A i in let! rb := get_row B i in count ra rb)
    (fun i => let! ra := get_row A i in let! rb := get_row B i in fill ra rb).

(** CSR and CSC versions are the same code over the major dimension. *)
(** add.rs L194-L261 (csr), L286-L351 (csc) *)
Definition add_csr := binary_cs add_row_count add_row_fill.
(** add.rs L286-L351 *)
Definition add_csc := binary_cs add_row_count add_row_fill.
(** subtract.rs L218-L285 (csr), L310-L374 (csc) *)
Definition sub_csr := binary_cs sub_row_count sub_row_fill.
(** subtract.rs L310-L374 *)
Definition sub_csc := binary_cs sub_row_count sub_row_fill.
(** multiply.rs L642-L703 (csr), L562-L623 (csc) *)
Definition hadamard_csr := binary_cs hadamard_row_count hadamard_row_fill.
(** multiply.rs L562-L623 *)
Definition hadamard_csc := binary_cs hadamard_row_count hadamard_row_fill.
(** divide.rs L189-L258 (csr), L264-L333 (csc) *)
Definition div_csr := binary_cs div_row_count div_row_fill.
(** divide.rs L264-L333 *)
Definition div_csc := binary_cs div_row_count div_row_fill.
(** power.rs L142-L209 (csr), L213-L277 (csc) *)
Definition pow_csr := binary_cs pow_row_count pow_row_fill.
(** power.rs L213-L277 *)
Definition pow_csc := binary_cs pow_row_count pow_row_fill.
(** remainder.rs L148-L215 (csr), L219-L283 (csc) *)
Definition rem_csr := binary_cs rem_row_count rem_row_fill.
(** remainder.rs L219-L283 *)
Definition rem_csc := binary_cs rem_row_count rem_row_fill.
(** floor_divide.rs L157-L224 (csr), L228-L292 (csc) *)
Definition floordiv_csr := binary_cs floordiv_row_count floordiv_row_fill.
(** floor_divide.rs L228-L292 *)
Definition floordiv_csc := binary_cs floordiv_row_count floordiv_row_fill.
End Elementwise.
