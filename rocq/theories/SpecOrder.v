(** Specification: how doubles compare as numbers. A double stands for a rational number, one of
    two infinities, or nothing (NaN). *)
Require Import List ZArith Bool QArith.
Require Import Coq.Floats.SpecFloat.
Require Import Verif.Values Verif.MPy Verif.SpecAccuracy.
Import ListNotations.

Inductive extended := MinusInf | Num (q : Q) | PlusInf | NoNumber.
Definition extended_of (x : spec_float) : extended :=
  match x with
  | S754_nan => NoNumber
  | S754_infinity s => if s then MinusInf else PlusInf
  | _ => Num (number x)
  end.
(** The usual order, with the infinities at its ends; nothing compares with NaN. *)
Definition ext_compare (a b : extended) : option comparison :=
  match a, b with
  | NoNumber, _ | _, NoNumber => None
  | MinusInf, MinusInf | PlusInf, PlusInf => Some Eq
  | MinusInf, _ | _, PlusInf => Some Lt
  | PlusInf, _ | _, MinusInf => Some Gt
  | Num p, Num q => Some (p ?= q)%Q
  end.
(** The six comparison operators; with NaN only [!=] holds. *)
Definition ext_cmp (c : cmp) (a b : extended) : bool :=
  match c, ext_compare a b with
  | CEq, Some Eq | CLt, Some Lt | CGt, Some Gt => true
  | CLe, Some Lt | CLe, Some Eq | CGe, Some Gt | CGe, Some Eq => true
  | CNe, Some Eq => false
  | CNe, _ => true
  | _, _ => false
  end.

(** [v] is equal to one of the numbers of [l] and none of them is smaller (greater); 0 if there
    are none. *)
Definition extreme (least : bool) (l : list extended) (v : extended) : Prop :=
  (l = [] -> v = Num 0) /\
  (l <> [] -> (exists w, In w l /\ ext_compare v w = Some Eq) /\
              Forall (fun w => ext_cmp (if least then CLe else CGe) v w = true) l).
