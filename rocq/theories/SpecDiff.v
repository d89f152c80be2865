(** Specification of cumulative sums and products and of discrete differences. *)
Require Import List ZArith Bool QArith Qcanon.
Require Import Verif.Values Verif.Spec.
Import ListNotations.

(** What is stored for a group of numbers to be added up: nothing for an empty group or
    a zero sum, and the sum otherwise. *)
Definition combined {F : Fl} (vs out : list F) : Prop :=
  (vs = [] -> out = []) /\
  (vs <> [] -> exists v, FSum vs v /\ out = if feqb v f0 then [] else [v]).

(** Duplicates added up: nothing for an empty group, the sum otherwise. *)
Definition summed {F : Fl} (vs out : list F) : Prop :=
  (vs = [] -> out = []) /\ (vs <> [] -> exists v, FSum vs v /\ out = [v]).

(** [diff_of n w c c']: [c] lists the stored values of [w] consecutive cells, and [c']
    those of the [w - n] cells of the [n]-th forward difference. In one step
    the new cell [j] combines minus the old cell [j] and the old cell [j+1]. *)
Inductive diff_of {F : Fl} : nat -> nat -> (nat -> list F) -> (nat -> list F) -> Prop :=
| diff_done : forall w c c', (forall j, j < w -> c' j = c j)%nat -> diff_of 0 w c c'
| diff_step : forall n w c c1 c', (forall j, S j < w -> combined (map fneg (c j) ++ c (S j)) (c1 j))%nat ->
    diff_of n (w - 1) c1 c' -> diff_of (S n) w c c'.

(** Forward difference of a sequence of rationals; the [n]-th one is [Nat.iter n qdelta f]. *)
Definition qdelta (f : nat -> Qc) (j : nat) : Qc := (f (S j) - f j)%Qc.
