(** Outcomes of modelled Rust code.

    [Ok a]     the function returned [a];
    [Panic]    an [assert!], [expect], checked slice index, ... failed;
    [UB]       an unchecked memory access was out of range, or a slot of an
               uninitialised output array was read (undefined behaviour);
    [Diverge]  the fuel given to an unbounded loop ran out. *)
Require Import List.
Import ListNotations.

Inductive res (A : Type) : Type :=
| Ok (a : A)
| Panic
| UB
| Diverge.
Arguments Ok {A} a.
Arguments Panic {A}.
Arguments UB {A}.
Arguments Diverge {A}.

Definition bind {A B} (r : res A) (f : A -> res B) : res B :=
  match r with
  | Ok a => f a
  | Panic => Panic
  | UB => UB
  | Diverge => Diverge
  end.

Definition rmap {A B} (f : A -> B) (r : res A) : res B := bind r (fun a => Ok (f a)).

Declare Scope res_scope.
Delimit Scope res_scope with res.
Notation "'let!' x ':=' e 'in' f" := (bind e (fun x => f))
  (at level 200, x pattern, e at level 100, f at level 200, right associativity) : res_scope.
Notation "'assert!' b ';;' f" := (if b then f else Panic)
  (at level 200, b at level 100, f at level 200, right associativity) : res_scope.
Open Scope res_scope.

(** Left-to-right traversal that stops at the first failure. *)
Fixpoint mapM {A B} (f : A -> res B) (l : list A) : res (list B) :=
  match l with
  | [] => Ok []
  | a :: l' => let! b := f a in let! bs := mapM f l' in Ok (b :: bs)
  end.

Fixpoint foldM {A S} (f : S -> A -> res S) (l : list A) (s : S) : res S :=
  match l with
  | [] => Ok s
  | a :: l' => let! s' := f s a in foldM f l' s'
  end.

(** Unchecked element access ([get_unchecked] and raw-pointer reads). *)
Definition get_unchecked {A} (l : list A) (n : nat) : res A :=
  match nth_error l n with Some a => Ok a | None => UB end.

(** Checked element access (slice indexing). *)
Definition get_checked {A} (l : list A) (n : nat) : res A :=
  match nth_error l n with Some a => Ok a | None => Panic end.
