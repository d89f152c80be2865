(** Model of a program with several Python threads. Every native method and function lets
    the other threads run while its kernel works ([py.detach], e.g. types/csr.rs L50,
    array_api/linalg.rs L40), so a call has a beginning and an end, and other threads start
    and finish calls and write to arrays in between.

    A kernel works on copies of the sparse operands, made before the others may run
    ([to_vec], e.g. array_api/linalg.rs L31-L38, types/csr.rs L28-L36), and no native object
    has a method that changes it. The dense operand is copied by the methods (types/csr.rs
    L49, L72) but only borrowed by the functions behind [tensordot] and [vecdot], which read
    the caller's NumPy array itself while the others run.

    Simplifications. A call reads everything it does not borrow in one step, when it
    begins: writes that fall between two native calls of one Python method are not
    modelled. A borrowed element is read once. Rust and C leave a racing read undefined;
    here it returns one of the values the element has while the call runs. *)
Require Import List ZArith Bool.
Require Import Verif.Res Verif.Values Verif.Spec Verif.Mem Verif.MCore Verif.MPy Verif.MObj Verif.SpecObj.
Import ListNotations.
Local Open Scope Z_scope.

Section Threads.
Context {F : Fl}.

(** The objects a call uses: the operands of the methods and functions, as in the calls of
    python/lacuna/sparse/csr.py L66-L730 and python/lacuna/array_api/linalg/__init__.py L17-L194. *)
Definition operands (c : call F) : list nat :=
  match c with
  | NewCsr _ _ _ _ _ _ | NewCsc _ _ _ _ _ _ | NewCoo _ _ _ _ _ _ | NewNd _ _ _ _ | NewArr _ _
  | Zeros _ _ | Eye _ | Diag _ => []
  | Binary _ a b | Matmul a b | Tensordot a b _ | Vecdot a b _ | Compare _ a b => [a; b]
  | Unary _ a | Scalar _ a _ | Reduce _ a _ _ | Cum _ a _ | Diff a _ _ | GetItem a _ _ | GetRow a _
  | GetCol a _ | ToArray a | Permute a _ | Reshape a _ | ReduceAxes _ a _ | Unfold _ a _ | Mode _ a _
  | SetData a _ _ => [a]
  end.

(** The dense array a call reads in place while the other threads run. tensordot of a matrix
    with an array of two or more dimensions (array_api/linalg.rs L76-L78, L116-L118, L156-L158;
    [y.reshape(-1)] of array_api/linalg/__init__.py L85-L109 is a view) and with an N-D left
    operand (array_api/linalg.rs L188-L192); vecdot over axis 0 of a matrix (L221-L222,
    L246-L247, L271-L272) and over any axis of an N-D array (L301-L302). With a 1-D operand
    tensordot and vecdot over axis 1 are [x @ y], which copies (types/csr.rs L49, csc.rs L49,
    coo.rs L52). *)
Definition borrowed (h : list (value F)) (c : call F) : option nat :=
  match c with
  | Tensordot a b _ =>
      match nth_error h a, nth_error h b with
      | Some (VNd _), Some (VArr _ _) => Some b
      | Some _, Some (VArr (_ :: _ :: _) _) => Some b
      | _, _ => None
      end
  | Vecdot a b axis =>
      match nth_error h a, nth_error h b with
      | Some (VNd _), Some (VArr _ _) => Some b
      | Some _, Some (VArr _ _) => match axis with Some ax => if ax =? 0 then Some b else None | None => None end
      | _, _ => None
      end
  | _ => None
  end.

(** A call that has begun: its thread, the choices of its environment, the call, the objects
    as it found them, and the objects after each later change. (No code: the call's stack
    frame and the history of the arrays it borrows, array_api/linalg.rs L221-L222.) *)
Record flight := mkFlight {
  f_thread : nat;
  f_env : Env F;
  f_call : call F;
  f_found : list (value F);
  f_since : list (list (value F))
}.

(** The elements of array [b] as a kernel may see them: each is a value the element has at
    some moment of [hs]. Slices borrowed over [py.detach], array_api/linalg.rs L221-L222. *)
Definition glimpse (b : nat) (hs : list (list (value F))) (d : list F) : Prop :=
  forall j x, nth_error d j = Some x ->
    exists h sh dh, In h hs /\ nth_error h b = Some (VArr sh dh) /\ nth_error dh j = Some x.

(** The objects as a call sees them: as it found them, except for a borrowed array.
    array_api/linalg.rs L31-L41 *)
Definition sees (f : flight) (h : list (value F)) : Prop :=
  match borrowed (f_found f) (f_call f) with
  | None => h = f_found f
  | Some b => exists sh d d',
      nth_error (f_found f) b = Some (VArr sh d) /\ length d' = length d /\
      glimpse b (f_found f :: f_since f) d' /\ h = upd (f_found f) b (VArr sh d')
  end.

(** [x.data[k] = v] of a sparse object, [y.flat[k] = v] of a NumPy array: the array changes in
    place. csr.py L70-L74: the attribute is the plain array. *)
Definition write (h : list (value F)) (a : nat) (k : Z) (v : F) : res (list (value F)) :=
  let! x := get_checked h a in
  let! y := match x with
            | VArr sh d => let! d' := py_set d k v in Ok (VArr sh d')
            | _ => set_data x k v
            end in
  Ok (upd h a y).

(** What a thread completes: a call or a write (no code: the statements of a program using
    python/lacuna/array_api/linalg/__init__.py L17-L194). *)
Inductive act :=
| Did (e : Env F) (c : call F)
| Wrote (a : nat) (k : Z) (v : F).

(** Tell the calls under way about a change of the objects (no code; see [flight],
    array_api/linalg.rs L221-L222). *)
Definition witnessed (h : list (value F)) (fs : list flight) : list flight :=
  map (fun f => mkFlight (f_thread f) (f_env f) (f_call f) (f_found f) (f_since f ++ [h])) fs.

(** No call under way uses object [a] (no code; the condition under which a program is free
    of races on the slices of array_api/linalg.rs L221-L222). *)
Definition idle (a : nat) (fs : list flight) : Prop := Forall (fun f => ~ In a (operands (f_call f))) fs.

(** [threads quiet h0 h fs l]: starting with objects [h0], the threads can have completed [l],
    in this order, and be left with objects [h] and calls [fs] under way. A call begins when
    its thread has none under way, on objects that exist; it ends with its result appended,
    or with an exception (py.detach: types/csr.rs L50; the result is built by the thread when it
    holds the lock again, array_api/linalg.rs L40-L41). With [quiet], threads only write to
    objects that no call under way uses. *)
Inductive threads (quiet : bool) (h0 : list (value F)) : list (value F) -> list flight -> list act -> Prop :=
| th_start : threads quiet h0 h0 [] []
| th_begin : forall h fs l t e c,
    threads quiet h0 h fs l ->
    ~ In t (map f_thread fs) -> is_set_data c = false ->
    Forall (fun a => (a < length h)%nat) (operands c) ->
    fair e -> valid_arguments c -> demand h c < i64_max ->
    threads quiet h0 h (mkFlight t e c h [] :: fs) l
| th_end : forall h fs1 f fs2 l h' v,
    threads quiet h0 h (fs1 ++ f :: fs2) l ->
    sees f h' -> exec (f_env f) h' (f_call f) = Ok v -> fits v = true ->
    threads quiet h0 (h ++ [v]) (witnessed (h ++ [v]) (fs1 ++ fs2)) (l ++ [Did (f_env f) (f_call f)])
| th_raise : forall h fs1 f fs2 l h',
    threads quiet h0 h (fs1 ++ f :: fs2) l ->
    sees f h' -> exec (f_env f) h' (f_call f) = Panic ->
    threads quiet h0 h (fs1 ++ fs2) (l ++ [Did (f_env f) (f_call f)])
| th_write : forall h fs l a k v h',
    threads quiet h0 h fs l ->
    write h a k v = Ok h' -> (quiet = true -> idle a fs) ->
    threads quiet h0 h' (witnessed h' fs) (l ++ [Wrote a k v]).

(** The same acts one after the other, each as a whole, by a single thread. Like [run]
    (pyo3 raises PanicException; types/csr.rs L54-L78), with writes. *)
Fixpoint perform (h : list (value F)) (l : list act) : outcome F :=
  match l with
  | [] => Running h
  | Did e c :: l' =>
      if i64_max <=? demand h c then TooBig
      else match step e h c with
           | Ok h' => if forallb fits h' then perform h' l' else TooBig
           | Panic => perform h l'
           | UB | Diverge => Crashed
           end
  | Wrote a k v :: l' =>
      match write h a k v with
      | Ok h' => perform h' l'
      | Panic => perform h l'
      | UB | Diverge => Crashed
      end
  end.
End Threads.
Arguments flight F : clear implicits.
Arguments act F : clear implicits.
