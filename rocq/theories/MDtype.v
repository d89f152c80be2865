(** Model of crates/lacuna-py/src/array_api/dtypes.rs and devices.rs: the names of data types
    and devices as strings. *)
Require Import String Bool List.
Import ListNotations.
Local Open Scope string_scope.

(** dtypes.rs L12-L14 *)
Definition default_float_dtype : string := "float64".
(** dtypes.rs L20-L22 *)
Definition default_int_dtype : string := "int64".
(** dtypes.rs L26-L28 *)
Definition is_float_dtype (d : string) : bool := (d =? "float32") || (d =? "float64").
(** dtypes.rs L32-L34 *)
Definition is_int_dtype (d : string) : bool := (d =? "int32") || (d =? "int64") || (d =? "uint32") || (d =? "uint64").
(** dtypes.rs L38-L46; [None] is the ValueError. *)
Definition dtype_size (d : string) : option nat :=
  if (d =? "float32") || (d =? "int32") || (d =? "uint32") then Some 4%nat
  else if (d =? "float64") || (d =? "int64") || (d =? "uint64") then Some 8%nat
  else None.
(** dtypes.rs L92-L100 *)
Definition canonical_dtype (d : string) : option string :=
  if d =? "float64" then Some "float64"
  else if d =? "float32" then Some "float32"
  else if d =? "int64" then Some "int64"
  else if d =? "int32" then Some "int32"
  else None.
(** dtypes.rs L52-L90; [None] is the TypeError. *)
Definition promote_dtypes (d1 d2 : string) : option string :=
  match canonical_dtype d1, canonical_dtype d2 with
  | Some c1, Some c2 =>
      if c1 =? c2 then Some c1
      else if (c1 =? "float64") || (c2 =? "float64") || ((c1 =? "float32") && (c2 =? "int64")) || ((c1 =? "int64") && (c2 =? "float32"))
      then Some "float64"
      else if ((c1 =? "float32") && (c2 =? "int32")) || ((c1 =? "int32") && (c2 =? "float32")) then Some "float32"
      else if ((c1 =? "int64") && (c2 =? "int32")) || ((c1 =? "int32") && (c2 =? "int64")) then Some "int64"
      else None
  | _, _ => None
  end.
(** devices.rs L12-L14 *)
Definition default_device : string := "cpu".
(** devices.rs L24-L27 *)
Definition is_valid_device (d : string) : bool := d =? "cpu".
(** devices.rs L34-L37 *)
Definition list_devices : list string := ["cpu"].
(** devices.rs L47-L64; the returned dictionary's "name" and "type" ([None]: ValueError). *)
Definition device_info (d : string) : option (string * string) :=
  if is_valid_device d then Some (d, "cpu") else None.
