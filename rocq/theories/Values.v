(** Value operations used by the kernels, and two instances:
    [f64]  IEEE-754 binary64 (standard library [SpecFloat]),
    [qc]   exact rationals.

    The Rust kernels are monomorphic in [f64]; the record lets one model be read
    both with IEEE arithmetic and with exact arithmetic. *)
Require Import ZArith Bool.
Require Import Coq.Floats.SpecFloat.
Require Import QArith Qcanon Qround.
Local Open Scope Z_scope.

Record Fl : Type := mkFl {
  car :> Type;
  f0 : car;                        (* 0.0 *)
  f1 : car;                        (* 1.0 *)
  fadd : car -> car -> car;
  fsub : car -> car -> car;
  fmul : car -> car -> car;
  fdiv : car -> car -> car;
  ffma : car -> car -> car -> car; (* x.mul_add(y, z) = x*y + z, rounded once *)
  fneg : car -> car;
  fabs : car -> car;
  ffloor : car -> car;
  fsqrt : car -> car;
  fpow : car -> car -> car;        (* powf *)
  fofZ : Z -> car;                 (* usize as f64 *)
  finf : car;                      (* f64::INFINITY *)
  feqb : car -> car -> bool;       (* == *)
  fltb : car -> car -> bool;       (* <  *)
  ffinite : car -> bool;           (* is_finite *)
  fnan : car -> bool               (* is_nan *)
}.
Arguments f0 {f}. Arguments f1 {f}. Arguments fadd {f}. Arguments fsub {f}.
Arguments fmul {f}. Arguments fdiv {f}. Arguments ffma {f}. Arguments fneg {f}.
Arguments fabs {f}. Arguments ffloor {f}. Arguments fsqrt {f}. Arguments fpow {f}.
Arguments fofZ {f}. Arguments finf {f}. Arguments feqb {f}. Arguments fltb {f}.
Arguments ffinite {f}. Arguments fnan {f}.

(** ** IEEE binary64 *)
Definition prec := 53.
Definition emax := 1024.

Definition b64_zero : spec_float := S754_zero false.
Definition b64_one : spec_float := binary_normalize prec emax 1 0 false.

Definition b64_ofZ (z : Z) : spec_float := binary_normalize prec emax z 0 false.

(** Exact value of a finite float as [m * 2^e], [m] signed. *)
Definition signed (s : bool) (m : positive) : Z := if s then Zneg m else Zpos m.

(** Fused multiply-add: the product is exact, one rounding at the end
    (IEEE-754 fusedMultiplyAdd, round to nearest even). *)
Definition b64_fma (x y z : spec_float) : spec_float :=
  match x, y with
  | S754_finite sx mx ex, S754_finite sy my ey =>
      match z with
      | S754_finite sz mz ez =>
          let e := Z.min (ex + ey) ez in
          let p := signed (xorb sx sy) (mx * my) * 2 ^ (ex + ey - e) in
          let q := signed sz mz * 2 ^ (ez - e) in
          binary_normalize prec emax (p + q) e false
      | S754_zero _ =>
          binary_normalize prec emax (signed (xorb sx sy) (mx * my)) (ex + ey) (xorb sx sy)
      | _ => z
      end
  | _, _ => SFadd prec emax (SFmul prec emax x y) z
  end.

(** [f64::floor]: exact; results of magnitude >= 2^52 are unchanged. *)
Definition b64_floor (x : spec_float) : spec_float :=
  match x with
  | S754_finite s m e =>
      if 0 <=? e then x
      else binary_normalize prec emax (signed s m / 2 ^ (- e)) 0 s
  | _ => x
  end.

Definition b64_finite (x : spec_float) : bool :=
  match x with S754_zero _ | S754_finite _ _ _ => true | _ => false end.
Definition b64_nan (x : spec_float) : bool :=
  match x with S754_nan => true | _ => false end.

(** [powf] is a libm function that IEEE-754 does not pin down: any function. *)
Definition f64 (powf : spec_float -> spec_float -> spec_float) : Fl :=
  mkFl spec_float b64_zero b64_one
    (SFadd prec emax) (SFsub prec emax) (SFmul prec emax) (SFdiv prec emax) b64_fma
    SFopp SFabs b64_floor (SFsqrt prec emax) powf b64_ofZ (S754_infinity false)
    SFeqb SFltb b64_finite b64_nan.

(** ** Exact rationals *)
Definition qc_floor (x : Qc) : Qc := Q2Qc (inject_Z (Qfloor (this x))).
Definition qc_ltb (x y : Qc) : bool := match Qccompare x y with Lt => true | _ => false end.
Definition qc_eqb (x y : Qc) : bool := if Qc_eq_dec x y then true else false.
Definition qc_abs (x : Qc) : Qc := if qc_ltb x (Q2Qc 0) then Qcopp x else x.

(** Square root, powf and infinity have no exact rational counterpart; theorems
    about the exact instance do not mention them. *)
Definition qc : Fl :=
  mkFl Qc (Q2Qc 0) (Q2Qc 1) Qcplus Qcminus Qcmult Qcdiv
    (fun x y z => Qcplus (Qcmult x y) z) Qcopp qc_abs qc_floor (fun x => x) (fun x _ => x)
    (fun z => Q2Qc (inject_Z z)) (Q2Qc 0) qc_eqb qc_ltb (fun _ => true) (fun _ => false).
