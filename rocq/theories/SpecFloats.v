(** * Binary64 numbers as reals *)
From Coq Require Import ZArith Reals SpecFloat.
From Verif Require Import Py Num.
Local Open Scope R_scope.

(** A finite binary64 number: mantissa and exponent in range and canonical. *)
Definition ffinite (x : spec_float) : Prop :=
  valid_binary fprec femax x = true /\
  match x with S754_zero _ | S754_finite _ _ _ => True | _ => False end.

(** Its value. *)
Definition fval (x : spec_float) : R :=
  match x with
  | S754_finite s m e => (if s then - IZR (Zpos m) else IZR (Zpos m)) * powerRZ 2 e
  | _ => 0
  end.

(** The spacing [d] is at least 2^-52 times the number [v]: it is not below the resolution of binary64 there. *)
Definition wide (d v : spec_float) : Prop := Rabs (fval v) <= fval d * 2 ^ 52.

(** The spacing [d] is at most 2^-55 times the larger of the two numbers. *)
Definition narrow (d a b : spec_float) : Prop := fval d * 2 ^ 55 <= Rmax (Rabs (fval a)) (Rabs (fval b)).

(** Three times the number is a finite binary64 number too (as for 0, powers of two and integers up to 2^51). *)
Definition has_triple (x : spec_float) : Prop := exists t, ffinite t /\ fval t = 3 * fval x.
