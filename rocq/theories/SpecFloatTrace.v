(** * Binary64 values, and durations with few digits *)
From Coq Require Import ZArith Reals SpecFloat.
From Verif Require Import Py Num ModelTrace SpecFloats.
Local Open Scope R_scope.

(** A binary64 value: a canonical number, an infinity or NaN. *)
Definition fvalid (x : spec_float) : Prop := valid_binary fprec femax x = true.
Definition valid_vec (v : vec spec_float) : Prop := fvalid (fst v) /\ fvalid (snd v).

(** A velocity function and a fifth root that take binary64 values to binary64 values. *)
Definition valid_field (f : vec spec_float -> res (vec spec_float)) : Prop := forall p k, valid_vec p -> f p = Ok k -> valid_vec k.
Definition valid_root (lm : libm) : Prop := forall x, fvalid x -> fvalid (lm_root5 lm x).

(** The sign bit is clear, or the value is NaN. *)
Definition unsigned (x : spec_float) : Prop :=
  match x with S754_zero s | S754_infinity s | S754_finite s _ _ => s = false | S754_nan => True end.
(** A fifth root (C's [pow(x, 0.2)]) is never negative. *)
Definition unsigned_root (lm : libm) : Prop := forall x, unsigned (lm_root5 lm x).

(** At most 52 significant binary digits. *)
Definition short (x : spec_float) : Prop :=
  exists n e : Z, (Z.abs n < 2 ^ 52)%Z /\ (-1073 <= e)%Z /\ fval x = IZR n * powerRZ 2 e.
