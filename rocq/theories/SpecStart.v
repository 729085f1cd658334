(** * A contract for cos and sin of the C library *)
From Coq Require Import Reals SpecFloat.
From Verif Require Import Num SpecFloats.
Local Open Scope R_scope.

(** On one turn (and a little more), cos and sin are finite and correct to within [e]. *)
Definition circular (lm : libm) (e : R) : Prop :=
  forall t, ffinite t -> 0 <= fval t <= 8 ->
    (ffinite (lm_cos lm t) /\ Rabs (fval (lm_cos lm t) - cos (fval t)) <= e) /\
    (ffinite (lm_sin lm t) /\ Rabs (fval (lm_sin lm t) - sin (fval t)) <= e).
