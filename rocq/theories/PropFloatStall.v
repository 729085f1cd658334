(** * Traces that never end, in binary64: C39 and C40

    Written by tools/genprops.py: statements only, each closed by the lemma of the
    same name in ProofFloatStall.v. *)
From Coq Require Import ZArith SpecFloat.
From Verif Require Import Py Num ModelTrace ModelDriver ProofFloatTrace ProofFloatStall.

(** ** C39 Backtraces terminate for bounded velocity fields *)

(** C39 is false in binary64 too: standing water, traced for one day with tolerance 1 and a longest step of 2^-54.
    The steps shrink to 0 and the clock stops.  Of the fifth root only this is used: that of 2^52 is above 1/4. *)
Theorem C39_binary64_refuted : forall lm, SFltb quarter (lm_root5 lm (f_of_Z (2 ^ 52))) = true ->
  SFltb (S754_zero false) unit_ = true /\ SFltb (S754_zero false) tiny = true /\
  forall fuel, @compute_backtrace spec_float (SF lm) fuel (S754_zero false) (S754_zero false) unit_ unit_ tiny still = NoFuel.
Proof. exact c39_binary64_refuted. Qed.
Print Assumptions C39_binary64_refuted.

(** With the square root in place of the fifth root both hypotheses hold. *)
Example C39_binary64_example : SFltb quarter (lm_root5 root_libm (f_of_Z (2 ^ 52))) = true /\ lm_root5 root_libm S754_nan = S754_nan.
Proof. exact c39_binary64_example. Qed.

(** ** C40 Backtraces always return, even for undefined velocities *)

(** C40 is false in binary64 too: upstream of a well that is not pumped at all, in an otherwise uniform flow.  The
    second stage of the first trial step falls on the well, the velocity there is NaN, and so is every later step.
    Of the elementary functions only this is used: the fifth root of NaN is NaN. *)
Theorem C40_binary64_refuted : forall lm, lm_root5 lm S754_nan = S754_nan -> forall tol maxstep fuel,
  @compute_backtrace spec_float (SF lm) fuel (S754_zero false) (S754_zero false) unit_ tol maxstep (@feval spec_float (SF lm) true idle) = NoFuel.
Proof. exact c40_binary64_refuted. Qed.
Print Assumptions C40_binary64_refuted.
