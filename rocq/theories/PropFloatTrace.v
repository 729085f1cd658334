(** * Elapsed time in binary64: property C93

    Written by tools/genprops.py: statements only, each closed by the lemma of the
    same name in ProofFloatTrace.v, ProofFloatFlow.v. *)
From Coq Require Import ZArith Reals SpecFloat List.
From Verif Require Import Py Num ModelAquifer ModelTrace ModelDriver SpecFloats SpecFloatTrace SpecFloatFlow ProofFloatTrace ProofFloatFlow.
Local Open Scope R_scope.

(** ** C93 Elapsed time of a trace in floating point *)

(** A trace in binary64 stops at the duration or at the very next binary64 number, whatever the velocities; a trace not stopped by an exception gets to the duration. *)
Theorem C93_duration : forall lm fuel xs ys D tol maxstep f (tr : trace spec_float), valid_root lm -> valid_field f ->
  fvalid xs -> fvalid ys -> fvalid tol -> fvalid maxstep -> ffinite D -> Rabs (fval D) <= 2 ^ 1000 ->
  @compute_backtrace spec_float (SF lm) fuel xs ys D tol maxstep f = Ok tr ->
  ffinite (t_end tr) /\ (forall x, ffinite x -> Rabs (fval D) < fval x -> Rabs (fval (t_end tr)) <= fval x) /\
  (completed tr = true -> Rabs (fval D) <= Rabs (fval (t_end tr))).
Proof. exact c93_duration. Qed.
Print Assumptions C93_duration.

(** With a duration of at most 52 binary digits (any whole number of quarters of a day below 2^50 days, for instance) the elapsed time never
    passes the duration, and it is exactly the duration when the trace completes. *)
Theorem C93_exact : forall lm fuel xs ys D tol maxstep f (tr : trace spec_float), valid_root lm -> unsigned_root lm -> valid_field f ->
  fvalid xs -> fvalid ys -> fvalid tol -> fvalid maxstep -> unsigned maxstep -> ffinite D -> Rabs (fval D) <= 2 ^ 1000 -> short D ->
  @compute_backtrace spec_float (SF lm) fuel xs ys D tol maxstep f = Ok tr ->
  ffinite (t_end tr) /\ 0 <= fval (t_end tr) * fval D /\ Rabs (fval (t_end tr)) <= Rabs (fval D) /\ (completed tr = true -> fval (t_end tr) = fval D).
Proof. exact c93_exact. Qed.
Print Assumptions C93_exact.

(** 25.2 days have 53 digits, and a trace of 25.2 days runs to 25.200000000000003. *)
Theorem C93_past : forall lm, SFltb (f_of_Z 10) (lm_root5 lm (f_of_Z (2 ^ 52))) = true ->
  exists tr, @compute_backtrace spec_float (SF lm) 10 (S754_zero false) (S754_zero false) days252 unit_ unit_ still = Ok tr /\ completed tr = true /\
    fval days252 < fval (t_end tr) /\ length (vertices tr) = 5%nat.
Proof. exact c93_past. Qed.
Print Assumptions C93_past.

Example C93_example : valid_root root_libm /\ unsigned_root root_libm /\ valid_field shear /\ ffinite fiveyears /\ Rabs (fval fiveyears) <= 2 ^ 1000 /\ short fiveyears /\ unsigned hundred /\
  exists tr, @compute_backtrace spec_float (SF root_libm) 1000 unit_ unit_ fiveyears unit_ hundred shear = Ok tr /\ completed tr = true /\ t_end tr = fiveyears /\ (20 < length (vertices tr))%nat.
Proof. exact c93_example. Qed.

(** The program's own traces: every path of a capture zone, with either velocity function of a model of binary64 numbers, stops at the duration or at the number after it;
    and exactly at the duration when that has at most 52 digits. *)
Theorem C93_program : forall lm fuel m confined xt yt rt theta D tol maxstep (tr : trace spec_float), valid_libm lm -> valid_model m ->
  fvalid xt -> fvalid yt -> fvalid rt -> fvalid theta -> fvalid tol -> fvalid maxstep -> ffinite D -> Rabs (fval D) <= 2 ^ 1000 ->
  let start := @start_point spec_float (SF lm) xt yt rt theta in
  @compute_backtrace spec_float (SF lm) fuel (fst start) (snd start) D tol maxstep (@feval spec_float (SF lm) confined m) = Ok tr ->
  ffinite (t_end tr) /\ (forall x, ffinite x -> Rabs (fval D) < fval x -> Rabs (fval (t_end tr)) <= fval x) /\
  (completed tr = true -> Rabs (fval D) <= Rabs (fval (t_end tr))) /\
  (unsigned_root lm -> unsigned maxstep -> short D ->
    0 <= fval (t_end tr) * fval D /\ Rabs (fval (t_end tr)) <= Rabs (fval D) /\ (completed tr = true -> fval (t_end tr) = fval D)).
Proof. exact c93_program. Qed.
Print Assumptions C93_program.

Example C93_program_example : valid_libm root_libm /\ valid_model small_model /\ unsigned_root root_libm /\ short tendays /\
  exists tr, let start := @start_point spec_float (SF root_libm) (fi 0) (fi 0) quarter (fi 1) in
    @compute_backtrace spec_float (SF root_libm) 1000 (fst start) (snd start) tendays unit_ hundred (@feval spec_float (SF root_libm) true small_model) = Ok tr /\
    completed tr = true /\ t_end tr = tendays /\ (4 < length (vertices tr))%nat.
Proof. exact c93_program_example. Qed.
