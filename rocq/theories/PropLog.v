(** * What a run writes to its log: C100

    Written by tools/genprops.py: statements only, each closed by the lemma of the
    same name in ProofLog.v. *)
From Coq Require Import Reals String Ascii SpecFloat ZArith.
From Verif Require Import Py Num ModelAquifer ModelDist ModelObs ModelMain ModelText ModelLog ModelData SpecText SpecLog ProofText ProofLog.
Import ListNotations.
Local Open Scope string_scope.
Local Open Scope Z_scope.

(** ** C100 The log identifies the run *)

(** A validated call is logged without an exception exactly if nrealizations is an integer and the integers among
    the arguments that are written with two decimals can be converted to float. *)
Theorem C100_returns : forall lm (a : args spec_float), @validate spec_float (SF lm) a = Ok tt ->
  (snd (log_the_run a) = Ok tt <-> integer_of (nrealizations a) <> None /\ Forall convertible (rounded_arguments a)).
Proof. exact c100_returns. Qed.
Print Assumptions C100_returns.

(** Two validated calls with the same log have the same project name, run time, target, npaths and nrealizations
    (as integers), distributions, smooth, confined, wells and observations; the other arguments agree to within a
    hundredth.  Not proved, because it is false: that these are the same, too. *)
Theorem C100_determines_partial : forall lm (a b : args spec_float),
  @validate spec_float (SF lm) a = Ok tt -> @validate spec_float (SF lm) b = Ok tt ->
  Forall wellformed (arguments a) -> Forall wellformed (arguments b) ->
  snd (log_the_run a) = Ok tt -> snd (log_the_run b) = Ok tt -> fst (log_the_run a) = fst (log_the_run b) ->
  projectname a = projectname b /\ runtime a = runtime b /\
  same_integer (target a) (target b) /\ same_integer (npaths a) (npaths b) /\ same_integer (nrealizations a) (nrealizations b) /\
  c_dist a = c_dist b /\ p_dist a = p_dist b /\ t_dist a = t_dist b /\ smooth a = smooth b /\ confined a = confined b /\
  stochastic_wells a = stochastic_wells b /\ observations a = observations b /\
  Forall2 within_cent (rounded_arguments a) (rounded_arguments b).
Proof. exact c100_determines_partial. Qed.
Print Assumptions C100_determines_partial.

(** log_the_run: "Log all of the defining arguments".  The tolerance is printed with two decimals: 0.001 and 0.002
    give the same log. *)
Theorem C100_determines_refuted : forall lm, exists a b : args spec_float, exists x y : spec_float,
  @validate spec_float (SF lm) a = Ok tt /\ @validate spec_float (SF lm) b = Ok tt /\
  Forall wellformed (arguments a) /\ Forall wellformed (arguments b) /\
  snd (log_the_run a) = Ok tt /\ log_the_run a = log_the_run b /\
  b = with_tol a (PFloat y) /\ tol a = PFloat x /\ (value y = 2 * value x)%R /\ (0 < value x)%R.
Proof. exact c100_determines_refuted. Qed.
Print Assumptions C100_determines_refuted.

(** The log of a shipped data set, from the line after the banner. *)
Example C100_log_example : forall lm,
  firstn 17 (skipn 10 (fst (log_the_run (@data_args spec_float (SF lm) barnesville "20200725")))) =
  ["project name  = Barnesville example"; "run time      = 20200725"; "target        = 0"; "npaths        = 200";
   "duration      = 3652.50"; "nrealizations = 200 STOCHASTIC"; "base          = 0.00"; "c_dist        = (1.0, 5.0, 20.0)";
   "p_dist        = (0.2, 0.25)"; "t_dist        = (100.0, 120.0, 150.0)"; "buffer        = 100.00"; "spacing       = 2.00";
   "umbra         = 4.00"; "smooth        = 2"; "confined      = True"; "tol           = 1.00"; "maxstep       = 10.00"].
Proof. exact c100_log_example. Qed.

(** Calls that pass the validation but cannot be logged: an integer tolerance too large for a float, a float
    number of realizations. *)
Example C100_returns_example : forall lm, let d := @data_args spec_float (SF lm) barnesville "20200725" in
  (@validate spec_float (SF lm) d = Ok tt /\ integer_of (nrealizations d) <> None /\ Forall convertible (rounded_arguments d)) /\
  (let a := with_tol d (PInt (2 ^ 1024)) in @validate spec_float (SF lm) a = Ok tt /\ snd (log_the_run a) = Raise OverflowError).
Proof. exact c100_returns_example. Qed.
