(** * Traces that end: C39 and C97

    Written by tools/genprops.py: statements only, each closed by the lemma of the
    same name in ProofTraceGrow.v, ProofTraceClear.v. *)
From Coq Require Import Reals.
From Verif Require Import Py Num ModelAquifer ModelTrace ModelDriver SpecAquifer SpecTrace SpecGrowth ProofTraceField ProofTraceGrow ProofTraceClear.
Local Open Scope R_scope.

(** ** C39 Backtraces terminate for bounded velocity fields *)

(** C39 for velocities that need not be bounded: it is enough that their size at a point is at most a
    multiple of one plus the size of the point.  (The size of points and velocities is the larger component.)
    What is missing of the stated property is, as above, that the tolerance and the longest step have to
    exceed 2^-52 / 0.9^5 and 2^-52 / 0.9. *)
Theorem C39_growth_partial : forall (g : R) (p : pt) (D : R) (tol maxstep : xr) (f : vec xr -> res (vec xr)),
  grows g f -> total f -> below (/ 2 ^ 52 / (9 / 10) ^ 5) tol -> below (/ 2 ^ 52 / (9 / 10)) maxstep ->
  exists fuel tr, forall fuel', (fuel <= fuel')%nat ->
    compute_backtrace fuel' (Fin (fst p)) (Fin (snd p)) (Fin D) tol maxstep f = Ok tr.
Proof. exact c39_growth_partial. Qed.
Print Assumptions C39_growth_partial.

(** C39 for the program's own velocities, which are not bounded: in confined mode, with no wells, every
    backtrace from every point, for every duration and every regional flow, returns. *)
Theorem C39_no_wells_partial : forall (m : model R) (p : pt) (D : R) (tol maxstep : xr),
  physical m -> wells m = [] -> below (/ 2 ^ 52 / (9 / 10) ^ 5) tol -> below (/ 2 ^ 52 / (9 / 10)) maxstep ->
  exists fuel tr, forall fuel', (fuel <= fuel')%nat ->
    compute_backtrace fuel' (Fin (fst p)) (Fin (snd p)) (Fin D) tol maxstep (feval true (fmodel m)) = Ok tr.
Proof. exact c39_no_wells_partial. Qed.
Print Assumptions C39_no_wells_partial.

Example C39_saddle_example : physical saddle /\ wells saddle = [] /\ ~ (exists B, bounded_by B (feval true (fmodel saddle))) /\
  below (/ 2 ^ 52 / (9 / 10) ^ 5) (Fin 1) /\ below (/ 2 ^ 52 / (9 / 10)) PInf.
Proof. exact c39_saddle_example. Qed.

(** ** C97 A trace runs for ever only near a well or where the aquifer runs dry *)

(** C97: with an alarm at distance [d] around the wells (and, in unconfined mode, wherever there is no head of
    [d]) every backtrace of every model returns; and if the alarm did not end it, the drivers' own trace
    returns, and it is the same. *)
Theorem C97_alarm : forall (d : R) (confined : bool) (m : model R) (f : vec xr -> res (vec xr)) (p : pt) (D : R) (tol maxstep : xr),
  physical m -> 0 < d -> alarmed d confined m f ->
  below (/ 2 ^ 52 / (9 / 10) ^ 5) tol -> below (/ 2 ^ 52 / (9 / 10)) maxstep ->
  exists fuel tr, forall fuel', (fuel <= fuel')%nat ->
    compute_backtrace fuel' (Fin (fst p)) (Fin (snd p)) (Fin D) tol maxstep f = Ok tr /\
    (completed tr = true ->
     compute_backtrace fuel' (Fin (fst p)) (Fin (snd p)) (Fin D) tol maxstep (feval confined (fmodel m)) = Ok tr).
Proof. exact c97_alarm. Qed.
Print Assumptions C97_alarm.

(** C97, read for a trace that never returns: whatever the distance [d], the alarm goes off, and it does
    so after finitely many steps. *)
Theorem C97_forever : forall (confined : bool) (m : model R) (p : pt) (D : R) (tol maxstep : xr),
  physical m -> below (/ 2 ^ 52 / (9 / 10) ^ 5) tol -> below (/ 2 ^ 52 / (9 / 10)) maxstep ->
  (forall fuel, compute_backtrace fuel (Fin (fst p)) (Fin (snd p)) (Fin D) tol maxstep (feval confined (fmodel m)) = NoFuel) ->
  forall d f, 0 < d -> alarmed d confined m f ->
  exists fuel tr, compute_backtrace fuel (Fin (fst p)) (Fin (snd p)) (Fin D) tol maxstep f = Ok tr /\ completed tr = false.
Proof. exact c97_forever. Qed.
Print Assumptions C97_forever.

Theorem C97_alarm_exists : forall (d : R) (confined : bool) (m : model R), exists f, alarmed d confined m f.
Proof. exact c97_alarm_exists. Qed.
Print Assumptions C97_alarm_exists.

(** The injection well of C40, whose trace never returns: with an alarm at any distance around it, the trace ends
    and is not complete. *)
Example C97_well_example : exists q, 0 < q /\ forall d f, 0 < d -> alarmed d true (injection q) f ->
  exists fuel tr, compute_backtrace fuel (Fin 0) (Fin 0) (Fin 1) (Fin 1) (Fin 1) f = Ok tr /\ completed tr = false.
Proof. exact c97_well_example. Qed.
