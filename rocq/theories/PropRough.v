(** * Discharge, velocity and traces in binary64: C123 and C124

    Written by tools/genprops.py: statements only, each closed by the lemma of the
    same name in ProofDischargeAcc.v, ProofRoughTrace.v, ProofDischargeTrace.v, ProofDischargeEx.v. *)
From Coq Require Import Reals ZArith SpecFloat List.
From Verif Require Import Py Num NumXR ModelAquifer ModelTrace ModelDriver SpecFloats SpecExact SpecAquifer SpecTrace SpecPathline SpecWhole SpecPathZone SpecWater SpecRough SpecDischarge ProofDischargeAcc ProofRoughTrace ProofDischargeTrace ProofDischargeEx.
Import ListNotations.
Local Open Scope R_scope.

(** ** C123 Accuracy of the discharge and of the velocity in binary64 *)

(** C123.  The discharge that [compute_discharge] returns in binary64 differs from the exact one by at most a fixed number of units in
    the last place, growing with the number of wells, of the sum of the absolute values of its parts. *)
Theorem C123_discharge : forall (lm : libm) (m : model spec_float) (x y : spec_float),
  moderate_model m -> moderate x -> moderate y -> clear_of_wells (real_model m) (fval x, fval y) -> (Z.of_nat (length (wells m)) <= 10 ^ 12)%Z ->
  let q := @compute_discharge _ (SF lm) m x y in let n := INR (length (wells m)) in let M := real_model m in let X := fval x in let Y := fval y in
  ffinite (fst q) /\ ffinite (snd q) /\
  Rabs (fval (fst q) - discharge_x M X Y) <= (n + 9) / 2 ^ 52 * (load_x M X Y + tiny) /\
  Rabs (fval (snd q) - discharge_y M X Y) <= (n + 9) / 2 ^ 52 * (load_y M X Y + tiny).
Proof. exact c123_discharge. Qed.
Print Assumptions C123_discharge.

(** C123.  The same of the velocity that [compute_velocity_confined] returns. *)
Theorem C123_velocity : forall (lm : libm) (m : model spec_float) (x y : spec_float),
  moderate_model m -> moderate x -> moderate y -> clear_of_wells (real_model m) (fval x, fval y) -> (Z.of_nat (length (wells m)) <= 10 ^ 12)%Z ->
  let v := @compute_velocity_confined _ (SF lm) m x y in let n := INR (length (wells m)) in let M := real_model m in let X := fval x in let Y := fval y in
  let s := thickness M * porosity M in
  ffinite (fst v) /\ ffinite (snd v) /\
  Rabs (fval (fst v) - discharge_x M X Y / s) <= (n + 12) / 2 ^ 52 * ((load_x M X Y + tiny) / s) /\
  Rabs (fval (snd v) - discharge_y M X Y / s) <= (n + 12) / 2 ^ 52 * ((load_y M X Y + tiny) / s).
Proof. exact c123_velocity. Qed.
Print Assumptions C123_velocity.

(** A case of [c123_discharge] and [c123_velocity]. *)
Example C123_example : forall lm : libm,
  moderate_model mild /\ moderate (f_of_Z 100) /\ moderate (f_of_Z 20) /\ clear_of_wells (real_model mild) (fval (f_of_Z 100), fval (f_of_Z 20)) /\
  let v := @compute_velocity_confined _ (SF lm) mild (f_of_Z 100) (f_of_Z 20) in
  Rabs (fval (fst v) - discharge_x (real_model mild) 100 20) <= / 10 ^ 14 /\ Rabs (fval (snd v) - discharge_y (real_model mild) 100 20) <= / 10 ^ 14.
Proof. exact c123_example. Qed.

(** ** C124 A trace computed in binary64 follows the water *)

(** C124.  The elapsed time that a trace computed in binary64 reports is the exact sum of its time steps up to the rounding of the sum. *)
Theorem C124_clock : forall (lm : libm) (F : vec spec_float -> res (vec spec_float)) (tol maxstep : spec_float) (tr : trace spec_float) (dts : list spec_float),
  reckoned lm F tol maxstep tr dts -> (forall dt, In dt dts -> ffinite dt /\ 0 <= fval dt) ->
  let T := last (clock 0 dts) 0 in T <= huge -> (Z.of_nat (length dts) <= 10 ^ 12)%Z ->
  ffinite (t_end tr) /\ Rabs (fval (t_end tr) - T) <= INR (length dts) / 2 ^ 52 * T.
Proof. exact c124_clock. Qed.
Print Assumptions C124_clock.

(** C124.  A trace computed in binary64 along any velocity that is evaluated with an error of at most [d]: under conditions on its vertices and time
    steps its coordinates are finite, the water follows a path from the start point, only one, and the trace is within [E] of it. *)
Theorem C124_water : forall (lm : libm) (F : vec spec_float -> res (vec spec_float)) (fuel : nat) (xs ys duration tol maxstep : spec_float) (tr : trace spec_float),
  @compute_backtrace _ (SF lm) fuel xs ys duration tol maxstep F = Ok tr -> ffinite xs -> ffinite ys ->
  exists dts, reckoned lm F tol maxstep tr dts /\
    forall (f : vec xr -> res (vec xr)) (V L rho d X H : R),
      let l := map at_ (vertices tr) in let ts := clock 0 dts in let T := last ts 0 in
      0 < rho -> 0 < L -> 0 <= d -> 0 <= H <= huge -> V <= huge / 4 -> minute <= X <= huge ->
      (forall c, In c l -> Rabs (fst c) <= X /\ Rabs (snd c) <= X) -> (forall dt, In dt dts -> ffinite dt /\ 0 <= fval dt <= H) ->
      faithful F f d rho l -> gentle f V L rho l ->
      let Rr := rounding X H V in let E := astray V L H (wrong L d Rr) Rr in
      50 * L * H <= 1 -> wrong L d Rr <= V -> E (length l) T + 2 * V * H + 140 * d * H + 3 * Rr < rho ->
      (forall v, In v (vertices tr) -> solid v) /\
      exists Z, Z 0 = (fval xs, fval ys) /\ moves f Z T /\
        (forall i, (i < length l)%nat -> let t := nth i ts 0 in 0 <= t <= T /\ pdist (nth i l (0, 0)) (Z t) <= E i t) /\
        beside (E (length l) T) l Z T /\
        forall Y, Y 0 = (fval xs, fval ys) -> moves f Y T -> forall t, 0 <= t <= T -> Y t = Z t.
Proof. exact c124_water. Qed.
Print Assumptions C124_water.

(** C124.  A trace in a confined aquifer computed in binary64, whose model has numbers of moderate size.  If its time steps are short, and if it keeps
    away from the wells, then the water does follow a path from the start point for the time of the trace, only one, and the trace is near it:
    the distance is bounded by the steps, the speed and its change, the number of wells and the precision of binary64. *)
Theorem C124_confined : forall (lm : libm) (m : model spec_float) (fuel : nat) (xs ys duration tol maxstep : spec_float) (tr : trace spec_float),
  moderate_model m -> (Z.of_nat (length (wells m)) <= 10 ^ 12)%Z -> let M := real_model m in physical M ->
  @compute_backtrace _ (SF lm) fuel xs ys duration tol maxstep (@feval _ (SF lm) true m) = Ok tr -> ffinite xs -> ffinite ys ->
  exists dts, reckoned lm (@feval _ (SF lm) true m) tol maxstep tr dts /\
    forall (f : vec xr -> res (vec xr)) (v L rho X H : R),
      let l := map at_ (vertices tr) in let ts := clock 0 dts in let T := last ts 0 in
      SpecWhole.upstream true M f -> / huge <= rho -> 0 <= H <= huge -> minute <= X -> X + rho <= huge ->
      (forall c, In c l -> Rabs (fst c) <= X /\ Rabs (snd c) <= X) -> (forall dt, In dt dts -> ffinite dt /\ 0 <= fval dt <= H) ->
      calm M f v rho l -> 0 < L -> gradient M rho <= L ->
      let V := v + L * rho in let d := (INR (length (wells m)) + 12) / 2 ^ 51 * ((burden M X rho + tiny) / (thickness M * porosity M)) in
      let Rr := rounding X H V in let E := astray V L H (wrong L d Rr) Rr in
      V <= huge / 4 -> 50 * L * H <= 1 -> wrong L d Rr <= V -> E (length l) T + 2 * V * H + 140 * d * H + 3 * Rr < rho ->
      (forall v, In v (vertices tr) -> solid v) /\
      exists Z, Z 0 = (fval xs, fval ys) /\ moves f Z T /\
        (forall i, (i < length l)%nat -> let t := nth i ts 0 in 0 <= t <= T /\ pdist (nth i l (0, 0)) (Z t) <= E i t) /\
        beside (E (length l) T) l Z T /\
        forall Y, Y 0 = (fval xs, fval ys) -> moves f Y T -> forall t, 0 <= t <= T -> Y t = Z t.
Proof. exact c124_confined. Qed.
Print Assumptions C124_confined.

(** A case of [c124_confined], and with it of [c124_water] and of [c124_clock]. *)
Example C124_example : forall lm : libm, let f := feval true (fmodel (real_model mild)) in let l := map at_ (vertices mild_trace) in
  @compute_backtrace _ (SF lm) 5 (f_of_Z 100) (f_of_Z 20) (fq 1 16) (fq 1 16) (f_of_Z 10) (@feval _ (SF lm) true mild) = Ok mild_trace /\
  length l = 2%nat /\ nth 1 l (0, 0) <> nth 0 l (0, 0) /\
  exists Z, Z 0 = (100, 20) /\ moves f Z (1 / 16) /\
    (forall i, (i < 2)%nat -> pdist (nth i l (0, 0)) (Z (INR i / 16)) <= 1 / 100) /\ beside (1 / 100) l Z (1 / 16).
Proof. exact c124_example. Qed.
