(** * The capture zones of a run in binary64 and the water: C125

    Written by tools/genprops.py: statements only, each closed by the lemma of the
    same name in ProofVoyage.v, ProofVoyageEx.v. *)
From Coq Require Import Reals ZArith SpecFloat List.
From Verif Require Import Py Num NumXR ModelField ModelAquifer ModelTrace ModelDist ModelDriver ModelMain SpecFloats SpecExact SpecZone SpecAquifer SpecTrace SpecPathline SpecDriver SpecField SpecWhole SpecPathZone SpecWater SpecRough SpecDischarge ProofDischargeEx SpecVoyage ProofVoyage ProofVoyageEx.
Import ListNotations.
Local Open Scope R_scope.

(** ** C125 The probabilities of a run in binary64 count where the water passes *)

(** C125, stochastic: under the conditions of C95 on the grid every weight is the exact number of the realizations that count the node; for each of them, under
    the conditions of C124 on its traces, the water follows a path from each start point, and the node is counted, up to the distance
    [drift k + blur u S], when the water passes closer than [u]. *)
Theorem C125_stochastic : forall (lm : libm) (G E : Type) (R : rng spec_float G) (mvn : E -> list spec_float -> list (list spec_float) -> list spec_float)
    fuel la entropy g target npaths duration nrealizations base_ c_dist p_dist t_dist ws observations spacing umbra confined tol maxstep s logs,
  @create_stochastic _ (SF lm) _ _ R mvn fuel la entropy g target npaths duration nrealizations base_ c_dist p_dist t_dist ws observations
                    spacing umbra confined tol maxstep = Ok (s, logs) ->
  exists w zones, nth_error ws target = Some w /\ length zones = Z.to_nat nrealizations /\
    Forall2 (fun l z => logs_model l (g_model z) /\ located (g_model z) ws /\ xo (g_model z) = sx w /\ yo (g_model z) = sy w /\
               sailed lm fuel (sx w) (sy w) (sr w) duration tol maxstep npaths confined z /\ length (g_runs z) = Z.to_nat npaths) logs zones /\
    forall ex ey, (-1073 <= ex <= 147)%Z -> (-1073 <= ey <= 147)%Z -> (nrealizations <= 2 ^ 53)%Z ->
      ffinite spacing -> roomy_units ex (fval spacing) -> roomy_units ey (fval spacing) ->
      roomy_range ex spacing (sx w) -> roomy_units ex (fval (sx w)) -> roomy_range ey spacing (sy w) -> roomy_units ey (fval (sy w)) ->
      reach ex umbra -> reach ey umbra -> 0 < fval umbra ->
      (forall z r, In z zones -> In r (g_runs z) -> good_track ex ey spacing spacing (vertices (fst r))) ->
      total (exact_field s) (INR (Z.to_nat nrealizations)) /\
      forall x y weight mk, has_node (exact_field s) x y weight mk -> exists flags, weight = tally flags /\ length flags = length zones /\
        forall i z b, nth_error zones i = Some z -> nth_error flags i = Some b -> forall f k, seaworthy k ->
          (forall r, In r (g_runs z) -> charted (@feval _ (SF lm) confined (g_model z)) f k r) ->
          (exists path, carries f z path) /\
          forall path, carries f z path -> shows (fval umbra) (drift k + blur (fval umbra) (c_S k)) z path (x, y) b.
Proof. exact c125_stochastic. Qed.
Print Assumptions C125_stochastic.

(** The deterministic driver: the weight of a node is 1 if it is counted, 0 if not. *)
Theorem C125_deterministic : forall (lm : libm)
    fuel la target npaths duration base_ c_dist p_dist t_dist ws observations spacing umbra confined tol maxstep s l,
  @create_deterministic _ (SF lm) fuel la target npaths duration base_ c_dist p_dist t_dist ws observations
                       spacing umbra confined tol maxstep = Ok (s, l) ->
  exists w z, nth_error ws target = Some w /\ logs_model l (g_model z) /\ located (g_model z) ws /\ xo (g_model z) = sx w /\ yo (g_model z) = sy w /\
    sailed lm fuel (sx w) (sy w) (sr w) duration tol maxstep npaths confined z /\ length (g_runs z) = Z.to_nat npaths /\
    forall ex ey, (-1073 <= ex <= 147)%Z -> (-1073 <= ey <= 147)%Z ->
      ffinite spacing -> roomy_units ex (fval spacing) -> roomy_units ey (fval spacing) ->
      roomy_range ex spacing (sx w) -> roomy_units ex (fval (sx w)) -> roomy_range ey spacing (sy w) -> roomy_units ey (fval (sy w)) ->
      reach ex umbra -> reach ey umbra -> 0 < fval umbra ->
      (forall r, In r (g_runs z) -> good_track ex ey spacing spacing (vertices (fst r))) ->
      total (exact_field s) 1 /\
      forall x y weight mk, has_node (exact_field s) x y weight mk -> exists b : bool, weight = (if b then 1 else 0) /\ forall f k, seaworthy k ->
          (forall r, In r (g_runs z) -> charted (@feval _ (SF lm) confined (g_model z)) f k r) ->
          (exists path, carries f z path) /\
          forall path, carries f z path -> shows (fval umbra) (drift k + blur (fval umbra) (c_S k)) z path (x, y) b.
Proof. exact c125_deterministic. Qed.
Print Assumptions C125_deterministic.

(** A chart for a confined aquifer: what [charted] asks about the velocity follows from the velocity at the vertices, their distance from the wells and the size of the parameters. *)
Theorem C125_confined : forall (lm : libm) (m : model spec_float) (f : vec xr -> res (vec xr)) (v : R) (k : chart) (r : trace spec_float * list spec_float),
  moderate_model m -> (Z.of_nat (length (wells m)) <= 10 ^ 12)%Z -> let M := real_model m in physical M -> SpecWhole.upstream true M f ->
  / huge <= c_rho k -> c_X k + c_rho k <= huge -> gradient M (c_rho k) <= c_L k -> calm M f v (c_rho k) (points r) ->
  c_V k = v + c_L k * c_rho k -> c_d k = (INR (length (wells m)) + 12) / 2 ^ 51 * ((burden M (c_X k) (c_rho k) + tiny) / (thickness M * porosity M)) ->
  (forall p, nth_error (vertices (fst r)) 0 = Some p -> solid p) -> (forall c, In c (points r) -> Rabs (fst c) <= c_X k /\ Rabs (snd c) <= c_X k) ->
  (forall dt, In dt (snd r) -> ffinite dt /\ 0 <= fval dt <= c_H k) -> (forall a b, consecutive (points r) a b -> pdist a b <= c_S k) ->
  (length (points r) <= c_N k)%nat -> span r <= c_T k ->
  charted (@feval _ (SF lm) true m) f k r.
Proof. exact c125_confined. Qed.
Print Assumptions C125_confined.

(** The run meets the hypotheses, with a distance between tracks and water below 1.1; the node at (104, 0) is counted, the one at (36, 0) is not. *)
Example C125_example : (exists l, v_run = Ok (v_end, l) /\ logs_model l (g_model v_zone)) /\ located (g_model v_zone) [v_well] /\
  sailed v_lm 1000 (sx v_well) (sy v_well) (sr v_well) (f_of_Z 10) (fq 1 16) (f_of_Z 10) 1 true v_zone /\
  ffinite (f_of_Z 4) /\ roomy_units 0 (fval (f_of_Z 4)) /\ roomy_range 0 (f_of_Z 4) (sx v_well) /\ roomy_units 0 (fval (sx v_well)) /\ reach 0 (f_of_Z 5) /\ fval (f_of_Z 5) = 5 /\
  (forall r, In r (g_runs v_zone) -> good_track 0 0 (f_of_Z 4) (f_of_Z 4) (vertices (fst r))) /\
  seaworthy v_chart /\ (forall r, In r (g_runs v_zone) -> charted (@feval _ (SF v_lm) true v_model) (feval true (fmodel (real_model v_model))) v_chart r) /\
  drift v_chart + blur 5 (c_S v_chart) <= 11 / 10 /\
  has_node (exact_field v_end) 104 0 1 false /\ has_node (exact_field v_end) 36 0 0 false.
Proof. exact c125_example. Qed.
