(** * Traces in binary64 in an aquifer that need not be full: C128

    Written by tools/genprops.py: statements only, each closed by the lemma of the
    same name in ProofLevelTrace.v, ProofLevelTraceEx.v. *)
From Coq Require Import Reals ZArith SpecFloat List.
From Verif Require Import Py Num NumXR ModelAquifer ModelTrace ModelDriver SpecFloats SpecExact SpecTrace SpecAquifer SpecPathline SpecUnconfined SpecField SpecWhole SpecPathZone SpecRough SpecDischarge ProofDischargeEx SpecVoyage SpecLevel ProofLevelEx ProofLevelTrace ProofLevelTraceEx SpecWater.
Import ListNotations.
Local Open Scope R_scope.

(** ** C128 Traces in binary64 follow the water, whether the aquifer is full or not *)

(** C128.  A trace in binary64 in an aquifer that need not be full.  If its time steps are short, and if it keeps away from the wells and in deep
    water, then the water does follow a path from the start point for the time of the trace, only one, and the trace is near it:
    the distance is bounded by the steps, the velocity and its change, the number of wells, the precision of binary64 and that of the logarithm. *)
Theorem C128_unconfined : forall (lm : libm) (eps : R) (m : model spec_float) (fuel : nat) (xs ys duration tol maxstep : spec_float) (tr : trace spec_float),
  0 <= eps <= / 1000 -> log_within lm eps -> moderate_model m -> sized (conductivity m) -> (Z.of_nat (length (wells m)) <= 10 ^ 12)%Z -> let M := real_model m in
  @compute_backtrace _ (SF lm) fuel xs ys duration tol maxstep (@feval _ (SF lm) false m) = Ok tr -> ffinite xs -> ffinite ys ->
  exists dts, reckoned lm (@feval _ (SF lm) false m) tol maxstep tr dts /\
    forall (f : vec xr -> res (vec xr)) (w L rho s X H : R),
      let l := map at_ (vertices tr) in let ts := clock 0 dts in let T := last ts 0 in
      SpecWhole.upstream false M f -> / huge <= rho -> 0 <= H <= huge -> minute <= X -> X + rho <= huge ->
      (forall c, In c l -> Rabs (fst c) <= X /\ Rabs (snd c) <= X) -> (forall dt, In dt dts -> ffinite dt /\ 0 <= fval dt <= H) ->
      0 < s <= thickness M -> deep M w rho s l -> sound eps M X rho s -> 0 < L -> shear M w rho s <= L ->
      let V := pace M w rho s in let d := current_error eps M X rho s in
      let Rr := rounding X H V in let E := astray V L H (wrong L d Rr) Rr in
      V <= huge / 4 -> 50 * L * H <= 1 -> wrong L d Rr <= V -> E (length l) T + 2 * V * H + 140 * d * H + 3 * Rr < rho ->
      (forall v, In v (vertices tr) -> solid v) /\
      exists Z, Z 0 = (fval xs, fval ys) /\ moves f Z T /\
        (forall i, (i < length l)%nat -> let t := nth i ts 0 in 0 <= t <= T /\ pdist (nth i l (0, 0)) (Z t) <= E i t) /\
        beside (E (length l) T) l Z T /\
        forall Y, Y 0 = (fval xs, fval ys) -> moves f Y T -> forall t, 0 <= t <= T -> Y t = Z t.
Proof. exact c128_unconfined. Qed.
Print Assumptions C128_unconfined.

(** C128.  A chart (C125) for an aquifer that need not be full: what [charted] asks about the velocity follows from the discharge and the potential at the vertices, their distance
    from the wells and the size of the parameters. *)
Theorem C128_charted : forall (lm : libm) (eps : R) (m : model spec_float) (f : vec xr -> res (vec xr)) (w s : R) (k : chart) (r : trace spec_float * list spec_float),
  0 <= eps <= / 1000 -> log_within lm eps -> moderate_model m -> sized (conductivity m) -> (Z.of_nat (length (wells m)) <= 10 ^ 12)%Z -> let M := real_model m in SpecWhole.upstream false M f ->
  / huge <= c_rho k -> c_X k + c_rho k <= huge -> 0 < s <= thickness M -> deep M w (c_rho k) s (points r) -> sound eps M (c_X k) (c_rho k) s ->
  shear M w (c_rho k) s <= c_L k -> pace M w (c_rho k) s <= c_V k -> c_d k = current_error eps M (c_X k) (c_rho k) s ->
  (forall p, nth_error (vertices (fst r)) 0 = Some p -> solid p) -> (forall c, In c (points r) -> Rabs (fst c) <= c_X k /\ Rabs (snd c) <= c_X k) ->
  (forall dt, In dt (snd r) -> ffinite dt /\ 0 <= fval dt <= c_H k) -> (forall a b, consecutive (points r) a b -> pdist a b <= c_S k) ->
  (length (points r) <= c_N k)%nat -> span r <= c_T k ->
  charted (@feval _ (SF lm) false m) f k r.
Proof. exact c128_charted. Qed.
Print Assumptions C128_charted.

(** A case of [c128_unconfined]: the water is never deeper than the aquifer is thick. *)
Example C128_example : let f := feval false (fmodel (real_model marsh)) in let l := map at_ (vertices marsh_trace) in
  log_within even_log (/ 2 ^ 38) /\
  @compute_backtrace _ (SF even_log) 5 (f_of_Z 4) (f_of_Z 2) (fq 1 16) (fq 1 16) (f_of_Z 10) (@feval _ (SF even_log) false marsh) = Ok marsh_trace /\
  length l = 2%nat /\ nth 1 l (0, 0) <> nth 0 l (0, 0) /\
  (forall c, In c l -> water_depth (real_model marsh) (fst c) (snd c) < thickness (real_model marsh)) /\
  exists Z, Z 0 = (4, 2) /\ moves f Z (1 / 16) /\
    (forall i, (i < 2)%nat -> pdist (nth i l (0, 0)) (Z (INR i / 16)) <= 1 / 2000) /\ beside (1 / 2000) l Z (1 / 16).
Proof. exact c128_example. Qed.

Example C128_chart_example : seaworthy marsh_chart /\
  charted (@feval _ (SF even_log) false marsh) (feval false (fmodel (real_model marsh))) marsh_chart (marsh_trace, [S754_finite false 4503599627370496 (-56)]).
Proof. exact c128_chart_example. Qed.
