(** * What the weights count, in binary64: property C95 (and C91 without a hypothesis on the result)

    Written by tools/genprops.py: statements only, each closed by the lemma of the
    same name in ProofFloatZone.v, ProofFloatZoneEx.v. *)
From Coq Require Import ZArith Reals SpecFloat List.
From Verif Require Import Py Num ModelField ModelAquifer ModelTrace ModelDist ModelDriver SpecFloats SpecExact SpecZone SpecDriver ProofTraceFlow ProofFloatZone ProofFloatZoneEx SpecField.
Import ListNotations.
Local Open Scope R_scope.

(** ** C91 Marked nodes in floating point *)

(** A track in range is rasterized without fail, and the nodes it marks are those near it up to the slack. *)
Theorem C91_rasterize_total : forall lm ex ey s tr u, roomy ex ey s -> (ex <= 147)%Z -> (ey <= 147)%Z -> wf (exact_field s) -> tr <> [] -> good_track ex ey (deltax s) (deltay s) tr ->
  reach ex u -> reach ey u -> 0 <= fval u ->
  exists n s', (forall fuel, (n <= fuel)%nat -> @rasterize spec_float (SF lm) fuel s (map fst tr) (map snd tr) u = (s', Ok tt)) /\ roomy ex ey s' /\ wf (exact_field s') /\
    deltax s' = deltax s /\ deltay s' = deltay s /\
    (forall x y w m, has_node (exact_field s) x y w m -> exists m', has_node (exact_field s') x y w m') /\
    (forall x y w m', has_node (exact_field s') x y w m' ->
       (~ is_node (exact_field s) x y -> w = 0) /\ (marked (exact_field s) x y -> m' = true) /\
       (m' = true -> marked (exact_field s) x y \/ possibly_hit (fval u) [tr] (x, y)) /\ (surely_hit (fval u) tr (x, y) -> m' = true)).
Proof. exact c91_rasterize_total. Qed.
Print Assumptions C91_rasterize_total.

(** ** C95 Weights count realizations exactly, in binary64 *)

(** What each node's weight counts after zones were recorded on a fresh field. *)
Theorem C95_zones : forall lm fuel ex ey d xo yo u zones s0 s, (-1073 <= ex <= 147)%Z -> (-1073 <= ey <= 147)%Z ->
  ffinite d -> 0 < fval d -> roomy_units ex (fval d) -> roomy_units ey (fval d) ->
  roomy_range ex d xo -> roomy_units ex (fval xo) -> roomy_range ey d yo -> roomy_units ey (fval yo) ->
  reach ex u -> reach ey u -> 0 <= fval u -> (Z.of_nat (length zones) <= 2 ^ 53)%Z -> Forall (Forall (good_track ex ey d d)) zones ->
  @pf_init spec_float (SF lm) d d xo yo = Ok s0 -> @calls spec_float (SF lm) fuel s0 (concat (map (@zone_calls spec_float (SF lm) u) zones)) = (s, Ok tt) ->
  wf (exact_field s) /\ sound_grid 0 s /\ total (exact_field s) (INR (length zones)) /\
  (forall x y, is_node (exact_field s0) x y -> is_node (exact_field s) x y) /\
  (exists x0 x1 y0 y1, extent (exact_field s) x0 x1 y0 y1 /\ forall p, In p (concat (concat zones)) -> x0 <= fst (at_ p) <= x1 /\ y0 <= snd (at_ p) <= y1) /\
  (forall x y w m, has_node (exact_field s) x y w m -> m = false /\ exists flags, w = tally flags /\ fairs (fval u) (is_node (exact_field s0) x y) x y [] flags zones).
Proof. exact c95_zones. Qed.
Print Assumptions C95_zones.

(** The stochastic driver: every accumulated weight is the exact number of realizations that the node is counted for. *)
Theorem C95_stochastic : forall (lm : libm) (G E : Type) (R : rng spec_float G) (mvn : E -> list spec_float -> list (list spec_float) -> list spec_float)
    fuel la entropy g target npaths duration nrealizations base_ c_dist p_dist t_dist ws observations spacing umbra confined tol maxstep s logs,
  @create_stochastic _ (SF lm) _ _ R mvn fuel la entropy g target npaths duration nrealizations base_ c_dist p_dist t_dist ws observations
                    spacing umbra confined tol maxstep = Ok (s, logs) ->
  exists w s0 zones, nth_error ws target = Some w /\ @pf_init spec_float (SF lm) spacing spacing (sx w) (sy w) = Ok s0 /\ length zones = Z.to_nat nrealizations /\
    Forall2 (fun l tracks => exists m, logs_model l m /\ located m ws /\ xo m = sx w /\ yo m = sy w /\
               @traced _ (SF lm) fuel (sx w) (sy w) (sr w) duration tol maxstep npaths confined m tracks /\ length tracks = Z.to_nat npaths) logs zones /\
    forall ex ey, (-1073 <= ex <= 147)%Z -> (-1073 <= ey <= 147)%Z -> (nrealizations <= 2 ^ 53)%Z ->
      ffinite spacing -> roomy_units ex (fval spacing) -> roomy_units ey (fval spacing) ->
      roomy_range ex spacing (sx w) -> roomy_units ex (fval (sx w)) -> roomy_range ey spacing (sy w) -> roomy_units ey (fval (sy w)) ->
      reach ex umbra -> reach ey umbra -> 0 <= fval umbra -> Forall (Forall (good_track ex ey spacing spacing)) zones ->
      sound_grid 0 s /\ total (exact_field s) (INR (Z.to_nat nrealizations)) /\
      (exists x0 x1 y0 y1, extent (exact_field s) x0 x1 y0 y1 /\ forall p, In p (concat (concat zones)) -> x0 <= fst (at_ p) <= x1 /\ y0 <= snd (at_ p) <= y1) /\
      (forall x y w m, has_node (exact_field s) x y w m -> m = false /\ exists flags, w = tally flags /\ fairs (fval umbra) (is_node (exact_field s0) x y) x y [] flags zones).
Proof. exact c95_stochastic. Qed.
Print Assumptions C95_stochastic.

(** The deterministic driver: one zone. *)
Theorem C95_deterministic : forall (lm : libm)
    fuel la target npaths duration base_ c_dist p_dist t_dist ws observations spacing umbra confined tol maxstep s l,
  @create_deterministic _ (SF lm) fuel la target npaths duration base_ c_dist p_dist t_dist ws observations
                       spacing umbra confined tol maxstep = Ok (s, l) ->
  exists w s0 tracks m, nth_error ws target = Some w /\ @pf_init spec_float (SF lm) spacing spacing (sx w) (sy w) = Ok s0 /\
    logs_model l m /\ located m ws /\ xo m = sx w /\ yo m = sy w /\
    @traced _ (SF lm) fuel (sx w) (sy w) (sr w) duration tol maxstep npaths confined m tracks /\ length tracks = Z.to_nat npaths /\
    forall ex ey, (-1073 <= ex <= 147)%Z -> (-1073 <= ey <= 147)%Z ->
      ffinite spacing -> roomy_units ex (fval spacing) -> roomy_units ey (fval spacing) ->
      roomy_range ex spacing (sx w) -> roomy_units ex (fval (sx w)) -> roomy_range ey spacing (sy w) -> roomy_units ey (fval (sy w)) ->
      reach ex umbra -> reach ey umbra -> 0 <= fval umbra -> Forall (good_track ex ey spacing spacing) tracks ->
      sound_grid 0 s /\ total (exact_field s) 1 /\
      (exists x0 x1 y0 y1, extent (exact_field s) x0 x1 y0 y1 /\ forall p, In p (concat tracks) -> x0 <= fst (at_ p) <= x1 /\ y0 <= snd (at_ p) <= y1) /\
      (forall x y w m, has_node (exact_field s) x y w m -> m = false /\ exists b : bool, w = (if b then 1 else 0) /\ fair (fval umbra) (is_node (exact_field s0) x y) [] x y b tracks).
Proof. exact c95_deterministic. Qed.
Print Assumptions C95_deterministic.

(** The run meets the hypotheses; the node at the well is counted twice, one at (1016, 1996) once, one at (988, 1996) never. *)
Example C95_example : (exists logs, e_run = Ok (e_end, logs)) /\ @pf_init spec_float (SF e_lm) (f_of_Z 4) (f_of_Z 4) (sx e_well) (sy e_well) = Ok e_start /\
  map (@length _) e_zones = [2; 2]%nat /\ Forall (Forall (good_track 0 0 (f_of_Z 4) (f_of_Z 4))) e_zones /\
  @calls spec_float (SF e_lm) 1000 e_start (concat (map (@zone_calls spec_float (SF e_lm) (f_of_Z 5)) e_zones)) = (e_end, Ok tt) /\
  ffinite (f_of_Z 4) /\ roomy_units 0 (fval (f_of_Z 4)) /\ roomy_range 0 (f_of_Z 4) (sx e_well) /\ roomy_units 0 (fval (sx e_well)) /\ roomy_range 0 (f_of_Z 4) (sy e_well) /\
  roomy_units 0 (fval (sy e_well)) /\ reach 0 (f_of_Z 5) /\ 0 <= fval (f_of_Z 5) /\
  has_node (exact_field e_end) 1000 2000 2 false /\ has_node (exact_field e_end) 1016 1996 1 false /\ has_node (exact_field e_end) 988 1996 0 false.
Proof. exact c95_example. Qed.
