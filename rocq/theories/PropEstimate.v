(** * The field exactly, and the probability map as an estimate: C112-C114

    Written by tools/genprops.py: statements only, each closed by the lemma of the
    same name in ProofExactMap.v, ProofEstimateProps.v, ProofEstimateEx.v. *)
From Coq Require Import Reals ZArith List.
From Verif Require Import Py Num NumXR ModelField ModelAquifer ModelTrace ModelDist ModelDriver ModelMain SpecAquifer SpecFit SpecTrace SpecDriver SpecDist SpecMain Lstsq ProofTraceFlow ProofFitProps ProofFitEx ProofDriverEx ProofMainEx SpecField SpecWhole SpecDraws SpecExactMap SpecMonteCarlo ProofExactMap ProofEstimateProps ProofEstimateEx.
Import ListNotations.
Local Open Scope R_scope.

(** ** C112 The probability field exactly *)

(** C112.  The field of the drivers' calls: zones traced in any way and rasterized one after the other, each registered with weight 1. *)
Theorem C112_zones : forall fuel x0 y0 sp u s0 s zones,
  0 < sp -> 0 <= u ->
  pf_init (Fin sp) (Fin sp) (Fin x0) (Fin y0) = Ok s0 ->
  calls fuel s0 (concat (map (zone_calls (Fin u)) (map (map (map fvec)) zones))) = (s, Ok tt) ->
  exactly_recorded s x0 y0 sp u zones.
Proof. exact c112_zones. Qed.
Print Assumptions C112_zones.

(** C112.  A stochastic run: the field records exactly the capture zones traced in the models that the log describes. *)
Theorem C112_stochastic : forall (G E : Type) (Rg : rng xr G) (mvn : E -> list xr -> list (list xr) -> list xr)
    (fuel : nat) (la : linalg xr) (entropy : nat -> E) (g : G) (a : args xr) (c : call) (kept : list (obs xr)) w x y sp u s logs,
  set_out c w x y sp u ->
  call_stochastic Rg mvn fuel la entropy g a c kept = Ok (s, logs) ->
  exists zones, length zones = Z.to_nat (k_n c) /\ length logs = Z.to_nat (k_n c) /\
    (forall j l z, nth_error logs j = Some l -> nth_error zones j = Some z ->
       exists m, logs_model l m /\ tracks_of fuel c w (feval (k_confined c) m) z) /\
    exactly_recorded s x y sp u zones.
Proof. exact c112_stochastic. Qed.
Print Assumptions C112_stochastic.

(** C112.  A deterministic run. *)
Theorem C112_deterministic : forall (fuel : nat) (la : linalg xr) (a : args xr) (c : call) (kept : list (obs xr)) w x y sp u s l,
  set_out c w x y sp u ->
  call_deterministic fuel la a c kept = Ok (s, l) ->
  exists zone m, logs_model l m /\ tracks_of fuel c w (feval (k_confined c) m) zone /\ exactly_recorded s x y sp u [zone].
Proof. exact c112_deterministic. Qed.
Print Assumptions C112_deterministic.

(** C112.  The nodes around the well: the nine points of the lattice within one spacing of the target are nodes from the start, and the weight of
    each is the number of zones with a track passing closer than the umbra, with no condition on the window. *)
Theorem C112_centre : forall s x0 y0 sp u zones i j v b,
  0 < sp -> exactly_recorded s x0 y0 sp u zones -> (-1 <= i <= 1)%Z -> (-1 <= j <= 1)%Z ->
  let p := (x0 + IZR i * sp, y0 + IZR j * sp) in
  is_node s (fst p) (snd p) /\
  (has_node s (fst p) (snd p) v b ->
     exists hits, Forall2 (fun z h => h = true <-> exists tr, In tr z /\ near_track u tr p) zones hits /\
       v = INR (length (filter (fun h => h) hits))).
Proof. exact c112_centre. Qed.
Print Assumptions C112_centre.

(** C112.  Two realizations, the first with regional flow, the second without: the node (2, 0) counts the first only. *)
Example C112_example : exists fuel s logs, set_out (d_call 2 dobs) dw 0 0 2 1 /\
  run_with pick_any fuel elim_la m_args (d_call 2 dobs) (map fobs dobs) (dc 0 0) [([], dc 1 0); ([], dc 0 0)] = Ok (s, logs) /\
  has_node s 2 0 1 false /\
  exists zones, length zones = 2%nat /\ exactly_recorded s 0 0 2 1 zones.
Proof. exact c112_example. Qed.

(** ** C113 The probability map is (nearly) unbiased *)

(** C113.  The mean of the estimate, over all that can be drawn, is at least the probability that the zone of a realization is counted even when
    it is the first, and at most the probability that it reaches the location. *)
Theorem C113_unbiased : forall (E : Type) (mvn : E -> list xr -> list (list xr) -> list xr) (fuel : nat) (la : linalg xr) (a : args xr) (c : call) (kept : list (obs xr)) (e0 : E)
    w x y sp u (i j : Z) (us : list R) (es : list E) (est : list (list R * E) -> R) p_in p_out,
  set_out c w x y sp u -> (0 < k_n c)%Z -> us <> [] -> es <> [] ->
  let n := Z.to_nat (k_n c) in let t := (x, y) in let p := (x + IZR i * sp, y + IZR j * sp) in
  let os := outcomes a c us es in let share_with := fun P => share os (zone_with mvn fuel la a c kept w P) in
  estimator mvn fuel la a c kept e0 os n p est ->
  share_with (counted_first u sp t p) p_in -> share_with (reaches u p) p_out ->
  p_in <= mean (tuples os n) est <= p_out.
Proof. exact c113_unbiased. Qed.
Print Assumptions C113_unbiased.

(** C113.  The bias is at most one over the number of realizations that can be expected to cover the location. *)
Theorem C113_bias : forall (E : Type) (mvn : E -> list xr -> list (list xr) -> list xr) (fuel : nat) (la : linalg xr) (a : args xr) (c : call) (kept : list (obs xr)) (e0 : E)
    w x y sp u (i j : Z) (us : list R) (es : list E) (est : list (list R * E) -> R) p_out p_cov,
  set_out c w x y sp u -> (0 < k_n c)%Z -> us <> [] -> es <> [] ->
  let n := Z.to_nat (k_n c) in let t := (x, y) in let p := (x + IZR i * sp, y + IZR j * sp) in
  let os := outcomes a c us es in let share_with := fun P => share os (zone_with mvn fuel la a c kept w P) in
  estimator mvn fuel la a c kept e0 os n p est ->
  share_with (reaches u p) p_out -> share_with (covers sp t p) p_cov -> 0 < p_cov ->
  p_out - 1 / (INR n * p_cov) <= mean (tuples os n) est.
Proof. exact c113_bias. Qed.
Print Assumptions C113_bias.

(** C113.  There is no bias at the nine points of the lattice around the well. *)
Theorem C113_centre : forall (E : Type) (mvn : E -> list xr -> list (list xr) -> list xr) (fuel : nat) (la : linalg xr) (a : args xr) (c : call) (kept : list (obs xr)) (e0 : E)
    w x y sp u (i j : Z) (us : list R) (es : list E) (est : list (list R * E) -> R) p_out,
  set_out c w x y sp u -> (0 < k_n c)%Z -> us <> [] -> es <> [] ->
  let n := Z.to_nat (k_n c) in let t := (x, y) in let p := (x + IZR i * sp, y + IZR j * sp) in
  let os := outcomes a c us es in let share_with := fun P => share os (zone_with mvn fuel la a c kept w P) in
  estimator mvn fuel la a c kept e0 os n p est ->
  (-1 <= i <= 1)%Z -> (-1 <= j <= 1)%Z -> share_with (reaches u p) p_out ->
  mean (tuples os n) est = p_out.
Proof. exact c113_centre. Qed.
Print Assumptions C113_centre.

(** C113, C114.  Over the four equally likely runs the estimate for (2, 0) is 1, 1/2, 1/2 and 0; its mean is the probability, 1/2, that a realization reaches that point. *)
Example C113_example : exists fuel est,
  set_out (d_call 2 dobs) dw 0 0 2 1 /\
  let p := (0 + IZR 1 * 2, 0 + IZR 0 * 2) in
  estimator pick_any fuel elim_la m_args (d_call 2 dobs) (map fobs dobs) (dc 0 0) m_outcomes 2 p est /\
  map est (tuples m_outcomes 2) = [1; 1 / 2; 1 / 2; 0] /\
  mean (tuples m_outcomes 2) est = 1 / 2 /\
  share m_outcomes (zone_with pick_any fuel elim_la m_args (d_call 2 dobs) (map fobs dobs) dw (reaches 1 p)) (1 / 2).
Proof. exact c113_example. Qed.

(** ** C114 The probability map converges *)

(** C114.  The estimate is seldom more than [e] above the probability that the zone of a realization reaches the location. *)
Theorem C114_above : forall (E : Type) (mvn : E -> list xr -> list (list xr) -> list xr) (fuel : nat) (la : linalg xr) (a : args xr) (c : call) (kept : list (obs xr)) (e0 : E)
    w x y sp u (i j : Z) (us : list R) (es : list E) (est : list (list R * E) -> R) p_out e q,
  set_out c w x y sp u -> (0 < k_n c)%Z -> us <> [] -> es <> [] ->
  let n := Z.to_nat (k_n c) in let t := (x, y) in let p := (x + IZR i * sp, y + IZR j * sp) in
  let os := outcomes a c us es in let share_with := fun P => share os (zone_with mvn fuel la a c kept w P) in
  estimator mvn fuel la a c kept e0 os n p est ->
  share_with (reaches u p) p_out -> 0 < e -> share (tuples os n) (fun o => p_out + e < est o) q ->
  q <= 1 / (4 * INR n * (e * e)).
Proof. exact c114_above. Qed.
Print Assumptions C114_above.

(** C114.  It is seldom more than [e] below the probability that the zone of a realization is counted even when it is the first. *)
Theorem C114_below : forall (E : Type) (mvn : E -> list xr -> list (list xr) -> list xr) (fuel : nat) (la : linalg xr) (a : args xr) (c : call) (kept : list (obs xr)) (e0 : E)
    w x y sp u (i j : Z) (us : list R) (es : list E) (est : list (list R * E) -> R) p_in e q,
  set_out c w x y sp u -> (0 < k_n c)%Z -> us <> [] -> es <> [] ->
  let n := Z.to_nat (k_n c) in let t := (x, y) in let p := (x + IZR i * sp, y + IZR j * sp) in
  let os := outcomes a c us es in let share_with := fun P => share os (zone_with mvn fuel la a c kept w P) in
  estimator mvn fuel la a c kept e0 os n p est ->
  share_with (counted_first u sp t p) p_in -> 0 < e -> share (tuples os n) (fun o => est o < p_in - e) q ->
  q <= 1 / (4 * INR n * (e * e)).
Proof. exact c114_below. Qed.
Print Assumptions C114_below.

(** C114.  Convergence: the runs whose estimate is within [e] of the probability that the zone of a realization reaches the location are all but a share
    that goes to 0 like one over the number of realizations. *)
Theorem C114_converges : forall (E : Type) (mvn : E -> list xr -> list (list xr) -> list xr) (fuel : nat) (la : linalg xr) (a : args xr) (c : call) (kept : list (obs xr)) (e0 : E)
    w x y sp u (i j : Z) (us : list R) (es : list E) (est : list (list R * E) -> R) p_out p_cov e q,
  set_out c w x y sp u -> (0 < k_n c)%Z -> us <> [] -> es <> [] ->
  let n := Z.to_nat (k_n c) in let t := (x, y) in let p := (x + IZR i * sp, y + IZR j * sp) in
  let os := outcomes a c us es in let share_with := fun P => share os (zone_with mvn fuel la a c kept w P) in
  estimator mvn fuel la a c kept e0 os n p est ->
  share_with (reaches u p) p_out -> share_with (covers sp t p) p_cov -> 0 < p_cov ->
  0 < e -> share (tuples os n) (fun o => p_out - e <= est o <= p_out + e) q ->
  1 - (5 / (4 * INR n * (e * e)) + 2 / (INR n * e * p_cov)) <= q.
Proof. exact c114_converges. Qed.
Print Assumptions C114_converges.
