(** * Drivers: properties C59-C62, C77

    Written by tools/genprops.py: statements only, each closed by the lemma of the
    same name in ProofDriver.v, ProofDriverProps.v, ProofFuel.v, ProofDriverEx.v. *)
From Coq Require Import Reals SpecFloat.
From Verif Require Import Py Num ModelField ModelAquifer ModelTrace ModelDist ModelDriver SpecField SpecAquifer SpecFit SpecDriver ProofTraceFlow ProofFitProps Lstsq ProofFit ProofDriver ProofDriverProps ProofFuel ProofDriverEx.
Local Open Scope R_scope.

(** ** C59 A deterministic run registers exactly one realization *)

(** What a deterministic run does: one capture zone, in the model with the means of the distributions. *)
Theorem C59_history : forall (T : Type) (N : Num T)
    fuel la target npaths duration base_ c_dist p_dist t_dist ws observations spacing umbra confined tol maxstep (s : pfield T) l,
  create_deterministic fuel la target npaths duration base_ c_dist p_dist t_dist ws observations
                       spacing umbra confined tol maxstep = Ok (s, l) ->
  exists w s0 tracks m k n h,
    nth_error ws target = Some w /\ pf_init spacing spacing (sx w) (sy w) = Ok s0 /\
    compute_variate_mean c_dist = Ok k /\ compute_variate_mean p_dist = Ok n /\ compute_variate_mean t_dist = Ok h /\
    num_of k = Some (l_conductivity l) /\ num_of n = Some (l_porosity l) /\ num_of h = Some (l_thickness l) /\
    logs_model l m /\ l_recharge l = recharge_deterministic (coef m) /\ base m = base_ /\ located m ws /\ xo m = sx w /\ yo m = sy w /\
    traced fuel (sx w) (sy w) (sr w) duration tol maxstep npaths confined m tracks /\ length tracks = Z.to_nat npaths /\
    calls fuel s0 (zone_calls umbra tracks) = (s, Ok tt).
Proof. exact c59_history. Qed.
Print Assumptions C59_history.

(** In any arithmetic with 0 + 1 = 1: total weight 1, accumulated weights 0 or 1, no mark pending. *)
Theorem C59_any_arithmetic : forall (T : Type) (N : Num T)
    fuel la target npaths duration base_ c_dist p_dist t_dist ws observations spacing umbra confined tol maxstep (s : pfield T) l,
  create_deterministic fuel la target npaths duration base_ c_dist p_dist t_dist ws observations
                       spacing umbra confined tol maxstep = Ok (s, l) ->
  counts_exactly T 1 -> counted s 1.
Proof. exact c59_any_arithmetic. Qed.
Print Assumptions C59_any_arithmetic.

Theorem C59_deterministic : forall
    fuel la target npaths duration base_ c_dist p_dist t_dist ws observations spacing umbra confined tol maxstep (s : pfield xr) l,
  create_deterministic fuel la target npaths duration base_ c_dist p_dist t_dist ws observations
                       spacing umbra confined tol maxstep = Ok (s, l) ->
  counted s 1.
Proof. exact c59_deterministic. Qed.
Print Assumptions C59_deterministic.

Theorem C59_binary64 : forall (lm : libm)
    fuel la target npaths duration base_ c_dist p_dist t_dist ws observations spacing umbra confined tol maxstep (s : pfield spec_float) l,
  @create_deterministic _ (SF lm) fuel la target npaths duration base_ c_dist p_dist t_dist ws observations
                       spacing umbra confined tol maxstep = Ok (s, l) ->
  @counted _ (SF lm) s 1.
Proof. exact c59_binary64. Qed.
Print Assumptions C59_binary64.

(** C59 at the nodes. *)
Theorem C59_nodes : forall
    fuel la target npaths duration base_ c_dist p_dist t_dist ws observations spacing umbra confined tol maxstep s l,
  (forall w, In w ws -> fin_or_nan (sx w) /\ fin_or_nan (sy w)) ->
  create_deterministic fuel la target npaths duration base_ c_dist p_dist t_dist ws observations
                       (Fin spacing) umbra confined tol maxstep = Ok (s, l) ->
  wf s /\ total s 1 /\ forall x y w m, has_node s x y w m -> m = false /\ (w = 0 \/ w = 1)%R.
Proof. exact c59_nodes. Qed.
Print Assumptions C59_nodes.

(** C59: only the means matter, in any arithmetic.  (The deterministic driver has no random source among its
    arguments.) *)
Theorem C59_only_means : forall (T : Type) (N : Num T)
    fuel la target npaths duration base_ c_dist p_dist t_dist c_dist' p_dist' t_dist' ws ws' observations spacing umbra confined tol maxstep,
  compute_variate_mean c_dist = compute_variate_mean c_dist' -> compute_variate_mean p_dist = compute_variate_mean p_dist' ->
  compute_variate_mean t_dist = compute_variate_mean t_dist' ->
  Forall2 (fun w w' : swell T => sx w = sx w' /\ sy w = sy w' /\ sr w = sr w' /\ compute_variate_mean (sq w) = compute_variate_mean (sq w')) ws ws' ->
  create_deterministic fuel la target npaths duration base_ c_dist p_dist t_dist ws observations spacing umbra confined tol maxstep
  = create_deterministic fuel la target npaths duration base_ c_dist' p_dist' t_dist' ws' observations spacing umbra confined tol maxstep.
Proof. exact c59_only_means. Qed.
Print Assumptions C59_only_means.

(** C59: the deterministic run is the stochastic run of one realization, at constant parameters and with the
    expected coefficients drawn (up to the logged recharge, see C62). *)
Theorem C59_single_realization : forall (T : Type) (N : Num T) (G E : Type) (R : rng T G) (entropy : nat -> E) (g : G)
    fuel la target npaths duration base_ c_dist p_dist t_dist ws observations spacing umbra confined tol maxstep,
  constant c_dist -> constant p_dist -> constant t_dist -> (forall w : swell T, In w ws -> constant (sq w)) ->
  create_stochastic R (fun _ ev _ => ev) fuel la entropy g target npaths duration 1 base_ c_dist p_dist t_dist ws observations spacing umbra confined tol maxstep
  = match create_deterministic fuel la target npaths duration base_ c_dist p_dist t_dist ws observations spacing umbra confined tol maxstep with
    | Ok (s, l) => Ok (s, [{| l_conductivity := l_conductivity l; l_porosity := l_porosity l; l_thickness := l_thickness l;
                              l_recharge := recharge_stochastic (l_coef l); l_coef := l_coef l |}])
    | Raise e => Raise e
    | NoFuel => NoFuel
    end.
Proof. exact c59_single_realization. Qed.
Print Assumptions C59_single_realization.

(** C59: the deterministic run on the same inputs finds the flow D = 1, F = 10 and captures (2, 0). *)
Example C59_example : exists fuel s, wf s /\ has_node s 2 0 1 false /\
  create_deterministic fuel elim_la 0 1 (Fin (1 / 10)) (Fin 0) (PTuple [PFloat (Fin (1 / 2)); PFloat (Fin (3 / 2))]) (PFloat (Fin (1 / 4))) (PInt 1) [dw] (map fobs dobs)
                       (Fin 2) (Fin 1) true (Fin 1) (Fin 10)
  = Ok (s, {| l_conductivity := Fin 1; l_porosity := Fin (1 / 4); l_thickness := Fin 1; l_recharge := Fin 0;
              l_coef := fcoef {| cA := 0; cB := 0; cC := 0; cD := 1; cE := 0; cF := 10 |} |}).
Proof. exact c59_example. Qed.

(** ** C60 A stochastic run registers exactly nrealizations realizations *)

(** What a stochastic run does: from the empty field around the target well, as many capture zones as
    realizations are recorded; each is made of the traces, from the given start points, in a model with the
    logged parameters, the given wells and origin at the target. *)
Theorem C60_history : forall (T : Type) (N : Num T) (G E : Type) (R : rng T G) (mvn : E -> list T -> list (list T) -> list T)
    fuel la entropy g target npaths duration nrealizations base_ c_dist p_dist t_dist ws observations spacing umbra confined tol maxstep s logs,
  create_stochastic R mvn fuel la entropy g target npaths duration nrealizations base_ c_dist p_dist t_dist ws observations
                    spacing umbra confined tol maxstep = Ok (s, logs) ->
  exists w s0 zones,
    nth_error ws target = Some w /\ pf_init spacing spacing (sx w) (sy w) = Ok s0 /\
    length logs = Z.to_nat nrealizations /\
    Forall2 (fun l tracks => exists m, logs_model l m /\ l_recharge l = recharge_stochastic (coef m) /\ base m = base_ /\ located m ws /\
               xo m = sx w /\ yo m = sy w /\
               traced fuel (sx w) (sy w) (sr w) duration tol maxstep npaths confined m tracks /\
               length tracks = Z.to_nat npaths) logs zones /\
    calls fuel s0 (concat (map (zone_calls umbra) zones)) = (s, Ok tt).
Proof. exact c60_history. Qed.
Print Assumptions C60_history.

(** Total weight, accumulated weights and marks after a stochastic run, in any arithmetic in which adding ones
    is exact up to the number of realizations. *)
Theorem C60_any_arithmetic : forall (T : Type) (N : Num T) (G E : Type) (R : rng T G) (mvn : E -> list T -> list (list T) -> list T)
    fuel la entropy g target npaths duration nrealizations base_ c_dist p_dist t_dist ws observations spacing umbra confined tol maxstep s logs,
  create_stochastic R mvn fuel la entropy g target npaths duration nrealizations base_ c_dist p_dist t_dist ws observations
                    spacing umbra confined tol maxstep = Ok (s, logs) ->
  (0 < nrealizations)%Z -> counts_exactly T nrealizations -> counted s nrealizations.
Proof. exact c60_any_arithmetic. Qed.
Print Assumptions C60_any_arithmetic.

(** In exact arithmetic. *)
Theorem C60_stochastic : forall (G E : Type) (R : rng xr G) (mvn : E -> list xr -> list (list xr) -> list xr)
    fuel la entropy g target npaths duration nrealizations base_ c_dist p_dist t_dist ws observations spacing umbra confined tol maxstep s logs,
  create_stochastic R mvn fuel la entropy g target npaths duration nrealizations base_ c_dist p_dist t_dist ws observations
                    spacing umbra confined tol maxstep = Ok (s, logs) ->
  (0 < nrealizations)%Z -> counted s nrealizations.
Proof. exact c60_stochastic. Qed.
Print Assumptions C60_stochastic.

(** In binary64, up to 2^53 realizations. *)
Theorem C60_binary64 : forall (lm : libm) (G E : Type) (R : rng spec_float G) (mvn : E -> list spec_float -> list (list spec_float) -> list spec_float)
    fuel la entropy g target npaths duration nrealizations base_ c_dist p_dist t_dist ws observations spacing umbra confined tol maxstep s logs,
  @create_stochastic _ (SF lm) _ _ R mvn fuel la entropy g target npaths duration nrealizations base_ c_dist p_dist t_dist ws observations
                    spacing umbra confined tol maxstep = Ok (s, logs) ->
  (0 < nrealizations <= 2 ^ 53)%Z -> @counted _ (SF lm) s nrealizations.
Proof. exact c60_binary64. Qed.
Print Assumptions C60_binary64.

(** C60 at the nodes of the field: the field is well formed, its total weight is the number of realizations, the
    weight at every node is a whole number of realizations, no node is marked. *)
Theorem C60_nodes : forall (G E : Type) (R : rng xr G) (mvn : E -> list xr -> list (list xr) -> list xr)
    fuel la entropy g target npaths duration nrealizations base_ c_dist p_dist t_dist ws observations spacing umbra confined tol maxstep s logs,
  (forall w, In w ws -> fin_or_nan (sx w) /\ fin_or_nan (sy w)) ->
  create_stochastic R mvn fuel la entropy g target npaths duration nrealizations base_ c_dist p_dist t_dist ws observations
                    (Fin spacing) umbra confined tol maxstep = Ok (s, logs) ->
  (0 < nrealizations)%Z ->
  wf s /\ total s (IZR nrealizations) /\
  forall x y w m, has_node s x y w m -> m = false /\ exists k, (0 <= k <= nrealizations)%Z /\ w = IZR k.
Proof. exact c60_nodes. Qed.
Print Assumptions C60_nodes.

(** C60: two realizations that capture (2, 0). *)
Example C60_example : exists fuel s, wf s /\ has_node s 2 0 2 false /\ forall (G : Type) (R : rng xr G) (g : G),
  exists logs, d_stochastic R (fun (e : list xr) _ _ => e) elim_la (fun _ => map Fin [0; 0; 0; 1; 0; 0]) g 2 fuel = Ok (s, logs).
Proof. exact c60_example. Qed.

(** ** C61 Seeding numpy makes stochastic runs reproducible *)

(** If the generator of the coefficients did not use fresh entropy, the result would be a function of the state
    of the global generator. *)
Theorem C61_seeded_partial : forall (T : Type) (N : Num T) (G E : Type) (R : rng T G) (mvn : E -> list T -> list (list T) -> list T)
    fuel la entropy entropy' g target npaths duration nrealizations base_ c_dist p_dist t_dist ws observations spacing umbra confined tol maxstep,
  (forall e e' mean cov, mvn e mean cov = mvn e' mean cov) ->
  create_stochastic R mvn fuel la entropy g target npaths duration nrealizations base_ c_dist p_dist t_dist ws observations spacing umbra confined tol maxstep
  = create_stochastic R mvn fuel la entropy' g target npaths duration nrealizations base_ c_dist p_dist t_dist ws observations spacing umbra confined tol maxstep.
Proof. exact c61_seeded_partial. Qed.
Print Assumptions C61_seeded_partial.

(** With constant distributions the global generator has no influence at all: whatever varies comes from the
    entropy. *)
Theorem C61_constant_partial : forall (T : Type) (N : Num T) (G G' E : Type) (R : rng T G) (R' : rng T G') (mvn : E -> list T -> list (list T) -> list T)
    fuel la entropy g g' target npaths duration nrealizations base_ c_dist p_dist t_dist ws observations spacing umbra confined tol maxstep,
  constant c_dist -> constant p_dist -> constant t_dist -> (forall w : swell T, In w ws -> constant (sq w)) ->
  create_stochastic R mvn fuel la entropy g target npaths duration nrealizations base_ c_dist p_dist t_dist ws observations spacing umbra confined tol maxstep
  = create_stochastic R' mvn fuel la entropy g' target npaths duration nrealizations base_ c_dist p_dist t_dist ws observations spacing umbra confined tol maxstep.
Proof. exact c61_constant_partial. Qed.
Print Assumptions C61_constant_partial.

(** C61, refuted.  One set of inputs, all distributions constant.  Whatever the state of numpy's global
    generator, and for every generator of the regional coefficients that can produce any six numbers,
    two states of the operating system's entropy give different results: two realizations capture (2, 0) in one
    run, none in the other. *)
Theorem C61_refuted : forall (E : Type) (mvn : E -> list xr -> list (list xr) -> list xr) (la : linalg xr),
  linalg_contract la -> any_outcome mvn ->
  exists (e1 e2 : nat -> E) (fuel : nat) (s1 s2 : pfield xr) logs1 logs2,
    wf s1 /\ wf s2 /\ has_node s1 2 0 2 false /\ has_node s2 2 0 0 false /\
    forall (G : Type) (R : rng xr G) (g : G),
      d_stochastic R mvn la e1 g 2 fuel = Ok (s1, logs1) /\ d_stochastic R mvn la e2 g 2 fuel = Ok (s2, logs2).
Proof. exact c61_refuted. Qed.
Print Assumptions C61_refuted.

(** Elimination as linear algebra, and the outcome itself as entropy. *)
Example C61_example : linalg_contract elim_la /\ any_outcome (fun (e : list xr) _ _ => e).
Proof. exact c61_example. Qed.

(** ** C62 Both drivers report recharge with the same sign *)

(** The coefficients A = 1, B = 0: the drivers log opposite recharges. *)
Theorem C62_refuted : exists c : coef6 xr, recharge_stochastic c = Fin 2 /\ recharge_deterministic c = Fin (-2).
Proof. exact c62_refuted. Qed.
Print Assumptions C62_refuted.

(** The recharge of the deterministic driver is the opposite of the other; they agree exactly when A + B = 0.
    (The recharge of the flow itself, minus the Laplacian of the potential, is what the deterministic driver logs.) *)
Theorem C62_opposite_partial : forall c : coef6 R,
  recharge_deterministic (fcoef c) = Fin (- (2 * cA c + 2 * cB c)) /\
  recharge_stochastic (fcoef c) = Fin (2 * cA c + 2 * cB c) /\
  (recharge_deterministic (fcoef c) = recharge_stochastic (fcoef c) <-> (cA c + cB c = 0)%R).
Proof. exact c62_opposite_partial. Qed.
Print Assumptions C62_opposite_partial.

(** ** C77 Results do not depend on the iteration budget of the model *)

(** The operations on the field: two budgets that suffice give the same field and the same outcome. *)
Theorem C77_field : forall (T : Type) (N : Num T) (s : pfield T) (o : op T) n m,
  snd (run_op n s o) <> NoFuel -> snd (run_op m s o) <> NoFuel -> run_op n s o = run_op m s o.
Proof. exact c77_field. Qed.
Print Assumptions C77_field.

(** The traces. *)
Theorem C77_backtrace : forall (T : Type) (N : Num T) xs ys duration tol maxstep (f : vec T -> res (vec T)) n m,
  compute_backtrace n xs ys duration tol maxstep f <> NoFuel -> compute_backtrace m xs ys duration tol maxstep f <> NoFuel ->
  compute_backtrace n xs ys duration tol maxstep f = compute_backtrace m xs ys duration tol maxstep f.
Proof. exact c77_backtrace. Qed.
Print Assumptions C77_backtrace.

(** The capture zone of one realization. *)
Theorem C77_capturezone : forall (T : Type) (N : Num T) xt yt rt npaths duration (s : pfield T) umbra weight tol maxstep f n m,
  snd (compute_capturezone n xt yt rt npaths duration s umbra weight tol maxstep f) <> NoFuel ->
  snd (compute_capturezone m xt yt rt npaths duration s umbra weight tol maxstep f) <> NoFuel ->
  compute_capturezone n xt yt rt npaths duration s umbra weight tol maxstep f
  = compute_capturezone m xt yt rt npaths duration s umbra weight tol maxstep f.
Proof. exact c77_capturezone. Qed.
Print Assumptions C77_capturezone.

(** The deterministic driver: once some budget suffices, every larger one gives the same result, and all that
    suffice agree. *)
Theorem C77_deterministic : forall (T : Type) (N : Num T)
    la target npaths duration base_ c_dist p_dist t_dist ws observations spacing umbra confined tol maxstep n m,
  let run k := create_deterministic k la target npaths duration base_ c_dist p_dist t_dist ws observations spacing umbra confined tol maxstep in
  run n <> NoFuel -> ((n <= m)%nat -> run m = run n) /\ (run m <> NoFuel -> run m = run n).
Proof. exact c77_deterministic. Qed.
Print Assumptions C77_deterministic.

(** The stochastic driver, for the same random outcomes. *)
Theorem C77_stochastic : forall (T : Type) (N : Num T) (G E : Type) (R : rng T G) (mvn : E -> list T -> list (list T) -> list T)
    la entropy g target npaths duration nrealizations base_ c_dist p_dist t_dist ws observations spacing umbra confined tol maxstep n m,
  let run k := create_stochastic R mvn k la entropy g target npaths duration nrealizations base_ c_dist p_dist t_dist ws observations spacing umbra confined tol maxstep in
  run n <> NoFuel -> ((n <= m)%nat -> run m = run n) /\ (run m <> NoFuel -> run m = run n).
Proof. exact c77_stochastic. Qed.
Print Assumptions C77_stochastic.

(** C77: a budget that suffices, and what a larger one gives. *)
Example C77_example : exists n, forall (G : Type) (R : rng xr G) (g : G),
  let run := d_stochastic R (fun (e : list xr) _ _ => e) elim_la (fun _ => map Fin [0; 0; 0; 1; 0; 0]) g 2 in
  run n <> NoFuel /\ forall m, (n <= m)%nat -> run m = run n.
Proof. exact c77_example. Qed.
