(** * The order of wells and observations: C116, C117

    Written by tools/genprops.py: statements only, each closed by the lemma of the
    same name in ProofOrder.v, ProofOrderObs.v, ProofOrderEx.v. *)
From Coq Require Import Reals ZArith List Permutation.
From Verif Require Import Py Num NumXR ModelField ModelAquifer ModelTrace ModelObs ModelDist ModelDriver ModelMain ModelArchive SpecAquifer SpecFit SpecTrace SpecObs SpecDist SpecDriver SpecMain ProofFitProps ProofDriverEx ProofMainEx SpecOrder ProofOrder ProofOrderObs ProofOrderEx SpecField.
Import ListNotations.
Local Open Scope R_scope.

(** ** C116 The order of the wells *)

(** One realization: the wells with their discharges in another order. *)
Theorem C116_realization : forall (fuel : nat) (la : linalg xr) (s : pfield xr) (xt yt rt : xr) (np : Z) (dur b : xr) (kv nv hv : pyval xr)
    (l l' : list (swell xr * pyval xr)) (os : list (obs xr)) (u : xr) (cf : bool) (tl ms : xr) (pick : list xr -> list (list xr) -> list xr) (recharge : coef6 xr -> xr),
  Permutation l l' ->
  realization fuel la s xt yt rt np dur b kv nv hv (map fst l') (map snd l') os u cf tl ms pick recharge =
  realization fuel la s xt yt rt np dur b kv nv hv (map fst l) (map snd l) os u cf tl ms pick recharge.
Proof. exact c116_realization. Qed.
Print Assumptions C116_realization.

Theorem C116_deterministic : forall (fuel : nat) (la : linalg xr) (a a' : args xr) (c c' : call) (kept : list (obs xr)) (q : pfield xr * run_log xr),
  wells_reordered c c' -> c_dist a' = c_dist a -> p_dist a' = p_dist a -> t_dist a' = t_dist a ->
  call_deterministic fuel la a c kept = Ok q <-> call_deterministic fuel la a' c' kept = Ok q.
Proof. exact c116_deterministic. Qed.
Print Assumptions C116_deterministic.

(** C116.  A stochastic run: generators that draw the same for each well. *)
Theorem C116_stochastic : forall (G G' E : Type) (Rg : rng xr G) (Rg' : rng xr G') (same : G -> G' -> Prop) (mvn : E -> list xr -> list (list xr) -> list xr)
    (fuel : nat) (la : linalg xr) (entropy : nat -> E) (g : G) (g' : G') (a a' : args xr) (c c' : call) (kept : list (obs xr)),
  wells_reordered c c' -> draw_alike Rg Rg' a a' (k_wells c) (k_wells c') same -> same g g' ->
  call_stochastic Rg' mvn fuel la entropy g' a' c' kept = call_stochastic Rg mvn fuel la entropy g a c kept.
Proof. exact c116_stochastic. Qed.
Print Assumptions C116_stochastic.

(** C116.  In particular: wells with known discharges, any generator. *)
Theorem C116_constant : forall (G E : Type) (Rg : rng xr G) (mvn : E -> list xr -> list (list xr) -> list xr)
    (fuel : nat) (la : linalg xr) (entropy : nat -> E) (g : G) (a a' : args xr) (c c' : call) (kept : list (obs xr)),
  wells_reordered c c' -> c_dist a' = c_dist a -> p_dist a' = p_dist a -> t_dist a' = t_dist a ->
  (forall w, In w (k_wells c) -> exists x, number (sq w) x) ->
  call_stochastic Rg mvn fuel la entropy g a' c' kept = call_stochastic Rg mvn fuel la entropy g a c kept.
Proof. exact c116_constant. Qed.
Print Assumptions C116_constant.

(** Filtering the observations. *)
Theorem C116_filter : forall (l : list (obs xr)) (ws ws' : list (xr * xr)) (buffer : xr), Permutation ws ws' -> filter_obs l ws' buffer = filter_obs l ws buffer.
Proof. exact c116_filter. Qed.
Print Assumptions C116_filter.

(** C116.  A whole run that returns (one realization, or wells with known discharges): the same effects and the same outcome; only the archived arguments
    are in the other order. *)
Theorem C116_run : forall (G E : Type) (Rg : rng xr G) (mvn : E -> list xr -> list (list xr) -> list xr) (dump : run_args (pyobj xr) -> res unit)
    (fuel : nat) (la : linalg xr) (entropy : nat -> E) (g : G) (a a' : args xr) (c c' : call) (v : result xr),
  acceptable a -> reads a c -> acceptable a' -> reads a' c' -> wells_reordered c c' ->
  c_dist a' = c_dist a -> p_dist a' = p_dist a -> t_dist a' = t_dist a -> (forall x, dump x = Ok tt) ->
  ((1 < k_n c)%Z -> forall w, In w (k_wells c) -> exists x, number (sq w) x) ->
  snd (oneka Rg mvn dump fuel la entropy g a) = Ok v ->
  snd (oneka Rg mvn dump fuel la entropy g a') = Ok v /\
  Forall2 seen_alike (fst (oneka Rg mvn dump fuel la entropy g a)) (fst (oneka Rg mvn dump fuel la entropy g a')).
Proof. exact c116_run. Qed.
Print Assumptions C116_run.

(** C116.  A target well and a second well whose discharge is uniform in (-1, 1): both runs return, with the same field. *)
Example C116_example : exists fuel s events events', let a := e_args 0 [e_one; e_two] in let a' := e_args 1 [e_two; e_one] in
  acceptable a /\ reads a (e_call 0 [dw; e_well]) /\ acceptable a' /\ reads a' (e_call 1 [e_well; dw]) /\
  wells_reordered (e_call 0 [dw; e_well]) (e_call 1 [e_well; dw]) /\ has_node s 2 0 1 false /\
  (forall (G E : Type) (Rg : rng xr G) (mvn : E -> list xr -> list (list xr) -> list xr) entropy g,
    oneka Rg mvn (fun _ => Ok tt) fuel elim_la entropy g a = (events, Ok RNone) /\ oneka Rg mvn (fun _ => Ok tt) fuel elim_la entropy g a' = (events', Ok RNone)) /\
  In (EArchive (archived a s)) events /\ In (EArchive (archived a' s)) events'.
Proof. exact c116_example. Qed.

Example C116_draws_example : forall u : nat -> R,
  draw_alike (stream u) (stream (swapped u)) (d_args (PInt 2) (PInt 1) quarter dobs) (d_args (PInt 2) (PInt 1) quarter dobs)
    [e_other; e_well] [e_well; e_other] (fun g g' => g = g' /\ Nat.even g = true).
Proof. exact c116_draws_example. Qed.

(** ** C117 The order of the observations *)

(** C117.  Observations that are at least 1 m apart: the same ones are retained. *)
Theorem C117_filter_partial : forall (l l' : list (obs R)) (ws : list (R * R)) (b : R), apart l -> Permutation l l' ->
  exists k k', Permutation k k' /\ filter_obs (map fobs l) (map floc ws) (Fin b) = Ok (map fobs k) /\ filter_obs (map fobs l') (map floc ws) (Fin b) = Ok (map fobs k').
Proof. exact c117_filter_partial. Qed.
Print Assumptions C117_filter_partial.

(** C117.  A well-posed run whose observations are at least 1 m apart: the same effects and the same outcome in any order. *)
Theorem C117_run_partial : forall (G E : Type) (Rg : rng xr G) (mvn : E -> list xr -> list (list xr) -> list xr) (dump : run_args (pyobj xr) -> res unit)
    (fuel : nat) (la : linalg xr) (entropy : nat -> E) (g : G) (a a' : args xr) (c c' : call) (l kept : list (obs R)),
  acceptable a -> reads a c -> acceptable a' -> reads a' c' -> obs_reordered c c' ->
  c_dist a' = c_dist a -> p_dist a' = p_dist a -> t_dist a' = t_dist a ->
  well_posed a c l kept -> apart l -> linalg_contract la -> documented_finite Rg -> (forall x, dump x = Ok tt) ->
  snd (oneka Rg mvn dump fuel la entropy g a') = snd (oneka Rg mvn dump fuel la entropy g a) /\
  Forall2 seen_reordered (fst (oneka Rg mvn dump fuel la entropy g a)) (fst (oneka Rg mvn dump fuel la entropy g a')).
Proof. exact c117_run_partial. Qed.
Print Assumptions C117_run_partial.

Example C117_run_example : exists fuel s events, let a := d_args (PInt 1) halves quarter dobs in let a' := d_args (PInt 1) halves quarter (rev dobs) in
  acceptable a /\ reads a (d_call 1 dobs) /\ acceptable a' /\ reads a' (d_call 1 (rev dobs)) /\ obs_reordered (d_call 1 dobs) (d_call 1 (rev dobs)) /\
  well_posed a (d_call 1 dobs) dobs dobs /\ apart dobs /\ linalg_contract elim_la /\
  forall (G E : Type) (Rg : rng xr G) (mvn : E -> list xr -> list (list xr) -> list xr) entropy g,
    oneka Rg mvn (fun _ => Ok tt) fuel elim_la entropy g a = (events, Ok RNone) /\ In (EArchive (archived a s)) events /\ has_node s 2 0 1 false.
Proof. exact c117_run_example. Qed.

(** C117, refuted: the run on one list returns, the run on the other order of the same list ends with an AssertionError. *)
Theorem C117_refuted : exists fuel s, let a := d_args (PInt 1) halves quarter scattered in let a' := d_args (PInt 1) halves quarter gathered in
  acceptable a /\ reads a (d_call 1 scattered) /\ acceptable a' /\ reads a' (d_call 1 gathered) /\ obs_reordered (d_call 1 scattered) (d_call 1 gathered) /\
  has_node s 2 0 1 false /\
  forall (G E : Type) (Rg : rng xr G) (mvn : E -> list xr -> list (list xr) -> list xr) entropy g,
    (exists events, oneka Rg mvn (fun _ => Ok tt) fuel elim_la entropy g a = (events, Ok RNone) /\ In (EArchive (archived a s)) events) /\
    snd (oneka Rg mvn (fun _ => Ok tt) fuel elim_la entropy g a') = Raise AssertionError.
Proof. exact c117_refuted. Qed.
Print Assumptions C117_refuted.
