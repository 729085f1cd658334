(** * What a whole run computes: property C83

    Written by tools/genprops.py: statements only, each closed by the lemma of the
    same name in ProofWhole.v, ProofWholeEx.v. *)
From Coq Require Import Reals List.
From Verif Require Import Py Num NumXR ModelField ModelAquifer ModelTrace ModelObs ModelDist ModelDriver ModelPlot ModelArchive ModelMain SpecAquifer SpecFit SpecTrace SpecDriver SpecDist SpecMain SpecField SpecWhole Lstsq ProofFit ProofFitProps ProofFitEx ProofDriverEx ProofMainEx ProofWhole ProofWholeEx.
Local Open Scope R_scope.

(** ** C83 A run records exactly the capture zones of the fitted models *)

(** A deterministic run: the parameters of the model are the means of the distributions, its regional flow is the
    unique best fit to the observations, and the field records the one capture zone traced upstream in it. *)
Theorem C83_deterministic : forall (fuel : nat) (la : linalg xr) (a : args xr) (c : call) (l kept : list (obs R)) s lg,
  acceptable a -> reads a c -> well_posed a c l kept -> (forall q x, proper (p_dist a) q -> In x q -> 0 < x) -> linalg_contract la ->
  call_deterministic fuel la a c (map fobs kept) = Ok (s, lg) ->
  deterministic_run fuel a c kept s lg.
Proof. exact c83_deterministic. Qed.
Print Assumptions C83_deterministic.

(** A stochastic run: in every realization the parameters of the model are within the ends of the distributions, its
    regional flow is drawn with the mean and covariance of the fit to the observations, and the field counts, at every
    node, the realizations whose capture zone reaches it. *)
Theorem C83_stochastic : forall (G E : Type) (Rg : rng xr G) (mvn : E -> list xr -> list (list xr) -> list xr)
    (fuel : nat) (la : linalg xr) (entropy : nat -> E) (g : G) (a : args xr) (c : call) (l kept : list (obs R)) s logs,
  acceptable a -> reads a c -> well_posed a c l kept -> (forall q x, proper (p_dist a) q -> In x q -> 0 < x) -> linalg_contract la ->
  documented_finite Rg -> (forall e v C, exists d, mvn e (coef_list (fcoef v)) C = coef_list (fcoef d)) ->
  call_stochastic Rg mvn fuel la entropy g a c (map fobs kept) = Ok (s, logs) ->
  stochastic_run mvn fuel entropy a c kept s logs.
Proof. exact c83_stochastic. Qed.
Print Assumptions C83_stochastic.

(** The field that a well-posed run of [oneka] archives, and the log that it writes, are of such a computation: one
    deterministic run when at most one realization is asked for, that many realizations otherwise. *)
Theorem C83_run : forall (G E : Type) (Rg : rng xr G) (mvn : E -> list xr -> list (list xr) -> list xr) (dump : run_args (pyobj xr) -> res unit)
    (fuel : nat) (la : linalg xr) (entropy : nat -> E) (g : G) (a : args xr) (c : call) (l kept : list (obs R)) events r,
  acceptable a -> reads a c -> well_posed a c l kept -> (forall q x, proper (p_dist a) q -> In x q -> 0 < x) -> linalg_contract la ->
  documented_finite Rg -> (forall e v C, exists d, mvn e (coef_list (fcoef v)) C = coef_list (fcoef d)) -> (forall x, dump x = Ok tt) ->
  oneka Rg mvn dump fuel la entropy g a = (events, Ok r) ->
  exists s, (forall v, In (EArchive v) events <-> v = archived a s) /\
    ((k_n c <= 1)%Z -> exists lg, In (EDeterministic lg) events /\ deterministic_run fuel a c kept s lg) /\
    ((1 < k_n c)%Z -> exists logs, In (ERealizations logs) events /\ stochastic_run mvn fuel entropy a c kept s logs).
Proof. exact c83_run. Qed.
Print Assumptions C83_run.

(** A well-posed deterministic run that returns, with a captured node. *)
Example C83_deterministic_example : exists fuel s lg, let a := d_args (PInt 1) halves quarter dobs in
  acceptable a /\ reads a (d_call 1 dobs) /\ well_posed a (d_call 1 dobs) dobs dobs /\ (forall q x, proper (p_dist a) q -> In x q -> 0 < x) /\
  linalg_contract elim_la /\ call_deterministic fuel elim_la a (d_call 1 dobs) (map fobs dobs) = Ok (s, lg) /\ has_node s 2 0 1 false.
Proof. exact c83_deterministic_example. Qed.

(** A well-posed run of two realizations that returns, with a node captured twice; the regional flow drawn is always the
    uniform flow with D = 1. *)
Example C83_stochastic_example : exists fuel s, let a := d_args (PInt 2) (PInt 1) quarter dobs in
  let mvn := fun (e : coef6 R) (_ : list xr) (_ : list (list xr)) => coef_list (fcoef e) in
  acceptable a /\ reads a (d_call 2 dobs) /\ well_posed a (d_call 2 dobs) dobs dobs /\ (forall q x, proper (p_dist a) q -> In x q -> 0 < x) /\
  linalg_contract elim_la /\ (forall e v C, exists d, mvn e (coef_list (fcoef v)) C = coef_list (fcoef d)) /\
  has_node s 2 0 2 false /\
  forall (G : Type) (Rg : rng xr G) (g : G), exists logs,
    call_stochastic Rg mvn fuel elim_la (fun _ => {| cA := 0; cB := 0; cC := 0; cD := 1; cE := 0; cF := 0 |}) g a (d_call 2 dobs) (map fobs dobs) = Ok (s, logs).
Proof. exact c83_stochastic_example. Qed.
