(** * The shipped data sets: property C81

    Written by tools/genprops.py: statements only, each closed by the lemma of the
    same name in ProofData.v. *)
From Coq Require Import Reals String ZArith List SpecFloat.
From Verif Require Import Py Num ModelAquifer ModelObs ModelDist ModelDriver ModelArchive ModelMain ModelData SpecAquifer SpecFit SpecDist SpecMain ProofData.
Local Open Scope R_scope.

(** ** C81 Every shipped data set is a valid, solvable problem *)

(** Every shipped data set is accepted by the checks of oneka. *)
Theorem C81_accepted : forall d rt, In d shipped -> documented_args (data_args d rt).
Proof. exact c81_accepted. Qed.
Print Assumptions C81_accepted.

(** The number of observations that the filter retains, in the order barnesville, basic, basic_deterministic,
    carlos, long_prairie, paynesville, perham. *)
Theorem C81_counts : Forall2 (fun d n => forall rt c, reads (data_args d rt) c -> exists kept, retained c kept /\ List.length kept = n)
  shipped [31; 25; 25; 13; 53; 209; 102]%nat.
Proof. exact c81_counts. Qed.
Print Assumptions C81_counts.

(** The retained observations are on no conic, and the fit succeeds for every conductivity and thickness,
    every discharge of the wells and every origin. *)
Theorem C81_fit : forall d rt c, In d shipped -> reads (data_args d rt) c ->
  exists kept, retained c (map fobs kept) /\ (7 <= List.length kept)%nat /\ conic_free kept /\
    forall la m x0 y0, linalg_contract la -> 0 < conductivity m -> 0 < thickness m -> k_base c = Fin (base m) ->
      map (fun w => (Fin (wx w), Fin (wy w))) (wells m) = map (fun w => (sx w, sy w)) (k_wells c) ->
      exists r, snd (fit_regional_flow la (fmodel m) (map fobs kept) (Fin x0) (Fin y0)) = Ok r.
Proof. exact c81_fit. Qed.
Print Assumptions C81_fit.

(** The checks also pass in binary64. *)
Theorem C81_binary64 : forall lm d rt, In d shipped -> @validate spec_float (SF lm) (@data_args spec_float (SF lm) d rt) = Ok tt.
Proof. exact c81_binary64. Qed.
Print Assumptions C81_binary64.

(** A run with a shipped data set raises no exception, whatever is drawn. *)
Theorem C81_run : forall (G E : Type) (Rg : rng xr G) (mvn : E -> list xr -> list (list xr) -> list xr) (dump : ModelArchive.run_args (pyobj xr) -> res unit)
    (fuel : nat) (la : linalg xr) (entropy : nat -> E) (g : G) (d : dataset) (rt : string),
  In d shipped -> linalg_contract la -> documented_finite Rg -> (forall e ev C, List.length ev = 6%nat -> List.length (mvn e ev C) = 6%nat) -> (forall r, dump r = Ok tt) ->
  snd (oneka Rg mvn dump fuel la entropy g (data_args d rt)) = Ok RNone \/ snd (oneka Rg mvn dump fuel la entropy g (data_args d rt)) = NoFuel.
Proof. exact c81_run. Qed.
Print Assumptions C81_run.

(** ** C82 A well-posed run raises no exception *)

(** The data set basic with its 25 observations is well-posed. *)
Example C82_example : forall rt, exists c l kept, acceptable (data_args basic rt) /\ reads (data_args basic rt) c /\ well_posed (data_args basic rt) c l kept /\ List.length kept = 25%nat.
Proof. exact c82_example. Qed.
