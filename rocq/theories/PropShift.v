(** * Another coordinate system: C115

    Written by tools/genprops.py: statements only, each closed by the lemma of the
    same name in ProofShift.v, ProofShiftEx.v. *)
From Coq Require Import Reals ZArith List.
From Verif Require Import Py Num NumXR ModelField ModelAquifer ModelTrace ModelObs ModelDist ModelDriver ModelMain ModelArchive SpecAquifer SpecFit SpecTrace SpecDriver SpecMain SpecWhole ProofFitProps ProofFitEx ProofDriverEx ProofMainEx SpecShift ProofShift ProofShiftEx SpecField.
Import ListNotations.
Local Open Scope R_scope.

(** ** C115 Another coordinate system *)

(** C115.  A stochastic run in the moved system makes the moved field, with the same log lines; it raises exactly what the original run raises. *)
Theorem C115_stochastic : forall (G E : Type) (Rg : rng xr G) (mvn : E -> list xr -> list (list xr) -> list xr) (fuel : nat) (la : linalg xr) (entropy : nat -> E) (g : G)
    (a : args xr) (c : call) (kept : list (obs xr)) (dx dy dz : R),
  call_stochastic Rg mvn fuel la entropy g a (moved_call dx dy dz c) (map (moved_obs dx dy dz) kept) =
  res_map (fun q => (moved_field dx dy (fst q), snd q)) (call_stochastic Rg mvn fuel la entropy g a c kept).
Proof. exact c115_stochastic. Qed.
Print Assumptions C115_stochastic.

(** C115.  A deterministic run. *)
Theorem C115_deterministic : forall (fuel : nat) (la : linalg xr) (a : args xr) (c : call) (kept : list (obs xr)) (dx dy dz : R),
  call_deterministic fuel la a (moved_call dx dy dz c) (map (moved_obs dx dy dz) kept) =
  res_map (fun q => (moved_field dx dy (fst q), snd q)) (call_deterministic fuel la a c kept).
Proof. exact c115_deterministic. Qed.
Print Assumptions C115_deterministic.

(** C115.  The moved field has the nodes of the original, moved, with the same weights and marks. *)
Theorem C115_nodes : forall s dx dy x y v b, has_node (moved_field dx dy s) (x + dx) (y + dy) v b <-> has_node s x y v b.
Proof. exact c115_nodes. Qed.
Print Assumptions C115_nodes.

(** C115.  Filtering the observations of the moved call gives the moved observations. *)
Theorem C115_filter : forall (dx dy dz : R) (l : list (obs xr)) (ws : list (xr * xr)) (buffer : xr), movable dz l ->
  filter_obs (map (moved_obs dx dy dz) l) (map (fun w => (moved dx (fst w), moved dy (snd w))) ws) buffer = res_map (map (moved_obs dx dy dz)) (filter_obs l ws buffer).
Proof. exact c115_filter. Qed.
Print Assumptions C115_filter.

(** C115.  A whole run of [oneka] with arguments that read as the moved call: the same effects in the same order, seen in the moved system, and the same
    outcome. *)
Theorem C115_run : forall (G E : Type) (Rg : rng xr G) (mvn : E -> list xr -> list (list xr) -> list xr) (dump : run_args (pyobj xr) -> res unit)
    (fuel : nat) (la : linalg xr) (entropy : nat -> E) (g : G) (a a' : args xr) (c : call) (dx dy dz : R),
  acceptable a -> reads a c -> acceptable a' -> reads a' (moved_call dx dy dz c) ->
  c_dist a' = c_dist a -> p_dist a' = p_dist a -> t_dist a' = t_dist a ->
  movable dz (k_obs c) -> (forall x, dump x = Ok tt) ->
  Forall2 (seen_moved dx dy dz) (fst (oneka Rg mvn dump fuel la entropy g a)) (fst (oneka Rg mvn dump fuel la entropy g a')) /\
  snd (oneka Rg mvn dump fuel la entropy g a') = snd (oneka Rg mvn dump fuel la entropy g a).
Proof. exact c115_run. Qed.
Print Assumptions C115_run.

(** The node (2, 0), reached by both realizations, is the node (500002, 4900000) of the run in the other system. *)
Example C115_run_example : exists fuel s, let a := d_args (PInt 2) (PInt 1) quarter dobs in let a' := far_args (PInt 2) (PInt 1) quarter in
  let mvn := fun (e : coef6 R) (_ : list xr) (_ : list (list xr)) => coef_list (fcoef e) in
  acceptable a /\ reads a (d_call 2 dobs) /\ acceptable a' /\ reads a' (moved_call 500000 4900000 300 (d_call 2 dobs)) /\
  c_dist a' = c_dist a /\ p_dist a' = p_dist a /\ t_dist a' = t_dist a /\ movable 300 (k_obs (d_call 2 dobs)) /\
  has_node s 2 0 2 false /\ has_node (moved_field 500000 4900000 s) 500002 4900000 2 false /\
  forall (G : Type) (Rg : rng xr G) (g : G), exists logs,
    let entropy := fun _ : nat => {| cA := 0; cB := 0; cC := 0; cD := 1; cE := 0; cF := 0 |} in
    call_stochastic Rg mvn fuel elim_la entropy g a (d_call 2 dobs) (map fobs dobs) = Ok (s, logs) /\
    call_stochastic Rg mvn fuel elim_la entropy g a' (moved_call 500000 4900000 300 (d_call 2 dobs)) (map (moved_obs 500000 4900000 300) (map fobs dobs)) =
      Ok (moved_field 500000 4900000 s, logs).
Proof. exact c115_run_example. Qed.
