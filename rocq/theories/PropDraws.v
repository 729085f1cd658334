(** * Draws of a stochastic run

    Written by tools/genprops.py: statements only, each closed by the lemma of the
    same name in ProofDraws.v, ProofDrawsEx.v. *)
From Coq Require Import ZArith SpecFloat List.
From Verif Require Import Py Num ModelDist ModelField ModelAquifer ModelTrace ModelDriver SpecFloats SpecDriver SpecDraws ProofTraceFlow ProofFloatTrace ProofFloatZoneEx ProofDraws ProofDrawsEx.
Import ListNotations.

(** ** C96 Every draw is used once and in order *)

(** What a stochastic run computes, draw by draw, in any arithmetic: realization after realization, the discharges of the wells in order, conductivity, porosity and
    thickness are drawn from one generator, each state used once; realization j fits its own model and draws its coefficients with the j-th entropy; its log line,
    its traces and its capture zone are those of that model. *)
Theorem C96_stochastic : forall (T : Type) (N : Num T) (G E : Type) (R : rng T G) (mvn : E -> list T -> list (list T) -> list T)
    fuel la entropy g target npaths duration nrealizations base_ c_dist p_dist t_dist ws observations spacing umbra confined tol maxstep s logs,
  create_stochastic R mvn fuel la entropy g target npaths duration nrealizations base_ c_dist p_dist t_dist ws observations
                    spacing umbra confined tol maxstep = Ok (s, logs) ->
  let n := Z.to_nat nrealizations in
  exists w s0 values models zones g',
    nth_error ws target = Some w /\ pf_init spacing spacing (sx w) (sy w) = Ok s0 /\
    length logs = n /\ length values = n /\ length models = n /\ length zones = n /\
    drawn R g (concat (repeat (map sq ws ++ [c_dist; p_dist; t_dist]) n)) (concat values) g' /\
    (forall j l vs m tracks, nth_error logs j = Some l -> nth_error values j = Some vs -> nth_error models j = Some m -> nth_error zones j = Some tracks ->
       (exists qs k n h, vs = qs ++ [k; n; h] /\ length qs = length ws /\ made la base_ (sx w) (sy w) ws observations (mvn (entropy j)) qs k n h m) /\
       logs_model l m /\ l_recharge l = recharge_stochastic (coef m) /\
       traced fuel (sx w) (sy w) (sr w) duration tol maxstep npaths confined m tracks /\ length tracks = Z.to_nat npaths) /\
    calls fuel s0 (concat (map (zone_calls umbra) zones)) = (s, Ok tt).
Proof. exact c96_stochastic. Qed.
Print Assumptions C96_stochastic.

(** The generator is used once for every pair or triple among the distributions, in every realization. *)
Theorem C96_draws : forall (T : Type) (N : Num T) (G : Type) (R : rng T G) (counter : G -> nat), counts_draws R counter -> forall g ds vs g', drawn R g ds vs g' ->
  counter g' = (counter g + length (filter is_tuple ds))%nat /\ length vs = length ds.
Proof. exact c96_draws. Qed.
Print Assumptions C96_draws.

(** Two realizations take six draws: discharge, conductivity, thickness 30, 2, 12 and then 33, 5, 15. *)
Example C96_example : counts_draws n_rng (fun n => n) /\
  match n_run with
  | Ok (_, logs) => map (@l_conductivity _) logs = [f_of_Z 2; f_of_Z 5] /\ map (@l_thickness _) logs = [f_of_Z 12; f_of_Z 15]
  | _ => False
  end /\
  @drawn spec_float (SF e_lm) nat n_rng 0%nat
    (concat (repeat [PTuple [PInt 30; PInt 40]; PTuple [PInt 1; PInt 9]; PFloat quarter; PTuple [PInt 10; PInt 12; PInt 20]] 2))
    [PFloat (f_of_Z 30); PFloat (f_of_Z 2); PFloat quarter; PFloat (f_of_Z 12); PFloat (f_of_Z 33); PFloat (f_of_Z 5); PFloat quarter; PFloat (f_of_Z 15)] 6%nat.
Proof. exact c96_example. Qed.
