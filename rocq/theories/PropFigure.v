(** * The figures of a run: C121

    Written by tools/genprops.py: statements only, each closed by the lemma of the
    same name in ProofFigure.v. *)
From Coq Require Import Reals ZArith String List.
From Verif Require Import Py Num NumXR ModelField ModelAquifer ModelTrace ModelObs ModelDist ModelDriver ModelPlot ModelArchive ModelMain ModelDraw ModelFigure SpecField SpecAquifer SpecFit SpecObs SpecDriver SpecPlot SpecDist SpecArchive SpecMain SpecDraw SpecFigure ProofFitProps ProofMainEx ProofDriverEx ProofFigure.
Import ListNotations.
Local Open Scope R_scope.

(** ** C121 The figures of a run *)

(** With a finite smooth a run ends as the model of C66 says, with the same effects: drawing raises nothing else. *)
Theorem C121_outcome_partial : forall (G E : Type) (Rg : rng xr G) (mvn : E -> list xr -> list (list xr) -> list xr) (dump : run_args (pyobj xr) -> res unit)
    (fuel : nat) (la : linalg xr) (entropy : nat -> E) (g : G) (a : args xr) (c : call) (sg : R),
  acceptable a -> reads a c -> number (smooth a) (Fin sg) ->
  snd (oneka_drawn fexp Rg mvn dump fuel la entropy g a) = snd (oneka Rg mvn dump fuel la entropy g a) /\
  seen (fst (oneka_drawn fexp Rg mvn dump fuel la entropy g a)) = without_plots (fst (oneka Rg mvn dump fuel la entropy g a)).
Proof. exact c121_outcome_partial. Qed.
Print Assumptions C121_outcome_partial.

(** A stochastic run that returns has drawn two figures of the field it archives: the map of the probabilities, smoothed,
    with the markers, and the impact plot. *)
Theorem C121_stochastic_partial : forall (G E : Type) (Rg : rng xr G) (mvn : E -> list xr -> list (list xr) -> list xr) (dump : run_args (pyobj xr) -> res unit)
    (fuel : nat) (la : linalg xr) (entropy : nat -> E) (g : G) (a : args xr) (c : call) (sm : xr) effects r,
  acceptable a -> reads a c -> number (smooth a) sm -> (1 < k_n c)%Z ->
  oneka_drawn fexp Rg mvn dump fuel la entropy g a = (effects, Ok r) ->
  exists kept s X Y Q m pr area, retained c kept /\ In (Seen (EFiltered kept)) effects /\ In (Seen (EArchive (archived a s))) effects /\
    figures effects = [FMap X Y Q m; FImpact (impact_drawn pr area)] /\
    drawn_probabilities fexp s sm = Ok (X, Y, Q) /\ create_impact_plot (k_spacing c) s = Ok (pr, area) /\ marked c kept m.
Proof. exact c121_stochastic_partial. Qed.
Print Assumptions C121_stochastic_partial.

(** A deterministic run that returns has drawn one figure: the cells of the field that it archives, with the markers. *)
Theorem C121_deterministic : forall (G E : Type) (Rg : rng xr G) (mvn : E -> list xr -> list (list xr) -> list xr) (dump : run_args (pyobj xr) -> res unit)
    (fuel : nat) (la : linalg xr) (entropy : nat -> E) (g : G) (a : args xr) (c : call) effects r,
  acceptable a -> reads a c -> (k_n c <= 1)%Z ->
  oneka_drawn fexp Rg mvn dump fuel la entropy g a = (effects, Ok r) ->
  exists kept s cells m, retained c kept /\ In (Seen (EFiltered kept)) effects /\ In (Seen (EArchive (archived a s))) effects /\
    figures effects = [FCells cells m] /\ filled_cells s = Ok cells /\ marked c kept m.
Proof. exact c121_deterministic. Qed.
Print Assumptions C121_deterministic.

(** Every plus stands where an observation of the call was made, farther than the buffer from the circle of every well. *)
Theorem C121_apart : forall (c : call) (kept : list (obs xr)) (m : markers xr) (l : list (obs R)) (ws : list (R * R)) (b : R),
  retained c kept -> marked c kept m ->
  k_obs c = map fobs l -> map (fun w => (sx w, sy w)) (k_wells c) = map floc ws -> k_buffer c = Fin b ->
  circles m = map floc ws /\
  forall p, In p (pluses m) -> exists o, In o l /\ p = floc (loc o) /\ forall w, In w ws -> b < odist o w.
Proof. exact c121_apart. Qed.
Print Assumptions C121_apart.

(** An infinite smooth is accepted, and no stochastic run with it returns or archives anything. *)
Theorem C121_infinite_refuted : forall (G E : Type) (Rg : rng xr G) (mvn : E -> list xr -> list (list xr) -> list xr) (dump : run_args (pyobj xr) -> res unit)
    (fuel : nat) (la : linalg xr) (entropy : nat -> E) (g : G) (a : args xr) (c : call),
  acceptable a -> reads a c -> (1 < k_n c)%Z -> number (smooth a) PInf ->
  (forall r, snd (oneka_drawn fexp Rg mvn dump fuel la entropy g a) <> Ok r) /\
  forall x, ~ In (Seen (EArchive x)) (fst (oneka_drawn fexp Rg mvn dump fuel la entropy g a)).
Proof. exact c121_infinite_refuted. Qed.
Print Assumptions C121_infinite_refuted.

(** Where the model of C66 says that a run returns, the program has made all realizations and fails with OverflowError. *)
Theorem C121_lost_refuted : forall (G E : Type) (Rg : rng xr G) (mvn : E -> list xr -> list (list xr) -> list xr) (dump : run_args (pyobj xr) -> res unit)
    (fuel : nat) (la : linalg xr) (entropy : nat -> E) (g : G) (a : args xr) (c : call) events r,
  acceptable a -> reads a c -> (1 < k_n c)%Z -> number (smooth a) PInf ->
  oneka Rg mvn dump fuel la entropy g a = (events, Ok r) ->
  exists (effects : list (effect xr)) (logs : list (run_log xr)), oneka_drawn fexp Rg mvn dump fuel la entropy g a = (effects, Raise OverflowError) /\
    In (ERealizations logs) events /\ In (Seen (ERealizations logs)) effects /\ figures effects = [].
Proof. exact c121_lost_refuted. Qed.
Print Assumptions C121_lost_refuted.

(** Two realizations: the map has one circle, with the star on it, and seven pluses. *)
Example C121_example : exists fuel s, has_node s 2 0 2 false /\ acceptable (d_args (PInt 2) (PInt 1) quarter dobs) /\
  forall (G : Type) (Rg : rng xr G) g, exists (effects : list (effect xr)) X Y Q m pts,
    oneka_drawn fexp Rg (fun (e : list xr) _ _ => e) (fun _ => Ok tt) fuel elim_la (fun _ => map Fin [0; 0; 0; 1; 0; 0]) g (d_args (PInt 2) (PInt 1) quarter dobs) = (effects, Ok RNone) /\
    In (Seen (EArchive (archived (d_args (PInt 2) (PInt 1) quarter dobs) s))) effects /\ figures effects = [FMap X Y Q m; FImpact pts] /\
    circles m = [(Fin 0, Fin 0)] /\ star m = (Fin 0, Fin 0) /\ length (pluses m) = 7%nat.
Proof. exact c121_example. Qed.

(** The same call with an infinite smooth is accepted and meets the conditions of C121_lost_refuted. *)
Example C121_infinite_example : exists fuel, forall (G : Type) (Rg : rng xr G) g, exists events,
  let a := with_smooth (d_args (PInt 2) (PInt 1) quarter dobs) (PFloat PInf) in
  acceptable a /\ reads a (d_call 2 dobs) /\ number (smooth a) PInf /\
  oneka Rg (fun (e : list xr) _ _ => e) (fun _ => Ok tt) fuel elim_la (fun _ => map Fin [0; 0; 0; 1; 0; 0]) g a = (events, Ok RNone).
Proof. exact c121_infinite_example. Qed.
