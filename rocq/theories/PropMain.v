(** * The whole run: properties C53, C63-C67, C73, C80, C82

    Written by tools/genprops.py: statements only, each closed by the lemma of the
    same name in ProofMain.v, ProofMainRun.v, ProofMainEnd.v, ProofMainEx.v, ProofMainFinite.v, ProofPosed.v. *)
From Coq Require Import Reals String List Sorted Permutation.
From Verif Require Import Py Num NumXR ModelField ModelAquifer ModelTrace ModelObs ModelDist ModelDriver ModelPlot ModelArchive ModelMain SpecAquifer SpecFit SpecTrace SpecObs SpecDriver SpecPlot SpecDist SpecArchive SpecMain Lstsq ProofFitProps ProofDriverEx ProofMain ProofMainRun ProofMainEnd ProofMainEx ProofMainFinite ProofPosed SpecField.
Local Open Scope R_scope.

(** ** C53 filter_obs handles every validated observation list *)

Theorem C53_validated_refuted : acceptable (d_args (PInt 1) halves quarter (twice :: twice :: dobs)) /\
  forall (G E : Type) (Rg : rng xr G) (mvn : E -> list xr -> list (list xr) -> list xr) (dump : run_args (pyobj xr) -> res unit) fuel la entropy g,
    oneka Rg mvn dump fuel la entropy g (d_args (PInt 1) halves quarter (twice :: twice :: dobs)) = ([EBanner], Raise ZeroDivisionError).
Proof. exact c53_validated_refuted. Qed.
Print Assumptions C53_validated_refuted.

(** ** C63 Validated parameters give finite fitting weights and velocities *)

(** Missing from C63: validation also accepts zero and infinite parameters and zero deviations, for which
    it is false (below); and a velocity exists only away from the wells and where the aquifer is not dry. *)
Theorem C63_partial : forall m l b kept x0 y0,
  physical m -> 0 < b -> (forall o, In o l -> base m < oz o /\ 0 < os o) ->
  filter_obs (map fobs l) (map (fun w => floc (wx w, wy w)) (wells m)) (Fin b) = Ok kept ->
  (exists rows rhs, construct_fit (fmodel m) kept (Fin x0) (Fin y0) = Ok (map (map Fin) rows, map Fin rhs)) /\
  forall c x y, off_wells (wells m) x y -> let m' := fmodel (with_coef m x0 y0 c) in
    (exists vx vy, compute_velocity_confined m' (Fin x) (Fin y) = (Fin vx, Fin vy)) /\
    (compute_velocity m' (Fin x) (Fin y) = Raise AquiferError \/ exists vx vy, compute_velocity m' (Fin x) (Fin y) = Ok (Fin vx, Fin vy)).
Proof. exact c63_partial. Qed.
Print Assumptions C63_partial.

Theorem C63_porosity_refuted : validate (d_args (PInt 1) halves (PInt 0) dobs) = Ok tt /\ documented_args (d_args (PInt 1) halves (PInt 0) dobs) /\
  forall la, linalg_contract la -> exists m r,
    fit_regional_flow la (new_model (Fin 0) (Fin 1) (Fin 0) (Fin 1) [{| wx := Fin 0; wy := Fin 0; wr := Fin 1; wq := Fin 0 |}]) (map fobs dobs) (Fin 0) (Fin 0) = (m, Ok r) /\
    compute_velocity_confined m (Fin 2) (Fin 0) = (NInf, NaN).
Proof. exact c63_porosity_refuted. Qed.
Print Assumptions C63_porosity_refuted.

Theorem C63_deviation_refuted : validate (d_args (PInt 1) halves quarter (map zero_dev dobs)) = Ok tt /\
  documented_args (d_args (PInt 1) halves quarter (map zero_dev dobs)) /\
  retained (d_call 1 (map zero_dev dobs)) (map fobs (map zero_dev dobs)) /\
  exists rows rhs, construct_fit (fmodel dm) (map fobs (map zero_dev dobs)) (Fin 0) (Fin 0) = Ok ([NaN; PInf; NaN; NaN; PInf; PInf] :: rows, PInf :: rhs).
Proof. exact c63_deviation_refuted. Qed.
Print Assumptions C63_deviation_refuted.

(** The hypotheses of [c63_partial] hold of the seven observations of the example. *)
Example C63_example : physical dm /\ 0 < 1 / 2 /\ (forall o, In o dobs -> base dm < oz o /\ 0 < os o) /\
  filter_obs (map fobs dobs) (map (fun w => floc (wx w, wy w)) (wells dm)) (Fin (1 / 2)) = Ok (map fobs dobs) /\ off_wells (wells dm) 2 0.
Proof. exact c63_example. Qed.

(** ** C64 Invalid arguments are rejected before any effect *)

(** The validation passes exactly when the arguments are acceptable. *)
Theorem C64_accepts : forall a : args xr, validate a = Ok tt <-> acceptable a.
Proof. exact c64_accepts. Qed.
Print Assumptions C64_accepts.

(** Arguments that are not acceptable are rejected with AssertionError or TypeError, before anything is logged,
    plotted or archived. *)
Theorem C64_rejects : forall (G E : Type) (Rg : rng xr G) (mvn : E -> list xr -> list (list xr) -> list xr) (dump : run_args (pyobj xr) -> res unit)
    (fuel : nat) (la : linalg xr) (entropy : nat -> E) (g : G) (a : args xr),
  ~ acceptable a ->
  oneka Rg mvn dump fuel la entropy g a = ([], Raise AssertionError) \/ oneka Rg mvn dump fuel la entropy g a = ([], Raise TypeError).
Proof. exact c64_rejects. Qed.
Print Assumptions C64_rejects.

(** Acceptable arguments are not rejected: the run is announced in the log. *)
Theorem C64_announced : forall (G E : Type) (Rg : rng xr G) (mvn : E -> list xr -> list (list xr) -> list xr) (dump : run_args (pyobj xr) -> res unit)
    (fuel : nat) (la : linalg xr) (entropy : nat -> E) (g : G) (a : args xr),
  acceptable a -> exists rest, fst (oneka Rg mvn dump fuel la entropy g a) = EBanner :: rest.
Proof. exact c64_announced. Qed.
Print Assumptions C64_announced.

(** nrealizations is documented as an int and not checked: anything else fails after the log was started. *)
Theorem C64_nrealizations : forall (G E : Type) (Rg : rng xr G) (mvn : E -> list xr -> list (list xr) -> list xr) (dump : run_args (pyobj xr) -> res unit)
    (fuel : nat) (la : linalg xr) (entropy : nat -> E) (g : G) (a : args xr),
  acceptable a -> ~ documented_args a ->
  oneka Rg mvn dump fuel la entropy g a = ([EBanner], Raise (if is_float (nrealizations a) then ValueError else TypeError)).
Proof. exact c64_nrealizations. Qed.
Print Assumptions C64_nrealizations.

Theorem C64_refuted : exists a, acceptable a /\ ~ documented_args a /\
  forall (G E : Type) (Rg : rng xr G) (mvn : E -> list xr -> list (list xr) -> list xr) (dump : run_args (pyobj xr) -> res unit) fuel la entropy g,
    oneka Rg mvn dump fuel la entropy g a = ([EBanner], Raise ValueError).
Proof. exact c64_refuted. Qed.
Print Assumptions C64_refuted.

(** Rejected: six observations; a porosity above 1; a target that is no index. *)
Example C64_example : acceptable (d_args (PInt 1) halves quarter dobs) /\
  ~ acceptable (d_args (PInt 1) halves quarter (tl dobs)) /\
  ~ acceptable (d_args (PInt 1) halves (PFloat (Fin 2)) dobs) /\
  ~ acceptable (d_args (PInt 1) halves (PTuple [PFloat (Fin (1 / 4)); PFloat NaN]) dobs).
Proof. exact c64_example. Qed.

(** ** C65 The documented defaults are usable *)

(** With every optional argument but smooth left out, and smooth positive, valid required arguments pass. *)
Theorem C65_partial : forall p r t n d k b c po th ws os v, let a := with_defaults p r t n d k b c po th ws os in
  required_ok a -> positive v -> validate (with_smooth a v) = Ok tt.
Proof. exact c65_partial. Qed.
Print Assumptions C65_partial.

Theorem C65_refuted : forall p r t n d k b c po th ws os, let a := with_defaults p r t n d k b c po th ws os in
  required_ok a ->
  forall (G E : Type) (Rg : rng xr G) (mvn : E -> list xr -> list (list xr) -> list xr) (dump : run_args (pyobj xr) -> res unit) fuel la entropy g,
    oneka Rg mvn dump fuel la entropy g a = ([], Raise AssertionError).
Proof. exact c65_refuted. Qed.
Print Assumptions C65_refuted.

(** There are such calls. *)
Example C65_example : required_ok
  (with_defaults (PStr "demo") (PStr "now") (PInt 0) (PInt 1) (PFloat (Fin (1 / 10))) (PInt 1) (PInt 0) halves quarter (PInt 1)
                 (PList [PTuple [PInt 0; PInt 0; PInt 1; PInt 0]]) (PList (map pobs dobs))).
Proof. exact c65_example. Qed.

(** ** C66 oneka selects the mode by nrealizations *)

(** Documented arguments have values. *)
Theorem C66_values : forall a, documented_args a -> exists c, reads a c.
Proof. exact c66_values. Qed.
Print Assumptions C66_values.

(** The stochastic driver's log is written exactly when more than one realization is asked for, at least seven
    observations are retained, and the driver, called with the retained observations, returns it. *)
Theorem C66_stochastic : forall (G E : Type) (Rg : rng xr G) (mvn : E -> list xr -> list (list xr) -> list xr) (dump : run_args (pyobj xr) -> res unit)
    (fuel : nat) (la : linalg xr) (entropy : nat -> E) (g : G) (a : args xr) (c : call) logs,
  acceptable a -> reads a c ->
  (In (ERealizations logs) (fst (oneka Rg mvn dump fuel la entropy g a)) <->
   (1 < k_n c)%Z /\ exists kept st pf, retained c kept /\ (7 <= List.length kept)%nat /\ summary_statistics (table kept) = Ok st /\
                      call_stochastic Rg mvn fuel la entropy g a c kept = Ok (pf, logs)).
Proof. exact c66_stochastic. Qed.
Print Assumptions C66_stochastic.

(** The deterministic driver's log is written exactly when at most one realization is asked for, ... *)
Theorem C66_deterministic : forall (G E : Type) (Rg : rng xr G) (mvn : E -> list xr -> list (list xr) -> list xr) (dump : run_args (pyobj xr) -> res unit)
    (fuel : nat) (la : linalg xr) (entropy : nat -> E) (g : G) (a : args xr) (c : call) l,
  acceptable a -> reads a c ->
  (In (EDeterministic l) (fst (oneka Rg mvn dump fuel la entropy g a)) <->
   (k_n c <= 1)%Z /\ exists kept st pf, retained c kept /\ (7 <= List.length kept)%nat /\ summary_statistics (table kept) = Ok st /\
                      call_deterministic fuel la a c kept = Ok (pf, l)).
Proof. exact c66_deterministic. Qed.
Print Assumptions C66_deterministic.

(** With fewer than seven retained observations neither driver is called: the run fails. *)
Theorem C66_too_few : forall (G E : Type) (Rg : rng xr G) (mvn : E -> list xr -> list (list xr) -> list xr) (dump : run_args (pyobj xr) -> res unit)
    (fuel : nat) (la : linalg xr) (entropy : nat -> E) (g : G) (a : args xr) (c : call) kept,
  acceptable a -> reads a c -> retained c kept -> (List.length kept < 7)%nat ->
  oneka Rg mvn dump fuel la entropy g a = ([EBanner; EFiltered kept], Raise AssertionError).
Proof. exact c66_too_few. Qed.
Print Assumptions C66_too_few.

(** An exception of the driver ends the run: nothing is plotted or archived. *)
Theorem C66_driver_raises : forall (G E : Type) (Rg : rng xr G) (mvn : E -> list xr -> list (list xr) -> list xr) (dump : run_args (pyobj xr) -> res unit)
    (fuel : nat) (la : linalg xr) (entropy : nat -> E) (g : G) (a : args xr) (c : call) kept st e,
  acceptable a -> reads a c -> retained c kept -> (7 <= List.length kept)%nat -> summary_statistics (table kept) = Ok st ->
  ((1 < k_n c)%Z /\ call_stochastic Rg mvn fuel la entropy g a c kept = Raise e \/
   (k_n c <= 1)%Z /\ call_deterministic fuel la a c kept = Raise e) ->
  oneka Rg mvn dump fuel la entropy g a = ([EBanner; EFiltered kept; ESummary st], Raise e).
Proof. exact c66_driver_raises. Qed.
Print Assumptions C66_driver_raises.

(** The target exists, so the drivers never fail to find it. *)
Theorem C66_target : forall (a : args xr) (c : call), validate a = Ok tt -> reads a c ->
  exists w, nth_error (k_wells c) (Z.to_nat (k_target c)) = Some w.
Proof. exact c66_target. Qed.
Print Assumptions C66_target.

(** Two realizations. *)
Example C66_example : exists fuel s, has_node s 2 0 2 false /\ acceptable (d_args (PInt 2) (PInt 1) quarter dobs) /\
  forall (G : Type) (Rg : rng xr G) g, exists events,
    oneka Rg (fun (e : list xr) _ _ => e) (fun _ => Ok tt) fuel elim_la (fun _ => map Fin [0; 0; 0; 1; 0; 0]) g (d_args (PInt 2) (PInt 1) quarter dobs) = (events, Ok RNone) /\
    (exists logs, In (ERealizations logs) events) /\ (forall l, ~ In (EDeterministic l) events) /\
    In (EArchive (archived (d_args (PInt 2) (PInt 1) quarter dobs) s)) events.
Proof. exact c66_example. Qed.

(** ** C67 oneka returns the capture-zone field *)

(** No run returns a field, in any arithmetic. *)
Theorem C67_never : forall (T : Type) (N : Num T) (G E : Type) (Rg : rng T G) (mvn : E -> list T -> list (list T) -> list T) (dump : run_args (pyobj T) -> res unit)
    (fuel : nat) (la : linalg T) (entropy : nat -> E) (g : G) (a : args T) s,
  snd (oneka Rg mvn dump fuel la entropy g a) <> Ok (RField s).
Proof. exact c67_never. Qed.
Print Assumptions C67_never.

(** A run that returns has called a driver once, and handed its arguments and the field of the driver to the archive. *)
Theorem C67_archived_partial : forall (T : Type) (N : Num T) (G E : Type) (Rg : rng T G) (mvn : E -> list T -> list (list T) -> list T) (dump : run_args (pyobj T) -> res unit)
    (fuel : nat) (la : linalg T) (entropy : nat -> E) (g : G) (a : args T) events r,
  oneka Rg mvn dump fuel la entropy g a = (events, Ok r) ->
  r = RNone /\ exists before s, events = before ++ [EArchive (archived a s); EShow] /\ dump (archived a s) = Ok tt /\ from_driver Rg mvn s /\
    forall r', ~ In (EArchive r') before.
Proof. exact c67_archived_partial. Qed.
Print Assumptions C67_archived_partial.

Theorem C67_refuted : exists fuel s events, acceptable (d_args (PInt 1) halves quarter dobs) /\ has_node s 2 0 1 false /\
  forall (G E : Type) (Rg : rng xr G) (mvn : E -> list xr -> list (list xr) -> list xr) entropy g,
    oneka Rg mvn (fun _ => Ok tt) fuel elim_la entropy g (d_args (PInt 1) halves quarter dobs) = (events, Ok RNone) /\
    In (EArchive (archived (d_args (PInt 1) halves quarter dobs) s)) events.
Proof. exact c67_refuted. Qed.
Print Assumptions C67_refuted.

(** ** C73 Archiving round-trips every input *)

(** After a run that returns, its archive holds every argument under its own name, and the field the driver computed. *)
Theorem C73_run : forall (T : Type) (N : Num T) (B G E : Type) (k : codec (pyobj T) B) (disk : files B) (now : datetime)
    (Rg : rng T G) (mvn : E -> list T -> list (list T) -> list T) (fuel : nat) (la : linalg T) (entropy : nat -> E) (g : G) (a : args T) events r,
  faithful k -> oneka Rg mvn (fun x => snd (dump_oneka k disk now x)) fuel la entropy g a = (events, Ok r) ->
  exists s disk' d, In (EArchive (archived a s)) events /\ from_driver Rg mvn s /\ dump_oneka k disk now (archived a s) = (disk', Ok tt) /\
    load_oneka k disk' (archive_name now) = Ok d /\ List.length d = 20%nat /\
    lookup d "projectname" = Some (OVal (projectname a)) /\ lookup d "runtime" = Some (OVal (runtime a)) /\
    lookup d "target" = Some (OVal (target a)) /\ lookup d "npaths" = Some (OVal (npaths a)) /\
    lookup d "duration" = Some (OVal (duration a)) /\ lookup d "nrealizations" = Some (OVal (nrealizations a)) /\
    lookup d "base" = Some (OVal (base_ a)) /\ lookup d "c_dist" = Some (OVal (c_dist a)) /\
    lookup d "p_dist" = Some (OVal (p_dist a)) /\ lookup d "t_dist" = Some (OVal (t_dist a)) /\
    lookup d "stochastic_wells" = Some (OVal (stochastic_wells a)) /\ lookup d "observations" = Some (OVal (observations a)) /\
    lookup d "buffer" = Some (OVal (buffer a)) /\ lookup d "spacing" = Some (OVal (spacing a)) /\
    lookup d "umbra" = Some (OVal (umbra a)) /\ lookup d "smooth" = Some (OVal (smooth a)) /\
    lookup d "confined" = Some (OVal (confined a)) /\ lookup d "tol" = Some (OVal (tol a)) /\
    lookup d "maxstep" = Some (OVal (maxstep a)) /\ lookup d "pfield" = Some (OField s).
Proof. exact c73_run. Qed.
Print Assumptions C73_run.

(** ** C80 A run whose driver succeeds runs to its end *)

(** A deterministic run whose driver succeeds runs to its end: statistics, log, the area of the captured nodes,
    archive, figures. *)
Theorem C80_deterministic : forall (fuel : nat) (la : linalg xr) (a : args xr) (c : call) (kept : list (obs R)) (sp : R) s l,
  acceptable a -> reads a c -> finite_places c -> k_spacing c = Fin sp -> (k_n c <= 1)%Z ->
  retained c (map fobs kept) -> (7 <= List.length kept)%nat -> call_deterministic fuel la a c (map fobs kept) = Ok (s, l) ->
  exists st nodes, enumerates s nodes /\
    forall (G E : Type) (Rg : rng xr G) (mvn : E -> list xr -> list (list xr) -> list xr) (dump : run_args (pyobj xr) -> res unit) (entropy : nat -> E) (g : G),
    dump (archived a s) = Ok tt ->
    oneka Rg mvn dump fuel la entropy g a =
    ([EBanner; EFiltered (map fobs kept); ESummary st; EDeterministic l; EAreaPlot (Fin (INR (captured nodes) * (sp * sp)));
      EArchive (archived a s); EShow], Ok RNone).
Proof. exact c80_deterministic. Qed.
Print Assumptions C80_deterministic.

(** A stochastic run whose driver succeeds runs to its end. *)
Theorem C80_stochastic : forall (G E : Type) (Rg : rng xr G) (mvn : E -> list xr -> list (list xr) -> list xr) (dump : run_args (pyobj xr) -> res unit)
    (fuel : nat) (la : linalg xr) (entropy : nat -> E) (g : G) (a : args xr) (c : call) (kept : list (obs R)) (sp : R) s logs,
  acceptable a -> reads a c -> finite_places c -> k_spacing c = Fin sp -> (1 < k_n c)%Z ->
  retained c (map fobs kept) -> (7 <= List.length kept)%nat -> call_stochastic Rg mvn fuel la entropy g a c (map fobs kept) = Ok (s, logs) ->
  dump (archived a s) = Ok tt ->
  exists st X Y P pr area rows nodes, enumerates s nodes /\
    Permutation pr (map (fun n => snd n / IZR (k_n c)) nodes) /\ StronglySorted Rge pr /\ List.length rows = 19%nat /\
    area = map (fun k => Fin (INR (k + 1) * (sp * sp))) (seq 0 (List.length pr)) /\
    oneka Rg mvn dump fuel la entropy g a =
    ([EBanner; EFiltered (map fobs kept); ESummary st; ERealizations logs; EProbabilityPlot X Y P; EImpactPlot (map Fin pr) area; EDeciles rows;
      EArchive (archived a s); EShow], Ok RNone).
Proof. exact c80_stochastic. Qed.
Print Assumptions C80_stochastic.

Example C80_example : exists fuel s events, acceptable (d_args (PInt 1) halves quarter dobs) /\ has_node s 2 0 1 false /\
  forall (G E : Type) (Rg : rng xr G) (mvn : E -> list xr -> list (list xr) -> list xr) entropy g,
    oneka Rg mvn (fun _ => Ok tt) fuel elim_la entropy g (d_args (PInt 1) halves quarter dobs) = (events, Ok RNone) /\
    In (EFiltered (map fobs dobs)) events /\ In (EArchive (archived (d_args (PInt 1) halves quarter dobs) s)) events /\
    exists l, In (EDeterministic l) events /\ l_coef l = fcoef {| cA := 0; cB := 0; cC := 0; cD := 1; cE := 0; cF := 10 |}.
Proof. exact c80_example. Qed.

(** ** C82 A well-posed run raises no exception *)

(** A well-posed run raises no exception: it returns, or a loop does not end. *)
Theorem C82_no_exception : forall (G E : Type) (Rg : rng xr G) (mvn : E -> list xr -> list (list xr) -> list xr) (dump : run_args (pyobj xr) -> res unit)
    (fuel : nat) (la : linalg xr) (entropy : nat -> E) (g : G) (a : args xr) (c : call) (l kept : list (obs R)),
  acceptable a -> reads a c -> well_posed a c l kept ->
  linalg_contract la -> documented_finite Rg -> (forall e ev C, List.length ev = 6%nat -> List.length (mvn e ev C) = 6%nat) -> (forall r, dump r = Ok tt) ->
  snd (oneka Rg mvn dump fuel la entropy g a) = Ok RNone \/ snd (oneka Rg mvn dump fuel la entropy g a) = NoFuel.
Proof. exact c82_no_exception. Qed.
Print Assumptions C82_no_exception.
