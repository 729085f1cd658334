(** * The water that a trace follows, confined or not: C122

    Written by tools/genprops.py: statements only, each closed by the lemma of the
    same name in ProofWaterPath.v, ProofWaterRun.v, ProofWaterEx.v. *)
From Coq Require Import Reals ZArith String List.
From Verif Require Import Py Num NumXR ModelField ModelAquifer ModelTrace ModelDist ModelDriver ModelMain SpecAquifer SpecFit SpecTrace SpecDist SpecDriver SpecMain SpecPathline SpecUnconfined SpecField SpecWhole SpecPathZone ProofDriverEx ProofMainEx ProofPathUnconfinedEx SpecWater ProofWaterPath ProofWaterRun ProofWaterEx.
Import ListNotations.
Local Open Scope R_scope.

(** ** C122 The water that a trace follows, confined or not *)

(** C122.  A trace along any velocity, whether of a confined aquifer or of an unconfined one or of another kind, that is gentle
    around the vertices, with short time steps [H]: there is a path of the water from the start point, only one, and the trace
    is within 6 V H (e^(L T) - 1) of it, [T] being the time that the trace ends. *)
Theorem C122_water : forall (f : vec xr -> res (vec xr)) (fuel : nat) (p : pt) (D : R) (tol maxstep : xr) (tr : trace xr), 0 <= D ->
  compute_backtrace fuel (Fin (fst p)) (Fin (snd p)) (Fin D) tol maxstep f = Ok tr ->
  exists l ts, paced f tol maxstep D tr l ts /\
    forall V L rho H, 0 < rho -> 0 <= L -> 0 <= H -> gentle f V L rho l -> steps_within H ts ->
      let T := last ts 0 in
      50 * L * H <= 1 -> 6 * V * H * (exp (L * T) - 1) + 2 * V * H <= rho ->
      exists Z, Z 0 = p /\ moves f Z T /\
        (forall i, (i < length l)%nat -> let t := nth i ts 0 in 0 <= t <= T /\ pdist (nth i l (0, 0)) (Z t) <= 6 * V * H * (exp (L * t) - 1)) /\
        beside (6 * V * H * (exp (L * T) - 1)) l Z T /\
        forall Y, Y 0 = p -> moves f Y T -> forall t, 0 <= t <= T -> Y t = Z t.
Proof. exact c122_water. Qed.
Print Assumptions C122_water.

(** A trace in an unconfined aquifer, in deep water and with short time steps: there is a path of the water from the start point,
    only one, and the trace is within 6 V H (e^(L T) - 1) of it. *)
Theorem C122_unconfined : forall (m : model R) (f : vec xr -> res (vec xr)) (fuel : nat) (p : pt) (D : R) (tol maxstep : xr) (tr : trace xr),
  physical m -> SpecWhole.upstream false m f -> 0 <= D ->
  compute_backtrace fuel (Fin (fst p)) (Fin (snd p)) (Fin D) tol maxstep f = Ok tr ->
  exists l ts, paced f tol maxstep D tr l ts /\
    forall w rho s H, 0 < rho -> 0 <= H -> 0 < s <= thickness m -> deep m w rho s l -> steps_within H ts ->
      let L := shear m w rho s in let V := pace m w rho s in let T := last ts 0 in
      50 * L * H <= 1 -> 6 * V * H * (exp (L * T) - 1) + 2 * V * H <= rho ->
      exists Z, Z 0 = p /\ moves f Z T /\ (forall t o, 0 <= t <= T -> In o (wells m) -> rho <= pdist (Z t) (wx o, wy o)) /\
        (forall i, (i < length l)%nat -> let t := nth i ts 0 in 0 <= t <= T /\ pdist (nth i l (0, 0)) (Z t) <= 6 * V * H * (exp (L * t) - 1)) /\
        beside (6 * V * H * (exp (L * T) - 1)) l Z T /\
        forall Y, Y 0 = p -> moves f Y T -> forall t, 0 <= t <= T -> Y t = Z t.
Proof. exact c122_unconfined. Qed.
Print Assumptions C122_unconfined.

(** The trace of C118: the conditions hold with rho = 1/10, w = 1/200, s = 1/4 and H = 1/10. *)
Example C122_unconfined_example : physical sloping /\ SpecWhole.upstream false sloping (feval false (fmodel sloping)) /\
  exists y, compute_backtrace 2 (Fin 1) (Fin 0) (Fin (1 / 10)) (Fin 1) (Fin 10) (feval false (fmodel sloping)) =
     Ok {| vertices := [fvec (1, 0); fvec (y, 0)]; t_end := Fin (1 / 10); completed := true |} /\
    deep sloping (1 / 200) (1 / 10) (1 / 4) [(1, 0); (y, 0)] /\ steps_within (1 / 10) [0; 1 / 10] /\
    let L := shear sloping (1 / 200) (1 / 10) (1 / 4) in let V := pace sloping (1 / 200) (1 / 10) (1 / 4) in
    L = 1 / 625 /\ V = 1 / 50 /\ 50 * L * (1 / 10) <= 1 /\ 6 * V * (1 / 10) * (exp (L * (1 / 10)) - 1) + 2 * V * (1 / 10) <= 1 / 10 /\
    gentle (feval false (fmodel sloping)) V L (1 / 10) [(1, 0); (y, 0)].
Proof. exact c122_unconfined_example. Qed.

(** C122 for a deterministic run in an unconfined aquifer: if the capture zone is submerged then the water on the way to the well
    has paths, and every node tells where they are up to E. *)
Theorem C122_deterministic : forall (fuel : nat) (a : args xr) (c : call) (kept : list (obs R)) (s : pfield xr) (lg : run_log xr) (D : R),
  deterministic_run fuel a c kept s lg -> k_confined c = false -> k_duration c = Fin D -> 0 <= D -> xr_pos (k_umbra c) ->
  exists w u z,
    nth_error (k_wells c) (Z.to_nat (k_target c)) = Some w /\ k_umbra c = Fin u /\
    has_parameters mean_of a c w (z_model z) /\ best_fit (z_model z) kept (coef (z_model z)) /\ traced_unconfined fuel c w D z /\
    forall b rho d H, submerged D b rho d H z ->
      (exists path, drifts z path) /\
      let L := shear (z_model z) b rho d in let E := 6 * pace (z_model z) b rho d * H * (exp (L * D) - 1) in
      forall px py n k, has_node s px py n k -> exists h : bool, n = (if h then 1 else 0) /\ forall path, drifts z path -> tells u E z path (px, py) h.
Proof. exact c122_deterministic. Qed.
Print Assumptions C122_deterministic.

(** C122 for a stochastic run: every node counts the realizations whose capture zone has it, and each capture zone that is
    submerged tells where the water of that realization passes. *)
Theorem C122_stochastic : forall (E : Type) (mvn : E -> list xr -> list (list xr) -> list xr) (fuel : nat) (entropy : nat -> E)
    (a : args xr) (c : call) (kept : list (obs R)) (s : pfield xr) (logs : list (run_log xr)) (D : R),
  stochastic_run mvn fuel entropy a c kept s logs -> k_confined c = false -> k_duration c = Fin D -> 0 <= D -> xr_pos (k_umbra c) ->
  exists w u zones,
    nth_error (k_wells c) (Z.to_nat (k_target c)) = Some w /\ k_umbra c = Fin u /\ length zones = Z.to_nat (k_n c) /\
    (forall i z, nth_error zones i = Some z -> let m := z_model z in
       has_parameters within a c w m /\ traced_unconfined fuel c w D z /\
       (exists ev C A, best_fit m kept ev /\ matrix6 C A /\ inverse6 (normal_matrix m (xo m) (yo m) kept) A /\
         mvn (entropy i) (coef_list (fcoef ev)) C = coef_list (fcoef (coef m))) /\
       forall b rho d H, submerged D b rho d H z -> exists path, drifts z path) /\
    forall px py n k, has_node s px py n k -> exists hits,
      length hits = length zones /\ n = INR (length (filter (fun h => h) hits)) /\
      forall i z h b rho d H path, nth_error zones i = Some z -> nth_error hits i = Some h -> submerged D b rho d H z -> drifts z path ->
        let L := shear (z_model z) b rho d in tells u (6 * pace (z_model z) b rho d * H * (exp (L * D) - 1)) z path (px, py) h.
Proof. exact c122_stochastic. Qed.
Print Assumptions C122_stochastic.

(** A run with confined = False whose field has a captured node; every zone it can have been made from meets the conditions with
    b = rho = d = 1 and H = 1/200. *)
Example C122_deterministic_example : exists fuel s lg, let a := u_args (PInt 1) halves quarter dobs in let c := u_call 1 dobs in
  deterministic_run fuel a c dobs s lg /\ k_confined c = false /\ k_duration c = Fin (1 / 200) /\ 0 <= 1 / 200 /\ xr_pos (k_umbra c) /\ has_node s 2 0 1 false /\
  forall z, has_parameters mean_of a c dw (z_model z) -> best_fit (z_model z) dobs (coef (z_model z)) -> traced_unconfined fuel c dw (1 / 200) z ->
    submerged (1 / 200) 1 1 1 (1 / 200) z.
Proof. exact c122_deterministic_example. Qed.

(** Two realizations that both capture a node. *)
Example C122_stochastic_example : exists fuel s logs, let a := u_args (PInt 2) (PInt 1) quarter dobs in let c := u_call 2 dobs in
  let mvn := fun (e : coef6 R) (_ : list xr) (_ : list (list xr)) => coef_list (fcoef e) in
  let entropy := fun _ : nat => {| cA := 0; cB := 0; cC := 0; cD := 1; cE := 0; cF := 0 |} in
  stochastic_run mvn fuel entropy a c dobs s logs /\ k_confined c = false /\ k_duration c = Fin (1 / 200) /\ 0 <= 1 / 200 /\ xr_pos (k_umbra c) /\ has_node s 2 0 2 false /\
  forall i z ev C, has_parameters within a c dw (z_model z) -> traced_unconfined fuel c dw (1 / 200) z ->
    mvn (entropy i) (coef_list (fcoef ev)) C = coef_list (fcoef (coef (z_model z))) -> submerged (1 / 200) 1 1 1 (1 / 200) z.
Proof. exact c122_stochastic_example. Qed.
