(** * Traces and pathlines: C103-C107

    Written by tools/genprops.py: statements only, each closed by the lemma of the
    same name in ProofPathAffine.v, ProofPathProgram.v, ProofTolerance.v, ProofPathTube.v, ProofPathWells.v, ProofPathZone.v, ProofPathRun.v, ProofPathRunEx.v, ProofPathExists.v, ProofPathExistsRun.v, ProofPathExistsEx.v. *)
From Coq Require Import Reals List.
From Verif Require Import Py Num NumXR ModelField ModelAquifer ModelTrace ModelDist ModelDriver ModelMain SpecAquifer SpecFit SpecTrace SpecDist SpecDriver SpecMain SpecPathline SpecField SpecWhole SpecPathZone ProofTraceEx ProofTraceGrow ProofDriverEx ProofMainEx ProofPathAffine ProofPathProgram ProofTolerance ProofPathTube ProofPathWells ProofPathZone ProofPathRun ProofPathRunEx ProofPathExists ProofPathExistsRun ProofPathExistsEx.
Import ListNotations.
Local Open Scope R_scope.

(** ** C103 The tolerance bounds the local error *)

(** C103, refuted: the tolerance does not bound the local error.  For every tolerance, longest step and bound there is a
    confined aquifer without wells in which a trace takes one accepted step to the end and arrives farther than the bound
    from where the water came from. *)
Theorem C103_refuted : forall tol maxstep B : R, 0 < tol -> 0 < maxstep ->
  exists (m : model R) (x : R) (q : pt) (Z : R -> pt),
    physical m /\ wells m = [] /\
    compute_backtrace 2 (Fin x) (Fin 0) (Fin (1 / 10)) (Fin tol) (Fin maxstep) (feval true (fmodel m)) =
      Ok {| vertices := [fvec (x, 0); fvec q]; t_end := Fin (1 / 10); completed := true |} /\
    Z 0 = (x, 0) /\ moves (feval true (fmodel m)) Z (1 / 10) /\ B < pdist q (Z (1 / 10)).
Proof. exact c103_refuted. Qed.
Print Assumptions C103_refuted.

(** C103 for short steps in a confined aquifer without wells: on the time scale of the flow (the reciprocal of the rate [L]
    at which it spreads), a step that takes at most half of it and is accepted ends within half the tolerance of the
    particle that leaves its first vertex. *)
Theorem C103_local_partial : forall (m : model R) (fuel : nat) (p : pt) (D e : R) (maxstep : xr) (tr : trace xr),
  physical m -> wells m = [] -> 0 <= D ->
  compute_backtrace fuel (Fin (fst p)) (Fin (snd p)) (Fin D) (Fin e) maxstep (feval true (fmodel m)) = Ok tr ->
  let c := coef m in
  let L := sqrt (4 * cA c ^ 2 + 2 * cC c ^ 2 + 4 * cB c ^ 2) / (porosity m * thickness m) in
  exists l ts, clocked (feval true (fmodel m)) (Fin e) maxstep D tr l ts /\
    forall i, (S i < length l)%nat -> let h := nth (S i) ts 0 - nth i ts 0 in h * L <= 1 / 2 ->
      exists W, W 0 = nth i l (0, 0) /\ moves (feval true (fmodel m)) W h /\ pdist (nth (S i) l (0, 0)) (W h) < e / 2.
Proof. exact c103_local_partial. Qed.
Print Assumptions C103_local_partial.

(** And along a trace of such steps the errors add up to at most half the tolerance for each step, times the spreading of the
    flow. *)
Theorem C103_trace_partial : forall (m : model R) (fuel : nat) (p : pt) (D e : R) (maxstep : xr) (tr : trace xr) (Z : R -> pt),
  physical m -> wells m = [] -> 0 <= D -> moves (feval true (fmodel m)) Z D -> Z 0 = p ->
  compute_backtrace fuel (Fin (fst p)) (Fin (snd p)) (Fin D) (Fin e) maxstep (feval true (fmodel m)) = Ok tr ->
  let c := coef m in
  let L := sqrt (4 * cA c ^ 2 + 2 * cC c ^ 2 + 4 * cB c ^ 2) / (porosity m * thickness m) in
  exists l ts, clocked (feval true (fmodel m)) (Fin e) maxstep D tr l ts /\
    forall H, steps_within H ts -> H * L <= 1 / 2 -> forall i, (i < length l)%nat ->
      let t := nth i ts 0 in pdist (nth i l (0, 0)) (Z t) <= INR i * (e / 2) * exp (L * t).
Proof. exact c103_trace_partial. Qed.
Print Assumptions C103_trace_partial.

(** Water of the saddle for a tenth of a unit of time: any trace of it has short steps. *)
Example C103_saddle_example : physical saddle /\ wells saddle = [] /\ moves (feval true (fmodel saddle)) (fun t => (exp (2 * t), exp (-2 * t))) (1 / 10) /\
  (exists fuel tr, compute_backtrace fuel (Fin 1) (Fin 1) (Fin (1 / 10)) (Fin 1) (Fin 10) (feval true (fmodel saddle)) = Ok tr) /\
  (let c := coef saddle in 1 / 10 * (sqrt (4 * cA c ^ 2 + 2 * cC c ^ 2 + 4 * cB c ^ 2) / (porosity saddle * thickness saddle)) <= 1 / 2).
Proof. exact c103_saddle_example. Qed.

(** ** C104 Traces follow the flow: regional flow *)

(** C104.  In an affine velocity field (the confined aquifer without wells, C44) every vertex of a trace is near the place
    where a particle that moves with the velocity from the start point is at the time of the vertex: the distance is at most
    11/3600 t L^5 H^5 |v| e^(26/25 L t), where [t] is the time of the vertex, [H] the longest time step, [|v|] the speed at the
    start and [L] a bound for the velocity gradient.  It is of the fifth order in the time step. *)
Theorem C104_affine : forall (A : affine) (L : R) (f : vec xr -> res (vec xr)) (fuel : nat) (p : pt) (D : R) (tol maxstep : xr) (tr : trace xr) (Z : R -> pt),
  (forall q : pt, f (fvec q) = Ok (fvec (flow A q))) -> stretch A L -> 0 <= D -> pathline (flow A) Z D -> Z 0 = p ->
  compute_backtrace fuel (Fin (fst p)) (Fin (snd p)) (Fin D) tol maxstep f = Ok tr ->
  exists l ts, clocked f tol maxstep D tr l ts /\
    forall H, steps_within H ts -> forall i, (i < length l)%nat ->
      let t := nth i ts 0 in
      pdist (nth i l (0, 0)) (Z t) <= 11 / 3600 * t * (L ^ 5 * H ^ 5) * pnorm (flow A p) * exp (26 / 25 * L * t).
Proof. exact c104_affine. Qed.
Print Assumptions C104_affine.

(** C104 for the confined aquifer without wells: whatever the regional flow, each vertex of a backtrace is near the place
    where the water of the start point was that much time before. *)
Theorem C104_confined : forall (m : model R) (fuel : nat) (p v : pt) (D : R) (tol maxstep : xr) (tr : trace xr) (Z : R -> pt),
  physical m -> wells m = [] -> 0 <= D -> moves (feval true (fmodel m)) Z D -> Z 0 = p -> feval true (fmodel m) (fvec p) = Ok (fvec v) ->
  compute_backtrace fuel (Fin (fst p)) (Fin (snd p)) (Fin D) tol maxstep (feval true (fmodel m)) = Ok tr ->
  let c := coef m in
  let L := sqrt (4 * cA c ^ 2 + 2 * cC c ^ 2 + 4 * cB c ^ 2) / (porosity m * thickness m) in
  exists l ts, clocked (feval true (fmodel m)) tol maxstep D tr l ts /\
    forall H, steps_within H ts -> forall i, (i < length l)%nat ->
      let t := nth i ts 0 in
      pdist (nth i l (0, 0)) (Z t) <= 11 / 3600 * t * (L ^ 5 * H ^ 5) * pnorm v * exp (26 / 25 * L * t).
Proof. exact c104_confined. Qed.
Print Assumptions C104_confined.

(** Water of the saddle, traced back from (1, 1), on a trace that returns. *)
Example C104_saddle_example : physical saddle /\ wells saddle = [] /\ moves (feval true (fmodel saddle)) (fun t => (exp (2 * t), exp (-2 * t))) 3 /\
  exists v fuel tr, feval true (fmodel saddle) (fvec (1, 1)) = Ok (fvec v) /\
    compute_backtrace fuel (Fin 1) (Fin 1) (Fin 3) (Fin 1) (Fin 10) (feval true (fmodel saddle)) = Ok tr.
Proof. exact c104_saddle_example. Qed.

(** ** C105 Traces follow the flow: wells *)

(** C105.  Any velocity function that is finite and at most [V] in size, and changes by at most [L] per unit length, near
    the path of a particle from the start point: a trace whose steps are short enough for the errors to stay near the path
    ([H] is the longest time step) has every vertex within 5 V H (e^(L t) - 1) of the particle at the time [t] of the
    vertex.  The distance is of the first order in the time step. *)
Theorem C105_tube : forall (f : vec xr -> res (vec xr)) (fuel : nat) (p : pt) (D : R) (tol maxstep : xr) (tr : trace xr) (Z : R -> pt) (V L rho : R),
  0 <= D -> 0 <= L -> 0 <= rho -> moves f Z D -> Z 0 = p -> tame f Z D V L rho ->
  compute_backtrace fuel (Fin (fst p)) (Fin (snd p)) (Fin D) tol maxstep f = Ok tr ->
  exists l ts, paced f tol maxstep D tr l ts /\
    forall H, steps_within H ts -> 50 * L * H <= 1 -> 5 * V * H * (exp (L * D) - 1) + 2 * V * H <= rho ->
      clocked f tol maxstep D tr l ts /\
      forall i, (i < length l)%nat -> let t := nth i ts 0 in pdist (nth i l (0, 0)) (Z t) <= 5 * V * H * (exp (L * t) - 1).
Proof. exact c105_tube. Qed.
Print Assumptions C105_tube.

(** C105 for the confined aquifer with any wells and regional flow.  [v] bounds the speed along the path and [rho] is half the distance kept from the wells. *)
Theorem C105_confined : forall (m : model R) (fuel : nat) (p : pt) (D : R) (tol maxstep : xr) (tr : trace xr) (Z : R -> pt) (v rho : R),
  physical m -> 0 <= D -> 0 < rho -> moves (feval true (fmodel m)) Z D -> Z 0 = p ->
  (forall t u, 0 <= t <= D -> feval true (fmodel m) (fvec (Z t)) = Ok (fvec u) -> pnorm u <= v) ->
  (forall t w, 0 <= t <= D -> In w (wells m) -> 2 * rho <= pdist (Z t) (wx w, wy w)) ->
  compute_backtrace fuel (Fin (fst p)) (Fin (snd p)) (Fin D) tol maxstep (feval true (fmodel m)) = Ok tr ->
  let c := coef m in
  let L := (sqrt (4 * cA c ^ 2 + 2 * cC c ^ 2 + 4 * cB c ^ 2) + Rsum (fun w => Rabs (wq w)) (wells m) / (6 * (rho * rho))) / (porosity m * thickness m) in
  let V := v + L * rho in
  exists l ts, paced (feval true (fmodel m)) tol maxstep D tr l ts /\
    forall H, steps_within H ts -> 50 * L * H <= 1 -> 5 * V * H * (exp (L * D) - 1) + 2 * V * H <= rho ->
      clocked (feval true (fmodel m)) tol maxstep D tr l ts /\
      forall i, (i < length l)%nat -> let t := nth i ts 0 in pdist (nth i l (0, 0)) (Z t) <= 5 * V * H * (exp (L * t) - 1).
Proof. exact c105_confined. Qed.
Print Assumptions C105_confined.

(** Water around the well, on a trace that returns with two vertices; the steps are short enough for C105. *)
Example C105_pumped_example : let Z := fun t => (sqrt (1 + 2 * strength * t), 0) in
  physical pumped /\ moves (feval true (fmodel pumped)) Z (1 / 10) /\ Z 0 = (1, 0) /\
  (forall t u, 0 <= t <= 1 / 10 -> feval true (fmodel pumped) (fvec (Z t)) = Ok (fvec u) -> pnorm u <= 1 / 120) /\
  (forall t w, 0 <= t <= 1 / 10 -> In w (wells pumped) -> 2 * (1 / 2) <= pdist (Z t) (wx w, wy w)) /\
  (exists y, 99 / 100 <= y /\ compute_backtrace 2 (Fin 1) (Fin 0) (Fin (1 / 10)) (Fin 1) (Fin 10) (feval true (fmodel pumped)) =
     Ok {| vertices := [fvec (1, 0); fvec (y, 0)]; t_end := Fin (1 / 10); completed := true |}) /\
  let c := coef pumped in
  let L := (sqrt (4 * cA c ^ 2 + 2 * cC c ^ 2 + 4 * cB c ^ 2) + Rsum (fun w => Rabs (wq w)) (wells pumped) / (6 * (1 / 2 * (1 / 2)))) / (porosity pumped * thickness pumped) in
  let V := 1 / 120 + L * (1 / 2) in
  L = 1 / 30 /\ V = 1 / 40 /\ 50 * L * (1 / 10) <= 1 /\ 5 * V * (1 / 10) * (exp (L * (1 / 10)) - 1) + 2 * V * (1 / 10) <= 1 / 2.
Proof. exact c105_pumped_example. Qed.

(** ** C106 Capture zones are where the water comes from *)

(** C106.  Under the conditions of C105 the whole track, with the segments between its vertices, is beside the path that the
    particle takes until the time at which the trace ends. *)
Theorem C106_beside : forall (f : vec xr -> res (vec xr)) (fuel : nat) (p : pt) (D : R) (tol maxstep : xr) (tr : trace xr) (Z : R -> pt) (V L rho : R),
  0 <= D -> 0 <= L -> 0 <= rho -> moves f Z D -> Z 0 = p -> tame f Z D V L rho ->
  compute_backtrace fuel (Fin (fst p)) (Fin (snd p)) (Fin D) tol maxstep f = Ok tr ->
  exists l ts, paced f tol maxstep D tr l ts /\
    forall H, 0 <= H -> steps_within H ts -> 50 * L * H <= 1 -> 5 * V * H * (exp (L * D) - 1) + 2 * V * H <= rho ->
      let T := last ts 0 in 0 <= T <= D /\ beside (5 * V * H * (exp (L * T) - 1) + V * H / 2) l Z T.
Proof. exact c106_beside. Qed.
Print Assumptions C106_beside.

(** C106: a location closer than [u] to the track is closer than [u + E] to the path; a location closer than [u - E] to the
    path is closer than [u] to the track, unless the track stands still. *)
Theorem C106_near : forall (E T u : R) (l : list pt) (Z : R -> pt) (c : pt), beside E l Z T -> 0 <= u ->
  (near_track u l c -> exists t, 0 <= t <= T /\ pdist c (Z t) < u + E) /\
  ((exists a b, In a l /\ In b l /\ a <> b) -> (exists t, 0 <= t <= T /\ pdist c (Z t) < u - E) -> near_track u l c).
Proof. exact c106_near. Qed.
Print Assumptions C106_near.

(** C106 for a deterministic run in a confined aquifer. *)
Theorem C106_deterministic : forall (fuel : nat) (a : args xr) (c : call) (kept : list (obs R)) (s : pfield xr) (lg : run_log xr) (D : R),
  deterministic_run fuel a c kept s lg -> k_confined c = true -> k_duration c = Fin D -> 0 <= D -> xr_pos (k_umbra c) ->
  exists w u z,
    nth_error (k_wells c) (Z.to_nat (k_target c)) = Some w /\ k_umbra c = Fin u /\
    has_parameters mean_of a c w (z_model z) /\ best_fit (z_model z) kept (coef (z_model z)) /\ traced fuel c w D z /\
    forall px py n b, has_node s px py n b -> exists h : bool, n = (if h then 1 else 0) /\ agrees c w D u z (px, py) h.
Proof. exact c106_deterministic. Qed.
Print Assumptions C106_deterministic.

(** C106 for a stochastic run in a confined aquifer: every node counts the realizations whose capture zone has it, and each of
    the capture zones agrees with where the water of that realization passes. *)
Theorem C106_stochastic : forall (E : Type) (mvn : E -> list xr -> list (list xr) -> list xr) (fuel : nat) (entropy : nat -> E)
    (a : args xr) (c : call) (kept : list (obs R)) (s : pfield xr) (logs : list (run_log xr)) (D : R),
  stochastic_run mvn fuel entropy a c kept s logs -> k_confined c = true -> k_duration c = Fin D -> 0 <= D -> xr_pos (k_umbra c) ->
  exists w u zones,
    nth_error (k_wells c) (Z.to_nat (k_target c)) = Some w /\ k_umbra c = Fin u /\ length zones = Z.to_nat (k_n c) /\
    (forall i z, nth_error zones i = Some z -> let m := z_model z in
       has_parameters within a c w m /\ traced fuel c w D z /\
       exists ev C A, best_fit m kept ev /\ matrix6 C A /\ inverse6 (normal_matrix m (xo m) (yo m) kept) A /\
         mvn (entropy i) (coef_list (fcoef ev)) C = coef_list (fcoef (coef m))) /\
    forall px py n b, has_node s px py n b -> exists hits,
      length hits = length zones /\ n = INR (length (filter (fun h => h) hits)) /\
      forall i z h, nth_error zones i = Some z -> nth_error hits i = Some h -> agrees c w D u z (px, py) h.
Proof. exact c106_stochastic. Qed.
Print Assumptions C106_stochastic.

(** A run whose field has a captured node; the conditions of [agrees] hold with rho = 1, v = 4 and H = 1/10, and the distance
    E is 1/5. *)
Example C106_deterministic_example : exists fuel s lg, let a := d_args (PInt 1) halves quarter dobs in let c := d_call 1 dobs in
  deterministic_run fuel a c dobs s lg /\ k_confined c = true /\ k_duration c = Fin (1 / 10) /\ 0 <= 1 / 10 /\ xr_pos (k_umbra c) /\ has_node s 2 0 1 false /\
  forall z, has_parameters mean_of a c dw (z_model z) -> best_fit (z_model z) dobs (coef (z_model z)) -> traced fuel c dw (1 / 10) z ->
    physical (z_model z) /\ water c dw (1 / 10) 4 1 z (fun _ t => (2 + 4 * t, 0)) /\ (forall ts, In ts (z_times z) -> steps_within (1 / 10) ts) /\
    let m := z_model z in let k := coef m in
    let L := (sqrt (4 * cA k ^ 2 + 2 * cC k ^ 2 + 4 * cB k ^ 2) + Rsum (fun o => Rabs (wq o)) (wells m) / (6 * (1 * 1))) / (porosity m * thickness m) in
    let V := 4 + L * 1 in
    50 * L * (1 / 10) <= 1 /\ 5 * V * (1 / 10) * (exp (L * (1 / 10)) - 1) + 2 * V * (1 / 10) <= 1 /\
    5 * V * (1 / 10) * (exp (L * (1 / 10)) - 1) + V * (1 / 10) / 2 = 1 / 5.
Proof. exact c106_deterministic_example. Qed.

(** Two realizations that both capture a node. *)
Example C106_stochastic_example : exists fuel s logs, let a := d_args (PInt 2) (PInt 1) quarter dobs in let c := d_call 2 dobs in
  let mvn := fun (e : coef6 R) (_ : list xr) (_ : list (list xr)) => coef_list (fcoef e) in
  let entropy := fun _ : nat => {| cA := 0; cB := 0; cC := 0; cD := 1; cE := 0; cF := 0 |} in
  stochastic_run mvn fuel entropy a c dobs s logs /\ k_confined c = true /\ k_duration c = Fin (1 / 10) /\ 0 <= 1 / 10 /\ xr_pos (k_umbra c) /\ has_node s 2 0 2 false /\
  forall i z ev C, has_parameters within a c dw (z_model z) -> traced fuel c dw (1 / 10) z ->
    mvn (entropy i) (coef_list (fcoef ev)) C = coef_list (fcoef (coef (z_model z))) ->
    physical (z_model z) /\ water c dw (1 / 10) 4 1 z (fun _ t => (2 + 4 * t, 0)) /\ (forall ts, In ts (z_times z) -> steps_within (1 / 10) ts) /\
    let m := z_model z in let k := coef m in
    let L := (sqrt (4 * cA k ^ 2 + 2 * cC k ^ 2 + 4 * cB k ^ 2) + Rsum (fun o => Rabs (wq o)) (wells m) / (6 * (1 * 1))) / (porosity m * thickness m) in
    let V := 4 + L * 1 in
    50 * L * (1 / 10) <= 1 /\ 5 * V * (1 / 10) * (exp (L * (1 / 10)) - 1) + 2 * V * (1 / 10) <= 1 /\
    5 * V * (1 / 10) * (exp (L * (1 / 10)) - 1) + V * (1 / 10) / 2 = 1 / 5.
Proof. exact c106_stochastic_example. Qed.

(** ** C107 Computed tracks tell where the water goes *)

(** C107.  A trace in a confined aquifer whose vertices keep the distance [2 rho] from the wells and whose time steps [H] are short
    enough: there is a path of the water from the start point, only one, and the trace is within 6 V H (e^(L T) - 1) of it, [T]
    being the time that the trace ends. *)
Theorem C107_water : forall (m : model R) (f : vec xr -> res (vec xr)) (fuel : nat) (p : pt) (D : R) (tol maxstep : xr) (tr : trace xr),
  physical m -> upstream true m f -> 0 <= D ->
  compute_backtrace fuel (Fin (fst p)) (Fin (snd p)) (Fin D) tol maxstep f = Ok tr ->
  exists l ts, paced f tol maxstep D tr l ts /\
    forall v rho H, 0 < rho -> 0 <= H -> calm m f v rho l -> steps_within H ts ->
      let L := gradient m rho in let V := v + L * rho in let T := last ts 0 in
      50 * L * H <= 1 -> 6 * V * H * (exp (L * T) - 1) + 2 * V * H <= rho ->
      exists Z, Z 0 = p /\ moves f Z T /\ (forall t w, 0 <= t <= T -> In w (wells m) -> rho <= pdist (Z t) (wx w, wy w)) /\
        (forall i, (i < length l)%nat -> let t := nth i ts 0 in 0 <= t <= T /\ pdist (nth i l (0, 0)) (Z t) <= 6 * V * H * (exp (L * t) - 1)) /\
        beside (6 * V * H * (exp (L * T) - 1)) l Z T /\
        forall Y, Y 0 = p -> moves f Y T -> off_the_wells m Y T -> forall t, 0 <= t <= T -> Y t = Z t.
Proof. exact c107_water. Qed.
Print Assumptions C107_water.

(** The trace beside the pumped well of C105: the conditions hold with rho = 1/3, v = 1/100 and H = 1/10. *)
Example C107_water_example : physical pumped /\ upstream true pumped (feval true (fmodel pumped)) /\
  exists y, compute_backtrace 2 (Fin 1) (Fin 0) (Fin (1 / 10)) (Fin 1) (Fin 10) (feval true (fmodel pumped)) =
     Ok {| vertices := [fvec (1, 0); fvec (y, 0)]; t_end := Fin (1 / 10); completed := true |} /\
    calm pumped (feval true (fmodel pumped)) (1 / 100) (1 / 3) [(1, 0); (y, 0)] /\ steps_within (1 / 10) [0; 1 / 10] /\
    let L := gradient pumped (1 / 3) in let V := 1 / 100 + L * (1 / 3) in
    L = 3 / 40 /\ V = 7 / 200 /\ 50 * L * (1 / 10) <= 1 /\ 6 * V * (1 / 10) * (exp (L * (1 / 10)) - 1) + 2 * V * (1 / 10) <= 1 / 3.
Proof. exact c107_water_example. Qed.

(** C107 for a deterministic run in a confined aquifer: if the capture zone is resolved then the water on the way to the well
    has paths, and every node tells where they are up to E. *)
Theorem C107_deterministic : forall (fuel : nat) (a : args xr) (c : call) (kept : list (obs R)) (s : pfield xr) (lg : run_log xr) (D : R),
  deterministic_run fuel a c kept s lg -> k_confined c = true -> k_duration c = Fin D -> 0 <= D -> xr_pos (k_umbra c) ->
  exists w u z,
    nth_error (k_wells c) (Z.to_nat (k_target c)) = Some w /\ k_umbra c = Fin u /\
    has_parameters mean_of a c w (z_model z) /\ best_fit (z_model z) kept (coef (z_model z)) /\ traced fuel c w D z /\
    forall v rho H, resolved D v rho H z ->
      (exists path, flows z path) /\
      let L := gradient (z_model z) rho in let E := 6 * (v + L * rho) * H * (exp (L * D) - 1) in
      forall px py n b, has_node s px py n b -> exists h : bool, n = (if h then 1 else 0) /\ forall path, flows z path -> tells u E z path (px, py) h.
Proof. exact c107_deterministic. Qed.
Print Assumptions C107_deterministic.

(** C107 for a stochastic run: every node counts the realizations whose capture zone has it, and each capture zone that is resolved
    tells where the water of that realization passes. *)
Theorem C107_stochastic : forall (E : Type) (mvn : E -> list xr -> list (list xr) -> list xr) (fuel : nat) (entropy : nat -> E)
    (a : args xr) (c : call) (kept : list (obs R)) (s : pfield xr) (logs : list (run_log xr)) (D : R),
  stochastic_run mvn fuel entropy a c kept s logs -> k_confined c = true -> k_duration c = Fin D -> 0 <= D -> xr_pos (k_umbra c) ->
  exists w u zones,
    nth_error (k_wells c) (Z.to_nat (k_target c)) = Some w /\ k_umbra c = Fin u /\ length zones = Z.to_nat (k_n c) /\
    (forall i z, nth_error zones i = Some z -> let m := z_model z in
       has_parameters within a c w m /\ traced fuel c w D z /\
       (exists ev C A, best_fit m kept ev /\ matrix6 C A /\ inverse6 (normal_matrix m (xo m) (yo m) kept) A /\
         mvn (entropy i) (coef_list (fcoef ev)) C = coef_list (fcoef (coef m))) /\
       forall v rho H, resolved D v rho H z -> exists path, flows z path) /\
    forall px py n b, has_node s px py n b -> exists hits,
      length hits = length zones /\ n = INR (length (filter (fun h => h) hits)) /\
      forall i z h v rho H path, nth_error zones i = Some z -> nth_error hits i = Some h -> resolved D v rho H z -> flows z path ->
        let L := gradient (z_model z) rho in tells u (6 * (v + L * rho) * H * (exp (L * D) - 1)) z path (px, py) h.
Proof. exact c107_stochastic. Qed.
Print Assumptions C107_stochastic.

(** The runs of C106: all the capture zones of such a run are resolved, the water moves from (2, 0) to (12/5, 0). *)
Example C107_deterministic_example : exists fuel s lg, let a := d_args (PInt 1) halves quarter dobs in let c := d_call 1 dobs in
  deterministic_run fuel a c dobs s lg /\ k_confined c = true /\ k_duration c = Fin (1 / 10) /\ 0 <= 1 / 10 /\ xr_pos (k_umbra c) /\ has_node s 2 0 1 false /\
  forall z, has_parameters mean_of a c dw (z_model z) -> best_fit (z_model z) dobs (coef (z_model z)) -> traced fuel c dw (1 / 10) z ->
    resolved (1 / 10) 4 1 (1 / 10) z /\ flows z (fun _ t => (2 + 4 * t, 0)).
Proof. exact c107_deterministic_example. Qed.

Example C107_stochastic_example : exists fuel s logs, let a := d_args (PInt 2) (PInt 1) quarter dobs in let c := d_call 2 dobs in
  let mvn := fun (e : coef6 R) (_ : list xr) (_ : list (list xr)) => coef_list (fcoef e) in
  let entropy := fun _ : nat => {| cA := 0; cB := 0; cC := 0; cD := 1; cE := 0; cF := 0 |} in
  stochastic_run mvn fuel entropy a c dobs s logs /\ k_confined c = true /\ k_duration c = Fin (1 / 10) /\ 0 <= 1 / 10 /\ xr_pos (k_umbra c) /\ has_node s 2 0 2 false /\
  forall i z ev C, has_parameters within a c dw (z_model z) -> traced fuel c dw (1 / 10) z ->
    mvn (entropy i) (coef_list (fcoef ev)) C = coef_list (fcoef (coef (z_model z))) ->
    resolved (1 / 10) 4 1 (1 / 10) z /\ flows z (fun _ t => (2 + 4 * t, 0)).
Proof. exact c107_stochastic_example. Qed.
