(** * Traces and pathlines of unconfined aquifers: C118

    Written by tools/genprops.py: statements only, each closed by the lemma of the
    same name in ProofPathUnconfined.v, ProofPathUnconfinedEx.v. *)
From Coq Require Import Reals List.
From Verif Require Import Py Num NumXR ModelAquifer ModelTrace ModelDriver SpecAquifer SpecTrace SpecPathline SpecUnconfined ProofPathUnconfined ProofPathUnconfinedEx.
Import ListNotations.
Local Open Scope R_scope.

(** ** C118 Traces follow the flow: unconfined aquifers *)

(** The size of the discharge vector changes from one place to another, both at least [rho] from every well, by at most
    [flux_change m rho] times the distance. *)
Theorem C118_flux : forall (m : model R) (q q' : pt) (rho : R),
  physical m -> 0 < rho -> (forall w, In w (wells m) -> rho <= pdist (wx w, wy w) q /\ rho <= pdist (wx w, wy w) q') ->
  Rabs (flux m q - flux m q') <= flux_change m rho * pdist q q'.
Proof. exact c118_flux. Qed.
Print Assumptions C118_flux.

(** A trace in an aquifer of any kind, confined or not from place to place, follows the path of the water.  Along the path [w]
    bounds the discharge, [rho] is half the distance kept from the wells, and the potential keeps so far above dry that the
    water is at least [s] deep wherever the trace can go. *)
Theorem C118_unconfined : forall (m : model R) (fuel : nat) (p : pt) (D : R) (tol maxstep : xr) (tr : trace xr) (Z : R -> pt) (w rho s : R),
  physical m -> 0 <= D -> 0 < rho -> 0 < s <= thickness m -> moves (feval false (fmodel m)) Z D -> Z 0 = p ->
  (forall t, 0 <= t <= D -> flux m (Z t) <= w) ->
  (forall t w, 0 <= t <= D -> In w (wells m) -> 2 * rho <= pdist (Z t) (wx w, wy w)) ->
  let G := flux_change m rho in
  let W := w + G * rho in
  (forall t, 0 <= t <= D -> conductivity m * (s * s) / 2 + W * rho <= potential m (fst (Z t)) (snd (Z t))) ->
  compute_backtrace fuel (Fin (fst p)) (Fin (snd p)) (Fin D) tol maxstep (feval false (fmodel m)) = Ok tr ->
  let L := G / (porosity m * s) + W * W / (porosity m * conductivity m * (s * s * s)) in
  let V := W / (porosity m * s) in
  exists l ts, paced (feval false (fmodel m)) tol maxstep D tr l ts /\
    forall H, steps_within H ts -> 50 * L * H <= 1 -> 5 * V * H * (exp (L * D) - 1) + 2 * V * H <= rho ->
      clocked (feval false (fmodel m)) tol maxstep D tr l ts /\
      forall i, (i < length l)%nat -> let t := nth i ts 0 in pdist (nth i l (0, 0)) (Z t) <= 5 * V * H * (exp (L * t) - 1).
Proof. exact c118_unconfined. Qed.
Print Assumptions C118_unconfined.

(** Water followed back upstream in an unconfined aquifer, on a trace that returns with two vertices; it came from where the
    aquifer is wetter, and the steps are short enough for C118. *)
Example C118_sloping_example : let Z := fun t => (1 + (level t - 9 / 64) / slope, 0) in
  physical sloping /\ moves (feval false (fmodel sloping)) Z (1 / 10) /\ Z 0 = (1, 0) /\
  (forall t, 0 <= t <= 1 / 10 -> flux sloping (Z t) <= 1 / 200) /\
  (forall t w, 0 <= t <= 1 / 10 -> In w (wells sloping) -> 2 * (1 / 10) <= pdist (Z t) (wx w, wy w)) /\
  (exists y, 99 / 100 <= y /\ compute_backtrace 2 (Fin 1) (Fin 0) (Fin (1 / 10)) (Fin 1) (Fin 10) (feval false (fmodel sloping)) =
     Ok {| vertices := [fvec (1, 0); fvec (y, 0)]; t_end := Fin (1 / 10); completed := true |}) /\
  (let h := fun t => head_at 1 1 (potential sloping (fst (Z t)) (snd (Z t))) in h 0 < h (1 / 10) < thickness sloping) /\
  let G := flux_change sloping (1 / 10) in
  let W := 1 / 200 + G * (1 / 10) in
  (forall t, 0 <= t <= 1 / 10 -> conductivity sloping * (1 / 4 * (1 / 4)) / 2 + W * (1 / 10) <= potential sloping (fst (Z t)) (snd (Z t))) /\
  let L := G / (porosity sloping * (1 / 4)) + W * W / (porosity sloping * conductivity sloping * (1 / 4 * (1 / 4) * (1 / 4))) in
  let V := W / (porosity sloping * (1 / 4)) in
  L = 1 / 625 /\ V = 1 / 50 /\ 50 * L * (1 / 10) <= 1 /\ 5 * V * (1 / 10) * (exp (L * (1 / 10)) - 1) + 2 * V * (1 / 10) <= 1 / 10.
Proof. exact c118_sloping_example. Qed.
