(** * Capture zones and pathlines *)
From Coq Require Import Reals List.
From Verif Require Import Py Num ModelField ModelAquifer ModelTrace ModelDist ModelDriver ModelMain SpecAquifer SpecFit SpecTrace SpecDist SpecDriver SpecMain SpecPathline SpecField SpecWhole.
Import ListNotations.
Local Open Scope R_scope.

(** The points of a track: its vertices and the segments between them. *)
Definition on_track (l : list pt) (p : pt) : Prop := In p l \/ exists a b, consecutive l a b /\ on_segment a b p.

(** The track [l] and the path [Z] until time [T] are within [E] of each other. *)
Definition beside (E : R) (l : list pt) (Z : R -> pt) (T : R) : Prop :=
  (forall p, on_track l p -> exists t, 0 <= t <= T /\ pdist p (Z t) <= E) /\
  (forall t, 0 <= t <= T -> exists p, on_track l p /\ pdist p (Z t) <= E).

(** The capture zone of one realization: the model, the velocity that is followed, the tracks and the times of their vertices. *)
Record zone := { z_model : model R; z_velocity : vec xr -> res (vec xr); z_tracks : list (list pt); z_times : list (list R) }.

(** [z] was traced for the duration [D] from the circle around the well [w]. *)
Definition traced (fuel : nat) (c : call) (w : swell xr) (D : R) (z : zone) : Prop :=
  upstream true (z_model z) (z_velocity z) /\ tracks_of fuel c w (z_velocity z) (z_tracks z) /\
  length (z_times z) = length (z_tracks z) /\
  forall j l ts, nth_error (z_tracks z) j = Some l -> nth_error (z_times z) j = Some ts -> exists p tr,
    compute_backtrace fuel (Fin (fst p)) (Fin (snd p)) (Fin D) (k_tol c) (k_maxstep c) (z_velocity z) = Ok tr /\
    paced (z_velocity z) (k_tol c) (k_maxstep c) D tr l ts.

(** The water that [path j] follows from the start of the track [j] for the time [D], no faster than [v] and no nearer than
    [2 rho] to a well. *)
Definition water (c : call) (w : swell xr) (D v rho : R) (z : zone) (path : nat -> R -> pt) : Prop :=
  exists x y r, sx w = Fin x /\ sy w = Fin y /\ sr w = Fin r /\
  forall j, (j < length (z_tracks z))%nat ->
    let th := 2 * PI * INR j / INR (Z.to_nat (k_npaths c)) in
    path j 0 = (x + (r + 1) * cos th, y + (r + 1) * sin th) /\ moves (z_velocity z) (path j) D /\
    (forall t q, 0 <= t <= D -> z_velocity z (fvec (path j t)) = Ok (fvec q) -> pnorm q <= v) /\
    (forall t o, 0 <= t <= D -> In o (wells (z_model z)) -> 2 * rho <= pdist (path j t) (wx o, wy o)).

(** Whether the capture zone [z] counts the location [p], [h], agrees with where the water passes up to a distance that
    is proportional to the longest time step [H]: if it does then water passes closer than [u + E]; it does if water
    passes closer than [u - E] before the end of a trace whose bounding box has [p] (and which does not stand still). *)
Definition agrees (c : call) (w : swell xr) (D u : R) (z : zone) (p : pt) (h : bool) : Prop :=
  forall (v rho H : R) (path : nat -> R -> pt),
    physical (z_model z) -> 0 < rho -> 0 <= H -> water c w D v rho z path ->
    (forall ts, In ts (z_times z) -> steps_within H ts) ->
    let m := z_model z in let k := coef m in
    let L := (sqrt (4 * cA k ^ 2 + 2 * cC k ^ 2 + 4 * cB k ^ 2) + Rsum (fun o => Rabs (wq o)) (wells m) / (6 * (rho * rho))) / (porosity m * thickness m) in
    let V := v + L * rho in
    50 * L * H <= 1 -> 5 * V * H * (exp (L * D) - 1) + 2 * V * H <= rho ->
    let E := 5 * V * H * (exp (L * D) - 1) + V * H / 2 in
    (h = true -> exists j t, (j < length (z_tracks z))%nat /\ 0 <= t <= D /\ pdist p (path j t) < u + E) /\
    (forall j l ts t, nth_error (z_tracks z) j = Some l -> nth_error (z_times z) j = Some ts ->
       (exists q q', In q l /\ In q' l /\ q <> q') -> boxed l p -> 0 <= t <= last ts 0 -> pdist p (path j t) < u - E -> h = true).

(** The size of the velocity gradient of a confined aquifer at the distance [r] from its wells. *)
Definition gradient (m : model R) (r : R) : R :=
  (sqrt (4 * cA (coef m) ^ 2 + 2 * cC (coef m) ^ 2 + 4 * cB (coef m) ^ 2) + Rsum (fun w => Rabs (wq w)) (wells m) / (6 * (r * r))) / (porosity m * thickness m).

(** No vertex of [l] is nearer than [2 rho] to a well or has a velocity above [v]. *)
Definition calm (m : model R) (f : vec xr -> res (vec xr)) (v rho : R) (l : list pt) : Prop :=
  forall q, In q l -> (forall u, f (fvec q) = Ok (fvec u) -> pnorm u <= v) /\ forall w, In w (wells m) -> 2 * rho <= pdist q (wx w, wy w).

(** [Z] never is at a well. *)
Definition off_the_wells (m : model R) (Z : R -> pt) (T : R) : Prop := forall t w, 0 <= t <= T -> In w (wells m) -> Z t <> (wx w, wy w).

(** The tracks of the capture zone [z], whose time steps are [H] at most, are calm and the steps short enough. *)
Definition resolved (D v rho H : R) (z : zone) : Prop :=
  physical (z_model z) /\ 0 < rho /\ 0 <= H /\
  (forall l, In l (z_tracks z) -> calm (z_model z) (z_velocity z) v rho l) /\ (forall ts, In ts (z_times z) -> steps_within H ts) /\
  let L := gradient (z_model z) rho in let V := v + L * rho in
  50 * L * H <= 1 /\ 6 * V * H * (exp (L * D) - 1) + 2 * V * H <= rho.

(** The water follows [path j] from the start of the track [j] for as long as the track was traced. *)
Definition flows (z : zone) (path : nat -> R -> pt) : Prop :=
  forall j l ts, nth_error (z_tracks z) j = Some l -> nth_error (z_times z) j = Some ts ->
    path j 0 = nth 0 l (0, 0) /\ moves (z_velocity z) (path j) (last ts 0) /\ off_the_wells (z_model z) (path j) (last ts 0).

(** Whether the capture zone [z] counts the location [p], [h], agrees with where the water passes up to the distance [E]. *)
Definition tells (u E : R) (z : zone) (path : nat -> R -> pt) (p : pt) (h : bool) : Prop :=
  (h = true -> exists j l ts t, nth_error (z_tracks z) j = Some l /\ nth_error (z_times z) j = Some ts /\ 0 <= t <= last ts 0 /\ pdist p (path j t) < u + E) /\
  (forall j l ts t, nth_error (z_tracks z) j = Some l -> nth_error (z_times z) j = Some ts ->
     (exists q q', In q l /\ In q' l /\ q <> q') -> boxed l p -> 0 <= t <= last ts 0 -> pdist p (path j t) < u - E -> h = true).
