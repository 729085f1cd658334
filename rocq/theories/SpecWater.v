(** * The water that a trace follows, in any aquifer (C122) *)
From Coq Require Import Reals List ZArith.
From Verif Require Import Py Num ModelField ModelAquifer ModelTrace ModelDist ModelDriver ModelMain SpecAquifer SpecFit SpecTrace SpecDist SpecDriver SpecMain
  SpecPathline SpecUnconfined SpecField SpecWhole SpecPathZone.
Import ListNotations.
Local Open Scope R_scope.

(** Within [rho] of each point of [l] the velocity is finite, at most [V] in size, and changes by at most [L] per unit length. *)
Definition gentle (f : vec xr -> res (vec xr)) (V L rho : R) (l : list pt) : Prop :=
  forall c, In c l ->
    (forall q, pdist c q <= rho -> exists u, f (fvec q) = Ok (fvec u) /\ pnorm u <= V) /\
    (forall q q' u u', pdist c q <= rho -> pdist c q' <= rho -> f (fvec q) = Ok (fvec u) -> f (fvec q') = Ok (fvec u') -> pnorm (psub u u') <= L * pdist q q').

(** No point of [l] is nearer than [2 rho] to a well, has a discharge above [w], or has so low a potential that within [rho] of it
    the water could be less than [s] deep. *)
Definition deep (m : model R) (w rho s : R) (l : list pt) : Prop :=
  forall q, In q l ->
    flux m q <= w /\ (forall o, In o (wells m) -> 2 * rho <= pdist q (wx o, wy o)) /\
    conductivity m * (s * s) / 2 + (w + flux_change m rho * rho) * rho <= potential m (fst q) (snd q).

(** How much, at the most, the velocity of an aquifer changes per unit length, and the velocity, within [rho] of such points. *)
Definition shear (m : model R) (w rho s : R) : R :=
  let G := flux_change m rho in let W := w + G * rho in
  G / (porosity m * s) + W * W / (porosity m * conductivity m * (s * s * s)).
Definition pace (m : model R) (w rho s : R) : R := (w + flux_change m rho * rho) / (porosity m * s).

(** [z] was traced for the duration [D] from the circle around the well [w], in an aquifer that may be unconfined. *)
Definition traced_unconfined (fuel : nat) (c : call) (w : swell xr) (D : R) (z : zone) : Prop :=
  upstream false (z_model z) (z_velocity z) /\ tracks_of fuel c w (z_velocity z) (z_tracks z) /\
  length (z_times z) = length (z_tracks z) /\
  forall j l ts, nth_error (z_tracks z) j = Some l -> nth_error (z_times z) j = Some ts -> exists p tr,
    compute_backtrace fuel (Fin (fst p)) (Fin (snd p)) (Fin D) (k_tol c) (k_maxstep c) (z_velocity z) = Ok tr /\
    paced (z_velocity z) (k_tol c) (k_maxstep c) D tr l ts.

(** The tracks of the capture zone [z], whose time steps are [H] at most, are in deep water and the steps short enough. *)
Definition submerged (D w rho s H : R) (z : zone) : Prop :=
  physical (z_model z) /\ 0 < rho /\ 0 <= H /\ 0 < s <= thickness (z_model z) /\
  (forall l, In l (z_tracks z) -> deep (z_model z) w rho s l) /\ (forall ts, In ts (z_times z) -> steps_within H ts) /\
  let L := shear (z_model z) w rho s in let V := pace (z_model z) w rho s in
  50 * L * H <= 1 /\ 6 * V * H * (exp (L * D) - 1) + 2 * V * H <= rho.

(** The water follows [path j] from the start of the track [j] for as long as the track was traced. *)
Definition drifts (z : zone) (path : nat -> R -> pt) : Prop :=
  forall j l ts, nth_error (z_tracks z) j = Some l -> nth_error (z_times z) j = Some ts ->
    path j 0 = nth 0 l (0, 0) /\ moves (z_velocity z) (path j) (last ts 0).
