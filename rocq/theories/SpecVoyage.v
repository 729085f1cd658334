(** * The capture zones of a run in binary64 and the water (C125) *)
From Coq Require Import Reals List ZArith SpecFloat.
From Verif Require Import Py Num ModelField ModelAquifer ModelTrace ModelDist ModelDriver ModelMain SpecFloats SpecExact SpecAquifer SpecTrace SpecPathline SpecField SpecWhole SpecPathZone SpecWater SpecRough.
Import ListNotations.
Local Open Scope R_scope.

(** The capture zone of one realization as computed in binary64: its model, and its traces with their time steps. *)
Record voyage := { g_model : model spec_float; g_runs : list (trace spec_float * list spec_float) }.
Definition points (r : trace spec_float * list spec_float) : list pt := map at_ (vertices (fst r)).
Definition span (r : trace spec_float * list spec_float) : R := last (clock 0 (snd r)) 0.

(** The traces of [z] were computed from the start points around the well, along the velocity of its model, with these time steps. *)
Definition sailed (lm : libm) (fuel : nat) (xt yt rt duration tol maxstep : spec_float) (npaths : Z) (confined : bool) (z : voyage) : Prop :=
  let F := @feval _ (SF lm) confined (g_model z) in
  exists thetas, @start_angles _ (SF lm) npaths = Ok thetas /\
    Forall2 (fun th r => let (x, y) := @start_point _ (SF lm) xt yt rt th in
               @compute_backtrace _ (SF lm) fuel x y duration tol maxstep F = Ok (fst r) /\ reckoned lm F tol maxstep (fst r) (snd r))
            thetas (g_runs z).

(** Bounds for a capture zone: the velocity, its change per unit length, the distance from the vertices within which they hold, the error of the velocity, the size
    of the coordinates, the longest time step, the longest segment, the longest time and the greatest number of vertices of a track. *)
Record chart := { c_V : R; c_L : R; c_rho : R; c_d : R; c_X : R; c_H : R; c_S : R; c_T : R; c_N : nat }.

(** How far the tracks may be from the water. *)
Definition drift (k : chart) : R :=
  let Rr := rounding (c_X k) (c_H k) (c_V k) in astray (c_V k) (c_L k) (c_H k) (wrong (c_L k) (c_d k) Rr) Rr (c_N k) (c_T k).

(** The track [r] stays within these bounds. *)
Record charted (F : vec spec_float -> res (vec spec_float)) (f : vec xr -> res (vec xr)) (k : chart) (r : trace spec_float * list spec_float) : Prop := {
  ct_start : forall p, nth_error (vertices (fst r)) 0 = Some p -> solid p;
  ct_points : forall c, In c (points r) -> Rabs (fst c) <= c_X k /\ Rabs (snd c) <= c_X k;
  ct_steps : forall dt, In dt (snd r) -> ffinite dt /\ 0 <= fval dt <= c_H k;
  ct_hops : forall a b, consecutive (points r) a b -> pdist a b <= c_S k;
  ct_count : (length (points r) <= c_N k)%nat;
  ct_span : span r <= c_T k;
  ct_faithful : faithful F f (c_d k) (c_rho k) (points r);
  ct_gentle : gentle f (c_V k) (c_L k) (c_rho k) (points r) }.

(** The bounds are in the range of binary64 and the steps short enough. *)
Definition seaworthy (k : chart) : Prop :=
  let Rr := rounding (c_X k) (c_H k) (c_V k) in
  0 < c_rho k /\ 0 < c_L k /\ 0 <= c_d k /\ 0 <= c_H k <= huge /\ c_V k <= huge / 4 /\ minute <= c_X k <= huge /\
  50 * c_L k * c_H k <= 1 /\ wrong (c_L k) (c_d k) Rr <= c_V k /\
  drift k + 2 * c_V k * c_H k + 140 * c_d k * c_H k + 3 * Rr < c_rho k.

(** The water, moving with the velocity [f], follows [path j] from the start of the track [j] for as long as the track was traced. *)
Definition carries (f : vec xr -> res (vec xr)) (z : voyage) (path : nat -> R -> pt) : Prop :=
  forall j r, nth_error (g_runs z) j = Some r -> path j 0 = nth 0 (points r) (0, 0) /\ moves f (path j) (span r).

(** What the test of the distance [u] from a segment of length at most [S] may be off in binary64. *)
Definition blur (u S : R) : R := / 2 ^ 44 * (u + S * S / u).

(** Whether the capture zone [z] counts the location [p], [h], agrees with where the water passes up to the distance [E]. *)
Definition shows (u E : R) (z : voyage) (path : nat -> R -> pt) (p : pt) (h : bool) : Prop :=
  (h = true -> exists j r t, nth_error (g_runs z) j = Some r /\ 0 <= t <= span r /\ pdist p (path j t) < u + E) /\
  (forall j r t, nth_error (g_runs z) j = Some r -> (exists q q', In q (points r) /\ In q' (points r) /\ q <> q') -> boxed (points r) p ->
     0 <= t <= span r -> pdist p (path j t) < u - E -> h = true).
