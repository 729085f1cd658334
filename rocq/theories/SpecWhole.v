(** * Specification of what a whole run computes *)
From Coq Require Import Reals List.
From Verif Require Import Py Num ModelField ModelAquifer ModelTrace ModelDist ModelDriver ModelMain SpecAquifer SpecFit SpecTrace SpecDist SpecDriver SpecMain SpecField.
Import ListNotations.
Local Open Scope R_scope.

(** Mean of a distribution given by one, two or three numbers, and values between its ends. *)
Definition mean_of (v : pyval xr) (x : R) : Prop :=
  exists l, proper v l /\ x = fold_right Rplus 0 l / INR (length l).
Definition within (v : pyval xr) (x : R) : Prop :=
  exists l p q, proper v l /\ In p l /\ In q l /\ p <= x <= q.

(** The parameters of [m] are [Q]-values of the given distributions; its wells are where they were given,
    each with a [Q]-value of its own discharge distribution; its origin is the target well [w]. *)
Definition has_parameters (Q : pyval xr -> R -> Prop) (a : args xr) (c : call) (w : swell xr) (m : model R) : Prop :=
  k_base c = Fin (base m) /\
  Q (c_dist a) (conductivity m) /\ Q (p_dist a) (porosity m) /\ Q (t_dist a) (thickness m) /\
  Forall2 (fun sw mw => sx sw = Fin (wx mw) /\ sy sw = Fin (wy mw) /\ sr sw = Fin (wr mw) /\ Q (sq sw) (wq mw))
          (k_wells c) (wells m) /\
  sx w = Fin (xo m) /\ sy w = Fin (yo m).

(** [c] is the only minimiser of the misfit of [m] at the observations. *)
Definition best_fit (m : model R) (kept : list (obs R)) (c : coef6 R) : Prop :=
  forall d, d <> c -> misfit m (xo m) (yo m) kept c < misfit m (xo m) (yo m) kept d.

(** Off the wells, [f] is the seepage velocity of [m] reversed: the gradient of the potential over porosity
    times saturated thickness, which is the whole thickness when confined; an aquifer that is not
    confined and has run dry makes it raise. *)
Definition upstream (conf : bool) (m : model R) (f : vec xr -> res (vec xr)) : Prop :=
  forall x y, off_wells (wells m) x y ->
  exists gx gy, d_dx (potential m) x y gx /\ d_dy (potential m) x y gy /\
    if conf then f (Fin x, Fin y) = Ok (Fin (gx / (porosity m * thickness m)), Fin (gy / (porosity m * thickness m)))
    else (potential m x y <= 0 /\ f (Fin x, Fin y) = Raise AquiferError) \/
         exists h, 0 < h /\ girinskii (conductivity m) (thickness m) h = potential m x y /\
           let b := Rmin h (thickness m) in
           f (Fin x, Fin y) = Ok (Fin (gx / (porosity m * b)), Fin (gy / (porosity m * b))).

(** The tracks: backtraces along [f] from as many points as there are paths, at equal angles on the circle one
    unit outside the well screen. *)
Definition tracks_of (fuel : nat) (c : call) (w : swell xr) (f : vec xr -> res (vec xr)) (tracks : list (list point)) : Prop :=
  length tracks = Z.to_nat (k_npaths c) /\
  forall j tr, nth_error tracks j = Some tr ->
  exists x y r t, sx w = Fin x /\ sy w = Fin y /\ sr w = Fin r /\
    let th := 2 * PI * INR j / INR (Z.to_nat (k_npaths c)) in
    compute_backtrace fuel (Fin (x + (r + 1) * cos th)) (Fin (y + (r + 1) * sin th)) (k_duration c) (k_tol c) (k_maxstep c) f = Ok t /\
    vertices t = map fvec tr.

(** [c] is in the bounding box of the points. *)
Definition boxed (pts : list point) (c : point) : Prop :=
  exists p q r s, In p pts /\ In q pts /\ In r pts /\ In s pts /\
    fst p <= fst c <= fst q /\ snd r <= snd c <= snd s.

(** Whether a capture zone made of [tracks], computed after the points [before] have been traced, counts
    the location [c]: if it does then [c] is closer than [u] to one of the tracks; it does if [c] is closer than [u]
    to a track and in the bounding box of what has been traced up to and including that track. *)
Definition hit (u : R) (before : list point) (tracks : list (list point)) (c : point) (b : bool) : Prop :=
  (b = true -> exists tr, In tr tracks /\ near_track u tr c) /\
  (forall pre tr post, tracks = pre ++ tr :: post -> near_track u tr c -> boxed (before ++ concat pre ++ tr) c -> b = true).

(** The field [s] of spacing [sp] around [(x0, y0)] has recorded the capture zones. *)
Definition recorded (s : pfield xr) (x0 y0 sp u : R) (zones : list (list (list point))) : Prop :=
  let at_ i j := (x0 + IZR i * sp, y0 + IZR j * sp) in
  total s (INR (length zones)) /\
  (forall i j, boxed (concat (concat zones)) (at_ i j) -> is_node s (fst (at_ i j)) (snd (at_ i j))) /\
  forall x y v b, has_node s x y v b ->
    b = false /\ (exists i j, (x, y) = at_ i j) /\
    exists hits, length hits = length zones /\
      (forall i z, nth_error zones i = Some z -> hit u (concat (concat (firstn i zones))) z (x, y) (nth i hits false)) /\
      v = INR (length (filter (fun h => h) hits)).

(** What a deterministic run has computed: the parameters of the model are the means of the distributions, its
    regional flow is the only best fit to the observations, and the field records the one capture zone traced
    upstream in it. *)
Definition deterministic_run (fuel : nat) (a : args xr) (c : call) (kept : list (obs R)) (s : pfield xr) (lg : run_log xr) : Prop :=
  exists w x y sp u m f tracks,
    nth_error (k_wells c) (Z.to_nat (k_target c)) = Some w /\ sx w = Fin x /\ sy w = Fin y /\ k_spacing c = Fin sp /\ k_umbra c = Fin u /\
    has_parameters mean_of a c w m /\ best_fit m kept (coef m) /\
    logs_model lg (fmodel m) /\ l_recharge lg = Fin (- (2 * (cA (coef m) + cB (coef m)))) /\
    upstream (k_confined c) m f /\ tracks_of fuel c w f tracks /\ recorded s x y sp u [tracks].

(** What a stochastic run has computed: in every realization the parameters of the model are within the ends of the
    distributions, its regional flow is drawn with the mean and covariance of the fit to the observations, and
    the field counts, at every node, the realizations whose capture zone reaches it. *)
Definition stochastic_run {E} (mvn : E -> list xr -> list (list xr) -> list xr) (fuel : nat) (entropy : nat -> E)
    (a : args xr) (c : call) (kept : list (obs R)) (s : pfield xr) (logs : list (run_log xr)) : Prop :=
  exists w x y sp u runs,
    nth_error (k_wells c) (Z.to_nat (k_target c)) = Some w /\ sx w = Fin x /\ sy w = Fin y /\ k_spacing c = Fin sp /\ k_umbra c = Fin u /\
    length logs = Z.to_nat (k_n c) /\ length runs = Z.to_nat (k_n c) /\
    (forall i lg m tracks, nth_error logs i = Some lg -> nth_error runs i = Some (m, tracks) ->
       has_parameters within a c w m /\
       (exists ev C A, best_fit m kept ev /\ matrix6 C A /\ inverse6 (normal_matrix m (xo m) (yo m) kept) A /\
          mvn (entropy i) (coef_list (fcoef ev)) C = coef_list (fcoef (coef m))) /\
       logs_model lg (fmodel m) /\ l_recharge lg = Fin (2 * (cA (coef m) + cB (coef m))) /\
       exists f, upstream (k_confined c) m f /\ tracks_of fuel c w f tracks) /\
    recorded s x y sp u (map snd runs).
