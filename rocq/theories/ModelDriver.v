(** * Model of /repo/oneka/stochastic.py:76-270 and /repo/oneka/deterministic.py *)
From Verif Require Import Py Num ModelField ModelAquifer ModelTrace ModelDist.
Local Open Scope num_scope.

Section Driver.
  Context {T : Type} {N : Num T}.

  (** A stochastic well (xw, yw, rw, q_dist): stochastic.py:124-139. *)
  Record swell := { sx : T; sy : T; sr : T; sq : pyval T }.

  (** stochastic.py:253-260 and deterministic.py:221-228: the backtracing velocity. *)
  Definition feval (confined : bool) (m : model T) (xy : vec T) : res (vec T) :=
    if confined then
      let (vx, vy) := compute_velocity_confined m (fst xy) (snd xy) in
      Ok (- vx, - vy)
    else
      let! (vx, vy) := compute_velocity m (fst xy) (snd xy) in
      Ok (- vx, - vy).

  (** What a driver writes to the log about one realization: stochastic.py:244-250,
      deterministic.py:204-218. *)
  Record run_log := {
    l_conductivity : T; l_porosity : T; l_thickness : T; l_recharge : T; l_coef : coef6 T
  }.

  (** stochastic.py:244 *)
  Definition recharge_stochastic (c : coef6 T) : T := nZ 2 * (cA c + cB c).
  (** deterministic.py:208 *)
  Definition recharge_deterministic (c : coef6 T) : T := nZ (-2) * (cA c + cB c).

  (** The wells of the model of one realization, with numeric discharges.  A discharge
      that is not a number (a list passes validation, see C58) is modelled as TypeError. *)
  Fixpoint make_wells (ws : list swell) (qs : list (pyval T)) : res (list (well T)) :=
    match ws, qs with
    | w :: ws', q :: qs' =>
        let! x := as_num q in
        let! r := make_wells ws' qs' in
        Ok ({| wx := sx w; wy := sy w; wr := sr w; wq := x |} :: r)
    | _, _ => Ok []
    end.

  (** Everything after sampling, shared by both drivers: build the model, fit it, choose the
      coefficients by [pick] from the fit, log, trace and register.
      stochastic.py:235-265, deterministic.py:193-233.
      A porosity that is not a number raises TypeError when it is formatted for the log
      (stochastic.py:245, deterministic.py:206), i.e. after the fit. *)
  Definition realization (fuel : nat) (la : linalg T) (s : pfield T)
             (xt yt rt : T) (npaths : Z) (duration base : T)
             (kv nv hv : pyval T) (ws : list swell) (qs : list (pyval T)) (observations : list (obs T))
             (umbra : T) (confined : bool) (tol maxstep : T)
             (pick : list T -> list (list T) -> list T) (recharge : coef6 T -> T)
    : pfield T * res run_log :=
    match (let! wells := make_wells ws qs in
           let! k := as_num kv in
           let! h := as_num hv in
           let p0 := match num_of nv with Some p => p | None => nnan end in
           let m0 := new_model base k p0 h wells in
           let (m1, r) := fit_regional_flow la m0 observations xt yt in
           let! (ev, cov) := r in
           let! c := reshape6 (pick ev cov) in
           let! n := as_num nv in
           Ok (set_coef m1 c)) with
    | Ok m =>
        let (s', r) := compute_capturezone fuel xt yt rt npaths duration s umbra (nZ 1) tol maxstep
                                           (feval confined m) in
        (s', let! _ := r in
             Ok {| l_conductivity := conductivity m; l_porosity := porosity m;
                   l_thickness := thickness m; l_recharge := recharge (coef m); l_coef := coef m |})
    | Raise e => (s, Raise e)
    | NoFuel => (s, NoFuel)
    end.

  (** deterministic.py:65-235, [create_deterministic_capturezone(...)] *)
  Definition create_deterministic (fuel : nat) (la : linalg T)
             (target : nat) (npaths : Z) (duration base : T) (c_dist p_dist t_dist : pyval T)
             (ws : list swell) (observations : list (obs T))
             (spacing umbra : T) (confined : bool) (tol maxstep : T) : res (pfield T * run_log) :=
    match nth_error ws target with
    | None => Raise IndexError
    | Some w =>
        let! s0 := pf_init spacing spacing (sx w) (sy w) in
        let! qs := map_res (fun w => compute_variate_mean (sq w)) ws in
        let! k := compute_variate_mean c_dist in
        let! n := compute_variate_mean p_dist in
        let! h := compute_variate_mean t_dist in
        let (s, r) := realization fuel la s0 (sx w) (sy w) (sr w) npaths duration base k n h ws qs
                                  observations umbra confined tol maxstep
                                  (fun ev _ => ev) recharge_deterministic in
        let! l := r in
        Ok (s, l)
    end.

  (** ** The stochastic driver *)
  Context {G E : Type} (R : rng T G).
  (** [np.random.default_rng().multivariate_normal(mean, cov)]: a generator seeded from fresh
      operating-system entropy [e : E] (stochastic.py:241). *)
  Variable mvn : E -> list T -> list (list T) -> list T.

  (** stochastic.py:224-228: sample the discharges in turn. *)
  Fixpoint sample_all (g : G) (l : list (pyval T)) : res (list (pyval T) * G) :=
    match l with
    | [] => Ok ([], g)
    | a :: l' =>
        let! (v, g1) := generate_random_variate R g a in
        let! (vs, g2) := sample_all g1 l' in
        Ok (v :: vs, g2)
    end.

  (** stochastic.py:220-265: the loop over the realizations; [entropy i] is what the
      operating system supplies in realization [i]. *)
  Fixpoint realizations (fuel : nat) (la : linalg T) (count : nat) (entropy : nat -> E) (i : nat) (g : G)
           (s : pfield T) (logs : list run_log)
           (xt yt rt : T) (npaths : Z) (duration base : T) (c_dist p_dist t_dist : pyval T)
           (ws : list swell) (observations : list (obs T))
           (umbra : T) (confined : bool) (tol maxstep : T) : res (pfield T * list run_log) :=
    match count with
    | O => Ok (s, logs)
    | S count' =>
        let! (qs, g1) := sample_all g (map sq ws) in
        let! (k, g2) := generate_random_variate R g1 c_dist in
        let! (n, g3) := generate_random_variate R g2 p_dist in
        let! (h, g4) := generate_random_variate R g3 t_dist in
        let (s', r) := realization fuel la s xt yt rt npaths duration base k n h ws qs
                                   observations umbra confined tol maxstep
                                   (mvn (entropy i)) recharge_stochastic in
        let! l := r in
        realizations fuel la count' entropy (S i) g4 s' (logs ++ [l])
                     xt yt rt npaths duration base c_dist p_dist t_dist ws observations
                     umbra confined tol maxstep
    end.

  (** stochastic.py:76-270, [create_stochastic_capturezone(...)] *)
  Definition create_stochastic (fuel : nat) (la : linalg T) (entropy : nat -> E) (g : G)
             (target : nat) (npaths : Z) (duration : T) (nrealizations : Z) (base : T)
             (c_dist p_dist t_dist : pyval T)
             (ws : list swell) (observations : list (obs T))
             (spacing umbra : T) (confined : bool) (tol maxstep : T) : res (pfield T * list run_log) :=
    match nth_error ws target with
    | None => Raise IndexError
    | Some w =>
        let! s0 := pf_init spacing spacing (sx w) (sy w) in
        realizations fuel la (Z.to_nat nrealizations) entropy 0 g s0 []
                     (sx w) (sy w) (sr w) npaths duration base c_dist p_dist t_dist ws observations
                     umbra confined tol maxstep
    end.
End Driver.
Arguments swell T : clear implicits.
Arguments run_log T : clear implicits.
