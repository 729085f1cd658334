(** * Model of /repo/oneka/capturezone.py *)
From Verif Require Import Py Num ModelField.
Local Open Scope num_scope.

Section Trace.
  Context {T : Type} {N : Num T}.

  (** numpy vectors of length 2. *)
  Definition vec : Type := (T * T)%type.
  Definition vadd (a b : vec) : vec := (fst a + fst b, snd a + snd b).
  Definition vsub (a b : vec) : vec := (fst a - fst b, snd a - snd b).
  Definition vscale (c : T) (a : vec) : vec := (c * fst a, c * snd a).

  (** [np.linalg.norm(v, np.inf)] and [np.linalg.norm(v)] *)
  Definition norm_inf (v : vec) : T := npmax (nabs (fst v)) (nabs (snd v)).
  Definition norm2 (v : vec) : T := nsqrt (fst v * fst v + snd v * snd v).

  (** capturezone.py:199: np.finfo(float).eps = 2^-52 *)
  Definition eps : T := nlit 1 4503599627370496.

  (** capturezone.py:202-209, the Dormand-Prince constants. *)
  Definition a2_0 : T := nlit 1 5.
  Definition a3_0 : T := nlit 3 40.
  Definition a3_1 : T := nlit 9 40.
  Definition a4_0 : T := nlit 44 45.
  Definition a4_1 : T := nlit (-56) 15.
  Definition a4_2 : T := nlit 32 9.
  Definition a5_0 : T := nlit 19372 6561.
  Definition a5_1 : T := nlit (-25360) 2187.
  Definition a5_2 : T := nlit 64448 6561.
  Definition a5_3 : T := nlit (-212) 729.
  Definition a6_0 : T := nlit 9017 3168.
  Definition a6_1 : T := nlit (-355) 33.
  Definition a6_2 : T := nlit 46732 5247.
  Definition a6_3 : T := nlit 49 176.
  Definition a6_4 : T := nlit (-5103) 18656.
  Definition a7_0 : T := nlit 35 384.
  Definition a7_2 : T := nlit 500 1113.
  Definition a7_3 : T := nlit 125 192.
  Definition a7_4 : T := nlit (-2187) 6784.
  Definition a7_5 : T := nlit 11 84.
  Definition e_0 : T := nlit 71 57600.
  Definition e_1 : T := nlit (-1) 40.
  Definition e_2 : T := nlit (-71) 16695.
  Definition e_3 : T := nlit 71 1920.
  Definition e_4 : T := nlit (-17253) 339200.
  Definition e_5 : T := nlit 22 525.

  (** capturezone.py:226-239: one trial step from [xy] with step [dt] and first slope
      [k1].  Returns the trial point, its slope, the error estimate and the length. *)
  Definition dp_step (feval : vec -> res vec) (xy : vec) (dt : T) (k1 : vec)
    : res (vec * vec * T * T) :=
    let! k2 := feval (vadd xy (vscale dt (vscale a2_0 k1))) in
    let! k3 := feval (vadd xy (vscale dt (vadd (vscale a3_0 k1) (vscale a3_1 k2)))) in
    let! k4 := feval (vadd xy (vscale dt (vadd (vadd (vscale a4_0 k1) (vscale a4_1 k2)) (vscale a4_2 k3)))) in
    let! k5 := feval (vadd xy (vscale dt (vadd (vadd (vadd (vscale a5_0 k1) (vscale a5_1 k2)) (vscale a5_2 k3))
                                               (vscale a5_3 k4)))) in
    let! k6 := feval (vadd xy (vscale dt (vadd (vadd (vadd (vadd (vscale a6_0 k1) (vscale a6_1 k2)) (vscale a6_2 k3))
                                                     (vscale a6_3 k4)) (vscale a6_4 k5)))) in
    let xyt := vadd xy (vscale dt (vadd (vadd (vadd (vadd (vscale a7_0 k1) (vscale a7_2 k3)) (vscale a7_3 k4))
                                              (vscale a7_4 k5)) (vscale a7_5 k6))) in
    let! k7 := feval xyt in
    let est := norm_inf (vscale dt (vadd (vadd (vadd (vadd (vadd (vscale e_0 k1) (vscale e_1 k7)) (vscale e_2 k3))
                                                     (vscale e_3 k4)) (vscale e_4 k5)) (vscale e_5 k6))) in
    let ds := norm2 (vsub xyt xy) in
    Ok (xyt, k7, est, ds).

  (** capturezone.py:247: the new step size. *)
  Definition next_dt (tol maxstep est ds dt : T) : T :=
    nlit 9 10 * pymin (pymin (nroot5 (tol / (est + eps))) (maxstep / (ds + eps))) (nZ 10) * dt.

  (** capturezone.py:221-253: the loop inside try/except/finally.  The result holds the
      vertices, the elapsed time [t], and whether the loop condition ended it ([true])
      or an exception did ([false]; the bare [except] and the [return] in [finally] swallow
      every exception). *)
  Record trace := { vertices : list vec; t_end : T; completed : bool }.

  Fixpoint trace_loop (fuel : nat) (feval : vec -> res vec) (duration tol maxstep : T)
           (t dt : T) (xy k1 : vec) (acc : list vec) : res trace :=
    match fuel with
    | O => NoFuel
    | S f =>
        if nabs t <? nabs duration then
          let dt := if nabs (t + dt) >? nabs duration then duration - t else dt in
          match dp_step feval xy dt k1 with
          | Ok (xyt, k7, est, ds) =>
              let dt' := next_dt tol maxstep est ds dt in
              if (est <? tol) && (ds <? maxstep) then
                trace_loop f feval duration tol maxstep (t + dt) dt' xyt k7 (acc ++ [xyt])
              else
                trace_loop f feval duration tol maxstep t dt' xy k1 acc
          | Raise _ => Ok {| vertices := acc; t_end := t; completed := false |}
          | NoFuel => NoFuel
          end
        else Ok {| vertices := acc; t_end := t; completed := true |}
    end.

  (** capturezone.py:127-253, [compute_backtrace(xs, ys, duration, tol, maxstep, feval)] *)
  Definition compute_backtrace (fuel : nat) (xs ys duration tol maxstep : T)
             (feval : vec -> res vec) : res trace :=
    let t := nZ 0 in
    let dt := nlit 1 10 * nsign duration in
    let xy := (xs, ys) in
    match feval xy with
    | Ok k1 => trace_loop fuel feval duration tol maxstep t dt xy k1 [xy]
    | Raise _ => Ok {| vertices := [xy]; t_end := t; completed := false |}
    | NoFuel => NoFuel
    end.

  (** capturezone.py:113: np.linspace(0, 2*np.pi, npaths+1)[0:-1]; numpy computes
      [start + k * ((stop-start)/(num-1))]. A negative number of samples raises ValueError. *)
  Definition start_angles (npaths : Z) : res (list T) :=
    if (npaths + 1 <? 0)%Z then Raise ValueError
    else Ok (map (fun k => nZ k * (nZ 2 * npi / nZ npaths) + nZ 0) (zrange 0 npaths)).

  (** capturezone.py:114-115, STEPAWAY = 1.0 *)
  Definition start_point (xt yt rt theta : T) : vec :=
    ((rt + nZ 1) * ncos theta + xt, (rt + nZ 1) * nsin theta + yt).

  (** capturezone.py:112-120: the loop over the paths. *)
  Fixpoint trace_paths (fuel : nat) (s : pfield T) (xt yt rt duration umbra tol maxstep : T)
           (feval : vec -> res vec) (thetas : list T) : pfield T * res unit :=
    match thetas with
    | [] => (s, Ok tt)
    | th :: rest =>
        let (xs, ys) := start_point xt yt rt th in
        match compute_backtrace fuel xs ys duration tol maxstep feval with
        | Ok tr =>
            let (s', r) := rasterize fuel s (map fst (vertices tr)) (map snd (vertices tr)) umbra in
            match r with
            | Ok _ => trace_paths fuel s' xt yt rt duration umbra tol maxstep feval rest
            | _ => (s', r)
            end
        | Raise e => (s, Raise e)
        | NoFuel => (s, NoFuel)
        end
    end.

  (** capturezone.py:51-123, [compute_capturezone(...)] *)
  Definition compute_capturezone (fuel : nat) (xt yt rt : T) (npaths : Z) (duration : T)
             (s : pfield T) (umbra weight tol maxstep : T) (feval : vec -> res vec)
    : pfield T * res unit :=
    match start_angles npaths with
    | Ok thetas =>
        let (s', r) := trace_paths fuel s xt yt rt duration umbra tol maxstep feval thetas in
        match r with
        | Ok _ => register s' weight
        | _ => (s', r)
        end
    | Raise e => (s, Raise e)
    | NoFuel => (s, NoFuel)
    end.
End Trace.
Arguments vec T : clear implicits.
Arguments trace T : clear implicits.
