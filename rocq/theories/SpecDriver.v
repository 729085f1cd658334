(** * Specification of the drivers *)
From Coq Require Import Reals.
From Verif Require Import Py Num ModelField ModelAquifer ModelTrace ModelDist ModelDriver.

Section SpecDriver.
  Context {T : Type} {N : Num T}.

  (** What one realization does to the field: every track is rasterized, then the capture zone is registered
      with weight 1. *)
  Definition zone_calls (umbra : T) (tracks : list (list (vec T))) : list (op T) :=
    map (fun t => ORasterize (map fst t) (map snd t) umbra) tracks ++ [ORegister (nZ 1)].

  (** A field that recorded [n] realizations, each with weight 1: the total weight is [n], every accumulated
      weight is a whole number from 0 to [n], no mark is pending. *)
  Definition counted (s : pfield T) (n : Z) : Prop :=
    exists g, body s = Some g /\ total_weight g = nZ n /\
      (forall row v, In row (pgrid g) -> In v row -> exists k, (0 <= k <= n)%Z /\ v = nZ k) /\
      (forall row b, In row (rgrid g) -> In b row -> b = false).

  (** Adding ones is exact up to [n]. *)
  Definition counts_exactly (n : Z) : Prop :=
    forall k, (0 <= k < n)%Z -> nadd (nZ k) (nZ 1) = nZ (k + 1).

  (** The tracks are the traces from the start points of [npaths] paths in the model [m]. *)
  Definition traced (fuel : nat) (xt yt rt duration tol maxstep : T) (npaths : Z) (confined : bool) (m : model T)
             (tracks : list (list (vec T))) : Prop :=
    exists thetas, start_angles npaths = Ok thetas /\
      Forall2 (fun th t => exists tr, let (x, y) := start_point xt yt rt th in
                 compute_backtrace fuel x y duration tol maxstep (feval confined m) = Ok tr /\ t = vertices tr)
              thetas tracks.

  (** What the log says about the model [m]. *)
  Definition logs_model (l : run_log T) (m : model T) : Prop :=
    l_conductivity l = conductivity m /\ l_porosity l = porosity m /\ l_thickness l = thickness m /\ l_coef l = coef m.

  (** The wells of [m] are those given, with some discharges. *)
  Definition located (m : model T) (ws : list (swell T)) : Prop :=
    map (fun w => (wx w, wy w, wr w)) (wells m) = map (fun w => (sx w, sy w, sr w)) ws.
End SpecDriver.

(** A generator of regional coefficients that can produce any six numbers. *)
Definition any_outcome {E} (mvn : E -> list xr -> list (list xr) -> list xr) : Prop :=
  forall mean cov (v : list R), length v = 6%nat -> exists e, mvn e mean cov = map Fin v.

Arguments counts_exactly T {N} n.
