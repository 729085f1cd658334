(** * Specification of velocities of linear growth, and of traces clear of the wells *)
From Coq Require Import Reals.
From Verif Require Import Py Num ModelAquifer ModelTrace ModelDriver SpecAquifer SpecTrace.
Local Open Scope R_scope.

(** Where the velocity is returned at a point, it is finite and at most [g] times one plus the size of the
    point (the size being the larger of the two components). *)
Definition grows (g : R) (f : vec xr -> res (vec xr)) : Prop :=
  forall p k, f (fvec p) = Ok k -> exists v, k = fvec v /\ pmax v <= g * (1 + pmax p).

(** The point is at least [d] away from every well and, unless the aquifer is treated as confined, there
    is a head of at least [d]. *)
Definition clear (d : R) (confined : bool) (m : model R) (p : pt) : Prop :=
  (forall w, In w (wells m) -> d * d <= wdist2 w (fst p) (snd p)) /\
  (confined = false -> exists h, compute_head (fmodel m) (Fin (fst p)) (Fin (snd p)) = Ok (Fin h) /\ d <= h).

(** The velocity function of the drivers with an alarm: it raises at every point that is not clear, and
    is otherwise unchanged. *)
Definition alarmed (d : R) (confined : bool) (m : model R) (f : vec xr -> res (vec xr)) : Prop :=
  (forall p, clear d confined m p -> f (fvec p) = feval confined (fmodel m) (fvec p)) /\
  (forall p, ~ clear d confined m p -> f (fvec p) = Raise AquiferError) /\
  (forall xy, ~ finite xy -> f xy = feval confined (fmodel m) xy).
