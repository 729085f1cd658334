(** * Water balance of a circle *)
From Coq Require Import Reals List.
From Verif Require Import Py Num ModelAquifer SpecAquifer.
Local Open Scope R_scope.

(** Discharge into the circle of radius [r] about [(a, b)], and along it, per unit of angle, from the discharge vector the program computes at its points. *)
Definition inward (m : model R) (a b r t : R) : R :=
  - (discharge_x m (a + r * cos t) (b + r * sin t) * cos t + discharge_y m (a + r * cos t) (b + r * sin t) * sin t) * r.
Definition along (m : model R) (a b r t : R) : R :=
  (discharge_y m (a + r * cos t) (b + r * sin t) * cos t - discharge_x m (a + r * cos t) (b + r * sin t) * sin t) * r.

(** No well lies on the circle; the wells inside it. *)
Definition off_circle (ws : list (well R)) (a b r : R) : Prop := forall w, In w ws -> wdist2 w a b <> r * r.
Definition inside (a b r : R) (w : well R) : bool := if Rlt_dec (wdist2 w a b) (r * r) then true else false.

(** [f] is Riemann integrable from [a] to [b] with integral [v]. *)
Definition integral (f : R -> R) (a b v : R) : Prop := exists pr : Riemann_integrable f a b, RiemannInt pr = v.
