(** * The discharge and the velocity in binary64 (C123) *)
From Coq Require Import Reals List ZArith SpecFloat.
From Verif Require Import Py Num ModelAquifer SpecFloats SpecAquifer SpecTrace SpecRough.
Import ListNotations.
Local Open Scope R_scope.

(** The model with the values of its numbers. *)
Definition real_well (w : well spec_float) : well R := {| wx := fval (wx w); wy := fval (wy w); wr := fval (wr w); wq := fval (wq w) |}.
Definition real_coef (c : coef6 spec_float) : coef6 R :=
  {| cA := fval (cA c); cB := fval (cB c); cC := fval (cC c); cD := fval (cD c); cE := fval (cE c); cF := fval (cF c) |}.
Definition real_model (m : model spec_float) : model R :=
  {| base := fval (base m); conductivity := fval (conductivity m); porosity := fval (porosity m); thickness := fval (thickness m);
     wells := map real_well (wells m); xo := fval (xo m); yo := fval (yo m); coef := real_coef (coef m) |}.

(** A finite number of at most 2^200. *)
Definition moderate (x : spec_float) : Prop := ffinite x /\ Rabs (fval x) <= huge.
(** The origin, the coefficients of the regional flow and the wells of [m] are such numbers, thickness and porosity at least 2^-200. *)
Definition moderate_model (m : model spec_float) : Prop :=
  moderate (xo m) /\ moderate (yo m) /\ (forall c, In c (coef_list (coef m)) -> moderate c) /\
  (forall w, In w (wells m) -> moderate (wx w) /\ moderate (wy w) /\ moderate (wq w)) /\
  moderate (thickness m) /\ moderate (porosity m) /\ / huge <= fval (thickness m) /\ / huge <= fval (porosity m).
(** No well is closer than 2^-200 to [q]. *)
Definition clear_of_wells (m : model R) (q : pt) : Prop := forall w, In w (wells m) -> / huge <= pdist q (wx w, wy w).

(** The sum of the absolute values of the parts of the discharge (a well adds at most one sixth of its rate over the distance). *)
Definition load_x (m : model R) (x y : R) : R :=
  2 * Rabs (cA (coef m)) * Rabs (x - xo m) + Rabs (cC (coef m)) * Rabs (y - yo m) + Rabs (cD (coef m)) +
  Rsum (fun w => Rabs (wq w) * Rabs (x - wx w) / (6 * wdist2 w x y)) (wells m).
Definition load_y (m : model R) (x y : R) : R :=
  2 * Rabs (cB (coef m)) * Rabs (y - yo m) + Rabs (cC (coef m)) * Rabs (x - xo m) + Rabs (cE (coef m)) +
  Rsum (fun w => Rabs (wq w) * Rabs (y - wy w) / (6 * wdist2 w x y)) (wells m).

(** What underflow may add. *)
Definition tiny : R := / 2 ^ 600.

(** A bound on both loads within [rho] of points whose coordinates are [X] at most and which are no nearer than [2 rho] to a well. *)
Definition burden (m : model R) (X rho : R) : R :=
  2 * (Rabs (cA (coef m)) + Rabs (cB (coef m)) + Rabs (cC (coef m))) * (X + rho + Rabs (xo m) + Rabs (yo m)) + Rabs (cD (coef m)) + Rabs (cE (coef m)) +
  Rsum (fun w => Rabs (wq w)) (wells m) / (6 * rho).
