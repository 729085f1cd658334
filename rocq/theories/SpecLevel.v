(** * The potential, the head and the velocity of an unconfined aquifer in binary64 (C126-C128) *)
From Coq Require Import Reals List ZArith SpecFloat.
From Verif Require Import Py Num ModelAquifer SpecFloats SpecAquifer SpecTrace SpecRough SpecDischarge.
Import ListNotations.
Local Open Scope R_scope.

(** The logarithm of the library is accurate to [eps] for numbers that squared distances can be. *)
Definition log_within (lm : libm) (eps : R) : Prop :=
  forall x, ffinite x -> / 2 ^ 401 <= fval x <= 2 ^ 404 -> ffinite (lm_log lm x) /\ Rabs (fval (lm_log lm x) - ln (fval x)) <= eps * (1 + Rabs (ln (fval x))).

(** The sum of the absolute values of the parts of the potential. *)
Definition load_p (m : model R) (x y : R) : R :=
  Rabs (cA (coef m)) * ((x - xo m) * (x - xo m)) + Rabs (cB (coef m)) * ((y - yo m) * (y - yo m)) + Rabs (cC (coef m)) * Rabs (x - xo m) * Rabs (y - yo m) +
  Rabs (cD (coef m)) * Rabs (x - xo m) + Rabs (cE (coef m)) * Rabs (y - yo m) + Rabs (cF (coef m)) +
  Rsum (fun w => Rabs (wq w) * (1 + Rabs (ln (wdist2 w x y))) / 12) (wells m).

(** A positive number that is neither too small nor too large. *)
Definition sized (x : spec_float) : Prop := moderate x /\ / huge <= fval x.

(** A bound on the error of the potential. *)
Definition level_error (eps : R) (m : model R) (x y : R) : R := ((INR (length (wells m)) + 13) / 2 ^ 52 + 2 * eps) * (load_p m x y + 2 * tiny).
(** The potential is positive, in the range of binary64, and a hundred times as large as its error. *)
Definition firm (eps : R) (m : model R) (x y : R) : Prop :=
  / (huge * huge) <= potential m x y <= huge * huge /\ 100 * level_error eps m x y <= potential m x y.

(** The depth of the water in the aquifer, and a bound on its relative error. *)
Definition water_depth (m : model R) (x y : R) : R := Rmin (head_at (conductivity m) (thickness m) (potential m x y)) (thickness m).
Definition depth_error (eps : R) (m : model R) (x y : R) : R :=
  3 * level_error eps m x y / (conductivity m * (water_depth m x y * water_depth m x y)) + / 2 ^ 47.

(** A bound on the sum of the parts of the potential within [rho] of points whose coordinates are [X] at most and which are no nearer than [2 rho] to a well. *)
Definition burden_p (m : model R) (X rho : R) : R :=
  let K := X + rho + Rabs (xo m) + Rabs (yo m) in
  (Rabs (cA (coef m)) + Rabs (cB (coef m)) + Rabs (cC (coef m))) * (K * K) + (Rabs (cD (coef m)) + Rabs (cE (coef m))) * K + Rabs (cF (coef m)) +
  Rsum (fun w => Rabs (wq w) * (1 + 2 * (Rabs (ln rho) + Rabs (ln (2 * (X + rho) + Rabs (wx w) + Rabs (wy w))))) / 12) (wells m).

(** The error of the potential there, and that of the velocity where the water is at least [s] deep. *)
Definition level_bound (eps : R) (m : model R) (X rho : R) : R := ((INR (length (wells m)) + 13) / 2 ^ 52 + 2 * eps) * (burden_p m X rho + 2 * tiny).
Definition current_error (eps : R) (m : model R) (X rho s : R) : R :=
  2 * ((INR (length (wells m)) + 12) / 2 ^ 51 + 2 * (3 * level_bound eps m X rho / (conductivity m * (s * s)) + / 2 ^ 47)) * ((burden m X rho + tiny) / (s * porosity m)).
(** The potential of a water [s] deep is in the range of binary64 and a hundred times as large as its error. *)
Definition sound (eps : R) (m : model R) (X rho s : R) : Prop :=
  / (huge * huge) <= conductivity m * (s * s) / 2 /\ burden_p m X rho <= huge * huge /\ 100 * level_bound eps m X rho <= conductivity m * (s * s) / 2.
