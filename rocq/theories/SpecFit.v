(** * Specification of the regional-flow fit

    Least squares, conics and matrix inverses in plain real mathematics, and the contract assumed of
    numpy.linalg. *)
From Coq Require Import Reals List.
From Verif Require Import Py Num ModelAquifer SpecAquifer.
Local Open Scope R_scope.

(** Expected value and standard deviation of the discharge potential where the head (above the
    base) has expected value [h] and standard deviation [s]: to first order the deviation is
    multiplied by the slope of the Girinskii potential, to second order its mean is shifted by half the
    curvature times the variance (theorem [c28_fosm]). *)
Definition obs_ev (m : model R) (o : obs R) : R :=
  let h := oz o - base m in
  if Rlt_dec h (thickness m) then conductivity m * (h * h + os o * os o) / 2
  else conductivity m * thickness m * (h - thickness m / 2).
Definition obs_sd (m : model R) (o : obs R) : R :=
  conductivity m * Rmin (oz o - base m) (thickness m) * os o.

(** Misfit of the model with coefficients [c] about the origin [(x0, y0)]. *)
Definition residual (m : model R) (x0 y0 : R) (c : coef6 R) (o : obs R) : R :=
  (potential (with_coef m x0 y0 c) (ox o) (oy o) - obs_ev m o) / obs_sd m o.
Definition misfit (m : model R) (x0 y0 : R) (l : list (obs R)) (c : coef6 R) : R :=
  Rsum (fun o => residual m x0 y0 c o * residual m x0 y0 c o) l.

(** Observations that can be used: above the base, uncertain, away from the wells. *)
Definition usable (m : model R) (o : obs R) : Prop :=
  base m < oz o /\ 0 < os o /\ off_wells (wells m) (ox o) (oy o).

(** No conic section (no non-zero quadratic polynomial) passes through all the observations. *)
Definition conic_free (l : list (obs R)) : Prop :=
  forall c, (forall o, In o l -> quad c (ox o) (oy o) = 0) -> c = zero_coef.

(** The monomials in the order of the coefficients A..F. *)
Definition monomial (k : nat) (u v : R) : R :=
  match k with 0 => u * u | 1 => v * v | 2 => u * v | 3 => u | 4 => v | _ => 1 end.

(** Normal matrix of the weighted problem. *)
Definition normal_matrix (m : model R) (x0 y0 : R) (l : list (obs R)) (i j : nat) : R :=
  Rsum (fun o => monomial i (ox o - x0) (oy o - y0) * monomial j (ox o - x0) (oy o - y0)
                 / (obs_sd m o * obs_sd m o)) l.

(** 6 x 6 matrices as functions of the indices. *)
Definition sum6 (f : nat -> R) : R := f 0%nat + f 1%nat + f 2%nat + f 3%nat + f 4%nat + f 5%nat.
Definition symmetric6 (A : nat -> nat -> R) : Prop :=
  forall i j, (i < 6)%nat -> (j < 6)%nat -> A i j = A j i.
Definition form6 (A : nat -> nat -> R) (x : nat -> R) : R :=
  sum6 (fun i => sum6 (fun j => x i * A i j * x j)).
Definition inverse6 (A X : nat -> nat -> R) : Prop :=
  forall i j, (i < 6)%nat -> (j < 6)%nat ->
    sum6 (fun k => A i k * X k j) = (if Nat.eqb i j then 1 else 0) /\
    sum6 (fun k => X i k * A k j) = (if Nat.eqb i j then 1 else 0).

(** Lists of lists of numbers of the program, from matrices of real numbers. *)
Definition entry (G : list (list R)) (i j : nat) : R := nth j (nth i G nil) 0.
Definition square6 (G : list (list R)) : Prop := length G = 6%nat /\ forall r, In r G -> length r = 6%nat.
Definition matrix6 (C : list (list xr)) (A : nat -> nat -> R) : Prop :=
  C = map (fun i => map (fun j => Fin (A i j)) (seq 0 6)) (seq 0 6).

Definition dot6 (r c : list R) : R := sum6 (fun i => nth i r 0 * nth i c 0).
Definition rss (rows : list (list R)) (b c : list R) : R :=
  Rsum (fun p => (dot6 (fst p) c - snd p) * (dot6 (fst p) c - snd p)) (combine rows b).

(** What is assumed of numpy.linalg.lstsq (in exact arithmetic, on finite input with six
    columns): it returns a minimiser; it may fail only when the columns are dependent. *)
Definition lstsq_contract (la : linalg xr) : Prop :=
  forall rows b, (forall r, In r rows -> length r = 6%nat) -> length rows = length b ->
  match lstsq la (map (map Fin) rows) (map Fin b) with
  | Ok v => exists c, v = map Fin c /\ length c = 6%nat /\
                      forall d, length d = 6%nat -> rss rows b c <= rss rows b d
  | Raise e => e = LinAlgError /\
               exists d, length d = 6%nat /\ (exists x, In x d /\ x <> 0) /\ forall r, In r rows -> dot6 r d = 0
  | NoFuel => False
  end.

(** What is assumed of numpy.linalg.inv (in exact arithmetic, on a finite symmetric positive
    semidefinite 6 x 6 matrix): it returns the inverse, or raises LinAlgError when there is none. *)
Definition inv_contract (la : linalg xr) : Prop :=
  forall G, square6 G -> symmetric6 (entry G) -> (forall x, 0 <= form6 (entry G) x) ->
  match inv la (map (map Fin) G) with
  | Ok X => exists A, matrix6 X A /\ inverse6 (entry G) A
  | Raise e => e = LinAlgError /\ ~ exists A, inverse6 (entry G) A
  | NoFuel => False
  end.

Definition linalg_contract (la : linalg xr) : Prop := lstsq_contract la /\ inv_contract la.
