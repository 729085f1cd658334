(** * A trace in binary64 and the water (C124) *)
From Coq Require Import Reals List ZArith SpecFloat.
From Verif Require Import Py Num ModelTrace SpecFloats SpecExact SpecTrace SpecPathline SpecPathZone SpecWater.
Import ListNotations.
Local Open Scope R_scope.

(** Bounds that keep the intermediate results of a step in the range of binary64. *)
Definition huge : R := 2 ^ 200.
Definition minute : R := / 2 ^ 700.

(** Two finite coordinates. *)
Definition solid (p : vec spec_float) : Prop := ffinite (fst p) /\ ffinite (snd p).

(** Within [rho] of the points of [l] the binary64 function [F] returns the values of the exact function [f] with errors of at most [d]. *)
Definition faithful (F : vec spec_float -> res (vec spec_float)) (f : vec xr -> res (vec xr)) (d rho : R) (l : list pt) : Prop :=
  forall c p, In c l -> solid p -> pdist c (at_ p) <= rho ->
    exists k u, F p = Ok k /\ solid k /\ f (fvec (at_ p)) = Ok (fvec u) /\ pnorm (psub (at_ k) u) <= d.

(** The rounding of a step of at most [H] with velocities of at most [V] between points whose coordinates are [X] at most. *)
Definition rounding (X H V : R) : R := / 2 ^ 51 * X + / 2 ^ 41 * (H * V).
(** The error of the velocity of a step. *)
Definition wrong (L d Rr : R) : R := 11 * d + 4 * L * Rr.
(** How far [i] steps of at most [H] may lead astray in the time [t], if the velocity of each is wrong by [eta] and its end by [Rr]. *)
Definition astray (V L H eta Rr : R) (i : nat) (t : R) : R := (6 * V * H + 2 * eta / L) * (exp (L * t) - 1) + INR i * Rr * exp (L * t).

(** The exact times of the vertices of a trace with the steps [dts]. *)
Fixpoint clock (t : R) (dts : list spec_float) : list R :=
  match dts with [] => [t] | d :: r => t :: clock (t + fval d) r end.

(** [dts] are the steps of the trace [tr]: each leads from one vertex to the next, and the elapsed time is their binary64 sum. *)
Record reckoned (lm : libm) (F : vec spec_float -> res (vec spec_float)) (tol maxstep : spec_float) (tr : trace spec_float) (dts : list spec_float) : Prop := {
  rk_length : length (vertices tr) = S (length dts);
  rk_end : t_end tr = fold_left (SFadd fprec femax) dts (f_of_Z 0);
  rk_step : forall i, (i < length dts)%nat -> let o := (f_of_Z 0, f_of_Z 0) in let p := nth i (vertices tr) o in let q := nth (S i) (vertices tr) o in
    exists k k' est ds, F p = Ok k /\ F q = Ok k' /\ @dp_step _ (SF lm) F p (nth i dts (f_of_Z 0)) k = Ok (q, k', est, ds) /\ SFltb est tol = true /\ SFltb ds maxstep = true }.
