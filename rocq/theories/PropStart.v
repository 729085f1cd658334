(** * Start points in binary64: C133

    Written by tools/genprops.py: statements only, each closed by the lemma of the
    same name in ProofStartFloat.v. *)
From Coq Require Import ZArith Reals SpecFloat List.
From Verif Require Import Py Num NumXR ModelField ModelTrace SpecFloats SpecField SpecStart ProofTraceFlow ProofStartFloat.
Import ListNotations.
Local Open Scope R_scope.

(** ** C133 Start points in binary64 *)

(** C133.  The k-th of the [n] start points is within (r + 1) (e + 2^-48) + |x| 2^-53, in each coordinate, of the
    k-th of [n] equally spaced points on the circle of radius r + 1; here [e] bounds the errors of cos and sin. *)
Theorem C133_start : forall (lm : libm) (e : R) (n k : nat) (x y r : spec_float),
  circular lm e -> e <= / 4 -> (k < n)%nat -> (Z.of_nat n <= 2 ^ 53)%Z ->
  ffinite x -> ffinite y -> ffinite r -> Rabs (fval x) <= 2 ^ 500 -> Rabs (fval y) <= 2 ^ 500 -> 0 <= fval r <= 2 ^ 500 ->
  exists angles t, @start_angles _ (SF lm) (Z.of_nat n) = Ok angles /\ length angles = n /\ nth_error angles k = Some t /\
    let z := @start_point _ (SF lm) x y r t in
    let p := ring_point (fval x) (fval y) (fval r) n k in
    ffinite (fst z) /\ ffinite (snd z) /\
    Rabs (fval (fst z) - fst p) <= (fval r + 1) * (e + / 2 ^ 48) + Rabs (fval x) * / 2 ^ 53 /\
    Rabs (fval (snd z) - snd p) <= (fval r + 1) * (e + / 2 ^ 48) + Rabs (fval y) * / 2 ^ 53.
Proof. exact c133_start. Qed.
Print Assumptions C133_start.

(** C133.  Every path starts outside its well, by at least half a meter, for coordinates below 2^50, radii below
    2^30 and an error of cos and sin below 2^-40. *)
Theorem C133_outside : forall (lm : libm) (n : nat) (x y r : spec_float) (angles : list spec_float) (t : spec_float),
  circular lm (/ 2 ^ 40) -> (Z.of_nat n <= 2 ^ 53)%Z ->
  ffinite x -> ffinite y -> ffinite r -> Rabs (fval x) <= 2 ^ 50 -> Rabs (fval y) <= 2 ^ 50 -> 0 <= fval r <= 2 ^ 30 ->
  @start_angles _ (SF lm) (Z.of_nat n) = Ok angles -> In t angles ->
  let z := @start_point _ (SF lm) x y r t in
  (fval r + / 2) ^ 2 <= (fval (fst z) - fval x) ^ 2 + (fval (snd z) - fval y) ^ 2.
Proof. exact c133_outside. Qed.
Print Assumptions C133_outside.

(** C133: the second of four paths around a well of radius 1 at the origin starts within 2^-46 of (0, 2). *)
Example C133_example : circular near_libm (/ 2 ^ 50) /\
  exists angles t, @start_angles _ (SF near_libm) 4 = Ok angles /\ nth_error angles 1 = Some t /\
    let z := @start_point _ (SF near_libm) (f_of_Z 0) (f_of_Z 0) (f_of_Z 1) t in
    Rabs (fval (fst z)) <= / 2 ^ 46 /\ Rabs (fval (snd z) - 2) <= / 2 ^ 46.
Proof. exact c133_example. Qed.
