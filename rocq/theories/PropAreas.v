(** * Axes, probabilities and areas of the plots in binary64: C131

    Written by tools/genprops.py: statements only, each closed by the lemma of the
    same name in ProofAreas.v. *)
From Coq Require Import ZArith Reals SpecFloat List Permutation Sorted.
From Verif Require Import Py Num NumXR ModelField ModelPlot SpecFloats SpecExact SpecField SpecPlot ProofFloatField ProofFloatCases ProofAreas.
Import ListNotations.
Local Open Scope R_scope.

(** ** C131 Axes, probabilities and areas of the plots in binary64 *)

(** C131: the axes are the coordinates of the grid lines, without rounding, and the drawn probabilities are correct to
    one part in 2^53. *)
Theorem C131_axes : forall lm ex ey k s W, dyadic ex ey s -> compact ex ey s -> (-1074 <= k <= 960)%Z -> sound_grid k s ->
  wf (exact_field s) -> total (exact_field s) W -> 0 < W ->
  exists X Y P P', @create_probability_plot spec_float (SF lm) s = Ok (X, Y, P) /\
    create_probability_plot (exact_field s) = Ok (map exact X, map exact Y, P') /\
    forall i j q, get2 P' i j = Some (Fin q) ->
      exists p, get2 P i j = Some p /\ ffinite p /\ q * (1 - / 2 ^ 53) <= fval p <= q * (1 + / 2 ^ 53).
Proof. exact c131_axes. Qed.
Print Assumptions C131_axes.

(** C131: the area of a deterministic capture zone: the number of captured nodes times the area of a cell, up to one
    rounding for each; exactly, if the area of a cell has few digits (spacings in whole metres, for example). *)
Theorem C131_area : forall lm ex ey k s W l, dyadic ex ey s -> compact ex ey s -> (-1074 <= k <= 960)%Z -> sound_grid k s ->
  wf (exact_field s) -> total (exact_field s) W -> 0 < W -> (-1022 <= ex + ey)%Z -> enumerates (exact_field s) l ->
  let n := captured l in let c := fval (deltax s) * fval (deltay s) in
  (Z.of_nat n <= 2 ^ 53)%Z -> c <= powerRZ 2 900 -> INR n * c <= powerRZ 2 1000 ->
  exists A, @create_deterministic_plot spec_float (SF lm) s = Ok A /\ ffinite A /\
    (1 - / 2 ^ 53) ^ n * (INR n * c) <= fval A <= (1 + / 2 ^ 53) ^ n * (INR n * c) /\
    (forall e, (-1074 <= e <= 960)%Z -> on_units e c -> on_units e (INR n * c) -> fval A = INR n * c).
Proof. exact c131_area. Qed.
Print Assumptions C131_area.

(** C131: the curve of areas: the same probabilities in the same order, each correct to one part in 2^53, and the areas
    correct to two roundings. *)
Theorem C131_impact : forall lm k s W l sp, (-1074 <= k <= 960)%Z -> sound_grid k s -> wf (exact_field s) -> total (exact_field s) W -> 0 < W ->
  enumerates (exact_field s) l -> (Z.of_nat (length l) <= 2 ^ 53)%Z -> ffinite sp -> powerRZ 2 (-500) <= fval sp <= powerRZ 2 400 ->
  exists pr area qs, @create_impact_plot spec_float (SF lm) sp s = Ok (pr, area) /\
    Permutation qs (map (fun n => snd n / W) l) /\ StronglySorted Rge qs /\
    Forall2 (fun p q => ffinite p /\ q * (1 - / 2 ^ 53) <= fval p <= q * (1 + / 2 ^ 53)) pr qs /\
    StronglySorted (fun p p' => fval p >= fval p') pr /\ length area = length pr /\
    forall i, (i < length pr)%nat -> exists a, nth_error area i = Some a /\ ffinite a /\
      (1 - / 2 ^ 53) ^ 2 * (INR (i + 1) * (fval sp * fval sp)) <= fval a <= (1 + / 2 ^ 53) ^ 2 * (INR (i + 1) * (fval sp * fval sp)).
Proof. exact c131_impact. Qed.
Print Assumptions C131_impact.

(** C131: the points of the curve that are drawn are the same as in exact arithmetic. *)
Theorem C131_points : forall lm k s W l sp sp' pr area pr' area', (-1074 <= k <= 960)%Z -> sound_grid k s -> wf (exact_field s) -> total (exact_field s) W -> 0 < W ->
  enumerates (exact_field s) l -> @create_impact_plot spec_float (SF lm) sp s = Ok (pr, area) -> create_impact_plot (Fin sp') (exact_field s) = Ok (pr', area') ->
  exists i n, @impact_points spec_float (SF lm) pr area = firstn n (skipn i (combine pr area)) /\
    impact_points pr' area' = firstn n (skipn i (combine pr' area')).
Proof. exact c131_points. Qed.
Print Assumptions C131_points.

(** The track of three points on cells of 2 by 2: 50 nodes of 72 are captured, and the area is 200 exactly. *)
Example C131_example : forall lm, exists s l A, s = @run_ops spec_float (SF lm) 100 well0 story /\ dyadic (-34) (-30) s /\ compact (-34) (-30) s /\ sound_grid 0 s /\
  wf (exact_field s) /\ total (exact_field s) 1 /\ enumerates (exact_field s) l /\ captured l = 50%nat /\ length l = 72%nat /\
  fval (deltax s) * fval (deltay s) = 4 /\ @create_deterministic_plot spec_float (SF lm) s = Ok A /\ fval A = 200.
Proof. exact c131_example. Qed.
