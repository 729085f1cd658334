(** * Fields in binary64: properties C89-C92

    Written by tools/genprops.py: statements only, each closed by the lemma of the
    same name in ProofFloatGrid.v, ProofFloatDist.v, ProofFloatInsert.v, ProofFloatWeight.v, ProofFloatField.v, ProofFloatCases.v. *)
From Coq Require Import ZArith Reals SpecFloat List.
From Verif Require Import Py Num ModelField ModelPlot ProofFloatGrid ProofFloatDist ProofFloatInsert ProofFloatWeight ProofFloatField ProofFloatCases. From Verif Require Import SpecFloats SpecExact SpecField.
Import ListNotations.
Local Open Scope R_scope.

(** ** C89 Grid size and edges in floating point *)

(** expand commutes with taking values, and the field stays dyadic. *)
Theorem C89_expand : forall lm fuel ex ey s a b c d, dyadic ex ey s ->
  in_range ex (deltax s) a -> in_range ex (deltax s) b -> in_range ey (deltay s) c -> in_range ey (deltay s) d ->
  let r := @expand spec_float (SF lm) fuel s a b c d in
  @expand xr XR fuel (exact_field s) (exact a) (exact b) (exact c) (exact d) = (exact_field (fst r), snd r) /\ dyadic ex ey (fst r).
Proof. exact c89_expand. Qed.
Print Assumptions C89_expand.

(** The size and the edges of the grids after any history of calls are those of exact arithmetic. *)
Theorem C89_history : forall lm fuel ex ey l s, dyadic ex ey s -> Forall (in_range_op ex ey (deltax s) (deltay s)) l ->
  shape (@run_ops xr XR fuel (exact_field s) (map exact_op l)) = shape (exact_field (@run_ops spec_float (SF lm) fuel s l)) /\
  dyadic ex ey (@run_ops spec_float (SF lm) fuel s l).
Proof. exact c89_history. Qed.
Print Assumptions C89_history.

(** The constructor, with a centre and spacings that are whole numbers of units. *)
Theorem C89_constructor : forall lm ex ey k dx dy xo yo, (-1074 <= ex <= 960)%Z -> (-1074 <= ey <= 960)%Z ->
  ffinite dx -> 0 < fval dx -> on_units ex (fval dx) -> ffinite dy -> 0 < fval dy -> on_units ey (fval dy) ->
  in_range ex dx xo -> on_units ex (fval xo) -> in_range ey dy yo -> on_units ey (fval yo) ->
  exists s, @pf_init spec_float (SF lm) dx dy xo yo = Ok s /\ @pf_init xr XR (exact dx) (exact dy) (exact xo) (exact yo) = Ok (exact_field s) /\
    deltax s = dx /\ deltay s = dy /\ dyadic ex ey s /\ wf (exact_field s) /\ sound_grid k s /\ total (exact_field s) 0 /\ forall x y, weight_at (exact_field s) x y 0.
Proof. exact c89_constructor. Qed.
Print Assumptions C89_constructor.

(** A spacing of 2 around a well at (438042.3, 5032118.9): the edges are multiples of 2^-34 and 2^-30; a track, rasterized and registered, leaves 8 rows and 9 columns. *)
Example C89_example : forall lm, exists s, @pf_init spec_float (SF lm) two two wx wy = Ok s /\ dyadic (-34) (-30) s /\ Forall (in_range_op (-34) (-30) two two) story /\
  exists g, body (@run_ops spec_float (SF lm) 100 s story) = Some g /\ (nrows g, ncols g) = (8, 9)%Z.
Proof. exact c89_example. Qed.

(** With spacing 0.1 the theorem fails: the field is sound when built, but after one call of expand the last column is no longer where the first column and the
    spacing put it. *)
Theorem C89_decimal : forall lm, exists s, @pf_init spec_float (SF lm) tenth tenth (f_of_Z 0) (f_of_Z 0) = Ok s /\ wf (exact_field s) /\
  exists s', @expand spec_float (SF lm) 10 s (quarter true) (quarter false) (quarter true) (quarter false) = (s', Ok tt) /\ ~ wf (exact_field s').
Proof. exact c89_decimal. Qed.
Print Assumptions C89_decimal.

(** ** C90 Accuracy of the segment distance in floating point *)

(** The computed distance, for all points below 2^200 and segments of length at least 2^-200. *)
Theorem C90_accuracy : forall lm ax ay bx by_ cx cy,
  (forall v, In v [ax; ay; bx; by_; cx; cy] -> ffinite v /\ Rabs (fval v) <= 2 ^ 200) ->
  let a := (fval ax, fval ay) in let b := (fval bx, fval by_) in let c := (fval cx, fval cy) in
  / 2 ^ 400 <= dist2 a b ->
  let d := @distancesquared spec_float (SF lm) ax ay bx by_ cx cy in
  let tol := / 2 ^ 46 * (dist2 a b + dist2 a c) in
  ffinite d /\ (forall p, on_segment a b p -> fval d <= dist2 p c + tol) /\ (exists p, on_segment a b p /\ dist2 p c <= fval d + tol).
Proof. exact c90_accuracy. Qed.
Print Assumptions C90_accuracy.

(** A segment of length 0 has no distance: NaN, so nothing is marked. *)
Theorem C90_degenerate : forall lm ax ay bx by_ cx cy,
  (forall v, In v [ax; ay; bx; by_; cx; cy] -> ffinite v /\ Rabs (fval v) <= 2 ^ 200) -> fval ax = fval bx -> fval ay = fval by_ ->
  @distancesquared spec_float (SF lm) ax ay bx by_ cx cy = S754_nan.
Proof. exact c90_degenerate. Qed.
Print Assumptions C90_degenerate.

(** (0.1, 0.7) and the segment from (0, 0) to (3, 4): the computed squared distance is smaller than the squared distance to every point of the segment. *)
Example C90_example : forall lm, let z := f_of_Z 0 in let t := f_of_Z 3 in let f := f_of_Z 4 in
  (forall v, In v [z; z; t; f; lit 1 10; lit 7 10] -> ffinite v /\ Rabs (fval v) <= 2 ^ 200) /\
  / 2 ^ 400 <= dist2 (fval z, fval z) (fval t, fval f) /\
  forall p, on_segment (fval z, fval z) (fval t, fval f) p ->
    fval (@distancesquared spec_float (SF lm) z z t f (lit 1 10) (lit 7 10)) < dist2 p (fval (lit 1 10), fval (lit 7 10)).
Proof. exact c90_example. Qed.

(** ** C91 Marked nodes in floating point *)

(** insert marks the nodes that are surely near, and only nodes possibly near. *)
Theorem C91_insert : forall lm ex ey s p q u, dyadic ex ey s -> (ex <= 147)%Z -> (ey <= 147)%Z -> compact ex ey s -> wf (exact_field s) ->
  reach ex (fst p) -> reach ey (snd p) -> reach ex (fst q) -> reach ey (snd q) -> reach ex u -> reach ey u -> 0 <= fval u -> apart (at_ p) (at_ q) ->
  exists s', @insert spec_float (SF lm) s (fst p) (snd p) (fst q) (snd q) u = (s', Ok tt) /\ dyadic ex ey s' /\
    deltax s' = deltax s /\ deltay s' = deltay s /\
    painted (exact_field s) (exact_field s') (fun x y => at_ p <> at_ q /\ surely_near (fval u) (at_ p) (at_ q) (x, y))
                                             (fun x y => at_ p <> at_ q /\ possibly_near (fval u) (at_ p) (at_ q) (x, y)).
Proof. exact c91_insert. Qed.
Print Assumptions C91_insert.

(** rasterize, whatever the track. *)
Theorem C91_rasterize : forall lm fuel ex ey s tr u s', dyadic ex ey s -> (ex <= 147)%Z -> (ey <= 147)%Z -> compact ex ey s' -> wf (exact_field s) ->
  Forall (fun p => in_range ex (deltax s) (fst p) /\ in_range ey (deltay s) (snd p)) tr ->
  (forall p q, consecutive tr p q -> apart (at_ p) (at_ q)) -> reach ex u -> reach ey u -> 0 <= fval u ->
  @rasterize spec_float (SF lm) fuel s (map fst tr) (map snd tr) u = (s', Ok tt) ->
  dyadic ex ey s' /\ wf (exact_field s') /\ initialised (exact_field s') /\
  (forall x y w m, has_node (exact_field s) x y w m -> exists m', has_node (exact_field s') x y w m') /\
  (forall x y w m', has_node (exact_field s') x y w m' ->
     (~ is_node (exact_field s) x y -> w = 0) /\
     (marked (exact_field s) x y -> m' = true) /\
     (m' = true -> marked (exact_field s) x y \/
        exists p q, consecutive tr p q /\ at_ p <> at_ q /\ possibly_near (fval u) (at_ p) (at_ q) (x, y)) /\
     (forall p q, consecutive tr p q -> at_ p <> at_ q -> surely_near (fval u) (at_ p) (at_ q) (x, y) -> m' = true)) /\
  (forall W, total (exact_field s) W -> total (exact_field s') W) /\
  (exists x0 x1 y0 y1, extent (exact_field s') x0 x1 y0 y1 /\
     forall p, In p tr -> x0 < fst (at_ p) < x1 /\ y0 < snd (at_ p) < y1).
Proof. exact c91_rasterize. Qed.
Print Assumptions C91_rasterize.

(** rasterize returns, as long as the field that it reaches is compact. *)
Theorem C91_rasterize_returns : forall lm ex ey s tr u, dyadic ex ey s -> (ex <= 147)%Z -> (ey <= 147)%Z -> wf (exact_field s) -> tr <> [] ->
  Forall (fun p => in_range ex (deltax s) (fst p) /\ in_range ey (deltay s) (snd p)) tr ->
  (forall p q, consecutive tr p q -> apart (at_ p) (at_ q)) -> reach ex u -> reach ey u -> 0 <= fval u ->
  exists n, forall fuel, (n <= fuel)%nat ->
    let r := @rasterize spec_float (SF lm) fuel s (map fst tr) (map snd tr) u in compact ex ey (fst r) -> snd r = Ok tt.
Proof. exact c91_rasterize_returns. Qed.
Print Assumptions C91_rasterize_returns.

(** The hypotheses of the theorem hold for the track of three points and umbra 5; the node at the well is marked, and some node is not. *)
Example C91_example : forall lm, exists s s', @pf_init spec_float (SF lm) two two wx wy = Ok s /\ dyadic (-34) (-30) s /\ wf (exact_field s) /\
  Forall (fun p => in_range (-34) (deltax s) (fst p) /\ in_range (-30) (deltay s) (snd p)) path3 /\
  (forall p q, consecutive path3 p q -> apart (at_ p) (at_ q) /\ at_ p <> at_ q) /\ reach (-34) umbra5 /\ reach (-30) umbra5 /\ fval umbra5 = 5 /\
  @rasterize spec_float (SF lm) 100 s (map fst path3) (map snd path3) umbra5 = (s', Ok tt) /\ compact (-34) (-30) s' /\
  marked (exact_field s') (fval wx) (fval wy) /\ exists x y w, has_node (exact_field s') x y w false.
Proof. exact c91_example. Qed.

(** ** C92 Weights and probabilities in floating point *)

(** register adds exactly, and the grid stays sound. *)
Theorem C92_register : forall lm k s w W, (-1074 <= k <= 960)%Z -> sound_grid k s -> sound_weight k w ->
  total (exact_field s) W -> W + fval w <= powerRZ 2 (53 + k) ->
  let s' := fst (@register spec_float (SF lm) s w) in
  @register xr XR (exact_field s) (Fin (fval w)) = (exact_field s', Ok tt) /\ sound_grid k s'.
Proof. exact c92_register. Qed.
Print Assumptions C92_register.

(** Every location's weight is its credit, and the total is the sum of the registered weights: no rounding. *)
Theorem C92_history : forall lm fuel ex ey k l s x y v W,
  dyadic ex ey s -> wf (exact_field s) -> sound_grid k s -> (-1074 <= k <= 960)%Z ->
  Forall (in_range_op ex ey (deltax s) (deltay s)) l -> Forall (sound_op k) l ->
  weight_at (exact_field s) x y v -> total (exact_field s) W -> W + load l <= powerRZ 2 (53 + k) ->
  let s' := @run_ops spec_float (SF lm) fuel s l in
  exists c, Credit lm fuel x y s l c /\ weight_at (exact_field s') x y (v + c) /\ total (exact_field s') (W + load l) /\
    dyadic ex ey s' /\ wf (exact_field s') /\ sound_grid k s'.
Proof. exact c92_history. Qed.
Print Assumptions C92_history.

(** The credit is determined by the history. *)
Theorem C92_credit_unique : forall lm fuel x y s l c c', Credit lm fuel x y s l c -> Credit lm fuel x y s l c' -> c = c'.
Proof. exact c92_credit_unique. Qed.
Print Assumptions C92_credit_unique.

(** The probabilities drawn by the probability plot: each is the quotient of the node's weight and the total, within a relative 2^-53; it lies between 0 and 1, is 0
    exactly for weight 0, and 1 for a node in every capture zone. *)
Theorem C92_probability : forall lm k s X Y P, sound_grid k s -> @create_probability_plot spec_float (SF lm) s = Ok (X, Y, P) ->
  exists g, body s = Some g /\ 0 < fval (total_weight g) /\
  forall i j p, get2 P i j = Some p -> exists v, get2 (pgrid g) i j = Some v /\
    let q := fval v / fval (total_weight g) in
    ffinite p /\ 0 <= fval p <= 1 /\ (fval p = 0 <-> fval v = 0) /\ (fval v = fval (total_weight g) -> fval p = 1) /\ Rabs (fval p - q) <= / 2 ^ 53 * q.
Proof. exact c92_probability. Qed.
Print Assumptions C92_probability.

(** A whole history on a fresh field: weights, total and probabilities. *)
Theorem C92_from_constructor : forall lm fuel ex ey k dx dy xo yo l x y, (-1074 <= ex <= 960)%Z -> (-1074 <= ey <= 960)%Z -> (-1074 <= k <= 960)%Z ->
  ffinite dx -> 0 < fval dx -> on_units ex (fval dx) -> ffinite dy -> 0 < fval dy -> on_units ey (fval dy) ->
  in_range ex dx xo -> on_units ex (fval xo) -> in_range ey dy yo -> on_units ey (fval yo) ->
  Forall (in_range_op ex ey dx dy) l -> Forall (sound_op k) l -> load l <= powerRZ 2 (53 + k) ->
  exists s c, @pf_init spec_float (SF lm) dx dy xo yo = Ok s /\ Credit lm fuel x y s l c /\
    let s' := @run_ops spec_float (SF lm) fuel s l in
    weight_at (exact_field s') x y c /\ total (exact_field s') (load l) /\ 0 <= c <= load l /\ sound_grid k s'.
Proof. exact c92_from_constructor. Qed.
Print Assumptions C92_from_constructor.

(** Registering weight 1 after the track: the node at the well has credit 1, hence weight 1 of a total of 1. *)
Example C92_example : forall lm, exists s, @pf_init spec_float (SF lm) two two wx wy = Ok s /\ Forall (in_range_op (-34) (-30) two two) story /\ Forall (sound_op 0) story /\
  load story = 1 /\ load story <= powerRZ 2 (53 + 0) /\ Credit lm 100 (fval wx) (fval wy) s story 1 /\
  weight_at (exact_field (@run_ops spec_float (SF lm) 100 s story)) (fval wx) (fval wy) 1 /\ total (exact_field (@run_ops spec_float (SF lm) 100 s story)) 1.
Proof. exact c92_example. Qed.
