(** * Particle tracing: properties C36-C47

    Written by tools/genprops.py: statements only, each closed by the lemma of the
    same name in ProofTraceLoop.v, ProofTraceTerm.v, ProofTraceOrder.v, ProofTraceFlow.v, ProofTraceField.v, ProofTraceEx.v. *)
From Coq Require Import Reals.
From Verif Require Import Py Num ModelField ModelAquifer ModelTrace ModelDriver SpecAquifer SpecTrace ProofAquiferEx ProofTraceLoop ProofTraceTerm ProofTraceField ProofTraceOrder ProofTraceFlow ProofTraceEx.
Local Open Scope R_scope.

(** ** C36 Backtraces start at the start point and take steps shorter than maxstep *)

(** C36.  For every start point, duration, tolerances (NaN and infinities included) and velocity
    function, the path starts at the start point; any two consecutive vertices are finite points less
    than [maxstep] apart.  (A start point that is itself not finite is the only vertex.) *)
Theorem C36_path : forall (fuel : nat) (xs ys duration tol maxstep : xr) (f : vec xr -> res (vec xr)) (tr : trace xr),
  compute_backtrace fuel xs ys duration tol maxstep f = Ok tr ->
  exists more,
    vertices tr = (xs, ys) :: more /\
    (forall v, In v more -> finite v) /\
    (forall i a b, nth_error (vertices tr) i = Some a -> nth_error (vertices tr) (S i) = Some b ->
       exists p q, a = fvec p /\ b = fvec q /\ below (pdist p q) maxstep).
Proof. exact c36_path. Qed.
Print Assumptions C36_path.

(** The same velocity without the cliff, duration 1/10: one step, ended by the clock. *)
Example C36_path_example : compute_backtrace 2 (Fin 0) (Fin 0) (Fin (1 / 10)) (Fin 1) (Fin 1) cliff
  = Ok {| vertices := [(Fin 0, Fin 0); (Fin (1 / 10), Fin 0)]; t_end := Fin (1 / 10); completed := true |}.
Proof. exact c36_path_example. Qed.

(** ** C37 Backtraces never run past the duration and cover it exactly on completion *)

(** C37.  The vertices have elapsed times: 0 at the start, strictly monotone towards [D], never past
    it, the last one being the elapsed time of the program; and that is exactly [D] when the loop ended
    without exception.  The times are the accumulated sizes of the Runge-Kutta steps between the
    vertices. *)
Theorem C37_elapsed_time : forall (fuel : nat) (p : pt) (D : R) (tol maxstep : xr) (f : vec xr -> res (vec xr)) (tr : trace xr),
  compute_backtrace fuel (Fin (fst p)) (Fin (snd p)) (Fin D) tol maxstep f = Ok tr ->
  exists (l : list pt) (ts : list R),
    vertices tr = map fvec l /\ length ts = length l /\ nth 0 ts 0 = 0 /\ t_end tr = Fin (last ts 0) /\
    (forall i, (S i < length l)%nat ->
       0 < (nth (S i) ts 0 - nth i ts 0) * D /\ Rabs (nth i ts 0) < Rabs (nth (S i) ts 0) <= Rabs D /\
       (good_step f tol maxstep (nth i l (0, 0)) (nth (S i) ts 0 - nth i ts 0) (nth (S i) l (0, 0)) \/
        wild_step f tol maxstep (nth i l (0, 0)) (nth (S i) ts 0 - nth i ts 0) (nth (S i) l (0, 0)))) /\
    (completed tr = true -> last ts 0 = D).
Proof. exact c37_elapsed_time. Qed.
Print Assumptions C37_elapsed_time.

(** C37, infinite durations: such a trace ends only by an exception. *)
Theorem C37_infinite_duration : forall (fuel : nat) (xs ys duration tol maxstep : xr) (f : vec xr -> res (vec xr)) (tr : trace xr),
  duration = PInf \/ duration = NInf ->
  compute_backtrace fuel xs ys duration tol maxstep f = Ok tr -> completed tr = false.
Proof. exact c37_infinite_duration. Qed.
Print Assumptions C37_infinite_duration.

(** C37, C38 on the trace with the cliff: elapsed times 0 and 1/10, one good step of size 1/10. *)
Example C37_times_example : exists h, 0 < h * (1 / 5) /\ good_step cliff (Fin 1) (Fin 1) (0, 0) h (1 / 10, 0).
Proof. exact c37_times_example. Qed.

(** ** C38 Every accepted step meets the error tolerance *)

(** C38.  Each step of the path is a Dormand-Prince step (of some size [h]) whose embedded error
    estimate is below [tol] and whose length is below [maxstep].  This holds for every velocity
    function, with one reservation: a step whose second stage met a velocity that is not finite can be
    accepted too (estimate and length below the bounds all the same). *)
Theorem C38_tolerance : forall (fuel : nat) (p : pt) (D : R) (tol maxstep : xr) (f : vec xr -> res (vec xr)) (tr : trace xr) (i : nat) (a b : pt),
  compute_backtrace fuel (Fin (fst p)) (Fin (snd p)) (Fin D) tol maxstep f = Ok tr ->
  nth_error (vertices tr) i = Some (fvec a) -> nth_error (vertices tr) (S i) = Some (fvec b) ->
  exists h, 0 < h * D /\ (good_step f tol maxstep a h b \/ wild_step f tol maxstep a h b).
Proof. exact c38_tolerance. Qed.
Print Assumptions C38_tolerance.

(** C38 for velocity functions that return finite numbers (or raise): no reservation. *)
Theorem C38_tolerance_finite : forall (fuel : nat) (p : pt) (D : R) (tol maxstep : xr) (f : vec xr -> res (vec xr)) (tr : trace xr) (i : nat) (a b : pt),
  finite_valued f ->
  compute_backtrace fuel (Fin (fst p)) (Fin (snd p)) (Fin D) tol maxstep f = Ok tr ->
  nth_error (vertices tr) i = Some (fvec a) -> nth_error (vertices tr) (S i) = Some (fvec b) ->
  exists h, 0 < h * D /\ good_step f tol maxstep a h b.
Proof. exact c38_tolerance_finite. Qed.
Print Assumptions C38_tolerance_finite.

Example C38_wild_example : compute_backtrace 2 (Fin 0) (Fin 0) (Fin (1 / 10)) (Fin 1) (Fin 1) pinhole
  = Ok {| vertices := [(Fin 0, Fin 0); (Fin (1 / 10), Fin 0)]; t_end := Fin (1 / 10); completed := true |} /\
  pinhole (Fin (1 / 50), Fin 0) = Ok (NaN, NaN).
Proof. exact c38_wild_example. Qed.

(** ** C39 Backtraces terminate for bounded velocity fields *)

(** C39, refuted as stated: with a tolerance or a longest step below (roughly) the machine epsilon,
    even standing water is not traced to the end once the duration is long enough. *)
Theorem C39_tiny_tolerance_refuted : forall tol maxstep : R,
  0 < tol -> 0 < maxstep -> tol < / 2 ^ 52 / (9 / 10) ^ 5 \/ maxstep < / 2 ^ 52 / (9 / 10) ->
  exists D, 0 < D /\ forall (p : pt) (fuel : nat),
    compute_backtrace fuel (Fin (fst p)) (Fin (snd p)) (Fin D) (Fin tol) (Fin maxstep) (fun _ => Ok (Fin 0, Fin 0)) = NoFuel.
Proof. exact c39_tiny_tolerance_refuted. Qed.
Print Assumptions C39_tiny_tolerance_refuted.

(** C39.  What is missing of the stated property: the tolerance and the longest step have to be above
    2^-52 / 0.9^5 and 2^-52 / 0.9 (see the refutation).  Then, for every velocity function bounded by [B]
    that always returns or raises, and every duration, compute_backtrace returns. *)
Theorem C39_terminates_partial : forall (B : R) (p : pt) (D : R) (tol maxstep : xr) (f : vec xr -> res (vec xr)),
  bounded_by B f -> total f -> below (/ 2 ^ 52 / (9 / 10) ^ 5) tol -> below (/ 2 ^ 52 / (9 / 10)) maxstep ->
  exists fuel tr, forall fuel', (fuel <= fuel')%nat ->
    compute_backtrace fuel' (Fin (fst p)) (Fin (snd p)) (Fin D) tol maxstep f = Ok tr.
Proof. exact c39_terminates_partial. Qed.
Print Assumptions C39_terminates_partial.

(** C39: the cliff is bounded by 1 and always returns or raises. *)
Example C39_cliff_example : bounded_by 1 cliff /\ total cliff /\ below (/ 2 ^ 52 / (9 / 10) ^ 5) (Fin 1) /\ below (/ 2 ^ 52 / (9 / 10)) (Fin 1).
Proof. exact c39_cliff_example. Qed.

(** ** C40 Backtraces always return, even for undefined velocities *)

(** C40, refuted: a velocity function that answers NaN everywhere, traced for any duration other than 0,
    keeps compute_backtrace running for ever. *)
Theorem C40_nan_refuted : forall (p : pt) (D : R) (tol maxstep : xr) (fuel : nat),
  D <> 0 ->
  compute_backtrace fuel (Fin (fst p)) (Fin (snd p)) (Fin D) tol maxstep (fun _ => Ok (NaN, NaN)) = NoFuel.
Proof. exact c40_nan_refuted. Qed.
Print Assumptions C40_nan_refuted.

(** C40, refuted with the velocity function of the drivers: an injection well one unit from the start
    point, of such a discharge that the second stage of the first trial step falls on the well.  There
    the velocity is NaN and the trace runs for ever, whatever the tolerances. *)
Theorem C40_well_refuted : exists q, 0 < q /\ forall (tol maxstep : xr) (fuel : nat),
  compute_backtrace fuel (Fin 0) (Fin 0) (Fin 1) tol maxstep (feval true (fmodel (injection q))) = NoFuel.
Proof. exact c40_well_refuted. Qed.
Print Assumptions C40_well_refuted.

(** ** C41 Exceptions never escape a backtrace; the completed part is returned *)

(** C41: no exception escapes. *)
Theorem C41_no_exception : forall (fuel : nat) (xs ys duration tol maxstep : xr) (f : vec xr -> res (vec xr)) (e : exn),
  compute_backtrace fuel xs ys duration tol maxstep f <> Raise e.
Proof. exact c41_no_exception. Qed.
Print Assumptions C41_no_exception.

(** C41: the path is determined by the (finitely many) evaluations that returned a value.  Any velocity
    function [g] with the same values there has a path that continues the path of [f]; and the same
    trace if [f] did not raise. *)
Theorem C41_prefix : forall (fuel : nat) (xs ys duration tol maxstep : xr) (f : vec xr -> res (vec xr)) (tr : trace xr),
  compute_backtrace fuel xs ys duration tol maxstep f = Ok tr ->
  exists evaluated : list (vec xr),
    (forall xy, In xy evaluated -> exists k, f xy = Ok k) /\
    (forall (g : vec xr -> res (vec xr)) (fuel' : nat) (tr' : trace xr),
       (forall xy, In xy evaluated -> g xy = f xy) ->
       compute_backtrace fuel' xs ys duration tol maxstep g = Ok tr' ->
       (exists more, vertices tr' = vertices tr ++ more) /\ (completed tr = true -> tr' = tr)).
Proof. exact c41_prefix. Qed.
Print Assumptions C41_prefix.

(** The step of size 1/10 is accepted, the next one raises: the path so far is returned, the elapsed
    time is 1/10. *)
Example C41_cliff_example : compute_backtrace 2 (Fin 0) (Fin 0) (Fin (1 / 5)) (Fin 1) (Fin 1) cliff
  = Ok {| vertices := [(Fin 0, Fin 0); (Fin (1 / 10), Fin 0)]; t_end := Fin (1 / 10); completed := false |}.
Proof. exact c41_cliff_example. Qed.

(** ** C42 Dormand-Prince constants satisfy all order conditions *)

(** The constants of the program are those of the tableau; the error weights are the difference of the
    two rows of weights. *)
Theorem C42_constants : ([[]; [a2_0]; [a3_0; a3_1]; [a4_0; a4_1; a4_2]; [a5_0; a5_1; a5_2; a5_3]; [a6_0; a6_1; a6_2; a6_3; a6_4];
    [a7_0; Fin 0; a7_2; a7_3; a7_4; a7_5]] : list (list xr)) = map (map Fin) dp_a /\
  ([a7_0; Fin 0; a7_2; a7_3; a7_4; a7_5; Fin 0] : list xr) = map Fin dp_b /\
  ([e_0; Fin 0; e_2; e_3; e_4; e_5; e_1] : list xr) = map (fun bc => Fin (fst bc - snd bc)) (combine dp_b dp_bhat).
Proof. exact c42_constants. Qed.
Print Assumptions C42_constants.

(** C42: the update weights satisfy every order condition up to order 5. *)
Theorem C42_order_five : forall t : tree, (order t <= 5)%nat -> order_condition dp_a dp_b t.
Proof. exact c42_order_five. Qed.
Print Assumptions C42_order_five.

(** C42: the embedded weights satisfy every order condition up to order 4. *)
Theorem C42_order_four_embedded : forall t : tree, (order t <= 4)%nat -> order_condition dp_a dp_bhat t.
Proof. exact c42_order_four_embedded. Qed.
Print Assumptions C42_order_four_embedded.

(** C42: neither is of a higher order (the chains of 6 and 5 nodes fail), so the estimate is a genuine
    comparison of orders 5 and 4. *)
Theorem C42_orders_sharp : ~ order_condition dp_a dp_b (Node [Node [Node [Node [Node [Node []]]]]]) /\
  ~ order_condition dp_a dp_bhat (Node [Node [Node [Node [Node []]]]]).
Proof. exact c42_orders_sharp. Qed.
Print Assumptions C42_orders_sharp.

(** C42: the rows are consistent: with the abscissae 0, 1/5, 3/10, 4/5, 8/9, 1, 1, and both rows of weights
    sum to 1. *)
Theorem C42_rows : map (fold_right Rplus 0) dp_a = [0; 1/5; 3/10; 4/5; 8/9; 1; 1] /\
  fold_right Rplus 0 dp_b = 1 /\ fold_right Rplus 0 dp_bhat = 1.
Proof. exact c42_rows. Qed.
Print Assumptions C42_rows.

(** The bushy and the tall tree of order 5: densities 5 and 120. *)
Example C42_trees_example : order (Node [Node []; Node []; Node []; Node []]) = 5%nat /\ density (Node [Node []; Node []; Node []; Node []]) = 5%nat /\
  density (Node [Node [Node [Node [Node []]]]]) = 120%nat /\
  dot dp_b (map (fun c => c ^ 4) [0; 1/5; 3/10; 4/5; 8/9; 1; 1]) = 1 / 5.
Proof. exact c42_trees_example. Qed.

(** ** C43 Uniform flow is traced exactly *)

(** The error estimate of a step in a uniform field is 0, and the step is exact. *)
Theorem C43_estimate_zero : forall (v p : pt) (h : R),
  dp_step (fun _ => Ok (fvec v)) (fvec p) (Fin h) (fvec v)
  = Ok (fvec (padd p (pscale h v)), fvec v, Fin 0, Fin (pdist p (padd p (pscale h v)))).
Proof. exact c43_estimate_zero. Qed.
Print Assumptions C43_estimate_zero.

(** C43.  In a uniform field a trace that returns ran to the end; its vertices are the points reached
    at times strictly monotone from 0 to the duration, and the last vertex is [p + D v]. *)
Theorem C43_uniform : forall (fuel : nat) (p v : pt) (D : R) (tol maxstep : xr) (tr : trace xr),
  compute_backtrace fuel (Fin (fst p)) (Fin (snd p)) (Fin D) tol maxstep (fun _ => Ok (fvec v)) = Ok tr ->
  completed tr = true /\
  exists ts, vertices tr = map (fun t => fvec (padd p (pscale t v))) ts /\
    nth 0 ts 0 = 0 /\ last ts 0 = D /\
    (forall i, (S i < length ts)%nat -> 0 < (nth (S i) ts 0 - nth i ts 0) * D) /\
    last (vertices tr) (NaN, NaN) = fvec (padd p (pscale D v)).
Proof. exact c43_uniform. Qed.
Print Assumptions C43_uniform.

(** C43: and it does return, for tolerances that are not tiny. *)
Theorem C43_returns : forall (p v : pt) (D : R) (tol maxstep : xr),
  below (/ 2 ^ 52 / (9 / 10) ^ 5) tol -> below (/ 2 ^ 52 / (9 / 10)) maxstep ->
  exists fuel tr, forall fuel', (fuel <= fuel')%nat ->
    compute_backtrace fuel' (Fin (fst p)) (Fin (snd p)) (Fin D) tol maxstep (fun _ => Ok (fvec v)) = Ok tr.
Proof. exact c43_returns. Qed.
Print Assumptions C43_returns.

(** C43: uniform flow (1, 0). *)
Example C43_uniform_example : compute_backtrace 2 (Fin 0) (Fin 0) (Fin (1 / 10)) (Fin 1) (Fin 1) (fun _ => Ok (fvec (1, 0)))
  = Ok {| vertices := [(Fin 0, Fin 0); (Fin (1 / 10), Fin 0)]; t_end := Fin (1 / 10); completed := true |}.
Proof. exact c43_uniform_example. Qed.

(** ** C44 One step in an affine field is the fifth-order Taylor expansion *)

(** The derivatives of the flow are what [flow_derivative] says: for a solution curve (X, Y). *)
Theorem C44_derivatives : forall (A : affine) (X Y : R -> R),
  (forall t, derivable_pt_lim X t (fst (flow A (X t, Y t)))) -> (forall t, derivable_pt_lim Y t (snd (flow A (X t, Y t)))) ->
  forall (n : nat) (t : R),
    derivable_pt_lim (fun s => fst (flow_derivative A n (X s, Y s))) t (fst (flow_derivative A (S n) (X t, Y t))) /\
    derivable_pt_lim (fun s => snd (flow_derivative A n (X s, Y s))) t (snd (flow_derivative A (S n) (X t, Y t))).
Proof. exact c44_derivatives. Qed.
Print Assumptions C44_derivatives.

(** C44.  In an affine field a step of size [h] is the Taylor polynomial of degree 5 of the flow plus
    [h^6/600] times the sixth derivative. *)
Theorem C44_affine_step : forall (A : affine) (f : vec xr -> res (vec xr)),
  (forall q : pt, f (fvec q) = Ok (fvec (flow A q))) ->
  forall (p : pt) (h : R), exists k7 est ds,
    dp_step f (fvec p) (Fin h) (fvec (flow A p))
    = Ok (fvec (padd p (lincomb [h; h ^ 2 / 2; h ^ 3 / 6; h ^ 4 / 24; h ^ 5 / 120; h ^ 6 / 600]
                          (map (fun n => flow_derivative A n p) [0; 1; 2; 3; 4; 5]%nat))), k7, est, ds).
Proof. exact c44_affine_step. Qed.
Print Assumptions C44_affine_step.

(** C44: the backtracing velocity of the drivers in confined mode is such a field when there are no wells. *)
Theorem C44_confined_affine : forall m : model R,
  physical m -> wells m = [] ->
  let s := porosity m * thickness m in
  let c := coef m in
  let A := {| axx := 2 * cA c / s; axy := cC c / s; ayx := cC c / s; ayy := 2 * cB c / s;
              bx := (cD c - 2 * cA c * xo m - cC c * yo m) / s; by_ := (cE c - 2 * cB c * yo m - cC c * xo m) / s |} in
  forall q : pt, feval true (fmodel m) (fvec q) = Ok (fvec (flow A q)).
Proof. exact c44_confined_affine. Qed.
Print Assumptions C44_confined_affine.

(** C44: rotation by 1 radian per unit time, from (1, 0), step 1/10. *)
Example C44_rotation_example : let A := {| axx := 0; axy := -1; ayx := 1; ayy := 0; bx := 0; by_ := 0 |} in
  (forall n, flow_derivative A n (1, 0) = nth n [(0, 1); (-1, 0); (0, -1); (1, 0); (0, 1); (-1, 0)] (flow_derivative A n (1, 0))) /\
  forall f, (forall q : pt, f (fvec q) = Ok (fvec (flow A q))) -> exists k7 est ds,
    dp_step f (fvec (1, 0)) (Fin (1 / 10)) (fvec (0, 1))
    = Ok (fvec (1 - 1 / 200 + 1 / 240000 - 1 / 600000000, 1 / 10 - 1 / 6000 + 1 / 12000000), k7, est, ds).
Proof. exact c44_rotation_example. Qed.

(** ** C45 Negative duration traces the reversed field *)

(** C45.  Tracing [f] for the duration [-T] is tracing the negated velocity function for [T]: the same
    vertices, the same way of ending, the opposite elapsed time (whatever the velocity function). *)
Theorem C45_reversal : forall (fuel : nat) (xs ys T tol maxstep : xr) (f : vec xr -> res (vec xr)),
  let opposite := fun xy => let! k := f xy in Ok (xopp (fst k), xopp (snd k)) in
  compute_backtrace fuel xs ys (xopp T) tol maxstep f
  = (let! tr := compute_backtrace fuel xs ys T tol maxstep opposite in
     Ok {| vertices := vertices tr; t_end := xopp (t_end tr); completed := completed tr |}).
Proof. exact c45_reversal. Qed.
Print Assumptions C45_reversal.

(** C45: the cliff traced backwards. *)
Example C45_reversal_example : compute_backtrace 2 (Fin 0) (Fin 0) (Fin (- (1 / 10))) (Fin 1) (Fin 1) (fun xy => let! k := cliff xy in Ok (xopp (fst k), xopp (snd k)))
  = Ok {| vertices := [(Fin 0, Fin 0); (Fin (1 / 10), Fin 0)]; t_end := Fin (- (1 / 10)); completed := true |}.
Proof. exact c45_reversal_example. Qed.

(** ** C46 Start points are npaths distinct, evenly spaced points on the circle of radius r+1 *)

(** C46.  compute_capturezone traces exactly [n] paths, the k-th from the k-th start point; it rasterizes
    the traces in that order on the field and then registers them. *)
Theorem C46_paths : forall (fuel : nat) (x y r : R) (n : nat) (duration umbra weight tol maxstep : xr)
    (s : pfield xr) (f : vec xr -> res (vec xr)) (traces : list (trace xr)),
  (0 < n)%nat ->
  Forall2 (fun k tr => compute_backtrace fuel (Fin (fst (ring_point x y r n k))) (Fin (snd (ring_point x y r n k))) duration tol maxstep f = Ok tr)
    (seq 0 n) traces ->
  compute_capturezone fuel (Fin x) (Fin y) (Fin r) (Z.of_nat n) duration s umbra weight tol maxstep f
  = calls fuel s (map (fun tr => ORasterize (map fst (vertices tr)) (map snd (vertices tr)) umbra) traces ++ [ORegister weight]).
Proof. exact c46_paths. Qed.
Print Assumptions C46_paths.

(** C46: the start points lie on the circle of radius [r + 1]. *)
Theorem C46_on_circle : forall (x y r : R) (n k : nat), 0 <= r + 1 ->
  pdist (x, y) (ring_point x y r n k) = r + 1.
Proof. exact c46_on_circle. Qed.
Print Assumptions C46_on_circle.

Theorem C46_distinct : forall (x y r : R) (n i j : nat), r + 1 <> 0 -> (i < n)%nat -> (j < n)%nat ->
  ring_point x y r n i = ring_point x y r n j -> i = j.
Proof. exact c46_distinct. Qed.
Print Assumptions C46_distinct.

(** C46: numbers of paths that are not positive: 0 and -1 trace nothing and register, less raises. *)
Theorem C46_no_paths : forall (fuel : nat) (x y r : xr) (n : Z) (duration umbra weight tol maxstep : xr) (s : pfield xr) (f : vec xr -> res (vec xr)),
  (n <= 0)%Z ->
  compute_capturezone fuel x y r n duration s umbra weight tol maxstep f
  = if (n <? -1)%Z then (s, Raise ValueError) else register s weight.
Proof. exact c46_no_paths. Qed.
Print Assumptions C46_no_paths.

(** C46: four start points around the origin for radius 1. *)
Example C46_ring_example : ring_point 0 0 1 4 0 = (2, 0) /\ ring_point 0 0 1 4 1 = (0, 2) /\ ring_point 0 0 1 4 2 = (-2, 0).
Proof. exact c46_ring_example. Qed.

(** ** C47 Backtracing climbs the potential *)

(** C47, confined mode.  Off the wells the backtracing velocity is the gradient of the discharge
    potential divided by porosity times thickness: its inner product with the gradient is never
    negative, and 0 exactly where the gradient vanishes. *)
Theorem C47_climbs_confined : forall (m : model R) (x y : R),
  physical m -> off_wells (wells m) x y ->
  exists ex ey gx gy,
    feval true (fmodel m) (Fin x, Fin y) = Ok (Fin ex, Fin ey) /\
    d_dx (potential m) x y gx /\ d_dy (potential m) x y gy /\
    ex * gx + ey * gy = (gx * gx + gy * gy) / (porosity m * thickness m) /\
    0 <= ex * gx + ey * gy /\ (ex * gx + ey * gy = 0 <-> gx = 0 /\ gy = 0).
Proof. exact c47_climbs_confined. Qed.
Print Assumptions C47_climbs_confined.

(** C47, general mode: where the potential is not positive the velocity function raises, otherwise the
    backtracing velocity is the gradient divided by porosity times saturated thickness. *)
Theorem C47_climbs_general : forall (m : model R) (x y : R),
  physical m -> off_wells (wells m) x y ->
  (potential m x y <= 0 /\ feval false (fmodel m) (Fin x, Fin y) = Raise AquiferError) \/
  (0 < potential m x y /\ exists ex ey gx gy b,
    feval false (fmodel m) (Fin x, Fin y) = Ok (Fin ex, Fin ey) /\
    d_dx (potential m) x y gx /\ d_dy (potential m) x y gy /\
    0 < b <= thickness m /\ girinskii (conductivity m) (thickness m) b <= potential m x y /\
    ex * gx + ey * gy = (gx * gx + gy * gy) / (porosity m * b) /\
    0 <= ex * gx + ey * gy /\ (ex * gx + ey * gy = 0 <-> gx = 0 /\ gy = 0)).
Proof. exact c47_climbs_general. Qed.
Print Assumptions C47_climbs_general.

(** C47: a model with a well, at (1, 0). *)
Example C47_climb_example : physical (m0 1) /\ off_wells (wells (m0 1)) 1 0 /\ 0 < potential (m0 1) 1 0.
Proof. exact c47_climb_example. Qed.
