(** * Drawing: properties C84-C88

    Written by tools/genprops.py: statements only, each closed by the lemma of the
    same name in ProofDraw.v, ProofDrawCells.v. *)
From Coq Require Import Reals List ZArith.
From Verif Require Import Py Num Grid ModelField ModelAquifer ModelPlot ModelDraw SpecField SpecAquifer SpecPlot SpecDraw ProofField ProofPlotEx ProofContour ProofDraw ProofDrawCells SpecField.
Local Open Scope R_scope.

(** ** C84 Smoothing keeps the drawn values probabilities *)

(** The drawn values are the weighted means of the probabilities with truncated, normalised Gaussian weights in both
    directions; beyond the grid the probabilities count as 0.  The axes are those of the unsmoothed map. *)
Theorem C84_gaussian_mean : forall (s : pfield xr) (W sigma : R) (r : Z), wf s -> total s W -> 0 < W ->
  / 1000000000000000 < sigma -> cut_off sigma r ->
  exists X Y P Q, create_probability_plot s = Ok (X, Y, P) /\ drawn_probabilities fexp s (Fin sigma) = Ok (X, Y, Q) /\
    rect (Z.of_nat (length Y)) (Z.of_nat (length X)) Q /\
    forall i j, (0 <= i < Z.of_nat (length Y))%Z -> (0 <= j < Z.of_nat (length X))%Z ->
      get2 Q i j = Some (Fin (blurred sigma r (table P) i j)).
Proof. exact c84_gaussian_mean. Qed.
Print Assumptions C84_gaussian_mean.

(** Without smoothing (smooth <= 0, or at most 1e-15) the probabilities themselves are drawn. *)
Theorem C84_unsmoothed : forall (s : pfield xr) (W sigma : R), wf s -> total s W -> 0 < W -> sigma <= / 1000000000000000 ->
  drawn_probabilities fexp s (Fin sigma) = create_probability_plot s.
Proof. exact c84_unsmoothed. Qed.
Print Assumptions C84_unsmoothed.

(** For every field that can be reached from the constructor by operations with non-negative weights, and every finite
    [smooth], the drawn values lie between 0 and 1, and drawing raises nothing. *)
Theorem C84_range : forall (dx dy : R) xo yo s0 fuel l (W sigma : R),
  fin_or_nan xo -> fin_or_nan yo -> pf_init (Fin dx) (Fin dy) xo yo = Ok s0 -> Forall nonneg_weight l ->
  let s := run_ops fuel s0 l in total s W -> 0 < W ->
  exists X Y Q, drawn_probabilities fexp s (Fin sigma) = Ok (X, Y, Q) /\
    rect (Z.of_nat (length Y)) (Z.of_nat (length X)) Q /\
    forall i j v, get2 Q i j = Some v -> exists q, v = Fin q /\ 0 <= q <= 1.
Proof. exact c84_range. Qed.
Print Assumptions C84_range.

(** Smoothing spreads the captured region by exactly the cut-off: a drawn value is positive exactly when a node of
    positive probability is at most [r] rows and [r] columns away. *)
Theorem C84_spread : forall (s : pfield xr) (W sigma : R) (r : Z), wf s -> total s W -> 0 < W ->
  (forall x y w m, has_node s x y w m -> 0 <= w) -> / 1000000000000000 < sigma -> cut_off sigma r ->
  exists X Y P Q, create_probability_plot s = Ok (X, Y, P) /\ drawn_probabilities fexp s (Fin sigma) = Ok (X, Y, Q) /\
    forall i j v, get2 Q i j = Some (Fin v) ->
      (0 < v <-> exists i' j' w, (Z.abs (i' - i) <= r)%Z /\ (Z.abs (j' - j) <= r)%Z /\ get2 P i' j' = Some (Fin w) /\ 0 < w).
Proof. exact c84_spread. Qed.
Print Assumptions C84_spread.

(** The sum of the drawn values (the expected captured area in cells) does not exceed the sum of the probabilities; it
    is the same when every node of positive probability is at least [r] nodes away from the border of the grid. *)
Theorem C84_total : forall (s : pfield xr) (W sigma : R) (r : Z), wf s -> total s W -> 0 < W ->
  (forall x y w m, has_node s x y w m -> 0 <= w) -> / 1000000000000000 < sigma -> cut_off sigma r ->
  exists X Y P Q, create_probability_plot s = Ok (X, Y, P) /\ drawn_probabilities fexp s (Fin sigma) = Ok (X, Y, Q) /\
    let nr := Z.of_nat (length Y) in let nc := Z.of_nat (length X) in
    let sum G := zsum 0 (nr - 1) (fun i => zsum 0 (nc - 1) (table G i)) in
    sum Q <= sum P /\
    ((forall i j w, get2 P i j = Some (Fin w) -> 0 < w -> (r <= i < nr - r)%Z /\ (r <= j < nc - r)%Z) -> sum Q = sum P).
Proof. exact c84_total. Qed.
Print Assumptions C84_total.

(** In that field (probability 1/2 along y = -1, 1 elsewhere), smoothed with standard deviation 1/4 (cut-off 1), the
    value in the middle is a bit less than 1; a border node with probability 1, surrounded by such nodes, loses too. *)
Example C84_example : exists s0 s X Y Q g, pf_init (Fin 1) (Fin 1) (Fin 0) (Fin 0) = Ok s0 /\ run 1 s0 two_paths s /\
  wf s /\ total s 2 /\ cut_off (1/4) 1 /\ 0 < g < 1 /\
  drawn_probabilities fexp s (Fin (1/4)) = Ok (X, Y, Q) /\
  get2 Q 1 1 = Some (Fin (1 - g / 2)) /\ get2 Q 2 1 = Some (Fin (1 - g)).
Proof. exact c84_example. Qed.

(** ** C85 Filled cells are the captured cells *)

(** The cells that are filled are, one for one, the rectangles with the spacings as sides around the nodes of positive
    weight; their number times the area of a rectangle is the area that is returned. *)
Theorem C85_cells : forall (s : pfield xr) (W dx dy : R), wf s -> total s W -> 0 < W -> deltax s = Fin dx -> deltay s = Fin dy ->
  exists nodes : list point, NoDup nodes /\
    (forall x y, In (x, y) nodes <-> exists w m, has_node s x y w m /\ 0 < w) /\
    filled_cells s = Ok (map (fun p => fin_cell (rectangle (fst p) (snd p) dx dy)) nodes) /\
    create_deterministic_plot s = Ok (Fin (INR (length nodes) * (dx * dy))).
Proof. exact c85_cells. Qed.
Print Assumptions C85_cells.

(** The interiors of the cells of different nodes have no common point. *)
Theorem C85_disjoint : forall (s : pfield xr) (dx dy x y x' y' w w' : R) (m m' : bool) (p : point), wf s -> deltax s = Fin dx -> deltay s = Fin dy ->
  has_node s x y w m -> has_node s x' y' w' m' ->
  inside_rectangle x y dx dy p -> inside_rectangle x' y' dx dy p -> (x, y) = (x', y').
Proof. exact c85_disjoint. Qed.
Print Assumptions C85_disjoint.

(** One path along y = 0 on the grid -1, 0, 1: three unit squares are filled, their total area is returned. *)
Example C85_example : exists s0 s, pf_init (Fin 1) (Fin 1) (Fin 0) (Fin 0) = Ok s0 /\ run 1 s0 one_path s /\
  wf s /\ total s 1 /\ (exists cells, filled_cells s = Ok cells /\ length cells = 3%nat /\
    In ([Fin (-1/2); Fin (1/2); Fin (1/2); Fin (-1/2); Fin (-1/2)], [Fin (-1/2); Fin (-1/2); Fin (1/2); Fin (1/2); Fin (-1/2)]) cells) /\
  create_deterministic_plot s = Ok (Fin 3).
Proof. exact c85_example. Qed.

(** ** C86 Potential map *)

(** The map of the potential is drawn for every model and has the potential at each grid location. *)
Theorem C86_map : forall (m : model xr) (x0 x1 y0 y1 : R) (nr nc : Z), (2 <= nr)%Z -> (2 <= nc)%Z ->
  exists grid, contour_potential m (Fin x0) (Fin x1) (Fin y0) (Fin y1) nr nc = Ok grid /\ rect nr nc grid /\
    forall i j, (0 <= i < nr)%Z -> (0 <= j < nc)%Z ->
      get2 grid i j = Some (compute_potential m (Fin (spaced x0 x1 nc j)) (Fin (spaced y0 y1 nr i))).
Proof. exact c86_map. Qed.
Print Assumptions C86_map.

(** In any arithmetic, for any window: the map fails exactly for a negative size (ValueError). *)
Theorem C86_total : forall (T : Type) (N : Num T) (m : model T) (x0 x1 y0 y1 : T) (nr nc : Z),
  ((0 <= nr)%Z /\ (0 <= nc)%Z -> exists grid, contour_potential m x0 x1 y0 y1 nr nc = Ok grid) /\
  ((nr < 0)%Z \/ (nc < 0)%Z -> contour_potential m x0 x1 y0 y1 nr nc = Raise ValueError).
Proof. exact c86_total. Qed.
Print Assumptions C86_total.

(** The potential of the example model is its x-coordinate, also where the aquifer is dry. *)
Example C86_example : exists grid, contour_potential (fmodel slope) (Fin (-1)) (Fin 1) (Fin 0) (Fin 1) 2 3 = Ok grid /\
  dry slope (-1) 0 /\ get2 grid 0 0 = Some (Fin (-1)) /\ get2 grid 1 2 = Some (Fin 1).
Proof. exact c86_example. Qed.

(** ** C87 Impact plot shows the areas in acres *)

(** Each point of the impact plot stands at the whole number of acres (4046.86 square metres) in its area. *)
Theorem C87_whole_acres_partial : forall (pr area : list xr) (k : nat) (p : xr) (a : R), nth_error (impact_points pr area) k = Some (p, Fin a) ->
  exists n, nth_error (impact_drawn pr area) k = Some (p, Fin (IZR n)) /\ IZR n * (404686 / 100) <= a < (IZR n + 1) * (404686 / 100).
Proof. exact c87_whole_acres_partial. Qed.
Print Assumptions C87_whole_acres_partial.

(** All cells of the field together are less than one acre: every point of the plot stands at height 0, which a
    logarithmic axis cannot show. *)
Theorem C87_small_partial : forall (s : pfield xr) (sp W : R) (l : list (point * R)) pr area, wf s -> total s W -> 0 < W -> enumerates s l ->
  INR (length l) * (sp * sp) < 404686 / 100 -> create_impact_plot (Fin sp) s = Ok (pr, area) ->
  forall v h, In (v, h) (impact_drawn pr area) -> h = Fin 0.
Proof. exact c87_small_partial. Qed.
Print Assumptions C87_small_partial.

(** A field with spacing 10 and three probabilities: five points, of 300 to 700 square metres, none of which appears
    on the logarithmic axis. *)
Theorem C87_refuted : exists s0 s pr area, pf_init (Fin 1) (Fin 1) (Fin 0) (Fin 0) = Ok s0 /\ run 1 s0 thin_paths s /\
  wf s /\ total s 2 /\ create_impact_plot (Fin 10) s = Ok (pr, area) /\
  impact_points pr area = [(Fin 1, Fin 300); (Fin (1/2), Fin 400); (Fin (1/2), Fin 500); (Fin (1/2), Fin 600); (Fin 0, Fin 700)] /\
  impact_drawn pr area = [(Fin 1, Fin 0); (Fin (1/2), Fin 0); (Fin (1/2), Fin 0); (Fin (1/2), Fin 0); (Fin 0, Fin 0)].
Proof. exact c87_refuted. Qed.
Print Assumptions C87_refuted.

(** ** C88 Quick capture zone plot *)

(** For a Model and at least one ray the call fails: nothing is drawn. *)
Theorem C88_refuted : forall (T : Type) (N : Num T) (radius xc yc maxstep : T) (nrays nyears : Z), (0 < nrays)%Z ->
  quick_tracks model_backtrack radius xc yc nrays nyears maxstep = Raise AttributeError.
Proof. exact c88_refuted. Qed.
Print Assumptions C88_refuted.

(** With an object that can compute the tracks (times and locations), the piece for a year holds the locations strictly
    inside the year; those at whole years, among them the start, are in no piece. *)
Theorem C88_pieces_partial : forall (nyears : Z) (sol : list (R * (R * R))) (x y : R),
  let pieces := year_pieces nyears (map (fun '(t, (a, b)) => (Fin t, (Fin a, Fin b))) sol) in
  (forall k piece, nth_error pieces k = Some piece ->
     (In (Fin x, Fin y) piece <-> exists t, In (t, (x, y)) sol /\ IZR (Z.of_nat k * 365) < t < IZR ((Z.of_nat k + 1) * 365))) /\
  (length pieces = Z.to_nat nyears).
Proof. exact c88_pieces_partial. Qed.
Print Assumptions C88_pieces_partial.

(** A track with locations at days 0, 100, 365 and 500: two pieces of one location each. *)
Example C88_example : year_pieces 2 [(Fin 0, (Fin 0, Fin 0)); (Fin 100, (Fin 1, Fin 0)); (Fin 365, (Fin 2, Fin 0)); (Fin 500, (Fin 3, Fin 0))]
  = [[(Fin 1, Fin 0)]; [(Fin 3, Fin 0)]].
Proof. exact c88_example. Qed.
