(** * Plots: properties C68-C72, C78

    Written by tools/genprops.py: statements only, each closed by the lemma of the
    same name in ProofPlot.v, ProofDecile.v, ProofPlotEx.v, ProofContour.v. *)
From Coq Require Import Reals List Permutation Sorted.
From Verif Require Import Py Num ModelField ModelAquifer ModelPlot SpecField SpecAquifer SpecPlot ProofPlot ProofDecile ProofPlotEx ProofContour.
Local Open Scope R_scope.

(** ** C68 The impact curve is the sorted exceedance curve *)

(** C68: the first result lists the probabilities of all nodes in descending order, the second the multiples of
    the cell area; CaptureZoneError exactly when the total weight is not positive. *)
Theorem C68_curve : forall (s : pfield xr) (sp W : R) (l : list (point * R)),
  wf s -> total s W -> enumerates s l ->
  (create_impact_plot (Fin sp) s = Raise CaptureZoneError <-> W <= 0) /\
  (0 < W -> exists pr,
     create_impact_plot (Fin sp) s = Ok (map Fin pr, map (fun k => Fin (INR (k + 1) * (sp * sp))) (seq 0 (length pr))) /\
     Permutation pr (map (fun n => snd n / W) l) /\ StronglySorted Rge pr).
Proof. exact c68_curve. Qed.
Print Assumptions C68_curve.

(** The nodes can be listed, in one way up to order; there are at least nine. *)
Theorem C68_enumeration : forall s : pfield xr, wf s -> initialised s ->
  (exists l, enumerates s l /\ (9 <= length l)%nat) /\
  forall l l', enumerates s l -> enumerates s l' -> Permutation l l'.
Proof. exact c68_enumeration. Qed.
Print Assumptions C68_enumeration.

(** A field without grids: AttributeError from all three plots, in any arithmetic. *)
Theorem C68_uninitialised : forall (T : Type) (N : Num T) (sp : T) (s : pfield T), body s = None ->
  create_impact_plot sp s = Raise AttributeError /\ create_probability_plot s = Raise AttributeError /\
  create_deterministic_plot s = Raise AttributeError.
Proof. exact c68_uninitialised. Qed.
Print Assumptions C68_uninitialised.

(** The curve of the field with two paths: six nodes of probability 1, three of probability 1/2. *)
Example C68_example : exists s0 s, pf_init (Fin 1) (Fin 1) (Fin 0) (Fin 0) = Ok s0 /\ run 1 s0 two_paths s /\
  wf s /\ total s 2 /\ enumerates s (listed weight_two) /\ length (listed weight_two) = 9%nat /\
  create_impact_plot (Fin 10) s = Ok (map Fin [1; 1; 1; 1; 1; 1; 1/2; 1/2; 1/2], map (fun k => Fin (k * (10 * 10))) [1; 2; 3; 4; 5; 6; 7; 8; 9]) /\
  create_impact_plot (Fin 1) s0 = Raise CaptureZoneError.
Proof. exact c68_example. Qed.

(** ** C69 The logged decile table gives the area where the probability exceeds p *)

(** Row [k] of the table, for the threshold p = (k+1)/20: with some probability at most p, the area is one cell too
    large (the node at which the curve has already fallen to p or below is counted) and the first column is the largest
    probability that is at most p; with every probability above p, the row is that of the single most probable node. *)
Theorem C69_exactly_partial : forall (s : pfield xr) (sp W : R) (l : list (point * R)) pr area,
  wf s -> total s W -> 0 < W -> enumerates s l -> create_impact_plot (Fin sp) s = Ok (pr, area) ->
  exists rows, decile_table pr area = Ok rows /\ length rows = 19%nat /\
    forall k, (k < 19)%nat -> let p := INR (k + 1) / 20 in
      exists v c, nth_error rows k = Some (Fin v, Fin (c * (sp * sp)), Fin (c * (sp * sp) / (404686 / 100))) /\
        (exists n, In n l /\ snd n / W = v) /\
        ((exists n, In n l /\ snd n / W <= p) ->
           c = INR (exceeding W p l) + 1 /\ v <= p /\ forall n, In n l -> snd n / W <= p -> snd n / W <= v) /\
        ((forall n, In n l -> p < snd n / W) -> c = 1 /\ forall n, In n l -> snd n / W <= v).
Proof. exact c69_exactly_partial. Qed.
Print Assumptions C69_exactly_partial.

(** The logged area is never the area over which the probability exceeds p. *)
Theorem C69_refuted : forall (s : pfield xr) (sp W : R) (l : list (point * R)) pr area rows,
  wf s -> total s W -> 0 < W -> enumerates s l -> 0 < sp ->
  create_impact_plot (Fin sp) s = Ok (pr, area) -> decile_table pr area = Ok rows ->
  forall k v a acres, nth_error rows k = Some (v, a, acres) ->
    a <> Fin (INR (exceeding W (INR (k + 1) / 20) l) * (sp * sp)).
Proof. exact c69_refuted. Qed.
Print Assumptions C69_refuted.

(** In that field the table gives 7 cells for p = 1/2 (the probability exceeds 1/2 at 6 nodes) and 1 cell for
    p = 5 percent (it exceeds 5 percent at all 9 nodes). *)
Example C69_example : exists s0 s rows, pf_init (Fin 1) (Fin 1) (Fin 0) (Fin 0) = Ok s0 /\ run 1 s0 two_paths s /\
  wf s /\ total s 2 /\ enumerates s (listed weight_two) /\
  (let! (pr, area) := create_impact_plot (Fin 10) s in decile_table pr area) = Ok rows /\
  nth_error rows 9 = Some (Fin (1/2), Fin 700, Fin (700 / (404686 / 100))) /\ exceeding 2 (1/2) (listed weight_two) = 6%nat /\
  nth_error rows 0 = Some (Fin 1, Fin 100, Fin (100 / (404686 / 100))) /\ exceeding 2 (1/20) (listed weight_two) = 9%nat.
Proof. exact c69_example. Qed.

(** ** C70 The deterministic area is the number of captured nodes times the cell area *)

(** C70: the area is the number of nodes of positive weight times the area of a cell. *)
Theorem C70_area : forall (s : pfield xr) (W dx dy : R) (l : list (point * R)),
  wf s -> total s W -> 0 < W -> deltax s = Fin dx -> deltay s = Fin dy -> enumerates s l ->
  create_deterministic_plot s = Ok (Fin (INR (captured l) * (dx * dy))).
Proof. exact c70_area. Qed.
Print Assumptions C70_area.

Example C70_example : exists s0 s, pf_init (Fin 1) (Fin 1) (Fin 0) (Fin 0) = Ok s0 /\ run 1 s0 one_path s /\
  wf s /\ total s 1 /\ enumerates s (listed weight_one) /\ create_deterministic_plot s = Ok (Fin 3).
Proof. exact c70_example. Qed.

(** ** C71 Plotted coordinates are the node coordinates *)

(** The axes are the coordinates of the grid lines of the field; at the crossing of the j-th vertical and the i-th
    horizontal line stands a node whose probability is the plotted value; every node is plotted. *)
Theorem C71_axes : forall (s : pfield xr) (W : R), wf s -> total s W -> 0 < W ->
  exists g dx dy x0 y0 P,
    body s = Some g /\ deltax s = Fin dx /\ deltay s = Fin dy /\ xmin g = Fin x0 /\ ymin g = Fin y0 /\
    create_probability_plot s = Ok (map (fun j => Fin (x0 + IZR j * dx)) (zrange 0 (ncols g)),
                                    map (fun i => Fin (y0 + IZR i * dy)) (zrange 0 (nrows g)), P) /\
    (forall i j, (0 <= i < nrows g)%Z -> (0 <= j < ncols g)%Z ->
       exists w m, has_node s (x0 + IZR j * dx) (y0 + IZR i * dy) w m /\ get2 P i j = Some (Fin (w / W))) /\
    (forall x y w m, has_node s x y w m ->
       exists i j, (0 <= i < nrows g)%Z /\ (0 <= j < ncols g)%Z /\ x = x0 + IZR j * dx /\ y = y0 + IZR i * dy).
Proof. exact c71_axes. Qed.
Print Assumptions C71_axes.

(** The fields that can be reached from the constructor are of this kind. *)
Theorem C71_reachable : forall dx dy xo yo s0 fuel l W,
  fin_or_nan xo -> fin_or_nan yo -> pf_init (Fin dx) (Fin dy) xo yo = Ok s0 -> Forall finite_weight l ->
  let s := run_ops fuel s0 l in total s W -> 0 < W ->
  exists g x0 y0 P, body s = Some g /\ xmin g = Fin x0 /\ ymin g = Fin y0 /\
    create_probability_plot s = Ok (map (fun j => Fin (x0 + IZR j * dx)) (zrange 0 (ncols g)),
                                    map (fun i => Fin (y0 + IZR i * dy)) (zrange 0 (nrows g)), P).
Proof. exact c71_reachable. Qed.
Print Assumptions C71_reachable.

Example C71_example : exists s0 s P, pf_init (Fin 1) (Fin 1) (Fin 0) (Fin 0) = Ok s0 /\ run 1 s0 two_paths s /\
  Forall finite_weight two_paths /\ total s 2 /\
  create_probability_plot s = Ok ([Fin (-1); Fin 0; Fin 1], [Fin (-1); Fin 0; Fin 1], P) /\
  get2 P 0 0 = Some (Fin (1/2)) /\ get2 P 2 1 = Some (Fin 1).
Proof. exact c71_example. Qed.

(** ** C72 contour_head shows dry regions as missing *)

(** The exact behaviour: the map is drawn when no grid location is dry, and otherwise the call fails (NameError: the
    except clause names a module that is not imported). *)
Theorem C72_exactly_partial : forall (m : model R) (x0 x1 y0 y1 : R) (nr nc : Z), (2 <= nr)%Z -> (2 <= nc)%Z ->
  let X := spaced x0 x1 nc in let Y := spaced y0 y1 nr in
  ((exists i j, (0 <= i < nr)%Z /\ (0 <= j < nc)%Z /\ dry m (X j) (Y i)) ->
     contour_head (fmodel m) (Fin x0) (Fin x1) (Fin y0) (Fin y1) nr nc = Raise NameError) /\
  ((forall i j, (0 <= i < nr)%Z -> (0 <= j < nc)%Z -> ~ dry m (X j) (Y i)) ->
     exists grid, contour_head (fmodel m) (Fin x0) (Fin x1) (Fin y0) (Fin y1) nr nc = Ok grid /\
       forall i j, (0 <= i < nr)%Z -> (0 <= j < nc)%Z ->
         exists h, get2 grid i j = Some h /\ compute_head (fmodel m) (Fin (X j)) (Fin (Y i)) = Ok h).
Proof. exact c72_exactly_partial. Qed.
Print Assumptions C72_exactly_partial.

(** A map with a dry left edge and a wet right edge: the call fails, no map is drawn. *)
Theorem C72_refuted : physical slope /\ dry slope (-1) 0 /\ compute_head (fmodel slope) (Fin 1) (Fin 0) = Ok (Fin 1) /\
  contour_head (fmodel slope) (Fin (-1)) (Fin 1) (Fin 0) (Fin 1) 2 2 = Raise NameError.
Proof. exact c72_refuted. Qed.
Print Assumptions C72_refuted.

(** A map without dry locations is drawn: the head at its lower left corner. *)
Example C72_example : exists grid,
  contour_head (fmodel slope) (Fin 1) (Fin 2) (Fin 0) (Fin 1) 3 3 = Ok grid /\ get2 grid 0 0 = Some (Fin 1).
Proof. exact c72_example. Qed.

(** ** C78 The impact plot draws every intermediate probability *)

(** The points that are drawn: the slice [i:j] of the curve with i one less than the number of certain nodes, and j one
    more than the number of captured nodes - but j = 1 when every node is captured, so that then at most one point is
    drawn, and none when two nodes or more are certain. *)
Theorem C78_exactly_partial : forall (s : pfield xr) (sp W : R) (l : list (point * R)) pr area,
  wf s -> total s W -> 0 < W -> enumerates s l -> (forall n, In n l -> 0 <= snd n) ->
  create_impact_plot (Fin sp) s = Ok (pr, area) ->
  exists i j, impact_points pr area = firstn (j - i) (skipn i (combine pr area)) /\
    ((exists n, In n l /\ snd n / W < 1) -> i = (certain W l - 1)%nat) /\
    ((forall n, In n l -> 1 <= snd n / W) -> i = O) /\
    ((exists n, In n l /\ snd n = 0) -> j = (captured l + 1)%nat) /\
    ((forall n, In n l -> 0 < snd n) -> j = 1%nat).
Proof. exact c78_exactly_partial. Qed.
Print Assumptions C78_exactly_partial.

(** When some node is never captured, every probability strictly between 0 and 1 is drawn, with its area. *)
Theorem C78_drawn_partial : forall (s : pfield xr) (sp W : R) (l : list (point * R)) pr area,
  wf s -> total s W -> 0 < W -> enumerates s l -> (forall n, In n l -> 0 <= snd n) -> (exists n, In n l /\ snd n = 0) ->
  create_impact_plot (Fin sp) s = Ok (pr, area) ->
  forall k v a, nth_error pr k = Some (Fin v) -> nth_error area k = Some a -> 0 < v < 1 -> In (Fin v, a) (impact_points pr area).
Proof. exact c78_drawn_partial. Qed.
Print Assumptions C78_drawn_partial.

(** The field with two paths: a node is captured with probability 1/2, and the plot has no point. *)
Theorem C78_refuted : exists s0 s pr area, pf_init (Fin 1) (Fin 1) (Fin 0) (Fin 0) = Ok s0 /\ run 1 s0 two_paths s /\
  wf s /\ total s 2 /\ (exists m, has_node s 0 (-1) 1 m) /\
  create_impact_plot (Fin 1) s = Ok (pr, area) /\ In (Fin (1/2)) pr /\ impact_points pr area = [].
Proof. exact c78_refuted. Qed.
Print Assumptions C78_refuted.

Example C78_example : exists s0 s pr area, pf_init (Fin 1) (Fin 1) (Fin 0) (Fin 0) = Ok s0 /\ run 1 s0 thin_paths s /\
  wf s /\ total s 2 /\ enumerates s (listed weight_thin) /\ (forall n, In n (listed weight_thin) -> 0 <= snd n) /\
  In ((0, -1), 0) (listed weight_thin) /\ create_impact_plot (Fin 10) s = Ok (pr, area) /\
  impact_points pr area = [(Fin 1, Fin 300); (Fin (1/2), Fin 400); (Fin (1/2), Fin 500); (Fin (1/2), Fin 600); (Fin 0, Fin 700)].
Proof. exact c78_example. Qed.
