(** * Model of the remaining drawing computations of /repo/oneka/visualize.py: smoothing, filled cells, acres, tracks *)
From Verif Require Import Py Num ModelField ModelAquifer ModelObs ModelPlot.
Local Open Scope num_scope.

Section Draw.
  Context {T : Type} {N : Num T}.
  (** [np.exp] *)
  Variable nexp : T -> T.

  (** [l[k]], and 0 outside the array: scipy.ndimage's mode='constant', cval=0.0 (visualize.py:233). *)
  Definition padded (l : list T) (k : Z) : T :=
    if (k <? 0)%Z then nZ 0 else nth (Z.to_nat k) l (nZ 0).

  (** [scipy.ndimage.correlate1d(l, w, mode='constant', cval=0.0)] for an odd number of weights (called from
      visualize.py:233 through gaussian_filter1d).  Simplification: the products are added from left to right;
      scipy adds them in symmetric pairs, which matters for rounding only. *)
  Definition correlate1d (w l : list T) : list T :=
    let r := Z.of_nat (Nat.div2 (length w)) in
    map (fun k => fold_left (fun acc t => acc + nth t w (nZ 0) * padded l (Z.of_nat k + Z.of_nat t - r)%Z)
                            (seq 0 (length w)) (nZ 0))
        (seq 0 (length l)).

  (** The weights of [scipy.ndimage.gaussian_filter1d] (visualize.py:233): radius int(4.0*sigma + 0.5),
      exp(-0.5/sigma^2 * x^2) for x = -radius..radius, divided by their sum, reversed. *)
  Definition gaussian_kernel (sigma : T) : res (list T) :=
    let! r := nfloor (nZ 4 * sigma + nlit 1 2) in
    let phi := map (fun x => nexp (- nlit 1 2 / nsq sigma * nsq (nZ x))) (zrange (- r) (r + 1)) in
    let s := fold_left nadd phi (nZ 0) in
    Ok (rev (map (fun v => v / s) phi)).

  (** The columns of an array with [nc] columns. *)
  Definition columns (nc : nat) (rows : list (list T)) : list (list T) :=
    map (fun j => map (fun row => nth j row (nZ 0)) rows) (seq 0 nc).

  (** [scipy.ndimage.gaussian_filter(Z, sigma, mode='constant', cval=0.0)] (visualize.py:233) for an array with [nc]
      columns: one pass along axis 0, one along axis 1; no pass when sigma <= 1e-15. *)
  Definition gaussian_filter (sigma : T) (nc : nat) (rows : list (list T)) : res (list (list T)) :=
    if sigma >? nlit 1 1000000000000000 then
      let! w := gaussian_kernel sigma in
      Ok (map (correlate1d w) (columns (length rows) (map (correlate1d w) (columns nc rows))))
    else Ok rows.

  (** visualize.py:221-235, [create_probability_plot]: the axes and the values that are contoured, smoothed. *)
  Definition drawn_probabilities (s : pfield T) (smooth : T) : res (list T * list T * list (list T)) :=
    let! (X, Y, P) := create_probability_plot s in
    if smooth >? nZ 0 then
      let! Q := gaussian_filter smooth (length X) P in Ok (X, Y, Q)
    else Ok (X, Y, P).

  (** visualize.py:322-330, [create_deterministic_plot]: the polygons that are filled, in order: the lists [xcorners]
      and [ycorners]. *)
  Definition filled_cells (s : pfield T) : res (list (list T * list T)) :=
    match body s with
    | None => Raise AttributeError
    | Some g =>
        if total_weight g <=? nZ 0 then Raise CaptureZoneError
        else
          let! X := linspace (xmin g) (xmax g) (ncols g) in
          let! Y := linspace (ymin g) (ymax g) (nrows g) in
          let Z_ := prob_grid g in
          let! x0 := py_nth X 0 in
          let! x1 := py_nth X 1 in
          let! y0 := py_nth Y 0 in
          let! y1 := py_nth Y 1 in
          let dx := x1 - x0 in
          let dy := y1 - y0 in
          for_in (combine (seq 0 (length Y)) Y)
            (fun '(i, y) cells0 =>
               let ycorners := [y - dy / nZ 2; y - dy / nZ 2; y + dy / nZ 2; y + dy / nZ 2; y - dy / nZ 2] in
               for_in (combine (seq 0 (length X)) X)
                 (fun '(j, x) cells =>
                    let xcorners := [x - dx / nZ 2; x + dx / nZ 2; x + dx / nZ 2; x - dx / nZ 2; x - dx / nZ 2] in
                    match get2 Z_ (Z.of_nat i) (Z.of_nat j) with
                    | None => Raise IndexError
                    | Some z => if z >? nZ 0 then Ok (cells ++ [(xcorners, ycorners)]) else Ok cells
                    end) cells0)
            []
    end.

  (** visualize.py:389: [area//4046.86], the floor of the quotient.  Simplification: NaN when the quotient has no
      floor (numpy: NaN for an infinite area). *)
  Definition whole_acres (a : T) : T :=
    match nfloor (a / nlit 404686 100) with Ok k => nZ k | _ => nnan end.

  (** visualize.py:385-389: the points of the impact plot, in acres. *)
  Definition impact_drawn (pr area : list T) : list (T * T) :=
    map (fun '(p, a) => (p, whole_acres a)) (impact_points pr area).

  (** visualize.py:430-450, the body of the loop of [quick_capture_zone] once a track (times with locations) has been
      computed: for every year the part of the track strictly inside the year. *)
  Definition year_pieces (nyears : Z) (sol : list (T * (T * T))) : list (list (T * T)) :=
    map (fun year => map snd (filter (fun '(t, _) => (nZ (year * 365) <? t) && (t <? nZ ((year + 1) * 365))) sol))
        (zrange 0 nyears).

  (** visualize.py:400-450, [quick_capture_zone]: the pieces drawn for every ray.  [compute_backtrack] is the method
      of that name of the class of [mo]; class Model (model.py:62-606) has none, see [model_backtrack].  The except
      clause catches AquiferError only.  Simplification: [nyears] is a whole number. *)
  Definition quick_tracks (compute_backtrack : option (T -> T -> T -> T -> res (list (T * (T * T)))))
             (radius xc yc : T) (nrays nyears : Z) (maxstep : T) : res (list (list (list (T * T)))) :=
    let! thetas := linspace (nZ 0) (nZ 2 * npi) nrays in
    map_res (fun theta =>
               match compute_backtrack with
               | None => Raise AttributeError
               | Some f =>
                   let x := (radius + nZ 1) * ncos theta + xc in
                   let y := (radius + nZ 1) * nsin theta + yc in
                   match f x y (nZ (nyears * 365)) maxstep with
                   | Ok sol => Ok (year_pieces nyears sol)
                   | Raise AquiferError => Ok []
                   | Raise e => Raise e
                   | NoFuel => NoFuel
                   end
               end) thetas.

  (** model.py:62-606: the methods of class Model are __init__, coef, __repr__, __str__, compute_potential,
      compute_potential_wells_only, compute_discharge, compute_head, compute_velocity, compute_velocity_confined,
      fit_regional_flow, construct_fit and compute_fit; no [compute_backtrack] is among them. *)
  Definition model_backtrack : option (T -> T -> T -> T -> res (list (T * (T * T)))) := None.
End Draw.
