(** * Model of the computations in /repo/oneka/visualize.py (drawing itself omitted) *)
From Verif Require Import Py Num ModelField ModelAquifer ModelObs.
Local Open Scope num_scope.

Section Plot.
  Context {T : Type} {N : Num T}.

  (** [np.linspace(a, b, n)]: a + k*((b-a)/(n-1)), the last element set to b;
      n = 1 gives [a], n < 0 raises ValueError. *)
  Definition linspace (a b : T) (n : Z) : res (list T) :=
    if (n <? 0)%Z then Raise ValueError
    else if (n =? 1)%Z then Ok [nZ 0 * (b - a) + a]
    else
      let step := (b - a) / nZ (n - 1) in
      Ok (map (fun k => if (k =? n - 1)%Z then b else nZ k * step + a) (zrange 0 n)).

  (** visualize.py:230, 318: [pf.pgrid/pf.total_weight] *)
  Definition prob_grid (g : geom T) : list (list T) :=
    map (map (fun v => v / total_weight g)) (pgrid g).

  (** visualize.py:221-230 (before smoothing), [create_probability_plot]: the axes and the
      probabilities that are drawn. *)
  Definition create_probability_plot (s : pfield T) : res (list T * list T * list (list T)) :=
    match body s with
    | None => Raise AttributeError
    | Some g =>
        if total_weight g <=? nZ 0 then Raise CaptureZoneError
        else
          let! X := linspace (xmin g) (xmax g) (ncols g) in
          let! Y := linspace (ymin g) (ymax g) (nrows g) in
          Ok (X, Y, prob_grid g)
    end.

  Definition py_nth (l : list T) (i : nat) : res T :=
    match nth_error l i with Some a => Ok a | None => Raise IndexError end.

  (** visualize.py:312-331, 351, [create_deterministic_plot]: returns the area. *)
  Definition create_deterministic_plot (s : pfield T) : res T :=
    match body s with
    | None => Raise AttributeError
    | Some g =>
        if total_weight g <=? nZ 0 then Raise CaptureZoneError
        else
          let! X := linspace (xmin g) (xmax g) (ncols g) in
          let! Y := linspace (ymin g) (ymax g) (nrows g) in
          let Z_ := prob_grid g in
          let! x0 := py_nth X 0 in
          let! x1 := py_nth X 1 in
          let! y0 := py_nth Y 0 in
          let! y1 := py_nth Y 1 in
          let cell_area := (x1 - x0) * (y1 - y0) in
          for_in (seq 0 (length Y))
                 (fun i area0 =>
                    for_in (seq 0 (length X))
                           (fun j area =>
                              match get2 Z_ (Z.of_nat i) (Z.of_nat j) with
                              | None => Raise IndexError
                              | Some z => if z >? nZ 0 then Ok (area + cell_area) else Ok area
                              end) area0)
                 (nZ 0)
    end.

  (** visualize.py:353-397, [create_impact_plot(spacing, pf)]: returns (pr, area). *)
  Definition create_impact_plot (spacing : T) (s : pfield T) : res (list T * list T) :=
    match body s with
    | None => Raise AttributeError
    | Some g =>
        if total_weight g <=? nZ 0 then Raise CaptureZoneError
        else
          let pr := rev (nsort (concat (prob_grid g))) in
          let area := map (fun k => nZ (Z.of_nat k + 1) * nsq spacing) (seq 0 (length pr)) in
          Ok (pr, area)
    end.

  (** [np.argmax(mask)]: index of the first True, 0 when there is none. *)
  Fixpoint find_first (p : T -> bool) (l : list T) (i : nat) : option nat :=
    match l with
    | [] => None
    | x :: l' => if p x then Some i else find_first p l' (S i)
    end.
  Definition argmax_first (p : T -> bool) (l : list T) : nat :=
    match find_first p l 0 with Some i => i | None => O end.

  (** visualize.py:385-389, [create_impact_plot]: the points (probability, area) that are drawn, before the
      conversion of the area to whole acres; [pr[i:j]] is empty when j <= i, and natural subtraction plays
      the part of [max(0, .. - 1)].  ([np.argmax] of an empty array raises; grids have at least 9 nodes.) *)
  Definition impact_points (pr area : list T) : list (T * T) :=
    let i := Nat.sub (argmax_first (fun v => v <? nZ 1) pr) 1 in
    let j := Nat.min (length pr) (S (argmax_first (fun v => v =? nZ 0) pr)) in
    firstn (Nat.sub j i) (skipn i (combine pr area)).

  (** oneka.py:285-287: the row of the decile table for threshold [p]: (pr[i], area[i]).
      The third column is area[i] / 4046.86. *)
  Definition decile_row (pr area : list T) (p : T) : res (T * T * T) :=
    let i := argmax_first (fun v => v <=? p) pr in
    let! a := py_nth pr i in
    let! b := py_nth area i in
    Ok (a, b, b / nlit 404686 100).

  (** oneka.py:284-287 *)
  Definition decile_table (pr area : list T) : res (list (T * T * T)) :=
    let! ps := linspace (nlit 5 100) (nlit 95 100) 19 in
    map_res (decile_row pr area) ps.

  (** visualize.py:67-110, [contour_head]: the grid that is drawn.  When compute_head raises,
      the except clause evaluates the undefined name [onekapy] (line 109): NameError. *)
  Definition contour_head (m : model T) (x0 x1 y0 y1 : T) (nr nc : Z) : res (list (list T)) :=
    let! X := linspace x0 x1 nc in
    let! Y := linspace y0 y1 nr in
    map_res (fun y => map_res (fun x => match compute_head m x y with
                                        | Ok h => Ok h
                                        | Raise _ => Raise NameError
                                        | NoFuel => NoFuel
                                        end) X) Y.

  (** visualize.py:117-160, [contour_potential]. *)
  Definition contour_potential (m : model T) (x0 x1 y0 y1 : T) (nr nc : Z) : res (list (list T)) :=
    let! X := linspace x0 x1 nc in
    let! Y := linspace y0 y1 nr in
    Ok (map (fun y => map (fun x => compute_potential m x y) X) Y).
End Plot.
