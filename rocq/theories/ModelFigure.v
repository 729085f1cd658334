(** * Model of the figures of a run: what /repo/oneka/visualize.py draws, and when /repo/oneka/oneka.py calls it *)
From Coq Require Import String.
From Verif Require Import Py Num ModelField ModelAquifer ModelObs ModelDist ModelDriver ModelPlot ModelArchive ModelMain ModelDraw.
Local Open Scope num_scope.

Section Figure.
  Context {T : Type} {N : Num T}.
  (** [np.exp] *)
  Variable nexp : T -> T.

  (** The markers of a figure, in the order of the three calls of [plt.plot]: 'o', '*' and 'P'. *)
  Record markers := { circles : list (T * T); star : T * T; pluses : list (T * T) }.

  (** visualize.py:243-255 and 337-349: the same lines in [create_probability_plot] and
      [create_deterministic_plot].  [target] is an index that oneka.py has checked to be at least 0. *)
  Definition draw_markers (target : nat) (ws : list (swell T)) (obs : list (obs T)) : res markers :=
    let xw := map sx ws in
    let yw := map sy ws in
    let! w := match nth_error ws target with Some w => Ok w | None => Raise IndexError end in
    let xo := map ox obs in
    let yo := map oy obs in
    Ok {| circles := combine xw yw; star := (sx w, sy w); pluses := combine xo yo |}.

  (** What a figure shows: the axes and values that are contoured, or the filled polygons, with the markers; or the
      points of the impact plot.  Not modelled: colours, levels of the contours, labels, ticks, legends. *)
  Inductive figure :=
  | FMap (X Y : list T) (Q : list (list T)) (m : markers)
  | FCells (cells : list (list T * list T)) (m : markers)
  | FImpact (pts : list (T * T)).

  (** visualize.py:167-255, [create_probability_plot(target, stochastic_wells, obs, pf, smooth)] *)
  Definition map_figure (target : nat) (ws : list (swell T)) (obs : list (obs T)) (pf : pfield T) (smooth : T) : res figure :=
    let! (X, Y, Q) := drawn_probabilities nexp pf smooth in
    let! m := draw_markers target ws obs in
    Ok (FMap X Y Q m).

  (** visualize.py:259-351, [create_deterministic_plot(target, stochastic_wells, obs, pf)]: the figure and the area, that
      come from one loop (ModelDraw.filled_cells and ModelPlot.create_deterministic_plot). *)
  Definition cells_figure (target : nat) (ws : list (swell T)) (obs : list (obs T)) (pf : pfield T) : res (figure * T) :=
    let! area := create_deterministic_plot pf in
    let! cells := filled_cells pf in
    let! m := draw_markers target ws obs in
    Ok (FCells cells m, area).

  (** An effect of a run: one of ModelMain, or a figure. *)
  Inductive effect := Seen (e : event T) | Drawn (f : figure).
  Definition drawn_outcome : Type := (list effect * res (result T))%type.
  Definition dstop {A} (r : res A) (k : A -> drawn_outcome) : drawn_outcome :=
    match r with Ok a => k a | Raise e => ([], Raise e) | NoFuel => ([], NoFuel) end.
  Definition demit (e : effect) (o : drawn_outcome) : drawn_outcome := (e :: fst o, snd o).

  Context {G E : Type} (R : rng T G).
  Variable mvn : E -> list T -> list (list T) -> list T.
  Variable dump : run_args (pyobj T) -> res unit.

  (** oneka.py:307-317 (ModelMain.finish) *)
  Definition drawn_finish (a : args T) (pf : pfield T) : drawn_outcome :=
    (map Seen (fst (finish dump a pf)), snd (finish dump a pf)).

  (** oneka.py:73-317, [oneka(...)], as in ModelMain.oneka, with the figures: [smooth] is used, and the markers are drawn. *)
  Definition oneka_drawn (fuel : nat) (la : linalg T) (entropy : nat -> E) (g : G) (a : args T) : drawn_outcome :=
    dstop (validate a) (fun _ =>
    demit (Seen EBanner) (
    dstop (log_nrealizations (nrealizations a)) (fun nreal =>
    dstop (map_res get_well (elements (stochastic_wells a))) (fun ws =>
    dstop (map_res get_obs (elements (observations a))) (fun obs0 =>
    dstop (as_num (buffer a)) (fun buf =>
    dstop (filter_obs obs0 (map (fun w => (sx w, sy w)) ws) buf) (fun obs =>
    demit (Seen (EFiltered obs)) (
    dstop (py_assert (Ok (Z.of_nat (List.length obs) >? 6)%Z)) (fun _ =>
    dstop (summary_statistics (map (fun o => [ox o; oy o; oz o; os o]) obs)) (fun st =>
    demit (Seen (ESummary st)) (
    dstop (get_int (target a)) (fun tgt =>
    dstop (get_int (npaths a)) (fun np =>
    dstop (as_num (duration a)) (fun dur =>
    dstop (as_num (base_ a)) (fun bas =>
    dstop (as_num (spacing a)) (fun spc =>
    dstop (as_num (umbra a)) (fun umb =>
    dstop (as_num (smooth a)) (fun sm =>
    dstop (as_num (tol a)) (fun tl =>
    dstop (as_num (maxstep a)) (fun ms =>
    if (nreal >? 1)%Z then
      dstop (create_stochastic R mvn fuel la entropy g (Z.to_nat tgt) np dur nreal bas
                               (c_dist a) (p_dist a) (t_dist a) ws obs spc umb
                               (get_bool (confined a)) tl ms) (fun '(pf, logs) =>
      demit (Seen (ERealizations logs)) (
      dstop (map_figure (Z.to_nat tgt) ws obs pf sm) (fun f =>
      demit (Drawn f) (
      dstop (create_impact_plot spc pf) (fun '(pr, area) =>
      demit (Drawn (FImpact (impact_drawn pr area))) (
      dstop (decile_table pr area) (fun rows =>
      demit (Seen (EDeciles rows)) (
      drawn_finish a pf))))))))
    else
      dstop (create_deterministic fuel la (Z.to_nat tgt) np dur bas
                                  (c_dist a) (p_dist a) (t_dist a) ws obs spc umb
                                  (get_bool (confined a)) tl ms) (fun '(pf, l) =>
      demit (Seen (EDeterministic l)) (
      dstop (cells_figure (Z.to_nat tgt) ws obs pf) (fun '(f, area) =>
      demit (Drawn f) (
      demit (Seen (EAreaPlot area)) (
      drawn_finish a pf))))))))))))))))))))))))).
End Figure.
Arguments markers T : clear implicits.
Arguments figure T : clear implicits.
Arguments effect T : clear implicits.
Arguments drawn_outcome T : clear implicits.
