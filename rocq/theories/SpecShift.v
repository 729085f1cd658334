(** * Another coordinate system: origin and datum moved *)
From Coq Require Import Reals List ZArith.
From Verif Require Import Py Num NumXR ModelField ModelAquifer ModelTrace ModelObs ModelDriver ModelMain SpecAquifer SpecMain.
Import ListNotations.
Local Open Scope R_scope.

(** A coordinate after the origin has been moved by [- c]: infinite and undefined values stay what they are. *)
Definition moved (c : R) (x : xr) : xr := match x with Fin a => Fin (a + c) | _ => x end.

(** Observations and wells in the new system: [dx], [dy] for locations, [dz] for elevations. *)
Definition moved_obs (dx dy dz : R) (o : obs xr) : obs xr :=
  {| ox := moved dx (ox o); oy := moved dy (oy o); oz := moved dz (oz o); os := os o |}.
Definition moved_swell (dx dy : R) (w : swell xr) : swell xr :=
  {| sx := moved dx (sx w); sy := moved dy (sy w); sr := sr w; sq := sq w |}.

(** The same call in the new system. *)
Definition moved_call (dx dy dz : R) (c : call) : call :=
  {| k_target := k_target c; k_npaths := k_npaths c; k_duration := k_duration c; k_n := k_n c; k_base := moved dz (k_base c);
     k_wells := map (moved_swell dx dy) (k_wells c); k_obs := map (moved_obs dx dy dz) (k_obs c);
     k_buffer := k_buffer c; k_spacing := k_spacing c; k_umbra := k_umbra c; k_confined := k_confined c;
     k_tol := k_tol c; k_maxstep := k_maxstep c |}.

(** The same field in the new system: other edges, the same contents. *)
Definition moved_geom (dx dy : R) (g : geom xr) : geom xr :=
  {| nrows := nrows g; ncols := ncols g;
     xmin := moved dx (xmin g); xmax := moved dx (xmax g); ymin := moved dy (ymin g); ymax := moved dy (ymax g);
     pgrid := pgrid g; rgrid := rgrid g; total_weight := total_weight g |}.
Definition moved_field (dx dy : R) (s : pfield xr) : pfield xr :=
  {| deltax := deltax s; deltay := deltay s; body := option_map (moved_geom dx dy) (body s) |}.

(** What is returned, with [f] applied to it. *)
Definition res_map {A B : Type} (f : A -> B) (r : res A) : res B :=
  match r with Ok a => Ok (f a) | Raise e => Raise e | NoFuel => NoFuel end.

(** What a run shows in the new system instead of an effect in the old one.  The log lines of the driver, the curve of areas, the table of
    deciles and the area are the same; places are moved; of the statistics of the observations the counts are the same. *)
Inductive seen_moved (dx dy dz : R) : event xr -> event xr -> Prop :=
| sm_banner : seen_moved dx dy dz EBanner EBanner
| sm_filtered l : seen_moved dx dy dz (EFiltered l) (EFiltered (map (moved_obs dx dy dz) l))
| sm_summary l l' : map s_cnt l = map s_cnt l' -> seen_moved dx dy dz (ESummary l) (ESummary l')
| sm_realizations l : seen_moved dx dy dz (ERealizations l) (ERealizations l)
| sm_deterministic l : seen_moved dx dy dz (EDeterministic l) (EDeterministic l)
| sm_probability X Y P : seen_moved dx dy dz (EProbabilityPlot X Y P) (EProbabilityPlot (map (moved dx) X) (map (moved dy) Y) P)
| sm_impact pr area : seen_moved dx dy dz (EImpactPlot pr area) (EImpactPlot pr area)
| sm_deciles rows : seen_moved dx dy dz (EDeciles rows) (EDeciles rows)
| sm_area area : seen_moved dx dy dz (EAreaPlot area) (EAreaPlot area)
| sm_archive a a' s : seen_moved dx dy dz (EArchive (archived a s)) (EArchive (archived a' (moved_field dx dy s)))
| sm_show : seen_moved dx dy dz EShow EShow.

(** Moving the elevations needs observed heads that are numbers, with deviations other than 0 (the average of several heads has to move with them). *)
Definition movable (dz : R) (l : list (obs xr)) : Prop :=
  dz = 0 \/ exists l0 : list (obs R), l = map fobs l0 /\ forall o, In o l0 -> os o <> 0.
