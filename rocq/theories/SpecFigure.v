(** * Specification of the figures of a run *)
From Coq Require Import Reals List ZArith.
From Verif Require Import Py Num ModelField ModelAquifer ModelObs ModelDist ModelDriver ModelMain ModelFigure SpecAquifer SpecFit SpecMain.
Import ListNotations.

(** The effects of a run that are not figures, in order, and the figures, in order. *)
Definition seen {T} (l : list (effect T)) : list (event T) :=
  flat_map (fun x => match x with Seen e => [e] | Drawn _ => [] end) l.
Definition figures {T} (l : list (effect T)) : list (figure T) :=
  flat_map (fun x => match x with Drawn f => [f] | Seen _ => [] end) l.

(** The events of a run without the two that stand for figures. *)
Definition without_plots {T} (l : list (event T)) : list (event T) :=
  filter (fun e => match e with EProbabilityPlot _ _ _ | EImpactPlot _ _ => false | _ => true end) l.

(** The markers say where the wells of the call, its target well and the observations [kept] are. *)
Definition marked (c : call) (kept : list (obs xr)) (m : markers xr) : Prop :=
  Forall2 (fun w p => p = (sx w, sy w)) (k_wells c) (circles m) /\
  (exists w, nth_error (k_wells c) (Z.to_nat (k_target c)) = Some w /\ star m = (sx w, sy w)) /\
  Forall2 (fun o p => p = (ox o, oy o)) kept (pluses m).
