(** * What is asked of runme.py as a whole (C130) *)
From Coq Require Import String Ascii SpecFloat List.
From Verif Require Import Py Num ModelDist ModelMain ModelText ModelLog ModelLogging ModelSession ModelData.
Import ListNotations.
Local Open Scope string_scope.

(** The names that a data module has to define, and the argument of oneka that each one is. *)
Definition required : list (string * (args spec_float -> val)) :=
  [("PROJECTNAME", projectname); ("TARGET", target); ("NPATHS", npaths); ("DURATION", duration); ("NREALIZATIONS", nrealizations); ("BASE", base_);
   ("C_DIST", c_dist); ("P_DIST", p_dist); ("T_DIST", t_dist); ("WELLS", stochastic_wells); ("OBSERVATIONS", observations); ("BUFFER", buffer);
   ("SPACING", spacing); ("UMBRA", umbra); ("SMOOTH", smooth); ("CONFINED", confined); ("TOL", tol); ("MAXSTEP", maxstep)].
(** The arguments are the values of these names, and the runtime is the text. *)
Definition values_of (ns : list (string * val)) (t : string) (a : args spec_float) : Prop :=
  runtime a = PStr t /\ forall n f, In (n, f) required -> In (n, f a) ns.

(** The file is in the directory [d]; it is in the working directory. *)
Definition file_in (p : platform) (d path : string) : Prop :=
  exists s b, path = d ++ String s b /\ separator p s = true /\ forall u v x, b = u ++ String x v -> separator p x = false.
Definition file_here (p : platform) (path : string) : Prop := forall u v x, path = u ++ String x v -> separator p x = false.

(** The module that a data set is. *)
Definition module_of (N : Num spec_float) (d : dataset) : list (string * val) :=
  [("PROJECTNAME", PStr (d_name d)); ("TARGET", PInt (d_target d)); ("NPATHS", PInt (d_npaths d)); ("DURATION", lit_val (d_duration d));
   ("NREALIZATIONS", PInt (d_nrealizations d)); ("BASE", lit_val (d_base d)); ("C_DIST", dist_val (d_c d)); ("P_DIST", dist_val (d_p d)); ("T_DIST", dist_val (d_t d));
   ("BUFFER", lit_val (d_buffer d)); ("SPACING", lit_val (d_spacing d)); ("UMBRA", lit_val (d_umbra d)); ("SMOOTH", lit_val (d_smooth d));
   ("CONFINED", PBool (d_confined d)); ("TOL", lit_val (d_tol d)); ("MAXSTEP", lit_val (d_maxstep d));
   ("WELLS", PList (map (fun w => let '(x, y, r, q) := w in PTuple [lit_val x; lit_val y; lit_val r; dist_val q]) (d_wells d)));
   ("OBSERVATIONS", PList (map (fun o => let '(x, y, z, s) := o in PTuple [lit_val x; lit_val y; lit_val z; lit_val s]) (d_obs d)))].
