(** * The order in which wells and observations are listed *)
From Coq Require Import Reals List ZArith Permutation.
From Verif Require Import Py Num NumXR ModelField ModelAquifer ModelTrace ModelObs ModelDist ModelDriver ModelMain SpecAquifer SpecObs SpecDist SpecMain.
Import ListNotations.

(** Two calls that differ in the order of the wells only; the index of the target follows its well. *)
Definition wells_reordered (c c' : call) : Prop :=
  Permutation (k_wells c) (k_wells c') /\
  nth_error (k_wells c') (Z.to_nat (k_target c')) = nth_error (k_wells c) (Z.to_nat (k_target c)) /\
  k_npaths c' = k_npaths c /\ k_duration c' = k_duration c /\ k_n c' = k_n c /\ k_base c' = k_base c /\ k_obs c' = k_obs c /\
  k_buffer c' = k_buffer c /\ k_spacing c' = k_spacing c /\ k_umbra c' = k_umbra c /\ k_confined c' = k_confined c /\
  k_tol c' = k_tol c /\ k_maxstep c' = k_maxstep c.

(** The draws of one realization: the wells with their discharges, conductivity, porosity, thickness. *)
Definition drawn {G : Type} (Rg : rng xr G) (a : args xr) (ws : list (swell xr)) (g : G) (l : list (swell xr * pyval xr)) (k n h : pyval xr) (g' : G) : Prop :=
  exists g1 g2 g3, map fst l = ws /\ sample_all Rg g (map sq ws) = Ok (map snd l, g1) /\
    generate_random_variate Rg g1 (c_dist a) = Ok (k, g2) /\ generate_random_variate Rg g2 (p_dist a) = Ok (n, g3) /\
    generate_random_variate Rg g3 (t_dist a) = Ok (h, g').

(** Two generators that, realization after realization, draw the same for each well and for the aquifer: [same] relates their states. *)
Definition draw_alike {G G' : Type} (Rg : rng xr G) (Rg' : rng xr G') (a a' : args xr) (ws ws' : list (swell xr)) (same : G -> G' -> Prop) : Prop :=
  forall g g', same g g' -> exists l l' k n h g1 g1', drawn Rg a ws g l k n h g1 /\ drawn Rg' a' ws' g' l' k n h g1' /\ Permutation l l' /\ same g1 g1'.

(** The effects of two runs that may differ in the archived arguments only. *)
Inductive seen_alike : event xr -> event xr -> Prop :=
| al_same e : seen_alike e e
| al_archive a a' s : seen_alike (EArchive (archived a s)) (EArchive (archived a' s)).

(** Two calls that differ in the order of the observations only. *)
Definition obs_reordered (c c' : call) : Prop :=
  Permutation (k_obs c) (k_obs c') /\
  k_target c' = k_target c /\ k_npaths c' = k_npaths c /\ k_duration c' = k_duration c /\ k_n c' = k_n c /\ k_base c' = k_base c /\ k_wells c' = k_wells c /\
  k_buffer c' = k_buffer c /\ k_spacing c' = k_spacing c /\ k_umbra c' = k_umbra c /\ k_confined c' = k_confined c /\
  k_tol c' = k_tol c /\ k_maxstep c' = k_maxstep c.

(** No two observations are closer than 1 m. *)
Definition apart (l : list (obs R)) : Prop := ForallOrdPairs (fun o o' => (1 <= odist o (loc o'))%R) l.

(** The effects of two runs that may differ in the order of the retained observations and in the archived arguments. *)
Inductive seen_reordered : event xr -> event xr -> Prop :=
| ro_same e : seen_reordered e e
| ro_filtered l l' : Permutation l l' -> seen_reordered (EFiltered l) (EFiltered l')
| ro_archive a a' s : seen_reordered (EArchive (archived a s)) (EArchive (archived a' s)).
