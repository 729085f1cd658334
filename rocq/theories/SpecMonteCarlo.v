(** * The probability map as an estimate: what is drawn, what is estimated *)
From Coq Require Import Reals List ZArith.
From Verif Require Import Py Num NumXR ModelField ModelAquifer ModelTrace ModelDist ModelDriver ModelMain SpecDist SpecDriver SpecDraws SpecTrace SpecMain SpecField SpecWhole SpecExactMap.
Import ListNotations.
Local Open Scope R_scope.

(** Equally likely outcomes: the mean of [f], and the share of the outcomes with the property [P]. *)
Definition mean {A : Type} (l : list A) (f : A -> R) : R := fold_right (fun x a => f x + a) 0 l / INR (length l).
Definition share {A : Type} (l : list A) (P : A -> Prop) (p : R) : Prop :=
  exists bs, Forall2 (fun x b => b = true <-> P x) l bs /\ p = INR (length (filter (fun b => b) bs)) / INR (length l).

(** All lists of [n] members of [l]: the outcomes of [n] independent choices. *)
Fixpoint tuples {A : Type} (l : list A) (n : nat) : list (list A) :=
  match n with
  | O => [[]]
  | S k => flat_map (fun x => map (cons x) (tuples l k)) l
  end.

(** What one realization draws: the uniform numbers [fst o] from the generator, one for every distribution with two or three numbers, and the
    entropy [snd o] of the regional coefficients. *)
Definition distributions (a : args xr) (c : call) : list (pyval xr) := map sq (k_wells c) ++ [c_dist a; p_dist a; t_dist a].
Definition drawn_numbers (a : args xr) (c : call) : nat := length (filter is_tuple (distributions a c)).
Definition outcomes {E : Type} (a : args xr) (c : call) (us : list R) (es : list E) : list (list R * E) :=
  list_prod (tuples us (drawn_numbers a c)) es.
Definition stream (b : list R) : nat -> R := fun i => nth i b 0.

(** The capture zone of a realization with the outcome [o], for the target [w]. *)
Definition zone_of {E : Type} (mvn : E -> list xr -> list (list xr) -> list xr) (fuel : nat) (la : linalg xr) (a : args xr) (c : call)
    (kept : list (obs xr)) (w : swell xr) (o : list R * E) (tracks : list (list point)) : Prop :=
  exists vs qs k n h m,
    drawn (inverse_rng (stream (fst o))) 0%nat (distributions a c) vs (drawn_numbers a c) /\
    vs = qs ++ [k; n; h] /\ length qs = length (k_wells c) /\
    made la (k_base c) (sx w) (sy w) (k_wells c) kept (mvn (snd o)) qs k n h m /\
    traced fuel (sx w) (sy w) (sr w) (k_duration c) (k_tol c) (k_maxstep c) (k_npaths c) (k_confined c) m (map (map fvec) tracks).

(** The outcomes whose zone has the property [P]. *)
Definition zone_with {E : Type} (mvn : E -> list xr -> list (list xr) -> list xr) (fuel : nat) (la : linalg xr) (a : args xr) (c : call)
    (kept : list (obs xr)) (w : swell xr) (P : list (list point) -> Prop) (o : list R * E) : Prop :=
  exists z, zone_of mvn fuel la a c kept w o z /\ P z.

(** Properties of a zone around the target [t]: it reaches the location [p] if one of its tracks passes closer than [u]; it is counted at [p] when it is the
    first of the run; it covers [p] if the window holds [p] from then on. *)
Definition reaches (u : R) (p : point) (z : list (list point)) : Prop := exists tr, In tr z /\ near_track u tr p.
Definition counted_first (u sp : R) (t p : point) (z : list (list point)) : Prop := taken u sp [t] z p true.
Definition covers (sp : R) (t p : point) (z : list (list point)) : Prop := covered sp (t :: concat z) p.

(** The run with the outcomes [os], one for every realization. *)
Definition run_with {E : Type} (mvn : E -> list xr -> list (list xr) -> list xr) (fuel : nat) (la : linalg xr) (a : args xr) (c : call)
    (kept : list (obs xr)) (e0 : E) (os : list (list R * E)) : res (pfield xr * list (run_log xr)) :=
  call_stochastic (inverse_rng (stream (concat (map fst os)))) mvn fuel la (fun j => nth j (map snd os) e0) 0%nat a c kept.

(** The estimate the field makes for a location: its weight over the number of realizations; a location without a node has weight 0. *)
Definition estimates (s : pfield xr) (n : nat) (x y p : R) : Prop := exists v, weight_at s x y v /\ p = v / INR n.

(** For every outcome of the [n] realizations, each one of [os], the run returns and [est] is its estimate for the location [p]. *)
Definition estimator {E : Type} (mvn : E -> list xr -> list (list xr) -> list xr) (fuel : nat) (la : linalg xr) (a : args xr) (c : call)
    (kept : list (obs xr)) (e0 : E) (os : list (list R * E)) (n : nat) (p : point) (est : list (list R * E) -> R) : Prop :=
  forall o, In o (tuples os n) -> exists s logs, run_with mvn fuel la a c kept e0 o = Ok (s, logs) /\ estimates s n (fst p) (snd p) (est o).
