(** * Specification of the arguments of oneka and of what a run does with them *)
From Coq Require Import Reals String.
From Verif Require Import Py Num ModelField ModelAquifer ModelObs ModelDist ModelDriver ModelMain SpecField SpecAquifer SpecFit SpecDist.
Local Open Scope R_scope.

(** [v] is a Python integer of value [z] (a bool is one). *)
Inductive integer : pyval xr -> Z -> Prop :=
| int_int z : integer (PInt z) z
| int_true : integer (PBool true) 1
| int_false : integer (PBool false) 0.

Definition numeric (v : pyval xr) : Prop := exists x, number v x.

Definition xr_pos (x : xr) : Prop := match x with Fin r => 0 < r | PInf => True | NInf | NaN => False end.
Definition positive (v : pyval xr) : Prop := exists x, number v x /\ xr_pos x.

(** [v] is a tuple or list with the entries [l]. *)
Definition sequence (v : pyval xr) (l : list (pyval xr)) : Prop := v = PTuple l \/ v = PList l.

(** (xw, yw, rw, q_dist) *)
Definition well_ok (v : pyval xr) : Prop :=
  exists x y r q, sequence v [x; y; r; q] /\ numeric x /\ numeric y /\ positive r /\ distribution q NInf PInf.

(** (x, y, z_ev, z_std) *)
Definition obs_ok (v : pyval xr) : Prop :=
  exists x y z s, sequence v [x; y; z; s] /\ numeric x /\ numeric y /\ numeric z /\
                  exists d, number s d /\ xr_le (Fin 0) d.

(** The required arguments that are checked: all but nrealizations. *)
Definition required_ok (a : args xr) : Prop :=
  (exists s, projectname a = PStr s) /\ (exists s, runtime a = PStr s) /\
  (exists ws, stochastic_wells a = PList ws /\ Forall well_ok ws /\
     exists t, integer (target a) t /\ (0 <= t < Z.of_nat (length ws))%Z) /\
  (exists n, integer (npaths a) n /\ (0 < n)%Z) /\
  (exists x, number (duration a) x /\ x <> Fin 0) /\
  numeric (base_ a) /\
  distribution (c_dist a) (Fin 0) PInf /\ distribution (p_dist a) (Fin 0) (Fin 1) /\ distribution (t_dist a) (Fin 0) PInf /\
  (exists l, observations a = PList l /\ (7 <= length l)%nat /\ Forall obs_ok l).

Definition optional_ok (a : args xr) : Prop :=
  positive (buffer a) /\ positive (spacing a) /\ positive (umbra a) /\ positive (smooth a) /\
  (exists b, confined a = PBool b) /\ positive (tol a) /\ positive (maxstep a).

Definition acceptable (a : args xr) : Prop := required_ok a /\ optional_ok a.

(** The docstring also says that nrealizations is an int. *)
Definition documented_args (a : args xr) : Prop := acceptable a /\ exists n, integer (nrealizations a) n.

(** The values of the arguments. *)
Record call := {
  k_target : Z; k_npaths : Z; k_duration : xr; k_n : Z; k_base : xr;
  k_wells : list (swell xr); k_obs : list (obs xr);
  k_buffer : xr; k_spacing : xr; k_umbra : xr; k_confined : bool; k_tol : xr; k_maxstep : xr
}.

Definition reads_well (v : pyval xr) (w : swell xr) : Prop :=
  exists x y r, sequence v [x; y; r; sq w] /\ number x (sx w) /\ number y (sy w) /\ number r (sr w).
Definition reads_obs (v : pyval xr) (o : obs xr) : Prop :=
  exists x y z s, sequence v [x; y; z; s] /\ number x (ox o) /\ number y (oy o) /\ number z (oz o) /\ number s (os o).

Definition reads (a : args xr) (c : call) : Prop :=
  integer (target a) (k_target c) /\ integer (npaths a) (k_npaths c) /\ number (duration a) (k_duration c) /\
  integer (nrealizations a) (k_n c) /\ number (base_ a) (k_base c) /\
  (exists l, stochastic_wells a = PList l /\ Forall2 reads_well l (k_wells c)) /\
  (exists l, observations a = PList l /\ Forall2 reads_obs l (k_obs c)) /\
  number (buffer a) (k_buffer c) /\ number (spacing a) (k_spacing c) /\ number (umbra a) (k_umbra c) /\
  confined a = PBool (k_confined c) /\ number (tol a) (k_tol c) /\ number (maxstep a) (k_maxstep c).

(** The observations that the drivers should be given. *)
Definition retained (c : call) (kept : list (obs xr)) : Prop :=
  filter_obs (k_obs c) (map (fun w => (sx w, sy w)) (k_wells c)) (k_buffer c) = Ok kept.

(** Columns of the table of the retained observations. *)
Definition table (kept : list (obs xr)) : list (list xr) := map (fun o => [ox o; oy o; oz o; os o]) kept.

(** The same call with another value of smooth. *)
Definition with_smooth (a : args xr) (v : pyval xr) : args xr :=
  {| projectname := projectname a; runtime := runtime a; target := target a; npaths := npaths a;
     duration := duration a; nrealizations := nrealizations a; base_ := base_ a;
     c_dist := c_dist a; p_dist := p_dist a; t_dist := t_dist a;
     stochastic_wells := stochastic_wells a; observations := observations a;
     buffer := buffer a; spacing := spacing a; umbra := umbra a; smooth := v;
     confined := confined a; tol := tol a; maxstep := maxstep a |}.

(** The drivers, called with the values of the arguments and the observations [kept]. *)
Definition call_stochastic {G E : Type} (Rg : rng xr G) (mvn : E -> list xr -> list (list xr) -> list xr)
    (fuel : nat) (la : linalg xr) (entropy : nat -> E) (g : G) (a : args xr) (c : call) (kept : list (obs xr)) :=
  create_stochastic Rg mvn fuel la entropy g (Z.to_nat (k_target c)) (k_npaths c) (k_duration c) (k_n c) (k_base c)
                    (c_dist a) (p_dist a) (t_dist a) (k_wells c) kept (k_spacing c) (k_umbra c) (k_confined c) (k_tol c) (k_maxstep c).
Definition call_deterministic (fuel : nat) (la : linalg xr) (a : args xr) (c : call) (kept : list (obs xr)) :=
  create_deterministic fuel la (Z.to_nat (k_target c)) (k_npaths c) (k_duration c) (k_base c)
                       (c_dist a) (p_dist a) (t_dist a) (k_wells c) kept (k_spacing c) (k_umbra c) (k_confined c) (k_tol c) (k_maxstep c).

(** A field computed by one of the drivers, in any arithmetic. *)
Definition from_driver {T} {N : Num T} {G E : Type} (Rg : rng T G) (mvn : E -> list T -> list (list T) -> list T) (s : pfield T) : Prop :=
  (exists fuel la entropy g target np dur n bas cd pd td ws obs spc umb conf tl ms logs,
     create_stochastic Rg mvn fuel la entropy g target np dur n bas cd pd td ws obs spc umb conf tl ms = Ok (s, logs)) \/
  (exists fuel la target np dur bas cd pd td ws obs spc umb conf tl ms l,
     create_deterministic fuel la target np dur bas cd pd td ws obs spc umb conf tl ms = Ok (s, l)).

(** The well locations are numbers or NaN (not infinite), the retained observations are finite numbers. *)
Definition finite_places (c : call) : Prop := forall w, In w (k_wells c) -> fin_or_nan (sx w) /\ fin_or_nan (sy w).

(** ** Well-posed runs *)

(** A distribution given by finite numbers, as a number or a tuple. *)
Definition proper (v : pyval xr) (l : list R) : Prop := entries v (map Fin l) /\ ~ is_list v.
(** A triple whose ends differ (numpy rejects the others). *)
Definition spread (l : list R) : Prop := match l with [a; _; c] => a <> c | _ => True end.

(** [l] are the observations of the call, [kept] those that the filter retains. *)
Record well_posed (a : args xr) (c : call) (l kept : list (obs R)) : Prop := {
  wp_wells : forall w, In w (k_wells c) ->
    (exists x, sx w = Fin x) /\ (exists y, sy w = Fin y) /\ (exists r, sr w = Fin r) /\ (exists q, proper (sq w) q);
  wp_conductivity : exists q, proper (c_dist a) q /\ forall x, In x q -> 0 < x;
  wp_porosity : exists q, proper (p_dist a) q;
  wp_thickness : exists q, proper (t_dist a) q /\ forall x, In x q -> 0 < x;
  wp_spread : (1 < k_n c)%Z -> forall v q, In v (c_dist a :: p_dist a :: t_dist a :: map sq (k_wells c)) -> proper v q -> spread q;
  wp_buffer : exists b, k_buffer c = Fin b;
  wp_spacing : exists d, k_spacing c = Fin d;
  wp_umbra : exists u, k_umbra c = Fin u;
  wp_base : exists b, k_base c = Fin b /\ forall o, In o l -> b < oz o /\ 0 < os o;
  wp_obs : k_obs c = map fobs l;
  wp_kept : retained c (map fobs kept);
  wp_seven : (7 <= List.length kept)%nat;
  wp_free : conic_free kept
}.
