(** * Specification of the archive *)
From Coq Require Import String ZArith List.
From Verif Require Import Py ModelArchive.
Import ListNotations.
Local Open Scope Z_scope.

(** pickle and bz2: what was written can be read back. *)
Definition faithful {V B} (c : codec V B) : Prop :=
  forall d b, pickle_bz2 c d = Ok b -> unpickle_bz2 c b = Ok d.

(** Clock readings with a year of four digits. *)
Definition valid_time (t : datetime) : Prop :=
  1000 <= year t <= 9999 /\ 1 <= month t <= 12 /\ 1 <= day t <= 31 /\
  0 <= hour t <= 23 /\ 0 <= minute t <= 59 /\ 0 <= second t <= 59 /\ 0 <= microsecond t <= 999999.

(** Two readings within the same second. *)
Definition same_second (t u : datetime) : Prop :=
  year t = year u /\ month t = month u /\ day t = day u /\ hour t = hour u /\ minute t = minute u /\ second t = second u.

(** [d] has exactly the twenty entries of a run, each name once, each with the value of the argument of that name. *)
Definition records {V} (d : dict V) (a : run_args V) : Prop :=
  length d = 20%nat /\ NoDup (map fst d) /\
  forall k v, In (k, v) d <-> In (k, v)
    [("projectname"%string, a_projectname a); ("runtime"%string, a_runtime a); ("target"%string, a_target a);
     ("npaths"%string, a_npaths a); ("duration"%string, a_duration a); ("nrealizations"%string, a_nrealizations a);
     ("base"%string, a_base a); ("c_dist"%string, a_c_dist a); ("p_dist"%string, a_p_dist a); ("t_dist"%string, a_t_dist a);
     ("stochastic_wells"%string, a_stochastic_wells a); ("observations"%string, a_observations a); ("buffer"%string, a_buffer a);
     ("spacing"%string, a_spacing a); ("umbra"%string, a_umbra a); ("smooth"%string, a_smooth a); ("confined"%string, a_confined a);
     ("tol"%string, a_tol a); ("maxstep"%string, a_maxstep a); ("pfield"%string, a_pfield a)].

(** A sequence of archived runs: the states of the disk before and after. *)
Inductive archive_runs {V B} (c : codec V B) : files B -> list (datetime * run_args V) -> files B -> Prop :=
| runs_nil f : archive_runs c f [] f
| runs_cons f t a r f1 l f' : dump_oneka c f t a = (f1, r) -> archive_runs c f1 l f' -> archive_runs c f ((t, a) :: l) f'.

(** Later runs are not in the same second as [t]. *)
Definition never_again {V} (t : datetime) (l : list (datetime * run_args V)) : Prop :=
  forall u b, In (u, b) l -> ~ same_second t u.
