(** * Model of /repo/oneka/archive.py *)
From Coq Require Import String Ascii.
From Verif Require Import Py.
Local Open Scope string_scope.

(** [datetime.now()] truncated to what strftime uses, and the microseconds it drops. *)
Record datetime := {
  year : Z; month : Z; day : Z; hour : Z; minute : Z; second : Z; microsecond : Z
}.

(** One decimal digit. *)
Definition digit (d : Z) : string := String (ascii_of_nat (48 + Z.to_nat d)) "".

(** Zero-padded decimal representations as produced by %m %d %H %M %S (two digits) and %Y
    (four digits; years 1000..9999). *)
Definition two (n : Z) : string := digit (n / 10 mod 10)%Z ++ digit (n mod 10)%Z.
Definition four (n : Z) : string := two (n / 100)%Z ++ two (n mod 100)%Z.

(** archive.py:56: 'logs\\Oneka' + now.strftime('%Y%m%dT%H%M%S') + '.bz2' *)
Definition archive_name (t : datetime) : string :=
  "logs\Oneka" ++ four (year t) ++ two (month t) ++ two (day t) ++ "T"
               ++ two (hour t) ++ two (minute t) ++ two (second t) ++ ".bz2".

Section Archive.
  (** [V]: Python objects; [B]: file contents.  pickle and bz2 are external. *)
  Context {V B : Type}.
  Definition dict := list (string * V).

  Record codec := {
    pickle_bz2 : dict -> res B;              (* pickle.dump into a BZ2File *)
    unpickle_bz2 : B -> res dict;            (* pickle.load from a BZ2File *)
    partial_bz2 : dict -> nat -> B;          (* file contents after n bytes were written *)
    raised_after : dict -> nat               (* bytes written when pickling raises *)
  }.

  (** The arguments of dump_oneka: archive.py:46-53. *)
  Record run_args := {
    a_projectname : V; a_runtime : V; a_target : V; a_npaths : V; a_duration : V;
    a_nrealizations : V; a_base : V; a_c_dist : V; a_p_dist : V; a_t_dist : V;
    a_stochastic_wells : V; a_observations : V; a_buffer : V; a_spacing : V; a_umbra : V;
    a_smooth : V; a_confined : V; a_tol : V; a_maxstep : V; a_pfield : V
  }.

  (** archive.py:59-79 *)
  Definition oneka_dict (a : run_args) : dict :=
    [ ("projectname", a_projectname a); ("runtime", a_runtime a); ("target", a_target a);
      ("npaths", a_npaths a); ("duration", a_duration a); ("nrealizations", a_nrealizations a);
      ("base", a_base a); ("c_dist", a_c_dist a); ("p_dist", a_p_dist a); ("t_dist", a_t_dist a);
      ("stochastic_wells", a_stochastic_wells a); ("observations", a_observations a);
      ("buffer", a_buffer a); ("spacing", a_spacing a); ("umbra", a_umbra a);
      ("smooth", a_smooth a); ("confined", a_confined a); ("tol", a_tol a);
      ("maxstep", a_maxstep a); ("pfield", a_pfield a) ].

  (** [d[key]] *)
  Definition lookup (d : dict) (k : string) : option V :=
    match find (fun kv => String.eqb (fst kv) k) d with
    | Some kv => Some (snd kv)
    | None => None
    end.

  (** Files: name to contents. *)
  Definition files := string -> option B.
  Definition write (f : files) (name : string) (b : B) : files :=
    fun n => if String.eqb n name then Some b else f n.

  (** archive.py:81-82: the file is opened for writing (truncated) and then filled; if
      pickling raises, what was written so far stays. *)
  Definition dump_oneka (c : codec) (f : files) (now : datetime) (a : run_args) : files * res unit :=
    let name := archive_name now in
    let d := oneka_dict a in
    match pickle_bz2 c d with
    | Ok b => (write f name b, Ok tt)
    | Raise e => (write f name (partial_bz2 c d (raised_after c d)), Raise e)
    | NoFuel => (f, NoFuel)
    end.

  (** The states of the file system that a process killed during [dump_oneka] can leave. *)
  Inductive crash_state (c : codec) (f : files) (now : datetime) (a : run_args) : files -> Prop :=
  | crash_before : crash_state c f now a f
  | crash_during : forall n,
      crash_state c f now a (write f (archive_name now) (partial_bz2 c (oneka_dict a) n))
  | crash_after : crash_state c f now a (fst (dump_oneka c f now a)).

  (** archive.py:85-89; a missing file raises (FileNotFoundError is an OSError, here
      represented by ValueError). *)
  Definition load_oneka (c : codec) (f : files) (name : string) : res dict :=
    match f name with
    | None => Raise ValueError
    | Some b => unpickle_bz2 c b
    end.
End Archive.
Arguments dict V : clear implicits.
Arguments codec V B : clear implicits.
Arguments run_args V : clear implicits.
Arguments files B : clear implicits.
