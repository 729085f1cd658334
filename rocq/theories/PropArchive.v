(** * Archives: properties C73, C74, C79

    Written by tools/genprops.py: statements only, each closed by the lemma of the
    same name in ProofArchive.v. *)
From Coq Require Import String ZArith List.
From Verif Require Import Py ModelArchive SpecArchive ProofArchive.
Local Open Scope Z_scope.

(** ** C73 Archiving round-trips every input *)

(** What dump_oneka wrote is read back by load_oneka: twenty entries, each under its own name with the value given,
    and looking up a name gives that value. *)
Theorem C73_roundtrip : forall (V B : Type) (c : codec V B) (f f' : files B) now a,
  faithful c -> dump_oneka c f now a = (f', Ok tt) ->
  exists d, load_oneka c f' (archive_name now) = Ok d /\ records d a /\ forall k v, In (k, v) d -> lookup d k = Some v.
Proof. exact c73_roundtrip. Qed.
Print Assumptions C73_roundtrip.

Example C73_example : faithful plain /\ exists f' d,
  dump_oneka plain empty_disk (noon 7 250000) (run_of 100) = (f', Ok tt) /\
  load_oneka plain f' "logs\Oneka20200725T120007.bz2" = Ok d /\
  lookup d "projectname" = Some 100 /\ lookup d "maxstep" = Some 118 /\ lookup d "pfield" = Some 119 /\ lookup d "volume" = None.
Proof. exact c73_example. Qed.

(** ** C74 Archives of different runs do not overwrite each other *)

(** Two archives have the same name exactly when they are written within the same second. *)
Theorem C74_names_partial : forall t u, valid_time t -> valid_time u -> (archive_name t = archive_name u <-> same_second t u).
Proof. exact c74_names_partial. Qed.
Print Assumptions C74_names_partial.

(** In any sequence of runs (some of which may fail while archiving), an archive that was written and whose second
    does not come again stays readable. *)
Theorem C74_kept_partial : forall (V B : Type) (c : codec V B) (f f1 f' : files B) t a l,
  faithful c -> dump_oneka c f t a = (f1, Ok tt) -> archive_runs c f1 l f' ->
  valid_time t -> (forall u b, In (u, b) l -> valid_time u) -> never_again t l ->
  exists d, load_oneka c f' (archive_name t) = Ok d /\ records d a.
Proof. exact c74_kept_partial. Qed.
Print Assumptions C74_kept_partial.

(** Two runs archived half a second apart: the second archive replaces the first. *)
Theorem C74_refuted : let t := noon 7 0 in let u := noon 7 500000 in
  valid_time t /\ valid_time u /\ t <> u /\ archive_name t = archive_name u /\
  forall (V B : Type) (c : codec V B) (f f1 f2 : files B) a b, faithful c ->
    dump_oneka c f t a = (f1, Ok tt) -> dump_oneka c f1 u b = (f2, Ok tt) ->
    exists d, load_oneka c f2 (archive_name t) = Ok d /\ records d b.
Proof. exact c74_refuted. Qed.
Print Assumptions C74_refuted.

Example C74_example : exists f1 f' d,
  dump_oneka plain empty_disk (noon 7 0) (run_of 0) = (f1, Ok tt) /\
  archive_runs plain f1 [(noon 8 0, run_of 100); (noon 9 0, run_of 200)] f' /\
  load_oneka plain f' (archive_name (noon 7 0)) = Ok d /\ lookup d "npaths" = Some 3.
Proof. exact c74_example. Qed.

(** ** C79 A run that dies while archiving harms no earlier archive *)

(** A process killed while archiving, or a failing archive, changes no file except the one being written. *)
Theorem C79_crash : forall (V B : Type) (c : codec V B) (f f' : files B) now a,
  crash_state c f now a f' -> forall n, n <> archive_name now -> f' n = f n /\ load_oneka c f' n = load_oneka c f n.
Proof. exact c79_crash. Qed.
Print Assumptions C79_crash.

(** Archives written before a crash, in other seconds, are still read back. *)
Theorem C79_archives : forall (V B : Type) (c : codec V B) (f f1 f' : files B) t a now b,
  faithful c -> dump_oneka c f t a = (f1, Ok tt) -> crash_state c f1 now b f' ->
  valid_time t -> valid_time now -> ~ same_second t now ->
  exists d, load_oneka c f' (archive_name t) = Ok d /\ records d a.
Proof. exact c79_archives. Qed.
Print Assumptions C79_archives.

(** The file being written when the process is killed is left behind, and cannot be loaded. *)
Example C79_example : exists f1 f',
  dump_oneka plain empty_disk (noon 7 0) (run_of 0) = (f1, Ok tt) /\ crash_state plain f1 (noon 8 0) (run_of 100) f' /\
  load_oneka plain f' (archive_name (noon 8 0)) = Raise ValueError /\ f' (archive_name (noon 8 0)) <> None /\
  load_oneka plain f' (archive_name (noon 7 0)) = load_oneka plain f1 (archive_name (noon 7 0)).
Proof. exact c79_example. Qed.
