(** * runme.py as a whole: C130

    Written by tools/genprops.py: statements only, each closed by the lemma of the
    same name in ProofSession.v. *)
From Coq Require Import String Ascii SpecFloat ZArith List.
From Verif Require Import Py Num ModelDist ModelArchive ModelMain ModelText ModelLog ModelTranscript ModelLogging ModelData ModelSession SpecTranscript ProofLogging SpecSession ProofSession.
Import ListNotations.
Local Open Scope string_scope.

(** ** C130 runme.py runs the data module it is given *)

(** C130.  On Windows the log file and the archive are in the directory logs; elsewhere they are in the working directory, with a backslash in their names. *)
Theorem C130_where : forall (t : clock) (now : datetime),
  (file_here Windows (stamp t) -> file_in Windows "logs" (log_file (stamp t))) /\ file_in Windows "logs" (archive_name now) /\
  (file_here Posix (stamp t) -> file_here Posix (log_file (stamp t))) /\ file_here Posix (archive_name now).
Proof. exact c130_where. Qed.
Print Assumptions C130_where.

(** C130.  A module that is not found: a message, and nothing else. *)
Theorem C130_absent : forall (w : machine) (run : args spec_float -> story (result spec_float)) (c : logging) (t : clock) (name missing : string),
  import w name = Absent missing -> program w run c t name = (c, [(Stdout, "ModuleNotFoundError: No module named " ++ name)], [], Ok tt).
Proof. exact c130_absent. Qed.
Print Assumptions C130_absent.

(** C130.  A module with all the names: oneka is called once, with the values of the names, and what it says goes where C109 and C110 say.  The condition is that the
    log file can be opened: on Windows there is a directory logs. *)
Theorem C130_runs_partial : forall (w : machine) (run : args spec_float -> story (result spec_float)) (c : logging) (t : clock) (name : string) (ns : list (string * val)),
  import w name = Found ns -> (forall n f, In (n, f) required -> In n (map fst ns)) -> file_here (plat w) (stamp t) -> (plat w = Windows -> In "logs" (dirs w)) ->
  exists a c' out r, values_of ns (asctime t) a /\ main c a (stamp t) (Ok tt) (run a) (elapsed t) = (c', out, r) /\ program w run c t name = (c', out, [log_file (stamp t)], r).
Proof. exact c130_runs_partial. Qed.
Print Assumptions C130_runs_partial.

(** C130.  A module without the name PROJECTNAME: AttributeError before anything is done.  Without another of the names: AttributeError after the log file was made; it is
    left empty, and the handler stays. *)
Theorem C130_lacking : forall (w : machine) (run : args spec_float -> story (result spec_float)) (c : logging) (t : clock) (name : string) (ns : list (string * val)),
  import w name = Found ns ->
  (~ In "PROJECTNAME" (map fst ns) -> program w run c t name = (c, [], [], Raise AttributeError)) /\
  (forall p n f, NoDup (map fst ns) -> In ("PROJECTNAME", p) ns -> In (n, f) required -> ~ In n (map fst ns) -> open_new (plat w) (dirs w) (log_file (stamp t)) = Ok tt ->
   exists c', program w run c t name = (c', [(Stdout, "Running: " ++ str p)], [log_file (stamp t)], Raise AttributeError) /\
     forall stamps, after_calls stamps c -> after_calls (stamps ++ [stamp t])%list c').
Proof. exact c130_lacking. Qed.
Print Assumptions C130_lacking.

(** C130.  So the next call in the process writes its lines to the file of the failed call, too. *)
Theorem C130_leftover : forall (w : machine) (run : args spec_float -> story (result spec_float)) (t t' : clock) (name name' : string) (ns ns' : list (string * val)) p n f,
  (forall a, Forall two_kinds (messages (fst (run a)))) ->
  import w name = Found ns -> NoDup (map fst ns) -> In ("PROJECTNAME", p) ns -> In (n, f) required -> ~ In n (map fst ns) ->
  import w name' = Found ns' -> (forall n f, In (n, f) required -> In n (map fst ns')) ->
  file_here (plat w) (stamp t) -> file_here (plat w) (stamp t') -> (plat w = Windows -> In "logs" (dirs w)) -> stamp t <> stamp t' ->
  exists c a c' out r, fst (fst (fst (program w run fresh t name))) = c /\ values_of ns' (asctime t') a /\ program w run c t' name' = (c', out, [log_file (stamp t')], r) /\
    written_to (File (log_file (stamp t))) out = program_lines (run a) (elapsed t') /\ written_to (File (log_file (stamp t'))) out = program_lines (run a) (elapsed t').
Proof. exact c130_leftover. Qed.
Print Assumptions C130_leftover.

(** C130.  On Windows without a directory logs, as in a new copy of the repository, every run ends with FileNotFoundError before oneka is called. *)
Theorem C130_windows_refuted : forall (w : machine) (run : args spec_float -> story (result spec_float)) (c : logging) (t : clock) (name : string) (ns : list (string * val)) p,
  plat w = Windows -> ~ In "logs" (dirs w) -> file_here Windows (stamp t) -> import w name = Found ns -> NoDup (map fst ns) -> In ("PROJECTNAME", p) ns ->
  exists c', program w run c t name = (c', [(Stdout, "Running: " ++ str p)], [], Raise ValueError) /\ handlers c' = handlers c.
Proof. exact c130_windows_refuted. Qed.
Print Assumptions C130_windows_refuted.

(** C130.  Elsewhere no log file and no archive is in a directory logs, whether there is one or not. *)
Theorem C130_posix_refuted : forall (t : clock) (now : datetime), file_here Posix (stamp t) -> ~ file_in Posix "logs" (log_file (stamp t)) /\ ~ file_in Posix "logs" (archive_name now).
Proof. exact c130_posix_refuted. Qed.
Print Assumptions C130_posix_refuted.

(** C130.  The archive. *)
Theorem C130_archive : forall (w : machine) (now : datetime) (pickled : run_args (pyobj spec_float) -> res unit) (a : run_args (pyobj spec_float)),
  (plat w = Posix \/ In "logs" (dirs w) -> dump_there w now pickled a = pickled a) /\
  (plat w = Windows -> ~ In "logs" (dirs w) -> dump_there w now pickled a = Raise ValueError).
Proof. exact c130_archive. Qed.
Print Assumptions C130_archive.

(** C130.  The message names the module that was asked for, although that one is there and another one is missing. *)
Theorem C130_blame_refuted : exists (w : machine) (name missing : string), import w name = Absent missing /\ missing <> name /\
  forall run c t, program w run c t name = (c, [(Stdout, "ModuleNotFoundError: No module named " ++ name)], [], Ok tt).
Proof. exact c130_blame_refuted. Qed.
Print Assumptions C130_blame_refuted.

(** C130.  As a script: the last line is printed exactly if main has returned, which it does when there is no such module. *)
Theorem C130_script : forall (w : machine) (run : args spec_float -> story (result spec_float)) (t : clock) (entered : string) c out fs r,
  program w run fresh t entered = (c, out, fs, r) ->
  exists last, script w run t entered = (c, (Stdout, "Enter the data module name (without .py, e.g. data.basic): ") :: out ++ last, fs, r)%list /\
    (r = Ok tt -> last = [(Stdout, "\\\\\\\\\ DONE //////////////////")]) /\ (r <> Ok tt -> last = []) /\
    (forall missing, import w entered = Absent missing -> r = Ok tt /\ fs = []).
Proof. exact c130_script. Qed.
Print Assumptions C130_script.

(** C130.  profile_me, called from another module, knows no module name. *)
Theorem C130_profile : forall (w : machine) (run : args spec_float -> story (result spec_float)) (c : logging) (t : clock) (name : string),
  profile_me w run c t None = (c, [], [], Raise NameError) /\ profile_me w run c t (Some name) = program w run c t name.
Proof. exact c130_profile. Qed.
Print Assumptions C130_profile.

(** C130.  The data sets that come with the program have all the names, and main calls oneka with what [data_args] says. *)
Theorem C130_data : forall (N : Num spec_float) (d : dataset) (t : string) (a : args spec_float),
  NoDup (map fst (module_of N d)) /\ (forall n f, In (n, f) required -> In n (map fst (module_of N d))) /\ (values_of (module_of N d) t a <-> a = data_args d t).
Proof. exact c130_data. Qed.
Print Assumptions C130_data.

Example C130_example : forall N : Num spec_float,
  (exists c, script (copy N Windows ["logs"]) one_line noon "data.basic" =
   (c, [(Stdout, "Enter the data module name (without .py, e.g. data.basic): "); (Stdout, "Running: Basic example");
        (File "logs\Oneka20201117T120000.log", "Project: Basic example"); (File "logs\Oneka20201117T120000.log", newline);
        (File "logs\Oneka20201117T120000.log", "Total elapsed time = 0.0000 seconds"); (Stdout, newline ++ newline ++ "Total elapsed time = 0.0000 seconds");
        (Stdout, "\\\\\\\\\ DONE //////////////////")], ["logs\Oneka20201117T120000.log"], Ok tt)) /\
  snd (script (copy N Posix []) one_line noon "data.basic") = Ok tt /\ snd (script (copy N Windows []) one_line noon "data.basic") = Raise ValueError /\
  snd (script (copy N Posix []) one_line noon "short") = Raise AttributeError /\
  snd (fst (fst (script (copy N Posix []) one_line noon "data.basics"))) =
   [(Stdout, "Enter the data module name (without .py, e.g. data.basic): "); (Stdout, "ModuleNotFoundError: No module named data.basics"); (Stdout, "\\\\\\\\\ DONE //////////////////")].
Proof. exact c130_example. Qed.

(** A call that fails, and the next one in the same process: the file of the first call gets the lines of the second. *)
Example C130_leftover_example : forall N : Num spec_float,
  let w := copy N Posix [] in let c := fst (fst (fst (program w one_line fresh noon "short"))) in
  let later := {| asctime := "Tue Nov 17 12:00:01 2020"; stamp := "20201117T120001"; elapsed := S754_zero false |} in
  written_to (File "logs\Oneka20201117T120000.log") (snd (fst (fst (program w one_line c later "data.basic")))) =
  ["Project: Basic example"; newline; "Total elapsed time = 0.0000 seconds"].
Proof. exact c130_leftover_example. Qed.
