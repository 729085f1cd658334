(** * Model of /repo/runme.py from the name of a data module to the files

    [ModelLogging.main] is the part of [main] after the import; here are the import, the attributes of the module, the
    directory of the log file and of the archive, [profile_me] and the lines that run as a script. *)
From Coq Require Import String Ascii SpecFloat.
From Verif Require Import Py Num ModelDist ModelArchive ModelMain ModelText ModelLog ModelTranscript ModelLogging.
Local Open Scope string_scope.

(** What separates the directories of a path: both slashes on Windows, the forward slash elsewhere. *)
Inductive platform := Windows | Posix.
Definition separator (p : platform) (a : ascii) : bool :=
  match p with Windows => Ascii.eqb a "\" || Ascii.eqb a "/" | Posix => Ascii.eqb a "/" end.
(** The text before the last separator; a path without one is in the working directory. *)
Fixpoint parent (p : platform) (path : string) : option string :=
  match path with
  | EmptyString => None
  | String a r => match parent p r with Some d => Some (String a d) | None => if separator p a then Some "" else None end
  end.
(** A file is opened for writing: its directory must exist.  FileNotFoundError is an OSError, which nothing in the program
    catches; it is represented by ValueError as in ModelArchive.v.  Permissions and full disks are not modelled. *)
Definition open_new (p : platform) (dirs : list string) (path : string) : res unit :=
  match parent p path with
  | None => Ok tt
  | Some d => if existsb (String.eqb d) dirs then Ok tt else Raise ValueError
  end.

(** [importlib.import_module(name)]: ModuleNotFoundError, with the name of the module that is missing (the one asked for, or one that
    it imports); another exception; or a module, whose attributes are given. *)
Inductive imported := Absent (missing : string) | Fails (e : exn) | Found (ns : list (string * val)).

Definition getattr (ns : list (string * val)) (n : string) : res val :=
  match find (fun kv => String.eqb (fst kv) n) ns with Some kv => Ok (snd kv) | None => Raise AttributeError end.
(** runme.py:60-66: the arguments of the call of oneka, in order. *)
Definition fetch (ns : list (string * val)) (asctime : string) : res (args spec_float) :=
  let! p := getattr ns "PROJECTNAME" in
  let! ta := getattr ns "TARGET" in
  let! np := getattr ns "NPATHS" in
  let! du := getattr ns "DURATION" in
  let! nr := getattr ns "NREALIZATIONS" in
  let! ba := getattr ns "BASE" in
  let! c := getattr ns "C_DIST" in
  let! po := getattr ns "P_DIST" in
  let! t := getattr ns "T_DIST" in
  let! ws := getattr ns "WELLS" in
  let! os := getattr ns "OBSERVATIONS" in
  let! bu := getattr ns "BUFFER" in
  let! sp := getattr ns "SPACING" in
  let! um := getattr ns "UMBRA" in
  let! sm := getattr ns "SMOOTH" in
  let! co := getattr ns "CONFINED" in
  let! tl := getattr ns "TOL" in
  let! ms := getattr ns "MAXSTEP" in
  Ok {| projectname := p; runtime := PStr asctime; target := ta; npaths := np; duration := du; nrealizations := nr; base_ := ba;
        c_dist := c; p_dist := po; t_dist := t; stochastic_wells := ws; observations := os; buffer := bu; spacing := sp; umbra := um;
        smooth := sm; confined := co; tol := tl; maxstep := ms |}.

(** The surroundings of a process. *)
Record machine := { plat : platform; dirs : list string; import : string -> imported }.
(** What the clock says: [time.asctime()], the stamp of the log file, the elapsed time. *)
Record clock := { asctime : string; stamp : string; elapsed : spec_float }.

(** runme.py:33-75, [main(module_name)].  The result: the state of logging, what is written, the log file that was opened (FileHandler
    creates it at once), how it ended. *)
Definition program (w : machine) (run : args spec_float -> story (result spec_float)) (c : logging) (t : clock) (module_name : string)
  : logging * list (place * string) * list string * res unit :=
  match import w module_name with
  | Absent _ => (c, [(Stdout, "ModuleNotFoundError: No module named " ++ module_name)], [], Ok tt)
  | Fails e => (c, [], [], Raise e)
  | Found ns =>
      match getattr ns "PROJECTNAME" with
      | Ok p =>
          let hello := [(Stdout, "Running: " ++ str p)] in
          let c1 := {| levels := (oneka_logger, Info) :: levels c; handlers := handlers c |} in
          match open_new (plat w) (dirs w) (log_file (stamp t)) with
          | Ok _ =>
              match fetch ns (asctime t) with
              | Ok a => let '(c', out, r) := main c a (stamp t) (Ok tt) (run a) (elapsed t) in (c', out, [log_file (stamp t)], r)
              | Raise e =>
                  ({| levels := levels c1; handlers := (handlers c1 ++ [{| h_on := oneka_logger; h_level := Info; h_file := log_file (stamp t) |}])%list |},
                   hello, [log_file (stamp t)], Raise e)
              | NoFuel => (c1, hello, [], NoFuel)
              end
          | Raise e => (c1, hello, [], Raise e)
          | NoFuel => (c1, hello, [], NoFuel)
          end
      | Raise e => (c, [], [], Raise e)
      | NoFuel => (c, [], [], NoFuel)
      end
  end.

(** archive.py:56, 81: the archive is opened in the same directory; [pickled] is the rest of [dump_oneka]. *)
Definition dump_there (w : machine) (now : datetime) (pickled : run_args (pyobj spec_float) -> res unit) (a : run_args (pyobj spec_float)) : res unit :=
  let! _ := open_new (plat w) (dirs w) (archive_name now) in pickled a.

(** runme.py:78-86, [profile_me()]: [module_name] is a global name, which exists only if runme is run as a script; what the profiler
    prints is not modelled. *)
Definition profile_me (w : machine) (run : args spec_float -> story (result spec_float)) (c : logging) (t : clock) (module_name : option string)
  : logging * list (place * string) * list string * res unit :=
  match module_name with None => (c, [], [], Raise NameError) | Some n => program w run c t n end.

(** runme.py:90-94, with [entered] the line that is typed. *)
Definition script (w : machine) (run : args spec_float -> story (result spec_float)) (t : clock) (entered : string)
  : logging * list (place * string) * list string * res unit :=
  let ask := [(Stdout, "Enter the data module name (without .py, e.g. data.basic): ")] in
  let '(c, out, fs, r) := program w run fresh t entered in
  (c, (ask ++ out ++ match r with Ok _ => [(Stdout, "\\\\\\\\\ DONE //////////////////")] | _ => [] end)%list, fs, r).
