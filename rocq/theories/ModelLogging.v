(** * Model of where messages go: Python's logging as runme.py sets it up

    logging itself (levels, the hierarchy of loggers, handlers, the handler of last resort) is modelled after its
    documentation; the lines are the messages (the default formatter writes the message and a newline). *)
From Coq Require Import String Ascii SpecFloat.
From Verif Require Import Py Num ModelDist ModelMain ModelText ModelLog ModelTranscript.
Local Open Scope string_scope.
Local Open Scope Z_scope.

(** The numeric values of the levels. *)
Definition rank (l : level) : Z := match l with Debug => 10 | Info => 20 | Warning => 30 | Error => 40 end.

(** A file handler: the logger it is attached to, its level, its file. *)
Record handler := { h_on : string; h_level : level; h_file : string }.
(** Levels that have been set, the most recent first, and the handlers in the order they were attached. *)
Record logging := { levels : list (string * level); handlers : list handler }.
(** A new process: nothing is set; the root logger is at WARNING. *)
Definition fresh : logging := {| levels := []; handlers := [] |}.

(** The proper prefixes of a name that end before a dot, shortest first. *)
Fixpoint dotted (s : string) : list string :=
  match s with
  | EmptyString => []
  | String c r => ((if Ascii.eqb c "." then [""] else []) ++ map (String c) (dotted r))%list
  end.
(** A logger and its ancestors, nearest first; the root logger is the empty name. *)
Definition lineage (name : string) : list string :=
  if String.eqb name "" then [""] else (name :: rev (dotted name) ++ [""])%list.

Fixpoint lookup (name : string) (l : list (string * level)) : option level :=
  match l with
  | [] => None
  | (n, v) :: r => if String.eqb n name then Some v else lookup name r
  end.
(** [Logger.getEffectiveLevel] *)
Fixpoint effective (names : list string) (l : list (string * level)) : level :=
  match names with
  | [] => Warning
  | n :: r => match lookup n l with Some v => v | None => effective r l end
  end.

Inductive place := File (name : string) | Stderr | Stdout.

(** [Logger.handle]: where a message is written. When no handler is attached to the logger or an ancestor, the
    handler of last resort writes it to stderr if its level is WARNING or higher. *)
Definition destinations (c : logging) (m : message) : list place :=
  let names := lineage (from m) in
  if rank (at_level m) <? rank (effective names (levels c)) then []
  else
    match flat_map (fun n => filter (fun h => String.eqb (h_on h) n) (handlers c)) names with
    | [] => if rank (at_level m) <? rank Warning then [] else [Stderr]
    | hs => map (fun h => File (h_file h)) (filter (fun h => rank (h_level h) <=? rank (at_level m)) hs)
    end.
Definition write (c : logging) (m : message) : list (place * string) := map (fun p => (p, text m)) (destinations c m).
Definition writes (c : logging) (ms : list moment) : list (place * string) :=
  flat_map (fun x => match x with Said m => write c m | Did _ => [] end) ms.

(** runme.py:50: the name has a backslash; [stamp] is [datetime.now().strftime('%Y%m%dT%H%M%S')]. *)
Definition log_file (stamp : string) : string := "logs\Oneka" ++ stamp ++ ".log".

(** runme.py:32-76, [main(module_name)] for a module that can be imported, defines all the names and whose values are
    [a] (with RUNTIME the text of time.asctime()); [run] is the call of oneka, [opened] whether the log file can be
    opened, [elapsed] the elapsed time.  The handler stays attached: [logging.shutdown()] closes the files, and a
    handler that is used again opens its file again, to append. *)
Definition main (c : logging) (a : args spec_float) (stamp : string) (opened : res unit) (run : story (result spec_float))
           (elapsed : spec_float) : logging * list (place * string) * res unit :=
  let c1 := {| levels := (oneka_logger, Info) :: levels c; handlers := handlers c |} in
  let hello := [(Stdout, "Running: " ++ str (projectname a))] in
  match opened with
  | Ok _ =>
      let c2 := {| levels := levels c1;
                   handlers := (handlers c1 ++ [{| h_on := oneka_logger; h_level := Info; h_file := log_file stamp |}])%list |} in
      let said := writes c2 (fst run) in
      match snd run with
      | Ok _ =>
          let total := "Total elapsed time = " ++ fmt_f false false 4 elapsed ++ " seconds" in
          (c2, (hello ++ said ++ writes c2 (infos [newline; total]) ++ [(Stdout, (newline ++ newline ++ total)%string)])%list, Ok tt)
      | Raise e => (c2, (hello ++ said)%list, Raise e)
      | NoFuel => (c2, (hello ++ said)%list, NoFuel)
      end
  | Raise e => (c1, hello, Raise e)
  | NoFuel => (c1, hello, NoFuel)
  end.
