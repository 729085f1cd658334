(** * Everything a run says, and where it goes: C108-C111

    Written by tools/genprops.py: statements only, each closed by the lemma of the
    same name in ProofTranscriptMain.v, ProofTranscriptShape.v, ProofLogging.v, ProofLoggingEx.v, ProofErrorLine.v, ProofErrorLineEx.v. *)
From Coq Require Import String SpecFloat ZArith List.
From Verif Require Import Py Num ModelField ModelAquifer ModelTrace ModelObs ModelDist ModelDriver ModelPlot ModelArchive ModelMain ModelText ModelLog ModelTranscript ModelLogging SpecTranscript SpecLog ProofLog ProofFilterLog ProofTranscriptMain ProofTranscriptShape ProofLogging ProofLoggingEx ProofErrorLine ProofErrorLineEx.
Import ListNotations.
Local Open Scope string_scope.

(** ** C108 The transcript of a run *)

(** A stochastic run that returns has written, for each realization in turn, its three lines with the numbers of the
    run's log and then one warning for every trace that ended early; and nothing else. *)
Theorem C108_stochastic : forall (lm : libm) (G E : Type) (R : rng spec_float G) (mvn : E -> list spec_float -> list (list spec_float) -> list spec_float)
    fuel la entropy g target npaths duration nrealizations bv base cd pd td ws w os spacing umbra confined tol maxstep ms pf,
  nth_error ws target = Some w -> (0 <= npaths)%Z -> num_of (N := SF lm) bv = Some base -> Forall plain [bv; cd; pd; td] ->
  stochastic_said (N := SF lm) R mvn fuel la entropy g target npaths duration nrealizations bv base cd pd td ws os spacing umbra confined tol maxstep = (ms, Ok pf) ->
  exists ths logs blocks, List.length ths = Z.to_nat npaths /\ List.length logs = Z.to_nat nrealizations /\ List.length blocks = Z.to_nat nrealizations /\
    create_stochastic (N := SF lm) R mvn fuel la entropy g target npaths duration nrealizations base cd pd td ws os spacing umbra confined tol maxstep = Ok (pf, logs) /\
    ms = map Said (concat blocks) /\
    forall k l msgs, nth_error logs k = Some l -> nth_error blocks k = Some msgs ->
      told (N := SF lm) fuel la ws os w ths duration base tol maxstep confined (mvn (entropy k)) k l msgs.
Proof. exact c108_stochastic. Qed.
Print Assumptions C108_stochastic.

(** When it raises, it has written the blocks of the realizations before the one that raised, and of that one nothing, or
    the message of the least squares, or its three lines and the warnings of the paths that were traced. *)
Theorem C108_stochastic_raises : forall (lm : libm) (G E : Type) (R : rng spec_float G) (mvn : E -> list spec_float -> list (list spec_float) -> list spec_float)
    fuel la entropy g target npaths duration nrealizations bv base cd pd td ws w os spacing umbra confined tol maxstep ms x,
  nth_error ws target = Some w -> (0 <= npaths)%Z -> num_of (N := SF lm) bv = Some base -> Forall plain [bv; cd; pd; td] ->
  stochastic_said (N := SF lm) R mvn fuel la entropy g target npaths duration nrealizations bv base cd pd td ws os spacing umbra confined tol maxstep = (ms, Raise x) ->
  create_stochastic (N := SF lm) R mvn fuel la entropy g target npaths duration nrealizations base cd pd td ws os spacing umbra confined tol maxstep = Raise x /\
  exists ths logs blocks rest, List.length ths = Z.to_nat npaths /\ List.length blocks = List.length logs /\
    (List.length logs <= Z.to_nat nrealizations - 1)%nat /\
    ms = map Said (List.app (concat blocks) rest) /\
    (forall k l msgs, nth_error logs k = Some l -> nth_error blocks k = Some msgs ->
      told (N := SF lm) fuel la ws os w ths duration base tol maxstep confined (mvn (entropy k)) k l msgs) /\
    broken_off (N := SF lm) fuel la ws os w ths duration base tol maxstep confined (mvn (entropy (List.length logs))) (List.length logs) rest.
Proof. exact c108_stochastic_raises. Qed.
Print Assumptions C108_stochastic_raises.

(** A run that writes its messages does what the run of ModelMain does: the same result or exception, the same figures
    and archive, in the same order. The only other way to stop is an integer that cannot be converted to a float. *)
Theorem C108_same : forall (lm : libm) (G E : Type) (R : rng spec_float G) (mvn : E -> list spec_float -> list (list spec_float) -> list spec_float)
    (dump : run_args (pyobj spec_float) -> res unit) fuel la entropy g (a : args spec_float),
  Forall convertible (List.app (rounded_arguments a) [c_dist a; p_dist a; t_dist a]) ->
  snd (oneka_said (N := SF lm) R mvn dump fuel la entropy g a) = snd (oneka (N := SF lm) R mvn dump fuel la entropy g a) /\
  deeds (fst (oneka_said (N := SF lm) R mvn dump fuel la entropy g a)) = filter lasting (fst (oneka (N := SF lm) R mvn dump fuel la entropy g a)).
Proof. exact c108_same. Qed.
Print Assumptions C108_same.

(** A deterministic run: its fourteen lines, then the warnings; when it raises, nothing, the message of the least squares,
    the first four lines (a porosity that is not a number), or the fourteen lines and the warnings so far. *)
Theorem C108_deterministic : forall (lm : libm) fuel la target npaths duration bv base cd pd td ws w os spacing umbra confined tol maxstep ms r,
  nth_error ws target = Some w -> (0 <= npaths)%Z -> num_of (N := SF lm) bv = Some base -> Forall plain [bv; cd; pd; td] ->
  deterministic_said (N := SF lm) fuel la target npaths duration bv base cd pd td ws os spacing umbra confined tol maxstep = (ms, r) ->
  exists ths msgs, List.length ths = Z.to_nat npaths /\ ms = map Said msgs /\
    ((exists pf l, r = Ok pf /\
        create_deterministic (N := SF lm) fuel la target npaths duration base cd pd td ws os spacing umbra confined tol maxstep = Ok (pf, l) /\
        told_once (N := SF lm) fuel la ws os w ths duration base tol maxstep confined l msgs) \/
     ((forall pf, r <> Ok pf) /\
      (forall e, r = Raise e ->
         create_deterministic (N := SF lm) fuel la target npaths duration base cd pd td ws os spacing umbra confined tol maxstep = Raise e) /\
      broken_off_once (N := SF lm) fuel la ws os w ths duration base tol maxstep confined msgs)).
Proof. exact c108_deterministic. Qed.
Print Assumptions C108_deterministic.

(** A stochastic run that ends, from the first line to the last, beside the numbers of ModelMain's run. *)
Theorem C108_run_stochastic : forall (lm : libm) (G E : Type) (R : rng spec_float G) (mvn : E -> list spec_float -> list (list spec_float) -> list spec_float)
    (dump : run_args (pyobj spec_float) -> res unit) fuel la entropy g (a : args spec_float) nreal ms v,
  Forall convertible (List.app (rounded_arguments a) [c_dist a; p_dist a; t_dist a]) -> integer_of (nrealizations a) = Some nreal -> (1 < nreal)%Z ->
  oneka_said (N := SF lm) R mvn dump fuel la entropy g a = (ms, Ok v) ->
  exists active obs st logs X Y P pr area rows pf filtered blocks,
    v = RNone /\
    oneka (N := SF lm) R mvn dump fuel la entropy g a =
      ([EBanner; EFiltered obs; ESummary st; ERealizations logs; EProbabilityPlot X Y P; EImpactPlot pr area; EDeciles rows; EArchive (archived a pf); EShow], Ok RNone) /\
    obs = map snd active /\ List.length logs = Z.to_nat nreal /\ List.length blocks = Z.to_nat nreal /\
    (exists given ws buf, filter_text (N := SF lm) given ws buf = (filtered, Ok active) /\ map fst given = elements (observations a) /\ map fst ws = elements (stochastic_wells a)) /\
    (exists w ws ths duration base tol maxstep, forall k l msgs, nth_error logs k = Some l -> nth_error blocks k = Some msgs ->
       told (N := SF lm) fuel la ws obs w ths duration base tol maxstep (get_bool (confined a)) (mvn (entropy k)) k l msgs) /\
    ms = List.app (map Said (lines (fst (log_the_run a)))) (
         List.app (map Said (lines filtered)) (
         List.app (map Said (lines [newline; table_text (retained_table st)])) (
         List.app (map Said (concat blocks)) (
         List.app [Did (EProbabilityPlot X Y P); Did (EImpactPlot pr area)] (
         List.app (map Said (lines (deciles_text rows))) [Did (EArchive (archived a pf)); Did EShow]))))).
Proof. exact c108_run_stochastic. Qed.
Print Assumptions C108_run_stochastic.

(** A deterministic run that ends. *)
Theorem C108_run_deterministic : forall (lm : libm) (G E : Type) (R : rng spec_float G) (mvn : E -> list spec_float -> list (list spec_float) -> list spec_float)
    (dump : run_args (pyobj spec_float) -> res unit) fuel la entropy g (a : args spec_float) nreal ms v,
  Forall convertible (List.app (rounded_arguments a) [c_dist a; p_dist a; t_dist a]) -> integer_of (nrealizations a) = Some nreal -> (nreal <= 1)%Z ->
  oneka_said (N := SF lm) R mvn dump fuel la entropy g a = (ms, Ok v) ->
  exists active obs st l area pf filtered msgs,
    v = RNone /\
    oneka (N := SF lm) R mvn dump fuel la entropy g a =
      ([EBanner; EFiltered obs; ESummary st; EDeterministic l; EAreaPlot area; EArchive (archived a pf); EShow], Ok RNone) /\
    obs = map snd active /\
    (exists given ws buf, filter_text (N := SF lm) given ws buf = (filtered, Ok active) /\ map fst given = elements (observations a) /\ map fst ws = elements (stochastic_wells a)) /\
    (exists w ws ths duration base tol maxstep, told_once (N := SF lm) fuel la ws obs w ths duration base tol maxstep (get_bool (confined a)) l msgs) /\
    ms = List.app (map Said (lines (fst (log_the_run a)))) (
         List.app (map Said (lines filtered)) (
         List.app (map Said (lines [newline; table_text (retained_table st)])) (
         List.app (map Said msgs) (
         Did (EAreaPlot area) ::
         List.app (map Said (lines (area_text area))) [Did (EArchive (archived a pf)); Did EShow])))).
Proof. exact c108_run_deterministic. Qed.
Print Assumptions C108_run_deterministic.

(** A run of two realizations that meets the hypotheses and returns; what its driver says. *)
Example C108_example : Forall convertible (List.app (rounded_arguments (dry_args 2 10)) [c_dist (dry_args 2 10); p_dist (dry_args 2 10); t_dist (dry_args 2 10)]) /\
  integer_of (nrealizations (dry_args 2 10)) = Some 2%Z /\ snd (dry 2 10) = Ok RNone /\ List.length (messages (fst (dry 2 10))) = 93%nat /\
  firstn 10 (skipn 58 (messages (fst (dry 2 10)))) =
    List.concat (map (fun first => (lines [first;
      "    coef ev:  (+0.0000e+00, +0.0000e+00, +0.0000e+00, +0.0000e+00, +0.0000e+00, -1.0000e+00)";
      "    coef rng: (+0.0000e+00, +0.0000e+00, +0.0000e+00, +0.0000e+00, +0.0000e+00, -1.0000e+00)"] ++
      [{| from := "oneka.capturezone"; at_level := Warning; text := dry_warning |};
       {| from := "oneka.capturezone"; at_level := Warning; text := dry_warning |}])%list)
    ["Realization #0: 0.00, 1.00, 0.25, 10.00, 0.0000e+00"; "Realization #1: 0.00, 1.00, 0.25, 10.00, 0.0000e+00"]).
Proof. exact c108_example. Qed.

(** A deterministic run that returns. *)
Example C108_deterministic_example : Forall convertible (List.app (rounded_arguments (dry_args 1 10)) [c_dist (dry_args 1 10); p_dist (dry_args 1 10); t_dist (dry_args 1 10)]) /\
  integer_of (nrealizations (dry_args 1 10)) = Some 1%Z /\ snd (dry 1 10) = Ok RNone /\
  skipn 58 (map text (messages (fst (dry 1 10)))) =
    [newline; "Deterministic Capture Zone Parameters: "; "base         = 0.00"; "conductivity = 1.00"; "porosity     = 0.25"; "recharge     = -0.0000e+00";
     newline; "Conic Discharge Potential Coefficients: "; "A = +0.0000e+00"; "B = +0.0000e+00"; "C = +0.0000e+00"; "D = +0.0000e+00"; "E = +0.0000e+00";
     "F = -1.0000e+00"; dry_warning; dry_warning; newline; "Capture Zone Area:"; "0 [m^2]"; "0.00 [acres]"].
Proof. exact c108_deterministic_example. Qed.

(** A message of level ERROR in the log means that the run has ended with LinAlgError, one of level WARNING that it has ended with CaptureZoneError:
    a run that returns, or ends otherwise, has informative lines only. *)
Theorem C108_levels : forall (N : Num spec_float) (G E : Type) (R : rng spec_float G) (mvn : E -> list spec_float -> list (list spec_float) -> list spec_float)
    (dump : run_args (pyobj spec_float) -> res unit) fuel la entropy g (a : args spec_float) (m : message),
  In m (messages (fst (oneka_said R mvn dump fuel la entropy g a))) -> from m = "Oneka" ->
  (at_level m = Error -> snd (oneka_said R mvn dump fuel la entropy g a) = Raise LinAlgError) /\
  (at_level m = Warning -> snd (oneka_said R mvn dump fuel la entropy g a) = Raise CaptureZoneError).
Proof. exact c108_levels. Qed.
Print Assumptions C108_levels.

(** The run of ProofLoggingEx with a least squares solver that does not converge. *)
Example C108_levels_example : let la := {| lstsq := fun _ _ => Raise LinAlgError; inv := fun _ => Ok [] |} in
  let run := oneka_said (N := SF sqrt_libm) no_rng (fun (_ : unit) ev _ => ev) (fun _ => Ok tt) 50 la (fun _ => tt) tt (dry_args 2 10) in
  In {| from := "Oneka"; at_level := Error; text := " numpy.linalg.lstsq: failed" |} (messages (fst run)) /\ snd run = Raise LinAlgError.
Proof. exact c108_levels_example. Qed.

(** ** C109 Traces that end early are reported in the log file *)

(** Every message of a run is of one of the two kinds. *)
Theorem C109_kinds : forall (N : Num spec_float) (G E : Type) (R : rng spec_float G) (mvn : E -> list spec_float -> list (list spec_float) -> list spec_float)
    (dump : run_args (pyobj spec_float) -> res unit) fuel la entropy g (a : args spec_float),
  Forall two_kinds (messages (fst (oneka_said R mvn dump fuel la entropy g a))).
Proof. exact c109_kinds. Qed.
Print Assumptions C109_kinds.

(** The first call of main in a process: the log file gets the messages of the logger Oneka, in order and once each, and the
    closing lines if nothing was raised; the warnings of the traces go to stderr; no other file is written. *)
Theorem C109_first : forall (N : Num spec_float) (G E : Type) (R : rng spec_float G) (mvn : E -> list spec_float -> list (list spec_float) -> list spec_float)
    (dump : run_args (pyobj spec_float) -> res unit) fuel la entropy g (a : args spec_float) stamp elapsed,
  exists c out r, let run := oneka_said R mvn dump fuel la entropy g a in
    main fresh a stamp (Ok tt) run elapsed = (c, out, r) /\
    r = (match snd run with Ok _ => Ok tt | Raise e => Raise e | NoFuel => NoFuel end) /\
    written_to (File (log_file stamp)) out = program_lines run elapsed /\ written_to Stderr out = trace_lines run /\
    (forall f, f <> log_file stamp -> written_to (File f) out = []).
Proof. exact c109_first. Qed.
Print Assumptions C109_first.

(** "A trace that ends early is reported in the log file": in this run, started as runme.py does, all four traces end at once,
    the run returns, no line of any file says so; the four warnings are on stderr. *)
Theorem C109_refuted : exists c out,
  main fresh (dry_args 2 10) "20261117T120000" (Ok tt) (dry 2 10) (f_of_Z 1) = (c, out, Ok tt) /\
  written_to Stderr out = [dry_warning; dry_warning; dry_warning; dry_warning] /\ List.length (written_to (File (log_file "20261117T120000")) out) = 91%nat /\
  (forall f, ~ In dry_warning (written_to (File f) out)).
Proof. exact c109_refuted. Qed.
Print Assumptions C109_refuted.

(** ** C110 A log file holds one run *)

(** Calls of main in one process, at different seconds: the file of a call holds the lines of its run and those of all the
    later ones. The warnings of the traces of all the runs go to stderr. *)
Theorem C110_calls : forall ks outs i k, Forall (fun k => Forall two_kinds (messages (fst (c_run k)))) ks -> NoDup (map c_stamp ks) ->
  calls fresh ks outs -> nth_error ks i = Some k ->
  written_to (File (log_file (c_stamp k))) (concat outs) = flat_map (fun k => program_lines (c_run k) (c_elapsed k)) (skipn i ks) /\
  written_to Stderr (concat outs) = flat_map (fun k => trace_lines (c_run k)) ks.
Proof. exact c110_calls. Qed.
Print Assumptions C110_calls.

(** A single call, or the last one: its file holds the lines of its run and nothing else. *)
Theorem C110_last : forall ks outs k, Forall (fun k => Forall two_kinds (messages (fst (c_run k)))) (ks ++ [k])%list -> NoDup (map c_stamp (ks ++ [k])%list) ->
  calls fresh (ks ++ [k])%list outs -> written_to (File (log_file (c_stamp k))) (concat outs) = program_lines (c_run k) (c_elapsed k).
Proof. exact c110_last. Qed.
Print Assumptions C110_last.

(** Two calls in the same second: every line of the second run is in the one file twice. *)
Theorem C110_same_second : forall k k' outs, Forall two_kinds (messages (fst (c_run k))) -> Forall two_kinds (messages (fst (c_run k'))) -> c_stamp k' = c_stamp k ->
  calls fresh [k; k'] outs ->
  written_to (File (log_file (c_stamp k))) (concat outs) =
  (program_lines (c_run k) (c_elapsed k) ++ flat_map (fun t => [t; t]) (program_lines (c_run k') (c_elapsed k')))%list.
Proof. exact c110_same_second. Qed.
Print Assumptions C110_same_second.

Theorem C110_refuted : exists outs,
  calls fresh [first_call; second_call] outs /\ Forall two_kinds (messages (fst (c_run first_call))) /\ Forall two_kinds (messages (fst (c_run second_call))) /\
  In "nrealizations = 2 STOCHASTIC" (written_to (File (log_file (c_stamp first_call))) (concat outs)) /\
  ~ In "nrealizations = 2 STOCHASTIC" (program_lines (c_run first_call) (c_elapsed first_call)) /\
  written_to (File (log_file (c_stamp second_call))) (concat outs) = program_lines (c_run second_call) (c_elapsed second_call).
Proof. exact c110_refuted. Qed.
Print Assumptions C110_refuted.

(** ** C111 The warning about a trace is true *)

Theorem C111_truth : forall (lm : libm) fuel xs ys D tol maxstep (f : vec spec_float -> res (vec spec_float)) tr,
  compute_backtrace (N := SF lm) fuel xs ys D tol maxstep f = Ok tr -> completed tr = false -> SFltb (t_end tr) D = SFltb (S754_zero false) D.
Proof. exact c111_truth. Qed.
Print Assumptions C111_truth.

(** "The warning is true": a run with a negative duration, which [oneka] accepts, says twice that 0 is less than -10. *)
Theorem C111_refuted : snd (dry 1 (-10)) = Ok RNone /\ trace_lines (dry 1 (-10)) = [dry_warning; dry_warning] /\
  (forall (lm : libm) fuel xs ys D tol maxstep (f : vec spec_float -> res (vec spec_float)) tr,
     compute_backtrace (N := SF lm) fuel xs ys D tol maxstep f = Ok tr -> completed tr = false -> SFltb D (S754_zero false) = true -> SFltb (t_end tr) D = false).
Proof. exact c111_refuted. Qed.
Print Assumptions C111_refuted.

Example C111_example : exists tr, compute_backtrace (N := SF sqrt_libm) 100 (f_of_Z 0) (f_of_Z 0) (f_of_Z 10) (f_of_Z 1) (f_of_Z 10) half_dry = Ok tr /\
  completed tr = false /\ SFltb (S754_zero false) (t_end tr) = true /\ SFltb (t_end tr) (f_of_Z 10) = true /\ (1 < List.length (vertices tr))%nat.
Proof. exact c111_example. Qed.
