(** * What is asked of everything a run writes *)
From Coq Require Import String SpecFloat ZArith List.
From Verif Require SpecLog.
From Verif Require Import Py Num ModelAquifer ModelTrace ModelDist ModelDriver ModelMain ModelText ModelLog ModelTranscript ModelLogging.
Import ListNotations.
Local Open Scope string_scope.

(** The messages and the effects of a story. *)
Definition messages (ms : list moment) : list message := flat_map (fun x => match x with Said m => [m] | Did _ => [] end) ms.
Definition deeds (ms : list moment) : list (event spec_float) := flat_map (fun x => match x with Said _ => [] | Did e => [e] end) ms.
(** Effects other than messages: the figures, the archive. *)
Definition lasting (e : event spec_float) : bool :=
  match e with EProbabilityPlot _ _ _ | EImpactPlot _ _ | EAreaPlot _ | EArchive _ | EShow => true | _ => false end.

(** Informative lines. *)
Definition lines (ls : list string) : list message := map (fun t => {| from := "Oneka"; at_level := Info; text := t |}) ls.
(** One warning for every trace that an exception has ended, in order, with the time that was reached. *)
Definition warnings (trs : list (trace spec_float)) : list message :=
  map (fun tr => {| from := "oneka.capturezone"; at_level := Warning;
                    text := " trace terminated prematurely at t = " ++ fmt_f false false 2 (t_end tr) ++ " < duration." |})
      (filter (fun tr => negb (completed tr)) trs).

(** The traces of one capture zone in the model [m], for the starting angles [ths]. *)
Definition traced {N : Num spec_float} (fuel : nat) (xt yt rt duration tol maxstep : spec_float) (confined : bool) (m : model spec_float)
           (ths : list spec_float) (trs : list (trace spec_float)) : Prop :=
  Forall2 (fun th tr => compute_backtrace fuel (fst (start_point xt yt rt th)) (snd (start_point xt yt rt th)) duration tol maxstep
                          (feval confined m) = Ok tr) ths trs.
(** The model is that of the run with the logged numbers. *)
Definition logged_model (base : spec_float) (xt yt : spec_float) (ws : list (swell spec_float)) (l : run_log spec_float) (m : model spec_float) : Prop :=
  ModelAquifer.base m = base /\ conductivity m = l_conductivity l /\ porosity m = l_porosity l /\ thickness m = l_thickness l /\
  coef m = l_coef l /\ xo m = xt /\ yo m = yt /\
  map (fun w => (wx w, wy w, wr w)) (wells m) = map (fun w => (sx w, sy w, sr w)) ws.

(** What a realization that is carried out writes: three lines, then the warnings of its traces. The numbers are those
    of the model, the first six coefficients those of the fit of this model, the second six the ones chosen from it. *)
Definition told {N : Num spec_float} (fuel : nat) (la : linalg spec_float) (ws : list (swell spec_float)) (os : list (obs spec_float))
           (w : swell spec_float) (ths : list spec_float) (duration base tol maxstep : spec_float) (confined : bool)
           (pick : list spec_float -> list (list spec_float) -> list spec_float)
           (i : nat) (l : run_log spec_float) (msgs : list message) : Prop :=
  exists m ev cov e trs, logged_model base (sx w) (sy w) ws l m /\
    snd (fit_regional_flow la m os (sx w) (sy w)) = Ok (ev, cov) /\ reshape6 ev = Ok e /\ reshape6 (pick ev cov) = Ok (l_coef l) /\
    l_recharge l = nmul (nZ 2) (nadd (cA (l_coef l)) (cB (l_coef l))) /\
    traced fuel (sx w) (sy w) (sr w) duration tol maxstep confined m ths trs /\
    msgs = (lines (realization_text (Z.of_nat i) base (l_conductivity l) (l_porosity l) (l_thickness l) (l_recharge l) e (l_coef l))
            ++ warnings trs)%list.
(** What a realization that raises may have written: nothing, the message of the least squares, or its three lines and
    the warnings of the traces so far. *)
Definition broken_off {N : Num spec_float} (fuel : nat) (la : linalg spec_float) (ws : list (swell spec_float)) (os : list (obs spec_float))
           (w : swell spec_float) (ths : list spec_float) (duration base tol maxstep : spec_float) (confined : bool)
           (pick : list spec_float -> list (list spec_float) -> list spec_float) (i : nat) (msgs : list message) : Prop :=
  msgs = [] \/
  msgs = [{| from := "Oneka"; at_level := Error; text := " numpy.linalg.lstsq: failed" |}] \/
  exists l j, told fuel la ws os w (firstn j ths) duration base tol maxstep confined pick i l msgs.
(** The same for the deterministic run. *)
Definition told_once {N : Num spec_float} (fuel : nat) (la : linalg spec_float) (ws : list (swell spec_float)) (os : list (obs spec_float))
           (w : swell spec_float) (ths : list spec_float) (duration base tol maxstep : spec_float) (confined : bool)
           (l : run_log spec_float) (msgs : list message) : Prop :=
  exists m ev cov trs, logged_model base (sx w) (sy w) ws l m /\
    snd (fit_regional_flow la m os (sx w) (sy w)) = Ok (ev, cov) /\ reshape6 ev = Ok (l_coef l) /\
    l_recharge l = nmul (nZ (-2)) (nadd (cA (l_coef l)) (cB (l_coef l))) /\
    traced fuel (sx w) (sy w) (sr w) duration tol maxstep confined m ths trs /\
    msgs = (lines (deterministic_text base (l_conductivity l) (l_porosity l) (l_recharge l) (l_coef l)) ++ warnings trs)%list.

Definition broken_off_once {N : Num spec_float} (fuel : nat) (la : linalg spec_float) (ws : list (swell spec_float)) (os : list (obs spec_float))
           (w : swell spec_float) (ths : list spec_float) (duration base tol maxstep : spec_float) (confined : bool) (msgs : list message) : Prop :=
  msgs = [] \/
  msgs = [{| from := "Oneka"; at_level := Error; text := " numpy.linalg.lstsq: failed" |}] \/
  (exists k, msgs = lines [newline; "Deterministic Capture Zone Parameters: "; "base         = " ++ fmt_f false false 2 base;
                           "conductivity = " ++ fmt_f false false 2 k]) \/
  exists l j, told_once fuel la ws os w (firstn j ths) duration base tol maxstep confined l msgs.

(** The lines that are written to a place. *)
Definition written_to (p : place) (l : list (place * string)) : list string :=
  flat_map (fun '(q, t) => match p, q with
                           | File f, File g => if String.eqb f g then [t] else []
                           | Stderr, Stderr => [t]
                           | Stdout, Stdout => [t]
                           | _, _ => []
                           end) l.

(** An argument that is not text and, if it is an integer, can be converted to a float. *)
Definition plain (v : val) : Prop := SpecLog.convertible v /\ forall s, v <> PStr s.

(** The two kinds of messages of a run: those of the logger Oneka, at level INFO or higher, and the warnings of traces. *)
Definition from_program (m : message) : bool := String.eqb (from m) "Oneka".
Definition two_kinds (m : message) : Prop :=
  (from m = "Oneka" /\ at_level m <> Debug) \/
  (from m = "oneka.capturezone" /\ at_level m = Warning /\
   exists t, text m = " trace terminated prematurely at t = " ++ fmt_f false false 2 t ++ " < duration.").
(** The last lines of a run that has not raised. *)
Definition closing (r : res (result spec_float)) (elapsed : spec_float) : list string :=
  match r with Ok _ => [newline; "Total elapsed time = " ++ fmt_f false false 4 elapsed ++ " seconds"] | _ => [] end.
(** What the logger Oneka is given in a call of runme's main: the messages of the run, then the closing lines. *)
Definition program_lines (run : story (result spec_float)) (elapsed : spec_float) : list string :=
  (map text (filter from_program (messages (fst run))) ++ closing (snd run) elapsed)%list.
(** The warnings of traces. *)
Definition trace_lines (run : story (result spec_float)) : list string :=
  map text (filter (fun m => negb (from_program m)) (messages (fst run))).

(** A call of main whose log file can be opened. *)
Record call := { c_args : args spec_float; c_stamp : string; c_run : story (result spec_float); c_elapsed : spec_float }.
(** Calls in one process, each in the state the previous one has left; what each has written. *)
Inductive calls : logging -> list call -> list (list (place * string)) -> Prop :=
| calls_none : forall c, calls c [] []
| calls_one : forall c k ks c' out r outs,
    main c (c_args k) (c_stamp k) (Ok tt) (c_run k) (c_elapsed k) = (c', out, r) -> calls c' ks outs -> calls c (k :: ks) (out :: outs).
