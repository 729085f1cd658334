(** * Model of everything a run writes, in order (binary64)

    ModelLog has the texts; here they are put where the program writes them, so that a run that ends with an
    exception has written exactly what precedes the exception.  Messages of level DEBUG (probabilityfield.py:220, 261)
    are left out: the logger Oneka is at level INFO (runme.py:47), and without runme at WARNING (logging's default). *)
From Coq Require Import String Ascii SpecFloat.
From Verif Require Import Py Num ModelField ModelAquifer ModelTrace ModelObs ModelDist ModelDriver ModelPlot ModelArchive ModelMain
  ModelText ModelLog.
Local Open Scope string_scope.
Local Open Scope Z_scope.

(** A message: the name of the logger it is passed to, its level, its text. *)
Inductive level := Debug | Info | Warning | Error.
Record message := { from : string; at_level : level; text : string }.
(** The logger of oneka.py, model.py, stochastic.py, deterministic.py, utilities.py, visualize.py. *)
Definition oneka_logger : string := "Oneka".
(** capturezone.py:47: [logging.getLogger(__name__)]; the module is imported as oneka.capturezone. *)
Definition trace_logger : string := "oneka.capturezone".
Definition info (t : string) : message := {| from := oneka_logger; at_level := Info; text := t |}.

(** What happens in a run: a message is passed to a logger, or an effect of ModelMain. *)
Inductive moment := Said (m : message) | Did (e : event spec_float).
Definition infos (ls : list string) : list moment := map (fun t => Said (info t)) ls.

(** The moments of a piece of code, and how it ended. *)
Definition story (A : Type) : Type := (list moment * res A)%type.
Definition tell {A} (ms : list moment) (k : story A) : story A := ((ms ++ fst k)%list, snd k).
Definition attempt {A B} (r : res A) (k : A -> story B) : story B :=
  match r with Ok a => k a | Raise e => ([], Raise e) | NoFuel => ([], NoFuel) end.
Definition thereafter {A B} (m : story A) (k : A -> story B) : story B :=
  match snd m with Ok a => tell (fst m) (k a) | Raise e => (fst m, Raise e) | NoFuel => (fst m, NoFuel) end.
(** A piece of code that writes informative lines only. *)
Definition aloud {A} (m : logged A) : story A := (infos (fst m), snd m).

Section Transcript.
  Context {N : Num spec_float}.

  (** capturezone.py:249-250: the message of a trace that an exception has ended. *)
  Definition trace_message (t : spec_float) : message :=
    {| from := trace_logger; at_level := Warning; text := warning_text t |}.
  Definition trace_said (tr : trace spec_float) : list moment :=
    if completed tr then [] else [Said (trace_message (t_end tr))].

  (** capturezone.py:112-120: the loop over the paths.  The message precedes the call of rasterize. *)
  Fixpoint paths_said (fuel : nat) (s : pfield spec_float) (xt yt rt duration umbra tol maxstep : spec_float)
           (feval : vec spec_float -> res (vec spec_float)) (thetas : list spec_float) : story (pfield spec_float) :=
    match thetas with
    | [] => ([], Ok s)
    | th :: rest =>
        let (xs, ys) := start_point xt yt rt th in
        attempt (compute_backtrace fuel xs ys duration tol maxstep feval) (fun tr =>
        tell (trace_said tr) (
        let (s', r) := rasterize fuel s (map fst (vertices tr)) (map snd (vertices tr)) umbra in
        attempt r (fun _ => paths_said fuel s' xt yt rt duration umbra tol maxstep feval rest)))
    end.

  (** capturezone.py:51-123 *)
  Definition capturezone_said (fuel : nat) (xt yt rt : spec_float) (npaths : Z) (duration : spec_float)
             (s : pfield spec_float) (umbra weight tol maxstep : spec_float)
             (feval : vec spec_float -> res (vec spec_float)) : story (pfield spec_float) :=
    attempt (start_angles npaths) (fun thetas =>
    thereafter (paths_said fuel s xt yt rt duration umbra tol maxstep feval thetas) (fun s' =>
    let (s'', r) := register s' weight in
    attempt r (fun _ => ([], Ok s'')))).

  (** model.py:483-487 and 598-602: the message when lstsq fails. *)
  Definition fit_said (la : linalg spec_float) (m : model spec_float) (os : list (obs spec_float)) (x0 y0 : spec_float) : list moment :=
    match (let! (wa, wb) := construct_fit m os x0 y0 in lstsq la wa wb) with
    | Raise LinAlgError => [Said {| from := oneka_logger; at_level := Error; text := " numpy.linalg.lstsq: failed" |}]
    | _ => []
    end.

  (** stochastic.py:243-250, [base], conductivity, porosity and thickness as Python values: the first message is
      formatted by one call, the recharge and the coefficients are floats. *)
  Definition announce_stochastic (i : Z) (base kv nv hv : val) (ev c : coef6 spec_float) : story unit :=
    aloud (put (let! b := val_f 2 base in let! k := val_f 2 kv in let! n := val_f 2 nv in let! h := val_f 2 hv in
                Ok ("Realization #" ++ fmt_d i ++ ": " ++ join ", " [b; k; n; h; fmt_e false 4 (recharge_stochastic c)]))
          (["    coef ev:  " ++ six ev; "    coef rng: " ++ six c], Ok tt)).
  (** deterministic.py:201-218: one message after the other. *)
  Definition announce_deterministic (base kv nv : val) (c : coef6 spec_float) : story unit :=
    aloud (
    say [newline; "Deterministic Capture Zone Parameters: "] (
    put (label "base         = " (val_f 2 base)) (
    put (label "conductivity = " (val_f 2 kv)) (
    put (label "porosity     = " (val_f 2 nv)) (
    ([ "recharge     = " ++ fmt_e true 4 (recharge_deterministic c);
       newline;
       "Conic Discharge Potential Coefficients: ";
       "A = " ++ fmt_e true 4 (cA c); "B = " ++ fmt_e true 4 (cB c); "C = " ++ fmt_e true 4 (cC c);
       "D = " ++ fmt_e true 4 (cD c); "E = " ++ fmt_e true 4 (cE c); "F = " ++ fmt_e true 4 (cF c) ], Ok tt)))))).

  (** stochastic.py:235-265, deterministic.py:193-233, as [ModelDriver.realization] with the messages; [announce] is
      given the values of conductivity, porosity and thickness, the fitted and the chosen coefficients. *)
  Definition realization_said (fuel : nat) (la : linalg spec_float) (s : pfield spec_float)
             (xt yt rt : spec_float) (npaths : Z) (duration base : spec_float)
             (kv nv hv : val) (ws : list (swell spec_float)) (qs : list val) (observations : list (obs spec_float))
             (umbra : spec_float) (confined : bool) (tol maxstep : spec_float)
             (pick : list spec_float -> list (list spec_float) -> list spec_float)
             (announce : val -> val -> val -> coef6 spec_float -> coef6 spec_float -> story unit) : story (pfield spec_float) :=
    attempt (make_wells ws qs) (fun wells =>
    attempt (as_num kv) (fun k =>
    attempt (as_num hv) (fun h =>
    let p0 := match num_of nv with Some p => p | None => nnan end in
    let m0 := new_model base k p0 h wells in
    tell (fit_said la m0 observations xt yt) (
    let (m1, r) := fit_regional_flow la m0 observations xt yt in
    attempt r (fun '(ev, cov) =>
    attempt (reshape6 ev) (fun e =>
    attempt (reshape6 (pick ev cov)) (fun c =>
    thereafter (announce kv nv hv e c) (fun _ =>
    capturezone_said fuel xt yt rt npaths duration s umbra (nZ 1) tol maxstep (feval confined (set_coef m1 c)))))))))).

  (** deterministic.py:65-235; [base] as it was given and as a number. *)
  Definition deterministic_said (fuel : nat) (la : linalg spec_float)
             (target : nat) (npaths : Z) (duration : spec_float) (bv : val) (base : spec_float) (c_dist p_dist t_dist : val)
             (ws : list (swell spec_float)) (observations : list (obs spec_float))
             (spacing umbra : spec_float) (confined : bool) (tol maxstep : spec_float) : story (pfield spec_float) :=
    match nth_error ws target with
    | None => ([], Raise IndexError)
    | Some w =>
        attempt (pf_init spacing spacing (sx w) (sy w)) (fun s0 =>
        attempt (map_res (fun w => compute_variate_mean (sq w)) ws) (fun qs =>
        attempt (compute_variate_mean c_dist) (fun k =>
        attempt (compute_variate_mean p_dist) (fun n =>
        attempt (compute_variate_mean t_dist) (fun h =>
        realization_said fuel la s0 (sx w) (sy w) (sr w) npaths duration base k n h ws qs observations umbra confined tol maxstep
          (fun ev _ => ev) (fun k n _ _ c => announce_deterministic bv k n c))))))
    end.

  Context {G E : Type} (R : rng spec_float G).
  Variable mvn : E -> list spec_float -> list (list spec_float) -> list spec_float.
  Variable dump : run_args (pyobj spec_float) -> res unit.

  (** stochastic.py:220-265 *)
  Fixpoint realizations_said (fuel : nat) (la : linalg spec_float) (count : nat) (entropy : nat -> E) (i : nat) (g : G)
           (s : pfield spec_float) (xt yt rt : spec_float) (npaths : Z) (duration : spec_float) (bv : val) (base : spec_float)
           (c_dist p_dist t_dist : val) (ws : list (swell spec_float)) (observations : list (obs spec_float))
           (umbra : spec_float) (confined : bool) (tol maxstep : spec_float) : story (pfield spec_float) :=
    match count with
    | O => ([], Ok s)
    | S count' =>
        attempt (sample_all R g (map sq ws)) (fun '(qs, g1) =>
        attempt (generate_random_variate R g1 c_dist) (fun '(k, g2) =>
        attempt (generate_random_variate R g2 p_dist) (fun '(n, g3) =>
        attempt (generate_random_variate R g3 t_dist) (fun '(h, g4) =>
        thereafter (realization_said fuel la s xt yt rt npaths duration base k n h ws qs observations umbra confined tol maxstep
                      (mvn (entropy i)) (fun k n h e c => announce_stochastic (Z.of_nat i) bv k n h e c)) (fun s' =>
        realizations_said fuel la count' entropy (S i) g4 s' xt yt rt npaths duration bv base c_dist p_dist t_dist ws observations
                          umbra confined tol maxstep)))))
    end.

  (** stochastic.py:76-270 *)
  Definition stochastic_said (fuel : nat) (la : linalg spec_float) (entropy : nat -> E) (g : G)
             (target : nat) (npaths : Z) (duration : spec_float) (nrealizations : Z) (bv : val) (base : spec_float)
             (c_dist p_dist t_dist : val) (ws : list (swell spec_float)) (observations : list (obs spec_float))
             (spacing umbra : spec_float) (confined : bool) (tol maxstep : spec_float) : story (pfield spec_float) :=
    match nth_error ws target with
    | None => ([], Raise IndexError)
    | Some w =>
        attempt (pf_init spacing spacing (sx w) (sy w)) (fun s0 =>
        realizations_said fuel la (Z.to_nat nrealizations) entropy 0 g s0 (sx w) (sy w) (sr w) npaths duration bv base
                          c_dist p_dist t_dist ws observations umbra confined tol maxstep)
    end.

  (** visualize.py:224-226, 312-314, 378-380: the message that precedes CaptureZoneError. *)
  Definition plotted {A} (r : res A) (k : A -> story (result spec_float)) : story (result spec_float) :=
    match r with
    | Raise CaptureZoneError =>
        ([Said {| from := oneka_logger; at_level := Warning; text := " There were no valid realizations." |}], Raise CaptureZoneError)
    | _ => attempt r k
    end.

  (** oneka.py:278-288, row by row. *)
  Fixpoint rows_said (pr area ps : list spec_float) (k : story (result spec_float)) : story (result spec_float) :=
    match ps with
    | [] => k
    | p :: rest => attempt (decile_row pr area p) (fun r => tell (infos [decile_line r]) (rows_said pr area rest k))
    end.
  Definition deciles_said (pr area : list spec_float) (k : story (result spec_float)) : story (result spec_float) :=
    tell (infos [newline; "==========================================="; " Pr(capture)         Area             Area ";
                 " Exceeds            [m^2]          [acres] "; "-------------------------------------------"]) (
    attempt (linspace (nlit 5 100) (nlit 95 100) 19) (fun ps =>
    rows_said pr area ps (tell (infos ["==========================================="]) k))).

  (** oneka.py:307-317 *)
  Definition finish_said (a : args spec_float) (pf : pfield spec_float) : story (result spec_float) :=
    tell [Did (EArchive (archived a pf))] (
    attempt (dump (archived a pf)) (fun _ => ([Did EShow], Ok RNone))).

  (** oneka.py:73-317, as [ModelMain.oneka] with the messages. *)
  Definition oneka_said (fuel : nat) (la : linalg spec_float) (entropy : nat -> E) (g : G) (a : args spec_float) : story (result spec_float) :=
    attempt (validate a) (fun _ =>
    thereafter (aloud (log_the_run a)) (fun _ =>
    attempt (log_nrealizations (nrealizations a)) (fun nreal =>
    attempt (map_res get_well (elements (stochastic_wells a))) (fun ws =>
    attempt (map_res get_obs (elements (observations a))) (fun obs0 =>
    attempt (as_num (buffer a)) (fun buf =>
    thereafter (aloud (filter_text (combine (elements (observations a)) obs0)
                                   (combine (elements (stochastic_wells a)) (map (fun w => (sx w, sy w)) ws)) buf)) (fun kept =>
    let obs := map snd kept in
    attempt (py_assert (Ok (Z.of_nat (List.length obs) >? 6)%Z)) (fun _ =>
    attempt (summary_statistics (map (fun o => [ox o; oy o; oz o; os o]) obs)) (fun st =>
    tell (infos [newline; table_text (retained_table st)]) (
    attempt (get_int (target a)) (fun tgt =>
    attempt (get_int (npaths a)) (fun np =>
    attempt (as_num (duration a)) (fun dur =>
    attempt (as_num (base_ a)) (fun bas =>
    attempt (as_num (spacing a)) (fun spc =>
    attempt (as_num (umbra a)) (fun umb =>
    attempt (as_num (tol a)) (fun tl =>
    attempt (as_num (maxstep a)) (fun ms =>
    if (nreal >? 1)%Z then
      thereafter (stochastic_said fuel la entropy g (Z.to_nat tgt) np dur nreal (base_ a) bas
                                  (c_dist a) (p_dist a) (t_dist a) ws obs spc umb (get_bool (confined a)) tl ms) (fun pf =>
      plotted (create_probability_plot pf) (fun '(X, Y, P) =>
      tell [Did (EProbabilityPlot X Y P)] (
      plotted (create_impact_plot spc pf) (fun '(pr, area) =>
      tell [Did (EImpactPlot pr area)] (
      deciles_said pr area (finish_said a pf))))))
    else
      thereafter (deterministic_said fuel la (Z.to_nat tgt) np dur (base_ a) bas
                                     (c_dist a) (p_dist a) (t_dist a) ws obs spc umb (get_bool (confined a)) tl ms) (fun pf =>
      plotted (create_deterministic_plot pf) (fun area =>
      tell [Did (EAreaPlot area)] (
      tell (infos (area_text area)) (
      finish_said a pf)))))))))))))))))))))).
End Transcript.
