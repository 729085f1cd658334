(** * Model of what the program writes to its log (binary64)

    A log is the list of messages passed to [log.info]; handlers, levels and time stamps are logging's own.
    numpy scalars print like Python floats (numpy before version 2, as in 2020). *)
From Coq Require Import String Ascii SpecFloat.
From Verif Require Import Py Num ModelAquifer ModelDist ModelObs ModelMain ModelText.
Local Open Scope string_scope.
Local Open Scope Z_scope.

Notation val := (pyval spec_float).

(** Lines written so far, and how the code ended. *)
Definition logged (A : Type) : Type := (list string * res A)%type.
Definition say {A} (lines : list string) (k : logged A) : logged A := ((lines ++ fst k)%list, snd k).
(** One message whose formatting may raise. *)
Definition put {A} (s : res string) (k : logged A) : logged A :=
  match s with Ok t => say [t] k | Raise e => ([], Raise e) | NoFuel => ([], NoFuel) end.
Definition after {A B} (m : logged A) (k : A -> logged B) : logged B :=
  match snd m with
  | Ok a => say (fst m) (k a)
  | Raise e => (fst m, Raise e)
  | NoFuel => (fst m, NoFuel)
  end.
Definition label (name : string) (s : res string) : res string := match s with Ok t => Ok (name ++ t) | r => r end.

Definition nl : ascii := ascii_of_nat 10.
Definition newline : string := String nl "".

(** ** oneka.py:320-375, [log_the_run] *)
Definition banner : list string :=
  [ "";
    "========================================";
    " OOOOOO  NN   N  EEEEEE  K   KK  AAAAAA ";
    " O    O  N N  N  E       K KK    A    A ";
    " O    O  N  N N  EEEEE   KK      AAAAAA ";
    " O    O  N   NN  E       K KK    A    A ";
    " OOOOOO  N    N  EEEEEE  K   KK  A    A ";
    "========================================";
    "Version: 25 July 2020";
    "" ].

(** [nrealizations > 1] *)
Definition more_than_one (v : val) : res bool :=
  match v with
  | PInt z => Ok (1 <? z)
  | PBool _ => Ok false
  | PFloat x => Ok (SFltb (f_of_Z 1) x)
  | _ => Raise TypeError
  end.

Definition log_the_run (a : args spec_float) : logged unit :=
  say banner (
  put (Ok ("project name  = " ++ str (projectname a))) (
  put (Ok ("run time      = " ++ str (runtime a))) (
  put (label "target        = " (val_d (target a))) (
  put (label "npaths        = " (val_d (npaths a))) (
  put (label "duration      = " (val_f 2 (duration a))) (
  put (let! b := more_than_one (nrealizations a) in
       let! t := val_d (nrealizations a) in
       Ok ("nrealizations = " ++ t ++ (if (b : bool) then " STOCHASTIC" else " DETERMINISTIC"))) (
  put (label "base          = " (val_f 2 (base_ a))) (
  put (Ok ("c_dist        = " ++ str (c_dist a))) (
  put (Ok ("p_dist        = " ++ str (p_dist a))) (
  put (Ok ("t_dist        = " ++ str (t_dist a))) (
  put (label "buffer        = " (val_f 2 (buffer a))) (
  put (label "spacing       = " (val_f 2 (spacing a))) (
  put (label "umbra         = " (val_f 2 (umbra a))) (
  put (Ok ("smooth        = " ++ str (smooth a))) (
  put (Ok ("confined      = " ++ str (confined a))) (
  put (label "tol           = " (val_f 2 (tol a))) (
  put (label "maxstep       = " (val_f 2 (maxstep a))) (
  say [newline] (
  put (let! n := py_len (stochastic_wells a) in Ok ("stochastic_wells: " ++ fmt_d n)) (
  say (map (fun we => "    " ++ str we) (elements (stochastic_wells a))) (
  say [newline] (
  put (let! n := py_len (observations a) in Ok ("observations: " ++ fmt_d n)) (
  say (map (fun ob => "    " ++ str ob) (elements (observations a))) (
  ([newline], Ok tt))))))))))))))))))))))))).

(** ** utilities.py:34-144, [filter_obs], with its messages

    An observation is carried together with the tuple it was given as (which is what is printed), a well
    together with its coordinates. *)
Section Filter.
  Context {N : Num spec_float}.
  Definition tobs : Type := (val * obs spec_float)%type.
  Definition twell : Type := (val * (spec_float * spec_float))%type.

  Definition within (buf : spec_float) (o : tobs) (w : twell) : bool :=
    nle (nhypot (nsub (ox (snd o)) (fst (snd w))) (nsub (oy (snd o)) (snd (snd w)))) buf.

  (** utilities.py:97-109 *)
  Fixpoint drop_near (ws : list twell) (buf : spec_float) (l : list tobs) : list string * list tobs :=
    match l with
    | [] => ([], [])
    | o :: r =>
        let (lines, kept) := drop_near ws buf r in
        match find (within buf o) ws with
        | Some w => (("observation removed: " ++ str (fst o) ++ " is too close to " ++ str (fst w)) :: lines, kept)
        | None => (lines, o :: kept)
        end
    end.

  Fixpoint take_close_text (lead : tobs) (l : list tobs) : list tobs * list tobs :=
    match l with
    | [] => ([], [])
    | o :: r => if too_close (snd lead) (snd o)
                then let (g, rest) := take_close_text lead r in (o :: g, rest)
                else ([], l)
    end.

  (** utilities.py:119-124: the message follows the two divisions. *)
  Fixpoint sums_text (g : list tobs) (num den : spec_float) : logged (spec_float * spec_float) :=
    match g with
    | [] => ([], Ok (num, den))
    | o :: r =>
        match (let! a := pydiv (oz (snd o)) (nsq (os (snd o))) in
               let! b := pydiv (nZ 1) (nsq (os (snd o))) in Ok (a, b)) with
        | Ok (a, b) => say ["    duplicate observation: " ++ str (fst o)] (sums_text r (nadd num a) (nadd den b))
        | Raise e => ([], Raise e)
        | NoFuel => ([], NoFuel)
        end
    end.

  (** utilities.py:118-128 *)
  Definition item (v : val) (i : nat) : val := match py_item v i with Ok a => a | _ => PNone end.
  Definition group_text (lead : tobs) (g : list tobs) : logged tobs :=
    match g with
    | [] => ([], Ok lead)
    | _ =>
        after (sums_text (lead :: g) (nZ 0) (nZ 0)) (fun '(num, den) =>
        match (let! z := pydiv num den in let! v := pydiv (nZ 1) den in Ok (z, v)) with
        | Ok (z, v) =>
            let t := PTuple [item (fst lead) 0; item (fst lead) 1; PFloat z; PFloat (nsqrt v)] in
            (["averaged observation created: " ++ str t],
             Ok (t, {| ox := ox (snd lead); oy := oy (snd lead); oz := z; os := nsqrt v |}))
        | Raise e => ([], Raise e)
        | NoFuel => ([], NoFuel)
        end)
    end.

  (** utilities.py:112-129 *)
  Fixpoint merge_text (fuel : nat) (l : list tobs) : logged (list tobs) :=
    match l with
    | [] => ([], Ok [])
    | o :: r =>
        match fuel with
        | O => ([], NoFuel)
        | S f =>
            let (g, rest) := take_close_text o r in
            after (group_text o g) (fun m =>
            after (merge_text f rest) (fun ms => ([], Ok (m :: ms))))
        end
    end.

  (** utilities.py:131-142 *)
  Fixpoint active_text (i : Z) (l : list tobs) : list string :=
    match l with
    | [] => []
    | o :: r => ("     [" ++ fmt_03d i ++ "] " ++ str (fst o)) :: active_text (i + 1) r
    end.
  Definition note : list string :=
    [ "";
      "Note: the index numbers associated with these active";
      "      observations may differ from the original index";
      "      numbers. This is a consequence of averaging ";
      "      duplicates and deleting observations near wellfield.";
      "      These new index numbers are used in the subsequent";
      "      reporting. Be aware!" ].
  Definition filter_text (l : list tobs) (ws : list twell) (buf : spec_float) : logged (list tobs) :=
    let (lines, kept) := drop_near ws buf l in
    say lines (
    after (merge_text (List.length kept) kept) (fun out =>
    ((("" :: ("active observations: " ++ fmt_d (Z.of_nat (List.length out)))%string :: active_text 0 out) ++ note)%list, Ok out))).
End Filter.

(** ** utilities.py:148-257, [summary_statistics]: the table *)
(** Format codes like 12.2f and 9.4e. *)
Inductive code := CodeF (w n : nat) | CodeE (w n : nat).
Definition by_code (c : code) (x : spec_float) : string :=
  match c with
  | CodeF w n => pad w (fmt_f false false n x)
  | CodeE w n => pad w (fmt_e false n x)
  end.
(** utilities.py:177: the width of the text of 1. *)
Definition width (c : code) : nat := String.length (by_code c (f_of_Z 1)).
Definition total_width (cs : list code) : nat := (5 + list_sum (map width cs))%nat.
Definition row (cs : list code) (name : string) (xs : list spec_float) : string :=
  name ++ String.concat "" (map (fun '(c, x) => by_code c x) (combine cs xs)).
(** The table, line by line; [names], [cs] and [st] have one entry per column. *)
Definition table (cs : list code) (names : list string) (title : string) (st : list (stats spec_float)) : list string :=
  [ center (total_width cs) title;
    times (total_width cs) "=";
    "     " ++ String.concat "" (map (fun '(c, s) => pad (width c) s) (combine cs names));
    times (total_width cs) "-";
    "cnt: " ++ String.concat "" (map (fun '(c, s) => pad (width c) (fmt_d (s_cnt s))) (combine cs st));
    row cs "min: " (map s_min st);
    row cs "med: " (map s_med st);
    row cs "max: " (map s_max st);
    row cs "avg: " (map s_avg st);
    row cs "std: " (map s_std st);
    times (total_width cs) "=" ].
(** The text: every line is ended by a newline. *)
Definition table_text (ls : list string) : string := String.concat "" (map (fun l => l ++ newline) ls).
(** oneka.py:257-261 *)
Definition retained_table (st : list (stats spec_float)) : list string :=
  table [CodeF 12 2; CodeF 12 2; CodeF 12 2; CodeF 12 2] ["Easting"; "Northing"; "Head"; "Stdev"] "Retained Observations" st.

(** ** The messages of the drivers *)
(** stochastic.py:244-250 *)
Definition six (c : coef6 spec_float) : string :=
  "(" ++ join ", " (map (fmt_e true 4) [cA c; cB c; cC c; cD c; cE c; cF c]) ++ ")".
Definition realization_text (i : Z) (base k n h recharge : spec_float) (ev rng : coef6 spec_float) : list string :=
  [ "Realization #" ++ fmt_d i ++ ": " ++
      join ", " [fmt_f false false 2 base; fmt_f false false 2 k; fmt_f false false 2 n; fmt_f false false 2 h; fmt_e false 4 recharge];
    "    coef ev:  " ++ six ev;
    "    coef rng: " ++ six rng ].
(** deterministic.py:201-218 *)
Definition deterministic_text (base k n recharge : spec_float) (c : coef6 spec_float) : list string :=
  [ newline;
    "Deterministic Capture Zone Parameters: ";
    "base         = " ++ fmt_f false false 2 base;
    "conductivity = " ++ fmt_f false false 2 k;
    "porosity     = " ++ fmt_f false false 2 n;
    "recharge     = " ++ fmt_e true 4 recharge;
    newline;
    "Conic Discharge Potential Coefficients: ";
    "A = " ++ fmt_e true 4 (cA c); "B = " ++ fmt_e true 4 (cB c); "C = " ++ fmt_e true 4 (cC c);
    "D = " ++ fmt_e true 4 (cD c); "E = " ++ fmt_e true 4 (cE c); "F = " ++ fmt_e true 4 (cF c) ].

(** oneka.py:278-288: the rows are those of [ModelPlot.decile_table]. *)
Definition decile_line (r : spec_float * spec_float * spec_float) : string :=
  let '(p, area, acres) := r in
  pad 8 (fmt_f false false 3 p) ++ " " ++ pad 16 (fmt_f false true 0 area) ++ " " ++ pad 16 (fmt_f false true 2 acres).
Definition deciles_text (rows : list (spec_float * spec_float * spec_float)) : list string :=
  List.app [ newline;
     "===========================================";
     " Pr(capture)         Area             Area ";
     " Exceeds            [m^2]          [acres] ";
     "-------------------------------------------" ]
   (List.app (map decile_line rows) [ "===========================================" ]).
(** oneka.py:302-305 *)
Definition area_text (area : spec_float) : list string :=
  [ newline; "Capture Zone Area:";
    fmt_f false false 0 area ++ " [m^2]";
    fmt_f false false 2 (SFdiv fprec femax area (SFdiv fprec femax (f_of_Z 404686) (f_of_Z 100))) ++ " [acres]" ].

(** capturezone.py:250 *)
Definition warning_text (t : spec_float) : string :=
  " trace terminated prematurely at t = " ++ fmt_f false false 2 t ++ " < duration.".

(** model.py:199-204: [__repr__] and [__str__] of a model. *)
Definition model_text (base k n h : val) : string :=
  "Model(" ++ str base ++ ", " ++ str k ++ ", " ++ str n ++ ", " ++ str h ++ ")".
