(** * Model of /repo/oneka/oneka.py *)
From Coq Require Import String.
From Verif Require Import Py Num ModelField ModelAquifer ModelTrace ModelObs ModelDist ModelDriver
  ModelPlot ModelArchive.
Local Open Scope num_scope.

Section Main.
  Context {T : Type} {N : Num T}.

  (** The arguments of [oneka]: oneka.py:73-79. *)
  Record args := {
    projectname : pyval T; runtime : pyval T;
    target : pyval T; npaths : pyval T; duration : pyval T; nrealizations : pyval T;
    base_ : pyval T; c_dist : pyval T; p_dist : pyval T; t_dist : pyval T;
    stochastic_wells : pyval T; observations : pyval T;
    buffer : pyval T; spacing : pyval T; umbra : pyval T; smooth : pyval T;
    confined : pyval T; tol : pyval T; maxstep : pyval T
  }.

  (** oneka.py:78-79: a call that omits all optional arguments. *)
  Definition with_defaults (projectname runtime target npaths duration nrealizations
                            base c_dist p_dist t_dist wells obs : pyval T) : args :=
    {| projectname := projectname; runtime := runtime; target := target; npaths := npaths;
       duration := duration; nrealizations := nrealizations; base_ := base;
       c_dist := c_dist; p_dist := p_dist; t_dist := t_dist;
       stochastic_wells := wells; observations := obs;
       buffer := PInt 100; spacing := PInt 10; umbra := PInt 10; smooth := PInt 0;
       confined := PBool true; tol := PInt 1; maxstep := PInt 10 |}.

  (** [assert c] *)
  Definition py_assert (c : res bool) : res unit :=
    let! b := c in if (b : bool) then Ok tt else Raise AssertionError.
  (** [a and b] *)
  Definition py_and (a : res bool) (b : res bool) : res bool :=
    let! x := a in if (x : bool) then b else Ok false.

  (** [len(v)] *)
  Definition py_len (v : pyval T) : res Z :=
    match v with
    | PStr s => Ok (Z.of_nat (String.length s))
    | PTuple l | PList l => Ok (Z.of_nat (List.length l))
    | _ => Raise TypeError
    end.

  (** [v[i]] for a small literal index; the element of a string is a string. *)
  Definition py_item (v : pyval T) (i : nat) : res (pyval T) :=
    match v with
    | PStr s => match String.get i s with
                | Some c => Ok (PStr (String c EmptyString))
                | None => Raise IndexError
                end
    | PTuple l | PList l => match nth_error l i with Some a => Ok a | None => Raise IndexError end
    | _ => Raise TypeError
    end.

  (** [v < w], [v <= w], [v != w] where one side is a numeric literal. *)
  Definition py_lt (v w : pyval T) : res bool :=
    match num_of v, num_of w with Some x, Some y => Ok (x <? y) | _, _ => Raise TypeError end.
  Definition py_leq (v w : pyval T) : res bool :=
    match num_of v, num_of w with Some x, Some y => Ok (x <=? y) | _, _ => Raise TypeError end.
  Definition py_ne0 (v : pyval T) : res bool :=
    match num_of v with Some x => Ok (negb (nZ 0 =? x)) | None => Ok true end.

  Definition is_str (v : pyval T) : bool := match v with PStr _ => true | _ => false end.
  Definition is_bool (v : pyval T) : bool := match v with PBool _ => true | _ => false end.
  Definition is_list (v : pyval T) : bool := match v with PList _ => true | _ => false end.

  (** [(isinstance(v, int) or isinstance(v, float)) and 0 < v] *)
  Definition positive_number (v : pyval T) : res bool :=
    py_and (Ok (is_number v)) (py_lt (PInt 0) v).

  (** Iterating over a Python list (the isinstance(.., list) assertion precedes). *)
  Definition elements (v : pyval T) : list (pyval T) :=
    match v with PList l | PTuple l => l | _ => [] end.

  (** oneka.py:221-225 *)
  Definition valid_well (we : pyval T) : res bool :=
    let! n := py_len we in
    if negb (n =? 4)%Z then Ok false else
    let! a := py_item we 0 in
    let! b := py_item we 1 in
    let! c := py_item we 2 in
    let! d := py_item we 3 in
    py_and (Ok (is_number a))
      (py_and (Ok (is_number b))
        (py_and (Ok (is_number c))
          (py_and (py_lt (PInt 0) c)
            (isdistribution d (- ninf) ninf)))).

  (** oneka.py:229-233 *)
  Definition valid_obs (ob : pyval T) : res bool :=
    let! n := py_len ob in
    if negb (n =? 4)%Z then Ok false else
    let! a := py_item ob 0 in
    let! b := py_item ob 1 in
    let! c := py_item ob 2 in
    let! d := py_item ob 3 in
    py_and (Ok (is_number a))
      (py_and (Ok (is_number b))
        (py_and (Ok (is_number c))
          (py_and (Ok (is_number d)) (py_leq (PInt 0) d)))).

  (** oneka.py:207-242, the validation, assertion by assertion. *)
  Definition validate (a : args) : res unit :=
    let! _ := py_assert (Ok (is_str (projectname a))) in
    let! _ := py_assert (Ok (is_str (runtime a))) in
    let! _ := py_assert (py_and (Ok (is_int (target a)))
                (py_and (py_leq (PInt 0) (target a))
                        (let! n := py_len (stochastic_wells a) in py_lt (target a) (PInt n)))) in
    let! _ := py_assert (py_and (Ok (is_int (npaths a))) (py_lt (PInt 0) (npaths a))) in
    let! _ := py_assert (py_and (Ok (is_number (duration a))) (py_ne0 (duration a))) in
    let! _ := py_assert (Ok (is_number (base_ a))) in
    let! _ := py_assert (isdistribution (c_dist a) (nZ 0) ninf) in
    let! _ := py_assert (isdistribution (p_dist a) (nZ 0) (nZ 1)) in
    let! _ := py_assert (isdistribution (t_dist a) (nZ 0) ninf) in
    let! _ := py_assert (py_and (Ok (is_list (stochastic_wells a)))
                (let! n := py_len (stochastic_wells a) in Ok (n >=? 1)%Z)) in
    let! _ := for_in (elements (stochastic_wells a)) (fun we _ => py_assert (valid_well we)) tt in
    let! _ := py_assert (py_and (Ok (is_list (observations a)))
                (let! n := py_len (observations a) in Ok (n >? 6)%Z)) in
    let! _ := for_in (elements (observations a)) (fun ob _ => py_assert (valid_obs ob)) tt in
    let! _ := py_assert (positive_number (buffer a)) in
    let! _ := py_assert (positive_number (spacing a)) in
    let! _ := py_assert (positive_number (umbra a)) in
    let! _ := py_assert (positive_number (smooth a)) in
    let! _ := py_assert (Ok (is_bool (confined a))) in
    let! _ := py_assert (positive_number (tol a)) in
    let! _ := py_assert (positive_number (maxstep a)) in
    Ok tt.

  (** Reading validated values. *)
  Definition get_int (v : pyval T) : res Z :=
    match v with
    | PInt z => Ok z
    | PBool b => Ok (if b then 1 else 0)%Z
    | _ => Raise TypeError
    end.
  Definition get_bool (v : pyval T) : bool := match v with PBool b => b | _ => false end.

  Definition get_well (we : pyval T) : res (swell T) :=
    let! a := py_item we 0 in let! x := as_num a in
    let! b := py_item we 1 in let! y := as_num b in
    let! c := py_item we 2 in let! r := as_num c in
    let! q := py_item we 3 in
    Ok {| sx := x; sy := y; sr := r; sq := q |}.

  Definition get_obs (ob : pyval T) : res (obs T) :=
    let! a := py_item ob 0 in let! x := as_num a in
    let! b := py_item ob 1 in let! y := as_num b in
    let! c := py_item ob 2 in let! z := as_num c in
    let! d := py_item ob 3 in let! s := as_num d in
    Ok {| ox := x; oy := y; oz := z; os := s |}.

  (** What dump_oneka is given: arguments of the call, and the field. *)
  Inductive pyobj := OVal (v : pyval T) | OField (s : pfield T).

  (** oneka.py:308-315: the call of dump_oneka (with the observations as given, not the filtered ones). *)
  Definition archived (a : args) (s : pfield T) : run_args pyobj :=
    {| a_projectname := OVal (projectname a); a_runtime := OVal (runtime a);
       a_target := OVal (target a); a_npaths := OVal (npaths a); a_duration := OVal (duration a);
       a_nrealizations := OVal (nrealizations a);
       a_base := OVal (base_ a); a_c_dist := OVal (c_dist a); a_p_dist := OVal (p_dist a); a_t_dist := OVal (t_dist a);
       a_stochastic_wells := OVal (stochastic_wells a); a_observations := OVal (observations a);
       a_buffer := OVal (buffer a); a_spacing := OVal (spacing a); a_umbra := OVal (umbra a); a_smooth := OVal (smooth a);
       a_confined := OVal (confined a); a_tol := OVal (tol a); a_maxstep := OVal (maxstep a);
       a_pfield := OField s |}.

  (** Observable effects of a run, in order. *)
  Inductive event :=
  | EBanner                                        (* log_the_run wrote (at least) its banner *)
  | EFiltered (l : list (obs T))                   (* filter_obs logged the active observations *)
  | ESummary (l : list (stats T))
  | ERealizations (l : list (run_log T))           (* stochastic driver log *)
  | EDeterministic (l : run_log T)                 (* deterministic driver log *)
  | EProbabilityPlot (X Y : list T) (P : list (list T))
  | EImpactPlot (pr area : list T)
  | EDeciles (rows : list (T * T * T))
  | EAreaPlot (area : T)
  | EArchive (r : run_args pyobj)                  (* dump_oneka is called *)
  | EShow.

  (** What a call of [oneka] can evaluate to. *)
  Inductive result := RNone | RField (s : pfield T).

  (** The effects of a run and its outcome. *)
  Definition outcome : Type := (list event * res result)%type.
  Definition stop {A} (r : res A) (k : A -> outcome) : outcome :=
    match r with Ok a => k a | Raise e => ([], Raise e) | NoFuel => ([], NoFuel) end.
  Definition emit (e : event) (o : outcome) : outcome := (e :: fst o, snd o).

  (** oneka.py:348-351: [nrealizations > 1] and the format code 'd', which rejects floats
      with ValueError. *)
  Definition log_nrealizations (v : pyval T) : res Z :=
    match v with
    | PFloat _ => Raise ValueError
    | _ => get_int v
    end.

  Context {G E : Type} (R : rng T G).
  Variable mvn : E -> list T -> list (list T) -> list T.
  (** Whether dump_oneka returns or raises (ModelArchive.dump_oneka; it depends on pickle and the disk). *)
  Variable dump : run_args pyobj -> res unit.

  (** oneka.py:307-317: archive, show the figures; there is no return statement. *)
  Definition finish (a : args) (pf : pfield T) : outcome :=
    emit (EArchive (archived a pf)) (
    stop (dump (archived a pf)) (fun _ => ([EShow], Ok RNone))).

  (** oneka.py:73-317, [oneka(...)] *)
  Definition oneka (fuel : nat) (la : linalg T) (entropy : nat -> E) (g : G) (a : args) : outcome :=
    stop (validate a) (fun _ =>
    emit EBanner (
    stop (log_nrealizations (nrealizations a)) (fun nreal =>
    stop (map_res get_well (elements (stochastic_wells a))) (fun ws =>
    stop (map_res get_obs (elements (observations a))) (fun obs0 =>
    stop (as_num (buffer a)) (fun buf =>
    stop (filter_obs obs0 (map (fun w => (sx w, sy w)) ws) buf) (fun obs =>
    emit (EFiltered obs) (
    stop (py_assert (Ok (Z.of_nat (List.length obs) >? 6)%Z)) (fun _ =>
    stop (summary_statistics (map (fun o => [ox o; oy o; oz o; os o]) obs)) (fun st =>
    emit (ESummary st) (
    stop (get_int (target a)) (fun tgt =>
    stop (get_int (npaths a)) (fun np =>
    stop (as_num (duration a)) (fun dur =>
    stop (as_num (base_ a)) (fun bas =>
    stop (as_num (spacing a)) (fun spc =>
    stop (as_num (umbra a)) (fun umb =>
    stop (as_num (tol a)) (fun tl =>
    stop (as_num (maxstep a)) (fun ms =>
    if (nreal >? 1)%Z then
      stop (create_stochastic R mvn fuel la entropy g (Z.to_nat tgt) np dur nreal bas
                              (c_dist a) (p_dist a) (t_dist a) ws obs spc umb
                              (get_bool (confined a)) tl ms) (fun '(pf, logs) =>
      emit (ERealizations logs) (
      stop (create_probability_plot pf) (fun '(X, Y, P) =>
      emit (EProbabilityPlot X Y P) (
      stop (create_impact_plot spc pf) (fun '(pr, area) =>
      emit (EImpactPlot pr area) (
      stop (decile_table pr area) (fun rows =>
      emit (EDeciles rows) (
      finish a pf))))))))
    else
      stop (create_deterministic fuel la (Z.to_nat tgt) np dur bas
                                 (c_dist a) (p_dist a) (t_dist a) ws obs spc umb
                                 (get_bool (confined a)) tl ms) (fun '(pf, l) =>
      emit (EDeterministic l) (
      stop (create_deterministic_plot pf) (fun area =>
      emit (EAreaPlot area) (
      finish a pf))))))))))))))))))))))).
End Main.
Arguments args T : clear implicits.
Arguments event T : clear implicits.
Arguments pyobj T : clear implicits.
Arguments result T : clear implicits.
Arguments outcome T : clear implicits.
