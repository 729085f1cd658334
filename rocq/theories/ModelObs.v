(** * Model of /repo/oneka/utilities.py *)
From Verif Require Import Py Num ModelAquifer.
Local Open Scope num_scope.

Section Obs.
  Context {T : Type} {N : Num T}.

  (** utilities.py:98-102: is the observation farther than [buffer] from every well?
      A well is represented by its first two fields. *)
  Definition far_from_wells (ws : list (T * T)) (buffer : T) (o : obs T) : bool :=
    forallb (fun w => negb (nhypot (ox o - fst w) (oy o - snd w) <=? buffer)) ws.

  (** utilities.py:115: [np.hypot(...) < TOO_CLOSE], TOO_CLOSE = 1.0 *)
  Definition too_close (a b : obs T) : bool :=
    nhypot (ox a - ox b) (oy a - oy b) <? nZ 1.

  (** utilities.py:114-116: the observations following [lead] that the inner while
      loop swallows, and the rest. *)
  Fixpoint take_close (lead : obs T) (l : list (obs T)) : list (obs T) * list (obs T) :=
    match l with
    | [] => ([], [])
    | o :: l' => if too_close lead o
                 then let (g, r) := take_close lead l' in (o :: g, r)
                 else ([], l)
    end.

  (** utilities.py:119-123: the sums num and den over one group. *)
  Fixpoint weighted_sums (g : list (obs T)) (num den : T) : res (T * T) :=
    match g with
    | [] => Ok (num, den)
    | o :: g' =>
        let! a := pydiv (oz o) (nsq (os o)) in
        let! b := pydiv (nZ 1) (nsq (os o)) in
        weighted_sums g' (num + a) (den + b)
    end.

  (** utilities.py:118-128: what is appended for the group [lead :: g]. *)
  Definition merge_group (lead : obs T) (g : list (obs T)) : res (obs T) :=
    match g with
    | [] => Ok lead
    | _ => let! (num, den) := weighted_sums (lead :: g) (nZ 0) (nZ 0) in
           let! z := pydiv num den in
           let! v := pydiv (nZ 1) den in
           Ok {| ox := ox lead; oy := oy lead; oz := z; os := nsqrt v |}
    end.

  (** utilities.py:112-129, the outer while loop.  [fuel] only bounds the recursion; the
      length of the list suffices (theorem [merge_fuel] in ProofObs.v). *)
  Fixpoint merge (fuel : nat) (l : list (obs T)) : res (list (obs T)) :=
    match l with
    | [] => Ok []
    | o :: l' =>
        match fuel with
        | O => NoFuel
        | S f =>
            let (g, rest) := take_close o l' in
            let! m := merge_group o g in
            let! ms := merge f rest in
            Ok (m :: ms)
        end
    end.

  (** utilities.py:34-144, [filter_obs(observations, wellfield, buffer)] (logging omitted) *)
  Definition filter_obs (l : list (obs T)) (ws : list (T * T)) (buffer : T) : res (list (obs T)) :=
    let kept := filter (far_from_wells ws buffer) l in
    merge (length kept) kept.

  (** ** summary_statistics *)

  (** np.sort (ascending) on values without NaN. *)
  Fixpoint sort_insert (x : T) (l : list T) : list T :=
    match l with
    | [] => [x]
    | y :: l' => if x <=? y then x :: l else y :: sort_insert x l'
    end.
  Definition nsort (l : list T) : list T := fold_right sort_insert [] l.

  (** np.sum and np.mean (numpy adds pairwise; in exact arithmetic the order does not matter). *)
  Definition lsum (l : list T) : T := fold_left nadd l (nZ 0).
  Definition mean (l : list T) : T := lsum l / nZ (Z.of_nat (length l)).

  (** np.median: middle element, or mean of the two middle elements. *)
  Definition median (l : list T) : T :=
    let s := nsort l in
    let n := length l in
    if Nat.even n
    then (nth (n / 2 - 1) s nnan + nth (n / 2) s nnan) / nZ 2
    else nth (n / 2) s nnan.

  (** np.std: square root of the mean squared deviation from the mean. *)
  Definition std (l : list T) : T :=
    let m := mean l in
    nsqrt (mean (map (fun x => nsq (x - m)) l)).

  Record stats := { s_cnt : Z; s_min : T; s_med : T; s_max : T; s_avg : T; s_std : T }.

  (** utilities.py:191-199: one column; np.min of an empty array raises ValueError. *)
  Definition column_stats (col : list T) : res stats :=
    let x := filter (fun v => negb (nisnan v)) col in
    let! mn := pymin_list x in
    let! mx := pymax_list x in
    Ok {| s_cnt := Z.of_nat (length x); s_min := mn; s_med := median x; s_max := mx;
          s_avg := mean x; s_std := std x |}.

  (** utilities.py:148-257, [summary_statistics(values, ...)]: the numbers in the table
      (the text layout is not modelled).  [values[0]] raises IndexError on an empty table. *)
  Definition summary_statistics (values : list (list T)) : res (list stats) :=
    match values with
    | [] => Raise IndexError
    | v0 :: _ =>
        map_res (fun j =>
                   let! col := map_res (fun v => match nth_error v j with
                                                 | Some a => Ok a
                                                 | None => Raise IndexError
                                                 end) values in
                   column_stats col) (seq 0 (length v0))
    end.
End Obs.
Arguments stats T : clear implicits.
