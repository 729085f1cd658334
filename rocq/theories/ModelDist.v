(** * Model of the distribution helpers in /repo/oneka/stochastic.py:273-376,
      over a universe of Python values *)
From Coq Require Import String.
From Verif Require Import Py Num.
Local Open Scope num_scope.

(** Python values that a caller may pass: ints, floats, bools, strings, None,
    tuples, lists.  (Other classes, e.g. numpy scalars other than float64, dicts, are not
    in the model.) *)
Inductive pyval (T : Type) : Type :=
| PInt (z : Z)
| PFloat (x : T)
| PBool (b : bool)
| PStr (s : string)
| PNone
| PTuple (l : list (pyval T))
| PList (l : list (pyval T)).
Arguments PInt {T} z.
Arguments PFloat {T} x.
Arguments PBool {T} b.
Arguments PStr {T} s.
Arguments PNone {T}.
Arguments PTuple {T} l.
Arguments PList {T} l.

Section Dist.
  Context {T : Type} {N : Num T}.

  (** The numeric value of ints, floats and bools (Python's bool is a subclass of int). *)
  Definition num_of (v : pyval T) : option T :=
    match v with
    | PInt z => Some (nZ z)
    | PFloat x => Some x
    | PBool b => Some (nZ (if b then 1 else 0))
    | _ => None
    end.

  Definition as_num (v : pyval T) : res T :=
    match num_of v with Some x => Ok x | None => Raise TypeError end.

  (** [isinstance(v, int)] *)
  Definition is_int (v : pyval T) : bool :=
    match v with PInt _ | PBool _ => true | _ => false end.
  Definition is_float (v : pyval T) : bool :=
    match v with PFloat _ => true | _ => false end.
  Definition is_number (v : pyval T) : bool := is_int v || is_float v.

  (** A chained comparison [a0 <= a1 <= ... <= an], evaluated left to right, stopping at the
      first False.  Each comparison has a number on one side here (the bounds are numbers),
      so comparing with a non-number raises TypeError. *)
  Fixpoint chain_le (a : pyval T) (l : list (pyval T)) : res bool :=
    match l with
    | [] => Ok true
    | b :: l' =>
        match num_of a, num_of b with
        | Some x, Some y => if x <=? y then chain_le b l' else Ok false
        | _, _ => Raise TypeError
        end
    end.

  (** stochastic.py:345-376, [isdistribution(arg, lb, ub)] *)
  Definition isdistribution (arg : pyval T) (lb ub : T) : res bool :=
    match arg with
    | PInt _ | PBool _ | PFloat _ => chain_le (PFloat lb) [arg; PFloat ub]
    | PTuple [a; b] | PList [a; b] => chain_le (PFloat lb) [a; b; PFloat ub]
    | PTuple [a; b; c] | PList [a; b; c] => chain_le (PFloat lb) [a; b; c; PFloat ub]
    | _ => Ok false
    end.

  (** stochastic.py:310-342, [compute_variate_mean(arg)] *)
  Definition compute_variate_mean (arg : pyval T) : res (pyval T) :=
    match arg with
    | PTuple [a; b] =>
        let! x := as_num a in
        let! y := as_num b in
        Ok (PFloat ((x + y) / nZ 2))
    | PTuple [a; b; c] =>
        let! x := as_num a in
        let! y := as_num b in
        let! z := as_num c in
        Ok (PFloat ((x + y + z) / nZ 3))
    | PTuple _ => Raise DistributionError
    | v => Ok v
    end.

  (** numpy's global RandomState, as an oracle with abstract state [G]. *)
  Record rng (G : Type) := {
    draw_uniform : G -> T -> T -> T * G;
    draw_triangular : G -> T -> T -> T -> T * G
  }.
  Arguments draw_uniform {G} _ _ _ _.
  Arguments draw_triangular {G} _ _ _ _ _.

  Definition nfinite (x : T) : bool :=
    negb (nisnan x) && negb (x =? ninf) && negb (x =? - ninf).

  Context {G : Type} (R : rng G).

  (** numpy RandomState.uniform: OverflowError when high - low is not finite. *)
  Definition np_uniform (g : G) (a b : T) : res (T * G) :=
    if nfinite (b - a) then Ok (draw_uniform R g a b) else Raise OverflowError.

  (** numpy RandomState.triangular: ValueError when left > mode, mode > right or
      left == right. *)
  Definition np_triangular (g : G) (l m r : T) : res (T * G) :=
    if l >? m then Raise ValueError
    else if m >? r then Raise ValueError
    else if l =? r then Raise ValueError
    else Ok (draw_triangular R g l m r).

  (** stochastic.py:274-306, [generate_random_variate(arg)] *)
  Definition generate_random_variate (g : G) (arg : pyval T) : res (pyval T * G) :=
    match arg with
    | PTuple [a; b] =>
        let! x := as_num a in
        let! y := as_num b in
        let! (v, g') := np_uniform g x y in
        Ok (PFloat v, g')
    | PTuple [a; b; c] =>
        let! x := as_num a in
        let! y := as_num b in
        let! z := as_num c in
        let! (v, g') := np_triangular g x y z in
        Ok (PFloat v, g')
    | PTuple _ => Raise DistributionError
    | v => Ok (v, g)
    end.
End Dist.
Arguments rng T G : clear implicits.
Arguments draw_uniform {T G} _ _ _ _.
Arguments draw_triangular {T G} _ _ _ _ _.
