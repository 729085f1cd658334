(** * Numbers: one interface, two arithmetics.

    The Python code computes with IEEE doubles (Python [float], numpy
    [float64]) and Python ints that are converted on contact.  The model is
    written over the class [Num]; see DESIGN.md section 1. *)
From Coq Require Import Reals ZArith Bool Lra Lia.
From Coq Require Import Floats.SpecFloat.
From Verif Require Import Py.

Class Num (T : Type) : Type := {
  nZ : Z -> T;                      (* an integer literal, or an int in a float context *)
  nlit : Z -> positive -> T;        (* the constant p/q, correctly rounded *)
  nadd : T -> T -> T;
  nsub : T -> T -> T;
  nmul : T -> T -> T;
  ndiv : T -> T -> T;               (* numpy division: no ZeroDivisionError *)
  nopp : T -> T;
  nabs : T -> T;
  nsqrt : T -> T;
  nlog : T -> T;                    (* np.log *)
  ncos : T -> T;
  nsin : T -> T;
  nhypot : T -> T -> T;             (* np.hypot *)
  nroot5 : T -> T;                  (* x ** (1/5) *)
  npi : T;                          (* np.pi *)
  ninf : T;                         (* np.inf *)
  nnan : T;                         (* np.nan *)
  nisnan : T -> bool;
  nlt : T -> T -> bool;
  nle : T -> T -> bool;
  neq : T -> T -> bool;
  nfloor : T -> res Z               (* math.floor *)
}.

Declare Scope num_scope.
Delimit Scope num_scope with num.
Infix "+" := nadd : num_scope.
Infix "-" := nsub : num_scope.
Infix "*" := nmul : num_scope.
Infix "/" := ndiv : num_scope.
Notation "- x" := (nopp x) : num_scope.
Infix "<?" := nlt (at level 70) : num_scope.
Infix "<=?" := nle (at level 70) : num_scope.
Infix "=?" := neq (at level 70) : num_scope.
Notation "x >? y" := (nlt y x) (at level 70) : num_scope.
Notation "x >=? y" := (nle y x) (at level 70) : num_scope.

Section Generic.
  Context {T : Type} {N : Num T}.

  (** [x ** 2] *)
  Definition nsq (x : T) : T := nmul x x.

  (** [math.ceil(x) = -math.floor(-x)] *)
  Definition nceil (x : T) : res Z :=
    let! k := nfloor (nopp x) in Ok (- k)%Z.

  (** Python's two-argument [min]/[max]: the first argument unless the second is
      strictly better (this fixes the behaviour on NaN). *)
  Definition pymin (a b : T) : T := if nlt b a then b else a.
  Definition pymax (a b : T) : T := if nlt a b then b else a.

  (** [min(l)], [max(l)] of a list: ValueError when empty. *)
  Definition pymin_list (l : list T) : res T :=
    match l with [] => Raise ValueError | x :: l' => Ok (fold_left pymin l' x) end.
  Definition pymax_list (l : list T) : res T :=
    match l with [] => Raise ValueError | x :: l' => Ok (fold_left pymax l' x) end.

  (** Division of plain Python numbers: raises ZeroDivisionError. *)
  Definition pydiv (a b : T) : res T :=
    if neq b (nZ 0) then Raise ZeroDivisionError else Ok (ndiv a b).

  (** numpy's maximum, which propagates NaN. *)
  Definition npmax (a b : T) : T :=
    if nisnan a then a else if nisnan b then b else if nlt a b then b else a.

  (** [np.sign] *)
  Definition nsign (x : T) : T :=
    if nisnan x then x
    else if nlt (nZ 0) x then nZ 1
    else if nlt x (nZ 0) then nZ (-1)
    else nZ 0.
End Generic.

(** ** Exact arithmetic with IEEE special values

    Simplification: one zero instead of two; [x / 0] takes the sign of [x] (as for
    a divisor +0).  Every divisor in the modelled code that can be zero is a sum of squares, a
    product of non-negative quantities or a Python-checked value, so it is +0. *)
Inductive xr : Set := Fin (r : R) | PInf | NInf | NaN.

Definition Rltb (a b : R) : bool := if Rlt_dec a b then true else false.
Definition Rleb (a b : R) : bool := if Rle_dec a b then true else false.
Definition Reqb (a b : R) : bool := if Req_EM_T a b then true else false.

Local Open Scope R_scope.

Definition xopp (x : xr) : xr :=
  match x with Fin a => Fin (- a) | PInf => NInf | NInf => PInf | NaN => NaN end.

Definition xadd (x y : xr) : xr :=
  match x, y with
  | Fin a, Fin b => Fin (a + b)
  | NaN, _ | _, NaN => NaN
  | PInf, NInf | NInf, PInf => NaN
  | PInf, _ | _, PInf => PInf
  | NInf, _ | _, NInf => NInf
  end.

Definition xsub (x y : xr) : xr :=
  match x, y with
  | Fin a, Fin b => Fin (a - b)
  | _, _ => xadd x (xopp y)
  end.

(** The infinity with the sign of [a], NaN for 0. *)
Definition inf_of_sign (a : R) : xr :=
  if Rltb 0 a then PInf else if Rltb a 0 then NInf else NaN.

Definition xmul (x y : xr) : xr :=
  match x, y with
  | Fin a, Fin b => Fin (a * b)
  | NaN, _ | _, NaN => NaN
  | Fin a, PInf | PInf, Fin a => inf_of_sign a
  | Fin a, NInf | NInf, Fin a => xopp (inf_of_sign a)
  | PInf, PInf | NInf, NInf => PInf
  | PInf, NInf | NInf, PInf => NInf
  end.

Definition xdiv (x y : xr) : xr :=
  match x, y with
  | Fin a, Fin b => if Reqb b 0 then inf_of_sign a else Fin (a / b)
  | NaN, _ | _, NaN => NaN
  | Fin _, _ => Fin 0
  | PInf, Fin b => if Rltb b 0 then NInf else PInf
  | NInf, Fin b => if Rltb b 0 then PInf else NInf
  | _, _ => NaN
  end.

Definition xabs (x : xr) : xr :=
  match x with Fin a => Fin (Rabs a) | NaN => NaN | _ => PInf end.

Definition xsqrt (x : xr) : xr :=
  match x with
  | Fin a => if Rltb a 0 then NaN else Fin (sqrt a)
  | PInf => PInf
  | _ => NaN
  end.

Definition xlog (x : xr) : xr :=
  match x with
  | Fin a => if Rltb a 0 then NaN else if Reqb a 0 then NInf else Fin (ln a)
  | PInf => PInf
  | _ => NaN
  end.

Definition xcos (x : xr) : xr := match x with Fin a => Fin (cos a) | _ => NaN end.
Definition xsin (x : xr) : xr := match x with Fin a => Fin (sin a) | _ => NaN end.

Definition xhypot (x y : xr) : xr :=
  match x, y with
  | Fin a, Fin b => Fin (sqrt (a * a + b * b))
  | PInf, _ | NInf, _ | _, PInf | _, NInf => PInf
  | _, _ => NaN
  end.

(** [x ** (1/5)] for a float: NaN for negative, C [pow] on the infinities. *)
Definition xroot5 (x : xr) : xr :=
  match x with
  | Fin a => if Rltb a 0 then NaN else if Reqb a 0 then Fin 0 else Fin (exp (ln a / 5))
  | PInf | NInf => PInf
  | NaN => NaN
  end.

Definition xisnan (x : xr) : bool := match x with NaN => true | _ => false end.

Definition xlt (x y : xr) : bool :=
  match x, y with
  | Fin a, Fin b => Rltb a b
  | NaN, _ | _, NaN => false
  | NInf, NInf | PInf, PInf => false
  | NInf, _ | _, PInf => true
  | _, _ => false
  end.

Definition xle (x y : xr) : bool :=
  match x, y with
  | Fin a, Fin b => Rleb a b
  | NaN, _ | _, NaN => false
  | NInf, _ | _, PInf => true
  | _, _ => false
  end.

Definition xeq (x y : xr) : bool :=
  match x, y with
  | Fin a, Fin b => Reqb a b
  | PInf, PInf | NInf, NInf => true
  | _, _ => false
  end.

(** math.floor: ValueError on NaN, OverflowError on infinities. *)
Definition xfloor (x : xr) : res Z :=
  match x with
  | Fin a => Ok (Int_part a)
  | NaN => Raise ValueError
  | _ => Raise OverflowError
  end.

Global Instance XR : Num xr := {|
  nZ := fun z => Fin (IZR z);
  nlit := fun p q => Fin (IZR p / IZR (Zpos q));
  nadd := xadd; nsub := xsub; nmul := xmul; ndiv := xdiv;
  nopp := xopp; nabs := xabs; nsqrt := xsqrt; nlog := xlog;
  ncos := xcos; nsin := xsin; nhypot := xhypot; nroot5 := xroot5;
  npi := Fin PI; ninf := PInf; nnan := NaN; nisnan := xisnan;
  nlt := xlt; nle := xle; neq := xeq; nfloor := xfloor
|}.

(** ** IEEE binary64, bit for bit

    From Coq's [SpecFloat].  The functions that IEEE 754 does not fix (log,
    cos, ...: the C library) are a parameter [libm]; theorems about this instance hold for
    every [libm]. *)
Record libm := {
  lm_log : spec_float -> spec_float;
  lm_cos : spec_float -> spec_float;
  lm_sin : spec_float -> spec_float;
  lm_hypot : spec_float -> spec_float -> spec_float;
  lm_root5 : spec_float -> spec_float
}.

Definition fprec : Z := 53%Z.
Definition femax : Z := 1024%Z.

Definition f_of_Z (z : Z) : spec_float := binary_normalize fprec femax z 0 false.

Definition f_floor (x : spec_float) : res Z :=
  match x with
  | S754_zero _ => Ok 0%Z
  | S754_infinity _ => Raise OverflowError
  | S754_nan => Raise ValueError
  | S754_finite s m e =>
      let v := cond_Zopp s (Zpos m) in
      Ok (match e with
          | Z0 => v
          | Zpos p => (v * 2 ^ Zpos p)%Z
          | Zneg p => (v / 2 ^ Zpos p)%Z
          end)
  end.

Definition f_isnan (x : spec_float) : bool :=
  match x with S754_nan => true | _ => false end.

Definition SF (lm : libm) : Num spec_float := {|
  nZ := f_of_Z;
  nlit := fun p q => SFdiv fprec femax (f_of_Z p) (f_of_Z (Zpos q));
  nadd := SFadd fprec femax; nsub := SFsub fprec femax;
  nmul := SFmul fprec femax; ndiv := SFdiv fprec femax;
  nopp := SFopp; nabs := SFabs; nsqrt := SFsqrt fprec femax;
  nlog := lm_log lm; ncos := lm_cos lm; nsin := lm_sin lm;
  nhypot := lm_hypot lm; nroot5 := lm_root5 lm;
  (* np.pi = 884279719003555 / 2^48 *)
  npi := SFdiv fprec femax (f_of_Z 884279719003555) (f_of_Z 281474976710656);
  ninf := S754_infinity false; nnan := S754_nan; nisnan := f_isnan;
  nlt := SFltb; nle := SFleb; neq := SFeqb; nfloor := f_floor
|}.
