(** * What is asked of the log *)
From Coq Require Import Reals String SpecFloat ZArith List.
From Verif Require Import Py Num ModelDist ModelMain SpecText.
Import ListNotations.

(** Values made of numbers: integers, binary64 floats, truth values, None, tuples and lists of such. *)
Inductive data : pyval spec_float -> Prop :=
| DInt z : data (PInt z)
| DFloat x : SpecFloat.valid_binary fprec femax x = true -> data (PFloat x)
| DBool b : data (PBool b)
| DNone : data PNone
| DTuple l : Forall data l -> data (PTuple l)
| DList l : Forall data l -> data (PList l).

(** The number behind a numeric argument. *)
Definition number_of (v : pyval spec_float) : option spec_float :=
  match v with
  | PInt z => Some (f_of_Z z)
  | PFloat x => Some x
  | PBool b => Some (f_of_Z (if b then 1 else 0))
  | _ => None
  end.
Definition integer_of (v : pyval spec_float) : option Z :=
  match v with PInt z => Some z | PBool b => Some (if b then 1 else 0)%Z | _ => None end.

(** Two numeric arguments that differ by at most a hundredth (or are not finite and the same). *)
Definition within_cent (u v : pyval spec_float) : Prop :=
  exists x y, number_of u = Some x /\ number_of v = Some y /\
    ((finite x /\ finite y /\ (Rabs (value x - value y) <= 1 / 100)%R) \/ (~ finite x /\ x = y)).

(** All floats in a value are binary64 numbers. *)
Inductive wellformed : pyval spec_float -> Prop :=
| WInt z : wellformed (PInt z)
| WFloat x : SpecFloat.valid_binary fprec femax x = true -> wellformed (PFloat x)
| WBool b : wellformed (PBool b)
| WStr s : wellformed (PStr s)
| WNone : wellformed PNone
| WTuple l : Forall wellformed l -> wellformed (PTuple l)
| WList l : Forall wellformed l -> wellformed (PList l).

(** Integers that Python converts to float: those below the middle of the largest float and 2^1024. *)
Definition convertible (v : pyval spec_float) : Prop :=
  match v with PInt z => (Z.abs z < 2 ^ 1024 - 2 ^ 970)%Z | _ => True end.

(** The arguments of a call. *)
Definition arguments (a : args spec_float) : list (pyval spec_float) :=
  [projectname a; runtime a; target a; npaths a; duration a; nrealizations a; base_ a; c_dist a; p_dist a; t_dist a;
   stochastic_wells a; observations a; buffer a; spacing a; umbra a; smooth a; confined a; tol a; maxstep a].
(** Those that are written with two decimals. *)
Definition rounded_arguments (a : args spec_float) : list (pyval spec_float) :=
  [duration a; base_ a; buffer a; spacing a; umbra a; tol a; maxstep a].

Definition same_integer (u v : pyval spec_float) : Prop := exists z, integer_of u = Some z /\ integer_of v = Some z.

(** The same call with another value of tol. *)
Definition with_tol (a : args spec_float) (v : pyval spec_float) : args spec_float :=
  {| projectname := projectname a; runtime := runtime a; target := target a; npaths := npaths a;
     duration := duration a; nrealizations := nrealizations a; base_ := base_ a;
     c_dist := c_dist a; p_dist := p_dist a; t_dist := t_dist a;
     stochastic_wells := stochastic_wells a; observations := observations a;
     buffer := buffer a; spacing := spacing a; umbra := umbra a; smooth := smooth a;
     confined := confined a; tol := v; maxstep := maxstep a |}.
