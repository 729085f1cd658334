(** * What is asked of the printed form of an object (C119) *)
From Coq Require Import String Ascii SpecFloat ZArith List.
From Verif Require Import Py Num ModelField ModelDist ModelMain ModelText ModelLog ModelPrint SpecText SpecLog.
Import ListNotations.
Local Open Scope string_scope.

(** The text is a call of [name] with the arguments [l]. *)
Definition reads (text name : string) (l : list val) : Prop := text = name ++ "(" ++ join ", " (map repr l) ++ ")".
(** A name has no parenthesis. *)
Definition simple (name : string) : Prop := forall u v, name <> u ++ "(" ++ v.

(** Binary64 numbers that Python reads back from their text. *)
Definition numeral (x : spec_float) : Prop := finite x /\ SpecFloat.valid_binary fprec femax x = true.
(** All numbers of a field that has grids. *)
Definition numeral_field (s : pfield spec_float) (g : geom spec_float) : Prop :=
  Forall numeral [deltax s; deltay s; xmin g; xmax g; ymin g; ymax g; total_weight g].

(** A call that the text reads as gives the object back. *)
Definition rebuilds {A : Type} (call : list val -> res A) (name text : string) (x : A) : Prop :=
  exists l, Forall data l /\ reads text name l /\ call l = Ok x.
