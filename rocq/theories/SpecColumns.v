(** * Tables with any columns (C129) *)
From Coq Require Import Reals String Ascii SpecFloat ZArith List.
From Verif Require Import Py Num ModelObs ModelText ModelLog SpecText SpecTable SpecLines.
Import ListNotations.
Local Open Scope string_scope.

(** The part of a line that belongs to column [j], after a label of five characters; [ws] are the widths of the columns. *)
Definition cell (ws : list nat) (j : nat) (line : string) : string := substring (5 + list_sum (firstn j ws)) (nth j ws 0%nat) line.

(** The text, without the blanks before it, is [x] as the format code prescribes: rounded to so many decimals, or to so many digits after the first one. *)
Definition shows_as (c : code) (t : string) (x : spec_float) : Prop :=
  exists u, blanks_then u t /\ match c with CodeF _ n => shows n u x | CodeE _ n => shows_e n u x end.

(** A column whose entries are not wider than what Python reserves for it: the width of the text of 1. *)
Definition roomy (c : code) (name : string) (s : stats spec_float) : Prop :=
  let w := String.length (by_code c (f_of_Z 1)) in
  (String.length name <= w)%nat /\ (String.length (fmt_d (s_cnt s)) <= w)%nat /\
  (forall x, In x (statistics s) -> normal x /\ (String.length (by_code c x) <= w)%nat) /\
  match c with CodeF _ _ => True | CodeE _ n => (1 <= n)%nat end.

(** The lines of a text, each ended by the character with code 10, and what is left after the last one. *)
Fixpoint split_lines (t : string) : list string * string :=
  match t with
  | "" => ([], "")
  | String a r =>
      let (ls, rest) := split_lines r in
      if Ascii.eqb a (ascii_of_nat 10) then ("" :: ls, rest)
      else match ls with [] => ([], String a rest) | l :: ls' => (String a l :: ls', rest) end
  end.
Fixpoint without_break (t : string) : bool := match t with "" => true | String a r => negb (Ascii.eqb a (ascii_of_nat 10)) && without_break r end.
