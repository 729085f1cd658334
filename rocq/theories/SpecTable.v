(** * What is asked of the printed tables *)
From Coq Require Import Reals String Ascii SpecFloat ZArith List.
From Verif Require Import Py Num ModelObs SpecText.
Import ListNotations.
Local Open Scope string_scope.

(** Columns of twelve characters after a label of five. *)
Definition label_of (line : string) : string := substring 0 5 line.
Definition field (j : nat) (line : string) : string := substring (5 + 12 * j) 12 line.

Definition statistics (s : stats spec_float) : list spec_float := [s_min s; s_med s; s_max s; s_avg s; s_std s].

(** Numbers that fit the columns. *)
Definition fits (x : spec_float) : Prop := finite x /\ (Rabs (value x) <= 99999999)%R.
Definition fit (s : stats spec_float) : Prop := (0 <= s_cnt s < 10 ^ 12)%Z /\ Forall fits (statistics s).

(** The text is [x] rounded to [n] decimals (ties to even), with the sign of [x]. *)
Definition shows (n : nat) (t : string) (x : spec_float) : Prop :=
  exists v, read t = Some {| n_neg := negative x; n_int := v; n_decimals := n |} /\ rounded (Rabs (value x) * 10 ^ n) v.

(** [t], with blanks before it. *)
Inductive blanks_then (t : string) : string -> Prop :=
| bt_done : blanks_then t t
| bt_blank s : blanks_then t s -> blanks_then t (String " "%char s).
