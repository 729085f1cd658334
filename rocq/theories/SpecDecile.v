(** * Specification of the decile table in binary64 (C132) *)
From Coq Require Import Reals List.
From Verif Require Import SpecField SpecPlot.
Import ListNotations.
Local Open Scope R_scope.

(** The number of nodes whose probability is at least [p]. *)
Definition reaching (W p : R) (l : list (point * R)) : nat :=
  length (filter (fun n => if Rle_dec p (snd n / W) then true else false) l).

(** The rows, counted from 0, whose threshold lies below (k+1)/20 in binary64: 0.4, 0.45, 0.5, 0.55 and 0.8. *)
Definition low (k : nat) : bool := existsb (Nat.eqb k) [7; 8; 9; 10; 15]%nat.
