(** * Specification of the plots *)
From Coq Require Import Reals List.
From Verif Require Import Py Num ModelField ModelAquifer SpecField SpecAquifer.
Import ListNotations.
Local Open Scope R_scope.

(** [l] lists every node of the field once: its location and its accumulated weight. *)
Definition enumerates (s : pfield xr) (l : list (point * R)) : Prop :=
  NoDup (map fst l) /\ forall x y w, In ((x, y), w) l <-> exists m, has_node s x y w m.

(** The number of nodes whose probability (weight over total weight) exceeds [p]. *)
Definition exceeding (W p : R) (l : list (point * R)) : nat :=
  length (filter (fun n => if Rlt_dec p (snd n / W) then true else false) l).

(** The number of nodes of positive weight. *)
Definition captured (l : list (point * R)) : nat :=
  length (filter (fun n => if Rlt_dec 0 (snd n) then true else false) l).

(** The number of nodes whose probability is at least 1. *)
Definition certain (W : R) (l : list (point * R)) : nat :=
  length (filter (fun n => if Rle_dec 1 (snd n / W) then true else false) l).

(** The [k]-th of [n] equally spaced values from [a] to [b]. *)
Definition spaced (a b : R) (n k : Z) : R := a + IZR k * ((b - a) / IZR (n - 1)).

(** A location where the potential is not positive (the aquifer is dry there). *)
Definition dry (m : model R) (x y : R) : Prop :=
  match compute_potential (fmodel m) (Fin x) (Fin y) with
  | Fin p => p <= 0
  | NInf => True
  | _ => False
  end.
