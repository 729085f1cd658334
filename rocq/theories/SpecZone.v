(** * Fields with room, and the zones that a node is counted for *)
From Coq Require Import ZArith Reals SpecFloat List.
From Verif Require Import Py Num ModelField ModelTrace SpecFloats SpecField SpecExact.
Import ListNotations.
Local Open Scope R_scope.

(** Spacings and edges are whole numbers of units, 2^ex along x and 2^ey along y, and at most 2^52 of them from 0 (twice as many half units). *)
Definition roomy (ex ey : Z) (s : pfield spec_float) : Prop := dyadic ex ey s /\ dyadic (ex - 1) (ey - 1) s.

(** A coordinate that is such a number, also when the spacing is added; any coordinate in that range. *)
Definition roomy_units (e : Z) (v : R) : Prop := (exists n : Z, v = IZR n * powerRZ 2 e) /\ Rabs v <= powerRZ 2 (52 + e).
Definition roomy_range (e : Z) (d x : spec_float) : Prop := ffinite x /\ Rabs (fval x) + fval d <= powerRZ 2 (52 + e).

(** A track with all its points in range, and consecutive points equal or not closer than 2^-200. *)
Definition good_track (ex ey : Z) (dx dy : spec_float) (tr : list (spec_float * spec_float)) : Prop :=
  Forall (fun p => roomy_range ex dx (fst p) /\ roomy_range ey dy (snd p)) tr /\ (forall p q, consecutive tr p q -> apart (at_ p) (at_ q)).

(** A moving segment of one of the tracks is possibly near the point, or is surely near it. *)
Definition possibly_hit (u : R) (tracks : list (list (spec_float * spec_float))) (c : point) : Prop :=
  exists tr p q, In tr tracks /\ consecutive tr p q /\ at_ p <> at_ q /\ possibly_near u (at_ p) (at_ q) c.
Definition surely_hit (u : R) (tr : list (spec_float * spec_float)) (c : point) : Prop :=
  exists p q, consecutive tr p q /\ at_ p <> at_ q /\ surely_near u (at_ p) (at_ q) c.

(** The point lies in the bounding box of the track. *)
Definition boxed (tr : list (spec_float * spec_float)) (x y : R) : Prop :=
  (exists p q, In p tr /\ In q tr /\ fst (at_ p) <= x <= fst (at_ q)) /\ (exists p q, In p tr /\ In q tr /\ snd (at_ p) <= y <= snd (at_ q)).

(** A node at [(x, y)] is counted ([b]) for a zone only if some track is possibly near it.  It is counted if it is surely near some track, provided that the field had
    it when that track was laid: [old] says that the first field has it; otherwise it suffices that it lies in the box of all points so far, those before the zone
    being [seen]. *)
Definition fair (u : R) (old : Prop) (seen : list (spec_float * spec_float)) (x y : R) (b : bool) (tracks : list (list (spec_float * spec_float))) : Prop :=
  (b = true -> possibly_hit u tracks (x, y)) /\
  (forall before tr after, tracks = before ++ tr :: after -> surely_hit u tr (x, y) -> old \/ boxed (seen ++ concat before ++ tr) x y -> b = true).

(** One flag per zone. *)
Inductive fairs (u : R) (old : Prop) (x y : R) : list (spec_float * spec_float) -> list bool -> list (list (list (spec_float * spec_float))) -> Prop :=
| fairs_nil seen : fairs u old x y seen [] []
| fairs_cons seen b z flags zones : fair u old seen x y b z -> fairs u old x y (seen ++ concat z) flags zones -> fairs u old x y seen (b :: flags) (z :: zones).

(** How many. *)
Fixpoint tally (l : list bool) : R := match l with [] => 0 | b :: l' => (if b then 1 else 0) + tally l' end.
