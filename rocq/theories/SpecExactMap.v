(** * The field of a run, exactly *)
From Coq Require Import Reals List.
From Verif Require Import Py Num NumXR ModelField ModelDriver ModelMain SpecMain SpecField.
Import ListNotations.
Local Open Scope R_scope.

(** In both directions, [c] is at most [sp] outside the bounding box of the points. *)
Definition covered (sp : R) (pts : list point) (c : point) : Prop :=
  exists p q r s, In p pts /\ In q pts /\ In r pts /\ In s pts /\
    fst p - sp <= fst c <= fst q + sp /\ snd r - sp <= snd c <= snd s + sp.

(** Whether a capture zone made of [tracks], computed after the points [before], counts the location [c]: exactly if [c] is closer than [u]
    to one of the tracks, and covered by what has been traced up to and including that track. *)
Definition taken (u sp : R) (before : list point) (tracks : list (list point)) (c : point) (b : bool) : Prop :=
  b = true <-> exists pre tr post, tracks = pre ++ tr :: post /\ near_track u tr c /\ covered sp (before ++ concat pre ++ tr) c.

(** The field [s] of spacing [sp] around the target [(x0, y0)] has recorded the capture zones: its nodes are the points of the lattice around the
    target that are covered by the target and all that was traced, and the weight of a node is the number of zones that count it. *)
Definition exactly_recorded (s : pfield xr) (x0 y0 sp u : R) (zones : list (list (list point))) : Prop :=
  total s (INR (length zones)) /\
  (forall x y, is_node s x y <-> (exists i j, x = x0 + IZR i * sp /\ y = y0 + IZR j * sp) /\ covered sp ((x0, y0) :: concat (concat zones)) (x, y)) /\
  forall x y v b, has_node s x y v b ->
    b = false /\
    exists hits, length hits = length zones /\
      (forall i z, nth_error zones i = Some z -> taken u sp ((x0, y0) :: concat (concat (firstn i zones))) z (x, y) (nth i hits false)) /\
      v = INR (length (filter (fun h => h) hits)).

(** The target of the run is [w], at [(x, y)]; the spacing [sp] and the umbra [u] are positive numbers, and there are paths. *)
Definition set_out (c : call) (w : swell xr) (x y sp u : R) : Prop :=
  nth_error (k_wells c) (Z.to_nat (k_target c)) = Some w /\ sx w = Fin x /\ sy w = Fin y /\ (exists r, sr w = Fin r) /\
  k_spacing c = Fin sp /\ 0 < sp /\ k_umbra c = Fin u /\ 0 < u /\ (0 < k_npaths c)%Z.
