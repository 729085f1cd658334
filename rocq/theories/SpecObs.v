(** * Specification of the observation filter and of the summary statistics *)
From Coq Require Import Reals List Permutation Sorted.
From Verif Require Import Py Num ModelAquifer SpecAquifer.
Import ListNotations.
Local Open Scope R_scope.

(** ** Observations *)

(** A well seen by the filter: a location. *)
Definition floc (w : R * R) : xr * xr := (Fin (fst w), Fin (snd w)).

(** Distance from an observation to a location. *)
Definition odist (o : obs R) (w : R * R) : R :=
  sqrt ((ox o - fst w) * (ox o - fst w) + (oy o - snd w) * (oy o - snd w)).

Definition loc (o : obs R) : R * R := (ox o, oy o).

(** Farther than [b] from every well. *)
Definition survives (ws : list (R * R)) (b : R) (o : obs R) : Prop :=
  forall w, In w ws -> b < odist o w.

(** [survivors P l k]: [k] is the list of those elements of [l] that satisfy [P], in order. *)
Inductive survivors {A} (P : A -> Prop) : list A -> list A -> Prop :=
| sv_nil : survivors P [] []
| sv_keep : forall x l k, P x -> survivors P l k -> survivors P (x :: l) (x :: k)
| sv_drop : forall x l k, ~ P x -> survivors P l k -> survivors P (x :: l) k.

(** Precision (reciprocal variance) of an observation, and precision-weighted value. *)
Definition prec (o : obs R) : R := 1 / (os o * os o).
Definition wval (o : obs R) : R := oz o / (os o * os o).

(** A weighting of a group of observations: one weight per observation, of sum one
    (so that the weighted average of observations of one quantity is unbiased).  Its variance
    for independent errors of the stated deviations is the sum of (weight * deviation)^2. *)
Fixpoint wsum (f : R -> obs R -> R) (w : list R) (g : list (obs R)) : R :=
  match w, g with
  | a :: w', o :: g' => f a o + wsum f w' g'
  | _, _ => 0
  end.
Definition weighting (w : list R) (g : list (obs R)) : Prop :=
  length w = length g /\ wsum (fun a _ => a) w g = 1.
Definition average (w : list R) (g : list (obs R)) : R := wsum (fun a o => a * oz o) w g.
Definition variance (w : list R) (g : list (obs R)) : R :=
  wsum (fun a o => (a * os o) * (a * os o)) w g.

(** [o] is an average of the group [g] in which every member counts. *)
Definition uses_all (g : list (obs R)) (o : obs R) : Prop :=
  exists w, weighting w g /\ (forall a, In a w -> 0 < a) /\ oz o = average w g.

(** [o] is the minimum-variance unbiased average of the group [g]. *)
Definition best_average (g : list (obs R)) (o : obs R) : Prop :=
  exists w, weighting w g /\ oz o = average w g /\ 0 <= os o /\ os o * os o = variance w g
            /\ forall w', weighting w' g -> variance w g <= variance w' g.

(** Equal locations are adjacent in the list. *)
Definition contiguous (l : list (obs R)) : Prop :=
  forall l1 a l2 b l3, l = l1 ++ a :: l2 ++ b :: l3 -> loc a = loc b -> forall o, In o l2 -> loc o = loc a.

(** A group: a leader and observations less than 1 away from it. *)
Definition one_group (g : list (obs R)) : Prop :=
  exists lead rest, g = lead :: rest /\ forall p, In p rest -> odist p (loc lead) < 1.
Definition at_leader (g : list (obs R)) (o : obs R) : Prop :=
  exists lead rest, g = lead :: rest /\ loc o = loc lead.

(** Change of the unit of length: heads and deviations are lengths too. *)
Definition rescale (c : R) (o : obs R) : obs R :=
  {| ox := c * ox o; oy := c * oy o; oz := c * oz o; os := c * os o |}.
Definition rescale_loc (c : R) (w : R * R) : R * R := (c * fst w, c * snd w).

(** ** Tables *)

(** A table entry: a number or NaN. *)
Definition fval (v : option R) : xr := match v with Some r => Fin r | None => NaN end.

(** The numbers among the entries of column [j]. *)
Definition column (j : nat) (rows : list (list (option R))) : list R :=
  flat_map (fun row => match nth j row None with Some r => [r] | None => [] end) rows.

Definition total_of (l : list R) : R := Rsum (fun x => x) l.

(** [m] is the median of [l]: the mean of the two middle elements (which are the same element
    when the number of elements is odd) of the sorted list. *)
Definition is_median (l : list R) (m : R) : Prop :=
  exists s, Permutation s l /\ StronglySorted Rle s /\
            m = (nth ((length l - 1) / 2) s 0 + nth (length l / 2) s 0) / 2.
