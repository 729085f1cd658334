(** * Specification of the remaining drawing computations *)
From Coq Require Import Reals List ZArith.
From Verif Require Import Py Num ModelField SpecField SpecPlot.
Import ListNotations.
Local Open Scope R_scope.

(** The sum of [f k] for k = a..b. *)
Definition zsum (a b : Z) (f : Z -> R) : R := fold_right (fun k s => f k + s) 0 (zrange a (b + 1)).

(** The Gaussian bell with standard deviation [sigma] (in grid units), not normalised. *)
Definition bell (sigma : R) (k : Z) : R := exp (- (IZR k * IZR k) / (2 * (sigma * sigma))).

(** Its weights, cut off after [r] grid units and normalised to the sum 1. *)
Definition bell_weight (sigma : R) (r k : Z) : R := bell sigma k / zsum (- r) r (bell sigma).

(** The cut-off: four standard deviations, rounded to a whole number. *)
Definition cut_off (sigma : R) (r : Z) : Prop := IZR r <= 4 * sigma + 1 / 2 < IZR r + 1.

(** The values of a table, continued by 0 outside. *)
Definition table (P : list (list xr)) (i j : Z) : R :=
  match get2 P i j with Some (Fin v) => v | _ => 0 end.

(** The weighted mean around (i, j) of the values of a function on the plane grid. *)
Definition blurred (sigma : R) (r : Z) (p : Z -> Z -> R) (i j : Z) : R :=
  zsum (- r) r (fun a => zsum (- r) r (fun b => bell_weight sigma r a * bell_weight sigma r b * p (i + a)%Z (j + b)%Z)).

(** The exponential function, with the values of [np.exp] at the special numbers. *)
Definition fexp (x : xr) : xr :=
  match x with Fin r => Fin (exp r) | PInf => PInf | NInf => Fin 0 | NaN => NaN end.

(** The closed polygon around the rectangle with centre [(x, y)] and sides [dx], [dy]: corner lists. *)
Definition rectangle (x y dx dy : R) : list R * list R :=
  ([x - dx / 2; x + dx / 2; x + dx / 2; x - dx / 2; x - dx / 2],
   [y - dy / 2; y - dy / 2; y + dy / 2; y + dy / 2; y - dy / 2]).

(** The same corner lists as numbers of the model. *)
Definition fin_cell (c : list R * list R) : list xr * list xr := (map Fin (fst c), map Fin (snd c)).

(** A location is in the interior of that rectangle. *)
Definition inside_rectangle (x y dx dy : R) (p : point) : Prop :=
  Rabs (fst p - x) < dx / 2 /\ Rabs (snd p - y) < dy / 2.
