(** * Flow in unconfined aquifers (C118)

    How fast the discharge changes from place to place. *)
From Coq Require Import Reals List.
From Verif Require Import Py Num ModelAquifer SpecAquifer SpecTrace SpecPathline.
Import ListNotations.
Local Open Scope R_scope.

(** The size of the discharge vector at a place. *)
Definition flux (m : model R) (q : pt) : R := pnorm (discharge_x m (fst q) (snd q), discharge_y m (fst q) (snd q)).

(** At places at least [rho] from every well the discharge vector changes by at most this much per unit length. *)
Definition flux_change (m : model R) (rho : R) : R :=
  sqrt (4 * cA (coef m) ^ 2 + 2 * cC (coef m) ^ 2 + 4 * cB (coef m) ^ 2) + fold_right (fun w s => Rabs (wq w) + s) 0 (wells m) / (6 * (rho * rho)).
