(** * Specification of particle tracing

    The Dormand-Prince 5(4) pair as it is tabulated in the literature (Butcher tableau), Runge-Kutta
    steps for a velocity function, and timed paths made of such steps. *)
From Coq Require Import Reals List.
From Verif Require Import Py Num ModelTrace.
Import ListNotations.
Local Open Scope R_scope.

(** Points and displacements of the plane. *)
Definition pt : Type := (R * R)%type.
Definition padd (p q : pt) : pt := (fst p + fst q, snd p + snd q).
Definition pscale (c : R) (p : pt) : pt := (c * fst p, c * snd p).
Definition pdist (p q : pt) : R := sqrt ((fst q - fst p) * (fst q - fst p) + (snd q - snd p) * (snd q - snd p)).
Definition pmax (p : pt) : R := Rmax (Rabs (fst p)) (Rabs (snd p)).

(** A point as the program sees it. *)
Definition fvec (p : pt) : vec xr := (Fin (fst p), Fin (snd p)).
Definition finite (v : vec xr) : Prop := exists p, v = fvec p.

(** The Butcher tableau of Dormand and Prince (1980): stages, the fifth-order weights and the
    embedded fourth-order weights. *)
Definition dp_a : list (list R) :=
  [ [];
    [1/5];
    [3/40; 9/40];
    [44/45; -56/15; 32/9];
    [19372/6561; -25360/2187; 64448/6561; -212/729];
    [9017/3168; -355/33; 46732/5247; 49/176; -5103/18656];
    [35/384; 0; 500/1113; 125/192; -2187/6784; 11/84] ].
Definition dp_b : list R := [35/384; 0; 500/1113; 125/192; -2187/6784; 11/84; 0].
Definition dp_bhat : list R := [5179/57600; 0; 7571/16695; 393/640; -92097/339200; 187/2100; 1/40].

(** Linear combination of slopes. *)
Definition lincomb (c : list R) (ks : list pt) : pt :=
  fold_right (fun ck s => padd (pscale (fst ck) (snd ck)) s) (0, 0) (combine c ks).

(** [ks] are the seven slopes of a step of size [h] from [p]. *)
Definition slopes (f : vec xr -> res (vec xr)) (p : pt) (h : R) (ks : list pt) : Prop :=
  length ks = 7%nat /\
  forall i, (i < 7)%nat ->
    f (fvec (padd p (pscale h (lincomb (nth i dp_a []) (firstn i ks))))) = Ok (fvec (nth i ks (0, 0))).

(** [a] is less than the bound [b] of the program. *)
Definition below (a : R) (b : xr) : Prop :=
  match b with Fin t => a < t | PInf => True | _ => False end.

(** A Dormand-Prince step from [p] to [q] of size [h] whose embedded error estimate (difference of the
    two solutions, largest component) is below [tol] and whose length is below [maxstep]. *)
Definition good_step (f : vec xr -> res (vec xr)) (tol maxstep : xr) (p : pt) (h : R) (q : pt) : Prop :=
  exists ks, slopes f p h ks /\
    q = padd p (pscale h (lincomb dp_b ks)) /\
    below (pmax (padd (pscale h (lincomb dp_b ks)) (pscale (- h) (lincomb dp_bhat ks)))) tol /\
    below (pdist p q) maxstep.

(** The same with a velocity at the second stage that is not finite: the second slope enters neither
    the new point nor the estimate, only the places where the later slopes are taken. *)
Definition wild_step (f : vec xr -> res (vec xr)) (tol maxstep : xr) (p : pt) (h : R) (q : pt) : Prop :=
  exists k1 k2 k3 k4 k5 k6 k7,
    f (fvec p) = Ok (fvec k1) /\ f (fvec (padd p (pscale h (pscale (1/5) k1)))) = Ok k2 /\ ~ finite k2 /\
    f (fvec q) = Ok (fvec k7) /\
    (let ks := [k1; (0, 0); k3; k4; k5; k6; k7] in
     q = padd p (pscale h (lincomb dp_b ks)) /\
     below (pmax (padd (pscale h (lincomb dp_b ks)) (pscale (- h) (lincomb dp_bhat ks)))) tol /\
     below (pdist p q) maxstep).

(** Velocity functions that return finite numbers (or raise). *)
Definition finite_valued (f : vec xr -> res (vec xr)) : Prop := forall xy k, f xy = Ok k -> finite k.
(** ... with both components at most [B] in size. *)
Definition bounded_by (B : R) (f : vec xr -> res (vec xr)) : Prop :=
  forall xy k, f xy = Ok k -> exists p, k = fvec p /\ Rabs (fst p) <= B /\ Rabs (snd p) <= B.
(** A velocity function that itself always returns or raises. *)
Definition total (f : vec xr -> res (vec xr)) : Prop := forall xy, f xy <> NoFuel.

(** Rooted trees (ordered), their order and density, and the elementary weights of a Runge-Kutta method
    with stages [a] (Butcher, "Numerical Methods for Ordinary Differential Equations"). *)
Inductive tree := Node (children : list tree).
Fixpoint order (t : tree) : nat := match t with Node l => S (list_sum (map order l)) end.
Fixpoint density (t : tree) : nat := match t with Node l => S (list_sum (map order l)) * fold_right Nat.mul 1%nat (map density l) end.
(** [stage_weight a t i]: the product over the children [u] of [sum_j a_ij (stage_weight u j)]. *)
Definition dot (c v : list R) : R := fold_right Rplus 0 (map (fun xy => fst xy * snd xy) (combine c v)).
Fixpoint stage_weights (a : list (list R)) (t : tree) : list R :=
  match t with Node l => map (fun row => fold_right Rmult 1 (map (fun u => dot row (stage_weights a u)) l)) a end.
Definition order_condition (a : list (list R)) (b : list R) (t : tree) : Prop :=
  dot b (stage_weights a t) = / INR (density t).

(** The plane fields [p |-> A p + b] and the derivatives of their flow: along a solution, [n+1] times
    differentiated, the position is [A^n (A p + b)]. *)
Record affine := { axx : R; axy : R; ayx : R; ayy : R; bx : R; by_ : R }.
Definition lin (A : affine) (p : pt) : pt := (axx A * fst p + axy A * snd p, ayx A * fst p + ayy A * snd p).
Definition flow (A : affine) (p : pt) : pt := padd (lin A p) (bx A, by_ A).
Definition flow_derivative (A : affine) (n : nat) (p : pt) : pt := Nat.iter n (lin A) (flow A p).
