(** * Pathlines

    The curves that water follows, and how far a trace is from them. *)
From Coq Require Import Reals List.
From Verif Require Import Py Num ModelTrace SpecTrace.
Import ListNotations.
Local Open Scope R_scope.

(** Differences and lengths of displacements ([pdist p q] is the length of [q - p]). *)
Definition psub (p q : pt) : pt := (fst p - fst q, snd p - snd q).
Definition pnorm (p : pt) : R := sqrt (fst p * fst p + snd p * snd p).

(** [Z] moves with the velocity [u] from time 0 to time [D]. *)
Definition pathline (u : pt -> pt) (Z : R -> pt) (D : R) : Prop :=
  forall t, 0 <= t <= D ->
    derivable_pt_lim (fun s => fst (Z s)) t (fst (u (Z t))) /\ derivable_pt_lim (fun s => snd (Z s)) t (snd (u (Z t))).

(** The linear part of [A] stretches no displacement by more than [L]. *)
Definition stretch (A : affine) (L : R) : Prop := forall q, pnorm (lin A q) <= L * pnorm q.

(** The vertices [l] of a trace and their elapsed times [ts]: from 0 on increasing, up to the duration [D] if the trace was
    completed, a Dormand-Prince step from each vertex to the next. *)
Record clocked (f : vec xr -> res (vec xr)) (tol maxstep : xr) (D : R) (tr : trace xr) (l : list pt) (ts : list R) : Prop := {
  td_vertices : vertices tr = map fvec l;
  td_length : length ts = length l;
  td_start : nth 0 ts 0 = 0;
  td_end : t_end tr = Fin (last ts 0);
  td_completed : completed tr = true -> last ts 0 = D;
  td_step : forall i, (S i < length l)%nat ->
    nth i ts 0 < nth (S i) ts 0 <= D /\
    good_step f tol maxstep (nth i l (0, 0)) (nth (S i) ts 0 - nth i ts 0) (nth (S i) l (0, 0)) }.
(** No step took longer than [H]. *)
Definition steps_within (H : R) (ts : list R) : Prop := forall i, (S i < length ts)%nat -> nth (S i) ts 0 - nth i ts 0 <= H.

(** [Z] moves with the velocity that the function [f] of the program gives. *)
Definition moves (f : vec xr -> res (vec xr)) (Z : R -> pt) (D : R) : Prop :=
  forall t, 0 <= t <= D -> exists v, f (fvec (Z t)) = Ok (fvec v) /\
    derivable_pt_lim (fun s => fst (Z s)) t (fst v) /\ derivable_pt_lim (fun s => snd (Z s)) t (snd v).

(** The vertices and times of any trace (C36, C37): as in [clocked], and a step may also have been one whose second slope was
    not finite. *)
Record paced (f : vec xr -> res (vec xr)) (tol maxstep : xr) (D : R) (tr : trace xr) (l : list pt) (ts : list R) : Prop := {
  pc_vertices : vertices tr = map fvec l;
  pc_length : length ts = length l;
  pc_start : nth 0 ts 0 = 0;
  pc_end : t_end tr = Fin (last ts 0);
  pc_completed : completed tr = true -> last ts 0 = D;
  pc_step : forall i, (S i < length l)%nat ->
    nth i ts 0 < nth (S i) ts 0 <= D /\
    (good_step f tol maxstep (nth i l (0, 0)) (nth (S i) ts 0 - nth i ts 0) (nth (S i) l (0, 0)) \/
     wild_step f tol maxstep (nth i l (0, 0)) (nth (S i) ts 0 - nth i ts 0) (nth (S i) l (0, 0))) }.

(** Within [rho] of the path [Z] the velocity is finite, at most [V] in size, and changes by at most [L] per unit length. *)
Record tame (f : vec xr -> res (vec xr)) (Z : R -> pt) (D V L rho : R) : Prop := {
  tm_value : forall t q, 0 <= t <= D -> pdist (Z t) q <= rho -> exists u, f (fvec q) = Ok (fvec u) /\ pnorm u <= V;
  tm_change : forall t q q' u u', 0 <= t <= D -> pdist (Z t) q <= rho -> pdist (Z t) q' <= rho ->
    f (fvec q) = Ok (fvec u) -> f (fvec q') = Ok (fvec u') -> pnorm (psub u u') <= L * pdist q q' }.
