(** * Specification of the distribution arguments *)
From Coq Require Import Reals String.
From Verif Require Import Py Num ModelDist.
Local Open Scope R_scope.

(** Order of the extended reals; NaN is not comparable with anything. *)
Definition xr_le (a b : xr) : Prop :=
  match a, b with
  | NaN, _ | _, NaN => False
  | NInf, _ | _, PInf => True
  | Fin x, Fin y => x <= y
  | _, _ => False
  end.

(** [v] is a Python number of value [x]. *)
Inductive number : pyval xr -> xr -> Prop :=
| num_int z : number (PInt z) (Fin (IZR z))
| num_float x : number (PFloat x) x
| num_true : number (PBool true) (Fin 1)
| num_false : number (PBool false) (Fin 0).

(** [ordered a l b]: the numbers [l] are in increasing order between [a] and [b]. *)
Fixpoint ordered (a : xr) (l : list xr) (b : xr) : Prop :=
  match l with
  | [] => xr_le a b
  | x :: l' => xr_le a x /\ ordered x l' b
  end.

(** The entries of a distribution argument: one number, or a tuple or list of two or three. *)
Inductive entries : pyval xr -> list xr -> Prop :=
| ent_scalar v x : number v x -> entries v [x]
| ent_pair l a b : l = PTuple \/ l = PList -> forall x y, number a x -> number b y -> entries (l [a; b]) [x; y]
| ent_triple l a b c : l = PTuple \/ l = PList ->
    forall x y z, number a x -> number b y -> number c z -> entries (l [a; b; c]) [x; y; z].

(** What a distribution argument should be. *)
Definition distribution (v : pyval xr) (lb ub : xr) : Prop :=
  exists l, entries v l /\ ordered lb l ub.

Definition is_list (v : pyval xr) : Prop := exists l, v = PList l.

(** numpy's documented supports: [uniform] between its bounds, [triangular] between left and right. *)
Definition documented {G} (R : rng xr G) : Prop :=
  (forall g a b, a <= b -> let v := fst (draw_uniform R g (Fin a) (Fin b)) in xr_le (Fin a) v /\ xr_le v (Fin b)) /\
  (forall g a b c, xr_le a b -> xr_le b c -> a <> c ->
     let v := fst (draw_triangular R g a b c) in xr_le a v /\ xr_le v c).

(** The same, promised for finite parameters only. *)
Definition documented_finite {G} (R : rng xr G) : Prop :=
  (forall g a b, a <= b -> let v := fst (draw_uniform R g (Fin a) (Fin b)) in xr_le (Fin a) v /\ xr_le v (Fin b)) /\
  (forall g a b c, a <= b -> b <= c -> a <> c ->
     let v := fst (draw_triangular R g (Fin a) (Fin b) (Fin c)) in xr_le (Fin a) v /\ xr_le v (Fin c)).

(** A source of uniform numbers in [0,1) and the formulas of numpy's legacy generator
    (numpy/random: legacy_distributions and distributions.c, random_uniform and random_triangular). *)
Definition inverse_rng (u : nat -> R) : rng xr nat :=
  {| draw_uniform := fun g a b => (xadd a (xmul (xsub b a) (Fin (u g))), S g);
     draw_triangular := fun g l m r =>
       let base := xsub r l in
       let leftbase := xsub m l in
       let ratio := xdiv leftbase base in
       let leftprod := xmul leftbase base in
       let rightprod := xmul (xsub r m) base in
       (if xle (Fin (u g)) ratio then xadd l (xsqrt (xmul (Fin (u g)) leftprod))
        else xsub r (xsqrt (xmul (Fin (1 - u g)) rightprod)), S g) |}.
