(** * A binary64 field and the same field in exact arithmetic *)
From Coq Require Import ZArith Reals SpecFloat.
From Verif Require Import Py Num ModelField SpecField SpecFloats.
Local Open Scope R_scope.

(** The value of a binary64 number, infinities and NaN included. *)
Definition exact (x : spec_float) : xr :=
  match x with
  | S754_nan => NaN
  | S754_infinity s => if s then NInf else PInf
  | _ => Fin (fval x)
  end.

(** The same object with the values of its numbers. *)
Definition exact_geom (g : geom spec_float) : geom xr :=
  {| nrows := nrows g; ncols := ncols g;
     xmin := exact (xmin g); xmax := exact (xmax g); ymin := exact (ymin g); ymax := exact (ymax g);
     pgrid := map (map exact) (pgrid g); rgrid := rgrid g; total_weight := exact (total_weight g) |}.
Definition exact_field (s : pfield spec_float) : pfield xr :=
  {| deltax := exact (deltax s); deltay := exact (deltay s);
     body := match body s with Some g => Some (exact_geom g) | None => None end |}.

(** The same call with the values of its arguments. *)
Definition exact_op (o : op spec_float) : op xr :=
  match o with
  | OExpand a b c d => OExpand (exact a) (exact b) (exact c) (exact d)
  | OInsert ax ay bx by_ u => OInsert (exact ax) (exact ay) (exact bx) (exact by_) (exact u)
  | ORasterize x y u => ORasterize (map exact x) (map exact y) (exact u)
  | ORegister w => ORegister (exact w)
  | OReset => OReset
  end.

(** A whole number of units 2^e, at most 2^53 of them. *)
Definition on_units (e : Z) (v : R) : Prop :=
  (exists n : Z, v = IZR n * powerRZ 2 e) /\ Rabs v <= powerRZ 2 (53 + e).

(** A field with grids whose spacings and edges are whole numbers of units: 2^ex along x, 2^ey along y. *)
Definition dyadic_geom (ex ey : Z) (g : geom spec_float) : Prop :=
  (forall v, In v [xmin g; xmax g] -> ffinite v /\ on_units ex (fval v)) /\
  (forall v, In v [ymin g; ymax g] -> ffinite v /\ on_units ey (fval v)).
Definition dyadic (ex ey : Z) (s : pfield spec_float) : Prop :=
  (-1074 <= ex <= 960)%Z /\ (-1074 <= ey <= 960)%Z /\
  ffinite (deltax s) /\ 0 < fval (deltax s) /\ on_units ex (fval (deltax s)) /\
  ffinite (deltay s) /\ 0 < fval (deltay s) /\ on_units ey (fval (deltay s)) /\
  exists g, body s = Some g /\ dyadic_geom ex ey g.

(** A finite coordinate that stays within 2^53 units when the spacing [d] is added. *)
Definition in_range (e : Z) (d x : spec_float) : Prop :=
  ffinite x /\ Rabs (fval x) + fval d <= powerRZ 2 (53 + e).

(** The coordinates that a call may reach lie in range; segments and weights may be anything. *)
Definition in_range_op (ex ey : Z) (dx dy : spec_float) (o : op spec_float) : Prop :=
  match o with
  | OExpand a b c d => in_range ex dx a /\ in_range ex dx b /\ in_range ey dy c /\ in_range ey dy d
  | ORasterize x y _ => Forall (in_range ex dx) x /\ Forall (in_range ey dy) y
  | _ => True
  end.

(** Size and edges of the grids. *)
Definition shape (s : pfield xr) : option (Z * Z * (xr * xr * xr * xr)) :=
  match body s with
  | Some g => Some (nrows g, ncols g, (xmin g, xmax g, ymin g, ymax g))
  | None => None
  end.

(** A finite coordinate of at most 2^53 units. *)
Definition reach (e : Z) (x : spec_float) : Prop := ffinite x /\ Rabs (fval x) <= powerRZ 2 (53 + e).

(** The point with these coordinates. *)
Definition at_ (p : spec_float * spec_float) : point := (fval (fst p), fval (snd p)).

(** How far the comparison of squared distances may be off when a node [c] is tested against the segment from [a] to [b]. *)
Definition slack (u : R) (a b c : point) : R := / 2 ^ 46 * (dist2 a b + dist2 a c + u * u).

(** [c] is closer than [u] to the segment with the slack to spare, or at least within the slack. *)
Definition surely_near (u : R) (a b c : point) : Prop := exists p, on_segment a b p /\ dist2 p c + slack u a b c < u * u.
Definition possibly_near (u : R) (a b c : point) : Prop := exists p, on_segment a b p /\ dist2 p c < u * u + slack u a b c.

(** Two points are the same or at least 2^-200 apart. *)
Definition apart (a b : point) : Prop := a = b \/ / 2 ^ 400 <= dist2 a b.

(** Field [s'] has the nodes, weights and total of [s]; marks stay, new marks only where [up], and wherever [lo]. *)
Definition painted (s s' : pfield xr) (lo up : R -> R -> Prop) : Prop :=
  wf s' /\ initialised s' /\
  (forall x y w m, has_node s x y w m -> exists m', has_node s' x y w m') /\
  (forall x y w m', has_node s' x y w m' -> exists m, has_node s x y w m /\
     (m = true -> m' = true) /\ (m' = true -> m = true \/ up x y) /\ (lo x y -> m' = true)) /\
  (forall W, total s W -> total s' W) /\ shape s' = shape s.

(** The grids span at most 2^53 units. *)
Definition compact (ex ey : Z) (s : pfield spec_float) : Prop :=
  forall g, body s = Some g -> fval (xmax g) - fval (xmin g) <= powerRZ 2 (53 + ex) /\ fval (ymax g) - fval (ymin g) <= powerRZ 2 (53 + ey).

(** ** Weights *)
(** A weight that is a non-negative whole number of units 2^k, at most 2^53 of them. *)
Definition sound_weight (k : Z) (w : spec_float) : Prop := ffinite w /\ 0 <= fval w /\ on_units k (fval w).

(** The total and all node weights are such numbers, and no node has more than the total. *)
Definition sound_grid (k : Z) (s : pfield spec_float) : Prop :=
  forall g, body s = Some g -> sound_weight k (total_weight g) /\
    forall row v, In row (pgrid g) -> In v row -> sound_weight k v /\ fval v <= fval (total_weight g).

(** The registered weights of a history are such numbers; their sum. *)
Definition sound_op (k : Z) (o : op spec_float) : Prop := match o with ORegister w => sound_weight k w | _ => True end.
Fixpoint load (l : list (op spec_float)) : R :=
  match l with
  | [] => 0
  | ORegister w :: l' => fval w + load l'
  | _ :: l' => load l'
  end.

(** The credit of location (x, y) over a history of calls: the sum of the weights of the registers before which it was marked. *)
Inductive Credit (lm : libm) (fuel : nat) (x y : R) : pfield spec_float -> list (op spec_float) -> R -> Prop :=
| C_nil s : Credit lm fuel x y s [] 0
| C_register_marked s w l c : marked (exact_field s) x y ->
    Credit lm fuel x y (fst (@run_op spec_float (SF lm) fuel s (ORegister w))) l c -> Credit lm fuel x y s (ORegister w :: l) (fval w + c)
| C_register_clear s w l c : ~ marked (exact_field s) x y ->
    Credit lm fuel x y (fst (@run_op spec_float (SF lm) fuel s (ORegister w))) l c -> Credit lm fuel x y s (ORegister w :: l) c
| C_other s o l c : (forall w, o <> ORegister w) ->
    Credit lm fuel x y (fst (@run_op spec_float (SF lm) fuel s o)) l c -> Credit lm fuel x y s (o :: l) c.
