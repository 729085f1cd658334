(** * Specification of the probability field, in plain geometry

    Nothing here calls the functions of the model; only the observable attributes of a
    field object (ModelField.geom, ModelField.pfield) are read. *)
From Coq Require Import Reals.
From Verif Require Import Py Num ModelField Grid.
Local Open Scope R_scope.

Definition point : Type := (R * R)%type.

Definition dist2 (p q : point) : R :=
  (fst p - fst q) * (fst p - fst q) + (snd p - snd q) * (snd p - snd q).

(** The closed segment from [a] to [b]. *)
Definition on_segment (a b p : point) : Prop :=
  exists t, 0 <= t <= 1 /\
            p = ((1 - t) * fst a + t * fst b, (1 - t) * snd a + t * snd b).

(** [c] is closer than [u] to the segment. *)
Definition near (u : R) (a b c : point) : Prop :=
  exists p, on_segment a b p /\ dist2 p c < u * u.

(** A well-formed grid for spacings [dx], [dy]: both dimensions at least 3, arrays of that
    shape, finite numbers, and the four edges consistent with the shape. *)
Definition wf_geom (dx dy : R) (g : geom xr) : Prop :=
  (3 <= nrows g)%Z /\ (3 <= ncols g)%Z /\
  rect (nrows g) (ncols g) (pgrid g) /\
  rect (nrows g) (ncols g) (rgrid g) /\
  (exists x0 y0, xmin g = Fin x0 /\ xmax g = Fin (x0 + IZR (ncols g - 1) * dx) /\
                 ymin g = Fin y0 /\ ymax g = Fin (y0 + IZR (nrows g - 1) * dy)) /\
  (forall i j v, get2 (pgrid g) i j = Some v -> exists r, v = Fin r) /\
  (exists W, total_weight g = Fin W).

Definition wf (s : pfield xr) : Prop :=
  exists dx dy, deltax s = Fin dx /\ deltay s = Fin dy /\ 0 < dx /\ 0 < dy /\
                forall g, body s = Some g -> wf_geom dx dy g.

(** The field has been given grids. *)
Definition initialised (s : pfield xr) : Prop := body s <> None.

(** The field has a node at world coordinates [(x, y)], with accumulated weight [w] and
    mark [m]. *)
Definition has_node (s : pfield xr) (x y w : R) (m : bool) : Prop :=
  exists g i j dx dy x0 y0,
    body s = Some g /\ deltax s = Fin dx /\ deltay s = Fin dy /\
    xmin g = Fin x0 /\ ymin g = Fin y0 /\
    x = x0 + IZR j * dx /\ y = y0 + IZR i * dy /\
    get2 (pgrid g) i j = Some (Fin w) /\ get2 (rgrid g) i j = Some m.

Definition is_node (s : pfield xr) (x y : R) : Prop := exists w m, has_node s x y w m.
Definition marked (s : pfield xr) (x y : R) : Prop := exists w, has_node s x y w true.

Definition total (s : pfield xr) (W : R) : Prop :=
  exists g, body s = Some g /\ total_weight g = Fin W.

(** World coordinates of the extreme grid lines. *)
Definition extent (s : pfield xr) (x0 x1 y0 y1 : R) : Prop :=
  exists g, body s = Some g /\ xmin g = Fin x0 /\ xmax g = Fin x1 /\
            ymin g = Fin y0 /\ ymax g = Fin y1.

(** Two consecutive points of a track. *)
Definition consecutive {A} (l : list A) (p q : A) : Prop :=
  exists k, nth_error l k = Some p /\ nth_error l (S k) = Some q.

(** A track of finite points, as the coordinate lists that [rasterize] takes. *)
Definition xs (tr : list point) : list xr := map (fun p => Fin (fst p)) tr.
Definition ys (tr : list point) : list xr := map (fun p => Fin (snd p)) tr.

(** [c] is closer than [u] to some segment of non-zero length of the track. *)
Definition near_track (u : R) (tr : list point) (c : point) : Prop :=
  exists p q, consecutive tr p q /\ p <> q /\ near u p q c.

(** Weight of a location: that of the node there, 0 when the field has no node there. *)
Definition weight_at (s : pfield xr) (x y w : R) : Prop :=
  (exists m, has_node s x y w m) \/ (~ is_node s x y /\ w = 0).

(** Histories in which every registered weight is a finite number; coordinates may be
    anything (NaN and infinities included). *)
Definition finite_weight (o : op xr) : Prop :=
  match o with ORegister w => exists r, w = Fin r | _ => True end.
Definition nonneg_weight (o : op xr) : Prop :=
  match o with ORegister w => exists r, w = Fin r /\ 0 <= r | _ => True end.

(** Calls with finite arguments, as made by the capture-zone drivers. *)
Inductive finite_op : op xr -> Prop :=
| fo_expand a b c d : finite_op (OExpand (Fin a) (Fin b) (Fin c) (Fin d))
| fo_insert ax ay bx by_ u : 0 <= u -> finite_op (OInsert (Fin ax) (Fin ay) (Fin bx) (Fin by_) (Fin u))
| fo_rasterize tr u : 0 <= u -> finite_op (ORasterize (xs tr) (ys tr) (Fin u))
| fo_register w : finite_op (ORegister (Fin w))
| fo_reset : finite_op OReset.

(** The call [o], which left the field as [s'], marks location [(x, y)]: the grid has a node
    there and the location is near the inserted segment or track. *)
Definition paints (o : op xr) (s' : pfield xr) (x y : R) : Prop :=
  is_node s' x y /\
  match o with
  | OInsert ax ay bx by_ u =>
      exists a b r, ax = Fin (fst a) /\ ay = Fin (snd a) /\ bx = Fin (fst b) /\ by_ = Fin (snd b) /\
                    u = Fin r /\ a <> b /\ near r a b (x, y)
  | ORasterize lx ly u =>
      exists tr r, lx = xs tr /\ ly = ys tr /\ u = Fin r /\ near_track r tr (x, y)
  | _ => False
  end.

(** Book-keeping for one location over a history in which every call returns normally:
    [Ledger s pending l s' credit sum] -- starting at [s], with [pending] telling whether the location was
    marked since the last register/reset, the history [l] leads to [s'], credits the location with
    [credit], and registers the total weight [sum]. *)
Inductive Ledger (fuel : nat) (x y : R) : pfield xr -> bool -> list (op xr) -> pfield xr -> R -> R -> Prop :=
| L_nil s b : Ledger fuel x y s b [] s 0 0
| L_register s b w s1 l s' c t :
    run_op fuel s (ORegister (Fin w)) = (s1, Ok tt) -> Ledger fuel x y s1 false l s' c t ->
    Ledger fuel x y s b (ORegister (Fin w) :: l) s' ((if b then w else 0) + c) (w + t)
| L_reset s b s1 l s' c t :
    run_op fuel s OReset = (s1, Ok tt) -> Ledger fuel x y s1 false l s' c t ->
    Ledger fuel x y s b (OReset :: l) s' c t
| L_paint s b o s1 l s' c t :
    run_op fuel s o = (s1, Ok tt) -> paints o s1 x y -> Ledger fuel x y s1 true l s' c t ->
    Ledger fuel x y s b (o :: l) s' c t
| L_skip s b o s1 l s' c t :
    run_op fuel s o = (s1, Ok tt) -> ~ paints o s1 x y ->
    (forall w, o <> ORegister w) -> o <> OReset -> Ledger fuel x y s1 b l s' c t ->
    Ledger fuel x y s b (o :: l) s' c t.

(** Histories in which every call returns normally. *)
Inductive run (fuel : nat) : pfield xr -> list (op xr) -> pfield xr -> Prop :=
| run_nil s : run fuel s [] s
| run_cons s o s1 l s' : run_op fuel s o = (s1, Ok tt) -> run fuel s1 l s' -> run fuel s (o :: l) s'.

(** The total weight, 0 for a field without grids. *)
Definition total_at (s : pfield xr) (W : R) : Prop :=
  total s W \/ (~ initialised s /\ W = 0).

(** Centre given to the constructor: a number or NaN (not an infinity). *)
Definition fin_or_nan (v : xr) : Prop := (exists r, v = Fin r) \/ v = NaN.

Definition not_register (o : op xr) : Prop :=
  match o with ORegister _ => False | _ => True end.
