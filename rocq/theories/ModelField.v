(** * Model of /repo/oneka/probabilityfield.py (class ProbabilityField) *)
From Verif Require Import Py Num.
Local Open Scope num_scope.

Section Field.
  Context {T : Type} {N : Num T}.

  (** Attributes that exist once the grids exist (probabilityfield.py:140-151
      and 206-218).  [pgrid]/[rgrid] are row-major lists of rows. *)
  Record geom := {
    nrows : Z;
    ncols : Z;
    xmin : T;
    xmax : T;
    ymin : T;
    ymax : T;
    pgrid : list (list T);
    rgrid : list (list bool);
    total_weight : T
  }.

  (** A ProbabilityField object (probabilityfield.py:53-151).  [body = None] is
      the state "nrows = ncols = 0 and no grid attributes" left by lines 136-138. *)
  Record pfield := {
    deltax : T;
    deltay : T;
    body : option geom
  }.

  (** probabilityfield.py:125-151, [__init__(deltax, deltay, xo=nan, yo=nan)] *)
  Definition pf_init (dx dy xo yo : T) : res pfield :=
    if dx <=? nZ 0 then Raise RangeError
    else if dy <=? nZ 0 then Raise RangeError
    else if nisnan xo || nisnan yo then
      Ok {| deltax := dx; deltay := dy; body := None |}
    else
      Ok {| deltax := dx; deltay := dy;
            body := Some {| nrows := 3; ncols := 3;
                            xmin := xo - dx; xmax := xo + dx;
                            ymin := yo - dy; ymax := yo + dy;
                            pgrid := const2 3 3 (nZ 0);
                            rgrid := const2 3 3 false;
                            total_weight := nZ 0 |} |}.

  (** probabilityfield.py:229-232 (and 238-241):
      [while x <= lo: lo -= d; n += 1].  Returns the final [lo] and the number of
      iterations added to [n]. *)
  Fixpoint grow_down (fuel : nat) (x lo d : T) (n : Z) : res (T * Z) :=
    match fuel with
    | O => NoFuel
    | S f => if x <=? lo then grow_down f x (lo - d) d (n + 1)%Z else Ok (lo, n)
    end.

  (** probabilityfield.py:234-236 (and 243-245):
      [while x >= hi: hi += d; n += 1]. *)
  Fixpoint grow_up (fuel : nat) (x hi d : T) (n : Z) : res (T * Z) :=
    match fuel with
    | O => NoFuel
    | S f => if x >=? hi then grow_up f x (hi + d) d (n + 1)%Z else Ok (hi, n)
    end.

  (** probabilityfield.py:249-253: a fresh [n] x [m] array filled with [v], with
      [new[rs:rs+rows(old), cs:cs+cols(old)] = old].  The slice always has the
      shape of [old] here, because n >= rs + rows(old) and m >= cs + cols(old). *)
  Definition paste {A} (n m : Z) (v : A) (rs cs : Z) (old : list (list A)) : list (list A) :=
    map (fun i => map (fun j => match get2 old (i - rs)%Z (j - cs)%Z with
                                | Some a => a
                                | None => v
                                end) (zrange 0 m)) (zrange 0 n).

  (** probabilityfield.py:203-220: first initialisation by [expand].
      Simplification: when [math.ceil] raises (NaN or infinite box) the real object has
      its xmin/ymin attribute set already; the grids still do not exist and the next [expand]
      overwrites both, so the model keeps [body = None]. *)
  Definition expand_first (dx dy xmn xmx ymn ymx : T) : res geom :=
    let x0 := xmn - dx in
    let y0 := ymn - dy in
    let! cx := nceil ((xmx - x0) / dx) in
    let! cy := nceil ((ymx - y0) / dy) in
    let nc := Z.max 3 (cx + 2) in
    let nr := Z.max 3 (cy + 2) in
    Ok {| nrows := nr; ncols := nc;
          xmin := x0; xmax := x0 + nZ (nc - 1) * dx;
          ymin := y0; ymax := y0 + nZ (nr - 1) * dy;
          pgrid := const2 nr nc (nZ 0);
          rgrid := const2 nr nc false;
          total_weight := nZ 0 |}.

  (** probabilityfield.py:221-261: growing existing grids. *)
  Definition expand_more (fuel : nat) (dx dy : T) (g : geom) (xmn xmx ymn ymx : T) : res geom :=
    let! (x0, cl) := grow_down fuel xmn (xmin g) dx 0 in
    let! (x1, cr) := grow_up fuel xmx (xmax g) dx 0 in
    let! (y0, rb) := grow_down fuel ymn (ymin g) dy 0 in
    let! (y1, rt) := grow_up fuel ymx (ymax g) dy 0 in
    let nc := (ncols g + cl + cr)%Z in
    let nr := (nrows g + rb + rt)%Z in
    if negb (nr =? nrows g)%Z || negb (nc =? ncols g)%Z then
      Ok {| nrows := nr; ncols := nc;
            xmin := x0; xmax := x1; ymin := y0; ymax := y1;
            pgrid := paste nr nc (nZ 0) rb cl (pgrid g);
            rgrid := paste nr nc false rb cl (rgrid g);
            total_weight := total_weight g |}
    else
      Ok {| nrows := nrows g; ncols := ncols g;
            xmin := x0; xmax := x1; ymin := y0; ymax := y1;
            pgrid := pgrid g; rgrid := rgrid g;
            total_weight := total_weight g |}.

  Definition with_body (s : pfield) (g : geom) : pfield :=
    {| deltax := deltax s; deltay := deltay s; body := Some g |}.

  (** Run a computation of the new grids; on an exception the object keeps its state. *)
  Definition update (s : pfield) (r : res geom) : pfield * res unit :=
    match r with
    | Ok g => (with_body s g, Ok tt)
    | Raise e => (s, Raise e)
    | NoFuel => (s, NoFuel)
    end.

  (** probabilityfield.py:175-261, [expand(xmin, xmax, ymin, ymax)] *)
  Definition expand (fuel : nat) (s : pfield) (xmn xmx ymn ymx : T) : pfield * res unit :=
    if xmn >? xmx then (s, Raise RangeError)
    else if ymn >? ymx then (s, Raise RangeError)
    else match body s with
         | None => update s (expand_first (deltax s) (deltay s) xmn xmx ymn ymx)
         | Some g => update s (expand_more fuel (deltax s) (deltay s) g xmn xmx ymn ymx)
         end.

  (** probabilityfield.py:380-427, static [distancesquared] with numpy scalars
      (division by zero gives inf/NaN; with plain Python floats it would raise
      ZeroDivisionError -- the callers in capturezone.py:118-120 pass numpy scalars). *)
  Definition distancesquared (ax ay bx by_ cx cy : T) : T :=
    let bax := bx - ax in
    let bay := by_ - ay in
    let cax := cx - ax in
    let cay := cy - ay in
    let perpdot := bax * cay - bay * cax in
    let dot := bax * cax + bay * cay in
    let length2 := bax * bax + bay * bay in
    let alpha2 := perpdot * perpdot / length2 in
    let beta2 := dot * dot / length2 in
    if dot <? nZ 0 then alpha2 + beta2
    else if beta2 >? length2 then alpha2 + beta2 - nZ 2 * dot + length2
    else alpha2.

  (** probabilityfield.py:305-310: the body of the double loop of [insert]. *)
  Definition insert_cell (dx dy x0 y0 ax ay bx by_ u2 : T) (j i : Z) (rg : list (list bool))
    : res (list (list bool)) :=
    match get2 rg i j with
    | None => Raise IndexError
    | Some true => Ok rg
    | Some false =>
        let cx := x0 + nZ j * dx in
        let cy := y0 + nZ i * dy in
        if distancesquared ax ay bx by_ cx cy <? u2 then Ok (set2 rg i j true) else Ok rg
    end.

  (** probabilityfield.py:295-310: sub-grid limits and the double loop. *)
  Definition insert_geom (dx dy : T) (g : geom) (ax ay bx by_ umbra : T) : res geom :=
    let u2 := umbra * umbra in
    let! fl := nfloor ((pymin ax bx - umbra - xmin g) / dx) in
    let! fr := nfloor ((pymax ax bx + umbra - xmin g) / dx) in
    let! fb := nfloor ((pymin ay by_ - umbra - ymin g) / dy) in
    let! ft := nfloor ((pymax ay by_ + umbra - ymin g) / dy) in
    let left := Z.max 0 fl in
    let right := Z.min (ncols g) (fr + 1) in
    let bottom := Z.max 0 fb in
    let top := Z.min (nrows g) (ft + 1) in
    let! rg :=
      for_in (zrange left right)
             (fun j rg0 => for_in (zrange bottom top)
                                  (fun i rg1 => insert_cell dx dy (xmin g) (ymin g) ax ay bx by_ u2 j i rg1)
                                  rg0)
             (rgrid g) in
    Ok {| nrows := nrows g; ncols := ncols g;
          xmin := xmin g; xmax := xmax g; ymin := ymin g; ymax := ymax g;
          pgrid := pgrid g; rgrid := rg; total_weight := total_weight g |}.

  (** probabilityfield.py:264-310, [insert(ax, ay, bx, by, umbra)].  On a field without
      grids the read of [self.xmin] raises AttributeError. *)
  Definition insert (s : pfield) (ax ay bx by_ umbra : T) : pfield * res unit :=
    match body s with
    | None => (s, Raise AttributeError)
    | Some g => update s (insert_geom (deltax s) (deltay s) g ax ay bx by_ umbra)
    end.

  (** probabilityfield.py:337-339: insert each line segment in turn. *)
  Fixpoint insert_segments (s : pfield) (x y : list T) (umbra : T) {struct x} : pfield * res unit :=
    match x, y with
    | x0 :: ((x1 :: _) as x'), y0 :: ((y1 :: _) as y') =>
        let (s', r) := insert s x0 y0 x1 y1 umbra in
        match r with
        | Ok _ => insert_segments s' x' y' umbra
        | _ => (s', r)
        end
    | _ :: _ :: _, _ => (s, Raise IndexError)
    | _, _ => (s, Ok tt)
    end.

  (** probabilityfield.py:313-339, [rasterize(x, y, umbra)] *)
  Definition rasterize (fuel : nat) (s : pfield) (x y : list T) (umbra : T) : pfield * res unit :=
    match pymin_list x, pymax_list x, pymin_list y, pymax_list y with
    | Ok a, Ok b, Ok c, Ok d =>
        let (s', r) := expand fuel s a b c d in
        match r with
        | Ok _ => insert_segments s' x y umbra
        | _ => (s', r)
        end
    | _, _, _, _ => (s, Raise ValueError)
    end.

  (** probabilityfield.py:358: [self.pgrid[self.rgrid] += weight]. *)
  Definition mask_add (p : list (list T)) (r : list (list bool)) (w : T) : list (list T) :=
    map (fun '(prow, rrow) => map (fun '(v, b) => if (b : bool) then v + w else v) (combine prow rrow))
        (combine p r).

  (** probabilityfield.py:359 and 376: [self.rgrid[:] = False]. *)
  Definition clear (r : list (list bool)) : list (list bool) :=
    map (map (fun _ => false)) r.

  (** probabilityfield.py:342-359, [register(weight)] *)
  Definition register (s : pfield) (w : T) : pfield * res unit :=
    match body s with
    | None => (s, Raise AttributeError)
    | Some g =>
        (with_body s {| nrows := nrows g; ncols := ncols g;
                        xmin := xmin g; xmax := xmax g; ymin := ymin g; ymax := ymax g;
                        pgrid := mask_add (pgrid g) (rgrid g) w;
                        rgrid := clear (rgrid g);
                        total_weight := total_weight g + w |}, Ok tt)
    end.

  (** probabilityfield.py:362-376, [reset()] *)
  Definition reset (s : pfield) : pfield * res unit :=
    match body s with
    | None => (s, Raise AttributeError)
    | Some g =>
        (with_body s {| nrows := nrows g; ncols := ncols g;
                        xmin := xmin g; xmax := xmax g; ymin := ymin g; ymax := ymax g;
                        pgrid := pgrid g;
                        rgrid := clear (rgrid g);
                        total_weight := total_weight g |}, Ok tt)
    end.

  (** A client's calls on one field object, for statements about histories. *)
  Inductive op :=
  | OExpand (xmn xmx ymn ymx : T)
  | OInsert (ax ay bx by_ umbra : T)
  | ORasterize (x y : list T) (umbra : T)
  | ORegister (w : T)
  | OReset.

  Definition run_op (fuel : nat) (s : pfield) (o : op) : pfield * res unit :=
    match o with
    | OExpand a b c d => expand fuel s a b c d
    | OInsert ax ay bx by_ u => insert s ax ay bx by_ u
    | ORasterize x y u => rasterize fuel s x y u
    | ORegister w => register s w
    | OReset => reset s
    end.

  (** A whole history; an exception in one call is caught by the client, who goes on
      (so that statements about histories cover failing calls too). *)
  Definition run_ops (fuel : nat) (s : pfield) (l : list op) : pfield :=
    fold_left (fun st o => fst (run_op fuel st o)) l s.
End Field.

Arguments geom T : clear implicits.
Arguments pfield T : clear implicits.
Arguments op T : clear implicits.
