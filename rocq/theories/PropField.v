(** * The probability field: properties C01-C18, C76

    Written by tools/genprops.py: statements only, each closed by the lemma of the
    same name in ProofFieldProps.v, ProofFieldHist.v, ProofDiscard.v, ProofFieldEx.v, ProofFieldArgs.v. *)
From Coq Require Import Reals.
From Verif Require Import Py Num ModelField Grid SpecField ProofFieldProps ProofFieldHist ProofDiscard ProofFieldEx ProofFieldArgs.
From Coq Require Import List.
Import ListNotations.
Local Open Scope R_scope.

(** ** C01 Field constructor accepts exactly positive spacings *)

Theorem C01_constructor_rejects : forall (dx dy : R) (xo yo : xr),
  pf_init (Fin dx) (Fin dy) xo yo = Raise RangeError <-> dx <= 0 \/ dy <= 0.
Proof. exact c01_constructor_rejects. Qed.
Print Assumptions C01_constructor_rejects.

Theorem C01_constructor_centred : forall dx dy xo yo : R,
  0 < dx -> 0 < dy ->
  exists s, pf_init (Fin dx) (Fin dy) (Fin xo) (Fin yo) = Ok s /\ wf s /\ initialised s /\
    extent s (xo - dx) (xo + dx) (yo - dy) (yo + dy) /\ total s 0 /\
    (forall x y w m, has_node s x y w m <->
       w = 0 /\ m = false /\
       (x = xo - dx \/ x = xo \/ x = xo + dx) /\ (y = yo - dy \/ y = yo \/ y = yo + dy)).
Proof. exact c01_constructor_centred. Qed.
Print Assumptions C01_constructor_centred.

Theorem C01_constructor_uncentred : forall (dx dy : R) (xo yo : xr),
  0 < dx -> 0 < dy -> (xo = NaN \/ yo = NaN) ->
  exists s, pf_init (Fin dx) (Fin dy) xo yo = Ok s /\ wf s /\ ~ initialised s.
Proof. exact c01_constructor_uncentred. Qed.
Print Assumptions C01_constructor_uncentred.

(** Spacings 1 and 2 around (3, 4); a zero spacing. *)
Example C01_constructor_example : (exists s, pf_init (Fin 1) (Fin 2) (Fin 3) (Fin 4) = Ok s /\ has_node s 3 4 0 false /\ has_node s 2 6 0 false /\
             ~ is_node s 3 5) /\
  pf_init (Fin 1) (Fin 0) (Fin 3) (Fin 4) = Raise RangeError /\
  (exists s, pf_init (Fin 1) (Fin 2) NaN (Fin 4) = Ok s /\ ~ initialised s).
Proof. exact c01_constructor_example. Qed.

(** ** C02 expand covers the requested box strictly *)

Theorem C02_expand_contains : forall fuel s xmn xmx ymn ymx s',
  wf s -> expand fuel s (Fin xmn) (Fin xmx) (Fin ymn) (Fin ymx) = (s', Ok tt) ->
  wf s' /\ exists x0 x1 y0 y1, extent s' x0 x1 y0 y1 /\
    x0 < xmn /\ xmn <= xmx /\ xmx < x1 /\ y0 < ymn /\ ymn <= ymx /\ ymx < y1.
Proof. exact c02_expand_contains. Qed.
Print Assumptions C02_expand_contains.

(** expand(2, 3, -5, 0) on [field0]: three columns are added on the right, five rows below. *)
Example C02_expand_example : forall s,
  pf_init (Fin 1) (Fin 1) (Fin 0) (Fin 0) = Ok s ->
  exists fuel s', expand fuel s (Fin 2) (Fin 3) (Fin (-5)) (Fin 0) = (s', Ok tt) /\ extent s' (-1) 4 (-6) 1.
Proof. exact c02_expand_example. Qed.

(** ** C03 expand preserves georeferenced contents *)

Theorem C03_expand_preserves : forall fuel s (xmn xmx ymn ymx : xr) s',
  wf s -> initialised s -> expand fuel s xmn xmx ymn ymx = (s', Ok tt) ->
  (forall x y w m, has_node s x y w m -> has_node s' x y w m) /\
  (forall x y w m, has_node s' x y w m -> has_node s x y w m \/ (~ is_node s x y /\ w = 0 /\ m = false)) /\
  (forall W, total s' W <-> total s W) /\
  deltax s' = deltax s /\ deltay s' = deltay s.
Proof. exact c03_expand_preserves. Qed.
Print Assumptions C03_expand_preserves.

(** ** C04 Grid geometry invariant for every history *)

Theorem C04_geometry_invariant : forall fuel l s,
  wf s -> Forall finite_weight l -> wf (run_ops fuel s l).
Proof. exact c04_geometry_invariant. Qed.
Print Assumptions C04_geometry_invariant.

(** In particular every field reached from the constructor, centred or not, by any history. *)
Theorem C04_from_constructor : forall fuel l (dx dy : R) (xo yo : xr) s,
  fin_or_nan xo -> fin_or_nan yo -> Forall finite_weight l ->
  pf_init (Fin dx) (Fin dy) xo yo = Ok s -> wf (run_ops fuel s l).
Proof. exact c04_from_constructor. Qed.
Print Assumptions C04_from_constructor.

Theorem C04_lattice_fixed : forall fuel l s,
  wf s -> initialised s -> Forall finite_weight l ->
  let s' := run_ops fuel s l in
  initialised s' /\ deltax s' = deltax s /\ deltay s' = deltay s /\
  (forall x y, is_node s x y -> is_node s' x y) /\
  exists dx dy, deltax s = Fin dx /\ deltay s = Fin dy /\
    forall x y x' y', is_node s x y -> is_node s' x' y' ->
      exists p q : Z, x' = x + IZR p * dx /\ y' = y + IZR q * dy.
Proof. exact c04_lattice_fixed. Qed.
Print Assumptions C04_lattice_fixed.

(** ** C05 expand is minimal and idempotent *)

Theorem C05_expand_noop : forall fuel s xmn xmx ymn ymx x0 x1 y0 y1,
  (1 <= fuel)%nat -> wf s -> extent s x0 x1 y0 y1 ->
  x0 < xmn -> xmn <= xmx -> xmx < x1 -> y0 < ymn -> ymn <= ymx -> ymx < y1 ->
  expand fuel s (Fin xmn) (Fin xmx) (Fin ymn) (Fin ymx) = (s, Ok tt).
Proof. exact c05_expand_noop. Qed.
Print Assumptions C05_expand_noop.

Theorem C05_expand_idempotent : forall fuel s xmn xmx ymn ymx s' fuel',
  wf s -> expand fuel s (Fin xmn) (Fin xmx) (Fin ymn) (Fin ymx) = (s', Ok tt) -> (1 <= fuel')%nat ->
  expand fuel' s' (Fin xmn) (Fin xmx) (Fin ymn) (Fin ymx) = (s', Ok tt).
Proof. exact c05_expand_idempotent. Qed.
Print Assumptions C05_expand_idempotent.

Theorem C05_expand_minimal : forall fuel s xmn xmx ymn ymx s' x0 x1 y0 y1 dx dy,
  wf s -> extent s x0 x1 y0 y1 -> deltax s = Fin dx -> deltay s = Fin dy ->
  expand fuel s (Fin xmn) (Fin xmx) (Fin ymn) (Fin ymx) = (s', Ok tt) ->
  exists l r b t : Z,
    (0 <= l /\ 0 <= r /\ 0 <= b /\ 0 <= t)%Z /\
    extent s' (x0 - IZR l * dx) (x1 + IZR r * dx) (y0 - IZR b * dy) (y1 + IZR t * dy) /\
    (forall k, (0 <= k)%Z -> (x0 - IZR k * dx < xmn <-> (l <= k)%Z)) /\
    (forall k, (0 <= k)%Z -> (xmx < x1 + IZR k * dx <-> (r <= k)%Z)) /\
    (forall k, (0 <= k)%Z -> (y0 - IZR k * dy < ymn <-> (b <= k)%Z)) /\
    (forall k, (0 <= k)%Z -> (ymx < y1 + IZR k * dy <-> (t <= k)%Z)).
Proof. exact c05_expand_minimal. Qed.
Print Assumptions C05_expand_minimal.

(** ** C06 Inverted boxes are rejected without side effects *)

Theorem C06_inverted_box : forall fuel (s : pfield xr) (xmn xmx ymn ymx : xr),
  (xlt xmx xmn = true \/ xlt ymx ymn = true -> expand fuel s xmn xmx ymn ymx = (s, Raise RangeError)) /\
  (snd (expand fuel s xmn xmx ymn ymx) = Raise RangeError -> xlt xmx xmn = true \/ xlt ymx ymn = true).
Proof. exact c06_inverted_box. Qed.
Print Assumptions C06_inverted_box.

(** Boxes on [field0]: x inverted, y inverted, a single point. *)
Example C06_inverted_example : forall s,
  pf_init (Fin 1) (Fin 1) (Fin 0) (Fin 0) = Ok s ->
  expand 5 s (Fin 1) (Fin 0) (Fin 0) (Fin 0) = (s, Raise RangeError) /\
  expand 5 s (Fin 0) (Fin 0) (Fin 1) (Fin 0) = (s, Raise RangeError) /\
  expand 5 s (Fin 0) (Fin 0) (Fin 0) (Fin 0) = (s, Ok tt).
Proof. exact c06_inverted_example. Qed.

(** ** C07 expand terminates in exact arithmetic *)

Theorem C07_expand_terminates : forall s xmn xmx ymn ymx,
  wf s -> xmn <= xmx -> ymn <= ymx ->
  exists n, forall fuel, (n <= fuel)%nat ->
    snd (expand fuel s (Fin xmn) (Fin xmx) (Fin ymn) (Fin ymx)) = Ok tt.
Proof. exact c07_expand_terminates. Qed.
Print Assumptions C07_expand_terminates.

(** ** C09 distancesquared is the squared distance to the segment *)

Theorem C09_distance_lower : forall a b c p,
  a <> b -> on_segment a b p ->
  exists d, distancesquared (Fin (fst a)) (Fin (snd a)) (Fin (fst b)) (Fin (snd b)) (Fin (fst c)) (Fin (snd c)) = Fin d
            /\ d <= dist2 p c.
Proof. exact c09_distance_lower. Qed.
Print Assumptions C09_distance_lower.

Theorem C09_distance_attained : forall a b c,
  a <> b ->
  exists p, on_segment a b p /\
    distancesquared (Fin (fst a)) (Fin (snd a)) (Fin (fst b)) (Fin (snd b)) (Fin (fst c)) (Fin (snd c))
    = Fin (dist2 p c).
Proof. exact c09_distance_attained. Qed.
Print Assumptions C09_distance_attained.

Theorem C09_distance_symmetric : forall a b c,
  a <> b ->
  distancesquared (Fin (fst a)) (Fin (snd a)) (Fin (fst b)) (Fin (snd b)) (Fin (fst c)) (Fin (snd c)) =
  distancesquared (Fin (fst b)) (Fin (snd b)) (Fin (fst a)) (Fin (snd a)) (Fin (fst c)) (Fin (snd c)).
Proof. exact c09_distance_symmetric. Qed.
Print Assumptions C09_distance_symmetric.

(** distancesquared((0,1), (1,0), (0,0)) = 1/2, the repository's own test value. *)
Example C09_distance_example : distancesquared (Fin 0) (Fin 1) (Fin 1) (Fin 0) (Fin 0) (Fin 0) = Fin (1/2).
Proof. exact c09_distance_example. Qed.

(** ** C10 insert marks exactly the grid nodes within umbra *)

Theorem C10_insert_exact : forall s a b u,
  wf s -> initialised s -> 0 <= u ->
  exists s', insert s (Fin (fst a)) (Fin (snd a)) (Fin (fst b)) (Fin (snd b)) (Fin u) = (s', Ok tt) /\
    wf s' /\ initialised s' /\
    (forall x y w m', has_node s' x y w m' <->
       exists m, has_node s x y w m /\ (m' = true <-> m = true \/ (a <> b /\ near u a b (x, y)))) /\
    (forall x0 x1 y0 y1, extent s x0 x1 y0 y1 -> extent s' x0 x1 y0 y1) /\
    (forall W, total s W -> total s' W) /\
    deltax s' = deltax s /\ deltay s' = deltay s.
Proof. exact c10_insert_exact. Qed.
Print Assumptions C10_insert_exact.

(** ** C11 rasterize marks exactly the grid nodes near the polyline *)

Theorem C11_rasterize_exact : forall fuel s tr u s',
  wf s -> initialised s -> 0 <= u ->
  rasterize fuel s (xs tr) (ys tr) (Fin u) = (s', Ok tt) ->
  wf s' /\ initialised s' /\
  (forall x y w m, has_node s x y w m -> exists m', has_node s' x y w m') /\
  (forall x y w m', has_node s' x y w m' ->
     (has_node s x y w true -> m' = true) /\
     (~ is_node s x y -> w = 0) /\
     (m' = true <-> marked s x y \/ near_track u tr (x, y))) /\
  (forall W, total s W -> total s' W) /\
  (exists x0 x1 y0 y1, extent s' x0 x1 y0 y1 /\
     forall p, In p tr -> x0 < fst p < x1 /\ y0 < snd p < y1).
Proof. exact c11_rasterize_exact. Qed.
Print Assumptions C11_rasterize_exact.

Theorem C11_rasterize_returns : forall s tr u,
  wf s -> tr <> [] -> 0 <= u ->
  exists n, forall fuel, (n <= fuel)%nat ->
    exists s', rasterize fuel s (xs tr) (ys tr) (Fin u) = (s', Ok tt) /\ wf s' /\ initialised s'.
Proof. exact c11_rasterize_returns. Qed.
Print Assumptions C11_rasterize_returns.

(** On a field without grids: the marks are those of the track alone. *)
Theorem C11_rasterize_first : forall fuel s tr u s',
  wf s -> ~ initialised s -> 0 <= u ->
  rasterize fuel s (xs tr) (ys tr) (Fin u) = (s', Ok tt) ->
  wf s' /\ initialised s' /\ total s' 0 /\
  (forall x y w m, has_node s' x y w m -> w = 0 /\ (m = true <-> near_track u tr (x, y))) /\
  (exists x0 x1 y0 y1, extent s' x0 x1 y0 y1 /\
     forall p, In p tr -> x0 < fst p < x1 /\ y0 < snd p < y1).
Proof. exact c11_rasterize_first. Qed.
Print Assumptions C11_rasterize_first.

Theorem C11_rasterize_spacing : forall fuel s tr u s',
  wf s -> 0 <= u -> rasterize fuel s (xs tr) (ys tr) (Fin u) = (s', Ok tt) -> initialised s ->
  deltax s' = deltax s /\ deltay s' = deltay s.
Proof. exact c11_rasterize_spacing. Qed.
Print Assumptions C11_rasterize_spacing.

(** rasterize on [field0]: the track from (0,0) to (3,0) with umbra 1/2. *)
Example C11_rasterize_example : forall s,
  pf_init (Fin 1) (Fin 1) (Fin 0) (Fin 0) = Ok s ->
  exists fuel s', rasterize fuel s (xs [(0, 0); (3, 0)]) (ys [(0, 0); (3, 0)]) (Fin (1/2)) = (s', Ok tt) /\
    marked s' 2 0 /\ is_node s' 2 1 /\ ~ marked s' 2 1.
Proof. exact c11_rasterize_example. Qed.

(** The coordinate lists need not have the same length: the points are the pairs of coordinates, missing y coordinates
    raise an IndexError after the segments that exist have been marked, and an empty list raises a ValueError without effect. *)
Theorem C11_unequal : forall s xl yl u, wf s -> initialised s -> 0 <= u ->
  ((xl = [] \/ yl = []) -> forall fuel, rasterize fuel s (map Fin xl) (map Fin yl) (Fin u) = (s, Raise ValueError)) /\
  (xl <> [] -> yl <> [] -> exists n, forall fuel, (n <= fuel)%nat -> exists s',
     rasterize fuel s (map Fin xl) (map Fin yl) (Fin u) =
       (s', if (List.length xl <=? List.length yl)%nat then Ok tt else Raise IndexError) /\
     wf s' /\ initialised s' /\
     (forall x y w, (exists m, has_node s x y w m) -> exists m, has_node s' x y w m) /\
     (forall x y, is_node s' x y -> (marked s' x y <-> marked s x y \/ near_track u (combine xl yl) (x, y))) /\
     exists x0 x1 y0 y1, extent s' x0 x1 y0 y1 /\ (forall x, In x xl -> x0 < x < x1) /\ (forall y, In y yl -> y0 < y < y1)).
Proof. exact c11_unequal. Qed.
Print Assumptions C11_unequal.

(** Three x coordinates and two y coordinates: the first segment is marked, then the IndexError. *)
Example C11_unequal_example : forall s, pf_init (Fin 1) (Fin 1) (Fin 0) (Fin 0) = Ok s ->
  wf s /\ initialised s /\
  exists fuel s', rasterize fuel s (map Fin [0; 1/2; 7]) (map Fin [0; 0]) (Fin (1/2)) = (s', Raise IndexError) /\ marked s' 0 0.
Proof. exact c11_unequal_example. Qed.

(** ** C12 Every lattice node within umbra of a track is recorded, whatever the order of tracks *)

Theorem C12_order_refuted : exists (fuel : nat) (s : pfield xr) (A B : list point) (u : R) s1 s12 s2 s21 x y,
    wf s /\ initialised s /\ 0 < u /\
    rasterize fuel s (xs A) (ys A) (Fin u) = (s1, Ok tt) /\
    rasterize fuel s1 (xs B) (ys B) (Fin u) = (s12, Ok tt) /\
    rasterize fuel s (xs B) (ys B) (Fin u) = (s2, Ok tt) /\
    rasterize fuel s2 (xs A) (ys A) (Fin u) = (s21, Ok tt) /\
    near_track u A (x, y) /\ is_node s12 x y /\ is_node s21 x y /\
    ~ marked s12 x y /\ marked s21 x y.
Proof. exact c12_order_refuted. Qed.
Print Assumptions C12_order_refuted.

(** In both orders the grid ends up the same, and so do all weights and marks of the nodes
    that existed before. *)
Theorem C12_order_partial : forall fuel s A B u s1 s12 s2 s21,
  wf s -> initialised s -> 0 <= u ->
  rasterize fuel s (xs A) (ys A) (Fin u) = (s1, Ok tt) ->
  rasterize fuel s1 (xs B) (ys B) (Fin u) = (s12, Ok tt) ->
  rasterize fuel s (xs B) (ys B) (Fin u) = (s2, Ok tt) ->
  rasterize fuel s2 (xs A) (ys A) (Fin u) = (s21, Ok tt) ->
  (exists x0 x1 y0 y1, extent s12 x0 x1 y0 y1 /\ extent s21 x0 x1 y0 y1) /\
  (forall x y w m, is_node s x y -> (has_node s12 x y w m <-> has_node s21 x y w m)) /\
  (forall x y, is_node s x y -> near_track u A (x, y) \/ near_track u B (x, y) -> marked s12 x y /\ marked s21 x y).
Proof. exact c12_order_partial. Qed.
Print Assumptions C12_order_partial.

(** ** C13 Stationary segments mark the nodes around them *)

Theorem C13_stationary_marks_nothing : forall s p u,
  wf s -> initialised s -> 0 <= u ->
  exists s', insert s (Fin (fst p)) (Fin (snd p)) (Fin (fst p)) (Fin (snd p)) (Fin u) = (s', Ok tt) /\
    forall x y w m, has_node s' x y w m <-> has_node s x y w m.
Proof. exact c13_stationary_marks_nothing. Qed.
Print Assumptions C13_stationary_marks_nothing.

Theorem C13_stationary_refuted : exists s p u s' x y,
  wf s /\ initialised s /\ 0 < u /\ is_node s x y /\ dist2 p (x, y) < u * u /\
  insert s (Fin (fst p)) (Fin (snd p)) (Fin (fst p)) (Fin (snd p)) (Fin u) = (s', Ok tt) /\ ~ marked s' x y.
Proof. exact c13_stationary_refuted. Qed.
Print Assumptions C13_stationary_refuted.

(** ** C14 register's exact effect *)

Theorem C14_register_exact : forall s w,
  wf s -> initialised s ->
  exists s', register s (Fin w) = (s', Ok tt) /\ wf s' /\
    (forall x y v m', has_node s' x y v m' <->
       m' = false /\ exists v0 m, has_node s x y v0 m /\ v = (if m then v0 + w else v0)) /\
    (forall W, total s W -> total s' (W + w)) /\
    (forall x0 x1 y0 y1, extent s x0 x1 y0 y1 -> extent s' x0 x1 y0 y1) /\
    deltax s' = deltax s /\ deltay s' = deltay s.
Proof. exact c14_register_exact. Qed.
Print Assumptions C14_register_exact.

Theorem C14_reset_exact : forall s,
  wf s -> initialised s ->
  exists s', reset s = (s', Ok tt) /\ wf s' /\
    (forall x y v m', has_node s' x y v m' <-> m' = false /\ exists m, has_node s x y v m) /\
    (forall W, total s W -> total s' W) /\
    (forall x0 x1 y0 y1, extent s x0 x1 y0 y1 -> extent s' x0 x1 y0 y1) /\
    deltax s' = deltax s /\ deltay s' = deltay s.
Proof. exact c14_reset_exact. Qed.
Print Assumptions C14_reset_exact.

(** ** C15 Accumulated weight is the weight of the realizations that marked the node *)

Theorem C15_ledger_exists : forall fuel x y l s b s' v T,
  wf s -> Forall finite_op l -> run fuel s l s' ->
  (b = true <-> marked s x y) -> weight_at s x y v -> total_at s T ->
  exists c t, Ledger fuel x y s b l s' c t /\ weight_at s' x y (v + c) /\ total_at s' (T + t).
Proof. exact c15_ledger_exists. Qed.
Print Assumptions C15_ledger_exists.

Theorem C15_ledger_unique : forall fuel x y s b l s1 c1 t1 s2 c2 t2,
  Ledger fuel x y s b l s1 c1 t1 -> Ledger fuel x y s b l s2 c2 t2 -> s1 = s2 /\ c1 = c2 /\ t1 = t2.
Proof. exact c15_ledger_unique. Qed.
Print Assumptions C15_ledger_unique.

Theorem C15_accumulated_weight : forall dx dy xo yo s0 fuel l s x y,
  fin_or_nan xo -> fin_or_nan yo -> pf_init (Fin dx) (Fin dy) xo yo = Ok s0 ->
  Forall finite_op l -> run fuel s0 l s ->
  exists c t, Ledger fuel x y s0 false l s c t /\ weight_at s x y c /\ total_at s t.
Proof. exact c15_accumulated_weight. Qed.
Print Assumptions C15_accumulated_weight.

Example C15_history_example : forall s0,
  pf_init (Fin 1) (Fin 1) (Fin 0) (Fin 0) = Ok s0 ->
  exists fuel s, run fuel s0 history s /\ Forall finite_op history /\ Forall nonneg_weight history /\
    run_ops fuel s0 history = s /\ wf s /\ total s 5 /\
    has_node s 0 0 2 false /\ has_node s 0 1 0 false /\ has_node s 4 (-6) 0 false /\
    (exists l, Ledger fuel 0 0 s0 false history s 2 l).
Proof. exact c15_history_example. Qed.

(** ** C16 Capture probability always lies in [0,1] *)

Theorem C16_probability_bounds : forall dx dy xo yo s0 fuel l,
  fin_or_nan xo -> fin_or_nan yo -> pf_init (Fin dx) (Fin dy) xo yo = Ok s0 ->
  Forall nonneg_weight l ->
  let s := run_ops fuel s0 l in
  (forall x y w m W, has_node s x y w m -> total s W -> 0 <= w <= W) /\
  (forall x y w m W, has_node s x y w m -> total s W -> 0 < W ->
     exists r, ndiv (Fin w) (Fin W) = Fin r /\ 0 <= r <= 1).
Proof. exact c16_probability_bounds. Qed.
Print Assumptions C16_probability_bounds.

(** ** C17 reset discards exactly the unfinished realization *)

Theorem C17_reset_discards : forall fuel l s,
  wf s -> Forall not_register l ->
  let s' := run_ops fuel s (l ++ [OReset]) in
  (forall x y v, weight_at s x y v -> weight_at s' x y v) /\
  (forall T, total_at s T -> total_at s' T) /\
  (forall x y, ~ marked s' x y).
Proof. exact c17_reset_discards. Qed.
Print Assumptions C17_reset_discards.

(** A segment inserted and then discarded leaves weights, total and marks as they were. *)
Example C17_reset_example : forall s,
  pf_init (Fin 1) (Fin 1) (Fin 0) (Fin 0) = Ok s ->
  let s1 := run_ops 9 s [OInsert (Fin (-1)) (Fin 0) (Fin 1) (Fin 0) (Fin (1/2))] in
  let s2 := run_ops 9 s ([OInsert (Fin (-1)) (Fin 0) (Fin 1) (Fin 0) (Fin (1/2))] ++ [OReset]) in
  marked s1 0 0 /\ ~ marked s2 0 0 /\ weight_at s2 0 0 0 /\ total_at s2 0.
Proof. exact c17_reset_example. Qed.

(** ** C18 Uninitialised field operations fail cleanly *)

Theorem C18_uninitialised : forall (s : pfield xr) fuel,
  ~ initialised s ->
  (forall ax ay bx by_ u, insert s ax ay bx by_ u = (s, Raise AttributeError)) /\
  (forall w, register s w = (s, Raise AttributeError)) /\
  reset s = (s, Raise AttributeError) /\
  (wf s -> forall xmn xmx ymn ymx, xmn <= xmx -> ymn <= ymx ->
     exists s', expand fuel s (Fin xmn) (Fin xmx) (Fin ymn) (Fin ymx) = (s', Ok tt) /\
                wf s' /\ initialised s' /\ total s' 0 /\
                (forall x y w m, has_node s' x y w m -> w = 0 /\ m = false)) /\
  (wf s -> forall tr u, tr <> [] -> 0 <= u ->
     exists s', rasterize fuel s (xs tr) (ys tr) (Fin u) = (s', Ok tt) /\ wf s' /\ initialised s').
Proof. exact c18_uninitialised. Qed.
Print Assumptions C18_uninitialised.

(** A field without centre. *)
Example C18_uninitialised_example : exists s,
  pf_init (Fin 1) (Fin 1) NaN NaN = Ok s /\ register s (Fin 1) = (s, Raise AttributeError) /\
  exists s', rasterize 9 s (xs [(0, 0); (3, 0)]) (ys [(0, 0); (3, 0)]) (Fin (1/2)) = (s', Ok tt) /\ initialised s'.
Proof. exact c18_uninitialised_example. Qed.

(** ** C76 Discarded tracks have no influence on later results *)

Theorem C76_discarded_refuted : exists (fuel : nat) (s : pfield xr) (A B : list point) (u : R) s1 s2 x y,
    pf_init (Fin 1) (Fin 1) (Fin 0) (Fin 0) = Ok s /\ wf s /\ initialised s /\ 0 < u /\
    run fuel s [ORasterize (xs B) (ys B) (Fin u); OReset; ORasterize (xs A) (ys A) (Fin u); ORegister (Fin 1)] s1 /\
    run fuel s [ORasterize (xs A) (ys A) (Fin u); ORegister (Fin 1)] s2 /\
    near_track u A (x, y) /\ weight_at s1 x y 1 /\ weight_at s2 x y 0.
Proof. exact c76_discarded_refuted. Qed.
Print Assumptions C76_discarded_refuted.

(** With the discarded track the field keeps every node; no node loses weight or mark, and the total is the same.
    Missing for C76: the weights can differ, at nodes that the grid gained after the discarded track. *)
Theorem C76_more_partial : forall fuel s B u l s1 s2, wf s -> initialised s -> 0 <= u -> Forall finite_op l -> Forall nonneg_weight l ->
  run fuel s (ORasterize (xs B) (ys B) (Fin u) :: OReset :: l) s1 -> run fuel s (OReset :: l) s2 ->
  (forall x y w m, has_node s2 x y w m -> exists w' m', has_node s1 x y w' m' /\ w <= w' /\ (m = true -> m' = true)) /\
  (forall v, total s1 v <-> total s2 v).
Proof. exact c76_more_partial. Qed.
Print Assumptions C76_more_partial.

(** At every location where the field had a node already, the discarded track makes no difference. *)
Theorem C76_old_nodes_partial : forall fuel s B u l s1 s2, wf s -> initialised s -> 0 <= u -> Forall finite_op l -> Forall nonneg_weight l ->
  run fuel s (ORasterize (xs B) (ys B) (Fin u) :: OReset :: l) s1 -> run fuel s (OReset :: l) s2 ->
  forall x y, is_node s x y -> forall w m, has_node s1 x y w m <-> has_node s2 x y w m.
Proof. exact c76_old_nodes_partial. Qed.
Print Assumptions C76_old_nodes_partial.

(** When the discarded track lies inside the grid it makes no difference at all, whatever is done afterwards. *)
Theorem C76_inside_partial : forall fuel s B u l s1 x0 x1 y0 y1, wf s -> 0 <= u ->
  extent s x0 x1 y0 y1 -> B <> [] -> (forall p, In p B -> x0 < fst p < x1 /\ y0 < snd p < y1) -> (0 < fuel)%nat ->
  (run fuel s (ORasterize (xs B) (ys B) (Fin u) :: OReset :: l) s1 <-> run fuel s (OReset :: l) s1).
Proof. exact c76_inside_partial. Qed.
Print Assumptions C76_inside_partial.

(** The histories of the refutation meet every hypothesis of the partial results. *)
Example C76_example : exists fuel s A B u s1 s2 x y, pf_init (Fin 1) (Fin 1) (Fin 0) (Fin 0) = Ok s /\ wf s /\ initialised s /\ 0 <= u /\
  let l := [ORasterize (xs A) (ys A) (Fin u); ORegister (Fin 1)] in
  Forall finite_op l /\ Forall nonneg_weight l /\
  run fuel s (ORasterize (xs B) (ys B) (Fin u) :: OReset :: l) s1 /\ run fuel s (OReset :: l) s2 /\
  weight_at s1 x y 1 /\ weight_at s2 x y 0 /\ is_node s 1 0.
Proof. exact c76_example. Qed.

(** Every track inside the initial grid: one along y = 0 between -1/2 and 1/2. *)
Example C76_inside_example : exists s B, pf_init (Fin 1) (Fin 1) (Fin 0) (Fin 0) = Ok s /\ wf s /\ extent s (-1) 1 (-1) 1 /\
  B <> [] /\ (forall p, In p B -> -1 < fst p < 1 /\ -1 < snd p < 1) /\ near_track (1/2) B (0, 0) /\ is_node s 0 0.
Proof. exact c76_inside_example. Qed.
