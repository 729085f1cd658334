(** * The growth loops in binary64: property C08

    Written by tools/genprops.py: statements only, each closed by the lemma of the
    same name in ProofFloatGrow.v, ProofFloatStuck.v. *)
From Coq Require Import Reals SpecFloat List.
From Verif Require Import Py Num ModelField SpecFloats SpecStuck ProofFloatGrow ProofFloatStuck.
Local Open Scope R_scope.

(** ** C08 expand terminates in IEEE double arithmetic *)

(** Whatever the edges, the box and the spacings, the loops end in binary64 if the spacings are at least 2^-52
    times the coordinates. *)
Theorem C08_wide_partial : forall lm (s : pfield spec_float) xmn xmx ymn ymx,
  ffinite (deltax s) -> ffinite (deltay s) -> 0 < fval (deltax s) -> 0 < fval (deltay s) ->
  ffinite xmn -> ffinite xmx -> ffinite ymn -> ffinite ymx ->
  wide (deltax s) xmn -> wide (deltax s) xmx -> wide (deltay s) ymn -> wide (deltay s) ymx ->
  (forall g, body s = Some g ->
     ffinite (xmin g) /\ ffinite (xmax g) /\ ffinite (ymin g) /\ ffinite (ymax g) /\
     wide (deltax s) (xmin g) /\ wide (deltax s) (xmax g) /\ wide (deltay s) (ymin g) /\ wide (deltay s) (ymax g)) ->
  exists n, forall fuel, (n <= fuel)%nat -> snd (@expand _ (SF lm) fuel s xmn xmx ymn ymx) <> NoFuel.
Proof. exact c08_wide_partial. Qed.
Print Assumptions C08_wide_partial.

(** Whatever the edges, the box and the spacings, [expand] runs for ever in binary64 if the grid has to grow on some
    side where the spacing is at most 2^-55 times the edge or the box. *)
Theorem C08_narrow_refuted : forall lm (s : pfield spec_float) g xmn xmx ymn ymx,
  body s = Some g -> ffinite (deltax s) -> ffinite (deltay s) -> 0 < fval (deltax s) -> 0 < fval (deltay s) ->
  ffinite xmn -> ffinite xmx -> ffinite ymn -> ffinite ymx -> fval xmn <= fval xmx -> fval ymn <= fval ymx ->
  ffinite (xmin g) -> ffinite (xmax g) -> ffinite (ymin g) -> ffinite (ymax g) ->
  (fval xmn <= fval (xmin g) /\ narrow (deltax s) xmn (xmin g) \/
   fval (xmax g) <= fval xmx /\ narrow (deltax s) xmx (xmax g) \/
   fval ymn <= fval (ymin g) /\ narrow (deltay s) ymn (ymin g) \/
   fval (ymax g) <= fval ymx /\ narrow (deltay s) ymx (ymax g)) ->
  forall fuel, snd (@expand _ (SF lm) fuel s xmn xmx ymn ymx) = NoFuel.
Proof. exact c08_narrow_refuted. Qed.
Print Assumptions C08_narrow_refuted.

Example C08_wide_example : forall lm, exists s g,
  @pf_init _ (SF lm) ftenth ftenth (f_of_Z 500000) (f_of_Z 5000000) = Ok s /\ body s = Some g /\
  (ffinite (deltax s) /\ 0 < fval (deltax s)) /\ (ffinite (deltay s) /\ 0 < fval (deltay s)) /\
  (forall v, In v [xmin g; xmax g; fthird 1500000; fthird 1500010] -> ffinite v /\ wide (deltax s) v) /\
  (forall v, In v [ymin g; ymax g; fthird 15000001; fthird 15000010] -> ffinite v /\ wide (deltay s) v) /\
  fst (@expand _ (SF lm) 100 s (fthird 1500000) (fthird 1500010) (fthird 15000001) (fthird 15000010)) <> s.
Proof. exact c08_wide_example. Qed.

(** Spacing 1 around the origin and a box at (2^60, 0): the grid would have to grow to where adding 1 has no effect. *)
Example C08_narrow_example : forall lm, exists s g,
  @pf_init _ (SF lm) (f_of_Z 1) (f_of_Z 1) (f_of_Z 0) (f_of_Z 0) = Ok s /\ body s = Some g /\
  (ffinite (deltax s) /\ 0 < fval (deltax s)) /\
  (forall v, In v [xmin g; xmax g; ymin g; ymax g; f_of_Z 0; f_of_Z (2 ^ 60)] -> ffinite v) /\
  fval (xmax g) <= fval (f_of_Z (2 ^ 60)) /\ narrow (deltax s) (f_of_Z (2 ^ 60)) (xmax g).
Proof. exact c08_narrow_example. Qed.

(** For every binary64 field and finite box: [expand] runs for ever exactly if on one of the four sides the edge comes, before it passes the box, to a number that the
    spacing no longer changes; otherwise enough fuel makes it return. *)
Theorem C08_exactly_partial : forall lm (s : pfield spec_float) g xmn xmx ymn ymx,
  body s = Some g -> ffinite (deltax s) -> ffinite (deltay s) -> 0 < fval (deltax s) -> 0 < fval (deltay s) ->
  ffinite xmn -> ffinite xmx -> ffinite ymn -> ffinite ymx -> fval xmn <= fval xmx -> fval ymn <= fval ymx ->
  ffinite (xmin g) -> ffinite (xmax g) -> ffinite (ymin g) -> ffinite (ymax g) ->
  let stuck := stuck_below (deltax s) xmn (xmin g) \/ stuck_above (deltax s) xmx (xmax g) \/
               stuck_below (deltay s) ymn (ymin g) \/ stuck_above (deltay s) ymx (ymax g) in
  (stuck -> forall fuel, snd (@expand _ (SF lm) fuel s xmn xmx ymn ymx) = NoFuel) /\
  (~ stuck -> exists n, forall fuel, (n <= fuel)%nat -> snd (@expand _ (SF lm) fuel s xmn xmx ymn ymx) = Ok tt).
Proof. exact c08_exactly_partial. Qed.
Print Assumptions C08_exactly_partial.

(** Where an edge does not move: where the spacing is less than half the distance to the next number on that side, and nowhere that it is more than half of it
    (a tie may go either way). *)
Theorem C08_fixed_partial : forall e d, ffinite e -> ffinite d -> 0 < fval d -> Rabs (fval e) < 2 ^ 1023 ->
  ((forall f, ffinite f -> fval f < fval e -> 2 * fval d < fval e - fval f) -> fval (SFsub fprec femax e d) = fval e) /\
  (fval (SFsub fprec femax e d) = fval e -> forall f, ffinite f -> fval f < fval e -> 2 * fval d <= fval e - fval f) /\
  ((forall f, ffinite f -> fval e < fval f -> 2 * fval d < fval f - fval e) -> fval (SFadd fprec femax e d) = fval e) /\
  (fval (SFadd fprec femax e d) = fval e -> forall f, ffinite f -> fval e < fval f -> 2 * fval d <= fval f - fval e).
Proof. exact c08_fixed_partial. Qed.
Print Assumptions C08_fixed_partial.

Example C08_exactly_example : forall lm, exists s g, @pf_init _ (SF lm) tiny_step tiny_step (below_one 3) (below_one 3) = Ok s /\ body s = Some g /\
  (ffinite (deltax s) /\ 0 < fval (deltax s)) /\ (forall v, In v [xmin g; xmax g; ymin g; ymax g; one_half; below_one 5; below_one 10] -> ffinite v) /\
  ~ wide (deltax s) (below_one 10) /\ ~ narrow (deltax s) one_half one_half /\
  stuck_above (deltax s) one_half (xmax g) /\
  exists s', @expand _ (SF lm) 100 s (below_one 10) (below_one 5) (below_one 10) (below_one 5) = (s', Ok tt) /\ s' <> s.
Proof. exact c08_exactly_example. Qed.
