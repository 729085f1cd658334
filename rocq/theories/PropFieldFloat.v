(** * The probability field in binary64: properties C08, C19

    Written by tools/genprops.py: statements only, each closed by the lemma of the
    same name in ProofFieldFloat.v. *)
From Coq Require Import ZArith Reals SpecFloat.
From Verif Require Import Py Num ModelField Grid SpecField ProofFloat ProofFieldFloat.

(** ** C08 expand terminates in IEEE double arithmetic *)

(** Centre (5000000, 5000000), spacing 1e-10: the box is just the centre point. *)
Theorem C08_expand_binary64_refuted : forall lm,
  let d := SFdiv fprec femax (f_of_Z 1) (f_of_Z (10 ^ 10)) in
  let b := f_of_Z 5000000 in
  exists s, @pf_init _ (SF lm) d d b b = Ok s /\
    SFltb (f_of_Z 0) d = true /\
    forall fuel, snd (@expand _ (SF lm) fuel s b b b b) = NoFuel.
Proof. exact c08_expand_binary64_refuted. Qed.
Print Assumptions C08_expand_binary64_refuted.

(** A box with an infinite edge also makes the loop run forever, in any arithmetic with infinities. *)
Theorem C08_infinite_box_hangs : forall s fuel (a c d : R),
  wf s -> initialised s -> (c <= d)%R -> snd (expand fuel s (Fin a) PInf (Fin c) (Fin d)) = NoFuel.
Proof. exact c08_infinite_box_hangs. Qed.
Print Assumptions C08_infinite_box_hangs.

Theorem C08_integer_lattice_partial : forall lm (s : pfield spec_float) g x0 x1 y0 y1 dx dy xmn xmx ymn ymx,
  body s = Some g -> deltax s = f_of_Z dx -> deltay s = f_of_Z dy ->
  (0 < dx <= 2 ^ 51)%Z -> (0 < dy <= 2 ^ 51)%Z ->
  xmin g = f_of_Z x0 -> xmax g = f_of_Z x1 -> ymin g = f_of_Z y0 -> ymax g = f_of_Z y1 ->
  (Z.abs x0 <= 2 ^ 52 /\ Z.abs x1 <= 2 ^ 52 /\ Z.abs y0 <= 2 ^ 52 /\ Z.abs y1 <= 2 ^ 52)%Z ->
  fbox xmn -> fbox xmx -> fbox ymn -> fbox ymx ->
  exists n, forall fuel, (n <= fuel)%nat -> snd (@expand _ (SF lm) fuel s xmn xmx ymn ymx) <> NoFuel.
Proof. exact c08_integer_lattice_partial. Qed.
Print Assumptions C08_integer_lattice_partial.

(** Spacing 6 around (2250, -2250), and a track box with
    fractional corners (1/3 etc.). *)
Example C08_integer_lattice_example : forall lm, exists s g,
  @pf_init _ (SF lm) (f_of_Z 6) (f_of_Z 6) (f_of_Z 2250) (f_of_Z (-2250)) = Ok s /\ body s = Some g /\
  xmin g = f_of_Z 2244 /\ xmax g = f_of_Z 2256 /\ ymin g = f_of_Z (-2256) /\ ymax g = f_of_Z (-2244) /\
  fbox (SFdiv fprec femax (f_of_Z 1) (f_of_Z 3)) /\
  fst (@expand _ (SF lm) 1000 s (SFdiv fprec femax (f_of_Z 1) (f_of_Z 3)) (f_of_Z 2300) (f_of_Z (-2250)) (f_of_Z (-2240)))
    <> s.
Proof. exact c08_integer_lattice_example. Qed.

(** ** C19 Probability bounds hold in IEEE double arithmetic *)

Theorem C19_binary64_bounds : forall lm dx dy xo yo s0 fuel l,
  @pf_init _ (SF lm) dx dy xo yo = Ok s0 -> Forall fweight l ->
  forall g row v, body (@run_ops _ (SF lm) fuel s0 l) = Some g -> In row (pgrid g) -> In v row ->
    SFleb (f_of_Z 0) v = true /\ SFleb v (total_weight g) = true.
Proof. exact c19_binary64_bounds. Qed.
Print Assumptions C19_binary64_bounds.

Theorem C19_unit_counts : forall lm dx dy xo yo s0 fuel l,
  @pf_init _ (SF lm) dx dy xo yo = Ok s0 -> Forall unit_weight l -> (registers l <= 2 ^ 53)%Z ->
  exists n, (0 <= n <= registers l)%Z /\ (body s0 <> None -> n = registers l) /\
    forall g, body (@run_ops _ (SF lm) fuel s0 l) = Some g ->
      total_weight g = f_of_Z n /\
      forall row v, In row (pgrid g) -> In v row -> exists k, (0 <= k <= n)%Z /\ v = f_of_Z k.
Proof. exact c19_unit_counts. Qed.
Print Assumptions C19_unit_counts.

Example C19_binary64_example : forall lm, exists s0 g,
  @pf_init _ (SF lm) (f_of_Z 1) (f_of_Z 1) (f_of_Z 0) (f_of_Z 0) = Ok s0 /\ Forall fweight fhistory /\
  body (@run_ops _ (SF lm) 50 s0 fhistory) = Some g /\ ncols g = 6%Z /\ nrows g = 3%Z /\
  get2 (pgrid g) 1 1 = Some (total_weight g) /\ get2 (pgrid g) 1 3 = Some (f_of_Z 1) /\
  get2 (pgrid g) 0 3 = Some (f_of_Z 0).
Proof. exact c19_binary64_example. Qed.
