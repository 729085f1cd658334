(** * Binary64 operations on finite numbers as rounded real operations, via Flocq *)
From Coq Require Import ZArith Reals Lra Lia SpecFloat.
From Flocq Require Import Core BinarySingleNaN.
From Verif Require Import Py Num SpecFloats ProofFloat ProofFloatGrow.
Local Open Scope R_scope.

Local Notation fx := (FLT_exp (-1074) 53).
Local Notation F := (generic_format radix2 fx).
Local Notation rd := (round radix2 fx ZnearestE).
Local Instance Hprec : FLX.Prec_gt_0 fprec. Proof. reflexivity. Qed.
Local Instance Hmax : Prec_lt_emax fprec femax. Proof. reflexivity. Qed.
Local Notation bmul := (Bmult (prec := fprec) (emax := femax) mode_NE).
Local Notation bdiv := (Bdiv (prec := fprec) (emax := femax) mode_NE).

Lemma sfmul_bmul (x y : bin) : SFmul fprec femax (B2SF x) (B2SF y) = B2SF (bmul x y).
Proof.
  destruct x as [sx|sx| |sx mx ex Bx], y as [sy|sy| |sy my ey By]; try reflexivity.
  cbn -[SpecFloat.binary_round_aux binary_round_aux]. rewrite B2SF_SF2B. apply round_aux_equiv.
Qed.

Lemma sfdiv_bdiv (x y : bin) : SFdiv fprec femax (B2SF x) (B2SF y) = B2SF (bdiv x y).
Proof.
  destruct x as [sx|sx| |sx mx ex Bx], y as [sy|sy| |sy my ey By]; try reflexivity.
  cbn -[SpecFloat.binary_round_aux binary_round_aux SFdiv_core_binary]. rewrite B2SF_SF2B.
  set (melz := SFdiv_core_binary _ _ _ _ _ _). case melz as [[mz ez] lz]. apply round_aux_equiv.
Qed.

(** The operations return the rounded result, unless that is too large. *)
Lemma add_rd x y : ffinite x -> ffinite y -> Rabs (rd (fval x + fval y)) < bpow radix2 1024 ->
  ffinite (SFadd fprec femax x y) /\ fval (SFadd fprec femax x y) = rd (fval x + fval y).
Proof.
  intros Hx Hy B. destruct (finite_b x Hx) as (a & -> & Fa & Ea). destruct (finite_b y Hy) as (b & -> & Fb & Eb). rewrite <- Ea, <- Eb in *.
  rewrite sfadd_badd. pose proof (Bplus_correct fprec femax ProofFloat.Hprec ProofFloat.Hmax mode_NE a b Fa Fb) as H.
  change (round radix2 (SpecFloat.fexp fprec femax) (round_mode mode_NE)) with rd in H. rewrite Rlt_bool_true in H by exact B.
  destruct H as (H1 & H2 & _). destruct (b_finite _ H2) as (Q & Qe). split; [exact Q|]. etransitivity; [exact Qe|exact H1].
Qed.
Lemma mul_rd x y : ffinite x -> ffinite y -> Rabs (rd (fval x * fval y)) < bpow radix2 1024 ->
  ffinite (SFmul fprec femax x y) /\ fval (SFmul fprec femax x y) = rd (fval x * fval y).
Proof.
  intros Hx Hy B. destruct (finite_b x Hx) as (a & -> & Fa & Ea). destruct (finite_b y Hy) as (b & -> & Fb & Eb). rewrite <- Ea, <- Eb in *.
  rewrite sfmul_bmul. pose proof (Bmult_correct fprec femax Hprec Hmax mode_NE a b) as H.
  change (round radix2 (SpecFloat.fexp fprec femax) (round_mode mode_NE)) with rd in H. rewrite Rlt_bool_true in H by exact B.
  destruct H as (H1 & H2 & _). rewrite Fa, Fb in H2. destruct (b_finite _ H2) as (Q & Qe). split; [exact Q|]. etransitivity; [exact Qe|exact H1].
Qed.
Lemma div_rd x y : ffinite x -> ffinite y -> fval y <> 0 -> Rabs (rd (fval x / fval y)) < bpow radix2 1024 ->
  ffinite (SFdiv fprec femax x y) /\ fval (SFdiv fprec femax x y) = rd (fval x / fval y).
Proof.
  intros Hx Hy N B. destruct (finite_b x Hx) as (a & -> & Fa & Ea). destruct (finite_b y Hy) as (b & -> & Fb & Eb). rewrite <- Ea, <- Eb in *.
  rewrite sfdiv_bdiv. pose proof (Bdiv_correct fprec femax Hprec Hmax mode_NE a b N) as H.
  change (round radix2 (SpecFloat.fexp fprec femax) (round_mode mode_NE)) with rd in H. rewrite Rlt_bool_true in H by exact B.
  destruct H as (H1 & H2 & _). rewrite Fa in H2. destruct (b_finite _ H2) as (Q & Qe). split; [exact Q|]. etransitivity; [exact Qe|exact H1].
Qed.

(** Rounding between numbers of the format. *)
Lemma rd_le a b : a <= b -> rd a <= rd b.
Proof. intros H. apply round_le; [typeclasses eauto|typeclasses eauto|exact H]. Qed.
Lemma rd_F a : F a -> rd a = a.
Proof. intros H. apply round_generic; [typeclasses eauto|exact H]. Qed.
Lemma rd_between a x b : F a -> F b -> a <= x <= b -> a <= rd x <= b.
Proof. intros Fa Fb H. rewrite <- (rd_F a Fa), <- (rd_F b Fb). split; apply rd_le; apply H. Qed.

Lemma F_double x : F x -> F (2 * x).
Proof.
  intros H. replace (2 * x) with (x * bpow radix2 1) by (cbn; ring).
  apply generic_format_FLT. destruct (FLT_format_generic radix2 (-1074) 53 x H) as [f E1 E2 E3].
  exists (Float radix2 (Fnum f) (Fexp f + 1)); cbn [Fnum Fexp].
  - rewrite E1. unfold F2R. cbn [Fnum Fexp]. rewrite bpow_plus. ring.
  - exact E2.
  - lia.
Qed.
