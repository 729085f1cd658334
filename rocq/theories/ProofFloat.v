(** * Facts about binary64 addition of non-negative numbers, via Flocq *)
From Coq Require Import ZArith Reals Lra Lia SpecFloat.
From Flocq Require Import Core BinarySingleNaN.
From Verif Require Import Py Num.
Local Open Scope R_scope.

(** ** SpecFloat's rounding is Flocq's round-to-nearest-even
    (the first four lemmas are those of Flocq's PrimFloat.v, restated here so that
    primitive floats are not loaded). *)
Local Instance Hprec : FLX.Prec_gt_0 fprec. Proof. reflexivity. Qed.
Local Instance Hmax : Prec_lt_emax fprec femax. Proof. reflexivity. Qed.

Notation bin := (binary_float fprec femax).
Notation badd := (Bplus (prec := fprec) (emax := femax) mode_NE).

Lemma rne_equiv s m l : round_nearest_even m l = choice_mode mode_NE s m l.
Proof.
  destruct l as [|c]; [reflexivity|]. destruct c; [|reflexivity..].
  cbn. unfold Round.cond_incr. now case Z.even.
Qed.

Lemma round_aux_equiv sx mx ex lx :
  SpecFloat.binary_round_aux fprec femax sx mx ex lx = binary_round_aux fprec femax mode_NE sx mx ex lx.
Proof.
  unfold SpecFloat.binary_round_aux, binary_round_aux.
  set (mrse' := shr_fexp _ _ _). case mrse'; intros mrs' e'. cbn zeta.
  now rewrite (rne_equiv sx).
Qed.

Lemma round_equiv s m e : SpecFloat.binary_round fprec femax s m e = binary_round fprec femax mode_NE s m e.
Proof.
  unfold SpecFloat.binary_round, binary_round, shl_align_fexp.
  set (mez := shl_align _ _ _). case mez as [mz ez]. apply round_aux_equiv.
Qed.

Lemma normalize_equiv m e szero :
  SpecFloat.binary_normalize fprec femax m e szero
  = B2SF (binary_normalize fprec femax Hprec Hmax mode_NE m e szero).
Proof.
  case m as [|p|p]; [reflexivity| |]; cbn -[SpecFloat.binary_round]; rewrite B2SF_SF2B; apply round_equiv.
Qed.

Lemma sfadd_badd (x y : bin) : SFadd fprec femax (B2SF x) (B2SF y) = B2SF (badd x y).
Proof.
  destruct x as [sx|sx| |sx mx ex Bx], y as [sy|sy| |sy my ey By]; cbn -[SpecFloat.binary_normalize binary_normalize];
    try reflexivity; try (now case Bool.eqb).
  apply normalize_equiv.
Qed.

(** ** Non-negative values *)
Definition nn (x : bin) : Prop := x = B754_infinity false \/ (is_finite x = true /\ 0 <= B2R x).

Definition le (x y : bin) : Prop :=
  y = B754_infinity false \/ (is_finite x = true /\ is_finite y = true /\ B2R x <= B2R y).

Lemma le_refl x : nn x -> le x x.
Proof. intros [->|[F _]]; [left; reflexivity|right]. repeat split; auto. lra. Qed.

Lemma le_trans x y z : nn y -> le x y -> le y z -> le x z.
Proof.
  intros Hy Hxy [->|(F1 & F2 & H2)]; [left; reflexivity|].
  destruct Hxy as [->|(F3 & F4 & H1)]; [discriminate|]. right. repeat split; auto. lra.
Qed.

Lemma le_leb x y : nn x -> nn y -> (le x y <-> SFleb (B2SF x) (B2SF y) = true).
Proof.
  intros Hx Hy. change (SFleb (B2SF x) (B2SF y)) with (Bleb x y).
  destruct Hx as [->|[Fx Px]], Hy as [->|[Fy Py]].
  - split; [reflexivity|left; reflexivity].
  - split.
    + intros [->|(F & _)]; discriminate.
    + destruct y as [s|s| |s m e B]; discriminate.
  - split; [|left; reflexivity]. intros _. destruct x as [s|s| |s m e B]; try discriminate; reflexivity.
  - rewrite Bleb_correct by auto. split.
    + intros [->|(_ & _ & H)]; [discriminate|]. now apply Rle_bool_true.
    + intros H. right. repeat split; auto. revert H. case Rle_bool_spec; auto. discriminate.
Qed.

Notation rnd := (round radix2 (SpecFloat.fexp fprec femax) ZnearestE).

Local Instance fexp_ok : Valid_exp (SpecFloat.fexp fprec femax).
Proof. apply (fexp_correct fprec femax Hprec). Qed.

(** The value of a sum of non-negative numbers. *)
Lemma badd_nn (x w : bin) : nn x -> nn w ->
  (badd x w = B754_infinity false /\
   (x = B754_infinity false \/ w = B754_infinity false \/
    (is_finite x = true /\ is_finite w = true /\ bpow radix2 femax <= rnd (B2R x + B2R w)))) \/
  (is_finite x = true /\ is_finite w = true /\ is_finite (badd x w) = true /\
   B2R (badd x w) = rnd (B2R x + B2R w) /\ rnd (B2R x + B2R w) < bpow radix2 femax).
Proof.
  intros [->|[Fx Px]] [->|[Fw Pw]].
  - left. split; [reflexivity|auto].
  - left. split; [|auto]. destruct w as [s|s| |s m e B]; try discriminate; reflexivity.
  - left. split; [|auto]. destruct x as [s|s| |s m e B]; try discriminate; reflexivity.
  - pose proof (Bplus_correct fprec femax Hprec Hmax mode_NE x w Fx Fw) as H.
    change (round_mode mode_NE) with ZnearestE in H.
    assert (Pr : 0 <= rnd (B2R x + B2R w)).
    { apply round_ge_generic; [apply fexp_ok|typeclasses eauto|apply generic_format_0|lra]. }
    rewrite (Rabs_pos_eq _ Pr) in H. revert H. case Rlt_bool_spec; intros Hb H.
    + right. destruct H as (H1 & H2 & _). auto.
    + left. destruct H as (H1 & H2). split; [|auto 6].
      assert (Sx : Bsign x = false).
      { destruct (Req_dec (B2R x) 0) as [Ex|Nx].
        - destruct (Bsign x) eqn:Es; auto. exfalso.
          (* then x is a zero and so is w, and the sum cannot overflow *)
          destruct (Req_dec (B2R w) 0) as [Ew|Nw].
          + rewrite Ex, Ew, Rplus_0_r, round_0 in Hb by typeclasses eauto. pose proof (bpow_gt_0 radix2 femax). lra.
          + destruct w as [s|s| |s m e B]; try discriminate; [cbn in Nw; lra|].
            cbn in H2. subst s. cbn in Pw.
            assert (F2R (Float radix2 (Z.neg m) e) < 0) by now apply F2R_lt_0. lra.
        - destruct x as [s|s| |s m e B]; try discriminate; [cbn in Nx; lra|]. cbn. destruct s; auto. cbn in Px.
          assert (F2R (Float radix2 (Z.neg m) e) < 0) by now apply F2R_lt_0. lra. }
      rewrite Sx in H1. apply B2SF_inj. exact H1.
Qed.

Lemma badd_is_nn x w : nn x -> nn w -> nn (badd x w).
Proof.
  intros Hx Hw. destruct (badd_nn x w Hx Hw) as [[-> _]|(Fx & Fw & F & E & _)]; [left; reflexivity|].
  right. split; [exact F|]. rewrite E. destruct Hx as [->|[_ Px]]; [discriminate|]. destruct Hw as [->|[_ Pw]]; [discriminate|].
  apply round_ge_generic; [apply fexp_ok|typeclasses eauto|apply generic_format_0|lra].
Qed.

Lemma badd_mono x y w : nn x -> nn y -> nn w -> le x y -> le (badd x w) (badd y w).
Proof.
  intros Hx Hy Hw Hle.
  destruct (badd_nn y w Hy Hw) as [[-> _]|(Fy & Fw & F & E & Hb)]; [left; reflexivity|].
  destruct Hle as [->|(Fx & _ & Hle)]; [discriminate|].
  assert (Hr : rnd (B2R x + B2R w) <= rnd (B2R y + B2R w)) by (apply round_le; [apply fexp_ok|typeclasses eauto|lra]).
  destruct (badd_nn x w Hx Hw) as [[_ [->|[->|(_ & _ & Ho)]]]|(_ & _ & F' & E' & _)]; try discriminate; [lra|].
  right. repeat split; auto. rewrite E, E'. exact Hr.
Qed.

Lemma badd_incr x w : nn x -> nn w -> le x (badd x w).
Proof.
  intros Hx Hw. destruct (badd_nn x w Hx Hw) as [[-> _]|(Fx & Fw & F & E & _)]; [left; reflexivity|].
  right. repeat split; auto. rewrite E.
  destruct Hw as [->|[_ Pw]]; [discriminate|].
  apply round_ge_generic; [apply fexp_ok|typeclasses eauto|apply generic_format_B2R|lra].
Qed.

(** ** Integers *)
Lemma int_format n : (Z.abs n <= 2 ^ 53)%Z -> generic_format radix2 (SpecFloat.fexp fprec femax) (IZR n).
Proof.
  intros Hn. change (SpecFloat.fexp fprec femax) with (FLT_exp (-1074) 53).
  assert (B : generic_format radix2 (FLT_exp (-1074) 53) (IZR (2 ^ 53))).
  { change (IZR (2 ^ 53)) with (bpow radix2 53). apply generic_format_bpow. cbn. lia. }
  destruct (Z.eq_dec n (2 ^ 53)) as [->|Hne]; [exact B|].
  destruct (Z.eq_dec n (- 2 ^ 53)) as [->|Hne']; [rewrite opp_IZR; now apply generic_format_opp|].
  apply generic_format_FLT. apply FLT_spec with (Float radix2 n 0).
  - unfold F2R. cbn. ring.
  - cbn. change (Z.pow_pos 2 53) with (2 ^ 53)%Z. lia.
  - cbn. lia.
Qed.

Lemma int_small n : (Z.abs n <= 2 ^ 53)%Z -> Rabs (IZR n) < bpow radix2 femax.
Proof.
  intros Hn. rewrite <- abs_IZR. change (bpow radix2 femax) with (IZR (2 ^ 1024)). apply IZR_lt.
  apply Z.le_lt_trans with (2 ^ 53)%Z; [lia|]. now apply Z.pow_lt_mono_r.
Qed.

Lemma of_int n : (Z.abs n <= 2 ^ 53)%Z -> exists b : bin,
  f_of_Z n = B2SF b /\ is_finite b = true /\ B2R b = IZR n /\ Bsign b = (n <? 0)%Z.
Proof.
  intros Hn. unfold f_of_Z. rewrite normalize_equiv.
  pose proof (binary_normalize_correct fprec femax Hprec Hmax mode_NE n 0 false) as H. cbn zeta in H.
  assert (E : F2R (Float radix2 n 0) = IZR n) by (unfold F2R; cbn; ring).
  rewrite E in H. change (round_mode mode_NE) with ZnearestE in H.
  rewrite round_generic in H; [|typeclasses eauto|now apply int_format].
  rewrite Rlt_bool_true in H by now apply int_small.
  destruct H as (H1 & H2 & H3). eexists. split; [reflexivity|]. split; [exact H2|]. split; [exact H1|].
  rewrite H3. destruct (Z.lt_trichotomy n 0) as [Hlt|[->|Hgt]].
  - rewrite Rcompare_Lt by (apply IZR_lt; lia). symmetry. now apply Z.ltb_lt.
  - now rewrite Rcompare_Eq.
  - rewrite Rcompare_Gt by (apply IZR_lt; lia). symmetry. apply Z.ltb_ge. lia.
Qed.

Lemma add_int n m : (Z.abs n <= 2 ^ 53)%Z -> (Z.abs m <= 2 ^ 53)%Z -> (Z.abs (n + m) <= 2 ^ 53)%Z ->
  SFadd fprec femax (f_of_Z n) (f_of_Z m) = f_of_Z (n + m).
Proof.
  intros Hn Hm Hs. destruct (of_int n Hn) as (a & -> & Fa & Ra & Sa).
  destruct (of_int m Hm) as (o & -> & Fo & Ro & So).
  destruct (of_int (n + m) Hs) as (c & -> & Fc & Rc & Sc).
  rewrite sfadd_badd. f_equal.
  pose proof (Bplus_correct fprec femax Hprec Hmax mode_NE a o Fa Fo) as H.
  change (round_mode mode_NE) with ZnearestE in H. rewrite Ra, Ro, <- plus_IZR in H.
  rewrite round_generic in H; [|typeclasses eauto|now apply int_format].
  rewrite Rlt_bool_true in H by now apply int_small.
  destruct H as (H1 & H2 & H3). apply B2R_Bsign_inj; auto; [now rewrite H1, Rc|].
  rewrite H3, Sc, Sa, So. destruct (Z.lt_trichotomy (n + m) 0) as [Hlt|[E|Hgt]].
  - rewrite Rcompare_Lt by (apply IZR_lt; lia). symmetry. now apply Z.ltb_lt.
  - rewrite E, Rcompare_Eq by reflexivity. cbn. destruct (Z.ltb_spec n 0), (Z.ltb_spec m 0); auto; lia.
  - rewrite Rcompare_Gt by (apply IZR_lt; lia). symmetry. apply Z.ltb_ge. lia.
Qed.

Lemma count_step n : (0 <= n < 2 ^ 53)%Z ->
  SFadd fprec femax (f_of_Z n) (f_of_Z 1) = f_of_Z (n + 1).
Proof. intros Hn. apply add_int; lia. Qed.

Lemma sfsub_bminus (x y : bin) : SFsub fprec femax (B2SF x) (B2SF y) = B2SF (Bminus (prec := fprec) (emax := femax) mode_NE x y).
Proof.
  destruct x as [sx|sx| |sx mx ex Bx], y as [sy|sy| |sy my ey By]; cbn -[SpecFloat.binary_normalize binary_normalize];
    try reflexivity; try (now case Bool.eqb); try (now destruct sx, sy).
  rewrite normalize_equiv. f_equal. f_equal. unfold Fplus_naive. destruct sy; cbn [cond_Zopp negb]; lia.
Qed.

Lemma sub_int n m : (Z.abs n <= 2 ^ 53)%Z -> (Z.abs m <= 2 ^ 53)%Z -> (Z.abs (n - m) <= 2 ^ 53)%Z -> (0 < m)%Z ->
  SFsub fprec femax (f_of_Z n) (f_of_Z m) = f_of_Z (n - m).
Proof.
  intros Hn Hm Hs Hp. destruct (of_int n Hn) as (a & -> & Fa & Ra & Sa).
  destruct (of_int m Hm) as (o & -> & Fo & Ro & So).
  destruct (of_int (n - m) Hs) as (c & -> & Fc & Rc & Sc).
  rewrite sfsub_bminus. f_equal.
  pose proof (Bminus_correct fprec femax Hprec Hmax mode_NE a o Fa Fo) as H.
  change (round_mode mode_NE) with ZnearestE in H. rewrite Ra, Ro, <- minus_IZR in H.
  rewrite round_generic in H; [|typeclasses eauto|now apply int_format].
  rewrite Rlt_bool_true in H by now apply int_small.
  destruct H as (H1 & H2 & H3). apply B2R_Bsign_inj; auto; [now rewrite H1, Rc|].
  rewrite H3, Sc, Sa, So. destruct (Z.lt_trichotomy (n - m) 0) as [Hlt|[E|Hgt]].
  - rewrite Rcompare_Lt by (apply IZR_lt; lia). symmetry. now apply Z.ltb_lt.
  - rewrite E, Rcompare_Eq by reflexivity. cbn. destruct (Z.ltb_spec n 0), (Z.ltb_spec m 0); auto; lia.
  - rewrite Rcompare_Gt by (apply IZR_lt; lia). symmetry. apply Z.ltb_ge. lia.
Qed.

(** ** In terms of [spec_float] *)
Definition valid (x : spec_float) : Prop := SpecFloat.valid_binary fprec femax x = true.

(** A non-negative binary64 number (or +inf): not NaN, at least 0. *)
Definition fnonneg (x : spec_float) : Prop := valid x /\ SFleb (f_of_Z 0) x = true.

Lemma fnonneg_nn x : fnonneg x <-> exists b : bin, x = B2SF b /\ nn b.
Proof.
  split.
  - intros [V H]. exists (SF2B x V). rewrite B2SF_SF2B. split; [reflexivity|].
    destruct x as [s|s| |s m e]; cbn in *; try discriminate.
    + right. split; [reflexivity|]. cbn. lra.
    + destruct s; [discriminate|]. now left.
    + destruct s; [discriminate|]. right. split; [reflexivity|]. cbn. apply F2R_ge_0. cbn. lia.
  - intros (b & -> & Hb). split; [apply valid_binary_B2SF|].
    destruct Hb as [->|[F H]]; [reflexivity|].
    destruct b as [s|s| |s m e B]; try discriminate F; [reflexivity|].
    destruct s; [|reflexivity]. exfalso. unfold B2R in H. cbn [cond_Zopp] in H.
    assert (F2R (Float radix2 (Z.neg m) e) < 0) by now apply F2R_lt_0. change (- Z.pos m)%Z with (Z.neg m) in H. lra.
Qed.

Lemma fadd_nonneg x w : fnonneg x -> fnonneg w -> fnonneg (SFadd fprec femax x w).
Proof.
  rewrite !fnonneg_nn. intros (a & -> & Ha) (b & -> & Hb). exists (badd a b). rewrite sfadd_badd.
  split; [reflexivity|]. now apply badd_is_nn.
Qed.

Lemma fadd_mono x y w : fnonneg x -> fnonneg y -> fnonneg w ->
  SFleb x y = true -> SFleb (SFadd fprec femax x w) (SFadd fprec femax y w) = true.
Proof.
  rewrite !fnonneg_nn. intros (a & -> & Ha) (b & -> & Hb) (c & -> & Hc). rewrite !sfadd_badd.
  rewrite <- !le_leb; auto using badd_is_nn, badd_mono.
Qed.

Lemma fadd_incr x y w : fnonneg x -> fnonneg y -> fnonneg w ->
  SFleb x y = true -> SFleb x (SFadd fprec femax y w) = true.
Proof.
  rewrite !fnonneg_nn. intros (a & -> & Ha) (b & -> & Hb) (c & -> & Hc). rewrite !sfadd_badd.
  rewrite <- !le_leb; auto using badd_is_nn. intros. apply le_trans with b; auto using badd_incr.
Qed.

Lemma f_zero_nonneg : fnonneg (f_of_Z 0).
Proof. split; reflexivity. Qed.

(** Comparisons with integers. *)
Lemma leb_fin (a b : bin) : is_finite a = true -> is_finite b = true ->
  (SFleb (B2SF a) (B2SF b) = true <-> B2R a <= B2R b).
Proof.
  intros Fa Fb. change (SFleb (B2SF a) (B2SF b)) with (Bleb a b). rewrite Bleb_correct by auto.
  case Rle_bool_spec; split; auto; [discriminate|lra].
Qed.

Lemma finite_between x n m : valid x -> (Z.abs n <= 2 ^ 53)%Z -> (Z.abs m <= 2 ^ 53)%Z ->
  SFleb (f_of_Z n) x = true -> SFleb x (f_of_Z m) = true ->
  exists b : bin, x = B2SF b /\ is_finite b = true.
Proof.
  intros V Hn Hm H1 H2. destruct (of_int n Hn) as (a & Ea & Fa & _). destruct (of_int m Hm) as (c & Ec & Fc & _).
  exists (SF2B x V). rewrite B2SF_SF2B. split; [reflexivity|]. rewrite is_finite_SF2B.
  rewrite Ea in H1. rewrite Ec in H2.
  destruct x as [s|s| |s m' e]; try reflexivity; exfalso.
  - destruct s.
    + destruct a as [?|?| |? ? ? ?]; discriminate.
    + destruct c as [?|?| |? ? ? ?]; discriminate.
  - destruct a as [?|?| |? ? ? ?]; discriminate.
Qed.

Lemma leb_trans_int x n m k : valid x -> (Z.abs n <= 2 ^ 53)%Z -> (Z.abs k <= 2 ^ 53)%Z -> (Z.abs m <= 2 ^ 53)%Z ->
  SFleb (f_of_Z n) x = true -> SFleb x (f_of_Z m) = true -> SFleb x (f_of_Z k) = true -> (n <= k)%Z.
Proof.
  intros V Hn Hk Hm H1 H2 H3. destruct (finite_between x n m V Hn Hm H1 H2) as (b & -> & Fb).
  destruct (of_int n Hn) as (a & Ea & Fa & Ra & _). destruct (of_int k Hk) as (c & Ec & Fc & Rc & _).
  rewrite Ea in H1. rewrite Ec in H3. apply leb_fin in H1; auto. apply leb_fin in H3; auto.
  apply le_IZR. lra.
Qed.

Lemma leb_trans_int' x n m k : valid x -> (Z.abs n <= 2 ^ 53)%Z -> (Z.abs k <= 2 ^ 53)%Z -> (Z.abs m <= 2 ^ 53)%Z ->
  SFleb (f_of_Z n) x = true -> SFleb x (f_of_Z m) = true -> SFleb (f_of_Z k) x = true -> (k <= m)%Z.
Proof.
  intros V Hn Hk Hm H1 H2 H3. destruct (finite_between x n m V Hn Hm H1 H2) as (b & -> & Fb).
  destruct (of_int m Hm) as (a & Ea & Fa & Ra & _). destruct (of_int k Hk) as (c & Ec & Fc & Rc & _).
  rewrite Ea in H2. rewrite Ec in H3. apply leb_fin in H2; auto. apply leb_fin in H3; auto.
  apply le_IZR. lra.
Qed.
