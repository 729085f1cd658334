(** * The growth loops in binary64: when they end and when they do not *)
From Coq Require Import ZArith Reals Lra Lia SpecFloat.
From Flocq Require Import Core BinarySingleNaN.
From Verif Require Import Py Num ModelField SpecFloats ProofOps ProofFloat.
Local Open Scope R_scope.

Local Notation fx := (FLT_exp (-1074) 53).
Local Notation F := (generic_format radix2 fx).
Local Notation rd := (round radix2 fx ZnearestE).
Local Instance P53 : Prec_gt_0 53. Proof. reflexivity. Qed.

(** ** Distance to the neighbours *)
Lemma eta_le (d : R) : F d -> 0 < d -> bpow radix2 (-1074) <= d.
Proof.
  intros Fd Hd. apply generic_format_FIX_FLT in Fd. unfold generic_format, F2R in Fd. cbn [Fnum Fexp] in Fd.
  change (cexp radix2 (FIX_exp (-1074)) d) with (-1074)%Z in Fd. set (m := Ztrunc _) in Fd.
  pose proof (bpow_gt_0 radix2 (-1074)) as B. assert (1 <= m)%Z.
  { destruct (Z_lt_le_dec m 1) as [L|L]; [|lia]. exfalso. assert (IZR m <= 0) by (apply IZR_le; lia). nra. }
  assert (1 <= IZR m) by (apply IZR_le; lia). nra.
Qed.

Lemma ulp_le_spacing (y d : R) : F d -> 0 < d -> Rabs y * bpow radix2 (-52) <= d -> ulp radix2 fx y <= d.
Proof.
  intros Fd Hd H. destruct (Rle_or_lt (bpow radix2 (-1074 + 53 - 1)) (Rabs y)) as [L|L].
  - eapply Rle_trans; [apply (ulp_FLT_le radix2 (-1074) 53); exact L|exact H].
  - rewrite ulp_FLT_small; [apply eta_le; assumption| |].
    + exact P53.
    + eapply Rlt_trans; [exact L|]. apply bpow_lt. lia.
Qed.

Lemma succ_le_ulp (y : R) : F y -> succ radix2 fx y <= y + ulp radix2 fx y.
Proof.
  intros Fy. destruct (Rle_or_lt 0 y) as [H|H]; [rewrite succ_eq_pos by exact H; lra|].
  unfold succ. rewrite Rle_bool_false by exact H. unfold pred_pos. rewrite ulp_opp, mag_opp.
  destruct (Req_bool_spec (- y) (bpow radix2 (mag radix2 y - 1))) as [E|E]; [|lra].
  rewrite ulp_neq_0 by lra. unfold cexp.
  assert (bpow radix2 (fx (mag radix2 y - 1)) <= bpow radix2 (fx (mag radix2 y))) by (apply bpow_le; unfold FLT_exp; lia). lra.
Qed.

Lemma succ_far (y d : R) : F y -> 0 < d -> d <= Rabs y * bpow radix2 (-55) -> 2 * d < succ radix2 fx y - y.
Proof.
  intros Fy Hd H. assert (Ny : y <> 0). { intros ->. rewrite Rabs_R0, Rmult_0_l in H. lra. }
  pose proof (bpow_mag_gt radix2 y) as M.
  destruct (Rle_or_lt 0 y) as [P|P].
  - rewrite succ_eq_pos by exact P. pose proof (ulp_FLT_gt radix2 (-1074) 53 y) as U. change (- (53))%Z with (-53)%Z in U.
    replace (-53)%Z with (2 + -55)%Z in U by reflexivity. rewrite bpow_plus in U. change (bpow radix2 2) with 4 in U.
    pose proof (Rabs_pos y). pose proof (bpow_gt_0 radix2 (-55)). nra.
  - unfold succ. rewrite Rle_bool_false by exact P. unfold pred_pos. rewrite ulp_opp, mag_opp.
    destruct (Req_bool_spec (- y) (bpow radix2 (mag radix2 y - 1))) as [E|E].
    + assert (A : Rabs y = bpow radix2 (mag radix2 y - 1)) by (rewrite Rabs_left by exact P; exact E).
      rewrite A, <- bpow_plus in H.
      assert (2 * d < bpow radix2 (fx (mag radix2 y - 1))); [|lra].
      apply Rle_lt_trans with (bpow radix2 (mag radix2 y - 55)).
      * replace (mag radix2 y - 55)%Z with (1 + (mag radix2 y - 1 + -55))%Z by ring. rewrite (bpow_plus radix2 1). change (bpow radix2 1) with 2. lra.
      * apply bpow_lt. unfold FLT_exp. lia.
    + pose proof (ulp_FLT_gt radix2 (-1074) 53 y) as U. change (- (53))%Z with (-53)%Z in U.
      replace (-53)%Z with (2 + -55)%Z in U by reflexivity. rewrite bpow_plus in U. change (bpow radix2 2) with 4 in U.
      pose proof (Rabs_pos y). pose proof (bpow_gt_0 radix2 (-55)). nra.
Qed.

Lemma pred_ge_ulp (y : R) : F y -> y - ulp radix2 fx y <= pred radix2 fx y.
Proof.
  intros Fy. pose proof (succ_le_ulp (- y) (generic_format_opp _ _ _ Fy)) as S. rewrite succ_opp, ulp_opp in S. lra.
Qed.
Lemma pred_far (y d : R) : F y -> 0 < d -> d <= Rabs y * bpow radix2 (-55) -> 2 * d < y - pred radix2 fx y.
Proof.
  intros Fy Hd H. rewrite <- Rabs_Ropp in H. pose proof (succ_far (- y) d (generic_format_opp _ _ _ Fy) Hd H) as S. rewrite succ_opp in S. lra.
Qed.

(** ** One step *)
Lemma step_down (y d : R) : F y -> F d -> 0 < d -> Rabs y * bpow radix2 (-52) <= d -> rd (y - d) < y.
Proof.
  intros Fy Fd Hd H. pose proof (ulp_le_spacing y d Fd Hd H) as U. pose proof (pred_ge_ulp y Fy) as P.
  destruct (Req_dec y 0) as [->|N].
  - apply Rle_lt_trans with (- d); [|lra]. rewrite Rminus_0_l. rewrite round_generic; [lra|typeclasses eauto|apply generic_format_opp; exact Fd].
  - apply Rle_lt_trans with (pred radix2 fx y); [|apply pred_lt_id; exact N].
    apply round_le_generic; [typeclasses eauto|typeclasses eauto|apply generic_format_pred; [typeclasses eauto|exact Fy]|lra].
Qed.
Lemma step_up (y d : R) : F y -> F d -> 0 < d -> Rabs y * bpow radix2 (-52) <= d -> y < rd (y + d).
Proof.
  intros Fy Fd Hd H. pose proof (ulp_le_spacing y d Fd Hd H) as U. pose proof (succ_le_ulp y Fy) as P.
  destruct (Req_dec y 0) as [->|N].
  - rewrite Rplus_0_l. rewrite round_generic; [lra|typeclasses eauto|exact Fd].
  - apply Rlt_le_trans with (succ radix2 fx y); [apply succ_gt_id; exact N|].
    apply round_ge_generic; [typeclasses eauto|typeclasses eauto|apply generic_format_succ; [typeclasses eauto|exact Fy]|lra].
Qed.
Lemma stay_down (y d : R) : F y -> 0 < d -> d <= Rabs y * bpow radix2 (-55) -> rd (y - d) = y.
Proof.
  intros Fy Hd H. pose proof (pred_far y d Fy Hd H). apply Rle_antisym.
  - apply round_le_generic; [typeclasses eauto|typeclasses eauto|exact Fy|lra].
  - apply round_N_ge_midp; [typeclasses eauto|exact Fy|lra].
Qed.
Lemma stay_up (y d : R) : F y -> 0 < d -> d <= Rabs y * bpow radix2 (-55) -> rd (y + d) = y.
Proof.
  intros Fy Hd H. pose proof (succ_far y d Fy Hd H). apply Rle_antisym.
  - apply round_N_le_midp; [typeclasses eauto|exact Fy|lra].
  - apply round_ge_generic; [typeclasses eauto|typeclasses eauto|exact Fy|lra].
Qed.

(** ** In terms of [spec_float] *)
Lemma finite_b (x : spec_float) : ffinite x -> exists b : bin, x = B2SF b /\ is_finite b = true /\ B2R b = fval x.
Proof.
  intros (V & H). exists (SF2B x V). rewrite B2SF_SF2B. split; [reflexivity|]. rewrite is_finite_SF2B.
  destruct x as [s|s| |s m e]; try contradiction; (split; [reflexivity|]); cbn; [reflexivity|].
  unfold F2R. cbn [Fnum Fexp]. rewrite bpow_powerRZ. destruct s; cbn [cond_Zopp]; [change (- Z.pos m)%Z with (Z.opp (Z.pos m)); rewrite opp_IZR|]; reflexivity.
Qed.
Lemma b_finite (b : bin) : is_finite b = true -> ffinite (B2SF b) /\ fval (B2SF b) = B2R b.
Proof.
  intros H. assert (V : SpecFloat.valid_binary fprec femax (B2SF b) = true) by apply valid_binary_B2SF.
  assert (Q : ffinite (B2SF b)) by (split; [exact V|destruct b; try discriminate H; exact I]). split; [exact Q|].
  destruct (finite_b _ Q) as (b' & E & _ & <-). apply B2SF_inj in E. congruence.
Qed.
Lemma F_of (x : spec_float) : ffinite x -> F (fval x).
Proof. intros H. destruct (finite_b x H) as (b & _ & _ & <-). apply (generic_format_B2R fprec femax). Qed.

Lemma fleb (x y : spec_float) : ffinite x -> ffinite y -> SFleb x y = Rle_bool (fval x) (fval y).
Proof.
  intros Hx Hy. destruct (finite_b x Hx) as (a & -> & Fa & Ea). destruct (finite_b y Hy) as (b & -> & Fb & Eb). rewrite <- Ea, <- Eb.
  apply (Bleb_correct fprec femax a b Fa Fb).
Qed.

Lemma fsub (x d : spec_float) : ffinite x -> ffinite d -> 0 < fval d ->
  SFsub fprec femax x d = S754_infinity true /\ bpow radix2 1024 <= Rabs (rd (fval x - fval d)) \/
  ffinite (SFsub fprec femax x d) /\ fval (SFsub fprec femax x d) = rd (fval x - fval d).
Proof.
  intros Hx Hd Pd. destruct (finite_b x Hx) as (a & -> & Fa & Ea). destruct (finite_b d Hd) as (b & -> & Fb & Eb). rewrite <- Ea, <- Eb in *.
  rewrite sfsub_bminus. pose proof (Bminus_correct fprec femax ProofFloat.Hprec ProofFloat.Hmax mode_NE a b Fa Fb) as H.
  change (round radix2 (SpecFloat.fexp fprec femax) (round_mode mode_NE)) with rd in H.
  revert H. case Rlt_bool_spec; intros Hb H.
  - destruct H as (H1 & H2 & _). right. destruct (b_finite _ H2) as (Q & Qe). split; [exact Q|]. etransitivity; [exact Qe|exact H1].
  - destruct H as (H1 & H2). left. split; [|exact Hb]. etransitivity; [exact H1|].
    assert (Sb : Bsign b = false).
    { destruct b as [s|s| |s m e B]; try discriminate Fb; [cbn in Pd; lra|]. cbn. destruct s; auto. cbn in Pd.
      assert (F2R (Float radix2 (Z.neg m) e) < 0) by now apply F2R_lt_0. lra. }
    rewrite H2, Sb. reflexivity.
Qed.
Lemma fadd (x d : spec_float) : ffinite x -> ffinite d -> 0 < fval d ->
  SFadd fprec femax x d = S754_infinity false /\ bpow radix2 1024 <= Rabs (rd (fval x + fval d)) \/
  ffinite (SFadd fprec femax x d) /\ fval (SFadd fprec femax x d) = rd (fval x + fval d).
Proof.
  intros Hx Hd Pd. destruct (finite_b x Hx) as (a & -> & Fa & Ea). destruct (finite_b d Hd) as (b & -> & Fb & Eb). rewrite <- Ea, <- Eb in *.
  rewrite sfadd_badd. pose proof (Bplus_correct fprec femax ProofFloat.Hprec ProofFloat.Hmax mode_NE a b Fa Fb) as H.
  change (round radix2 (SpecFloat.fexp fprec femax) (round_mode mode_NE)) with rd in H.
  revert H. case Rlt_bool_spec; intros Hb H.
  - destruct H as (H1 & H2 & _). right. destruct (b_finite _ H2) as (Q & Qe). split; [exact Q|]. etransitivity; [exact Qe|exact H1].
  - destruct H as (H1 & H2). left. split; [|exact Hb]. etransitivity; [exact H1|].
    assert (Sb : Bsign b = false).
    { destruct b as [s|s| |s m e B]; try discriminate Fb; [cbn in Pd; lra|]. cbn. destruct s; auto. cbn in Pd.
      assert (F2R (Float radix2 (Z.neg m) e) < 0) by now apply F2R_lt_0. lra. }
    rewrite H2, Sb. reflexivity.
Qed.

(** Every finite value is a multiple of the least one. *)
Lemma multiple (x : R) : F x -> exists k : Z, x = IZR k * bpow radix2 (-1074).
Proof. intros Fx. apply generic_format_FIX_FLT in Fx. eexists. exact Fx. Qed.

(** ** The loops *)
Lemma bpow_neg (n : nat) : bpow radix2 (- Z.of_nat n) * 2 ^ n = 1.
Proof. rewrite bpow_opp, bpow_powerRZ, <- pow_powerRZ. apply Rinv_l, pow_nonzero. cbn. lra. Qed.
Lemma scale (a b p q : R) : q * p = 1 -> 0 < p -> 0 < q -> (a <= b * p <-> a * q <= b).
Proof.
  intros E P Q. split; intros H.
  - apply Rmult_le_compat_r with (r := q) in H; [|lra]. replace (b * p * q) with (b * (q * p)) in H by ring. rewrite E in H. lra.
  - apply Rmult_le_compat_r with (r := p) in H; [|lra]. replace (a * q * p) with (a * (q * p)) in H by ring. rewrite E in H. lra.
Qed.
Lemma wide_iff d v : wide d v <-> Rabs (fval v) * bpow radix2 (-52) <= fval d.
Proof. apply scale; [apply (bpow_neg 52)|apply pow_lt; lra|apply bpow_gt_0]. Qed.

Lemma grow_down_ends lm x d : ffinite x -> ffinite d -> 0 < fval d -> wide d x ->
  forall k lo, ffinite lo -> wide d lo -> fval lo < fval x + INR k * bpow radix2 (-1074) ->
  forall fuel n, (k < fuel)%nat -> exists r, @grow_down _ (SF lm) fuel x lo d n = Ok r.
Proof.
  intros Hx Hd Pd Wx. induction k as [|k IH]; intros lo Hlo Wlo L [|fuel] n Hk; try lia; cbn [grow_down nle SF]; rewrite fleb by assumption.
  - cbn [INR] in L. rewrite Rle_bool_false by lra. eauto.
  - destruct (Rle_bool_spec (fval x) (fval lo)) as [Q|Q]; [|eauto]. cbn [nsub SF].
    destruct (fsub lo d Hlo Hd Pd) as [(E & _)|(Fs & E)].
    + destruct fuel as [|fuel]; [lia|]. cbn [grow_down nle SF]. rewrite E.
      replace (SFleb x (S754_infinity true)) with false; [eauto|]. destruct Hx as (_ & Hx). destruct x as [s|s| |s m e]; try contradiction; reflexivity.
    + pose proof (step_down (fval lo) (fval d) (F_of _ Hlo) (F_of _ Hd) Pd (proj1 (wide_iff _ _) Wlo)) as S. rewrite <- E in S.
      set (lo' := SFsub fprec femax lo d) in *.
      destruct (multiple _ (F_of _ Hlo)) as (a & Ea). destruct (multiple _ (F_of _ Fs)) as (b & Eb).
      pose proof (bpow_gt_0 radix2 (-1074)) as B.
      assert (b <= a - 1)%Z. { rewrite Ea, Eb in S. apply Rmult_lt_reg_r in S; [|exact B]. apply lt_IZR in S. lia. }
      assert (Dr : fval lo' <= fval lo - bpow radix2 (-1074)).
      { rewrite Ea, Eb. assert (IZR b <= IZR a - 1) by (rewrite <- minus_IZR; apply IZR_le; lia). nra. }
      rewrite S_INR in L.
      destruct (Rle_or_lt (fval x) (fval lo')) as [C|C].
      * apply (IH lo' Fs); [|lra|lia]. rewrite wide_iff in *. apply Rle_trans with (Rmax (Rabs (fval x)) (Rabs (fval lo)) * bpow radix2 (-52)).
        -- apply Rmult_le_compat_r; [apply bpow_ge_0|]. unfold Rmax, Rabs. destruct (Rle_dec _ _), (Rcase_abs (fval lo')), (Rcase_abs (fval x)), (Rcase_abs (fval lo)); lra.
        -- unfold Rmax. destruct (Rle_dec _ _); assumption.
      * destruct fuel as [|fuel]; [lia|]. cbn [grow_down nle SF]. rewrite fleb by assumption. rewrite Rle_bool_false by exact C. eauto.
Qed.

Lemma grow_up_ends lm x d : ffinite x -> ffinite d -> 0 < fval d -> wide d x ->
  forall k hi, ffinite hi -> wide d hi -> fval x < fval hi + INR k * bpow radix2 (-1074) ->
  forall fuel n, (k < fuel)%nat -> exists r, @grow_up _ (SF lm) fuel x hi d n = Ok r.
Proof.
  intros Hx Hd Pd Wx. induction k as [|k IH]; intros lo Hlo Wlo L [|fuel] n Hk; try lia; cbn [grow_up nle SF]; rewrite fleb by assumption.
  - cbn [INR] in L. rewrite Rle_bool_false by lra. eauto.
  - destruct (Rle_bool_spec (fval lo) (fval x)) as [Q|Q]; [|eauto]. cbn [nadd SF].
    destruct (fadd lo d Hlo Hd Pd) as [(E & _)|(Fs & E)].
    + destruct fuel as [|fuel]; [lia|]. cbn [grow_up nle SF]. rewrite E.
      replace (SFleb (S754_infinity false) x) with false; [eauto|]. destruct Hx as (_ & Hx). destruct x as [s|s| |s m e]; try contradiction; try reflexivity; destruct s; reflexivity.
    + pose proof (step_up (fval lo) (fval d) (F_of _ Hlo) (F_of _ Hd) Pd (proj1 (wide_iff _ _) Wlo)) as S. rewrite <- E in S.
      set (lo' := SFadd fprec femax lo d) in *.
      destruct (multiple _ (F_of _ Hlo)) as (a & Ea). destruct (multiple _ (F_of _ Fs)) as (b & Eb).
      pose proof (bpow_gt_0 radix2 (-1074)) as B.
      assert (a + 1 <= b)%Z. { rewrite Ea, Eb in S. apply Rmult_lt_reg_r in S; [|exact B]. apply lt_IZR in S. lia. }
      assert (Dr : fval lo + bpow radix2 (-1074) <= fval lo').
      { rewrite Ea, Eb. assert (IZR a + 1 <= IZR b) by (rewrite <- plus_IZR; apply IZR_le; lia). nra. }
      rewrite S_INR in L.
      destruct (Rle_or_lt (fval lo') (fval x)) as [C|C].
      * apply (IH lo' Fs); [|lra|lia]. rewrite wide_iff in *. apply Rle_trans with (Rmax (Rabs (fval x)) (Rabs (fval lo)) * bpow radix2 (-52)).
        -- apply Rmult_le_compat_r; [apply bpow_ge_0|]. unfold Rmax, Rabs. destruct (Rle_dec _ _), (Rcase_abs (fval lo')), (Rcase_abs (fval x)), (Rcase_abs (fval lo)); lra.
        -- unfold Rmax. destruct (Rle_dec _ _); assumption.
      * destruct fuel as [|fuel]; [lia|]. cbn [grow_up nle SF]. rewrite fleb by assumption. rewrite Rle_bool_false by exact C. eauto.
Qed.

Lemma enough (a b : R) : exists k, a < b + INR k * bpow radix2 (-1074).
Proof.
  pose proof (bpow_gt_0 radix2 (-1074)) as B. destruct (ProofOps.archimed_nat ((a - b) / bpow radix2 (-1074))) as (k & Hk). exists k.
  apply Rmult_lt_compat_r with (r := bpow radix2 (-1074)) in Hk; [|exact B].
  unfold Rdiv in Hk. rewrite Rmult_assoc, Rinv_l, Rmult_1_r in Hk by lra. lra.
Qed.

Lemma small (x : spec_float) : ffinite x -> Rabs (fval x) < bpow radix2 1024.
Proof. intros H. destruct (finite_b x H) as (b & _ & _ & <-). apply (abs_B2R_lt_emax fprec femax). Qed.

Lemma narrow_iff d a b : narrow d a b <-> fval d <= Rmax (Rabs (fval a)) (Rabs (fval b)) * bpow radix2 (-55).
Proof. symmetry. apply scale; [rewrite Rmult_comm; apply (bpow_neg 55)|apply bpow_gt_0|apply pow_lt; lra]. Qed.

(** A number just above a larger negative one does not move either. *)
Lemma stay_near (x y d : R) : F y -> 0 < d -> x < 0 -> d <= - x * bpow radix2 (-55) -> x <= y < x + d -> rd (y - d) = y.
Proof.
  intros Fy Hd Hx H L. assert (S1 : bpow radix2 (-55) <= / 4) by (change (/ 4) with (bpow radix2 (-2)); apply bpow_le; lia).
  pose proof (bpow_gt_0 radix2 (-55)) as B. assert (Y : y < 0) by nra.
  assert (P : pred radix2 fx y = y - ulp radix2 fx y).
  { rewrite <- (Ropp_involutive y) at 1. rewrite pred_opp, succ_eq_pos, ulp_opp by lra. ring. }
  pose proof (ulp_FLT_gt radix2 (-1074) 53 y) as U. change (- (53))%Z with (-53)%Z in U.
  replace (-53)%Z with (2 + -55)%Z in U by reflexivity. rewrite bpow_plus in U. change (bpow radix2 2) with 4 in U.
  rewrite Rabs_left in U by exact Y. apply Rle_antisym.
  - apply round_le_generic; [typeclasses eauto|typeclasses eauto|exact Fy|lra].
  - apply round_N_ge_midp; [typeclasses eauto|exact Fy|]. rewrite P. nra.
Qed.

Lemma stay_near_up (x y d : R) : F y -> 0 < d -> 0 < x -> d <= x * bpow radix2 (-55) -> x - d < y <= x -> rd (y + d) = y.
Proof.
  intros Fy Hd Hx H L. assert (S1 : bpow radix2 (-55) <= / 4) by (change (/ 4) with (bpow radix2 (-2)); apply bpow_le; lia).
  pose proof (bpow_gt_0 radix2 (-55)) as B. assert (Y : 0 < y) by nra.
  assert (P : succ radix2 fx y = y + ulp radix2 fx y) by (apply succ_eq_pos; lra).
  pose proof (ulp_FLT_gt radix2 (-1074) 53 y) as U. change (- (53))%Z with (-53)%Z in U.
  replace (-53)%Z with (2 + -55)%Z in U by reflexivity. rewrite bpow_plus in U. change (bpow radix2 2) with 4 in U.
  rewrite Rabs_pos_eq in U by lra. apply Rle_antisym.
  - apply round_N_le_midp; [typeclasses eauto|exact Fy|]. rewrite P. nra.
  - apply round_ge_generic; [typeclasses eauto|typeclasses eauto|exact Fy|lra].
Qed.

Lemma grow_down_hangs lm x d lo0 : ffinite x -> ffinite d -> 0 < fval d -> ffinite lo0 -> fval x <= fval lo0 -> narrow d x lo0 ->
  forall fuel n, @grow_down _ (SF lm) fuel x lo0 d n = NoFuel.
Proof.
  intros Hx Hd Pd H0 L0 Nr. apply narrow_iff in Nr.
  assert (R1 : forall lo, F lo -> fval x <= lo -> (lo = fval lo0 \/ Rabs (fval lo0) < Rabs (fval x)) ->
    let lo' := rd (lo - fval d) in fval x <= lo' <= lo /\ (lo' = fval lo0 \/ Rabs (fval lo0) < Rabs (fval x))).
  { intros lo Fl L C. cbn zeta. pose proof (bpow_gt_0 radix2 (-55)) as B.
    assert (Up : rd (lo - fval d) <= lo) by (apply round_le_generic; [typeclasses eauto|typeclasses eauto|exact Fl|lra]).
    destruct (Rlt_or_le (Rabs (fval lo0)) (Rabs (fval x))) as [A|A].
    - split; [|right; exact A]. split; [|exact Up]. rewrite Rmax_left in Nr by lra.
      destruct (Rle_or_lt (fval x) (lo - fval d)) as [G|G].
      + apply round_ge_generic; [typeclasses eauto|typeclasses eauto|apply F_of; exact Hx|exact G].
      + assert (Xn : fval x < 0). { unfold Rabs in A. destruct (Rcase_abs (fval x)), (Rcase_abs (fval lo0)); lra. }
        rewrite (Rabs_left _ Xn) in Nr. rewrite (stay_near (fval x)); [exact L|exact Fl|exact Pd|exact Xn|exact Nr|lra].
    - destruct C as [C|C]; [|lra]. rewrite Rmax_right in Nr by lra. subst lo. rewrite stay_down by auto. split; [lra|auto]. }
  assert (K : forall fuel n lo, ffinite lo -> fval x <= fval lo -> (fval lo = fval lo0 \/ Rabs (fval lo0) < Rabs (fval x)) -> @grow_down _ (SF lm) fuel x lo d n = NoFuel).
  { induction fuel as [|fuel IH]; intros n lo Hlo L C; [reflexivity|]. cbn [grow_down nle SF nsub]. rewrite fleb by assumption.
    rewrite Rle_bool_true by exact L. destruct (R1 (fval lo) (F_of _ Hlo) L C) as (I & C').
    destruct (fsub lo d Hlo Hd Pd) as [(_ & E)|(Fs & E)].
    - exfalso. pose proof (small x Hx) as S1. pose proof (small lo Hlo) as S2. unfold Rabs in S1, S2, E.
      destruct (Rcase_abs (fval x)), (Rcase_abs (fval lo)), (Rcase_abs (rd (fval lo - fval d))); lra.
    - apply IH; [exact Fs|lra|rewrite E; exact C']. }
  intros fuel n. apply K; auto.
Qed.

Lemma grow_up_hangs lm x d hi0 : ffinite x -> ffinite d -> 0 < fval d -> ffinite hi0 -> fval hi0 <= fval x -> narrow d x hi0 ->
  forall fuel n, @grow_up _ (SF lm) fuel x hi0 d n = NoFuel.
Proof.
  intros Hx Hd Pd H0 L0 Nr. apply narrow_iff in Nr.
  assert (R1 : forall lo, F lo -> lo <= fval x -> (lo = fval hi0 \/ Rabs (fval hi0) < Rabs (fval x)) ->
    let lo' := rd (lo + fval d) in lo <= lo' <= fval x /\ (lo' = fval hi0 \/ Rabs (fval hi0) < Rabs (fval x))).
  { intros lo Fl L C. cbn zeta. pose proof (bpow_gt_0 radix2 (-55)) as B.
    assert (Up : lo <= rd (lo + fval d)) by (apply round_ge_generic; [typeclasses eauto|typeclasses eauto|exact Fl|lra]).
    destruct (Rlt_or_le (Rabs (fval hi0)) (Rabs (fval x))) as [A|A].
    - split; [|right; exact A]. split; [exact Up|]. rewrite Rmax_left in Nr by lra.
      destruct (Rle_or_lt (lo + fval d) (fval x)) as [G|G].
      + apply round_le_generic; [typeclasses eauto|typeclasses eauto|apply F_of; exact Hx|exact G].
      + assert (Xn : 0 < fval x). { unfold Rabs in A. destruct (Rcase_abs (fval x)), (Rcase_abs (fval hi0)); lra. }
        rewrite (Rabs_pos_eq (fval x)) in Nr by lra. rewrite (stay_near_up (fval x)); [exact L|exact Fl|exact Pd|exact Xn|exact Nr|lra].
    - destruct C as [C|C]; [|lra]. rewrite Rmax_right in Nr by lra. subst lo. rewrite stay_up by auto. split; [lra|auto]. }
  assert (K : forall fuel n lo, ffinite lo -> fval lo <= fval x -> (fval lo = fval hi0 \/ Rabs (fval hi0) < Rabs (fval x)) -> @grow_up _ (SF lm) fuel x lo d n = NoFuel).
  { induction fuel as [|fuel IH]; intros n lo Hlo L C; [reflexivity|]. cbn [grow_up nle SF nadd]. rewrite fleb by assumption.
    rewrite Rle_bool_true by exact L. destruct (R1 (fval lo) (F_of _ Hlo) L C) as (I & C').
    destruct (fadd lo d Hlo Hd Pd) as [(_ & E)|(Fs & E)].
    - exfalso. pose proof (small x Hx) as S1. pose proof (small lo Hlo) as S2. unfold Rabs in S1, S2, E.
      destruct (Rcase_abs (fval x)), (Rcase_abs (fval lo)), (Rcase_abs (rd (fval lo + fval d))); lra.
    - apply IH; [exact Fs|lra|rewrite E; exact C']. }
  intros fuel n. apply K; auto.
Qed.

(** ** C08 *)

(** Whatever the edges, the box and the spacings, the loops end in binary64 if the spacings are at least 2^-52
    times the coordinates. *)
Lemma c08_wide_partial : forall lm (s : pfield spec_float) xmn xmx ymn ymx,
  ffinite (deltax s) -> ffinite (deltay s) -> 0 < fval (deltax s) -> 0 < fval (deltay s) ->
  ffinite xmn -> ffinite xmx -> ffinite ymn -> ffinite ymx ->
  wide (deltax s) xmn -> wide (deltax s) xmx -> wide (deltay s) ymn -> wide (deltay s) ymx ->
  (forall g, body s = Some g ->
     ffinite (xmin g) /\ ffinite (xmax g) /\ ffinite (ymin g) /\ ffinite (ymax g) /\
     wide (deltax s) (xmin g) /\ wide (deltax s) (xmax g) /\ wide (deltay s) (ymin g) /\ wide (deltay s) (ymax g)) ->
  exists n, forall fuel, (n <= fuel)%nat -> snd (@expand _ (SF lm) fuel s xmn xmx ymn ymx) <> NoFuel.
Proof.
  intros lm s xmn xmx ymn ymx Fdx Fdy Pdx Pdy F1 F2 F3 F4 W1 W2 W3 W4 Hg.
  unfold expand. destruct (nlt xmx xmn); [exists 0%nat; intros; discriminate|]. destruct (nlt ymx ymn); [exists 0%nat; intros; discriminate|].
  destruct (body s) as [g|].
  - destruct (Hg g eq_refl) as (G1 & G2 & G3 & G4 & V1 & V2 & V3 & V4).
    destruct (enough (fval (xmin g)) (fval xmn)) as (k1 & K1). destruct (enough (fval xmx) (fval (xmax g))) as (k2 & K2).
    destruct (enough (fval (ymin g)) (fval ymn)) as (k3 & K3). destruct (enough (fval ymx) (fval (ymax g))) as (k4 & K4).
    exists (S (k1 + k2 + k3 + k4)). intros fuel Hf. unfold expand_more.
    destruct (grow_down_ends lm xmn _ F1 Fdx Pdx W1 k1 _ G1 V1 K1 fuel 0%Z) as ([? ?] & ->); [lia|]. cbn [bind].
    destruct (grow_up_ends lm xmx _ F2 Fdx Pdx W2 k2 _ G2 V2 K2 fuel 0%Z) as ([? ?] & ->); [lia|]. cbn [bind].
    destruct (grow_down_ends lm ymn _ F3 Fdy Pdy W3 k3 _ G3 V3 K3 fuel 0%Z) as ([? ?] & ->); [lia|]. cbn [bind].
    destruct (grow_up_ends lm ymx _ F4 Fdy Pdy W4 k4 _ G4 V4 K4 fuel 0%Z) as ([? ?] & ->); [lia|]. cbn [bind].
    destruct (_ || _); discriminate.
  - exists 0%nat. intros fuel _. unfold expand_first.
    assert (C : forall x, @nceil _ (SF lm) x <> NoFuel).
    { intros x. unfold nceil. cbn [nfloor SF]. set (z := nopp x). destruct z; discriminate. }
    match goal with |- context [nceil ?x] => pose proof (C x); destruct (nceil x) end; cbn [bind update snd]; [|discriminate|congruence].
    match goal with |- context [nceil ?x] => pose proof (C x); destruct (nceil x) end; cbn [bind update snd]; congruence.
Qed.

(** Whatever the edges, the box and the spacings, [expand] runs for ever in binary64 if the grid has to grow on some
    side where the spacing is at most 2^-55 times the edge or the box. *)
Lemma c08_narrow_refuted : forall lm (s : pfield spec_float) g xmn xmx ymn ymx,
  body s = Some g -> ffinite (deltax s) -> ffinite (deltay s) -> 0 < fval (deltax s) -> 0 < fval (deltay s) ->
  ffinite xmn -> ffinite xmx -> ffinite ymn -> ffinite ymx -> fval xmn <= fval xmx -> fval ymn <= fval ymx ->
  ffinite (xmin g) -> ffinite (xmax g) -> ffinite (ymin g) -> ffinite (ymax g) ->
  (fval xmn <= fval (xmin g) /\ narrow (deltax s) xmn (xmin g) \/
   fval (xmax g) <= fval xmx /\ narrow (deltax s) xmx (xmax g) \/
   fval ymn <= fval (ymin g) /\ narrow (deltay s) ymn (ymin g) \/
   fval (ymax g) <= fval ymx /\ narrow (deltay s) ymx (ymax g)) ->
  forall fuel, snd (@expand _ (SF lm) fuel s xmn xmx ymn ymx) = NoFuel.
Proof.
  intros lm s g xmn xmx ymn ymx Eb Fdx Fdy Pdx Pdy F1 F2 F3 F4 Lx Ly G1 G2 G3 G4 C fuel.
  assert (Lt : forall a b, ffinite a -> ffinite b -> fval a <= fval b -> SFltb b a = false).
  { intros a b Ha Hb L. destruct (finite_b a Ha) as (a' & -> & Fa & Ea). destruct (finite_b b Hb) as (b' & -> & Fb & Eb'). rewrite <- Ea, <- Eb' in L.
    change (Bltb b' a' = false). rewrite Bltb_correct by assumption. apply Rlt_bool_false. exact L. }
  unfold expand. cbn [nlt SF]. rewrite (Lt _ _ F1 F2 Lx), (Lt _ _ F3 F4 Ly), Eb.
  assert (D : forall f x lo d n, (exists r, @grow_down _ (SF lm) f x lo d n = Ok r) \/ @grow_down _ (SF lm) f x lo d n = NoFuel).
  { induction f; intros; cbn [grow_down]; [auto|]. destruct (nle _ _); eauto. }
  assert (U : forall f x lo d n, (exists r, @grow_up _ (SF lm) f x lo d n = Ok r) \/ @grow_up _ (SF lm) f x lo d n = NoFuel).
  { induction f; intros; cbn [grow_up]; [auto|]. destruct (nle _ _); eauto. }
  unfold expand_more.
  destruct C as [(L & Nr)|C]; [rewrite grow_down_hangs by assumption; reflexivity|].
  destruct (D fuel xmn (xmin g) (deltax s) 0%Z) as [([? ?] & ->)| ->]; [|reflexivity]. cbn [bind].
  destruct C as [(L & Nr)|C]; [rewrite grow_up_hangs by assumption; reflexivity|].
  destruct (U fuel xmx (xmax g) (deltax s) 0%Z) as [([? ?] & ->)| ->]; [|reflexivity]. cbn [bind].
  destruct C as [(L & Nr)|(L & Nr)]; [rewrite grow_down_hangs by assumption; reflexivity|].
  destruct (D fuel ymn (ymin g) (deltay s) 0%Z) as [([? ?] & ->)| ->]; [|reflexivity]. cbn [bind].
  rewrite grow_up_hangs by assumption. reflexivity.
Qed.

(** ** Concrete fields *)
Definition mant (x : spec_float) (e0 : Z) : Z :=
  match x with S754_finite s m e => (if s then - Zpos m else Zpos m) * 2 ^ (e - e0) | _ => 0 end%Z.
Definition above (e0 : Z) (x : spec_float) : bool := match x with S754_finite _ _ e => (e0 <=? e)%Z | _ => true end.

Lemma fval_mant x e0 : above e0 x = true -> fval x = IZR (mant x e0) * powerRZ 2 e0.
Proof.
  destruct x as [s|s| |s m e]; cbn [above fval mant]; intros H; try (rewrite Rmult_0_l; reflexivity).
  apply Z.leb_le in H. rewrite mult_IZR. replace (IZR (2 ^ (e - e0))) with (powerRZ 2 (e - e0)).
  - rewrite Rmult_assoc, <- powerRZ_add by lra. replace (e - e0 + e0)%Z with e by ring. destruct s; [rewrite opp_IZR|]; reflexivity.
  - rewrite <- (Z2Nat.id (e - e0)) by lia. rewrite <- pow_powerRZ, <- pow_IZR. reflexivity.
Qed.

Lemma wide_check d v e0 : above e0 d = true -> above e0 v = true -> (Z.abs (mant v e0) <= mant d e0 * 2 ^ 52)%Z -> wide d v.
Proof.
  intros Hd Hv H. unfold wide. rewrite (fval_mant d e0 Hd), (fval_mant v e0 Hv).
  assert (P : 0 < powerRZ 2 e0) by (apply powerRZ_lt; lra). rewrite Rabs_mult, (Rabs_pos_eq (powerRZ 2 e0)), <- abs_IZR by lra.
  apply IZR_le in H. rewrite mult_IZR in H. change (2 ^ 52)%Z with (2 ^ Z.of_nat 52)%Z in H. rewrite <- pow_IZR in H. nra.
Qed.
Lemma narrow_check d a b e0 : above e0 d = true -> above e0 a = true -> (mant d e0 * 2 ^ 55 <= Z.abs (mant a e0))%Z -> narrow d a b.
Proof.
  intros Hd Ha H. unfold narrow. eapply Rle_trans; [|apply Rmax_l]. rewrite (fval_mant d e0 Hd), (fval_mant a e0 Ha).
  assert (P : 0 < powerRZ 2 e0) by (apply powerRZ_lt; lra). rewrite Rabs_mult, (Rabs_pos_eq (powerRZ 2 e0)), <- abs_IZR by lra.
  apply IZR_le in H. rewrite mult_IZR in H. change (2 ^ 55)%Z with (2 ^ Z.of_nat 55)%Z in H. rewrite <- pow_IZR in H. nra.
Qed.
Lemma positive_check d e0 : above e0 d = true -> (0 < mant d e0)%Z -> 0 < fval d.
Proof. intros Hd H. rewrite (fval_mant d e0 Hd). apply Rmult_lt_0_compat; [apply IZR_lt; exact H|apply powerRZ_lt; lra]. Qed.
Lemma le_check a b e0 : above e0 a = true -> above e0 b = true -> (mant a e0 <= mant b e0)%Z -> fval a <= fval b.
Proof.
  intros Ha Hb H. rewrite (fval_mant a e0 Ha), (fval_mant b e0 Hb). apply Rmult_le_compat_r; [|apply IZR_le; exact H]. apply Rlt_le, powerRZ_lt. lra.
Qed.

(** Spacing 1/10 around (500000, 5000000), and a box of corners with thirds, in binary64. *)
Definition ftenth : spec_float := SFdiv fprec femax (f_of_Z 1) (f_of_Z 10).
Definition fthird (n : Z) : spec_float := SFdiv fprec femax (f_of_Z n) (f_of_Z 3).
Lemma c08_wide_example : forall lm, exists s g,
  @pf_init _ (SF lm) ftenth ftenth (f_of_Z 500000) (f_of_Z 5000000) = Ok s /\ body s = Some g /\
  (ffinite (deltax s) /\ 0 < fval (deltax s)) /\ (ffinite (deltay s) /\ 0 < fval (deltay s)) /\
  (forall v, In v [xmin g; xmax g; fthird 1500000; fthird 1500010] -> ffinite v /\ wide (deltax s) v) /\
  (forall v, In v [ymin g; ymax g; fthird 15000001; fthird 15000010] -> ffinite v /\ wide (deltay s) v) /\
  fst (@expand _ (SF lm) 100 s (fthird 1500000) (fthird 1500010) (fthird 15000001) (fthird 15000010)) <> s.
Proof.
  intros lm. eexists. eexists. split; [vm_compute; reflexivity|]. split; [reflexivity|].
  assert (Q : ffinite ftenth /\ 0 < fval ftenth).
  { split; [split; [vm_compute; reflexivity|exact I]|]. apply (positive_check _ (-60)); [vm_compute; reflexivity|]. vm_compute. reflexivity. }
  split; [exact Q|]. split; [exact Q|]. split; [|split].
  - intros v [<-|[<-|[<-|[<-|[]]]]]; (split; [split; [vm_compute; reflexivity|exact I]|]; apply (wide_check _ _ (-60)); vm_compute; try reflexivity; discriminate).
  - intros v [<-|[<-|[<-|[<-|[]]]]]; (split; [split; [vm_compute; reflexivity|exact I]|]; apply (wide_check _ _ (-60)); vm_compute; try reflexivity; discriminate).
  - vm_compute. discriminate.
Qed.

(** Spacing 1 around the origin and a box at (2^60, 0): the grid would have to grow to where adding 1 has no effect. *)
Lemma c08_narrow_example : forall lm, exists s g,
  @pf_init _ (SF lm) (f_of_Z 1) (f_of_Z 1) (f_of_Z 0) (f_of_Z 0) = Ok s /\ body s = Some g /\
  (ffinite (deltax s) /\ 0 < fval (deltax s)) /\
  (forall v, In v [xmin g; xmax g; ymin g; ymax g; f_of_Z 0; f_of_Z (2 ^ 60)] -> ffinite v) /\
  fval (xmax g) <= fval (f_of_Z (2 ^ 60)) /\ narrow (deltax s) (f_of_Z (2 ^ 60)) (xmax g).
Proof.
  intros lm. eexists. eexists. split; [vm_compute; reflexivity|]. split; [reflexivity|]. split; [|split; [|split]].
  - split; [split; [vm_compute; reflexivity|exact I]|]. apply (positive_check _ (-60)); vm_compute; reflexivity.
  - intros v [<-|[<-|[<-|[<-|[<-|[<-|[]]]]]]]; (split; [vm_compute; reflexivity|exact I]).
  - apply (le_check _ _ (-60)); vm_compute; try reflexivity. discriminate.
  - apply (narrow_check _ _ _ (-60)); vm_compute; try reflexivity. discriminate.
Qed.
