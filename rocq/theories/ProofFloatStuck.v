(** * The growth loops in binary64: exactly when they do not end *)
From Coq Require Import ZArith Reals Lra Lia SpecFloat List Bool Classical_Prop.
From Flocq Require Import Core BinarySingleNaN.
From Verif Require Import Py Num ModelField SpecFloats SpecStuck ProofOps ProofFloat ProofFloatGrow.
Import ListNotations.
Local Open Scope R_scope.

Local Notation fx := (FLT_exp (-1074) 53).
Local Notation F := (generic_format radix2 fx).
Local Notation rd := (round radix2 fx ZnearestE).
Local Instance P53 : Prec_gt_0 53. Proof. reflexivity. Qed.

Lemma lowered_S d k e : lowered d (S k) e = lowered d k (SFsub fprec femax e d).
Proof. unfold lowered. induction k as [|k IH]; [reflexivity|]. cbn in *. rewrite IH. reflexivity. Qed.
Lemma raised_S d k e : raised d (S k) e = raised d k (SFadd fprec femax e d).
Proof. unfold raised. induction k as [|k IH]; [reflexivity|]. cbn in *. rewrite IH. reflexivity. Qed.

Lemma rd_down y d : F y -> 0 < d -> rd (y - d) <= y.
Proof. intros. apply round_le_generic; [typeclasses eauto|typeclasses eauto|assumption|lra]. Qed.
Lemma rd_up y d : F y -> 0 < d -> y <= rd (y + d).
Proof. intros. apply round_ge_generic; [typeclasses eauto|typeclasses eauto|assumption|lra]. Qed.

(** ** The loops *)
Lemma grow_down_moves lm x d : ffinite x -> ffinite d -> 0 < fval d ->
  forall k lo, ffinite lo -> fval lo < fval x + INR k * bpow radix2 (-1074) -> ~ stuck_below d x lo ->
  forall fuel n, (k < fuel)%nat -> exists r, @grow_down _ (SF lm) fuel x lo d n = Ok r.
Proof.
  intros Hx Hd Pd. induction k as [|k IH]; intros lo Hlo L NS [|fuel] n Hk; try lia; cbn [grow_down nle SF]; rewrite fleb by assumption.
  - cbn [INR] in L. rewrite Rle_bool_false by lra. eauto.
  - destruct (Rle_bool_spec (fval x) (fval lo)) as [Q|Q]; [|eauto]. cbn [nsub SF].
    destruct (fsub lo d Hlo Hd Pd) as [(E & _)|(Fs & E)].
    + destruct fuel as [|fuel]; [lia|]. cbn [grow_down nle SF]. rewrite E.
      replace (SFleb x (S754_infinity true)) with false; [eauto|]. destruct Hx as (_ & Hx). destruct x as [s|s| |s m e]; try contradiction; reflexivity.
    + assert (S : fval (SFsub fprec femax lo d) < fval lo).
      { destruct (Req_dec (fval (SFsub fprec femax lo d)) (fval lo)) as [Z|Z]; [destruct NS; exists 0%nat; auto|].
        pose proof (rd_down (fval lo) (fval d) (F_of _ Hlo) Pd). lra. }
      set (lo' := SFsub fprec femax lo d) in *.
      destruct (multiple _ (F_of _ Hlo)) as (a & Ea). destruct (multiple _ (F_of _ Fs)) as (b & Eb).
      pose proof (bpow_gt_0 radix2 (-1074)) as B.
      assert (b <= a - 1)%Z. { rewrite Ea, Eb in S. apply Rmult_lt_reg_r in S; [|exact B]. apply lt_IZR in S. lia. }
      assert (Dr : fval lo' <= fval lo - bpow radix2 (-1074)).
      { rewrite Ea, Eb. assert (IZR b <= IZR a - 1) by (rewrite <- minus_IZR; apply IZR_le; lia). nra. }
      rewrite S_INR in L. apply (IH lo' Fs); [lra| |lia].
      intros (j & J). apply NS. exists (Datatypes.S j). rewrite lowered_S. exact J.
Qed.
Lemma grow_up_moves lm x d : ffinite x -> ffinite d -> 0 < fval d ->
  forall k hi, ffinite hi -> fval x < fval hi + INR k * bpow radix2 (-1074) -> ~ stuck_above d x hi ->
  forall fuel n, (k < fuel)%nat -> exists r, @grow_up _ (SF lm) fuel x hi d n = Ok r.
Proof.
  intros Hx Hd Pd. induction k as [|k IH]; intros lo Hlo L NS [|fuel] n Hk; try lia; cbn [grow_up nle SF]; rewrite fleb by assumption.
  - cbn [INR] in L. rewrite Rle_bool_false by lra. eauto.
  - destruct (Rle_bool_spec (fval lo) (fval x)) as [Q|Q]; [|eauto]. cbn [nadd SF].
    destruct (fadd lo d Hlo Hd Pd) as [(E & _)|(Fs & E)].
    + destruct fuel as [|fuel]; [lia|]. cbn [grow_up nle SF]. rewrite E.
      replace (SFleb (S754_infinity false) x) with false; [eauto|]. destruct Hx as (_ & Hx). destruct x as [s|s| |s m e]; try contradiction; try reflexivity; destruct s; reflexivity.
    + assert (S : fval lo < fval (SFadd fprec femax lo d)).
      { destruct (Req_dec (fval (SFadd fprec femax lo d)) (fval lo)) as [Z|Z]; [destruct NS; exists 0%nat; auto|].
        pose proof (rd_up (fval lo) (fval d) (F_of _ Hlo) Pd). lra. }
      set (lo' := SFadd fprec femax lo d) in *.
      destruct (multiple _ (F_of _ Hlo)) as (a & Ea). destruct (multiple _ (F_of _ Fs)) as (b & Eb).
      pose proof (bpow_gt_0 radix2 (-1074)) as B.
      assert (a + 1 <= b)%Z. { rewrite Ea, Eb in S. apply Rmult_lt_reg_r in S; [|exact B]. apply lt_IZR in S. lia. }
      assert (Dr : fval lo + bpow radix2 (-1074) <= fval lo').
      { rewrite Ea, Eb. assert (IZR a + 1 <= IZR b) by (rewrite <- plus_IZR; apply IZR_le; lia). nra. }
      rewrite S_INR in L. apply (IH lo' Fs); [lra| |lia].
      intros (j & J). apply NS. exists (Datatypes.S j). rewrite raised_S. exact J.
Qed.

(** An edge at a fixed point stays there. *)
Lemma grow_down_fixed lm x d e : ffinite x -> ffinite d -> 0 < fval d -> ffinite e -> fval x <= fval e -> fval (SFsub fprec femax e d) = fval e -> ffinite (SFsub fprec femax e d) ->
  forall fuel n lo, ffinite lo -> fval lo = fval e -> @grow_down _ (SF lm) fuel x lo d n = NoFuel.
Proof.
  intros Hx Hd Pd He L Fix Ff. assert (Rf : rd (fval e - fval d) = fval e).
  { destruct (fsub e d He Hd Pd) as [(E & _)|(_ & E)]; [rewrite E in Ff; destruct Ff as (_ & [])|congruence]. }
  induction fuel as [|fuel IH]; intros n lo Hlo El; [reflexivity|]. cbn [grow_down nle SF nsub]. rewrite fleb by assumption. rewrite Rle_bool_true by lra.
  destruct (fsub lo d Hlo Hd Pd) as [(_ & E)|(Fs & E)]; [|apply IH; [exact Fs|congruence]].
  exfalso. rewrite El, Rf in E. pose proof (small e He). lra.
Qed.
Lemma grow_up_fixed lm x d e : ffinite x -> ffinite d -> 0 < fval d -> ffinite e -> fval e <= fval x -> fval (SFadd fprec femax e d) = fval e -> ffinite (SFadd fprec femax e d) ->
  forall fuel n lo, ffinite lo -> fval lo = fval e -> @grow_up _ (SF lm) fuel x lo d n = NoFuel.
Proof.
  intros Hx Hd Pd He L Fix Ff. assert (Rf : rd (fval e + fval d) = fval e).
  { destruct (fadd e d He Hd Pd) as [(E & _)|(_ & E)]; [rewrite E in Ff; destruct Ff as (_ & [])|congruence]. }
  induction fuel as [|fuel IH]; intros n lo Hlo El; [reflexivity|]. cbn [grow_up nle SF nadd]. rewrite fleb by assumption. rewrite Rle_bool_true by lra.
  destruct (fadd lo d Hlo Hd Pd) as [(_ & E)|(Fs & E)]; [|apply IH; [exact Fs|congruence]].
  exfalso. rewrite El, Rf in E. pose proof (small e He). lra.
Qed.

(** An infinite edge has value 0 in [fval]; a stuck edge is finite. *)
Lemma sub_zero_ffinite e d : ffinite e -> ffinite d -> 0 < fval d -> fval (SFsub fprec femax e d) = fval e -> ffinite (SFsub fprec femax e d).
Proof.
  intros He Hd Pd Fx. destruct (fsub e d He Hd Pd) as [(E & O)|(Fs & _)]; [|exact Fs]. exfalso. rewrite E in Fx. cbn [fval] in Fx. rewrite <- Fx in O.
  assert (F (- fval d)) by (apply generic_format_opp, F_of, Hd). replace (0 - fval d) with (- fval d) in O by ring. rewrite round_generic in O by (try typeclasses eauto; assumption).
  rewrite Rabs_Ropp in O. pose proof (small d Hd). lra.
Qed.
Lemma add_zero_ffinite e d : ffinite e -> ffinite d -> 0 < fval d -> fval (SFadd fprec femax e d) = fval e -> ffinite (SFadd fprec femax e d).
Proof.
  intros He Hd Pd Fx. destruct (fadd e d He Hd Pd) as [(E & O)|(Fs & _)]; [|exact Fs]. exfalso. rewrite E in Fx. cbn [fval] in Fx. rewrite <- Fx in O.
  rewrite Rplus_0_l in O. rewrite round_generic in O by (try typeclasses eauto; apply F_of; exact Hd). pose proof (small d Hd). lra.
Qed.

Lemma sub_inf d : ffinite d -> SFsub fprec femax (S754_infinity true) d = S754_infinity true.
Proof. intros (_ & H). destruct d; try contradiction; reflexivity. Qed.
Lemma add_inf d : ffinite d -> SFadd fprec femax (S754_infinity false) d = S754_infinity false.
Proof. intros (_ & H). destruct d; try contradiction; reflexivity. Qed.

Lemma lowered_below d k : ffinite d -> 0 < fval d -> forall e, ffinite e -> ffinite (lowered d k e) -> fval (lowered d k e) <= fval e.
Proof.
  intros Hd Pd. induction k as [|k IH]; intros e He Hk; [cbn; lra|]. rewrite lowered_S in *.
  destruct (fsub e d He Hd Pd) as [(E & _)|(Fs & E)].
  - exfalso. rewrite E in Hk. clear - Hk Hd. assert (Q : lowered d k (S754_infinity true) = S754_infinity true).
    { induction k as [|k IH]; [reflexivity|]. rewrite lowered_S, (sub_inf d Hd). apply IH. rewrite lowered_S, (sub_inf d Hd) in Hk. exact Hk. }
    rewrite Q in Hk. destruct Hk as (_ & []).
  - specialize (IH _ Fs Hk). pose proof (rd_down (fval e) (fval d) (F_of _ He) Pd). lra.
Qed.
Lemma raised_above d k : ffinite d -> 0 < fval d -> forall e, ffinite e -> ffinite (raised d k e) -> fval e <= fval (raised d k e).
Proof.
  intros Hd Pd. induction k as [|k IH]; intros e He Hk; [cbn; lra|]. rewrite raised_S in *.
  destruct (fadd e d He Hd Pd) as [(E & _)|(Fs & E)].
  - exfalso. rewrite E in Hk. clear - Hk Hd. assert (Q : raised d k (S754_infinity false) = S754_infinity false).
    { induction k as [|k IH]; [reflexivity|]. rewrite raised_S, (add_inf d Hd). apply IH. rewrite raised_S, (add_inf d Hd) in Hk. exact Hk. }
    rewrite Q in Hk. destruct Hk as (_ & []).
  - specialize (IH _ Fs Hk). pose proof (rd_up (fval e) (fval d) (F_of _ He) Pd). lra.
Qed.

Lemma grow_down_stuck lm x d : ffinite x -> ffinite d -> 0 < fval d -> forall lo, ffinite lo -> stuck_below d x lo -> forall fuel n, @grow_down _ (SF lm) fuel x lo d n = NoFuel.
Proof.
  intros Hx Hd Pd lo Hlo (k & K1 & K2 & K3). revert lo Hlo K1 K2 K3. induction k as [|k IH]; intros lo Hlo K1 K2 K3 fuel n.
  - cbn in K1, K2, K3. eapply grow_down_fixed; try eassumption; [|reflexivity]. apply sub_zero_ffinite; assumption.
  - rewrite lowered_S in *. destruct fuel as [|fuel]; [reflexivity|]. cbn [grow_down nle SF nsub]. rewrite fleb by assumption.
    destruct (fsub lo d Hlo Hd Pd) as [(E & _)|(Fs & E)].
    + exfalso. rewrite E in K1. clear - K1 Hd. assert (Q : lowered d k (S754_infinity true) = S754_infinity true).
      { induction k as [|k IH]; [reflexivity|]. rewrite lowered_S, (sub_inf d Hd). apply IH. rewrite lowered_S, (sub_inf d Hd) in K1. exact K1. }
      rewrite Q in K1. destruct K1 as (_ & []).
    + pose proof (lowered_below d k Hd Pd _ Fs K1). pose proof (rd_down (fval lo) (fval d) (F_of _ Hlo) Pd). rewrite Rle_bool_true by lra. apply IH; assumption.
Qed.
Lemma grow_up_stuck lm x d : ffinite x -> ffinite d -> 0 < fval d -> forall hi, ffinite hi -> stuck_above d x hi -> forall fuel n, @grow_up _ (SF lm) fuel x hi d n = NoFuel.
Proof.
  intros Hx Hd Pd lo Hlo (k & K1 & K2 & K3). revert lo Hlo K1 K2 K3. induction k as [|k IH]; intros lo Hlo K1 K2 K3 fuel n.
  - cbn in K1, K2, K3. eapply grow_up_fixed; try eassumption; [|reflexivity]. apply add_zero_ffinite; assumption.
  - rewrite raised_S in *. destruct fuel as [|fuel]; [reflexivity|]. cbn [grow_up nle SF nadd]. rewrite fleb by assumption.
    destruct (fadd lo d Hlo Hd Pd) as [(E & _)|(Fs & E)].
    + exfalso. rewrite E in K1. clear - K1 Hd. assert (Q : raised d k (S754_infinity false) = S754_infinity false).
      { induction k as [|k IH]; [reflexivity|]. rewrite raised_S, (add_inf d Hd). apply IH. rewrite raised_S, (add_inf d Hd) in K1. exact K1. }
      rewrite Q in K1. destruct K1 as (_ & []).
    + pose proof (raised_above d k Hd Pd _ Fs K1). pose proof (rd_up (fval lo) (fval d) (F_of _ Hlo) Pd). rewrite Rle_bool_true by lra. apply IH; assumption.
Qed.

(** ** C08 *)

(** For every binary64 field and finite box: [expand] runs for ever exactly if on one of the four sides the edge comes, before it passes the box, to a number that the
    spacing no longer changes; otherwise enough fuel makes it return. *)
Lemma c08_exactly_partial : forall lm (s : pfield spec_float) g xmn xmx ymn ymx,
  body s = Some g -> ffinite (deltax s) -> ffinite (deltay s) -> 0 < fval (deltax s) -> 0 < fval (deltay s) ->
  ffinite xmn -> ffinite xmx -> ffinite ymn -> ffinite ymx -> fval xmn <= fval xmx -> fval ymn <= fval ymx ->
  ffinite (xmin g) -> ffinite (xmax g) -> ffinite (ymin g) -> ffinite (ymax g) ->
  let stuck := stuck_below (deltax s) xmn (xmin g) \/ stuck_above (deltax s) xmx (xmax g) \/
               stuck_below (deltay s) ymn (ymin g) \/ stuck_above (deltay s) ymx (ymax g) in
  (stuck -> forall fuel, snd (@expand _ (SF lm) fuel s xmn xmx ymn ymx) = NoFuel) /\
  (~ stuck -> exists n, forall fuel, (n <= fuel)%nat -> snd (@expand _ (SF lm) fuel s xmn xmx ymn ymx) = Ok tt).
Proof.
  intros lm s g xmn xmx ymn ymx Eb Fdx Fdy Pdx Pdy F1 F2 F3 F4 Lx Ly G1 G2 G3 G4 stuck.
  assert (Lt : forall a b, ffinite a -> ffinite b -> fval a <= fval b -> SFltb b a = false).
  { intros a b Ha Hb L. destruct (finite_b a Ha) as (a' & -> & Fa & Ea). destruct (finite_b b Hb) as (b' & -> & Fb & Eb'). rewrite <- Ea, <- Eb' in L.
    change (Bltb b' a' = false). rewrite Bltb_correct by assumption. apply Rlt_bool_false. exact L. }
  split.
  - intros C fuel. unfold expand. cbn [nlt SF]. rewrite (Lt _ _ F1 F2 Lx), (Lt _ _ F3 F4 Ly), Eb.
    assert (D : forall f x lo d n, (exists r, @grow_down _ (SF lm) f x lo d n = Ok r) \/ @grow_down _ (SF lm) f x lo d n = NoFuel).
    { induction f; intros; cbn [grow_down]; [auto|]. destruct (nle _ _); eauto. }
    assert (U : forall f x lo d n, (exists r, @grow_up _ (SF lm) f x lo d n = Ok r) \/ @grow_up _ (SF lm) f x lo d n = NoFuel).
    { induction f; intros; cbn [grow_up]; [auto|]. destruct (nle _ _); eauto. }
    unfold expand_more.
    destruct C as [C|C]; [rewrite grow_down_stuck by assumption; reflexivity|].
    destruct (D fuel xmn (xmin g) (deltax s) 0%Z) as [([? ?] & ->)| ->]; [|reflexivity]. cbn [bind].
    destruct C as [C|C]; [rewrite grow_up_stuck by assumption; reflexivity|].
    destruct (U fuel xmx (xmax g) (deltax s) 0%Z) as [([? ?] & ->)| ->]; [|reflexivity]. cbn [bind].
    destruct C as [C|C]; [rewrite grow_down_stuck by assumption; reflexivity|].
    destruct (D fuel ymn (ymin g) (deltay s) 0%Z) as [([? ?] & ->)| ->]; [|reflexivity]. cbn [bind].
    rewrite grow_up_stuck by assumption. reflexivity.
  - intros NS. assert (N1 : ~ stuck_below (deltax s) xmn (xmin g)) by (intros H; apply NS; unfold stuck; tauto).
    assert (N2 : ~ stuck_above (deltax s) xmx (xmax g)) by (intros H; apply NS; unfold stuck; tauto).
    assert (N3 : ~ stuck_below (deltay s) ymn (ymin g)) by (intros H; apply NS; unfold stuck; tauto).
    assert (N4 : ~ stuck_above (deltay s) ymx (ymax g)) by (intros H; apply NS; unfold stuck; tauto).
    destruct (enough (fval (xmin g)) (fval xmn)) as (k1 & K1). destruct (enough (fval xmx) (fval (xmax g))) as (k2 & K2).
    destruct (enough (fval (ymin g)) (fval ymn)) as (k3 & K3). destruct (enough (fval ymx) (fval (ymax g))) as (k4 & K4).
    exists (S (k1 + k2 + k3 + k4)). intros fuel Hf. unfold expand. cbn [nlt SF]. rewrite (Lt _ _ F1 F2 Lx), (Lt _ _ F3 F4 Ly), Eb. unfold expand_more.
    destruct (grow_down_moves lm xmn _ F1 Fdx Pdx k1 _ G1 K1 N1 fuel 0%Z) as ([? ?] & ->); [lia|]. cbn [bind].
    destruct (grow_up_moves lm xmx _ F2 Fdx Pdx k2 _ G2 K2 N2 fuel 0%Z) as ([? ?] & ->); [lia|]. cbn [bind].
    destruct (grow_down_moves lm ymn _ F3 Fdy Pdy k3 _ G3 K3 N3 fuel 0%Z) as ([? ?] & ->); [lia|]. cbn [bind].
    destruct (grow_up_moves lm ymx _ F4 Fdy Pdy k4 _ G4 K4 N4 fuel 0%Z) as ([? ?] & ->); [lia|]. cbn [bind].
    destruct (_ || _); reflexivity.
Qed.

Lemma next_below e : ffinite e -> Rabs (fval e) < bpow radix2 1023 -> exists f, ffinite f /\ fval f = pred radix2 fx (fval e).
Proof.
  intros He B. destruct (finite_b e He) as (b & -> & Fb & Eb). pose proof (Bpred_correct fprec femax ProofFloat.Hprec ProofFloat.Hmax b Fb) as H.
  change (SpecFloat.fexp fprec femax) with fx in H. assert (Q : - bpow radix2 1023 <= pred radix2 fx (B2R b)).
  { rewrite Eb. rewrite <- (pred_succ radix2 fx (- bpow radix2 1023)) by (apply generic_format_opp, generic_format_bpow; cbn; lia).
    apply pred_le; [typeclasses eauto|apply generic_format_succ; [typeclasses eauto|apply generic_format_opp, generic_format_bpow; cbn; lia]|apply F_of; exact He|].
    apply succ_le_lt; [typeclasses eauto|apply generic_format_opp, generic_format_bpow; cbn; lia|apply F_of; exact He|]. apply Rabs_lt_inv in B. lra. }
  assert (bpow radix2 1023 < bpow radix2 1024) by (apply bpow_lt; lia).
  rewrite Rlt_bool_true in H by (apply Rlt_le_trans with (- bpow radix2 1023); [apply Ropp_lt_contravar, bpow_lt; reflexivity|exact Q]). destruct H as (H1 & H2 & _). destruct (b_finite _ H2) as (A1 & A2). eexists. split; [exact A1|]. rewrite A2, H1, Eb. reflexivity.
Qed.
Lemma next_above e : ffinite e -> Rabs (fval e) < bpow radix2 1023 -> exists f, ffinite f /\ fval f = succ radix2 fx (fval e).
Proof.
  intros He B. destruct (finite_b e He) as (b & -> & Fb & Eb). pose proof (Bsucc_correct fprec femax ProofFloat.Hprec ProofFloat.Hmax b Fb) as H.
  change (SpecFloat.fexp fprec femax) with fx in H. assert (Q : succ radix2 fx (B2R b) <= bpow radix2 1023).
  { rewrite Eb. apply succ_le_lt; [typeclasses eauto|apply F_of; exact He|apply generic_format_bpow; cbn; lia|]. apply Rabs_lt_inv in B. lra. }
  assert (bpow radix2 1023 < bpow radix2 1024) by (apply bpow_lt; lia).
  rewrite Rlt_bool_true in H by (apply Rle_lt_trans with (bpow radix2 1023); [exact Q|apply bpow_lt; reflexivity]). destruct H as (H1 & H2 & _). destruct (b_finite _ H2) as (A1 & A2). eexists. split; [exact A1|]. rewrite A2, H1, Eb. reflexivity.
Qed.

(** Where an edge does not move: where the spacing is less than half the distance to the next number on that side, and nowhere that it is more than half of it
    (a tie may go either way). *)
Lemma c08_fixed_partial : forall e d, ffinite e -> ffinite d -> 0 < fval d -> Rabs (fval e) < 2 ^ 1023 ->
  ((forall f, ffinite f -> fval f < fval e -> 2 * fval d < fval e - fval f) -> fval (SFsub fprec femax e d) = fval e) /\
  (fval (SFsub fprec femax e d) = fval e -> forall f, ffinite f -> fval f < fval e -> 2 * fval d <= fval e - fval f) /\
  ((forall f, ffinite f -> fval e < fval f -> 2 * fval d < fval f - fval e) -> fval (SFadd fprec femax e d) = fval e) /\
  (fval (SFadd fprec femax e d) = fval e -> forall f, ffinite f -> fval e < fval f -> 2 * fval d <= fval f - fval e).
Proof.
  intros e d He Hd Pd B. assert (B' : Rabs (fval e) < bpow radix2 1023) by (rewrite bpow_powerRZ; change 1023%Z with (Z.of_nat 1023); rewrite <- pow_powerRZ; exact B). clear B.
  assert (B2 : bpow radix2 1023 < bpow radix2 1024) by (apply bpow_lt; lia).
  assert (Nz : forall x, F x -> pred radix2 fx x < x) by (intros x Fx; destruct (Req_dec x 0) as [->|]; [rewrite pred_0; rewrite ulp_FLT_0 by reflexivity; pose proof (bpow_gt_0 radix2 (-1074)); lra|apply pred_lt_id; assumption]).
  assert (Nu : forall x, F x -> x < succ radix2 fx x) by (intros x Fx; destruct (Req_dec x 0) as [->|]; [rewrite succ_0; rewrite ulp_FLT_0 by reflexivity; pose proof (bpow_gt_0 radix2 (-1074)); lra|apply succ_gt_id; assumption]).
  split; [|split; [|split]].
  - intros H. destruct (next_below e He B') as (f & Ff & Ef). specialize (H f Ff). rewrite Ef in H. specialize (H (Nz _ (F_of _ He))).
    assert (Q : rd (fval e - fval d) = fval e). { apply Rle_antisym; [apply rd_down; [apply F_of; exact He|exact Pd]|]. apply round_N_ge_midp; [typeclasses eauto|apply F_of; exact He|lra]. }
    destruct (fsub e d He Hd Pd) as [(_ & O)|(_ & E)]; [rewrite Q in O; lra|congruence].
  - intros H f Ff Lf. pose proof (sub_zero_ffinite e d He Hd Pd H) as Fs. destruct (fsub e d He Hd Pd) as [(E & _)|(_ & E)]; [rewrite E in Fs; destruct Fs as (_ & [])|]. rewrite H in E.
    destruct (Rle_or_lt (2 * fval d) (fval e - fval f)) as [|C]; [assumption|exfalso].
    pose proof (round_N_pt radix2 fx (fun x => negb (Z.even x)) (fval e - fval d)) as (_ & Nn). rewrite <- E in Nn. specialize (Nn (fval f) (F_of _ Ff)).
    replace (fval e - (fval e - fval d)) with (fval d) in Nn by ring. rewrite (Rabs_pos_eq (fval d)) in Nn by lra. unfold Rabs in Nn. destruct (Rcase_abs (fval f - (fval e - fval d))); lra.
  - intros H. destruct (next_above e He B') as (f & Ff & Ef). specialize (H f Ff). rewrite Ef in H. specialize (H (Nu _ (F_of _ He))).
    assert (Q : rd (fval e + fval d) = fval e). { apply Rle_antisym; [|apply rd_up; [apply F_of; exact He|exact Pd]]. apply round_N_le_midp; [typeclasses eauto|apply F_of; exact He|lra]. }
    destruct (fadd e d He Hd Pd) as [(_ & O)|(_ & E)]; [rewrite Q in O; lra|congruence].
  - intros H f Ff Lf. pose proof (add_zero_ffinite e d He Hd Pd H) as Fs. destruct (fadd e d He Hd Pd) as [(E & _)|(_ & E)]; [rewrite E in Fs; destruct Fs as (_ & [])|]. rewrite H in E.
    destruct (Rle_or_lt (2 * fval d) (fval f - fval e)) as [|C]; [assumption|exfalso].
    pose proof (round_N_pt radix2 fx (fun x => negb (Z.even x)) (fval e + fval d)) as (_ & Nn). rewrite <- E in Nn. specialize (Nn (fval f) (F_of _ Ff)).
    replace (fval e - (fval e + fval d)) with (- fval d) in Nn by ring. rewrite Rabs_Ropp, (Rabs_pos_eq (fval d)) in Nn by lra. unfold Rabs in Nn. destruct (Rcase_abs (fval f - (fval e + fval d))); lra.
Qed.

(** Spacing 2^-53 around 1 - 3 * 2^-53, neither wide nor narrow: up to 1.5 the edge is stuck at 1 after two steps; down to 1 - 10 * 2^-53 the grid grows and [expand] returns. *)
Definition tiny_step : spec_float := S754_finite false 4503599627370496 (-105).
Definition below_one (k : Z) : spec_float := SFsub fprec femax (f_of_Z 1) (SFmul fprec femax (f_of_Z k) tiny_step).
Definition one_half : spec_float := SFdiv fprec femax (f_of_Z 3) (f_of_Z 2).
Lemma c08_exactly_example : forall lm, exists s g, @pf_init _ (SF lm) tiny_step tiny_step (below_one 3) (below_one 3) = Ok s /\ body s = Some g /\
  (ffinite (deltax s) /\ 0 < fval (deltax s)) /\ (forall v, In v [xmin g; xmax g; ymin g; ymax g; one_half; below_one 5; below_one 10] -> ffinite v) /\
  ~ wide (deltax s) (below_one 10) /\ ~ narrow (deltax s) one_half one_half /\
  stuck_above (deltax s) one_half (xmax g) /\
  exists s', @expand _ (SF lm) 100 s (below_one 10) (below_one 5) (below_one 10) (below_one 5) = (s', Ok tt) /\ s' <> s.
Proof.
  intros lm. eexists. eexists. split; [vm_compute; reflexivity|]. split; [reflexivity|]. cbn [deltax xmin xmax ymin ymax].
  assert (Q : 0 < fval tiny_step) by (apply (positive_check _ (-110)); vm_compute; reflexivity).
  assert (P : 0 < powerRZ 2 (-110)) by (apply powerRZ_lt; lra).
  split; [split; [split; [vm_compute; reflexivity|exact I]|exact Q]|].
  split; [intros v [<-|[<-|[<-|[<-|[<-|[<-|[<-|[]]]]]]]]; (split; [vm_compute; reflexivity|exact I])|].
  split; [|split; [|split]].
  - intros W. unfold wide in W. rewrite (fval_mant _ (-110)), (fval_mant (S754_finite _ _ _) (-110)) in W by (vm_compute; reflexivity).
    rewrite Rabs_mult, (Rabs_pos_eq (powerRZ 2 _)), <- abs_IZR, (pow_IZR 2) in W by lra.
    replace (IZR (mant (S754_finite false 4503599627370496 (-105)) (-110)) * powerRZ 2 (-110) * IZR (2 ^ Z.of_nat 52)) with
      (IZR (mant (S754_finite false 4503599627370496 (-105)) (-110) * 2 ^ Z.of_nat 52) * powerRZ 2 (-110)) in W by (rewrite mult_IZR; ring).
    apply Rmult_le_reg_r in W; [|exact P]. apply le_IZR in W. revert W. vm_compute. congruence.
  - intros W. unfold narrow in W. rewrite Rmax_left in W by lra. rewrite (fval_mant one_half (-110)), (fval_mant (S754_finite _ _ _) (-110)) in W by (vm_compute; reflexivity).
    rewrite Rabs_mult, (Rabs_pos_eq (powerRZ 2 _)), <- abs_IZR, (pow_IZR 2) in W by lra.
    replace (IZR (mant (S754_finite false 4503599627370496 (-105)) (-110)) * powerRZ 2 (-110) * IZR (2 ^ Z.of_nat 55)) with
      (IZR (mant (S754_finite false 4503599627370496 (-105)) (-110) * 2 ^ Z.of_nat 55) * powerRZ 2 (-110)) in W by (rewrite mult_IZR; ring).
    apply Rmult_le_reg_r in W; [|exact P]. apply le_IZR in W. revert W. vm_compute. congruence.
  - exists 2%nat. split; [split; [vm_compute; reflexivity|vm_compute; exact I]|]. split; [apply (le_check _ _ (-110)); vm_compute; try reflexivity; discriminate|].
    match goal with |- fval ?a = fval ?b => assert (E : a = b) by (vm_compute; reflexivity); rewrite E; reflexivity end.
  - eexists. split; [vm_compute; reflexivity|discriminate].
Qed.
