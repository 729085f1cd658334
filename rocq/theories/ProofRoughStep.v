(** * One Dormand-Prince step in binary64 *)
From Coq Require Import ZArith Reals Lra Lia SpecFloat List Psatz.
From Flocq Require Import Core.
From Verif Require Import Py Num NumXR ModelAquifer ModelTrace SpecFloats SpecExact SpecTrace SpecPathline SpecPathZone SpecWater SpecRough
  ProofFloat ProofFloatGrow ProofFloatOps ProofFloatMean ProofFloatGrid ProofDistError ProofFloatDist
  ProofAquifer ProofTrace ProofPathline ProofPathTube ProofRoughFloat.
Import ListNotations.
Local Open Scope R_scope.

Local Notation fadd := (SFadd fprec femax).
Local Notation fmul := (SFmul fprec femax).

Lemma huge_bpow : huge = bpow radix2 200.
Proof. unfold huge. rewrite bpow_powerRZ. change 200%Z with (Z.of_nat 200). apply pow_powerRZ. Qed.
Lemma minute_bpow : minute = bpow radix2 (-700).
Proof. unfold minute. change (-700)%Z with (- Z.of_nat 700)%Z. rewrite bpow_opp. f_equal. rewrite bpow_powerRZ. apply pow_powerRZ. Qed.
Lemma kk_bpow : kk = bpow radix2 (-53).
Proof. unfold kk. change (-53)%Z with (- Z.of_nat 53)%Z. rewrite bpow_opp. f_equal. rewrite bpow_powerRZ. apply pow_powerRZ. Qed.
Lemma minute_pos : 0 < minute. Proof. rewrite minute_bpow. apply bpow_gt_0. Qed.
Lemma huge_one : 1 <= huge. Proof. rewrite huge_bpow. change 1 with (bpow radix2 0). apply bpow_le. lia. Qed.
Lemma hh_one : hh <= 1. Proof. unfold hh. change 1 with (bpow radix2 0). apply bpow_le. lia. Qed.

Lemma stage_coord W X h0 As ps x h : 0 <= W <= huge -> minute <= X <= huge -> Forall2 (factor W) As ps -> ps <> [] -> (length As <= 5)%nat -> weight As <= 25 ->
  ffinite x -> Rabs (fval x) <= X -> ffinite h -> fval h = h0 -> 0 <= h0 <= huge ->
  let y := fadd x (fmul h (fcomb ps)) in
  ffinite y /\ Rabs (fval y - (fval x + h0 * rcomb As)) <= 5 / 4 * kk * X + 320 * kk * (h0 * W).
Proof.
  apply (stage_err huge minute).
  - exact huge_one.
  - rewrite huge_bpow. change 1024 with (bpow radix2 10). rewrite <- bpow_plus. apply bpow_le. lia.
  - rewrite huge_bpow. change 2048 with (bpow radix2 11). rewrite <- bpow_plus. apply bpow_le. lia.
  - rewrite huge_bpow. change 1024 with (bpow radix2 10). rewrite <- !bpow_plus. apply bpow_le. lia.
  - rewrite huge_bpow. change 2048 with (bpow radix2 11). rewrite <- !bpow_plus. apply bpow_le. lia.
  - exact minute_pos.
  - rewrite huge_bpow, minute_bpow, kk_bpow. unfold hh. apply Rle_trans with (bpow radix2 8 * (bpow radix2 200 * bpow radix2 (-1075))).
    + apply Rmult_le_compat_r; [apply Rmult_le_pos; apply bpow_ge_0|]. change (bpow radix2 8) with 256. lra.
    + rewrite <- !bpow_plus. apply bpow_le. lia.
  - exact hh_one.
Qed.

(** A coefficient and its value. *)
Definition coef (c : R * spec_float) : Prop := ffinite (snd c) /\ Rabs (fval (snd c) - fst c) <= 2 * kk * Rabs (fst c).
Lemma lit_coef lm p (qq : positive) : (Z.abs p <= 400000)%Z -> (Z.pos qq <= 400000)%Z -> p <> 0%Z -> coef (IZR p / IZR (Z.pos qq), @nlit _ (SF lm) p qq).
Proof.
  intros Hp Hq Np. cbn [nlit SF]. set (q := Z.pos qq) in *. assert (Hq1 : (1 <= q)%Z) by (unfold q; lia). destruct (of_small p ltac:(lia)) as (F1 & E1). destruct (of_small q ltac:(lia)) as (F2 & E2).
  assert (Pq : 1 <= IZR q <= 400000) by (split; apply IZR_le; lia).
  assert (Ap : 1 <= Rabs (IZR p) <= 400000) by (rewrite <- abs_IZR; split; apply IZR_le; lia).
  assert (Ad : Rabs (IZR p / IZR q) = Rabs (IZR p) / IZR q) by (unfold Rdiv; rewrite Rabs_mult, (Rabs_pos_eq (/ IZR q)); [reflexivity|left; apply Rinv_0_lt_compat; lra]).
  assert (Iq : / 400000 <= / IZR q <= 1) by (split; [apply Rinv_le_contravar; lra|rewrite <- Rinv_1; apply Rinv_le_contravar; lra]).
  assert (Bd : / 400000 <= Rabs (IZR p) / IZR q <= 400000) by (unfold Rdiv; split; nra).
  destruct (div_op 19 (f_of_Z p) (f_of_Z q) ltac:(lia) F1 F2) as ((F3 & _) & E3); rewrite ?E1, ?E2 in *.
  - lra.
  - rewrite Ad. change (bpow radix2 19) with 524288. lra.
  - split; [exact F3|]. cbn [fst snd]. eapply Rle_trans; [exact E3|]. rewrite Ad.
    assert (hh <= kk * / 400000); [|pose proof K_small; assert (kk * / 400000 <= kk * (Rabs (IZR p) / IZR q)) by (apply Rmult_le_compat_l; lra); lra].
    rewrite kk_bpow. unfold hh. apply Rle_trans with (bpow radix2 (-53) * bpow radix2 (-19)); [rewrite <- bpow_plus; apply bpow_le; lia|].
    apply Rmult_le_compat_l; [apply bpow_ge_0|]. change (bpow radix2 (-19)) with (/ 524288). lra.
Qed.

(** The components of a combination of slopes. *)
Definition firsts (cs : list (R * spec_float)) (ks : list (vec spec_float)) : list (spec_float * spec_float) := combine (map snd cs) (map fst ks).
Definition seconds (cs : list (R * spec_float)) (ks : list (vec spec_float)) : list (spec_float * spec_float) := combine (map snd cs) (map snd ks).
Definition fpoint (xy : vec spec_float) (dt : spec_float) (cs : list (R * spec_float)) (ks : list (vec spec_float)) : vec spec_float :=
  (fadd (fst xy) (fmul dt (fcomb (firsts cs ks))), fadd (snd xy) (fmul dt (fcomb (seconds cs ks)))).
Definition way (cs : list (R * spec_float)) (ks : list (vec spec_float)) : pt := lincomb (map fst cs) (map at_ ks).

Lemma way_comps : forall cs ks, way cs ks = (rcomb (combine (map fst cs) (map fst ks)), rcomb (combine (map fst cs) (map snd ks))).
Proof.
  induction cs as [|c cs IH]; intros [|k ks]; try reflexivity. unfold way in *. cbn [map].
  change (lincomb (fst c :: map fst cs) (at_ k :: map at_ ks)) with (padd (pscale (fst c) (at_ k)) (lincomb (map fst cs) (map at_ ks))).
  rewrite IH. unfold padd, pscale, at_. reflexivity.
Qed.

Lemma pnorm_comps p : Rabs (fst p) <= pnorm p /\ Rabs (snd p) <= pnorm p.
Proof. unfold pnorm. split; rewrite <- sqrt_Rsqr_abs; apply sqrt_le_1_alt; unfold Rsqr; nra. Qed.
Lemma pnorm_sum p : pnorm p <= Rabs (fst p) + Rabs (snd p).
Proof.
  unfold pnorm. pose proof (Rabs_pos (fst p)). pose proof (Rabs_pos (snd p)). rewrite <- (sqrt_Rsqr (Rabs (fst p) + Rabs (snd p))) by lra. apply sqrt_le_1_alt.
  unfold Rsqr. pose proof (Rsqr_abs (fst p)) as A. pose proof (Rsqr_abs (snd p)) as B. unfold Rsqr in A, B. nra.
Qed.

Lemma psub_padd a b : psub (padd a b) a = b.
Proof. destruct a, b. unfold psub, padd. cbn [fst snd]. f_equal; ring. Qed.

Section Step.
  Context (F : vec spec_float -> res (vec spec_float)) (f : vec xr -> res (vec xr)) (V L rho d X h : R) (xy : vec spec_float) (dt : spec_float) (k1 : vec spec_float) (u1 : pt).
  Let Rr := rounding X h V.
  Hypothesis (HF : faithful F f d rho [at_ xy]) (HG : gentle f V L rho [at_ xy]).
  Hypothesis (HV : 0 <= V <= huge / 4) (HL : 0 <= L) (Hh : 0 <= h <= huge) (Hd : 0 <= d) (HX : minute <= X <= huge).
  Hypothesis (Hxy : solid xy) (Hx : Rabs (fval (fst xy)) <= X /\ Rabs (fval (snd xy)) <= X) (Hdt : ffinite dt) (Edt : fval dt = h).
  Hypothesis (K1 : solid k1) (U1 : f (fvec (at_ xy)) = Ok (fvec u1)) (KU : pnorm (psub (at_ k1) u1) <= d).
  Hypothesis (H50 : 50 * L * h <= 1) (Heta : wrong L d Rr <= V) (Hin : 2 * (h * V) + 126 * (h * d) + 2 * Rr <= rho).

  Let m := 2 * (L * (h * V)) + 2 * (L * Rr) + 5 * d.
  (** A slope close to the first one. *)
  Definition good (k : vec spec_float) : Prop := solid k /\ pnorm (psub (at_ k) (at_ k1)) <= m.

  Lemma Rr_pos : 0 <= Rr.
  Proof.
    unfold Rr, rounding. pose proof minute_pos. assert (0 <= h * V) by (apply Rmult_le_pos; lra).
    apply Rplus_le_le_0_compat; apply Rmult_le_pos; try lra; left; apply Rinv_0_lt_compat, pow_lt; lra.
  Qed.
  Lemma hV_pos : 0 <= h * V. Proof. apply Rmult_le_pos; lra. Qed.
  Lemma m_pos : 0 <= m.
  Proof. unfold m. pose proof (Rmult_le_pos _ _ HL Rr_pos). pose proof (Rmult_le_pos _ _ HL hV_pos). lra. Qed.

  Lemma good_first : good k1.
  Proof. split; [exact K1|]. rewrite <- pdist_norm, pdist_self. exact m_pos. Qed.

  Lemma u1_size : pnorm u1 <= V.
  Proof.
    destruct (HG (at_ xy) (or_introl eq_refl)) as (G & _). destruct (G (at_ xy)) as (u & E & B).
    - rewrite pdist_self. pose proof hV_pos. pose proof Rr_pos. assert (0 <= h * d) by (apply Rmult_le_pos; lra). lra.
    - rewrite U1 in E. injection E as E1 E2. replace u1 with u; [exact B|]. destruct u, u1. cbn in *. congruence.
  Qed.
  Lemma k1_size : pnorm (at_ k1) <= V + d.
  Proof.
    replace (at_ k1) with (padd u1 (psub (at_ k1) u1)) by (unfold padd, psub; destruct (at_ k1); cbn; f_equal; ring).
    eapply Rle_trans; [apply pnorm_add|]. pose proof u1_size. lra.
  Qed.
  Lemma m_small : m + d <= 2 * V.
  Proof.
    unfold m. unfold wrong in Heta. assert (50 * (L * (h * V)) <= V) by (replace (50 * (L * (h * V))) with (50 * L * h * V) by ring; rewrite <- (Rmult_1_l V) at 2; apply Rmult_le_compat_r; lra).
    pose proof (Rmult_le_pos _ _ HL Rr_pos). lra.
  Qed.
  Lemma good_size k : good k -> pnorm (at_ k) <= 4 * V.
  Proof.
    intros (_ & B). replace (at_ k) with (padd (at_ k1) (psub (at_ k) (at_ k1))) by (unfold padd, psub; destruct (at_ k); cbn; f_equal; ring).
    eapply Rle_trans; [apply pnorm_add|]. pose proof k1_size. pose proof m_small. lra.
  Qed.

  Lemma way_shift cs ks t A : length cs = length ks -> Forall good ks -> total_of (map fst cs) = t -> asum (map fst cs) <= A -> 0 <= A ->
    pnorm (psub (way cs ks) (pscale t (at_ k1))) <= A * m.
  Proof.
    intros E G Et HA HA0. unfold way. rewrite (lincomb_shift (at_ k1)) by (now rewrite !map_length). rewrite Et.
    rewrite psub_padd.
    eapply Rle_trans; [apply (lincomb_bound m m_pos)|apply Rmult_le_compat_r; [exact m_pos|exact HA]].
    rewrite map_map. apply Forall_map. apply Forall_forall. intros k Hk. rewrite Forall_forall in G. exact (proj2 (G k Hk)).
  Qed.

  Lemma stage_point cs ks : Forall coef cs -> Forall good ks -> length cs = length ks -> ks <> [] -> (length cs <= 5)%nat -> asum (map fst cs) <= 25 ->
    solid (fpoint xy dt cs ks) /\ pdist (at_ (fpoint xy dt cs ks)) (padd (at_ xy) (pscale h (way cs ks))) <= Rr.
  Proof.
    intros HC HK E NE H5 H25. pose proof K_small as HKk. pose proof hV_pos as HhV.
    assert (Fac : forall g : vec spec_float -> spec_float, (forall k, good k -> ffinite (g k) /\ Rabs (fval (g k)) <= 4 * V) ->
      Forall2 (factor (4 * V)) (combine (map fst cs) (map g ks)) (combine (map snd cs) (map g ks)) /\ combine (map snd cs) (map g ks) <> [] /\
      (length (combine (map fst cs) (map g ks)) <= 5)%nat /\ weight (combine (map fst cs) (map g ks)) <= 25).
    { intros g Hg. split; [|split; [|split]].
      - clear NE H5 H25. revert ks E HK. induction HC as [|c cs (C1 & C2) HC IH]; intros [|k ks] E HK; try discriminate; [constructor|].
        inversion HK as [|? ? G1 G2]; subst. cbn [map combine]. constructor; [|apply IH; [now injection E|exact G2]].
        destruct (Hg k G1) as (A1 & A2). unfold factor. cbn [fst snd]. exact (conj C1 (conj C2 (conj eq_refl (conj A1 A2)))).
      - destruct cs, ks; try discriminate. now contradiction NE.
      - rewrite combine_length, !map_length. lia.
      - eapply Rle_trans; [|exact H25]. right. clear - E. revert ks E. induction cs as [|c cs IH]; intros [|k ks] E; try discriminate; [reflexivity|].
        cbn [map combine weight asum fold_right]. f_equal. apply IH. now injection E. }
    assert (S4 : forall k, good k -> (ffinite (fst k) /\ Rabs (fval (fst k)) <= 4 * V) /\ (ffinite (snd k) /\ Rabs (fval (snd k)) <= 4 * V)).
    { intros k G. pose proof (good_size k G) as B. destruct (pnorm_comps (at_ k)) as (B1 & B2). cbn [at_ fst snd] in B1, B2. destruct G as ((A1 & A2) & _). split; (split; [assumption|lra]). }
    destruct (Fac fst (fun k G => proj1 (S4 k G))) as (P1 & P2 & P3 & P4). destruct (Fac snd (fun k G => proj2 (S4 k G))) as (Q1 & Q2 & Q3 & Q4).
    destruct (stage_coord (4 * V) X h _ _ (fst xy) dt ltac:(lra) HX P1 P2 P3 P4 (proj1 Hxy) (proj1 Hx) Hdt Edt Hh) as (A1 & A2).
    destruct (stage_coord (4 * V) X h _ _ (snd xy) dt ltac:(lra) HX Q1 Q2 Q3 Q4 (proj2 Hxy) (proj2 Hx) Hdt Edt Hh) as (B1 & B2).
    split; [split; [exact A1|exact B1]|]. rewrite way_comps, pdist_norm. eapply Rle_trans; [apply pnorm_sum|]. unfold psub, padd, pscale, at_, fpoint. cbn [fst snd].
    unfold firsts, seconds. rewrite (Rabs_minus_sym _ (fval (fadd (fst xy) _))), (Rabs_minus_sym _ (fval (fadd (snd xy) _))).
    eapply Rle_trans; [apply Rplus_le_compat; [exact A2|exact B2]|]. unfold Rr, rounding.
    assert (K51 : / 2 ^ 51 = 4 * kk) by (unfold kk; field). assert (K41 : / 2 ^ 41 = 4096 * kk) by (unfold kk; field). rewrite K51, K41.
    assert (0 <= kk * X) by (pose proof minute_pos; apply Rmult_le_pos; lra). assert (0 <= kk * (h * V)) by (apply Rmult_le_pos; lra).
    replace (h * (4 * V)) with (4 * (h * V)) by ring. lra.
  Qed.

  Lemma stage_slope cs ks : Forall coef cs -> Forall good ks -> length cs = length ks -> ks <> [] -> (length cs <= 5)%nat -> asum (map fst cs) <= 25 -> 0 <= total_of (map fst cs) <= 1 ->
    exists k, F (fpoint xy dt cs ks) = Ok k /\ good k.
  Proof.
    intros HC HK E NE H5 H25 HT. destruct (stage_point cs ks HC HK E NE H5 H25) as (Sy & Dy). set (y := fpoint xy dt cs ks) in *. set (w := way cs ks) in *.
    pose proof hV_pos as HhV. pose proof Rr_pos as HR. pose proof (Rmult_le_pos _ _ HL HR) as HLR. pose proof (Rmult_le_pos _ _ HL HhV) as HLhV.
    assert (Hhd : 0 <= h * d) by (apply Rmult_le_pos; lra).
    assert (Bw : pnorm w <= V + d + 25 * m).
    { pose proof (way_shift cs ks _ 25 E HK eq_refl H25 ltac:(lra)) as A. fold w in A. set (t := total_of (map fst cs)) in *.
      replace w with (padd (pscale t (at_ k1)) (psub w (pscale t (at_ k1)))) by (unfold padd, psub; destruct w; cbn; f_equal; ring).
      eapply Rle_trans; [apply pnorm_add|]. rewrite pnorm_scale, Rabs_pos_eq by lra. pose proof k1_size. pose proof (pnorm_pos (at_ k1)).
      assert (t * pnorm (at_ k1) <= 1 * pnorm (at_ k1)) by (apply Rmult_le_compat_r; lra). lra. }
    assert (Dist : pdist (at_ xy) (at_ y) <= 2 * (h * V) + 126 * (h * d) + 2 * Rr).
    { eapply Rle_trans; [apply (pdist_triangle _ (padd (at_ xy) (pscale h w)) _)|]. rewrite pdist_move, pnorm_scale, Rabs_pos_eq by lra.
      rewrite (pdist_sym (padd _ _)). pose proof (Rmult_le_compat_l h _ _ (proj1 Hh) Bw) as A.
      replace (h * (V + d + 25 * m)) with (h * V + 126 * (h * d) + (50 * L * h) * (h * V) + (50 * L * h) * Rr) in A by (unfold m; ring).
      assert ((50 * L * h) * (h * V) <= 1 * (h * V)) by (apply Rmult_le_compat_r; lra). assert ((50 * L * h) * Rr <= 1 * Rr) by (apply Rmult_le_compat_r; lra). lra. }
    destruct (HF (at_ xy) y (or_introl eq_refl) Sy ltac:(lra)) as (k & u & Ek & Sk & Eu & Bk). exists k. split; [exact Ek|]. split; [exact Sk|].
    destruct (HG (at_ xy) (or_introl eq_refl)) as (_ & G). specialize (G (at_ y) (at_ xy) u u1 ltac:(lra) ltac:(rewrite pdist_self; lra) Eu U1). rewrite pdist_sym in G.
    replace (psub (at_ k) (at_ k1)) with (padd (psub (at_ k) u) (padd (psub u u1) (psub u1 (at_ k1)))) by (unfold padd, psub; cbn [fst snd]; f_equal; ring).
    eapply Rle_trans; [apply pnorm_add|]. pose proof (pnorm_add (psub u u1) (psub u1 (at_ k1))) as A. assert (A2 : pnorm (psub u1 (at_ k1)) <= d) by (rewrite <- pdist_norm, pdist_sym, pdist_norm; exact KU).
    pose proof (Rmult_le_compat_l L _ _ HL Dist) as A3. assert (A4 : (50 * L * h) * d <= 1 * d) by (apply Rmult_le_compat_r; lra). unfold m. lra.
  Qed.

  Lemma step_rough lm : exists y k7 e s, @dp_step _ (SF lm) F xy dt k1 = Ok (y, k7, e, s) /\ solid y /\ F y = Ok k7 /\
    exists w, pdist (at_ y) (padd (at_ xy) (pscale h w)) <= Rr /\ pnorm w <= 3 / 2 * V + wrong L d Rr /\
      pnorm (psub w (velocity f (at_ xy))) <= 4 * (L * (h * V)) + wrong L d Rr.
  Proof.
    pose proof good_first as G1.
    set (c2 := [(1 / 5, @nlit _ (SF lm) 1%Z 5%positive)] : list (R * spec_float)).
    assert (C2 : Forall coef c2) by (repeat (constructor; [apply lit_coef; lia|]); constructor).
    assert (A2 : asum (map fst c2) <= 25 /\ 0 <= total_of (map fst c2) <= 1) by (cbn [c2 map fst asum total_of fold_right]; split; [abs_const|lra]).
    destruct (stage_slope c2 [k1] C2 ltac:(repeat (constructor; [assumption|]); constructor) eq_refl ltac:(discriminate) ltac:(cbn; lia) ltac:(apply A2) ltac:(apply A2)) as (k2 & E2 & G2).
    set (c3 := [(3 / 40, @nlit _ (SF lm) 3%Z 40%positive); (9 / 40, @nlit _ (SF lm) 9%Z 40%positive)] : list (R * spec_float)).
    assert (C3 : Forall coef c3) by (repeat (constructor; [apply lit_coef; lia|]); constructor).
    assert (A3 : asum (map fst c3) <= 25 /\ 0 <= total_of (map fst c3) <= 1) by (cbn [c3 map fst asum total_of fold_right]; split; [abs_const|lra]).
    destruct (stage_slope c3 [k1; k2] C3 ltac:(repeat (constructor; [assumption|]); constructor) eq_refl ltac:(discriminate) ltac:(cbn; lia) ltac:(apply A3) ltac:(apply A3)) as (k3 & E3 & G3).
    set (c4 := [(44 / 45, @nlit _ (SF lm) 44%Z 45%positive); ((-56) / 15, @nlit _ (SF lm) (-56)%Z 15%positive); (32 / 9, @nlit _ (SF lm) 32%Z 9%positive)] : list (R * spec_float)).
    assert (C4 : Forall coef c4) by (repeat (constructor; [apply lit_coef; lia|]); constructor).
    assert (A4 : asum (map fst c4) <= 25 /\ 0 <= total_of (map fst c4) <= 1) by (cbn [c4 map fst asum total_of fold_right]; split; [abs_const|lra]).
    destruct (stage_slope c4 [k1; k2; k3] C4 ltac:(repeat (constructor; [assumption|]); constructor) eq_refl ltac:(discriminate) ltac:(cbn; lia) ltac:(apply A4) ltac:(apply A4)) as (k4 & E4 & G4).
    set (c5 := [(19372 / 6561, @nlit _ (SF lm) 19372%Z 6561%positive); ((-25360) / 2187, @nlit _ (SF lm) (-25360)%Z 2187%positive); (64448 / 6561, @nlit _ (SF lm) 64448%Z 6561%positive); ((-212) / 729, @nlit _ (SF lm) (-212)%Z 729%positive)] : list (R * spec_float)).
    assert (C5 : Forall coef c5) by (repeat (constructor; [apply lit_coef; lia|]); constructor).
    assert (A5 : asum (map fst c5) <= 25 /\ 0 <= total_of (map fst c5) <= 1) by (cbn [c5 map fst asum total_of fold_right]; split; [abs_const|lra]).
    destruct (stage_slope c5 [k1; k2; k3; k4] C5 ltac:(repeat (constructor; [assumption|]); constructor) eq_refl ltac:(discriminate) ltac:(cbn; lia) ltac:(apply A5) ltac:(apply A5)) as (k5 & E5 & G5).
    set (c6 := [(9017 / 3168, @nlit _ (SF lm) 9017%Z 3168%positive); ((-355) / 33, @nlit _ (SF lm) (-355)%Z 33%positive); (46732 / 5247, @nlit _ (SF lm) 46732%Z 5247%positive); (49 / 176, @nlit _ (SF lm) 49%Z 176%positive); ((-5103) / 18656, @nlit _ (SF lm) (-5103)%Z 18656%positive)] : list (R * spec_float)).
    assert (C6 : Forall coef c6) by (repeat (constructor; [apply lit_coef; lia|]); constructor).
    assert (A6 : asum (map fst c6) <= 25 /\ 0 <= total_of (map fst c6) <= 1) by (cbn [c6 map fst asum total_of fold_right]; split; [abs_const|lra]).
    destruct (stage_slope c6 [k1; k2; k3; k4; k5] C6 ltac:(repeat (constructor; [assumption|]); constructor) eq_refl ltac:(discriminate) ltac:(cbn; lia) ltac:(apply A6) ltac:(apply A6)) as (k6 & E6 & G6).
    set (c7 := [(35 / 384, @nlit _ (SF lm) 35%Z 384%positive); (500 / 1113, @nlit _ (SF lm) 500%Z 1113%positive); (125 / 192, @nlit _ (SF lm) 125%Z 192%positive); ((-2187) / 6784, @nlit _ (SF lm) (-2187)%Z 6784%positive); (11 / 84, @nlit _ (SF lm) 11%Z 84%positive)] : list (R * spec_float)).
    assert (C7 : Forall coef c7) by (repeat (constructor; [apply lit_coef; lia|]); constructor).
    assert (A7 : asum (map fst c7) <= 2 /\ total_of (map fst c7) = 1) by (cbn [c7 map fst asum total_of fold_right]; split; [abs_const|lra]).
    assert (G7 : Forall good [k1; k3; k4; k5; k6]) by (repeat (constructor; [assumption|]); constructor).
    destruct (stage_point c7 [k1; k3; k4; k5; k6] C7 G7 eq_refl ltac:(discriminate) ltac:(cbn; lia) ltac:(lra)) as (Sy & Dy).
    destruct (stage_slope c7 [k1; k3; k4; k5; k6] C7 G7 eq_refl ltac:(discriminate) ltac:(cbn; lia) ltac:(lra) ltac:(lra)) as (k7 & E7 & _).
    pose proof (way_shift c7 [k1; k3; k4; k5; k6] 1 2 eq_refl G7 (proj2 A7) (proj1 A7) ltac:(lra)) as Bw. set (w := way c7 [k1; k3; k4; k5; k6]) in *.
    set (y := fpoint xy dt c7 [k1; k3; k4; k5; k6]) in *.
    eexists y, k7, _, _. split; [|split; [exact Sy|split; [exact E7|]]].
    - unfold dp_step. change (vadd xy (vscale dt (vscale a2_0 k1))) with (fpoint xy dt c2 [k1]). rewrite E2. cbn [bind].
      change (vadd xy (vscale dt (vadd (vscale a3_0 k1) (vscale a3_1 k2)))) with (fpoint xy dt c3 [k1; k2]). rewrite E3. cbn [bind].
      change (vadd xy (vscale dt (vadd (vadd (vscale a4_0 k1) (vscale a4_1 k2)) (vscale a4_2 k3)))) with (fpoint xy dt c4 [k1; k2; k3]). rewrite E4. cbn [bind].
      change (vadd xy (vscale dt (vadd (vadd (vadd (vscale a5_0 k1) (vscale a5_1 k2)) (vscale a5_2 k3)) (vscale a5_3 k4)))) with (fpoint xy dt c5 [k1; k2; k3; k4]). rewrite E5. cbn [bind].
      change (vadd xy (vscale dt (vadd (vadd (vadd (vadd (vscale a6_0 k1) (vscale a6_1 k2)) (vscale a6_2 k3)) (vscale a6_3 k4)) (vscale a6_4 k5)))) with (fpoint xy dt c6 [k1; k2; k3; k4; k5]). rewrite E6. cbn [bind].
      change (vadd xy (vscale dt (vadd (vadd (vadd (vadd (vscale a7_0 k1) (vscale a7_2 k3)) (vscale a7_3 k4)) (vscale a7_4 k5)) (vscale a7_5 k6)))) with (fpoint xy dt c7 [k1; k3; k4; k5; k6]). fold y. rewrite E7. reflexivity.
    - exists w. split; [exact Dy|]. replace (pscale 1 (at_ k1)) with (at_ k1) in Bw by (unfold pscale; destruct (at_ k1); cbn; f_equal; ring).
      pose proof k1_size. rewrite (velocity_eq _ _ _ U1). unfold wrong.
      pose proof hV_pos as HhV. pose proof (Rmult_le_pos _ _ HL HhV) as HLhV.
      assert (50 * (L * (h * V)) <= V) by (replace (50 * (L * (h * V))) with (50 * L * h * V) by ring; rewrite <- (Rmult_1_l V) at 2; apply Rmult_le_compat_r; lra).
      assert (Em : 2 * m = 4 * (L * (h * V)) + 4 * L * Rr + 10 * d) by (unfold m; ring).
      split.
      + replace w with (padd (at_ k1) (psub w (at_ k1))) by (unfold padd, psub; destruct w; cbn; f_equal; ring). eapply Rle_trans; [apply pnorm_add|]. lra.
      + replace (psub w u1) with (padd (psub w (at_ k1)) (psub (at_ k1) u1)) by (unfold padd, psub; cbn [fst snd]; f_equal; ring). eapply Rle_trans; [apply pnorm_add|]. lra.
  Qed.
End Step.
