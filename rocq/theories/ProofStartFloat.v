(** * Start points of the pathlines in binary64 (C133) *)
From Coq Require Import ZArith Reals Lra Lia SpecFloat List Psatz Machin.
From Flocq Require Import Core.
From Verif Require Import Py Num NumXR Grid ModelField ModelTrace SpecFloats SpecField SpecStart
  ProofFloat ProofFloatGrow ProofFloatOps ProofFloatMean ProofFloatGrid ProofFloatDist ProofTraceFlow ProofDischargeEx.
Import ListNotations.
Local Open Scope R_scope.

Local Notation fx := (FLT_exp (-1074) 53).
Local Notation F := (generic_format radix2 fx).
Local Notation rd := (round radix2 fx ZnearestE).

Local Instance P53 : Prec_gt_0 53. Proof. reflexivity. Qed.

(** ** np.pi *)
Definition pif : R := 884279719003555 / 281474976710656.
Lemma pif_near : Rabs (pif - PI) <= / 4503599627370496.
Proof.
  unfold pif. pose proof (PI_2_3_7_ineq 9) as (A & B). cbn [Nat.mul Nat.add] in A, B. unfold tg_alt, PI_2_3_7_tg, Ratan_seq in A, B.
  cbn [sum_f_R0 Nat.mul Nat.add INR] in A, B. apply Rabs_le. split; [clear A|clear B]; lra.
Qed.
Lemma two_pi lm : ffinite (@nmul spec_float (SF lm) (@nZ spec_float (SF lm) 2) (@npi spec_float (SF lm))) /\
  fval (@nmul spec_float (SF lm) (@nZ spec_float (SF lm) 2) (@npi spec_float (SF lm))) = 2 * pif.
Proof.
  cbn [nmul nZ npi SF]. assert (E : SFmul fprec femax (f_of_Z 2) (SFdiv fprec femax (f_of_Z 884279719003555) (f_of_Z 281474976710656)) = S754_finite false 7074237752028440 (-50)) by (vm_compute; reflexivity).
  rewrite E. split; [vm_compute; auto|]. unfold pif. cbn [fval].
  change (powerRZ 2 (-50)) with (/ 2 ^ 50). lra.
Qed.

(** ** The angles *)
Lemma turn_bound : 6 < 2 * pif < 13 / 2.
Proof. unfold pif. lra. Qed.
Lemma hh_tiny : hh <= kk * kk * / 1024.
Proof.
  assert (E : kk = bpow radix2 (-53)).
  { unfold kk. change (bpow radix2 (-53)) with (/ IZR (Z.pow_pos 2 53)). change (Z.pow_pos 2 53) with 9007199254740992%Z. apply f_equal. lra. }
  change (/ 1024) with (bpow radix2 (-10)). rewrite E, <- !bpow_plus. unfold hh. apply bpow_le. lia.
Qed.

Lemma angle_float lm n k : (0 < n <= 2 ^ 53)%Z -> (0 <= k < n)%Z ->
  let t := @nadd _ (SF lm) (@nmul _ (SF lm) (@nZ _ (SF lm) k) (@ndiv _ (SF lm) (@nmul _ (SF lm) (@nZ _ (SF lm) 2) (@npi _ (SF lm))) (@nZ _ (SF lm) n))) (@nZ _ (SF lm) 0) in
  ffinite t /\ 0 <= fval t <= 8 /\ Rabs (fval t - 2 * PI * IZR k / IZR n) <= 20 * kk.
Proof.
  intros Hn Hk t. destruct (two_pi lm) as (Q2 & V2). destruct (of_small n ltac:(lia)) as (Qn & Vn). destruct (of_small k ltac:(lia)) as (Qk & Vk).
  destruct (of_small 0 ltac:(lia)) as (Q0 & V0).
  unfold t. clear t. cbn [nadd nmul ndiv nZ SF] in *. set (tp := SFmul fprec femax (f_of_Z 2) (@npi spec_float (SF lm))) in *. clearbody tp.
  pose proof turn_bound as TB. pose proof K_small as KS. pose proof hh_pos as HP. pose proof hh_tiny as HT. pose proof pif_near as PN.
  assert (PK : Rabs (pif - PI) <= 2 * kk) by (eapply Rle_trans; [exact PN|unfold kk; lra]). clear PN. set (p2 := 2 * pif) in *.
  assert (N1 : 1 <= IZR n) by (apply IZR_le; lia). assert (K0 : 0 <= IZR k) by (apply IZR_le; lia). assert (KN : IZR k <= IZR n) by (apply IZR_le; lia).
  assert (In : 0 < / IZR n <= 1) by (split; [apply Rinv_0_lt_compat; lra|rewrite <- Rinv_1; apply Rinv_le_contravar; lra]).
  assert (NI : IZR n * / IZR n = 1) by (apply Rinv_r; lra).
  assert (N53 : IZR n <= / kk) by (unfold kk; rewrite Rinv_inv; assert (IZR n <= 9007199254740992) by (apply IZR_le; lia); lra).
  assert (KI : kk * / kk = 1) by (apply Rinv_r; lra).
  assert (B1 : Rabs (fval tp / fval (f_of_Z n)) <= bpow radix2 3).
  { rewrite V2, Vn. unfold Rdiv. rewrite Rabs_pos_eq by (clear - TB In; nra). change (bpow radix2 3) with 8. clear - TB In. nra. }
  destruct (div_op 3 tp (f_of_Z n) ltac:(lia) Q2 Qn ltac:(rewrite Vn; lra) B1) as ((Qs & _) & Es). rewrite V2, Vn in Es.
  assert (S0 : 0 <= fval (SFdiv fprec femax tp (f_of_Z n))).
  { destruct (div_rd tp (f_of_Z n) Q2 Qn ltac:(rewrite Vn; lra)) as (_ & E).
    - eapply Rle_lt_trans; [apply (rd_small 3); [lia|exact B1]|apply bpow_lt; lia].
    - rewrite E. rewrite <- (round_0 radix2 fx ZnearestE). apply round_le; try typeclasses eauto. rewrite V2, Vn. unfold Rdiv. clear - TB In. nra. }
  set (st := SFdiv fprec femax tp (f_of_Z n)) in *. clearbody st.
  unfold Rdiv in Es. rewrite (Rabs_pos_eq (p2 * / IZR n)) in Es by (clear - TB In; nra).
  assert (A1 : Rabs (IZR k * fval st - p2 * IZR k * / IZR n) <= 7 * kk).
  { replace (IZR k * fval st - p2 * IZR k * / IZR n) with (IZR k * (fval st - p2 * / IZR n)) by ring. rewrite Rabs_mult, (Rabs_pos_eq (IZR k)) by lra.
    eapply Rle_trans; [apply Rmult_le_compat_l; [lra|exact Es]|].
    assert (X1 : IZR k * / IZR n <= 1) by (clear - KN In NI K0; nra).
    assert (X2 : IZR k * hh <= kk * / 1024).
    { eapply Rle_trans; [apply Rmult_le_compat; [lra|lra|eapply Rle_trans; [exact KN|exact N53]|exact HT]|].
      replace (/ kk * (kk * kk * / 1024)) with (kk * / kk * kk * / 1024) by ring. rewrite KI. lra. }
    assert (X3 : 0 <= IZR k * / IZR n) by (clear - K0 In; nra).
    replace (IZR k * (kk * (p2 * / IZR n) + hh)) with (kk * (p2 * (IZR k * / IZR n)) + IZR k * hh) by ring.
    assert (p2 * (IZR k * / IZR n) <= 13 / 2) by (clear - TB X1 X3; nra). clear - H X2 KS. nra. }
  assert (R1 : 0 <= p2 * IZR k * / IZR n <= 13 / 2).
  { assert (X1 : IZR k * / IZR n <= 1) by (clear - KN In NI K0; nra). assert (X3 : 0 <= IZR k * / IZR n) by (clear - K0 In; nra). rewrite Rmult_assoc. clear - TB X1 X3. nra. }
  assert (P0 : 0 <= IZR k * fval st) by (clear - K0 S0; nra).
  assert (P8 : IZR k * fval st <= 7).
  { apply Rabs_le_inv in A1. clear - A1 R1 KS. lra. }
  assert (B2 : Rabs (fval (f_of_Z k) * fval st) <= bpow radix2 3).
  { rewrite Vk, Rabs_pos_eq by lra. change (bpow radix2 3) with 8. lra. }
  destruct (mul_op 3 (f_of_Z k) st ltac:(lia) Qk Qs B2) as ((Qm & _) & Em).
  assert (M0 : 0 <= fval (SFmul fprec femax (f_of_Z k) st)).
  { destruct (mul_rd (f_of_Z k) st Qk Qs) as (_ & E).
    - eapply Rle_lt_trans; [apply (rd_small 3); [lia|exact B2]|apply bpow_lt; lia].
    - rewrite E. rewrite <- (round_0 radix2 fx ZnearestE). apply round_le; try typeclasses eauto. rewrite Vk. exact P0. }
  rewrite Vk, (Rabs_pos_eq (IZR k * fval st)) in Em by lra. set (m := SFmul fprec femax (f_of_Z k) st) in *. clearbody m.
  assert (Em' : Rabs (fval m - IZR k * fval st) <= 71 / 10 * kk) by (eapply Rle_trans; [exact Em|]; clear - P8 P0 KS HT HP; nra).
  assert (M8 : fval m <= 8) by (apply Rabs_le_inv in Em'; clear - Em' P8 KS; lra).
  destruct (add_rd m (f_of_Z 0) Qm Q0) as (Qt & Vt).
  { rewrite V0, Rplus_0_r, rd_F by (apply F_of; exact Qm). rewrite Rabs_pos_eq by exact M0. eapply Rle_lt_trans; [exact M8|]. change 8 with (bpow radix2 3). apply bpow_lt. lia. }
  rewrite V0, Rplus_0_r, rd_F in Vt by (apply F_of; exact Qm). rewrite Vt. split; [exact Qt|]. split; [lra|].
  assert (PP : Rabs (p2 * IZR k * / IZR n - 2 * PI * IZR k * / IZR n) <= 4 * kk).
  { unfold p2. replace (2 * pif * IZR k * / IZR n - 2 * PI * IZR k * / IZR n) with ((2 * (IZR k * / IZR n)) * (pif - PI)) by ring.
    assert (X1 : IZR k * / IZR n <= 1) by (clear - KN In NI K0; nra). assert (X3 : 0 <= IZR k * / IZR n) by (clear - K0 In; nra).
    rewrite Rabs_mult, (Rabs_pos_eq (2 * _)) by lra. pose proof (Rabs_pos (pif - PI)). clear - X1 X3 PK H. nra. }
  unfold Rdiv. apply Rabs_le_inv in A1, Em', PP. apply Rabs_le. clear - A1 Em' PP KS. lra.
Qed.

(** ** Cosines and sines of nearby angles *)
Lemma sin_le_abs x : Rabs (sin x) <= Rabs x.
Proof.
  assert (P : forall y, 0 < y -> Rabs (sin y) <= y).
  { intros y Hy. apply Rabs_le. split; [|left; apply sin_lt_x; exact Hy]. destruct (Rle_lt_dec y PI) as [L|L].
    - pose proof (sin_ge_0 y ltac:(lra) L). lra.
    - pose proof (SIN_bound y). pose proof PI2_1. lra. }
  destruct (Rtotal_order x 0) as [L|[->|L]].
  - rewrite (Rabs_left x L). rewrite <- (Rabs_Ropp (sin x)), <- sin_neg. apply P. lra.
  - rewrite sin_0, Rabs_R0. lra.
  - rewrite (Rabs_pos_eq x) by lra. apply P. lra.
Qed.
Lemma cos_close a b : Rabs (cos a - cos b) <= Rabs (a - b).
Proof.
  rewrite form2, !Rabs_mult. pose proof (sin_le_abs ((a - b) / 2)) as S. pose proof (SIN_bound ((a + b) / 2)) as B. apply Rabs_le in B.
  unfold Rdiv in S at 2. rewrite Rabs_mult in S. rewrite (Rabs_pos_eq (/ 2)) in S by lra. rewrite (Rabs_left (-2)) by lra.
  pose proof (Rabs_pos (sin ((a - b) / 2))). pose proof (Rabs_pos (sin ((a + b) / 2))). nra.
Qed.
Lemma sin_close a b : Rabs (sin a - sin b) <= Rabs (a - b).
Proof.
  rewrite form4, !Rabs_mult. pose proof (sin_le_abs ((a - b) / 2)) as S. pose proof (COS_bound ((a + b) / 2)) as B. apply Rabs_le in B.
  unfold Rdiv in S at 2. rewrite Rabs_mult in S. rewrite (Rabs_pos_eq (/ 2)) in S by lra. rewrite (Rabs_pos_eq 2) by lra.
  pose proof (Rabs_pos (sin ((a - b) / 2))). pose proof (Rabs_pos (cos ((a + b) / 2))). nra.
Qed.

(** ** One coordinate *)
Lemma coordinate r x c C d : ffinite r -> 0 <= fval r <= 2 ^ 500 -> ffinite x -> Rabs (fval x) <= 2 ^ 500 ->
  ffinite c -> -1 <= C <= 1 -> Rabs (fval c - C) <= d -> d <= 1 / 2 ->
  let z := SFadd fprec femax (SFmul fprec femax (SFadd fprec femax r (f_of_Z 1)) c) x in
  ffinite z /\ Rabs (fval z - (fval x + (fval r + 1) * C)) <= (fval r + 1) * (d + 6 * kk) + kk * Rabs (fval x).
Proof.
  intros Qr Br Qx Bx Qc BC Ec Hd z. unfold z. clear z. destruct (of_small 1 ltac:(lia)) as (Q1 & V1).
  assert (PW : bpow radix2 500 = 2 ^ 500) by (rewrite bpow_powerRZ; reflexivity). rewrite <- PW in Br, Bx. clear PW.
  pose proof K_small as KS. pose proof hh_pos as HP. pose proof hh_tiny as HT.
  assert (P1 : 1 <= bpow radix2 500) by (apply (bpow_le radix2 0 500); lia).
  assert (P2 : bpow radix2 501 = 2 * bpow radix2 500) by (change 501%Z with (1 + 500)%Z; rewrite bpow_plus; reflexivity).
  assert (P3 : bpow radix2 503 = 8 * bpow radix2 500) by (change 503%Z with (3 + 500)%Z; rewrite bpow_plus; reflexivity).
  assert (P4 : bpow radix2 505 = 32 * bpow radix2 500) by (change 505%Z with (5 + 500)%Z; rewrite bpow_plus; reflexivity).
  set (W := bpow radix2 500) in *. clearbody W.
  destruct (add_op 501 r (f_of_Z 1) ltac:(lia) Qr Q1) as ((QR & _) & ER).
  { rewrite V1, P2, Rabs_pos_eq by lra. lra. }
  rewrite V1, (Rabs_pos_eq (fval r + 1)) in ER by lra. set (R := SFadd fprec femax r (f_of_Z 1)) in *. clearbody R.
  set (D := fval r + 1) in *. assert (D1 : 1 <= D <= 2 * W) by (unfold D; lra). clearbody D. clear Br Qr V1 Q1 P2.
  assert (Cb : Rabs (fval c) <= 3 / 2) by (apply Rabs_le_inv in Ec; apply Rabs_le; lra).
  assert (R0 : 0 <= fval R <= D * (101 / 100)) by (apply Rabs_le_inv in ER; assert (kk * D <= / 1000000 * D) by (apply Rmult_le_compat_r; lra); clear - ER D1 H; lra).
  assert (PB : Rabs (fval R * fval c) <= 8 / 5 * D).
  { rewrite Rabs_mult, (Rabs_pos_eq (fval R)) by lra. pose proof (Rabs_pos (fval c)). clear - Cb R0 H D1. nra. }
  destruct (mul_op 503 R c ltac:(lia) QR Qc) as ((QP & _) & EP).
  { rewrite P3. clear - PB D1. lra. }
  assert (EP' : Rabs (fval (SFmul fprec femax R c) - fval R * fval c) <= 17 / 10 * (kk * D)).
  { eapply Rle_trans; [exact EP|]. assert (kk * Rabs (fval R * fval c) <= kk * (8 / 5 * D)) by (apply Rmult_le_compat_l; lra).
    assert (kk * kk <= kk * D) by (apply Rmult_le_compat_l; lra). clear - H H0 HT KS HP. lra. }
  set (P := SFmul fprec femax R c) in *. clearbody P. clear EP.
  assert (PP : Rabs (fval P) <= 9 / 5 * D).
  { apply Rabs_le_inv in EP', PB. apply Rabs_le. assert (kk * D <= / 1000000 * D) by (apply Rmult_le_compat_r; lra). clear - EP' PB H. lra. }
  assert (SB : Rabs (fval P + fval x) <= 9 / 5 * D + Rabs (fval x)) by (eapply Rle_trans; [apply Rabs_triang|lra]).
  destruct (add_op 505 P x ltac:(lia) QP Qx) as ((QZ & _) & EZ).
  { rewrite P4. clear - SB D1 Bx. lra. }
  split; [exact QZ|].
  assert (EZ' : Rabs (fval (SFadd fprec femax P x) - (fval P + fval x)) <= 9 / 5 * (kk * D) + kk * Rabs (fval x)).
  { eapply Rle_trans; [exact EZ|]. eapply Rle_trans; [apply Rmult_le_compat_l; [lra|exact SB]|]. apply Req_le. ring. }
  set (z := fval (SFadd fprec femax P x)) in *. clearbody z.
  assert (EC : Rabs (fval R * fval c - D * C) <= D * d + 3 / 2 * (kk * D)).
  { replace (fval R * fval c - D * C) with (D * (fval c - C) + (fval R - D) * fval c) by ring.
    eapply Rle_trans; [apply Rabs_triang|]. rewrite !Rabs_mult, (Rabs_pos_eq D) by lra.
    assert (D * Rabs (fval c - C) <= D * d) by (apply Rmult_le_compat_l; lra).
    assert (Rabs (fval R - D) * Rabs (fval c) <= (kk * D) * (3 / 2)) by (apply Rmult_le_compat; auto using Rabs_pos). clear - H H0. lra. }
  assert (KD : 0 <= kk * D) by (apply Rmult_le_pos; lra).
  apply Rabs_le_inv in EZ', EC, EP'. apply Rabs_le. replace (D * (d + 6 * kk)) with (D * d + 6 * (kk * D)) by ring. clear - EZ' EC EP' KD. lra.
Qed.

(** ** C133 *)
(** C133.  The k-th of the [n] start points is within (r + 1) (e + 2^-48) + |x| 2^-53, in each coordinate, of the
    k-th of [n] equally spaced points on the circle of radius r + 1; here [e] bounds the errors of cos and sin. *)
Lemma c133_start : forall (lm : libm) (e : R) (n k : nat) (x y r : spec_float),
  circular lm e -> e <= / 4 -> (k < n)%nat -> (Z.of_nat n <= 2 ^ 53)%Z ->
  ffinite x -> ffinite y -> ffinite r -> Rabs (fval x) <= 2 ^ 500 -> Rabs (fval y) <= 2 ^ 500 -> 0 <= fval r <= 2 ^ 500 ->
  exists angles t, @start_angles _ (SF lm) (Z.of_nat n) = Ok angles /\ length angles = n /\ nth_error angles k = Some t /\
    let z := @start_point _ (SF lm) x y r t in
    let p := ring_point (fval x) (fval y) (fval r) n k in
    ffinite (fst z) /\ ffinite (snd z) /\
    Rabs (fval (fst z) - fst p) <= (fval r + 1) * (e + / 2 ^ 48) + Rabs (fval x) * / 2 ^ 53 /\
    Rabs (fval (snd z) - snd p) <= (fval r + 1) * (e + / 2 ^ 48) + Rabs (fval y) * / 2 ^ 53.
Proof.
  intros lm e n k x y r HL He Hk Hn Qx Qy Qr Bx By Br.
  destruct (angle_float lm (Z.of_nat n) (Z.of_nat k) ltac:(lia) ltac:(lia)) as (Qt & Bt & Et).
  eexists. exists (@nadd _ (SF lm) (@nmul _ (SF lm) (@nZ _ (SF lm) (Z.of_nat k)) (@ndiv _ (SF lm) (@nmul _ (SF lm) (@nZ _ (SF lm) 2) (@npi _ (SF lm))) (@nZ _ (SF lm) (Z.of_nat n)))) (@nZ _ (SF lm) 0)).
  split; [unfold start_angles; rewrite (proj2 (Z.ltb_ge _ _)) by lia; reflexivity|].
  split; [rewrite map_length, zrange_length; lia|].
  split; [rewrite nth_error_map, nth_error_zrange, (proj2 (Z.ltb_lt _ _)) by lia; cbn [option_map]; rewrite Z.add_0_l; reflexivity|].
  set (t := @nadd _ (SF lm) _ _) in *. clearbody t. rewrite <- !INR_IZR_INZ in Et.
  unfold start_point, ring_point. cbn [fst snd]. cbn [nadd nmul nZ ncos nsin SF]. set (th := 2 * PI * INR k / INR n) in *. clearbody th.
  destruct (HL t Qt Bt) as ((Qc & Ec) & (Qs & Es)). pose proof K_small as KS.
  pose proof (cos_close (fval t) th) as LC. pose proof (sin_close (fval t) th) as LS.
  assert (KE : 32 * kk = / 2 ^ 48) by (unfold kk; field). rewrite <- KE. fold kk. clear KE.
  assert (DC : Rabs (fval (lm_cos lm t) - cos th) <= e + 20 * kk).
  { apply Rabs_le_inv in Ec. assert (Rabs (cos (fval t) - cos th) <= 20 * kk) as L by lra. apply Rabs_le_inv in L. apply Rabs_le. lra. }
  assert (DS : Rabs (fval (lm_sin lm t) - sin th) <= e + 20 * kk).
  { apply Rabs_le_inv in Es. assert (Rabs (sin (fval t) - sin th) <= 20 * kk) as L by lra. apply Rabs_le_inv in L. apply Rabs_le. lra. }
  assert (Dk : e + 20 * kk <= 1 / 2) by lra.
  destruct (coordinate r x (lm_cos lm t) (cos th) _ Qr Br Qx Bx Qc (COS_bound th) DC Dk) as (F1 & E1).
  destruct (coordinate r y (lm_sin lm t) (sin th) _ Qr Br Qy By Qs (SIN_bound th) DS Dk) as (F2 & E2).
  assert (W : (fval r + 1) * (e + 20 * kk + 6 * kk) <= (fval r + 1) * (e + 32 * kk)) by (apply Rmult_le_compat_l; lra).
  split; [exact F1|]. split; [exact F2|]. rewrite !(Rmult_comm _ kk) in *. split; (eapply Rle_trans; [eassumption|]); lra.
Qed.

(** C133.  Every path starts outside its well, by at least half a meter, for coordinates below 2^50, radii below
    2^30 and an error of cos and sin below 2^-40. *)
Lemma c133_outside : forall (lm : libm) (n : nat) (x y r : spec_float) (angles : list spec_float) (t : spec_float),
  circular lm (/ 2 ^ 40) -> (Z.of_nat n <= 2 ^ 53)%Z ->
  ffinite x -> ffinite y -> ffinite r -> Rabs (fval x) <= 2 ^ 50 -> Rabs (fval y) <= 2 ^ 50 -> 0 <= fval r <= 2 ^ 30 ->
  @start_angles _ (SF lm) (Z.of_nat n) = Ok angles -> In t angles ->
  let z := @start_point _ (SF lm) x y r t in
  (fval r + / 2) ^ 2 <= (fval (fst z) - fval x) ^ 2 + (fval (snd z) - fval y) ^ 2.
Proof.
  intros lm n x y r angles t HL Hn Qx Qy Qr Bx By Br HA Ht.
  assert (Big : 2 ^ 50 <= 2 ^ 500) by (apply Rle_pow; [lra|lia]). assert (Big' : 2 ^ 30 <= 2 ^ 50) by (apply Rle_pow; [lra|lia]).
  destruct (In_nth_error _ _ Ht) as (k & Hk).
  assert (Len : length angles = n).
  { unfold start_angles in HA. rewrite (proj2 (Z.ltb_ge _ _)) in HA by lia. assert (E := f_equal (fun r => match r with Ok l => length l | _ => O end) HA). cbn beta iota in E. rewrite <- E, map_length, zrange_length. lia. }
  assert (Kn : (k < n)%nat) by (rewrite <- Len; apply nth_error_Some; rewrite Hk; discriminate).
  set (H500 := 2 ^ 500) in *.
  destruct (c133_start lm (/ 2 ^ 40) n k x y r HL ltac:(lra) Kn Hn Qx Qy Qr ltac:(fold H500; lra) ltac:(fold H500; lra) ltac:(fold H500; lra)) as (l & u & HA' & _ & Hu & _ & _ & E1 & E2).
  rewrite HA in HA'. assert (l = angles) as -> by congruence. rewrite Hk in Hu. assert (u = t) as -> by congruence. cbn zeta. clear HA' Hu HA Ht Len Hk Big.
  unfold ring_point in E1, E2. cbn [fst snd] in E1, E2. set (z := @start_point _ (SF lm) x y r t) in *. set (th := 2 * PI * INR k / INR n) in *. clearbody z th. clear H500.
  set (D := fval r + 1) in *. assert (D1 : 1 <= D <= 2 ^ 31) by (unfold D; lra). replace (fval r + / 2) with (D - / 2) by (unfold D; lra). clearbody D. clear Br.
  assert (S1 : D * (/ 2 ^ 40 + / 2 ^ 48) <= / 100) by lra.
  assert (S2 : Rabs (fval x) * / 2 ^ 53 <= / 8) by lra. assert (S3 : Rabs (fval y) * / 2 ^ 53 <= / 8) by lra.
  set (A := D * (/ 2 ^ 40 + / 2 ^ 48)) in *. set (B := Rabs (fval x) * / 2 ^ 53) in *. set (G := Rabs (fval y) * / 2 ^ 53) in *. clearbody A B G. clear Bx By Big'.
  pose proof (sin2_cos2 th) as U. unfold Rsqr in U. pose proof (COS_bound th) as CB. pose proof (SIN_bound th) as SB.
  set (c := cos th) in *. set (s := sin th) in *. clearbody c s.
  set (a := fval (fst z) - fval x). set (b := fval (snd z) - fval y).
  assert (Ea : Rabs (a - D * c) <= 1 / 4) by (unfold a; replace (fval (fst z) - fval x - D * c) with (fval (fst z) - (fval x + D * c)) by ring; lra).
  assert (Eb : Rabs (b - D * s) <= 1 / 4) by (unfold b; replace (fval (snd z) - fval y - D * s) with (fval (snd z) - (fval y + D * s)) by ring; lra).
  clearbody a b. clear - D1 U CB SB Ea Eb.
  assert (Pa : Rabs ((a - D * c) * c) <= 1 / 4) by (rewrite Rabs_mult; assert (Rabs c <= 1) by (apply Rabs_le; lra); pose proof (Rabs_pos c); pose proof (Rabs_pos (a - D * c)); nra).
  assert (Pb : Rabs ((b - D * s) * s) <= 1 / 4) by (rewrite Rabs_mult; assert (Rabs s <= 1) by (apply Rabs_le; lra); pose proof (Rabs_pos s); pose proof (Rabs_pos (b - D * s)); nra).
  apply Rabs_le_inv in Pa, Pb. clear Ea Eb.
  assert (Dot : D - / 2 <= a * c + b * s) by (assert (D * (s * s + c * c) = D) by (rewrite U; ring); lra).
  assert (CS : (a * c + b * s) ^ 2 + (a * s - b * c) ^ 2 = a ^ 2 + b ^ 2) by (replace ((a * c + b * s) ^ 2 + (a * s - b * c) ^ 2) with ((a ^ 2 + b ^ 2) * (s * s + c * c)) by ring; rewrite U; ring).
  rewrite <- CS. pose proof (pow2_ge_0 (a * s - b * c)). set (q := a * c + b * s) in *. clearbody q. clear - D1 Dot H. nra.
Qed.

(** ** A C library that meets the contract *)
Definition fixed52 (z : R) : spec_float := SFdiv fprec femax (f_of_Z (ZnearestE (z * 4503599627370496))) (f_of_Z 4503599627370496).
Definition near_libm : libm :=
  {| lm_log := fun x => x; lm_cos := fun t => fixed52 (cos (fval t)); lm_sin := fun t => fixed52 (sin (fval t));
     lm_hypot := fun x _ => x; lm_root5 := fun x => x |}.
Lemma fixed52_near z : -1 <= z <= 1 -> ffinite (fixed52 z) /\ Rabs (fval (fixed52 z) - z) <= / 2 ^ 50.
Proof.
  intros B. unfold fixed52. set (w := z * 4503599627370496). set (m := ZnearestE w).
  assert (N : Rabs (w - IZR m) <= / 2) by (apply Znearest_half).
  assert (M : (Z.abs m <= 4503599627370497)%Z).
  { apply le_IZR. rewrite abs_IZR. apply Rabs_le_inv in N. apply Rabs_le. unfold w in N. lra. }
  destruct (of_small m ltac:(lia)) as (Qm & Vm). destruct (of_small 4503599627370496 ltac:(lia)) as (Qd & Vd).
  apply Rabs_le_inv in N. assert (MB : Rabs (IZR m / 4503599627370496) <= 2) by (apply Rabs_le; unfold w in N; lra).
  destruct (div_op 1 (f_of_Z m) (f_of_Z 4503599627370496) ltac:(lia) Qm Qd ltac:(rewrite Vd; lra)) as ((Q & _) & E).
  { rewrite Vm, Vd. exact MB. }
  split; [exact Q|]. rewrite Vm, Vd in E. assert (E' : Rabs (fval (SFdiv fprec femax (f_of_Z m) (f_of_Z 4503599627370496)) - IZR m / 4503599627370496) <= 3 * kk).
  { eapply Rle_trans; [exact E|]. pose proof hh_tiny. pose proof K_small. pose proof (Rabs_pos (IZR m / 4503599627370496)). nra. }
  assert (3 * kk <= / 2 ^ 51) by (unfold kk; lra). apply Rabs_le_inv in E'. apply Rabs_le. unfold w in N. lra.
Qed.
Lemma near_circular : circular near_libm (/ 2 ^ 50).
Proof.
  intros t _ _. cbn [near_libm lm_cos lm_sin]. split; apply fixed52_near; [apply COS_bound|apply SIN_bound].
Qed.

(** C133: the second of four paths around a well of radius 1 at the origin starts within 2^-46 of (0, 2). *)
Lemma c133_example : circular near_libm (/ 2 ^ 50) /\
  exists angles t, @start_angles _ (SF near_libm) 4 = Ok angles /\ nth_error angles 1 = Some t /\
    let z := @start_point _ (SF near_libm) (f_of_Z 0) (f_of_Z 0) (f_of_Z 1) t in
    Rabs (fval (fst z)) <= / 2 ^ 46 /\ Rabs (fval (snd z) - 2) <= / 2 ^ 46.
Proof.
  split; [exact near_circular|].
  destruct (of_small 0 ltac:(lia)) as (Q0 & V0). destruct (of_small 1 ltac:(lia)) as (Q1 & V1).
  assert (Big : 1 <= 2 ^ 500) by (apply pow_R1_Rle; lra). set (H500 := 2 ^ 500) in *.
  destruct (c133_start near_libm (/ 2 ^ 50) 4 1 (f_of_Z 0) (f_of_Z 0) (f_of_Z 1) near_circular ltac:(lra) ltac:(lia) ltac:(lia) Q0 Q0 Q1
    ltac:(fold H500; rewrite V0, Rabs_R0; lra) ltac:(fold H500; rewrite V0, Rabs_R0; lra) ltac:(fold H500; rewrite V1; lra)) as (l & t & A & _ & N & _ & _ & E1 & E2).
  exists l, t. split; [exact A|]. split; [exact N|]. cbn zeta. set (z := @start_point _ _ _ _ _ _) in *. clearbody z.
  rewrite V0, V1, Rabs_R0 in E1, E2. unfold ring_point in E1, E2. cbn [fst snd INR] in E1, E2.
  replace (2 * PI * 1 / (1 + 1 + 1 + 1)) with (PI / 2) in E1, E2 by field. rewrite cos_PI2 in E1. rewrite sin_PI2 in E2.
  replace (fval (fst z) - (0 + (1 + 1) * 0)) with (fval (fst z)) in E1 by ring. replace (fval (snd z) - (0 + (1 + 1) * 1)) with (fval (snd z) - 2) in E2 by ring.
  split; lra.
Qed.
