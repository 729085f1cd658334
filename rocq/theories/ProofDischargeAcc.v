(** * Accuracy of the discharge and of the velocity in binary64 *)
From Coq Require Import ZArith Reals Lra Lia SpecFloat List Psatz.
From Flocq Require Import Core.
From Verif Require Import Py Num NumXR ModelAquifer SpecFloats SpecAquifer SpecTrace SpecPathline SpecRough SpecDischarge
  ProofFloat ProofFloatGrow ProofFloatOps ProofFloatMean ProofFloatGrid ProofDistError ProofFloatDist ProofPi ProofAquifer ProofPathline ProofRoughStep ProofDischargeFloat.
Import ListNotations.
Local Open Scope R_scope.

Local Notation fadd := (SFadd fprec femax).
Local Notation fsub := (SFsub fprec femax).
Local Notation fmul := (SFmul fprec femax).
Local Notation fdiv := (SFdiv fprec femax).
Local Notation B2 := (bpow radix2).

Lemma hh_under2 : 2 * (hh * B2 201) + hh <= kk * tiny / 2.
Proof.
  pose proof hh_under. pose proof hh_pos. assert (B2 201 <= B2 400) by (apply bpow_le; lia). assert (hh * B2 201 <= hh * B2 400) by (apply Rmult_le_compat_l; lra).
  assert (0 <= hh * B2 201) by (apply Rmult_le_pos; [lra|apply bpow_ge_0]). lra.
Qed.

Lemma regional_total A C D dx dy X Y : moderate A -> moderate C -> moderate D -> close 1 0 dx X -> close 1 0 dy Y ->
  Rabs (fval dx) <= B2 201 -> Rabs (fval dy) <= B2 201 -> Rabs X <= B2 201 -> Rabs Y <= B2 201 ->
  let M := 2 * Rabs (fval A) * Rabs X + Rabs (fval C) * Rabs Y + Rabs (fval D) in
  M <= B2 405 /\ total_err 18 (SFopp (fadd (fadd (fmul (fmul (f_of_Z 2) A) dx) (fmul C dy)) D)) (- (2 * fval A * X + fval C * Y + fval D)) M.
Proof.
  intros HA HC HD Hdx Hdy Bdx Bdy BX BY M. apply moderate_bpow in HA as (FA & BA). apply moderate_bpow in HC as (FC & BC). apply moderate_bpow in HD as (FD & BD).
  pose proof hh_pos as Hh. pose proof hh_under2 as HU. pose proof K_small as HK. assert (P201 : 0 < B2 201) by apply bpow_gt_0.
  destruct (of_small 2 ltac:(lia)) as (F2 & E2).
  assert (H2 : close 0 0 (f_of_Z 2) 2) by (rewrite <- E2; now apply close_exact).
  destruct (mul_close 201 0 0 0 0 (f_of_Z 2) A 2 (fval A) 2 (B2 200) ltac:(lia) ltac:(lra) ltac:(lra) ltac:(lra) ltac:(lra) H2 (close_exact A FA)) as (C1 & B1).
  { rewrite Rabs_pos_eq; lra. } { exact BA. }
  { rewrite E2. change 201%Z with (1 + 200)%Z. apply abs_mul_le; [|exact BA]. rewrite Rabs_pos_eq by lra. change (B2 1) with 2. lra. }
  apply (close_weak _ _ 2 hh) in C1; [|lra|lra].
  assert (B2A : Rabs (2 * fval A) <= B2 201) by (change 201%Z with (1 + 200)%Z; apply abs_mul_le; [rewrite Rabs_pos_eq by lra; change (B2 1) with 2; lra|exact BA]).
  destruct (mul_close 402 2 hh 1 0 _ _ _ _ (B2 201) (B2 201) ltac:(lia) ltac:(lra) ltac:(lra) ltac:(lra) ltac:(lra) C1 Hdx B2A BX (abs_mul_le _ _ 201 201 B1 Bdx)) as (C2 & B2').
  apply (close_weak _ _ 14 (kk * tiny / 2)) in C2; [|lra|lra].
  destruct (mul_close 401 0 0 1 0 C dy (fval C) Y (B2 200) (B2 201) ltac:(lia) ltac:(lra) ltac:(lra) ltac:(lra) ltac:(lra) (close_exact C FC) Hdy BC BY (abs_mul_le _ _ 200 201 BC Bdy)) as (C3 & B3).
  assert (PhB : 0 <= hh * B2 201) by (apply Rmult_le_pos; lra).
  apply (close_weak _ _ 14 (kk * tiny / 2)) in C3; [|lra|lra].
  assert (C4 : close 14 (kk * tiny / 2) D (fval D)) by (apply (close_weak 0 0); [lra|lra|now apply close_exact]).
  assert (M1 : 2 * Rabs (fval A) * Rabs X <= B2 402).
  { replace (2 * Rabs (fval A) * Rabs X) with (Rabs (2 * fval A * X)) by (rewrite !Rabs_mult, (Rabs_pos_eq 2) by lra; ring). exact (abs_mul_le _ _ 201 201 B2A BX). }
  assert (M2 : Rabs (fval C) * Rabs Y <= B2 401) by (rewrite <- Rabs_mult; exact (abs_mul_le _ _ 200 201 BC BY)).
  assert (M401 : B2 401 <= B2 402) by (apply bpow_le; lia). assert (M200 : B2 200 <= B2 402) by (apply bpow_le; lia).
  assert (M405 : B2 405 = 8 * B2 402) by (change 405%Z with (3 + 402)%Z; rewrite bpow_plus; reflexivity). assert (M450 : B2 405 <= B2 450) by (apply bpow_le; lia).
  assert (P402 : 0 < B2 402) by apply bpow_gt_0. pose proof (Rabs_pos (fval D)) as PD. assert (PC : 0 <= Rabs (fval C) * Rabs Y) by (apply Rmult_le_pos; apply Rabs_pos).
  split; [unfold M; lra|]. apply opp_total.
  assert (T1 : total_err 14 (fmul (fmul (f_of_Z 2) A) dx) (2 * fval A * X) (2 * Rabs (fval A) * Rabs X)).
  { apply (first_total (kk * tiny / 2)); [lra|exact C2|]. rewrite !Rabs_mult, (Rabs_pos_eq 2) by lra. lra. }
  pose proof (add_total 14 _ _ _ _ _ (Rabs (fval C) * Rabs Y) ltac:(lra) ltac:(lra) T1 C3 ltac:(rewrite Rabs_mult; lra) ltac:(lra)) as T2.
  pose proof (add_total (14 + 2) _ _ _ _ _ (Rabs (fval D)) ltac:(lra) ltac:(lra) T2 C4 ltac:(lra) ltac:(lra)) as T3.
  replace 18 with (14 + 2 + 2) by ring. exact T3.
Qed.

Lemma reach_well dx R2 : dx * dx <= R2 -> B2 (-400) <= R2 -> Rabs dx / R2 <= B2 200.
Proof.
  intros H1 H2. assert (P : 0 < B2 (-400)) by apply bpow_gt_0. assert (P2 : 0 < B2 200) by apply bpow_gt_0.
  assert (E : B2 200 * B2 (-400) = / B2 200) by (rewrite <- bpow_opp, <- bpow_plus; reflexivity).
  apply Rmult_le_reg_r with R2; [lra|]. unfold Rdiv. rewrite Rmult_assoc, Rinv_l, Rmult_1_r by lra.
  destruct (Rle_or_lt (Rabs dx) (/ B2 200)) as [S|S].
  - apply Rle_trans with (B2 200 * B2 (-400)); [rewrite E; exact S|apply Rmult_le_compat_l; lra].
  - apply Rle_trans with (B2 200 * (Rabs dx * Rabs dx)).
    + rewrite <- Rmult_assoc. rewrite <- (Rmult_1_l (Rabs dx)) at 1. apply Rmult_le_compat_r; [apply Rabs_pos|]. rewrite <- (Rinv_r (B2 200)) by lra. apply Rmult_le_compat_l; lra.
    + apply Rmult_le_compat_l; [lra|]. rewrite <- Rabs_mult, Rabs_pos_eq by (apply Rle_0_sqr). exact H1.
Qed.

Lemma sum_bound (A : Type) (g : A -> R) (b : R) l : (forall a, In a l -> g a <= b) -> Rsum g l <= INR (length l) * b.
Proof.
  induction l as [|a l IH]; intros H; [cbn; lra|]. cbn [Rsum fold_right length]. fold (Rsum g l). rewrite S_INR. pose proof (H a (or_introl eq_refl)). pose proof (IH (fun x Hx => H x (or_intror Hx))). lra.
Qed.

Lemma many_wells n : (Z.of_nat n <= 10 ^ 12)%Z -> INR n <= 1000000000000 /\ (18 + 2 * INR n) * kk <= 1 / 100.
Proof.
  intros H. assert (A : INR n <= 1000000000000) by (rewrite INR_IZR_INZ; apply IZR_le in H; cbn in H; lra). split; [exact A|].
  apply Rle_trans with ((18 + 2 * 1000000000000) * kk); [apply Rmult_le_compat_r; [pose proof K_small; lra|lra]|].
  unfold kk. apply Rmult_le_reg_r with (2 ^ 53); [lra|]. rewrite Rmult_assoc, Rinv_l by lra. lra.
Qed.

Lemma discharge_total lm m x y : moderate_model m -> moderate x -> moderate y -> clear_of_wells (real_model m) (fval x, fval y) -> (Z.of_nat (length (wells m)) <= 10 ^ 12)%Z ->
  let q := @compute_discharge _ (SF lm) m x y in let c := 18 + 2 * INR (length (wells m)) in let M := real_model m in
  total_err c (fst q) (discharge_x M (fval x) (fval y)) (load_x M (fval x) (fval y)) /\ total_err c (snd q) (discharge_y M (fval x) (fval y)) (load_y M (fval x) (fval y)) /\
  load_x M (fval x) (fval y) <= B2 450 /\ load_y M (fval x) (fval y) <= B2 450.
Proof.
  intros (Hxo & Hyo & Hc & Hw & _) Hx Hy Hcl Hn q c M. destruct (many_wells _ Hn) as (Nn & Nk).
  destruct (diff_close x (xo m) Hx Hxo) as (D1 & D2 & D3 & _). destruct (diff_close y (yo m) Hy Hyo) as (E1 & E2 & E3 & _).
  assert (CA : moderate (cA (ModelAquifer.coef m)) /\ moderate (cB (ModelAquifer.coef m)) /\ moderate (cC (ModelAquifer.coef m)) /\ moderate (cD (ModelAquifer.coef m)) /\ moderate (cE (ModelAquifer.coef m))).
  { repeat split; apply Hc; unfold coef_list; cbn; tauto. }
  destruct CA as (HA & HB & HC & HD & HE).
  destruct (regional_total _ _ _ _ _ _ _ HA HC HD D1 E1 D2 E2 D3 E3) as (MX & TX). destruct (regional_total _ _ _ _ _ _ _ HB HC HE E1 D1 E2 D2 E3 D3) as (MY & TY).
  assert (Hw' : forall w, In w (wells m) -> moderate (wx w) /\ moderate (wy w) /\ moderate (wq w) /\ B2 (-400) <= wdist2 (real_well w) (fval x) (fval y)).
  { intros w Iw. destruct (Hw w Iw) as (W1 & W2 & W3). repeat split; try apply W1; try apply W2; try apply W3. apply (apart_square (real_model m) _ _ _ Hcl). cbn [real_model wells]. now apply in_map. }
  assert (Gb : forall w, In w (map real_well (wells m)) -> Rabs (wq w) * Rabs (fval x - wx w) / (6 * wdist2 w (fval x) (fval y)) <= B2 400 /\ Rabs (wq w) * Rabs (fval y - wy w) / (6 * wdist2 w (fval x) (fval y)) <= B2 400).
  { intros w Iw. apply in_map_iff in Iw as (w' & <- & Iw). destruct (Hw' w' Iw) as (_ & _ & W3 & W4). apply moderate_bpow in W3 as (_ & W3). cbn [wq wx wy real_well].
    set (R2 := wdist2 (real_well w') (fval x) (fval y)) in *. pose proof (bpow_gt_0 radix2 (-400)) as P4.
    assert (G : forall d, d * d <= R2 -> Rabs (fval (wq w')) * Rabs d / (6 * R2) <= B2 400).
    { intros d Hd. pose proof (reach_well d R2 Hd W4) as RW. replace (Rabs (fval (wq w')) * Rabs d / (6 * R2)) with (Rabs (fval (wq w')) * (Rabs d / R2) * / 6) by (field; lra).
      assert (0 <= Rabs d / R2) by (apply Rmult_le_pos; [apply Rabs_pos|left; apply Rinv_0_lt_compat; lra]).
      assert (Rabs (fval (wq w')) * (Rabs d / R2) <= B2 400) by (change 400%Z with (200 + 200)%Z; rewrite bpow_plus; apply Rmult_le_compat; try apply Rabs_pos; assumption). pose proof (bpow_gt_0 radix2 400). lra. }
    split; apply G; unfold R2, wdist2; cbn [wx wy real_well]; [pose proof (Rle_0_sqr (fval y - fval (wy w'))) as Q|pose proof (Rle_0_sqr (fval x - fval (wx w'))) as Q]; unfold Rsqr in Q; lra. }
  assert (S440 : INR (length (map real_well (wells m))) * B2 400 <= B2 440).
  { rewrite map_length. change 440%Z with (40 + 400)%Z. rewrite bpow_plus. apply Rmult_le_compat_r; [apply bpow_ge_0|]. change (B2 40) with 1099511627776. lra. }
  pose proof (sum_bound _ _ _ _ (fun w Iw => proj1 (Gb w Iw))) as SX. pose proof (sum_bound _ _ _ _ (fun w Iw => proj2 (Gb w Iw))) as SY. cbv beta in SX, SY.
  assert (P405 : B2 405 <= B2 440) by (apply bpow_le; lia). assert (P450 : B2 450 = 1024 * B2 440) by (change 450%Z with (10 + 440)%Z; rewrite bpow_plus; reflexivity). pose proof (bpow_gt_0 radix2 440) as P440.
  assert (LX : load_x M (fval x) (fval y) <= B2 450) by (unfold load_x, M; cbn [ModelAquifer.coef real_model real_coef cA cC cD xo yo wells]; lra).
  assert (LY : load_y M (fval x) (fval y) <= B2 450) by (unfold load_y, M; cbn [ModelAquifer.coef real_model real_coef cB cC cE xo yo wells]; lra).
  destruct (wells_total lm x y Hx Hy (wells m) 18 _ _ _ _ _ _ Hw' ltac:(lra) Nk TX TY) as (T1 & T2).
  - exact LX.
  - exact LY.
  - assert (Off : off_wells (wells M) (fval x) (fval y)).
    { intros w Iw (Q1 & Q2). pose proof (apart_square M _ _ w Hcl Iw) as P. unfold wdist2 in P. rewrite Q1, Q2 in P. pose proof (bpow_gt_0 radix2 (-400)). replace ((wx w - wx w) * (wx w - wx w) + (wy w - wy w) * (wy w - wy w)) with 0 in P by ring. lra. }
    split; [|split; [|split; assumption]].
    + unfold discharge_x. rewrite compute_discharge_eq by exact Off. exact T1.
    + unfold discharge_y. rewrite compute_discharge_eq by exact Off. exact T2.
Qed.

Lemma err_form n M : (18 + 2 * n) * kk * M = (n + 9) / 2 ^ 52 * M.
Proof. unfold kk. field. Qed.

(** C123.  The discharge that [compute_discharge] returns in binary64 differs from the exact one by at most a fixed number of units in
    the last place, growing with the number of wells, of the sum of the absolute values of its parts. *)
Lemma c123_discharge : forall (lm : libm) (m : model spec_float) (x y : spec_float),
  moderate_model m -> moderate x -> moderate y -> clear_of_wells (real_model m) (fval x, fval y) -> (Z.of_nat (length (wells m)) <= 10 ^ 12)%Z ->
  let q := @compute_discharge _ (SF lm) m x y in let n := INR (length (wells m)) in let M := real_model m in let X := fval x in let Y := fval y in
  ffinite (fst q) /\ ffinite (snd q) /\
  Rabs (fval (fst q) - discharge_x M X Y) <= (n + 9) / 2 ^ 52 * (load_x M X Y + tiny) /\
  Rabs (fval (snd q) - discharge_y M X Y) <= (n + 9) / 2 ^ 52 * (load_y M X Y + tiny).
Proof.
  intros lm m x y Hm Hx Hy Hc Hn q n M X Y. destruct (discharge_total lm m x y Hm Hx Hy Hc Hn) as ((F1 & E1 & _) & (F2 & E2 & _) & _).
  unfold n, q, M, X, Y. rewrite <- !err_form. repeat split; try apply F1; try apply F2; assumption.
Qed.

(** ** The velocity *)
Lemma quot_real kk0 t0 h0 c s S0 M y Y z : 0 < kk0 <= / 1000000 -> 0 < t0 -> 14 <= c -> c * kk0 <= 1 / 50 -> 0 < Y -> h0 <= kk0 * (t0 / Y) / 4 -> Rabs S0 <= M ->
  Rabs (s - S0) <= c * kk0 * (M + t0) -> Rabs (/ y - / Y) <= 4 * kk0 * Rabs (/ Y) -> Rabs (z - s / y) <= kk0 * Rabs (s / y) + h0 ->
  Rabs (s / y) <= 2 * ((M + t0) / Y) /\ Rabs (z - S0 / Y) <= (c + 6) * kk0 * ((M + t0) / Y).
Proof.
  intros HK Ht Hc Hck HY Hh HS Es Ey Ez. set (v := / Y) in *. assert (Pv : 0 < v) by (unfold v; now apply Rinv_0_lt_compat). rewrite (Rabs_pos_eq v) in Ey by lra.
  unfold Rdiv in *. fold v in Ez, Hh |- *. pose proof (Rabs_pos S0) as PS. set (N := M + t0) in *. assert (HN : 0 < N) by (unfold N; lra).
  assert (PNv : 0 < N * v) by (apply Rmult_lt_0_compat; lra). assert (PkNv : 0 <= kk0 * (N * v)) by (apply Rmult_le_pos; lra).
  assert (E : Rabs (s * / y - S0 * v) <= (c + 9 / 2) * kk0 * (N * v)).
  { replace (s * / y - S0 * v) with ((s - S0) * v + ((s - S0) * (/ y - v) + S0 * (/ y - v))) by ring.
    pose proof (Rabs_triang ((s - S0) * v) ((s - S0) * (/ y - v) + S0 * (/ y - v))) as T1. pose proof (Rabs_triang ((s - S0) * (/ y - v)) (S0 * (/ y - v))) as T2.
    rewrite (Rabs_mult (s - S0) v), (Rabs_pos_eq v) in T1 by lra. rewrite (Rabs_mult (s - S0)), (Rabs_mult S0) in T2.
    assert (A1 : Rabs (s - S0) * v <= c * kk0 * N * v) by (apply Rmult_le_compat_r; lra).
    assert (A2 : Rabs (s - S0) * Rabs (/ y - v) <= c * kk0 * N * (4 * kk0 * v)) by (apply Rmult_le_compat; try apply Rabs_pos; assumption).
    assert (A3 : Rabs S0 * Rabs (/ y - v) <= N * (4 * kk0 * v)) by (apply Rmult_le_compat; try apply Rabs_pos; [unfold N; lra|assumption]).
    assert (A4 : c * kk0 * (kk0 * (N * v)) <= 1 / 50 * (kk0 * (N * v))) by (apply Rmult_le_compat_r; lra).
    replace (c * kk0 * N * (4 * kk0 * v)) with (4 * (c * kk0 * (kk0 * (N * v)))) in A2 by ring. lra. }
  assert (Sv : Rabs (S0 * v) <= N * v) by (rewrite Rabs_mult, (Rabs_pos_eq v) by lra; apply Rmult_le_compat_r; unfold N; lra).
  assert (Ck : (c + 9 / 2) * kk0 * (N * v) <= 1 / 10 * (N * v)) by (apply Rmult_le_compat_r; lra).
  assert (B : Rabs (s * / y) <= 11 / 10 * (N * v)).
  { replace (s * / y) with (S0 * v + (s * / y - S0 * v)) by ring. eapply Rle_trans; [apply Rabs_triang|]. lra. }
  split; [lra|]. replace (z - S0 * v) with ((z - s * / y) + (s * / y - S0 * v)) by ring. eapply Rle_trans; [apply Rabs_triang|].
  pose proof (Rmult_le_compat_l kk0 _ _ ltac:(lra) B) as A. assert (t0 * v <= N * v) by (apply Rmult_le_compat_r; unfold N; lra). assert (h0 <= kk0 * (t0 * v) / 4) by exact Hh.
  assert (kk0 * (t0 * v) <= kk0 * (N * v)).
  { apply Rmult_le_compat_l; lra. }
  lra.
Qed.

Lemma quot_total c s S0 M y Y : total_err c s S0 M -> 14 <= c -> c * kk <= 1 / 50 -> M <= B2 450 -> close 3 0 y Y -> B2 (-400) <= Y -> Y <= B2 400 ->
  ffinite (fdiv s y) /\ Rabs (fval (fdiv s y) - S0 / Y) <= (c + 6) * kk * ((M + tiny) / Y).
Proof.
  intros (Fs & Es & Bs) Hc Hck HM (Fy & Ey) Y1 Y2. pose proof K_small as HK. pose proof tiny_pos as Pt. pose proof tiny_one as T1. pose proof hh_pos as Ph.
  pose proof (bpow_gt_0 radix2 (-400)) as P4. rewrite Rplus_0_r in Ey. assert (NY : Y <> 0) by lra. destruct (div_real kk 3 _ _ HK ltac:(lra) NY Ey) as (Ny & Ei). replace (3 + 1) with 4 in Ei by ring.
  assert (Hh : hh <= kk * (tiny / Y) / 4).
  { assert (E : B2 (-400) <= / Y) by (change (-400)%Z with (- (400))%Z; rewrite bpow_opp; apply Rinv_le_contravar; lra).
    apply Rle_trans with (kk * (tiny * B2 (-400)) / 4).
    - rewrite kk_bpow, tiny_bpow, <- !bpow_plus. replace (B2 (-53 + (-600 + -400)) / 4) with (B2 (-1055)).
      + unfold hh. apply bpow_le. lia.
      + change (-53 + (-600 + -400))%Z with (2 + (-1055))%Z. rewrite bpow_plus. change (B2 2) with 4. field.
    - assert (tiny * B2 (-400) <= tiny / Y) by (apply Rmult_le_compat_l; lra). assert (kk * (tiny * B2 (-400)) <= kk * (tiny / Y)) by (apply Rmult_le_compat_l; lra). lra. }
  assert (Q0 : Rabs (fval s / fval y) <= 2 * ((M + tiny) / Y)).
  { apply (quot_real kk tiny hh c (fval s) S0 M (fval y) Y (fval s / fval y)); try assumption; try lra. replace (fval s / fval y - fval s / fval y) with 0 by ring. rewrite Rabs_R0. pose proof (Rabs_pos (fval s / fval y)). assert (0 <= kk * Rabs (fval s / fval y)) by (apply Rmult_le_pos; lra). lra. }
  assert (QB : Rabs (fval s / fval y) <= B2 900).
  { eapply Rle_trans; [exact Q0|]. assert (E : / Y <= B2 400) by (change 400%Z with (- (-400))%Z; rewrite bpow_opp; apply Rinv_le_contravar; lra).
    assert (0 <= M) by (pose proof (Rabs_pos S0); lra). assert (0 < / Y) by (apply Rinv_0_lt_compat; lra).
    assert (A : (M + tiny) * / Y <= 2 * B2 450 * B2 400) by (apply Rmult_le_compat; lra). unfold Rdiv. apply Rle_trans with (2 * (2 * B2 450 * B2 400)); [lra|].
    replace (2 * (2 * B2 450 * B2 400)) with (B2 2 * (B2 450 * B2 400)) by (change (B2 2) with 4; ring). rewrite <- !bpow_plus. apply bpow_le. lia. }
  destruct (div_op 900 s y ltac:(lia) Fs Fy Ny QB) as ((F3 & _) & E3). split; [exact F3|].
  refine (proj2 (quot_real kk tiny hh c (fval s) S0 M (fval y) Y (fval (fdiv s y)) _ _ _ _ _ _ _ _ _ _)); try assumption; lra.
Qed.

Lemma storage m : moderate_model m -> close 3 0 (fmul (thickness m) (porosity m)) (fval (thickness m) * fval (porosity m)) /\
  B2 (-400) <= fval (thickness m) * fval (porosity m) /\ fval (thickness m) * fval (porosity m) <= B2 400.
Proof.
  intros (_ & _ & _ & _ & Ht & Hp & Lt & Lp). apply moderate_bpow in Ht as (Ft & Bt). apply moderate_bpow in Hp as (Fp & Bp). rewrite huge_bpow, <- bpow_opp in Lt, Lp. change (- (200))%Z with (-200)%Z in Lt, Lp. pose proof (bpow_gt_0 radix2 (-200)) as P2.
  assert (L : B2 (-400) <= fval (thickness m) * fval (porosity m)) by (change (-400)%Z with (-200 + -200)%Z; rewrite bpow_plus; apply Rmult_le_compat; clear - Lt Lp P2; lra).
  assert (U : Rabs (fval (thickness m) * fval (porosity m)) <= B2 400) by exact (abs_mul_le _ _ 200 200 Bt Bp).
  destruct (mul_op 400 _ _ ltac:(lia) Ft Fp U) as ((F3 & _) & E3). pose proof (bpow_gt_0 radix2 (-400)) as P4. rewrite Rabs_pos_eq in U by lra. split; [|split; assumption]. split; [exact F3|].
  set (P := fval (thickness m) * fval (porosity m)) in *. assert (hh <= kk * Rabs P).
  { rewrite Rabs_pos_eq by lra. apply Rle_trans with (kk * B2 (-400)); [rewrite kk_bpow, <- bpow_plus; unfold hh; apply bpow_le; lia|apply Rmult_le_compat_l; [pose proof K_small; lra|exact L]]. }
  assert (0 <= kk * Rabs P) by (apply Rmult_le_pos; [pose proof K_small; lra|apply Rabs_pos]). lra.
Qed.

Lemma err_form2 n M : (18 + 2 * n + 6) * kk * M = (n + 12) / 2 ^ 52 * M.
Proof. unfold kk. field. Qed.

(** C123.  The same of the velocity that [compute_velocity_confined] returns. *)
Lemma c123_velocity : forall (lm : libm) (m : model spec_float) (x y : spec_float),
  moderate_model m -> moderate x -> moderate y -> clear_of_wells (real_model m) (fval x, fval y) -> (Z.of_nat (length (wells m)) <= 10 ^ 12)%Z ->
  let v := @compute_velocity_confined _ (SF lm) m x y in let n := INR (length (wells m)) in let M := real_model m in let X := fval x in let Y := fval y in
  let s := thickness M * porosity M in
  ffinite (fst v) /\ ffinite (snd v) /\
  Rabs (fval (fst v) - discharge_x M X Y / s) <= (n + 12) / 2 ^ 52 * ((load_x M X Y + tiny) / s) /\
  Rabs (fval (snd v) - discharge_y M X Y / s) <= (n + 12) / 2 ^ 52 * ((load_y M X Y + tiny) / s).
Proof.
  intros lm m x y Hm Hx Hy Hc Hn v n M X Y s. destruct (discharge_total lm m x y Hm Hx Hy Hc Hn) as (T1 & T2 & L1 & L2).
  destruct (many_wells _ Hn) as (_ & Hk). destruct (storage m Hm) as (C & B1 & B3). pose proof (pos_INR (length (wells m))) as Pn.
  unfold v, compute_velocity_confined. revert T1 T2. destruct (@compute_discharge _ (SF lm) m x y) as [qx qy]. cbn [fst snd]. intros T1 T2.
  destruct (quot_total _ _ _ _ _ _ T1 ltac:(lra) ltac:(lra) L1 C B1 B3) as (F1 & E1). destruct (quot_total _ _ _ _ _ _ T2 ltac:(lra) ltac:(lra) L2 C B1 B3) as (F2 & E2).
  rewrite err_form2 in E1, E2. exact (conj F1 (conj F2 (conj E1 E2))).
Qed.
