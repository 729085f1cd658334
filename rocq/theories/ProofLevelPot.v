(** * Accuracy of the potential in binary64 *)
From Coq Require Import ZArith Reals Lra Lia SpecFloat List Psatz.
From Flocq Require Import Core.
From Verif Require Import Py Num NumXR ModelAquifer SpecFloats SpecAquifer SpecTrace SpecPathline SpecRough SpecDischarge
  ProofFloat ProofFloatGrow ProofFloatOps ProofFloatMean ProofFloatGrid ProofDistError ProofFloatDist ProofPi ProofAquifer ProofPathline ProofRoughStep ProofDischargeFloat ProofDischargeAcc SpecLevel.
Import ListNotations.
Local Open Scope R_scope.

Local Notation fadd := (SFadd fprec femax).
Local Notation fsub := (SFsub fprec femax).
Local Notation fmul := (SFmul fprec femax).
Local Notation fdiv := (SFdiv fprec femax).
Local Notation B2 := (bpow radix2).

(** ** Sums *)
Lemma sum_real_g kk0 t0 g c s S0 M t T0 m z : 0 < kk0 <= / 1000000 -> 0 < t0 -> 1 <= g -> g <= c -> c * kk0 <= 1 / 50 -> Rabs S0 <= M -> Rabs T0 <= m ->
  Rabs (s - S0) <= c * kk0 * (M + t0) -> Rabs (t - T0) <= g * kk0 * m + kk0 * t0 / 2 -> Rabs (z - (s + t)) <= kk0 * Rabs (s + t) ->
  Rabs (s + t) <= 2 * (M + m + t0) /\ Rabs (z - (S0 + T0)) <= (c + 2) * kk0 * (M + m + t0).
Proof.
  intros HK Ht Hg Hc Hck HS HT Es Et Ez. pose proof (Rabs_pos S0). pose proof (Rabs_pos T0). set (N := M + m + t0). assert (PN : 0 < N) by (unfold N; lra). assert (PkN : 0 <= kk0 * N) by (apply Rmult_le_pos; lra).
  assert (G : g * kk0 * m <= c * kk0 * m) by (apply Rmult_le_compat_r; [lra|apply Rmult_le_compat_r; lra]). assert (Kt : kk0 * t0 <= kk0 * N) by (apply Rmult_le_compat_l; [lra|unfold N; lra]).
  assert (E : Rabs (s + t - (S0 + T0)) <= c * (kk0 * N) + kk0 * N / 2).
  { replace (s + t - (S0 + T0)) with ((s - S0) + (t - T0)) by ring. eapply Rle_trans; [apply Rabs_triang|]. replace (c * (kk0 * N)) with (c * kk0 * (M + t0) + c * kk0 * m) by (unfold N; ring). lra. }
  assert (CN : c * (kk0 * N) <= 1 / 50 * N) by (rewrite <- Rmult_assoc; apply Rmult_le_compat_r; lra).
  assert (KN : kk0 * N <= / 1000000 * N) by (apply Rmult_le_compat_r; lra).
  assert (S : Rabs (s + t) <= 3 / 2 * N).
  { replace (s + t) with ((S0 + T0) + (s + t - (S0 + T0))) by ring. eapply Rle_trans; [apply Rabs_triang|]. pose proof (Rabs_triang S0 T0). unfold N in *. lra. }
  split; [lra|]. replace (z - (S0 + T0)) with ((z - (s + t)) + (s + t - (S0 + T0))) by ring. eapply Rle_trans; [apply Rabs_triang|].
  assert (kk0 * Rabs (s + t) <= kk0 * (3 / 2 * N)) by (apply Rmult_le_compat_l; lra). replace ((c + 2) * kk0 * N) with (c * (kk0 * N) + 2 * (kk0 * N)) by ring. lra.
Qed.

Lemma add_total_g g c s S0 M t T0 m : 1 <= g -> g <= c -> c * kk <= 1 / 50 -> total_err c s S0 M -> ffinite t -> Rabs (fval t - T0) <= g * kk * m + kk * tiny / 2 -> Rabs T0 <= m -> M + m <= B2 700 ->
  total_err (c + 2) (fadd s t) (S0 + T0) (M + m).
Proof.
  intros Hg Hc Hck (Fs & Es & Bs) Ft Et Bt HB. pose proof K_small as HK. pose proof tiny_pos as Pt.
  assert (T7 : tiny <= B2 700) by (rewrite tiny_bpow; apply bpow_le; lia).
  assert (X : Rabs (fval s + fval t) <= B2 702).
  { destruct (sum_real_g kk tiny g c (fval s) S0 M (fval t) T0 m (fval s + fval t) HK Pt Hg Hc Hck Bs Bt Es Et) as (X & _).
    - replace (fval s + fval t - (fval s + fval t)) with 0 by ring. rewrite Rabs_R0. apply Rmult_le_pos; [lra|apply Rabs_pos].
    - eapply Rle_trans; [exact X|]. change 702%Z with (2 + 700)%Z. rewrite bpow_plus. change (B2 2) with 4. lra. }
  destruct (add_op 702 s t ltac:(lia) Fs Ft X) as ((Fz & _) & Ez).
  destruct (sum_real_g kk tiny g c (fval s) S0 M (fval t) T0 m (fval (fadd s t)) HK Pt Hg Hc Hck Bs Bt Es Et Ez) as (_ & E).
  split; [exact Fz|]. split; [exact E|]. eapply Rle_trans; [apply Rabs_triang|]. lra.
Qed.
Lemma add_close c s S0 M t T0 m : 14 <= c -> c * kk <= 1 / 50 -> total_err c s S0 M -> close 14 (kk * tiny / 2) t T0 -> Rabs T0 <= m -> M + m <= B2 700 -> total_err (c + 2) (fadd s t) (S0 + T0) (M + m).
Proof.
  intros Hc Hck Hs (Ft & Et) Bt HB. apply (add_total_g 14); try assumption; try lra. pose proof K_small. assert (14 * kk * Rabs T0 <= 14 * kk * m) by (apply Rmult_le_compat_l; lra). lra.
Qed.

(** Two such sums. *)
Lemma add_totals K a b s S0 M t T0 m : 1 <= K -> a <= K -> b <= K -> K * kk <= 1 / 60 -> total_err a s S0 M -> total_err b t T0 m -> M + m <= B2 700 ->
  ffinite (fadd s t) /\ Rabs (fval (fadd s t) - (S0 + T0)) <= (K + 2) * kk * (M + m + 2 * tiny) /\ Rabs (S0 + T0) <= M + m.
Proof.
  intros HK1 Ha Hb Hck (Fs & Es & Bs) (Ft & Et & Bt) HB. pose proof K_small as HK. pose proof tiny_pos as Pt. pose proof (Rabs_pos S0) as PS. pose proof (Rabs_pos T0) as PT.
  set (N := M + m + 2 * tiny). assert (PN : 0 < N) by (unfold N; lra).
  assert (Es' : Rabs (fval s - S0) <= K * kk * (M + tiny)) by (eapply Rle_trans; [exact Es|]; apply Rmult_le_compat_r; [lra|apply Rmult_le_compat_r; lra]).
  assert (Et' : Rabs (fval t - T0) <= K * kk * (m + tiny)) by (eapply Rle_trans; [exact Et|]; apply Rmult_le_compat_r; [lra|apply Rmult_le_compat_r; lra]).
  assert (E : Rabs (fval s + fval t - (S0 + T0)) <= K * kk * N).
  { replace (fval s + fval t - (S0 + T0)) with ((fval s - S0) + (fval t - T0)) by ring. eapply Rle_trans; [apply Rabs_triang|]. replace (K * kk * N) with (K * kk * (M + tiny) + K * kk * (m + tiny)) by (unfold N; ring). lra. }
  assert (KN : K * kk * N <= 1 / 60 * N) by (apply Rmult_le_compat_r; lra).
  assert (S : Rabs (fval s + fval t) <= 3 / 2 * N).
  { replace (fval s + fval t) with ((S0 + T0) + (fval s + fval t - (S0 + T0))) by ring. eapply Rle_trans; [apply Rabs_triang|]. pose proof (Rabs_triang S0 T0). unfold N in *. lra. }
  assert (T7 : tiny <= B2 700) by (rewrite tiny_bpow; apply bpow_le; lia).
  destruct (add_op 703 s t ltac:(lia) Fs Ft) as ((Fz & _) & Ez).
  { eapply Rle_trans; [exact S|]. change 703%Z with (3 + 700)%Z. rewrite bpow_plus. change (B2 3) with 8. unfold N. lra. }
  split; [exact Fz|]. split; [|eapply Rle_trans; [apply Rabs_triang|]; lra].
  replace (fval (fadd s t) - (S0 + T0)) with ((fval (fadd s t) - (fval s + fval t)) + (fval s + fval t - (S0 + T0))) by ring. eapply Rle_trans; [apply Rabs_triang|].
  assert (kk * Rabs (fval s + fval t) <= kk * (3 / 2 * N)) by (apply Rmult_le_compat_l; lra). assert (0 <= kk * N) by (apply Rmult_le_pos; lra). replace ((K + 2) * kk * N) with (K * kk * N + 2 * (kk * N)) by ring. lra.
Qed.

(** ** The regional flow *)
Lemma under_regional : 8 * (hh * B2 402) <= kk * tiny / 2.
Proof.
  rewrite ProofRoughStep.kk_bpow, tiny_bpow. unfold hh. replace (8 * (B2 (-1075) * B2 402)) with (B2 3 * (B2 (-1075) * B2 402)) by reflexivity. rewrite <- !bpow_plus.
  replace (B2 (-53 + -600) / 2) with (B2 (-654)); [apply bpow_le; lia|]. change (-53 + -600)%Z with (1 + -654)%Z. rewrite bpow_plus. change (B2 1) with 2. field.
Qed.

Lemma regional_pot A B C D E F dx dy X Y : moderate A -> moderate B -> moderate C -> moderate D -> moderate E -> moderate F -> close 1 0 dx X -> close 1 0 dy Y ->
  Rabs (fval dx) <= B2 201 -> Rabs (fval dy) <= B2 201 -> Rabs X <= B2 201 -> Rabs Y <= B2 201 ->
  let M := Rabs (fval A) * (X * X) + Rabs (fval B) * (Y * Y) + Rabs (fval C) * Rabs X * Rabs Y + Rabs (fval D) * Rabs X + Rabs (fval E) * Rabs Y + Rabs (fval F) in
  M <= B2 620 /\
  total_err 24 (fadd (fadd (fadd (fadd (fadd (fmul A (fmul dx dx)) (fmul B (fmul dy dy))) (fmul (fmul C dx) dy)) (fmul D dx)) (fmul E dy)) F)
    (fval A * (X * X) + fval B * (Y * Y) + fval C * (X * Y) + fval D * X + fval E * Y + fval F) M.
Proof.
  intros HA HB HC HD HE HF Hdx Hdy Bdx Bdy BX BY M.
  pose proof hh_pos as Hh. pose proof under_regional as HU. pose proof K_small as HK. assert (P201 : 1 <= B2 201) by (change 1 with (B2 0); apply bpow_le; lia).
  assert (L2 : B2 201 <= B2 402) by (apply bpow_le; lia). assert (L3 : B2 200 <= B2 402) by (apply bpow_le; lia).
  assert (Q1 : hh <= hh * B2 402) by (rewrite <- (Rmult_1_r hh) at 1; apply Rmult_le_compat_l; lra). assert (Q2 : hh * B2 201 <= hh * B2 402) by (apply Rmult_le_compat_l; lra). assert (Q3 : hh * B2 200 <= hh * B2 402) by (apply Rmult_le_compat_l; lra).
  assert (Q4 : 0 <= hh * B2 200) by (apply Rmult_le_pos; [lra|apply bpow_ge_0]). assert (Q5 : 0 <= hh * B2 201) by (apply Rmult_le_pos; [lra|apply bpow_ge_0]).
  assert (Sq : forall A d Z, moderate A -> close 1 0 d Z -> Rabs (fval d) <= B2 201 -> Rabs Z <= B2 201 -> close 14 (kk * tiny / 2) (fmul A (fmul d d)) (fval A * (Z * Z)) /\ Rabs (fval A) * (Z * Z) <= B2 602).
  { clear - Hh HU HK P201 L2 L3 Q1 Q2 Q3 Q4 Q5. intros A d Z HA Hd Bd BZ. apply moderate_bpow in HA as (FA & BA).
    destruct (mul_close 402 1 0 1 0 d d Z Z (B2 201) (B2 201) ltac:(lia) ltac:(lra) ltac:(lra) ltac:(lra) ltac:(lra) Hd Hd BZ BZ (abs_mul_le _ _ 201 201 Bd Bd)) as (C1 & B1).
    apply (close_weak _ _ 4 hh) in C1; [|lra|lra]. pose proof (abs_mul_le _ _ 201 201 BZ BZ) as BZZ. change (201 + 201)%Z with 402%Z in BZZ.
    destruct (mul_close 602 0 0 4 hh A (fmul d d) (fval A) (Z * Z) (B2 200) (B2 402) ltac:(lia) ltac:(lra) ltac:(lra) ltac:(lra) ltac:(lra) (close_exact A FA) C1 BA BZZ (abs_mul_le _ _ 200 402 BA B1)) as (C2 & _).
    split; [refine (close_weak _ _ 14 (kk * tiny / 2) _ _ _ _ C2); lra|]. rewrite <- (Rabs_pos_eq (Z * Z)) by apply Rle_0_sqr. rewrite <- Rabs_mult. exact (abs_mul_le _ _ 200 402 BA BZZ). }
  assert (Ln : forall A d Z, moderate A -> close 1 0 d Z -> Rabs (fval d) <= B2 201 -> Rabs Z <= B2 201 -> close 3 hh (fmul A d) (fval A * Z) /\ Rabs (fval (fmul A d)) <= B2 401 /\ Rabs (fval A) * Rabs Z <= B2 401).
  { clear - Hh. intros A d Z HA Hd Bd BZ. apply moderate_bpow in HA as (FA & BA).
    destruct (mul_close 401 0 0 1 0 A d (fval A) Z (B2 200) (B2 201) ltac:(lia) ltac:(lra) ltac:(lra) ltac:(lra) ltac:(lra) (close_exact A FA) Hd BA BZ (abs_mul_le _ _ 200 201 BA Bd)) as (C1 & B1).
    split; [refine (close_weak _ _ 3 hh _ _ _ _ C1); lra|]. split; [exact B1|]. rewrite <- Rabs_mult. exact (abs_mul_le _ _ 200 201 BA BZ). }
  destruct (Sq A dx X HA Hdx Bdx BX) as (T1 & M1). destruct (Sq B dy Y HB Hdy Bdy BY) as (T2 & M2).
  destruct (Ln C dx X HC Hdx Bdx BX) as (T3' & B3 & M3'). destruct (Ln D dx X HD Hdx Bdx BX) as (T4' & _ & M4). destruct (Ln E dy Y HE Hdy Bdy BY) as (T5' & _ & M5).
  assert (BCX : Rabs (fval C * X) <= B2 401) by (rewrite Rabs_mult; exact M3').
  destruct (mul_close 602 3 hh 1 0 _ _ _ _ (B2 401) (B2 201) ltac:(lia) ltac:(lra) ltac:(lra) ltac:(lra) ltac:(lra) T3' Hdy BCX BY (abs_mul_le _ _ 401 201 B3 Bdy)) as (T3 & _).
  assert (M3 : Rabs (fval C) * Rabs X * Rabs Y <= B2 602) by (rewrite <- !Rabs_mult; exact (abs_mul_le _ _ 401 201 BCX BY)).
  apply (close_weak _ _ 14 (kk * tiny / 2)) in T3; [|lra|lra]. apply (close_weak _ _ 14 (kk * tiny / 2)) in T4'; [|lra|lra]. apply (close_weak _ _ 14 (kk * tiny / 2)) in T5'; [|lra|lra].
  apply moderate_bpow in HF as (FF & BF). assert (T6 : close 14 (kk * tiny / 2) F (fval F)) by (apply (close_weak 0 0); [lra| |now apply close_exact]; lra).
  assert (P602 : B2 401 <= B2 602) by (apply bpow_le; lia). assert (P200 : B2 200 <= B2 602) by (apply bpow_le; lia). pose proof (bpow_gt_0 radix2 602) as P6.
  assert (P620 : B2 620 = 262144 * B2 602) by (change 620%Z with (18 + 602)%Z; rewrite bpow_plus; reflexivity). assert (P700 : B2 620 <= B2 700) by (apply bpow_le; lia).
  assert (N1 : 0 <= Rabs (fval A) * (X * X)) by (apply Rmult_le_pos; [apply Rabs_pos|apply Rle_0_sqr]). assert (N2 : 0 <= Rabs (fval B) * (Y * Y)) by (apply Rmult_le_pos; [apply Rabs_pos|apply Rle_0_sqr]).
  assert (N3 : 0 <= Rabs (fval C) * Rabs X * Rabs Y) by (repeat apply Rmult_le_pos; apply Rabs_pos). assert (N4 : 0 <= Rabs (fval D) * Rabs X) by (apply Rmult_le_pos; apply Rabs_pos). assert (N5 : 0 <= Rabs (fval E) * Rabs Y) by (apply Rmult_le_pos; apply Rabs_pos).
  pose proof (Rabs_pos (fval F)) as N6. assert (BM : M <= B2 620) by (unfold M; lra). split; [exact BM|]. unfold M in BM |- *. clear M.
  assert (A1 : total_err 14 (fmul A (fmul dx dx)) (fval A * (X * X)) (Rabs (fval A) * (X * X))).
  { apply (first_total (kk * tiny / 2)); [lra|exact T1|]. rewrite Rabs_mult, (Rabs_pos_eq (X * X)) by apply Rle_0_sqr. lra. }
  pose proof (add_close 14 _ _ _ _ _ (Rabs (fval B) * (Y * Y)) ltac:(lra) ltac:(lra) A1 T2) as A2. specialize (A2 ltac:(rewrite Rabs_mult, (Rabs_pos_eq (Y * Y)) by apply Rle_0_sqr; lra) ltac:(lra)).
  pose proof (add_close (14 + 2) _ _ _ _ _ (Rabs (fval C) * Rabs X * Rabs Y) ltac:(lra) ltac:(lra) A2 T3) as A3. specialize (A3 ltac:(rewrite !Rabs_mult; lra) ltac:(lra)).
  pose proof (add_close (14 + 2 + 2) _ _ _ _ _ (Rabs (fval D) * Rabs X) ltac:(lra) ltac:(lra) A3 T4') as A4. specialize (A4 ltac:(rewrite !Rabs_mult; lra) ltac:(lra)).
  pose proof (add_close (14 + 2 + 2 + 2) _ _ _ _ _ (Rabs (fval E) * Rabs Y) ltac:(lra) ltac:(lra) A4 T5') as A5. specialize (A5 ltac:(rewrite !Rabs_mult; lra) ltac:(lra)).
  pose proof (add_close (14 + 2 + 2 + 2 + 2) _ _ _ _ _ (Rabs (fval F)) ltac:(lra) ltac:(lra) A5 T6) as A6. specialize (A6 ltac:(lra) ltac:(lra)).
  replace 24 with (14 + 2 + 2 + 2 + 2 + 2) by ring. replace (fval C * (X * Y)) with (fval C * X * Y) by ring. exact A6.
Qed.

(** ** Logarithms *)
Lemma ln_below x : 0 < x -> ln x <= x - 1.
Proof.
  intros Hx. destruct (Req_dec (ln x) 0) as [E|N].
  - rewrite E. assert (x = 1) by (apply ln_inv; [exact Hx|lra|rewrite ln_1; exact E]). lra.
  - pose proof (exp_ineq1 (ln x) N) as I. rewrite exp_ln in I by exact Hx. lra.
Qed.
Lemma ln_over a b : 0 < a -> 0 < b -> ln (a / b) = ln a - ln b.
Proof. intros Ha Hb. unfold Rdiv. rewrite ln_mult, ln_Rinv by (try apply Rinv_0_lt_compat; assumption). reflexivity. Qed.
Lemma ln_near e r R2 : 0 < R2 -> 0 <= e <= / 100 -> Rabs (r - R2) <= e * R2 -> 0 < r /\ Rabs (ln r - ln R2) <= 7 / 6 * e.
Proof.
  intros HR He H. assert (B : - (e * R2) <= r - R2 <= e * R2) by (apply Rabs_le_inv; exact H).
  assert (e * R2 <= / 100 * R2) by (apply Rmult_le_compat_r; lra). assert (Pr : 0 < r) by lra. split; [exact Pr|].
  assert (U : ln r - ln R2 <= e).
  { rewrite <- ln_over by assumption. eapply Rle_trans; [apply ln_below; apply Rdiv_lt_0_compat; assumption|]. apply Rmult_le_reg_r with R2; [exact HR|]. replace ((r / R2 - 1) * R2) with (r - R2) by (field; lra). lra. }
  assert (L : ln R2 - ln r <= 7 / 6 * e).
  { rewrite <- ln_over by assumption. eapply Rle_trans; [apply ln_below; apply Rdiv_lt_0_compat; assumption|]. apply Rmult_le_reg_r with r; [exact Pr|]. replace ((R2 / r - 1) * r) with (R2 - r) by (field; lra).
    apply Rle_trans with (e * R2); [lra|]. assert (6 / 7 * R2 <= r) by lra. assert (e * (6 / 7 * R2) <= e * r) by (apply Rmult_le_compat_l; lra). lra. }
  unfold Rabs. destruct (Rcase_abs _); lra.
Qed.
Lemma two_exp n : 2 ^ n <= exp (INR n).
Proof.
  induction n as [|n IH]; [cbn; rewrite exp_0; lra|]. rewrite S_INR, exp_plus. cbn [pow]. pose proof (exp_ineq1 1 ltac:(lra)) as I. pose proof (pow_lt 2 n ltac:(lra)). rewrite Rmult_comm. apply Rmult_le_compat; lra.
Qed.
Lemma ln_size R2 : B2 (-400) <= R2 -> R2 <= B2 403 -> Rabs (ln R2) <= 403.
Proof.
  intros L U. pose proof (bpow_gt_0 radix2 (-400)) as P. assert (PR : 0 < R2) by lra.
  assert (Mono : forall a b, 0 < a -> a <= b -> ln a <= ln b) by (intros a b Ha [Hab| ->]; [left; now apply ln_increasing|right; reflexivity]).
  assert (E1 : B2 403 = 2 ^ 403) by (rewrite bpow_powerRZ; symmetry; apply (pow_powerRZ 2 403)). assert (E2 : B2 (-400) = / 2 ^ 400) by (change (-400)%Z with (- Z.of_nat 400)%Z; rewrite bpow_opp; f_equal; rewrite bpow_powerRZ; symmetry; apply (pow_powerRZ 2 400)).
  assert (A1 : ln R2 <= 403).
  { rewrite <- (ln_exp 403). apply Mono; [exact PR|]. eapply Rle_trans; [exact U|]. rewrite E1. eapply Rle_trans; [apply two_exp|]. rewrite INR_IZR_INZ. right. reflexivity. }
  assert (A2 : - 400 <= ln R2).
  { replace (- 400) with (Ropp (IZR 400)) by lra. rewrite <- (ln_exp (Ropp (IZR 400))). apply Mono; [apply exp_pos|]. eapply Rle_trans; [|exact L]. rewrite E2, exp_Ropp. apply Rinv_le_contravar; [apply pow_lt; lra|]. eapply Rle_trans; [apply two_exp|]. rewrite INR_IZR_INZ. right. reflexivity. }
  unfold Rabs. destruct (Rcase_abs _); lra.
Qed.

(** ** Wells *)
Definition four_pi_inv : spec_float := S754_finite false 5734161139222659 (-56).
Lemma k4pi_value lm : @k4pi _ (SF lm) = four_pi_inv. Proof. vm_compute. reflexivity. Qed.
Lemma four_pi_val : ffinite four_pi_inv /\ fval four_pi_inv = kappa.
Proof. split; [split; [reflexivity|exact I]|]. unfold fval, four_pi_inv, kappa. change (powerRZ 2 (-56)) with (/ 2 ^ 56). field. Qed.

Lemma term_real kk0 h0 e u k L l W z1 z2 : 0 < kk0 <= / 1000000 -> 0 <= h0 -> 0 <= e <= / 100 -> 0 < k <= 1 / 12 -> 1 <= W -> Rabs l <= W -> Rabs (L - l) <= e * W ->
  Rabs (z1 - u * L) <= kk0 * Rabs (u * L) + h0 -> Rabs (z2 - z1 * k) <= kk0 * Rabs (z1 * k) + h0 ->
  Rabs (z2 - u * l * k) <= (e + 5 / 2 * kk0) * (Rabs u * W / 12) + 2 * h0.
Proof.
  intros HK Hh He Hk HW Hl EL E1 E2. set (U := Rabs u * W). assert (PU : 0 <= U) by (apply Rmult_le_pos; [apply Rabs_pos|lra]). pose proof (Rabs_pos u) as Pu.
  assert (BL : Rabs L <= 101 / 100 * W).
  { replace L with (l + (L - l)) by ring. eapply Rle_trans; [apply Rabs_triang|]. assert (e * W <= / 100 * W) by (apply Rmult_le_compat_r; lra). lra. }
  assert (BuL : Rabs (u * L) <= 101 / 100 * U) by (rewrite Rabs_mult; unfold U; replace (101 / 100 * (Rabs u * W)) with (Rabs u * (101 / 100 * W)) by ring; apply Rmult_le_compat_l; lra).
  assert (KU : kk0 * Rabs (u * L) <= kk0 * (101 / 100 * U)) by (apply Rmult_le_compat_l; lra). assert (PkU : 0 <= kk0 * U) by (apply Rmult_le_pos; lra).
  assert (KU2 : kk0 * U <= / 1000000 * U) by (apply Rmult_le_compat_r; lra).
  assert (Bz : Rabs z1 <= 102 / 100 * U + h0).
  { replace z1 with (u * L + (z1 - u * L)) by ring. eapply Rle_trans; [apply Rabs_triang|]. lra. }
  assert (D1 : Rabs (z1 - u * l) <= e * U + kk0 * (101 / 100 * U) + h0).
  { replace (z1 - u * l) with ((z1 - u * L) + u * (L - l)) by ring. eapply Rle_trans; [apply Rabs_triang|]. rewrite (Rabs_mult u (L - l)). assert (Rabs u * Rabs (L - l) <= Rabs u * (e * W)) by (apply Rmult_le_compat_l; lra).
    replace (e * U) with (Rabs u * (e * W)) by (unfold U; ring). lra. }
  assert (D2 : Rabs (z1 * k) <= (102 / 100 * U + h0) * (1 / 12)) by (rewrite Rabs_mult, (Rabs_pos_eq k) by lra; apply Rmult_le_compat; try apply Rabs_pos; lra).
  assert (D3 : Rabs (z1 * k - u * l * k) <= (e * U + kk0 * (101 / 100 * U) + h0) * (1 / 12)).
  { replace (z1 * k - u * l * k) with ((z1 - u * l) * k) by ring. rewrite Rabs_mult, (Rabs_pos_eq k) by lra. apply Rmult_le_compat; try apply Rabs_pos; lra. }
  assert (KD : kk0 * Rabs (z1 * k) <= kk0 * ((102 / 100 * U + h0) * (1 / 12))) by (apply Rmult_le_compat_l; lra).
  assert (Kh : kk0 * h0 <= / 1000000 * h0) by (apply Rmult_le_compat_r; lra).
  replace (z2 - u * l * k) with ((z2 - z1 * k) + (z1 * k - u * l * k)) by ring. eapply Rle_trans; [apply Rabs_triang|].
  replace ((e + 5 / 2 * kk0) * (Rabs u * W / 12)) with (e * U / 12 + 5 / 2 * (kk0 * U) / 12) by (unfold U; field). lra.
Qed.

Lemma hh_mini : 2 * hh <= kk * tiny / 2.
Proof. pose proof under_regional. pose proof hh_pos. assert (1 <= B2 402) by (change 1 with (B2 0); apply bpow_le; lia). assert (hh * 1 <= hh * B2 402) by (apply Rmult_le_compat_l; lra). lra. Qed.

Lemma log_term lm eps q r2 R2 : 0 <= eps <= / 1000 -> log_within lm eps -> moderate q -> close 6 0 r2 R2 -> B2 (-400) <= R2 -> R2 <= B2 403 ->
  let t := fmul (fmul q (lm_log lm r2)) (@k4pi _ (SF lm)) in let m := Rabs (fval q) * (1 + Rabs (ln R2)) / 12 in
  ffinite t /\ Rabs (fval t - fval q * ln R2 * kappa) <= (14 + 2 * eps / kk) * kk * m + kk * tiny / 2 /\ Rabs (fval q * ln R2 * kappa) <= m /\ m <= B2 210.
Proof.
  intros He HL Hq (F2 & E2) L U t m. apply moderate_bpow in Hq as (Fq & Bq). pose proof K_small as HK. pose proof hh_pos as Hh. pose proof (bpow_gt_0 radix2 (-400)) as P4. rewrite Rplus_0_r, (Rabs_pos_eq R2) in E2 by lra.
  destruct (ln_near (6 * kk) (fval r2) R2 ltac:(lra) ltac:(lra) ltac:(lra)) as (Pr & Ln). pose proof (ln_size R2 L U) as LS. destruct four_pi_val as (Fk & Ek).
  assert (Rg : / 2 ^ 401 <= fval r2 <= 2 ^ 404).
  { assert (X1 : / 2 ^ 401 = B2 (-401)) by (change (-401)%Z with (- Z.of_nat 401)%Z; rewrite bpow_opp; f_equal; rewrite bpow_powerRZ; apply (pow_powerRZ 2 401)). assert (X2 : 2 ^ 404 = B2 404) by (rewrite bpow_powerRZ; apply (pow_powerRZ 2 404)). rewrite X1, X2.
    assert (Y1 : B2 (-400) = 2 * B2 (-401)) by (change (-400)%Z with (1 + -401)%Z; rewrite bpow_plus; reflexivity). assert (Y2 : B2 404 = 2 * B2 403) by (change 404%Z with (1 + 403)%Z; rewrite bpow_plus; reflexivity).
    assert (6 * kk * R2 <= / 100 * R2) by (apply Rmult_le_compat_r; lra). assert (B : - (6 * kk * R2) <= fval r2 - R2 <= 6 * kk * R2) by (apply Rabs_le_inv; lra). lra. }
  destruct (HL r2 F2 Rg) as (FL & EL). set (Lg := lm_log lm r2) in *. set (l := ln R2) in *. set (W := 1 + Rabs l). pose proof (Rabs_pos l) as Pl. assert (HW : 1 <= W) by (unfold W; lra).
  assert (Lr : Rabs (ln (fval r2)) <= Rabs l + 7 * kk).
  { replace (ln (fval r2)) with (l + (ln (fval r2) - l)) by ring. eapply Rle_trans; [apply Rabs_triang|]. lra. }
  assert (EW : Rabs (fval Lg - l) <= (2 * eps + 7 * kk) * W).
  { replace (fval Lg - l) with ((fval Lg - ln (fval r2)) + (ln (fval r2) - l)) by ring. eapply Rle_trans; [apply Rabs_triang|].
    assert (eps * (1 + Rabs (ln (fval r2))) <= eps * (2 * W)) by (apply Rmult_le_compat_l; [lra|unfold W; lra]). assert (7 * kk * 1 <= 7 * kk * W) by (apply Rmult_le_compat_l; lra). lra. }
  assert (BL : Rabs (fval Lg) <= B2 10).
  { replace (fval Lg) with (l + (fval Lg - l)) by ring. eapply Rle_trans; [apply Rabs_triang|]. change (B2 10) with 1024. assert ((2 * eps + 7 * kk) * W <= / 100 * W) by (apply Rmult_le_compat_r; lra). unfold W in *. lra. }
  destruct (mul_op 210 q Lg ltac:(lia) Fq FL (abs_mul_le _ _ 200 10 Bq BL)) as ((F3 & B3) & E3).
  assert (Bk : Rabs (fval four_pi_inv) <= B2 0) by (rewrite Ek; change (B2 0) with 1; rewrite Rabs_pos_eq; unfold kappa; lra).
  unfold t. rewrite k4pi_value. destruct (mul_op 210 (fmul q Lg) four_pi_inv ltac:(lia) F3 Fk (abs_mul_le _ _ 210 0 B3 Bk)) as ((F4 & _) & E4). rewrite Ek in E4.
  assert (T := term_real kk hh (2 * eps + 7 * kk) (fval q) kappa (fval Lg) l W _ _ HK ltac:(lra) ltac:(lra) ltac:(unfold kappa; lra) HW ltac:(unfold W; lra) EW E3 E4). fold W in m. fold m in T.
  assert (Pm : 0 <= m) by (unfold m; apply Rmult_le_pos; [apply Rmult_le_pos; [apply Rabs_pos|lra]|lra]). pose proof hh_mini as HM.
  split; [exact F4|]. split.
  - eapply Rle_trans; [exact T|]. replace ((14 + 2 * eps / kk) * kk * m) with ((14 * kk + 2 * eps) * m) by (field; lra). assert ((2 * eps + 7 * kk + 5 / 2 * kk) * m <= (14 * kk + 2 * eps) * m) by (apply Rmult_le_compat_r; lra). lra.
  - split.
    + unfold m, W. rewrite !Rabs_mult, (Rabs_pos_eq kappa) by (unfold kappa; lra). pose proof (Rabs_pos (fval q)) as Pq. assert (Rabs (fval q) * Rabs l <= Rabs (fval q) * (1 + Rabs l)) by (apply Rmult_le_compat_l; lra).
      assert (0 <= Rabs (fval q) * Rabs l) by (apply Rmult_le_pos; lra). assert (Rabs (fval q) * Rabs l * kappa <= Rabs (fval q) * (1 + Rabs l) * (1 / 12)) by (apply Rmult_le_compat; [lra|unfold kappa; lra|lra|unfold kappa; lra]). lra.
    + unfold m. change 210%Z with (200 + 10)%Z. rewrite bpow_plus. change (B2 10) with 1024. pose proof (bpow_gt_0 radix2 200). assert (Rabs (fval q) * W <= B2 200 * 404) by (apply Rmult_le_compat; [apply Rabs_pos|lra|lra|unfold W; lra]). lra.
Qed.

Lemma wells_pot lm eps x y : 0 <= eps <= / 1000 -> log_within lm eps -> moderate x -> moderate y -> forall ws c s S0 M,
  (forall w, In w ws -> moderate (wx w) /\ moderate (wy w) /\ moderate (wq w) /\ B2 (-400) <= wdist2 (real_well w) (fval x) (fval y)) ->
  let g := fun w => Rabs (wq w) * (1 + Rabs (ln (wdist2 w (fval x) (fval y)))) / 12 in
  14 + 2 * eps / kk <= c -> (c + 2 * INR (length ws)) * kk <= 1 / 60 -> total_err c s S0 M -> M + INR (length ws) * B2 210 <= B2 260 ->
  let r := fold_left (fun pot w => let dx := fsub x (wx w) in let dy := fsub y (wy w) in let r2 := fadd (fmul dx dx) (fmul dy dy) in
                        fadd pot (fmul (fmul (wq w) (lm_log lm r2)) (@k4pi _ (SF lm)))) ws s in
  total_err (c + 2 * INR (length ws)) r (S0 + kappa * Rsum (fun w => wpot w (fval x) (fval y)) (map real_well ws)) (M + Rsum g (map real_well ws)) /\ Rsum g (map real_well ws) <= INR (length ws) * B2 210.
Proof.
  intros He HL Hx Hy. induction ws as [|w ws IH]; intros c s S0 M HW g Hc Hck TX BM.
  - cbn [fold_left length INR map Rsum fold_right]. rewrite !Rmult_0_r, !Rplus_0_r. split; [assumption|lra].
  - cbn [length] in *. rewrite S_INR in *. cbn [map Rsum fold_right] in *. fold (Rsum g (map real_well ws)) in *. fold (Rsum (fun w => wpot w (fval x) (fval y)) (map real_well ws)).
    destruct (HW w (or_introl eq_refl)) as (W1 & W2 & W3 & W4). cbv zeta. cbn [fold_left].
    destruct (diff_close x (wx w) Hx W1) as (D1 & D2 & D3 & D4). destruct (diff_close y (wy w) Hy W2) as (E1 & E2 & E3 & E4).
    unfold wdist2 in W4. cbn [wx wy real_well] in W4. pose proof (square_dist _ _ _ _ D4 E4 W4) as R2.
    assert (U4 : (fval x - fval (wx w)) * (fval x - fval (wx w)) + (fval y - fval (wy w)) * (fval y - fval (wy w)) <= B2 403).
    { pose proof (abs_mul_le _ _ 201 201 D3 D3) as Q1. pose proof (abs_mul_le _ _ 201 201 E3 E3) as Q2. rewrite Rabs_pos_eq in Q1, Q2 by apply Rle_0_sqr. change (201 + 201)%Z with 402%Z in Q1, Q2. change 403%Z with (1 + 402)%Z. rewrite bpow_plus. change (B2 1) with 2. lra. }
    destruct (log_term lm eps (wq w) _ _ He HL W3 R2 W4 U4) as (F1 & T1 & B1 & G1).
    pose proof K_small as HK. pose proof (pos_INR (length ws)) as Pn. pose proof (bpow_gt_0 radix2 210) as P210. pose proof (bpow_gt_0 radix2 260) as P260. assert (PnB : 0 <= INR (length ws) * B2 210) by (apply Rmult_le_pos; lra).
    assert (Hck1 : c * kk <= 1 / 60) by nra. assert (P700 : B2 260 <= B2 700) by (apply bpow_le; lia).
    assert (He2 : 0 <= 2 * eps / kk) by (apply Rmult_le_pos; [lra|left; apply Rinv_0_lt_compat; lra]).
    set (l := ln ((fval x - fval (wx w)) * (fval x - fval (wx w)) + (fval y - fval (wy w)) * (fval y - fval (wy w)))) in *.
    change (g (real_well w)) with (Rabs (fval (wq w)) * (1 + Rabs l) / 12). set (gw := Rabs (fval (wq w)) * (1 + Rabs l) / 12) in *.
    pose proof (add_total_g (14 + 2 * eps / kk) c s S0 M _ _ gw ltac:(lra) Hc ltac:(lra) TX F1 T1 B1 ltac:(lra)) as A1.
    destruct (IH (c + 2) _ _ _ (fun v Hv => HW v (or_intror Hv)) ltac:(lra) ltac:(replace (c + 2 + 2 * INR (length ws)) with (c + 2 * (INR (length ws) + 1)) by ring; exact Hck) A1 ltac:(lra)) as (Q1 & Q2).
    assert (Q2' : Rsum g (map real_well ws) <= INR (length ws) * B2 210) by exact Q2. split; [|change (gw + Rsum g (map real_well ws) <= (INR (length ws) + 1) * B2 210); lra]. replace (c + 2 * (INR (length ws) + 1)) with (c + 2 + 2 * INR (length ws)) by ring. rewrite <- Rplus_assoc.
    replace (S0 + kappa * (wpot (real_well w) (fval x) (fval y) + Rsum (fun w => wpot w (fval x) (fval y)) (map real_well ws))) with (S0 + fval (wq w) * l * kappa + kappa * Rsum (fun w => wpot w (fval x) (fval y)) (map real_well ws)).
    + exact Q1.
    + unfold wpot at 2. unfold l, wdist2. cbn [wx wy wq real_well]. ring.
Qed.

Lemma k_few n eps : (Z.of_nat n <= 10 ^ 12)%Z -> 0 <= eps <= / 1000 -> INR n <= 1000000000000 /\ (24 + 2 * eps / kk + 2 * INR n) * kk <= 1 / 60.
Proof.
  intros H He. destruct (many_wells n H) as (A & B). split; [exact A|]. pose proof K_small as HK. replace ((24 + 2 * eps / kk + 2 * INR n) * kk) with ((18 + 2 * INR n) * kk + 6 * kk + 2 * eps) by (field; lra). lra.
Qed.

Lemma potential_total lm eps m x y : 0 <= eps <= / 1000 -> log_within lm eps -> moderate_model m -> moderate x -> moderate y -> clear_of_wells (real_model m) (fval x, fval y) -> (Z.of_nat (length (wells m)) <= 10 ^ 12)%Z ->
  let p := @compute_potential _ (SF lm) m x y in let M := real_model m in
  ffinite p /\ Rabs (fval p - potential M (fval x) (fval y)) <= (24 + 2 * eps / kk + 2 * INR (length (wells m)) + 2) * kk * (load_p M (fval x) (fval y) + 2 * tiny) /\
  Rabs (potential M (fval x) (fval y)) <= load_p M (fval x) (fval y) /\ load_p M (fval x) (fval y) <= B2 630.
Proof.
  intros He HL (Hxo & Hyo & Hc & Hw & _) Hx Hy Hcl Hn p M. destruct (k_few _ eps Hn He) as (Nn & Nk). pose proof K_small as HK.
  destruct (diff_close x (xo m) Hx Hxo) as (D1 & D2 & D3 & _). destruct (diff_close y (yo m) Hy Hyo) as (E1 & E2 & E3 & _).
  assert (CA : moderate (cA (ModelAquifer.coef m)) /\ moderate (cB (ModelAquifer.coef m)) /\ moderate (cC (ModelAquifer.coef m)) /\ moderate (cD (ModelAquifer.coef m)) /\ moderate (cE (ModelAquifer.coef m)) /\ moderate (cF (ModelAquifer.coef m))).
  { repeat split; apply Hc; unfold coef_list; cbn; tauto. }
  destruct CA as (HA & HB & HC & HD & HE & HF).
  destruct (regional_pot _ _ _ _ _ _ _ _ _ _ HA HB HC HD HE HF D1 E1 D2 E2 D3 E3) as (MX & TX).
  assert (Hw' : forall w, In w (wells m) -> moderate (wx w) /\ moderate (wy w) /\ moderate (wq w) /\ B2 (-400) <= wdist2 (real_well w) (fval x) (fval y)).
  { intros w Iw. destruct (Hw w Iw) as (W1 & W2 & W3). repeat split; try apply W1; try apply W2; try apply W3. apply (apart_square (real_model m) _ _ _ Hcl). cbn [real_model wells]. now apply in_map. }
  assert (He2 : 0 <= 2 * eps / kk) by (apply Rmult_le_pos; [lra|left; apply Rinv_0_lt_compat; lra]). pose proof (pos_INR (length (wells m))) as Pn. pose proof tiny_pos as Pt.
  assert (Z0 : total_err (14 + 2 * eps / kk) (f_of_Z 0) 0 0).
  { destruct (of_small 0 ltac:(lia)) as (F0 & E0). split; [exact F0|]. rewrite E0. replace (0 - 0) with 0 by ring. rewrite !Rabs_R0. split; [|lra]. repeat apply Rmult_le_pos; lra. }
  assert (S260 : INR (length (wells m)) * B2 210 <= B2 260).
  { change 260%Z with (50 + 210)%Z. rewrite bpow_plus. apply Rmult_le_compat_r; [apply bpow_ge_0|]. change (B2 50) with 1125899906842624. lra. }
  destruct (wells_pot lm eps x y He HL Hx Hy (wells m) (14 + 2 * eps / kk) (f_of_Z 0) 0 0 Hw' (Rle_refl _)) as (T1 & G1); [|exact Z0|rewrite Rplus_0_l; exact S260|].
  { eapply Rle_trans; [|exact Nk]. apply Rmult_le_compat_r; lra. }
  rewrite !Rplus_0_l in T1. assert (P260 : B2 260 <= B2 620) by (apply bpow_le; lia). assert (P630 : B2 630 = 1024 * B2 620) by (change 630%Z with (10 + 620)%Z; rewrite bpow_plus; reflexivity). assert (P700 : B2 630 <= B2 700) by (apply bpow_le; lia). pose proof (bpow_gt_0 radix2 620) as P6.
  assert (LP : load_p M (fval x) (fval y) <= B2 630) by (unfold load_p, M; cbn [ModelAquifer.coef real_model real_coef cA cB cC cD cE cF xo yo wells]; lra).
  destruct (add_totals (24 + 2 * eps / kk + 2 * INR (length (wells m))) 24 (14 + 2 * eps / kk + 2 * INR (length (wells m))) _ _ _ _ _ _ ltac:(lra) ltac:(lra) ltac:(lra) Nk TX T1) as (F & E & B).
  { eapply Rle_trans; [|exact P700]. exact LP. }
  assert (Off : off_wells (wells M) (fval x) (fval y)).
  { intros w Iw (Q1 & Q2). pose proof (apart_square M _ _ w Hcl Iw) as P. unfold wdist2 in P. rewrite Q1, Q2 in P. pose proof (bpow_gt_0 radix2 (-400)). replace ((wx w - wx w) * (wx w - wx w) + (wy w - wy w) * (wy w - wy w)) with 0 in P by ring. lra. }
  rewrite potential_eq by exact Off. split; [exact F|]. split; [exact E|]. split; [exact B|exact LP].
Qed.

(** C126.  The potential that [compute_potential] returns in binary64 differs from the exact one by at most a fixed number of units in the
    last place, growing with the number of wells, and twice the error of the logarithm, of the sum of the absolute values of its parts. *)
Lemma c126_potential : forall (lm : libm) (eps : R) (m : model spec_float) (x y : spec_float), 0 <= eps <= / 1000 -> log_within lm eps ->
  moderate_model m -> moderate x -> moderate y -> clear_of_wells (real_model m) (fval x, fval y) -> (Z.of_nat (length (wells m)) <= 10 ^ 12)%Z ->
  let p := @compute_potential _ (SF lm) m x y in let n := INR (length (wells m)) in let M := real_model m in let X := fval x in let Y := fval y in
  ffinite p /\ Rabs (fval p - potential M X Y) <= ((n + 13) / 2 ^ 52 + 2 * eps) * (load_p M X Y + 2 * tiny).
Proof.
  intros lm eps m x y He HL Hm Hx Hy Hc Hn p n M X Y. destruct (potential_total lm eps m x y He HL Hm Hx Hy Hc Hn) as (F & E & _). split; [exact F|].
  eapply Rle_trans; [exact E|]. right. unfold n, M, X, Y. set (N := load_p _ _ _ + _). replace ((24 + 2 * eps / kk + 2 * INR (length (wells m)) + 2) * kk) with ((26 + 2 * INR (length (wells m))) * kk + 2 * eps) by (field; pose proof K_small; lra). unfold kk. field.
Qed.
