(** * The discharge in binary64 *)
From Coq Require Import ZArith Reals Lra Lia SpecFloat List Psatz.
From Flocq Require Import Core.
From Verif Require Import Py Num NumXR ModelAquifer SpecFloats SpecAquifer SpecTrace SpecPathline SpecRough SpecDischarge
  ProofFloat ProofFloatGrow ProofFloatOps ProofFloatMean ProofFloatGrid ProofDistError ProofFloatDist ProofPi ProofAquifer ProofPathline ProofRoughStep.
Import ListNotations.
Local Open Scope R_scope.

Local Notation fadd := (SFadd fprec femax).
Local Notation fsub := (SFsub fprec femax).
Local Notation fmul := (SFmul fprec femax).
Local Notation fdiv := (SFdiv fprec femax).
Local Notation B2 := (bpow radix2).

(** A number with a relative error of [a] units and an absolute one of [b]. *)
Definition close (a b : R) (x : spec_float) (X : R) : Prop := ffinite x /\ Rabs (fval x - X) <= a * kk * Rabs X + b.

Lemma close_exact x : ffinite x -> close 0 0 x (fval x).
Proof. intros F. split; [exact F|]. replace (fval x - fval x) with 0 by ring. rewrite Rabs_R0. lra. Qed.
Lemma close_size a b x X : close a b x X -> Rabs (fval x) <= (1 + a * kk) * Rabs X + b.
Proof. intros (_ & E). replace (fval x) with (X + (fval x - X)) by ring. eapply Rle_trans; [apply Rabs_triang|]. lra. Qed.
Lemma close_weak a b a' b' x X : a <= a' -> b <= b' -> close a b x X -> close a' b' x X.
Proof.
  intros Ha Hb (F & E). split; [exact F|]. eapply Rle_trans; [exact E|]. pose proof K_small. apply Rplus_le_compat; [|exact Hb].
  apply Rmult_le_compat_r; [apply Rabs_pos|]. apply Rmult_le_compat_r; lra.
Qed.

(** Products. *)
Lemma mul_real kk0 a b c d x y X Y P Q : 0 < kk0 <= / 1000000 -> 0 <= a <= 100 -> 0 <= c <= 100 -> 0 <= b -> 0 <= d ->
  Rabs (x - X) <= a * kk0 * Rabs X + b -> Rabs (y - Y) <= c * kk0 * Rabs Y + d -> Rabs X <= P -> Rabs Y <= Q ->
  Rabs (x * y - X * Y) <= (a + c + 9 / 10) * kk0 * Rabs (X * Y) + 11 / 10 * (b * Q + b * d + P * d).
Proof.
  intros HK Ha Hc Hb Hd Ex Ey HP HQ. pose proof (Rabs_pos X) as PX. pose proof (Rabs_pos Y) as PY. rewrite Rabs_mult.
  set (u := Rabs X) in *. set (v := Rabs Y) in *.
  replace (x * y - X * Y) with ((x - X) * Y + ((x - X) * (y - Y) + X * (y - Y))) by ring.
  pose proof (Rabs_triang ((x - X) * Y) ((x - X) * (y - Y) + X * (y - Y))) as T1. pose proof (Rabs_triang ((x - X) * (y - Y)) (X * (y - Y))) as T2.
  rewrite (Rabs_mult (x - X) Y) in T1. rewrite (Rabs_mult (x - X) (y - Y)), (Rabs_mult X (y - Y)) in T2. fold u v in T1, T2.
  assert (M1 : Rabs (x - X) * v <= (a * kk0 * u + b) * v) by (apply Rmult_le_compat_r; lra).
  assert (M2 : Rabs (x - X) * Rabs (y - Y) <= (a * kk0 * u + b) * (c * kk0 * v + d)) by (apply Rmult_le_compat; try apply Rabs_pos; assumption).
  assert (M3 : u * Rabs (y - Y) <= u * (c * kk0 * v + d)) by (apply Rmult_le_compat_l; lra).
  assert (Puv : 0 <= u * v) by (apply Rmult_le_pos; lra). assert (Pk : 0 <= kk0 * (u * v)) by (apply Rmult_le_pos; lra).
  assert (Akk : a * kk0 <= / 10000) by nra. assert (Ckk : c * kk0 <= / 10000) by nra.
  assert (A1 : a * c * kk0 <= 1 / 100) by (replace (a * c * kk0) with (a * (c * kk0)) by ring; nra).
  assert (A2 : a * c * kk0 * (kk0 * (u * v)) <= 1 / 100 * (kk0 * (u * v))) by (apply Rmult_le_compat_r; lra).
  assert (A3 : b * v <= b * Q) by (apply Rmult_le_compat_l; lra). assert (A4 : u * d <= P * d) by (apply Rmult_le_compat_r; lra).
  assert (A5 : 0 <= b * v) by (apply Rmult_le_pos; lra). assert (A6 : 0 <= u * d) by (apply Rmult_le_pos; lra). assert (A7 : 0 <= b * d) by (apply Rmult_le_pos; lra).
  assert (A8 : a * kk0 * (u * d) <= / 10000 * (u * d)) by (apply Rmult_le_compat_r; lra). assert (A9 : c * kk0 * (b * v) <= / 10000 * (b * v)) by (apply Rmult_le_compat_r; lra).
  replace ((a * kk0 * u + b) * v) with (a * (kk0 * (u * v)) + b * v) in M1 by ring.
  replace ((a * kk0 * u + b) * (c * kk0 * v + d)) with (a * c * kk0 * (kk0 * (u * v)) + a * kk0 * (u * d) + c * kk0 * (b * v) + b * d) in M2 by ring.
  replace (u * (c * kk0 * v + d)) with (c * (kk0 * (u * v)) + u * d) in M3 by ring.
  replace ((a + c + 9 / 10) * kk0 * (u * v)) with (a * (kk0 * (u * v)) + c * (kk0 * (u * v)) + 9 / 10 * (kk0 * (u * v))) by ring.
  lra.
Qed.

Lemma round_real kk0 h0 a b z w W : 0 < kk0 <= / 1000000 -> 0 <= a <= 200 -> 0 <= b -> Rabs (w - W) <= (a + 9 / 10) * kk0 * Rabs W + 11 / 10 * b -> Rabs (z - w) <= kk0 * Rabs w + h0 ->
  Rabs (z - W) <= (a + 2) * kk0 * Rabs W + 2 * b + h0.
Proof.
  intros HK Ha Hb E1 E2. assert (S : Rabs w <= Rabs W + Rabs (w - W)) by (replace w with (W + (w - W)) at 1 by ring; apply Rabs_triang).
  assert (S2 : Rabs (z - W) <= Rabs (z - w) + Rabs (w - W)) by (replace (z - W) with ((z - w) + (w - W)) by ring; apply Rabs_triang).
  pose proof (Rabs_pos W) as PW. assert (Pk : 0 <= kk0 * Rabs W) by (apply Rmult_le_pos; lra).
  assert (A : kk0 * Rabs w <= kk0 * (Rabs W + ((a + 9 / 10) * kk0 * Rabs W + 11 / 10 * b))) by (apply Rmult_le_compat_l; lra).
  assert (Akk : (a + 9 / 10) * kk0 <= 1 / 1000) by nra. assert ((a + 9 / 10) * kk0 * (kk0 * Rabs W) <= 1 / 1000 * (kk0 * Rabs W)) by (apply Rmult_le_compat_r; lra).
  assert (kk0 * b <= 1 / 10 * b) by (apply Rmult_le_compat_r; lra).
  replace (kk0 * (Rabs W + ((a + 9 / 10) * kk0 * Rabs W + 11 / 10 * b))) with (kk0 * Rabs W + (a + 9 / 10) * kk0 * (kk0 * Rabs W) + 11 / 10 * (kk0 * b)) in A by ring. lra.
Qed.

Lemma mul_close n a b c d x y X Y P Q : (-1074 <= n < 1024)%Z -> 0 <= a <= 100 -> 0 <= c <= 100 -> 0 <= b -> 0 <= d -> close a b x X -> close c d y Y ->
  Rabs X <= P -> Rabs Y <= Q -> Rabs (fval x * fval y) <= B2 n ->
  close (a + c + 2) (2 * (b * Q + b * d + P * d) + hh) (fmul x y) (X * Y) /\ Rabs (fval (fmul x y)) <= B2 n.
Proof.
  intros Hn Ha Hc Hb Hd (Fx & Ex) (Fy & Ey) HP HQ B. destruct (mul_op n x y Hn Fx Fy B) as ((F3 & B3) & E3). split; [|exact B3]. split; [exact F3|].
  pose proof (mul_real kk a b c d _ _ _ _ P Q K_small Ha Hc Hb Hd Ex Ey HP HQ) as M.
  assert (P0 : 0 <= P) by (pose proof (Rabs_pos X); lra). assert (Q0 : 0 <= Q) by (pose proof (Rabs_pos Y); lra).
  eapply Rle_trans; [apply (round_real kk hh (a + c) (b * Q + b * d + P * d)) with (w := fval x * fval y); [exact K_small|lra| |exact M|exact E3]|lra].
  pose proof (Rmult_le_pos _ _ Hb Q0). pose proof (Rmult_le_pos _ _ Hb Hd). pose proof (Rmult_le_pos _ _ P0 Hd). lra.
Qed.

(** The reciprocal of a number with a small relative error. *)
Lemma div_real kk0 c y Y : 0 < kk0 <= / 1000000 -> 0 <= c <= 100 -> Y <> 0 -> Rabs (y - Y) <= c * kk0 * Rabs Y -> y <> 0 /\ Rabs (/ y - / Y) <= (c + 1) * kk0 * Rabs (/ Y).
Proof.
  intros HK Hc NY E. assert (PY : 0 < Rabs Y) by now apply Rabs_pos_lt. assert (Ckk : c * kk0 <= / 10000) by nra.
  assert (Sy : 9 / 10 * Rabs Y <= Rabs y).
  { assert (Rabs Y <= Rabs y + Rabs (y - Y)) by (replace Y with (y - (y - Y)) at 1 by ring; eapply Rle_trans; [apply Rabs_triang|]; rewrite Rabs_Ropp; lra). nra. }
  assert (Sy2 : (1 - c * kk0) * Rabs Y <= Rabs y).
  { assert (Rabs Y <= Rabs y + Rabs (y - Y)) by (replace Y with (y - (y - Y)) at 1 by ring; eapply Rle_trans; [apply Rabs_triang|]; rewrite Rabs_Ropp; lra). lra. }
  assert (Ny : y <> 0) by (intros ->; rewrite Rabs_R0 in Sy; lra). split; [exact Ny|].
  replace (/ y - / Y) with ((Y - y) * (/ y * / Y)) by (field; split; assumption). rewrite !Rabs_mult, (Rabs_minus_sym Y), <- Rmult_assoc. apply Rmult_le_compat_r; [apply Rabs_pos|].
  rewrite Rabs_inv. apply Rmult_le_reg_r with (Rabs y); [lra|]. rewrite Rmult_assoc, Rinv_l by lra. rewrite Rmult_1_r.
  apply Rle_trans with (1 := E). apply Rle_trans with ((c + 1) * kk0 * ((1 - c * kk0) * Rabs Y)); [|apply Rmult_le_compat_l; [nra|exact Sy2]].
  replace ((c + 1) * kk0 * ((1 - c * kk0) * Rabs Y)) with ((c + 1) * (1 - c * kk0) * (kk0 * Rabs Y)) by ring. rewrite (Rmult_assoc c). apply Rmult_le_compat_r; [apply Rmult_le_pos; lra|]. nra.
Qed.

Lemma div_close n a b c x y X Y G : (-1074 <= n < 1024)%Z -> 0 <= a <= 90 -> 0 <= c <= 90 -> 0 <= b -> close a b x X -> close c 0 y Y -> Y <> 0 ->
  Rabs (/ Y) <= G -> Rabs (fval x / fval y) <= B2 n ->
  close (a + c + 3) (2 * (b * G) + hh) (fdiv x y) (X / Y) /\ Rabs (fval (fdiv x y)) <= B2 n.
Proof.
  intros Hn Ha Hc Hb (Fx & Ex) (Fy & Ey) NY HG B. rewrite Rplus_0_r in Ey. destruct (div_real kk c _ _ K_small ltac:(lra) NY Ey) as (Ny & Ei).
  destruct (div_op n x y Hn Fx Fy Ny B) as ((F3 & B3) & E3). split; [|exact B3]. split; [exact F3|].
  pose proof (mul_real kk a b (c + 1) 0 (fval x) (/ fval y) X (/ Y) (Rabs X) G K_small ltac:(lra) ltac:(lra) Hb ltac:(lra) Ex ltac:(lra) ltac:(lra) HG) as M.
  replace (a + c + 3) with (a + (c + 1) + 2) by ring.
  assert (G0 : 0 <= G) by (pose proof (Rabs_pos (/ Y)); lra).
  eapply Rle_trans; [apply (round_real kk hh (a + (c + 1)) (b * G)) with (w := fval x / fval y); [exact K_small|lra| | |]|].
  - now apply Rmult_le_pos.
  - eapply Rle_trans; [exact M|]. change (X * / Y) with (X / Y). right. ring.
  - exact E3.
  - unfold Rdiv. lra.
Qed.

Lemma opp_op x : ffinite x -> ffinite (SFopp x) /\ fval (SFopp x) = - fval x.
Proof.
  intros (V & K). destruct x as [s|s| |s m e]; cbn in *; try contradiction; (split; [split; [exact V|exact I]|]); [ring|]. destruct s; cbn; ring.
Qed.
Lemma opp_close a b x X : close a b x X -> close a b (SFopp x) (- X).
Proof. intros (F & E). destruct (opp_op x F) as (F1 & E1). split; [exact F1|]. rewrite E1, Rabs_Ropp. replace (- fval x - - X) with (- (fval x - X)) by ring. now rewrite Rabs_Ropp. Qed.

(** ** Sums *)
Definition total_err (c : R) (s : spec_float) (S0 M : R) : Prop := ffinite s /\ Rabs (fval s - S0) <= c * kk * (M + tiny) /\ Rabs S0 <= M.

Lemma tiny_bpow : tiny = B2 (-600).
Proof. unfold tiny. change (-600)%Z with (- Z.of_nat 600)%Z. rewrite bpow_opp. f_equal. rewrite bpow_powerRZ. apply pow_powerRZ. Qed.
Lemma tiny_pos : 0 < tiny. Proof. rewrite tiny_bpow. apply bpow_gt_0. Qed.
Lemma tiny_one : tiny <= B2 450. Proof. rewrite tiny_bpow. apply bpow_le. lia. Qed.

Lemma sum_real kk0 t0 c s S0 M t T0 m z : 0 < kk0 <= / 1000000 -> 0 < t0 -> 14 <= c -> c * kk0 <= 1 / 100 -> Rabs S0 <= M -> Rabs T0 <= m ->
  Rabs (s - S0) <= c * kk0 * (M + t0) -> Rabs (t - T0) <= 14 * kk0 * Rabs T0 + kk0 * t0 / 2 -> Rabs (z - (s + t)) <= kk0 * Rabs (s + t) ->
  Rabs (s + t) <= 2 * (M + m + t0) /\ Rabs (z - (S0 + T0)) <= (c + 2) * kk0 * (M + m + t0).
Proof.
  intros HK Ht Hc Hck HS HT Es Et Ez. pose proof (Rabs_pos S0). pose proof (Rabs_pos T0).
  assert (E : Rabs (s + t - (S0 + T0)) <= c * kk0 * (M + t0) + (14 * kk0 * Rabs T0 + kk0 * t0 / 2)).
  { replace (s + t - (S0 + T0)) with ((s - S0) + (t - T0)) by ring. eapply Rle_trans; [apply Rabs_triang|]. lra. }
  assert (K1 : 14 * kk0 * Rabs T0 <= c * kk0 * m) by (apply Rmult_le_compat; try lra; nra).
  assert (K2 : kk0 * t0 <= / 1000000 * t0) by (apply Rmult_le_compat_r; lra).
  assert (K3 : c * kk0 * (M + m + t0) <= 1 / 100 * (M + m + t0)) by (apply Rmult_le_compat_r; lra).
  assert (E2 : Rabs (s + t - (S0 + T0)) <= c * kk0 * (M + m + t0) + kk0 * t0 / 2) by lra.
  assert (B : Rabs (s + t) <= 102 / 100 * (M + m + t0)).
  { replace (s + t) with ((S0 + T0) + (s + t - (S0 + T0))) by ring. eapply Rle_trans; [apply Rabs_triang|]. pose proof (Rabs_triang S0 T0). lra. }
  split; [lra|]. replace (z - (S0 + T0)) with ((z - (s + t)) + (s + t - (S0 + T0))) by ring. eapply Rle_trans; [apply Rabs_triang|].
  pose proof (Rmult_le_compat_l kk0 _ _ ltac:(lra) B) as A. assert (0 <= kk0 * M) by (apply Rmult_le_pos; lra). assert (0 <= kk0 * m) by (apply Rmult_le_pos; lra). assert (0 <= kk0 * t0) by (apply Rmult_le_pos; lra). lra.
Qed.

Lemma add_total c s S0 M t T0 m : 14 <= c -> c * kk <= 1 / 100 -> total_err c s S0 M -> close 14 (kk * tiny / 2) t T0 -> Rabs T0 <= m -> M + m <= B2 450 ->
  total_err (c + 2) (fadd s t) (S0 + T0) (M + m).
Proof.
  intros Hc Hck (Fs & Es & Bs) (Ft & Et) Bt HB.
  destruct (add_op 453 s t ltac:(lia) Fs Ft) as ((Fz & _) & Ez).
  { assert (X : Rabs (fval s + fval t) <= 2 * (M + m + tiny)).
    { apply (sum_real kk tiny c _ S0 M _ T0 m (fval s + fval t) K_small tiny_pos Hc Hck Bs Bt Es Et). replace (fval s + fval t - (fval s + fval t)) with 0 by ring. rewrite Rabs_R0. apply Rmult_le_pos; [pose proof K_small; lra|apply Rabs_pos]. }
    eapply Rle_trans; [exact X|]. change 453%Z with (3 + 450)%Z. rewrite bpow_plus. change (B2 3) with 8. pose proof tiny_one. assert (0 < B2 450) by apply bpow_gt_0. lra. }
  destruct (sum_real kk tiny c _ S0 M _ T0 m _ K_small tiny_pos Hc Hck Bs Bt Es Et Ez) as (_ & E).
  split; [exact Fz|]. split; [exact E|]. pose proof (Rabs_triang S0 T0). lra.
Qed.

Lemma first_total b t T0 m : b <= kk * tiny / 2 -> close 14 b t T0 -> Rabs T0 <= m -> total_err 14 t T0 m.
Proof.
  intros Hb (Ft & Et) Bt. split; [exact Ft|]. split; [|exact Bt]. pose proof K_small. pose proof tiny_pos. assert (0 <= kk * tiny) by (apply Rmult_le_pos; lra).
  assert (14 * kk * Rabs T0 <= 14 * kk * m) by (apply Rmult_le_compat_l; lra). lra.
Qed.
Lemma opp_total c s S0 M : total_err c s S0 M -> total_err c (SFopp s) (- S0) M.
Proof.
  intros (F & E & B). destruct (opp_op s F) as (F1 & E1). split; [exact F1|]. rewrite E1, Rabs_Ropp. split; [|exact B]. replace (- fval s - - S0) with (- (fval s - S0)) by ring. now rewrite Rabs_Ropp.
Qed.

(** ** Differences and squared distances *)
Lemma moderate_bpow x : moderate x -> ffinite x /\ Rabs (fval x) <= B2 200.
Proof. unfold moderate. now rewrite huge_bpow. Qed.
Lemma diff_close x y : moderate x -> moderate y -> close 1 0 (fsub x y) (fval x - fval y) /\ Rabs (fval (fsub x y)) <= B2 201 /\ Rabs (fval x - fval y) <= B2 201 /\ approx (fsub x y) (fval x - fval y).
Proof.
  intros Hx Hy. apply moderate_bpow in Hx as (Fx & Bx). apply moderate_bpow in Hy as (Fy & By). pose proof (abs_sub_le _ _ 200 Bx By) as B.
  destruct (sub_op 201 x y ltac:(lia) Fx Fy B) as ((F & B') & E). split; [split; [exact F|lra]|]. split; [exact B'|]. split; [exact B|]. split; [split; assumption|exact E].
Qed.

Definition two_pi_inv : spec_float := S754_finite false 5734161139222659 (-55).
Lemma k2pi_value lm : @k2pi _ (SF lm) = two_pi_inv. Proof. vm_compute. reflexivity. Qed.
Lemma two_pi_val : ffinite two_pi_inv /\ fval two_pi_inv = 2 * kappa.
Proof.
  split; [split; [reflexivity|exact I]|]. unfold fval, two_pi_inv, kappa. change (powerRZ 2 (-55)) with (/ 2 ^ 55). field.
Qed.
Lemma kappa_size : 0 < 2 * kappa <= 1 / 6. Proof. unfold kappa. lra. Qed.

Lemma hh_under : 4 * (hh * B2 400) + 3 * hh <= kk * tiny / 2.
Proof.
  assert (E : kk * tiny = 32768 * (hh * B2 400) * B2 7). { rewrite kk_bpow, tiny_bpow. unfold hh. change 32768 with (B2 15). rewrite <- !bpow_plus. reflexivity. }
  rewrite E. change (B2 7) with 128. assert (0 < hh) by apply hh_pos. assert (1 <= B2 400) by (change 1 with (B2 0); apply bpow_le; lia). nra.
Qed.

Lemma well_term x y w (d : spec_float) (D0 : R) r2 R2 : moderate (wq w) -> close 1 0 d D0 -> Rabs (fval d) <= B2 201 -> Rabs D0 <= B2 201 ->
  close 6 0 r2 R2 -> B2 (-400) <= R2 -> x = fval (wq w) -> y = - x * D0 / R2 ->
  close 14 (kk * tiny / 2) (fmul (fdiv (fmul (SFopp (wq w)) d) r2) two_pi_inv) (y * (2 * kappa)) /\ Rabs (y * (2 * kappa)) <= Rabs x * Rabs D0 / (6 * R2).
Proof.
  intros Hq Hd Bd BD Hr HR Ex Ey. apply moderate_bpow in Hq as (Fq & Bq). destruct (opp_op _ Fq) as (Fo & Eo).
  pose proof hh_pos as Hh. assert (P400 : 0 < B2 (-400)) by apply bpow_gt_0. assert (P4 : 0 < B2 400) by apply bpow_gt_0.
  assert (Ho : close 0 0 (SFopp (wq w)) (- x)) by (rewrite Ex, <- Eo; now apply close_exact).
  assert (Bo : Rabs (fval (SFopp (wq w))) <= B2 200) by (rewrite Eo, Rabs_Ropp; exact Bq).
  assert (Bx : Rabs (- x) <= B2 200) by (rewrite Ex, <- Eo; exact Bo).
  destruct (mul_close 401 0 0 1 0 _ _ _ _ (B2 200) (B2 201) ltac:(lia) ltac:(lra) ltac:(lra) ltac:(lra) ltac:(lra) Ho Hd Bx BD (abs_mul_le _ _ 200 201 Bo Bd)) as (C1 & B1).
  set (n1 := fmul (SFopp (wq w)) d) in *.
  apply (close_weak _ _ 3 hh) in C1; [|lra|lra].
  assert (NR : R2 <> 0) by lra. assert (GR : Rabs (/ R2) <= B2 400).
  { rewrite Rabs_inv, Rabs_pos_eq by lra. change 400%Z with (- (-400))%Z. rewrite bpow_opp. apply Rinv_le_contravar; lra. }
  assert (Br : Rabs (fval n1 / fval r2) <= B2 802).
  { destruct Hr as (_ & Er). rewrite Rplus_0_r in Er. destruct (div_real kk 6 _ _ K_small ltac:(lra) NR Er) as (Nr & Ei).
    assert (S : Rabs (/ fval r2) <= B2 401).
    { replace (/ fval r2) with (/ R2 + (/ fval r2 - / R2)) by ring. eapply Rle_trans; [apply Rabs_triang|]. change 401%Z with (1 + 400)%Z. rewrite bpow_plus. change (B2 1) with 2.
      pose proof K_small. pose proof (Rabs_pos (/ R2)). assert ((6 + 1) * kk * Rabs (/ R2) <= 1 * Rabs (/ R2)) by (apply Rmult_le_compat_r; lra). lra. }
    unfold Rdiv. exact (abs_mul_le _ _ 401 401 B1 S). }
  destruct (div_close 802 3 hh 6 _ _ _ _ (B2 400) ltac:(lia) ltac:(lra) ltac:(lra) ltac:(lra) C1 Hr NR GR Br) as (C2 & Bq2).
  set (n2 := fdiv n1 r2) in *. rewrite <- Ey in C2. destruct two_pi_val as (F2 & E2). pose proof kappa_size as KS.
  assert (H2 : close 0 0 two_pi_inv (2 * kappa)) by (rewrite <- E2; now apply close_exact).
  destruct (mul_close 802 (3 + 6 + 3) (2 * (hh * B2 400) + hh) 0 0 n2 two_pi_inv y (2 * kappa) (Rabs y) 1 ltac:(lia) ltac:(lra) ltac:(lra)) as (C3 & _).
  - assert (0 <= hh * B2 400) by (apply Rmult_le_pos; lra). lra.
  - lra.
  - exact C2.
  - exact H2.
  - lra.
  - rewrite Rabs_pos_eq; lra.
  - rewrite E2. rewrite Rabs_mult, (Rabs_pos_eq (2 * kappa)) by lra. pose proof (Rabs_pos (fval n2)). nra.
  - split.
    + eapply close_weak; [| |exact C3]; [lra|]. pose proof hh_under. lra.
    + rewrite Rabs_mult, (Rabs_pos_eq (2 * kappa)) by lra. rewrite Ey. unfold Rdiv. rewrite !Rabs_mult, Rabs_Ropp, Rabs_inv, (Rabs_pos_eq R2) by lra.
      replace (Rabs x * Rabs D0 * / (6 * R2)) with (Rabs x * Rabs D0 * / R2 * (1 / 6)) by (field; lra). apply Rmult_le_compat_l; [|lra].
      apply Rmult_le_pos; [apply Rmult_le_pos; apply Rabs_pos|]. left. apply Rinv_0_lt_compat. lra.
Qed.

Lemma square_dist dx dy X Y : approx dx X -> approx dy Y -> B2 (-400) <= X * X + Y * Y -> close 6 0 (fadd (fmul dx dx) (fmul dy dy)) (X * X + Y * Y).
Proof.
  intros Hx Hy HR. assert (PR : 0 < X * X + Y * Y) by (pose proof (bpow_gt_0 radix2 (-400)); lra).
  destruct (dot_op dx dx dy dy X X Y Y (X * X + Y * Y) Hx Hx Hy Hy) as ((F & _) & E).
  { rewrite !Rabs_pos_eq by (apply Rle_0_sqr || nra). lra. }
  split; [exact F|]. eapply Rle_trans; [exact E|]. rewrite Rabs_pos_eq by lra.
  assert (4 * hh <= kk * (X * X + Y * Y)); [|lra]. apply Rle_trans with (kk * B2 (-400)); [|apply Rmult_le_compat_l; [pose proof K_small; lra|exact HR]].
  rewrite kk_bpow. unfold hh. change 4 with (B2 2). rewrite <- !bpow_plus. apply bpow_le. lia.
Qed.

Lemma apart_square m x y w : clear_of_wells m (x, y) -> In w (wells m) -> B2 (-400) <= wdist2 w x y.
Proof.
  intros Hc Hw. specialize (Hc w Hw). unfold pdist in Hc. cbn [fst snd] in Hc. rewrite huge_bpow in Hc. unfold wdist2.
  replace ((wx w - x) * (wx w - x) + (wy w - y) * (wy w - y)) with ((x - wx w) * (x - wx w) + (y - wy w) * (y - wy w)) in Hc by ring. set (s := (x - wx w) * (x - wx w) + (y - wy w) * (y - wy w)) in *.
  assert (0 <= s) by (unfold s; apply Rplus_le_le_0_compat; apply Rle_0_sqr). rewrite <- (sqrt_sqrt s) by assumption. replace (B2 (-400)) with (/ B2 200 * / B2 200).
  - assert (0 < / B2 200) by (apply Rinv_0_lt_compat, bpow_gt_0). apply Rmult_le_compat; lra.
  - rewrite <- bpow_opp, <- bpow_plus. reflexivity.
Qed.

(** ** Wells *)
Lemma wells_total lm x y : moderate x -> moderate y -> forall ws c sx sy X Y MX MY,
  (forall w, In w ws -> moderate (wx w) /\ moderate (wy w) /\ moderate (wq w) /\ B2 (-400) <= wdist2 (real_well w) (fval x) (fval y)) ->
  let gx := fun w => Rabs (wq w) * Rabs (fval x - wx w) / (6 * wdist2 w (fval x) (fval y)) in
  let gy := fun w => Rabs (wq w) * Rabs (fval y - wy w) / (6 * wdist2 w (fval x) (fval y)) in
  14 <= c -> (c + 2 * INR (length ws)) * kk <= 1 / 100 -> total_err c sx X MX -> total_err c sy Y MY ->
  MX + Rsum gx (map real_well ws) <= B2 450 -> MY + Rsum gy (map real_well ws) <= B2 450 ->
  let r := fold_left (fun q w =>
                 let dx := fsub x (wx w) in let dy := fsub y (wy w) in let r2 := fadd (fmul dx dx) (fmul dy dy) in
                 (fadd (fst q) (fmul (fdiv (fmul (SFopp (wq w)) dx) r2) (@k2pi _ (SF lm))), fadd (snd q) (fmul (fdiv (fmul (SFopp (wq w)) dy) r2) (@k2pi _ (SF lm))))) ws (sx, sy) in
  total_err (c + 2 * INR (length ws)) (fst r) (X + 2 * kappa * Rsum (fun w => wqx w (fval x) (fval y)) (map real_well ws)) (MX + Rsum gx (map real_well ws)) /\
  total_err (c + 2 * INR (length ws)) (snd r) (Y + 2 * kappa * Rsum (fun w => wqy w (fval x) (fval y)) (map real_well ws)) (MY + Rsum gy (map real_well ws)).
Proof.
  intros Hx Hy. induction ws as [|w ws IH]; intros c sx sy X Y MX MY HW gx gy Hc Hck TX TY BX BY.
  - cbn [fold_left fst snd length INR map Rsum fold_right]. rewrite !Rmult_0_r, !Rplus_0_r. split; assumption.
  - cbn [length] in *. rewrite S_INR in *. cbn [map Rsum fold_right] in *. fold (Rsum gx (map real_well ws)) in *. fold (Rsum gy (map real_well ws)) in *.
    fold (Rsum (fun w => wqx w (fval x) (fval y)) (map real_well ws)). fold (Rsum (fun w => wqy w (fval x) (fval y)) (map real_well ws)).
    destruct (HW w (or_introl eq_refl)) as (W1 & W2 & W3 & W4). cbv zeta. cbn [fold_left]. cbn [fst snd].
    destruct (diff_close x (wx w) Hx W1) as (D1 & D2 & D3 & D4). destruct (diff_close y (wy w) Hy W2) as (E1 & E2 & E3 & E4).
    unfold wdist2 in W4. cbn [wx wy real_well] in W4. pose proof (square_dist _ _ _ _ D4 E4 W4) as R2.
    destruct (well_term (fval (wq w)) (wqx (real_well w) (fval x) (fval y)) w _ _ _ _ W3 D1 D2 D3 R2 W4 eq_refl eq_refl) as (T1 & B1).
    destruct (well_term (fval (wq w)) (wqy (real_well w) (fval x) (fval y)) w _ _ _ _ W3 E1 E2 E3 R2 W4 eq_refl eq_refl) as (T2 & B2').
    rewrite <- (k2pi_value lm) in T1, T2.
    pose proof K_small as HK. pose proof (pos_INR (length ws)) as Pn.
    assert (Gp : forall l, (forall v, In v l -> 0 <= gx v /\ 0 <= gy v) -> 0 <= Rsum gx l /\ 0 <= Rsum gy l).
    { induction l as [|v l IHl]; intros Hl; [cbn; lra|]. cbn [Rsum fold_right]. fold (Rsum gx l) (Rsum gy l). destruct (Hl v (or_introl eq_refl)). destruct (IHl (fun u Hu => Hl u (or_intror Hu))). lra. }
    assert (Gq : 0 <= Rsum gx (map real_well ws) /\ 0 <= Rsum gy (map real_well ws)).
    { apply Gp. intros v Hv. apply in_map_iff in Hv as (v' & <- & Hv). destruct (HW v' (or_intror Hv)) as (_ & _ & _ & P). pose proof (bpow_gt_0 radix2 (-400)).
      unfold gx, gy, Rdiv. split; (apply Rmult_le_pos; [apply Rmult_le_pos; apply Rabs_pos|left; apply Rinv_0_lt_compat; lra]). }
    assert (Hck1 : c * kk <= 1 / 100) by nra.
    assert (A1 := add_total c sx X MX _ _ (gx (real_well w)) Hc Hck1 TX T1 B1 ltac:(lra)).
    assert (A2 := add_total c sy Y MY _ _ (gy (real_well w)) Hc Hck1 TY T2 B2' ltac:(lra)).
    destruct (IH (c + 2) _ _ _ _ _ _ (fun v Hv => HW v (or_intror Hv)) ltac:(lra) ltac:(replace (c + 2 + 2 * INR (length ws)) with (c + 2 * (INR (length ws) + 1)) by ring; exact Hck) A1 A2 ltac:(fold gx; lra) ltac:(fold gy; lra)) as (Q1 & Q2).
    fold gx in Q1. fold gy in Q2.
    split.
    + replace (c + 2 * (INR (length ws) + 1)) with (c + 2 + 2 * INR (length ws)) by ring.
      match goal with |- total_err _ _ ?a ?b => match type of Q1 with total_err _ _ ?a' ?b' => replace a with a' by ring; replace b with b' by ring end end. exact Q1.
    + replace (c + 2 * (INR (length ws) + 1)) with (c + 2 + 2 * INR (length ws)) by ring.
      match goal with |- total_err _ _ ?a ?b => match type of Q2 with total_err _ _ ?a' ?b' => replace a with a' by ring; replace b with b' by ring end end. exact Q2.
Qed.
