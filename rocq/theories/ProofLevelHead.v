(** * Accuracy of the head in binary64 *)
From Coq Require Import ZArith Reals Lra Lia SpecFloat List Psatz.
From Flocq Require Import Core BinarySingleNaN.
From Verif Require Import Py Num NumXR ModelAquifer SpecFloats SpecAquifer SpecTrace SpecPathline SpecRough SpecDischarge
  ProofFloat ProofFloatGrow ProofFloatOps ProofFloatMean ProofFloatGrid ProofDistError ProofFloatDist ProofPi ProofAquifer ProofHead ProofPathline ProofRoughStep ProofDischargeFloat ProofDischargeAcc ProofFloatTrace SpecLevel ProofLevelPot.
Import ListNotations.
Local Open Scope R_scope.

Local Notation fadd := (SFadd fprec femax).
Local Notation fsub := (SFsub fprec femax).
Local Notation fmul := (SFmul fprec femax).
Local Notation fdiv := (SFdiv fprec femax).
Local Notation fsqrt := (SFsqrt fprec femax).
Local Notation B2 := (bpow radix2).
Local Notation fx := (FLT_exp (-1074) 53).
Local Notation rd := (round radix2 fx ZnearestE).

(** ** The head as a function of the potential *)
Lemma girinskii_slope K H a b : 0 < K -> 0 < H -> 0 < b -> b <= a -> K * Rmin b H * (a - b) <= girinskii K H a - girinskii K H b.
Proof.
  intros HK HH Hb Hab. unfold girinskii. destruct (Rlt_dec b H) as [L|L], (Rlt_dec a H) as [L'|L'].
  - rewrite Rmin_left by lra. assert (0 <= K * ((a - b) * (a - b))) by (apply Rmult_le_pos; [lra|apply Rle_0_sqr]). lra.
  - rewrite Rmin_left by lra. assert (0 <= K * ((H - b) * (a - (H + b) / 2))) by (apply Rmult_le_pos; [lra|apply Rmult_le_pos; lra]). lra.
  - lra.
  - rewrite Rmin_right by lra. lra.
Qed.
Lemma girinskii_depth K H h : 0 < K -> 0 < H -> 0 < h -> K * (Rmin h H * Rmin h H) / 2 <= girinskii K H h.
Proof.
  intros HK HH Hh. unfold girinskii. destruct (Rlt_dec h H) as [L|L]; [rewrite Rmin_left by lra; lra|]. rewrite Rmin_right by lra. assert (0 <= K * (H * (h - H))) by (apply Rmult_le_pos; [lra|apply Rmult_le_pos; lra]). lra.
Qed.

Lemma head_near K H p p0 e : 0 < K -> 0 < H -> 0 < p0 -> Rabs (p - p0) <= e -> 100 * e <= p0 -> 0 < p /\
  Rabs (head_at K H p - head_at K H p0) <= 2 * e / (K * Rmin (head_at K H p0) H).
Proof.
  intros HK HH Hp0 Hp He. apply Rabs_le_inv in Hp. assert (Pp : 0 < p) by lra. split; [exact Pp|].
  destruct (girinskii_head K H p HK HH Pp) as (A & GA & _). destruct (girinskii_head K H p0 HK HH Hp0) as (B & GB & _). set (a := head_at K H p) in *. set (b := head_at K H p0) in *.
  set (s := Rmin b H). assert (Ps : 0 < s) by (unfold s; apply Rmin_glb_lt; assumption). assert (PKs : 0 < K * s) by now apply Rmult_lt_0_compat.
  assert (G : forall c d r, 0 < r -> s / 2 <= r -> 0 <= c - d -> K * r * (c - d) <= e -> c - d <= 2 * e / (K * s)).
  { intros c d r Pr Hr Hcd HE. apply Rmult_le_reg_r with (K * s); [exact PKs|]. unfold Rdiv. rewrite Rmult_assoc, Rinv_l, Rmult_1_r by lra.
    assert (K * (s / 2) * (c - d) <= K * r * (c - d)) by (apply Rmult_le_compat_r; [exact Hcd|apply Rmult_le_compat_l; lra]). lra. }
  destruct (Rle_or_lt b a) as [C|C].
  - rewrite Rabs_pos_eq by lra. apply (G a b s); try lra. pose proof (girinskii_slope K H a b HK HH B C) as S. fold s in S. lra.
  - rewrite Rabs_left by lra. replace (- (a - b)) with (b - a) by ring. apply (G b a (Rmin a H)); [now apply Rmin_glb_lt| |lra|].
    + unfold Rmin at 1. destruct (Rle_dec a H) as [L|L]; [|unfold s; pose proof (Rmin_r b H); lra].
      destruct (Req_dec a H) as [->|N]; [pose proof (Rmin_r b H); unfold s; lra|]. unfold girinskii in GA at 1. destruct (Rlt_dec a H); [|lra].
      pose proof (girinskii_depth K H b HK HH B) as D. fold s in D. rewrite GB in D. destruct (Rle_or_lt (s / 2) a) as [Q|Q]; [exact Q|].
      assert (a * a <= s / 2 * (s / 2)) by (apply Rmult_le_compat; lra). assert (K * (a * a) <= K * (s / 2 * (s / 2))) by (apply Rmult_le_compat_l; lra). lra.
    + pose proof (girinskii_slope K H b a HK HH A ltac:(lra)) as S. lra.
Qed.

(** The two formulas for the head near the potential where they meet. *)
Lemma formulas_near kk0 K h P : 0 < kk0 <= / 1000000 -> 0 < K -> 0 < h -> 0 < P -> Rabs (P - K * (h * h) / 2) <= 12 * kk0 * (K * (h * h) / 2) ->
  Rabs (sqrt (2 * P / K) - (P + K * (h * h) / 2) / (K * h)) <= kk0 * h /\ 9 / 10 * h <= sqrt (2 * P / K) /\ 9 / 10 * h <= (P + K * (h * h) / 2) / (K * h).
Proof.
  intros HK0 HK Hh HP E. set (r := sqrt (2 * P / K)). assert (P2 : 0 < 2 * P / K) by (apply Rmult_lt_0_compat; [lra|now apply Rinv_0_lt_compat]).
  assert (Pr : 0 < r) by now apply sqrt_lt_R0. assert (RR : r * r = 2 * P / K) by (apply sqrt_sqrt; lra). assert (EP : P = K * (r * r) / 2) by (rewrite RR; field; lra).
  assert (Q : Rabs (r * r - h * h) <= 12 * kk0 * (h * h)).
  { rewrite EP in E. replace (K * (r * r) / 2 - K * (h * h) / 2) with (K / 2 * (r * r - h * h)) in E by field. rewrite Rabs_mult, (Rabs_pos_eq (K / 2)) in E by lra.
    apply Rmult_le_reg_l with (K / 2); lra. }
  assert (D : Rabs (r - h) <= 12 * kk0 * h).
  { apply Rmult_le_reg_r with h; [exact Hh|]. apply Rle_trans with (Rabs (r * r - h * h)); [|lra]. replace (r * r - h * h) with ((r - h) * (r + h)) by ring. rewrite Rabs_mult, (Rabs_pos_eq (r + h)) by lra. apply Rmult_le_compat_l; [apply Rabs_pos|lra]. }
  assert (kh : kk0 * h <= / 1000000 * h) by (apply Rmult_le_compat_r; lra).
  assert (EB : (P + K * (h * h) / 2) / (K * h) = (r * r + h * h) / (2 * h)) by (rewrite EP; field; lra). rewrite EB.
  assert (ED : r - (r * r + h * h) / (2 * h) = - ((r - h) * (r - h) / (2 * h))) by (field; lra). rewrite ED, Rabs_Ropp.
  assert (SQ : (r - h) * (r - h) <= (12 * kk0 * h) * (12 * kk0 * h)).
  { rewrite <- (Rabs_pos_eq ((r - h) * (r - h))) by apply Rle_0_sqr. rewrite Rabs_mult. apply Rmult_le_compat; try apply Rabs_pos; exact D. }
  assert (SB : (r - h) * (r - h) / (2 * h) <= kk0 * h).
  { apply Rmult_le_reg_r with (2 * h); [lra|]. unfold Rdiv. rewrite Rmult_assoc, Rinv_l, Rmult_1_r by lra. eapply Rle_trans; [exact SQ|].
    replace (12 * kk0 * h * (12 * kk0 * h)) with (144 * kk0 * (kk0 * (h * h))) by ring. replace (kk0 * h * (2 * h)) with (2 * (kk0 * (h * h))) by ring. apply Rmult_le_compat_r; [|lra]. apply Rmult_le_pos; [lra|apply Rle_0_sqr]. }
  assert (S0 : 0 <= (r - h) * (r - h) / (2 * h)) by (apply Rmult_le_pos; [apply Rle_0_sqr|left; apply Rinv_0_lt_compat; lra]). apply Rabs_le_inv in D.
  split; [rewrite Rabs_pos_eq by exact S0; exact SB|]. split; lra.
Qed.

(** ** Operations of binary64 *)
Lemma sqrt_rd x : ffinite x -> 0 <= fval x -> ffinite (fsqrt x) /\ fval (fsqrt x) = rd (sqrt (fval x)).
Proof.
  intros Hx P. destruct (finite_b x Hx) as (a & -> & Fa & Ea). rewrite <- Ea in *. rewrite sfsqrt_bsqrt. pose proof (Bsqrt_correct fprec femax ProofFloatTrace.Hprec ProofFloatTrace.Hmax mode_NE a) as (H1 & H2 & _).
  change (round radix2 (SpecFloat.fexp fprec femax) (round_mode mode_NE)) with rd in H1.
  assert (Fs : is_finite (@Bsqrt fprec femax ProofFloatTrace.Hprec ProofFloatTrace.Hmax mode_NE a) = true).
  { rewrite H2. destruct a as [s|s| |s mm ee BB]; try reflexivity; try discriminate. destruct s; [|reflexivity]. exfalso.
    cbn in P. pose proof (F2R_lt_0 radix2 (Float radix2 (Z.neg mm) ee) ltac:(cbn; lia)) as N. lra. }
  destruct (b_finite _ Fs) as (Q & Qe). split; [exact Q|]. etransitivity; [exact Qe|exact H1].
Qed.
Lemma relative a x X n : close a hh x X -> B2 n <= Rabs X -> (-1022 <= n)%Z -> close (a + 1) 0 x X.
Proof.
  intros (F & E) L Hn. split; [exact F|]. assert (hh <= kk * Rabs X).
  { apply Rle_trans with (kk * B2 n); [rewrite ProofRoughStep.kk_bpow, <- bpow_plus; unfold hh; apply bpow_le; lia|apply Rmult_le_compat_l; [pose proof K_small; lra|exact L]]. }
  lra.
Qed.
Lemma mul_rel n k a c x y X Y : (-1074 <= n < 1024)%Z -> (-1022 <= k)%Z -> 0 <= a <= 50 -> 0 <= c <= 50 -> close a 0 x X -> close c 0 y Y -> Rabs X * Rabs Y <= B2 (n - 1) -> B2 k <= Rabs (X * Y) ->
  close (a + c + 3) 0 (fmul x y) (X * Y).
Proof.
  intros Hn Hk Ha Hc Cx Cy U L. pose proof K_small as HK.
  assert (S : Rabs (fval x * fval y) <= B2 n).
  { pose proof (close_size _ _ _ _ Cx) as Sx. pose proof (close_size _ _ _ _ Cy) as Sy. rewrite Rabs_mult. rewrite Rplus_0_r in Sx, Sy. pose proof (Rabs_pos X). pose proof (Rabs_pos Y).
    assert (a * kk <= / 1000) by nra. assert (c * kk <= / 1000) by nra.
    assert (Sx' : Rabs (fval x) <= 11 / 10 * Rabs X) by (eapply Rle_trans; [exact Sx|]; apply Rmult_le_compat_r; lra). assert (Sy' : Rabs (fval y) <= 11 / 10 * Rabs Y) by (eapply Rle_trans; [exact Sy|]; apply Rmult_le_compat_r; lra).
    assert (Rabs (fval x) * Rabs (fval y) <= (11 / 10 * Rabs X) * (11 / 10 * Rabs Y)) by (apply Rmult_le_compat; try apply Rabs_pos; assumption).
    replace n with (1 + (n - 1))%Z by lia. rewrite bpow_plus. change (B2 1) with 2. assert (0 <= Rabs X * Rabs Y) by (apply Rmult_le_pos; lra). lra. }
  destruct (mul_close n a 0 c 0 x y X Y (Rabs X) (Rabs Y) Hn ltac:(lra) ltac:(lra) ltac:(lra) ltac:(lra) Cx Cy (Rle_refl _) (Rle_refl _) S) as (C & _).
  replace (a + c + 3) with (a + c + 2 + 1) by ring. apply (relative _ _ _ k); [|exact L|exact Hk]. refine (close_weak _ _ _ _ _ _ _ _ C); lra.
Qed.
Lemma div_rel n k a c x y X Y : (-1074 <= n < 1024)%Z -> (-1022 <= k)%Z -> 0 <= a <= 50 -> 0 <= c <= 50 -> close a 0 x X -> close c 0 y Y -> Y <> 0 -> Rabs (X / Y) <= B2 (n - 1) -> B2 k <= Rabs (X / Y) ->
  close (a + c + 4) 0 (fdiv x y) (X / Y).
Proof.
  intros Hn Hk Ha Hc Cx Cy NY U L. pose proof K_small as HK.
  assert (S : Rabs (fval x / fval y) <= B2 n).
  { pose proof (close_size _ _ _ _ Cx) as Sx. destruct Cy as (_ & Cy). rewrite Rplus_0_r in Cy, Sx. destruct (div_real kk c _ _ HK ltac:(lra) NY Cy) as (Ny & Ei). pose proof (Rabs_pos X). pose proof (Rabs_pos (/ Y)).
    assert (a * kk <= / 1000) by nra. assert ((c + 1) * kk <= / 1000) by nra.
    assert (Sx' : Rabs (fval x) <= 11 / 10 * Rabs X) by (eapply Rle_trans; [exact Sx|]; apply Rmult_le_compat_r; lra).
    assert (Sy' : Rabs (/ fval y) <= 11 / 10 * Rabs (/ Y)).
    { replace (/ fval y) with (/ Y + (/ fval y - / Y)) by ring. eapply Rle_trans; [apply Rabs_triang|]. assert ((c + 1) * kk * Rabs (/ Y) <= / 1000 * Rabs (/ Y)) by (apply Rmult_le_compat_r; lra). lra. }
    unfold Rdiv in *. rewrite Rabs_mult in *. assert (Rabs (fval x) * Rabs (/ fval y) <= (11 / 10 * Rabs X) * (11 / 10 * Rabs (/ Y))) by (apply Rmult_le_compat; try apply Rabs_pos; assumption).
    replace n with (1 + (n - 1))%Z by lia. rewrite bpow_plus. change (B2 1) with 2. assert (0 <= Rabs X * Rabs (/ Y)) by (apply Rmult_le_pos; lra). lra. }
  destruct (div_close n a 0 c x y X Y (Rabs (/ Y)) Hn ltac:(lra) ltac:(lra) ltac:(lra) Cx Cy NY (Rle_refl _) S) as (C & _).
  replace (a + c + 4) with (a + c + 3 + 1) by ring. apply (relative _ _ _ k); [|exact L|exact Hk]. refine (close_weak _ _ _ _ _ _ _ _ C); lra.
Qed.
Lemma sqrt_real kk0 h0 a w W z : 0 < kk0 <= / 1000000 -> 0 <= a <= 50 -> 0 < W -> Rabs (w - W) <= a * kk0 * W -> h0 <= kk0 * sqrt W -> Rabs (z - sqrt w) <= kk0 * sqrt w + h0 -> 0 < w /\ Rabs (z - sqrt W) <= (a + 3) * kk0 * sqrt W.
Proof.
  intros HK Ha HW E Hh Z. assert (AK : a * kk0 <= / 1000) by nra. assert (a * kk0 * W <= / 1000 * W) by (apply Rmult_le_compat_r; lra). assert (Pw : 0 < w) by (apply Rabs_le_inv in E; lra). split; [exact Pw|].
  set (u := sqrt w) in *. set (v := sqrt W) in *. assert (Pu : 0 < u) by now apply sqrt_lt_R0. assert (Pv : 0 < v) by now apply sqrt_lt_R0. assert (UU : u * u = w) by (apply sqrt_sqrt; lra). assert (VV : v * v = W) by (apply sqrt_sqrt; lra).
  assert (D : Rabs (u - v) <= a * kk0 * v).
  { apply Rmult_le_reg_r with v; [exact Pv|]. apply Rle_trans with (Rabs (w - W)); [|rewrite <- VV in E at 2; lra]. rewrite <- UU, <- VV. replace (u * u - v * v) with ((u - v) * (u + v)) by ring. rewrite Rabs_mult, (Rabs_pos_eq (u + v)) by lra. apply Rmult_le_compat_l; [apply Rabs_pos|lra]. }
  assert (Bu : u <= 3 / 2 * v). { assert (a * kk0 * v <= / 1000 * v) by (apply Rmult_le_compat_r; lra). apply Rabs_le_inv in D. lra. }
  assert (kk0 * u <= kk0 * (3 / 2 * v)) by (apply Rmult_le_compat_l; lra). replace (z - v) with ((z - u) + (u - v)) by ring. eapply Rle_trans; [apply Rabs_triang|]. assert (0 <= kk0 * v) by (apply Rmult_le_pos; lra). lra.
Qed.
Lemma sqrt_rel a x X k : (-1022 <= k)%Z -> 0 <= a <= 50 -> close a 0 x X -> 0 < X -> B2 (2 * k) <= X -> close (a + 3) 0 (fsqrt x) (sqrt X).
Proof.
  intros Hk Ha (F & E) PX L. pose proof K_small as HK. rewrite Rplus_0_r, (Rabs_pos_eq X) in E by lra. pose proof (sqrt_lt_R0 X PX) as Ps.
  assert (Lk : B2 k <= sqrt X).
  { rewrite <- (sqrt_square (B2 k)) by apply bpow_ge_0. apply sqrt_le_1_alt. rewrite <- bpow_plus. replace (k + k)%Z with (2 * k)%Z by lia. exact L. }
  assert (Hh : hh <= kk * sqrt X).
  { apply Rle_trans with (kk * B2 k); [rewrite ProofRoughStep.kk_bpow, <- bpow_plus; unfold hh; apply bpow_le; lia|apply Rmult_le_compat_l; lra]. }
  assert (P : 0 < fval x). { assert (a * kk <= / 1000) by nra. assert (a * kk * X <= / 1000 * X) by (apply Rmult_le_compat_r; lra). apply Rabs_le_inv in E. lra. }
  destruct (sqrt_rd x F ltac:(lra)) as (Fs & Es). split; [exact Fs|]. rewrite Rplus_0_r, (Rabs_pos_eq (sqrt X)) by lra. rewrite Es.
  refine (proj2 (sqrt_real kk hh a (fval x) X _ HK Ha PX E Hh _)). pose proof (rd_err (sqrt (fval x))) as Q. rewrite (Rabs_pos_eq (sqrt (fval x))) in Q by apply sqrt_pos. exact Q.
Qed.

(** ** The head *)
Definition f_half : spec_float := S754_finite false 4503599627370496 (-53).
Lemma half_value lm : @nlit _ (SF lm) 1 2 = f_half. Proof. vm_compute. reflexivity. Qed.
Lemma half_val : ffinite f_half /\ fval f_half = / 2.
Proof. split; [split; [reflexivity|exact I]|]. unfold fval, f_half. change (powerRZ 2 (-53)) with (/ 2 ^ 53). field. Qed.

Lemma sized_bpow x : sized x -> ffinite x /\ B2 (-200) <= fval x <= B2 200.
Proof.
  intros (M & L). apply moderate_bpow in M as (F & U). split; [exact F|]. rewrite huge_bpow, <- bpow_opp in L. change (- (200))%Z with (-200)%Z in L. split; [exact L|]. apply Rabs_le_inv in U. lra.
Qed.

Lemma inv_range n X : B2 (- n) <= X -> X <= B2 n -> B2 (- n) <= / X <= B2 n.
Proof.
  intros L U. pose proof (bpow_gt_0 radix2 (- n)) as P. split.
  - rewrite bpow_opp. apply Rinv_le_contravar; lra.
  - rewrite <- (Z.opp_involutive n) at 1. rewrite bpow_opp. apply Rinv_le_contravar; lra.
Qed.

Lemma head_float lm k h p : sized k -> sized h -> ffinite p -> B2 (-401) <= fval p <= B2 401 ->
  exists hd, @head_of_potential _ (SF lm) k h p = Ok hd /\ ffinite hd /\ Rabs (fval hd - head_at (fval k) (fval h) (fval p)) <= 25 * kk * head_at (fval k) (fval h) (fval p).
Proof.
  intros Hk Hh Fp (Lp & Up). apply sized_bpow in Hk as (Fk & Lk & Uk). apply sized_bpow in Hh as (Fh & Lh & Uh). destruct half_val as (F2 & E2).
  pose proof (bpow_gt_0 radix2 (-200)) as P2. pose proof (bpow_gt_0 radix2 (-401)) as P4. pose proof K_small as HK. set (K := fval k) in *. set (H := fval h) in *. set (P := fval p) in *.
  assert (PK : 0 < K) by lra. assert (PH : 0 < H) by lra. assert (PP : 0 < P) by lra. assert (HH0 : 0 < H * H) by now apply Rmult_lt_0_compat. assert (KH0 : 0 < K * H) by now apply Rmult_lt_0_compat.
  assert (cK : close 0 0 k K) by now apply close_exact. assert (cH : close 0 0 h H) by now apply close_exact. assert (cP : close 0 0 p P) by now apply close_exact. assert (c2 : close 0 0 f_half (/ 2)) by (rewrite <- E2; now apply close_exact).
  assert (LHH : B2 (-400) <= H * H) by (change (-400)%Z with (-200 + -200)%Z; rewrite bpow_plus; apply Rmult_le_compat; lra). assert (UHH : H * H <= B2 400) by (change 400%Z with (200 + 200)%Z; rewrite bpow_plus; apply Rmult_le_compat; lra).
  assert (LKH : B2 (-400) <= K * H) by (change (-400)%Z with (-200 + -200)%Z; rewrite bpow_plus; apply Rmult_le_compat; lra). assert (UKH : K * H <= B2 400) by (change 400%Z with (200 + 200)%Z; rewrite bpow_plus; apply Rmult_le_compat; lra).
  pose proof (bpow_gt_0 radix2 (-400)) as P400.
  assert (LK2 : B2 (-201) <= / 2 * K) by (change (-201)%Z with (-1 + -200)%Z; rewrite bpow_plus; change (B2 (-1)) with (/ 2); lra). assert (UK2 : / 2 * K <= B2 200) by lra.
  assert (LT : B2 (-601) <= / 2 * K * (H * H)) by (change (-601)%Z with (-201 + -400)%Z; rewrite bpow_plus; pose proof (bpow_gt_0 radix2 (-201)); apply Rmult_le_compat; lra).
  assert (UT : / 2 * K * (H * H) <= B2 600) by (change 600%Z with (200 + 400)%Z; rewrite bpow_plus; apply Rmult_le_compat; lra).
  pose proof (mul_rel 201 (-201) 0 0 _ _ _ _ ltac:(lia) ltac:(lia) ltac:(lra) ltac:(lra) c2 cK) as cK2. rewrite (Rabs_pos_eq (/ 2)), (Rabs_pos_eq K), (Rabs_pos_eq (/ 2 * K)) in cK2 by lra. specialize (cK2 UK2 LK2).
  pose proof (mul_rel 401 (-400) 0 0 _ _ _ _ ltac:(lia) ltac:(lia) ltac:(lra) ltac:(lra) cH cH) as cHH. rewrite (Rabs_pos_eq H), (Rabs_pos_eq (H * H)) in cHH by lra. specialize (cHH UHH LHH).
  pose proof (bpow_gt_0 radix2 (-601)) as P601.
  pose proof (mul_rel 601 (-601) (0 + 0 + 3) (0 + 0 + 3) _ _ _ _ ltac:(lia) ltac:(lia) ltac:(lra) ltac:(lra) cK2 cHH) as cT. rewrite (Rabs_pos_eq (/ 2 * K)), (Rabs_pos_eq (H * H)), (Rabs_pos_eq (/ 2 * K * (H * H))) in cT by lra. specialize (cT UT LT).
  set (t := fmul (fmul f_half k) (fmul h h)) in *. replace (/ 2 * K * (H * H)) with (K * (H * H) / 2) in * by field. set (T := K * (H * H) / 2) in *. replace (0 + 0 + 3 + (0 + 0 + 3) + 3) with 9 in cT by ring.
  assert (PT : 0 < T) by (pose proof (bpow_gt_0 radix2 (-601)); lra). destruct cT as (Ft & Et). rewrite Rplus_0_r, (Rabs_pos_eq T) in Et by lra.
  destruct (of_small 0 ltac:(lia)) as (F0 & E0). destruct (of_small 2 ltac:(lia)) as (F22 & E22).
  unfold head_of_potential, nsq. cbn [nle nlt nZ SF nmul ndiv nadd nsqrt]. rewrite half_value. fold t.
  rewrite (fleb _ _ Fp F0), E0. fold P. rewrite Rle_bool_false by lra. rewrite (fltb _ _ Fp Ft). fold P.
  unfold head_at. rewrite head_cases by assumption. destruct (Rle_dec P 0); [lra|]. fold T.
  set (A := sqrt (2 * P / K)). set (B := (P + T) / (K * H)).
  assert (AB : Rabs (P - T) <= 12 * kk * T -> Rabs (A - B) <= kk * H /\ 9 / 10 * H <= A /\ 9 / 10 * H <= B) by (apply (formulas_near kk K H P); assumption).
  assert (P2K : 0 < 2 * P / K) by (apply Rmult_lt_0_compat; [lra|now apply Rinv_0_lt_compat]). assert (PA : 0 < A) by now apply sqrt_lt_R0. assert (PB : 0 < B) by (apply Rmult_lt_0_compat; [lra|now apply Rinv_0_lt_compat]).
  assert (kT : 9 * kk * T <= 12 * kk * T) by (apply Rmult_le_compat_r; lra). assert (kH : 0 <= kk * H) by (apply Rmult_le_pos; lra).
  destruct (Rlt_or_le P (fval t)) as [C|C].
  - rewrite Rlt_bool_true by exact C. eexists. split; [reflexivity|].
    assert (c22 : close 0 0 (f_of_Z 2) 2) by (rewrite <- E22; now apply close_exact).
    pose proof (mul_rel 403 (-401) 0 0 _ _ _ _ ltac:(lia) ltac:(lia) ltac:(lra) ltac:(lra) c22 cP) as c2P. rewrite (Rabs_pos_eq 2), (Rabs_pos_eq P), (Rabs_pos_eq (2 * P)) in c2P by lra.
    specialize (c2P ltac:(change (403 - 1)%Z with (1 + 401)%Z; rewrite bpow_plus; change (B2 1) with 2; lra) ltac:(lra)).
    assert (IK : B2 (-200) <= / K <= B2 200).
    { exact (inv_range 200 K Lk Uk). }
    assert (LW : B2 (-601) <= 2 * P / K) by (unfold Rdiv; change (-601)%Z with (-401 + -200)%Z; rewrite bpow_plus; apply Rmult_le_compat; lra).
    assert (UW : 2 * P / K <= B2 602) by (unfold Rdiv; change 602%Z with (402 + 200)%Z; rewrite bpow_plus; change 402%Z with (1 + 401)%Z; rewrite bpow_plus; change (B2 1) with 2; apply Rmult_le_compat; lra).
    pose proof (div_rel 603 (-601) (0 + 0 + 3) 0 _ _ _ _ ltac:(lia) ltac:(lia) ltac:(lra) ltac:(lra) c2P cK ltac:(lra)) as cW. rewrite (Rabs_pos_eq (2 * P / K)) in cW by lra. specialize (cW UW LW).
    destruct (sqrt_rel (0 + 0 + 3 + 0 + 4) _ _ (-301) ltac:(lia) ltac:(lra) cW P2K) as (FA & EA). { eapply Rle_trans; [|exact LW]. apply bpow_le. lia. }
    fold A in EA. rewrite Rplus_0_r, (Rabs_pos_eq A) in EA by lra. split; [exact FA|]. assert (kA : 0 <= kk * A) by (apply Rmult_le_pos; lra).
    destruct (Rlt_dec P T) as [D|D]; cbn [Rval].
    + eapply Rle_trans; [exact EA|]. lra.
    + destruct AB as (X1 & X2 & X3); [apply Rabs_le; apply Rabs_le_inv in Et; lra|]. fold B.
      assert (kkA : kk * A <= kk * (2 * B)). { apply Rmult_le_compat_l; [lra|]. apply Rabs_le_inv in X1. assert (kk * H <= / 10 * H) by (apply Rmult_le_compat_r; lra). lra. }
      assert (kk * H <= kk * (2 * B)) by (apply Rmult_le_compat_l; lra). match goal with |- Rabs (?z - _) <= _ => replace (z - B) with ((z - A) + (A - B)) by ring end. eapply Rle_trans; [apply Rabs_triang|]. lra.
  - rewrite Rlt_bool_false by exact C. eexists. split; [reflexivity|].
    assert (UT' : T <= B2 600) by exact UT. pose proof (bpow_le radix2 401 600 ltac:(lia)) as Q600.
    assert (Bt : 0 < fval t <= 2 * T) by (assert (9 * kk * T <= / 10 * T) by (apply Rmult_le_compat_r; lra); apply Rabs_le_inv in Et; lra).
    destruct (add_op 603 p t ltac:(lia) Fp Ft) as ((Fs & _) & Es).
    { rewrite Rabs_pos_eq by (fold P; lra). fold P. change 603%Z with (3 + 600)%Z. rewrite bpow_plus. change (B2 3) with 8. lra. }
    fold P in Es. assert (cS : close 11 0 (fadd p t) (P + T)).
    { split; [exact Fs|]. rewrite Rplus_0_r, (Rabs_pos_eq (P + T)) by lra. rewrite (Rabs_pos_eq (P + fval t)) in Es by lra. replace (fval (fadd p t) - (P + T)) with ((fval (fadd p t) - (P + fval t)) + (fval t - T)) by ring. eapply Rle_trans; [apply Rabs_triang|].
      assert (kk * (P + fval t) <= kk * (P + 2 * T)) by (apply Rmult_le_compat_l; lra). assert (0 <= kk * P) by (apply Rmult_le_pos; lra). lra. }
    pose proof (mul_rel 401 (-400) 0 0 _ _ _ _ ltac:(lia) ltac:(lia) ltac:(lra) ltac:(lra) cK cH) as cKH. rewrite (Rabs_pos_eq K), (Rabs_pos_eq H), (Rabs_pos_eq (K * H)) in cKH by lra. specialize (cKH UKH LKH).
    assert (IKH : B2 (-400) <= / (K * H) <= B2 400).
    { exact (inv_range 400 (K * H) LKH UKH). }
    assert (LB : B2 (-801) <= B) by (unfold B, Rdiv; change (-801)%Z with (-401 + -400)%Z; rewrite bpow_plus; apply Rmult_le_compat; lra).
    assert (UB : B <= B2 1010) by (unfold B, Rdiv; change 1010%Z with (610 + 400)%Z; rewrite bpow_plus; apply Rmult_le_compat; try lra; change 610%Z with (10 + 600)%Z; rewrite bpow_plus; change (B2 10) with 1024; lra).
    pose proof (div_rel 1011 (-801) 11 (0 + 0 + 3) _ _ _ _ ltac:(lia) ltac:(lia) ltac:(lra) ltac:(lra) cS cKH ltac:(lra)) as cB. fold B in cB. rewrite (Rabs_pos_eq B) in cB by lra. specialize (cB UB LB).
    destruct cB as (FB & EB). rewrite Rplus_0_r, (Rabs_pos_eq B) in EB by lra. split; [exact FB|]. assert (kB : 0 <= kk * B) by (apply Rmult_le_pos; lra).
    destruct (Rlt_dec P T) as [D|D]; cbn [Rval].
    + destruct AB as (X1 & X2 & X3); [apply Rabs_le; apply Rabs_le_inv in Et; lra|].
      assert (kkB : kk * B <= kk * (11 / 10 * A)). { apply Rmult_le_compat_l; [lra|]. apply Rabs_le_inv in X1. assert (kk * H <= / 100 * H) by (apply Rmult_le_compat_r; lra). lra. }
      assert (kk * H <= kk * (2 * A)) by (apply Rmult_le_compat_l; lra). match goal with |- Rabs (?z - _) <= _ => replace (z - A) with ((z - B) + (B - A)) by ring end. eapply Rle_trans; [apply Rabs_triang|]. rewrite (Rabs_minus_sym B A). lra.
    + fold B. eapply Rle_trans; [exact EB|]. lra.
Qed.
