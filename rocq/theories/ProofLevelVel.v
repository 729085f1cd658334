(** * Accuracy of the head and of the velocity of an unconfined aquifer in binary64 *)
From Coq Require Import ZArith Reals Lra Lia SpecFloat List Psatz.
From Flocq Require Import Core BinarySingleNaN.
From Verif Require Import Py Num NumXR ModelAquifer SpecFloats SpecAquifer SpecTrace SpecPathline SpecRough SpecDischarge
  ProofFloat ProofFloatGrow ProofFloatOps ProofFloatMean ProofFloatGrid ProofDistError ProofFloatDist ProofPi ProofAquifer ProofHead ProofPathline ProofRoughStep ProofDischargeFloat ProofDischargeAcc ProofFloatTrace SpecLevel ProofLevelPot ProofLevelHead.
Import ListNotations.
Local Open Scope R_scope.

Local Notation fadd := (SFadd fprec femax).
Local Notation fsub := (SFsub fprec femax).
Local Notation fmul := (SFmul fprec femax).
Local Notation fdiv := (SFdiv fprec femax).
Local Notation B2 := (bpow radix2).

Lemma huge2 : huge * huge = B2 400. Proof. rewrite huge_bpow, <- bpow_plus. reflexivity. Qed.
Lemma huge2_inv : / (huge * huge) = B2 (-400). Proof. rewrite huge2, <- bpow_opp. reflexivity. Qed.

Lemma moderate_sized m : moderate_model m -> sized (thickness m) /\ sized (porosity m).
Proof. intros (_ & _ & _ & _ & Ht & Hp & Lt & Lp). split; split; assumption. Qed.
Lemma away_off m x y : clear_of_wells m (x, y) -> off_wells (wells m) x y.
Proof.
  intros Hcl w Iw (Q1 & Q2). pose proof (apart_square m _ _ w Hcl Iw) as P. unfold wdist2 in P. rewrite Q1, Q2 in P. pose proof (bpow_gt_0 radix2 (-400)). replace ((wx w - wx w) * (wx w - wx w) + (wy w - wy w) * (wy w - wy w)) with 0 in P by ring. lra.
Qed.

(** The head, with the error [e] of the potential. *)
Lemma head_level lm k h p P0 e : sized k -> sized h -> ffinite p -> B2 (-400) <= P0 <= B2 400 -> Rabs (fval p - P0) <= e -> 100 * e <= P0 ->
  let K := fval k in let H := fval h in let H0 := head_at K H P0 in
  exists hd, @head_of_potential _ (SF lm) k h p = Ok hd /\ ffinite hd /\ 0 < H0 /\ Rabs (fval hd - H0) <= 3 * e / (K * Rmin H0 H) + 25 * kk * H0.
Proof.
  intros Hk Hh Fp (L0 & U0) Ep He K H H0. pose proof K_small as HK. pose proof (bpow_gt_0 radix2 (-400)) as P4. pose proof (bpow_gt_0 radix2 (-200)) as P2.
  assert (PK : 0 < K) by (destruct (sized_bpow k Hk) as (_ & ? & _); unfold K; lra). assert (PH : 0 < H) by (destruct (sized_bpow h Hh) as (_ & ? & _); unfold H; lra).
  assert (PP : 0 < P0) by lra. destruct (head_near K H (fval p) P0 e PK PH PP Ep He) as (Pp & EH). fold H0 in EH. destruct (girinskii_head K H P0 PK PH PP) as (PH0 & _). fold H0 in PH0.
  assert (Rp : B2 (-401) <= fval p <= B2 401).
  { apply Rabs_le_inv in Ep. change 401%Z with (1 + 400)%Z. replace (-401)%Z with (-1 + -400)%Z by reflexivity. rewrite !bpow_plus. change (B2 1) with 2. change (B2 (-1)) with (/ 2). lra. }
  destruct (head_float lm k h p Hk Hh Fp Rp) as (hd & E1 & F1 & B1). exists hd. split; [exact E1|]. split; [exact F1|]. split; [exact PH0|]. fold K H in B1. set (a := head_at K H (fval p)) in *.
  assert (Pm : 0 < Rmin H0 H) by now apply Rmin_glb_lt. assert (PKm : 0 < K * Rmin H0 H) by now apply Rmult_lt_0_compat. assert (E0 : 0 <= e) by (pose proof (Rabs_pos (fval p - P0)); lra).
  set (d := e / (K * Rmin H0 H)). assert (Pd : 0 <= d) by (apply Rmult_le_pos; [exact E0|left; now apply Rinv_0_lt_compat]). replace (2 * e / (K * Rmin H0 H)) with (2 * d) in EH by (unfold d; field; lra). replace (3 * e / (K * Rmin H0 H)) with (3 * d) by (unfold d; field; lra).
  assert (Ba : a <= H0 + 2 * d) by (apply Rabs_le_inv in EH; lra). assert (25 * kk * a <= 25 * kk * (H0 + 2 * d)) by (apply Rmult_le_compat_l; lra). assert (50 * kk * d <= 1 * d) by (apply Rmult_le_compat_r; lra).
  replace (fval hd - H0) with ((fval hd - a) + (a - H0)) by ring. eapply Rle_trans; [apply Rabs_triang|]. lra.
Qed.

Lemma level_form m eps x y : level_error eps (real_model m) x y = (24 + 2 * eps / kk + 2 * INR (length (wells m)) + 2) * kk * (load_p (real_model m) x y + 2 * tiny).
Proof.
  unfold level_error. cbn [wells real_model]. rewrite map_length. fold (real_model m). replace ((24 + 2 * eps / kk + 2 * INR (length (wells m)) + 2) * kk) with ((26 + 2 * INR (length (wells m))) * kk + 2 * eps) by (field; pose proof K_small; lra). unfold kk. field.
Qed.

(** C127.  The head that [compute_head] returns in binary64 is the exact one up to the effect of the error of the potential and a few units in the last place. *)
Lemma c127_head : forall (lm : libm) (eps : R) (m : model spec_float) (x y : spec_float), 0 <= eps <= / 1000 -> log_within lm eps ->
  moderate_model m -> sized (conductivity m) -> moderate x -> moderate y -> clear_of_wells (real_model m) (fval x, fval y) -> (Z.of_nat (length (wells m)) <= 10 ^ 12)%Z ->
  let M := real_model m in let X := fval x in let Y := fval y in firm eps M X Y ->
  exists hd h, @compute_head _ (SF lm) m x y = Ok hd /\ ffinite hd /\ compute_head (fmodel M) (Fin X) (Fin Y) = Ok (Fin h) /\ 0 < h /\
    Rabs (fval hd - h) <= 3 * level_error eps M X Y / (conductivity M * water_depth M X Y) + h / 2 ^ 48.
Proof.
  intros lm eps m x y He HL Hm Hk Hx Hy Hc Hn M X Y ((L0 & U0) & H100). destruct (moderate_sized m Hm) as (Hh & _).
  destruct (potential_total lm eps m x y He HL Hm Hx Hy Hc Hn) as (Fp & Ep & _). fold M X Y in Ep. rewrite <- level_form in Ep. fold M in Ep. rewrite huge2_inv in L0. rewrite huge2 in U0.
  destruct (head_level lm (conductivity m) (thickness m) _ _ _ Hk Hh Fp (conj L0 U0) Ep H100) as (hd & E1 & F1 & P1 & B1). exists hd. eexists. split; [exact E1|]. split; [exact F1|].
  destruct (sized_bpow _ Hk) as (_ & Lk & _). destruct (sized_bpow _ Hh) as (_ & Lh & _). pose proof (bpow_gt_0 radix2 (-200)) as P2. pose proof (bpow_gt_0 radix2 (-400)) as P4.
  assert (Off := away_off M X Y Hc). assert (EP : compute_potential (fmodel M) (Fin X) (Fin Y) = Fin (potential M X Y)) by (unfold potential; rewrite compute_potential_eq by exact Off; reflexivity).
  split; [|split; [exact P1|]].
  - unfold compute_head. rewrite EP. cbn [conductivity thickness fmodel]. unfold head_at. cbn [conductivity thickness M real_model]. rewrite head_cases by lra. destruct (Rle_dec _ 0); [lra|]. destruct (Rlt_dec _ _); reflexivity.
  - eapply Rle_trans; [exact B1|]. unfold water_depth. cbn [conductivity thickness M real_model]. apply Rplus_le_compat_l. set (h := head_at _ _ _) in *. unfold kk. assert (0 < h) by exact P1. lra.
Qed.

(** ** The velocity *)
Lemma depth_close K H P0 e hd : 0 < K -> 0 < H -> 0 < P0 -> 0 <= e -> 100 * e <= P0 -> let H0 := head_at K H P0 in let b := Rmin H0 H in
  Rabs (hd - H0) <= 3 * e / (K * b) + 25 * kk * H0 ->
  0 < hd /\ Rabs (Rmin hd H - b) <= (3 * e / (K * (b * b)) + 50 * kk) * b /\ Rabs (Rmin hd H - b) <= / 20 * b.
Proof.
  intros HK HH HP Pe He H0 b E. destruct (girinskii_head K H P0 HK HH HP) as (PH0 & G & _). fold H0 in PH0, G. pose proof K_small as Hkk. assert (Pb : 0 < b) by now apply Rmin_glb_lt.
  assert (PKb : 0 < K * b) by now apply Rmult_lt_0_compat. assert (PKbb : 0 < K * (b * b)) by (apply Rmult_lt_0_compat; [lra|now apply Rmult_lt_0_compat]).
  set (d := 3 * e / (K * (b * b))). assert (Pd : 0 <= d) by (apply Rmult_le_pos; [lra|left; now apply Rinv_0_lt_compat]). replace (3 * e / (K * b)) with (d * b) in E by (unfold d; field; lra).
  assert (EK : d * (K * (b * b)) = 3 * e) by (unfold d; field; lra). assert (Pdb : 0 <= d * b) by (apply Rmult_le_pos; lra). assert (Pkb : 0 <= kk * b) by (apply Rmult_le_pos; lra).
  destruct (Rle_or_lt (2 * H) H0) as [C|C].
  - assert (Eb : b = H) by (unfold b; apply Rmin_right; lra). rewrite Eb in *. unfold girinskii in G. destruct (Rlt_dec H0 H); [lra|].
    assert (D : d * H <= / 20 * H0).
    { apply Rmult_le_reg_r with (K * H); [exact PKb|]. replace (d * H * (K * H)) with (3 * e) by (rewrite <- EK; ring). apply Rle_trans with (/ 20 * P0); [lra|]. rewrite <- G. assert (0 <= K * H * H) by (apply Rmult_le_pos; lra). lra. }
    assert (25 * kk * H0 <= / 20 * H0) by (apply Rmult_le_compat_r; lra). apply Rabs_le_inv in E. split; [lra|]. rewrite Rmin_right by lra. replace (H - H) with 0 by ring. rewrite Rabs_R0. split; [|lra]. lra.
  - assert (Hb : H0 <= 2 * b) by (unfold b, Rmin; destruct (Rle_dec H0 H); lra).
    assert (25 * kk * H0 <= 25 * kk * (2 * b)) by (apply Rmult_le_compat_l; lra). assert (E' : Rabs (hd - H0) <= (d + 50 * kk) * b) by lra.
    assert (PB : P0 <= 3 / 2 * (K * (b * b))).
    { rewrite <- G. unfold girinskii. destruct (Rlt_dec H0 H) as [L|L].
      - assert (b = H0) as -> by (unfold b; apply Rmin_left; lra). assert (0 < K * (H0 * H0)) by (repeat apply Rmult_lt_0_compat; lra). lra.
      - assert (b = H) as -> by (unfold b; apply Rmin_right; lra). assert (K * H * (H0 - H / 2) <= K * H * (3 / 2 * H)) by (apply Rmult_le_compat_l; [left; now apply Rmult_lt_0_compat|lra]). lra. }
    assert (D : d <= 45 / 1000) by (apply Rmult_le_reg_r with (K * (b * b)); [exact PKbb|]; rewrite EK; lra).
    assert (E20 : (d + 50 * kk) * b <= / 20 * b) by (apply Rmult_le_compat_r; lra).
    assert (Lip : Rabs (Rmin hd H - b) <= Rabs (hd - H0)) by (unfold b, Rmin, Rabs; repeat destruct (Rle_dec _ _); repeat destruct (Rcase_abs _); lra).
    split; [|split; lra]. apply Rabs_le_inv in E'. assert (b <= H0) by apply Rmin_l. lra.
Qed.

Lemma quotient_real kk0 t0 h0 c s S0 M rho y Y z : 0 < kk0 <= / 1000000 -> 0 < t0 -> 14 <= c -> c * kk0 <= 1 / 50 -> 0 <= rho <= / 20 -> 0 < Y -> h0 <= kk0 * (t0 / Y) -> Rabs S0 <= M ->
  Rabs (s - S0) <= c * kk0 * (M + t0) -> Rabs (y - Y) <= (rho + 3 * kk0) * Y -> Rabs (z - s / y) <= kk0 * Rabs (s / y) + h0 ->
  0 < y /\ Rabs (s / y) <= 2 * ((M + t0) / Y) /\ Rabs (z - S0 / Y) <= ((2 * c + 10) * kk0 + 2 * rho) * ((M + t0) / Y).
Proof.
  intros HK Ht Hc Hck Hrho HY Hh HS Es Ey Ez. set (sg := rho + 3 * kk0) in *. assert (Hsg : 0 <= sg <= 51 / 1000) by (unfold sg; lra).
  assert (Py : 9 / 10 * Y <= y) by (assert (sg * Y <= 51 / 1000 * Y) by (apply Rmult_le_compat_r; lra); apply Rabs_le_inv in Ey; lra). assert (Py0 : 0 < y) by lra. split; [exact Py0|].
  set (v := / Y). assert (Pv : 0 < v) by (unfold v; now apply Rinv_0_lt_compat). pose proof (Rabs_pos S0) as PS. set (N := M + t0) in *. assert (HN : 0 < N) by (unfold N; lra).
  assert (Ei : Rabs (/ y - v) <= 10 / 9 * sg * v).
  { unfold v. replace (/ y - / Y) with ((Y - y) * (/ y * / Y)) by (field; lra). rewrite Rabs_mult, (Rabs_minus_sym Y y), (Rabs_pos_eq (/ y * / Y)).
    - assert (I : / y <= 10 / 9 * / Y) by (replace (10 / 9 * / Y) with (/ (9 / 10 * Y)) by (field; lra); apply Rinv_le_contravar; lra).
      assert (0 < / y) by now apply Rinv_0_lt_compat. apply Rle_trans with (sg * Y * (10 / 9 * / Y * / Y)).
      + apply Rmult_le_compat; [apply Rabs_pos|left; apply Rmult_lt_0_compat; [assumption|exact Pv]|exact Ey|]. apply Rmult_le_compat_r; [left; exact Pv|exact I].
      + right. field. lra.
    - left. apply Rmult_lt_0_compat; [now apply Rinv_0_lt_compat|exact Pv]. }
  assert (PNv : 0 < N * v) by (apply Rmult_lt_0_compat; lra). assert (PkNv : 0 <= kk0 * (N * v)) by (apply Rmult_le_pos; lra). assert (PsNv : 0 <= sg * (N * v)) by (apply Rmult_le_pos; lra).
  change (t0 / Y) with (t0 * v) in Hh. unfold Rdiv. fold v. unfold Rdiv in Ez.
  assert (A1 : Rabs (s - S0) * v <= c * kk0 * (N * v)) by (rewrite <- Rmult_assoc; apply Rmult_le_compat_r; lra).
  assert (A2 : Rabs (s - S0) * Rabs (/ y - v) <= c * kk0 * N * (10 / 9 * sg * v)) by (apply Rmult_le_compat; try apply Rabs_pos; assumption).
  assert (A3 : Rabs S0 * Rabs (/ y - v) <= N * (10 / 9 * sg * v)) by (apply Rmult_le_compat; try apply Rabs_pos; [unfold N; lra|assumption]).
  assert (A4 : c * kk0 * (sg * (N * v)) <= 1 / 50 * (sg * (N * v))) by (apply Rmult_le_compat_r; lra).
  assert (E : Rabs (s * / y - S0 * v) <= c * (kk0 * (N * v)) + 12 / 10 * (sg * (N * v))).
  { replace (s * / y - S0 * v) with ((s - S0) * v + ((s - S0) * (/ y - v) + S0 * (/ y - v))) by ring.
    pose proof (Rabs_triang ((s - S0) * v) ((s - S0) * (/ y - v) + S0 * (/ y - v))) as T1. pose proof (Rabs_triang ((s - S0) * (/ y - v)) (S0 * (/ y - v))) as T2.
    rewrite (Rabs_mult (s - S0) v), (Rabs_pos_eq v) in T1 by lra. rewrite (Rabs_mult (s - S0)), (Rabs_mult S0) in T2.
    replace (c * kk0 * N * (10 / 9 * sg * v)) with (10 / 9 * (c * kk0 * (sg * (N * v)))) in A2 by ring. replace (N * (10 / 9 * sg * v)) with (10 / 9 * (sg * (N * v))) in A3 by ring. lra. }
  assert (Sv : Rabs (S0 * v) <= N * v) by (rewrite Rabs_mult, (Rabs_pos_eq v) by lra; apply Rmult_le_compat_r; unfold N; lra).
  assert (Ck : c * (kk0 * (N * v)) <= 1 / 50 * (N * v)) by (rewrite <- Rmult_assoc; apply Rmult_le_compat_r; lra). assert (Sk : sg * (N * v) <= 51 / 1000 * (N * v)) by (apply Rmult_le_compat_r; lra).
  assert (B : Rabs (s * / y) <= 3 / 2 * (N * v)).
  { replace (s * / y) with (S0 * v + (s * / y - S0 * v)) by ring. eapply Rle_trans; [apply Rabs_triang|]. lra. }
  split; [lra|]. replace (z - S0 * v) with ((z - s * / y) + (s * / y - S0 * v)) by ring. eapply Rle_trans; [apply Rabs_triang|].
  pose proof (Rmult_le_compat_l kk0 _ _ ltac:(lra) B) as A. assert (kk0 * (t0 * v) <= kk0 * (N * v)) by (apply Rmult_le_compat_l; [lra|apply Rmult_le_compat_r; unfold N; lra]).
  assert (C14 : 14 * (kk0 * (N * v)) <= c * (kk0 * (N * v))) by (apply Rmult_le_compat_r; lra).
  replace (sg * (N * v)) with (rho * (N * v) + 3 * (kk0 * (N * v))) in E by (unfold sg; ring). assert (0 <= rho * (N * v)) by (apply Rmult_le_pos; lra).
  replace (((2 * c + 10) * kk0 + 2 * rho) * (N * v)) with (2 * (c * (kk0 * (N * v))) + 10 * (kk0 * (N * v)) + 2 * (rho * (N * v))) by ring. lra.
Qed.

Lemma quotient_total c s S0 M rho y Y : total_err c s S0 M -> 14 <= c -> c * kk <= 1 / 50 -> M <= B2 450 -> 0 <= rho <= / 20 -> ffinite y -> Rabs (fval y - Y) <= (rho + 3 * kk) * Y -> B2 (-510) <= Y -> Y <= B2 400 ->
  ffinite (fdiv s y) /\ Rabs (fval (fdiv s y) - S0 / Y) <= ((2 * c + 10) * kk + 2 * rho) * ((M + tiny) / Y).
Proof.
  intros (Fs & Es & Bs) Hc Hck HM Hrho Fy Ey Y1 Y2. pose proof K_small as HK. pose proof tiny_pos as Pt. pose proof tiny_one as T1. pose proof hh_pos as Ph.
  pose proof (bpow_gt_0 radix2 (-510)) as P4. assert (PY : 0 < Y) by lra.
  assert (Hh : hh <= kk * (tiny / Y)).
  { assert (E : B2 (-400) <= / Y) by (change (-400)%Z with (- (400))%Z; rewrite bpow_opp; apply Rinv_le_contravar; lra).
    apply Rle_trans with (kk * (tiny * B2 (-400))).
    - rewrite ProofRoughStep.kk_bpow, tiny_bpow, <- !bpow_plus. unfold hh. apply bpow_le. lia.
    - apply Rmult_le_compat_l; [lra|]. apply Rmult_le_compat_l; lra. }
  destruct (quotient_real kk tiny hh c (fval s) S0 M rho (fval y) Y (fval s / fval y) HK Pt Hc Hck Hrho PY Hh Bs Es Ey) as (Py & Q0 & _).
  { replace (fval s / fval y - fval s / fval y) with 0 by ring. rewrite Rabs_R0. pose proof (Rabs_pos (fval s / fval y)). assert (0 <= kk * Rabs (fval s / fval y)) by (apply Rmult_le_pos; lra). lra. }
  assert (QB : Rabs (fval s / fval y) <= B2 1000).
  { eapply Rle_trans; [exact Q0|]. assert (E : / Y <= B2 510) by (change 510%Z with (- (-510))%Z; rewrite bpow_opp; apply Rinv_le_contravar; lra).
    assert (0 <= M) by (pose proof (Rabs_pos S0); lra). assert (0 < / Y) by (apply Rinv_0_lt_compat; lra).
    assert (A : (M + tiny) * / Y <= 2 * B2 450 * B2 510) by (apply Rmult_le_compat; lra). unfold Rdiv. apply Rle_trans with (2 * (2 * B2 450 * B2 510)); [lra|].
    replace (2 * (2 * B2 450 * B2 510)) with (B2 2 * (B2 450 * B2 510)) by (change (B2 2) with 4; ring). rewrite <- !bpow_plus. apply bpow_le. lia. }
  destruct (div_op 1000 s y ltac:(lia) Fs Fy ltac:(lra) QB) as ((F3 & _) & E3). split; [exact F3|].
  exact (proj2 (proj2 (quotient_real kk tiny hh c (fval s) S0 M rho (fval y) Y (fval (fdiv s y)) HK Pt Hc Hck Hrho PY Hh Bs Es Ey E3))).
Qed.

Lemma depth_range K H P0 : B2 (-200) <= K <= B2 200 -> B2 (-200) <= H <= B2 200 -> B2 (-400) <= P0 -> let b := Rmin (head_at K H P0) H in B2 (-300) <= b <= B2 200.
Proof.
  intros HK HH HP b. pose proof (bpow_gt_0 radix2 (-200)) as P2. pose proof (bpow_gt_0 radix2 (-400)) as P4. destruct (girinskii_head K H P0 ltac:(lra) ltac:(lra) ltac:(lra)) as (PH0 & G & _). set (H0 := head_at K H P0) in *.
  split; [|unfold b; pose proof (Rmin_r H0 H); lra]. unfold b. apply Rmin_glb; [|pose proof (bpow_le radix2 (-300) (-200) ltac:(lia)); lra].
  destruct (Rlt_dec H0 H) as [L|L]; [|pose proof (bpow_le radix2 (-300) (-200) ltac:(lia)); lra]. unfold girinskii in G. destruct (Rlt_dec H0 H) as [_|N]; [|contradiction].
  destruct (Rle_or_lt (B2 (-300)) H0) as [Q|Q]; [exact Q|]. exfalso. pose proof (bpow_gt_0 radix2 (-300)) as P3.
  assert (S : H0 * H0 <= B2 (-600)) by (change (-600)%Z with (-300 + -300)%Z; rewrite bpow_plus; apply Rmult_le_compat; lra).
  assert (K * (H0 * H0) <= B2 200 * B2 (-600)) by (apply Rmult_le_compat; try lra; apply Rle_0_sqr). rewrite <- bpow_plus in H1. change (200 + -600)%Z with (-400)%Z in H1. lra.
Qed.

Lemma vel_form n rho N : ((2 * (18 + 2 * n) + 10) * kk + 2 * rho) * N = ((2 * n + 23) / 2 ^ 52 + 2 * rho) * N.
Proof. unfold kk. field. Qed.

(** C127.  The velocity that [compute_velocity] returns in binary64, in an aquifer that may be unconfined, is the exact one up to a bound in terms of the
    parts of the discharge and of the errors of the potential and of the logarithm. *)
Lemma c127_velocity : forall (lm : libm) (eps : R) (m : model spec_float) (x y : spec_float), 0 <= eps <= / 1000 -> log_within lm eps ->
  moderate_model m -> sized (conductivity m) -> moderate x -> moderate y -> clear_of_wells (real_model m) (fval x, fval y) -> (Z.of_nat (length (wells m)) <= 10 ^ 12)%Z ->
  let M := real_model m in let X := fval x in let Y := fval y in let n := INR (length (wells m)) in firm eps M X Y ->
  let s := water_depth M X Y * porosity M in let c := (n + 12) / 2 ^ 51 + 2 * depth_error eps M X Y in
  exists v ux uy, @compute_velocity _ (SF lm) m x y = Ok v /\ ffinite (fst v) /\ ffinite (snd v) /\ compute_velocity (fmodel M) (Fin X) (Fin Y) = Ok (Fin ux, Fin uy) /\
    ux = discharge_x M X Y / s /\ uy = discharge_y M X Y / s /\
    Rabs (fval (fst v) - ux) <= c * ((load_x M X Y + tiny) / s) /\ Rabs (fval (snd v) - uy) <= c * ((load_y M X Y + tiny) / s).
Proof.
  intros lm eps m x y He HL Hm Hk Hx Hy Hc Hn M X Y n ((L0 & U0) & H100) s c. destruct (moderate_sized m Hm) as (Hh & Hp). pose proof K_small as HK.
  destruct (potential_total lm eps m x y He HL Hm Hx Hy Hc Hn) as (Fp & Ep & _). fold M X Y in Ep. rewrite <- level_form in Ep. fold M in Ep. rewrite huge2_inv in L0. rewrite huge2 in U0.
  destruct (head_level lm (conductivity m) (thickness m) _ _ _ Hk Hh Fp (conj L0 U0) Ep H100) as (hd & E1 & F1 & P1 & B1).
  assert (Pe : 0 <= level_error eps M X Y) by (eapply Rle_trans; [apply Rabs_pos|exact Ep]).
  destruct (sized_bpow _ Hk) as (Fk & Lk & Uk). destruct (sized_bpow _ Hh) as (Fh & Lh & Uh). destruct (sized_bpow _ Hp) as (Fpo & Lp & Up). pose proof (bpow_gt_0 radix2 (-200)) as P2. pose proof (bpow_gt_0 radix2 (-400)) as P4.
  pose proof (depth_range _ _ _ (conj Lk Uk) (conj Lh Uh) L0) as Rb. cbv zeta in Rb. pose proof (bpow_gt_0 radix2 (-300)) as P3.
  destruct (depth_close (fval (conductivity m)) (fval (thickness m)) (potential M X Y) (level_error eps M X Y) (fval hd) ltac:(lra) ltac:(lra) ltac:(lra) Pe H100 B1) as (Phd & D1 & D2).
  assert (Off := away_off M X Y Hc). assert (EP : compute_potential (fmodel M) (Fin X) (Fin Y) = Fin (potential M X Y)) by (unfold potential; rewrite compute_potential_eq by exact Off; reflexivity).
  assert (Phys : physical M) by (unfold physical; cbn [conductivity porosity thickness M real_model]; repeat split; lra).
  pose proof (velocity_cases M X Y _ Phys Off EP) as VC. destruct (Rle_dec (potential M X Y) 0) as [L|_]; [lra|]. cbv zeta in VC. fold (water_depth M X Y) in VC. fold s in VC.
  set (b := Rmin (head_at (fval (conductivity m)) (fval (thickness m)) (potential M X Y)) (fval (thickness m))) in *. change (water_depth M X Y) with b in *.
  set (rho := Rabs (Rmin (fval hd) (fval (thickness m)) - b) / b). assert (Rr : 0 <= rho <= / 20 /\ rho <= depth_error eps M X Y).
  { assert (I : 0 < / b) by (apply Rinv_0_lt_compat; lra). split; [split|].
    - apply Rmult_le_pos; [apply Rabs_pos|lra].
    - apply Rmult_le_reg_r with b; [lra|]. unfold rho, Rdiv. rewrite Rmult_assoc, Rinv_l by lra. lra.
    - apply Rmult_le_reg_r with b; [lra|]. unfold rho, Rdiv. rewrite Rmult_assoc, Rinv_l, Rmult_1_r by lra. eapply Rle_trans; [exact D1|]. apply Rmult_le_compat_r; [lra|]. unfold depth_error. change (water_depth M X Y) with b. change (conductivity M) with (fval (conductivity m)).
      apply Rplus_le_compat_l. unfold kk. lra. }
  destruct Rr as (Rr & Rd).
  assert (Den : forall w, ffinite w -> fval w = Rmin (fval hd) (fval (thickness m)) -> ffinite (fmul w (porosity m)) /\ Rabs (fval (fmul w (porosity m)) - s) <= (rho + 3 * kk) * s /\ B2 (-510) <= s <= B2 400).
  { intros w Fw Ew. assert (Ws : Rabs (fval w - b) = rho * b) by (unfold rho; rewrite Ew; field; lra). assert (Wb : 19 / 20 * b <= fval w <= 21 / 20 * b) by (assert (rho * b <= / 20 * b) by (apply Rmult_le_compat_r; lra); assert (Q : Rabs (fval w - b) <= / 20 * b) by lra; apply Rabs_le_inv in Q; lra).
    assert (Lw : B2 (-501) <= fval w * fval (porosity m)). { change (-501)%Z with (-301 + -200)%Z. rewrite bpow_plus. pose proof (bpow_gt_0 radix2 (-301)). apply Rmult_le_compat; try lra. change (-301)%Z with (-1 + -300)%Z. rewrite bpow_plus. change (B2 (-1)) with (/ 2). lra. }
    assert (Uw : fval w * fval (porosity m) <= B2 401). { change 401%Z with (201 + 200)%Z. rewrite bpow_plus. apply Rmult_le_compat; try lra. change 201%Z with (1 + 200)%Z. rewrite bpow_plus. change (B2 1) with 2. lra. }
    pose proof (bpow_gt_0 radix2 (-501)) as P5.
    assert (AB : Rabs (fval w * fval (porosity m)) <= B2 401) by (rewrite Rabs_pos_eq by lra; exact Uw). destruct (mul_op 401 w (porosity m) ltac:(lia) Fw Fpo AB) as ((Fm & _) & Q). split; [exact Fm|]. change s with (b * fval (porosity m)). set (po := fval (porosity m)) in *. split.
    - replace (fval (fmul w (porosity m)) - b * po) with ((fval (fmul w (porosity m)) - fval w * po) + (fval w - b) * po) by ring. eapply Rle_trans; [apply Rabs_triang|]. rewrite (Rabs_mult (fval w - b)), (Rabs_pos_eq po), Ws by lra.
      assert (fval w * po <= 21 / 20 * b * po) by (apply Rmult_le_compat_r; lra).
      assert (KW : kk * (fval w * po) <= kk * (21 / 20 * b * po)) by (apply Rmult_le_compat_l; lra). assert (0 <= kk * (b * po)) by (apply Rmult_le_pos; [lra|apply Rmult_le_pos; lra]).
      assert (Q3 : Rabs (fval (fmul w (porosity m)) - fval w * po) <= kk * (fval w * po) + hh).
      { fold po in Q. rewrite (Rabs_pos_eq (fval w * po)) in Q by lra. exact Q. }
      assert (HH : hh <= kk * (fval w * po)). { apply Rle_trans with (kk * B2 (-501)); [rewrite ProofRoughStep.kk_bpow, <- bpow_plus; unfold hh; apply bpow_le; lia|apply Rmult_le_compat_l; lra]. }
      lra.
    - split; [change (-510)%Z with (-310 + -200)%Z|change 400%Z with (200 + 200)%Z]; rewrite bpow_plus; apply Rmult_le_compat; try lra; try apply bpow_ge_0. pose proof (bpow_le radix2 (-310) (-300) ltac:(lia)). lra. }
  destruct (discharge_total lm m x y Hm Hx Hy Hc Hn) as (T1 & T2 & L1 & L2). destruct (many_wells _ Hn) as (_ & Hkn). pose proof (pos_INR (length (wells m))) as Pn. fold n in Hkn, Pn, T1, T2.
  assert (Ps : 0 < s). { change s with (b * fval (porosity m)). apply Rmult_lt_0_compat; lra. } pose proof tiny_pos as Pt.
  assert (Fin : forall N, 0 <= N -> ((2 * (18 + 2 * n) + 10) * kk + 2 * rho) * ((N + tiny) / s) <= c * ((N + tiny) / s)).
  { intros N HN. rewrite vel_form. apply Rmult_le_compat_r; [apply Rmult_le_pos; [lra|left; now apply Rinv_0_lt_compat]|]. unfold c. lra. }
  assert (End : forall w, ffinite w -> fval w = Rmin (fval hd) (fval (thickness m)) -> @compute_velocity _ (SF lm) m x y = Ok (fdiv (fst (@compute_discharge _ (SF lm) m x y)) (fmul w (porosity m)), fdiv (snd (@compute_discharge _ (SF lm) m x y)) (fmul w (porosity m))) ->
    exists v ux uy, @compute_velocity _ (SF lm) m x y = Ok v /\ ffinite (fst v) /\ ffinite (snd v) /\ compute_velocity (fmodel M) (Num.Fin X) (Num.Fin Y) = Ok (Num.Fin ux, Num.Fin uy) /\
    ux = discharge_x M X Y / s /\ uy = discharge_y M X Y / s /\
    Rabs (fval (fst v) - ux) <= c * ((load_x M X Y + tiny) / s) /\ Rabs (fval (snd v) - uy) <= c * ((load_y M X Y + tiny) / s)).
  { intros w Fw Ew Ev. destruct (Den w Fw Ew) as (Fm & Em & S1 & S2). destruct (quotient_total _ _ _ _ _ _ _ T1 ltac:(lra) ltac:(lra) L1 Rr Fm Em S1 S2) as (G1 & Q1). destruct (quotient_total _ _ _ _ _ _ _ T2 ltac:(lra) ltac:(lra) L2 Rr Fm Em S1 S2) as (G2 & Q2).
    eexists. eexists. eexists. split; [exact Ev|]. split; [exact G1|]. split; [exact G2|]. split; [exact VC|]. split; [reflexivity|]. split; [reflexivity|].
    assert (N1 : 0 <= load_x M X Y) by (destruct T1 as (_ & _ & B); eapply Rle_trans; [apply Rabs_pos|exact B]). assert (N2 : 0 <= load_y M X Y) by (destruct T2 as (_ & _ & B); eapply Rle_trans; [apply Rabs_pos|exact B]).
    split; [exact (Rle_trans _ _ _ Q1 (Fin _ N1))|exact (Rle_trans _ _ _ Q2 (Fin _ N2))]. }
  destruct (of_small 0 ltac:(lia)) as (F0 & E0).
  assert (Ev : @compute_velocity _ (SF lm) m x y = if SFltb (thickness m) hd
     then Ok (fdiv (fst (@compute_discharge _ (SF lm) m x y)) (fmul (thickness m) (porosity m)), fdiv (snd (@compute_discharge _ (SF lm) m x y)) (fmul (thickness m) (porosity m)))
     else Ok (fdiv (fst (@compute_discharge _ (SF lm) m x y)) (fmul hd (porosity m)), fdiv (snd (@compute_discharge _ (SF lm) m x y)) (fmul hd (porosity m)))).
  { unfold compute_velocity. destruct (@compute_discharge _ (SF lm) m x y) as [qx qy]. unfold compute_head. rewrite E1. cbn [bind fst snd nle nlt nZ SF]. rewrite (fleb _ _ F1 F0), E0, Rle_bool_false by lra. reflexivity. }
  rewrite (fltb _ _ Fh F1) in Ev. destruct (Rlt_or_le (fval (thickness m)) (fval hd)) as [C|C].
  - rewrite Rlt_bool_true in Ev by exact C. apply (End (thickness m)); [exact Fh|rewrite Rmin_right by lra; reflexivity|exact Ev].
  - rewrite Rlt_bool_false in Ev by exact C. apply (End hd); [exact F1|rewrite Rmin_left by lra; reflexivity|exact Ev].
Qed.
