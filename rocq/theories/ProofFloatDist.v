(** * distancesquared in binary64 *)
From Coq Require Import ZArith Reals Lra Lia SpecFloat List Psatz.
From Flocq Require Import Core Relative Plus_error.
From Verif Require Import Py Num NumXR ModelField SpecField SpecFloats ProofFloat ProofFloatGrow ProofFloatOps ProofFloatMean ProofFloatGrid ProofGeom ProofDistError.
Local Open Scope R_scope.

Local Notation fx := (FLT_exp (-1074) 53).
Local Notation F := (generic_format radix2 fx).
Local Notation rd := (round radix2 fx ZnearestE).

Local Instance P53 : Prec_gt_0 53. Proof. reflexivity. Qed.

(** ** Operations with their errors *)
Definition kk : R := / 2 ^ 53.
Definition hh : R := bpow radix2 (-1075).

Lemma kk_bpow : / 2 * bpow radix2 (- (53) + 1) = kk.
Proof. unfold kk. change (bpow radix2 (- (53) + 1)) with (/ IZR (Z.pow_pos 2 52)). change (Z.pow_pos 2 52) with 4503599627370496%Z. lra. Qed.
Lemma hh_bpow : / 2 * bpow radix2 (-1074) = hh.
Proof. unfold hh. change (-1075)%Z with (-1 + -1074)%Z. rewrite bpow_plus. reflexivity. Qed.

Lemma rd_err x : Rabs (rd x - x) <= kk * Rabs x + hh.
Proof.
  destruct (error_N_FLT radix2 (-1074) 53 ltac:(reflexivity) (fun n => negb (Z.even n)) x) as (eps & eta & E1 & E2 & _ & E). rewrite E.
  rewrite kk_bpow in E1. rewrite hh_bpow in E2. replace (x * (1 + eps) + eta - x) with (eps * x + eta) by ring.
  eapply Rle_trans; [apply Rabs_triang|]. rewrite Rabs_mult. pose proof (Rabs_pos x). nra.
Qed.
Lemma rd_err_plus x y : F x -> F y -> Rabs (rd (x + y) - (x + y)) <= kk * Rabs (x + y).
Proof.
  intros Fx Fy. destruct (FLT_plus_error_N_ex radix2 (-1074) 53 (fun n => negb (Z.even n)) x y Fx Fy) as (eps & E1 & E). rewrite E.
  replace ((x + y) * (1 + eps) - (x + y)) with (eps * (x + y)) by ring. rewrite Rabs_mult.
  apply Rmult_le_compat_r; [apply Rabs_pos|]. eapply Rle_trans; [exact E1|]. unfold u_ro. rewrite kk_bpow.
  assert (0 < kk) by (unfold kk; apply Rinv_0_lt_compat, pow_lt; lra).
  apply Rmult_le_reg_r with (1 + kk); [lra|]. unfold Rdiv. rewrite Rmult_assoc, Rinv_l by lra. nra.
Qed.
Lemma rd_small n x : (-1074 <= n)%Z -> Rabs x <= bpow radix2 n -> Rabs (rd x) <= bpow radix2 n.
Proof.
  intros Hn B. apply Rabs_le_inv in B. apply Rabs_le. apply rd_between; [|apply F_bpow; lia|exact B].
  apply generic_format_opp, F_bpow. lia.
Qed.

Definition fits n (z : spec_float) := ffinite z /\ Rabs (fval z) <= bpow radix2 n.

Lemma sub_op n x y : (-1074 <= n < 1024)%Z -> ffinite x -> ffinite y -> Rabs (fval x - fval y) <= bpow radix2 n ->
  fits n (SFsub fprec femax x y) /\ Rabs (fval (SFsub fprec femax x y) - (fval x - fval y)) <= kk * Rabs (fval x - fval y).
Proof.
  intros Hn Hx Hy B. pose proof (rd_small n _ ltac:(lia) B) as B'.
  destruct (sub_rd x y Hx Hy) as (Q & V); [eapply Rle_lt_trans; [exact B'|apply bpow_lt; lia]|]. unfold fits. rewrite V.
  split; [split; assumption|]. apply (rd_err_plus (fval x) (- fval y)); [apply F_of; exact Hx|apply generic_format_opp, F_of; exact Hy].
Qed.
Lemma add_op n x y : (-1074 <= n < 1024)%Z -> ffinite x -> ffinite y -> Rabs (fval x + fval y) <= bpow radix2 n ->
  fits n (SFadd fprec femax x y) /\ Rabs (fval (SFadd fprec femax x y) - (fval x + fval y)) <= kk * Rabs (fval x + fval y).
Proof.
  intros Hn Hx Hy B. pose proof (rd_small n _ ltac:(lia) B) as B'.
  destruct (add_rd x y Hx Hy) as (Q & V); [eapply Rle_lt_trans; [exact B'|apply bpow_lt; lia]|]. unfold fits. rewrite V.
  split; [split; assumption|]. apply rd_err_plus; apply F_of; assumption.
Qed.
Lemma mul_op n x y : (-1074 <= n < 1024)%Z -> ffinite x -> ffinite y -> Rabs (fval x * fval y) <= bpow radix2 n ->
  fits n (SFmul fprec femax x y) /\ Rabs (fval (SFmul fprec femax x y) - fval x * fval y) <= kk * Rabs (fval x * fval y) + hh.
Proof.
  intros Hn Hx Hy B. pose proof (rd_small n _ ltac:(lia) B) as B'.
  destruct (mul_rd x y Hx Hy) as (Q & V); [eapply Rle_lt_trans; [exact B'|apply bpow_lt; lia]|]. unfold fits. rewrite V.
  split; [split; assumption|]. apply rd_err.
Qed.
Lemma div_op n x y : (-1074 <= n < 1024)%Z -> ffinite x -> ffinite y -> fval y <> 0 -> Rabs (fval x / fval y) <= bpow radix2 n ->
  fits n (SFdiv fprec femax x y) /\ Rabs (fval (SFdiv fprec femax x y) - fval x / fval y) <= kk * Rabs (fval x / fval y) + hh.
Proof.
  intros Hn Hx Hy N B. pose proof (rd_small n _ ltac:(lia) B) as B'.
  destruct (div_rd x y Hx Hy N) as (Q & V); [eapply Rle_lt_trans; [exact B'|apply bpow_lt; lia]|]. unfold fits. rewrite V.
  split; [split; assumption|]. apply rd_err.
Qed.

Lemma abs_mul_le x y n m : Rabs x <= bpow radix2 n -> Rabs y <= bpow radix2 m -> Rabs (x * y) <= bpow radix2 (n + m).
Proof. intros A B. rewrite Rabs_mult, bpow_plus. apply Rmult_le_compat; auto using Rabs_pos. Qed.
Lemma abs_add_le x y n : Rabs x <= bpow radix2 n -> Rabs y <= bpow radix2 n -> Rabs (x + y) <= bpow radix2 (1 + n).
Proof. intros A B. rewrite bpow_plus. change (bpow radix2 1) with 2. pose proof (Rabs_triang x y). lra. Qed.
Lemma abs_sub_le x y n : Rabs x <= bpow radix2 n -> Rabs y <= bpow radix2 n -> Rabs (x - y) <= bpow radix2 (1 + n).
Proof. intros A B. apply abs_add_le; [exact A|]. rewrite Rabs_Ropp. exact B. Qed.

Lemma K_small : 0 < kk <= / 1000000.
Proof. unfold kk. split; [apply Rinv_0_lt_compat, pow_lt; lra|]. apply Rinv_le_contravar; lra. Qed.
Lemma hh_pos : 0 < hh. Proof. apply bpow_gt_0. Qed.

Lemma cauchy px py qx qy L D : 0 <= L -> 0 <= D -> L * L = px * px + py * py -> D * D = qx * qx + qy * qy ->
  Rabs (px * qx) + Rabs (py * qy) <= L * D.
Proof.
  intros HL HD EL ED. rewrite !Rabs_mult. set (a := Rabs px). set (b := Rabs py). set (c := Rabs qx). set (d := Rabs qy).
  assert (Ea : a * a = px * px) by (unfold a; rewrite <- Rabs_mult, Rabs_pos_eq; nra). assert (Eb : b * b = py * py) by (unfold b; rewrite <- Rabs_mult, Rabs_pos_eq; nra).
  assert (Ec : c * c = qx * qx) by (unfold c; rewrite <- Rabs_mult, Rabs_pos_eq; nra). assert (Ed : d * d = qy * qy) by (unfold d; rewrite <- Rabs_mult, Rabs_pos_eq; nra).
  assert (0 <= a) by apply Rabs_pos. assert (0 <= b) by apply Rabs_pos. assert (0 <= c) by apply Rabs_pos. assert (0 <= d) by apply Rabs_pos.
  apply Rsqr_incr_0_var; [|nra]. unfold Rsqr.
  assert (L * D * (L * D) = (a * a + b * b) * (c * c + d * d)) by (rewrite Ea, Eb, Ec, Ed, <- EL, <- ED; ring).
  pose proof (Rle_0_sqr (a * d - b * c)) as S. unfold Rsqr in S. nra.
Qed.

Definition approx (a : spec_float) (A : R) := fits 201 a /\ Rabs (fval a - A) <= kk * Rabs A.

Lemma dot_op a1 b1 a2 b2 A1 B1 A2 B2 BB : approx a1 A1 -> approx b1 B1 -> approx a2 A2 -> approx b2 B2 ->
  Rabs (A1 * B1) + Rabs (A2 * B2) <= BB ->
  let s := SFadd fprec femax (SFmul fprec femax a1 b1) (SFmul fprec femax a2 b2) in
  fits 403 s /\ Rabs (fval s - (A1 * B1 + A2 * B2)) <= 5 * kk * BB + 4 * hh.
Proof.
  intros ((F1 & G1) & E1) ((F2 & G2) & E2) ((F3 & G3) & E3) ((F4 & G4) & E4) B s.
  destruct (mul_op 402 a1 b1 ltac:(lia) F1 F2 (abs_mul_le _ _ 201 201 G1 G2)) as ((F5 & G5) & E5).
  destruct (mul_op 402 a2 b2 ltac:(lia) F3 F4 (abs_mul_le _ _ 201 201 G3 G4)) as ((F6 & G6) & E6).
  destruct (add_op 403 _ _ ltac:(lia) F5 F6 (abs_add_le _ _ 402 G5 G6)) as (F7 & E7).
  split; [exact F7|]. pose proof K_small. pose proof hh_pos.
  apply (sum_products kk hh ltac:(assumption) ltac:(assumption)) with (3 := E7); [| |exact B].
  - apply (product kk hh ltac:(assumption)) with (x' := fval a1) (y' := fval b1); assumption.
  - apply (product kk hh ltac:(assumption)) with (x' := fval a2) (y' := fval b2); assumption.
Qed.
Lemma cross_op a1 b1 a2 b2 A1 B1 A2 B2 BB : approx a1 A1 -> approx b1 B1 -> approx a2 A2 -> approx b2 B2 ->
  Rabs (A1 * B1) + Rabs (A2 * B2) <= BB ->
  let s := SFsub fprec femax (SFmul fprec femax a1 b1) (SFmul fprec femax a2 b2) in
  fits 403 s /\ Rabs (fval s - (A1 * B1 - A2 * B2)) <= 5 * kk * BB + 4 * hh.
Proof.
  intros ((F1 & G1) & E1) ((F2 & G2) & E2) ((F3 & G3) & E3) ((F4 & G4) & E4) B s.
  destruct (mul_op 402 a1 b1 ltac:(lia) F1 F2 (abs_mul_le _ _ 201 201 G1 G2)) as ((F5 & G5) & E5).
  destruct (mul_op 402 a2 b2 ltac:(lia) F3 F4 (abs_mul_le _ _ 201 201 G3 G4)) as ((F6 & G6) & E6).
  destruct (sub_op 403 _ _ ltac:(lia) F5 F6 (abs_sub_le _ _ 402 G5 G6)) as (F7 & E7).
  split; [exact F7|]. pose proof K_small. pose proof hh_pos.
  apply (sum_products kk hh ltac:(assumption) ltac:(assumption)) with (p := A1 * B1) (q := - (A2 * B2)) (t2 := - fval (SFmul fprec femax a2 b2)) (3 := E7); [| |rewrite Rabs_Ropp; exact B].
  - apply (product kk hh ltac:(assumption)) with (x' := fval a1) (y' := fval b1); assumption.
  - rewrite Rabs_Ropp. replace (- fval (SFmul fprec femax a2 b2) - - (A2 * B2)) with (- (fval (SFmul fprec femax a2 b2) - A2 * B2)) by ring. rewrite Rabs_Ropp.
    apply (product kk hh ltac:(assumption)) with (x' := fval a2) (y' := fval b2); assumption.
Qed.

Lemma dist_float lm ax ay bx by_ cx cy :
  Forall (fits 200) [ax; ay; bx; by_; cx; cy] ->
  let a := (fval ax, fval ay) in let b := (fval bx, fval by_) in let c := (fval cx, fval cy) in
  bpow radix2 (-400) <= dist2 a b ->
  let d := @distancesquared spec_float (SF lm) ax ay bx by_ cx cy in
  ffinite d /\ Rabs (fval d - dsq a b c) <= 100 * (kk * (dist2 a b + dist2 a c)).
Proof.
  intros FF a b c LB d.
  inversion FF as [|? ? (F1 & G1) FF1]; subst. inversion FF1 as [|? ? (F2 & G2) FF2]; subst. inversion FF2 as [|? ? (F3 & G3) FF3]; subst.
  inversion FF3 as [|? ? (F4 & G4) FF4]; subst. inversion FF4 as [|? ? (F5 & G5) FF5]; subst. inversion FF5 as [|? ? (F6 & G6) _]; subst.
  clear FF FF1 FF2 FF3 FF4 FF5.
  set (px := fval bx - fval ax). set (py := fval by_ - fval ay). set (qx := fval cx - fval ax). set (qy := fval cy - fval ay).
  assert (Apx : approx (SFsub fprec femax bx ax) px) by (apply (sub_op 201); [lia|assumption|assumption|apply (abs_sub_le _ _ 200); assumption]).
  assert (Apy : approx (SFsub fprec femax by_ ay) py) by (apply (sub_op 201); [lia|assumption|assumption|apply (abs_sub_le _ _ 200); assumption]).
  assert (Aqx : approx (SFsub fprec femax cx ax) qx) by (apply (sub_op 201); [lia|assumption|assumption|apply (abs_sub_le _ _ 200); assumption]).
  assert (Aqy : approx (SFsub fprec femax cy ay) qy) by (apply (sub_op 201); [lia|assumption|assumption|apply (abs_sub_le _ _ 200); assumption]).
  assert (Bpx : Rabs px <= bpow radix2 201) by (apply (abs_sub_le _ _ 200); assumption). assert (Bpy : Rabs py <= bpow radix2 201) by (apply (abs_sub_le _ _ 200); assumption).
  assert (Bqx : Rabs qx <= bpow radix2 201) by (apply (abs_sub_le _ _ 200); assumption). assert (Bqy : Rabs qy <= bpow radix2 201) by (apply (abs_sub_le _ _ 200); assumption).
  assert (EL : dist2 a b = px * px + py * py) by (unfold dist2, a, b, px, py; cbn [fst snd]; ring).
  assert (ED : dist2 a c = qx * qx + qy * qy) by (unfold dist2, a, c, qx, qy; cbn [fst snd]; ring).
  set (L := sqrt (dist2 a b)). set (D := sqrt (dist2 a c)). set (m := sqrt (dist2 a b + dist2 a c)).
  pose proof (bpow_gt_0 radix2 (-400)) as B4.
  assert (LL : L * L = dist2 a b) by (apply sqrt_sqrt; lra).
  assert (D0 : 0 <= dist2 a c) by (rewrite ED; nra).
  assert (DD : D * D = dist2 a c) by (apply sqrt_sqrt; lra).
  assert (MM : m * m = dist2 a b + dist2 a c) by (apply sqrt_sqrt; lra).
  assert (PL : 0 < L) by (apply sqrt_lt_R0; lra). assert (PD : 0 <= D) by apply sqrt_pos. assert (PM : 0 < m) by (apply sqrt_lt_R0; lra).
  assert (Em : m * m = L * L + D * D) by lra.
  pose proof K_small as KS. pose proof hh_pos as HP.
  assert (K1 : 1000 * hh <= kk * bpow radix2 (-800)).
  { apply Rle_trans with (bpow radix2 10 * hh); [apply Rmult_le_compat_r; [lra|change (bpow radix2 10) with 1024; lra]|].
    unfold kk. change (/ 2 ^ 53) with (/ 2 ^ 53). rewrite pow_bpow, <- bpow_opp. unfold hh. rewrite <- !bpow_plus. apply bpow_le. cbn; lia. }
  assert (L4 : bpow radix2 (-800) <= L * L * (L * L)).
  { change (-800)%Z with (-400 + -400)%Z. rewrite bpow_plus. apply Rmult_le_compat; lra. }
  assert (B8 : bpow radix2 (-800) <= bpow radix2 (-400)) by (apply bpow_le; lia).
  assert (S1 : 1000 * hh <= kk * (L * L)) by (eapply Rle_trans; [exact K1|]; apply Rmult_le_compat_l; lra).
  assert (S2 : 1000 * hh <= kk * (L * L * (L * L))) by (eapply Rle_trans; [exact K1|]; apply Rmult_le_compat_l; lra).
  assert (EL' : L * L = px * px + py * py) by lra. assert (ED' : D * D = qx * qx + qy * qy) by lra.
  (* perp-dot and dot products, square of the length *)
  destruct (cross_op _ _ _ _ px qy py qx (L * D) Apx Aqy Apy Aqx) as ((Fp & Gp) & Ep); [apply cauchy; lra|].
  destruct (dot_op _ _ _ _ px qx py qy (L * D) Apx Aqx Apy Aqy) as ((Fd & Gd) & Ed); [apply cauchy; lra|].
  destruct (dot_op _ _ _ _ px px py py (L * L) Apx Apx Apy Apy) as ((Fl & Gl) & El); [apply cauchy; lra|].
  set (sp := SFsub fprec femax _ _) in Fp, Gp, Ep. set (sd := SFadd fprec femax _ _) in Fd, Gd, Ed. set (sl := SFadd fprec femax _ _) in Fl, Gl, El.
  set (P := px * qy - py * qx) in *. set (Q := px * qx + py * qy) in *. rewrite <- EL' in El.
  apply (length_err kk hh KS HP L D m PL PD PM Em S1 S2) in El.
  assert (HPq : Rabs P <= L * D).
  { pose proof (cauchy px py qy qx L D ltac:(lra) PD EL' ltac:(lra)) as C. eapply Rle_trans; [|exact C]. unfold P. eapply Rle_trans; [apply Rabs_triang|]. rewrite Rabs_Ropp. lra. }
  assert (HQq : Rabs Q <= L * D).
  { pose proof (cauchy px py qx qy L D ltac:(lra) PD EL' ltac:(lra)) as C. eapply Rle_trans; [|exact C]. apply Rabs_triang. }
  assert (PQ : P * P + Q * Q = L * L * (D * D)) by (rewrite EL', ED'; unfold P, Q; ring).
  assert (M4 : m * m <= bpow radix2 405).
  { rewrite MM, EL, ED. change 405%Z with (3 + (201 + 201))%Z. rewrite bpow_plus. change (bpow radix2 3) with 8.
    pose proof (abs_mul_le px px 201 201 Bpx Bpx) as X1. pose proof (abs_mul_le py py 201 201 Bpy Bpy) as X2. pose proof (abs_mul_le qx qx 201 201 Bqx Bqx) as X3. pose proof (abs_mul_le qy qy 201 201 Bqy Bqy) as X4.
    apply Rabs_le_inv in X1, X2, X3, X4. pose proof (bpow_gt_0 radix2 (201 + 201)). lra. }
  assert (lpos : 0 < fval sl). { apply abs_inv in El. nra. }
  (* the two quotients *)
  destruct (mul_op 806 sp sp ltac:(lia) Fp Fp (abs_mul_le _ _ 403 403 Gp Gp)) as ((Fpp & Gpp) & Epp).
  destruct (mul_op 806 sd sd ltac:(lia) Fd Fd (abs_mul_le _ _ 403 403 Gd Gd)) as ((Fdd & Gdd) & Edd).
  destruct (ratio kk hh KS HP L D m PL PD PM Em S1 S2 P _ _ _ HPq Ep Epp El) as (_ & Rp).
  destruct (ratio kk hh KS HP L D m PL PD PM Em S1 S2 Q _ _ _ HQq Ed Edd El) as (_ & Rq).
  assert (M5 : 11/10 * (m * m) <= bpow radix2 406).
  { change 406%Z with (1 + 405)%Z. rewrite bpow_plus. change (bpow radix2 1) with 2. nra. }
  destruct (div_op 406 _ sl ltac:(lia) Fpp Fl ltac:(lra) ltac:(lra)) as ((Fal & Gal) & Eal).
  destruct (div_op 406 _ sl ltac:(lia) Fdd Fl ltac:(lra) ltac:(lra)) as ((Fbe & Gbe) & Ebe).
  pose proof (quotient kk hh KS HP L D m PL PD PM Em S1 S2 P _ _ _ _ HPq Ep Epp El Eal) as EA.
  pose proof (quotient kk hh KS HP L D m PL PD PM Em S1 S2 Q _ _ _ _ HQq Ed Edd El Ebe) as EB.
  set (al := SFdiv fprec femax (SFmul fprec femax sp sp) sl) in *. set (be := SFdiv fprec femax (SFmul fprec femax sd sd) sl) in *.
  assert (ET : dsq a b c = (if Rlt_dec Q 0 then P * P / (L * L) + Q * Q / (L * L)
               else if Rlt_dec (L * L) (Q * Q / (L * L)) then P * P / (L * L) + Q * Q / (L * L) - 2 * Q + L * L
               else P * P / (L * L))).
  { unfold dsq. change (perp a b c) with P. change (dotp a b c) with Q. replace (len2 a b) with (L * L) by (rewrite EL'; reflexivity).
    unfold Rltb. destruct (Rlt_dec Q 0); [reflexivity|]. destruct (Rlt_dec (L * L) (Q * Q / (L * L))); reflexivity. }
  rewrite ET, <- MM. clear ET.
  destruct (add_op 407 al be ltac:(lia) Fal Fbe (abs_add_le _ _ 406 Gal Gbe)) as ((Fs1 & Gs1) & Es1).
  assert (Ed2 : d = if SFltb sd (f_of_Z 0) then SFadd fprec femax al be
    else if SFltb sl be then SFadd fprec femax (SFsub fprec femax (SFadd fprec femax al be) (SFmul fprec femax (f_of_Z 2) sd)) sl else al) by reflexivity.
  destruct (of_small 0 ltac:(cbn; lia)) as (Q0 & V0). destruct (of_small 2 ltac:(cbn; lia)) as (Q2 & V2).
  rewrite (fltb sd _ Fd Q0), V0, (fltb sl be Fl Fbe) in Ed2.
  destruct (Rlt_bool_spec (fval sd) 0) as [Cd|Cd].
  - rewrite Ed2. split; [exact Fs1|]. apply (branches kk hh KS HP L D m PL PD PM Em S1 S2 P Q (fval sd) (fval al) (fval be) (fval sl)); try assumption. left. split; assumption.
  - destruct (Rlt_bool_spec (fval sl) (fval be)) as [Cb|Cb].
    + assert (G2d : Rabs (fval (f_of_Z 2) * fval sd) <= bpow radix2 404).
      { rewrite V2. change 404%Z with (1 + 403)%Z. rewrite Rabs_mult, bpow_plus. apply Rmult_le_compat; [apply Rabs_pos|apply Rabs_pos|rewrite Rabs_pos_eq by lra; cbn; lra|exact Gd]. }
      destruct (mul_op 404 (f_of_Z 2) sd ltac:(lia) Q2 Fd G2d) as ((F2d & G2d') & E2d). rewrite V2 in E2d.
      assert (Up : forall x n n', (n <= n')%Z -> Rabs x <= bpow radix2 n -> Rabs x <= bpow radix2 n') by (intros x n n' Hn Hx; eapply Rle_trans; [exact Hx|apply bpow_le; exact Hn]).
      destruct (sub_op 408 _ _ ltac:(lia) Fs1 F2d (abs_sub_le _ _ 407 Gs1 (Up _ 404%Z 407%Z ltac:(lia) G2d'))) as ((Fs2 & Gs2) & Es2).
      destruct (add_op 409 _ _ ltac:(lia) Fs2 Fl (abs_add_le _ _ 408 Gs2 (Up _ 403%Z 408%Z ltac:(lia) Gl))) as ((Fs3 & Gs3) & Es3).
      rewrite Ed2. split; [exact Fs3|].
      apply (branches kk hh KS HP L D m PL PD PM Em S1 S2 P Q (fval sd) (fval al) (fval be) (fval sl)); try assumption. right; left.
      split; [exact Cd|]. split; [exact Cb|]. do 3 eexists. split; [exact Es1|]. split; [exact E2d|]. split; [exact Es2|exact Es3].
    + rewrite Ed2. split; [exact Fal|].
      apply (branches kk hh KS HP L D m PL PD PM Em S1 S2 P Q (fval sd) (fval al) (fval be) (fval sl)); try assumption. right; right. auto.
Qed.

(** The computed distance, for all points below 2^200 and segments of length at least 2^-200. *)
Lemma c90_accuracy : forall lm ax ay bx by_ cx cy,
  (forall v, In v [ax; ay; bx; by_; cx; cy] -> ffinite v /\ Rabs (fval v) <= 2 ^ 200) ->
  let a := (fval ax, fval ay) in let b := (fval bx, fval by_) in let c := (fval cx, fval cy) in
  / 2 ^ 400 <= dist2 a b ->
  let d := @distancesquared spec_float (SF lm) ax ay bx by_ cx cy in
  let tol := / 2 ^ 46 * (dist2 a b + dist2 a c) in
  ffinite d /\ (forall p, on_segment a b p -> fval d <= dist2 p c + tol) /\ (exists p, on_segment a b p /\ dist2 p c <= fval d + tol).
Proof.
  intros lm ax ay bx by_ cx cy HB a b c LB d tol.
  assert (FF : Forall (fits 200) [ax; ay; bx; by_; cx; cy]).
  { apply Forall_forall. intros v Hv. destruct (HB v Hv) as (A & B). split; [exact A|]. rewrite pow_bpow in B. exact B. }
  assert (LB' : bpow radix2 (-400) <= dist2 a b) by (rewrite pow_bpow, <- bpow_opp in LB; exact LB).
  destruct (dist_float lm ax ay bx by_ cx cy FF LB') as (Fd & E). fold a b c in E. fold d in Fd, E.
  pose proof (bpow_gt_0 radix2 (-400)).
  assert (N : a <> b). { intros X. rewrite <- X in LB'. assert (dist2 a a = 0) by (unfold dist2; ring). lra. }
  assert (T : 100 * (kk * (dist2 a b + dist2 a c)) <= tol).
  { unfold tol, kk. rewrite <- Rmult_assoc. apply Rmult_le_compat_r; [pose proof (dist2_nonneg a b); pose proof (dist2_nonneg a c); lra|lra]. }
  apply Rabs_le_inv in E. split; [exact Fd|]. split.
  - intros p Hp. pose proof (dsq_lower a b c p N Hp). lra.
  - destruct (dsq_attained a b c N) as (p & Hp & Ep). exists p. split; [exact Hp|]. lra.
Qed.

Lemma zero_of x : ffinite x -> fval x = 0 -> exists s, x = S754_zero s.
Proof.
  intros (_ & H) E. destruct x as [s|s| |s m e]; try contradiction; [eauto|]. exfalso. unfold fval in E.
  apply Rmult_integral in E. destruct E as [E|E]; [|pose proof (powerRZ_lt 2 e ltac:(lra)); lra].
  pose proof (IZR_lt 0 (Z.pos m) ltac:(lia)). destruct s; lra.
Qed.
Lemma sub_self x y : ffinite x -> ffinite y -> fval x = fval y -> exists s, SFsub fprec femax x y = S754_zero s.
Proof.
  intros H H' Qe. assert (E : rd (fval x - fval y) = 0) by (rewrite Qe; replace (fval y - fval y) with 0 by ring; apply round_0; typeclasses eauto).
  destruct (sub_rd x y H H') as (Q & V); [rewrite E, Rabs_R0; apply bpow_gt_0|]. rewrite E in V. now apply zero_of.
Qed.

(** A segment of length 0 has no distance: NaN, so nothing is marked. *)
Lemma c90_degenerate : forall lm ax ay bx by_ cx cy,
  (forall v, In v [ax; ay; bx; by_; cx; cy] -> ffinite v /\ Rabs (fval v) <= 2 ^ 200) -> fval ax = fval bx -> fval ay = fval by_ ->
  @distancesquared spec_float (SF lm) ax ay bx by_ cx cy = S754_nan.
Proof.
  intros lm ax ay bx by_ cx cy HB Qx Qy.
  assert (FF : forall v, In v [ax; ay; bx; by_; cx; cy] -> fits 200 v).
  { intros v Hv. destruct (HB v Hv) as (A & B). split; [exact A|]. rewrite pow_bpow in B. exact B. }
  destruct (FF ax) as (F1 & G1); [cbn; auto|]. destruct (FF ay) as (F2 & G2); [cbn; auto|]. destruct (FF cx) as (F3 & G3); [cbn; auto 10|]. destruct (FF cy) as (F4 & G4); [cbn; auto 10|].
  destruct (sub_self bx ax (proj1 (FF bx ltac:(cbn; auto))) F1 (eq_sym Qx)) as (s1 & E1). destruct (sub_self by_ ay (proj1 (FF by_ ltac:(cbn; auto))) F2 (eq_sym Qy)) as (s2 & E2).
  destruct (sub_op 201 cx ax ltac:(lia) F3 F1 (abs_sub_le _ _ 200 G3 G1)) as ((F5 & _) & _).
  destruct (sub_op 201 cy ay ltac:(lia) F4 F2 (abs_sub_le _ _ 200 G4 G2)) as ((F6 & _) & _).
  unfold distancesquared. cbn [nsub nmul nadd ndiv nlt nZ SF]. rewrite E1, E2.
  destruct F5 as (_ & F5), F6 as (_ & F6).
  destruct (SFsub fprec femax cx ax) as [[]|?| |[] ? ?]; try contradiction; destruct (SFsub fprec femax cy ay) as [[]|?| |[] ? ?]; try contradiction;
    destruct s1, s2; reflexivity.
Qed.
