(** * Rounding in one Dormand-Prince step *)
From Coq Require Import ZArith Reals Lra Lia SpecFloat List Psatz.
From Flocq Require Import Core.
From Verif Require Import Py Num ModelTrace SpecFloats ProofFloat ProofFloatGrow ProofFloatOps ProofFloatMean ProofFloatGrid ProofDistError ProofFloatDist.
Import ListNotations.
Local Open Scope R_scope.

Local Notation fadd := (SFadd fprec femax).
Local Notation fmul := (SFmul fprec femax).

(** A sum of products from left to right, and the exact one. *)
Definition fcomb (l : list (spec_float * spec_float)) : spec_float :=
  match l with [] => S754_zero false | p :: r => fold_left (fun s p => fadd s (fmul (fst p) (snd p))) r (fmul (fst p) (snd p)) end.
Definition rcomb (l : list (R * spec_float)) : R := fold_right (fun p s => fst p * fval (snd p) + s) 0 l.
Definition weight (l : list (R * spec_float)) : R := fold_right (fun p s => Rabs (fst p) + s) 0 l.

(** [p] is the product of a rounded coefficient and a number below [W]. *)
Definition factor (W : R) (A : R * spec_float) (p : spec_float * spec_float) : Prop :=
  ffinite (fst p) /\ Rabs (fval (fst p) - fst A) <= 2 * kk * Rabs (fst A) /\ snd A = snd p /\ ffinite (snd p) /\ Rabs (fval (snd p)) <= W.

Lemma weight_pos l : 0 <= weight l.
Proof. induction l as [|p l IH]; cbn [weight fold_right]; [lra|]. fold (weight l). pose proof (Rabs_pos (fst p)). lra. Qed.

Section Rounding.

(** The bound [q] of the numbers, and the least bound [xm] of the coordinates. *)
Variables q xm : R.
Hypothesis q_one : 1 <= q.
Hypothesis q_once : 1024 * q <= bpow radix2 210.
Hypothesis q_once' : 2048 * q <= bpow radix2 211.
Hypothesis q_twice : 1024 * (q * q) <= bpow radix2 410.
Hypothesis q_twice' : 2048 * (q * q) <= bpow radix2 411.
Hypothesis xm_pos : 0 < xm.
Hypothesis q_tiny : 200 * (q * hh) <= kk * xm.
Hypothesis hh_one : hh <= 1.

Lemma factor_err W A p : 0 <= W <= q -> Rabs (fst A) <= 25 -> factor W A p ->
  fits 210 (fmul (fst p) (snd p)) /\ Rabs (fval (fmul (fst p) (snd p)) - fst A * fval (snd A)) <= 4 * kk * Rabs (fst A) * W + hh.
Proof.
  intros HW HA (F1 & E1 & E2 & F2 & B2). rewrite E2. set (a := fval (fst p)) in *. set (k := fval (snd p)) in *. set (A0 := fst A) in *.
  pose proof K_small as HK. pose proof (Rabs_pos A0) as PA. pose proof (Rabs_pos k) as Pk.
  assert (Ba : Rabs a <= (1 + 2 * kk) * Rabs A0).
  { replace a with (A0 + (a - A0)) by ring. eapply Rle_trans; [apply Rabs_triang|]. lra. }
  assert (Bak : Rabs (a * k) <= (1 + 2 * kk) * Rabs A0 * W) by (rewrite Rabs_mult; apply Rmult_le_compat; try apply Rabs_pos; assumption).
  assert (PAW : 0 <= Rabs A0 * W) by (apply Rmult_le_pos; lra).
  destruct (mul_op 210 (fst p) (snd p) ltac:(lia) F1 F2) as (F3 & E3).
  { fold a k. eapply Rle_trans; [exact Bak|]. eapply Rle_trans; [|exact q_once].
    assert (Rabs A0 * W <= 25 * q) by (apply Rmult_le_compat; lra). rewrite Rmult_assoc. clear - H PAW HK q_one. nra. }
  split; [exact F3|]. fold a k in E3. set (t := fval (fmul (fst p) (snd p))) in *.
  replace (t - A0 * k) with (t - a * k + (a - A0) * k) by ring. eapply Rle_trans; [apply Rabs_triang|]. rewrite (Rabs_mult (a - A0)).
  assert (X1 : Rabs (a - A0) * Rabs k <= 2 * kk * Rabs A0 * W) by (apply Rmult_le_compat; try apply Rabs_pos; assumption).
  assert (X2 : kk * Rabs (a * k) <= kk * ((1 + 2 * kk) * Rabs A0 * W)) by (apply Rmult_le_compat_l; lra).
  replace (kk * ((1 + 2 * kk) * Rabs A0 * W)) with (kk * (Rabs A0 * W) + 2 * kk * (kk * (Rabs A0 * W))) in X2 by ring.
  assert (X3 : 0 <= kk * (Rabs A0 * W)) by (apply Rmult_le_pos; lra). nra.
Qed.

Lemma fold_err W : 0 <= W <= q -> forall ps As s s0 c d, Forall2 (factor W) As ps ->
  fits 211 s -> Rabs (fval s - s0) <= c * kk * W + d * hh -> 0 <= c -> 0 <= d -> Rabs s0 + weight As * W <= 25 * W ->
  weight As <= 25 -> c + 4 * weight As + 27 * INR (length As) <= 256 -> d + 2 * INR (length As) <= 20 ->
  let r := fold_left (fun s p => fadd s (fmul (fst p) (snd p))) ps s in
  ffinite r /\ Rabs (fval r - (s0 + rcomb As)) <= (c + 4 * weight As + 27 * INR (length As)) * kk * W + (d + 2 * INR (length As)) * hh.
Proof.
  intros HW. pose proof K_small as HK. pose proof hh_pos as Hh. assert (HkW : 0 <= kk * W) by (apply Rmult_le_pos; lra).
  induction ps as [|p ps IH]; intros As s s0 c d F (Fs & Bs) Es Hc Hd Hw Hw1 Hc2 Hd2; inversion F as [|A p' As' ps' FA FR E1 E2]; subst.
  - cbn [fold_left rcomb weight fold_right length INR]. split; [exact Fs|]. rewrite Rplus_0_r. cbn [weight fold_right length INR] in *. lra.
  - cbn [fold_left]. cbn [weight fold_right length] in Hw, Hw1, Hc2, Hd2. fold (weight As') in Hw, Hw1, Hc2, Hd2. rewrite S_INR in Hc2, Hd2. pose proof (weight_pos As') as Pw. pose proof (pos_INR (length As')) as Pn. pose proof (Rabs_pos (fst A)) as PA.
    destruct (factor_err W A p HW ltac:(lra) FA) as ((Ft & Bt) & Et). set (t := fmul (fst p) (snd p)) in *. set (t0 := fst A * fval (snd A)) in *.
    assert (Bt0 : Rabs t0 <= Rabs (fst A) * W).
    { unfold t0. rewrite Rabs_mult. apply Rmult_le_compat_l; [exact PA|]. destruct FA as (_ & _ & -> & _ & B). exact B. }
    assert (HwW : 0 <= weight As' * W) by (apply Rmult_le_pos; lra).
    assert (HAW : Rabs (fst A) * W <= 25 * W) by (apply Rmult_le_compat_r; lra).
    assert (Err : Rabs ((fval s + fval t) - (s0 + t0)) <= (c + 4 * Rabs (fst A)) * kk * W + (d + 1) * hh).
    { replace (fval s + fval t - (s0 + t0)) with ((fval s - s0) + (fval t - t0)) by ring. eapply Rle_trans; [apply Rabs_triang|]. lra. }
    assert (B0 : Rabs (s0 + t0) <= 25 * W) by (eapply Rle_trans; [apply Rabs_triang|]; lra).
    assert (Bst : Rabs (fval s + fval t) <= 26 * W + 21 * hh).
    { replace (fval s + fval t) with ((s0 + t0) + ((fval s + fval t) - (s0 + t0))) by ring. eapply Rle_trans; [apply Rabs_triang|].
      assert ((c + 4 * Rabs (fst A)) * (kk * W) <= 256 * (kk * W)) by (apply Rmult_le_compat_r; lra).
      assert (256 * (kk * W) <= W) by nra. assert (d * hh <= 20 * hh) by (apply Rmult_le_compat_r; lra). lra. }
    destruct (add_op 211 s t ltac:(lia) Fs Ft) as (Fr & Er).
    { eapply Rle_trans; [exact Bst|]. eapply Rle_trans; [|exact q_once']. clear - HW hh_one q_one. lra. }
    assert (Er2 : Rabs (fval (fadd s t) - (s0 + t0)) <= (c + 4 * Rabs (fst A) + 27) * kk * W + (d + 2) * hh).
    { replace (fval (fadd s t) - (s0 + t0)) with ((fval (fadd s t) - (fval s + fval t)) + ((fval s + fval t) - (s0 + t0))) by ring. eapply Rle_trans; [apply Rabs_triang|].
      pose proof (Rmult_le_compat_l kk _ _ ltac:(lra) Bst) as X. assert (kk * (21 * hh) <= hh) by nra. lra. }
    destruct (IH As' (fadd s t) (s0 + t0) (c + 4 * Rabs (fst A) + 27) (d + 2) FR Fr Er2) as (G1 & G2); try lra.
    { pose proof (Rabs_triang s0 t0). lra. }
    split; [exact G1|]. cbn [rcomb weight fold_right length]. fold (rcomb As') (weight As'). fold t0. rewrite S_INR. rewrite <- Rplus_assoc. eapply Rle_trans; [exact G2|]. right. ring.
Qed.

Lemma fcomb_err W As ps : 0 <= W <= q -> Forall2 (factor W) As ps -> ps <> [] -> (length As <= 5)%nat -> weight As <= 25 ->
  ffinite (fcomb ps) /\ Rabs (fval (fcomb ps) - rcomb As) <= 256 * kk * W + 20 * hh /\ Rabs (rcomb As) <= 25 * W.
Proof.
  intros HW F Np HL Hw. pose proof K_small as HK. pose proof hh_pos as Hh. assert (HkW : 0 <= kk * W) by (apply Rmult_le_pos; lra).
  assert (Br : Rabs (rcomb As) <= weight As * W).
  { clear - F HW. induction F as [|A p As ps (_ & _ & E & _ & B) F IH]; cbn [rcomb weight fold_right]; [rewrite Rabs_R0; lra|]. fold (rcomb As) (weight As).
    eapply Rle_trans; [apply Rabs_triang|]. rewrite Rmult_plus_distr_r. apply Rplus_le_compat; [|exact IH]. rewrite Rabs_mult, E. apply Rmult_le_compat_l; [apply Rabs_pos|exact B]. }
  destruct F as [|A p As ps FA FR]; [now contradiction Np|]. unfold fcomb. cbn [weight fold_right length] in Hw, HL, Br. fold (weight As) in Hw, Br. pose proof (weight_pos As) as Pw. pose proof (Rabs_pos (fst A)) as PA.
  assert (HwW : (Rabs (fst A) + weight As) * W <= 25 * W) by (apply Rmult_le_compat_r; lra).
  assert (HnA : INR (length As) <= 4) by (replace 4 with (INR 4) by (cbn; ring); apply le_INR; lia). pose proof (pos_INR (length As)) as Pn.
  destruct (factor_err W A p HW ltac:(lra) FA) as ((Ft & Bt) & Et).
  destruct (fold_err W HW ps As (fmul (fst p) (snd p)) (fst A * fval (snd A)) (4 * Rabs (fst A)) 1 FR) as (G1 & G2); try lra.
  - split; [exact Ft|]. eapply Rle_trans; [exact Bt|]. apply bpow_le. lia.
  - rewrite Rabs_mult. assert (Rabs (fval (snd A)) <= W) by (destruct FA as (_ & _ & -> & _ & B); exact B). pose proof (Rmult_le_compat_l _ _ _ PA H). lra.
  - split; [exact G1|]. split; [|cbn [rcomb fold_right]; fold (rcomb As); cbn [rcomb fold_right] in Br; fold (rcomb As) in Br; lra].
    cbn [rcomb fold_right]. fold (rcomb As). eapply Rle_trans; [exact G2|]. apply Rplus_le_compat; [rewrite !Rmult_assoc; apply Rmult_le_compat_r; lra|apply Rmult_le_compat_r; lra].
Qed.

(** A coordinate of a stage. *)
Lemma stage_err W X h0 As ps x h : 0 <= W <= q -> xm <= X <= q -> Forall2 (factor W) As ps -> ps <> [] -> (length As <= 5)%nat -> weight As <= 25 ->
  ffinite x -> Rabs (fval x) <= X -> ffinite h -> fval h = h0 -> 0 <= h0 <= q ->
  let y := fadd x (fmul h (fcomb ps)) in
  ffinite y /\ Rabs (fval y - (fval x + h0 * rcomb As)) <= 5 / 4 * kk * X + 320 * kk * (h0 * W).
Proof.
  intros HW HX F Np HL Hw Fx Bx Fh Eh Hh0 y. destruct (fcomb_err W As ps HW F Np HL Hw) as (Fs & Es & Br). set (s := fcomb ps) in *. set (S0 := rcomb As) in *.
  pose proof K_small as HK. pose proof hh_pos as Hh.
  assert (HkW : 0 <= kk * W) by (apply Rmult_le_pos; lra). assert (HhW : 0 <= h0 * W) by (apply Rmult_le_pos; lra). assert (HkhW : 0 <= kk * (h0 * W)) by (apply Rmult_le_pos; lra).
  (* underflow does not matter *)
  assert (HkX0 : 0 <= kk * X) by (apply Rmult_le_pos; lra). assert (HkX : kk * xm <= kk * X) by (apply Rmult_le_compat_l; lra).
  assert (Tiny : 22 * (q * hh) <= / 8 * (kk * X)) by lra.
  assert (Hh1 : h0 * hh <= q * hh) by (apply Rmult_le_compat_r; lra). assert (Hh2 : hh <= q * hh) by (rewrite <- (Rmult_1_l hh) at 1; apply Rmult_le_compat_r; lra).
  set (Q := q * hh) in *. assert (HQ : 0 <= Q) by (unfold Q; apply Rmult_le_pos; lra).
  assert (Bs : Rabs (fval s) <= 26 * W + 20 * hh).
  { replace (fval s) with (S0 + (fval s - S0)) by ring. eapply Rle_trans; [apply Rabs_triang|]. assert (256 * kk * W <= W) by nra. lra. }
  assert (Bhs : Rabs (h0 * fval s) <= 26 * (h0 * W) + 20 * Q).
  { rewrite Rabs_mult, Rabs_pos_eq by lra. pose proof (Rmult_le_compat_l h0 _ _ (proj1 Hh0) Bs). lra. }
  assert (Hhs : h0 * W <= q * q) by (apply Rmult_le_compat; lra). assert (Hqq : q <= q * q) by (clear - q_one; nra).
  assert (QX : 20 * Q <= X) by (clear - Tiny HQ HK HX xm_pos; nra).
  destruct (mul_op 410 h s ltac:(lia) Fh Fs) as ((Fp & Bp) & Ep).
  { rewrite Eh. eapply Rle_trans; [exact Bhs|]. eapply Rle_trans; [|exact q_twice]. clear - Hhs Hqq QX HX q_one. lra. }
  rewrite Eh in Ep. set (p := fmul h s) in *.
  assert (E1 : Rabs (fval p - h0 * S0) <= 290 * (kk * (h0 * W)) + 22 * Q).
  { replace (fval p - h0 * S0) with (fval p - h0 * fval s + h0 * (fval s - S0)) by ring. eapply Rle_trans; [apply Rabs_triang|]. rewrite (Rabs_mult h0), (Rabs_pos_eq h0) by lra.
    pose proof (Rmult_le_compat_l h0 _ _ (proj1 Hh0) Es) as A1. pose proof (Rmult_le_compat_l kk _ _ ltac:(lra) Bhs) as A2. assert (kk * (20 * Q) <= Q) by nra. lra. }
  assert (BhS : Rabs (h0 * S0) <= 25 * (h0 * W)) by (rewrite Rabs_mult, (Rabs_pos_eq h0) by lra; pose proof (Rmult_le_compat_l h0 _ _ (proj1 Hh0) Br); lra).
  assert (Bxp : Rabs (fval x + fval p) <= X + 26 * (h0 * W) + 22 * Q).
  { replace (fval x + fval p) with (fval x + (h0 * S0 + (fval p - h0 * S0))) by ring. pose proof (Rabs_triang (fval x) (h0 * S0 + (fval p - h0 * S0))). pose proof (Rabs_triang (h0 * S0) (fval p - h0 * S0)).
    assert (290 * (kk * (h0 * W)) <= h0 * W) by nra. lra. }
  destruct (add_op 411 x p ltac:(lia) Fx Fp) as ((Fy & _) & Ey).
  { eapply Rle_trans; [exact Bxp|]. eapply Rle_trans; [|exact q_twice']. clear - Hhs Hqq QX HX HQ xm_pos q_one. lra. }
  split; [exact Fy|]. fold y in Ey. replace (fval y - (fval x + h0 * S0)) with (fval y - (fval x + fval p) + (fval p - h0 * S0)) by ring. eapply Rle_trans; [apply Rabs_triang|].
  pose proof (Rmult_le_compat_l kk _ _ ltac:(lra) Bxp) as A. assert (kk * (26 * (h0 * W)) <= 26 * (kk * (h0 * W))) by lra. assert (kk * (22 * Q) <= Q) by nra. lra.
Qed.

End Rounding.
