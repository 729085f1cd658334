(** * Traces in affine fields follow the pathlines (C104) *)
From Coq Require Import Reals Lra Lia Psatz List.
From Verif Require Import Py Num NumXR ModelAquifer ModelTrace ModelDriver SpecAquifer SpecTrace SpecPathline
  ProofAquifer ProofTrace ProofTraceLoop ProofTraceFlow ProofPathline.
Import ListNotations.
Local Open Scope R_scope.

Lemma stretch_nonneg A L : stretch A L -> 0 <= L.
Proof.
  intros H. specialize (H (1, 0)). assert (E : pnorm (1, 0) = 1).
  { unfold pnorm. cbn. replace (1 * 1 + 0 * 0) with 1 by ring. apply sqrt_1. }
  rewrite E in H. pose proof (pnorm_pos (lin A (1, 0))). lra.
Qed.
Lemma iter_norm A L n p : stretch A L -> pnorm (Nat.iter n (lin A) p) <= L ^ n * pnorm p.
Proof.
  intros H. pose proof (stretch_nonneg A L H) as HL. induction n as [|n IH]; [cbn; lra|]. cbn [Nat.iter nat_rect pow].
  eapply Rle_trans; [apply H|]. rewrite Rmult_assoc. apply Rmult_le_compat_l; assumption.
Qed.

(** ** Along a pathline *)
Section Path.
  Variables (A : affine) (L : R) (Z : R -> pt) (D : R).
  Hypothesis (HS : stretch A L) (HZ : pathline (flow A) Z D).

  Lemma derivatives n t : 0 <= t <= D ->
    derivable_pt_lim (fun s => fst (flow_derivative A n (Z s))) t (fst (flow_derivative A (S n) (Z t))) /\
    derivable_pt_lim (fun s => snd (flow_derivative A n (Z s))) t (snd (flow_derivative A (S n) (Z t))).
  Proof.
    intros Ht.
    assert (LIN : forall u v (du dv : R) a b, derivable_pt_lim u t du -> derivable_pt_lim v t dv ->
              derivable_pt_lim (fun s => a * u s + b * v s) t (a * du + b * dv)).
    { intros u v du dv a b Hu Hv. exact (derivable_pt_lim_plus _ _ _ _ _ (derivable_pt_lim_scal u a t du Hu) (derivable_pt_lim_scal v b t dv Hv)). }
    destruct (HZ t Ht) as [HX HY]. induction n as [|n IH].
    - unfold flow_derivative. cbn [Nat.iter nat_rect]. split.
      + pose proof (derivable_pt_lim_plus _ _ _ _ _ (LIN _ _ _ _ (axx A) (axy A) HX HY) (derivable_pt_lim_const (bx A) t)) as K.
        eapply deriv_val; [eapply deriv_fun; [|exact K]; reflexivity|]. cbn. ring.
      + pose proof (derivable_pt_lim_plus _ _ _ _ _ (LIN _ _ _ _ (ayx A) (ayy A) HX HY) (derivable_pt_lim_const (by_ A) t)) as K.
        eapply deriv_val; [eapply deriv_fun; [|exact K]; reflexivity|]. cbn. ring.
    - destruct IH as [D1 D2]. split.
      + exact (LIN _ _ _ _ (axx A) (axy A) D1 D2).
      + exact (LIN _ _ _ _ (ayx A) (ayy A) D1 D2).
  Qed.

  Lemma speed_growth a b : 0 <= a -> a <= b -> b <= D -> pnorm (flow A (Z b)) <= pnorm (flow A (Z a)) * exp (L * (b - a)).
  Proof.
    intros Ha Hab Hb. set (w := fun t => flow A (Z t)).
    assert (W : forall t, 0 <= t <= D -> derivable_pt_lim (fun s => fst (w s)) t (fst (lin A (w t))) /\ derivable_pt_lim (fun s => snd (w s)) t (snd (lin A (w t)))).
    { intros t Ht. exact (derivatives 0 t Ht). }
    pose proof (gronwall (fun t => fst (w t) * fst (w t) + snd (w t) * snd (w t))
      (fun t => 2 * (fst (w t) * fst (lin A (w t)) + snd (w t) * snd (lin A (w t)))) (2 * L) a b Hab) as G. cbn beta in G.
    apply le_of_sq; [apply Rmult_le_pos; [apply pnorm_pos|left; apply exp_pos]|].
    replace (pnorm (flow A (Z a)) * exp (L * (b - a)) * (pnorm (flow A (Z a)) * exp (L * (b - a)))) with
      ((pnorm (flow A (Z a)) * pnorm (flow A (Z a))) * (exp (L * (b - a)) * exp (L * (b - a)))) by ring.
    rewrite <- exp_plus, !pnorm_sq. replace (L * (b - a) + L * (b - a)) with (2 * L * (b - a)) by ring. apply G.
    - intros t Ht. destruct (W t ltac:(lra)) as [W1 W2].
      pose proof (derivable_pt_lim_plus _ _ t _ _ (derivable_pt_lim_mult _ _ t _ _ W1 W1) (derivable_pt_lim_mult _ _ t _ _ W2 W2)) as K.
      eapply deriv_val; [exact K|]. cbv beta. ring.
    - intros t Ht. pose proof (inner_le (w t) (lin A (w t))) as I. pose proof (HS (w t)) as Q. pose proof (pnorm_pos (w t)) as P.
      rewrite <- pnorm_sq. nra.
  Qed.

  Lemma local_error a h : 0 <= a -> 0 <= h -> a + h <= D ->
    pnorm (psub (Z (a + h)) (padd (Z a) (lincomb [h; h ^ 2 / 2; h ^ 3 / 6; h ^ 4 / 24; h ^ 5 / 120]
                                            (map (fun n => flow_derivative A n (Z a)) [0; 1; 2; 3; 4]%nat))))
    <= L ^ 5 * pnorm (flow A (Z a)) * exp (L * h) * h ^ 6 / 720.
  Proof.
    intros Ha Hh HD. pose proof (stretch_nonneg A L HS) as HL.
    set (M := L ^ 5 * pnorm (flow A (Z a)) * exp (L * h)).
    assert (HM : 0 <= M) by (unfold M; apply Rmult_le_pos; [apply Rmult_le_pos; [now apply pow_le|apply pnorm_pos]|left; apply exp_pos]).
    apply pnorm_direction; [apply Rmult_le_pos; [apply Rmult_le_pos; [exact HM|now apply pow_le]|lra]|]. intros u Hu.
    set (g := fun k s => match k with O => fst u * fst (Z s) + snd u * snd (Z s)
                         | S n => fst u * fst (flow_derivative A n (Z s)) + snd u * snd (flow_derivative A n (Z s)) end).
    pose proof (taylor_bound 5 g a (a + h) M ltac:(lra)) as T.
    replace (a + h - a) with h in T by ring.
    assert (F6 : INR (fact 6) = 720) by (cbn; ring). rewrite F6 in T.
    eapply Rle_trans; [right|apply T].
    - unfold taylor. cbn [sum_f_R0]. replace (a + h - a) with h by ring.
      assert (F : INR (fact 0) = 1 /\ INR (fact 1) = 1 /\ INR (fact 2) = 2 /\ INR (fact 3) = 6 /\ INR (fact 4) = 24 /\ INR (fact 5) = 120) by (cbn; repeat split; ring).
      destruct F as (-> & -> & -> & -> & -> & ->). unfold g, psub, padd, lincomb, pscale. cbn [map combine fold_right fst snd padd].
      generalize (flow_derivative A 0 (Z a)) (flow_derivative A 1 (Z a)) (flow_derivative A 2 (Z a)) (flow_derivative A 3 (Z a)) (flow_derivative A 4 (Z a)).
      intros d0 d1 d2 d3 d4. unfold padd. cbn [fst snd]. field.
    - intros k t Hk Ht.
      assert (LIN : forall v w (dv dw : R), derivable_pt_lim v t dv -> derivable_pt_lim w t dw ->
              derivable_pt_lim (fun s => fst u * v s + snd u * w s) t (fst u * dv + snd u * dw)).
      { intros v w dv dw Hv Hw. exact (derivable_pt_lim_plus _ _ _ _ _ (derivable_pt_lim_scal v (fst u) t dv Hv) (derivable_pt_lim_scal w (snd u) t dw Hw)). }
      destruct k as [|k]; cbn [g].
      + destruct (HZ t ltac:(lra)) as [H1 H2]. exact (LIN _ _ _ _ H1 H2).
      + destruct (derivatives k t ltac:(lra)) as [H1 H2]. exact (LIN _ _ _ _ H1 H2).
    - intros t Ht. cbn [g]. eapply Rle_trans; [apply inner_le|]. rewrite Hu, Rmult_1_l.
      change (flow_derivative A 5 (Z t)) with (Nat.iter 5 (lin A) (flow A (Z t))). eapply Rle_trans; [apply (iter_norm A L 5 _ HS)|].
      unfold M. rewrite Rmult_assoc. apply Rmult_le_compat_l; [now apply pow_le|].
      eapply Rle_trans; [apply (speed_growth a t); lra|]. apply Rmult_le_compat_l; [apply pnorm_pos|].
      destruct (Req_dec (L * (t - a)) (L * h)) as [->|NE]; [lra|]. left. apply exp_increasing. assert (L * (t - a) <= L * h) by (apply Rmult_le_compat_l; lra). lra.
  Qed.
End Path.

(** ** One step *)
Definition dp_map (A : affine) (h : R) (p : pt) : pt :=
  padd p (lincomb [h; h ^ 2 / 2; h ^ 3 / 6; h ^ 4 / 24; h ^ 5 / 120; h ^ 6 / 600] (map (fun n => flow_derivative A n p) [0; 1; 2; 3; 4; 5]%nat)).
Lemma good_step_affine A f tol maxstep p h q : (forall r, f (fvec r) = Ok (fvec (flow A r))) ->
  good_step f tol maxstep p h q -> q = dp_map A h p.
Proof.
  intros Hf (ks & (HL & HK) & -> & _). do 7 (destruct ks as [|? ks]; [discriminate|]). destruct ks; [|discriminate].
  pose proof (HK 0%nat ltac:(lia)) as K0. pose proof (HK 1%nat ltac:(lia)) as K1. pose proof (HK 2%nat ltac:(lia)) as K2.
  pose proof (HK 3%nat ltac:(lia)) as K3. pose proof (HK 4%nat ltac:(lia)) as K4. pose proof (HK 5%nat ltac:(lia)) as K5. pose proof (HK 6%nat ltac:(lia)) as K6.
  cbn [nth dp_a firstn] in *.
  assert (E0 : padd p (pscale h (lincomb [] [])) = p) by (destruct p; unfold padd, pscale, lincomb; cbn; f_equal; ring).
  rewrite E0 in K0.
  pose proof (dp_step_finite f p h p0 p1 p2 p3 p4 p5 p6 K0 K1 K2 K3 K4 K5) as S.
  assert (E6 : lincomb dp_b [p0; p1; p2; p3; p4; p5; p6] = lincomb [35 / 384; 0; 500 / 1113; 125 / 192; -2187 / 6784; 11 / 84] [p0; p1; p2; p3; p4; p5])
    by (unfold lincomb, dp_b, padd, pscale; cbn; f_equal; ring).
  rewrite E6 in S. specialize (S K6). cbv zeta in S.
  assert (p0 = flow A p) as -> by (rewrite Hf in K0; apply fvec_inj; congruence).
  destruct (c44_affine_step A f Hf p h) as (k7 & est & ds & E). rewrite S in E. apply fvec_inj. unfold dp_map. congruence.
Qed.

Lemma lin_sub A p q : psub (lin A p) (lin A q) = lin A (psub p q).
Proof. unfold lin, psub. cbn. f_equal; ring. Qed.
Lemma derivative_sub A n p q : psub (flow_derivative A n p) (flow_derivative A n q) = Nat.iter (S n) (lin A) (psub p q).
Proof.
  unfold flow_derivative. induction n as [|n IH]; [unfold flow, lin, padd, psub; cbn; f_equal; ring|].
  change (psub (lin A (Nat.iter n (lin A) (flow A p))) (lin A (Nat.iter n (lin A) (flow A q))) = lin A (Nat.iter (S n) (lin A) (psub p q))).
  rewrite lin_sub. now f_equal.
Qed.
Definition amplification (x : R) : R := 1 + x + x ^ 2 / 2 + x ^ 3 / 6 + x ^ 4 / 24 + x ^ 5 / 120 + x ^ 6 / 600.
Lemma amplification_exp x : 0 <= x -> amplification x <= exp (26 / 25 * x).
Proof.
  intros Hx. pose proof (exp_above 6 (26 / 25 * x) ltac:(lra)) as E. eapply Rle_trans; [|exact E]. unfold amplification. cbn [sum_f_R0].
  assert (F : INR (fact 0) = 1 /\ INR (fact 1) = 1 /\ INR (fact 2) = 2 /\ INR (fact 3) = 6 /\ INR (fact 4) = 24 /\ INR (fact 5) = 120 /\ INR (fact 6) = 720) by (cbn; repeat split; ring).
  destruct F as (-> & -> & -> & -> & -> & -> & ->). rewrite !Rpow_mult_distr.
  pose proof (pow_le x 2 Hx). pose proof (pow_le x 3 Hx). pose proof (pow_le x 4 Hx). pose proof (pow_le x 5 Hx). pose proof (pow_le x 6 Hx). lra.
Qed.
Lemma dp_map_sub A L h p q : stretch A L -> 0 <= h -> pnorm (psub (dp_map A h p) (dp_map A h q)) <= amplification (h * L) * pnorm (psub p q).
Proof.
  intros HS Hh. pose proof (stretch_nonneg A L HS) as HL. set (d := psub p q).
  assert (E : psub (dp_map A h p) (dp_map A h q) = padd d (lincomb [h; h ^ 2 / 2; h ^ 3 / 6; h ^ 4 / 24; h ^ 5 / 120; h ^ 6 / 600]
     (map (fun n => Nat.iter (S n) (lin A) d) [0; 1; 2; 3; 4; 5]%nat))).
  { cbn [map]. unfold d. rewrite <- !derivative_sub. unfold dp_map. cbn [map].
    generalize (flow_derivative A 0 p) (flow_derivative A 1 p) (flow_derivative A 2 p) (flow_derivative A 3 p) (flow_derivative A 4 p) (flow_derivative A 5 p).
    generalize (flow_derivative A 0 q) (flow_derivative A 1 q) (flow_derivative A 2 q) (flow_derivative A 3 q) (flow_derivative A 4 q) (flow_derivative A 5 q).
    intros. unfold lincomb, psub, padd, pscale. cbn. f_equal; ring. }
  rewrite E. clear E. pose proof (fun n => iter_norm A L n d HS) as N.
  cbn [map]. unfold lincomb. cbn [combine fold_right].
  pose proof (pow_le h 2 Hh) as P2. pose proof (pow_le h 3 Hh) as P3. pose proof (pow_le h 4 Hh) as P4. pose proof (pow_le h 5 Hh) as P5. pose proof (pow_le h 6 Hh) as P6.
  assert (T : forall c n rest b, 0 <= c -> pnorm rest <= b -> pnorm (padd (pscale c (Nat.iter n (lin A) d)) rest) <= c * (L ^ n * pnorm d) + b).
  { intros c n rest b Hc Hb. eapply Rle_trans; [apply pnorm_add|]. rewrite pnorm_scale, (Rabs_pos_eq c) by assumption.
    apply Rplus_le_compat; [apply Rmult_le_compat_l; [assumption|apply N]|assumption]. }
  eapply Rle_trans; [apply pnorm_add|]. unfold amplification. rewrite !Rpow_mult_distr.
  eapply Rle_trans; [apply Rplus_le_compat_l|].
  - apply (T h 1%nat); [assumption|]. apply (T _ 2%nat); [cbn [fst] in *; lra|]. apply (T _ 3%nat); [cbn [fst]; lra|]. apply (T _ 4%nat); [cbn [fst]; lra|].
    apply (T _ 5%nat); [cbn [fst]; lra|]. apply (T _ 6%nat); [cbn [fst]; lra|]. apply Req_le, pnorm_0.
  - cbn [fst]. right. field.
Qed.

(** ** The whole trace *)
Lemma timed_trace fuel p D tol maxstep f tr : 0 <= D ->
  compute_backtrace fuel (Fin (fst p)) (Fin (snd p)) (Fin D) tol maxstep f = Ok tr ->
  exists l ts, vertices tr = map fvec l /\ length ts = length l /\ nth 0 ts 0 = 0 /\ t_end tr = Fin (last ts 0) /\
    (completed tr = true -> last ts 0 = D) /\ nth 0 l (0, 0) = p /\
    forall i, (S i < length l)%nat -> 0 <= nth i ts 0 /\ nth i ts 0 < nth (S i) ts 0 <= D /\
      (good_step f tol maxstep (nth i l (0, 0)) (nth (S i) ts 0 - nth i ts 0) (nth (S i) l (0, 0)) \/
       wild_step f tol maxstep (nth i l (0, 0)) (nth (S i) ts 0 - nth i ts 0) (nth (S i) l (0, 0))).
Proof.
  intros HD H. destruct (c37_elapsed_time _ _ _ _ _ _ _ H) as (l & ts & E1 & E2 & E3 & E4 & E5 & E6).
  destruct (c36_path _ _ _ _ _ _ _ _ H) as (more & E7 & _). exists l, ts. do 5 (split; [assumption|]). split.
  { rewrite E1 in E7. destruct l as [|p0 l]; [discriminate|]. cbn in E7. assert (X : fvec p0 = fvec p) by (unfold fvec at 2; congruence). now apply fvec_inj in X. }
  assert (M : forall i, (i < length l)%nat -> 0 <= nth i ts 0).
  { induction i as [|i IH]; intros Hi; [rewrite E3; lra|]. destruct (E5 i Hi) as (K & _). specialize (IH ltac:(lia)).
    assert (0 < nth (S i) ts 0 - nth i ts 0) by nra. lra. }
  intros i Hi. destruct (E5 i Hi) as (K1 & [K2 K3] & K4). specialize (M i ltac:(lia)) as M1. specialize (M (S i) Hi) as M2.
  rewrite !(Rabs_pos_eq (nth _ ts 0)) in * by assumption. rewrite (Rabs_pos_eq D HD) in K3. split; [assumption|]. split; [lra|]. exact K4.
Qed.

(** C104.  In an affine velocity field (the confined aquifer without wells, C44) every vertex of a trace is near the place
    where a particle that moves with the velocity from the start point is at the time of the vertex: the distance is at most
    11/3600 t L^5 H^5 |v| e^(26/25 L t), where [t] is the time of the vertex, [H] the longest time step, [|v|] the speed at the
    start and [L] a bound for the velocity gradient.  It is of the fifth order in the time step. *)
Lemma c104_affine : forall (A : affine) (L : R) (f : vec xr -> res (vec xr)) (fuel : nat) (p : pt) (D : R) (tol maxstep : xr) (tr : trace xr) (Z : R -> pt),
  (forall q : pt, f (fvec q) = Ok (fvec (flow A q))) -> stretch A L -> 0 <= D -> pathline (flow A) Z D -> Z 0 = p ->
  compute_backtrace fuel (Fin (fst p)) (Fin (snd p)) (Fin D) tol maxstep f = Ok tr ->
  exists l ts, clocked f tol maxstep D tr l ts /\
    forall H, steps_within H ts -> forall i, (i < length l)%nat ->
      let t := nth i ts 0 in
      pdist (nth i l (0, 0)) (Z t) <= 11 / 3600 * t * (L ^ 5 * H ^ 5) * pnorm (flow A p) * exp (26 / 25 * L * t).
Proof.
  intros A L f fuel p D tol maxstep tr Z Hf HS HD HZ H0 Hr. pose proof (stretch_nonneg A L HS) as HL.
  destruct (timed_trace _ _ _ _ _ _ _ HD Hr) as (l & ts & E1 & E2 & E3 & E4 & E5 & E6 & E7).
  assert (G : forall i, (S i < length l)%nat -> nth i ts 0 < nth (S i) ts 0 <= D /\
      good_step f tol maxstep (nth i l (0, 0)) (nth (S i) ts 0 - nth i ts 0) (nth (S i) l (0, 0))).
  { intros i Hi. destruct (E7 i Hi) as (_ & K & [K'|(k1 & k2 & k3 & k4 & k5 & k6 & k7 & _ & W & NF & _)]); [auto|].
    destruct NF. rewrite Hf in W. injection W as <-. eexists. reflexivity. }
  exists l, ts. split; [constructor; assumption|]. intros H HH. set (V := pnorm (flow A p)). pose proof (pnorm_pos (flow A p)) as HV. fold V in HV.
  induction i as [|i IH]; intros Hi t.
  { unfold t. rewrite E3, E6, H0, pdist_norm. replace (psub p p) with ((0, 0) : pt) by (unfold psub; f_equal; ring). rewrite pnorm_0. lra. }
  specialize (IH ltac:(lia)). cbv zeta in IH. destruct (E7 i Hi) as (T0 & [T1 T2] & _). destruct (G i Hi) as [_ G']. fold t in G', T1, T2.
  set (s := nth i ts 0) in *. set (h := t - s) in *. assert (Hh : 0 < h) by (unfold h; lra). assert (Et : t = s + h) by (unfold h; ring).
  apply (good_step_affine A) in G'; [|exact Hf]. rewrite G'. set (q := nth i l (0, 0)) in *.
  assert (HhH : h <= H) by (apply HH; rewrite E2; exact Hi).
  rewrite pdist_norm, pnorm_sub_sym.
  assert (D1 : pnorm (psub (dp_map A h q) (Z t)) <= pnorm (psub (dp_map A h q) (dp_map A h (Z s))) + pnorm (psub (dp_map A h (Z s)) (Z t))).
  { eapply Rle_trans; [|apply pnorm_add]. right. f_equal. unfold psub, padd. cbn. f_equal; ring. }
  eapply Rle_trans; [exact D1|]. clear D1.
  assert (X : exp (26 / 25 * L * t) = exp (26 / 25 * L * s) * exp (26 / 25 * (h * L))).
  { rewrite <- exp_plus. f_equal. rewrite Et. ring. }
  (* the error so far, amplified *)
  assert (P1 : pnorm (psub (dp_map A h q) (dp_map A h (Z s))) <= 11 / 3600 * s * (L ^ 5 * H ^ 5) * V * exp (26 / 25 * L * t)).
  { eapply Rle_trans; [apply (dp_map_sub A L); [assumption|lra]|]. rewrite X, <- Rmult_assoc.
    assert (Hamp : amplification (h * L) <= exp (26 / 25 * (h * L))) by (apply amplification_exp, Rmult_le_pos; lra).
    assert (B : pnorm (psub q (Z s)) <= 11 / 3600 * s * (L ^ 5 * H ^ 5) * V * exp (26 / 25 * L * s)) by (rewrite pnorm_sub_sym, <- pdist_norm; exact IH).
    rewrite (Rmult_comm (amplification _)). apply Rmult_le_compat; [apply pnorm_pos| |exact B|exact Hamp].
    unfold amplification. assert (Q : 0 <= h * L) by (apply Rmult_le_pos; lra).
    pose proof (pow_le (h * L) 2 Q). pose proof (pow_le (h * L) 3 Q). pose proof (pow_le (h * L) 4 Q). pose proof (pow_le (h * L) 5 Q). pose proof (pow_le (h * L) 6 Q). lra. }
  (* the error of this step *)
  assert (P2 : pnorm (psub (dp_map A h (Z s)) (Z t)) <= 11 / 3600 * h * (L ^ 5 * H ^ 5) * V * exp (26 / 25 * L * t)).
  { set (v := pnorm (flow A (Z s))). assert (Hv : v <= V * exp (L * s)).
    { unfold v, V. rewrite <- H0. pose proof (speed_growth A L Z D HS HZ 0 s ltac:(lra) T0 ltac:(lra)) as S. now rewrite Rminus_0_r in S. }
    assert (Hv0 : 0 <= v) by apply pnorm_pos.
    set (short := padd (Z s) (lincomb [h; h ^ 2 / 2; h ^ 3 / 6; h ^ 4 / 24; h ^ 5 / 120] (map (fun n => flow_derivative A n (Z s)) [0; 1; 2; 3; 4]%nat))).
    assert (Q : psub (dp_map A h (Z s)) (Z t) = padd (pscale (h ^ 6 / 600) (Nat.iter 5 (lin A) (flow A (Z s)))) (psub short (Z t))).
    { unfold dp_map, short. cbn [map]. change (Nat.iter 5 (lin A) (flow A (Z s))) with (flow_derivative A 5 (Z s)).
      generalize (flow_derivative A 0 (Z s)) (flow_derivative A 1 (Z s)) (flow_derivative A 2 (Z s)) (flow_derivative A 3 (Z s)) (flow_derivative A 4 (Z s)) (flow_derivative A 5 (Z s)).
      intros. unfold lincomb, psub, padd, pscale. cbn. f_equal; ring. }
    rewrite Q. eapply Rle_trans; [apply pnorm_add|]. rewrite pnorm_scale.
    pose proof (pow_le h 6 ltac:(lra)) as P6. rewrite (Rabs_pos_eq (h ^ 6 / 600)) by lra.
    pose proof (iter_norm A L 5 (flow A (Z s)) HS) as I5. fold v in I5.
    pose proof (local_error A L Z D HS HZ s h T0 ltac:(lra) ltac:(lra)) as LE. rewrite <- Et in LE. fold short in LE. fold v in LE. rewrite pnorm_sub_sym in LE.
    pose proof (pow_le L 5 HL) as PL. assert (X1 : 1 <= exp (L * h)) by (rewrite <- exp_0; apply Rnot_lt_le; intros C; apply exp_lt_inv in C; nra).
    set (e := exp (L * h)) in *. set (c := L ^ 5) in *.
    assert (S1 : h ^ 6 / 600 * pnorm (Nat.iter 5 (lin A) (flow A (Z s))) <= h ^ 6 / 600 * (c * v * e)).
    { apply Rmult_le_compat_l; [lra|]. eapply Rle_trans; [exact I5|]. rewrite <- (Rmult_1_r (c * v)) at 1. apply Rmult_le_compat_l; [now apply Rmult_le_pos|lra]. }
    assert (S2 : h ^ 6 / 600 * (c * v * e) + c * v * e * h ^ 6 / 720 = 11 / 3600 * h * (c * h ^ 5) * (v * e)) by field.
    eapply Rle_trans; [apply Rplus_le_compat; [exact S1|exact LE]|]. rewrite S2.
    assert (S3 : v * e <= V * exp (26 / 25 * L * t)).
    { eapply Rle_trans; [apply Rmult_le_compat_r; [lra|exact Hv]|]. rewrite Rmult_assoc. apply Rmult_le_compat_l; [exact HV|].
      unfold e. rewrite <- exp_plus. apply Rnot_lt_le. intros C. apply exp_lt_inv in C.
      assert (0 <= L * t) by (apply Rmult_le_pos; lra). replace (L * s + L * h) with (L * t) in C by (rewrite Et; ring). lra. }
    pose proof (pow_incr h H 5 ltac:(lra)) as S4. pose proof (pow_le h 5 ltac:(lra)) as S5.
    rewrite (Rmult_assoc _ V). apply Rmult_le_compat; [|apply Rmult_le_pos; lra| |exact S3].
    - apply Rmult_le_pos; [lra|]. apply Rmult_le_pos; assumption.
    - apply Rmult_le_compat_l; [lra|]. apply Rmult_le_compat_l; assumption. }
  eapply Rle_trans; [apply Rplus_le_compat; [exact P1|exact P2]|]. right. generalize (exp (26 / 25 * L * t)). intros w. rewrite Et. ring.
Qed.
