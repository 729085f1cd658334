(** * Backtraces: termination and non-termination (C39, C40) *)
From Coq Require Import Reals Lra Lia Psatz.
From Verif Require Import Py Num NumXR ModelTrace SpecTrace ProofTrace ProofTraceLoop.
Local Open Scope R_scope.

(** ** Bounds on the step-size control *)
(** [t] is a finite positive number not above the bound [b]. *)
Definition finite_part (t : R) (b : xr) : Prop := 0 < t /\ (b = Fin t \/ b = PInf).

Lemma below_part a b : 0 < a -> below a b -> exists t, a < t /\ finite_part t b.
Proof.
  intros Ha Hb. destruct b as [t| | |]; cbn in Hb; try contradiction.
  - exists t. split; [exact Hb|]. split; [lra|auto].
  - exists (a + 1). split; [lra|]. split; [lra|auto].
Qed.

Lemma pymin_pinf_l b : pymin PInf (Fin b) = Fin b.
Proof. reflexivity. Qed.
Lemma pymin_pinf_r a : pymin (Fin a) PInf = Fin a.
Proof. reflexivity. Qed.

Lemma root5_le x y : 0 < x -> x <= y -> root5 x <= root5 y.
Proof.
  intros Hx Hy. unfold root5. destruct (Req_dec x y) as [->|N]; [lra|].
  left. apply exp_increasing. assert (ln x < ln y) by (apply ln_increasing; lra). lra.
Qed.
Lemma root5_1 : root5 1 = 1.
Proof. unfold root5. rewrite ln_1. replace (0 / 5) with 0 by lra. apply exp_0. Qed.
Lemma root5_pow x : 0 < x -> root5 (x ^ 5) = x.
Proof.
  intros Hx. unfold root5. rewrite ln_pow by exact Hx. replace (INR 5 * ln x / 5) with (ln x) by (cbn; lra). now apply exp_ln.
Qed.
Lemma root5_mul x y : 0 < x -> 0 < y -> root5 (x * y) = root5 x * root5 y.
Proof. intros Hx Hy. unfold root5. rewrite ln_mult by assumption. rewrite <- exp_plus. f_equal. lra. Qed.

Lemma next_dt_bounds tol maxstep tol' max' e d h : finite_part tol' tol -> finite_part max' maxstep -> 0 <= e -> 0 <= d ->
  exists A B, next_dt tol maxstep (Fin e) (Fin d) (Fin h) = Fin (9 / 10 * Rmin (Rmin A B) 10 * h) /\
    0 < A /\ 0 < B /\ root5 (tol' / (e + eps_R)) <= A /\ max' / (d + eps_R) <= B /\
    (~ below e tol -> A <= 1) /\ (~ below d maxstep -> B <= 1).
Proof.
  intros [Ht Et] [Hm Em] He Hd. pose proof eps_pos as HP.
  assert (X1 : 0 < tol' / (e + eps_R)) by (apply Rdiv_lt_0_compat; lra).
  assert (X2 : 0 < max' / (d + eps_R)) by (apply Rdiv_lt_0_compat; lra).
  pose proof (root5_pos (tol' / (e + eps_R))) as X3.
  set (A := if match tol with PInf => true | _ => false end then Rmax 10 (root5 (tol' / (e + eps_R))) else root5 (tol' / (e + eps_R))).
  set (B := if match maxstep with PInf => true | _ => false end then Rmax 10 (max' / (d + eps_R)) else max' / (d + eps_R)).
  exists A, B. repeat split.
  - unfold next_dt. rewrite eps_fin. cbn [nadd ndiv nroot5 nlit nmul nZ XR xadd].
    unfold A, B. destruct Et as [->| ->], Em as [->| ->].
    + rewrite !div_fin by lra. rewrite root5_fin by exact X1. rewrite !pymin_fin. reflexivity.
    + rewrite !div_fin by lra. rewrite root5_fin by exact X1.
      cbn [xdiv]. rewrite (proj2 (Rltb_false (d + eps_R) 0)) by lra. rewrite pymin_pinf_r, pymin_fin.
      assert (Rmin (root5 (tol' / (e + eps_R))) 10 = Rmin (Rmin (root5 (tol' / (e + eps_R))) (Rmax 10 (max' / (d + eps_R)))) 10).
      { pose proof (Rmax_l 10 (max' / (d + eps_R))). unfold Rmin. repeat destruct (Rle_dec _ _); lra. }
      rewrite <- H. reflexivity.
    + rewrite !div_fin by lra. 
      cbn [xdiv]. rewrite (proj2 (Rltb_false (e + eps_R) 0)) by lra. cbn [xroot5]. rewrite pymin_pinf_l, pymin_fin.
      assert (Rmin (max' / (d + eps_R)) 10 = Rmin (Rmin (Rmax 10 (root5 (tol' / (e + eps_R)))) (max' / (d + eps_R))) 10).
      { pose proof (Rmax_l 10 (root5 (tol' / (e + eps_R)))). unfold Rmin. repeat destruct (Rle_dec _ _); lra. }
      rewrite <- H. reflexivity.
    + cbn [xdiv]. rewrite (proj2 (Rltb_false (e + eps_R) 0)) by lra. rewrite (proj2 (Rltb_false (d + eps_R) 0)) by lra. cbn [xroot5].
      assert (10 = Rmin (Rmin (Rmax 10 (root5 (tol' / (e + eps_R)))) (Rmax 10 (max' / (d + eps_R)))) 10).
      { pose proof (Rmax_l 10 (root5 (tol' / (e + eps_R)))). pose proof (Rmax_l 10 (max' / (d + eps_R))). unfold Rmin. repeat destruct (Rle_dec _ _); lra. }
      rewrite <- H. reflexivity.
  - unfold A. destruct tol; try exact X3. pose proof (Rmax_l 10 (root5 (tol' / (e + eps_R)))). lra.
  - unfold B. destruct maxstep; try exact X2. pose proof (Rmax_l 10 (max' / (d + eps_R))). lra.
  - unfold A. destruct tol; try lra. apply Rmax_r.
  - unfold B. destruct maxstep; try lra. apply Rmax_r.
  - unfold A. destruct Et as [->| ->]; cbn; [|tauto]. intros NB. rewrite <- root5_1. apply root5_le; [exact X1|].
    apply (Rmult_le_reg_r (e + eps_R)); [lra|]. unfold Rdiv. rewrite Rmult_assoc, Rinv_l by lra. lra.
  - unfold B. destruct Em as [->| ->]; cbn; [|tauto]. intros NB.
    apply (Rmult_le_reg_r (d + eps_R)); [lra|]. unfold Rdiv. rewrite Rmult_assoc, Rinv_l by lra. lra.
Qed.

(** ** Trial steps in a bounded velocity field *)
Definition within (B : R) (p : pt) : Prop := Rabs (fst p) <= B /\ Rabs (snd p) <= B.

Lemma lincomb_within B c : forall ks, (forall k, In k ks -> within B k) -> 0 <= B ->
  within (fold_right (fun x s => Rabs x + s) 0 c * B) (lincomb c ks).
Proof.
  induction c as [|x c IH]; intros ks H HB.
  - unfold within, lincomb. cbn. rewrite Rabs_R0. split; lra.
  - destruct ks as [|k ks].
    + assert (0 <= fold_right (fun x s => Rabs x + s) 0 (x :: c)).
      { clear. induction (x :: c) as [|y l IHl]; cbn; [lra|]. pose proof (Rabs_pos y). lra. }
      unfold within, lincomb. cbn [combine fold_right fst snd] in *. rewrite Rabs_R0. split; nra.
    + specialize (IH ks (fun k' Hk => H k' (or_intror Hk)) HB). destruct (H k (or_introl eq_refl)) as [K1 K2]. destruct IH as [I1 I2].
      change (lincomb (x :: c) (k :: ks)) with (padd (pscale x k) (lincomb c ks)). cbn [fold_right].
      pose proof (Rabs_pos x). split; unfold padd, pscale; cbn [fst snd];
      (eapply Rle_trans; [apply Rabs_triang|]); rewrite Rabs_mult; nra.
Qed.

Lemma dp_b_size : fold_right (fun x s => Rabs x + s) 0 dp_b <= 2.
Proof. unfold dp_b. cbn [fold_right]. unfold Rabs. repeat destruct (Rcase_abs _); lra. Qed.
Lemma dp_bhat_size : fold_right (fun x s => Rabs x + s) 0 dp_bhat <= 2.
Proof. unfold dp_bhat. cbn [fold_right]. unfold Rabs. repeat destruct (Rcase_abs _); lra. Qed.

Lemma bounded_call B f xy k : bounded_by B f -> f xy = Ok k -> exists p, k = fvec p /\ within B p.
Proof. intros H E. destruct (H _ _ E) as (p & -> & H1 & H2). exists p. repeat split; auto. Qed.

Lemma pdist_le p a : pdist p (padd p a) <= Rabs (fst a) + Rabs (snd a).
Proof.
  unfold pdist, padd. cbn [fst snd]. replace (fst p + fst a - fst p) with (fst a) by ring. replace (snd p + snd a - snd p) with (snd a) by ring.
  pose proof (Rabs_pos (fst a)). pose proof (Rabs_pos (snd a)).
  rewrite <- (sqrt_square (Rabs (fst a) + Rabs (snd a))) by lra. apply sqrt_le_1_alt.
  assert (X : forall x, x * x = Rabs x * Rabs x) by (intros; unfold Rabs; destruct (Rcase_abs _); ring).
  rewrite (X (fst a)), (X (snd a)). nra.
Qed.

Lemma dp_step_bounded B f p h k1 : bounded_by B f -> total f -> f (fvec p) = Ok k1 ->
  (exists e, dp_step f (fvec p) (Fin h) k1 = Raise e) \/
  exists q k7 e d, dp_step f (fvec p) (Fin h) k1 = Ok (fvec q, k7, Fin e, Fin d) /\ f (fvec q) = Ok k7 /\
    0 <= e <= 4 * B * Rabs h /\ 0 <= d <= 4 * B * Rabs h.
Proof.
  intros HB HT E1. destruct (bounded_call _ _ _ _ HB E1) as (k1r & -> & W1).
  assert (STEP : forall x, (exists e, f x = Raise e) \/ exists k, f x = Ok (fvec k) /\ within B k).
  { intros x. destruct (f x) as [k|e|] eqn:E; [|left; eauto|destruct (HT x E)].
    destruct (bounded_call _ _ _ _ HB E) as (p' & -> & W). right. eauto. }
  assert (S2 : vadd (fvec p) (vscale (Fin h) (vscale a2_0 (fvec k1r))) = fvec (padd p (pscale h (lincomb [1/5] [k1r])))).
  { unfold vadd, vscale, a2_0, fvec, padd, pscale, lincomb. cbn. apply f_equal2; apply (f_equal Fin); ring. }
  destruct (STEP (fvec (padd p (pscale h (lincomb [1/5] [k1r]))))) as [[e E2]|(k2 & E2 & W2)].
  { left. exists e. unfold dp_step. rewrite S2, E2. reflexivity. }
  assert (S3 : vadd (fvec p) (vscale (Fin h) (vadd (vscale a3_0 (fvec k1r)) (vscale a3_1 (fvec k2)))) = fvec (padd p (pscale h (lincomb [3/40; 9/40] [k1r; k2])))).
  { unfold vadd, vscale, a3_0, a3_1, fvec, padd, pscale, lincomb. cbn. apply f_equal2; apply (f_equal Fin); ring. }
  destruct (STEP (fvec (padd p (pscale h (lincomb [3/40; 9/40] [k1r; k2]))))) as [[e E3]|(k3 & E3 & W3)].
  { left. exists e. unfold dp_step. rewrite S2, E2. cbn [bind]. rewrite S3, E3. reflexivity. }
  assert (S4 : vadd (fvec p) (vscale (Fin h) (vadd (vadd (vscale a4_0 (fvec k1r)) (vscale a4_1 (fvec k2))) (vscale a4_2 (fvec k3))))
               = fvec (padd p (pscale h (lincomb [44/45; -56/15; 32/9] [k1r; k2; k3])))).
  { unfold vadd, vscale, a4_0, a4_1, a4_2, fvec, padd, pscale, lincomb. cbn. apply f_equal2; apply (f_equal Fin); ring. }
  destruct (STEP (fvec (padd p (pscale h (lincomb [44/45; -56/15; 32/9] [k1r; k2; k3]))))) as [[e E4]|(k4 & E4 & W4)].
  { left. exists e. unfold dp_step. rewrite S2, E2. cbn [bind]. rewrite S3, E3. cbn [bind]. rewrite S4, E4. reflexivity. }
  assert (S5 : vadd (fvec p) (vscale (Fin h) (vadd (vadd (vadd (vscale a5_0 (fvec k1r)) (vscale a5_1 (fvec k2))) (vscale a5_2 (fvec k3))) (vscale a5_3 (fvec k4))))
               = fvec (padd p (pscale h (lincomb [19372/6561; -25360/2187; 64448/6561; -212/729] [k1r; k2; k3; k4])))).
  { unfold vadd, vscale, a5_0, a5_1, a5_2, a5_3, fvec, padd, pscale, lincomb. cbn. apply f_equal2; apply (f_equal Fin); ring. }
  destruct (STEP (fvec (padd p (pscale h (lincomb [19372/6561; -25360/2187; 64448/6561; -212/729] [k1r; k2; k3; k4]))))) as [[e E5]|(k5 & E5 & W5)].
  { left. exists e. unfold dp_step. rewrite S2, E2. cbn [bind]. rewrite S3, E3. cbn [bind]. rewrite S4, E4. cbn [bind]. rewrite S5, E5. reflexivity. }
  assert (S6 : vadd (fvec p) (vscale (Fin h) (vadd (vadd (vadd (vadd (vscale a6_0 (fvec k1r)) (vscale a6_1 (fvec k2))) (vscale a6_2 (fvec k3))) (vscale a6_3 (fvec k4))) (vscale a6_4 (fvec k5))))
               = fvec (padd p (pscale h (lincomb [9017/3168; -355/33; 46732/5247; 49/176; -5103/18656] [k1r; k2; k3; k4; k5])))).
  { unfold vadd, vscale, a6_0, a6_1, a6_2, a6_3, a6_4, fvec, padd, pscale, lincomb. cbn. apply f_equal2; apply (f_equal Fin); ring. }
  destruct (STEP (fvec (padd p (pscale h (lincomb [9017/3168; -355/33; 46732/5247; 49/176; -5103/18656] [k1r; k2; k3; k4; k5]))))) as [[e E6]|(k6 & E6 & W6)].
  { left. exists e. unfold dp_step. rewrite S2, E2. cbn [bind]. rewrite S3, E3. cbn [bind]. rewrite S4, E4. cbn [bind]. rewrite S5, E5. cbn [bind]. rewrite S6, E6. reflexivity. }
  assert (NOK7 : forall k, lincomb dp_b [k1r; k2; k3; k4; k5; k6; k] = lincomb dp_b [k1r; k2; k3; k4; k5; k6; (0, 0)]).
  { intros k. unfold lincomb, dp_b, padd, pscale. cbn. f_equal; ring. }
  assert (S7 : vadd (fvec p) (vscale (Fin h) (vadd (vadd (vadd (vadd (vscale a7_0 (fvec k1r)) (vscale a7_2 (fvec k3))) (vscale a7_3 (fvec k4))) (vscale a7_4 (fvec k5))) (vscale a7_5 (fvec k6))))
               = fvec (padd p (pscale h (lincomb dp_b [k1r; k2; k3; k4; k5; k6; (0, 0)])))).
  { unfold vadd, vscale, a7_0, a7_2, a7_3, a7_4, a7_5, fvec, padd, pscale, lincomb, dp_b. cbn. apply f_equal2; apply (f_equal Fin); ring. }
  destruct (STEP (fvec (padd p (pscale h (lincomb dp_b [k1r; k2; k3; k4; k5; k6; (0, 0)]))))) as [[e E7]|(k7 & E7 & W7)].
  { left. exists e. unfold dp_step. rewrite S2, E2. cbn [bind]. rewrite S3, E3. cbn [bind]. rewrite S4, E4. cbn [bind]. rewrite S5, E5. cbn [bind]. rewrite S6, E6. cbn [bind]. rewrite S7, E7. reflexivity. }
  right. pose proof (dp_step_finite f p h k1r k2 k3 k4 k5 k6 k7 E1 E2 E3 E4 E5 E6) as F. rewrite <- (NOK7 k7) in E7. specialize (F E7). cbv zeta in F.
  set (ks := [k1r; k2; k3; k4; k5; k6; k7]) in *.
  assert (Hks : forall k, In k ks -> within B k) by (intros k [<-|[<-|[<-|[<-|[<-|[<-|[<-|[]]]]]]]]; assumption).
  assert (B0 : 0 <= B) by (destruct W1 as [W _]; pose proof (Rabs_pos (fst k1r)); lra).
  destruct (lincomb_within B dp_b ks Hks B0) as [U1 U2]. destruct (lincomb_within B dp_bhat ks Hks B0) as [V1 V2].
  pose proof dp_b_size as Sb. pose proof dp_bhat_size as Sh. pose proof (Rabs_pos h) as Hh.
  set (u := lincomb dp_b ks) in *. set (v := lincomb dp_bhat ks) in *.
  assert (U1' : Rabs (fst u) <= 2 * B) by nra. assert (U2' : Rabs (snd u) <= 2 * B) by nra.
  assert (V1' : Rabs (fst v) <= 2 * B) by nra. assert (V2' : Rabs (snd v) <= 2 * B) by nra.
  eexists _, _, _, _. split; [exact F|]. split; [exact E7|]. split; split.
  - unfold pmax. eapply Rle_trans; [apply Rabs_pos|apply Rmax_l].
  - unfold pmax, padd, pscale. cbn [fst snd]. apply Rmax_lub; (eapply Rle_trans; [apply Rabs_triang|]); rewrite !Rabs_mult, Rabs_Ropp; nra.
  - apply sqrt_pos.
  - eapply Rle_trans; [apply pdist_le|]. unfold pscale. cbn [fst snd]. rewrite !Rabs_mult. nra.
Qed.

(** ** Termination *)
Section Termination.
  Variables (f : vec xr -> res (vec xr)) (tol maxstep : xr) (B D tol' max' d0 : R).
  Hypothesis HB : bounded_by B f.
  Hypothesis HT : total f.
  Hypothesis Ptol : finite_part tol' tol.
  Hypothesis Pmax : finite_part max' maxstep.
  Let L := 4 * Rmax B 0.
  Hypothesis Hd0 : 0 < d0.
  Hypothesis H1 : L * d0 + eps_R <= (9 / 10) ^ 5 * tol'.
  Hypothesis H2 : L * d0 + eps_R <= 9 / 10 * max'.

  Lemma L_nonneg : 0 <= L.
  Proof. unfold L. pose proof (Rmax_r B 0). lra. Qed.
  Lemma L_ge x : 0 <= x -> 4 * B * x <= L * x.
  Proof. intros. unfold L. pose proof (Rmax_l B 0). nra. Qed.

  Lemma part_below a t b : finite_part t b -> a < t -> below a b.
  Proof. intros [_ [->| ->]] H; cbn; auto. Qed.

  (** Steps no longer than [d0] are accepted. *)
  Lemma small_accepted x e d : 0 <= x <= d0 -> e <= 4 * B * x -> d <= 4 * B * x -> below e tol /\ below d maxstep.
  Proof.
    intros Hx He Hd. pose proof (L_ge x ltac:(lra)). pose proof L_nonneg. pose proof eps_pos.
    assert (L * x <= L * d0) by nra. destruct Ptol as [T0 _], Pmax as [M0 _].
    split; [apply (part_below _ tol')|apply (part_below _ max')]; auto; nra.
  Qed.

  (** From a step at least [d0] long the control never proposes a shorter one than [d0]. *)
  Lemma next_large x e d h : d0 <= x -> Rabs h = x -> 0 <= e <= 4 * B * x -> 0 <= d <= 4 * B * x ->
    exists c, next_dt tol maxstep (Fin e) (Fin d) (Fin h) = Fin (c * h) /\ 0 < c /\ d0 <= c * x /\ c <= 9 /\
      (~ (below e tol /\ below d maxstep) -> c <= 9 / 10).
  Proof.
    intros Hx Hh He Hd. pose proof eps_pos as HP. pose proof L_nonneg as HL. destruct Ptol as [T0 T1], Pmax as [M0 M1].
    destruct (next_dt_bounds tol maxstep tol' max' e d h (conj T0 T1) (conj M0 M1)) as (A & Bq & E & A0 & B0 & A1 & B1 & A2 & B2); try lra.
    assert (X : 0 < x) by lra. pose proof (L_ge x ltac:(lra)) as LX.
    exists (9 / 10 * Rmin (Rmin A Bq) 10). split; [exact E|].
    assert (GA : d0 <= 9 / 10 * A * x).
    { (* root5 of the fifth powers *)
      assert (Y : (d0 / (9 / 10 * x)) ^ 5 <= tol' / (e + eps_R)).
      { apply (Rmult_le_reg_r (e + eps_R)); [lra|]. replace (tol' / (e + eps_R) * (e + eps_R)) with tol' by (field; lra).
        apply Rle_trans with ((d0 / (9 / 10 * x)) ^ 5 * (L * x + eps_R)).
        { apply Rmult_le_compat_l; [|lra]. apply pow_le. apply Rlt_le, Rdiv_lt_0_compat; nra. }
        set (r := d0 / x). assert (R0 : 0 < r <= 1).
        { unfold r. split; [apply Rdiv_lt_0_compat; lra|]. apply (Rmult_le_reg_r x); [lra|]. unfold Rdiv. rewrite Rmult_assoc, Rinv_l by lra. lra. }
        assert (E1 : d0 / (9 / 10 * x) = 10 / 9 * r) by (unfold r; field; lra). rewrite E1.
        assert (E2 : x = d0 / r) by (unfold r; field; lra).
        assert (E3 : r * (L * x + eps_R) <= L * d0 + eps_R). { rewrite Rmult_plus_distr_l. replace (r * (L * x)) with (L * d0) by (unfold r; field; lra). nra. }
        assert (E4 : r ^ 4 <= 1). { rewrite <- (pow1 4). apply pow_incr. lra. }
        replace ((10 / 9 * r) ^ 5 * (L * x + eps_R)) with ((10 / 9) ^ 5 * (r ^ 4 * (r * (L * x + eps_R)))) by ring.
        assert (0 <= r ^ 4) by (apply pow_le; lra). assert (0 <= r * (L * x + eps_R)) by nra.
        apply Rle_trans with ((10 / 9) ^ 5 * (L * d0 + eps_R)).
        { apply Rmult_le_compat_l; [lra|]. nra. }
        apply Rle_trans with ((10 / 9) ^ 5 * ((9 / 10) ^ 5 * tol')); [apply Rmult_le_compat_l; lra|]. lra. }
      apply Rle_trans with (9 / 10 * root5 (tol' / (e + eps_R)) * x); [|nra].
      assert (Z : d0 / (9 / 10 * x) <= root5 (tol' / (e + eps_R))).
      { rewrite <- (root5_pow (d0 / (9 / 10 * x))) by (apply Rdiv_lt_0_compat; nra). apply root5_le; [|exact Y]. apply pow_lt. apply Rdiv_lt_0_compat; nra. }
      apply (Rmult_le_compat_r (9 / 10 * x)) in Z; [|nra]. unfold Rdiv at 1 in Z. rewrite Rmult_assoc, Rinv_l in Z by nra. nra. }
    assert (GB : d0 <= 9 / 10 * Bq * x).
    { apply Rle_trans with (9 / 10 * (max' / (d + eps_R)) * x); [|nra].
      apply (Rmult_le_reg_r (d + eps_R)); [lra|]. replace (9 / 10 * (max' / (d + eps_R)) * x * (d + eps_R)) with (9 / 10 * max' * x) by (field; lra).
      apply Rle_trans with (d0 * (L * x + eps_R)); [nra|].
      apply Rle_trans with (x * (L * d0 + eps_R)); [nra|]. nra. }
    repeat split.
    - unfold Rmin. repeat destruct (Rle_dec _ _); lra.
    - unfold Rmin. repeat destruct (Rle_dec _ _); lra.
    - unfold Rmin. repeat destruct (Rle_dec _ _); lra.
    - intros NB. destruct (Classical_Prop.classic (below e tol)) as [Y|Y].
      + assert (~ below d maxstep) by tauto. specialize (B2 H). unfold Rmin. repeat destruct (Rle_dec _ _); lra.
      + specialize (A2 Y). unfold Rmin. repeat destruct (Rle_dec _ _); lra.
  Qed.

  Definition returns (t h : R) (p : pt) (k1 : vec xr) : Prop :=
    forall acc, exists n tr, forall m, (n <= m)%nat -> trace_loop m f (Fin D) tol maxstep (Fin t) (Fin h) (fvec p) k1 acc = Ok tr.

  Lemma below_both e d : nlt (Fin e) tol && nlt (Fin d) maxstep = true <-> below e tol /\ below d maxstep.
  Proof. rewrite Bool.andb_true_iff. now rewrite <- !below_nlt. Qed.

  Hypothesis HD : D <> 0.

  Lemma returns_at p k1 h : returns D h p k1.
  Proof.
    intros acc. exists 1%nat. eexists. intros m Hm. destruct m; [lia|]. cbn [trace_loop].
    assert (E : nlt (nabs (Fin D)) (nabs (Fin D)) = false) by (cbn; apply Rltb_false; lra).
    rewrite E. reflexivity.
  Qed.

  (** What the loop does with a trial step. *)
  Lemma loop_case t h p k1 : f (fvec p) = Ok k1 -> 0 <= t * D -> Rabs t < Rabs D -> 0 <= h * D -> d0 <= Rabs h ->
    exists h1, 0 < h1 * D /\ 0 <= (t + h1) * D /\ Rabs (t + h1) = Rabs t + Rabs h1 /\ Rabs (t + h1) <= Rabs D /\
      (t + h1 = D \/ d0 <= Rabs h1) /\ Rabs h1 <= Rabs h /\
      (returns t h p k1 \/
       exists q k7 e d, f (fvec q) = Ok k7 /\ 0 <= e <= 4 * B * Rabs h1 /\ 0 <= d <= 4 * B * Rabs h1 /\
         (below e tol /\ below d maxstep -> forall h', next_dt tol maxstep (Fin e) (Fin d) (Fin h1) = Fin h' -> returns (t + h1) h' q k7 -> returns t h p k1) /\
         (~ (below e tol /\ below d maxstep) -> forall h', next_dt tol maxstep (Fin e) (Fin d) (Fin h1) = Fin h' -> returns t h' p k1 -> returns t h p k1)).
  Proof.
    intros Ek Ht LT Hh Hd. set (h1 := if Rltb (Rabs D) (Rabs (t + h)) then D - t else h). exists h1.
    assert (TRY : 0 < h1 * D /\ 0 <= (t + h1) * D /\ Rabs (t + h1) = Rabs t + Rabs h1 /\ Rabs (t + h1) <= Rabs D /\ (t + h1 = D \/ d0 <= Rabs h1) /\ Rabs h1 <= Rabs h).
    { unfold h1. destruct (Rtotal_order D 0) as [X|[X|X]]; [|lra|].
      - assert (t <= 0) by nra. assert (h <= 0) by nra. rewrite (Rabs_left1 t), (Rabs_left1 D), (Rabs_left1 h) in * by lra.
        destruct (Rltb_spec (- D) (Rabs (t + h))) as [C|C]; rewrite (Rabs_left1 (t + h)) in C by lra.
        + replace (t + (D - t)) with D by ring. rewrite (Rabs_left1 (D - t)), (Rabs_left1 D) by lra. repeat split; try nra; try lra.
        + rewrite (Rabs_left1 h), (Rabs_left1 (t + h)) by lra. repeat split; try nra; try lra.
      - assert (0 <= t) by nra. assert (0 <= h) by nra. rewrite (Rabs_pos_eq t), (Rabs_pos_eq D), (Rabs_pos_eq h) in * by lra.
        destruct (Rltb_spec D (Rabs (t + h))) as [C|C]; rewrite (Rabs_pos_eq (t + h)) in C by lra.
        + replace (t + (D - t)) with D by ring. rewrite (Rabs_pos_eq (D - t)), (Rabs_pos_eq D) by lra. repeat split; try nra; try lra.
        + rewrite (Rabs_pos_eq h), (Rabs_pos_eq (t + h)) by lra. repeat split; try nra; try lra. }
    destruct TRY as (T1 & T2 & T3 & T4 & T5 & T6). repeat (split; [assumption|]).
    assert (CL : (if nlt (nabs (Fin D)) (nabs (nadd (Fin t) (Fin h))) then nsub (Fin D) (Fin t) else Fin h) = Fin h1) by
      (unfold h1; cbn; destruct (Rltb (Rabs D) (Rabs (t + h))); reflexivity).
    destruct (dp_step_bounded B f p h1 k1 HB HT Ek) as [[e Ee]|(q & k7 & e & d & Es & Eq & He & Hds)].
    { left. intros acc. exists 1%nat. eexists. intros m Hm. destruct m; [lia|]. cbn [trace_loop]. rewrite (proj2 (nabs_lt t D) LT), CL, Ee. reflexivity. }
    right. exists q, k7, e, d. repeat (split; [assumption|]). split.
    - intros Hb h' En R acc. destruct (R (acc ++ [fvec q])) as (n & tr & Hn). exists (S n), tr. intros m Hm. destruct m; [lia|]. cbn [trace_loop].
      rewrite (proj2 (nabs_lt t D) LT), CL, Es, (proj2 (below_both e d) Hb), En. apply Hn. lia.
    - intros Hb h' En R acc. destruct (R acc) as (n & tr & Hn). exists (S n), tr. intros m Hm. destruct m; [lia|]. cbn [trace_loop].
      rewrite (proj2 (nabs_lt t D) LT), CL, Es, En. destruct (nlt (Fin e) tol && nlt (Fin d) maxstep) eqn:X; [apply below_both in X; contradiction|]. apply Hn. lia.
  Qed.

  Lemma at_end t : 0 <= t * D -> Rabs t <= Rabs D -> ~ Rabs t < Rabs D -> t = D.
  Proof.
    intros Ht Ha N. assert (E : Rabs t = Rabs D) by lra.
    destruct (Rtotal_order D 0) as [X|[X|X]]; [|lra|].
    - assert (t <= 0) by nra. rewrite (Rabs_left1 t), (Rabs_left1 D) in E by lra. lra.
    - assert (0 <= t) by nra. rewrite (Rabs_pos_eq t), (Rabs_pos_eq D) in E by lra. lra.
  Qed.

  (** [na] bounds the steps still to be accepted, [nr] the rejections until the next one. *)
  Lemma loop_returns K : Rabs D <= d0 * (10 / 9) ^ K -> forall na nr t h p k1,
    f (fvec p) = Ok k1 -> 0 <= t * D -> Rabs t <= Rabs D -> 0 <= h * D -> d0 <= Rabs h ->
    Rabs h <= d0 * (10 / 9) ^ nr \/ nr = S K -> Rabs D - Rabs t <= INR na * d0 ->
    returns t h p k1.
  Proof.
    intros HK. induction na as [|na IHa].
    { intros nr t h p k1 Ek Ht Ha Hh Hd Hr Hn. cbn in Hn. rewrite (at_end t) by lra. apply returns_at. }
    assert (ACC : forall t h q k7 h1 e d h', f (fvec q) = Ok k7 -> 0 < h1 * D -> 0 <= (t + h1) * D -> Rabs (t + h1) = Rabs t + Rabs h1 ->
      Rabs (t + h1) <= Rabs D -> t + h1 = D \/ d0 <= Rabs h1 -> Rabs h1 <= Rabs h -> 0 <= e <= 4 * B * Rabs h1 -> 0 <= d <= 4 * B * Rabs h1 ->
      next_dt tol maxstep (Fin e) (Fin d) (Fin h1) = Fin h' -> Rabs D - Rabs t <= INR (S na) * d0 -> returns (t + h1) h' q k7).
    { intros t h q k7 h1 e d h' Eq T1 T2 T3 T4 T5 T6 He Hds En Hn. destruct T5 as [->|T5]; [apply returns_at|].
      destruct (next_large (Rabs h1) e d h1) as (c & Ec & C0 & C1 & C2 & _); auto. rewrite Ec in En. injection En as <-.
      apply (IHa (S K)); auto.
      - nra.
      - rewrite Rabs_mult, (Rabs_pos_eq c) by lra. exact C1.
      - rewrite S_INR in Hn. lra. }
    induction nr as [|nr IHr]; intros t h p k1 Ek Ht Ha Hh Hd Hr Hn;
    (destruct (Rlt_dec (Rabs t) (Rabs D)) as [LT|NL]; [|rewrite (at_end t) by lra; apply returns_at]);
    destruct (loop_case t h p k1 Ek Ht LT Hh Hd) as (h1 & T1 & T2 & T3 & T4 & T5 & T6 & [R|(q & k7 & e & d & Eq & He & Hds & ACPT & REJ)]); try exact R;
    destruct (next_dt_bounds tol maxstep tol' max' e d h1 Ptol Pmax (proj1 He) (proj1 Hds)) as (A & Bq & E & _).
    - destruct Hr as [Hr|Hr]; [|discriminate]. cbn in Hr.
      destruct (small_accepted (Rabs h1) e d) as [Q1 Q2]; try lra; [split; [apply Rabs_pos|lra]|].
      eapply ACPT; [auto|exact E|]. apply (ACC t h q k7 h1 e d); auto.
    - destruct (Classical_Prop.classic (below e tol /\ below d maxstep)) as [Q|Q].
      + eapply ACPT; [auto|exact E|]. apply (ACC t h q k7 h1 e d); auto.
      + assert (GE : d0 <= Rabs h1).
        { destruct (Rle_lt_dec d0 (Rabs h1)) as [Y|Y]; [exact Y|exfalso]. apply Q. apply (small_accepted (Rabs h1)); try lra. split; [apply Rabs_pos|lra]. }
        destruct (next_large (Rabs h1) e d h1) as (c & Ec & C0 & C1 & C2 & C3); auto. specialize (C3 Q).
        eapply REJ; [exact Q|exact Ec|]. apply IHr; auto.
        * nra.
        * rewrite Rabs_mult, (Rabs_pos_eq c) by lra. exact C1.
        * left. rewrite Rabs_mult, (Rabs_pos_eq c) by lra.
          assert (UB : Rabs h1 <= d0 * (10 / 9) ^ S nr).
          { destruct Hr as [Hr|Hr]; [lra|]. injection Hr as ->. apply Rle_trans with (Rabs D); [pose proof (Rabs_pos t); lra|].
            apply Rle_trans with (1 := HK). cbn [pow]. assert (0 < (10 / 9) ^ K) by (apply pow_lt; lra). nra. }
          cbn [pow] in UB. pose proof (Rabs_pos h1). nra.
  Qed.
End Termination.

(** ** Constant velocity *)
Definition uniform (v : pt) : vec xr -> res (vec xr) := fun _ => Ok (fvec v).

Lemma dp_step_uniform v p h : dp_step (uniform v) (fvec p) (Fin h) (fvec v)
  = Ok (fvec (padd p (pscale h v)), fvec v, Fin 0, Fin (pdist p (padd p (pscale h v)))).
Proof.
  pose proof (dp_step_finite (uniform v) p h v v v v v v v eq_refl eq_refl eq_refl eq_refl eq_refl eq_refl eq_refl) as F. cbv zeta in F.
  assert (E1 : lincomb dp_b [v; v; v; v; v; v; v] = v).
  { destruct v. unfold lincomb, dp_b, padd, pscale. cbn. f_equal; field. }
  assert (E2 : lincomb dp_bhat [v; v; v; v; v; v; v] = v).
  { destruct v. unfold lincomb, dp_bhat, padd, pscale. cbn. f_equal; field. }
  rewrite E1, E2 in F. rewrite F. do 3 f_equal. f_equal. unfold pmax, padd, pscale. cbn [fst snd].
  replace (h * fst v + - h * fst v) with 0 by ring. replace (h * snd v + - h * snd v) with 0 by ring. rewrite Rabs_R0. apply Rmax_left. lra.
Qed.

Lemma pdist_self p : pdist p p = 0.
Proof. unfold pdist. replace ((fst p - fst p) * (fst p - fst p) + (snd p - snd p) * (snd p - snd p)) with 0 by ring. apply sqrt_0. Qed.

(** Zero velocity and a step-size control that always shrinks: the steps add up to a bounded time. *)
Lemma zero_velocity_loops tol maxstep D : 0 < tol -> 0 < maxstep -> factor tol maxstep 0 0 < 1 ->
  1 / 10 / (1 - factor tol maxstep 0 0) < D ->
  forall n t h p acc, 0 <= t -> 0 < h -> t + h / (1 - factor tol maxstep 0 0) <= 1 / 10 / (1 - factor tol maxstep 0 0) ->
  trace_loop n (uniform (0, 0)) (Fin D) (Fin tol) (Fin maxstep) (Fin t) (Fin h) (fvec p) (fvec (0, 0)) acc = NoFuel.
Proof.
  intros Ht Hm Hc HD. set (c := factor tol maxstep 0 0) in *.
  assert (C0 : 0 < c).
  { unfold c, factor. pose proof eps_pos. assert (0 < maxstep / (0 + eps_R)) by (apply Rdiv_lt_0_compat; lra).
    pose proof (root5_pos (tol / (0 + eps_R))). unfold Rmin. repeat destruct (Rle_dec _ _); lra. }
  induction n as [|n IH]; intros t h p acc T0 H0 HI; [reflexivity|]. cbn [trace_loop].
  assert (HH : h <= h / (1 - c)).
  { apply (Rmult_le_reg_r (1 - c)); [lra|]. unfold Rdiv. rewrite Rmult_assoc, Rinv_l by lra. nra. }
  assert (LT : Rabs t < Rabs D) by (rewrite !Rabs_pos_eq by lra; lra). rewrite (proj2 (nabs_lt t D) LT).
  assert (NC : nlt (nabs (Fin D)) (nabs (nadd (Fin t) (Fin h))) = false).
  { cbn. apply Rltb_false. rewrite !Rabs_pos_eq by lra. lra. }
  rewrite NC, dp_step_uniform.
  assert (EP : padd p (pscale h (0, 0)) = p) by (destruct p; unfold padd, pscale; cbn; f_equal; ring). rewrite EP, pdist_self.
  assert (AC : nlt (Fin 0) (Fin tol) && nlt (Fin 0) (Fin maxstep) = true) by (cbn; apply andb_true_intro; split; now apply Rltb_true).
  rewrite AC, next_dt_fin by lra. fold c. cbn [nadd XR xadd]. apply IH; [lra|nra|].
  replace (t + h + c * h / (1 - c)) with (t + h / (1 - c)) by (field; lra). exact HI.
Qed.

(** C39, refuted as stated: with a tolerance or a longest step below (roughly) the machine epsilon,
    even standing water is not traced to the end once the duration is long enough. *)
Lemma c39_tiny_tolerance_refuted : forall tol maxstep : R,
  0 < tol -> 0 < maxstep -> tol < / 2 ^ 52 / (9 / 10) ^ 5 \/ maxstep < / 2 ^ 52 / (9 / 10) ->
  exists D, 0 < D /\ forall (p : pt) (fuel : nat),
    compute_backtrace fuel (Fin (fst p)) (Fin (snd p)) (Fin D) (Fin tol) (Fin maxstep) (fun _ => Ok (Fin 0, Fin 0)) = NoFuel.
Proof.
  intros tol maxstep Ht Hm Hs. assert (HE : / 2 ^ 52 = eps_R) by (unfold eps_R; lra). rewrite HE in Hs. pose proof eps_pos as HP.
  assert (Hc : factor tol maxstep 0 0 < 1).
  { unfold factor. rewrite Rplus_0_l. destruct Hs as [Hs|Hs].
    - assert (root5 (tol / eps_R) < 10 / 9).
      { rewrite <- (root5_pow (10 / 9)) by lra. unfold root5. apply exp_increasing.
        assert (ln (tol / eps_R) < ln ((10 / 9) ^ 5)); [|lra]. apply ln_increasing; [apply Rdiv_lt_0_compat; lra|].
        apply (Rmult_lt_reg_r eps_R); [lra|]. unfold Rdiv at 1. rewrite Rmult_assoc, Rinv_l by lra. lra. }
      unfold Rmin. repeat destruct (Rle_dec _ _); lra.
    - assert (maxstep / eps_R < 10 / 9).
      { apply (Rmult_lt_reg_r eps_R); [lra|]. unfold Rdiv at 1. rewrite Rmult_assoc, Rinv_l by lra. lra. }
      unfold Rmin. repeat destruct (Rle_dec _ _); lra. }
  set (c := factor tol maxstep 0 0) in *. assert (0 < 1 / 10 / (1 - c)) by (apply Rdiv_lt_0_compat; lra).
  exists (1 / 10 / (1 - c) + 1). split; [lra|]. intros p fuel. unfold compute_backtrace.
  assert (S : nmul (nlit 1 10) (nsign (Fin (1 / 10 / (1 - c) + 1))) = Fin (1 / 10)).
  { unfold nsign. cbn. destruct (Rltb_spec 0 (1 / 10 / (1 - c) + 1)); [|lra]. cbn. f_equal. ring. }
  rewrite S. apply (zero_velocity_loops tol maxstep); auto; fold c; lra.
Qed.

(** C39.  What is missing of the stated property: the tolerance and the longest step have to be above
    2^-52 / 0.9^5 and 2^-52 / 0.9 (see the refutation).  Then, for every velocity function bounded by [B]
    that always returns or raises, and every duration, compute_backtrace returns. *)
Lemma c39_terminates_partial : forall (B : R) (p : pt) (D : R) (tol maxstep : xr) (f : vec xr -> res (vec xr)),
  bounded_by B f -> total f -> below (/ 2 ^ 52 / (9 / 10) ^ 5) tol -> below (/ 2 ^ 52 / (9 / 10)) maxstep ->
  exists fuel tr, forall fuel', (fuel <= fuel')%nat ->
    compute_backtrace fuel' (Fin (fst p)) (Fin (snd p)) (Fin D) tol maxstep f = Ok tr.
Proof.
  intros B p D tol maxstep f HB HT Htol Hmax. assert (HE : / 2 ^ 52 = eps_R) by (unfold eps_R; lra). rewrite HE in Htol, Hmax. pose proof eps_pos as HP.
  unfold compute_backtrace. change (Fin (fst p), Fin (snd p)) with (fvec p).
  destruct (f (fvec p)) as [k1|e|] eqn:Ek; [|exists 0%nat; eexists; reflexivity|destruct (HT _ Ek)].
  destruct (Req_dec D 0) as [->|HD].
  { exists 1%nat. eexists. intros m Hm. destruct m; [lia|]. cbn [trace_loop].
    assert (E : nlt (nabs (nZ 0)) (nabs (Fin 0)) = false) by (cbn; apply Rltb_false; lra). rewrite E. reflexivity. }
  assert (P1 : 0 < eps_R / (9 / 10) ^ 5) by (apply Rdiv_lt_0_compat; [lra|apply pow_lt; lra]).
  assert (P2 : 0 < eps_R / (9 / 10)) by (apply Rdiv_lt_0_compat; lra).
  destruct (below_part _ tol P1 Htol) as (tol' & T1 & T2).
  destruct (below_part _ maxstep P2 Hmax) as (max' & M1 & M2).
  assert (T1' : eps_R < (9 / 10) ^ 5 * tol') by lra. assert (M1' : eps_R < 9 / 10 * max') by lra.
  set (L := 4 * Rmax B 0). assert (HL : 0 <= L) by (unfold L; pose proof (Rmax_r B 0); lra).
  set (gap := Rmin ((9 / 10) ^ 5 * tol' - eps_R) (9 / 10 * max' - eps_R)).
  assert (G1 : gap <= (9 / 10) ^ 5 * tol' - eps_R) by apply Rmin_l. assert (G2 : gap <= 9 / 10 * max' - eps_R) by apply Rmin_r.
  assert (G0 : 0 < gap) by (unfold gap, Rmin; destruct (Rle_dec _ _); lra).
  set (d0 := Rmin (1 / 10) (gap / (L + 1))).
  assert (Q : 0 < gap / (L + 1)) by (apply Rdiv_lt_0_compat; lra).
  assert (D0 : 0 < d0) by (unfold d0, Rmin; destruct (Rle_dec _ _); lra).
  assert (D1 : d0 <= 1 / 10) by apply Rmin_l.
  assert (D2 : L * d0 <= gap).
  { assert (d0 <= gap / (L + 1)) by apply Rmin_r. apply Rle_trans with (L * (gap / (L + 1))); [nra|].
    apply (Rmult_le_reg_r (L + 1)); [lra|]. replace (L * (gap / (L + 1)) * (L + 1)) with (L * gap) by (field; lra). nra. }
  destruct (Pow_x_infinity (10 / 9) ltac:(rewrite Rabs_pos_eq; lra) (Rabs D / d0)) as (K & HK). specialize (HK K (le_n K)).
  rewrite Rabs_pos_eq in HK by (apply pow_le; lra).
  assert (HK' : Rabs D <= d0 * (10 / 9) ^ K).
  { apply Rge_le in HK. apply (Rmult_le_compat_l d0) in HK; [|lra]. replace (d0 * (Rabs D / d0)) with (Rabs D) in HK by (field; lra). exact HK. }
  assert (exists na, Rabs D / d0 < INR na) as (na & Hna).
  { exists (Z.to_nat (up (Rabs D / d0))). destruct (archimed (Rabs D / d0)) as [U _]. rewrite INR_IZR_INZ, Z2Nat.id; [lra|].
    apply le_IZR. pose proof (Rabs_pos D). assert (0 <= Rabs D / d0) by (apply Rmult_le_pos; [lra|left; apply Rinv_0_lt_compat; lra]). lra. }
  destruct (sign_fin D HD) as (s & Es & Hs). rewrite Es. change (nmul (nlit 1 10) (Fin s)) with (Fin (1 / 10 * s)). change (nZ 0) with (Fin 0).
  assert (Sv : s = 1 \/ s = -1).
  { unfold nsign in Es. cbn in Es. destruct (Rltb 0 D); [injection Es as <-; auto|]. destruct (Rltb D 0); injection Es as <-; [auto|]. rewrite Rmult_0_l in Hs. lra. }
  eapply (loop_returns f tol maxstep B D tol' max' d0) with (K := K) (na := na) (nr := S K); eauto.
  - fold L. lra.
  - fold L. lra.
  - lra.
  - rewrite Rabs_R0. apply Rabs_pos.
  - nra.
  - destruct Sv as [->| ->]; [rewrite Rabs_pos_eq by lra|rewrite Rabs_left by lra]; lra.
  - rewrite Rabs_R0. apply Rlt_le in Hna. apply (Rmult_le_compat_r d0) in Hna; [|lra].
    replace (Rabs D / d0 * d0) with (Rabs D) in Hna by (field; lra). lra.
Qed.

(** ** Undefined velocities (C40) *)
Lemma next_dt_nan tol maxstep ds dt : next_dt tol maxstep NaN ds dt = NaN.
Proof.
  unfold next_dt. cbn [nadd ndiv nroot5 nlit nmul nZ XR xadd].
  assert (E : xdiv tol (xadd NaN eps) = NaN) by (destruct tol; reflexivity). cbn [xadd] in E. rewrite E. cbn [xroot5].
  assert (M : forall b, pymin NaN b = NaN) by (intros b; unfold pymin; cbn; destruct b; reflexivity). rewrite !M. reflexivity.
Qed.

Lemma nan_step_loops f D tol maxstep p k1 t : f (NaN, NaN) = Ok (NaN, NaN) -> nlt (nabs (Fin t)) (nabs D) = true ->
  forall n acc, trace_loop n f D tol maxstep (Fin t) NaN (fvec p) k1 acc = NoFuel.
Proof.
  intros HN LT. induction n as [|n IH]; intros acc; [reflexivity|]. cbn [trace_loop]. rewrite LT.
  assert (C : nlt (nabs D) (nabs (nadd (Fin t) NaN)) = false) by (destruct D; reflexivity). rewrite C.
  assert (Z : forall v, vadd (fvec p) (vscale NaN v) = (NaN, NaN)) by (intros [a b]; unfold vadd, vscale; cbn; destruct a, b; reflexivity).
  assert (E : exists ds, dp_step f (fvec p) NaN k1 = Ok ((NaN, NaN), (NaN, NaN), NaN, ds)).
  { unfold dp_step. rewrite !Z, HN. cbn [bind]. rewrite !Z, HN. cbn [bind]. rewrite !Z, HN. cbn [bind]. rewrite !Z, HN. cbn [bind].
    rewrite !Z, HN. cbn [bind]. rewrite !Z, HN. cbn [bind]. eexists. do 3 f_equal. }
  destruct E as (ds & ->). cbn [nlt XR xlt andb]. rewrite next_dt_nan. apply IH.
Qed.

(** C40, refuted: a velocity function that answers NaN everywhere, traced for any duration other than 0,
    keeps compute_backtrace running for ever. *)
Lemma c40_nan_refuted : forall (p : pt) (D : R) (tol maxstep : xr) (fuel : nat),
  D <> 0 ->
  compute_backtrace fuel (Fin (fst p)) (Fin (snd p)) (Fin D) tol maxstep (fun _ => Ok (NaN, NaN)) = NoFuel.
Proof.
  intros p D tol maxstep fuel HD. unfold compute_backtrace. change (Fin (fst p), Fin (snd p)) with (fvec p).
  assert (LT : nlt (nabs (nZ 0)) (nabs (Fin D)) = true).
  { cbn. apply Rltb_true. rewrite Rabs_R0. now apply Rabs_pos_lt. }
  destruct fuel as [|n]; [reflexivity|]. cbn [trace_loop]. rewrite LT.
  set (dt1 := if nlt _ _ then _ else _). clearbody dt1. unfold dp_step. cbn [bind].
  assert (E : norm_inf (vscale dt1 (vadd (vadd (vadd (vadd (vadd (vscale e_0 (NaN, NaN)) (vscale e_1 (NaN, NaN))) (vscale e_2 (NaN, NaN)))
     (vscale e_3 (NaN, NaN))) (vscale e_4 (NaN, NaN))) (vscale e_5 (NaN, NaN)))) = NaN).
  { unfold norm_inf, vscale, vadd. cbn. destruct dt1; reflexivity. }
  rewrite E, next_dt_nan. cbn [nlt XR xlt andb]. apply (nan_step_loops _ _ _ _ _ _ 0); [reflexivity|exact LT].
Qed.
