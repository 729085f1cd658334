(** * Proofs about compute_backtrace *)
From Coq Require Import Reals Lra Lia Psatz.
From Verif Require Import Py Num NumXR ModelTrace SpecTrace.
Local Open Scope R_scope.

(** ** Finite results have finite operands *)
Lemma xadd_fin a b c : xadd a b = Fin c -> exists x y, a = Fin x /\ b = Fin y /\ c = x + y.
Proof. destruct a, b; cbn; intros H; try discriminate. injection H as <-. eauto. Qed.
Lemma xsub_fin a b c : xsub a b = Fin c -> exists x y, a = Fin x /\ b = Fin y /\ c = x - y.
Proof. destruct a, b; cbn; intros H; try discriminate. injection H as <-. eauto. Qed.
Lemma xmul_fin a b c : xmul a b = Fin c -> exists x y, a = Fin x /\ b = Fin y /\ c = x * y.
Proof.
  destruct a, b; cbn; intros H; try discriminate; try (injection H as <-; eauto; fail);
  unfold inf_of_sign in H; repeat destruct (Rltb _ _); discriminate.
Qed.
Lemma xabs_fin a c : xabs a = Fin c -> exists x, a = Fin x /\ c = Rabs x.
Proof. destruct a; cbn; intros H; try discriminate. injection H as <-. eauto. Qed.
Lemma xsqrt_fin a c : xsqrt a = Fin c -> exists x, a = Fin x /\ 0 <= x /\ c = sqrt x.
Proof.
  destruct a; cbn; intros H; try discriminate. destruct (Rltb_spec r 0); [discriminate|]. injection H as <-. exists r. repeat split; lra.
Qed.
Lemma npmax_abs_fin a b c : npmax (xabs a) (xabs b) = Fin c ->
  exists x y, a = Fin x /\ b = Fin y /\ c = Rmax (Rabs x) (Rabs y).
Proof.
  unfold npmax. destruct a, b; cbn; try discriminate. destruct (Rltb_spec (Rabs r) (Rabs r0)) as [L|L]; intros [= <-].
  - exists r, r0. rewrite Rmax_right by lra. auto.
  - exists r, r0. rewrite Rmax_left by lra. auto.
Qed.

Ltac fininv :=
  repeat match goal with
  | H : xadd _ _ = Fin _ |- _ => apply xadd_fin in H; destruct H as (? & ? & ? & ? & ?)
  | H : xsub _ _ = Fin _ |- _ => apply xsub_fin in H; destruct H as (? & ? & ? & ? & ?)
  | H : xmul _ _ = Fin _ |- _ => apply xmul_fin in H; destruct H as (? & ? & ? & ? & ?)
  | H : Fin _ = Fin _ |- _ => injection H as H
  end.

(** The estimate is NaN or at least 0 *)
Lemma norm_inf_below v b : nlt (norm_inf v) b = true -> exists p, v = fvec p /\ norm_inf v = Fin (pmax p) /\ below (pmax p) b.
Proof.
  unfold norm_inf. cbn [nabs nlt XR]. intros H.
  destruct (npmax (xabs (fst v)) (xabs (snd v))) as [r| | |] eqn:E.
  - destruct (npmax_abs_fin _ _ _ E) as (x & y & E1 & E2 & ->). exists (x, y).
    destruct v as [vx vy]. cbn in E1, E2. subst. split; [reflexivity|]. split; [reflexivity|].
    destruct b; cbn in *; auto; try discriminate. now apply Rltb_true in H.
  - destruct b; discriminate.
  - exfalso. destruct v as [vx vy]. cbn in E. unfold npmax in E. destruct vx, vy; cbn in E; try discriminate; destruct (Rltb _ _); discriminate.
  - discriminate.
Qed.

Lemma norm2_below v b : nlt (norm2 v) b = true -> exists p, v = fvec p /\ norm2 v = Fin (sqrt (fst p * fst p + snd p * snd p)) /\
  below (sqrt (fst p * fst p + snd p * snd p)) b.
Proof.
  intros H. assert (F : forall w, nlt (xsqrt w) b = true -> exists r, w = Fin r).
  { intros w Hw. destruct w; cbn in Hw; eauto; destruct b; discriminate. }
  unfold norm2 in *. cbn [nadd nmul nsqrt nlt XR] in *. destruct (F _ H) as (r & E). destruct v as [vx vy]. cbn [fst snd] in *.
  destruct (xadd_fin _ _ _ E) as (a & c & Ea & Ec & ->). destruct (xmul_fin _ _ _ Ea) as (x & x' & -> & Ex & ->). injection Ex as <-.
  destruct (xmul_fin _ _ _ Ec) as (y & y' & -> & Ey & ->). injection Ey as <-.
  exists (x, y). split; [reflexivity|]. cbn [fst snd]. rewrite E in *. cbn [xsqrt] in *.
  destruct (Rltb_spec (x * x + y * y) 0) as [B|B].
  - exfalso. pose proof (Rle_0_sqr x). pose proof (Rle_0_sqr y). unfold Rsqr in *. lra.
  - split; [reflexivity|]. destruct b; cbn in *; auto; try discriminate. now apply Rltb_true in H.
Qed.

(** ** One accepted trial *)
Lemma norm_inf_fvec p : norm_inf (fvec p) = Fin (pmax p).
Proof.
  unfold norm_inf, npmax, pmax. cbn. destruct (Rltb_spec (Rabs (fst p)) (Rabs (snd p))); f_equal.
  - now rewrite Rmax_right by lra.
  - now rewrite Rmax_left by lra.
Qed.

Lemma norm2_sub p q : norm2 (vsub (fvec q) (fvec p)) = Fin (pdist p q).
Proof.
  unfold norm2, vsub, pdist. cbn.
  destruct (Rltb_spec ((fst q - fst p) * (fst q - fst p) + (snd q - snd p) * (snd q - snd p)) 0) as [B|B]; [|reflexivity].
  exfalso. pose proof (Rle_0_sqr (fst q - fst p)). pose proof (Rle_0_sqr (snd q - snd p)). unfold Rsqr in *. lra.
Qed.

Lemma fvec_eq a b c d : a = c -> b = d -> (Fin a, Fin b) = fvec (c, d).
Proof. intros -> ->. reflexivity. Qed.

Lemma bind_ok {A B} (m : res A) (k : A -> res B) b : bind m k = Ok b -> exists a, m = Ok a /\ k a = Ok b.
Proof. destruct m; cbn; try discriminate. eauto. Qed.

(** What a trial step is when all seven slopes are finite. *)
Lemma dp_step_finite f p h k1 k2 k3 k4 k5 k6 k7 :
  f (fvec p) = Ok (fvec k1) ->
  f (fvec (padd p (pscale h (lincomb [1/5] [k1])))) = Ok (fvec k2) ->
  f (fvec (padd p (pscale h (lincomb [3/40; 9/40] [k1; k2])))) = Ok (fvec k3) ->
  f (fvec (padd p (pscale h (lincomb [44/45; -56/15; 32/9] [k1; k2; k3])))) = Ok (fvec k4) ->
  f (fvec (padd p (pscale h (lincomb [19372/6561; -25360/2187; 64448/6561; -212/729] [k1; k2; k3; k4])))) = Ok (fvec k5) ->
  f (fvec (padd p (pscale h (lincomb [9017/3168; -355/33; 46732/5247; 49/176; -5103/18656] [k1; k2; k3; k4; k5])))) = Ok (fvec k6) ->
  f (fvec (padd p (pscale h (lincomb dp_b [k1; k2; k3; k4; k5; k6; k7])))) = Ok (fvec k7) ->
  let ks := [k1; k2; k3; k4; k5; k6; k7] in
  let q := padd p (pscale h (lincomb dp_b ks)) in
  dp_step f (fvec p) (Fin h) (fvec k1)
  = Ok (fvec q, fvec k7, Fin (pmax (padd (pscale h (lincomb dp_b ks)) (pscale (- h) (lincomb dp_bhat ks)))), Fin (pdist p q)).
Proof.
  intros E1 E2 E3 E4 E5 E6 E7 ks q.
  assert (S2 : vadd (fvec p) (vscale (Fin h) (vscale a2_0 (fvec k1))) = fvec (padd p (pscale h (lincomb [1/5] [k1])))).
  { unfold vadd, vscale, a2_0, fvec, padd, pscale, lincomb. cbn. apply f_equal2; apply (f_equal Fin); ring. }
  assert (S3 : vadd (fvec p) (vscale (Fin h) (vadd (vscale a3_0 (fvec k1)) (vscale a3_1 (fvec k2)))) = fvec (padd p (pscale h (lincomb [3/40; 9/40] [k1; k2])))).
  { unfold vadd, vscale, a3_0, a3_1, fvec, padd, pscale, lincomb. cbn. apply f_equal2; apply (f_equal Fin); ring. }
  assert (S4 : vadd (fvec p) (vscale (Fin h) (vadd (vadd (vscale a4_0 (fvec k1)) (vscale a4_1 (fvec k2))) (vscale a4_2 (fvec k3))))
               = fvec (padd p (pscale h (lincomb [44/45; -56/15; 32/9] [k1; k2; k3])))).
  { unfold vadd, vscale, a4_0, a4_1, a4_2, fvec, padd, pscale, lincomb. cbn. apply f_equal2; apply (f_equal Fin); ring. }
  assert (S5 : vadd (fvec p) (vscale (Fin h) (vadd (vadd (vadd (vscale a5_0 (fvec k1)) (vscale a5_1 (fvec k2))) (vscale a5_2 (fvec k3))) (vscale a5_3 (fvec k4))))
               = fvec (padd p (pscale h (lincomb [19372/6561; -25360/2187; 64448/6561; -212/729] [k1; k2; k3; k4])))).
  { unfold vadd, vscale, a5_0, a5_1, a5_2, a5_3, fvec, padd, pscale, lincomb. cbn. apply f_equal2; apply (f_equal Fin); ring. }
  assert (S6 : vadd (fvec p) (vscale (Fin h) (vadd (vadd (vadd (vadd (vscale a6_0 (fvec k1)) (vscale a6_1 (fvec k2))) (vscale a6_2 (fvec k3))) (vscale a6_3 (fvec k4))) (vscale a6_4 (fvec k5))))
               = fvec (padd p (pscale h (lincomb [9017/3168; -355/33; 46732/5247; 49/176; -5103/18656] [k1; k2; k3; k4; k5])))).
  { unfold vadd, vscale, a6_0, a6_1, a6_2, a6_3, a6_4, fvec, padd, pscale, lincomb. cbn. apply f_equal2; apply (f_equal Fin); ring. }
  assert (S7 : vadd (fvec p) (vscale (Fin h) (vadd (vadd (vadd (vadd (vscale a7_0 (fvec k1)) (vscale a7_2 (fvec k3))) (vscale a7_3 (fvec k4))) (vscale a7_4 (fvec k5))) (vscale a7_5 (fvec k6))))
               = fvec q).
  { unfold q, ks, vadd, vscale, a7_0, a7_2, a7_3, a7_4, a7_5, fvec, padd, pscale, lincomb, dp_b. cbn. apply f_equal2; apply (f_equal Fin); ring. }
  assert (SE : vscale (Fin h) (vadd (vadd (vadd (vadd (vadd (vscale e_0 (fvec k1)) (vscale e_1 (fvec k7))) (vscale e_2 (fvec k3)))
                                  (vscale e_3 (fvec k4))) (vscale e_4 (fvec k5))) (vscale e_5 (fvec k6)))
               = fvec (padd (pscale h (lincomb dp_b ks)) (pscale (- h) (lincomb dp_bhat ks)))).
  { unfold ks, vadd, vscale, e_0, e_1, e_2, e_3, e_4, e_5, fvec, padd, pscale, lincomb, dp_b, dp_bhat. cbn. apply f_equal2; apply (f_equal Fin); field. }
  unfold dp_step. rewrite S2, E2. cbn [bind]. rewrite S3, E3. cbn [bind]. rewrite S4, E4. cbn [bind]. rewrite S5, E5. cbn [bind].
  rewrite S6, E6. cbn [bind]. rewrite S7. change (f (fvec q)) with (f (fvec (padd p (pscale h (lincomb dp_b [k1; k2; k3; k4; k5; k6; k7]))))).
  rewrite E7. cbn [bind]. rewrite SE, norm_inf_fvec, norm2_sub. reflexivity.
Qed.

(** An accepted trial is a good step, unless the second stage met a non-finite velocity (the
    error estimate does not look at the second slope). *)
Lemma fvec_scale_inv c v p : vscale c v = fvec p -> exists x q, c = Fin x /\ v = fvec q.
Proof.
  destruct v as [v1 v2]. unfold vscale, fvec. cbn [nmul XR fst snd]. intros [= H1 H2].
  destruct (xmul_fin _ _ _ H1) as (x & y & -> & -> & _). destruct (xmul_fin _ _ _ H2) as (x' & y' & _ & -> & _).
  exists x, (y, y'). auto.
Qed.
Lemma fvec_add_inv v w p : vadd v w = fvec p -> exists q r, v = fvec q /\ w = fvec r.
Proof.
  destruct v as [v1 v2], w as [w1 w2]. unfold vadd, fvec. cbn [nadd XR fst snd]. intros [= H1 H2].
  destruct (xadd_fin _ _ _ H1) as (x & y & -> & -> & _). destruct (xadd_fin _ _ _ H2) as (x' & y' & -> & -> & _).
  exists (x, x'), (y, y'). auto.
Qed.
Lemma fvec_sub_inv v w p : vsub v w = fvec p -> exists q r, v = fvec q /\ w = fvec r.
Proof.
  destruct v as [v1 v2], w as [w1 w2]. unfold vsub, fvec. cbn [nsub XR fst snd]. intros [= H1 H2].
  destruct (xsub_fin _ _ _ H1) as (x & y & -> & -> & _). destruct (xsub_fin _ _ _ H2) as (x' & y' & -> & -> & _).
  exists (x, x'), (y, y'). auto.
Qed.
Lemma finite_dec v : finite v \/ ~ finite v.
Proof. apply Classical_Prop.classic. Qed.

Lemma fvec_inj p q : fvec p = fvec q -> p = q.
Proof. destruct p, q. unfold fvec. cbn. intros [= -> ->]. reflexivity. Qed.

Ltac bindinv H k E := apply bind_ok in H; destruct H as (k & E & H).
Lemma dp_step_accept f p dt k1 xyt k7 est ds tol maxstep :
  f (fvec p) = Ok k1 -> dp_step f (fvec p) dt k1 = Ok (xyt, k7, est, ds) ->
  nlt est tol = true -> nlt ds maxstep = true ->
  exists h q, dt = Fin h /\ xyt = fvec q /\ f (fvec q) = Ok k7 /\ (exists e, est = Fin e /\ 0 <= e) /\ ds = Fin (pdist p q) /\
    finite k1 /\ finite k7 /\
    (good_step f tol maxstep p h q \/ wild_step f tol maxstep p h q).
Proof.
  intros E1 H Hest Hds. unfold dp_step in H.
  bindinv H k2 E2. bindinv H k3 E3. bindinv H k4 E4. bindinv H k5 E5. bindinv H k6 E6.
  match type of H with bind (f ?z) _ = _ => set (xy7 := z) in * end.
  bindinv H k7' E7.
  match type of H with Ok (_, _, ?A, ?B) = _ => remember A as estx eqn:Eest; remember B as dsx eqn:Eds end.
  remember xy7 as xy7x eqn:Exy7. injection H as <- <- <- <-. subst estx dsx xy7x.
  destruct (norm_inf_below _ _ Hest) as (pe & Ee & Ee' & Hbe).
  destruct (norm2_below _ _ Hds) as (pd & Ed & Ed' & Hbd).
  destruct (fvec_sub_inv _ _ _ Ed) as (q & p' & Eq & Ep). apply fvec_inj in Ep. subst p'.
  destruct (fvec_scale_inv _ _ _ Ee) as (h & s & -> & Es).
  destruct (fvec_add_inv _ _ _ Es) as (s1 & s2 & Es1 & Es2). clear Es.
  destruct (fvec_add_inv _ _ _ Es1) as (s3 & s4 & Es3 & Es4). clear Es1.
  destruct (fvec_add_inv _ _ _ Es3) as (s5 & s6 & Es5 & Es6). clear Es3.
  destruct (fvec_add_inv _ _ _ Es5) as (s7 & s8 & Es7 & Es8). clear Es5.
  destruct (fvec_add_inv _ _ _ Es7) as (s9 & s10 & Es9 & Es10). clear Es7.
  destruct (fvec_scale_inv _ _ _ Es2) as (_ & k6r & _ & ->).
  destruct (fvec_scale_inv _ _ _ Es4) as (_ & k5r & _ & ->).
  destruct (fvec_scale_inv _ _ _ Es6) as (_ & k4r & _ & ->).
  destruct (fvec_scale_inv _ _ _ Es8) as (_ & k3r & _ & ->).
  destruct (fvec_scale_inv _ _ _ Es10) as (_ & k7r & _ & ->).
  destruct (fvec_scale_inv _ _ _ Es9) as (_ & k1r & _ & ->).
  clear Es2 Es4 Es6 Es8 Es9 Es10.
  exists h, q. split; [reflexivity|]. split; [exact Eq|]. rewrite Eq in E7. split; [exact E7|]. split.
  { exists (pmax pe). split; [exact Ee'|]. unfold pmax. eapply Rle_trans; [apply Rabs_pos|apply Rmax_l]. }
  assert (EQ : norm2 (vsub xy7 (fvec p)) = Fin (pdist p q)).
  { rewrite Eq. apply norm2_sub. }
  split; [exact EQ|]. split; [now exists k1r|]. split; [now exists k7r|].
  assert (EQQ : forall k, q = padd p (pscale h (lincomb dp_b [k1r; k; k3r; k4r; k5r; k6r; k7r]))).
  { intros k. apply fvec_inj. rewrite <- Eq.
    unfold xy7, vadd, vscale, a7_0, a7_2, a7_3, a7_4, a7_5, fvec, padd, pscale, lincomb, dp_b. cbn. apply f_equal2; apply (f_equal Fin); ring. }
  assert (SE : forall k, pe = padd (pscale h (lincomb dp_b [k1r; k; k3r; k4r; k5r; k6r; k7r])) (pscale (- h) (lincomb dp_bhat [k1r; k; k3r; k4r; k5r; k6r; k7r]))).
  { intros k. apply fvec_inj. rewrite <- Ee.
    unfold vadd, vscale, e_0, e_1, e_2, e_3, e_4, e_5, fvec, padd, pscale, lincomb, dp_b, dp_bhat. cbn. apply f_equal2; apply (f_equal Fin); field. }
  assert (Epd : pd = (fst q - fst p, snd q - snd p)) by (apply fvec_inj; rewrite <- Ed, Eq; reflexivity). subst pd.
  destruct (finite_dec k2) as [(k2r & ->)|W]; [left|right].
  - specialize (EQQ k2r). specialize (SE k2r). assert (S2 : vadd (fvec p) (vscale (Fin h) (vscale a2_0 (fvec k1r))) = fvec (padd p (pscale h (lincomb [1/5] [k1r])))).
    { unfold vadd, vscale, a2_0, fvec, padd, pscale, lincomb. cbn. apply f_equal2; apply (f_equal Fin); ring. }
    assert (S3 : vadd (fvec p) (vscale (Fin h) (vadd (vscale a3_0 (fvec k1r)) (vscale a3_1 (fvec k2r)))) = fvec (padd p (pscale h (lincomb [3/40; 9/40] [k1r; k2r])))).
    { unfold vadd, vscale, a3_0, a3_1, fvec, padd, pscale, lincomb. cbn. apply f_equal2; apply (f_equal Fin); ring. }
    assert (S4 : vadd (fvec p) (vscale (Fin h) (vadd (vadd (vscale a4_0 (fvec k1r)) (vscale a4_1 (fvec k2r))) (vscale a4_2 (fvec k3r))))
                 = fvec (padd p (pscale h (lincomb [44/45; -56/15; 32/9] [k1r; k2r; k3r])))).
    { unfold vadd, vscale, a4_0, a4_1, a4_2, fvec, padd, pscale, lincomb. cbn. apply f_equal2; apply (f_equal Fin); ring. }
    assert (S5 : vadd (fvec p) (vscale (Fin h) (vadd (vadd (vadd (vscale a5_0 (fvec k1r)) (vscale a5_1 (fvec k2r))) (vscale a5_2 (fvec k3r))) (vscale a5_3 (fvec k4r))))
                 = fvec (padd p (pscale h (lincomb [19372/6561; -25360/2187; 64448/6561; -212/729] [k1r; k2r; k3r; k4r])))).
    { unfold vadd, vscale, a5_0, a5_1, a5_2, a5_3, fvec, padd, pscale, lincomb. cbn. apply f_equal2; apply (f_equal Fin); ring. }
    assert (S6 : vadd (fvec p) (vscale (Fin h) (vadd (vadd (vadd (vadd (vscale a6_0 (fvec k1r)) (vscale a6_1 (fvec k2r))) (vscale a6_2 (fvec k3r))) (vscale a6_3 (fvec k4r))) (vscale a6_4 (fvec k5r))))
                 = fvec (padd p (pscale h (lincomb [9017/3168; -355/33; 46732/5247; 49/176; -5103/18656] [k1r; k2r; k3r; k4r; k5r])))).
    { unfold vadd, vscale, a6_0, a6_1, a6_2, a6_3, a6_4, fvec, padd, pscale, lincomb. cbn. apply f_equal2; apply (f_equal Fin); ring. }
    rewrite S2 in E2. rewrite S3 in E3. rewrite S4 in E4. rewrite S5 in E5. rewrite S6 in E6.
    set (ks := [k1r; k2r; k3r; k4r; k5r; k6r; k7r]).
    exists ks. split; [split; [reflexivity|]|].
    + intros i Hi. destruct i as [|[|[|[|[|[|[|i]]]]]]]; [| | | | | | |lia]; cbn [nth dp_a firstn ks].
      * rewrite <- E1. do 2 f_equal. destruct p. unfold padd, pscale, lincomb. cbn. f_equal; ring.
      * exact E2.
      * exact E3.
      * exact E4.
      * exact E5.
      * exact E6.
      * rewrite <- E7, EQQ. do 3 f_equal. unfold ks, lincomb, dp_b, padd, pscale. cbn. f_equal; ring.
    + split; [exact EQQ|]. split; [|exact Hbd]. unfold ks. now rewrite <- SE.
  - exists k1r, k2, k3r, k4r, k5r, k6r, k7r. split; [exact E1|]. split; [|split; [exact W|]].
    + rewrite <- E2. reflexivity.
    + split; [exact E7|]. split; [apply EQQ|]. split; [now rewrite <- SE|]. exact Hbd.
Qed.

(** ** The step-size control *)
Definition eps_R : R := 1 / 4503599627370496.
Lemma eps_pos : 0 < eps_R.
Proof. unfold eps_R. lra. Qed.
Lemma eps_fin : (eps : xr) = Fin eps_R.
Proof. reflexivity. Qed.

Definition root5 (x : R) : R := exp (ln x / 5).
Lemma root5_pos x : 0 < root5 x.
Proof. apply exp_pos. Qed.
Lemma root5_fin x : 0 < x -> xroot5 (Fin x) = Fin (root5 x).
Proof. intros H. cbn. destruct (Rltb_spec x 0); [lra|]. destruct (Reqb_spec x 0); [lra|]. reflexivity. Qed.

Definition factor (tol maxstep e d : R) : R := 9 / 10 * Rmin (Rmin (root5 (tol / (e + eps_R))) (maxstep / (d + eps_R))) 10.

Lemma pymin_fin a b : pymin (Fin a) (Fin b) = Fin (Rmin a b).
Proof.
  unfold pymin. cbn. destruct (Rltb_spec b a); [now rewrite Rmin_right by lra|now rewrite Rmin_left by lra].
Qed.

Lemma next_dt_fin tol maxstep e d h : 0 < tol -> 0 < maxstep -> 0 <= e -> 0 <= d ->
  next_dt (Fin tol) (Fin maxstep) (Fin e) (Fin d) (Fin h) = Fin (factor tol maxstep e d * h).
Proof.
  intros Ht Hm He Hd. pose proof eps_pos. unfold next_dt. rewrite eps_fin. cbn [nadd ndiv nroot5 nlit nmul nZ XR xadd].
  rewrite !div_fin by lra. rewrite root5_fin by (apply Rdiv_lt_0_compat; lra). rewrite !pymin_fin. cbn. reflexivity.
Qed.

(** A quantity that is NaN or not negative. *)
Definition size (v : xr) : Prop := match v with Fin a => 0 <= a | PInf | NaN => True | NInf => False end.

Lemma norm_inf_size v : size (norm_inf v).
Proof.
  unfold norm_inf, npmax. destruct v as [a b]. cbn. destruct a, b; cbn; auto; try apply Rabs_pos.
  destruct (Rltb _ _); apply Rabs_pos.
Qed.
Lemma norm2_size v : size (norm2 v).
Proof.
  unfold norm2. cbn. destruct (xadd _ _); cbn; auto. destruct (Rltb r 0); cbn; auto. apply sqrt_pos.
Qed.

Lemma next_dt_cases tol maxstep est ds dt : below 0 tol -> below 0 maxstep -> size est -> size ds ->
  next_dt tol maxstep est ds dt = xmul NaN dt \/ exists c, 0 <= c /\ next_dt tol maxstep est ds dt = xmul (Fin c) dt.
Proof.
  intros Ht Hm He Hd. unfold next_dt. rewrite eps_fin. pose proof eps_pos as HP. cbn [nadd ndiv nroot5 nlit nmul nZ XR].
  assert (A : size (xroot5 (xdiv tol (xadd est (Fin eps_R))))).
  { destruct tol as [t| | |]; cbn in Ht; try contradiction; destruct est as [e| | |]; cbn in He; try contradiction; cbn [xadd].
    - rewrite div_fin by lra. rewrite root5_fin by (apply Rdiv_lt_0_compat; lra). cbn. left. apply root5_pos.
    - cbn. destruct (Rltb_spec 0 0); [lra|]. destruct (Reqb_spec 0 0); [cbn; lra|lra].
    - exact I.
    - cbn. destruct (Rltb_spec (e + eps_R) 0); [lra|]. exact I.
    - exact I.
    - exact I. }
  assert (B : size (xdiv maxstep (xadd ds (Fin eps_R)))).
  { destruct maxstep as [t| | |]; cbn in Hm; try contradiction; destruct ds as [e| | |]; cbn in Hd; try contradiction; cbn [xadd].
    - rewrite div_fin by lra. cbn. left. apply Rdiv_lt_0_compat; lra.
    - cbn. lra.
    - exact I.
    - cbn. destruct (Rltb_spec (e + eps_R) 0); [lra|]. exact I.
    - exact I.
    - exact I. }
  set (a := xroot5 _) in *. set (b := xdiv maxstep _) in *.
  assert (M : pymin (pymin a b) (Fin 10) = NaN \/ exists c, 0 <= c /\ pymin (pymin a b) (Fin 10) = Fin c).
  { unfold pymin. cbn [nlt XR]. destruct a as [a'| | |], b as [b'| | |]; cbn in A, B; try contradiction; cbn [xlt]; auto;
    repeat match goal with |- context [Rltb ?x ?y] => destruct (Rltb_spec x y); cbn [xlt] end; auto; right;
    (eexists; split; [|reflexivity]; lra). }
  destruct M as [->|(c & Hc & ->)]; [left; reflexivity|right].
  exists (9 / 10 * c). split; [lra|]. reflexivity.
Qed.

(** ** Timed paths *)
Section Timed.
  Variables (f : vec xr -> res (vec xr)) (tol maxstep : xr) (D : R) (start : pt).

  Inductive timed : list pt -> list R -> pt -> R -> Prop :=
  | timed_start : timed [start] [0] start 0
  | timed_step l ts p t h q : timed l ts p t ->
      good_step f tol maxstep p h q \/ wild_step f tol maxstep p h q ->
      below (pdist p q) maxstep -> 0 < h * D -> Rabs (t + h) <= Rabs D ->
      timed (l ++ [q]) (ts ++ [t + h]) q (t + h).

  Lemma timed_dir l ts p t : timed l ts p t -> 0 <= t * D /\ Rabs t <= Rabs D.
  Proof.
    induction 1 as [|l ts p t h q H IH G B Hh Ha].
    - rewrite Rabs_R0, Rmult_0_l. split; [lra|apply Rabs_pos].
    - destruct IH. split; [lra|exact Ha].
  Qed.

  Definition dt_ok (dt : xr) : Prop := dt = NaN \/ exists d, dt = Fin d /\ 0 <= d * D.

  Lemma nabs_lt a b : nlt (nabs (Fin a)) (nabs (Fin b)) = true <-> Rabs a < Rabs b.
  Proof. cbn. apply Rltb_true. Qed.

  Hypothesis Htol : below 0 tol.
  Hypothesis Hmax : below 0 maxstep.

  Lemma below_nlt a b : below a b <-> nlt (Fin a) b = true.
  Proof. destruct b; cbn; try tauto; try (split; [tauto|discriminate]). symmetry. apply Rltb_true. Qed.

  Lemma lincomb_same b k : lincomb b (repeat k (length b)) = pscale (fold_right Rplus 0 b) k.
  Proof.
    unfold lincomb. induction b as [|x b IH]; cbn; [unfold pscale; f_equal; ring|]. rewrite IH. unfold padd, pscale. cbn. f_equal; ring.
  Qed.

  (** A trial step of size 0. *)
  Lemma dp_step_zero p k : f (fvec p) = Ok (fvec k) -> dp_step f (fvec p) (Fin 0) (fvec k) = Ok (fvec p, fvec k, Fin 0, Fin 0).
  Proof.
    intros E. assert (Z : forall r, padd p (pscale 0 r) = p) by (intros; destruct p; unfold padd, pscale; cbn; f_equal; ring).
    pose proof (dp_step_finite f p 0 k k k k k k k) as H. cbv zeta in H. rewrite !Z in H. rewrite H by exact E.
    do 2 f_equal.
    - do 2 f_equal. unfold padd, pscale, pmax. cbn [fst snd]. rewrite !Rmult_0_l, Ropp_0, !Rmult_0_l, Rplus_0_l, Rabs_R0. apply Rmax_left. lra.
    - f_equal. unfold pdist. replace ((fst p - fst p) * (fst p - fst p) + (snd p - snd p) * (snd p - snd p)) with 0 by ring. apply sqrt_0.
  Qed.

  Lemma next_dt_zero : next_dt tol maxstep (Fin 0) (Fin 0) (Fin 0) = Fin 0 \/ next_dt tol maxstep (Fin 0) (Fin 0) (Fin 0) = NaN.
  Proof.
    destruct (next_dt_cases tol maxstep (Fin 0) (Fin 0) (Fin 0) Htol Hmax) as [E|(c & Hc & E)]; try (cbn; lra); rewrite E; [right; reflexivity|left].
    cbn. f_equal. ring.
  Qed.

  Lemma next_dt_zero' : next_dt tol maxstep (Fin 0) (Fin 0) (Fin 0) = Fin 0.
  Proof.
    unfold next_dt. rewrite eps_fin. pose proof eps_pos as HP. cbn [nadd ndiv nroot5 nlit nmul nZ XR xadd]. rewrite Rplus_0_l.
    destruct tol as [t| | |]; cbn in Htol; try contradiction; destruct maxstep as [s| | |]; cbn in Hmax; try contradiction.
    - rewrite !div_fin by lra. rewrite root5_fin by (apply Rdiv_lt_0_compat; lra). rewrite !pymin_fin. cbn. f_equal. ring.
    - rewrite !div_fin by lra. rewrite root5_fin by (apply Rdiv_lt_0_compat; lra).
      cbn [xdiv]. rewrite (proj2 (Rltb_false eps_R 0)) by lra. unfold pymin at 2. cbn [nlt XR xlt]. rewrite pymin_fin. cbn. f_equal. ring.
    - rewrite !div_fin by lra. cbn [xdiv]. rewrite (proj2 (Rltb_false eps_R 0)) by lra. cbn [xroot5].
      unfold pymin at 2. cbn [nlt XR xlt]. rewrite pymin_fin. cbn. f_equal. ring.
    - cbn [xdiv]. rewrite (proj2 (Rltb_false eps_R 0)) by lra. cbn [xroot5]. unfold pymin. cbn. f_equal. ring.
  Qed.

  (** Once the step size is 0 the loop never ends. *)
  Lemma zero_step_loops n : forall t p k acc, f (fvec p) = Ok (fvec k) -> Rabs t < Rabs D ->
    trace_loop n f (Fin D) tol maxstep (Fin t) (Fin 0) (fvec p) (fvec k) acc = NoFuel.
  Proof.
    induction n as [|n IH]; intros t p k acc E Ht; [reflexivity|]. cbn [trace_loop].
    rewrite (proj2 (nabs_lt t D) Ht). cbn [nadd XR xadd]. rewrite Rplus_0_r.
    destruct (nlt (nabs (Fin D)) (nabs (Fin t))) eqn:C.
    { apply nabs_lt in C. lra. }
    rewrite dp_step_zero by exact E.
    rewrite (proj1 (below_nlt 0 tol) Htol), (proj1 (below_nlt 0 maxstep) Hmax). cbn [andb].
    rewrite next_dt_zero'. apply IH; [exact E|]. now rewrite Rplus_0_r.
  Qed.

  Lemma trace_loop_timed n : forall t dt p k1 l ts tr,
    trace_loop n f (Fin D) tol maxstep (Fin t) dt (fvec p) k1 (map fvec l) = Ok tr ->
    f (fvec p) = Ok k1 -> dt_ok dt -> timed l ts p t ->
    exists l' ts' p' t', vertices tr = map fvec l' /\ t_end tr = Fin t' /\ timed l' ts' p' t' /\ (completed tr = true -> t' = D).
  Proof.
    induction n as [|n IH]; intros t dt p k1 l ts tr H Ek Hdt Hp; [discriminate|]. cbn [trace_loop] in H.
    destruct (timed_dir _ _ _ _ Hp) as [Hdir Habs].
    destruct (nlt (nabs (Fin t)) (nabs (Fin D))) eqn:C.
    2:{ injection H as <-. exists l, ts, p, t. cbn [vertices t_end completed]. repeat split; auto. intros _.
        assert (~ Rabs t < Rabs D) by (intros X; apply nabs_lt in X; congruence).
        assert (E : Rabs t = Rabs D) by lra. unfold Rabs in E. destruct (Rcase_abs t), (Rcase_abs D); try lra; nra. }
    apply nabs_lt in C.
    set (dt1 := if nlt (nabs (Fin D)) (nabs (nadd (Fin t) dt)) then nsub (Fin D) (Fin t) else dt) in *.
    assert (H1 : dt_ok dt1 /\ forall d, dt1 = Fin d -> Rabs (t + d) <= Rabs D).
    { unfold dt1. destruct (nlt (nabs (Fin D)) (nabs (nadd (Fin t) dt))) eqn:Cl.
      - cbn [nsub XR xsub]. split.
        + right. exists (D - t). split; [reflexivity|]. unfold Rabs in *. destruct (Rcase_abs t), (Rcase_abs D); nra.
        + intros d [= <-]. replace (t + (D - t)) with D by ring. lra.
      - split; [exact Hdt|]. intros d ->. cbn [nadd XR xadd] in Cl.
        destruct (Rle_lt_dec (Rabs (t + d)) (Rabs D)) as [L|L]; [exact L|]. apply nabs_lt in L. congruence. }
    clearbody dt1. clear Hdt dt. destruct H1 as [Hdt Hle].
    destruct (dp_step f (fvec p) dt1 k1) as [[[[xyt k7] est] ds]|e|] eqn:E; [| |discriminate].
    2:{ injection H as <-. exists l, ts, p, t. cbn [vertices t_end completed]. repeat split; auto. discriminate. }
    assert (SE : size est /\ size ds).
    { unfold dp_step in E. apply bind_ok in E. destruct E as (? & _ & E). apply bind_ok in E. destruct E as (? & _ & E).
      apply bind_ok in E. destruct E as (? & _ & E). apply bind_ok in E. destruct E as (? & _ & E).
      apply bind_ok in E. destruct E as (? & _ & E). apply bind_ok in E. destruct E as (? & _ & E).
      match type of E with Ok (_, _, ?A, ?B) = _ =>
        assert (size A) by apply norm_inf_size; assert (size B) by apply norm2_size; remember A as ax eqn:Ea; remember B as bx eqn:Eb end.
      clear Ea Eb. injection E as _ _ <- <-. auto. }
    assert (Hdt' : dt_ok (next_dt tol maxstep est ds dt1)).
    { destruct (next_dt_cases tol maxstep est ds dt1 Htol Hmax (proj1 SE) (proj2 SE)) as [->|(c & Hc & ->)].
      - left. reflexivity.
      - destruct Hdt as [->|(d & -> & Hd)]; [left; reflexivity|right]. exists (c * d). split; [reflexivity|]. nra. }
    destruct (nlt est tol && nlt ds maxstep) eqn:A.
    - apply andb_prop in A. destruct A as [A1 A2].
      destruct (dp_step_accept f p dt1 k1 xyt k7 est ds tol maxstep Ek E A1 A2) as (h & q & -> & -> & Eq & _ & Eds & Hk1 & Hk7 & G).
      destruct Hdt as [Hd|(d & Hd & Hdd)]; [discriminate|]. injection Hd as <-.
      assert (Hpos : 0 < h * D).
      { destruct (Rle_lt_or_eq_dec 0 (h * D) Hdd) as [L|Z]; [exact L|exfalso].
        assert (h = 0). { symmetry in Z. apply Rmult_integral in Z. destruct Z as [Z|Z]; [exact Z|]. rewrite Z, Rabs_R0 in C. pose proof (Rabs_pos t). lra. }
        subst h. destruct Hk1 as (k & ->). rewrite dp_step_zero in E by exact Ek. 
        assert (X : fvec q = fvec p /\ k7 = fvec k /\ est = Fin 0 /\ ds = Fin 0).
        { remember (fvec q) as fq. remember (fvec p) as fp. injection E as <- <- <- <-. auto. }
        destruct X as (X1 & -> & -> & ->). rewrite X1 in H. rewrite next_dt_zero' in H. cbn [nadd XR xadd] in H.
        rewrite zero_step_loops in H; [discriminate|exact Ek|]. rewrite Rplus_0_r. exact C. }
      change (map fvec l ++ [fvec q]) with (map fvec l ++ map fvec [q]) in H. rewrite <- map_app in H.
      cbn [nadd XR xadd] in H.
      apply (IH _ _ q _ _ (ts ++ [t + h])) in H; auto.
      apply timed_step with (p := p); auto. rewrite Eds in A2. now apply below_nlt.
    - apply (IH _ _ p _ _ ts) in H; auto.
  Qed.
End Timed.
