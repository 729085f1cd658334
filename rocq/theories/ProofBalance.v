(** * The water balance of a circle *)
From Coq Require Import Reals Lra Lia Psatz List FunctionalExtensionality.
From Verif Require Import Py Num NumXR ModelAquifer SpecAquifer SpecBalance ProofPi ProofAquifer.
Import ListNotations.
Local Open Scope R_scope.

Lemma primitive f F a b : a <= b -> (forall t, derivable_pt_lim F t (f t)) -> continuity f -> integral f a b (F b - F a).
Proof.
  intros Hab HF Hf.
  pose (d := fun t => exist (fun l => derivable_pt_abs F t l) (f t) (HF t) : derivable_pt F t).
  assert (E : derive F d = f) by (apply functional_extensionality; intros t; reflexivity).
  assert (C : continuity (derive F d)) by (rewrite E; exact Hf).
  pose (G := {| c1 := F; diff0 := d; cont1 := C |}).
  assert (I : Riemann_integrable f a b) by (apply continuity_implies_RiemannInt; [exact Hab|intros; apply Hf]).
  exists I. revert I. rewrite <- E. intros I. exact (FTC_Riemann G I).
Qed.

(** ** One well, seen from the centre of the circle at [(u, v)] *)
Section OneWell.
  Variables u v r : R.
  Hypothesis Hr : 0 < r.
  Definition pp t := u * cos t + v * sin t.
  Definition nn t := u * sin t - v * cos t.
  Lemma d_pp t : derivable_pt_lim pp t (- nn t).
  Proof.
    unfold pp, nn. replace (- (u * sin t - v * cos t)) with (u * - sin t + v * cos t) by ring.
    apply (derivable_pt_lim_plus (fun t => u * cos t) (fun t => v * sin t)).
    - apply (derivable_pt_lim_scal cos). apply derivable_pt_lim_cos.
    - apply (derivable_pt_lim_scal sin). apply derivable_pt_lim_sin.
  Qed.
  Lemma d_nn t : derivable_pt_lim nn t (pp t).
  Proof.
    unfold pp, nn. replace (u * cos t + v * sin t) with (u * cos t - v * - sin t) by ring.
    apply (derivable_pt_lim_minus (fun t => u * sin t) (fun t => v * cos t)).
    - apply (derivable_pt_lim_scal sin). apply derivable_pt_lim_sin.
    - apply (derivable_pt_lim_scal cos). apply derivable_pt_lim_cos.
  Qed.
  Lemma pp_nn t : pp t * pp t + nn t * nn t = u * u + v * v.
  Proof. unfold pp, nn. pose proof (sin2_cos2 t) as H. unfold Rsqr in H. nra. Qed.
  Definition den t := r * r + (u * u + v * v) - 2 * r * pp t.
  Lemma den_eq t : den t = (r * cos t - u) * (r * cos t - u) + (r * sin t - v) * (r * sin t - v).
  Proof. unfold den, pp. pose proof (sin2_cos2 t) as H. unfold Rsqr in H. nra. Qed.
  Hypothesis Hd : u * u + v * v <> r * r.
  Lemma den_pos t : 0 < den t.
  Proof.
    unfold den. pose proof (pp_nn t) as H. set (p := pp t) in *. set (n := nn t) in *. clearbody p n.
    pose proof (Rle_0_sqr (r - p)) as A. unfold Rsqr in A. destruct (Req_dec n 0) as [E|E].
    - rewrite E in H. assert (p <> r) by (intros ->; apply Hd; nra). pose proof (Rsqr_pos_lt (r - p) ltac:(lra)) as B. unfold Rsqr in B. lra.
    - pose proof (Rsqr_pos_lt n E) as B. unfold Rsqr in B. lra.
  Qed.
  Definition flux t := (r * r - r * pp t) / den t.
  Lemma c_pp : continuity pp.
  Proof. intros t. apply derivable_continuous_pt. exists (- nn t). apply d_pp. Qed.
  Lemma c_nn : continuity nn.
  Proof. intros t. apply derivable_continuous_pt. exists (pp t). apply d_nn. Qed.
  Lemma c_den : continuity den.
  Proof.
    unfold den. apply (continuity_minus (fun _ => r * r + (u * u + v * v)) (fun t => 2 * r * pp t)); [apply continuity_const; intros ? ?; reflexivity|].
    apply (continuity_scal pp (2 * r)), c_pp.
  Qed.
  Lemma c_flux : continuity flux.
  Proof.
    unfold flux. apply (continuity_div (fun t => r * r - r * pp t) den); [|apply c_den|intros t; pose proof (den_pos t); lra].
    apply (continuity_minus (fun _ => r * r) (fun t => r * pp t)); [apply continuity_const; intros ? ?; reflexivity|]. apply (continuity_scal pp r), c_pp.
  Qed.

  Lemma d_atan_ratio (f g : R -> R) t f' g' : derivable_pt_lim f t f' -> derivable_pt_lim g t g' -> 0 < g t ->
    derivable_pt_lim (fun t => atan (f t / g t)) t ((f' * g t - g' * f t) / (f t * f t + g t * g t)).
  Proof.
    intros Hf Hg P. assert (Q : 0 < f t * f t + g t * g t) by nra.
    replace ((f' * g t - g' * f t) / (f t * f t + g t * g t)) with (/ (1 + (f t / g t) ^ 2) * ((f' * g t - g' * f t) / Rsqr (g t))).
    - apply (derivable_pt_lim_comp (fun t => f t / g t) atan t); [apply derivable_pt_lim_div; [exact Hf|exact Hg|lra]|]. apply derivable_pt_lim_atan.
    - unfold Rsqr. field. repeat split; lra || (intros E; nra).
  Qed.

  Lemma d_inner t : u * u + v * v < r * r -> derivable_pt_lim (fun t => t + atan (nn t / (r - pp t))) t (flux t).
  Proof.
    intros L. pose proof (pp_nn t) as H. pose proof (den_pos t) as D.
    assert (P : 0 < r - pp t) by nra.
    replace (flux t) with (1 + (pp t * (r - pp t) - (0 - - nn t) * nn t) / (nn t * nn t + (r - pp t) * (r - pp t))).
    - apply (derivable_pt_lim_plus (fun t => t) (fun t => atan (nn t / (r - pp t)))); [apply derivable_pt_lim_id|].
      apply (d_atan_ratio nn (fun t => r - pp t)); [apply d_nn| |exact P].
      apply (derivable_pt_lim_minus (fun _ => r) pp); [apply derivable_pt_lim_const|apply d_pp].
    - unfold flux. replace (nn t * nn t + (r - pp t) * (r - pp t)) with (den t) by (unfold den; nra).
      apply Rmult_eq_reg_r with (den t); [|lra]. unfold Rdiv. rewrite Rmult_plus_distr_r, !Rmult_assoc, Rinv_l by lra. unfold den. nra.
  Qed.

  Lemma d_outer t : r * r < u * u + v * v -> derivable_pt_lim (fun t => - atan (r * nn t / (u * u + v * v - r * pp t))) t (flux t).
  Proof.
    intros L. pose proof (pp_nn t) as H. pose proof (den_pos t) as D. set (d2 := u * u + v * v) in *.
    assert (P : 0 < d2 - r * pp t).
    { destruct (Rle_lt_dec (pp t) 0); [nra|]. assert (r * pp t * (r * pp t) < d2 * d2) by (assert (pp t * pp t <= d2) by nra; nra). assert (0 < d2) by nra. nra. }
    replace (flux t) with (- ((r * pp t * (d2 - r * pp t) - (0 - r * - nn t) * (r * nn t)) / (r * nn t * (r * nn t) + (d2 - r * pp t) * (d2 - r * pp t)))).
    - apply (derivable_pt_lim_opp (fun t => atan (r * nn t / (d2 - r * pp t)))).
      apply (d_atan_ratio (fun t => r * nn t) (fun t => d2 - r * pp t)); [apply (derivable_pt_lim_scal nn), d_nn| |exact P].
      apply (derivable_pt_lim_minus (fun _ => d2) (fun t => r * pp t)); [apply derivable_pt_lim_const|apply (derivable_pt_lim_scal pp), d_pp].
    - unfold flux. replace (r * nn t * (r * nn t) + (d2 - r * pp t) * (d2 - r * pp t)) with (d2 * den t) by (unfold den; fold d2; nra).
      replace (r * pp t * (d2 - r * pp t) - (0 - r * - nn t) * (r * nn t)) with (d2 * (r * pp t - r * r)) by nra.
      assert (0 < d2) by nra. field. split; lra.
  Qed.

  Definition primflux (t : R) : R :=
    if Rlt_dec (u * u + v * v) (r * r) then t + atan (nn t / (r - pp t)) else - atan (r * nn t / (u * u + v * v - r * pp t)).
  Lemma d_primflux t : derivable_pt_lim primflux t (flux t).
  Proof. unfold primflux. destruct (Rlt_dec (u * u + v * v) (r * r)); [apply d_inner; assumption|apply d_outer; lra]. Qed.
  Lemma primflux_turn : primflux (2 * PI) - primflux 0 = if Rlt_dec (u * u + v * v) (r * r) then 2 * PI else 0.
  Proof.
    unfold primflux. assert (A : pp (2 * PI) = pp 0) by (unfold pp; rewrite cos_2PI, sin_2PI, cos_0, sin_0; reflexivity).
    assert (B : nn (2 * PI) = nn 0) by (unfold nn; rewrite cos_2PI, sin_2PI, cos_0, sin_0; reflexivity). rewrite A, B.
    destruct (Rlt_dec _ _); ring.
  Qed.

  (** The flow along the circle. *)
  Definition tang t := r * nn t / den t.
  Lemma c_tang : continuity tang.
  Proof.
    unfold tang. apply (continuity_div (fun t => r * nn t) den); [apply (continuity_scal nn r), c_nn|apply c_den|intros t; pose proof (den_pos t); lra].
  Qed.
  Lemma d_tang t : derivable_pt_lim (fun t => ln (den t) / 2) t (tang t).
  Proof.
    pose proof (den_pos t) as D. unfold tang.
    replace (r * nn t / den t) with (/ 2 * (/ den t * (0 - 2 * r * - nn t))) by (field; lra).
    replace (fun t => ln (den t) / 2) with (mult_real_fct (/ 2) (fun t => ln (den t))) by (apply functional_extensionality; intros x; unfold mult_real_fct; field).
    apply derivable_pt_lim_scal. apply (derivable_pt_lim_comp den ln t); [|apply derivable_pt_lim_ln, D].
    unfold den. apply (derivable_pt_lim_minus (fun _ => r * r + (u * u + v * v)) (fun t => 2 * r * pp t)); [apply derivable_pt_lim_const|apply (derivable_pt_lim_scal pp), d_pp].
  Qed.
  Lemma den_turn : den (2 * PI) = den 0.
  Proof. unfold den, pp. rewrite cos_2PI, sin_2PI, cos_0, sin_0. reflexivity. Qed.
End OneWell.

Lemma off_circle_wells ws a b r t : off_circle ws a b r -> off_wells ws (a + r * cos t) (b + r * sin t).
Proof.
  intros H w Hw (E1 & E2). apply (H w Hw). unfold wdist2. rewrite <- E1, <- E2. pose proof (sin2_cos2 t) as S. unfold Rsqr in S. nra.
Qed.

Lemma d_Rsum {A} (F f : A -> R -> R) (l : list A) t : (forall w, In w l -> derivable_pt_lim (F w) t (f w t)) -> derivable_pt_lim (fun t => Rsum (fun w => F w t) l) t (Rsum (fun w => f w t) l).
Proof.
  induction l as [|w l IH]; intros H; cbn [Rsum fold_right].
  - apply derivable_pt_lim_const.
  - apply (derivable_pt_lim_plus (F w) (fun t => Rsum (fun w => F w t) l)); [apply H; now left|]. apply IH. intros w' Hw. apply H. now right.
Qed.
Lemma c_Rsum {A} (f : A -> R -> R) (l : list A) : (forall w, In w l -> continuity (f w)) -> continuity (fun t => Rsum (fun w => f w t) l).
Proof.
  induction l as [|w l IH]; intros H; cbn [Rsum fold_right].
  - apply continuity_const. intros ? ?. reflexivity.
  - apply (continuity_plus (f w) (fun t => Rsum (fun w => f w t) l)); [apply H; now left|]. apply IH. intros w' Hw. apply H. now right.
Qed.
Lemma Rsum_ext {A} (f g : A -> R) l : (forall w, In w l -> f w = g w) -> Rsum f l = Rsum g l.
Proof. induction l as [|w l IH]; intros H; cbn [Rsum fold_right]; [reflexivity|]. f_equal; [apply H; now left|]. apply IH. intros w' Hw. apply H. now right. Qed.
Lemma Rsum_scal {A} (f : A -> R) k l : Rsum (fun w => k * f w) l = k * Rsum f l.
Proof. induction l as [|w l IH]; cbn [Rsum fold_right]; [ring|]. fold (Rsum (fun w => k * f w) l). fold (Rsum f l). rewrite IH. ring. Qed.
Lemma Rsum_minus {A} (f g : A -> R) l : Rsum f l - Rsum g l = Rsum (fun w => f w - g w) l.
Proof. induction l as [|w l IH]; cbn [Rsum fold_right]; [ring|]. fold (Rsum f l). fold (Rsum g l). fold (Rsum (fun w => f w - g w) l). rewrite <- IH. ring. Qed.
Lemma Rsum_filter {A} (f : A -> R) (p : A -> bool) l : Rsum (fun w => if p w then f w else 0) l = Rsum f (filter p l).
Proof.
  induction l as [|w l IH]; [reflexivity|]. cbn [filter]. change (Rsum (fun w => if p w then f w else 0) (w :: l)) with ((if p w then f w else 0) + Rsum (fun w => if p w then f w else 0) l). rewrite IH.
  destruct (p w); [reflexivity|ring].
Qed.

Section Circle.
  Variables (m : model R) (a b r : R).
  Hypothesis Hr : 0 < r.
  Hypothesis Ho : off_circle (wells m) a b r.
  Let c := coef m.
  Let al := 2 * cA c * (a - xo m) + cC c * (b - yo m) + cD c.
  Let be := 2 * cB c * (b - yo m) + cC c * (a - xo m) + cE c.

  Lemma well_off w : In w (wells m) -> (wx w - a) * (wx w - a) + (wy w - b) * (wy w - b) <> r * r.
  Proof. intros Hw E. apply (Ho w Hw). rewrite <- E. unfold wdist2. ring. Qed.

  Lemma wdist_den w t : wdist2 w (a + r * cos t) (b + r * sin t) = den (wx w - a) (wy w - b) r t.
  Proof. rewrite den_eq. unfold wdist2. ring. Qed.

  Lemma inward_eq t : inward m a b r t =
    r * (al * cos t + be * sin t) + r * r * (2 * cA c * (cos t * cos t) + 2 * cB c * (sin t * sin t) + 2 * cC c * (sin t * cos t))
    + 2 * kappa * Rsum (fun w => wq w * flux (wx w - a) (wy w - b) r t) (wells m).
  Proof.
    unfold inward, discharge_x, discharge_y. rewrite compute_discharge_eq by (apply off_circle_wells, Ho). cbn [fst snd Rval]. fold c.
    replace (Rsum (fun w => wq w * flux (wx w - a) (wy w - b) r t) (wells m)) with
      (Rsum (fun w => - (r * cos t) * wqx w (a + r * cos t) (b + r * sin t) - r * sin t * wqy w (a + r * cos t) (b + r * sin t)) (wells m)).
    - rewrite <- Rsum_minus, !Rsum_scal. unfold al, be. ring.
    - apply Rsum_ext. intros w Hw. unfold wqx, wqy. rewrite wdist_den. unfold flux. pose proof (den_pos _ _ _ (well_off w Hw) t) as D.
      set (d := den _ _ _ _) in *. apply Rmult_eq_reg_r with d; [|lra]. unfold Rdiv. rewrite Rmult_minus_distr_r, !Rmult_assoc, Rinv_l by lra. unfold pp.
      pose proof (sin2_cos2 t) as S. unfold Rsqr in S. replace (r * r) with (r * r * (sin t * sin t + cos t * cos t)) by (rewrite S; ring). ring.
  Qed.
  Lemma along_eq t : along m a b r t =
    - r * (be * cos t - al * sin t) - r * r * (2 * (cB c - cA c) * (sin t * cos t) + cC c * (cos t * cos t - sin t * sin t))
    - 2 * kappa * Rsum (fun w => wq w * tang (wx w - a) (wy w - b) r t) (wells m).
  Proof.
    unfold along, discharge_x, discharge_y. rewrite compute_discharge_eq by (apply off_circle_wells, Ho). cbn [fst snd Rval]. fold c.
    replace (Rsum (fun w => wq w * tang (wx w - a) (wy w - b) r t) (wells m)) with
      (Rsum (fun w => (r * sin t) * wqx w (a + r * cos t) (b + r * sin t) - r * cos t * wqy w (a + r * cos t) (b + r * sin t)) (wells m)).
    - rewrite <- Rsum_minus, !Rsum_scal. unfold al, be. ring.
    - apply Rsum_ext. intros w Hw. unfold wqx, wqy. rewrite wdist_den. unfold tang. pose proof (den_pos _ _ _ (well_off w Hw) t) as D.
      set (d := den _ _ _ _) in *. apply Rmult_eq_reg_r with d; [|lra]. unfold Rdiv. rewrite Rmult_minus_distr_r, !Rmult_assoc, Rinv_l by lra. unfold nn. ring.
  Qed.

  Definition prim_in (t : R) : R :=
    r * (al * sin t - be * cos t) + r * r * (cA c * (t + sin t * cos t) + cB c * (t - sin t * cos t) + cC c * (sin t * sin t))
    + 2 * kappa * Rsum (fun w => wq w * primflux (wx w - a) (wy w - b) r t) (wells m).
  Definition prim_along (t : R) : R :=
    - r * (be * sin t + al * cos t) - r * r * ((cB c - cA c) * (sin t * sin t) + cC c * (sin t * cos t))
    - 2 * kappa * Rsum (fun w => wq w * (ln (den (wx w - a) (wy w - b) r t) / 2)) (wells m).

  Lemma c_sum_in : continuity (fun t => 2 * kappa * Rsum (fun w => wq w * flux (wx w - a) (wy w - b) r t) (wells m)).
  Proof.
    apply (continuity_scal (fun t => Rsum (fun w => wq w * flux (wx w - a) (wy w - b) r t) (wells m))). apply (c_Rsum (fun w t => wq w * flux (wx w - a) (wy w - b) r t)).
    intros w Hw. apply (continuity_scal (flux (wx w - a) (wy w - b) r)). apply c_flux. apply well_off, Hw.
  Qed.
  Lemma c_sum_along : continuity (fun t => 2 * kappa * Rsum (fun w => wq w * tang (wx w - a) (wy w - b) r t) (wells m)).
  Proof.
    apply (continuity_scal (fun t => Rsum (fun w => wq w * tang (wx w - a) (wy w - b) r t) (wells m))). apply (c_Rsum (fun w t => wq w * tang (wx w - a) (wy w - b) r t)).
    intros w Hw. apply (continuity_scal (tang (wx w - a) (wy w - b) r)). apply c_tang. apply well_off, Hw.
  Qed.
  Lemma d_sum_in t : derivable_pt_lim (fun t => 2 * kappa * Rsum (fun w => wq w * primflux (wx w - a) (wy w - b) r t) (wells m)) t
    (2 * kappa * Rsum (fun w => wq w * flux (wx w - a) (wy w - b) r t) (wells m)).
  Proof.
    apply (derivable_pt_lim_scal (fun t => Rsum (fun w => wq w * primflux (wx w - a) (wy w - b) r t) (wells m))).
    apply (d_Rsum (fun w t => wq w * primflux (wx w - a) (wy w - b) r t) (fun w t => wq w * flux (wx w - a) (wy w - b) r t)).
    intros w Hw. apply (derivable_pt_lim_scal (primflux (wx w - a) (wy w - b) r)). apply d_primflux; [exact Hr|apply well_off, Hw].
  Qed.
  Lemma d_sum_along t : derivable_pt_lim (fun t => 2 * kappa * Rsum (fun w => wq w * (ln (den (wx w - a) (wy w - b) r t) / 2)) (wells m)) t
    (2 * kappa * Rsum (fun w => wq w * tang (wx w - a) (wy w - b) r t) (wells m)).
  Proof.
    apply (derivable_pt_lim_scal (fun t => Rsum (fun w => wq w * (ln (den (wx w - a) (wy w - b) r t) / 2)) (wells m))).
    apply (d_Rsum (fun w t => wq w * (ln (den (wx w - a) (wy w - b) r t) / 2)) (fun w t => wq w * tang (wx w - a) (wy w - b) r t)).
    intros w Hw. apply (derivable_pt_lim_scal (fun t => ln (den (wx w - a) (wy w - b) r t) / 2)). apply d_tang. apply well_off, Hw.
  Qed.

  Lemma c_inward : continuity (inward m a b r).
  Proof.
    replace (inward m a b r) with (fun t => (r * (al * cos t + be * sin t) + r * r * (2 * cA c * (cos t * cos t) + 2 * cB c * (sin t * sin t) + 2 * cC c * (sin t * cos t)))
      + 2 * kappa * Rsum (fun w => wq w * flux (wx w - a) (wy w - b) r t) (wells m)) by (apply functional_extensionality; intros t; symmetry; apply inward_eq).
    apply (continuity_plus (fun t => r * (al * cos t + be * sin t) + r * r * (2 * cA c * (cos t * cos t) + 2 * cB c * (sin t * sin t) + 2 * cC c * (sin t * cos t))));
      [clearbody al be c; reg|exact c_sum_in].
  Qed.
  Lemma c_along : continuity (along m a b r).
  Proof.
    replace (along m a b r) with (fun t => (- r * (be * cos t - al * sin t) - r * r * (2 * (cB c - cA c) * (sin t * cos t) + cC c * (cos t * cos t - sin t * sin t)))
      - 2 * kappa * Rsum (fun w => wq w * tang (wx w - a) (wy w - b) r t) (wells m)) by (apply functional_extensionality; intros t; symmetry; apply along_eq).
    apply (continuity_minus (fun t => - r * (be * cos t - al * sin t) - r * r * (2 * (cB c - cA c) * (sin t * cos t) + cC c * (cos t * cos t - sin t * sin t))));
      [clearbody al be c; reg|exact c_sum_along].
  Qed.
  Lemma d_in t : derivable_pt_lim prim_in t (inward m a b r t).
  Proof.
    rewrite inward_eq. unfold prim_in.
    apply (derivable_pt_lim_plus (fun t => r * (al * sin t - be * cos t) + r * r * (cA c * (t + sin t * cos t) + cB c * (t - sin t * cos t) + cC c * (sin t * sin t)))); [|apply d_sum_in].
    clearbody al be c. set (f := fun t => _).
    assert (pr : derivable_pt f t) by (unfold f; reg).
    replace (r * (al * cos t + be * sin t) + r * r * (2 * cA c * (cos t * cos t) + 2 * cB c * (sin t * sin t) + 2 * cC c * (sin t * cos t))) with (derive_pt f t pr).
    - apply derive_pt_eq_1 with pr. reflexivity.
    - unfold f. reg. pose proof (sin2_cos2 t) as S. unfold Rsqr in S.
      replace (sin t ^ 2) with (1 - cos t ^ 2) by lra. ring.
  Qed.
  Lemma d_along t : derivable_pt_lim prim_along t (along m a b r t).
  Proof.
    rewrite along_eq. unfold prim_along.
    apply (derivable_pt_lim_minus (fun t => - r * (be * sin t + al * cos t) - r * r * ((cB c - cA c) * (sin t * sin t) + cC c * (sin t * cos t)))); [|apply d_sum_along].
    clearbody al be c. set (f := fun t => _).
    assert (pr : derivable_pt f t) by (unfold f; reg).
    replace (- r * (be * cos t - al * sin t) - r * r * (2 * (cB c - cA c) * (sin t * cos t) + cC c * (cos t * cos t - sin t * sin t))) with (derive_pt f t pr).
    - apply derive_pt_eq_1 with pr. reflexivity.
    - unfold f. reg.
  Qed.

  Lemma in_turn : prim_in (2 * PI) - prim_in 0 = 2 * (cA c + cB c) * (PI * r ^ 2) + 2 * PI * (2 * kappa) * Rsum wq (filter (inside a b r) (wells m)).
  Proof.
    unfold prim_in. rewrite sin_2PI, cos_2PI, sin_0, cos_0.
    set (S1 := Rsum _ (wells m)). set (S0 := Rsum _ (wells m)). set (S := Rsum _ (filter _ _)).
    assert (E : S1 - S0 = 2 * PI * S).
    { unfold S1, S0, S. rewrite Rsum_minus, <- Rsum_filter, <- Rsum_scal. apply Rsum_ext. intros w Hw. rewrite <- Rmult_minus_distr_l, primflux_turn. unfold inside.
      replace (wdist2 w a b) with ((wx w - a) * (wx w - a) + (wy w - b) * (wy w - b)) by (unfold wdist2; ring). destruct (Rlt_dec _ _); ring. }
    replace S1 with (S0 + 2 * PI * S) by lra. ring.
  Qed.
  Lemma along_turn : prim_along (2 * PI) - prim_along 0 = 0.
  Proof.
    unfold prim_along. rewrite sin_2PI, cos_2PI, sin_0, cos_0.
    replace (Rsum (fun w => wq w * (ln (den (wx w - a) (wy w - b) r (2 * PI)) / 2)) (wells m)) with (Rsum (fun w => wq w * (ln (den (wx w - a) (wy w - b) r 0) / 2)) (wells m)); [ring|].
    apply Rsum_ext. intros w _. rewrite den_turn. reflexivity.
  Qed.
End Circle.

(** The water entering a circle is what the wells inside it pump, plus 2(A+B) times its area (the regional recharge, with its sign changed). *)
Lemma c94_balance : exists k, Rabs (k - 1) <= 13 / 10 ^ 17 /\ forall m a b r, 0 < r -> off_circle (wells m) a b r ->
  integral (inward m a b r) 0 (2 * PI) (k * Rsum wq (filter (inside a b r) (wells m)) + 2 * (cA (coef m) + cB (coef m)) * (PI * r ^ 2)).
Proof.
  exists (2 * PI * (2 * kappa)). split; [exact kappa_flux|]. intros m a b r Hr Ho. rewrite Rplus_comm, <- (in_turn m a b r).
  apply (primitive (inward m a b r) (prim_in m a b r)); [pose proof PI_RGT_0; lra|intros t; apply d_in; assumption|apply c_inward; assumption].
Qed.

(** Nothing circulates, not even around wells. *)
Lemma c94_circulation : forall m a b r, 0 < r -> off_circle (wells m) a b r -> integral (along m a b r) 0 (2 * PI) 0.
Proof.
  intros m a b r Hr Ho.
  assert (I : integral (along m a b r) 0 (2 * PI) (prim_along m a b r (2 * PI) - prim_along m a b r 0)).
  { apply primitive; [pose proof PI_RGT_0; lra|intros t; apply d_along; assumption|apply c_along; assumption]. }
  rewrite along_turn in I. exact I.
Qed.

(** The integral is one number. *)
Lemma integral_unique f a b v w : integral f a b v -> integral f a b w -> v = w.
Proof. intros (p & <-) (q & <-). apply RiemannInt_P5. Qed.

(** Two circles that hold the same wells, without recharge, take in the same water, wherever their centres. *)
Lemma c94_same_wells : forall m a b r a' b' r' v v', 0 < r -> 0 < r' -> off_circle (wells m) a b r -> off_circle (wells m) a' b' r' ->
  cA (coef m) + cB (coef m) = 0 -> (forall w, In w (wells m) -> inside a b r w = inside a' b' r' w) ->
  integral (inward m a b r) 0 (2 * PI) v -> integral (inward m a' b' r') 0 (2 * PI) v' -> v = v'.
Proof.
  intros m a b r a' b' r' v v' Hr Hr' Ho Ho' HA HI Iv Iv'. destruct c94_balance as (k & _ & B).
  rewrite (integral_unique _ _ _ _ _ Iv (B m a b r Hr Ho)), (integral_unique _ _ _ _ _ Iv' (B m a' b' r' Hr' Ho')), HA.
  replace (filter (inside a' b' r') (wells m)) with (filter (inside a b r) (wells m)) by (apply filter_ext_in; exact HI). ring.
Qed.

(** Two wells, one inside the unit circle about the origin and one outside, and recharge. *)
Lemma c94_example : let m := {| base := 0; conductivity := 1; porosity := 1 / 4; thickness := 10; wells := [{| wx := 1 / 2; wy := 0; wr := 1 / 10; wq := 3 |}; {| wx := 2; wy := 1; wr := 1 / 10; wq := 5 |}];
      xo := 0; yo := 0; coef := {| cA := -1; cB := -2; cC := 1; cD := 4; cE := 5; cF := 100 |} |} in
  off_circle (wells m) 0 0 1 /\ exists v, integral (inward m 0 0 1) 0 (2 * PI) v /\ Rabs (v - (3 - 6 * PI)) <= 39 / 10 ^ 17 /\ integral (along m 0 0 1) 0 (2 * PI) 0.
Proof.
  intros m. assert (O : off_circle (wells m) 0 0 1).
  { intros w [<-|[<-|[]]]; unfold wdist2; cbn [wx wy]; lra. }
  split; [exact O|]. destruct c94_balance as (k & K & B). eexists. split; [apply B; [lra|exact O]|]. split; [|apply c94_circulation; [lra|exact O]].
  replace (filter (inside 0 0 1) (wells m)) with [{| wx := 1 / 2; wy := 0; wr := 1 / 10; wq := 3 |}].
  - cbn [Rsum fold_right wq coef cA cB]. match goal with |- Rabs ?x <= _ => replace x with (3 * (k - 1)) by (subst m; cbn [coef cA cB]; ring) end. clear - K. rewrite Rabs_mult, (Rabs_pos_eq 3) by lra. lra.
  - unfold m. cbn [wells filter]. unfold inside, wdist2. cbn [wx wy]. destruct (Rlt_dec _ _) as [_|H]; [|exfalso; apply H; lra]. destruct (Rlt_dec _ _) as [H|_]; [exfalso; lra|]. reflexivity.
Qed.
