(** * Proofs about Model.compute_potential ... compute_velocity_confined *)
From Coq Require Import Reals Lra Lia Psatz Permutation.
From Verif Require Import Py Num NumXR ModelAquifer SpecAquifer ProofPi.
Local Open Scope R_scope.

Lemma k4pi_fin : (k4pi : xr) = Fin kappa.
Proof. reflexivity. Qed.
Lemma k2pi_fin : (k2pi : xr) = Fin (2 * kappa).
Proof. unfold k2pi, kappa. cbn. f_equal. lra. Qed.

Lemma wdist2_pos w x y : ~ (x = wx w /\ y = wy w) -> 0 < wdist2 w x y.
Proof.
  intros H. unfold wdist2.
  destruct (Req_dec (x - wx w) 0), (Req_dec (y - wy w) 0).
  - exfalso. apply H. split; lra.
  - nra.
  - nra.
  - nra.
Qed.

Lemma xlog_fin r : 0 < r -> xlog (Fin r) = Fin (ln r).
Proof. intros H. cbn. rb; try lra. reflexivity. Qed.

(** ** Potential *)
Definition wpot (w : well R) (x y : R) : R := wq w * ln (wdist2 w x y).

Lemma potential_wells_fin ws x y : off_wells ws x y -> forall a,
  fold_left (fun pot w =>
               let dx := nsub (Fin x) (wx w) in
               let dy := nsub (Fin y) (wy w) in
               let r2 := nadd (nmul dx dx) (nmul dy dy) in
               nadd pot (nmul (nmul (wq w) (nlog r2)) k4pi)) (map fwell ws) (Fin a)
  = Fin (a + kappa * Rsum (fun w => wpot w x y) ws).
Proof.
  induction ws as [|w ws IH]; intros Ho a.
  - cbn. f_equal. ring.
  - cbn [map fold_left Rsum fold_right]. fold (Rsum (fun w0 => wpot w0 x y) ws).
    assert (P : 0 < wdist2 w x y) by (apply wdist2_pos, Ho; now left).
    cbn [nsub nadd nmul nlog XR wx wy wq fwell xsub xmul xadd]. fold (wdist2 w x y).
    rewrite xlog_fin by exact P. rewrite k4pi_fin. cbn [xmul xadd].
    rewrite IH by (intros v Hv; apply Ho; now right). f_equal. unfold wpot. ring.
Qed.

Lemma potential_wells_eq ws x y : off_wells ws x y ->
  potential_wells (map fwell ws) (Fin x) (Fin y) = Fin (kappa * Rsum (fun w => wpot w x y) ws).
Proof.
  intros Ho. unfold potential_wells. cbn [nZ XR]. rewrite potential_wells_fin by exact Ho. f_equal. lra.
Qed.

Lemma potential_regional_eq c x0 y0 x y :
  potential_regional (fcoef c) (Fin x0) (Fin y0) (Fin x) (Fin y) = Fin (quad c (x - x0) (y - y0)).
Proof. unfold potential_regional, quad, nsq. cbn. f_equal. ring. Qed.

Lemma compute_potential_eq m x y : off_wells (wells m) x y ->
  compute_potential (fmodel m) (Fin x) (Fin y)
  = Fin (quad (coef m) (x - xo m) (y - yo m) + kappa * Rsum (fun w => wpot w x y) (wells m)).
Proof.
  intros Ho. unfold compute_potential. cbn [coef xo yo wells fmodel].
  rewrite potential_regional_eq, potential_wells_eq by exact Ho. reflexivity.
Qed.

Lemma potential_eq m x y : off_wells (wells m) x y ->
  potential m x y = quad (coef m) (x - xo m) (y - yo m) + kappa * Rsum (fun w => wpot w x y) (wells m).
Proof. intros Ho. unfold potential. now rewrite compute_potential_eq. Qed.

(** ** C20 *)
Lemma c20_superposition : exists k, Rabs (k - / (4 * PI)) <= / 10 ^ 17 /\
  forall m x y, off_wells (wells m) x y ->
    compute_potential (fmodel m) (Fin x) (Fin y)
    = Fin (quad (coef m) (x - xo m) (y - yo m)
           + Rsum (fun w => k * wq w * ln ((x - wx w) ^ 2 + (y - wy w) ^ 2)) (wells m)).
Proof.
  exists kappa. split; [exact kappa_4pi|]. intros m x y Ho. rewrite compute_potential_eq by exact Ho.
  f_equal. f_equal. clear Ho. induction (wells m) as [|w ws IH]; cbn [Rsum fold_right]; [ring|].
  fold (Rsum (fun w => wpot w x y) ws). rewrite Rmult_plus_distr_l, IH. f_equal.
  unfold wpot, wdist2. replace ((x - wx w) ^ 2 + (y - wy w) ^ 2) with ((x - wx w) * (x - wx w) + (y - wy w) * (y - wy w)) by ring.
  ring.
Qed.

Lemma Rsum_app {A} (f : A -> R) l l' : Rsum f (l ++ l') = Rsum f l + Rsum f l'.
Proof. unfold Rsum. induction l as [|a l IH]; cbn [app fold_right]; [ring|]. rewrite IH. ring. Qed.

Lemma Rsum_perm {A} (f : A -> R) l l' : Permutation l l' -> Rsum f l = Rsum f l'.
Proof. unfold Rsum. induction 1; cbn [fold_right]; [reflexivity|lra|lra|congruence]. Qed.

Lemma off_wells_app ws ws' x y : off_wells (ws ++ ws') x y <-> off_wells ws x y /\ off_wells ws' x y.
Proof.
  unfold off_wells. split.
  - intros H. split; intros w Hw; apply H, in_app_iff; auto.
  - intros [H1 H2] w Hw. apply in_app_iff in Hw. destruct Hw; auto.
Qed.

(** Adding wells adds their potential: that of a model with those wells and no regional flow. *)
Lemma c20_additive : forall m ws ws' x y,
  off_wells (ws ++ ws') x y ->
  compute_potential (fmodel (with_wells m (ws ++ ws'))) (Fin x) (Fin y)
  = nadd (compute_potential (fmodel (with_wells m ws)) (Fin x) (Fin y))
         (compute_potential (fmodel (with_coef (with_wells m ws') 0 0 zero_coef)) (Fin x) (Fin y)).
Proof.
  intros m ws ws' x y Ho. rewrite compute_potential_eq by exact Ho. apply off_wells_app in Ho. destruct Ho as [H1 H2].
  rewrite !compute_potential_eq by assumption. cbn [with_wells with_coef wells coef xo yo nadd XR xadd].
  f_equal. rewrite Rsum_app. unfold quad at 3. cbn. ring.
Qed.

Lemma c20_order_of_wells : forall m ws x y,
  off_wells (wells m) x y -> Permutation (wells m) ws ->
  compute_potential (fmodel (with_wells m ws)) (Fin x) (Fin y)
  = compute_potential (fmodel m) (Fin x) (Fin y).
Proof.
  intros m ws x y Ho HP. rewrite !compute_potential_eq.
  - cbn. f_equal. f_equal. now rewrite (Rsum_perm _ _ _ HP).
  - exact Ho.
  - intros w Hw. apply Ho. now apply (Permutation_in (l := ws)); [symmetry|].
Qed.

Lemma c20_coincident_wells : forall m ws u v w x y,
  off_wells (u :: v :: ws) x y -> wx v = wx u -> wy v = wy u ->
  wx w = wx u -> wy w = wy u -> wq w = wq u + wq v ->
  compute_potential (fmodel (with_wells m (u :: v :: ws))) (Fin x) (Fin y)
  = compute_potential (fmodel (with_wells m (w :: ws))) (Fin x) (Fin y).
Proof.
  intros m ws u v w x y Ho E1 E2 E3 E4 E5. rewrite !compute_potential_eq.
  - cbn. f_equal. f_equal. f_equal. unfold wpot, wdist2. rewrite E1, E2, E3, E4, E5. ring.
  - intros s [<-|Hs]; [rewrite E3, E4; apply Ho; now left|apply Ho; right; now right].
  - exact Ho.
Qed.

(** On the axis of a single well the potential is the logarithm's limit. *)
Lemma c20_at_the_well : forall m w,
  wells m = [w] ->
  compute_potential (fmodel m) (Fin (wx w)) (Fin (wy w))
  = (if Rlt_dec 0 (wq w) then NInf else if Rlt_dec (wq w) 0 then PInf else NaN).
Proof.
  intros m w E. unfold compute_potential. cbn [coef xo yo wells fmodel].
  rewrite potential_regional_eq, E. unfold potential_wells.
  cbn [map fold_left nsub nadd nmul nlog XR wx wy wq fwell xsub xmul xadd nZ].
  replace ((wx w - wx w) * (wx w - wx w) + (wy w - wy w) * (wy w - wy w)) with 0 by ring.
  cbn [xlog]. rewrite (proj2 (Rltb_false 0 0)) by lra. rewrite (proj2 (Reqb_true 0 0)) by lra.
  rewrite k4pi_fin. assert (Hk : 0 < kappa) by (unfold kappa; lra).
  cbn [xmul]. unfold inf_of_sign. destruct (Rlt_dec 0 (wq w)) as [H|H].
  - rewrite (proj2 (Rltb_true 0 (wq w)) H). cbn. unfold inf_of_sign. rewrite (proj2 (Rltb_true 0 kappa) Hk). reflexivity.
  - rewrite (proj2 (Rltb_false 0 (wq w))) by lra. destruct (Rlt_dec (wq w) 0) as [H'|H'].
    + rewrite (proj2 (Rltb_true (wq w) 0) H'). cbn. unfold inf_of_sign. rewrite (proj2 (Rltb_true 0 kappa) Hk). reflexivity.
    + rewrite (proj2 (Rltb_false (wq w) 0)) by lra. reflexivity.
Qed.

(** ** Discharge *)
Definition wqx (w : well R) (x y : R) : R := - wq w * (x - wx w) / wdist2 w x y.
Definition wqy (w : well R) (x y : R) : R := - wq w * (y - wy w) / wdist2 w x y.

Lemma discharge_wells_fin ws x y : off_wells ws x y -> forall a b,
  fold_left (fun q w =>
               let dx := nsub (Fin x) (wx w) in
               let dy := nsub (Fin y) (wy w) in
               let r2 := nadd (nmul dx dx) (nmul dy dy) in
               (nadd (fst q) (nmul (ndiv (nmul (nopp (wq w)) dx) r2) k2pi),
                nadd (snd q) (nmul (ndiv (nmul (nopp (wq w)) dy) r2) k2pi))) (map fwell ws) (Fin a, Fin b)
  = (Fin (a + 2 * kappa * Rsum (fun w => wqx w x y) ws), Fin (b + 2 * kappa * Rsum (fun w => wqy w x y) ws)).
Proof.
  set (F := fun (q : xr * xr) (w : well xr) => _).
  induction ws as [|w ws IH]; intros Ho a b.
  - cbn. apply f_equal2; f_equal; ring.
  - cbn [map fold_left Rsum fold_right]. fold (Rsum (fun w0 => wqx w0 x y) ws). fold (Rsum (fun w0 => wqy w0 x y) ws).
    unfold F at 2. cbn [fst snd].
    assert (P : 0 < wdist2 w x y) by (apply wdist2_pos, Ho; now left).
    cbn [nsub nadd nmul ndiv nopp XR wx wy wq fwell xsub xmul xadd xopp]. fold (wdist2 w x y).
    rewrite !div_fin by lra. rewrite k2pi_fin. cbn [xmul xadd].
    rewrite IH by (intros v Hv; apply Ho; now right). unfold wqx, wqy. apply f_equal2; f_equal; ring.
Qed.

Lemma compute_discharge_eq m x y : off_wells (wells m) x y ->
  compute_discharge (fmodel m) (Fin x) (Fin y)
  = (Fin (- (2 * cA (coef m) * (x - xo m) + cC (coef m) * (y - yo m) + cD (coef m))
          + 2 * kappa * Rsum (fun w => wqx w x y) (wells m)),
     Fin (- (2 * cB (coef m) * (y - yo m) + cC (coef m) * (x - xo m) + cE (coef m))
          + 2 * kappa * Rsum (fun w => wqy w x y) (wells m))).
Proof.
  intros Ho. unfold compute_discharge. cbn [coef xo yo wells fmodel fcoef cA cB cC cD cE].
  exact (discharge_wells_fin (wells m) x y Ho _ _).
Qed.

(** ** Derivatives *)
Lemma deriv_ext f g x d : (exists e, 0 < e /\ forall t, Rabs (t - x) < e -> f t = g t) ->
  derivable_pt_lim f x d -> derivable_pt_lim g x d.
Proof.
  intros (e & He & Hfg) H eps Heps. destruct (H eps Heps) as (delta & Hd).
  assert (Hmin : 0 < Rmin delta e) by (apply Rmin_pos; [apply cond_pos|exact He]).
  exists (mkposreal _ Hmin). intros h Hh0 Hh. cbn in Hh.
  rewrite <- !Hfg.
  - apply Hd; auto. apply Rlt_le_trans with (1 := Hh). apply Rmin_l.
  - replace (x - x) with 0 by ring. rewrite Rabs_R0. exact He.
  - replace (x + h - x) with h by ring. apply Rlt_le_trans with (1 := Hh). apply Rmin_r.
Qed.

Lemma deriv_val f x d d' : derivable_pt_lim f x d -> d = d' -> derivable_pt_lim f x d'.
Proof. intros H <-. exact H. Qed.

Lemma deriv_fun f g x d : (forall t, f t = g t) -> derivable_pt_lim f x d -> derivable_pt_lim g x d.
Proof. intros E. apply deriv_ext. exists 1. split; [lra|auto]. Qed.

(** Polynomials of degree two. *)
Lemma deriv_poly a b c x0 x : derivable_pt_lim (fun t => a * ((t - x0) * (t - x0)) + b * (t - x0) + c) x
  (2 * a * (x - x0) + b).
Proof.
  assert (D0 : derivable_pt_lim (fun t => t - x0) x 1).
  { eapply deriv_val; [apply (derivable_pt_lim_minus id (fct_cte x0)); [apply derivable_pt_lim_id|apply derivable_pt_lim_const]|]. ring. }
  pose proof (derivable_pt_lim_mult _ _ _ _ _ D0 D0) as D1.
  pose proof (derivable_pt_lim_scal _ a _ _ D1) as D2.
  pose proof (derivable_pt_lim_scal _ b _ _ D0) as D3.
  pose proof (derivable_pt_lim_plus _ _ _ _ _ (derivable_pt_lim_plus _ _ _ _ _ D2 D3) (derivable_pt_lim_const c x)) as D4.
  eapply deriv_val; [eapply deriv_fun; [|exact D4]|].
  - intros t. unfold plus_fct, mult_real_fct, mult_fct, fct_cte. reflexivity.
  - cbn. ring.
Qed.

Lemma deriv_log q x0 b x : 0 < (x - x0) * (x - x0) + b ->
  derivable_pt_lim (fun t => q * ln ((t - x0) * (t - x0) + b)) x
    (2 * q * (x - x0) / ((x - x0) * (x - x0) + b)).
Proof.
  intros P. pose proof (deriv_poly 1 0 b x0 x) as D0.
  assert (D1 : derivable_pt_lim (fun t => (t - x0) * (t - x0) + b) x (2 * (x - x0))).
  { eapply deriv_val; [eapply deriv_fun; [|exact D0]|]; intros; cbv beta; ring. }
  pose proof (derivable_pt_lim_comp _ ln _ _ _ D1 (derivable_pt_lim_ln _ P)) as D2.
  eapply deriv_val; [eapply deriv_fun; [|exact (derivable_pt_lim_scal _ q _ _ D2)]|].
  - reflexivity.
  - field. lra.
Qed.

Lemma deriv_Rsum {A} (f g : A -> R -> R) l x :
  (forall a, In a l -> derivable_pt_lim (f a) x (g a x)) ->
  derivable_pt_lim (fun t => Rsum (fun a => f a t) l) x (Rsum (fun a => g a x) l).
Proof.
  induction l as [|a l IH]; intros H.
  - cbn. apply derivable_pt_lim_const.
  - apply (derivable_pt_lim_plus (f a) (fun t => Rsum (fun a => f a t) l)).
    + apply H. now left.
    + apply IH. intros b Hb. apply H. now right.
Qed.

(** Off the wells means off the wells nearby. *)
Lemma off_wells_near_x ws x y : off_wells ws x y ->
  exists e, 0 < e /\ forall t, Rabs (t - x) < e -> off_wells ws t y.
Proof.
  induction ws as [|w ws IH]; intros Ho.
  - exists 1. split; [lra|]. intros t _ w [].
  - destruct IH as (e & He & H); [intros v Hv; apply Ho; now right|].
    assert (Hw : exists e', 0 < e' /\ forall t, Rabs (t - x) < e' -> ~ (t = wx w /\ y = wy w)).
    { destruct (Req_dec x (wx w)) as [E|E].
      - exists 1. split; [lra|]. intros t _ [_ E']. apply (Ho w); [now left|auto].
      - exists (Rabs (wx w - x)). split; [apply Rabs_pos_lt; lra|]. intros t Ht [-> _]. lra. }
    destruct Hw as (e' & He' & H').
    exists (Rmin e e'). split; [now apply Rmin_pos|]. intros t Ht v [<-|Hv].
    + apply H'. eapply Rlt_le_trans; [exact Ht|apply Rmin_r].
    + apply (H t); auto. eapply Rlt_le_trans; [exact Ht|apply Rmin_l].
Qed.

Lemma off_wells_near_y ws x y : off_wells ws x y ->
  exists e, 0 < e /\ forall t, Rabs (t - y) < e -> off_wells ws x t.
Proof.
  induction ws as [|w ws IH]; intros Ho.
  - exists 1. split; [lra|]. intros t _ w [].
  - destruct IH as (e & He & H); [intros v Hv; apply Ho; now right|].
    assert (Hw : exists e', 0 < e' /\ forall t, Rabs (t - y) < e' -> ~ (x = wx w /\ t = wy w)).
    { destruct (Req_dec y (wy w)) as [E|E].
      - exists 1. split; [lra|]. intros t _ [E' _]. apply (Ho w); [now left|auto].
      - exists (Rabs (wy w - y)). split; [apply Rabs_pos_lt; lra|]. intros t Ht [_ ->]. lra. }
    destruct Hw as (e' & He' & H').
    exists (Rmin e e'). split; [now apply Rmin_pos|]. intros t Ht v [<-|Hv].
    + apply H'. eapply Rlt_le_trans; [exact Ht|apply Rmin_r].
    + apply (H t); auto. eapply Rlt_le_trans; [exact Ht|apply Rmin_l].
Qed.

Lemma Rsum_ext {A} (f g : A -> R) l : (forall a, In a l -> f a = g a) -> Rsum f l = Rsum g l.
Proof.
  induction l as [|a l IH]; intros H; [reflexivity|]. cbn. fold (Rsum f l). fold (Rsum g l).
  rewrite (H a) by now left. rewrite IH; [reflexivity|]. intros b Hb. apply H. now right.
Qed.
Lemma Rsum_scal {A} k (f : A -> R) l : Rsum (fun a => k * f a) l = k * Rsum f l.
Proof. induction l as [|a l IH]; cbn; [ring|]. unfold Rsum in IH. rewrite IH. ring. Qed.
Lemma Rsum_plus {A} (f g : A -> R) l : Rsum (fun a => f a + g a) l = Rsum f l + Rsum g l.
Proof. induction l as [|a l IH]; cbn; [ring|]. unfold Rsum in IH. rewrite IH. ring. Qed.

(** ** C21 *)
Lemma potential_dx m x y : off_wells (wells m) x y ->
  d_dx (potential m) x y (- discharge_x m x y).
Proof.
  intros Ho. unfold d_dx. destruct (off_wells_near_x _ _ _ Ho) as (e & He & Hn).
  eapply deriv_ext with (f := fun t => quad (coef m) (t - xo m) (y - yo m) + kappa * Rsum (fun w => wpot w t y) (wells m)).
  { exists e. split; [exact He|]. intros t Ht. now rewrite potential_eq by auto. }
  unfold discharge_x. rewrite compute_discharge_eq by exact Ho. cbn [fst Rval].
  pose proof (deriv_poly (cA (coef m)) (cC (coef m) * (y - yo m) + cD (coef m))
                (cB (coef m) * ((y - yo m) * (y - yo m)) + cE (coef m) * (y - yo m) + cF (coef m)) (xo m) x) as D1.
  assert (D2 : derivable_pt_lim (fun t => Rsum (fun w => wpot w t y) (wells m)) x
                 (Rsum (fun w => -2 * wqx w x y) (wells m))).
  { apply deriv_Rsum with (f := fun w t => wpot w t y) (g := fun w t => -2 * wqx w t y).
    intros w Hw. pose proof (wdist2_pos w x y (Ho w Hw)) as P.
    eapply deriv_val; [apply (deriv_log (wq w) (wx w) ((y - wy w) * (y - wy w)) x P)|].
    unfold wqx, wdist2 in *. field. lra. }
  pose proof (derivable_pt_lim_plus _ _ _ _ _ D1 (derivable_pt_lim_scal _ kappa _ _ D2)) as D3.
  eapply deriv_val; [eapply deriv_fun; [|exact D3]|].
  - intros t. unfold plus_fct, mult_real_fct, quad. f_equal. ring.
  - rewrite Rsum_scal. ring.
Qed.

Lemma potential_dy m x y : off_wells (wells m) x y ->
  d_dy (potential m) x y (- discharge_y m x y).
Proof.
  intros Ho. unfold d_dy. destruct (off_wells_near_y _ _ _ Ho) as (e & He & Hn).
  eapply deriv_ext with (f := fun t => quad (coef m) (x - xo m) (t - yo m) + kappa * Rsum (fun w => wpot w x t) (wells m)).
  { exists e. split; [exact He|]. intros t Ht. now rewrite potential_eq by auto. }
  unfold discharge_y. rewrite compute_discharge_eq by exact Ho. cbn [snd Rval].
  pose proof (deriv_poly (cB (coef m)) (cC (coef m) * (x - xo m) + cE (coef m))
                (cA (coef m) * ((x - xo m) * (x - xo m)) + cD (coef m) * (x - xo m) + cF (coef m)) (yo m) y) as D1.
  assert (D2 : derivable_pt_lim (fun t => Rsum (fun w => wpot w x t) (wells m)) y
                 (Rsum (fun w => -2 * wqy w x y) (wells m))).
  { apply deriv_Rsum with (f := fun w t => wpot w x t) (g := fun w t => -2 * wqy w x t).
    intros w Hw. pose proof (wdist2_pos w x y (Ho w Hw)) as P. unfold wdist2 in P.
    eapply deriv_val; [eapply deriv_fun; [|apply (deriv_log (wq w) (wy w) ((x - wx w) * (x - wx w)) y); lra]|].
    - intros t. unfold wpot, wdist2. f_equal. f_equal. ring.
    - unfold wqy, wdist2. field. lra. }
  pose proof (derivable_pt_lim_plus _ _ _ _ _ D1 (derivable_pt_lim_scal _ kappa _ _ D2)) as D3.
  eapply deriv_val; [eapply deriv_fun; [|exact D3]|].
  - intros t. unfold plus_fct, mult_real_fct, quad. f_equal. ring.
  - rewrite Rsum_scal. ring.
Qed.

(** At a point off the wells everything computed is an ordinary number and the discharge is
    minus the gradient of the computed potential. *)
Lemma c21_discharge_is_minus_gradient : forall m x y,
  off_wells (wells m) x y ->
  exists p qx qy,
    compute_potential (fmodel m) (Fin x) (Fin y) = Fin p /\
    compute_discharge (fmodel m) (Fin x) (Fin y) = (Fin qx, Fin qy) /\
    d_dx (potential m) x y (- qx) /\ d_dy (potential m) x y (- qy).
Proof.
  intros m x y Ho. pose proof (potential_dx m x y Ho) as D1. pose proof (potential_dy m x y Ho) as D2.
  unfold discharge_x, discharge_y in D1, D2. rewrite compute_discharge_eq in D1, D2 by exact Ho.
  do 3 eexists. split; [now apply compute_potential_eq|]. split; [now apply compute_discharge_eq|].
  split; [exact D1|exact D2].
Qed.

(** ** C22 *)
Lemma deriv_frac q a x0 b x : 0 < (x - x0) * (x - x0) + b ->
  derivable_pt_lim (fun t => q * (a * (t - x0) + 0) / ((t - x0) * (t - x0) + b)) x
    (q * a * (b - (x - x0) * (x - x0)) / (((x - x0) * (x - x0) + b) * ((x - x0) * (x - x0) + b))).
Proof.
  intros P.
  assert (D1 : derivable_pt_lim (fun t => (t - x0) * (t - x0) + b) x (2 * (x - x0))).
  { eapply deriv_val; [eapply deriv_fun; [|exact (deriv_poly 1 0 b x0 x)]|]; intros; cbv beta; ring. }
  assert (D2 : derivable_pt_lim (fun t => q * (a * (t - x0) + 0)) x (q * a)).
  { eapply deriv_val; [eapply deriv_fun; [|exact (deriv_poly 0 (q * a) 0 x0 x)]|]; intros; cbv beta; ring. }
  eapply deriv_val; [apply (derivable_pt_lim_div _ _ _ _ _ D2 D1); lra|].
  unfold Rsqr. field. lra.
Qed.

Lemma deriv_cross q x0 b x : 0 < (x - x0) * (x - x0) + b ->
  derivable_pt_lim (fun t => q / ((t - x0) * (t - x0) + b)) x
    (- q * 2 * (x - x0) / (((x - x0) * (x - x0) + b) * ((x - x0) * (x - x0) + b))).
Proof.
  intros P.
  assert (D1 : derivable_pt_lim (fun t => (t - x0) * (t - x0) + b) x (2 * (x - x0))).
  { eapply deriv_val; [eapply deriv_fun; [|exact (deriv_poly 1 0 b x0 x)]|]; intros; cbv beta; ring. }
  eapply deriv_val; [apply (derivable_pt_lim_div _ _ _ _ _ (derivable_pt_lim_const q x) D1); lra|].
  unfold Rsqr, fct_cte. field. lra.
Qed.

Definition hxx (w : well R) (x y : R) : R :=
  - wq w * ((y - wy w) * (y - wy w) - (x - wx w) * (x - wx w)) / (wdist2 w x y * wdist2 w x y).
Definition hxy (w : well R) (x y : R) : R :=
  wq w * 2 * (x - wx w) * (y - wy w) / (wdist2 w x y * wdist2 w x y).

Lemma c22_divergence : forall m x y,
  off_wells (wells m) x y ->
  exists qxx qxy qyx qyy,
    d_dx (discharge_x m) x y qxx /\ d_dy (discharge_x m) x y qxy /\
    d_dx (discharge_y m) x y qyx /\ d_dy (discharge_y m) x y qyy /\
    qxx + qyy = - (2 * (cA (coef m) + cB (coef m))) /\ qxy = qyx.
Proof.
  intros m x y Ho. unfold d_dx, d_dy.
  destruct (off_wells_near_x _ _ _ Ho) as (ex & Hex & Hnx). destruct (off_wells_near_y _ _ _ Ho) as (ey & Hey & Hny).
  set (S1 := Rsum (fun w => hxx w x y) (wells m)). set (S2 := Rsum (fun w => hxy w x y) (wells m)).
  exists (- (2 * cA (coef m)) + 2 * kappa * S1), (- cC (coef m) + 2 * kappa * S2),
         (- cC (coef m) + 2 * kappa * S2), (- (2 * cB (coef m)) - 2 * kappa * S1).
  repeat split.
  - eapply deriv_ext with (f := fun t => - (2 * cA (coef m) * (t - xo m) + cC (coef m) * (y - yo m) + cD (coef m))
          + 2 * kappa * Rsum (fun w => wqx w t y) (wells m)).
    { exists ex. split; [exact Hex|]. intros t Ht. unfold discharge_x. now rewrite compute_discharge_eq by auto. }
    assert (D2 : derivable_pt_lim (fun t => Rsum (fun w => wqx w t y) (wells m)) x S1).
    { apply deriv_Rsum with (f := fun w t => wqx w t y) (g := fun w t => hxx w t y).
      intros w Hw. pose proof (wdist2_pos w x y (Ho w Hw)) as P.
      eapply deriv_val; [eapply deriv_fun; [|apply (deriv_frac (- wq w) 1 (wx w) ((y - wy w) * (y - wy w)) x P)]|].
      - intros t. unfold wqx, wdist2. f_equal. ring.
      - unfold hxx, wdist2 in *. field. lra. }
    pose proof (deriv_poly 0 (- (2 * cA (coef m))) (- (cC (coef m) * (y - yo m) + cD (coef m))) (xo m) x) as D1.
    pose proof (derivable_pt_lim_plus _ _ _ _ _ D1 (derivable_pt_lim_scal _ (2 * kappa) _ _ D2)) as D3.
    eapply deriv_val; [eapply deriv_fun; [|exact D3]|]; intros; unfold plus_fct, mult_real_fct; cbv beta; ring.
  - eapply deriv_ext with (f := fun t => - (2 * cA (coef m) * (x - xo m) + cC (coef m) * (t - yo m) + cD (coef m))
          + 2 * kappa * Rsum (fun w => wqx w x t) (wells m)).
    { exists ey. split; [exact Hey|]. intros t Ht. unfold discharge_x. now rewrite compute_discharge_eq by auto. }
    assert (D2 : derivable_pt_lim (fun t => Rsum (fun w => wqx w x t) (wells m)) y S2).
    { apply deriv_Rsum with (f := fun w t => wqx w x t) (g := fun w t => hxy w x t).
      intros w Hw. pose proof (wdist2_pos w x y (Ho w Hw)) as P. unfold wdist2 in P.
      eapply deriv_val; [eapply deriv_fun; [|apply (deriv_cross (- wq w * (x - wx w)) (wy w) ((x - wx w) * (x - wx w)) y); lra]|].
      - intros t. unfold wqx, wdist2. f_equal. ring.
      - unfold hxy, wdist2. field. lra. }
    pose proof (deriv_poly 0 (- cC (coef m)) (- (2 * cA (coef m) * (x - xo m) + cD (coef m))) (yo m) y) as D1.
    pose proof (derivable_pt_lim_plus _ _ _ _ _ D1 (derivable_pt_lim_scal _ (2 * kappa) _ _ D2)) as D3.
    eapply deriv_val; [eapply deriv_fun; [|exact D3]|]; intros; unfold plus_fct, mult_real_fct; cbv beta; ring.
  - eapply deriv_ext with (f := fun t => - (2 * cB (coef m) * (y - yo m) + cC (coef m) * (t - xo m) + cE (coef m))
          + 2 * kappa * Rsum (fun w => wqy w t y) (wells m)).
    { exists ex. split; [exact Hex|]. intros t Ht. unfold discharge_y. now rewrite compute_discharge_eq by auto. }
    assert (D2 : derivable_pt_lim (fun t => Rsum (fun w => wqy w t y) (wells m)) x S2).
    { apply deriv_Rsum with (f := fun w t => wqy w t y) (g := fun w t => hxy w t y).
      intros w Hw. pose proof (wdist2_pos w x y (Ho w Hw)) as P. unfold wdist2 in P.
      eapply deriv_val; [eapply deriv_fun; [|apply (deriv_cross (- wq w * (y - wy w)) (wx w) ((y - wy w) * (y - wy w)) x); lra]|].
      - intros t. unfold wqy, wdist2. reflexivity.
      - unfold hxy, wdist2. field. lra. }
    pose proof (deriv_poly 0 (- cC (coef m)) (- (2 * cB (coef m) * (y - yo m) + cE (coef m))) (xo m) x) as D1.
    pose proof (derivable_pt_lim_plus _ _ _ _ _ D1 (derivable_pt_lim_scal _ (2 * kappa) _ _ D2)) as D3.
    eapply deriv_val; [eapply deriv_fun; [|exact D3]|]; intros; unfold plus_fct, mult_real_fct; cbv beta; ring.
  - eapply deriv_ext with (f := fun t => - (2 * cB (coef m) * (t - yo m) + cC (coef m) * (x - xo m) + cE (coef m))
          + 2 * kappa * Rsum (fun w => wqy w x t) (wells m)).
    { exists ey. split; [exact Hey|]. intros t Ht. unfold discharge_y. now rewrite compute_discharge_eq by auto. }
    assert (D2 : derivable_pt_lim (fun t => Rsum (fun w => wqy w x t) (wells m)) y (- S1)).
    { eapply deriv_val; [apply deriv_Rsum with (f := fun w t => wqy w x t) (g := fun w t => -1 * hxx w x t)|].
      - intros w Hw. pose proof (wdist2_pos w x y (Ho w Hw)) as P. unfold wdist2 in P.
        eapply deriv_val; [eapply deriv_fun; [|apply (deriv_frac (- wq w) 1 (wy w) ((x - wx w) * (x - wx w)) y); lra]|].
        + intros t. unfold wqy, wdist2. f_equal; ring.
        + unfold hxx, wdist2. field. lra.
      - rewrite Rsum_scal. unfold S1. ring. }
    pose proof (deriv_poly 0 (- (2 * cB (coef m))) (- (cC (coef m) * (x - xo m) + cE (coef m))) (yo m) y) as D1.
    pose proof (derivable_pt_lim_plus _ _ _ _ _ D1 (derivable_pt_lim_scal _ (2 * kappa) _ _ D2)) as D3.
    eapply deriv_val; [eapply deriv_fun; [|exact D3]|]; intros; unfold plus_fct, mult_real_fct; cbv beta; ring.
  - ring.
Qed.
