(** * Traces and pathlines of unconfined aquifers (C118) *)
From Coq Require Import Reals Lra Lia Psatz List Bool.
From Verif Require Import Py Num NumXR ModelAquifer ModelTrace ModelDriver SpecAquifer SpecTrace SpecPathline SpecUnconfined
  ProofPi ProofAquifer ProofHead ProofTrace ProofTraceLoop ProofTraceFlow ProofTraceEx ProofTraceGrow ProofPathline ProofPathAffine ProofPathProgram ProofPathTube ProofPathWells.
Import ListNotations.
Local Open Scope R_scope.

(** ** The discharge *)
Definition upstream (m : model R) (q : pt) : pt := (- discharge_x m (fst q) (snd q), - discharge_y m (fst q) (snd q)).
Lemma upstream_norm m q : pnorm (upstream m q) = flux m q.
Proof. unfold flux, pnorm, upstream. cbn [fst snd]. f_equal. ring. Qed.
Lemma upstream_eq m q : off_wells (wells m) (fst q) (snd q) ->
  upstream m q = padd (2 * cA (coef m) * (fst q - xo m) + cC (coef m) * (snd q - yo m) + cD (coef m),
                       2 * cB (coef m) * (snd q - yo m) + cC (coef m) * (fst q - xo m) + cE (coef m)) (pscale (2 * kappa) (wells_velocity (wells m) q)).
Proof.
  intros Ho. unfold upstream, discharge_x, discharge_y. rewrite compute_discharge_eq by exact Ho. destruct (wells_parts (wells m) q) as [-> ->].
  unfold padd, pscale. cbn [fst snd Rval]. apply f_equal2; ring.
Qed.
Lemma upstream_confined m q : physical m -> off_wells (wells m) (fst q) (snd q) ->
  feval true (fmodel m) (fvec q) = Ok (fvec (pscale (/ (porosity m * thickness m)) (upstream m q))).
Proof.
  intros Hm Ho. rewrite confined_velocity by assumption. rewrite upstream_eq by assumption. destruct Hm as (_ & ? & ?).
  do 2 f_equal. unfold flow, lin, regional, padd, pscale. cbn [fst snd axx axy ayx ayy bx by_]. f_equal; field; lra.
Qed.

Lemma far_off m r x : 0 < r -> (forall w, In w (wells m) -> r <= pdist (wloc w) x) -> off_wells (wells m) (fst x) (snd x).
Proof.
  intros Hr Hx w Hin [E1 E2]. specialize (Hx w Hin). replace x with (wloc w) in Hx by (unfold wloc; rewrite <- E1, <- E2; destruct x; reflexivity). rewrite pdist_self in Hx. lra.
Qed.
Lemma upstream_change m q q' r : physical m -> 0 < r -> (forall w, In w (wells m) -> r <= pdist (wloc w) q /\ r <= pdist (wloc w) q') ->
  pnorm (psub (upstream m q) (upstream m q')) <= flux_change m r * pdist q q'.
Proof.
  intros Hm Hr Hw. assert (Hs : 0 < porosity m * thickness m) by (destruct Hm as (_ & ? & ?); now apply Rmult_lt_0_compat).
  pose proof (confined_change m q q' r _ _ Hm Hr Hw (upstream_confined m q Hm (far_off m r q Hr (fun w H => proj1 (Hw w H)))) (upstream_confined m q' Hm (far_off m r q' Hr (fun w H => proj2 (Hw w H))))) as C.
  cbv zeta in C. replace (psub (pscale (/ (porosity m * thickness m)) (upstream m q)) (pscale (/ (porosity m * thickness m)) (upstream m q'))) with (pscale (/ (porosity m * thickness m)) (psub (upstream m q) (upstream m q'))) in C
    by (unfold psub, pscale; cbn [fst snd]; f_equal; ring).
  rewrite pnorm_scale, Rabs_pos_eq in C by (left; now apply Rinv_0_lt_compat). apply (Rmult_le_compat_l (porosity m * thickness m)) in C; [|lra].
  unfold flux_change. fold (Rsum (fun w => Rabs (wq w)) (wells m)). rewrite <- Rmult_assoc, Rinv_r, Rmult_1_l in C by lra.
  eapply Rle_trans; [exact C|]. right. field. assert (0 < r * r) by nra. repeat split; destruct Hm as (_ & ? & ?); lra.
Qed.
Lemma flux_change_pos m r : 0 < r -> 0 <= flux_change m r.
Proof.
  intros Hr. assert (0 < r * r) by nra. apply Rplus_le_le_0_compat; [apply sqrt_pos|]. apply Rmult_le_pos; [exact (rsum_abs_pos (wells m))|left; apply Rinv_0_lt_compat; lra].
Qed.

(** ** The potential along a segment *)
Definition along (q d : pt) (s : R) : pt := padd q (pscale s d).
Lemma deriv_quadratic a b c x : derivable_pt_lim (fun t => a * (t * t) + b * t + c) x (2 * a * x + b).
Proof.
  pose proof (deriv_poly a b c 0 x) as P. eapply deriv_val; [eapply deriv_fun; [|exact P]|ring]. intros t. cbv beta. ring.
Qed.
Lemma deriv_well w q d s : 0 < wdist2 w (fst (along q d s)) (snd (along q d s)) ->
  derivable_pt_lim (fun t => wpot w (fst (along q d t)) (snd (along q d t))) s
    (-2 * (fst d * wqx w (fst (along q d s)) (snd (along q d s)) + snd d * wqy w (fst (along q d s)) (snd (along q d s)))).
Proof.
  intros P. set (g := fun t => wdist2 w (fst (along q d t)) (snd (along q d t))).
  assert (D : derivable_pt_lim g s (2 * (fst d * (fst (along q d s) - wx w) + snd d * (snd (along q d s) - wy w)))).
  { pose proof (deriv_quadratic (fst d * fst d + snd d * snd d) (2 * (fst d * (fst q - wx w) + snd d * (snd q - wy w))) ((fst q - wx w) * (fst q - wx w) + (snd q - wy w) * (snd q - wy w)) s) as Q.
    eapply deriv_val; [eapply deriv_fun; [|exact Q]|]; [intros t; unfold g, wdist2|]; unfold along, padd, pscale; cbn [fst snd]; ring. }
  pose proof (derivable_pt_lim_comp g ln s _ _ D (derivable_pt_lim_ln (g s) P)) as C.
  pose proof (derivable_pt_lim_scal _ (wq w) _ _ C) as E. eapply deriv_val; [exact E|].
  unfold wqx, wqy. fold (g s). fold (g s) in P. field. lra.
Qed.
Definition pot (m : model R) (q : pt) : R := quad (coef m) (fst q - xo m) (snd q - yo m) + kappa * Rsum (fun w => wpot w (fst q) (snd q)) (wells m).
Lemma deriv_pot m q d s : off_wells (wells m) (fst (along q d s)) (snd (along q d s)) ->
  derivable_pt_lim (fun t => pot m (along q d t)) s (fst d * fst (upstream m (along q d s)) + snd d * snd (upstream m (along q d s))).
Proof.
  intros Ho. unfold pot.
  assert (D2 : derivable_pt_lim (fun t => Rsum (fun w => wpot w (fst (along q d t)) (snd (along q d t))) (wells m)) s
     (Rsum (fun w => -2 * (fst d * wqx w (fst (along q d s)) (snd (along q d s)) + snd d * wqy w (fst (along q d s)) (snd (along q d s)))) (wells m))).
  { apply (deriv_Rsum (fun w t => wpot w (fst (along q d t)) (snd (along q d t)))
      (fun w t => -2 * (fst d * wqx w (fst (along q d t)) (snd (along q d t)) + snd d * wqy w (fst (along q d t)) (snd (along q d t))))).
    intros w Hw. apply deriv_well. apply wdist2_pos. exact (Ho w Hw). }
  set (c := coef m). set (u := fst q - xo m). set (v := snd q - yo m).
  pose proof (deriv_quadratic (cA c * (fst d * fst d) + cB c * (snd d * snd d) + cC c * (fst d * snd d))
     (2 * cA c * (u * fst d) + 2 * cB c * (v * snd d) + cC c * (u * snd d + v * fst d) + cD c * fst d + cE c * snd d) (quad c u v) s) as D1.
  pose proof (derivable_pt_lim_plus _ _ _ _ _ D1 (derivable_pt_lim_scal _ kappa _ _ D2)) as D3.
  eapply deriv_val; [eapply deriv_fun; [|exact D3]|].
  - intros t. unfold plus_fct, mult_real_fct, quad, u, v. f_equal. unfold along, padd, pscale. cbn [fst snd]. ring.
  - unfold upstream, discharge_x, discharge_y. rewrite compute_discharge_eq by exact Ho. cbn [fst snd Rval].
    rewrite Rsum_scal, Rsum_plus, !Rsum_scal. fold c. unfold u, v.
    set (s1 := Rsum _ (wells m)). set (s2 := Rsum _ (wells m)). unfold along, padd, pscale. cbn [fst snd]. ring.
Qed.
Lemma along_ends q q' : along q (psub q' q) 0 = q /\ along q (psub q' q) 1 = q'.
Proof. unfold along, padd, pscale, psub. destruct q, q'. cbn. split; f_equal; ring. Qed.
Lemma pot_change m q q' W : 
  (forall s, 0 <= s <= 1 -> off_wells (wells m) (fst (along q (psub q' q) s)) (snd (along q (psub q' q) s)) /\ pnorm (upstream m (along q (psub q' q) s)) <= W) ->
  Rabs (potential m (fst q) (snd q) - potential m (fst q') (snd q')) <= W * pdist q q'.
Proof.
  intros H. destruct (along_ends q q') as [E0 E1].
  assert (P0 : potential m (fst q) (snd q) = pot m (along q (psub q' q) 0)) by (rewrite E0; apply potential_eq; rewrite <- E0; apply H; lra).
  assert (P1 : potential m (fst q') (snd q') = pot m (along q (psub q' q) 1)) by (rewrite E1; apply potential_eq; rewrite <- E1; apply H; lra).
  rewrite P0, P1. clear P0 P1 E0 E1. set (d := psub q' q) in *. rewrite pdist_norm. fold d.
  set (g := fun t => pot m (along q d t)). set (g' := fun s => fst d * fst (upstream m (along q d s)) + snd d * snd (upstream m (along q d s))).
  assert (Dg : forall t, 0 <= t <= 1 -> derivable_pt_lim g t (g' t)) by (intros t Ht; apply deriv_pot, H; exact Ht).
  assert (Bg : forall t, 0 <= t <= 1 -> - (W * pnorm d) <= g' t <= W * pnorm d).
  { intros t Ht. destruct (H t Ht) as [_ B]. set (u := upstream m (along q d t)) in *. unfold g'. fold u.
    pose proof (inner_le d u) as I1. pose proof (inner_le (pscale (-1) d) u) as I2. rewrite pnorm_scale in I2. unfold pscale in I2. cbn [fst snd] in I2.
    replace (Rabs (-1)) with 1 in I2 by (unfold Rabs; destruct (Rcase_abs _); lra). pose proof (pnorm_pos d) as Pd. pose proof (Rmult_le_compat_l _ _ _ Pd B). lra. }
  assert (Id : forall k t, derivable_pt_lim (fun s => k * s) t k).
  { intros k t. eapply deriv_val; [apply (derivable_pt_lim_scal id k), derivable_pt_lim_id|ring]. }
  pose proof (compare g g' (fun s => W * pnorm d * s) (fun _ => W * pnorm d) 0 1 ltac:(lra) Dg (fun t _ => Id _ t) (fun t Ht => proj2 (Bg t Ht))) as C1.
  pose proof (compare (fun s => - (W * pnorm d) * s) (fun _ => - (W * pnorm d)) g g' 0 1 ltac:(lra) (fun t _ => Id _ t) Dg (fun t Ht => proj1 (Bg t Ht))) as C2.
  cbv beta in C1, C2. unfold g in C1, C2. apply Rabs_le. lra.
Qed.

(** ** The saturated thickness *)
Definition saturated (K H p : R) : R := Rmin (head_at K H p) H.
Lemma saturated_eq K H p : 0 < K -> 0 < H -> 0 < p -> saturated K H p * saturated K H p = 2 * Rmin p (K * (H * H) / 2) / K /\ 0 < saturated K H p <= H.
Proof.
  intros HK HH Hp. destruct (girinskii_head K H p HK HH Hp) as (A & B & C). unfold saturated. destruct (Rlt_dec (head_at K H p) H) as [L|L].
  - rewrite (Rmin_left (head_at K H p)) by lra. unfold girinskii in B. destruct (Rlt_dec _ _) as [_|N] in B; [|contradiction]. apply C in L as L'. rewrite Rmin_left by lra.
    split; [rewrite <- B at 3; field; lra|lra].
  - rewrite (Rmin_right (head_at K H p)) by lra. rewrite Rmin_right; [split; [field; lra|lra]|]. destruct (Rlt_dec p (K * (H * H) / 2)) as [Q|Q]; [|lra]. apply C in Q. contradiction.
Qed.
Lemma saturated_above K H p s : 0 < K -> 0 < s <= H -> K * (s * s) / 2 <= p -> s <= saturated K H p.
Proof.
  intros HK Hs Hp. assert (P : 0 < p) by (assert (0 < K * (s * s)) by (apply Rmult_lt_0_compat; nra); lra).
  destruct (saturated_eq K H p HK ltac:(lra) P) as [E B]. apply le_of_sq; [lra|]. rewrite E.
  assert (M : K * (s * s) / 2 <= Rmin p (K * (H * H) / 2)).
  { apply Rmin_glb; [exact Hp|]. assert (s * s <= H * H) by (apply Rmult_le_compat; lra). assert (K * (s * s) <= K * (H * H)) by (apply Rmult_le_compat_l; lra). lra. }
  set (x := Rmin p _) in *. apply (Rmult_le_reg_r K); [exact HK|]. replace (2 * x / K * K) with (2 * x) by (field; lra). lra.
Qed.
Lemma Rmin_change a b c : Rabs (Rmin a c - Rmin b c) <= Rabs (a - b).
Proof. unfold Rmin, Rabs. repeat destruct (Rle_dec _ _); repeat destruct (Rcase_abs _); lra. Qed.
Lemma saturated_change K H p p' s : 0 < K -> 0 < s <= H -> K * (s * s) / 2 <= p -> K * (s * s) / 2 <= p' ->
  Rabs (saturated K H p - saturated K H p') <= Rabs (p - p') / (K * s).
Proof.
  intros HK Hs Hp Hp'. assert (P0 : 0 < K * (s * s)) by (apply Rmult_lt_0_compat; nra).
  destruct (saturated_eq K H p HK ltac:(lra) ltac:(lra)) as [E B]. destruct (saturated_eq K H p' HK ltac:(lra) ltac:(lra)) as [E' B'].
  pose proof (saturated_above K H p s HK Hs Hp) as A. pose proof (saturated_above K H p' s HK Hs Hp') as A'.
  set (b := saturated K H p) in *. set (b' := saturated K H p') in *. pose proof (Rmin_change p p' (K * (H * H) / 2)) as M.
  set (x := Rmin p _) in *. set (x' := Rmin p' _) in *.
  assert (F : (b - b') * (b + b') = 2 / K * (x - x')) by (replace ((b - b') * (b + b')) with (b * b - b' * b') by ring; rewrite E, E'; field; lra).
  assert (Q : Rabs (b - b') * (b + b') = 2 / K * Rabs (x - x')).
  { rewrite <- (Rabs_pos_eq (b + b')) at 1 by lra. rewrite <- Rabs_mult, F, Rabs_mult. f_equal. apply Rabs_pos_eq. apply Rmult_le_pos; [lra|left; now apply Rinv_0_lt_compat]. }
  assert (Ks : 0 < K * s) by (apply Rmult_lt_0_compat; lra). apply (Rmult_le_reg_r (K * s)); [exact Ks|]. unfold Rdiv. rewrite Rmult_assoc, Rinv_l, Rmult_1_r by lra.
  apply Rle_trans with (Rabs (x - x')); [|exact M].
  assert (Q2 : Rabs (b - b') * (K * (b + b')) = 2 * Rabs (x - x')) by (replace (Rabs (b - b') * (K * (b + b'))) with (K * (Rabs (b - b') * (b + b'))) by ring; rewrite Q; field; lra).
  assert (Q3 : Rabs (b - b') * (K * (2 * s)) <= Rabs (b - b') * (K * (b + b'))) by (apply Rmult_le_compat_l; [apply Rabs_pos|]; apply Rmult_le_compat_l; lra).
  lra.
Qed.

(** ** The velocity *)
Lemma unconfined_velocity m q : physical m -> off_wells (wells m) (fst q) (snd q) -> 0 < potential m (fst q) (snd q) ->
  feval false (fmodel m) (fvec q) = Ok (fvec (pscale (/ (porosity m * saturated (conductivity m) (thickness m) (potential m (fst q) (snd q)))) (upstream m q))).
Proof.
  intros Hm Ho Hp. unfold feval, fvec. cbn [fst snd].
  assert (Ep : compute_potential (fmodel m) (Fin (fst q)) (Fin (snd q)) = Fin (potential m (fst q) (snd q))) by (unfold potential; rewrite compute_potential_eq by exact Ho; reflexivity).
  rewrite (velocity_cases m _ _ _ Hm Ho Ep). destruct (Rle_dec _ 0) as [L|_]; [lra|]. cbv zeta. fold (saturated (conductivity m) (thickness m) (potential m (fst q) (snd q))).
  destruct Hm as (HK & Hn & HH). destruct (saturated_eq _ _ _ HK HH Hp) as [_ B]. set (b := saturated _ _ _) in *.
  cbn [bind nopp XR xopp]. apply f_equal. unfold pscale, upstream. cbn [fst snd]. apply f_equal2; apply (f_equal Fin); field; lra.
Qed.

Lemma inv_change b b' s : 0 < s -> s <= b -> s <= b' -> Rabs (/ b - / b') <= Rabs (b - b') / (s * s).
Proof.
  intros Hs Hb Hb'. replace (/ b - / b') with ((b' - b) * / (b * b')) by (field; lra). rewrite Rabs_mult, (Rabs_minus_sym b').
  assert (0 < b * b') by (apply Rmult_lt_0_compat; lra). rewrite (Rabs_pos_eq (/ _)) by (left; now apply Rinv_0_lt_compat).
  apply Rmult_le_compat_l; [apply Rabs_pos|]. apply Rinv_le_contravar; [nra|]. apply Rmult_le_compat; lra.
Qed.

(** The unconfined velocity near places that keep away from the wells and that are nowhere near dry. *)
Lemma unconfined_tame m Z D w rho s : physical m -> 0 < rho -> 0 < s <= thickness m ->
  (forall t, 0 <= t <= D -> flux m (Z t) <= w) ->
  (forall t w, 0 <= t <= D -> In w (wells m) -> 2 * rho <= pdist (Z t) (wx w, wy w)) ->
  let G := flux_change m rho in let W := w + G * rho in
  (forall t, 0 <= t <= D -> conductivity m * (s * s) / 2 + W * rho <= potential m (fst (Z t)) (snd (Z t))) ->
  let L := G / (porosity m * s) + W * W / (porosity m * conductivity m * (s * s * s)) in
  0 <= L /\ tame (feval false (fmodel m)) Z D (W / (porosity m * s)) L rho.
Proof.
  intros Hm Hrho Hs Hw Hd G W Hp L. pose proof Hm as (HK & Hn & HH).
  assert (HG : 0 <= G) by now apply flux_change_pos.
  assert (Pns : 0 < porosity m * s) by (apply Rmult_lt_0_compat; lra).
  assert (P3 : 0 < s * s * s) by (repeat apply Rmult_lt_0_compat; lra).
  assert (P4 : 0 < porosity m * conductivity m * (s * s * s)) by (repeat apply Rmult_lt_0_compat; lra).
  split. { apply Rplus_le_le_0_compat; apply Rmult_le_pos; try (left; now apply Rinv_0_lt_compat); [exact HG|nra]. }
  assert (Near : forall t q w, 0 <= t <= D -> pdist (Z t) q <= rho -> In w (wells m) -> rho <= pdist (wloc w) q).
  { intros t q w' Ht Hq Hin. specialize (Hd t w' Ht Hin). pose proof (pdist_triangle (Z t) q (wloc w')) as T. unfold wloc in *. rewrite (pdist_sym q) in T. lra. }
  assert (Self : forall t, pdist (Z t) (Z t) <= rho) by (intros t; rewrite pdist_self; lra).
  assert (O : forall t q, 0 <= t <= D -> pdist (Z t) q <= rho -> off_wells (wells m) (fst q) (snd q)) by (intros t q Ht Hq; apply (far_off m rho); [exact Hrho|]; intros w' Hin; now apply (Near t)).
  assert (U : forall t q, 0 <= t <= D -> pdist (Z t) q <= rho -> pnorm (upstream m q) <= W).
  { intros t q Ht Hq. pose proof (upstream_change m q (Z t) rho Hm Hrho (fun w' Hin => conj (Near t q w' Ht Hq Hin) (Near t (Z t) w' Ht (Self t) Hin))) as C. fold G in C.
    assert (T : pnorm (upstream m q) <= pnorm (upstream m (Z t)) + pnorm (psub (upstream m q) (upstream m (Z t)))).
    { eapply Rle_trans; [|apply pnorm_add]. right. f_equal. unfold psub, padd. destruct (upstream m q), (upstream m (Z t)). cbn. f_equal; ring. }
    rewrite (upstream_norm m (Z t)) in T. specialize (Hw t Ht). rewrite (pdist_sym q) in C. pose proof (Rmult_le_compat_l G _ _ HG Hq). unfold W. lra. }
  assert (Conv : forall t q q' x, 0 <= t <= D -> pdist (Z t) q <= rho -> pdist (Z t) q' <= rho -> 0 <= x <= 1 -> pdist (Z t) (along q (psub q' q) x) <= rho).
  { intros t q q' x Ht Hq Hq' Hx. rewrite pdist_norm in *.
    replace (psub (along q (psub q' q) x) (Z t)) with (padd (pscale (1 - x) (psub q (Z t))) (pscale x (psub q' (Z t)))) by (unfold along, psub, padd, pscale; cbn [fst snd]; f_equal; ring).
    eapply Rle_trans; [apply pnorm_add|]. rewrite !pnorm_scale, !Rabs_pos_eq by lra.
    pose proof (Rmult_le_compat_l (1 - x) _ _ ltac:(lra) Hq). pose proof (Rmult_le_compat_l x _ _ ltac:(lra) Hq'). lra. }
  assert (Pc : forall t q q', 0 <= t <= D -> pdist (Z t) q <= rho -> pdist (Z t) q' <= rho -> Rabs (potential m (fst q) (snd q) - potential m (fst q') (snd q')) <= W * pdist q q').
  { intros t q q' Ht Hq Hq'. apply pot_change. intros x Hx. pose proof (Conv t q q' x Ht Hq Hq' Hx) as C. split; [exact (O t _ Ht C)|exact (U t _ Ht C)]. }
  assert (W0 : forall t, 0 <= t <= D -> 0 <= W) by (intros t Ht; eapply Rle_trans; [apply pnorm_pos|exact (U t (Z t) Ht (Self t))]).
  assert (Pq : forall t q, 0 <= t <= D -> pdist (Z t) q <= rho -> conductivity m * (s * s) / 2 <= potential m (fst q) (snd q)).
  { intros t q Ht Hq. pose proof (Pc t q (Z t) Ht Hq (Self t)) as C. assert (C' := Rle_trans _ _ _ (Rle_abs _) (Rle_trans _ _ _ (Req_le _ _ (Rabs_minus_sym _ _)) C)). clear C. rename C' into C. specialize (Hp t Ht). rewrite (pdist_sym q) in C.
    pose proof (Rmult_le_compat_l W _ _ (W0 t Ht) Hq). lra. }
  assert (Ks : 0 < conductivity m * (s * s)) by (apply Rmult_lt_0_compat; nra).
  assert (V : forall t q, 0 <= t <= D -> pdist (Z t) q <= rho ->
    feval false (fmodel m) (fvec q) = Ok (fvec (pscale (/ (porosity m * saturated (conductivity m) (thickness m) (potential m (fst q) (snd q)))) (upstream m q)))
    /\ s <= saturated (conductivity m) (thickness m) (potential m (fst q) (snd q))).
  { intros t q Ht Hq. specialize (Pq t q Ht Hq). split; [apply unconfined_velocity; [exact Hm|exact (O t q Ht Hq)|lra]|apply saturated_above; [exact HK|exact Hs|exact Pq]]. }
  constructor.
  - intros t q Ht Hq. destruct (V t q Ht Hq) as [E B]. eexists. split; [exact E|]. clear E. set (b := saturated _ _ _) in *. specialize (U t q Ht Hq).
    assert (Pb : 0 < porosity m * b) by (apply Rmult_lt_0_compat; lra).
    rewrite pnorm_scale, Rabs_pos_eq by (left; now apply Rinv_0_lt_compat). rewrite Rmult_comm. unfold Rdiv.
    apply Rmult_le_compat; [apply pnorm_pos|left; now apply Rinv_0_lt_compat|exact U|]. apply Rinv_le_contravar; [exact Pns|]. apply Rmult_le_compat_l; lra.
  - intros t q q' u u' Ht Hq Hq' Hu Hu'. destruct (V t q Ht Hq) as [E B]. destruct (V t q' Ht Hq') as [E' B'].
    pose proof (saturated_change (conductivity m) (thickness m) _ _ s HK Hs (Pq t q Ht Hq) (Pq t q' Ht Hq')) as Sc. pose proof (Pc t q q' Ht Hq Hq') as P.
    set (b := saturated _ _ (potential m (fst q) (snd q))) in *. set (b' := saturated _ _ (potential m (fst q') (snd q'))) in *.
    assert (Eu : fvec u = fvec (pscale (/ (porosity m * b)) (upstream m q))) by congruence. assert (Eu' : fvec u' = fvec (pscale (/ (porosity m * b')) (upstream m q'))) by congruence.
    apply fvec_inj in Eu, Eu'. rewrite Eu, Eu'. clear Eu Eu' E E' Hu Hu'.
    pose proof (upstream_change m q q' rho Hm Hrho (fun w' Hin => conj (Near t q w' Ht Hq Hin) (Near t q' w' Ht Hq' Hin))) as C. fold G in C.
    pose proof (U t q' Ht Hq') as Uq. set (a := upstream m q) in *. set (a' := upstream m q') in *.
    replace (psub (pscale (/ (porosity m * b)) a) (pscale (/ (porosity m * b')) a')) with (padd (pscale (/ (porosity m * b)) (psub a a')) (pscale (/ porosity m * (/ b - / b')) a'))
      by (unfold psub, padd, pscale; cbn [fst snd]; f_equal; field; lra).
    eapply Rle_trans; [apply pnorm_add|]. rewrite !pnorm_scale.
    assert (Pb : 0 < porosity m * b) by (apply Rmult_lt_0_compat; lra). rewrite (Rabs_pos_eq (/ (porosity m * b))) by (left; now apply Rinv_0_lt_compat).
    rewrite (Rabs_mult (/ porosity m)), (Rabs_pos_eq (/ porosity m)) by (left; now apply Rinv_0_lt_compat).
    pose proof (inv_change b b' s ltac:(lra) B B') as I. set (dd := pdist q q') in *. assert (Hdd : 0 <= dd) by apply pdist_pos.
    unfold L. rewrite Rmult_plus_distr_r. apply Rplus_le_compat.
    + apply Rle_trans with (/ (porosity m * s) * (G * dd)); [|right; unfold Rdiv; ring].
      apply Rmult_le_compat; [left; now apply Rinv_0_lt_compat|apply pnorm_pos| |exact C]. apply Rinv_le_contravar; [exact Pns|]. apply Rmult_le_compat_l; lra.
    + assert (In' : 0 < / porosity m) by now apply Rinv_0_lt_compat. assert (Iss : 0 < / (s * s)) by (apply Rinv_0_lt_compat; nra).
      assert (Iks : 0 < / (conductivity m * s)) by (apply Rinv_0_lt_compat, Rmult_lt_0_compat; lra).
      apply Rle_trans with (/ porosity m * (W * dd * / (conductivity m * s) * / (s * s)) * W).
      * apply Rmult_le_compat; [apply Rmult_le_pos; [lra|apply Rabs_pos]|apply pnorm_pos| |exact Uq]. apply Rmult_le_compat_l; [lra|].
        eapply Rle_trans; [exact I|]. unfold Rdiv. apply Rmult_le_compat_r; [lra|]. eapply Rle_trans; [exact Sc|]. unfold Rdiv. apply Rmult_le_compat_r; [lra|exact P].
      * right. field. repeat split; lra.
Qed.

(** The size of the discharge vector changes from one place to another, both at least [rho] from every well, by at most
    [flux_change m rho] times the distance. *)
Lemma c118_flux : forall (m : model R) (q q' : pt) (rho : R),
  physical m -> 0 < rho -> (forall w, In w (wells m) -> rho <= pdist (wx w, wy w) q /\ rho <= pdist (wx w, wy w) q') ->
  Rabs (flux m q - flux m q') <= flux_change m rho * pdist q q'.
Proof.
  intros m q q' rho Hm Hr Hw. eapply Rle_trans; [|exact (upstream_change m q q' rho Hm Hr Hw)]. rewrite <- !upstream_norm.
  set (a := upstream m q). set (b := upstream m q').
  assert (A : forall a b, pnorm a - pnorm b <= pnorm (psub a b)).
  { intros x y. enough (pnorm x <= pnorm y + pnorm (psub x y)) by lra. eapply Rle_trans; [|apply pnorm_add]. right. f_equal. unfold psub, padd. destruct x, y. cbn. f_equal; ring. }
  apply Rabs_le. pose proof (A a b). pose proof (A b a). rewrite (pnorm_sub_sym b) in *. lra.
Qed.

(** A trace in an aquifer of any kind, confined or not from place to place, follows the path of the water.  Along the path [w]
    bounds the discharge, [rho] is half the distance kept from the wells, and the potential keeps so far above dry that the
    water is at least [s] deep wherever the trace can go. *)
Lemma c118_unconfined : forall (m : model R) (fuel : nat) (p : pt) (D : R) (tol maxstep : xr) (tr : trace xr) (Z : R -> pt) (w rho s : R),
  physical m -> 0 <= D -> 0 < rho -> 0 < s <= thickness m -> moves (feval false (fmodel m)) Z D -> Z 0 = p ->
  (forall t, 0 <= t <= D -> flux m (Z t) <= w) ->
  (forall t w, 0 <= t <= D -> In w (wells m) -> 2 * rho <= pdist (Z t) (wx w, wy w)) ->
  let G := flux_change m rho in
  let W := w + G * rho in
  (forall t, 0 <= t <= D -> conductivity m * (s * s) / 2 + W * rho <= potential m (fst (Z t)) (snd (Z t))) ->
  compute_backtrace fuel (Fin (fst p)) (Fin (snd p)) (Fin D) tol maxstep (feval false (fmodel m)) = Ok tr ->
  let L := G / (porosity m * s) + W * W / (porosity m * conductivity m * (s * s * s)) in
  let V := W / (porosity m * s) in
  exists l ts, paced (feval false (fmodel m)) tol maxstep D tr l ts /\
    forall H, steps_within H ts -> 50 * L * H <= 1 -> 5 * V * H * (exp (L * D) - 1) + 2 * V * H <= rho ->
      clocked (feval false (fmodel m)) tol maxstep D tr l ts /\
      forall i, (i < length l)%nat -> let t := nth i ts 0 in pdist (nth i l (0, 0)) (Z t) <= 5 * V * H * (exp (L * t) - 1).
Proof.
  intros m fuel p D tol maxstep tr Z w rho s Hm HD Hrho Hs HZ H0 Hw Hd G W Hp Hr L V.
  destruct (unconfined_tame m Z D w rho s Hm Hrho Hs Hw Hd Hp) as [HL HT].
  exact (c105_tube (feval false (fmodel m)) fuel p D tol maxstep tr Z V L rho HD HL ltac:(lra) HZ H0 HT Hr).
Qed.
