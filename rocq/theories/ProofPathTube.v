(** * Traces near a pathline, in any velocity field (C105) *)
From Coq Require Import Reals Lra Lia Psatz List Bool Arith.
From Verif Require Import Py Num NumXR ModelTrace SpecTrace SpecPathline ProofAquifer ProofTrace ProofTraceLoop ProofPathline ProofPathAffine.
Import ListNotations.
Local Open Scope R_scope.

(** ** Curves *)
Lemma curve_bound (Y Y' : R -> pt) a b M : a <= b ->
  (forall t, a <= t <= b -> derivable_pt_lim (fun s => fst (Y s)) t (fst (Y' t)) /\ derivable_pt_lim (fun s => snd (Y s)) t (snd (Y' t))) ->
  (forall t, a <= t <= b -> pnorm (Y' t) <= M) -> pdist (Y a) (Y b) <= M * (b - a).
Proof.
  intros Hab HD HM. rewrite pdist_norm.
  assert (M0 : 0 <= M) by (eapply Rle_trans; [apply pnorm_pos|apply (HM a); lra]).
  apply pnorm_direction; [apply Rmult_le_pos; lra|]. intros u Hu. unfold psub. cbn [fst snd].
  pose proof (compare (fun s => fst u * fst (Y s) + snd u * snd (Y s)) (fun s => fst u * fst (Y' s) + snd u * snd (Y' s)) (fun s => M * s) (fun _ => M) a b Hab) as K.
  cbv beta in K. enough (fst u * fst (Y b) + snd u * snd (Y b) - (fst u * fst (Y a) + snd u * snd (Y a)) <= M * b - M * a) by lra.
  apply K.
  - intros t Ht. destruct (HD t Ht) as [D1 D2]. apply (derivable_pt_lim_plus (fun s => fst u * fst (Y s)) (fun s => snd u * snd (Y s))).
    + exact (derivable_pt_lim_scal _ (fst u) _ _ D1).
    + exact (derivable_pt_lim_scal _ (snd u) _ _ D2).
  - intros t _. eapply deriv_val; [apply (derivable_pt_lim_scal id M), derivable_pt_lim_id|ring].
  - intros t Ht. pose proof (inner_le u (Y' t)) as I. rewrite Hu, Rmult_1_l in I. specialize (HM t Ht). lra.
Qed.

(** ** Combinations of slopes *)
Definition asum (c : list R) : R := fold_right (fun a s => Rabs a + s) 0 c.
Lemma asum_pos c : 0 <= asum c.
Proof. induction c as [|a c IH]; cbn; [lra|]. pose proof (Rabs_pos a). unfold asum in IH. lra. Qed.
Lemma lincomb_bound V : 0 <= V -> forall c ks, Forall (fun k => pnorm k <= V) ks -> pnorm (lincomb c ks) <= asum c * V.
Proof.
  intros HV. induction c as [|a c IH]; intros ks HK.
  - unfold lincomb. cbn. rewrite pnorm_0. lra.
  - destruct ks as [|k ks].
    + unfold lincomb. cbn [combine fold_right]. rewrite pnorm_0. apply Rmult_le_pos; [apply asum_pos|assumption].
    + inversion HK as [|? ? H1 H2]; subst. change (lincomb (a :: c) (k :: ks)) with (padd (pscale a k) (lincomb c ks)).
      eapply Rle_trans; [apply pnorm_add|]. rewrite pnorm_scale. specialize (IH ks H2). change (asum (a :: c)) with (Rabs a + asum c).
      pose proof (Rmult_le_compat_l (Rabs a) _ _ (Rabs_pos a) H1). lra.
Qed.
Definition total_of (c : list R) : R := fold_right Rplus 0 c.
Lemma lincomb_shift k1 : forall c ks, length c = length ks -> lincomb c ks = padd (pscale (total_of c) k1) (lincomb c (map (fun k => psub k k1) ks)).
Proof.
  induction c as [|a c IH]; intros [|k ks] E; try discriminate.
  - unfold lincomb, padd, pscale. cbn. f_equal; ring.
  - injection E as E. specialize (IH ks E). change (lincomb (a :: c) (k :: ks)) with (padd (pscale a k) (lincomb c ks)). rewrite IH. cbn [map].
    change (lincomb (a :: c) (psub k k1 :: map (fun k => psub k k1) ks)) with (padd (pscale a (psub k k1)) (lincomb c (map (fun k => psub k k1) ks))).
    change (total_of (a :: c)) with (a + total_of c). unfold padd, pscale, psub. cbn [fst snd]. f_equal; ring.
Qed.
Ltac abs_const := unfold Rabs; repeat (destruct Rcase_abs; try (exfalso; lra)); lra.
Lemma stage_row i : (i < 7)%nat -> length (nth i dp_a []) = i /\ 0 <= total_of (nth i dp_a []) <= 1 /\ asum (nth i dp_a []) <= 25.
Proof.
  intros Hi. do 7 (destruct i as [|i]; [cbn [nth dp_a asum total_of fold_right length]; split; [reflexivity|split; [lra|abs_const]]|]). lia.
Qed.
Lemma weights_row : length dp_b = 7%nat /\ total_of dp_b = 1 /\ asum dp_b <= 2.
Proof. cbn [dp_b asum total_of fold_right length]. split; [reflexivity|]. split; [lra|abs_const]. Qed.

Lemma pdist_move q d : pdist q (padd q d) = pnorm d.
Proof. rewrite pdist_norm. f_equal. unfold psub, padd. destruct d. cbn. f_equal; ring. Qed.
Lemma pdist_self q : pdist q q = 0.
Proof. rewrite pdist_norm. replace (psub q q) with ((0, 0) : pt) by (unfold psub; f_equal; ring). apply pnorm_0. Qed.

(** ** The velocity along the path *)
Definition velocity (f : vec xr -> res (vec xr)) (q : pt) : pt :=
  match f (fvec q) with Ok (Fin a, Fin b) => (a, b) | _ => (0, 0) end.
Lemma velocity_eq f q u : f (fvec q) = Ok (fvec u) -> velocity f q = u.
Proof. intros E. unfold velocity. rewrite E. destruct u. reflexivity. Qed.

Section Tube.
  Context (f : vec xr -> res (vec xr)) (Z : R -> pt) (D V L rho : R).
  Hypothesis (HZ : moves f Z D) (HT : tame f Z D V L rho) (Hrho : 0 <= rho) (HL : 0 <= L).

  Lemma path_value t : 0 <= t <= D -> exists u, f (fvec (Z t)) = Ok (fvec u) /\ pnorm u <= V.
  Proof. intros Ht. apply (tm_value _ _ _ _ _ _ HT t); [assumption|]. now rewrite pdist_self. Qed.
  Lemma speed_pos t : 0 <= t <= D -> 0 <= V.
  Proof. intros Ht. destruct (path_value t Ht) as (u & _ & K). pose proof (pnorm_pos u). lra. Qed.
  Lemma path_deriv t : 0 <= t <= D ->
    derivable_pt_lim (fun s => fst (Z s)) t (fst (velocity f (Z t))) /\ derivable_pt_lim (fun s => snd (Z s)) t (snd (velocity f (Z t))).
  Proof. intros Ht. destruct (HZ t Ht) as (v & E & D1 & D2). rewrite (velocity_eq _ _ _ E). auto. Qed.
  Lemma path_length a b : 0 <= a -> a <= b -> b <= D -> pdist (Z a) (Z b) <= V * (b - a).
  Proof.
    intros Ha Hab Hb. apply (curve_bound Z (fun t => velocity f (Z t))); [assumption| |]; intros t Ht.
    - apply path_deriv. lra.
    - destruct (path_value t ltac:(lra)) as (u & E & K). now rewrite (velocity_eq _ _ _ E).
  Qed.

  (** One step. *)
  Lemma stage_bounds q s h k1 ks : 0 <= s <= D -> 0 <= h -> 50 * (L * h) <= 1 -> pdist (Z s) q + 2 * (h * V) <= rho ->
    f (fvec q) = Ok (fvec k1) -> slopes f q h ks -> Forall (fun k => pnorm (psub k k1) <= 2 * (L * (h * V))) ks.
  Proof.
    intros Hs Hh HLh Hb Hk1 (Hlen & Hks). pose proof (speed_pos s Hs) as HV. assert (Hhv : 0 <= h * V) by now apply Rmult_le_pos.
    assert (Bk1 : pnorm k1 <= V).
    { destruct (tm_value _ _ _ _ _ _ HT s q Hs ltac:(lra)) as (u & Eu & Ku). assert (X : fvec k1 = fvec u) by congruence. apply fvec_inj in X. now rewrite X. }
    assert (HLhv : 0 <= L * (h * V)) by now apply Rmult_le_pos.
    assert (F : forall i, (i <= 7)%nat -> Forall (fun k => pnorm (psub k k1) <= 2 * (L * (h * V))) (firstn i ks)).
    { induction i as [|i IH]; intros Hi; [constructor|]. specialize (IH ltac:(lia)).
      assert (E : firstn (S i) ks = firstn i ks ++ [nth i ks (0, 0)]).
      { assert (Hl : (i < length ks)%nat) by lia. clear - Hl. revert ks Hl. induction i as [|i IH]; intros ks Hl; destruct ks as [|k ks]; cbn in Hl; try lia; [reflexivity|].
        cbn [firstn nth app]. f_equal. apply IH. lia. }
      rewrite E. apply Forall_app. split; [assumption|]. constructor; [|constructor].
      specialize (Hks i ltac:(lia)). destruct (stage_row i ltac:(lia)) as (R1 & R2 & R3).
      assert (Sy : pdist q (padd q (pscale h (lincomb (nth i dp_a []) (firstn i ks)))) <= 2 * (h * V)).
      { rewrite pdist_move, pnorm_scale, Rabs_pos_eq by assumption. rewrite (lincomb_shift k1) by (rewrite R1, firstn_length_le; [reflexivity|lia]).
        assert (B1 : pnorm (pscale (total_of (nth i dp_a [])) k1) <= V).
        { rewrite pnorm_scale, Rabs_pos_eq by lra. pose proof (pnorm_pos k1). apply Rle_trans with (1 * pnorm k1); [apply Rmult_le_compat_r; lra|lra]. }
        assert (B2 : pnorm (lincomb (nth i dp_a []) (map (fun k => psub k k1) (firstn i ks))) <= 25 * (2 * (L * (h * V)))).
        { eapply Rle_trans; [apply lincomb_bound with (V := 2 * (L * (h * V))); [lra|]|apply Rmult_le_compat_r; lra]. now apply Forall_map. }
        assert (B3 : 25 * (2 * (L * (h * V))) <= V).
        { replace (25 * (2 * (L * (h * V)))) with (50 * (L * h) * V) by ring. apply Rle_trans with (1 * V); [apply Rmult_le_compat_r; lra|lra]. }
        replace (2 * (h * V)) with (h * (V + V)) by ring. apply Rmult_le_compat_l; [assumption|]. eapply Rle_trans; [apply pnorm_add|lra]. }
      set (y := padd q (pscale h (lincomb (nth i dp_a []) (firstn i ks)))) in *.
      pose proof (tm_change _ _ _ _ _ _ HT s y q (nth i ks (0, 0)) k1 Hs) as T. eapply Rle_trans; [apply T; try assumption|].
      - eapply Rle_trans; [apply (pdist_triangle _ q)|]. lra.
      - lra.
      - rewrite pdist_sym. replace (2 * (L * (h * V))) with (L * (2 * (h * V))) by ring. now apply Rmult_le_compat_l. }
    specialize (F 7%nat (le_n 7)). now rewrite <- Hlen, firstn_all in F.
  Qed.

  Lemma step_error q s h ks : 0 <= s -> 0 <= h -> s + h <= D -> 50 * (L * h) <= 1 -> pdist (Z s) q + 2 * (h * V) <= rho -> slopes f q h ks ->
    pdist (Z (s + h)) (padd q (pscale h (lincomb dp_b ks))) <= pdist (Z s) q + h * L * (pdist (Z s) q + 5 * (h * V)).
  Proof.
    intros Hs Hh HD HLh Hb Hks. assert (HV : 0 <= V) by (apply (speed_pos s); lra).
    set (e := pdist (Z s) q) in *. pose proof (pdist_pos (Z s) q) as He. fold e in He. assert (Hhv : 0 <= h * V) by now apply Rmult_le_pos.
    destruct (tm_value _ _ _ _ _ _ HT s q ltac:(lra) ltac:(fold e; lra)) as (k1 & Hk1 & _).
    pose proof (stage_bounds q s h k1 ks ltac:(lra) Hh HLh Hb Hk1 Hks) as Dk. destruct Hks as (Hlen & _). set (w := lincomb dp_b ks).
    destruct weights_row as (W1 & W2 & W3). assert (HLhv : 0 <= L * (h * V)) by now apply Rmult_le_pos.
    assert (Bw : pnorm (psub w k1) <= 4 * (L * (h * V))).
    { assert (Ew : psub w k1 = lincomb dp_b (map (fun k => psub k k1) ks)).
      { unfold w. rewrite (lincomb_shift k1) by congruence. rewrite W2. generalize (lincomb dp_b (map (fun k => psub k k1) ks)). intros [a b]. unfold psub, padd, pscale. cbn [fst snd]. f_equal; ring. }
      rewrite Ew. eapply Rle_trans; [apply lincomb_bound with (V := 2 * (L * (h * V))); [lra|now apply Forall_map]|].
      replace (4 * (L * (h * V))) with (2 * (2 * (L * (h * V)))) by ring. apply Rmult_le_compat_r; lra. }
    (* the velocity on the path against the first slope *)
    assert (Bz : forall t, s <= t <= s + h -> pnorm (psub w (velocity f (Z t))) <= L * (e + 5 * (h * V))).
    { intros t Ht. destruct (path_value t ltac:(lra)) as (u & Eu & Ku). rewrite (velocity_eq _ _ _ Eu).
      assert (P : pdist (Z s) (Z t) <= h * V) by (eapply Rle_trans; [apply path_length; lra|]; rewrite Rmult_comm; apply Rmult_le_compat_r; lra).
      pose proof (tm_change _ _ _ _ _ _ HT s q (Z t) k1 u ltac:(lra) ltac:(fold e; lra) ltac:(lra) Hk1 Eu) as C.
      assert (P2 : pdist q (Z t) <= e + h * V) by (eapply Rle_trans; [apply (pdist_triangle _ (Z s))|]; rewrite (pdist_sym q); fold e; lra).
      pose proof (Rmult_le_compat_l L _ _ HL P2) as P3.
      assert (T : pnorm (psub w u) <= pnorm (psub w k1) + pnorm (psub k1 u)).
      { eapply Rle_trans; [|apply pnorm_add]. right. f_equal. unfold psub, padd. cbn. f_equal; ring. }
      lra. }
    pose proof (curve_bound (fun t => psub (pscale t w) (Z t)) (fun t => psub w (velocity f (Z t))) s (s + h) (L * (e + 5 * (h * V))) ltac:(lra)) as K.
    assert (K' : pdist (psub (pscale s w) (Z s)) (psub (pscale (s + h) w) (Z (s + h))) <= L * (e + 5 * (h * V)) * (s + h - s)).
    { apply K; [|exact Bz]. intros t Ht. destruct (path_deriv t ltac:(lra)) as [D1 D2]. unfold psub, pscale. cbn [fst snd]. split.
      - apply (derivable_pt_lim_minus (fun x => x * fst w) (fun x => fst (Z x))); [|exact D1].
        eapply deriv_val; [apply (derivable_pt_lim_mult id (fct_cte (fst w))); [apply derivable_pt_lim_id|apply derivable_pt_lim_const]|]. unfold id, fct_cte. ring.
      - apply (derivable_pt_lim_minus (fun x => x * snd w) (fun x => snd (Z x))); [|exact D2].
        eapply deriv_val; [apply (derivable_pt_lim_mult id (fct_cte (snd w))); [apply derivable_pt_lim_id|apply derivable_pt_lim_const]|]. unfold id, fct_cte. ring. }
    rewrite pdist_norm in K' |- *. unfold e. rewrite pdist_norm.
    assert (T : psub (padd q (pscale h w)) (Z (s + h)) = padd (psub q (Z s)) (psub (psub (pscale (s + h) w) (Z (s + h))) (psub (pscale s w) (Z s)))).
    { unfold psub, padd, pscale. cbn. f_equal; ring. }
    rewrite T. eapply Rle_trans; [apply pnorm_add|]. rewrite <- pdist_norm. fold e. replace (s + h - s) with h in K' by ring. lra.
  Qed.

  (** The second slope of a step near the path is finite. *)
  Lemma no_wild tol maxstep q s h q' : 0 <= s <= D -> 0 <= h -> pdist (Z s) q + 2 * (h * V) <= rho -> ~ wild_step f tol maxstep q h q'.
  Proof.
    intros Hs Hh Hb (k1 & k2 & k3 & k4 & k5 & k6 & k7 & W1 & W2 & W3 & _). apply W3. pose proof (speed_pos s Hs) as HV. assert (0 <= h * V) by now apply Rmult_le_pos.
    destruct (tm_value _ _ _ _ _ _ HT s q Hs ltac:(lra)) as (u & Eu & Ku). rewrite W1 in Eu. assert (X : fvec k1 = fvec u) by congruence. apply fvec_inj in X. subst u.
    destruct (tm_value _ _ _ _ _ _ HT s (padd q (pscale h (pscale (1 / 5) k1))) Hs) as (u & Eu2 & _).
    - eapply Rle_trans; [apply (pdist_triangle _ q)|]. rewrite pdist_move, !pnorm_scale, (Rabs_pos_eq h), (Rabs_pos_eq (1 / 5)) by lra.
      pose proof (Rmult_le_compat_l h _ _ Hh Ku). lra.
    - exists u. congruence.
  Qed.
End Tube.

Lemma exp_grow x y : x <= y -> exp x <= exp y.
Proof. intros [H| ->]; [left; now apply exp_increasing|right; reflexivity]. Qed.

Lemma paced_trace fuel p D tol maxstep f tr : 0 <= D -> compute_backtrace fuel (Fin (fst p)) (Fin (snd p)) (Fin D) tol maxstep f = Ok tr ->
  exists l ts, paced f tol maxstep D tr l ts /\ nth 0 l (0, 0) = p.
Proof.
  intros HD Hr. destruct (timed_trace _ _ _ _ _ _ _ HD Hr) as (l & ts & E1 & E2 & E3 & E4 & E5 & E6 & E7).
  exists l, ts. split; [|exact E6]. constructor; try assumption. intros i Hi. destruct (E7 i Hi) as (_ & K). exact K.
Qed.
Lemma paced_times f tol maxstep D tr l ts : 0 <= D -> paced f tol maxstep D tr l ts -> forall i, (i < length l)%nat -> 0 <= nth i ts 0 <= D.
Proof.
  intros HD P. induction i as [|i IH]; intros Hi; [rewrite (pc_start _ _ _ _ _ _ _ P); lra|]. destruct (pc_step _ _ _ _ _ _ _ P i Hi) as [K _]. specialize (IH ltac:(lia)). lra.
Qed.

Lemma tube_paced f D tol maxstep tr Z V L rho l ts : 0 <= D -> 0 <= L -> 0 <= rho -> moves f Z D -> tame f Z D V L rho ->
  paced f tol maxstep D tr l ts -> nth 0 l (0, 0) = Z 0 ->
  forall H, steps_within H ts -> 50 * L * H <= 1 -> 5 * V * H * (exp (L * D) - 1) + 2 * V * H <= rho ->
      clocked f tol maxstep D tr l ts /\
      forall i, (i < length l)%nat -> let t := nth i ts 0 in pdist (nth i l (0, 0)) (Z t) <= 5 * V * H * (exp (L * t) - 1).
Proof.
  intros HD HL Hrho HZ HT P E6. pose proof (paced_times f tol maxstep D tr l ts HD P) as Pt. destruct P as [E1 E2 E3 E4 E5 E7'].
  assert (E7 : forall i, (S i < length l)%nat -> 0 <= nth i ts 0 /\ nth i ts 0 < nth (S i) ts 0 <= D /\
    (good_step f tol maxstep (nth i l (0, 0)) (nth (S i) ts 0 - nth i ts 0) (nth (S i) l (0, 0)) \/ wild_step f tol maxstep (nth i l (0, 0)) (nth (S i) ts 0 - nth i ts 0) (nth (S i) l (0, 0)))).
  { intros i Hi. split; [apply Pt; lia|]. now apply E7'. }
  intros H HH HS HB. assert (HV : 0 <= V) by (apply (speed_pos f Z D V L rho HT Hrho 0); lra).
  assert (B : forall i, (i < length l)%nat -> pdist (Z (nth i ts 0)) (nth i l (0, 0)) <= 5 * V * H * (exp (L * nth i ts 0) - 1)).
  { induction i as [|i IH]; intros Hi.
    - rewrite E3, E6, pdist_self, Rmult_0_r, exp_0. lra.
    - specialize (IH ltac:(lia)). destruct (E7 i Hi) as (T0 & [T1 T2] & G). set (s := nth i ts 0) in *. set (t := nth (S i) ts 0) in *. set (q := nth i l (0, 0)) in *.
      assert (HhH : t - s <= H) by (apply HH; rewrite E2; exact Hi). assert (HVH : 0 <= V * H) by (apply Rmult_le_pos; lra).
      assert (Ls : exp (L * s) <= exp (L * D)) by (apply exp_grow, Rmult_le_compat_l; lra).
      assert (Q : pdist (Z s) q + 2 * ((t - s) * V) <= rho).
      { pose proof (Rmult_le_compat_l V _ _ HV HhH). assert (5 * V * H * (exp (L * s) - 1) <= 5 * V * H * (exp (L * D) - 1)) by (apply Rmult_le_compat_l; lra). lra. }
      assert (Q0 : 50 * (L * (t - s)) <= 1) by (pose proof (Rmult_le_compat_l L _ _ HL HhH); lra).
      destruct G as [G|G]; [|now apply (no_wild f Z D V L rho HT Hrho tol maxstep q s) in G; [|lra|lra|exact Q]].
      destruct G as (ks & K1 & K2 & _). rewrite K2.
      pose proof (step_error f Z D V L rho HZ HT Hrho HL q s (t - s) ks T0 ltac:(lra) ltac:(lra) Q0 Q K1) as SE. replace (s + (t - s)) with t in SE by ring.
      eapply Rle_trans; [exact SE|]. set (h := t - s) in *. set (e := pdist (Z s) q) in *.
      assert (Xp : exp (L * t) = exp (L * s) * exp (h * L)) by (rewrite <- exp_plus; f_equal; unfold h; ring).
      assert (Xh : 1 + h * L <= exp (h * L)) by (pose proof (exp_ineq1_le (h * L)); lra).
      assert (Hh : 0 <= h) by (unfold h; lra). assert (HhL : 0 <= h * L) by now apply Rmult_le_pos.
      set (x := exp (L * s)) in *. assert (X0 : 0 < x) by apply exp_pos. rewrite Xp.
      assert (Y : h * L * (e + 5 * (h * V)) <= h * L * (5 * (V * H) * x)).
      { apply Rmult_le_compat_l; [assumption|]. pose proof (Rmult_le_compat_l V _ _ HV HhH). lra. }
      assert (W : 5 * (V * H) * (x * (1 + h * L)) <= 5 * (V * H) * (x * exp (h * L))) by (apply Rmult_le_compat_l; [lra|]; apply Rmult_le_compat_l; lra).
      lra. }
  split.
  - constructor; try assumption. intros i Hi. destruct (E7 i Hi) as (T0 & T12 & G). split; [exact T12|]. destruct T12 as [T1 T2].
    destruct G as [G|G]; [exact G|]. exfalso. revert G. set (s := nth i ts 0) in *. set (t := nth (S i) ts 0) in *. set (q := nth i l (0, 0)) in *.
    assert (HhH : t - s <= H) by (apply HH; rewrite E2; exact Hi). assert (HVH : 0 <= V * H) by (apply Rmult_le_pos; lra).
    specialize (B i ltac:(lia)). fold s q in B.
    assert (Ls : exp (L * s) <= exp (L * D)) by (apply exp_grow, Rmult_le_compat_l; lra).
    apply (no_wild f Z D V L rho HT Hrho tol maxstep q s); [lra|lra|].
    pose proof (Rmult_le_compat_l V _ _ HV HhH). assert (5 * V * H * (exp (L * s) - 1) <= 5 * V * H * (exp (L * D) - 1)) by (apply Rmult_le_compat_l; lra). lra.
  - intros i Hi t. rewrite pdist_sym. now apply B.
Qed.

(** C105.  Any velocity function that is finite and at most [V] in size, and changes by at most [L] per unit length, near
    the path of a particle from the start point: a trace whose steps are short enough for the errors to stay near the path
    ([H] is the longest time step) has every vertex within 5 V H (e^(L t) - 1) of the particle at the time [t] of the
    vertex.  The distance is of the first order in the time step. *)
Lemma c105_tube : forall (f : vec xr -> res (vec xr)) (fuel : nat) (p : pt) (D : R) (tol maxstep : xr) (tr : trace xr) (Z : R -> pt) (V L rho : R),
  0 <= D -> 0 <= L -> 0 <= rho -> moves f Z D -> Z 0 = p -> tame f Z D V L rho ->
  compute_backtrace fuel (Fin (fst p)) (Fin (snd p)) (Fin D) tol maxstep f = Ok tr ->
  exists l ts, paced f tol maxstep D tr l ts /\
    forall H, steps_within H ts -> 50 * L * H <= 1 -> 5 * V * H * (exp (L * D) - 1) + 2 * V * H <= rho ->
      clocked f tol maxstep D tr l ts /\
      forall i, (i < length l)%nat -> let t := nth i ts 0 in pdist (nth i l (0, 0)) (Z t) <= 5 * V * H * (exp (L * t) - 1).
Proof.
  intros f fuel p D tol maxstep tr Z V L rho HD HL Hrho HZ H0 HT Hr. destruct (paced_trace _ _ _ _ _ _ _ HD Hr) as (l & ts & P & E).
  exists l, ts. split; [exact P|]. apply (tube_paced f D tol maxstep tr Z V L rho l ts); try assumption. congruence.
Qed.
