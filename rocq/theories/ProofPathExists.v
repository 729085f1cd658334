(** * The water that a trace follows (C107)

    A trace in a confined aquifer that keeps away from the wells has a path of the water beside it.  The path is that of a
    velocity field that is changed near the wells, where neither the path nor the trace comes. *)
From Coq Require Import Reals Lra Lia Psatz List Bool Arith.
From Verif Require Import Py Num NumXR ModelField ModelAquifer ModelTrace ModelDist ModelDriver ModelMain
  SpecAquifer SpecFit SpecTrace SpecDist SpecDriver SpecMain SpecPathline SpecField SpecWhole SpecPathZone
  ProofPi ProofAquifer ProofTrace ProofTraceLoop ProofTraceFlow ProofPathline ProofPathAffine ProofPathProgram ProofPathTube ProofPathWells ProofPathZone ProofPathRun ProofWhole ProofPicard.
Import ListNotations.
Local Open Scope R_scope.

(** ** The velocity with blunt wells *)
Definition blunt (r : R) (x : pt) : pt := pscale (/ Rmax (pnorm x * pnorm x) (r * r)) x.
Lemma blunt_radial r x : 0 < r -> r <= pnorm x -> blunt r x = radial x.
Proof. intros Hr H. unfold blunt, radial. rewrite Rmax_left; [reflexivity|]. apply Rmult_le_compat; lra. Qed.
Lemma blunt_change x y r : 0 < r -> pnorm (psub (blunt r x) (blunt r y)) <= / (r * r) * pnorm (psub x y).
Proof.
  intros Hr. assert (Rr : 0 < r * r) by now apply Rmult_lt_0_compat. assert (Ir : 0 < / (r * r)) by now apply Rinv_0_lt_compat.
  assert (Mixed : forall x y, pnorm x <= r -> r <= pnorm y -> pnorm (psub (blunt r x) (blunt r y)) <= / (r * r) * pnorm (psub x y)).
  { clear x y. intros x y Hx Hy. pose proof (pnorm_pos x) as Px. unfold blunt. rewrite (Rmax_right (pnorm x * pnorm x)) by (apply Rmult_le_compat; lra).
    rewrite (Rmax_left (pnorm y * pnorm y)) by (apply Rmult_le_compat; lra). assert (Hb : r * r <= pnorm y * pnorm y) by (apply Rmult_le_compat; lra).
    assert (Ha : pnorm x * pnorm x <= r * r) by (apply Rmult_le_compat; lra). set (b := pnorm y * pnorm y) in *. set (c := r * r) in *.
    apply le_of_sq; [apply Rmult_le_pos; [lra|apply pnorm_pos]|].
    replace (/ c * pnorm (psub x y) * (/ c * pnorm (psub x y))) with (/ (c * c) * (pnorm (psub x y) * pnorm (psub x y))) by (field; lra).
    rewrite !pnorm_sq in *. unfold psub, pscale. cbn [fst snd]. set (x1 := fst x) in *. set (x2 := snd x) in *. set (y1 := fst y) in *. set (y2 := snd y) in *.
    apply Rmult_le_reg_r with (c * c * (b * b)); [apply Rmult_lt_0_compat; apply Rmult_lt_0_compat; lra|].
    replace (((/ c * x1 - / b * y1) * (/ c * x1 - / b * y1) + (/ c * x2 - / b * y2) * (/ c * x2 - / b * y2)) * (c * c * (b * b)))
      with ((b * x1 - c * y1) * (b * x1 - c * y1) + (b * x2 - c * y2) * (b * x2 - c * y2)) by (field; lra).
    replace (/ (c * c) * ((x1 - y1) * (x1 - y1) + (x2 - y2) * (x2 - y2)) * (c * c * (b * b))) with (((x1 - y1) * (x1 - y1) + (x2 - y2) * (x2 - y2)) * (b * b)) by (field; lra).
    (* difference: b (b - c) (b + c - 2 x.y) *)
    assert (In : 2 * (x1 * y1 + x2 * y2) <= c + b).
    { assert (b = y1 * y1 + y2 * y2) by exact (pnorm_sq y). pose proof (Rle_0_sqr (x1 - y1)). pose proof (Rle_0_sqr (x2 - y2)). unfold Rsqr in *. lra. }
    assert (Eb : y1 * y1 + y2 * y2 = b) by (symmetry; exact (pnorm_sq y)).
    assert (Df : ((x1 - y1) * (x1 - y1) + (x2 - y2) * (x2 - y2)) * (b * b) - ((b * x1 - c * y1) * (b * x1 - c * y1) + (b * x2 - c * y2) * (b * x2 - c * y2))
       = (b - c) * ((b + c) * (y1 * y1 + y2 * y2) - 2 * b * (x1 * y1 + x2 * y2))) by ring.
    rewrite Eb in Df. assert (0 <= (b - c) * ((b + c) * b - 2 * b * (x1 * y1 + x2 * y2))); [|lra].
    apply Rmult_le_pos; [lra|]. replace ((b + c) * b - 2 * b * (x1 * y1 + x2 * y2)) with (b * (c + b - 2 * (x1 * y1 + x2 * y2))) by ring. apply Rmult_le_pos; lra. }
  destruct (Rle_or_lt r (pnorm x)) as [Hx|Hx], (Rle_or_lt r (pnorm y)) as [Hy|Hy].
  - rewrite !blunt_radial by assumption. now apply radial_change.
  - rewrite pnorm_sub_sym, (pnorm_sub_sym x y). apply Mixed; lra.
  - apply Mixed; lra.
  - unfold blunt. rewrite !Rmax_right by (apply Rmult_le_compat; try apply pnorm_pos; lra).
    replace (psub (pscale (/ (r * r)) x) (pscale (/ (r * r)) y)) with (pscale (/ (r * r)) (psub x y)) by (unfold psub, pscale; cbn; f_equal; ring).
    rewrite pnorm_scale, Rabs_pos_eq by lra. lra.
Qed.

Definition blunt_wells (r : R) (ws : list (well R)) (q : pt) : pt := fold_right (fun w s => padd (pscale (wq w) (blunt r (psub q (wloc w)))) s) (0, 0) ws.
Lemma blunt_wells_change r q q' ws : 0 < r ->
  pnorm (psub (blunt_wells r ws q) (blunt_wells r ws q')) <= Rsum (fun w => Rabs (wq w)) ws / (r * r) * pdist q q'.
Proof.
  intros Hr. assert (Rr : 0 < r * r) by now apply Rmult_lt_0_compat. induction ws as [|w ws IH].
  - cbn. replace (psub (0, 0) (0, 0)) with ((0, 0) : pt) by (unfold psub; cbn; f_equal; ring). rewrite pnorm_0. unfold Rdiv. lra.
  - change (blunt_wells r (w :: ws) q) with (padd (pscale (wq w) (blunt r (psub q (wloc w)))) (blunt_wells r ws q)).
    change (blunt_wells r (w :: ws) q') with (padd (pscale (wq w) (blunt r (psub q' (wloc w)))) (blunt_wells r ws q')).
    change (Rsum (fun w => Rabs (wq w)) (w :: ws)) with (Rabs (wq w) + Rsum (fun w => Rabs (wq w)) ws).
    assert (E : forall c a b s s', psub (padd (pscale c a) s) (padd (pscale c b) s') = padd (pscale c (psub a b)) (psub s s')).
    { intros. unfold psub, padd, pscale. cbn. f_equal; ring. }
    rewrite E. eapply Rle_trans; [apply pnorm_add|]. rewrite pnorm_scale.
    pose proof (blunt_change (psub q (wloc w)) (psub q' (wloc w)) r Hr) as C.
    replace (psub (psub q (wloc w)) (psub q' (wloc w))) with (psub q q') in C by (unfold psub; cbn; f_equal; ring).
    rewrite (pnorm_sub_sym q q'), <- (pdist_norm q q') in C. pose proof (Rmult_le_compat_l _ _ _ (Rabs_pos (wq w)) C) as C'.
    unfold Rdiv in *. lra.
Qed.
Lemma blunt_wells_eq r ws q : 0 < r -> (forall w, In w ws -> r <= pdist (wloc w) q) -> blunt_wells r ws q = wells_velocity ws q.
Proof.
  intros Hr. induction ws as [|w ws IH]; intros H; [reflexivity|]. cbn [blunt_wells wells_velocity fold_right]. fold (blunt_wells r ws q). fold (wells_velocity ws q).
  rewrite IH by (intros w' Hw; apply H; now right). rewrite blunt_radial; [reflexivity|exact Hr|]. rewrite <- pdist_norm. apply H. now left.
Qed.

Definition blunt_velocity (m : model R) (r : R) (q : pt) : pt :=
  padd (flow (regional m) q) (pscale (2 * kappa / (porosity m * thickness m)) (blunt_wells r (wells m) q)).

Lemma gradient_pos m r : physical m -> 0 < r -> 0 <= gradient m r.
Proof.
  intros (_ & Hn & HH) Hr. unfold gradient. apply Rmult_le_pos; [|left; apply Rinv_0_lt_compat; now apply Rmult_lt_0_compat].
  apply Rplus_le_le_0_compat; [apply sqrt_pos|]. apply Rmult_le_pos; [apply rsum_abs_pos|left; apply Rinv_0_lt_compat]. assert (0 < r * r) by now apply Rmult_lt_0_compat. lra.
Qed.
Lemma blunt_velocity_change m r q q' : physical m -> 0 < r -> pnorm (psub (blunt_velocity m r q) (blunt_velocity m r q')) <= gradient m r * pdist q q'.
Proof.
  intros Hm Hr. assert (Hs : 0 < porosity m * thickness m) by (destruct Hm as (_ & ? & ?); now apply Rmult_lt_0_compat).
  assert (Rr : 0 < r * r) by now apply Rmult_lt_0_compat. unfold blunt_velocity, gradient. set (c := coef m).
  assert (E : psub (padd (flow (regional m) q) (pscale (2 * kappa / (porosity m * thickness m)) (blunt_wells r (wells m) q)))
                   (padd (flow (regional m) q') (pscale (2 * kappa / (porosity m * thickness m)) (blunt_wells r (wells m) q')))
            = padd (lin (regional m) (psub q q')) (pscale (2 * kappa / (porosity m * thickness m)) (psub (blunt_wells r (wells m) q) (blunt_wells r (wells m) q')))).
  { unfold flow, lin, psub, padd, pscale. cbn [fst snd]. f_equal; ring. }
  rewrite E. eapply Rle_trans; [apply pnorm_add|]. rewrite pnorm_scale. rewrite Rabs_pos_eq by (pose proof kappa_small; apply Rmult_le_pos; [lra|left; now apply Rinv_0_lt_compat]).
  assert (F : pnorm (lin (regional m) (psub q q')) <= sqrt (4 * cA c ^ 2 + 2 * cC c ^ 2 + 4 * cB c ^ 2) / (porosity m * thickness m) * pdist q q').
  { pose proof (frobenius (regional m) (psub q q')) as F. rewrite pdist_norm, (pnorm_sub_sym q' q).
    enough (X : sqrt (axx (regional m) * axx (regional m) + axy (regional m) * axy (regional m) + ayx (regional m) * ayx (regional m) + ayy (regional m) * ayy (regional m))
      = sqrt (4 * cA c ^ 2 + 2 * cC c ^ 2 + 4 * cB c ^ 2) / (porosity m * thickness m)) by (rewrite X in F; exact F).
    rewrite <- (sqrt_square (porosity m * thickness m)) at 1 by lra. rewrite <- sqrt_div by nra. f_equal. unfold regional, c. cbn [axx axy ayx ayy]. field.
    destruct Hm as (_ & ? & ?). split; lra. }
  pose proof (blunt_wells_change r q q' (wells m) Hr) as W. pose proof (rsum_abs_pos (wells m)) as HS. set (A := Rsum (fun w => Rabs (wq w)) (wells m)) in *.
  set (d := pdist q q') in *. assert (Hd : 0 <= d) by apply pdist_pos.
  assert (Is : 0 < / (porosity m * thickness m)) by now apply Rinv_0_lt_compat.
  assert (W' : 2 * kappa / (porosity m * thickness m) * pnorm (psub (blunt_wells r (wells m) q) (blunt_wells r (wells m) q')) <= (A / (6 * (r * r))) / (porosity m * thickness m) * d).
  { pose proof kappa_small as K. unfold Rdiv at 1. apply Rle_trans with (/ 6 * / (porosity m * thickness m) * (A / (r * r) * d)).
    - apply Rmult_le_compat; [apply Rmult_le_pos; lra|apply pnorm_pos|apply Rmult_le_compat_r; lra|exact W].
    - right. field. repeat split; try lra; destruct Hm as (_ & ? & ?); lra. }
  unfold Rdiv in *. lra.
Qed.
Lemma off_of_distance ws (q : pt) r : 0 < r -> (forall w, In w ws -> r <= pdist (wloc w) q) -> off_wells ws (fst q) (snd q).
Proof.
  intros Hr H w Hin [E1 E2]. specialize (H w Hin). replace q with (wloc w) in H by (unfold wloc; rewrite <- E1, <- E2; destruct q; reflexivity). rewrite pdist_self in H. lra.
Qed.
Lemma blunt_agrees m f r q : physical m -> upstream true m f -> 0 < r -> (forall w, In w (wells m) -> r <= pdist (wloc w) q) -> f (fvec q) = Ok (fvec (blunt_velocity m r q)).
Proof.
  intros Hm Hf Hr H. pose proof (off_of_distance _ _ _ Hr H) as O. rewrite (upstream_confined m f q Hm Hf O), (confined_velocity m q Hm O). unfold blunt_velocity. now rewrite blunt_wells_eq.
Qed.

(** ** One step *)
Section Follow.
  Context (m : model R) (f : vec xr -> res (vec xr)) (v rho : R).
  Hypothesis (Hm : physical m) (Hf : upstream true m f) (Hrho : 0 < rho).
  Let L := gradient m rho.
  Let V := v + L * rho.
  Let g := blunt_velocity m rho.

  Lemma step_direction tol maxstep q h q' : 0 <= h -> 50 * (L * h) <= 1 -> 2 * (h * V) <= rho ->
    (forall u, f (fvec q) = Ok (fvec u) -> pnorm u <= v) -> (forall w, In w (wells m) -> 2 * rho <= pdist q (wx w, wy w)) ->
    good_step f tol maxstep q h q' \/ wild_step f tol maxstep q h q' ->
    exists w, q' = padd q (pscale h w) /\ 0 <= V /\ pnorm w <= 2 * V /\ pnorm (psub w (g q)) <= 4 * (L * (h * V)).
  Proof.
    intros Hh HLh HB Hv Hd G.
    assert (Hd' : forall w, In w (wells m) -> rho <= pdist (wloc w) q) by (intros w Hw; specialize (Hd w Hw); rewrite pdist_sym in Hd; unfold wloc; lra).
    pose proof (blunt_agrees m f rho q Hm Hf Hrho Hd') as Eg. fold g in Eg.
    destruct (confined_tame_at m f (fun _ => q) 0 v rho Hm Hrho (fun x Ho => upstream_confined m f x Hm Hf Ho)) as [HL HT].
    { intros t _. exists (g q). split; [exact Eg|now apply Hv]. }
    { intros t w _ Hw. now apply Hd. }
    change (tame f (fun _ => q) 0 V L rho) in HT. change (0 <= L) in HL.
    assert (Z0 : pdist ((fun _ : R => q) 0) q = 0) by apply pdist_self.
    assert (HV : 0 <= V) by (apply (speed_pos f (fun _ => q) 0 V L rho HT ltac:(lra) 0); lra).
    destruct G as [G|G].
    - destruct G as (ks & K1 & K2 & _). exists (lincomb dp_b ks). split; [exact K2|]. split; [exact HV|].
      pose proof (stage_bounds f (fun _ => q) 0 V L rho HT ltac:(lra) HL q 0 h (g q) ks ltac:(lra) Hh HLh ltac:(rewrite pdist_self; lra) Eg K1) as Dk.
      assert (Bk : pnorm (g q) <= V) by (pose proof (Hv _ Eg); assert (0 <= L * rho) by (apply Rmult_le_pos; lra); unfold V; lra).
      destruct K1 as (Hlen & _). destruct weights_row as (W1 & W2 & W3). assert (HLhv : 0 <= L * (h * V)) by (apply Rmult_le_pos; [exact HL|now apply Rmult_le_pos]).
      assert (Bw : pnorm (psub (lincomb dp_b ks) (g q)) <= 4 * (L * (h * V))).
      { assert (Ew : psub (lincomb dp_b ks) (g q) = lincomb dp_b (map (fun k => psub k (g q)) ks)).
        { rewrite (lincomb_shift (g q)) by congruence. rewrite W2. generalize (lincomb dp_b (map (fun k => psub k (g q)) ks)). intros [a b]. unfold psub, padd, pscale. cbn [fst snd]. f_equal; ring. }
        rewrite Ew. eapply Rle_trans; [apply lincomb_bound with (V := 2 * (L * (h * V))); [lra|now apply Forall_map]|].
        replace (4 * (L * (h * V))) with (2 * (2 * (L * (h * V)))) by ring. apply Rmult_le_compat_r; lra. }
      split; [|exact Bw].
      assert (T : pnorm (lincomb dp_b ks) <= pnorm (psub (lincomb dp_b ks) (g q)) + pnorm (g q)).
      { eapply Rle_trans; [|apply pnorm_add]. right. f_equal. unfold psub, padd. destruct (lincomb dp_b ks). cbn. f_equal; ring. }
      assert (B3 : 4 * (L * (h * V)) <= V).
      { replace (4 * (L * (h * V))) with (4 * (L * h) * V) by ring. assert (0 <= L * h) by now apply Rmult_le_pos. apply Rle_trans with (1 * V); [apply Rmult_le_compat_r; lra|lra]. }
      lra.
    - exfalso. revert G. apply (no_wild f (fun _ => q) 0 V L rho HT ltac:(lra) tol maxstep q 0 h q'); [lra|exact Hh|]. rewrite pdist_self. lra.
  Qed.

  (** The water and the straight line of a step. *)
  Lemma step_follow Z s q w h H : 0 <= h -> h <= H -> 0 <= V -> 50 * (L * h) <= 1 -> pnorm w <= 2 * V -> pnorm (psub w (g q)) <= 4 * (L * (h * V)) ->
    (forall t, s <= t <= s + h -> derivable_pt_lim (fun x => fst (Z x)) t (fst (g (Z t))) /\ derivable_pt_lim (fun x => snd (Z x)) t (snd (g (Z t)))) ->
    pdist (Z s) q <= 6 * V * H * (exp (L * s) - 1) ->
    forall t, s <= t <= s + h -> pdist (Z t) (padd q (pscale (t - s) w)) <= 6 * V * H * (exp (L * t) - 1).
  Proof.
    intros Hh HhH HV HLh Bw Bg HZ He t Ht. pose proof (gradient_pos m rho Hm Hrho) as HL. fold L in HL.
    assert (Bk : pnorm w <= 2 * V) by exact Bw.
    pose proof (near_path g L Z (fun x => padd q (pscale (x - s) w)) (fun _ => w) s t (6 * V * H) ltac:(lra) HL) as N.
    assert (HVH : 0 <= V * H) by (apply Rmult_le_pos; lra).
    assert (N1 : pdist (Z t) (padd q (pscale (t - s) w)) <= pdist (Z s) (padd q (pscale (s - s) w)) * exp (L * (t - s)) + 6 * V * H * (exp (L * (t - s)) - 1)).
    { apply N.
      - lra.
      - intros a b. now apply blunt_velocity_change.
      - intros x Hx. apply HZ. lra.
      - intros x Hx. unfold padd, pscale. cbn [fst snd]. split.
        + eapply deriv_val; [apply (derivable_pt_lim_plus (fct_cte (fst q)) (fun x => (x - s) * fst w)); [apply derivable_pt_lim_const|]|apply Rplus_0_l].
          eapply deriv_val; [apply (derivable_pt_lim_mult (fun x => x - s) (fct_cte (fst w))); [apply (derivable_pt_lim_minus id (fct_cte s)); [apply derivable_pt_lim_id|apply derivable_pt_lim_const]|apply derivable_pt_lim_const]|]. unfold fct_cte. ring.
        + eapply deriv_val; [apply (derivable_pt_lim_plus (fct_cte (snd q)) (fun x => (x - s) * snd w)); [apply derivable_pt_lim_const|]|apply Rplus_0_l].
          eapply deriv_val; [apply (derivable_pt_lim_mult (fun x => x - s) (fct_cte (snd w))); [apply (derivable_pt_lim_minus id (fct_cte s)); [apply derivable_pt_lim_id|apply derivable_pt_lim_const]|apply derivable_pt_lim_const]|]. unfold fct_cte. ring.
      - intros x Hx. set (y := padd q (pscale (x - s) w)).
        assert (T : pnorm (psub w (g y)) <= pnorm (psub w (g q)) + pnorm (psub (g q) (g y))).
        { eapply Rle_trans; [|apply pnorm_add]. right. f_equal. unfold psub, padd. cbn. f_equal; ring. }
        pose proof (blunt_velocity_change m rho q y Hm Hrho) as C. fold g L in C. unfold y in C at 2. rewrite pdist_move, pnorm_scale, Rabs_pos_eq in C by lra.
        assert (X : (x - s) * pnorm w <= h * (2 * V)) by (apply Rmult_le_compat; try lra; apply pnorm_pos).
        pose proof (Rmult_le_compat_l L _ _ HL X) as X1. assert (X2 : h * V <= V * H) by (rewrite Rmult_comm; apply Rmult_le_compat_l; lra).
        pose proof (Rmult_le_compat_l L _ _ HL X2) as X3. lra. }
    eapply Rle_trans; [exact N1|]. replace (padd q (pscale (s - s) w)) with q by (unfold padd, pscale; destruct q; cbn; f_equal; ring).
    assert (Xp : exp (L * t) = exp (L * s) * exp (L * (t - s))) by (rewrite <- exp_plus; f_equal; ring). rewrite Xp. set (E := exp (L * (t - s))). assert (HE : 0 < E) by apply exp_pos.
    pose proof (Rmult_le_compat_r E _ _ ltac:(lra) He). lra.
  Qed.
End Follow.

(** ** The path *)
Lemma follow_exists m f D tol maxstep tr l ts v rho H : physical m -> upstream true m f -> 0 <= D -> paced f tol maxstep D tr l ts -> (0 < length l)%nat ->
  0 < rho -> 0 <= H ->
  calm m f v rho l -> steps_within H ts ->
  let L := gradient m rho in let V := v + L * rho in let T := last ts 0 in
  50 * L * H <= 1 -> 6 * V * H * (exp (L * T) - 1) + 2 * V * H <= rho ->
  exists Z, Z 0 = nth 0 l (0, 0) /\ moves f Z T /\ (forall t w, 0 <= t <= T -> In w (wells m) -> rho <= pdist (Z t) (wx w, wy w)) /\
    0 <= T <= D /\ (forall i, (i < length l)%nat -> 0 <= nth i ts 0 <= T /\ pdist (nth i l (0, 0)) (Z (nth i ts 0)) <= 6 * V * H * (exp (L * nth i ts 0) - 1)) /\
    beside (6 * V * H * (exp (L * T) - 1)) l Z T.
Proof.
  intros Hm Hf HD P Pl Hrho HH Hq HS L V T H50 HB.
  pose proof (gradient_pos m rho Hm Hrho) as HL. fold L in HL.
  pose proof (paced_times f tol maxstep D tr l ts HD P) as Pt.
  pose proof (pc_length _ _ _ _ _ _ _ P) as El. assert (ET : T = nth (length l - 1) ts 0) by (unfold T; rewrite last_as_nth; congruence).
  assert (HT0 : 0 <= T <= D) by (rewrite ET; apply Pt; lia).
  assert (Mono : forall j i, (i + j < length l)%nat -> nth i ts 0 <= nth (i + j) ts 0).
  { induction j as [|j IH]; intros i Hi; [rewrite Nat.add_0_r; lra|]. specialize (IH i ltac:(lia)). destruct (pc_step _ _ _ _ _ _ _ P (i + j)%nat ltac:(lia)) as [K _].
    replace (i + S j)%nat with (S (i + j)) by lia. lra. }
  assert (Upto : forall i, (i < length l)%nat -> nth i ts 0 <= T).
  { intros i Hi. rewrite ET. specialize (Mono (length l - 1 - i)%nat i ltac:(lia)). replace (i + (length l - 1 - i))%nat with (length l - 1)%nat in Mono by lia. exact Mono. }
  set (g := blunt_velocity m rho). set (q0 := nth 0 l (0, 0)).
  destruct (picard_path g L T q0 ltac:(lra) HL (fun a b => blunt_velocity_change m rho a b Hm Hrho)) as (Z & Z0 & HZ).
  (* the speed bound is not negative *)
  assert (HV : 0 <= V).
  { assert (I0 : In q0 l) by (apply nth_In; exact Pl). destruct (Hq q0 I0) as [Q1 Q2].
    assert (F0 : f (fvec q0) = Ok (fvec (g q0))) by (apply blunt_agrees; try assumption; intros w Hw; specialize (Q2 w Hw); rewrite pdist_sym in Q2; unfold wloc; lra).
    specialize (Q1 _ F0). pose proof (pnorm_pos (g q0)). assert (0 <= L * rho) by (apply Rmult_le_pos; lra). unfold V. lra. }
  assert (HVH : 0 <= V * H) by now apply Rmult_le_pos.
  assert (ExpT : forall t, 0 <= t <= T -> 1 <= exp (L * t) /\ exp (L * t) <= exp (L * T)).
  { intros t Ht. split; [|apply exp_grow, Rmult_le_compat_l; lra]. pose proof (exp_ineq1_le (L * t)). assert (0 <= L * t) by (apply Rmult_le_pos; lra). lra. }
  assert (Dir : forall i, (S i < length l)%nat -> let h := nth (S i) ts 0 - nth i ts 0 in 0 < h <= H /\ exists w,
      nth (S i) l (0, 0) = padd (nth i l (0, 0)) (pscale h w) /\ pnorm w <= 2 * V /\ pnorm (psub w (g (nth i l (0, 0)))) <= 4 * (L * (h * V))).
  { intros i Hi h. destruct (pc_step _ _ _ _ _ _ _ P i Hi) as [[K1 K2] G]. fold h in G. assert (HhH : h <= H) by (unfold h; apply HS; rewrite El; exact Hi). split; [unfold h in *; lra|].
    destruct (Hq (nth i l (0, 0)) ltac:(apply nth_In; lia)) as [Q1 Q2].
    destruct (step_direction m f v rho Hm Hf Hrho tol maxstep (nth i l (0, 0)) h (nth (S i) l (0, 0))) as (w & W1 & _ & W3 & W4).
    - unfold h. lra.
    - fold L. pose proof (Rmult_le_compat_l L _ _ HL HhH). lra.
    - fold L V. pose proof (Rmult_le_compat_l V _ _ HV HhH) as X. destruct (ExpT T ltac:(lra)) as [X1 _]. assert (0 <= 6 * V * H * (exp (L * T) - 1)) by (apply Rmult_le_pos; lra). lra.
    - exact Q1.
    - exact Q2.
    - exact G.
    - exists w. auto. }
  assert (Line : forall i w, (S i < length l)%nat -> pdist (Z (nth i ts 0)) (nth i l (0, 0)) <= 6 * V * H * (exp (L * nth i ts 0) - 1) ->
      let h := nth (S i) ts 0 - nth i ts 0 in pnorm w <= 2 * V -> pnorm (psub w (g (nth i l (0, 0)))) <= 4 * (L * (h * V)) -> 0 < h <= H ->
      forall t, nth i ts 0 <= t <= nth (S i) ts 0 -> pdist (Z t) (padd (nth i l (0, 0)) (pscale (t - nth i ts 0) w)) <= 6 * V * H * (exp (L * t) - 1)).
  { intros i w Hi He h W3 W4 Hh t Ht. pose proof (Pt i ltac:(lia)). pose proof (Upto (S i) Hi).
    apply (step_follow m v rho Hm Hrho Z (nth i ts 0) (nth i l (0, 0)) w h H); fold L V; try assumption; try lra.
    - pose proof (Rmult_le_compat_l L _ _ HL (proj2 Hh)). lra.
    - intros x Hx. unfold h in Hx. apply HZ. lra.
    - unfold h. lra. }
  assert (B : forall i, (i < length l)%nat -> pdist (Z (nth i ts 0)) (nth i l (0, 0)) <= 6 * V * H * (exp (L * nth i ts 0) - 1)).
  { induction i as [|i IH]; intros Hi.
    - rewrite (pc_start _ _ _ _ _ _ _ P), Z0. fold q0. rewrite pdist_self, Rmult_0_r, exp_0. lra.
    - specialize (IH ltac:(lia)). destruct (Dir i Hi) as (Hh & w & W1 & W3 & W4). rewrite W1. apply (Line i w Hi IH W3 W4 Hh). lra. }
  (* every time is in a step *)
  assert (At : forall t, 0 <= t <= T -> exists i w, (i < length l)%nat /\ nth i ts 0 <= t /\ t - nth i ts 0 <= H /\ pnorm w <= 2 * V /\
      pdist (Z t) (padd (nth i l (0, 0)) (pscale (t - nth i ts 0) w)) <= 6 * V * H * (exp (L * t) - 1) /\ on_track l (padd (nth i l (0, 0)) (pscale (t - nth i ts 0) w))).
  { intros t Ht. destruct (interval_of ts t) with (n := (length l - 1)%nat) as [E0|(i & Hi & Hb)].
    - rewrite (pc_start _ _ _ _ _ _ _ P). lra.
    - rewrite <- ET. lra.
    - exists 0%nat, (0, 0). replace (padd (nth 0 l (0, 0)) (pscale (t - nth 0 ts 0) (0, 0))) with q0 by (unfold q0, padd, pscale; destruct (nth 0 l (0, 0)); cbn; f_equal; ring).
      split; [exact Pl|]. split; [lra|]. split; [lra|]. split; [rewrite pnorm_0; lra|]. split; [|left; apply nth_In; exact Pl].
      specialize (B 0%nat Pl). rewrite <- E0 in B. exact B.
    - assert (Hi' : (S i < length l)%nat) by lia. destruct (Dir i Hi') as (Hh & w & W1 & W3 & W4). exists i, w. split; [lia|]. split; [lra|]. split; [lra|]. split; [exact W3|].
      split; [exact (Line i w Hi' (B i ltac:(lia)) W3 W4 Hh t Hb)|].
      right. exists (nth i l (0, 0)), (nth (S i) l (0, 0)). split; [exists i; split; apply nth_error_nth'; lia|].
      set (h := nth (S i) ts 0 - nth i ts 0) in *. exists ((t - nth i ts 0) / h). split.
      + split; [apply Rmult_le_pos; [lra|left; apply Rinv_0_lt_compat; lra]|]. apply Rmult_le_reg_r with h; [lra|]. unfold Rdiv. rewrite Rmult_assoc, Rinv_l by lra. unfold h. lra.
      + rewrite W1. unfold padd, pscale. cbn [fst snd]. f_equal; field; lra. }
  assert (Near : forall t w, 0 <= t <= T -> In w (wells m) -> rho <= pdist (wloc w) (Z t)).
  { intros t o Ht Ho. destruct (At t Ht) as (i & w & Hi & H1 & H2 & W3 & X & _). destruct (Hq (nth i l (0, 0)) ltac:(apply nth_In; exact Hi)) as [_ Q2]. specialize (Q2 o Ho).
    set (y := padd (nth i l (0, 0)) (pscale (t - nth i ts 0) w)) in *.
    assert (Y : pdist (nth i l (0, 0)) y <= 2 * V * H).
    { unfold y. rewrite pdist_move, pnorm_scale, Rabs_pos_eq by lra. replace (2 * V * H) with (H * (2 * V)) by ring. apply Rmult_le_compat; try lra. apply pnorm_pos. }
    pose proof (pdist_triangle (nth i l (0, 0)) y (wloc o)) as T1. pose proof (pdist_triangle y (Z t) (wloc o)) as T2. rewrite (pdist_sym y (Z t)) in T2. rewrite (pdist_sym (wloc o)). unfold wloc in *.
    destruct (ExpT t Ht) as [X1 X2]. assert (6 * V * H * (exp (L * t) - 1) <= 6 * V * H * (exp (L * T) - 1)) by (apply Rmult_le_compat_l; lra). lra. }
  exists Z. split; [exact Z0|]. split; [|split; [|split; [exact HT0|split]]].
  - intros t Ht. exists (g (Z t)). split; [|exact (HZ t Ht)]. apply blunt_agrees; try assumption. intros w Hw. now apply Near.
  - intros t w Ht Hw. rewrite pdist_sym. now apply (Near t w).
  - intros i Hi. split; [split; [now apply Pt|now apply Upto]|]. rewrite pdist_sym. now apply B.
  - split.
    + intros x [Hx|(a & b & (k & N1 & N2) & (th & Hth & Eq))].
      * destruct (In_nth _ _ (0, 0) Hx) as (i & Hi & Ei). exists (nth i ts 0). split; [split; [now apply Pt|now apply Upto]|]. rewrite <- Ei, pdist_sym. eapply Rle_trans; [exact (B i Hi)|].
        destruct (ExpT (nth i ts 0)) as [_ X2]; [split; [now apply Pt|now apply Upto]|]. apply Rmult_le_compat_l; lra.
      * assert (Hk : (S k < length l)%nat) by (apply nth_error_Some; rewrite N2; discriminate).
        assert (X1 : nth k l (0, 0) = a) by exact (nth_error_nth _ _ _ N1). assert (X2 : nth (S k) l (0, 0) = b) by exact (nth_error_nth _ _ _ N2).
        destruct (Dir k Hk) as (Hh & w & W1 & W3 & W4). pose proof (Pt k ltac:(lia)) as Pk. pose proof (Upto (S k) Hk) as Uk. pose proof (B k ltac:(lia)) as Bk. pose proof (Line k w Hk Bk) as Ln. cbv zeta in Ln, Hh, W1, W3, W4.
        set (s := nth k ts 0) in *. set (h := nth (S k) ts 0 - s) in *. assert (Hth' : 0 <= th * h <= h) by nra.
        exists (s + th * h). assert (Ht : 0 <= s + th * h <= T) by (unfold h in *; lra). split; [exact Ht|].
        assert (Ex : x = padd a (pscale (s + th * h - s) w)).
        { rewrite Eq, <- X2, W1, X1. unfold padd, pscale. cbn [fst snd]. f_equal; ring. }
        rewrite Ex, pdist_sym, <- X1. eapply Rle_trans; [apply Ln; try assumption; unfold h in *; lra|]. destruct (ExpT _ Ht) as [_ X3]. apply Rmult_le_compat_l; lra.
    + intros t Ht. destruct (At t Ht) as (i & w & Hi & H1 & H2 & W3 & X & Ot). eexists. split; [exact Ot|]. rewrite pdist_sym. eapply Rle_trans; [exact X|]. destruct (ExpT t Ht) as [_ X3]. apply Rmult_le_compat_l; lra.
Qed.

(** ** Only one path *)
Lemma far_from_wells Z T : 0 <= T -> (forall t, 0 <= t <= T -> continuity_pt (fun s => fst (Z s)) t /\ continuity_pt (fun s => snd (Z s)) t) ->
  forall ws : list (well R), (forall t w, 0 <= t <= T -> In w ws -> Z t <> (wx w, wy w)) -> exists r, 0 < r /\ forall t w, 0 <= t <= T -> In w ws -> r <= pdist (wloc w) (Z t).
Proof.
  intros HT HC. induction ws as [|w ws IH]; intros Hw; [exists 1; split; [lra|intros t w _ []]|].
  destruct IH as (r & Hr & IH); [intros t w' Ht Hin; apply Hw; [exact Ht|now right]|].
  set (N := fun s => (fst (Z s) - wx w) * (fst (Z s) - wx w) + (snd (Z s) - wy w) * (snd (Z s) - wy w)).
  destruct (continuity_ab_min N 0 T HT) as (t0 & Hmin & Ht0).
  { intros t Ht. destruct (HC t Ht) as [C1 C2].
    assert (Q : forall h c, continuity_pt h t -> continuity_pt (fun s => (h s - c) * (h s - c)) t).
    { intros h c C. assert (C' : continuity_pt (fun s => h s - c) t) by (apply (continuity_pt_minus h (fct_cte c)); [exact C|apply continuity_pt_const; now intros ? ?]). now apply (continuity_pt_mult (fun s => h s - c) (fun s => h s - c)). }
    apply (continuity_pt_plus (fun s => (fst (Z s) - wx w) * (fst (Z s) - wx w)) (fun s => (snd (Z s) - wy w) * (snd (Z s) - wy w))); now apply Q. }
  assert (P : 0 < N t0).
  { assert (S1 := Rle_0_sqr (fst (Z t0) - wx w)). assert (S2 := Rle_0_sqr (snd (Z t0) - wy w)). unfold Rsqr in S1, S2. destruct (Rle_lt_or_eq_dec 0 (N t0)) as [H|H]; [unfold N; lra|exact H|exfalso].
    apply (Hw t0 w Ht0 (or_introl eq_refl)). unfold N in H. assert (E1 : Rsqr (fst (Z t0) - wx w) = 0) by (unfold Rsqr; lra). assert (E2 : Rsqr (snd (Z t0) - wy w) = 0) by (unfold Rsqr; lra).
    apply Rsqr_0_uniq in E1, E2. rewrite (surjective_pairing (Z t0)). f_equal; lra. }
  exists (Rmin r (sqrt (N t0))). split; [apply Rmin_glb_lt; [exact Hr|now apply sqrt_lt_R0]|]. intros t w' Ht [<-|Hin].
  - eapply Rle_trans; [apply Rmin_r|]. unfold pdist, wloc. cbn [fst snd]. apply sqrt_le_1_alt. now apply Hmin.
  - eapply Rle_trans; [apply Rmin_l|]. now apply IH.
Qed.

Lemma one_path m f Z Y T : physical m -> upstream true m f -> 0 <= T -> moves f Z T -> moves f Y T -> off_the_wells m Z T -> off_the_wells m Y T -> Z 0 = Y 0 ->
  forall t, 0 <= t <= T -> Z t = Y t.
Proof.
  intros Hm Hf HT HZ HY OZ OY E0 t Ht.
  assert (C : forall X, moves f X T -> forall s, 0 <= s <= T -> continuity_pt (fun x => fst (X x)) s /\ continuity_pt (fun x => snd (X x)) s).
  { intros X HX s Hs. destruct (HX s Hs) as (u & _ & D1 & D2). split; eapply deriv_cont; eassumption. }
  destruct (far_from_wells Z T HT (C Z HZ) (wells m) OZ) as (r1 & R1 & F1). destruct (far_from_wells Y T HT (C Y HY) (wells m) OY) as (r2 & R2 & F2).
  set (r := Rmin r1 r2). assert (Hr : 0 < r) by now apply Rmin_glb_lt.
  assert (G : forall X, moves f X T -> (forall s w, 0 <= s <= T -> In w (wells m) -> r <= pdist (wloc w) (X s)) -> forall s, 0 <= s <= T ->
     derivable_pt_lim (fun x => fst (X x)) s (fst (blunt_velocity m r (X s))) /\ derivable_pt_lim (fun x => snd (X x)) s (snd (blunt_velocity m r (X s)))).
  { intros X HX FX s Hs. destruct (HX s Hs) as (u & Eu & D1 & D2). rewrite (blunt_agrees m f r (X s) Hm Hf Hr (fun w Hw => FX s w Hs Hw)) in Eu.
    assert (X0 : fvec (blunt_velocity m r (X s)) = fvec u) by congruence. apply fvec_inj in X0. rewrite X0. auto. }
  pose proof (gradient_pos m r Hm Hr) as HL.
  pose proof (near_path (blunt_velocity m r) (gradient m r) Z Y (fun s => blunt_velocity m r (Y s)) 0 t 0 ltac:(lra) HL ltac:(lra) (fun a b => blunt_velocity_change m r a b Hm Hr)) as N.
  rewrite E0, pdist_self in N. assert (D0 : pdist (Z t) (Y t) <= 0).
  { eapply Rle_trans; [apply N|right; ring].
    - intros s Hs. apply G; [exact HZ| |lra]. intros x w Hx Hw. eapply Rle_trans; [apply Rmin_l|now apply F1].
    - intros s Hs. apply G; [exact HY| |lra]. intros x w Hx Hw. eapply Rle_trans; [apply Rmin_r|now apply F2].
    - intros s Hs. replace (psub (blunt_velocity m r (Y s)) (blunt_velocity m r (Y s))) with ((0, 0) : pt) by (unfold psub; f_equal; ring). rewrite pnorm_0. lra. }
  unfold pdist in D0. assert (Sq : (fst (Y t) - fst (Z t)) * (fst (Y t) - fst (Z t)) + (snd (Y t) - snd (Z t)) * (snd (Y t) - snd (Z t)) = 0).
  { apply sqrt_eq_0; [apply Rplus_le_le_0_compat; apply Rle_0_sqr|]. apply Rle_antisym; [exact D0|apply sqrt_pos]. }
  assert (S1 := Rle_0_sqr (fst (Y t) - fst (Z t))). assert (S2 := Rle_0_sqr (snd (Y t) - snd (Z t))). unfold Rsqr in S1, S2.
  assert (E1 : Rsqr (fst (Y t) - fst (Z t)) = 0) by (unfold Rsqr; lra). assert (E2 : Rsqr (snd (Y t) - snd (Z t)) = 0) by (unfold Rsqr; lra). apply Rsqr_0_uniq in E1, E2.
  rewrite (surjective_pairing (Z t)), (surjective_pairing (Y t)). f_equal; lra.
Qed.

(** C107.  A trace in a confined aquifer whose vertices keep the distance [2 rho] from the wells and whose time steps [H] are short
    enough: there is a path of the water from the start point, only one, and the trace is within 6 V H (e^(L T) - 1) of it, [T]
    being the time that the trace ends. *)
Lemma c107_water : forall (m : model R) (f : vec xr -> res (vec xr)) (fuel : nat) (p : pt) (D : R) (tol maxstep : xr) (tr : trace xr),
  physical m -> upstream true m f -> 0 <= D ->
  compute_backtrace fuel (Fin (fst p)) (Fin (snd p)) (Fin D) tol maxstep f = Ok tr ->
  exists l ts, paced f tol maxstep D tr l ts /\
    forall v rho H, 0 < rho -> 0 <= H -> calm m f v rho l -> steps_within H ts ->
      let L := gradient m rho in let V := v + L * rho in let T := last ts 0 in
      50 * L * H <= 1 -> 6 * V * H * (exp (L * T) - 1) + 2 * V * H <= rho ->
      exists Z, Z 0 = p /\ moves f Z T /\ (forall t w, 0 <= t <= T -> In w (wells m) -> rho <= pdist (Z t) (wx w, wy w)) /\
        (forall i, (i < length l)%nat -> let t := nth i ts 0 in 0 <= t <= T /\ pdist (nth i l (0, 0)) (Z t) <= 6 * V * H * (exp (L * t) - 1)) /\
        beside (6 * V * H * (exp (L * T) - 1)) l Z T /\
        forall Y, Y 0 = p -> moves f Y T -> off_the_wells m Y T -> forall t, 0 <= t <= T -> Y t = Z t.
Proof.
  intros m f fuel p D tol maxstep tr Hm Hf HD Hr. destruct (paced_trace _ _ _ _ _ _ _ HD Hr) as (l & ts & P & E).
  assert (Pl : (0 < length l)%nat).
  { destruct l as [|x l]; [|cbn; lia]. exfalso. pose proof (pc_vertices _ _ _ _ _ _ _ P) as E'. destruct (c36_path _ _ _ _ _ _ _ _ Hr) as (more & E7 & _). rewrite E7 in E'. discriminate E'. }
  exists l, ts. split; [exact P|]. intros v rho H Hrho HH Hc HS L V T H50 HB.
  destruct (follow_exists m f D tol maxstep tr l ts v rho H Hm Hf HD P Pl Hrho HH Hc HS H50 HB) as (Z & Z0 & ZM & ZW & HT & ZE & ZB). rewrite E in Z0.
  exists Z. split; [exact Z0|]. split; [exact ZM|]. split; [exact ZW|]. split; [exact ZE|]. split; [exact ZB|].
  intros Y Y0 YM YO t Ht. apply (one_path m f Y Z T Hm Hf (proj1 HT) YM ZM YO); [|congruence|exact Ht].
  intros s w Hs Hw Eq. specialize (ZW s w Hs Hw). rewrite Eq, pdist_self in ZW. lra.
Qed.

(** The trace beside the pumped well of C105: the conditions hold with rho = 1/3, v = 1/100 and H = 1/10. *)
Lemma c107_water_example :
  physical pumped /\ upstream true pumped (feval true (fmodel pumped)) /\
  exists y, compute_backtrace 2 (Fin 1) (Fin 0) (Fin (1 / 10)) (Fin 1) (Fin 10) (feval true (fmodel pumped)) =
     Ok {| vertices := [fvec (1, 0); fvec (y, 0)]; t_end := Fin (1 / 10); completed := true |} /\
    calm pumped (feval true (fmodel pumped)) (1 / 100) (1 / 3) [(1, 0); (y, 0)] /\ steps_within (1 / 10) [0; 1 / 10] /\
    let L := gradient pumped (1 / 3) in let V := 1 / 100 + L * (1 / 3) in
    L = 3 / 40 /\ V = 7 / 200 /\ 50 * L * (1 / 10) <= 1 /\ 6 * V * (1 / 10) * (exp (L * (1 / 10)) - 1) + 2 * V * (1 / 10) <= 1 / 3.
Proof.
  pose proof strength_small as HS. destruct c105_pumped_example as (_ & _ & _ & _ & _ & (y & Hy & Hr) & _).
  split; [exact pumped_physical|]. split; [exact (upstream_feval true pumped pumped_physical)|]. exists y. split; [exact Hr|]. split; [|split].
  - assert (Q : forall x, 99 / 100 <= x -> (forall u, feval true (fmodel pumped) (fvec (x, 0)) = Ok (fvec u) -> pnorm u <= 1 / 100) /\
        forall w, In w (wells pumped) -> 2 * (1 / 3) <= pdist (x, 0) (wx w, wy w)).
    { intros x Hx. split.
      - intros u E. rewrite pumped_feval in E by lra. assert (X : fvec u = fvec (strength / x, 0)) by congruence. apply fvec_inj in X. subst u.
        unfold pnorm. cbn [fst snd]. rewrite Rmult_0_l, Rplus_0_r, sqrt_square by (apply Rmult_le_pos; [lra|left; apply Rinv_0_lt_compat; lra]).
        apply Rle_trans with (strength / (99 / 100)); [|lra]. apply Rmult_le_compat_l; [lra|]. apply Rinv_le_contravar; lra.
      - intros w [<-|[]]. unfold pdist. cbn [fst snd wx wy]. replace ((0 - x) * (0 - x) + (0 - 0) * (0 - 0)) with (x * x) by ring. rewrite sqrt_square; lra. }
    intros q [<-|[<-|[]]]; apply Q; lra.
  - clear. intros [|[|i]] Hi; cbn in *; try lra; lia.
  - cbv zeta. unfold gradient. cbn [coef pumped zero_coef cA cB cC wells Rsum fold_right wq porosity thickness]. replace (4 * 0 ^ 2 + 2 * 0 ^ 2 + 4 * 0 ^ 2) with 0 by ring. rewrite sqrt_0, Rabs_pos_eq by lra.
    replace ((0 + (1 / 20 + 0) / (6 * (1 / 3 * (1 / 3)))) / (1 * 1)) with (3 / 40) by field. split; [reflexivity|]. split; [field|]. split; [lra|].
    assert (exp (3 / 40 * (1 / 10)) <= 3) by (eapply Rle_trans; [|apply exp_le_3]; apply exp_grow; lra).
    replace (1 / 100 + 3 / 40 * (1 / 3)) with (7 / 200) by field. lra.
Qed.
