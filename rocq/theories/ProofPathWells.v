(** * Traces and pathlines of confined aquifers with wells (C105) *)
From Coq Require Import Reals Lra Lia Psatz List Bool.
From Verif Require Import Py Num NumXR ModelAquifer ModelTrace ModelDriver SpecAquifer SpecTrace SpecPathline
  ProofPi ProofAquifer ProofTrace ProofTraceLoop ProofTraceFlow ProofTraceEx ProofTraceGrow ProofPathline ProofPathAffine ProofPathProgram ProofPathTube.
Import ListNotations.
Local Open Scope R_scope.

(** ** The velocity of a well *)
Definition radial (x : pt) : pt := pscale (/ (pnorm x * pnorm x)) x.
Lemma radial_change x y r : 0 < r -> r <= pnorm x -> r <= pnorm y -> pnorm (psub (radial x) (radial y)) <= / (r * r) * pnorm (psub x y).
Proof.
  intros Hr Hx Hy. assert (Px : 0 < pnorm x * pnorm x) by (apply Rmult_lt_0_compat; lra). assert (Py : 0 < pnorm y * pnorm y) by (apply Rmult_lt_0_compat; lra).
  assert (E : pnorm (psub (radial x) (radial y)) = / (pnorm x * pnorm y) * pnorm (psub x y)).
  { assert (Q : 0 < / (pnorm x * pnorm y)) by (apply Rinv_0_lt_compat, Rmult_lt_0_compat; lra).
    apply Rsqr_inj; [apply pnorm_pos|apply Rmult_le_pos; [lra|apply pnorm_pos]|]. unfold Rsqr.
    replace (/ (pnorm x * pnorm y) * pnorm (psub x y) * (/ (pnorm x * pnorm y) * pnorm (psub x y))) with ((pnorm (psub x y) * pnorm (psub x y)) / ((pnorm x * pnorm x) * (pnorm y * pnorm y))) by (field; lra).
    unfold radial. rewrite !pnorm_sq in *. unfold psub, pscale. cbn [fst snd]. field. lra. }
  rewrite E. apply Rmult_le_compat_r; [apply pnorm_pos|]. apply Rinv_le_contravar; [now apply Rmult_lt_0_compat|]. apply Rmult_le_compat; lra.
Qed.

Definition wloc (w : well R) : pt := (wx w, wy w).
Definition wells_velocity (ws : list (well R)) (q : pt) : pt := fold_right (fun w s => padd (pscale (wq w) (radial (psub q (wloc w)))) s) (0, 0) ws.
Lemma wells_change r q q' : 0 < r -> forall ws, (forall w, In w ws -> r <= pdist (wloc w) q /\ r <= pdist (wloc w) q') ->
  pnorm (psub (wells_velocity ws q) (wells_velocity ws q')) <= Rsum (fun w => Rabs (wq w)) ws / (r * r) * pdist q q'.
Proof.
  intros Hr. assert (Rr : 0 < r * r) by now apply Rmult_lt_0_compat. induction ws as [|w ws IH]; intros H.
  - cbn. replace (psub (0, 0) (0, 0)) with ((0, 0) : pt) by (unfold psub; cbn; f_equal; ring). rewrite pnorm_0. unfold Rdiv. lra.
  - specialize (IH (fun w' Hw => H w' (or_intror Hw))). destruct (H w (or_introl eq_refl)) as [H1 H2]. rewrite !pdist_norm in H1, H2.
    change (wells_velocity (w :: ws) q) with (padd (pscale (wq w) (radial (psub q (wloc w)))) (wells_velocity ws q)).
    change (wells_velocity (w :: ws) q') with (padd (pscale (wq w) (radial (psub q' (wloc w)))) (wells_velocity ws q')).
    change (Rsum (fun w => Rabs (wq w)) (w :: ws)) with (Rabs (wq w) + Rsum (fun w => Rabs (wq w)) ws).
    assert (E : forall c a b s s', psub (padd (pscale c a) s) (padd (pscale c b) s') = padd (pscale c (psub a b)) (psub s s')).
    { intros. unfold psub, padd, pscale. cbn. f_equal; ring. }
    rewrite E. eapply Rle_trans; [apply pnorm_add|]. rewrite pnorm_scale.
    pose proof (radial_change _ _ r Hr H1 H2) as C.
    replace (psub (psub q (wloc w)) (psub q' (wloc w))) with (psub q q') in C by (unfold psub; cbn; f_equal; ring).
    rewrite (pnorm_sub_sym q q'), <- (pdist_norm q q') in C. pose proof (Rmult_le_compat_l _ _ _ (Rabs_pos (wq w)) C) as C'.
    unfold Rdiv in *. lra.
Qed.

(** ** The velocity of the program *)
Definition regional (m : model R) : affine :=
  let s := porosity m * thickness m in let c := coef m in
  {| axx := 2 * cA c / s; axy := cC c / s; ayx := cC c / s; ayy := 2 * cB c / s;
     bx := (cD c - 2 * cA c * xo m - cC c * yo m) / s; by_ := (cE c - 2 * cB c * yo m - cC c * xo m) / s |}.
Lemma wells_parts ws q :
  Rsum (fun w => wqx w (fst q) (snd q)) ws = - fst (wells_velocity ws q) /\ Rsum (fun w => wqy w (fst q) (snd q)) ws = - snd (wells_velocity ws q).
Proof.
  induction ws as [|w ws [I1 I2]]; [cbn; lra|]. cbn [Rsum fold_right]. change (fold_right (fun a s => wqx a (fst q) (snd q) + s) 0 ws) with (Rsum (fun w => wqx w (fst q) (snd q)) ws).
  change (fold_right (fun a s => wqy a (fst q) (snd q) + s) 0 ws) with (Rsum (fun w => wqy w (fst q) (snd q)) ws). rewrite I1, I2.
  change (wells_velocity (w :: ws) q) with (padd (pscale (wq w) (radial (psub q (wloc w)))) (wells_velocity ws q)).
  unfold radial. rewrite pnorm_sq. unfold wqx, wqy, wdist2, padd, pscale, psub, wloc. cbn [fst snd]. unfold Rdiv. split; ring.
Qed.
Lemma confined_velocity m q : physical m -> off_wells (wells m) (fst q) (snd q) ->
  feval true (fmodel m) (fvec q) = Ok (fvec (padd (flow (regional m) q) (pscale (2 * kappa / (porosity m * thickness m)) (wells_velocity (wells m) q)))).
Proof.
  intros (HK & Hn & HH) Ho. unfold feval, compute_velocity_confined, fvec. cbn [fst snd].
  rewrite compute_discharge_eq by exact Ho. destruct (wells_parts (wells m) q) as [-> ->].
  cbn [thickness porosity fmodel nmul ndiv nopp XR xmul].
  assert (0 < thickness m * porosity m) by (apply Rmult_lt_0_compat; lra). rewrite !div_fin by lra. cbn [xopp].
  apply f_equal. unfold flow, lin, padd, pscale, regional. cbn [fst snd axx axy ayx ayy bx by_].
  apply f_equal2; apply (f_equal Fin); field; lra.
Qed.
Lemma kappa_small : 0 < 2 * kappa <= / 6.
Proof. unfold kappa. lra. Qed.

Lemma confined_change m q q' r u u' : physical m -> 0 < r -> (forall w, In w (wells m) -> r <= pdist (wloc w) q /\ r <= pdist (wloc w) q') ->
  feval true (fmodel m) (fvec q) = Ok (fvec u) -> feval true (fmodel m) (fvec q') = Ok (fvec u') ->
  let c := coef m in
  pnorm (psub u u') <= (sqrt (4 * cA c ^ 2 + 2 * cC c ^ 2 + 4 * cB c ^ 2) + Rsum (fun w => Rabs (wq w)) (wells m) / (6 * (r * r))) / (porosity m * thickness m) * pdist q q'.
Proof.
  intros Hm Hr Hw Hu Hu' c. assert (Hs : 0 < porosity m * thickness m) by (destruct Hm as (_ & ? & ?); now apply Rmult_lt_0_compat).
  assert (Rr : 0 < r * r) by now apply Rmult_lt_0_compat.
  assert (O : forall x, (forall w, In w (wells m) -> r <= pdist (wloc w) x) -> off_wells (wells m) (fst x) (snd x)).
  { intros x Hx w Hin [E1 E2]. specialize (Hx w Hin). replace x with (wloc w) in Hx by (unfold wloc; rewrite <- E1, <- E2; destruct x; reflexivity). rewrite pdist_self in Hx. lra. }
  rewrite confined_velocity in Hu by (try assumption; apply O; intros; now apply Hw). rewrite confined_velocity in Hu' by (try assumption; apply O; intros; now apply Hw).
  assert (Eu : fvec u = fvec (padd (flow (regional m) q) (pscale (2 * kappa / (porosity m * thickness m)) (wells_velocity (wells m) q)))) by congruence.
  assert (Eu' : fvec u' = fvec (padd (flow (regional m) q') (pscale (2 * kappa / (porosity m * thickness m)) (wells_velocity (wells m) q')))) by congruence.
  apply fvec_inj in Eu, Eu'. rewrite Eu, Eu'. clear Eu Eu' Hu Hu'.
  assert (E : psub (padd (flow (regional m) q) (pscale (2 * kappa / (porosity m * thickness m)) (wells_velocity (wells m) q)))
                   (padd (flow (regional m) q') (pscale (2 * kappa / (porosity m * thickness m)) (wells_velocity (wells m) q')))
            = padd (lin (regional m) (psub q q')) (pscale (2 * kappa / (porosity m * thickness m)) (psub (wells_velocity (wells m) q) (wells_velocity (wells m) q')))).
  { unfold flow, lin, psub, padd, pscale. cbn [fst snd]. f_equal; ring. }
  rewrite E. eapply Rle_trans; [apply pnorm_add|]. rewrite pnorm_scale. rewrite Rabs_pos_eq by (pose proof kappa_small; apply Rmult_le_pos; [lra|left; now apply Rinv_0_lt_compat]).
  assert (F : pnorm (lin (regional m) (psub q q')) <= sqrt (4 * cA c ^ 2 + 2 * cC c ^ 2 + 4 * cB c ^ 2) / (porosity m * thickness m) * pdist q q').
  { pose proof (frobenius (regional m) (psub q q')) as F. rewrite pdist_norm, (pnorm_sub_sym q' q).
    enough (X : sqrt (axx (regional m) * axx (regional m) + axy (regional m) * axy (regional m) + ayx (regional m) * ayx (regional m) + ayy (regional m) * ayy (regional m))
      = sqrt (4 * cA c ^ 2 + 2 * cC c ^ 2 + 4 * cB c ^ 2) / (porosity m * thickness m)) by (rewrite X in F; exact F).
    rewrite <- (sqrt_square (porosity m * thickness m)) at 1 by lra. rewrite <- sqrt_div by nra. f_equal. unfold regional, c. cbn [axx axy ayx ayy]. field.
    destruct Hm as (_ & ? & ?). split; lra. }
  pose proof (wells_change r q q' Hr (wells m) Hw) as W. set (S := Rsum (fun w => Rabs (wq w)) (wells m)) in *.
  assert (HS : 0 <= S) by (unfold S, Rsum; clear; induction (wells m) as [|w ws IH]; cbn; [lra|pose proof (Rabs_pos (wq w)); lra]).
  set (d := pdist q q') in *. assert (Hd : 0 <= d) by apply pdist_pos.
  assert (Is : 0 < / (porosity m * thickness m)) by now apply Rinv_0_lt_compat.
  assert (W' : 2 * kappa / (porosity m * thickness m) * pnorm (psub (wells_velocity (wells m) q) (wells_velocity (wells m) q')) <= (S / (6 * (r * r))) / (porosity m * thickness m) * d).
  { pose proof kappa_small as K. unfold Rdiv at 1. apply Rle_trans with (/ 6 * / (porosity m * thickness m) * (S / (r * r) * d)).
    - apply Rmult_le_compat; [apply Rmult_le_pos; lra|apply pnorm_pos|apply Rmult_le_compat_r; lra|exact W].
    - right. field. repeat split; try lra; destruct Hm as (_ & ? & ?); lra. }
  unfold Rdiv in *. lra.
Qed.

Lemma rsum_abs_pos ws : 0 <= Rsum (fun w : well R => Rabs (wq w)) ws.
Proof. unfold Rsum. induction ws as [|w ws IH]; cbn; [lra|pose proof (Rabs_pos (wq w)); lra]. Qed.
(** The velocity near places that keep away from the wells, for any function that agrees with that of the program off the wells. *)
Lemma confined_tame_at m f Z D v rho : physical m -> 0 < rho -> (forall q, off_wells (wells m) (fst q) (snd q) -> f (fvec q) = feval true (fmodel m) (fvec q)) ->
  (forall t, 0 <= t <= D -> exists u, f (fvec (Z t)) = Ok (fvec u) /\ pnorm u <= v) ->
  (forall t w, 0 <= t <= D -> In w (wells m) -> 2 * rho <= pdist (Z t) (wx w, wy w)) ->
  let c := coef m in
  let L := (sqrt (4 * cA c ^ 2 + 2 * cC c ^ 2 + 4 * cB c ^ 2) + Rsum (fun w => Rabs (wq w)) (wells m) / (6 * (rho * rho))) / (porosity m * thickness m) in
  0 <= L /\ tame f Z D (v + L * rho) L rho.
Proof.
  intros Hm Hrho Hf HZ Hd c L.
  assert (Hs : 0 < porosity m * thickness m) by (destruct Hm as (_ & ? & ?); now apply Rmult_lt_0_compat).
  assert (Rr : 0 < rho * rho) by now apply Rmult_lt_0_compat.
  assert (HL : 0 <= L).
  { unfold L. apply Rmult_le_pos; [|left; now apply Rinv_0_lt_compat]. apply Rplus_le_le_0_compat; [apply sqrt_pos|]. apply Rmult_le_pos; [apply rsum_abs_pos|left; apply Rinv_0_lt_compat; lra]. }
  split; [exact HL|].
  assert (Near : forall t q w, 0 <= t <= D -> pdist (Z t) q <= rho -> In w (wells m) -> rho <= pdist (wloc w) q).
  { intros t q w Ht Hq Hw. specialize (Hd t w Ht Hw). pose proof (pdist_triangle (Z t) q (wloc w)) as T. unfold wloc in *. rewrite (pdist_sym q) in T. lra. }
  assert (Self : forall t, pdist (Z t) (Z t) <= rho) by (intros t; rewrite pdist_self; lra).
  assert (O : forall t q, 0 <= t <= D -> pdist (Z t) q <= rho -> off_wells (wells m) (fst q) (snd q)).
  { intros t q Ht Hq w Hw [E1 E2]. pose proof (Near t q w Ht Hq Hw) as X. replace q with (wloc w) in X by (unfold wloc; rewrite <- E1, <- E2; destruct q; reflexivity). rewrite pdist_self in X. lra. }
  constructor.
  - intros t q Ht Hq. pose proof (O t q Ht Hq) as Oq.
    eexists. split; [rewrite Hf by exact Oq; apply confined_velocity; assumption|]. set (u := padd _ _).
    assert (Hu : feval true (fmodel m) (fvec q) = Ok (fvec u)) by (apply confined_velocity; assumption).
    destruct (HZ t Ht) as (uz & Ez & Hv). rewrite Hf in Ez by exact (O t (Z t) Ht (Self t)).
    pose proof (confined_change m q (Z t) rho u uz Hm Hrho (fun w Hw => conj (Near t q w Ht Hq Hw) (Near t (Z t) w Ht (Self t) Hw)) Hu Ez) as C. cbv zeta in C. fold c L in C.
    assert (T : pnorm u <= pnorm uz + pnorm (psub u uz)).
    { eapply Rle_trans; [|apply pnorm_add]. right. f_equal. unfold psub, padd. destruct u, uz. cbn. f_equal; ring. }
    rewrite (pdist_sym q) in C. pose proof (Rmult_le_compat_l L _ _ HL Hq). lra.
  - intros t q q' u u' Ht Hq Hq' Hu Hu'. rewrite Hf in Hu by exact (O t q Ht Hq). rewrite Hf in Hu' by exact (O t q' Ht Hq').
    exact (confined_change m q q' rho u u' Hm Hrho (fun w Hw => conj (Near t q w Ht Hq Hw) (Near t q' w Ht Hq' Hw)) Hu Hu').
Qed.

Lemma confined_tame m f Z D v rho : physical m -> 0 < rho -> (forall q, off_wells (wells m) (fst q) (snd q) -> f (fvec q) = feval true (fmodel m) (fvec q)) ->
  moves f Z D -> (forall t u, 0 <= t <= D -> f (fvec (Z t)) = Ok (fvec u) -> pnorm u <= v) ->
  (forall t w, 0 <= t <= D -> In w (wells m) -> 2 * rho <= pdist (Z t) (wx w, wy w)) ->
  let c := coef m in
  let L := (sqrt (4 * cA c ^ 2 + 2 * cC c ^ 2 + 4 * cB c ^ 2) + Rsum (fun w => Rabs (wq w)) (wells m) / (6 * (rho * rho))) / (porosity m * thickness m) in
  0 <= L /\ tame f Z D (v + L * rho) L rho.
Proof.
  intros Hm Hrho Hf HZ Hv Hd. apply confined_tame_at; try assumption. intros t Ht. destruct (HZ t Ht) as (u & E & _). exists u. split; [exact E|]. now apply (Hv t).
Qed.

(** C105 for the confined aquifer with any wells and regional flow.  [v] bounds the speed along the path and [rho] is half the distance kept from the wells. *)
Lemma c105_confined : forall (m : model R) (fuel : nat) (p : pt) (D : R) (tol maxstep : xr) (tr : trace xr) (Z : R -> pt) (v rho : R),
  physical m -> 0 <= D -> 0 < rho -> moves (feval true (fmodel m)) Z D -> Z 0 = p ->
  (forall t u, 0 <= t <= D -> feval true (fmodel m) (fvec (Z t)) = Ok (fvec u) -> pnorm u <= v) ->
  (forall t w, 0 <= t <= D -> In w (wells m) -> 2 * rho <= pdist (Z t) (wx w, wy w)) ->
  compute_backtrace fuel (Fin (fst p)) (Fin (snd p)) (Fin D) tol maxstep (feval true (fmodel m)) = Ok tr ->
  let c := coef m in
  let L := (sqrt (4 * cA c ^ 2 + 2 * cC c ^ 2 + 4 * cB c ^ 2) + Rsum (fun w => Rabs (wq w)) (wells m) / (6 * (rho * rho))) / (porosity m * thickness m) in
  let V := v + L * rho in
  exists l ts, paced (feval true (fmodel m)) tol maxstep D tr l ts /\
    forall H, steps_within H ts -> 50 * L * H <= 1 -> 5 * V * H * (exp (L * D) - 1) + 2 * V * H <= rho ->
      clocked (feval true (fmodel m)) tol maxstep D tr l ts /\
      forall i, (i < length l)%nat -> let t := nth i ts 0 in pdist (nth i l (0, 0)) (Z t) <= 5 * V * H * (exp (L * t) - 1).
Proof.
  intros m fuel p D tol maxstep tr Z v rho Hm HD Hrho HZ H0 Hv Hd Hr c L V.
  destruct (confined_tame m _ Z D v rho Hm Hrho (fun q _ => eq_refl) HZ Hv Hd) as [HL HT].
  exact (c105_tube (feval true (fmodel m)) fuel p D tol maxstep tr Z V L rho HD HL ltac:(lra) HZ H0 HT Hr).
Qed.

(** ** An aquifer with one pumped well *)
Definition pumped : model R :=
  {| base := 0; conductivity := 1; porosity := 1; thickness := 1; wells := [{| wx := 0; wy := 0; wr := 1 / 10; wq := 1 / 20 |}]; xo := 0; yo := 0; coef := zero_coef |}.
Definition strength : R := 2 * kappa / 20.
Lemma strength_small : 0 < strength <= 1 / 120.
Proof. unfold strength. pose proof kappa_small. lra. Qed.
Lemma pumped_physical : physical pumped.
Proof. unfold physical, pumped. cbn. lra. Qed.
Lemma pumped_feval x : 0 < x -> feval true (fmodel pumped) (fvec (x, 0)) = Ok (fvec (strength / x, 0)).
Proof.
  intros Hx. rewrite confined_velocity; [|exact pumped_physical|].
  - do 2 f_equal. unfold flow, lin, regional, wells_velocity, radial, strength. cbn [wells pumped fold_right]. rewrite pnorm_sq. unfold padd, pscale, psub, wloc. cbn. f_equal; field; lra.
  - intros w [<-|[]] [E _]. cbn in E. lra.
Qed.

(** Water around the well, on a trace that returns with two vertices; the steps are short enough for C105. *)
Lemma c105_pumped_example :
  let Z := fun t => (sqrt (1 + 2 * strength * t), 0) in
  physical pumped /\ moves (feval true (fmodel pumped)) Z (1 / 10) /\ Z 0 = (1, 0) /\
  (forall t u, 0 <= t <= 1 / 10 -> feval true (fmodel pumped) (fvec (Z t)) = Ok (fvec u) -> pnorm u <= 1 / 120) /\
  (forall t w, 0 <= t <= 1 / 10 -> In w (wells pumped) -> 2 * (1 / 2) <= pdist (Z t) (wx w, wy w)) /\
  (exists y, 99 / 100 <= y /\ compute_backtrace 2 (Fin 1) (Fin 0) (Fin (1 / 10)) (Fin 1) (Fin 10) (feval true (fmodel pumped)) =
     Ok {| vertices := [fvec (1, 0); fvec (y, 0)]; t_end := Fin (1 / 10); completed := true |}) /\
  let c := coef pumped in
  let L := (sqrt (4 * cA c ^ 2 + 2 * cC c ^ 2 + 4 * cB c ^ 2) + Rsum (fun w => Rabs (wq w)) (wells pumped) / (6 * (1 / 2 * (1 / 2)))) / (porosity pumped * thickness pumped) in
  let V := 1 / 120 + L * (1 / 2) in
  L = 1 / 30 /\ V = 1 / 40 /\ 50 * L * (1 / 10) <= 1 /\ 5 * V * (1 / 10) * (exp (L * (1 / 10)) - 1) + 2 * V * (1 / 10) <= 1 / 2.
Proof.
  cbv zeta. pose proof strength_small as HS.
  assert (R1 : forall t, 0 <= t <= 1 / 10 -> 1 <= sqrt (1 + 2 * strength * t)).
  { intros t Ht. rewrite <- sqrt_1 at 1. apply sqrt_le_1; nra. }
  split; [exact pumped_physical|]. split; [|split; [|split; [|split; [|split]]]].
  - intros t Ht. specialize (R1 t Ht). exists (strength / sqrt (1 + 2 * strength * t), 0). split; [apply pumped_feval; lra|]. cbn [fst snd]. split; [|apply derivable_pt_lim_const].
    pose proof (derivable_pt_lim_comp (fun s => 1 + 2 * strength * s) sqrt t (2 * strength) (/ (2 * sqrt (1 + 2 * strength * t)))) as D. unfold comp in D.
    eapply deriv_val; [apply D|field; lra].
    + eapply deriv_val; [apply (derivable_pt_lim_plus (fct_cte 1) (fun s => 2 * strength * s)); [apply derivable_pt_lim_const|apply (derivable_pt_lim_scal id), derivable_pt_lim_id]|]. ring.
    + apply derivable_pt_lim_sqrt. nra.
  - rewrite Rmult_0_r, Rplus_0_r, sqrt_1. reflexivity.
  - intros t u Ht E. specialize (R1 t Ht). rewrite pumped_feval in E by lra. assert (X : fvec u = fvec (strength / sqrt (1 + 2 * strength * t), 0)) by congruence. apply fvec_inj in X. subst u.
    unfold pnorm. cbn [fst snd]. rewrite Rmult_0_l, Rplus_0_r, sqrt_square by (apply Rmult_le_pos; [lra|left; apply Rinv_0_lt_compat; lra]).
    apply Rle_trans with (strength / 1); [|lra]. apply Rmult_le_compat_l; [lra|]. apply Rinv_le_contravar; lra.
  - intros t w Ht [<-|[]]. specialize (R1 t Ht). unfold pdist. cbn [fst snd wx wy].
    replace ((0 - sqrt (1 + 2 * strength * t)) * (0 - sqrt (1 + 2 * strength * t)) + (0 - 0) * (0 - 0)) with (sqrt (1 + 2 * strength * t) * sqrt (1 + 2 * strength * t)) by ring.
    rewrite sqrt_square; lra.
  - set (f := feval true (fmodel pumped)). set (h := 1 / 10).
    assert (Y : forall y, 1 / 2 <= y -> f (fvec (y, 0)) = Ok (fvec (strength / y, 0)) /\ 0 < strength / y <= 1 / 60).
    { intros y Hy. split; [apply pumped_feval; lra|]. split; [apply Rdiv_lt_0_compat; lra|]. apply Rle_trans with (strength / (1 / 2)); [|lra]. apply Rmult_le_compat_l; [lra|]. apply Rinv_le_contravar; lra. }
    set (c1 := strength / 1). destruct (Y 1 ltac:(lra)) as [F1 B1]. fold c1 in F1, B1.
    set (y2 := 1 + h * (1 / 5 * c1)). set (c2 := strength / y2). destruct (Y y2 ltac:(unfold y2, h; lra)) as [F2 B2]. fold c2 in F2, B2.
    set (y3 := 1 + h * (3 / 40 * c1 + 9 / 40 * c2)). set (c3 := strength / y3). destruct (Y y3 ltac:(unfold y3, h; lra)) as [F3 B3]. fold c3 in F3, B3.
    set (y4 := 1 + h * (44 / 45 * c1 + -56 / 15 * c2 + 32 / 9 * c3)). set (c4 := strength / y4). destruct (Y y4 ltac:(unfold y4, h; lra)) as [F4 B4]. fold c4 in F4, B4.
    set (y5 := 1 + h * (19372 / 6561 * c1 + -25360 / 2187 * c2 + 64448 / 6561 * c3 + -212 / 729 * c4)). set (c5 := strength / y5). destruct (Y y5 ltac:(unfold y5, h; lra)) as [F5 B5]. fold c5 in F5, B5.
    set (y6 := 1 + h * (9017 / 3168 * c1 + -355 / 33 * c2 + 46732 / 5247 * c3 + 49 / 176 * c4 + -5103 / 18656 * c5)). set (c6 := strength / y6). destruct (Y y6 ltac:(unfold y6, h; lra)) as [F6 B6]. fold c6 in F6, B6.
    set (y7 := 1 + h * (35 / 384 * c1 + 500 / 1113 * c3 + 125 / 192 * c4 + -2187 / 6784 * c5 + 11 / 84 * c6)). set (c7 := strength / y7). destruct (Y y7 ltac:(unfold y7, h; lra)) as [F7 B7]. fold c7 in F7, B7.
    set (k := fun c : R => (c, 0) : pt).
    pose proof (dp_step_finite f (1, 0) h (k c1) (k c2) (k c3) (k c4) (k c5) (k c6) (k c7)) as S. cbv zeta in S.
    assert (Q : padd (1, 0) (pscale h (lincomb dp_b [k c1; k c2; k c3; k c4; k c5; k c6; k c7])) = (y7, 0)).
    { unfold lincomb, dp_b, padd, pscale, y7, k. cbn [combine fold_right fst snd]. clear. clearbody c1 c2 c3 c4 c5 c6 c7. f_equal; ring. }
    rewrite Q in S.
    assert (E : padd (pscale h (lincomb dp_b [k c1; k c2; k c3; k c4; k c5; k c6; k c7])) (pscale (- h) (lincomb dp_bhat [k c1; k c2; k c3; k c4; k c5; k c6; k c7]))
       = (h * (71 / 57600 * c1 - 71 / 16695 * c3 + 71 / 1920 * c4 - 17253 / 339200 * c5 + 22 / 525 * c6 - 1 / 40 * c7), 0)).
    { unfold lincomb, dp_b, dp_bhat, padd, pscale, k. cbn [combine fold_right fst snd]. clear. clearbody c1 c2 c3 c4 c5 c6 c7. f_equal; field. }
    rewrite E in S. set (e := h * _) in S. assert (Be : Rabs e <= 1 / 100) by (apply Rabs_le; unfold e, h; lra).
    assert (St : dp_step f (fvec (1, 0)) (Fin h) (fvec (k c1)) = Ok (fvec (y7, 0), fvec (k c7), Fin (pmax (e, 0)), Fin (pdist (1, 0) (y7, 0)))).
    { assert (G : forall y c p, f (fvec (y, 0)) = Ok (fvec (c, 0)) -> p = (y, 0) -> f (fvec p) = Ok (fvec (k c))) by (intros; subst; assumption).
      apply S; eapply G; try eassumption; unfold lincomb, padd, pscale, y2, y3, y4, y5, y6, k; cbn [combine fold_right fst snd];
        clear; f_equal; ring. }
    exists y7. split; [clear - B1 B2 B3 B4 B5 B6 B7; unfold y7, h; lra|]. clear S.
    unfold compute_backtrace. rewrite sign_one by (unfold h; lra). change (Fin 1, Fin 0) with (fvec (1, 0)). fold f. rewrite F1. change (c1, 0) with (k c1). cbn [fst trace_loop].
    change (@nZ xr XR 0) with (Fin 0). unfold h in *. rewrite (proj2 (nabs_lt 0 (1 / 10))) by (rewrite Rabs_R0, Rabs_pos_eq; lra).
    assert (C1 : nlt (nabs (Fin (1 / 10))) (nabs (nadd (Fin 0) (Fin (1 / 10)))) = false) by (cbn; apply Rltb_false; rewrite !Rabs_pos_eq by lra; lra).
    rewrite C1, St.
    assert (Bp : pmax (e, 0) < 1).
    { unfold pmax. cbn [fst snd]. rewrite Rabs_R0, Rmax_left by apply Rabs_pos. lra. }
    assert (Bd : pdist (1, 0) (y7, 0) < 10).
    { unfold pdist. cbn [fst snd]. replace ((y7 - 1) * (y7 - 1) + (0 - 0) * (0 - 0)) with (Rsqr (y7 - 1)) by (unfold Rsqr; ring). rewrite sqrt_Rsqr_abs. apply Rabs_def1; unfold y7; lra. }
    assert (A : nlt (Fin (pmax (e, 0))) (Fin 1) && nlt (Fin (pdist (1, 0) (y7, 0))) (Fin 10) = true) by (cbn; apply andb_true_intro; split; apply Rltb_true; assumption).
    rewrite A. cbn [nadd XR xadd nZ]. rewrite Rplus_0_l.
    assert (C2 : nlt (nabs (Fin (1 / 10))) (nabs (Fin (1 / 10))) = false) by (cbn; apply Rltb_false; lra). rewrite C2. reflexivity.
  - cbn [coef pumped zero_coef cA cB cC wells Rsum fold_right wq porosity thickness]. replace (4 * 0 ^ 2 + 2 * 0 ^ 2 + 4 * 0 ^ 2) with 0 by ring. rewrite sqrt_0, Rabs_pos_eq by lra.
    replace ((0 + (1 / 20 + 0) / (6 * (1 / 2 * (1 / 2)))) / (1 * 1)) with (1 / 30) by field. split; [reflexivity|]. split; [field|]. split; [lra|].
    assert (exp (1 / 30 * (1 / 10)) <= 3) by (eapply Rle_trans; [|apply exp_le_3]; apply exp_grow; lra).
    replace (1 / 120 + 1 / 30 * (1 / 2)) with (1 / 40) by field. lra.
Qed.
