(** * An unconfined aquifer whose water moves along the x axis (C118) *)
From Coq Require Import Reals Lra Lia Psatz List Bool.
From Verif Require Import Py Num NumXR ModelAquifer ModelTrace ModelDriver SpecAquifer SpecTrace SpecPathline SpecUnconfined
  ProofPi ProofAquifer ProofHead ProofTrace ProofTraceLoop ProofTraceFlow ProofTraceEx ProofTraceGrow ProofPathline ProofPathAffine ProofPathProgram ProofPathTube ProofPathWells ProofPathUnconfined.
Import ListNotations.
Local Open Scope R_scope.

(** A slow flow along the x axis is traced in one step. *)
Lemma axis_trace f (c : R -> R) : (forall y, 1 / 2 <= y -> f (fvec (y, 0)) = Ok (fvec (c y, 0)) /\ 0 < c y <= 1 / 60) ->
  exists y, 99 / 100 <= y /\ compute_backtrace 2 (Fin 1) (Fin 0) (Fin (1 / 10)) (Fin 1) (Fin 10) f =
     Ok {| vertices := [fvec (1, 0); fvec (y, 0)]; t_end := Fin (1 / 10); completed := true |}.
Proof.
  intros Y. set (h := 1 / 10).
  set (c1 := c 1). destruct (Y 1 ltac:(lra)) as [F1 B1]. fold c1 in F1, B1.
  set (y2 := 1 + h * (1 / 5 * c1)). set (c2 := c y2). destruct (Y y2 ltac:(unfold y2, h; lra)) as [F2 B2]. fold c2 in F2, B2.
  set (y3 := 1 + h * (3 / 40 * c1 + 9 / 40 * c2)). set (c3 := c y3). destruct (Y y3 ltac:(unfold y3, h; lra)) as [F3 B3]. fold c3 in F3, B3.
  set (y4 := 1 + h * (44 / 45 * c1 + -56 / 15 * c2 + 32 / 9 * c3)). set (c4 := c y4). destruct (Y y4 ltac:(unfold y4, h; lra)) as [F4 B4]. fold c4 in F4, B4.
  set (y5 := 1 + h * (19372 / 6561 * c1 + -25360 / 2187 * c2 + 64448 / 6561 * c3 + -212 / 729 * c4)). set (c5 := c y5). destruct (Y y5 ltac:(unfold y5, h; lra)) as [F5 B5]. fold c5 in F5, B5.
  set (y6 := 1 + h * (9017 / 3168 * c1 + -355 / 33 * c2 + 46732 / 5247 * c3 + 49 / 176 * c4 + -5103 / 18656 * c5)). set (c6 := c y6). destruct (Y y6 ltac:(unfold y6, h; lra)) as [F6 B6]. fold c6 in F6, B6.
  set (y7 := 1 + h * (35 / 384 * c1 + 500 / 1113 * c3 + 125 / 192 * c4 + -2187 / 6784 * c5 + 11 / 84 * c6)). set (c7 := c y7). destruct (Y y7 ltac:(unfold y7, h; lra)) as [F7 B7]. fold c7 in F7, B7.
  set (k := fun c : R => (c, 0) : pt).
  pose proof (dp_step_finite f (1, 0) h (k c1) (k c2) (k c3) (k c4) (k c5) (k c6) (k c7)) as S. cbv zeta in S.
  assert (Q : padd (1, 0) (pscale h (lincomb dp_b [k c1; k c2; k c3; k c4; k c5; k c6; k c7])) = (y7, 0)).
  { unfold lincomb, dp_b, padd, pscale, y7, k. cbn [combine fold_right fst snd]. clear. clearbody c1 c2 c3 c4 c5 c6 c7. f_equal; ring. }
  rewrite Q in S.
  assert (E : padd (pscale h (lincomb dp_b [k c1; k c2; k c3; k c4; k c5; k c6; k c7])) (pscale (- h) (lincomb dp_bhat [k c1; k c2; k c3; k c4; k c5; k c6; k c7]))
     = (h * (71 / 57600 * c1 - 71 / 16695 * c3 + 71 / 1920 * c4 - 17253 / 339200 * c5 + 22 / 525 * c6 - 1 / 40 * c7), 0)).
  { unfold lincomb, dp_b, dp_bhat, padd, pscale, k. cbn [combine fold_right fst snd]. clear. clearbody c1 c2 c3 c4 c5 c6 c7. f_equal; field. }
  rewrite E in S. set (e := h * _) in S. assert (Be : Rabs e <= 1 / 100) by (apply Rabs_le; unfold e, h; lra).
  assert (St : dp_step f (fvec (1, 0)) (Fin h) (fvec (k c1)) = Ok (fvec (y7, 0), fvec (k c7), Fin (pmax (e, 0)), Fin (pdist (1, 0) (y7, 0)))).
  { assert (G : forall y c p, f (fvec (y, 0)) = Ok (fvec (c, 0)) -> p = (y, 0) -> f (fvec p) = Ok (fvec (k c))) by (intros; subst; assumption).
    apply S; eapply G; try eassumption; unfold lincomb, padd, pscale, y2, y3, y4, y5, y6, k; cbn [combine fold_right fst snd];
      clear; f_equal; ring. }
  exists y7. split; [clear - B1 B2 B3 B4 B5 B6 B7; unfold y7, h; lra|]. clear S.
  unfold compute_backtrace. rewrite sign_one by (unfold h; lra). change (Fin 1, Fin 0) with (fvec (1, 0)).  rewrite F1. change (c1, 0) with (k c1). cbn [fst trace_loop].
  change (@nZ xr XR 0) with (Fin 0). unfold h in *. rewrite (proj2 (nabs_lt 0 (1 / 10))) by (rewrite Rabs_R0, Rabs_pos_eq; lra).
  assert (C1 : nlt (nabs (Fin (1 / 10))) (nabs (nadd (Fin 0) (Fin (1 / 10)))) = false) by (cbn; apply Rltb_false; rewrite !Rabs_pos_eq by lra; lra).
  rewrite C1, St.
  assert (Bp : pmax (e, 0) < 1).
  { unfold pmax. cbn [fst snd]. rewrite Rabs_R0, Rmax_left by apply Rabs_pos. lra. }
  assert (Bd : pdist (1, 0) (y7, 0) < 10).
  { unfold pdist. cbn [fst snd]. replace ((y7 - 1) * (y7 - 1) + (0 - 0) * (0 - 0)) with (Rsqr (y7 - 1)) by (unfold Rsqr; ring). rewrite sqrt_Rsqr_abs. apply Rabs_def1; unfold y7; lra. }
  assert (A : nlt (Fin (pmax (e, 0))) (Fin 1) && nlt (Fin (pdist (1, 0) (y7, 0))) (Fin 10) = true) by (cbn; apply andb_true_intro; split; apply Rltb_true; assumption).
  rewrite A. cbn [nadd XR xadd nZ]. rewrite Rplus_0_l.
  assert (C2 : nlt (nabs (Fin (1 / 10))) (nabs (Fin (1 / 10))) = false) by (cbn; apply Rltb_false; lra). rewrite C2. reflexivity.
Qed.

Definition slope : R := 1 / 200.
Definition sloping : model R :=
  {| base := 0; conductivity := 1; porosity := 1; thickness := 1; wells := []; xo := 1; yo := 0;
     coef := {| cA := 0; cB := 0; cC := 0; cD := slope; cE := 0; cF := 9 / 64 |} |}.
Lemma sloping_physical : physical sloping.
Proof. unfold physical, sloping. cbn. lra. Qed.
Lemma sloping_off q : off_wells (wells sloping) (fst q) (snd q).
Proof. intros w []. Qed.
Lemma sloping_potential q : potential sloping (fst q) (snd q) = 9 / 64 + slope * (fst q - 1).
Proof. rewrite potential_eq by apply sloping_off. unfold quad. cbn [coef sloping cA cB cC cD cE cF xo yo wells Rsum fold_right]. ring. Qed.
Lemma sloping_upstream q : upstream sloping q = (slope, 0).
Proof. rewrite upstream_eq by apply sloping_off. unfold padd, pscale. cbn. f_equal; ring. Qed.
Lemma sloping_flux q : flux sloping q = slope.
Proof. rewrite <- upstream_norm, sloping_upstream. unfold pnorm, slope. cbn [fst snd]. rewrite Rmult_0_l, Rplus_0_r, sqrt_square; lra. Qed.
Lemma sloping_velocity x : 0 < 9 / 64 + slope * (x - 1) -> feval false (fmodel sloping) (fvec (x, 0)) = Ok (fvec (slope / saturated 1 1 (9 / 64 + slope * (x - 1)), 0)).
Proof.
  intros Hx. rewrite unconfined_velocity; [|exact sloping_physical|apply sloping_off|rewrite sloping_potential; exact Hx].
  rewrite sloping_potential, sloping_upstream. cbn [fst snd conductivity thickness porosity sloping]. unfold pscale. cbn [fst snd]. do 2 f_equal. rewrite Rmult_0_r, Rmult_1_l. f_equal. unfold Rdiv. ring.
Qed.

(** The potential along the path: its 3/2 power grows evenly. *)
Definition pace : R := 3 / 2 * (slope * slope) / sqrt 2.
Definition level (t : R) : R := Rpower (27 / 512 + pace * t) (2 / 3).
Lemma pace_small : 0 < pace <= 1 / 20000.
Proof.
  unfold pace, slope. assert (1 <= sqrt 2) by (rewrite <- sqrt_1 at 1; apply sqrt_le_1; lra). assert (B : 0 < / sqrt 2 <= 1) by (split; [apply Rinv_0_lt_compat; lra|rewrite <- Rinv_1; apply Rinv_le_contravar; lra]).
  unfold Rdiv. lra.
Qed.
Lemma cube a : 0 < a -> Rpower (a * a * a) (2 / 3) = a * a.
Proof.
  intros Ha. replace (a * a * a) with (Rpower a 3) by (replace 3 with (INR 3) by (cbn; lra); rewrite Rpower_pow by exact Ha; ring).
  rewrite Rpower_mult. replace (3 * (2 / 3)) with (INR 2) by (cbn; lra). rewrite Rpower_pow by exact Ha. ring.
Qed.
Lemma level_0 : level 0 = 9 / 64.
Proof. unfold level. replace (27 / 512 + pace * 0) with (3 / 8 * (3 / 8) * (3 / 8)) by field. rewrite cube by lra. field. Qed.
Lemma level_range t : 0 <= t <= 1 / 10 -> 9 / 64 <= level t <= 1 / 4.
Proof.
  intros Ht. pose proof pace_small as P. assert (B : 0 <= pace * t <= 1 / 20000) by nra. split.
  - rewrite <- level_0. unfold level. apply Rle_Rpower_l; lra.
  - replace (1 / 4) with (1 / 2 * (1 / 2)) by field. rewrite <- (cube (1 / 2)) by lra. unfold level. apply Rle_Rpower_l; lra.
Qed.
Lemma level_speed t : 0 <= t <= 1 / 10 -> derivable_pt_lim level t (slope * (slope / saturated 1 1 (level t))).
Proof.
  intros Ht. pose proof pace_small as P. pose proof (level_range t Ht) as B. assert (T : 0 < 27 / 512 + pace * t) by nra.
  assert (Sa : saturated 1 1 (level t) = sqrt 2 * sqrt (level t)).
  { destruct (saturated_eq 1 1 (level t) ltac:(lra) ltac:(lra) ltac:(lra)) as [E Q]. rewrite Rmin_left in E by lra. rewrite <- sqrt_mult by lra. replace (2 * level t) with (2 * level t / 1) by field. rewrite <- E. symmetry. apply sqrt_square. lra. }
  pose proof (derivable_pt_lim_comp (fun s => 27 / 512 + pace * s) (fun x => Rpower x (2 / 3)) t pace (2 / 3 * Rpower (27 / 512 + pace * t) (2 / 3 - 1))) as C. unfold comp in C.
  eapply deriv_val; [apply C|].
  - eapply deriv_val; [apply (derivable_pt_lim_plus (fct_cte (27 / 512)) (fun s => pace * s)); [apply derivable_pt_lim_const|apply (derivable_pt_lim_scal id), derivable_pt_lim_id]|]. ring.
  - apply derivable_pt_lim_power. exact T.
  - rewrite Sa. replace (sqrt (level t)) with (Rpower (27 / 512 + pace * t) (1 / 3)).
    + replace (2 / 3 - 1) with (- (1 / 3)) by field. rewrite Rpower_Ropp. set (r := Rpower _ (1 / 3)). assert (0 < r) by apply exp_pos. unfold pace.
      assert (0 < sqrt 2) by (apply sqrt_lt_R0; lra). field. lra.
    + rewrite <- Rpower_sqrt by lra. unfold level. rewrite Rpower_mult. f_equal. field.
Qed.

(** Water followed back upstream in an unconfined aquifer, on a trace that returns with two vertices; it came from where the
    aquifer is wetter, and the steps are short enough for C118. *)
Lemma c118_sloping_example :
  let Z := fun t => (1 + (level t - 9 / 64) / slope, 0) in
  physical sloping /\ moves (feval false (fmodel sloping)) Z (1 / 10) /\ Z 0 = (1, 0) /\
  (forall t, 0 <= t <= 1 / 10 -> flux sloping (Z t) <= 1 / 200) /\
  (forall t w, 0 <= t <= 1 / 10 -> In w (wells sloping) -> 2 * (1 / 10) <= pdist (Z t) (wx w, wy w)) /\
  (exists y, 99 / 100 <= y /\ compute_backtrace 2 (Fin 1) (Fin 0) (Fin (1 / 10)) (Fin 1) (Fin 10) (feval false (fmodel sloping)) =
     Ok {| vertices := [fvec (1, 0); fvec (y, 0)]; t_end := Fin (1 / 10); completed := true |}) /\
  (let h := fun t => head_at 1 1 (potential sloping (fst (Z t)) (snd (Z t))) in h 0 < h (1 / 10) < thickness sloping) /\
  let G := flux_change sloping (1 / 10) in
  let W := 1 / 200 + G * (1 / 10) in
  (forall t, 0 <= t <= 1 / 10 -> conductivity sloping * (1 / 4 * (1 / 4)) / 2 + W * (1 / 10) <= potential sloping (fst (Z t)) (snd (Z t))) /\
  let L := G / (porosity sloping * (1 / 4)) + W * W / (porosity sloping * conductivity sloping * (1 / 4 * (1 / 4) * (1 / 4))) in
  let V := W / (porosity sloping * (1 / 4)) in
  L = 1 / 625 /\ V = 1 / 50 /\ 50 * L * (1 / 10) <= 1 /\ 5 * V * (1 / 10) * (exp (L * (1 / 10)) - 1) + 2 * V * (1 / 10) <= 1 / 10.
Proof.
  cbv zeta. assert (Hs : 0 < slope) by (unfold slope; lra).
  assert (Lv : forall t, 9 / 64 + slope * (1 + (level t - 9 / 64) / slope - 1) = level t) by (intros t; field; lra).
  assert (G0 : flux_change sloping (1 / 10) = 0).
  { unfold flux_change. cbn [coef sloping cA cB cC wells fold_right]. replace (4 * 0 ^ 2 + 2 * 0 ^ 2 + 4 * 0 ^ 2) with 0 by ring. rewrite sqrt_0. field. }
  split; [exact sloping_physical|]. split; [|split; [|split; [|split; [|split; [|split]]]]].
  - intros t Ht. pose proof (level_range t Ht) as B. exists (slope / saturated 1 1 (level t), 0). split; [rewrite sloping_velocity, Lv; [reflexivity|rewrite Lv; lra]|].
    cbn [fst snd]. split; [|apply derivable_pt_lim_const]. pose proof (level_speed t Ht) as D.
    pose proof (derivable_pt_lim_plus _ _ _ _ _ (derivable_pt_lim_const (1 - 9 / 64 / slope) t) (derivable_pt_lim_scal _ (/ slope) _ _ D)) as E.
    eapply deriv_val; [eapply deriv_fun; [|exact E]|].
    + intros s. unfold plus_fct, mult_real_fct, fct_cte. field. lra.
    + destruct (saturated_eq 1 1 (level t) ltac:(lra) ltac:(lra) ltac:(lra)) as [_ Q]. field. lra.
  - rewrite level_0. f_equal. field. lra.
  - intros t _. rewrite sloping_flux. unfold slope. lra.
  - intros t w _ [].
  - apply (axis_trace _ (fun y => slope / saturated 1 1 (9 / 64 + slope * (y - 1)))). intros y Hy.
    assert (P : 1 / 8 <= 9 / 64 + slope * (y - 1)) by (unfold slope; lra). split; [apply sloping_velocity; lra|].
    assert (A : 1 / 2 <= saturated 1 1 (9 / 64 + slope * (y - 1))) by (apply saturated_above; lra).
    split; [apply Rdiv_lt_0_compat; lra|]. apply Rle_trans with (slope / (1 / 2)); [|unfold slope; lra]. apply Rmult_le_compat_l; [lra|]. apply Rinv_le_contravar; lra.
  - rewrite !sloping_potential. cbn [fst snd]. rewrite !Lv.
    assert (M : level 0 < level (1 / 10)) by (unfold level; pose proof pace_small; apply Rlt_Rpower_l; lra).
    pose proof (level_range 0 ltac:(lra)) as R0. pose proof (level_range (1 / 10) ltac:(lra)) as R1.
    destruct (saturated_eq 1 1 (level 0) ltac:(lra) ltac:(lra) ltac:(lra)) as [E0 B0]. destruct (saturated_eq 1 1 (level (1 / 10)) ltac:(lra) ltac:(lra) ltac:(lra)) as [E1 B1].
    destruct (girinskii_head 1 1 (level 0) ltac:(lra) ltac:(lra) ltac:(lra)) as (_ & _ & C0). destruct (girinskii_head 1 1 (level (1 / 10)) ltac:(lra) ltac:(lra) ltac:(lra)) as (_ & _ & C1).
    assert (H0 : head_at 1 1 (level 0) < 1) by (apply C0; lra). assert (H1 : head_at 1 1 (level (1 / 10)) < 1) by (apply C1; lra).
    unfold saturated in E0, E1, B0, B1. rewrite (Rmin_left (head_at 1 1 (level 0))) in E0, B0 by lra. rewrite (Rmin_left (head_at 1 1 (level (1 / 10)))) in E1, B1 by lra. rewrite Rmin_left in E0, E1 by lra. cbn [thickness sloping]. split; nra.
  - rewrite G0. split.
    { intros t Ht. pose proof (level_range t Ht). rewrite sloping_potential. cbn [fst conductivity sloping]. rewrite Lv. lra. }
    cbn [porosity conductivity sloping]. rewrite Rmult_0_l, Rplus_0_r.
    replace (0 / (1 * (1 / 4)) + 1 / 200 * (1 / 200) / (1 * 1 * (1 / 4 * (1 / 4) * (1 / 4)))) with (1 / 625) by field.
    replace (1 / 200 / (1 * (1 / 4))) with (1 / 50) by field. split; [reflexivity|]. split; [reflexivity|]. split; [lra|].
    assert (exp (1 / 625 * (1 / 10)) <= 3) by (eapply Rle_trans; [|apply exp_le_3]; apply exp_grow; lra). lra.
Qed.
