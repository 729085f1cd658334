(** * A concrete run for property C106 *)
From Coq Require Import Reals Lra Lia.
From Verif Require Import Py Num NumXR ModelField ModelAquifer ModelTrace ModelObs ModelDist ModelDriver ModelMain.
From Verif Require Import SpecAquifer SpecFit SpecTrace SpecDriver SpecDist SpecMain Lstsq ProofFit ProofFitProps ProofFitEx ProofDriver ProofDriverEx ProofMain ProofMainEx ProofPosed.
From Verif Require Import SpecPathline SpecField SpecWhole ProofWhole ProofWholeEx SpecPathZone ProofPathline ProofAquifer ProofTrace ProofTraceLoop ProofTraceFlow ProofPathRun.
Import ListNotations.
Local Open Scope R_scope.

Lemma mean_fun v x y q : proper v q -> mean_of v x -> y = fold_right Rplus 0 q / INR (length q) -> x = y.
Proof. intros Hq (l & Hl & ->) ->. now rewrite (proper_fun v l q Hl Hq). Qed.

(** The model of the run: a uniform flow with D = 1. *)
Lemma d_model m : has_parameters mean_of (d_args (PInt 1) halves quarter dobs) (d_call 1 dobs) dw m -> best_fit m dobs (coef m) ->
  m = with_coef dm 0 0 (dc 1 10).
Proof.
  intros (P1 & P2 & P3 & P4 & P5 & P6 & P7) Bf. cbn [k_base d_call c_dist p_dist t_dist d_args k_wells dw sx sy sr sq] in P1, P2, P3, P4, P5, P6, P7.
  apply (mean_fun _ _ 1 _ halves_proper) in P2; [|cbn; field].
  apply (mean_fun _ _ (1 / 4) _ (proper_number quarter (1 / 4) (num_float _))) in P3; [|cbn; field].
  apply (mean_fun _ _ 1 _ (proper_number (PInt 1) 1 (num_int _))) in P4; [|cbn; field].
  inversion P5 as [|sw w' ? l' (W1 & W2 & W3 & W4) W5 E1 E2]. assert (l' = []) by (inversion W5; reflexivity). subst l' sw. clear P5 W5.
  apply (mean_fun _ _ 0 _ (proper_number (PInt 0) 0 (num_int _))) in W4; [|cbn; field].
  assert (Em : m = with_coef dm 0 0 (coef m)).
  { destruct m as [b k n h ws x0 y0 cf], w' as [wx1 wy1 wr1 wq1]. cbn [base conductivity porosity thickness wells xo yo coef wx wy wr wq dw sx sy sr sq] in *. unfold with_coef, dm.
    cbn [base conductivity porosity thickness wells]. congruence. }
  assert (Ec : coef m = dc 1 10); [|rewrite Em, Ec; reflexivity].
  assert (Z0 : misfit m (xo m) (yo m) dobs (dc 1 10) = 0).
  { assert (Ex : xo m = 0) by congruence. assert (Ey : yo m = 0) by congruence. rewrite Ex, Ey. unfold misfit.
    transitivity (Rsum (fun _ : obs R => 0) dobs); [|unfold Rsum, dobs; cbn; ring].
    assert (R0 : forall o, In o dobs -> residual m 0 0 (dc 1 10) o = 0).
    { intros o Ho. pose proof (dobs_usable o Ho) as (_ & _ & Off). apply dobs_in in Ho. destruct Ho as (x & y & -> & H1 & H2).
      unfold residual. rewrite Em. change (with_coef (with_coef dm 0 0 (coef m)) 0 0 (dc 1 10)) with (with_coef dm 0 0 (dc 1 10)). rewrite potential_with_coef by exact Off. unfold obs_ev.
      cbn [base with_coef dm oz os ox oy dob thickness conductivity].
      destruct (Rlt_dec _ _); [lra|]. unfold Rsum, wells, dm, wpot, quad, dc. cbn [fold_right wq cA cB cC cD cE cF]. unfold Rdiv at 1. match goal with |- ?t * _ = 0 => replace t with 0 by field end. ring. }
    clear - R0. induction dobs as [|o l IH]; [reflexivity|]. cbn [Rsum fold_right]. unfold Rsum in *. cbn [fold_right]. rewrite (R0 o (or_introl eq_refl)), Rmult_0_r. rewrite IH; [reflexivity|]. intros o' Ho'. apply R0. now right. }
  assert (Dec : forall c d : coef6 R, c = d \/ c <> d).
  { intros [a1 a2 a3 a4 a5 a6] [b1 b2 b3 b4 b5 b6].
    destruct (Req_dec a1 b1), (Req_dec a2 b2), (Req_dec a3 b3), (Req_dec a4 b4), (Req_dec a5 b5), (Req_dec a6 b6); ((left; congruence) || (right; congruence)). }
  destruct (Dec (dc 1 10) (coef m)) as [E|N]; [now symmetry|]. apply Bf in N. rewrite Z0 in N. pose proof (misfit_nonneg m (xo m) (yo m) dobs (coef m)). lra.
Qed.

Lemma within_fun v x y : proper v [y] -> within v x -> x = y.
Proof. intros Hq (l & p & q & Hl & Hp & Hq' & H). rewrite (proper_fun v l [y] Hl Hq) in Hp, Hq'. destruct Hp as [<-|[]], Hq' as [<-|[]]. lra. Qed.

Lemma d_model_drawn m : has_parameters within (d_args (PInt 2) (PInt 1) quarter dobs) (d_call 2 dobs) dw m -> coef m = dc 1 0 -> m = with_coef dm 0 0 (dc 1 0).
Proof.
  intros (P1 & P2 & P3 & P4 & P5 & P6 & P7) Ec. cbn [k_base d_call c_dist p_dist t_dist d_args k_wells dw sx sy sr sq] in P1, P2, P3, P4, P5, P6, P7.
  apply (within_fun _ _ 1 (proper_number (PInt 1) 1 (num_int _))) in P2. apply (within_fun _ _ (1 / 4) (proper_number quarter (1 / 4) (num_float _))) in P3.
  apply (within_fun _ _ 1 (proper_number (PInt 1) 1 (num_int _))) in P4.
  inversion P5 as [|sw w' ? l' (W1 & W2 & W3 & W4) W5 E1 E2]. assert (l' = []) by (inversion W5; reflexivity). subst l' sw. clear P5 W5.
  apply (within_fun _ _ 0 (proper_number (PInt 0) 0 (num_int _))) in W4.
  destruct m as [b k n h ws x0 y0 cf], w' as [wx1 wy1 wr1 wq1]. cbn [base conductivity porosity thickness wells xo yo coef wx wy wr wq dw sx sy sr sq] in *. unfold with_coef, dm.
  cbn [base conductivity porosity thickness wells]. congruence.
Qed.

(** The water moves from (2, 0) to (12/5, 0). *)
Definition d_path (_ : nat) (t : R) : pt := (2 + 4 * t, 0).
Lemma d_zone fuel n F z : z_model z = with_coef dm 0 0 (dc 1 F) -> traced fuel (d_call n dobs) dw (1 / 10) z ->
  physical (z_model z) /\ water (d_call n dobs) dw (1 / 10) 4 1 z d_path /\ (forall ts, In ts (z_times z) -> steps_within (1 / 10) ts) /\
  let m := z_model z in let k := coef m in
  let L := (sqrt (4 * cA k ^ 2 + 2 * cC k ^ 2 + 4 * cB k ^ 2) + Rsum (fun o => Rabs (wq o)) (wells m) / (6 * (1 * 1))) / (porosity m * thickness m) in
  let V := 4 + L * 1 in
  50 * L * (1 / 10) <= 1 /\ 5 * V * (1 / 10) * (exp (L * (1 / 10)) - 1) + 2 * V * (1 / 10) <= 1 /\
  5 * V * (1 / 10) * (exp (L * (1 / 10)) - 1) + V * (1 / 10) / 2 = 1 / 5.
Proof.
  intros Em (U & Tl & El & Ht). destruct Tl as [Tl _]. cbn [k_npaths d_call] in Tl. change (Z.to_nat 1) with 1%nat in Tl. set (f := z_velocity z) in *.
  assert (Hm : physical (z_model z)) by (rewrite Em; unfold physical; cbn; lra).
  assert (Hf : forall t, 0 <= t <= 1 / 10 -> f (fvec (2 + 4 * t, 0)) = Ok (fvec (4, 0))).
  { intros t Hh. rewrite (upstream_confined _ f (2 + 4 * t, 0) Hm U).
    - rewrite Em, d_velocity by lra. now rewrite Rmult_1_r.
    - rewrite Em. intros w [<-|[]]. cbn. lra. }
  split; [exact Hm|]. split.
  { exists 0, 0, 1. do 3 (split; [reflexivity|]). fold f. intros j Hj. cbv zeta. assert (Hj' : (j < 1)%nat) by (eapply Nat.lt_le_trans; [exact Hj|apply Nat.eq_le_incl; exact Tl]). assert (j = 0)%nat by lia. subst j.
    assert (T0 : 2 * PI * INR 0 / INR (Z.to_nat (k_npaths (d_call n dobs))) = 0) by (change (INR 0) with 0; unfold Rdiv; ring). rewrite T0, cos_0, sin_0. unfold d_path.
    split; [f_equal; ring|]. split.
    - intros t Hh. exists (4, 0). split; [apply Hf, Hh|]. cbn [fst snd]. split; [|apply derivable_pt_lim_const].
      assert (Dq : derivable_pt_lim (fun s => 2 + 4 * s) t (0 + 4 * 1)); [|now rewrite Rplus_0_l, Rmult_1_r in Dq]. apply (derivable_pt_lim_plus (fun _ => 2) (fun t => 4 * t)); [apply derivable_pt_lim_const|]. apply (derivable_pt_lim_scal id 4). apply derivable_pt_lim_id.
    - split.
      + intros t q Hh E. rewrite (Hf t Hh) in E. assert (X : fvec (4, 0) = fvec q) by congruence. apply fvec_inj in X. subst q. unfold pnorm. cbn [fst snd].
        replace (4 * 4 + 0 * 0) with (4 * 4) by ring. rewrite sqrt_square; lra.
      + intros t o Hh Ho. rewrite Em in Ho. destruct Ho as [<-|[]]. unfold pdist. cbn.
        match goal with |- _ <= sqrt ?e => replace e with ((2 + 4 * t) * (2 + 4 * t)) by ring end. rewrite sqrt_square; lra. }
  split.
  { intros ts Hts. apply In_nth_error in Hts. destruct Hts as (j & Hj). assert (Lj : (j < length (z_tracks z))%nat) by (rewrite <- El; apply nth_error_Some; rewrite Hj; discriminate).
    destruct (nth_error (z_tracks z) j) as [l|] eqn:El'; [|apply nth_error_None in El'; exfalso; exact (Nat.lt_irrefl _ (Nat.lt_le_trans _ _ _ Lj El'))].
    destruct (Ht j l ts El' Hj) as (p & tr & _ & Pc). intros i Hi. rewrite (pc_length _ _ _ _ _ _ _ Pc) in Hi. destruct (pc_step _ _ _ _ _ _ _ Pc i Hi) as [Hs _].
    assert (N : 0 <= nth i ts 0); [|lra]. destruct i as [|i]; [rewrite (pc_start _ _ _ _ _ _ _ Pc); lra|].
    clear Hs. revert Hi. induction i as [|i IH]; intros Hi; (pose proof (pc_step _ _ _ _ _ _ _ Pc _ (Nat.lt_trans _ _ _ (Nat.lt_succ_diag_r _) Hi)) as [Q _]).
    - rewrite (pc_start _ _ _ _ _ _ _ Pc) in Q. lra.
    - specialize (IH ltac:(lia)). lra. }
  rewrite Em. cbn [coef with_coef dc cA cB cC wells dm Rsum fold_right wq porosity thickness]. rewrite Rabs_R0.
  replace (4 * 0 ^ 2 + 2 * 0 ^ 2 + 4 * 0 ^ 2) with 0 by ring. rewrite sqrt_0.
  replace ((0 + (0 + 0) / (6 * (1 * 1))) / (1 / 4 * 1)) with 0 by field. rewrite !Rmult_0_l, exp_0. lra.
Qed.

(** A run whose field has a captured node; the conditions of [agrees] hold with rho = 1, v = 4 and H = 1/10, and the distance
    E is 1/5. *)
Lemma c106_deterministic_example : exists fuel s lg, let a := d_args (PInt 1) halves quarter dobs in let c := d_call 1 dobs in
  deterministic_run fuel a c dobs s lg /\ k_confined c = true /\ k_duration c = Fin (1 / 10) /\ 0 <= 1 / 10 /\ xr_pos (k_umbra c) /\ has_node s 2 0 1 false /\
  forall z, has_parameters mean_of a c dw (z_model z) -> best_fit (z_model z) dobs (coef (z_model z)) -> traced fuel c dw (1 / 10) z ->
    physical (z_model z) /\ water c dw (1 / 10) 4 1 z (fun _ t => (2 + 4 * t, 0)) /\ (forall ts, In ts (z_times z) -> steps_within (1 / 10) ts) /\
    let m := z_model z in let k := coef m in
    let L := (sqrt (4 * cA k ^ 2 + 2 * cC k ^ 2 + 4 * cB k ^ 2) + Rsum (fun o => Rabs (wq o)) (wells m) / (6 * (1 * 1))) / (porosity m * thickness m) in
    let V := 4 + L * 1 in
    50 * L * (1 / 10) <= 1 /\ 5 * V * (1 / 10) * (exp (L * (1 / 10)) - 1) + 2 * V * (1 / 10) <= 1 /\
    5 * V * (1 / 10) * (exp (L * (1 / 10)) - 1) + V * (1 / 10) / 2 = 1 / 5.
Proof.
  destruct c83_deterministic_example as (fuel & s & lg & Ha & Hr & Hw & Hp & Hl & Hc & Hn). exists fuel, s, lg. cbv zeta.
  split; [eapply c83_deterministic; eassumption|]. do 2 (split; [reflexivity|]). split; [lra|]. split; [cbn; lra|]. split; [exact Hn|].
  intros z P Bf T. exact (d_zone fuel 1 10 z (d_model _ P Bf) T).
Qed.

(** Two realizations that both capture a node. *)
Lemma c106_stochastic_example : exists fuel s logs, let a := d_args (PInt 2) (PInt 1) quarter dobs in let c := d_call 2 dobs in
  let mvn := fun (e : coef6 R) (_ : list xr) (_ : list (list xr)) => coef_list (fcoef e) in
  let entropy := fun _ : nat => {| cA := 0; cB := 0; cC := 0; cD := 1; cE := 0; cF := 0 |} in
  stochastic_run mvn fuel entropy a c dobs s logs /\ k_confined c = true /\ k_duration c = Fin (1 / 10) /\ 0 <= 1 / 10 /\ xr_pos (k_umbra c) /\ has_node s 2 0 2 false /\
  forall i z ev C, has_parameters within a c dw (z_model z) -> traced fuel c dw (1 / 10) z ->
    mvn (entropy i) (coef_list (fcoef ev)) C = coef_list (fcoef (coef (z_model z))) ->
    physical (z_model z) /\ water c dw (1 / 10) 4 1 z (fun _ t => (2 + 4 * t, 0)) /\ (forall ts, In ts (z_times z) -> steps_within (1 / 10) ts) /\
    let m := z_model z in let k := coef m in
    let L := (sqrt (4 * cA k ^ 2 + 2 * cC k ^ 2 + 4 * cB k ^ 2) + Rsum (fun o => Rabs (wq o)) (wells m) / (6 * (1 * 1))) / (porosity m * thickness m) in
    let V := 4 + L * 1 in
    50 * L * (1 / 10) <= 1 /\ 5 * V * (1 / 10) * (exp (L * (1 / 10)) - 1) + 2 * V * (1 / 10) <= 1 /\
    5 * V * (1 / 10) * (exp (L * (1 / 10)) - 1) + V * (1 / 10) / 2 = 1 / 5.
Proof.
  destruct c83_stochastic_example as (fuel & s & Ha & Hr & Hw & Hp & Hl & Hm & Hn & Hc). cbv zeta in *.
  destruct (Hc unit {| draw_uniform := fun g p _ => (p, g); draw_triangular := fun g p _ _ => (p, g) |} tt) as (logs & Hc').
  exists fuel, s, logs.
  split; [eapply c83_stochastic; try eassumption; split; intros; cbn; lra|]. do 2 (split; [reflexivity|]). split; [lra|]. split; [cbn; lra|]. split; [exact Hn|].
  intros i z ev C P T M. apply (d_zone fuel 2 0 z); [|exact T]. apply d_model_drawn; [exact P|].
  destruct (coef (z_model z)) as [a1 a2 a3 a4 a5 a6]. unfold fcoef, coef_list in M. cbn in M. unfold dc. congruence.
Qed.
