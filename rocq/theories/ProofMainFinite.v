(** * Finite regression rows and velocities (C63) *)
From Coq Require Import Reals Lra Lia Psatz String.
From Verif Require Import Py Num NumXR ModelField ModelAquifer ModelTrace ModelObs ModelDist ModelDriver ModelPlot ModelArchive ModelMain.
From Verif Require Import SpecAquifer SpecFit SpecTrace SpecObs SpecDriver SpecPlot SpecDist SpecMain ProofPi ProofAquifer ProofHead Lstsq ProofFit ProofFitProps ProofObs ProofObsProps ProofDist ProofDriver ProofDriverProps ProofDriverEx ProofMain ProofMainRun ProofMainEnd ProofMainEx.
From Verif Require Import SpecField.
Import ListNotations.
Local Open Scope R_scope.
Local Opaque kappa.

Lemma variance_zero g : (forall o, In o g -> 0 < os o) -> forall w,
  0 <= variance w g /\ (variance w g = 0 -> wsum (fun a _ => a) w g = 0).
Proof.
  unfold variance. induction g as [|o g IH]; intros P [|a w]; cbn; try (split; [lra|intros; lra]).
  destruct (IH (fun p Hp => P p (or_intror Hp)) w) as [I1 I2].
  assert (So : 0 < os o) by (apply P; left; reflexivity).
  assert (0 <= a * os o * (a * os o)) by apply Rle_0_sqr. split; [lra|]. intros E.
  assert (E1 : a * os o * (a * os o) = 0) by lra. apply Rsqr_0_uniq in E1. apply Rmult_integral in E1.
  rewrite I2 by lra. destruct E1; lra.
Qed.

Lemma kept_usable m l b kept : 0 < b -> (forall o, In o l -> base m < oz o /\ 0 < os o) ->
  filter_obs (map fobs l) (map (fun w => floc (wx w, wy w)) (wells m)) (Fin b) = Ok kept ->
  exists k, kept = map fobs k /\ forall o, In o k -> usable m o.
Proof.
  intros Hb Hl H. rewrite <- (map_map (fun w => (wx w, wy w)) floc) in H.
  destruct (c50_best l _ b kept (fun o Ho => Rlt_le _ _ (proj2 (Hl o Ho))) H) as (gs & k & -> & S & F).
  exists k. split; [reflexivity|]. intros o' Ho'.
  assert (I : forall g, In g gs -> forall p, In p g -> In p l /\ forall w, In w (wells m) -> b < odist p (wx w, wy w)).
  { intros g Hg p Hp. assert (Q : In p (concat gs)) by (apply in_concat; eauto).
    apply (survivors_in _ _ _ S) in Q. destruct Q as [Q1 Q2]. split; [exact Q1|]. intros w Hw. apply Q2. apply (in_map (fun w => (wx w, wy w))). exact Hw. }
  clear H S. induction F as [|g o gs k (OG & AL & ((p & Hp & Lp) & _) & _ & BA) F IH]; [destruct Ho'|].
  destruct Ho' as [<-|Ho']; [|apply IH; [exact Ho'|intros g' Hg'; apply I; right; exact Hg']]. clear IH.
  specialize (I g (or_introl eq_refl)). split; [|split].
  - destruct (I p Hp) as [Q _]. pose proof (Hl p Q). lra.
  - destruct BA as (w & (_ & W1) & _ & O1 & O2 & _).
    destruct (variance_zero g) with (w := w) as [V1 V2]; [intros q Hq; apply Hl, I, Hq|].
    destruct (Req_dec (os o) 0) as [Z|Z]; [|lra]. rewrite Z in O2. rewrite V2 in W1 by lra. lra.
  - destruct AL as (lead & rest & -> & EL). destruct (I lead (or_introl eq_refl)) as [_ Q].
    intros w Hw [E1 E2]. specialize (Q w Hw). unfold loc in EL. injection EL as X Y. unfold odist in Q. cbn [fst snd] in Q.
    rewrite <- X, <- Y, E1, E2, !Rminus_diag_eq in Q by reflexivity. replace (0 * 0 + 0 * 0) with 0 in Q by ring. rewrite sqrt_0 in Q. lra.
Qed.

(** Missing from C63: validation also accepts zero and infinite parameters and zero deviations, for which
    it is false (below); and a velocity exists only away from the wells and where the aquifer is not dry. *)
Lemma c63_partial : forall m l b kept x0 y0,
  physical m -> 0 < b -> (forall o, In o l -> base m < oz o /\ 0 < os o) ->
  filter_obs (map fobs l) (map (fun w => floc (wx w, wy w)) (wells m)) (Fin b) = Ok kept ->
  (exists rows rhs, construct_fit (fmodel m) kept (Fin x0) (Fin y0) = Ok (map (map Fin) rows, map Fin rhs)) /\
  forall c x y, off_wells (wells m) x y -> let m' := fmodel (with_coef m x0 y0 c) in
    (exists vx vy, compute_velocity_confined m' (Fin x) (Fin y) = (Fin vx, Fin vy)) /\
    (compute_velocity m' (Fin x) (Fin y) = Raise AquiferError \/ exists vx vy, compute_velocity m' (Fin x) (Fin y) = Ok (Fin vx, Fin vy)).
Proof.
  intros m l b kept x0 y0 (HK & Hn & HH) Hb Hl H. destruct (kept_usable m l b kept Hb Hl H) as (k & -> & U). split.
  - destruct (c28_row_residual m k x0 y0 HK HH U) as (rows & r & E & _). eauto.
  - intros c x y Off m'. subst m'. set (m' := with_coef m x0 y0 c).
    assert (Hm : physical m') by (repeat split; assumption). assert (Off' : off_wells (wells m') x y) by exact Off.
    destruct (c21_discharge_is_minus_gradient m' x y Off') as (p & qx & qy & Ep & Eq & _).
    destruct (c26_confined_shortcut m' x y p Hm Off' Ep) as (cx & cy & Ec & _). split; [eauto|].
    destruct (c25_velocity m' x y p qx qy Hm Off' Ep Eq) as [V1 V2]. destruct (Rle_lt_dec p 0) as [Hp|Hp]; [left; auto|].
    destruct (V2 Hp) as (h & _ & _ & ->). right. eauto.
Qed.

(** ** Porosity zero: accepted, fitted, infinite velocity *)
Definition dm_n (n : R) : model R :=
  {| base := 0; conductivity := 1; porosity := n; thickness := 1;
     wells := [{| wx := 0; wy := 0; wr := 1; wq := 0 |}]; xo := 0; yo := 0; coef := zero_coef |}.

Lemma d_fit_n n la : linalg_contract la -> exists C,
  fit_regional_flow la (fmodel (dm_n n)) (map fobs dobs) (Fin 0) (Fin 0)
  = (fmodel (with_coef (dm_n n) 0 0 (dc 1 10)), Ok (coef_list (fcoef (dc 1 10)), C)).
Proof.
  intros Hla. apply c29_recovers_coefficients; [exact Hla|cbn; lra|cbn; lra| |exact dobs_free|].
  - intros o Ho. exact (dobs_usable o Ho).
  - intros o Ho. pose proof (dobs_usable o Ho) as (_ & _ & Off). apply dobs_in in Ho. destruct Ho as (x & y & -> & H1 & H2).
    rewrite potential_with_coef by exact Off. unfold obs_ev. cbn [base dm_n oz os ox oy dob thickness conductivity].
    destruct (Rlt_dec _ _); [lra|]. unfold Rsum, wells, dm_n, wpot, quad, dc. cbn [fold_right wq cA cB cC cD cE cF]. field.
Qed.

Lemma c63_porosity_refuted : validate (d_args (PInt 1) halves (PInt 0) dobs) = Ok tt /\ documented_args (d_args (PInt 1) halves (PInt 0) dobs) /\
  forall la, linalg_contract la -> exists m r,
    fit_regional_flow la (new_model (Fin 0) (Fin 1) (Fin 0) (Fin 1) [{| wx := Fin 0; wy := Fin 0; wr := Fin 1; wq := Fin 0 |}]) (map fobs dobs) (Fin 0) (Fin 0) = (m, Ok r) /\
    compute_velocity_confined m (Fin 2) (Fin 0) = (NInf, NaN).
Proof.
  assert (A : acceptable (d_args (PInt 1) halves (PInt 0) dobs)).
  { apply d_acceptable; [exact halves_dist| |exact dobs_seven|exact dobs_os]. eapply scalar_dist; [apply num_int|cbn; lra|cbn; lra]. }
  split; [apply c64_accepts, A|]. split; [split; [exact A|exists 1%Z; constructor]|].
  intros la Hla. destruct (d_fit_n 0 la Hla) as (C & E). eexists; eexists. split; [exact E|].
  unfold compute_velocity_confined. rewrite compute_discharge_eq by (intros w [<-|[]]; cbn; lra).
  cbn [thickness porosity fmodel with_coef dm_n nmul ndiv XR xmul coef xo yo wells Rsum fold_right dc cA cB cC cD cE cF wqx wqy wq].
  unfold wqx, wqy. cbn [wq wx wy]. replace (1 * 0) with 0 by ring. unfold xdiv, inf_of_sign. rewrite (proj2 (Reqb_true 0 0)) by reflexivity.
  match goal with |- context [Rltb 0 ?a] => replace a with (-1) by (unfold wdist2; cbn; field) end.
  rewrite (proj2 (Rltb_false 0 (-1))) by lra. rewrite (proj2 (Rltb_true (-1) 0)) by lra.
  match goal with |- context [Rltb 0 ?a] => replace a with 0 by (unfold wdist2; cbn; field) end.
  rewrite (proj2 (Rltb_false 0 0)) by lra. reflexivity.
Qed.

(** ** Deviation zero: accepted, and the rows are not finite *)
Lemma c63_deviation_refuted : validate (d_args (PInt 1) halves quarter (map zero_dev dobs)) = Ok tt /\
  documented_args (d_args (PInt 1) halves quarter (map zero_dev dobs)) /\
  retained (d_call 1 (map zero_dev dobs)) (map fobs (map zero_dev dobs)) /\
  exists rows rhs, construct_fit (fmodel dm) (map fobs (map zero_dev dobs)) (Fin 0) (Fin 0) = Ok ([NaN; PInf; NaN; NaN; PInf; PInf] :: rows, PInf :: rhs).
Proof.
  assert (A : acceptable (d_args (PInt 1) halves quarter (map zero_dev dobs))).
  { apply d_acceptable; [exact halves_dist|exact quarter_dist|cbn; lia|]. intros o Ho. apply in_map_iff in Ho. destruct Ho as (p & <- & _). cbn. lra. }
  split; [apply c64_accepts, A|]. split; [split; [exact A|exists 1%Z; constructor]|]. split; [apply keeps; reflexivity|].
  assert (T1 : 0 < thickness dm) by (cbn; lra). assert (W0 : wells dm <> []) by discriminate.
  destruct (c27_construct_fit_range dm (map zero_dev dobs) 0 0 T1 (or_introl W0)) as [_ K].
  destruct (proj2 K) as (r & E); [intros o Ho; apply in_map_iff in Ho; destruct Ho as (p & <- & Hp); exact (proj1 (dobs_usable p Hp))|].
  assert (R1 : fit_row (fmodel dm) (Fin 0) (Fin 0) (fobs (zero_dev (dob 0 1))) = Ok ([NaN; PInf; NaN; NaN; PInf; PInf], PInf)).
  { unfold fit_row, obs_potential. cbn [base fmodel dm thickness conductivity oz os ox oy fobs zero_dev dob wells map].
    cbn [nsub nle nmul ndiv nadd nlit nZ nsq XR xsub xadd xopp xmul nlt xle xlt].
    rewrite (proj2 (Rleb_true 1 _)) by lra. cbn [bind]. rewrite Rmult_0_r.
    assert (W : potential_wells [fwell {| wx := 0; wy := 0; wr := 1; wq := 0 |}] (Fin 0) (Fin 1) = Fin 0).
    { change [fwell {| wx := 0; wy := 0; wr := 1; wq := 0 |}] with (map fwell (wells dm)). rewrite potential_wells_eq by (intros w [<-|[]]; cbn; lra).
      cbn [wells dm Rsum fold_right]. unfold wpot. cbn [wq]. apply f_equal. ring. }
    rewrite W. cbn. 
    repeat match goal with |- context [Reqb ?a ?b] => first [rewrite (proj2 (Reqb_true a b)) by lra] end.
    unfold inf_of_sign. 
    repeat match goal with |- context [Rltb ?a ?b] => first [rewrite (proj2 (Rltb_true a b)) by lra | rewrite (proj2 (Rltb_false a b)) by lra] end.
    reflexivity. }
  assert (Q : forall l, map fobs (map zero_dev dobs) = fobs (zero_dev (dob 0 1)) :: l ->
    exists rows rhs, construct_fit (fmodel dm) (map fobs (map zero_dev dobs)) (Fin 0) (Fin 0) = Ok ([NaN; PInf; NaN; NaN; PInf; PInf] :: rows, PInf :: rhs)).
  { intros l El. rewrite El in *. unfold construct_fit in *. cbn [map_res] in *. rewrite R1 in *. cbn [bind] in *.
    destruct (map_res (fit_row (fmodel dm) (Fin 0) (Fin 0)) l) as [rs| |]; try discriminate E.
    cbn [bind map fst snd]. eexists; eexists. reflexivity. }
  eapply Q. reflexivity.
Qed.

(** The hypotheses of [c63_partial] hold of the seven observations of the example. *)
Lemma c63_example : physical dm /\ 0 < 1 / 2 /\ (forall o, In o dobs -> base dm < oz o /\ 0 < os o) /\
  filter_obs (map fobs dobs) (map (fun w => floc (wx w, wy w)) (wells dm)) (Fin (1 / 2)) = Ok (map fobs dobs) /\ off_wells (wells dm) 2 0.
Proof.
  split; [repeat split; cbn; lra|]. split; [lra|]. split; [intros o Ho; destruct (dobs_usable o Ho) as (? & ? & _); auto|].
  split; [exact (keeps dobs eq_refl)|]. intros w [<-|[]]. cbn. lra.
Qed.
