(** * A concrete case of C128 *)
From Coq Require Import ZArith Reals Lra Lia SpecFloat List Psatz.
From Flocq Require Import Core.
From Verif Require Import Py Num NumXR ModelAquifer ModelTrace ModelDriver SpecFloats SpecExact SpecTrace SpecAquifer SpecPathline
  ProofFloat ProofFloatGrow ProofFloatOps ProofFloatMean ProofFloatGrid ProofDistError ProofFloatDist ProofPi
  ProofAquifer ProofHead ProofTrace ProofPathline ProofPathTube ProofPathWells ProofPathZone SpecUnconfined SpecWhole SpecPathZone ProofPathRun ProofPathExists ProofWhole SpecWater ProofWaterPath SpecRough ProofRoughPath ProofRoughFloat ProofRoughStep ProofRoughTrace
  SpecDischarge ProofDischargeFloat ProofDischargeAcc ProofDischargeTrace ProofDischargeEx SpecField SpecVoyage SpecLevel ProofLevelPot ProofLevelHead ProofLevelVel ProofLevelEx ProofLevelTrace.
Import ListNotations.
Local Open Scope R_scope.

(** An aquifer that is not full, with a regional flow towards lower water. *)
Definition marsh : model spec_float :=
  {| base := f_of_Z 0; conductivity := f_of_Z 1; porosity := fq 1 4; thickness := f_of_Z 4; wells := []; xo := f_of_Z 0; yo := f_of_Z 0;
     ModelAquifer.coef := {| cA := f_of_Z 0; cB := f_of_Z 0; cC := f_of_Z 0; cD := fq 1 16; cE := f_of_Z 0; cF := f_of_Z 5 |} |}.
Definition marsh_real : model R :=
  {| base := 0; conductivity := 1; porosity := / 4; thickness := 4; wells := []; xo := 0; yo := 0;
     ModelAquifer.coef := {| cA := 0; cB := 0; cC := 0; cD := / 16; cE := 0; cF := 5 |} |}.
Definition marsh_trace : trace spec_float :=
  {| vertices := [(S754_finite false 4503599627370496 (-50), S754_finite false 4503599627370496 (-51));
                  (S754_finite false 4509028615939858 (-50), S754_finite false 4503599627370496 (-51))];
     t_end := S754_finite false 4503599627370496 (-56); completed := true |}.

Lemma fv_16 : fval (fq 1 16) = / 16. Proof. change (fq 1 16) with (S754_finite false 4503599627370496 (-56)). unfold fval. change (powerRZ 2 (-56)) with (/ 2 ^ 56). lra. Qed.
Lemma marsh_is : real_model marsh = marsh_real.
Proof.
  unfold real_model, marsh, marsh_real, real_coef. cbn [base conductivity porosity thickness wells xo yo ModelAquifer.coef map cA cB cC cD cE cF].
  rewrite fv_4, fv_16, !fv_int by lia. reflexivity.
Qed.
Lemma marsh_moderate : moderate_model marsh.
Proof.
  pose proof huge_big as HB. pose proof huge_inv as HI.
  assert (Q4 : moderate (fq 1 4)) by (split; [apply fin_q; [reflexivity|exact I]|rewrite fv_4, Rabs_pos_eq; lra]).
  assert (Q16 : moderate (fq 1 16)) by (split; [apply fin_q; [reflexivity|exact I]|rewrite fv_16, Rabs_pos_eq; lra]).
  assert (N : forall n, (Z.abs n <= 1024)%Z -> moderate (f_of_Z n)) by exact int_moderate.
  split; [apply N; lia|]. split; [apply N; lia|]. split.
  { intros c Ic. unfold coef_list in Ic. cbn [marsh ModelAquifer.coef cA cB cC cD cE cF In] in Ic. destruct Ic as [<-|[<-|[<-|[<-|[<-|[<-|[]]]]]]]; solve [exact Q16|apply N; lia]. }
  split; [intros w []|]. split; [apply N; lia|]. split; [exact Q4|]. cbn [marsh thickness porosity]. rewrite fv_4, fv_int by lia. lra.
Qed.
Lemma marsh_sized : sized (conductivity marsh).
Proof. split; [apply int_moderate; lia|]. cbn [marsh conductivity]. rewrite fv_int by lia. pose proof huge_inv. lra. Qed.
Lemma marsh_physical : physical (real_model marsh).
Proof. rewrite marsh_is. unfold physical. cbn [marsh_real conductivity porosity thickness]. lra. Qed.
Lemma marsh_traced : @compute_backtrace _ (SF even_log) 5 (f_of_Z 4) (f_of_Z 2) (fq 1 16) (fq 1 16) (f_of_Z 10) (@feval _ (SF even_log) false marsh) = Ok marsh_trace.
Proof. vm_compute. reflexivity. Qed.
Lemma marsh_step F tol maxstep dts : reckoned even_log F tol maxstep marsh_trace dts -> dts = [S754_finite false 4503599627370496 (-56)].
Proof.
  intros K. pose proof (rk_length _ _ _ _ _ _ K) as E1. pose proof (rk_end _ _ _ _ _ _ K) as E2. clear K. destruct dts as [|d [|d' r]]; try discriminate E1.
  cbn [fold_left] in E2. change (f_of_Z 0) with (S754_zero false) in E2. cbn [t_end marsh_trace] in E2. destruct d as [s|s| |s m e]; try discriminate E2; [destruct s; discriminate E2|]. cbn [SFadd] in E2. now rewrite E2.
Qed.
Lemma marsh_points : forall c, In c (map at_ (vertices marsh_trace)) -> 4 <= fst c <= 5 /\ 2 <= snd c <= 3.
Proof.
  intros c [<-|[<-|[]]]; unfold at_, fval; cbn [fst snd]; change (powerRZ 2 (-50)) with (/ 2 ^ 50); change (powerRZ 2 (-51)) with (/ 2 ^ 51); lra.
Qed.
Lemma marsh_change rho : flux_change marsh_real rho = 0.
Proof.
  unfold flux_change, marsh_real. cbn [ModelAquifer.coef cA cB cC wells fold_right]. replace (4 * 0 ^ 2 + 2 * 0 ^ 2 + 4 * 0 ^ 2) with 0 by ring. rewrite sqrt_0. unfold Rdiv. ring.
Qed.
Lemma marsh_flux q : flux marsh_real q = / 16.
Proof.
  unfold flux, discharge_x, discharge_y. rewrite compute_discharge_eq by (intros w []). cbn [fst snd Rval marsh_real ModelAquifer.coef cA cB cC cD cE xo yo wells Rsum fold_right]. unfold pnorm. cbn [fst snd].
  match goal with |- sqrt ?a = _ => replace a with (/ 16 * / 16) by ring end. apply sqrt_square. lra.
Qed.
Lemma marsh_potential q : potential marsh_real (fst q) (snd q) = 5 + fst q / 16.
Proof.
  unfold potential. rewrite compute_potential_eq by (intros w []). cbn [Rval]. unfold quad. cbn [marsh_real ModelAquifer.coef cA cB cC cD cE cF xo yo wells Rsum fold_right]. field.
Qed.

(** A case of [c128_unconfined]: the water is never deeper than the aquifer is thick. *)
Lemma c128_example : let f := feval false (fmodel (real_model marsh)) in let l := map at_ (vertices marsh_trace) in
  log_within even_log (/ 2 ^ 38) /\
  @compute_backtrace _ (SF even_log) 5 (f_of_Z 4) (f_of_Z 2) (fq 1 16) (fq 1 16) (f_of_Z 10) (@feval _ (SF even_log) false marsh) = Ok marsh_trace /\
  length l = 2%nat /\ nth 1 l (0, 0) <> nth 0 l (0, 0) /\
  (forall c, In c l -> water_depth (real_model marsh) (fst c) (snd c) < thickness (real_model marsh)) /\
  exists Z, Z 0 = (4, 2) /\ moves f Z (1 / 16) /\
    (forall i, (i < 2)%nat -> pdist (nth i l (0, 0)) (Z (INR i / 16)) <= 1 / 2000) /\ beside (1 / 2000) l Z (1 / 16).
Proof.
  intros f l. split; [exact even_within|]. split; [exact marsh_traced|]. split; [reflexivity|]. split.
  { intros E. apply (f_equal fst) in E. revert E. unfold l, at_, fval. cbn [marsh_trace vertices map nth fst snd]. change (powerRZ 2 (-50)) with (/ 2 ^ 50). lra. }
  split.
  { intros c Ic. destruct (marsh_points c Ic) as (P1 & _). rewrite marsh_is. unfold water_depth. rewrite marsh_potential. cbn [marsh_real conductivity thickness].
    destruct (girinskii_head 1 4 (5 + fst c / 16) ltac:(lra) ltac:(lra) ltac:(lra)) as (P0 & G & _). set (h := head_at 1 4 (5 + fst c / 16)) in *. unfold girinskii in G. destruct (Rlt_dec h 4) as [L|L]; [rewrite Rmin_left by lra; exact L|]. lra. }
  destruct (c128_unconfined even_log (/ 2 ^ 38) marsh 5 (f_of_Z 4) (f_of_Z 2) (fq 1 16) (fq 1 16) (f_of_Z 10) marsh_trace ltac:(lra) even_within marsh_moderate marsh_sized ltac:(cbn; lia) marsh_traced (proj1 (of_small 4 ltac:(lia))) (proj1 (of_small 2 ltac:(lia)))) as (dts & K & W).
  apply marsh_step in K. subst dts. pose proof huge_big as HB. pose proof huge_inv as HI. pose proof minute_small as HM. pose proof tiny_small as TS. pose proof tiny_pos as TP.
  assert (VS : fval (S754_finite false 4503599627370496 (-56)) = 1 / 16) by (unfold fval; change (powerRZ 2 (-56)) with (/ 2 ^ 56); lra).
  specialize (W f (/ 16) (/ 50) 2 2 8 (/ 16) (upstream_feval false _ marsh_physical)). cbn [clock last length map vertices marsh_trace] in W. rewrite VS in W. cbv zeta in W. rewrite marsh_is in W.
  assert (Bp : burden_p marsh_real 8 2 = 45 / 8).
  { unfold burden_p, marsh_real. cbn [ModelAquifer.coef cA cB cC cD cE cF xo yo wells Rsum fold_right]. cbv zeta. rewrite !Rabs_R0, (Rabs_pos_eq (/ 16)), (Rabs_pos_eq 5) by lra. lra. }
  assert (Bd : burden marsh_real 8 2 = / 16).
  { unfold burden, marsh_real. cbn [ModelAquifer.coef cA cB cC cD cE xo yo wells Rsum fold_right]. rewrite !Rabs_R0, (Rabs_pos_eq (/ 16)) by lra. lra. }
  assert (LB : 0 <= level_bound (/ 2 ^ 38) marsh_real 8 2 <= / 10 ^ 10).
  { unfold level_bound. rewrite Bp. cbn [marsh_real wells length INR]. split; [apply Rmult_le_pos; lra|]. apply Rle_trans with (((0 + 13) / 2 ^ 52 + 2 * / 2 ^ 38) * (45 / 8 + 2 * / 1024)); [apply Rmult_le_compat_l; lra|lra]. }
  assert (Vp : pace marsh_real (/ 16) 2 2 = / 8) by (unfold pace; rewrite marsh_change; cbn [marsh_real porosity]; lra). rewrite Vp in W.
  set (d := current_error (/ 2 ^ 38) marsh_real 8 2 2) in W.
  assert (Hd : 0 <= d <= / 10 ^ 9).
  { unfold d, current_error. rewrite Bd. cbn [marsh_real wells length INR conductivity porosity]. fold marsh_real. set (z := level_bound (/ 2 ^ 38) marsh_real 8 2) in *. split; [apply Rmult_le_pos; lra|].
    apply Rle_trans with (2 * ((0 + 12) / 2 ^ 51 + 2 * (3 * / 10 ^ 10 / (1 * (2 * 2)) + / 2 ^ 47)) * ((/ 16 + / 1024) / (2 * / 4))); [apply Rmult_le_compat; lra|lra]. }
  clearbody d. set (Rr := rounding 8 (/ 16) (/ 8)) in W. assert (HR : 0 <= Rr <= / 10 ^ 10) by (unfold Rr, rounding; lra). clearbody Rr.
  set (eta := wrong (/ 50) d Rr) in W. assert (He : 0 <= eta <= / 10 ^ 7) by (unfold eta, wrong; lra). clearbody eta.
  assert (HE : forall i t, (i <= 2)%nat -> 0 <= t <= 1 / 16 -> astray (/ 8) (/ 50) (/ 16) eta Rr i t <= 1 / 2000).
  { intros i t Hi Ht. unfold astray. pose proof (exp_near (/ 50 * t) ltac:(lra)) as EX. assert (EP : 1 <= exp (/ 50 * t)).
    { destruct (Req_dec (/ 50 * t) 0) as [->|N]; [rewrite exp_0; lra|]. pose proof (exp_ineq1 (/ 50 * t) N). lra. }
    set (x := exp (/ 50 * t)) in *. assert (Hi2 : 0 <= INR i <= 2) by (split; [apply pos_INR|apply le_INR in Hi; cbn in Hi; lra]).
    assert (A : (6 * / 8 * / 16 + 2 * eta / / 50) * (x - 1) <= / 16 * (1 / 400)).
    { unfold Rdiv at 1. rewrite Rinv_inv. apply Rmult_le_compat; lra. }
    assert (B : INR i * Rr * x <= 2 * / 10 ^ 10 * 2) by (apply Rmult_le_compat; [apply Rmult_le_pos; lra|lra|apply Rmult_le_compat; lra|lra]). lra. }
  replace (0 + 1 / 16) with (1 / 16) in W by lra.
  assert (HH2 : 1024 * 1 <= huge * huge) by (apply Rmult_le_compat; lra). assert (HH3 : / (huge * huge) <= 1) by (rewrite <- Rinv_1; apply Rinv_le_contravar; lra).
  destruct W as (_ & Z & Z0 & ZM & ZE & ZB & _); try lra.
  - intros c Ic. destruct (marsh_points c Ic) as (P1 & P2). rewrite !Rabs_pos_eq by lra. lra.
  - intros dt [<-|[]]. split; [split; [reflexivity|exact I]|]. rewrite VS. lra.
  - cbn [marsh_real thickness]. lra.
  - intros q Iq. destruct (marsh_points q Iq) as (P1 & _). rewrite marsh_flux, marsh_change, marsh_potential. split; [lra|]. split; [intros o []|]. cbn [marsh_real conductivity]. lra.
  - unfold sound. rewrite Bp. cbn [marsh_real conductivity]. fold marsh_real. split; [lra|]. split; lra.
  - unfold shear. rewrite marsh_change. cbn [marsh_real conductivity porosity]. lra.
  - pose proof (HE 2%nat (1 / 16) ltac:(lia) ltac:(lra)). lra.
  - exists Z. split; [rewrite Z0, !fv_int by lia; reflexivity|]. split; [exact ZM|]. split.
    + intros i Hi. specialize (ZE i ltac:(exact Hi)). cbv zeta in ZE.
      assert (Ti : nth i [0; 1 / 16] 0 = INR i / 16) by (destruct i as [|[|i]]; [cbn; lra|cbn; lra|lia]). rewrite Ti in ZE. destruct ZE as (T1 & T2). eapply Rle_trans; [exact T2|]. apply HE; [lia|exact T1].
    + pose proof (HE 2%nat (1 / 16) ltac:(lia) ltac:(lra)) as H2. destruct ZB as (ZB1 & ZB2). split.
      * intros p Hp. destruct (ZB1 p Hp) as (t & Z1 & Z2). exists t. split; [exact Z1|]. cbn [length] in *. lra.
      * intros t Ht. destruct (ZB2 t Ht) as (z & Z1 & Z2). exists z. split; [exact Z1|]. cbn [length] in *. lra.
Qed.

(** A case of [c128_charted]: the chart of this trace is one that C125 accepts. *)
Definition marsh_chart : chart :=
  {| c_V := / 8; c_L := / 50; c_rho := 2; c_d := current_error (/ 2 ^ 38) marsh_real 8 2 2; c_X := 8; c_H := / 16; c_S := 1; c_T := 1 / 16; c_N := 2 |}.
Lemma c128_chart_example : seaworthy marsh_chart /\
  charted (@feval _ (SF even_log) false marsh) (feval false (fmodel (real_model marsh))) marsh_chart (marsh_trace, [S754_finite false 4503599627370496 (-56)]).
Proof.
  pose proof huge_big as HB. pose proof huge_inv as HI. pose proof minute_small as HM. pose proof tiny_small as TS. pose proof tiny_pos as TP.
  assert (VS : fval (S754_finite false 4503599627370496 (-56)) = 1 / 16) by (unfold fval; change (powerRZ 2 (-56)) with (/ 2 ^ 56); lra).
  assert (Bp : burden_p marsh_real 8 2 = 45 / 8).
  { unfold burden_p, marsh_real. cbn [ModelAquifer.coef cA cB cC cD cE cF xo yo wells Rsum fold_right]. cbv zeta. rewrite !Rabs_R0, (Rabs_pos_eq (/ 16)), (Rabs_pos_eq 5) by lra. lra. }
  assert (Bd : burden marsh_real 8 2 = / 16).
  { unfold burden, marsh_real. cbn [ModelAquifer.coef cA cB cC cD cE xo yo wells Rsum fold_right]. rewrite !Rabs_R0, (Rabs_pos_eq (/ 16)) by lra. lra. }
  assert (LB : 0 <= level_bound (/ 2 ^ 38) marsh_real 8 2 <= / 10 ^ 10).
  { unfold level_bound. rewrite Bp. cbn [marsh_real wells length INR]. split; [apply Rmult_le_pos; lra|]. apply Rle_trans with (((0 + 13) / 2 ^ 52 + 2 * / 2 ^ 38) * (45 / 8 + 2 * / 1024)); [apply Rmult_le_compat_l; lra|lra]. }
  assert (Hd : 0 <= current_error (/ 2 ^ 38) marsh_real 8 2 2 <= / 10 ^ 9).
  { unfold current_error. rewrite Bd. cbn [marsh_real wells length INR conductivity porosity]. fold marsh_real. set (z := level_bound (/ 2 ^ 38) marsh_real 8 2) in *. split; [apply Rmult_le_pos; lra|].
    apply Rle_trans with (2 * ((0 + 12) / 2 ^ 51 + 2 * (3 * / 10 ^ 10 / (1 * (2 * 2)) + / 2 ^ 47)) * ((/ 16 + / 1024) / (2 * / 4))); [apply Rmult_le_compat; lra|lra]. }
  assert (HH2 : 1024 * 1 <= huge * huge) by (apply Rmult_le_compat; lra). assert (HH3 : / (huge * huge) <= 1) by (rewrite <- Rinv_1; apply Rinv_le_contravar; lra).
  split.
  - unfold seaworthy, drift. cbn [c_V c_L c_rho c_d c_X c_H c_S c_T c_N marsh_chart]. cbv zeta. set (d := current_error (/ 2 ^ 38) marsh_real 8 2 2) in *. clearbody d.
    set (Rr := rounding 8 (/ 16) (/ 8)). assert (HR : 0 <= Rr <= / 10 ^ 10) by (unfold Rr, rounding; lra). clearbody Rr.
    set (eta := wrong (/ 50) d Rr). assert (He : 0 <= eta <= / 10 ^ 7) by (unfold eta, wrong; lra). clearbody eta.
    assert (HE : astray (/ 8) (/ 50) (/ 16) eta Rr 2 (1 / 16) <= 1 / 2000).
    { unfold astray. pose proof (exp_near (/ 50 * (1 / 16)) ltac:(lra)) as EX. pose proof (exp_ineq1 (/ 50 * (1 / 16)) ltac:(lra)) as EP. set (x := exp (/ 50 * (1 / 16))) in *. cbn [INR].
      assert (A : (6 * / 8 * / 16 + 2 * eta / / 50) * (x - 1) <= / 16 * (1 / 400)) by (unfold Rdiv at 1; rewrite Rinv_inv; apply Rmult_le_compat; lra).
      assert (B : (1 + 1) * Rr * x <= 2 * / 10 ^ 10 * 2) by (apply Rmult_le_compat; lra). lra. }
    repeat (split; [lra|]). lra.
  - assert (Pts : forall c, In c (points (marsh_trace, [S754_finite false 4503599627370496 (-56)])) -> 4 <= fst c <= 5 /\ 2 <= snd c <= 3) by exact marsh_points.
    apply (c128_charted even_log (/ 2 ^ 38) marsh _ (/ 16) 2); cbn [c_V c_L c_rho c_d c_X c_H c_S c_T c_N marsh_chart]; rewrite ?marsh_is; try lra.
    + exact even_within.
    + exact marsh_moderate.
    + exact marsh_sized.
    + cbn. lia.
    + rewrite <- marsh_is. exact (upstream_feval false _ marsh_physical).
    + cbn [marsh_real thickness]. lra.
    + intros q Iq. destruct (Pts q Iq) as (P1 & _). rewrite marsh_flux, marsh_change, marsh_potential. split; [lra|]. split; [intros o []|]. cbn [marsh_real conductivity]. lra.
    + unfold sound. rewrite Bp. cbn [marsh_real conductivity]. fold marsh_real. split; [lra|]. split; lra.
    + unfold shear. rewrite marsh_change. cbn [marsh_real conductivity porosity]. lra.
    + unfold pace. rewrite marsh_change. cbn [marsh_real porosity]. lra.
    + intros p E. injection E as <-. split; (split; [reflexivity|exact I]).
    + intros c Ic. destruct (Pts c Ic) as (P1 & P2). rewrite !Rabs_pos_eq by lra. lra.
    + intros dt [<-|[]]. split; [split; [reflexivity|exact I]|]. rewrite VS. lra.
    + intros a b (i & E1 & E2). destruct i as [|[|i]]; try (destruct i; discriminate E2); try discriminate E2. injection E1 as <-. injection E2 as <-. rewrite pdist_norm. eapply Rle_trans; [apply pnorm_sum|]. unfold psub, at_, fval. cbn [fst snd].
      change (powerRZ 2 (-50)) with (/ 2 ^ 50). change (powerRZ 2 (-51)) with (/ 2 ^ 51). rewrite !Rabs_pos_eq by lra. lra.
    + cbn. lia.
    + unfold span. cbn [snd clock last]. rewrite VS. lra.
Qed.
