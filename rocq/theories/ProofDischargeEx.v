(** * Concrete cases of C123 and C124 *)
From Coq Require Import ZArith Reals Lra Lia SpecFloat List Psatz.
From Flocq Require Import Core.
From Verif Require Import Py Num NumXR ModelAquifer ModelTrace ModelDriver SpecFloats SpecExact SpecTrace SpecAquifer SpecPathline
  ProofFloat ProofFloatGrow ProofFloatOps ProofFloatMean ProofFloatGrid ProofDistError ProofFloatDist ProofPi
  ProofAquifer ProofTrace ProofPathline ProofPathTube ProofPathWells ProofPathZone SpecWhole SpecPathZone ProofPathRun ProofPathExists ProofWhole SpecWater ProofWaterPath SpecRough ProofRoughPath ProofRoughFloat ProofRoughStep ProofRoughTrace
  SpecDischarge ProofDischargeFloat ProofDischargeAcc ProofDischargeTrace.
Import ListNotations.
Local Open Scope R_scope.

(** A quotient of two integers in binary64. *)
Definition fq (a b : Z) : spec_float := SFdiv fprec femax (f_of_Z a) (f_of_Z b).

(** A confined aquifer with a recharge, a regional flow and one well. *)
Definition mild : model spec_float :=
  {| base := f_of_Z 0; conductivity := f_of_Z 1; porosity := fq 1 4; thickness := f_of_Z 4;
     wells := [{| wx := f_of_Z 0; wy := f_of_Z 0; wr := f_of_Z 1; wq := f_of_Z 6 |}]; xo := f_of_Z 0; yo := f_of_Z 0;
     ModelAquifer.coef := {| cA := fq 1 256; cB := f_of_Z 0; cC := f_of_Z 0; cD := f_of_Z (-1); cE := f_of_Z 0; cF := f_of_Z 0 |} |}.
Definition mild_trace : trace spec_float :=
  {| vertices := [(S754_finite false 7036874417766400 (-46), S754_finite false 5629499534213120 (-48));
                  (S754_finite false 7035952505400063 (-46), S754_finite false 5629531844715168 (-48))];
     t_end := S754_finite false 4503599627370496 (-56); completed := true |}.

Lemma fv_int n : (Z.abs n <= 2 ^ 53)%Z -> fval (f_of_Z n) = IZR n. Proof. intros H. apply (of_small n H). Qed.
Lemma fv_4 : fval (fq 1 4) = / 4. Proof. change (fq 1 4) with (S754_finite false 4503599627370496 (-54)). unfold fval. change (powerRZ 2 (-54)) with (/ 2 ^ 54). lra. Qed.
Lemma fv_256 : fval (fq 1 256) = / 256. Proof. change (fq 1 256) with (S754_finite false 4503599627370496 (-60)). unfold fval. change (powerRZ 2 (-60)) with (/ 2 ^ 60). lra. Qed.
Lemma fin_q a b : valid_binary fprec femax (fq a b) = true -> match fq a b with S754_zero _ | S754_finite _ _ _ => True | _ => False end -> ffinite (fq a b).
Proof. exact (fun H1 H2 => conj H1 H2). Qed.

Lemma huge_big : 1024 <= huge. Proof. rewrite huge_bpow. change 1024 with (bpow radix2 10). apply bpow_le. lia. Qed.
Lemma huge_inv : / huge <= / 1024. Proof. apply Rinv_le_contravar; [lra|exact huge_big]. Qed.
Lemma minute_small : minute <= 1. Proof. rewrite minute_bpow. change 1 with (bpow radix2 0). apply bpow_le. lia. Qed.
Lemma tiny_small : tiny <= / 1024. Proof. rewrite tiny_bpow. change (/ 1024) with (bpow radix2 (-10)). apply bpow_le. lia. Qed.
Lemma int_moderate n : (Z.abs n <= 1024)%Z -> moderate (f_of_Z n).
Proof.
  intros H. destruct (of_small n ltac:(lia)) as (F & E). split; [exact F|]. rewrite E, <- abs_IZR. apply IZR_le in H. pose proof huge_big. lra.
Qed.

Definition mild_real : model R :=
  {| base := 0; conductivity := 1; porosity := / 4; thickness := 4; wells := [{| wx := 0; wy := 0; wr := 1; wq := 6 |}]; xo := 0; yo := 0;
     ModelAquifer.coef := {| cA := / 256; cB := 0; cC := 0; cD := -1; cE := 0; cF := 0 |} |}.
Lemma mild_is : real_model mild = mild_real.
Proof.
  unfold real_model, mild, mild_real, real_well, real_coef. cbn [base conductivity porosity thickness wells xo yo ModelAquifer.coef map wx wy wr wq cA cB cC cD cE cF].
  rewrite fv_4, fv_256, !fv_int by lia. reflexivity.
Qed.
Lemma mild_moderate : moderate_model mild.
Proof.
  pose proof huge_big as HB. pose proof huge_inv as HI.
  assert (Q4 : moderate (fq 1 4)) by (split; [apply fin_q; [reflexivity|exact I]|rewrite fv_4, Rabs_pos_eq; lra]).
  assert (Q256 : moderate (fq 1 256)) by (split; [apply fin_q; [reflexivity|exact I]|rewrite fv_256, Rabs_pos_eq; lra]).
  assert (N : forall n, (Z.abs n <= 1024)%Z -> moderate (f_of_Z n)) by exact int_moderate.
  split; [apply N; lia|]. split; [apply N; lia|]. split.
  { intros c Ic. unfold coef_list in Ic. cbn [mild ModelAquifer.coef cA cB cC cD cE cF In] in Ic. destruct Ic as [<-|[<-|[<-|[<-|[<-|[<-|[]]]]]]]; solve [exact Q256|apply N; lia]. }
  split.
  { intros w [<-|[]]. split; [apply N; lia|]. split; apply N; lia. }
  split; [apply N; lia|]. split; [exact Q4|]. cbn [mild thickness porosity]. rewrite fv_4, fv_int by lia. lra.
Qed.
Lemma mild_physical : physical (real_model mild).
Proof. rewrite mild_is. unfold physical. cbn [mild_real conductivity porosity thickness]. lra. Qed.

Lemma div_one x : x / 1 = x. Proof. field. Qed.

(** A case of [c123_discharge] and [c123_velocity]. *)
Lemma c123_example : forall lm : libm,
  moderate_model mild /\ moderate (f_of_Z 100) /\ moderate (f_of_Z 20) /\ clear_of_wells (real_model mild) (fval (f_of_Z 100), fval (f_of_Z 20)) /\
  let v := @compute_velocity_confined _ (SF lm) mild (f_of_Z 100) (f_of_Z 20) in
  Rabs (fval (fst v) - discharge_x (real_model mild) 100 20) <= / 10 ^ 14 /\ Rabs (fval (snd v) - discharge_y (real_model mild) 100 20) <= / 10 ^ 14.
Proof.
  intros lm. pose proof (int_moderate 100 ltac:(lia)) as M1. pose proof (int_moderate 20 ltac:(lia)) as M2. split; [exact mild_moderate|]. split; [exact M1|]. split; [exact M2|].
  assert (C : clear_of_wells (real_model mild) (fval (f_of_Z 100), fval (f_of_Z 20))).
  { rewrite mild_is, !fv_int by lia. intros w [<-|[]]. cbn [wx wy]. pose proof (proj1 (dist_comps (100, 20) (0, 0))) as D. cbn [fst snd] in D. rewrite Rabs_pos_eq in D by lra. pose proof huge_inv. lra. }
  split; [exact C|]. pose proof (c123_velocity lm mild (f_of_Z 100) (f_of_Z 20) mild_moderate M1 M2 C ltac:(cbn; lia)) as V. cbv zeta in V |- *.
  rewrite !fv_int in V by lia. destruct V as (_ & _ & E1 & E2). rewrite mild_is in *. cbn [mild wells length INR mild_real thickness porosity] in E1, E2.
  fold mild_real in E1, E2. replace (4 * / 4) with 1 in E1, E2 by lra. rewrite !div_one in E1, E2. pose proof tiny_small as TS. pose proof tiny_pos as TP.
  assert (LX : load_x mild_real 100 20 <= 2).
  { unfold load_x, mild_real, wdist2. cbn [ModelAquifer.coef cA cC cD xo yo wells Rsum fold_right wx wy wq]. rewrite !Rabs_R0. replace (100 - 0) with 100 by ring. replace (20 - 0) with 20 by ring.
    rewrite (Rabs_pos_eq 100), (Rabs_pos_eq 6), (Rabs_pos_eq (/ 256)), (Rabs_left (-1)) by lra. lra. }
  assert (LY : load_y mild_real 100 20 <= 2).
  { unfold load_y, mild_real, wdist2. cbn [ModelAquifer.coef cB cC cE xo yo wells Rsum fold_right wx wy wq]. rewrite !Rabs_R0. replace (100 - 0) with 100 by ring. replace (20 - 0) with 20 by ring.
    rewrite (Rabs_pos_eq 20), (Rabs_pos_eq 6) by lra. lra. }
  assert (G : forall a, a <= 2 -> (1 + 12) / 2 ^ 52 * (a + tiny) <= / 10 ^ 14).
  { intros a Ha. apply Rle_trans with ((1 + 12) / 2 ^ 52 * 3); [apply Rmult_le_compat_l; [lra|lra]|]. lra. }
  split; [exact (Rle_trans _ _ _ E1 (G _ LX))|exact (Rle_trans _ _ _ E2 (G _ LY))].
Qed.

Lemma mild_traced : forall lm : libm, @compute_backtrace _ (SF lm) 5 (f_of_Z 100) (f_of_Z 20) (fq 1 16) (fq 1 16) (f_of_Z 10) (@feval _ (SF lm) true mild) = Ok mild_trace.
Proof. intros lm. vm_compute. reflexivity. Qed.

(** The only step of the trace. *)
Lemma one_step lm F tol maxstep dts : reckoned lm F tol maxstep mild_trace dts -> dts = [S754_finite false 4503599627370496 (-56)].
Proof.
  intros K. pose proof (rk_length _ _ _ _ _ _ K) as E1. pose proof (rk_end _ _ _ _ _ _ K) as E2. clear K. destruct dts as [|d [|d' r]]; try discriminate E1.
  cbn [fold_left] in E2. change (f_of_Z 0) with (S754_zero false) in E2. cbn [t_end mild_trace] in E2. destruct d as [s|s| |s m e]; try discriminate E2; [destruct s; discriminate E2|]. cbn [SFadd] in E2. now rewrite E2.
Qed.

Lemma exp_near x : 0 <= x <= / 2 -> exp x - 1 <= 2 * x.
Proof.
  intros Hx. destruct (Req_dec x 0) as [->|N]; [rewrite exp_0; lra|]. pose proof (exp_ineq1 (- x) ltac:(lra)) as I. pose proof (exp_pos x) as P.
  assert (E : exp x * exp (- x) = 1) by (rewrite <- exp_plus, Rplus_opp_r; apply exp_0).
  assert (exp x * (1 - x) <= 1) by (rewrite <- E; apply Rmult_le_compat_l; lra). nra.
Qed.

Lemma mild_points : forall c, In c (map at_ (vertices mild_trace)) -> 99 <= fst c <= 100 /\ 20 <= snd c <= 21.
Proof.
  intros c [<-|[<-|[]]]; unfold at_, fval; cbn [fst snd]; change (powerRZ 2 (-46)) with (/ 2 ^ 46); change (powerRZ 2 (-48)) with (/ 2 ^ 48); lra.
Qed.

(** A case of [c124_confined], and with it of [c124_water] and of [c124_clock]. *)
Lemma c124_example : forall lm : libm, let f := feval true (fmodel (real_model mild)) in let l := map at_ (vertices mild_trace) in
  @compute_backtrace _ (SF lm) 5 (f_of_Z 100) (f_of_Z 20) (fq 1 16) (fq 1 16) (f_of_Z 10) (@feval _ (SF lm) true mild) = Ok mild_trace /\
  length l = 2%nat /\ nth 1 l (0, 0) <> nth 0 l (0, 0) /\
  exists Z, Z 0 = (100, 20) /\ moves f Z (1 / 16) /\
    (forall i, (i < 2)%nat -> pdist (nth i l (0, 0)) (Z (INR i / 16)) <= 1 / 100) /\ beside (1 / 100) l Z (1 / 16).
Proof.
  intros lm f l. split; [apply mild_traced|]. split; [reflexivity|]. split.
  { intros E. apply (f_equal fst) in E. revert E. unfold l, at_, fval. cbn [mild_trace vertices map nth fst snd]. change (powerRZ 2 (-46)) with (/ 2 ^ 46). lra. }
  destruct (c124_confined lm mild 5 (f_of_Z 100) (f_of_Z 20) (fq 1 16) (fq 1 16) (f_of_Z 10) mild_trace mild_moderate ltac:(cbn; lia) mild_physical (mild_traced lm) (proj1 (of_small 100 ltac:(lia))) (proj1 (of_small 20 ltac:(lia)))) as (dts & K & W).
  apply one_step in K. subst dts. pose proof huge_big as HB. pose proof huge_inv as HI. pose proof minute_small as HM. pose proof tiny_small as TS. pose proof tiny_pos as TP.
  assert (VS : fval (S754_finite false 4503599627370496 (-56)) = 1 / 16) by (unfold fval; change (powerRZ 2 (-56)) with (/ 2 ^ 56); lra).
  assert (Bd : burden (real_model mild) 128 10 <= 3).
  { rewrite mild_is. unfold burden, mild_real. cbn [ModelAquifer.coef cA cB cC cD cE xo yo wells Rsum fold_right wq]. rewrite !Rabs_R0, (Rabs_pos_eq 6), (Rabs_pos_eq (/ 256)), (Rabs_left (-1)) by lra. lra. }
  assert (Pb : 0 <= burden (real_model mild) 128 10).
  { rewrite mild_is. unfold burden, mild_real. cbn [ModelAquifer.coef cA cB cC cD cE xo yo wells Rsum fold_right wq]. rewrite !Rabs_R0, (Rabs_pos_eq 6), (Rabs_pos_eq (/ 256)), (Rabs_left (-1)) by lra. lra. }
  assert (Far : forall c w, In c l -> In w (wells (real_model mild)) -> 20 <= pdist c (wx w, wy w)).
  { intros c w Ic Iw. rewrite mild_is in Iw. destruct Iw as [<-|[]]. cbn [wx wy]. pose proof (mild_points c Ic). pose proof (proj1 (dist_comps c (0, 0))) as D. cbn [fst snd] in D. rewrite Rabs_pos_eq in D by lra. lra. }
  assert (Cm : calm (real_model mild) f 6 10 l).
  { intros q Iq. split; [|intros w Iw; pose proof (Far q w Iq Iw); lra]. intros u Hu.
    assert (Off : off_wells (wells (real_model mild)) (fst q) (snd q)).
    { apply (off_of_distance _ _ 20 ltac:(lra)). intros w Iw. rewrite pdist_sym. exact (Far q w Iq Iw). }
    unfold f in Hu. rewrite (exact_velocity (real_model mild) (feval true (fmodel (real_model mild))) q mild_physical (upstream_feval true _ mild_physical) Off) in Hu.
    apply (f_equal (fun r => match r with Ok z => (Rval (fst z), Rval (snd z)) | _ => (0, 0) end)) in Hu. cbn [fvec fst snd Rval] in Hu.
    destruct (mild_points q Iq) as (P1 & P2). destruct (loads_bound (real_model mild) 128 10 q q ltac:(lra)) as (L1 & L2).
    { rewrite Rabs_pos_eq; lra. } { rewrite Rabs_pos_eq; lra. } { rewrite pdist_self. lra. } { intros w Iw. pose proof (Far q w Iq Iw). lra. }
    unfold l in Iq. apply in_map_iff in Iq as (p & Ep & Ip).
    assert (Sp : ffinite (fst p) /\ ffinite (snd p)) by (destruct Ip as [<-|[<-|[]]]; (split; (split; [reflexivity|exact I]))).
    assert (E1 : fval (fst p) = fst q) by (rewrite <- Ep; reflexivity). assert (E2 : fval (snd p) = snd q) by (rewrite <- Ep; reflexivity).
    destruct (discharge_total lm mild (fst p) (snd p) mild_moderate) as ((_ & _ & B1) & (_ & _ & B2) & _).
    { split; [apply Sp|]. rewrite E1, Rabs_pos_eq; lra. } { split; [apply Sp|]. rewrite E2, Rabs_pos_eq; lra. }
    { rewrite E1, E2. intros w Iw. replace (fst q, snd q) with q by (destruct q; reflexivity). pose proof (Far q w ltac:(rewrite <- Ep; apply in_map; exact Ip) Iw). lra. } { cbn. lia. }
    rewrite E1, E2 in B1, B2. assert (Eu : u = (fst u, snd u)) by (destruct u; reflexivity). rewrite Eu, <- Hu. eapply Rle_trans; [apply pnorm_sum|]. cbn [fst snd]. rewrite !Rabs_Ropp.
    replace (thickness (real_model mild) * porosity (real_model mild)) with 1 by (rewrite mild_is; cbn [mild_real thickness porosity]; lra). rewrite !div_one. lra. }
  assert (HG : gradient (real_model mild) 10 <= / 50).
  { rewrite mild_is. unfold gradient, mild_real. cbn [ModelAquifer.coef cA cB cC wells Rsum fold_right wq porosity thickness]. rewrite (Rabs_pos_eq 6) by lra.
    assert (S : sqrt (4 * (/ 256) ^ 2 + 2 * 0 ^ 2 + 4 * 0 ^ 2) = / 128) by (apply sqrt_lem_1; lra). rewrite S. lra. }
  specialize (W f 6 (/ 50) 10 128 (/ 16) (upstream_feval true _ mild_physical)). cbn [clock last length map vertices mild_trace] in W. rewrite VS in W. cbv zeta in W.
  set (d := (INR (length (wells mild)) + 12) / 2 ^ 51 * ((burden (real_model mild) 128 10 + tiny) / (thickness (real_model mild) * porosity (real_model mild)))) in W.
  assert (Hd : 0 <= d <= / 10 ^ 10).
  { unfold d. replace (thickness (real_model mild) * porosity (real_model mild)) with 1 by (rewrite mild_is; cbn [mild_real thickness porosity]; lra). rewrite div_one. cbn [mild wells length INR].
    set (z := burden (real_model mild) 128 10 + tiny) in *. assert (0 <= z <= 4) by (unfold z; lra). split; [apply Rmult_le_pos; lra|]. apply Rle_trans with ((1 + 12) / 2 ^ 51 * 4); [apply Rmult_le_compat_l; lra|lra]. }
  set (Rr := rounding 128 (/ 16) (6 + / 50 * 10)) in W. assert (HR : 0 <= Rr <= / 10 ^ 10) by (unfold Rr, rounding; lra).
  set (eta := wrong (/ 50) d Rr) in W. assert (He : 0 <= eta <= / 10 ^ 8) by (unfold eta, wrong; lra).
  assert (HE : forall i t, (i <= 2)%nat -> 0 <= t <= 1 / 16 -> astray (6 + / 50 * 10) (/ 50) (/ 16) eta Rr i t <= 1 / 100).
  { intros i t Hi Ht. unfold astray. pose proof (exp_near (/ 50 * t) ltac:(lra)) as EX. assert (EP : 1 <= exp (/ 50 * t)).
    { destruct (Req_dec (/ 50 * t) 0) as [->|N]; [rewrite exp_0; lra|]. pose proof (exp_ineq1 (/ 50 * t) N). lra. }
    set (x := exp (/ 50 * t)) in *. assert (Hi2 : 0 <= INR i <= 2) by (split; [apply pos_INR|apply le_INR in Hi; cbn in Hi; lra]).
    assert (A : (6 * (6 + / 50 * 10) * / 16 + 2 * eta / / 50) * (x - 1) <= 3 * (1 / 400)).
    { unfold Rdiv at 1. rewrite Rinv_inv. apply Rmult_le_compat; lra. }
    assert (B : INR i * Rr * x <= 2 * / 10 ^ 10 * 2) by (apply Rmult_le_compat; [apply Rmult_le_pos; lra|lra|apply Rmult_le_compat; lra|lra]). lra. }
  replace (0 + 1 / 16) with (1 / 16) in W by lra.
  destruct W as (_ & Z & Z0 & ZM & ZE & ZB & _); try lra; try assumption.
  - intros c Ic. destruct (mild_points c Ic) as (P1 & P2). rewrite !Rabs_pos_eq by lra. lra.
  - intros dt [<-|[]]. split; [split; [reflexivity|exact I]|]. rewrite VS. lra.
  - pose proof (HE 2%nat (1 / 16) ltac:(lia) ltac:(lra)). lra.
  - exists Z. split; [rewrite Z0, !fv_int by lia; reflexivity|]. split; [exact ZM|]. split.
    + intros i Hi. specialize (ZE i ltac:(exact Hi)). cbv zeta in ZE.
      assert (Ti : nth i [0; 1 / 16] 0 = INR i / 16) by (destruct i as [|[|i]]; [cbn; lra|cbn; lra|lia]). rewrite Ti in ZE. destruct ZE as (T1 & T2). eapply Rle_trans; [exact T2|]. apply HE; [lia|exact T1].
    + pose proof (HE 2%nat (1 / 16) ltac:(lia) ltac:(lra)) as H2. destruct ZB as (ZB1 & ZB2). split.
      * intros p Hp. destruct (ZB1 p Hp) as (t & Z1 & Z2). exists t. split; [exact Z1|]. cbn [length] in *. lra.
      * intros t Ht. destruct (ZB2 t Ht) as (z & Z1 & Z2). exists z. split; [exact Z1|]. cbn [length] in *. lra.
Qed.
