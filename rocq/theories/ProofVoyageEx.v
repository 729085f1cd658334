(** * Charts of confined aquifers, and a concrete case of C125 *)
From Coq Require Import ZArith Reals Lra Lia SpecFloat List Bool Psatz.
From Verif Require Import Py Num NumXR Grid ModelField ModelAquifer ModelTrace ModelDist ModelDriver ModelMain SpecFloats SpecExact SpecZone SpecTrace SpecAquifer SpecPathline SpecDriver
  ProofFloatGrow ProofFloatMean ProofFloatGrid ProofDistError ProofFloatDist ProofAquifer ProofTrace ProofPathline ProofPathTube ProofPathWells ProofPathZone SpecField SpecWhole SpecPathZone ProofPathRun ProofPathExists ProofWhole ProofRoughStep SpecWater ProofWaterPath SpecRough ProofRoughPath ProofRoughTrace
  SpecDischarge ProofDischargeFloat ProofDischargeAcc ProofDischargeTrace ProofDischargeEx SpecVoyage ProofFloatZone ProofFloatZoneEx ProofVoyage.
Import ListNotations.
Local Open Scope R_scope.

(** A chart for a confined aquifer: what [charted] asks about the velocity follows from the velocity at the vertices, their distance from the wells and the size of the parameters. *)
Lemma c125_confined : forall (lm : libm) (m : model spec_float) (f : vec xr -> res (vec xr)) (v : R) (k : chart) (r : trace spec_float * list spec_float),
  moderate_model m -> (Z.of_nat (length (wells m)) <= 10 ^ 12)%Z -> let M := real_model m in physical M -> SpecWhole.upstream true M f ->
  / huge <= c_rho k -> c_X k + c_rho k <= huge -> gradient M (c_rho k) <= c_L k -> calm M f v (c_rho k) (points r) ->
  c_V k = v + c_L k * c_rho k -> c_d k = (INR (length (wells m)) + 12) / 2 ^ 51 * ((burden M (c_X k) (c_rho k) + tiny) / (thickness M * porosity M)) ->
  (forall p, nth_error (vertices (fst r)) 0 = Some p -> solid p) -> (forall c, In c (points r) -> Rabs (fst c) <= c_X k /\ Rabs (snd c) <= c_X k) ->
  (forall dt, In dt (snd r) -> ffinite dt /\ 0 <= fval dt <= c_H k) -> (forall a b, consecutive (points r) a b -> pdist a b <= c_S k) ->
  (length (points r) <= c_N k)%nat -> span r <= c_T k ->
  charted (@feval _ (SF lm) true m) f k r.
Proof.
  intros lm m f v k r Hm Hw M Hp Hf Hr HX HG HC EV Ed A1 A2 A3 A4 A5 A6. pose proof huge_big as HB. assert (P : 0 < / huge) by (apply Rinv_0_lt_compat; lra).
  constructor; try assumption.
  - rewrite Ed. apply faithful_confined; try assumption. intros c w Ic Iw. exact (proj2 (HC c Ic) w Iw).
  - rewrite EV. apply (calm_gentle M); try assumption. lra.
Qed.

(** A well of radius 99 at the origin in a regional flow; one path, traced for 10 days; spacing 4, umbra 5. *)
Definition v_lm : libm :=
  {| lm_log := fun x => x; lm_cos := fun x => f_of_Z 1; lm_sin := fun x => f_of_Z 0; lm_hypot := fun x _ => SFabs x; lm_root5 := fun x => SFsqrt fprec femax (SFabs x) |}.
Definition v_la : linalg spec_float := {| lstsq := fun _ _ => Ok (map f_of_Z [0; 0; 0; 1; 0; 100]%Z); inv := fun m => Ok m |}.
Definition v_well : swell spec_float := {| sx := f_of_Z 0; sy := f_of_Z 0; sr := f_of_Z 99; sq := PInt 6 |}.
Definition v_run : res (pfield spec_float * run_log spec_float) :=
  @create_deterministic spec_float (SF v_lm) 1000 v_la 0 1 (f_of_Z 10) (f_of_Z 0) (PInt 1) (PFloat (fq 1 4)) (PInt 4)
    [v_well] e_obs (f_of_Z 4) (f_of_Z 5) true (fq 1 16) (f_of_Z 10).
Definition v_model : model spec_float :=
  {| base := f_of_Z 0; conductivity := f_of_Z 1; porosity := fq 1 4; thickness := f_of_Z 4;
     wells := [{| wx := f_of_Z 0; wy := f_of_Z 0; wr := f_of_Z 99; wq := f_of_Z 6 |}]; xo := f_of_Z 0; yo := f_of_Z 0;
     ModelAquifer.coef := {| cA := f_of_Z 0; cB := f_of_Z 0; cC := f_of_Z 0; cD := f_of_Z 1; cE := f_of_Z 0; cF := f_of_Z 100 |} |}.
Definition v_trace : trace spec_float :=
  {| vertices := [(S754_finite false 7036874417766400 (-46), S754_zero false); (S754_finite false 7043978455488493 (-46), S754_zero false); (S754_finite false 7107911764771475 (-46), S754_zero false);
                  (S754_finite false 7683080215134901 (-46), S754_zero false); (S754_finite false 7746963703347917 (-46), S754_zero false)];
     t_end := S754_finite false 5629499534213120 (-49); completed := true |}.
Definition v_steps : list spec_float :=
  [S754_finite false 7205759403792794 (-56); S754_finite false 8106479329266893 (-53); S754_finite false 4559894622712627 (-49); S754_finite false 8106479329266896 (-53)].
Definition v_zone : voyage := {| g_model := v_model; g_runs := [(v_trace, v_steps)] |}.
Definition v_end : pfield spec_float := Eval vm_compute in match v_run with Ok (s, _) => s | _ => {| deltax := f_of_Z 4; deltay := f_of_Z 4; body := None |} end.
Definition v_real : model R :=
  {| base := 0; conductivity := 1; porosity := / 4; thickness := 4; wells := [{| wx := 0; wy := 0; wr := 99; wq := 6 |}]; xo := 0; yo := 0;
     ModelAquifer.coef := {| cA := 0; cB := 0; cC := 0; cD := 1; cE := 0; cF := 100 |} |}.
Definition v_chart : chart :=
  {| c_V := 206 / 100 + / 2500 * 50; c_L := / 2500; c_rho := 50; c_d := (INR (length (wells v_model)) + 12) / 2 ^ 51 * ((burden (real_model v_model) 128 50 + tiny) / (thickness (real_model v_model) * porosity (real_model v_model)));
     c_X := 128; c_H := 9; c_S := 9; c_T := 101 / 10; c_N := 5 |}.

Lemma v_is : real_model v_model = v_real.
Proof.
  unfold real_model, v_model, v_real, real_well, real_coef. cbn [base conductivity porosity thickness wells xo yo ModelAquifer.coef map wx wy wr wq cA cB cC cD cE cF].
  rewrite fv_4, !fv_int by lia. reflexivity.
Qed.
Lemma v_moderate : moderate_model v_model.
Proof.
  pose proof huge_big as HB. pose proof huge_inv as HI.
  assert (Q4 : moderate (fq 1 4)) by (split; [apply fin_q; [reflexivity|exact I]|rewrite fv_4, Rabs_pos_eq; lra]).
  assert (N : forall n, (Z.abs n <= 1024)%Z -> moderate (f_of_Z n)) by exact int_moderate.
  split; [apply N; lia|]. split; [apply N; lia|]. split.
  { intros c Ic. unfold coef_list in Ic. cbn [v_model ModelAquifer.coef cA cB cC cD cE cF In] in Ic. destruct Ic as [<-|[<-|[<-|[<-|[<-|[<-|[]]]]]]]; apply N; lia. }
  split.
  { intros w [<-|[]]. split; [apply N; lia|]. split; apply N; lia. }
  split; [apply N; lia|]. split; [exact Q4|]. cbn [v_model thickness porosity]. rewrite fv_4, fv_int by lia. lra.
Qed.
Lemma v_physical : physical (real_model v_model).
Proof. rewrite v_is. unfold physical. cbn [v_real conductivity porosity thickness]. lra. Qed.

Lemma v_sailed : sailed v_lm 1000 (sx v_well) (sy v_well) (sr v_well) (f_of_Z 10) (fq 1 16) (f_of_Z 10) 1 true v_zone.
Proof.
  eexists. split; [vm_compute; reflexivity|]. constructor; [|constructor].
  match goal with |- context [start_point ?a ?b ?c ?d] => assert (E : @start_point spec_float (SF v_lm) a b c d = (f_of_Z 100, f_of_Z 0)) by (vm_compute; reflexivity); rewrite E; clear E end.
  split; [vm_compute; reflexivity|]. constructor; [reflexivity|vm_compute; reflexivity|].
  intros i Hi. cbn [v_zone g_model fst snd v_steps length] in Hi.
  destruct i as [|[|[|[|i]]]]; [| | | |lia]; (do 4 eexists); (split; [vm_compute; reflexivity|]); (split; [vm_compute; reflexivity|]); (split; [vm_compute; reflexivity|]); split; vm_compute; reflexivity.
Qed.

Lemma fval_pos m e : fval (S754_finite false m e) = IZR (Z.pos m) * powerRZ 2 e. Proof. reflexivity. Qed.
Lemma v_points : forall c, In c (points (v_trace, v_steps)) -> 100 <= fst c <= 111 /\ snd c = 0.
Proof.
  intros c Ic. cbn [points fst v_trace vertices map In] in Ic. unfold at_ in Ic. cbn [fst snd] in Ic. rewrite !fval_pos in Ic. change (powerRZ 2 (-46)) with (/ 2 ^ 46) in Ic. change (fval (S754_zero false)) with 0 in Ic.
  destruct Ic as [<-|[<-|[<-|[<-|[<-|[]]]]]]; cbn [fst snd]; lra.
Qed.
Lemma flat_dist a b : snd a = 0 -> snd b = 0 -> pdist a b = Rabs (fst b - fst a).
Proof.
  intros Ha Hb. unfold pdist. rewrite Ha, Hb. replace ((fst b - fst a) * (fst b - fst a) + (0 - 0) * (0 - 0)) with ((fst b - fst a) * (fst b - fst a)) by ring. apply sqrt_Rsqr_abs.
Qed.
Lemma v_hops : forall a b, consecutive (points (v_trace, v_steps)) a b -> pdist a b <= 9.
Proof.
  intros a b (i & E1 & E2). unfold points in E1, E2. cbn [fst v_trace vertices map] in E1, E2. unfold at_ in E1, E2. cbn [fst snd] in E1, E2. rewrite !fval_pos in E1, E2. change (powerRZ 2 (-46)) with (/ 2 ^ 46) in E1, E2. change (fval (S754_zero false)) with 0 in E1, E2.
  destruct i as [|[|[|[|[|i]]]]]; cbn [nth_error] in E1, E2; try discriminate; try (destruct i; discriminate);
    apply (f_equal (fun o => match o with Some z => z | None => (0, 0) end)) in E1; apply (f_equal (fun o => match o with Some z => z | None => (0, 0) end)) in E2; subst a b; rewrite flat_dist by reflexivity; cbn [fst snd];
    rewrite Rabs_pos_eq by lra; lra.
Qed.
Lemma v_calm : calm (real_model v_model) (feval true (fmodel (real_model v_model))) (206 / 100) 50 (points (v_trace, v_steps)).
Proof.
  set (f := feval true (fmodel (real_model v_model))). set (l := points (v_trace, v_steps)).
  assert (Far : forall c w, In c l -> In w (wells (real_model v_model)) -> 100 <= pdist c (wx w, wy w)).
  { intros c w Ic Iw. rewrite v_is in Iw. destruct Iw as [<-|[]]. cbn [wx wy]. destruct (v_points c Ic) as (P1 & P2). rewrite flat_dist by assumption || reflexivity. cbn [fst]. rewrite Rabs_minus_sym, Rabs_pos_eq; lra. }
  intros q Iq. split; [|intros w Iw; pose proof (Far q w Iq Iw); lra]. intros u Hu.
  assert (Off : off_wells (wells (real_model v_model)) (fst q) (snd q)).
  { apply (off_of_distance _ _ 100 ltac:(lra)). intros w Iw. rewrite pdist_sym. exact (Far q w Iq Iw). }
  unfold f in Hu. rewrite (exact_velocity (real_model v_model) (feval true (fmodel (real_model v_model))) q v_physical (upstream_feval true _ v_physical) Off) in Hu.
  apply (f_equal (fun r => match r with Ok z => (Rval (fst z), Rval (snd z)) | _ => (0, 0) end)) in Hu. cbn [fvec fst snd Rval] in Hu.
  pose proof huge_big as HB. pose proof huge_inv as HI.
  assert (Bd : burden (real_model v_model) 128 50 <= 103 / 100).
  { rewrite v_is. unfold burden, v_real. cbn [ModelAquifer.coef cA cB cC cD cE xo yo wells Rsum fold_right wq]. rewrite !Rabs_R0, (Rabs_pos_eq 6), (Rabs_pos_eq 1) by lra. lra. }
  destruct (v_points q Iq) as (P1 & P2). destruct (loads_bound (real_model v_model) 128 50 q q ltac:(lra)) as (L1 & L2).
  { rewrite Rabs_pos_eq; lra. } { rewrite P2, Rabs_R0; lra. } { rewrite pdist_self. lra. } { intros w Iw. pose proof (Far q w Iq Iw). lra. }
  assert (Iq2 := Iq). unfold l, points in Iq2. apply in_map_iff in Iq2 as (p & Ep & Ip).
  assert (Sp : ffinite (fst p) /\ ffinite (snd p)) by (destruct Ip as [<-|[<-|[<-|[<-|[<-|[]]]]]]; (split; (split; [reflexivity|exact I]))).
  assert (E1 : fval (fst p) = fst q) by (rewrite <- Ep; reflexivity). assert (E2 : fval (snd p) = snd q) by (rewrite <- Ep; reflexivity).
  destruct (discharge_total v_lm v_model (fst p) (snd p) v_moderate) as ((_ & _ & B1) & (_ & _ & B2) & _).
  { split; [apply Sp|]. rewrite E1, Rabs_pos_eq; lra. } { split; [apply Sp|]. rewrite E2, P2, Rabs_R0; lra. }
  { rewrite E1, E2. intros w Iw. replace (fst q, snd q) with q by (destruct q; reflexivity). pose proof (Far q w Iq Iw). lra. } { cbn. lia. }
  rewrite E1, E2 in B1, B2. assert (Eu : u = (fst u, snd u)) by (destruct u; reflexivity). rewrite Eu, <- Hu. eapply Rle_trans; [apply pnorm_sum|]. cbn [fst snd]. rewrite !Rabs_Ropp.
  replace (thickness (real_model v_model) * porosity (real_model v_model)) with 1 by (rewrite v_is; cbn [v_real thickness porosity]; lra). rewrite !div_one. lra.
Qed.
Lemma v_gradient : gradient (real_model v_model) 50 <= / 2500.
Proof.
  rewrite v_is. unfold gradient, v_real. cbn [ModelAquifer.coef cA cB cC wells Rsum fold_right wq porosity thickness]. rewrite (Rabs_pos_eq 6) by lra.
  replace (4 * 0 ^ 2 + 2 * 0 ^ 2 + 4 * 0 ^ 2) with 0 by ring. rewrite sqrt_0. lra.
Qed.
Lemma v_d : 0 <= c_d v_chart <= / 10 ^ 10.
Proof.
  pose proof tiny_small as TS. pose proof tiny_pos as TP. cbn [v_chart c_d].
  assert (Bd : 0 <= burden (real_model v_model) 128 50 <= 103 / 100).
  { rewrite v_is. unfold burden, v_real. cbn [ModelAquifer.coef cA cB cC cD cE xo yo wells Rsum fold_right wq]. rewrite !Rabs_R0, (Rabs_pos_eq 6), (Rabs_pos_eq 1) by lra. lra. }
  replace (thickness (real_model v_model) * porosity (real_model v_model)) with 1 by (rewrite v_is; cbn [v_real thickness porosity]; lra). rewrite div_one. cbn [v_model wells length INR].
  set (z := burden (real_model v_model) 128 50 + tiny) in *. assert (0 <= z <= 4) by (unfold z; lra). split; [apply Rmult_le_pos; lra|]. apply Rle_trans with ((1 + 12) / 2 ^ 51 * 4); [apply Rmult_le_compat_l; lra|lra].
Qed.
Lemma v_drift : drift v_chart <= 1.
Proof.
  pose proof v_d as Hd. unfold drift. set (d := c_d v_chart) in *. cbn [v_chart c_V c_L c_rho c_X c_H c_S c_T c_N]. set (V := 206 / 100 + / 2500 * 50). assert (HV : V = 208 / 100) by (unfold V; lra).
  set (Rr := rounding 128 9 V). assert (HR : 0 <= Rr <= / 10 ^ 10) by (unfold Rr, rounding; rewrite HV; lra).
  set (eta := wrong (/ 2500) d Rr). assert (He : 0 <= eta <= / 10 ^ 8) by (unfold eta, wrong; lra). clearbody eta Rr d V. unfold astray.
  pose proof (exp_near (/ 2500 * (101 / 10)) ltac:(lra)) as EX. assert (EP : 1 <= exp (/ 2500 * (101 / 10))) by (pose proof (exp_ineq1 (/ 2500 * (101 / 10)) ltac:(lra)); lra).
  set (x := exp (/ 2500 * (101 / 10))) in *. clearbody x. assert (I5 : INR 5 = 5) by (cbn; lra). rewrite I5.
  assert (A : (6 * V * 9 + 2 * eta / / 2500) * (x - 1) <= 113 * (81 / 10000)).
  { unfold Rdiv at 1. rewrite Rinv_inv. apply Rmult_le_compat; lra. }
  assert (B : 5 * Rr * x <= 5 * / 10 ^ 10 * 2) by (apply Rmult_le_compat; lra). lra.
Qed.
Lemma v_seaworthy : seaworthy v_chart.
Proof.
  pose proof v_drift as HD. pose proof v_d as Hd. pose proof huge_big as HB. pose proof minute_small as HM. unfold seaworthy. set (D := drift v_chart) in *. set (d := c_d v_chart) in *.
  cbn [v_chart c_V c_L c_rho c_X c_H c_S c_T c_N]. set (V := 206 / 100 + / 2500 * 50). assert (HV : V = 208 / 100) by (unfold V; lra).
  set (Rr := rounding 128 9 V). assert (HR : 0 <= Rr <= / 10 ^ 10) by (unfold Rr, rounding; rewrite HV; lra).
  assert (He : 0 <= wrong (/ 2500) d Rr <= / 10 ^ 8) by (unfold wrong; lra). set (eta := wrong (/ 2500) d Rr) in *. clearbody eta Rr d V D. rewrite HV.
  split; [lra|]. split; [lra|]. split; [lra|]. split; [lra|]. split; [lra|]. split; [lra|]. split; [lra|]. split; lra.
Qed.
Lemma v_charted : charted (@feval _ (SF v_lm) true v_model) (feval true (fmodel (real_model v_model))) v_chart (v_trace, v_steps).
Proof.
  pose proof huge_big as HB. pose proof huge_inv as HI.
  assert (St : forall dt, In dt v_steps -> ffinite dt /\ 0 <= fval dt <= 9).
  { intros dt [<-|[<-|[<-|[<-|[]]]]]; (split; [split; [reflexivity|exact I]|]); rewrite fval_pos;
      change (powerRZ 2 (-56)) with (/ 2 ^ 56); change (powerRZ 2 (-53)) with (/ 2 ^ 53); change (powerRZ 2 (-49)) with (/ 2 ^ 49); lra. }
  apply (c125_confined v_lm v_model _ (206 / 100) v_chart); cbn [v_chart c_V c_L c_rho c_d c_X c_H c_S c_T c_N].
  - exact v_moderate.
  - cbn. lia.
  - exact v_physical.
  - exact (upstream_feval true _ v_physical).
  - lra.
  - lra.
  - exact v_gradient.
  - exact v_calm.
  - reflexivity.
  - reflexivity.
  - intros p E. cbn [fst v_trace vertices nth_error] in E. apply (f_equal (fun o => match o with Some z => z | None => p end)) in E. rewrite <- E. split; (split; [reflexivity|exact I]).
  - intros c Ic. destruct (v_points c Ic) as (P1 & P2). rewrite P2, Rabs_R0, Rabs_pos_eq; lra.
  - exact St.
  - exact v_hops.
  - cbn. lia.
  - unfold span. cbn [snd v_steps clock last]. rewrite !fval_pos. change (powerRZ 2 (-56)) with (/ 2 ^ 56); change (powerRZ 2 (-53)) with (/ 2 ^ 53); change (powerRZ 2 (-49)) with (/ 2 ^ 49). lra.
Qed.

(** The run meets the hypotheses, with a distance between tracks and water below 1.1; the node at (104, 0) is counted, the one at (36, 0) is not. *)
Lemma c125_example : (exists l, v_run = Ok (v_end, l) /\ logs_model l (g_model v_zone)) /\ located (g_model v_zone) [v_well] /\
  sailed v_lm 1000 (sx v_well) (sy v_well) (sr v_well) (f_of_Z 10) (fq 1 16) (f_of_Z 10) 1 true v_zone /\
  ffinite (f_of_Z 4) /\ roomy_units 0 (fval (f_of_Z 4)) /\ roomy_range 0 (f_of_Z 4) (sx v_well) /\ roomy_units 0 (fval (sx v_well)) /\ reach 0 (f_of_Z 5) /\ fval (f_of_Z 5) = 5 /\
  (forall r, In r (g_runs v_zone) -> good_track 0 0 (f_of_Z 4) (f_of_Z 4) (vertices (fst r))) /\
  seaworthy v_chart /\ (forall r, In r (g_runs v_zone) -> charted (@feval _ (SF v_lm) true v_model) (feval true (fmodel (real_model v_model))) v_chart r) /\
  drift v_chart + blur 5 (c_S v_chart) <= 11 / 10 /\
  has_node (exact_field v_end) 104 0 1 false /\ has_node (exact_field v_end) 36 0 0 false.
Proof.
  assert (F : forall z, (Z.abs z <= 2 ^ 53)%Z -> ffinite (f_of_Z z) /\ fval (f_of_Z z) = IZR z) by apply of_small.
  assert (P52 : powerRZ 2 (52 + 0) = 4503599627370496) by (change (powerRZ 2 (52 + 0)) with (2 ^ 52); rewrite (pow_IZR 2); reflexivity).
  destruct (F 4%Z ltac:(lia)) as (F4 & V4). destruct (F 5%Z ltac:(lia)) as (F5 & V5). destruct (F 1%Z ltac:(lia)) as (F1 & V1). destruct (F 0%Z ltac:(lia)) as (F0 & V0).
  split; [eexists; split; [vm_compute; reflexivity|repeat split; vm_compute; reflexivity]|].
  split; [repeat constructor; vm_compute; reflexivity|]. split; [exact v_sailed|]. split; [exact F4|]. cbn [v_well sx].
  assert (U : forall z, (Z.abs z <= 1000000)%Z -> roomy_units 0 (fval (f_of_Z z))).
  { intros z Hz. destruct (F z ltac:(change (2 ^ 53)%Z with 9007199254740992%Z; lia)) as (_ & V). rewrite V. split; [exists z; cbn; ring|]. rewrite P52, <- abs_IZR. apply IZR_le. lia. }
  split; [apply U; lia|]. split; [split; [exact F0|]; rewrite V0, V4, P52, Rabs_R0; lra|]. split; [apply U; lia|].
  split.
  { split; [exact F5|]. rewrite V5, Rabs_pos_eq by lra. change (powerRZ 2 (53 + 0)) with (2 ^ 53). rewrite (pow_IZR 2). apply IZR_le. vm_compute. discriminate. }
  split; [exact V5|]. split.
  { intros r [<-|[]]. apply good_check; [vm_compute; reflexivity|]. rewrite V4, (pow_IZR 2). apply IZR_le. vm_compute. discriminate. }
  split; [exact v_seaworthy|]. split; [intros r [<-|[]]; exact v_charted|]. split.
  { pose proof v_drift. unfold blur. cbn [v_chart c_S]. fold v_chart. lra. }
  assert (VX : fval (S754_finite true 4503599627370496 (-50)) = -4) by (unfold fval; change (powerRZ 2 (-50)) with (/ 2 ^ 50); lra).
  assert (N : forall i j x y w (v : spec_float), x = -4 + IZR j * 4 -> y = -4 + IZR i * 4 -> fval v = w -> exact v = Fin (fval v) ->
    match body v_end with Some g => get2 (pgrid g) i j = Some v /\ get2 (rgrid g) i j = Some false | None => False end -> has_node (exact_field v_end) x y w false).
  { intros i j x y w v Hx Hy Hw He H. exists (exact_geom (match body v_end with Some g => g | None => {| nrows := 0; ncols := 0; xmin := v; xmax := v; ymin := v; ymax := v; pgrid := []; rgrid := []; total_weight := v |} end)), i, j, 4, 4, (-4), (-4).
    split; [reflexivity|]. split; [change (exact (f_of_Z 4) = Fin 4); rewrite (ProofFloatGrid.exact_fin _ F4), V4; reflexivity|].
    split; [change (exact (f_of_Z 4) = Fin 4); rewrite (ProofFloatGrid.exact_fin _ F4), V4; reflexivity|].
    split; [rewrite <- VX; reflexivity|]. split; [rewrite <- VX; reflexivity|]. split; [exact Hx|]. split; [exact Hy|]. cbn [body v_end pgrid rgrid] in H. destruct H as (H1 & H2).
    cbn [exact_geom pgrid rgrid body v_end]. split; [|exact H2]. rewrite get2_map, H1. cbn [option_map]. rewrite He, Hw. reflexivity. }
  split.
  - apply (N 1%Z 27%Z _ _ _ (f_of_Z 1)); [lra|lra|exact V1|apply exact_fin; exact F1|]. split; vm_compute; reflexivity.
  - apply (N 1%Z 10%Z _ _ _ (f_of_Z 0)); [lra|lra|exact V0|apply exact_fin; exact F0|]. split; vm_compute; reflexivity.
Qed.
