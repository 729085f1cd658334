(** * Concrete runs for property C122

    The inputs of ProofDriverEx with a shorter duration and confined = False.  The head is everywhere above the top of the
    aquifer where the water goes. *)
From Coq Require Import Reals Lra Lia Psatz String ZArith List.
From Verif Require Import Py Num NumXR ModelField ModelAquifer ModelTrace ModelObs ModelDist ModelDriver ModelMain.
From Verif Require Import ProofFieldProps ProofFieldHist ProofInsert ProofOps ProofPi ProofAquifer ProofHead ProofTrace ProofTraceLoop ProofTraceFlow ProofTraceEx ProofFuel.
From Verif Require Import SpecAquifer SpecFit SpecTrace SpecDriver SpecDist SpecMain Lstsq ProofFit ProofFitProps ProofFitEx ProofDriver ProofDriverEx ProofMain ProofMainEx ProofPosed.
From Verif Require Import SpecPathline SpecUnconfined ProofPathline ProofPathTube ProofPathWells ProofPathUnconfined ProofPathZone SpecField SpecWhole ProofWhole ProofWholeEx SpecPathZone ProofPathRun ProofPathRunEx SpecWater ProofWaterPath ProofWaterRun.
Import ListNotations.
Local Open Scope R_scope.
Local Opaque kappa.

Lemma brief_trace f v fuel : (2 <= fuel)%nat -> 0 <= v < 10 -> (forall x, 2 <= x -> f (fvec (x, 0)) = Ok (fvec (v, 0))) ->
  compute_backtrace fuel (Fin 2) (Fin 0) (Fin (1 / 200)) (Fin 1) (Fin 10) f
  = Ok {| vertices := map fvec [(2, 0); (2 + 1 / 200 * v, 0)]; t_end := Fin (1 / 200); completed := true |}.
Proof.
  intros Hfuel Hv Hf. destruct fuel as [|[|fuel]]; [lia|lia|]. unfold compute_backtrace. rewrite sign_one by lra.
  pose proof (Hf 2 ltac:(lra)) as K. unfold fvec at 1 in K. cbn [fst snd] in K. rewrite K. cbn [trace_loop].
  change (@nZ xr XR 0) with (Fin 0). rewrite (proj2 (nabs_lt 0 (1 / 200))) by (rewrite Rabs_R0, Rabs_pos_eq; lra).
  assert (C1 : nlt (nabs (Fin (1 / 200))) (nabs (nadd (Fin 0) (Fin (1 / 10)))) = true) by (cbn; apply Rltb_true; rewrite !Rabs_pos_eq by lra; lra).
  rewrite C1. assert (C0 : nsub (Fin (1 / 200)) (Fin 0) = Fin (1 / 200)) by (cbn; f_equal; ring). rewrite C0. pose proof (line_step f v (1 / 200) ltac:(lra) ltac:(lra) Hf) as S1. unfold fvec at 1 in S1. cbn [fst snd] in S1. rewrite S1. clear S1.
  assert (A : nlt (Fin 0) (Fin 1) && nlt (Fin (1 / 200 * v)) (Fin 10) = true) by (cbn; apply andb_true_intro; split; apply Rltb_true; lra).
  rewrite A. cbn [nadd XR xadd nZ]. rewrite Rplus_0_l.
  destruct (nlt (nabs (Fin (1 / 200))) (nabs (Fin (1 / 200)))) eqn:C2; [|reflexivity].
  apply nabs_lt in C2. lra.
Qed.

(** The discharge is of size 1 everywhere and the velocity is (4, 0) where the potential is high. *)
Lemma u_upstream F x : 2 <= x -> ProofPathUnconfined.upstream (with_coef dm 0 0 (dc 1 F)) (x, 0) = (1, 0).
Proof.
  intros Hx. rewrite upstream_eq by (intros w [<-|[]]; cbn; lra). unfold wells_velocity, padd, pscale.
  cbn [fst snd coef with_coef dm dc cA cB cC cD cE cF xo yo wells fold_right wq]. rewrite !Rmult_0_l, !Rplus_0_l, !Rmult_0_r. f_equal; ring.
Qed.

Lemma u_velocity F x : 0 <= F -> 2 <= x -> feval false (fmodel (with_coef dm 0 0 (dc 1 F))) (fvec (x, 0)) = Ok (fvec (4, 0)).
Proof.
  intros HF Hx. set (m := with_coef dm 0 0 (dc 1 F)). assert (Hm : physical m) by (unfold physical, m; cbn; lra).
  assert (O : off_wells (wells m) (fst (x, 0)) (snd (x, 0))) by (intros w [<-|[]]; cbn; lra).
  assert (Ep : potential m (fst (x, 0)) (snd (x, 0)) = x + F).
  { rewrite potential_eq by exact O. unfold m, quad, Rsum, wpot. cbn [fst snd coef with_coef dm dc cA cB cC cD cE cF xo yo wells fold_right wq]. ring. }
  rewrite (unconfined_velocity m (x, 0) Hm O) by (rewrite Ep; lra). rewrite Ep.
  assert (Es : saturated (conductivity m) (thickness m) (x + F) = 1).
  { destruct (saturated_eq 1 1 (x + F) ltac:(lra) ltac:(lra) ltac:(lra)) as [E B]. rewrite Rmin_right in E by lra. change (saturated (conductivity m) (thickness m) (x + F)) with (saturated 1 1 (x + F)). nra. }
  rewrite Es. unfold m. rewrite u_upstream by exact Hx. do 2 f_equal. unfold pscale. cbn [fst snd porosity with_coef dm]. f_equal; field.
Qed.

(** The realization of the drivers on this model, when the coefficients D = d, F = f are picked. *)
Definition u_run (la : linalg xr) (pick : list xr -> list (list xr) -> list xr) (recharge : coef6 xr -> xr) (fuel : nat) (s : pfield xr) :=
  realization fuel la s (Fin 0) (Fin 0) (Fin 1) 1 (Fin (1 / 200)) (Fin 0) (PInt 1) (PFloat (Fin (1 / 4))) (PInt 1) [dw] [PInt 0] (map fobs dobs)
              (Fin 1) false (Fin 1) (Fin 10) pick recharge.

Lemma u_realization la pick recharge d f s w :
  linalg_contract la -> d = 1 -> 0 <= f ->
  (forall C, snd (fit_regional_flow la (fmodel dm) (map fobs dobs) (Fin 0) (Fin 0)) = Ok (coef_list (fcoef (dc 1 10)), C) ->
     pick (coef_list (fcoef (dc 1 10))) C = coef_list (fcoef (dc d f))) ->
  wf s -> initialised s -> has_node s 2 0 w false ->
  exists n s', (forall fuel, (n <= fuel)%nat -> u_run la pick recharge fuel s = (s', Ok (d_log recharge d f))) /\
    wf s' /\ initialised s' /\ (0 < d -> has_node s' 2 0 (w + 1) false) /\ (d = 0 -> has_node s' 2 0 w false).
Proof.
  intros Hla Hd0 Hf0 Hp Hwf Hin Hnode. assert (Hd : 0 <= d <= 2) by lra.
  set (tr := [(2, 0); (2 + 1 / 200 * (4 * d), 0)] : list point).
  destruct (c11_rasterize_returns s tr 1 Hwf ltac:(discriminate) ltac:(lra)) as (n & Hn).
  set (n2 := Nat.max 2 n). destruct (Hn n2 ltac:(lia)) as (s1 & E1 & W1 & I1).
  destruct (c14_register_exact s1 1 W1 I1) as (s2 & E2 & W2 & N2 & _).
  assert (R : forall fuel, (n2 <= fuel)%nat -> u_run la pick recharge fuel s = (s2, Ok (d_log recharge d f))).
  { intros fuel Hf. unfold u_run, realization. cbn [make_wells as_num num_of bind sx sy sr dw]. cbn [nZ XR].
    change (new_model (Fin 0) (Fin 1) (Fin (1 / 4)) (Fin 1) [{| wx := Fin 0; wy := Fin 0; wr := Fin 1; wq := Fin 0 |}]) with (fmodel dm).
    destruct (d_fit la Hla) as (C & EC). specialize (Hp C ltac:(rewrite EC; reflexivity)). rewrite EC. cbn [bind]. rewrite Hp. cbn [reshape6 coef_list bind].
    change (set_coef (fmodel (with_coef dm 0 0 (dc 1 10))) _) with (fmodel (with_coef dm 0 0 (dc d f))).
    assert (B : compute_backtrace fuel (Fin (fst (ring_point 0 0 1 1 0))) (Fin (snd (ring_point 0 0 1 1 0))) (Fin (1 / 200)) (Fin 1) (Fin 10) (feval false (fmodel (with_coef dm 0 0 (dc d f))))
      = Ok {| vertices := map fvec tr; t_end := Fin (1 / 200); completed := true |}).
    { rewrite ring_two. apply brief_trace; [lia|lra|]. intros x Hx. rewrite Hd0, Rmult_1_r. apply u_velocity; assumption. }
    pose proof (c46_paths fuel 0 0 1 1 (Fin (1 / 200)) (Fin 1) (Fin 1) (Fin 1) (Fin 10) s (feval false (fmodel (with_coef dm 0 0 (dc d f))))
                  [{| vertices := map fvec tr; t_end := Fin (1 / 200); completed := true |}] ltac:(lia)) as P.
    change (Z.of_nat 1) with 1%Z in P. rewrite P by (constructor; [exact B|constructor]). clear P.
    cbn [map app calls run_op vertices]. 
    pose proof (rasterize_stable s (xs tr) (ys tr) (Fin 1) n2 fuel Hf) as S. cbv beta in S. rewrite E1 in S. specialize (S ltac:(discriminate)).
    match goal with |- context [rasterize fuel s ?a ?b (Fin 1)] => change a with (xs tr); change b with (ys tr) end. rewrite S.
    cbn [nZ XR]. rewrite E2. reflexivity. }
  exists n2, s2. split; [exact R|]. split; [exact W2|].
  destruct (c11_rasterize_exact n2 s tr 1 s1 Hwf Hin ltac:(lra) E1) as (_ & _ & X1 & X2 & _).
  destruct (X1 2 0 w false Hnode) as (m' & Hm'). destruct (X2 2 0 w m' Hm') as (_ & _ & X3).
  assert (NM : ~ marked s 2 0). { intros (w' & H'). destruct (has_node_fun s 2 0 w false w' true Hwf Hnode H') as [_ C]. discriminate C. }
  assert (H2 : has_node s2 2 0 (if m' then w + 1 else w) false). { apply N2. split; [reflexivity|]. exists w, m'. auto. }
  split; [destruct H2 as (g & _ & _ & _ & _ & _ & _ & Eb & _); unfold initialised; congruence|].
  split; intros D.
  - assert (m' = true) as ->; [|exact H2]. apply X3. right. exists (2, 0), (2 + 1 / 200 * (4 * d), 0). split; [exists 0%nat; split; reflexivity|].
    split; [intros C; injection C; lra|]. exists (2, 0). split; [exists 0; split; [lra|cbn; f_equal; ring]|]. unfold dist2. cbn. lra.
  - destruct m'; [exfalso|exact H2]. destruct (proj1 X3 eq_refl) as [M|(p & q & (k & K1 & K2) & Npq & _)]; [exact (NM M)|].
    destruct k as [|[|k]]; cbn in K1, K2; try discriminate K2. injection K1 as <-. injection K2 as <-. apply Npq. f_equal. rewrite D. ring.
Qed.

Definition u_stochastic {G E} (R : rng xr G) (mvn : E -> list xr -> list (list xr) -> list xr) la e g n fuel :=
  create_stochastic R mvn fuel la e g 0 1 (Fin (1 / 200)) n (Fin 0) (PInt 1) (PFloat (Fin (1 / 4))) (PInt 1) [dw] (map fobs dobs) (Fin 2) (Fin 1) false (Fin 1) (Fin 10).

Lemma u_two {E} (mvn : E -> list xr -> list (list xr) -> list xr) la e d : linalg_contract la -> d = 1 -> draws mvn la e d ->
  exists n s, (forall fuel G (R : rng xr G) g, (n <= fuel)%nat ->
      u_stochastic R mvn la e g 2 fuel = Ok (s, [d_log recharge_stochastic d 0; d_log recharge_stochastic d 0])) /\
    wf s /\ (0 < d -> has_node s 2 0 2 false) /\ (d = 0 -> has_node s 2 0 0 false).
Proof.
  intros Hla Hd0 He. assert (Hd : 0 <= d <= 2) by lra. destruct d_init as (s0 & E0 & W0 & I0 & N0).
  destruct (u_realization la (mvn (e 0%nat)) recharge_stochastic d 0 s0 0 Hla Hd0 (Rle_refl 0) (He 0%nat) W0 I0 N0) as (n1 & s1 & R1 & W1 & I1 & A1 & B1).
  assert (H1 : exists w1, has_node s1 2 0 w1 false /\ (0 < d -> w1 = 1) /\ (d = 0 -> w1 = 0)).
  { destruct (Rle_lt_or_eq_dec 0 d (proj1 Hd)) as [L|<-].
    - exists 1. split; [replace 1 with (0 + 1) by ring; auto|]. split; [reflexivity|lra].
    - exists 0. split; [auto|]. split; [lra|reflexivity]. }
  destruct H1 as (w1 & N1 & P1 & Z1).
  destruct (u_realization la (mvn (e 1%nat)) recharge_stochastic d 0 s1 w1 Hla Hd0 (Rle_refl 0) (He 1%nat) W1 I1 N1) as (n2 & s2 & R2 & W2 & I2 & A2 & B2).
  exists (Nat.max n1 n2), s2. split.
  - intros fuel G R g Hf. unfold u_stochastic, create_stochastic. cbn [nth_error dw sx sy sr].
    rewrite E0. cbn [bind]. change (Z.to_nat 2) with 2%nat. cbn [realizations map sq dw sample_all generate_random_variate bind].
    specialize (R1 fuel ltac:(lia)). unfold u_run in R1. change [{| sx := Fin 0; sy := Fin 0; sr := Fin 1; sq := PInt 0 |}] with [dw]. rewrite R1. cbn [bind].
    specialize (R2 fuel ltac:(lia)). unfold u_run in R2. rewrite R2. reflexivity.
  - split; [exact W2|]. split; intros D.
    + pose proof (A2 D) as Q. rewrite (P1 D) in Q. replace (1 + 1) with 2 in Q by ring. exact Q.
    + pose proof (B2 D) as Q. rewrite (Z1 D) in Q. exact Q.
Qed.

Definition u_args (n cd pd : pyval xr) (l : list (obs R)) : args xr :=
  {| projectname := PStr "demo"%string; runtime := PStr "now"%string; target := PInt 0; npaths := PInt 1; duration := PFloat (Fin (1 / 200)); nrealizations := n;
     base_ := PInt 0; c_dist := cd; p_dist := pd; t_dist := PInt 1;
     stochastic_wells := PList [PTuple [PInt 0; PInt 0; PInt 1; PInt 0]]; observations := PList (map pobs l);
     buffer := PFloat (Fin (1 / 2)); spacing := PInt 2; umbra := PInt 1; smooth := PInt 1; confined := PBool false; tol := PInt 1; maxstep := PInt 10 |}.
Definition u_call (n : Z) (l : list (obs R)) : call :=
  {| k_target := 0; k_npaths := 1; k_duration := Fin (1 / 200); k_n := n; k_base := Fin 0; k_wells := [dw]; k_obs := map fobs l;
     k_buffer := Fin (1 / 2); k_spacing := Fin 2; k_umbra := Fin 1; k_confined := false; k_tol := Fin 1; k_maxstep := Fin 10 |}.
Lemma u_required n cd pd l : distribution cd (Fin 0) PInf -> distribution pd (Fin 0) (Fin 1) -> (7 <= List.length l)%nat -> (forall o, In o l -> 0 <= os o) ->
  required_ok (u_args n cd pd l).
Proof.
  intros Hc Hp L Ho. unfold required_ok, u_args. cbn [projectname runtime target npaths duration nrealizations base_ c_dist p_dist t_dist stochastic_wells observations].
  repeat split; try (eexists; reflexivity); auto.
  - eexists. split; [reflexivity|]. split.
    + constructor; [|constructor]. exists (PInt 0), (PInt 0), (PInt 1), (PInt 0). split; [left; reflexivity|].
      split; [exists (Fin 0); apply num_int|]. split; [exists (Fin 0); apply num_int|]. split; [apply positive_int; reflexivity|].
      apply (scalar_dist _ (Fin 0)); [apply num_int|exact I|exact I].
    + exists 0%Z. split; [constructor|]. cbn. lia.
  - exists 1%Z. split; [constructor|lia].
  - eexists. split; [constructor|]. intros [= H]. lra.
  - eexists. constructor.
  - eapply scalar_dist; [apply num_int|cbn; lra|exact I].
  - eexists. split; [reflexivity|]. rewrite map_length. split; [exact L|]. apply Forall_forall. intros v Hv. apply in_map_iff in Hv. destruct Hv as (o & <- & Hv).
    do 4 eexists. split; [left; reflexivity|]. do 3 (split; [eexists; apply num_float|]). eexists. split; [apply num_float|]. cbn. auto.
Qed.
Lemma u_acceptable n cd pd l : distribution cd (Fin 0) PInf -> distribution pd (Fin 0) (Fin 1) -> (7 <= List.length l)%nat -> (forall o, In o l -> 0 <= os o) ->
  acceptable (u_args n cd pd l).
Proof.
  intros. split; [apply u_required; assumption|]. unfold optional_ok, u_args. cbn [buffer spacing umbra smooth confined tol maxstep].
  repeat split; try (apply positive_int; reflexivity); [apply positive_float; lra|eexists; reflexivity].
Qed.
Lemma u_reads n cd pd l : reads (u_args (PInt n) cd pd l) (u_call n l).
Proof.
  unfold reads, u_args, u_call. cbn [target npaths duration nrealizations base_ stochastic_wells observations buffer spacing umbra confined tol maxstep k_target k_npaths k_duration k_n k_base k_wells k_obs k_buffer k_spacing k_umbra k_confined k_tol k_maxstep].
  repeat split; try constructor.
  - eexists. split; [reflexivity|]. constructor; [|constructor]. do 3 eexists. split; [left; reflexivity|]. repeat split; constructor.
  - eexists. split; [reflexivity|]. induction l as [|o l IH]; cbn [map]; constructor; [|exact IH]. do 4 eexists. split; [left; reflexivity|]. repeat split; constructor.
Qed.
Lemma u_retained n : retained (u_call n dobs) (map fobs dobs).
Proof. apply keeps. reflexivity. Qed.
Lemma u_posed n cd qc : proper cd qc -> (forall x, In x qc -> 0 < x) -> ((1 < n)%Z -> spread qc) ->
  well_posed (u_args (PInt n) cd quarter dobs) (u_call n dobs) dobs dobs.
Proof.
  intros Pc Hc Sc. constructor.
  - intros w [<-|[]]. cbn [dw sx sy sr sq]. do 3 (split; [eexists; reflexivity|]). exists [0]. apply proper_number, num_int.
  - exists qc. auto.
  - exists [1 / 4]. apply proper_number, num_float.
  - exists [1]. split; [apply proper_number, num_int|]. intros x [<-|[]]. lra.
  - intros Hn v q Hv Hq. assert (E : forall x, number v (Fin x) -> spread q) by (intros x N; rewrite (proper_fun v q [x] Hq (proper_number _ _ N)); exact I).
    cbn [c_dist p_dist t_dist u_args k_wells u_call map dw sq In] in Hv. destruct Hv as [<-|[<-|[<-|[<-|[]]]]].
    + rewrite (proper_fun _ q qc Hq Pc). auto.
    + eapply E. apply num_float.
    + eapply E. apply num_int.
    + eapply E. apply num_int.
  - eexists. reflexivity.
  - eexists. reflexivity.
  - eexists. reflexivity.
  - exists 0. split; [reflexivity|]. intros o Ho. apply dobs_in in Ho. destruct Ho as (x & y & -> & Hx). cbn. lra.
  - reflexivity.
  - apply u_retained.
  - apply dobs_seven.
  - exact dobs_free.
Qed.

Lemma u_porosity n cd q x : proper (p_dist (u_args n cd quarter dobs)) q -> In x q -> 0 < x.
Proof.
  intros Hq Hx. cbn [p_dist u_args] in Hq. rewrite (proper_fun _ q [1 / 4] Hq (proper_number quarter (1 / 4) (num_float _))) in Hx.
  destruct Hx as [<-|[]]. lra.
Qed.

(** The model of the run: a uniform flow with D = 1. *)
Lemma u_model m : has_parameters mean_of (u_args (PInt 1) halves quarter dobs) (u_call 1 dobs) dw m -> best_fit m dobs (coef m) ->
  m = with_coef dm 0 0 (dc 1 10).
Proof.
  intros (P1 & P2 & P3 & P4 & P5 & P6 & P7) Bf. cbn [k_base u_call c_dist p_dist t_dist u_args k_wells dw sx sy sr sq] in P1, P2, P3, P4, P5, P6, P7.
  apply (mean_fun _ _ 1 _ halves_proper) in P2; [|cbn; field].
  apply (mean_fun _ _ (1 / 4) _ (proper_number quarter (1 / 4) (num_float _))) in P3; [|cbn; field].
  apply (mean_fun _ _ 1 _ (proper_number (PInt 1) 1 (num_int _))) in P4; [|cbn; field].
  inversion P5 as [|sw w' ? l' (W1 & W2 & W3 & W4) W5 E1 E2]. assert (l' = []) by (inversion W5; reflexivity). subst l' sw. clear P5 W5.
  apply (mean_fun _ _ 0 _ (proper_number (PInt 0) 0 (num_int _))) in W4; [|cbn; field].
  assert (Em : m = with_coef dm 0 0 (coef m)).
  { destruct m as [b k n h ws x0 y0 cf], w' as [wx1 wy1 wr1 wq1]. cbn [base conductivity porosity thickness wells xo yo coef wx wy wr wq dw sx sy sr sq] in *. unfold with_coef, dm.
    cbn [base conductivity porosity thickness wells]. congruence. }
  assert (Ec : coef m = dc 1 10); [|rewrite Em, Ec; reflexivity].
  assert (Z0 : misfit m (xo m) (yo m) dobs (dc 1 10) = 0).
  { assert (Ex : xo m = 0) by congruence. assert (Ey : yo m = 0) by congruence. rewrite Ex, Ey. unfold misfit.
    transitivity (Rsum (fun _ : obs R => 0) dobs); [|unfold Rsum, dobs; cbn; ring].
    assert (R0 : forall o, In o dobs -> residual m 0 0 (dc 1 10) o = 0).
    { intros o Ho. pose proof (dobs_usable o Ho) as (_ & _ & Off). apply dobs_in in Ho. destruct Ho as (x & y & -> & H1 & H2).
      unfold residual. rewrite Em. change (with_coef (with_coef dm 0 0 (coef m)) 0 0 (dc 1 10)) with (with_coef dm 0 0 (dc 1 10)). rewrite potential_with_coef by exact Off. unfold obs_ev.
      cbn [base with_coef dm oz os ox oy dob thickness conductivity].
      destruct (Rlt_dec _ _); [lra|]. unfold Rsum, wells, dm, wpot, quad, dc. cbn [fold_right wq cA cB cC cD cE cF]. unfold Rdiv at 1. match goal with |- ?t * _ = 0 => replace t with 0 by field end. ring. }
    clear - R0. induction dobs as [|o l IH]; [reflexivity|]. cbn [Rsum fold_right]. unfold Rsum in *. cbn [fold_right]. rewrite (R0 o (or_introl eq_refl)), Rmult_0_r. rewrite IH; [reflexivity|]. intros o' Ho'. apply R0. now right. }
  assert (Dec : forall c d : coef6 R, c = d \/ c <> d).
  { intros [a1 a2 a3 a4 a5 a6] [b1 b2 b3 b4 b5 b6].
    destruct (Req_dec a1 b1), (Req_dec a2 b2), (Req_dec a3 b3), (Req_dec a4 b4), (Req_dec a5 b5), (Req_dec a6 b6); ((left; congruence) || (right; congruence)). }
  destruct (Dec (dc 1 10) (coef m)) as [E|N]; [now symmetry|]. apply Bf in N. rewrite Z0 in N. pose proof (misfit_nonneg m (xo m) (yo m) dobs (coef m)). lra.
Qed.

Lemma u_model_drawn m : has_parameters within (u_args (PInt 2) (PInt 1) quarter dobs) (u_call 2 dobs) dw m -> coef m = dc 1 0 -> m = with_coef dm 0 0 (dc 1 0).
Proof.
  intros (P1 & P2 & P3 & P4 & P5 & P6 & P7) Ec. cbn [k_base u_call c_dist p_dist t_dist u_args k_wells dw sx sy sr sq] in P1, P2, P3, P4, P5, P6, P7.
  apply (within_fun _ _ 1 (proper_number (PInt 1) 1 (num_int _))) in P2. apply (within_fun _ _ (1 / 4) (proper_number quarter (1 / 4) (num_float _))) in P3.
  apply (within_fun _ _ 1 (proper_number (PInt 1) 1 (num_int _))) in P4.
  inversion P5 as [|sw w' ? l' (W1 & W2 & W3 & W4) W5 E1 E2]. assert (l' = []) by (inversion W5; reflexivity). subst l' sw. clear P5 W5.
  apply (within_fun _ _ 0 (proper_number (PInt 0) 0 (num_int _))) in W4.
  destruct m as [b k n h ws x0 y0 cf], w' as [wx1 wy1 wr1 wq1]. cbn [base conductivity porosity thickness wells xo yo coef wx wy wr wq dw sx sy sr sq] in *. unfold with_coef, dm.
  cbn [base conductivity porosity thickness wells]. congruence.
Qed.

Lemma u_returns : exists fuel s, wf s /\ has_node s 2 0 1 false /\
  create_deterministic fuel elim_la 0 1 (Fin (1 / 200)) (Fin 0) (PTuple [PFloat (Fin (1 / 2)); PFloat (Fin (3 / 2))]) (PFloat (Fin (1 / 4))) (PInt 1) [dw] (map fobs dobs)
                       (Fin 2) (Fin 1) false (Fin 1) (Fin 10)
  = Ok (s, {| l_conductivity := Fin 1; l_porosity := Fin (1 / 4); l_thickness := Fin 1; l_recharge := Fin 0;
              l_coef := fcoef {| cA := 0; cB := 0; cC := 0; cD := 1; cE := 0; cF := 10 |} |}).
Proof.
  destruct d_init as (s0 & E0 & W0 & I0 & N0).
  destruct (u_realization elim_la (fun ev _ => ev) recharge_deterministic 1 10 s0 0 elim_la_contract eq_refl ltac:(lra) ltac:(reflexivity) W0 I0 N0) as (n1 & s1 & R1 & W1 & I1 & A1 & B1).
  exists n1, s1. split; [exact W1|]. split; [replace 1 with (0 + 1) by ring; apply A1; lra|].
  unfold create_deterministic. cbn [nth_error]. cbn [dw sx sy sr]. rewrite E0. cbn [bind map_res compute_variate_mean sq dw as_num num_of].
  assert (EK : ndiv (nadd (Fin (1 / 2)) (Fin (3 / 2))) (nZ 2) = Fin 1) by (cbn; destruct (Reqb_spec 2 0); [lra|]; apply f_equal; field). rewrite EK.
  specialize (R1 n1 (le_n _)). unfold u_run, realization in *. cbn [as_num num_of bind nZ XR] in *.
  rewrite R1. cbn [bind]. unfold d_log, recharge_deterministic, fcoef, dc. cbn [cA cB cC cD cE cF nmul nadd nZ XR xmul xadd].
  apply f_equal, f_equal. f_equal. apply (f_equal Fin). ring.
Qed.

(** Nothing is nearer than 2 to the well, and the water is deep. *)
Lemma u_uniform F : flux_change (with_coef dm 0 0 (dc 1 F)) 1 = 0.
Proof.
  unfold flux_change. cbn [coef with_coef dm dc cA cB cC wells fold_right wq]. replace (4 * 0 ^ 2 + 2 * 0 ^ 2 + 4 * 0 ^ 2) with 0 by ring. rewrite sqrt_0, Rabs_R0. field.
Qed.

Lemma u_deep F l : 0 <= F -> (forall q, In q l -> 2 <= fst q /\ snd q = 0) -> deep (with_coef dm 0 0 (dc 1 F)) 1 1 1 l.
Proof.
  intros HF Hl q Hq. destruct (Hl q Hq) as [Hx Hy]. destruct q as [x y]. cbn [fst snd] in *. subst y. set (m := with_coef dm 0 0 (dc 1 F)).
  assert (O : off_wells (wells m) x 0) by (intros w [<-|[]]; cbn; lra).
  split.
  { unfold m. rewrite <- upstream_norm, u_upstream by exact Hx. unfold pnorm. cbn [fst snd]. replace (1 * 1 + 0 * 0) with 1 by ring. rewrite sqrt_1. lra. }
  split.
  { intros o [<-|[]]. unfold pdist. cbn. match goal with |- _ <= sqrt ?e => replace e with (x * x) by ring end. rewrite sqrt_square; lra. }
  unfold m. rewrite u_uniform. fold m. rewrite potential_eq by exact O. unfold m, quad, Rsum, wpot. cbn [coef with_coef dm dc cA cB cC cD cE cF xo yo wells fold_right wq conductivity]. lra.
Qed.

Lemma u_zone fuel n F z : 0 <= F -> z_model z = with_coef dm 0 0 (dc 1 F) -> traced_unconfined fuel (u_call n dobs) dw (1 / 200) z ->
  submerged (1 / 200) 1 1 1 (1 / 200) z.
Proof.
  intros HF Em (U & Tl & El & Ht). destruct Tl as [Tl Tk]. cbn [k_npaths u_call] in Tl. change (Z.to_nat 1) with 1%nat in Tl.
  assert (Hm : physical (z_model z)) by (rewrite Em; unfold physical; cbn; lra).
  assert (Hf : forall x, 2 <= x -> z_velocity z (fvec (x, 0)) = Ok (fvec (4, 0))).
  { intros x Hx. rewrite (upstream_unconfined _ _ (x, 0) Hm U).
    - rewrite Em. apply u_velocity; assumption.
    - rewrite Em. intros w [<-|[]]. cbn. lra. }
  split; [exact Hm|]. split; [lra|]. split; [lra|]. split; [rewrite Em; cbn; lra|]. split; [|split].
  - intros l Hl. apply In_nth_error in Hl. destruct Hl as (j & Hj). destruct (Tk j l Hj) as (x & y & r & t & X & Y & Rr & B & E). cbn [dw sx sy sr] in X, Y, Rr. injection X as <-. injection Y as <-. injection Rr as <-.
    assert (Lj : (j < length (z_tracks z))%nat) by (apply nth_error_Some; rewrite Hj; discriminate). assert (Lj' : (j < 1)%nat) by (eapply Nat.lt_le_trans; [exact Lj|apply Nat.eq_le_incl; exact Tl]). assert (j = 0)%nat by lia. subst j.
    cbv zeta in B. assert (T0 : 2 * PI * INR 0 / INR (Z.to_nat (k_npaths (u_call n dobs))) = 0) by (change (INR 0) with 0; unfold Rdiv; ring). rewrite T0, cos_0, sin_0 in B.
    replace (0 + (1 + 1) * 1) with 2 in B by ring. replace (0 + (1 + 1) * 0) with 0 in B by ring. cbn [u_call k_duration k_tol k_maxstep] in B.
    assert (Hfuel : (2 <= fuel)%nat).
    { destruct fuel as [|[|fuel]]; [| |lia]; exfalso; clear - B Hf.
      - unfold compute_backtrace in B. pose proof (Hf 2 ltac:(lra)) as K. unfold fvec at 1 in K. cbn [fst snd] in K. rewrite K in B. discriminate B.
      - pose proof (brief_trace (z_velocity z) 4 2 ltac:(lia) ltac:(lra) Hf) as B2. unfold compute_backtrace in B, B2. pose proof (Hf 2 ltac:(lra)) as K. unfold fvec at 1 in K. cbn [fst snd] in K. rewrite K in B. clear K B2.
        cbn [trace_loop] in B. change (@nZ xr XR 0) with (Fin 0) in B. rewrite (proj2 (nabs_lt 0 (1 / 200))) in B by (rewrite Rabs_R0, Rabs_pos_eq; lra).
        match type of B with (let _ := ?d in _) = _ => idtac | _ => idtac end.
        rewrite sign_one in B by lra.
        assert (C1 : nlt (nabs (Fin (1 / 200))) (nabs (nadd (Fin 0) (Fin (1 / 10)))) = true) by (cbn; apply Rltb_true; rewrite !Rabs_pos_eq by lra; lra).
        rewrite C1 in B. assert (C0 : nsub (Fin (1 / 200)) (Fin 0) = Fin (1 / 200)) by (cbn; f_equal; ring). rewrite C0 in B.
        pose proof (line_step (z_velocity z) 4 (1 / 200) ltac:(lra) ltac:(lra) Hf) as S1. unfold fvec at 1 in S1. cbn [fst snd] in S1. rewrite S1 in B.
        destruct (nlt (Fin 0) (Fin 1) && nlt (Fin (1 / 200 * 4)) (Fin 10)); discriminate B. }
    rewrite (brief_trace (z_velocity z) 4 fuel Hfuel ltac:(lra) Hf) in B. injection B as <-. cbn [vertices] in E.
    destruct l as [|q1 [|q2 [|q3 l]]]; try discriminate E. cbn [map] in E.
    assert (E1 : fvec (2, 0) = fvec q1) by congruence. assert (E2 : fvec (2 + 1 / 200 * 4, 0) = fvec q2) by congruence. apply fvec_inj in E1, E2. subst q1 q2.
    rewrite Em. apply u_deep; [exact HF|]. intros q [<-|[<-|[]]]; cbn; lra.
  - intros ts Hts. apply In_nth_error in Hts. destruct Hts as (j & Hj). assert (Lj : (j < length (z_tracks z))%nat) by (rewrite <- El; apply nth_error_Some; rewrite Hj; discriminate).
    destruct (nth_error (z_tracks z) j) as [l|] eqn:El'; [|apply nth_error_None in El'; exfalso; exact (Nat.lt_irrefl _ (Nat.lt_le_trans _ _ _ Lj El'))].
    destruct (Ht j l ts El' Hj) as (p & tr & _ & Pc). intros i Hi. rewrite (pc_length _ _ _ _ _ _ _ Pc) in Hi. destruct (pc_step _ _ _ _ _ _ _ Pc i Hi) as [Hs _].
    assert (N : 0 <= nth i ts 0); [|lra]. destruct i as [|i]; [rewrite (pc_start _ _ _ _ _ _ _ Pc); lra|].
    clear Hs. revert Hi. induction i as [|i IH]; intros Hi; (pose proof (pc_step _ _ _ _ _ _ _ Pc _ (Nat.lt_trans _ _ _ (Nat.lt_succ_diag_r _) Hi)) as [Q _]).
    + rewrite (pc_start _ _ _ _ _ _ _ Pc) in Q. lra.
    + specialize (IH ltac:(lia)). lra.
  - cbv zeta. rewrite Em. unfold shear, pace. rewrite u_uniform. cbn [porosity conductivity with_coef dm].
    replace (0 / (1 / 4 * 1) + (1 + 0 * 1) * (1 + 0 * 1) / (1 / 4 * 1 * (1 * 1 * 1))) with 4 by field. replace ((1 + 0 * 1) / (1 / 4 * 1)) with 4 by field.
    assert (exp (4 * (1 / 200)) <= 3) by (eapply Rle_trans; [|apply exp_le_3]; destruct (Req_dec (4 * (1 / 200)) 1) as [->|]; [lra|left; apply exp_increasing; lra]). lra.
Qed.

(** A run with confined = False whose field has a captured node; every zone it can have been made from meets the conditions with
    b = rho = d = 1 and H = 1/200. *)
Lemma c122_deterministic_example : exists fuel s lg, let a := u_args (PInt 1) halves quarter dobs in let c := u_call 1 dobs in
  deterministic_run fuel a c dobs s lg /\ k_confined c = false /\ k_duration c = Fin (1 / 200) /\ 0 <= 1 / 200 /\ xr_pos (k_umbra c) /\ has_node s 2 0 1 false /\
  forall z, has_parameters mean_of a c dw (z_model z) -> best_fit (z_model z) dobs (coef (z_model z)) -> traced_unconfined fuel c dw (1 / 200) z ->
    submerged (1 / 200) 1 1 1 (1 / 200) z.
Proof.
  destruct u_returns as (fuel & s & W & Nd & Dt). exists fuel, s. eexists. cbv zeta.
  split; [eapply c83_deterministic|].
  - apply u_acceptable; [exact halves_dist|exact quarter_dist|exact dobs_seven|exact dobs_os].
  - apply u_reads.
  - apply (u_posed 1 halves [1 / 2; 3 / 2] halves_proper); [intros x [<-|[<-|[]]]; lra|lia].
  - apply u_porosity.
  - apply elim_la_contract.
  - exact Dt.
  - do 2 (split; [reflexivity|]). split; [lra|]. split; [cbn; lra|]. split; [exact Nd|].
    intros z P Bf T. apply (u_zone fuel 1 10 z); [lra|exact (u_model _ P Bf)|exact T].
Qed.

(** Two realizations that both capture a node. *)
Lemma c122_stochastic_example : exists fuel s logs, let a := u_args (PInt 2) (PInt 1) quarter dobs in let c := u_call 2 dobs in
  let mvn := fun (e : coef6 R) (_ : list xr) (_ : list (list xr)) => coef_list (fcoef e) in
  let entropy := fun _ : nat => {| cA := 0; cB := 0; cC := 0; cD := 1; cE := 0; cF := 0 |} in
  stochastic_run mvn fuel entropy a c dobs s logs /\ k_confined c = false /\ k_duration c = Fin (1 / 200) /\ 0 <= 1 / 200 /\ xr_pos (k_umbra c) /\ has_node s 2 0 2 false /\
  forall i z ev C, has_parameters within a c dw (z_model z) -> traced_unconfined fuel c dw (1 / 200) z ->
    mvn (entropy i) (coef_list (fcoef ev)) C = coef_list (fcoef (coef (z_model z))) -> submerged (1 / 200) 1 1 1 (1 / 200) z.
Proof.
  assert (Dr : draws (fun (e : coef6 R) _ _ => coef_list (fcoef e)) elim_la (fun _ => {| cA := 0; cB := 0; cC := 0; cD := 1; cE := 0; cF := 0 |}) 1) by (intros i C _; reflexivity).
  destruct (u_two _ elim_la _ 1 elim_la_contract eq_refl Dr) as (n & s & R1 & W1 & A1 & _).
  exists n, s. eexists. cbv zeta. split.
  - eapply (c83_stochastic unit _ {| draw_uniform := fun g p _ => (p, g); draw_triangular := fun g p _ _ => (p, g) |} _ _ _ _ tt).
    + apply u_acceptable; [exact one_dist|exact quarter_dist|exact dobs_seven|exact dobs_os].
    + apply u_reads.
    + apply (u_posed 2 (PInt 1) [1]); [apply proper_number, num_int|intros x [<-|[]]; lra|intros _; exact I].
    + apply u_porosity.
    + apply elim_la_contract.
    + split; intros; cbn; lra.
    + intros e v C. exists e. reflexivity.
    + apply R1. apply le_n.
  - do 2 (split; [reflexivity|]). split; [lra|]. split; [cbn; lra|]. split; [apply A1; lra|].
    intros i z ev C P T M. apply (u_zone n 2 0 z); [lra| |exact T]. apply u_model_drawn; [exact P|].
    destruct (coef (z_model z)) as [a1 a2 a3 a4 a5 a6]. unfold fcoef, coef_list in M. cbn in M. unfold dc. congruence.
Qed.
