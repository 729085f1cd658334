(** * Backtracing velocities of the capture-zone drivers (C40, C47) *)
From Coq Require Import Reals Lra Lia Psatz.
From Verif Require Import Py Num NumXR ModelAquifer ModelTrace ModelDriver SpecAquifer SpecTrace ProofPi ProofAquifer ProofHead ProofTrace ProofTraceLoop ProofTraceTerm.
Local Open Scope R_scope.
Local Opaque kappa.

(** C47, confined mode.  Off the wells the backtracing velocity is the gradient of the discharge
    potential divided by porosity times thickness: its inner product with the gradient is never
    negative, and 0 exactly where the gradient vanishes. *)
Lemma c47_climbs_confined : forall (m : model R) (x y : R),
  physical m -> off_wells (wells m) x y ->
  exists ex ey gx gy,
    feval true (fmodel m) (Fin x, Fin y) = Ok (Fin ex, Fin ey) /\
    d_dx (potential m) x y gx /\ d_dy (potential m) x y gy /\
    ex * gx + ey * gy = (gx * gx + gy * gy) / (porosity m * thickness m) /\
    0 <= ex * gx + ey * gy /\ (ex * gx + ey * gy = 0 <-> gx = 0 /\ gy = 0).
Proof.
  intros m x y (HK & Hn & HH) Ho. destruct (c21_discharge_is_minus_gradient m x y Ho) as (pp & qx & qy & _ & Eq & Dx & Dy).
  exists (- (qx / (thickness m * porosity m))), (- (qy / (thickness m * porosity m))), (- qx), (- qy).
  assert (P : 0 < thickness m * porosity m) by (apply Rmult_lt_0_compat; lra).
  assert (I : 0 < / (thickness m * porosity m)) by (apply Rinv_0_lt_compat; lra).
  split; [|split; [exact Dx|split; [exact Dy|]]].
  - unfold feval, compute_velocity_confined. cbn [fst snd]. rewrite Eq. cbn [thickness porosity fmodel nmul ndiv nopp XR xmul].
    rewrite !div_fin by lra. reflexivity.
  - assert (S : - (qx / (thickness m * porosity m)) * - qx + - (qy / (thickness m * porosity m)) * - qy = (qx * qx + qy * qy) * / (thickness m * porosity m)) by (field; lra).
    rewrite S. split; [|split; [|split]].
    + rewrite (Rmult_comm (porosity m)). unfold Rdiv. ring.
    + nra.
    + intros Z. apply Rmult_integral in Z. destruct Z as [Z|Z]; [|lra]. split; nra.
    + intros [Z1 Z2]. replace qx with 0 by lra. replace qy with 0 by lra. ring.
Qed.

(** C47, general mode: where the potential is not positive the velocity function raises, otherwise the
    backtracing velocity is the gradient divided by porosity times saturated thickness. *)
Lemma c47_climbs_general : forall (m : model R) (x y : R),
  physical m -> off_wells (wells m) x y ->
  (potential m x y <= 0 /\ feval false (fmodel m) (Fin x, Fin y) = Raise AquiferError) \/
  (0 < potential m x y /\ exists ex ey gx gy b,
    feval false (fmodel m) (Fin x, Fin y) = Ok (Fin ex, Fin ey) /\
    d_dx (potential m) x y gx /\ d_dy (potential m) x y gy /\
    0 < b <= thickness m /\ girinskii (conductivity m) (thickness m) b <= potential m x y /\
    ex * gx + ey * gy = (gx * gx + gy * gy) / (porosity m * b) /\
    0 <= ex * gx + ey * gy /\ (ex * gx + ey * gy = 0 <-> gx = 0 /\ gy = 0)).
Proof.
  intros m x y Hm Ho. pose proof Hm as (HK & Hn & HH).
  assert (Ep : compute_potential (fmodel m) (Fin x) (Fin y) = Fin (potential m x y)).
  { unfold potential. rewrite compute_potential_eq by exact Ho. reflexivity. }
  destruct (c21_discharge_is_minus_gradient m x y Ho) as (pp & qx & qy & _ & Eq & Dx & Dy).
  assert (E1 : discharge_x m x y = qx) by (unfold discharge_x; rewrite Eq; reflexivity).
  assert (E2 : discharge_y m x y = qy) by (unfold discharge_y; rewrite Eq; reflexivity).
  pose proof (velocity_cases m x y _ Hm Ho Ep) as V. rewrite E1, E2 in V.
  set (p := potential m x y) in *. destruct (Rle_dec p 0) as [Hp|Hp].
  - left. split; [exact Hp|]. unfold feval. cbn [fst snd]. rewrite V. reflexivity.
  - right. split; [lra|]. cbn zeta in V. destruct (girinskii_head _ _ p HK HH ltac:(lra)) as (A & B & C).
    set (h := head_at _ _ p) in *. set (b := Rmin h (thickness m)) in *.
    assert (Hb : 0 < b <= thickness m) by (unfold b, Rmin; destruct (Rle_dec _ _); lra).
    assert (P : 0 < b * porosity m) by (apply Rmult_lt_0_compat; lra).
    assert (I : 0 < / (b * porosity m)) by (apply Rinv_0_lt_compat; lra).
    exists (- (qx / (b * porosity m))), (- (qy / (b * porosity m))), (- qx), (- qy), b.
    split; [|split; [exact Dx|split; [exact Dy|split; [exact Hb|]]]].
    + unfold feval. cbn [fst snd]. rewrite V. reflexivity.
    + split.
      { rewrite <- B. unfold b. destruct (Rle_dec h (thickness m)) as [L|L].
        - rewrite Rmin_left by lra. lra.
        - rewrite Rmin_right by lra. apply Rlt_le, girinskii_increasing; lra. }
      assert (S : - (qx / (b * porosity m)) * - qx + - (qy / (b * porosity m)) * - qy = (qx * qx + qy * qy) * / (b * porosity m)) by (field; lra).
      rewrite S. split; [|split; [|split]].
      * rewrite (Rmult_comm (porosity m)). unfold Rdiv. ring.
      * nra.
      * intros Z. apply Rmult_integral in Z. destruct Z as [Z|Z]; [|lra]. split; nra.
      * intros [Z1 Z2]. replace qx with 0 by lra. replace qy with 0 by lra. ring.
Qed.

(** ** A trace that meets a well (C40) *)
Definition injection (q : R) : model R :=
  {| base := 0; conductivity := 1; porosity := 1; thickness := 1;
     wells := [{| wx := 1; wy := 0; wr := 1/10; wq := - q |}]; xo := 0; yo := 0; coef := zero_coef |}.

(** C40, refuted with the velocity function of the drivers: an injection well one unit from the start
    point, of such a discharge that the second stage of the first trial step falls on the well.  There
    the velocity is NaN and the trace runs for ever, whatever the tolerances. *)
Lemma c40_well_refuted : exists q, 0 < q /\ forall (tol maxstep : xr) (fuel : nat),
  compute_backtrace fuel (Fin 0) (Fin 0) (Fin 1) tol maxstep (feval true (fmodel (injection q))) = NoFuel.
Proof.
  assert (HK : 0 < kappa) by (pose proof kappa_pos; lra).
  exists (25 / kappa). split; [apply Rdiv_lt_0_compat; lra|]. intros tol maxstep fuel. set (q := 25 / kappa).
  assert (PH : physical (injection q)) by (unfold physical, injection; cbn; lra).
  set (f := feval true (fmodel (injection q))).
  assert (F0 : f (Fin 0, Fin 0) = Ok (fvec (50, 0))).
  { unfold f, feval, compute_velocity_confined. cbn [fst snd].
    rewrite compute_discharge_eq by (intros w [<-|[]]; cbn; lra).
    cbn [thickness porosity fmodel nmul ndiv nopp XR xmul]. rewrite !div_fin by (cbn; lra). cbn [xopp].
    unfold fvec. cbn. unfold wqx, wqy, wdist2. cbn. apply f_equal, f_equal2; apply (f_equal Fin); unfold q; field; lra. }
  assert (F1 : f (Fin 1, Fin 0) = Ok (NaN, NaN)).
  { unfold f, feval. cbn [fst snd]. pose proof (c26_confined_at_well (injection q) _ PH eq_refl) as E. cbn [wx wy] in E. rewrite E. reflexivity. }
  assert (FN : f (NaN, NaN) = Ok (NaN, NaN)).
  { unfold f, feval, compute_velocity_confined, compute_discharge. cbn. reflexivity. }
  clearbody f. unfold compute_backtrace. rewrite F0. destruct fuel as [|n]; [reflexivity|]. cbn [trace_loop].
  assert (LT : nlt (nabs (nZ 0)) (nabs (Fin 1)) = true).
  { cbn. apply Rltb_true. rewrite Rabs_R0, Rabs_R1. lra. }
  rewrite LT.
  assert (S : nmul (nlit 1 10) (nsign (Fin 1)) = Fin (1 / 10)).
  { unfold nsign. cbn. destruct (Rltb_spec 0 1); [|lra]. cbn. f_equal. ring. }
  rewrite S. assert (C : nlt (nabs (Fin 1)) (nabs (nadd (nZ 0) (Fin (1 / 10)))) = false).
  { cbn. apply Rltb_false. rewrite !Rabs_pos_eq by lra. lra. }
  rewrite C. unfold dp_step.
  assert (X2 : vadd (Fin 0, Fin 0) (vscale (Fin (1 / 10)) (vscale a2_0 (fvec (50, 0)))) = (Fin 1, Fin 0)).
  { unfold vadd, vscale, a2_0, fvec. cbn. apply f_equal2; apply (f_equal Fin); lra. }
  assert (VN : forall c, vscale (Fin c) (NaN, NaN) = (NaN, NaN)) by reflexivity.
  assert (V1 : forall a, vadd a (NaN, NaN) = (NaN, NaN)) by (intros [[] []]; reflexivity).
  assert (V2 : forall a, vadd (NaN, NaN) a = (NaN, NaN)) by (intros [[] []]; reflexivity).
  rewrite X2, F1. cbn [bind].
  unfold a3_1, a4_1, a4_2, a5_1, a5_2, a5_3, a6_1, a6_2, a6_3, a6_4, a7_2, a7_3, a7_4, a7_5, e_1, e_2, e_3, e_4, e_5. cbn [nlit XR].
  do 5 (repeat first [rewrite VN | rewrite V1 | rewrite V2]; rewrite FN; cbn [bind]).
  repeat first [rewrite VN | rewrite V1 | rewrite V2]. change (norm_inf (NaN, NaN)) with NaN. rewrite next_dt_nan. cbn [nlt XR xlt andb].
  apply (nan_step_loops f _ _ _ (0, 0) _ 0); [exact FN|exact LT].
Qed.
