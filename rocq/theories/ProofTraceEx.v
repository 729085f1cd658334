(** * Concrete cases for the tracing theorems *)
From Coq Require Import Reals Lra Lia Psatz.
From Verif Require Import Py Num NumXR ModelField ModelAquifer ModelTrace ModelDriver SpecAquifer SpecTrace ProofAquifer ProofHead ProofAquiferEx
  ProofTrace ProofTraceLoop ProofTraceTerm ProofTraceField ProofTraceFlow.
Local Open Scope R_scope.

(** Velocity (1, 0) as long as x < 3/20, an exception from there on. *)
Definition cliff (xy : vec xr) : res (vec xr) :=
  match fst xy with
  | Fin a => if Rltb a (3 / 20) then Ok (Fin 1, Fin 0) else Raise AquiferError
  | _ => Ok (Fin 1, Fin 0)
  end.

Lemma cliff_step a h : a < 3 / 20 -> 0 <= h -> a + h < 3 / 20 ->
  dp_step cliff (fvec (a, 0)) (Fin h) (fvec (1, 0)) = Ok (fvec (a + h, 0), fvec (1, 0), Fin 0, Fin h).
Proof.
  intros Ha Hh Hs. set (v := (1, 0) : pt).
  pose proof (dp_step_finite cliff (a, 0) h v v v v v v v) as F. cbv zeta in F.
  assert (C : forall c, fst c <= 1 -> cliff (fvec (padd (a, 0) (pscale h c))) = Ok (fvec v)).
  { intros c Hc. unfold cliff, fvec, padd, pscale. cbn [fst snd]. destruct (Rltb_spec (a + h * fst c) (3 / 20)); [reflexivity|]. nra. }
  rewrite F; clear F.
  - assert (E1 : lincomb dp_b [v; v; v; v; v; v; v] = v) by (unfold v, lincomb, dp_b, padd, pscale; cbn; f_equal; field).
    assert (E2 : lincomb dp_bhat [v; v; v; v; v; v; v] = v) by (unfold v, lincomb, dp_bhat, padd, pscale; cbn; f_equal; field).
    rewrite E1, E2. unfold v, padd, pscale, pmax, pdist. cbn [fst snd].
    replace (h * 1 + - h * 1) with 0 by ring. replace (h * 0 + - h * 0) with 0 by ring.
    replace (a + h * 1 - a) with h by ring. replace (0 + h * 0 - 0) with 0 by ring. rewrite Rabs_R0, Rmax_left by lra.
    replace (h * h + 0 * 0) with (h * h) by ring. rewrite sqrt_square by lra.
    unfold fvec. cbn [fst snd]. rewrite Rmult_1_r, Rmult_0_r, Rplus_0_l. reflexivity.
  - unfold cliff, fvec. cbn [fst snd]. destruct (Rltb_spec a (3 / 20)); [reflexivity|lra].
  - apply C. unfold v, lincomb, padd, pscale. cbn. lra.
  - apply C. unfold v, lincomb, padd, pscale. cbn. lra.
  - apply C. unfold v, lincomb, padd, pscale. cbn. lra.
  - apply C. unfold v, lincomb, padd, pscale. cbn. lra.
  - apply C. unfold v, lincomb, padd, pscale. cbn. lra.
  - apply C. unfold v, dp_b, lincomb, padd, pscale. cbn. lra.
Qed.

Lemma first_factor : exists c, 1 < c /\ next_dt (Fin 1) (Fin 1) (Fin 0) (Fin (1 / 10)) (Fin (1 / 10)) = Fin (c * (1 / 10)).
Proof.
  exists (factor 1 1 0 (1 / 10)). split; [|apply next_dt_fin; lra]. unfold factor, eps_R.
  assert (9 <= 1 / (1 / 10 + 1 / 4503599627370496)) by lra.
  assert (9 <= root5 (1 / (0 + 1 / 4503599627370496))).
  { rewrite <- (root5_pow 9) by lra. apply root5_le; [apply pow_lt; lra|]. lra. }
  unfold Rmin. repeat destruct (Rle_dec _ _); lra.
Qed.

Lemma sign_one D : 0 < D -> nmul (nlit 1 10) (nsign (Fin D)) = Fin (1 / 10).
Proof. intros H. unfold nsign. cbn. destruct (Rltb_spec 0 D); [|lra]. cbn. f_equal. ring. Qed.

(** The step of size 1/10 is accepted, the next one raises: the path so far is returned, the elapsed
    time is 1/10. *)
Lemma c41_cliff_example :
  compute_backtrace 2 (Fin 0) (Fin 0) (Fin (1 / 5)) (Fin 1) (Fin 1) cliff
  = Ok {| vertices := [(Fin 0, Fin 0); (Fin (1 / 10), Fin 0)]; t_end := Fin (1 / 10); completed := false |}.
Proof.
  unfold compute_backtrace. rewrite sign_one by lra.
  assert (K : cliff (Fin 0, Fin 0) = Ok (fvec (1, 0))) by (unfold cliff; cbn; destruct (Rltb_spec 0 (3 / 20)); [reflexivity|lra]).
  rewrite K. cbn [trace_loop].
  change (@nZ xr XR 0) with (Fin 0). rewrite (proj2 (nabs_lt 0 (1 / 5))) by (rewrite Rabs_R0, Rabs_pos_eq; lra).
  assert (C1 : nlt (nabs (Fin (1 / 5))) (nabs (nadd (Fin 0) (Fin (1 / 10)))) = false) by (cbn; apply Rltb_false; rewrite !Rabs_pos_eq by lra; lra).
  rewrite C1. pose proof (cliff_step 0 (1 / 10)) as S1. unfold fvec at 1 in S1. cbn [fst snd] in S1. rewrite S1 by lra. clear S1.
  destruct first_factor as (c & Hc & EN). rewrite EN.
  assert (A : nlt (Fin 0) (Fin 1) && nlt (Fin (1 / 10)) (Fin 1) = true) by (cbn; apply andb_true_intro; split; apply Rltb_true; lra).
  rewrite A. cbn [nadd XR xadd nZ]. rewrite Rplus_0_l.
  rewrite (proj2 (nabs_lt (1 / 10) (1 / 5))) by (rewrite !Rabs_pos_eq; lra).
  assert (C2 : nlt (nabs (Fin (1 / 5))) (nabs (Fin (1 / 10 + c * (1 / 10)))) = true) by (cbn; apply Rltb_true; rewrite !Rabs_pos_eq by lra; lra).
  rewrite C2. cbn [nsub XR xsub].
  assert (S2 : dp_step cliff (fvec (1 / 10, 0)) (Fin (1 / 5 - 1 / 10)) (fvec (1, 0)) = Raise AquiferError).
  { unfold dp_step. set (h := 1 / 5 - 1 / 10).
    assert (X : forall w, w < 1 / 2 -> cliff (vadd (fvec (1 / 10, 0)) (vscale (Fin h) (fvec (w, 0)))) = Ok (fvec (1, 0))).
    { intros w Hw. unfold cliff, vadd, vscale, fvec, h. cbn [fst snd nmul nadd XR xmul xadd]. destruct (Rltb_spec (1 / 10 + (1 / 5 - 1 / 10) * w) (3 / 20)); [reflexivity|lra]. }
    assert (Y : forall w, 1 / 2 <= w -> cliff (vadd (fvec (1 / 10, 0)) (vscale (Fin h) (fvec (w, 0)))) = Raise AquiferError).
    { intros w Hw. unfold cliff, vadd, vscale, fvec, h. cbn [fst snd nmul nadd XR xmul xadd]. destruct (Rltb_spec (1 / 10 + (1 / 5 - 1 / 10) * w) (3 / 20)); [lra|reflexivity]. }
    assert (V2 : vscale a2_0 (fvec (1, 0)) = fvec (1 / 5, 0)) by (unfold vscale, a2_0, fvec; cbn; apply f_equal2; apply (f_equal Fin); field).
    assert (V3 : vadd (vscale a3_0 (fvec (1, 0))) (vscale a3_1 (fvec (1, 0))) = fvec (3 / 10, 0)) by (unfold vadd, vscale, a3_0, a3_1, fvec; cbn; apply f_equal2; apply (f_equal Fin); field).
    assert (V4 : vadd (vadd (vscale a4_0 (fvec (1, 0))) (vscale a4_1 (fvec (1, 0)))) (vscale a4_2 (fvec (1, 0))) = fvec (4 / 5, 0)) by (unfold vadd, vscale, a4_0, a4_1, a4_2, fvec; cbn; apply f_equal2; apply (f_equal Fin); field).
    rewrite V2, X by lra. cbn [bind]. rewrite V3, X by lra. cbn [bind]. rewrite V4, Y by lra. reflexivity. }
  rewrite S2. unfold fvec. reflexivity.
Qed.

(** The same velocity without the cliff, duration 1/10: one step, ended by the clock. *)
Lemma c36_path_example :
  compute_backtrace 2 (Fin 0) (Fin 0) (Fin (1 / 10)) (Fin 1) (Fin 1) cliff
  = Ok {| vertices := [(Fin 0, Fin 0); (Fin (1 / 10), Fin 0)]; t_end := Fin (1 / 10); completed := true |}.
Proof.
  unfold compute_backtrace. rewrite sign_one by lra.
  assert (K : cliff (Fin 0, Fin 0) = Ok (fvec (1, 0))) by (unfold cliff; cbn; destruct (Rltb_spec 0 (3 / 20)); [reflexivity|lra]).
  rewrite K. cbn [trace_loop].
  change (@nZ xr XR 0) with (Fin 0). rewrite (proj2 (nabs_lt 0 (1 / 10))) by (rewrite Rabs_R0, Rabs_pos_eq; lra).
  assert (C1 : nlt (nabs (Fin (1 / 10))) (nabs (nadd (Fin 0) (Fin (1 / 10)))) = false) by (cbn; apply Rltb_false; rewrite !Rabs_pos_eq by lra; lra).
  rewrite C1. pose proof (cliff_step 0 (1 / 10)) as S1. unfold fvec at 1 in S1. cbn [fst snd] in S1. rewrite S1 by lra. clear S1.
  assert (A : nlt (Fin 0) (Fin 1) && nlt (Fin (1 / 10)) (Fin 1) = true) by (cbn; apply andb_true_intro; split; apply Rltb_true; lra).
  rewrite A. cbn [nadd XR xadd nZ]. rewrite Rplus_0_l.
  assert (C2 : nlt (nabs (Fin (1 / 10))) (nabs (Fin (1 / 10))) = false) by (cbn; apply Rltb_false; lra).
  rewrite C2. unfold fvec. reflexivity.
Qed.

(** C37, C38 on the trace with the cliff: elapsed times 0 and 1/10, one good step of size 1/10. *)
Lemma c37_times_example : exists h, 0 < h * (1 / 5) /\ good_step cliff (Fin 1) (Fin 1) (0, 0) h (1 / 10, 0).
Proof.
  eapply (c38_tolerance_finite 2 (0, 0) (1 / 5) (Fin 1) (Fin 1) cliff _ 0).
  - intros xy k H. unfold cliff in H. exists (1, 0). destruct (fst xy); [destruct (Rltb r (3 / 20))|..]; try discriminate; injection H as <-; reflexivity.
  - exact c41_cliff_example.
  - reflexivity.
  - reflexivity.
Qed.

(** A step whose second stage meets a NaN can be accepted: velocity (1, 0) except at the one point (1/50, 0). *)
Definition pinhole (xy : vec xr) : res (vec xr) :=
  match xy with
  | (Fin a, _) => if Reqb a (1 / 50) then Ok (NaN, NaN) else Ok (Fin 1, Fin 0)
  | _ => Ok (Fin 1, Fin 0)
  end.
Lemma c38_wild_example :
  compute_backtrace 2 (Fin 0) (Fin 0) (Fin (1 / 10)) (Fin 1) (Fin 1) pinhole
  = Ok {| vertices := [(Fin 0, Fin 0); (Fin (1 / 10), Fin 0)]; t_end := Fin (1 / 10); completed := true |} /\
  pinhole (Fin (1 / 50), Fin 0) = Ok (NaN, NaN).
Proof.
  assert (P0 : forall a b, a <> 1 / 50 -> pinhole (Fin a, b) = Ok (Fin 1, Fin 0)).
  { intros a b Ha. unfold pinhole. destruct (Reqb_spec a (1 / 50)); [contradiction|reflexivity]. }
  assert (P1 : forall b, pinhole (Fin (1 / 50), b) = Ok (NaN, NaN)) by (intros b; unfold pinhole; destruct (Reqb_spec (1 / 50) (1 / 50)); [reflexivity|contradiction]).
  split; [|apply P1]. unfold compute_backtrace. rewrite sign_one, P0 by lra. cbn [trace_loop].
  change (@nZ xr XR 0) with (Fin 0). rewrite (proj2 (nabs_lt 0 (1 / 10))) by (rewrite Rabs_R0, Rabs_pos_eq; lra).
  assert (C1 : nlt (nabs (Fin (1 / 10))) (nabs (nadd (Fin 0) (Fin (1 / 10)))) = false) by (cbn; apply Rltb_false; rewrite !Rabs_pos_eq by lra; lra).
  rewrite C1.
  assert (S : dp_step pinhole (Fin 0, Fin 0) (Fin (1 / 10)) (Fin 1, Fin 0) = Ok ((Fin (1 / 10), Fin 0), (Fin 1, Fin 0), Fin 0, Fin (1 / 10))).
  { unfold dp_step.
    assert (X2 : vadd (Fin 0, Fin 0) (vscale (Fin (1 / 10)) (vscale a2_0 (Fin 1, Fin 0))) = (Fin (1 / 50), Fin 0)).
    { unfold vadd, vscale, a2_0. cbn. apply f_equal2; apply (f_equal Fin); lra. }
    rewrite X2, P1. cbn [bind].
    assert (VN : forall c, vscale (Fin c) (NaN, NaN) = (NaN, NaN)) by reflexivity.
    assert (V1 : forall a, vadd a (NaN, NaN) = (NaN, NaN)) by (intros [[] []]; reflexivity).
    assert (V2 : forall a, vadd (NaN, NaN) a = (NaN, NaN)) by (intros [[] []]; reflexivity).
    assert (PN : pinhole (NaN, NaN) = Ok (Fin 1, Fin 0)) by reflexivity.
    unfold a3_1, a4_1, a5_1, a6_1. cbn [nlit XR].
    repeat first [rewrite VN | rewrite V1 | rewrite V2]. rewrite PN. cbn [bind].
    repeat first [rewrite VN | rewrite V1 | rewrite V2]. rewrite PN. cbn [bind].
    repeat first [rewrite VN | rewrite V1 | rewrite V2]. rewrite PN. cbn [bind].
    repeat first [rewrite VN | rewrite V1 | rewrite V2]. rewrite PN. cbn [bind].
    match goal with |- bind (pinhole ?q) _ = _ => assert (X7 : q = (Fin (1 / 10), Fin 0)) end.
    { unfold vadd, vscale, a7_0, a7_2, a7_3, a7_4, a7_5. cbn. apply f_equal2; apply (f_equal Fin); field. }
    rewrite X7, P0 by lra. cbn [bind]. do 2 f_equal.
    - f_equal. match goal with |- norm_inf ?q = _ => assert (XE : q = fvec (0, 0)) end.
      { unfold vadd, vscale, e_0, e_1, e_2, e_3, e_4, e_5, fvec. cbn. apply f_equal2; apply (f_equal Fin); field. }
      rewrite XE, norm_inf_fvec. unfold pmax. cbn. rewrite Rabs_R0, Rmax_left by lra. reflexivity.
    - pose proof (norm2_sub (0, 0) (1 / 10, 0)) as M. unfold fvec in M. cbn [fst snd] in M. rewrite M. f_equal. unfold pdist. cbn [fst snd].
      replace ((1 / 10 - 0) * (1 / 10 - 0) + (0 - 0) * (0 - 0)) with (1 / 10 * (1 / 10)) by ring. apply sqrt_square. lra. }
  rewrite S. assert (A : nlt (Fin 0) (Fin 1) && nlt (Fin (1 / 10)) (Fin 1) = true) by (cbn; apply andb_true_intro; split; apply Rltb_true; lra).
  rewrite A. cbn [nadd XR xadd nZ]. rewrite Rplus_0_l.
  assert (C2 : nlt (nabs (Fin (1 / 10))) (nabs (Fin (1 / 10))) = false) by (cbn; apply Rltb_false; lra).
  rewrite C2. reflexivity.
Qed.

(** C39: the cliff is bounded by 1 and always returns or raises. *)
Lemma c39_cliff_example : bounded_by 1 cliff /\ total cliff /\ below (/ 2 ^ 52 / (9 / 10) ^ 5) (Fin 1) /\ below (/ 2 ^ 52 / (9 / 10)) (Fin 1).
Proof.
  split; [|split; [|split; cbn; lra]].
  - intros xy k H. exists (1, 0). unfold cliff in H. cbn. rewrite Rabs_R0, Rabs_R1.
    destruct (fst xy); [destruct (Rltb r (3 / 20))|..]; try discriminate; injection H as <-; repeat split; lra.
  - intros xy. unfold cliff. destruct (fst xy); [destruct (Rltb r (3 / 20))|..]; discriminate.
Qed.

(** C45: the cliff traced backwards. *)
Lemma c45_reversal_example :
  compute_backtrace 2 (Fin 0) (Fin 0) (Fin (- (1 / 10))) (Fin 1) (Fin 1) (fun xy => let! k := cliff xy in Ok (xopp (fst k), xopp (snd k)))
  = Ok {| vertices := [(Fin 0, Fin 0); (Fin (1 / 10), Fin 0)]; t_end := Fin (- (1 / 10)); completed := true |}.
Proof.
  pose proof (c45_reversal 2 (Fin 0) (Fin 0) (Fin (1 / 10)) (Fin 1) (Fin 1) (fun xy => let! k := cliff xy in Ok (xopp (fst k), xopp (snd k)))) as E.
  cbv zeta in E. cbn [xopp] in E. rewrite E. clear E.
  assert (X : forall g, (forall xy, g xy = cliff xy) ->
     compute_backtrace 2 (Fin 0) (Fin 0) (Fin (1 / 10)) (Fin 1) (Fin 1) g = compute_backtrace 2 (Fin 0) (Fin 0) (Fin (1 / 10)) (Fin 1) (Fin 1) cliff).
  { intros g Hg. f_equal. apply FunctionalExtensionality.functional_extensionality. exact Hg. }
  rewrite X.
  - rewrite c36_path_example. reflexivity.
  - intros xy. destruct (cliff xy) as [[a b]|e|]; cbn; auto. now rewrite !xopp_invol.
Qed.

(** C43: uniform flow (1, 0). *)
Lemma c43_uniform_example :
  compute_backtrace 2 (Fin 0) (Fin 0) (Fin (1 / 10)) (Fin 1) (Fin 1) (fun _ => Ok (fvec (1, 0)))
  = Ok {| vertices := [(Fin 0, Fin 0); (Fin (1 / 10), Fin 0)]; t_end := Fin (1 / 10); completed := true |}.
Proof.
  destruct (c41_prefix _ _ _ _ _ _ _ _ c36_path_example) as (E & P1 & P2).
  destruct (c43_returns (0, 0) (1, 0) (1 / 10) (Fin 1) (Fin 1)) as (n & tr & H); try (cbn; lra). specialize (H n (le_n n)).
  unfold compute_backtrace. rewrite sign_one by lra. cbn [trace_loop].
  change (@nZ xr XR 0) with (Fin 0). rewrite (proj2 (nabs_lt 0 (1 / 10))) by (rewrite Rabs_R0, Rabs_pos_eq; lra).
  assert (C1 : nlt (nabs (Fin (1 / 10))) (nabs (nadd (Fin 0) (Fin (1 / 10)))) = false) by (cbn; apply Rltb_false; rewrite !Rabs_pos_eq by lra; lra).
  rewrite C1. pose proof (c43_estimate_zero (1, 0) (0, 0) (1 / 10)) as S. unfold fvec at 2 in S. cbn [fst snd] in S. rewrite S. clear S.
  assert (Q : padd (0, 0) (pscale (1 / 10) (1, 0)) = (1 / 10, 0)) by (unfold padd, pscale; cbn; f_equal; ring). rewrite Q.
  assert (Dq : pdist (0, 0) (1 / 10, 0) = 1 / 10).
  { unfold pdist. cbn [fst snd]. replace ((1 / 10 - 0) * (1 / 10 - 0) + (0 - 0) * (0 - 0)) with (1 / 10 * (1 / 10)) by ring. apply sqrt_square. lra. }
  rewrite Dq. assert (A : nlt (Fin 0) (Fin 1) && nlt (Fin (1 / 10)) (Fin 1) = true) by (cbn; apply andb_true_intro; split; apply Rltb_true; lra).
  rewrite A. cbn [nadd XR xadd nZ]. rewrite Rplus_0_l.
  assert (C2 : nlt (nabs (Fin (1 / 10))) (nabs (Fin (1 / 10))) = false) by (cbn; apply Rltb_false; lra).
  rewrite C2. reflexivity.
Qed.

(** C44: rotation by 1 radian per unit time, from (1, 0), step 1/10. *)
Lemma c44_rotation_example :
  let A := {| axx := 0; axy := -1; ayx := 1; ayy := 0; bx := 0; by_ := 0 |} in
  (forall n, flow_derivative A n (1, 0) = nth n [(0, 1); (-1, 0); (0, -1); (1, 0); (0, 1); (-1, 0)] (flow_derivative A n (1, 0))) /\
  forall f, (forall q : pt, f (fvec q) = Ok (fvec (flow A q))) -> exists k7 est ds,
    dp_step f (fvec (1, 0)) (Fin (1 / 10)) (fvec (0, 1))
    = Ok (fvec (1 - 1 / 200 + 1 / 240000 - 1 / 600000000, 1 / 10 - 1 / 6000 + 1 / 12000000), k7, est, ds).
Proof.
  intros A. split.
  - intros n. do 6 (destruct n as [|n]; [unfold flow_derivative, flow, lin, padd; cbn; f_equal; ring|]). destruct n; reflexivity.
  - intros f Hf. destruct (c44_affine_step A f Hf (1, 0) (1 / 10)) as (k7 & est & ds & E). exists k7, est, ds.
    assert (X : flow A (1, 0) = (0, 1)) by (unfold flow, lin, padd; cbn; f_equal; ring). rewrite X in E. rewrite E.
    match goal with |- Ok (fvec ?u, _, _, _) = Ok (fvec ?w, _, _, _) => assert (Q : u = w); [|rewrite Q; reflexivity] end.
    unfold flow_derivative, flow, lin, lincomb, padd, pscale. cbn. apply f_equal2; field.
Qed.

(** C46: four start points around the origin for radius 1. *)
Lemma c46_ring_example : ring_point 0 0 1 4 0 = (2, 0) /\ ring_point 0 0 1 4 1 = (0, 2) /\ ring_point 0 0 1 4 2 = (-2, 0).
Proof.
  unfold ring_point. cbn [INR]. split; [|split].
  - replace (2 * PI * 0 / (1 + 1 + 1 + 1)) with 0 by field. rewrite cos_0, sin_0. f_equal; ring.
  - replace (2 * PI * 1 / (1 + 1 + 1 + 1)) with (PI / 2) by field. rewrite cos_PI2, sin_PI2. f_equal; ring.
  - replace (2 * PI * (1 + 1) / (1 + 1 + 1 + 1)) with PI by field. rewrite cos_PI, sin_PI. f_equal; ring.
Qed.

(** C47: a model with a well, at (1, 0). *)
Lemma c47_climb_example : physical (m0 1) /\ off_wells (wells (m0 1)) 1 0 /\ 0 < potential (m0 1) 1 0.
Proof.
  split; [apply m0_physical|]. split; [apply m0_off|]. unfold potential. rewrite m0_pot. cbn. lra.
Qed.
