(** * Traces of the program and pathlines: confined flow without wells (C103, C104) *)
From Coq Require Import Reals Lra Lia Psatz List Bool.
From Verif Require Import Py Num NumXR ModelAquifer ModelTrace ModelDriver SpecAquifer SpecTrace SpecPathline
  ProofAquifer ProofTrace ProofTraceLoop ProofTraceFlow ProofTraceEx ProofTraceGrow ProofPathline ProofPathAffine.
Import ListNotations.
Local Open Scope R_scope.

Lemma frobenius A : stretch A (sqrt (axx A * axx A + axy A * axy A + ayx A * ayx A + ayy A * ayy A)).
Proof.
  intros q. set (F := axx A * axx A + axy A * axy A + ayx A * ayx A + ayy A * ayy A).
  assert (HF : 0 <= F) by (unfold F; nra). apply le_of_sq; [apply Rmult_le_pos; [apply sqrt_pos|apply pnorm_pos]|].
  replace (sqrt F * pnorm q * (sqrt F * pnorm q)) with ((sqrt F * sqrt F) * (pnorm q * pnorm q)) by ring.
  rewrite sqrt_sqrt by exact HF. rewrite !pnorm_sq. unfold lin, F. cbn [fst snd].
  pose proof (Rle_0_sqr (axx A * snd q - axy A * fst q)) as S1. pose proof (Rle_0_sqr (ayx A * snd q - ayy A * fst q)) as S2. unfold Rsqr in *. nra.
Qed.

(** C104 for the confined aquifer without wells: whatever the regional flow, each vertex of a backtrace is near the place
    where the water of the start point was that much time before. *)
Lemma c104_confined : forall (m : model R) (fuel : nat) (p v : pt) (D : R) (tol maxstep : xr) (tr : trace xr) (Z : R -> pt),
  physical m -> wells m = [] -> 0 <= D -> moves (feval true (fmodel m)) Z D -> Z 0 = p -> feval true (fmodel m) (fvec p) = Ok (fvec v) ->
  compute_backtrace fuel (Fin (fst p)) (Fin (snd p)) (Fin D) tol maxstep (feval true (fmodel m)) = Ok tr ->
  let c := coef m in
  let L := sqrt (4 * cA c ^ 2 + 2 * cC c ^ 2 + 4 * cB c ^ 2) / (porosity m * thickness m) in
  exists l ts, clocked (feval true (fmodel m)) tol maxstep D tr l ts /\
    forall H, steps_within H ts -> forall i, (i < length l)%nat ->
      let t := nth i ts 0 in
      pdist (nth i l (0, 0)) (Z t) <= 11 / 3600 * t * (L ^ 5 * H ^ 5) * pnorm v * exp (26 / 25 * L * t).
Proof.
  intros m fuel p v D tol maxstep tr Z Hm Hw HD HZ H0 Hv Hr c L. pose proof (c44_confined_affine m Hm Hw) as Hf. cbv zeta in Hf.
  set (A := {| axx := _ |}) in Hf. assert (Hs : 0 < porosity m * thickness m) by (destruct Hm as (_ & ? & ?); nra).
  assert (HS : stretch A L).
  { pose proof (frobenius A) as F. assert (E : sqrt (axx A * axx A + axy A * axy A + ayx A * ayx A + ayy A * ayy A) = L); [|now rewrite E in F].
    unfold L. rewrite <- (sqrt_square (porosity m * thickness m)) at 1 by lra. rewrite <- sqrt_div by nra. f_equal. unfold A, c. cbn [axx axy ayx ayy]. field.
    destruct Hm as (_ & ? & ?). split; lra. }
  assert (HP : pathline (flow A) Z D).
  { intros t Ht. destruct (HZ t Ht) as (u & E & D1 & D2). rewrite Hf in E. assert (X : fvec (flow A (Z t)) = fvec u) by congruence. apply fvec_inj in X. now rewrite X. }
  assert (Ev : v = flow A p) by (rewrite Hf in Hv; apply fvec_inj; congruence). rewrite Ev.
  exact (c104_affine A L _ fuel p D tol maxstep tr Z Hf HS HD HP H0 Hr).
Qed.

(** Water of the saddle, traced back from (1, 1), on a trace that returns. *)
Lemma c104_saddle_example : physical saddle /\ wells saddle = [] /\ moves (feval true (fmodel saddle)) (fun t => (exp (2 * t), exp (-2 * t))) 3 /\
  exists v fuel tr, feval true (fmodel saddle) (fvec (1, 1)) = Ok (fvec v) /\
    compute_backtrace fuel (Fin 1) (Fin 1) (Fin 3) (Fin 1) (Fin 10) (feval true (fmodel saddle)) = Ok tr.
Proof.
  assert (PH : physical saddle) by (unfold physical, saddle; cbn; lra).
  split; [exact PH|]. split; [reflexivity|]. pose proof (c44_confined_affine saddle PH eq_refl) as Hf. cbv zeta in Hf. set (A := {| axx := _ |}) in Hf.
  split.
  - intros t _. exists (flow A (exp (2 * t), exp (-2 * t))). split; [apply Hf|]. cbn [fst snd]. split.
    + eapply deriv_val; [apply deriv_exp|]. unfold flow, lin, padd, A, saddle. cbn. field.
    + eapply deriv_val; [apply deriv_exp|]. unfold flow, lin, padd, A, saddle. cbn. field.
  - destruct (c39_no_wells_partial saddle (1, 1) 3 (Fin 1) (Fin 10) PH eq_refl) as (n & tr & E); [cbn; lra|cbn; lra|].
    exists (flow A (1, 1)), n, tr. split; [apply Hf|]. exact (E n (le_n n)).
Qed.

(** ** The tolerance *)
(** Flow along the x axis towards the origin, at the speed [10 z x]; traced back, away from the origin. *)
Definition apart (z : R) : model R :=
  {| base := 0; conductivity := 1; porosity := 1; thickness := 1; wells := []; xo := 0; yo := 0;
     coef := {| cA := 5 * z; cB := 0; cC := 0; cD := 0; cE := 0; cF := 0 |} |}.
Lemma apart_feval z q : feval true (fmodel (apart z)) (fvec q) = Ok (fvec (10 * z * fst q, 0)).
Proof.
  assert (PH : physical (apart z)) by (unfold physical, apart; cbn; lra).
  rewrite (c44_confined_affine (apart z) PH eq_refl). do 2 f_equal. unfold flow, lin, padd, apart. cbn. f_equal; field.
Qed.
Lemma pow_mono_1 z a b : 1 <= z -> (a <= b)%nat -> z ^ a <= z ^ b.
Proof. intros. now apply Rle_pow. Qed.

Lemma apart_step z x : 1 <= z -> 0 < x -> exists k7 est ds,
  dp_step (feval true (fmodel (apart z))) (fvec (x, 0)) (Fin (1 / 10)) (fvec (10 * z * x, 0)) =
    Ok (fvec (x * amplification z, 0), k7, Fin est, Fin ds) /\ est <= x * z ^ 7 /\ ds <= 3 * (x * z ^ 7).
Proof.
  intros Hz Hx. set (f := feval true (fmodel (apart z))).
  set (c2 := 1 + z / 5). set (c3 := 1 + 3 / 10 * z + 9 / 200 * z ^ 2). set (c4 := 1 + 4 / 5 * z + 8 / 25 * z ^ 2 + 4 / 25 * z ^ 3).
  set (c5 := 1 + 8 / 9 * z + 32 / 81 * z ^ 2 + 424 / 1215 * z ^ 3 - 848 / 18225 * z ^ 4).
  set (c6 := 1 + z + 1 / 2 * z ^ 2 + 21 / 55 * z ^ 3 - 14 / 275 * z ^ 4 + 7 / 550 * z ^ 5).
  set (c7 := amplification z). set (k := fun c => (10 * z * x * c, 0) : pt).
  pose proof (dp_step_finite f (x, 0) (1 / 10) (k 1) (k c2) (k c3) (k c4) (k c5) (k c6) (k c7)) as S. cbv zeta in S.
  assert (F : forall p c, fst p = x * c -> f (fvec p) = Ok (fvec (k c))).
  { intros p c E. unfold f. rewrite apart_feval. unfold k. do 2 f_equal. f_equal. rewrite E. ring. }
  assert (Q : padd (x, 0) (pscale (1 / 10) (lincomb dp_b [k 1; k c2; k c3; k c4; k c5; k c6; k c7])) = (x * amplification z, 0)).
  { unfold lincomb, dp_b, padd, pscale, k, c2, c3, c4, c5, c6, amplification. cbn [combine fold_right fst snd]. f_equal; field. }
  rewrite Q in S. assert (E1 : k 1 = (10 * z * x, 0)) by (unfold k; f_equal; ring).
  exists (fvec (k c7)), (pmax (padd (pscale (1 / 10) (lincomb dp_b [k 1; k c2; k c3; k c4; k c5; k c6; k c7])) (pscale (- (1 / 10)) (lincomb dp_bhat [k 1; k c2; k c3; k c4; k c5; k c6; k c7])))),
    (pdist (x, 0) (x * amplification z, 0)).
  split; [|split].
  - rewrite <- E1. apply S.
    + apply F. cbn. ring.
    + apply F. unfold lincomb, padd, pscale, k, c2. cbn [combine fold_right fst snd]. field.
    + apply F. unfold lincomb, padd, pscale, k, c2, c3. cbn [combine fold_right fst snd]. field.
    + apply F. unfold lincomb, padd, pscale, k, c2, c3, c4. cbn [combine fold_right fst snd]. field.
    + apply F. unfold lincomb, padd, pscale, k, c2, c3, c4, c5. cbn [combine fold_right fst snd]. field.
    + apply F. unfold lincomb, padd, pscale, k, c2, c3, c4, c5, c6. cbn [combine fold_right fst snd]. field.
    + apply F. reflexivity.
  - set (e := 71 / 57600 - 71 / 16695 * c3 + 71 / 1920 * c4 - 17253 / 339200 * c5 + 22 / 525 * c6 - 1 / 40 * c7).
    assert (E : padd (pscale (1 / 10) (lincomb dp_b [k 1; k c2; k c3; k c4; k c5; k c6; k c7])) (pscale (- (1 / 10)) (lincomb dp_bhat [k 1; k c2; k c3; k c4; k c5; k c6; k c7]))
              = (z * x * e, 0)).
    { unfold lincomb, dp_b, dp_bhat, padd, pscale, k, e. clearbody c2 c3 c4 c5 c6 c7. cbn [combine fold_right fst snd]. f_equal; field. }
    rewrite E. unfold pmax. cbn [fst snd]. rewrite Rabs_R0. rewrite Rmax_left by apply Rabs_pos.
    assert (B : Rabs e <= z ^ 6).
    { pose proof (pow_mono_1 z 1 6 Hz ltac:(lia)). pose proof (pow_mono_1 z 2 6 Hz ltac:(lia)). pose proof (pow_mono_1 z 3 6 Hz ltac:(lia)).
      pose proof (pow_mono_1 z 4 6 Hz ltac:(lia)). pose proof (pow_mono_1 z 5 6 Hz ltac:(lia)). pose proof (pow_mono_1 z 0 6 Hz ltac:(lia)). rewrite pow_1, pow_O in *.
      pose proof (pow_le z 2 ltac:(lra)). pose proof (pow_le z 3 ltac:(lra)). pose proof (pow_le z 4 ltac:(lra)). pose proof (pow_le z 5 ltac:(lra)).
      unfold e, c3, c4, c5, c6, c7, amplification. apply Rabs_le. lra. }
    rewrite Rabs_mult, Rabs_pos_eq by (apply Rmult_le_pos; lra). replace (x * z ^ 7) with (z * x * z ^ 6) by ring. apply Rmult_le_compat_l; [apply Rmult_le_pos; lra|exact B].
  - unfold pdist. cbn [fst snd]. replace ((x * amplification z - x) * (x * amplification z - x) + (0 - 0) * (0 - 0)) with (Rsqr (x * (amplification z - 1))) by (unfold Rsqr; ring).
    rewrite sqrt_Rsqr_abs, Rabs_mult, (Rabs_pos_eq x) by lra.
    assert (B : Rabs (amplification z - 1) <= 3 * z ^ 7).
    { pose proof (pow_mono_1 z 1 7 Hz ltac:(lia)). pose proof (pow_mono_1 z 2 7 Hz ltac:(lia)). pose proof (pow_mono_1 z 3 7 Hz ltac:(lia)).
      pose proof (pow_mono_1 z 4 7 Hz ltac:(lia)). pose proof (pow_mono_1 z 5 7 Hz ltac:(lia)). pose proof (pow_mono_1 z 6 7 Hz ltac:(lia)). rewrite pow_1 in *.
      pose proof (pow_le z 2 ltac:(lra)). pose proof (pow_le z 3 ltac:(lra)). pose proof (pow_le z 4 ltac:(lra)). pose proof (pow_le z 5 ltac:(lra)). pose proof (pow_le z 6 ltac:(lra)).
      unfold amplification. apply Rabs_le. lra. }
    replace (3 * (x * z ^ 7)) with (x * (3 * z ^ 7)) by ring. apply Rmult_le_compat_l; lra.
Qed.

(** C103, refuted: the tolerance does not bound the local error.  For every tolerance, longest step and bound there is a
    confined aquifer without wells in which a trace takes one accepted step to the end and arrives farther than the bound
    from where the water came from. *)
Lemma c103_refuted : forall tol maxstep B : R, 0 < tol -> 0 < maxstep ->
  exists (m : model R) (x : R) (q : pt) (Z : R -> pt),
    physical m /\ wells m = [] /\
    compute_backtrace 2 (Fin x) (Fin 0) (Fin (1 / 10)) (Fin tol) (Fin maxstep) (feval true (fmodel m)) =
      Ok {| vertices := [fvec (x, 0); fvec q]; t_end := Fin (1 / 10); completed := true |} /\
    Z 0 = (x, 0) /\ moves (feval true (fmodel m)) Z (1 / 10) /\ B < pdist q (Z (1 / 10)).
Proof.
  intros tol maxstep B Ht Hm. set (d := Rmin tol maxstep).
  assert (Hd : 0 < d) by (unfold d; apply Rmin_glb_lt; assumption). assert (Hd1 : d <= tol) by apply Rmin_l. assert (Hd2 : d <= maxstep) by apply Rmin_r.
  set (z := 362880 + 4 * Rabs B / d + 4).
  assert (HB : 0 <= Rabs B / d) by (apply Rmult_le_pos; [apply Rabs_pos|left; now apply Rinv_0_lt_compat]).
  assert (Hz : 362884 <= z) by (unfold z; lra). set (x := d / (4 * z ^ 7)).
  assert (P7 : 0 < z ^ 7) by (apply pow_lt; lra).
  assert (Hx : 0 < x) by (apply Rdiv_lt_0_compat; lra). assert (Ex : x * z ^ 7 = d / 4) by (unfold x; field; lra).
  exists (apart z), x, (x * amplification z, 0), (fun t => (x * exp (10 * z * t), 0)).
  assert (PH : physical (apart z)) by (unfold physical, apart; cbn; lra).
  split; [exact PH|]. split; [reflexivity|]. split; [|split; [|split]].
  - destruct (apart_step z x ltac:(lra) Hx) as (k7 & est & ds & S & S1 & S2). rewrite Ex in S1, S2.
    unfold compute_backtrace. rewrite sign_one by lra. change (Fin x, Fin 0) with (fvec (x, 0)). rewrite apart_feval. cbn [fst trace_loop].
    change (@nZ xr XR 0) with (Fin 0). rewrite (proj2 (nabs_lt 0 (1 / 10))) by (rewrite Rabs_R0, Rabs_pos_eq; lra).
    assert (C1 : nlt (nabs (Fin (1 / 10))) (nabs (nadd (Fin 0) (Fin (1 / 10)))) = false) by (cbn; apply Rltb_false; rewrite !Rabs_pos_eq by lra; lra).
    rewrite C1, S. assert (A : nlt (Fin est) (Fin tol) && nlt (Fin ds) (Fin maxstep) = true) by (cbn; apply andb_true_intro; split; apply Rltb_true; lra).
    rewrite A. cbn [nadd XR xadd nZ]. rewrite Rplus_0_l.
    assert (C2 : nlt (nabs (Fin (1 / 10))) (nabs (Fin (1 / 10))) = false) by (cbn; apply Rltb_false; lra). rewrite C2. reflexivity.
  - rewrite Rmult_0_r, exp_0, Rmult_1_r. reflexivity.
  - intros t _. exists (10 * z * (x * exp (10 * z * t)), 0). rewrite apart_feval. split; [reflexivity|]. cbn [fst snd]. split; [|apply derivable_pt_lim_const].
    eapply deriv_val; [apply (derivable_pt_lim_scal (fun s => exp (10 * z * s)) x), deriv_exp|]. ring.
  - replace (10 * z * (1 / 10)) with z by field. unfold pdist. cbn [fst snd].
    replace ((x * exp z - x * amplification z) * (x * exp z - x * amplification z) + (0 - 0) * (0 - 0)) with (Rsqr (x * (exp z - amplification z))) by (unfold Rsqr; ring).
    rewrite sqrt_Rsqr_abs. eapply Rlt_le_trans; [|apply Rle_abs].
    assert (X : z ^ 9 / 362880 + amplification z - z ^ 6 <= exp z).
    { pose proof (exp_above 9 z ltac:(lra)) as E. eapply Rle_trans; [|exact E]. cbn [sum_f_R0].
      assert (F : INR (fact 0) = 1 /\ INR (fact 1) = 1 /\ INR (fact 2) = 2 /\ INR (fact 3) = 6 /\ INR (fact 4) = 24 /\ INR (fact 5) = 120 /\ INR (fact 6) = 720).
      { cbn; repeat split; ring. }
      destruct F as (-> & -> & -> & -> & -> & -> & ->).
      assert (F : INR (fact 7) = 5040 /\ INR (fact 8) = 40320 /\ INR (fact 9) = 362880) by (rewrite !INR_IZR_INZ; repeat split; f_equal; vm_compute; reflexivity).
      destruct F as (-> & -> & ->).
      pose proof (pow_le z 6 ltac:(lra)). pose proof (pow_le z 7 ltac:(lra)). pose proof (pow_le z 8 ltac:(lra)). unfold amplification. rewrite pow_1, pow_O. lra. }
    assert (Y : z ^ 7 * (z - 1) <= exp z - amplification z).
    { eapply Rle_trans; [|apply Rplus_le_compat_r; exact X]. replace (z ^ 9) with (z ^ 7 * (z * z)) by ring. replace (z ^ 7) with (z ^ 6 * z) in * by ring.
      pose proof (pow_le z 6 ltac:(lra)) as P6. assert (z <= z * z / 362880) by nra. assert (z ^ 6 <= z ^ 6 * z) by nra. nra. }
    apply Rlt_le_trans with (x * (z ^ 7 * (z - 1))); [|apply Rmult_le_compat_l; lra].
    rewrite <- Rmult_assoc, Ex. assert (z - 1 > 4 * Rabs B / d) by (unfold z; lra).
    apply Rle_lt_trans with (Rabs B); [apply Rle_abs|]. replace (Rabs B) with (d / 4 * (4 * Rabs B / d)) by (field; lra). apply Rmult_lt_compat_l; lra.
Qed.
