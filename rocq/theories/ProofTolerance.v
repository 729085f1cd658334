(** * When the tolerance bounds the local error (C103) *)
From Coq Require Import Reals Lra Lia Psatz List.
From Verif Require Import Py Num NumXR ModelAquifer ModelTrace ModelDriver SpecAquifer SpecTrace SpecPathline
  ProofAquifer ProofTrace ProofTraceLoop ProofTraceFlow ProofTraceEx ProofTraceGrow ProofPathline ProofPathAffine ProofPathTube ProofPicard ProofPathProgram.
Import ListNotations.
Local Open Scope R_scope.

Lemma linear_growth A L (w : R -> pt) a b : stretch A L -> a <= b ->
  (forall t, a <= t <= b -> derivable_pt_lim (fun s => fst (w s)) t (fst (lin A (w t))) /\ derivable_pt_lim (fun s => snd (w s)) t (snd (lin A (w t)))) ->
  pnorm (w b) <= pnorm (w a) * exp (L * (b - a)).
Proof.
  intros HS Hab W.
  pose proof (gronwall (fun t => fst (w t) * fst (w t) + snd (w t) * snd (w t))
    (fun t => 2 * (fst (w t) * fst (lin A (w t)) + snd (w t) * snd (lin A (w t)))) (2 * L) a b Hab) as G. cbn beta in G.
  apply le_of_sq; [apply Rmult_le_pos; [apply pnorm_pos|left; apply exp_pos]|].
  replace (pnorm (w a) * exp (L * (b - a)) * (pnorm (w a) * exp (L * (b - a)))) with
    ((pnorm (w a) * pnorm (w a)) * (exp (L * (b - a)) * exp (L * (b - a)))) by ring.
  rewrite <- exp_plus, !pnorm_sq. replace (L * (b - a) + L * (b - a)) with (2 * L * (b - a)) by ring. apply G.
  - intros t Ht. destruct (W t ltac:(lra)) as [W1 W2].
    pose proof (derivable_pt_lim_plus _ _ t _ _ (derivable_pt_lim_mult _ _ t _ _ W1 W1) (derivable_pt_lim_mult _ _ t _ _ W2 W2)) as K.
    eapply deriv_val; [exact K|]. cbv beta. ring.
  - intros t Ht. pose proof (inner_le (w t) (lin A (w t))) as I. pose proof (HS (w t)) as Q. pose proof (pnorm_pos (w t)) as P.
    rewrite <- pnorm_sq. nra.
Qed.

(** The error estimate of a step in an affine field. *)
Lemma step_estimate A f tol maxstep p h q : (forall r, f (fvec r) = Ok (fvec (flow A r))) -> good_step f tol maxstep p h q ->
  below (pmax (lincomb [-97 / 120000 * h ^ 5; 13 / 40000 * h ^ 6; -1 / 24000 * h ^ 7] (map (fun n => flow_derivative A n p) [4; 5; 6]%nat))) tol.
Proof.
  intros Hf (ks & (HL & HK) & _ & B & _).
  set (w0 := flow A p). set (w1 := lin A w0). set (w2 := lin A w1). set (w3 := lin A w2). set (w4 := lin A w3). set (w5 := lin A w4). set (w6 := lin A w5).
  change (map (fun n => flow_derivative A n p) [4; 5; 6]%nat) with [w4; w5; w6].
  assert (LA : forall c ks, lin A (lincomb c ks) = lincomb c (map (lin A) ks)).
  { induction c as [|x c IH]; intros ks'; [unfold lin, lincomb; cbn; f_equal; ring|]. destruct ks' as [|k ks']; [unfold lin, lincomb; cbn; f_equal; ring|].
    change (lincomb (x :: c) (k :: ks')) with (padd (pscale x k) (lincomb c ks')). rewrite lin_add, lin_scale, IH. reflexivity. }
  assert (G : forall c ks, flow A (padd p (pscale h (lincomb c ks))) = padd w0 (pscale h (lincomb c (map (lin A) ks)))).
  { intros c ks'. rewrite flow_step, LA. reflexivity. }
  do 7 (destruct ks as [|? ks]; [discriminate|]). destruct ks; [|discriminate].
  assert (Q : forall i, (i < 7)%nat -> nth i [p0; p1; p2; p3; p4; p5; p6] (0, 0) = padd w0 (pscale h (lincomb (nth i dp_a []) (map (lin A) (firstn i [p0; p1; p2; p3; p4; p5; p6]))))).
  { intros i Hi. specialize (HK i Hi). rewrite Hf, G in HK. symmetry. apply fvec_inj. congruence. }
  pose proof (Q 0%nat ltac:(lia)) as N1. pose proof (Q 1%nat ltac:(lia)) as N2. pose proof (Q 2%nat ltac:(lia)) as N3. pose proof (Q 3%nat ltac:(lia)) as N4.
  pose proof (Q 4%nat ltac:(lia)) as N5. pose proof (Q 5%nat ltac:(lia)) as N6. pose proof (Q 6%nat ltac:(lia)) as N7. clear Q HK HL.
  cbn [nth dp_a firstn map] in *.
  assert (E1 : p0 = lincomb [1] [w0]). { rewrite N1. clearbody w0. clear. unfold lincomb, padd, pscale. cbn. destruct w0. cbn. f_equal; ring. }
  clear N1. subst p0.
  assert (E2 : p1 = lincomb [1; h / 5] [w0; w1]).
  { rewrite N2, !LA. cbn [map]. fold w1. clearbody w1 w0. clear. unfold lincomb, padd, pscale. cbn. f_equal; field. }
  clear N2. subst p1.
  assert (E3 : p2 = lincomb [1; 3 / 10 * h; 9 / 200 * h ^ 2] [w0; w1; w2]).
  { rewrite N3, !LA. cbn [map]. fold w1. fold w2. clearbody w2 w1 w0. clear. unfold lincomb, padd, pscale. cbn. f_equal; field. }
  clear N3. subst p2.
  assert (E4 : p3 = lincomb [1; 4 / 5 * h; 8 / 25 * h ^ 2; 4 / 25 * h ^ 3] [w0; w1; w2; w3]).
  { rewrite N4, !LA. cbn [map]. fold w1. fold w2. fold w3. clearbody w3 w2 w1 w0. clear. unfold lincomb, padd, pscale. cbn. f_equal; field. }
  clear N4. subst p3.
  assert (E5 : p4 = lincomb [1; 8 / 9 * h; 32 / 81 * h ^ 2; 424 / 1215 * h ^ 3; -848 / 18225 * h ^ 4] [w0; w1; w2; w3; w4]).
  { rewrite N5, !LA. cbn [map]. fold w1. fold w2. fold w3. fold w4. clearbody w4 w3 w2 w1 w0. clear. unfold lincomb, padd, pscale. cbn. f_equal; field. }
  clear N5. subst p4.
  assert (E6 : p5 = lincomb [1; h; 1 / 2 * h ^ 2; 21 / 55 * h ^ 3; -14 / 275 * h ^ 4; 7 / 550 * h ^ 5] [w0; w1; w2; w3; w4; w5]).
  { rewrite N6, !LA. cbn [map]. fold w1. fold w2. fold w3. fold w4. fold w5. clearbody w5 w4 w3 w2 w1 w0. clear. unfold lincomb, padd, pscale. cbn. f_equal; field. }
  clear N6. subst p5.
  assert (E7 : p6 = lincomb [1; h; 1 / 2 * h ^ 2; 1 / 6 * h ^ 3; 1 / 24 * h ^ 4; 1 / 120 * h ^ 5; 1 / 600 * h ^ 6] [w0; w1; w2; w3; w4; w5; w6]).
  { rewrite N7, !LA. cbn [map]. fold w1. fold w2. fold w3. fold w4. fold w5. fold w6. clearbody w6 w5 w4 w3 w2 w1 w0. clear. unfold lincomb, padd, pscale. cbn. f_equal; field. }
  clear N7. subst p6.
  match type of B with below (pmax ?v) _ => assert (E : v = lincomb [-97 / 120000 * h ^ 5; 13 / 40000 * h ^ 6; -1 / 24000 * h ^ 7] [w4; w5; w6]) end.
  { clearbody w6 w5 w4 w3 w2 w1 w0. clear. unfold lincomb, dp_b, dp_bhat, padd, pscale. cbn. f_equal; field. }
  now rewrite E in B.
Qed.

(** The error of a step in an affine field: the difference of the sixth derivatives, and the rest of the Taylor series. *)
Lemma step_error A L Z D a h : stretch A L -> pathline (flow A) Z D -> 0 <= a -> 0 <= h -> a + h <= D ->
  pnorm (psub (Z (a + h)) (dp_map A h (Z a))) <=
  h ^ 6 / 3600 * (L * pnorm (flow_derivative A 4 (Z a))) + L ^ 2 * pnorm (flow_derivative A 4 (Z a)) * exp (L * h) * h ^ 7 / 5040.
Proof.
  intros HS HZ Ha Hh HD. pose proof (stretch_nonneg A L HS) as HL. set (n4 := pnorm (flow_derivative A 4 (Z a))). assert (H4 : 0 <= n4) by apply pnorm_pos.
  set (M := L ^ 2 * n4 * exp (L * h)).
  assert (HM : 0 <= M) by (unfold M; apply Rmult_le_pos; [apply Rmult_le_pos; [now apply pow_le|exact H4]|left; apply exp_pos]).
  set (full := padd (Z a) (lincomb [h; h ^ 2 / 2; h ^ 3 / 6; h ^ 4 / 24; h ^ 5 / 120; h ^ 6 / 720] (map (fun n => flow_derivative A n (Z a)) [0; 1; 2; 3; 4; 5]%nat))).
  assert (T1 : pnorm (psub (Z (a + h)) full) <= M * h ^ 7 / 5040).
  { apply pnorm_direction; [apply Rmult_le_pos; [apply Rmult_le_pos; [exact HM|now apply pow_le]|lra]|]. intros u Hu.
    set (g := fun k s => match k with O => fst u * fst (Z s) + snd u * snd (Z s)
                         | S n => fst u * fst (flow_derivative A n (Z s)) + snd u * snd (flow_derivative A n (Z s)) end).
    pose proof (taylor_bound 6 g a (a + h) M ltac:(lra)) as T.
    replace (a + h - a) with h in T by ring.
    assert (F7 : INR (fact 7) = 5040) by (rewrite INR_IZR_INZ; reflexivity). rewrite F7 in T.
    eapply Rle_trans; [right|apply T].
    - unfold taylor. cbn [sum_f_R0]. replace (a + h - a) with h by ring.
      assert (F : INR (fact 0) = 1 /\ INR (fact 1) = 1 /\ INR (fact 2) = 2 /\ INR (fact 3) = 6 /\ INR (fact 4) = 24 /\ INR (fact 5) = 120 /\ INR (fact 6) = 720) by (cbn; repeat split; ring).
      destruct F as (-> & -> & -> & -> & -> & -> & ->). unfold g, full, psub, padd, lincomb, pscale. cbn [map combine fold_right fst snd padd].
      generalize (flow_derivative A 0 (Z a)) (flow_derivative A 1 (Z a)) (flow_derivative A 2 (Z a)) (flow_derivative A 3 (Z a)) (flow_derivative A 4 (Z a)) (flow_derivative A 5 (Z a)).
      intros d0 d1 d2 d3 d4 d5. unfold padd. cbn [fst snd]. field.
    - intros k t Hk Ht.
      assert (LIN : forall v w (dv dw : R), derivable_pt_lim v t dv -> derivable_pt_lim w t dw ->
              derivable_pt_lim (fun s => fst u * v s + snd u * w s) t (fst u * dv + snd u * dw)).
      { intros v w dv dw Hv Hw. exact (derivable_pt_lim_plus _ _ _ _ _ (derivable_pt_lim_scal v (fst u) t dv Hv) (derivable_pt_lim_scal w (snd u) t dw Hw)). }
      destruct k as [|k]; cbn [g].
      + destruct (HZ t ltac:(lra)) as [H1 H2]. exact (LIN _ _ _ _ H1 H2).
      + destruct (derivatives A Z D HZ k t ltac:(lra)) as [H1 H2]. exact (LIN _ _ _ _ H1 H2).
    - intros t Ht. cbn [g]. eapply Rle_trans; [apply inner_le|]. rewrite Hu, Rmult_1_l.
      change (flow_derivative A 6 (Z t)) with (Nat.iter 2 (lin A) (flow_derivative A 4 (Z t))). eapply Rle_trans; [apply (iter_norm A L 2 _ HS)|].
      unfold M. rewrite Rmult_assoc. apply Rmult_le_compat_l; [now apply pow_le|].
      pose proof (linear_growth A L (fun s => flow_derivative A 4 (Z s)) a t HS ltac:(lra)) as LG. cbv beta in LG.
      eapply Rle_trans; [apply LG|].
      + intros s Hs. exact (derivatives A Z D HZ 4 s ltac:(lra)).
      + fold n4. apply Rmult_le_compat_l; [exact H4|].
        destruct (Req_dec (L * (t - a)) (L * h)) as [->|NE]; [lra|]. left. apply exp_increasing. assert (L * (t - a) <= L * h) by (apply Rmult_le_compat_l; lra). lra. }
  assert (E : psub (Z (a + h)) (dp_map A h (Z a)) = padd (psub (Z (a + h)) full) (pscale (- (h ^ 6 / 3600)) (flow_derivative A 5 (Z a)))).
  { unfold dp_map, full. cbn [map].
    generalize (flow_derivative A 0 (Z a)) (flow_derivative A 1 (Z a)) (flow_derivative A 2 (Z a)) (flow_derivative A 3 (Z a)) (flow_derivative A 4 (Z a)) (flow_derivative A 5 (Z a)).
    intros. unfold lincomb, psub, padd, pscale. cbn. f_equal; field. }
  rewrite E. eapply Rle_trans; [apply pnorm_add|]. rewrite pnorm_scale, Rabs_Ropp. pose proof (pow_le h 6 Hh) as P6. rewrite (Rabs_pos_eq (h ^ 6 / 3600)) by lra.
  change (flow_derivative A 5 (Z a)) with (lin A (flow_derivative A 4 (Z a))). pose proof (HS (flow_derivative A 4 (Z a))) as S5. fold n4 in S5.
  rewrite Rplus_comm. apply Rplus_le_compat; [apply Rmult_le_compat_l; [lra|exact S5]|exact T1].
Qed.

(** If the step is short against the change of the velocity, the error is at most half of the estimate. *)
Lemma error_estimate A L Z D a h : stretch A L -> pathline (flow A) Z D -> 0 <= a -> 0 <= h -> a + h <= D -> h * L <= 1 / 2 ->
  2 * pnorm (psub (Z (a + h)) (dp_map A h (Z a))) <=
  pmax (lincomb [-97 / 120000 * h ^ 5; 13 / 40000 * h ^ 6; -1 / 24000 * h ^ 7] (map (fun n => flow_derivative A n (Z a)) [4; 5; 6]%nat)).
Proof.
  intros HS HZ Ha Hh HD HL2. pose proof (stretch_nonneg A L HS) as HL. pose proof (step_error A L Z D a h HS HZ Ha Hh HD) as SE.
  set (e := pnorm (psub _ _)) in *. assert (He : 0 <= e) by apply pnorm_pos.
  cbn [map]. set (w4 := flow_derivative A 4 (Z a)) in *. set (w5 := flow_derivative A 5 (Z a)). set (w6 := flow_derivative A 6 (Z a)).
  assert (H5 : pnorm w5 <= L * pnorm w4) by exact (HS w4). assert (H6 : pnorm w6 <= L ^ 2 * pnorm w4) by exact (iter_norm A L 2 w4 HS).
  set (n4 := pnorm w4) in *. assert (H4 : 0 <= n4) by apply pnorm_pos.
  set (E := lincomb _ _). set (x := h * L) in *. assert (Hx : 0 <= x) by (unfold x; apply Rmult_le_pos; assumption).
  pose proof (pow_le h 5 Hh) as P5. pose proof (pow_le h 6 Hh) as P6. pose proof (pow_le h 7 Hh) as P7.
  set (om := h ^ 5 * n4). assert (Hom : 0 <= om) by (unfold om; apply Rmult_le_pos; assumption).
  (* the estimate is large *)
  assert (LE : 305 / 480000 * om <= pnorm E).
  { assert (TR : 97 / 120000 * om <= pnorm E + (13 / 40000 * (h ^ 6 * (L * n4)) + 1 / 24000 * (h ^ 7 * (L ^ 2 * n4)))).
    { assert (EQ : pscale (-97 / 120000 * h ^ 5) w4 = padd E (padd (pscale (- (13 / 40000 * h ^ 6)) w5) (pscale (1 / 24000 * h ^ 7) w6))).
      { unfold E, lincomb. cbn [combine fold_right fst snd]. clearbody w4 w5 w6. clear. unfold padd, pscale. cbn [fst snd]. f_equal; field. }
      assert (EN : pnorm (pscale (-97 / 120000 * h ^ 5) w4) = 97 / 120000 * om).
      { rewrite pnorm_scale. fold n4. replace (-97 / 120000 * h ^ 5) with (- (97 / 120000 * h ^ 5)) by field. rewrite Rabs_Ropp, Rabs_pos_eq by lra. unfold om. ring. }
      rewrite <- EN, EQ. eapply Rle_trans; [apply pnorm_add|]. apply Rplus_le_compat_l. eapply Rle_trans; [apply pnorm_add|]. rewrite !pnorm_scale, Rabs_Ropp, !Rabs_pos_eq by lra.
      rewrite !Rmult_assoc. apply Rplus_le_compat; (apply Rmult_le_compat_l; [lra|]); (apply Rmult_le_compat_l; assumption). }
    replace (h ^ 6 * (L * n4)) with (x * om) in TR by (unfold x, om; ring). replace (h ^ 7 * (L ^ 2 * n4)) with (x * (x * om)) in TR by (unfold x, om; ring).
    assert (X1 : x * om <= 1 / 2 * om) by (apply Rmult_le_compat_r; assumption).
    assert (X2 : x * (x * om) <= 1 / 2 * (1 / 2 * om)) by (apply Rmult_le_compat; [exact Hx|apply Rmult_le_pos; assumption|exact HL2|exact X1]). lra. }
  (* the error is small *)
  assert (SM : e <= (1 / 7200 + 17 / 201600) * om).
  { replace (h ^ 6 / 3600 * (L * n4)) with (/ 3600 * (x * om)) in SE by (unfold x, om; field).
    replace (L ^ 2 * n4 * exp (L * h) * h ^ 7 / 5040) with (/ 5040 * (x * (x * om)) * exp x) in SE by (unfold x, om; rewrite (Rmult_comm L h); field).
    assert (X1 : x * om <= 1 / 2 * om) by (apply Rmult_le_compat_r; assumption).
    assert (X0 : 0 <= x * (x * om)) by (apply Rmult_le_pos; [exact Hx|apply Rmult_le_pos; assumption]).
    assert (X2 : x * (x * om) <= 1 / 2 * (1 / 2 * om)) by (apply Rmult_le_compat; [exact Hx|apply Rmult_le_pos; assumption|exact HL2|exact X1]).
    assert (XE : exp x <= 17 / 10).
    { assert (Q : exp (1 / 2) <= 17 / 10).
      { apply le_of_sq; [lra|]. rewrite <- exp_plus. replace (1 / 2 + 1 / 2) with 1 by field.
        assert (B : exp 1 * exp (-1) = 1) by (rewrite <- exp_plus; replace (1 + -1) with 0 by ring; apply exp_0).
        assert (LO : 100 / 289 <= exp (-1)).
        { assert (V : 225 / 256 <= exp (- (1 / 8))).
          { replace (- (1 / 8)) with (- (1 / 16) + - (1 / 16)) by field. rewrite exp_plus. pose proof (exp_ineq1_le (- (1 / 16))) as V.
            replace (225 / 256) with (15 / 16 * (15 / 16)) by field. apply Rmult_le_compat; lra. }
          assert (Y : (225 / 256) ^ 8 <= exp (-1)).
          { replace (-1) with (8 * (- (1 / 8))) by field. replace (exp (8 * - (1 / 8))) with (exp (- (1 / 8)) ^ 8).
            - apply pow_incr. split; [lra|exact V].
            - replace (8 * - (1 / 8)) with (- (1 / 8) + (- (1 / 8) + (- (1 / 8) + (- (1 / 8) + (- (1 / 8) + (- (1 / 8) + (- (1 / 8) + - (1 / 8)))))))) by field. rewrite !exp_plus. ring. }
          lra. }
        pose proof (exp_pos 1). nra. }
      destruct (Req_dec x (1 / 2)) as [->|NE]; [exact Q|]. pose proof (exp_increasing x (1 / 2) ltac:(lra)). lra. }
    assert (X3 : x * (x * om) * exp x <= 1 / 2 * (1 / 2 * om) * (17 / 10)) by (apply Rmult_le_compat; [exact X0|left; apply exp_pos|exact X2|exact XE]).
    lra. }
  (* the two norms *)
  assert (PM : pnorm E * pnorm E <= 2 * (pmax E * pmax E)).
  { rewrite pnorm_sq. unfold pmax. pose proof (Rmax_l (Rabs (fst E)) (Rabs (snd E))) as M1. pose proof (Rmax_r (Rabs (fst E)) (Rabs (snd E))) as M2.
    set (m := Rmax _ _) in *. assert (S1 : fst E * fst E <= m * m) by (rewrite <- (Rabs_pos_eq (fst E * fst E)), Rabs_mult by (apply Rle_0_sqr); apply Rmult_le_compat; try apply Rabs_pos; assumption).
    assert (S2 : snd E * snd E <= m * m) by (rewrite <- (Rabs_pos_eq (snd E * snd E)), Rabs_mult by (apply Rle_0_sqr); apply Rmult_le_compat; try apply Rabs_pos; assumption). lra. }
  assert (HP : 0 <= pmax E) by (unfold pmax; eapply Rle_trans; [apply (Rabs_pos (fst E))|apply Rmax_l]).
  apply le_of_sq; [exact HP|].
  assert (R1 : e <= 3514 / 10000 * pnorm E) by lra.
  assert (R2 : e * e <= 3514 / 10000 * pnorm E * (3514 / 10000 * pnorm E)) by (apply Rmult_le_compat; assumption).
  pose proof (Rmult_le_pos _ _ HP HP) as PP. lra.
Qed.

Lemma good_step_error A L f e maxstep p h q W : (forall r, f (fvec r) = Ok (fvec (flow A r))) -> stretch A L -> good_step f (Fin e) maxstep p h q ->
  0 <= h -> h * L <= 1 / 2 -> pathline (flow A) W h -> W 0 = p -> pdist q (W h) < e / 2.
Proof.
  intros Hf HS G Hh HL HW W0. pose proof (step_estimate A f _ _ _ _ _ Hf G) as B. apply (good_step_affine A) in G; [|exact Hf].
  pose proof (error_estimate A L W h 0 h HS HW (Rle_refl 0) Hh ltac:(lra) HL) as E. rewrite Rplus_0_l, W0 in E. rewrite G, pdist_norm.
  cbn [below] in B. eapply Rmult_lt_reg_l with 2; [lra|]. eapply Rle_lt_trans; [exact E|]. lra.
Qed.

(** The path of an affine field from any point. *)
Lemma affine_path A L T q : stretch A L -> 0 <= T -> exists W, W 0 = q /\ pathline (flow A) W T.
Proof.
  intros HS HT. apply (picard_path (flow A) L T q HT (stretch_nonneg A L HS)). intros a b.
  change (flow A a) with (flow_derivative A 0 a). change (flow A b) with (flow_derivative A 0 b). rewrite derivative_sub. cbn [Nat.iter].
  rewrite pdist_norm, pnorm_sub_sym. apply HS.
Qed.

(** Two paths separate no faster than the stretching. *)
Lemma paths_apart A L W Z h s : stretch A L -> 0 <= h -> 0 <= s -> pathline (flow A) W h -> pathline (flow A) Z (s + h) ->
  pdist (W h) (Z (s + h)) <= pdist (W 0) (Z s) * exp (L * h).
Proof.
  intros HS Hh Hs HW HZ. rewrite !pdist_norm. pose proof (linear_growth A L (fun t => psub (Z (s + t)) (W t)) 0 h HS Hh) as G. cbv beta in G.
  rewrite Rminus_0_r, Rplus_0_r in G. apply G. intros t Ht.
  destruct (HW t Ht) as [W1 W2]. destruct (HZ (s + t) ltac:(lra)) as [Z1 Z2].
  assert (SH : forall g d, derivable_pt_lim g (s + t) d -> derivable_pt_lim (fun x => g (s + x)) t d).
  { intros g d Dg. pose proof (derivable_pt_lim_plus _ _ t _ _ (derivable_pt_lim_const s t) (derivable_pt_lim_id t)) as I.
    pose proof (derivable_pt_lim_comp _ g t _ _ I Dg) as C. eapply deriv_val; [exact C|]. ring. }
  pose proof (derivable_pt_lim_minus _ _ _ _ _ (SH _ _ Z1) W1) as M1. pose proof (derivable_pt_lim_minus _ _ _ _ _ (SH _ _ Z2) W2) as M2.
  pose proof (derivative_sub A 0 (Z (s + t)) (W t)) as DS. cbn [Nat.iter nat_rect] in DS. unfold flow_derivative in DS. cbn [Nat.iter nat_rect] in DS. rewrite <- DS.
  exact (conj M1 M2).
Qed.

(** C103 for short steps in a confined aquifer without wells: on the time scale of the flow (the reciprocal of the rate [L]
    at which it spreads), a step that takes at most half of it and is accepted ends within half the tolerance of the
    particle that leaves its first vertex. *)
Lemma c103_local_partial : forall (m : model R) (fuel : nat) (p : pt) (D e : R) (maxstep : xr) (tr : trace xr),
  physical m -> wells m = [] -> 0 <= D ->
  compute_backtrace fuel (Fin (fst p)) (Fin (snd p)) (Fin D) (Fin e) maxstep (feval true (fmodel m)) = Ok tr ->
  let c := coef m in
  let L := sqrt (4 * cA c ^ 2 + 2 * cC c ^ 2 + 4 * cB c ^ 2) / (porosity m * thickness m) in
  exists l ts, clocked (feval true (fmodel m)) (Fin e) maxstep D tr l ts /\
    forall i, (S i < length l)%nat -> let h := nth (S i) ts 0 - nth i ts 0 in h * L <= 1 / 2 ->
      exists W, W 0 = nth i l (0, 0) /\ moves (feval true (fmodel m)) W h /\ pdist (nth (S i) l (0, 0)) (W h) < e / 2.
Proof.
  intros m fuel p D e maxstep tr Hm Hw HD Hr c L. pose proof (c44_confined_affine m Hm Hw) as Hf. cbv zeta in Hf.
  set (A := {| axx := _ |}) in Hf. assert (Hs : 0 < porosity m * thickness m) by (destruct Hm as (_ & ? & ?); nra).
  assert (HS : stretch A L).
  { pose proof (frobenius A) as F. assert (E : sqrt (axx A * axx A + axy A * axy A + ayx A * ayx A + ayy A * ayy A) = L); [|now rewrite E in F].
    unfold L. rewrite <- (sqrt_square (porosity m * thickness m)) at 1 by lra. rewrite <- sqrt_div by nra. f_equal. unfold A, c. cbn [axx axy ayx ayy]. field.
    destruct Hm as (_ & ? & ?). split; lra. }
  destruct (affine_path A L D p HS HD) as (Z & Z0 & HZ).
  destruct (c104_affine A L _ fuel p D (Fin e) maxstep tr Z Hf HS HD HZ Z0 Hr) as (l & ts & CK & _). exists l, ts. split; [exact CK|].
  intros i Hi h Hh. destruct (td_step _ _ _ _ _ _ _ CK i Hi) as [[T1 T2] G]. fold h in G. assert (P : 0 <= h) by (unfold h; lra).
  destruct (affine_path A L h (nth i l (0, 0)) HS P) as (W & W0 & HW). exists W. split; [exact W0|]. split.
  - intros t Ht. exists (flow A (W t)). split; [apply Hf|]. exact (HW t Ht).
  - exact (good_step_error A L _ e maxstep _ h _ W Hf HS G P Hh HW W0).
Qed.

(** And along a trace of such steps the errors add up to at most half the tolerance for each step, times the spreading of the
    flow. *)
Lemma c103_trace_partial : forall (m : model R) (fuel : nat) (p : pt) (D e : R) (maxstep : xr) (tr : trace xr) (Z : R -> pt),
  physical m -> wells m = [] -> 0 <= D -> moves (feval true (fmodel m)) Z D -> Z 0 = p ->
  compute_backtrace fuel (Fin (fst p)) (Fin (snd p)) (Fin D) (Fin e) maxstep (feval true (fmodel m)) = Ok tr ->
  let c := coef m in
  let L := sqrt (4 * cA c ^ 2 + 2 * cC c ^ 2 + 4 * cB c ^ 2) / (porosity m * thickness m) in
  exists l ts, clocked (feval true (fmodel m)) (Fin e) maxstep D tr l ts /\
    forall H, steps_within H ts -> H * L <= 1 / 2 -> forall i, (i < length l)%nat ->
      let t := nth i ts 0 in pdist (nth i l (0, 0)) (Z t) <= INR i * (e / 2) * exp (L * t).
Proof.
  intros m fuel p D e maxstep tr Z Hm Hw HD HZ H0 Hr c L. pose proof (c44_confined_affine m Hm Hw) as Hf. cbv zeta in Hf.
  set (A := {| axx := _ |}) in Hf. assert (Hs : 0 < porosity m * thickness m) by (destruct Hm as (_ & ? & ?); nra).
  assert (HS : stretch A L).
  { pose proof (frobenius A) as F. assert (E : sqrt (axx A * axx A + axy A * axy A + ayx A * ayx A + ayy A * ayy A) = L); [|now rewrite E in F].
    unfold L. rewrite <- (sqrt_square (porosity m * thickness m)) at 1 by lra. rewrite <- sqrt_div by nra. f_equal. unfold A, c. cbn [axx axy ayx ayy]. field.
    destruct Hm as (_ & ? & ?). split; lra. }
  assert (HP : pathline (flow A) Z D).
  { intros t Ht. destruct (HZ t Ht) as (u & E & D1 & D2). rewrite Hf in E. assert (X : fvec (flow A (Z t)) = fvec u) by congruence. apply fvec_inj in X. now rewrite X. }
  pose proof (stretch_nonneg A L HS) as HL.
  destruct (c104_affine A L _ fuel p D (Fin e) maxstep tr Z Hf HS HD HP H0 Hr) as (l & ts & CK & _). exists l, ts. split; [exact CK|].
  intros H HH HHL. pose proof (td_length _ _ _ _ _ _ _ CK) as EL. pose proof (td_start _ _ _ _ _ _ _ CK) as E0.
  assert (P0 : nth 0 l (0, 0) = p).
  { destruct (timed_trace _ _ _ _ _ _ _ HD Hr) as (l' & ts' & V & _ & _ & _ & _ & N & _). pose proof (td_vertices _ _ _ _ _ _ _ CK) as V'. rewrite V in V'.
    rewrite <- N. clear - V'. destruct l as [|a l], l' as [|b l']; try discriminate; [reflexivity|]. cbn in *. apply fvec_inj. congruence. }
  assert (IT : forall i, (i < length l)%nat -> 0 <= nth i ts 0).
  { induction i as [|i IHi]; intros Hi; [rewrite E0; lra|]. specialize (IHi ltac:(lia)). destruct (td_step _ _ _ _ _ _ _ CK i Hi) as [[T1 T2] _]. lra. }
  induction i as [|i IH]; intros Hi t.
  { unfold t. rewrite E0, P0, H0, pdist_norm. replace (psub p p) with ((0, 0) : pt) by (unfold psub; f_equal; ring). rewrite pnorm_0. cbn [INR]. lra. }
  specialize (IH ltac:(lia)). cbv zeta in IH. destruct (td_step _ _ _ _ _ _ _ CK i Hi) as [[T1 T2] G]. fold t in T1, T2, G.
  pose proof (IT i ltac:(lia)) as T0. set (s := nth i ts 0) in *. set (h := t - s) in *. assert (Hh : 0 <= h) by (unfold h; lra). assert (Et : t = s + h) by (unfold h; ring).
  assert (HhH : h <= H) by (apply HH; rewrite EL; exact Hi).
  assert (HhL : h * L <= 1 / 2) by (eapply Rle_trans; [apply Rmult_le_compat_r; [exact HL|exact HhH]|exact HHL]).
  destruct (affine_path A L h (nth i l (0, 0)) HS Hh) as (W & W0 & HW).
  pose proof (good_step_error A L _ e maxstep _ h _ W Hf HS G Hh HhL HW W0) as LE.
  assert (HZ' : pathline (flow A) Z (s + h)) by (intros x Hx; apply HP; lra).
  pose proof (paths_apart A L W Z h s HS Hh T0 HW HZ') as AP. rewrite W0, <- Et in AP.
  pose proof (pdist_norm (nth (S i) l (0, 0)) (W h)) as PN. pose proof (pnorm_pos (psub (W h) (nth (S i) l (0, 0)))) as PP.
  assert (He : 0 <= e) by lra.
  assert (TI : pdist (nth (S i) l (0, 0)) (Z t) <= pdist (nth (S i) l (0, 0)) (W h) + pdist (W h) (Z t)).
  { rewrite !pdist_norm. eapply Rle_trans; [|rewrite Rplus_comm; apply pnorm_add]. right. f_equal. unfold psub, padd. cbn. f_equal; ring. }
  assert (X : exp (L * t) = exp (L * s) * exp (L * h)) by (rewrite <- exp_plus; f_equal; rewrite Et; ring).
  assert (X1 : 1 <= exp (L * t)).
  { rewrite <- exp_0. apply Rnot_lt_le. intros C. apply exp_lt_inv in C. assert (0 <= L * t) by (apply Rmult_le_pos; lra). lra. }
  assert (G1 : pdist (nth i l (0, 0)) (Z s) * exp (L * h) <= INR i * (e / 2) * exp (L * t)).
  { rewrite X, <- Rmult_assoc. apply Rmult_le_compat_r; [left; apply exp_pos|exact IH]. }
  assert (G2 : e / 2 <= e / 2 * exp (L * t)) by (rewrite <- (Rmult_1_r (e / 2)) at 1; apply Rmult_le_compat_l; lra).
  rewrite S_INR. lra.
Qed.

(** Water of the saddle for a tenth of a unit of time: any trace of it has short steps. *)
Lemma c103_saddle_example : physical saddle /\ wells saddle = [] /\ moves (feval true (fmodel saddle)) (fun t => (exp (2 * t), exp (-2 * t))) (1 / 10) /\
  (exists fuel tr, compute_backtrace fuel (Fin 1) (Fin 1) (Fin (1 / 10)) (Fin 1) (Fin 10) (feval true (fmodel saddle)) = Ok tr) /\
  (let c := coef saddle in 1 / 10 * (sqrt (4 * cA c ^ 2 + 2 * cC c ^ 2 + 4 * cB c ^ 2) / (porosity saddle * thickness saddle)) <= 1 / 2).
Proof.
  destruct c104_saddle_example as (PH & NW & M & _). split; [exact PH|]. split; [exact NW|]. split; [intros t Ht; apply M; lra|]. split.
  - destruct (c39_no_wells_partial saddle (1, 1) (1 / 10) (Fin 1) (Fin 10) PH eq_refl) as (n & tr & E); [cbn; lra|cbn; lra|].
    exists n, tr. exact (E n (le_n n)).
  - cbv zeta. unfold saddle. cbn. match goal with |- _ * (sqrt ?x / ?y) <= _ => assert (S : sqrt x <= 5 * y) end.
    { apply le_of_sq; [lra|]. rewrite sqrt_sqrt; lra. }
    lra.
Qed.
