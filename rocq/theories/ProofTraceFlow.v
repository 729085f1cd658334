(** * Uniform and affine velocity fields, start points (C43, C44, C46) *)
From Coq Require Import Reals Lra Lia Psatz.
From Verif Require Import Py Num NumXR Grid ModelField ModelAquifer ModelTrace ModelDriver SpecAquifer SpecTrace ProofAquifer ProofTrace ProofTraceLoop ProofTraceTerm.
Local Open Scope R_scope.

(** ** Uniform flow (C43) *)
(** The error estimate of a step in a uniform field is 0, and the step is exact. *)
Lemma c43_estimate_zero : forall (v p : pt) (h : R),
  dp_step (fun _ => Ok (fvec v)) (fvec p) (Fin h) (fvec v)
  = Ok (fvec (padd p (pscale h v)), fvec v, Fin 0, Fin (pdist p (padd p (pscale h v)))).
Proof. exact dp_step_uniform. Qed.

Lemma good_step_uniform v tol maxstep p h q : good_step (uniform v) tol maxstep p h q -> q = padd p (pscale h v).
Proof.
  intros (ks & (HL & HK) & -> & _).
  assert (E : ks = [v; v; v; v; v; v; v]).
  { apply (nth_ext _ _ (0, 0) (0, 0)); [exact HL|]. intros i Hi. assert (Hi' : (i < 7)%nat) by (unfold pt in *; lia). specialize (HK i Hi'). unfold uniform in HK.
    assert (X : fvec v = fvec (nth i ks (0, 0))) by congruence. apply fvec_inj in X. unfold pt in *. etransitivity; [symmetry; exact X|].
    destruct i as [|[|[|[|[|[|[|i]]]]]]]; try reflexivity. lia. }
  rewrite E. do 2 f_equal. destruct v. unfold lincomb, dp_b, padd, pscale. cbn. f_equal; field.
Qed.

(** C43.  In a uniform field a trace that returns ran to the end; its vertices are the points reached
    at times strictly monotone from 0 to the duration, and the last vertex is [p + D v]. *)
Lemma c43_uniform : forall (fuel : nat) (p v : pt) (D : R) (tol maxstep : xr) (tr : trace xr),
  compute_backtrace fuel (Fin (fst p)) (Fin (snd p)) (Fin D) tol maxstep (fun _ => Ok (fvec v)) = Ok tr ->
  completed tr = true /\
  exists ts, vertices tr = map (fun t => fvec (padd p (pscale t v))) ts /\
    nth 0 ts 0 = 0 /\ last ts 0 = D /\
    (forall i, (S i < length ts)%nat -> 0 < (nth (S i) ts 0 - nth i ts 0) * D) /\
    last (vertices tr) (NaN, NaN) = fvec (padd p (pscale D v)).
Proof.
  intros fuel p v D tol maxstep tr H. change (fun _ => Ok (fvec v)) with (uniform v) in H.
  assert (HC : completed tr = true).
  { unfold compute_backtrace in H. cbn [uniform] in H.
    assert (L : forall n t dt xy k1 acc, trace_loop n (uniform v) (Fin D) tol maxstep t dt xy k1 acc = Ok tr -> completed tr = true).
    { induction n as [|n IH]; intros t dt xy k1 acc HL; [discriminate|]. cbn [trace_loop] in HL.
      destruct (nlt (nabs t) (nabs (Fin D))); [|injection HL as <-; reflexivity].
      set (dt1 := if nlt _ _ then _ else _) in *. unfold dp_step, uniform in HL. cbn [bind] in HL.
      match type of HL with (if ?b then _ else _) = _ => destruct b end; now apply IH in HL. }
    now apply L in H. }
  split; [exact HC|]. destruct (c37_elapsed_time _ _ _ _ _ _ _ H) as (l & ts & E1 & E2 & E3 & E4 & E5 & E6).
  destruct (c36_path _ _ _ _ _ _ _ _ H) as (more & E7 & _). exists ts.
  assert (HP : nth 0 l (0, 0) = p).
  { rewrite E1 in E7. destruct l as [|p0 l]; [discriminate|]. cbn in E7. assert (X : fvec p0 = fvec p) by (unfold fvec at 2; congruence). now apply fvec_inj in X. }
  assert (N : forall i, (i < length l)%nat -> nth i l (0, 0) = padd p (pscale (nth i ts 0) v)).
  { induction i as [|i IH]; intros Hi.
    - rewrite HP, E3. destruct p. unfold padd, pscale. cbn. f_equal; ring.
    - destruct (E5 i Hi) as (_ & _ & G). assert (G' : good_step (uniform v) tol maxstep (nth i l (0, 0)) (nth (S i) ts 0 - nth i ts 0) (nth (S i) l (0, 0))).
      { destruct G as [G|(k1 & k2 & k3 & k4 & k5 & k6 & k7 & _ & W & NF & _)]; [exact G|]. destruct NF. exists v. unfold uniform in W. congruence. }
      apply good_step_uniform in G'. rewrite G', IH by lia. unfold padd, pscale. cbn. f_equal; ring. }
  assert (EV : vertices tr = map (fun t => fvec (padd p (pscale t v))) ts).
  { rewrite E1. rewrite <- (map_map (fun t => padd p (pscale t v)) fvec). f_equal.
    apply (nth_ext _ _ (0, 0) (padd p (pscale 0 v))); [now rewrite map_length|]. intros i Hi.
    rewrite (map_nth (fun t => padd p (pscale t v))). now apply N. }
  split; [exact EV|]. split; [exact E3|]. specialize (E6 HC). split; [exact E6|]. split.
  - intros i Hi. apply E5. lia.
  - rewrite EV. destruct ts as [|t ts] using rev_ind; [rewrite E1 in E7; destruct l; discriminate|].
    rewrite last_last in E6. rewrite map_app. cbn [map]. rewrite last_last. now rewrite E6.
Qed.

(** C43: and it does return, for tolerances that are not tiny. *)
Lemma c43_returns : forall (p v : pt) (D : R) (tol maxstep : xr),
  below (/ 2 ^ 52 / (9 / 10) ^ 5) tol -> below (/ 2 ^ 52 / (9 / 10)) maxstep ->
  exists fuel tr, forall fuel', (fuel <= fuel')%nat ->
    compute_backtrace fuel' (Fin (fst p)) (Fin (snd p)) (Fin D) tol maxstep (fun _ => Ok (fvec v)) = Ok tr.
Proof.
  intros p v D tol maxstep Ht Hm. apply (c39_terminates_partial (Rmax (Rabs (fst v)) (Rabs (snd v)))); auto.
  - intros xy k [= <-]. exists v. split; [reflexivity|]. split; [apply Rmax_l|apply Rmax_r].
  - intros xy. discriminate.
Qed.

(** ** Affine fields (C44) *)
(** The derivatives of the flow are what [flow_derivative] says: for a solution curve (X, Y). *)
Lemma c44_derivatives : forall (A : affine) (X Y : R -> R),
  (forall t, derivable_pt_lim X t (fst (flow A (X t, Y t)))) -> (forall t, derivable_pt_lim Y t (snd (flow A (X t, Y t)))) ->
  forall (n : nat) (t : R),
    derivable_pt_lim (fun s => fst (flow_derivative A n (X s, Y s))) t (fst (flow_derivative A (S n) (X t, Y t))) /\
    derivable_pt_lim (fun s => snd (flow_derivative A n (X s, Y s))) t (snd (flow_derivative A (S n) (X t, Y t))).
Proof.
  intros A X Y HX HY.
  assert (LIN : forall u v (du dv : R) a b t, derivable_pt_lim u t du -> derivable_pt_lim v t dv ->
            derivable_pt_lim (fun s => a * u s + b * v s) t (a * du + b * dv)).
  { intros u v du dv a b t Hu Hv. exact (derivable_pt_lim_plus _ _ _ _ _ (derivable_pt_lim_scal u a t du Hu) (derivable_pt_lim_scal v b t dv Hv)). }
  induction n as [|n IH]; intros t.
  - unfold flow_derivative. cbn [Nat.iter nat_rect]. split.
    + pose proof (derivable_pt_lim_plus _ _ _ _ _ (LIN X Y _ _ (axx A) (axy A) t (HX t) (HY t)) (derivable_pt_lim_const (bx A) t)) as D.
      eapply deriv_val; [eapply deriv_fun; [|exact D]; reflexivity|]. cbn. ring.
    + pose proof (derivable_pt_lim_plus _ _ _ _ _ (LIN X Y _ _ (ayx A) (ayy A) t (HX t) (HY t)) (derivable_pt_lim_const (by_ A) t)) as D.
      eapply deriv_val; [eapply deriv_fun; [|exact D]; reflexivity|]. cbn. ring.
  - destruct (IH t) as [D1 D2]. split.
    + exact (LIN _ _ _ _ (axx A) (axy A) t D1 D2).
    + exact (LIN _ _ _ _ (ayx A) (ayy A) t D1 D2).
Qed.

Lemma lin_add A p q : lin A (padd p q) = padd (lin A p) (lin A q).
Proof. unfold lin, padd. cbn. f_equal; ring. Qed.
Lemma lin_scale A c p : lin A (pscale c p) = pscale c (lin A p).
Proof. unfold lin, pscale. cbn. f_equal; ring. Qed.
Lemma flow_step A p u h : flow A (padd p (pscale h u)) = padd (flow A p) (pscale h (lin A u)).
Proof. unfold flow. rewrite lin_add, lin_scale. unfold padd, pscale. cbn. f_equal; ring. Qed.

(** C44.  In an affine field a step of size [h] is the Taylor polynomial of degree 5 of the flow plus
    [h^6/600] times the sixth derivative. *)
Lemma c44_affine_step : forall (A : affine) (f : vec xr -> res (vec xr)),
  (forall q : pt, f (fvec q) = Ok (fvec (flow A q))) ->
  forall (p : pt) (h : R), exists k7 est ds,
    dp_step f (fvec p) (Fin h) (fvec (flow A p))
    = Ok (fvec (padd p (lincomb [h; h ^ 2 / 2; h ^ 3 / 6; h ^ 4 / 24; h ^ 5 / 120; h ^ 6 / 600]
                          (map (fun n => flow_derivative A n p) [0; 1; 2; 3; 4; 5]%nat))), k7, est, ds).
Proof.
  intros A f Hf p h.
  set (w0 := flow A p). set (w1 := lin A w0). set (w2 := lin A w1). set (w3 := lin A w2). set (w4 := lin A w3). set (w5 := lin A w4).
  assert (LC : forall c1 c2 c3 c4 c5 c6, lincomb [c1; c2; c3; c4; c5; c6] (map (fun n => flow_derivative A n p) [0; 1; 2; 3; 4; 5]%nat)
     = lincomb [c1; c2; c3; c4; c5; c6] [w0; w1; w2; w3; w4; w5]) by reflexivity.
  rewrite LC. clear LC.
  assert (LA : forall c ks, lin A (lincomb c ks) = lincomb c (map (lin A) ks)).
  { induction c as [|x c IH]; intros ks; [unfold lin, lincomb; cbn; f_equal; ring|]. destruct ks as [|k ks]; [unfold lin, lincomb; cbn; f_equal; ring|].
    change (lincomb (x :: c) (k :: ks)) with (padd (pscale x k) (lincomb c ks)). rewrite lin_add, lin_scale, IH. reflexivity. }
  assert (G : forall c ks, flow A (padd p (pscale h (lincomb c ks))) = padd w0 (pscale h (lincomb c (map (lin A) ks)))).
  { intros c ks. rewrite flow_step, LA. reflexivity. }
  set (K2 := padd w0 (pscale h (lincomb [1/5] (map (lin A) [w0])))).
  set (K3 := padd w0 (pscale h (lincomb [3/40; 9/40] (map (lin A) [w0; K2])))).
  set (K4 := padd w0 (pscale h (lincomb [44/45; -56/15; 32/9] (map (lin A) [w0; K2; K3])))).
  set (K5 := padd w0 (pscale h (lincomb [19372/6561; -25360/2187; 64448/6561; -212/729] (map (lin A) [w0; K2; K3; K4])))).
  set (K6 := padd w0 (pscale h (lincomb [9017/3168; -355/33; 46732/5247; 49/176; -5103/18656] (map (lin A) [w0; K2; K3; K4; K5])))).
  set (K7 := padd w0 (pscale h (lincomb dp_b (map (lin A) [w0; K2; K3; K4; K5; K6; w0])))).
  pose proof (dp_step_finite f p h w0 K2 K3 K4 K5 K6 K7) as F. cbv zeta in F.
  do 3 eexists. rewrite F; clear F.
  - assert (E : pscale h (lincomb dp_b [w0; K2; K3; K4; K5; K6; K7])
              = lincomb [h; h ^ 2 / 2; h ^ 3 / 6; h ^ 4 / 24; h ^ 5 / 120; h ^ 6 / 600] [w0; w1; w2; w3; w4; w5]); [|rewrite E; reflexivity].
    clearbody K7.
    assert (N2 : K2 = lincomb [1; h / 5] [w0; w1]).
    { unfold K2. cbn [map]. fold w1. clearbody w1 w0. unfold lincomb, padd, pscale. cbn. f_equal; field. }
    assert (N3 : K3 = lincomb [1; 3 / 10 * h; 9 / 200 * h ^ 2] [w0; w1; w2]).
    { unfold K3. cbn [map]. rewrite N2, LA. cbn [map]. fold w1. fold w2. clearbody w2 w1 w0. unfold lincomb, padd, pscale. cbn. f_equal; field. }
    assert (N4 : K4 = lincomb [1; 4 / 5 * h; 8 / 25 * h ^ 2; 4 / 25 * h ^ 3] [w0; w1; w2; w3]).
    { unfold K4. cbn [map]. rewrite N3, N2, !LA. cbn [map]. fold w1. fold w2. fold w3. clearbody w3 w2 w1 w0. unfold lincomb, padd, pscale. cbn. f_equal; field. }
    assert (N5 : K5 = lincomb [1; 8 / 9 * h; 32 / 81 * h ^ 2; 424 / 1215 * h ^ 3; -848 / 18225 * h ^ 4] [w0; w1; w2; w3; w4]).
    { unfold K5. cbn [map]. rewrite N4, N3, N2, !LA. cbn [map]. fold w1. fold w2. fold w3. fold w4. clearbody w4 w3 w2 w1 w0. unfold lincomb, padd, pscale. cbn. f_equal; field. }
    assert (N6 : K6 = lincomb [1; h; 1 / 2 * h ^ 2; 21 / 55 * h ^ 3; -14 / 275 * h ^ 4; 7 / 550 * h ^ 5] [w0; w1; w2; w3; w4; w5]).
    { unfold K6. cbn [map]. rewrite N5, N4, N3, N2, !LA. cbn [map]. fold w1. fold w2. fold w3. fold w4. fold w5. clearbody w5 w4 w3 w2 w1 w0. unfold lincomb, padd, pscale. cbn. f_equal; field. }
    rewrite N6, N5, N4, N3, N2. clear. clearbody w5 w4 w3 w2 w1 w0. unfold lincomb, dp_b, padd, pscale. cbn. f_equal; field.
  - exact (Hf p).
  - rewrite Hf, G. reflexivity.
  - rewrite Hf, G. reflexivity.
  - rewrite Hf, G. reflexivity.
  - rewrite Hf, G. reflexivity.
  - rewrite Hf, G. reflexivity.
  - rewrite Hf, G. apply f_equal, f_equal. unfold K7 at 2. apply f_equal, f_equal. cbn [map]. clearbody K7.
    unfold lincomb, dp_b, padd, pscale. cbn. f_equal; ring.
Qed.

(** C44: the backtracing velocity of the drivers in confined mode is such a field when there are no wells. *)
Lemma c44_confined_affine : forall m : model R,
  physical m -> wells m = [] ->
  let s := porosity m * thickness m in
  let c := coef m in
  let A := {| axx := 2 * cA c / s; axy := cC c / s; ayx := cC c / s; ayy := 2 * cB c / s;
              bx := (cD c - 2 * cA c * xo m - cC c * yo m) / s; by_ := (cE c - 2 * cB c * yo m - cC c * xo m) / s |} in
  forall q : pt, feval true (fmodel m) (fvec q) = Ok (fvec (flow A q)).
Proof.
  intros m (HK & Hn & HH) Hw s c A q. unfold feval, compute_velocity_confined, fvec. cbn [fst snd].
  rewrite compute_discharge_eq by (rewrite Hw; intros w []). rewrite Hw.
  cbn [thickness porosity fmodel nmul ndiv nopp XR xmul].
  assert (0 < thickness m * porosity m) by (apply Rmult_lt_0_compat; lra). rewrite !div_fin by lra. cbn [xopp].
  apply f_equal. unfold flow, lin, padd, A, s, c. cbn [fst snd axx axy ayx ayy bx by_ Rsum fold_right].
  apply f_equal2; apply (f_equal Fin); field; lra.
Qed.

(** ** Start points (C46) *)
(** The k-th of n start points around (x, y). *)
Definition ring_point (x y r : R) (n k : nat) : pt :=
  (x + (r + 1) * cos (2 * PI * INR k / INR n), y + (r + 1) * sin (2 * PI * INR k / INR n)).

(** A list of calls on a field, stopping at the first exception. *)
Fixpoint calls {T} {N : Num T} (fuel : nat) (s : pfield T) (l : list (op T)) : pfield T * res unit :=
  match l with
  | [] => (s, Ok tt)
  | o :: l => match run_op fuel s o with (s', Ok _) => calls fuel s' l | (s', r) => (s', r) end
  end.

(** The angles in the program. *)
Lemma start_angles_eq n : (0 < n)%nat ->
  start_angles (Z.of_nat n) = Ok (map (fun k => Fin (2 * PI * INR k / INR n)) (seq 0 n)).
Proof.
  intros Hn. unfold start_angles. rewrite (proj2 (Z.ltb_ge _ _)) by lia. apply f_equal.
  unfold zrange. rewrite Z.sub_0_r, Nat2Z.id, map_map. apply map_ext_in. intros k _. cbn [nZ nmul ndiv nadd npi XR xmul].
  rewrite Z.add_0_l, <- !INR_IZR_INZ. assert (INR n <> 0) by (apply not_0_INR; lia).
  rewrite div_fin by assumption. cbn. apply (f_equal Fin). field. assumption.
Qed.

Lemma start_point_eq x y r n k : start_point (Fin x) (Fin y) (Fin r) (Fin (2 * PI * INR k / INR n)) = fvec (ring_point x y r n k).
Proof. unfold start_point, ring_point, fvec. cbn. apply f_equal2; apply (f_equal Fin); ring. Qed.

(** C46.  compute_capturezone traces exactly [n] paths, the k-th from the k-th start point; it rasterizes
    the traces in that order on the field and then registers them. *)
Lemma c46_paths : forall (fuel : nat) (x y r : R) (n : nat) (duration umbra weight tol maxstep : xr)
    (s : pfield xr) (f : vec xr -> res (vec xr)) (traces : list (trace xr)),
  (0 < n)%nat ->
  Forall2 (fun k tr => compute_backtrace fuel (Fin (fst (ring_point x y r n k))) (Fin (snd (ring_point x y r n k))) duration tol maxstep f = Ok tr)
    (seq 0 n) traces ->
  compute_capturezone fuel (Fin x) (Fin y) (Fin r) (Z.of_nat n) duration s umbra weight tol maxstep f
  = calls fuel s (map (fun tr => ORasterize (map fst (vertices tr)) (map snd (vertices tr)) umbra) traces ++ [ORegister weight]).
Proof.
  intros fuel x y r n D umbra weight tol maxstep s f traces Hn HT. unfold compute_capturezone. rewrite start_angles_eq by exact Hn.
  revert s traces HT. generalize (seq 0 n) as ks. induction ks as [|k ks IH]; intros s traces HT; inversion HT as [|k' tr ks' trs E HT' E1 E2]; subst.
  - cbn [map app calls run_op trace_paths]. destruct (register s weight) as [s' [[]|e|]]; reflexivity.
  - cbn [map app calls run_op trace_paths]. rewrite start_point_eq. unfold fvec. rewrite E.
    destruct (rasterize fuel s (map fst (vertices tr)) (map snd (vertices tr)) umbra) as [s' [[]|e|]]; [|reflexivity|reflexivity].
    apply IH. exact HT'.
Qed.

(** C46: the start points lie on the circle of radius [r + 1]. *)
Lemma c46_on_circle : forall (x y r : R) (n k : nat), 0 <= r + 1 ->
  pdist (x, y) (ring_point x y r n k) = r + 1.
Proof.
  intros x y r n k Hr. unfold pdist, ring_point. cbn [fst snd]. set (t := 2 * PI * INR k / INR n).
  replace ((x + (r + 1) * cos t - x) * (x + (r + 1) * cos t - x) + (y + (r + 1) * sin t - y) * (y + (r + 1) * sin t - y))
    with ((r + 1) * (r + 1) * (sin t * sin t + cos t * cos t)) by ring.
  pose proof (sin2_cos2 t) as S. unfold Rsqr in S. rewrite S, Rmult_1_r. now apply sqrt_square.
Qed.

(** C46: they are distinct (for radii other than -1). *)
Lemma cos_sin_inj a b : 0 <= a < 2 * PI -> 0 <= b < 2 * PI -> cos a = cos b -> sin a = sin b -> a = b.
Proof.
  intros Ha Hb C S.
  assert (D : cos (a - b) = 1). { rewrite cos_minus, C, S. pose proof (sin2_cos2 b) as X. unfold Rsqr in X. lra. }
  assert (Z : sin ((a - b) / 2) = 0).
  { assert (E : cos (a - b) = 1 - 2 * sin ((a - b) / 2) * sin ((a - b) / 2)) by (rewrite <- cos_2a_sin; f_equal; field). nra. }
  pose proof PI_RGT_0. destruct (Rtotal_order a b) as [L|[E|L]]; [exfalso|exact E|exfalso].
  - assert (0 < sin ((b - a) / 2)) by (apply sin_gt_0; lra). replace ((b - a) / 2) with (- ((a - b) / 2)) in H0 by field. rewrite sin_neg in H0. lra.
  - assert (0 < sin ((a - b) / 2)) by (apply sin_gt_0; lra). lra.
Qed.

Lemma c46_distinct : forall (x y r : R) (n i j : nat), r + 1 <> 0 -> (i < n)%nat -> (j < n)%nat ->
  ring_point x y r n i = ring_point x y r n j -> i = j.
Proof.
  intros x y r n i j Hr Hi Hj E. unfold ring_point in E. injection E as E1 E2. pose proof PI_RGT_0 as HP.
  assert (N : 0 < INR n) by (apply lt_0_INR; lia).
  assert (B : forall k, (k < n)%nat -> 0 <= 2 * PI * INR k / INR n < 2 * PI).
  { intros k Hk. apply lt_INR in Hk. pose proof (pos_INR k). split.
    - apply Rmult_le_pos; [nra|left; now apply Rinv_0_lt_compat].
    - apply (Rmult_lt_reg_r (INR n)); [lra|]. unfold Rdiv. rewrite Rmult_assoc, Rinv_l by lra. nra. }
  assert (C : cos (2 * PI * INR i / INR n) = cos (2 * PI * INR j / INR n)).
  { apply (Rmult_eq_reg_l (r + 1)); [lra|exact Hr]. }
  assert (S : sin (2 * PI * INR i / INR n) = sin (2 * PI * INR j / INR n)).
  { apply (Rmult_eq_reg_l (r + 1)); [lra|exact Hr]. }
  pose proof (cos_sin_inj _ _ (B i Hi) (B j Hj) C S) as A. apply INR_eq. 
  apply (Rmult_eq_reg_l (2 * PI / INR n)); [|apply Rgt_not_eq, Rdiv_lt_0_compat; lra].
  replace (2 * PI / INR n * INR i) with (2 * PI * INR i / INR n) by (field; lra). rewrite A. field. lra.
Qed.

(** C46: numbers of paths that are not positive: 0 and -1 trace nothing and register, less raises. *)
Lemma c46_no_paths : forall (fuel : nat) (x y r : xr) (n : Z) (duration umbra weight tol maxstep : xr) (s : pfield xr) (f : vec xr -> res (vec xr)),
  (n <= 0)%Z ->
  compute_capturezone fuel x y r n duration s umbra weight tol maxstep f
  = if (n <? -1)%Z then (s, Raise ValueError) else register s weight.
Proof.
  intros fuel x y r n D umbra weight tol maxstep s f Hn. unfold compute_capturezone, start_angles.
  destruct (Z.ltb_spec n (-1)) as [L|L].
  - rewrite (proj2 (Z.ltb_lt _ _)) by lia. reflexivity.
  - rewrite (proj2 (Z.ltb_ge _ _)) by lia. rewrite zrange_nil by lia. reflexivity.
Qed.
