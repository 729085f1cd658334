(** * Backtraces that stay clear of the wells and of dry ground end (C97) *)
From Coq Require Import Reals Lra Lia Psatz List.
From Verif Require Import Py Num NumXR ModelField ModelAquifer ModelTrace ModelDriver SpecAquifer SpecTrace SpecGrowth
  ProofPi ProofAquifer ProofHead ProofTrace ProofTraceTerm ProofTraceField ProofTraceGrow.
Import ListNotations.
Local Open Scope R_scope.

(** ** Bounds on the velocity *)
Lemma well_bound d w x y : 0 < d -> d * d <= wdist2 w x y -> Rabs (wqx w x y) <= Rabs (wq w) / d /\ Rabs (wqy w x y) <= Rabs (wq w) / d.
Proof.
  intros Hd H. assert (P : 0 < wdist2 w x y) by nra.
  assert (X : forall u v, d * d <= u * u + v * v -> Rabs (- wq w * u / (u * u + v * v)) <= Rabs (wq w) / d).
  { intros u v Huv. assert (Q : 0 < u * u + v * v) by nra. unfold Rdiv. rewrite !Rabs_mult, Rabs_Ropp, Rmult_assoc. apply Rmult_le_compat_l; [apply Rabs_pos|].
    rewrite Rabs_inv, (Rabs_pos_eq (u * u + v * v)) by lra.
    apply (Rmult_le_reg_r (u * u + v * v)); [exact Q|]. rewrite Rmult_assoc, Rinv_l by lra. rewrite Rmult_1_r.
    apply (Rmult_le_reg_l d); [exact Hd|]. rewrite <- Rmult_assoc, Rinv_r, Rmult_1_l by lra.
    assert (U : u * u = Rabs u * Rabs u) by (unfold Rabs; destruct (Rcase_abs u); ring). pose proof (Rabs_pos u).
    destruct (Rle_dec d (Rabs u)) as [L|L]; [rewrite U; assert (0 <= v * v) by apply Rle_0_sqr; nra|nra]. }
  unfold wqx, wqy, wdist2 in *. split; [apply X; exact H|]. rewrite (Rplus_comm ((x - wx w) * (x - wx w))) in *. now apply X.
Qed.

Lemma wells_bound d x y : 0 < d -> forall ws, (forall w, In w ws -> d * d <= wdist2 w x y) ->
  Rabs (Rsum (fun w => wqx w x y) ws) <= Rsum (fun w => Rabs (wq w) / d) ws /\
  Rabs (Rsum (fun w => wqy w x y) ws) <= Rsum (fun w => Rabs (wq w) / d) ws.
Proof.
  intros Hd. induction ws as [|w ws IH]; intros H; cbn [Rsum fold_right]; [rewrite Rabs_R0; lra|].
  fold (Rsum (fun w => wqx w x y) ws) (Rsum (fun w => wqy w x y) ws) (Rsum (fun w => Rabs (wq w) / d) ws).
  destruct (IH (fun v Hv => H v (or_intror Hv))) as [I1 I2]. destruct (well_bound d w x y Hd (H w (or_introl eq_refl))) as [W1 W2].
  split; (eapply Rle_trans; [apply Rabs_triang|]); lra.
Qed.

Lemma clear_off d ws x y : 0 < d -> (forall w, In w ws -> d * d <= wdist2 w x y) -> off_wells ws x y.
Proof.
  intros Hd H w Hw [-> ->]. specialize (H w Hw). unfold wdist2 in H. rewrite !Rminus_diag_eq in H by reflexivity. nra.
Qed.

Lemma linear_bound a b e x y x0 y0 : Rabs (a * (x - x0) + b * (y - y0) + e)
  <= ((Rabs a + Rabs b) * (1 + Rabs x0 + Rabs y0) + Rabs e) * (1 + pmax (x, y)).
Proof.
  unfold pmax. cbn [fst snd]. set (M := Rmax (Rabs x) (Rabs y)).
  assert (Rabs x <= M) by apply Rmax_l. assert (Rabs y <= M) by apply Rmax_r.
  pose proof (Rabs_pos x). pose proof (Rabs_pos x0). pose proof (Rabs_pos y0). pose proof (Rabs_pos a). pose proof (Rabs_pos b). pose proof (Rabs_pos e).
  assert (X1 : Rabs (x - x0) <= M + Rabs x0) by (unfold Rminus; eapply Rle_trans; [apply Rabs_triang|]; rewrite Rabs_Ropp; lra).
  assert (X2 : Rabs (y - y0) <= M + Rabs y0) by (unfold Rminus; eapply Rle_trans; [apply Rabs_triang|]; rewrite Rabs_Ropp; lra).
  set (s := 1 + Rabs x0 + Rabs y0).
  assert (Y1 : M + Rabs x0 <= s * (1 + M)) by (unfold s; nra). assert (Y2 : M + Rabs y0 <= s * (1 + M)) by (unfold s; nra).
  eapply Rle_trans; [apply Rabs_triang|]. eapply Rle_trans; [apply Rplus_le_compat_r, Rabs_triang|]. rewrite !Rabs_mult.
  assert (Z1 : Rabs a * Rabs (x - x0) <= Rabs a * (s * (1 + M))) by (apply Rmult_le_compat_l; lra).
  assert (Z2 : Rabs b * Rabs (y - y0) <= Rabs b * (s * (1 + M))) by (apply Rmult_le_compat_l; lra).
  assert (Z3 : Rabs e <= Rabs e * (1 + M)) by nra. lra.
Qed.

Lemma discharge_bound m d : 0 < d -> exists G, 0 <= G /\ forall x y, (forall w, In w (wells m) -> d * d <= wdist2 w x y) ->
  exists qx qy, compute_discharge (fmodel m) (Fin x) (Fin y) = (Fin qx, Fin qy) /\ Rabs qx <= G * (1 + pmax (x, y)) /\ Rabs qy <= G * (1 + pmax (x, y)).
Proof.
  intros Hd. set (c := coef m). set (s := 1 + Rabs (xo m) + Rabs (yo m)). set (W := Rsum (fun w => Rabs (wq w) / d) (wells m)).
  assert (HW : 0 <= W).
  { unfold W. induction (wells m) as [|w ws IH]; cbn [Rsum fold_right]; [lra|]. assert (0 <= Rabs (wq w) / d); [|fold (Rsum (fun w => Rabs (wq w) / d) ws); lra].
    apply Rmult_le_pos; [apply Rabs_pos|left; now apply Rinv_0_lt_compat]. }
  assert (HS : 1 <= s) by (unfold s; pose proof (Rabs_pos (xo m)); pose proof (Rabs_pos (yo m)); lra).
  set (G1 := (Rabs (2 * cA c) + Rabs (cC c)) * s + Rabs (cD c)). set (G2 := (Rabs (cC c) + Rabs (2 * cB c)) * s + Rabs (cE c)).
  assert (P1 : 0 <= G1) by (unfold G1; pose proof (Rabs_pos (2 * cA c)); pose proof (Rabs_pos (cC c)); pose proof (Rabs_pos (cD c)); nra).
  assert (P2 : 0 <= G2) by (unfold G2; pose proof (Rabs_pos (2 * cB c)); pose proof (Rabs_pos (cC c)); pose proof (Rabs_pos (cE c)); nra).
  assert (PK : 0 < kappa) by (unfold kappa; lra).
  assert (PW : 0 <= 2 * kappa * W) by (apply Rmult_le_pos; lra).
  exists (G1 + G2 + 2 * kappa * W). split; [lra|]. intros x y Hc.
  rewrite compute_discharge_eq by (now apply (clear_off d)). do 2 eexists. split; [reflexivity|].
  destruct (wells_bound d x y Hd (wells m) Hc) as [B1 B2]. fold W in B1, B2.
  assert (PM : 0 <= pmax (x, y)) by (unfold pmax; eapply Rle_trans; [apply Rabs_pos|apply Rmax_l]).
  fold c. split; (eapply Rle_trans; [apply Rabs_triang|]); rewrite Rabs_Ropp, (Rabs_mult (2 * kappa)), (Rabs_pos_eq (2 * kappa)) by lra.
  - pose proof (linear_bound (2 * cA c) (cC c) (cD c) x y (xo m) (yo m)) as L. fold s G1 in L.
    set (q := Rabs (Rsum _ _)) in *. clearbody q. assert (2 * kappa * q <= 2 * kappa * W) by (apply Rmult_le_compat_l; lra). nra.
  - pose proof (linear_bound (cC c) (2 * cB c) (cE c) x y (xo m) (yo m)) as L. fold s G2 in L.
    replace (2 * cB c * (y - yo m) + cC c * (x - xo m) + cE c) with (cC c * (x - xo m) + 2 * cB c * (y - yo m) + cE c) by ring.
    set (q := Rabs (Rsum _ _)) in *. clearbody q. assert (2 * kappa * q <= 2 * kappa * W) by (apply Rmult_le_compat_l; lra). nra.
Qed.

Lemma feval_total c (m : model xr) : total (feval c m).
Proof.
  intros xy. unfold feval. destruct c.
  - destruct (compute_velocity_confined _ _ _). discriminate.
  - unfold compute_velocity, compute_head, head_of_potential. destruct (compute_discharge _ _ _).
    repeat (match goal with |- context [if ?b then _ else _] => destruct b end; cbn [bind]); discriminate.
Qed.

Lemma quotient_bound q b u G M : 0 < b -> b <= u -> Rabs q <= G * M -> 0 <= G * M -> Rabs (- (q / u)) <= G / b * M.
Proof.
  intros Hb Hu Hq HG. rewrite Rabs_Ropp. unfold Rdiv. rewrite Rabs_mult, Rabs_inv, (Rabs_pos_eq u) by lra.
  assert (I : / u <= / b) by (apply Rinv_le_contravar; lra). assert (0 < / u) by (apply Rinv_0_lt_compat; lra).
  replace (G * / b * M) with (G * M * / b) by ring. apply Rmult_le_compat; try lra. apply Rabs_pos.
Qed.

Lemma alarmed_grows d c m f : physical m -> 0 < d -> alarmed d c m f -> exists g, grows g f.
Proof.
  intros Hm Hd (H1 & H2 & _). pose proof Hm as (HK & Hn & HH). destruct (discharge_bound m d Hd) as (G & HG & HB).
  set (b := Rmin d (thickness m) * porosity m). assert (B0 : 0 < Rmin d (thickness m)) by (unfold Rmin; destruct (Rle_dec _ _); lra).
  assert (Pb : 0 < b) by (apply Rmult_lt_0_compat; lra).
  exists (G / b). intros [x y] k E. destruct (Classical_Prop.classic (clear d c m (x, y))) as [C|C]; [|rewrite (H2 _ C) in E; discriminate].
  rewrite (H1 _ C) in E. destruct C as [C1 C2]. cbn [fst snd] in *. destruct (HB x y C1) as (qx & qy & Eq & Q1 & Q2).
  assert (PM : 0 <= pmax (x, y)) by (unfold pmax; eapply Rle_trans; [apply Rabs_pos|apply Rmax_l]).
  assert (GM : 0 <= G * (1 + pmax (x, y))) by (apply Rmult_le_pos; lra).
  assert (FIN : forall u, b <= u -> k = fvec (- (qx / u), - (qy / u)) -> exists v, k = fvec v /\ pmax v <= G / b * (1 + pmax (x, y))).
  { intros u Hu ->. exists (- (qx / u), - (qy / u)). split; [reflexivity|]. unfold pmax at 1. cbn [fst snd]. apply Rmax_lub; now apply quotient_bound. }
  unfold feval, fvec in E. cbn [fst snd] in E. destruct c.
  - unfold compute_velocity_confined in E. rewrite Eq in E. cbn [thickness porosity fmodel nmul ndiv XR xmul] in E.
    assert (0 < thickness m * porosity m) by (apply Rmult_lt_0_compat; lra). rewrite !div_fin in E by lra. injection E as <-.
    apply (FIN (thickness m * porosity m)); [|reflexivity]. unfold b. apply Rmult_le_compat_r; [lra|apply Rmin_r].
  - destruct (C2 eq_refl) as (h & Eh & Hh).
    assert (Off : off_wells (wells m) x y) by (now apply (clear_off d)).
    destruct (c21_discharge_is_minus_gradient m x y Off) as (p & qx' & qy' & Ep & _).
    destruct (c25_velocity m x y p qx qy Hm Off Ep Eq) as [V1 V2]. destruct (Rle_lt_dec p 0) as [Hp|Hp].
    { rewrite (V1 Hp) in E. discriminate. }
    destruct (V2 Hp) as (h' & Eh' & H0 & EV). rewrite EV in E. cbn [bind] in E. assert (h' = h) by congruence. subst h'.
    injection E as <-. apply (FIN (porosity m * Rmin h (thickness m))); [|reflexivity].
    unfold b. rewrite Rmult_comm. apply Rmult_le_compat_l; [lra|]. unfold Rmin. repeat destruct (Rle_dec _ _); lra.
Qed.

(** ** A trace on which the alarm did not go off *)
Lemma dp_step_sub f' f xy h k1 r : (forall xy k, f' xy = Ok k -> f xy = Ok k) -> dp_step f' xy h k1 = Ok r -> dp_step f xy h k1 = Ok r.
Proof.
  intros S. unfold dp_step.
  repeat (match goal with |- context [bind (f' ?x) _] => let E := fresh in destruct (f' x) eqn:E; [rewrite (S _ _ E); cbn [bind]|discriminate|discriminate] end).
  auto.
Qed.

Lemma loop_sub f' f D tol maxstep : (forall xy k, f' xy = Ok k -> f xy = Ok k) -> forall fuel t h xy k1 acc tr,
  trace_loop fuel f' D tol maxstep t h xy k1 acc = Ok tr -> completed tr = true -> trace_loop fuel f D tol maxstep t h xy k1 acc = Ok tr.
Proof.
  intros S. induction fuel as [|fuel IH]; intros t h xy k1 acc tr E C; [discriminate|]. cbn [trace_loop] in *.
  destruct (nlt (nabs t) (nabs D)); [|exact E]. cbv zeta in *.
  destruct (dp_step f' xy _ k1) as [[[[xyt k7] est] ds]|e|] eqn:Es.
  - rewrite (dp_step_sub _ _ _ _ _ _ S Es). destruct (_ && _); apply IH; assumption.
  - injection E as <-. discriminate.
  - discriminate.
Qed.

Lemma backtrace_sub f' f fuel xs ys D tol maxstep tr : (forall xy k, f' xy = Ok k -> f xy = Ok k) ->
  compute_backtrace fuel xs ys D tol maxstep f' = Ok tr -> completed tr = true -> compute_backtrace fuel xs ys D tol maxstep f = Ok tr.
Proof.
  intros S. unfold compute_backtrace. destruct (f' (xs, ys)) as [k1|e|] eqn:E.
  - rewrite (S _ _ E). now apply loop_sub.
  - intros H C. injection H as <-. discriminate.
  - discriminate.
Qed.

(** C97: with an alarm at distance [d] around the wells (and, in unconfined mode, wherever there is no head of
    [d]) every backtrace of every model returns; and if the alarm did not end it, the drivers' own trace
    returns, and it is the same. *)
Lemma c97_alarm : forall (d : R) (confined : bool) (m : model R) (f : vec xr -> res (vec xr)) (p : pt) (D : R) (tol maxstep : xr),
  physical m -> 0 < d -> alarmed d confined m f ->
  below (/ 2 ^ 52 / (9 / 10) ^ 5) tol -> below (/ 2 ^ 52 / (9 / 10)) maxstep ->
  exists fuel tr, forall fuel', (fuel <= fuel')%nat ->
    compute_backtrace fuel' (Fin (fst p)) (Fin (snd p)) (Fin D) tol maxstep f = Ok tr /\
    (completed tr = true ->
     compute_backtrace fuel' (Fin (fst p)) (Fin (snd p)) (Fin D) tol maxstep (feval confined (fmodel m)) = Ok tr).
Proof.
  intros d c m f p D tol maxstep Hm Hd Ha Ht Hs. destruct (alarmed_grows d c m f Hm Hd Ha) as (g & Hg).
  assert (SUB : forall xy, f xy = feval c (fmodel m) xy \/ f xy = Raise AquiferError).
  { intros xy. destruct Ha as (H1 & H2 & H3). destruct (Classical_Prop.classic (finite xy)) as [(q & ->)|N]; [|left; auto].
    destruct (Classical_Prop.classic (clear d c m q)); auto. }
  assert (HT : total f).
  { intros xy E. destruct (SUB xy) as [H|H]; rewrite H in E; [|discriminate]. exact (feval_total _ _ _ E). }
  destruct (c39_growth_partial g p D tol maxstep f Hg HT Ht Hs) as (n & tr & Hn). exists n, tr. intros n' Hn'. split; [auto|].
  intros C. apply (backtrace_sub f); auto. intros xy k E. destruct (SUB xy) as [H|H]; congruence.
Qed.

(** C97, read for a trace that never returns: whatever the distance [d], the alarm goes off, and it does
    so after finitely many steps. *)
Lemma c97_forever : forall (confined : bool) (m : model R) (p : pt) (D : R) (tol maxstep : xr),
  physical m -> below (/ 2 ^ 52 / (9 / 10) ^ 5) tol -> below (/ 2 ^ 52 / (9 / 10)) maxstep ->
  (forall fuel, compute_backtrace fuel (Fin (fst p)) (Fin (snd p)) (Fin D) tol maxstep (feval confined (fmodel m)) = NoFuel) ->
  forall d f, 0 < d -> alarmed d confined m f ->
  exists fuel tr, compute_backtrace fuel (Fin (fst p)) (Fin (snd p)) (Fin D) tol maxstep f = Ok tr /\ completed tr = false.
Proof.
  intros c m p D tol maxstep Hm Ht Hs NF d f Hd Ha.
  destruct (c97_alarm d c m f p D tol maxstep Hm Hd Ha Ht Hs) as (n & tr & H). destruct (H n (le_n n)) as [H1 H2].
  exists n, tr. split; [exact H1|]. destruct (completed tr) eqn:C; [|reflexivity]. rewrite NF in H2. discriminate (H2 eq_refl).
Qed.

(** There is such a function for every model and distance. *)
Definition clear_dec d c m p : {clear d c m p} + {~ clear d c m p}.
Proof.
  assert (X : {forall w, In w (wells m) -> d * d <= wdist2 w (fst p) (snd p)} + {~ forall w, In w (wells m) -> d * d <= wdist2 w (fst p) (snd p)}).
  { induction (wells m) as [|w ws IH]; [left; intros w []|]. destruct (Rle_dec (d * d) (wdist2 w (fst p) (snd p))) as [L|L].
    - destruct IH as [IH|IH]; [left; intros v [<-|Hv]; auto|right; intros H; apply IH; intros v Hv; apply H; now right].
    - right. intros H. apply L, H. now left. }
  destruct X as [X|X]; [|right; intros [H _]; auto]. destruct c; [left; split; [exact X|discriminate]|].
  destruct (compute_head (fmodel m) (Fin (fst p)) (Fin (snd p))) as [[h| | |]| |] eqn:E;
  try (right; intros [_ H]; destruct (H eq_refl) as (h' & E' & _); congruence).
  destruct (Rle_dec d h) as [L|L]; [left; split; [exact X|intros _; exists h; auto]|].
  right. intros [_ H]. destruct (H eq_refl) as (h' & E' & L'). assert (h' = h) by congruence. subst. auto.
Defined.
Definition alarm d c m : vec xr -> res (vec xr) := fun xy =>
  match xy with
  | (Fin x, Fin y) => if clear_dec d c m (x, y) then feval c (fmodel m) xy else Raise AquiferError
  | _ => feval c (fmodel m) xy
  end.
Lemma c97_alarm_exists : forall (d : R) (confined : bool) (m : model R), exists f, alarmed d confined m f.
Proof.
  intros d c m. exists (alarm d c m). split; [|split].
  - intros [x y] H. unfold alarm, fvec. cbn [fst snd]. destruct (clear_dec d c m (x, y)); [reflexivity|contradiction].
  - intros [x y] H. unfold alarm, fvec. cbn [fst snd]. destruct (clear_dec d c m (x, y)); [contradiction|reflexivity].
  - intros [[x| | |] [y| | |]] N; try reflexivity. destruct N. now exists (x, y).
Qed.

(** The injection well of C40, whose trace never returns: with an alarm at any distance around it, the trace ends
    and is not complete. *)
Lemma c97_well_example : exists q, 0 < q /\ forall d f, 0 < d -> alarmed d true (injection q) f ->
  exists fuel tr, compute_backtrace fuel (Fin 0) (Fin 0) (Fin 1) (Fin 1) (Fin 1) f = Ok tr /\ completed tr = false.
Proof.
  destruct c40_well_refuted as (q & Hq & H). exists q. split; [exact Hq|]. intros d f Hd Ha.
  apply (c97_forever true (injection q) (0, 0) 1 (Fin 1) (Fin 1)) with (d := d); auto; try (cbn; lra).
  unfold physical, injection. cbn. lra.
Qed.
