(** * The drivers, continued: what the results mean at the nodes, means, randomness, recharge *)
From Coq Require Import Reals Lra Lia.
From Verif Require Import Py Num NumXR ModelField ModelAquifer ModelTrace ModelDist ModelDriver SpecField SpecAquifer SpecDriver.
From Verif Require Import ProofFieldProps ProofFieldHist ProofFieldFloat ProofTraceFlow ProofDriver.

Lemma calls_run_ops fuel l : forall (s s' : pfield xr), calls fuel s l = (s', Ok tt) -> run_ops fuel s l = s'.
Proof.
  unfold run_ops. induction l as [|o l IH]; intros s s' H; cbn [calls] in H; [injection H as <-; reflexivity|].
  cbn [fold_left]. destruct (run_op fuel s o) as [s1 [u|e|]]; [|discriminate H..]. cbn [fst]. apply IH, H.
Qed.
Lemma zones_weight (umbra : xr) zones : Forall finite_weight (concat (map (zone_calls umbra) zones)).
Proof.
  pose proof (zones_unit umbra zones) as H. induction H as [|o l Ho _ IH]; constructor; [|exact IH].
  destruct o; cbn in *; auto. subst. exists 1%R. reflexivity.
Qed.

Lemma init_wf d (x y : xr) s : fin_or_nan x -> fin_or_nan y -> pf_init (Fin d) (Fin d) x y = Ok s -> wf s.
Proof.
  intros Hx Hy H. assert (Hd : (0 < d)%R).
  { destruct (Rle_lt_dec d 0) as [L|L]; [|exact L]. exfalso. assert (E : pf_init (Fin d) (Fin d) x y = Raise RangeError) by (apply c01_constructor_rejects; auto). congruence. }
  destruct Hx as [(x0 & ->)| ->].
  - destruct Hy as [(y0 & ->)| ->].
    + destruct (c01_constructor_centred d d x0 y0 Hd Hd) as (s' & E & W & _). congruence.
    + destruct (c01_constructor_uncentred d d (Fin x0) NaN Hd Hd) as (s' & E & W & _); [auto|congruence].
  - destruct (c01_constructor_uncentred d d NaN y Hd Hd) as (s' & E & W & _); [auto|congruence].
Qed.

Lemma counted_nodes s n : counted s n ->
  total s (IZR n) /\ forall x y w m, has_node s x y w m -> m = false /\ exists k, (0 <= k <= n)%Z /\ w = IZR k.
Proof.
  intros (g & Eb & HW & HP & HR). split; [exists g; auto|]. intros x y w m (g' & i & j & dx & dy & x0 & y0 & Eb' & _ & _ & _ & _ & _ & _ & G1 & G2).
  rewrite Eb in Eb'. injection Eb' as <-. split.
  - destruct (get2_in _ _ _ _ G2) as (row & I1 & I2). exact (HR row m I1 I2).
  - destruct (get2_in _ _ _ _ G1) as (row & I1 & I2). destruct (HP row (Fin w) I1 I2) as (k & Hk & E). exists k. split; [exact Hk|]. cbn in E. congruence.
Qed.

(** C60 at the nodes of the field: the field is well formed, its total weight is the number of realizations, the
    weight at every node is a whole number of realizations, no node is marked. *)
Lemma c60_nodes : forall (G E : Type) (R : rng xr G) (mvn : E -> list xr -> list (list xr) -> list xr)
    fuel la entropy g target npaths duration nrealizations base_ c_dist p_dist t_dist ws observations spacing umbra confined tol maxstep s logs,
  (forall w, In w ws -> fin_or_nan (sx w) /\ fin_or_nan (sy w)) ->
  create_stochastic R mvn fuel la entropy g target npaths duration nrealizations base_ c_dist p_dist t_dist ws observations
                    (Fin spacing) umbra confined tol maxstep = Ok (s, logs) ->
  (0 < nrealizations)%Z ->
  wf s /\ total s (IZR nrealizations) /\
  forall x y w m, has_node s x y w m -> m = false /\ exists k, (0 <= k <= nrealizations)%Z /\ w = IZR k.
Proof.
  intros G E R mvn fuel la entropy g target npaths duration nrealizations base_ c_dist p_dist t_dist ws observations spacing umbra confined tol maxstep s logs Hw H Hn.
  pose proof (c60_stochastic _ _ _ _ _ _ _ _ _ _ _ _ _ _ _ _ _ _ _ _ _ _ _ _ _ H Hn) as C.
  split; [|apply counted_nodes, C]. apply c60_history in H. destruct H as (w & s0 & zones & Ew & I & _ & _ & HC).
  apply calls_run_ops in HC. rewrite <- HC. destruct (Hw w (nth_error_In _ _ Ew)). apply run_ops_wf; [eapply init_wf; [| |exact I]; assumption|apply zones_weight].
Qed.

(** C59 at the nodes. *)
Lemma c59_nodes : forall
    fuel la target npaths duration base_ c_dist p_dist t_dist ws observations spacing umbra confined tol maxstep s l,
  (forall w, In w ws -> fin_or_nan (sx w) /\ fin_or_nan (sy w)) ->
  create_deterministic fuel la target npaths duration base_ c_dist p_dist t_dist ws observations
                       (Fin spacing) umbra confined tol maxstep = Ok (s, l) ->
  wf s /\ total s 1 /\ forall x y w m, has_node s x y w m -> m = false /\ (w = 0 \/ w = 1)%R.
Proof.
  intros fuel la target npaths duration base_ c_dist p_dist t_dist ws observations spacing umbra confined tol maxstep s l Hw H.
  pose proof (c59_deterministic _ _ _ _ _ _ _ _ _ _ _ _ _ _ _ _ _ _ H) as C. apply counted_nodes in C. destruct C as [C1 C2].
  split; [|split; [exact C1|]].
  - apply c59_history in H. destruct H as (w & s0 & tracks & m & k & n & h & Ew & I & _ & _ & _ & _ & _ & _ & _ & _ & _ & _ & _ & _ & _ & _ & HC).
    pose proof (zones_weight umbra [tracks]) as Z. cbn [map concat] in Z. rewrite app_nil_r in Z.
    apply calls_run_ops in HC. rewrite <- HC. destruct (Hw w (nth_error_In _ _ Ew)). apply run_ops_wf; [eapply init_wf; [| |exact I]; assumption|exact Z].
  - intros x y w m Hn. destruct (C2 x y w m Hn) as (E1 & k & Hk & E2). split; [exact E1|].
    assert (k = 0 \/ k = 1)%Z as [->| ->] by lia; auto.
Qed.

(** C59: only the means matter, in any arithmetic.  (The deterministic driver has no random source among its
    arguments.) *)
Lemma c59_only_means : forall (T : Type) (N : Num T)
    fuel la target npaths duration base_ c_dist p_dist t_dist c_dist' p_dist' t_dist' ws ws' observations spacing umbra confined tol maxstep,
  compute_variate_mean c_dist = compute_variate_mean c_dist' -> compute_variate_mean p_dist = compute_variate_mean p_dist' ->
  compute_variate_mean t_dist = compute_variate_mean t_dist' ->
  Forall2 (fun w w' : swell T => sx w = sx w' /\ sy w = sy w' /\ sr w = sr w' /\ compute_variate_mean (sq w) = compute_variate_mean (sq w')) ws ws' ->
  create_deterministic fuel la target npaths duration base_ c_dist p_dist t_dist ws observations spacing umbra confined tol maxstep
  = create_deterministic fuel la target npaths duration base_ c_dist' p_dist' t_dist' ws' observations spacing umbra confined tol maxstep.
Proof.
  intros T N fuel la target npaths duration base_ c_dist p_dist t_dist c_dist' p_dist' t_dist' ws ws' observations spacing umbra confined tol maxstep Ec Ep Et F.
  unfold create_deterministic. rewrite Ec, Ep, Et.
  assert (Q : map_res (fun w => compute_variate_mean (sq w)) ws = map_res (fun w => compute_variate_mean (sq w)) ws').
  { clear - F. induction F as [|w w' ws ws' (_ & _ & _ & H) F IH]; cbn; [reflexivity|]. rewrite H, IH. reflexivity. }
  assert (W : forall qs, make_wells ws qs = make_wells ws' qs).
  { clear - F. induction F as [|w w' ws ws' (H1 & H2 & H3 & _) F IH]; intros [|q qs]; cbn; try reflexivity. rewrite H1, H2, H3.
    destruct (as_num q); cbn [bind]; try reflexivity. rewrite IH. reflexivity. }
  assert (X : match nth_error ws target, nth_error ws' target with
              | Some w, Some w' => sx w = sx w' /\ sy w = sy w' /\ sr w = sr w' | None, None => True | _, _ => False end).
  { clear - F. revert target. induction F as [|w w' ws ws' (H1 & H2 & H3 & _) F IH]; intros [|k]; cbn; auto. apply IH. }
  destruct (nth_error ws target) as [w|], (nth_error ws' target) as [w'|]; try contradiction X; [|reflexivity].
  destruct X as (-> & -> & ->). rewrite Q. destruct (pf_init _ _ _ _); cbn [bind]; try reflexivity.
  destruct (map_res _ ws'); cbn [bind]; try reflexivity. destruct (compute_variate_mean c_dist'); cbn [bind]; try reflexivity.
  destruct (compute_variate_mean p_dist'); cbn [bind]; try reflexivity. destruct (compute_variate_mean t_dist'); cbn [bind]; try reflexivity.
  unfold realization. rewrite W. reflexivity.
Qed.

(** A value that is not a tuple is its own mean and its own sample. *)
Definition constant {T} (v : pyval T) : Prop := forall l, v <> PTuple l.

(** C59: the deterministic run is the stochastic run of one realization, at constant parameters and with the
    expected coefficients drawn (up to the logged recharge, see C62). *)
Lemma c59_single_realization : forall (T : Type) (N : Num T) (G E : Type) (R : rng T G) (entropy : nat -> E) (g : G)
    fuel la target npaths duration base_ c_dist p_dist t_dist ws observations spacing umbra confined tol maxstep,
  constant c_dist -> constant p_dist -> constant t_dist -> (forall w : swell T, In w ws -> constant (sq w)) ->
  create_stochastic R (fun _ ev _ => ev) fuel la entropy g target npaths duration 1 base_ c_dist p_dist t_dist ws observations spacing umbra confined tol maxstep
  = match create_deterministic fuel la target npaths duration base_ c_dist p_dist t_dist ws observations spacing umbra confined tol maxstep with
    | Ok (s, l) => Ok (s, [{| l_conductivity := l_conductivity l; l_porosity := l_porosity l; l_thickness := l_thickness l;
                              l_recharge := recharge_stochastic (l_coef l); l_coef := l_coef l |}])
    | Raise e => Raise e
    | NoFuel => NoFuel
    end.
Proof.
  intros T N G E R entropy g fuel la target npaths duration base_ c_dist p_dist t_dist ws observations spacing umbra confined tol maxstep Hc Hp Ht Hw.
  assert (M : forall v : pyval T, constant v -> compute_variate_mean v = Ok v) by (intros [| | | | |l|] H; try reflexivity; contradiction (H l eq_refl)).
  assert (S : forall (v : pyval T) g, constant v -> generate_random_variate R g v = Ok (v, g)) by (intros [| | | | |l|] g0 H; try reflexivity; contradiction (H l eq_refl)).
  assert (MA : map_res (fun w : swell T => compute_variate_mean (sq w)) ws = Ok (map sq ws)).
  { clear - M Hw. induction ws as [|w ws IH]; cbn; [reflexivity|]. rewrite M by (apply Hw; left; reflexivity). cbn [bind]. rewrite IH by (intros; apply Hw; right; assumption). reflexivity. }
  assert (SA : sample_all R g (map sq ws) = Ok (map sq ws, g)).
  { clear - S Hw. induction ws as [|w ws IH]; cbn; [reflexivity|]. rewrite S by (apply Hw; left; reflexivity). cbn [bind]. rewrite IH by (intros; apply Hw; right; assumption). reflexivity. }
  unfold create_stochastic, create_deterministic. destruct (nth_error ws target) as [w|]; [|reflexivity].
  destruct (pf_init _ _ _ _) as [s0|e|]; cbn [bind]; try reflexivity. rewrite MA. cbn [bind]. rewrite !M by assumption. cbn [bind].
  change (Z.to_nat 1) with 1%nat. cbn [realizations]. rewrite SA. cbn [bind]. rewrite !S by assumption. cbn [bind]. rewrite S by assumption. cbn [bind]. rewrite S by assumption. cbn [bind].
  unfold realization.
  match goal with |- context [match ?r with Ok _ => _ | Raise _ => _ | NoFuel => _ end] => destruct r as [m|e|]; try reflexivity end.
  destruct (compute_capturezone _ _ _ _ _ _ _ _ _ _ _ _) as [s' [u|e|]]; cbn [bind]; reflexivity.
Qed.

(** ** C61, what is left *)

(** If the generator of the coefficients did not use fresh entropy, the result would be a function of the state
    of the global generator. *)
Lemma c61_seeded_partial : forall (T : Type) (N : Num T) (G E : Type) (R : rng T G) (mvn : E -> list T -> list (list T) -> list T)
    fuel la entropy entropy' g target npaths duration nrealizations base_ c_dist p_dist t_dist ws observations spacing umbra confined tol maxstep,
  (forall e e' mean cov, mvn e mean cov = mvn e' mean cov) ->
  create_stochastic R mvn fuel la entropy g target npaths duration nrealizations base_ c_dist p_dist t_dist ws observations spacing umbra confined tol maxstep
  = create_stochastic R mvn fuel la entropy' g target npaths duration nrealizations base_ c_dist p_dist t_dist ws observations spacing umbra confined tol maxstep.
Proof.
  intros T N G E R mvn fuel la entropy entropy' g target npaths duration nrealizations base_ c_dist p_dist t_dist ws observations spacing umbra confined tol maxstep Hm.
  unfold create_stochastic. destruct (nth_error ws target) as [w|]; [|reflexivity]. destruct (pf_init _ _ _ _) as [s0|e|]; cbn [bind]; try reflexivity.
  generalize 0%nat as i. generalize (@nil (run_log T)) as logs. revert g s0. induction (Z.to_nat nrealizations) as [|n IH]; intros g s0 logs i; cbn [realizations]; [reflexivity|].
  destruct (sample_all R g (map sq ws)) as [[qs g1]|e|]; cbn [bind]; try reflexivity.
  destruct (generate_random_variate R g1 c_dist) as [[kv g2]|e|]; cbn [bind]; try reflexivity.
  destruct (generate_random_variate R g2 p_dist) as [[nv g3]|e|]; cbn [bind]; try reflexivity.
  destruct (generate_random_variate R g3 t_dist) as [[hv g4]|e|]; cbn [bind]; try reflexivity.
  unfold realization.
  match goal with |- (let (_, _) := match ?r1 with Ok _ => _ | Raise _ => _ | NoFuel => _ end in _) = (let (_, _) := match ?r2 with Ok _ => _ | Raise _ => _ | NoFuel => _ end in _) =>
    assert (X : r1 = r2) end.
  { destruct (make_wells ws qs); cbn [bind]; try reflexivity. destruct (as_num kv); cbn [bind]; try reflexivity. destruct (as_num hv); cbn [bind]; try reflexivity.
    destruct (fit_regional_flow _ _ _ _ _) as [m1 [[ev C]|e|]]; cbn [bind]; try reflexivity. rewrite (Hm (entropy i) (entropy' i)). reflexivity. }
  rewrite X. match goal with |- context [match ?r with Ok _ => _ | Raise _ => _ | NoFuel => _ end] => destruct r as [m|e|]; try reflexivity end.
  destruct (compute_capturezone _ _ _ _ _ _ _ _ _ _ _ _) as [s' [u|e|]]; cbn [bind]; try reflexivity. apply IH.
Qed.

(** With constant distributions the global generator has no influence at all: whatever varies comes from the
    entropy. *)
Lemma c61_constant_partial : forall (T : Type) (N : Num T) (G G' E : Type) (R : rng T G) (R' : rng T G') (mvn : E -> list T -> list (list T) -> list T)
    fuel la entropy g g' target npaths duration nrealizations base_ c_dist p_dist t_dist ws observations spacing umbra confined tol maxstep,
  constant c_dist -> constant p_dist -> constant t_dist -> (forall w : swell T, In w ws -> constant (sq w)) ->
  create_stochastic R mvn fuel la entropy g target npaths duration nrealizations base_ c_dist p_dist t_dist ws observations spacing umbra confined tol maxstep
  = create_stochastic R' mvn fuel la entropy g' target npaths duration nrealizations base_ c_dist p_dist t_dist ws observations spacing umbra confined tol maxstep.
Proof.
  intros T N G G' E R R' mvn fuel la entropy g g' target npaths duration nrealizations base_ c_dist p_dist t_dist ws observations spacing umbra confined tol maxstep Hc Hp Ht Hw.
  assert (S : forall G (R : rng T G) (v : pyval T) g, constant v -> generate_random_variate R g v = Ok (v, g)) by (intros ? ? [| | | | |l|] g0 H; try reflexivity; contradiction (H l eq_refl)).
  assert (SA : forall G (R : rng T G) g, sample_all R g (map sq ws) = Ok (map sq ws, g)).
  { clear - S Hw. intros G R g. induction ws as [|w ws IH]; cbn; [reflexivity|]. rewrite S by (apply Hw; left; reflexivity). cbn [bind]. rewrite IH by (intros; apply Hw; right; assumption). reflexivity. }
  unfold create_stochastic. destruct (nth_error ws target) as [w|]; [|reflexivity]. destruct (pf_init _ _ _ _) as [s0|e|]; cbn [bind]; try reflexivity.
  generalize 0%nat as i. generalize (@nil (run_log T)) as logs. revert s0. induction (Z.to_nat nrealizations) as [|n IH]; intros s0 logs i; cbn [realizations]; [reflexivity|].
  rewrite !SA. cbn [bind]. rewrite !S by assumption. cbn [bind]. rewrite !S by assumption. cbn [bind]. rewrite !S by assumption. cbn [bind].
  destruct (realization _ _ _ _ _ _ _ _ _ _ _ _ _ _ _ _ _ _ _ _ _) as [s' [l|e|]]; cbn [bind]; try reflexivity. apply IH.
Qed.

(** ** C62 *)
(** The coefficients A = 1, B = 0: the drivers log opposite recharges. *)
Lemma c62_refuted : exists c : coef6 xr, recharge_stochastic c = Fin 2 /\ recharge_deterministic c = Fin (-2).
Proof.
  exists (fcoef {| cA := 1; cB := 0; cC := 0; cD := 0; cE := 0; cF := 0 |}%R). split; cbn; apply f_equal; ring.
Qed.

(** The recharge of the deterministic driver is the opposite of the other; they agree exactly when A + B = 0.
    (The recharge of the flow itself, minus the Laplacian of the potential, is what the deterministic driver logs.) *)
Lemma c62_opposite_partial : forall c : coef6 R,
  recharge_deterministic (fcoef c) = Fin (- (2 * cA c + 2 * cB c)) /\
  recharge_stochastic (fcoef c) = Fin (2 * cA c + 2 * cB c) /\
  (recharge_deterministic (fcoef c) = recharge_stochastic (fcoef c) <-> (cA c + cB c = 0)%R).
Proof.
  intros c.
  assert (E1 : recharge_deterministic (fcoef c) = Fin (- (2 * cA c + 2 * cB c))) by (cbn; apply f_equal; ring).
  assert (E2 : recharge_stochastic (fcoef c) = Fin (2 * cA c + 2 * cB c)) by (cbn; apply f_equal; ring).
  split; [exact E1|]. split; [exact E2|]. rewrite E1, E2. split; intros H; [injection H; lra|apply f_equal; lra].
Qed.
