(** * Traces in a confined aquifer in binary64 *)
From Coq Require Import ZArith Reals Lra Lia SpecFloat List Psatz.
From Flocq Require Import Core.
From Verif Require Import Py Num NumXR ModelAquifer ModelTrace ModelDriver SpecFloats SpecExact SpecTrace SpecAquifer SpecPathline
  ProofFloat ProofFloatGrow ProofFloatOps ProofFloatMean ProofFloatGrid ProofDistError ProofFloatDist ProofPi
  ProofAquifer ProofTrace ProofPathline ProofPathTube ProofPathWells ProofPathZone SpecWhole SpecPathZone ProofPathRun ProofPathExists SpecWater ProofWaterPath SpecRough ProofRoughPath ProofRoughFloat ProofRoughStep ProofRoughTrace
  SpecDischarge ProofDischargeFloat ProofDischargeAcc.
Import ListNotations.
Local Open Scope R_scope.

Lemma dist_comps p q : Rabs (fst p - fst q) <= pdist p q /\ Rabs (snd p - snd q) <= pdist p q.
Proof. rewrite pdist_sym. exact (pnorm_comps (psub p q)). Qed.

Lemma loads_bound m X rho c q : 0 < rho -> Rabs (fst c) <= X -> Rabs (snd c) <= X -> pdist c q <= rho -> (forall w, In w (wells m) -> 2 * rho <= pdist c (wx w, wy w)) ->
  load_x m (fst q) (snd q) <= burden m X rho /\ load_y m (fst q) (snd q) <= burden m X rho.
Proof.
  intros Hr Cx Cy Hq Hw. pose proof (dist_comps c q) as (N1 & N2).
  set (K := X + rho + Rabs (xo m) + Rabs (yo m)).
  assert (G : forall a b o o', Rabs b <= X -> Rabs (b - a) <= rho -> Rabs o + Rabs o' <= Rabs (xo m) + Rabs (yo m) -> Rabs (a - o) <= K).
  { intros a b o o' Hb Hab Ho. pose proof (Rabs_pos o'). replace (a - o) with (b + - (b - a) + - o) by ring.
    pose proof (Rabs_triang (b + - (b - a)) (- o)) as T1. pose proof (Rabs_triang b (- (b - a))) as T2. rewrite !Rabs_Ropp in *. unfold K. lra. }
  assert (GX : Rabs (fst q - xo m) <= K) by (apply (G _ (fst c) _ (yo m)); lra). assert (GY : Rabs (snd q - yo m) <= K) by (apply (G _ (snd c) _ (xo m)); lra).
  assert (PK : 0 <= K) by (pose proof (Rabs_pos (fst q - xo m)); lra).
  assert (W : forall w, In w (wells m) -> Rabs (wq w) * Rabs (fst q - wx w) / (6 * wdist2 w (fst q) (snd q)) <= / (6 * rho) * Rabs (wq w) /\
                                          Rabs (wq w) * Rabs (snd q - wy w) / (6 * wdist2 w (fst q) (snd q)) <= / (6 * rho) * Rabs (wq w)).
  { intros w Iw. specialize (Hw w Iw). pose proof (pdist_triangle c q (wx w, wy w)) as Tr. set (r := pdist q (wx w, wy w)) in *. assert (Hrr : rho <= r) by lra.
    pose proof (dist_comps q (wx w, wy w)) as (M1 & M2). fold r in M1, M2. cbn [fst snd] in M1, M2.
    assert (ER : wdist2 w (fst q) (snd q) = r * r).
    { unfold r, pdist. cbn [fst snd]. rewrite sqrt_sqrt; [unfold wdist2; ring|]. apply Rplus_le_le_0_compat; apply Rle_0_sqr. }
    rewrite ER.
    assert (F : forall d, d <= r -> Rabs (wq w) * d / (6 * (r * r)) <= / (6 * rho) * Rabs (wq w)).
    { intros d Hd. replace (Rabs (wq w) * d / (6 * (r * r))) with (d / r * / (6 * r) * Rabs (wq w)) by (field; lra). apply Rmult_le_compat_r; [apply Rabs_pos|].
      assert (D1 : d / r <= 1) by (apply Rmult_le_reg_r with r; [lra|]; unfold Rdiv; rewrite Rmult_assoc, Rinv_l by lra; lra).
      assert (D2 : / (6 * r) <= / (6 * rho)) by (apply Rinv_le_contravar; lra). assert (0 < / (6 * r)) by (apply Rinv_0_lt_compat; lra).
      apply Rle_trans with (1 * / (6 * r)); [apply Rmult_le_compat_r; lra|lra]. }
    split; apply F; assumption. }
  assert (S : forall g : well R -> R, (forall w, In w (wells m) -> g w <= / (6 * rho) * Rabs (wq w)) -> Rsum g (wells m) <= Rsum (fun w => Rabs (wq w)) (wells m) / (6 * rho)).
  { intros g. clear. induction (wells m) as [|w l IH]; intros H; cbn [Rsum fold_right]; [unfold Rdiv; lra|]. fold (Rsum g l) (Rsum (fun w => Rabs (wq w)) l).
    pose proof (H w (or_introl eq_refl)). pose proof (IH (fun x Hx => H x (or_intror Hx))). unfold Rdiv in *. lra. }
  pose proof (S _ (fun w Iw => proj1 (W w Iw))) as S1. pose proof (S _ (fun w Iw => proj2 (W w Iw))) as S2. cbv beta in S1, S2.
  pose proof (Rabs_pos (cA (ModelAquifer.coef m))) as PA. pose proof (Rabs_pos (cB (ModelAquifer.coef m))) as PB. pose proof (Rabs_pos (cC (ModelAquifer.coef m))) as PC. pose proof (Rabs_pos (cD (ModelAquifer.coef m))) as PD. pose proof (Rabs_pos (cE (ModelAquifer.coef m))) as PE.
  unfold load_x, load_y, burden. fold K.
  set (a := Rabs (cA (ModelAquifer.coef m))) in *. set (b := Rabs (cB (ModelAquifer.coef m))) in *. set (e := Rabs (cC (ModelAquifer.coef m))) in *.
  assert (a * Rabs (fst q - xo m) <= a * K) by (apply Rmult_le_compat_l; lra). assert (b * Rabs (snd q - yo m) <= b * K) by (apply Rmult_le_compat_l; lra).
  assert (e * Rabs (fst q - xo m) <= e * K) by (apply Rmult_le_compat_l; lra). assert (e * Rabs (snd q - yo m) <= e * K) by (apply Rmult_le_compat_l; lra).
  assert (0 <= a * K) by now apply Rmult_le_pos. assert (0 <= b * K) by now apply Rmult_le_pos. assert (0 <= e * K) by now apply Rmult_le_pos.
  split; lra.
Qed.

(** The exact velocity of a confined aquifer by its discharge. *)
Lemma exact_velocity m f q : physical m -> SpecWhole.upstream true m f -> off_wells (wells m) (fst q) (snd q) ->
  f (fvec q) = Ok (fvec (- (discharge_x m (fst q) (snd q) / (thickness m * porosity m)), - (discharge_y m (fst q) (snd q) / (thickness m * porosity m)))).
Proof.
  intros Hm Hf Ho. rewrite (upstream_confined m f q Hm Hf Ho). destruct Hm as (_ & Hp & Ht). unfold discharge_x, discharge_y, feval, compute_velocity_confined, fvec. cbn [fst snd]. rewrite compute_discharge_eq by exact Ho.
  cbn [fst snd Rval thickness porosity fmodel nmul ndiv nopp XR xmul]. assert (0 < thickness m * porosity m) by (apply Rmult_lt_0_compat; lra).
  rewrite !div_fin by lra. cbn [xopp]. reflexivity.
Qed.

Lemma faithful_confined lm m f X rho l : moderate_model m -> (Z.of_nat (length (wells m)) <= 10 ^ 12)%Z -> physical (real_model m) -> SpecWhole.upstream true (real_model m) f ->
  / huge <= rho -> X + rho <= huge -> (forall c, In c l -> Rabs (fst c) <= X /\ Rabs (snd c) <= X) -> (forall c w, In c l -> In w (wells (real_model m)) -> 2 * rho <= pdist c (wx w, wy w)) ->
  faithful (@feval _ (SF lm) true m) f ((INR (length (wells m)) + 12) / 2 ^ 51 * ((burden (real_model m) X rho + tiny) / (thickness (real_model m) * porosity (real_model m)))) rho l.
Proof.
  intros Hm Hn Hphys Hf Hrho HX Hc Hw c p Ic (Fp1 & Fp2) Hp. destruct (Hc c Ic) as (C1 & C2).
  assert (Hr : 0 < rho) by (pose proof huge_one; assert (0 < / huge) by (apply Rinv_0_lt_compat; lra); lra).
  pose proof (dist_comps c (at_ p)) as (N1 & N2). unfold at_ at 1 in N1. unfold at_ at 1 in N2. cbn [fst snd] in N1, N2.
  assert (G : forall a b, Rabs b <= X -> Rabs (b - a) <= rho -> Rabs a <= huge).
  { intros a b Hb Hab. replace a with (b + - (b - a)) by ring. eapply Rle_trans; [apply Rabs_triang|]. rewrite Rabs_Ropp. lra. }
  assert (M1 : moderate (fst p)) by (split; [exact Fp1|apply (G _ (fst c)); lra]). assert (M2 : moderate (snd p)) by (split; [exact Fp2|apply (G _ (snd c)); lra]).
  assert (Far : forall w, In w (wells (real_model m)) -> rho <= pdist (at_ p) (wx w, wy w)).
  { intros w Iw. pose proof (Hw c w Ic Iw). pose proof (pdist_triangle c (at_ p) (wx w, wy w)). lra. }
  assert (Cl : clear_of_wells (real_model m) (fval (fst p), fval (snd p))) by (intros w Iw; pose proof (Far w Iw) as D; unfold at_ in D; lra).
  assert (Off : off_wells (wells (real_model m)) (fst (at_ p)) (snd (at_ p))).
  { apply (off_of_distance _ _ rho Hr). intros w Iw. rewrite pdist_sym. exact (Far w Iw). }
  destruct (loads_bound (real_model m) X rho c (at_ p) Hr C1 C2 Hp (fun w Iw => Hw c w Ic Iw)) as (B1 & B2).
  pose proof (c123_velocity lm m (fst p) (snd p) Hm M1 M2 Cl Hn) as V. cbv zeta in V. unfold feval.
  destruct (@compute_velocity_confined _ (SF lm) m (fst p) (snd p)) as [vx vy]. cbn [fst snd] in V. destruct V as (F1 & F2 & E1 & E2).
  destruct (opp_op vx F1) as (G1 & O1). destruct (opp_op vy F2) as (G2 & O2).
  exists (SFopp vx, SFopp vy). eexists. split; [reflexivity|]. split; [exact (conj G1 G2)|]. split; [exact (exact_velocity _ f (at_ p) Hphys Hf Off)|].
  eapply Rle_trans; [apply pnorm_sum|]. unfold at_, psub in *. cbn [fst snd] in *. rewrite O1, O2.
  set (s := thickness (real_model m) * porosity (real_model m)) in *. assert (Ps : 0 < s) by (destruct Hphys as (_ & ? & ?); now apply Rmult_lt_0_compat).
  set (n := INR (length (wells m))) in *. assert (Pn : 0 <= n) by apply pos_INR. set (Bd := burden (real_model m) X rho) in *.
  assert (Q : forall a, a <= Bd -> (n + 12) / 2 ^ 52 * ((a + tiny) / s) <= (n + 12) / 2 ^ 52 * ((Bd + tiny) / s)).
  { intros a Ha. apply Rmult_le_compat_l; [apply Rmult_le_pos; [lra|left; apply Rinv_0_lt_compat, pow_lt; lra]|]. apply Rmult_le_compat_r; [left; now apply Rinv_0_lt_compat|lra]. }
  pose proof (Q _ B1) as Q1. pose proof (Q _ B2) as Q2.
  assert (EE : (n + 12) / 2 ^ 51 = 2 * ((n + 12) / 2 ^ 52)) by (clear; field). rewrite EE.
  match type of E1 with Rabs (fval vx - ?a) <= _ => replace (- fval vx - - a) with (- (fval vx - a)) by ring end.
  match type of E2 with Rabs (fval vy - ?a) <= _ => replace (- fval vy - - a) with (- (fval vy - a)) by ring end.
  rewrite !Rabs_Ropp. lra.
Qed.

Lemma calm_gentle m f v L rho l : physical m -> SpecWhole.upstream true m f -> 0 < rho -> gradient m rho <= L -> calm m f v rho l -> gentle f (v + L * rho) L rho l.
Proof.
  intros Hm Hf Hrho HL Hc c Ic. destruct (Hc c Ic) as (D1 & D2).
  assert (Off : forall q, pdist c q <= rho -> off_wells (wells m) (fst q) (snd q)).
  { intros q Hq. apply (off_of_distance _ _ rho Hrho). intros w Iw. specialize (D2 w Iw). pose proof (pdist_triangle c q (wx w, wy w)). rewrite pdist_sym. unfold wloc. lra. }
  destruct (confined_tame_at m f (fun _ => c) 0 v rho Hm Hrho (fun x Ho => upstream_confined m f x Hm Hf Ho)) as [_ T].
  { intros t _. pose proof (exact_velocity m f c Hm Hf (Off c ltac:(rewrite pdist_self; lra))) as E. eexists. split; [exact E|exact (D1 _ E)]. }
  { intros t w _ Iw. exact (D2 w Iw). }
  change (tame f (fun _ => c) 0 (v + gradient m rho * rho) (gradient m rho) rho) in T. split.
  - intros q Hq. destruct (tm_value _ _ _ _ _ _ T 0 q ltac:(lra) Hq) as (u & U1 & U2). exists u. split; [exact U1|]. assert (gradient m rho * rho <= L * rho) by (apply Rmult_le_compat_r; lra). lra.
  - intros q q' u u' Hq Hq' E E'. eapply Rle_trans; [exact (tm_change _ _ _ _ _ _ T 0 q q' u u' ltac:(lra) Hq Hq' E E')|]. apply Rmult_le_compat_r; [apply sqrt_pos|exact HL].
Qed.

(** C124.  A trace in a confined aquifer computed in binary64, whose model has numbers of moderate size.  If its time steps are short, and if it keeps
    away from the wells, then the water does follow a path from the start point for the time of the trace, only one, and the trace is near it:
    the distance is bounded by the steps, the speed and its change, the number of wells and the precision of binary64. *)
Lemma c124_confined : forall (lm : libm) (m : model spec_float) (fuel : nat) (xs ys duration tol maxstep : spec_float) (tr : trace spec_float),
  moderate_model m -> (Z.of_nat (length (wells m)) <= 10 ^ 12)%Z -> let M := real_model m in physical M ->
  @compute_backtrace _ (SF lm) fuel xs ys duration tol maxstep (@feval _ (SF lm) true m) = Ok tr -> ffinite xs -> ffinite ys ->
  exists dts, reckoned lm (@feval _ (SF lm) true m) tol maxstep tr dts /\
    forall (f : vec xr -> res (vec xr)) (v L rho X H : R),
      let l := map at_ (vertices tr) in let ts := clock 0 dts in let T := last ts 0 in
      SpecWhole.upstream true M f -> / huge <= rho -> 0 <= H <= huge -> minute <= X -> X + rho <= huge ->
      (forall c, In c l -> Rabs (fst c) <= X /\ Rabs (snd c) <= X) -> (forall dt, In dt dts -> ffinite dt /\ 0 <= fval dt <= H) ->
      calm M f v rho l -> 0 < L -> gradient M rho <= L ->
      let V := v + L * rho in let d := (INR (length (wells m)) + 12) / 2 ^ 51 * ((burden M X rho + tiny) / (thickness M * porosity M)) in
      let Rr := rounding X H V in let E := astray V L H (wrong L d Rr) Rr in
      V <= huge / 4 -> 50 * L * H <= 1 -> wrong L d Rr <= V -> E (length l) T + 2 * V * H + 140 * d * H + 3 * Rr < rho ->
      (forall v, In v (vertices tr) -> solid v) /\
      exists Z, Z 0 = (fval xs, fval ys) /\ moves f Z T /\
        (forall i, (i < length l)%nat -> let t := nth i ts 0 in 0 <= t <= T /\ pdist (nth i l (0, 0)) (Z t) <= E i t) /\
        beside (E (length l) T) l Z T /\
        forall Y, Y 0 = (fval xs, fval ys) -> moves f Y T -> forall t, 0 <= t <= T -> Y t = Z t.
Proof.
  intros lm m fuel xs ys duration tol maxstep tr Hm Hn M HM Hr Fx Fy. destruct (c124_water lm _ fuel xs ys duration tol maxstep tr Hr Fx Fy) as (dts & K & W). exists dts. split; [exact K|].
  intros f v L rho X H l ts T Hf Hrho HH HX HXr Hc Hs Hcalm HL HgL V d Rr E HV H50 Hw HE.
  assert (Hr0 : 0 < rho) by (pose proof huge_one; assert (0 < / huge) by (apply Rinv_0_lt_compat; lra); lra).
  assert (Hd : 0 <= d).
  { unfold d. apply Rmult_le_pos; [apply Rmult_le_pos; [pose proof (pos_INR (length (wells m))); lra|left; apply Rinv_0_lt_compat, pow_lt; lra]|].
    destruct HM as (_ & Hp & Ht). apply Rmult_le_pos; [|left; now apply Rinv_0_lt_compat, Rmult_lt_0_compat]. apply Rplus_le_le_0_compat; [|left; exact tiny_pos].
    unfold burden. assert (0 <= X) by (pose proof minute_pos; lra). pose proof (Rabs_pos (cA (ModelAquifer.coef M))). pose proof (Rabs_pos (cB (ModelAquifer.coef M))). pose proof (Rabs_pos (cC (ModelAquifer.coef M))).
    pose proof (Rabs_pos (cD (ModelAquifer.coef M))). pose proof (Rabs_pos (cE (ModelAquifer.coef M))). pose proof (Rabs_pos (xo M)). pose proof (Rabs_pos (yo M)).
    repeat apply Rplus_le_le_0_compat; try assumption; [apply Rmult_le_pos; lra|]. apply Rmult_le_pos; [|left; apply Rinv_0_lt_compat; lra].
    clear. induction (wells M) as [|w ws IH]; cbn [Rsum fold_right]; [lra|]. fold (Rsum (fun w => Rabs (wq w)) ws). pose proof (Rabs_pos (wq w)). lra. }
  assert (HX2 : X <= huge) by lra.
  exact (W f V L rho d X H Hr0 HL Hd HH HV (conj HX HX2) Hc Hs (faithful_confined lm m f X rho l Hm Hn HM Hf Hrho HXr Hc (fun c w Ic Iw => proj2 (Hcalm c Ic) w Iw)) (calm_gentle M f v L rho l HM Hf Hr0 HgL Hcalm) H50 Hw HE).
Qed.
