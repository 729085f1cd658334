(** * Traces in an aquifer that need not be full, in binary64 *)
From Coq Require Import ZArith Reals Lra Lia SpecFloat List Psatz.
From Flocq Require Import Core.
From Verif Require Import Py Num NumXR ModelAquifer ModelTrace ModelDriver SpecFloats SpecExact SpecTrace SpecAquifer SpecPathline
  ProofFloat ProofFloatGrow ProofFloatOps ProofFloatMean ProofFloatGrid ProofDistError ProofFloatDist ProofPi
  ProofAquifer ProofHead ProofTrace ProofPathline ProofPathTube ProofPathWells ProofPathZone SpecUnconfined ProofPathUnconfined SpecWhole SpecPathZone ProofPathRun ProofPathExists SpecWater ProofWaterPath ProofWaterRun SpecRough ProofRoughPath ProofRoughFloat ProofRoughStep ProofRoughTrace
  SpecDischarge ProofDischargeFloat ProofDischargeAcc ProofDischargeTrace SpecField SpecVoyage SpecLevel ProofLevelPot ProofLevelHead ProofLevelVel.
Import ListNotations.
Local Open Scope R_scope.

Lemma ln_between a r b : 0 < a -> a <= r -> r <= b -> Rabs (ln r) <= Rabs (ln a) + Rabs (ln b).
Proof.
  intros Ha Hr Hb. assert (Mono : forall x y, 0 < x -> x <= y -> ln x <= ln y) by (intros x y Hx [Hxy| ->]; [left; now apply ln_increasing|right; reflexivity]).
  pose proof (Mono a r Ha Hr). pose proof (Mono r b ltac:(lra) Hb). unfold Rabs. repeat destruct (Rcase_abs _); lra.
Qed.

Lemma load_p_bound m X rho c q : 0 < rho -> Rabs (fst c) <= X -> Rabs (snd c) <= X -> pdist c q <= rho -> (forall w, In w (wells m) -> 2 * rho <= pdist c (wx w, wy w)) ->
  load_p m (fst q) (snd q) <= burden_p m X rho.
Proof.
  intros Hr Cx Cy Hq Hw. pose proof (dist_comps c q) as (N1 & N2). apply (fun h => Rle_trans _ _ _ h Hq) in N1. apply (fun h => Rle_trans _ _ _ h Hq) in N2. unfold burden_p. set (K := X + rho + Rabs (xo m) + Rabs (yo m)). cbv zeta.
  assert (G0 : forall a b o, Rabs b <= X -> Rabs (b - a) <= rho -> Rabs (a - o) <= X + rho + Rabs o).
  { intros a b o Hb Hab. replace (a - o) with (b + - (b - a) + - o) by ring.
    pose proof (Rabs_triang (b + - (b - a)) (- o)) as T1. pose proof (Rabs_triang b (- (b - a))) as T2. rewrite !Rabs_Ropp in *. lra. }
  pose proof (Rabs_pos (xo m)) as Pxo. pose proof (Rabs_pos (yo m)) as Pyo.
  assert (GX : Rabs (fst q - xo m) <= K) by (pose proof (G0 _ _ (xo m) Cx N1); unfold K; lra). assert (GY : Rabs (snd q - yo m) <= K) by (pose proof (G0 _ _ (yo m) Cy N2); unfold K; lra).
  assert (PK : 0 <= K) by (pose proof (Rabs_pos (fst q - xo m)); lra).
  assert (W : forall w, In w (wells m) -> Rabs (wq w) * (1 + Rabs (ln (wdist2 w (fst q) (snd q)))) / 12 <= Rabs (wq w) * (1 + 2 * (Rabs (ln rho) + Rabs (ln (2 * (X + rho) + Rabs (wx w) + Rabs (wy w))))) / 12).
  { intros w Iw. specialize (Hw w Iw). pose proof (pdist_triangle c q (wx w, wy w)) as Tr. set (r := pdist q (wx w, wy w)) in *. assert (Hrr : rho <= r) by lra.
    assert (ER : wdist2 w (fst q) (snd q) = r * r).
    { unfold r, pdist. cbn [fst snd]. rewrite sqrt_sqrt; [unfold wdist2; ring|]. apply Rplus_le_le_0_compat; apply Rle_0_sqr. }
    assert (Ur : r <= 2 * (X + rho) + Rabs (wx w) + Rabs (wy w)).
    { unfold r. rewrite pdist_norm. eapply Rle_trans; [apply pnorm_sum|]. unfold psub. cbn [fst snd]. rewrite (Rabs_minus_sym (wx w)), (Rabs_minus_sym (wy w)). pose proof (G0 _ _ (wx w) Cx N1). pose proof (G0 _ _ (wy w) Cy N2). lra. }
    rewrite ER, ln_mult by lra. pose proof (ln_between rho r _ Hr Hrr Ur) as B. replace (ln r + ln r) with (2 * ln r) by ring. rewrite Rabs_mult, (Rabs_pos_eq 2) by lra.
    unfold Rdiv. apply Rmult_le_compat_r; [lra|]. apply Rmult_le_compat_l; [apply Rabs_pos|]. lra. }
  assert (S : forall g h : well R -> R, (forall w, In w (wells m) -> g w <= h w) -> Rsum g (wells m) <= Rsum h (wells m)).
  { intros g h. clear. induction (wells m) as [|w l IH]; intros H; cbn [Rsum fold_right]; [lra|]. fold (Rsum g l) (Rsum h l). pose proof (H w (or_introl eq_refl)). pose proof (IH (fun x Hx => H x (or_intror Hx))). lra. }
  pose proof (S _ _ W) as S1. cbv beta in S1. unfold load_p.
  pose proof (Rabs_pos (cA (ModelAquifer.coef m))) as PA. pose proof (Rabs_pos (cB (ModelAquifer.coef m))) as PB. pose proof (Rabs_pos (cC (ModelAquifer.coef m))) as PC. pose proof (Rabs_pos (cD (ModelAquifer.coef m))) as PD. pose proof (Rabs_pos (cE (ModelAquifer.coef m))) as PE.
  set (a := Rabs (cA (ModelAquifer.coef m))) in *. set (b := Rabs (cB (ModelAquifer.coef m))) in *. set (e := Rabs (cC (ModelAquifer.coef m))) in *. set (dd := Rabs (cD (ModelAquifer.coef m))) in *. set (ee := Rabs (cE (ModelAquifer.coef m))) in *.
  assert (SQ : forall u, Rabs u <= K -> u * u <= K * K). { intros u Hu. replace (u * u) with (Rabs u * Rabs u) by (rewrite <- Rabs_mult; apply Rabs_pos_eq, Rle_0_sqr). apply Rmult_le_compat; try apply Rabs_pos; assumption. }
  assert (a * ((fst q - xo m) * (fst q - xo m)) <= a * (K * K)) by (apply Rmult_le_compat_l; [lra|now apply SQ]). assert (b * ((snd q - yo m) * (snd q - yo m)) <= b * (K * K)) by (apply Rmult_le_compat_l; [lra|now apply SQ]).
  assert (e * Rabs (fst q - xo m) * Rabs (snd q - yo m) <= e * (K * K)) by (rewrite Rmult_assoc; apply Rmult_le_compat_l; [lra|]; apply Rmult_le_compat; try apply Rabs_pos; assumption).
  assert (dd * Rabs (fst q - xo m) <= dd * K) by (apply Rmult_le_compat_l; lra). assert (ee * Rabs (snd q - yo m) <= ee * K) by (apply Rmult_le_compat_l; lra). lra.
Qed.

(** Within [rho] of a deep point the potential is that of a water [s] deep. *)
Lemma deep_potential m w rho s l c q : physical m -> 0 < rho -> deep m w rho s l -> In c l -> pdist c q <= rho -> conductivity m * (s * s) / 2 <= potential m (fst q) (snd q).
Proof.
  intros Hm Hrho Hd Ic Hq. destruct (Hd c Ic) as (D1 & D2 & D3). set (G := flux_change m rho) in *. assert (HG : 0 <= G) by now apply flux_change_pos. set (W := w + G * rho) in *.
  assert (Near : forall q o, pdist c q <= rho -> In o (wells m) -> rho <= pdist (wloc o) q).
  { intros q' o Hq' Ho. specialize (D2 o Ho). pose proof (pdist_triangle c q' (wloc o)) as T. unfold wloc in *. rewrite (pdist_sym q') in T. lra. }
  assert (Self : pdist c c <= rho) by (rewrite pdist_self; lra).
  assert (O : forall q, pdist c q <= rho -> off_wells (wells m) (fst q) (snd q)) by (intros q' Hq'; apply (far_off m rho); [exact Hrho|]; intros w' Hin; now apply Near).
  assert (U : forall q, pdist c q <= rho -> pnorm (ProofPathUnconfined.upstream m q) <= W).
  { intros q' Hq'. pose proof (upstream_change m q' c rho Hm Hrho (fun w' Hin => conj (Near q' w' Hq' Hin) (Near c w' Self Hin))) as C. fold G in C.
    assert (T : pnorm (ProofPathUnconfined.upstream m q') <= pnorm (ProofPathUnconfined.upstream m c) + pnorm (psub (ProofPathUnconfined.upstream m q') (ProofPathUnconfined.upstream m c))).
    { eapply Rle_trans; [|apply pnorm_add]. right. f_equal. unfold psub, padd. destruct (ProofPathUnconfined.upstream m q'), (ProofPathUnconfined.upstream m c). cbn. f_equal; ring. }
    rewrite (upstream_norm m c) in T. rewrite (pdist_sym q') in C. pose proof (Rmult_le_compat_l G _ _ HG Hq'). unfold W. lra. }
  assert (Pc : Rabs (potential m (fst q) (snd q) - potential m (fst c) (snd c)) <= W * pdist q c).
  { apply pot_change. intros x Hx. assert (C : pdist c (along q (psub c q) x) <= rho).
    { rewrite pdist_norm in *. replace (psub (along q (psub c q) x) c) with (pscale (1 - x) (psub q c)) by (unfold along, psub, padd, pscale; cbn [fst snd]; f_equal; ring).
      rewrite pnorm_scale, Rabs_pos_eq by lra. pose proof (pnorm_pos (psub q c)) as PP. assert (TT : (1 - x) * pnorm (psub q c) <= 1 * pnorm (psub q c)) by (apply Rmult_le_compat_r; lra). lra. }
    split; [exact (O _ C)|exact (U _ C)]. }
  assert (W0 : 0 <= W) by (eapply Rle_trans; [apply pnorm_pos|exact (U c Self)]). rewrite (pdist_sym q) in Pc. pose proof (Rmult_le_compat_l W _ _ W0 Hq). apply Rabs_le_inv in Pc. lra.
Qed.

Lemma faithful_unconfined lm eps m f w X rho s l : 0 <= eps <= / 1000 -> log_within lm eps -> moderate_model m -> sized (conductivity m) -> (Z.of_nat (length (wells m)) <= 10 ^ 12)%Z -> SpecWhole.upstream false (real_model m) f ->
  / huge <= rho -> X + rho <= huge -> (forall c, In c l -> Rabs (fst c) <= X /\ Rabs (snd c) <= X) -> 0 < s <= thickness (real_model m) -> deep (real_model m) w rho s l -> sound eps (real_model m) X rho s ->
  faithful (@feval _ (SF lm) false m) f (current_error eps (real_model m) X rho s) rho l.
Proof.
  intros Heps HL Hm Hk Hn Hf Hrho HX Hc Hs Hd (S1 & S2 & S3) c p Ic (Fp1 & Fp2) Hp. destruct (Hc c Ic) as (C1 & C2). destruct (Hd c Ic) as (_ & Hw & _). destruct (moderate_sized m Hm) as (Hth & Hpo).
  assert (Hr : 0 < rho) by (pose proof huge_one; assert (0 < / huge) by (apply Rinv_0_lt_compat; lra); lra).
  assert (Phys : physical (real_model m)).
  { destruct (sized_bpow _ Hk) as (_ & L1 & _). destruct (sized_bpow _ Hth) as (_ & L2 & _). destruct (sized_bpow _ Hpo) as (_ & L3 & _). pose proof (bpow_gt_0 radix2 (-200)). unfold physical. cbn [conductivity porosity thickness real_model]. repeat split; lra. }
  pose proof (dist_comps c (at_ p)) as (N1 & N2). unfold at_ at 1 in N1. unfold at_ at 1 in N2. cbn [fst snd] in N1, N2.
  assert (G : forall a b, Rabs b <= X -> Rabs (b - a) <= rho -> Rabs a <= huge).
  { intros a b Hb Hab. replace a with (b + - (b - a)) by ring. eapply Rle_trans; [apply Rabs_triang|]. rewrite Rabs_Ropp. lra. }
  assert (M1 : moderate (fst p)) by (split; [exact Fp1|apply (G _ (fst c)); lra]). assert (M2 : moderate (snd p)) by (split; [exact Fp2|apply (G _ (snd c)); lra]).
  assert (Far : forall w, In w (wells (real_model m)) -> rho <= pdist (at_ p) (wx w, wy w)).
  { intros o Io. pose proof (Hw o Io). pose proof (pdist_triangle c (at_ p) (wx o, wy o)). lra. }
  assert (Cl : clear_of_wells (real_model m) (fval (fst p), fval (snd p))) by (intros o Io; pose proof (Far o Io) as D; unfold at_ in D; lra).
  assert (Off : off_wells (wells (real_model m)) (fst (at_ p)) (snd (at_ p))).
  { apply (off_of_distance _ _ rho Hr). intros o Io. rewrite pdist_sym. exact (Far o Io). }
  destruct (loads_bound (real_model m) X rho c (at_ p) Hr C1 C2 Hp Hw) as (B1 & B2). pose proof (load_p_bound (real_model m) X rho c (at_ p) Hr C1 C2 Hp Hw) as B3.
  pose proof (deep_potential (real_model m) w rho s l c (at_ p) Phys Hr Hd Ic Hp) as P0.
  destruct (potential_total lm eps m (fst p) (snd p) Heps HL Hm M1 M2 Cl Hn) as (_ & _ & PL & _).
  assert (EQ : at_ p = (fval (fst p), fval (snd p))) by reflexivity. cbn [at_ fst snd] in B1, B2, B3, P0, Off.
  set (M := real_model m) in *. set (x := fval (fst p)) in *. set (y := fval (snd p)) in *. pose proof tiny_pos as Pt. pose proof (pos_INR (length (wells M))) as Pn.
  assert (Lp : 0 <= load_p M x y) by (eapply Rle_trans; [apply Rabs_pos|exact PL]).
  assert (LE : level_error eps M x y <= level_bound eps M X rho) by (unfold level_error, level_bound; apply Rmult_le_compat_l; [apply Rplus_le_le_0_compat; [apply Rmult_le_pos; lra|lra]|lra]).
  assert (LE0 : 0 <= level_error eps M x y) by (unfold level_error; apply Rmult_le_pos; [apply Rplus_le_le_0_compat; [apply Rmult_le_pos; lra|lra]|lra]).
  assert (Fm : firm eps M x y) by (split; [split; [lra|pose proof (Rle_abs (potential M x y)); lra]|lra]).
  assert (WD : s <= water_depth M x y) by (pose proof (saturated_above (conductivity M) (thickness M) _ s (proj1 Phys) Hs P0) as Q; exact Q).
  destruct (c127_velocity lm eps m (fst p) (snd p) Heps HL Hm Hk M1 M2 Cl Hn Fm) as (v & ux & uy & E1 & F1 & F2 & E2 & Ex & Ey & X1 & X2). cbv zeta in X1, X2. fold M x y in E2, Ex, Ey, X1, X2.
  unfold feval. rewrite E1. cbn [bind]. destruct v as [vx vy]. cbn [fst snd] in F1, F2, X1, X2. destruct (opp_op vx F1) as (G1 & O1). destruct (opp_op vy F2) as (G2 & O2).
  exists (SFopp vx, SFopp vy), (- ux, - uy). split; [reflexivity|]. split; [exact (conj G1 G2)|]. split.
  { rewrite (upstream_unconfined M f (at_ p) Phys Hf Off). unfold feval, fvec. rewrite EQ. cbn [fst snd]. rewrite E2. cbn [bind fst snd]. reflexivity. }
  eapply Rle_trans; [apply pnorm_sum|]. unfold at_, psub in *. cbn [fst snd] in *. rewrite O1, O2. replace (- fval vx - - ux) with (- (fval vx - ux)) by ring. replace (- fval vy - - uy) with (- (fval vy - uy)) by ring. rewrite !Rabs_Ropp.
  assert (LN : length (wells M) = length (wells m)) by (unfold M; cbn [real_model wells]; apply map_length). rewrite <- LN in X1, X2.
  set (b := water_depth M x y) in *. destruct Phys as (PK & Pp & Pth). assert (Pb : 0 < b) by lra. assert (Ps : 0 < s * porosity M) by (apply Rmult_lt_0_compat; lra). assert (Psb : s * porosity M <= b * porosity M) by (apply Rmult_le_compat_r; lra).
  assert (DE : depth_error eps M x y <= 3 * level_bound eps M X rho / (conductivity M * (s * s)) + / 2 ^ 47).
  { unfold depth_error. fold b. apply Rplus_le_compat_r. unfold Rdiv. assert (0 < conductivity M * (s * s)) by (apply Rmult_lt_0_compat; [lra|apply Rmult_lt_0_compat; lra]).
    apply Rmult_le_compat; [lra|left; apply Rinv_0_lt_compat; apply Rmult_lt_0_compat; [lra|apply Rmult_lt_0_compat; lra]|lra|]. apply Rinv_le_contravar; [assumption|]. apply Rmult_le_compat_l; [lra|]. apply Rmult_le_compat; lra. }
  assert (DE0 : 0 <= depth_error eps M x y).
  { unfold depth_error. fold b. apply Rplus_le_le_0_compat; [|left; apply Rinv_0_lt_compat, pow_lt; lra]. apply Rmult_le_pos; [lra|]. left. apply Rinv_0_lt_compat. apply Rmult_lt_0_compat; [lra|apply Rmult_lt_0_compat; lra]. }
  set (de := depth_error eps M x y) in *. set (D := 3 * level_bound eps M X rho / (conductivity M * (s * s)) + / 2 ^ 47) in *. set (n := INR (length (wells M))) in *.
  assert (P5 : 0 <= (n + 12) / 2 ^ 51) by (apply Rmult_le_pos; [lra|left; apply Rinv_0_lt_compat, pow_lt; lra]). unfold current_error. fold n D. set (N := (n + 12) / 2 ^ 51) in *.
  assert (Q : forall a, 0 <= a -> a <= burden M X rho -> (N + 2 * de) * ((a + tiny) / (b * porosity M)) <= (N + 2 * D) * ((burden M X rho + tiny) / (s * porosity M))).
  { intros a Ha Hab. apply Rmult_le_compat; [lra| |lra|].
    - apply Rmult_le_pos; [lra|left; apply Rinv_0_lt_compat; lra].
    - unfold Rdiv. apply Rmult_le_compat; [lra|left; apply Rinv_0_lt_compat; lra|lra|]. apply Rinv_le_contravar; lra. }
  destruct (discharge_total lm m (fst p) (snd p) Hm M1 M2 Cl Hn) as (T1 & T2 & _). fold M x y in T1, T2.
  assert (N3 : 0 <= load_x M x y) by (destruct T1 as (_ & _ & B); eapply Rle_trans; [apply Rabs_pos|exact B]). assert (N4 : 0 <= load_y M x y) by (destruct T2 as (_ & _ & B); eapply Rle_trans; [apply Rabs_pos|exact B]).
  pose proof (Q _ N3 B1). pose proof (Q _ N4 B2). lra.
Qed.

Lemma gentle_more f V L V' L' rho l : V <= V' -> L <= L' -> gentle f V L rho l -> gentle f V' L' rho l.
Proof.
  intros HV HL Hg c Ic. destruct (Hg c Ic) as (A & B). split.
  - intros q Hq. destruct (A q Hq) as (u & E & N). exists u. split; [exact E|lra].
  - intros q q' u u' Hq Hq' E E'. eapply Rle_trans; [exact (B q q' u u' Hq Hq' E E')|]. apply Rmult_le_compat_r; [apply pdist_pos|exact HL].
Qed.

(** C128.  A trace in binary64 in an aquifer that need not be full.  If its time steps are short, and if it keeps away from the wells and in deep
    water, then the water does follow a path from the start point for the time of the trace, only one, and the trace is near it:
    the distance is bounded by the steps, the velocity and its change, the number of wells, the precision of binary64 and that of the logarithm. *)
Lemma c128_unconfined : forall (lm : libm) (eps : R) (m : model spec_float) (fuel : nat) (xs ys duration tol maxstep : spec_float) (tr : trace spec_float),
  0 <= eps <= / 1000 -> log_within lm eps -> moderate_model m -> sized (conductivity m) -> (Z.of_nat (length (wells m)) <= 10 ^ 12)%Z -> let M := real_model m in
  @compute_backtrace _ (SF lm) fuel xs ys duration tol maxstep (@feval _ (SF lm) false m) = Ok tr -> ffinite xs -> ffinite ys ->
  exists dts, reckoned lm (@feval _ (SF lm) false m) tol maxstep tr dts /\
    forall (f : vec xr -> res (vec xr)) (w L rho s X H : R),
      let l := map at_ (vertices tr) in let ts := clock 0 dts in let T := last ts 0 in
      SpecWhole.upstream false M f -> / huge <= rho -> 0 <= H <= huge -> minute <= X -> X + rho <= huge ->
      (forall c, In c l -> Rabs (fst c) <= X /\ Rabs (snd c) <= X) -> (forall dt, In dt dts -> ffinite dt /\ 0 <= fval dt <= H) ->
      0 < s <= thickness M -> deep M w rho s l -> sound eps M X rho s -> 0 < L -> shear M w rho s <= L ->
      let V := pace M w rho s in let d := current_error eps M X rho s in
      let Rr := rounding X H V in let E := astray V L H (wrong L d Rr) Rr in
      V <= huge / 4 -> 50 * L * H <= 1 -> wrong L d Rr <= V -> E (length l) T + 2 * V * H + 140 * d * H + 3 * Rr < rho ->
      (forall v, In v (vertices tr) -> solid v) /\
      exists Z, Z 0 = (fval xs, fval ys) /\ moves f Z T /\
        (forall i, (i < length l)%nat -> let t := nth i ts 0 in 0 <= t <= T /\ pdist (nth i l (0, 0)) (Z t) <= E i t) /\
        beside (E (length l) T) l Z T /\
        forall Y, Y 0 = (fval xs, fval ys) -> moves f Y T -> forall t, 0 <= t <= T -> Y t = Z t.
Proof.
  intros lm eps m fuel xs ys duration tol maxstep tr Heps HLog Hm Hk Hn M Hr Fx Fy. destruct (c124_water lm _ fuel xs ys duration tol maxstep tr Hr Fx Fy) as (dts & K & W). exists dts. split; [exact K|].
  intros f w L rho s X H l ts T Hf Hrho HH HX HXr Hc Hs Hsd Hdp Hso HL HgL V d Rr E HV H50 Hw HE.
  assert (Hr0 : 0 < rho) by (pose proof huge_one; assert (0 < / huge) by (apply Rinv_0_lt_compat; lra); lra). assert (HX2 : X <= huge) by lra.
  pose proof (faithful_unconfined lm eps m f w X rho s l Heps HLog Hm Hk Hn Hf Hrho HXr Hc Hsd Hdp Hso) as Ff. fold M d in Ff.
  assert (Phys : physical M).
  { destruct (moderate_sized m Hm) as (Hth & Hpo). destruct (sized_bpow _ Hk) as (_ & L1 & _). destruct (sized_bpow _ Hth) as (_ & L2 & _). destruct (sized_bpow _ Hpo) as (_ & L3 & _). pose proof (bpow_gt_0 radix2 (-200)). unfold physical. cbn [conductivity porosity thickness M real_model]. repeat split; lra. }
  pose proof (gentle_more f _ _ V L rho l (Rle_refl _) HgL (deep_gentle M f w rho s l Phys Hf Hr0 Hsd Hdp)) as Gf.
  assert (Hd : 0 <= d).
  { unfold d, current_error. destruct Phys as (PK & Pp & _). pose proof tiny_pos as Pt. pose proof (pos_INR (length (wells M))) as Pn. assert (P0 : 0 <= X) by (pose proof minute_pos; lra).
    assert (Ps : 0 < conductivity M * (s * s)) by (apply Rmult_lt_0_compat; [lra|apply Rmult_lt_0_compat; lra]).
    assert (SP : forall g : well R -> R, (forall o, 0 <= g o) -> 0 <= Rsum g (wells M)) by (intros g Hg; clear - Hg; induction (wells M) as [|o l IH]; cbn [Rsum fold_right]; [lra|fold (Rsum g l); pose proof (Hg o); lra]).
    pose proof (Rabs_pos (cA (ModelAquifer.coef M))). pose proof (Rabs_pos (cB (ModelAquifer.coef M))). pose proof (Rabs_pos (cC (ModelAquifer.coef M))). pose proof (Rabs_pos (cD (ModelAquifer.coef M))). pose proof (Rabs_pos (cE (ModelAquifer.coef M))). pose proof (Rabs_pos (cF (ModelAquifer.coef M))). pose proof (Rabs_pos (xo M)). pose proof (Rabs_pos (yo M)).
    assert (Bp : 0 <= burden_p M X rho).
    { unfold burden_p. cbv zeta. repeat apply Rplus_le_le_0_compat; try assumption; [apply Rmult_le_pos; [lra|apply Rle_0_sqr]|apply Rmult_le_pos; lra|]. apply SP. intros o. unfold Rdiv. apply Rmult_le_pos; [|lra]. apply Rmult_le_pos; [apply Rabs_pos|]. pose proof (Rabs_pos (ln rho)). pose proof (Rabs_pos (ln (2 * (X + rho) + Rabs (wx o) + Rabs (wy o)))). lra. }
    assert (Bu : 0 <= burden M X rho).
    { unfold burden. repeat apply Rplus_le_le_0_compat; try assumption; [apply Rmult_le_pos; lra|]. apply Rmult_le_pos; [apply SP; intros o; apply Rabs_pos|left; apply Rinv_0_lt_compat; lra]. }
    apply Rmult_le_pos; [apply Rmult_le_pos; [lra|]; apply Rplus_le_le_0_compat|].
    - apply Rmult_le_pos; [lra|left; apply Rinv_0_lt_compat, pow_lt; lra].
    - apply Rmult_le_pos; [lra|]. apply Rplus_le_le_0_compat; [|left; apply Rinv_0_lt_compat, pow_lt; lra]. apply Rmult_le_pos; [|left; now apply Rinv_0_lt_compat]. apply Rmult_le_pos; [lra|]. unfold level_bound. apply Rmult_le_pos; [|lra]. apply Rplus_le_le_0_compat; [apply Rmult_le_pos; [lra|left; apply Rinv_0_lt_compat, pow_lt; lra]|lra].
    - apply Rmult_le_pos; [lra|left; apply Rinv_0_lt_compat, Rmult_lt_0_compat; lra]. }
  exact (W f V L rho d X H Hr0 HL Hd HH HV (conj HX HX2) Hc Hs Ff Gf H50 Hw HE).
Qed.

(** C128.  A chart (C125) for an aquifer that need not be full: what [charted] asks about the velocity follows from the discharge and the potential at the vertices, their distance
    from the wells and the size of the parameters. *)
Lemma c128_charted : forall (lm : libm) (eps : R) (m : model spec_float) (f : vec xr -> res (vec xr)) (w s : R) (k : chart) (r : trace spec_float * list spec_float),
  0 <= eps <= / 1000 -> log_within lm eps -> moderate_model m -> sized (conductivity m) -> (Z.of_nat (length (wells m)) <= 10 ^ 12)%Z -> let M := real_model m in SpecWhole.upstream false M f ->
  / huge <= c_rho k -> c_X k + c_rho k <= huge -> 0 < s <= thickness M -> deep M w (c_rho k) s (points r) -> sound eps M (c_X k) (c_rho k) s ->
  shear M w (c_rho k) s <= c_L k -> pace M w (c_rho k) s <= c_V k -> c_d k = current_error eps M (c_X k) (c_rho k) s ->
  (forall p, nth_error (vertices (fst r)) 0 = Some p -> solid p) -> (forall c, In c (points r) -> Rabs (fst c) <= c_X k /\ Rabs (snd c) <= c_X k) ->
  (forall dt, In dt (snd r) -> ffinite dt /\ 0 <= fval dt <= c_H k) -> (forall a b, consecutive (points r) a b -> pdist a b <= c_S k) ->
  (length (points r) <= c_N k)%nat -> span r <= c_T k ->
  charted (@feval _ (SF lm) false m) f k r.
Proof.
  intros lm eps m f w s k r Heps HLog Hm Hk Hn M Hf Hr HX Hs Hdp Hso HL HV Ed A1 A2 A3 A4 A5 A6. assert (P : 0 < / huge) by (pose proof huge_one; apply Rinv_0_lt_compat; lra).
  assert (Phys : physical M).
  { destruct (moderate_sized m Hm) as (Hth & Hpo). destruct (sized_bpow _ Hk) as (_ & L1 & _). destruct (sized_bpow _ Hth) as (_ & L2 & _). destruct (sized_bpow _ Hpo) as (_ & L3 & _). pose proof (bpow_gt_0 radix2 (-200)). unfold physical. cbn [conductivity porosity thickness M real_model]. repeat split; lra. }
  constructor; try assumption.
  - rewrite Ed. exact (faithful_unconfined lm eps m f w (c_X k) (c_rho k) s (points r) Heps HLog Hm Hk Hn Hf Hr HX A2 Hs Hdp Hso).
  - exact (gentle_more f _ _ _ _ _ _ HV HL (deep_gentle M f w (c_rho k) s (points r) Phys Hf ltac:(lra) Hs Hdp)).
Qed.
