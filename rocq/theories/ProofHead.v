(** * Heads and velocities *)
From Coq Require Import Reals Lra Lia Psatz Permutation.
From Verif Require Import Py Num NumXR ModelAquifer SpecAquifer ProofPi ProofAquifer.
Local Open Scope R_scope.

(** ** C23 *)
Lemma c23_radial_inflow : exists k, Rabs (k - / (2 * PI)) <= 2 * / 10 ^ 17 /\
  forall m w r c s,
    wells m = [w] -> coef m = zero_coef -> 0 < r -> c * c + s * s = 1 ->
    exists qx qy,
      compute_discharge (fmodel m) (Fin (wx w + r * c)) (Fin (wy w + r * s)) = (Fin qx, Fin qy) /\
      - (qx * c + qy * s) = k * wq w / r /\
      qy * c - qx * s = 0 /\
      Rabs (2 * PI * r * - (qx * c + qy * s) - wq w) <= 13 / 10 ^ 17 * Rabs (wq w).
Proof.
  exists (2 * kappa). split; [exact kappa_2pi|]. intros m w r c s Ew Ec Hr Hcs.
  assert (Ho : off_wells (wells m) (wx w + r * c) (wy w + r * s)).
  { rewrite Ew. intros v [<-|[]] [E1 E2]. assert (r * c = 0) by lra. assert (r * s = 0) by lra.
    assert (r * r * (c * c + s * s) = 0) by (replace (r * r * (c * c + s * s)) with (r * c * (r * c) + r * s * (r * s)) by ring; rewrite H, H0; ring).
    rewrite Hcs in H1. nra. }
  assert (Hd : wdist2 w (wx w + r * c) (wy w + r * s) = r * r).
  { unfold wdist2. replace ((wx w + r * c - wx w) * (wx w + r * c - wx w) + (wy w + r * s - wy w) * (wy w + r * s - wy w))
      with (r * r * (c * c + s * s)) by ring. rewrite Hcs. ring. }
  do 2 eexists. split; [now apply compute_discharge_eq|]. rewrite Ew, Ec. cbn [zero_coef cA cB cC cD cE Rsum fold_right].
  unfold wqx, wqy. rewrite Hd.
  assert (Hin : - ((- (2 * 0 * (wx w + r * c - xo m) + 0 * (wy w + r * s - yo m) + 0) +
       2 * kappa * (- wq w * (wx w + r * c - wx w) / (r * r) + 0)) * c +
       (- (2 * 0 * (wy w + r * s - yo m) + 0 * (wx w + r * c - xo m) + 0) +
       2 * kappa * (- wq w * (wy w + r * s - wy w) / (r * r) + 0)) * s) = 2 * kappa * wq w / r).
  { replace (2 * kappa * wq w / r) with (2 * kappa * wq w / r * (c * c + s * s)) by (rewrite Hcs; ring). field. lra. }
  split; [exact Hin|]. split; [field; lra|]. rewrite Hin.
  replace (2 * PI * r * (2 * kappa * wq w / r) - wq w) with ((2 * PI * (2 * kappa) - 1) * wq w) by (field; lra).
  rewrite Rabs_mult. apply Rmult_le_compat_r; [apply Rabs_pos|exact kappa_flux].
Qed.

(** ** C24 *)
Lemma head_cases K H p : 0 < K -> 0 < H ->
  head_of_potential (Fin K) (Fin H) (Fin p) =
    if Rle_dec p 0 then Raise AquiferError
    else if Rlt_dec p (K * (H * H) / 2) then Ok (Fin (sqrt (2 * p / K)))
    else Ok (Fin ((p + K * (H * H) / 2) / (K * H))).
Proof.
  intros HK HH. unfold head_of_potential, nsq. cbn [nle nlt nZ XR xle xlt nlit nmul xmul nadd xadd].
  assert (KH : K * H <> 0) by (apply Rmult_integral_contrapositive; lra).
  destruct (Rle_dec p 0) as [H0|H0]; [rewrite (proj2 (Rleb_true p 0) H0); reflexivity|].
  rewrite (proj2 (Rleb_false p 0)) by lra.
  replace (1 / 2 * K * (H * H)) with (K * (H * H) / 2) by field.
  destruct (Rlt_dec p (K * (H * H) / 2)) as [H1|H1].
  - rewrite (proj2 (Rltb_true _ _) H1). cbn [ndiv XR]. rewrite div_fin by lra. cbn [nsqrt XR xsqrt].
    rewrite (proj2 (Rltb_false _ _)); [reflexivity|]. apply Rmult_le_pos; [lra|left; now apply Rinv_0_lt_compat].
  - rewrite (proj2 (Rltb_false _ _)) by lra. cbn [ndiv XR]. now rewrite div_fin.
Qed.

Lemma girinskii_head K H p : 0 < K -> 0 < H -> 0 < p -> 0 < head_at K H p /\ girinskii K H (head_at K H p) = p /\
  (head_at K H p < H <-> p < K * (H * H) / 2).
Proof.
  intros HK HH Hp. unfold head_at. rewrite head_cases by auto.
  destruct (Rle_dec p 0) as [H0|H0]; [lra|]. clear H0.
  assert (KH : 0 < K * H) by now apply Rmult_lt_0_compat.
  destruct (Rlt_dec p (K * (H * H) / 2)) as [H1|H1]; cbn [Rval].
  - assert (P : 0 < 2 * p / K) by (apply Rmult_lt_0_compat; [lra|now apply Rinv_0_lt_compat]).
    assert (S : sqrt (2 * p / K) < H).
    { rewrite <- (sqrt_square H) by lra. apply sqrt_lt_1_alt. split; [lra|].
      apply Rmult_lt_reg_r with K; [auto|]. unfold Rdiv. rewrite Rmult_assoc, Rinv_l by lra. lra. }
    split; [now apply sqrt_lt_R0|]. split; [|tauto]. unfold girinskii. destruct (Rlt_dec _ H); [|contradiction].
    rewrite sqrt_sqrt by lra. field. lra.
  - assert (S : H <= (p + K * (H * H) / 2) / (K * H)).
    { apply Rmult_le_reg_r with (K * H); [auto|]. unfold Rdiv at 1. rewrite Rmult_assoc, Rinv_l by lra. nra. }
    split; [lra|]. split; [|lra]. unfold girinskii. destruct (Rlt_dec _ H); [lra|]. field. lra.
Qed.

Lemma girinskii_increasing K H a b : 0 < K -> 0 < H -> 0 < a -> a < b -> girinskii K H a < girinskii K H b.
Proof.
  intros HK HH Ha Hab. unfold girinskii. assert (0 < K * H) by now apply Rmult_lt_0_compat.
  destruct (Rlt_dec a H), (Rlt_dec b H); try lra.
  - apply Rmult_lt_compat_r; [lra|]. apply Rmult_lt_compat_l; [auto|]. nra.
  - assert (K * (a * a) < K * (H * H)) by (apply Rmult_lt_compat_l; [auto|nra]). nra.
  - nra.
Qed.

Lemma c24_head_inverts_potential : forall m x y p,
  physical m -> compute_potential (fmodel m) (Fin x) (Fin y) = Fin p ->
  (compute_head (fmodel m) (Fin x) (Fin y) = Raise AquiferError <-> p <= 0) /\
  (0 < p -> exists h, compute_head (fmodel m) (Fin x) (Fin y) = Ok (Fin h) /\ 0 < h /\
     girinskii (conductivity m) (thickness m) h = p /\
     forall h', 0 < h' -> girinskii (conductivity m) (thickness m) h' = p -> h' = h).
Proof.
  intros m x y p (HK & _ & HH) Ep. unfold compute_head. rewrite Ep. cbn [conductivity thickness fmodel]. split.
  - rewrite head_cases by auto. destruct (Rle_dec p 0) as [H0|H0]; [tauto|].
    split; [|lra]. destruct (Rlt_dec _ _); discriminate.
  - intros Hp. destruct (girinskii_head _ _ p HK HH Hp) as (A & B & _).
    exists (head_at (conductivity m) (thickness m) p). split.
    { unfold head_at. rewrite head_cases by auto. destruct (Rle_dec p 0); [lra|]. destruct (Rlt_dec _ _); reflexivity. }
    split; [exact A|]. split; [exact B|]. intros h' H1 H2.
    destruct (Rtotal_order h' (head_at (conductivity m) (thickness m) p)) as [L|[E|L]]; [|exact E|].
    + apply (girinskii_increasing (conductivity m) (thickness m)) in L; auto; lra.
    + apply (girinskii_increasing (conductivity m) (thickness m)) in L; auto; lra.
Qed.

Lemma c24_head_increasing : forall K H p q,
  0 < K -> 0 < H -> 0 < p -> p < q -> head_at K H p < head_at K H q.
Proof.
  intros K H p q HK HH Hp Hpq.
  destruct (girinskii_head K H p HK HH Hp) as (A & B & _).
  destruct (girinskii_head K H q HK HH ltac:(lra)) as (A' & B' & _).
  destruct (Rlt_dec (head_at K H p) (head_at K H q)) as [L|L]; [exact L|exfalso].
  destruct (Req_dec (head_at K H p) (head_at K H q)) as [E|E]; [rewrite E in B; lra|].
  assert (L' : head_at K H q < head_at K H p) by lra.
  apply (girinskii_increasing K H) in L'; auto. lra.
Qed.

Lemma continuity_glue f g a : continuity_pt f a -> continuity_pt g a -> f a = g a ->
  continuity_pt (fun t => if Rlt_dec t a then f t else g t) a.
Proof.
  intros Hf Hg E eps Heps. destruct (Hf eps Heps) as (d1 & P1 & H1). destruct (Hg eps Heps) as (d2 & P2 & H2).
  exists (Rmin d1 d2). split; [now apply Rmin_pos|]. intros t (Ht1 & Ht2).
  assert (L1 : dist R_met t a < d1) by (eapply Rlt_le_trans; [exact Ht2|apply Rmin_l]).
  assert (L2 : dist R_met t a < d2) by (eapply Rlt_le_trans; [exact Ht2|apply Rmin_r]).
  destruct (Rlt_dec a a); [lra|]. destruct (Rlt_dec t a).
  - rewrite <- E. apply H1. auto.
  - apply H2. auto.
Qed.

Lemma continuity_near f g a : (exists e, 0 < e /\ forall t, Rabs (t - a) < e -> f t = g t) ->
  continuity_pt f a -> continuity_pt g a.
Proof.
  intros (e & He & Hfg) H eps Heps. destruct (H eps Heps) as (d & P & Hd).
  exists (Rmin d e). split; [now apply Rmin_pos|]. intros t (Ht1 & Ht2). cbn in *. unfold R_dist in *.
  rewrite <- !Hfg.
  - apply Hd. split; [exact Ht1|]. eapply Rlt_le_trans; [exact Ht2|apply Rmin_l].
  - replace (a - a) with 0 by ring. rewrite Rabs_R0. exact He.
  - eapply Rlt_le_trans; [exact Ht2|apply Rmin_r].
Qed.

Lemma c24_head_continuous : forall K H p,
  0 < K -> 0 < H -> 0 < p -> continuity_pt (head_at K H) p.
Proof.
  intros K H p HK HH Hp. set (p0 := K * (H * H) / 2).
  assert (KH : 0 < K * H) by now apply Rmult_lt_0_compat.
  assert (P0 : 0 < p0) by (unfold p0; nra).
  assert (C1 : forall q, 0 < q -> continuity_pt (fun t => sqrt (2 * t / K)) q).
  { intros q Hq. apply (continuity_pt_comp (fun t => 2 * t / K) sqrt).
    - apply derivable_continuous_pt. reg.
    - apply continuity_pt_sqrt. apply Rmult_le_pos; [lra|left; now apply Rinv_0_lt_compat]. }
  assert (C2 : forall q, continuity_pt (fun t => (t + p0) / (K * H)) q).
  { intros q. apply derivable_continuous_pt. reg. }
  apply continuity_near with (f := fun t => if Rlt_dec t p0 then sqrt (2 * t / K) else (t + p0) / (K * H)).
  { exists p. split; [exact Hp|]. intros t Ht. apply Rabs_def2 in Ht.
    unfold head_at. rewrite head_cases by auto. destruct (Rle_dec t 0); [lra|]. fold p0. destruct (Rlt_dec t p0); reflexivity. }
  destruct (Rtotal_order p p0) as [L|[E|L]].
  - apply continuity_near with (f := fun t => sqrt (2 * t / K)); [|now apply C1].
    exists (p0 - p). split; [lra|]. intros t Ht. apply Rabs_def2 in Ht. destruct (Rlt_dec t p0); [reflexivity|lra].
  - rewrite E. apply continuity_glue; [now apply C1|apply C2|].
    unfold p0. replace (2 * (K * (H * H) / 2) / K) with (H * H) by (field; lra). rewrite sqrt_square by lra. field. lra.
  - apply continuity_near with (f := fun t => (t + p0) / (K * H)); [|apply C2].
    exists (p - p0). split; [lra|]. intros t Ht. apply Rabs_def2 in Ht. destruct (Rlt_dec t p0); [lra|reflexivity].
Qed.

(** ** C25 *)
Lemma velocity_cases m x y p : physical m -> off_wells (wells m) x y ->
  compute_potential (fmodel m) (Fin x) (Fin y) = Fin p ->
  compute_velocity (fmodel m) (Fin x) (Fin y) =
    if Rle_dec p 0 then Raise AquiferError
    else let b := Rmin (head_at (conductivity m) (thickness m) p) (thickness m) in
         Ok (Fin (discharge_x m x y / (b * porosity m)), Fin (discharge_y m x y / (b * porosity m))).
Proof.
  intros (HK & Hn & HH) Ho Ep. unfold discharge_x, discharge_y, compute_velocity, compute_head. rewrite Ep.
  rewrite compute_discharge_eq by exact Ho. cbn [conductivity thickness porosity fmodel fst snd Rval].
  rewrite head_cases by auto. destruct (Rle_dec p 0) as [H0|H0]; [reflexivity|].
  destruct (girinskii_head _ _ p HK HH ltac:(lra)) as (A & B & C).
  unfold head_at in *. rewrite head_cases in * by auto. destruct (Rle_dec p 0); [lra|].
  destruct (Rlt_dec p _) as [H1|H1]; cbn [Rval] in *; cbn [bind].
  - set (h := sqrt _) in *. cbn [nle nlt nZ XR xle xlt nmul xmul ndiv]. rewrite (proj2 (Rleb_false h 0)) by lra.
    assert (h < thickness m) by tauto. rewrite (proj2 (Rltb_false _ _)) by lra.
    rewrite Rmin_left by lra. rewrite !div_fin by (apply Rmult_integral_contrapositive; lra). reflexivity.
  - set (h := (p + _) / _) in *. cbn [nle nlt nZ XR xle xlt nmul xmul ndiv]. rewrite (proj2 (Rleb_false h 0)) by lra.
    assert (thickness m <= h) by (destruct (Rlt_dec h (thickness m)); [tauto|lra]).
    rewrite Rmin_right by lra. destruct (Rltb_spec (thickness m) h) as [H2|H2].
    + rewrite !div_fin by (apply Rmult_integral_contrapositive; lra). reflexivity.
    + assert (E : h = thickness m) by lra. rewrite E. rewrite !div_fin by (apply Rmult_integral_contrapositive; lra). reflexivity.
Qed.

(** Velocity = discharge / (porosity * saturated thickness). *)
Lemma c25_velocity : forall m x y p qx qy,
  physical m -> off_wells (wells m) x y ->
  compute_potential (fmodel m) (Fin x) (Fin y) = Fin p ->
  compute_discharge (fmodel m) (Fin x) (Fin y) = (Fin qx, Fin qy) ->
  (p <= 0 -> compute_velocity (fmodel m) (Fin x) (Fin y) = Raise AquiferError) /\
  (0 < p -> exists h, compute_head (fmodel m) (Fin x) (Fin y) = Ok (Fin h) /\ 0 < h /\
     compute_velocity (fmodel m) (Fin x) (Fin y)
     = Ok (Fin (qx / (porosity m * Rmin h (thickness m))), Fin (qy / (porosity m * Rmin h (thickness m))))).
Proof.
  intros m x y p qx qy Hm Ho Ep Eq. rewrite (velocity_cases m x y p Hm Ho Ep).
  assert (E1 : discharge_x m x y = qx) by (unfold discharge_x; rewrite Eq; reflexivity).
  assert (E2 : discharge_y m x y = qy) by (unfold discharge_y; rewrite Eq; reflexivity).
  rewrite E1, E2. split.
  - intros Hp. destruct (Rle_dec p 0); [reflexivity|lra].
  - intros Hp. destruct (Rle_dec p 0); [lra|]. destruct (c24_head_inverts_potential m x y p Hm Ep) as [_ Hh].
    destruct (Hh Hp) as (h & Eh & Ph & _). exists h. split; [exact Eh|]. split; [exact Ph|]. cbn zeta.
    assert (Ehd : head_at (conductivity m) (thickness m) p = h).
    { unfold compute_head in Eh. rewrite Ep in Eh. unfold head_at. cbn [conductivity thickness fmodel] in Eh. rewrite Eh. reflexivity. }
    rewrite Ehd. rewrite (Rmult_comm _ (porosity m)). reflexivity.
Qed.

(** The program's own test [head <= 0] never succeeds: whenever a head is computed it is positive. *)
Lemma c25_dry_branch_unreachable : forall m x y h,
  physical m -> off_wells (wells m) x y ->
  compute_head (fmodel m) (Fin x) (Fin y) = Ok h -> nle h (nZ 0) = false.
Proof.
  intros m x y h Hm Ho Eh. destruct (c21_discharge_is_minus_gradient m x y Ho) as (p & _ & _ & Ep & _).
  destruct (c24_head_inverts_potential m x y p Hm Ep) as [H1 H2].
  destruct (Rle_dec p 0) as [H0|H0]; [apply H1 in H0; congruence|].
  destruct (H2 ltac:(lra)) as (h' & E & P & _). rewrite E in Eh. injection Eh as <-. cbn. apply Rleb_false. exact P.
Qed.

(** ** C26 *)
Lemma c26_confined_shortcut : forall m x y p,
  physical m -> off_wells (wells m) x y ->
  compute_potential (fmodel m) (Fin x) (Fin y) = Fin p ->
  exists cx cy, compute_velocity_confined (fmodel m) (Fin x) (Fin y) = (Fin cx, Fin cy) /\
    (conductivity m * thickness m ^ 2 / 2 <= p -> compute_velocity (fmodel m) (Fin x) (Fin y) = Ok (Fin cx, Fin cy)) /\
    (0 < p < conductivity m * thickness m ^ 2 / 2 ->
       exists vx vy, compute_velocity (fmodel m) (Fin x) (Fin y) = Ok (Fin vx, Fin vy) /\
         Rabs cx <= Rabs vx /\ Rabs cy <= Rabs vy /\
         (vx <> 0 -> Rabs cx < Rabs vx) /\ (vy <> 0 -> Rabs cy < Rabs vy)).
Proof.
  intros m x y p Hm Ho Ep. pose proof Hm as (HK & Hn & HH).
  rewrite (velocity_cases m x y p Hm Ho Ep).
  exists (discharge_x m x y / (thickness m * porosity m)), (discharge_y m x y / (thickness m * porosity m)).
  split; [|split].
  - unfold compute_velocity_confined, discharge_x, discharge_y. rewrite compute_discharge_eq by exact Ho.
    cbn [fst snd Rval thickness porosity fmodel nmul ndiv XR xmul].
    rewrite !div_fin by (apply Rmult_integral_contrapositive; lra). reflexivity.
  - intros Hp. assert (P0 : 0 < conductivity m * thickness m ^ 2 / 2) by (cbn; assert (0 < conductivity m * thickness m) by (apply Rmult_lt_0_compat; lra); nra).
    destruct (Rle_dec p 0); [lra|]. cbn zeta.
    destruct (girinskii_head _ _ p HK HH ltac:(lra)) as (A & B & C). cbn in Hp. 
    assert (thickness m <= head_at (conductivity m) (thickness m) p).
    { destruct (Rlt_dec (head_at (conductivity m) (thickness m) p) (thickness m)) as [L|L]; [|lra]. apply C in L. lra. }
    rewrite Rmin_right by lra. reflexivity.
  - intros [Hp1 Hp2]. destruct (Rle_dec p 0); [lra|]. cbn zeta.
    destruct (girinskii_head _ _ p HK HH ltac:(lra)) as (A & B & C). cbn in Hp2.
    assert (L : head_at (conductivity m) (thickness m) p < thickness m) by (apply C; lra).
    rewrite Rmin_left by lra. set (h := head_at _ _ p) in *.
    assert (P1 : 0 < h * porosity m) by (apply Rmult_lt_0_compat; lra).
    assert (P2 : h * porosity m < thickness m * porosity m) by (apply Rmult_lt_compat_r; lra).
    assert (Hinv : / (thickness m * porosity m) < / (h * porosity m)) by (apply Rinv_lt_contravar; [apply Rmult_lt_0_compat; lra|lra]).
    assert (HI : 0 < / (thickness m * porosity m)) by (apply Rinv_0_lt_compat; lra).
    assert (Hab : forall q, Rabs (q / (thickness m * porosity m)) <= Rabs (q / (h * porosity m)) /\
                 (q / (h * porosity m) <> 0 -> Rabs (q / (thickness m * porosity m)) < Rabs (q / (h * porosity m)))).
    { intros q. unfold Rdiv. rewrite !Rabs_mult. rewrite (Rabs_pos_eq (/ (thickness m * porosity m))) by lra.
      rewrite (Rabs_pos_eq (/ (h * porosity m))) by lra. split.
      - apply Rmult_le_compat_l; [apply Rabs_pos|lra].
      - intros Hq. apply Rmult_lt_compat_l; [|lra]. apply Rabs_pos_lt. intros ->. apply Hq. ring. }
    do 2 eexists. split; [reflexivity|]. split; [apply Hab|]. split; [apply Hab|]. split; apply Hab.
Qed.

(** On a well the confined shortcut yields NaN; it never raises (it has no raising branch). *)
Lemma c26_confined_at_well : forall m w,
  physical m -> wells m = [w] ->
  compute_velocity_confined (fmodel m) (Fin (wx w)) (Fin (wy w)) = (NaN, NaN).
Proof.
  intros m w (HK & Hn & HH) E. unfold compute_velocity_confined, compute_discharge.
  cbn [wells fmodel]. rewrite E. cbn [map fold_left nsub nadd nmul ndiv nopp XR wx wy wq fwell xsub xmul xadd xopp fst snd].
  replace ((wx w - wx w) * (wx w - wx w) + (wy w - wy w) * (wy w - wy w)) with 0 by ring.
  cbn [xdiv]. rewrite (proj2 (Reqb_true 0 0)) by lra.
  replace (- wq w * (wx w - wx w)) with 0 by ring. replace (- wq w * (wy w - wy w)) with 0 by ring.
  unfold inf_of_sign. rewrite (proj2 (Rltb_false 0 0)) by lra. reflexivity.
Qed.
