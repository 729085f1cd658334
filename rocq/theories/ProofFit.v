(** * Proofs about construct_fit, compute_fit and fit_regional_flow *)
From Coq Require Import Reals Lra Lia Psatz Permutation.
From Verif Require Import Py Num NumXR ModelAquifer SpecAquifer ProofPi ProofAquifer ProofHead LinAlg Lstsq SpecFit.
Local Open Scope R_scope.
Local Opaque kappa.

(** ** One observation *)
Lemma obs_potential_eq m o : base m < oz o -> 0 < thickness m ->
  obs_potential (fmodel m) (fobs o) = Ok (Fin (obs_ev m o), Fin (obs_sd m o)).
Proof.
  intros Hz HH. unfold obs_potential, obs_ev, obs_sd, nsq. cbn.
  destruct (Rlt_dec (oz o - base m) (thickness m)) as [L|L].
  - destruct (Rleb_spec (thickness m) (oz o - base m)); [lra|]. destruct (Rltb_spec 0 (oz o - base m)); [|lra].
    rewrite Rmin_left by lra. apply f_equal. apply f_equal2; apply (f_equal Fin); field.
  - destruct (Rleb_spec (thickness m) (oz o - base m)); [|lra].
    rewrite Rmin_right by lra. apply f_equal. apply f_equal2; apply (f_equal Fin); field.
Qed.

Lemma obs_sd_pos m o : 0 < conductivity m -> 0 < thickness m -> usable m o -> 0 < obs_sd m o.
Proof.
  intros HK HH (Hz & Hs & _). unfold obs_sd. repeat apply Rmult_lt_0_compat; auto. apply Rmin_pos; lra.
Qed.

Definition rhs (m : model R) (o : obs R) : R :=
  (obs_ev m o - kappa * Rsum (fun w => wpot w (ox o) (oy o)) (wells m)) / obs_sd m o.
Definition rowf (m : model R) (x0 y0 : R) (o : obs R) (i : nat) : R := monomial i (ox o - x0) (oy o - y0) / obs_sd m o.
Definition row (m : model R) (x0 y0 : R) (o : obs R) : list R := map (rowf m x0 y0 o) (seq 0 6).
Definition eqs (m : model R) (x0 y0 : R) (l : list (obs R)) : list eqn := map (fun o => (rowf m x0 y0 o, rhs m o)) l.

Lemma fit_row_eq m x0 y0 o : 0 < conductivity m -> 0 < thickness m -> usable m o ->
  fit_row (fmodel m) (Fin x0) (Fin y0) (fobs o) = Ok (map Fin (row m x0 y0 o), Fin (rhs m o)).
Proof.
  intros HK HH Hu. pose proof (obs_sd_pos m o HK HH Hu) as Hs. destruct Hu as (Hz & _ & Hw).
  unfold fit_row. rewrite obs_potential_eq by auto. cbn [bind ox oy fobs wells fmodel].
  rewrite potential_wells_eq by exact Hw.
  assert (B : match map fwell (wells m) with
              | [] => pydiv (nsub (Fin (obs_ev m o)) (Fin (kappa * Rsum (fun w => wpot w (ox o) (oy o)) (wells m)))) (Fin (obs_sd m o))
              | _ => Ok (ndiv (nsub (Fin (obs_ev m o)) (Fin (kappa * Rsum (fun w => wpot w (ox o) (oy o)) (wells m)))) (Fin (obs_sd m o)))
              end = Ok (Fin (rhs m o))).
  { assert (E : ndiv (nsub (Fin (obs_ev m o)) (Fin (kappa * Rsum (fun w => wpot w (ox o) (oy o)) (wells m)))) (Fin (obs_sd m o)) = Fin (rhs m o)).
    { cbn [ndiv nsub XR xsub]. rewrite div_fin by lra. reflexivity. }
    rewrite E. destruct (map fwell (wells m)); [|reflexivity]. unfold pydiv. rewrite E. cbn [neq XR xeq nZ].
    destruct (Reqb_spec (obs_sd m o) 0); [lra|reflexivity]. }
  rewrite B. cbn [bind]. unfold row, rowf. cbn [seq map monomial]. unfold nsq. cbn [nsub nmul ndiv nZ XR xsub xmul xadd xopp].
  rewrite !div_fin by lra. reflexivity.
Qed.

Lemma map_res_ok {A B} (f : A -> res B) (g : A -> B) l : (forall a, In a l -> f a = Ok (g a)) -> map_res f l = Ok (map g l).
Proof.
  induction l as [|a l IH]; intros H; cbn; [reflexivity|]. rewrite H by now left. cbn.
  rewrite IH by (intros; apply H; now right). reflexivity.
Qed.

Lemma map_res_map {A B C} (f : B -> res C) (g : A -> B) l : map_res f (map g l) = map_res (fun a => f (g a)) l.
Proof. induction l as [|a l IH]; cbn; [reflexivity|]. now rewrite IH. Qed.

Lemma construct_fit_eq m x0 y0 l : 0 < conductivity m -> 0 < thickness m -> (forall o, In o l -> usable m o) ->
  construct_fit (fmodel m) (map fobs l) (Fin x0) (Fin y0) = Ok (map (map Fin) (map (row m x0 y0) l), map Fin (map (rhs m) l)).
Proof.
  intros HK HH Hu. unfold construct_fit. rewrite map_res_map.
  rewrite (map_res_ok _ (fun o => (map Fin (row m x0 y0 o), Fin (rhs m o)))) by (intros; apply fit_row_eq; auto).
  cbn. now rewrite !map_map.
Qed.

(** ** C27 *)
Lemma map_res_raise {A B} (f : A -> res B) l e : map_res f l = Raise e -> exists a, In a l /\ f a = Raise e.
Proof.
  induction l as [|a l IH]; cbn; [discriminate|]. destruct (f a) eqn:E; cbn.
  - destruct (map_res f l) eqn:E'; cbn; try discriminate. intros [= <-]. destruct IH as (b & Hb & Hf); auto. exists b; auto.
  - intros [= <-]. exists a; auto.
  - discriminate.
Qed.
Lemma map_res_raised {A B} (f : A -> res B) l e a : (forall a, In a l -> f a = Raise e \/ exists b, f a = Ok b) ->
  In a l -> f a = Raise e -> map_res f l = Raise e.
Proof.
  induction l as [|b l IH]; [easy|]. intros H Ha He. cbn. destruct (H b (or_introl eq_refl)) as [E|(c & E)].
  - now rewrite E.
  - rewrite E. cbn. destruct Ha as [->|Ha]; [congruence|]. rewrite IH; auto. intros; apply H; now right.
Qed.

Lemma obs_potential_low m o : 0 < thickness m -> oz o <= base m -> obs_potential (fmodel m) (fobs o) = Raise RangeError.
Proof.
  intros HH Hz. unfold obs_potential. cbn.
  destruct (Rleb_spec (thickness m) (oz o - base m)); [lra|]. destruct (Rltb_spec 0 (oz o - base m)); [lra|]. reflexivity.
Qed.

Lemma fit_row_cases m x0 y0 o : 0 < thickness m ->
  (wells m <> [] \/ conductivity m <> 0 /\ os o <> 0) ->
  (oz o <= base m -> fit_row (fmodel m) (Fin x0) (Fin y0) (fobs o) = Raise RangeError) /\
  (base m < oz o -> exists r, fit_row (fmodel m) (Fin x0) (Fin y0) (fobs o) = Ok r).
Proof.
  intros HH Hw. split; intros Hz; unfold fit_row.
  - now rewrite obs_potential_low.
  - rewrite obs_potential_eq by auto. cbn [bind wells fmodel].
    destruct (wells m) as [|w ws] eqn:Ew; cbn [map]; [|cbn [bind]; eauto].
    destruct Hw as [Hw|[HK Hs]]; [congruence|].
    unfold pydiv. cbn [neq XR xeq nZ]. destruct (Reqb_spec (obs_sd m o) 0) as [Z|Z]; [|cbn [bind]; eauto].
    exfalso. unfold obs_sd in Z. apply Rmult_integral in Z. destruct Z as [Z|Z]; [|contradiction].
    apply Rmult_integral in Z. destruct Z as [Z|Z]; [contradiction|].
    assert (0 < Rmin (oz o - base m) (thickness m)) by (apply Rmin_pos; lra). lra.
Qed.

(** An aquifer of positive thickness; when there are no wells, also non-zero conductivity and deviations
    (with neither, Python's division raises ZeroDivisionError at the first such observation). *)
Lemma c27_construct_fit_range : forall m l x0 y0,
  0 < thickness m -> (wells m <> [] \/ conductivity m <> 0 /\ forall o, In o l -> os o <> 0) ->
  (construct_fit (fmodel m) (map fobs l) (Fin x0) (Fin y0) = Raise RangeError <-> exists o, In o l /\ oz o <= base m) /\
  ((exists r, construct_fit (fmodel m) (map fobs l) (Fin x0) (Fin y0) = Ok r) <-> forall o, In o l -> base m < oz o).
Proof.
  intros m l x0 y0 HH Hw. unfold construct_fit. rewrite map_res_map.
  assert (C : forall o, In o l -> (oz o <= base m -> fit_row (fmodel m) (Fin x0) (Fin y0) (fobs o) = Raise RangeError) /\
    (base m < oz o -> exists r, fit_row (fmodel m) (Fin x0) (Fin y0) (fobs o) = Ok r)).
  { intros o Ho. apply fit_row_cases; auto. destruct Hw as [Hw|[HK Hs]]; auto. }
  assert (R1 : (exists o, In o l /\ oz o <= base m) -> map_res (fun a => fit_row (fmodel m) (Fin x0) (Fin y0) (fobs a)) l = Raise RangeError).
  { intros (o & Ho & Hz). apply map_res_raised with (a := o); auto.
    - intros a Ha. destruct (C a Ha) as [C1 C2]. destruct (Rle_lt_dec (oz a) (base m)); auto.
    - now apply C. }
  assert (R2 : (forall o, In o l -> base m < oz o) -> exists r, map_res (fun a => fit_row (fmodel m) (Fin x0) (Fin y0) (fobs a)) l = Ok r).
  { clear Hw R1. induction l as [|o l IH]; intros H; cbn; [eauto|].
    destruct (proj2 (C o (or_introl eq_refl)) (H o (or_introl eq_refl))) as (r & ->). cbn.
    destruct IH as (rs & ->); [intros; apply C; now right|intros; apply H; now right|]. cbn. eauto. }
  assert (D : (exists o, In o l /\ oz o <= base m) \/ (forall o, In o l -> base m < oz o)).
  { clear. induction l as [|a l IH]; [right; easy|]. destruct (Rle_lt_dec (oz a) (base m)); [left; exists a; split; auto; now left|].
    destruct IH as [(o & Ho & Hz)|IH]; [left; exists o; split; auto; now right|right; intros o [<-|Ho]; auto]. }
  destruct D as [D|D].
  - rewrite (R1 D). cbn. destruct D as (o & Ho & Hz). split; split; intros; eauto.
    + destruct H as (r & Hr); discriminate.
    + specialize (H o Ho). lra.
  - destruct (R2 D) as (r & ->). cbn. split; split; intros; eauto.
    + discriminate.
    + destruct H as (o & Ho & Hz). specialize (D o Ho). lra.
Qed.

(** ** C28 *)
Lemma potential_with_coef m x0 y0 c x y : off_wells (wells m) x y ->
  potential (with_coef m x0 y0 c) x y = quad c (x - x0) (y - y0) + kappa * Rsum (fun w => wpot w x y) (wells m).
Proof. intros H. now rewrite potential_eq. Qed.

Definition cvec (c : coef6 R) (i : nat) : R := nth i (coef_list c) 0.

Lemma rowf_dot m x0 y0 c o : dotv 6 (rowf m x0 y0 o) (cvec c) = quad c (ox o - x0) (oy o - y0) / obs_sd m o.
Proof. unfold dotv, rowf, cvec, quad, Rdiv. cbn. ring. Qed.

Lemma residual_eq m x0 y0 c o : off_wells (wells m) (ox o) (oy o) ->
  residual m x0 y0 c o = dotv 6 (rowf m x0 y0 o) (cvec c) - rhs m o.
Proof.
  intros H. rewrite rowf_dot. unfold residual, rhs. rewrite potential_with_coef by exact H. unfold Rdiv. ring.
Qed.

Lemma dot6_dotv r c : dot6 r c = dotv 6 (fun i => nth i r 0) (fun i => nth i c 0).
Proof. unfold dot6, sum6, dotv. cbn. ring. Qed.

Lemma row_nth m x0 y0 o i : (i < 6)%nat -> nth i (row m x0 y0 o) 0 = rowf m x0 y0 o i.
Proof. intros H. unfold row. cbn [seq map]. do 6 (destruct i as [|i]; [reflexivity|]). lia. Qed.

Lemma c28_row_residual : forall m l x0 y0,
  0 < conductivity m -> 0 < thickness m -> (forall o, In o l -> usable m o) ->
  exists rows b, construct_fit (fmodel m) (map fobs l) (Fin x0) (Fin y0) = Ok (map (map Fin) rows, map Fin b) /\
    length rows = length l /\ length b = length l /\ (forall r, In r rows -> length r = 6%nat) /\
    forall c k o, nth_error l k = Some o ->
      dot6 (nth k rows nil) (coef_list c) - nth k b 0
      = (potential (with_coef m x0 y0 c) (ox o) (oy o) - obs_ev m o) / obs_sd m o.
Proof.
  intros m l x0 y0 HK HH Hu. exists (map (row m x0 y0) l), (map (rhs m) l).
  split; [now apply construct_fit_eq|]. rewrite !map_length. repeat split; auto.
  - intros r Hr. apply in_map_iff in Hr. destruct Hr as (o & <- & _). reflexivity.
  - intros c k o Hk. pose proof (nth_error_In _ _ Hk) as Ho.
    rewrite (nth_error_nth (map (row m x0 y0) l) k nil (x := row m x0 y0 o)) by (now rewrite nth_error_map, Hk).
    rewrite (nth_error_nth (map (rhs m) l) k 0 (x := rhs m o)) by (now rewrite nth_error_map, Hk).
    fold (residual m x0 y0 c o). rewrite residual_eq by (now apply Hu). rewrite dot6_dotv. apply f_equal2; [|reflexivity].
    apply dotv_ext; auto. intros i Hi. now apply row_nth.
Qed.

(** The potential and deviation used for an observation: first-order second-moment conversion
    of the head through the Girinskii potential. *)
Lemma girinskii_deriv K H h : 0 < H -> derivable_pt_lim (girinskii K H) h (K * Rmin h H).
Proof.
  intros HH. destruct (total_order_T h H) as [[L|E]|G].
  - rewrite Rmin_left by lra. apply deriv_ext with (f := fun t => K * (t * t) / 2).
    + exists (H - h). split; [lra|]. intros t Ht. apply Rabs_def2 in Ht. unfold girinskii. destruct (Rlt_dec t H); [reflexivity|lra].
    + apply deriv_fun with (f := fun t => K / 2 * ((t - 0) * (t - 0)) + 0 * (t - 0) + 0); [intros; field|].
      eapply deriv_val; [apply deriv_poly|]. field.
  - subst h. rewrite Rmin_left by lra. intros e He.
    assert (Hd : 0 < 2 * e / (Rabs K + 1)) by (apply Rdiv_lt_0_compat; [lra|pose proof (Rabs_pos K); lra]).
    exists (mkposreal _ Hd). intros t Ht Hlt. cbn in Hlt. unfold girinskii. destruct (Rlt_dec H H); [lra|].
    pose proof (Rabs_pos K) as HKp.
    destruct (Rlt_dec (H + t) H).
    + replace ((K * ((H + t) * (H + t)) / 2 - K * H * (H - H / 2)) / t - K * H) with (K * t / 2) by (field; auto).
      unfold Rdiv. rewrite !Rabs_mult, (Rabs_right (/ 2)) by lra.
      apply Rle_lt_trans with ((Rabs K + 1) * Rabs t * / 2); [pose proof (Rabs_pos t); nra|].
      apply Rmult_lt_reg_l with (2 / (Rabs K + 1)); [apply Rdiv_lt_0_compat; lra|].
      replace (2 / (Rabs K + 1) * ((Rabs K + 1) * Rabs t * / 2)) with (Rabs t) by (field; lra).
      replace (2 / (Rabs K + 1) * e) with (2 * e / (Rabs K + 1)) by (field; lra). exact Hlt.
    + replace ((K * H * (H + t - H / 2) - K * H * (H - H / 2)) / t - K * H) with 0 by (field; auto). rewrite Rabs_R0. lra.
  - rewrite Rmin_right by lra. apply deriv_ext with (f := fun t => K * H * (t - H / 2)).
    + exists (h - H). split; [lra|]. intros t Ht. apply Rabs_def2 in Ht. unfold girinskii. destruct (Rlt_dec t H); [lra|reflexivity].
    + apply deriv_fun with (f := fun t => 0 * ((t - 0) * (t - 0)) + K * H * (t - 0) + - (K * H * (H / 2))); [intros; ring|].
      eapply deriv_val; [apply deriv_poly|]. ring.
Qed.

Lemma c28_fosm : forall m o, 0 < thickness m -> base m < oz o ->
  obs_potential (fmodel m) (fobs o) = Ok (Fin (obs_ev m o), Fin (obs_sd m o)) /\
  exists g', (forall h, derivable_pt_lim (girinskii (conductivity m) (thickness m)) h (g' h)) /\
    obs_sd m o = g' (oz o - base m) * os o /\
    (oz o - base m <> thickness m ->
       exists g'', derivable_pt_lim g' (oz o - base m) g'' /\
         obs_ev m o = girinskii (conductivity m) (thickness m) (oz o - base m) + g'' / 2 * (os o * os o)).
Proof.
  intros m o HH Hz. split; [now apply obs_potential_eq|].
  exists (fun h => conductivity m * Rmin h (thickness m)). split; [intros h; now apply girinskii_deriv|]. split; [reflexivity|].
  intros Hne. unfold obs_ev, girinskii. destruct (Rlt_dec (oz o - base m) (thickness m)) as [L|L].
  - exists (conductivity m). split; [|field].
    apply deriv_ext with (f := fun t => conductivity m * t).
    + exists (thickness m - (oz o - base m)). split; [lra|]. intros t Ht. apply Rabs_def2 in Ht. rewrite Rmin_left by lra. reflexivity.
    + apply deriv_fun with (f := fun t => 0 * ((t - 0) * (t - 0)) + conductivity m * (t - 0) + 0); [intros; ring|].
      eapply deriv_val; [apply deriv_poly|]. ring.
  - exists 0. split; [|field].
    apply deriv_ext with (f := fun t => conductivity m * thickness m).
    + exists (oz o - base m - thickness m). split; [lra|]. intros t Ht. apply Rabs_def2 in Ht. rewrite Rmin_right by lra. reflexivity.
    + apply derivable_pt_lim_const.
Qed.

(** In confined conditions compute_head inverts the conversion exactly. *)
Lemma c28_confined_inverse : forall m o,
  0 < conductivity m -> 0 < thickness m -> base m + thickness m <= oz o ->
  exists sd, obs_potential (fmodel m) (fobs o) = Ok (Fin (obs_ev m o), Fin sd) /\
    head_of_potential (Fin (conductivity m)) (Fin (thickness m)) (Fin (obs_ev m o)) = Ok (Fin (oz o - base m)).
Proof.
  intros m o HK HH Hz. exists (obs_sd m o). split; [apply obs_potential_eq; lra|].
  unfold obs_ev. destruct (Rlt_dec (oz o - base m) (thickness m)); [lra|].
  set (h := oz o - base m) in *. set (K := conductivity m) in *. set (H := thickness m) in *.
  assert (0 < K * H) by (apply Rmult_lt_0_compat; auto).
  assert (P : K * (H * H) / 2 <= K * H * (h - H / 2)).
  { replace (K * (H * H) / 2) with (K * H * (H / 2)) by field. apply Rmult_le_compat_l; lra. }
  assert (0 < K * (H * H) / 2) by (replace (K * (H * H) / 2) with (K * H * (H / 2)) by field; apply Rmult_lt_0_compat; lra).
  unfold head_of_potential, nsq. cbn [nle nlt nZ nlit nmul nadd ndiv XR xle xlt xmul xadd].
  destruct (Rleb_spec (K * H * (h - H / 2)) 0); [lra|].
  destruct (Rltb_spec (K * H * (h - H / 2)) (1 / 2 * K * (H * H))) as [B|B].
  - exfalso. replace (1 / 2 * K * (H * H)) with (K * (H * H) / 2) in B by field. lra.
  - rewrite div_fin by lra. do 2 f_equal. field. lra.
Qed.
