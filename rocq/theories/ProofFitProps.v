(** * Properties of the regional-flow fit *)
From Coq Require Import Reals Lra Lia Psatz Permutation.
From Verif Require Import Py Num NumXR ModelAquifer SpecAquifer ProofPi ProofAquifer ProofHead LinAlg Lstsq SpecFit ProofFit ProofFitSolve.
Local Open Scope R_scope.
Local Opaque kappa.

(** A minimiser of the misfit of observations that determine the coefficients is what the fit returns. *)
Lemma fit_minimiser la m l x0 y0 c : linalg_contract la -> 0 < conductivity m -> 0 < thickness m ->
  (forall o, In o l -> usable m o) -> conic_free l -> (forall d, misfit m x0 y0 l c <= misfit m x0 y0 l d) ->
  exists C A, fit_regional_flow la (fmodel m) (map fobs l) (Fin x0) (Fin y0)
                = (fmodel (with_coef m x0 y0 c), Ok (coef_list (fcoef c), C)) /\
    matrix6 C A /\ inverse6 (normal_matrix m x0 y0 l) A.
Proof.
  intros Hla HK HH Hu Hc Hm.
  destruct (fit_cases m l HK HH Hu la Hla x0 y0) as [(d & C & A & Hs & E & HC & HA & Hn)|[Hs E]].
  - assert (Hn' : normal_eqs 6 (eqs m x0 y0 l) (cvec c)).
    { apply minimum_normal. intros v. rewrite (rssv_ext 6 _ v (cvec (coef_of v))) by (intros; symmetry; now apply cvec_coef_of).
      rewrite <- !misfit_rssv by auto. apply Hm. }
    assert (c = d) by (eapply normal_unique; eauto). subst d. exists C, A. auto.
  - exfalso. apply (singular_conic m l HK HH Hu x0 y0) in Hs. contradiction.
Qed.

Lemma fit_result la m l x0 y0 : linalg_contract la -> 0 < conductivity m -> 0 < thickness m ->
  (forall o, In o l -> usable m o) ->
  (conic_free l /\ exists c C A, fit_regional_flow la (fmodel m) (map fobs l) (Fin x0) (Fin y0)
                = (fmodel (with_coef m x0 y0 c), Ok (coef_list (fcoef c), C)) /\
     (forall d, misfit m x0 y0 l c <= misfit m x0 y0 l d) /\ normal_eqs 6 (eqs m x0 y0 l) (cvec c) /\
     matrix6 C A /\ inverse6 (normal_matrix m x0 y0 l) A) \/
  (~ conic_free l /\ fit_regional_flow la (fmodel m) (map fobs l) (Fin x0) (Fin y0) = (fmodel m, Raise LinAlgError)).
Proof.
  intros Hla HK HH Hu.
  destruct (fit_cases m l HK HH Hu la Hla x0 y0) as [(d & C & A & Hs & E & HC & HA & Hn)|[Hs E]]; [left|right].
  - split.
    + apply Classical_Prop.NNPP. intros N. apply Hs. now apply singular_conic.
    + exists d, C, A. split; [exact E|]. split; [|auto]. intros e. rewrite !misfit_rssv by auto.
      rewrite (normal_minimum 6 _ (cvec d) Hn (cvec e)).
      pose proof (gramv_psd 6 (eqs m x0 y0 l) (fun i => cvec e i - cvec d i)). lra.
  - split; [|exact E]. now apply (singular_conic m l HK HH Hu x0 y0).
Qed.

(** ** C29 *)
Lemma misfit_nonneg m x0 y0 l c : 0 <= misfit m x0 y0 l c.
Proof. unfold misfit. apply Rsum_nonneg. intros. apply Rle_0_sqr. Qed.

Lemma c29_recovers_coefficients : forall la m l x0 y0 c,
  linalg_contract la -> 0 < conductivity m -> 0 < thickness m -> (forall o, In o l -> usable m o) -> conic_free l ->
  (forall o, In o l -> obs_ev m o = potential (with_coef m x0 y0 c) (ox o) (oy o)) ->
  exists C, fit_regional_flow la (fmodel m) (map fobs l) (Fin x0) (Fin y0)
            = (fmodel (with_coef m x0 y0 c), Ok (coef_list (fcoef c), C)).
Proof.
  intros la m l x0 y0 c Hla HK HH Hu Hc He.
  destruct (fit_minimiser la m l x0 y0 c) as (C & A & E & _); auto; [|eauto].
  intros d. assert (Z : misfit m x0 y0 l c = 0).
  { unfold misfit. rewrite (Rsum_ext _ (fun _ => 0)).
    - clear. induction l; unfold Rsum in *; cbn [fold_right]; lra.
    - intros o Ho. unfold residual. rewrite He by exact Ho. unfold Rdiv. ring. }
  rewrite Z. apply misfit_nonneg.
Qed.

(** In confined conditions: fitting the heads that the model with coefficients [c] computes
    (elevation = base + head, head at least the thickness), with any positive deviations. *)
Lemma c29_recovers_confined_heads : forall la m l x0 y0 c,
  linalg_contract la -> 0 < conductivity m -> 0 < thickness m -> conic_free l ->
  (forall o, In o l -> 0 < os o /\ off_wells (wells m) (ox o) (oy o) /\ thickness m <= oz o - base m /\
     compute_head (fmodel (with_coef m x0 y0 c)) (Fin (ox o)) (Fin (oy o)) = Ok (Fin (oz o - base m))) ->
  exists C, fit_regional_flow la (fmodel m) (map fobs l) (Fin x0) (Fin y0)
            = (fmodel (with_coef m x0 y0 c), Ok (coef_list (fcoef c), C)).
Proof.
  intros la m l x0 y0 c Hla HK HH Hc Ho. apply c29_recovers_coefficients; auto.
  - intros o Hi. destruct (Ho o Hi) as (H1 & H2 & H3 & _). repeat split; auto; lra.
  - intros o Hi. destruct (Ho o Hi) as (H1 & H2 & H3 & H4).
    unfold compute_head in H4. rewrite compute_potential_eq in H4 by exact H2.
    rewrite potential_with_coef by exact H2. cbn [conductivity thickness fmodel with_coef coef xo yo wells] in H4.
    set (p := quad c (ox o - x0) (oy o - y0) + kappa * Rsum (fun w => wpot w (ox o) (oy o)) (wells m)) in *.
    destruct (Rle_lt_dec p 0) as [Hp|Hp].
    { exfalso. unfold head_of_potential in H4. cbn [nle nZ XR xle] in H4. destruct (Rleb_spec p 0); [discriminate|lra]. }
    pose proof (girinskii_head (conductivity m) (thickness m) p HK HH Hp) as (_ & G & _).
    unfold head_at in G. rewrite H4 in G. cbn [Rval] in G.
    unfold obs_ev. rewrite <- G. unfold girinskii. destruct (Rlt_dec (oz o - base m) (thickness m)); [lra|reflexivity].
Qed.

(** ** C30 *)
Lemma c30_optimal_unique_covariance : forall la m l x0 y0 m' ev C,
  linalg_contract la -> 0 < conductivity m -> 0 < thickness m -> (forall o, In o l -> usable m o) ->
  fit_regional_flow la (fmodel m) (map fobs l) (Fin x0) (Fin y0) = (m', Ok (ev, C)) ->
  exists c A, m' = fmodel (with_coef m x0 y0 c) /\ ev = coef_list (fcoef c) /\
    (forall d, d <> c -> misfit m x0 y0 l c < misfit m x0 y0 l d) /\
    (forall k, (k < 6)%nat ->
       Rsum (fun o => residual m x0 y0 c o * (monomial k (ox o - x0) (oy o - y0) / obs_sd m o)) l = 0) /\
    matrix6 C A /\ inverse6 (normal_matrix m x0 y0 l) A /\ symmetric6 A /\
    (forall x, (exists i, (i < 6)%nat /\ x i <> 0) -> 0 < form6 A x).
Proof.
  intros la m l x0 y0 m' ev C Hla HK HH Hu HF.
  destruct (fit_ok m l HK HH Hu la Hla x0 y0 m' ev C HF) as (c & A & -> & -> & Hs & HC & HA & Hn).
  exists c, A. split; [reflexivity|]. split; [reflexivity|]. split.
  { intros d Hd. rewrite !misfit_rssv by auto.
    destruct (Rle_lt_dec (rssv 6 (eqs m x0 y0 l) (cvec d)) (rssv 6 (eqs m x0 y0 l) (cvec c))) as [L|L]; [|exact L].
    exfalso. apply Hd. apply coef_eq. now apply (minimum_unique 6 (eqs m x0 y0 l)). }
  split.
  { intros k Hk. specialize (Hn k Hk). rewrite gramv_mv in Hn. unfold rhsv in Hn.
    rewrite (Rsum_ext _ (fun o => rowf m x0 y0 o k * dotv 6 (rowf m x0 y0 o) (cvec c) + -1 * (rowf m x0 y0 o k * rhs m o))).
    - rewrite Rsum_plus, Rsum_scal. unfold eqs in Hn.
      assert (M : forall (f : eqn -> R), Rsum f (map (fun o => (rowf m x0 y0 o, rhs m o)) l) = Rsum (fun o => f (rowf m x0 y0 o, rhs m o)) l).
      { intros f. clear. induction l as [|o k IH]; unfold Rsum in *; cbn [map fold_right]; [reflexivity|]. now rewrite IH. }
      rewrite !M in Hn. cbn [fst snd] in Hn. rewrite Hn. ring.
    - intros o Ho. rewrite residual_eq by (now apply Hu). fold (rowf m x0 y0 o k). ring. }
  split; [exact HC|]. split; [exact HA|].
  apply inverse6_inverse in HA.
  assert (P : symmetric 6 A /\ forall x, nonzero 6 x -> 0 < qform 6 A x).
  { apply (inverse_pd 6 (normal_matrix m x0 y0 l)); auto.
    - intros i j Hi Hj. rewrite <- !gramv_normal by auto. now apply (gramv_sym 6).
    - intros x. rewrite <- form6_qform. rewrite (form6_ext _ (gramv (eqs m x0 y0 l))) by (intros; symmetry; now apply gramv_normal).
      rewrite form6_qform. apply gramv_psd. }
  destruct P as [P1 P2]. split; [exact P1|]. intros x Hx. rewrite form6_qform. now apply P2.
Qed.

(** ** C31 *)
Lemma c31_singular_iff_conic : forall m l x0 y0,
  0 < conductivity m -> 0 < thickness m -> (forall o, In o l -> usable m o) ->
  ((exists A, inverse6 (normal_matrix m x0 y0 l) A) <-> conic_free l).
Proof.
  intros m l x0 y0 HK HH Hu. split.
  - intros (A & HA). apply Classical_Prop.NNPP. intros N. apply (singular_conic m l HK HH Hu x0 y0) in N.
    revert N. apply (inverse_nonsingular 6 _ A). apply inverse6_inverse.
    apply (inverse6_ext (normal_matrix m x0 y0 l)); auto. intros. symmetry. now apply gramv_normal.
  - intros Hc. exists (fun i j => column 6 (gramv (eqs m x0 y0 l)) j i).
    apply (inverse6_ext (gramv (eqs m x0 y0 l))); [intros; now apply gramv_normal|].
    apply inverse6_inverse. apply column_inverse; [apply gramv_sym|].
    apply psd_pivots_iff; [apply gramv_sym|apply gramv_psd|]. intros S. now apply (singular_conic m l HK HH Hu x0 y0) in S.
Qed.

Lemma c31_fit_succeeds_iff : forall la m l x0 y0,
  linalg_contract la -> 0 < conductivity m -> 0 < thickness m -> (forall o, In o l -> usable m o) ->
  (conic_free l -> exists r, snd (fit_regional_flow la (fmodel m) (map fobs l) (Fin x0) (Fin y0)) = Ok r) /\
  (~ conic_free l -> snd (fit_regional_flow la (fmodel m) (map fobs l) (Fin x0) (Fin y0)) = Raise LinAlgError).
Proof.
  intros la m l x0 y0 Hla HK HH Hu.
  destruct (fit_result la m l x0 y0 Hla HK HH Hu) as [(Hc & c & C & A & -> & _)|(Hc & ->)]; cbn [snd]; split; intros; eauto; contradiction.
Qed.

(** Fewer than six observations are never enough. *)
Lemma c31_fewer_than_six : forall l, (length l < 6)%nat -> ~ conic_free l.
Proof.
  intros l Hl Hc.
  destruct (underdetermined 6 (map (fun o i => monomial i (ox o) (oy o)) l)) as (d & (i & Hi & Hd) & H); [now rewrite map_length|].
  apply Hd. rewrite <- (cvec_coef_of d) by exact Hi. rewrite (Hc (coef_of d)); [apply cvec_zero|].
  intros o Ho. etransitivity; [|apply (H (fun i => monomial i (ox o) (oy o))); apply in_map_iff; exists o; auto].
  unfold quad, dotv, coef_of. cbn. ring.
Qed.

(** ** C32 *)
(** Further observations at locations that already have one never make a fit fail. *)
Lemma c32_duplicates_harmless : forall la m l l' x0 y0 r,
  linalg_contract la -> 0 < conductivity m -> 0 < thickness m -> (forall o, In o (l ++ l') -> usable m o) ->
  (forall o', In o' l' -> exists o, In o l /\ ox o = ox o' /\ oy o = oy o') ->
  snd (fit_regional_flow la (fmodel m) (map fobs l) (Fin x0) (Fin y0)) = Ok r ->
  exists r', snd (fit_regional_flow la (fmodel m) (map fobs (l ++ l')) (Fin x0) (Fin y0)) = Ok r'.
Proof.
  intros la m l l' x0 y0 r Hla HK HH Hu Hd HF.
  apply (proj1 (c31_fit_succeeds_iff la m (l ++ l') x0 y0 Hla HK HH Hu)).
  assert (Hu' : forall o, In o l -> usable m o) by (intros; apply Hu; apply in_or_app; auto).
  destruct (fit_result la m l x0 y0 Hla HK HH Hu') as [(Hc & _)|(_ & E)]; [|rewrite E in HF; discriminate].
  intros c Hq. apply Hc. intros o Ho. apply Hq. apply in_or_app. auto.
Qed.

(** ** C33 *)
Lemma misfit_shift m x0 y0 x1 y1 l c : (forall o, In o l -> usable m o) ->
  misfit m x1 y1 l (shift_coef c (x1 - x0) (y1 - y0)) = misfit m x0 y0 l c.
Proof.
  intros Hu. unfold misfit. apply Rsum_ext. intros o Ho. unfold residual.
  rewrite !potential_with_coef by (now apply Hu). rewrite quad_shift.
  replace (ox o - x1 + (x1 - x0)) with (ox o - x0) by ring. replace (oy o - y1 + (y1 - y0)) with (oy o - y0) by ring. reflexivity.
Qed.

Lemma c33_origin_invariance : forall la m l x0 y0 x1 y1 m0 r0,
  linalg_contract la -> 0 < conductivity m -> 0 < thickness m -> (forall o, In o l -> usable m o) ->
  fit_regional_flow la (fmodel m) (map fobs l) (Fin x0) (Fin y0) = (m0, Ok r0) ->
  exists m1 r1, fit_regional_flow la (fmodel m) (map fobs l) (Fin x1) (Fin y1) = (m1, Ok r1) /\
    forall x y, compute_potential m1 (Fin x) (Fin y) = compute_potential m0 (Fin x) (Fin y).
Proof.
  intros la m l x0 y0 x1 y1 m0 r0 Hla HK HH Hu HF.
  destruct (fit_result la m l x0 y0 Hla HK HH Hu) as [(Hc & c & C & A & E & Hm & _)|(Hc & E)]; rewrite E in HF; [|discriminate].
  injection HF as <- <-.
  destruct (fit_minimiser la m l x1 y1 (shift_coef c (x1 - x0) (y1 - y0)) Hla HK HH Hu Hc) as (C1 & A1 & E1 & _).
  { intros d. rewrite misfit_shift by exact Hu.
    replace d with (shift_coef (shift_coef d (x0 - x1) (y0 - y1)) (x1 - x0) (y1 - y0)).
    - rewrite misfit_shift by exact Hu. apply Hm.
    - rewrite shift_shift. replace (x0 - x1 + (x1 - x0)) with 0 by ring. replace (y0 - y1 + (y1 - y0)) with 0 by ring. apply shift_0. }
  eexists. eexists. split; [exact E1|]. intros x y. unfold compute_potential. cbn [coef xo yo wells fmodel with_coef].
  rewrite !potential_regional_eq, quad_shift.
  replace (x - x1 + (x1 - x0)) with (x - x0) by ring. replace (y - y1 + (y1 - y0)) with (y - y0) by ring. reflexivity.
Qed.

(** ** C34 *)
(** For every number type, every behaviour of the solvers (lstsq returning six coefficients). *)
Lemma c34_failed_fit_changes_nothing : forall (T : Type) (N : Num T) (la : linalg T) m l x0 y0,
  (forall wa wb v, lstsq la wa wb = Ok v -> length v = 6%nat) ->
  match fit_regional_flow la m l x0 y0 with
  | (m', Ok (ev, _)) =>
      base m' = base m /\ conductivity m' = conductivity m /\ porosity m' = porosity m /\ thickness m' = thickness m /\
      wells m' = wells m /\ xo m' = x0 /\ yo m' = y0 /\ coef_list (coef m') = ev
  | (m', _) => m' = m
  end.
Proof.
  intros T N la m l x0 y0 H. unfold fit_regional_flow.
  destruct (construct_fit m l x0 y0) as [[wa wb]| |]; cbn [bind]; auto. unfold compute_fit.
  destruct (lstsq la wa wb) as [v| |] eqn:E; cbn [bind]; auto. apply H in E.
  destruct (inv la (gram wa)) as [C| |]; cbn [bind]; auto.
  do 6 (destruct v as [|? v]; [discriminate|]). destruct v; [|discriminate]. cbn. auto 10.
Qed.

(** ** C35 *)
Lemma conic_free_perm l l' : Permutation l l' -> conic_free l -> conic_free l'.
Proof. intros HP H c Hc. apply H. intros o Ho. apply Hc. now apply (Permutation_in _ HP). Qed.

Lemma matrix6_ext C A B : matrix6 C A -> (forall i j, (i < 6)%nat -> (j < 6)%nat -> A i j = B i j) -> matrix6 C B.
Proof.
  unfold matrix6. intros -> H. apply map_ext_in. intros i Hi. apply map_ext_in. intros j Hj. apply in_seq in Hi. apply in_seq in Hj.
  rewrite H by lia. reflexivity.
Qed.

Lemma c35_permutation : forall la m l l' x0 y0,
  linalg_contract la -> 0 < conductivity m -> 0 < thickness m -> (forall o, In o l -> usable m o) ->
  Permutation l l' ->
  fit_regional_flow la (fmodel m) (map fobs l') (Fin x0) (Fin y0)
  = fit_regional_flow la (fmodel m) (map fobs l) (Fin x0) (Fin y0).
Proof.
  intros la m l l' x0 y0 Hla HK HH Hu HP.
  assert (Hu' : forall o, In o l' -> usable m o) by (intros o Ho; apply Hu; now apply (Permutation_in _ (Permutation_sym HP))).
  destruct (fit_result la m l x0 y0 Hla HK HH Hu) as [(Hc & c & C & A & E & Hm & _ & HC & HA)|(Hc & E)]; rewrite E.
  - destruct (fit_minimiser la m l' x0 y0 c Hla HK HH Hu') as (C' & A' & E' & HC' & HA').
    + eapply conic_free_perm; eauto.
    + intros d. unfold misfit. rewrite <- !(Rsum_perm _ _ _ HP). apply Hm.
    + rewrite E'. do 3 f_equal.
      assert (HA2 : inverse6 (normal_matrix m x0 y0 l) A').
      { apply (inverse6_ext (normal_matrix m x0 y0 l')); auto. intros. unfold normal_matrix. symmetry. now apply Rsum_perm. }
      apply (matrix6_ext C A A') in HC.
      * unfold matrix6 in HC, HC'. congruence.
      * intros i j Hi Hj. apply inverse6_inverse in HA. apply inverse6_inverse in HA2. apply (inverse_unique 6 _ _ _ HA HA2 i j Hi Hj).
  - destruct (fit_result la m l' x0 y0 Hla HK HH Hu') as [(Hc' & _)|(Hc' & ->)]; [|reflexivity].
    exfalso. apply Hc. eapply conic_free_perm; [apply Permutation_sym; exact HP|exact Hc'].
Qed.

Definition scale_os (s : R) (o : obs R) : obs R := {| ox := ox o; oy := oy o; oz := oz o; os := s * os o |}.

Lemma c35_scaling : forall la m l x0 y0 s m' ev C,
  linalg_contract la -> 0 < conductivity m -> 0 < thickness m -> (forall o, In o l -> usable m o) ->
  (forall o, In o l -> base m + thickness m <= oz o) -> 0 < s ->
  fit_regional_flow la (fmodel m) (map fobs l) (Fin x0) (Fin y0) = (m', Ok (ev, C)) ->
  exists C' A, fit_regional_flow la (fmodel m) (map fobs (map (scale_os s) l)) (Fin x0) (Fin y0) = (m', Ok (ev, C')) /\
    matrix6 C A /\ matrix6 C' (fun i j => s * s * A i j).
Proof.
  intros la m l x0 y0 s m' ev C Hla HK HH Hu Hconf Hs HF.
  destruct (fit_result la m l x0 y0 Hla HK HH Hu) as [(Hc & c & C1 & A & E & Hm & _ & HC & HA)|(Hc & E)]; rewrite E in HF; [|discriminate].
  injection HF as <- <- <-.
  assert (Hu' : forall o, In o (map (scale_os s) l) -> usable m o).
  { intros o Ho. apply in_map_iff in Ho. destruct Ho as (p & <- & Hp). destruct (Hu p Hp) as (H1 & H2 & H3).
    repeat split; auto. cbn. now apply Rmult_lt_0_compat. }
  assert (Hsd : forall o, obs_sd m (scale_os s o) = s * obs_sd m o) by (intros; unfold obs_sd; cbn; ring).
  assert (Hev : forall o, In o l -> obs_ev m (scale_os s o) = obs_ev m o).
  { intros o Ho. unfold obs_ev. cbn. pose proof (Hconf o Ho). destruct (Rlt_dec (oz o - base m) (thickness m)); [lra|reflexivity]. }
  assert (M : forall (f : obs R -> R), Rsum f (map (scale_os s) l) = Rsum (fun o => f (scale_os s o)) l).
  { intros f. clear. induction l as [|o k IH]; unfold Rsum in *; cbn [map fold_right]; [reflexivity|]. now rewrite IH. }
  assert (Hmis : forall d, misfit m x0 y0 (map (scale_os s) l) d = / (s * s) * misfit m x0 y0 l d).
  { intros d. unfold misfit. rewrite M, <- Rsum_scal. apply Rsum_ext. intros o Ho. unfold residual. rewrite Hsd, Hev by exact Ho. cbn [ox oy scale_os].
    pose proof (obs_sd_pos m o HK HH (Hu o Ho)). field. split; lra. }
  assert (Hss : 0 < / (s * s)) by (apply Rinv_0_lt_compat; apply Rmult_lt_0_compat; auto).
  destruct (fit_minimiser la m (map (scale_os s) l) x0 y0 c Hla HK HH Hu') as (C' & A' & E' & HC' & HA').
  { intros d Hd. apply Hc. intros o Ho. apply (Hd (scale_os s o)). now apply in_map. }
  { intros d. rewrite !Hmis. apply Rmult_le_compat_l; [lra|]. apply Hm. }
  exists C', A. split; [exact E'|]. split; [exact HC|]. apply (matrix6_ext C' A'); [exact HC'|].
  assert (HA2 : inverse6 (normal_matrix m x0 y0 (map (scale_os s) l)) (fun i j => s * s * A i j)).
  { apply (inverse6_ext (fun i j => / (s * s) * normal_matrix m x0 y0 l i j)).
    - intros i j _ _. unfold normal_matrix. rewrite M, <- Rsum_scal. apply Rsum_ext. intros o Ho. rewrite Hsd. cbn [ox oy scale_os].
      pose proof (obs_sd_pos m o HK HH (Hu o Ho)). field. split; lra.
    - intros i j Hi Hj. destruct (HA i j Hi Hj) as [HA1 HA2]. rewrite <- HA1 at 1. rewrite <- HA2. unfold sum6. split; field; lra. }
  apply inverse6_inverse in HA'. apply inverse6_inverse in HA2. apply (inverse_unique 6 _ _ _ HA' HA2).
Qed.

(** ** A linear-algebra library that meets the contract *)
Definition elim_la : linalg xr := {|
  lstsq := fun rows b =>
    let es := combine (map (fun r i => Rval (nth i r (Fin 0))) rows) (map Rval b) in
    match solve 6 (gramv es) (rhsv es) with
    | Some x => Ok (map (fun i => Fin (x i)) (seq 0 6))
    | None => Raise LinAlgError
    end;
  inv := fun G =>
    let A := fun i j => Rval (nth j (nth i G nil) (Fin 0)) in
    if pivots 6 A then Ok (map (fun i => map (fun j => Fin (column 6 A j i)) (seq 0 6)) (seq 0 6))
    else Raise LinAlgError
|}.

Lemma elim_la_contract : linalg_contract elim_la.
Proof.
  split.
  - intros rows b H6 Hlen. cbn [lstsq elim_la].
    rewrite !map_map. cbn [Rval].
    set (es := combine (map (fun r i => Rval (nth i (map Fin r) (Fin 0))) rows) (map (fun x => x) b)).
    assert (Hes : es = map (fun p => ((fun i => nth i (fst p) 0), snd p)) (combine rows b)).
    { unfold es. clear. revert b. induction rows as [|r rows IH]; intros [|x b]; try reflexivity. cbn [map combine]. f_equal; [|apply IH].
      f_equal. apply FunctionalExtensionality.functional_extensionality. intros i. now rewrite nth_map_fin. }
    assert (Hr : forall c, rss rows b c = rssv 6 es (fun i => nth i c 0)).
    { intros c. rewrite Hes. unfold rss, rssv. generalize (combine rows b). clear. intros q. induction q as [|p q IH]; unfold Rsum in *; cbn [map fold_right fst snd]; [reflexivity|].
      rewrite IH, dot6_dotv. reflexivity. }
    destruct (solve 6 (gramv es) (rhsv es)) as [x|] eqn:E.
    + pose proof (solve_correct 6 _ _ _ E) as Hx. exists (map x (seq 0 6)). split; [now rewrite map_map|]. split; [reflexivity|].
      intros d Hd. rewrite !Hr. rewrite (normal_minimum 6 es (fun i => nth i (map x (seq 0 6)) 0)) with (d := fun i => nth i d 0).
      * pose proof (gramv_psd 6 es (fun i => nth i d 0 - nth i (map x (seq 0 6)) 0)). lra.
      * intros i Hi. rewrite <- Hx by exact Hi. apply mv_ext. intros j Hj. cbn [seq map]. do 6 (destruct j as [|j]; [reflexivity|]). lia.
    + split; [reflexivity|].
      assert (P : pivots 6 (gramv es) = false).
      { destruct (pivots 6 (gramv es)) eqn:P; [|reflexivity]. apply (solve_pivots 6 _ (rhsv es)) in P. destruct P as (x & P). congruence. }
      apply psd_pivots in P; [|apply gramv_sym|apply gramv_psd]. apply gramv_singular in P. destruct P as (x & (i & Hi & Hxi) & Hk).
      exists (map x (seq 0 6)). split; [reflexivity|]. split.
      * exists (x i). split; [|exact Hxi]. apply in_map. apply in_seq. lia.
      * intros r Hin. rewrite dot6_dotv.
        destruct (In_nth rows r nil Hin) as (k & Hk1 & Hk2).
        assert (In (r, nth k b 0) (combine rows b)).
        { rewrite <- Hk2, <- combine_nth by exact Hlen. apply nth_In. rewrite combine_length. lia. }
        etransitivity; [|apply (Hk ((fun i => nth i r 0), nth k b 0))].
        -- cbn [fst]. apply dotv_ext; [reflexivity|]. intros j Hj. cbn [seq map]. do 6 (destruct j as [|j]; [reflexivity|]). lia.
        -- rewrite Hes. apply in_map_iff. exists (r, nth k b 0). auto.
  - intros G HG HS HP. cbn [inv elim_la].
    set (A := fun i j => Rval (nth j (nth i (map (map Fin) G) nil) (Fin 0))).
    assert (EA : forall i j, A i j = entry G i j).
    { intros i j. unfold A, entry. change (@nil xr) with (map Fin nil). rewrite map_nth, nth_map_fin. reflexivity. }
    assert (SA : symmetric 6 A) by (intros i j Hi Hj; rewrite !EA; now apply HS).
    assert (PA : psd 6 A).
    { intros x. rewrite <- form6_qform. rewrite (form6_ext A (entry G)) by (intros; apply EA). apply HP. }
    destruct (pivots 6 A) eqn:P.
    + exists (fun i j => column 6 A j i). split; [reflexivity|].
      apply (inverse6_ext A); [intros; apply EA|]. apply inverse6_inverse. now apply column_inverse.
    + split; [reflexivity|]. intros (X & HX). apply psd_pivots in P; auto. revert P. apply (inverse_nonsingular 6 A X).
      apply inverse6_inverse. apply (inverse6_ext (entry G)); [intros; symmetry; apply EA|exact HX].
Qed.
