(** * Proofs about fit_regional_flow: recovery, optimality, singularity, invariance *)
From Coq Require Import Reals Lra Lia Psatz Permutation.
From Verif Require Import Py Num NumXR ModelAquifer SpecAquifer ProofPi ProofAquifer ProofHead LinAlg Lstsq SpecFit ProofFit.
Local Open Scope R_scope.
Local Opaque kappa.

(** ** Dictionary between the specification (six indices) and the linear algebra library *)
Lemma sum6_vsum f : sum6 f = vsum 6 f.
Proof. unfold sum6. cbn. ring. Qed.
Lemma form6_qform A x : form6 A x = qform 6 A x.
Proof.
  unfold form6, qform, dotv, mv. rewrite sum6_vsum. apply vsum_ext. intros i _. rewrite sum6_vsum, <- vsum_scal.
  apply vsum_ext. intros. ring.
Qed.
Lemma inverse6_inverse A X : inverse6 A X <-> inverse_of 6 A X.
Proof. unfold inverse6, inverse_of, mm, idm. split; intros H i j Hi Hj; specialize (H i j Hi Hj); now rewrite !sum6_vsum in *. Qed.

(** ** Coefficients as lists and vectors *)
Definition coef_of (v : nat -> R) : coef6 R :=
  {| cA := v 0%nat; cB := v 1%nat; cC := v 2%nat; cD := v 3%nat; cE := v 4%nat; cF := v 5%nat |}.
Lemma cvec_coef_of v i : (i < 6)%nat -> cvec (coef_of v) i = v i.
Proof. intros H. unfold cvec, coef_of, coef_list. do 6 (destruct i as [|i]; [reflexivity|]). lia. Qed.
Lemma coef_of_cvec c : coef_of (cvec c) = c.
Proof. now destruct c. Qed.
Lemma coef_list_of l : length l = 6%nat -> coef_list (coef_of (fun i => nth i l 0)) = l.
Proof. intros H. do 6 (destruct l as [|? l]; [discriminate|]). destruct l; [reflexivity|discriminate]. Qed.
Lemma coef_eq c d : (forall i, (i < 6)%nat -> cvec c i = cvec d i) -> c = d.
Proof.
  intros H. rewrite <- (coef_of_cvec c), <- (coef_of_cvec d). unfold coef_of. 
  rewrite !H by lia. reflexivity.
Qed.
Lemma cvec_zero i : cvec zero_coef i = 0.
Proof. unfold cvec. do 7 (destruct i as [|i]; try reflexivity). Qed.
Lemma cvec_nonzero c : c <> zero_coef -> nonzero 6 (cvec c).
Proof.
  intros H. destruct (Req_dec (cvec c 0) 0) as [E0|]; [|now exists 0%nat; split; [lia|]].
  destruct (Req_dec (cvec c 1) 0) as [E1|]; [|now exists 1%nat; split; [lia|]].
  destruct (Req_dec (cvec c 2) 0) as [E2|]; [|now exists 2%nat; split; [lia|]].
  destruct (Req_dec (cvec c 3) 0) as [E3|]; [|now exists 3%nat; split; [lia|]].
  destruct (Req_dec (cvec c 4) 0) as [E4|]; [|now exists 4%nat; split; [lia|]].
  destruct (Req_dec (cvec c 5) 0) as [E5|]; [|now exists 5%nat; split; [lia|]].
  exfalso. apply H. apply coef_eq. intros i Hi. rewrite cvec_zero. do 6 (destruct i as [|i]; auto). lia.
Qed.

(** ** Translating quadratics *)
Definition shift_coef (c : coef6 R) (a b : R) : coef6 R :=
  {| cA := cA c; cB := cB c; cC := cC c;
     cD := cD c + 2 * cA c * a + cC c * b;
     cE := cE c + 2 * cB c * b + cC c * a;
     cF := cF c + cA c * a * a + cB c * b * b + cC c * a * b + cD c * a + cE c * b |}.
Lemma quad_shift c a b u v : quad (shift_coef c a b) u v = quad c (u + a) (v + b).
Proof. unfold quad, shift_coef. cbn. ring. Qed.
Lemma shift_shift c a b a' b' : shift_coef (shift_coef c a b) a' b' = shift_coef c (a + a') (b + b').
Proof. unfold shift_coef. cbn. f_equal; ring. Qed.
Lemma shift_0 c : shift_coef c 0 0 = c.
Proof. destruct c. unfold shift_coef. cbn. f_equal; ring. Qed.
Lemma shift_zero a b : shift_coef zero_coef a b = zero_coef.
Proof. unfold shift_coef, zero_coef. cbn. f_equal; ring. Qed.

(** ** The linear system of the fit *)
Section System.
  Variables (m : model R) (l : list (obs R)).
  Hypothesis HK : 0 < conductivity m.
  Hypothesis HH : 0 < thickness m.
  Hypothesis Hu : forall o, In o l -> usable m o.

  Lemma misfit_rssv x0 y0 c : misfit m x0 y0 l c = rssv 6 (eqs m x0 y0 l) (cvec c).
  Proof.
    unfold misfit, rssv, eqs, Rsum. rewrite <- (map_id l) at 1. clear HK HH. induction l as [|o k IH]; [reflexivity|].
    cbn [map fold_right fst snd]. rewrite <- IH by (intros; apply Hu; now right). rewrite map_id.
    rewrite residual_eq by (apply Hu; now left). reflexivity.
  Qed.

  Lemma rss_rssv x0 y0 c : rss (map (row m x0 y0) l) (map (rhs m) l) c = rssv 6 (eqs m x0 y0 l) (fun i => nth i c 0).
  Proof.
    unfold rss, rssv, eqs, Rsum. clear HK HH Hu. induction l as [|o k IH]; [reflexivity|].
    cbn [map combine fold_right fst snd]. rewrite IH.
    assert (E : dot6 (row m x0 y0 o) c = dotv 6 (rowf m x0 y0 o) (fun i => nth i c 0)).
    { rewrite dot6_dotv. apply dotv_ext; auto. intros. now apply row_nth. }
    rewrite E. reflexivity.
  Qed.

  Lemma singular_conic x0 y0 : singular 6 (gramv (eqs m x0 y0 l)) <-> ~ conic_free l.
  Proof.
    rewrite gramv_singular. split.
    - intros (d & Hd & H) Hc.
      assert (E : shift_coef (coef_of d) (- x0) (- y0) = zero_coef).
      { apply Hc. intros o Ho. rewrite quad_shift.
        assert (Z := H (rowf m x0 y0 o, rhs m o) ltac:(unfold eqs; apply in_map_iff; eauto)). cbn [fst] in Z.
        rewrite (dotv_ext 6 _ d (rowf m x0 y0 o) (cvec (coef_of d))), rowf_dot in Z by (auto; intros; now rewrite cvec_coef_of).
        pose proof (obs_sd_pos m o HK HH (Hu o Ho)) as P.
        unfold Rminus in Z. apply Rmult_integral in Z. destruct Z as [Z|Z]; [exact Z|].
        exfalso. revert Z. apply Rinv_neq_0_compat. lra. }
      assert (E' : coef_of d = zero_coef).
      { rewrite <- (shift_0 (coef_of d)). replace 0 with (- x0 + x0) at 1 by ring. replace 0 with (- y0 + y0) at 1 by ring.
        rewrite <- shift_shift, E. apply shift_zero. }
      destruct Hd as (i & Hi & Hdi). apply Hdi. rewrite <- (cvec_coef_of d) by exact Hi. rewrite E'. apply cvec_zero.
    - intros Hc.
      assert (X : exists c, (forall o, In o l -> quad c (ox o) (oy o) = 0) /\ c <> zero_coef).
      { apply Classical_Prop.NNPP. intros N. apply Hc. intros c Hq. apply Classical_Prop.NNPP. intros Hz. apply N. eauto. }
      destruct X as (c & Hq & Hz). exists (cvec (shift_coef c x0 y0)). split.
      + apply cvec_nonzero. intros E. apply Hz. rewrite <- (shift_0 c). replace 0 with (x0 + - x0) at 1 by ring.
        replace 0 with (y0 + - y0) at 1 by ring. rewrite <- shift_shift, E. apply shift_zero.
      + intros e He. unfold eqs in He. apply in_map_iff in He. destruct He as (o & <- & Ho). cbn [fst]. rewrite rowf_dot, quad_shift.
        replace (ox o - x0 + x0) with (ox o) by ring. replace (oy o - y0 + y0) with (oy o) by ring. rewrite Hq by exact Ho. unfold Rdiv. ring.
  Qed.

  (** The matrix the program inverts. *)
  Definition rgram (x0 y0 : R) : list (list R) :=
    map (fun i => map (fun j => gramv (eqs m x0 y0 l) i j) (seq 0 6)) (seq 0 6).

  Lemma nsum_fin (f : list R -> R) rows a : fold_left xadd (map (fun r => Fin (f r)) rows) (Fin a) = Fin (a + Rsum f rows).
  Proof.
    revert a. induction rows as [|r rows IH]; intros a; unfold Rsum in *; cbn [map fold_left fold_right]; [now rewrite Rplus_0_r|].
    cbn [xadd]. rewrite IH. f_equal. ring.
  Qed.

  Lemma nth_map_fin i r : nth i (map Fin r) (Fin 0) = Fin (nth i r 0).
  Proof. apply map_nth. Qed.

  Lemma gram_eq x0 y0 : gram (map (map Fin) (map (row m x0 y0) l)) = map (map Fin) (rgram x0 y0).
  Proof.
    unfold gram, rgram. symmetry. etransitivity; [apply map_map|]. apply map_ext_in. intros i Hi.
    etransitivity; [apply map_map|]. apply map_ext_in. intros j Hj. apply in_seq in Hi. apply in_seq in Hj. symmetry.
    unfold nsum. cbn [nadd nZ nmul XR]. rewrite map_map.
    rewrite (map_ext _ (fun r => Fin (nth i r 0 * nth j r 0))) by (intros r; now rewrite !nth_map_fin).
    rewrite nsum_fin. f_equal. rewrite Rplus_0_l. unfold gramv, eqs, Rsum. clear HK HH Hu.
    induction l as [|o k IH]; cbn [map fold_right fst]; [reflexivity|]. rewrite IH. rewrite !row_nth by lia. reflexivity.
  Qed.

  Lemma entry_rgram x0 y0 i j : (i < 6)%nat -> (j < 6)%nat -> entry (rgram x0 y0) i j = gramv (eqs m x0 y0 l) i j.
  Proof.
    intros Hi Hj. unfold entry, rgram. cbn [seq map].
    do 6 (destruct i as [|i]; [do 6 (destruct j as [|j]; [reflexivity|]); lia|]). lia.
  Qed.

  Lemma gramv_normal x0 y0 i j : gramv (eqs m x0 y0 l) i j = normal_matrix m x0 y0 l i j.
  Proof.
    unfold gramv, normal_matrix, eqs, Rsum.
    assert (P : forall o, In o l -> 0 < obs_sd m o) by (intros; apply obs_sd_pos; auto). clear HK HH Hu.
    induction l as [|o k IH]; cbn [map fold_right fst]; [reflexivity|]. rewrite IH by (intros; apply P; now right).
    unfold rowf. pose proof (P o (or_introl eq_refl)). apply f_equal2; [|reflexivity]. field. lra.
  Qed.

  Lemma square_rgram x0 y0 : square6 (rgram x0 y0).
  Proof.
    split; [reflexivity|]. intros r Hr. unfold rgram in Hr. apply in_map_iff in Hr. destruct Hr as (i & <- & _). now rewrite map_length.
  Qed.

  Lemma sum6_ext f g : (forall i, (i < 6)%nat -> f i = g i) -> sum6 f = sum6 g.
  Proof. intros H. unfold sum6. now rewrite !H by lia. Qed.

  Lemma inverse6_ext A B X : (forall i j, (i < 6)%nat -> (j < 6)%nat -> A i j = B i j) -> inverse6 A X -> inverse6 B X.
  Proof.
    intros E H i j Hi Hj. destruct (H i j Hi Hj) as [H1 H2]. split.
    - rewrite <- H1. apply sum6_ext. intros k Hk. now rewrite E.
    - rewrite <- H2. apply sum6_ext. intros k Hk. now rewrite E.
  Qed.

  Lemma form6_ext A B x : (forall i j, (i < 6)%nat -> (j < 6)%nat -> A i j = B i j) -> form6 A x = form6 B x.
  Proof. intros E. unfold form6. apply sum6_ext. intros i Hi. apply sum6_ext. intros j Hj. now rewrite E. Qed.

  Variable la : linalg xr.
  Hypothesis Hla : linalg_contract la.

  (** What a fit does, given the contract of numpy.linalg. *)
  Lemma fit_cases x0 y0 :
    (exists c C A, ~ singular 6 (gramv (eqs m x0 y0 l)) /\
       fit_regional_flow la (fmodel m) (map fobs l) (Fin x0) (Fin y0)
         = (fmodel (with_coef m x0 y0 c), Ok (coef_list (fcoef c), C)) /\
       matrix6 C A /\ inverse6 (normal_matrix m x0 y0 l) A /\ normal_eqs 6 (eqs m x0 y0 l) (cvec c)) \/
    (singular 6 (gramv (eqs m x0 y0 l)) /\
       fit_regional_flow la (fmodel m) (map fobs l) (Fin x0) (Fin y0) = (fmodel m, Raise LinAlgError)).
  Proof.
    destruct Hla as [Hls Hinv]. unfold fit_regional_flow. rewrite construct_fit_eq by auto. cbn [bind]. unfold compute_fit.
    specialize (Hls (map (row m x0 y0) l) (map (rhs m) l)).
    assert (L6 : forall r, In r (map (row m x0 y0) l) -> length r = 6%nat).
    { intros r Hr. apply in_map_iff in Hr. destruct Hr as (o & <- & _). reflexivity. }
    specialize (Hls L6 ltac:(now rewrite !map_length)).
    destruct (lstsq la _ _) as [v|e|]; [|right|contradiction].
    - destruct Hls as (c & -> & Hc & Hmin). cbn [bind]. rewrite gram_eq.
      specialize (Hinv (rgram x0 y0) (square_rgram x0 y0)).
      assert (S6 : symmetric6 (entry (rgram x0 y0))).
      { intros i j Hi Hj. rewrite !entry_rgram by auto. apply (gramv_sym 6); auto. }
      assert (P6 : forall x, 0 <= form6 (entry (rgram x0 y0)) x).
      { intros x. rewrite (form6_ext _ (gramv (eqs m x0 y0 l))) by (intros; now apply entry_rgram). rewrite form6_qform. apply gramv_psd. }
      specialize (Hinv S6 P6).
      destruct (inv la _) as [X|e|]; [left|right|contradiction].
      + destruct Hinv as (A & HX & HA). apply (inverse6_ext _ (gramv (eqs m x0 y0 l))) in HA; [|intros; now apply entry_rgram].
        exists (coef_of (fun i => nth i c 0)), X, A. split.
        { apply inverse6_inverse in HA. now apply inverse_nonsingular in HA. }
        split.
        { clear Hmin. do 6 (destruct c as [|? c]; [discriminate|]). destruct c; [reflexivity|discriminate]. }
        split; [exact HX|]. split.
        { apply (inverse6_ext (gramv (eqs m x0 y0 l))); [|exact HA]. intros. apply gramv_normal. }
        apply minimum_normal. intros d. rewrite (rssv_ext 6 _ (cvec _) (fun i => nth i c 0)) by (intros; now apply cvec_coef_of).
        rewrite (rssv_ext 6 _ d (fun i => nth i (coef_list (coef_of d)) 0)) by (intros i Hi; symmetry; now apply (cvec_coef_of d)).
        rewrite <- !rss_rssv. apply Hmin. reflexivity.
      + destruct Hinv as (-> & HN). split; [|reflexivity].
        destruct (pivots 6 (gramv (eqs m x0 y0 l))) eqn:Ep.
        * exfalso. apply HN. exists (fun i j => column 6 (gramv (eqs m x0 y0 l)) j i).
          apply (inverse6_ext (gramv (eqs m x0 y0 l))); [intros; symmetry; now apply entry_rgram|].
          apply inverse6_inverse. apply column_inverse; [apply gramv_sym|exact Ep].
        * apply psd_pivots; [apply gramv_sym|apply gramv_psd|exact Ep].
    - destruct Hls as (-> & d & Hd & (x & Hx & Hx0) & H). split; [|reflexivity].
      apply gramv_singular. exists (fun i => nth i d 0). split.
      + destruct (In_nth d x 0 Hx) as (i & Hi & E). exists i. split; [lia|]. now rewrite E.
      + intros e He. unfold eqs in He. apply in_map_iff in He. destruct He as (o & <- & Ho). cbn [fst].
        etransitivity; [|apply (H (row m x0 y0 o)); apply in_map; exact Ho]. rewrite dot6_dotv. apply dotv_ext; auto.
        intros i Hi. symmetry. now apply row_nth.
  Qed.

  Lemma fit_ok x0 y0 m' ev C :
    fit_regional_flow la (fmodel m) (map fobs l) (Fin x0) (Fin y0) = (m', Ok (ev, C)) ->
    exists c A, m' = fmodel (with_coef m x0 y0 c) /\ ev = coef_list (fcoef c) /\
      ~ singular 6 (gramv (eqs m x0 y0 l)) /\ matrix6 C A /\ inverse6 (normal_matrix m x0 y0 l) A /\ normal_eqs 6 (eqs m x0 y0 l) (cvec c).
  Proof.
    intros H. destruct (fit_cases x0 y0) as [(c & C' & A & Hs & E & HC & HA & Hn)|[Hs E]]; rewrite E in H; [|discriminate].
    injection H as <- <- <-. exists c, A. auto 10.
  Qed.

  Lemma normal_unique x0 y0 c d : ~ singular 6 (gramv (eqs m x0 y0 l)) ->
    normal_eqs 6 (eqs m x0 y0 l) (cvec c) -> normal_eqs 6 (eqs m x0 y0 l) (cvec d) -> c = d.
  Proof.
    intros Hs Hc Hd. apply coef_eq. apply (minimum_unique 6 (eqs m x0 y0 l)); auto.
    rewrite (normal_minimum 6 _ (cvec c) Hc (cvec d)). pose proof (gramv_psd 6 (eqs m x0 y0 l) (fun i => cvec d i - cvec c i)). lra.
  Qed.
End System.
