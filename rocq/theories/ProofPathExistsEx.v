(** * Concrete runs for property C107 *)
From Coq Require Import Reals Lra Lia.
From Verif Require Import Py Num NumXR ModelField ModelAquifer ModelTrace ModelObs ModelDist ModelDriver ModelMain.
From Verif Require Import SpecAquifer SpecFit SpecTrace SpecDriver SpecDist SpecMain Lstsq ProofFit ProofFitProps ProofFitEx ProofDriver ProofDriverEx ProofMain ProofMainEx ProofPosed.
From Verif Require Import SpecPathline SpecField SpecWhole ProofWhole ProofWholeEx SpecPathZone ProofPathline ProofPathTube ProofPathWells ProofAquifer ProofTrace ProofTraceLoop ProofTraceFlow ProofPathRun ProofPathExists ProofPathRunEx ProofPathZone.
Import ListNotations.
Local Open Scope R_scope.

Lemma d_gradient F r : gradient (with_coef dm 0 0 (dc 1 F)) r = 0.
Proof.
  unfold gradient. cbn [coef with_coef dc cA cB cC wells dm Rsum fold_right wq porosity thickness]. rewrite Rabs_R0.
  replace (4 * 0 ^ 2 + 2 * 0 ^ 2 + 4 * 0 ^ 2) with 0 by ring. rewrite sqrt_0. unfold Rdiv. ring.
Qed.

(** The capture zone of the run is resolved, with no distance between the tracks and the water. *)
Lemma d_resolved fuel n F z : z_model z = with_coef dm 0 0 (dc 1 F) -> traced fuel (d_call n dobs) dw (1 / 10) z ->
  resolved (1 / 10) 4 1 (1 / 10) z /\ flows z (fun _ t => (2 + 4 * t, 0)) /\ gradient (z_model z) 1 = 0.
Proof.
  intros Em T. destruct (d_zone fuel n F z Em T) as (Hm & (x & y & r & Hx & Hy & Hr & Hw) & HS & _). destruct T as (U & Tl & El & Ht). destruct Tl as [Tl Tr]. cbn [k_npaths d_call] in Tl. change (Z.to_nat 1) with 1%nat in Tl.
  assert (G0 : gradient (z_model z) 1 = 0) by (rewrite Em; apply d_gradient).
  set (f := z_velocity z) in *.
  assert (Hf : forall t, 0 <= t <= 1 / 10 -> f (fvec (2 + 4 * t, 0)) = Ok (fvec (4, 0))).
  { intros t Hh. rewrite (upstream_confined _ f (2 + 4 * t, 0) Hm U).
    - rewrite Em, d_velocity by lra. now rewrite Rmult_1_r.
    - rewrite Em. intros w [<-|[]]. cbn. lra. }
  (* the vertices *)
  assert (V : forall j l ts, nth_error (z_tracks z) j = Some l -> nth_error (z_times z) j = Some ts -> (0 < length l)%nat /\ nth 0 l (0, 0) = (2, 0) /\ 0 <= last ts 0 <= 1 / 10 /\
     (forall t, 0 <= t <= 1 / 10 -> d_path j t = (2 + 4 * t, 0)) /\ moves f (d_path j) (1 / 10) /\ forall q, In q l -> exists t, 0 <= t <= 1 / 10 /\ q = (2 + 4 * t, 0)).
  { intros j l ts E1 E2. assert (Hj : (j < length (z_tracks z))%nat) by (apply nth_error_Some; intros X; assert (Y : Some l = None) by exact (eq_trans (eq_sym E1) X); discriminate Y).
    destruct (Hw j Hj) as (Z0 & Zm & Zv & Zo). destruct (Ht j l ts E1 E2) as (p & tr & Hr' & P).
    assert (Pl : (0 < length l)%nat).
    { destruct l as [|x0 l]; [|cbn; lia]. exfalso. pose proof (pc_vertices _ _ _ _ _ _ _ P) as E'. destruct (c36_path _ _ _ _ _ _ _ _ Hr') as (more & E7 & _). rewrite E7 in E'. discriminate E'. }
    assert (St : nth 0 l (0, 0) = d_path j 0).
    { rewrite Z0. destruct (Tr j l E1) as (x' & y' & r' & tr' & X1 & X2 & X3 & B' & Vt). cbv zeta in B'. assert (x' = x) by congruence. assert (y' = y) by congruence. assert (r' = r) by congruence. subst x' y' r'.
      destruct (c36_path _ _ _ _ _ _ _ _ B') as (more & E7 & _). rewrite Vt in E7. destruct l as [|p0 l]; [discriminate|]. cbn in E7 |- *.
      match goal with |- p0 = ?q => assert (X : fvec p0 = fvec q) by (unfold fvec at 2; cbn [fst snd]; congruence) end. now apply fvec_inj in X. }
    destruct (confined_tame (z_model z) f (d_path j) (1 / 10) 4 1 Hm ltac:(lra) (fun q Ho => upstream_confined _ f q Hm U Ho) Zm Zv Zo) as [HL0 HT0].
    change (tame f (d_path j) (1 / 10) (4 + gradient (z_model z) 1 * 1) (gradient (z_model z) 1) 1) in HT0. rewrite G0 in HT0.
    destruct (tube_paced f (1 / 10) _ _ tr (d_path j) _ 0 1 l ts ltac:(lra) ltac:(lra) ltac:(lra) Zm HT0 P St (1 / 10)) as (_ & B).
    { apply HS. eapply nth_error_In; exact E2. } { lra. } { rewrite !Rmult_0_l, exp_0. lra. }
    split; [exact Pl|]. split; [rewrite St; unfold d_path; f_equal; ring|]. split.
    { rewrite last_as_nth, (pc_length _ _ _ _ _ _ _ P). apply (paced_times _ _ _ (1 / 10) _ _ _ ltac:(lra) P). apply Nat.sub_lt; [exact Pl|exact Nat.lt_0_1]. }
    split; [reflexivity|]. split; [exact Zm|]. intros q Hq. destruct (In_nth _ _ (0, 0) Hq) as (i & Hi & Ei). specialize (B i Hi). cbv zeta in B. rewrite !Rmult_0_l, exp_0, Rminus_diag_eq, Rmult_0_r in B by reflexivity.
    pose proof (paced_times _ _ _ (1 / 10) _ _ _ ltac:(lra) P i Hi) as Ti. exists (nth i ts 0). split; [exact Ti|]. assert (B' : pdist q (d_path j (nth i ts 0)) <= 0) by (rewrite <- Ei; exact B). clear B. rename B' into B. unfold d_path in B.
    pose proof (pdist_pos q (2 + 4 * nth i ts 0, 0)) as Pp. unfold pdist in B, Pp. cbn [fst snd] in B, Pp.
    assert (Sq : (2 + 4 * nth i ts 0 - fst q) * (2 + 4 * nth i ts 0 - fst q) + (0 - snd q) * (0 - snd q) = 0).
    { apply sqrt_eq_0; [apply Rplus_le_le_0_compat; apply Rle_0_sqr|]. apply Rle_antisym; assumption. }
    assert (S1 := Rle_0_sqr (2 + 4 * nth i ts 0 - fst q)). assert (S2 := Rle_0_sqr (0 - snd q)). unfold Rsqr in S1, S2.
    assert (Q1 : Rsqr (2 + 4 * nth i ts 0 - fst q) = 0) by (unfold Rsqr; lra). assert (Q2 : Rsqr (0 - snd q) = 0) by (unfold Rsqr; lra). apply Rsqr_0_uniq in Q1, Q2.
    rewrite (surjective_pairing q). f_equal; lra. }
  assert (Dw : forall t w, 0 <= t -> In w (wells (z_model z)) -> 2 * 1 <= pdist (2 + 4 * t, 0) (wx w, wy w)).
  { intros t w Hh Ho. rewrite Em in Ho. destruct Ho as [<-|[]]. unfold pdist. cbn. match goal with |- _ <= sqrt ?e => replace e with ((2 + 4 * t) * (2 + 4 * t)) by ring end. rewrite sqrt_square; lra. }
  split; [|split; [|exact G0]].
  - split; [exact Hm|]. split; [lra|]. split; [lra|]. split; [|split; [exact HS|]].
    + intros l Hl q Hq. apply In_nth_error in Hl. destruct Hl as (j & E1).
      assert (Hj : (j < length (z_tracks z))%nat) by (apply nth_error_Some; intros X; assert (Y : Some l = None) by exact (eq_trans (eq_sym E1) X); discriminate Y).
      destruct (nth_error (z_times z) j) as [ts|] eqn:E2; [|exfalso; apply nth_error_None in E2; exact (Nat.lt_irrefl _ (Nat.lt_le_trans _ _ _ Hj (eq_ind _ (fun k => (k <= j)%nat) E2 _ El)))].
      destruct (V j l ts E1 E2) as (_ & _ & _ & _ & _ & Vq). destruct (Vq q Hq) as (t & Hh & ->). split; [|intros w Ho; apply Dw; [lra|exact Ho]].
      intros u E. fold f in E. rewrite (Hf t Hh) in E. assert (X : fvec (4, 0) = fvec u) by congruence. apply fvec_inj in X. subst u. unfold pnorm. cbn [fst snd].
      replace (4 * 4 + 0 * 0) with (4 * 4) by ring. rewrite sqrt_square; lra.
    + cbv zeta. rewrite G0, !Rmult_0_l, exp_0. lra.
  - intros j l ts E1 E2. destruct (V j l ts E1 E2) as (_ & St & HT & _ & Zm & _). split; [rewrite St; f_equal; ring|]. split.
    + intros t Hh. apply Zm. lra.
    + intros t w Hh Ho E. pose proof (Dw t w ltac:(lra) Ho) as X. rewrite E, pdist_self in X. lra.
Qed.

(** The runs of C106: all the capture zones of such a run are resolved, the water moves from (2, 0) to (12/5, 0). *)
Lemma c107_deterministic_example : exists fuel s lg, let a := d_args (PInt 1) halves quarter dobs in let c := d_call 1 dobs in
  deterministic_run fuel a c dobs s lg /\ k_confined c = true /\ k_duration c = Fin (1 / 10) /\ 0 <= 1 / 10 /\ xr_pos (k_umbra c) /\ has_node s 2 0 1 false /\
  forall z, has_parameters mean_of a c dw (z_model z) -> best_fit (z_model z) dobs (coef (z_model z)) -> traced fuel c dw (1 / 10) z ->
    resolved (1 / 10) 4 1 (1 / 10) z /\ flows z (fun _ t => (2 + 4 * t, 0)).
Proof.
  destruct c106_deterministic_example as (fuel & s & lg & H). exists fuel, s, lg. cbv zeta in H |- *. destruct H as (H1 & H2 & H3 & H4 & H5 & H6 & _).
  repeat (split; [assumption|]). intros z P Bf T. destruct (d_resolved fuel 1 10 z (d_model _ P Bf) T) as (A & B & _). auto.
Qed.

Lemma c107_stochastic_example : exists fuel s logs, let a := d_args (PInt 2) (PInt 1) quarter dobs in let c := d_call 2 dobs in
  let mvn := fun (e : coef6 R) (_ : list xr) (_ : list (list xr)) => coef_list (fcoef e) in
  let entropy := fun _ : nat => {| cA := 0; cB := 0; cC := 0; cD := 1; cE := 0; cF := 0 |} in
  stochastic_run mvn fuel entropy a c dobs s logs /\ k_confined c = true /\ k_duration c = Fin (1 / 10) /\ 0 <= 1 / 10 /\ xr_pos (k_umbra c) /\ has_node s 2 0 2 false /\
  forall i z ev C, has_parameters within a c dw (z_model z) -> traced fuel c dw (1 / 10) z ->
    mvn (entropy i) (coef_list (fcoef ev)) C = coef_list (fcoef (coef (z_model z))) ->
    resolved (1 / 10) 4 1 (1 / 10) z /\ flows z (fun _ t => (2 + 4 * t, 0)).
Proof.
  destruct c106_stochastic_example as (fuel & s & logs & H). exists fuel, s, logs. cbv zeta in H |- *. destruct H as (H1 & H2 & H3 & H4 & H5 & H6 & _).
  repeat (split; [assumption|]). intros i z ev C P T M.
  destruct (d_resolved fuel 2 0 z) as (A & B & _); [|exact T|auto]. apply d_model_drawn; [exact P|].
  destruct (coef (z_model z)) as [a1 a2 a3 a4 a5 a6]. unfold fcoef, coef_list in M. cbn in M. unfold dc. congruence.
Qed.
