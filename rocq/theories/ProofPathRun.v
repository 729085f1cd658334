(** * The capture zone of a run and the paths of the water (C106) *)
From Coq Require Import Reals Lra Lia Psatz List Bool Arith ZArith.
From Verif Require Import Py Num NumXR ModelField ModelAquifer ModelTrace ModelDist ModelDriver ModelMain
  SpecAquifer SpecFit SpecTrace SpecDist SpecDriver SpecMain SpecPathline SpecField SpecWhole SpecPathZone
  ProofAquifer ProofTrace ProofTraceLoop ProofTraceFlow ProofPathline ProofPathAffine ProofPathTube ProofPathWells ProofPathZone ProofWhole.
Import ListNotations.
Local Open Scope R_scope.

Lemma upstream_confined m f q : physical m -> upstream true m f -> off_wells (wells m) (fst q) (snd q) -> f (fvec q) = feval true (fmodel m) (fvec q).
Proof.
  intros Hm Hf Ho. destruct (Hf _ _ Ho) as (gx & gy & D1 & D2 & E). destruct (upstream_feval true m Hm _ _ Ho) as (hx & hy & D3 & D4 & E').
  cbv beta iota in E, E'. assert (gx = hx) by (eapply uniqueness_limite; eassumption). assert (gy = hy) by (eapply uniqueness_limite; eassumption). subst. unfold fvec. congruence.
Qed.

Lemma choose_times f tol maxstep D (ok : list pt -> trace xr -> Prop) : forall tracks : list (list pt),
  (forall l, In l tracks -> exists tr ts, ok l tr /\ paced f tol maxstep D tr l ts) ->
  exists times, length times = length tracks /\
    forall j l ts, nth_error tracks j = Some l -> nth_error times j = Some ts -> exists tr, ok l tr /\ paced f tol maxstep D tr l ts.
Proof.
  induction tracks as [|l tracks IH]; intros H.
  - exists []. split; [reflexivity|]. intros [|j]; discriminate.
  - destruct IH as (times & E & P); [intros l' Hl; apply H; now right|]. destruct (H l (or_introl eq_refl)) as (tr & ts & O & Q).
    exists (ts :: times). split; [cbn; now rewrite E|]. intros [|j] l' ts' E1 E2; cbn in E1, E2; [injection E1 as <-; injection E2 as <-; now exists tr|]. eapply P; eassumption.
Qed.

(** One capture zone. *)
Lemma zone_agrees fuel c w D u m f tracks : k_duration c = Fin D -> 0 <= D -> 0 <= u -> upstream true m f -> tracks_of fuel c w f tracks ->
  exists times, let z := {| z_model := m; z_velocity := f; z_tracks := tracks; z_times := times |} in
    traced fuel c w D z /\ forall before p h, hit u before tracks p h -> agrees c w D u z p h.
Proof.
  intros HD0 HD Hu N10 N11.
  destruct (choose_times f (k_tol c) (k_maxstep c) D
    (fun l tr => exists p, compute_backtrace fuel (Fin (fst p)) (Fin (snd p)) (Fin D) (k_tol c) (k_maxstep c) f = Ok tr /\ nth 0 l (0, 0) = p) tracks) as (times & El & Ht).
  { intros l Hl. apply In_nth_error in Hl. destruct Hl as (j & Hj). destruct N11 as (_ & Tr). destruct (Tr j l Hj) as (x' & y' & r & tr & _ & _ & _ & B & Vt). cbv zeta in B. rewrite HD0 in B.
    set (q := (x' + (r + 1) * cos (2 * PI * INR j / INR (Z.to_nat (k_npaths c))), y' + (r + 1) * sin (2 * PI * INR j / INR (Z.to_nat (k_npaths c)))) : pt).
    change (compute_backtrace fuel (Fin (fst q)) (Fin (snd q)) (Fin D) (k_tol c) (k_maxstep c) f = Ok tr) in B.
    destruct (paced_trace _ _ _ _ _ _ _ HD B) as (l' & ts & P & E0). pose proof (pc_vertices _ _ _ _ _ _ _ P) as Vl. rewrite Vt in Vl.
    assert (l = l').
    { clear - Vl. revert l' Vl. induction l as [|p l IH]; intros [|p' l'] E; try discriminate; [reflexivity|]. cbn [map] in E. assert (X : fvec p = fvec p') by congruence. apply fvec_inj in X.
      f_equal; [exact X|]. apply IH. congruence. }
    subst l'. exists tr, ts. split; [|exact P]. exists q. auto. }
  exists times. cbv zeta. split.
  { split; [exact N10|]. split; [exact N11|]. split; [exact El|]. cbn [z_tracks z_times z_velocity]. intros j l ts E1 E2. destruct (Ht j l ts E1 E2) as (tr & (p & B & _) & P). exists p, tr. auto. }
  intros before [px py] h (Hit1 & Hit2) v rho H path Hm Hrho HH (x & y & r & Hx & Hy & Hr & HP) HS m0 k L V H50 HB E. cbn [z_model z_velocity z_tracks z_times] in HP, HS, Hm |- *. subst m0.
  (* every track is beside its path *)
  assert (Bs : forall j l ts, nth_error tracks j = Some l -> nth_error times j = Some ts ->
     0 <= last ts 0 <= D /\ beside E l (path j) (last ts 0)).
  { intros j l ts E1 E2. assert (Hj : (j < length tracks)%nat) by (apply nth_error_Some; rewrite E1; discriminate).
    destruct (HP j Hj) as (Z0 & Zm & Zv & Zw). destruct (Ht j l ts E1 E2) as (tr & (p & B & Ep) & P).
    destruct N11 as (_ & Tr). destruct (Tr j l E1) as (x' & y' & r' & tr' & X1 & X2 & X3 & B' & Vt). cbv zeta in B'. rewrite HD0 in B'.
    assert (x' = x) by congruence. assert (y' = y) by congruence. assert (r' = r) by congruence. subst x' y' r'.
    assert (Start : nth 0 l (0, 0) = path j 0 /\ (0 < length l)%nat).
    { destruct (c36_path _ _ _ _ _ _ _ _ B') as (more & E7 & _). rewrite Vt in E7. destruct l as [|p0 l]; [discriminate|]. split; [|cbn; lia]. cbn in E7 |- *. rewrite Z0.
      assert (X : fvec p0 = fvec (x + (r + 1) * cos (2 * PI * INR j / INR (Z.to_nat (k_npaths c))), y + (r + 1) * sin (2 * PI * INR j / INR (Z.to_nat (k_npaths c))))) by (unfold fvec at 2; cbn [fst snd]; congruence).
      now apply fvec_inj in X. }
    destruct Start as [St1 St2].
    destruct (confined_tame m f (path j) D v rho Hm Hrho (fun q Ho => upstream_confined m f q Hm N10 Ho) Zm Zv Zw) as [HL0 HT0].
    assert (HL : 0 <= L) by exact HL0. assert (HT : tame f (path j) D V L rho) by exact HT0. clear HL0 HT0.
    assert (HV : 0 <= V) by (apply (speed_pos f (path j) D V L rho HT ltac:(lra) 0); lra).
    destruct (beside_paced f D _ _ tr (path j) V L rho l ts HD HL ltac:(lra) Zm HT P St1 St2 H HH (HS ts (nth_error_In _ _ E2)) H50 HB) as (T1 & Bd).
    split; [exact T1|].
    assert (LE : 5 * V * H * (exp (L * last ts 0) - 1) + V * H / 2 <= E).
    { unfold E. apply Rplus_le_compat_r. apply Rmult_le_compat_l; [apply Rmult_le_pos; lra|]. assert (exp (L * last ts 0) <= exp (L * D)) by (apply exp_grow, Rmult_le_compat_l; lra). lra. }
    destruct Bd as [Bd1 Bd2]. split.
    - intros q Hq. destruct (Bd1 q Hq) as (t & Q1 & Q2). exists t. split; [exact Q1|lra].
    - intros t Htt. destruct (Bd2 t Htt) as (q & Q1 & Q2). exists q. split; [exact Q1|lra]. }
  split.
  - intros ->. destruct (Hit1 eq_refl) as (l & Hl & Nt). apply In_nth_error in Hl. destruct Hl as (j & E1).
    assert (Hj : (j < length tracks)%nat) by (apply nth_error_Some; rewrite E1; discriminate).
    destruct (nth_error times j) as [ts|] eqn:E2; [|exfalso; apply nth_error_None in E2; exact (Nat.lt_irrefl _ (Nat.lt_le_trans _ _ _ Hj (eq_ind _ (fun k => (k <= j)%nat) E2 _ El)))].
    destruct (Bs j l ts E1 E2) as (T1 & Bd). destruct (c106_near E (last ts 0) u l (path j) (px, py) Bd Hu) as [Near _]. destruct (Near Nt) as (t & Q1 & Q2).
    exists j, t. split; [exact Hj|]. split; [lra|exact Q2].
  - intros j l ts t E1 E2 Hd Hb Ht1 Ht2. destruct (Bs j l ts E1 E2) as (T1 & Bd). destruct (c106_near E (last ts 0) u l (path j) (px, py) Bd Hu) as [_ Near].
    assert (Nt : near_track u l (px, py)) by (apply Near; [exact Hd|now exists t]). apply nth_error_split in E1. destruct E1 as (pre & post & Et & _).
    apply (Hit2 pre l post Et Nt). destruct Hb as (p1 & p2 & p3 & p4 & I1 & I2 & I3 & I4 & B1 & B2). exists p1, p2, p3, p4. rewrite !in_app_iff. tauto.
Qed.

(** C106 for a deterministic run in a confined aquifer. *)
Lemma c106_deterministic : forall (fuel : nat) (a : args xr) (c : call) (kept : list (obs R)) (s : pfield xr) (lg : run_log xr) (D : R),
  deterministic_run fuel a c kept s lg -> k_confined c = true -> k_duration c = Fin D -> 0 <= D -> xr_pos (k_umbra c) ->
  exists w u z,
    nth_error (k_wells c) (Z.to_nat (k_target c)) = Some w /\ k_umbra c = Fin u /\
    has_parameters mean_of a c w (z_model z) /\ best_fit (z_model z) kept (coef (z_model z)) /\ traced fuel c w D z /\
    forall px py n b, has_node s px py n b -> exists h : bool, n = (if h then 1 else 0) /\ agrees c w D u z (px, py) h.
Proof.
  intros fuel a c kept s lg D (w & x & y & sp & u & m & f & tracks & N1 & N2 & N3 & N4 & N5 & N6 & N7 & N8 & N9 & N10 & N11 & N12) Hc HD0 HD Hu.
  rewrite Hc in N10. rewrite N5 in Hu. cbn in Hu. destruct (zone_agrees fuel c w D u m f tracks HD0 HD ltac:(lra) N10 N11) as (times & Tr & Ag). cbv zeta in Tr, Ag.
  exists w, u. eexists. split; [exact N1|]. split; [exact N5|]. split; [|split; [|split; [exact Tr|]]]; [exact N6|exact N7|].
  intros px py n b Hn. destruct N12 as (_ & _ & N12). destruct (N12 px py n b Hn) as (_ & _ & hits & Hh1 & Hh2 & Hn'). cbn [length] in Hh1.
  destruct hits as [|h [|? ?]]; try discriminate. specialize (Hh2 0%nat tracks eq_refl). cbn [firstn concat nth app] in Hh2.
  exists h. split; [rewrite Hn'; now destruct h|]. eapply Ag. exact Hh2.
Qed.

Lemma choose_zones fuel c w D u : k_duration c = Fin D -> 0 <= D -> 0 <= u ->
  forall (runs : list (model R * list (list point))) (Q : nat -> model R -> Prop),
  (forall i m tracks, nth_error runs i = Some (m, tracks) -> Q i m /\ exists f, upstream true m f /\ tracks_of fuel c w f tracks) ->
  exists zones, map z_tracks zones = map snd runs /\
    forall i z, nth_error zones i = Some z -> Q i (z_model z) /\ traced fuel c w D z /\ forall before p h, hit u before (z_tracks z) p h -> agrees c w D u z p h.
Proof.
  intros HD0 HD Hu. induction runs as [|(m & tracks) runs IH]; intros Q HR.
  - exists []. split; [reflexivity|]. intros [|i]; discriminate.
  - destruct (IH (fun i => Q (S i))) as (zones & Ez & Hz); [intros i m' t' Hi; exact (HR (S i) m' t' Hi)|]. destruct (HR 0%nat m tracks eq_refl) as (Hq & f & U & T).
    destruct (zone_agrees fuel c w D u m f tracks HD0 HD Hu U T) as (times & Tr & Ag). exists ({| z_model := m; z_velocity := f; z_tracks := tracks; z_times := times |} :: zones). split; [cbn [map snd]; rewrite <- Ez; f_equal; reflexivity|].
    intros [|i] z E; cbn in E; [injection E as <-; split; [exact Hq|]; split; [exact Tr|exact Ag]|]. exact (Hz i z E).
Qed.

(** C106 for a stochastic run in a confined aquifer: every node counts the realizations whose capture zone has it, and each of
    the capture zones agrees with where the water of that realization passes. *)
Lemma c106_stochastic : forall (E : Type) (mvn : E -> list xr -> list (list xr) -> list xr) (fuel : nat) (entropy : nat -> E)
    (a : args xr) (c : call) (kept : list (obs R)) (s : pfield xr) (logs : list (run_log xr)) (D : R),
  stochastic_run mvn fuel entropy a c kept s logs -> k_confined c = true -> k_duration c = Fin D -> 0 <= D -> xr_pos (k_umbra c) ->
  exists w u zones,
    nth_error (k_wells c) (Z.to_nat (k_target c)) = Some w /\ k_umbra c = Fin u /\ length zones = Z.to_nat (k_n c) /\
    (forall i z, nth_error zones i = Some z -> let m := z_model z in
       has_parameters within a c w m /\ traced fuel c w D z /\
       exists ev C A, best_fit m kept ev /\ matrix6 C A /\ inverse6 (normal_matrix m (xo m) (yo m) kept) A /\
         mvn (entropy i) (coef_list (fcoef ev)) C = coef_list (fcoef (coef m))) /\
    forall px py n b, has_node s px py n b -> exists hits,
      length hits = length zones /\ n = INR (length (filter (fun h => h) hits)) /\
      forall i z h, nth_error zones i = Some z -> nth_error hits i = Some h -> agrees c w D u z (px, py) h.
Proof.
  intros E mvn fuel entropy a c kept s logs D (w & x & y & sp & u & runs & N1 & N2 & N3 & N4 & N5 & N6 & N7 & N8 & N9) Hc HD0 HD Hu.
  rewrite N5 in Hu. cbn in Hu.
  destruct (choose_zones fuel c w D u HD0 HD ltac:(lra) runs (fun i m => has_parameters within a c w m /\
       exists ev C A, best_fit m kept ev /\ matrix6 C A /\ inverse6 (normal_matrix m (xo m) (yo m) kept) A /\
         mvn (entropy i) (coef_list (fcoef ev)) C = coef_list (fcoef (coef m)))) as (zones & Ez & Hz).
  { intros i m tracks Hi. assert (Li : (i < length logs)%nat) by (rewrite N6, <- N7; apply nth_error_Some; rewrite Hi; discriminate).
    destruct (nth_error logs i) as [lg|] eqn:El; [|apply nth_error_None in El; lia]. destruct (N8 i lg m tracks El Hi) as (P & B & _ & _ & f & U & T). rewrite Hc in U. split; [split; [exact P|exact B]|]. now exists f. }
  assert (Lz : length zones = length runs) by (rewrite <- (map_length z_tracks), Ez; apply map_length).
  exists w, u, zones. split; [exact N1|]. split; [exact N5|]. split; [lia|]. split.
  { intros i z Hi. destruct (Hz i z Hi) as ((P & B) & T & _). auto. }
  intros px py n b Hn. destruct N9 as (_ & _ & N9). destruct (N9 px py n b Hn) as (_ & _ & hits & Hh1 & Hh2 & Hn'). rewrite map_length in Hh1.
  exists hits. split; [lia|]. split; [exact Hn'|]. intros i z h Ei Eh. destruct (Hz i z Ei) as (_ & _ & Ag).
  assert (Et : nth_error (map snd runs) i = Some (z_tracks z)) by (rewrite <- Ez; now apply map_nth_error).
  specialize (Hh2 i _ Et). rewrite (nth_error_nth hits i false Eh) in Hh2. eapply Ag. exact Hh2.
Qed.
