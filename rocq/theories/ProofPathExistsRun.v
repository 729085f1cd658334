(** * The capture zone of a run and the water that its tracks follow (C107) *)
From Coq Require Import Reals Lra Lia Psatz List Bool Arith ZArith.
From Verif Require Import Py Num NumXR ModelField ModelAquifer ModelTrace ModelDist ModelDriver ModelMain
  SpecAquifer SpecFit SpecTrace SpecDist SpecDriver SpecMain SpecPathline SpecField SpecWhole SpecPathZone
  ProofAquifer ProofTrace ProofTraceLoop ProofTraceFlow ProofPathline ProofPathAffine ProofPathTube ProofPathWells ProofPathZone ProofPathRun ProofPathExists.
Import ListNotations.
Local Open Scope R_scope.

Lemma choose_paths (A : Type) (P : nat -> A -> (R -> pt) -> Prop) : forall (l : list A), (forall j x, nth_error l j = Some x -> exists Z, P j x Z) ->
  exists path : nat -> R -> pt, forall j x, nth_error l j = Some x -> P j x (path j).
Proof.
  intros l. revert P. induction l as [|x l IH]; intros P H; [exists (fun _ _ => (0, 0)); intros [|j]; discriminate|].
  destruct (H 0%nat x eq_refl) as (Z & HZ). destruct (IH (fun j => P (S j)) (fun j x Hj => H (S j) x Hj)) as (path & Hp).
  exists (fun j => match j with O => Z | S j => path j end). intros [|j] y E; cbn in E; [injection E as <-; exact HZ|now apply Hp].
Qed.

Definition spread (D v rho H : R) (z : zone) : R := let L := gradient (z_model z) rho in 6 * (v + L * rho) * H * (exp (L * D) - 1).

(** One track of a resolved capture zone. *)
Lemma track_follow fuel c w D v rho H z j l ts : 0 <= D -> traced fuel c w D z -> resolved D v rho H z ->
  nth_error (z_tracks z) j = Some l -> nth_error (z_times z) j = Some ts ->
  exists Z, Z 0 = nth 0 l (0, 0) /\ moves (z_velocity z) Z (last ts 0) /\ off_the_wells (z_model z) Z (last ts 0) /\ 0 <= last ts 0 <= D /\ beside (spread D v rho H z) l Z (last ts 0).
Proof.
  intros HD (U & _ & _ & Ht) (Hm & Hrho & HH & Hc & HS & H50 & HB) E1 E2. cbv zeta in H50, HB. destruct (Ht j l ts E1 E2) as (p & tr & Hr & P).
  assert (Pl : (0 < length l)%nat).
  { destruct l as [|x l]; [|cbn; lia]. exfalso. pose proof (pc_vertices _ _ _ _ _ _ _ P) as E'. destruct (c36_path _ _ _ _ _ _ _ _ Hr) as (more & E7 & _). rewrite E7 in E'. discriminate E'. }
  assert (HT : 0 <= last ts 0 <= D).
  { rewrite last_as_nth, (pc_length _ _ _ _ _ _ _ P). apply (paced_times _ _ _ _ _ _ _ HD P). lia. }
  pose proof (gradient_pos (z_model z) rho Hm Hrho) as HL. pose proof (Hc l (nth_error_In _ _ E1)) as Hcl.
  assert (HV : 0 <= v + gradient (z_model z) rho * rho).
  { set (q0 := nth 0 l (0, 0)). assert (I0 : In q0 l) by (apply nth_In; exact Pl). destruct (Hcl q0 I0) as [Q1 Q2].
    assert (F0 : z_velocity z (fvec q0) = Ok (fvec (blunt_velocity (z_model z) rho q0))) by (apply blunt_agrees; try assumption; intros o Ho; specialize (Q2 o Ho); rewrite pdist_sym in Q2; unfold wloc; lra).
    specialize (Q1 _ F0). pose proof (pnorm_pos (blunt_velocity (z_model z) rho q0)). assert (0 <= gradient (z_model z) rho * rho) by (apply Rmult_le_pos; lra). lra. }
  assert (X : exp (gradient (z_model z) rho * last ts 0) <= exp (gradient (z_model z) rho * D)) by (apply exp_grow, Rmult_le_compat_l; lra).
  assert (Y : 6 * (v + gradient (z_model z) rho * rho) * H * (exp (gradient (z_model z) rho * last ts 0) - 1) <= spread D v rho H z).
  { unfold spread. apply Rmult_le_compat_l; [|lra]. assert (0 <= (v + gradient (z_model z) rho * rho) * H) by now apply Rmult_le_pos. lra. }
  destruct (follow_exists (z_model z) (z_velocity z) D _ _ tr l ts v rho H Hm U HD P Pl Hrho HH Hcl (HS ts (nth_error_In _ _ E2)) H50) as (Z & Z0 & ZM & ZW & _ & _ & ZB).
  { unfold spread in Y. cbv zeta in Y. lra. }
  exists Z. split; [exact Z0|]. split; [exact ZM|]. split; [|split; [exact HT|]].
  - intros t o Hq Ho E. specialize (ZW t o Hq Ho). rewrite E, pdist_self in ZW. lra.
  - destruct ZB as [B1 B2]. split.
    + intros q Hq. destruct (B1 q Hq) as (t & Q1 & Q2). exists t. split; [exact Q1|lra].
    + intros t Hq. destruct (B2 t Hq) as (q & Q1 & Q2). exists q. split; [exact Q1|lra].
Qed.

Lemma zone_flows fuel c w D v rho H z : 0 <= D -> traced fuel c w D z -> resolved D v rho H z -> exists path, flows z path.
Proof.
  intros HD T Rs. destruct (choose_paths _ (fun j l Z => forall ts, nth_error (z_times z) j = Some ts ->
    Z 0 = nth 0 l (0, 0) /\ moves (z_velocity z) Z (last ts 0) /\ off_the_wells (z_model z) Z (last ts 0)) (z_tracks z)) as (path & Hp).
  { intros j l E1. destruct (nth_error (z_times z) j) as [ts|] eqn:E2; [|exists (fun _ => (0, 0)); discriminate].
    destruct (track_follow fuel c w D v rho H z j l ts HD T Rs E1 E2) as (Z & A1 & A2 & A3 & _). exists Z. intros ts' E. injection E as <-. auto. }
  exists path. intros j l ts E1 E2. exact (Hp j l E1 ts E2).
Qed.

Lemma zone_tells fuel c w D u v rho H z path before p h : 0 <= D -> 0 <= u -> traced fuel c w D z -> resolved D v rho H z -> flows z path ->
  hit u before (z_tracks z) p h -> tells u (spread D v rho H z) z path p h.
Proof.
  intros HD Hu T Rs Fl. destruct p as [px py]. intros (Hit1 & Hit2).
  assert (Bs : forall j l ts, nth_error (z_tracks z) j = Some l -> nth_error (z_times z) j = Some ts -> 0 <= last ts 0 /\ beside (spread D v rho H z) l (path j) (last ts 0)).
  { intros j l ts E1 E2. destruct (track_follow fuel c w D v rho H z j l ts HD T Rs E1 E2) as (Z & A1 & A2 & A3 & A4 & A5). split; [lra|].
    destruct (Fl j l ts E1 E2) as (F1 & F2 & F3). assert (Eq : forall t, 0 <= t <= last ts 0 -> Z t = path j t).
    { apply (one_path (z_model z) (z_velocity z)); try assumption; [apply Rs|apply T|lra|congruence]. }
    destruct A5 as [B1 B2]. split.
    - intros q Hq. destruct (B1 q Hq) as (t & Q1 & Q2). exists t. split; [exact Q1|]. rewrite <- Eq by exact Q1. exact Q2.
    - intros t Hq. rewrite <- Eq by exact Hq. now apply B2. }
  split.
  - intros ->. destruct (Hit1 eq_refl) as (l & Hl & Nt). apply In_nth_error in Hl. destruct Hl as (j & E1). destruct T as (_ & _ & El & _).
    assert (Hj : (j < length (z_tracks z))%nat) by (apply nth_error_Some; intros X; assert (Y : Some l = None) by exact (eq_trans (eq_sym E1) X); discriminate Y).
    destruct (nth_error (z_times z) j) as [ts|] eqn:E2; [|exfalso; apply nth_error_None in E2; exact (Nat.lt_irrefl _ (Nat.lt_le_trans _ _ _ Hj (eq_ind _ (fun k => (k <= j)%nat) E2 _ El)))].
    destruct (Bs j l ts E1 E2) as (T1 & Bd). destruct (c106_near _ (last ts 0) u l (path j) (px, py) Bd Hu) as [Near _]. destruct (Near Nt) as (t & Q1 & Q2).
    exists j, l, ts, t. auto.
  - intros j l ts t E1 E2 Hd Hb Ht1 Ht2. destruct (Bs j l ts E1 E2) as (T1 & Bd). destruct (c106_near _ (last ts 0) u l (path j) (px, py) Bd Hu) as [_ Near].
    assert (Nt : near_track u l (px, py)) by (apply Near; [exact Hd|now exists t]). apply nth_error_split in E1. destruct E1 as (pre & post & Et & _).
    apply (Hit2 pre l post Et Nt). destruct Hb as (p1 & p2 & p3 & p4 & I1 & I2 & I3 & I4 & B1 & B2). exists p1, p2, p3, p4. rewrite !in_app_iff. tauto.
Qed.

(** C107 for a deterministic run in a confined aquifer: if the capture zone is resolved then the water on the way to the well
    has paths, and every node tells where they are up to E. *)
Lemma c107_deterministic : forall (fuel : nat) (a : args xr) (c : call) (kept : list (obs R)) (s : pfield xr) (lg : run_log xr) (D : R),
  deterministic_run fuel a c kept s lg -> k_confined c = true -> k_duration c = Fin D -> 0 <= D -> xr_pos (k_umbra c) ->
  exists w u z,
    nth_error (k_wells c) (Z.to_nat (k_target c)) = Some w /\ k_umbra c = Fin u /\
    has_parameters mean_of a c w (z_model z) /\ best_fit (z_model z) kept (coef (z_model z)) /\ traced fuel c w D z /\
    forall v rho H, resolved D v rho H z ->
      (exists path, flows z path) /\
      let L := gradient (z_model z) rho in let E := 6 * (v + L * rho) * H * (exp (L * D) - 1) in
      forall px py n b, has_node s px py n b -> exists h : bool, n = (if h then 1 else 0) /\ forall path, flows z path -> tells u E z path (px, py) h.
Proof.
  intros fuel a c kept s lg D (w & x & y & sp & u & m & f & tracks & N1 & N2 & N3 & N4 & N5 & N6 & N7 & N8 & N9 & N10 & N11 & N12) Hc HD0 HD Hu.
  rewrite Hc in N10. rewrite N5 in Hu. cbn in Hu. destruct (zone_agrees fuel c w D u m f tracks HD0 HD ltac:(lra) N10 N11) as (times & Tr & _). cbv zeta in Tr.
  exists w, u. eexists. split; [exact N1|]. split; [exact N5|]. split; [|split; [|split; [exact Tr|]]]; [exact N6|exact N7|].
  intros v rho H Rs. split; [eapply zone_flows; eassumption|].
  intros L E px py n b Hn. destruct N12 as (_ & _ & N12). destruct (N12 px py n b Hn) as (_ & _ & hits & Hh1 & Hh2 & Hn'). cbn [length] in Hh1.
  destruct hits as [|h [|? ?]]; try discriminate. specialize (Hh2 0%nat tracks eq_refl). cbn [firstn concat nth app] in Hh2.
  exists h. split; [rewrite Hn'; now destruct h|]. intros path Fl. refine (zone_tells fuel c w D u v rho H _ path [] (px, py) h HD _ Tr Rs Fl Hh2). lra.
Qed.

Lemma choose_traced fuel c w D : k_duration c = Fin D -> 0 <= D ->
  forall (runs : list (model R * list (list point))) (Q : nat -> model R -> Prop),
  (forall i m tracks, nth_error runs i = Some (m, tracks) -> Q i m /\ exists f, upstream true m f /\ tracks_of fuel c w f tracks) ->
  exists zones, map z_tracks zones = map snd runs /\ forall i z, nth_error zones i = Some z -> Q i (z_model z) /\ traced fuel c w D z.
Proof.
  intros HD0 HD runs Q HR. destruct (choose_zones fuel c w D 0 HD0 HD ltac:(lra) runs Q HR) as (zones & E & Hz). exists zones. split; [exact E|]. intros i z Hi. destruct (Hz i z Hi) as (A & B & _). auto.
Qed.

(** C107 for a stochastic run: every node counts the realizations whose capture zone has it, and each capture zone that is resolved
    tells where the water of that realization passes. *)
Lemma c107_stochastic : forall (E : Type) (mvn : E -> list xr -> list (list xr) -> list xr) (fuel : nat) (entropy : nat -> E)
    (a : args xr) (c : call) (kept : list (obs R)) (s : pfield xr) (logs : list (run_log xr)) (D : R),
  stochastic_run mvn fuel entropy a c kept s logs -> k_confined c = true -> k_duration c = Fin D -> 0 <= D -> xr_pos (k_umbra c) ->
  exists w u zones,
    nth_error (k_wells c) (Z.to_nat (k_target c)) = Some w /\ k_umbra c = Fin u /\ length zones = Z.to_nat (k_n c) /\
    (forall i z, nth_error zones i = Some z -> let m := z_model z in
       has_parameters within a c w m /\ traced fuel c w D z /\
       (exists ev C A, best_fit m kept ev /\ matrix6 C A /\ inverse6 (normal_matrix m (xo m) (yo m) kept) A /\
         mvn (entropy i) (coef_list (fcoef ev)) C = coef_list (fcoef (coef m))) /\
       forall v rho H, resolved D v rho H z -> exists path, flows z path) /\
    forall px py n b, has_node s px py n b -> exists hits,
      length hits = length zones /\ n = INR (length (filter (fun h => h) hits)) /\
      forall i z h v rho H path, nth_error zones i = Some z -> nth_error hits i = Some h -> resolved D v rho H z -> flows z path ->
        let L := gradient (z_model z) rho in tells u (6 * (v + L * rho) * H * (exp (L * D) - 1)) z path (px, py) h.
Proof.
  intros E mvn fuel entropy a c kept s logs D (w & x & y & sp & u & runs & N1 & N2 & N3 & N4 & N5 & N6 & N7 & N8 & N9) Hc HD0 HD Hu.
  rewrite N5 in Hu. cbn in Hu.
  destruct (choose_traced fuel c w D HD0 HD runs (fun i m => has_parameters within a c w m /\
       exists ev C A, best_fit m kept ev /\ matrix6 C A /\ inverse6 (normal_matrix m (xo m) (yo m) kept) A /\
         mvn (entropy i) (coef_list (fcoef ev)) C = coef_list (fcoef (coef m)))) as (zones & Ez & Hz).
  { intros i m tracks Hi. assert (Li : (i < length logs)%nat) by (rewrite N6, <- N7; apply nth_error_Some; rewrite Hi; discriminate).
    destruct (nth_error logs i) as [lg|] eqn:El; [|apply nth_error_None in El; lia]. destruct (N8 i lg m tracks El Hi) as (P & B & _ & _ & f & U & T). rewrite Hc in U. split; [split; [exact P|exact B]|]. now exists f. }
  assert (Lz : length zones = length runs) by (rewrite <- (map_length z_tracks), Ez; apply map_length).
  exists w, u, zones. split; [exact N1|]. split; [exact N5|]. split; [lia|]. split.
  { intros i z Hi. destruct (Hz i z Hi) as ((P & B) & T). split; [exact P|]. split; [exact T|]. split; [exact B|]. intros v rho H Rs. eapply zone_flows; eassumption. }
  intros px py n b Hn. destruct N9 as (_ & _ & N9). destruct (N9 px py n b Hn) as (_ & _ & hits & Hh1 & Hh2 & Hn'). rewrite map_length in Hh1.
  exists hits. split; [lia|]. split; [exact Hn'|]. intros i z h v rho H path Ei Eh Rs Fl. destruct (Hz i z Ei) as (_ & T).
  assert (Et : nth_error (map snd runs) i = Some (z_tracks z)) by (rewrite <- Ez; now apply map_nth_error).
  specialize (Hh2 i _ Et). rewrite (nth_error_nth hits i false Eh) in Hh2. refine (zone_tells fuel c w D u v rho H z path _ (px, py) h HD _ T Rs Fl Hh2). lra.
Qed.
