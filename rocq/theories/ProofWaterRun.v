(** * The water that the traces of a run follow in an unconfined aquifer (C122) *)
From Coq Require Import Reals Lra Lia Psatz List Bool Arith ZArith.
From Verif Require Import Py Num NumXR ModelField ModelAquifer ModelTrace ModelDist ModelDriver ModelMain
  SpecAquifer SpecFit SpecTrace SpecDist SpecDriver SpecMain SpecPathline SpecUnconfined
  ProofAquifer ProofHead ProofTrace ProofTraceLoop ProofTraceFlow ProofPathline ProofPathAffine ProofPathTube ProofPathWells ProofPathUnconfined ProofPathUnconfinedEx
  ProofPathZone SpecField SpecWhole SpecPathZone ProofPathRun ProofWhole ProofPathExistsRun SpecWater ProofWaterPath.
Import ListNotations.
Local Open Scope R_scope.

(** What a run says about the velocity fixes it off the wells. *)
Lemma upstream_unconfined m f q : physical m -> SpecWhole.upstream false m f -> off_wells (wells m) (fst q) (snd q) -> f (fvec q) = feval false (fmodel m) (fvec q).
Proof.
  intros Hm Hf Ho. pose proof Hm as (HK & _ & HH). destruct (Hf _ _ Ho) as (gx & gy & D1 & D2 & E). destruct (upstream_feval false m Hm _ _ Ho) as (hx & hy & D3 & D4 & E').
  cbv beta iota in E, E'. assert (gx = hx) by (eapply uniqueness_limite; eassumption). assert (gy = hy) by (eapply uniqueness_limite; eassumption). subst hx hy.
  assert (Pos : forall h, 0 < h -> 0 < girinskii (conductivity m) (thickness m) h).
  { intros h Hh. assert (0 < conductivity m * thickness m) by now apply Rmult_lt_0_compat. unfold girinskii. destruct (Rlt_dec h (thickness m)).
    - assert (0 < conductivity m * (h * h)) by (apply Rmult_lt_0_compat; nra). lra.
    - apply Rmult_lt_0_compat; lra. }
  unfold fvec in *. destruct E as [[P1 E]|(h & Hh & G & E)], E' as [[P1' E']|(h' & Hh' & G' & E')]; cbn [fst snd] in *.
  - congruence.
  - specialize (Pos h' Hh'). lra.
  - specialize (Pos h Hh). lra.
  - assert (h = h'); [|subst h'; cbv zeta in E, E'; congruence]. destruct (Rtotal_order h h') as [C|[C|C]]; [|exact C|]; exfalso.
    + pose proof (girinskii_increasing _ _ h h' HK HH Hh C). lra.
    + pose proof (girinskii_increasing _ _ h' h HK HH Hh' C). lra.
Qed.

Lemma shear_pos m w rho s : physical m -> 0 < rho -> 0 < s -> 0 <= shear m w rho s.
Proof.
  intros (HK & Hn & HH) Hr Hs. unfold shear. cbv zeta. pose proof (flux_change_pos m rho Hr) as HG. apply Rplus_le_le_0_compat; apply Rmult_le_pos; try exact HG.
  - left. apply Rinv_0_lt_compat, Rmult_lt_0_compat; lra.
  - apply Rle_0_sqr.
  - left. apply Rinv_0_lt_compat. repeat apply Rmult_lt_0_compat; lra.
Qed.
Lemma deep_gentle m f w rho s l : physical m -> SpecWhole.upstream false m f -> 0 < rho -> 0 < s <= thickness m -> deep m w rho s l -> gentle f (pace m w rho s) (shear m w rho s) rho l.
Proof.
  intros Hm Hf Hrho Hs Hd c Hc. destruct (Hd c Hc) as (D1 & D2 & D3).
  destruct (unconfined_tame m (fun _ => c) 0 w rho s Hm Hrho Hs (fun _ _ => D1) (fun _ o _ Ho => D2 o Ho) (fun _ _ => D3)) as [_ T].
  change (tame (feval false (fmodel m)) (fun _ => c) 0 (pace m w rho s) (shear m w rho s) rho) in T.
  assert (Off : forall q, pdist c q <= rho -> f (fvec q) = feval false (fmodel m) (fvec q)).
  { intros q Hq. apply upstream_unconfined; [exact Hm|exact Hf|]. apply (far_off m rho); [exact Hrho|]. intros o Ho. specialize (D2 o Ho). pose proof (pdist_triangle c q (wloc o)) as Tr. unfold wloc in *. rewrite (pdist_sym q) in Tr. lra. }
  split.
  - intros q Hq. rewrite (Off q Hq). exact (tm_value _ _ _ _ _ _ T 0 q ltac:(lra) Hq).
  - intros q q' u u' Hq Hq'. rewrite (Off q Hq), (Off q' Hq'). exact (tm_change _ _ _ _ _ _ T 0 q q' u u' ltac:(lra) Hq Hq').
Qed.

(** A trace in an unconfined aquifer, in deep water and with short time steps: there is a path of the water from the start point,
    only one, and the trace is within 6 V H (e^(L T) - 1) of it. *)
Lemma c122_unconfined : forall (m : model R) (f : vec xr -> res (vec xr)) (fuel : nat) (p : pt) (D : R) (tol maxstep : xr) (tr : trace xr),
  physical m -> SpecWhole.upstream false m f -> 0 <= D ->
  compute_backtrace fuel (Fin (fst p)) (Fin (snd p)) (Fin D) tol maxstep f = Ok tr ->
  exists l ts, paced f tol maxstep D tr l ts /\
    forall w rho s H, 0 < rho -> 0 <= H -> 0 < s <= thickness m -> deep m w rho s l -> steps_within H ts ->
      let L := shear m w rho s in let V := pace m w rho s in let T := last ts 0 in
      50 * L * H <= 1 -> 6 * V * H * (exp (L * T) - 1) + 2 * V * H <= rho ->
      exists Z, Z 0 = p /\ moves f Z T /\ (forall t o, 0 <= t <= T -> In o (wells m) -> rho <= pdist (Z t) (wx o, wy o)) /\
        (forall i, (i < length l)%nat -> let t := nth i ts 0 in 0 <= t <= T /\ pdist (nth i l (0, 0)) (Z t) <= 6 * V * H * (exp (L * t) - 1)) /\
        beside (6 * V * H * (exp (L * T) - 1)) l Z T /\
        forall Y, Y 0 = p -> moves f Y T -> forall t, 0 <= t <= T -> Y t = Z t.
Proof.
  intros m f fuel p D tol maxstep tr Hm Hf HD Hr. destruct (paced_trace _ _ _ _ _ _ _ HD Hr) as (l & ts & P & E).
  assert (Pl : (0 < length l)%nat).
  { destruct l as [|x l]; [|cbn; lia]. exfalso. pose proof (pc_vertices _ _ _ _ _ _ _ P) as E'. destruct (c36_path _ _ _ _ _ _ _ _ Hr) as (more & E7 & _). rewrite E7 in E'. discriminate E'. }
  exists l, ts. split; [exact P|]. intros w rho s H Hrho HH Hs Hd HS L V T H50 HB. pose proof (deep_gentle m f w rho s l Hm Hf Hrho Hs Hd) as Hg. pose proof (shear_pos m w rho s Hm Hrho (proj1 Hs)) as HL. fold L in HL.
  destruct (gentle_follow f D tol maxstep tr l ts V L rho H HD P Pl Hrho HL HH Hg HS H50 HB) as (Z & Z0 & ZM & HV & HT & ZE & ZB & ZN). rewrite E in Z0.
  exists Z. split; [exact Z0|]. split; [exact ZM|]. split; [|split; [exact ZE|split; [exact ZB|]]].
  - intros t o Ht Ho. destruct (ZN t Ht) as (q & Iq & Hq). destruct (Hd q Iq) as (_ & D2 & _). specialize (D2 o Ho). pose proof (pdist_triangle q (Z t) (wx o, wy o)). lra.
  - intros Y Y0 YM. apply (stay_together f Z Y T (proj1 HT) ZM YM); [congruence|]. intros t Ht. destruct (ZN t Ht) as (q & Iq & Hq).
    exists q, V, L, rho. split; [exact HL|]. split; [exact Hq|]. now apply (gentle_tame f V L rho l).
Qed.

(** The trace of C118: the conditions hold with rho = 1/10, w = 1/200, s = 1/4 and H = 1/10. *)
Lemma c122_unconfined_example :
  physical sloping /\ SpecWhole.upstream false sloping (feval false (fmodel sloping)) /\
  exists y, compute_backtrace 2 (Fin 1) (Fin 0) (Fin (1 / 10)) (Fin 1) (Fin 10) (feval false (fmodel sloping)) =
     Ok {| vertices := [fvec (1, 0); fvec (y, 0)]; t_end := Fin (1 / 10); completed := true |} /\
    deep sloping (1 / 200) (1 / 10) (1 / 4) [(1, 0); (y, 0)] /\ steps_within (1 / 10) [0; 1 / 10] /\
    let L := shear sloping (1 / 200) (1 / 10) (1 / 4) in let V := pace sloping (1 / 200) (1 / 10) (1 / 4) in
    L = 1 / 625 /\ V = 1 / 50 /\ 50 * L * (1 / 10) <= 1 /\ 6 * V * (1 / 10) * (exp (L * (1 / 10)) - 1) + 2 * V * (1 / 10) <= 1 / 10 /\
    gentle (feval false (fmodel sloping)) V L (1 / 10) [(1, 0); (y, 0)].
Proof.
  destruct c118_sloping_example as (_ & _ & _ & _ & _ & (y & Hy & Hr) & _ & _ & C1 & C2 & C3 & _). cbv zeta in C1, C2, C3.
  assert (G0 : flux_change sloping (1 / 10) = 0).
  { unfold flux_change. cbn [coef sloping cA cB cC wells fold_right]. replace (4 * 0 ^ 2 + 2 * 0 ^ 2 + 4 * 0 ^ 2) with 0 by ring. rewrite sqrt_0. field. }
  pose proof (upstream_feval false sloping sloping_physical) as U.
  split; [exact sloping_physical|]. split; [exact U|]. exists y. split; [exact Hr|].
  assert (Dp : deep sloping (1 / 200) (1 / 10) (1 / 4) [(1, 0); (y, 0)]).
  { assert (Q : forall x, 99 / 100 <= x -> flux sloping (x, 0) <= 1 / 200 /\ (forall o, In o (wells sloping) -> 2 * (1 / 10) <= pdist (x, 0) (wx o, wy o)) /\
        conductivity sloping * (1 / 4 * (1 / 4)) / 2 + (1 / 200 + flux_change sloping (1 / 10) * (1 / 10)) * (1 / 10) <= potential sloping (fst (x, 0)) (snd (x, 0))).
    { intros x Hx. split; [rewrite sloping_flux; unfold slope; lra|]. split; [intros o []|]. rewrite G0, sloping_potential. cbn [fst conductivity sloping]. unfold slope. lra. }
    intros q [<-|[<-|[]]]; apply Q; lra. }
  split; [exact Dp|]. split; [clear; intros [|[|i]] Hi; cbn in *; try lra; lia|]. cbv zeta.
  assert (EL : shear sloping (1 / 200) (1 / 10) (1 / 4) = 1 / 625) by exact C1. assert (EV : pace sloping (1 / 200) (1 / 10) (1 / 4) = 1 / 50) by exact C2.
  split; [exact EL|]. split; [exact EV|]. split; [rewrite EL; lra|]. split.
  - rewrite EL, EV. assert (exp (1 / 625 * (1 / 10)) <= 3) by (eapply Rle_trans; [|apply exp_le_3]; apply exp_grow; lra). lra.
  - apply deep_gentle; try assumption; [exact sloping_physical|lra|cbn [thickness sloping]; lra].
Qed.

(** ** Capture zones *)
Definition leeway (D w rho s H : R) (z : zone) : R := let L := shear (z_model z) w rho s in 6 * pace (z_model z) w rho s * H * (exp (L * D) - 1).

(** The times of the vertices. *)
Lemma zone_times fuel c w D m f tracks : k_duration c = Fin D -> 0 <= D -> SpecWhole.upstream false m f -> tracks_of fuel c w f tracks ->
  exists times, traced_unconfined fuel c w D {| z_model := m; z_velocity := f; z_tracks := tracks; z_times := times |}.
Proof.
  intros HD0 HD N10 N11.
  destruct (choose_times f (k_tol c) (k_maxstep c) D
    (fun l tr => exists p, compute_backtrace fuel (Fin (fst p)) (Fin (snd p)) (Fin D) (k_tol c) (k_maxstep c) f = Ok tr /\ nth 0 l (0, 0) = p) tracks) as (times & El & Ht).
  { intros l Hl. apply In_nth_error in Hl. destruct Hl as (j & Hj). destruct N11 as (_ & Tr). destruct (Tr j l Hj) as (x' & y' & r & tr & _ & _ & _ & B & Vt). cbv zeta in B. rewrite HD0 in B.
    set (q := (x' + (r + 1) * cos (2 * PI * INR j / INR (Z.to_nat (k_npaths c))), y' + (r + 1) * sin (2 * PI * INR j / INR (Z.to_nat (k_npaths c)))) : pt).
    change (compute_backtrace fuel (Fin (fst q)) (Fin (snd q)) (Fin D) (k_tol c) (k_maxstep c) f = Ok tr) in B.
    destruct (paced_trace _ _ _ _ _ _ _ HD B) as (l' & ts & P & E0). pose proof (pc_vertices _ _ _ _ _ _ _ P) as Vl. rewrite Vt in Vl.
    assert (l = l').
    { clear - Vl. revert l' Vl. induction l as [|p l IH]; intros [|p' l'] E; try discriminate; [reflexivity|]. cbn [map] in E. assert (X : fvec p = fvec p') by congruence. apply fvec_inj in X.
      f_equal; [exact X|]. apply IH. congruence. }
    subst l'. exists tr, ts. split; [|exact P]. exists q. auto. }
  exists times. split; [exact N10|]. split; [exact N11|]. split; [exact El|]. cbn [z_tracks z_times z_velocity]. intros j l ts E1 E2. destruct (Ht j l ts E1 E2) as (tr & (p & B & _) & P). exists p, tr. auto.
Qed.

(** One track of a submerged capture zone. *)
Lemma track_drift fuel c w D b rho s H z j l ts : 0 <= D -> traced_unconfined fuel c w D z -> submerged D b rho s H z ->
  nth_error (z_tracks z) j = Some l -> nth_error (z_times z) j = Some ts ->
  exists Z, Z 0 = nth 0 l (0, 0) /\ moves (z_velocity z) Z (last ts 0) /\ 0 <= last ts 0 <= D /\ beside (leeway D b rho s H z) l Z (last ts 0) /\
    forall Y, Y 0 = nth 0 l (0, 0) -> moves (z_velocity z) Y (last ts 0) -> forall t, 0 <= t <= last ts 0 -> Y t = Z t.
Proof.
  intros HD (U & _ & _ & Ht) (Hm & Hrho & HH & Hs & Hc & HS & H50 & HB) E1 E2. cbv zeta in H50, HB. destruct (Ht j l ts E1 E2) as (p & tr & Hr & P).
  assert (Pl : (0 < length l)%nat).
  { destruct l as [|x l]; [|cbn; lia]. exfalso. pose proof (pc_vertices _ _ _ _ _ _ _ P) as E'. destruct (c36_path _ _ _ _ _ _ _ _ Hr) as (more & E7 & _). rewrite E7 in E'. discriminate E'. }
  assert (HT : 0 <= last ts 0 <= D).
  { rewrite last_as_nth, (pc_length _ _ _ _ _ _ _ P). apply (paced_times _ _ _ _ _ _ _ HD P). lia. }
  pose proof (shear_pos (z_model z) b rho s Hm Hrho (proj1 Hs)) as HL. pose proof (deep_gentle _ _ _ _ _ _ Hm U Hrho Hs (Hc l (nth_error_In _ _ E1))) as Hg.
  set (L := shear (z_model z) b rho s) in *. set (V := pace (z_model z) b rho s) in *.
  assert (HV : 0 <= V).
  { pose proof (gentle_tame _ _ _ _ l (nth 0 l (0, 0)) Hg ltac:(apply nth_In; exact Pl)) as T. apply (speed_pos _ _ 0 V L rho T ltac:(lra) 0). lra. }
  assert (Y : 6 * V * H * (exp (L * last ts 0) - 1) <= leeway D b rho s H z).
  { unfold leeway. fold L V. apply Rmult_le_compat_l; [|assert (exp (L * last ts 0) <= exp (L * D)) by (apply exp_grow, Rmult_le_compat_l; lra); lra]. assert (0 <= V * H) by now apply Rmult_le_pos. lra. }
  destruct (gentle_follow (z_velocity z) D _ _ tr l ts V L rho H HD P Pl Hrho HL HH Hg (HS ts (nth_error_In _ _ E2)) H50) as (Z & Z0 & ZM & _ & _ & _ & ZB & ZN).
  { unfold leeway in Y. fold L V in Y. cbv zeta in Y. lra. }
  exists Z. split; [exact Z0|]. split; [exact ZM|]. split; [exact HT|]. split.
  - destruct ZB as [B1 B2]. split.
    + intros q Hq. destruct (B1 q Hq) as (t & Q1 & Q2). exists t. split; [exact Q1|lra].
    + intros t Hq. destruct (B2 t Hq) as (q & Q1 & Q2). exists q. split; [exact Q1|lra].
  - intros X X0 XM. apply (stay_together (z_velocity z) Z X (last ts 0) (proj1 HT) ZM XM); [congruence|]. intros t Ht'. destruct (ZN t Ht') as (q & Iq & Hq).
    exists q, V, L, rho. split; [exact HL|]. split; [exact Hq|]. now apply (gentle_tame _ V L rho l).
Qed.

Lemma zone_drifts fuel c w D b rho s H z : 0 <= D -> traced_unconfined fuel c w D z -> submerged D b rho s H z -> exists path, drifts z path.
Proof.
  intros HD T Rs. destruct (choose_paths _ (fun j l Z => forall ts, nth_error (z_times z) j = Some ts ->
    Z 0 = nth 0 l (0, 0) /\ moves (z_velocity z) Z (last ts 0)) (z_tracks z)) as (path & Hp).
  { intros j l E1. destruct (nth_error (z_times z) j) as [ts|] eqn:E2; [|exists (fun _ => (0, 0)); discriminate].
    destruct (track_drift fuel c w D b rho s H z j l ts HD T Rs E1 E2) as (Z & A1 & A2 & _). exists Z. intros ts' E. injection E as <-. auto. }
  exists path. intros j l ts E1 E2. exact (Hp j l E1 ts E2).
Qed.

Lemma zone_shows fuel c w D u b rho s H z path before p h : 0 <= D -> 0 <= u -> traced_unconfined fuel c w D z -> submerged D b rho s H z -> drifts z path ->
  hit u before (z_tracks z) p h -> tells u (leeway D b rho s H z) z path p h.
Proof.
  intros HD Hu T Rs Fl. destruct p as [px py]. intros (Hit1 & Hit2).
  assert (Bs : forall j l ts, nth_error (z_tracks z) j = Some l -> nth_error (z_times z) j = Some ts -> 0 <= last ts 0 /\ beside (leeway D b rho s H z) l (path j) (last ts 0)).
  { intros j l ts E1 E2. destruct (track_drift fuel c w D b rho s H z j l ts HD T Rs E1 E2) as (Z & A1 & A2 & A4 & A5 & A6). split; [lra|].
    destruct (Fl j l ts E1 E2) as (F1 & F2). pose proof (A6 (path j) F1 F2) as Eq.
    destruct A5 as [B1 B2]. split.
    - intros q Hq. destruct (B1 q Hq) as (t & Q1 & Q2). exists t. split; [exact Q1|]. rewrite Eq by exact Q1. exact Q2.
    - intros t Hq. rewrite Eq by exact Hq. now apply B2. }
  split.
  - intros ->. destruct (Hit1 eq_refl) as (l & Hl & Nt). apply In_nth_error in Hl. destruct Hl as (j & E1). destruct T as (_ & _ & El & _).
    assert (Hj : (j < length (z_tracks z))%nat) by (apply nth_error_Some; intros X; assert (Y : Some l = None) by exact (eq_trans (eq_sym E1) X); discriminate Y).
    destruct (nth_error (z_times z) j) as [ts|] eqn:E2; [|exfalso; apply nth_error_None in E2; exact (Nat.lt_irrefl _ (Nat.lt_le_trans _ _ _ Hj (eq_ind _ (fun k => (k <= j)%nat) E2 _ El)))].
    destruct (Bs j l ts E1 E2) as (T1 & Bd). destruct (c106_near _ (last ts 0) u l (path j) (px, py) Bd Hu) as [Near _]. destruct (Near Nt) as (t & Q1 & Q2).
    exists j, l, ts, t. auto.
  - intros j l ts t E1 E2 Hd Hb Ht1 Ht2. destruct (Bs j l ts E1 E2) as (T1 & Bd). destruct (c106_near _ (last ts 0) u l (path j) (px, py) Bd Hu) as [_ Near].
    assert (Nt : near_track u l (px, py)) by (apply Near; [exact Hd|now exists t]). apply nth_error_split in E1. destruct E1 as (pre & post & Et & _).
    apply (Hit2 pre l post Et Nt). destruct Hb as (p1 & p2 & p3 & p4 & I1 & I2 & I3 & I4 & B1 & B2). exists p1, p2, p3, p4. rewrite !in_app_iff. tauto.
Qed.

(** C122 for a deterministic run in an unconfined aquifer: if the capture zone is submerged then the water on the way to the well
    has paths, and every node tells where they are up to E. *)
Lemma c122_deterministic : forall (fuel : nat) (a : args xr) (c : call) (kept : list (obs R)) (s : pfield xr) (lg : run_log xr) (D : R),
  deterministic_run fuel a c kept s lg -> k_confined c = false -> k_duration c = Fin D -> 0 <= D -> xr_pos (k_umbra c) ->
  exists w u z,
    nth_error (k_wells c) (Z.to_nat (k_target c)) = Some w /\ k_umbra c = Fin u /\
    has_parameters mean_of a c w (z_model z) /\ best_fit (z_model z) kept (coef (z_model z)) /\ traced_unconfined fuel c w D z /\
    forall b rho d H, submerged D b rho d H z ->
      (exists path, drifts z path) /\
      let L := shear (z_model z) b rho d in let E := 6 * pace (z_model z) b rho d * H * (exp (L * D) - 1) in
      forall px py n k, has_node s px py n k -> exists h : bool, n = (if h then 1 else 0) /\ forall path, drifts z path -> tells u E z path (px, py) h.
Proof.
  intros fuel a c kept s lg D (w & x & y & sp & u & m & f & tracks & N1 & N2 & N3 & N4 & N5 & N6 & N7 & N8 & N9 & N10 & N11 & N12) Hc HD0 HD Hu.
  rewrite Hc in N10. rewrite N5 in Hu. cbn in Hu. destruct (zone_times fuel c w D m f tracks HD0 HD N10 N11) as (times & Tr).
  exists w, u. eexists. split; [exact N1|]. split; [exact N5|]. split; [|split; [|split; [exact Tr|]]]; [exact N6|exact N7|].
  intros b rho d H Rs. split; [eapply zone_drifts; eassumption|].
  intros L E px py n k Hn. destruct N12 as (_ & _ & N12). destruct (N12 px py n k Hn) as (_ & _ & hits & Hh1 & Hh2 & Hn'). cbn [length] in Hh1.
  destruct hits as [|h [|? ?]]; try discriminate. specialize (Hh2 0%nat tracks eq_refl). cbn [firstn concat nth app] in Hh2.
  exists h. split; [rewrite Hn'; now destruct h|]. intros path Fl. refine (zone_shows fuel c w D u b rho d H _ path [] (px, py) h HD _ Tr Rs Fl Hh2). lra.
Qed.

Lemma choose_unconfined fuel c w D : k_duration c = Fin D -> 0 <= D ->
  forall (runs : list (model R * list (list point))) (Q : nat -> model R -> Prop),
  (forall i m tracks, nth_error runs i = Some (m, tracks) -> Q i m /\ exists f, SpecWhole.upstream false m f /\ tracks_of fuel c w f tracks) ->
  exists zones, map z_tracks zones = map snd runs /\ forall i z, nth_error zones i = Some z -> Q i (z_model z) /\ traced_unconfined fuel c w D z.
Proof.
  intros HD0 HD. induction runs as [|(m & tracks) runs IH]; intros Q HR.
  - exists []. split; [reflexivity|]. intros [|i]; discriminate.
  - destruct (IH (fun i => Q (S i))) as (zones & Ez & Hz); [intros i m' t' Hi; exact (HR (S i) m' t' Hi)|]. destruct (HR 0%nat m tracks eq_refl) as (Hq & f & U & T).
    destruct (zone_times fuel c w D m f tracks HD0 HD U T) as (times & Tr). exists ({| z_model := m; z_velocity := f; z_tracks := tracks; z_times := times |} :: zones). split; [cbn [map snd]; rewrite <- Ez; f_equal; reflexivity|].
    intros [|i] z E; cbn in E; [injection E as <-; split; [exact Hq|exact Tr]|]. exact (Hz i z E).
Qed.

(** C122 for a stochastic run: every node counts the realizations whose capture zone has it, and each capture zone that is
    submerged tells where the water of that realization passes. *)
Lemma c122_stochastic : forall (E : Type) (mvn : E -> list xr -> list (list xr) -> list xr) (fuel : nat) (entropy : nat -> E)
    (a : args xr) (c : call) (kept : list (obs R)) (s : pfield xr) (logs : list (run_log xr)) (D : R),
  stochastic_run mvn fuel entropy a c kept s logs -> k_confined c = false -> k_duration c = Fin D -> 0 <= D -> xr_pos (k_umbra c) ->
  exists w u zones,
    nth_error (k_wells c) (Z.to_nat (k_target c)) = Some w /\ k_umbra c = Fin u /\ length zones = Z.to_nat (k_n c) /\
    (forall i z, nth_error zones i = Some z -> let m := z_model z in
       has_parameters within a c w m /\ traced_unconfined fuel c w D z /\
       (exists ev C A, best_fit m kept ev /\ matrix6 C A /\ inverse6 (normal_matrix m (xo m) (yo m) kept) A /\
         mvn (entropy i) (coef_list (fcoef ev)) C = coef_list (fcoef (coef m))) /\
       forall b rho d H, submerged D b rho d H z -> exists path, drifts z path) /\
    forall px py n k, has_node s px py n k -> exists hits,
      length hits = length zones /\ n = INR (length (filter (fun h => h) hits)) /\
      forall i z h b rho d H path, nth_error zones i = Some z -> nth_error hits i = Some h -> submerged D b rho d H z -> drifts z path ->
        let L := shear (z_model z) b rho d in tells u (6 * pace (z_model z) b rho d * H * (exp (L * D) - 1)) z path (px, py) h.
Proof.
  intros E mvn fuel entropy a c kept s logs D (w & x & y & sp & u & runs & N1 & N2 & N3 & N4 & N5 & N6 & N7 & N8 & N9) Hc HD0 HD Hu.
  rewrite N5 in Hu. cbn in Hu.
  destruct (choose_unconfined fuel c w D HD0 HD runs (fun i m => has_parameters within a c w m /\
       exists ev C A, best_fit m kept ev /\ matrix6 C A /\ inverse6 (normal_matrix m (xo m) (yo m) kept) A /\
         mvn (entropy i) (coef_list (fcoef ev)) C = coef_list (fcoef (coef m)))) as (zones & Ez & Hz).
  { intros i m tracks Hi. assert (Li : (i < length logs)%nat) by (rewrite N6, <- N7; apply nth_error_Some; rewrite Hi; discriminate).
    destruct (nth_error logs i) as [lg|] eqn:El; [|apply nth_error_None in El; lia]. destruct (N8 i lg m tracks El Hi) as (P & B & _ & _ & f & U & T). rewrite Hc in U. split; [split; [exact P|exact B]|]. now exists f. }
  assert (Lz : length zones = length runs) by (rewrite <- (map_length z_tracks), Ez; apply map_length).
  exists w, u, zones. split; [exact N1|]. split; [exact N5|]. split; [lia|]. split.
  { intros i z Hi. destruct (Hz i z Hi) as ((P & B) & T). split; [exact P|]. split; [exact T|]. split; [exact B|]. intros b rho d H Rs. eapply zone_drifts; eassumption. }
  intros px py n k Hn. destruct N9 as (_ & _ & N9). destruct (N9 px py n k Hn) as (_ & _ & hits & Hh1 & Hh2 & Hn'). rewrite map_length in Hh1.
  exists hits. split; [lia|]. split; [exact Hn'|]. intros i z h b rho d H path Ei Eh Rs Fl. destruct (Hz i z Ei) as (_ & T).
  assert (Et : nth_error (map snd runs) i = Some (z_tracks z)) by (rewrite <- Ez; now apply map_nth_error).
  specialize (Hh2 i _ Et). rewrite (nth_error_nth hits i false Eh) in Hh2. refine (zone_shows fuel c w D u b rho d H z path _ (px, py) h HD _ T Rs Fl Hh2). lra.
Qed.
