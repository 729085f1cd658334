(** * What a whole run computes: property C83 *)
From Coq Require Import Reals Lra Lia.
From Verif Require Import Py Num NumXR ModelField ModelAquifer ModelTrace ModelObs ModelDist ModelDriver ModelPlot ModelArchive ModelMain.
From Verif Require Import SpecAquifer SpecFit SpecTrace SpecObs SpecDriver SpecDist SpecMain ProofPi ProofAquifer ProofHead Lstsq ProofFit ProofFitProps ProofObs ProofObsProps ProofDist
  Grid ProofField ProofInsert ProofOps ProofFieldProps ProofFieldHist ProofTraceLoop ProofTraceFlow ProofDriver ProofFuel ProofDriverProps ProofMain ProofMainRun ProofMainEnd ProofMainFinite ProofPosed.
From Verif Require Import SpecField SpecWhole.
Import ListNotations.
Local Open Scope R_scope.
Local Opaque kappa.

(** ** Recording capture zones *)

(** The points are within the window. *)
Definition holds (a : abs) (pts : list point) : Prop :=
  forall p, In p pts -> lat (X0 a) (Dx a) (C0 a) < fst p < lat (X0 a) (Dx a) (C0 a + NC a - 1) /\
                        lat (Y0 a) (Dy a) (R0 a) < snd p < lat (Y0 a) (Dy a) (R0 a + NR a - 1).

Lemma lat_lt o d i j : 0 < d -> (lat o d i < lat o d j <-> (i < j)%Z).
Proof.
  intros Hd. unfold lat. split; intros H.
  - apply lt_IZR. apply Rmult_lt_reg_r with d; [exact Hd|]. lra.
  - apply IZR_lt in H. apply Rmult_lt_compat_r with (r := d) in H; [lra|exact Hd].
Qed.
Lemma lat_le o d i j : 0 < d -> (i <= j)%Z -> lat o d i <= lat o d j.
Proof. intros Hd H. unfold lat. apply IZR_le in H. apply Rmult_le_compat_r with (r := d) in H; lra. Qed.

Lemma holds_extends a a' pts : ok a -> extends a a' -> holds a pts -> holds a' pts.
Proof.
  intros (Hx & Hy & _) (E1 & E2 & E3 & E4 & ? & ? & ? & ?) Hh p Hp. destruct (Hh p Hp) as [[? ?] [? ?]].
  rewrite E1, E2, E3, E4.
  pose proof (lat_le (X0 a) (Dx a) (C0 a') (C0 a) Hx ltac:(lia)). pose proof (lat_le (X0 a) (Dx a) (C0 a + NC a - 1) (C0 a' + NC a' - 1) Hx ltac:(lia)).
  pose proof (lat_le (Y0 a) (Dy a) (R0 a') (R0 a) Hy ltac:(lia)). pose proof (lat_le (Y0 a) (Dy a) (R0 a + NR a - 1) (R0 a' + NR a' - 1) Hy ltac:(lia)).
  lra.
Qed.

Lemma holds_boxed a pts p q : ok a -> holds a pts -> boxed pts (lat (X0 a) (Dx a) q, lat (Y0 a) (Dy a) p) -> inwin a p q.
Proof.
  intros (Hx & Hy & _) H (p1 & p2 & p3 & p4 & I1 & I2 & I3 & I4 & B1 & B2). cbn [fst snd] in *.
  apply H in I1, I2, I3, I4. unfold inwin.
  assert (C0 a < q)%Z by (apply (lat_lt (X0 a) (Dx a)); lra). assert (q < C0 a + NC a - 1)%Z by (apply (lat_lt (X0 a) (Dx a)); lra).
  assert (R0 a < p)%Z by (apply (lat_lt (Y0 a) (Dy a)); lra). assert (p < R0 a + NR a - 1)%Z by (apply (lat_lt (Y0 a) (Dy a)); lra).
  lia.
Qed.

(** The location of a cell. *)
Definition loc (a : abs) (p q : Z) : point := (lat (X0 a) (Dx a) q, lat (Y0 a) (Dy a) p).
Lemma loc_extends a a' p q : extends a a' -> loc a' p q = loc a p q.
Proof. intros (E1 & E2 & E3 & E4 & _). unfold loc. rewrite E1, E2, E3, E4. reflexivity. Qed.

Lemma conc_inwin a p q : ok a -> (is_node (conc a) (fst (loc a p q)) (snd (loc a p q)) <-> inwin a p q).
Proof.
  intros Ha. pose proof Ha as (Hx & Hy & _). unfold loc. cbn [fst snd]. split.
  - intros (w & m & H). apply conc_node in H; [|exact Ha]. destruct H as (p' & q' & Hin & E1 & E2 & _).
    assert (q = q').
    { unfold lat in E1. apply eq_IZR. apply Rmult_eq_reg_r with (Dx a); lra. }
    assert (p = p').
    { unfold lat in E2. apply eq_IZR. apply Rmult_eq_reg_r with (Dy a); lra. }
    subst. exact Hin.
  - intros H. exists (P a p q), (M a p q). apply conc_node; [exact Ha|]. exists p, q. auto.
Qed.

(** One track. *)
Lemma rasterize_abs fuel a tr u s' : ok a -> 0 <= u ->
  rasterize fuel (conc a) (xs tr) (ys tr) (Fin u) = (s', Ok tt) ->
  exists a', s' = conc a' /\ ok a' /\ extends a a' /\ P a' = P a /\ W a' = W a /\ holds a' tr /\
    forall p q, M a' p q = true <-> M a p q = true \/ (inwin a' p q /\ near_track u tr (loc a p q)).
Proof.
  intros Ha Hu H. destruct (rasterize_any fuel a (xs tr) (ys tr) (Fin u) Ha) as (a' & E & Ha' & X & EP & EW & Mon).
  rewrite H in E. cbn in E. subst s'. exists a'. do 5 (split; [auto|]).
  destruct (c11_rasterize_exact fuel (conc a) tr u (conc a') (conc_wf a Ha) (conc_init a) Hu H) as (_ & _ & _ & K & _ & (x0 & x1 & y0 & y1 & Ext & Hp)).
  split.
  { intros p Ip. destruct (extent_fun _ _ _ _ _ _ _ _ _ (conc_extent a') Ext) as (-> & -> & -> & ->). apply Hp, Ip. }
  intros p q. destruct (Classical_Prop.classic (inwin a' p q)) as [Hin|Hout].
  - assert (N : has_node (conc a') (fst (loc a' p q)) (snd (loc a' p q)) (P a' p q) (M a' p q)) by (apply conc_node; [exact Ha'|exists p, q; auto]).
    apply K in N. destruct N as (_ & _ & N). rewrite N. rewrite (loc_extends a a' p q X). rewrite <- surjective_pairing.
    split; (intros [L|L]; [left|right; tauto]).
    + destruct L as (w & L). apply conc_node in L; [|exact Ha]. destruct L as (p' & q' & _ & E1 & E2 & _ & E3). destruct Ha as (Hx & Hy & _).
      assert (q = q') by (apply eq_IZR; unfold loc, lat in E1; cbn in E1; apply Rmult_eq_reg_r with (Dx a); lra).
      assert (p = p') by (apply eq_IZR; unfold loc, lat in E2; cbn in E2; apply Rmult_eq_reg_r with (Dy a); lra).
      subst. auto.
    + exists (P a p q). apply conc_node; [exact Ha|]. exists p, q. split; [|auto].
      apply Classical_Prop.NNPP. intros Z. destruct Ha as (_ & _ & _ & _ & Ha). destruct (Ha p q Z). congruence.
  - destruct Ha' as (_ & _ & _ & _ & Hz). destruct (Hz p q Hout) as [_ Z]. rewrite Z. split; [discriminate|]. intros [L|[L _]]; [|contradiction].
    apply Mon in L. congruence.
Qed.

(** The tracks of a zone. *)
Definition tcall (u : R) (tr : list point) : op xr := ORasterize (xs tr) (ys tr) (Fin u).
Lemma tracks_abs fuel u : 0 <= u -> forall tracks a s' before, ok a -> holds a before ->
  calls fuel (conc a) (map (tcall u) tracks) = (s', Ok tt) ->
  exists a', s' = conc a' /\ ok a' /\ extends a a' /\ P a' = P a /\ W a' = W a /\ holds a' (before ++ concat tracks) /\
    forall p q,
      (M a p q = true -> M a' p q = true) /\
      (M a' p q = true -> M a p q = true \/ exists tr, In tr tracks /\ near_track u tr (loc a p q)) /\
      (forall pre tr post, tracks = pre ++ tr :: post -> near_track u tr (loc a p q) -> boxed (before ++ concat pre ++ tr) (loc a p q) -> M a' p q = true).
Proof.
  intros Hu. induction tracks as [|t tracks IH]; intros a s' before Ha Hb H; cbn [map calls] in H.
  - injection H as <-. exists a. cbn. rewrite app_nil_r. do 6 (split; [auto using extends_refl|]). intros p q. split; [auto|]. split; [auto|].
    intros [|? ?] tr post E; discriminate E.
  - unfold tcall at 1 in H. cbn [run_op] in H. destruct (rasterize fuel (conc a) (xs t) (ys t) (Fin u)) as [s1 [[]|e|]] eqn:R; [|discriminate H..].
    destruct (rasterize_abs fuel a t u s1 Ha Hu R) as (a1 & -> & Ha1 & X1 & P1 & W1 & H1 & M1).
    assert (Hb1 : holds a1 (before ++ t)).
    { intros p Ip. apply in_app_iff in Ip. destruct Ip as [Ip|Ip]; [exact (holds_extends a a1 before Ha X1 Hb p Ip)|exact (H1 p Ip)]. }
    destruct (IH a1 s' (before ++ t) Ha1 Hb1 H) as (a' & -> & Ha' & X' & P' & W' & H' & M').
    exists a'. split; [reflexivity|]. split; [exact Ha'|]. split; [eapply extends_trans; eassumption|]. split; [congruence|]. split; [congruence|].
    split; [cbn [concat]; rewrite app_assoc; exact H'|]. intros p q. destruct (M' p q) as (N1 & N2 & N3). rewrite (loc_extends a a1 p q X1) in N2, N3.
    split; [intros Z; apply N1, M1; left; exact Z|]. split.
    + intros Z. destruct (N2 Z) as [Y|(tr & I & Y)]; [|right; exists tr; cbn; auto].
      apply M1 in Y. destruct Y as [Y|[_ Y]]; [left; exact Y|right; exists t; cbn; auto].
    + intros [|t' pre] tr post E Hn Hbx; injection E as <- E.
      * apply N1, M1. right. split; [|exact Hn]. apply (holds_boxed a1 (before ++ t)); [exact Ha1|exact Hb1|].
        cbn [concat app] in Hbx. rewrite <- (loc_extends a a1 p q X1) in Hbx. exact Hbx.
      * apply (N3 pre tr post E Hn). cbn [concat] in Hbx. rewrite <- !app_assoc in *. exact Hbx.
Qed.

(** The zones. *)
Definition zcalls (u : R) (z : list (list point)) : list (op xr) := map (tcall u) z ++ [ORegister (Fin 1)].
Lemma zones_abs fuel u : 0 <= u -> forall zones a s' before, ok a -> holds a before -> (forall p q, M a p q = false) ->
  calls fuel (conc a) (concat (map (zcalls u) zones)) = (s', Ok tt) ->
  exists a', s' = conc a' /\ ok a' /\ extends a a' /\ W a' = W a + INR (length zones) /\ holds a' (before ++ concat (concat zones)) /\
    (forall p q, M a' p q = false) /\
    forall p q, exists hits, length hits = length zones /\
      (forall i z, nth_error zones i = Some z -> hit u (before ++ concat (concat (firstn i zones))) z (loc a p q) (nth i hits false)) /\
      P a' p q = P a p q + INR (length (filter (fun h => h) hits)).
Proof.
  intros Hu. induction zones as [|z zones IH]; intros a s' before Ha Hb HM H.
  - cbn in H. injection H as <-. exists a. do 3 (split; [auto using extends_refl|]). cbn [length concat]. rewrite app_nil_r. split; [cbn; ring|]. do 2 (split; [assumption|]).
    intros p q. exists []. split; [reflexivity|]. split; [intros [|i] z E; discriminate E|cbn; ring].
  - cbn [map concat] in H. unfold zcalls at 1 in H. rewrite <- app_assoc, calls_app in H.
    destruct (calls fuel (conc a) (map (tcall u) z)) as [s1 [[]|e|]] eqn:Z; [|discriminate H..].
    destruct (tracks_abs fuel u Hu z a s1 before Ha Hb Z) as (a1 & -> & Ha1 & X1 & P1 & W1 & H1 & M1).
    cbn [app calls run_op] in H. rewrite register_fin in H. cbn [bind] in H.
    assert (Hr : ok (reg a1 1)) by (apply reg_ok, Ha1). assert (Xr : extends a (reg a1 1)) by (eapply extends_trans; [exact X1|apply extends_reg]).
    destruct (IH (reg a1 1) s' (before ++ concat z) Hr) as (a' & -> & Ha' & X' & W' & H' & M' & N').
    { eapply holds_extends; [exact Ha1|apply extends_reg|exact H1]. }
    { reflexivity. }
    { exact H. }
    exists a'. split; [reflexivity|]. split; [exact Ha'|]. split; [eapply extends_trans; eassumption|].
    split; [rewrite W'; cbn [W reg]; rewrite W1; cbn [length]; rewrite S_INR; ring|].
    split; [cbn [concat]; rewrite concat_app, app_assoc; exact H'|]. split; [exact M'|].
    intros p q. destruct (N' p q) as (hits & L & Hh & E). rewrite (loc_extends a _ p q Xr) in Hh.
    exists (M a1 p q :: hits). split; [cbn; congruence|]. split.
    + intros [|i] z' Ez; cbn [nth_error nth firstn] in *.
      * injection Ez as <-. cbn [concat]. rewrite app_nil_r. destruct (M1 p q) as (_ & M2 & M3). split; [|exact M3].
        intros T. destruct (M2 T) as [C|C]; [rewrite HM in C; discriminate C|exact C].
      * specialize (Hh i z' Ez). cbn [concat]. rewrite concat_app, app_assoc. exact Hh.
    + rewrite E. cbn [P reg filter]. rewrite P1. destruct (M a1 p q); [cbn [length]; rewrite S_INR|]; ring.
Qed.

Lemma zone_calls_fvec u z : zone_calls (Fin u) (map (map fvec) z) = zcalls u z.
Proof.
  unfold zone_calls, zcalls. f_equal. rewrite map_map. apply map_ext. intros tr. unfold tcall, xs, ys. rewrite !map_map. reflexivity.
Qed.

Lemma zones_recorded fuel x0 y0 sp u s0 s zones : 0 < sp -> 0 <= u ->
  pf_init (Fin sp) (Fin sp) (Fin x0) (Fin y0) = Ok s0 ->
  calls fuel s0 (concat (map (zone_calls (Fin u)) (map (map (map fvec)) zones))) = (s, Ok tt) ->
  recorded s x0 y0 sp u zones.
Proof.
  intros Hs Hu I H. rewrite map_map in H. rewrite (map_ext _ _ (zone_calls_fvec u)) in H.
  rewrite (pf_init_fin sp sp x0 y0 Hs Hs) in I. injection I as <-. set (a := blank _ _ _ _ _ _) in *.
  assert (Ha : ok a) by (apply blank_ok; auto; lia).
  destruct (zones_abs fuel u Hu zones a s [] Ha) as (a' & -> & Ha' & X & EW & Hh & HM & HN); [intros p []|reflexivity|exact H|].
  cbn [app] in *. assert (L : forall p q, loc a p q = (x0 + IZR (q - 1) * sp, y0 + IZR (p - 1) * sp)).
  { intros p q. unfold loc, lat. cbn. rewrite !minus_IZR. f_equal; ring. }
  split; [|split].
  - apply conc_total. rewrite EW. cbn. ring.
  - intros i j B. replace i with (i + 1 - 1)%Z in * by lia. replace j with (j + 1 - 1)%Z in * by lia. rewrite <- (L (j + 1) (i + 1))%Z in *.
    rewrite <- (loc_extends a a' (j + 1) (i + 1) X)%Z in *. apply conc_inwin; [exact Ha'|]. eapply holds_boxed; eassumption.
  - intros x y v b N. apply conc_node in N; [|exact Ha']. destruct N as (p & q & _ & -> & -> & -> & ->). split; [apply HM|].
    change (lat (X0 a') (Dx a') q, lat (Y0 a') (Dy a') p) with (loc a' p q). rewrite (loc_extends a a' p q X).
    split; [exists (q - 1)%Z, (p - 1)%Z; apply L|]. destruct (HN p q) as (hits & L1 & L2 & L3). exists hits. split; [exact L1|]. split; [exact L2|]. rewrite L3. cbn. ring.
Qed.

(** ** Velocities *)
Lemma upstream_feval conf m : physical m -> upstream conf m (feval conf (fmodel m)).
Proof.
  intros Hm x y Ho. pose proof Hm as (HK & Hn & HH).
  assert (Ep : compute_potential (fmodel m) (Fin x) (Fin y) = Fin (potential m x y)).
  { unfold potential. rewrite compute_potential_eq by exact Ho. reflexivity. }
  destruct (c21_discharge_is_minus_gradient m x y Ho) as (pp & qx & qy & _ & Eq & Dx & Dy).
  assert (E1 : discharge_x m x y = qx) by (unfold discharge_x; rewrite Eq; reflexivity).
  assert (E2 : discharge_y m x y = qy) by (unfold discharge_y; rewrite Eq; reflexivity).
  exists (- qx), (- qy). split; [exact Dx|]. split; [exact Dy|]. destruct conf.
  - unfold feval, compute_velocity_confined. cbn [fst snd]. rewrite Eq. cbn [thickness porosity fmodel nmul ndiv nopp XR xmul].
    assert (porosity m * thickness m <> 0) by (apply Rmult_integral_contrapositive; lra).
    rewrite !div_fin by (rewrite Rmult_comm; assumption). cbn. do 2 f_equal; f_equal; field; lra.
  - destruct (c25_velocity m x y _ qx qy Hm Ho Ep Eq) as [V0 V1]. destruct (c24_head_inverts_potential m x y _ Hm Ep) as [_ Hh].
    destruct (Rle_dec (potential m x y) 0) as [L|L].
    + left. split; [exact L|]. unfold feval. cbn [fst snd]. rewrite (V0 L). reflexivity.
    + right. destruct (Hh ltac:(lra)) as (h & Eh & Ph & G & _). destruct (V1 ltac:(lra)) as (h' & Eh' & _ & V). rewrite Eh in Eh'. injection Eh' as <-.
      exists h. split; [exact Ph|]. split; [exact G|]. cbn zeta. unfold feval. cbn [fst snd]. rewrite V. cbn [bind]. cbn. do 2 f_equal; f_equal; unfold Rdiv; ring.
Qed.

(** ** Tracks *)
Lemma finite_vertices (l : list (vec xr)) : (forall v, In v l -> finite v) -> exists tr, l = map fvec tr.
Proof.
  induction l as [|v l IH]; intros H; [exists []; auto|].
  destruct IH as (tr & ->); [intros w Hw; apply H; right; exact Hw|].
  destruct (H v (or_introl eq_refl)) as (p & ->). exists (p :: tr). reflexivity.
Qed.

Lemma traced_points fuel c w x y r conf m tracks : sx w = Fin x -> sy w = Fin y -> sr w = Fin r -> (0 < k_npaths c)%Z ->
  traced fuel (Fin x) (Fin y) (Fin r) (k_duration c) (k_tol c) (k_maxstep c) (k_npaths c) conf m tracks ->
  exists pts, tracks = map (map fvec) pts /\ tracks_of fuel c w (feval conf m) pts.
Proof.
  intros Ex Ey Er Hn (thetas & A & F).
  assert (G : forall ths tks, Forall2 (fun th t => exists tr, let (x, y) := start_point (Fin x) (Fin y) (Fin r) (Fin th) in
                 compute_backtrace fuel x y (k_duration c) (k_tol c) (k_maxstep c) (feval conf m) = Ok tr /\ t = vertices tr) ths tks ->
     exists pts, tks = map (map fvec) pts /\ length pts = length ths /\ forall j tr, nth_error pts j = Some tr -> exists th t, nth_error ths j = Some th /\
       compute_backtrace fuel (Fin (x + (r + 1) * cos th)) (Fin (y + (r + 1) * sin th)) (k_duration c) (k_tol c) (k_maxstep c) (feval conf m) = Ok t /\ vertices t = map fvec tr).
  { clear. induction 1 as [|th t ths tks (tr & B) F IH]; [exists []; repeat split; intros [|j] ? E; discriminate E|].
    destruct IH as (pts & -> & L & Hp). destruct (start_point _ _ _ _) as [px py] eqn:SP. destruct B as [B ->].
    unfold start_point in SP. cbn in SP. injection SP as <- <-.
    destruct (c36_path _ _ _ _ _ _ _ _ B) as (more & V & Fm & _).
    destruct (finite_vertices (vertices tr)) as (p & Ep); [rewrite V; intros v [<-|Hv]; [eexists (_, _); reflexivity|auto]|].
    exists (p :: pts). split; [cbn; rewrite Ep; reflexivity|]. split; [cbn; lia|]. intros [|j] q E; cbn in E; [|exact (Hp j q E)].
    injection E as <-. exists th, tr. split; [reflexivity|]. rewrite (Rplus_comm x), (Rplus_comm y). split; [exact B|exact Ep]. }
  rewrite <- (Z2Nat.id (k_npaths c)) in A by lia. rewrite start_angles_eq in A by lia. injection A as <-.
  rewrite <- (map_map (fun k => 2 * PI * INR k / INR (Z.to_nat (k_npaths c))) Fin) in F.
  destruct (G (map (fun k => 2 * PI * INR k / INR (Z.to_nat (k_npaths c))) (seq 0 (Z.to_nat (k_npaths c)))) tracks) as (pts & E & L & Hp).
  { clear - F. revert tracks F. generalize (map (fun k => 2 * PI * INR k / INR (Z.to_nat (k_npaths c))) (seq 0 (Z.to_nat (k_npaths c)))) as l.
    induction l as [|a l IH]; intros tracks F; inversion F; subst; constructor; auto. }
  exists pts. split; [exact E|]. rewrite map_length, seq_length in L. split; [exact L|].
  intros j tr Ej. destruct (Hp j tr Ej) as (th & t & Et & B & V). exists x, y, r, t. do 3 (split; [assumption|]). cbn zeta.
  assert (Hj : (j < Z.to_nat (k_npaths c))%nat) by (rewrite <- L; apply nth_error_Some; intros Z; pose proof (eq_trans (eq_sym Ej) Z) as Z'; discriminate Z').
  rewrite nth_error_map in Et. rewrite (nth_error_nth' _ 0%nat) in Et by (rewrite seq_length; exact Hj).
  rewrite seq_nth in Et by exact Hj. cbn in Et. injection Et as <-. auto.
Qed.

(** ** One realization *)
Lemma fcoef_inj c d : coef_list (fcoef c) = coef_list (fcoef d) -> c = d.
Proof. destruct c, d. unfold coef_list, fcoef. cbn. intros H. injection H. intros. subst. reflexivity. Qed.

Lemma make_wells_full ws ps vs qs : places ws ps -> numbers vs qs -> length ws = length vs ->
  exists wl, make_wells ws vs = Ok (map fwell wl) /\ map (fun w => (wx w, wy w)) wl = map (fun p : R * R * R => fst p) ps /\
    Forall2 (fun sw mw => sx sw = Fin (wx mw) /\ sy sw = Fin (wy mw) /\ sr sw = Fin (wr mw)) ws wl /\ map (fun w => wq w) wl = qs.
Proof.
  intros P. revert vs qs. induction P as [|w [[x y] r] ws ps (Hx & Hy & Hr) P IH]; intros vs qs Q L.
  - destruct vs; [|discriminate L]. inversion Q. exists []. repeat split; constructor.
  - destruct vs as [|v vs]; [discriminate L|]. inversion Q as [|? q ? qs' Hq Q']; subst.
    destruct (IH _ _ Q') as (wl & E & M & F & Eq); [cbn in L; lia|].
    exists ({| wx := x; wy := y; wr := r; wq := q |} :: wl). cbn [make_wells]. rewrite (as_num_number _ _ Hq). cbn [bind]. rewrite E. cbn [bind].
    rewrite Hx, Hy, Hr. cbn. rewrite M, Eq. repeat split. constructor; [cbn; auto|exact F].
Qed.

Lemma realization_run fuel la s x y r np D b kv nv hv k n h ws ps vs qs l bf kept u conf tol maxstep pick rech s' lg :
  linalg_contract la -> number kv (Fin k) -> number nv (Fin n) -> number hv (Fin h) -> 0 < k -> 0 < h ->
  places ws ps -> numbers vs qs -> length ws = length vs ->
  0 < bf -> (forall o, In o l -> b < oz o /\ 0 < os o) ->
  filter_obs (map fobs l) (map (fun p : R * R * R => floc (fst p)) ps) (Fin bf) = Ok (map fobs kept) ->
  (forall c C, exists d, pick (coef_list (fcoef c)) C = coef_list (fcoef d)) ->
  realization fuel la s (Fin x) (Fin y) (Fin r) np D (Fin b) kv nv hv ws vs (map fobs kept) (Fin u) conf tol maxstep pick rech = (s', Ok lg) ->
  exists m c C A tracks,
    base m = b /\ conductivity m = k /\ porosity m = n /\ thickness m = h /\ xo m = x /\ yo m = y /\
    Forall2 (fun sw mw => sx sw = Fin (wx mw) /\ sy sw = Fin (wy mw) /\ sr sw = Fin (wr mw)) ws (wells m) /\ map (fun w => wq w) (wells m) = qs /\
    best_fit m kept c /\ matrix6 C A /\ inverse6 (normal_matrix m x y kept) A /\
    pick (coef_list (fcoef c)) C = coef_list (fcoef (coef m)) /\
    logs_model lg (fmodel m) /\ l_recharge lg = rech (fcoef (coef m)) /\
    traced fuel (Fin x) (Fin y) (Fin r) D tol maxstep np conf (fmodel m) tracks /\
    calls fuel s (zone_calls (Fin u) tracks) = (s', Ok tt).
Proof.
  intros Hla Nk Nn Nh Hk Hh P Q L Hb Hl F Pk Run.
  destruct (make_wells_full ws ps vs qs P Q L) as (wl & Ew & Mw & Fw & Eq).
  set (m := {| base := b; conductivity := k; porosity := n; thickness := h; wells := wl; xo := 0; yo := 0; coef := zero_coef |}).
  assert (Em : new_model (Fin b) (Fin k) (Fin n) (Fin h) (map fwell wl) = fmodel m) by reflexivity.
  assert (Us : forall o, In o kept -> usable m o).
  { destruct (kept_usable m l bf (map fobs kept) Hb Hl) as (k' & E & V).
    - rewrite <- F. f_equal. cbn [wells m]. rewrite <- (map_map (fun w => (wx w, wy w)) floc), Mw, map_map. reflexivity.
    - assert (k' = kept); [|subst; exact V]. clear -E. revert k' E.
      induction kept as [|o kept IH]; intros [|o' k'] E; try discriminate E; [reflexivity|].
      cbn in E. destruct o, o'. injection E as <- <- <- <- E. f_equal. apply IH, E. }
  unfold realization in Run. rewrite Ew in Run. cbn [bind] in Run.
  rewrite (as_num_number _ _ Nk), (as_num_number _ _ Nh), (as_num_number _ _ Nn) in Run. cbn [bind] in Run.
  rewrite (proj2 (number_of _ _) Nn), Em in Run.
  destruct (fit_regional_flow la (fmodel m) (map fobs kept) (Fin x) (Fin y)) as [m1 [[ev C]|e|]] eqn:Ef; cbn [bind] in Run; [|discriminate Run..].
  destruct (c30_optimal_unique_covariance la m kept x y m1 ev C Hla Hk Hh Us Ef) as (c & A & -> & -> & Best & _ & HC & HA & _).
  destruct (Pk c C) as (d & Ed). rewrite Ed in Run. cbn [coef_list reshape6 bind] in Run.
  replace (set_coef (fmodel (with_coef m x y c)) _) with (fmodel (with_coef m x y d)) in Run by (destruct d; reflexivity).
  destruct (compute_capturezone _ _ _ _ _ _ _ _ _ _ _ _) as [s1 [[]|e|]] eqn:Z; cbn [bind] in Run; [|discriminate Run..].
  injection Run as <- <-. destruct (capturezone_calls _ _ _ _ _ _ _ _ _ _ _ _ _ _ Z) as (tracks & T1 & T2 & T3).
  exists (with_coef m x y d), c, C, A, tracks. do 8 (split; [first [reflexivity|assumption]|]).
  split; [exact Best|]. split; [exact HC|]. split; [exact HA|]. split; [exact Ed|]. split; [repeat split|]. split; [reflexivity|]. split; [exact T1|]. exact T3.
Qed.

(** ** Parameters *)
Lemma mean_exact v q : proper v q ->
  exists w x, compute_variate_mean v = Ok w /\ number w (Fin x) /\ mean_of v x.
Proof.
  intros [E NL]. pose proof (conj E NL) as Pr.
  inversion E as [v1 x1 Hx1 Q1 Q2|k1 a1 b1 K1 x1 y1 Hx1 Hy1 Q1 Q2|k1 a1 b1 c1 K1 x1 y1 z1 Hx1 Hy1 Hz1 Q1 Q2]; subst.
  - destruct q as [|x [|? ?]]; try discriminate Q2. injection Q2 as ->. exists v, x.
    split; [destruct Hx1; reflexivity|]. split; [exact Hx1|]. exists [x]. split; [exact Pr|]. cbn. lra.
  - destruct K1 as [->| ->]; [|exfalso; apply NL; eexists; reflexivity]. destruct q as [|x [|y [|? ?]]]; try discriminate Q2. injection Q2 as -> ->.
    cbn [compute_variate_mean]. rewrite (as_num_number _ _ Hx1), (as_num_number _ _ Hy1). cbn [bind].
    exists (PFloat (Fin ((x + y) / 2))), ((x + y) / 2). split; [cbn; destruct (Reqb_spec 2 0); [lra|reflexivity]|]. split; [constructor|].
    exists [x; y]. split; [exact Pr|]. cbn. lra.
  - destruct K1 as [->| ->]; [|exfalso; apply NL; eexists; reflexivity]. destruct q as [|x [|y [|z [|? ?]]]]; try discriminate Q2. injection Q2 as -> -> ->.
    cbn [compute_variate_mean]. rewrite (as_num_number _ _ Hx1), (as_num_number _ _ Hy1), (as_num_number _ _ Hz1). cbn [bind].
    exists (PFloat (Fin ((x + y + z) / 3))), ((x + y + z) / 3). split; [cbn; destruct (Reqb_spec 3 0); [lra|reflexivity]|]. split; [constructor|].
    exists [x; y; z]. split; [exact Pr|]. cbn. lra.
Qed.

Lemma sample_within {G} (Rg : rng xr G) g v q lb ub w g' : documented_finite Rg -> distribution v lb ub -> proper v q ->
  generate_random_variate Rg g v = Ok (w, g') -> exists x, number w (Fin x) /\ within v x.
Proof.
  intros DR D Pq S. apply c55_exactly in D. destruct Pq as [E NL].
  destruct (c57_within_finite G Rg g g' v w q lb ub DR D NL E S) as (x & Nx & _ & _ & (p & Ip & Lp) & (r & Ir & Lr)).
  exists x. split; [exact Nx|]. exists q, p, r. repeat split; assumption.
Qed.

(** A mean or a value within the ends is positive if the ends are. *)
Lemma within_positive v x q : proper v q -> (forall y, In y q -> 0 < y) -> within v x -> 0 < x.
Proof.
  intros E H (l & p & r & E' & Ip & _ & [L _]). apply Rlt_le_trans with p; [|exact L]. apply H.
  rewrite (proper_fun v q l E E'). exact Ip.
Qed.
Lemma mean_positive v x q : proper v q -> (forall y, In y q -> 0 < y) -> mean_of v x -> 0 < x.
Proof.
  intros E H (l & E' & ->). rewrite (proper_fun v q l E E') in H.
  assert (0 < fold_right Rplus 0 l /\ (0 < length l)%nat) as [S L].
  { assert (l <> []) as N by (intros ->; destruct E' as [E' _]; inversion E').
    destruct l as [|a l]; [contradiction|]. split; [|cbn; lia]. clear N E E'.
    assert (0 < a) by (apply H; left; reflexivity). assert (0 <= fold_right Rplus 0 l); [|cbn; lra].
    assert (forall y, In y l -> 0 < y) as Hl by (intros y Hy; apply H; right; exact Hy). clear - Hl.
    induction l as [|b l IH]; [cbn; lra|]. cbn. assert (0 < b) by (apply Hl; left; reflexivity). assert (0 <= fold_right Rplus 0 l) by (apply IH; intros y Hy; apply Hl; right; exact Hy). lra. }
  apply Rdiv_lt_0_compat; [exact S|]. apply lt_0_INR. exact L.
Qed.

Lemma wells_parameters (Q : pyval xr -> R -> Prop) ws wl qs :
  Forall2 (fun sw mw => sx sw = Fin (wx mw) /\ sy sw = Fin (wy mw) /\ sr sw = Fin (wr mw)) ws wl ->
  map (fun w : well R => wq w) wl = qs -> Forall2 (fun (w : swell xr) q => Q (sq w) q) ws qs ->
  Forall2 (fun sw mw => sx sw = Fin (wx mw) /\ sy sw = Fin (wy mw) /\ sr sw = Fin (wr mw) /\ Q (sq sw) (wq mw)) ws wl.
Proof.
  intros F. revert qs. induction F as [|w v ws wl (E1 & E2 & E3) F IH]; intros qs Eq H; [constructor|].
  destruct qs as [|q qs]; [discriminate Eq|]. injection Eq as <- Eq. inversion H; subst. constructor; [auto|]. eapply IH; [reflexivity|assumption].
Qed.

Lemma means_exact ws : (forall w, In w ws -> exists q, proper (sq w) q) ->
  exists vs qs, map_res (fun w : swell xr => compute_variate_mean (sq w)) ws = Ok vs /\ numbers vs qs /\ length ws = length vs /\
    Forall2 (fun (w : swell xr) q => mean_of (sq w) q) ws qs.
Proof.
  induction ws as [|w ws IH]; intros H; [exists [], []; repeat split; constructor|].
  destruct IH as (vs & qs & E & Nq & L & F); [intros v Hv; apply H; right; exact Hv|].
  destruct (H w (or_introl eq_refl)) as (q & Pq). destruct (mean_exact _ _ Pq) as (v & x & Ev & Nv & Mv).
  exists (v :: vs), (x :: qs). cbn [map_res]. rewrite Ev. cbn [bind]. rewrite E. cbn [bind].
  split; [reflexivity|]. split; [constructor; assumption|]. split; [cbn; lia|]. constructor; assumption.
Qed.

Lemma samples_within {G} (Rg : rng xr G) : documented_finite Rg -> forall ws g vs g',
  (forall w, In w ws -> distribution (sq w) NInf PInf /\ exists q, proper (sq w) q) ->
  sample_all Rg g (map (fun w : swell xr => sq w) ws) = Ok (vs, g') ->
  exists qs, numbers vs qs /\ length ws = length vs /\ Forall2 (fun (w : swell xr) q => within (sq w) q) ws qs.
Proof.
  intros DR. induction ws as [|w ws IH]; intros g vs g' H S; cbn [map sample_all] in S.
  - injection S as <- _. exists []. repeat split; constructor.
  - destruct (generate_random_variate Rg g (sq w)) as [[v g1]|e|] eqn:E; cbn [bind] in S; [|discriminate S..].
    destruct (sample_all Rg g1 (map (fun w0 => sq w0) ws)) as [[vs1 g2]|e|] eqn:S1; cbn [bind] in S; [|discriminate S..]. injection S as <- _.
    destruct (IH g1 vs1 g2) as (qs & Nq & L & F); [intros v' Hv; apply H; right; exact Hv|exact S1|].
    destruct (H w (or_introl eq_refl)) as (D & q & Pq). destruct (sample_within Rg g _ q _ _ v g1 DR D Pq E) as (x & Nx & Wx).
    exists (x :: qs). split; [constructor; assumption|]. split; [cbn; lia|]. constructor; assumption.
Qed.

(** ** C83 *)

(** A deterministic run: the parameters of the model are the means of the distributions, its regional flow is the
    unique best fit to the observations, and the field records the one capture zone traced upstream in it. *)
Lemma c83_deterministic : forall (fuel : nat) (la : linalg xr) (a : args xr) (c : call) (l kept : list (obs R)) s lg,
  acceptable a -> reads a c -> well_posed a c l kept -> (forall q x, proper (p_dist a) q -> In x q -> 0 < x) -> linalg_contract la ->
  call_deterministic fuel la a c (map fobs kept) = Ok (s, lg) ->
  deterministic_run fuel a c kept s lg.
Proof.
  intros fuel la a c l kept s lg Ha Hc H Hp Hla Run. unfold deterministic_run.
  destruct (posed_facts a c l kept Ha Hc H) as (ps & w & x & y & r & b & bf & sp & u & P & Hw & Ex & Ey & Er & Eb & Hl & Hbf & Ebf & F & Hsp & Esp & Hu & Eu & Hnp).
  destruct (means_exact (k_wells c)) as (vs & qs & Ev & Nq & L & Fq); [intros v Hv; apply (wp_wells _ _ _ _ H v Hv)|].
  destruct (wp_conductivity _ _ _ _ H) as (qc & Pc & Hqc). destruct (wp_porosity _ _ _ _ H) as (qp & Pp). destruct (wp_thickness _ _ _ _ H) as (qt & Pt & Hqt).
  destruct (mean_exact _ _ Pc) as (kv & k & Ek & Nk & Mk). destruct (mean_exact _ _ Pp) as (nv & n & En & Nn & Mn). destruct (mean_exact _ _ Pt) as (hv & h & Eh & Nh & Mh).
  pose proof (mean_positive _ _ _ Pc Hqc Mk) as Hk. pose proof (mean_positive _ _ _ Pt Hqt Mh) as Hh. pose proof (mean_positive _ _ _ Pp (fun z => Hp qp z Pp) Mn) as Hn.
  unfold call_deterministic, create_deterministic in Run. rewrite Hw, Esp, Ex, Ey, Er, Eb, Eu in Run.
  destruct (pf_init (Fin sp) (Fin sp) (Fin x) (Fin y)) as [s0|e|] eqn:I; cbn [bind] in Run; [|discriminate Run..].
  rewrite Ev, Ek, En, Eh in Run. cbn [bind] in Run.
  destruct (realization _ _ _ _ _ _ _ _ _ _ _ _ _ _ _ _ _ _ _ _ _) as [s1 [l1|e|]] eqn:Z; cbn [bind] in Run; [|discriminate Run..]. injection Run as <- <-.
  destruct (realization_run _ _ _ _ _ _ _ _ _ _ _ _ k n h _ ps _ qs l bf _ _ _ _ _ _ _ _ _ Hla Nk Nn Nh Hk Hh P Nq L Hbf Hl F (fun c0 _ => ex_intro _ c0 eq_refl) Z)
    as (m & c0 & C & A & tracks & Q1 & Q2 & Q3 & Q4 & Q5 & Q6 & Q7 & Q8 & Q9 & Q10 & Q11 & Q12 & Q13 & Q14 & Q15 & Q16).
  apply fcoef_inj in Q12. subst c0.
  destruct (traced_points fuel c w x y r (k_confined c) (fmodel m) tracks Ex Ey Er Hnp Q15) as (pts & -> & T).
  exists w, x, y, sp, u, m, (feval (k_confined c) (fmodel m)), pts. do 5 (split; [assumption|]).
  split.
  { split; [congruence|]. rewrite Q2, Q3, Q4. do 3 (split; [assumption|]). split; [eapply wells_parameters; eassumption|]. split; congruence. }
  split; [exact Q9|]. split; [exact Q13|]. split.
  { rewrite Q14. unfold recharge_deterministic. cbn. f_equal. ring. }
  split; [apply upstream_feval; unfold physical; rewrite Q2, Q3, Q4; auto|]. split; [exact T|].
  apply (zones_recorded fuel x y sp u s0 s1 [pts] Hsp (Rlt_le _ _ Hu) I). cbn [map concat]. rewrite app_nil_r. exact Q16.
Qed.

(** What is known of the [i]-th realization of a stochastic run. *)
Definition realized {E} (mvn : E -> list xr -> list (list xr) -> list xr) (fuel : nat) (e : E) (a : args xr) (c : call) (w : swell xr) (kept : list (obs R))
    (lg : run_log xr) (run : model R * list (list point)) : Prop :=
  let (m, tracks) := run in
  has_parameters within a c w m /\
  (exists ev C A, best_fit m kept ev /\ matrix6 C A /\ inverse6 (normal_matrix m (xo m) (yo m) kept) A /\
     mvn e (coef_list (fcoef ev)) C = coef_list (fcoef (coef m))) /\
  logs_model lg (fmodel m) /\ l_recharge lg = Fin (2 * (cA (coef m) + cB (coef m))) /\
  exists f, upstream (k_confined c) m f /\ tracks_of fuel c w f tracks.

Lemma realizations_run {G E} (Rg : rng xr G) (mvn : E -> list xr -> list (list xr) -> list xr) fuel la (entropy : nat -> E) a c l kept :
  acceptable a -> reads a c -> well_posed a c l kept -> (forall q x, proper (p_dist a) q -> In x q -> 0 < x) -> linalg_contract la ->
  documented_finite Rg -> (forall e v C, exists d, mvn e (coef_list (fcoef v)) C = coef_list (fcoef d)) ->
  forall w x y r b u, nth_error (k_wells c) (Z.to_nat (k_target c)) = Some w -> sx w = Fin x -> sy w = Fin y -> sr w = Fin r -> k_base c = Fin b -> k_umbra c = Fin u ->
  forall count i g s0 logs s logs',
  realizations Rg mvn fuel la count entropy i g s0 logs (Fin x) (Fin y) (Fin r) (k_npaths c) (k_duration c) (Fin b) (c_dist a) (p_dist a) (t_dist a)
    (k_wells c) (map fobs kept) (Fin u) (k_confined c) (k_tol c) (k_maxstep c) = Ok (s, logs') ->
  exists more runs, logs' = logs ++ more /\ length more = count /\ length runs = count /\
    (forall j lg run, nth_error more j = Some lg -> nth_error runs j = Some run -> realized mvn fuel (entropy (i + j)%nat) a c w kept lg run) /\
    calls fuel s0 (concat (map (zone_calls (Fin u)) (map (map (map fvec)) (map snd runs)))) = (s, Ok tt).
Proof.
  intros Ha Hc H Hp Hla DR Hm w x y r b u Hw Ex Ey Er Eb Eu.
  destruct (posed_facts a c l kept Ha Hc H) as (ps & w' & x' & y' & r' & b' & bf & sp & u' & P & Hw' & Ex' & Ey' & Er' & Eb' & Hl & Hbf & Ebf & F & Hsp & Esp & Hu & Eu' & Hnp).
  assert (w' = w) by congruence. subst w'. assert (x' = x) by congruence. assert (y' = y) by congruence. assert (r' = r) by congruence.
  assert (b' = b) by congruence. assert (u' = u) by congruence. subst x' y' r' b' u'. clear Hw' Ex' Ey' Er' Eb' Eu'.
  pose proof Ha as [(_ & _ & _ & _ & _ & _ & Dc & Dp & Dt & _) _].
  destruct (wp_conductivity _ _ _ _ H) as (qc & Pc & Hqc). destruct (wp_porosity _ _ _ _ H) as (qp & Pp). destruct (wp_thickness _ _ _ _ H) as (qt & Pt & Hqt).
  induction count as [|k IH]; intros i g s0 logs s logs' Run; cbn [realizations] in Run.
  - injection Run as <- <-. exists [], []. rewrite app_nil_r. do 3 (split; [reflexivity|]). split; [intros [|j] ? ? E0; discriminate E0|reflexivity].
  - destruct (sample_all Rg g (map (fun w0 => sq w0) (k_wells c))) as [[vs g1]|e|] eqn:S; cbn [bind] in Run; [|discriminate Run..].
    destruct (generate_random_variate Rg g1 (c_dist a)) as [[kv g2]|e|] eqn:Sk; cbn [bind] in Run; [|discriminate Run..].
    destruct (generate_random_variate Rg g2 (p_dist a)) as [[nv g3]|e|] eqn:Sn; cbn [bind] in Run; [|discriminate Run..].
    destruct (generate_random_variate Rg g3 (t_dist a)) as [[hv g4]|e|] eqn:Sh; cbn [bind] in Run; [|discriminate Run..].
    destruct (realization _ _ _ _ _ _ _ _ _ _ _ _ _ _ _ _ _ _ _ _ _) as [s1 [l1|e|]] eqn:Z; cbn [bind] in Run; [|discriminate Run..].
    destruct (samples_within Rg DR (k_wells c) g vs g1) as (qs & Nq & L & Fq);
      [intros v Hv; split; [exact (accepted_discharge a c v Ha Hc Hv)|apply (wp_wells _ _ _ _ H v Hv)]|exact S|].
    destruct (sample_within Rg g1 _ qc _ _ kv g2 DR Dc Pc Sk) as (kk & Nk & Wk). destruct (sample_within Rg g2 _ qp _ _ nv g3 DR Dp Pp Sn) as (n & Nn & Wn).
    destruct (sample_within Rg g3 _ qt _ _ hv g4 DR Dt Pt Sh) as (h & Nh & Wh).
    pose proof (within_positive _ _ _ Pc Hqc Wk) as Hk. pose proof (within_positive _ _ _ Pt Hqt Wh) as Hh. pose proof (within_positive _ _ _ Pp (fun z => Hp qp z Pp) Wn) as Hn.
    destruct (realization_run _ _ _ _ _ _ _ _ _ _ _ _ kk n h _ ps _ qs l bf _ _ _ _ _ _ _ _ _ Hla Nk Nn Nh Hk Hh P Nq L Hbf Hl F (Hm (entropy i)) Z)
      as (m & c0 & C & A & tracks & Q1 & Q2 & Q3 & Q4 & Q5 & Q6 & Q7 & Q8 & Q9 & Q10 & Q11 & Q12 & Q13 & Q14 & Q15 & Q16).
    destruct (traced_points fuel c w x y r (k_confined c) (fmodel m) tracks Ex Ey Er Hnp Q15) as (pts & -> & T).
    destruct (IH _ _ _ _ _ _ Run) as (more & runs & M1 & M2 & M3 & M4 & M5).
    exists (l1 :: more), ((m, pts) :: runs). split; [rewrite M1, <- app_assoc; reflexivity|]. split; [cbn; congruence|]. split; [cbn; congruence|]. split.
    + intros [|j] lg run E1 E2; cbn [nth_error] in E1, E2.
      * injection E1 as <-. injection E2 as <-. rewrite Nat.add_0_r. split.
        { split; [congruence|]. rewrite Q2, Q3, Q4. do 3 (split; [assumption|]). split; [eapply wells_parameters; eassumption|]. split; congruence. }
        split; [exists c0, C, A; rewrite Q5, Q6; auto|]. split; [exact Q13|]. split; [rewrite Q14; reflexivity|].
        exists (feval (k_confined c) (fmodel m)). split; [|exact T]. apply upstream_feval. unfold physical. rewrite Q2, Q3, Q4. auto.
      * rewrite <- Nat.add_succ_comm. apply M4; assumption.
    + cbn [map concat snd]. rewrite calls_app, Q16. exact M5.
Qed.

(** A stochastic run: in every realization the parameters of the model are within the ends of the distributions, its
    regional flow is drawn with the mean and covariance of the fit to the observations, and the field counts, at every
    node, the realizations whose capture zone reaches it. *)
Lemma c83_stochastic : forall (G E : Type) (Rg : rng xr G) (mvn : E -> list xr -> list (list xr) -> list xr)
    (fuel : nat) (la : linalg xr) (entropy : nat -> E) (g : G) (a : args xr) (c : call) (l kept : list (obs R)) s logs,
  acceptable a -> reads a c -> well_posed a c l kept -> (forall q x, proper (p_dist a) q -> In x q -> 0 < x) -> linalg_contract la ->
  documented_finite Rg -> (forall e v C, exists d, mvn e (coef_list (fcoef v)) C = coef_list (fcoef d)) ->
  call_stochastic Rg mvn fuel la entropy g a c (map fobs kept) = Ok (s, logs) ->
  stochastic_run mvn fuel entropy a c kept s logs.
Proof.
  intros G E Rg mvn fuel la entropy g a c l kept s logs Ha Hc H Hp Hla DR Hm Run. unfold stochastic_run.
  destruct (posed_facts a c l kept Ha Hc H) as (ps & w & x & y & r & b & bf & sp & u & P & Hw & Ex & Ey & Er & Eb & Hl & Hbf & Ebf & F & Hsp & Esp & Hu & Eu & Hnp).
  unfold call_stochastic, create_stochastic in Run. rewrite Hw, Esp, Ex, Ey, Er, Eb, Eu in Run.
  destruct (pf_init (Fin sp) (Fin sp) (Fin x) (Fin y)) as [s0|e|] eqn:I; cbn [bind] in Run; [|discriminate Run..].
  destruct (realizations_run Rg mvn fuel la entropy a c l kept Ha Hc H Hp Hla DR Hm w x y r b u Hw Ex Ey Er Eb Eu _ _ _ _ _ _ _ Run)
    as (more & runs & M1 & M2 & M3 & M4 & M5). cbn [app] in M1. subst more.
  exists w, x, y, sp, u, runs. do 7 (split; [assumption|]). split.
  - intros i lg m tracks E1 E2. exact (M4 i lg (m, tracks) E1 E2).
  - apply (zones_recorded fuel x y sp u s0 s (map snd runs) Hsp (Rlt_le _ _ Hu) I). exact M5.
Qed.

(** The field that a well-posed run of [oneka] archives, and the log that it writes, are of such a computation: one
    deterministic run when at most one realization is asked for, that many realizations otherwise. *)
Lemma c83_run : forall (G E : Type) (Rg : rng xr G) (mvn : E -> list xr -> list (list xr) -> list xr) (dump : run_args (pyobj xr) -> res unit)
    (fuel : nat) (la : linalg xr) (entropy : nat -> E) (g : G) (a : args xr) (c : call) (l kept : list (obs R)) events r,
  acceptable a -> reads a c -> well_posed a c l kept -> (forall q x, proper (p_dist a) q -> In x q -> 0 < x) -> linalg_contract la ->
  documented_finite Rg -> (forall e v C, exists d, mvn e (coef_list (fcoef v)) C = coef_list (fcoef d)) -> (forall x, dump x = Ok tt) ->
  oneka Rg mvn dump fuel la entropy g a = (events, Ok r) ->
  exists s, (forall v, In (EArchive v) events <-> v = archived a s) /\
    ((k_n c <= 1)%Z -> exists lg, In (EDeterministic lg) events /\ deterministic_run fuel a c kept s lg) /\
    ((1 < k_n c)%Z -> exists logs, In (ERealizations logs) events /\ stochastic_run mvn fuel entropy a c kept s logs).
Proof.
  intros G E Rg mvn dump fuel la entropy g a c l kept events r Ha Hc H Hp Hla DR Hm Hd Run.
  pose proof (wp_kept _ _ _ _ H) as K. pose proof (wp_seven _ _ _ _ H) as L7. destruct (wp_spacing _ _ _ _ H) as (sp & Esp).
  assert (Fp : finite_places c).
  { intros w Hw. destruct (wp_wells _ _ _ _ H w Hw) as ((x & Ex) & (y & Ey) & _). split; left; eauto. }
  destruct (summary_finite kept) as (st & S); [intros ->; cbn in L7; lia|].
  destruct (Z_lt_le_dec 1 (k_n c)) as [Hn|Hn].
  - destruct (call_stochastic Rg mvn fuel la entropy g a c (map fobs kept)) as [[s lg]|e|] eqn:D.
    + destruct (c80_stochastic G E Rg mvn dump fuel la entropy g a c kept sp s lg Ha Hc Fp Esp Hn K L7 D (Hd _))
        as (? & ? & ? & ? & ? & ? & ? & ? & _ & _ & _ & _ & _ & X). rewrite X in Run. injection Run as <- _.
      exists s. split; [|split; [intros; lia|]].
      * intros v. cbn [In]. split; [intuition congruence|intros ->; auto 12].
      * intros _. exists lg. split; [cbn; auto 8|]. eapply c83_stochastic; eassumption.
    + rewrite (c66_driver_raises G E Rg mvn dump fuel la entropy g a c (map fobs kept) st e Ha Hc K) in Run; [discriminate Run|rewrite map_length; exact L7|exact S|auto].
    + exfalso. revert Run. rewrite (oneka_values Rg mvn dump fuel la entropy g a c Ha Hc). unfold retained in K. rewrite K. cbn [stop].
      rewrite (proj2 (more_than_six (map fobs kept))) by (rewrite map_length; exact L7). cbn [stop]. rewrite S. cbn [stop].
      destruct (Z.gtb_spec (k_n c) 1); [|lia]. rewrite D. discriminate.
  - destruct (call_deterministic fuel la a c (map fobs kept)) as [[s lg]|e|] eqn:D.
    + destruct (c80_deterministic fuel la a c kept sp s lg Ha Hc Fp Esp Hn K L7 D) as (? & ? & _ & X). rewrite X in Run by apply Hd. injection Run as <- _.
      exists s. split; [|split; [|intros; lia]].
      * intros v. cbn [In]. split; [intuition congruence|intros ->; auto 12].
      * intros _. exists lg. split; [cbn; auto 8|]. eapply c83_deterministic; eassumption.
    + rewrite (c66_driver_raises G E Rg mvn dump fuel la entropy g a c (map fobs kept) st e Ha Hc K) in Run; [discriminate Run|rewrite map_length; exact L7|exact S|auto].
    + exfalso. revert Run. rewrite (oneka_values Rg mvn dump fuel la entropy g a c Ha Hc). unfold retained in K. rewrite K. cbn [stop].
      rewrite (proj2 (more_than_six (map fobs kept))) by (rewrite map_length; exact L7). cbn [stop]. rewrite S. cbn [stop].
      destruct (Z.gtb_spec (k_n c) 1); [lia|]. rewrite D. discriminate.
Qed.
