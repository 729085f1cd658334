(** * A well-posed run raises no exception: property C82 *)
From Coq Require Import Reals Lra Lia String.
From Verif Require Import Py Num NumXR ModelField ModelAquifer ModelTrace ModelObs ModelDist ModelDriver ModelPlot ModelArchive ModelMain.
From Verif Require Import SpecAquifer SpecFit SpecTrace SpecObs SpecDriver SpecPlot SpecDist SpecMain ProofPi ProofAquifer ProofHead Lstsq ProofFit ProofFitProps ProofObs ProofObsProps ProofDist
  ProofFieldProps ProofFieldHist ProofTraceLoop ProofTraceFlow ProofDriver ProofFuel ProofDriverProps ProofMain ProofMainRun ProofMainEnd ProofMainFinite.
From Verif Require Import SpecField.
Import ListNotations.
Local Open Scope R_scope.
Local Opaque kappa.

(** ** Tracing *)
Lemma rasterize_total fuel s tr u : wf s -> tr <> [] -> 0 <= u ->
  snd (rasterize fuel s (xs tr) (ys tr) (Fin u)) = NoFuel \/
  exists s', rasterize fuel s (xs tr) (ys tr) (Fin u) = (s', Ok tt) /\ wf s' /\ initialised s'.
Proof.
  intros W H U. destruct (c11_rasterize_returns s tr u W H U) as (n & Hn).
  destruct (Hn n (le_n n)) as (s' & E & W' & I').
  destruct (snd (rasterize fuel s (xs tr) (ys tr) (Fin u))) as [x|e|] eqn:F; [right|right|left; reflexivity].
  - exists s'. split; [|auto]. rewrite <- E. apply (agree2 (fun k => rasterize k s (xs tr) (ys tr) (Fin u))); [apply rasterize_stable|rewrite F; discriminate|rewrite E; discriminate].
  - exists s'. split; [|auto]. rewrite <- E. apply (agree2 (fun k => rasterize k s (xs tr) (ys tr) (Fin u))); [apply rasterize_stable|rewrite F; discriminate|rewrite E; discriminate].
Qed.

Lemma finite_track (l : list (vec xr)) : (forall v, In v l -> finite v) ->
  exists tr, map fst l = xs tr /\ map snd l = ys tr /\ List.length tr = List.length l.
Proof.
  induction l as [|v l IH]; intros H; [exists []; auto|].
  destruct IH as (tr & E1 & E2 & E3); [intros w Hw; apply H; right; exact Hw|].
  destruct (H v (or_introl eq_refl)) as (p & ->). exists (p :: tr). cbn. unfold xs, ys in *. rewrite E1, E2, E3. auto.
Qed.

Lemma trace_paths_total fuel x y r D u tol maxstep f thetas : 0 <= u -> forall s, wf s ->
  snd (trace_paths fuel s (Fin x) (Fin y) (Fin r) D (Fin u) tol maxstep f (map Fin thetas)) = NoFuel \/
  exists s', trace_paths fuel s (Fin x) (Fin y) (Fin r) D (Fin u) tol maxstep f (map Fin thetas) = (s', Ok tt) /\ wf s' /\
    (thetas <> [] -> initialised s').
Proof.
  intros U. induction thetas as [|th l IH]; intros s W; [right; exists s; cbn; repeat split; auto; contradiction|].
  cbn [map trace_paths]. destruct (start_point _ _ _ _) as [px py] eqn:SP.
  assert (FS : finite (px, py)).
  { unfold start_point in SP. cbn in SP. injection SP as <- <-. eexists (_, _). reflexivity. }
  destruct (compute_backtrace fuel px py D tol maxstep f) as [tr|e|] eqn:B; [|exfalso; exact (c41_no_exception _ _ _ _ _ _ _ _ B)|left; reflexivity].
  destruct (c36_path _ _ _ _ _ _ _ _ B) as (more & V & Fm & _).
  destruct (finite_track (vertices tr)) as (pts & E1 & E2 & E3); [rewrite V; intros v [<-|Hv]; auto|].
  rewrite E1, E2.
  assert (Np : pts <> []) by (intros ->; rewrite V in E3; discriminate E3).
  destruct (rasterize_total fuel s pts u W Np U) as [N|(s1 & Er & W1 & I1)].
  - left. destruct (rasterize fuel s (xs pts) (ys pts) (Fin u)) as [s1 [?|?|]]; cbn in N; try discriminate N. reflexivity.
  - rewrite Er. destruct (IH s1 W1) as [N|(s2 & E & W2 & I2)]; [left; exact N|right]. exists s2. split; [exact E|]. split; [exact W2|].
    intros _. destruct l as [|th' l]; [cbn in E; injection E as <-; exact I1|apply I2; discriminate].
Qed.

Lemma capturezone_total fuel x y r np D u tol maxstep f s : 0 <= u -> (0 < np)%Z -> wf s ->
  snd (compute_capturezone fuel (Fin x) (Fin y) (Fin r) np D s (Fin u) (Fin 1) tol maxstep f) = NoFuel \/
  exists s', compute_capturezone fuel (Fin x) (Fin y) (Fin r) np D s (Fin u) (Fin 1) tol maxstep f = (s', Ok tt) /\ wf s'.
Proof.
  intros U Hn W. unfold compute_capturezone. rewrite <- (Z2Nat.id np) by lia. rewrite start_angles_eq by lia.
  rewrite <- (map_map (fun k => 2 * PI * INR k / INR (Z.to_nat np)) Fin).
  destruct (trace_paths_total fuel x y r D u tol maxstep f (map (fun k => 2 * PI * INR k / INR (Z.to_nat np)) (seq 0 (Z.to_nat np))) U s W) as [N|(s1 & E & W1 & I1)].
  - left. destruct (trace_paths _ _ _ _ _ _ _ _ _ _ _) as [s1 [?|?|]]; cbn in N; try discriminate N. reflexivity.
  - rewrite E. destruct (c14_register_exact s1 1 W1) as (s2 & E2 & W2 & _).
    + apply I1. destruct (Z.to_nat np) eqn:K; [lia|discriminate].
    + right. exists s2. auto.
Qed.

(** ** One realization *)
Definition wellR (w : R * R * R) (q : R) : well R := let '(x, y, r) := w in {| wx := x; wy := y; wr := r; wq := q |}.
Definition places (ws : list (swell xr)) (ps : list (R * R * R)) : Prop :=
  Forall2 (fun w (p : R * R * R) => let '(x, y, r) := p in sx w = Fin x /\ sy w = Fin y /\ sr w = Fin r) ws ps.
Definition numbers (vs : list (pyval xr)) (qs : list R) : Prop := Forall2 (fun v q => number v (Fin q)) vs qs.

Lemma make_wells_R ws ps vs qs : places ws ps -> numbers vs qs -> List.length ws = List.length vs ->
  exists wl, make_wells ws vs = Ok (map fwell wl) /\ map (fun w => (wx w, wy w)) wl = map (fun p : R * R * R => fst p) ps.
Proof.
  intros P. revert vs qs. induction P as [|w [[x y] r] ws ps (Hx & Hy & Hr) P IH]; intros vs qs Q L.
  - destruct vs; [|discriminate L]. exists []. auto.
  - destruct vs as [|v vs]; [discriminate L|]. inversion Q as [|? q ? qs' Hq Q']; subst.
    destruct (IH _ _ Q') as (wl & E & M); [cbn in L; lia|].
    exists ({| wx := x; wy := y; wr := r; wq := q |} :: wl). cbn [make_wells]. rewrite (as_num_number _ _ Hq). cbn [bind]. rewrite E. cbn [bind].
    rewrite Hx, Hy, Hr. cbn. rewrite M. auto.
Qed.

Lemma realization_total fuel la s x y r np D b kv nv hv k n h ws ps vs qs l bf kept u conf tol maxstep pick rech :
  linalg_contract la -> wf s -> 0 <= u -> (0 < np)%Z -> number kv (Fin k) -> number nv (Fin n) -> number hv (Fin h) -> 0 < k -> 0 < h ->
  places ws ps -> numbers vs qs -> List.length ws = List.length vs ->
  0 < bf -> (forall o, In o l -> b < oz o /\ 0 < os o) ->
  filter_obs (map fobs l) (map (fun p : R * R * R => floc (fst p)) ps) (Fin bf) = Ok (map fobs kept) -> conic_free kept ->
  (forall ev C, List.length ev = 6%nat -> List.length (pick ev C) = 6%nat) ->
  let run := realization fuel la s (Fin x) (Fin y) (Fin r) np D (Fin b) kv nv hv ws vs (map fobs kept) (Fin u) conf tol maxstep pick rech in
  snd run = NoFuel \/ exists s' lg, run = (s', Ok lg) /\ wf s'.
Proof.
  intros Hla W U Hnp Nk Nn Nh Hk Hh P Q L Hb Hl F Cf Pk run.
  destruct (make_wells_R ws ps vs qs P Q L) as (wl & Ew & Mw).
  set (m := {| base := b; conductivity := k; porosity := n; thickness := h; wells := wl; xo := 0; yo := 0; coef := zero_coef |}).
  assert (Em : new_model (Fin b) (Fin k) (Fin n) (Fin h) (map fwell wl) = fmodel m) by reflexivity.
  assert (Us : forall o, In o kept -> usable m o).
  { destruct (kept_usable m l bf (map fobs kept) Hb Hl) as (k' & E & V).
    - rewrite <- F. f_equal. cbn [wells m]. rewrite <- (map_map (fun w => (wx w, wy w)) floc), Mw, map_map. reflexivity.
    - assert (k' = kept); [|subst; exact V]. clear -E. revert k' E.
      induction kept as [|o kept IH]; intros [|o' k'] E; try discriminate E; [reflexivity|].
      cbn in E. destruct o, o'. injection E as <- <- <- <- E. f_equal. apply IH, E. }
  destruct (fit_result la m kept x y Hla Hk Hh Us) as [(_ & c & C & A & Ef & _)|(NC & _)]; [|contradiction].
  destruct (reshape6 (pick (coef_list (fcoef c)) C)) as [c'|e|] eqn:Er.
  2,3: exfalso; pose proof (Pk (coef_list (fcoef c)) C eq_refl) as L6; destruct (pick _ _) as [|? [|? [|? [|? [|? [|? [|]]]]]]]; cbn in L6; try lia; discriminate Er.
  assert (E : run = let (s', r) := compute_capturezone fuel (Fin x) (Fin y) (Fin r) np D s (Fin u) (nZ 1) tol maxstep (feval conf (set_coef (fmodel (with_coef m x y c)) c')) in
    (s', let! _ := r in Ok {| l_conductivity := Fin k; l_porosity := Fin n; l_thickness := Fin h; l_recharge := rech c'; l_coef := c' |})).
  { unfold run, realization. rewrite Ew. cbn [bind]. rewrite (as_num_number _ _ Nk), (as_num_number _ _ Nh), (as_num_number _ _ Nn). cbn [bind].
    rewrite (proj2 (number_of _ _) Nn), Em, Ef. cbn [bind]. rewrite Er. cbn [bind]. reflexivity. }
  destruct (capturezone_total fuel x y r np D u tol maxstep (feval conf (set_coef (fmodel (with_coef m x y c)) c')) s U Hnp W) as [N|(s' & Ec & W')].
  - left. rewrite E. change (@nZ xr XR 1) with (Fin 1). destruct (compute_capturezone _ _ _ _ _ _ _ _ _ _ _ _) as [s' [?|?|]]; cbn in N; try discriminate N. reflexivity.
  - right. rewrite E. change (@nZ xr XR 1) with (Fin 1). rewrite Ec. cbn [bind]. eauto.
Qed.

(** ** Parameters *)
Lemma between l x a b : In a (map Fin l) -> xr_le a x -> In b (map Fin l) -> xr_le x b -> exists r, x = Fin r /\ exists p, In p l /\ p <= r.
Proof.
  intros Ha La Hb Lb. apply in_map_iff in Ha. destruct Ha as (p & <- & Hp). apply in_map_iff in Hb. destruct Hb as (q & <- & Hq).
  destruct x as [r| | |]; cbn in La, Lb; try contradiction. exists r. eauto.
Qed.
Lemma mean_R v q lb ub : distribution v lb ub -> proper v q ->
  exists w x, compute_variate_mean v = Ok w /\ number w (Fin x) /\ exists p, In p q /\ p <= x.
Proof.
  intros D [E NL]. apply c55_exactly in D.
  destruct (c56_mean_partial v (map Fin q) lb ub D NL E) as (w & m & Ew & Nw & _ & _ & (a & Ha & La) & (b & Hb & Lb)).
  { intros [C _]. apply in_map_iff in C. destruct C as (? & C & _). discriminate C. }
  destruct (between q m a b Ha La Hb Lb) as (r & -> & P). eauto.
Qed.
Lemma sample_R {G} (Rg : rng xr G) g v q lb ub : documented_finite Rg -> distribution v lb ub -> proper v q -> spread q ->
  exists w x g', generate_random_variate Rg g v = Ok (w, g') /\ number w (Fin x) /\ exists p, In p q /\ p <= x.
Proof.
  intros DR D [E NL] S. apply c55_exactly in D.
  destruct (proj2 (c58_exactly_partial G Rg g v (map Fin q) lb ub D E)) as (w & x & g' & Ew & Nw).
  - split; [exact NL|].
    assert (L : List.length (map Fin q) = 1%nat \/ List.length (map Fin q) = 2%nat \/ List.length (map Fin q) = 3%nat) by (destruct E; cbn; auto).
    destruct q as [|a [|b [|c [|? ?]]]]; cbn in *; try lia; try exact I; [eexists; eexists; split; reflexivity|].
    intros K. injection K as K. contradiction.
  - destruct (c57_within_finite G Rg g g' v w q lb ub DR D NL E Ew) as (x' & Nx & _ & _ & P & _). exists w, x', g'. auto.
Qed.

Lemma accepted_discharge a c w : acceptable a -> reads a c -> In w (k_wells c) -> distribution (sq w) NInf PInf.
Proof.
  intros [(_ & _ & (vs & Ev & Ok & _) & _) _] (_ & _ & _ & _ & _ & (l & El & F) & _) Hw.
  rewrite Ev in El. injection El as <-. clear Ev.
  induction F as [|v w' vs ws Rw F IH]; [destruct Hw|]. inversion Ok as [|? ? O1 O2]; subst.
  destruct Hw as [->|Hw]; [|apply IH; assumption].
  destruct O1 as (x & y & r & q & S & _ & _ & _ & D). destruct Rw as (x' & y' & r' & S' & _).
  destruct S as [->| ->], S' as [S'|S']; try discriminate S'; injection S' as _ _ _ <-; exact D.
Qed.

Lemma places_of a c l kept : well_posed a c l kept -> exists ps, places (k_wells c) ps.
Proof.
  intros H. assert (K : forall ws, (forall w, In w ws -> In w (k_wells c)) -> exists ps, places ws ps).
  { induction ws as [|w ws IH]; intros I; [exists []; constructor|].
    destruct IH as (ps & P); [intros v Hv; apply I; right; exact Hv|].
    destruct (wp_wells _ _ _ _ H w) as ((x & Ex) & (y & Ey) & (r & Er) & _); [apply I; left; reflexivity|].
    exists ((x, y, r) :: ps). constructor; auto. }
  apply K. auto.
Qed.

Definition entry_list (v : pyval xr) : list (pyval xr) := match v with PTuple l | PList l => l | v => [v] end.
Lemma entries_list v l : entries v l -> Forall2 number (entry_list v) l.
Proof.
  intros H. destruct H as [v x H|f a b [->| ->] x y A B|f a b c [->| ->] x y z A B C]; cbn; auto using Forall2_cons, Forall2_nil.
  destruct H; repeat constructor.
Qed.
Lemma entries_fun v l k : entries v l -> entries v k -> l = k.
Proof.
  intros H K. apply entries_list in H. apply entries_list in K. revert k K.
  induction H as [|v' x vs l N F IH]; intros k K; inversion K; subst; [reflexivity|]. f_equal; [eapply number_fun; eassumption|apply IH; assumption].
Qed.
Lemma proper_fun v l k : proper v l -> proper v k -> l = k.
Proof.
  intros [H _] [K _]. pose proof (entries_fun _ _ _ H K) as E. clear - E. revert k E.
  induction l; intros [|b k] E; try discriminate E; [reflexivity|]. injection E as -> E. f_equal. auto.
Qed.

(** ** The drivers *)
Lemma positive_num v x : positive v -> number v x -> xr_pos x.
Proof. intros (y & N & P) M. destruct N; inversion M; subst; exact P. Qed.
Lemma integer_fun v x y : integer v x -> integer v y -> x = y.
Proof. intros H K. destruct H; inversion K; reflexivity. Qed.

Lemma posed_facts a c l kept : acceptable a -> reads a c -> well_posed a c l kept ->
  exists ps w x y r b bf sp u, places (k_wells c) ps /\ nth_error (k_wells c) (Z.to_nat (k_target c)) = Some w /\
    sx w = Fin x /\ sy w = Fin y /\ sr w = Fin r /\ k_base c = Fin b /\ (forall o, In o l -> b < oz o /\ 0 < os o) /\
    0 < bf /\ k_buffer c = Fin bf /\ filter_obs (map fobs l) (map (fun p : R * R * R => floc (fst p)) ps) (Fin bf) = Ok (map fobs kept) /\
    0 < sp /\ k_spacing c = Fin sp /\ 0 < u /\ k_umbra c = Fin u /\ (0 < k_npaths c)%Z.
Proof.
  intros Ha Hc H. destruct (places_of a c l kept H) as (ps & P). destruct (c66_target a c (proj2 (c64_accepts a) Ha) Hc) as (w & Hw).
  destruct (wp_wells _ _ _ _ H w (nth_error_In _ _ Hw)) as ((x & Ex) & (y & Ey) & (r & Er) & _).
  destruct (wp_base _ _ _ _ H) as (b & Eb & Hl). destruct (wp_buffer _ _ _ _ H) as (bf & Ebf). destruct (wp_spacing _ _ _ _ H) as (sp & Esp).
  destruct (wp_umbra _ _ _ _ H) as (u & Eu).
  destruct Ha as [(_ & _ & _ & (np & Inp & Lnp) & _) (Pb & Ps & Pu & _)].
  destruct Hc as (_ & Rnp & _ & _ & _ & _ & _ & Rb & Rs & Ru & _).
  rewrite Ebf in Rb. rewrite Esp in Rs. rewrite Eu in Ru.
  pose proof (positive_num _ _ Pb Rb) as Qb. pose proof (positive_num _ _ Ps Rs) as Qs. pose proof (positive_num _ _ Pu Ru) as Qu.
  exists ps, w, x, y, r, b, bf, sp, u. repeat (split; [first [assumption|exact (proj1 (Hl _ H0))|idtac]|]); auto.
  - pose proof (wp_kept _ _ _ _ H) as K. unfold retained in K. rewrite (wp_obs _ _ _ _ H), Ebf in K. rewrite <- K. f_equal.
    clear -P. induction P as [|v [[px py] pr] vs ps (E1 & E2 & E3) P IH]; [reflexivity|]. cbn. rewrite IH, E1, E2. reflexivity.
  - rewrite (integer_fun _ _ _ Rnp Inp). exact Lnp.
Qed.

Lemma means_R a c l kept : acceptable a -> reads a c -> well_posed a c l kept ->
  exists vs qs, map_res (fun w => compute_variate_mean (sq w)) (k_wells c) = Ok vs /\ numbers vs qs /\ List.length (k_wells c) = List.length vs.
Proof.
  intros Ha Hc H. assert (K : forall ws, (forall w, In w ws -> In w (k_wells c)) ->
    exists vs qs, map_res (fun w => compute_variate_mean (sq w)) ws = Ok vs /\ numbers vs qs /\ List.length ws = List.length vs).
  { induction ws as [|w ws IH]; intros I; [exists [], []; repeat split; constructor|].
    destruct IH as (vs & qs & E & Nq & L); [intros v Hv; apply I; right; exact Hv|].
    assert (Iw : In w (k_wells c)) by (apply I; left; reflexivity).
    destruct (wp_wells _ _ _ _ H w Iw) as (_ & _ & _ & (q & Pq)).
    destruct (mean_R _ _ _ _ (accepted_discharge a c w Ha Hc Iw) Pq) as (v & x & Ev & Nv & _).
    exists (v :: vs), (x :: qs). cbn [map_res]. rewrite Ev. cbn [bind]. rewrite E. cbn [bind]. repeat split; [constructor; assumption|cbn; lia]. }
  apply K. auto.
Qed.

Lemma deterministic_total fuel la a c l kept : linalg_contract la -> acceptable a -> reads a c -> well_posed a c l kept ->
  call_deterministic fuel la a c (map fobs kept) = NoFuel \/ exists s lg, call_deterministic fuel la a c (map fobs kept) = Ok (s, lg).
Proof.
  intros Hla Ha Hc H.
  destruct (posed_facts a c l kept Ha Hc H) as (ps & w & x & y & r & b & bf & sp & u & P & Hw & Ex & Ey & Er & Eb & Hl & Hbf & Ebf & F & Hsp & Esp & Hu & Eu & Hnp).
  destruct (means_R a c l kept Ha Hc H) as (vs & qs & Ev & Nq & L).
  pose proof Ha as [(_ & _ & _ & _ & _ & _ & Dc & Dp & Dt & _) _].
  destruct (wp_conductivity _ _ _ _ H) as (qc & Pc & Hqc). destruct (wp_porosity _ _ _ _ H) as (qp & Pp). destruct (wp_thickness _ _ _ _ H) as (qt & Pt & Hqt).
  destruct (mean_R _ _ _ _ Dc Pc) as (kv & k & Ek & Nk & (p1 & I1 & L1)). destruct (mean_R _ _ _ _ Dp Pp) as (nv & n & En & Nn & _).
  destruct (mean_R _ _ _ _ Dt Pt) as (hv & h & Eh & Nh & (p2 & I2 & L2)). apply Hqc in I1. apply Hqt in I2.
  unfold call_deterministic, create_deterministic. rewrite Hw, Esp, Ex, Ey, Er, Eb, Eu.
  destruct (c01_constructor_centred sp sp x y Hsp Hsp) as (s0 & E0 & W0 & _). rewrite E0. cbn [bind]. rewrite Ev, Ek, En, Eh. cbn [bind].
  destruct (realization_total fuel la s0 x y r (k_npaths c) (k_duration c) b kv nv hv k n h (k_wells c) ps vs qs l bf kept u (k_confined c) (k_tol c) (k_maxstep c)
    (fun ev _ => ev) recharge_deterministic Hla W0 ltac:(lra) Hnp Nk Nn Nh ltac:(lra) ltac:(lra) P Nq L Hbf Hl F (wp_free _ _ _ _ H) (fun _ _ h6 => h6)) as [N|(s' & lg & E & _)].
  - left. destruct (realization _ _ _ _ _ _ _ _ _ _ _ _ _ _ _ _ _ _ _ _ _) as [s' [?|?|]]; cbn in N; try discriminate N. reflexivity.
  - right. rewrite E. cbn [bind]. eauto.
Qed.

Lemma samples_R {G} (Rg : rng xr G) a c l kept : documented_finite Rg -> acceptable a -> reads a c -> well_posed a c l kept -> (1 < k_n c)%Z -> forall g,
  exists vs qs g', sample_all Rg g (map sq (k_wells c)) = Ok (vs, g') /\ numbers vs qs /\ List.length (k_wells c) = List.length vs.
Proof.
  intros DR Ha Hc H Hn. assert (K : forall ws, (forall w, In w ws -> In w (k_wells c)) -> forall g,
    exists vs qs g', sample_all Rg g (map sq ws) = Ok (vs, g') /\ numbers vs qs /\ List.length ws = List.length vs).
  { induction ws as [|w ws IH]; intros I g; [exists [], [], g; repeat split; constructor|].
    assert (Iw : In w (k_wells c)) by (apply I; left; reflexivity).
    destruct (wp_wells _ _ _ _ H w Iw) as (_ & _ & _ & (q & Pq)).
    destruct (sample_R Rg g _ _ _ _ DR (accepted_discharge a c w Ha Hc Iw) Pq) as (v & x & g1 & Ev & Nv & _).
    { apply (wp_spread _ _ _ _ H Hn (sq w)); [do 3 right; apply in_map; exact Iw|exact Pq]. }
    destruct (IH (fun v Hv => I v (or_intror Hv)) g1) as (vs & qs & g2 & E & Nq & L).
    exists (v :: vs), (x :: qs), g2. cbn [map sample_all]. rewrite Ev. cbn [bind]. rewrite E. cbn [bind]. repeat split; [constructor; assumption|cbn; lia]. }
  apply K. auto.
Qed.

Lemma stochastic_total {G E} (Rg : rng xr G) (mvn : E -> list xr -> list (list xr) -> list xr) fuel la entropy g a c l kept :
  documented_finite Rg -> (forall e ev C, List.length ev = 6%nat -> List.length (mvn e ev C) = 6%nat) ->
  linalg_contract la -> acceptable a -> reads a c -> well_posed a c l kept -> (1 < k_n c)%Z ->
  call_stochastic Rg mvn fuel la entropy g a c (map fobs kept) = NoFuel \/ exists s lg, call_stochastic Rg mvn fuel la entropy g a c (map fobs kept) = Ok (s, lg).
Proof.
  intros DR Hm Hla Ha Hc H Hn.
  destruct (posed_facts a c l kept Ha Hc H) as (ps & w & x & y & r & b & bf & sp & u & P & Hw & Ex & Ey & Er & Eb & Hl & Hbf & Ebf & F & Hsp & Esp & Hu & Eu & Hnp).
  pose proof Ha as [(_ & _ & _ & _ & _ & _ & Dc & Dp & Dt & _) _].
  destruct (wp_conductivity _ _ _ _ H) as (qc & Pc & Hqc). destruct (wp_porosity _ _ _ _ H) as (qp & Pp). destruct (wp_thickness _ _ _ _ H) as (qt & Pt & Hqt).
  pose proof (wp_spread _ _ _ _ H Hn) as Sp.
  unfold call_stochastic, create_stochastic. rewrite Hw, Esp, Ex, Ey, Er, Eb, Eu.
  destruct (c01_constructor_centred sp sp x y Hsp Hsp) as (s0 & E0 & W0 & _). rewrite E0. cbn [bind]. clear E0.
  generalize (Z.to_nat (k_n c)) as count, 0%nat as i, (@nil (run_log xr)) as logs. intros count. revert g s0 W0.
  induction count as [|count IH]; intros g s0 W0 i logs; [right; cbn; eauto|]. cbn [realizations].
  destruct (samples_R Rg a c l kept DR Ha Hc H Hn g) as (vs & qs & g1 & Ev & Nq & L). rewrite Ev. cbn [bind].
  destruct (sample_R Rg g1 _ _ _ _ DR Dc Pc (Sp _ _ (or_introl eq_refl) Pc)) as (kv & k & g2 & Ek & Nk & (p1 & I1 & L1)).
  destruct (sample_R Rg g2 _ _ _ _ DR Dp Pp (Sp _ _ (or_intror (or_introl eq_refl)) Pp)) as (nv & n & g3 & En & Nn & _).
  destruct (sample_R Rg g3 _ _ _ _ DR Dt Pt (Sp _ _ (or_intror (or_intror (or_introl eq_refl))) Pt)) as (hv & h & g4 & Eh & Nh & (p2 & I2 & L2)).
  apply Hqc in I1. apply Hqt in I2. rewrite Ek. cbn [bind]. rewrite En. cbn [bind]. rewrite Eh. cbn [bind].
  destruct (realization_total fuel la s0 x y r (k_npaths c) (k_duration c) b kv nv hv k n h (k_wells c) ps vs qs l bf kept u (k_confined c) (k_tol c) (k_maxstep c)
    (mvn (entropy i)) recharge_stochastic Hla W0 ltac:(lra) Hnp Nk Nn Nh ltac:(lra) ltac:(lra) P Nq L Hbf Hl F (wp_free _ _ _ _ H) (Hm (entropy i))) as [N|(s' & lg & Er' & W')].
  - left. destruct (realization _ _ _ _ _ _ _ _ _ _ _ _ _ _ _ _ _ _ _ _ _) as [s' [?|?|]]; cbn in N; try discriminate N. reflexivity.
  - rewrite Er'. cbn [bind]. apply IH. exact W'.
Qed.

(** ** The whole run *)

(** A well-posed run raises no exception: it returns, or a loop does not end. *)
Lemma c82_no_exception : forall (G E : Type) (Rg : rng xr G) (mvn : E -> list xr -> list (list xr) -> list xr) (dump : run_args (pyobj xr) -> res unit)
    (fuel : nat) (la : linalg xr) (entropy : nat -> E) (g : G) (a : args xr) (c : call) (l kept : list (obs R)),
  acceptable a -> reads a c -> well_posed a c l kept ->
  linalg_contract la -> documented_finite Rg -> (forall e ev C, List.length ev = 6%nat -> List.length (mvn e ev C) = 6%nat) -> (forall r, dump r = Ok tt) ->
  snd (oneka Rg mvn dump fuel la entropy g a) = Ok RNone \/ snd (oneka Rg mvn dump fuel la entropy g a) = NoFuel.
Proof.
  intros G E Rg mvn dump fuel la entropy g a c l kept Ha Hc H Hla DR Hm Hd.
  pose proof (wp_kept _ _ _ _ H) as K. pose proof (wp_seven _ _ _ _ H) as L7. destruct (wp_spacing _ _ _ _ H) as (sp & Esp).
  assert (Fp : finite_places c).
  { intros w Hw. destruct (wp_wells _ _ _ _ H w Hw) as ((x & Ex) & (y & Ey) & _). split; left; eauto. }
  destruct (summary_finite kept) as (st & S); [intros ->; cbn in L7; lia|].
  assert (NF : forall r, (1 < k_n c)%Z /\ call_stochastic Rg mvn fuel la entropy g a c (map fobs kept) = NoFuel \/ (k_n c <= 1)%Z /\ call_deterministic fuel la a c (map fobs kept) = NoFuel ->
    snd (oneka Rg mvn dump fuel la entropy g a) = r \/ snd (oneka Rg mvn dump fuel la entropy g a) = NoFuel).
  { intros r Hx. right. rewrite (oneka_values Rg mvn dump fuel la entropy g a c Ha Hc). unfold retained in K. rewrite K. cbn [stop].
    rewrite (proj2 (more_than_six (map fobs kept))) by (rewrite map_length; exact L7). cbn [stop]. rewrite S. cbn [stop].
    destruct Hx as [[Hn Hx]|[Hn Hx]], (Z.gtb_spec (k_n c) 1); try lia; rewrite Hx; reflexivity. }
  destruct (Z_lt_le_dec 1 (k_n c)) as [Hn|Hn].
  - destruct (stochastic_total Rg mvn fuel la entropy g a c l kept DR Hm Hla Ha Hc H Hn) as [N|(s & lg & D)]; [apply NF; auto|].
    left. destruct (c80_stochastic G E Rg mvn dump fuel la entropy g a c kept sp s lg Ha Hc Fp Esp Hn K L7 D (Hd _))
      as (? & ? & ? & ? & ? & ? & ? & ? & _ & _ & _ & _ & _ & ->). reflexivity.
  - destruct (deterministic_total fuel la a c l kept Hla Ha Hc H) as [N|(s & lg & D)]; [apply NF; auto|].
    left. destruct (c80_deterministic fuel la a c kept sp s lg Ha Hc Fp Esp Hn K L7 D) as (? & ? & _ & X). rewrite X by apply Hd. reflexivity.
Qed.
