(** * The order in which the wells are listed does not matter (C116) *)
From Coq Require Import Reals Lra Lia List ZArith Permutation FunctionalExtensionality.
From Verif Require Import Py Num NumXR ModelField ModelAquifer ModelTrace ModelObs ModelDist ModelDriver ModelMain ModelArchive SpecAquifer SpecDist SpecMain ProofMain SpecOrder.
Import ListNotations.
Local Open Scope R_scope.

Lemma xadd_comm x y : xadd x y = xadd y x.
Proof. destruct x, y; cbn; try reflexivity. f_equal. lra. Qed.
Lemma xadd_swap x y z : xadd (xadd x y) z = xadd (xadd x z) y.
Proof. destruct x, y, z; cbn; try reflexivity. f_equal. lra. Qed.

Lemma fold_perm (A B : Type) (f : A -> B -> A) : (forall a x y, f (f a x) y = f (f a y) x) ->
  forall l l', Permutation l l' -> forall a, fold_left f l a = fold_left f l' a.
Proof.
  intros C l l' P. induction P as [|x l l' P IH|x y l|l1 l2 l3 P1 IH1 P2 IH2]; intros a; cbn [fold_left].
  - reflexivity.
  - apply IH.
  - rewrite C. reflexivity.
  - rewrite IH1. apply IH2.
Qed.

(** ** Models that differ in the order of their wells *)
Definition alike (m m' : model xr) : Prop :=
  Permutation (wells m) (wells m') /\ base m' = base m /\ conductivity m' = conductivity m /\ porosity m' = porosity m /\ thickness m' = thickness m /\
  xo m' = xo m /\ yo m' = yo m /\ coef m' = coef m.

Lemma al_potential_wells ws ws' x y : Permutation ws ws' -> potential_wells ws x y = potential_wells (N := XR) ws' x y.
Proof. intros P. unfold potential_wells. apply fold_perm; [|exact P]. intros a w w'. apply xadd_swap. Qed.
Lemma al_discharge m m' x y : alike m m' -> compute_discharge m' x y = compute_discharge m x y.
Proof.
  intros (P & _ & _ & _ & _ & X & Y & C). unfold compute_discharge. rewrite X, Y, C. symmetry. apply fold_perm; [|exact P].
  intros [a b] w w'. cbn [fst snd]. f_equal; apply xadd_swap.
Qed.
Lemma al_potential m m' x y : alike m m' -> compute_potential m' x y = compute_potential m x y.
Proof. intros (P & _ & _ & _ & _ & X & Y & C). unfold compute_potential. rewrite X, Y, C, (al_potential_wells _ _ _ _ P). reflexivity. Qed.
Lemma al_feval m m' b : alike m m' -> feval b m' = feval b m.
Proof.
  intros A. apply functional_extensionality. intros xy. unfold feval, compute_velocity, compute_velocity_confined, compute_head.
  rewrite !(al_discharge _ _ _ _ A), !(al_potential _ _ _ _ A). destruct A as (_ & _ & K & N & H & _). rewrite K, N, H. reflexivity.
Qed.
Lemma al_fit_row m m' x0 y0 o : alike m m' -> fit_row m' x0 y0 o = fit_row m x0 y0 o.
Proof.
  intros (P & B & K & N & H & X & Y & C). unfold fit_row, obs_potential. rewrite B, K, H, <- (al_potential_wells _ _ _ _ P).
  destruct (wells m) as [|w l], (wells m') as [|w' l'];
    [reflexivity|apply Permutation_nil in P; discriminate|symmetry in P; apply Permutation_nil in P; discriminate|reflexivity].
Qed.
Lemma al_fit la m m' os x0 y0 : alike m m' ->
  snd (fit_regional_flow la m' os x0 y0) = snd (fit_regional_flow la m os x0 y0) /\ alike (fst (fit_regional_flow la m os x0 y0)) (fst (fit_regional_flow la m' os x0 y0)).
Proof.
  intros A. unfold fit_regional_flow, construct_fit.
  replace (map_res (fit_row m' x0 y0) os) with (map_res (fit_row m x0 y0) os)
    by (f_equal; apply functional_extensionality; intros o; symmetry; apply al_fit_row, A).
  destruct (let! (_, _) := _ in _) as [[ev cov]|e|]; [|split; [reflexivity|exact A]..].
  destruct A as (P & B & K & N & H & X & Y & C).
  destruct (reshape6 ev); (split; [reflexivity|repeat split; assumption]).
Qed.

Lemma al_make (l l' : list (swell xr * pyval xr)) : Permutation l l' ->
  match make_wells (map fst l) (map snd l), make_wells (map fst l') (map snd l') with
  | Ok ws, Ok ws' => Permutation ws ws'
  | Raise e, Raise e' => e = e'
  | _, _ => False
  end.
Proof.
  assert (T : forall q : pyval xr, (exists x, as_num q = Ok x) \/ as_num q = Raise TypeError) by (intros q; unfold as_num; destruct (num_of q); eauto).
  assert (M : forall p : list (swell xr * pyval xr), (exists ws, make_wells (map fst p) (map snd p) = Ok ws) \/ make_wells (map fst p) (map snd p) = Raise TypeError).
  { induction p as [|[w q] p IH]; [left; eexists; reflexivity|]. cbn [map make_wells fst snd].
    destruct (T q) as [(x & ->)|E]; [|right; rewrite E; reflexivity]. cbn [bind]. destruct IH as [(ws & ->)|E]; [left; eexists; reflexivity|right; rewrite E; reflexivity]. }
  intros P. induction P as [|[w q] l l' P IH|[w q] [w' q'] l|l1 l2 l3 P1 IH1 P2 IH2]; cbn [map make_wells fst snd].
  - constructor.
  - destruct (T q) as [(x & ->)|E]; [|rewrite E; cbn [bind]; reflexivity]. cbn [bind].
    destruct (make_wells (map fst l) (map snd l)) as [ws|e|], (make_wells (map fst l') (map snd l')) as [ws'|e'|]; try contradiction; cbn [bind]; [constructor; exact IH|exact IH].
  - destruct (T q) as [(x & ->)|E], (T q') as [(x' & ->)|E']; try rewrite E; try rewrite E'; cbn [bind]; try reflexivity.
    destruct (M l) as [(ws & ->)| ->]; cbn [bind]; [apply perm_swap|reflexivity].
  - destruct (make_wells (map fst l1) (map snd l1)) as [w1|e1|], (make_wells (map fst l2) (map snd l2)) as [w2|e2|], (make_wells (map fst l3) (map snd l3)) as [w3|e3|]; try contradiction.
    + eapply Permutation_trans; eassumption.
    + congruence.
Qed.

(** One realization: the wells with their discharges in another order. *)
Lemma c116_realization : forall (fuel : nat) (la : linalg xr) (s : pfield xr) (xt yt rt : xr) (np : Z) (dur b : xr) (kv nv hv : pyval xr)
    (l l' : list (swell xr * pyval xr)) (os : list (obs xr)) (u : xr) (cf : bool) (tl ms : xr) (pick : list xr -> list (list xr) -> list xr) (recharge : coef6 xr -> xr),
  Permutation l l' ->
  realization fuel la s xt yt rt np dur b kv nv hv (map fst l') (map snd l') os u cf tl ms pick recharge =
  realization fuel la s xt yt rt np dur b kv nv hv (map fst l) (map snd l) os u cf tl ms pick recharge.
Proof.
  intros fuel la s xt yt rt np dur b kv nv hv l l' os u cf tl ms pick recharge P. unfold realization. pose proof (al_make _ _ P) as M.
  destruct (make_wells (map fst l) (map snd l)) as [ws|e|], (make_wells (map fst l') (map snd l')) as [ws'|e'|]; try contradiction; cbn [bind]; [|subst e'; reflexivity].
  destruct (as_num kv) as [k|e|]; try reflexivity. destruct (as_num hv) as [h|e|]; try reflexivity. cbn [bind].
  set (p := match num_of nv with Some p => p | None => nnan end).
  assert (A : alike (new_model b k p h ws) (new_model b k p h ws')) by (repeat split; exact M).
  destruct (al_fit la _ _ os xt yt A) as (F1 & F2).
  destruct (fit_regional_flow la (new_model b k p h ws) os xt yt) as [m1 r1], (fit_regional_flow la (new_model b k p h ws') os xt yt) as [m2 r2].
  cbn [fst snd] in F1, F2. subst r2. destruct r1 as [[ev cov]|e|]; try reflexivity. cbn [bind].
  destruct (reshape6 (pick ev cov)) as [c|e|]; try reflexivity. cbn [bind]. destruct (as_num nv) as [n|e|]; try reflexivity. cbn [bind].
  destruct F2 as (Q1 & Q2 & Q3 & Q4 & Q5 & Q6 & Q7 & Q8).
  rewrite (al_feval (set_coef m1 c) (set_coef m2 c)) by (repeat split; assumption).
  destruct (compute_capturezone _ _ _ _ _ _ _ _ _ _ _ _) as [s' r]. cbn [set_coef conductivity porosity thickness coef]. rewrite Q3, Q4, Q5. reflexivity.
Qed.

(** C116.  A deterministic run returns the same field and the same log, or does not return in either order. *)
Lemma means_perm (ws ws' : list (swell xr)) qs : Permutation ws ws' -> map_res (fun w => compute_variate_mean (sq w)) ws = Ok qs ->
  exists l l', Permutation l l' /\ map fst l = ws /\ map snd l = qs /\ map fst l' = ws' /\ map_res (fun w => compute_variate_mean (sq w)) ws' = Ok (map snd l').
Proof.
  intros P H. assert (forall w, In w ws -> exists q, compute_variate_mean (sq w) = Ok q) as D.
  { clear P. revert qs H. induction ws as [|w ws IH]; intros qs H u I; [contradiction|]. cbn [map_res] in H.
    destruct (compute_variate_mean (sq w)) as [q|e|] eqn:E; try discriminate. cbn [bind] in H. destruct (map_res _ ws) as [qs'|e|]; try discriminate.
    destruct I as [<-|I]; [eauto|exact (IH qs' eq_refl u I)]. }
  set (f := fun w : swell xr => match compute_variate_mean (sq w) with Ok q => q | _ => PNone end).
  assert (Q : forall l, (forall w, In w l -> exists q, compute_variate_mean (sq w) = Ok q) -> map_res (fun w => compute_variate_mean (sq w)) l = Ok (map f l)).
  { induction l as [|w l IH]; intros Hl; [reflexivity|]. cbn [map_res map]. destruct (Hl w (or_introl eq_refl)) as (q & E). unfold f at 1. rewrite E. cbn [bind].
    rewrite IH by (intros; apply Hl; right; assumption). reflexivity. }
  exists (map (fun w => (w, f w)) ws), (map (fun w => (w, f w)) ws'). split; [apply Permutation_map, P|].
  assert (I : forall l, map fst (map (fun w => (w, f w)) l) = l) by (intros l; rewrite map_map; cbn [fst]; apply map_id).
  assert (J : forall l, map snd (map (fun w => (w, f w)) l) = map f l) by (intros l; rewrite map_map; reflexivity).
  rewrite !I, !J. split; [reflexivity|]. split; [rewrite (Q ws D) in H; congruence|]. split; [reflexivity|]. apply Q. intros w Hw. apply D.
  apply (Permutation_in w (Permutation_sym P) Hw).
Qed.

Lemma wells_reordered_sym c c' : wells_reordered c c' -> wells_reordered c' c.
Proof. intros (P & T & H). split; [symmetry; exact P|]. split; [symmetry; exact T|]. repeat split; symmetry; apply H. Qed.

Lemma c116_deterministic : forall (fuel : nat) (la : linalg xr) (a a' : args xr) (c c' : call) (kept : list (obs xr)) (q : pfield xr * run_log xr),
  wells_reordered c c' -> c_dist a' = c_dist a -> p_dist a' = p_dist a -> t_dist a' = t_dist a ->
  call_deterministic fuel la a c kept = Ok q <-> call_deterministic fuel la a' c' kept = Ok q.
Proof.
  assert (D : forall fuel la a a' c c' kept q, wells_reordered c c' -> c_dist a' = c_dist a -> p_dist a' = p_dist a -> t_dist a' = t_dist a ->
    call_deterministic fuel la a c kept = Ok q -> call_deterministic fuel la a' c' kept = Ok q).
  { intros fuel la a a' c c' kept q (P & T & E1 & E2 & E3 & E4 & E5 & E6 & E7 & E8 & E9 & E10 & E11) Dc Dp Dt.
    unfold call_deterministic, create_deterministic. rewrite T, E1, E2, E4, E7, E8, E9, E10, E11, Dc, Dp, Dt.
    destruct (nth_error (k_wells c) (Z.to_nat (k_target c))) as [w|]; [|discriminate].
    destruct (pf_init _ _ _ _) as [s0|e|]; try discriminate. cbn [bind].
    destruct (map_res _ (k_wells c)) as [qs|e|] eqn:M; try discriminate. cbn [bind]. intros H.
    destruct (means_perm _ _ _ P M) as (l & l' & PP & L1 & L2 & L3 & ->). cbn [bind]. rewrite <- L1, <- L2 in H. rewrite <- L3.
    destruct (compute_variate_mean (c_dist a)) as [k|e|]; try discriminate. destruct (compute_variate_mean (p_dist a)) as [n|e|]; try discriminate.
    destruct (compute_variate_mean (t_dist a)) as [h|e|]; try discriminate. cbn [bind] in *.
    rewrite <- H. rewrite (c116_realization fuel la s0 _ _ _ _ _ _ k n h l l' kept _ _ _ _ _ _ PP). reflexivity. }
  intros fuel la a a' c c' kept q W Dc Dp Dt. split; apply D; auto using wells_reordered_sym.
Qed.

(** C116.  A stochastic run: generators that draw the same for each well. *)
Lemma c116_stochastic : forall (G G' E : Type) (Rg : rng xr G) (Rg' : rng xr G') (same : G -> G' -> Prop) (mvn : E -> list xr -> list (list xr) -> list xr)
    (fuel : nat) (la : linalg xr) (entropy : nat -> E) (g : G) (g' : G') (a a' : args xr) (c c' : call) (kept : list (obs xr)),
  wells_reordered c c' -> draw_alike Rg Rg' a a' (k_wells c) (k_wells c') same -> same g g' ->
  call_stochastic Rg' mvn fuel la entropy g' a' c' kept = call_stochastic Rg mvn fuel la entropy g a c kept.
Proof.
  intros G G' E Rg Rg' same mvn fuel la entropy g g' a a' c c' kept (P & T & E1 & E2 & E3 & E4 & E5 & E6 & E7 & E8 & E9 & E10 & E11) D S0.
  unfold call_stochastic, create_stochastic. rewrite T, E1, E2, E3, E4, E7, E8, E9, E10, E11.
  destruct (nth_error (k_wells c) (Z.to_nat (k_target c))) as [w|]; [|reflexivity].
  destruct (pf_init _ _ _ _) as [s0|e|]; try reflexivity. cbn [bind].
  generalize 0%nat, (@nil (run_log xr)). revert g g' S0 s0. induction (Z.to_nat (k_n c)) as [|n IH]; intros g g' S0 s0 i logs; [reflexivity|].
  cbn [realizations]. destruct (D g g' S0) as (l & l' & k & p & h & g4 & g4' & (g1 & g2 & g3 & W & D1 & D2 & D3 & D4) & (g1' & g2' & g3' & W' & D1' & D2' & D3' & D4') & PP & S1).
  rewrite D1, D1'. cbn [bind]. rewrite D2, D2'. cbn [bind]. rewrite D3, D3'. cbn [bind]. rewrite D4, D4'. cbn [bind].
  rewrite <- W, <- W' at 1. rewrite (c116_realization fuel la s0 _ _ _ _ _ _ k p h l l' kept _ _ _ _ _ _ PP). rewrite W.
  destruct (realization _ _ _ _ _ _ _ _ _ _ _ _ _ _ _ _ _ _ _ _ _) as [s' [lg|e|]]; try reflexivity. cbn [bind]. apply IH, S1.
Qed.

(** C116.  In particular: wells with known discharges, any generator. *)
Lemma c116_constant : forall (G E : Type) (Rg : rng xr G) (mvn : E -> list xr -> list (list xr) -> list xr)
    (fuel : nat) (la : linalg xr) (entropy : nat -> E) (g : G) (a a' : args xr) (c c' : call) (kept : list (obs xr)),
  wells_reordered c c' -> c_dist a' = c_dist a -> p_dist a' = p_dist a -> t_dist a' = t_dist a ->
  (forall w, In w (k_wells c) -> exists x, number (sq w) x) ->
  call_stochastic Rg mvn fuel la entropy g a' c' kept = call_stochastic Rg mvn fuel la entropy g a c kept.
Proof.
  intros G E Rg mvn fuel la entropy g a a' c c' kept (P & T & E1 & E2 & E3 & E4 & E5 & E6 & E7 & E8 & E9 & E10 & E11) Dc Dp Dt N.
  assert (C : forall ws, (forall w, In w ws -> exists x, number (sq w) x) -> forall g, sample_all Rg g (map sq ws) = Ok (map sq ws, g)).
  { induction ws as [|w ws IH]; intros H g0; [reflexivity|]. cbn [map sample_all]. destruct (H w (or_introl eq_refl)) as (x & Hx).
    assert (generate_random_variate Rg g0 (sq w) = Ok (sq w, g0)) as -> by (destruct Hx; reflexivity). cbn [bind].
    rewrite IH by (intros; apply H; right; assumption). reflexivity. }
  unfold call_stochastic, create_stochastic. rewrite T, E1, E2, E3, E4, E7, E8, E9, E10, E11, Dc, Dp, Dt.
  destruct (nth_error (k_wells c) (Z.to_nat (k_target c))) as [w|]; [|reflexivity].
  destruct (pf_init _ _ _ _) as [s0|e|]; try reflexivity. cbn [bind].
  generalize 0%nat, (@nil (run_log xr)). revert g s0. induction (Z.to_nat (k_n c)) as [|n IH]; intros g s0 i logs; [reflexivity|].
  cbn [realizations]. rewrite (C (k_wells c) N), (C (k_wells c')) by (intros u Hu; apply N, (Permutation_in u (Permutation_sym P) Hu)). cbn [bind].
  destruct (generate_random_variate Rg g (c_dist a)) as [[k g2]|e|]; try reflexivity. cbn [bind].
  destruct (generate_random_variate Rg g2 (p_dist a)) as [[p g3]|e|]; try reflexivity. cbn [bind].
  destruct (generate_random_variate Rg g3 (t_dist a)) as [[h g4]|e|]; try reflexivity. cbn [bind].
  pose proof (c116_realization fuel la s0 (sx w) (sy w) (sr w) (k_npaths c) (k_duration c) (k_base c) k p h (map (fun w => (w, sq w)) (k_wells c)) (map (fun w => (w, sq w)) (k_wells c'))
    kept (k_umbra c) (k_confined c) (k_tol c) (k_maxstep c) (mvn (entropy i)) recharge_stochastic (Permutation_map _ P)) as R.
  rewrite !map_map in R. cbn [fst snd] in R. rewrite !map_id in R. change (fun x : swell xr => sq x) with (@sq xr) in R. rewrite R. clear R.
  destruct (realization _ _ _ _ _ _ _ _ _ _ _ _ _ _ _ _ _ _ _ _ _) as [s' [lg|e|]]; try reflexivity. cbn [bind]. apply IH.
Qed.

(** Filtering the observations. *)
Lemma c116_filter : forall (l : list (obs xr)) (ws ws' : list (xr * xr)) (buffer : xr), Permutation ws ws' -> filter_obs l ws' buffer = filter_obs l ws buffer.
Proof.
  intros l ws ws' b P. unfold filter_obs. replace (filter (far_from_wells ws' b) l) with (filter (far_from_wells ws b) l); [reflexivity|].
  apply filter_ext. intros o. unfold far_from_wells. induction P as [|x l1 l2 P IH|x y l1|l1 l2 l3 P1 IH1 P2 IH2]; cbn [forallb]; [reflexivity|rewrite IH; reflexivity| |congruence].
  rewrite !andb_assoc. f_equal. apply andb_comm.
Qed.

(** C116.  A whole run that returns (one realization, or wells with known discharges): the same effects and the same outcome; only the archived arguments
    are in the other order. *)
Lemma c116_run : forall (G E : Type) (Rg : rng xr G) (mvn : E -> list xr -> list (list xr) -> list xr) (dump : run_args (pyobj xr) -> res unit)
    (fuel : nat) (la : linalg xr) (entropy : nat -> E) (g : G) (a a' : args xr) (c c' : call) (v : result xr),
  acceptable a -> reads a c -> acceptable a' -> reads a' c' -> wells_reordered c c' ->
  c_dist a' = c_dist a -> p_dist a' = p_dist a -> t_dist a' = t_dist a -> (forall x, dump x = Ok tt) ->
  ((1 < k_n c)%Z -> forall w, In w (k_wells c) -> exists x, number (sq w) x) ->
  snd (oneka Rg mvn dump fuel la entropy g a) = Ok v ->
  snd (oneka Rg mvn dump fuel la entropy g a') = Ok v /\
  Forall2 seen_alike (fst (oneka Rg mvn dump fuel la entropy g a)) (fst (oneka Rg mvn dump fuel la entropy g a')).
Proof.
  intros G E Rg mvn dump fuel la entropy g a a' c c' v A1 R1 A2 R2 W Dc Dp Dt Du N.
  rewrite (oneka_values Rg mvn dump fuel la entropy g a c A1 R1), (oneka_values Rg mvn dump fuel la entropy g a' c' A2 R2).
  pose proof W as (P & T & E1 & E2 & E3 & E4 & E5 & E6 & E7 & E8 & E9 & E10 & E11). rewrite E3, E5, E6, E7.
  rewrite (c116_filter (k_obs c) _ _ (k_buffer c) (Permutation_map (fun w => (sx w, sy w)) P)).
  assert (ST : forall (A : Type) (r : res A) (k k' : A -> outcome xr), (forall x, r = Ok x -> snd (k x) = Ok v -> snd (k' x) = Ok v /\ Forall2 seen_alike (fst (k x)) (fst (k' x))) ->
    snd (ModelMain.stop r k) = Ok v -> snd (ModelMain.stop r k') = Ok v /\ Forall2 seen_alike (fst (ModelMain.stop r k)) (fst (ModelMain.stop r k'))).
  { intros A r k k' H. destruct r; cbn [ModelMain.stop]; [apply H; reflexivity|discriminate..]. }
  assert (EM : forall e (o o' : outcome xr), (snd o = Ok v -> snd o' = Ok v /\ Forall2 seen_alike (fst o) (fst o')) ->
    snd (emit e o) = Ok v -> snd (emit e o') = Ok v /\ Forall2 seen_alike (fst (emit e o)) (fst (emit e o'))).
  { intros e o o' H V. destruct (H V) as (H1 & H2). split; [exact H1|]. constructor; [constructor|exact H2]. }
  assert (FI : forall s, snd (ModelMain.finish dump a s) = Ok v -> snd (ModelMain.finish dump a' s) = Ok v /\ Forall2 seen_alike (fst (ModelMain.finish dump a s)) (fst (ModelMain.finish dump a' s))).
  { intros s. unfold ModelMain.finish. rewrite !Du. cbn. intros H. split; [exact H|]. repeat constructor. }
  apply EM, ST. intros kept _. apply EM, ST. intros _ _. apply ST. intros st _. apply EM. destruct (Z.gtb_spec (k_n c) 1) as [Hn|Hn].
  - rewrite (c116_constant G E Rg mvn fuel la entropy g a a' c c' kept W Dc Dp Dt (N Hn)). apply ST. intros [s logs] _. apply EM, ST. intros [[X Y] Q] _. apply EM, ST.
    intros [pr area] _. apply EM, ST. intros rows _. apply EM, FI.
  - destruct (call_deterministic fuel la a c kept) as [[s l]|e|] eqn:D; cbn [ModelMain.stop]; [|discriminate..].
    apply (c116_deterministic fuel la a a' c c' kept (s, l) W Dc Dp Dt) in D. rewrite D. cbn [ModelMain.stop]. apply EM, ST. intros area _. apply EM, FI.
Qed.
