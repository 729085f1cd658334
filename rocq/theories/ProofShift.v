(** * Another coordinate system: property C115 *)
From Coq Require Import Reals Lra Lia.
From Verif Require Import Py Num NumXR ModelField ModelAquifer ModelTrace ModelObs ModelPlot ModelDist ModelDriver ModelArchive ModelMain.
From Verif Require Import SpecAquifer SpecTrace SpecDriver SpecDist SpecMain ProofMain SpecField SpecShift.
Import ListNotations.
Local Open Scope R_scope.

(** ** Arithmetic *)
Lemma Rltb_shift a b c : Rltb (a + c) (b + c) = Rltb a b.
Proof. destruct (Rltb_spec (a + c) (b + c)), (Rltb_spec a b); auto; lra. Qed.
Lemma Rleb_shift a b c : Rleb (a + c) (b + c) = Rleb a b.
Proof. destruct (Rleb_spec (a + c) (b + c)), (Rleb_spec a b); auto; lra. Qed.

Lemma mv_add c x y : nadd (moved c x) y = moved c (nadd x y).
Proof. destruct x, y; cbn; auto. f_equal. ring. Qed.
Lemma mv_add' c x y : nadd x (moved c y) = moved c (nadd x y).
Proof. destruct x, y; cbn; auto. f_equal. ring. Qed.
Lemma mv_sub c x y : nsub (moved c x) y = moved c (nsub x y).
Proof. destruct x, y; cbn; auto. f_equal. ring. Qed.
Lemma mv_diff c x y : nsub (moved c x) (moved c y) = nsub x y.
Proof. destruct x, y; cbn; auto. f_equal. ring. Qed.
Lemma mv_le c x y : nle (moved c x) (moved c y) = nle x y.
Proof. destruct x, y; cbn; auto. apply Rleb_shift. Qed.
Lemma mv_lt c x y : nlt (moved c x) (moved c y) = nlt x y.
Proof. destruct x, y; cbn; auto. apply Rltb_shift. Qed.
Lemma mv_nan c x : nisnan (moved c x) = nisnan x.
Proof. destruct x; reflexivity. Qed.
Lemma mv_min c x y : pymin (moved c x) (moved c y) = moved c (pymin x y).
Proof. unfold pymin. rewrite mv_lt. destruct (nlt y x); reflexivity. Qed.
Lemma mv_max c x y : pymax (moved c x) (moved c y) = moved c (pymax x y).
Proof. unfold pymax. rewrite mv_lt. destruct (nlt x y); reflexivity. Qed.
Lemma mv_min_list c l : pymin_list (map (moved c) l) = res_map (moved c) (pymin_list l).
Proof.
  destruct l as [|x l]; [reflexivity|]. cbn. f_equal. revert x. induction l as [|y l IH]; intros x; [reflexivity|]. cbn. rewrite mv_min. apply IH.
Qed.
Lemma mv_max_list c l : pymax_list (map (moved c) l) = res_map (moved c) (pymax_list l).
Proof.
  destruct l as [|x l]; [reflexivity|]. cbn. f_equal. revert x. induction l as [|y l IH]; intros x; [reflexivity|]. cbn. rewrite mv_max. apply IH.
Qed.

(** ** The field *)
Section Field.
  Context (dx dy : R).
  Local Notation mg := (moved_geom dx dy).
  Local Notation mf := (moved_field dx dy).
  Definition both (q : pfield xr * res unit) : pfield xr * res unit := (mf (fst q), snd q).

  Lemma mv_init a b x y : pf_init a b (moved dx x) (moved dy y) = res_map mf (pf_init a b x y).
  Proof.
    unfold pf_init. rewrite !mv_nan. destruct (nle a (nZ 0)); [reflexivity|]. destruct (nle b (nZ 0)); [reflexivity|].
    destruct (nisnan x || nisnan y)%bool; [reflexivity|]. cbn [res_map moved_field deltax deltay body option_map moved_geom nrows ncols xmin xmax ymin ymax pgrid rgrid total_weight].
    rewrite !mv_sub, !mv_add. reflexivity.
  Qed.

  Lemma mv_down c fuel : forall x lo d n, grow_down fuel (moved c x) (moved c lo) d n = res_map (fun p => (moved c (fst p), snd p)) (grow_down fuel x lo d n).
  Proof.
    induction fuel as [|f IH]; intros x lo d n; [reflexivity|]. cbn [grow_down]. rewrite mv_le. destruct (nle x lo); [|reflexivity]. rewrite mv_sub. apply IH.
  Qed.
  Lemma mv_up c fuel : forall x hi d n, grow_up fuel (moved c x) (moved c hi) d n = res_map (fun p => (moved c (fst p), snd p)) (grow_up fuel x hi d n).
  Proof.
    induction fuel as [|f IH]; intros x hi d n; [reflexivity|]. cbn [grow_up]. rewrite mv_le. destruct (nle hi x); [|reflexivity]. rewrite mv_add. apply IH.
  Qed.

  Lemma mv_expand fuel s a b c d : expand fuel (mf s) (moved dx a) (moved dx b) (moved dy c) (moved dy d) = both (expand fuel s a b c d).
  Proof.
    unfold expand, both. rewrite !mv_lt. destruct (nlt b a); [reflexivity|]. destruct (nlt d c); [reflexivity|].
    destruct s as [ex ey [g|]]; cbn [moved_field body option_map deltax deltay].
    - unfold expand_more. cbn [moved_geom nrows ncols xmin xmax ymin ymax pgrid rgrid total_weight]. rewrite !mv_down, !mv_up.
      destruct (grow_down fuel a (xmin g) ex 0) as [[x0 cl]|e|]; cbn [res_map bind fst snd]; try reflexivity.
      destruct (grow_up fuel b (xmax g) ex 0) as [[x1 cr]|e|]; cbn [res_map bind fst snd]; try reflexivity.
      destruct (grow_down fuel c (ymin g) ey 0) as [[y0 rb]|e|]; cbn [res_map bind fst snd]; try reflexivity.
      destruct (grow_up fuel d (ymax g) ey 0) as [[y1 rt]|e|]; cbn [res_map bind fst snd]; try reflexivity.
      destruct (_ || _)%bool; reflexivity.
    - unfold expand_first. rewrite (mv_sub dx a ex), (mv_sub dy c ey), !mv_diff.
      destruct (nceil (ndiv (nsub b (nsub a ex)) ex)) as [cx|e|]; cbn [bind]; try reflexivity.
      destruct (nceil (ndiv (nsub d (nsub c ey)) ey)) as [cy|e|]; cbn [bind]; try reflexivity.
      rewrite !mv_add. reflexivity.
  Qed.

  Lemma mv_dist ax ay bx by_ cx cy :
    distancesquared (moved dx ax) (moved dy ay) (moved dx bx) (moved dy by_) (moved dx cx) (moved dy cy) = distancesquared ax ay bx by_ cx cy.
  Proof. unfold distancesquared. rewrite !mv_diff. reflexivity. Qed.

  Lemma for_in_ext {A B} (f g : A -> B -> res B) (H : forall a b, f a b = g a b) l : forall b, for_in l f b = for_in l g b.
  Proof. induction l as [|a l IH]; intros b; [reflexivity|]. cbn. rewrite H. destruct (g a b); cbn; auto. Qed.

  Lemma mv_insert s ax ay bx by_ u : insert (mf s) (moved dx ax) (moved dy ay) (moved dx bx) (moved dy by_) u = both (insert s ax ay bx by_ u).
  Proof.
    destruct s as [ex ey [g|]]; [|reflexivity]. unfold insert, both. cbn [moved_field body option_map deltax deltay].
    unfold insert_geom. cbn [moved_geom nrows ncols xmin xmax ymin ymax pgrid rgrid total_weight].
    rewrite !mv_min, !mv_max, (mv_sub dx _ u), (mv_sub dy _ u), (mv_add dx _ u), (mv_add dy _ u), !mv_diff.
    destruct (nfloor (ndiv (nsub (nsub (pymin ax bx) u) (xmin g)) ex)) as [fl|e|]; cbn [bind]; try reflexivity.
    destruct (nfloor (ndiv (nsub (nadd (pymax ax bx) u) (xmin g)) ex)) as [fr|e|]; cbn [bind]; try reflexivity.
    destruct (nfloor (ndiv (nsub (nsub (pymin ay by_) u) (ymin g)) ey)) as [fb|e|]; cbn [bind]; try reflexivity.
    destruct (nfloor (ndiv (nsub (nadd (pymax ay by_) u) (ymin g)) ey)) as [ft|e|]; cbn [bind]; try reflexivity.
    assert (C : forall j i rg, insert_cell ex ey (moved dx (xmin g)) (moved dy (ymin g)) (moved dx ax) (moved dy ay) (moved dx bx) (moved dy by_) (nmul u u) j i rg
                             = insert_cell ex ey (xmin g) (ymin g) ax ay bx by_ (nmul u u) j i rg).
    { intros j i rg. unfold insert_cell. destruct (get2 rg i j) as [[]|]; try reflexivity. rewrite !mv_add, mv_dist. reflexivity. }
    rewrite (for_in_ext _ _ (fun j rg => for_in_ext _ _ (fun i rg' => C j i rg') _ rg)).
    match goal with |- context [for_in ?l ?f ?b] => destruct (for_in l f b) as [rg|e|] end; reflexivity.
  Qed.

  Lemma mv_segments u : forall x y s, insert_segments (mf s) (map (moved dx) x) (map (moved dy) y) u = both (insert_segments s x y u).
  Proof.
    induction x as [|x0 x IH]; intros y s; [reflexivity|]. destruct x as [|x1 x]; [destruct y as [|y0 y]; reflexivity|].
    destruct y as [|y0 [|y1 y]]; [reflexivity|reflexivity|]. cbn [map insert_segments]. rewrite mv_insert.
    destruct (insert s x0 y0 x1 y1 u) as [s' [[]|e|]]; cbn [both fst snd]; try reflexivity. apply (IH (y1 :: y) s').
  Qed.

  Lemma mv_rasterize fuel s x y u : rasterize fuel (mf s) (map (moved dx) x) (map (moved dy) y) u = both (rasterize fuel s x y u).
  Proof.
    unfold rasterize. rewrite !mv_min_list, !mv_max_list.
    destruct (pymin_list x) as [a|e|]; cbn [res_map]; try reflexivity. destruct (pymax_list x) as [b|e|]; cbn [res_map]; try reflexivity.
    destruct (pymin_list y) as [c|e|]; cbn [res_map]; try reflexivity. destruct (pymax_list y) as [d|e|]; cbn [res_map]; try reflexivity.
    rewrite mv_expand. destruct (expand fuel s a b c d) as [s' [[]|e|]]; cbn [both fst snd]; try reflexivity. apply mv_segments.
  Qed.

  Lemma mv_register s w : register (mf s) w = both (register s w).
  Proof. destruct s as [ex ey [g|]]; reflexivity. Qed.
End Field.

(** ** Traces *)
Section Trace.
  Context (dx dy : R) (f f' : vec xr -> res (vec xr)).
  Definition mp (p : vec xr) : vec xr := (moved dx (fst p), moved dy (snd p)).
  Hypothesis F : forall p, f' (mp p) = f p.
  Definition mtrace (t : trace xr) : trace xr := {| vertices := map mp (vertices t); t_end := t_end t; completed := completed t |}.

  Lemma mv_vadd p v : vadd (mp p) v = mp (vadd p v).
  Proof. unfold vadd, mp. cbn [fst snd]. rewrite !mv_add. reflexivity. Qed.
  Lemma mv_vsub p q : vsub (mp p) (mp q) = vsub p q.
  Proof. unfold vsub, mp. cbn [fst snd]. rewrite !mv_diff. reflexivity. Qed.

  Lemma mv_step xy dt k1 : dp_step f' (mp xy) dt k1 = res_map (fun q => let '(p, k, e, d) := q in (mp p, k, e, d)) (dp_step f xy dt k1).
  Proof.
    unfold dp_step. cbv zeta. rewrite !mv_vadd, F.
    match goal with |- context [f ?p] => destruct (f p) as [k2|e|]; cbn [bind]; try reflexivity end.
    rewrite !mv_vadd, F. match goal with |- context [f ?p] => destruct (f p) as [k3|e|]; cbn [bind]; try reflexivity end.
    rewrite !mv_vadd, F. match goal with |- context [f ?p] => destruct (f p) as [k4|e|]; cbn [bind]; try reflexivity end.
    rewrite !mv_vadd, F. match goal with |- context [f ?p] => destruct (f p) as [k5|e|]; cbn [bind]; try reflexivity end.
    rewrite !mv_vadd, F. match goal with |- context [f ?p] => destruct (f p) as [k6|e|]; cbn [bind]; try reflexivity end.
    rewrite !mv_vadd, F. match goal with |- context [f ?p] => destruct (f p) as [k7|e|]; cbn [bind]; try reflexivity end.
    rewrite mv_vsub. reflexivity.
  Qed.

  Lemma mv_loop duration tol ms fuel : forall t dt xy k1 acc,
    trace_loop fuel f' duration tol ms t dt (mp xy) k1 (map mp acc) = res_map mtrace (trace_loop fuel f duration tol ms t dt xy k1 acc).
  Proof.
    induction fuel as [|n IH]; intros t dt xy k1 acc; [reflexivity|]. cbn [trace_loop]. destruct (nlt (nabs t) (nabs duration)); [|reflexivity].
    rewrite mv_step. destruct (dp_step f xy _ k1) as [[[[p k] e] d]|e|]; cbn [res_map]; try reflexivity.
    destruct (_ && _)%bool; [|apply IH]. rewrite <- IH, map_app. reflexivity.
  Qed.

  Lemma mv_backtrace fuel x y duration tol ms :
    compute_backtrace fuel (moved dx x) (moved dy y) duration tol ms f' = res_map mtrace (compute_backtrace fuel x y duration tol ms f).
  Proof.
    unfold compute_backtrace. cbv zeta. change (moved dx x, moved dy y) with (mp (x, y)). rewrite F. destruct (f (x, y)) as [k1|e|]; try reflexivity.
    apply (mv_loop duration tol ms fuel _ _ (x, y) k1 [(x, y)]).
  Qed.

  Lemma mv_paths fuel xt yt rt duration u tol ms : forall l s,
    trace_paths fuel (moved_field dx dy s) (moved dx xt) (moved dy yt) rt duration u tol ms f' l = both dx dy (trace_paths fuel s xt yt rt duration u tol ms f l).
  Proof.
    induction l as [|th l IH]; intros s; [reflexivity|]. cbn [trace_paths]. unfold start_point at 1. rewrite !mv_add'. unfold start_point. rewrite mv_backtrace.
    destruct (compute_backtrace _ _ _ _ _ _ f) as [tr|e|]; cbn [res_map]; try reflexivity.
    replace (map fst (vertices (mtrace tr))) with (map (moved dx) (map fst (vertices tr))) by (cbn; rewrite !map_map; reflexivity).
    replace (map snd (vertices (mtrace tr))) with (map (moved dy) (map snd (vertices tr))) by (cbn; rewrite !map_map; reflexivity).
    rewrite mv_rasterize. destruct (rasterize fuel s _ _ u) as [s' [[]|e|]]; cbn [both fst snd]; try reflexivity. apply IH.
  Qed.

  Lemma mv_zone fuel xt yt rt np duration s u w tol ms :
    compute_capturezone fuel (moved dx xt) (moved dy yt) rt np duration (moved_field dx dy s) u w tol ms f' = both dx dy (compute_capturezone fuel xt yt rt np duration s u w tol ms f).
  Proof.
    unfold compute_capturezone. destruct (start_angles np) as [l|e|]; try reflexivity. rewrite mv_paths.
    destruct (trace_paths fuel s xt yt rt duration u tol ms f l) as [s' [[]|e|]]; cbn [both fst snd]; try reflexivity. apply mv_register.
  Qed.
End Trace.

(** ** The aquifer model *)
Section Model.
  Context (dx dy dz : R).
  Definition mwell (w : well xr) : well xr := {| wx := moved dx (wx w); wy := moved dy (wy w); wr := wr w; wq := wq w |}.
  Definition mmodel (m : model xr) : model xr :=
    {| base := moved dz (base m); conductivity := conductivity m; porosity := porosity m; thickness := thickness m;
       wells := map mwell (wells m); xo := moved dx (xo m); yo := moved dy (yo m); coef := coef m |}.

  Lemma mv_wells ws x y : potential_wells (map mwell ws) (moved dx x) (moved dy y) = potential_wells ws x y.
  Proof.
    unfold potential_wells. generalize (nZ 0 : xr). induction ws as [|w ws IH]; intros a; [reflexivity|]. cbn [map fold_left mwell wx wy wq].
    rewrite !mv_diff. apply IH.
  Qed.
  Lemma mv_potential m x y : compute_potential (mmodel m) (moved dx x) (moved dy y) = compute_potential m x y.
  Proof. unfold compute_potential, potential_regional. cbn [mmodel coef xo yo wells]. rewrite !mv_diff, mv_wells. reflexivity. Qed.
  Lemma mv_discharge m x y : compute_discharge (mmodel m) (moved dx x) (moved dy y) = compute_discharge m x y.
  Proof.
    unfold compute_discharge. cbn [mmodel coef xo yo wells]. rewrite !mv_diff.
    match goal with |- fold_left _ _ ?q = _ => generalize q end. induction (wells m) as [|w ws IH]; intros q; [reflexivity|].
    cbn [map fold_left mwell wx wy wq]. rewrite !mv_diff. apply IH.
  Qed.
  Lemma mv_velocity m x y : compute_velocity (mmodel m) (moved dx x) (moved dy y) = compute_velocity m x y.
  Proof. unfold compute_velocity, compute_head. rewrite mv_discharge, mv_potential. reflexivity. Qed.
  Lemma mv_feval b m p : feval b (mmodel m) (mp dx dy p) = feval b m p.
  Proof.
    unfold feval, compute_velocity_confined. change (fst (mp dx dy p)) with (moved dx (fst p)). change (snd (mp dx dy p)) with (moved dy (snd p)).
    rewrite mv_discharge, mv_velocity. reflexivity.
  Qed.

  Lemma mv_obs_potential m o : obs_potential (mmodel m) (moved_obs dx dy dz o) = obs_potential m o.
  Proof. unfold obs_potential. cbn [mmodel moved_obs oz base thickness conductivity os]. rewrite mv_diff. reflexivity. Qed.

  (** The fit uses the wells, base and parameters of the model, not its old origin and coefficients. *)
  Lemma mv_row m x0 y0 o : fit_row (mmodel m) (moved dx x0) (moved dy y0) (moved_obs dx dy dz o) = fit_row m x0 y0 o.
  Proof.
    unfold fit_row. rewrite mv_obs_potential. destruct (obs_potential m o) as [[pe ps]|e|]; try reflexivity. cbn [bind].
    cbn [mmodel wells]. unfold moved_obs at 1 2 3 4. cbn [ox oy]. rewrite mv_wells. cbn [moved_obs ox oy]. rewrite !mv_diff. destruct (wells m); reflexivity.
  Qed.
  Lemma mv_fit m os x0 y0 :
    construct_fit (mmodel m) (map (moved_obs dx dy dz) os) (moved dx x0) (moved dy y0) = construct_fit m os x0 y0.
  Proof.
    unfold construct_fit. replace (map_res (fit_row (mmodel m) (moved dx x0) (moved dy y0)) (map (moved_obs dx dy dz) os)) with (map_res (fit_row m x0 y0) os); [reflexivity|].
    induction os as [|o os IH]; [reflexivity|]. cbn [map map_res]. rewrite mv_row, <- IH. reflexivity.
  Qed.
End Model.

Lemma mv_make_wells dx dy ws : forall qs, make_wells (map (moved_swell dx dy) ws) qs = res_map (map (mwell dx dy)) (make_wells ws qs).
Proof.
  induction ws as [|w ws IH]; intros qs; [reflexivity|]. destruct qs as [|q qs]; [reflexivity|]. cbn [map make_wells]. destruct (as_num q); try reflexivity. cbn [bind].
  rewrite IH. destruct (make_wells ws qs); reflexivity.
Qed.

Lemma mv_fit_regional dx dy dz la m u v os x0 y0 :
  let q := fit_regional_flow la m os x0 y0 in
  let q' := fit_regional_flow la (set_origin (mmodel dx dy dz m) u v) (map (moved_obs dx dy dz) os) (moved dx x0) (moved dy y0) in
  snd q' = snd q /\ forall r, snd q = Ok r -> fst q' = mmodel dx dy dz (fst q).
Proof.
  cbv zeta. unfold fit_regional_flow.
  replace (construct_fit (set_origin (mmodel dx dy dz m) u v) (map (moved_obs dx dy dz) os) (moved dx x0) (moved dy y0)) with (construct_fit m os x0 y0) by (symmetry; apply mv_fit).
  destruct (let! (wa, wb) := construct_fit m os x0 y0 in compute_fit la wa wb) as [[ev cov]|e|]; try (split; [reflexivity|discriminate]).
  destruct (reshape6 ev) as [c|e|]; (split; [reflexivity|]); [reflexivity|discriminate|discriminate].
Qed.

Definition both_log dx dy (q : pfield xr * res (run_log xr)) : pfield xr * res (run_log xr) := (moved_field dx dy (fst q), snd q).

Lemma mv_realization dx dy dz fuel la s xt yt rt np dur b kv nv hv ws qs os u cf tol ms pick rc :
  realization fuel la (moved_field dx dy s) (moved dx xt) (moved dy yt) rt np dur (moved dz b) kv nv hv (map (moved_swell dx dy) ws) qs (map (moved_obs dx dy dz) os) u cf tol ms pick rc
  = both_log dx dy (realization fuel la s xt yt rt np dur b kv nv hv ws qs os u cf tol ms pick rc).
Proof.
  unfold realization. rewrite mv_make_wells. destruct (make_wells ws qs) as [wl|e|]; try reflexivity. cbn [res_map bind].
  destruct (as_num kv) as [k|e|]; try reflexivity. destruct (as_num hv) as [h|e|]; try reflexivity. cbn [bind].
  set (p0 := match num_of nv with Some p => p | None => nnan end).
  replace (new_model (moved dz b) k p0 h (map (mwell dx dy) wl)) with (set_origin (mmodel dx dy dz (new_model b k p0 h wl)) (nZ 0) (nZ 0)) by reflexivity.
  pose proof (mv_fit_regional dx dy dz la (new_model b k p0 h wl) (nZ 0) (nZ 0) os xt yt) as Q. cbv zeta in Q.
  destruct (fit_regional_flow la (new_model b k p0 h wl) os xt yt) as [m1 r1].
  destruct (fit_regional_flow la (set_origin (mmodel dx dy dz (new_model b k p0 h wl)) (nZ 0) (nZ 0)) (map (moved_obs dx dy dz) os) (moved dx xt) (moved dy yt)) as [m2 r2].
  cbn [fst snd] in Q. destruct Q as [-> Q]. destruct r1 as [[ev cov]|e|]; try reflexivity. cbn [bind]. rewrite (Q _ eq_refl).
  destruct (reshape6 (pick ev cov)) as [c|e|]; try reflexivity. cbn [bind]. destruct (as_num nv) as [n|e|]; try reflexivity. cbn [bind].
  change (set_coef (mmodel dx dy dz m1) c) with (mmodel dx dy dz (set_coef m1 c)). rewrite (mv_zone dx dy (feval cf (set_coef m1 c)) _ (mv_feval dx dy dz cf (set_coef m1 c))).
  destruct (compute_capturezone fuel xt yt rt np dur s u (nZ 1) tol ms (feval cf (set_coef m1 c))) as [s' [[]|e|]]; reflexivity.
Qed.

Lemma mv_map_sq dx dy ws : map sq (map (moved_swell dx dy) ws) = map sq ws.
Proof. rewrite map_map. reflexivity. Qed.

Lemma mv_realizations (G E : Type) (Rg : rng xr G) (mvn : E -> list xr -> list (list xr) -> list xr) dx dy dz fuel la entropy xt yt rt np dur b cd pd td ws os u cf tol ms : forall count i g s logs,
  realizations Rg mvn fuel la count entropy i g (moved_field dx dy s) logs (moved dx xt) (moved dy yt) rt np dur (moved dz b) cd pd td (map (moved_swell dx dy) ws) (map (moved_obs dx dy dz) os) u cf tol ms
  = res_map (fun q => (moved_field dx dy (fst q), snd q)) (realizations Rg mvn fuel la count entropy i g s logs xt yt rt np dur b cd pd td ws os u cf tol ms).
Proof.
  induction count as [|n IH]; intros i g s logs; [reflexivity|]. cbn [realizations]. rewrite mv_map_sq.
  destruct (sample_all Rg g (map sq ws)) as [[qs g1]|e|]; try reflexivity. cbn [bind].
  destruct (generate_random_variate Rg g1 cd) as [[k g2]|e|]; try reflexivity. cbn [bind].
  destruct (generate_random_variate Rg g2 pd) as [[p g3]|e|]; try reflexivity. cbn [bind].
  destruct (generate_random_variate Rg g3 td) as [[h g4]|e|]; try reflexivity. cbn [bind].
  rewrite mv_realization. destruct (realization fuel la s xt yt rt np dur b k p h ws qs os u cf tol ms (mvn (entropy i)) recharge_stochastic) as [s' [l|e|]]; try reflexivity.
  cbn [both_log fst snd bind]. apply IH.
Qed.

(** C115.  A stochastic run in the moved system makes the moved field, with the same log lines; it raises exactly what the original run raises. *)
Lemma c115_stochastic : forall (G E : Type) (Rg : rng xr G) (mvn : E -> list xr -> list (list xr) -> list xr) (fuel : nat) (la : linalg xr) (entropy : nat -> E) (g : G)
    (a : args xr) (c : call) (kept : list (obs xr)) (dx dy dz : R),
  call_stochastic Rg mvn fuel la entropy g a (moved_call dx dy dz c) (map (moved_obs dx dy dz) kept) =
  res_map (fun q => (moved_field dx dy (fst q), snd q)) (call_stochastic Rg mvn fuel la entropy g a c kept).
Proof.
  intros G E Rg mvn fuel la entropy g a c kept dx dy dz. unfold call_stochastic, create_stochastic.
  cbn [moved_call k_target k_npaths k_duration k_n k_base k_wells k_spacing k_umbra k_confined k_tol k_maxstep].
  rewrite nth_error_map. destruct (nth_error (k_wells c) (Z.to_nat (k_target c))) as [w|]; [|reflexivity]. cbn [option_map moved_swell sx sy sr].
  rewrite mv_init. destruct (pf_init (k_spacing c) (k_spacing c) (sx w) (sy w)) as [s0|e|]; try reflexivity. cbn [res_map bind]. apply mv_realizations.
Qed.

(** C115.  A deterministic run. *)
Lemma c115_deterministic : forall (fuel : nat) (la : linalg xr) (a : args xr) (c : call) (kept : list (obs xr)) (dx dy dz : R),
  call_deterministic fuel la a (moved_call dx dy dz c) (map (moved_obs dx dy dz) kept) =
  res_map (fun q => (moved_field dx dy (fst q), snd q)) (call_deterministic fuel la a c kept).
Proof.
  intros fuel la a c kept dx dy dz. unfold call_deterministic, create_deterministic.
  cbn [moved_call k_target k_npaths k_duration k_n k_base k_wells k_spacing k_umbra k_confined k_tol k_maxstep].
  rewrite nth_error_map. destruct (nth_error (k_wells c) (Z.to_nat (k_target c))) as [w|]; [|reflexivity]. cbn [option_map moved_swell sx sy sr].
  rewrite mv_init. destruct (pf_init (k_spacing c) (k_spacing c) (sx w) (sy w)) as [s0|e|]; try reflexivity. cbn [res_map bind].
  replace (map_res (fun w0 : swell xr => compute_variate_mean (sq w0)) (map (moved_swell dx dy) (k_wells c))) with (map_res (fun w0 : swell xr => compute_variate_mean (sq w0)) (k_wells c))
    by (induction (k_wells c) as [|w0 l IH]; [reflexivity|]; cbn [map map_res moved_swell sq]; rewrite IH; reflexivity).
  destruct (map_res _ (k_wells c)) as [qs|e|]; try reflexivity. cbn [bind].
  destruct (compute_variate_mean (c_dist a)) as [k|e|]; try reflexivity. destruct (compute_variate_mean (p_dist a)) as [p|e|]; try reflexivity.
  destruct (compute_variate_mean (t_dist a)) as [h|e|]; try reflexivity. cbn [bind]. rewrite mv_realization.
  destruct (realization _ _ _ _ _ _ _ _ _ _ _ _ _ _ _ _ _ _ _ _ _) as [s [l|e|]]; reflexivity.
Qed.

(** C115.  The moved field has the nodes of the original, moved, with the same weights and marks. *)
Lemma c115_nodes : forall s dx dy x y v b, has_node (moved_field dx dy s) (x + dx) (y + dy) v b <-> has_node s x y v b.
Proof.
  intros [ex ey [g|]] dx dy x y v b; unfold has_node; cbn [moved_field body option_map deltax deltay].
  2: { split; intros (g & i & j & d & d' & x0 & y0 & E & _); discriminate. }
  split; intros (g' & i & j & d & d' & x0 & y0 & E & Ex & Ey & X & Y & Px & Py & W & M); injection E as <-.
  - cbn [moved_geom xmin ymin pgrid rgrid] in *. destruct (xmin g) as [x1| | |] eqn:X1; try discriminate. destruct (ymin g) as [y1| | |] eqn:Y1; try discriminate.
    cbn [moved] in X, Y. injection X as X. injection Y as Y. exists g, i, j, d, d', x1, y1. repeat (split; [auto; lra|]). auto.
  - exists (moved_geom dx dy g), i, j, d, d', (x0 + dx), (y0 + dy). cbn [moved_geom xmin ymin pgrid rgrid]. rewrite X, Y. cbn [moved].
    repeat (split; [auto; lra|]). auto.
Qed.

(** ** Filtering the observations *)
Section Filter.
  Context (dx dy dz : R).
  Local Notation mo := (moved_obs dx dy dz).

  Lemma mv_far ws b o : far_from_wells (map (fun w => (moved dx (fst w), moved dy (snd w))) ws) b (mo o) = far_from_wells ws b o.
  Proof. unfold far_from_wells. induction ws as [|w ws IH]; [reflexivity|]. cbn [map forallb moved_obs ox oy fst snd] in *. rewrite !mv_diff, IH. reflexivity. Qed.
  Lemma mv_close a b : too_close (mo a) (mo b) = too_close a b.
  Proof. unfold too_close. cbn [moved_obs ox oy]. rewrite !mv_diff. reflexivity. Qed.
  Lemma mv_take lead l : take_close (mo lead) (map mo l) = (map mo (fst (take_close lead l)), map mo (snd (take_close lead l))).
  Proof.
    induction l as [|o l IH]; [reflexivity|]. cbn [map take_close]. rewrite mv_close. destruct (too_close lead o); [|reflexivity].
    rewrite IH. destruct (take_close lead l) as [g r]. reflexivity.
  Qed.
  Lemma mv_filter_far ws b l : filter (far_from_wells (map (fun w => (moved dx (fst w), moved dy (snd w))) ws) b) (map mo l) = map mo (filter (far_from_wells ws b) l).
  Proof. induction l as [|o l IH]; [reflexivity|]. cbn [map filter]. rewrite mv_far, IH. destruct (far_from_wells ws b o); reflexivity. Qed.
  Lemma take_incl lead l o : In o (fst (take_close lead l)) \/ In o (snd (take_close lead l)) -> In o l.
  Proof.
    induction l as [|a l IH]; cbn [take_close]; [cbn; tauto|]. destruct (too_close lead a); [|cbn; tauto].
    destruct (take_close lead l) as [g r]. cbn [fst snd In] in *. tauto.
  Qed.

  (** Merging, given that it commutes on groups of members of [P]. *)
  Lemma mv_merge (P : obs xr -> Prop) : (forall o g, P o -> (forall q, In q g -> P q) -> merge_group (mo o) (map mo g) = res_map mo (merge_group o g)) ->
    forall fuel l, (forall q, In q l -> P q) -> merge fuel (map mo l) = res_map (map mo) (merge fuel l).
  Proof.
    intros H. induction fuel as [|n IH]; intros [|o l] Hl; try reflexivity. cbn [map merge]. rewrite mv_take.
    pose proof (take_incl o l) as I. destruct (take_close o l) as [g r]. cbn [fst snd] in *.
    rewrite H by (intros; apply Hl; cbn; auto). destruct (merge_group o g); try reflexivity. cbn [res_map bind].
    rewrite IH by (intros; apply Hl; cbn; auto). destruct (merge n r); reflexivity.
  Qed.
End Filter.

Lemma moved_0 x : moved 0 x = x.
Proof. destruct x; cbn; auto. f_equal. ring. Qed.

Lemma group_0 dx dy o g : merge_group (moved_obs dx dy 0 o) (map (moved_obs dx dy 0) g) = res_map (moved_obs dx dy 0) (merge_group o g).
Proof.
  destruct g as [|q g]; [reflexivity|]. unfold merge_group. cbn [map].
  change (moved_obs dx dy 0 o :: moved_obs dx dy 0 q :: map (moved_obs dx dy 0) g) with (map (moved_obs dx dy 0) (o :: q :: g)).
  assert (E : forall l a b, weighted_sums (map (moved_obs dx dy 0) l) a b = weighted_sums l a b).
  { induction l as [|p l IH]; intros a b; [reflexivity|]. cbn [map weighted_sums moved_obs oz os]. rewrite moved_0.
    destruct (pydiv (oz p) _); try reflexivity. cbn [bind]. destruct (pydiv (nZ 1) (nsq (os p))); try reflexivity. cbn [bind]. apply IH. }
  rewrite E. destruct (weighted_sums (o :: q :: g) (nZ 0) (nZ 0)) as [[a b]|e|]; try reflexivity. cbn [bind].
  destruct (pydiv a b); try reflexivity. cbn [bind]. destruct (pydiv (nZ 1) b); try reflexivity. cbn [bind res_map]. unfold moved_obs. cbn [ox oy oz os]. rewrite moved_0. reflexivity.
Qed.

Definition real_obs (o : obs xr) : Prop := exists o0, o = fobs o0 /\ os o0 <> 0.
Lemma moved_fobs dx dy dz o : moved_obs dx dy dz (fobs o) = fobs {| ox := ox o + dx; oy := oy o + dy; oz := oz o + dz; os := os o |}.
Proof. reflexivity. Qed.

Lemma sums_dz dx dy dz : forall l, (forall q, In q l -> real_obs q) -> forall a b, 0 <= b ->
  exists n d, b <= d /\ (l <> [] -> b < d) /\ weighted_sums l (Fin a) (Fin b) = Ok (Fin n, Fin d) /\
    weighted_sums (map (moved_obs dx dy dz) l) (Fin (a + dz * b)) (Fin b) = Ok (Fin (n + dz * d), Fin d).
Proof.
  induction l as [|p l IH]; intros Hl a b Hb; [exists a, b; repeat split; auto; try lra; contradiction|].
  destruct (Hl p (or_introl eq_refl)) as (q & -> & Hq). assert (Q : os q * os q <> 0) by (apply Rmult_integral_contrapositive; auto).
  assert (Pq : 0 < os q * os q) by (pose proof (Rle_0_sqr (os q)) as W; unfold Rsqr in W; lra).
  assert (Iq : 0 < 1 / (os q * os q)) by (apply Rdiv_lt_0_compat; lra).
  destruct (IH ltac:(intros; apply Hl; right; assumption) (a + oz q / (os q * os q)) (b + 1 / (os q * os q)) ltac:(lra)) as (n & d & L & _ & E1 & E2).
  exists n, d. split; [lra|]. split; [intros _; lra|].
  cbn [map weighted_sums]. rewrite moved_fobs. unfold pydiv, nsq. cbn [fobs oz os nmul neq nZ XR xmul xeq ndiv xdiv].
  destruct (Reqb_spec (os q * os q) 0) as [Z|_]; [contradiction|]. cbn [bind nadd XR xadd]. split; [exact E1|].
  replace (a + dz * b + (oz q + dz) / (os q * os q)) with (a + oz q / (os q * os q) + dz * (b + 1 / (os q * os q))) by (field; auto). exact E2.
Qed.

Lemma group_dz dx dy dz o g : real_obs o -> (forall q, In q g -> real_obs q) ->
  merge_group (moved_obs dx dy dz o) (map (moved_obs dx dy dz) g) = res_map (moved_obs dx dy dz) (merge_group o g).
Proof.
  intros Ho Hg. destruct g as [|q g]; [reflexivity|]. unfold merge_group. cbn [map].
  change (moved_obs dx dy dz o :: moved_obs dx dy dz q :: map (moved_obs dx dy dz) g) with (map (moved_obs dx dy dz) (o :: q :: g)).
  destruct (sums_dz dx dy dz (o :: q :: g) ltac:(intros p [<-|I]; [exact Ho|apply Hg, I]) 0 0 (Rle_refl 0)) as (n & d & _ & L & E1 & E2). specialize (L ltac:(discriminate)).
  change (nZ 0 : xr) with (Fin 0). rewrite E1. replace (0 + dz * 0) with 0 in E2 by ring. rewrite E2. cbn [bind]. unfold pydiv. cbn [neq nZ XR xeq ndiv xdiv].
  destruct (Reqb_spec d 0); [lra|]. cbn [bind res_map]. unfold moved_obs. cbn [ox oy oz os moved]. do 2 f_equal. f_equal. field. lra.
Qed.

(** C115.  Filtering the observations of the moved call gives the moved observations. *)
Lemma c115_filter : forall (dx dy dz : R) (l : list (obs xr)) (ws : list (xr * xr)) (buffer : xr), movable dz l ->
  filter_obs (map (moved_obs dx dy dz) l) (map (fun w => (moved dx (fst w), moved dy (snd w))) ws) buffer = res_map (map (moved_obs dx dy dz)) (filter_obs l ws buffer).
Proof.
  intros dx dy dz l ws b Hm. unfold filter_obs. rewrite mv_filter_far, map_length. destruct Hm as [->|(l0 & -> & H0)].
  - apply (mv_merge dx dy 0 (fun _ => True)); auto. intros; apply group_0.
  - apply (mv_merge dx dy dz real_obs); [apply group_dz|]. intros q I. apply filter_In in I. destruct I as [I _]. apply in_map_iff in I. destruct I as (o & <- & I). exists o. auto.
Qed.

(** ** The whole run *)
Lemma mv_column_stats c col : column_stats (map (moved c) col) = Raise ValueError /\ column_stats col = Raise ValueError \/
  exists st st', column_stats col = Ok st /\ column_stats (map (moved c) col) = Ok st' /\ s_cnt st = s_cnt st'.
Proof.
  unfold column_stats. replace (filter (fun v => negb (nisnan v)) (map (moved c) col)) with (map (moved c) (filter (fun v => negb (nisnan v)) col)).
  2: { induction col as [|x col IH]; [reflexivity|]. cbn [map filter]. rewrite mv_nan, <- IH. destruct (negb (nisnan x)); reflexivity. }
  destruct (filter _ col) as [|x l]; [left; split; reflexivity|right]. cbn [map pymin_list pymax_list bind]. do 2 eexists. split; [reflexivity|]. split; [reflexivity|].
  cbn [s_cnt length]. rewrite map_length. reflexivity.
Qed.

Lemma table_column (f : obs xr -> xr) (j : nat) kept : (forall o, nth_error [ox o; oy o; oz o; os o] j = Some (f o)) ->
  map_res (fun v => match nth_error v j with Some a => Ok a | None => Raise IndexError end) (table kept) = Ok (map f kept).
Proof. intros H. unfold table. induction kept as [|o l IH]; [reflexivity|]. cbn [map map_res]. rewrite H. cbn [bind]. rewrite IH. reflexivity. Qed.

Lemma table_stats kept : summary_statistics (table kept) =
  match kept with [] => Raise IndexError | _ => map_res (fun f => column_stats (map f kept)) [ox; oy; oz; os] end.
Proof.
  destruct kept as [|o kept]; [reflexivity|]. unfold summary_statistics. change (table (o :: kept)) with ([ox o; oy o; oz o; os o] :: table kept) at 1.
  cbn [length seq map_res]. rewrite (table_column ox 0), (table_column oy 1), (table_column oz 2), (table_column os 3) by reflexivity. reflexivity.
Qed.

Lemma mv_summary dx dy dz kept :
  (exists e, summary_statistics (table kept) = Raise e /\ summary_statistics (table (map (moved_obs dx dy dz) kept)) = Raise e) \/
  exists st st', summary_statistics (table kept) = Ok st /\ summary_statistics (table (map (moved_obs dx dy dz) kept)) = Ok st' /\ map s_cnt st = map s_cnt st'.
Proof.
  rewrite !table_stats. destruct kept as [|o kept]; [left; eexists; split; reflexivity|]. remember (o :: kept) as l eqn:El.
  replace (match map (moved_obs dx dy dz) l with [] => Raise IndexError | _ => map_res (fun f => column_stats (map f (map (moved_obs dx dy dz) l))) [ox; oy; oz; os] end)
    with (map_res (fun f : obs xr -> xr => column_stats (map f (map (moved_obs dx dy dz) l))) [ox; oy; oz; os]) by (rewrite El; reflexivity). clear El.
  cbn [map_res].
  replace (map ox (map (moved_obs dx dy dz) l)) with (map (moved dx) (map ox l)) by (rewrite !map_map; reflexivity).
  replace (map oy (map (moved_obs dx dy dz) l)) with (map (moved dy) (map oy l)) by (rewrite !map_map; reflexivity).
  replace (map oz (map (moved_obs dx dy dz) l)) with (map (moved dz) (map oz l)) by (rewrite !map_map; reflexivity).
  replace (map os (map (moved_obs dx dy dz) l)) with (map os l) by (rewrite !map_map; reflexivity).
  destruct (mv_column_stats dx (map ox l)) as [[-> ->]|(a & a' & -> & -> & A)]; [left; eexists; split; reflexivity|]. cbn [bind].
  destruct (mv_column_stats dy (map oy l)) as [[-> ->]|(b & b' & -> & -> & B)]; [left; eexists; split; reflexivity|]. cbn [bind].
  destruct (mv_column_stats dz (map oz l)) as [[-> ->]|(c & c' & -> & -> & C)]; [left; eexists; split; reflexivity|]. cbn [bind].
  destruct (mv_column_stats 0 (map os l)) as [[_ ->]|(d & d' & -> & _ & D)]; [left; eexists; split; reflexivity|]. cbn [bind].
  right. do 2 eexists. split; [reflexivity|]. split; [reflexivity|]. cbn. congruence.
Qed.

Lemma mv_linspace c a b n : linspace (moved c a) (moved c b) n = res_map (map (moved c)) (linspace a b n).
Proof.
  unfold linspace. destruct (n <? 0)%Z; [reflexivity|]. rewrite mv_diff. destruct (n =? 1)%Z; cbn [res_map map]; [rewrite mv_add'; reflexivity|].
  f_equal. rewrite map_map. apply map_ext. intros k. destruct (k =? n - 1)%Z; [reflexivity|]. rewrite mv_add'. reflexivity.
Qed.

Lemma mv_probability dx dy s : create_probability_plot (moved_field dx dy s) =
  res_map (fun q => let '(X, Y, P) := q in (map (moved dx) X, map (moved dy) Y, P)) (create_probability_plot s).
Proof.
  destruct s as [ex ey [g|]]; [|reflexivity]. unfold create_probability_plot. cbn [moved_field body option_map moved_geom total_weight xmin xmax ymin ymax ncols nrows].
  destruct (nle (total_weight g) (nZ 0)); [reflexivity|]. rewrite !mv_linspace. destruct (linspace (xmin g) (xmax g) (ncols g)); try reflexivity. cbn [res_map bind].
  destruct (linspace (ymin g) (ymax g) (nrows g)); reflexivity.
Qed.

Lemma mv_impact dx dy sp s : create_impact_plot sp (moved_field dx dy s) = create_impact_plot sp s.
Proof. destruct s as [ex ey [g|]]; reflexivity. Qed.

Lemma mv_area dx dy s : create_deterministic_plot (moved_field dx dy s) = create_deterministic_plot s.
Proof.
  destruct s as [ex ey [g|]]; [|reflexivity]. unfold create_deterministic_plot. cbn [moved_field body option_map moved_geom total_weight xmin xmax ymin ymax ncols nrows].
  destruct (nle (total_weight g) (nZ 0)); [reflexivity|]. rewrite !mv_linspace. destruct (linspace (xmin g) (xmax g) (ncols g)) as [X|e|]; try reflexivity. cbn [res_map bind].
  destruct (linspace (ymin g) (ymax g) (nrows g)) as [Y|e|]; try reflexivity. cbn [res_map bind]. unfold py_nth. rewrite !nth_error_map, !map_length.
  destruct (nth_error X 0); try reflexivity. cbn [option_map bind]. destruct (nth_error X 1); try reflexivity. cbn [option_map bind].
  destruct (nth_error Y 0); try reflexivity. cbn [option_map bind]. destruct (nth_error Y 1); try reflexivity. cbn [option_map bind].
  rewrite !mv_diff. reflexivity.
Qed.

Definition outcome_moved dx dy dz (o o' : outcome xr) : Prop := Forall2 (seen_moved dx dy dz) (fst o) (fst o') /\ snd o' = snd o.
Lemma om_emit dx dy dz e e' o o' : seen_moved dx dy dz e e' -> outcome_moved dx dy dz o o' -> outcome_moved dx dy dz (emit e o) (emit e' o').
Proof. intros H [H1 H2]. split; [constructor; assumption|exact H2]. Qed.
Lemma om_stop dx dy dz {A B : Type} (f : A -> B) (r : res A) (k : A -> outcome xr) (k' : B -> outcome xr) :
  (forall x, outcome_moved dx dy dz (k x) (k' (f x))) -> outcome_moved dx dy dz (ModelMain.stop r k) (ModelMain.stop (res_map f r) k').
Proof. intros H. destruct r; [apply H| |]; split; try constructor. Qed.
Lemma om_same dx dy dz {A : Type} (r : res A) (k k' : A -> outcome xr) :
  (forall x, outcome_moved dx dy dz (k x) (k' x)) -> outcome_moved dx dy dz (ModelMain.stop r k) (ModelMain.stop r k').
Proof. intros H. destruct r; [apply H| |]; split; try constructor. Qed.

(** C115.  A whole run of [oneka] with arguments that read as the moved call: the same effects in the same order, seen in the moved system, and the same
    outcome. *)
Lemma c115_run : forall (G E : Type) (Rg : rng xr G) (mvn : E -> list xr -> list (list xr) -> list xr) (dump : run_args (pyobj xr) -> res unit)
    (fuel : nat) (la : linalg xr) (entropy : nat -> E) (g : G) (a a' : args xr) (c : call) (dx dy dz : R),
  acceptable a -> reads a c -> acceptable a' -> reads a' (moved_call dx dy dz c) ->
  c_dist a' = c_dist a -> p_dist a' = p_dist a -> t_dist a' = t_dist a ->
  movable dz (k_obs c) -> (forall x, dump x = Ok tt) ->
  Forall2 (seen_moved dx dy dz) (fst (oneka Rg mvn dump fuel la entropy g a)) (fst (oneka Rg mvn dump fuel la entropy g a')) /\
  snd (oneka Rg mvn dump fuel la entropy g a') = snd (oneka Rg mvn dump fuel la entropy g a).
Proof.
  intros G E Rg mvn dump fuel la entropy g a a' c dx dy dz A1 R1 A2 R2 Dc Dp Dt Mv Du.
  rewrite (oneka_values Rg mvn dump fuel la entropy g a c A1 R1), (oneka_values Rg mvn dump fuel la entropy g a' _ A2 R2).
  match goal with |- Forall2 _ (fst ?o) (fst ?o') /\ _ => change (outcome_moved dx dy dz o o') end.
  cbn [moved_call k_obs k_wells k_buffer k_n k_spacing].
  apply om_emit; [constructor|].
  replace (map (fun w => (sx w, sy w)) (map (moved_swell dx dy) (k_wells c))) with (map (fun w => (moved dx (fst w), moved dy (snd w))) (map (fun w => (sx w, sy w)) (k_wells c))) by (rewrite !map_map; reflexivity).
  rewrite c115_filter by exact Mv. apply om_stop. intros kept. apply om_emit; [constructor|]. rewrite map_length. apply om_same. intros [].
  assert (Fin_ : forall s, outcome_moved dx dy dz (ModelMain.finish dump a s) (ModelMain.finish dump a' (moved_field dx dy s))).
  { intros s. unfold ModelMain.finish. rewrite !Du. apply om_emit; [constructor|]. split; [repeat constructor|reflexivity]. }
  destruct (mv_summary dx dy dz kept) as [(e & -> & ->)|(st & st' & -> & -> & C)]; [split; [constructor|reflexivity]|]. cbn [ModelMain.stop].
  apply om_emit; [constructor; exact C|]. destruct (k_n c >? 1)%Z.
  - assert (Q : call_stochastic Rg mvn fuel la entropy g a' (moved_call dx dy dz c) (map (moved_obs dx dy dz) kept) = res_map (fun q => (moved_field dx dy (fst q), snd q)) (call_stochastic Rg mvn fuel la entropy g a c kept)).
    { rewrite <- (c115_stochastic _ _ Rg mvn fuel la entropy g a c kept dx dy dz). unfold call_stochastic. rewrite Dc, Dp, Dt. reflexivity. }
    rewrite Q. apply om_stop. intros [s logs]. cbn [fst snd]. apply om_emit; [constructor|]. rewrite mv_probability. apply om_stop. intros [[X Y] P].
    apply om_emit; [constructor|]. rewrite mv_impact. apply om_same. intros [pr area]. apply om_emit; [constructor|]. apply om_same. intros rows. apply om_emit; [constructor|]. apply Fin_.
  - assert (Q : call_deterministic fuel la a' (moved_call dx dy dz c) (map (moved_obs dx dy dz) kept) = res_map (fun q => (moved_field dx dy (fst q), snd q)) (call_deterministic fuel la a c kept)).
    { rewrite <- (c115_deterministic fuel la a c kept dx dy dz). unfold call_deterministic. rewrite Dc, Dp, Dt. reflexivity. }
    rewrite Q. apply om_stop. intros [s l]. cbn [fst snd]. apply om_emit; [constructor|]. rewrite mv_area. apply om_same. intros ar. apply om_emit; [constructor|]. apply Fin_.
Qed.
