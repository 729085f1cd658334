(** * Proofs about everything a run writes: one realization *)
From Coq Require Import String SpecFloat ZArith List Lia.
From Verif Require Import Py Num ModelField ModelAquifer ModelTrace ModelObs ModelDist ModelDriver ModelPlot ModelArchive ModelMain
  ModelText ModelLog ModelTranscript ModelLogging SpecTranscript SpecLog ProofLog.
Import ListNotations.
Local Open Scope string_scope.

Notation saids := (map Said).
Lemma infos_lines ls : infos ls = saids (lines ls).
Proof. unfold infos, lines. rewrite map_map. reflexivity. Qed.
Lemma tell_tell A (a b : list moment) (k : story A) : tell a (tell b k) = tell (a ++ b) k.
Proof. destruct k. unfold tell. cbn. now rewrite app_assoc. Qed.

Section One.
  Context {N : Num spec_float}.

  Lemma trace_said_eq tr rest : (trace_said tr ++ saids (warnings rest))%list = saids (warnings (tr :: rest)).
  Proof. unfold trace_said, warnings. cbn [filter]. destruct (completed tr); reflexivity. Qed.

  (** The loop over the paths: the outcome is that of trace_paths; the messages are the warnings of the traces. *)
  Lemma paths_story fuel xt yt rt duration umbra tol maxstep fv : forall thetas s,
    exists j trs, (j <= List.length thetas)%nat /\
      Forall2 (fun th tr => compute_backtrace fuel (fst (start_point xt yt rt th)) (snd (start_point xt yt rt th)) duration tol maxstep fv = Ok tr)
              (firstn j thetas) trs /\
      fst (paths_said fuel s xt yt rt duration umbra tol maxstep fv thetas) = saids (warnings trs) /\
      snd (paths_said fuel s xt yt rt duration umbra tol maxstep fv thetas) =
        (let! _ := snd (trace_paths fuel s xt yt rt duration umbra tol maxstep fv thetas) in
         Ok (fst (trace_paths fuel s xt yt rt duration umbra tol maxstep fv thetas))) /\
      (forall u, snd (trace_paths fuel s xt yt rt duration umbra tol maxstep fv thetas) = Ok u -> j = List.length thetas).
  Proof.
    induction thetas as [|th rest IH]; intros s; cbn [paths_said trace_paths].
    - exists O, []. repeat split; [apply le_n|constructor].
    - destruct (start_point xt yt rt th) as [xs ys] eqn:SP.
      destruct (compute_backtrace fuel xs ys duration tol maxstep fv) as [tr|e|] eqn:B; cbn [attempt].
      + destruct (rasterize fuel s (map fst (vertices tr)) (map snd (vertices tr)) umbra) as [s' [u|e|]] eqn:Ra; cbn [attempt].
        * destruct (IH s') as (j & trs & Hj & F & M & O & L). exists (S j), (tr :: trs). cbn [List.length firstn].
          split; [lia|]. split; [constructor; [rewrite SP; exact B|exact F]|].
          split; [unfold tell; cbn [fst]; rewrite M; apply trace_said_eq|]. split; [exact O|]. intros u' U. f_equal. exact (L u' U).
        * exists 1%nat, [tr]. cbn [List.length firstn]. split; [lia|]. split; [constructor; [rewrite SP; exact B|constructor]|].
          split; [unfold tell; cbn [fst]; apply (trace_said_eq tr [])|]. split; [reflexivity|]. intros u' U; discriminate U.
        * exists 1%nat, [tr]. cbn [List.length firstn]. split; [lia|]. split; [constructor; [rewrite SP; exact B|constructor]|].
          split; [unfold tell; cbn [fst]; apply (trace_said_eq tr [])|]. split; [reflexivity|]. intros u' U; discriminate U.
      + exists O, []. repeat split; [lia|constructor|]. intros u' U; discriminate U.
      + exists O, []. repeat split; [lia|constructor|]. intros u' U; discriminate U.
  Qed.

  Lemma register_Ok s w s' r : register s w = (s', r) -> r = Ok tt \/ r = Raise AttributeError.
  Proof. unfold register. destruct (body s); intros [= <- <-]; auto. Qed.

  Lemma capturezone_story fuel xt yt rt npaths duration s umbra weight tol maxstep fv ths : start_angles npaths = Ok ths ->
    exists j trs, (j <= List.length ths)%nat /\
      Forall2 (fun th tr => compute_backtrace fuel (fst (start_point xt yt rt th)) (snd (start_point xt yt rt th)) duration tol maxstep fv = Ok tr)
              (firstn j ths) trs /\
      fst (capturezone_said fuel xt yt rt npaths duration s umbra weight tol maxstep fv) = saids (warnings trs) /\
      snd (capturezone_said fuel xt yt rt npaths duration s umbra weight tol maxstep fv) =
        (let! _ := snd (compute_capturezone fuel xt yt rt npaths duration s umbra weight tol maxstep fv) in
         Ok (fst (compute_capturezone fuel xt yt rt npaths duration s umbra weight tol maxstep fv))) /\
      (forall u, snd (compute_capturezone fuel xt yt rt npaths duration s umbra weight tol maxstep fv) = Ok u -> j = List.length ths).
  Proof.
    intros HA. unfold capturezone_said, compute_capturezone. rewrite HA. cbn [attempt].
    destruct (paths_story fuel xt yt rt duration umbra tol maxstep fv ths s) as (j & trs & Hj & F & M & O & L).
    destruct (paths_said fuel s xt yt rt duration umbra tol maxstep fv ths) as [pm pr]. cbn [fst snd] in M, O. subst pm pr.
    destruct (trace_paths fuel s xt yt rt duration umbra tol maxstep fv ths) as [s1 [u|e|]]; cbn [bind fst snd] in *.
    - exists j, trs. split; [exact Hj|]. split; [exact F|]. unfold thereafter. cbn [fst snd].
      destruct (register s1 weight) as [s2 [u2|e2|]]; cbn [attempt tell fst snd bind]; rewrite app_nil_r; (split; [reflexivity|split; [reflexivity|]]).
      + intros u0 _. exact (L u eq_refl).
      + intros u0 H; discriminate H.
      + intros u0 H; discriminate H.
    - exists j, trs. repeat split; auto.
    - exists j, trs. repeat split; auto.
  Qed.
End One.

Section Real.
  Context (lm : libm).
  Local Existing Instance SF.
  Local Notation SFn := (SF lm).

  Lemma val_f_num v x : num_of (N := SFn) v = Some x -> convertible v -> val_f 2 v = Ok (fmt_f false false 2 x).
  Proof.
    intros H C. assert (K : is_number v = true) by (destruct v; try discriminate; reflexivity).
    destruct (proj2 (val_f_ok v K) C) as (t & E). destruct v as [z|y|b|s| |l|l]; try discriminate K; cbn [val_f num_of] in *.
    - injection H as <-. change (@nZ spec_float SFn z) with (f_of_Z z). destruct (f_of_Z z); try discriminate E; reflexivity.
    - now injection H as <-.
    - injection H as <-. destruct b; reflexivity.
  Qed.
  Lemma val_f_none v : num_of (N := SFn) v = None -> (forall s, v <> PStr s) -> val_f 2 v = Raise TypeError.
  Proof. destruct v; intros H D; try discriminate H; try reflexivity. now destruct (D s). Qed.

  Lemma wells_places : forall ws qs wells, List.length qs = List.length ws -> make_wells (N := SFn) ws qs = Ok wells ->
    map (fun w => (wx w, wy w, wr w)) wells = map (fun w => (sx w, sy w, sr w)) ws.
  Proof.
    induction ws as [|w ws IH]; intros [|q qs] wells L H; cbn [make_wells] in H; try discriminate L.
    - now injection H as <-.
    - destruct (as_num q) as [x| |]; cbn [bind] in H; try discriminate.
      destruct (make_wells ws qs) as [r| |] eqn:E; cbn [bind] in H; try discriminate.
      injection H as <-. cbn [map wx wy wr]. f_equal. apply (IH qs); [now injection L|exact E].
  Qed.
  Lemma fit_ignores (la : linalg spec_float) (m m' : model spec_float) os x y :
    ModelAquifer.base m = ModelAquifer.base m' -> conductivity m = conductivity m' -> porosity m = porosity m' -> thickness m = thickness m' -> wells m = wells m' ->
    snd (fit_regional_flow (N := SFn) la m os x y) = snd (fit_regional_flow (N := SFn) la m' os x y).
  Proof.
    destruct m, m'; cbn. intros -> -> -> -> ->. unfold fit_regional_flow.
    match goal with |- snd match ?a with _ => _ end = snd match ?b with _ => _ end => change b with a; destruct a as [[ev cov]|e|] end; try reflexivity.
    destruct (reshape6 ev); reflexivity.
  Qed.
  Lemma fit_model (la : linalg spec_float) (m m' : model spec_float) os x y ev cov : fit_regional_flow (N := SFn) la m os x y = (m', Ok (ev, cov)) ->
    exists e, reshape6 ev = Ok e /\ m' = set_coef (set_origin m x y) e.
  Proof.
    unfold fit_regional_flow. destruct (let! (wa, wb) := _ in _) as [[ev' cov']|e|]; try discriminate.
    destruct (reshape6 ev') as [c|e|] eqn:Q; intros [= <- <- <-]. exists c. auto.
  Qed.

  Lemma num_some v x : as_num (N := SFn) v = Ok x -> num_of (N := SFn) v = Some x.
  Proof. unfold as_num. destruct (num_of v); [now intros [= ->]|discriminate]. Qed.
  (** One realization, with any way of announcing it. *)
  Lemma realization_story fuel la s (w : swell spec_float) npaths ths duration base kv nv hv ws qs os umbra confined tol maxstep pick announce recharge
        (txt : spec_float -> spec_float -> spec_float -> coef6 spec_float -> coef6 spec_float -> list message) pre :
    start_angles (N := SFn) npaths = Ok ths -> List.length qs = List.length ws ->
    (forall k n h e c, num_of (N := SFn) kv = Some k -> num_of (N := SFn) nv = Some n -> num_of (N := SFn) hv = Some h ->
       announce kv nv hv e c = (saids (txt k n h e c), Ok tt)) ->
    (forall k h e c, num_of (N := SFn) kv = Some k -> num_of (N := SFn) nv = None -> num_of (N := SFn) hv = Some h ->
       announce kv nv hv e c = (saids pre, Raise TypeError)) ->
    let st := realization_said (N := SFn) fuel la s (sx w) (sy w) (sr w) npaths duration base kv nv hv ws qs os umbra confined tol maxstep pick announce in
    let r := realization (N := SFn) fuel la s (sx w) (sy w) (sr w) npaths duration base kv nv hv ws qs os umbra confined tol maxstep pick recharge in
    snd st = (let! _ := snd r in Ok (fst r)) /\
    exists msgs, fst st = saids msgs /\
      (((forall l, snd r <> Ok l) /\
        (msgs = [] \/ msgs = [{| from := "Oneka"; at_level := Error; text := " numpy.linalg.lstsq: failed" |}] \/ (num_of (N := SFn) nv = None /\ msgs = pre))) \/
       exists l m ev cov e j trs, logged_model base (sx w) (sy w) ws l m /\
         snd (fit_regional_flow (N := SFn) la m os (sx w) (sy w)) = Ok (ev, cov) /\ reshape6 ev = Ok e /\ reshape6 (pick ev cov) = Ok (l_coef l) /\
         l_recharge l = recharge (l_coef l) /\
         traced (N := SFn) fuel (sx w) (sy w) (sr w) duration tol maxstep confined m (firstn j ths) trs /\
         msgs = (txt (l_conductivity l) (l_porosity l) (l_thickness l) e (l_coef l) ++ warnings trs)%list /\
         (j <= List.length ths)%nat /\ (forall l', snd r = Ok l' -> l' = l /\ j = List.length ths)).
  Proof.
    intros HA HL A1 A2 st r. subst st r. unfold realization_said, realization.
    destruct (make_wells ws qs) as [wells|e|] eqn:MW; cbn [attempt bind fst snd];
      [|split; [reflexivity|]; exists []; split; [reflexivity|]; left; split; [discriminate|auto]..].
    destruct (as_num kv) as [k|e|] eqn:AK; cbn [attempt bind fst snd];
      [|split; [reflexivity|]; exists []; split; [reflexivity|]; left; split; [discriminate|auto]..].
    destruct (as_num hv) as [h|e|] eqn:AH; cbn [attempt bind fst snd];
      [|split; [reflexivity|]; exists []; split; [reflexivity|]; left; split; [discriminate|auto]..].
    apply num_some in AK, AH.
    set (m0 := new_model base k match num_of nv with Some p => p | None => nnan end h wells).
    destruct (fit_regional_flow la m0 os (sx w) (sy w)) as [m1 fr] eqn:FR.
    assert (FS : (forall p, fr = Ok p -> fit_said (N := SFn) la m0 os (sx w) (sy w) = []) /\
                 (fit_said (N := SFn) la m0 os (sx w) (sy w) = [] \/
                  fit_said (N := SFn) la m0 os (sx w) (sy w) = saids [{| from := "Oneka"; at_level := Error; text := " numpy.linalg.lstsq: failed" |}])).
    { clear - FR. unfold fit_regional_flow in FR. unfold fit_said. destruct (construct_fit m0 os (sx w) (sy w)) as [[wa wb]|e|]; cbn [bind] in *.
      - unfold compute_fit in FR. destruct (lstsq la wa wb) as [ev|e|]; cbn [bind] in *.
        + split; [reflexivity|left; reflexivity].
        + injection FR as <- <-. split; [discriminate|]. destruct e; auto.
        + split; [reflexivity|left; reflexivity].
      - injection FR as <- <-. split; [discriminate|]. destruct e; auto.
      - split; [reflexivity|left; reflexivity]. }
    destruct FS as [FS1 FS2].
    destruct fr as [[ev cov]|e|]; cbn [attempt bind];
      [|split; [reflexivity|]; destruct FS2 as [-> | ->]; [exists []|exists [{| from := "Oneka"; at_level := Error; text := " numpy.linalg.lstsq: failed" |}]]; (split; [reflexivity|]); left; (split; [discriminate|auto])..].
    rewrite (FS1 _ eq_refl). destruct (fit_model la m0 m1 os (sx w) (sy w) ev cov FR) as (e & He & ->). rewrite He. cbn [attempt].
    destruct (reshape6 (pick ev cov)) as [c|x|] eqn:RC; cbn [attempt bind fst snd tell List.app];
      [|split; [reflexivity|]; exists []; split; [reflexivity|]; left; split; [discriminate|auto]..].
    unfold as_num. destruct (num_of nv) as [n|] eqn:Kn; cbn [bind].
    - rewrite (A1 k n h e c AK eq_refl AH). unfold thereafter. cbn [fst snd].
      set (m := set_coef (set_coef (set_origin m0 (sx w) (sy w)) e) c).
      destruct (capturezone_story (N := SFn) fuel (sx w) (sy w) (sr w) npaths duration s umbra (@nZ _ SFn 1) tol maxstep (feval (N := SFn) confined m) ths HA)
        as (j & trs & Hj & F & M & O & L).
      destruct (compute_capturezone (N := SFn) fuel (sx w) (sy w) (sr w) npaths duration s umbra (@nZ _ SFn 1) tol maxstep (feval (N := SFn) confined m)) as [s' cr].
      cbn [fst snd] in *. unfold tell. cbn [fst snd]. rewrite M, O.
      split; [destruct cr; reflexivity|]. eexists. split; [symmetry; apply map_app|]. right.
      exists {| l_conductivity := conductivity m; l_porosity := porosity m; l_thickness := thickness m; l_recharge := recharge (coef m); l_coef := coef m |}.
      exists m, ev, cov, e, j, trs. cbn [l_conductivity l_porosity l_thickness l_recharge l_coef].
      split; [repeat split; apply (wells_places ws qs); assumption|].
      split; [rewrite (fit_ignores la m m0) by reflexivity; rewrite FR; reflexivity|].
      split; [exact He|]. split; [exact RC|]. split; [reflexivity|]. split; [exact F|]. split; [reflexivity|]. split; [exact Hj|].
      intros l' H. destruct cr as [u|x|]; cbn [bind] in H; try discriminate H. split; [congruence|]. exact (L u eq_refl).
    - rewrite (A2 k h e c AK eq_refl AH). cbn [thereafter fst snd]. split; [reflexivity|]. exists pre. split; [reflexivity|].
      left. split; [discriminate|auto].
  Qed.
End Real.
