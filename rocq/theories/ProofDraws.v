(** * Draws of a stochastic run *)
From Coq Require Import ZArith List Lia.
From Verif Require Import Py Num ModelDist ModelField ModelAquifer ModelTrace ModelDriver ProofTraceFlow ProofDriver.
From Verif Require Import SpecDriver SpecDraws.
Import ListNotations.

Section Any.
  Context {T : Type} {N : Num T} {G E : Type} (R : rng T G) (mvn : E -> list T -> list (list T) -> list T).

  Lemma as_num_some v (x : T) : as_num v = Ok x -> num_of v = Some x.
  Proof. unfold as_num. destruct (num_of v); [intros H; injection H as <-; reflexivity|discriminate]. Qed.

  Lemma drawn_one g d v g1 ds vs g' : generate_random_variate R g d = Ok (v, g1) -> drawn R g1 ds vs g' -> drawn R g (d :: ds) (v :: vs) g'.
  Proof.
    intros H D. unfold generate_random_variate in H. destruct d as [| | | | |l|l]; try (injection H as <- <-; constructor; [discriminate|exact D]).
    destruct l as [|a [|b [|c [|d l]]]]; try discriminate H.
    - destruct (as_num a) as [x|e|] eqn:A; cbn [bind] in H; [|discriminate H..]. destruct (as_num b) as [y|e|] eqn:B; cbn [bind] in H; [|discriminate H..].
      unfold np_uniform in H. destruct (nfinite (nsub y x)); cbn [bind] in H; [|discriminate H]. destruct (draw_uniform R g x y) as [w g2] eqn:Q. injection H as <- <-.
      exact (drawn_uniform R g a b x y w g2 ds vs g' (as_num_some _ _ A) (as_num_some _ _ B) Q D).
    - destruct (as_num a) as [x|e|] eqn:A; cbn [bind] in H; [|discriminate H..]. destruct (as_num b) as [y|e|] eqn:B; cbn [bind] in H; [|discriminate H..].
      destruct (as_num c) as [z|e|] eqn:C; cbn [bind] in H; [|discriminate H..].
      unfold np_triangular in H. repeat (match type of H with context [if ?b then _ else _] => destruct b; [discriminate H|] end). cbn [bind] in H.
      destruct (draw_triangular R g x y z) as [w g2] eqn:Q. injection H as <- <-.
      exact (drawn_triangular R g a b c x y z w g2 ds vs g' (as_num_some _ _ A) (as_num_some _ _ B) (as_num_some _ _ C) Q D).
  Qed.
  Lemma drawn_all l : forall g vs g1 ds us g', sample_all R g l = Ok (vs, g1) -> drawn R g1 ds us g' -> drawn R g (l ++ ds) (vs ++ us) g'.
  Proof.
    induction l as [|a l IH]; intros g vs g1 ds us g' H D; cbn [sample_all] in H; [injection H as <- <-; exact D|].
    destruct (generate_random_variate R g a) as [[v g2]|e|] eqn:V; cbn [bind] in H; [|discriminate H..].
    destruct (sample_all R g2 l) as [[ws g3]|e|] eqn:S; cbn [bind] in H; [|discriminate H..]. injection H as <- <-. cbn [app]. eapply drawn_one; [exact V|]. eapply IH; eassumption.
  Qed.

  Lemma make_wells_all ws : forall qs l, make_wells ws qs = Ok l ->
    Forall2 (fun (wq' : swell T * pyval T) v => wx v = sx (fst wq') /\ wy v = sy (fst wq') /\ wr v = sr (fst wq') /\ num_of (snd wq') = Some (wq v)) (combine ws qs) l.
  Proof.
    induction ws as [|w ws IH]; intros [|q qs] l H; cbn [make_wells combine] in *; try (injection H as <-; constructor).
    destruct (as_num q) as [x|e|] eqn:Q; cbn [bind] in H; [|discriminate H..]. destruct (make_wells ws qs) as [r|e|] eqn:W; cbn [bind] in H; [|discriminate H..].
    injection H as <-. constructor; [|apply IH; exact W]. cbn [fst snd wx wy wr wq]. rewrite (as_num_some _ _ Q). auto.
  Qed.

  Lemma realization_made fuel la (s s' : pfield T) xt yt rt npaths duration base_ kv nv hv ws qs observations umbra confined tol maxstep pick recharge l :
    realization fuel la s xt yt rt npaths duration base_ kv nv hv ws qs observations umbra confined tol maxstep pick recharge = (s', Ok l) ->
    exists m tracks, logs_model l m /\ l_recharge l = recharge (coef m) /\ made la base_ xt yt ws observations pick qs kv nv hv m /\
      traced fuel xt yt rt duration tol maxstep npaths confined m tracks /\ length tracks = Z.to_nat npaths /\ calls fuel s (zone_calls umbra tracks) = (s', Ok tt).
  Proof.
    intros H. unfold realization in H.
    destruct (make_wells ws qs) as [wl|e|] eqn:W; [|discriminate H..]. cbn [bind] in H.
    destruct (as_num kv) as [k|e|] eqn:K; [|discriminate H..]. cbn [bind] in H.
    destruct (as_num hv) as [h|e|] eqn:Hh; [|discriminate H..]. cbn [bind] in H.
    destruct (num_of nv) as [p|] eqn:P.
    2:{ destruct (fit_regional_flow _ _ _ _ _) as [m1 [[ev C]|e|]]; cbn [bind] in H; [|discriminate H..].
        destruct (reshape6 _); cbn [bind] in H; [|discriminate H..]. unfold as_num in H. rewrite P in H. discriminate H. }
    destruct (fit_regional_flow _ _ _ _ _) as [m1 [[ev C]|e|]] eqn:F; cbn [bind] in H; [|discriminate H..].
    destruct (reshape6 (pick ev C)) as [c|e|] eqn:Q; cbn [bind] in H; [|discriminate H..].
    unfold as_num in H. rewrite P in H. cbn [bind] in H.
    destruct (compute_capturezone _ _ _ _ _ _ _ _ _ _ _ _) as [s1 [u|e|]] eqn:Z; cbn [bind] in H; [|discriminate H..].
    injection H as <- <-. destruct (capturezone_calls _ _ _ _ _ _ _ _ _ _ _ _ _ _ Z) as (tracks & T1 & T2 & T3).
    destruct (fit_fields _ _ _ _ _ _ _ F) as (F1 & F2 & F3 & F4 & F5 & F6 & F7). cbn [new_model base conductivity porosity thickness wells] in F1, F2, F3, F4, F5.
    exists (set_coef m1 c), tracks. split; [repeat split|]. split; [reflexivity|]. split; [|auto].
    unfold made. cbn [set_coef base conductivity porosity thickness wells xo yo coef]. rewrite F1, F2, F3, F4, F5.
    split; [reflexivity|]. split; [exact (as_num_some _ _ K)|]. split; [exact P|]. split; [exact (as_num_some _ _ Hh)|]. split; [exact F6|]. split; [exact F7|].
    split; [apply make_wells_all; exact W|]. exists m1, ev, C. split; [exact F|].
    clear - Q. destruct (pick ev C) as [|a1 [|a2 [|a3 [|a4 [|a5 [|a6 [|? ?]]]]]]]; cbn in Q; try discriminate Q; injection Q as <-; reflexivity.
  Qed.

  Lemma realizations_drawn fuel la count_ : forall entropy i g (s s' : pfield T) logs logs' xt yt rt npaths duration base_ c_dist p_dist t_dist ws observations umbra confined tol maxstep,
    realizations R mvn fuel la count_ entropy i g s logs xt yt rt npaths duration base_ c_dist p_dist t_dist ws observations umbra confined tol maxstep = Ok (s', logs') ->
    exists more values models zones g', logs' = logs ++ more /\ length more = count_ /\ length values = count_ /\ length models = count_ /\ length zones = count_ /\
      drawn R g (concat (repeat (map sq ws ++ [c_dist; p_dist; t_dist]) count_)) (concat values) g' /\
      (forall j l vs m tracks, nth_error more j = Some l -> nth_error values j = Some vs -> nth_error models j = Some m -> nth_error zones j = Some tracks ->
         (exists qs k n h, vs = qs ++ [k; n; h] /\ length qs = length ws /\ made la base_ xt yt ws observations (mvn (entropy (i + j)%nat)) qs k n h m) /\
         logs_model l m /\ l_recharge l = recharge_stochastic (coef m) /\
         traced fuel xt yt rt duration tol maxstep npaths confined m tracks /\ length tracks = Z.to_nat npaths) /\
      calls fuel s (concat (map (zone_calls umbra) zones)) = (s', Ok tt).
  Proof.
    induction count_ as [|c IH]; intros entropy i g s s' logs logs' xt yt rt npaths duration base_ c_dist p_dist t_dist ws observations umbra confined tol maxstep H; cbn [realizations] in H.
    - injection H as <- <-. exists [], [], [], [], g. rewrite app_nil_r. do 5 (split; [reflexivity|]). split; [constructor|]. split; [|reflexivity]. intros [|j]; discriminate.
    - destruct (sample_all R g (map sq ws)) as [[qs g1]|e|] eqn:S; cbn [bind] in H; [|discriminate H..].
      destruct (generate_random_variate R g1 c_dist) as [[kv g2]|e|] eqn:V1; cbn [bind] in H; [|discriminate H..].
      destruct (generate_random_variate R g2 p_dist) as [[nv g3]|e|] eqn:V2; cbn [bind] in H; [|discriminate H..].
      destruct (generate_random_variate R g3 t_dist) as [[hv g4]|e|] eqn:V3; cbn [bind] in H; [|discriminate H..].
      destruct (realization _ _ _ _ _ _ _ _ _ _ _ _ _ _ _ _ _ _ _ _ _) as [s1 [l|e|]] eqn:Z; cbn [bind] in H; [|discriminate H..].
      pose proof (sample_all_length R _ _ _ _ S) as SL. rewrite map_length in SL.
      destruct (realization_made _ _ _ _ _ _ _ _ _ _ _ _ _ _ _ _ _ _ _ _ _ _ _ Z) as (m & tracks & L1 & L2 & L3 & L4 & L5 & L6).
      destruct (IH _ _ _ _ _ _ _ _ _ _ _ _ _ _ _ _ _ _ _ _ _ _ H) as (more & values & models & zones & g' & M1 & M2 & M3 & M4 & M5 & M6 & M7 & M8).
      exists (l :: more), ((qs ++ [kv; nv; hv]) :: values), (m :: models), (tracks :: zones), g'.
      split; [rewrite M1, <- app_assoc; reflexivity|]. split; [cbn; congruence|]. split; [cbn; congruence|]. split; [cbn; congruence|]. split; [cbn; congruence|].
      split; [|split].
      + cbn [repeat concat]. rewrite <- !app_assoc. eapply drawn_all; [exact S|]. cbn [app]. eapply drawn_one; [exact V1|]. eapply drawn_one; [exact V2|]. eapply drawn_one; [exact V3|]. exact M6.
      + intros [|j] l' vs m' tr' J1 J2 J3 J4; cbn [nth_error] in *.
        * injection J1 as <-. injection J2 as <-. injection J3 as <-. injection J4 as <-. rewrite Nat.add_0_r. split; [exists qs, kv, nv, hv; auto|]. auto.
        * rewrite <- Nat.add_succ_comm. exact (M7 j l' vs m' tr' J1 J2 J3 J4).
      + cbn [map concat]. rewrite calls_app, L6. exact M8.
  Qed.
End Any.

(** What a stochastic run computes, draw by draw, in any arithmetic: realization after realization, the discharges of the wells in order, conductivity, porosity and
    thickness are drawn from one generator, each state used once; realization j fits its own model and draws its coefficients with the j-th entropy; its log line,
    its traces and its capture zone are those of that model. *)
Lemma c96_stochastic : forall (T : Type) (N : Num T) (G E : Type) (R : rng T G) (mvn : E -> list T -> list (list T) -> list T)
    fuel la entropy g target npaths duration nrealizations base_ c_dist p_dist t_dist ws observations spacing umbra confined tol maxstep s logs,
  create_stochastic R mvn fuel la entropy g target npaths duration nrealizations base_ c_dist p_dist t_dist ws observations
                    spacing umbra confined tol maxstep = Ok (s, logs) ->
  let n := Z.to_nat nrealizations in
  exists w s0 values models zones g',
    nth_error ws target = Some w /\ pf_init spacing spacing (sx w) (sy w) = Ok s0 /\
    length logs = n /\ length values = n /\ length models = n /\ length zones = n /\
    drawn R g (concat (repeat (map sq ws ++ [c_dist; p_dist; t_dist]) n)) (concat values) g' /\
    (forall j l vs m tracks, nth_error logs j = Some l -> nth_error values j = Some vs -> nth_error models j = Some m -> nth_error zones j = Some tracks ->
       (exists qs k n h, vs = qs ++ [k; n; h] /\ length qs = length ws /\ made la base_ (sx w) (sy w) ws observations (mvn (entropy j)) qs k n h m) /\
       logs_model l m /\ l_recharge l = recharge_stochastic (coef m) /\
       traced fuel (sx w) (sy w) (sr w) duration tol maxstep npaths confined m tracks /\ length tracks = Z.to_nat npaths) /\
    calls fuel s0 (concat (map (zone_calls umbra) zones)) = (s, Ok tt).
Proof.
  intros T N G E R mvn fuel la entropy g target npaths duration nrealizations base_ c_dist p_dist t_dist ws observations spacing umbra confined tol maxstep s logs H n.
  unfold create_stochastic in H. destruct (nth_error ws target) as [w|]; [|discriminate H].
  destruct (pf_init spacing spacing (sx w) (sy w)) as [s0|e|] eqn:I; cbn [bind] in H; [|discriminate H..].
  destruct (realizations_drawn _ _ _ _ _ _ _ _ _ _ _ _ _ _ _ _ _ _ _ _ _ _ _ _ _ _ _ H) as (more & values & models & zones & g' & M1 & M2 & M3 & M4 & M5 & M6 & M7 & M8).
  cbn [app] in M1. subst more. exists w, s0, values, models, zones, g'. do 7 (split; [assumption || reflexivity|]). split; [exact M7|exact M8].
Qed.

(** The generator is used once for every pair or triple among the distributions, in every realization. *)
Lemma c96_draws : forall (T : Type) (N : Num T) (G : Type) (R : rng T G) (counter : G -> nat), counts_draws R counter -> forall g ds vs g', drawn R g ds vs g' ->
  counter g' = (counter g + length (filter is_tuple ds))%nat /\ length vs = length ds.
Proof.
  intros T N G R counter (C1 & C2) g ds vs g' D. induction D as [g|g v ds vs g' NT D (IH & L)|g a b x y v g1 ds vs g' _ _ Q D (IH & L)|g a b c x y z v g1 ds vs g' _ _ _ Q D (IH & L)].
  - split; [cbn; lia|reflexivity].
  - split; [|cbn; congruence]. destruct v as [| | | | |l|l]; cbn [filter is_tuple]; try exact IH. destruct (NT l). reflexivity.
  - specialize (C1 g x y). rewrite Q in C1. cbn [snd] in C1. split; [cbn [filter is_tuple length]; lia|cbn; congruence].
  - specialize (C2 g x y z). rewrite Q in C2. cbn [snd] in C2. split; [cbn [filter is_tuple length]; lia|cbn; congruence].
Qed.
