(** * The drivers: properties C59-C62 *)
From Coq Require Import Reals Lra Lia SpecFloat.
From Verif Require Import Py Num NumXR ModelField ModelAquifer ModelTrace ModelDist ModelDriver SpecDriver.
From Verif Require Import ProofFloat ProofFieldFloat ProofTraceFlow.

Lemma Forall2_len {A B} (P : A -> B -> Prop) l l' : Forall2 P l l' -> length l = length l'.
Proof. induction 1; cbn; congruence. Qed.

Section Any.
  Context {T : Type} {N : Num T}.

  Lemma calls_app fuel l1 : forall (s : pfield T) l2,
    calls fuel s (l1 ++ l2) = match calls fuel s l1 with (s', Ok _) => calls fuel s' l2 | r => r end.
  Proof.
    induction l1 as [|o l1 IH]; intros s l2; cbn [app calls]; [reflexivity|].
    destruct (run_op fuel s o) as [s' [u|e|]]; [apply IH|reflexivity|reflexivity].
  Qed.
  Lemma calls_tt fuel l (s s' : pfield T) u : calls fuel s l = (s', Ok u) -> calls fuel s l = (s', Ok tt).
  Proof. destruct u. auto. Qed.

  Lemma trace_paths_calls fuel xt yt rt duration umbra tol maxstep f thetas : forall (s s' : pfield T) u,
    trace_paths fuel s xt yt rt duration umbra tol maxstep f thetas = (s', Ok u) ->
    exists tracks,
      Forall2 (fun th t => exists tr, let (x, y) := start_point xt yt rt th in
                 compute_backtrace fuel x y duration tol maxstep f = Ok tr /\ t = vertices tr) thetas tracks /\
      calls fuel s (map (fun t => ORasterize (map fst t) (map snd t) umbra) tracks) = (s', Ok tt).
  Proof.
    induction thetas as [|th thetas IH]; intros s s' u H; cbn [trace_paths] in H.
    - injection H as <- <-. exists []. split; [constructor|reflexivity].
    - destruct (start_point xt yt rt th) as [x y] eqn:E.
      destruct (compute_backtrace fuel x y duration tol maxstep f) as [tr|e|] eqn:B; [|discriminate H..].
      destruct (rasterize fuel s (map fst (vertices tr)) (map snd (vertices tr)) umbra) as [s1 [u1|e|]] eqn:Q; [|discriminate H..].
      destruct (IH _ _ _ H) as (tracks & F & C). exists (vertices tr :: tracks). split.
      + constructor; [|exact F]. exists tr. rewrite E. auto.
      + cbn [map calls run_op]. rewrite Q. exact C.
  Qed.

  Lemma zrange_length a b : length (zrange a b) = Z.to_nat (b - a).
  Proof. unfold zrange. rewrite map_length, seq_length. reflexivity. Qed.

  Lemma capturezone_calls fuel xt yt rt npaths duration (s s' : pfield T) umbra weight tol maxstep f u :
    compute_capturezone fuel xt yt rt npaths duration s umbra weight tol maxstep f = (s', Ok u) ->
    exists tracks,
      (exists thetas, start_angles npaths = Ok thetas /\
        Forall2 (fun th t => exists tr, let (x, y) := start_point xt yt rt th in
                   compute_backtrace fuel x y duration tol maxstep f = Ok tr /\ t = vertices tr) thetas tracks) /\
      length tracks = Z.to_nat npaths /\
      calls fuel s (map (fun t => ORasterize (map fst t) (map snd t) umbra) tracks ++ [ORegister weight]) = (s', Ok tt).
  Proof.
    unfold compute_capturezone. destruct (start_angles npaths) as [thetas|e|] eqn:A; [|discriminate..].
    destruct (trace_paths fuel s xt yt rt duration umbra tol maxstep f thetas) as [s1 [u1|e|]] eqn:P; [|discriminate..].
    intros H. destruct (trace_paths_calls _ _ _ _ _ _ _ _ _ _ _ _ _ P) as (tracks & F & C).
    exists tracks. split; [exists thetas; auto|]. split.
    - rewrite <- (Forall2_len _ _ _ F). unfold start_angles in A. destruct (npaths + 1 <? 0)%Z; [discriminate A|]. injection A as <-.
      rewrite map_length, zrange_length, Z.sub_0_r. reflexivity.
    - rewrite calls_app, C. cbn [calls run_op]. rewrite H. destruct u. reflexivity.
  Qed.

  Lemma make_wells_located ws : forall qs l, length qs = length ws -> make_wells ws qs = Ok l ->
    map (fun w => (wx w, wy w, wr w)) l = map (fun w : swell T => (sx w, sy w, sr w)) ws.
  Proof.
    induction ws as [|w ws IH]; intros [|q qs] l L H; try discriminate L; cbn [make_wells] in H.
    - injection H as <-. reflexivity.
    - destruct (as_num q); [|discriminate H..]. cbn [bind] in H. destruct (make_wells ws qs) as [r|e|] eqn:E; [|discriminate H..].
      cbn [bind] in H. injection H as <-. cbn [map wx wy wr]. f_equal. apply (IH qs); [|exact E]. injection L. auto.
  Qed.

  Lemma fit_fields (la : linalg T) m l x0 y0 m' r : fit_regional_flow la m l x0 y0 = (m', Ok r) ->
    base m' = base m /\ conductivity m' = conductivity m /\ porosity m' = porosity m /\ thickness m' = thickness m /\
    wells m' = wells m /\ xo m' = x0 /\ yo m' = y0.
  Proof.
    unfold fit_regional_flow. destruct (construct_fit m l x0 y0) as [[wa wb]|e|]; cbn [bind]; [|discriminate..].
    destruct (compute_fit la wa wb) as [[ev C]|e|]; [|discriminate..].
    destruct (reshape6 ev) as [c|e|]; [|discriminate..]. intros H. injection H as <- _. repeat split.
  Qed.

  (** One realization that returned. *)
  Lemma realization_calls fuel la (s s' : pfield T) xt yt rt npaths duration base_ kv nv hv ws qs observations umbra confined tol maxstep pick recharge l :
    length qs = length ws ->
    realization fuel la s xt yt rt npaths duration base_ kv nv hv ws qs observations umbra confined tol maxstep pick recharge = (s', Ok l) ->
    exists m tracks, logs_model l m /\ l_recharge l = recharge (coef m) /\ base m = base_ /\ located m ws /\ xo m = xt /\ yo m = yt /\
      num_of kv = Some (conductivity m) /\ num_of nv = Some (porosity m) /\ num_of hv = Some (thickness m) /\
      (exists ev C, pick ev C = coef_list (coef m)) /\
      traced fuel xt yt rt duration tol maxstep npaths confined m tracks /\
      length tracks = Z.to_nat npaths /\ calls fuel s (zone_calls umbra tracks) = (s', Ok tt).
  Proof.
    intros L H. unfold realization in H.
    destruct (make_wells ws qs) as [wl|e|] eqn:W; [|discriminate H..]. cbn [bind] in H.
    destruct (as_num kv) as [k|e|] eqn:K; [|discriminate H..]. cbn [bind] in H.
    destruct (as_num hv) as [h|e|] eqn:Hh; [|discriminate H..]. cbn [bind] in H.
    destruct (num_of nv) as [p|] eqn:P.
    2:{ destruct (fit_regional_flow _ _ _ _ _) as [m1 [[ev C]|e|]]; cbn [bind] in H; [|discriminate H..].
        destruct (reshape6 _); cbn [bind] in H; [|discriminate H..]. unfold as_num in H. rewrite P in H. discriminate H. }
    destruct (fit_regional_flow _ _ _ _ _) as [m1 [[ev C]|e|]] eqn:F; cbn [bind] in H; [|discriminate H..].
    destruct (reshape6 (pick ev C)) as [c|e|] eqn:Q; cbn [bind] in H; [|discriminate H..].
    unfold as_num in H. rewrite P in H. cbn [bind] in H.
    destruct (compute_capturezone _ _ _ _ _ _ _ _ _ _ _ _) as [s1 [u|e|]] eqn:Z; cbn [bind] in H; [|discriminate H..].
    injection H as <- <-. destruct (capturezone_calls _ _ _ _ _ _ _ _ _ _ _ _ _ _ Z) as (tracks & T1 & T2 & T3).
    destruct (fit_fields _ _ _ _ _ _ _ F) as (F1 & F2 & F3 & F4 & F5 & F6 & F7).
    exists (set_coef m1 c), tracks. split; [repeat split|]. split; [reflexivity|].
    cbn [set_coef base conductivity porosity thickness wells xo yo coef].
    split; [exact F1|]. split; [unfold located; cbn [set_coef wells]; rewrite F5; cbn [new_model wells]; eapply make_wells_located; eassumption|].
    split; [exact F6|]. split; [exact F7|].
    split; [rewrite F2; unfold as_num in K; destruct (num_of kv); [injection K as ->; reflexivity|discriminate K]|].
    split; [rewrite F3; reflexivity|].
    split; [rewrite F4; unfold as_num in Hh; destruct (num_of hv); [injection Hh as ->; reflexivity|discriminate Hh]|].
    split; [exists ev, C; clear - Q; destruct (pick ev C) as [|a1 [|a2 [|a3 [|a4 [|a5 [|a6 [|? ?]]]]]]]; cbn in Q; try discriminate Q; injection Q as <-; reflexivity|].
    split; [exact T1|]. split; [exact T2|]. exact T3.
  Qed.

  (** ** Counting *)
  Lemma clear_false r row b : In row (clear r) -> In b row -> b = false.
  Proof. unfold clear. rewrite in_map_iff. intros (r0 & <- & _) H. apply in_map_iff in H. destruct H as (b0 & <- & _). reflexivity. Qed.

  Lemma calls_inv fuel n (Hn : counts_exactly T n) l : forall s s' k,
    Forall (fun o : op T => match o with ORegister w => w = nZ 1 | _ => True end) l ->
    inv (fun k W => (0 <= k)%Z /\ W = nZ k) (fun k _ v => exists i, (0 <= i <= k)%Z /\ v = nZ i) k s -> (body s = None -> k = 0%Z) -> (0 <= k)%Z -> (k + count l <= n)%Z ->
    calls fuel s l = (s', Ok tt) ->
    inv (fun k W => (0 <= k)%Z /\ W = nZ k) (fun k _ v => exists i, (0 <= i <= k)%Z /\ v = nZ i) (k + count l) s'.
  Proof.
    assert (Z0 : forall k (W : T), (0 <= k)%Z /\ W = nZ k -> exists i, (0 <= i <= k)%Z /\ nZ 0 = nZ i) by (intros k W [H _]; exists 0%Z; split; [lia|reflexivity]).
    assert (J0 : (0 <= 0)%Z /\ (nZ 0 : T) = nZ 0) by (split; [lia|reflexivity]).
    induction l as [|o l IH]; intros s s' k Hl Hi Hb Hk Hc H.
    - cbn in H. injection H as <-. unfold count. cbn. rewrite Z.add_0_r. exact Hi.
    - inversion Hl as [|? ? Ho Hl']; subst. cbn [calls] in H.
      assert (Hcount : count (o :: l) = ((if is_register o then 1 else 0) + count l)%Z).
      { unfold count. cbn [filter]. destruct (is_register o); [|reflexivity]. cbn [length]. lia. }
      assert (0 <= count l)%Z by (unfold count; lia).
      destruct (run_op fuel s o) as [s1 [u|e|]] eqn:R; [|discriminate H..].
      destruct (is_register o) eqn:Er.
      + destruct o; try discriminate Er. cbn [run_op] in R. subst w. unfold register in R. destruct (body s) as [g|] eqn:Eb; [|discriminate R].
        injection R as <- <-. rewrite Hcount, Z.add_assoc. eapply IH; [exact Hl'| | |lia|lia|exact H].
        * intros g' Eg. injection Eg as <-. destruct (Hi g Eb) as [[_ HW] HQ]. split; cbn [total_weight pgrid].
          -- split; [lia|]. rewrite HW. apply Hn. lia.
          -- intros row v H1 H2. destruct (in_mask_add _ _ _ _ _ H1 H2) as (r0 & v0 & H3 & H4 & [->| ->]).
             ++ destruct (HQ r0 v0 H3 H4) as (i & Hi1 & ->). exists (i + 1)%Z. split; [lia|]. apply Hn. lia.
             ++ destruct (HQ r0 v0 H3 H4) as (i & Hi1 & ->). exists i. split; [lia|reflexivity].
        * discriminate.
      + destruct (inv_op (fun k W => (0 <= k)%Z /\ W = nZ k) (fun k _ v => exists i, (0 <= i <= k)%Z /\ v = nZ i) Z0 J0 fuel k s o Hi Hb Er) as (I1 & I2 & _). rewrite R in I1, I2. cbn [fst] in I1, I2.
        rewrite Hcount, Z.add_0_l. eapply IH; eauto; lia.
  Qed.

  Lemma zones_unit umbra zones : Forall (fun o : op T => match o with ORegister w => w = nZ 1 | _ => True end) (concat (map (zone_calls umbra) zones)).
  Proof.
    induction zones as [|z zones IH]; cbn [map concat]; [constructor|]. apply Forall_app. split; [|exact IH]. unfold zone_calls. apply Forall_app. split.
    - induction z; constructor; auto.
    - repeat constructor.
  Qed.
  Lemma count_app (l1 l2 : list (op T)) : count (l1 ++ l2) = (count l1 + count l2)%Z.
  Proof. unfold count. rewrite filter_app, app_length. lia. Qed.
  Lemma count_zone umbra z : count (zone_calls umbra z) = 1%Z.
  Proof.
    unfold zone_calls. rewrite count_app. induction z as [|t z IH]; [reflexivity|exact IH].
  Qed.
  Lemma count_zones umbra zones : count (concat (map (zone_calls umbra) zones)) = Z.of_nat (length zones).
  Proof. induction zones as [|z zones IH]; [reflexivity|]. cbn [map concat length]. rewrite count_app, count_zone, IH. lia. Qed.

  (** A field after a positive number of registered zones. *)
  Lemma zones_counted fuel n (Hn : counts_exactly T n) dx dy xo yo s0 umbra zones (s : pfield T) :
    pf_init dx dy xo yo = Ok s0 -> zones <> [] -> (Z.of_nat (length zones) <= n)%Z ->
    calls fuel s0 (concat (map (zone_calls umbra) zones)) = (s, Ok tt) -> counted s (Z.of_nat (length zones)).
  Proof.
    intros H0 Hz Hl HC.
    assert (Z0 : forall k (W : T), (0 <= k)%Z /\ W = nZ k -> exists i, (0 <= i <= k)%Z /\ nZ 0 = nZ i) by (intros k W [H _]; exists 0%Z; split; [lia|reflexivity]).
    assert (J0 : (0 <= 0)%Z /\ (nZ 0 : T) = nZ 0) by (split; [lia|reflexivity]).
    pose proof (inv_init (fun k W => (0 <= k)%Z /\ W = nZ k) (fun k _ v => exists i, (0 <= i <= k)%Z /\ v = nZ i) Z0 J0 dx dy xo yo s0 H0) as Hi.
    pose proof (calls_inv fuel n Hn _ s0 s 0%Z (zones_unit umbra zones) Hi (fun _ => eq_refl) ltac:(lia) ltac:(rewrite count_zones; lia) HC) as I.
    rewrite count_zones, Z.add_0_l in I.
    (* the last call was a register *)
    destruct (exists_last Hz) as (zs & z & ->). rewrite map_app, concat_app in HC. cbn [map concat] in HC. rewrite app_nil_r in HC.
    unfold zone_calls at 2 in HC. rewrite app_assoc, calls_app in HC.
    destruct (calls fuel s0 _) as [s1 [u|e|]]; [|discriminate HC..]. cbn [calls run_op] in HC. unfold register in HC.
    destruct (body s1) as [g|]; [|discriminate HC]. injection HC as <-. eexists. split; [reflexivity|].
    destruct (I _ eq_refl) as [[_ HW] HQ]. cbn [total_weight pgrid rgrid] in *. split; [exact HW|]. split; [exact HQ|].
    intros row b. apply clear_false.
  Qed.

  (** ** The stochastic loop *)
  Context {G E : Type} (R : rng T G) (mvn : E -> list T -> list (list T) -> list T).

  Lemma sample_all_length l : forall g vs g', sample_all R g l = Ok (vs, g') -> length vs = length l.
  Proof.
    induction l as [|a l IH]; intros g vs g' H; cbn [sample_all] in H; [injection H as <- _; reflexivity|].
    destruct (generate_random_variate R g a) as [[v g1]|e|]; cbn [bind] in H; [|discriminate H..].
    destruct (sample_all R g1 l) as [[vs1 g2]|e|] eqn:S; cbn [bind] in H; [|discriminate H..]. injection H as <- _. cbn. f_equal. eauto.
  Qed.

  Lemma realizations_history fuel la count_ : forall entropy i g (s s' : pfield T) logs logs' xt yt rt npaths duration base_ c_dist p_dist t_dist ws observations umbra confined tol maxstep,
    realizations R mvn fuel la count_ entropy i g s logs xt yt rt npaths duration base_ c_dist p_dist t_dist ws observations umbra confined tol maxstep = Ok (s', logs') ->
    exists more zones,
      logs' = logs ++ more /\ length more = count_ /\
      Forall2 (fun l tracks => exists m, logs_model l m /\ l_recharge l = recharge_stochastic (coef m) /\ base m = base_ /\ located m ws /\ xo m = xt /\ yo m = yt /\
                 traced fuel xt yt rt duration tol maxstep npaths confined m tracks /\ length tracks = Z.to_nat npaths) more zones /\
      calls fuel s (concat (map (zone_calls umbra) zones)) = (s', Ok tt).
  Proof.
    induction count_ as [|k IH]; intros entropy i g s s' logs logs' xt yt rt npaths duration base_ c_dist p_dist t_dist ws observations umbra confined tol maxstep H; cbn [realizations] in H.
    - injection H as <- <-. exists [], []. rewrite app_nil_r. repeat split. constructor.
    - destruct (sample_all R g (map sq ws)) as [[qs g1]|e|] eqn:S; cbn [bind] in H; [|discriminate H..].
      destruct (generate_random_variate R g1 c_dist) as [[kv g2]|e|]; cbn [bind] in H; [|discriminate H..].
      destruct (generate_random_variate R g2 p_dist) as [[nv g3]|e|]; cbn [bind] in H; [|discriminate H..].
      destruct (generate_random_variate R g3 t_dist) as [[hv g4]|e|]; cbn [bind] in H; [|discriminate H..].
      destruct (realization _ _ _ _ _ _ _ _ _ _ _ _ _ _ _ _ _ _ _ _ _) as [s1 [l|e|]] eqn:Z; cbn [bind] in H; [|discriminate H..].
      apply sample_all_length in S. rewrite map_length in S.
      destruct (realization_calls _ _ _ _ _ _ _ _ _ _ _ _ _ _ _ _ _ _ _ _ _ _ _ S Z) as (m & tracks & L1 & L2 & L3 & L4 & L5 & L6 & _ & _ & _ & _ & L7 & L8 & L9).
      destruct (IH _ _ _ _ _ _ _ _ _ _ _ _ _ _ _ _ _ _ _ _ _ _ H) as (more & zones & M1 & M2 & M3 & M4).
      exists (l :: more), (tracks :: zones). split; [rewrite M1, <- app_assoc; reflexivity|]. split; [cbn; f_equal; exact M2|]. split.
      + constructor; [|exact M3]. exists m. auto 10.
      + cbn [map concat]. rewrite calls_app, L9. exact M4.
  Qed.
End Any.

(** ** C60 *)

(** What a stochastic run does: from the empty field around the target well, as many capture zones as
    realizations are recorded; each is made of the traces, from the given start points, in a model with the
    logged parameters, the given wells and origin at the target. *)
Lemma c60_history : forall (T : Type) (N : Num T) (G E : Type) (R : rng T G) (mvn : E -> list T -> list (list T) -> list T)
    fuel la entropy g target npaths duration nrealizations base_ c_dist p_dist t_dist ws observations spacing umbra confined tol maxstep s logs,
  create_stochastic R mvn fuel la entropy g target npaths duration nrealizations base_ c_dist p_dist t_dist ws observations
                    spacing umbra confined tol maxstep = Ok (s, logs) ->
  exists w s0 zones,
    nth_error ws target = Some w /\ pf_init spacing spacing (sx w) (sy w) = Ok s0 /\
    length logs = Z.to_nat nrealizations /\
    Forall2 (fun l tracks => exists m, logs_model l m /\ l_recharge l = recharge_stochastic (coef m) /\ base m = base_ /\ located m ws /\
               xo m = sx w /\ yo m = sy w /\
               traced fuel (sx w) (sy w) (sr w) duration tol maxstep npaths confined m tracks /\
               length tracks = Z.to_nat npaths) logs zones /\
    calls fuel s0 (concat (map (zone_calls umbra) zones)) = (s, Ok tt).
Proof.
  intros T N G E R mvn fuel la entropy g target npaths duration nrealizations base_ c_dist p_dist t_dist ws observations spacing umbra confined tol maxstep s logs H.
  unfold create_stochastic in H. destruct (nth_error ws target) as [w|]; [|discriminate H].
  destruct (pf_init spacing spacing (sx w) (sy w)) as [s0|e|] eqn:I; cbn [bind] in H; [|discriminate H..].
  destruct (realizations_history _ _ _ _ _ _ _ _ _ _ _ _ _ _ _ _ _ _ _ _ _ _ _ _ _ _ _ H) as (more & zones & M1 & M2 & M3 & M4).
  cbn [app] in M1. subst more. exists w, s0, zones. auto 10.
Qed.

(** Total weight, accumulated weights and marks after a stochastic run, in any arithmetic in which adding ones
    is exact up to the number of realizations. *)
Lemma c60_any_arithmetic : forall (T : Type) (N : Num T) (G E : Type) (R : rng T G) (mvn : E -> list T -> list (list T) -> list T)
    fuel la entropy g target npaths duration nrealizations base_ c_dist p_dist t_dist ws observations spacing umbra confined tol maxstep s logs,
  create_stochastic R mvn fuel la entropy g target npaths duration nrealizations base_ c_dist p_dist t_dist ws observations
                    spacing umbra confined tol maxstep = Ok (s, logs) ->
  (0 < nrealizations)%Z -> counts_exactly T nrealizations -> counted s nrealizations.
Proof.
  intros T N G E R mvn fuel la entropy g target npaths duration nrealizations base_ c_dist p_dist t_dist ws observations spacing umbra confined tol maxstep s logs H Hn HC.
  apply c60_history in H. destruct H as (w & s0 & zones & _ & I & L & F & C).
  pose proof (Forall2_len _ _ _ F) as Hz. assert (EZ : Z.of_nat (length zones) = nrealizations) by lia.
  rewrite <- EZ. eapply zones_counted; [exact HC|exact I| |lia|exact C]. intros ->. cbn in EZ. lia.
Qed.

(** In exact arithmetic. *)
Lemma c60_stochastic : forall (G E : Type) (R : rng xr G) (mvn : E -> list xr -> list (list xr) -> list xr)
    fuel la entropy g target npaths duration nrealizations base_ c_dist p_dist t_dist ws observations spacing umbra confined tol maxstep s logs,
  create_stochastic R mvn fuel la entropy g target npaths duration nrealizations base_ c_dist p_dist t_dist ws observations
                    spacing umbra confined tol maxstep = Ok (s, logs) ->
  (0 < nrealizations)%Z -> counted s nrealizations.
Proof.
  intros. eapply c60_any_arithmetic; [eassumption|assumption|]. intros k _. cbn. apply f_equal. rewrite plus_IZR. reflexivity.
Qed.

(** In binary64, up to 2^53 realizations. *)
Lemma c60_binary64 : forall (lm : libm) (G E : Type) (R : rng spec_float G) (mvn : E -> list spec_float -> list (list spec_float) -> list spec_float)
    fuel la entropy g target npaths duration nrealizations base_ c_dist p_dist t_dist ws observations spacing umbra confined tol maxstep s logs,
  @create_stochastic _ (SF lm) _ _ R mvn fuel la entropy g target npaths duration nrealizations base_ c_dist p_dist t_dist ws observations
                    spacing umbra confined tol maxstep = Ok (s, logs) ->
  (0 < nrealizations <= 2 ^ 53)%Z -> @counted _ (SF lm) s nrealizations.
Proof.
  intros. eapply c60_any_arithmetic; [eassumption|lia|]. intros k Hk. apply count_step. lia.
Qed.

(** ** C59 *)

(** What a deterministic run does: one capture zone, in the model with the means of the distributions. *)
Lemma c59_history : forall (T : Type) (N : Num T)
    fuel la target npaths duration base_ c_dist p_dist t_dist ws observations spacing umbra confined tol maxstep (s : pfield T) l,
  create_deterministic fuel la target npaths duration base_ c_dist p_dist t_dist ws observations
                       spacing umbra confined tol maxstep = Ok (s, l) ->
  exists w s0 tracks m k n h,
    nth_error ws target = Some w /\ pf_init spacing spacing (sx w) (sy w) = Ok s0 /\
    compute_variate_mean c_dist = Ok k /\ compute_variate_mean p_dist = Ok n /\ compute_variate_mean t_dist = Ok h /\
    num_of k = Some (l_conductivity l) /\ num_of n = Some (l_porosity l) /\ num_of h = Some (l_thickness l) /\
    logs_model l m /\ l_recharge l = recharge_deterministic (coef m) /\ base m = base_ /\ located m ws /\ xo m = sx w /\ yo m = sy w /\
    traced fuel (sx w) (sy w) (sr w) duration tol maxstep npaths confined m tracks /\ length tracks = Z.to_nat npaths /\
    calls fuel s0 (zone_calls umbra tracks) = (s, Ok tt).
Proof.
  intros T N fuel la target npaths duration base_ c_dist p_dist t_dist ws observations spacing umbra confined tol maxstep s l H.
  unfold create_deterministic in H. destruct (nth_error ws target) as [w|]; [|discriminate H].
  destruct (pf_init spacing spacing (sx w) (sy w)) as [s0|e|] eqn:I; cbn [bind] in H; [|discriminate H..].
  destruct (map_res _ ws) as [qs|e|] eqn:Q; cbn [bind] in H; [|discriminate H..].
  destruct (compute_variate_mean c_dist) as [k|e|]; cbn [bind] in H; [|discriminate H..].
  destruct (compute_variate_mean p_dist) as [n|e|]; cbn [bind] in H; [|discriminate H..].
  destruct (compute_variate_mean t_dist) as [h|e|]; cbn [bind] in H; [|discriminate H..].
  destruct (realization _ _ _ _ _ _ _ _ _ _ _ _ _ _ _ _ _ _ _ _ _) as [s1 [l1|e|]] eqn:Z; cbn [bind] in H; [|discriminate H..].
  injection H as <- <-.
  assert (L : length qs = length ws).
  { clear - Q. revert qs Q. induction ws as [|a ws IH]; intros qs Q; cbn in Q; [injection Q as <-; reflexivity|].
    destruct (compute_variate_mean _); cbn [bind] in Q; [|discriminate Q..]. destruct (map_res _ ws); cbn [bind] in Q; [|discriminate Q..].
    injection Q as <-. cbn. f_equal. apply IH. reflexivity. }
  destruct (realization_calls _ _ _ _ _ _ _ _ _ _ _ _ _ _ _ _ _ _ _ _ _ _ _ L Z) as (m & tracks & L1 & L2 & L3 & L4 & L5 & L6 & L7 & L8 & L9 & _ & L10 & L11 & L12).
  exists w, s0, tracks, m, k, n, h. pose proof L1 as (K1 & K2 & K3 & _). rewrite K1, K2, K3. auto 20.
Qed.

(** In any arithmetic with 0 + 1 = 1: total weight 1, accumulated weights 0 or 1, no mark pending. *)
Lemma c59_any_arithmetic : forall (T : Type) (N : Num T)
    fuel la target npaths duration base_ c_dist p_dist t_dist ws observations spacing umbra confined tol maxstep (s : pfield T) l,
  create_deterministic fuel la target npaths duration base_ c_dist p_dist t_dist ws observations
                       spacing umbra confined tol maxstep = Ok (s, l) ->
  counts_exactly T 1 -> counted s 1.
Proof.
  intros T N fuel la target npaths duration base_ c_dist p_dist t_dist ws observations spacing umbra confined tol maxstep s l H HC.
  apply c59_history in H. destruct H as (w & s0 & tracks & m & k & n & h & _ & I & _ & _ & _ & _ & _ & _ & _ & _ & _ & _ & _ & _ & _ & _ & C).
  change 1%Z with (Z.of_nat (length [tracks])). eapply zones_counted; [exact HC|exact I|discriminate|cbn; lia|].
  cbn [map concat]. rewrite app_nil_r. exact C.
Qed.

Lemma c59_deterministic : forall
    fuel la target npaths duration base_ c_dist p_dist t_dist ws observations spacing umbra confined tol maxstep (s : pfield xr) l,
  create_deterministic fuel la target npaths duration base_ c_dist p_dist t_dist ws observations
                       spacing umbra confined tol maxstep = Ok (s, l) ->
  counted s 1.
Proof.
  intros. eapply c59_any_arithmetic; [eassumption|]. intros k _. cbn. apply f_equal. rewrite plus_IZR. reflexivity.
Qed.

Lemma c59_binary64 : forall (lm : libm)
    fuel la target npaths duration base_ c_dist p_dist t_dist ws observations spacing umbra confined tol maxstep (s : pfield spec_float) l,
  @create_deterministic _ (SF lm) fuel la target npaths duration base_ c_dist p_dist t_dist ws observations
                       spacing umbra confined tol maxstep = Ok (s, l) ->
  @counted _ (SF lm) s 1.
Proof. intros. eapply c59_any_arithmetic; [eassumption|]. intros k Hk. apply count_step. lia. Qed.
