(** * Backtraces: paths, elapsed time, tolerance, failures, reversal (C36-C38, C40, C41, C45) *)
From Coq Require Import Reals Lra Lia Psatz.
From Verif Require Import Py Num NumXR ModelTrace SpecTrace ProofTrace.
Local Open Scope R_scope.

(** ** Shape of the path *)
Definition linked (maxstep : xr) (vs : list (vec xr)) : Prop :=
  forall i a b, nth_error vs i = Some a -> nth_error vs (S i) = Some b ->
    exists p q, a = fvec p /\ b = fvec q /\ below (pdist p q) maxstep.

Lemma accept_points f xy dt k1 xyt k7 est ds tol maxstep :
  dp_step f xy dt k1 = Ok (xyt, k7, est, ds) -> nlt est tol = true -> nlt ds maxstep = true ->
  exists p q, xy = fvec p /\ xyt = fvec q /\ below (pdist p q) maxstep.
Proof.
  intros H Hest Hds. unfold dp_step in H.
  bindinv H k2 E2. bindinv H k3 E3. bindinv H k4 E4. bindinv H k5 E5. bindinv H k6 E6. bindinv H k7' E7.
  match type of H with Ok (?X, _, ?A, ?B) = _ => remember A as estx eqn:Eest; remember B as dsx eqn:Eds; remember X as xx eqn:EX end.
  clear EX Eest. injection H as <- <- <- <-. subst dsx.
  destruct (norm2_below _ _ Hds) as (pd & Ed & Ed' & Hbd).
  destruct (fvec_sub_inv _ _ _ Ed) as (q & p & -> & ->). exists p, q. split; [reflexivity|]. split; [reflexivity|].
  apply below_nlt. rewrite <- norm2_sub. exact Hds.
Qed.

Lemma linked_snoc maxstep vs a b p q : linked maxstep (vs ++ [a]) -> a = fvec p -> b = fvec q -> below (pdist p q) maxstep ->
  linked maxstep ((vs ++ [a]) ++ [b]).
Proof.
  intros H Ea Eb Hb i x y Hx Hy. assert (HL : (S i < length ((vs ++ [a]) ++ [b]))%nat) by (apply nth_error_Some; congruence).
  rewrite !app_length in HL. cbn in HL.
  destruct (Nat.eq_dec i (length vs)) as [->|Hi].
  - rewrite nth_error_app1 in Hx by (rewrite app_length; cbn; lia). rewrite nth_error_app2, Nat.sub_diag in Hx by lia. cbn in Hx. injection Hx as <-.
    rewrite nth_error_app2 in Hy by (rewrite app_length; cbn; lia). rewrite app_length in Hy. cbn [length] in Hy.
    replace (S (length vs) - (length vs + 1))%nat with 0%nat in Hy by lia. cbn in Hy. injection Hy as <-. exists p, q. auto.
  - rewrite nth_error_app1 in Hx by (rewrite app_length; cbn; lia). rewrite nth_error_app1 in Hy by (rewrite app_length; cbn; lia).
    now apply (H i).
Qed.

Lemma loop_linked f D tol maxstep n : forall t dt xy k1 vs tr,
  trace_loop n f D tol maxstep t dt xy k1 (vs ++ [xy]) = Ok tr -> linked maxstep (vs ++ [xy]) ->
  linked maxstep (vertices tr).
Proof.
  induction n as [|n IH]; intros t dt xy k1 vs tr H HL; [discriminate|]. cbn [trace_loop] in H.
  destruct (nlt (nabs t) (nabs D)); [|injection H as <-; exact HL].
  set (dt1 := if nlt (nabs D) _ then _ else _) in *. clearbody dt1.
  destruct (dp_step f xy dt1 k1) as [[[[xyt k7] est] ds]|e|] eqn:E; [|injection H as <-; exact HL|discriminate].
  destruct (nlt est tol && nlt ds maxstep) eqn:A.
  - apply andb_prop in A. destruct A as [A1 A2]. destruct (accept_points _ _ _ _ _ _ _ _ _ _ E A1 A2) as (p & q & -> & -> & Hb).
    eapply IH; [exact H|]. eapply linked_snoc; eauto.
  - eapply IH; [exact H|exact HL].
Qed.

Lemma loop_extends f D tol maxstep n : forall t dt xy k1 acc tr,
  trace_loop n f D tol maxstep t dt xy k1 acc = Ok tr -> exists more, vertices tr = acc ++ more.
Proof.
  induction n as [|n IH]; intros t dt xy k1 acc tr H; [discriminate|]. cbn [trace_loop] in H.
  destruct (nlt (nabs t) (nabs D)); [|injection H as <-; exists []; now rewrite app_nil_r].
  set (dt1 := if nlt (nabs D) _ then _ else _) in *. clearbody dt1.
  destruct (dp_step f xy dt1 k1) as [[[[xyt k7] est] ds]|e|] eqn:E; [|injection H as <-; exists []; now rewrite app_nil_r|discriminate].
  destruct (nlt est tol && nlt ds maxstep).
  - apply IH in H. destruct H as (more & ->). exists (xyt :: more). now rewrite <- app_assoc.
  - now apply IH in H.
Qed.

(** C36.  For every start point, duration, tolerances (NaN and infinities included) and velocity
    function, the path starts at the start point; any two consecutive vertices are finite points less
    than [maxstep] apart.  (A start point that is itself not finite is the only vertex.) *)
Lemma c36_path : forall (fuel : nat) (xs ys duration tol maxstep : xr) (f : vec xr -> res (vec xr)) (tr : trace xr),
  compute_backtrace fuel xs ys duration tol maxstep f = Ok tr ->
  exists more,
    vertices tr = (xs, ys) :: more /\
    (forall v, In v more -> finite v) /\
    (forall i a b, nth_error (vertices tr) i = Some a -> nth_error (vertices tr) (S i) = Some b ->
       exists p q, a = fvec p /\ b = fvec q /\ below (pdist p q) maxstep).
Proof.
  intros fuel xs ys D tol maxstep f tr H.
  assert (L : linked maxstep (vertices tr) /\ exists more, vertices tr = (xs, ys) :: more).
  { assert (L0 : linked maxstep ([] ++ [(xs, ys)])) by (intros [|i] a b; cbn; [discriminate|destruct i; discriminate]).
    unfold compute_backtrace in H. destruct (f (xs, ys)) as [k1|e|].
    - split; [exact (loop_linked _ _ _ _ _ _ _ _ _ [] _ H L0)|]. destruct (loop_extends _ _ _ _ _ _ _ _ _ _ _ H) as (m & ->). now exists m.
    - injection H as <-. split; [exact L0|]. now exists [].
    - discriminate. }
  destruct L as [L (more & E)]. exists more. split; [exact E|]. split; [|exact L].
  intros v Hv. apply In_nth_error in Hv. destruct Hv as (i & Hi).
  assert (Hi' : nth_error (vertices tr) (S i) = Some v) by (rewrite E; exact Hi).
  destruct (nth_error (vertices tr) i) as [a|] eqn:Ea.
  - destruct (L i a v Ea Hi') as (p & q & _ & -> & _). now exists q.
  - exfalso. apply nth_error_None in Ea. assert (S i < length (vertices tr))%nat by (apply nth_error_Some; congruence). lia.
Qed.

(** ** Elapsed time *)
Lemma loop_rejects f D tol maxstep : (below 0 tol -> below 0 maxstep -> False) -> forall n t dt xy k1 acc tr,
  trace_loop n f D tol maxstep t dt xy k1 acc = Ok tr ->
  vertices tr = acc /\ t_end tr = t /\ (completed tr = true -> nlt (nabs t) (nabs D) = false).
Proof.
  intros HN. induction n as [|n IH]; intros t dt xy k1 acc tr H; [discriminate|]. cbn [trace_loop] in H.
  destruct (nlt (nabs t) (nabs D)) eqn:C; [|injection H as <-; auto].
  set (dt1 := if nlt (nabs D) _ then _ else _) in *. clearbody dt1.
  destruct (dp_step f xy dt1 k1) as [[[[xyt k7] est] ds]|e|] eqn:E; [|injection H as <-; split; [|split]; auto; discriminate|discriminate].
  destruct (nlt est tol && nlt ds maxstep) eqn:A.
  - exfalso. apply andb_prop in A. destruct A as [A1 A2]. apply HN.
    + unfold dp_step in E. bindinv E k2 E2. bindinv E k3 E3. bindinv E k4 E4. bindinv E k5 E5. bindinv E k6 E6. bindinv E k7' E7.
      match type of E with Ok (?X, _, ?A, ?B) = _ => remember A as estx eqn:Eest; remember B as dsx eqn:Eds; remember X as xx eqn:EX end.
      clear EX Eds. injection E as <- <- <- <-. subst estx. destruct (norm_inf_below _ _ A1) as (pe & _ & _ & Hb).
      assert (0 <= pmax pe) by (unfold pmax; eapply Rle_trans; [apply Rabs_pos|apply Rmax_l]).
      destruct tol; cbn in *; auto. lra.
    + destruct (accept_points _ _ _ _ _ _ _ _ _ _ E A1 A2) as (p & q & _ & _ & Hb).
      assert (0 <= pdist p q) by apply sqrt_pos. destruct maxstep; cbn in *; auto. lra.
  - apply IH in H. rewrite C in H. exact H.
Qed.

Lemma nth_is_last (l : list R) i : S i = length l -> nth i l 0 = last l 0.
Proof.
  revert i. induction l as [|x l IH]; intros i Hi; [discriminate|]. cbn in Hi. destruct l as [|y l].
  - destruct i; [reflexivity|cbn in Hi; lia].
  - destruct i; [cbn in Hi; lia|]. change (nth i (y :: l) 0 = last (y :: l) 0). apply IH. cbn in *; lia.
Qed.

Lemma timed_nth f tol maxstep D start l ts p t : timed f tol maxstep D start l ts p t ->
  length ts = length l /\ nth 0 l (0, 0) = start /\ nth 0 ts 0 = 0 /\ last ts 0 = t /\ nth (length l - 1) l (0, 0) = p /\ l <> [] /\
  (forall i, (S i < length l)%nat ->
     (good_step f tol maxstep (nth i l (0, 0)) (nth (S i) ts 0 - nth i ts 0) (nth (S i) l (0, 0)) \/
      wild_step f tol maxstep (nth i l (0, 0)) (nth (S i) ts 0 - nth i ts 0) (nth (S i) l (0, 0))) /\
     0 < (nth (S i) ts 0 - nth i ts 0) * D /\ Rabs (nth (S i) ts 0) <= Rabs D).
Proof.
  induction 1 as [|l ts p t h q H IH G B Hh Ha].
  - cbn. repeat split; auto; try discriminate; intros; lia.
  - destruct IH as (L1 & L2 & L3 & L4 & L5 & L6 & L7).
    assert (Hl : (0 < length l)%nat) by (destruct l; [congruence|cbn; lia]).
    repeat split.
    + rewrite !app_length, L1. reflexivity.
    + rewrite app_nth1 by lia. exact L2.
    + rewrite app_nth1 by lia. exact L3.
    + apply last_last.
    + rewrite app_length. cbn. replace (length l + 1 - 1)%nat with (length l) by lia. rewrite app_nth2, Nat.sub_diag by lia. reflexivity.
    + destruct l; discriminate.
    + rewrite app_length in H0. cbn in H0. destruct (Nat.eq_dec (S i) (length l)) as [E|E].
      * rewrite !(app_nth1 _ _ _ (n := i)) by lia.
        rewrite !(app_nth2 _ _ _ (n := S i)) by lia. rewrite L1, E, Nat.sub_diag. cbn [nth].
        assert (nth i ts 0 = t). { rewrite <- L4. apply nth_is_last. lia. }
        assert (nth i l (0, 0) = p). { rewrite <- L5. f_equal. lia. }
        rewrite H1, H2. replace (t + h - t) with h by ring. exact G.
      * rewrite !app_nth1 by lia. apply L7. lia.
    + rewrite app_length in H0. cbn in H0. destruct (Nat.eq_dec (S i) (length l)) as [E|E].
      * rewrite (app_nth1 _ _ _ (n := i)) by lia.
        rewrite (app_nth2 _ _ _ (n := S i)) by lia. rewrite L1, E, Nat.sub_diag. cbn [nth].
        assert (nth i ts 0 = t). { rewrite <- L4. apply nth_is_last. lia. }
        rewrite H1. replace (t + h - t) with h by ring. exact Hh.
      * rewrite !app_nth1 by lia. apply L7. lia.
    + rewrite app_length in H0. cbn in H0. destruct (Nat.eq_dec (S i) (length l)) as [E|E].
      * rewrite (app_nth2 _ _ _ (n := S i)) by lia. rewrite L1, E, Nat.sub_diag. exact Ha.
      * rewrite !app_nth1 by lia. apply L7. lia.
Qed.

Lemma sign_fin D : D <> 0 -> exists s, nsign (Fin D) = Fin s /\ 0 < s * D.
Proof.
  intros HD. unfold nsign. cbn. destruct (Rltb_spec 0 D); [exists 1; split; [reflexivity|lra]|].
  destruct (Rltb_spec D 0); [exists (-1); split; [reflexivity|lra]|lra].
Qed.

Lemma backtrace_timed fuel p D tol maxstep f tr :
  compute_backtrace fuel (Fin (fst p)) (Fin (snd p)) (Fin D) tol maxstep f = Ok tr ->
  exists l ts q t, vertices tr = map fvec l /\ t_end tr = Fin t /\ timed f tol maxstep D p l ts q t /\ (completed tr = true -> t = D).
Proof.
  intros H. unfold compute_backtrace in H. change (Fin (fst p), Fin (snd p)) with (fvec p) in H.
  destruct (f (fvec p)) as [k1|e|] eqn:E; [| |discriminate].
  2:{ injection H as <-. exists [p], [0], p, 0. cbn [vertices t_end completed]. repeat split; try constructor. discriminate. }
  destruct (Classical_Prop.classic (below 0 tol /\ below 0 maxstep)) as [[P1 P2]|NP].
  - change [fvec p] with (map fvec [p]) in H. change (nZ 0) with (Fin 0) in H.
    eapply trace_loop_timed with (ts := [0]) in H; eauto; [|constructor].
    destruct (Req_dec D 0) as [->|HD].
    + right. unfold nsign. cbn. destruct (Rltb_spec 0 0); [lra|]. exists (1 / 10 * 0). split; [reflexivity|lra].
    + destruct (sign_fin D HD) as (s & Es & Hs). rewrite Es. right. exists (1 / 10 * s). split; [reflexivity|nra].
  - apply loop_rejects in H; [|tauto]. destruct H as (H1 & H2 & H3). exists [p], [0], p, 0. repeat split; auto; [constructor|].
    intros Hc. specialize (H3 Hc). assert (~ Rabs 0 < Rabs D) by (intros X; apply nabs_lt in X; cbn in *; congruence).
    rewrite Rabs_R0 in H. destruct (Req_dec D 0); [lra|]. pose proof (Rabs_pos_lt D H0). lra.
Qed.

(** C37.  The vertices have elapsed times: 0 at the start, strictly monotone towards [D], never past
    it, the last one being the elapsed time of the program; and that is exactly [D] when the loop ended
    without exception.  The times are the accumulated sizes of the Runge-Kutta steps between the
    vertices. *)
Lemma c37_elapsed_time : forall (fuel : nat) (p : pt) (D : R) (tol maxstep : xr) (f : vec xr -> res (vec xr)) (tr : trace xr),
  compute_backtrace fuel (Fin (fst p)) (Fin (snd p)) (Fin D) tol maxstep f = Ok tr ->
  exists (l : list pt) (ts : list R),
    vertices tr = map fvec l /\ length ts = length l /\ nth 0 ts 0 = 0 /\ t_end tr = Fin (last ts 0) /\
    (forall i, (S i < length l)%nat ->
       0 < (nth (S i) ts 0 - nth i ts 0) * D /\ Rabs (nth i ts 0) < Rabs (nth (S i) ts 0) <= Rabs D /\
       (good_step f tol maxstep (nth i l (0, 0)) (nth (S i) ts 0 - nth i ts 0) (nth (S i) l (0, 0)) \/
        wild_step f tol maxstep (nth i l (0, 0)) (nth (S i) ts 0 - nth i ts 0) (nth (S i) l (0, 0)))) /\
    (completed tr = true -> last ts 0 = D).
Proof.
  intros fuel p D tol maxstep f tr H. destruct (backtrace_timed _ _ _ _ _ _ _ H) as (l & ts & q & t & H1 & H2 & H3 & H4).
  destruct (timed_nth _ _ _ _ _ _ _ _ _ H3) as (L1 & L2 & L3 & L4 & L5 & L6 & L7). exists l, ts.
  split; [exact H1|]. split; [exact L1|]. split; [exact L3|]. split; [congruence|]. split; [|now rewrite L4].
  assert (Dir : forall i, (i < length l)%nat -> 0 <= nth i ts 0 * D).
  { induction i as [|i IHi]; intros Hi; [rewrite L3; lra|]. specialize (IHi ltac:(lia)). destruct (L7 i ltac:(lia)) as (_ & X & _). lra. }
  intros i Hi. destruct (L7 i Hi) as (G & X & Y). split; [exact X|]. split; [|exact G]. split; [|exact Y].
  pose proof (Dir i ltac:(lia)). pose proof (Dir (S i) ltac:(lia)). set (a := nth i ts 0) in *. set (b := nth (S i) ts 0) in *.
  destruct (Rtotal_order D 0) as [HD|[->|HD]]; [|lra|].
  - assert (b < a) by nra. assert (a <= 0) by nra. rewrite !Rabs_left1 by lra. lra.
  - assert (a < b) by nra. assert (0 <= a) by nra. rewrite !Rabs_right by lra. lra.
Qed.

(** C37, infinite durations: such a trace ends only by an exception. *)
Lemma c37_infinite_duration : forall (fuel : nat) (xs ys duration tol maxstep : xr) (f : vec xr -> res (vec xr)) (tr : trace xr),
  duration = PInf \/ duration = NInf ->
  compute_backtrace fuel xs ys duration tol maxstep f = Ok tr -> completed tr = false.
Proof.
  intros fuel xs ys D tol maxstep f tr HD H. unfold compute_backtrace in H.
  assert (L : forall n t dt xy k1 acc, trace_loop n f D tol maxstep (Fin t) dt xy k1 acc = Ok tr -> completed tr = false).
  { assert (HA : nabs D = PInf) by (destruct HD as [->| ->]; reflexivity).
    induction n as [|n IH]; intros t dt xy k1 acc HL; [discriminate|]. cbn [trace_loop] in HL. rewrite HA in HL.
    change (nlt (nabs (Fin t)) PInf) with true in HL. cbv iota in HL.
    assert (HZ : nlt PInf (nabs (nadd (Fin t) dt)) = false) by (destruct dt; reflexivity). rewrite HZ in HL.
    destruct (dp_step f xy dt k1) as [[[[xyt k7] est] ds]|e|] eqn:E; [|injection HL as <-; reflexivity|discriminate].
    destruct (nlt est tol && nlt ds maxstep) eqn:A; [|now apply IH in HL].
    apply andb_prop in A. destruct A as [A1 A2].
    assert (exists h, dt = Fin h) as (h & ->); [|now apply IH in HL].
    clear HL. unfold dp_step in E. bindinv E k2 E2. bindinv E k3 E3. bindinv E k4 E4. bindinv E k5 E5. bindinv E k6 E6. bindinv E k7' E7.
    match type of E with Ok (?X, _, ?A, ?B) = _ => remember A as estx eqn:Eest; remember B as dsx eqn:Eds; remember X as xx eqn:EX end.
    clear EX Eds. injection E as <- <- <- <-. subst estx. destruct (norm_inf_below _ _ A1) as (pe & Ee & _).
    destruct (fvec_scale_inv _ _ _ Ee) as (h & _ & Eh & _). now exists h. }
  destruct (f (xs, ys)); [now apply L in H|injection H as <-; reflexivity|discriminate].
Qed.

(** C38.  Each step of the path is a Dormand-Prince step (of some size [h]) whose embedded error
    estimate is below [tol] and whose length is below [maxstep].  This holds for every velocity
    function, with one reservation: a step whose second stage met a velocity that is not finite can be
    accepted too (estimate and length below the bounds all the same). *)
Lemma c38_tolerance : forall (fuel : nat) (p : pt) (D : R) (tol maxstep : xr) (f : vec xr -> res (vec xr)) (tr : trace xr) (i : nat) (a b : pt),
  compute_backtrace fuel (Fin (fst p)) (Fin (snd p)) (Fin D) tol maxstep f = Ok tr ->
  nth_error (vertices tr) i = Some (fvec a) -> nth_error (vertices tr) (S i) = Some (fvec b) ->
  exists h, 0 < h * D /\ (good_step f tol maxstep a h b \/ wild_step f tol maxstep a h b).
Proof.
  intros fuel p D tol maxstep f tr i a b H Ha Hb.
  destruct (c37_elapsed_time _ _ _ _ _ _ _ H) as (l & ts & E1 & _ & _ & _ & E2 & _). rewrite E1 in Ha, Hb.
  assert (HL : (S i < length l)%nat) by (rewrite <- (map_length fvec); apply nth_error_Some; congruence).
  destruct (E2 i HL) as (X & _ & G). exists (nth (S i) ts 0 - nth i ts 0). split; [exact X|].
  assert (N : forall j c, nth_error (map fvec l) j = Some (fvec c) -> nth j l (0, 0) = c).
  { intros j c Hj. destruct (nth_error l j) as [c'|] eqn:Ej.
    - rewrite (map_nth_error _ _ _ Ej) in Hj. assert (X' : fvec c' = fvec c) by congruence. apply fvec_inj in X'. subst. now apply nth_error_nth.
    - exfalso. apply nth_error_None in Ej. rewrite <- (map_length fvec) in Ej. apply nth_error_None in Ej. congruence. }
  now rewrite (N _ _ Ha), (N _ _ Hb) in G.
Qed.

(** C38 for velocity functions that return finite numbers (or raise): no reservation. *)
Lemma c38_tolerance_finite : forall (fuel : nat) (p : pt) (D : R) (tol maxstep : xr) (f : vec xr -> res (vec xr)) (tr : trace xr) (i : nat) (a b : pt),
  finite_valued f ->
  compute_backtrace fuel (Fin (fst p)) (Fin (snd p)) (Fin D) tol maxstep f = Ok tr ->
  nth_error (vertices tr) i = Some (fvec a) -> nth_error (vertices tr) (S i) = Some (fvec b) ->
  exists h, 0 < h * D /\ good_step f tol maxstep a h b.
Proof.
  intros fuel p D tol maxstep f tr i a b HF H Ha Hb.
  destruct (c38_tolerance _ _ _ _ _ _ _ _ _ _ H Ha Hb) as (h & X & [G|W]); [now exists h|].
  destruct W as (k1 & k2 & k3 & k4 & k5 & k6 & k7 & _ & W & NF & _). destruct NF. exact (HF _ _ W).
Qed.

(** ** Exceptions (C41) *)
(** C41: no exception escapes. *)
Lemma c41_no_exception : forall (fuel : nat) (xs ys duration tol maxstep : xr) (f : vec xr -> res (vec xr)) (e : exn),
  compute_backtrace fuel xs ys duration tol maxstep f <> Raise e.
Proof.
  intros fuel xs ys D tol maxstep f e. unfold compute_backtrace.
  assert (L : forall n t dt xy k1 acc, trace_loop n f D tol maxstep t dt xy k1 acc <> Raise e).
  { induction n as [|n IH]; intros t dt xy k1 acc; [discriminate|]. cbn [trace_loop].
    destruct (nlt (nabs t) (nabs D)); [|discriminate].
    set (dt1 := if nlt (nabs D) _ then _ else _). clearbody dt1.
    destruct (dp_step f xy dt1 k1) as [[[[xyt k7] est] ds]|e'|]; [|discriminate|discriminate].
    destruct (nlt est tol && nlt ds maxstep); apply IH. }
  destruct (f (xs, ys)); [apply L|discriminate|discriminate].
Qed.

Lemma dp_step_agree f xy dt k1 r : dp_step f xy dt k1 = Ok r ->
  exists E, (forall e, In e E -> exists k, f e = Ok k) /\ forall g, (forall e, In e E -> g e = f e) -> dp_step g xy dt k1 = Ok r.
Proof.
  intros H. unfold dp_step in *.
  bindinv H k2 E2. bindinv H k3 E3. bindinv H k4 E4. bindinv H k5 E5. bindinv H k6 E6. bindinv H k7' E7.
  match type of E2 with f ?x = _ => set (x2 := x) in * end.
  match type of E3 with f ?x = _ => set (x3 := x) in * end.
  match type of E4 with f ?x = _ => set (x4 := x) in * end.
  match type of E5 with f ?x = _ => set (x5 := x) in * end.
  match type of E6 with f ?x = _ => set (x6 := x) in * end.
  match type of E7 with f ?x = _ => set (x7 := x) in * end.
  exists [x2; x3; x4; x5; x6; x7]. split.
  { intros e [<-|[<-|[<-|[<-|[<-|[<-|[]]]]]]]; eauto. }
  intros g Hg. fold x2. rewrite (Hg x2), E2 by (cbn; tauto). cbn [bind]. fold x3. rewrite (Hg x3), E3 by (cbn; tauto). cbn [bind].
  fold x4. rewrite (Hg x4), E4 by (cbn; tauto). cbn [bind]. fold x5. rewrite (Hg x5), E5 by (cbn; tauto). cbn [bind].
  fold x6. rewrite (Hg x6), E6 by (cbn; tauto). cbn [bind]. fold x7. rewrite (Hg x7), E7 by (cbn; tauto). cbn [bind]. exact H.
Qed.

Lemma loop_agree f D tol maxstep n : forall t dt xy k1 acc tr,
  trace_loop n f D tol maxstep t dt xy k1 acc = Ok tr ->
  exists E, (forall e, In e E -> exists k, f e = Ok k) /\
    forall g m tr', (forall e, In e E -> g e = f e) -> trace_loop m g D tol maxstep t dt xy k1 acc = Ok tr' ->
      (exists more, vertices tr' = vertices tr ++ more) /\ (completed tr = true -> tr' = tr).
Proof.
  induction n as [|n IH]; intros t dt xy k1 acc tr H; [discriminate|]. cbn [trace_loop] in H.
  destruct (nlt (nabs t) (nabs D)) eqn:C.
  2:{ injection H as <-. exists []. split; [intros e []|]. intros g m tr' _ Hg. destruct m; [discriminate|]. cbn [trace_loop] in Hg. rewrite C in Hg.
      injection Hg as <-. split; [exists []; now rewrite app_nil_r|auto]. }
  remember (if nlt (nabs D) (nabs (nadd t dt)) then nsub D t else dt) as dt1 eqn:Edt.
  destruct (dp_step f xy dt1 k1) as [[[[xyt k7] est] ds]|e|] eqn:E; [| |discriminate].
  2:{ injection H as <-. exists []. split; [intros e' []|]. intros g m tr' _ Hg. split; [|discriminate].
      apply loop_extends in Hg. exact Hg. }
  destruct (dp_step_agree _ _ _ _ _ E) as (E1 & P1 & P2).
  destruct (nlt est tol && nlt ds maxstep) eqn:A.
  - destruct (IH _ _ _ _ _ _ H) as (E3 & Q1 & Q2). exists (E1 ++ E3). split.
    { intros e He. apply in_app_iff in He. destruct He as [He|He]; [exact (P1 _ He)|exact (Q1 _ He)]. }
    intros g m tr' Hg HL. destruct m; [discriminate|]. cbn [trace_loop] in HL. rewrite C, <- Edt in HL.
    rewrite P2, A in HL by (intros; apply Hg; apply in_app_iff; auto).
    apply Q2 in HL; auto. intros; apply Hg; apply in_app_iff; auto.
  - destruct (IH _ _ _ _ _ _ H) as (E3 & Q1 & Q2). exists (E1 ++ E3). split.
    { intros e He. apply in_app_iff in He. destruct He as [He|He]; [exact (P1 _ He)|exact (Q1 _ He)]. }
    intros g m tr' Hg HL. destruct m; [discriminate|]. cbn [trace_loop] in HL. rewrite C, <- Edt in HL.
    rewrite P2, A in HL by (intros; apply Hg; apply in_app_iff; auto).
    apply Q2 in HL; auto. intros; apply Hg; apply in_app_iff; auto.
Qed.

(** C41: the path is determined by the (finitely many) evaluations that returned a value.  Any velocity
    function [g] with the same values there has a path that continues the path of [f]; and the same
    trace if [f] did not raise. *)
Lemma c41_prefix : forall (fuel : nat) (xs ys duration tol maxstep : xr) (f : vec xr -> res (vec xr)) (tr : trace xr),
  compute_backtrace fuel xs ys duration tol maxstep f = Ok tr ->
  exists evaluated : list (vec xr),
    (forall xy, In xy evaluated -> exists k, f xy = Ok k) /\
    (forall (g : vec xr -> res (vec xr)) (fuel' : nat) (tr' : trace xr),
       (forall xy, In xy evaluated -> g xy = f xy) ->
       compute_backtrace fuel' xs ys duration tol maxstep g = Ok tr' ->
       (exists more, vertices tr' = vertices tr ++ more) /\ (completed tr = true -> tr' = tr)).
Proof.
  intros fuel xs ys D tol maxstep f tr H. unfold compute_backtrace in H.
  destruct (f (xs, ys)) as [k1|e|] eqn:E; [| |discriminate].
  - destruct (loop_agree _ _ _ _ _ _ _ _ _ _ _ H) as (E1 & P1 & P2). exists ((xs, ys) :: E1). split.
    { intros xy [<-|Hi]; eauto. }
    intros g m tr' Hg HL. unfold compute_backtrace in HL. rewrite (Hg (xs, ys)), E in HL by (cbn; auto).
    apply P2 in HL; [exact HL|]. intros e He. apply Hg. now right.
  - injection H as <-. exists []. split; [intros xy []|]. intros g m tr' _ Hg. cbn [vertices completed]. split; [|discriminate].
    unfold compute_backtrace in Hg. destruct (g (xs, ys)) as [k1|e'|]; [|injection Hg as <-; exists []; reflexivity|discriminate].
    apply loop_extends in Hg. exact Hg.
Qed.

(** ** Reversal (C45) *)
Definition vneg (v : vec xr) : vec xr := (xopp (fst v), xopp (snd v)).
Definition negated (f : vec xr -> res (vec xr)) (xy : vec xr) : res (vec xr) := let! k := f xy in Ok (vneg k).
Definition flip (tr : trace xr) : trace xr := {| vertices := vertices tr; t_end := xopp (t_end tr); completed := completed tr |}.

Lemma inf_of_sign_opp r : inf_of_sign (- r) = xopp (inf_of_sign r).
Proof. unfold inf_of_sign. destruct (Rltb_spec 0 (-r)), (Rltb_spec (-r) 0), (Rltb_spec 0 r), (Rltb_spec r 0); try lra; reflexivity. Qed.
Lemma xopp_invol x : xopp (xopp x) = x.
Proof. destruct x; cbn; auto. now rewrite Ropp_involutive. Qed.
Lemma xmul_opp_l a b : xmul (xopp a) b = xopp (xmul a b).
Proof. destruct a, b; cbn; rewrite ?inf_of_sign_opp, ?xopp_invol; auto. f_equal. ring. Qed.
Lemma xmul_opp_r a b : xmul a (xopp b) = xopp (xmul a b).
Proof. destruct a, b; cbn; rewrite ?inf_of_sign_opp, ?xopp_invol; auto. f_equal. ring. Qed.
Lemma xadd_opp a b : xadd (xopp a) (xopp b) = xopp (xadd a b).
Proof. destruct a, b; cbn; auto. f_equal. ring. Qed.
Lemma xsub_opp a b : xsub (xopp a) (xopp b) = xopp (xsub a b).
Proof. destruct a, b; cbn; auto. f_equal. ring. Qed.
Lemma xabs_opp a : xabs (xopp a) = xabs a.
Proof. destruct a; cbn; auto. now rewrite Rabs_Ropp. Qed.
Lemma vscale_neg c v : vscale c (vneg v) = vneg (vscale c v).
Proof. unfold vscale, vneg. cbn. now rewrite !xmul_opp_r. Qed.
Lemma vscale_opp c v : vscale (xopp c) v = vneg (vscale c v).
Proof. unfold vscale, vneg. cbn. now rewrite !xmul_opp_l. Qed.
Lemma vadd_neg v w : vadd (vneg v) (vneg w) = vneg (vadd v w).
Proof. unfold vadd, vneg. cbn. now rewrite !xadd_opp. Qed.
Lemma vneg_invol v : vneg (vneg v) = v.
Proof. destruct v. unfold vneg. cbn. now rewrite !xopp_invol. Qed.

Definition flip_step (r : res (vec xr * vec xr * xr * xr)) : res (vec xr * vec xr * xr * xr) :=
  let! (xyt, k7, est, ds) := r in Ok (xyt, vneg k7, est, ds).

Lemma dp_step_flip f xy dt k1 : dp_step (negated f) xy (xopp dt) (vneg k1) = flip_step (dp_step f xy dt k1).
Proof.
  unfold dp_step, negated, flip_step.
  repeat (repeat first [rewrite vscale_neg | rewrite vadd_neg]; rewrite ?vscale_opp, ?vneg_invol;
    match goal with |- bind (bind (f ?x) _) _ = bind (bind (f ?x) _) _ => destruct (f x); cbn [bind]; [|reflexivity|reflexivity] end).
  repeat first [rewrite vscale_neg | rewrite vadd_neg]; rewrite ?vscale_opp, ?vneg_invol. reflexivity.
Qed.

Lemma next_dt_flip tol maxstep est ds dt : next_dt tol maxstep est ds (xopp dt) = xopp (next_dt tol maxstep est ds dt).
Proof. unfold next_dt. cbn [nmul XR]. apply xmul_opp_r. Qed.

Lemma loop_flip f D tol maxstep n : forall t dt xy k1 acc,
  trace_loop n (negated f) (xopp D) tol maxstep (xopp t) (xopp dt) xy (vneg k1) acc
  = (let! tr := trace_loop n f D tol maxstep t dt xy k1 acc in Ok (flip tr)).
Proof.
  induction n as [|n IH]; intros t dt xy k1 acc; [reflexivity|]. cbn [trace_loop]. cbn [nabs nadd nsub XR].
  rewrite !xadd_opp, !xabs_opp, xsub_opp.
  destruct (nlt (xabs t) (xabs D)); [|reflexivity].
  set (c := nlt (xabs D) (xabs (xadd t dt))).
  replace (if c then xopp (xsub D t) else xopp dt) with (xopp (if c then xsub D t else dt)) by (destruct c; reflexivity).
  set (dt1 := if c then _ else _). rewrite dp_step_flip.
  destruct (dp_step f xy dt1 k1) as [[[[xyt k7] est] ds]|e|]; cbn [flip_step bind]; [|reflexivity|reflexivity].
  rewrite next_dt_flip. destruct (nlt est tol && nlt ds maxstep).
  - rewrite xadd_opp. apply IH.
  - apply IH.
Qed.

(** C45.  Tracing [f] for the duration [-T] is tracing the negated velocity function for [T]: the same
    vertices, the same way of ending, the opposite elapsed time (whatever the velocity function). *)
Lemma c45_reversal : forall (fuel : nat) (xs ys T tol maxstep : xr) (f : vec xr -> res (vec xr)),
  let opposite := fun xy => let! k := f xy in Ok (xopp (fst k), xopp (snd k)) in
  compute_backtrace fuel xs ys (xopp T) tol maxstep f
  = (let! tr := compute_backtrace fuel xs ys T tol maxstep opposite in
     Ok {| vertices := vertices tr; t_end := xopp (t_end tr); completed := completed tr |}).
Proof.
  intros fuel xs ys T tol maxstep f opposite. unfold compute_backtrace. change (opposite (xs, ys)) with (negated f (xs, ys)).
  unfold negated. destruct (f (xs, ys)) as [k1|e|] eqn:E; cbn [bind].
  - assert (S : nmul (nlit 1 10) (nsign (xopp T)) = xopp (nmul (nlit 1 10) (nsign T))).
    { cbn [nmul XR]. rewrite <- xmul_opp_r. f_equal. unfold nsign. destruct T as [r| | |]; cbn; auto; try (f_equal; lra).
      destruct (Rltb_spec (-r) 0), (Rltb_spec 0 (-r)), (Rltb_spec r 0), (Rltb_spec 0 r); cbn; try lra; f_equal; lra. }
    rewrite S.
    pose proof (loop_flip (negated f) T tol maxstep fuel (nZ 0) (nmul (nlit 1 10) (nsign T)) (xs, ys) (vneg k1) [(xs, ys)]) as L.
    rewrite vneg_invol in L. change (xopp (nZ 0)) with (Fin (- 0)) in L. rewrite Ropp_0 in L.
    etransitivity; [|exact L].
    assert (X : forall n t dt xy k acc, trace_loop n f (xopp T) tol maxstep t dt xy k acc = trace_loop n (negated (negated f)) (xopp T) tol maxstep t dt xy k acc).
    { assert (FE : forall xy, negated (negated f) xy = f xy).
      { intros xy. unfold negated. destruct (f xy); cbn; auto. now rewrite vneg_invol. }
      assert (DE : forall xy dt k, dp_step (negated (negated f)) xy dt k = dp_step f xy dt k).
      { intros. unfold dp_step. rewrite FE. repeat (match goal with |- bind (f ?x) _ = bind (f ?x) _ => destruct (f x); cbn [bind]; [|reflexivity|reflexivity] end; try rewrite FE). reflexivity. }
      induction n as [|n IH]; intros; [reflexivity|]. cbn [trace_loop]. rewrite DE.
      repeat match goal with |- (if ?b then _ else _) = (if ?b then _ else _) => destruct b; [|reflexivity] end.
      destruct (dp_step f _ _ _) as [[[[? ?] ?] ?]|?|]; [|reflexivity|reflexivity]. rewrite !IH. reflexivity. }
    apply X.
  - cbn. rewrite Ropp_0. reflexivity.
  - reflexivity.
Qed.
