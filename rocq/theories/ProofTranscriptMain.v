(** * Proofs about everything a run writes: the drivers' results, the run *)
From Coq Require Import String SpecFloat ZArith List Lia.
From Verif Require Import Py Num ModelField ModelAquifer ModelTrace ModelObs ModelDist ModelDriver ModelPlot ModelArchive ModelMain
  ModelText ModelLog ModelTranscript ModelLogging SpecTranscript SpecLog ProofLog ProofFilterLog ProofTranscript ProofTranscriptRun.
Import ListNotations.
Local Open Scope string_scope.

Lemma angles_ok (lm : libm) npaths : (0 <= npaths)%Z -> exists ths, start_angles (N := SF lm) npaths = Ok ths /\ List.length ths = Z.to_nat npaths.
Proof.
  intros H. unfold start_angles. destruct (Z.ltb_spec (npaths + 1) 0); [lia|]. eexists. split; [reflexivity|].
  rewrite map_length. unfold zrange. rewrite map_length, seq_length. lia.
Qed.

(** ** C108: the drivers *)
(** A stochastic run that returns has written, for each realization in turn, its three lines with the numbers of the
    run's log and then one warning for every trace that ended early; and nothing else. *)
Lemma c108_stochastic : forall (lm : libm) (G E : Type) (R : rng spec_float G) (mvn : E -> list spec_float -> list (list spec_float) -> list spec_float)
    fuel la entropy g target npaths duration nrealizations bv base cd pd td ws w os spacing umbra confined tol maxstep ms pf,
  nth_error ws target = Some w -> (0 <= npaths)%Z -> num_of (N := SF lm) bv = Some base -> Forall plain [bv; cd; pd; td] ->
  stochastic_said (N := SF lm) R mvn fuel la entropy g target npaths duration nrealizations bv base cd pd td ws os spacing umbra confined tol maxstep = (ms, Ok pf) ->
  exists ths logs blocks, List.length ths = Z.to_nat npaths /\ List.length logs = Z.to_nat nrealizations /\ List.length blocks = Z.to_nat nrealizations /\
    create_stochastic (N := SF lm) R mvn fuel la entropy g target npaths duration nrealizations base cd pd td ws os spacing umbra confined tol maxstep = Ok (pf, logs) /\
    ms = map Said (concat blocks) /\
    forall k l msgs, nth_error logs k = Some l -> nth_error blocks k = Some msgs ->
      told (N := SF lm) fuel la ws os w ths duration base tol maxstep confined (mvn (entropy k)) k l msgs.
Proof.
  intros lm G E R mvn fuel la entropy g target npaths duration nrealizations bv base cd pd td ws w os spacing umbra confined tol maxstep ms pf Hw Hn B P H.
  destruct (angles_ok lm npaths Hn) as (ths & HA & L).
  inversion_clear P as [|? ? Pb P']. inversion_clear P' as [|? ? Pc P]. inversion_clear P as [|? ? Pp P']. inversion_clear P' as [|? ? Pt _].
  unfold stochastic_said in H. unfold create_stochastic. rewrite Hw in *.
  destruct (pf_init spacing spacing (sx w) (sy w)) as [s0|e|]; cbn [attempt bind] in *; try discriminate H.
  pose proof (realizations_story lm G E R mvn fuel la entropy w npaths ths duration bv base cd pd td ws os umbra confined tol maxstep HA B Pb Pc Pp Pt
                (Z.to_nat nrealizations) 0 g s0 []) as (O & blocks & ls & rest & M & Lb & T & K).
  rewrite H in O, M. cbn [fst snd] in O, M.
  destruct (realizations (N := SF lm) _ _ _ _ _ _ _ _ _ _ _ _ _ _ _ _ _ _ _ _ _ _ _ _ _) as [[pf' logs]|x|]; cbn [bind fst] in O; try discriminate O.
  destruct K as (-> & Ln & Q). cbn [snd List.app] in Q. subst logs. injection O as <-. rewrite app_nil_r in M.
  exists ths, ls, blocks. split; [exact L|]. split; [exact Ln|]. split; [rewrite Lb; exact Ln|]. split; [reflexivity|]. split; [exact M|]. exact T.
Qed.

(** When it raises, it has written the blocks of the realizations before the one that raised, and of that one nothing, or
    the message of the least squares, or its three lines and the warnings of the paths that were traced. *)
Lemma c108_stochastic_raises : forall (lm : libm) (G E : Type) (R : rng spec_float G) (mvn : E -> list spec_float -> list (list spec_float) -> list spec_float)
    fuel la entropy g target npaths duration nrealizations bv base cd pd td ws w os spacing umbra confined tol maxstep ms x,
  nth_error ws target = Some w -> (0 <= npaths)%Z -> num_of (N := SF lm) bv = Some base -> Forall plain [bv; cd; pd; td] ->
  stochastic_said (N := SF lm) R mvn fuel la entropy g target npaths duration nrealizations bv base cd pd td ws os spacing umbra confined tol maxstep = (ms, Raise x) ->
  create_stochastic (N := SF lm) R mvn fuel la entropy g target npaths duration nrealizations base cd pd td ws os spacing umbra confined tol maxstep = Raise x /\
  exists ths logs blocks rest, List.length ths = Z.to_nat npaths /\ List.length blocks = List.length logs /\
    (List.length logs <= Z.to_nat nrealizations - 1)%nat /\
    ms = map Said (List.app (concat blocks) rest) /\
    (forall k l msgs, nth_error logs k = Some l -> nth_error blocks k = Some msgs ->
      told (N := SF lm) fuel la ws os w ths duration base tol maxstep confined (mvn (entropy k)) k l msgs) /\
    broken_off (N := SF lm) fuel la ws os w ths duration base tol maxstep confined (mvn (entropy (List.length logs))) (List.length logs) rest.
Proof.
  intros lm G E R mvn fuel la entropy g target npaths duration nrealizations bv base cd pd td ws w os spacing umbra confined tol maxstep ms x Hw Hn B P H.
  destruct (angles_ok lm npaths Hn) as (ths & HA & L).
  inversion_clear P as [|? ? Pb P']. inversion_clear P' as [|? ? Pc P]. inversion_clear P as [|? ? Pp P']. inversion_clear P' as [|? ? Pt _].
  unfold stochastic_said in H. unfold create_stochastic. rewrite Hw in *.
  destruct (pf_init spacing spacing (sx w) (sy w)) as [s0|e|]; cbn [attempt bind] in *; try discriminate H.
  - pose proof (realizations_story lm G E R mvn fuel la entropy w npaths ths duration bv base cd pd td ws os umbra confined tol maxstep HA B Pb Pc Pp Pt
                  (Z.to_nat nrealizations) 0 g s0 []) as (O & blocks & ls & rest & M & Lb & T & K).
    rewrite H in O, M. cbn [fst snd] in O, M.
    destruct (realizations (N := SF lm) _ _ _ _ _ _ _ _ _ _ _ _ _ _ _ _ _ _ _ _ _ _ _ _ _) as [p|y|]; cbn [bind] in O; try discriminate O.
    injection O as <-. split; [reflexivity|]. destruct K as (K1 & K2). exists ths, ls, blocks, rest.
    split; [exact L|]. split; [exact Lb|]. split; [lia|]. split; [exact M|]. split; [exact T|]. exact K2.
  - injection H as <- <-. split; [reflexivity|]. exists ths, [], [], []. split; [exact L|]. split; [reflexivity|]. split; [cbn; lia|].
    split; [reflexivity|]. split; [intros [|k] l msgs D; discriminate D|]. left. reflexivity.
Qed.

(** The same for a deterministic run. *)
Lemma deterministic_story (lm : libm) fuel la target npaths ths duration bv base cd pd td ws w os spacing umbra confined tol maxstep :
  nth_error ws target = Some w -> start_angles (N := SF lm) npaths = Ok ths -> num_of (N := SF lm) bv = Some base -> Forall plain [bv; cd; pd; td] ->
  let st := deterministic_said (N := SF lm) fuel la target npaths duration bv base cd pd td ws os spacing umbra confined tol maxstep in
  let r := create_deterministic (N := SF lm) fuel la target npaths duration base cd pd td ws os spacing umbra confined tol maxstep in
  snd st = (let! p := r in Ok (fst p)) /\
  exists msgs, fst st = saids msgs /\
    match r with
    | Ok (_, l) => told_once (N := SF lm) fuel la ws os w ths duration base tol maxstep confined l msgs
    | _ => broken_off_once (N := SF lm) fuel la ws os w ths duration base tol maxstep confined msgs
    end.
Proof.
  intros Hw HA B P. cbv zeta. inversion_clear P as [|? ? Pb P']. inversion_clear P' as [|? ? Pc P]. inversion_clear P as [|? ? Pp P']. inversion_clear P' as [|? ? Pt _].
  unfold deterministic_said, create_deterministic. rewrite Hw.
  destruct (pf_init spacing spacing (sx w) (sy w)) as [s0|e|]; cbn [attempt bind];
    [|split; [reflexivity|]; exists []; split; [reflexivity|left; reflexivity]..].
  destruct (map_res (fun w => compute_variate_mean (N := SF lm) (sq w)) ws) as [qs|e|] eqn:EQ; cbn [attempt bind];
    [|split; [reflexivity|]; exists []; split; [reflexivity|left; reflexivity]..].
  destruct (compute_variate_mean (N := SF lm) cd) as [k|e|] eqn:EC; cbn [attempt bind];
    [|split; [reflexivity|]; exists []; split; [reflexivity|left; reflexivity]..].
  destruct (compute_variate_mean (N := SF lm) pd) as [n|e|] eqn:EP; cbn [attempt bind];
    [|split; [reflexivity|]; exists []; split; [reflexivity|left; reflexivity]..].
  destruct (compute_variate_mean (N := SF lm) td) as [h|e|] eqn:ET; cbn [attempt bind];
    [|split; [reflexivity|]; exists []; split; [reflexivity|left; reflexivity]..].
  pose proof (mean_plain lm _ _ Pc EC) as Pk. pose proof (mean_plain lm _ _ Pp EP) as Pn. pose proof (mean_plain lm _ _ Pt ET) as Ph.
  destruct (as_num (N := SF lm) k) as [k0|e|] eqn:AK.
  2: { unfold realization_said, realization. rewrite AK. destruct (make_wells (N := SF lm) ws qs) as [wells|e'|]; cbn [attempt bind fst snd];
       (split; [reflexivity|]; exists []; split; [reflexivity|left; reflexivity]). }
  2: { unfold as_num in AK. destruct (num_of k); discriminate AK. }
  apply num_some in AK.
  pose proof (realization_story lm fuel la s0 w npaths ths duration base k n h ws qs os umbra confined tol maxstep (fun ev _ => ev)
    (fun k n _ _ c => announce_deterministic (N := SF lm) bv k n c) (recharge_deterministic (N := SF lm))
    (fun k n _ _ c => lines (deterministic_text base k n (recharge_deterministic (N := SF lm) c) c))
    (lines [newline; "Deterministic Capture Zone Parameters: "; "base         = " ++ fmt_f false false 2 base; "conductivity = " ++ fmt_f false false 2 k0])
    HA (means_length lm ws qs EQ)) as RS. cbv zeta in RS.
  destruct RS as (O & msgs & M & C).
  { intros k1 n1 h1 e c K1 N1 _. apply (announce_deterministic_ok lm bv base k n k1 n1 c B Pb Pk Pn K1 N1). }
  { intros k1 h1 e c K1 N1 _. assert (k1 = k0) as -> by congruence. apply (announce_deterministic_bad lm bv base k n k0 c B Pb Pk Pn K1 N1). }
  destruct (realization (N := SF lm) _ _ _ _ _ _ _ _ _ _ _ _ _ _ _ _ _ _ _ _ _) as [s' rl]. cbn [fst snd] in O, C.
  split; [rewrite O; destruct rl; reflexivity|]. exists msgs. split; [exact M|].
  assert (Y : forall l m ev cov e j trs, logged_model base (sx w) (sy w) ws l m ->
         snd (fit_regional_flow (N := SF lm) la m os (sx w) (sy w)) = Ok (ev, cov) -> reshape6 ev = Ok e -> reshape6 ev = Ok (l_coef l) ->
         l_recharge l = recharge_deterministic (N := SF lm) (l_coef l) ->
         traced (N := SF lm) fuel (sx w) (sy w) (sr w) duration tol maxstep confined m (firstn j ths) trs ->
         msgs = (lines (deterministic_text base (l_conductivity l) (l_porosity l) (recharge_deterministic (N := SF lm) (l_coef l)) (l_coef l)) ++ warnings trs)%list ->
         told_once (N := SF lm) fuel la ws os w (firstn j ths) duration base tol maxstep confined l msgs).
  { intros l m ev cov e j trs C1 C2 C3 C4 C5 C6 C7. exists m, ev, cov, trs. repeat split; try assumption; try apply C1. rewrite C5. exact C7. }
  destruct rl as [l|e|]; cbn [bind].
  - destruct C as [(D & _)|(l1 & m & ev & cov & e & j & trs & C1 & C2 & C3 & C4 & C5 & C6 & C7 & C8 & C9)]; [now destruct (D l)|].
    destruct (C9 l eq_refl) as (<- & ->). rewrite <- (firstn_all ths). exact (Y l m ev cov e _ trs C1 C2 C3 C4 C5 C6 C7).
  - destruct C as [(_ & [C|[C|[_ C]]])|(l1 & m & ev & cov & e0 & j & trs & C1 & C2 & C3 & C4 & C5 & C6 & C7 & C8 & C9)].
    + left; exact C.
    + right; left; exact C.
    + right; right; left; exists k0; exact C.
    + right; right; right. exists l1, j. exact (Y l1 m ev cov e0 j trs C1 C2 C3 C4 C5 C6 C7).
  - destruct C as [(_ & [C|[C|[_ C]]])|(l1 & m & ev & cov & e0 & j & trs & C1 & C2 & C3 & C4 & C5 & C6 & C7 & C8 & C9)].
    + left; exact C.
    + right; left; exact C.
    + right; right; left; exists k0; exact C.
    + right; right; right. exists l1, j. exact (Y l1 m ev cov e0 j trs C1 C2 C3 C4 C5 C6 C7).
Qed.

(** ** The run *)
Section Sim.
  Definition sim (st : story (result spec_float)) (o : outcome spec_float) : Prop :=
    snd st = snd o /\ deeds (fst st) = filter lasting (fst o).

  Lemma sim_stop A (r : res A) k k' : (forall a, r = Ok a -> sim (k a) (k' a)) -> sim (attempt r k) (ModelMain.stop r k').
  Proof. intros H. destruct r as [a|e|]; cbn [attempt ModelMain.stop]; [apply H; reflexivity|split; reflexivity..]. Qed.
  Lemma deeds_app a b : deeds (a ++ b) = List.app (deeds a) (deeds b).
  Proof. unfold deeds. apply flat_map_app. Qed.
  Lemma deeds_saids l : deeds (saids l) = [].
  Proof. induction l; [reflexivity|exact IHl]. Qed.
  Lemma deeds_infos l : deeds (infos l) = [].
  Proof. rewrite infos_lines. apply deeds_saids. Qed.
  Lemma sim_plotted A (r : res A) k k' : (forall a, r = Ok a -> sim (k a) (k' a)) -> sim (plotted r k) (ModelMain.stop r k').
  Proof. intros H. destruct r as [a|e|]; cbn [plotted attempt ModelMain.stop]; [apply H; reflexivity|destruct e; split; reflexivity|split; reflexivity]. Qed.
  Lemma sim_emit ms e st o : deeds ms = filter lasting [e] -> sim st o -> sim (tell ms st) (emit e o).
  Proof.
    intros D (A & B). split; [exact A|]. unfold tell, emit. cbn [fst snd]. rewrite deeds_app, D, B. cbn [filter].
    destruct (lasting e); reflexivity.
  Qed.
  Lemma sim_tell ms st o : deeds ms = [] -> sim st o -> sim (tell ms st) o.
  Proof. intros D (A & B). split; [exact A|]. unfold tell. cbn [fst]. now rewrite deeds_app, D. Qed.
  Lemma sim_silent e st o : lasting e = false -> sim st o -> sim st (emit e o).
  Proof. intros D (A & B). split; [exact A|]. unfold emit. cbn [fst filter]. now rewrite D. Qed.
  (** A story without effects, against the result it has. *)
  Lemma sim_after A B (st : story A) (r : res B) f k k' : deeds (fst st) = [] -> snd st = (let! b := r in Ok (f b)) ->
    (forall b, r = Ok b -> sim (k (f b)) (k' b)) -> sim (thereafter st k) (ModelMain.stop r k').
  Proof.
    intros D O H. unfold thereafter. rewrite O. destruct r as [b|e|]; cbn [bind ModelMain.stop]; [apply sim_tell; [exact D|apply H; reflexivity]|split; [reflexivity|exact D]..].
  Qed.

  Lemma rows_sim {N : Num spec_float} pr area k o : sim k o -> forall ps,
    sim (rows_said pr area ps k) (ModelMain.stop (map_res (decile_row pr area) ps) (fun rows => emit (EDeciles rows) o)).
  Proof.
    intros S. assert (X : forall ps, snd (rows_said pr area ps k) = (let! _ := map_res (decile_row pr area) ps in snd k) /\
      deeds (fst (rows_said pr area ps k)) = match map_res (decile_row pr area) ps with Ok _ => deeds (fst k) | _ => [] end).
    { induction ps as [|p ps (I1 & I2)]; cbn [rows_said map_res]; [split; reflexivity|].
      destruct (decile_row pr area p) as [r|e|]; cbn [attempt bind]; [|split; reflexivity..].
      unfold tell. cbn [fst snd]. rewrite deeds_app, deeds_infos, I1, I2. destruct (map_res (decile_row pr area) ps); split; reflexivity. }
    intros ps. destruct (X ps) as (X1 & X2). destruct S as (S1 & S2). destruct (map_res (decile_row pr area) ps); cbn [ModelMain.stop bind] in *; split; try assumption; cbn [emit fst snd filter lasting]; congruence.
  Qed.
End Sim.

Section Run.
  Context (lm : libm).
  Local Notation SFn := (SF lm).

  Lemma snd_put_ok (A : Type) (s : res string) (k : logged A) : (exists t, s = Ok t) -> snd (put s k) = snd k.
  Proof. intros (t & ->). reflexivity. Qed.
  Lemma log_result a : validate (N := SFn) a = Ok tt -> Forall convertible (rounded_arguments a) ->
    snd (log_the_run a) = (let! _ := log_nrealizations (nrealizations a) in Ok tt).
  Proof.
    intros V C. destruct (integer_of (nrealizations a)) as [z|] eqn:I.
    - assert (K : snd (log_the_run a) = Ok tt) by (apply (c100_returns lm a V); split; [rewrite I; discriminate|exact C]).
      rewrite K. destruct (nrealizations a) as [y|y|b|s| |l|l]; cbn in I; try discriminate I; reflexivity.
    - apply validate_checked in V. destruct V as [_ _ T Np Nu _ _ _ _].
      unfold log_the_run. assert (SY : forall ls (k : logged unit), snd (say ls k) = snd k) by reflexivity. rewrite !SY.
      inversion_clear Nu as [|? ? _ Nu']. unfold rounded_arguments in *. inversion_clear Nu' as [|? ? N1 _]. inversion_clear C as [|? ? C1 _].
      rewrite !(snd_put_ok unit (Ok _)) by (eexists; reflexivity).
      rewrite snd_put_ok by (apply label_iff; destruct (target a); try discriminate T; eexists; reflexivity).
      rewrite snd_put_ok by (apply label_iff; destruct (npaths a); try discriminate Np; eexists; reflexivity).
      rewrite snd_put_ok by (apply label_iff; apply val_f_ok; assumption).
      destruct (nrealizations a) as [y|y|b|s| |l|l]; cbn in I; try discriminate I; reflexivity.
  Qed.

  Lemma round_sign m e l : SFltb (S754_zero false) (binary_round_aux fprec femax true m e l) = false.
  Proof.
    unfold binary_round_aux. destruct (shr_fexp fprec femax m e l) as [mrs' e'].
    destruct (shr_fexp fprec femax (round_nearest_even (shr_m mrs') (loc_of_shr_record mrs')) e' loc_Exact) as [mrs'' e'']. 
    destruct (shr_m mrs''); try reflexivity. destruct (Zle_bool e'' (femax - fprec)); reflexivity.
  Qed.
  Lemma positive_count z : SFltb (f_of_Z 0) (f_of_Z z) = true -> (0 <= z)%Z.
  Proof.
    intros H. destruct z as [|p|p]; [apply Z.le_refl|apply Pos2Z.is_nonneg|]. exfalso.
    unfold f_of_Z in H. cbn [binary_normalize] in H. unfold binary_round in H.
    destruct (shl_align p 0 (fexp fprec femax (Z.pos (digits2_pos p) + 0))) as [mz ez].
    rewrite round_sign in H. discriminate H.
  Qed.

  (** What the validation says about the arguments that the drivers log. *)
  Lemma validate_plain a : validate (N := SFn) a = Ok tt -> Forall convertible (rounded_arguments a) -> Forall convertible [c_dist a; p_dist a; t_dist a] ->
    Forall plain [base_ a; c_dist a; p_dist a; t_dist a] /\ (forall z, get_int (npaths a) = Ok z -> (0 <= z)%Z).
  Proof.
    intros V C D. split.
    - assert (X : Forall (fun v : val => forall s, v <> PStr s) [base_ a; c_dist a; p_dist a; t_dist a]).
      { unfold validate in V. rewrite !seq_ok in V. destruct V as (_ & _ & _ & _ & _ & Ba & Cd & Pd & Td & _).
        apply assert_ok in Ba, Cd, Pd, Td.
        constructor; [intros s E; rewrite E in Ba; discriminate Ba|].
        constructor; [intros s E; rewrite E in Cd; discriminate Cd|].
        constructor; [intros s E; rewrite E in Pd; discriminate Pd|].
        constructor; [intros s E; rewrite E in Td; discriminate Td|constructor]. }
      unfold rounded_arguments in C. inversion_clear C as [|? ? _ C']. inversion_clear C' as [|? ? Cb _].
      inversion_clear X as [|? ? Xb X']. constructor; [split; assumption|].
      inversion_clear X' as [|? ? X1 X]. inversion_clear X as [|? ? X2 X']. inversion_clear X' as [|? ? X3 _].
      inversion_clear D as [|? ? D1 D']. inversion_clear D' as [|? ? D2 D]. inversion_clear D as [|? ? D3 _].
      repeat constructor; assumption.
    - intros z Hz. unfold validate in V. rewrite !seq_ok in V. destruct V as (_ & _ & _ & Np & _). apply assert_ok, and_ok in Np.
      destruct Np as (_ & Np). unfold py_lt in Np. destruct (npaths a) as [y|y|b|s| |l|l]; cbn in Hz; try discriminate Hz.
      + injection Hz as <-. apply positive_count. cbn [num_of] in Np. injection Np as Np. exact Np.
      + injection Hz as <-. destruct b; discriminate || lia.
  Qed.
End Run.

Lemma map_res_length (A B : Type) (f : A -> res B) : forall l r, map_res f l = Ok r -> List.length r = List.length l.
Proof.
  induction l as [|x l IH]; intros r H; cbn [map_res] in H; [now injection H as <-|].
  destruct (f x); cbn [bind] in H; try discriminate H. destruct (map_res f l) as [ys| |]; cbn [bind] in H; try discriminate H.
  injection H as <-. cbn. f_equal. now apply IH.
Qed.
Lemma combine_snd (A B : Type) : forall (l : list A) (r : list B), List.length r = List.length l -> map snd (combine l r) = r.
Proof. induction l as [|x l IH]; intros [|y r] H; try discriminate H; [reflexivity|]. cbn. f_equal. apply IH. now injection H. Qed.

(** A run that writes its messages does what the run of ModelMain does: the same result or exception, the same figures
    and archive, in the same order. The only other way to stop is an integer that cannot be converted to a float. *)
Lemma c108_same : forall (lm : libm) (G E : Type) (R : rng spec_float G) (mvn : E -> list spec_float -> list (list spec_float) -> list spec_float)
    (dump : run_args (pyobj spec_float) -> res unit) fuel la entropy g (a : args spec_float),
  Forall convertible (List.app (rounded_arguments a) [c_dist a; p_dist a; t_dist a]) ->
  snd (oneka_said (N := SF lm) R mvn dump fuel la entropy g a) = snd (oneka (N := SF lm) R mvn dump fuel la entropy g a) /\
  deeds (fst (oneka_said (N := SF lm) R mvn dump fuel la entropy g a)) = filter lasting (fst (oneka (N := SF lm) R mvn dump fuel la entropy g a)).
Proof.
  intros lm G E R mvn dump fuel la entropy g a HC. apply Forall_app in HC. destruct HC as (C & D).
  change (sim (oneka_said (N := SF lm) R mvn dump fuel la entropy g a) (oneka (N := SF lm) R mvn dump fuel la entropy g a)).
  assert (FIN : forall pf, sim (finish_said dump a pf) (ModelMain.finish dump a pf)).
  { intros pf. unfold finish_said, ModelMain.finish. apply sim_emit; [reflexivity|]. apply sim_stop. intros u _. split; reflexivity. }
  unfold oneka_said, oneka. apply sim_stop. intros u V. destruct u.
  destruct (validate_plain lm a V C D) as (P & Np).
  apply sim_silent; [reflexivity|].
  apply (sim_after unit Z _ _ (fun _ => tt)); [apply deeds_infos|exact (log_result lm a V C)|]. intros nreal HN. rewrite HN. cbn [attempt].
  apply sim_stop. intros ws Hws. apply sim_stop. intros obs0 Hobs. apply sim_stop. intros buf _.
  set (l := combine (elements (observations a)) obs0). set (wl := combine (elements (stochastic_wells a)) (map (fun w : swell spec_float => (sx w, sy w)) ws)).
  assert (EL : map snd l = obs0) by (apply combine_snd; apply (map_res_length _ _ _ _ _ Hobs)).
  assert (EW : map snd wl = map (fun w : swell spec_float => (sx w, sy w)) ws) by (apply combine_snd; rewrite map_length; apply (map_res_length _ _ _ _ _ Hws)).
  pose proof (c101_result (SF lm) l wl buf) as FR. rewrite EL, EW in FR.
  assert (X : exists out : list tobs, snd (filter_text (N := SF lm) l wl buf) =
     match filter_obs (N := SF lm) obs0 (map (fun w : swell spec_float => (sx w, sy w)) ws) buf with Ok _ => Ok out | Raise e => Raise e | NoFuel => NoFuel end /\
     forall k, filter_obs (N := SF lm) obs0 (map (fun w : swell spec_float => (sx w, sy w)) ws) buf = Ok k -> map snd out = k).
  { destruct (filter_obs (N := SF lm) obs0 _ buf) as [k|e|].
    - destruct FR as (out & F1 & F2). exists out. split; [exact F1|]. intros k' [= <-]. exact F2.
    - exists []. split; [exact FR|]. discriminate.
    - exists []. split; [exact FR|]. discriminate. }
  destruct X as (out & F1 & F2).
  apply (sim_after (list tobs) (list (obs spec_float)) _ _ (fun _ => out)); [apply deeds_infos| |].
  { unfold aloud. cbn [snd]. rewrite F1. destruct (filter_obs (N := SF lm) obs0 _ buf); reflexivity. }
  intros obs HO. specialize (F2 obs HO). rewrite F2. apply sim_silent; [reflexivity|].
  apply sim_stop. intros u _. apply sim_stop. intros st _. apply sim_emit; [apply deeds_infos|].
  apply sim_stop. intros tgt Htgt. apply sim_stop. intros np Hnp. specialize (Np np Hnp). apply sim_stop. intros dur _. apply sim_stop. intros bas Hb. apply num_some in Hb.
  apply sim_stop. intros spc _. apply sim_stop. intros umb _. apply sim_stop. intros tl _. apply sim_stop. intros ms _.
  destruct (angles_ok lm np Np) as (ths & HA & _).
  destruct (nreal >? 1)%Z.
  - set (sd := stochastic_said (N := SF lm) R mvn fuel la entropy g (Z.to_nat tgt) np dur nreal (base_ a) bas (c_dist a) (p_dist a) (t_dist a) ws obs spc umb (get_bool (confined a)) tl ms).
    set (cs := create_stochastic (N := SF lm) R mvn fuel la entropy g (Z.to_nat tgt) np dur nreal bas (c_dist a) (p_dist a) (t_dist a) ws obs spc umb (get_bool (confined a)) tl ms).
    assert (Y : deeds (fst sd) = [] /\ snd sd = (let! p := cs in Ok (fst p))).
    { subst sd cs. unfold stochastic_said, create_stochastic. destruct (nth_error ws (Z.to_nat tgt)) as [w|]; [|split; reflexivity].
      destruct (pf_init (N := SF lm) spc spc (sx w) (sy w)) as [s0|e|]; cbn [attempt bind]; [|split; reflexivity..].
      inversion_clear P as [|? ? Pb P']. inversion_clear P' as [|? ? Pc P]. inversion_clear P as [|? ? Pp P']. inversion_clear P' as [|? ? Pt _].
      pose proof (realizations_story lm G E R mvn fuel la entropy w np ths dur (base_ a) bas (c_dist a) (p_dist a) (t_dist a) ws obs umb (get_bool (confined a)) tl ms
         HA Hb Pb Pc Pp Pt (Z.to_nat nreal) 0 g s0 []) as (O & blocks & ls & rest & M & _).
      split; [rewrite M; apply deeds_saids|exact O]. }
    destruct Y as (Y1 & Y2). apply (sim_after _ _ sd cs fst); [exact Y1|exact Y2|]. intros [pf logs] _. cbn [fst].
    apply sim_silent; [reflexivity|]. apply sim_plotted. intros [[X Y] Q] _. apply sim_emit; [reflexivity|].
    apply sim_plotted. intros [pr area] _. apply sim_emit; [reflexivity|].
    unfold deciles_said, decile_table. apply sim_tell; [apply deeds_infos|].
    destruct (linspace (N := SF lm) (nlit 5 100) (nlit 95 100) 19) as [ps|e|]; cbn [attempt bind]; [|split; reflexivity..].
    apply rows_sim. apply sim_tell; [apply deeds_infos|]. apply FIN.
  - set (sd := deterministic_said (N := SF lm) fuel la (Z.to_nat tgt) np dur (base_ a) bas (c_dist a) (p_dist a) (t_dist a) ws obs spc umb (get_bool (confined a)) tl ms).
    set (cs := create_deterministic (N := SF lm) fuel la (Z.to_nat tgt) np dur bas (c_dist a) (p_dist a) (t_dist a) ws obs spc umb (get_bool (confined a)) tl ms).
    assert (Y : deeds (fst sd) = [] /\ snd sd = (let! p := cs in Ok (fst p))).
    { destruct (nth_error ws (Z.to_nat tgt)) as [w|] eqn:Hw.
      - pose proof (deterministic_story lm fuel la (Z.to_nat tgt) np ths dur (base_ a) bas (c_dist a) (p_dist a) (t_dist a) ws w obs spc umb (get_bool (confined a)) tl ms Hw HA Hb P) as (O & msgs & M & _).
        split; [subst sd; rewrite M; apply deeds_saids|exact O].
      - subst sd cs. unfold deterministic_said, create_deterministic. rewrite Hw. split; reflexivity. }
    destruct Y as (Y1 & Y2). apply (sim_after _ _ sd cs fst); [exact Y1|exact Y2|]. intros [pf ll] _. cbn [fst].
    apply sim_silent; [reflexivity|]. apply sim_plotted. intros area _. apply sim_emit; [reflexivity|]. apply sim_tell; [apply deeds_infos|]. apply FIN.
Qed.

(** A deterministic run: its fourteen lines, then the warnings; when it raises, nothing, the message of the least squares,
    the first four lines (a porosity that is not a number), or the fourteen lines and the warnings so far. *)
Lemma c108_deterministic : forall (lm : libm) fuel la target npaths duration bv base cd pd td ws w os spacing umbra confined tol maxstep ms r,
  nth_error ws target = Some w -> (0 <= npaths)%Z -> num_of (N := SF lm) bv = Some base -> Forall plain [bv; cd; pd; td] ->
  deterministic_said (N := SF lm) fuel la target npaths duration bv base cd pd td ws os spacing umbra confined tol maxstep = (ms, r) ->
  exists ths msgs, List.length ths = Z.to_nat npaths /\ ms = map Said msgs /\
    ((exists pf l, r = Ok pf /\
        create_deterministic (N := SF lm) fuel la target npaths duration base cd pd td ws os spacing umbra confined tol maxstep = Ok (pf, l) /\
        told_once (N := SF lm) fuel la ws os w ths duration base tol maxstep confined l msgs) \/
     ((forall pf, r <> Ok pf) /\
      (forall e, r = Raise e ->
         create_deterministic (N := SF lm) fuel la target npaths duration base cd pd td ws os spacing umbra confined tol maxstep = Raise e) /\
      broken_off_once (N := SF lm) fuel la ws os w ths duration base tol maxstep confined msgs)).
Proof.
  intros lm fuel la target npaths duration bv base cd pd td ws w os spacing umbra confined tol maxstep ms r Hw Hn B P H.
  destruct (angles_ok lm npaths Hn) as (ths & HA & L).
  pose proof (deterministic_story lm fuel la target npaths ths duration bv base cd pd td ws w os spacing umbra confined tol maxstep Hw HA B P) as (O & msgs & M & K).
  rewrite H in O, M. cbn [fst snd] in O, M. exists ths, msgs. split; [exact L|]. split; [exact M|].
  destruct (create_deterministic (N := SF lm) _ _ _ _ _ _ _ _ _ _ _ _ _ _ _ _) as [[pf l]|e|]; cbn [bind fst] in O; subst r.
  - left. exists pf, l. auto.
  - right. split; [discriminate|]. split; [intros x [= <-]; reflexivity|exact K].
  - right. split; [discriminate|]. split; [discriminate|exact K].
Qed.
