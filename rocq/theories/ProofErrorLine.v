(** * Messages of the levels WARNING and ERROR tell how a run ended (C108) *)
From Coq Require Import String Ascii SpecFloat ZArith List Lia Bool.
From Verif Require Import Py Num ModelField ModelAquifer ModelTrace ModelObs ModelDist ModelDriver ModelPlot ModelArchive ModelMain
  ModelText ModelLog ModelTranscript ModelLogging SpecTranscript ProofTranscript.
Import ListNotations.
Local Open Scope string_scope.

Definition tells_end {A : Type} (st : story A) : Prop :=
  forall m, In m (messages (fst st)) -> from m = "Oneka" ->
    (at_level m = Error -> snd st = Raise LinAlgError) /\ (at_level m = Warning -> snd st = Raise CaptureZoneError).
Definition informs (ms : list moment) : Prop := forall m, In m (messages ms) -> from m = "Oneka" -> at_level m <> Error /\ at_level m <> Warning.

Lemma informs_nil : informs [].
Proof. intros m []. Qed.
Lemma informs_infos ls : informs (infos ls).
Proof. induction ls as [|l ls IH]; intros m; [intros []|]. intros [<-|I]; [intros _; split; discriminate|exact (IH m I)]. Qed.
Lemma informs_did e l : informs l -> informs (Did e :: l).
Proof. exact (fun h => h). Qed.
Lemma te_quiet (A : Type) (st : story A) : informs (fst st) -> tells_end st.
Proof. intros H m I F. destruct (H m I F). split; intros; contradiction. Qed.
Lemma te_tell (A : Type) ms (k : story A) : informs ms -> tells_end k -> tells_end (tell ms k).
Proof. intros H K m I F. unfold tell, messages in I. cbn [fst] in I. rewrite flat_map_app, in_app_iff in I. destruct I as [I|I]; [destruct (H m I F); split; intros; contradiction|exact (K m I F)]. Qed.
Lemma te_attempt (A B : Type) (r : res A) (k : A -> story B) : (forall a, tells_end (k a)) -> tells_end (attempt r k).
Proof. intros H. destruct r; [apply H|apply te_quiet, informs_nil..]. Qed.
Lemma te_thereafter (A B : Type) (st : story A) (k : A -> story B) : tells_end st -> (forall a, tells_end (k a)) -> tells_end (thereafter st k).
Proof.
  intros H K. unfold thereafter. destruct st as [ms [a|e|]]; cbn [fst snd].
  - apply te_tell; [|apply K]. intros m I F. destruct (H m I F) as [H1 H2]. split; intros L; [specialize (H1 L)|specialize (H2 L)]; discriminate.
  - intros m I F. destruct (H m I F) as [H1 H2]. cbn [snd] in *. split; intros L; [specialize (H1 L)|specialize (H2 L)]; congruence.
  - intros m I F. destruct (H m I F) as [H1 H2]. cbn [snd] in *. split; intros L; [specialize (H1 L)|specialize (H2 L)]; discriminate.
Qed.
Lemma te_aloud (A : Type) (m : logged A) : tells_end (aloud m).
Proof. apply te_quiet, informs_infos. Qed.
Lemma te_plotted (A : Type) (r : res A) k : (forall a, tells_end (k a)) -> tells_end (plotted r k).
Proof.
  intros H. destruct r as [a|e|]; [apply H| |apply te_quiet, informs_nil].
  destruct e; try (apply te_quiet, informs_nil). intros m [<-|[]] _. split; [discriminate|reflexivity].
Qed.

Section Levels.
  Context {N : Num spec_float}.
  Lemma informs_trace tr : informs (trace_said tr).
  Proof. unfold trace_said. destruct (completed tr); [apply informs_nil|]. intros m [<-|[]]. discriminate. Qed.
  Lemma te_paths fuel xt yt rt duration umbra tol maxstep f : forall ths s,
    tells_end (paths_said fuel s xt yt rt duration umbra tol maxstep f ths).
  Proof.
    induction ths as [|th ths IH]; intros s; [apply te_quiet, informs_nil|]. cbn [paths_said]. destruct (start_point xt yt rt th) as [xs ys].
    apply te_attempt. intros tr. apply te_tell; [apply informs_trace|]. destruct (rasterize _ _ _ _ _) as [s' r].
    apply te_attempt. intros _. apply IH.
  Qed.
  Lemma te_capturezone fuel xt yt rt np duration s umbra weight tol maxstep f :
    tells_end (capturezone_said fuel xt yt rt np duration s umbra weight tol maxstep f).
  Proof.
    unfold capturezone_said. apply te_attempt. intros ths. apply te_thereafter; [apply te_paths|]. intros s'.
    destruct (register s' weight) as [s'' r]. apply te_attempt. intros _. apply te_quiet, informs_nil.
  Qed.
  Lemma te_fit (B : Type) la m os x0 y0 (k : list spec_float * list (list spec_float) -> story B) : (forall p, tells_end (k p)) ->
    tells_end (tell (fit_said la m os x0 y0) (let (m1, r) := fit_regional_flow la m os x0 y0 in attempt r k)).
  Proof.
    intros K. unfold fit_said, fit_regional_flow. destruct (construct_fit m os x0 y0) as [[wa wb]|e|] eqn:C; cbn [bind].
    - unfold compute_fit. destruct (lstsq la wa wb) as [ev|e|]; cbn [bind].
      + apply te_tell; [apply informs_nil|]. destruct (let! _ := _ in _) as [[ev' cov]|e|]; [destruct (reshape6 ev')| |]; apply te_attempt, K.
      + destruct e; try (apply te_tell; [apply informs_nil|]; apply te_attempt, K).
        intros m' [<-|[]] _. split; [reflexivity|discriminate].
      + apply te_tell; [apply informs_nil|]. apply te_attempt, K.
    - destruct e; try (apply te_tell; [apply informs_nil|]; apply te_attempt, K).
      intros m' [<-|[]] _. split; [reflexivity|discriminate].
    - apply te_tell; [apply informs_nil|]. apply te_attempt, K.
  Qed.
  Lemma te_realization fuel la s xt yt rt np duration base kv nv hv ws qs os umbra confined tol maxstep pick announce :
    (forall k n h e c, tells_end (announce k n h e c)) ->
    tells_end (realization_said fuel la s xt yt rt np duration base kv nv hv ws qs os umbra confined tol maxstep pick announce).
  Proof.
    intros HA. unfold realization_said. apply te_attempt; intros wells. apply te_attempt; intros k. apply te_attempt; intros h.
    cbv zeta. set (m0 := new_model _ _ _ _ _).
    enough (Q : tells_end (tell (fit_said la m0 os xt yt) (let (m1, r) := fit_regional_flow la m0 os xt yt in attempt r (fun '(ev, cov) =>
      attempt (reshape6 ev) (fun e => attempt (reshape6 (pick ev cov)) (fun c => thereafter (announce kv nv hv e c) (fun _ =>
        capturezone_said fuel xt yt rt np duration s umbra (nZ 1) tol maxstep (feval confined (set_coef (fst (fit_regional_flow la m0 os xt yt)) c))))))))).
    { destruct (fit_regional_flow la m0 os xt yt) as [m1 r]. exact Q. }
    apply te_fit. intros [ev cov]. apply te_attempt; intros e. apply te_attempt; intros c. apply te_thereafter; [apply HA|]. intros _. apply te_capturezone.
  Qed.
  Lemma te_realizations (G E : Type) (R : rng spec_float G) (mvn : E -> list spec_float -> list (list spec_float) -> list spec_float)
    fuel la entropy xt yt rt np duration bv base c_dist p_dist t_dist ws os umbra confined tol maxstep : forall count i g s,
    tells_end (realizations_said R mvn fuel la count entropy i g s xt yt rt np duration bv base c_dist p_dist t_dist ws os umbra confined tol maxstep).
  Proof.
    induction count as [|count IH]; intros i g s; [apply te_quiet, informs_nil|]. cbn [realizations_said].
    apply te_attempt; intros [qs g1]. apply te_attempt; intros [k g2]. apply te_attempt; intros [n g3]. apply te_attempt; intros [h g4].
    apply te_thereafter; [apply te_realization; intros; apply te_aloud|]. intros s'. apply IH.
  Qed.
  Lemma te_rows pr area k : tells_end k -> forall ps, tells_end (rows_said pr area ps k).
  Proof.
    intros H. induction ps as [|p ps IH]; [exact H|]. cbn [rows_said]. apply te_attempt; intros r. apply te_tell; [apply informs_infos|exact IH].
  Qed.
  Lemma te_finish dump a pf : tells_end (finish_said dump a pf).
  Proof. unfold finish_said. apply te_tell; [apply informs_did, informs_nil|]. apply te_attempt. intros _. apply te_quiet, informs_did, informs_nil. Qed.
End Levels.

(** A message of level ERROR in the log means that the run has ended with LinAlgError, one of level WARNING that it has ended with CaptureZoneError:
    a run that returns, or ends otherwise, has informative lines only. *)
Lemma c108_levels : forall (N : Num spec_float) (G E : Type) (R : rng spec_float G) (mvn : E -> list spec_float -> list (list spec_float) -> list spec_float)
    (dump : run_args (pyobj spec_float) -> res unit) fuel la entropy g (a : args spec_float) (m : message),
  In m (messages (fst (oneka_said R mvn dump fuel la entropy g a))) -> from m = "Oneka" ->
  (at_level m = Error -> snd (oneka_said R mvn dump fuel la entropy g a) = Raise LinAlgError) /\
  (at_level m = Warning -> snd (oneka_said R mvn dump fuel la entropy g a) = Raise CaptureZoneError).
Proof.
  intros N G E R mvn dump fuel la entropy g a. change (tells_end (oneka_said R mvn dump fuel la entropy g a)). unfold oneka_said.
  apply te_attempt; intros _. apply te_thereafter; [apply te_aloud|]; intros _.
  do 4 (apply te_attempt; intros ?). apply te_thereafter; [apply te_aloud|]; intros kept. cbv zeta.
  do 2 (apply te_attempt; intros ?). apply te_tell; [apply informs_infos|]. do 8 (apply te_attempt; intros ?).
  destruct (_ >? 1)%Z.
  - apply te_thereafter.
    { unfold stochastic_said. destruct (nth_error _ _); [|apply te_quiet, informs_nil]. apply te_attempt; intros s0. apply te_realizations. }
    intros pf. apply te_plotted; intros [[X Y] P]. apply te_tell; [apply informs_did, informs_nil|].
    apply te_plotted; intros [pr area]. apply te_tell; [apply informs_did, informs_nil|].
    unfold deciles_said. apply te_tell; [apply informs_infos|]. apply te_attempt; intros ps. apply te_rows.
    apply te_tell; [apply informs_infos|]. apply te_finish.
  - apply te_thereafter.
    { unfold deterministic_said. destruct (nth_error _ _); [|apply te_quiet, informs_nil]. do 5 (apply te_attempt; intros ?).
      apply te_realization. intros; apply te_aloud. }
    intros pf. apply te_plotted; intros area. apply te_tell; [apply informs_did, informs_nil|]. apply te_tell; [apply informs_infos|]. apply te_finish.
Qed.
