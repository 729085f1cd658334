(** * Runs of oneka: proofs *)
From Coq Require Import Reals Lra Lia String Sorted.
From Verif Require Import Py Num NumXR ModelField ModelAquifer ModelTrace ModelObs ModelDist ModelDriver ModelPlot ModelArchive ModelMain.
From Verif Require Import SpecField SpecAquifer SpecObs SpecDriver SpecPlot SpecDist SpecArchive SpecMain ProofDist ProofStats ProofDriver ProofDriverProps ProofPlot ProofDecile ProofArchive ProofMain.
Local Open Scope R_scope.

Lemma more_than_six {A} (l : list A) : py_assert (Ok (Z.of_nat (List.length l) >? 6)%Z) = Ok tt <-> (7 <= List.length l)%nat.
Proof. rewrite py_assert_ok. split; [intros [= H]; lia|intros H; apply f_equal; lia]. Qed.

Lemma finish_events {T} (dump : run_args (pyobj T) -> res unit) (a : args T) pf e : In e (fst (finish dump a pf)) -> e = EArchive (archived a pf) \/ e = EShow.
Proof. unfold finish. cbn [emit fst]. intros [<-|H]; [left; reflexivity|]. destruct (dump (archived a pf)); cbn in H; intuition. Qed.

(** The stochastic driver's log is written exactly when more than one realization is asked for, at least seven
    observations are retained, and the driver, called with the retained observations, returns it. *)
Lemma c66_stochastic : forall (G E : Type) (Rg : rng xr G) (mvn : E -> list xr -> list (list xr) -> list xr) (dump : run_args (pyobj xr) -> res unit)
    (fuel : nat) (la : linalg xr) (entropy : nat -> E) (g : G) (a : args xr) (c : call) logs,
  acceptable a -> reads a c ->
  (In (ERealizations logs) (fst (oneka Rg mvn dump fuel la entropy g a)) <->
   (1 < k_n c)%Z /\ exists kept st pf, retained c kept /\ (7 <= List.length kept)%nat /\ summary_statistics (table kept) = Ok st /\
                      call_stochastic Rg mvn fuel la entropy g a c kept = Ok (pf, logs)).
Proof.
  intros G E Rg mvn dump fuel la entropy g a c logs Ha Hc. rewrite (oneka_values Rg mvn dump fuel la entropy g a c Ha Hc). unfold retained. split.
  - cbn [emit fst In]. intros [H|H]; [discriminate|].
    destruct (filter_obs _ _ _) as [kept|e|]; cbn [stop emit fst In] in H; try contradiction. destruct H as [H|H]; [discriminate|].
    destruct (py_assert _) as [[]|e|] eqn:A; cbn [stop emit fst In] in H; try contradiction. apply more_than_six in A.
    destruct (summary_statistics _) as [st|e|] eqn:S; cbn [stop emit fst In] in H; try contradiction. destruct H as [H|H]; [discriminate|].
    destruct (Z.gtb_spec (k_n c) 1) as [L|L].
    + split; [lia|]. destruct (call_stochastic _ _ _ _ _ _ _ _ _) as [[pf logs']|e|] eqn:D; cbn [stop emit fst In] in H; try contradiction.
      exists kept, st, pf. repeat split; auto. destruct H as [[= ->]|H]; [exact D|]. exfalso.
      destruct (create_probability_plot pf) as [[[X Y] P]|e|]; cbn [stop emit fst In] in H; try contradiction. destruct H as [H|H]; [discriminate|].
      destruct (create_impact_plot _ pf) as [[pr ar]|e|]; cbn [stop emit fst In] in H; try contradiction. destruct H as [H|H]; [discriminate|].
      destruct (decile_table pr ar) as [rows|e|]; cbn [stop emit fst In] in H; try contradiction. destruct H as [H|H]; [discriminate|].
      destruct (finish_events _ _ _ _ H); discriminate.
    + exfalso. destruct (call_deterministic _ _ _ _ _) as [[pf l]|e|] eqn:D; cbn [stop emit fst In] in H; try contradiction. destruct H as [H|H]; [discriminate|].
      destruct (create_deterministic_plot pf) as [ar|e|]; cbn [stop emit fst In] in H; try contradiction. destruct H as [H|H]; [discriminate|].
      destruct (finish_events _ _ _ _ H); discriminate.
  - intros (L & kept & st & pf & K & L7 & S & D). rewrite K. cbn [stop]. rewrite (proj2 (more_than_six kept) L7). cbn [stop]. rewrite S. cbn [stop].
    destruct (Z.gtb_spec (k_n c) 1) as [_|L']; [|lia]. rewrite D. cbn [stop emit fst In]. auto.
Qed.

(** The deterministic driver's log is written exactly when at most one realization is asked for, ... *)
Lemma c66_deterministic : forall (G E : Type) (Rg : rng xr G) (mvn : E -> list xr -> list (list xr) -> list xr) (dump : run_args (pyobj xr) -> res unit)
    (fuel : nat) (la : linalg xr) (entropy : nat -> E) (g : G) (a : args xr) (c : call) l,
  acceptable a -> reads a c ->
  (In (EDeterministic l) (fst (oneka Rg mvn dump fuel la entropy g a)) <->
   (k_n c <= 1)%Z /\ exists kept st pf, retained c kept /\ (7 <= List.length kept)%nat /\ summary_statistics (table kept) = Ok st /\
                      call_deterministic fuel la a c kept = Ok (pf, l)).
Proof.
  intros G E Rg mvn dump fuel la entropy g a c logs Ha Hc. rewrite (oneka_values Rg mvn dump fuel la entropy g a c Ha Hc). unfold retained. split.
  - cbn [emit fst In]. intros [H|H]; [discriminate|].
    destruct (filter_obs _ _ _) as [kept|e|]; cbn [stop emit fst In] in H; try contradiction. destruct H as [H|H]; [discriminate|].
    destruct (py_assert _) as [[]|e|] eqn:A; cbn [stop emit fst In] in H; try contradiction. apply more_than_six in A.
    destruct (summary_statistics _) as [st|e|] eqn:S; cbn [stop emit fst In] in H; try contradiction. destruct H as [H|H]; [discriminate|].
    destruct (Z.gtb_spec (k_n c) 1) as [L|L].
    + exfalso. destruct (call_stochastic _ _ _ _ _ _ _ _ _) as [[pf logs']|e|] eqn:D; cbn [stop emit fst In] in H; try contradiction. destruct H as [H|H]; [discriminate|].
      destruct (create_probability_plot pf) as [[[X Y] P]|e|]; cbn [stop emit fst In] in H; try contradiction. destruct H as [H|H]; [discriminate|].
      destruct (create_impact_plot _ pf) as [[pr ar]|e|]; cbn [stop emit fst In] in H; try contradiction. destruct H as [H|H]; [discriminate|].
      destruct (decile_table pr ar) as [rows|e|]; cbn [stop emit fst In] in H; try contradiction. destruct H as [H|H]; [discriminate|].
      destruct (finish_events _ _ _ _ H); discriminate.
    + split; [lia|]. destruct (call_deterministic _ _ _ _ _) as [[pf l]|e|] eqn:D; cbn [stop emit fst In] in H; try contradiction.
      exists kept, st, pf. repeat split; auto. destruct H as [[= ->]|H]; [exact D|]. exfalso.
      destruct (create_deterministic_plot pf) as [ar|e|]; cbn [stop emit fst In] in H; try contradiction. destruct H as [H|H]; [discriminate|].
      destruct (finish_events _ _ _ _ H); discriminate.
  - intros (L & kept & st & pf & K & L7 & S & D). rewrite K. cbn [stop]. rewrite (proj2 (more_than_six kept) L7). cbn [stop]. rewrite S. cbn [stop].
    destruct (Z.gtb_spec (k_n c) 1) as [L'|_]; [lia|]. rewrite D. cbn [stop emit fst In]. auto.
Qed.

(** With fewer than seven retained observations neither driver is called: the run fails. *)
Lemma c66_too_few : forall (G E : Type) (Rg : rng xr G) (mvn : E -> list xr -> list (list xr) -> list xr) (dump : run_args (pyobj xr) -> res unit)
    (fuel : nat) (la : linalg xr) (entropy : nat -> E) (g : G) (a : args xr) (c : call) kept,
  acceptable a -> reads a c -> retained c kept -> (List.length kept < 7)%nat ->
  oneka Rg mvn dump fuel la entropy g a = ([EBanner; EFiltered kept], Raise AssertionError).
Proof.
  intros G E Rg mvn dump fuel la entropy g a c kept Ha Hc K L. rewrite (oneka_values Rg mvn dump fuel la entropy g a c Ha Hc). rewrite K. cbn [stop].
  destruct (Z.gtb_spec (Z.of_nat (List.length kept)) 6) as [L'|_]; [lia|reflexivity].
Qed.

(** An exception of the driver ends the run: nothing is plotted or archived. *)
Lemma c66_driver_raises : forall (G E : Type) (Rg : rng xr G) (mvn : E -> list xr -> list (list xr) -> list xr) (dump : run_args (pyobj xr) -> res unit)
    (fuel : nat) (la : linalg xr) (entropy : nat -> E) (g : G) (a : args xr) (c : call) kept st e,
  acceptable a -> reads a c -> retained c kept -> (7 <= List.length kept)%nat -> summary_statistics (table kept) = Ok st ->
  ((1 < k_n c)%Z /\ call_stochastic Rg mvn fuel la entropy g a c kept = Raise e \/
   (k_n c <= 1)%Z /\ call_deterministic fuel la a c kept = Raise e) ->
  oneka Rg mvn dump fuel la entropy g a = ([EBanner; EFiltered kept; ESummary st], Raise e).
Proof.
  intros G E Rg mvn dump fuel la entropy g a c kept st e Ha Hc K L S D. rewrite (oneka_values Rg mvn dump fuel la entropy g a c Ha Hc). rewrite K. cbn [stop].
  rewrite (proj2 (more_than_six kept) L). cbn [stop]. rewrite S. cbn [stop].
  destruct D as [[L' D]|[L' D]]; destruct (Z.gtb_spec (k_n c) 1) as [Q|Q]; try lia; rewrite D; reflexivity.
Qed.

(** The target exists, so the drivers never fail to find it. *)
Lemma c66_target : forall (a : args xr) (c : call), validate a = Ok tt -> reads a c ->
  exists w, nth_error (k_wells c) (Z.to_nat (k_target c)) = Some w.
Proof.
  intros a c Ha%c64_accepts. revert Ha. intros ((_ & _ & (ws & Ew & _ & t & Ht & T) & _) & _) (H1 & _ & _ & _ & _ & (l & El & F) & _).
  rewrite (integer_fun _ _ _ H1 Ht). rewrite Ew in El. injection El as <-.
  assert (L : List.length (k_wells c) = List.length ws) by (clear - F; induction F; cbn; congruence).
  destruct (nth_error (k_wells c) (Z.to_nat t)) as [w|] eqn:E; [exists w; reflexivity|]. apply nth_error_None in E. lia.
Qed.

(** ** C67 *)

(** No run returns a field, in any arithmetic. *)
Lemma c67_never : forall (T : Type) (N : Num T) (G E : Type) (Rg : rng T G) (mvn : E -> list T -> list (list T) -> list T) (dump : run_args (pyobj T) -> res unit)
    (fuel : nat) (la : linalg T) (entropy : nat -> E) (g : G) (a : args T) s,
  snd (oneka Rg mvn dump fuel la entropy g a) <> Ok (RField s).
Proof.
  intros T N G E Rg mvn dump fuel la entropy g a s. unfold oneka, finish.
  repeat first [ progress cbn [stop emit fst snd]
               | discriminate
               | match goal with
                 | |- snd (stop ?r _) <> _ => destruct r as [?|?|]
                 | |- snd (match ?p with (_, _) => _ end) <> _ => destruct p
                 | |- snd (if ?b then _ else _) <> _ => destruct b
                 end ].
Qed.

(** A run that returns has called a driver once, and handed its arguments and the field of the driver to the archive. *)
Lemma c67_archived_partial : forall (T : Type) (N : Num T) (G E : Type) (Rg : rng T G) (mvn : E -> list T -> list (list T) -> list T) (dump : run_args (pyobj T) -> res unit)
    (fuel : nat) (la : linalg T) (entropy : nat -> E) (g : G) (a : args T) events r,
  oneka Rg mvn dump fuel la entropy g a = (events, Ok r) ->
  r = RNone /\ exists before s, events = before ++ [EArchive (archived a s); EShow] /\ dump (archived a s) = Ok tt /\ from_driver Rg mvn s /\
    forall r', ~ In (EArchive r') before.
Proof.
  intros T N G E Rg mvn dump fuel la entropy g a events r.
  assert (P : forall e (o : outcome T), (exists r', e = EArchive r') \/
             ((forall events r, o = (events, Ok r) -> r = RNone /\ exists before s, events = before ++ [EArchive (archived a s); EShow] /\ dump (archived a s) = Ok tt /\ from_driver Rg mvn s /\ (forall r', ~ In (EArchive r') before)) ->
              forall events r, emit e o = (events, Ok r) -> r = RNone /\ exists before s, events = before ++ [EArchive (archived a s); EShow] /\ dump (archived a s) = Ok tt /\ from_driver Rg mvn s /\ (forall r', ~ In (EArchive r') before))).
  { intros e o. assert (D : (exists r', e = EArchive r') \/ forall r', e <> EArchive r') by (destruct e; try (right; discriminate); left; eexists; reflexivity).
    destruct D as [D|D]; [left; exact D|right]. intros H ev r0 Eo. destruct o as [ev' r']. unfold emit in Eo. cbn in Eo. injection Eo as <- ->.
    destruct (H ev' r0 eq_refl) as (-> & bef & s & -> & Hd & Hs & Hb). split; [reflexivity|]. exists (e :: bef), s. repeat split; auto.
    intros r' [->|I]; [apply (D r'); reflexivity|exact (Hb r' I)]. }
  assert (F : forall s events r, from_driver Rg mvn s -> finish dump a s = (events, Ok r) -> r = RNone /\ exists before s, events = before ++ [EArchive (archived a s); EShow] /\ dump (archived a s) = Ok tt /\ from_driver Rg mvn s /\ (forall r', ~ In (EArchive r') before)).
  { intros s ev r0 Hs Ef. unfold finish in Ef. destruct (dump (archived a s)) as [[]|e|] eqn:D; cbn in Ef; try discriminate. injection Ef as <- <-.
    split; [reflexivity|]. exists [], s. repeat split; auto. }
  revert events r. unfold oneka.
  repeat first
    [ discriminate
    | match goal with
      | |- forall ev r, stop ?r0 _ = (ev, Ok r) -> _ => let E := fresh "E" in destruct r0 as [?|?|] eqn:E; cbn [stop]; [|discriminate|discriminate]
      | |- forall ev r, emit ?e ?o = (ev, Ok r) -> _ => destruct (P e o) as [[? ?]|Q]; [discriminate|apply Q; clear Q]
      | |- forall ev r, (match ?p with (_, _) => _ end) = (ev, Ok r) -> _ => destruct p
      | |- forall ev r, (if ?b then _ else _) = (ev, Ok r) -> _ => destruct b
      end ].
  - intros. eapply F; [|eassumption]. left. repeat eexists. eassumption.
  - intros. eapply F; [|eassumption]. right. repeat eexists. eassumption.
Qed.

(** ** C73 for a whole run *)

(** After a run that returns, its archive holds every argument under its own name, and the field the driver computed. *)
Lemma c73_run : forall (T : Type) (N : Num T) (B G E : Type) (k : codec (pyobj T) B) (disk : files B) (now : datetime)
    (Rg : rng T G) (mvn : E -> list T -> list (list T) -> list T) (fuel : nat) (la : linalg T) (entropy : nat -> E) (g : G) (a : args T) events r,
  faithful k -> oneka Rg mvn (fun x => snd (dump_oneka k disk now x)) fuel la entropy g a = (events, Ok r) ->
  exists s disk' d, In (EArchive (archived a s)) events /\ from_driver Rg mvn s /\ dump_oneka k disk now (archived a s) = (disk', Ok tt) /\
    load_oneka k disk' (archive_name now) = Ok d /\ List.length d = 20%nat /\
    lookup d "projectname" = Some (OVal (projectname a)) /\ lookup d "runtime" = Some (OVal (runtime a)) /\
    lookup d "target" = Some (OVal (target a)) /\ lookup d "npaths" = Some (OVal (npaths a)) /\
    lookup d "duration" = Some (OVal (duration a)) /\ lookup d "nrealizations" = Some (OVal (nrealizations a)) /\
    lookup d "base" = Some (OVal (base_ a)) /\ lookup d "c_dist" = Some (OVal (c_dist a)) /\
    lookup d "p_dist" = Some (OVal (p_dist a)) /\ lookup d "t_dist" = Some (OVal (t_dist a)) /\
    lookup d "stochastic_wells" = Some (OVal (stochastic_wells a)) /\ lookup d "observations" = Some (OVal (observations a)) /\
    lookup d "buffer" = Some (OVal (buffer a)) /\ lookup d "spacing" = Some (OVal (spacing a)) /\
    lookup d "umbra" = Some (OVal (umbra a)) /\ lookup d "smooth" = Some (OVal (smooth a)) /\
    lookup d "confined" = Some (OVal (confined a)) /\ lookup d "tol" = Some (OVal (tol a)) /\
    lookup d "maxstep" = Some (OVal (maxstep a)) /\ lookup d "pfield" = Some (OField s).
Proof.
  intros T N B G E k disk now Rg mvn fuel la entropy g a events r Hk H.
  destruct (c67_archived_partial T N G E Rg mvn _ fuel la entropy g a events r H) as (_ & bef & s & -> & Hd & Hs & _). cbv beta in Hd.
  destruct (dump_oneka k disk now (archived a s)) as [disk' r'] eqn:D. cbn [snd] in Hd. subst r'.
  destruct (c73_roundtrip _ _ k disk disk' now (archived a s) Hk D) as (d & L & (Ln & _ & Rec) & Look).
  exists s, disk', d. split; [apply in_or_app; right; left; reflexivity|]. split; [exact Hs|]. split; [exact D|]. split; [exact L|]. split; [exact Ln|].
  repeat split; apply Look, Rec; cbn; auto 25.
Qed.
