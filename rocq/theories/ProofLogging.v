(** * Proofs about where the messages go (C109, C110, C111) *)
From Coq Require Import String Ascii SpecFloat ZArith List Lia Bool.
From Verif Require Import Py Num ModelField ModelAquifer ModelTrace ModelObs ModelDist ModelDriver ModelPlot ModelArchive ModelMain
  ModelText ModelLog ModelTranscript ModelLogging SpecTranscript ProofTranscript.
Import ListNotations.
Local Open Scope string_scope.

Definition kinds (ms : list moment) : Prop := Forall two_kinds (messages ms).

Lemma messages_app a b : messages (List.app a b) = List.app (messages a) (messages b).
Proof. apply flat_map_app. Qed.
Lemma kinds_app a b : kinds a -> kinds b -> kinds (List.app a b).
Proof. unfold kinds. rewrite messages_app. intros. now apply Forall_app. Qed.
Lemma kinds_infos ls : kinds (infos ls).
Proof. induction ls as [|l ls IH]; [constructor|]. constructor; [left; split; [reflexivity|discriminate]|exact IH]. Qed.
Lemma kinds_did e l : kinds l -> kinds (Did e :: l).
Proof. exact (fun h => h). Qed.
Lemma kinds_nil : kinds [].
Proof. constructor. Qed.
Lemma kinds_tell (A : Type) ms (k : story A) : kinds ms -> kinds (fst k) -> kinds (fst (tell ms k)).
Proof. intros. now apply kinds_app. Qed.
Lemma kinds_attempt (A B : Type) (r : res A) (k : A -> story B) : (forall a, kinds (fst (k a))) -> kinds (fst (attempt r k)).
Proof. intros H. destruct r; [apply H|apply kinds_nil..]. Qed.
Lemma kinds_thereafter (A B : Type) (st : story A) (k : A -> story B) : kinds (fst st) -> (forall a, kinds (fst (k a))) -> kinds (fst (thereafter st k)).
Proof. intros H K. unfold thereafter. destruct (snd st); [apply kinds_tell; auto|exact H..]. Qed.
Lemma kinds_aloud (A : Type) (m : logged A) : kinds (fst (aloud m)).
Proof. apply kinds_infos. Qed.
Lemma kinds_plotted (A : Type) (r : res A) k : (forall a, kinds (fst (k a))) -> kinds (fst (plotted r k)).
Proof.
  intros H. destruct r as [a|e|]; [apply H| |apply kinds_nil].
  destruct e; try apply kinds_nil. constructor; [left; split; [reflexivity|discriminate]|constructor].
Qed.

Section Kinds.
  Context {N : Num spec_float}.
  Lemma kinds_trace tr : kinds (trace_said tr).
  Proof.
    unfold trace_said. destruct (completed tr); constructor; [|constructor].
    right. split; [reflexivity|]. split; [reflexivity|]. exists (t_end tr). reflexivity.
  Qed.
  Lemma kinds_paths fuel xt yt rt duration umbra tol maxstep f : forall ths s,
    kinds (fst (paths_said fuel s xt yt rt duration umbra tol maxstep f ths)).
  Proof.
    induction ths as [|th ths IH]; intros s; [apply kinds_nil|]. cbn [paths_said]. destruct (start_point xt yt rt th) as [xs ys].
    apply kinds_attempt. intros tr. apply kinds_tell; [apply kinds_trace|]. destruct (rasterize _ _ _ _ _) as [s' r].
    apply kinds_attempt. intros _. apply IH.
  Qed.
  Lemma kinds_capturezone fuel xt yt rt np duration s umbra weight tol maxstep f :
    kinds (fst (capturezone_said fuel xt yt rt np duration s umbra weight tol maxstep f)).
  Proof.
    unfold capturezone_said. apply kinds_attempt. intros ths. apply kinds_thereafter; [apply kinds_paths|]. intros s'.
    destruct (register s' weight) as [s'' r]. apply kinds_attempt. intros _. apply kinds_nil.
  Qed.
  Lemma kinds_fit la m os x0 y0 : kinds (fit_said la m os x0 y0).
  Proof.
    unfold fit_said. destruct (bind _ _) as [v|e|]; [apply kinds_nil| |apply kinds_nil]. destruct e; try apply kinds_nil.
    constructor; [left; split; [reflexivity|discriminate]|constructor].
  Qed.
  Lemma kinds_realization fuel la s xt yt rt np duration base kv nv hv ws qs os umbra confined tol maxstep pick announce :
    (forall k n h e c, kinds (fst (announce k n h e c))) ->
    kinds (fst (realization_said fuel la s xt yt rt np duration base kv nv hv ws qs os umbra confined tol maxstep pick announce)).
  Proof.
    intros HA. unfold realization_said. apply kinds_attempt; intros wells. apply kinds_attempt; intros k. apply kinds_attempt; intros h.
    apply kinds_tell; [apply kinds_fit|]. destruct (fit_regional_flow la _ os xt yt) as [m1 r].
    apply kinds_attempt; intros [ev cov]. apply kinds_attempt; intros e. apply kinds_attempt; intros c.
    apply kinds_thereafter; [apply HA|]. intros _. apply kinds_capturezone.
  Qed.
  Lemma kinds_realizations (G E : Type) (R : rng spec_float G) (mvn : E -> list spec_float -> list (list spec_float) -> list spec_float)
    fuel la entropy xt yt rt np duration bv base c_dist p_dist t_dist ws os umbra confined tol maxstep : forall count i g s,
    kinds (fst (realizations_said R mvn fuel la count entropy i g s xt yt rt np duration bv base c_dist p_dist t_dist ws os umbra confined tol maxstep)).
  Proof.
    induction count as [|count IH]; intros i g s; [apply kinds_nil|]. cbn [realizations_said].
    apply kinds_attempt; intros [qs g1]. apply kinds_attempt; intros [k g2]. apply kinds_attempt; intros [n g3]. apply kinds_attempt; intros [h g4].
    apply kinds_thereafter; [apply kinds_realization; intros; apply kinds_aloud|]. intros s'. apply IH.
  Qed.
  Lemma kinds_rows pr area k : kinds (fst k) -> forall ps, kinds (fst (rows_said pr area ps k)).
  Proof.
    intros H. induction ps as [|p ps IH]; [exact H|]. cbn [rows_said]. apply kinds_attempt; intros r. apply kinds_tell; [apply kinds_infos|exact IH].
  Qed.
  Lemma kinds_finish dump a pf : kinds (fst (finish_said dump a pf)).
  Proof. unfold finish_said. apply kinds_tell; [apply kinds_did, kinds_nil|]. apply kinds_attempt. intros _. apply kinds_did, kinds_nil. Qed.
End Kinds.

(** Every message of a run is of one of the two kinds. *)
Lemma c109_kinds : forall (N : Num spec_float) (G E : Type) (R : rng spec_float G) (mvn : E -> list spec_float -> list (list spec_float) -> list spec_float)
    (dump : run_args (pyobj spec_float) -> res unit) fuel la entropy g (a : args spec_float),
  Forall two_kinds (messages (fst (oneka_said R mvn dump fuel la entropy g a))).
Proof.
  intros. change (kinds (fst (oneka_said R mvn dump fuel la entropy g a))). unfold oneka_said.
  apply kinds_attempt; intros _. apply kinds_thereafter; [apply kinds_aloud|]; intros _.
  do 4 (apply kinds_attempt; intros ?). apply kinds_thereafter; [apply kinds_aloud|]; intros kept. cbv zeta.
  do 2 (apply kinds_attempt; intros ?). apply kinds_tell; [apply kinds_infos|]. do 8 (apply kinds_attempt; intros ?).
  destruct (_ >? 1)%Z.
  - apply kinds_thereafter.
    { unfold stochastic_said. destruct (nth_error _ _); [|apply kinds_nil]. apply kinds_attempt; intros s0. apply kinds_realizations. }
    intros pf. apply kinds_plotted; intros [[X Y] P]. apply kinds_tell; [apply kinds_did, kinds_nil|].
    apply kinds_plotted; intros [pr area]. apply kinds_tell; [apply kinds_did, kinds_nil|].
    unfold deciles_said. apply kinds_tell; [apply kinds_infos|]. apply kinds_attempt; intros ps. apply kinds_rows.
    apply kinds_tell; [apply kinds_infos|]. apply kinds_finish.
  - apply kinds_thereafter.
    { unfold deterministic_said. destruct (nth_error _ _); [|apply kinds_nil]. do 5 (apply kinds_attempt; intros ?).
      apply kinds_realization. intros; apply kinds_aloud. }
    intros pf. apply kinds_plotted; intros area. apply kinds_tell; [apply kinds_did, kinds_nil|]. apply kinds_tell; [apply kinds_infos|]. apply kinds_finish.
Qed.

(** The state after any number of calls whose files could be opened. *)
Definition after_calls (stamps : list string) (c : logging) : Prop :=
  lookup "Oneka" (levels c) = (match stamps with [] => None | _ => Some Info end) /\
  (forall n, n <> "Oneka" -> lookup n (levels c) = None) /\
  handlers c = map (fun s => {| h_on := "Oneka"; h_level := Info; h_file := log_file s |}) stamps.

Lemma after_fresh : after_calls [] fresh.
Proof. repeat split. Qed.

Definition opened_state (c : logging) (stamp : string) : logging :=
  {| levels := ("Oneka", Info) :: levels c; handlers := List.app (handlers c) [{| h_on := "Oneka"; h_level := Info; h_file := log_file stamp |}] |}.
Lemma after_open stamps c stamp : after_calls stamps c -> after_calls (List.app stamps [stamp]) (opened_state c stamp).
Proof.
  intros (L & O & H). unfold after_calls, opened_state. cbn [levels handlers lookup]. split; [destruct stamps; reflexivity|]. split.
  - intros n Hn. destruct (String.eqb_spec "Oneka" n); [congruence|]. apply O, Hn.
  - rewrite H, map_app. reflexivity.
Qed.

Lemma filter_all (A : Type) f (l : list A) : (forall x, In x l -> f x = true) -> filter f l = l.
Proof. induction l as [|x l IH]; intros H; [reflexivity|]. cbn. rewrite (H x) by now left. f_equal. apply IH. intros y Hy. apply H. now right. Qed.
Lemma filter_none (A : Type) f (l : list A) : (forall x, In x l -> f x = false) -> filter f l = [].
Proof. induction l as [|x l IH]; intros H; [reflexivity|]. cbn. rewrite (H x) by now left. apply IH. intros y Hy. apply H. now right. Qed.

Lemma destinations_program stamps c m : stamps <> [] -> after_calls stamps c -> from m = "Oneka" -> at_level m <> Debug ->
  destinations c m = map (fun s => File (log_file s)) stamps.
Proof.
  intros Hn (L & O & H) F D. unfold destinations. rewrite F. change (lineage "Oneka") with ["Oneka"; ""]. cbn [effective flat_map]. rewrite L, H.
  destruct stamps as [|s0 stamps]; [congruence|].
  assert (rank (at_level m) <? rank Info = false)%Z as -> by (destruct (at_level m); congruence || reflexivity).
  rewrite (filter_all _ _ (map _ _)) by (intros h Hh; apply in_map_iff in Hh; destruct Hh as (s & <- & _); reflexivity).
  rewrite (filter_none _ _ (map _ _)) by (intros h Hh; apply in_map_iff in Hh; destruct Hh as (s & <- & _); reflexivity).
  cbn [List.app]. rewrite app_nil_r. set (hs := map _ (s0 :: stamps)).
  assert (K : filter (fun h => rank (h_level h) <=? rank (at_level m))%Z hs = hs).
  { apply filter_all. intros x Hx. apply in_map_iff in Hx. destruct Hx as (s & <- & _). cbn [h_level]. destruct (at_level m); congruence || reflexivity. }
  transitivity (map (fun h => File (h_file h)) hs); [|unfold hs; rewrite map_map; reflexivity].
  transitivity (map (fun h => File (h_file h)) (filter (fun h => rank (h_level h) <=? rank (at_level m))%Z hs)); [reflexivity|rewrite K; reflexivity].
Qed.
Lemma destinations_trace stamps c m : after_calls stamps c -> from m = "oneka.capturezone" -> at_level m = Warning -> destinations c m = [Stderr].
Proof.
  intros (L & O & H) F D. unfold destinations. rewrite F, D. change (lineage "oneka.capturezone") with ["oneka.capturezone"; "oneka"; ""].
  cbn [effective flat_map]. rewrite !O by discriminate. cbn [Z.ltb rank]. rewrite H.
  rewrite !filter_none by (intros h Hh; apply in_map_iff in Hh; destruct Hh as (s & <- & _); reflexivity). reflexivity.
Qed.

Lemma writes_app c a b : writes c (List.app a b) = List.app (writes c a) (writes c b).
Proof. apply flat_map_app. Qed.
Lemma written_app p a b : written_to p (List.app a b) = List.app (written_to p a) (written_to p b).
Proof. apply flat_map_app. Qed.
Lemma writes_messages c ms : writes c ms = flat_map (write c) (messages ms).
Proof. induction ms as [|[m|e] ms IH]; [reflexivity| |exact IH]. cbn. f_equal. exact IH. Qed.

(** How often a file is among those of the stamps. *)
Definition times (stamps : list string) (f : string) : nat := List.length (filter (fun s => String.eqb f (log_file s)) stamps).
Lemma written_repeat f stamps (t : string) : written_to (File f) (map (fun p => (p, t)) (map (fun s => File (log_file s)) stamps)) = repeat t (times stamps f).
Proof.
  induction stamps as [|s stamps IH]; [reflexivity|]. unfold times in *. cbn [map written_to flat_map filter] in *.
  destruct (String.eqb f (log_file s)); cbn [List.app List.length repeat]; rewrite <- IH; reflexivity.
Qed.
Lemma written_err stamps (t : string) : written_to Stderr (map (fun p => (p, t)) (map (fun s => File (log_file s)) stamps)) = [].
Proof. induction stamps as [|s stamps IH]; [reflexivity|exact IH]. Qed.

Lemma writes_file stamps c f ms : stamps <> [] -> after_calls stamps c -> Forall two_kinds (messages ms) ->
  written_to (File f) (writes c ms) = flat_map (fun t => repeat t (times stamps f)) (map text (filter from_program (messages ms))).
Proof.
  intros Hn Hc. rewrite writes_messages. generalize (messages ms) as l. induction l as [|m l IH]; intros H; [reflexivity|].
  inversion H as [|x y Hm Hl]. cbn [flat_map filter]. rewrite written_app, (IH Hl). unfold write, from_program.
  destruct Hm as [(F & D)|(F & D & _)]; rewrite F.
  - rewrite (destinations_program _ _ _ Hn Hc F D), written_repeat. reflexivity.
  - rewrite (destinations_trace _ _ _ Hc F D). reflexivity.
Qed.
Lemma writes_err stamps c ms : stamps <> [] -> after_calls stamps c -> Forall two_kinds (messages ms) ->
  written_to Stderr (writes c ms) = map text (filter (fun m => negb (from_program m)) (messages ms)).
Proof.
  intros Hn Hc. rewrite writes_messages. generalize (messages ms) as l. induction l as [|m l IH]; intros H; [reflexivity|].
  inversion H as [|x y Hm Hl]. cbn [flat_map filter]. rewrite written_app, (IH Hl). unfold write, from_program.
  destruct Hm as [(F & D)|(F & D & _)]; rewrite F.
  - rewrite (destinations_program _ _ _ Hn Hc F D), written_err. reflexivity.
  - rewrite (destinations_trace _ _ _ Hc F D). reflexivity.
Qed.

Lemma main_writes stamps c k : after_calls stamps c -> Forall two_kinds (messages (fst (c_run k))) ->
  exists c' out r, main c (c_args k) (c_stamp k) (Ok tt) (c_run k) (c_elapsed k) = (c', out, r) /\ after_calls (List.app stamps [c_stamp k]) c' /\
    r = (match snd (c_run k) with Ok _ => Ok tt | Raise e => Raise e | NoFuel => NoFuel end) /\
    (forall f, written_to (File f) out = flat_map (fun t => repeat t (times (List.app stamps [c_stamp k]) f)) (program_lines (c_run k) (c_elapsed k))) /\
    written_to Stderr out = trace_lines (c_run k).
Proof.
  intros Hc HK. set (c2 := opened_state c (c_stamp k)). pose proof (after_open stamps c (c_stamp k) Hc) as H2. fold c2 in H2.
  assert (Hn : List.app stamps [c_stamp k] <> []) by (destruct stamps; discriminate).
  pose proof (fun f => writes_file _ _ f _ Hn H2 HK) as WF. pose proof (writes_err _ _ _ Hn H2 HK) as WE.
  unfold main. cbn [levels handlers]. fold (opened_state c (c_stamp k)).
  change ({| levels := _; handlers := _ |}) with c2. unfold program_lines, trace_lines.
  destruct (snd (c_run k)) as [v|e|]; cbn [closing].
  - set (total := "Total elapsed time = " ++ _). do 3 eexists. split; [reflexivity|]. split; [exact H2|]. split; [reflexivity|].
    pose proof (kinds_infos [newline; total]) as KI.
    split.
    + intros f. rewrite !written_app. rewrite WF, (writes_file _ _ f _ Hn H2 KI). rewrite flat_map_app.
      cbn [written_to flat_map List.app]. rewrite app_nil_r. reflexivity.
    + rewrite !written_app, WE, (writes_err _ _ _ Hn H2 KI). cbn [written_to flat_map List.app messages infos map filter]. rewrite !app_nil_r. reflexivity.
  - do 3 eexists. split; [reflexivity|]. split; [exact H2|]. split; [reflexivity|]. rewrite !app_nil_r. split.
    + intros f. rewrite written_app. exact (WF f).
    + rewrite written_app. exact WE.
  - do 3 eexists. split; [reflexivity|]. split; [exact H2|]. split; [reflexivity|]. rewrite !app_nil_r. split.
    + intros f. rewrite written_app. exact (WF f).
    + rewrite written_app. exact WE.
Qed.

Lemma append_cancel (x : string) : forall s t, s ++ x = t ++ x -> s = t.
Proof.
  assert (L : forall s, String.length (s ++ x) = (String.length s + String.length x)%nat) by (induction s as [|c s IH]; cbn; congruence).
  induction s as [|c s IH]; intros [|d t] H; cbn [append] in H; [reflexivity| | |].
  - apply (f_equal String.length) in H. cbn [String.length] in H. rewrite L in H. lia.
  - apply (f_equal String.length) in H. cbn [String.length] in H. rewrite L in H. lia.
  - injection H as -> H. f_equal. apply IH, H.
Qed.
Lemma log_file_inj s t : log_file s = log_file t -> s = t.
Proof. unfold log_file. cbn [append]. intros H. injection H as H. exact (append_cancel _ _ _ H). Qed.

Fixpoint contents (pre : list string) (ks : list call) (f : string) : list string :=
  match ks with
  | [] => []
  | k :: ks => List.app (flat_map (fun t => repeat t (times (List.app pre [c_stamp k]) f)) (program_lines (c_run k) (c_elapsed k)))
                        (contents (List.app pre [c_stamp k]) ks f)
  end.
Lemma calls_contents f : forall ks pre c outs, after_calls pre c -> Forall (fun k => Forall two_kinds (messages (fst (c_run k)))) ks -> calls c ks outs ->
  written_to (File f) (concat outs) = contents pre ks f /\ written_to Stderr (concat outs) = flat_map (fun k => trace_lines (c_run k)) ks.
Proof.
  induction ks as [|k ks IH]; intros pre c outs Hc HK H; inversion H as [|? ? ? c' out r outs' M H']; subst; [split; reflexivity|].
  inversion HK as [|x y K1 K2]; subst. destruct (main_writes pre c k Hc K1) as (c'' & out' & r' & M' & Hc' & _ & W & WE).
  assert (c'' = c' /\ out' = out) as (-> & ->) by (split; congruence). destruct (IH _ _ _ Hc' K2 H') as (I1 & I2).
  cbn [concat contents flat_map]. rewrite !written_app, W, WE, I1, I2. split; reflexivity.
Qed.
Lemma times_app a b f : times (List.app a b) f = (times a f + times b f)%nat.
Proof. unfold times. now rewrite filter_app, app_length. Qed.
Lemma times_one s t : times [s] (log_file t) = if String.eqb t s then 1%nat else 0%nat.
Proof.
  unfold times. cbn [filter]. destruct (String.eqb_spec (log_file t) (log_file s)) as [E|E]; destruct (String.eqb_spec t s) as [F|F]; try reflexivity.
  - apply log_file_inj in E. congruence.
  - congruence.
Qed.
Lemma repeat_one (l : list string) : flat_map (fun t => repeat t 1) l = l.
Proof. induction l as [|x l IH]; [reflexivity|]. cbn in *. f_equal. exact IH. Qed.
Lemma repeat_none (l : list string) : flat_map (fun t => repeat t 0) l = [].
Proof. induction l as [|x l IH]; [reflexivity|exact IH]. Qed.
Lemma contents_one t : forall ks pre, times pre (log_file t) = 1%nat -> ~ In t (map c_stamp ks) ->
  contents pre ks (log_file t) = flat_map (fun k => program_lines (c_run k) (c_elapsed k)) ks.
Proof.
  induction ks as [|k ks IH]; intros pre Hp Hn; [reflexivity|]. cbn [contents flat_map]. cbn [map In] in Hn.
  assert (E : times (List.app pre [c_stamp k]) (log_file t) = 1%nat).
  { rewrite times_app, times_one, Hp. destruct (String.eqb_spec t (c_stamp k)); [|reflexivity]. exfalso; apply Hn; left; congruence. }
  rewrite E, repeat_one, IH; [reflexivity|exact E|]. intros I. apply Hn. now right.
Qed.
Lemma contents_from t : forall ks pre i k, times pre (log_file t) = 0%nat -> NoDup (map c_stamp ks) -> nth_error ks i = Some k -> c_stamp k = t ->
  contents pre ks (log_file t) = flat_map (fun k => program_lines (c_run k) (c_elapsed k)) (skipn i ks).
Proof.
  induction ks as [|k0 ks IH]; intros pre i k Hp HN Hi Hk; [destruct i; discriminate Hi|]. cbn [map] in HN. inversion HN as [|x y N1 N2]; subst.
  destruct i as [|i].
  - injection Hi as ->. cbn [skipn contents flat_map].
    assert (E : times (List.app pre [c_stamp k]) (log_file (c_stamp k)) = 1%nat) by (rewrite times_app, times_one, Hp, String.eqb_refl; reflexivity).
    rewrite E, repeat_one. f_equal. apply contents_one; [exact E|exact N1].
  - cbn [nth_error] in Hi. cbn [skipn contents].
    assert (D : c_stamp k <> c_stamp k0). { intros E. apply N1. rewrite <- E. apply in_map. exact (nth_error_In _ _ Hi). }
    assert (E : times (List.app pre [c_stamp k0]) (log_file (c_stamp k)) = 0%nat).
    { rewrite times_app, times_one, Hp. destruct (String.eqb_spec (c_stamp k) (c_stamp k0)); [contradiction|reflexivity]. }
    rewrite E, repeat_none. cbn [List.app]. exact (IH _ i k E N2 Hi eq_refl).
Qed.

(** The first call of main in a process: the log file gets the messages of the logger Oneka, in order and once each, and the
    closing lines if nothing was raised; the warnings of the traces go to stderr; no other file is written. *)
Lemma c109_first : forall (N : Num spec_float) (G E : Type) (R : rng spec_float G) (mvn : E -> list spec_float -> list (list spec_float) -> list spec_float)
    (dump : run_args (pyobj spec_float) -> res unit) fuel la entropy g (a : args spec_float) stamp elapsed,
  exists c out r, let run := oneka_said R mvn dump fuel la entropy g a in
    main fresh a stamp (Ok tt) run elapsed = (c, out, r) /\
    r = (match snd run with Ok _ => Ok tt | Raise e => Raise e | NoFuel => NoFuel end) /\
    written_to (File (log_file stamp)) out = program_lines run elapsed /\ written_to Stderr out = trace_lines run /\
    (forall f, f <> log_file stamp -> written_to (File f) out = []).
Proof.
  intros. set (run := oneka_said R mvn dump fuel la entropy g a).
  destruct (main_writes [] fresh {| c_args := a; c_stamp := stamp; c_run := run; c_elapsed := elapsed |} after_fresh
              (c109_kinds N G E R mvn dump fuel la entropy g a)) as (c & out & r & M & _ & Hr & W & WE).
  cbn [c_args c_stamp c_run c_elapsed List.app] in *. exists c, out, r. cbv zeta. split; [exact M|]. split; [exact Hr|]. split; [|split; [exact WE|]].
  - rewrite W, times_one, String.eqb_refl. apply repeat_one.
  - intros f Hf. rewrite W. unfold times. cbn [filter]. destruct (String.eqb_spec f (log_file stamp)); [contradiction|]. apply repeat_none.
Qed.

(** Calls of main in one process, at different seconds: the file of a call holds the lines of its run and those of all the
    later ones. The warnings of the traces of all the runs go to stderr. *)
Lemma c110_calls : forall ks outs i k, Forall (fun k => Forall two_kinds (messages (fst (c_run k)))) ks -> NoDup (map c_stamp ks) ->
  calls fresh ks outs -> nth_error ks i = Some k ->
  written_to (File (log_file (c_stamp k))) (concat outs) = flat_map (fun k => program_lines (c_run k) (c_elapsed k)) (skipn i ks) /\
  written_to Stderr (concat outs) = flat_map (fun k => trace_lines (c_run k)) ks.
Proof.
  intros ks outs i k HK HN H Hi. destruct (calls_contents (log_file (c_stamp k)) ks [] fresh outs after_fresh HK H) as (W & WE).
  split; [|exact WE]. rewrite W. exact (contents_from _ ks [] i k eq_refl HN Hi eq_refl).
Qed.

(** A single call, or the last one: its file holds the lines of its run and nothing else. *)
Lemma c110_last : forall ks outs k, Forall (fun k => Forall two_kinds (messages (fst (c_run k)))) (ks ++ [k])%list -> NoDup (map c_stamp (ks ++ [k])%list) ->
  calls fresh (ks ++ [k])%list outs -> written_to (File (log_file (c_stamp k))) (concat outs) = program_lines (c_run k) (c_elapsed k).
Proof.
  intros ks outs k HK HN H.
  assert (Hi : nth_error (List.app ks [k]) (List.length ks) = Some k) by (rewrite nth_error_app2, Nat.sub_diag by apply le_n; reflexivity).
  destruct (c110_calls _ _ _ _ HK HN H Hi) as (W & _). rewrite W, skipn_app, skipn_all, Nat.sub_diag. cbn [skipn List.app flat_map]. apply app_nil_r.
Qed.

(** Two calls in the same second: every line of the second run is in the one file twice. *)
Lemma c110_same_second : forall k k' outs, Forall two_kinds (messages (fst (c_run k))) -> Forall two_kinds (messages (fst (c_run k'))) -> c_stamp k' = c_stamp k ->
  calls fresh [k; k'] outs ->
  written_to (File (log_file (c_stamp k))) (concat outs) =
  (program_lines (c_run k) (c_elapsed k) ++ flat_map (fun t => [t; t]) (program_lines (c_run k') (c_elapsed k')))%list.
Proof.
  intros k k' outs K1 K2 E H.
  destruct (calls_contents (log_file (c_stamp k)) [k; k'] [] fresh outs after_fresh (Forall_cons k K1 (Forall_cons k' K2 (Forall_nil _))) H) as (W & _). rewrite W.
  cbn [contents List.app]. rewrite E. unfold times. cbn [filter]. rewrite String.eqb_refl. cbn [List.length repeat]. rewrite app_nil_r. f_equal.
  exact (repeat_one _).
Qed.

(** What the warning says of a trace that has ended early, "t < duration", is true exactly when the duration is positive. *)
Lemma abs_below t D : SFltb (SFabs t) (SFabs D) = true -> SFltb t D = SFltb (S754_zero false) D.
Proof.
  destruct D as [[|]|[|]| |[|] m e]; destruct t as [[|]|[|]| |[|] m' e']; cbn; try reflexivity; try discriminate;
    unfold SFltb; cbn; destruct (Z.compare e' e) eqn:EC; try destruct (Pos.compare_cont Eq m' m) eqn:EM; cbn; intros H; reflexivity || discriminate H.
Qed.
Lemma loop_below (lm : libm) (f : vec spec_float -> res (vec spec_float)) D tol maxstep tr : completed tr = false -> forall fuel t dt xy k1 acc,
  trace_loop (N := SF lm) fuel f D tol maxstep t dt xy k1 acc = Ok tr -> SFltb (t_end tr) D = SFltb (S754_zero false) D.
Proof.
  intros F. induction fuel as [|fuel IH]; intros t dt xy k1 acc H; [discriminate H|]. cbn [trace_loop] in H.
  destruct (nlt (Num := SF lm) (nabs t) (nabs D)) eqn:B; [|injection H as <-; discriminate F].
  destruct (dp_step (N := SF lm) f xy _ k1) as [[[[xyt k7] est] ds]|e|].
  - destruct (_ && _)%bool; exact (IH _ _ _ _ _ H).
  - injection H as <-. cbn [t_end]. exact (abs_below t D B).
  - discriminate H.
Qed.
Lemma c111_truth : forall (lm : libm) fuel xs ys D tol maxstep (f : vec spec_float -> res (vec spec_float)) tr,
  compute_backtrace (N := SF lm) fuel xs ys D tol maxstep f = Ok tr -> completed tr = false -> SFltb (t_end tr) D = SFltb (S754_zero false) D.
Proof.
  intros lm fuel xs ys D tol maxstep f tr H F. unfold compute_backtrace in H. destruct (f (xs, ys)) as [k1|e|].
  2: { injection H as <-. reflexivity. } 2: { discriminate H. }
  revert H. apply loop_below. exact F.
Qed.
