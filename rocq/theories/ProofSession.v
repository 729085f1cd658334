(** * Proofs about runme.py as a whole (C130) *)
From Coq Require Import String Ascii SpecFloat ZArith List Lia Bool.
From Verif Require Import Py Num ModelField ModelAquifer ModelTrace ModelObs ModelDist ModelDriver ModelPlot ModelArchive ModelMain
  ModelText ModelLog ModelTranscript ModelLogging ModelData ModelSession SpecTranscript ProofTranscript ProofLogging SpecSession.
Import ListNotations.
Local Open Scope string_scope.

(** ** Paths *)
Lemma parent_none p path : parent p path = None <-> file_here p path.
Proof.
  induction path as [|a r IH]; [split; [|reflexivity]|].
  - intros _ [|? u] v x E; discriminate E.
  - cbn [parent]. split.
    + destruct (parent p r) eqn:P; [discriminate|]. destruct (separator p a) eqn:S; [discriminate|]. intros _ [|b u] v x E; cbn [append] in E; injection E as E1 E2; [now subst|].
      exact (proj1 IH eq_refl u v x E2).
    + intros H. assert (file_here p r) as Hr by (intros u v x ->; exact (H (String a u) v x eq_refl)). rewrite (proj2 IH Hr). rewrite (H "" r a eq_refl). reflexivity.
Qed.
Lemma parent_some p path : forall d, parent p path = Some d <-> file_in p d path.
Proof.
  induction path as [|a r IH]; intros d; [split; [discriminate|]|].
  - intros (s & b & E & _). destruct d; discriminate E.
  - cbn [parent]. split.
    + destruct (parent p r) as [d'|] eqn:P.
      * injection 1 as <-. destruct (proj1 (IH d') eq_refl) as (s & b & -> & S & B). exists s, b. split; [reflexivity|]. exact (conj S B).
      * destruct (separator p a) eqn:S; [|discriminate]. injection 1 as <-. exists a, r. split; [reflexivity|]. split; [exact S|]. exact (proj1 (parent_none p r) P).
    + intros (s & b & E & S & B). destruct d as [|a' d]; cbn [append] in E; injection E as -> ->.
      * rewrite (proj2 (parent_none p b) B), S. reflexivity.
      * rewrite (proj2 (IH d)); [reflexivity|]. exists s, b. exact (conj eq_refl (conj S B)).
Qed.
Lemma here_app p u v : file_here p u -> file_here p v -> file_here p (u ++ v).
Proof.
  intros Hu Hv. apply parent_none. apply parent_none in Hu. apply parent_none in Hv. revert Hu. induction u as [|a u IH]; [intros _; exact Hv|]. cbn [append parent].
  destruct (parent p u); [discriminate|]. rewrite (IH eq_refl). exact (fun h => h).
Qed.
Lemma here_digit p d : (0 <= d < 10)%Z -> file_here p (ModelArchive.digit d).
Proof.
  intros H. apply parent_none. assert (d = 0 \/ d = 1 \/ d = 2 \/ d = 3 \/ d = 4 \/ d = 5 \/ d = 6 \/ d = 7 \/ d = 8 \/ d = 9)%Z as C by lia.
  destruct p; repeat (destruct C as [->|C]; [reflexivity|]); subst d; reflexivity.
Qed.
Lemma here_two p n : file_here p (two n).
Proof. apply here_app; apply here_digit; apply Z.mod_pos_bound; lia. Qed.
Lemma here_four p n : file_here p (four n).
Proof. apply here_app; apply here_two. Qed.
Lemma here_letter p t : parent p t = None -> file_here p t.
Proof. apply parent_none. Qed.

(** The part of the name of an archive after "logs\". *)
Definition archive_base (now : datetime) : string :=
  "Oneka" ++ four (year now) ++ two (month now) ++ two (day now) ++ "T" ++ two (hour now) ++ two (minute now) ++ two (second now) ++ ".bz2".
Lemma here_base p now : file_here p (archive_base now).
Proof.
  assert (L : file_here p "Oneka" /\ file_here p "T" /\ file_here p ".bz2") by (repeat split; apply here_letter; destruct p; reflexivity). destruct L as (L1 & L2 & L3).
  exact (here_app _ _ _ L1 (here_app _ _ _ (here_four p _) (here_app _ _ _ (here_two p _) (here_app _ _ _ (here_two p _) (here_app _ _ _ L2
    (here_app _ _ _ (here_two p _) (here_app _ _ _ (here_two p _) (here_app _ _ _ (here_two p _) L3)))))))).
Qed.

(** C130.  On Windows the log file and the archive are in the directory logs; elsewhere they are in the working directory, with a backslash in their names. *)
Lemma c130_where : forall (t : clock) (now : datetime),
  (file_here Windows (stamp t) -> file_in Windows "logs" (log_file (stamp t))) /\ file_in Windows "logs" (archive_name now) /\
  (file_here Posix (stamp t) -> file_here Posix (log_file (stamp t))) /\ file_here Posix (archive_name now).
Proof.
  intros t now. repeat apply conj.
  - intros H. exists "\"%char, ("Oneka" ++ stamp t ++ ".log"). split; [reflexivity|]. split; [reflexivity|]. change (file_here Windows ("Oneka" ++ stamp t ++ ".log")).
    apply here_app; [apply here_letter; reflexivity|]. apply here_app; [exact H|apply here_letter; reflexivity].
  - exists "\"%char, (archive_base now). split; [reflexivity|]. split; [reflexivity|]. exact (here_base Windows now).
  - intros H. change (file_here Posix ("logs\Oneka" ++ stamp t ++ ".log")). apply here_app; [apply here_letter; reflexivity|]. apply here_app; [exact H|apply here_letter; reflexivity].
  - change (file_here Posix ("logs\" ++ archive_base now)). apply here_app; [apply here_letter; reflexivity|]. exact (here_base Posix now).
Qed.

Lemma open_in p ds path d : file_in p d path -> open_new p ds path = if existsb (String.eqb d) ds then Ok tt else Raise ValueError.
Proof. intros H. unfold open_new. now rewrite (proj2 (parent_some p path d) H). Qed.
Lemma open_here p ds path : file_here p path -> open_new p ds path = Ok tt.
Proof. intros H. unfold open_new. now rewrite (proj2 (parent_none p path) H). Qed.
Lemma listed d ds : In d ds -> existsb (String.eqb d) ds = true.
Proof. intros H. apply existsb_exists. exists d. split; [exact H|apply String.eqb_refl]. Qed.
Lemma unlisted d ds : ~ In d ds -> existsb (String.eqb d) ds = false.
Proof. intros H. apply not_true_iff_false. intros E. apply existsb_exists in E as (x & I & E). apply String.eqb_eq in E as ->. exact (H I). Qed.

(** ** Attributes *)
Lemma getattr_in ns n v : NoDup (map fst ns) -> In (n, v) ns -> getattr ns n = Ok v.
Proof.
  unfold getattr. induction ns as [|[k u] ns IH]; intros H I; [destruct I|]. cbn [map fst] in H. inversion H as [|? ? H1 H2]; subst. cbn [find fst].
  destruct (String.eqb_spec k n) as [->|E].
  - destruct I as [I|I]; [injection I as ->; reflexivity|]. exfalso. apply H1. exact (in_map fst _ _ I).
  - destruct I as [I|I]; [congruence|]. exact (IH H2 I).
Qed.
Lemma getattr_out ns n : ~ In n (map fst ns) -> getattr ns n = Raise AttributeError.
Proof.
  unfold getattr. induction ns as [|[k u] ns IH]; intros H; [reflexivity|]. cbn [find fst map In] in *. destruct (String.eqb_spec k n); [tauto|]. apply IH. tauto.
Qed.
Lemma getattr_cases ns n : (exists v, getattr ns n = Ok v /\ In (n, v) ns) \/ (getattr ns n = Raise AttributeError /\ ~ In n (map fst ns)).
Proof.
  destruct (in_dec string_dec n (map fst ns)) as [I|I]; [left|right; split; [now apply getattr_out|exact I]].
  unfold getattr. destruct (find (fun kv => String.eqb (fst kv) n) ns) as [[k v]|] eqn:F.
  - apply find_some in F as (F & E). cbn [fst] in E. apply String.eqb_eq in E as ->. exists v. split; [reflexivity|exact F].
  - exfalso. apply in_map_iff in I as ([k v] & E & I). pose proof (find_none _ _ F _ I) as G. cbn [fst] in *. subst. rewrite String.eqb_refl in G. discriminate G.
Qed.
Lemma fetch_ok ns t : (forall n f, In (n, f) required -> In n (map fst ns)) -> exists a, fetch ns t = Ok a /\ values_of ns t a.
Proof.
  intros H. unfold fetch.
  repeat match goal with |- context [bind (getattr ns ?n) _] =>
    let v := fresh "v" in let E := fresh "E" in let I := fresh "I" in
    destruct (getattr_cases ns n) as [(v & E & I)|(_ & E)]; [rewrite E; cbn [bind]; clear E|exfalso; apply E; eapply H; unfold required; cbn [In]; eauto 30] end.
  eexists. split; [reflexivity|]. split; [reflexivity|]. intros n f J. unfold required in J. cbn [In] in J.
  repeat (destruct J as [J|J]; [injection J as <- <-; assumption|]). destruct J.
Qed.
Lemma fetch_not ns t n f : In (n, f) required -> ~ In n (map fst ns) -> fetch ns t = Raise AttributeError.
Proof.
  intros J N. unfold required in J. cbn [In] in J. unfold fetch.
  repeat match goal with |- context [bind (getattr ns ?m) _] =>
    let v := fresh "v" in let E := fresh "E" in let I := fresh "I" in
    destruct (getattr_cases ns m) as [(v & E & I)|(E & _)]; rewrite E; cbn [bind]; clear E; [apply (in_map fst) in I; cbn [fst] in I|reflexivity] end.
  exfalso. repeat (destruct J as [J|J]; [injection J as <- <-; contradiction|]). destruct J.
Qed.

(** ** main *)
(** C130.  A module that is not found: a message, and nothing else. *)
Lemma c130_absent : forall (w : machine) (run : args spec_float -> story (result spec_float)) (c : logging) (t : clock) (name missing : string),
  import w name = Absent missing -> program w run c t name = (c, [(Stdout, "ModuleNotFoundError: No module named " ++ name)], [], Ok tt).
Proof. intros w run c t name missing H. unfold program. now rewrite H. Qed.

(** C130.  A module with all the names: oneka is called once, with the values of the names, and what it says goes where C109 and C110 say.  The condition is that the
    log file can be opened: on Windows there is a directory logs. *)
Lemma c130_runs_partial : forall (w : machine) (run : args spec_float -> story (result spec_float)) (c : logging) (t : clock) (name : string) (ns : list (string * val)),
  import w name = Found ns -> (forall n f, In (n, f) required -> In n (map fst ns)) -> file_here (plat w) (stamp t) -> (plat w = Windows -> In "logs" (dirs w)) ->
  exists a c' out r, values_of ns (asctime t) a /\ main c a (stamp t) (Ok tt) (run a) (elapsed t) = (c', out, r) /\ program w run c t name = (c', out, [log_file (stamp t)], r).
Proof.
  intros w run c t name ns H A S D. destruct (fetch_ok ns (asctime t) A) as (a & F & V). unfold program. rewrite H.
  destruct (getattr_cases ns "PROJECTNAME") as [(v & E & I)|(_ & E)]; [rewrite E|exfalso; apply E; apply (A _ projectname); left; reflexivity].
  assert (open_new (plat w) (dirs w) (log_file (stamp t)) = Ok tt) as ->.
  { destruct (c130_where t {| year := 0; month := 0; day := 0; hour := 0; minute := 0; second := 0; microsecond := 0 |}) as (W & _ & P & _). destruct (plat w).
    - rewrite (open_in _ _ _ _ (W S)), (listed _ _ (D eq_refl)). reflexivity.
    - exact (open_here _ _ _ (P S)). }
  rewrite F. destruct (main c a (stamp t) (Ok tt) (run a) (elapsed t)) as [[c' out] r] eqn:M. exists a, c', out, r. split; [exact V|]. split; reflexivity || exact M.
Qed.

(** C130.  A module without the name PROJECTNAME: AttributeError before anything is done.  Without another of the names: AttributeError after the log file was made; it is
    left empty, and the handler stays. *)
Lemma c130_lacking : forall (w : machine) (run : args spec_float -> story (result spec_float)) (c : logging) (t : clock) (name : string) (ns : list (string * val)),
  import w name = Found ns ->
  (~ In "PROJECTNAME" (map fst ns) -> program w run c t name = (c, [], [], Raise AttributeError)) /\
  (forall p n f, NoDup (map fst ns) -> In ("PROJECTNAME", p) ns -> In (n, f) required -> ~ In n (map fst ns) -> open_new (plat w) (dirs w) (log_file (stamp t)) = Ok tt ->
   exists c', program w run c t name = (c', [(Stdout, "Running: " ++ str p)], [log_file (stamp t)], Raise AttributeError) /\
     forall stamps, after_calls stamps c -> after_calls (stamps ++ [stamp t])%list c').
Proof.
  intros w run c t name ns H. split.
  - intros N. unfold program. rewrite H, (getattr_out _ _ N). reflexivity.
  - intros p n f U I J N O. unfold program. rewrite H, (getattr_in _ _ _ U I), O, (fetch_not _ _ _ _ J N). eexists. split; [reflexivity|].
    intros stamps A. exact (after_open _ _ _ A).
Qed.

(** C130.  So the next call in the process writes its lines to the file of the failed call, too. *)
Lemma c130_leftover : forall (w : machine) (run : args spec_float -> story (result spec_float)) (t t' : clock) (name name' : string) (ns ns' : list (string * val)) p n f,
  (forall a, Forall two_kinds (messages (fst (run a)))) ->
  import w name = Found ns -> NoDup (map fst ns) -> In ("PROJECTNAME", p) ns -> In (n, f) required -> ~ In n (map fst ns) ->
  import w name' = Found ns' -> (forall n f, In (n, f) required -> In n (map fst ns')) ->
  file_here (plat w) (stamp t) -> file_here (plat w) (stamp t') -> (plat w = Windows -> In "logs" (dirs w)) -> stamp t <> stamp t' ->
  exists c a c' out r, fst (fst (fst (program w run fresh t name))) = c /\ values_of ns' (asctime t') a /\ program w run c t' name' = (c', out, [log_file (stamp t')], r) /\
    written_to (File (log_file (stamp t))) out = program_lines (run a) (elapsed t') /\ written_to (File (log_file (stamp t'))) out = program_lines (run a) (elapsed t').
Proof.
  intros w run t t' name name' ns ns' p n f K H U I J N H' A' S S' D T.
  destruct (c130_lacking w run fresh t name ns H) as (_ & L).
  assert (O : open_new (plat w) (dirs w) (log_file (stamp t)) = Ok tt).
  { destruct (c130_where t {| year := 0; month := 0; day := 0; hour := 0; minute := 0; second := 0; microsecond := 0 |}) as (W & _ & P & _). destruct (plat w).
    - rewrite (open_in _ _ _ _ (W S)), (listed _ _ (D eq_refl)). reflexivity.
    - exact (open_here _ _ _ (P S)). }
  destruct (L p n f U I J N O) as (c & E & AC). exists c. rewrite E. destruct (c130_runs_partial w run c t' name' ns' H' A' S' D) as (a & c' & out & r & V & M & P).
  exists a, c', out, r. split; [reflexivity|]. split; [exact V|]. split; [exact P|].
  destruct (main_writes _ c {| c_args := a; c_stamp := stamp t'; c_run := run a; c_elapsed := elapsed t' |} (AC [] after_fresh) (K a)) as (c'' & out' & r' & M' & _ & _ & W & _).
  cbn [c_args c_stamp c_run c_elapsed] in *. rewrite M in M'. injection M' as <- <- <-. rewrite !W. cbn [List.app]. split.
  - change [stamp t; stamp t'] with ([stamp t] ++ [stamp t'])%list. rewrite times_app, !times_one, String.eqb_refl. destruct (String.eqb_spec (stamp t) (stamp t')); [contradiction|]. apply repeat_one.
  - change [stamp t; stamp t'] with ([stamp t] ++ [stamp t'])%list. rewrite times_app, !times_one, String.eqb_refl. destruct (String.eqb_spec (stamp t') (stamp t)); [congruence|]. apply repeat_one.
Qed.

(** C130.  On Windows without a directory logs, as in a new copy of the repository, every run ends with FileNotFoundError before oneka is called. *)
Lemma c130_windows_refuted : forall (w : machine) (run : args spec_float -> story (result spec_float)) (c : logging) (t : clock) (name : string) (ns : list (string * val)) p,
  plat w = Windows -> ~ In "logs" (dirs w) -> file_here Windows (stamp t) -> import w name = Found ns -> NoDup (map fst ns) -> In ("PROJECTNAME", p) ns ->
  exists c', program w run c t name = (c', [(Stdout, "Running: " ++ str p)], [], Raise ValueError) /\ handlers c' = handlers c.
Proof.
  intros w run c t name ns p P D S H U I. unfold program. rewrite H, (getattr_in _ _ _ U I), P.
  destruct (c130_where t {| year := 0; month := 0; day := 0; hour := 0; minute := 0; second := 0; microsecond := 0 |}) as (W & _).
  rewrite (open_in _ _ _ _ (W S)), (unlisted _ _ D). eexists. split; reflexivity.
Qed.
(** C130.  Elsewhere no log file and no archive is in a directory logs, whether there is one or not. *)
Lemma c130_posix_refuted : forall (t : clock) (now : datetime), file_here Posix (stamp t) -> ~ file_in Posix "logs" (log_file (stamp t)) /\ ~ file_in Posix "logs" (archive_name now).
Proof.
  intros t now S. destruct (c130_where t now) as (_ & _ & P & Q). split; intros H; apply parent_some in H; [pose proof (proj2 (parent_none _ _) (P S))|pose proof (proj2 (parent_none _ _) Q)]; congruence.
Qed.
(** C130.  The archive. *)
Lemma c130_archive : forall (w : machine) (now : datetime) (pickled : run_args (pyobj spec_float) -> res unit) (a : run_args (pyobj spec_float)),
  (plat w = Posix \/ In "logs" (dirs w) -> dump_there w now pickled a = pickled a) /\
  (plat w = Windows -> ~ In "logs" (dirs w) -> dump_there w now pickled a = Raise ValueError).
Proof.
  intros w now pickled a. destruct (c130_where {| asctime := ""; stamp := ""; elapsed := S754_zero false |} now) as (_ & W & _ & P). unfold dump_there. split.
  - destruct (plat w); intros [E|E]; try discriminate E; [rewrite (open_in _ _ _ _ W), (listed _ _ E); reflexivity|rewrite (open_here _ _ _ P); reflexivity..].
  - intros -> E. now rewrite (open_in _ _ _ _ W), (unlisted _ _ E).
Qed.

(** C130.  The message names the module that was asked for, although that one is there and another one is missing. *)
Lemma c130_blame_refuted : exists (w : machine) (name missing : string), import w name = Absent missing /\ missing <> name /\
  forall run c t, program w run c t name = (c, [(Stdout, "ModuleNotFoundError: No module named " ++ name)], [], Ok tt).
Proof.
  exists {| plat := Posix; dirs := []; import := fun _ => Absent "numpy" |}, "data.basic", "numpy". split; [reflexivity|]. split; [discriminate|]. intros. reflexivity.
Qed.

(** C130.  As a script: the last line is printed exactly if main has returned, which it does when there is no such module. *)
Lemma c130_script : forall (w : machine) (run : args spec_float -> story (result spec_float)) (t : clock) (entered : string) c out fs r,
  program w run fresh t entered = (c, out, fs, r) ->
  exists last, script w run t entered = (c, (Stdout, "Enter the data module name (without .py, e.g. data.basic): ") :: out ++ last, fs, r)%list /\
    (r = Ok tt -> last = [(Stdout, "\\\\\\\\\ DONE //////////////////")]) /\ (r <> Ok tt -> last = []) /\
    (forall missing, import w entered = Absent missing -> r = Ok tt /\ fs = []).
Proof.
  intros w run t entered c out fs r E. unfold script. rewrite E. eexists. split; [reflexivity|]. destruct r as [[]|e|]; (split; [|split]); try congruence; try reflexivity;
  intros missing A; rewrite (c130_absent w run fresh t entered missing A) in E; injection E as _ _ <-; try discriminate; split; reflexivity.
Qed.
(** C130.  profile_me, called from another module, knows no module name. *)
Lemma c130_profile : forall (w : machine) (run : args spec_float -> story (result spec_float)) (c : logging) (t : clock) (name : string),
  profile_me w run c t None = (c, [], [], Raise NameError) /\ profile_me w run c t (Some name) = program w run c t name.
Proof. intros. split; reflexivity. Qed.

(** C130.  The data sets that come with the program have all the names, and main calls oneka with what [data_args] says. *)
Lemma c130_data : forall (N : Num spec_float) (d : dataset) (t : string) (a : args spec_float),
  NoDup (map fst (module_of N d)) /\ (forall n f, In (n, f) required -> In n (map fst (module_of N d))) /\ (values_of (module_of N d) t a <-> a = data_args d t).
Proof.
  intros N d t a. assert (U : NoDup (map fst (module_of N d))).
  { unfold module_of. cbn [map fst]. repeat (constructor; [cbn [In]; intuition discriminate|]). constructor. }
  assert (A : forall n f, In (n, f) required -> In n (map fst (module_of N d))).
  { intros n f J. unfold required in J. cbn [In] in J. unfold module_of. cbn [map fst In]. repeat (destruct J as [J|J]; [injection J as <- _; tauto|]). destruct J. }
  split; [exact U|]. split; [exact A|]. split.
  - intros (R & V). destruct a as [p r ta np du nr ba c po th ws os bu sp um sm co tl ms]. cbn [runtime] in R. subst r.
    assert (G : forall n f, In (n, f) required -> getattr (module_of N d) n = Ok (f {| projectname := p; runtime := PStr t; target := ta; npaths := np; duration := du; nrealizations := nr; base_ := ba;
        c_dist := c; p_dist := po; t_dist := th; stochastic_wells := ws; observations := os; buffer := bu; spacing := sp; umbra := um; smooth := sm; confined := co; tol := tl; maxstep := ms |}))
      by (intros n f J; exact (getattr_in _ _ _ U (V n f J))).
    clear V A U.
    pose proof (G "PROJECTNAME" projectname ltac:(unfold required; cbn [In]; tauto)) as G1. pose proof (G "TARGET" target ltac:(unfold required; cbn [In]; tauto)) as G2.
    pose proof (G "NPATHS" npaths ltac:(unfold required; cbn [In]; tauto)) as G3. pose proof (G "DURATION" duration ltac:(unfold required; cbn [In]; tauto)) as G4.
    pose proof (G "NREALIZATIONS" nrealizations ltac:(unfold required; cbn [In]; tauto)) as G5. pose proof (G "BASE" base_ ltac:(unfold required; cbn [In]; tauto)) as G6.
    pose proof (G "C_DIST" c_dist ltac:(unfold required; cbn [In]; tauto)) as G7. pose proof (G "P_DIST" p_dist ltac:(unfold required; cbn [In]; tauto)) as G8.
    pose proof (G "T_DIST" t_dist ltac:(unfold required; cbn [In]; tauto)) as G9. pose proof (G "WELLS" stochastic_wells ltac:(unfold required; cbn [In]; tauto)) as G10.
    pose proof (G "OBSERVATIONS" observations ltac:(unfold required; cbn [In]; tauto)) as G11. pose proof (G "BUFFER" buffer ltac:(unfold required; cbn [In]; tauto)) as G12.
    pose proof (G "SPACING" spacing ltac:(unfold required; cbn [In]; tauto)) as G13. pose proof (G "UMBRA" umbra ltac:(unfold required; cbn [In]; tauto)) as G14.
    pose proof (G "SMOOTH" smooth ltac:(unfold required; cbn [In]; tauto)) as G15. pose proof (G "CONFINED" confined ltac:(unfold required; cbn [In]; tauto)) as G16.
    pose proof (G "TOL" tol ltac:(unfold required; cbn [In]; tauto)) as G17. pose proof (G "MAXSTEP" maxstep ltac:(unfold required; cbn [In]; tauto)) as G18. clear G.
    unfold getattr, module_of in *. cbn [find fst snd String.eqb Ascii.eqb Bool.eqb projectname target npaths duration nrealizations base_ c_dist p_dist t_dist stochastic_wells observations buffer spacing umbra smooth confined tol maxstep] in *.
    injection G1 as <-. injection G2 as <-. injection G3 as <-. injection G4 as <-. injection G5 as <-. injection G6 as <-. injection G7 as <-. injection G8 as <-. injection G9 as <-.
    injection G10 as <-. injection G11 as <-. injection G12 as <-. injection G13 as <-. injection G14 as <-. injection G15 as <-. injection G16 as <-. injection G17 as <-. injection G18 as <-. reflexivity.
  - intros ->. split; [reflexivity|]. intros n f J. unfold required in J. cbn [In] in J. unfold module_of. repeat (destruct J as [J|J]; [injection J as <- <-; cbn [In]; unfold data_args;
      cbn [projectname target npaths duration nrealizations base_ c_dist p_dist t_dist stochastic_wells observations buffer spacing umbra smooth confined tol maxstep]; tauto|]). destruct J.
Qed.

(** ** Examples *)
(** A new copy of the repository, and one where a directory logs was made; a run that says one line. *)
Definition copy (N : Num spec_float) (p : platform) (ds : list string) : machine :=
  {| plat := p; dirs := (ds ++ ["data"; "oneka"; "tests"])%list;
     import := fun n => if String.eqb n "data.basic" then Found (module_of N basic) else if String.eqb n "short" then Found [("PROJECTNAME", PStr "Short")] else Absent n |}.
Definition one_line (a : args spec_float) : story (result spec_float) := (infos ["Project: " ++ str (projectname a)], Ok RNone).
Definition noon : clock := {| asctime := "Tue Nov 17 12:00:00 2020"; stamp := "20201117T120000"; elapsed := S754_zero false |}.
Lemma c130_example : forall N : Num spec_float,
  (exists c, script (copy N Windows ["logs"]) one_line noon "data.basic" =
   (c, [(Stdout, "Enter the data module name (without .py, e.g. data.basic): "); (Stdout, "Running: Basic example");
        (File "logs\Oneka20201117T120000.log", "Project: Basic example"); (File "logs\Oneka20201117T120000.log", newline);
        (File "logs\Oneka20201117T120000.log", "Total elapsed time = 0.0000 seconds"); (Stdout, newline ++ newline ++ "Total elapsed time = 0.0000 seconds");
        (Stdout, "\\\\\\\\\ DONE //////////////////")], ["logs\Oneka20201117T120000.log"], Ok tt)) /\
  snd (script (copy N Posix []) one_line noon "data.basic") = Ok tt /\ snd (script (copy N Windows []) one_line noon "data.basic") = Raise ValueError /\
  snd (script (copy N Posix []) one_line noon "short") = Raise AttributeError /\
  snd (fst (fst (script (copy N Posix []) one_line noon "data.basics"))) =
   [(Stdout, "Enter the data module name (without .py, e.g. data.basic): "); (Stdout, "ModuleNotFoundError: No module named data.basics"); (Stdout, "\\\\\\\\\ DONE //////////////////")].
Proof.
  intros N. split; [eexists; reflexivity|]. split; [reflexivity|]. split; [reflexivity|]. split; reflexivity.
Qed.
(** A call that fails, and the next one in the same process: the file of the first call gets the lines of the second. *)
Lemma c130_leftover_example : forall N : Num spec_float,
  let w := copy N Posix [] in let c := fst (fst (fst (program w one_line fresh noon "short"))) in
  let later := {| asctime := "Tue Nov 17 12:00:01 2020"; stamp := "20201117T120001"; elapsed := S754_zero false |} in
  written_to (File "logs\Oneka20201117T120000.log") (snd (fst (fst (program w one_line c later "data.basic")))) =
  ["Project: Basic example"; newline; "Total elapsed time = 0.0000 seconds"].
Proof. intros N. reflexivity. Qed.
