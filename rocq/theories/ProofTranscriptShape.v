(** * Proofs about everything a run writes: the shape of a whole run *)
From Coq Require Import String SpecFloat ZArith List Lia.
From Verif Require Import Py Num ModelField ModelAquifer ModelTrace ModelObs ModelDist ModelDriver ModelPlot ModelArchive ModelMain
  ModelText ModelLog ModelTranscript ModelLogging SpecTranscript SpecLog ProofLog ProofFilterLog ProofTranscript ProofTranscriptRun ProofTranscriptMain.
Import ListNotations.
Local Open Scope string_scope.

Lemma attempt_ok (A B : Type) (r : res A) (k : A -> story B) ms v : attempt r k = (ms, Ok v) -> exists a, r = Ok a /\ k a = (ms, Ok v).
Proof. destruct r as [a|e|]; cbn; intros H; [exists a; auto|discriminate H..]. Qed.
Lemma tell_ok (A : Type) l (k : story A) ms v : tell l k = (ms, Ok v) -> exists ms', k = (ms', Ok v) /\ ms = List.app l ms'.
Proof. destruct k as [ms' r]. unfold tell. cbn. intros H. exists ms'. split; congruence. Qed.
Lemma thereafter_ok (A B : Type) (st : story A) (k : A -> story B) ms v : thereafter st k = (ms, Ok v) ->
  exists a ms', st = (fst st, Ok a) /\ k a = (ms', Ok v) /\ ms = List.app (fst st) ms'.
Proof.
  unfold thereafter. destruct st as [l [a|e|]]; cbn [fst snd]; intros H; try discriminate H.
  destruct (tell_ok _ _ _ _ _ H) as (ms' & K & E). exists a, ms'. auto.
Qed.
Lemma plotted_ok (A : Type) (r : res A) k ms v : plotted r k = (ms, Ok v) -> exists a, r = Ok a /\ k a = (ms, Ok v).
Proof. destruct r as [a|e|]; cbn; intros H; [exists a; auto|destruct e; discriminate H|discriminate H]. Qed.
Lemma rows_ok {N : Num spec_float} pr area k : forall ps ms v, rows_said pr area ps k = (ms, Ok v) ->
  exists rows ms', map_res (decile_row pr area) ps = Ok rows /\ k = (ms', Ok v) /\ ms = List.app (infos (map decile_line rows)) ms'.
Proof.
  induction ps as [|p ps IH]; intros ms v H; cbn [rows_said map_res] in *; [exists [], ms; auto|].
  apply attempt_ok in H. destruct H as (r & -> & H). apply tell_ok in H. destruct H as (ms' & H & ->).
  destruct (IH ms' v H) as (rows & ms'' & -> & K & ->). exists (r :: rows), ms''. cbn [bind]. split; [reflexivity|]. split; [exact K|]. reflexivity.
Qed.

(** A stochastic run that ends, from the first line to the last, beside the numbers of ModelMain's run. *)
Lemma c108_run_stochastic : forall (lm : libm) (G E : Type) (R : rng spec_float G) (mvn : E -> list spec_float -> list (list spec_float) -> list spec_float)
    (dump : run_args (pyobj spec_float) -> res unit) fuel la entropy g (a : args spec_float) nreal ms v,
  Forall convertible (List.app (rounded_arguments a) [c_dist a; p_dist a; t_dist a]) -> integer_of (nrealizations a) = Some nreal -> (1 < nreal)%Z ->
  oneka_said (N := SF lm) R mvn dump fuel la entropy g a = (ms, Ok v) ->
  exists active obs st logs X Y P pr area rows pf filtered blocks,
    v = RNone /\
    oneka (N := SF lm) R mvn dump fuel la entropy g a =
      ([EBanner; EFiltered obs; ESummary st; ERealizations logs; EProbabilityPlot X Y P; EImpactPlot pr area; EDeciles rows; EArchive (archived a pf); EShow], Ok RNone) /\
    obs = map snd active /\ List.length logs = Z.to_nat nreal /\ List.length blocks = Z.to_nat nreal /\
    (exists given ws buf, filter_text (N := SF lm) given ws buf = (filtered, Ok active) /\ map fst given = elements (observations a) /\ map fst ws = elements (stochastic_wells a)) /\
    (exists w ws ths duration base tol maxstep, forall k l msgs, nth_error logs k = Some l -> nth_error blocks k = Some msgs ->
       told (N := SF lm) fuel la ws obs w ths duration base tol maxstep (get_bool (confined a)) (mvn (entropy k)) k l msgs) /\
    ms = List.app (map Said (lines (fst (log_the_run a)))) (
         List.app (map Said (lines filtered)) (
         List.app (map Said (lines [newline; table_text (retained_table st)])) (
         List.app (map Said (concat blocks)) (
         List.app [Did (EProbabilityPlot X Y P); Did (EImpactPlot pr area)] (
         List.app (map Said (lines (deciles_text rows))) [Did (EArchive (archived a pf)); Did EShow]))))).
Proof.
  intros lm G E R mvn dump fuel la entropy g a nreal ms v HC HI H1 H.
  pose proof HC as HC'. apply Forall_app in HC'. destruct HC' as (C & D).
  unfold oneka_said in H.
  apply attempt_ok in H. destruct H as ([] & V & H). destruct (validate_plain lm a V C D) as (Pl & Np).
  apply thereafter_ok in H. destruct H as (u & m1 & L1 & H & ->).
  assert (HN : log_nrealizations (nrealizations a) = Ok nreal) by (destruct (nrealizations a); cbn in HI |- *; try discriminate HI; congruence).
  rewrite HN in H. cbn [attempt] in H.
  apply attempt_ok in H. destruct H as (ws & Hws & H). apply attempt_ok in H. destruct H as (obs0 & Hobs & H). apply attempt_ok in H. destruct H as (buf & Hbuf & H).
  apply thereafter_ok in H. destruct H as (out & m2 & L2 & H & ->). cbv zeta in H.
  apply attempt_ok in H. destruct H as (u2 & HA & H). apply attempt_ok in H. destruct H as (st & Hst & H).
  apply tell_ok in H. destruct H as (m3 & H & ->).
  apply attempt_ok in H. destruct H as (tgt & Htgt & H). apply attempt_ok in H. destruct H as (np & Hnp & H). apply attempt_ok in H. destruct H as (dur & Hdur & H).
  apply attempt_ok in H. destruct H as (bas & Hbas & H). apply attempt_ok in H. destruct H as (spc & Hspc & H). apply attempt_ok in H. destruct H as (umb & Humb & H).
  apply attempt_ok in H. destruct H as (tl & Htl & H). apply attempt_ok in H. destruct H as (mx & Hmx & H).
  assert (GT : (nreal >? 1)%Z = true) by (rewrite Z.gtb_ltb; apply Z.ltb_lt; exact H1). rewrite GT in H.
  apply thereafter_ok in H. destruct H as (pf & m4 & L4 & H & ->).
  apply plotted_ok in H. destruct H as ([[X Y] P] & HP & H). apply tell_ok in H. destruct H as (m5 & H & ->).
  apply plotted_ok in H. destruct H as ([pr area] & HI2 & H). apply tell_ok in H. destruct H as (m6 & H & ->).
  unfold deciles_said in H. apply tell_ok in H. destruct H as (m7 & H & ->). apply attempt_ok in H. destruct H as (ps & Hps & H).
  apply rows_ok in H. destruct H as (rows & m8 & Hrows & H & ->). apply tell_ok in H. destruct H as (m9 & H & ->).
  unfold finish_said in H. apply tell_ok in H. destruct H as (m10 & H & ->). apply attempt_ok in H. destruct H as ([] & Hdump & H).
  injection H as <- <-.
  set (wl := combine (elements (stochastic_wells a)) (map (fun w : swell spec_float => (sx w, sy w)) ws)) in *.
  set (l := combine (elements (observations a)) obs0) in *.
  assert (Hn : (0 <= np)%Z) by (apply Np; exact Hnp).
  assert (HB : num_of (N := SF lm) (base_ a) = Some bas) by (apply num_some; exact Hbas).
  destruct (nth_error ws (Z.to_nat tgt)) as [w|] eqn:Hw.
  2: { unfold stochastic_said in L4. rewrite Hw in L4. discriminate L4. }
  destruct (c108_stochastic lm G E R mvn fuel la entropy g (Z.to_nat tgt) np dur nreal (base_ a) bas (c_dist a) (p_dist a) (t_dist a) ws w (map snd out) spc umb
              (get_bool (confined a)) tl mx _ pf Hw Hn HB Pl L4) as (ths & logs & blocks & Lt & Ll & Lb & CS & M & T).
  rewrite M.
  assert (FT : filter_text (N := SF lm) l wl buf = (fst (filter_text (N := SF lm) l wl buf), Ok out)).
  { unfold aloud in L2. injection L2 as L2. rewrite <- L2. apply surjective_pairing. }
  assert (FST : forall (A B : Type) (x : list A) (y : list B), List.length y = List.length x -> map fst (combine x y) = x).
  { clear. induction x as [|p x IH]; intros [|q y] L; try discriminate L; [reflexivity|]. cbn. f_equal. apply IH. now injection L. }
  assert (EL : map snd l = obs0) by (apply combine_snd; apply (map_res_length _ _ _ _ _ Hobs)).
  assert (EW : map snd wl = map (fun w : swell spec_float => (sx w, sy w)) ws) by (apply combine_snd; rewrite map_length; apply (map_res_length _ _ _ _ _ Hws)).
  pose proof (c101_result (SF lm) l wl buf) as FR. rewrite EL, EW in FR.
  exists out, (map snd out), st, logs, X, Y, P, pr, area, rows, pf, (fst (filter_text (N := SF lm) l wl buf)), blocks.
  split; [reflexivity|]. split.
  { unfold oneka. rewrite V. cbn [ModelMain.stop]. rewrite HN, Hws, Hobs, Hbuf. cbn [ModelMain.stop].
    destruct (filter_obs (N := SF lm) obs0 (map (fun w : swell spec_float => (sx w, sy w)) ws) buf) as [k|e|].
    2: { rewrite FT in FR. discriminate FR. } 2: { rewrite FT in FR. discriminate FR. }
    destruct FR as (out' & F1 & F2). rewrite FT in F1. cbn [snd] in F1. assert (out' = out) as -> by congruence. subst k.
    cbn [ModelMain.stop]. rewrite HA. cbn [ModelMain.stop]. rewrite Hst. cbn [ModelMain.stop]. rewrite Htgt, Hnp, Hdur, Hbas, Hspc, Humb, Htl, Hmx. cbn [ModelMain.stop].
    rewrite GT, CS. cbn [ModelMain.stop]. rewrite HP. cbn [ModelMain.stop]. rewrite HI2. cbn [ModelMain.stop].
    unfold decile_table. rewrite Hps. cbn [bind]. rewrite Hrows. cbn [ModelMain.stop]. unfold ModelMain.finish. rewrite Hdump. reflexivity. }
  split; [reflexivity|]. split; [exact Ll|]. split; [exact Lb|]. split.
  { exists l, wl, buf. split; [exact FT|]. split; [apply FST; apply (map_res_length _ _ _ _ _ Hobs)|].
    apply FST. rewrite map_length. apply (map_res_length _ _ _ _ _ Hws). }
  split; [exists w, ws, ths, dur, bas, tl, mx; exact T|].
  unfold aloud. cbn [fst]. rewrite !infos_lines. unfold deciles_text, lines. rewrite !map_app. rewrite <- !app_assoc. reflexivity.
Qed.

(** A deterministic run that ends. *)
Lemma c108_run_deterministic : forall (lm : libm) (G E : Type) (R : rng spec_float G) (mvn : E -> list spec_float -> list (list spec_float) -> list spec_float)
    (dump : run_args (pyobj spec_float) -> res unit) fuel la entropy g (a : args spec_float) nreal ms v,
  Forall convertible (List.app (rounded_arguments a) [c_dist a; p_dist a; t_dist a]) -> integer_of (nrealizations a) = Some nreal -> (nreal <= 1)%Z ->
  oneka_said (N := SF lm) R mvn dump fuel la entropy g a = (ms, Ok v) ->
  exists active obs st l area pf filtered msgs,
    v = RNone /\
    oneka (N := SF lm) R mvn dump fuel la entropy g a =
      ([EBanner; EFiltered obs; ESummary st; EDeterministic l; EAreaPlot area; EArchive (archived a pf); EShow], Ok RNone) /\
    obs = map snd active /\
    (exists given ws buf, filter_text (N := SF lm) given ws buf = (filtered, Ok active) /\ map fst given = elements (observations a) /\ map fst ws = elements (stochastic_wells a)) /\
    (exists w ws ths duration base tol maxstep, told_once (N := SF lm) fuel la ws obs w ths duration base tol maxstep (get_bool (confined a)) l msgs) /\
    ms = List.app (map Said (lines (fst (log_the_run a)))) (
         List.app (map Said (lines filtered)) (
         List.app (map Said (lines [newline; table_text (retained_table st)])) (
         List.app (map Said msgs) (
         Did (EAreaPlot area) ::
         List.app (map Said (lines (area_text area))) [Did (EArchive (archived a pf)); Did EShow])))).
Proof.
  intros lm G E R mvn dump fuel la entropy g a nreal ms v HC HI H1 H.
  pose proof HC as HC'. apply Forall_app in HC'. destruct HC' as (C & D).
  unfold oneka_said in H.
  apply attempt_ok in H. destruct H as ([] & V & H). destruct (validate_plain lm a V C D) as (Pl & Np).
  apply thereafter_ok in H. destruct H as (u & m1 & L1 & H & ->).
  assert (HN : log_nrealizations (nrealizations a) = Ok nreal) by (destruct (nrealizations a); cbn in HI |- *; try discriminate HI; congruence).
  rewrite HN in H. cbn [attempt] in H.
  apply attempt_ok in H. destruct H as (ws & Hws & H). apply attempt_ok in H. destruct H as (obs0 & Hobs & H). apply attempt_ok in H. destruct H as (buf & Hbuf & H).
  apply thereafter_ok in H. destruct H as (out & m2 & L2 & H & ->). cbv zeta in H.
  apply attempt_ok in H. destruct H as (u2 & HA & H). apply attempt_ok in H. destruct H as (st & Hst & H).
  apply tell_ok in H. destruct H as (m3 & H & ->).
  apply attempt_ok in H. destruct H as (tgt & Htgt & H). apply attempt_ok in H. destruct H as (np & Hnp & H). apply attempt_ok in H. destruct H as (dur & Hdur & H).
  apply attempt_ok in H. destruct H as (bas & Hbas & H). apply attempt_ok in H. destruct H as (spc & Hspc & H). apply attempt_ok in H. destruct H as (umb & Humb & H).
  apply attempt_ok in H. destruct H as (tl & Htl & H). apply attempt_ok in H. destruct H as (mx & Hmx & H).
  assert (GT : (nreal >? 1)%Z = false) by (rewrite Z.gtb_ltb; apply Z.ltb_ge; exact H1). rewrite GT in H.
  apply thereafter_ok in H. destruct H as (pf & m4 & L4 & H & ->).
  apply plotted_ok in H. destruct H as (area & HP & H). apply tell_ok in H. destruct H as (m5 & H & ->). apply tell_ok in H. destruct H as (m6 & H & ->).
  unfold finish_said in H. apply tell_ok in H. destruct H as (m10 & H & ->). apply attempt_ok in H. destruct H as ([] & Hdump & H).
  injection H as <- <-.
  set (wl := combine (elements (stochastic_wells a)) (map (fun w : swell spec_float => (sx w, sy w)) ws)) in *.
  set (l := combine (elements (observations a)) obs0) in *.
  assert (Hn : (0 <= np)%Z) by (apply Np; exact Hnp).
  assert (HB : num_of (N := SF lm) (base_ a) = Some bas) by (apply num_some; exact Hbas).
  destruct (nth_error ws (Z.to_nat tgt)) as [w|] eqn:Hw.
  2: { unfold deterministic_said in L4. rewrite Hw in L4. discriminate L4. }
  destruct (c108_deterministic lm fuel la (Z.to_nat tgt) np dur (base_ a) bas (c_dist a) (p_dist a) (t_dist a) ws w (map snd out) spc umb
              (get_bool (confined a)) tl mx _ (Ok pf) Hw Hn HB Pl L4) as (ths & msgs & Lt & M & [(pf' & ll & HE & CS & T)|(D' & _)]); [|now destruct (D' pf)].
  injection HE as <-. rewrite M.
  assert (FT : filter_text (N := SF lm) l wl buf = (fst (filter_text (N := SF lm) l wl buf), Ok out)).
  { unfold aloud in L2. injection L2 as L2. rewrite <- L2. apply surjective_pairing. }
  assert (FST : forall (A B : Type) (x : list A) (y : list B), List.length y = List.length x -> map fst (combine x y) = x).
  { clear. induction x as [|p x IH]; intros [|q y] L; try discriminate L; [reflexivity|]. cbn. f_equal. apply IH. now injection L. }
  assert (EL : map snd l = obs0) by (apply combine_snd; apply (map_res_length _ _ _ _ _ Hobs)).
  assert (EW : map snd wl = map (fun w : swell spec_float => (sx w, sy w)) ws) by (apply combine_snd; rewrite map_length; apply (map_res_length _ _ _ _ _ Hws)).
  pose proof (c101_result (SF lm) l wl buf) as FR. rewrite EL, EW in FR.
  exists out, (map snd out), st, ll, area, pf, (fst (filter_text (N := SF lm) l wl buf)), msgs.
  split; [reflexivity|]. split.
  { unfold oneka. rewrite V. cbn [ModelMain.stop]. rewrite HN, Hws, Hobs, Hbuf. cbn [ModelMain.stop].
    destruct (filter_obs (N := SF lm) obs0 (map (fun w : swell spec_float => (sx w, sy w)) ws) buf) as [k|e|].
    2: { rewrite FT in FR. discriminate FR. } 2: { rewrite FT in FR. discriminate FR. }
    destruct FR as (out' & F1 & F2). rewrite FT in F1. cbn [snd] in F1. assert (out' = out) as -> by congruence. subst k.
    cbn [ModelMain.stop]. rewrite HA. cbn [ModelMain.stop]. rewrite Hst. cbn [ModelMain.stop]. rewrite Htgt, Hnp, Hdur, Hbas, Hspc, Humb, Htl, Hmx. cbn [ModelMain.stop].
    rewrite GT, CS. cbn [ModelMain.stop]. rewrite HP. cbn [ModelMain.stop]. unfold ModelMain.finish. rewrite Hdump. reflexivity. }
  split; [reflexivity|]. split.
  { exists l, wl, buf. split; [exact FT|]. split; [apply FST; apply (map_res_length _ _ _ _ _ Hobs)|].
    apply FST. rewrite map_length. apply (map_res_length _ _ _ _ _ Hws). }
  split; [exists w, ws, ths, dur, bas, tl, mx; exact T|].
  unfold aloud. cbn [fst]. rewrite !infos_lines. unfold lines. reflexivity.
Qed.
