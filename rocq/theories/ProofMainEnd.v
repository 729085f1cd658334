(** * Runs of oneka that succeed *)
From Coq Require Import Reals Lra Lia String Sorted Permutation.
From Verif Require Import Py Num NumXR ModelField ModelAquifer ModelTrace ModelObs ModelDist ModelDriver ModelPlot ModelArchive ModelMain.
From Verif Require Import SpecField SpecAquifer SpecTrace SpecObs SpecDriver SpecPlot SpecDist SpecArchive SpecMain ProofDist ProofStats ProofTraceFlow ProofDriver ProofDriverProps ProofPlot ProofDecile ProofMain ProofMainRun.
From Verif Require Import SpecField.
Local Open Scope R_scope.

Lemma init_spacing d (x y : xr) s : pf_init (Fin d) (Fin d) x y = Ok s -> deltax s = Fin d /\ deltay s = Fin d.
Proof.
  unfold pf_init. destruct (nle (Fin d) (nZ 0)); [discriminate|]. destruct (nisnan x || nisnan y); intros [= <-]; auto.
Qed.
Lemma calls_spacing fuel l : forall (s s' : pfield xr) r, calls fuel s l = (s', r) -> deltax s' = deltax s /\ deltay s' = deltay s.
Proof.
  induction l as [|o l IH]; cbn [calls]; intros s s' r H; [injection H as <- _; auto|].
  pose proof (run_op_spacing fuel s o) as [A B]. destruct (run_op fuel s o) as [s1 [u|e|]]; cbn [fst] in A, B.
  - destruct (IH _ _ _ H) as [C D]. split; congruence.
  - injection H as <- _; auto.
  - injection H as <- _; auto.
Qed.
Lemma total_initialised s W : total s W -> initialised s.
Proof. intros (g & E & _). unfold initialised. congruence. Qed.

(** The table of finitely many finite observations always has its statistics. *)
Lemma summary_finite (l : list (obs R)) : l <> [] -> exists st, summary_statistics (table (map fobs l)) = Ok st.
Proof.
  intros Hl. set (rows := map (fun o => [Some (ox o); Some (oy o); Some (oz o); Some (os o)]) l).
  assert (E : table (map fobs l) = map (map fval) rows).
  { unfold table, rows. rewrite !map_map. apply map_ext. intros o. reflexivity. }
  rewrite E. destruct (c75_columns rows 4) as (st & H & _); [| | |exists st; exact H].
  - unfold rows. destruct l; [congruence|discriminate].
  - intros row Hr. unfold rows in Hr. apply in_map_iff in Hr. destruct Hr as (o & <- & _). reflexivity.
  - intros j Hj. unfold rows, column. destruct l as [|o l]; [congruence|]. cbn [map flat_map].
    destruct j as [|[|[|[|j]]]]; cbn; try discriminate. lia.
Qed.

(** A deterministic run whose driver succeeds runs to its end: statistics, log, the area of the captured nodes,
    archive, figures. *)
Lemma c80_deterministic : forall (fuel : nat) (la : linalg xr) (a : args xr) (c : call) (kept : list (obs R)) (sp : R) s l,
  acceptable a -> reads a c -> finite_places c -> k_spacing c = Fin sp -> (k_n c <= 1)%Z ->
  retained c (map fobs kept) -> (7 <= List.length kept)%nat -> call_deterministic fuel la a c (map fobs kept) = Ok (s, l) ->
  exists st nodes, enumerates s nodes /\
    forall (G E : Type) (Rg : rng xr G) (mvn : E -> list xr -> list (list xr) -> list xr) (dump : run_args (pyobj xr) -> res unit) (entropy : nat -> E) (g : G),
    dump (archived a s) = Ok tt ->
    oneka Rg mvn dump fuel la entropy g a =
    ([EBanner; EFiltered (map fobs kept); ESummary st; EDeterministic l; EAreaPlot (Fin (INR (captured nodes) * (sp * sp)));
      EArchive (archived a s); EShow], Ok RNone).
Proof.
  intros fuel la a c kept sp s l Ha Hc Hf Hsp Hn K L7 D.
  destruct (summary_finite kept) as (st & S); [intros ->; cbn in L7; lia|].
  pose proof D as D'. unfold call_deterministic in D'. rewrite Hsp in D'.
  destruct (c59_nodes _ _ _ _ _ _ _ _ _ _ _ _ _ _ _ _ _ _ Hf D') as (W & Tt & _).
  destruct (c59_history _ _ _ _ _ _ _ _ _ _ _ _ _ _ _ _ _ _ _ _ D') as (w & s0 & tracks & m & kk & n & h & _ & I0 & _ & _ & _ & _ & _ & _ & _ & _ & _ & _ & _ & _ & _ & _ & C).
  destruct (init_spacing _ _ _ _ I0) as (P1 & P2). destruct (calls_spacing _ _ _ _ _ C) as (Q1 & Q2). rewrite P1 in Q1. rewrite P2 in Q2.
  destruct (proj1 (c68_enumeration s W (total_initialised _ _ Tt))) as (nodes & En & _).
  exists st, nodes. split; [exact En|]. intros G E Rg mvn dump entropy g Hd.
  rewrite (oneka_values Rg mvn dump fuel la entropy g a c Ha Hc). rewrite K. cbn [stop].
  rewrite (proj2 (more_than_six (map fobs kept))) by (rewrite map_length; exact L7). cbn [stop]. rewrite S. cbn [stop].
  destruct (Z.gtb_spec (k_n c) 1) as [X|_]; [lia|]. rewrite D. cbn [stop].
  rewrite (c70_area s 1 sp sp nodes W Tt ltac:(lra) Q1 Q2 En). cbn [stop]. unfold finish. rewrite Hd. reflexivity.
Qed.

(** A stochastic run whose driver succeeds runs to its end. *)
Lemma c80_stochastic : forall (G E : Type) (Rg : rng xr G) (mvn : E -> list xr -> list (list xr) -> list xr) (dump : run_args (pyobj xr) -> res unit)
    (fuel : nat) (la : linalg xr) (entropy : nat -> E) (g : G) (a : args xr) (c : call) (kept : list (obs R)) (sp : R) s logs,
  acceptable a -> reads a c -> finite_places c -> k_spacing c = Fin sp -> (1 < k_n c)%Z ->
  retained c (map fobs kept) -> (7 <= List.length kept)%nat -> call_stochastic Rg mvn fuel la entropy g a c (map fobs kept) = Ok (s, logs) ->
  dump (archived a s) = Ok tt ->
  exists st X Y P pr area rows nodes, enumerates s nodes /\
    Permutation pr (map (fun n => snd n / IZR (k_n c)) nodes) /\ StronglySorted Rge pr /\ List.length rows = 19%nat /\
    area = map (fun k => Fin (INR (k + 1) * (sp * sp))) (seq 0 (List.length pr)) /\
    oneka Rg mvn dump fuel la entropy g a =
    ([EBanner; EFiltered (map fobs kept); ESummary st; ERealizations logs; EProbabilityPlot X Y P; EImpactPlot (map Fin pr) area; EDeciles rows;
      EArchive (archived a s); EShow], Ok RNone).
Proof.
  intros G E Rg mvn dump fuel la entropy g a c kept sp s logs Ha Hc Hf Hsp Hn K L7 D Hd.
  destruct (summary_finite kept) as (st & S); [intros ->; cbn in L7; lia|].
  pose proof D as D'. unfold call_stochastic in D'. rewrite Hsp in D'.
  destruct (c60_nodes _ _ _ _ _ _ _ _ _ _ _ _ _ _ _ _ _ _ _ _ _ _ _ _ _ Hf D' ltac:(lia)) as (W & Tt & _).
  assert (HW : 0 < IZR (k_n c)) by (apply IZR_lt; lia).
  destruct (proj1 (c68_enumeration s W (total_initialised _ _ Tt))) as (nodes & En & _).
  destruct (c71_axes s _ W Tt HW) as (g' & dx & dy & x0 & y0 & P & _ & _ & _ & _ & _ & EP & _).
  destruct (proj2 (c68_curve s sp _ nodes W Tt En) HW) as (pr & EI & Pp & Ps).
  destruct (c69_exactly_partial s sp _ nodes _ _ W Tt HW En EI) as (rows & ER & Lr & _).
  do 5 eexists. exists (map (fun k => Fin (INR (k + 1) * (sp * sp))) (seq 0 (List.length pr))), rows, nodes.
  split; [exact En|]. split; [exact Pp|]. split; [exact Ps|]. split; [exact Lr|]. split; [reflexivity|].
  rewrite (oneka_values Rg mvn dump fuel la entropy g a c Ha Hc). rewrite K. cbn [stop].
  rewrite (proj2 (more_than_six (map fobs kept))) by (rewrite map_length; exact L7). cbn [stop]. rewrite S. cbn [stop].
  destruct (Z.gtb_spec (k_n c) 1) as [_|X]; [|lia]. rewrite D. cbn [stop]. rewrite EP. cbn [stop]. rewrite Hsp, EI. cbn [stop]. rewrite ER. cbn [stop].
  unfold finish. rewrite Hd. reflexivity.
Qed.
