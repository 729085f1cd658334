(** * Concrete runs of oneka *)
From Coq Require Import Reals Lra Lia Psatz String.
From Verif Require Import Py Num NumXR ModelField ModelAquifer ModelTrace ModelObs ModelDist ModelDriver ModelPlot ModelArchive ModelMain.
From Verif Require Import SpecAquifer SpecFit SpecTrace SpecObs SpecDriver SpecPlot SpecDist SpecMain ProofPi ProofAquifer ProofHead Lstsq ProofFit ProofFitProps ProofObs ProofObsProps ProofDist ProofDriver ProofDriverProps ProofDriverEx ProofMain ProofMainRun ProofMainEnd.
From Verif Require Import SpecField.
Local Open Scope R_scope.
Local Opaque kappa.

(** ** The inputs of ProofDriverEx as arguments of oneka *)
Definition pobs (o : obs R) : pyval xr := PTuple [PFloat (Fin (ox o)); PFloat (Fin (oy o)); PFloat (Fin (oz o)); PFloat (Fin (os o))].
Definition d_args (n cd pd : pyval xr) (l : list (obs R)) : args xr :=
  {| projectname := PStr "demo"; runtime := PStr "now"; target := PInt 0; npaths := PInt 1; duration := PFloat (Fin (1 / 10)); nrealizations := n;
     base_ := PInt 0; c_dist := cd; p_dist := pd; t_dist := PInt 1;
     stochastic_wells := PList [PTuple [PInt 0; PInt 0; PInt 1; PInt 0]]; observations := PList (map pobs l);
     buffer := PFloat (Fin (1 / 2)); spacing := PInt 2; umbra := PInt 1; smooth := PInt 1; confined := PBool true; tol := PInt 1; maxstep := PInt 10 |}.
Definition d_call (n : Z) (l : list (obs R)) : call :=
  {| k_target := 0; k_npaths := 1; k_duration := Fin (1 / 10); k_n := n; k_base := Fin 0; k_wells := [dw]; k_obs := map fobs l;
     k_buffer := Fin (1 / 2); k_spacing := Fin 2; k_umbra := Fin 1; k_confined := true; k_tol := Fin 1; k_maxstep := Fin 10 |}.
Definition halves : pyval xr := PTuple [PFloat (Fin (1 / 2)); PFloat (Fin (3 / 2))].
Definition quarter : pyval xr := PFloat (Fin (1 / 4)).

Lemma positive_int z : (0 < z)%Z -> positive (PInt z).
Proof. intros H. exists (Fin (IZR z)). split; [constructor|apply IZR_lt, H]. Qed.
Lemma positive_float r : 0 < r -> positive (PFloat (Fin r)).
Proof. intros H. exists (Fin r). split; [constructor|exact H]. Qed.
Lemma scalar_dist v x lb ub : number v x -> xr_le lb x -> xr_le x ub -> distribution v lb ub.
Proof. intros H A B. exists [x]. split; [constructor; exact H|split; assumption]. Qed.
Lemma d_required n cd pd l : distribution cd (Fin 0) PInf -> distribution pd (Fin 0) (Fin 1) -> (7 <= List.length l)%nat -> (forall o, In o l -> 0 <= os o) ->
  required_ok (d_args n cd pd l).
Proof.
  intros Hc Hp L Ho. unfold required_ok, d_args. cbn [projectname runtime target npaths duration nrealizations base_ c_dist p_dist t_dist stochastic_wells observations].
  repeat split; try (eexists; reflexivity); auto.
  - eexists. split; [reflexivity|]. split.
    + constructor; [|constructor]. exists (PInt 0), (PInt 0), (PInt 1), (PInt 0). split; [left; reflexivity|].
      split; [exists (Fin 0); apply num_int|]. split; [exists (Fin 0); apply num_int|]. split; [apply positive_int; reflexivity|].
      apply (scalar_dist _ (Fin 0)); [apply num_int|exact I|exact I].
    + exists 0%Z. split; [constructor|]. cbn. lia.
  - exists 1%Z. split; [constructor|lia].
  - eexists. split; [constructor|]. intros [= H]. lra.
  - eexists. constructor.
  - eapply scalar_dist; [apply num_int|cbn; lra|exact I].
  - eexists. split; [reflexivity|]. rewrite map_length. split; [exact L|]. apply Forall_forall. intros v Hv. apply in_map_iff in Hv. destruct Hv as (o & <- & Hv).
    do 4 eexists. split; [left; reflexivity|]. do 3 (split; [eexists; apply num_float|]). eexists. split; [apply num_float|]. cbn. auto.
Qed.
Lemma d_acceptable n cd pd l : distribution cd (Fin 0) PInf -> distribution pd (Fin 0) (Fin 1) -> (7 <= List.length l)%nat -> (forall o, In o l -> 0 <= os o) ->
  acceptable (d_args n cd pd l).
Proof.
  intros. split; [apply d_required; assumption|]. unfold optional_ok, d_args. cbn [buffer spacing umbra smooth confined tol maxstep].
  repeat split; try (apply positive_int; reflexivity); [apply positive_float; lra|eexists; reflexivity].
Qed.
Lemma d_reads n cd pd l : reads (d_args (PInt n) cd pd l) (d_call n l).
Proof.
  unfold reads, d_args, d_call. cbn [target npaths duration nrealizations base_ stochastic_wells observations buffer spacing umbra confined tol maxstep k_target k_npaths k_duration k_n k_base k_wells k_obs k_buffer k_spacing k_umbra k_confined k_tol k_maxstep].
  repeat split; try constructor.
  - eexists. split; [reflexivity|]. constructor; [|constructor]. do 3 eexists. split; [left; reflexivity|]. repeat split; constructor.
  - eexists. split; [reflexivity|]. induction l as [|o l IH]; cbn [map]; constructor; [|exact IH]. do 4 eexists. split; [left; reflexivity|]. repeat split; constructor.
Qed.
Lemma halves_dist : distribution halves (Fin 0) PInf.
Proof. exists [Fin (1 / 2); Fin (3 / 2)]. split; [apply ent_pair; [left; reflexivity|constructor|constructor]|]. cbn. repeat split; lra. Qed.
Lemma quarter_dist : distribution quarter (Fin 0) (Fin 1).
Proof. eapply scalar_dist; [apply num_float|cbn; lra|cbn; lra]. Qed.
Lemma one_dist : distribution (PInt 1) (Fin 0) PInf.
Proof. eapply scalar_dist; [apply num_int|cbn; lra|exact I]. Qed.
Lemma dobs_seven : (7 <= List.length dobs)%nat.
Proof. apply le_n. Qed.
Lemma dobs_os o : In o dobs -> 0 <= os o.
Proof. intros H. apply dobs_in in H. destruct H as (x & y & -> & _). cbn. lra. Qed.

(** All seven observations are retained. *)
Definition zero_dev (o : obs R) : obs R := {| ox := ox o; oy := oy o; oz := oz o; os := 0 |}.

Lemma odist_gt o w b : 0 <= b -> b * b < (ox o - fst w) * (ox o - fst w) + (oy o - snd w) * (oy o - snd w) -> b < odist o w.
Proof. intros Hb H. unfold odist. rewrite <- (sqrt_square b Hb). apply sqrt_lt_1_alt. split; [nra|exact H]. Qed.

Lemma keeps (l : list (obs R)) : map loc l = map loc dobs ->
  filter_obs (map fobs l) (map (fun w : swell xr => (sx w, sy w)) [dw]) (Fin (1 / 2)) = Ok (map fobs l).
Proof.
  intros E. change (map (fun w : swell xr => (sx w, sy w)) [dw]) with (map floc [(0, 0)]).
  destruct (filter_R l [(0, 0)] (1 / 2)) as (k & S & EF). rewrite EF; clear EF.
  assert (F : Forall (survives [(0, 0)] (1 / 2)) l).
  { apply Forall_forall. intros o Ho w [<-|[]]. apply (in_map loc) in Ho. rewrite E in Ho. apply odist_gt; [lra|]. cbn [fst snd].
    cbn in Ho. unfold loc in Ho. destruct Ho as [Q|[Q|[Q|[Q|[Q|[Q|[Q|[]]]]]]]]; injection Q as <- <-; lra. }
  assert (k = l) as ->.
  { eapply survivors_fun; [exact S|]. clear S E. induction F; constructor; assumption. }
  apply merge_id; [rewrite map_length; apply le_n|].
  destruct l as [|o1 [|o2 [|o3 [|o4 [|o5 [|o6 [|o7 [|o8 l]]]]]]]]; try discriminate E.
  cbn [map dobs dob] in E. unfold loc in E. cbn [ox oy] in E. injection E as E11 E12 E21 E22 E31 E32 E41 E42 E51 E52 E61 E62 E71 E72.
  cbn [map separated]. rewrite !too_close_R. unfold odist, loc. cbn [fst snd]. rewrite E11, E12, E21, E22, E31, E32, E41, E42, E51, E52, E61, E62, E71, E72.
  repeat split; apply Rltb_false; apply sqrt_ge1; lra.
Qed.
Lemma d_retained n : retained (d_call n dobs) (map fobs dobs).
Proof. apply keeps. reflexivity. Qed.
Lemma d_places n l : finite_places (d_call n l).
Proof. intros w [<-|[]]. split; left; eexists; reflexivity. Qed.

(** ** C66, C80: both modes, from the arguments to the end of the run *)
Lemma c80_example : exists fuel s events, acceptable (d_args (PInt 1) halves quarter dobs) /\ has_node s 2 0 1 false /\
  forall (G E : Type) (Rg : rng xr G) (mvn : E -> list xr -> list (list xr) -> list xr) entropy g,
    oneka Rg mvn (fun _ => Ok tt) fuel elim_la entropy g (d_args (PInt 1) halves quarter dobs) = (events, Ok RNone) /\
    In (EFiltered (map fobs dobs)) events /\ In (EArchive (archived (d_args (PInt 1) halves quarter dobs) s)) events /\
    exists l, In (EDeterministic l) events /\ l_coef l = fcoef {| cA := 0; cB := 0; cC := 0; cD := 1; cE := 0; cF := 10 |}.
Proof.
  destruct c59_example as (fuel & s & W & Nd & D).
  assert (A : acceptable (d_args (PInt 1) halves quarter dobs)) by (apply d_acceptable; [exact halves_dist|exact quarter_dist|exact dobs_seven|exact dobs_os]).
  set (l0 := {| l_conductivity := Fin 1; l_porosity := Fin (1 / 4); l_thickness := Fin 1; l_recharge := Fin 0;
                l_coef := fcoef {| cA := 0; cB := 0; cC := 0; cD := 1; cE := 0; cF := 10 |} |}) in *.
  destruct (c80_deterministic fuel elim_la (d_args (PInt 1) halves quarter dobs) (d_call 1 dobs) dobs 2 s l0 A (d_reads 1 _ _ _) (d_places 1 _) eq_refl (Z.le_refl 1)
     (d_retained 1) dobs_seven D) as (st & nodes & _ & X).
  eexists fuel, s, _. split; [exact A|]. split; [exact Nd|]. intros. split; [apply X; reflexivity|].
  split; [right; left; reflexivity|]. split; [cbn; auto 10|]. exists l0. split; [cbn; auto 10|reflexivity].
Qed.

(** Two realizations. *)
Lemma c66_example : exists fuel s, has_node s 2 0 2 false /\ acceptable (d_args (PInt 2) (PInt 1) quarter dobs) /\
  forall (G : Type) (Rg : rng xr G) g, exists events,
    oneka Rg (fun (e : list xr) _ _ => e) (fun _ => Ok tt) fuel elim_la (fun _ => map Fin [0; 0; 0; 1; 0; 0]) g (d_args (PInt 2) (PInt 1) quarter dobs) = (events, Ok RNone) /\
    (exists logs, In (ERealizations logs) events) /\ (forall l, ~ In (EDeterministic l) events) /\
    In (EArchive (archived (d_args (PInt 2) (PInt 1) quarter dobs) s)) events.
Proof.
  destruct c60_example as (fuel & s & W & Nd & D). exists fuel, s. split; [exact Nd|].
  assert (A : acceptable (d_args (PInt 2) (PInt 1) quarter dobs)) by (apply d_acceptable; [exact one_dist|exact quarter_dist|exact dobs_seven|exact dobs_os]).
  split; [exact A|]. intros G Rg g. destruct (D G Rg g) as (logs & E).
  destruct (c80_stochastic G (list xr) Rg (fun e _ _ => e) (fun _ => Ok tt) fuel elim_la (fun _ => map Fin [0; 0; 0; 1; 0; 0]) g (d_args (PInt 2) (PInt 1) quarter dobs) (d_call 2 dobs) dobs 2 s logs
     A (d_reads 2 _ _ _) (d_places 2 _) eq_refl (ltac:(cbn; lia)) (d_retained 2) dobs_seven E eq_refl) as (st & X & Y & P & pr & area & rows & nodes & _ & _ & _ & _ & _ & EE).
  eexists. split; [exact EE|]. split; [exists logs; cbn; auto 10|]. split; [|cbn; auto 10].
  intros l H. cbn in H. repeat (destruct H as [H|H]; [discriminate|]). exact H.
Qed.

(** ** C67: the field is computed and archived, and None is returned. *)
Lemma c67_refuted : exists fuel s events, acceptable (d_args (PInt 1) halves quarter dobs) /\ has_node s 2 0 1 false /\
  forall (G E : Type) (Rg : rng xr G) (mvn : E -> list xr -> list (list xr) -> list xr) entropy g,
    oneka Rg mvn (fun _ => Ok tt) fuel elim_la entropy g (d_args (PInt 1) halves quarter dobs) = (events, Ok RNone) /\
    In (EArchive (archived (d_args (PInt 1) halves quarter dobs) s)) events.
Proof.
  destruct c80_example as (fuel & s & ev & A & Nd & X). exists fuel, s, ev. split; [exact A|]. split; [exact Nd|]. intros.
  destruct (X G E Rg mvn entropy g) as (E1 & _ & E2 & _). auto.
Qed.

(** ** C64: one realization given as the float 1.0 *)
Lemma c64_refuted : exists a, acceptable a /\ ~ documented_args a /\
  forall (G E : Type) (Rg : rng xr G) (mvn : E -> list xr -> list (list xr) -> list xr) (dump : run_args (pyobj xr) -> res unit) fuel la entropy g,
    oneka Rg mvn dump fuel la entropy g a = ([EBanner], Raise ValueError).
Proof.
  exists (d_args (PFloat (Fin 1)) halves quarter dobs).
  assert (A : acceptable (d_args (PFloat (Fin 1)) halves quarter dobs)) by (apply d_acceptable; [exact halves_dist|exact quarter_dist|exact dobs_seven|exact dobs_os]).
  assert (N : ~ documented_args (d_args (PFloat (Fin 1)) halves quarter dobs)) by (intros (_ & n & Hn); inversion Hn).
  split; [exact A|]. split; [exact N|]. intros. rewrite (c64_nrealizations _ _ _ _ _ _ _ _ _ _ A N). reflexivity.
Qed.

(** Rejected: six observations; a porosity above 1; a target that is no index. *)
Lemma c64_example : acceptable (d_args (PInt 1) halves quarter dobs) /\
  ~ acceptable (d_args (PInt 1) halves quarter (tl dobs)) /\
  ~ acceptable (d_args (PInt 1) halves (PFloat (Fin 2)) dobs) /\
  ~ acceptable (d_args (PInt 1) halves (PTuple [PFloat (Fin (1 / 4)); PFloat NaN]) dobs).
Proof.
  split; [apply d_acceptable; [exact halves_dist|exact quarter_dist|exact dobs_seven|exact dobs_os]|].
  assert (P : forall v n l, acceptable (d_args n halves v l) -> distribution v (Fin 0) (Fin 1)) by (intros v n l H; apply H).
  split; [|split].
  - intros ((_ & _ & _ & _ & _ & _ & _ & _ & _ & (l & El & L & _)) & _). cbn [observations d_args] in El. injection El as <-. cbn in L. lia.
  - intros H. apply P, c55_exactly in H. cbn in H. destruct (Rleb 0 2); [|discriminate]. destruct (Rleb 2 1) eqn:C; [|discriminate]. apply Rleb_true in C. lra.
  - intros H. apply P, c55_exactly in H. cbn in H. destruct (Rleb 0 (1 / 4)); discriminate.
Qed.

(** ** C65: every call with the defaults is rejected *)
Lemma c65_refuted : forall p r t n d k b c po th ws os, let a := with_defaults p r t n d k b c po th ws os in
  required_ok a ->
  forall (G E : Type) (Rg : rng xr G) (mvn : E -> list xr -> list (list xr) -> list xr) (dump : run_args (pyobj xr) -> res unit) fuel la entropy g,
    oneka Rg mvn dump fuel la entropy g a = ([], Raise AssertionError).
Proof.
  intros p r t n d k b c po th ws os a H G E Rg mvn dump fuel la entropy g.
  assert (V : validate a = Raise AssertionError).
  { apply default_smooth; [exact H| |reflexivity]. unfold optional_ok. repeat split; try (apply positive_int; reflexivity). exists true. reflexivity. }
  unfold oneka. rewrite V. reflexivity.
Qed.

(** There are such calls. *)
Lemma c65_example : required_ok
  (with_defaults (PStr "demo") (PStr "now") (PInt 0) (PInt 1) (PFloat (Fin (1 / 10))) (PInt 1) (PInt 0) halves quarter (PInt 1)
                 (PList [PTuple [PInt 0; PInt 0; PInt 1; PInt 0]]) (PList (map pobs dobs))).
Proof. exact (d_required (PInt 1) halves quarter dobs halves_dist quarter_dist dobs_seven dobs_os). Qed.

(** ** C53: observations that validation accepts and filter_obs cannot handle *)
Definition twice : obs R := {| ox := 0; oy := 1; oz := 11; os := 0 |}.
Lemma c53_validated_refuted : acceptable (d_args (PInt 1) halves quarter (twice :: twice :: dobs)) /\
  forall (G E : Type) (Rg : rng xr G) (mvn : E -> list xr -> list (list xr) -> list xr) (dump : run_args (pyobj xr) -> res unit) fuel la entropy g,
    oneka Rg mvn dump fuel la entropy g (d_args (PInt 1) halves quarter (twice :: twice :: dobs)) = ([EBanner], Raise ZeroDivisionError).
Proof.
  assert (A : acceptable (d_args (PInt 1) halves quarter (twice :: twice :: dobs))).
  { apply d_acceptable; [exact halves_dist|exact quarter_dist|cbn; lia|]. intros o [<-|[<-|H]]; [cbn; lra|cbn; lra|exact (dobs_os o H)]. }
  split; [exact A|]. intros.
  rewrite (oneka_values _ _ _ fuel la _ _ _ _ A (d_reads 1 _ _ _)).
  assert (F : filter_obs (k_obs (d_call 1 (twice :: twice :: dobs))) (map (fun w => (sx w, sy w)) (k_wells (d_call 1 (twice :: twice :: dobs)))) (k_buffer (d_call 1 (twice :: twice :: dobs)))
              = Raise ZeroDivisionError); [|rewrite F; reflexivity].
  cbn [k_obs k_wells k_buffer d_call]. change (map (fun w : swell xr => (sx w, sy w)) [dw]) with (map floc [(0, 0)]).
  destruct (filter_R (twice :: twice :: dobs) [(0, 0)] (1 / 2)) as (k & S & E0). rewrite E0. clear E0.
  assert (Q : survives [(0, 0)] (1 / 2) twice) by (intros w [<-|[]]; apply odist_gt; cbn; lra).
  inversion S as [|x l' k1 _ S1|x l' k1 N1 S1]; subst; [|contradiction]. inversion S1 as [|x l' k2 _ S2|x l' k2 N2 S2]; subst; [|contradiction].
  cbn [map List.length merge]. change (fobs twice :: map fobs k2) with (map fobs (twice :: k2)).
  destruct (take_close_R twice (twice :: k2)) as (gg & rr & E1 & E2 & _ & Er). rewrite E1.
  destruct gg as [|x gg].
  - exfalso. assert (TC : too_close (fobs twice) (fobs twice) = true).
    { rewrite too_close_R. apply Rltb_true. unfold odist, loc, twice. cbn. replace ((0 - 0) * (0 - 0) + (1 - 1) * (1 - 1)) with 0 by ring. rewrite sqrt_0. lra. }
    cbn [map take_close] in E1. rewrite TC in E1. destruct (take_close (fobs twice) (map fobs k2)); discriminate E1.
  - rewrite merge_group_zero; [reflexivity|discriminate|]. intros K. apply (K twice); [left; reflexivity|reflexivity].
Qed.
