(** * The order of the wells and of the observations: examples *)
From Coq Require Import Reals Lra Lia Psatz List ZArith Permutation String.
From Verif Require Import Py Num NumXR ModelField ModelAquifer ModelTrace ModelObs ModelDist ModelDriver ModelPlot ModelArchive ModelMain.
From Verif Require Import SpecAquifer SpecFit SpecTrace SpecObs SpecDriver SpecPlot SpecDist SpecMain ProofFieldProps ProofFieldHist ProofInsert ProofOps ProofPi ProofAquifer Lstsq ProofFit ProofFitProps
  ProofTrace ProofTraceLoop ProofTraceFlow ProofTraceEx ProofFuel ProofObs ProofObsProps ProofDist ProofDriver ProofDriverProps ProofDriverEx ProofMain ProofMainRun ProofMainEnd ProofMainEx
  ProofMainFinite ProofPosed ProofWholeEx ProofStats SpecOrder ProofOrder ProofOrderObs SpecField.
Import ListNotations.
Local Open Scope R_scope.
Local Opaque kappa.

(** ** Idle wells off the positive x axis, heads of the flow with D = 1, F = 10 *)
Definition em (wl : list (well R)) : model R :=
  {| base := 0; conductivity := 1; porosity := 1 / 4; thickness := 1; wells := wl; xo := 0; yo := 0; coef := zero_coef |}.
Definition idle (wl : list (well R)) : Prop := forall w, In w wl -> wq w = 0.

Lemma idle_sum (f : well R -> R) wl : (forall w, In w wl -> f w = 0) -> Rsum f wl = 0.
Proof. intros H. unfold Rsum. induction wl as [|w wl IH]; [reflexivity|]. cbn [fold_right]. rewrite (H w (or_introl eq_refl)), IH by (intros; apply H; right; assumption). ring. Qed.

Lemma e_fit la wl l : linalg_contract la -> idle wl -> conic_free l -> (forall o, In o l -> usable (em wl) o) -> (forall o, In o l -> exists x y, o = dob x y /\ 0 <= x) -> exists C,
  fit_regional_flow la (fmodel (em wl)) (map fobs l) (Fin 0) (Fin 0) = (fmodel (with_coef (em wl) 0 0 (dc 1 10)), Ok (coef_list (fcoef (dc 1 10)), C)).
Proof.
  intros Hla Id Fr Us Ho. apply c29_recovers_coefficients; [exact Hla|cbn; lra|cbn; lra|exact Us|exact Fr|].
  intros o Hi. pose proof (Us o Hi) as (_ & _ & Off). destruct (Ho o Hi) as (x & y & -> & H1).
  rewrite potential_with_coef by exact Off. unfold obs_ev. cbn [base em oz os ox oy dob thickness conductivity].
  destruct (Rlt_dec _ _); [lra|]. rewrite idle_sum.
  - unfold quad, dc. cbn [cA cB cC cD cE cF]. field.
  - intros w Hw. unfold wpot. rewrite (Id w Hw). field.
Qed.

Lemma e_velocity wl x : idle wl -> (forall w, In w wl -> ~ (wx w = x /\ wy w = 0)) ->
  feval true (fmodel (with_coef (em wl) 0 0 (dc 1 10))) (fvec (x, 0)) = Ok (fvec (4, 0)).
Proof.
  intros Id Hx. unfold feval, compute_velocity_confined, fvec. cbn [fst snd].
  rewrite compute_discharge_eq by (intros w Hw (E1 & E2); apply (Hx w Hw); cbn in *; split; lra).
  cbn [thickness porosity fmodel with_coef em nmul ndiv nopp XR xmul coef xo yo wells dc cA cB cC cD cE cF].
  rewrite !idle_sum by (intros w Hw; unfold wqx, wqy; rewrite (Id w Hw); unfold Rdiv; ring).
  rewrite !div_fin by lra. cbn [xopp]. apply f_equal, f_equal2; apply (f_equal Fin); field.
Qed.

Lemma e_realization la ws vs wl l s w :
  linalg_contract la -> make_wells ws vs = Ok (map fwell wl) -> idle wl -> (forall x v, 2 <= x -> In v wl -> ~ (wx v = x /\ wy v = 0)) ->
  conic_free l -> (forall o, In o l -> usable (em wl) o) -> (forall o, In o l -> exists x y, o = dob x y /\ 0 <= x) ->
  wf s -> initialised s -> has_node s 2 0 w false ->
  exists fuel s', realization fuel la s (Fin 0) (Fin 0) (Fin 1) 1 (Fin (1 / 10)) (Fin 0) (PInt 1) (PFloat (Fin (1 / 4))) (PInt 1) ws vs (map fobs l)
              (Fin 1) true (Fin 1) (Fin 10) (fun ev _ => ev) recharge_deterministic = (s', Ok (d_log recharge_deterministic 1 10)) /\ has_node s' 2 0 (w + 1) false.
Proof.
  intros Hla Mw Id Hx Fr Us Ho Hwf Hin Hnode.
  set (tr := [(2, 0); (2 + 1 / 10 * 4, 0)] : list point).
  destruct (c11_rasterize_returns s tr 1 Hwf ltac:(discriminate) ltac:(lra)) as (n & Hn).
  set (n2 := Nat.max 2 n). destruct (Hn n2 ltac:(lia)) as (s1 & E1 & W1 & I1).
  destruct (c14_register_exact s1 1 W1 I1) as (s2 & E2 & W2 & N2 & _).
  exists n2, s2. split.
  - unfold realization. rewrite Mw. cbn [as_num num_of bind]. cbn [nZ XR].
    change (new_model (Fin 0) (Fin 1) (Fin (1 / 4)) (Fin 1) (map fwell wl)) with (fmodel (em wl)).
    destruct (e_fit la wl l Hla Id Fr Us Ho) as (C & EC). rewrite EC. cbn [bind]. cbn [reshape6 coef_list bind].
    change (set_coef (fmodel (with_coef (em wl) 0 0 (dc 1 10))) _) with (fmodel (with_coef (em wl) 0 0 (dc 1 10))).
    assert (B : compute_backtrace n2 (Fin (fst (ring_point 0 0 1 1 0))) (Fin (snd (ring_point 0 0 1 1 0))) (Fin (1 / 10)) (Fin 1) (Fin 10) (feval true (fmodel (with_coef (em wl) 0 0 (dc 1 10))))
      = Ok {| vertices := map fvec tr; t_end := Fin (1 / 10); completed := true |}).
    { rewrite ring_two. apply line_trace; [lia|lra|]. intros x H2. apply e_velocity; [exact Id|]. intros v Hv. apply Hx; assumption. }
    pose proof (c46_paths n2 0 0 1 1 (Fin (1 / 10)) (Fin 1) (Fin 1) (Fin 1) (Fin 10) s (feval true (fmodel (with_coef (em wl) 0 0 (dc 1 10))))
                  [{| vertices := map fvec tr; t_end := Fin (1 / 10); completed := true |}] ltac:(lia)) as P.
    change (Z.of_nat 1) with 1%Z in P. rewrite P by (constructor; [exact B|constructor]). clear P.
    cbn [map app calls run_op vertices].
    match goal with |- context [rasterize n2 s ?a ?b (Fin 1)] => change a with (xs tr); change b with (ys tr) end. rewrite E1.
    cbn [nZ XR]. rewrite E2. reflexivity.
  - destruct (c11_rasterize_exact n2 s tr 1 s1 Hwf Hin ltac:(lra) E1) as (_ & _ & X1 & X2 & _).
    destruct (X1 2 0 w false Hnode) as (m' & Hm'). destruct (X2 2 0 w m' Hm') as (_ & _ & X3).
    assert (H2 : has_node s2 2 0 (if m' then w + 1 else w) false). { apply N2. split; [reflexivity|]. exists w, m'. auto. }
    assert (m' = true) as ->; [|exact H2]. apply X3. right. exists (2, 0), (2 + 1 / 10 * 4, 0). split; [exists 0%nat; split; reflexivity|].
    split; [intros C; injection C; lra|]. exists (2, 0). split; [exists 0; split; [lra|cbn; f_equal; ring]|]. unfold dist2. cbn. lra.
Qed.

Lemma halves_mean : ndiv (nadd (Fin (1 / 2)) (Fin (3 / 2))) (nZ 2) = Fin 1.
Proof. cbn. destruct (Reqb_spec 2 0); [lra|]. apply f_equal. field. Qed.

(** ** C116: two wells in either order *)
Definition e_one : pyval xr := PTuple [PInt 0; PInt 0; PInt 1; PInt 0].
Definition e_two : pyval xr := PTuple [PInt 0; PInt (-5); PInt 1; PTuple [PInt (-1); PInt 1]].
Definition e_well : swell xr := {| sx := Fin 0; sy := Fin (-5); sr := Fin 1; sq := PTuple [PInt (-1); PInt 1] |}.
Definition e_args (t : Z) (ws : list (pyval xr)) : args xr :=
  {| projectname := PStr "demo"; runtime := PStr "now"; target := PInt t; npaths := PInt 1; duration := PFloat (Fin (1 / 10)); nrealizations := PInt 1;
     base_ := PInt 0; c_dist := halves; p_dist := quarter; t_dist := PInt 1;
     stochastic_wells := PList ws; observations := PList (map pobs dobs);
     buffer := PFloat (Fin (1 / 2)); spacing := PInt 2; umbra := PInt 1; smooth := PInt 1; confined := PBool true; tol := PInt 1; maxstep := PInt 10 |}.
Definition e_call (t : Z) (ws : list (swell xr)) : call :=
  {| k_target := t; k_npaths := 1; k_duration := Fin (1 / 10); k_n := 1; k_base := Fin 0; k_wells := ws; k_obs := map fobs dobs;
     k_buffer := Fin (1 / 2); k_spacing := Fin 2; k_umbra := Fin 1; k_confined := true; k_tol := Fin 1; k_maxstep := Fin 10 |}.
Definition e_ok (v : pyval xr) (w : swell xr) : Prop := v = e_one /\ w = dw \/ v = e_two /\ w = e_well.

Lemma e_acceptable t vs ws : Forall2 e_ok vs ws -> (0 <= t < Z.of_nat (List.length vs))%Z -> acceptable (e_args t vs).
Proof.
  intros F Ht. split.
  - unfold required_ok, e_args. cbn [projectname runtime target npaths duration nrealizations base_ c_dist p_dist t_dist stochastic_wells observations].
    repeat split; try (eexists; reflexivity); auto using halves_dist, quarter_dist.
    + eexists. split; [reflexivity|]. split.
      * clear Ht. induction F as [|v w vs ws H F IH]; constructor; [|exact IH]. destruct H as [(-> & _)|(-> & _)].
        -- exists (PInt 0), (PInt 0), (PInt 1), (PInt 0). split; [left; reflexivity|].
           split; [exists (Fin 0); apply num_int|]. split; [exists (Fin 0); apply num_int|]. split; [apply positive_int; reflexivity|].
           apply (scalar_dist _ (Fin 0)); [apply num_int|exact I|exact I].
        -- exists (PInt 0), (PInt (-5)), (PInt 1), (PTuple [PInt (-1); PInt 1]). split; [left; reflexivity|].
           split; [exists (Fin 0); apply num_int|]. split; [exists (Fin (-5)); apply (num_int (-5))|]. split; [apply positive_int; reflexivity|].
           exists [Fin (-1); Fin 1]. split; [apply ent_pair; [left; reflexivity|apply (num_int (-1))|apply num_int]|]. cbn. repeat split; lra.
      * exists t. split; [constructor|]. exact Ht.
    + exists 1%Z. split; [constructor|lia].
    + eexists. split; [constructor|]. intros [= H]. lra.
    + eexists. constructor.
    + eapply scalar_dist; [apply num_int|cbn; lra|exact I].
    + eexists. split; [reflexivity|]. split; [apply dobs_seven|]. apply Forall_forall. intros v Hv. apply in_map_iff in Hv. destruct Hv as (o & <- & Hv).
      do 4 eexists. split; [left; reflexivity|]. do 3 (split; [eexists; apply num_float|]). eexists. split; [apply num_float|]. cbn. auto using dobs_os.
  - unfold optional_ok, e_args. cbn [buffer spacing umbra smooth confined tol maxstep].
    repeat split; try (apply positive_int; reflexivity); [apply positive_float; lra|eexists; reflexivity].
Qed.
Lemma e_reads t vs ws : Forall2 e_ok vs ws -> reads (e_args t vs) (e_call t ws).
Proof.
  intros F. unfold reads, e_args, e_call.
  cbn [target npaths duration nrealizations base_ stochastic_wells observations buffer spacing umbra confined tol maxstep k_target k_npaths k_duration k_n k_base k_wells k_obs k_buffer k_spacing k_umbra k_confined k_tol k_maxstep].
  repeat split; try constructor.
  - eexists. split; [reflexivity|]. induction F as [|v w vs ws H F IH]; constructor; [|exact IH]. destruct H as [(-> & ->)|(-> & ->)]; do 3 eexists; (split; [left; reflexivity|]); repeat split; constructor.
  - eexists. split; [reflexivity|]. generalize dobs. intros l. induction l as [|o l IH]; cbn [map]; constructor; [|exact IH]. do 4 eexists. split; [left; reflexivity|]. repeat split; constructor.
Qed.

Lemma e_retained : retained (e_call 0 [dw; e_well]) (map fobs dobs).
Proof.
  unfold retained. cbn [k_obs k_wells k_buffer e_call]. change (map (fun w : swell xr => (sx w, sy w)) [dw; e_well]) with (map floc [(0, 0); (0, -5)]).
  destruct (filter_R dobs [(0, 0); (0, -5)] (1 / 2)) as (k & Sv & EF). rewrite EF; clear EF.
  assert (k = dobs) as ->.
  { eapply survivors_fun; [exact Sv|]. clear Sv. repeat constructor; intros w [<-|[<-|[]]]; apply odist_gt; cbn; lra. }
  apply merge_id; [rewrite map_length; apply le_n|]. cbn [map separated dobs]. rewrite !too_close_R. unfold odist, loc. cbn [fst snd dob ox oy].
  repeat split; apply Rltb_false; apply sqrt_ge1; lra.
Qed.

(** C116.  A target well and a second well whose discharge is uniform in (-1, 1): both runs return, with the same field. *)
Lemma c116_example : exists fuel s events events', let a := e_args 0 [e_one; e_two] in let a' := e_args 1 [e_two; e_one] in
  acceptable a /\ reads a (e_call 0 [dw; e_well]) /\ acceptable a' /\ reads a' (e_call 1 [e_well; dw]) /\
  wells_reordered (e_call 0 [dw; e_well]) (e_call 1 [e_well; dw]) /\ has_node s 2 0 1 false /\
  (forall (G E : Type) (Rg : rng xr G) (mvn : E -> list xr -> list (list xr) -> list xr) entropy g,
    oneka Rg mvn (fun _ => Ok tt) fuel elim_la entropy g a = (events, Ok RNone) /\ oneka Rg mvn (fun _ => Ok tt) fuel elim_la entropy g a' = (events', Ok RNone)) /\
  In (EArchive (archived a s)) events /\ In (EArchive (archived a' s)) events'.
Proof.
  destruct d_init as (s0 & E0 & W0 & I0 & N0).
  destruct (e_realization elim_la [dw; e_well] [PInt 0; PFloat (Fin 0)] [{| wx := 0; wy := 0; wr := 1; wq := 0 |}; {| wx := 0; wy := -5; wr := 1; wq := 0 |}] dobs s0 0
    elim_la_contract eq_refl) as (fuel & s & Rz & Nd); auto using dobs_free.
  { intros w [<-|[<-|[]]]; reflexivity. }
  { intros x v Hx [<-|[<-|[]]]; cbn; lra. }
  { intros o Ho. unfold usable. split; [|split].
    - apply dobs_in in Ho. destruct Ho as (x & y & -> & H1 & H2). cbn. lra.
    - apply dobs_in in Ho. destruct Ho as (x & y & -> & H1 & H2). cbn. lra.
    - intros w [<-|[<-|[]]]; cbn in Ho |- *; repeat (destruct Ho as [<-|Ho]; [cbn; lra|]); destruct Ho. }
  { intros o Ho. apply dobs_in in Ho. destruct Ho as (x & y & -> & H1 & H2). exists x, y. auto. }
  assert (F1 : Forall2 e_ok [e_one; e_two] [dw; e_well]) by (constructor; [left; auto|constructor; [right; auto|constructor]]).
  assert (F2 : Forall2 e_ok [e_two; e_one] [e_well; dw]) by (constructor; [right; auto|constructor; [left; auto|constructor]]).
  pose proof (e_acceptable 0 _ _ F1 ltac:(cbn; lia)) as A1. pose proof (e_acceptable 1 _ _ F2 ltac:(cbn; lia)) as A2.
  pose proof (e_reads 0 _ _ F1) as R1. pose proof (e_reads 1 _ _ F2) as R2.
  assert (W : wells_reordered (e_call 0 [dw; e_well]) (e_call 1 [e_well; dw])) by (split; [apply perm_swap|]; repeat split).
  assert (Zm : ndiv (nadd (nZ (-1)) (nZ 1)) (nZ 2) = Fin 0) by (cbn; destruct (Reqb_spec 2 0); [lra|]; apply f_equal; field).
  assert (D : call_deterministic fuel elim_la (e_args 0 [e_one; e_two]) (e_call 0 [dw; e_well]) (map fobs dobs) = Ok (s, d_log recharge_deterministic 1 10)).
  { unfold call_deterministic, create_deterministic. cbn [k_target k_wells e_call Z.to_nat nth_error k_spacing dw sx sy sr]. rewrite E0.
    cbn [bind map_res compute_variate_mean sq dw e_well as_num num_of c_dist p_dist t_dist e_args halves quarter k_npaths k_duration k_base k_umbra k_confined k_tol k_maxstep].
    rewrite Zm, halves_mean. cbn [bind].
    match type of Rz with ?L = _ => match goal with |- context [realization ?f ?la ?s ?x ?y ?r ?np ?D ?b ?kv ?nv ?hv ?ws ?vs ?os ?u ?c ?t ?m ?p ?rc] =>
      assert (Q : realization f la s x y r np D b kv nv hv ws vs os u c t m p rc = L) by reflexivity end end.
    rewrite Q, Rz. reflexivity. }
  destruct (c80_deterministic fuel elim_la (e_args 0 [e_one; e_two]) (e_call 0 [dw; e_well]) dobs 2 s (d_log recharge_deterministic 1 10) A1 R1
     ltac:(intros w [<-|[<-|[]]]; split; left; eexists; reflexivity) eq_refl (Z.le_refl 1) e_retained dobs_seven D) as (st & nodes & _ & X).
  pose proof (proj1 (c116_deterministic fuel elim_la (e_args 0 [e_one; e_two]) (e_args 1 [e_two; e_one]) (e_call 0 [dw; e_well]) (e_call 1 [e_well; dw]) (map fobs dobs) _ W
    eq_refl eq_refl eq_refl) D) as D'.
  assert (K' : retained (e_call 1 [e_well; dw]) (map fobs dobs)).
  { unfold retained. etransitivity; [|exact e_retained]. apply c116_filter. apply perm_swap. }
  destruct (c80_deterministic fuel elim_la (e_args 1 [e_two; e_one]) (e_call 1 [e_well; dw]) dobs 2 s (d_log recharge_deterministic 1 10) A2 R2
     ltac:(intros w [<-|[<-|[]]]; split; left; eexists; reflexivity) eq_refl (Z.le_refl 1) K' dobs_seven D') as (st' & nodes' & _ & X').
  exists fuel, s. do 2 eexists. cbn zeta. do 5 (split; [assumption|]). split; [replace 1 with (0 + 1) by ring; exact Nd|].
  split; [intros; split; [apply X|apply X']; reflexivity|]. split; cbn; auto 10.
Qed.

(** Two generators that draw alike: the streams of uniform variates [u 0, u 1, u 2, ...] and [u 1, u 0, u 3, u 2, ...], for two wells with uncertain discharges. *)
Definition stream (u : nat -> R) : rng xr nat :=
  {| draw_uniform := fun i lo hi => (nadd lo (nmul (Fin (u i)) (nsub hi lo)), S i); draw_triangular := fun i a b c => (b, S i) |}.
Definition swapped (u : nat -> R) (i : nat) : R := u (if Nat.even i then S i else pred i).
Definition e_other : swell xr := {| sx := Fin 0; sy := Fin 0; sr := Fin 1; sq := PTuple [PInt 0; PInt 1] |}.

Lemma c116_draws_example : forall u : nat -> R,
  draw_alike (stream u) (stream (swapped u)) (d_args (PInt 2) (PInt 1) quarter dobs) (d_args (PInt 2) (PInt 1) quarter dobs)
    [e_other; e_well] [e_well; e_other] (fun g g' => g = g' /\ Nat.even g = true).
Proof.
  intros u g g' (<- & Ev). unfold drawn. assert (Ev1 : Nat.even (S g) = false) by (rewrite Nat.even_succ, <- Nat.negb_even, Ev; reflexivity).
  set (v0 := PFloat (nadd (nZ 0) (nmul (Fin (u g)) (nsub (nZ 1) (nZ 0)))) : pyval xr). set (v1 := PFloat (nadd (nZ (-1)) (nmul (Fin (u (S g))) (nsub (nZ 1) (nZ (-1))))) : pyval xr).
  exists [(e_other, v0); (e_well, v1)], [(e_well, v1); (e_other, v0)], (PInt 1), quarter, (PInt 1), (S (S g)), (S (S g)).
  split; [|split; [|split; [apply perm_swap|split; [reflexivity|cbn; exact Ev]]]]; exists (S (S g)), (S (S g)), (S (S g)); repeat split.
  assert (Q : forall w, sample_all (stream w) g (map sq [e_well; e_other]) =
    Ok ([PFloat (nadd (nZ (-1)) (nmul (Fin (w g)) (nsub (nZ 1) (nZ (-1))))); PFloat (nadd (nZ 0) (nmul (Fin (w (S g))) (nsub (nZ 1) (nZ 0))))], S (S g))) by reflexivity.
  rewrite Q. unfold swapped. rewrite Ev, Ev1. reflexivity.
Qed.

(** ** C117: the observations in reverse order *)
Lemma dobs_apart : apart dobs.
Proof. unfold apart, dobs. repeat (first [apply FOP_nil|apply Forall_nil|apply FOP_cons|apply Forall_cons]); unfold odist, loc; cbn [dob ox oy fst snd]; apply sqrt_ge1; lra. Qed.

Lemma c117_run_example : exists fuel s events, let a := d_args (PInt 1) halves quarter dobs in let a' := d_args (PInt 1) halves quarter (rev dobs) in
  acceptable a /\ reads a (d_call 1 dobs) /\ acceptable a' /\ reads a' (d_call 1 (rev dobs)) /\ obs_reordered (d_call 1 dobs) (d_call 1 (rev dobs)) /\
  well_posed a (d_call 1 dobs) dobs dobs /\ apart dobs /\ linalg_contract elim_la /\
  forall (G E : Type) (Rg : rng xr G) (mvn : E -> list xr -> list (list xr) -> list xr) entropy g,
    oneka Rg mvn (fun _ => Ok tt) fuel elim_la entropy g a = (events, Ok RNone) /\ In (EArchive (archived a s)) events /\ has_node s 2 0 1 false.
Proof.
  destruct c80_example as (fuel & s & events & A & Nd & X). exists fuel, s, events. cbn zeta. split; [exact A|]. split; [apply d_reads|].
  split; [apply d_acceptable; [exact halves_dist|exact quarter_dist|apply le_n|intros o Ho; apply dobs_os, in_rev, Ho]|]. split; [apply d_reads|].
  split; [split; [cbn [k_obs d_call]; rewrite map_rev; apply Permutation_rev|repeat split]|].
  split; [apply (d_posed 1 halves [1 / 2; 3 / 2] halves_proper); [intros x [<-|[<-|[]]]; lra|lia]|]. split; [exact dobs_apart|]. split; [apply elim_la_contract|].
  intros. destruct (X G E Rg mvn entropy g) as (E1 & _ & E2 & _). auto.
Qed.

(** Seven observations at six places: the second visit to (0, 1) is not listed next to the first. *)
Definition scattered : list (obs R) := [dob 0 1; dob 1 0; dob 0 1; dob 2 0; dob 1 1; dob 0 2; dob 1 2].
Definition gathered : list (obs R) := [dob 0 1; dob 0 1; dob 1 0; dob 2 0; dob 1 1; dob 0 2; dob 1 2].

Lemma scattered_gathered : Permutation scattered gathered.
Proof. apply perm_skip. apply perm_swap. Qed.
Lemma scattered_in o : In o scattered -> exists x y, o = dob x y /\ 0 <= x /\ ~ (x = 0 /\ y = 0).
Proof.
  intros H. cbn in H. destruct H as [<-|[<-|[<-|[<-|[<-|[<-|[<-|[]]]]]]]]; eexists; eexists; (split; [reflexivity|split; [lra|intros []; lra]]).
Qed.
Lemma scattered_free : conic_free scattered.
Proof.
  intros [a b c d e f] H. unfold quad in H. cbn [cA cB cC cD cE cF] in H.
  pose proof (H (dob 0 1) ltac:(cbn; auto 10)) as H1. pose proof (H (dob 1 0) ltac:(cbn; auto 10)) as H2.
  pose proof (H (dob 2 0) ltac:(cbn; auto 10)) as H3. pose proof (H (dob 1 1) ltac:(cbn; auto 10)) as H4.
  pose proof (H (dob 0 2) ltac:(cbn; auto 10)) as H5. pose proof (H (dob 1 2) ltac:(cbn; auto 10)) as H6.
  cbn [ox oy dob] in *. clear H. unfold zero_coef. f_equal; lra.
Qed.
Lemma scattered_retained : retained (d_call 1 scattered) (map fobs scattered).
Proof.
  unfold retained. cbn [k_obs k_wells k_buffer d_call]. change (map (fun w : swell xr => (sx w, sy w)) [dw]) with (map floc [(0, 0)]).
  destruct (filter_R scattered [(0, 0)] (1 / 2)) as (k & Sv & EF). rewrite EF; clear EF.
  assert (k = scattered) as ->.
  { eapply survivors_fun; [exact Sv|]. clear Sv. repeat constructor; intros w [<-|[]]; apply odist_gt; cbn; lra. }
  apply merge_id; [rewrite map_length; apply le_n|]. cbn [map separated scattered]. rewrite !too_close_R. unfold odist, loc. cbn [fst snd dob ox oy].
  repeat split; apply Rltb_false; apply sqrt_ge1; lra.
Qed.
Lemma gathered_retained : exists kept, retained (d_call 1 gathered) kept /\ List.length kept = 6%nat.
Proof.
  unfold retained. cbn [k_obs k_wells k_buffer d_call]. change (map (fun w : swell xr => (sx w, sy w)) [dw]) with (map floc [(0, 0)]).
  destruct (filter_R gathered [(0, 0)] (1 / 2)) as (k & Sv & EF). rewrite EF; clear EF.
  assert (k = gathered) as ->.
  { eapply survivors_fun; [exact Sv|]. clear Sv. repeat constructor; intros w [<-|[]]; apply odist_gt; cbn; lra. }
  set (rest := [dob 1 0; dob 2 0; dob 1 1; dob 0 2; dob 1 2]).
  exists (fobs (merged (dob 0 1) [dob 0 1]) :: map fobs rest). split; [|reflexivity].
  change (merge (List.length gathered) (map fobs gathered)) with (let (g, r) := take_close (N := XR) (fobs (dob 0 1)) (fobs (dob 0 1) :: map fobs rest) in
    let! m := merge_group (fobs (dob 0 1)) g in let! ms := merge 6 r in Ok (m :: ms)).
  assert (T : take_close (N := XR) (fobs (dob 0 1)) (fobs (dob 0 1) :: map fobs rest) = (map fobs [dob 0 1], map fobs rest)).
  { cbn [take_close map rest]. rewrite !too_close_R.
    assert (K : odist (dob 0 1) (loc (dob 0 1)) < 1) by (unfold odist, loc; cbn [dob ox oy fst snd]; rewrite <- sqrt_1 at 5; apply sqrt_lt_1_alt; lra).
    apply Rltb_true in K. rewrite K.
    assert (K' : 1 <= odist (dob 1 0) (loc (dob 0 1))) by (unfold odist, loc; cbn [dob ox oy fst snd]; apply sqrt_ge1; lra).
    apply Rltb_false in K'. rewrite K'. reflexivity. }
  rewrite T, merge_group_R by (right; intros p [<-|[<-|[]]]; cbn; lra). cbn [bind].
  rewrite merge_id; [reflexivity|cbn; lia|]. cbn [map separated rest]. rewrite !too_close_R. unfold odist, loc. cbn [fst snd dob ox oy].
  repeat split; apply Rltb_false; apply sqrt_ge1; lra.
Qed.

(** C117, refuted: the run on one list returns, the run on the other order of the same list ends with an AssertionError. *)
Lemma c117_refuted : exists fuel s, let a := d_args (PInt 1) halves quarter scattered in let a' := d_args (PInt 1) halves quarter gathered in
  acceptable a /\ reads a (d_call 1 scattered) /\ acceptable a' /\ reads a' (d_call 1 gathered) /\ obs_reordered (d_call 1 scattered) (d_call 1 gathered) /\
  has_node s 2 0 1 false /\
  forall (G E : Type) (Rg : rng xr G) (mvn : E -> list xr -> list (list xr) -> list xr) entropy g,
    (exists events, oneka Rg mvn (fun _ => Ok tt) fuel elim_la entropy g a = (events, Ok RNone) /\ In (EArchive (archived a s)) events) /\
    snd (oneka Rg mvn (fun _ => Ok tt) fuel elim_la entropy g a') = Raise AssertionError.
Proof.
  destruct d_init as (s0 & E0 & W0 & I0 & N0).
  destruct (e_realization elim_la [dw] [PInt 0] [{| wx := 0; wy := 0; wr := 1; wq := 0 |}] scattered s0 0 elim_la_contract eq_refl) as (fuel & s & Rz & Nd); auto using scattered_free.
  { intros w [<-|[]]; reflexivity. }
  { intros x v Hx [<-|[]]; cbn; lra. }
  { intros o Ho. apply scattered_in in Ho. destruct Ho as (x & y & -> & H1 & H2). split; [cbn; lra|]. split; [cbn; lra|]. intros w [<-|[]]. exact H2. }
  { intros o Ho. apply scattered_in in Ho. destruct Ho as (x & y & -> & H1 & H2). exists x, y. auto. }
  assert (Os : forall o, In o scattered -> 0 <= os o) by (intros o Ho; apply scattered_in in Ho; destruct Ho as (x & y & -> & _); cbn; lra).
  assert (A1 : acceptable (d_args (PInt 1) halves quarter scattered)) by (apply d_acceptable; [exact halves_dist|exact quarter_dist|apply le_n|exact Os]).
  assert (A2 : acceptable (d_args (PInt 1) halves quarter gathered)).
  { apply d_acceptable; [exact halves_dist|exact quarter_dist|apply le_n|]. intros o Ho. apply Os. eapply Permutation_in; [symmetry; apply scattered_gathered|exact Ho]. }
  assert (D : call_deterministic fuel elim_la (d_args (PInt 1) halves quarter scattered) (d_call 1 scattered) (map fobs scattered) = Ok (s, d_log recharge_deterministic 1 10)).
  { unfold call_deterministic, create_deterministic. cbn [k_target k_wells d_call Z.to_nat nth_error k_spacing dw sx sy sr]. rewrite E0.
    cbn [bind map_res compute_variate_mean sq dw as_num num_of c_dist p_dist t_dist d_args halves quarter k_npaths k_duration k_base k_umbra k_confined k_tol k_maxstep].
    rewrite halves_mean. cbn [bind].
    match type of Rz with ?L = _ => match goal with |- context [realization ?f ?la ?s ?x ?y ?r ?np ?D ?b ?kv ?nv ?hv ?ws ?vs ?os ?u ?c ?t ?m ?p ?rc] =>
      assert (Q : realization f la s x y r np D b kv nv hv ws vs os u c t m p rc = L) by reflexivity end end.
    rewrite Q, Rz. reflexivity. }
  destruct (c80_deterministic fuel elim_la (d_args (PInt 1) halves quarter scattered) (d_call 1 scattered) scattered 2 s (d_log recharge_deterministic 1 10) A1 (d_reads 1 _ _ _) (d_places 1 _)
    eq_refl (Z.le_refl 1) scattered_retained (le_n _) D) as (st & nodes & _ & X).
  exists fuel, s. cbn zeta. split; [exact A1|]. split; [apply d_reads|]. split; [exact A2|]. split; [apply d_reads|].
  split; [split; [apply Permutation_map, scattered_gathered|repeat split]|]. split; [replace 1 with (0 + 1) by ring; exact Nd|].
  intros. split; [eexists; split; [apply X; reflexivity|cbn; auto 10]|].
  destruct gathered_retained as (kept & K & L).
  rewrite (c66_too_few G E Rg mvn (fun _ => Ok tt) fuel elim_la entropy g _ (d_call 1 gathered) kept A2 (d_reads 1 _ _ _) K) by (rewrite L; lia). reflexivity.
Qed.
