(** * Concrete runs for property C83 *)
From Coq Require Import Reals Lra Lia.
From Verif Require Import Py Num NumXR ModelField ModelAquifer ModelTrace ModelObs ModelDist ModelDriver ModelMain.
From Verif Require Import SpecAquifer SpecFit SpecTrace SpecDriver SpecDist SpecMain Lstsq ProofFit ProofFitProps ProofFitEx ProofDriver ProofDriverEx ProofMain ProofMainEx ProofPosed.
From Verif Require Import SpecField SpecWhole ProofWhole.
Import ListNotations.
Local Open Scope R_scope.

Lemma proper_number v x : number v (Fin x) -> proper v [x].
Proof. intros H. split; [apply ent_scalar, H|]. intros (l & ->). inversion H. Qed.

Lemma d_posed n cd qc : proper cd qc -> (forall x, In x qc -> 0 < x) -> ((1 < n)%Z -> spread qc) ->
  well_posed (d_args (PInt n) cd quarter dobs) (d_call n dobs) dobs dobs.
Proof.
  intros Pc Hc Sc. constructor.
  - intros w [<-|[]]. cbn [dw sx sy sr sq]. do 3 (split; [eexists; reflexivity|]). exists [0]. apply proper_number, num_int.
  - exists qc. auto.
  - exists [1 / 4]. apply proper_number, num_float.
  - exists [1]. split; [apply proper_number, num_int|]. intros x [<-|[]]. lra.
  - intros Hn v q Hv Hq. assert (E : forall x, number v (Fin x) -> spread q) by (intros x N; rewrite (proper_fun v q [x] Hq (proper_number _ _ N)); exact I).
    cbn [c_dist p_dist t_dist d_args k_wells d_call map dw sq In] in Hv. destruct Hv as [<-|[<-|[<-|[<-|[]]]]].
    + rewrite (proper_fun _ q qc Hq Pc). auto.
    + eapply E. apply num_float.
    + eapply E. apply num_int.
    + eapply E. apply num_int.
  - eexists. reflexivity.
  - eexists. reflexivity.
  - eexists. reflexivity.
  - exists 0. split; [reflexivity|]. intros o Ho. apply dobs_in in Ho. destruct Ho as (x & y & -> & Hx). cbn. lra.
  - reflexivity.
  - apply d_retained.
  - apply dobs_seven.
  - exact dobs_free.
Qed.

Lemma d_porosity n cd q x : proper (p_dist (d_args n cd quarter dobs)) q -> In x q -> 0 < x.
Proof.
  intros Hq Hx. cbn [p_dist d_args] in Hq. rewrite (proper_fun _ q [1 / 4] Hq (proper_number quarter (1 / 4) (num_float _))) in Hx.
  destruct Hx as [<-|[]]. lra.
Qed.

Lemma halves_proper : proper halves [1 / 2; 3 / 2].
Proof. split; [apply ent_pair; [left; reflexivity|apply num_float|apply num_float]|]. intros (l & H). discriminate H. Qed.

(** A well-posed deterministic run that returns, with a captured node. *)
Lemma c83_deterministic_example : exists fuel s lg, let a := d_args (PInt 1) halves quarter dobs in
  acceptable a /\ reads a (d_call 1 dobs) /\ well_posed a (d_call 1 dobs) dobs dobs /\ (forall q x, proper (p_dist a) q -> In x q -> 0 < x) /\
  linalg_contract elim_la /\ call_deterministic fuel elim_la a (d_call 1 dobs) (map fobs dobs) = Ok (s, lg) /\ has_node s 2 0 1 false.
Proof.
  destruct c59_example as (fuel & s & W & Nd & D). exists fuel, s. eexists. cbn zeta.
  split; [apply d_acceptable; [exact halves_dist|exact quarter_dist|exact dobs_seven|exact dobs_os]|]. split; [apply d_reads|].
  split; [apply (d_posed 1 halves [1 / 2; 3 / 2] halves_proper); [intros x [<-|[<-|[]]]; lra|lia]|]. split; [apply d_porosity|].
  split; [apply elim_la_contract|]. split; [exact D|exact Nd].
Qed.

(** A well-posed run of two realizations that returns, with a node captured twice; the regional flow drawn is always the
    uniform flow with D = 1. *)
Lemma c83_stochastic_example : exists fuel s, let a := d_args (PInt 2) (PInt 1) quarter dobs in
  let mvn := fun (e : coef6 R) (_ : list xr) (_ : list (list xr)) => coef_list (fcoef e) in
  acceptable a /\ reads a (d_call 2 dobs) /\ well_posed a (d_call 2 dobs) dobs dobs /\ (forall q x, proper (p_dist a) q -> In x q -> 0 < x) /\
  linalg_contract elim_la /\ (forall e v C, exists d, mvn e (coef_list (fcoef v)) C = coef_list (fcoef d)) /\
  has_node s 2 0 2 false /\
  forall (G : Type) (Rg : rng xr G) (g : G), exists logs,
    call_stochastic Rg mvn fuel elim_la (fun _ => {| cA := 0; cB := 0; cC := 0; cD := 1; cE := 0; cF := 0 |}) g a (d_call 2 dobs) (map fobs dobs) = Ok (s, logs).
Proof.
  assert (D : draws (fun (e : coef6 R) _ _ => coef_list (fcoef e)) elim_la (fun _ => {| cA := 0; cB := 0; cC := 0; cD := 1; cE := 0; cF := 0 |}) 1) by (intros i C _; reflexivity).
  destruct (d_two _ elim_la _ 1 elim_la_contract ltac:(lra) D) as (n & s & R1 & W1 & A1 & _).
  exists n, s. cbn zeta.
  split; [apply d_acceptable; [exact one_dist|exact quarter_dist|exact dobs_seven|exact dobs_os]|]. split; [apply d_reads|].
  split; [apply (d_posed 2 (PInt 1) [1]); [apply proper_number, num_int|intros x [<-|[]]; lra|intros _; exact I]|]. split; [apply d_porosity|].
  split; [apply elim_la_contract|]. split; [intros e v C; exists e; reflexivity|]. split; [apply A1; lra|].
  intros G Rg g. eexists. apply R1. lia.
Qed.
