(** * A concrete run in two coordinate systems (C115) *)
From Coq Require Import Reals Lra Lia List ZArith String.
From Verif Require Import Py Num NumXR ModelField ModelAquifer ModelTrace ModelObs ModelDist ModelDriver ModelMain.
From Verif Require Import SpecAquifer SpecFit SpecTrace SpecDriver SpecDist SpecMain Lstsq ProofFit ProofFitProps ProofFitEx ProofDriver ProofDriverEx ProofMain ProofMainEx ProofPosed.
From Verif Require Import SpecWhole ProofWhole ProofWholeEx SpecShift ProofShift SpecField.
Import ListNotations.
Local Open Scope R_scope.

(** The inputs of ProofMainEx in a system whose origin is 500 000 to the west and 4 900 000 to the south, with the datum 300 lower. *)
Definition far_obs (o : obs R) : obs R := {| ox := ox o + 500000; oy := oy o + 4900000; oz := oz o + 300; os := os o |}.
Definition far_args (n cd pd : pyval xr) : args xr :=
  {| projectname := PStr "demo"; runtime := PStr "now"; target := PInt 0; npaths := PInt 1; duration := PFloat (Fin (1 / 10)); nrealizations := n;
     base_ := PFloat (Fin (0 + 300)); c_dist := cd; p_dist := pd; t_dist := PInt 1;
     stochastic_wells := PList [PTuple [PFloat (Fin (0 + 500000)); PFloat (Fin (0 + 4900000)); PInt 1; PInt 0]]; observations := PList (map pobs (map far_obs dobs));
     buffer := PFloat (Fin (1 / 2)); spacing := PInt 2; umbra := PInt 1; smooth := PInt 1; confined := PBool true; tol := PInt 1; maxstep := PInt 10 |}.

Lemma far_reads n cd pd : reads (far_args (PInt n) cd pd) (moved_call 500000 4900000 300 (d_call n dobs)).
Proof.
  unfold reads, far_args, d_call, moved_call. cbn [target npaths duration nrealizations base_ stochastic_wells observations buffer spacing umbra confined tol maxstep k_target k_npaths k_duration k_n k_base k_wells k_obs k_buffer k_spacing k_umbra k_confined k_tol k_maxstep].
  repeat split; try constructor.
  - eexists. split; [reflexivity|]. constructor; [|constructor]. do 3 eexists. split; [left; reflexivity|]. repeat split; constructor.
  - eexists. split; [reflexivity|]. generalize dobs. intros l. induction l as [|o l IH]; cbn [map]; constructor; [|exact IH]. do 4 eexists. split; [left; reflexivity|]. repeat split; constructor.
Qed.
Lemma far_acceptable n cd pd : distribution cd (Fin 0) PInf -> distribution pd (Fin 0) (Fin 1) -> acceptable (far_args n cd pd).
Proof.
  intros Hc Hp. split.
  - unfold required_ok, far_args. cbn [projectname runtime target npaths duration nrealizations base_ c_dist p_dist t_dist stochastic_wells observations].
    repeat split; try (eexists; reflexivity); auto.
    + eexists. split; [reflexivity|]. split.
      * constructor; [|constructor]. do 4 eexists. split; [left; reflexivity|].
        split; [eexists; apply num_float|]. split; [eexists; apply num_float|]. split; [apply positive_int; reflexivity|].
        apply (scalar_dist _ (Fin 0)); [apply num_int|exact I|exact I].
      * exists 0%Z. split; [constructor|]. cbn. lia.
    + exists 1%Z. split; [constructor|lia].
    + eexists. split; [constructor|]. intros [= H]. lra.
    + eexists. constructor.
    + eapply scalar_dist; [apply num_int|cbn; lra|exact I].
    + eexists. split; [reflexivity|]. rewrite !map_length. split; [exact dobs_seven|]. apply Forall_forall. intros v Hv. rewrite map_map in Hv. apply in_map_iff in Hv. destruct Hv as (o & <- & Hv).
      do 4 eexists. split; [left; reflexivity|]. do 3 (split; [eexists; apply num_float|]). eexists. split; [apply num_float|]. cbn. apply dobs_os, Hv.
  - unfold optional_ok, far_args. cbn [buffer spacing umbra smooth confined tol maxstep].
    repeat split; try (apply positive_int; reflexivity); [apply positive_float; lra|eexists; reflexivity].
Qed.

(** The node (2, 0), reached by both realizations, is the node (500002, 4900000) of the run in the other system. *)
Lemma c115_run_example : exists fuel s, let a := d_args (PInt 2) (PInt 1) quarter dobs in let a' := far_args (PInt 2) (PInt 1) quarter in
  let mvn := fun (e : coef6 R) (_ : list xr) (_ : list (list xr)) => coef_list (fcoef e) in
  acceptable a /\ reads a (d_call 2 dobs) /\ acceptable a' /\ reads a' (moved_call 500000 4900000 300 (d_call 2 dobs)) /\
  c_dist a' = c_dist a /\ p_dist a' = p_dist a /\ t_dist a' = t_dist a /\ movable 300 (k_obs (d_call 2 dobs)) /\
  has_node s 2 0 2 false /\ has_node (moved_field 500000 4900000 s) 500002 4900000 2 false /\
  forall (G : Type) (Rg : rng xr G) (g : G), exists logs,
    let entropy := fun _ : nat => {| cA := 0; cB := 0; cC := 0; cD := 1; cE := 0; cF := 0 |} in
    call_stochastic Rg mvn fuel elim_la entropy g a (d_call 2 dobs) (map fobs dobs) = Ok (s, logs) /\
    call_stochastic Rg mvn fuel elim_la entropy g a' (moved_call 500000 4900000 300 (d_call 2 dobs)) (map (moved_obs 500000 4900000 300) (map fobs dobs)) =
      Ok (moved_field 500000 4900000 s, logs).
Proof.
  destruct c83_stochastic_example as (fuel & s & Ha & Hr & Hw & Hp & Hl & Hm & Hn & Hc). exists fuel, s. cbv zeta in *.
  split; [exact Ha|]. split; [exact Hr|]. split; [apply far_acceptable; [exact one_dist|exact quarter_dist]|]. split; [apply far_reads|].
  do 3 (split; [reflexivity|]). split.
  { right. exists dobs. split; [reflexivity|]. intros o Ho. apply dobs_in in Ho. destruct Ho as (x & y & -> & _). cbn. lra. }
  split; [exact Hn|]. split.
  { replace 500002 with (2 + 500000) by lra. replace 4900000 with (0 + 4900000) at 2 by lra. apply c115_nodes. exact Hn. }
  intros G Rg g. destruct (Hc G Rg g) as (logs & E). exists logs. split; [exact E|].
  pose proof (c115_stochastic _ _ Rg (fun (e : coef6 R) (_ : list xr) (_ : list (list xr)) => coef_list (fcoef e)) fuel elim_la
    (fun _ : nat => {| cA := 0; cB := 0; cC := 0; cD := 1; cE := 0; cF := 0 |}) g (d_args (PInt 2) (PInt 1) quarter dobs) (d_call 2 dobs) (map fobs dobs) 500000 4900000 300) as Q.
  rewrite E in Q. exact Q.
Qed.
