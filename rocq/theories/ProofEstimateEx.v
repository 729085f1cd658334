(** * A run whose map is an estimate: concrete case for properties C112 to C114 *)
From Coq Require Import Reals Lra Lia.
From Verif Require Import Py Num NumXR ModelField ModelAquifer ModelTrace ModelObs ModelDist ModelDriver ModelMain.
From Verif Require Import SpecAquifer SpecFit SpecTrace SpecDriver SpecDist SpecMain Lstsq ProofFit ProofFitProps ProofFitEx ProofDriver ProofDriverEx ProofMain ProofMainEx ProofPosed ProofWholeEx.
From Verif Require Import ProofExactMap ProofMonteCarlo ProofEstimate ProofEstimateProps.
From Verif Require Import SpecField SpecWhole SpecDraws SpecExactMap SpecMonteCarlo.
Import ListNotations.
Local Open Scope R_scope.

(** Regional flow or none, each as likely. *)
Definition pick_any (e : coef6 R) (_ : list xr) (_ : list (list xr)) : list xr := coef_list (fcoef e).
Definition m_args : args xr := d_args (PInt 2) (PInt 1) quarter dobs.
Definition m_outcomes : list (list R * coef6 R) := outcomes m_args (d_call 2 dobs) [0] [dc 1 0; dc 0 0].

Lemma m_outcomes_eq : m_outcomes = [([], dc 1 0); ([], dc 0 0)].
Proof. reflexivity. Qed.

Lemma m_set_out : set_out (d_call 2 dobs) dw 0 0 2 1.
Proof. unfold set_out. cbn. do 3 (split; [reflexivity|]). split; [eexists; reflexivity|]. split; [reflexivity|]. split; [lra|]. split; [reflexivity|]. split; [lra|lia]. Qed.

Definition flows (d : R) : Prop := d = 1 \/ d = 0.
Lemma m_two d1 d2 : flows d1 -> flows d2 ->
  exists n s logs, (forall fuel, (n <= fuel)%nat -> run_with pick_any fuel elim_la m_args (d_call 2 dobs) (map fobs dobs) (dc 0 0) [([], dc d1 0); ([], dc d2 0)] = Ok (s, logs)) /\
    has_node s 2 0 (d1 + d2) false.
Proof.
  intros F1 F2. destruct d_init as (s0 & E0 & W0 & I0 & N0).
  assert (B1 : 0 <= d1 <= 2) by (destruct F1; lra). assert (B2 : 0 <= d2 <= 2) by (destruct F2; lra).
  destruct (d_realization elim_la (pick_any (dc d1 0)) recharge_stochastic d1 0 s0 0 elim_la_contract B1 (fun _ _ => eq_refl) W0 I0 N0) as (n1 & s1 & R1 & W1 & I1 & A1 & Z1).
  assert (H1 : has_node s1 2 0 d1 false). { destruct F1 as [->| ->]; [replace 1 with (0 + 1) by ring; apply A1; lra|apply Z1; reflexivity]. }
  destruct (d_realization elim_la (pick_any (dc d2 0)) recharge_stochastic d2 0 s1 d1 elim_la_contract B2 (fun _ _ => eq_refl) W1 I1 H1) as (n2 & s2 & R2 & W2 & I2 & A2 & Z2).
  exists (Nat.max n1 n2), s2. eexists. split.
  - intros fuel Hf. unfold run_with, call_stochastic, create_stochastic, m_args.
    cbn [d_args d_call k_target k_npaths k_duration k_n k_base k_wells k_spacing k_umbra k_confined k_tol k_maxstep c_dist p_dist t_dist map fst snd concat app].
    change (Z.to_nat 0) with 0%nat. cbn [nth_error dw sx sy sr]. rewrite E0. cbn [bind]. change (Z.to_nat 2) with 2%nat.
    cbn [realizations map sq dw sample_all generate_random_variate bind nth quarter].
    specialize (R1 fuel ltac:(lia)). unfold d_run in R1. change (PFloat (Fin (1 / 4))) with (quarter) in R1. change [{| sx := Fin 0; sy := Fin 0; sr := Fin 1; sq := PInt 0 |}] with [dw]. rewrite R1. cbn [bind].
    specialize (R2 fuel ltac:(lia)). unfold d_run in R2. change (PFloat (Fin (1 / 4))) with (quarter) in R2. rewrite R2. reflexivity.
  - destruct F2 as [->| ->]; [apply A2; lra|]. rewrite Rplus_0_r. apply Z2. reflexivity.
Qed.

(** C112.  Two realizations, the first with regional flow, the second without: the node (2, 0) counts the first only. *)
Lemma c112_example : exists fuel s logs, set_out (d_call 2 dobs) dw 0 0 2 1 /\
  run_with pick_any fuel elim_la m_args (d_call 2 dobs) (map fobs dobs) (dc 0 0) [([], dc 1 0); ([], dc 0 0)] = Ok (s, logs) /\
  has_node s 2 0 1 false /\
  exists zones, length zones = 2%nat /\ exactly_recorded s 0 0 2 1 zones.
Proof.
  destruct (m_two 1 0 (or_introl eq_refl) (or_intror eq_refl)) as (n & s & logs & H & N). exists n, s, logs. split; [exact m_set_out|]. split; [apply H; lia|].
  split; [rewrite Rplus_0_r in N; exact N|].
  destruct (c112_stochastic _ _ _ _ _ _ _ _ _ _ _ _ _ _ _ _ _ _ m_set_out (H n (le_n _))) as (zones & L & _ & _ & X). exists zones. auto.
Qed.

(** C113, C114.  Over the four equally likely runs the estimate for (2, 0) is 1, 1/2, 1/2 and 0; its mean is the probability, 1/2, that a realization reaches that point. *)
Lemma c113_example : exists fuel est,
  set_out (d_call 2 dobs) dw 0 0 2 1 /\
  let p := (0 + IZR 1 * 2, 0 + IZR 0 * 2) in
  estimator pick_any fuel elim_la m_args (d_call 2 dobs) (map fobs dobs) (dc 0 0) m_outcomes 2 p est /\
  map est (tuples m_outcomes 2) = [1; 1 / 2; 1 / 2; 0] /\
  mean (tuples m_outcomes 2) est = 1 / 2 /\
  share m_outcomes (zone_with pick_any fuel elim_la m_args (d_call 2 dobs) (map fobs dobs) dw (reaches 1 p)) (1 / 2).
Proof.
  destruct (m_two 1 1 (or_introl eq_refl) (or_introl eq_refl)) as (n1 & s1 & l1 & H1 & N1). destruct (m_two 1 0 (or_introl eq_refl) (or_intror eq_refl)) as (n2 & s2 & l2 & H2 & N2).
  destruct (m_two 0 1 (or_intror eq_refl) (or_introl eq_refl)) as (n3 & s3 & l3 & H3 & N3). destruct (m_two 0 0 (or_intror eq_refl) (or_intror eq_refl)) as (n4 & s4 & l4 & H4 & N4).
  set (fuel := (n1 + n2 + n3 + n4)%nat). specialize (H1 fuel ltac:(unfold fuel; lia)). specialize (H2 fuel ltac:(unfold fuel; lia)). specialize (H3 fuel ltac:(unfold fuel; lia)). specialize (H4 fuel ltac:(unfold fuel; lia)).
  set (est := fun o : list (list R * coef6 R) => total_of o (fun q => cD (snd q)) / 2). exists fuel, est. split; [exact m_set_out|]. intros p.
  assert (Ep : fst p = 2 /\ snd p = 0) by (unfold p; cbn; split; lra). destruct Ep as [Ep1 Ep2].
  assert (T : estimator pick_any fuel elim_la m_args (d_call 2 dobs) (map fobs dobs) (dc 0 0) m_outcomes 2 p est).
  { intros o Io. rewrite m_outcomes_eq in Io. cbn in Io. unfold estimates, weight_at. rewrite Ep1, Ep2.
    destruct Io as [<-|[<-|[<-|[<-|[]]]]]; do 2 eexists; (split; [eassumption|]); eexists; (split; [left; eexists; eassumption|]); unfold est, total_of; cbn; lra. }
  assert (M : map est (tuples m_outcomes 2) = [1; 1 / 2; 1 / 2; 0]).
  { rewrite m_outcomes_eq. unfold est, total_of. cbn. repeat f_equal; lra. }
  assert (Q : mean (tuples m_outcomes 2) est = 1 / 2).
  { rewrite m_outcomes_eq. unfold mean, est, total_of. cbn. lra. }
  split; [exact T|]. split; [exact M|]. split; [exact Q|].
  destruct (share_exists m_outcomes (zone_with pick_any fuel elim_la m_args (d_call 2 dobs) (map fobs dobs) dw (reaches 1 p))) as (q & Sq).
  pose proof (c113_centre _ pick_any fuel elim_la m_args (d_call 2 dobs) (map fobs dobs) (dc 0 0) dw 0 0 2 1 1 0 [0] [dc 1 0; dc 0 0] est q m_set_out ltac:(cbn; lia) ltac:(discriminate) ltac:(discriminate) T ltac:(lia) ltac:(lia) Sq) as Eq.
  change (mean (tuples m_outcomes 2) est = q) in Eq. rewrite <- Q, Eq. exact Sq.
Qed.
