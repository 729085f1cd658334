(** * A concrete run of the drivers *)
From Coq Require Import Reals Lra Lia Psatz.
From Verif Require Import Py Num NumXR ModelField ModelAquifer ModelTrace ModelDist ModelDriver SpecField SpecAquifer SpecFit SpecTrace SpecDriver.
From Verif Require Import ProofFieldProps ProofFieldHist ProofInsert ProofOps ProofPi ProofAquifer Lstsq ProofFit ProofFitProps ProofTrace ProofTraceLoop ProofTraceFlow ProofTraceEx ProofFuel ProofDriver.
Local Open Scope R_scope.
Local Opaque kappa.

(** ** A trace along the x axis for a tenth of a time unit, from (2, 0) *)
Lemma line_step f v h : 0 <= v -> 0 <= h -> (forall x, 2 <= x -> f (fvec (x, 0)) = Ok (fvec (v, 0))) ->
  dp_step f (fvec (2, 0)) (Fin h) (fvec (v, 0)) = Ok (fvec (2 + h * v, 0), fvec (v, 0), Fin 0, Fin (h * v)).
Proof.
  intros Hv Hh Hf. set (k := (v, 0) : pt).
  pose proof (dp_step_finite f (2, 0) h k k k k k k k) as F. cbv zeta in F.
  assert (C : forall c, 0 <= fst c -> snd c = 0 -> f (fvec (padd (2, 0) (pscale h c))) = Ok (fvec k)).
  { intros c Hc Hs. unfold padd, pscale. cbn [fst snd]. rewrite Hs, Rmult_0_r, Rplus_0_r. apply Hf. nra. }
  rewrite F; clear F.
  - assert (E1 : lincomb dp_b [k; k; k; k; k; k; k] = k) by (unfold k, lincomb, dp_b, padd, pscale; cbn; f_equal; field).
    assert (E2 : lincomb dp_bhat [k; k; k; k; k; k; k] = k) by (unfold k, lincomb, dp_bhat, padd, pscale; cbn; f_equal; field).
    rewrite E1, E2. unfold k, padd, pscale, pmax, pdist. cbn [fst snd].
    replace (h * v + - h * v) with 0 by ring. replace (h * 0 + - h * 0) with 0 by ring.
    replace (2 + h * v - 2) with (h * v) by ring. replace (0 + h * 0 - 0) with 0 by ring. rewrite Rabs_R0, Rmax_left by lra.
    replace (h * v * (h * v) + 0 * 0) with (h * v * (h * v)) by ring. rewrite sqrt_square by nra.
    unfold fvec. cbn [fst snd]. rewrite Rmult_0_r, Rplus_0_l. reflexivity.
  - apply Hf. lra.
  - apply C; unfold k, lincomb, padd, pscale; cbn; lra.
  - apply C; unfold k, lincomb, padd, pscale; cbn; lra.
  - apply C; unfold k, lincomb, padd, pscale; cbn; lra.
  - apply C; unfold k, lincomb, padd, pscale; cbn; lra.
  - apply C; unfold k, lincomb, padd, pscale; cbn; lra.
  - apply C; unfold k, dp_b, lincomb, padd, pscale; cbn; lra.
Qed.

Lemma line_trace f v fuel : (2 <= fuel)%nat -> 0 <= v < 10 -> (forall x, 2 <= x -> f (fvec (x, 0)) = Ok (fvec (v, 0))) ->
  compute_backtrace fuel (Fin 2) (Fin 0) (Fin (1 / 10)) (Fin 1) (Fin 10) f
  = Ok {| vertices := map fvec [(2, 0); (2 + 1 / 10 * v, 0)]; t_end := Fin (1 / 10); completed := true |}.
Proof.
  intros Hfuel Hv Hf. destruct fuel as [|[|fuel]]; [lia|lia|]. unfold compute_backtrace. rewrite sign_one by lra.
  pose proof (Hf 2 ltac:(lra)) as K. unfold fvec at 1 in K. cbn [fst snd] in K. rewrite K. cbn [trace_loop].
  change (@nZ xr XR 0) with (Fin 0). rewrite (proj2 (nabs_lt 0 (1 / 10))) by (rewrite Rabs_R0, Rabs_pos_eq; lra).
  assert (C1 : nlt (nabs (Fin (1 / 10))) (nabs (nadd (Fin 0) (Fin (1 / 10)))) = false) by (cbn; apply Rltb_false; rewrite !Rabs_pos_eq by lra; lra).
  rewrite C1. pose proof (line_step f v (1 / 10) ltac:(lra) ltac:(lra) Hf) as S1. unfold fvec at 1 in S1. cbn [fst snd] in S1. rewrite S1. clear S1.
  assert (A : nlt (Fin 0) (Fin 1) && nlt (Fin (1 / 10 * v)) (Fin 10) = true) by (cbn; apply andb_true_intro; split; apply Rltb_true; lra).
  rewrite A. cbn [nadd XR xadd nZ]. rewrite Rplus_0_l.
  destruct (nlt (nabs (Fin (1 / 10))) (nabs (Fin (1 / 10)))) eqn:C2; [|reflexivity].
  apply nabs_lt in C2. lra.
Qed.

(** ** The model: one idle well at the origin, regional flow along the x axis *)
Definition dw : swell xr := {| sx := Fin 0; sy := Fin 0; sr := Fin 1; sq := PInt 0 |}.
Definition dc (d f : R) : coef6 R := {| cA := 0; cB := 0; cC := 0; cD := d; cE := 0; cF := f |}.
Definition dm : model R :=
  {| base := 0; conductivity := 1; porosity := 1 / 4; thickness := 1;
     wells := [{| wx := 0; wy := 0; wr := 1; wq := 0 |}]; xo := 0; yo := 0; coef := zero_coef |}.
(** The heads of the flow with D = 1, F = 10 at seven places. *)
Definition dob (x y : R) : obs R := {| ox := x; oy := y; oz := x + 21 / 2; os := 1 |}.
Definition dobs : list (obs R) := [dob 0 1; dob 1 0; dob 2 0; dob 1 1; dob 0 2; dob 1 2; dob 3 3].

Lemma dm_new : fmodel dm = new_model (Fin 0) (Fin 1) (Fin (1 / 4)) (Fin 1) [{| wx := Fin 0; wy := Fin 0; wr := Fin 1; wq := Fin 0 |}].
Proof. reflexivity. Qed.

Lemma dobs_in o : In o dobs -> exists x y, o = dob x y /\ 0 <= x /\ ~ (x = 0 /\ y = 0).
Proof.
  intros H. cbn in H. destruct H as [<-|[<-|[<-|[<-|[<-|[<-|[<-|[]]]]]]]]; eexists; eexists; (split; [reflexivity|split; [lra|intros []; lra]]).
Qed.
Lemma dobs_usable o : In o dobs -> usable dm o.
Proof.
  intros H. apply dobs_in in H. destruct H as (x & y & -> & H1 & H2). unfold usable. cbn [base dm oz os ox oy dob].
  split; [lra|]. split; [lra|]. intros w [<-|[]]. exact H2.
Qed.
Lemma dobs_free : conic_free dobs.
Proof.
  intros [a b c d e f] H. unfold quad in H. cbn [cA cB cC cD cE cF] in H.
  pose proof (H (dob 0 1) ltac:(cbn; auto 10)) as H1. pose proof (H (dob 1 0) ltac:(cbn; auto 10)) as H2.
  pose proof (H (dob 2 0) ltac:(cbn; auto 10)) as H3. pose proof (H (dob 1 1) ltac:(cbn; auto 10)) as H4.
  pose proof (H (dob 0 2) ltac:(cbn; auto 10)) as H5. pose proof (H (dob 1 2) ltac:(cbn; auto 10)) as H6.
  pose proof (H (dob 3 3) ltac:(cbn; auto 10)) as H7.
  cbn [ox oy dob] in *. clear H. unfold zero_coef. f_equal; lra.
Qed.

(** The fit finds D = 1, F = 10. *)
Lemma d_fit la : linalg_contract la -> exists C,
  fit_regional_flow la (fmodel dm) (map fobs dobs) (Fin 0) (Fin 0)
  = (fmodel (with_coef dm 0 0 (dc 1 10)), Ok (coef_list (fcoef (dc 1 10)), C)).
Proof.
  intros Hla. apply c29_recovers_coefficients; [exact Hla|cbn; lra|cbn; lra|exact dobs_usable|exact dobs_free|].
  intros o Ho. pose proof (dobs_usable o Ho) as (_ & _ & Off). apply dobs_in in Ho. destruct Ho as (x & y & -> & H1 & H2).
  rewrite potential_with_coef by exact Off. unfold obs_ev. cbn [base dm oz os ox oy dob thickness conductivity].
  destruct (Rlt_dec _ _); [lra|]. unfold Rsum, wells, dm, wpot, quad, dc. cbn [fold_right wq cA cB cC cD cE cF]. field.
Qed.

(** The velocity off the origin is (4 d, 0). *)
Lemma d_velocity d f x : 2 <= x -> feval true (fmodel (with_coef dm 0 0 (dc d f))) (fvec (x, 0)) = Ok (fvec (4 * d, 0)).
Proof.
  intros Hx. unfold feval, compute_velocity_confined, fvec. cbn [fst snd].
  rewrite compute_discharge_eq by (intros w [<-|[]]; cbn; lra).
  cbn [thickness porosity fmodel with_coef dm nmul ndiv nopp XR xmul coef xo yo wells Rsum fold_right dc cA cB cC cD cE cF].
  rewrite !div_fin by lra. cbn [xopp]. unfold wqx, wqy. cbn [wq]. apply f_equal, f_equal2; apply (f_equal Fin); field.
  all: unfold wdist2; cbn; nra.
Qed.

Lemma ring_two : ring_point 0 0 1 1 0 = (2, 0).
Proof. unfold ring_point. cbn [INR]. replace (2 * PI * 0 / 1) with 0 by field. rewrite cos_0, sin_0. f_equal; ring. Qed.

Definition d_log (recharge : coef6 xr -> xr) (d f : R) : run_log xr :=
  {| l_conductivity := Fin 1; l_porosity := Fin (1 / 4); l_thickness := Fin 1; l_recharge := recharge (fcoef (dc d f)); l_coef := fcoef (dc d f) |}.

(** The realization of the drivers on this model, when the coefficients D = d, F = f are picked. *)
Definition d_run (la : linalg xr) (pick : list xr -> list (list xr) -> list xr) (recharge : coef6 xr -> xr) (fuel : nat) (s : pfield xr) :=
  realization fuel la s (Fin 0) (Fin 0) (Fin 1) 1 (Fin (1 / 10)) (Fin 0) (PInt 1) (PFloat (Fin (1 / 4))) (PInt 1) [dw] [PInt 0] (map fobs dobs)
              (Fin 1) true (Fin 1) (Fin 10) pick recharge.

Lemma d_realization la pick recharge d f s w :
  linalg_contract la -> 0 <= d <= 2 ->
  (forall C, snd (fit_regional_flow la (fmodel dm) (map fobs dobs) (Fin 0) (Fin 0)) = Ok (coef_list (fcoef (dc 1 10)), C) ->
     pick (coef_list (fcoef (dc 1 10))) C = coef_list (fcoef (dc d f))) ->
  wf s -> initialised s -> has_node s 2 0 w false ->
  exists n s', (forall fuel, (n <= fuel)%nat -> d_run la pick recharge fuel s = (s', Ok (d_log recharge d f))) /\
    wf s' /\ initialised s' /\ (0 < d -> has_node s' 2 0 (w + 1) false) /\ (d = 0 -> has_node s' 2 0 w false).
Proof.
  intros Hla Hd Hp Hwf Hin Hnode.
  set (tr := [(2, 0); (2 + 1 / 10 * (4 * d), 0)] : list point).
  destruct (c11_rasterize_returns s tr 1 Hwf ltac:(discriminate) ltac:(lra)) as (n & Hn).
  set (n2 := Nat.max 2 n). destruct (Hn n2 ltac:(lia)) as (s1 & E1 & W1 & I1).
  destruct (c14_register_exact s1 1 W1 I1) as (s2 & E2 & W2 & N2 & _).
  assert (R : forall fuel, (n2 <= fuel)%nat -> d_run la pick recharge fuel s = (s2, Ok (d_log recharge d f))).
  { intros fuel Hf. unfold d_run, realization. cbn [make_wells as_num num_of bind sx sy sr dw]. cbn [nZ XR].
    change (new_model (Fin 0) (Fin 1) (Fin (1 / 4)) (Fin 1) [{| wx := Fin 0; wy := Fin 0; wr := Fin 1; wq := Fin 0 |}]) with (fmodel dm).
    destruct (d_fit la Hla) as (C & EC). specialize (Hp C ltac:(rewrite EC; reflexivity)). rewrite EC. cbn [bind]. rewrite Hp. cbn [reshape6 coef_list bind].
    change (set_coef (fmodel (with_coef dm 0 0 (dc 1 10))) _) with (fmodel (with_coef dm 0 0 (dc d f))).
    assert (B : compute_backtrace fuel (Fin (fst (ring_point 0 0 1 1 0))) (Fin (snd (ring_point 0 0 1 1 0))) (Fin (1 / 10)) (Fin 1) (Fin 10) (feval true (fmodel (with_coef dm 0 0 (dc d f))))
      = Ok {| vertices := map fvec tr; t_end := Fin (1 / 10); completed := true |}).
    { rewrite ring_two. apply line_trace; [lia|lra|]. intros x Hx. apply d_velocity. exact Hx. }
    pose proof (c46_paths fuel 0 0 1 1 (Fin (1 / 10)) (Fin 1) (Fin 1) (Fin 1) (Fin 10) s (feval true (fmodel (with_coef dm 0 0 (dc d f))))
                  [{| vertices := map fvec tr; t_end := Fin (1 / 10); completed := true |}] ltac:(lia)) as P.
    change (Z.of_nat 1) with 1%Z in P. rewrite P by (constructor; [exact B|constructor]). clear P.
    cbn [map app calls run_op vertices]. 
    pose proof (rasterize_stable s (xs tr) (ys tr) (Fin 1) n2 fuel Hf) as S. cbv beta in S. rewrite E1 in S. specialize (S ltac:(discriminate)).
    match goal with |- context [rasterize fuel s ?a ?b (Fin 1)] => change a with (xs tr); change b with (ys tr) end. rewrite S.
    cbn [nZ XR]. rewrite E2. reflexivity. }
  exists n2, s2. split; [exact R|]. split; [exact W2|].
  destruct (c11_rasterize_exact n2 s tr 1 s1 Hwf Hin ltac:(lra) E1) as (_ & _ & X1 & X2 & _).
  destruct (X1 2 0 w false Hnode) as (m' & Hm'). destruct (X2 2 0 w m' Hm') as (_ & _ & X3).
  assert (NM : ~ marked s 2 0). { intros (w' & H'). destruct (has_node_fun s 2 0 w false w' true Hwf Hnode H') as [_ C]. discriminate C. }
  assert (H2 : has_node s2 2 0 (if m' then w + 1 else w) false). { apply N2. split; [reflexivity|]. exists w, m'. auto. }
  split; [destruct H2 as (g & _ & _ & _ & _ & _ & _ & Eb & _); unfold initialised; congruence|].
  split; intros D.
  - assert (m' = true) as ->; [|exact H2]. apply X3. right. exists (2, 0), (2 + 1 / 10 * (4 * d), 0). split; [exists 0%nat; split; reflexivity|].
    split; [intros C; injection C; lra|]. exists (2, 0). split; [exists 0; split; [lra|cbn; f_equal; ring]|]. unfold dist2. cbn. lra.
  - destruct m'; [exfalso|exact H2]. destruct (proj1 X3 eq_refl) as [M|(p & q & (k & K1 & K2) & Npq & _)]; [exact (NM M)|].
    destruct k as [|[|k]]; cbn in K1, K2; try discriminate K2. injection K1 as <-. injection K2 as <-. apply Npq. f_equal. rewrite D. ring.
Qed.

(** The same inputs given to the drivers. *)
Definition d_field (w : R) (s : pfield xr) : Prop := wf s /\ initialised s /\ has_node s 2 0 w false.

Lemma d_init : exists s, pf_init (Fin 2) (Fin 2) (Fin 0) (Fin 0) = Ok s /\ d_field 0 s.
Proof.
  destruct (c01_constructor_centred 2 2 0 0 ltac:(lra) ltac:(lra)) as (s & E & W & I & _ & _ & H). exists s. split; [exact E|].
  split; [exact W|]. split; [exact I|]. apply H. repeat split; [right; right; lra|right; left; reflexivity].
Qed.

Definition d_stochastic {G E} (R : rng xr G) (mvn : E -> list xr -> list (list xr) -> list xr) la e g n fuel :=
  create_stochastic R mvn fuel la e g 0 1 (Fin (1 / 10)) n (Fin 0) (PInt 1) (PFloat (Fin (1 / 4))) (PInt 1) [dw] (map fobs dobs) (Fin 2) (Fin 1) true (Fin 1) (Fin 10).

(** Entropy for which the sampled coefficients are D = d, F = 0. *)
Definition draws {E} (mvn : E -> list xr -> list (list xr) -> list xr) la (e : nat -> E) (d : R) : Prop :=
  forall i C, snd (fit_regional_flow la (fmodel dm) (map fobs dobs) (Fin 0) (Fin 0)) = Ok (coef_list (fcoef (dc 1 10)), C) ->
    mvn (e i) (coef_list (fcoef (dc 1 10))) C = coef_list (fcoef (dc d 0)).

Lemma d_two {E} (mvn : E -> list xr -> list (list xr) -> list xr) la e d : linalg_contract la -> 0 <= d <= 2 -> draws mvn la e d ->
  exists n s, (forall fuel G (R : rng xr G) g, (n <= fuel)%nat ->
      d_stochastic R mvn la e g 2 fuel = Ok (s, [d_log recharge_stochastic d 0; d_log recharge_stochastic d 0])) /\
    wf s /\ (0 < d -> has_node s 2 0 2 false) /\ (d = 0 -> has_node s 2 0 0 false).
Proof.
  intros Hla Hd He. destruct d_init as (s0 & E0 & W0 & I0 & N0).
  destruct (d_realization la (mvn (e 0%nat)) recharge_stochastic d 0 s0 0 Hla Hd (He 0%nat) W0 I0 N0) as (n1 & s1 & R1 & W1 & I1 & A1 & B1).
  assert (H1 : exists w1, has_node s1 2 0 w1 false /\ (0 < d -> w1 = 1) /\ (d = 0 -> w1 = 0)).
  { destruct (Rle_lt_or_eq_dec 0 d (proj1 Hd)) as [L|<-].
    - exists 1. split; [replace 1 with (0 + 1) by ring; auto|]. split; [reflexivity|lra].
    - exists 0. split; [auto|]. split; [lra|reflexivity]. }
  destruct H1 as (w1 & N1 & P1 & Z1).
  destruct (d_realization la (mvn (e 1%nat)) recharge_stochastic d 0 s1 w1 Hla Hd (He 1%nat) W1 I1 N1) as (n2 & s2 & R2 & W2 & I2 & A2 & B2).
  exists (Nat.max n1 n2), s2. split.
  - intros fuel G R g Hf. unfold d_stochastic, create_stochastic. cbn [nth_error dw sx sy sr].
    rewrite E0. cbn [bind]. change (Z.to_nat 2) with 2%nat. cbn [realizations map sq dw sample_all generate_random_variate bind].
    specialize (R1 fuel ltac:(lia)). unfold d_run in R1. change [{| sx := Fin 0; sy := Fin 0; sr := Fin 1; sq := PInt 0 |}] with [dw]. rewrite R1. cbn [bind].
    specialize (R2 fuel ltac:(lia)). unfold d_run in R2. rewrite R2. reflexivity.
  - split; [exact W2|]. split; intros D.
    + pose proof (A2 D) as Q. rewrite (P1 D) in Q. replace (1 + 1) with 2 in Q by ring. exact Q.
    + pose proof (B2 D) as Q. rewrite (Z1 D) in Q. exact Q.
Qed.

(** C61, refuted.  One set of inputs, all distributions constant.  Whatever the state of numpy's global
    generator, and for every generator of the regional coefficients that can produce any six numbers,
    two states of the operating system's entropy give different results: two realizations capture (2, 0) in one
    run, none in the other. *)
Lemma c61_refuted : forall (E : Type) (mvn : E -> list xr -> list (list xr) -> list xr) (la : linalg xr),
  linalg_contract la -> any_outcome mvn ->
  exists (e1 e2 : nat -> E) (fuel : nat) (s1 s2 : pfield xr) logs1 logs2,
    wf s1 /\ wf s2 /\ has_node s1 2 0 2 false /\ has_node s2 2 0 0 false /\
    forall (G : Type) (R : rng xr G) (g : G),
      d_stochastic R mvn la e1 g 2 fuel = Ok (s1, logs1) /\ d_stochastic R mvn la e2 g 2 fuel = Ok (s2, logs2).
Proof.
  intros E mvn la Hla Hm. destruct (d_fit la Hla) as (C & EC).
  assert (D : forall d, exists e, draws mvn la (fun _ => e) d).
  { intros d. destruct (Hm (coef_list (fcoef (dc 1 10))) C [0; 0; 0; d; 0; 0] eq_refl) as (e & He). exists e.
    intros i C' EC'. rewrite EC in EC'. cbn [snd] in EC'. injection EC' as <-. exact He. }
  destruct (D 1) as (e1 & D1), (D 0) as (e2 & D2).
  destruct (d_two mvn la _ 1 Hla ltac:(lra) D1) as (n1 & s1 & R1 & W1 & A1 & _).
  destruct (d_two mvn la _ 0 Hla ltac:(lra) D2) as (n2 & s2 & R2 & W2 & _ & B2).
  exists (fun _ => e1), (fun _ => e2), (Nat.max n1 n2), s1, s2. do 2 eexists.
  split; [exact W1|]. split; [exact W2|]. split; [apply A1; lra|]. split; [apply B2; reflexivity|].
  intros G R g. split; [apply R1; lia|apply R2; lia].
Qed.

(** Elimination as linear algebra, and the outcome itself as entropy. *)
Lemma c61_example : linalg_contract elim_la /\ any_outcome (fun (e : list xr) _ _ => e).
Proof. split; [apply elim_la_contract|]. intros mean cov v _. exists (map Fin v). reflexivity. Qed.

(** C60: two realizations that capture (2, 0). *)
Lemma c60_example : exists fuel s, wf s /\ has_node s 2 0 2 false /\ forall (G : Type) (R : rng xr G) (g : G),
  exists logs, d_stochastic R (fun (e : list xr) _ _ => e) elim_la (fun _ => map Fin [0; 0; 0; 1; 0; 0]) g 2 fuel = Ok (s, logs).
Proof.
  assert (D : draws (fun (e : list xr) _ _ => e) elim_la (fun _ => map Fin [0; 0; 0; 1; 0; 0]) 1) by (intros i C _; reflexivity).
  destruct (d_two _ elim_la _ 1 elim_la_contract ltac:(lra) D) as (n & s & R1 & W1 & A1 & _).
  exists n, s. split; [exact W1|]. split; [apply A1; lra|]. intros G R g. eexists. apply R1. lia.
Qed.

(** C59: the deterministic run on the same inputs finds the flow D = 1, F = 10 and captures (2, 0). *)
Lemma c59_example : exists fuel s, wf s /\ has_node s 2 0 1 false /\
  create_deterministic fuel elim_la 0 1 (Fin (1 / 10)) (Fin 0) (PTuple [PFloat (Fin (1 / 2)); PFloat (Fin (3 / 2))]) (PFloat (Fin (1 / 4))) (PInt 1) [dw] (map fobs dobs)
                       (Fin 2) (Fin 1) true (Fin 1) (Fin 10)
  = Ok (s, {| l_conductivity := Fin 1; l_porosity := Fin (1 / 4); l_thickness := Fin 1; l_recharge := Fin 0;
              l_coef := fcoef {| cA := 0; cB := 0; cC := 0; cD := 1; cE := 0; cF := 10 |} |}).
Proof.
  destruct d_init as (s0 & E0 & W0 & I0 & N0).
  destruct (d_realization elim_la (fun ev _ => ev) recharge_deterministic 1 10 s0 0 elim_la_contract ltac:(lra) ltac:(reflexivity) W0 I0 N0) as (n1 & s1 & R1 & W1 & I1 & A1 & B1).
  exists n1, s1. split; [exact W1|]. split; [replace 1 with (0 + 1) by ring; apply A1; lra|].
  unfold create_deterministic. cbn [nth_error]. cbn [dw sx sy sr]. rewrite E0. cbn [bind map_res compute_variate_mean sq dw as_num num_of].
  assert (EK : ndiv (nadd (Fin (1 / 2)) (Fin (3 / 2))) (nZ 2) = Fin 1) by (cbn; destruct (Reqb_spec 2 0); [lra|]; apply f_equal; field). rewrite EK.
  specialize (R1 n1 (le_n _)). unfold d_run, realization in *. cbn [as_num num_of bind nZ XR] in *.
  rewrite R1. cbn [bind]. unfold d_log, recharge_deterministic, fcoef, dc. cbn [cA cB cC cD cE cF nmul nadd nZ XR xmul xadd].
  apply f_equal, f_equal. f_equal. apply (f_equal Fin). ring.
Qed.

(** C77: a budget that suffices, and what a larger one gives. *)
Lemma c77_example : exists n, forall (G : Type) (R : rng xr G) (g : G),
  let run := d_stochastic R (fun (e : list xr) _ _ => e) elim_la (fun _ => map Fin [0; 0; 0; 1; 0; 0]) g 2 in
  run n <> NoFuel /\ forall m, (n <= m)%nat -> run m = run n.
Proof.
  assert (D : draws (fun (e : list xr) _ _ => e) elim_la (fun _ => map Fin [0; 0; 0; 1; 0; 0]) 1) by (intros i C _; reflexivity).
  destruct (d_two _ elim_la _ 1 elim_la_contract ltac:(lra) D) as (n & s & R1 & _). exists n. intros G R g run. unfold run.
  split; [rewrite R1 by lia; discriminate|]. intros m L. rewrite !R1 by lia. reflexivity.
Qed.
