(** * Concrete fits *)
From Coq Require Import Reals Lra Lia Psatz Permutation.
From Verif Require Import Py Num NumXR ModelAquifer SpecAquifer ProofPi ProofAquifer ProofHead LinAlg Lstsq SpecFit ProofFit ProofFitSolve ProofFitProps.
Local Open Scope R_scope.
Local Opaque kappa.

(** A confined aquifer with one well, and true coefficients. *)
Definition m_ex : model R :=
  {| base := 0; conductivity := 1; porosity := 1 / 4; thickness := 2;
     wells := [{| wx := 5; wy := 5; wr := 1; wq := 3 |}]; xo := 0; yo := 0; coef := zero_coef |}.
Definition c_ex : coef6 R := {| cA := 1; cB := 2; cC := 3; cD := 4; cE := 5; cF := 10 |}.

(** The observation of the true head at a location. *)
Definition obs_ex (x y : R) : obs R :=
  {| ox := x; oy := y; oz := (potential (with_coef m_ex 1 0 c_ex) x y + 2) / 2; os := 1 / 2 |}.
Definition l_ex : list (obs R) := [obs_ex 0 0; obs_ex 1 0; obs_ex 2 0; obs_ex 0 1; obs_ex 1 1; obs_ex 0 2].

Lemma off_ex x y : x <= 4 -> off_wells (wells m_ex) x y.
Proof. intros H w [<-|[]]. cbn. lra. Qed.

Lemma pot_ex x y : x <= 2 -> 2 <= quad c_ex (x - 1) y -> 2 <= potential (with_coef m_ex 1 0 c_ex) x y.
Proof.
  intros Hx Hq. rewrite potential_with_coef by (apply off_ex; lra). rewrite Rminus_0_r.
  unfold Rsum, wells, m_ex, wpot. cbn [fold_right wq].
  assert (0 <= ln (wdist2 {| wx := 5; wy := 5; wr := 1; wq := 3 |} x y)).
  { rewrite <- ln_1. unfold wdist2. cbn.
    destruct (Req_dec ((x - 5) * (x - 5) + (y - 5) * (y - 5)) 1) as [->|N]; [lra|].
    left. apply ln_increasing; [lra|]. pose proof (Rle_0_sqr (y - 5)) as P. unfold Rsqr in P. nra. }
  pose proof kappa_pos. nra.
Qed.

Lemma l_ex_in o : In o l_ex -> exists x y, o = obs_ex x y /\ x <= 2 /\ 2 <= quad c_ex (x - 1) y.
Proof.
  intros H. cbn in H. unfold quad, c_ex. cbn [cA cB cC cD cE cF].
  destruct H as [<-|[<-|[<-|[<-|[<-|[<-|[]]]]]]]; eexists; eexists; (split; [reflexivity|split; lra]).
Qed.

Lemma l_ex_usable o : In o l_ex -> usable m_ex o.
Proof.
  intros H. apply l_ex_in in H. destruct H as (x & y & -> & Hx & Hq). pose proof (pot_ex x y Hx Hq).
  unfold usable. cbn [base m_ex oz os ox oy obs_ex]. repeat split; [lra|lra|]. apply off_ex. lra.
Qed.

Lemma l_ex_conic_free : conic_free l_ex.
Proof.
  intros [a b c d e f] H. unfold quad in H. cbn [cA cB cC cD cE cF] in H.
  pose proof (H (obs_ex 0 0) ltac:(cbn; auto 10)) as H1. pose proof (H (obs_ex 1 0) ltac:(cbn; auto 10)) as H2.
  pose proof (H (obs_ex 2 0) ltac:(cbn; auto 10)) as H3. pose proof (H (obs_ex 0 1) ltac:(cbn; auto 10)) as H4.
  pose proof (H (obs_ex 1 1) ltac:(cbn; auto 10)) as H5. pose proof (H (obs_ex 0 2) ltac:(cbn; auto 10)) as H6.
  cbn [ox oy obs_ex] in *. clear H. unfold zero_coef. f_equal; lra.
Qed.

(** numpy.linalg's contract is met by elimination; the heads computed with A..F = 1,2,3,4,5,10 about the
    origin (1,0) beside a pumping well give back exactly these coefficients. *)
Lemma c29_recovery_example : linalg_contract elim_la /\ conic_free l_ex /\ (forall o, In o l_ex -> usable m_ex o) /\
  exists C, fit_regional_flow elim_la (fmodel m_ex) (map fobs l_ex) (Fin 1) (Fin 0)
            = (fmodel (with_coef m_ex 1 0 c_ex), Ok ([Fin 1; Fin 2; Fin 3; Fin 4; Fin 5; Fin 10], C)).
Proof.
  split; [apply elim_la_contract|]. split; [apply l_ex_conic_free|]. split; [apply l_ex_usable|].
  destruct (c29_recovers_coefficients elim_la m_ex l_ex 1 0 c_ex) as (C & E); try (cbn; lra).
  - apply elim_la_contract.
  - apply l_ex_usable.
  - apply l_ex_conic_free.
  - intros o Ho. apply l_ex_in in Ho. destruct Ho as (x & y & -> & Hx & Hq). pose proof (pot_ex x y Hx Hq).
    unfold obs_ev. cbn [base thickness conductivity m_ex oz os ox oy obs_ex].
    destruct (Rlt_dec _ _); [lra|]. field.
  - exists C. exact E.
Qed.

(** The documentation says duplicate locations raise LinAlgError; this list holds the same observation twice and
    the fit succeeds, whatever linear-algebra library meets the contract. *)
Lemma c32_duplicates_refuted : exists m l o, In o l /\ (forall p, In p (o :: l) -> usable m p) /\
  0 < conductivity m /\ 0 < thickness m /\
  forall la x0 y0, linalg_contract la ->
    exists r, snd (fit_regional_flow la (fmodel m) (map fobs (o :: l)) (Fin x0) (Fin y0)) = Ok r.
Proof.
  exists m_ex, l_ex, (obs_ex 0 0).
  assert (U : forall p, In p (obs_ex 0 0 :: l_ex) -> usable m_ex p).
  { intros p [<-|Hp]; apply l_ex_usable; [now left|exact Hp]. }
  split; [now left|]. split; [exact U|]. split; [cbn; lra|]. split; [cbn; lra|].
  intros la x0 y0 Hla. apply c31_fit_succeeds_iff; auto; [cbn; lra|cbn; lra|].
  intros c Hc. apply l_ex_conic_free. intros o Ho. apply Hc. now right.
Qed.

(** Seven distinct locations on the unit circle: the fit fails, and the model is unchanged. *)
Definition obs_circle (x y : R) : obs R := {| ox := x; oy := y; oz := 10 + x; os := 1 |}.
Definition l_circle : list (obs R) :=
  [obs_circle 1 0; obs_circle 0 1; obs_circle (-1) 0; obs_circle 0 (-1);
   obs_circle (3 / 5) (4 / 5); obs_circle (4 / 5) (3 / 5); obs_circle (- (3 / 5)) (4 / 5)].

Lemma c31_circle_example : forall la, linalg_contract la ->
  fit_regional_flow la (fmodel m_ex) (map fobs l_circle) (Fin 0) (Fin 0) = (fmodel m_ex, Raise LinAlgError).
Proof.
  intros la Hla.
  assert (U : forall o, In o l_circle -> usable m_ex o).
  { intros o Ho. cbn in Ho. unfold usable. destruct Ho as [<-|[<-|[<-|[<-|[<-|[<-|[<-|[]]]]]]]]; cbn [base m_ex oz os ox oy obs_circle];
    (split; [lra|split; [lra|apply off_ex; lra]]). }
  destruct (fit_result la m_ex l_circle 0 0 Hla) as [(Hc & _)|(_ & E)]; [cbn; lra|cbn; lra|exact U| |exact E].
  exfalso. specialize (Hc {| cA := 1; cB := 1; cC := 0; cD := 0; cE := 0; cF := -1 |}).
  assert (Z : {| cA := 1; cB := 1; cC := 0; cD := 0; cE := 0; cF := -1 |} = zero_coef).
  { apply Hc. intros o Ho. cbn in Ho. unfold quad. cbn [cA cB cC cD cE cF].
    destruct Ho as [<-|[<-|[<-|[<-|[<-|[<-|[<-|[]]]]]]]]; cbn [ox oy obs_circle]; field. }
  injection Z. lra.
Qed.

(** One observation at the base. *)
Lemma c27_range_example :
  construct_fit (fmodel m_ex) (map fobs [obs_ex 0 0; {| ox := 1; oy := 1; oz := 0; os := 1 |}]) (Fin 0) (Fin 0) = Raise RangeError.
Proof.
  apply c27_construct_fit_range; [cbn; lra|left; discriminate|].
  exists {| ox := 1; oy := 1; oz := 0; os := 1 |}. cbn. split; [auto|lra].
Qed.

(** An unconfined observation: head 4, deviation 1/2, at (1,2): potential 65/8 with deviation 2. *)
Lemma c28_row_example :
  construct_fit (fmodel {| base := 0; conductivity := 1; porosity := 1 / 4; thickness := 10; wells := []; xo := 0; yo := 0; coef := zero_coef |})
    [fobs {| ox := 1; oy := 2; oz := 4; os := 1 / 2 |}] (Fin 0) (Fin 0)
  = Ok ([[Fin (1 / 2); Fin 2; Fin 1; Fin (1 / 2); Fin 1; Fin (1 / 2)]], [Fin (65 / 16)]).
Proof.
  set (m := {| base := 0; conductivity := 1; porosity := 1 / 4; thickness := 10; wells := []; xo := 0; yo := 0; coef := zero_coef |}).
  set (o := {| ox := 1; oy := 2; oz := 4; os := 1 / 2 |}).
  assert (S : obs_sd m o = 2). { unfold obs_sd. cbn. rewrite Rmin_left by lra. lra. }
  assert (E : obs_ev m o = 65 / 8). { unfold obs_ev. cbn. destruct (Rlt_dec _ _); lra. }
  change [fobs o] with (map fobs [o]). rewrite construct_fit_eq.
  - unfold row, rowf, rhs. cbn [map seq monomial]. rewrite S, E. cbn [ox oy o wells m Rsum fold_right].
    repeat match goal with |- Fin _ = Fin _ => apply (f_equal Fin) | |- @eq R _ _ => lra | |- _ => f_equal end.
  - cbn. lra.
  - cbn. lra.
  - intros p [<-|[]]. repeat split; cbn; try lra. intros w [].
Qed.
