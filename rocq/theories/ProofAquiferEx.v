(** * Concrete cases for the groundwater-model theorems *)
From Coq Require Import Reals Lra Lia Psatz.
From Verif Require Import Py Num NumXR ModelAquifer SpecAquifer ProofPi ProofAquifer ProofHead.
Local Open Scope R_scope.
Local Opaque kappa.

(** K = 2, n = 1/2, H = 1; one well of discharge 4 at the origin; potential x^2 + f plus the
    well's.  At (1, 0) the logarithm vanishes. *)
Definition m0 (f : R) : model R :=
  {| base := 0; conductivity := 2; porosity := 1/2; thickness := 1;
     wells := [{| wx := 0; wy := 0; wr := 1; wq := 4 |}]; xo := 0; yo := 0;
     coef := {| cA := 1; cB := 0; cC := 0; cD := 0; cE := 0; cF := f |} |}.

Lemma m0_physical f : physical (m0 f).
Proof. unfold physical, m0. cbn. lra. Qed.
Lemma m0_off f : off_wells (wells (m0 f)) 1 0.
Proof. intros w [<-|[]]. cbn. lra. Qed.

Lemma c20_potential_example : forall f,
  off_wells (wells (m0 f)) 1 0 /\ compute_potential (fmodel (m0 f)) (Fin 1) (Fin 0) = Fin (1 + f) /\
  compute_potential (fmodel (m0 f)) (Fin 0) (Fin 0) = NInf.
Proof.
  intros f. split; [apply m0_off|]. split.
  - rewrite compute_potential_eq by apply m0_off. cbn. unfold wpot, wdist2, quad. cbn.
    replace ((1 - 0) * (1 - 0) + (0 - 0) * (0 - 0)) with 1 by ring. rewrite ln_1. apply (f_equal Fin). ring.
  - pose proof (c20_at_the_well (m0 f) _ eq_refl) as H. cbn [wx wy wq] in H. rewrite H. destruct (Rlt_dec 0 4); [reflexivity|lra].
Qed.

(** The discharge is -2 from the regional part and -4/(2 pi) from the well. *)
Lemma c21_discharge_example : forall f, exists e, Rabs e <= 8 / 10 ^ 17 /\
  compute_discharge (fmodel (m0 f)) (Fin 1) (Fin 0) = (Fin (- 2 - 2 / PI + e), Fin 0).
Proof.
  intros f. exists (4 * (/ (2 * PI) - 2 * kappa)). split.
  - rewrite Rabs_mult, (Rabs_pos_eq 4), Rabs_minus_sym by lra. pose proof kappa_2pi. lra.
  - rewrite compute_discharge_eq by apply m0_off. cbn. unfold wqx, wqy, wdist2. cbn.
    replace ((1 - 0) * (1 - 0) + (0 - 0) * (0 - 0)) with 1 by ring. pose proof PI_RGT_0.
    apply f_equal2; apply (f_equal Fin); field; lra.
Qed.

Lemma m0_pot f : compute_potential (fmodel (m0 f)) (Fin 1) (Fin 0) = Fin (1 + f).
Proof. destruct (c20_potential_example f) as (_ & H & _). exact H. Qed.

(** Dry, unconfined, at the switch, confined. *)
Lemma c24_head_example :
  compute_head (fmodel (m0 (-1))) (Fin 1) (Fin 0) = Raise AquiferError /\
  compute_head (fmodel (m0 (-3/4))) (Fin 1) (Fin 0) = Ok (Fin (1/2)) /\
  compute_head (fmodel (m0 0)) (Fin 1) (Fin 0) = Ok (Fin 1) /\
  compute_head (fmodel (m0 1)) (Fin 1) (Fin 0) = Ok (Fin (3/2)).
Proof.
  assert (P : forall f h, 0 < h -> girinskii 2 1 h = 1 + f -> 0 < 1 + f ->
            compute_head (fmodel (m0 f)) (Fin 1) (Fin 0) = Ok (Fin h)).
  { intros f h Hh Hg Hp. destruct (c24_head_inverts_potential (m0 f) 1 0 _ (m0_physical f) (m0_pot f)) as [_ H].
    destruct (H Hp) as (h' & E & _ & _ & U). rewrite (U h Hh Hg). exact E. }
  split; [|split; [|split]].
  - destruct (c24_head_inverts_potential (m0 (-1)) 1 0 _ (m0_physical _) (m0_pot _)) as [[_ H] _]. apply H. lra.
  - apply P; [lra| |lra]. unfold girinskii. destruct (Rlt_dec _ _); lra.
  - apply P; [lra| |lra]. unfold girinskii. destruct (Rlt_dec _ _); lra.
  - apply P; [lra| |lra]. unfold girinskii. destruct (Rlt_dec _ _); lra.
Qed.

(** Unconfined with saturated thickness 1/2: the velocity is twice the shortcut's. *)
Lemma c26_shortcut_example : exists qx, qx < -2 /\
  compute_velocity_confined (fmodel (m0 (-3/4))) (Fin 1) (Fin 0) = (Fin (2 * qx), Fin 0) /\
  compute_velocity (fmodel (m0 (-3/4))) (Fin 1) (Fin 0) = Ok (Fin (4 * qx), Fin 0) /\
  compute_velocity (fmodel (m0 1)) (Fin 1) (Fin 0) = Ok (Fin (2 * qx), Fin 0).
Proof.
  set (qx := - 2 - 8 * kappa). exists qx.
  assert (Q : forall f, compute_discharge (fmodel (m0 f)) (Fin 1) (Fin 0) = (Fin qx, Fin 0)).
  { intros f. rewrite compute_discharge_eq by apply m0_off. unfold qx. cbn. unfold wqx, wqy, wdist2. cbn.
    replace ((1 - 0) * (1 - 0) + (0 - 0) * (0 - 0)) with 1 by ring. apply f_equal2; apply (f_equal Fin); field. }
  destruct c24_head_example as (_ & E1 & _ & E2).
  split; [unfold qx; pose proof kappa_pos; lra|]. split; [|split].
  - unfold compute_velocity_confined. rewrite Q. cbn [thickness porosity fmodel m0 nmul ndiv XR xmul].
    rewrite !div_fin by lra. apply f_equal2; apply (f_equal Fin); field.
  - destruct (c25_velocity _ 1 0 _ _ _ (m0_physical (-3/4)) (m0_off _) (m0_pot _) (Q _)) as [_ H].
    destruct (H ltac:(lra)) as (h & Eh & _ & ->). rewrite E1 in Eh. injection Eh as <-. cbn [thickness porosity m0].
    rewrite Rmin_left by lra. f_equal. apply f_equal2; apply (f_equal Fin); field.
  - destruct (c25_velocity _ 1 0 _ _ _ (m0_physical 1) (m0_off _) (m0_pot _) (Q _)) as [_ H].
    destruct (H ltac:(lra)) as (h & Eh & _ & ->). rewrite E2 in Eh. injection Eh as <-. cbn [thickness porosity m0].
    rewrite Rmin_right by lra. f_equal. apply f_equal2; apply (f_equal Fin); field.
Qed.
