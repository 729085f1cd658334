(** * Cases for C22 and C23 *)
From Coq Require Import Reals Lra List.
From Verif Require Import Py Num NumXR ModelAquifer SpecAquifer ProofAquifer ProofHead ProofAquiferEx.
Import ListNotations.
Local Open Scope R_scope.

(** C22: one well and recharge; at (1, 0) the divergence of the discharge is -2. *)
Lemma c22_example : forall f, off_wells (wells (m0 f)) 1 0 /\
  exists qxx qxy qyx qyy, d_dx (discharge_x (m0 f)) 1 0 qxx /\ d_dy (discharge_x (m0 f)) 1 0 qxy /\
    d_dx (discharge_y (m0 f)) 1 0 qyx /\ d_dy (discharge_y (m0 f)) 1 0 qyy /\ qxx + qyy = -2 /\ qxy = qyx.
Proof.
  intros f. split; [apply m0_off|]. destruct (c22_divergence (m0 f) 1 0 (m0_off f)) as (a & b & c & d & A & B & C & D & E & G).
  exists a, b, c, d. split; [exact A|]. split; [exact B|]. split; [exact C|]. split; [exact D|]. split; [|exact G].
  rewrite E. cbn [coef m0 cA cB]. ring.
Qed.

(** C23: a well of discharge 10 at the origin, at the point (3, 4): the inflow is 10 / (2 pi 5) within 10^-16. *)
Definition lone : model R :=
  {| base := 0; conductivity := 2; thickness := 1; porosity := 1 / 2; wells := [{| wx := 0; wy := 0; wr := 1; wq := 10 |}]; xo := 0; yo := 0; coef := zero_coef |}.
Lemma c23_example : exists qx qy, compute_discharge (fmodel lone) (Fin 3) (Fin 4) = (Fin qx, Fin qy) /\
  qx < 0 /\ 3 * qy = 4 * qx /\ Rabs (- (3 * qx + 4 * qy) * (2 * PI) - 10) <= 130 / 10 ^ 17.
Proof.
  destruct c23_radial_inflow as (k & Hk & H).
  destruct (H lone _ 5 (3 / 5) (4 / 5) eq_refl eq_refl ltac:(lra) ltac:(field)) as (qx & qy & E & R & T & A). cbn [wx wy wq] in E, R, A.
  replace (0 + 5 * (3 / 5)) with 3 in E by field. replace (0 + 5 * (4 / 5)) with 4 in E by field.
  exists qx, qy. split; [exact E|]. assert (T' : 3 * qy = 4 * qx) by lra. split; [|split; [exact T'|]].
  - assert (0 < k). { pose proof (Rle_abs (- (k - / (2 * PI)))) as L. rewrite Rabs_Ropp in L. pose proof PI_RGT_0. pose proof PI_4. assert (/ 8 <= / (2 * PI)) by (apply Rinv_le_contravar; lra). lra. }
    assert (qx * (5 / 3) = - (k * 10 / 5)) by lra. lra.
  - rewrite (Rabs_pos_eq 10) in A by lra. replace (- (3 * qx + 4 * qy) * (2 * PI)) with (2 * PI * 5 * - (qx * (3 / 5) + qy * (4 / 5))) by field. lra.
Qed.
