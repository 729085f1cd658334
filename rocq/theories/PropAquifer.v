(** * Potential, discharge, head and velocity: properties C20-C26

    Written by tools/genprops.py: statements only, each closed by the lemma of the
    same name in ProofAquifer.v, ProofHead.v, ProofAquiferEx.v, ProofWellEx.v. *)
From Coq Require Import Reals Permutation.
From Verif Require Import Py Num ModelAquifer SpecAquifer ProofAquifer ProofHead ProofAquiferEx ProofWellEx.
Local Open Scope R_scope.

(** ** C20 Potential is the superposition of regional flow and wells *)

Theorem C20_superposition : exists k, Rabs (k - / (4 * PI)) <= / 10 ^ 17 /\
  forall m x y, off_wells (wells m) x y ->
    compute_potential (fmodel m) (Fin x) (Fin y)
    = Fin (quad (coef m) (x - xo m) (y - yo m)
           + Rsum (fun w => k * wq w * ln ((x - wx w) ^ 2 + (y - wy w) ^ 2)) (wells m)).
Proof. exact c20_superposition. Qed.
Print Assumptions C20_superposition.

(** Adding wells adds their potential: that of a model with those wells and no regional flow. *)
Theorem C20_additive : forall m ws ws' x y,
  off_wells (ws ++ ws') x y ->
  compute_potential (fmodel (with_wells m (ws ++ ws'))) (Fin x) (Fin y)
  = nadd (compute_potential (fmodel (with_wells m ws)) (Fin x) (Fin y))
         (compute_potential (fmodel (with_coef (with_wells m ws') 0 0 zero_coef)) (Fin x) (Fin y)).
Proof. exact c20_additive. Qed.
Print Assumptions C20_additive.

Theorem C20_order_of_wells : forall m ws x y,
  off_wells (wells m) x y -> Permutation (wells m) ws ->
  compute_potential (fmodel (with_wells m ws)) (Fin x) (Fin y)
  = compute_potential (fmodel m) (Fin x) (Fin y).
Proof. exact c20_order_of_wells. Qed.
Print Assumptions C20_order_of_wells.

Theorem C20_coincident_wells : forall m ws u v w x y,
  off_wells (u :: v :: ws) x y -> wx v = wx u -> wy v = wy u ->
  wx w = wx u -> wy w = wy u -> wq w = wq u + wq v ->
  compute_potential (fmodel (with_wells m (u :: v :: ws))) (Fin x) (Fin y)
  = compute_potential (fmodel (with_wells m (w :: ws))) (Fin x) (Fin y).
Proof. exact c20_coincident_wells. Qed.
Print Assumptions C20_coincident_wells.

(** On the axis of a single well the potential is the logarithm's limit. *)
Theorem C20_at_the_well : forall m w,
  wells m = [w] ->
  compute_potential (fmodel m) (Fin (wx w)) (Fin (wy w))
  = (if Rlt_dec 0 (wq w) then NInf else if Rlt_dec (wq w) 0 then PInf else NaN).
Proof. exact c20_at_the_well. Qed.
Print Assumptions C20_at_the_well.

Example C20_potential_example : forall f,
  off_wells (wells (m0 f)) 1 0 /\ compute_potential (fmodel (m0 f)) (Fin 1) (Fin 0) = Fin (1 + f) /\
  compute_potential (fmodel (m0 f)) (Fin 0) (Fin 0) = NInf.
Proof. exact c20_potential_example. Qed.

(** ** C21 Discharge is minus the gradient of the potential *)

(** At a point off the wells everything computed is an ordinary number and the discharge is
    minus the gradient of the computed potential. *)
Theorem C21_discharge_is_minus_gradient : forall m x y,
  off_wells (wells m) x y ->
  exists p qx qy,
    compute_potential (fmodel m) (Fin x) (Fin y) = Fin p /\
    compute_discharge (fmodel m) (Fin x) (Fin y) = (Fin qx, Fin qy) /\
    d_dx (potential m) x y (- qx) /\ d_dy (potential m) x y (- qy).
Proof. exact c21_discharge_is_minus_gradient. Qed.
Print Assumptions C21_discharge_is_minus_gradient.

(** The discharge is -2 from the regional part and -4/(2 pi) from the well. *)
Example C21_discharge_example : forall f, exists e, Rabs e <= 8 / 10 ^ 17 /\
  compute_discharge (fmodel (m0 f)) (Fin 1) (Fin 0) = (Fin (- 2 - 2 / PI + e), Fin 0).
Proof. exact c21_discharge_example. Qed.

(** ** C22 Flow is divergence-free up to constant recharge *)

Theorem C22_divergence : forall m x y,
  off_wells (wells m) x y ->
  exists qxx qxy qyx qyy,
    d_dx (discharge_x m) x y qxx /\ d_dy (discharge_x m) x y qxy /\
    d_dx (discharge_y m) x y qyx /\ d_dy (discharge_y m) x y qyy /\
    qxx + qyy = - (2 * (cA (coef m) + cB (coef m))) /\ qxy = qyx.
Proof. exact c22_divergence. Qed.
Print Assumptions C22_divergence.

(** C22: one well and recharge; at (1, 0) the divergence of the discharge is -2. *)
Example C22_example : forall f, off_wells (wells (m0 f)) 1 0 /\
  exists qxx qxy qyx qyy, d_dx (discharge_x (m0 f)) 1 0 qxx /\ d_dy (discharge_x (m0 f)) 1 0 qxy /\
    d_dx (discharge_y (m0 f)) 1 0 qyx /\ d_dy (discharge_y (m0 f)) 1 0 qyy /\ qxx + qyy = -2 /\ qxy = qyx.
Proof. exact c22_example. Qed.

(** ** C23 Each well extracts its own discharge *)

Theorem C23_radial_inflow : exists k, Rabs (k - / (2 * PI)) <= 2 * / 10 ^ 17 /\
  forall m w r c s,
    wells m = [w] -> coef m = zero_coef -> 0 < r -> c * c + s * s = 1 ->
    exists qx qy,
      compute_discharge (fmodel m) (Fin (wx w + r * c)) (Fin (wy w + r * s)) = (Fin qx, Fin qy) /\
      - (qx * c + qy * s) = k * wq w / r /\
      qy * c - qx * s = 0 /\
      Rabs (2 * PI * r * - (qx * c + qy * s) - wq w) <= 13 / 10 ^ 17 * Rabs (wq w).
Proof. exact c23_radial_inflow. Qed.
Print Assumptions C23_radial_inflow.

Example C23_example : exists qx qy, compute_discharge (fmodel lone) (Fin 3) (Fin 4) = (Fin qx, Fin qy) /\
  qx < 0 /\ 3 * qy = 4 * qx /\ Rabs (- (3 * qx + 4 * qy) * (2 * PI) - 10) <= 130 / 10 ^ 17.
Proof. exact c23_example. Qed.

(** ** C24 compute_head inverts the discharge-potential relation *)

Theorem C24_head_inverts_potential : forall m x y p,
  physical m -> compute_potential (fmodel m) (Fin x) (Fin y) = Fin p ->
  (compute_head (fmodel m) (Fin x) (Fin y) = Raise AquiferError <-> p <= 0) /\
  (0 < p -> exists h, compute_head (fmodel m) (Fin x) (Fin y) = Ok (Fin h) /\ 0 < h /\
     girinskii (conductivity m) (thickness m) h = p /\
     forall h', 0 < h' -> girinskii (conductivity m) (thickness m) h' = p -> h' = h).
Proof. exact c24_head_inverts_potential. Qed.
Print Assumptions C24_head_inverts_potential.

Theorem C24_head_increasing : forall K H p q,
  0 < K -> 0 < H -> 0 < p -> p < q -> head_at K H p < head_at K H q.
Proof. exact c24_head_increasing. Qed.
Print Assumptions C24_head_increasing.

Theorem C24_head_continuous : forall K H p,
  0 < K -> 0 < H -> 0 < p -> continuity_pt (head_at K H) p.
Proof. exact c24_head_continuous. Qed.
Print Assumptions C24_head_continuous.

(** Dry, unconfined, at the switch, confined. *)
Example C24_head_example : compute_head (fmodel (m0 (-1))) (Fin 1) (Fin 0) = Raise AquiferError /\
  compute_head (fmodel (m0 (-3/4))) (Fin 1) (Fin 0) = Ok (Fin (1/2)) /\
  compute_head (fmodel (m0 0)) (Fin 1) (Fin 0) = Ok (Fin 1) /\
  compute_head (fmodel (m0 1)) (Fin 1) (Fin 0) = Ok (Fin (3/2)).
Proof. exact c24_head_example. Qed.

(** ** C25 Velocity is discharge over porosity times saturated thickness *)

(** Velocity = discharge / (porosity * saturated thickness). *)
Theorem C25_velocity : forall m x y p qx qy,
  physical m -> off_wells (wells m) x y ->
  compute_potential (fmodel m) (Fin x) (Fin y) = Fin p ->
  compute_discharge (fmodel m) (Fin x) (Fin y) = (Fin qx, Fin qy) ->
  (p <= 0 -> compute_velocity (fmodel m) (Fin x) (Fin y) = Raise AquiferError) /\
  (0 < p -> exists h, compute_head (fmodel m) (Fin x) (Fin y) = Ok (Fin h) /\ 0 < h /\
     compute_velocity (fmodel m) (Fin x) (Fin y)
     = Ok (Fin (qx / (porosity m * Rmin h (thickness m))), Fin (qy / (porosity m * Rmin h (thickness m))))).
Proof. exact c25_velocity. Qed.
Print Assumptions C25_velocity.

(** The program's own test [head <= 0] never succeeds: whenever a head is computed it is positive. *)
Theorem C25_dry_branch_unreachable : forall m x y h,
  physical m -> off_wells (wells m) x y ->
  compute_head (fmodel m) (Fin x) (Fin y) = Ok h -> nle h (nZ 0) = false.
Proof. exact c25_dry_branch_unreachable. Qed.
Print Assumptions C25_dry_branch_unreachable.

(** ** C26 The confined shortcut agrees with the full velocity exactly when confined *)

Theorem C26_confined_shortcut : forall m x y p,
  physical m -> off_wells (wells m) x y ->
  compute_potential (fmodel m) (Fin x) (Fin y) = Fin p ->
  exists cx cy, compute_velocity_confined (fmodel m) (Fin x) (Fin y) = (Fin cx, Fin cy) /\
    (conductivity m * thickness m ^ 2 / 2 <= p -> compute_velocity (fmodel m) (Fin x) (Fin y) = Ok (Fin cx, Fin cy)) /\
    (0 < p < conductivity m * thickness m ^ 2 / 2 ->
       exists vx vy, compute_velocity (fmodel m) (Fin x) (Fin y) = Ok (Fin vx, Fin vy) /\
         Rabs cx <= Rabs vx /\ Rabs cy <= Rabs vy /\
         (vx <> 0 -> Rabs cx < Rabs vx) /\ (vy <> 0 -> Rabs cy < Rabs vy)).
Proof. exact c26_confined_shortcut. Qed.
Print Assumptions C26_confined_shortcut.

(** On a well the confined shortcut yields NaN; it never raises (it has no raising branch). *)
Theorem C26_confined_at_well : forall m w,
  physical m -> wells m = [w] ->
  compute_velocity_confined (fmodel m) (Fin (wx w)) (Fin (wy w)) = (NaN, NaN).
Proof. exact c26_confined_at_well. Qed.
Print Assumptions C26_confined_at_well.

(** Unconfined with saturated thickness 1/2: the velocity is twice the shortcut's. *)
Example C26_shortcut_example : exists qx, qx < -2 /\
  compute_velocity_confined (fmodel (m0 (-3/4))) (Fin 1) (Fin 0) = (Fin (2 * qx), Fin 0) /\
  compute_velocity (fmodel (m0 (-3/4))) (Fin 1) (Fin 0) = Ok (Fin (4 * qx), Fin 0) /\
  compute_velocity (fmodel (m0 1)) (Fin 1) (Fin 0) = Ok (Fin (2 * qx), Fin 0).
Proof. exact c26_shortcut_example. Qed.
