(** * Fitting the regional flow: properties C27-C35

    Written by tools/genprops.py: statements only, each closed by the lemma of the
    same name in ProofFit.v, ProofFitProps.v, ProofFitEx.v. *)
From Coq Require Import Reals Permutation.
From Verif Require Import Py Num ModelAquifer SpecAquifer SpecFit ProofFit ProofFitProps ProofFitEx.
Local Open Scope R_scope.

(** ** C27 Fitting rejects observations at or below the base *)

(** An aquifer of positive thickness; when there are no wells, also non-zero conductivity and deviations
    (with neither, Python's division raises ZeroDivisionError at the first such observation). *)
Theorem C27_construct_fit_range : forall m l x0 y0,
  0 < thickness m -> (wells m <> [] \/ conductivity m <> 0 /\ forall o, In o l -> os o <> 0) ->
  (construct_fit (fmodel m) (map fobs l) (Fin x0) (Fin y0) = Raise RangeError <-> exists o, In o l /\ oz o <= base m) /\
  ((exists r, construct_fit (fmodel m) (map fobs l) (Fin x0) (Fin y0) = Ok r) <-> forall o, In o l -> base m < oz o).
Proof. exact c27_construct_fit_range. Qed.
Print Assumptions C27_construct_fit_range.

(** One observation at the base. *)
Example C27_range_example : construct_fit (fmodel m_ex) (map fobs [obs_ex 0 0; {| ox := 1; oy := 1; oz := 0; os := 1 |}]) (Fin 0) (Fin 0) = Raise RangeError.
Proof. exact c27_range_example. Qed.

(** ** C28 Weighted residuals are the model's misfit *)

Theorem C28_row_residual : forall m l x0 y0,
  0 < conductivity m -> 0 < thickness m -> (forall o, In o l -> usable m o) ->
  exists rows b, construct_fit (fmodel m) (map fobs l) (Fin x0) (Fin y0) = Ok (map (map Fin) rows, map Fin b) /\
    length rows = length l /\ length b = length l /\ (forall r, In r rows -> length r = 6%nat) /\
    forall c k o, nth_error l k = Some o ->
      dot6 (nth k rows nil) (coef_list c) - nth k b 0
      = (potential (with_coef m x0 y0 c) (ox o) (oy o) - obs_ev m o) / obs_sd m o.
Proof. exact c28_row_residual. Qed.
Print Assumptions C28_row_residual.

Theorem C28_fosm : forall m o, 0 < thickness m -> base m < oz o ->
  obs_potential (fmodel m) (fobs o) = Ok (Fin (obs_ev m o), Fin (obs_sd m o)) /\
  exists g', (forall h, derivable_pt_lim (girinskii (conductivity m) (thickness m)) h (g' h)) /\
    obs_sd m o = g' (oz o - base m) * os o /\
    (oz o - base m <> thickness m ->
       exists g'', derivable_pt_lim g' (oz o - base m) g'' /\
         obs_ev m o = girinskii (conductivity m) (thickness m) (oz o - base m) + g'' / 2 * (os o * os o)).
Proof. exact c28_fosm. Qed.
Print Assumptions C28_fosm.

(** In confined conditions compute_head inverts the conversion exactly. *)
Theorem C28_confined_inverse : forall m o,
  0 < conductivity m -> 0 < thickness m -> base m + thickness m <= oz o ->
  exists sd, obs_potential (fmodel m) (fobs o) = Ok (Fin (obs_ev m o), Fin sd) /\
    head_of_potential (Fin (conductivity m)) (Fin (thickness m)) (Fin (obs_ev m o)) = Ok (Fin (oz o - base m)).
Proof. exact c28_confined_inverse. Qed.
Print Assumptions C28_confined_inverse.

(** An unconfined observation: head 4, deviation 1/2, at (1,2): potential 65/8 with deviation 2. *)
Example C28_row_example : construct_fit (fmodel {| base := 0; conductivity := 1; porosity := 1 / 4; thickness := 10; wells := []; xo := 0; yo := 0; coef := zero_coef |})
    [fobs {| ox := 1; oy := 2; oz := 4; os := 1 / 2 |}] (Fin 0) (Fin 0)
  = Ok ([[Fin (1 / 2); Fin 2; Fin 1; Fin (1 / 2); Fin 1; Fin (1 / 2)]], [Fin (65 / 16)]).
Proof. exact c28_row_example. Qed.

(** ** C29 Fitting recovers the true coefficients *)

Theorem C29_recovers_coefficients : forall la m l x0 y0 c,
  linalg_contract la -> 0 < conductivity m -> 0 < thickness m -> (forall o, In o l -> usable m o) -> conic_free l ->
  (forall o, In o l -> obs_ev m o = potential (with_coef m x0 y0 c) (ox o) (oy o)) ->
  exists C, fit_regional_flow la (fmodel m) (map fobs l) (Fin x0) (Fin y0)
            = (fmodel (with_coef m x0 y0 c), Ok (coef_list (fcoef c), C)).
Proof. exact c29_recovers_coefficients. Qed.
Print Assumptions C29_recovers_coefficients.

(** In confined conditions: fitting the heads that the model with coefficients [c] computes
    (elevation = base + head, head at least the thickness), with any positive deviations. *)
Theorem C29_recovers_confined_heads : forall la m l x0 y0 c,
  linalg_contract la -> 0 < conductivity m -> 0 < thickness m -> conic_free l ->
  (forall o, In o l -> 0 < os o /\ off_wells (wells m) (ox o) (oy o) /\ thickness m <= oz o - base m /\
     compute_head (fmodel (with_coef m x0 y0 c)) (Fin (ox o)) (Fin (oy o)) = Ok (Fin (oz o - base m))) ->
  exists C, fit_regional_flow la (fmodel m) (map fobs l) (Fin x0) (Fin y0)
            = (fmodel (with_coef m x0 y0 c), Ok (coef_list (fcoef c), C)).
Proof. exact c29_recovers_confined_heads. Qed.
Print Assumptions C29_recovers_confined_heads.

(** numpy.linalg's contract is met by elimination; the heads computed with A..F = 1,2,3,4,5,10 about the
    origin (1,0) beside a pumping well give back exactly these coefficients. *)
Example C29_recovery_example : linalg_contract elim_la /\ conic_free l_ex /\ (forall o, In o l_ex -> usable m_ex o) /\
  exists C, fit_regional_flow elim_la (fmodel m_ex) (map fobs l_ex) (Fin 1) (Fin 0)
            = (fmodel (with_coef m_ex 1 0 c_ex), Ok ([Fin 1; Fin 2; Fin 3; Fin 4; Fin 5; Fin 10], C)).
Proof. exact c29_recovery_example. Qed.

(** ** C30 Fit optimality, uniqueness and covariance *)

Theorem C30_optimal_unique_covariance : forall la m l x0 y0 m' ev C,
  linalg_contract la -> 0 < conductivity m -> 0 < thickness m -> (forall o, In o l -> usable m o) ->
  fit_regional_flow la (fmodel m) (map fobs l) (Fin x0) (Fin y0) = (m', Ok (ev, C)) ->
  exists c A, m' = fmodel (with_coef m x0 y0 c) /\ ev = coef_list (fcoef c) /\
    (forall d, d <> c -> misfit m x0 y0 l c < misfit m x0 y0 l d) /\
    (forall k, (k < 6)%nat ->
       Rsum (fun o => residual m x0 y0 c o * (monomial k (ox o - x0) (oy o - y0) / obs_sd m o)) l = 0) /\
    matrix6 C A /\ inverse6 (normal_matrix m x0 y0 l) A /\ symmetric6 A /\
    (forall x, (exists i, (i < 6)%nat /\ x i <> 0) -> 0 < form6 A x).
Proof. exact c30_optimal_unique_covariance. Qed.
Print Assumptions C30_optimal_unique_covariance.

(** ** C31 The fit is singular exactly when all observations lie on one conic *)

Theorem C31_singular_iff_conic : forall m l x0 y0,
  0 < conductivity m -> 0 < thickness m -> (forall o, In o l -> usable m o) ->
  ((exists A, inverse6 (normal_matrix m x0 y0 l) A) <-> conic_free l).
Proof. exact c31_singular_iff_conic. Qed.
Print Assumptions C31_singular_iff_conic.

Theorem C31_fit_succeeds_iff : forall la m l x0 y0,
  linalg_contract la -> 0 < conductivity m -> 0 < thickness m -> (forall o, In o l -> usable m o) ->
  (conic_free l -> exists r, snd (fit_regional_flow la (fmodel m) (map fobs l) (Fin x0) (Fin y0)) = Ok r) /\
  (~ conic_free l -> snd (fit_regional_flow la (fmodel m) (map fobs l) (Fin x0) (Fin y0)) = Raise LinAlgError).
Proof. exact c31_fit_succeeds_iff. Qed.
Print Assumptions C31_fit_succeeds_iff.

(** Fewer than six observations are never enough. *)
Theorem C31_fewer_than_six : forall l, (length l < 6)%nat -> ~ conic_free l.
Proof. exact c31_fewer_than_six. Qed.
Print Assumptions C31_fewer_than_six.

Example C31_circle_example : forall la, linalg_contract la ->
  fit_regional_flow la (fmodel m_ex) (map fobs l_circle) (Fin 0) (Fin 0) = (fmodel m_ex, Raise LinAlgError).
Proof. exact c31_circle_example. Qed.

(** ** C32 Duplicate observation locations cause LinAlgError *)

(** Further observations at locations that already have one never make a fit fail. *)
Theorem C32_duplicates_harmless : forall la m l l' x0 y0 r,
  linalg_contract la -> 0 < conductivity m -> 0 < thickness m -> (forall o, In o (l ++ l') -> usable m o) ->
  (forall o', In o' l' -> exists o, In o l /\ ox o = ox o' /\ oy o = oy o') ->
  snd (fit_regional_flow la (fmodel m) (map fobs l) (Fin x0) (Fin y0)) = Ok r ->
  exists r', snd (fit_regional_flow la (fmodel m) (map fobs (l ++ l')) (Fin x0) (Fin y0)) = Ok r'.
Proof. exact c32_duplicates_harmless. Qed.
Print Assumptions C32_duplicates_harmless.

(** The documentation says duplicate locations raise LinAlgError; this list holds the same observation twice and
    the fit succeeds, whatever linear-algebra library meets the contract. *)
Theorem C32_duplicates_refuted : exists m l o, In o l /\ (forall p, In p (o :: l) -> usable m p) /\
  0 < conductivity m /\ 0 < thickness m /\
  forall la x0 y0, linalg_contract la ->
    exists r, snd (fit_regional_flow la (fmodel m) (map fobs (o :: l)) (Fin x0) (Fin y0)) = Ok r.
Proof. exact c32_duplicates_refuted. Qed.
Print Assumptions C32_duplicates_refuted.

(** ** C33 The fitted surface does not depend on the local origin *)

Theorem C33_origin_invariance : forall la m l x0 y0 x1 y1 m0 r0,
  linalg_contract la -> 0 < conductivity m -> 0 < thickness m -> (forall o, In o l -> usable m o) ->
  fit_regional_flow la (fmodel m) (map fobs l) (Fin x0) (Fin y0) = (m0, Ok r0) ->
  exists m1 r1, fit_regional_flow la (fmodel m) (map fobs l) (Fin x1) (Fin y1) = (m1, Ok r1) /\
    forall x y, compute_potential m1 (Fin x) (Fin y) = compute_potential m0 (Fin x) (Fin y).
Proof. exact c33_origin_invariance. Qed.
Print Assumptions C33_origin_invariance.

(** ** C34 A failed fit leaves the model unchanged *)

(** For every number type, every behaviour of the solvers (lstsq returning six coefficients). *)
Theorem C34_failed_fit_changes_nothing : forall (T : Type) (N : Num T) (la : linalg T) m l x0 y0,
  (forall wa wb v, lstsq la wa wb = Ok v -> length v = 6%nat) ->
  match fit_regional_flow la m l x0 y0 with
  | (m', Ok (ev, _)) =>
      base m' = base m /\ conductivity m' = conductivity m /\ porosity m' = porosity m /\ thickness m' = thickness m /\
      wells m' = wells m /\ xo m' = x0 /\ yo m' = y0 /\ coef_list (coef m') = ev
  | (m', _) => m' = m
  end.
Proof. exact c34_failed_fit_changes_nothing. Qed.
Print Assumptions C34_failed_fit_changes_nothing.

(** ** C35 The fit is invariant under reordering observations and rescaling all deviations *)

Theorem C35_permutation : forall la m l l' x0 y0,
  linalg_contract la -> 0 < conductivity m -> 0 < thickness m -> (forall o, In o l -> usable m o) ->
  Permutation l l' ->
  fit_regional_flow la (fmodel m) (map fobs l') (Fin x0) (Fin y0)
  = fit_regional_flow la (fmodel m) (map fobs l) (Fin x0) (Fin y0).
Proof. exact c35_permutation. Qed.
Print Assumptions C35_permutation.

Theorem C35_scaling : forall la m l x0 y0 s m' ev C,
  linalg_contract la -> 0 < conductivity m -> 0 < thickness m -> (forall o, In o l -> usable m o) ->
  (forall o, In o l -> base m + thickness m <= oz o) -> 0 < s ->
  fit_regional_flow la (fmodel m) (map fobs l) (Fin x0) (Fin y0) = (m', Ok (ev, C)) ->
  exists C' A, fit_regional_flow la (fmodel m) (map fobs (map (scale_os s) l)) (Fin x0) (Fin y0) = (m', Ok (ev, C')) /\
    matrix6 C A /\ matrix6 C' (fun i j => s * s * A i j).
Proof. exact c35_scaling. Qed.
Print Assumptions C35_scaling.
