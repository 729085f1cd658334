(** * The order in which the observations are listed (C117) *)
From Coq Require Import Reals Lra Lia List ZArith Permutation.
From Verif Require Import Py Num NumXR ModelField ModelAquifer ModelTrace ModelObs ModelDist ModelDriver ModelPlot ModelArchive ModelMain.
From Verif Require Import SpecAquifer SpecFit SpecTrace SpecObs SpecDriver SpecPlot SpecDist SpecMain Lstsq ProofFit ProofFitProps ProofObs ProofObsProps ProofDist ProofStats
  ProofFieldProps ProofMain ProofMainRun ProofMainFinite ProofPosed SpecOrder SpecField.
Import ListNotations.
Local Open Scope R_scope.

Lemma odist_sym o o' : odist o (loc o') = odist o' (loc o).
Proof. unfold odist, loc. cbn [fst snd]. f_equal. ring. Qed.
Lemma pairs_perm (A : Type) (Q : A -> A -> Prop) l l' : (forall x y, Q x y -> Q y x) -> Permutation l l' -> ForallOrdPairs Q l -> ForallOrdPairs Q l'.
Proof.
  intros C P. induction P as [|x l l' P IH|x y l|l1 l2 l3 P1 IH1 P2 IH2]; intros H.
  - constructor.
  - inversion H as [|? ? H1 H2]; subst. constructor; [eapply Permutation_Forall; eassumption|apply IH, H2].
  - inversion H as [|? ? H1 H2]; subst. inversion H2 as [|? ? H3 H4]; subst. inversion H1 as [|? ? H5 H6]; subst.
    constructor; [constructor; [apply C, H5|exact H3]|constructor; assumption].
  - auto.
Qed.
Lemma apart_perm l l' : Permutation l l' -> apart l -> apart l'.
Proof. intros P. apply pairs_perm; [|exact P]. intros x y H. rewrite odist_sym. exact H. Qed.
Lemma pairs_survivors (A : Type) (Q : A -> A -> Prop) P l k : survivors P l k -> ForallOrdPairs Q l -> ForallOrdPairs Q k.
Proof.
  intros S. induction S as [|x l k Hx S IH|x l k Hx S IH]; intros H; [constructor| |]; inversion H as [|? ? H1 H2]; subst; [|apply IH, H2].
  constructor; [|apply IH, H2]. apply Forall_forall. intros y Hy. rewrite Forall_forall in H1. apply H1. revert Hy. clear -S. induction S; cbn; intuition.
Qed.
Lemma apart_separated k : apart k -> separated (N := XR) (map fobs k).
Proof.
  induction k as [|o k IH]; intros H; [exact I|]. inversion H as [|? ? H1 H2]; subst. cbn [map separated]. destruct k as [|o' k]; [exact I|]. cbn [map]. split; [|apply IH, H2].
  rewrite too_close_R. apply Rltb_false. inversion H1; subst. rewrite odist_sym. assumption.
Qed.
Lemma survivors_perm (A : Type) (P : A -> Prop) (D : forall x, P x \/ ~ P x) l l' : Permutation l l' -> forall k, survivors P l k -> exists k', survivors P l' k' /\ Permutation k k'.
Proof.
  intros H. induction H as [|x l l' H IH|x y l|l1 l2 l3 H1 IH1 H2 IH2]; intros k S.
  - exists k. split; [exact S|reflexivity].
  - inversion S; subst.
    + destruct (IH _ H4) as (k' & S' & P'). exists (x :: k'). split; [constructor; assumption|constructor; exact P'].
    + destruct (IH _ H4) as (k' & S' & P'). exists k'. split; [apply sv_drop; assumption|exact P'].
  - inversion S; subst; match goal with H : survivors P (x :: l) _ |- _ => inversion H; subst end.
    + eexists. split; [apply sv_keep; [|apply sv_keep]; eassumption|apply perm_swap].
    + eexists. split; [apply sv_drop; [|apply sv_keep]; eassumption|reflexivity].
    + eexists. split; [apply sv_keep; [|apply sv_drop]; eassumption|reflexivity].
    + eexists. split; [apply sv_drop; [|apply sv_drop]; eassumption|reflexivity].
  - destruct (IH1 _ S) as (k2 & S2 & P2). destruct (IH2 _ S2) as (k3 & S3 & P3). exists k3. split; [exact S3|]. eapply Permutation_trans; eassumption.
Qed.

Lemma survives_dec ws b o : survives ws b o \/ ~ survives ws b o.
Proof.
  unfold survives. induction ws as [|w ws IH]; [left; intros w []|]. destruct (Rlt_le_dec b (odist o w)) as [H|H].
  - destruct IH as [IH|IH]; [left; intros v [<-|Hv]; auto|right; intros K; apply IH; intros v Hv; apply K; right; exact Hv].
  - right. intros K. specialize (K w (or_introl eq_refl)). lra.
Qed.

(** C117.  Observations that are at least 1 m apart: the same ones are retained. *)
Lemma c117_filter_partial : forall (l l' : list (obs R)) (ws : list (R * R)) (b : R), apart l -> Permutation l l' ->
  exists k k', Permutation k k' /\ filter_obs (map fobs l) (map floc ws) (Fin b) = Ok (map fobs k) /\ filter_obs (map fobs l') (map floc ws) (Fin b) = Ok (map fobs k').
Proof.
  intros l l' ws b A P. destruct (filter_R l ws b) as (k & S & E). destruct (filter_R l' ws b) as (k' & S' & E').
  destruct (survivors_perm _ _ (survives_dec ws b) _ _ P _ S) as (k2 & S2 & P2). rewrite <- (survivors_fun _ _ _ _ S' S2) in P2.
  exists k, k'. split; [exact P2|]. rewrite E, E'.
  split; apply merge_id; try (rewrite map_length; apply le_n); apply apart_separated.
  - apply (pairs_survivors _ _ _ _ _ S A).
  - apply (pairs_survivors _ _ _ _ _ S' (apart_perm _ _ P A)).
Qed.

(** ** The drivers with the observations in another order *)
Lemma realization_reordered fuel la s x y r np D b kv nv hv k n h ws ps vs qs l bf kept kept' u conf tol maxstep pick rech :
  linalg_contract la -> number kv (Fin k) -> number nv (Fin n) -> number hv (Fin h) -> 0 < k -> 0 < h ->
  places ws ps -> numbers vs qs -> List.length ws = List.length vs ->
  0 < bf -> (forall o, In o l -> b < oz o /\ 0 < os o) ->
  filter_obs (map fobs l) (map (fun p : R * R * R => floc (fst p)) ps) (Fin bf) = Ok (map fobs kept) -> Permutation kept kept' ->
  realization fuel la s (Fin x) (Fin y) (Fin r) np D (Fin b) kv nv hv ws vs (map fobs kept') (Fin u) conf tol maxstep pick rech =
  realization fuel la s (Fin x) (Fin y) (Fin r) np D (Fin b) kv nv hv ws vs (map fobs kept) (Fin u) conf tol maxstep pick rech.
Proof.
  intros Hla Nk Nn Nh Hk Hh P Q L Hb Hl F PP.
  destruct (make_wells_R ws ps vs qs P Q L) as (wl & Ew & Mw).
  set (m := {| base := b; conductivity := k; porosity := n; thickness := h; wells := wl; xo := 0; yo := 0; coef := zero_coef |}).
  assert (Em : new_model (Fin b) (Fin k) (Fin n) (Fin h) (map fwell wl) = fmodel m) by reflexivity.
  assert (Us : forall o, In o kept -> usable m o).
  { destruct (kept_usable m l bf (map fobs kept) Hb Hl) as (k' & E & V).
    - rewrite <- F. f_equal. cbn [wells m]. rewrite <- (map_map (fun w => (wx w, wy w)) floc), Mw, map_map. reflexivity.
    - assert (k' = kept); [|subst; exact V]. clear -E. revert k' E.
      induction kept as [|o kept IH]; intros [|o' k'] E; try discriminate E; [reflexivity|].
      cbn in E. destruct o, o'. injection E as <- <- <- <- E. f_equal. apply IH, E. }
  unfold realization. rewrite Ew. cbn [bind]. rewrite (as_num_number _ _ Nk), (as_num_number _ _ Nh), (as_num_number _ _ Nn). cbn [bind].
  rewrite (proj2 (number_of _ _) Nn), Em. rewrite (c35_permutation la m kept kept' x y Hla Hk Hh Us PP). reflexivity.
Qed.

Lemma deterministic_reordered fuel la a c l kept kept' : linalg_contract la -> acceptable a -> reads a c -> well_posed a c l kept -> Permutation kept kept' ->
  call_deterministic fuel la a c (map fobs kept') = call_deterministic fuel la a c (map fobs kept).
Proof.
  intros Hla Ha Hc H PP.
  destruct (posed_facts a c l kept Ha Hc H) as (ps & w & x & y & r & b & bf & sp & u & P & Hw & Ex & Ey & Er & Eb & Hl & Hbf & Ebf & F & Hsp & Esp & Hu & Eu & Hnp).
  destruct (means_R a c l kept Ha Hc H) as (vs & qs & Ev & Nq & L).
  pose proof Ha as [(_ & _ & _ & _ & _ & _ & Dc & Dp & Dt & _) _].
  destruct (wp_conductivity _ _ _ _ H) as (qc & Pc & Hqc). destruct (wp_porosity _ _ _ _ H) as (qp & Pp). destruct (wp_thickness _ _ _ _ H) as (qt & Pt & Hqt).
  destruct (mean_R _ _ _ _ Dc Pc) as (kv & k & Ek & Nk & (p1 & I1 & L1)). destruct (mean_R _ _ _ _ Dp Pp) as (nv & n & En & Nn & _).
  destruct (mean_R _ _ _ _ Dt Pt) as (hv & h & Eh & Nh & (p2 & I2 & L2)). apply Hqc in I1. apply Hqt in I2.
  unfold call_deterministic, create_deterministic. rewrite Hw, Esp, Ex, Ey, Er, Eb, Eu.
  destruct (pf_init (Fin sp) (Fin sp) (Fin x) (Fin y)) as [s0|e|]; try reflexivity. cbn [bind]. rewrite Ev, Ek, En, Eh. cbn [bind].
  rewrite (realization_reordered fuel la s0 x y r (k_npaths c) (k_duration c) b kv nv hv k n h (k_wells c) ps vs qs l bf kept kept' u (k_confined c) (k_tol c) (k_maxstep c)
    (fun ev _ => ev) recharge_deterministic Hla Nk Nn Nh ltac:(lra) ltac:(lra) P Nq L Hbf Hl F PP). reflexivity.
Qed.

Lemma stochastic_reordered {G E} (Rg : rng xr G) (mvn : E -> list xr -> list (list xr) -> list xr) fuel la entropy g a c l kept kept' :
  documented_finite Rg -> linalg_contract la -> acceptable a -> reads a c -> well_posed a c l kept -> (1 < k_n c)%Z -> Permutation kept kept' ->
  call_stochastic Rg mvn fuel la entropy g a c (map fobs kept') = call_stochastic Rg mvn fuel la entropy g a c (map fobs kept).
Proof.
  intros DR Hla Ha Hc H Hn PP.
  destruct (posed_facts a c l kept Ha Hc H) as (ps & w & x & y & r & b & bf & sp & u & P & Hw & Ex & Ey & Er & Eb & Hl & Hbf & Ebf & F & Hsp & Esp & Hu & Eu & Hnp).
  pose proof Ha as [(_ & _ & _ & _ & _ & _ & Dc & Dp & Dt & _) _].
  destruct (wp_conductivity _ _ _ _ H) as (qc & Pc & Hqc). destruct (wp_porosity _ _ _ _ H) as (qp & Pp). destruct (wp_thickness _ _ _ _ H) as (qt & Pt & Hqt).
  pose proof (wp_spread _ _ _ _ H Hn) as Sp.
  unfold call_stochastic, create_stochastic. rewrite Hw, Esp, Ex, Ey, Er, Eb, Eu.
  destruct (pf_init (Fin sp) (Fin sp) (Fin x) (Fin y)) as [s0|e|]; try reflexivity. cbn [bind].
  generalize (Z.to_nat (k_n c)) as count, 0%nat as i, (@nil (run_log xr)) as logs. intros count. revert g s0.
  induction count as [|count IH]; intros g s0 i logs; [reflexivity|]. cbn [realizations].
  destruct (samples_R Rg a c l kept DR Ha Hc H Hn g) as (vs & qs & g1 & Ev & Nq & L). rewrite Ev. cbn [bind].
  destruct (sample_R Rg g1 _ _ _ _ DR Dc Pc (Sp _ _ (or_introl eq_refl) Pc)) as (kv & k & g2 & Ek & Nk & (p1 & I1 & L1)).
  destruct (sample_R Rg g2 _ _ _ _ DR Dp Pp (Sp _ _ (or_intror (or_introl eq_refl)) Pp)) as (nv & n & g3 & En & Nn & _).
  destruct (sample_R Rg g3 _ _ _ _ DR Dt Pt (Sp _ _ (or_intror (or_intror (or_introl eq_refl))) Pt)) as (hv & h & g4 & Eh & Nh & (p2 & I2 & L2)).
  apply Hqc in I1. apply Hqt in I2. rewrite Ek. cbn [bind]. rewrite En. cbn [bind]. rewrite Eh. cbn [bind].
  rewrite (realization_reordered fuel la s0 x y r (k_npaths c) (k_duration c) b kv nv hv k n h (k_wells c) ps vs qs l bf kept kept' u (k_confined c) (k_tol c) (k_maxstep c)
    (mvn (entropy i)) recharge_stochastic Hla Nk Nn Nh ltac:(lra) ltac:(lra) P Nq L Hbf Hl F PP).
  destruct (realization _ _ _ _ _ _ _ _ _ _ _ _ _ _ _ _ _ _ _ _ _) as [s' [lg|e|]]; try reflexivity. cbn [bind]. apply IH.
Qed.

(** The table of the retained observations. *)
Lemma table_reordered kept kept' : kept <> [] -> Permutation kept kept' -> summary_statistics (table (map fobs kept')) = summary_statistics (table (map fobs kept)).
Proof.
  intros N P. set (row := fun o : obs R => [Some (ox o); Some (oy o); Some (oz o); Some (os o)]).
  assert (T : forall k, table (map fobs k) = map (map fval) (map row k)) by (intros k; unfold table; rewrite !map_map; reflexivity).
  rewrite !T. apply (c75_row_order _ _ 4).
  - destruct kept; [contradiction|discriminate].
  - intros r Hr. apply in_map_iff in Hr. destruct Hr as (o & <- & _). reflexivity.
  - intros j Hj. destruct kept as [|o kept]; [contradiction|]. destruct j as [|[|[|[|j]]]]; [discriminate..|lia].
  - apply Permutation_map, P.
Qed.

(** C117.  A well-posed run whose observations are at least 1 m apart: the same effects and the same outcome in any order. *)
Lemma c117_run_partial : forall (G E : Type) (Rg : rng xr G) (mvn : E -> list xr -> list (list xr) -> list xr) (dump : run_args (pyobj xr) -> res unit)
    (fuel : nat) (la : linalg xr) (entropy : nat -> E) (g : G) (a a' : args xr) (c c' : call) (l kept : list (obs R)),
  acceptable a -> reads a c -> acceptable a' -> reads a' c' -> obs_reordered c c' ->
  c_dist a' = c_dist a -> p_dist a' = p_dist a -> t_dist a' = t_dist a ->
  well_posed a c l kept -> apart l -> linalg_contract la -> documented_finite Rg -> (forall x, dump x = Ok tt) ->
  snd (oneka Rg mvn dump fuel la entropy g a') = snd (oneka Rg mvn dump fuel la entropy g a) /\
  Forall2 seen_reordered (fst (oneka Rg mvn dump fuel la entropy g a)) (fst (oneka Rg mvn dump fuel la entropy g a')).
Proof.
  intros G E Rg mvn dump fuel la entropy g a a' c c' l kept A1 R1 A2 R2 (PO & E0 & E1 & E2 & E3 & E4 & E5 & E6 & E7 & E8 & E9 & E10 & E11) Dc Dp Dt W Ap Hla DR Du.
  rewrite (oneka_values Rg mvn dump fuel la entropy g a c A1 R1), (oneka_values Rg mvn dump fuel la entropy g a' c' A2 R2).
  pose proof (wp_obs _ _ _ _ W) as Eo. rewrite Eo in PO. destruct (Permutation_map_inv _ _ (Permutation_sym PO)) as (l' & El' & P').
  pose proof (posed_facts a c l kept A1 R1 W) as (ps & w & x & y & r & b & bf & sp & u & Pl & Hw & Ex & Ey & Er & Eb & Hl & Hbf & Ebf & F & _).
  assert (Ews : map (fun w => (sx w, sy w)) (k_wells c) = map floc (map (fun p : R * R * R => fst p) ps)).
  { clear -Pl. induction Pl as [|v [[px py] pr] vs ps (Q1 & Q2 & Q3) Pl IH]; [reflexivity|]. cbn. rewrite IH, Q1, Q2. reflexivity. }
  destruct (c117_filter_partial l l' (map (fun p : R * R * R => fst p) ps) bf Ap P') as (k & k' & Pk & F1 & F2).
  assert (k = kept) as ->.
  { rewrite map_map in F1. change (fun x : R * R * R => floc (fst x)) with (fun p : R * R * R => floc (fst p)) in F1. rewrite F in F1. injection F1 as F1. symmetry. clear -F1. revert k F1.
    induction kept as [|o kept IH]; intros [|o' k'] E; try discriminate E; [reflexivity|].
    cbn in E. destruct o, o'. injection E as <- <- <- <- E. f_equal. apply IH, E. }
  rewrite E3, E5, E6, E7, Eo, El', Ews, Ebf, F1, F2. cbn [ModelMain.stop].
  rewrite !map_length, <- (Permutation_length Pk).
  assert (ST : forall (A : Type) (r : res A) (k k' : A -> outcome xr), (forall x, snd (k' x) = snd (k x) /\ Forall2 seen_reordered (fst (k x)) (fst (k' x))) ->
    snd (ModelMain.stop r k') = snd (ModelMain.stop r k) /\ Forall2 seen_reordered (fst (ModelMain.stop r k)) (fst (ModelMain.stop r k'))).
  { intros A rr k0 k1 H. destruct rr; cbn [ModelMain.stop]; [apply H|split; [reflexivity|constructor]..]. }
  assert (EM : forall e e' (o o' : outcome xr), seen_reordered e e' -> (snd o' = snd o /\ Forall2 seen_reordered (fst o) (fst o')) ->
    snd (emit e' o') = snd (emit e o) /\ Forall2 seen_reordered (fst (emit e o)) (fst (emit e' o'))).
  { intros e e' o o' He (H1 & H2). split; [exact H1|]. constructor; assumption. }
  assert (FI : forall s, snd (ModelMain.finish dump a' s) = snd (ModelMain.finish dump a s) /\ Forall2 seen_reordered (fst (ModelMain.finish dump a s)) (fst (ModelMain.finish dump a' s))).
  { intros s. unfold ModelMain.finish. rewrite !Du. cbn. split; [reflexivity|]. repeat constructor. }
  apply EM; [constructor|]. apply EM; [constructor; apply Permutation_map, Pk|]. apply ST. intros _.
  rewrite (table_reordered kept k') by (first [exact Pk | intros ->; pose proof (wp_seven _ _ _ _ W) as W7; cbn in W7; lia]).
  apply ST. intros st. apply EM; [constructor|]. destruct (Z.gtb_spec (k_n c) 1) as [Hn|Hn].
  - replace (call_stochastic Rg mvn fuel la entropy g a' c' (map fobs k')) with (call_stochastic Rg mvn fuel la entropy g a c (map fobs k'))
      by (unfold call_stochastic; rewrite E0, E1, E2, E3, E4, E5, E7, E8, E9, E10, E11, Dc, Dp, Dt; reflexivity).
    rewrite (stochastic_reordered Rg mvn fuel la entropy g a c l kept k' DR Hla A1 R1 W Hn Pk).
    apply ST. intros [s logs]. apply EM; [constructor|]. apply ST. intros [[X Y] Q]. apply EM; [constructor|]. apply ST.
    intros [pr area]. apply EM; [constructor|]. apply ST. intros rows. apply EM; [constructor|]. apply FI.
  - replace (call_deterministic fuel la a' c' (map fobs k')) with (call_deterministic fuel la a c (map fobs k'))
      by (unfold call_deterministic; rewrite E0, E1, E2, E4, E5, E7, E8, E9, E10, E11, Dc, Dp, Dt; reflexivity).
    rewrite (deterministic_reordered fuel la a c l kept k' Hla A1 R1 W Pk).
    apply ST. intros [s lg]. apply EM; [constructor|]. apply ST. intros area. apply EM; [constructor|]. apply FI.
Qed.
