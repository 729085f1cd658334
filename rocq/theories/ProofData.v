(** * The data sets that come with the program: property C81 *)
From Coq Require Import Reals Lra Lia String ZArith SpecFloat.
From Verif Require Import Py Num NumXR ModelAquifer ModelObs ModelDist ModelDriver ModelMain ModelData SpecAquifer SpecFit SpecObs SpecDist SpecMain
  ProofAquifer ProofObs ProofFitProps ProofMain ProofPosed.
Local Open Scope R_scope.

(** ** Literals *)
Definition lnum (l : lit) : Z := match l with LI z => z | LD p _ => p end.
Definition lden (l : lit) : BinNums.positive := match l with LI _ => 1%positive | LD _ q => q end.
Definition litR (l : lit) : R := IZR (lnum l) / IZR (Zpos (lden l)).

Lemma lden_pos l : 0 < IZR (Zpos (lden l)).
Proof. apply IZR_lt. reflexivity. Qed.
Lemma number_lit l : number (lit_val l) (Fin (litR l)).
Proof.
  destruct l as [z|p q]; unfold litR; cbn [lnum lden lit_val].
  - replace (IZR z / 1) with (IZR z) by field. apply num_int.
  - apply num_float.
Qed.
Lemma number_fun v x y : number v x -> number v y -> x = y.
Proof. intros H K. destruct H; inversion K; reflexivity. Qed.
Lemma number_lit_inv l x : number (lit_val l) x -> x = Fin (litR l).
Proof. intros H. exact (number_fun _ _ _ H (number_lit l)). Qed.

Definition lit_le (a b : lit) : bool := (lnum a * Zpos (lden b) <=? lnum b * Zpos (lden a))%Z.
Definition lit_lt (a b : lit) : bool := (lnum a * Zpos (lden b) <? lnum b * Zpos (lden a))%Z.
Lemma cross a b : litR b - litR a = IZR (lnum b * Zpos (lden a) - lnum a * Zpos (lden b)) / (IZR (Zpos (lden a)) * IZR (Zpos (lden b))).
Proof. unfold litR. rewrite minus_IZR, !mult_IZR. pose proof (lden_pos a). pose proof (lden_pos b). field. split; lra. Qed.
Lemma lit_le_R a b : lit_le a b = true -> litR a <= litR b.
Proof.
  intros H. apply Z.leb_le in H. pose proof (cross a b) as E.
  assert (0 <= litR b - litR a); [|lra]. rewrite E. apply Rmult_le_pos; [apply IZR_le; lia|].
  apply Rlt_le, Rinv_0_lt_compat, Rmult_lt_0_compat; apply lden_pos.
Qed.
Lemma lit_lt_R a b : lit_lt a b = true -> litR a < litR b.
Proof.
  intros H. apply Z.ltb_lt in H. pose proof (cross a b) as E.
  assert (0 < litR b - litR a); [|lra]. rewrite E. apply Rmult_lt_0_compat; [apply IZR_lt; lia|].
  apply Rinv_0_lt_compat, Rmult_lt_0_compat; apply lden_pos.
Qed.
Lemma litR_int z : litR (LI z) = IZR z.
Proof. unfold litR. cbn. field. Qed.

(** ** Validation *)
Definition ub_ok (u : option lit) (l : lit) : bool := match u with None => true | Some b => lit_le l b end.
Definition dist_ok (lb ub : option lit) (l : list lit) : bool :=
  let low x := match lb with None => true | Some b => lit_le b x end in
  match l with
  | [x] => low x && ub_ok ub x
  | [x; y] => low x && lit_le x y && ub_ok ub y
  | [x; y; z] => low x && lit_le x y && lit_le y z && ub_ok ub z
  | _ => false
  end.
Definition lo_xr (b : option lit) : xr := match b with None => NInf | Some l => Fin (litR l) end.
Definition up_xr (b : option lit) : xr := match b with None => PInf | Some l => Fin (litR l) end.
Lemma low_le lb x : (match lb with None => true | Some b => lit_le b x end) = true -> xr_le (lo_xr lb) (Fin (litR x)).
Proof. destruct lb; cbn; auto using lit_le_R. Qed.
Lemma up_le ub x : ub_ok ub x = true -> xr_le (Fin (litR x)) (up_xr ub).
Proof. destruct ub; cbn; auto using lit_le_R. Qed.
Lemma dist_ok_R lb ub l : dist_ok lb ub l = true -> distribution (dist_val l) (lo_xr lb) (up_xr ub).
Proof.
  intros H. exists (map (fun x => Fin (litR x)) l).
  destruct l as [|x [|y [|z [|? ?]]]]; cbn [dist_ok] in H; try discriminate H;
    repeat match goal with H : _ && _ = true |- _ => apply andb_prop in H; destruct H end; cbn [map dist_val ordered].
  - split; [apply ent_scalar, number_lit|]. split; [apply low_le; assumption|apply up_le; assumption].
  - split; [apply ent_pair; auto using number_lit|]. repeat split; [apply low_le; assumption|apply lit_le_R; assumption|apply up_le; assumption].
  - split; [apply ent_triple; auto using number_lit|].
    repeat split; [apply low_le; assumption|apply lit_le_R; assumption|apply lit_le_R; assumption|apply up_le; assumption].
Qed.

Definition zero : lit := LI 0.
Definition one : lit := LI 1.
Definition data_well_ok (w : lit * lit * lit * list lit) : bool :=
  let '(x, y, r, q) := w in lit_lt zero r && dist_ok None None q.
Definition data_obs_ok (o : lit * lit * lit * lit) : bool :=
  let '(x, y, z, s) := o in lit_lt zero s.
Definition valid (d : dataset) : bool :=
  (0 <=? d_target d)%Z && (d_target d <? Z.of_nat (List.length (d_wells d)))%Z && (0 <? d_npaths d)%Z && lit_lt zero (d_duration d) &&
  dist_ok (Some zero) None (d_c d) && dist_ok (Some zero) (Some one) (d_p d) && dist_ok (Some zero) None (d_t d) &&
  forallb data_well_ok (d_wells d) && (7 <=? List.length (d_obs d))%nat && forallb data_obs_ok (d_obs d) &&
  lit_lt zero (d_buffer d) && lit_lt zero (d_spacing d) && lit_lt zero (d_umbra d) && lit_lt zero (d_smooth d) &&
  lit_lt zero (d_tol d) && lit_lt zero (d_maxstep d).

Lemma zeroR : litR zero = 0. Proof. apply litR_int. Qed.
Lemma oneR : litR one = 1. Proof. apply litR_int. Qed.
Lemma positive_lit l : lit_lt zero l = true -> positive (lit_val l).
Proof. intros H. apply lit_lt_R in H. rewrite zeroR in H. exists (Fin (litR l)). split; [apply number_lit|exact H]. Qed.
Lemma numeric_lit l : numeric (lit_val l).
Proof. eexists. apply number_lit. Qed.

Lemma valid_accepted d rt : valid d = true -> documented_args (data_args d rt).
Proof.
  unfold valid. intros H. repeat match goal with H : _ && _ = true |- _ => apply andb_prop in H; destruct H end.
  assert (LZ : lo_xr (Some zero) = Fin 0) by (cbn; rewrite zeroR; reflexivity).
  assert (UO : up_xr (Some one) = Fin 1) by (cbn; rewrite oneR; reflexivity).
  split; [|exists (d_nrealizations d); apply int_int]. split.
  - unfold required_ok, data_args. cbn [projectname runtime target npaths duration base_ c_dist p_dist t_dist stochastic_wells observations].
    split; [eexists; reflexivity|]. split; [eexists; reflexivity|]. split.
    { eexists. split; [reflexivity|]. split.
      - apply Forall_forall. intros v Hv. apply in_map_iff in Hv. destruct Hv as ([[[x y] r] q] & <- & Hw).
        match goal with H : forallb data_well_ok _ = true |- _ => rewrite forallb_forall in H; specialize (H _ Hw); cbn in H; apply andb_prop in H; destruct H end.
        exists (lit_val x), (lit_val y), (lit_val r), (dist_val q). split; [left; reflexivity|]. repeat split; try apply numeric_lit.
        + apply positive_lit. assumption.
        + match goal with H : dist_ok None None q = true |- _ => exact (dist_ok_R _ _ _ H) end.
      - exists (d_target d). split; [apply int_int|]. rewrite map_length. split; [apply Z.leb_le; assumption|apply Z.ltb_lt; assumption]. }
    split; [exists (d_npaths d); split; [apply int_int|apply Z.ltb_lt; assumption]|]. split.
    { exists (Fin (litR (d_duration d))). split; [apply number_lit|].
      match goal with H : lit_lt zero (d_duration d) = true |- _ => apply lit_lt_R in H; rewrite zeroR in H end.
      intros C. injection C as C. lra. }
    split; [apply numeric_lit|]. rewrite <- LZ, <- UO. change PInf with (up_xr None).
    split; [apply dist_ok_R; assumption|]. split; [apply dist_ok_R; assumption|]. split; [apply dist_ok_R; assumption|].
    eexists. split; [reflexivity|]. split; [rewrite map_length; apply Nat.leb_le; assumption|].
    apply Forall_forall. intros v Hv. apply in_map_iff in Hv. destruct Hv as ([[[x y] z] s] & <- & Ho).
    match goal with H : forallb data_obs_ok _ = true |- _ => rewrite forallb_forall in H; specialize (H _ Ho); cbn in H; apply lit_lt_R in H; rewrite zeroR in H end.
    exists (lit_val x), (lit_val y), (lit_val z), (lit_val s). split; [left; reflexivity|]. repeat split; try apply numeric_lit.
    exists (Fin (litR s)). split; [apply number_lit|]. cbn. lra.
  - unfold optional_ok, data_args. cbn. repeat split; try (apply positive_lit; assumption). eexists. reflexivity.
Qed.

(** ** What the filter keeps, and the fit *)
Definition lit_int (l : lit) : Z := (lnum l / Zpos (lden l))%Z.
Definition is_integer (l : lit) : bool := (lnum l mod Zpos (lden l) =? 0)%Z.
Lemma litR_integer l : is_integer l = true -> litR l = IZR (lit_int l).
Proof.
  intros H. apply Z.eqb_eq in H. unfold litR, lit_int. pose proof (lden_pos l).
  rewrite (Z_div_mod_eq_full (lnum l) (Zpos (lden l))) at 1. rewrite H, Z.add_0_r, mult_IZR. field. lra.
Qed.

Definition obsR (o : lit * lit * lit * lit) : obs R :=
  let '(x, y, z, s) := o in {| ox := litR x; oy := litR y; oz := litR z; os := litR s |}.
Definition wlocR (w : lit * lit * lit * list lit) : R * R := let '(x, y, r, q) := w in (litR x, litR y).

Definition obs_xy (o : lit * lit * lit * lit) : Z * Z := let '(x, y, z, s) := o in (lit_int x, lit_int y).
Definition well_xy (w : lit * lit * lit * list lit) : Z * Z := let '(x, y, r, q) := w in (lit_int x, lit_int y).
Definition dist2 (a b : Z * Z) : Z := ((fst a - fst b) * (fst a - fst b) + (snd a - snd b) * (snd a - snd b))%Z.
Definition farZ (d : dataset) (o : lit * lit * lit * lit) : bool :=
  forallb (fun w => (lit_int (d_buffer d) * lit_int (d_buffer d) <? dist2 (obs_xy o) (well_xy w))%Z) (d_wells d).
Fixpoint apart (l : list (lit * lit * lit * lit)) : bool :=
  match l with
  | a :: (b :: _) as l' => (0 <? dist2 (obs_xy a) (obs_xy b))%Z && apart l'
  | _ => true
  end.
Definition integral (d : dataset) : bool :=
  is_integer (d_buffer d) && (0 <? lit_int (d_buffer d))%Z &&
  forallb (fun o : lit * lit * lit * lit => let '(x, y, z, s) := o in is_integer x && is_integer y) (d_obs d) &&
  forallb (fun w : lit * lit * lit * list lit => let '(x, y, r, q) := w in is_integer x && is_integer y) (d_wells d).
Definition keptL (d : dataset) : list (lit * lit * lit * lit) := filter (farZ d) (d_obs d).

Lemma obs_int d o : integral d = true -> In o (d_obs d) -> loc (obsR o) = (IZR (fst (obs_xy o)), IZR (snd (obs_xy o))).
Proof.
  unfold integral. intros H Ho. repeat match goal with H : _ && _ = true |- _ => apply andb_prop in H; destruct H end.
  match goal with H : forallb _ (d_obs d) = true |- _ => rewrite forallb_forall in H; specialize (H _ Ho) end.
  destruct o as [[[x y] z] s]. cbn in *. match goal with H : is_integer x && _ = true |- _ => apply andb_prop in H; destruct H end.
  unfold loc. cbn. rewrite !litR_integer by assumption. reflexivity.
Qed.
Lemma well_int d w : integral d = true -> In w (d_wells d) -> wlocR w = (IZR (fst (well_xy w)), IZR (snd (well_xy w))).
Proof.
  unfold integral. intros H Ho. repeat match goal with H : _ && _ = true |- _ => apply andb_prop in H; destruct H end.
  match goal with H : forallb _ (d_wells d) = true |- _ => rewrite forallb_forall in H; specialize (H _ Ho) end.
  destruct w as [[[x y] r] q]. cbn in *. match goal with H : is_integer x && _ = true |- _ => apply andb_prop in H; destruct H end.
  rewrite !litR_integer by assumption. reflexivity.
Qed.

Lemma sqrt_dist (b : Z) (p q : Z * Z) : (0 <= b)%Z ->
  let s := sqrt ((IZR (fst p) - IZR (fst q)) * (IZR (fst p) - IZR (fst q)) + (IZR (snd p) - IZR (snd q)) * (IZR (snd p) - IZR (snd q))) in
  ((b * b < dist2 p q)%Z <-> IZR b < s) /\ ((b * b <= dist2 p q)%Z <-> IZR b <= s).
Proof.
  intros Hb s. unfold s. rewrite <- !minus_IZR, <- !mult_IZR, <- plus_IZR. fold (dist2 p q).
  assert (B : IZR b = sqrt (IZR (b * b))) by (rewrite mult_IZR; symmetry; apply sqrt_square; apply IZR_le; exact Hb).
  assert (D : (0 <= dist2 p q)%Z) by (unfold dist2; apply Z.add_nonneg_nonneg; apply Z.square_nonneg).
  rewrite B. split; split; intros H.
  - apply sqrt_lt_1; [apply IZR_le; nia|apply IZR_le; exact D|apply IZR_lt; exact H].
  - apply sqrt_lt_0_alt in H. apply lt_IZR. exact H.
  - apply sqrt_le_1_alt, IZR_le. exact H.
  - apply le_IZR. apply sqrt_le_0; [apply IZR_le; nia|apply IZR_le; exact D|exact H].
Qed.

Lemma farZ_R d o : integral d = true -> In o (d_obs d) ->
  (farZ d o = true <-> survives (map wlocR (d_wells d)) (litR (d_buffer d)) (obsR o)).
Proof.
  intros I Ho. pose proof I as I'. unfold integral in I'. repeat match goal with H : _ && _ = true |- _ => apply andb_prop in H; destruct H end.
  rewrite (litR_integer (d_buffer d)) by assumption.
  assert (B : (0 <= lit_int (d_buffer d))%Z) by (apply Z.lt_le_incl, Z.ltb_lt; assumption).
  unfold farZ, survives. rewrite forallb_forall.
  assert (K : forall w, In w (d_wells d) -> odist (obsR o) (wlocR w) = sqrt ((IZR (fst (obs_xy o)) - IZR (fst (well_xy w))) * (IZR (fst (obs_xy o)) - IZR (fst (well_xy w))) + (IZR (snd (obs_xy o)) - IZR (snd (well_xy w))) * (IZR (snd (obs_xy o)) - IZR (snd (well_xy w))))).
  { intros w Hw. pose proof (obs_int d o I Ho) as E1. unfold loc in E1. injection E1 as E1 E2.
    unfold odist. rewrite (well_int d w I Hw), E1, E2. reflexivity. }
  split.
  - intros F w' Hw'. apply in_map_iff in Hw'. destruct Hw' as (w & <- & Hw). rewrite K by exact Hw.
    apply sqrt_dist; [exact B|]. apply Z.ltb_lt. exact (F w Hw).
  - intros F w Hw. specialize (F _ (in_map wlocR _ _ Hw)). rewrite K in F by exact Hw.
    apply Z.ltb_lt. apply sqrt_dist in F; assumption.
Qed.

Lemma keptL_filter d : integral d = true ->
  filter (far_from_wells (map floc (map wlocR (d_wells d))) (Fin (litR (d_buffer d)))) (map fobs (map obsR (d_obs d)))
  = map fobs (map obsR (keptL d)).
Proof.
  intros I. unfold keptL.
  assert (K : forall l, (forall o, In o l -> In o (d_obs d)) ->
    filter (far_from_wells (map floc (map wlocR (d_wells d))) (Fin (litR (d_buffer d)))) (map fobs (map obsR l)) = map fobs (map obsR (filter (farZ d) l))).
  { induction l as [|o l IH]; intros Hl; [reflexivity|]. cbn [map filter].
    assert (Ho : In o (d_obs d)) by (apply Hl; left; reflexivity).
    pose proof (farZ_R d o I Ho) as F. pose proof (far_R (map wlocR (d_wells d)) (litR (d_buffer d)) (obsR o)) as G.
    rewrite IH by (intros p Hp; apply Hl; right; exact Hp).
    destruct (farZ d o), (far_from_wells _ _ (fobs (obsR o))); try reflexivity.
    - exfalso. assert (false = true) by (apply G, F; reflexivity). discriminate.
    - exfalso. assert (false = true) by (apply F, G; reflexivity). discriminate. }
  apply K. auto.
Qed.

Lemma apart_separated d l : integral d = true -> (forall o, In o l -> In o (d_obs d)) -> apart l = true ->
  separated (map fobs (map obsR l)).
Proof.
  intros I. induction l as [|a [|b l] IH]; intros Hl A; [exact Logic.I|exact Logic.I|].
  cbn [apart] in A. apply andb_prop in A. destruct A as [A B].
  change (too_close (fobs (obsR a)) (fobs (obsR b)) = false /\ separated (map fobs (map obsR (b :: l)))).
  split; [|apply IH; [intros o Ho; apply Hl; right; exact Ho|exact B]].
  rewrite too_close_R. apply Rltb_false.
  pose proof (obs_int d a I (Hl a (or_introl eq_refl))) as E1. pose proof (obs_int d b I (Hl b (or_intror (or_introl eq_refl)))) as E2.
  unfold loc in E2. injection E2 as E2 E3. unfold odist. rewrite E1, E2, E3. cbn [fst snd].
  apply Z.ltb_lt in A.
  pose proof (sqrt_dist 1 (obs_xy b) (obs_xy a) ltac:(lia)) as [_ S]. cbn zeta in S. apply S.
  assert (E : dist2 (obs_xy b) (obs_xy a) = dist2 (obs_xy a) (obs_xy b)) by (unfold dist2; ring). lia.
Qed.

Lemma kept_exactly d : integral d = true -> apart (keptL d) = true ->
  filter_obs (map fobs (map obsR (d_obs d))) (map floc (map wlocR (d_wells d))) (Fin (litR (d_buffer d))) = Ok (map fobs (map obsR (keptL d))).
Proof.
  intros I A. unfold filter_obs. rewrite keptL_filter by exact I. apply merge_id; [lia|].
  apply apart_separated with d; [exact I| |exact A]. intros o Ho. apply filter_In in Ho. tauto.
Qed.

(** *** Six of the locations are on no conic: by an integer left inverse of the matrix of monomials. *)
Definition monoZ (p : Z * Z) : list Z := let (x, y) := p in [x * x; y * y; x * y; x; y; 1]%Z.
Definition sub (m : list (list Z)) (i j : nat) : list (list Z) :=
  map (fun r => firstn j r ++ skipn (S j) r) (firstn i m ++ skipn (S i) m).
Fixpoint det (n : nat) (m : list (list Z)) : Z :=
  match n with
  | O => 1%Z
  | S n' => fold_right Z.add 0%Z (map (fun j => ((if Nat.even j then 1 else -1) * nth j (nth 0 m []) 0 * det n' (sub m 0 j))%Z) (seq 0 n))
  end.
Definition adj (m : list (list Z)) : list (list Z) :=
  map (fun i => map (fun j => ((if Nat.even (i + j) then 1 else -1) * det 5 (sub m j i))%Z) (seq 0 6)) (seq 0 6).
Definition dotZ (a b : list Z) : Z := fold_right Z.add 0%Z (map (fun p => (fst p * snd p)%Z) (combine a b)).
Definition inverts (X m : list (list Z)) (D : Z) : bool :=
  forallb (fun i => forallb (fun j => (dotZ (nth i X []) (map (fun r => nth j r 0%Z) m) =? (if Nat.eqb i j then D else 0))%Z) (seq 0 6)) (seq 0 6).
Definition off_conic (ps : list (Z * Z)) : bool :=
  let m := map monoZ ps in
  let D := det 6 m in
  Nat.eqb (List.length ps) 6 && negb (D =? 0)%Z && inverts (adj m) m D.

Lemma dot_linear (X : list Z) (ps : list (Z * Z)) (c : coef6 R) :
  (forall p, In p ps -> quad c (IZR (fst p)) (IZR (snd p)) = 0) ->
  IZR (dotZ X (map (fun r => nth 0 r 0%Z) (map monoZ ps))) * cA c + IZR (dotZ X (map (fun r => nth 1 r 0%Z) (map monoZ ps))) * cB c +
  IZR (dotZ X (map (fun r => nth 2 r 0%Z) (map monoZ ps))) * cC c + IZR (dotZ X (map (fun r => nth 3 r 0%Z) (map monoZ ps))) * cD c +
  IZR (dotZ X (map (fun r => nth 4 r 0%Z) (map monoZ ps))) * cE c + IZR (dotZ X (map (fun r => nth 5 r 0%Z) (map monoZ ps))) * cF c = 0.
Proof.
  revert X. induction ps as [|[x y] ps IH]; intros X H.
  - destruct X; cbn; ring.
  - destruct X as [|a X]; [cbn; ring|].
    specialize (IH X (fun p Hp => H p (or_intror Hp))). pose proof (H (x, y) (or_introl eq_refl)) as Q. unfold quad in Q. cbn [fst snd] in Q.
    unfold dotZ in *. cbn [map combine fold_right fst snd nth monoZ]. rewrite !plus_IZR, !mult_IZR.
    match type of IH with ?s = 0 => transitivity (s + IZR a * (cA c * (IZR x * IZR x) + cB c * (IZR y * IZR y) + cC c * (IZR x * IZR y) + cD c * IZR x + cE c * IZR y + cF c)) end; [ring|].
    rewrite IH, Q. ring.
Qed.

Lemma off_conic_R ps c : off_conic ps = true -> (forall p, In p ps -> quad c (IZR (fst p)) (IZR (snd p)) = 0) -> c = zero_coef.
Proof.
  unfold off_conic. intros H Q. apply andb_prop in H. destruct H as [H Inv]. apply andb_prop in H. destruct H as [_ D].
  apply negb_true_iff, Z.eqb_neq in D. set (m := map monoZ ps) in *. set (X := adj m) in *. set (dd := det 6 m) in *. clearbody X dd.
  assert (E : forall i j, (i < 6)%nat -> (j < 6)%nat -> dotZ (nth i X []) (map (fun r => nth j r 0%Z) m) = (if Nat.eqb i j then dd else 0)%Z).
  { intros i j Hi Hj. unfold inverts in Inv. rewrite forallb_forall in Inv. specialize (Inv i ltac:(apply in_seq; lia)).
    rewrite forallb_forall in Inv. specialize (Inv j ltac:(apply in_seq; lia)). apply Z.eqb_eq. exact Inv. }
  assert (Dr : IZR dd <> 0) by (intros C; apply D, eq_IZR; exact C).
  assert (Z : forall i, (i < 6)%nat -> IZR dd * nth i [cA c; cB c; cC c; cD c; cE c; cF c] 0 = 0).
  { intros i Hi. pose proof (dot_linear (nth i X []) ps c Q) as L. fold m in L. rewrite !E in L by lia.
    destruct i as [|[|[|[|[|[|i]]]]]]; [..|lia]; cbn [Nat.eqb nth] in *; lra. }
  assert (Y : forall i, (i < 6)%nat -> nth i [cA c; cB c; cC c; cD c; cE c; cF c] 0 = 0).
  { intros i Hi. destruct (Rmult_integral _ _ (Z i Hi)); [contradiction|assumption]. }
  destruct c as [a b c d e f]. pose proof (Y 0%nat ltac:(lia)). pose proof (Y 1%nat ltac:(lia)). pose proof (Y 2%nat ltac:(lia)).
  pose proof (Y 3%nat ltac:(lia)). pose proof (Y 4%nat ltac:(lia)). pose proof (Y 5%nat ltac:(lia)). cbn in *. unfold zero_coef. congruence.
Qed.

(** ** The shipped data sets *)
Definition six (d : dataset) : list nat :=
  if existsb (String.eqb (d_name d)) (map d_name [basic; basic_deterministic]) then [0; 1; 2; 5; 6; 10]%nat else [0; 1; 2; 3; 4; 5]%nat.
Definition above (d : dataset) (o : lit * lit * lit * lit) : bool :=
  let '(x, y, z, s) := o in lit_lt (d_base d) z && lit_lt zero s.
Definition no_obs : lit * lit * lit * lit := (zero, zero, zero, zero).
Definition suited (d : dataset) : bool :=
  integral d && apart (keptL d) && (7 <=? List.length (keptL d))%nat && forallb (above d) (keptL d) &&
  forallb (fun i => Nat.ltb i (List.length (keptL d))) (six d) &&
  off_conic (map (fun i => obs_xy (nth i (keptL d) no_obs)) (six d)).

Lemma shipped_valid : forallb valid shipped = true.
Proof. vm_compute. reflexivity. Qed.
Lemma shipped_suited : forallb suited shipped = true.
Proof. vm_compute. reflexivity. Qed.

(** Every shipped data set is accepted by the checks of oneka. *)
Lemma c81_accepted : forall d rt, In d shipped -> documented_args (data_args d rt).
Proof.
  intros d rt H. apply valid_accepted. pose proof shipped_valid as V. rewrite forallb_forall in V. exact (V d H).
Qed.

Lemma reads_kept d rt c : integral d = true -> apart (keptL d) = true -> reads (data_args d rt) c ->
  retained c (map fobs (map obsR (keptL d))) /\ k_base c = Fin (litR (d_base d)) /\
  map (fun w => (sx w, sy w)) (k_wells c) = map floc (map wlocR (d_wells d)).
Proof.
  intros I A (_ & _ & _ & _ & Hb & (lw & Ew & Fw) & (lo & Eo & Fo) & Hbuf & _).
  unfold data_args in Hb, Ew, Eo, Hbuf. cbn [base_ stochastic_wells observations buffer] in Hb, Ew, Eo, Hbuf.
  injection Ew as <-. injection Eo as <-.
  apply number_lit_inv in Hb. apply number_lit_inv in Hbuf.
  assert (W : map (fun w => (sx w, sy w)) (k_wells c) = map floc (map wlocR (d_wells d))).
  { revert Fw. generalize (k_wells c), (d_wells d). intros ks ws. revert ks. induction ws as [|[[[x y] r] q] ws IH]; intros ks F; inversion F; subst; [reflexivity|].
    cbn [map]. f_equal; [|apply IH; assumption].
    match goal with H : reads_well _ _ |- _ => destruct H as (vx & vy & vr & S & Nx & Ny & Nr) end.
    destruct S as [S|S]; [|discriminate S]. injection S as <- <- <- _.
    apply number_lit_inv in Nx. apply number_lit_inv in Ny. rewrite Nx, Ny. reflexivity. }
  assert (O : k_obs c = map fobs (map obsR (d_obs d))).
  { revert Fo. generalize (k_obs c), (d_obs d). intros ks ob. revert ks. induction ob as [|[[[x y] z] s] ob IH]; intros ks F; inversion F; subst; [reflexivity|].
    cbn [map]. f_equal; [|apply IH; assumption].
    match goal with H : reads_obs _ ?o |- _ => destruct H as (vx & vy & vz & vs & S & Nx & Ny & Nz & Ns); destruct o as [o1 o2 o3 o4] end.
    destruct S as [S|S]; [|discriminate S]. injection S as <- <- <- <-. cbn [ox oy oz os] in *.
    apply number_lit_inv in Nx. apply number_lit_inv in Ny. apply number_lit_inv in Nz. apply number_lit_inv in Ns. subst. reflexivity. }
  split; [|split; assumption]. unfold retained. rewrite W, O, Hbuf. apply kept_exactly; assumption.
Qed.

(** The number of observations that the filter retains, in the order barnesville, basic, basic_deterministic,
    carlos, long_prairie, paynesville, perham. *)
Lemma c81_counts : Forall2 (fun d n => forall rt c, reads (data_args d rt) c -> exists kept, retained c kept /\ List.length kept = n)
  shipped [31; 25; 25; 13; 53; 209; 102]%nat.
Proof.
  assert (K : forall d n, suited d = true -> Nat.eqb (List.length (keptL d)) n = true ->
    forall rt c, reads (data_args d rt) c -> exists kept, retained c kept /\ List.length kept = n).
  { intros d n S E rt c Rd. unfold suited in S. apply andb_prop in S. destruct S as [S _]. apply andb_prop in S. destruct S as [S _]. apply andb_prop in S. destruct S as [S _].
    apply andb_prop in S. destruct S as [S _]. apply andb_prop in S. destruct S as [Hint Hap].
    destruct (reads_kept d rt c Hint Hap Rd) as (Hk & _). eexists. split; [exact Hk|].
    rewrite !map_length. apply Nat.eqb_eq. exact E. }
  repeat (constructor; [apply K; vm_compute; reflexivity|]). constructor.
Qed.

Lemma kept_free d : integral d = true -> forallb (fun i => Nat.ltb i (List.length (keptL d))) (six d) = true ->
  off_conic (map (fun i => obs_xy (nth i (keptL d) no_obs)) (six d)) = true -> conic_free (map obsR (keptL d)).
Proof.
  intros I Hi Hc q Q. apply (off_conic_R _ _ Hc). intros p Hp. apply in_map_iff in Hp. destruct Hp as (i & <- & Hp).
  rewrite forallb_forall in Hi. specialize (Hi i Hp). apply Nat.ltb_lt in Hi.
  assert (Hin : In (nth i (keptL d) no_obs) (keptL d)) by (apply nth_In; exact Hi).
  assert (Ho : In (nth i (keptL d) no_obs) (d_obs d)) by (unfold keptL in Hin; apply filter_In in Hin; tauto).
  pose proof (obs_int d _ I Ho) as E. unfold loc in E. injection E as E1 E2. rewrite <- E1, <- E2. apply Q. apply in_map. exact Hin.
Qed.

(** The retained observations are on no conic, and the fit succeeds for every conductivity and thickness,
    every discharge of the wells and every origin. *)
Lemma c81_fit : forall d rt c, In d shipped -> reads (data_args d rt) c ->
  exists kept, retained c (map fobs kept) /\ (7 <= List.length kept)%nat /\ conic_free kept /\
    forall la m x0 y0, linalg_contract la -> 0 < conductivity m -> 0 < thickness m -> k_base c = Fin (base m) ->
      map (fun w => (Fin (wx w), Fin (wy w))) (wells m) = map (fun w => (sx w, sy w)) (k_wells c) ->
      exists r, snd (fit_regional_flow la (fmodel m) (map fobs kept) (Fin x0) (Fin y0)) = Ok r.
Proof.
  intros d rt c Hd Rd. pose proof shipped_suited as S. rewrite forallb_forall in S. specialize (S d Hd). unfold suited in S.
  apply andb_prop in S. destruct S as [S Hc]. apply andb_prop in S. destruct S as [S Hi]. apply andb_prop in S. destruct S as [S Ha].
  apply andb_prop in S. destruct S as [S Hn]. apply andb_prop in S. destruct S as [I A].
  destruct (reads_kept d rt c I A Rd) as (Hr & Hb & Hw).
  exists (map obsR (keptL d)). split; [exact Hr|]. split; [rewrite map_length; apply Nat.leb_le; exact Hn|].
  assert (Cf : conic_free (map obsR (keptL d))) by (apply kept_free; assumption).
  split; [exact Cf|]. intros la m x0 y0 Hla HK HH Eb Ew.
  refine (proj1 (c31_fit_succeeds_iff la m (map obsR (keptL d)) x0 y0 Hla HK HH _) Cf).
  intros o Ho. apply in_map_iff in Ho. destruct Ho as (ob & <- & Ho).
  rewrite forallb_forall in Ha. specialize (Ha ob Ho). unfold keptL in Ho. apply filter_In in Ho. destruct Ho as [Ho F].
  rewrite Hb in Eb. injection Eb as Eb.
  split; [|split].
  - rewrite <- Eb. destruct ob as [[[x y] z] s]. cbn in *. apply andb_prop in Ha. apply lit_lt_R. tauto.
  - destruct ob as [[[x y] z] s]. cbn in *. apply andb_prop in Ha. rewrite <- zeroR. apply lit_lt_R. tauto.
  - intros w Hin (Ex & Ey). apply (farZ_R d ob I Ho) in F.
    assert (L : In (wx w, wy w) (map wlocR (d_wells d))).
    { assert (L : In (Fin (wx w), Fin (wy w)) (map floc (map wlocR (d_wells d)))).
      { rewrite <- Hw, <- Ew. apply in_map_iff. exists w. auto. }
      apply in_map_iff in L. destruct L as ([a b] & E & L). unfold floc in E. cbn in E. injection E as -> ->. exact L. }
    specialize (F _ L). unfold odist in F. cbn [fst snd] in F. rewrite Ex, Ey in F.
    replace ((wx w - wx w) * (wx w - wx w) + (wy w - wy w) * (wy w - wy w)) with 0 in F by ring. rewrite sqrt_0 in F.
    unfold integral in I. repeat match goal with H : _ && _ = true |- _ => apply andb_prop in H; destruct H end.
    rewrite (litR_integer (d_buffer d)) in F by assumption.
    match goal with H : (0 <? _)%Z = true |- _ => apply Z.ltb_lt, IZR_lt in H; lra end.
Qed.

(** The checks also pass in binary64. *)
Lemma c81_binary64 : forall lm d rt, In d shipped -> @validate spec_float (SF lm) (@data_args spec_float (SF lm) d rt) = Ok tt.
Proof.
  intros lm d rt H. unfold shipped in H. cbn [In] in H.
  repeat (destruct H as [<-|H]; [vm_compute; reflexivity|]). contradiction.
Qed.

(** ** A run with a shipped data set *)
Definition spreadL (l : list lit) : bool := match l with [a; _; c] => lit_lt a c | [_] | [_; _] => true | _ => false end.
Definition posed_data (d : dataset) : bool :=
  spreadL (d_c d) && spreadL (d_p d) && spreadL (d_t d) && forallb (lit_lt zero) (d_c d) && forallb (lit_lt zero) (d_t d) &&
  forallb (fun w : lit * lit * lit * list lit => let '(x, y, r, q) := w in spreadL q) (d_wells d) && forallb (above d) (d_obs d).
Lemma shipped_posed : forallb posed_data shipped = true.
Proof. vm_compute. reflexivity. Qed.

Lemma proper_data l : spreadL l = true -> proper (dist_val l) (map litR l).
Proof.
  intros H. split.
  - destruct l as [|x [|y [|z [|? ?]]]]; try discriminate H; cbn; [apply ent_scalar|apply ent_pair|apply ent_triple]; auto using number_lit.
  - intros (k & E). destruct l as [|x [|y [|z [|? ?]]]]; try discriminate H; try discriminate E. destruct x; discriminate E.
Qed.
Lemma spread_data l q : spreadL l = true -> proper (dist_val l) q -> spread q.
Proof.
  intros H [E _]. destruct (proper_data l H) as [E' _]. pose proof (entries_fun _ _ _ E E') as M.
  assert (Q : q = map litR l).
  { clear -M. revert l M. induction q as [|a q IH]; intros [|b l] M; try discriminate M; [reflexivity|]. cbn in M. injection M as -> M. cbn. f_equal. apply IH, M. }
  subst. destruct l as [|x [|y [|z [|? ?]]]]; try discriminate H; cbn; auto. cbn in H. apply lit_lt_R in H. lra.
Qed.

Lemma shipped_well_posed d rt c : In d shipped -> reads (data_args d rt) c ->
  well_posed (data_args d rt) c (map obsR (d_obs d)) (map obsR (keptL d)).
Proof.
  intros Hd Rd. pose proof shipped_suited as S. rewrite forallb_forall in S. specialize (S d Hd).
  pose proof shipped_posed as Q. rewrite forallb_forall in Q. specialize (Q d Hd).
  unfold suited in S. apply andb_prop in S. destruct S as [S Hc]. apply andb_prop in S. destruct S as [S Hi]. apply andb_prop in S. destruct S as [S _].
  apply andb_prop in S. destruct S as [S Hn]. apply andb_prop in S. destruct S as [I A].
  destruct (reads_kept d rt c I A Rd) as (Hr & Hb & Hw).
  unfold posed_data in Q. apply andb_prop in Q. destruct Q as [Q Qo]. apply andb_prop in Q. destruct Q as [Q Qw].
  apply andb_prop in Q. destruct Q as [Q Pt]. apply andb_prop in Q. destruct Q as [Q Pc]. apply andb_prop in Q. destruct Q as [Q Qt]. apply andb_prop in Q. destruct Q as [Qc Qp].
  rewrite forallb_forall in Qw, Qo, Pt, Pc.
  pose proof Rd as (_ & _ & _ & _ & _ & (lw & Ew & Fw) & (lo & Eo & Fo) & Hbuf & Hsp & Hum & _).
  unfold data_args in Ew, Eo, Hbuf, Hsp, Hum. cbn [stochastic_wells observations buffer spacing umbra] in Ew, Eo, Hbuf, Hsp, Hum.
  injection Ew as <-. injection Eo as <-. apply number_lit_inv in Hbuf. apply number_lit_inv in Hsp. apply number_lit_inv in Hum.
  assert (W : forall w, In w (k_wells c) -> exists x y r q, sx w = Fin (litR x) /\ sy w = Fin (litR y) /\ sr w = Fin (litR r) /\ sq w = dist_val q /\ spreadL q = true).
  { clear -Fw Qw. revert Fw Qw. generalize (k_wells c), (d_wells d). intros ks ws. revert ks.
    induction ws as [|[[[x y] r] q] ws IH]; intros ks F Qw w Hw; inversion F as [|? k ? ks' Rw F']; subst; [destruct Hw|].
    destruct Hw as [<-|Hw]; [|apply (IH ks' F'); [intros v Hv; apply Qw; right; exact Hv|exact Hw]].
    destruct Rw as (vx & vy & vr & S & Nx & Ny & Nr). destruct S as [S|S]; [|discriminate S]. injection S as <- <- <- Sq.
    apply number_lit_inv in Nx. apply number_lit_inv in Ny. apply number_lit_inv in Nr. exists x, y, r, q.
    repeat split; auto. exact (Qw _ (or_introl eq_refl)). }
  assert (PL : forall l, forallb (lit_lt zero) l = true -> forall x, In x (map litR l) -> 0 < x).
  { intros l Hl x Hx. apply in_map_iff in Hx. destruct Hx as (y & <- & Hy). rewrite forallb_forall in Hl. rewrite <- zeroR. apply lit_lt_R. exact (Hl y Hy). }
  constructor.
  - intros w Hw'. destruct (W w Hw') as (x & y & r & q & -> & -> & -> & -> & Sq). repeat split; try (eexists; reflexivity). exists (map litR q). apply proper_data. exact Sq.
  - exists (map litR (d_c d)). split; [apply proper_data; exact Qc|]. apply PL. apply forallb_forall. exact Pc.
  - exists (map litR (d_p d)). apply proper_data. exact Qp.
  - exists (map litR (d_t d)). split; [apply proper_data; exact Qt|]. apply PL. apply forallb_forall. exact Pt.
  - intros _ v q Hv Pv. unfold data_args in Hv. cbn [c_dist p_dist t_dist In] in Hv.
    destruct Hv as [<-|[<-|[<-|Hv]]]; [exact (spread_data _ _ Qc Pv)|exact (spread_data _ _ Qp Pv)|exact (spread_data _ _ Qt Pv)|].
    apply in_map_iff in Hv. destruct Hv as (w & <- & Hw'). destruct (W w Hw') as (_ & _ & _ & ql & _ & _ & _ & E & Sq). rewrite E in Pv. exact (spread_data _ _ Sq Pv).
  - eauto.
  - eauto.
  - eauto.
  - exists (litR (d_base d)). split; [exact Hb|]. intros o Ho. apply in_map_iff in Ho. destruct Ho as ([[[x y] z] s] & <- & Ho). specialize (Qo _ Ho). cbn in *.
    apply andb_prop in Qo. destruct Qo as [Q1 Q2]. split; [apply lit_lt_R; exact Q1|rewrite <- zeroR; apply lit_lt_R; exact Q2].
  - clear -Fo. revert Fo. generalize (k_obs c), (d_obs d). intros ks ob. revert ks. induction ob as [|[[[x y] z] s] ob IH]; intros ks F; inversion F as [|? k ? ks' Ro F']; subst; [reflexivity|].
    cbn [map]. f_equal; [|apply IH; assumption].
    destruct Ro as (vx & vy & vz & vs & S & Nx & Ny & Nz & Ns). destruct k as [o1 o2 o3 o4].
    destruct S as [S|S]; [|discriminate S]. injection S as <- <- <- <-. cbn [ox oy oz os] in *.
    apply number_lit_inv in Nx. apply number_lit_inv in Ny. apply number_lit_inv in Nz. apply number_lit_inv in Ns. subst. reflexivity.
  - exact Hr.
  - rewrite map_length. apply Nat.leb_le. exact Hn.
  - apply kept_free; assumption.
Qed.

(** A run with a shipped data set raises no exception, whatever is drawn. *)
Lemma c81_run : forall (G E : Type) (Rg : rng xr G) (mvn : E -> list xr -> list (list xr) -> list xr) (dump : ModelArchive.run_args (pyobj xr) -> res unit)
    (fuel : nat) (la : linalg xr) (entropy : nat -> E) (g : G) (d : dataset) (rt : string),
  In d shipped -> linalg_contract la -> documented_finite Rg -> (forall e ev C, List.length ev = 6%nat -> List.length (mvn e ev C) = 6%nat) -> (forall r, dump r = Ok tt) ->
  snd (oneka Rg mvn dump fuel la entropy g (data_args d rt)) = Ok RNone \/ snd (oneka Rg mvn dump fuel la entropy g (data_args d rt)) = NoFuel.
Proof.
  intros G E Rg mvn dump fuel la entropy g d rt Hd Hla DR Hm Hdump. pose proof (c81_accepted d rt Hd) as A. destruct (c66_values _ A) as (c & Rd).
  eapply c82_no_exception; eauto; [exact (proj1 A)|apply shipped_well_posed; assumption].
Qed.

(** The data set basic with its 25 observations is well-posed. *)
Lemma c82_example : forall rt, exists c l kept, acceptable (data_args basic rt) /\ reads (data_args basic rt) c /\ well_posed (data_args basic rt) c l kept /\ List.length kept = 25%nat.
Proof.
  intros rt. assert (H : In basic shipped) by (right; left; reflexivity). pose proof (c81_accepted basic rt H) as A. destruct (c66_values _ A) as (c & Rd).
  exists c, (map obsR (d_obs basic)), (map obsR (keptL basic)). split; [exact (proj1 A)|]. split; [exact Rd|]. split; [apply shipped_well_posed; assumption|].
  rewrite map_length. vm_compute. reflexivity.
Qed.
