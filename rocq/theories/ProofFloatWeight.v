(** * Weights in binary64 *)
From Coq Require Import ZArith Reals Lra Lia SpecFloat List.
From Flocq Require Import Core.
From Verif Require Import Py Num NumXR Grid ModelField ModelPlot ProofFloat ProofFloatGrow ProofFloatOps ProofFloatMean ProofFloatGrid ProofGeom ProofField ProofInsert ProofFieldProps ProofFieldHist ProofFloatDist ProofFloatInsert.
From Verif Require Import SpecFloats SpecExact SpecField.
Import ListNotations.
Local Open Scope R_scope.

Local Notation fx := (FLT_exp (-1074) 53).
Local Notation F := (generic_format radix2 fx).
Local Notation rd := (round radix2 fx ZnearestE).

(** ** register commutes with taking values *)
Lemma sound_add k a b : (-1074 <= k <= 960)%Z -> sound_weight k a -> sound_weight k b -> fval a + fval b <= powerRZ 2 (53 + k) ->
  sound_weight k (SFadd fprec femax a b) /\ fval (SFadd fprec femax a b) = fval a + fval b.
Proof.
  intros Hk (Fa & Pa & Ua) (Fb & Pb & Ub) B.
  assert (U : on_units k (fval a + fval b)) by (apply units_add; [exact Ua|exact Ub|rewrite Rabs_pos_eq by lra; exact B]).
  destruct (add_units k a b Hk Fa Fb U) as (Q & V). split; [|exact V]. split; [exact Q|]. rewrite V. split; [lra|exact U].
Qed.

Lemma mask_add_in (p : list (list spec_float)) r w lm row v : In row (@mask_add spec_float (SF lm) p r w) -> In v row ->
  exists row0 v0, In row0 p /\ In v0 row0 /\ (v = v0 \/ v = SFadd fprec femax v0 w).
Proof.
  unfold mask_add. intros H1 H2. apply in_map_iff in H1. destruct H1 as ([prow rrow] & <- & H1). apply in_map_iff in H2. destruct H2 as ([v0 b] & E & H2).
  apply in_combine_l in H1. apply in_combine_l in H2. exists prow, v0. split; [exact H1|]. split; [exact H2|]. destruct b; auto.
Qed.
Lemma mask_add_exact lm w : forall (p : list (list spec_float)) r,
  (forall row v, In row p -> In v row -> exact (SFadd fprec femax v w) = xadd (exact v) (exact w)) ->
  @mask_add xr XR (map (map exact) p) r (exact w) = map (map exact) (@mask_add spec_float (SF lm) p r w).
Proof.
  unfold mask_add. induction p as [|row p IH]; intros [|rr r] H; cbn [map combine]; try reflexivity. f_equal.
  - assert (G : forall v, In v row -> exact (SFadd fprec femax v w) = xadd (exact v) (exact w)) by (intros v Hv; exact (H row v (or_introl eq_refl) Hv)).
    clear H IH. revert rr. induction row as [|v row IHr]; intros [|b rr]; cbn [map combine]; try reflexivity. f_equal.
    + destruct b; [|reflexivity]. symmetry. exact (G v (or_introl eq_refl)).
    + apply IHr. intros v' Hv'. exact (G v' (or_intror Hv')).
  - apply IH. intros row' v Hr Hv. exact (H row' v (or_intror Hr) Hv).
Qed.

(** register adds exactly, and the grid stays sound. *)
Lemma c92_register : forall lm k s w W, (-1074 <= k <= 960)%Z -> sound_grid k s -> sound_weight k w ->
  total (exact_field s) W -> W + fval w <= powerRZ 2 (53 + k) ->
  let s' := fst (@register spec_float (SF lm) s w) in
  @register xr XR (exact_field s) (Fin (fval w)) = (exact_field s', Ok tt) /\ sound_grid k s'.
Proof.
  intros lm k s w W Hk G Sw (g & Eg & ET) B s'. unfold exact_field in Eg. cbn [body] in Eg. destruct (body s) as [g0|] eqn:B0; [|discriminate].
  injection Eg as <-. destruct (G g0 B0) as (St & Sv). cbn in ET. rewrite (exact_fin _ (proj1 St)) in ET. injection ET as <-.
  destruct (sound_add k (total_weight g0) w Hk St Sw B) as (St' & Vt).
  assert (A : forall row v, In row (pgrid g0) -> In v row -> sound_weight k (SFadd fprec femax v w) /\ fval (SFadd fprec femax v w) = fval v + fval w).
  { intros row v Hr Hv. destruct (Sv row v Hr Hv) as (S1 & L1). apply sound_add; auto. lra. }
  subst s'. unfold register. unfold exact_field at 1. cbn [body]. rewrite B0. cbn [fst]. split.
  - f_equal. unfold with_body, exact_field. cbn [deltax deltay body]. unfold exact_geom. cbn [nrows ncols xmin xmax ymin ymax pgrid rgrid total_weight]. do 3 f_equal.
    + rewrite <- (exact_fin w (proj1 Sw)). apply mask_add_exact. intros row v Hr Hv. destruct (A row v Hr Hv) as (S1 & V1). destruct (Sv row v Hr Hv) as (S2 & _).
      rewrite (exact_fin _ (proj1 S1)), V1, (exact_fin _ (proj1 S2)), (exact_fin _ (proj1 Sw)). reflexivity.
    + cbn [nadd SF XR]. rewrite (exact_fin _ (proj1 St')), Vt, (exact_fin _ (proj1 St)). reflexivity.
  - intros g1 E1. injection E1 as <-. cbn [total_weight pgrid nadd SF]. split; [exact St'|]. intros row v Hr Hv.
    destruct (mask_add_in _ _ _ _ _ _ Hr Hv) as (row0 & v0 & H1 & H2 & [-> | ->]).
    + destruct (Sv row0 v0 H1 H2) as (S1 & L1). split; [exact S1|]. rewrite Vt. destruct Sw as (_ & P & _). lra.
    + destruct (A row0 v0 H1 H2) as (S1 & V1). destruct (Sv row0 v0 H1 H2) as (_ & L1). split; [exact S1|]. rewrite Vt, V1. lra.
Qed.

(** ** The other calls *)
(** The weight of every location and the total stay. *)
Definition calm (s s' : pfield xr) : Prop :=
  wf s' /\ initialised s' /\ (forall x y v, weight_at s x y v -> weight_at s' x y v) /\ (forall W, total s W -> total s' W).
Lemma calm_refl s : wf s -> initialised s -> calm s s.
Proof. unfold calm. auto. Qed.
Lemma calm_trans s1 s2 s3 : calm s1 s2 -> calm s2 s3 -> calm s1 s3.
Proof. unfold calm. intros (_ & _ & A & B) (C & D & E & F). auto 10. Qed.

Lemma get2_in {A} (l : list (list A)) i j v : get2 l i j = Some v -> exists row, In row l /\ In v row.
Proof.
  unfold get2. destruct ((i <? 0)%Z || (j <? 0)%Z); [discriminate|]. destruct (nth_error l (Z.to_nat i)) as [row|] eqn:E; [|discriminate].
  intros H. exists row. split; eapply nth_error_In; eassumption.
Qed.

Lemma paste_sound k n m v0 rs cs (old : list (list spec_float)) : 
  sound_weight k v0 -> forall T, fval v0 <= T -> (forall row v, In row old -> In v row -> sound_weight k v /\ fval v <= T) ->
  forall row v, In row (paste n m v0 rs cs old) -> In v row -> sound_weight k v /\ fval v <= T.
Proof.
  intros S0 T L0 H row v Hr Hv. unfold paste in Hr. apply in_map_iff in Hr. destruct Hr as (i & <- & _). apply in_map_iff in Hv. destruct Hv as (j & E & _).
  destruct (get2 old (i - rs) (j - cs)) as [a|] eqn:G; [|subst; auto]. subst a. destruct (get2_in _ _ _ _ G) as (row & Hr & Hv). eauto.
Qed.

Lemma zero_sound k lm : sound_weight k (@nZ spec_float (SF lm) 0).
Proof.
  destruct (of_small 0 ltac:(lia)) as (Q & V). cbn [nZ SF]. split; [exact Q|]. rewrite V. split; [lra|]. split; [exists 0%Z; ring|]. rewrite Rabs_R0. apply Rlt_le, p_pos.
Qed.

Lemma expand_sound lm k fuel s a b c d : sound_grid k s -> (exists g, body s = Some g) -> sound_grid k (fst (@expand spec_float (SF lm) fuel s a b c d)).
Proof.
  intros G (g & Eg). unfold expand. destruct (nlt b a); [exact G|]. destruct (nlt d c); [exact G|]. rewrite Eg.
  destruct (expand_more fuel (deltax s) (deltay s) g a b c d) as [g'| |] eqn:E; cbn [update fst]; try exact G.
  intros g1 E1. injection E1 as <-. destruct (G g Eg) as (St & Sv).
  unfold expand_more in E.
  destruct (grow_down fuel a (xmin g) (deltax s) 0) as [[x0 cl]| |]; cbn [bind] in E; try discriminate.
  destruct (grow_up fuel b (xmax g) (deltax s) 0) as [[x1 cr]| |]; cbn [bind] in E; try discriminate.
  destruct (grow_down fuel c (ymin g) (deltay s) 0) as [[y0 rb]| |]; cbn [bind] in E; try discriminate.
  destruct (grow_up fuel d (ymax g) (deltay s) 0) as [[y1 rt]| |]; cbn [bind] in E; try discriminate.
  destruct (negb _ || negb _); injection E as <-; cbn [total_weight pgrid]; (split; [exact St|]); [|exact Sv].
  apply paste_sound; [apply (zero_sound k lm)| |exact Sv]. destruct (of_small 0 ltac:(lia)) as (_ & V). eapply Rle_trans; [apply Req_le; exact V|apply St].
Qed.

Lemma insert_rect {T} {N : Num T} (s : pfield T) g ax ay bx by_ u : body s = Some g -> rect (nrows g) (ncols g) (rgrid g) -> (0 <= nrows g)%Z -> (0 <= ncols g)%Z ->
  fst (insert s ax ay bx by_ u) = s \/
  exists rg, rect (nrows g) (ncols g) rg /\ fst (insert s ax ay bx by_ u) =
    with_body s {| nrows := nrows g; ncols := ncols g; xmin := xmin g; xmax := xmax g; ymin := ymin g; ymax := ymax g;
                   pgrid := pgrid g; rgrid := rg; total_weight := total_weight g |}.
Proof.
  intros Eg Hr Hn Hc. unfold insert. rewrite Eg. unfold insert_geom.
  destruct (nfloor _) as [fl| |]; cbn [bind update fst]; auto. destruct (nfloor _) as [fr| |]; cbn [bind update fst]; auto.
  destruct (nfloor _) as [fb| |]; cbn [bind update fst]; auto. destruct (nfloor _) as [ft| |]; cbn [bind update fst]; auto.
  set (f := fun i j => match get2 (rgrid g) i j with Some b => b | None => false end).
  assert (Et : rgrid g = tab (nrows g) (ncols g) f) by (rewrite (rect_is_tab _ _ _ _ false Hr) at 1; reflexivity).
  rewrite Et, outer_loop by (intros k Hk; apply in_zrange in Hk; lia). cbn [bind update fst]. right. eexists. split; [apply rect_tab; lia|reflexivity].
Qed.

Lemma rgrid_calm s g rg : wf (exact_field s) -> body s = Some g -> rect (nrows g) (ncols g) rg ->
  calm (exact_field s) (exact_field (with_body s {| nrows := nrows g; ncols := ncols g; xmin := xmin g; xmax := xmax g; ymin := ymin g; ymax := ymax g;
                   pgrid := pgrid g; rgrid := rg; total_weight := total_weight g |})).
Proof.
  intros Wf Eg Hr. pose proof Wf as (dx & dy & W1 & W2 & W3 & W4 & W5). unfold exact_field in W5. cbn [body] in W5. rewrite Eg in W5. specialize (W5 _ eq_refl).
  destruct W5 as (Z1 & Z2 & Z3 & Z4 & Z5).
  set (s' := with_body s _). 
  assert (N1 : forall x y v m, has_node (exact_field s) x y v m -> exists m', has_node (exact_field s') x y v m').
  { intros x y v m (g1 & i & j & dx1 & dy1 & x0 & y0 & Q1 & Q2 & Q3 & Q4 & Q5 & Q6 & Q7 & Q8 & Q9). unfold exact_field in Q1. cbn [body] in Q1. rewrite Eg in Q1. injection Q1 as <-.
    cbn in Q4, Q5, Q8, Q9. apply (get2_rect_none _ _ _ _ _ _ _ Z4) in Q9. destruct Q9 as (I1 & I2). cbn in I1, I2. destruct (get2_rect _ _ _ _ _ _ Hr I1 I2) as (m' & Em').
    exists m'. eexists _, i, j, dx1, dy1, x0, y0. split; [reflexivity|]. cbn. auto 10. }
  assert (N2 : forall x y v m, has_node (exact_field s') x y v m -> exists m', has_node (exact_field s) x y v m').
  { intros x y v m (g1 & i & j & dx1 & dy1 & x0 & y0 & Q1 & Q2 & Q3 & Q4 & Q5 & Q6 & Q7 & Q8 & Q9). injection Q1 as <-.
    cbn in Q2, Q3, Q4, Q5, Q8, Q9. apply (get2_rect_none _ _ _ _ _ _ _ Hr) in Q9. destruct Q9 as (I1 & I2). destruct (get2_rect _ _ _ _ _ _ Z4 I1 I2) as (m' & Em').
    exists m'. unfold has_node, exact_field. cbn [body]. rewrite Eg. eexists _, i, j, dx1, dy1, x0, y0. split; [reflexivity|]. cbn. auto 10. }
  split; [|split; [discriminate|split]].
  - exists dx, dy. split; [exact W1|]. split; [exact W2|]. split; [exact W3|]. split; [exact W4|]. intros g1 Q. injection Q as <-.
    split; [exact Z1|]. split; [exact Z2|]. split; [exact Z3|]. split; [exact Hr|exact Z5].
  - intros x y v [(m & H)|(H & ->)].
    + destruct (N1 _ _ _ _ H) as (m' & H'). left. exists m'. exact H'.
    + right. split; [|reflexivity]. intros (w & m & H'). destruct (N2 _ _ _ _ H') as (m' & H2). apply H. exists w, m'. exact H2.
  - intros W (g1 & Q & HW). unfold exact_field in Q. cbn [body] in Q. rewrite Eg in Q. injection Q as <-. eexists. split; [reflexivity|exact HW].
Qed.

Lemma insert_calm lm k s ax ay bx by_ u : wf (exact_field s) -> initialised (exact_field s) -> sound_grid k s ->
  let s' := fst (@insert spec_float (SF lm) s ax ay bx by_ u) in calm (exact_field s) (exact_field s') /\ sound_grid k s'.
Proof.
  intros Wf Ini G s'. subst s'. destruct (body s) as [g|] eqn:Eg.
  2: { exfalso. apply Ini. unfold exact_field. cbn [body]. rewrite Eg. reflexivity. }
  pose proof Wf as (dx & dy & _ & _ & _ & _ & W5). unfold exact_field in W5. cbn [body] in W5. rewrite Eg in W5. specialize (W5 _ eq_refl).
  destruct W5 as (Z1 & Z2 & _ & Z4 & _). cbn in Z1, Z2, Z4.
  destruct (insert_rect (N := SF lm) s g ax ay bx by_ u Eg Z4 ltac:(lia) ltac:(lia)) as [E|(rg & Hr & E)]; rewrite E.
  - split; [apply calm_refl; assumption|exact G].
  - split; [apply rgrid_calm; assumption|]. intros g1 Q. injection Q as <-. cbn. exact (G g Eg).
Qed.
Lemma segments_calm lm k u : forall x y s, wf (exact_field s) -> initialised (exact_field s) -> sound_grid k s ->
  let s' := fst (@insert_segments spec_float (SF lm) s x y u) in calm (exact_field s) (exact_field s') /\ sound_grid k s'.
Proof.
  induction x as [|x0 x IH]; intros y s Wf Ini G; cbn zeta; [split; [apply calm_refl; assumption|exact G]|].
  destruct x as [|x1 x]; [split; [apply calm_refl; assumption|exact G]|].
  destruct y as [|y0 [|y1 y]]; [split; [apply calm_refl; assumption|exact G]|split; [apply calm_refl; assumption|exact G]|].
  cbn [insert_segments]. destruct (insert_calm lm k s x0 y0 x1 y1 u Wf Ini G) as (C & G'). destruct (@insert spec_float (SF lm) s x0 y0 x1 y1 u) as [s1 r]. cbn [fst] in C, G'.
  destruct r; cbn [fst]; auto. pose proof C as (Wf1 & Ini1 & _). destruct (IH (y1 :: y) s1 Wf1 Ini1 G') as (C' & G''). split; [|exact G'']. eapply calm_trans; eassumption.
Qed.

Lemma expand_calm lm k ex ey fuel s a b c d : dyadic ex ey s -> wf (exact_field s) -> sound_grid k s ->
  in_range ex (deltax s) a -> in_range ex (deltax s) b -> in_range ey (deltay s) c -> in_range ey (deltay s) d ->
  let s' := fst (@expand spec_float (SF lm) fuel s a b c d) in calm (exact_field s) (exact_field s') /\ sound_grid k s'.
Proof.
  intros D Wf G Ra Rb Rc Rd s'. pose proof D as (_ & _ & _ & _ & _ & _ & _ & _ & g & Eg & _).
  assert (Ini : initialised (exact_field s)) by (unfold initialised, exact_field; cbn [body]; rewrite Eg; discriminate).
  split; [|apply expand_sound; eauto]. destruct (c89_expand lm fuel ex ey s a b c d D Ra Rb Rc Rd) as (E & _).
  rewrite (exact_fin a (proj1 Ra)), (exact_fin b (proj1 Rb)), (exact_fin c (proj1 Rc)), (exact_fin d (proj1 Rd)) in E.
  subst s'. assert (Z : snd (@expand spec_float (SF lm) fuel s a b c d) = Ok tt \/ fst (@expand spec_float (SF lm) fuel s a b c d) = s).
  { unfold expand. destruct (nlt b a); auto. destruct (nlt d c); auto. rewrite Eg. destruct (expand_more _ _ _ _ _ _ _ _); cbn; auto. }
  destruct Z as [Z|Z]; [|rewrite Z; apply calm_refl; assumption]. rewrite Z in E.
  destruct (expand_keeps _ _ _ _ _ _ _ Wf E) as (a' & Ea & Hok & K1 & _ & K3). rewrite Ea in *. split; [now apply conc_wf|]. split; [apply conc_init|].
  split; [exact K1|]. intros W HW. apply K3. left. exact HW.
Qed.

Lemma other_calm lm k ex ey fuel s o : dyadic ex ey s -> wf (exact_field s) -> sound_grid k s -> in_range_op ex ey (deltax s) (deltay s) o ->
  (forall w, o <> ORegister w) ->
  let s' := fst (@run_op spec_float (SF lm) fuel s o) in calm (exact_field s) (exact_field s') /\ sound_grid k s'.
Proof.
  intros D Wf G R NR s'. subst s'. pose proof D as (_ & _ & _ & _ & _ & _ & _ & _ & g & Eg & _).
  assert (Ini : initialised (exact_field s)) by (unfold initialised, exact_field; cbn [body]; rewrite Eg; discriminate).
  destruct o as [a b c d|ax ay bx by_ u|x y u|w|]; cbn [run_op in_range_op] in *.
  - apply (expand_calm lm k ex ey); tauto.
  - apply insert_calm; assumption.
  - destruct R as (Rx & Ry). unfold rasterize.
    destruct x as [|x0 x]; [split; [apply calm_refl; assumption|exact G]|]. cbn [pymin_list pymax_list].
    destruct y as [|y0 y]; [split; [apply calm_refl; assumption|exact G]|]. cbn [pymin_list pymax_list].
    pose proof (in_range_finite _ _ _ Rx) as Fx. pose proof (in_range_finite _ _ _ Ry) as Fy.
    inversion Fx as [|? ? Fx0 Fxl]; subst. inversion Fy as [|? ? Fy0 Fyl]; subst.
    destruct (min_exact lm x x0 Fx0 Fxl) as (_ & I1). destruct (max_exact lm x x0 Fx0 Fxl) as (_ & I2).
    destruct (min_exact lm y y0 Fy0 Fyl) as (_ & I3). destruct (max_exact lm y y0 Fy0 Fyl) as (_ & I4).
    rewrite Forall_forall in Rx, Ry. apply Rx in I1, I2. apply Ry in I3, I4.
    destruct (expand_calm lm k ex ey fuel s _ _ _ _ D Wf G I1 I2 I3 I4) as (C & G1).
    destruct (@expand spec_float (SF lm) fuel s _ _ _ _) as [s1 r1]. cbn [fst] in C, G1.
    destruct r1; cbn [fst]; auto. pose proof C as (Wf1 & Ini1 & _).
    destruct (segments_calm lm k u (x0 :: x) (y0 :: y) s1 Wf1 Ini1 G1) as (C' & G2). split; [|exact G2]. eapply calm_trans; eassumption.
  - exfalso. apply (NR w). reflexivity.
  - unfold reset. rewrite Eg. cbn [fst]. split.
    + destruct (c14_reset_exact (exact_field s) Wf Ini) as (s1 & E & Wf1 & K1 & K2 & _).
      assert (E' : s1 = exact_field (fst (@reset spec_float s))).
      { unfold reset in E |- *. unfold exact_field at 1 in E. cbn [body] in E. rewrite Eg in E |- *. injection E as <-. reflexivity. }
      unfold reset in E'. rewrite Eg in E'. cbn [fst] in E'. rewrite <- E'. split; [exact Wf1|]. split; [rewrite E'; discriminate|]. split; [|exact K2].
      intros u v w [(m & H)|(H & ->)].
      * left. exists false. apply K1. split; [reflexivity|]. exists m. exact H.
      * right. split; [|reflexivity]. intros (w & m & H'). apply K1 in H'. destruct H' as (_ & m' & H'). apply H. exists w, m'. exact H'.
    + intros g1 Q. injection Q as <-. cbn. exact (G g Eg).
Qed.

(** ** Whole histories *)
Lemma load_nonneg k l : Forall (sound_op k) l -> 0 <= load l.
Proof.
  induction 1 as [|o l Ho _ IH]; [cbn; lra|]. destruct o; cbn [load sound_op] in *; try exact IH. destruct Ho as (_ & P & _). lra.
Qed.

(** Every location's weight is its credit, and the total is the sum of the registered weights: no rounding. *)
Lemma c92_history : forall lm fuel ex ey k l s x y v W,
  dyadic ex ey s -> wf (exact_field s) -> sound_grid k s -> (-1074 <= k <= 960)%Z ->
  Forall (in_range_op ex ey (deltax s) (deltay s)) l -> Forall (sound_op k) l ->
  weight_at (exact_field s) x y v -> total (exact_field s) W -> W + load l <= powerRZ 2 (53 + k) ->
  let s' := @run_ops spec_float (SF lm) fuel s l in
  exists c, Credit lm fuel x y s l c /\ weight_at (exact_field s') x y (v + c) /\ total (exact_field s') (W + load l) /\
    dyadic ex ey s' /\ wf (exact_field s') /\ sound_grid k s'.
Proof.
  intros lm fuel ex ey k l. induction l as [|o l IH]; intros s x y v W D Wf G Hk R S HV HW B s'.
  - exists 0. subst s'. cbn [run_ops fold_left load] in *. rewrite !Rplus_0_r. split; [constructor|]. auto 10.
  - inversion R as [|? ? R1 R2]; subst. inversion S as [|? ? S1 S2]; subst.
    destruct (step_shape lm fuel ex ey s (exact_field s) o D R1 eq_refl eq_refl eq_refl) as (D1 & X1 & Y1 & _).
    pose proof (load_nonneg k l S2) as L0.
    assert (Next : s' = @run_ops spec_float (SF lm) fuel (fst (@run_op spec_float (SF lm) fuel s o)) l) by reflexivity.
    destruct (Classical_Prop.classic (exists w, o = ORegister w)) as [(w & ->)|NR].
    + cbn [load sound_op run_op] in *. assert (B1 : W + fval w <= powerRZ 2 (53 + k)) by lra.
      destruct (c92_register lm k s w W Hk G S1 HW B1) as (E & G1). cbn zeta in E, G1. set (s1 := fst (@register spec_float (SF lm) s w)) in *.
      assert (Ini : initialised (exact_field s)) by (destruct HW as (g & Eg & _); unfold initialised; rewrite Eg; discriminate).
      destruct (c14_register_exact (exact_field s) (fval w) Wf Ini) as (t & E' & Wf1 & K1 & K2 & _). rewrite E in E'. injection E' as <-.
      assert (R2' : Forall (in_range_op ex ey (deltax s1) (deltay s1)) l) by (rewrite X1, Y1; exact R2).
      assert (B2 : W + fval w + load l <= powerRZ 2 (53 + k)) by lra.
      assert (HV1 : exists b, (b = true <-> marked (exact_field s) x y) /\ weight_at (exact_field s1) x y (v + (if b then fval w else 0))).
      { destruct HV as [(m & H)|(H & ->)].
        - exists m. split.
          + split; [intros ->; exists v; exact H|]. intros (v' & H'). destruct (has_node_fun _ _ _ _ _ _ _ Wf H H') as (_ & ->). reflexivity.
          + left. exists false. apply K1. split; [reflexivity|]. exists v, m. split; [exact H|]. destruct m; lra.
        - exists false. split.
          + split; [discriminate|]. intros (v' & H'). destruct H. exists v', true. exact H'.
          + right. split; [|lra]. intros (v' & m & H'). apply K1 in H'. destruct H' as (_ & v0 & m0 & H' & _). apply H. exists v0, m0. exact H'. }
      destruct HV1 as (b & Hb & HV1). specialize (K2 W HW).
      destruct (IH s1 x y _ _ D1 Wf1 G1 Hk R2' S2 HV1 K2 B2) as (c & HC & Q1 & Q2 & Q3).
      destruct b.
      * exists (fval w + c). split; [apply C_register_marked; [apply Hb; reflexivity|exact HC]|].
        rewrite Next. replace (v + (fval w + c)) with (v + fval w + c) by ring. replace (W + (fval w + load l)) with (W + fval w + load l) by ring. auto.
      * exists c. split; [apply C_register_clear; [intros X; apply Hb in X; discriminate|exact HC]|].
        rewrite Next. rewrite Rplus_0_r in Q1. replace (W + (fval w + load l)) with (W + fval w + load l) by ring. auto.
    + assert (NR' : forall w, o <> ORegister w) by (intros w E; apply NR; eauto).
      destruct (other_calm lm k ex ey fuel s o D Wf G R1 NR') as ((Wf1 & Ini1 & C1 & C2) & G1). cbn zeta in *.
      set (s1 := fst (@run_op spec_float (SF lm) fuel s o)) in *.
      assert (EL : load (o :: l) = load l) by (destruct o; try reflexivity; exfalso; apply (NR' w); reflexivity). rewrite EL in *.
      assert (R2' : Forall (in_range_op ex ey (deltax s1) (deltay s1)) l) by (rewrite X1, Y1; exact R2).
      destruct (IH s1 x y _ _ D1 Wf1 G1 Hk R2' S2 (C1 _ _ _ HV) (C2 _ HW) B) as (c & HC & Q).
      exists c. split; [apply C_other; assumption|]. rewrite Next. exact Q.
Qed.

(** The credit is determined by the history. *)
Lemma c92_credit_unique : forall lm fuel x y s l c c', Credit lm fuel x y s l c -> Credit lm fuel x y s l c' -> c = c'.
Proof.
  intros lm fuel x y s l c c' H. revert c'. induction H as [s|s w l c M H IH|s w l c M H IH|s o l c N H IH]; intros c' H'; inversion H'; subst;
    first [reflexivity|contradiction|apply IH; assumption|f_equal; apply IH; assumption|exfalso; match goal with K : forall w, _ <> ORegister w |- _ => eapply K; reflexivity end].
Qed.

(** One quotient: finite, between 0 and 1, within a relative 2^-53. *)
Lemma prob_value k s g row v : sound_grid k s -> body s = Some g -> 0 < fval (total_weight g) -> In row (pgrid g) -> In v row ->
  let p := SFdiv fprec femax v (total_weight g) in let q := fval v / fval (total_weight g) in
  ffinite p /\ 0 <= fval p <= 1 /\ (fval p = 0 <-> fval v = 0) /\ (fval v = fval (total_weight g) -> fval p = 1) /\ Rabs (fval p - q) <= / 2 ^ 53 * q.
Proof.
  intros G Eg P Hr Hv p q. destruct (G g Eg) as (St & Sv). destruct (Sv row v Hr Hv) as (S1 & L). destruct S1 as (F1 & P1 & U1), St as (F2 & _ & U2).
  assert (Q : 0 <= fval v / fval (total_weight g) <= 1).
  { split; [apply Rmult_le_pos; [exact P1|apply Rlt_le, Rinv_0_lt_compat, P]|]. apply Rmult_le_reg_r with (fval (total_weight g)); [exact P|]. unfold Rdiv. rewrite Rmult_assoc, Rinv_l by lra. lra. }
  assert (F0 : F 0) by apply generic_format_0. assert (FF1 : F 1) by (apply (F_bpow 0); lia).
  pose proof (rd_between 0 _ 1 F0 FF1 Q) as R.
  assert (B : Rabs (rd (fval v / fval (total_weight g))) < bpow radix2 1024).
  { rewrite Rabs_pos_eq by lra. apply Rle_lt_trans with 1; [lra|]. change 1 with (bpow radix2 0). apply bpow_lt. lia. }
  destruct (div_rd v (total_weight g) F1 F2 ltac:(lra) B) as (Fp & Vp). fold p in Fp, Vp. fold q in Q, R, B, Vp.
  assert (Low : fval v <> 0 -> bpow radix2 (-53) <= q).
  { intros Z. assert (L1 : powerRZ 2 k <= fval v) by (apply (unit_pos k v); [split; assumption|lra]).
    assert (L2 : fval (total_weight g) <= powerRZ 2 (53 + k)) by (destruct U2 as (_ & U2); apply Rabs_le_inv in U2; lra).
    unfold q. apply Rmult_le_reg_r with (fval (total_weight g)); [exact P|]. unfold Rdiv. rewrite Rmult_assoc, Rinv_l, Rmult_1_r by lra.
    rewrite p_bpow in L1, L2. eapply Rle_trans; [|exact L1]. eapply Rle_trans; [apply Rmult_le_compat_l; [apply bpow_ge_0|exact L2]|].
    rewrite <- bpow_plus. apply bpow_le. lia. }
  assert (R0 : fval v = 0 -> q = 0) by (unfold q; intros ->; unfold Rdiv; apply Rmult_0_l).
  assert (R1 : rd 0 = 0) by (apply round_0; typeclasses eauto).
  split; [exact Fp|]. rewrite Vp. split; [exact R|]. split; [split|split].
  - intros E0. destruct (Req_dec (fval v) 0) as [Z|Z]; [exact Z|exfalso]. pose proof (rd_le _ _ (Low Z)) as L4.
    rewrite (rd_F _ (F_bpow (-53) ltac:(lia))), E0 in L4. pose proof (bpow_gt_0 radix2 (-53)). lra.
  - intros Z. rewrite (R0 Z). exact R1.
  - unfold q. intros ->. unfold Rdiv. rewrite Rinv_r by lra. apply rd_F. exact FF1.
  - destruct (Req_dec (fval v) 0) as [Z|Z]; [rewrite (R0 Z), R1, Rminus_0_r, Rabs_R0; lra|].
    assert (H : bpow radix2 (-1022) <= q) by (eapply Rle_trans; [|exact (Low Z)]; apply bpow_le; lia). pose proof (rd_rel q H). apply Rabs_le. lra.
Qed.

(** The probabilities drawn by the probability plot: each is the quotient of the node's weight and the total, within a relative 2^-53; it lies between 0 and 1, is 0
    exactly for weight 0, and 1 for a node in every capture zone. *)
Lemma c92_probability : forall lm k s X Y P, sound_grid k s -> @create_probability_plot spec_float (SF lm) s = Ok (X, Y, P) ->
  exists g, body s = Some g /\ 0 < fval (total_weight g) /\
  forall i j p, get2 P i j = Some p -> exists v, get2 (pgrid g) i j = Some v /\
    let q := fval v / fval (total_weight g) in
    ffinite p /\ 0 <= fval p <= 1 /\ (fval p = 0 <-> fval v = 0) /\ (fval v = fval (total_weight g) -> fval p = 1) /\ Rabs (fval p - q) <= / 2 ^ 53 * q.
Proof.
  intros lm k s X Y P G E. unfold create_probability_plot in E. destruct (body s) as [g|] eqn:B; [|discriminate]. exists g. split; [reflexivity|].
  destruct (G g B) as (St & _). destruct (@nle spec_float (SF lm) (total_weight g) (nZ 0)) eqn:L; [discriminate|].
  assert (T0 : 0 < fval (total_weight g)).
  { destruct (of_small 0 ltac:(lia)) as (F0 & V0). change (SFleb (total_weight g) (f_of_Z 0) = false) in L. rewrite (fleb _ _ (proj1 St) F0), V0 in L.
    destruct (Rle_bool_spec (fval (total_weight g)) 0); [discriminate|assumption]. }
  split; [exact T0|]. destruct (linspace (xmin g) (xmax g) (ncols g)) as [X'| |]; try discriminate. cbn [bind] in E. destruct (linspace (ymin g) (ymax g) (nrows g)) as [Y'| |]; try discriminate. cbn [bind] in E. injection E as _ _ <-.
  intros i j p H. unfold prob_grid in H. rewrite get2_map in H. destruct (get2 (pgrid g) i j) as [v|] eqn:Ev; [|discriminate]. injection H as <-.
  exists v. split; [reflexivity|]. unfold get2 in Ev. destruct (_ || _)%bool; [discriminate|]. destruct (nth_error (pgrid g) (Z.to_nat i)) as [row|] eqn:Er; [|discriminate].
  apply nth_error_In in Er. apply nth_error_In in Ev. exact (prob_value k s g row v G B T0 Er Ev).
Qed.
