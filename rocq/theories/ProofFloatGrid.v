(** * The geometry of a dyadic grid is exact in binary64 *)
From Coq Require Import ZArith Reals Lra Lia SpecFloat List.
From Flocq Require Import Core BinarySingleNaN.
From Verif Require Import Py Num Grid ModelField SpecFloats SpecExact ProofFloat ProofFloatGrow ProofFloatOps ProofFloatMean.
Import ListNotations.
Local Open Scope R_scope.

Local Notation fx := (FLT_exp (-1074) 53).
Local Notation F := (generic_format radix2 fx).
Local Notation rd := (round radix2 fx ZnearestE).

Lemma sub_rd x y : ffinite x -> ffinite y -> Rabs (rd (fval x - fval y)) < bpow radix2 1024 ->
  ffinite (SFsub fprec femax x y) /\ fval (SFsub fprec femax x y) = rd (fval x - fval y).
Proof.
  intros Hx Hy B. destruct (finite_b x Hx) as (a & -> & Fa & Ea). destruct (finite_b y Hy) as (b & -> & Fb & Eb). rewrite <- Ea, <- Eb in *.
  rewrite sfsub_bminus. pose proof (Bminus_correct fprec femax ProofFloat.Hprec ProofFloat.Hmax mode_NE a b Fa Fb) as H.
  change (round radix2 (SpecFloat.fexp fprec femax) (round_mode mode_NE)) with rd in H. rewrite Rlt_bool_true in H by exact B.
  destruct H as (H1 & H2 & _). destruct (b_finite _ H2) as (Q & Qe). split; [exact Q|]. etransitivity; [exact Qe|exact H1].
Qed.

(** ** Whole numbers of units *)
Lemma p_bpow e : powerRZ 2 e = bpow radix2 e.
Proof. symmetry. apply bpow_powerRZ. Qed.

Lemma mult_F e v : (-1074 <= e)%Z -> (exists n : Z, v = IZR n * powerRZ 2 e) -> Rabs v <= powerRZ 2 (53 + e) -> F v.
Proof.
  intros He (n & E) B. rewrite !p_bpow in *. rewrite E in B. rewrite Rabs_mult, (Rabs_pos_eq (bpow _ _)) in B by apply bpow_ge_0.
  rewrite bpow_plus in B. pose proof (bpow_gt_0 radix2 e). assert (Rabs (IZR n) <= bpow radix2 53) by nra.
  rewrite <- abs_IZR in H0. change (bpow radix2 53) with (IZR (2 ^ 53)) in H0. apply le_IZR in H0.
  destruct (Z.eq_dec (Z.abs n) (2 ^ 53)) as [Q|Q].
  - assert (G : F (bpow radix2 (53 + e))) by (apply F_bpow; lia).
    assert (D : v = bpow radix2 (53 + e) \/ v = - bpow radix2 (53 + e)).
    { rewrite E, bpow_plus. change (bpow radix2 53) with (IZR (2 ^ 53)). destruct (Z.abs_eq_or_opp n) as [A|A]; rewrite A in Q; [left; rewrite Q; reflexivity|right].
      replace n with (- 2 ^ 53)%Z by lia. rewrite opp_IZR. ring. }
    destruct D as [->| ->]; [exact G|apply generic_format_opp; exact G].
  - apply generic_format_FLT. exists (Float radix2 n e); cbn [Fnum Fexp]; [rewrite E; reflexivity|change (Zpower radix2 53) with (2 ^ 53)%Z; lia|exact He].
Qed.
Lemma p_pos e : 0 < powerRZ 2 e.
Proof. rewrite p_bpow. apply bpow_gt_0. Qed.
Lemma units_F e v : (-1074 <= e)%Z -> on_units e v -> F v.
Proof. intros He (M & B). apply (mult_F e); [exact He|exact M|exact B]. Qed.

Lemma units_small e v : (e <= 960)%Z -> on_units e v -> Rabs v < bpow radix2 1024.
Proof. intros He (_ & B). rewrite p_bpow in B. eapply Rle_lt_trans; [exact B|]. apply bpow_lt. lia. Qed.

Lemma units_add e v w : on_units e v -> on_units e w -> Rabs (v + w) <= powerRZ 2 (53 + e) -> on_units e (v + w).
Proof. intros ((n & E) & _) ((m & E') & _) B. split; [exists (n + m)%Z; rewrite plus_IZR, E, E'; ring|exact B]. Qed.
Lemma units_sub e v w : on_units e v -> on_units e w -> Rabs (v - w) <= powerRZ 2 (53 + e) -> on_units e (v - w).
Proof. intros ((n & E) & _) ((m & E') & _) B. split; [exists (n - m)%Z; rewrite minus_IZR, E, E'; ring|exact B]. Qed.
Lemma units_mulZ e k v : on_units e v -> Rabs (IZR k * v) <= powerRZ 2 (53 + e) -> on_units e (IZR k * v).
Proof. intros ((n & E) & _) B. split; [exists (k * n)%Z; rewrite mult_IZR, E; ring|exact B]. Qed.

Lemma add_units e x y : (-1074 <= e <= 960)%Z -> ffinite x -> ffinite y -> on_units e (fval x + fval y) ->
  ffinite (SFadd fprec femax x y) /\ fval (SFadd fprec femax x y) = fval x + fval y.
Proof.
  intros He Hx Hy U. assert (E : rd (fval x + fval y) = fval x + fval y) by (apply rd_F; apply (units_F e); [lia|exact U]).
  destruct (add_rd x y Hx Hy) as (Q & V); [rewrite E; apply (units_small e); [lia|exact U]|]. rewrite E in V. auto.
Qed.
Lemma sub_units e x y : (-1074 <= e <= 960)%Z -> ffinite x -> ffinite y -> on_units e (fval x - fval y) ->
  ffinite (SFsub fprec femax x y) /\ fval (SFsub fprec femax x y) = fval x - fval y.
Proof.
  intros He Hx Hy U. assert (E : rd (fval x - fval y) = fval x - fval y) by (apply rd_F; apply (units_F e); [lia|exact U]).
  destruct (sub_rd x y Hx Hy) as (Q & V); [rewrite E; apply (units_small e); [lia|exact U]|]. rewrite E in V. auto.
Qed.
Lemma mul_units e x y : (-1074 <= e <= 960)%Z -> ffinite x -> ffinite y -> on_units e (fval x * fval y) ->
  ffinite (SFmul fprec femax x y) /\ fval (SFmul fprec femax x y) = fval x * fval y.
Proof.
  intros He Hx Hy U. assert (E : rd (fval x * fval y) = fval x * fval y) by (apply rd_F; apply (units_F e); [lia|exact U]).
  destruct (mul_rd x y Hx Hy) as (Q & V); [rewrite E; apply (units_small e); [lia|exact U]|]. rewrite E in V. auto.
Qed.

(** ** Comparisons *)
Lemma exact_fin x : ffinite x -> exact x = Fin (fval x).
Proof. intros (_ & H). destruct x; try contradiction; reflexivity. Qed.
Lemma exact_int z : (Z.abs z <= 2 ^ 53)%Z -> exact (f_of_Z z) = Fin (IZR z).
Proof. intros H. destruct (of_small z H) as (Q & V). now rewrite (exact_fin _ Q), V. Qed.

Lemma exact_le lm x y : ffinite x -> ffinite y -> @nle xr XR (exact x) (exact y) = @nle spec_float (SF lm) x y.
Proof.
  intros Hx Hy. rewrite (exact_fin x Hx), (exact_fin y Hy). cbn [nle XR SF xle]. rewrite fleb by assumption. unfold Rleb.
  destruct (Rle_dec (fval x) (fval y)); [rewrite Rle_bool_true by assumption; reflexivity|rewrite Rle_bool_false by lra; reflexivity].
Qed.
Lemma fltb (x y : spec_float) : ffinite x -> ffinite y -> SFltb x y = Rlt_bool (fval x) (fval y).
Proof.
  intros Hx Hy. destruct (finite_b x Hx) as (a & -> & Fa & Ea). destruct (finite_b y Hy) as (b & -> & Fb & Eb). rewrite <- Ea, <- Eb.
  apply (Bltb_correct fprec femax a b Fa Fb).
Qed.
Lemma exact_lt lm x y : ffinite x -> ffinite y -> @nlt xr XR (exact x) (exact y) = @nlt spec_float (SF lm) x y.
Proof.
  intros Hx Hy. rewrite (exact_fin x Hx), (exact_fin y Hy). cbn [nlt XR SF xlt]. rewrite fltb by assumption. unfold Rltb.
  destruct (Rlt_dec (fval x) (fval y)); [rewrite Rlt_bool_true by assumption; reflexivity|rewrite Rlt_bool_false by lra; reflexivity].
Qed.

(** ** The growth loops *)
Definition res_map {A B} (f : A -> B) (r : res A) : res B :=
  match r with Ok a => Ok (f a) | Raise e => Raise e | NoFuel => NoFuel end.
Definition good e v := ffinite v /\ on_units e (fval v).
Definition edge (p : spec_float * Z) : xr * Z := (exact (fst p), snd p).

Lemma down_exact lm e x d : (-1074 <= e <= 960)%Z -> in_range e d x -> good e d -> 0 < fval d ->
  forall fuel lo n, good e lo ->
  @grow_down xr XR fuel (exact x) (exact lo) (exact d) n = res_map edge (@grow_down spec_float (SF lm) fuel x lo d n) /\
  (forall l k, @grow_down spec_float (SF lm) fuel x lo d n = Ok (l, k) -> good e l).
Proof.
  intros He (Hx & Bx) (Hd & Ud) Pd. induction fuel as [|fuel IH]; intros lo n (Hl & Ul); cbn [grow_down]; [split; [reflexivity|discriminate]|].
  rewrite (exact_le lm) by assumption. cbn [nle SF]. rewrite fleb by assumption.
  destruct (Rle_bool_spec (fval x) (fval lo)) as [L|L].
  - assert (U : on_units e (fval lo - fval d)).
    { apply units_sub; [assumption|assumption|]. destruct Ul as (_ & B). apply Rabs_le_inv in B. revert Bx. unfold Rabs at 1. destruct Rcase_abs; intros; apply Rabs_le; lra. }
    destruct (sub_units e lo d He Hl Hd U) as (Q & V).
    replace (@nsub xr XR (exact lo) (exact d)) with (exact (@nsub spec_float (SF lm) lo d)).
    + apply IH. split; [exact Q|]. cbn [nsub SF]. rewrite V. exact U.
    + cbn [nsub SF]. rewrite (exact_fin _ Q), V, (exact_fin lo Hl), (exact_fin d Hd). reflexivity.
  - split; [reflexivity|]. intros l k E. injection E as <- <-. split; assumption.
Qed.

Lemma up_exact lm e x d : (-1074 <= e <= 960)%Z -> in_range e d x -> good e d -> 0 < fval d ->
  forall fuel hi n, good e hi ->
  @grow_up xr XR fuel (exact x) (exact hi) (exact d) n = res_map edge (@grow_up spec_float (SF lm) fuel x hi d n) /\
  (forall l k, @grow_up spec_float (SF lm) fuel x hi d n = Ok (l, k) -> good e l).
Proof.
  intros He (Hx & Bx) (Hd & Ud) Pd. induction fuel as [|fuel IH]; intros hi n (Hl & Ul); cbn [grow_up]; [split; [reflexivity|discriminate]|].
  rewrite (exact_le lm) by assumption. cbn [nle SF]. rewrite fleb by assumption.
  destruct (Rle_bool_spec (fval hi) (fval x)) as [L|L].
  - assert (U : on_units e (fval hi + fval d)).
    { apply units_add; [assumption|assumption|]. destruct Ul as (_ & B). apply Rabs_le_inv in B. revert Bx. unfold Rabs at 1. destruct Rcase_abs; intros; apply Rabs_le; lra. }
    destruct (add_units e hi d He Hl Hd U) as (Q & V).
    replace (@nadd xr XR (exact hi) (exact d)) with (exact (@nadd spec_float (SF lm) hi d)).
    + apply IH. split; [exact Q|]. cbn [nadd SF]. rewrite V. exact U.
    + cbn [nadd SF]. rewrite (exact_fin _ Q), V, (exact_fin hi Hl), (exact_fin d Hd). reflexivity.
  - split; [reflexivity|]. intros l k E. injection E as <- <-. split; assumption.
Qed.

Lemma get2_map {A B} (f : A -> B) l i j : get2 (map (map f) l) i j = option_map f (get2 l i j).
Proof.
  unfold get2. destruct ((i <? 0)%Z || (j <? 0)%Z); [reflexivity|]. rewrite nth_error_map.
  destruct (nth_error l (Z.to_nat i)); [|reflexivity]. cbn [option_map]. apply nth_error_map.
Qed.
Lemma paste_map {A B} (f : A -> B) n m v rs cs (old : list (list A)) :
  paste n m (f v) rs cs (map (map f) old) = map (map f) (paste n m v rs cs old).
Proof.
  unfold paste. rewrite map_map. apply map_ext. intros i. rewrite map_map. apply map_ext. intros j.
  rewrite get2_map. destruct (get2 old _ _); reflexivity.
Qed.

Lemma dyadic_good ex ey g : dyadic_geom ex ey g -> good ex (xmin g) /\ good ex (xmax g) /\ good ey (ymin g) /\ good ey (ymax g).
Proof. intros (H & H'). split; [apply H; cbn; auto|]. split; [apply H; cbn; auto|]. split; apply H'; cbn; auto. Qed.

(** expand commutes with taking values, and the field stays dyadic. *)
Lemma c89_expand : forall lm fuel ex ey s a b c d, dyadic ex ey s ->
  in_range ex (deltax s) a -> in_range ex (deltax s) b -> in_range ey (deltay s) c -> in_range ey (deltay s) d ->
  let r := @expand spec_float (SF lm) fuel s a b c d in
  @expand xr XR fuel (exact_field s) (exact a) (exact b) (exact c) (exact d) = (exact_field (fst r), snd r) /\ dyadic ex ey (fst r).
Proof.
  intros lm fuel ex ey s a b c d D Ra Rb Rc Rd. pose proof D as (He & He' & Hdx & Px & Ux & Hdy & Py & Uy & g & Eg & Dg).
  cbn zeta. unfold expand.
  rewrite (exact_lt lm) by (apply Rb || apply Ra). destruct (@nlt spec_float (SF lm) b a); [split; [reflexivity|exact D]|].
  rewrite (exact_lt lm) by (apply Rc || apply Rd). destruct (@nlt spec_float (SF lm) d c); [split; [reflexivity|exact D]|].
  unfold exact_field at 1. cbn [body]. rewrite Eg. unfold expand_more. cbn [deltax deltay exact_field exact_geom xmin xmax ymin ymax nrows ncols pgrid rgrid total_weight].
  destruct (dyadic_good ex ey g Dg) as (G1 & G2 & G3 & G4).
  destruct (down_exact lm ex a (deltax s) He Ra (conj Hdx Ux) Px fuel (xmin g) 0%Z G1) as (E1 & K1). rewrite E1. clear E1.
  destruct (@grow_down spec_float (SF lm) fuel a (xmin g) (deltax s) 0) as [[x0 cl]| |]; cbn [res_map bind edge fst snd]; try (split; [reflexivity|exact D]).
  specialize (K1 _ _ eq_refl).
  destruct (up_exact lm ex b (deltax s) He Rb (conj Hdx Ux) Px fuel (xmax g) 0%Z G2) as (E1 & K2). rewrite E1. clear E1.
  destruct (@grow_up spec_float (SF lm) fuel b (xmax g) (deltax s) 0) as [[x1 cr]| |]; cbn [res_map bind edge fst snd]; try (split; [reflexivity|exact D]).
  specialize (K2 _ _ eq_refl).
  destruct (down_exact lm ey c (deltay s) He' Rc (conj Hdy Uy) Py fuel (ymin g) 0%Z G3) as (E1 & K3). rewrite E1. clear E1.
  destruct (@grow_down spec_float (SF lm) fuel c (ymin g) (deltay s) 0) as [[y0 rb]| |]; cbn [res_map bind edge fst snd]; try (split; [reflexivity|exact D]).
  specialize (K3 _ _ eq_refl).
  destruct (up_exact lm ey d (deltay s) He' Rd (conj Hdy Uy) Py fuel (ymax g) 0%Z G4) as (E1 & K4). rewrite E1. clear E1.
  destruct (@grow_up spec_float (SF lm) fuel d (ymax g) (deltay s) 0) as [[y1 rt]| |]; cbn [res_map bind edge fst snd]; try (split; [reflexivity|exact D]).
  specialize (K4 _ _ eq_refl).
  assert (DD : forall g', xmin g' = x0 -> xmax g' = x1 -> ymin g' = y0 -> ymax g' = y1 -> dyadic ex ey (with_body s g')).
  { intros g' Q1 Q2 Q3 Q4. split; [exact He|]. split; [exact He'|]. cbn [deltax deltay body with_body]. do 6 (split; [assumption|]). exists g'. split; [reflexivity|].
    split; intros v [<-|[<-|[]]]; [rewrite Q1|rewrite Q2|rewrite Q3|rewrite Q4]; assumption. }
  destruct (negb _ || negb _); cbn [update fst snd].
  - split; [|apply DD; reflexivity]. f_equal. unfold with_body, exact_field. cbn [deltax deltay body]. unfold exact_geom.
    cbn [xmin xmax ymin ymax nrows ncols pgrid rgrid total_weight]. do 3 f_equal.
    change (@nZ xr XR 0) with (Fin 0). rewrite <- (exact_int 0) by lia. apply paste_map.
  - split; [reflexivity|apply DD; reflexivity].
Qed.

(** ** Whole histories *)
Lemma expand_shape fuel (t t' : pfield xr) a b c d :
  deltax t = deltax t' -> deltay t = deltay t' -> shape t = shape t' ->
  let r := expand fuel t a b c d in let r' := expand fuel t' a b c d in
  shape (fst r) = shape (fst r') /\ deltax (fst r) = deltax t /\ deltay (fst r) = deltay t.
Proof.
  intros Ex Ey Es r r'. subst r r'. unfold expand. destruct (nlt b a); [auto|]. destruct (nlt d c); [auto|].
  unfold shape in Es. destruct (body t) as [g|] eqn:Bt, (body t') as [g'|] eqn:Bt'; try discriminate.
  - injection Es as N1 N2 E1 E2 E3 E4. unfold expand_more. rewrite <- Ex, <- Ey, <- N1, <- N2, <- E1, <- E2, <- E3, <- E4.
    destruct (grow_down fuel a (xmin g) (deltax t) 0) as [[x0 cl]| |]; cbn [bind update fst]; try (unfold shape; rewrite Bt, Bt'; rewrite N1, N2, E1, E2, E3, E4; auto; fail).
    destruct (grow_up fuel b (xmax g) (deltax t) 0) as [[x1 cr]| |]; cbn [bind update fst]; try (unfold shape; rewrite Bt, Bt'; rewrite N1, N2, E1, E2, E3, E4; auto; fail).
    destruct (grow_down fuel c (ymin g) (deltay t) 0) as [[y0 rb]| |]; cbn [bind update fst]; try (unfold shape; rewrite Bt, Bt'; rewrite N1, N2, E1, E2, E3, E4; auto; fail).
    destruct (grow_up fuel d (ymax g) (deltay t) 0) as [[y1 rt]| |]; cbn [bind update fst]; try (unfold shape; rewrite Bt, Bt'; rewrite N1, N2, E1, E2, E3, E4; auto; fail).
    destruct (negb _ || negb _); cbn [update fst]; unfold shape, with_body; cbn; auto.
  - unfold expand_first. rewrite <- Ex, <- Ey.
    destruct (nceil _) as [cx| |]; cbn [bind update fst]; try (unfold shape; rewrite Bt, Bt'; auto; fail).
    destruct (nceil _) as [cy| |]; cbn [bind update fst]; try (unfold shape; rewrite Bt, Bt'; auto; fail).
    unfold shape, with_body; cbn; auto.
Qed.

(** insert, register and reset leave spacings and shape alone. *)
Section Keep.
  Context {T : Type} {N : Num T}.
  Definition kept (s s' : pfield T) : Prop :=
    deltax s' = deltax s /\ deltay s' = deltay s /\
    match body s, body s' with
    | Some g, Some g' => nrows g' = nrows g /\ ncols g' = ncols g /\ xmin g' = xmin g /\ xmax g' = xmax g /\ ymin g' = ymin g /\ ymax g' = ymax g
    | None, None => True
    | _, _ => False
    end.
  Lemma kept_refl s : kept s s.
  Proof. unfold kept. destruct (body s); auto 10. Qed.
  Lemma kept_trans s s' s'' : kept s s' -> kept s' s'' -> kept s s''.
  Proof.
    unfold kept. intros (A & B & C) (A' & B' & C'). split; [congruence|]. split; [congruence|].
    destruct (body s), (body s'), (body s''); try contradiction; auto. intuition congruence.
  Qed.
  Lemma insert_kept s ax ay bx by_ u : kept s (fst (insert s ax ay bx by_ u)).
  Proof.
    unfold insert. destruct (body s) as [g|] eqn:B; [|apply kept_refl].
    destruct (insert_geom (deltax s) (deltay s) g ax ay bx by_ u) as [g'| |] eqn:E; cbn [update fst]; try apply kept_refl.
    unfold kept. rewrite B. cbn. split; [reflexivity|]. split; [reflexivity|].
    unfold insert_geom in E.
    destruct (nfloor _); cbn [bind] in E; try discriminate. destruct (nfloor _); cbn [bind] in E; try discriminate.
    destruct (nfloor _); cbn [bind] in E; try discriminate. destruct (nfloor _); cbn [bind] in E; try discriminate.
    destruct (for_in _ _ _); cbn [bind] in E; try discriminate. injection E as <-. cbn. auto 10.
  Qed.
  Lemma segments_kept u : forall x y s, kept s (fst (insert_segments s x y u)).
  Proof.
    induction x as [|x0 x IH]; intros y s; [apply kept_refl|]. destruct x as [|x1 x]; [apply kept_refl|].
    destruct y as [|y0 [|y1 y]]; [apply kept_refl|apply kept_refl|].
    cbn [insert_segments]. pose proof (insert_kept s x0 y0 x1 y1 u) as K. destruct (insert s x0 y0 x1 y1 u) as [s' r]. cbn [fst] in K.
    destruct r; cbn [fst]; try exact K. eapply kept_trans; [exact K|]. exact (IH (y1 :: y) s').
  Qed.
  Lemma register_kept s w : kept s (fst (register s w)).
  Proof. unfold register. destruct (body s) as [g|] eqn:B; [|apply kept_refl]. unfold kept. rewrite B. cbn. auto 10. Qed.
  Lemma reset_kept s : kept s (fst (reset s)).
  Proof. unfold reset. destruct (body s) as [g|] eqn:B; [|apply kept_refl]. unfold kept. rewrite B. cbn. auto 10. Qed.
End Keep.

Lemma kept_dyadic ex ey s s' : kept s s' -> dyadic ex ey s -> dyadic ex ey s'.
Proof.
  intros (A & B & C) (He & He' & H1 & H2 & H3 & H4 & H5 & H6 & g & Eg & D). rewrite Eg in C. destruct (body s') as [g'|] eqn:B'; [|contradiction].
  split; [exact He|]. split; [exact He'|]. rewrite A, B. do 6 (split; [assumption|]). exists g'. split; [exact B'|].
  destruct C as (_ & _ & E1 & E2 & E3 & E4). destruct D as (D1 & D2). split; intros v; [rewrite E1, E2; apply D1|rewrite E3, E4; apply D2].
Qed.
Lemma kept_shape s s' : kept s s' -> shape s' = shape s.
Proof. intros (_ & _ & C). unfold shape. destruct (body s), (body s'); try contradiction; [|reflexivity]. destruct C as (-> & -> & -> & -> & -> & ->). reflexivity. Qed.
Lemma kept_exact_shape s s' : kept s s' -> shape (exact_field s') = shape (exact_field s).
Proof. intros (_ & _ & C). unfold shape, exact_field. cbn [body]. destruct (body s), (body s'); try contradiction; [|reflexivity]. cbn. destruct C as (-> & -> & -> & -> & -> & ->). reflexivity. Qed.

Lemma min_exact lm : forall l x, ffinite x -> Forall ffinite l ->
  fold_left (@pymin xr XR) (map exact l) (exact x) = exact (fold_left (@pymin spec_float (SF lm)) l x) /\
  In (fold_left (@pymin spec_float (SF lm)) l x) (x :: l).
Proof.
  induction l as [|y l IH]; intros x Hx Hl; [cbn; auto|]. inversion Hl as [|? ? Hy Hl']; subst. cbn [fold_left map].
  assert (E : @pymin xr XR (exact x) (exact y) = exact (@pymin spec_float (SF lm) x y)).
  { unfold pymin. rewrite (exact_lt lm) by assumption. destruct (nlt y x); reflexivity. }
  rewrite E. assert (Q : @pymin spec_float (SF lm) x y = x \/ @pymin spec_float (SF lm) x y = y) by (unfold pymin; destruct (nlt y x); auto).
  destruct Q as [-> | ->]; [destruct (IH x Hx Hl') as (A & B)|destruct (IH y Hy Hl') as (A & B)]; (split; [exact A|]); destruct B as [B|B]; cbn; auto.
Qed.
Lemma max_exact lm : forall l x, ffinite x -> Forall ffinite l ->
  fold_left (@pymax xr XR) (map exact l) (exact x) = exact (fold_left (@pymax spec_float (SF lm)) l x) /\
  In (fold_left (@pymax spec_float (SF lm)) l x) (x :: l).
Proof.
  induction l as [|y l IH]; intros x Hx Hl; [cbn; auto|]. inversion Hl as [|? ? Hy Hl']; subst. cbn [fold_left map].
  assert (E : @pymax xr XR (exact x) (exact y) = exact (@pymax spec_float (SF lm) x y)).
  { unfold pymax. rewrite (exact_lt lm) by assumption. destruct (nlt x y); reflexivity. }
  rewrite E. assert (Q : @pymax spec_float (SF lm) x y = x \/ @pymax spec_float (SF lm) x y = y) by (unfold pymax; destruct (nlt x y); auto).
  destruct Q as [-> | ->]; [destruct (IH x Hx Hl') as (A & B)|destruct (IH y Hy Hl') as (A & B)]; (split; [exact A|]); destruct B as [B|B]; cbn; auto.
Qed.

Lemma expand_keeps_deltas {T} {N : Num T} fuel s a b c d :
  deltax (fst (expand fuel s a b c d)) = deltax s /\ deltay (fst (expand fuel s a b c d)) = deltay s.
Proof.
  unfold expand. destruct (nlt b a); [auto|]. destruct (nlt d c); [auto|].
  destruct (body s) as [g|]; unfold update; [destruct (expand_more _ _ _ _ _ _ _ _)|destruct (expand_first _ _ _ _ _ _)]; auto.
Qed.

Lemma in_range_finite e d l : Forall (in_range e d) l -> Forall ffinite l.
Proof. apply Forall_impl. intros x H. apply H. Qed.

(** One call. *)
Lemma step_shape lm fuel ex ey s t o : dyadic ex ey s -> in_range_op ex ey (deltax s) (deltay s) o ->
  deltax t = exact (deltax s) -> deltay t = exact (deltay s) -> shape t = shape (exact_field s) ->
  let s' := fst (@run_op spec_float (SF lm) fuel s o) in let t' := fst (@run_op xr XR fuel t (exact_op o)) in
  dyadic ex ey s' /\ deltax s' = deltax s /\ deltay s' = deltay s /\
  deltax t' = exact (deltax s') /\ deltay t' = exact (deltay s') /\ shape t' = shape (exact_field s').
Proof.
  intros D R Ex Ey Es s' t'.
  assert (EXP : forall a b c d, in_range ex (deltax s) a -> in_range ex (deltax s) b -> in_range ey (deltay s) c -> in_range ey (deltay s) d ->
    let s1 := fst (@expand spec_float (SF lm) fuel s a b c d) in let t1 := fst (@expand xr XR fuel t (exact a) (exact b) (exact c) (exact d)) in
    dyadic ex ey s1 /\ deltax s1 = deltax s /\ deltay s1 = deltay s /\
    deltax t1 = exact (deltax s1) /\ deltay t1 = exact (deltay s1) /\ shape t1 = shape (exact_field s1)).
  { intros a b c d Ra Rb Rc Rd s1 t1. destruct (c89_expand lm fuel ex ey s a b c d D Ra Rb Rc Rd) as (E & D').
    destruct (expand_keeps_deltas (N := SF lm) fuel s a b c d) as (K1 & K2).
    destruct (expand_shape fuel t (exact_field s) (exact a) (exact b) (exact c) (exact d) Ex Ey Es) as (S1 & S2 & S3).
    split; [exact D'|]. split; [exact K1|]. split; [exact K2|]. fold s1 in K1, K2. rewrite K1, K2.
    split; [etransitivity; [exact S2|exact Ex]|]. split; [etransitivity; [exact S3|exact Ey]|].
    etransitivity; [exact S1|]. rewrite E. reflexivity. }
  assert (KEEP : forall s1 t1, kept s s1 -> kept t t1 -> dyadic ex ey s1 /\ deltax s1 = deltax s /\ deltay s1 = deltay s /\
    deltax t1 = exact (deltax s1) /\ deltay t1 = exact (deltay s1) /\ shape t1 = shape (exact_field s1)).
  { intros s1 t1 K1 K2. split; [eapply kept_dyadic; eassumption|]. split; [apply K1|]. split; [apply K1|].
    rewrite (kept_shape _ _ K2), (kept_exact_shape _ _ K1). destruct K1 as (-> & -> & _), K2 as (-> & -> & _). auto. }
  subst s' t'. destruct o as [a b c d|ax ay bx by_ u|x y u|w|]; cbn [run_op exact_op in_range_op] in *.
  - apply EXP; apply R.
  - apply KEEP; apply insert_kept.
  - destruct R as (Rx & Ry). unfold rasterize.
    destruct x as [|x0 x]; [apply KEEP; apply kept_refl|]. cbn [map pymin_list pymax_list].
    destruct y as [|y0 y]; [apply KEEP; apply kept_refl|]. cbn [map pymin_list pymax_list].
    inversion Rx as [|? ? Rx0 Rxl]; subst. inversion Ry as [|? ? Ry0 Ryl]; subst.
    destruct (min_exact lm x x0 (proj1 Rx0) (in_range_finite _ _ _ Rxl)) as (-> & I1).
    destruct (max_exact lm x x0 (proj1 Rx0) (in_range_finite _ _ _ Rxl)) as (-> & I2).
    destruct (min_exact lm y y0 (proj1 Ry0) (in_range_finite _ _ _ Ryl)) as (-> & I3).
    destruct (max_exact lm y y0 (proj1 Ry0) (in_range_finite _ _ _ Ryl)) as (-> & I4).
    rewrite Forall_forall in Rx, Ry. apply Rx in I1, I2. apply Ry in I3, I4.
    set (a := fold_left pymin x x0) in *. set (b := fold_left pymax x x0) in *. set (c := fold_left pymin y y0) in *. set (d := fold_left pymax y y0) in *.
    destruct (EXP a b c d I1 I2 I3 I4) as (D1 & Q1 & Q2 & Q3 & Q4 & Q5).
    destruct (c89_expand lm fuel ex ey s a b c d D I1 I2 I3 I4) as (E & _).
    destruct (@expand spec_float (SF lm) fuel s a b c d) as [s1 r1] eqn:E1. destruct (@expand xr XR fuel t (exact a) (exact b) (exact c) (exact d)) as [t1 r2] eqn:E2.
    cbn [fst] in *.
    assert (A : forall s2 t2, kept s1 s2 -> kept t1 t2 -> dyadic ex ey s2 /\ deltax s2 = deltax s /\ deltay s2 = deltay s /\
      deltax t2 = exact (deltax s2) /\ deltay t2 = exact (deltay s2) /\ shape t2 = shape (exact_field s2)).
    { intros s2 t2 K1 K2. split; [eapply kept_dyadic; eassumption|]. rewrite (kept_shape _ _ K2), (kept_exact_shape _ _ K1).
      destruct K1 as (-> & -> & _), K2 as (-> & -> & _). auto 10. }
    apply A.
    + destruct r1; cbn [fst]; [apply segments_kept|apply kept_refl|apply kept_refl].
    + destruct r2; cbn [fst]; [apply segments_kept|apply kept_refl|apply kept_refl].
  - apply KEEP; apply register_kept.
  - apply KEEP; apply reset_kept.
Qed.

(** The size and the edges of the grids after any history of calls are those of exact arithmetic. *)
Lemma c89_history : forall lm fuel ex ey l s, dyadic ex ey s -> Forall (in_range_op ex ey (deltax s) (deltay s)) l ->
  shape (@run_ops xr XR fuel (exact_field s) (map exact_op l)) = shape (exact_field (@run_ops spec_float (SF lm) fuel s l)) /\
  dyadic ex ey (@run_ops spec_float (SF lm) fuel s l).
Proof.
  intros lm fuel ex ey l s D R.
  assert (G : forall l s t, dyadic ex ey s -> Forall (in_range_op ex ey (deltax s) (deltay s)) l ->
    deltax t = exact (deltax s) -> deltay t = exact (deltay s) -> shape t = shape (exact_field s) ->
    shape (@run_ops xr XR fuel t (map exact_op l)) = shape (exact_field (@run_ops spec_float (SF lm) fuel s l)) /\
    dyadic ex ey (@run_ops spec_float (SF lm) fuel s l)).
  { clear. induction l as [|o l IH]; intros s t D R Ex Ey Es; [cbn; auto|]. inversion R as [|? ? R1 R2]; subst.
    destruct (step_shape lm fuel ex ey s t o D R1 Ex Ey Es) as (D1 & K1 & K2 & Q1 & Q2 & Q3).
    unfold run_ops. cbn [map fold_left]. apply IH; auto. rewrite K1, K2. exact R2. }
  apply G; auto.
Qed.
