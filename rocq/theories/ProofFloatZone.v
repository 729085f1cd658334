(** * Whole capture zones in binary64: what each node's weight counts *)
From Coq Require Import ZArith Reals Lra Lia SpecFloat List Psatz.
From Verif Require Import Py Num NumXR Grid ModelField ModelAquifer ModelTrace ModelDist ModelDriver ProofFloat ProofFloatGrow ProofFloatOps ProofFloatMean ProofFloatGrid ProofGeom ProofField ProofInsert ProofFieldProps ProofFieldHist ProofFloatDist ProofFloatInsert ProofFloatWeight ProofFloatField ProofTraceFlow ProofFuel ProofDriver.
From Verif Require Import SpecFloats SpecExact SpecZone SpecDriver SpecField.
Import ListNotations.
Local Open Scope R_scope.

Lemma half e : 2 * powerRZ 2 (52 + e) = powerRZ 2 (53 + e).
Proof. replace (53 + e)%Z with (1 + (52 + e))%Z by lia. rewrite (powerRZ_add 2 1) by lra. rewrite powerRZ_1. reflexivity. Qed.
Lemma half_range e d x : roomy_range e d x <-> in_range (e - 1) d x.
Proof. unfold roomy_range, in_range. replace (53 + (e - 1))%Z with (52 + e)%Z by lia. reflexivity. Qed.
Lemma full_range e d x : roomy_range e d x -> in_range e d x.
Proof. intros (A & B). split; [exact A|]. pose proof (half e). pose proof (p_pos (52 + e)). lra. Qed.
Lemma roomy_full e v : roomy_units e v -> on_units e v.
Proof. intros (A & B). split; [exact A|]. pose proof (half e). pose proof (p_pos (52 + e)). lra. Qed.
Lemma roomy_half e v : roomy_units e v -> on_units (e - 1) v.
Proof.
  intros ((n & ->) & B). split.
  - exists (2 * n)%Z. rewrite mult_IZR. replace e with (1 + (e - 1))%Z at 1 by lia. rewrite powerRZ_add, powerRZ_1 by lra. ring.
  - replace (53 + (e - 1))%Z with (52 + e)%Z by lia. exact B.
Qed.
Lemma roomy_compact ex ey s : roomy ex ey s -> compact ex ey s.
Proof.
  intros (_ & _ & _ & _ & _ & _ & _ & _ & _ & g & Eg & Dx & Dy) g' Eg'. rewrite Eg in Eg'. injection Eg' as <-.
  replace (53 + (ex - 1))%Z with (52 + ex)%Z in * by lia.
  assert (K : forall a b e, Rabs a <= powerRZ 2 (53 + (e - 1)) -> Rabs b <= powerRZ 2 (53 + (e - 1)) -> b - a <= powerRZ 2 (53 + e)).
  { intros a b e A B. replace (53 + (e - 1))%Z with (52 + e)%Z in * by lia. rewrite <- half. apply Raux.Rabs_le_inv in A. apply Raux.Rabs_le_inv in B. lra. }
  split; apply K; first [apply Dx|apply Dy]; cbn [In]; auto.
Qed.

Lemma expand_roomy lm fuel ex ey s a b c d : roomy ex ey s -> roomy_range ex (deltax s) a -> roomy_range ex (deltax s) b -> roomy_range ey (deltay s) c -> roomy_range ey (deltay s) d ->
  roomy ex ey (fst (@expand spec_float (SF lm) fuel s a b c d)).
Proof.
  intros (D1 & D2) A B C D. split.
  - apply (c89_expand lm fuel ex ey s a b c d D1); apply full_range; assumption.
  - apply (c89_expand lm fuel (ex - 1) (ey - 1) s a b c d D2); apply half_range; assumption.
Qed.

Lemma rasterize_roomy lm fuel ex ey s tr u : roomy ex ey s -> Forall (fun p => roomy_range ex (deltax s) (fst p) /\ roomy_range ey (deltay s) (snd p)) tr ->
  roomy ex ey (fst (@rasterize spec_float (SF lm) fuel s (map fst tr) (map snd tr) u)) /\
  deltax (fst (@rasterize spec_float (SF lm) fuel s (map fst tr) (map snd tr) u)) = deltax s /\ deltay (fst (@rasterize spec_float (SF lm) fuel s (map fst tr) (map snd tr) u)) = deltay s.
Proof.
  intros (D1 & D2) Rt.
  assert (R : forall e1 e2, (forall p, In p tr -> in_range e1 (deltax s) (fst p) /\ in_range e2 (deltay s) (snd p)) -> in_range_op e1 e2 (deltax s) (deltay s) (ORasterize (map fst tr) (map snd tr) u)).
  { intros e1 e2 H. split; apply Forall_forall; intros v Hv; apply in_map_iff in Hv; destruct Hv as (p & <- & Hp); apply (H p Hp). }
  rewrite Forall_forall in Rt.
  destruct (step_shape lm fuel ex ey s (exact_field s) (ORasterize (map fst tr) (map snd tr) u) D1) as (E1 & X & Y & _); [|reflexivity|reflexivity|reflexivity|].
  { apply R. intros p Hp. destruct (Rt p Hp). split; apply full_range; assumption. }
  destruct (step_shape lm fuel (ex - 1) (ey - 1) s (exact_field s) (ORasterize (map fst tr) (map snd tr) u) D2) as (E2 & _ & _ & _); [|reflexivity|reflexivity|reflexivity|].
  { apply R. intros p Hp. destruct (Rt p Hp). split; apply half_range; assumption. }
  cbn [run_op] in *. split; [split; assumption|]. split; assumption.
Qed.

(** A track in range is rasterized without fail, and the nodes it marks are those near it up to the slack. *)
Lemma c91_rasterize_total : forall lm ex ey s tr u, roomy ex ey s -> (ex <= 147)%Z -> (ey <= 147)%Z -> wf (exact_field s) -> tr <> [] -> good_track ex ey (deltax s) (deltay s) tr ->
  reach ex u -> reach ey u -> 0 <= fval u ->
  exists n s', (forall fuel, (n <= fuel)%nat -> @rasterize spec_float (SF lm) fuel s (map fst tr) (map snd tr) u = (s', Ok tt)) /\ roomy ex ey s' /\ wf (exact_field s') /\
    deltax s' = deltax s /\ deltay s' = deltay s /\
    (forall x y w m, has_node (exact_field s) x y w m -> exists m', has_node (exact_field s') x y w m') /\
    (forall x y w m', has_node (exact_field s') x y w m' ->
       (~ is_node (exact_field s) x y -> w = 0) /\ (marked (exact_field s) x y -> m' = true) /\
       (m' = true -> marked (exact_field s) x y \/ possibly_hit (fval u) [tr] (x, y)) /\ (surely_hit (fval u) tr (x, y) -> m' = true)).
Proof.
  intros lm ex ey s tr u Ro He He' Wf Ne (Rt & Sep) Ru Ru' Pu. pose proof Ro as (D & D2).
  assert (Rt' : Forall (fun p => in_range ex (deltax s) (fst p) /\ in_range ey (deltay s) (snd p)) tr).
  { eapply Forall_impl; [|exact Rt]. intros p (A & B). split; apply full_range; assumption. }
  destruct (c91_rasterize_returns lm ex ey s tr u D He He' Wf Ne Rt' Sep Ru Ru' Pu) as (n & Hn).
  assert (Ret : forall fuel, (n <= fuel)%nat -> snd (@rasterize spec_float (SF lm) fuel s (map fst tr) (map snd tr) u) = Ok tt).
  { intros fuel Hf. apply (Hn fuel Hf). apply roomy_compact. apply rasterize_roomy; assumption. }
  pose (s' := fst (@rasterize spec_float (SF lm) n s (map fst tr) (map snd tr) u)). exists n, s'.
  assert (E : @rasterize spec_float (SF lm) n s (map fst tr) (map snd tr) u = (s', Ok tt)).
  { rewrite (surjective_pairing (rasterize n s (map fst tr) (map snd tr) u)), (Ret n (le_n n)). reflexivity. }
  split; [intros fuel Hf|].
  - pose proof (rasterize_stable (N := SF lm) s (map fst tr) (map snd tr) u n fuel Hf) as St. cbv beta in St. rewrite St; [exact E|]. rewrite E. discriminate.
  - destruct (rasterize_roomy lm n ex ey s tr u Ro Rt) as (Ro' & X & Y). fold s' in Ro', X, Y. split; [exact Ro'|].
    destruct (c91_rasterize lm n ex ey s tr u s' D He He' (roomy_compact _ _ _ Ro') Wf Rt' Sep Ru Ru' Pu E) as (_ & W1 & _ & K1 & K2 & _).
    split; [exact W1|]. split; [exact X|]. split; [exact Y|]. split; [exact K1|]. intros x y w m' Hn'. destruct (K2 x y w m' Hn') as (A & B & C & F). split; [exact A|]. split; [exact B|]. split.
    + intros M. destruct (C M) as [M1|(p & q & M1 & M2 & M3)]; [left; exact M1|right]. exists tr, p, q. cbn [In]. auto.
    + intros (p & q & S1 & S2 & S3). exact (F p q S1 S2 S3).
Qed.

(** ** Locations inside the extent of an earlier field *)
Definition spread (s s' : pfield xr) : Prop :=
  wf s /\ wf s' /\ initialised s /\ deltax s' = deltax s /\ deltay s' = deltay s /\ forall x y, is_node s x y -> is_node s' x y.
Lemma spread_refl s : wf s -> initialised s -> spread s s.
Proof. unfold spread. auto 10. Qed.
Lemma spread_trans s1 s2 s3 : spread s1 s2 -> spread s2 s3 -> spread s1 s3.
Proof. unfold spread. intros (A & B & C & D & E & F) (A' & B' & C' & D' & E' & F'). repeat split; auto; congruence. Qed.

Lemma corner s : wf s -> initialised s -> exists dx dy g x0 y0, deltax s = Fin dx /\ deltay s = Fin dy /\ 0 < dx /\ 0 < dy /\ body s = Some g /\
  xmin g = Fin x0 /\ ymin g = Fin y0 /\ xmax g = Fin (x0 + IZR (ncols g - 1) * dx) /\ ymax g = Fin (y0 + IZR (nrows g - 1) * dy) /\ (3 <= ncols g)%Z /\ (3 <= nrows g)%Z /\
  forall i j, (0 <= i < nrows g)%Z -> (0 <= j < ncols g)%Z -> is_node s (x0 + IZR j * dx) (y0 + IZR i * dy).
Proof.
  intros (dx & dy & Ex & Ey & Px & Py & W) I. unfold initialised in I. destruct (body s) as [g|] eqn:B; [|congruence]. specialize (W g eq_refl).
  destruct W as (R3 & C3 & RP & RR & (x0 & y0 & X0 & X1 & Y0 & Y1) & HF & _).
  exists dx, dy, g, x0, y0. do 11 (split; [assumption || reflexivity|]). intros i j Hi Hj.
  destruct (get2 (pgrid g) i j) as [v|] eqn:G1; [|exfalso; destruct (get2_rect _ _ _ _ i j RP Hi Hj); congruence].
  destruct (get2 (rgrid g) i j) as [m|] eqn:G2; [|exfalso; destruct (get2_rect _ _ _ _ i j RR Hi Hj); congruence].
  destruct (HF _ _ _ G1) as (r & ->). exists r, m. exists g, i, j, dx, dy, x0, y0. auto 12.
Qed.

Lemma inside_node s s' a0 a1 b0 b1 x y : spread s s' -> extent s a0 a1 b0 b1 -> is_node s' x y -> a0 <= x <= a1 -> b0 <= y <= b1 -> is_node s x y.
Proof.
  intros (W & W' & I & EX & EY & K) Ext (w & m & g' & i' & j' & dx' & dy' & x0' & y0' & B' & X' & Y' & X0' & Y0' & Hx & Hy & _) Bx By.
  destruct (corner s W I) as (dx & dy & g & x0 & y0 & Dx & Dy & Px & Py & Bg & X0 & Y0 & X1 & Y1 & C3 & R3 & N).
  destruct Ext as (h & Bh & E1 & E2 & E3 & E4). rewrite Bg in Bh. injection Bh as <-.
  assert (a0 = x0 /\ b0 = y0 /\ a1 = x0 + IZR (ncols g - 1) * dx /\ b1 = y0 + IZR (nrows g - 1) * dy) as (-> & -> & -> & ->) by (repeat split; congruence).
  assert (dx' = dx /\ dy' = dy) as (-> & ->) by (split; congruence).
  destruct (K _ _ (N 0 0 ltac:(lia) ltac:(lia))%Z) as (w2 & m2 & g2 & i2 & j2 & dx2 & dy2 & x2 & y2 & B2 & D2 & D2' & X2 & Y2 & Hx2 & Hy2 & _).
  assert (dx2 = dx /\ dy2 = dy) as (-> & ->) by (split; congruence). rewrite B' in B2. injection B2 as <-.
  assert (x2 = x0' /\ y2 = y0') as (-> & ->) by (split; congruence).
  assert (Ex : x = x0 + IZR (j' - j2) * dx) by (rewrite minus_IZR; lra). assert (Ey : y = y0 + IZR (i' - i2) * dy) by (rewrite minus_IZR; lra).
  assert (P : forall k n d, 0 < d -> 0 <= IZR k * d <= IZR (n - 1) * d -> (0 <= k < n)%Z).
  { intros k n d Pd (A & B). split.
    - apply le_IZR. apply Rmult_le_reg_r with d; lra.
    - apply Rmult_le_reg_r in B; [|exact Pd]. apply le_IZR in B. lia. }
  rewrite Ex, Ey. apply N; [apply (P _ _ dy Py)|apply (P _ _ dx Px)]; lra.
Qed.

(** ** All points so far lie in the grid *)
Definition covered (s : pfield xr) (seen : list (spec_float * spec_float)) : Prop :=
  exists a0 a1 b0 b1, extent s a0 a1 b0 b1 /\ forall p, In p seen -> a0 <= fst (at_ p) <= a1 /\ b0 <= snd (at_ p) <= b1.

Lemma node_in_extent s a0 a1 b0 b1 x y : wf s -> extent s a0 a1 b0 b1 -> is_node s x y -> a0 <= x <= a1 /\ b0 <= y <= b1.
Proof.
  intros (dx & dy & Ex & Ey & Px & Py & W) (h & Bh & E1 & E2 & E3 & E4) (w & m & g & i & j & dx' & dy' & x0 & y0 & B & X & Y & X0 & Y0 & -> & -> & G1 & _).
  rewrite B in Bh. injection Bh as <-. destruct (W g B) as (_ & _ & RP & _ & (x0' & y0' & Q1 & Q2 & Q3 & Q4) & _).
  assert (dx' = dx /\ dy' = dy /\ x0' = x0 /\ y0' = y0 /\ a0 = x0 /\ b0 = y0) as (-> & -> & -> & -> & -> & ->) by (repeat split; congruence).
  assert (a1 = x0 + IZR (ncols g - 1) * dx /\ b1 = y0 + IZR (nrows g - 1) * dy) as (-> & ->) by (split; congruence).
  destruct (get2_rect_none _ _ _ _ _ _ _ RP G1) as (I1 & I2).
  assert (K : forall k n d, 0 < d -> (0 <= k < n)%Z -> 0 <= IZR k * d <= IZR (n - 1) * d).
  { intros k n d Pd (A & B'). split; [apply Rmult_le_pos; [apply IZR_le; exact A|lra]|]. apply Rmult_le_compat_r; [lra|]. apply IZR_le. lia. }
  pose proof (K _ _ _ Px I2). pose proof (K _ _ _ Py I1). lra.
Qed.

Lemma spread_extent s s' a0 a1 b0 b1 c0 c1 d0 d1 : spread s s' -> extent s a0 a1 b0 b1 -> extent s' c0 c1 d0 d1 -> c0 <= a0 /\ a1 <= c1 /\ d0 <= b0 /\ b1 <= d1.
Proof.
  intros (W & W' & I & EX & EY & K) Ext Ext'. destruct (corner s W I) as (dx & dy & g & x0 & y0 & Dx & Dy & Px & Py & Bg & X0 & Y0 & X1 & Y1 & C3 & R3 & N).
  destruct Ext as (h & Bh & E1 & E2 & E3 & E4). rewrite Bg in Bh. injection Bh as <-.
  assert (a0 = x0 /\ b0 = y0 /\ a1 = x0 + IZR (ncols g - 1) * dx /\ b1 = y0 + IZR (nrows g - 1) * dy) as (-> & -> & -> & ->) by (repeat split; congruence).
  pose proof (node_in_extent s' _ _ _ _ _ _ W' Ext' (K _ _ (N 0%Z 0%Z ltac:(lia) ltac:(lia)))) as H1.
  pose proof (node_in_extent s' _ _ _ _ _ _ W' Ext' (K _ _ (N (nrows g - 1)%Z (ncols g - 1)%Z ltac:(lia) ltac:(lia)))) as H2. lra.
Qed.

Lemma spread_covered s s' seen more : spread s s' -> covered s seen -> covered s' more -> covered s' (seen ++ more).
Proof.
  intros Sp (a0 & a1 & b0 & b1 & E & C) (c0 & c1 & d0 & d1 & E' & C'). exists c0, c1, d0, d1. split; [exact E'|]. intros p Hp. apply in_app_iff in Hp. destruct Hp as [Hp|Hp]; [|exact (C' p Hp)].
  specialize (C p Hp). pose proof (spread_extent _ _ _ _ _ _ _ _ _ _ Sp E E'). lra.
Qed.
Lemma covered_some s : wf s -> initialised s -> covered s [].
Proof.
  intros W I. destruct (corner s W I) as (dx & dy & g & x0 & y0 & Dx & Dy & Px & Py & Bg & X0 & Y0 & X1 & Y1 & _). exists x0, (x0 + IZR (ncols g - 1) * dx), y0, (y0 + IZR (nrows g - 1) * dy). split; [exists g; auto|]. intros p [].
Qed.
Lemma boxed_covered s s' seen pts x y : spread s s' -> covered s seen -> (forall p, In p pts -> In p seen) -> boxed pts x y -> is_node s' x y -> is_node s x y.
Proof.
  intros Sp (a0 & a1 & b0 & b1 & E & C) Inc ((p & q & Hp & Hq & Bx) & (p' & q' & Hp' & Hq' & By)) N.
  pose proof (C p (Inc p Hp)). pose proof (C q (Inc q Hq)). pose proof (C p' (Inc p' Hp')). pose proof (C q' (Inc q' Hq')).
  apply (inside_node s s' a0 a1 b0 b1 x y Sp E N); lra.
Qed.

(** ** The tracks of one zone *)
Lemma roomy_init ex ey s : roomy ex ey s -> initialised (exact_field s).
Proof. intros ((_ & _ & _ & _ & _ & _ & _ & _ & g & Eg & _) & _). unfold initialised, exact_field; cbn [body]; rewrite Eg; discriminate. Qed.

Definition lay (u : spec_float) (t : list (spec_float * spec_float)) : op spec_float := ORasterize (map fst t) (map snd t) u.

Lemma tracks_step lm fuel ex ey u : (ex <= 147)%Z -> (ey <= 147)%Z -> reach ex u -> reach ey u -> 0 <= fval u -> forall tracks s s' seen,
  roomy ex ey s -> wf (exact_field s) -> sound_grid 0 s -> covered (exact_field s) seen -> Forall (good_track ex ey (deltax s) (deltay s)) tracks ->
  @calls spec_float (SF lm) fuel s (map (lay u) tracks) = (s', Ok tt) ->
  roomy ex ey s' /\ sound_grid 0 s' /\ spread (exact_field s) (exact_field s') /\ covered (exact_field s') (seen ++ concat tracks) /\ deltax s' = deltax s /\ deltay s' = deltay s /\
  (forall W, total (exact_field s) W -> total (exact_field s') W) /\
  (forall x y w m', has_node (exact_field s') x y w m' -> weight_at (exact_field s) x y w /\ (marked (exact_field s) x y -> m' = true) /\
     (m' = true -> marked (exact_field s) x y \/ possibly_hit (fval u) tracks (x, y)) /\
     (forall before tr after, tracks = before ++ tr :: after -> surely_hit (fval u) tr (x, y) -> is_node (exact_field s) x y \/ boxed (seen ++ concat before ++ tr) x y -> m' = true)).
Proof.
  intros He He' Ru Ru' Pu. induction tracks as [|tr tracks IH]; intros s s' seen Ro Wf G Cv Gt H.
  - cbn in H. injection H as <-. cbn [concat]. rewrite app_nil_r. split; [exact Ro|]. split; [exact G|]. split; [apply spread_refl; [exact Wf|exact (roomy_init _ _ _ Ro)]|].
    split; [exact Cv|]. split; [reflexivity|]. split; [reflexivity|]. split; [auto|]. intros x y w m' Hn. split; [left; exists m'; exact Hn|]. split.
    { intros (w' & Hm). destruct (has_node_fun _ _ _ _ _ _ _ Wf Hn Hm) as (_ & ->). reflexivity. }
    split; [intros ->; left; exists w; exact Hn|]. intros [|]; discriminate.
  - cbn [map calls] in H. destruct (@run_op spec_float (SF lm) fuel s (lay u tr)) as [s1 r] eqn:E1.
    assert (r = Ok tt) by (destruct r as [[]| |]; [reflexivity|discriminate..]). subst r.
    inversion Gt as [|? ? (Rt & Sep) Gt']; subst. unfold lay in E1. cbn [run_op] in E1.
    pose proof (rasterize_roomy lm fuel ex ey s tr u Ro Rt) as (Ro1 & X1 & Y1). rewrite E1 in Ro1, X1, Y1. cbn [fst] in Ro1, X1, Y1.
    assert (Rt' : Forall (fun p => in_range ex (deltax s) (fst p) /\ in_range ey (deltay s) (snd p)) tr).
    { eapply Forall_impl; [|exact Rt]. intros p (A & B). split; apply full_range; assumption. }
    destruct (c91_rasterize lm fuel ex ey s tr u s1 (proj1 Ro) He He' (roomy_compact _ _ _ Ro1) Wf Rt' Sep Ru Ru' Pu E1) as (_ & W1 & I1 & K1 & K2 & KT & (x0 & x1 & y0 & y1 & Ext & Cext)).
    assert (Ro' : in_range_op ex ey (deltax s) (deltay s) (lay u tr)).
    { split; apply Forall_forall; intros v Hv; apply in_map_iff in Hv; destruct Hv as (p & <- & Hp); rewrite Forall_forall in Rt'; apply (Rt' p Hp). }
    destruct (other_calm lm 0 ex ey fuel s (lay u tr) (proj1 Ro) Wf G Ro' ltac:(discriminate)) as (_ & G1). unfold lay in G1. cbn [run_op] in G1. rewrite E1 in G1. cbn [fst] in G1.
    assert (N1 : forall x y, is_node (exact_field s) x y -> is_node (exact_field s1) x y).
    { intros x y (w & m & Hn). destruct (K1 x y w m Hn) as (m' & Hn'). exists w, m'. exact Hn'. }
    assert (Sp1 : spread (exact_field s) (exact_field s1)).
    { split; [exact Wf|]. split; [exact W1|]. split; [exact (roomy_init _ _ _ Ro)|]. split; [cbn; rewrite X1; reflexivity|]. split; [cbn; rewrite Y1; reflexivity|exact N1]. }
    assert (Cv1 : covered (exact_field s1) (seen ++ tr)).
    { apply (spread_covered (exact_field s)); [exact Sp1|exact Cv|]. exists x0, x1, y0, y1. split; [exact Ext|]. intros p Hp. specialize (Cext p Hp). lra. }
    rewrite <- X1, <- Y1 in Gt'. destruct (IH s1 s' (seen ++ tr) Ro1 W1 G1 Cv1 Gt' H) as (Ro2 & G2 & Sp2 & Cv2 & X2 & Y2 & T2 & K3).
    split; [exact Ro2|]. split; [exact G2|]. split; [exact (spread_trans _ _ _ Sp1 Sp2)|]. split; [cbn [concat]; rewrite app_assoc; exact Cv2|].
    split; [congruence|]. split; [congruence|]. split; [auto|]. intros x y w m' Hn. destruct (K3 x y w m' Hn) as (V & M1 & M2 & M3).
    assert (MM : marked (exact_field s) x y -> marked (exact_field s1) x y).
    { intros (w0 & Hm). destruct (K1 x y w0 true Hm) as (m1 & Hm1). destruct (K2 x y w0 m1 Hm1) as (_ & B & _). rewrite (B (ex_intro _ w0 Hm)) in Hm1. exists w0. exact Hm1. }
    split; [|split; [|split]].
    + destruct V as [(m1 & Hn1)|(Nn & ->)].
      * destruct (Classical_Prop.classic (is_node (exact_field s) x y)) as [(w0 & m0 & Hn0)|Nn].
        -- left. exists m0. destruct (K1 x y w0 m0 Hn0) as (m2 & Hn2). destruct (has_node_fun _ _ _ _ _ _ _ W1 Hn1 Hn2) as (-> & _). exact Hn0.
        -- right. split; [exact Nn|]. destruct (K2 x y w m1 Hn1) as (A & _). exact (A Nn).
      * right. split; [|reflexivity]. intros Hn'. apply Nn, N1, Hn'.
    + intros M. apply M1, MM, M.
    + intros Em. destruct (M2 Em) as [(w1 & Hm1)|(t & p & q & P1 & P2)].
      * destruct (K2 x y w1 true Hm1) as (_ & _ & C & _). destruct (C eq_refl) as [M|(p & q & P1 & P2 & P3)]; [left; exact M|right].
        exists tr, p, q. split; [left; reflexivity|]. auto.
      * right. exists t, p, q. split; [right; exact P1|exact P2].
    + intros [|t before] tr' after Eq Hit Old; cbn [app] in Eq; injection Eq as -> ->.
      * cbn [concat app] in Old. assert (Nd : is_node (exact_field s1) x y).
        { destruct Old as [Old|Old]; [exact (N1 _ _ Old)|]. apply (boxed_covered _ _ _ _ _ _ Sp2 Cv1 (fun p Hp => Hp) Old). exists w, m'. exact Hn. }
        destruct Nd as (w1 & m1 & Hn1). destruct (K2 x y w1 m1 Hn1) as (_ & _ & _ & Fq). destruct Hit as (p & q & Q1 & Q2 & Q3).
        apply M1. exists w1. rewrite (Fq p q Q1 Q2 Q3) in Hn1. exact Hn1.
      * apply (M3 before tr' after eq_refl Hit). destruct Old as [Old|Old]; [left; exact (N1 _ _ Old)|right]. cbn [concat] in Old. rewrite <- !app_assoc in *. exact Old.
Qed.

(** ** One zone, and all zones *)
Definition ready (ex ey : Z) (s : pfield spec_float) (seen : list (spec_float * spec_float)) (W : R) : Prop :=
  roomy ex ey s /\ wf (exact_field s) /\ sound_grid 0 s /\ covered (exact_field s) seen /\ total (exact_field s) W /\ forall x y, ~ marked (exact_field s) x y.

Lemma one_sound lm : sound_weight 0 (@nZ spec_float (SF lm) 1) /\ fval (@nZ spec_float (SF lm) 1) = 1.
Proof.
  destruct (of_small 1 ltac:(lia)) as (Q & V). change (@nZ spec_float (SF lm) 1) with (f_of_Z 1). split; [|exact V]. split; [exact Q|]. rewrite V. split; [lra|].
  split; [exists 1%Z; cbn; ring|]. rewrite Rabs_pos_eq by lra. change (powerRZ 2 (53 + 0)) with (2 ^ 53). apply pow_R1_Rle. lra.
Qed.

Lemma zone_step lm fuel ex ey u : (ex <= 147)%Z -> (ey <= 147)%Z -> reach ex u -> reach ey u -> 0 <= fval u -> forall tracks s s' seen W,
  ready ex ey s seen W -> Forall (good_track ex ey (deltax s) (deltay s)) tracks -> W + 1 <= 2 ^ 53 ->
  @calls spec_float (SF lm) fuel s (@zone_calls spec_float (SF lm) u tracks) = (s', Ok tt) ->
  ready ex ey s' (seen ++ concat tracks) (W + 1) /\ spread (exact_field s) (exact_field s') /\ deltax s' = deltax s /\ deltay s' = deltay s /\
  (forall x y w m', has_node (exact_field s') x y w m' -> exists v (b : bool), weight_at (exact_field s) x y v /\ w = v + (if b then 1 else 0) /\
     fair (fval u) (is_node (exact_field s) x y) seen x y b tracks).
Proof.
  intros He He' Ru Ru' Pu tracks s s' seen W (Ro & Wf & G & Cv & HT & NM) Gt B H. unfold zone_calls in H. rewrite calls_app in H.
  change (map (fun t : list (spec_float * spec_float) => ORasterize (map fst t) (map snd t) u) tracks) with (map (lay u) tracks) in H.
  destruct (@calls spec_float (SF lm) fuel s (map (lay u) tracks)) as [s1 r] eqn:E1. assert (r = Ok tt) by (destruct r as [[]| |]; [reflexivity|discriminate..]). subst r.
  destruct (tracks_step lm fuel ex ey u He He' Ru Ru' Pu tracks s s1 seen Ro Wf G Cv Gt E1) as (Ro1 & G1 & Sp1 & Cv1 & X1 & Y1 & T1 & K1). specialize (T1 W HT).
  destruct (one_sound lm) as (S1 & V1).
  assert (B1 : W + fval (@nZ spec_float (SF lm) 1) <= powerRZ 2 (53 + 0)) by (rewrite V1; exact B).
  destruct (c92_register lm 0 s1 (@nZ spec_float (SF lm) 1) W ltac:(lia) G1 S1 T1 B1) as (E2 & G2). cbn zeta in E2, G2.
  cbn [calls run_op] in H. destruct (@register spec_float (SF lm) s1 (@nZ spec_float (SF lm) 1)) as [s2 r] eqn:E3. assert (s2 = s') by (destruct r as [[]| |]; [|discriminate..]; congruence). subst s2. cbn [fst] in E2, G2.
  pose proof Sp1 as (_ & Wf1 & _). pose proof (roomy_init _ _ _ Ro1) as I1.
  destruct (c14_register_exact (exact_field s1) (fval (@nZ spec_float (SF lm) 1)) Wf1 I1) as (t & E2' & Wf2 & N2 & T2 & Ext2 & DX2 & DY2). rewrite E2 in E2'. injection E2' as <-.
  rewrite V1 in N2, T2.
  assert (Ro2 : roomy ex ey s' /\ deltax s' = deltax s1 /\ deltay s' = deltay s1).
  { destruct Ro1 as (D1 & D2).
    destruct (step_shape lm fuel ex ey s1 (exact_field s1) (ORegister (@nZ spec_float (SF lm) 1)) D1) as (Q1 & Qx & Qy & _); [exact I|reflexivity|reflexivity|reflexivity|].
    destruct (step_shape lm fuel (ex - 1) (ey - 1) s1 (exact_field s1) (ORegister (@nZ spec_float (SF lm) 1)) D2) as (Q2 & _); [exact I|reflexivity|reflexivity|reflexivity|].
    cbn [run_op] in Q1, Q2, Qx, Qy. rewrite E3 in Q1, Q2, Qx, Qy. cbn [fst] in *. split; [split; assumption|]. split; assumption. }
  destruct Ro2 as (Ro2 & X2 & Y2).
  assert (Sp2 : spread (exact_field s1) (exact_field s')).
  { split; [exact Wf1|]. split; [exact Wf2|]. split; [exact I1|]. split; [exact DX2|]. split; [exact DY2|]. intros x y (w & m & Hn).
    exists (if m then w + 1 else w), false. apply N2. split; [reflexivity|]. exists w, m. auto. }
  split; [|split; [exact (spread_trans _ _ _ Sp1 Sp2)|split; [congruence|split; [congruence|]]]].
  - split; [exact Ro2|]. split; [exact Wf2|]. split; [exact G2|]. split; [|split; [exact (T2 W T1)|]].
    + destruct Cv1 as (a0 & a1 & b0 & b1 & Ex & Cx). exists a0, a1, b0, b1. split; [exact (Ext2 _ _ _ _ Ex)|exact Cx].
    + intros x y (w & Hm). apply N2 in Hm. destruct Hm as (Hm & _). discriminate.
  - intros x y w m' Hn. apply N2 in Hn. destruct Hn as (-> & v & m & Hn & ->). destruct (K1 x y v m Hn) as (V & _ & M2 & M3). exists v, m. split; [exact V|].
    split; [destruct m; lra|]. split; [|exact M3]. intros Em. destruct (M2 Em) as [M|M]; [destruct (NM _ _ M)|exact M].
Qed.

Lemma fairs_old u (old old' : Prop) x y : (old' -> old) -> forall seen flags zones, fairs u old x y seen flags zones -> fairs u old' x y seen flags zones.
Proof.
  intros K seen flags zones H. induction H as [|seen b z flags zones (A & B) H IH]; constructor; [|exact IH]. split; [exact A|].
  intros before tr after E Hit [O|O]; apply (B before tr after E Hit); auto.
Qed.

Lemma zones_step lm fuel ex ey u : (ex <= 147)%Z -> (ey <= 147)%Z -> reach ex u -> reach ey u -> 0 <= fval u -> forall zones s s' seen W,
  ready ex ey s seen W -> Forall (Forall (good_track ex ey (deltax s) (deltay s))) zones -> W + INR (length zones) <= 2 ^ 53 ->
  @calls spec_float (SF lm) fuel s (concat (map (@zone_calls spec_float (SF lm) u) zones)) = (s', Ok tt) ->
  ready ex ey s' (seen ++ concat (concat zones)) (W + INR (length zones)) /\ spread (exact_field s) (exact_field s') /\ deltax s' = deltax s /\ deltay s' = deltay s /\
  (forall x y w m', has_node (exact_field s') x y w m' -> exists v flags, weight_at (exact_field s) x y v /\ w = v + tally flags /\
     fairs (fval u) (is_node (exact_field s) x y) x y seen flags zones).
Proof.
  intros He He' Ru Ru' Pu. induction zones as [|z zones IH]; intros s s' seen W R Gt B H.
  - cbn in H. injection H as <-. cbn [concat length INR]. rewrite app_nil_r, Rplus_0_r. pose proof R as (Ro & Wf & _). split; [exact R|]. split; [apply spread_refl; [exact Wf|exact (roomy_init _ _ _ Ro)]|].
    split; [reflexivity|]. split; [reflexivity|]. intros x y w m' Hn. exists w, []. split; [left; exists m'; exact Hn|]. split; [cbn; lra|constructor].
  - cbn [map concat] in H. rewrite calls_app in H. destruct (@calls spec_float (SF lm) fuel s (@zone_calls spec_float (SF lm) u z)) as [s1 r] eqn:E1.
    assert (r = Ok tt) by (destruct r as [[]| |]; [reflexivity|discriminate..]). subst r. inversion Gt as [|? ? Gz Gt']; subst.
    cbn [length] in B. rewrite S_INR in B. pose proof (pos_INR (length zones)) as Pn.
    destruct (zone_step lm fuel ex ey u He He' Ru Ru' Pu z s s1 seen W R Gz ltac:(lra) E1) as (R1 & Sp1 & X1 & Y1 & K1).
    rewrite <- X1, <- Y1 in Gt'. destruct (IH s1 s' (seen ++ concat z) (W + 1) R1 Gt' ltac:(lra) H) as (R2 & Sp2 & X2 & Y2 & K2).
    split; [|split; [exact (spread_trans _ _ _ Sp1 Sp2)|split; [congruence|split; [congruence|]]]].
    + cbn [concat length]. rewrite S_INR, concat_app, app_assoc. replace (W + (INR (length zones) + 1)) with (W + 1 + INR (length zones)) by ring. exact R2.
    + intros x y w m' Hn. destruct (K2 x y w m' Hn) as (v1 & flags & V1 & Ew & Fl). pose proof Sp1 as (_ & _ & _ & _ & _ & N1). apply (fairs_old _ _ _ _ _ (N1 x y)) in Fl.
      destruct V1 as [(m1 & Hn1)|(Nn & ->)].
      * destruct (K1 x y v1 m1 Hn1) as (v & b & V & -> & Fb). exists v, (b :: flags). split; [exact V|]. split; [cbn [tally]; rewrite Ew; destruct b; lra|]. constructor; assumption.
      * exists 0, (false :: flags). split; [right; split; [intros O; apply Nn, N1, O|reflexivity]|]. split; [cbn [tally]; lra|]. constructor; [|exact Fl]. split; [discriminate|].
        intros before tr after Eq _ Old. exfalso. apply Nn. destruct Old as [Old|Old]; [exact (N1 _ _ Old)|]. destruct R1 as (_ & _ & _ & Cv1 & _).
        apply (boxed_covered _ _ _ (seen ++ concat before ++ tr) _ _ Sp2 Cv1); [|exact Old|exists w, m'; exact Hn].
        intros p Hp. rewrite Eq, concat_app. cbn [concat]. rewrite !in_app_iff in *. tauto.
Qed.

(** ** From the constructor *)
Lemma fresh lm ex ey d xo yo : (-1073 <= ex <= 147)%Z -> (-1073 <= ey <= 147)%Z -> ffinite d -> 0 < fval d -> roomy_units ex (fval d) -> roomy_units ey (fval d) ->
  roomy_range ex d xo -> roomy_units ex (fval xo) -> roomy_range ey d yo -> roomy_units ey (fval yo) ->
  exists s, @pf_init spec_float (SF lm) d d xo yo = Ok s /\ ready ex ey s [] 0 /\ deltax s = d /\ deltay s = d /\ forall x y, weight_at (exact_field s) x y 0.
Proof.
  intros Hx Hy Fd Pd Ux Uy Rx Uxo Ry Uyo.
  destruct (c89_constructor lm ex ey 0 d d xo yo ltac:(lia) ltac:(lia) Fd Pd (roomy_full _ _ Ux) Fd Pd (roomy_full _ _ Uy) (full_range _ _ _ Rx) (roomy_full _ _ Uxo) (full_range _ _ _ Ry) (roomy_full _ _ Uyo))
    as (s & E & EX & Dx & Dy & D1 & Wf & G & T0 & V0).
  destruct (c89_constructor lm (ex - 1) (ey - 1) 0 d d xo yo ltac:(lia) ltac:(lia) Fd Pd (roomy_half _ _ Ux) Fd Pd (roomy_half _ _ Uy) (proj1 (half_range _ _ _) Rx) (roomy_half _ _ Uxo) (proj1 (half_range _ _ _) Ry) (roomy_half _ _ Uyo))
    as (s2 & E2 & _ & _ & _ & D2 & _). rewrite E in E2. injection E2 as <-.
  assert (Ro : roomy ex ey s) by (split; assumption). exists s. split; [exact E|]. split; [|auto]. split; [exact Ro|]. split; [exact Wf|]. split; [exact G|].
  split; [apply covered_some; [exact Wf|exact (roomy_init _ _ _ Ro)]|]. split; [exact T0|].
  intros x y (w & Hm). unfold pf_init in E. destruct (@nle spec_float (SF lm) d (@nZ spec_float (SF lm) 0)); [discriminate|].
  destruct (@nisnan spec_float (SF lm) xo || @nisnan spec_float (SF lm) yo)%bool; injection E as <-; destruct Hm as (g & i & j & dx' & dy' & x0 & y0 & Bg & _ & _ & _ & _ & _ & _ & _ & Hr); cbn in Bg; [discriminate|].
  injection Bg as <-. cbn [exact_geom rgrid] in Hr. apply get2_in in Hr. destruct Hr as (row & Hr & Hv). cbn in Hr. destruct Hr as [<-|[<-|[<-|[]]]]; cbn in Hv; intuition discriminate.
Qed.

Lemma init_positive lm d xo yo s : ffinite d -> @pf_init spec_float (SF lm) d d xo yo = Ok s -> 0 < fval d.
Proof.
  intros Fd E. unfold pf_init in E. destruct (@nle spec_float (SF lm) d (@nZ spec_float (SF lm) 0)) eqn:L; [discriminate|].
  destruct (of_small 0 ltac:(lia)) as (F0 & V0). change (SFleb d (f_of_Z 0) = false) in L. rewrite (fleb _ _ Fd F0), V0 in L.
  destruct (Raux.Rle_bool_spec (fval d) 0); [discriminate|assumption].
Qed.

(** What each node's weight counts after zones were recorded on a fresh field. *)
Lemma c95_zones : forall lm fuel ex ey d xo yo u zones s0 s, (-1073 <= ex <= 147)%Z -> (-1073 <= ey <= 147)%Z ->
  ffinite d -> 0 < fval d -> roomy_units ex (fval d) -> roomy_units ey (fval d) ->
  roomy_range ex d xo -> roomy_units ex (fval xo) -> roomy_range ey d yo -> roomy_units ey (fval yo) ->
  reach ex u -> reach ey u -> 0 <= fval u -> (Z.of_nat (length zones) <= 2 ^ 53)%Z -> Forall (Forall (good_track ex ey d d)) zones ->
  @pf_init spec_float (SF lm) d d xo yo = Ok s0 -> @calls spec_float (SF lm) fuel s0 (concat (map (@zone_calls spec_float (SF lm) u) zones)) = (s, Ok tt) ->
  wf (exact_field s) /\ sound_grid 0 s /\ total (exact_field s) (INR (length zones)) /\
  (forall x y, is_node (exact_field s0) x y -> is_node (exact_field s) x y) /\
  (exists x0 x1 y0 y1, extent (exact_field s) x0 x1 y0 y1 /\ forall p, In p (concat (concat zones)) -> x0 <= fst (at_ p) <= x1 /\ y0 <= snd (at_ p) <= y1) /\
  (forall x y w m, has_node (exact_field s) x y w m -> m = false /\ exists flags, w = tally flags /\ fairs (fval u) (is_node (exact_field s0) x y) x y [] flags zones).
Proof.
  intros lm fuel ex ey d xo yo u zones s0 s Hx Hy Fd Pd Ux Uy Rx Uxo Ry Uyo Ru Ru' Pu Len Gt E H.
  destruct (fresh lm ex ey d xo yo Hx Hy Fd Pd Ux Uy Rx Uxo Ry Uyo) as (s1 & E1 & R & Dx & Dy & V0). rewrite E in E1. injection E1 as <-.
  assert (B : 0 + INR (length zones) <= 2 ^ 53).
  { rewrite Rplus_0_l, INR_IZR_INZ. replace (2 ^ 53) with (IZR (2 ^ 53)) by (rewrite (pow_IZR 2 53); reflexivity). apply IZR_le. exact Len. }
  rewrite <- Dx in Gt at 1. rewrite <- Dy in Gt.
  destruct (zones_step lm fuel ex ey u ltac:(lia) ltac:(lia) Ru Ru' Pu zones s0 s [] 0 R Gt B H) as ((Ro & Wf & G & Cv & T & NM) & Sp & _ & _ & K).
  rewrite Rplus_0_l in T. split; [exact Wf|]. split; [exact G|]. split; [exact T|]. split; [apply Sp|]. split; [exact Cv|]. intros x y w m Hn. split.
  - destruct m; [|reflexivity]. destruct (NM x y). exists w. exact Hn.
  - destruct (K x y w m Hn) as (v & flags & V & -> & Fl). exists flags. split; [|exact Fl]. destruct R as (_ & Wf0 & _).
    assert (v = 0); [|subst v; lra]. destruct V as [(m0 & V)|(_ & ->)]; [|reflexivity]. destruct (V0 x y) as [(m1 & V1)|(_ & _)].
    + destruct (has_node_fun _ _ _ _ _ _ _ Wf0 V V1) as (-> & _). reflexivity.
    + destruct (V0 x y) as [(m1 & V1)|(N & _)]; [destruct (has_node_fun _ _ _ _ _ _ _ Wf0 V V1) as (-> & _); reflexivity|]. destruct N. exists v, m0. exact V.
Qed.

(** The stochastic driver: every accumulated weight is the exact number of realizations that the node is counted for. *)
Lemma c95_stochastic : forall (lm : libm) (G E : Type) (R : rng spec_float G) (mvn : E -> list spec_float -> list (list spec_float) -> list spec_float)
    fuel la entropy g target npaths duration nrealizations base_ c_dist p_dist t_dist ws observations spacing umbra confined tol maxstep s logs,
  @create_stochastic _ (SF lm) _ _ R mvn fuel la entropy g target npaths duration nrealizations base_ c_dist p_dist t_dist ws observations
                    spacing umbra confined tol maxstep = Ok (s, logs) ->
  exists w s0 zones, nth_error ws target = Some w /\ @pf_init spec_float (SF lm) spacing spacing (sx w) (sy w) = Ok s0 /\ length zones = Z.to_nat nrealizations /\
    Forall2 (fun l tracks => exists m, logs_model l m /\ located m ws /\ xo m = sx w /\ yo m = sy w /\
               @traced _ (SF lm) fuel (sx w) (sy w) (sr w) duration tol maxstep npaths confined m tracks /\ length tracks = Z.to_nat npaths) logs zones /\
    forall ex ey, (-1073 <= ex <= 147)%Z -> (-1073 <= ey <= 147)%Z -> (nrealizations <= 2 ^ 53)%Z ->
      ffinite spacing -> roomy_units ex (fval spacing) -> roomy_units ey (fval spacing) ->
      roomy_range ex spacing (sx w) -> roomy_units ex (fval (sx w)) -> roomy_range ey spacing (sy w) -> roomy_units ey (fval (sy w)) ->
      reach ex umbra -> reach ey umbra -> 0 <= fval umbra -> Forall (Forall (good_track ex ey spacing spacing)) zones ->
      sound_grid 0 s /\ total (exact_field s) (INR (Z.to_nat nrealizations)) /\
      (exists x0 x1 y0 y1, extent (exact_field s) x0 x1 y0 y1 /\ forall p, In p (concat (concat zones)) -> x0 <= fst (at_ p) <= x1 /\ y0 <= snd (at_ p) <= y1) /\
      (forall x y w m, has_node (exact_field s) x y w m -> m = false /\ exists flags, w = tally flags /\ fairs (fval umbra) (is_node (exact_field s0) x y) x y [] flags zones).
Proof.
  intros lm G E R mvn fuel la entropy g target npaths duration nrealizations base_ c_dist p_dist t_dist ws observations spacing umbra confined tol maxstep s logs H.
  apply c60_history in H. destruct H as (w & s0 & zones & Ew & I & Len & F & C). exists w, s0, zones.
  assert (LZ : length zones = Z.to_nat nrealizations) by (rewrite <- Len; symmetry; eapply Forall2_len; exact F).
  split; [exact Ew|]. split; [exact I|]. split; [exact LZ|]. split.
  { clear - F. induction F as [|l tr logs zones (m & A1 & A2 & A3 & A4 & A5 & A6 & A7 & A8) F IH]; constructor; [|exact IH]. exists m. auto 10. }
  intros ex ey Hx Hy Hn Fd Ux Uy Rx Uxo Ry Uyo Ru Ru' Pu Gt.
  assert (Pd : 0 < fval spacing) by (apply (init_positive lm _ _ _ _ Fd I)).
  assert (LN : (Z.of_nat (length zones) <= 2 ^ 53)%Z) by (rewrite LZ; clear - Hn; change (2 ^ 53)%Z with 9007199254740992%Z in *; lia).
  destruct (c95_zones lm fuel ex ey spacing (sx w) (sy w) umbra zones s0 s Hx Hy Fd Pd Ux Uy Rx Uxo Ry Uyo Ru Ru' Pu LN Gt I C) as (_ & Q1 & Q2 & _ & Q3 & Q4).
  rewrite <- LZ. split; [exact Q1|]. split; [exact Q2|]. split; [exact Q3|exact Q4].
Qed.

(** The deterministic driver: one zone. *)
Lemma c95_deterministic : forall (lm : libm)
    fuel la target npaths duration base_ c_dist p_dist t_dist ws observations spacing umbra confined tol maxstep s l,
  @create_deterministic _ (SF lm) fuel la target npaths duration base_ c_dist p_dist t_dist ws observations
                       spacing umbra confined tol maxstep = Ok (s, l) ->
  exists w s0 tracks m, nth_error ws target = Some w /\ @pf_init spec_float (SF lm) spacing spacing (sx w) (sy w) = Ok s0 /\
    logs_model l m /\ located m ws /\ xo m = sx w /\ yo m = sy w /\
    @traced _ (SF lm) fuel (sx w) (sy w) (sr w) duration tol maxstep npaths confined m tracks /\ length tracks = Z.to_nat npaths /\
    forall ex ey, (-1073 <= ex <= 147)%Z -> (-1073 <= ey <= 147)%Z ->
      ffinite spacing -> roomy_units ex (fval spacing) -> roomy_units ey (fval spacing) ->
      roomy_range ex spacing (sx w) -> roomy_units ex (fval (sx w)) -> roomy_range ey spacing (sy w) -> roomy_units ey (fval (sy w)) ->
      reach ex umbra -> reach ey umbra -> 0 <= fval umbra -> Forall (good_track ex ey spacing spacing) tracks ->
      sound_grid 0 s /\ total (exact_field s) 1 /\
      (exists x0 x1 y0 y1, extent (exact_field s) x0 x1 y0 y1 /\ forall p, In p (concat tracks) -> x0 <= fst (at_ p) <= x1 /\ y0 <= snd (at_ p) <= y1) /\
      (forall x y w m, has_node (exact_field s) x y w m -> m = false /\ exists b : bool, w = (if b then 1 else 0) /\ fair (fval umbra) (is_node (exact_field s0) x y) [] x y b tracks).
Proof.
  intros lm fuel la target npaths duration base_ c_dist p_dist t_dist ws observations spacing umbra confined tol maxstep s l H.
  apply c59_history in H. destruct H as (w & s0 & tracks & m & k & n & h & Ew & I & _ & _ & _ & _ & _ & _ & A1 & _ & _ & A2 & A3 & A4 & A5 & A6 & C). exists w, s0, tracks, m.
  do 8 (split; [assumption|]).
  intros ex ey Hx Hy Fd Ux Uy Rx Uxo Ry Uyo Ru Ru' Pu Gt.
  assert (Pd : 0 < fval spacing) by (apply (init_positive lm _ _ _ _ Fd I)).
  assert (C' : @calls spec_float (SF lm) fuel s0 (concat (map (@zone_calls spec_float (SF lm) umbra) [tracks])) = (s, Ok tt)) by (cbn [map concat]; rewrite app_nil_r; exact C).
  destruct (c95_zones lm fuel ex ey spacing (sx w) (sy w) umbra [tracks] s0 s Hx Hy Fd Pd Ux Uy Rx Uxo Ry Uyo Ru Ru' Pu ltac:(cbn; lia) ltac:(constructor; [exact Gt|constructor]) I C') as (_ & Q1 & Q2 & _ & Q3 & Q4).
  cbn [length INR concat] in Q2, Q3. rewrite app_nil_r in Q3. split; [exact Q1|]. split; [exact Q2|]. split; [exact Q3|].
  intros x y v mm Hn. destruct (Q4 x y v mm Hn) as (-> & flags & -> & Fl). split; [reflexivity|].
  inversion Fl as [|? b ? flags' ? Fb Fl']; subst. inversion Fl'; subst. exists b. split; [cbn [tally]; lra|exact Fb].
Qed.
