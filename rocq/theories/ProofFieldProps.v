(** * Proofs of the probability-field properties (C01-C18)

    The statements are repeated, with their concrete cases, in PropField.v. *)
From Coq Require Import Reals Lra Lia Psatz.
From Verif Require Import Py Num NumXR Grid ModelField SpecField ProofGeom ProofField ProofInsert ProofOps.
Local Open Scope R_scope.

(** ** Tools *)
Lemma wf_cases s : wf s ->
  (exists a, ok a /\ s = conc a) \/ (exists dx dy, 0 < dx /\ 0 < dy /\ s = unborn dx dy).
Proof.
  intros Hw. destruct (body s) as [g|] eqn:E.
  - left. apply wf_rep; auto. unfold initialised. congruence.
  - right. destruct Hw as (dx & dy & Hx & Hy & Px & Py & _). exists dx, dy.
    split; [exact Px|]. split; [exact Py|]. destruct s; cbn in *; subst. reflexivity.
Qed.

Lemma unborn_wf dx dy : 0 < dx -> 0 < dy -> wf (unborn dx dy).
Proof.
  intros. exists dx, dy. repeat split; auto; discriminate.
Qed.

Lemma conc_extent a : extent (conc a) (lat (X0 a) (Dx a) (C0 a)) (lat (X0 a) (Dx a) (C0 a + NC a - 1))
                             (lat (Y0 a) (Dy a) (R0 a)) (lat (Y0 a) (Dy a) (R0 a + NR a - 1)).
Proof. eexists. repeat split. Qed.

Lemma extent_fun s a b c d a' b' c' d' :
  extent s a b c d -> extent s a' b' c' d' -> a = a' /\ b = b' /\ c = c' /\ d = d'.
Proof. intros (g & Hg & ? & ? & ? & ?) (g' & Hg' & ? & ? & ? & ?). assert (g = g') by congruence. subst g'. repeat split; congruence. Qed.

Lemma conc_total a w : total (conc a) w <-> w = W a.
Proof.
  split.
  - intros (g & E & H). injection E as <-. cbn in H. congruence.
  - intros ->. eexists. split; reflexivity.
Qed.

Lemma conc_init a : initialised (conc a).
Proof. discriminate. Qed.

Lemma conc_is_node a x y :
  ok a -> (is_node (conc a) x y <-> exists p q, inwin a p q /\ x = lat (X0 a) (Dx a) q /\ y = lat (Y0 a) (Dy a) p).
Proof.
  intros Hok. unfold is_node. split.
  - intros (w & m & H). apply conc_node in H; auto. destruct H as (p & q & ? & ? & ? & _). eauto.
  - intros (p & q & ? & ? & ?). exists (P a p q), (M a p q). apply conc_node; auto. exists p, q. auto.
Qed.

Lemma conc_marked a x y :
  ok a -> (marked (conc a) x y <->
           exists p q, inwin a p q /\ x = lat (X0 a) (Dx a) q /\ y = lat (Y0 a) (Dy a) p /\ M a p q = true).
Proof.
  intros Hok. unfold marked. split.
  - intros (w & H). apply conc_node in H; auto. destruct H as (p & q & ? & ? & ? & ? & ?). eauto 7.
  - intros (p & q & ? & ? & ? & ?). exists (P a p q). apply conc_node; auto. exists p, q. auto.
Qed.

Lemma has_node_fun s x y w m w' m' :
  wf s -> has_node s x y w m -> has_node s x y w' m' -> w = w' /\ m = m'.
Proof.
  intros Hw H H'. assert (Hi : initialised s).
  { destruct H as (g & _ & _ & _ & _ & _ & _ & E & _). unfold initialised. congruence. }
  destruct (wf_rep s Hw Hi) as (a & Hok & ->). pose proof Hok as (Hdx & Hdy & _).
  apply conc_node in H; auto. apply conc_node in H'; auto.
  destruct H as (p & q & _ & -> & -> & -> & ->). destruct H' as (p' & q' & _ & Ex & Ey & -> & ->).
  apply lat_inj in Ex; auto. apply lat_inj in Ey; auto. subst. auto.
Qed.

Lemma wf_node_dec s x y : wf s -> is_node s x y \/ ~ is_node s x y.
Proof. intros _. apply Classical_Prop.classic. Qed.

(** ** C01 *)
Lemma c01_constructor_rejects : forall (dx dy : R) (xo yo : xr),
  pf_init (Fin dx) (Fin dy) xo yo = Raise RangeError <-> dx <= 0 \/ dy <= 0.
Proof.
  intros dx dy xo yo. unfold pf_init. cbn. change (IZR 0) with 0.
  rb; split; intros; try lra; try discriminate; auto; destruct (xisnan xo || xisnan yo); try discriminate;
  destruct H; lra.
Qed.

Lemma c01_constructor_centred : forall dx dy xo yo : R,
  0 < dx -> 0 < dy ->
  exists s, pf_init (Fin dx) (Fin dy) (Fin xo) (Fin yo) = Ok s /\ wf s /\ initialised s /\
    extent s (xo - dx) (xo + dx) (yo - dy) (yo + dy) /\ total s 0 /\
    (forall x y w m, has_node s x y w m <->
       w = 0 /\ m = false /\
       (x = xo - dx \/ x = xo \/ x = xo + dx) /\ (y = yo - dy \/ y = yo \/ y = yo + dy)).
Proof.
  intros dx dy xo yo Hx Hy. eexists. split; [apply pf_init_fin; auto|].
  set (a := blank _ _ _ _ _ _). assert (Hok : ok a) by (apply blank_ok; auto; lia).
  split; [now apply conc_wf|]. split; [apply conc_init|]. split.
  { replace (xo - dx) with (lat (X0 a) (Dx a) (C0 a)) by (unfold lat; cbn; ring).
    replace (yo - dy) with (lat (Y0 a) (Dy a) (R0 a)) by (unfold lat; cbn; ring).
    replace (xo + dx) with (lat (X0 a) (Dx a) (C0 a + NC a - 1)) by (unfold lat; cbn; ring).
    replace (yo + dy) with (lat (Y0 a) (Dy a) (R0 a + NR a - 1)) by (unfold lat; cbn; ring).
    apply conc_extent. }
  split; [now apply conc_total|]. intros x y w m. rewrite (conc_node _ _ _ _ _ Hok).
  unfold inwin, lat. cbn [X0 Y0 Dx Dy C0 R0 NC NR P M a blank]. split.
  - intros (p & q & (Hp & Hq) & -> & -> & -> & ->).
    assert (Ep : (p = 0 \/ p = 1 \/ p = 2)%Z) by lia. assert (Eq : (q = 0 \/ q = 1 \/ q = 2)%Z) by lia.
    split; [reflexivity|]. split; [reflexivity|]. split.
    + destruct Eq as [->|[->| ->]]; [left|right; left|right; right]; ring.
    + destruct Ep as [->|[->| ->]]; [left|right; left|right; right]; ring.
  - intros (-> & -> & Hxx & Hyy).
    assert (exists q, (0 <= q < 0 + 3)%Z /\ x = xo - dx + IZR q * dx) as (q & Hq & ->).
    { destruct Hxx as [->|[->| ->]]; [exists 0%Z|exists 1%Z|exists 2%Z]; (split; [lia|ring]). }
    assert (exists q, (0 <= q < 0 + 3)%Z /\ y = yo - dy + IZR q * dy) as (p & Hp & ->).
    { destruct Hyy as [->|[->| ->]]; [exists 0%Z|exists 1%Z|exists 2%Z]; (split; [lia|ring]). }
    exists p, q. auto.
Qed.

Lemma c01_constructor_uncentred : forall (dx dy : R) (xo yo : xr),
  0 < dx -> 0 < dy -> (xo = NaN \/ yo = NaN) ->
  exists s, pf_init (Fin dx) (Fin dy) xo yo = Ok s /\ wf s /\ ~ initialised s.
Proof.
  intros dx dy xo yo Hx Hy Hn. exists (unborn dx dy). split; [|split; [now apply unborn_wf|intros H; now apply H]].
  unfold pf_init. cbn. change (IZR 0) with 0. rewrite !(proj2 (Rleb_false _ 0)) by lra. cbn.
  assert (E : xisnan xo || xisnan yo = true) by (destruct Hn; subst; cbn; auto using orb_true_r).
  cbn in E. now rewrite E.
Qed.

(** ** C02 *)
Lemma expand_cover : forall fuel s xmn xmx ymn ymx s',
  wf s -> expand fuel s (Fin xmn) (Fin xmx) (Fin ymn) (Fin ymx) = (s', Ok tt) ->
  exists a', ok a' /\ s' = conc a' /\
    lat (X0 a') (Dx a') (C0 a') < xmn /\ xmx < lat (X0 a') (Dx a') (C0 a' + NC a' - 1) /\
    lat (Y0 a') (Dy a') (R0 a') < ymn /\ ymx < lat (Y0 a') (Dy a') (R0 a' + NR a' - 1) /\
    xmn <= xmx /\ ymn <= ymx.
Proof.
  intros fuel s xmn xmx ymn ymx s' Hw He.
  assert (Ho : xmn <= xmx /\ ymn <= ymx).
  { unfold expand in He. cbn [nlt XR xlt] in He.
    destruct (Rltb_spec xmx xmn); [congruence|]. destruct (Rltb_spec ymx ymn); [congruence|]. lra. }
  destruct (wf_cases s Hw) as [(a & Hok & ->)|(dx & dy & Hx & Hy & ->)].
  - destruct (expand_general fuel a (Fin xmn) (Fin xmx) (Fin ymn) (Fin ymx) Hok)
      as [(r & Hr & E)|(l & r & b & t & Hg & E)]; rewrite E in He; [congruence|]. injection He as <-.
    pose proof Hg as (Hl & Hr & Hb & Ht & _). exists (grow_win a l r b t). split; [now apply grow_win_ok|]. split; [reflexivity|].
    destruct (grown_fin _ _ _ _ _ _ _ _ _ Hok Hg) as (H1 & H2 & H3 & H4).
    cbn [X0 Y0 Dx Dy C0 R0 NC NR grow_win set_win].
    replace (C0 a - l + (NC a + l + r) - 1)%Z with (C0 a + NC a - 1 + r)%Z by lia.
    replace (R0 a - b + (NR a + b + t) - 1)%Z with (R0 a + NR a - 1 + t)%Z by lia. auto.
  - unfold expand in He. cbn [nlt XR xlt body unborn deltax deltay] in He.
    destruct (Rltb_spec xmx xmn); [congruence|]. destruct (Rltb_spec ymx ymn); [congruence|].
    destruct (expand_first_fin dx dy xmn xmx ymn ymx Hx Hy) as (nc & nr & g & E & H1 & H2 & H3 & H4 & H5).
    rewrite E in He. cbn [update] in He. rewrite H3 in He. injection He as <-.
    exists (blank (xmn - dx) (ymn - dy) dx dy nc nr). split; [now apply blank_ok|]. split; [reflexivity|].
    cbn [X0 Y0 Dx Dy C0 R0 NC NR blank]. change (0 + nc - 1)%Z with (nc - 1)%Z. change (0 + nr - 1)%Z with (nr - 1)%Z.
    unfold lat at 1 3. lra.
Qed.

Lemma c02_expand_contains : forall fuel s xmn xmx ymn ymx s',
  wf s -> expand fuel s (Fin xmn) (Fin xmx) (Fin ymn) (Fin ymx) = (s', Ok tt) ->
  wf s' /\ exists x0 x1 y0 y1, extent s' x0 x1 y0 y1 /\
    x0 < xmn /\ xmn <= xmx /\ xmx < x1 /\ y0 < ymn /\ ymn <= ymx /\ ymx < y1.
Proof.
  intros fuel s xmn xmx ymn ymx s' Hw He.
  destruct (expand_cover _ _ _ _ _ _ _ Hw He) as (a & Hok & -> & H).
  split; [now apply conc_wf|]. eexists _, _, _, _. split; [apply conc_extent|]. tauto.
Qed.

(** ** C03 *)
Lemma c03_expand_preserves : forall fuel s (xmn xmx ymn ymx : xr) s',
  wf s -> initialised s -> expand fuel s xmn xmx ymn ymx = (s', Ok tt) ->
  (forall x y w m, has_node s x y w m -> has_node s' x y w m) /\
  (forall x y w m, has_node s' x y w m -> has_node s x y w m \/ (~ is_node s x y /\ w = 0 /\ m = false)) /\
  (forall W, total s' W <-> total s W) /\
  deltax s' = deltax s /\ deltay s' = deltay s.
Proof.
  intros fuel s xmn xmx ymn ymx s' Hw Hi He. destruct (wf_rep s Hw Hi) as (a & Hok & ->).
  destruct (expand_general fuel a xmn xmx ymn ymx Hok) as [(r & Hr & E)|(l & r & b & t & Hg & E)];
    rewrite E in He; [congruence|]. injection He as <-.
  destruct Hg as (Hl & Hr & Hb & Ht & _). pose proof (grow_win_ok a l r b t Hok Hl Hr Hb Ht) as Hok'.
  split; [|split; [|split; [|split; reflexivity]]].
  - intros x y w m H. apply conc_node in H; auto. apply conc_node; auto. destruct H as (p & q & Hpq & H).
    exists p, q. split; [|exact H]. eapply extends_inwin; [|exact Hpq]. now apply extends_grow.
  - intros x y w m H. apply conc_node in H; auto. destruct H as (p & q & Hpq & Ex & Ey & Ew & Em).
    cbn [X0 Y0 Dx Dy P M grow_win set_win] in *. rewrite conc_node, conc_is_node by auto.
    destruct (inwinb a p q) eqn:Eb.
    + left. apply inwinb_true in Eb. exists p, q. auto.
    + right. assert (Hn : ~ inwin a p q) by (rewrite <- inwinb_true; congruence).
      destruct Hok as (Hdx & Hdy & _ & _ & Hout). destruct (Hout p q Hn) as [H0 H0'].
      rewrite Ew, Em. split; [|auto]. intros (p' & q' & Hin & Ex' & Ey'). rewrite Ex in Ex'. rewrite Ey in Ey'.
      apply lat_inj in Ex'; auto. apply lat_inj in Ey'; auto. subst. auto.
  - intros v. rewrite !conc_total. reflexivity.
Qed.

(** ** C04 *)
Lemma run_ops_conc fuel l : forall a, ok a -> Forall finite_weight l ->
  exists a', run_ops fuel (conc a) l = conc a' /\ ok a' /\ extends a a'.
Proof.
  induction l as [|o l IH]; intros a Hok Hf.
  - exists a. split; [reflexivity|]. split; [exact Hok|apply extends_refl].
  - inversion Hf; subst. destruct (run_op_any fuel a o Hok H1) as (a1 & E & Hok1 & He & _).
    destruct (IH a1 Hok1 H2) as (a' & E' & Hok' & He').
    exists a'. split; [|split; [exact Hok'|eapply extends_trans; eauto]].
    unfold run_ops in *. cbn [fold_left]. now rewrite E.
Qed.

Lemma run_ops_wf fuel l : forall s, wf s -> Forall finite_weight l -> wf (run_ops fuel s l).
Proof.
  induction l as [|o l IH]; intros s Hw Hf; [exact Hw|]. inversion Hf; subst.
  unfold run_ops in *. cbn [fold_left]. apply IH; auto.
  destruct (wf_cases s Hw) as [(a & Hok & ->)|(dx & dy & Hx & Hy & ->)].
  - destruct (run_op_any fuel a o Hok H1) as (a1 & E & Hok1 & _). rewrite E. now apply conc_wf.
  - destruct (run_op_unborn fuel dx dy o Hx Hy) as [-> | (a' & -> & Hok & _)].
    + now apply unborn_wf.
    + now apply conc_wf.
Qed.

Lemma c04_geometry_invariant : forall fuel l s,
  wf s -> Forall finite_weight l -> wf (run_ops fuel s l).
Proof. intros. now apply run_ops_wf. Qed.

(** In particular every field reached from the constructor, centred or not, by any history. *)
Lemma c04_from_constructor : forall fuel l (dx dy : R) (xo yo : xr) s,
  fin_or_nan xo -> fin_or_nan yo -> Forall finite_weight l ->
  pf_init (Fin dx) (Fin dy) xo yo = Ok s -> wf (run_ops fuel s l).
Proof.
  intros fuel l dx dy xo yo s Hx Hy Hf H. apply run_ops_wf; [|exact Hf].
  assert (Hd : 0 < dx /\ 0 < dy).
  { destruct (Rle_lt_dec dx 0); [|destruct (Rle_lt_dec dy 0); [|auto]]; exfalso;
      (assert (E : pf_init (Fin dx) (Fin dy) xo yo = Raise RangeError) by (apply c01_constructor_rejects; auto)); congruence. }
  destruct Hd as [Dx Dy]. destruct Hx as [(x0 & ->)| ->].
  - destruct Hy as [(y0 & ->)| ->].
    + destruct (c01_constructor_centred dx dy x0 y0 Dx Dy) as (s' & E & W & _). congruence.
    + destruct (c01_constructor_uncentred dx dy (Fin x0) NaN Dx Dy) as (s' & E & W & _); [auto|congruence].
  - destruct (c01_constructor_uncentred dx dy NaN yo Dx Dy) as (s' & E & W & _); [auto|congruence].
Qed.

Lemma c04_lattice_fixed : forall fuel l s,
  wf s -> initialised s -> Forall finite_weight l ->
  let s' := run_ops fuel s l in
  initialised s' /\ deltax s' = deltax s /\ deltay s' = deltay s /\
  (forall x y, is_node s x y -> is_node s' x y) /\
  exists dx dy, deltax s = Fin dx /\ deltay s = Fin dy /\
    forall x y x' y', is_node s x y -> is_node s' x' y' ->
      exists p q : Z, x' = x + IZR p * dx /\ y' = y + IZR q * dy.
Proof.
  intros fuel l s Hw Hi Hf. destruct (wf_rep s Hw Hi) as (a & Hok & ->). cbn zeta.
  destruct (run_ops_conc fuel l a Hok Hf) as (a' & -> & Hok' & He).
  pose proof He as (E1 & E2 & E3 & E4 & _).
  split; [apply conc_init|]. split; [cbn; now rewrite E3|]. split; [cbn; now rewrite E4|]. split.
  - intros x y H. apply conc_is_node in H; auto. apply conc_is_node; auto.
    destruct H as (p & q & Hin & -> & ->). exists p, q. rewrite E1, E2, E3, E4.
    split; [eapply extends_inwin; eauto|auto].
  - exists (Dx a), (Dy a). split; [reflexivity|]. split; [reflexivity|].
    intros x y x' y' H H'. apply conc_is_node in H; auto. apply conc_is_node in H'; auto.
    destruct H as (p & q & _ & -> & ->). destruct H' as (p' & q' & _ & -> & ->).
    rewrite E1, E2, E3, E4. exists (q' - q)%Z, (p' - p)%Z. unfold lat. rewrite !minus_IZR. split; ring.
Qed.

(** ** C05 *)
Lemma expand_noop fuel a xmn xmx ymn ymx :
  (1 <= fuel)%nat -> xmn <= xmx -> ymn <= ymx ->
  lat (X0 a) (Dx a) (C0 a) < xmn -> xmx < lat (X0 a) (Dx a) (C0 a + NC a - 1) ->
  lat (Y0 a) (Dy a) (R0 a) < ymn -> ymx < lat (Y0 a) (Dy a) (R0 a + NR a - 1) ->
  expand fuel (conc a) (Fin xmn) (Fin xmx) (Fin ymn) (Fin ymx) = (conc a, Ok tt).
Proof.
  intros Hf Hx Hy H1 H2 H3 H4. unfold expand. cbn [nlt XR xlt].
  rewrite !(proj2 (Rltb_false _ _)) by lra. cbn [body conc].
  destruct fuel as [|f]; [lia|]. unfold expand_more. cbn [xmin xmax ymin ymax grow_down grow_up nle XR xle].
  rewrite !(proj2 (Rleb_false _ _)) by lra. cbn [bind ncols nrows pgrid rgrid total_weight].
  rewrite !Z.add_0_r, !Z.eqb_refl. reflexivity.
Qed.

Lemma c05_expand_noop : forall fuel s xmn xmx ymn ymx x0 x1 y0 y1,
  (1 <= fuel)%nat -> wf s -> extent s x0 x1 y0 y1 ->
  x0 < xmn -> xmn <= xmx -> xmx < x1 -> y0 < ymn -> ymn <= ymx -> ymx < y1 ->
  expand fuel s (Fin xmn) (Fin xmx) (Fin ymn) (Fin ymx) = (s, Ok tt).
Proof.
  intros fuel s xmn xmx ymn ymx x0 x1 y0 y1 Hf Hw Hext. intros.
  assert (Hi : initialised s) by (destruct Hext as (g & Hg & _); unfold initialised; congruence).
  destruct (wf_rep s Hw Hi) as (a & Hok & ->).
  destruct (extent_fun _ _ _ _ _ _ _ _ _ Hext (conc_extent a)) as (-> & -> & -> & ->).
  now apply expand_noop.
Qed.

Lemma c05_expand_idempotent : forall fuel s xmn xmx ymn ymx s' fuel',
  wf s -> expand fuel s (Fin xmn) (Fin xmx) (Fin ymn) (Fin ymx) = (s', Ok tt) -> (1 <= fuel')%nat ->
  expand fuel' s' (Fin xmn) (Fin xmx) (Fin ymn) (Fin ymx) = (s', Ok tt).
Proof.
  intros fuel s xmn xmx ymn ymx s' fuel' Hw He Hf.
  destruct (expand_cover _ _ _ _ _ _ _ Hw He) as (a & Hok & -> & H1 & H2 & H3 & H4 & H5 & H6).
  now apply expand_noop.
Qed.

Lemma c05_expand_minimal : forall fuel s xmn xmx ymn ymx s' x0 x1 y0 y1 dx dy,
  wf s -> extent s x0 x1 y0 y1 -> deltax s = Fin dx -> deltay s = Fin dy ->
  expand fuel s (Fin xmn) (Fin xmx) (Fin ymn) (Fin ymx) = (s', Ok tt) ->
  exists l r b t : Z,
    (0 <= l /\ 0 <= r /\ 0 <= b /\ 0 <= t)%Z /\
    extent s' (x0 - IZR l * dx) (x1 + IZR r * dx) (y0 - IZR b * dy) (y1 + IZR t * dy) /\
    (forall k, (0 <= k)%Z -> (x0 - IZR k * dx < xmn <-> (l <= k)%Z)) /\
    (forall k, (0 <= k)%Z -> (xmx < x1 + IZR k * dx <-> (r <= k)%Z)) /\
    (forall k, (0 <= k)%Z -> (y0 - IZR k * dy < ymn <-> (b <= k)%Z)) /\
    (forall k, (0 <= k)%Z -> (ymx < y1 + IZR k * dy <-> (t <= k)%Z)).
Proof.
  intros fuel s xmn xmx ymn ymx s' x0 x1 y0 y1 dx dy Hw Hext Hdx Hdy He.
  assert (Hi : initialised s) by (destruct Hext as (g & Hg & _); unfold initialised; congruence).
  destruct (wf_rep s Hw Hi) as (a & Hok & ->).
  destruct (extent_fun _ _ _ _ _ _ _ _ _ Hext (conc_extent a)) as (-> & -> & -> & ->).
  cbn in Hdx, Hdy. injection Hdx as <-. injection Hdy as <-.
  destruct (expand_general fuel a (Fin xmn) (Fin xmx) (Fin ymn) (Fin ymx) Hok)
    as [(r & Hr & E)|(l & r & b & t & Hg & E)]; rewrite E in He; [congruence|]. injection He as <-.
  pose proof (grown_fin _ _ _ _ _ _ _ _ _ Hok Hg) as (G1 & G2 & G3 & G4).
  destruct Hg as (Hl & Hr & Hb & Ht & _ & _ & _ & _ & M1 & M2 & M3 & M4). cbn [nle XR xle] in *.
  pose proof Hok as (Px & Py & _).
  exists l, r, b, t. split; [lia|]. split.
  { pose proof (conc_extent (grow_win a l r b t)) as X. cbn [X0 Y0 Dx Dy C0 R0 NC NR grow_win set_win] in X.
    replace (lat (X0 a) (Dx a) (C0 a) - IZR l * Dx a) with (lat (X0 a) (Dx a) (C0 a - l))
      by (unfold lat; rewrite minus_IZR; ring).
    replace (lat (Y0 a) (Dy a) (R0 a) - IZR b * Dy a) with (lat (Y0 a) (Dy a) (R0 a - b))
      by (unfold lat; rewrite minus_IZR; ring).
    rewrite <- !lat_add.
    replace (C0 a + NC a - 1 + r)%Z with (C0 a - l + (NC a + l + r) - 1)%Z by lia.
    replace (R0 a + NR a - 1 + t)%Z with (R0 a - b + (NR a + b + t) - 1)%Z by lia. exact X. }
  assert (Lo : forall o d c n v, 0 < d -> lat o d (c - n) < v ->
      (forall i, (0 <= i < n)%Z -> Rleb v (lat o d (c - i)) = true) ->
      forall k, (0 <= k)%Z -> (lat o d c - IZR k * d < v <-> (n <= k)%Z)).
  { intros o d c n v Hd Hv Hm k Hk.
    assert (Ek : lat o d c - IZR k * d = lat o d (c - k)) by (unfold lat; rewrite minus_IZR; ring).
    rewrite Ek. split.
    - intros Hlt. destruct (Z_lt_le_dec k n) as [Hkn|]; [|assumption].
      specialize (Hm k (conj Hk Hkn)). apply Rleb_true in Hm. lra.
    - intros Hkn. assert (lat o d (c - k) <= lat o d (c - n)) by (apply lat_le; [auto|lia]). lra. }
  assert (Up : forall o d c n v, 0 < d -> v < lat o d (c + n) ->
      (forall i, (0 <= i < n)%Z -> Rleb (lat o d (c + i)) v = true) ->
      forall k, (0 <= k)%Z -> (v < lat o d c + IZR k * d <-> (n <= k)%Z)).
  { intros o d c n v Hd Hv Hm k Hk. rewrite <- lat_add. split.
    - intros Hlt. destruct (Z_lt_le_dec k n) as [Hkn|]; [|assumption].
      specialize (Hm k (conj Hk Hkn)). apply Rleb_true in Hm. lra.
    - intros Hkn. assert (lat o d (c + n) <= lat o d (c + k)) by (apply lat_le; [auto|lia]). lra. }
  split; [|split; [|split]]; intros k Hk.
  - now apply Lo.
  - now apply Up.
  - now apply Lo.
  - now apply Up.
Qed.

(** ** C06 *)
Lemma c06_inverted_box : forall fuel (s : pfield xr) (xmn xmx ymn ymx : xr),
  (xlt xmx xmn = true \/ xlt ymx ymn = true -> expand fuel s xmn xmx ymn ymx = (s, Raise RangeError)) /\
  (snd (expand fuel s xmn xmx ymn ymx) = Raise RangeError -> xlt xmx xmn = true \/ xlt ymx ymn = true).
Proof.
  intros. unfold expand. cbn [nlt XR].
  destruct (xlt xmx xmn); [split; auto|]. destruct (xlt ymx ymn).
  - split; auto.
  - split; [intros [H|H]; discriminate|]. intros H. exfalso. revert H.
    assert (K : forall r : res (geom xr), r <> Raise RangeError -> snd (update s r) <> Raise RangeError)
      by (intros [g|e|] Hr H; cbn in H; congruence).
    assert (C : forall v, nceil v <> Raise RangeError /\ nceil v <> NoFuel)
      by (intros [v| | |]; cbn; split; discriminate).
    assert (G : forall f a b c n, (exists r, grow_down f a b c n = Ok r) \/ grow_down f a b c n = NoFuel).
    { induction f; intros; cbn; [auto|]. destruct (xle _ _); eauto. }
    assert (G' : forall f a b c n, (exists r, grow_up f a b c n = Ok r) \/ grow_up f a b c n = NoFuel).
    { induction f; intros; cbn; [auto|]. destruct (xle _ _); eauto. }
    destruct (body s) as [g|]; apply K.
    + unfold expand_more.
      destruct (G fuel xmn (xmin g) (deltax s) 0%Z) as [([? ?] & ->)| ->]; cbn [bind]; [|discriminate].
      destruct (G' fuel xmx (xmax g) (deltax s) 0%Z) as [([? ?] & ->)| ->]; cbn [bind]; [|discriminate].
      destruct (G fuel ymn (ymin g) (deltay s) 0%Z) as [([? ?] & ->)| ->]; cbn [bind]; [|discriminate].
      destruct (G' fuel ymx (ymax g) (deltay s) 0%Z) as [([? ?] & ->)| ->]; cbn [bind]; [|discriminate].
      destruct (_ || _); discriminate.
    + unfold expand_first.
      destruct (nceil (ndiv (nsub xmx _) _)) eqn:E1; cbn [bind]; [|intros H; injection H as ->; exact (proj1 (C _) E1)|discriminate].
      destruct (nceil (ndiv (nsub ymx _) _)) eqn:E2; cbn [bind]; [discriminate|intros H; injection H as ->; exact (proj1 (C _) E2)|discriminate].
Qed.

(** ** C07 *)
Lemma c07_expand_terminates : forall s xmn xmx ymn ymx,
  wf s -> xmn <= xmx -> ymn <= ymx ->
  exists n, forall fuel, (n <= fuel)%nat ->
    snd (expand fuel s (Fin xmn) (Fin xmx) (Fin ymn) (Fin ymx)) = Ok tt.
Proof.
  intros s xmn xmx ymn ymx Hw Hx Hy.
  destruct (wf_cases s Hw) as [(a & Hok & ->)|(dx & dy & Px & Py & ->)].
  - destruct (expand_fuel a xmn xmx ymn ymx Hok) as (n & Hn). exists n. intros fuel Hf. specialize (Hn fuel Hf).
    revert Hn. unfold expand. cbn [nlt XR xlt].
    rewrite !(proj2 (Rltb_false _ _)) by lra. cbn [body conc].
    destruct (expand_more _ _ _ _ _ _ _ _) eqn:E; cbn; [auto| |congruence]. exfalso. revert E.
    assert (G : forall f a b c n, (exists r, grow_down f a b c n = Ok r) \/ grow_down f a b c n = NoFuel).
    { induction f; intros; cbn; [auto|]. destruct (xle _ _); eauto. }
    assert (G' : forall f a b c n, (exists r, grow_up f a b c n = Ok r) \/ grow_up f a b c n = NoFuel).
    { induction f; intros; cbn; [auto|]. destruct (xle _ _); eauto. }
    unfold expand_more.
    match goal with |- context [grow_down ?f ?x ?l ?d ?n] => destruct (G f x l d n) as [([? ?] & ->)| ->] end; cbn [bind]; [|discriminate].
    match goal with |- context [grow_up ?f ?x ?l ?d ?n] => destruct (G' f x l d n) as [([? ?] & ->)| ->] end; cbn [bind]; [|discriminate].
    match goal with |- context [grow_down ?f ?x ?l ?d ?n] => destruct (G f x l d n) as [([? ?] & ->)| ->] end; cbn [bind]; [|discriminate].
    match goal with |- context [grow_up ?f ?x ?l ?d ?n] => destruct (G' f x l d n) as [([? ?] & ->)| ->] end; cbn [bind]; [|discriminate].
    destruct (_ || _); discriminate.
  - exists O. intros fuel _. unfold expand. cbn [nlt XR xlt].
    rewrite !(proj2 (Rltb_false _ _)) by lra. cbn [body unborn deltax deltay].
    destruct (expand_first_fin dx dy xmn xmx ymn ymx Px Py) as (nc & nr & g & -> & _). reflexivity.
Qed.

(** ** C09 *)
Lemma c09_distance_lower : forall a b c p,
  a <> b -> on_segment a b p ->
  exists d, distancesquared (Fin (fst a)) (Fin (snd a)) (Fin (fst b)) (Fin (snd b)) (Fin (fst c)) (Fin (snd c)) = Fin d
            /\ d <= dist2 p c.
Proof.
  intros [ax ay] [bx by_] [cx cy] p Hne Hp. eexists. split; [now apply distancesquared_fin|].
  now apply dsq_lower.
Qed.

Lemma c09_distance_attained : forall a b c,
  a <> b ->
  exists p, on_segment a b p /\
    distancesquared (Fin (fst a)) (Fin (snd a)) (Fin (fst b)) (Fin (snd b)) (Fin (fst c)) (Fin (snd c))
    = Fin (dist2 p c).
Proof.
  intros [ax ay] [bx by_] [cx cy] Hne. destruct (dsq_attained (ax, ay) (bx, by_) (cx, cy) Hne) as (p & Hp & E).
  exists p. split; [exact Hp|]. cbn [fst snd]. rewrite (distancesquared_fin _ _ _ _ _ _ Hne). now rewrite E.
Qed.

Lemma c09_distance_symmetric : forall a b c,
  a <> b ->
  distancesquared (Fin (fst a)) (Fin (snd a)) (Fin (fst b)) (Fin (snd b)) (Fin (fst c)) (Fin (snd c)) =
  distancesquared (Fin (fst b)) (Fin (snd b)) (Fin (fst a)) (Fin (snd a)) (Fin (fst c)) (Fin (snd c)).
Proof.
  intros a b c Hne.
  destruct (c09_distance_attained a b c Hne) as (p & Hp & E).
  destruct (c09_distance_attained b a c (not_eq_sym Hne)) as (q & Hq & E').
  destruct (c09_distance_lower a b c q Hne (on_segment_sym _ _ _ Hq)) as (d & Ed & Hd).
  destruct (c09_distance_lower b a c p (not_eq_sym Hne) (on_segment_sym _ _ _ Hp)) as (d' & Ed' & Hd').
  rewrite E, E'. rewrite E in Ed. rewrite E' in Ed'. injection Ed as <-. injection Ed' as <-. f_equal. lra.
Qed.

(** ** C10 *)
Lemma c10_insert_exact : forall s a b u,
  wf s -> initialised s -> 0 <= u ->
  exists s', insert s (Fin (fst a)) (Fin (snd a)) (Fin (fst b)) (Fin (snd b)) (Fin u) = (s', Ok tt) /\
    wf s' /\ initialised s' /\
    (forall x y w m', has_node s' x y w m' <->
       exists m, has_node s x y w m /\ (m' = true <-> m = true \/ (a <> b /\ near u a b (x, y)))) /\
    (forall x0 x1 y0 y1, extent s x0 x1 y0 y1 -> extent s' x0 x1 y0 y1) /\
    (forall W, total s W -> total s' W) /\
    deltax s' = deltax s /\ deltay s' = deltay s.
Proof.
  intros s [ax ay] [bx by_] u Hw Hi Hu. destruct (wf_rep s Hw Hi) as (a & Hok & ->). cbn [fst snd].
  destruct (insert_fin a ax ay bx by_ u Hok Hu) as (m & E & Hm).
  exists (conc (set_M a m)). split; [exact E|].
  assert (Hok' : ok (set_M a m)).
  { apply set_M_ok; auto. intros p q Hpq. apply Hm in Hpq. destruct Hpq as [Hpq|[Hpq _]]; auto. now apply ok_M. }
  split; [now apply conc_wf|]. split; [apply conc_init|]. split.
  - intros x y w m'. rewrite conc_node by auto. split.
    + intros (p & q & Hin & -> & -> & -> & ->). exists (M a p q). split.
      * apply conc_node; auto. exists p, q. auto.
      * change (M (set_M a m) p q) with (m p q). rewrite Hm. cbn [X0 Y0 Dx Dy set_M].
        change (inwin (set_M a m) p q) with (inwin a p q) in Hin. tauto.
    + intros (m0 & H & Hm'). apply conc_node in H; auto. destruct H as (p & q & Hin & -> & -> & -> & ->).
      exists p, q. repeat split; auto; try apply Hin. cbn [M set_M].
      destruct m', (m p q) eqn:Em; auto; exfalso.
      * destruct (proj1 Hm' eq_refl) as [H|H]; [assert (m p q = true) by (apply Hm; auto)|assert (m p q = true) by (apply Hm; auto)]; congruence.
      * apply Hm in Em. assert (false = true) by (apply Hm'; tauto). discriminate.
  - split; [|split; [|split; reflexivity]].
    + intros x0 x1 y0 y1 (g & Hg & H). injection Hg as <-. eexists. split; [reflexivity|exact H].
    + intros v H. apply conc_total in H. now apply conc_total.
Qed.

(** ** C11 *)
Lemma fuel_enough s xmn xmx ymn ymx : wf s -> initialised s -> xmn <= xmx -> ymn <= ymx ->
  exists n, forall fuel, (n <= fuel)%nat -> exists s', expand fuel s (Fin xmn) (Fin xmx) (Fin ymn) (Fin ymx) = (s', Ok tt).
Proof.
  intros Hw Hi Hx Hy. destruct (c07_expand_terminates s xmn xmx ymn ymx Hw Hx Hy) as (n & Hn).
  exists n. intros fuel Hf. specialize (Hn fuel Hf). destruct (expand _ _ _ _ _ _) as [s' r]. cbn in Hn. subst. eauto.
Qed.

(** The box that rasterize requests. *)
Lemma track_box tr : tr <> [] -> exists xa xb ya yb,
  pymin_list (xs tr) = Ok (Fin xa) /\ pymax_list (xs tr) = Ok (Fin xb) /\
  pymin_list (ys tr) = Ok (Fin ya) /\ pymax_list (ys tr) = Ok (Fin yb) /\
  (forall p, In p tr -> xa <= fst p <= xb /\ ya <= snd p <= yb) /\ xa <= xb /\ ya <= yb /\
  (exists p, In p tr /\ fst p = xa) /\ (exists p, In p tr /\ fst p = xb) /\
  (exists p, In p tr /\ snd p = ya) /\ (exists p, In p tr /\ snd p = yb).
Proof.
  intros Hne.
  destruct (pymin_list_fin fst tr Hne) as (xa & E1 & A1 & B1). destruct (pymax_list_fin fst tr Hne) as (xb & E2 & A2 & B2).
  destruct (pymin_list_fin snd tr Hne) as (ya & E3 & A3 & B3). destruct (pymax_list_fin snd tr Hne) as (yb & E4 & A4 & B4).
  exists xa, xb, ya, yb. unfold xs, ys. do 4 (split; [assumption|]). split.
  { intros p Hp. repeat split; auto. }
  destruct B1 as (p & Hp & <-). destruct B3 as (q & Hq & <-).
  split; [auto|]. split; [auto|]. repeat split; eauto.
Qed.

(** rasterize = expand, then marks, whatever the initial state. *)
Lemma rasterize_run fuel s tr u s' :
  wf s -> 0 <= u -> rasterize fuel s (xs tr) (ys tr) (Fin u) = (s', Ok tt) ->
  tr <> [] /\
  exists xa xb ya yb a m,
    (forall p, In p tr -> xa <= fst p <= xb /\ ya <= snd p <= yb) /\ xa <= xb /\ ya <= yb /\
    pymin_list (xs tr) = Ok (Fin xa) /\ pymax_list (xs tr) = Ok (Fin xb) /\
    pymin_list (ys tr) = Ok (Fin ya) /\ pymax_list (ys tr) = Ok (Fin yb) /\
    expand fuel s (Fin xa) (Fin xb) (Fin ya) (Fin yb) = (conc a, Ok tt) /\ ok a /\
    s' = conc (set_M a m) /\ ok (set_M a m) /\
    forall p q, m p q = true <-> M a p q = true \/
      (inwin a p q /\ near_track u tr (lat (X0 a) (Dx a) q, lat (Y0 a) (Dy a) p)).
Proof.
  intros Hw Hu H. unfold rasterize in H.
  assert (Hne : tr <> []) by (intros ->; cbn in H; congruence).
  split; [exact Hne|].
  destruct (track_box tr Hne) as (xa & xb & ya & yb & E1 & E2 & E3 & E4 & Hbox & Hx & Hy & _).
  rewrite E1, E2, E3, E4 in H.
  destruct (expand fuel s (Fin xa) (Fin xb) (Fin ya) (Fin yb)) as [s1 r] eqn:Ee.
  destruct r as [[]|e|]; [|congruence|congruence].
  destruct (expand_cover _ _ _ _ _ _ _ Hw Ee) as (a & Hok & -> & _).
  destruct (insert_segments_fin tr a u Hok Hu) as (m & E & Hm). rewrite E in H. injection H as <-.
  exists xa, xb, ya, yb, a, m. repeat (split; [assumption|]). split; [reflexivity|]. split; [|exact Hm].
  apply set_M_ok; auto. intros p q Hpq. apply Hm in Hpq. destruct Hpq as [Hpq|[Hpq _]]; auto. now apply ok_M.
Qed.

Lemma c11_rasterize_exact : forall fuel s tr u s',
  wf s -> initialised s -> 0 <= u ->
  rasterize fuel s (xs tr) (ys tr) (Fin u) = (s', Ok tt) ->
  wf s' /\ initialised s' /\
  (forall x y w m, has_node s x y w m -> exists m', has_node s' x y w m') /\
  (forall x y w m', has_node s' x y w m' ->
     (has_node s x y w true -> m' = true) /\
     (~ is_node s x y -> w = 0) /\
     (m' = true <-> marked s x y \/ near_track u tr (x, y))) /\
  (forall W, total s W -> total s' W) /\
  (exists x0 x1 y0 y1, extent s' x0 x1 y0 y1 /\
     forall p, In p tr -> x0 < fst p < x1 /\ y0 < snd p < y1).
Proof.
  intros fuel s tr u s' Hw Hi Hu H.
  destruct (rasterize_run _ _ _ _ _ Hw Hu H) as (Hne & xa & xb & ya & yb & a & m & Hbox & Hx & Hy & _ & _ & _ & _ & Ee & Hok & -> & Hok' & Hm).
  destruct (c03_expand_preserves _ _ _ _ _ _ _ Hw Hi Ee) as (K1 & K2 & K3 & _).
  destruct (c02_expand_contains _ _ _ _ _ _ _ Hw Ee) as (_ & x0 & x1 & y0 & y1 & Hext & Hb).
  split; [now apply conc_wf|]. split; [apply conc_init|]. split; [|split; [|split]].
  - intros x y w mm Hn. apply K1 in Hn. apply conc_node in Hn; auto. destruct Hn as (p & q & Hin & -> & -> & -> & ->).
    exists (m p q). apply conc_node; auto. exists p, q. auto.
  - intros x y w m' Hn. apply conc_node in Hn; auto. destruct Hn as (p & q & Hin & -> & -> & -> & ->).
    cbn [P M X0 Y0 Dx Dy set_M] in *. change (inwin (set_M a m) p q) with (inwin a p q) in Hin.
    assert (Hn : has_node (conc a) (lat (X0 a) (Dx a) q) (lat (Y0 a) (Dy a) p) (P a p q) (M a p q))
      by (apply conc_node; auto; exists p, q; auto).
    split; [|split].
    + intros Ht. apply K1 in Ht. destruct (has_node_fun _ _ _ _ _ _ _ (conc_wf _ Hok) Hn Ht) as [_ Em].
      apply Hm. auto.
    + intros Hno. destruct (K2 _ _ _ _ Hn) as [Hc|(_ & -> & _)]; auto. exfalso. apply Hno. unfold is_node. eauto.
    + rewrite Hm. assert (EM : M a p q = true <-> marked s (lat (X0 a) (Dx a) q) (lat (Y0 a) (Dy a) p)).
      { split.
        - intros EM. destruct (K2 _ _ _ _ Hn) as [Hc|(_ & _ & Hc)]; [|congruence].
          rewrite EM in Hc. unfold marked. eauto.
        - intros (w & Hc). apply K1 in Hc.
          destruct (has_node_fun _ _ _ _ _ _ _ (conc_wf _ Hok) Hn Hc) as [_ Em]. exact Em. }
      rewrite EM. tauto.
  - intros v Hv. apply K3 in Hv. apply conc_total in Hv. now apply conc_total.
  - exists x0, x1, y0, y1. split.
    + destruct Hext as (g & Eg & X). injection Eg as <-. eexists. split; [reflexivity|exact X].
    + intros p Hp. destruct (Hbox p Hp). lra.
Qed.

Lemma c11_rasterize_returns : forall s tr u,
  wf s -> tr <> [] -> 0 <= u ->
  exists n, forall fuel, (n <= fuel)%nat ->
    exists s', rasterize fuel s (xs tr) (ys tr) (Fin u) = (s', Ok tt) /\ wf s' /\ initialised s'.
Proof.
  intros s tr u Hw Hne Hu.
  destruct (track_box tr Hne) as (xa & xb & ya & yb & E1 & E2 & E3 & E4 & Hbox & Hx & Hy & _).
  destruct (c07_expand_terminates s xa xb ya yb Hw Hx Hy) as (n & Hn). exists n. intros fuel Hf.
  specialize (Hn fuel Hf). unfold rasterize. rewrite E1, E2, E3, E4.
  destruct (expand fuel s _ _ _ _) as [s1 r] eqn:Ee. cbn in Hn. subst r.
  destruct (expand_cover _ _ _ _ _ _ _ Hw Ee) as (a & Hok & -> & _).
  destruct (insert_segments_fin tr a u Hok Hu) as (m & E & Hm). rewrite E. eexists. split; [reflexivity|].
  split; [|apply conc_init]. apply conc_wf, set_M_ok; auto. intros p q Hpq. apply Hm in Hpq.
  destruct Hpq as [Hpq|[Hpq _]]; auto. now apply ok_M.
Qed.

(** On a field without grids: the marks are those of the track alone. *)
Lemma c11_rasterize_first : forall fuel s tr u s',
  wf s -> ~ initialised s -> 0 <= u ->
  rasterize fuel s (xs tr) (ys tr) (Fin u) = (s', Ok tt) ->
  wf s' /\ initialised s' /\ total s' 0 /\
  (forall x y w m, has_node s' x y w m -> w = 0 /\ (m = true <-> near_track u tr (x, y))) /\
  (exists x0 x1 y0 y1, extent s' x0 x1 y0 y1 /\
     forall p, In p tr -> x0 < fst p < x1 /\ y0 < snd p < y1).
Proof.
  intros fuel s tr u s' Hw Hi Hu H.
  destruct (rasterize_run _ _ _ _ _ Hw Hu H) as (Hne & xa & xb & ya & yb & a & m & Hbox & Hx & Hy & _ & _ & _ & _ & Ee & Hok & -> & Hok' & Hm).
  destruct (c02_expand_contains _ _ _ _ _ _ _ Hw Ee) as (_ & x0 & x1 & y0 & y1 & Hext & Hb).
  destruct (wf_cases s Hw) as [(a0 & _ & ->)|(dx & dy & Px & Py & ->)]; [destruct Hi; apply conc_init|].
  assert (B : W a = 0 /\ (forall p q, inwin a p q -> P a p q = 0 /\ M a p q = false)).
  { unfold expand in Ee. cbn [nlt XR xlt body unborn deltax deltay] in Ee.
    rewrite !(proj2 (Rltb_false _ _)) in Ee by lra.
    destruct (expand_first_fin dx dy xa xb ya yb Px Py) as (nc & nr & g & E & N1 & N2 & H3 & _).
    rewrite E in Ee. cbn [update] in Ee. rewrite H3 in Ee.
    assert (Eb : conc (blank (xa - dx) (ya - dy) dx dy nc nr) = conc a) by congruence. clear Ee.
    assert (Okb : ok (blank (xa - dx) (ya - dy) dx dy nc nr)) by (apply blank_ok; auto).
    split.
    - assert (T : total (conc a) (W a)) by now apply conc_total. rewrite <- Eb in T. apply conc_total in T. exact T.
    - intros p q Hin.
      assert (Hn : has_node (conc a) (lat (X0 a) (Dx a) q) (lat (Y0 a) (Dy a) p) (P a p q) (M a p q))
        by (apply conc_node; auto; exists p, q; auto).
      rewrite <- Eb in Hn. apply conc_node in Hn; auto. destruct Hn as (p' & q' & _ & _ & _ & -> & ->). auto. }
  destruct B as [BW BM].
  split; [now apply conc_wf|]. split; [apply conc_init|]. split; [apply conc_total; cbn; auto|]. split.
  - intros x y w mm Hn. apply conc_node in Hn; auto. destruct Hn as (p & q & Hin & -> & -> & -> & ->).
    change (inwin (set_M a m) p q) with (inwin a p q) in Hin. cbn [P M X0 Y0 Dx Dy set_M].
    destruct (BM p q Hin) as [-> EM]. split; [reflexivity|]. rewrite Hm, EM. intuition discriminate.
  - exists x0, x1, y0, y1. split.
    + destruct Hext as (g & Eg & X). injection Eg as <-. eexists. split; [reflexivity|exact X].
    + intros p Hp. destruct (Hbox p Hp). lra.
Qed.
