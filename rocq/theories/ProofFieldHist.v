(** * Proofs of the probability-field properties C12-C18 (histories) *)
From Coq Require Import Reals Lra Lia Psatz.
From Verif Require Import Py Num NumXR Grid ModelField SpecField ProofGeom ProofField ProofInsert ProofOps ProofFieldProps.
Local Open Scope R_scope.

(** Weights and marks at arbitrary locations. *)
Definition locates (a : abs) (x y : R) (p q : Z) : Prop :=
  x = lat (X0 a) (Dx a) q /\ y = lat (Y0 a) (Dy a) p.

Lemma locates_fun a x y p q p' q' : ok a -> locates a x y p q -> locates a x y p' q' -> p = p' /\ q = q'.
Proof.
  intros (Hx & Hy & _) [-> ->] [E1 E2]. apply lat_inj in E1; auto. apply lat_inj in E2; auto.
Qed.

Lemma weight_conc a x y v :
  ok a -> (weight_at (conc a) x y v <->
           (exists p q, locates a x y p q /\ v = P a p q) \/ ((forall p q, ~ locates a x y p q) /\ v = 0)).
Proof.
  intros Hok. unfold weight_at. split.
  - intros [(m & H)|[Hn ->]].
    + apply conc_node in H; auto. destruct H as (p & q & _ & -> & -> & -> & _). left. exists p, q. split; [split|]; auto.
    + destruct (Classical_Prop.classic (exists p q, locates a x y p q)) as [(p & q & Hl)|Hl].
      * left. exists p, q. split; auto.
        assert (Hw : ~ inwin a p q).
        { intros Hin. apply Hn. apply conc_is_node; auto. destruct Hl. eauto. }
        symmetry. apply Hok. exact Hw.
      * right. split; auto. intros p q H. apply Hl. eauto.
  - intros [(p & q & Hl & ->)|[Hn ->]].
    + destruct (inwinb a p q) eqn:E.
      * apply inwinb_true in E. left. exists (M a p q). apply conc_node; auto. destruct Hl. exists p, q. auto.
      * right. assert (Hw : ~ inwin a p q) by (rewrite <- inwinb_true; congruence).
        split; [|apply Hok; exact Hw]. intros H. apply conc_is_node in H; auto.
        destruct H as (p' & q' & Hin & Hl'). destruct (locates_fun a x y p q p' q' Hok Hl Hl'). subst. auto.
    + right. split; auto. intros H. apply conc_is_node in H; auto. destruct H as (p & q & _ & Hl). exact (Hn p q Hl).
Qed.

Lemma marked_conc a x y :
  ok a -> (marked (conc a) x y <-> exists p q, locates a x y p q /\ M a p q = true).
Proof.
  intros Hok. rewrite conc_marked by auto. split.
  - intros (p & q & _ & -> & -> & H). exists p, q. split; [split|]; auto.
  - intros (p & q & [-> ->] & H). exists p, q. split; [now apply ok_M|]. auto.
Qed.

Lemma extends_locates a a' x y p q : extends a a' -> (locates a x y p q <-> locates a' x y p q).
Proof. intros (E1 & E2 & E3 & E4 & _). unfold locates. rewrite E1, E2, E3, E4. tauto. Qed.

Lemma weight_same a a' x y v :
  ok a -> ok a' -> extends a a' -> P a' = P a -> weight_at (conc a) x y v -> weight_at (conc a') x y v.
Proof.
  intros Hok Hok' He HP. rewrite !weight_conc by auto. rewrite HP.
  intros [(p & q & Hl & Hv)|[Hn Hv]]; [left|right].
  - exists p, q. rewrite <- (extends_locates _ _ _ _ _ _ He). auto.
  - split; auto. intros p q. rewrite <- (extends_locates _ _ _ _ _ _ He). auto.
Qed.

Lemma unborn_nonode dx dy x y w m : ~ has_node (unborn dx dy) x y w m.
Proof. intros (g & _ & _ & _ & _ & _ & _ & E & _). discriminate. Qed.

Lemma unborn_weight dx dy x y v : weight_at (unborn dx dy) x y v <-> v = 0.
Proof.
  unfold weight_at. split.
  - intros [(m & H)|[_ H]]; auto. now apply unborn_nonode in H.
  - intros ->. right. split; auto. intros (w & m & H). now apply unborn_nonode in H.
Qed.

Lemma unborn_marked dx dy x y : ~ marked (unborn dx dy) x y.
Proof. intros (w & H). now apply unborn_nonode in H. Qed.

Lemma total_at_conc a w : total_at (conc a) w <-> w = W a.
Proof.
  unfold total_at. rewrite conc_total. split.
  - intros [H|[H _]]; [exact H|]. destruct (H (conc_init a)).
  - auto.
Qed.
Lemma total_at_unborn dx dy w : total_at (unborn dx dy) w <-> w = 0.
Proof.
  unfold total_at. split.
  - intros [(g & E & _)|[_ H]]; auto. discriminate.
  - intros ->. right. split; [intros H; now apply H|reflexivity].
Qed.

(** Expanding: weights, marks and total stay. *)
Lemma expand_keeps fuel s xmn xmx ymn ymx s1 :
  wf s -> expand fuel s (Fin xmn) (Fin xmx) (Fin ymn) (Fin ymx) = (s1, Ok tt) ->
  exists a, s1 = conc a /\ ok a /\
    (forall x y v, weight_at s x y v -> weight_at s1 x y v) /\
    (forall x y, marked s1 x y <-> marked s x y) /\
    (forall T, total_at s T -> total s1 T).
Proof.
  intros Hw He. destruct (wf_cases s Hw) as [(a & Hok & ->)|(dx & dy & Px & Py & ->)].
  - destruct (expand_general fuel a (Fin xmn) (Fin xmx) (Fin ymn) (Fin ymx) Hok)
      as [(r & Hr & E)|(l & r & b & t & Hg & E)]; rewrite E in He; [congruence|]. injection He as <-.
    destruct Hg as (Hl & Hr & Hb & Ht & _). pose proof (grow_win_ok a l r b t Hok Hl Hr Hb Ht) as Hok'.
    pose proof (extends_grow a l r b t Hl Hr Hb Ht) as Hx.
    exists (grow_win a l r b t). split; [reflexivity|]. split; [exact Hok'|]. split; [|split].
    + intros x y v. now apply weight_same.
    + intros x y. rewrite !marked_conc by auto.
      split; intros (p & q & Hlo & HM); exists p, q; split; auto; eapply extends_locates; eauto.
    + intros T H. apply total_at_conc in H. now apply conc_total.
  - unfold expand in He. cbn [nlt XR xlt body unborn deltax deltay] in He.
    destruct (Rltb_spec xmx xmn); [congruence|]. destruct (Rltb_spec ymx ymn); [congruence|].
    destruct (expand_first_fin dx dy xmn xmx ymn ymx Px Py) as (nc & nr & g & E & H1 & H2 & H3 & _).
    rewrite E in He. cbn [update] in He. rewrite H3 in He. injection He as <-.
    assert (Hok : ok (blank (xmn - dx) (ymn - dy) dx dy nc nr)) by now apply blank_ok.
    eexists. split; [reflexivity|]. split; [exact Hok|]. split; [|split].
    + intros x y v H. apply unborn_weight in H. subst. rewrite weight_conc by auto.
      destruct (Classical_Prop.classic (exists p q, locates (blank (xmn - dx) (ymn - dy) dx dy nc nr) x y p q)) as [(p & q & Hl)|Hl].
      * left. exists p, q. auto.
      * right. split; auto. intros p q Hc. eauto.
    + intros x y. rewrite marked_conc by auto. split.
      * intros (p & q & _ & H). discriminate.
      * intros H. now apply unborn_marked in H.
    + intros T H. apply total_at_unborn in H. now apply conc_total.
Qed.

Lemma xs_inj t t' : xs t = xs t' -> ys t = ys t' -> t = t'.
Proof.
  revert t'. induction t as [|[a b] t IH]; intros [|[a' b'] t'] H H'; cbn in *; try discriminate; auto.
  injection H as -> H. injection H' as -> H'. f_equal. auto.
Qed.

Lemma step fuel s o s1 :
  wf s -> finite_op o -> run_op fuel s o = (s1, Ok tt) ->
  wf s1 /\ initialised s1 /\
  forall x y v (b : bool) T, (b = true <-> marked s x y) -> weight_at s x y v -> total_at s T ->
  match o with
  | ORegister (Fin w) => ~ marked s1 x y /\ weight_at s1 x y (v + if b then w else 0) /\ total s1 (T + w)
  | ORegister _ => True
  | OReset => ~ marked s1 x y /\ weight_at s1 x y v /\ total s1 T
  | _ => (marked s1 x y <-> marked s x y \/ paints o s1 x y) /\ weight_at s1 x y v /\ total s1 T
  end.
Proof.
  intros Hw Ho Hr. destruct Ho as [xmn xmx ymn ymx|ax ay bx by_ u Hu|tr u Hu|w|]; cbn [run_op] in Hr.
  - destruct (expand_keeps _ _ _ _ _ _ _ Hw Hr) as (a & -> & Hok & K1 & K2 & K3).
    split; [now apply conc_wf|]. split; [apply conc_init|]. intros x y v b T Hb Hv HT.
    split; [|auto]. rewrite K2. unfold paints. tauto.
  - destruct (wf_cases s Hw) as [(a & Hok & ->)|(dx & dy & Px & Py & ->)]; [|discriminate].
    destruct (insert_fin a ax ay bx by_ u Hok Hu) as (m & E & Hm). rewrite E in Hr. injection Hr as <-.
    assert (Hok' : ok (set_M a m)).
    { apply set_M_ok; auto. intros p q Hpq. apply Hm in Hpq. destruct Hpq as [Hpq|[Hpq _]]; auto. now apply ok_M. }
    split; [now apply conc_wf|]. split; [apply conc_init|]. intros x y v b T Hb Hv HT. split; [|split].
    + rewrite !marked_conc by auto. unfold paints. rewrite conc_is_node by auto. split.
      * intros (p & q & Hl & H). cbn [M set_M] in H. apply Hm in H. destruct H as [H|(Hin & Hne & Hn)]; [left; exists p, q; auto|].
        right. destruct Hl as [-> ->]. split; [exists p, q; auto|].
        exists (ax, ay), (bx, by_), u. repeat (split; [reflexivity|]). split; auto.
      * intros [(p & q & Hl & H)|[(p & q & Hin & Hl) (A & B & r & E1 & E2 & E3 & E4 & E5 & Hne & Hn)]].
        -- exists p, q. split; auto. cbn. apply Hm. auto.
        -- exists p, q. split; [exact Hl|]. cbn [M set_M]. apply Hm. right. split; [exact Hin|].
           destruct A, B. cbn in E1, E2, E3, E4. injection E1 as <-. injection E2 as <-. injection E3 as <-. injection E4 as <-. injection E5 as <-.
           destruct Hl as [-> ->]. cbn in Hn. auto.
    + eapply weight_same; [exact Hok|exact Hok'|apply extends_set_M|reflexivity|exact Hv].
    + apply total_at_conc in HT. now apply conc_total.
  - destruct (rasterize_run _ _ _ _ _ Hw Hu Hr) as (Hne & xa & xb & ya & yb & a & m & Hbox & Hx & Hy & _ & _ & _ & _ & Ee & Hok & -> & Hok' & Hm).
    destruct (expand_keeps _ _ _ _ _ _ _ Hw Ee) as (a0 & _ & _ & K1 & K2 & K3).
    split; [now apply conc_wf|]. split; [apply conc_init|]. intros x y v b T Hb Hv HT. split; [|split].
    + rewrite <- K2. rewrite !marked_conc by auto. unfold paints. rewrite conc_is_node by auto. split.
      * intros (p & q & Hl & H). cbn [M set_M] in H. apply Hm in H. destruct H as [H|(Hin & Hn)]; [left; exists p, q; auto|].
        right. destruct Hl as [-> ->]. split; [exists p, q; auto|].
        exists tr, u. auto.
      * intros [(p & q & Hl & H)|[(p & q & Hin & Hl) (tr' & r & E1 & E2 & E5 & Hn)]].
        -- exists p, q. split; auto. cbn. apply Hm. auto.
        -- exists p, q. split; [exact Hl|]. cbn [M set_M]. apply Hm. right. split; [exact Hin|].
           rewrite (xs_inj _ _ E1 E2). injection E5 as <-. destruct Hl as [-> ->]. exact Hn.
    + eapply weight_same; [exact Hok|exact Hok'|apply extends_set_M|reflexivity|auto].
    + apply K3 in HT. apply conc_total in HT. now apply conc_total.
  - destruct (wf_cases s Hw) as [(a & Hok & ->)|(dx & dy & Px & Py & ->)]; [|discriminate].
    rewrite register_fin in Hr. injection Hr as <-. pose proof (reg_ok a w Hok) as Hok'.
    split; [now apply conc_wf|]. split; [apply conc_init|]. intros x y v b T Hb Hv HT. split; [|split].
    + rewrite marked_conc by auto. intros (p & q & _ & H). discriminate.
    + rewrite weight_conc in * by auto. rewrite marked_conc in Hb by auto.
      destruct Hv as [(p & q & Hl & ->)|[Hn ->]].
      * left. exists p, q. split; [exact Hl|]. cbn [P reg].
        assert (Eb : b = M a p q).
        { destruct b, (M a p q) eqn:EM; auto.
          - destruct (proj1 Hb eq_refl) as (p' & q' & Hl' & H). destruct (locates_fun a x y p q p' q' Hok Hl Hl'). subst. congruence.
          - exfalso. assert (false = true) by (apply Hb; eauto). discriminate. }
        rewrite Eb. destruct (M a p q); ring.
      * right. split; [exact Hn|]. destruct b; [|ring]. destruct (proj1 Hb eq_refl) as (p & q & Hl & _). destruct (Hn p q Hl).
    + apply total_at_conc in HT. apply conc_total. cbn. now rewrite HT.
  - destruct (wf_cases s Hw) as [(a & Hok & ->)|(dx & dy & Px & Py & ->)]; [|discriminate].
    rewrite reset_conc in Hr. injection Hr as <-.
    assert (Hok' : ok (set_M a (fun _ _ => false))) by (apply set_M_ok; auto; discriminate).
    split; [now apply conc_wf|]. split; [apply conc_init|]. intros x y v b T Hb Hv HT. split; [|split].
    + rewrite marked_conc by auto. intros (p & q & _ & H). discriminate.
    + eapply weight_same; [exact Hok|exact Hok'|apply extends_set_M|reflexivity|auto].
    + apply total_at_conc in HT. now apply conc_total.
Qed.

(** ** C12 *)
Lemma node_in_extent s x y x0 x1 y0 y1 :
  wf s -> is_node s x y -> extent s x0 x1 y0 y1 -> x0 <= x <= x1 /\ y0 <= y <= y1.
Proof.
  intros Hw Hn He. assert (Hi : initialised s) by (destruct He as (g & Hg & _); unfold initialised; congruence).
  destruct (wf_rep s Hw Hi) as (a & Hok & ->).
  destruct (extent_fun _ _ _ _ _ _ _ _ _ He (conc_extent a)) as (-> & -> & -> & ->).
  apply conc_is_node in Hn; auto. destruct Hn as (p & q & [Hp Hq] & -> & ->). destruct Hok as (Hx & Hy & _).
  rewrite !lat_le by auto. lia.
Qed.

Lemma lattice_in_extent s x y x0 x1 y0 y1 dx dy i j :
  wf s -> is_node s x y -> extent s x0 x1 y0 y1 -> deltax s = Fin dx -> deltay s = Fin dy ->
  x0 <= x + IZR i * dx <= x1 -> y0 <= y + IZR j * dy <= y1 ->
  is_node s (x + IZR i * dx) (y + IZR j * dy).
Proof.
  intros Hw Hn He Hdx Hdy. assert (Hi : initialised s) by (destruct He as (g & Hg & _); unfold initialised; congruence).
  destruct (wf_rep s Hw Hi) as (a & Hok & ->).
  destruct (extent_fun _ _ _ _ _ _ _ _ _ He (conc_extent a)) as (-> & -> & -> & ->).
  cbn in Hdx, Hdy. injection Hdx as <-. injection Hdy as <-.
  rewrite conc_is_node in * by auto. destruct Hn as (p & q & [Hp Hq] & -> & ->). pose proof Hok as (Hx & Hy & _).
  rewrite <- !lat_add, !lat_le by auto. intros. exists (p + j)%Z, (q + i)%Z. split; [|auto].
  unfold inwin. lia.
Qed.

Lemma c11_rasterize_spacing : forall fuel s tr u s',
  wf s -> 0 <= u -> rasterize fuel s (xs tr) (ys tr) (Fin u) = (s', Ok tt) -> initialised s ->
  deltax s' = deltax s /\ deltay s' = deltay s.
Proof.
  intros fuel s tr u s' Hw Hu H Hi.
  destruct (rasterize_run _ _ _ _ _ Hw Hu H) as (Hne & xa & xb & ya & yb & a & m & _ & _ & _ & _ & _ & _ & _ & Ee & _ & -> & _).
  destruct (c03_expand_preserves _ _ _ _ _ _ _ Hw Hi Ee) as (_ & _ & _ & E1 & E2). cbn in *. auto.
Qed.

Definition trackA : list point := [(0, 0); (1/2, 0)].
Definition trackB : list point := [(-2, 10); (-3, 10)].

Lemma nearA : near_track (5/2) trackA (-2, 0).
Proof.
  exists (0, 0), (1/2, 0). split; [exists O; auto|]. split; [intros E; injection E; lra|].
  exists (0, 0). split; [|unfold dist2; cbn; lra]. exists 0. split; [lra|]. cbn. f_equal; lra.
Qed.

Lemma not_nearB : ~ near_track (5/2) trackB (-2, 0).
Proof.
  intros (p & q & (k & H1 & H2) & _ & (r & (t & Ht & ->) & Hd)).
  assert (E : p = (-2, 10) /\ q = (-3, 10)).
  { destruct k as [|[|[|k]]]; cbn in *; try discriminate. injection H1 as <-. injection H2 as <-. auto. }
  destruct E as [-> ->]. unfold dist2 in Hd. cbn in Hd. nra.
Qed.

(** Results do not depend on the fuel once there is enough. *)
Lemma rasterize_mono : forall f f' (st : pfield xr) st' lx ly u, initialised st -> (f <= f')%nat ->
  rasterize f st lx ly u = (st', Ok tt) -> rasterize f' st lx ly u = (st', Ok tt).
Proof.
  intros f f' st st' lx ly u Ist Hff H. unfold rasterize in *.
  destruct (pymin_list lx) as [v| |]; try exact H. destruct (pymax_list lx) as [v0| |]; try exact H.
  destruct (pymin_list ly) as [v1| |]; try exact H. destruct (pymax_list ly) as [v2| |]; try exact H.
  assert (Gd : forall g g' x lo d n r, (g <= g')%nat -> grow_down (T:=xr) g x lo d n = Ok r -> grow_down g' x lo d n = Ok r).
  { induction g; intros g' x lo d n r Hg HH; [discriminate|]. destruct g'; [lia|]. cbn in *. destruct (xle x lo); auto. apply IHg; auto; lia. }
  assert (Gu : forall g g' x lo d n r, (g <= g')%nat -> grow_up (T:=xr) g x lo d n = Ok r -> grow_up g' x lo d n = Ok r).
  { induction g; intros g' x lo d n r Hg HH; [discriminate|]. destruct g'; [lia|]. cbn in *. destruct (xle lo x); auto. apply IHg; auto; lia. }
  assert (Ge : forall g r, body st = Some g -> expand_more f (deltax st) (deltay st) g v v0 v1 v2 = Ok r ->
                 expand_more f' (deltax st) (deltay st) g v v0 v1 v2 = Ok r).
  { intros g r Eg. unfold expand_more.
    destruct (grow_down f v _ _ _) as [[? ?]| |] eqn:D1; cbn [bind]; try discriminate. rewrite (Gd _ _ _ _ _ _ _ Hff D1). cbn [bind].
    destruct (grow_up f v0 _ _ _) as [[? ?]| |] eqn:D2; cbn [bind]; try discriminate. rewrite (Gu _ _ _ _ _ _ _ Hff D2). cbn [bind].
    destruct (grow_down f v1 _ _ _) as [[? ?]| |] eqn:D3; cbn [bind]; try discriminate. rewrite (Gd _ _ _ _ _ _ _ Hff D3). cbn [bind].
    destruct (grow_up f v2 _ _ _) as [[? ?]| |] eqn:D4; cbn [bind]; try discriminate. rewrite (Gu _ _ _ _ _ _ _ Hff D4). cbn [bind].
    auto. }
  unfold expand in *. destruct (nlt v0 v); [exact H|]. destruct (nlt v2 v1); [exact H|].
  destruct (body st) as [g|] eqn:Eb; [|destruct Ist; exact Eb].
  destruct (expand_more f _ _ g _ _ _ _) as [g'| |] eqn:Em; cbn [update] in H; try discriminate.
  rewrite (Ge g g' eq_refl Em). exact H.
Qed.

Lemma c12_order_refuted :
  exists (fuel : nat) (s : pfield xr) (A B : list point) (u : R) s1 s12 s2 s21 x y,
    wf s /\ initialised s /\ 0 < u /\
    rasterize fuel s (xs A) (ys A) (Fin u) = (s1, Ok tt) /\
    rasterize fuel s1 (xs B) (ys B) (Fin u) = (s12, Ok tt) /\
    rasterize fuel s (xs B) (ys B) (Fin u) = (s2, Ok tt) /\
    rasterize fuel s2 (xs A) (ys A) (Fin u) = (s21, Ok tt) /\
    near_track u A (x, y) /\ is_node s12 x y /\ is_node s21 x y /\
    ~ marked s12 x y /\ marked s21 x y.
Proof.
  destruct (c01_constructor_centred 1 1 0 0 ltac:(lra) ltac:(lra)) as (s & Es & Hw & Hi & Hext & _ & Hnodes).
  assert (HA : trackA <> []) by discriminate. assert (HB : trackB <> []) by discriminate.
  assert (Hu : 0 <= 5/2) by lra.
  destruct (c11_rasterize_returns s trackA (5/2) Hw HA Hu) as (n1 & R1).
  destruct (c11_rasterize_returns s trackB (5/2) Hw HB Hu) as (n2 & R2).
  (* choose the fuel after looking at the intermediate states, which do not depend on it *)
  assert (Box : forall fuel s', (1 <= fuel)%nat -> rasterize fuel s (xs trackA) (ys trackA) (Fin (5/2)) = (s', Ok tt) ->
            forall x y, is_node s' x y -> is_node s x y).
  { intros fuel s' Hf H x y Hn.
    destruct (rasterize_run _ _ _ _ _ Hw Hu H) as (_ & xa & xb & ya & yb & a & m & Hbox & Hx & Hy & P1 & P2 & P3 & P4 & Ee & Hok & -> & Hok' & Hm).
    assert (Bx : xa = 0 /\ xb = 1/2 /\ ya = 0 /\ yb = 0).
    { cbn [xs ys trackA map pymin_list pymax_list fold_left fst snd] in P1, P2, P3, P4.
      rewrite pymin_fin in P1, P3. rewrite pymax_fin in P2, P4.
      injection P1 as <-. injection P2 as <-. injection P3 as <-. injection P4 as <-.
      unfold Rmin, Rmax. repeat destruct (Rle_dec _ _); lra. }
    destruct Bx as (-> & -> & -> & ->).
    rewrite (c05_expand_noop fuel s 0 (1/2) 0 0 _ _ _ _ Hf Hw Hext) in Ee by lra.
    injection Ee as ->. rewrite conc_is_node in * by auto. exact Hn. }
  assert (N00 : is_node s 0 0) by (exists 0, false; apply Hnodes; lra).
  assert (Nm : ~ is_node s (-2) 0) by (intros (w & m & H); apply Hnodes in H; lra).
  assert (E0 : forall fuel s' tr, rasterize fuel s (xs tr) (ys tr) (Fin (5/2)) = (s', Ok tt) ->
          wf s' /\ initialised s').
  { intros fuel s' tr H. destruct (c11_rasterize_exact _ _ _ _ _ Hw Hi Hu H) as (? & ? & _). auto. }
  destruct (R1 (S n1) ltac:(lia)) as (sA & EA & WA & IA).
  destruct (R2 (S n2) ltac:(lia)) as (sB & EB & WB & IB).
  destruct (c11_rasterize_returns sA trackB (5/2) WA HB Hu) as (n3 & R3).
  destruct (c11_rasterize_returns sB trackA (5/2) WB HA Hu) as (n4 & R4).
  set (N := S (n1 + n2 + n3 + n4)).
  pose proof (rasterize_mono (S n1) N _ _ _ _ _ Hi ltac:(lia) EA) as EA'.
  pose proof (rasterize_mono (S n2) N _ _ _ _ _ Hi ltac:(lia) EB) as EB'.
  destruct (R3 N ltac:(lia)) as (sAB & EAB & WAB & IAB).
  destruct (R4 N ltac:(lia)) as (sBA & EBA & WBA & IBA).
  exists N, s, trackA, trackB, (5/2), sA, sAB, sB, sBA, (-2), 0.
  split; [exact Hw|]. split; [exact Hi|]. split; [lra|]. do 4 (split; [assumption|]).
  split; [exact nearA|].
  destruct (c11_rasterize_exact _ _ _ _ _ Hw Hi Hu EA') as (_ & _ & KA1 & KA2 & _ & _).
  destruct (c11_rasterize_exact _ _ _ _ _ Hw Hi Hu EB') as (_ & _ & KB1 & KB2 & _ & xB0 & xB1 & yB0 & yB1 & XB & YB).
  destruct (c11_rasterize_exact _ _ _ _ _ WA IA Hu EAB) as (_ & _ & KAB1 & KAB2 & _ & x0 & x1 & y0 & y1 & XAB & YAB).
  destruct (c11_rasterize_exact _ _ _ _ _ WB IB Hu EBA) as (_ & _ & KBA1 & KBA2 & _ & _).
  assert (Sp : forall st, wf st -> deltax st = deltax s -> deltay st = deltay s -> deltax st = Fin 1 /\ deltay st = Fin 1).
  { intros st _ E1 E2. rewrite E1, E2. rewrite pf_init_fin in Es by lra. injection Es as <-. auto. }
  destruct (c11_rasterize_spacing _ _ _ _ _ Hw Hu EA' Hi) as [SA1 SA2].
  destruct (c11_rasterize_spacing _ _ _ _ _ Hw Hu EB' Hi) as [SB1 SB2].
  destruct (c11_rasterize_spacing _ _ _ _ _ WA Hu EAB IA) as [SAB1 SAB2].
  assert (NB : is_node sB (-2) 0).
  { replace (-2) with (0 + IZR (-2) * 1) by ring. replace 0 with (0 + IZR 0 * 1) at 2 by ring.
    destruct (Sp sB WB SB1 SB2).
    assert (N0 : is_node sB 0 0) by (destruct N00 as (w & m & H'); apply KB1 in H'; destruct H'; unfold is_node; eauto).
    destruct (node_in_extent _ _ _ _ _ _ _ WB N0 XB).
    pose proof (YB (-3, 10) ltac:(right; left; reflexivity)). cbn in *.
    eapply lattice_in_extent; eauto; cbn; lra. }
  assert (NAB : is_node sAB (-2) 0).
  { replace (-2) with (0 + IZR (-2) * 1) by ring. replace 0 with (0 + IZR 0 * 1) at 2 by ring.
    destruct (Sp sAB WAB ltac:(congruence) ltac:(congruence)).
    assert (N0 : is_node sAB 0 0).
    { destruct N00 as (w & m & H'). apply KA1 in H'. destruct H' as (m' & H'). apply KAB1 in H'. destruct H'. unfold is_node. eauto. }
    destruct (node_in_extent _ _ _ _ _ _ _ WAB N0 XAB).
    pose proof (YAB (-3, 10) ltac:(right; left; reflexivity)). cbn in *.
    eapply lattice_in_extent; eauto; cbn; lra. }
  split; [exact NAB|]. split; [destruct NB as (w & m & H); apply KBA1 in H; destruct H; unfold is_node; eauto|]. split.
  - intros (w & Hm). apply KAB2 in Hm. destruct Hm as (_ & _ & Hm). destruct (proj1 Hm eq_refl) as [(w' & Hm')|Hm'].
    + apply Nm. apply (Box N sA ltac:(lia) EA'). unfold is_node. eauto.
    + exact (not_nearB Hm').
  - destruct NB as (w & m & H). apply KBA1 in H. destruct H as (m' & H). exists w.
    destruct (KBA2 _ _ _ _ H) as (_ & _ & Hm). assert (m' = true) by (apply Hm; right; exact nearA). subst. exact H.
Qed.

(** In both orders the grid ends up the same, and so do all weights and marks of the nodes
    that existed before. *)
Lemma c12_order_partial : forall fuel s A B u s1 s12 s2 s21,
  wf s -> initialised s -> 0 <= u ->
  rasterize fuel s (xs A) (ys A) (Fin u) = (s1, Ok tt) ->
  rasterize fuel s1 (xs B) (ys B) (Fin u) = (s12, Ok tt) ->
  rasterize fuel s (xs B) (ys B) (Fin u) = (s2, Ok tt) ->
  rasterize fuel s2 (xs A) (ys A) (Fin u) = (s21, Ok tt) ->
  (exists x0 x1 y0 y1, extent s12 x0 x1 y0 y1 /\ extent s21 x0 x1 y0 y1) /\
  (forall x y w m, is_node s x y -> (has_node s12 x y w m <-> has_node s21 x y w m)) /\
  (forall x y, is_node s x y -> near_track u A (x, y) \/ near_track u B (x, y) -> marked s12 x y /\ marked s21 x y).
Proof.
  intros fuel s A B u s1 s12 s2 s21 Hw Hi Hu R1 R12 R2 R21.
  destruct (c11_rasterize_exact _ _ _ _ _ Hw Hi Hu R1) as (W1 & I1 & K1a & K1b & _ & _).
  destruct (c11_rasterize_exact _ _ _ _ _ Hw Hi Hu R2) as (W2 & I2 & K2a & K2b & _ & _).
  destruct (c11_rasterize_exact _ _ _ _ _ W1 I1 Hu R12) as (W12 & I12 & K12a & K12b & _ & _).
  destruct (c11_rasterize_exact _ _ _ _ _ W2 I2 Hu R21) as (W21 & I21 & K21a & K21b & _ & _).
  split.
  - destruct (wf_rep s Hw Hi) as (a & Hok & ->). pose proof (conc_extent a) as Hext.
    assert (Sp : forall tr (st st' : pfield xr) x0 x1 y0 y1 xa xb ya yb, wf st -> extent st x0 x1 y0 y1 ->
       deltax st = Fin (Dx a) -> deltay st = Fin (Dy a) ->
       rasterize fuel st (xs tr) (ys tr) (Fin u) = (st', Ok tt) ->
       pymin_list (xs tr) = Ok (Fin xa) -> pymax_list (xs tr) = Ok (Fin xb) ->
       pymin_list (ys tr) = Ok (Fin ya) -> pymax_list (ys tr) = Ok (Fin yb) ->
       deltax st' = Fin (Dx a) /\ deltay st' = Fin (Dy a) /\
       exists l r b t : Z, (0 <= l /\ 0 <= r /\ 0 <= b /\ 0 <= t)%Z /\
         extent st' (x0 - IZR l * Dx a) (x1 + IZR r * Dx a) (y0 - IZR b * Dy a) (y1 + IZR t * Dy a) /\
         (forall k, (0 <= k)%Z -> (x0 - IZR k * Dx a < xa <-> (l <= k)%Z)) /\
         (forall k, (0 <= k)%Z -> (xb < x1 + IZR k * Dx a <-> (r <= k)%Z)) /\
         (forall k, (0 <= k)%Z -> (y0 - IZR k * Dy a < ya <-> (b <= k)%Z)) /\
         (forall k, (0 <= k)%Z -> (yb < y1 + IZR k * Dy a <-> (t <= k)%Z))).
    { intros tr st st' x0 x1 y0 y1 xa xb ya yb Wst Est Dst1 Dst2 Rst P1 P2 P3 P4.
      assert (Ist : initialised st) by (destruct Est as (g & Hg & _); unfold initialised; congruence).
      destruct (c11_rasterize_spacing _ _ _ _ _ Wst Hu Rst Ist) as [-> ->].
      split; [exact Dst1|]. split; [exact Dst2|].
      destruct (rasterize_run _ _ _ _ _ Wst Hu Rst) as (_ & xa' & xb' & ya' & yb' & a' & m & _ & _ & _ & P1' & P2' & P3' & P4' & Ee & Hok' & -> & _).
      rewrite P1 in P1'. rewrite P2 in P2'. rewrite P3 in P3'. rewrite P4 in P4'.
      injection P1' as <-. injection P2' as <-. injection P3' as <-. injection P4' as <-.
      destruct (c05_expand_minimal _ _ _ _ _ _ _ _ _ _ _ _ _ Wst Est Dst1 Dst2 Ee) as (l & r & b & t & Hp & Hx & H1 & H2 & H3 & H4).
      exists l, r, b, t. split; [exact Hp|]. split; [|auto].
      destruct Hx as (g & Hg & X). injection Hg as <-. eexists. split; [reflexivity|exact X]. }
    assert (TA : A <> []) by (intros ->; cbn in R1; discriminate).
    assert (TB : B <> []) by (intros ->; cbn in R2; discriminate).
    destruct (track_box A TA) as (a1 & a2 & a3 & a4 & A1 & A2 & A3 & A4 & _).
    destruct (track_box B TB) as (b1 & b2 & b3 & b4 & B1 & B2 & B3 & B4 & _).
    destruct (Sp A (conc a) s1 _ _ _ _ _ _ _ _ (conc_wf _ Hok) Hext eq_refl eq_refl R1 A1 A2 A3 A4)
      as (D1 & D1' & l1 & r1 & b1' & t1 & N1 & E1 & L1 & L2 & L3 & L4).
    destruct (Sp B s1 s12 _ _ _ _ _ _ _ _ W1 E1 D1 D1' R12 B1 B2 B3 B4)
      as (_ & _ & l12 & r12 & b12 & t12 & N12 & E12 & L12 & L22 & L32 & L42).
    destruct (Sp B (conc a) s2 _ _ _ _ _ _ _ _ (conc_wf _ Hok) Hext eq_refl eq_refl R2 B1 B2 B3 B4)
      as (D2 & D2' & l2 & r2 & b2' & t2 & N2 & E2 & J1 & J2 & J3 & J4).
    destruct (Sp A s2 s21 _ _ _ _ _ _ _ _ W2 E2 D2 D2' R21 A1 A2 A3 A4)
      as (_ & _ & l21 & r21 & b21 & t21 & N21 & E21 & J12 & J22 & J32 & J42).
    assert (Lo : forall e d u1 u2 p1 p12 p2 p21, (0 <= p1)%Z -> (0 <= p12)%Z -> (0 <= p2)%Z -> (0 <= p21)%Z ->
        (forall k, (0 <= k)%Z -> (e - IZR k * d < u1 <-> (p1 <= k)%Z)) ->
        (forall k, (0 <= k)%Z -> (e - IZR p1 * d - IZR k * d < u2 <-> (p12 <= k)%Z)) ->
        (forall k, (0 <= k)%Z -> (e - IZR k * d < u2 <-> (p2 <= k)%Z)) ->
        (forall k, (0 <= k)%Z -> (e - IZR p2 * d - IZR k * d < u1 <-> (p21 <= k)%Z)) ->
        (p1 + p12 = p2 + p21)%Z).
    { intros e d u1 u2 p1 p12 p2 p21 Q1 Q2 Q3 Q4 H1 H2 H3 H4.
      apply Z.le_antisymm.
      - assert (p1 <= p2 + p21)%Z.
        { apply H1; [lia|]. rewrite plus_IZR. replace (e - (IZR p2 + IZR p21) * d) with (e - IZR p2 * d - IZR p21 * d) by ring.
          apply H4; lia. }
        assert (p12 <= p2 + p21 - p1)%Z; [|lia].
        apply H2; [lia|]. rewrite minus_IZR, plus_IZR.
        replace (e - IZR p1 * d - (IZR p2 + IZR p21 - IZR p1) * d) with (e - IZR (p2 + p21) * d) by (rewrite plus_IZR; ring).
        apply H3; lia.
      - assert (p2 <= p1 + p12)%Z.
        { apply H3; [lia|]. rewrite plus_IZR. replace (e - (IZR p1 + IZR p12) * d) with (e - IZR p1 * d - IZR p12 * d) by ring.
          apply H2; lia. }
        assert (p21 <= p1 + p12 - p2)%Z; [|lia].
        apply H4; [lia|]. rewrite minus_IZR, plus_IZR.
        replace (e - IZR p2 * d - (IZR p1 + IZR p12 - IZR p2) * d) with (e - IZR (p1 + p12) * d) by (rewrite plus_IZR; ring).
        apply H1; lia. }
    assert (Up : forall e d u1 u2 p1 p12 p2 p21, (0 <= p1)%Z -> (0 <= p12)%Z -> (0 <= p2)%Z -> (0 <= p21)%Z ->
        (forall k, (0 <= k)%Z -> (u1 < e + IZR k * d <-> (p1 <= k)%Z)) ->
        (forall k, (0 <= k)%Z -> (u2 < e + IZR p1 * d + IZR k * d <-> (p12 <= k)%Z)) ->
        (forall k, (0 <= k)%Z -> (u2 < e + IZR k * d <-> (p2 <= k)%Z)) ->
        (forall k, (0 <= k)%Z -> (u1 < e + IZR p2 * d + IZR k * d <-> (p21 <= k)%Z)) ->
        (p1 + p12 = p2 + p21)%Z).
    { intros e d u1 u2 p1 p12 p2 p21 Q1 Q2 Q3 Q4 H1 H2 H3 H4.
      apply (Lo (- e) d (- u1) (- u2)); auto; intros k Hk.
      - rewrite <- (H1 k Hk). split; lra.
      - rewrite <- (H2 k Hk). split; lra.
      - rewrite <- (H3 k Hk). split; lra.
      - rewrite <- (H4 k Hk). split; lra. }
    assert (El : (l1 + l12 = l2 + l21)%Z) by (eapply Lo; eauto; lia).
    assert (Er : (r1 + r12 = r2 + r21)%Z) by (eapply Up; eauto; lia).
    assert (Eb : (b1' + b12 = b2' + b21)%Z) by (eapply Lo; eauto; lia).
    assert (Et : (t1 + t12 = t2 + t21)%Z) by (eapply Up; eauto; lia).
    eexists _, _, _, _. split; [exact E12|].
    apply (f_equal IZR) in El, Er, Eb, Et. rewrite !plus_IZR in El, Er, Eb, Et.
    match type of E21 with extent _ ?q1 ?q2 ?q3 ?q4 => match goal with |- extent _ ?g1 ?g2 ?g3 ?g4 =>
      replace g1 with q1; [replace g2 with q2; [replace g3 with q3; [replace g4 with q4; [exact E21|]|]|]|] end end.
    + apply (f_equal (fun z => z * Dy a)) in Et. lra.
    + apply (f_equal (fun z => z * Dy a)) in Eb. lra.
    + apply (f_equal (fun z => z * Dx a)) in Er. lra.
    + apply (f_equal (fun z => z * Dx a)) in El. lra.
  - assert (Key : forall x y, is_node s x y -> exists w m, has_node s x y w m /\ forall w' m',
        (has_node s12 x y w' m' <-> w' = w /\ (m' = true <-> m = true \/ near_track u A (x, y) \/ near_track u B (x, y))) /\
        (has_node s21 x y w' m' <-> w' = w /\ (m' = true <-> m = true \/ near_track u A (x, y) \/ near_track u B (x, y)))).
    { intros x y (w & m & Hn). exists w, m. split; [exact Hn|].
      assert (Two : forall (st st' : pfield xr) C D, wf st -> wf st' ->
        (forall x y w m, has_node s x y w m -> exists m', has_node st x y w m') ->
        (forall x y w m', has_node st x y w m' -> (has_node s x y w true -> m' = true) /\ (~ is_node s x y -> w = 0) /\ (m' = true <-> marked s x y \/ near_track u C (x, y))) ->
        (forall x y w m, has_node st x y w m -> exists m', has_node st' x y w m') ->
        (forall x y w m', has_node st' x y w m' -> (has_node st x y w true -> m' = true) /\ (~ is_node st x y -> w = 0) /\ (m' = true <-> marked st x y \/ near_track u D (x, y))) ->
        forall w' m', has_node st' x y w' m' <-> w' = w /\ (m' = true <-> m = true \/ near_track u C (x, y) \/ near_track u D (x, y))).
      { intros st st' C D Wst Wst' Ka Kb Kc Kd w' m'.
        destruct (Ka _ _ _ _ Hn) as (m1 & H1). destruct (Kc _ _ _ _ H1) as (m2 & H2).
        destruct (Kb _ _ _ _ H1) as (_ & _ & X1). destruct (Kd _ _ _ _ H2) as (_ & _ & X2).
        assert (Ms : marked s x y <-> m = true).
        { split.
          - intros (v & Hv). destruct (has_node_fun _ _ _ _ _ _ _ Hw Hv Hn). auto.
          - intros ->. exists w. exact Hn. }
        assert (Mt : marked st x y <-> m1 = true).
        { split.
          - intros (v & Hv). destruct (has_node_fun _ _ _ _ _ _ _ Wst Hv H1). auto.
          - intros ->. exists w. exact H1. }
        split.
        - intros H. destruct (has_node_fun _ _ _ _ _ _ _ Wst' H H2). subst. split; [reflexivity|]. tauto.
        - intros [-> Hm]. assert (m' = m2); [|subst; exact H2].
          destruct m', m2; auto; [|]; exfalso.
          + assert (false = true) by tauto. discriminate.
          + assert (false = true) by tauto. discriminate. }
      intros w' m'. split.
      - apply (Two s1 s12 A B); auto.
      - rewrite (Two s2 s21 B A); auto. tauto. }
    split.
    + intros x y w' m' Hn. destruct (Key x y Hn) as (w & m & _ & K). destruct (K w' m') as [-> ->]. tauto.
    + intros x y Hn Hnear. destruct (Key x y Hn) as (w & m & _ & K). destruct (K w true) as [Ka Kb].
      clear - Ka Kb Hnear. split; exists w; [apply Ka|apply Kb]; (split; [reflexivity|]); clear Ka Kb; tauto.
Qed.

(** ** C13 *)
Lemma c13_stationary_marks_nothing : forall s p u,
  wf s -> initialised s -> 0 <= u ->
  exists s', insert s (Fin (fst p)) (Fin (snd p)) (Fin (fst p)) (Fin (snd p)) (Fin u) = (s', Ok tt) /\
    forall x y w m, has_node s' x y w m <-> has_node s x y w m.
Proof.
  intros s p u Hw Hi Hu. destruct (c10_insert_exact s p p u Hw Hi Hu) as (s' & E & Ws' & _ & Hn & _).
  exists s'. split; [exact E|]. intros x y w m. rewrite Hn. split.
  - intros (m0 & H & Hm). assert (m = m0); [|subst; exact H].
    destruct m, m0; auto; exfalso; [destruct (proj1 Hm eq_refl) as [H0|[H0 _]]; [discriminate|now apply H0]|].
    assert (false = true) by (apply Hm; auto). discriminate.
  - intros H. exists m. split; [exact H|]. split; auto. intros [Hm|[Hm _]]; [exact Hm|]. exfalso. now apply Hm.
Qed.

Lemma c13_stationary_refuted : exists s p u s' x y,
  wf s /\ initialised s /\ 0 < u /\ is_node s x y /\ dist2 p (x, y) < u * u /\
  insert s (Fin (fst p)) (Fin (snd p)) (Fin (fst p)) (Fin (snd p)) (Fin u) = (s', Ok tt) /\ ~ marked s' x y.
Proof.
  destruct (c01_constructor_centred 1 1 0 0 ltac:(lra) ltac:(lra)) as (s & Es & Hw & Hi & Hext & _ & Hnodes).
  destruct (c13_stationary_marks_nothing s (0, 0) 1 Hw Hi ltac:(lra)) as (s' & E & Hn).
  exists s, (0, 0), 1, s', 0, 0. split; [exact Hw|]. split; [exact Hi|]. split; [lra|].
  split; [exists 0, false; apply Hnodes; lra|]. split; [unfold dist2; cbn; lra|]. split; [exact E|].
  intros (w & Hm). apply Hn in Hm. apply Hnodes in Hm. destruct Hm as (_ & Hm & _). discriminate.
Qed.

(** ** C14 *)
Lemma c14_register_exact : forall s w,
  wf s -> initialised s ->
  exists s', register s (Fin w) = (s', Ok tt) /\ wf s' /\
    (forall x y v m', has_node s' x y v m' <->
       m' = false /\ exists v0 m, has_node s x y v0 m /\ v = (if m then v0 + w else v0)) /\
    (forall W, total s W -> total s' (W + w)) /\
    (forall x0 x1 y0 y1, extent s x0 x1 y0 y1 -> extent s' x0 x1 y0 y1) /\
    deltax s' = deltax s /\ deltay s' = deltay s.
Proof.
  intros s w Hw Hi. destruct (wf_rep s Hw Hi) as (a & Hok & ->). pose proof (reg_ok a w Hok) as Hok'.
  exists (conc (reg a w)). split; [apply register_fin|]. split; [now apply conc_wf|]. split; [|split; [|split]].
  - intros x y v m'. rewrite conc_node by auto. split.
    + intros (p & q & Hin & -> & -> & -> & ->). split; [reflexivity|]. exists (P a p q), (M a p q).
      split; [|reflexivity]. apply conc_node; auto. exists p, q. auto.
    + intros (-> & v0 & m & H & ->). apply conc_node in H; auto. destruct H as (p & q & Hin & -> & -> & -> & ->).
      exists p, q. repeat split; auto; apply Hin.
  - intros v H. apply conc_total in H. apply conc_total. cbn. now rewrite H.
  - intros x0 x1 y0 y1 (g & Hg & H). injection Hg as <-. eexists. split; [reflexivity|exact H].
  - split; reflexivity.
Qed.

Lemma c14_reset_exact : forall s,
  wf s -> initialised s ->
  exists s', reset s = (s', Ok tt) /\ wf s' /\
    (forall x y v m', has_node s' x y v m' <-> m' = false /\ exists m, has_node s x y v m) /\
    (forall W, total s W -> total s' W) /\
    (forall x0 x1 y0 y1, extent s x0 x1 y0 y1 -> extent s' x0 x1 y0 y1) /\
    deltax s' = deltax s /\ deltay s' = deltay s.
Proof.
  intros s Hw Hi. destruct (wf_rep s Hw Hi) as (a & Hok & ->).
  assert (Hok' : ok (set_M a (fun _ _ => false))) by (apply set_M_ok; auto; discriminate).
  eexists. split; [apply reset_conc|]. split; [now apply conc_wf|]. split; [|split; [|split]].
  - intros x y v m'. rewrite conc_node by auto. split.
    + intros (p & q & Hin & -> & -> & -> & ->). split; [reflexivity|]. exists (M a p q).
      apply conc_node; auto. exists p, q. auto.
    + intros (-> & m & H). apply conc_node in H; auto. destruct H as (p & q & Hin & -> & -> & -> & ->).
      exists p, q. repeat split; auto; apply Hin.
  - intros v H. apply conc_total in H. now apply conc_total.
  - intros x0 x1 y0 y1 (g & Hg & H). injection Hg as <-. eexists. split; [reflexivity|exact H].
  - split; reflexivity.
Qed.

(** ** C15 *)
Lemma c15_ledger_exists : forall fuel x y l s b s' v T,
  wf s -> Forall finite_op l -> run fuel s l s' ->
  (b = true <-> marked s x y) -> weight_at s x y v -> total_at s T ->
  exists c t, Ledger fuel x y s b l s' c t /\ weight_at s' x y (v + c) /\ total_at s' (T + t).
Proof.
  intros fuel x y. induction l as [|o l IH]; intros s b s' v T Hw Hf Hr Hb Hv HT.
  - inversion Hr; subst. exists 0, 0. rewrite !Rplus_0_r. split; [constructor|auto].
  - inversion Hr as [|s0 o' s1 l' s0' Ho Hr']; subst. inversion Hf as [|o' l' Fo Fl]; subst.
    destruct (step fuel s o s1 Hw Fo Ho) as (W1 & _ & K). specialize (K x y v b T Hb Hv HT).
    assert (Other : (marked s1 x y <-> marked s x y \/ paints o s1 x y) /\ weight_at s1 x y v /\ total s1 T ->
       (forall w, o <> ORegister w) -> o <> OReset ->
       exists c t, Ledger fuel x y s b (o :: l) s' c t /\ weight_at s' x y (v + c) /\ total_at s' (T + t)).
    { intros (Km & Kw & Kt) N1 N2. destruct (Classical_Prop.classic (paints o s1 x y)) as [Hp|Hp].
      - destruct (IH s1 true s' v T W1 Fl Hr') as (c & t & HL & A1 & A2); auto; [tauto|now left|].
        exists c, t. split; [eapply L_paint; eauto|auto].
      - destruct (IH s1 b s' v T W1 Fl Hr') as (c & t & HL & A1 & A2); auto; [tauto|now left|].
        exists c, t. split; [eapply L_skip; eauto|auto]. }
    destruct Fo as [xmn xmx ymn ymx|ax ay bx by_ u Hu|tr u Hu|w|].
    + apply Other; [exact K|discriminate|discriminate].
    + apply Other; [exact K|discriminate|discriminate].
    + apply Other; [exact K|discriminate|discriminate].
    + destruct K as (Km & Kw & Kt).
      destruct (IH s1 false s' _ _ W1 Fl Hr' ltac:(split; [discriminate|tauto]) Kw (or_introl Kt)) as (c & t & HL & A1 & A2).
      exists ((if b then w else 0) + c), (w + t). rewrite <- !Rplus_assoc. split; [eapply L_register; eauto|auto].
    + destruct K as (Km & Kw & Kt).
      destruct (IH s1 false s' _ _ W1 Fl Hr' ltac:(split; [discriminate|tauto]) Kw (or_introl Kt)) as (c & t & HL & A1 & A2).
      exists c, t. split; [eapply L_reset; eauto|auto].
Qed.

Lemma c15_ledger_unique : forall fuel x y s b l s1 c1 t1 s2 c2 t2,
  Ledger fuel x y s b l s1 c1 t1 -> Ledger fuel x y s b l s2 c2 t2 -> s1 = s2 /\ c1 = c2 /\ t1 = t2.
Proof.
  intros fuel x y s b l s1 c1 t1 s2 c2 t2 H. revert s2 c2 t2.
  induction H; intros s2 c2 t2 HX; inversion HX; subst; auto;
    try match goal with E1 : run_op _ ?s ?o = _, E2 : run_op _ ?s ?o = _ |- _ => rewrite E1 in E2; injection E2 as -> end;
    try match goal with HP : paints (ORegister _) _ _ _ |- _ => destruct HP as [_ []] end;
    try match goal with HP : paints OReset _ _ _ |- _ => destruct HP as [_ []] end;
    try congruence; try contradiction;
    match goal with IH : forall s2 c2 t2, Ledger _ _ _ _ _ _ _ _ _ -> _, HL : Ledger _ _ _ _ _ _ _ _ _ |- _ =>
      destruct (IH _ _ _ HL) as (-> & -> & ->); auto end.
Qed.

Lemma init_state dx dy xo yo s :
  fin_or_nan xo -> fin_or_nan yo -> pf_init (Fin dx) (Fin dy) xo yo = Ok s ->
  0 < dx /\ 0 < dy /\ (s = unborn dx dy \/ exists x0 y0, s = conc (blank x0 y0 dx dy 3 3)).
Proof.
  intros Hx Hy H. assert (D : 0 < dx /\ 0 < dy).
  { destruct (Rlt_dec 0 dx), (Rlt_dec 0 dy); auto; exfalso;
    rewrite (proj2 (c01_constructor_rejects dx dy xo yo)) in H by lra; discriminate. }
  destruct D as [D1 D2]. split; [exact D1|]. split; [exact D2|].
  assert (U : xisnan xo || xisnan yo = true -> s = unborn dx dy).
  { intros E. unfold pf_init in H. cbn in H. change (IZR 0) with 0 in H.
    rewrite !(proj2 (Rleb_false _ 0)) in H by lra. cbn in E. rewrite E in H. now injection H as <-. }
  destruct Hx as [(x & ->)| ->], Hy as [(y & ->)| ->]; try (left; apply U; reflexivity).
  right. rewrite pf_init_fin in H by auto. injection H as <-. eauto.
Qed.

Lemma init_facts dx dy xo yo s :
  fin_or_nan xo -> fin_or_nan yo -> pf_init (Fin dx) (Fin dy) xo yo = Ok s ->
  wf s /\ (forall x y, ~ marked s x y) /\ (forall x y, weight_at s x y 0) /\ total_at s 0.
Proof.
  intros Hx Hy H. destruct (init_state _ _ _ _ _ Hx Hy H) as (D1 & D2 & [-> | (x0 & y0 & ->)]).
  - split; [now apply unborn_wf|]. split; [intros; apply unborn_marked|]. split; [intros; now apply unborn_weight|].
    now apply total_at_unborn.
  - assert (Hok : ok (blank x0 y0 dx dy 3 3)) by (apply blank_ok; auto; lia).
    split; [now apply conc_wf|]. split; [|split].
    + intros x y. rewrite marked_conc by auto. intros (p & q & _ & Hm). discriminate.
    + intros x y. rewrite weight_conc by auto.
      destruct (Classical_Prop.classic (exists p q, locates (blank x0 y0 dx dy 3 3) x y p q)) as [(p & q & Hl)|Hl].
      * left. exists p, q. auto.
      * right. split; auto. intros p q Hc. eauto.
    + now apply total_at_conc.
Qed.

Lemma c15_accumulated_weight : forall dx dy xo yo s0 fuel l s x y,
  fin_or_nan xo -> fin_or_nan yo -> pf_init (Fin dx) (Fin dy) xo yo = Ok s0 ->
  Forall finite_op l -> run fuel s0 l s ->
  exists c t, Ledger fuel x y s0 false l s c t /\ weight_at s x y c /\ total_at s t.
Proof.
  intros dx dy xo yo s0 fuel l s x y Hx Hy H0 Hf Hr.
  destruct (init_facts _ _ _ _ _ Hx Hy H0) as (Hw & Hm & Hv & Ht).
  destruct (c15_ledger_exists fuel x y l s0 false s 0 0 Hw Hf Hr) as (c & t & HL & A1 & A2); auto.
  - split; [discriminate|]. intros H. destruct (Hm _ _ H).
  - rewrite Rplus_0_l in A1, A2. eauto.
Qed.

(** ** C16 *)
Definition bounded (a : abs) : Prop := forall p q, 0 <= P a p q <= W a.

Lemma run_ops_bounded fuel l : forall a, ok a -> bounded a -> Forall nonneg_weight l ->
  exists a', run_ops fuel (conc a) l = conc a' /\ ok a' /\ bounded a'.
Proof.
  induction l as [|o l IH]; intros a Hok Hb Hf.
  - exists a. auto.
  - inversion Hf as [|o' l' Fo Fl]; subst.
    assert (Fw : finite_weight o) by (destruct o; cbn in *; auto; destruct Fo as (r & ? & ?); eauto).
    destruct (run_op_any fuel a o Hok Fw) as (a1 & E & Hok1 & _ & Eff).
    assert (Hb1 : bounded a1).
    { unfold bounded in *. destruct o; cbn in Eff, Fo.
      - destruct Eff as (-> & -> & _). auto.
      - destruct Eff as (-> & -> & _). auto.
      - destruct Eff as (-> & -> & _). auto.
      - destruct Eff as (r & -> & -> & _ & ->). destruct Fo as (r' & Er & Hr). injection Er as <-.
        intros p q. specialize (Hb p q). cbn. destruct (M a p q); lra.
      - destruct Eff as (-> & -> & _). auto. }
    destruct (IH a1 Hok1 Hb1 Fl) as (a' & E' & R'). exists a'. split; [|exact R'].
    unfold run_ops in *. cbn [fold_left]. now rewrite E.
Qed.

Lemma run_ops_bounded_unborn fuel dx dy l : 0 < dx -> 0 < dy -> Forall nonneg_weight l ->
  run_ops fuel (unborn dx dy) l = unborn dx dy \/
  exists a', run_ops fuel (unborn dx dy) l = conc a' /\ ok a' /\ bounded a'.
Proof.
  intros Hx Hy. induction l as [|o l IH]; intros Hf; [left; reflexivity|].
  inversion Hf as [|o' l' Fo Fl]; subst. unfold run_ops in *. cbn [fold_left].
  destruct (run_op_unborn fuel dx dy o Hx Hy) as [-> | (a & -> & Hok & _ & _ & HW & HP)]; [auto|].
  right. apply run_ops_bounded; auto. intros p q. rewrite HP, HW. lra.
Qed.

Lemma c16_probability_bounds : forall dx dy xo yo s0 fuel l,
  fin_or_nan xo -> fin_or_nan yo -> pf_init (Fin dx) (Fin dy) xo yo = Ok s0 ->
  Forall nonneg_weight l ->
  let s := run_ops fuel s0 l in
  (forall x y w m W, has_node s x y w m -> total s W -> 0 <= w <= W) /\
  (forall x y w m W, has_node s x y w m -> total s W -> 0 < W ->
     exists r, ndiv (Fin w) (Fin W) = Fin r /\ 0 <= r <= 1).
Proof.
  intros dx dy xo yo s0 fuel l Hx Hy H0 Hf. cbn zeta.
  assert (K : forall x y w m W, has_node (run_ops fuel s0 l) x y w m -> total (run_ops fuel s0 l) W -> 0 <= w <= W).
  { intros x y w m v Hn Ht.
    assert (B : run_ops fuel s0 l = unborn dx dy \/ exists a', run_ops fuel s0 l = conc a' /\ ok a' /\ bounded a').
    { destruct (init_state _ _ _ _ _ Hx Hy H0) as (D1 & D2 & [-> | (x0 & y0 & ->)]).
      - now apply run_ops_bounded_unborn.
      - right. apply run_ops_bounded; auto; [apply blank_ok; auto; lia|]. intros p q. cbn. lra. }
    destruct B as [E|(a' & E & Hok & Hb)]; rewrite E in *.
    - destruct (unborn_nonode _ _ _ _ _ _ Hn).
    - apply conc_node in Hn; auto. destruct Hn as (p & q & _ & _ & _ & -> & _). apply conc_total in Ht. subst. apply Hb. }
  split; [exact K|]. intros x y w m v Hn Ht Hv. exists (w / v). cbn [ndiv XR]. rewrite div_fin by lra.
  split; [reflexivity|]. destruct (K _ _ _ _ _ Hn Ht). split.
  - apply Rmult_le_pos; [lra|]. apply Rlt_le, Rinv_0_lt_compat. lra.
  - apply Rmult_le_reg_r with v; [lra|]. unfold Rdiv. rewrite Rmult_assoc, Rinv_l; lra.
Qed.

(** ** C17 *)
Lemma c17_reset_discards : forall fuel l s,
  wf s -> Forall not_register l ->
  let s' := run_ops fuel s (l ++ [OReset]) in
  (forall x y v, weight_at s x y v -> weight_at s' x y v) /\
  (forall T, total_at s T -> total_at s' T) /\
  (forall x y, ~ marked s' x y).
Proof.
  intros fuel l s Hw Hf. cbn zeta. unfold run_ops. rewrite fold_left_app. fold (run_ops fuel s l). cbn [fold_left].
  assert (Step : forall o st, wf st -> not_register o -> let st' := fst (run_op fuel st o) in
     wf st' /\ (forall x y v, weight_at st x y v -> weight_at st' x y v) /\ (forall T, total_at st T -> total_at st' T) /\
     (o = OReset -> forall x y, ~ marked st' x y)).
  { intros o st Wst Hn. cbn zeta. destruct (wf_cases st Wst) as [(a & Hok & ->)|(dx & dy & Px & Py & ->)].
    - assert (Fw : finite_weight o) by (destruct o; cbn in *; tauto).
      destruct (run_op_any fuel a o Hok Fw) as (a1 & -> & Hok1 & Hx & Eff).
      assert (E : P a1 = P a /\ W a1 = W a) by (destruct o; cbn in *; try tauto). destruct E as [EP EW].
      split; [now apply conc_wf|]. split; [intros x y v; now apply weight_same|]. split.
      + intros T HT. apply total_at_conc in HT. apply total_at_conc. congruence.
      + intros -> x y. cbn in Eff. destruct Eff as (_ & _ & EM). rewrite marked_conc by auto. rewrite EM.
        intros (p & q & _ & H). discriminate.
    - destruct (run_op_unborn fuel dx dy o Px Py) as [-> | (a & E & Hok & _ & _ & HW & HP)].
      + split; [now apply unborn_wf|]. split; [auto|]. split; [auto|]. intros _ x y. apply unborn_marked.
      + rewrite E. split; [now apply conc_wf|]. split; [|split].
        * intros x y v H. apply unborn_weight in H. subst. rewrite weight_conc by auto.
          destruct (Classical_Prop.classic (exists p q, locates a x y p q)) as [(p & q & Hl)|Hl].
          -- left. exists p, q. rewrite HP. auto.
          -- right. split; auto. intros p q Hc. eauto.
        * intros T HT. apply total_at_unborn in HT. apply total_at_conc. congruence.
        * intros ->. cbn in E. discriminate. }
  assert (Pre : wf (run_ops fuel s l) /\ (forall x y v, weight_at s x y v -> weight_at (run_ops fuel s l) x y v) /\
                (forall T, total_at s T -> total_at (run_ops fuel s l) T)).
  { revert s Hw. induction l as [|o l IH]; intros s Hw; [auto|]. inversion Hf; subst.
    unfold run_ops. cbn [fold_left]. destruct (Step o s Hw H1) as (W1 & A1 & A2 & _).
    destruct (IH H2 _ W1) as (W2 & B1 & B2). unfold run_ops in *. auto. }
  destruct Pre as (W1 & A1 & A2). destruct (Step OReset _ W1 I) as (_ & B1 & B2 & B3). auto.
Qed.

(** ** C18 *)
Lemma c18_uninitialised : forall (s : pfield xr) fuel,
  ~ initialised s ->
  (forall ax ay bx by_ u, insert s ax ay bx by_ u = (s, Raise AttributeError)) /\
  (forall w, register s w = (s, Raise AttributeError)) /\
  reset s = (s, Raise AttributeError) /\
  (wf s -> forall xmn xmx ymn ymx, xmn <= xmx -> ymn <= ymx ->
     exists s', expand fuel s (Fin xmn) (Fin xmx) (Fin ymn) (Fin ymx) = (s', Ok tt) /\
                wf s' /\ initialised s' /\ total s' 0 /\
                (forall x y w m, has_node s' x y w m -> w = 0 /\ m = false)) /\
  (wf s -> forall tr u, tr <> [] -> 0 <= u ->
     exists s', rasterize fuel s (xs tr) (ys tr) (Fin u) = (s', Ok tt) /\ wf s' /\ initialised s').
Proof.
  intros s fuel Hi. assert (Eb : body s = None).
  { destruct (body s) eqn:E; auto. destruct Hi. unfold initialised. congruence. }
  split; [intros; unfold insert; now rewrite Eb|]. split; [intros; unfold register; now rewrite Eb|].
  split; [unfold reset; now rewrite Eb|].
  assert (Ex : wf s -> forall xmn xmx ymn ymx, xmn <= xmx -> ymn <= ymx ->
     exists s', expand fuel s (Fin xmn) (Fin xmx) (Fin ymn) (Fin ymx) = (s', Ok tt)).
  { intros Hw xmn xmx ymn ymx Hx Hy.
    destruct (wf_cases s Hw) as [(a & _ & ->)|(dx & dy & Px & Py & ->)]; [discriminate|].
    unfold expand. cbn [nlt XR xlt]. rewrite !(proj2 (Rltb_false _ _)) by lra. cbn [body unborn deltax deltay].
    destruct (expand_first_fin dx dy xmn xmx ymn ymx Px Py) as (nc & nr & g & -> & _). cbn. eauto. }
  split.
  - intros Hw xmn xmx ymn ymx Hx Hy. destruct (Ex Hw xmn xmx ymn ymx Hx Hy) as (s' & E). exists s'.
    split; [exact E|]. destruct (expand_keeps _ _ _ _ _ _ _ Hw E) as (a & -> & Hok & K1 & K2 & K3).
    split; [now apply conc_wf|]. split; [apply conc_init|].
    destruct (wf_cases s Hw) as [(a' & _ & ->)|(dx & dy & Px & Py & ->)]; [discriminate|].
    split; [apply K3; now apply total_at_unborn|].
    intros x y w m Hn. split.
    + assert (Hv : weight_at (conc a) x y 0) by (apply K1; now apply unborn_weight).
      destruct Hv as [(m' & Hn')|[Hno _]].
      * destruct (has_node_fun _ _ _ _ _ _ _ (conc_wf _ Hok) Hn Hn'). auto.
      * destruct Hno. unfold is_node. eauto.
    + destruct m; auto. exfalso. apply (unborn_marked dx dy x y). apply K2. exists w. exact Hn.
  - intros Hw tr u Hne Hu.
    destruct (track_box tr Hne) as (xa & xb & ya & yb & E1 & E2 & E3 & E4 & _ & Hx & Hy & _).
    destruct (Ex Hw xa xb ya yb Hx Hy) as (s1 & E).
    destruct (expand_cover _ _ _ _ _ _ _ Hw E) as (a & Hok & -> & _).
    destruct (insert_segments_fin tr a u Hok Hu) as (m & Em & Hm).
    exists (conc (set_M a m)). unfold rasterize. rewrite E1, E2, E3, E4, E. split; [exact Em|]. split; [|apply conc_init].
    apply conc_wf, set_M_ok; auto. intros p q Hpq. apply Hm in Hpq. destruct Hpq as [Hpq|[Hpq _]]; auto. now apply ok_M.
Qed.

(** ** C76: discarded tracks do influence later results *)
Lemma c76_discarded_refuted :
  exists (fuel : nat) (s : pfield xr) (A B : list point) (u : R) s1 s2 x y,
    pf_init (Fin 1) (Fin 1) (Fin 0) (Fin 0) = Ok s /\ wf s /\ initialised s /\ 0 < u /\
    run fuel s [ORasterize (xs B) (ys B) (Fin u); OReset; ORasterize (xs A) (ys A) (Fin u); ORegister (Fin 1)] s1 /\
    run fuel s [ORasterize (xs A) (ys A) (Fin u); ORegister (Fin 1)] s2 /\
    near_track u A (x, y) /\ weight_at s1 x y 1 /\ weight_at s2 x y 0.
Proof.
  destruct (c01_constructor_centred 1 1 0 0 ltac:(lra) ltac:(lra)) as (s & Es & Hw & Hi & Hext & _ & Hnodes).
  assert (HA : trackA <> []) by discriminate. assert (HB : trackB <> []) by discriminate.
  assert (Hu : 0 <= 5/2) by lra.
  assert (N00 : is_node s 0 0) by (exists 0, false; apply Hnodes; lra).
  assert (Nm : ~ is_node s (-2) 0) by (intros (w & m & H); apply Hnodes in H; lra).
  destruct (c11_rasterize_returns s trackA (5/2) Hw HA Hu) as (n1 & R1).
  destruct (c11_rasterize_returns s trackB (5/2) Hw HB Hu) as (n2 & R2).
  destruct (R1 (S n1) ltac:(lia)) as (sA & EA & WA & IA).
  destruct (R2 (S n2) ltac:(lia)) as (sB & EB & WB & IB).
  destruct (c14_reset_exact sB WB IB) as (sr & Er & Wr & Nr & Tr & Xr & Dr1 & Dr2).
  destruct (c11_rasterize_exact _ _ _ _ _ Hw Hi Hu EB) as (_ & _ & KB1 & KB2 & _ & xB0 & xB1 & yB0 & yB1 & XB & YB).
  assert (Ir : initialised sr) by (destruct (Xr _ _ _ _ XB) as (g & Hg & _); unfold initialised; congruence).
  destruct (c11_rasterize_returns sr trackA (5/2) Wr HA Hu) as (n3 & R3).
  set (N := S (n1 + n2 + n3)).
  pose proof (rasterize_mono (S n1) N _ _ _ _ _ Hi ltac:(lia) EA) as EA'.
  pose proof (rasterize_mono (S n2) N _ _ _ _ _ Hi ltac:(lia) EB) as EB'.
  destruct (R3 N ltac:(lia)) as (sC & EC & WC & IC).
  destruct (c14_register_exact sC 1 WC IC) as (s1 & E1 & W1 & N1 & _).
  destruct (c14_register_exact sA 1 WA IA) as (s2 & E2 & W2 & N2 & _).
  exists N, s, trackA, trackB, (5/2), s1, s2, (-2), 0.
  split; [exact Es|]. split; [exact Hw|]. split; [exact Hi|]. split; [lra|]. split.
  { repeat (eapply run_cons; [cbn [run_op]; eassumption|]). apply run_nil. }
  split. { repeat (eapply run_cons; [cbn [run_op]; eassumption|]). apply run_nil. }
  split; [exact nearA|]. split.
  - destruct (c11_rasterize_spacing _ _ _ _ _ Hw Hu EB' Hi) as [SB1 SB2].
    assert (D0 : deltax s = Fin 1 /\ deltay s = Fin 1) by (rewrite pf_init_fin in Es by lra; injection Es as <-; auto).
    destruct D0 as [D1 D2].
    assert (NB : is_node sB (-2) 0).
    { replace (-2) with (0 + IZR (-2) * 1) by ring. replace 0 with (0 + IZR 0 * 1) at 2 by ring.
      assert (N0 : is_node sB 0 0) by (destruct N00 as (w & m & H'); apply KB1 in H'; destruct H'; unfold is_node; eauto).
      destruct (node_in_extent _ _ _ _ _ _ _ WB N0 XB).
      pose proof (YB (-3, 10) ltac:(right; left; reflexivity)). cbn in *.
      eapply lattice_in_extent; try exact XB; eauto; cbn; try congruence; lra. }
    destruct NB as (w & m & Hm). assert (w = 0) as ->.
    { destruct (KB2 _ _ _ _ Hm) as (_ & Hz & _). exact (Hz Nm). }
    assert (Hr : has_node sr (-2) 0 0 false) by (apply Nr; split; [reflexivity|eauto]).
    destruct (c11_rasterize_exact _ _ _ _ _ Wr Ir Hu EC) as (_ & _ & KC1 & KC2 & _ & _).
    destruct (KC1 _ _ _ _ Hr) as (m' & Hm'). destruct (KC2 _ _ _ _ Hm') as (_ & _ & Hmk).
    assert (m' = true) as -> by (apply Hmk; right; exact nearA).
    left. exists false. apply N1. split; [reflexivity|]. exists 0, true. split; [exact Hm'|ring].
  - right. split; [|reflexivity]. intros (w & m & H). apply N2 in H. destruct H as (_ & v0 & m0 & H & _).
    apply Nm.
    destruct (rasterize_run _ _ _ _ _ Hw Hu EA') as (_ & xa & xb & ya & yb & a & mm & Hbox & Hx & Hy & P1 & P2 & P3 & P4 & Ee & Hok & HsA & Hok' & Hmm).
    assert (Bx : xa = 0 /\ xb = 1/2 /\ ya = 0 /\ yb = 0).
    { cbn [xs ys trackA map pymin_list pymax_list fold_left fst snd] in P1, P2, P3, P4.
      rewrite pymin_fin in P1, P3. rewrite pymax_fin in P2, P4.
      injection P1 as <-. injection P2 as <-. injection P3 as <-. injection P4 as <-.
      unfold Rmin, Rmax. repeat destruct (Rle_dec _ _); lra. }
    destruct Bx as (-> & -> & -> & ->).
    rewrite (c05_expand_noop N s 0 (1/2) 0 0 _ _ _ _ ltac:(lia) Hw Hext) in Ee by lra.
    injection Ee as ->. assert (Hn : is_node sA (-2) 0) by (unfold is_node; eauto). subst sA.
    rewrite conc_is_node in * by auto. exact Hn.
Qed.
