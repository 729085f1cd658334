(** * What a discarded track can change: partial results for property C76 *)
From Coq Require Import Reals Lra Lia.
From Verif Require Import Py Num NumXR ModelField Grid SpecField ProofField ProofInsert ProofOps ProofFieldProps ProofFieldHist.
Local Open Scope R_scope.

(** The window of [b] lies in that of [a], on the same lattice. *)
Definition within_win (b a : abs) : Prop := extends b a.

(** [a] has at least what [b] has; on the window of [k], which lies in that of [b], they
    agree. *)
Definition dom (k a b : abs) : Prop :=
  within_win b a /\ W a = W b /\ extends k b /\
  (forall p q, P b p q <= P a p q /\ (M b p q = true -> M a p q = true)) /\
  (forall p q, inwin k p q -> P a p q = P b p q /\ M a p q = M b p q).

Lemma grown_within a b xmn xmx ymn ymx l r u t l' r' u' t' : ok a -> ok b -> within_win b a ->
  grown a (Fin xmn) (Fin xmx) (Fin ymn) (Fin ymx) l r u t ->
  grown b (Fin xmn) (Fin xmx) (Fin ymn) (Fin ymx) l' r' u' t' ->
  within_win (grow_win b l' r' u' t') (grow_win a l r u t).
Proof.
  intros (Hx & Hy & _) _ (E1 & E2 & E3 & E4 & I1 & I2 & I3 & I4)
    (A1 & A2 & A3 & A4 & B1 & B2 & B3 & B4 & _) (C1 & C2 & C3 & C4 & _ & _ & _ & _ & D1 & D2 & D3 & D4).
  unfold within_win, extends, grow_win. cbn [X0 Y0 Dx Dy C0 R0 NC NR set_win].
  rewrite E1, E2, E3, E4 in *. cbn [nle XR xle] in *.
  repeat (split; [reflexivity|]). repeat split.
  - apply Z.nlt_ge. intros Hlt. specialize (D1 (C0 b - (C0 a - l))%Z). 
    replace (C0 b - (C0 b - (C0 a - l)))%Z with (C0 a - l)%Z in D1 by lia. rewrite D1 in B1 by lia. discriminate.
  - apply Z.nlt_ge. intros Hlt. specialize (D2 (C0 a + NC a - 1 + r - (C0 b + NC b - 1))%Z).
    replace (C0 b + NC b - 1 + (C0 a + NC a - 1 + r - (C0 b + NC b - 1)))%Z with (C0 a + NC a - 1 + r)%Z in D2 by lia.
    rewrite D2 in B2 by lia. discriminate.
  - apply Z.nlt_ge. intros Hlt. specialize (D3 (R0 b - (R0 a - u))%Z).
    replace (R0 b - (R0 b - (R0 a - u)))%Z with (R0 a - u)%Z in D3 by lia. rewrite D3 in B3 by lia. discriminate.
  - apply Z.nlt_ge. intros Hlt. specialize (D4 (R0 a + NR a - 1 + t - (R0 b + NR b - 1))%Z).
    replace (R0 b + NR b - 1 + (R0 a + NR a - 1 + t - (R0 b + NR b - 1)))%Z with (R0 a + NR a - 1 + t)%Z in D4 by lia.
    rewrite D4 in B4 by lia. discriminate.
Qed.

Lemma expand_dom fuel k a b xmn xmx ymn ymx s1 s2 : ok a -> ok b -> dom k a b ->
  expand fuel (conc a) (Fin xmn) (Fin xmx) (Fin ymn) (Fin ymx) = (s1, Ok tt) ->
  expand fuel (conc b) (Fin xmn) (Fin xmx) (Fin ymn) (Fin ymx) = (s2, Ok tt) ->
  exists a' b', s1 = conc a' /\ s2 = conc b' /\ ok a' /\ ok b' /\ dom k a' b'.
Proof.
  intros Ha Hb (Hw & HW & HK & HD & HE) E1 E2.
  destruct (expand_general fuel a (Fin xmn) (Fin xmx) (Fin ymn) (Fin ymx) Ha) as [(r & Hr & E)|(l & r & u & t & Hg & E)];
    rewrite E in E1; [congruence|]. injection E1 as <-.
  destruct (expand_general fuel b (Fin xmn) (Fin xmx) (Fin ymn) (Fin ymx) Hb) as [(r' & Hr & E')|(l' & r' & u' & t' & Hg' & E')];
    rewrite E' in E2; [congruence|]. injection E2 as <-.
  pose proof (grown_within _ _ _ _ _ _ _ _ _ _ _ _ _ _ Ha Hb Hw Hg Hg') as Hw'.
  destruct Hg as (G1 & G2 & G3 & G4 & _). destruct Hg' as (G1' & G2' & G3' & G4' & _).
  eexists _, _. split; [reflexivity|]. split; [reflexivity|]. split; [now apply grow_win_ok|]. split; [now apply grow_win_ok|].
  split; [exact Hw'|]. split; [exact HW|]. split; [|split].
  - eapply extends_trans; [exact HK|]. now apply extends_grow.
  - exact HD.
  - exact HE.
Qed.

Lemma marks_dom k a b m m' (near_ : R -> R -> Prop) : ok a -> ok b -> dom k a b ->
  (forall p q, m p q = true <-> M a p q = true \/ (inwin a p q /\ near_ (lat (X0 a) (Dx a) q) (lat (Y0 a) (Dy a) p))) ->
  (forall p q, m' p q = true <-> M b p q = true \/ (inwin b p q /\ near_ (lat (X0 b) (Dx b) q) (lat (Y0 b) (Dy b) p))) ->
  ok (set_M a m) /\ ok (set_M b m') /\ dom k (set_M a m) (set_M b m').
Proof.
  intros Ha Hb (Hw & HW & HK & HD & HE) Hm Hm'.
  split; [|split].
  - apply set_M_ok; auto. intros p q H. apply Hm in H. destruct H as [H|[H _]]; auto. now apply ok_M.
  - apply set_M_ok; auto. intros p q H. apply Hm' in H. destruct H as [H|[H _]]; auto. now apply ok_M.
  - destruct Hw as (E1 & E2 & E3 & E4 & I). split; [repeat (split; [assumption|]); exact I|].
    split; [exact HW|]. split; [exact HK|]. split.
    + intros p q. split; [apply HD|]. cbn [M set_M]. rewrite Hm, Hm', E1, E2, E3, E4.
      intros [H|[H H']]; [left; now apply HD|right]. split; [|exact H'].
      eapply extends_inwin; [|exact H]. repeat (split; [assumption|]). exact I.
    + intros p q H. split; [apply (HE p q H)|]. cbn [M set_M]. apply eq_iff_eq_true. rewrite Hm, Hm', E1, E2, E3, E4.
      destruct (HE p q H) as [_ ->]. apply (extends_inwin _ _ _ _ HK) in H. assert (inwin a p q).
      { eapply extends_inwin; [|exact H]. repeat (split; [assumption|]). exact I. }
      tauto.
Qed.

Lemma step_dom fuel k a b o s1 s2 : ok a -> ok b -> dom k a b -> finite_op o -> nonneg_weight o ->
  run_op fuel (conc a) o = (s1, Ok tt) -> run_op fuel (conc b) o = (s2, Ok tt) ->
  exists a' b', s1 = conc a' /\ s2 = conc b' /\ ok a' /\ ok b' /\ dom k a' b'.
Proof.
  intros Ha Hb Hd Ho Hn R1 R2. destruct Ho as [xmn xmx ymn ymx|ax ay bx by_ u Hu|tr u Hu|w|]; cbn [run_op] in R1, R2.
  - exact (expand_dom _ _ _ _ _ _ _ _ _ _ Ha Hb Hd R1 R2).
  - destruct (insert_fin a ax ay bx by_ u Ha Hu) as (m & E & Hm). rewrite E in R1. injection R1 as <-.
    destruct (insert_fin b ax ay bx by_ u Hb Hu) as (m' & E' & Hm'). rewrite E' in R2. injection R2 as <-.
    destruct (marks_dom k a b m m' (fun x y => (ax, ay) <> (bx, by_) /\ near u (ax, ay) (bx, by_) (x, y)) Ha Hb Hd) as (? & ? & ?).
    + intros p q. rewrite Hm. tauto.
    + intros p q. rewrite Hm'. tauto.
    + eauto 8.
  - unfold rasterize in R1, R2. assert (Hne : tr <> []) by (intros ->; cbn in R1; congruence).
    destruct (track_box tr Hne) as (xa & xb & ya & yb & E1 & E2 & E3 & E4 & _). rewrite E1, E2, E3, E4 in R1, R2.
    destruct (expand fuel (conc a) _ _ _ _) as [t1 r1] eqn:X1. destruct (expand fuel (conc b) _ _ _ _) as [t2 r2] eqn:X2.
    destruct r1 as [[]| |]; try congruence. destruct r2 as [[]| |]; try congruence.
    destruct (expand_dom _ _ _ _ _ _ _ _ _ _ Ha Hb Hd X1 X2) as (a1 & b1 & -> & -> & Ha1 & Hb1 & Hd1).
    destruct (insert_segments_fin tr a1 u Ha1 Hu) as (m & E & Hm). rewrite E in R1. injection R1 as <-.
    destruct (insert_segments_fin tr b1 u Hb1 Hu) as (m' & E' & Hm'). rewrite E' in R2. injection R2 as <-.
    destruct (marks_dom k a1 b1 m m' (fun x y => near_track u tr (x, y)) Ha1 Hb1 Hd1 Hm Hm') as (? & ? & ?).
    exists (set_M a1 m), (set_M b1 m'). auto.
  - rewrite register_fin in R1, R2. injection R1 as <-. injection R2 as <-.
    destruct Hn as (r & E & Hr). injection E as <-. destruct Hd as (Hw & HW & HK & HD & HE).
    exists (reg a w), (reg b w). split; [reflexivity|]. split; [reflexivity|]. split; [now apply reg_ok|]. split; [now apply reg_ok|].
    split; [exact Hw|]. split; [cbn; now rewrite HW|]. split; [exact HK|]. split.
    + intros p q. destruct (HD p q) as [H1 H2]. split; [|discriminate]. cbn [P reg].
      destruct (M b p q); [rewrite H2 by reflexivity; lra|]. destruct (M a p q); lra.
    + intros p q H. destruct (HE p q H) as [H1 H2]. cbn [P M reg]. rewrite H1, H2. auto.
  - rewrite reset_conc in R1, R2. injection R1 as <-. injection R2 as <-. destruct Hd as (Hw & HW & HK & HD & HE).
    eexists _, _. split; [reflexivity|]. split; [reflexivity|]. split; [apply set_M_ok; auto; discriminate|]. split; [apply set_M_ok; auto; discriminate|].
    split; [exact Hw|]. split; [exact HW|]. split; [exact HK|]. split.
    + intros p q. split; [apply HD|discriminate].
    + intros p q H. split; [apply (HE p q H)|reflexivity].
Qed.

Lemma run_dom fuel k l : forall a b s1 s2, ok a -> ok b -> dom k a b -> Forall finite_op l -> Forall nonneg_weight l ->
  run fuel (conc a) l s1 -> run fuel (conc b) l s2 ->
  exists a' b', s1 = conc a' /\ s2 = conc b' /\ ok a' /\ ok b' /\ dom k a' b'.
Proof.
  induction l as [|o l IH]; intros a b s1 s2 Ha Hb Hd Hf Hn R1 R2; inversion R1; inversion R2; subst.
  - eauto 8.
  - inversion Hf; inversion Hn; subst.
    match goal with A : run_op fuel (conc a) _ = (?x, _), B : run_op fuel (conc b) _ = (?y, _) |- _ =>
      destruct (step_dom _ _ _ _ _ _ _ Ha Hb Hd ltac:(eassumption) ltac:(assumption) A B) as (a' & b' & E1 & E2 & Ha' & Hb' & Hd') end.
    subst.
    eapply IH; [exact Ha'|exact Hb'|exact Hd'|..]; assumption.
Qed.

(** The two histories: with and without the discarded track. *)
Lemma discard_dom fuel s B u l s1 s2 : wf s -> initialised s -> 0 <= u -> Forall finite_op l -> Forall nonneg_weight l ->
  run fuel s (ORasterize (xs B) (ys B) (Fin u) :: OReset :: l) s1 -> run fuel s (OReset :: l) s2 ->
  exists a0 a b, ok a0 /\ s = conc a0 /\ s1 = conc a /\ s2 = conc b /\ ok a /\ ok b /\ dom a0 a b.
Proof.
  intros Hw Hi Hu Hf Hn R1 R2. destruct (wf_rep s Hw Hi) as (a0 & Ha0 & ->).
  inversion R1 as [|? ? t1 ? ? E1 R1']; subst. inversion R1' as [|? ? t1' ? ? E1' R1'']; subst.
  inversion R2 as [|? ? t2 ? ? E2 R2']; subst. cbn [run_op] in E1, E1', E2.
  rewrite reset_conc in E2. injection E2 as <-.
  unfold rasterize in E1. assert (Hne : B <> []) by (intros ->; cbn in E1; congruence).
  destruct (track_box B Hne) as (xa & xb & ya & yb & P1 & P2 & P3 & P4 & _). rewrite P1, P2, P3, P4 in E1.
  destruct (expand_general fuel a0 (Fin xa) (Fin xb) (Fin ya) (Fin yb) Ha0) as [(r & Hr & E)|(l' & r & c & t & Hg & E)]; rewrite E in E1.
  { destruct r as [[]| |]; congruence. }
  destruct Hg as (G1 & G2 & G3 & G4 & _). pose proof (grow_win_ok a0 l' r c t Ha0 G1 G2 G3 G4) as Ha1.
  pose proof (extends_grow a0 l' r c t G1 G2 G3 G4) as Hx.
  destruct (insert_segments_fin B _ u Ha1 Hu) as (m & Em & _). rewrite Em in E1. injection E1 as <-.
  rewrite reset_conc in E1'. injection E1' as <-. rewrite set_M_set_M in R1''.
  assert (Ha1' : ok (set_M (grow_win a0 l' r c t) (fun _ _ => false))) by (apply set_M_ok; [exact Ha1|discriminate]).
  assert (Ha0' : ok (set_M a0 (fun _ _ => false))) by (apply set_M_ok; [exact Ha0|discriminate]).
  assert (Hd0 : dom a0 (set_M (grow_win a0 l' r c t) (fun _ _ => false)) (set_M a0 (fun _ _ => false))).
  { split; [exact Hx|]. split; [reflexivity|]. split; [apply extends_set_M|]. split.
    - intros p q. cbn. split; [lra|discriminate].
    - auto. }
  destruct (run_dom fuel a0 l _ _ _ _ Ha1' Ha0' Hd0 Hf Hn R1'' R2') as (a & b & -> & -> & Ha & Hb & Hd).
  exists a0, a, b. auto 8.
Qed.

(** With the discarded track the field keeps every node; no node loses weight or mark, and the total is the same.
    Missing for C76: the weights can differ, at nodes that the grid gained after the discarded track. *)
Lemma c76_more_partial : forall fuel s B u l s1 s2, wf s -> initialised s -> 0 <= u -> Forall finite_op l -> Forall nonneg_weight l ->
  run fuel s (ORasterize (xs B) (ys B) (Fin u) :: OReset :: l) s1 -> run fuel s (OReset :: l) s2 ->
  (forall x y w m, has_node s2 x y w m -> exists w' m', has_node s1 x y w' m' /\ w <= w' /\ (m = true -> m' = true)) /\
  (forall v, total s1 v <-> total s2 v).
Proof.
  intros fuel s B u l s1 s2 Hw Hi Hu Hf Hn R1 R2.
  destruct (discard_dom _ _ _ _ _ _ _ Hw Hi Hu Hf Hn R1 R2) as (a0 & a & b & Ha0 & -> & -> & -> & Ha & Hb & (Hx & HW & HK & HD & HE)).
  split; [|intros v; rewrite !conc_total, HW; tauto].
  intros x y w m H. apply conc_node in H; auto. destruct H as (p & q & Hin & -> & -> & -> & ->).
  exists (P a p q), (M a p q). split; [|apply HD]. apply conc_node; auto. exists p, q.
  split; [eapply extends_inwin; eassumption|]. destruct Hx as (-> & -> & -> & -> & _). auto.
Qed.

(** At every location where the field had a node already, the discarded track makes no difference. *)
Lemma c76_old_nodes_partial : forall fuel s B u l s1 s2, wf s -> initialised s -> 0 <= u -> Forall finite_op l -> Forall nonneg_weight l ->
  run fuel s (ORasterize (xs B) (ys B) (Fin u) :: OReset :: l) s1 -> run fuel s (OReset :: l) s2 ->
  forall x y, is_node s x y -> forall w m, has_node s1 x y w m <-> has_node s2 x y w m.
Proof.
  intros fuel s B u l s1 s2 Hw Hi Hu Hf Hn R1 R2.
  destruct (discard_dom _ _ _ _ _ _ _ Hw Hi Hu Hf Hn R1 R2) as (a0 & a & b & Ha0 & -> & -> & -> & Ha & Hb & (Hx & HW & HK & HD & HE)).
  intros x y H w m. apply conc_is_node in H; auto. destruct H as (p & q & Hin & -> & ->).
  pose proof (extends_inwin _ _ _ _ HK Hin) as Hinb. pose proof (extends_inwin _ _ _ _ Hx Hinb) as Hina.
  destruct (HE p q Hin) as [EP EM]. destruct HK as (K1 & K2 & K3 & K4 & _). destruct Hx as (X1 & X2 & X3 & X4 & _).
  assert (Na : has_node (conc a) (lat (X0 a0) (Dx a0) q) (lat (Y0 a0) (Dy a0) p) (P b p q) (M b p q)).
  { apply conc_node; auto. exists p, q. rewrite X1, X2, X3, X4, K1, K2, K3, K4, EP, EM. auto. }
  assert (Nb : has_node (conc b) (lat (X0 a0) (Dx a0) q) (lat (Y0 a0) (Dy a0) p) (P b p q) (M b p q)).
  { apply conc_node; auto. exists p, q. rewrite K1, K2, K3, K4. auto. }
  split; intros H.
  - destruct (has_node_fun _ _ _ _ _ _ _ (conc_wf _ Ha) H Na) as [-> ->]. exact Nb.
  - destruct (has_node_fun _ _ _ _ _ _ _ (conc_wf _ Hb) H Nb) as [-> ->]. exact Na.
Qed.

(** When the discarded track lies inside the grid it makes no difference at all, whatever is done afterwards. *)
Lemma c76_inside_partial : forall fuel s B u l s1 x0 x1 y0 y1, wf s -> 0 <= u ->
  extent s x0 x1 y0 y1 -> B <> [] -> (forall p, In p B -> x0 < fst p < x1 /\ y0 < snd p < y1) -> (0 < fuel)%nat ->
  (run fuel s (ORasterize (xs B) (ys B) (Fin u) :: OReset :: l) s1 <-> run fuel s (OReset :: l) s1).
Proof.
  intros fuel s B u l s1 x0 x1 y0 y1 Hw Hu He Hne Hin Hfu.
  assert (Hi : initialised s) by (destruct He as (g & Hg & _); unfold initialised; congruence).
  destruct (wf_rep s Hw Hi) as (a & Hok & ->).
  assert (E : exists m, rasterize fuel (conc a) (xs B) (ys B) (Fin u) = (conc (set_M a m), Ok tt)).
  { unfold rasterize.
    destruct (track_box B Hne) as (xa & xb & ya & yb & P1 & P2 & P3 & P4 & Hbox & Hx & Hy & (p1 & I1 & <-) & (p2 & I2 & <-) & (p3 & I3 & <-) & (p4 & I4 & <-)).
    rewrite P1, P2, P3, P4.
    rewrite (c05_expand_noop fuel (conc a) _ _ _ _ x0 x1 y0 y1); auto; try apply Hin; auto.
    destruct (insert_segments_fin B a u Hok Hu) as (m & E & _). exists m. exact E. }
  destruct E as (m & E). split; intros R.
  - inversion R as [|? ? t1 ? ? E1 R1]; subst. inversion R1 as [|? ? t2 ? ? E2 R2]; subst. cbn [run_op] in E1, E2.
    rewrite E in E1. injection E1 as <-. rewrite reset_conc, set_M_set_M in E2. injection E2 as <-.
    econstructor; [cbn [run_op]; apply reset_conc|exact R2].
  - inversion R as [|? ? t1 ? ? E1 R1]; subst. cbn [run_op] in E1. rewrite reset_conc in E1. injection E1 as <-.
    econstructor; [cbn [run_op]; exact E|]. econstructor; [cbn [run_op]; rewrite reset_conc, set_M_set_M; reflexivity|exact R1].
Qed.

(** The histories of the refutation meet every hypothesis of the partial results. *)
Lemma c76_example : exists fuel s A B u s1 s2 x y, pf_init (Fin 1) (Fin 1) (Fin 0) (Fin 0) = Ok s /\ wf s /\ initialised s /\ 0 <= u /\
  let l := [ORasterize (xs A) (ys A) (Fin u); ORegister (Fin 1)] in
  Forall finite_op l /\ Forall nonneg_weight l /\
  run fuel s (ORasterize (xs B) (ys B) (Fin u) :: OReset :: l) s1 /\ run fuel s (OReset :: l) s2 /\
  weight_at s1 x y 1 /\ weight_at s2 x y 0 /\ is_node s 1 0.
Proof.
  destruct c76_discarded_refuted as (fuel & s & A & B & u & s1 & s2 & x & y & Es & Hw & Hi & Hu & R1 & R2 & _ & H1 & H2).
  exists fuel, s, A, B, u, s1, s2, x, y. split; [exact Es|]. split; [exact Hw|]. split; [exact Hi|]. split; [lra|].
  cbn zeta. split; [repeat constructor; lra|]. split.
  { repeat constructor. exists 1. split; [reflexivity|lra]. }
  split; [exact R1|]. split.
  { econstructor; [|exact R2]. cbn [run_op]. rewrite pf_init_fin in Es by lra. injection Es as <-. rewrite reset_conc. reflexivity. }
  split; [exact H1|]. split; [exact H2|].
  destruct (c01_constructor_centred 1 1 0 0 ltac:(lra) ltac:(lra)) as (s' & Es' & _ & _ & _ & _ & Hn).
  rewrite Es in Es'. injection Es' as <-. exists 0, false. apply Hn. repeat split; lra.
Qed.

(** Every track inside the initial grid: one along y = 0 between -1/2 and 1/2. *)
Lemma c76_inside_example : exists s B, pf_init (Fin 1) (Fin 1) (Fin 0) (Fin 0) = Ok s /\ wf s /\ extent s (-1) 1 (-1) 1 /\
  B <> [] /\ (forall p, In p B -> -1 < fst p < 1 /\ -1 < snd p < 1) /\ near_track (1/2) B (0, 0) /\ is_node s 0 0.
Proof.
  destruct (c01_constructor_centred 1 1 0 0 ltac:(lra) ltac:(lra)) as (s & Es & Hw & _ & Hext & _ & Hn).
  exists s, [(-1/2, 0); (1/2, 0)]. split; [exact Es|]. split; [exact Hw|]. split.
  { rewrite Rminus_0_l, Rplus_0_l in Hext. exact Hext. }
  split; [discriminate|]. split; [|split].
  - intros p [<-|[<-|[]]]; cbn; lra.
  - exists (-1/2, 0), (1/2, 0). split; [exists 0%nat; auto|]. split; [intros E; injection E; lra|].
    exists (0, 0). split; [exists (1/2); split; [lra|]; cbn; f_equal; lra|]. unfold dist2. cbn. lra.
  - exists 0, false. apply Hn. repeat split; lra.
Qed.
