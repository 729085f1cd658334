(** * The field of a run, exactly: property C112 *)
From Coq Require Import Reals Lra Lia.
From Verif Require Import Py Num NumXR ModelField ModelAquifer ModelTrace ModelDist ModelDriver ModelMain.
From Verif Require Import SpecTrace SpecDriver SpecDist SpecMain Grid ProofField ProofInsert ProofOps ProofFieldProps ProofFieldHist ProofTraceFlow ProofDriver ProofWhole ProofDraws.
From Verif Require Import SpecField SpecWhole SpecDraws SpecExactMap.
Import ListNotations.
Local Open Scope R_scope.

(** ** The window is the smallest that holds the points *)
Definition low (o d : R) (c : Z) (f : point -> R) (pts : list point) : Prop :=
  (forall p, In p pts -> lat o d c < f p) /\ exists p, In p pts /\ f p <= lat o d (c + 1).
Definition high (o d : R) (e : Z) (f : point -> R) (pts : list point) : Prop :=
  (forall p, In p pts -> f p < lat o d e) /\ exists p, In p pts /\ lat o d (e - 1) <= f p.
Definition spans (a : abs) (pts : list point) : Prop :=
  low (X0 a) (Dx a) (C0 a) fst pts /\ high (X0 a) (Dx a) (C0 a + NC a - 1) fst pts /\
  low (Y0 a) (Dy a) (R0 a) snd pts /\ high (Y0 a) (Dy a) (R0 a + NR a - 1) snd pts.

Lemma low_grow o d c f pts tr m l : 0 < d -> low o d c f pts -> (forall p, In p tr -> m <= f p) -> (exists p, In p tr /\ f p = m) -> (0 <= l)%Z ->
  lat o d (c - l) < m -> (forall i, (0 <= i < l)%Z -> m <= lat o d (c - i)) -> low o d (c - l) f (pts ++ tr).
Proof.
  intros Hd [L1 (p & Ip & Lp)] Hm (t & It & Et) Hl H1 H2. split.
  - intros q Iq. apply in_app_iff in Iq. destruct Iq as [Iq|Iq].
    + pose proof (lat_le o d (c - l) c Hd ltac:(lia)). pose proof (L1 q Iq). lra.
    + pose proof (Hm q Iq). lra.
  - destruct (Z.eq_dec l 0) as [->|Nl].
    + exists p. rewrite in_app_iff. rewrite Z.sub_0_r. auto.
    + exists t. rewrite in_app_iff. split; [auto|]. rewrite Et. replace (c - l + 1)%Z with (c - (l - 1))%Z by lia. apply H2. lia.
Qed.
Lemma high_grow o d e f pts tr m r : 0 < d -> high o d e f pts -> (forall p, In p tr -> f p <= m) -> (exists p, In p tr /\ f p = m) -> (0 <= r)%Z ->
  m < lat o d (e + r) -> (forall i, (0 <= i < r)%Z -> lat o d (e + i) <= m) -> high o d (e + r) f (pts ++ tr).
Proof.
  intros Hd [L1 (p & Ip & Lp)] Hm (t & It & Et) Hl H1 H2. split.
  - intros q Iq. apply in_app_iff in Iq. destruct Iq as [Iq|Iq].
    + pose proof (lat_le o d e (e + r) Hd ltac:(lia)). pose proof (L1 q Iq). lra.
    + pose proof (Hm q Iq). lra.
  - destruct (Z.eq_dec r 0) as [->|Nl].
    + exists p. rewrite in_app_iff. rewrite Z.add_0_r. auto.
    + exists t. rewrite in_app_iff. split; [auto|]. rewrite Et. replace (e + r - 1)%Z with (e + (r - 1))%Z by lia. apply H2. lia.
Qed.
Lemma low_iff o d c f pts q : 0 < d -> low o d c f pts -> ((exists p, In p pts /\ f p - d <= lat o d q) <-> (c <= q)%Z).
Proof.
  intros Hd [L1 (p & Ip & Lp)]. split.
  - intros (t & It & Ht). pose proof (L1 t It) as H. assert (E : lat o d (q + 1) = lat o d q + d) by (unfold lat; rewrite plus_IZR; ring).
    assert (c < q + 1)%Z by (apply (lat_lt o d); [exact Hd|lra]). lia.
  - intros H. exists p. split; [exact Ip|]. pose proof (lat_le o d (c + 1) (q + 1) Hd ltac:(lia)).
    assert (E : lat o d (q + 1) = lat o d q + d) by (unfold lat; rewrite plus_IZR; ring). lra.
Qed.
Lemma high_iff o d e f pts q : 0 < d -> high o d e f pts -> ((exists p, In p pts /\ lat o d q <= f p + d) <-> (q <= e)%Z).
Proof.
  intros Hd [L1 (p & Ip & Lp)]. split.
  - intros (t & It & Ht). pose proof (L1 t It) as H. assert (E : lat o d (q - 1) = lat o d q - d) by (unfold lat; rewrite minus_IZR; ring).
    assert (q - 1 < e)%Z by (apply (lat_lt o d); [exact Hd|lra]). lia.
  - intros H. exists p. split; [exact Ip|]. pose proof (lat_le o d (q - 1) (e - 1) Hd ltac:(lia)).
    assert (E : lat o d (q - 1) = lat o d q - d) by (unfold lat; rewrite minus_IZR; ring). lra.
Qed.
Lemma spans_iff a sp pts p q : ok a -> Dx a = sp -> Dy a = sp -> spans a pts -> (inwin a p q <-> covered sp pts (loc a p q)).
Proof.
  intros (Hx & Hy & _) E1 E2 (S1 & S2 & S3 & S4). unfold covered, loc, inwin. cbn [fst snd].
  pose proof (low_iff _ _ _ _ _ q Hx S1) as Q1. pose proof (high_iff _ _ _ _ _ q Hx S2) as Q2.
  pose proof (low_iff _ _ _ _ _ p Hy S3) as Q3. pose proof (high_iff _ _ _ _ _ p Hy S4) as Q4. rewrite E1, E2 in *.
  split.
  - intros [Hp Hq]. destruct (proj2 Q1 ltac:(lia)) as (a1 & I1 & H1). destruct (proj2 Q2 ltac:(lia)) as (a2 & I2 & H2).
    destruct (proj2 Q3 ltac:(lia)) as (a3 & I3 & H3). destruct (proj2 Q4 ltac:(lia)) as (a4 & I4 & H4). exists a1, a2, a3, a4. auto 10.
  - intros (a1 & a2 & a3 & a4 & I1 & I2 & I3 & I4 & [H1 H2] & [H3 H4]).
    assert (C0 a <= q)%Z by (apply Q1; eauto). assert (q <= C0 a + NC a - 1)%Z by (apply Q2; eauto).
    assert (R0 a <= p)%Z by (apply Q3; eauto). assert (p <= R0 a + NR a - 1)%Z by (apply Q4; eauto). lia.
Qed.

(** One track. *)
Lemma rasterize_spans fuel a tr u s' before : ok a -> 0 <= u -> spans a before ->
  rasterize fuel (conc a) (xs tr) (ys tr) (Fin u) = (s', Ok tt) ->
  exists a', s' = conc a' /\ ok a' /\ extends a a' /\ P a' = P a /\ W a' = W a /\ spans a' (before ++ tr) /\
    forall p q, M a' p q = true <-> M a p q = true \/ (inwin a' p q /\ near_track u tr (loc a p q)).
Proof.
  intros Ha Hu HS H. unfold rasterize in H.
  assert (Hne : tr <> []) by (intros ->; cbn in H; congruence).
  destruct (track_box tr Hne) as (xa & xb & ya & yb & E1 & E2 & E3 & E4 & Hbox & Hx & Hy & A1 & A2 & A3 & A4).
  rewrite E1, E2, E3, E4 in H.
  destruct (expand_general fuel a (Fin xa) (Fin xb) (Fin ya) (Fin yb) Ha) as [(r & Hr & E)|(l & r & b & t & Hg & E)]; rewrite E in H.
  { destruct r as [[]|e|]; congruence. }
  pose proof (grown_fin _ _ _ _ _ _ _ _ _ Ha Hg) as (G1 & G2 & G3 & G4).
  destruct Hg as (Hl & Hr & Hb & Ht & _ & _ & _ & _ & M1 & M2 & M3 & M4). cbn [nle XR xle] in *.
  pose proof (grow_win_ok a l r b t Ha Hl Hr Hb Ht) as Hok.
  destruct (insert_segments_fin tr _ u Hok Hu) as (m & E' & Hm). rewrite E' in H. injection H as <-.
  exists (set_M (grow_win a l r b t) m). split; [reflexivity|].
  split. { apply set_M_ok; auto. intros p q Hpq. apply Hm in Hpq. destruct Hpq as [Hpq|[Hpq _]]; auto. now apply ok_M. }
  split. { apply extends_trans with (grow_win a l r b t); [apply extends_grow; assumption|apply extends_set_M]. }
  split; [reflexivity|]. split; [reflexivity|]. split.
  - destruct HS as (S1 & S2 & S3 & S4). pose proof Ha as (Px & Py & _). unfold spans. cbn [X0 Y0 Dx Dy C0 R0 NC NR grow_win set_win set_M].
    replace (C0 a - l + (NC a + l + r) - 1)%Z with (C0 a + NC a - 1 + r)%Z by lia.
    replace (R0 a - b + (NR a + b + t) - 1)%Z with (R0 a + NR a - 1 + t)%Z by lia.
    split; [|split; [|split]].
    + apply (low_grow _ _ _ _ _ _ xa); auto; [intros p Ip; apply Hbox, Ip|intros i Hi; apply Rleb_true, M1, Hi].
    + apply (high_grow _ _ _ _ _ _ xb); auto; [intros p Ip; apply Hbox, Ip|intros i Hi; apply Rleb_true, M2, Hi].
    + apply (low_grow _ _ _ _ _ _ ya); auto; [intros p Ip; apply Hbox, Ip|intros i Hi; apply Rleb_true, M3, Hi].
    + apply (high_grow _ _ _ _ _ _ yb); auto; [intros p Ip; apply Hbox, Ip|intros i Hi; apply Rleb_true, M4, Hi].
  - intros p q. exact (Hm p q).
Qed.

(** The tracks of a zone. *)
Lemma covered_more sp l1 l2 c : (forall p, In p l1 -> In p l2) -> covered sp l1 c -> covered sp l2 c.
Proof. intros H (p & q & r & s & I1 & I2 & I3 & I4 & B). exists p, q, r, s. auto 10. Qed.

Lemma tracks_spans fuel u sp : 0 <= u -> forall tracks a s' before, ok a -> Dx a = sp -> Dy a = sp -> spans a before ->
  calls fuel (conc a) (map (tcall u) tracks) = (s', Ok tt) ->
  exists a', s' = conc a' /\ ok a' /\ extends a a' /\ P a' = P a /\ W a' = W a /\ spans a' (before ++ concat tracks) /\
    forall p q, M a' p q = true <-> M a p q = true \/
      exists pre tr post, tracks = pre ++ tr :: post /\ near_track u tr (loc a p q) /\ covered sp (before ++ concat pre ++ tr) (loc a p q).
Proof.
  intros Hu. induction tracks as [|t tracks IH]; intros a s' before Ha Ex Ey Hb H; cbn [map calls] in H.
  - injection H as <-. exists a. cbn. rewrite app_nil_r. do 6 (split; [auto using extends_refl|]). intros p q. split; [auto|].
    intros [Z|([|? ?] & tr & post & E & _)]; [exact Z|discriminate E..].
  - unfold tcall at 1 in H. cbn [run_op] in H. destruct (rasterize fuel (conc a) (xs t) (ys t) (Fin u)) as [s1 [[]|e|]] eqn:R; [|discriminate H..].
    destruct (rasterize_spans fuel a t u s1 before Ha Hu Hb R) as (a1 & -> & Ha1 & X1 & P1 & W1 & H1 & M1).
    pose proof X1 as (_ & _ & Ex1 & Ey1 & _).
    destruct (IH a1 s' (before ++ t) Ha1 ltac:(congruence) ltac:(congruence) H1 H) as (a' & -> & Ha' & X' & P' & W' & H' & M').
    exists a'. split; [reflexivity|]. split; [exact Ha'|]. split; [eapply extends_trans; eassumption|]. split; [congruence|]. split; [congruence|].
    split; [cbn [concat]; rewrite app_assoc; exact H'|]. intros p q. rewrite (M' p q), (M1 p q), (loc_extends a a1 p q X1).
    rewrite (spans_iff a1 sp (before ++ t) p q Ha1 ltac:(congruence) ltac:(congruence) H1), (loc_extends a a1 p q X1). split.
    + intros [[Z|[C Nr]]|(pre & tr & post & E & Nr & C)]; [left; exact Z|right; exists [], t, tracks; auto|].
      right. exists (t :: pre), tr, post. subst tracks. split; [reflexivity|]. split; [exact Nr|]. cbn [concat]. rewrite <- !app_assoc in *. exact C.
    + intros [Z|([|t' pre] & tr & post & E & Nr & C)]; [left; left; exact Z| |]; injection E as <- E.
      * left. right. auto.
      * right. exists pre, tr, post. split; [exact E|]. split; [exact Nr|]. cbn [concat] in C. rewrite <- !app_assoc in *. exact C.
Qed.

(** The zones. *)
Lemma zones_spans fuel u sp : 0 <= u -> forall zones a s' before, ok a -> Dx a = sp -> Dy a = sp -> spans a before -> (forall p q, M a p q = false) ->
  calls fuel (conc a) (concat (map (zcalls u) zones)) = (s', Ok tt) ->
  exists a', s' = conc a' /\ ok a' /\ extends a a' /\ W a' = W a + INR (length zones) /\ spans a' (before ++ concat (concat zones)) /\
    (forall p q, M a' p q = false) /\
    forall p q, exists hits, length hits = length zones /\
      (forall i z, nth_error zones i = Some z -> taken u sp (before ++ concat (concat (firstn i zones))) z (loc a p q) (nth i hits false)) /\
      P a' p q = P a p q + INR (length (filter (fun h => h) hits)).
Proof.
  intros Hu. induction zones as [|z zones IH]; intros a s' before Ha Ex Ey Hb HM H.
  - cbn in H. injection H as <-. exists a. do 3 (split; [auto using extends_refl|]). cbn [length concat]. rewrite app_nil_r. split; [cbn; ring|]. do 2 (split; [assumption|]).
    intros p q. exists []. split; [reflexivity|]. split; [intros [|i] z E; discriminate E|cbn; ring].
  - cbn [map concat] in H. unfold zcalls at 1 in H. rewrite <- app_assoc, calls_app in H.
    destruct (calls fuel (conc a) (map (tcall u) z)) as [s1 [[]|e|]] eqn:Z; [|discriminate H..].
    destruct (tracks_spans fuel u sp Hu z a s1 before Ha Ex Ey Hb Z) as (a1 & -> & Ha1 & X1 & P1 & W1 & H1 & M1).
    cbn [app calls run_op] in H. rewrite register_fin in H. cbn [bind] in H.
    assert (Hr : ok (reg a1 1)) by (apply reg_ok, Ha1). assert (Xr : extends a (reg a1 1)) by (eapply extends_trans; [exact X1|apply extends_reg]).
    pose proof X1 as (_ & _ & Ex1 & Ey1 & _).
    destruct (IH (reg a1 1) s' (before ++ concat z) Hr) as (a' & -> & Ha' & X' & W' & H' & M' & N'); [cbn; congruence|cbn; congruence|exact H1|reflexivity|exact H|].
    exists a'. split; [reflexivity|]. split; [exact Ha'|]. split; [eapply extends_trans; eassumption|].
    split; [rewrite W'; cbn [W reg]; rewrite W1; cbn [length]; rewrite S_INR; ring|].
    split; [cbn [concat]; rewrite concat_app, app_assoc; exact H'|]. split; [exact M'|].
    intros p q. destruct (N' p q) as (hits & L & Hh & E). rewrite (loc_extends a _ p q Xr) in Hh.
    exists (M a1 p q :: hits). split; [cbn; congruence|]. split.
    + intros [|i] z' Ez; cbn [nth_error nth firstn] in *.
      * injection Ez as <-. cbn [concat]. rewrite app_nil_r. unfold taken. rewrite (M1 p q), HM. split; [intros [C|C]; [discriminate C|exact C]|auto].
      * specialize (Hh i z' Ez). cbn [concat]. rewrite concat_app, app_assoc. exact Hh.
    + rewrite E. cbn [P reg filter]. rewrite P1. destruct (M a1 p q); [cbn [length]; rewrite S_INR|]; ring.
Qed.

(** C112.  The field of the drivers' calls: zones traced in any way and rasterized one after the other, each registered with weight 1. *)
Lemma c112_zones : forall fuel x0 y0 sp u s0 s zones,
  0 < sp -> 0 <= u ->
  pf_init (Fin sp) (Fin sp) (Fin x0) (Fin y0) = Ok s0 ->
  calls fuel s0 (concat (map (zone_calls (Fin u)) (map (map (map fvec)) zones))) = (s, Ok tt) ->
  exactly_recorded s x0 y0 sp u zones.
Proof.
  intros fuel x0 y0 sp u s0 s zones Hs Hu I H. rewrite map_map in H. rewrite (map_ext _ _ (zone_calls_fvec u)) in H.
  rewrite (pf_init_fin sp sp x0 y0 Hs Hs) in I. injection I as <-. set (a := blank _ _ _ _ _ _) in *.
  assert (Ha : ok a) by (apply blank_ok; auto; lia).
  assert (S0 : spans a [(x0, y0)]).
  { unfold spans, low, high, lat. cbn. repeat split; try (intros p [<-|[]]; cbn; lra); exists (x0, y0); cbn; split; auto; lra. }
  destruct (zones_spans fuel u sp Hu zones a s [(x0, y0)] Ha eq_refl eq_refl S0) as (a' & -> & Ha' & X & EW & Hh & HM & HN); [reflexivity|exact H|].
  cbn [app] in *. assert (L : forall p q, loc a p q = (x0 + IZR (q - 1) * sp, y0 + IZR (p - 1) * sp)).
  { intros p q. unfold loc, lat. cbn. rewrite !minus_IZR. f_equal; ring. }
  pose proof X as (_ & _ & Ex & Ey & _).
  split; [|split].
  - apply conc_total. rewrite EW. cbn. ring.
  - intros x y. split.
    + intros (v & b & N). apply conc_node in N; [|exact Ha']. destruct N as (p & q & In & -> & -> & _).
      apply (spans_iff a' sp _ p q Ha' Ex Ey Hh) in In.
      change (lat (X0 a') (Dx a') q, lat (Y0 a') (Dy a') p) with (loc a' p q). split; [|exact In].
      exists (q - 1)%Z, (p - 1)%Z. pose proof (loc_extends a a' p q X) as E. rewrite L in E. unfold loc in E. injection E as -> ->. auto.
    + intros [(i & j & -> & ->) C]. replace i with (i + 1 - 1)%Z in * by lia. replace j with (j + 1 - 1)%Z in * by lia.
      pose proof (L (j + 1) (i + 1))%Z as E. rewrite <- (loc_extends a a' _ _ X) in E. rewrite <- E in C.
      apply (spans_iff a' sp _ _ _ Ha' Ex Ey Hh) in C. apply (conc_inwin a' _ _ Ha') in C. rewrite E in C. exact C.
  - intros x y v b N. apply conc_node in N; [|exact Ha']. destruct N as (p & q & _ & -> & -> & -> & ->). split; [apply HM|].
    change (lat (X0 a') (Dx a') q, lat (Y0 a') (Dy a') p) with (loc a' p q). rewrite (loc_extends a a' p q X).
    destruct (HN p q) as (hits & L1 & L2 & L3). exists hits. split; [exact L1|]. split; [exact L2|]. rewrite L3. cbn. ring.
Qed.

(** ** From the runs to the zones *)
Lemma fvec_inj p q : fvec p = fvec q -> p = q.
Proof. destruct p, q. unfold fvec. cbn. intros H. injection H as -> ->. reflexivity. Qed.
Lemma map_inj {A B} (f : A -> B) : (forall a b, f a = f b -> a = b) -> forall l l', map f l = map f l' -> l = l'.
Proof.
  intros Hf. induction l as [|a l IH]; intros [|b l'] H; try discriminate H; [reflexivity|]. cbn in H.
  assert (H1 : f a = f b) by congruence. assert (H2 : map f l = map f l') by congruence. rewrite (Hf _ _ H1), (IH _ H2). reflexivity.
Qed.
Lemma tracks_inj (z z' : list (list pt)) : map (map fvec) z = map (map fvec) z' -> z = z'.
Proof. apply map_inj. apply map_inj. exact fvec_inj. Qed.

Lemma finite_zones (zones : list (list (list (vec xr)))) : (forall j z, nth_error zones j = Some z -> exists pts, z = map (map fvec) pts) ->
  exists pts, zones = map (map (map fvec)) pts.
Proof.
  induction zones as [|z zones IH]; intros H; [exists []; reflexivity|].
  destruct (H 0%nat z eq_refl) as (p & ->). destruct IH as (pts & ->); [intros j z Ez; exact (H (S j) z Ez)|]. exists (p :: pts). reflexivity.
Qed.

Lemma run_zones : forall (G E : Type) (Rg : rng xr G) (mvn : E -> list xr -> list (list xr) -> list xr)
    (fuel : nat) (la : linalg xr) (entropy : nat -> E) (g : G) (a : args xr) (c : call) (kept : list (obs xr)) w x y sp u s logs,
  set_out c w x y sp u ->
  call_stochastic Rg mvn fuel la entropy g a c kept = Ok (s, logs) ->
  let n := Z.to_nat (k_n c) in
  exists values models zones g', length logs = n /\ length values = n /\ length models = n /\ length zones = n /\
    drawn Rg g (concat (repeat (map sq (k_wells c) ++ [c_dist a; p_dist a; t_dist a]) n)) (concat values) g' /\
    (forall j l vs m z, nth_error logs j = Some l -> nth_error values j = Some vs -> nth_error models j = Some m -> nth_error zones j = Some z ->
       (exists qs k n h, vs = qs ++ [k; n; h] /\ length qs = length (k_wells c) /\ made la (k_base c) (sx w) (sy w) (k_wells c) kept (mvn (entropy j)) qs k n h m) /\
       logs_model l m /\
       traced fuel (sx w) (sy w) (sr w) (k_duration c) (k_tol c) (k_maxstep c) (k_npaths c) (k_confined c) m (map (map fvec) z) /\
       tracks_of fuel c w (feval (k_confined c) m) z) /\
    exactly_recorded s x y sp u zones.
Proof.
  intros G E Rg mvn fuel la entropy g a c kept w x y sp u s logs (Hw & Ex & Ey & (r & Er) & Esp & Hsp & Eu & Hu & Hnp) Run.
  unfold call_stochastic in Run.
  destruct (c96_stochastic _ _ _ _ _ _ _ _ _ _ _ _ _ _ _ _ _ _ _ _ _ _ _ _ _ _ _ Run) as (w' & s0 & values & models & zones & g' & Hw' & I & L1 & L2 & L3 & L4 & D & F & C).
  cbv zeta in *. rewrite Hw in Hw'. injection Hw' as <-. rewrite Ex, Ey, Esp in I. rewrite Eu in C.
  assert (K : forall j z, nth_error zones j = Some z -> exists l vs m, nth_error logs j = Some l /\ nth_error values j = Some vs /\ nth_error models j = Some m).
  { intros j z Ez. assert (Hj : (j < length zones)%nat) by (apply nth_error_Some; congruence).
    destruct (nth_error logs j) as [l|] eqn:E1; [|apply nth_error_None in E1; lia]. destruct (nth_error values j) as [vs|] eqn:E2; [|apply nth_error_None in E2; lia].
    destruct (nth_error models j) as [m|] eqn:E3; [|apply nth_error_None in E3; lia]. eauto 10. }
  destruct (finite_zones zones) as (pts & ->).
  { intros j z Ez. destruct (K j z Ez) as (l & vs & m & E1 & E2 & E3). destruct (F j l vs m z E1 E2 E3 Ez) as (_ & _ & _ & T & _).
    rewrite Ex, Ey, Er in T. destruct (traced_points fuel c w x y r _ m z Ex Ey Er Hnp T) as (p & -> & _). eauto. }
  rewrite map_length in L4. exists values, models, pts, g'. do 5 (split; [assumption|]). split; [|apply (c112_zones fuel x y sp u s0 s pts Hsp (Rlt_le _ _ Hu) I C)].
  intros j l vs m z E1 E2 E3 Ez. destruct (F j l vs m (map (map fvec) z) E1 E2 E3) as (T1 & T2 & _ & T3 & _); [rewrite nth_error_map, Ez; reflexivity|].
  split; [exact T1|]. split; [exact T2|]. split; [exact T3|]. rewrite Ex, Ey, Er in T3.
  destruct (traced_points fuel c w x y r _ m _ Ex Ey Er Hnp T3) as (p & Ep & T). apply tracks_inj in Ep. subst p. exact T.
Qed.

(** C112.  A stochastic run: the field records exactly the capture zones traced in the models that the log describes. *)
Lemma c112_stochastic : forall (G E : Type) (Rg : rng xr G) (mvn : E -> list xr -> list (list xr) -> list xr)
    (fuel : nat) (la : linalg xr) (entropy : nat -> E) (g : G) (a : args xr) (c : call) (kept : list (obs xr)) w x y sp u s logs,
  set_out c w x y sp u ->
  call_stochastic Rg mvn fuel la entropy g a c kept = Ok (s, logs) ->
  exists zones, length zones = Z.to_nat (k_n c) /\ length logs = Z.to_nat (k_n c) /\
    (forall j l z, nth_error logs j = Some l -> nth_error zones j = Some z ->
       exists m, logs_model l m /\ tracks_of fuel c w (feval (k_confined c) m) z) /\
    exactly_recorded s x y sp u zones.
Proof.
  intros G E Rg mvn fuel la entropy g a c kept w x y sp u s logs Hs Run.
  destruct (run_zones _ _ _ _ _ _ _ _ _ _ _ _ _ _ _ _ _ _ Hs Run) as (values & models & zones & g' & L1 & L2 & L3 & L4 & _ & F & X).
  exists zones. do 2 (split; [assumption|]). split; [|exact X]. intros j l z E1 Ez.
  assert (Hj : (j < length zones)%nat) by (apply nth_error_Some; intros Q0; pose proof (eq_trans (eq_sym Ez) Q0) as Q1; discriminate Q1).
  destruct (nth_error values j) as [vs|] eqn:E2; [|apply nth_error_None in E2; lia]. destruct (nth_error models j) as [m|] eqn:E3; [|apply nth_error_None in E3; lia].
  destruct (F j l vs m z E1 E2 E3 Ez) as (_ & T1 & _ & T2). eauto.
Qed.

(** C112.  A deterministic run. *)
Lemma c112_deterministic : forall (fuel : nat) (la : linalg xr) (a : args xr) (c : call) (kept : list (obs xr)) w x y sp u s l,
  set_out c w x y sp u ->
  call_deterministic fuel la a c kept = Ok (s, l) ->
  exists zone m, logs_model l m /\ tracks_of fuel c w (feval (k_confined c) m) zone /\ exactly_recorded s x y sp u [zone].
Proof.
  intros fuel la a c kept w x y sp u s l (Hw & Ex & Ey & (r & Er) & Esp & Hsp & Eu & Hu & Hnp) Run. unfold call_deterministic in Run.
  destruct (c59_history _ _ _ _ _ _ _ _ _ _ _ _ _ _ _ _ _ _ _ _ Run) as (w' & s0 & tracks & m & k & n & h & Hw' & I & _ & _ & _ & _ & _ & _ & LM & _ & _ & _ & _ & _ & T & _ & C).
  rewrite Hw in Hw'. injection Hw' as <-. rewrite Ex, Ey, Esp in I. rewrite Eu in C. rewrite Ex, Ey, Er in T.
  destruct (traced_points fuel c w x y r _ m _ Ex Ey Er Hnp T) as (pts & -> & TP). exists pts, m. split; [exact LM|]. split; [exact TP|].
  apply (c112_zones fuel x y sp u s0 s [pts] Hsp (Rlt_le _ _ Hu) I). cbn [map concat]. rewrite app_nil_r. exact C.
Qed.

(** C112.  The nodes around the well: the nine points of the lattice within one spacing of the target are nodes from the start, and the weight of
    each is the number of zones with a track passing closer than the umbra, with no condition on the window. *)
Lemma c112_centre : forall s x0 y0 sp u zones i j v b,
  0 < sp -> exactly_recorded s x0 y0 sp u zones -> (-1 <= i <= 1)%Z -> (-1 <= j <= 1)%Z ->
  let p := (x0 + IZR i * sp, y0 + IZR j * sp) in
  is_node s (fst p) (snd p) /\
  (has_node s (fst p) (snd p) v b ->
     exists hits, Forall2 (fun z h => h = true <-> exists tr, In tr z /\ near_track u tr p) zones hits /\
       v = INR (length (filter (fun h => h) hits))).
Proof.
  intros s x0 y0 sp u zones i j v b Hsp (_ & X1 & X2) Hi Hj p.
  assert (Cv : forall l, covered sp ((x0, y0) :: l) p).
  { intros l. exists (x0, y0), (x0, y0), (x0, y0), (x0, y0). cbn. do 4 (split; [auto|]).
    assert (B : forall k, (-1 <= k <= 1)%Z -> - sp <= IZR k * sp <= sp).
    { intros k [K1 K2]. apply IZR_le in K1, K2. split; [replace (- sp) with (-1 * sp) by ring|replace sp with (1 * sp) at 2 by ring]; apply Rmult_le_compat_r; lra. }
    pose proof (B i Hi). pose proof (B j Hj). lra. }
  split; [apply X1; split; [exists i, j; auto|exact (Cv _)]|].
  intros N. destruct (X2 _ _ _ _ N) as (_ & hits & L & Hh & ->). exists hits. split; [|reflexivity].
  rewrite <- surjective_pairing in Hh. clear - L Hh Cv.
  assert (K : forall k z, nth_error zones k = Some z -> nth k hits false = true <-> exists tr, In tr z /\ near_track u tr p).
  { intros k z Ez. specialize (Hh k z Ez). unfold taken in Hh. rewrite Hh. split.
    - intros (pre & tr & post & -> & Nr & _). exists tr. rewrite in_app_iff. cbn. auto.
    - intros (tr & It & Nr). apply in_split in It. destruct It as (pre & post & ->). exists pre, tr, post. split; [reflexivity|]. split; [exact Nr|]. apply Cv. }
  clear Hh. revert hits L K. induction zones as [|z zones IH]; intros [|h hits] L K; try discriminate L; constructor.
  - exact (K 0%nat z eq_refl).
  - apply IH; [cbn in L; lia|]. intros k z' Ez. exact (K (S k) z' Ez).
Qed.
