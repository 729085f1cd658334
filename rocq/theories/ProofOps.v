(** * Whole operations and histories *)
From Coq Require Import Reals Lra Lia Psatz.
From Verif Require Import Py Num NumXR Grid ModelField SpecField ProofGeom ProofField ProofInsert.
Local Open Scope R_scope.

(** ** Initial states *)
Definition blank (x0 y0 dx dy : R) (nc nr : Z) : abs :=
  {| X0 := x0; Y0 := y0; Dx := dx; Dy := dy; C0 := 0; R0 := 0; NC := nc; NR := nr;
     P := fun _ _ => 0; M := fun _ _ => false; W := 0 |}.

Lemma blank_ok x0 y0 dx dy nc nr :
  0 < dx -> 0 < dy -> (3 <= nc)%Z -> (3 <= nr)%Z -> ok (blank x0 y0 dx dy nc nr).
Proof. intros. repeat split; auto. Qed.

Lemma pf_init_fin dx dy xo yo :
  0 < dx -> 0 < dy ->
  pf_init (Fin dx) (Fin dy) (Fin xo) (Fin yo) = Ok (conc (blank (xo - dx) (yo - dy) dx dy 3 3)).
Proof.
  intros Hdx Hdy. unfold pf_init. rewrite !const2_tab. cbn -[tab]. change (IZR 0) with 0.
  rewrite !(proj2 (Rleb_false _ 0)) by lra. cbn -[tab].
  unfold conc, blank, lat. cbn -[tab]. do 3 f_equal. f_equal; f_equal; ring.
Qed.

Definition unborn (dx dy : R) : pfield xr := {| deltax := Fin dx; deltay := Fin dy; body := None |}.

Lemma ceil_fin r : exists k, nceil (Fin r) = Ok k /\ r <= IZR k < r + 1.
Proof.
  unfold nceil. cbn. eexists. split; [reflexivity|].
  pose proof (base_Int_part (- r)). rewrite opp_IZR. lra.
Qed.

(** expand on a field without grids. *)
Lemma expand_first_fin dx dy xmn xmx ymn ymx :
  0 < dx -> 0 < dy ->
  exists nc nr g,
    expand_first (Fin dx) (Fin dy) (Fin xmn) (Fin xmx) (Fin ymn) (Fin ymx) = Ok g /\
    (3 <= nc)%Z /\ (3 <= nr)%Z /\
    with_body (unborn dx dy) g = conc (blank (xmn - dx) (ymn - dy) dx dy nc nr) /\
    xmx + dx <= lat (xmn - dx) dx (nc - 1) /\ ymx + dy <= lat (ymn - dy) dy (nr - 1).
Proof.
  intros Hdx Hdy. unfold expand_first.
  cbn [nsub XR xsub ndiv]. rewrite !div_fin by lra.
  destruct (ceil_fin ((xmx - (xmn - dx)) / dx)) as (kx & -> & Hkx).
  destruct (ceil_fin ((ymx - (ymn - dy)) / dy)) as (ky & -> & Hky).
  cbn [bind]. rewrite !const2_tab. exists (Z.max 3 (kx + 2)), (Z.max 3 (ky + 2)). eexists. split; [reflexivity|].
  split; [lia|]. split; [lia|]. split.
  - unfold with_body, unborn, conc, blank, lat. cbn -[tab].
    do 2 f_equal. f_equal; f_equal; ring.
  - assert (K : forall d lo hi k m, 0 < d -> (hi - (lo - d)) / d <= IZR k -> (k + 2 <= m)%Z ->
                hi + d <= lat (lo - d) d (m - 1)).
    { intros d lo hi k m Hd Hk Hm.
      assert (hi - (lo - d) <= IZR k * d).
      { apply Rmult_le_reg_r with (/ d); [apply Rinv_0_lt_compat; lra|].
        rewrite Rmult_assoc, Rinv_r by lra. unfold Rdiv in Hk. lra. }
      unfold lat. assert (IZR k + 1 <= IZR (m - 1)) by (rewrite <- plus_IZR; apply IZR_le; lia). nra. }
    split; [apply (K _ _ _ kx) | apply (K _ _ _ ky)]; try lra; lia.
Qed.

(** If the first expansion succeeds, the box was finite. *)
Lemma expand_first_ok dx dy xmn xmx ymn ymx g :
  0 < dx -> 0 < dy ->
  nlt xmx xmn = false -> nlt ymx ymn = false ->
  expand_first (Fin dx) (Fin dy) xmn xmx ymn ymx = Ok g ->
  exists a b c d, xmn = Fin a /\ xmx = Fin b /\ ymn = Fin c /\ ymx = Fin d.
Proof.
  intros Hdx Hdy Hx Hy H. unfold expand_first in H.
  assert (K : forall lo hi d, 0 < d -> nlt hi lo = false ->
              (exists k, nceil (ndiv (nsub hi (nsub lo (Fin d))) (Fin d)) = Ok k) ->
              exists a b, lo = Fin a /\ hi = Fin b).
  { intros lo hi d Hd Hl (k & Hk). destruct lo, hi; eauto; exfalso; revert Hk Hl; cbn;
      try rewrite (proj2 (Rltb_false d 0)) by lra; cbn; congruence. }
  destruct (nceil (ndiv (nsub xmx _) _)) as [kx| |] eqn:E1; try discriminate.
  destruct (nceil (ndiv (nsub ymx _) _)) as [ky| |] eqn:E2; try discriminate.
  destruct (K xmn xmx dx Hdx Hx) as (a & b & -> & ->); eauto.
  destruct (K ymn ymx dy Hdy Hy) as (c & d & -> & ->); eauto.
  exists a, b, c, d. auto.
Qed.

(** ** expand *)
Lemma expand_general fuel a xmn xmx ymn ymx :
  ok a ->
  (exists r, r <> Ok tt /\ expand fuel (conc a) xmn xmx ymn ymx = (conc a, r)) \/
  (exists l r b t, grown a xmn xmx ymn ymx l r b t /\
     expand fuel (conc a) xmn xmx ymn ymx = (conc (grow_win a l r b t), Ok tt)).
Proof.
  intros Hok. unfold expand.
  destruct (nlt xmx xmn); [left; eexists; split; [|reflexivity]; discriminate|].
  destruct (nlt ymx ymn); [left; eexists; split; [|reflexivity]; discriminate|].
  cbn [body conc]. change (deltax (conc a)) with (Fin (Dx a)). change (deltay (conc a)) with (Fin (Dy a)).
  destruct (expand_more _ _ _ _ _ _ _ _) as [g'|e|] eqn:E; cbn [update].
  - right. destruct (expand_more_spec fuel a xmn xmx ymn ymx g' Hok) as (l & r & b & t & Hg & Eq).
    { intros g Eg. injection Eg as <-. exact E. }
    exists l, r, b, t. split; [exact Hg|]. rewrite <- Eq. reflexivity.
  - left. eexists; split; [|reflexivity]; discriminate.
  - left. eexists; split; [|reflexivity]; discriminate.
Qed.

(** Same lattice and contents, bigger window. *)
Definition extends (a a' : abs) : Prop :=
  X0 a' = X0 a /\ Y0 a' = Y0 a /\ Dx a' = Dx a /\ Dy a' = Dy a /\
  (C0 a' <= C0 a)%Z /\ (C0 a + NC a <= C0 a' + NC a')%Z /\
  (R0 a' <= R0 a)%Z /\ (R0 a + NR a <= R0 a' + NR a')%Z.

Lemma extends_refl a : extends a a.
Proof. unfold extends. repeat split; lia. Qed.
Lemma extends_trans a b c : extends a b -> extends b c -> extends a c.
Proof.
  unfold extends. intros (?&?&?&?&?&?&?&?) (?&?&?&?&?&?&?&?). repeat split; try congruence; lia.
Qed.
Lemma extends_inwin a b p q : extends a b -> inwin a p q -> inwin b p q.
Proof. unfold extends, inwin. lia. Qed.
Lemma extends_grow a l r b t :
  (0 <= l)%Z -> (0 <= r)%Z -> (0 <= b)%Z -> (0 <= t)%Z -> extends a (grow_win a l r b t).
Proof. intros. unfold extends, grow_win. cbn. repeat split; lia. Qed.
Lemma extends_set_M a m : extends a (set_M a m).
Proof. unfold extends. cbn. repeat split; lia. Qed.
Lemma extends_reg a w : extends a (reg a w).
Proof. unfold extends. cbn. repeat split; lia. Qed.

Lemma grown_fin a xmn xmx ymn ymx l r b t :
  ok a -> grown a (Fin xmn) (Fin xmx) (Fin ymn) (Fin ymx) l r b t ->
  lat (X0 a) (Dx a) (C0 a - l) < xmn /\
  xmx < lat (X0 a) (Dx a) (C0 a + NC a - 1 + r) /\
  lat (Y0 a) (Dy a) (R0 a - b) < ymn /\
  ymx < lat (Y0 a) (Dy a) (R0 a + NR a - 1 + t).
Proof.
  intros _ (_ & _ & _ & _ & H1 & H2 & H3 & H4 & _). cbn in *.
  apply Rleb_false in H1, H2, H3, H4. auto.
Qed.

(** Termination of the growth loops in exact arithmetic. *)
Lemma archimed_nat r : exists n : nat, r < INR n.
Proof.
  exists (Z.to_nat (up r)). destruct (archimed r) as [H _].
  rewrite INR_IZR_INZ. apply Rlt_le_trans with (IZR (up r)); [lra|]. apply IZR_le. lia.
Qed.

Lemma expand_fuel a xmn xmx ymn ymx :
  ok a -> exists n, forall fuel, (n <= fuel)%nat ->
    snd (expand fuel (conc a) (Fin xmn) (Fin xmx) (Fin ymn) (Fin ymx)) <> NoFuel.
Proof.
  intros (Hdx & Hdy & _).
  assert (K : forall o d k x, 0 < d -> exists n : nat, lat o d (k - Z.of_nat n) < x).
  { intros o d k x Hd. destruct (archimed_nat ((lat o d k - x) / d)) as (n & Hn). exists n.
    unfold lat in *. rewrite minus_IZR, <- INR_IZR_INZ.
    apply Rmult_lt_compat_r with (r := d) in Hn; [|lra].
    unfold Rdiv in Hn. rewrite Rmult_assoc, Rinv_l in Hn by lra. lra. }
  assert (K2 : forall o d k x, 0 < d -> exists n : nat, x < lat o d (k + Z.of_nat n)).
  { intros o d k x Hd. destruct (archimed_nat ((x - lat o d k) / d)) as (n & Hn). exists n.
    unfold lat in *. rewrite plus_IZR, <- INR_IZR_INZ.
    apply Rmult_lt_compat_r with (r := d) in Hn; [|lra].
    unfold Rdiv in Hn. rewrite Rmult_assoc, Rinv_l in Hn by lra. lra. }
  destruct (K (X0 a) (Dx a) (C0 a) xmn Hdx) as (n1 & H1).
  destruct (K2 (X0 a) (Dx a) (C0 a + NC a - 1)%Z xmx Hdx) as (n2 & H2).
  destruct (K (Y0 a) (Dy a) (R0 a) ymn Hdy) as (n3 & H3).
  destruct (K2 (Y0 a) (Dy a) (R0 a + NR a - 1)%Z ymx Hdy) as (n4 & H4).
  exists (S (n1 + n2 + n3 + n4)). intros fuel Hf.
  unfold expand. destruct (nlt _ _); [discriminate|]. destruct (nlt _ _); [discriminate|].
  cbn [body conc]. change (deltax (conc a)) with (Fin (Dx a)). change (deltay (conc a)) with (Fin (Dy a)).
  unfold expand_more. cbn [xmin xmax ymin ymax ncols nrows pgrid rgrid total_weight].
  destruct (grow_down_total fuel _ _ _ _ 0%Z _ Hdx H1) as ([? ?] & ->); [lia|]. cbn [bind].
  destruct (grow_up_total fuel _ _ _ _ 0%Z _ Hdx H2) as ([? ?] & ->); [lia|]. cbn [bind].
  destruct (grow_down_total fuel _ _ _ _ 0%Z _ Hdy H3) as ([? ?] & ->); [lia|]. cbn [bind].
  destruct (grow_up_total fuel _ _ _ _ 0%Z _ Hdy H4) as ([? ?] & ->); [lia|]. cbn [bind].
  destruct (_ || _); discriminate.
Qed.

(** ** Tracks *)

Lemma pymin_list_fin (f : point -> R) tr :
  tr <> [] -> exists m, pymin_list (map (fun p => Fin (f p)) tr) = Ok (Fin m) /\
                        (forall p, In p tr -> m <= f p) /\ (exists p, In p tr /\ f p = m).
Proof.
  destruct tr as [|p tr]; [congruence|]. intros _. cbn [map pymin_list].
  assert (K : forall tr x, exists m,
     fold_left pymin (map (fun p => Fin (f p)) tr) (Fin x) = Fin m /\
     m <= x /\ (forall p, In p tr -> m <= f p) /\ (m = x \/ exists p, In p tr /\ f p = m)).
  { clear. induction tr as [|q tr IH]; intros x; cbn [map fold_left].
    - exists x. repeat split; auto; try lra. intros p [].
    - rewrite pymin_fin. destruct (IH (Rmin x (f q))) as (m & E & Hm & Hall & Hex). exists m.
      split; [exact E|]. pose proof (Rmin_l x (f q)). pose proof (Rmin_r x (f q)).
      split; [lra|]. split.
      + intros r [<-|Hr]; [lra|auto].
      + destruct Hex as [->|(r & Hr & Er)]; [|right; exists r; split; auto; now right].
        unfold Rmin. destruct (Rle_dec x (f q)); [auto|]. right. exists q. split; [now left|reflexivity]. }
  destruct (K tr (f p)) as (m & E & Hm & Hall & Hex). exists m. rewrite E. split; [reflexivity|]. split.
  - intros q [<-|Hq]; auto.
  - destruct Hex as [->|(q & Hq & Eq)]; [exists p|exists q]; split; auto; [now left|now right].
Qed.

Lemma pymax_list_fin (f : point -> R) tr :
  tr <> [] -> exists m, pymax_list (map (fun p => Fin (f p)) tr) = Ok (Fin m) /\
                        (forall p, In p tr -> f p <= m) /\ (exists p, In p tr /\ f p = m).
Proof.
  destruct tr as [|p tr]; [congruence|]. intros _. cbn [map pymax_list].
  assert (K : forall tr x, exists m,
     fold_left pymax (map (fun p => Fin (f p)) tr) (Fin x) = Fin m /\
     x <= m /\ (forall p, In p tr -> f p <= m) /\ (m = x \/ exists p, In p tr /\ f p = m)).
  { clear. induction tr as [|q tr IH]; intros x; cbn [map fold_left].
    - exists x. repeat split; auto; try lra. intros p [].
    - rewrite pymax_fin. destruct (IH (Rmax x (f q))) as (m & E & Hm & Hall & Hex). exists m.
      split; [exact E|]. pose proof (Rmax_l x (f q)). pose proof (Rmax_r x (f q)).
      split; [lra|]. split.
      + intros r [<-|Hr]; [lra|auto].
      + destruct Hex as [->|(r & Hr & Er)]; [|right; exists r; split; auto; now right].
        unfold Rmax. destruct (Rle_dec x (f q)); [|auto]. right. exists q. split; [now left|reflexivity]. }
  destruct (K tr (f p)) as (m & E & Hm & Hall & Hex). exists m. rewrite E. split; [reflexivity|]. split.
  - intros q [<-|Hq]; auto.
  - destruct Hex as [->|(q & Hq & Eq)]; [exists p|exists q]; split; auto; [now left|now right].
Qed.


Lemma consecutive_cons A (p q : A) tr a b :
  consecutive (p :: q :: tr) a b <-> (a = p /\ b = q) \/ consecutive (q :: tr) a b.
Proof.
  split.
  - intros ([|k] & H1 & H2).
    + cbn in H1, H2. injection H1 as <-. injection H2 as <-. auto.
    + right. exists k. auto.
  - intros [[-> ->]|(k & H1 & H2)].
    + exists O. auto.
    + exists (S k). auto.
Qed.

Lemma insert_segments_fin tr : forall a u,
  ok a -> 0 <= u ->
  exists m, insert_segments (conc a) (xs tr) (ys tr) (Fin u) = (conc (set_M a m), Ok tt) /\
    forall p q, m p q = true <->
      M a p q = true \/
      (inwin a p q /\ near_track u tr (lat (X0 a) (Dx a) q, lat (Y0 a) (Dy a) p)).
Proof.
  induction tr as [|p tr IH]; intros a u Hok Hu.
  - exists (M a). split; [destruct a; reflexivity|]. intros p q. split; auto.
    intros [H|[_ (x & y & (k & H & _) & _)]]; auto. destruct k; discriminate.
  - destruct tr as [|q tr].
    + exists (M a). split; [destruct a; reflexivity|]. intros i j. split; auto.
      intros [H|[_ (x & y & (k & H1 & H) & _)]]; auto. destruct k as [|[|]]; discriminate.
    + cbn [xs ys map insert_segments].
      destruct (insert_fin a (fst p) (snd p) (fst q) (snd q) u Hok Hu) as (m1 & -> & Hm1).
      assert (Hok1 : ok (set_M a m1)).
      { apply set_M_ok; auto. intros i j Hij. apply Hm1 in Hij.
        destruct Hij as [Hij|[Hij _]]; auto. now apply ok_M. }
      destruct (IH (set_M a m1) u Hok1 Hu) as (m & E & Hm).
      exists m. split; [exact E|]. intros i j. rewrite Hm. cbn [M X0 Y0 Dx Dy set_M].
      rewrite Hm1. unfold near_track.
      change (inwin (set_M a m1) i j) with (inwin a i j).
      rewrite <- !surjective_pairing. split.
      * intros [[H|(Hw & Hne & Hn)]|[Hw (x & y & Hc & Hxy)]]; auto; right; (split; [exact Hw|]).
        -- exists p, q. rewrite consecutive_cons. auto.
        -- exists x, y. rewrite consecutive_cons. auto.
      * intros [H|[Hw (x & y & Hc & Hne & Hn)]]; auto.
        apply consecutive_cons in Hc. destruct Hc as [[-> ->]|Hc]; auto.
        right. split; auto. exists x, y. auto.
Qed.

(** ** Every operation on an initialised field, whatever its arguments *)
Lemma insert_any a ax ay bx by_ u :
  ok a -> exists m, fst (insert (conc a) ax ay bx by_ u) = conc (set_M a m) /\
    ok (set_M a m) /\ (forall p q, M a p q = true -> m p q = true) /\
    snd (insert (conc a) ax ay bx by_ u) <> NoFuel.
Proof.
  intros Hok. destruct (insert_general a ax ay bx by_ u Hok) as [(e & ->)|(fl & fr & fb & ft & _ & _ & _ & _ & ->)].
  - exists (M a). split; [destruct a; reflexivity|]. split; [destruct a; exact Hok|].
    split; [auto|discriminate].
  - eexists. split; [reflexivity|]. split; [|split; [|discriminate]].
    + apply set_M_ok; auto. intros p q H. apply orb_true_iff in H. destruct H as [H|H]; [now apply ok_M|].
      rewrite !andb_true_iff in H. unfold inwin. lia.
    + intros p q H. rewrite H. reflexivity.
Qed.

Lemma set_M_set_M a m m' : set_M (set_M a m) m' = set_M a m'.
Proof. reflexivity. Qed.

Lemma insert_segments_any x : forall y a u,
  ok a -> exists m, fst (insert_segments (conc a) x y u) = conc (set_M a m) /\
    ok (set_M a m) /\ (forall p q, M a p q = true -> m p q = true) /\
    snd (insert_segments (conc a) x y u) <> NoFuel.
Proof.
  induction x as [|x0 x IH]; intros y a u Hok.
  - exists (M a). split; [destruct a; reflexivity|]. split; [destruct a; exact Hok|]. split; [auto|discriminate].
  - assert (Stay : forall r : res unit, r <> NoFuel -> exists m, fst (conc a, r) = conc (set_M a m) /\
       ok (set_M a m) /\ (forall p q, M a p q = true -> m p q = true) /\ snd (conc a, r) <> NoFuel).
    { intros r Hr. exists (M a). split; [destruct a; reflexivity|]. split; [destruct a; exact Hok|]. auto. }
    destruct x as [|x1 x]; [cbn; apply Stay; discriminate|].
    cbn [insert_segments]. destruct y as [|y0 [|y1 y]]; try (apply Stay; discriminate).
    destruct (insert_any a x0 y0 x1 y1 u Hok) as (m & E & Hok' & Hm & Hnf).
    destruct (insert (conc a) x0 y0 x1 y1 u) as [s' r]. cbn [fst snd] in *. subst s'.
    destruct r as [[]|e|]; [|cbn; eauto|congruence].
    destruct (IH (y1 :: y) _ u Hok') as (m' & E' & Hok'' & Hm' & Hnf').
    exists m'. split; [exact E'|]. split; [exact Hok''|]. split; [auto|exact Hnf'].
Qed.


Lemma rasterize_any fuel a x y u :
  ok a -> exists a', fst (rasterize fuel (conc a) x y u) = conc a' /\ ok a' /\ extends a a' /\
     P a' = P a /\ W a' = W a /\ (forall p q, M a p q = true -> M a' p q = true).
Proof.
  intros Hok. unfold rasterize.
  assert (Stay : forall r : res unit, exists a', fst (conc a, r) = conc a' /\ ok a' /\ extends a a' /\
     P a' = P a /\ W a' = W a /\ (forall p q, M a p q = true -> M a' p q = true)).
  { intros r. exists a. split; [reflexivity|]. split; [exact Hok|]. split; [apply extends_refl|]. auto. }
  destruct (pymin_list x) as [xa| |]; try apply Stay.
  destruct (pymax_list x) as [xb| |]; try apply Stay.
  destruct (pymin_list y) as [ya| |]; try apply Stay.
  destruct (pymax_list y) as [yb| |]; try apply Stay.
  destruct (expand_general fuel a xa xb ya yb Hok) as [(r & Hr & ->)|(l & r & b & t & Hg & ->)].
  - destruct r as [[]|e|]; [congruence| |]; apply Stay.
  - destruct Hg as (Hl & Hr & Hb & Ht & _).
    pose proof (grow_win_ok a l r b t Hok Hl Hr Hb Ht) as Hok'.
    destruct (insert_segments_any x y _ u Hok') as (m & E & Hok'' & Hm & _).
    eexists. split; [exact E|]. split; [exact Hok''|]. split.
    + apply extends_trans with (grow_win a l r b t); [apply extends_grow; assumption|apply extends_set_M].
    + repeat split; auto.
Qed.

(** The effect of one call on the abstract state. *)
Definition op_effect (o : op xr) (a a' : abs) : Prop :=
  match o with
  | ORegister w => exists r, w = Fin r /\ P a' = P (reg a r) /\ M a' = M (reg a r) /\ W a' = W a + r
  | OReset => P a' = P a /\ W a' = W a /\ M a' = (fun _ _ => false)
  | _ => P a' = P a /\ W a' = W a /\ (forall p q, M a p q = true -> M a' p q = true)
  end.

Lemma run_op_any fuel a o :
  ok a -> finite_weight o ->
  exists a', fst (run_op fuel (conc a) o) = conc a' /\ ok a' /\ extends a a' /\ op_effect o a a'.
Proof.
  intros Hok Hw. destruct o; cbn [run_op op_effect].
  - destruct (expand_general fuel a xmn xmx ymn ymx Hok) as [(r & _ & ->)|(l & r & b & t & Hg & ->)].
    + exists a. split; [reflexivity|]. split; [exact Hok|]. split; [apply extends_refl|]. auto.
    + destruct Hg as (Hl & Hr & Hb & Ht & _). eexists. split; [reflexivity|].
      split; [now apply grow_win_ok|]. split; [now apply extends_grow|]. cbn. auto.
  - destruct (insert_any a ax ay bx by_ umbra Hok) as (m & E & Hok' & Hm & _).
    eexists. split; [exact E|]. split; [exact Hok'|]. split; [apply extends_set_M|]. cbn. auto.
  - destruct (rasterize_any fuel a x y umbra Hok) as (a' & ? & ? & ? & ? & ? & ?).
    exists a'. tauto.
  - destruct Hw as (r & ->). rewrite register_fin. exists (reg a r). cbn [fst].
    split; [reflexivity|]. split; [now apply reg_ok|]. split; [apply extends_reg|].
    exists r. auto.
  - rewrite reset_conc. eexists. split; [reflexivity|]. split; [|split; [apply extends_set_M|cbn; auto]].
    apply set_M_ok; auto. discriminate.
Qed.

(** The same for a field without grids: it stays so or becomes a blank field (possibly
    with marks). *)
Lemma run_op_unborn fuel dx dy o :
  0 < dx -> 0 < dy ->
  fst (run_op fuel (unborn dx dy) o) = unborn dx dy \/
  exists a', fst (run_op fuel (unborn dx dy) o) = conc a' /\ ok a' /\ Dx a' = dx /\ Dy a' = dy /\
             W a' = 0 /\ (forall p q, P a' p q = 0).
Proof.
  intros Hdx Hdy.
  assert (K : forall xmn xmx ymn ymx,
    (exists r, r <> Ok tt /\ expand fuel (unborn dx dy) xmn xmx ymn ymx = (unborn dx dy, r)) \/
    exists a', expand fuel (unborn dx dy) xmn xmx ymn ymx = (conc a', Ok tt) /\ ok a' /\ Dx a' = dx /\ Dy a' = dy /\
             W a' = 0 /\ (forall p q, P a' p q = 0)).
  { intros. unfold expand.
    destruct (nlt xmx xmn) eqn:Ex; [left; eexists; split; [|reflexivity]; discriminate|].
    destruct (nlt ymx ymn) eqn:Ey; [left; eexists; split; [|reflexivity]; discriminate|].
    cbn [body unborn deltax deltay].
    destruct (expand_first (Fin dx) (Fin dy) xmn xmx ymn ymx) as [g|e|] eqn:E; cbn [update];
      [|left; eexists; split; [|reflexivity]; discriminate|left; eexists; split; [|reflexivity]; discriminate].
    destruct (expand_first_ok dx dy xmn xmx ymn ymx g Hdx Hdy Ex Ey E) as (a & b & c & d & -> & -> & -> & ->).
    destruct (expand_first_fin dx dy a b c d Hdx Hdy) as (nc & nr & g' & E' & H1 & H2 & H3 & _).
    rewrite E in E'. injection E' as <-. rewrite H3. right.
    eexists. split; [reflexivity|]. split; [now apply blank_ok|]. cbn. auto. }
  destruct o; cbn [run_op]; try (left; reflexivity).
  - destruct (K xmn xmx ymn ymx) as [(r & _ & ->)|(a' & -> & H)]; [left; reflexivity|right; exists a'; auto].
  - unfold rasterize.
    destruct (pymin_list x) as [xa| |]; try (left; reflexivity).
    destruct (pymax_list x) as [xb| |]; try (left; reflexivity).
    destruct (pymin_list y) as [ya| |]; try (left; reflexivity).
    destruct (pymax_list y) as [yb| |]; try (left; reflexivity).
    destruct (K xa xb ya yb) as [(r & Hr & ->)|(a' & -> & Hok & Hx & Hy & HW & HP)].
    + destruct r as [[]|e|]; [congruence| |]; left; reflexivity.
    + destruct (insert_segments_any x y a' umbra Hok) as (m & E & Hok' & Hm & _). right.
      eexists. split; [exact E|]. split; [exact Hok'|]. auto.
Qed.
