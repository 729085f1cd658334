(** * distancesquared: distance from a point to a segment *)
From Coq Require Import Reals Lra Lia Psatz.
From Verif Require Import Py Num NumXR Grid ModelField SpecField.
Local Open Scope R_scope.

Definition perp (a b c : point) : R :=
  (fst b - fst a) * (snd c - snd a) - (snd b - snd a) * (fst c - fst a).
Definition dotp (a b c : point) : R :=
  (fst b - fst a) * (fst c - fst a) + (snd b - snd a) * (snd c - snd a).
Definition len2 (a b : point) : R :=
  (fst b - fst a) * (fst b - fst a) + (snd b - snd a) * (snd b - snd a).

Definition dsq (a b c : point) : R :=
  let al := perp a b c * perp a b c / len2 a b in
  let be := dotp a b c * dotp a b c / len2 a b in
  if Rltb (dotp a b c) 0 then al + be
  else if Rltb (len2 a b) be then al + be - 2 * dotp a b c + len2 a b
  else al.

Lemma len2_pos a b : a <> b -> 0 < len2 a b.
Proof.
  intros H. unfold len2. destruct a as [ax ay], b as [bx by_]; cbn.
  pose proof (Rle_0_sqr (bx - ax)) as H1. pose proof (Rle_0_sqr (by_ - ay)) as H2.
  unfold Rsqr in *.
  destruct (Req_dec bx ax) as [->|Hx].
  - destruct (Req_dec by_ ay) as [->|Hy]; [congruence|].
    assert (0 < (by_ - ay) * (by_ - ay)) by (apply Rlt_0_sqr; lra). lra.
  - assert (0 < (bx - ax) * (bx - ax)) by (apply Rlt_0_sqr; lra). lra.
Qed.

Lemma len2_zero a : len2 a a = 0.
Proof. unfold len2. ring. Qed.

Lemma distancesquared_fin ax ay bx by_ cx cy :
  (ax, ay) <> (bx, by_) ->
  distancesquared (Fin ax) (Fin ay) (Fin bx) (Fin by_) (Fin cx) (Fin cy)
  = Fin (dsq (ax, ay) (bx, by_) (cx, cy)).
Proof.
  intros H. pose proof (len2_pos _ _ H) as HL. unfold len2 in HL. cbn in HL.
  unfold distancesquared, dsq, perp, dotp, len2. cbn.
  rewrite (proj2 (Reqb_false _ 0)) by lra.
  cbn. change (IZR 0) with 0. rb; cbn; reflexivity.
Qed.

(** Zero-length segment: 0/0. *)
Lemma distancesquared_degenerate ax ay cx cy :
  distancesquared (Fin ax) (Fin ay) (Fin ax) (Fin ay) (Fin cx) (Fin cy) = NaN.
Proof.
  unfold distancesquared. cbn.
  replace (_ * (cy - ay) - _) with 0 by ring.
  replace ((ax - ax) * (cx - ax) + _) with 0 by ring.
  replace ((ax - ax) * (ax - ax) + _) with 0 by ring.
  rewrite (proj2 (Reqb_true 0 0)) by reflexivity.
  unfold inf_of_sign. replace (0 * 0) with 0 by ring.
  rewrite !(proj2 (Rltb_false 0 0)) by lra. reflexivity.
Qed.

Lemma dist2_decomp a b c t :
  a <> b ->
  dist2 ((1 - t) * fst a + t * fst b, (1 - t) * snd a + t * snd b) c =
  perp a b c * perp a b c / len2 a b + (dotp a b c - t * len2 a b) * (dotp a b c - t * len2 a b) / len2 a b.
Proof.
  intros H. pose proof (len2_pos _ _ H). unfold dist2, perp, dotp. unfold len2 in *. cbn [fst snd].
  field. lra.
Qed.

Lemma dsq_lower a b c p : a <> b -> on_segment a b p -> dsq a b c <= dist2 p c.
Proof.
  intros H (t & Ht & ->). pose proof (len2_pos _ _ H) as HL.
  rewrite dist2_decomp by assumption. unfold dsq.
  set (L := len2 a b) in *. set (d := dotp a b c). set (q := perp a b c * perp a b c / L).
  assert (Hi : 0 < / L) by (apply Rinv_0_lt_compat; lra).
  assert (Hd : d * d / L * L = d * d) by (field; lra).
  assert (HtL : 0 <= t * L) by (apply Rmult_le_pos; lra).
  assert (HtL' : t * L <= L) by nra.
  set (tL := t * L) in *.
  destruct (Rltb_spec d 0).
  - apply Rplus_le_compat_l. unfold Rdiv. apply Rmult_le_compat_r; [lra|]. nra.
  - destruct (Rltb_spec L (d * d / L)).
    + assert (L * L < d * d) by nra.
      assert (L < d) by nra.
      replace (q + d * d / L - 2 * d + L) with (q + (d - L) * (d - L) / L) by (field; lra).
      apply Rplus_le_compat_l. unfold Rdiv. apply Rmult_le_compat_r; [lra|]. nra.
    + assert (0 <= (d - tL) * (d - tL) / L).
      { unfold Rdiv. apply Rmult_le_pos; [|lra]. exact (Rle_0_sqr _). }
      lra.
Qed.

Lemma dsq_attained a b c : a <> b -> exists p, on_segment a b p /\ dist2 p c = dsq a b c.
Proof.
  intros H. pose proof (len2_pos _ _ H) as HL.
  assert (K : forall t, 0 <= t <= 1 ->
     perp a b c * perp a b c / len2 a b + (dotp a b c - t * len2 a b) * (dotp a b c - t * len2 a b) / len2 a b = dsq a b c ->
     exists p, on_segment a b p /\ dist2 p c = dsq a b c).
  { intros t Ht E. eexists. split; [exists t; split; [exact Ht|reflexivity]|].
    rewrite dist2_decomp by assumption. exact E. }
  unfold dsq in K |- *.
  set (L := len2 a b) in *. set (d := dotp a b c) in *. set (q := perp a b c * perp a b c / L) in *.
  assert (Hd : d * d / L * L = d * d) by (field; lra).
  destruct (Rltb_spec d 0).
  - apply (K 0); [lra|]. field. lra.
  - destruct (Rltb_spec L (d * d / L)).
    + apply (K 1); [lra|]. field. lra.
    + assert (d * d <= L * L) by nra. assert (d <= L) by nra.
      apply (K (d / L)).
      * split.
        { unfold Rdiv. apply Rmult_le_pos; [lra|]. left. apply Rinv_0_lt_compat; lra. }
        { apply Rmult_le_reg_r with L; [lra|]. unfold Rdiv. rewrite Rmult_assoc, Rinv_l; lra. }
      * field. lra.
Qed.

Lemma near_dsq u a b c : a <> b -> (near u a b c <-> dsq a b c < u * u).
Proof.
  intros H. split.
  - intros (p & Hp & Hd). pose proof (dsq_lower _ _ c _ H Hp). lra.
  - intros Hd. destruct (dsq_attained _ _ c H) as (p & Hp & E). exists p. split; [exact Hp|lra].
Qed.

Lemma dist2_nonneg p q : 0 <= dist2 p q.
Proof.
  unfold dist2. pose proof (Rle_0_sqr (fst p - fst q)). pose proof (Rle_0_sqr (snd p - snd q)).
  unfold Rsqr in *. lra.
Qed.

Lemma dist2_sym p q : dist2 p q = dist2 q p.
Proof. unfold dist2. ring. Qed.

Lemma on_segment_sym a b p : on_segment a b p -> on_segment b a p.
Proof.
  intros (t & Ht & ->). exists (1 - t). split; [lra|]. f_equal; ring.
Qed.

(** A near point lies in the bounding box enlarged by [u]. *)
Lemma near_box u a b c :
  0 <= u -> near u a b c ->
  Rmin (fst a) (fst b) - u < fst c < Rmax (fst a) (fst b) + u /\
  Rmin (snd a) (snd b) - u < snd c < Rmax (snd a) (snd b) + u.
Proof.
  intros Hu (p & (t & Ht & ->) & Hd). unfold dist2 in Hd. cbn [fst snd] in Hd.
  destruct a as [ax ay], b as [bx by_], c as [cx cy]. cbn [fst snd] in *.
  set (px := (1 - t) * ax + t * bx) in *. set (py := (1 - t) * ay + t * by_) in *.
  pose proof (Rle_0_sqr (px - cx)) as S1. pose proof (Rle_0_sqr (py - cy)) as S2. unfold Rsqr in *.
  assert (- u < px - cx < u) by (split; nra).
  assert (- u < py - cy < u) by (split; nra).
  assert (Rmin ax bx <= px <= Rmax ax bx).
  { unfold Rmin, Rmax. destruct (Rle_dec ax bx); unfold px; split; nra. }
  assert (Rmin ay by_ <= py <= Rmax ay by_).
  { unfold Rmin, Rmax. destruct (Rle_dec ay by_); unfold py; split; nra. }
  lra.
Qed.
