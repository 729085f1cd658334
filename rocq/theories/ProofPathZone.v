(** * Capture zones and pathlines (C106) *)
From Coq Require Import Reals Lra Lia Psatz List Bool Arith.
From Verif Require Import Py Num NumXR ModelTrace SpecTrace SpecPathline SpecField SpecPathZone ProofAquifer ProofTrace ProofTraceLoop ProofPathline ProofPathAffine ProofPathTube.
Import ListNotations.
Local Open Scope R_scope.

Definition between (a b : pt) (th : R) : pt := ((1 - th) * fst a + th * fst b, (1 - th) * snd a + th * snd b).
Lemma between_dist a b a' b' z th e : 0 <= th <= 1 -> pdist a a' <= e -> pdist b b' <= e ->
  pdist (between a b th) z <= e + ((1 - th) * pdist a' z + th * pdist b' z).
Proof.
  intros Ht Ha Hb.
  assert (E : psub z (between a b th) = padd (padd (pscale (1 - th) (psub a' a)) (pscale th (psub b' b))) (padd (pscale (1 - th) (psub z a')) (pscale th (psub z b')))).
  { unfold psub, padd, pscale, between. cbn [fst snd]. f_equal; ring. }
  rewrite !pdist_norm in *. rewrite E. eapply Rle_trans; [apply pnorm_add|]. apply Rplus_le_compat.
  - eapply Rle_trans; [apply pnorm_add|]. rewrite !pnorm_scale, !Rabs_pos_eq by lra.
    pose proof (Rmult_le_compat_l (1 - th) _ _ ltac:(lra) Ha). pose proof (Rmult_le_compat_l th _ _ ltac:(lra) Hb). lra.
  - eapply Rle_trans; [apply pnorm_add|]. rewrite !pnorm_scale, !Rabs_pos_eq by lra. lra.
Qed.

Lemma interval_of (ts : list R) t : nth 0 ts 0 <= t -> forall n, t <= nth n ts 0 -> t = nth 0 ts 0 \/ exists i, (i < n)%nat /\ nth i ts 0 <= t <= nth (S i) ts 0.
Proof.
  intros H0. induction n as [|n IH]; intros H; [left; lra|]. destruct (Rle_or_lt t (nth n ts 0)) as [C|C].
  - destruct (IH C) as [E|(i & Hi & Hb)]; [now left|]. right. exists i. split; [lia|assumption].
  - right. exists n. split; [lia|lra].
Qed.
Lemma last_as_nth (ts : list R) : last ts 0 = nth (length ts - 1) ts 0.
Proof.
  induction ts as [|a ts IH]; [reflexivity|]. destruct ts as [|b ts]; [reflexivity|]. change (last (a :: b :: ts) 0) with (last (b :: ts) 0). rewrite IH.
  cbn [length]. replace (S (S (length ts)) - 1)%nat with (S (length ts)) by lia. replace (S (length ts) - 1)%nat with (length ts) by lia. reflexivity.
Qed.

Lemma beside_paced f D tol maxstep tr Z V L rho l ts : 0 <= D -> 0 <= L -> 0 <= rho -> moves f Z D -> tame f Z D V L rho ->
  paced f tol maxstep D tr l ts -> nth 0 l (0, 0) = Z 0 -> (0 < length l)%nat ->
  forall H, 0 <= H -> steps_within H ts -> 50 * L * H <= 1 -> 5 * V * H * (exp (L * D) - 1) + 2 * V * H <= rho ->
      let T := last ts 0 in 0 <= T <= D /\ beside (5 * V * H * (exp (L * T) - 1) + V * H / 2) l Z T.
Proof.
  intros HD HL Hrho HZ HT P E6 Pl.
  intros H H_0 HH HS HB T. destruct (tube_paced f D tol maxstep tr Z V L rho l ts HD HL Hrho HZ HT P E6 H HH HS HB) as (_ & B). cbv zeta in B.
  assert (HV : 0 <= V) by (apply (speed_pos f Z D V L rho HT Hrho 0); lra).
  pose proof (paced_times f tol maxstep D tr l ts HD P) as Pt.
  pose proof (pc_length _ _ _ _ _ _ _ P) as El. assert (ET : T = nth (length l - 1) ts 0) by (unfold T; rewrite last_as_nth; congruence).
  assert (HT0 : 0 <= T <= D) by (rewrite ET; apply Pt; lia). split; [exact HT0|].
  assert (Mono : forall j i, (i + j < length l)%nat -> nth i ts 0 <= nth (i + j) ts 0).
  { induction j as [|j IH]; intros i Hi; [rewrite Nat.add_0_r; lra|]. specialize (IH i ltac:(lia)). destruct (pc_step _ _ _ _ _ _ _ P (i + j)%nat ltac:(lia)) as [K _].
    replace (i + S j)%nat with (S (i + j)) by lia. lra. }
  assert (Upto : forall i, (i < length l)%nat -> nth i ts 0 <= T).
  { intros i Hi. rewrite ET. specialize (Mono (length l - 1 - i)%nat i ltac:(lia)). replace (i + (length l - 1 - i))%nat with (length l - 1)%nat in Mono by lia. exact Mono. }
  set (E := 5 * V * H * (exp (L * T) - 1)) in *. assert (HVH : 0 <= V * H) by now apply Rmult_le_pos.
  assert (B' : forall i, (i < length l)%nat -> pdist (nth i l (0, 0)) (Z (nth i ts 0)) <= E).
  { intros i Hi. eapply Rle_trans; [apply (B i Hi)|]. unfold E. apply Rmult_le_compat_l; [lra|].
    assert (exp (L * nth i ts 0) <= exp (L * T)) by (apply exp_grow, Rmult_le_compat_l; [assumption|now apply Upto]). lra. }
  (* a point of a segment and the particle at the corresponding time *)
  assert (Seg : forall i th, (S i < length l)%nat -> 0 <= th <= 1 ->
    let t := nth i ts 0 + th * (nth (S i) ts 0 - nth i ts 0) in 0 <= t <= T /\ pdist (between (nth i l (0, 0)) (nth (S i) l (0, 0)) th) (Z t) <= E + V * H / 2).
  { intros i th Hi Hth. cbv zeta. destruct (pc_step _ _ _ _ _ _ _ P i Hi) as [[K1 K2] _]. pose proof (Pt i ltac:(lia)) as Pi. pose proof (Upto (S i) Hi) as Ui.
    set (a := nth i ts 0) in *. set (b := nth (S i) ts 0) in *. assert (HhH : b - a <= H) by (apply HH; rewrite El; exact Hi).
    assert (Tm : a <= a + th * (b - a) <= b) by nra. split; [lra|].
    pose proof (path_length f Z D V L rho HZ HT Hrho a (a + th * (b - a)) ltac:(lra) ltac:(lra) ltac:(lra)) as L1.
    pose proof (path_length f Z D V L rho HZ HT Hrho (a + th * (b - a)) b ltac:(lra) ltac:(lra) ltac:(lra)) as L2. rewrite pdist_sym in L2.
    set (t := a + th * (b - a)) in *.
    pose proof (between_dist _ _ _ _ (Z t) th E Hth (B' i ltac:(lia)) (B' (S i) Hi)) as X. cbv beta in X. fold a b in X.
    eapply Rle_trans; [exact X|]. apply Rplus_le_compat_l.
    pose proof (Rmult_le_compat_l (1 - th) _ _ ltac:(lra) L1) as M1. pose proof (Rmult_le_compat_l th _ _ ltac:(lra) L2) as M2.
    assert (S1 : (1 - th) * (V * (t - a)) + th * (V * (b - t)) = 2 * (th * (1 - th)) * (V * (b - a))) by (unfold t; ring).
    assert (S2 : th * (1 - th) <= / 4) by (pose proof (Rle_0_sqr (th - / 2)) as Sq; unfold Rsqr in Sq; lra).
    assert (S3 : 0 <= th * (1 - th)) by (apply Rmult_le_pos; lra).
    assert (S4 : V * (b - a) <= V * H) by now apply Rmult_le_compat_l. assert (S5 : 0 <= V * (b - a)) by (apply Rmult_le_pos; lra).
    assert (S6 : 2 * (th * (1 - th)) * (V * (b - a)) <= 2 * / 4 * (V * H)) by (apply Rmult_le_compat; lra). lra. }
  split.
  - intros q [Hq|(a & b & (k & N1 & N2) & (th & Hth & Eq))].
    + destruct (In_nth _ _ (0, 0) Hq) as (i & Hi & Ei). exists (nth i ts 0). split; [split; [now apply Pt|now apply Upto]|]. rewrite <- Ei. eapply Rle_trans; [exact (B' i Hi)|lra].
    + assert (Hk : (S k < length l)%nat) by (apply nth_error_Some; rewrite N2; discriminate).
      destruct (Seg k th Hk Hth) as (Tm & X). assert (X1 : nth k l (0, 0) = a) by exact (nth_error_nth _ _ _ N1). assert (X2 : nth (S k) l (0, 0) = b) by exact (nth_error_nth _ _ _ N2). rewrite X1, X2 in X. eexists. split; [exact Tm|]. rewrite Eq. exact X.
  - intros t Ht. destruct (interval_of ts t) with (n := (length l - 1)%nat) as [E0|(i & Hi & Hb)].
    + rewrite (pc_start _ _ _ _ _ _ _ P). lra.
    + rewrite <- ET. lra.
    + exists (nth 0 l (0, 0)). split; [left; now apply nth_In|]. rewrite E0. specialize (B' 0%nat Pl). lra.
    + assert (Hi' : (S i < length l)%nat) by lia. destruct (pc_step _ _ _ _ _ _ _ P i Hi') as [[K1 K2] _].
      set (a := nth i ts 0) in *. set (b := nth (S i) ts 0) in *. set (th := (t - a) / (b - a)).
      assert (Hth : 0 <= th <= 1).
      { unfold th. split; [apply Rmult_le_pos; [lra|left; apply Rinv_0_lt_compat; lra]|]. apply Rmult_le_reg_r with (b - a); [lra|]. unfold Rdiv. rewrite Rmult_assoc, Rinv_l by lra. lra. }
      destruct (Seg i th Hi' Hth) as (_ & X). fold a b in X. replace (a + th * (b - a)) with t in X by (unfold th; field; lra).
      exists (between (nth i l (0, 0)) (nth (S i) l (0, 0)) th). split; [|exact X]. right. exists (nth i l (0, 0)), (nth (S i) l (0, 0)). split.
      * exists i. split; apply nth_error_nth'; lia.
      * exists th. split; [exact Hth|reflexivity].
Qed.

(** C106.  Under the conditions of C105 the whole track, with the segments between its vertices, is beside the path that the
    particle takes until the time at which the trace ends. *)
Lemma c106_beside : forall (f : vec xr -> res (vec xr)) (fuel : nat) (p : pt) (D : R) (tol maxstep : xr) (tr : trace xr) (Z : R -> pt) (V L rho : R),
  0 <= D -> 0 <= L -> 0 <= rho -> moves f Z D -> Z 0 = p -> tame f Z D V L rho ->
  compute_backtrace fuel (Fin (fst p)) (Fin (snd p)) (Fin D) tol maxstep f = Ok tr ->
  exists l ts, paced f tol maxstep D tr l ts /\
    forall H, 0 <= H -> steps_within H ts -> 50 * L * H <= 1 -> 5 * V * H * (exp (L * D) - 1) + 2 * V * H <= rho ->
      let T := last ts 0 in 0 <= T <= D /\ beside (5 * V * H * (exp (L * T) - 1) + V * H / 2) l Z T.
Proof.
  intros f fuel p D tol maxstep tr Z V L rho HD HL Hrho HZ H0 HT Hr. destruct (paced_trace _ _ _ _ _ _ _ HD Hr) as (l & ts & P & E).
  exists l, ts. split; [exact P|]. apply (beside_paced f D tol maxstep tr Z V L rho l ts); try assumption; [congruence|].
  destruct l as [|x l]; [|cbn; lia]. exfalso. pose proof (pc_vertices _ _ _ _ _ _ _ P) as E'. destruct (c36_path _ _ _ _ _ _ _ _ Hr) as (more & E7 & _). rewrite E7 in E'. discriminate E'.
Qed.

(** ** Marks *)
Lemma near_pdist u a b c : 0 <= u -> (near u a b c <-> exists p, on_segment a b p /\ pdist c p < u).
Proof.
  intros Hu. assert (K : forall p, dist2 p c < u * u <-> pdist c p < u).
  { intros p. unfold dist2, pdist. set (d := (fst p - fst c) * (fst p - fst c) + (snd p - snd c) * (snd p - snd c)). assert (0 <= d) by (unfold d; apply Rplus_le_le_0_compat; apply Rle_0_sqr). clearbody d. split; intros X.
    - apply Rsqr_incrst_0; [|apply sqrt_pos|assumption]. unfold Rsqr. now rewrite sqrt_sqrt.
    - rewrite <- (sqrt_sqrt d) by assumption. pose proof (sqrt_pos d). nra. }
  split; intros (p & P1 & P2); exists p; (split; [assumption|now apply K]).
Qed.

(** If the track does not stand still, each of its points is on a segment of non-zero length. *)
Lemma on_proper_segment (l : list pt) p : (exists a b, In a l /\ In b l /\ a <> b) -> on_track l p ->
  exists a b, consecutive l a b /\ a <> b /\ on_segment a b p.
Proof.
  intros Hd. assert (dec : forall a b : pt, {a = b} + {a <> b}).
  { intros [a1 a2] [b1 b2]. destruct (Req_EM_T a1 b1) as [->|N]; [|right; congruence]. destruct (Req_EM_T a2 b2) as [->|N]; [now left|right; congruence]. }
  assert (V : forall l : list pt, (exists a b, In a l /\ In b l /\ a <> b) -> forall q, In q l -> exists a b, consecutive l a b /\ a <> b /\ (q = a \/ q = b)).
  { clear l Hd p. induction l as [|x l IH]; [intros (a & b & [] & _)|]. intros Hd q Hq. destruct l as [|y l].
    { destruct Hd as (a & b & [<-|[]] & [<-|[]] & N). now elim N. }
    assert (Lift : forall a b, consecutive (y :: l) a b -> consecutive (x :: y :: l) a b) by (intros a b (k & K1 & K2); exists (S k); auto).
    destruct (dec x y) as [<-|N].
    - destruct (IH) with (q := q) as (a & b & C & N & Q).
      + destruct Hd as (a & b & Ha & Hb & N). exists a, b. cbn in *. intuition congruence.
      + cbn in *. intuition.
      + exists a, b. split; [now apply Lift|]. auto.
    - destruct Hq as [<-|Hq].
      + exists x, y. split; [exists 0%nat; split; reflexivity|]. auto.
      + destruct (dec q y) as [->|N2].
        * exists x, y. split; [exists 0%nat; split; reflexivity|]. auto.
        * destruct IH with (q := q) as (a & b & C & N3 & Q); [exists q, y; split; [assumption|split; [now left|assumption]]|assumption|].
          exists a, b. split; [now apply Lift|]. auto. }
  assert (W : forall q, In q l -> exists a b, consecutive l a b /\ a <> b /\ on_segment a b q).
  { intros q Hq. destruct (V l Hd q Hq) as (a & b & C & N & [->| ->]); exists a, b; split; auto; split; auto.
    - exists 0. split; [lra|]. destruct a; cbn. f_equal; ring.
    - exists 1. split; [lra|]. destruct b; cbn. f_equal; ring. }
  intros [Hp|(a & b & C & Hs)]; [now apply W|]. destruct (dec a b) as [<-|N]; [|now exists a, b].
  destruct Hs as (t & _ & Ep). replace p with a by (rewrite Ep; destruct a; cbn; f_equal; ring). apply W. destruct C as (k & K & _). now apply nth_error_In in K.
Qed.

(** C106: a location closer than [u] to the track is closer than [u + E] to the path; a location closer than [u - E] to the
    path is closer than [u] to the track, unless the track stands still. *)
Lemma c106_near : forall (E T u : R) (l : list pt) (Z : R -> pt) (c : pt), beside E l Z T -> 0 <= u ->
  (near_track u l c -> exists t, 0 <= t <= T /\ pdist c (Z t) < u + E) /\
  ((exists a b, In a l /\ In b l /\ a <> b) -> (exists t, 0 <= t <= T /\ pdist c (Z t) < u - E) -> near_track u l c).
Proof.
  intros E T u l Z c [B1 B2] Hu. split.
  - intros (p & q & C & _ & N). apply near_pdist in N; [|assumption]. destruct N as (x & S & X). destruct (B1 x) as (t & Ht & Y); [right; now exists p, q|].
    exists t. split; [assumption|]. pose proof (pdist_triangle c x (Z t)). lra.
  - intros Hd (t & Ht & X). destruct (B2 t Ht) as (p & Hp & Y). destruct (on_proper_segment l p Hd Hp) as (a & b & C & N & S).
    exists a, b. split; [assumption|]. split; [assumption|]. apply near_pdist; [assumption|]. exists p. split; [assumption|].
    pose proof (pdist_triangle c (Z t) p) as Tr. rewrite (pdist_sym (Z t)) in Tr. lra.
Qed.
