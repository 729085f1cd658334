(** * The water that a trace follows, in any aquifer (C122)

    Near each vertex the velocity is continued to the whole plane by its value at the nearest place of a disk; the path that
    Picard's iteration finds for the time of the step does not leave the disk; the paths of the steps are put together. *)
From Coq Require Import Reals Lra Lia Psatz List Bool Arith.
From Verif Require Import Py Num NumXR ModelAquifer ModelTrace SpecTrace SpecPathline SpecPathZone SpecWater
  ProofAquifer ProofTrace ProofTraceLoop ProofTraceFlow ProofPathline ProofPathAffine ProofPathTube ProofPathZone ProofPicard.
Import ListNotations.
Local Open Scope R_scope.

(** ** The nearest place of a disk *)
Definition into (c : pt) (r : R) (q : pt) : pt := if Rle_dec (pdist c q) r then q else padd c (pscale (r / pdist c q) (psub q c)).
Lemma into_in c r q : 0 < r -> pdist c (into c r q) <= r.
Proof.
  intros Hr. unfold into. destruct (Rle_dec (pdist c q) r) as [H|H]; [exact H|]. rewrite pdist_move, pnorm_scale, <- pdist_norm.
  rewrite Rabs_pos_eq by (apply Rmult_le_pos; [lra|left; apply Rinv_0_lt_compat; lra]). right. field. lra.
Qed.
Lemma into_id c r q : pdist c q <= r -> into c r q = q.
Proof. intros H. unfold into. destruct (Rle_dec _ _); [reflexivity|contradiction]. Qed.
Lemma into_split c r q : 0 < r -> exists k, 1 <= k /\ psub q c = pscale k (psub (into c r q) c) /\ (k = 1 \/ pnorm (psub (into c r q) c) = r).
Proof.
  intros Hr. unfold into. destruct (Rle_dec (pdist c q) r) as [H|H].
  - exists 1. split; [lra|]. split; [unfold pscale; destruct (psub q c); cbn; f_equal; ring|now left].
  - assert (P : r < pdist c q) by lra. exists (pdist c q / r). split.
    + apply Rmult_le_reg_r with r; [exact Hr|]. unfold Rdiv. rewrite Rmult_assoc, Rinv_l by lra. lra.
    + assert (E : psub (padd c (pscale (r / pdist c q) (psub q c))) c = pscale (r / pdist c q) (psub q c)) by (unfold psub, padd, pscale; cbn [fst snd]; f_equal; ring).
      rewrite E. split.
      * unfold pscale. cbn [fst snd]. destruct (psub q c) as [a b]. cbn [fst snd]. f_equal; field; lra.
      * right. rewrite pnorm_scale, <- pdist_norm, Rabs_pos_eq by (apply Rmult_le_pos; [lra|left; apply Rinv_0_lt_compat; lra]). field. lra.
Qed.
Lemma into_contracts c r p q : 0 < r -> pdist (into c r p) (into c r q) <= pdist p q.
Proof.
  intros Hr. destruct (into_split c r p Hr) as (k & K1 & Ep & Kp). destruct (into_split c r q Hr) as (h & H1 & Eq & Kq).
  pose proof (into_in c r p Hr) as Ip. pose proof (into_in c r q Hr) as Iq. rewrite pdist_norm in Ip, Iq.
  rewrite (pdist_norm p q), (pdist_norm (into c r p)). set (a := psub (into c r p) c) in *. set (b := psub (into c r q) c) in *.
  replace (psub (into c r q) (into c r p)) with (psub b a) by (unfold a, b, psub; cbn [fst snd]; f_equal; ring).
  replace (psub q p) with (psub (pscale h b) (pscale k a)) by (rewrite <- Ep, <- Eq; unfold psub; cbn [fst snd]; f_equal; ring).
  clearbody a b. clear Ep Eq. apply le_of_sq; [apply pnorm_pos|]. rewrite !pnorm_sq.
  pose proof (inner_le a b) as I. pose proof (pnorm_sq a) as Sa. pose proof (pnorm_sq b) as Sb. pose proof (pnorm_pos a) as Pa. pose proof (pnorm_pos b) as Pb.
  destruct a as [a1 a2], b as [b1 b2]. unfold psub, pscale. cbn [fst snd] in *. set (A := pnorm (a1, a2)) in *. set (B := pnorm (b1, b2)) in *.
  assert (Hkh : 0 <= k * h - 1) by nra.
  pose proof (Rmult_le_compat_l _ _ _ Hkh I) as J.
  assert (M : (k * k - 1) * (A * A) + (h * h - 1) * (B * B) - 2 * ((k * h - 1) * (A * B)) >= 0).
  { replace ((k * k - 1) * (A * A) + (h * h - 1) * (B * B) - 2 * ((k * h - 1) * (A * B))) with ((k * A - h * B) * (k * A - h * B) - (A - B) * (A - B)) by ring.
    destruct Kp as [-> | Kp], Kq as [-> | Kq].
    - right. ring.
    - rewrite Kq in *. assert (0 <= (h - 1) * r) by (apply Rmult_le_pos; lra). assert (0 <= r - A) by lra. nra.
    - rewrite Kp in *. assert (0 <= (k - 1) * r) by (apply Rmult_le_pos; lra). assert (0 <= r - B) by lra. nra.
    - rewrite Kp, Kq. pose proof (Rle_0_sqr (k * r - h * r)) as Q. unfold Rsqr in Q. replace ((r - r) * (r - r)) with 0 by ring. lra. }
  nra.
Qed.

(** ** Curves put together *)
Lemma deriv_join F G c d : derivable_pt_lim F c d -> derivable_pt_lim G c d -> F c = G c ->
  derivable_pt_lim (fun s => if Rle_dec s c then F s else G s) c d.
Proof.
  intros HF HG E e He. destruct (HF e He) as (d1 & K1). destruct (HG e He) as (d2 & K2).
  assert (P : 0 < Rmin d1 d2) by (apply Rmin_glb_lt; [apply (cond_pos d1)|apply (cond_pos d2)]). exists (mkposreal _ P). intros h Hh Hs. cbn [pos] in Hs.
  pose proof (Rmin_l d1 d2). pose proof (Rmin_r d1 d2). destruct (Rle_dec c c) as [_|N]; [|lra]. destruct (Rle_dec (c + h) c) as [L|L]; [apply K1; [exact Hh|lra]|rewrite E; apply K2; [exact Hh|lra]].
Qed.
Lemma deriv_before F G c t d : t < c -> derivable_pt_lim F t d -> derivable_pt_lim (fun s => if Rle_dec s c then F s else G s) t d.
Proof.
  intros H HF e He. destruct (HF e He) as (d1 & K1). assert (P : 0 < Rmin d1 (c - t)) by (apply Rmin_glb_lt; [apply (cond_pos d1)|lra]). exists (mkposreal _ P). intros h Hh Hs. cbn [pos] in Hs.
  pose proof (Rmin_l d1 (c - t)). pose proof (Rmin_r d1 (c - t)). pose proof (Rle_abs h). destruct (Rle_dec t c); [|lra]. destruct (Rle_dec (t + h) c); [|lra]. apply K1; [exact Hh|lra].
Qed.
Lemma deriv_after F G c t d : c < t -> derivable_pt_lim G t d -> derivable_pt_lim (fun s => if Rle_dec s c then F s else G s) t d.
Proof.
  intros H HF e He. destruct (HF e He) as (d1 & K1). assert (P : 0 < Rmin d1 (t - c)) by (apply Rmin_glb_lt; [apply (cond_pos d1)|lra]). exists (mkposreal _ P). intros h Hh Hs. cbn [pos] in Hs.
  pose proof (Rmin_l d1 (t - c)). pose proof (Rmin_r d1 (t - c)). pose proof (Rle_abs (- h)) as N. rewrite Rabs_Ropp in N. destruct (Rle_dec t c); [lra|]. destruct (Rle_dec (t + h) c); [lra|]. apply K1; [exact Hh|lra].
Qed.
Lemma deriv_shift F c t d : derivable_pt_lim F (t - c) d -> derivable_pt_lim (fun s => F (s - c)) t d.
Proof.
  intros H e He. destruct (H e He) as (d1 & K1). exists d1. intros h Hh Hs. replace (t + h - c) with (t - c + h) by ring. now apply K1.
Qed.
Definition joined (Z Y : R -> pt) (c : R) : R -> pt := fun s => if Rle_dec s c then Z s else Y s.
Lemma joined_pr (pr : pt -> R) Z Y c s : pr (joined Z Y c s) = (if Rle_dec s c then pr (Z s) else pr (Y s)).
Proof. unfold joined. now destruct (Rle_dec s c). Qed.
(** Going on from [Z] at the time [a] with [Y] as far as the time [b]. *)
Lemma moves_joined f Z Y a b : 0 <= a -> moves f Z a -> Z a = Y a ->
  (forall t, a <= t <= b -> exists v, f (fvec (Y t)) = Ok (fvec v) /\ derivable_pt_lim (fun s => fst (Y s)) t (fst v) /\ derivable_pt_lim (fun s => snd (Y s)) t (snd v)) ->
  moves f (joined Z Y a) b.
Proof.
  intros Ha HZ E HY t Ht. destruct (Rtotal_order t a) as [L|[L|L]].
  - destruct (HZ t ltac:(lra)) as (v & V1 & V2 & V3). exists v. split; [unfold joined; destruct (Rle_dec t a); [exact V1|lra]|].
    split; (eapply deriv_fun; [intros s; symmetry; apply joined_pr|]); now apply deriv_before.
  - subst t. destruct (HZ a ltac:(lra)) as (v & V1 & V2 & V3). destruct (HY a ltac:(lra)) as (v' & V1' & V2' & V3'). rewrite <- E, V1 in V1'.
    assert (X : fvec v = fvec v') by congruence. apply fvec_inj in X. subst v'. exists v. split; [unfold joined; destruct (Rle_dec a a); [exact V1|lra]|].
    split; (eapply deriv_fun; [intros s; symmetry; apply joined_pr|]); apply deriv_join; try assumption; now rewrite E.
  - destruct (HY t ltac:(lra)) as (v & V1 & V2 & V3). exists v. split; [unfold joined; destruct (Rle_dec t a); [lra|exact V1]|].
    split; (eapply deriv_fun; [intros s; symmetry; apply joined_pr|]); now apply deriv_after.
Qed.

(** ** Only one path *)
Lemma same_point p q : pdist p q <= 0 -> p = q.
Proof.
  unfold pdist. intros H. assert (Sq : (fst q - fst p) * (fst q - fst p) + (snd q - snd p) * (snd q - snd p) = 0).
  { apply sqrt_eq_0; [apply Rplus_le_le_0_compat; apply Rle_0_sqr|]. apply Rle_antisym; [exact H|apply sqrt_pos]. }
  assert (S1 := Rle_0_sqr (fst q - fst p)). assert (S2 := Rle_0_sqr (snd q - snd p)). unfold Rsqr in S1, S2.
  assert (E1 : Rsqr (fst q - fst p) = 0) by (unfold Rsqr; lra). assert (E2 : Rsqr (snd q - snd p) = 0) by (unfold Rsqr; lra). apply Rsqr_0_uniq in E1, E2.
  rewrite (surjective_pairing p), (surjective_pairing q). f_equal; lra.
Qed.
(** The velocity of the disk, continued to the plane. *)
Lemma disk_velocity f V L rho c q : tame f (fun _ => c) 0 V L rho -> 0 < rho -> exists u, f (fvec (into c rho q)) = Ok (fvec u) /\ velocity f (into c rho q) = u /\ pnorm u <= V.
Proof.
  intros T Hr. destruct (tm_value _ _ _ _ _ _ T 0 (into c rho q) ltac:(lra) (into_in c rho q Hr)) as (u & E & B). exists u. split; [exact E|]. split; [now apply velocity_eq|exact B].
Qed.
Lemma disk_change f V L rho c p q : tame f (fun _ => c) 0 V L rho -> 0 < rho -> 0 <= L ->
  pnorm (psub (velocity f (into c rho p)) (velocity f (into c rho q))) <= L * pdist p q.
Proof.
  intros T Hr HL. destruct (disk_velocity f V L rho c p T Hr) as (u & E & -> & _). destruct (disk_velocity f V L rho c q T Hr) as (u' & E' & -> & _).
  eapply Rle_trans; [exact (tm_change _ _ _ _ _ _ T 0 _ _ u u' ltac:(lra) (into_in c rho p Hr) (into_in c rho q Hr) E E')|]. apply Rmult_le_compat_l; [exact HL|]. now apply into_contracts.
Qed.

Lemma moves_cont f Z T : moves f Z T -> forall t, 0 <= t <= T -> forall e, 0 < e -> exists d, 0 < d /\ forall x, Rabs (x - t) < d -> pdist (Z t) (Z x) < e.
Proof.
  intros HZ t Ht e He. destruct (HZ t Ht) as (u & _ & D1 & D2). apply deriv_cont in D1, D2.
  destruct (proj1 (cont_dist _ _) D1 (e / 2) ltac:(lra)) as (d1 & P1 & K1). destruct (proj1 (cont_dist _ _) D2 (e / 2) ltac:(lra)) as (d2 & P2 & K2).
  exists (Rmin d1 d2). split; [now apply Rmin_glb_lt|]. intros x Hx. pose proof (Rmin_l d1 d2). pose proof (Rmin_r d1 d2). specialize (K1 x ltac:(lra)). specialize (K2 x ltac:(lra)).
  unfold pdist. set (a := fst (Z x) - fst (Z t)) in *. set (b := snd (Z x) - snd (Z t)) in *.
  apply Rle_lt_trans with (Rabs a + Rabs b); [|lra]. pose proof (Rabs_pos a). pose proof (Rabs_pos b). apply le_of_sq; [lra|].
  rewrite sqrt_sqrt by (apply Rplus_le_le_0_compat; apply Rle_0_sqr). assert (A : Rabs a * Rabs a = a * a) by (rewrite <- Rabs_mult; apply Rabs_pos_eq, Rle_0_sqr).
  assert (B : Rabs b * Rabs b = b * b) by (rewrite <- Rabs_mult; apply Rabs_pos_eq, Rle_0_sqr). assert (0 <= Rabs a * Rabs b) by now apply Rmult_le_pos. nra.
Qed.

(** Two paths that are together at one time stay together as long as the velocity is tame around the one. *)
Lemma stay_together f Z Y T : 0 <= T -> moves f Z T -> moves f Y T -> Z 0 = Y 0 ->
  (forall t, 0 <= t <= T -> exists c V L rho, 0 <= L /\ pdist c (Z t) < rho /\ tame f (fun _ => c) 0 V L rho) ->
  forall t, 0 <= t <= T -> Y t = Z t.
Proof.
  intros HT HZ HY E0 HD.
  set (E := fun x => 0 <= x <= T /\ forall s, 0 <= s <= x -> Y s = Z s).
  assert (E00 : E 0) by (split; [lra|]; intros s Hs; replace s with 0 by lra; now symmetry).
  destruct (completeness E) as (b & Ub & Lb); [exists T; intros x [Hx _]; lra|now exists 0|].
  assert (Hb0 : 0 <= b) by (apply Ub; exact E00). assert (HbT : b <= T) by (apply Lb; intros x [Hx _]; lra).
  assert (Before : forall s, 0 <= s < b -> Y s = Z s).
  { intros s Hs. destruct (Rle_or_lt (pdist (Y s) (Z s)) 0) as [L|P]; [now apply same_point|exfalso]. assert (Q : b <= s); [|lra].
    apply Lb. intros x [Hx K]. destruct (Rle_or_lt x s) as [|C]; [assumption|exfalso]. rewrite (K s ltac:(lra)), pdist_self in P. lra. }
  assert (At : Y b = Z b).
  { apply same_point. destruct (Rle_or_lt (pdist (Y b) (Z b)) 0) as [|P]; [assumption|exfalso]. destruct (Req_dec b 0) as [->|N0]; [rewrite E0, pdist_self in P; lra|].
    set (e := pdist (Y b) (Z b)) in *. destruct (moves_cont f Z T HZ b ltac:(lra) (e / 2) ltac:(lra)) as (d1 & P1 & K1). destruct (moves_cont f Y T HY b ltac:(lra) (e / 2) ltac:(lra)) as (d2 & P2 & K2).
    set (x := b - Rmin b (Rmin d1 d2) / 2). assert (Pm : 0 < Rmin b (Rmin d1 d2)) by (repeat apply Rmin_glb_lt; lra). pose proof (Rmin_l b (Rmin d1 d2)). pose proof (Rmin_r b (Rmin d1 d2)). pose proof (Rmin_l d1 d2). pose proof (Rmin_r d1 d2).
    assert (Hx : Rabs (x - b) < Rmin d1 d2) by (unfold x; rewrite Rabs_minus_sym, Rabs_pos_eq; lra). specialize (K1 x ltac:(lra)). specialize (K2 x ltac:(lra)).
    rewrite (Before x) in K2 by (unfold x; lra). pose proof (pdist_triangle (Y b) (Z x) (Z b)) as Tr. rewrite (pdist_sym (Z x)) in Tr. fold e in Tr. lra. }
  destruct (Rle_lt_or_eq_dec b T HbT) as [C|C].
  - exfalso. destruct (HD b ltac:(lra)) as (c & V & L & rho & HL & Hc & Ta). pose proof (pdist_pos c (Z b)) as Pc. assert (Hrho : 0 < rho) by lra.
    set (e := rho - pdist c (Z b)). assert (He : 0 < e) by (unfold e; lra).
    destruct (moves_cont f Z T HZ b ltac:(lra) e He) as (d1 & P1 & K1). destruct (moves_cont f Y T HY b ltac:(lra) e He) as (d2 & P2 & K2).
    set (x := b + Rmin (T - b) (Rmin d1 d2) / 2). assert (Pm : 0 < Rmin (T - b) (Rmin d1 d2)) by (repeat apply Rmin_glb_lt; lra). pose proof (Rmin_l (T - b) (Rmin d1 d2)). pose proof (Rmin_r (T - b) (Rmin d1 d2)). pose proof (Rmin_l d1 d2). pose proof (Rmin_r d1 d2).
    assert (InB : forall X, moves f X T -> X b = Z b -> (forall y, Rabs (y - b) < Rmin d1 d2 -> pdist (X b) (X y) < e) -> forall y, b <= y <= x ->
       derivable_pt_lim (fun s => fst (X s)) y (fst (velocity f (into c rho (X y)))) /\ derivable_pt_lim (fun s => snd (X s)) y (snd (velocity f (into c rho (X y))))).
    { intros X HX EX KX y Hy. assert (Hy' : Rabs (y - b) < Rmin d1 d2) by (rewrite Rabs_pos_eq; unfold x in Hy; lra). specialize (KX y Hy'). rewrite EX in KX.
      assert (Ic : pdist c (X y) <= rho) by (pose proof (pdist_triangle c (Z b) (X y)); unfold e in KX; lra). rewrite (into_id c rho _ Ic).
      destruct (HX y) as (u & U1 & U2 & U3); [unfold x in Hy; lra|]. rewrite (velocity_eq _ _ _ U1). auto. }
    assert (Q : E x); [|specialize (Ub x Q); unfold x in Ub; lra].
    split; [unfold x; lra|]. intros s Hs. destruct (Rlt_or_le s b) as [L1|L1]; [apply Before; lra|]. symmetry. apply same_point.
    pose proof (near_path (fun q => velocity f (into c rho q)) L Z Y (fun y => velocity f (into c rho (Y y))) b s 0 L1 HL ltac:(lra) (fun p q => disk_change f V L rho c p q Ta Hrho HL)) as N.
    rewrite At, pdist_self in N. eapply Rle_trans; [apply N|right; ring].
    + intros y Hy. apply InB; [exact HZ|reflexivity| |lra]. intros z Hz. apply K1. lra.
    + intros y Hy. apply InB; [exact HY|exact At| |lra]. intros z Hz. apply K2. lra.
    + intros y Hy. replace (psub (velocity f (into c rho (Y y))) (velocity f (into c rho (Y y)))) with ((0, 0) : pt) by (unfold psub; f_equal; ring). rewrite pnorm_0. lra.
  - intros t Ht. destruct (Rle_lt_or_eq_dec t b ltac:(lra)) as [L1| ->]; [apply Before; lra|exact At].
Qed.

(** ** One step *)
Lemma gentle_tame f V L rho l q : gentle f V L rho l -> In q l -> tame f (fun _ => q) 0 V L rho.
Proof. intros Hg Hq. destruct (Hg q Hq) as [A B]. constructor; intros t; [intros x _; apply A|intros x y u u' _; apply B]. Qed.

Lemma step_way f V L rho tol maxstep q h q' : tame f (fun _ => q) 0 V L rho -> 0 < rho -> 0 <= L -> 0 <= h -> 50 * (L * h) <= 1 -> 2 * (h * V) <= rho ->
  good_step f tol maxstep q h q' \/ wild_step f tol maxstep q h q' ->
  exists w, q' = padd q (pscale h w) /\ 0 <= V /\ pnorm w <= 3 / 2 * V /\ pnorm (psub w (velocity f q)) <= 4 * (L * (h * V)).
Proof.
  intros HT Hrho HL Hh HLh HB G.
  assert (HV : 0 <= V) by (apply (speed_pos f (fun _ => q) 0 V L rho HT ltac:(lra) 0); lra).
  assert (Z0 : pdist ((fun _ : R => q) 0) q <= rho) by (rewrite pdist_self; lra).
  destruct (tm_value _ _ _ _ _ _ HT 0 q ltac:(lra) Z0) as (v & Eg & Bk). rewrite (velocity_eq _ _ _ Eg).
  destruct G as [G|G].
  - destruct G as (ks & K1 & K2 & _). exists (lincomb dp_b ks). split; [exact K2|]. split; [exact HV|].
    pose proof (stage_bounds f (fun _ => q) 0 V L rho HT ltac:(lra) HL q 0 h v ks ltac:(lra) Hh HLh ltac:(rewrite pdist_self; lra) Eg K1) as Dk.
    destruct K1 as (Hlen & _). destruct weights_row as (W1 & W2 & W3). assert (HLhv : 0 <= L * (h * V)) by (apply Rmult_le_pos; [exact HL|now apply Rmult_le_pos]).
    assert (Bw : pnorm (psub (lincomb dp_b ks) v) <= 4 * (L * (h * V))).
    { assert (Ew : psub (lincomb dp_b ks) v = lincomb dp_b (map (fun k => psub k v) ks)).
      { rewrite (lincomb_shift v) by congruence. rewrite W2. generalize (lincomb dp_b (map (fun k => psub k v) ks)). intros [a b]. unfold psub, padd, pscale. cbn [fst snd]. f_equal; ring. }
      rewrite Ew. eapply Rle_trans; [apply lincomb_bound with (V := 2 * (L * (h * V))); [lra|now apply Forall_map]|].
      replace (4 * (L * (h * V))) with (2 * (2 * (L * (h * V)))) by ring. apply Rmult_le_compat_r; lra. }
    split; [|exact Bw].
    assert (T : pnorm (lincomb dp_b ks) <= pnorm (psub (lincomb dp_b ks) v) + pnorm v).
    { eapply Rle_trans; [|apply pnorm_add]. right. f_equal. unfold psub, padd. destruct (lincomb dp_b ks). cbn. f_equal; ring. }
    assert (B3 : 4 * (L * (h * V)) <= V / 2).
    { replace (4 * (L * (h * V))) with (4 * (L * h) * V) by ring. assert (0 <= L * h) by now apply Rmult_le_pos. replace (V / 2) with (1 / 2 * V) by field. apply Rmult_le_compat_r; lra. }
    lra.
  - exfalso. revert G. apply (no_wild f (fun _ => q) 0 V L rho HT ltac:(lra) tol maxstep q 0 h q'); [lra|exact Hh|]. rewrite pdist_self. lra.
Qed.

(** The water and the straight line of a step. *)
Lemma step_beside g V L Y s q w h H : 0 <= h -> h <= H -> 0 <= V -> 0 <= L -> pnorm w <= 2 * V -> pnorm (psub w (g q)) <= 4 * (L * (h * V)) ->
  (forall a b, pnorm (psub (g a) (g b)) <= L * pdist a b) ->
  (forall t, s <= t <= s + h -> derivable_pt_lim (fun x => fst (Y x)) t (fst (g (Y t))) /\ derivable_pt_lim (fun x => snd (Y x)) t (snd (g (Y t)))) ->
  pdist (Y s) q <= 6 * V * H * (exp (L * s) - 1) ->
  forall t, s <= t <= s + h -> pdist (Y t) (padd q (pscale (t - s) w)) <= 6 * V * H * (exp (L * t) - 1).
Proof.
  intros Hh HhH HV HL Bw Bg Hg HZ He t Ht.
  pose proof (near_path g L Y (fun x => padd q (pscale (x - s) w)) (fun _ => w) s t (6 * V * H) ltac:(lra) HL) as N.
  assert (HVH : 0 <= V * H) by (apply Rmult_le_pos; lra).
  assert (N1 : pdist (Y t) (padd q (pscale (t - s) w)) <= pdist (Y s) (padd q (pscale (s - s) w)) * exp (L * (t - s)) + 6 * V * H * (exp (L * (t - s)) - 1)).
  { apply N.
    - lra.
    - exact Hg.
    - intros x Hx. apply HZ. lra.
    - intros x Hx. unfold padd, pscale. cbn [fst snd]. split.
      + eapply deriv_val; [apply (derivable_pt_lim_plus (fct_cte (fst q)) (fun x => (x - s) * fst w)); [apply derivable_pt_lim_const|]|apply Rplus_0_l].
        eapply deriv_val; [apply (derivable_pt_lim_mult (fun x => x - s) (fct_cte (fst w))); [apply (derivable_pt_lim_minus id (fct_cte s)); [apply derivable_pt_lim_id|apply derivable_pt_lim_const]|apply derivable_pt_lim_const]|]. unfold fct_cte. ring.
      + eapply deriv_val; [apply (derivable_pt_lim_plus (fct_cte (snd q)) (fun x => (x - s) * snd w)); [apply derivable_pt_lim_const|]|apply Rplus_0_l].
        eapply deriv_val; [apply (derivable_pt_lim_mult (fun x => x - s) (fct_cte (snd w))); [apply (derivable_pt_lim_minus id (fct_cte s)); [apply derivable_pt_lim_id|apply derivable_pt_lim_const]|apply derivable_pt_lim_const]|]. unfold fct_cte. ring.
    - intros x Hx. set (y := padd q (pscale (x - s) w)).
      assert (T : pnorm (psub w (g y)) <= pnorm (psub w (g q)) + pnorm (psub (g q) (g y))).
      { eapply Rle_trans; [|apply pnorm_add]. right. f_equal. unfold psub, padd. cbn. f_equal; ring. }
      pose proof (Hg q y) as C. unfold y in C at 2. rewrite pdist_move, pnorm_scale, Rabs_pos_eq in C by lra.
      assert (X : (x - s) * pnorm w <= h * (2 * V)) by (apply Rmult_le_compat; try lra; apply pnorm_pos).
      pose proof (Rmult_le_compat_l L _ _ HL X) as X1. assert (X2 : h * V <= V * H) by (rewrite Rmult_comm; apply Rmult_le_compat_l; lra).
      pose proof (Rmult_le_compat_l L _ _ HL X2) as X3. lra. }
  eapply Rle_trans; [exact N1|]. replace (padd q (pscale (s - s) w)) with q by (unfold padd, pscale; destruct q; cbn; f_equal; ring).
  assert (Xp : exp (L * t) = exp (L * s) * exp (L * (t - s))) by (rewrite <- exp_plus; f_equal; ring). rewrite Xp. set (E := exp (L * (t - s))). assert (HE : 0 < E) by apply exp_pos.
  pose proof (Rmult_le_compat_r E _ _ ltac:(lra) He). lra.
Qed.

(** ** The path *)
Lemma gentle_follow f D tol maxstep tr l ts V L rho H : 0 <= D -> paced f tol maxstep D tr l ts -> (0 < length l)%nat ->
  0 < rho -> 0 <= L -> 0 <= H -> gentle f V L rho l -> steps_within H ts ->
  let T := last ts 0 in
  50 * L * H <= 1 -> 6 * V * H * (exp (L * T) - 1) + 2 * V * H <= rho ->
  exists Z, Z 0 = nth 0 l (0, 0) /\ moves f Z T /\ 0 <= V /\ 0 <= T <= D /\
    (forall i, (i < length l)%nat -> 0 <= nth i ts 0 <= T /\ pdist (nth i l (0, 0)) (Z (nth i ts 0)) <= 6 * V * H * (exp (L * nth i ts 0) - 1)) /\
    beside (6 * V * H * (exp (L * T) - 1)) l Z T /\
    (forall t, 0 <= t <= T -> exists q, In q l /\ pdist q (Z t) < rho).
Proof.
  intros HD P Pl Hrho HL HH Hq HS T H50 HB.
  pose proof (paced_times f tol maxstep D tr l ts HD P) as Pt.
  pose proof (pc_length _ _ _ _ _ _ _ P) as El. assert (ET : T = nth (length l - 1) ts 0) by (unfold T; rewrite last_as_nth; congruence).
  assert (HT0 : 0 <= T <= D) by (rewrite ET; apply Pt; lia).
  assert (Mono : forall j i, (i + j < length l)%nat -> nth i ts 0 <= nth (i + j) ts 0).
  { induction j as [|j IH]; intros i Hi; [rewrite Nat.add_0_r; lra|]. specialize (IH i ltac:(lia)). destruct (pc_step _ _ _ _ _ _ _ P (i + j)%nat ltac:(lia)) as [K _].
    replace (i + S j)%nat with (S (i + j)) by lia. lra. }
  assert (Upto : forall i, (i < length l)%nat -> nth i ts 0 <= T).
  { intros i Hi. rewrite ET. specialize (Mono (length l - 1 - i)%nat i ltac:(lia)). replace (i + (length l - 1 - i))%nat with (length l - 1)%nat in Mono by lia. exact Mono. }
  set (q0 := nth 0 l (0, 0)).
  assert (Tame : forall i, (i < length l)%nat -> tame f (fun _ => nth i l (0, 0)) 0 V L rho) by (intros i Hi; apply (gentle_tame f V L rho l); [exact Hq|now apply nth_In]).
  assert (HV : 0 <= V) by (apply (speed_pos f (fun _ => q0) 0 V L rho (Tame 0%nat Pl) ltac:(lra) 0); lra).
  assert (HVH : 0 <= V * H) by now apply Rmult_le_pos.
  set (e := fun t => 6 * V * H * (exp (L * t) - 1)).
  assert (ExpT : forall t, 0 <= t <= T -> 1 <= exp (L * t) /\ exp (L * t) <= exp (L * T)).
  { intros t Ht. split; [|apply exp_grow, Rmult_le_compat_l; lra]. pose proof (exp_ineq1_le (L * t)). assert (0 <= L * t) by (apply Rmult_le_pos; lra). lra. }
  assert (eT : forall t, 0 <= t <= T -> 0 <= e t <= e T).
  { intros t Ht. destruct (ExpT t Ht) as [X1 X2]. unfold e. split; [apply Rmult_le_pos; lra|apply Rmult_le_compat_l; lra]. }
  assert (Dir : forall i, (S i < length l)%nat -> let h := nth (S i) ts 0 - nth i ts 0 in 0 < h <= H /\ exists w,
      nth (S i) l (0, 0) = padd (nth i l (0, 0)) (pscale h w) /\ pnorm w <= 3 / 2 * V /\ pnorm (psub w (velocity f (nth i l (0, 0)))) <= 4 * (L * (h * V))).
  { intros i Hi h. destruct (pc_step _ _ _ _ _ _ _ P i Hi) as [[K1 K2] G]. fold h in G. assert (HhH : h <= H) by (unfold h; apply HS; rewrite El; exact Hi). split; [unfold h in *; lra|].
    destruct (step_way f V L rho tol maxstep (nth i l (0, 0)) h (nth (S i) l (0, 0)) (Tame i ltac:(lia)) Hrho HL) as (w & W1 & _ & W3 & W4).
    - unfold h. lra.
    - pose proof (Rmult_le_compat_l L _ _ HL HhH). lra.
    - pose proof (Rmult_le_compat_l V _ _ HV HhH) as X. destruct (eT T ltac:(lra)) as [X1 _]. unfold e in X1. lra.
    - exact G.
    - exists w. auto. }
  (* a place on the straight line of a step is in the disk *)
  assert (Disk : forall i w x t, (i < length l)%nat -> nth i ts 0 <= t -> t - nth i ts 0 <= H -> 0 <= t <= T -> pnorm w <= 3 / 2 * V -> pdist x (padd (nth i l (0, 0)) (pscale (t - nth i ts 0) w)) <= e t -> pdist (nth i l (0, 0)) x < rho).
  { intros i w x t Hi H1 H2 Ht Bw Hx. set (y := padd _ _) in *.
    assert (Y : pdist (nth i l (0, 0)) y <= 3 / 2 * (V * H)).
    { unfold y. rewrite pdist_move, pnorm_scale, Rabs_pos_eq by lra. replace (3 / 2 * (V * H)) with (H * (3 / 2 * V)) by ring. apply Rmult_le_compat; try lra. apply pnorm_pos. }
    pose proof (pdist_triangle (nth i l (0, 0)) y x) as T1. rewrite (pdist_sym y) in T1. destruct (eT t Ht) as [_ X2]. unfold e at 2 in X2.
    destruct (Rle_lt_or_eq_dec 0 (V * H) HVH) as [C|C]; [lra|]. assert (Z0 : e t = 0) by (unfold e; replace (6 * V * H * (exp (L * t) - 1)) with (V * H * (6 * (exp (L * t) - 1))) by ring; rewrite <- C; ring). lra. }
  assert (Build : forall i, (i < length l)%nat -> exists Z, Z 0 = q0 /\ moves f Z (nth i ts 0) /\
     (forall k, (k <= i)%nat -> pdist (Z (nth k ts 0)) (nth k l (0, 0)) <= e (nth k ts 0)) /\
     (forall k, (S k <= i)%nat -> let h := nth (S k) ts 0 - nth k ts 0 in exists w, nth (S k) l (0, 0) = padd (nth k l (0, 0)) (pscale h w) /\ pnorm w <= 3 / 2 * V /\
        forall t, nth k ts 0 <= t <= nth (S k) ts 0 -> pdist (Z t) (padd (nth k l (0, 0)) (pscale (t - nth k ts 0) w)) <= e t)).
  { induction i as [|i IH]; intros Hi.
    - destruct (tm_value _ _ _ _ _ _ (Tame 0%nat Pl) 0 q0 ltac:(lra)) as (u & Eu & _); [fold q0; rewrite pdist_self; lra|].
      exists (fun t => padd q0 (pscale t u)). assert (Z0 : padd q0 (pscale 0 u) = q0) by (unfold padd, pscale; destruct q0; cbn; f_equal; ring).
      split; [exact Z0|]. split; [|split].
      + rewrite (pc_start _ _ _ _ _ _ _ P). intros t Ht. replace t with 0 by lra. exists u. rewrite Z0. split; [exact Eu|]. unfold padd, pscale. cbn [fst snd].
        split; [pose proof (deriv_poly 0 (fst u) (fst q0) 0 0) as D1|pose proof (deriv_poly 0 (snd u) (snd q0) 0 0) as D1]; (eapply deriv_val; [eapply deriv_fun; [|exact D1]|ring]); intros t'; cbv beta; ring.
      + intros k Hk. assert (k = 0)%nat by lia. subst k. rewrite (pc_start _ _ _ _ _ _ _ P), Z0. fold q0. rewrite pdist_self. unfold e. rewrite Rmult_0_r, exp_0. lra.
      + intros k Hk. lia.
    - destruct (IH ltac:(lia)) as (Z & Z0 & ZM & ZV & ZL). destruct (Dir i Hi) as (Hh & w & W1 & W3 & W4). cbv zeta in Hh, W1, W3, W4.
      set (s := nth i ts 0) in *. set (h := nth (S i) ts 0 - s) in *. set (q := nth i l (0, 0)) in *.
      pose proof (Pt i ltac:(lia)) as Hs. fold s in Hs. pose proof (Upto (S i) Hi) as Us.
      set (g := fun x => velocity f (into q rho x)). pose proof (fun a b => disk_change f V L rho q a b (Tame i ltac:(lia)) Hrho HL) as Hg.
      destruct (picard_path g L h (Z s) ltac:(lra) HL Hg) as (X & X0 & HX).
      set (Y := fun t => X (t - s)). assert (Ys : Y s = Z s) by (unfold Y; replace (s - s) with 0 by ring; exact X0).
      assert (HY : forall t, s <= t <= s + h -> derivable_pt_lim (fun x => fst (Y x)) t (fst (g (Y t))) /\ derivable_pt_lim (fun x => snd (Y x)) t (snd (g (Y t)))).
      { intros t Ht. destruct (HX (t - s) ltac:(lra)) as [D1 D2]. unfold Y. split; [exact (deriv_shift (fun x => fst (X x)) s t _ D1)|exact (deriv_shift (fun x => snd (X x)) s t _ D2)]. }
      assert (Gq : g q = velocity f q) by (unfold g; rewrite into_id; [reflexivity|rewrite pdist_self; lra]).
      assert (Line : forall t, s <= t <= s + h -> pdist (Y t) (padd q (pscale (t - s) w)) <= e t).
      { intros t Ht. apply (step_beside g V L Y s q w h H); try lra; try assumption.
        - rewrite Gq. exact W4.
        - rewrite Ys. exact (ZV i (le_n i)). }
      assert (InD : forall t, s <= t <= s + h -> pdist q (Y t) <= rho).
      { intros t Ht. left. apply (Disk i w (Y t) t ltac:(lia)); fold s; fold q; try lra; [unfold h in Ht; lra|now apply Line]. }
      assert (JZ : forall t, t <= s -> joined Z Y s t = Z t) by (intros t Ht; unfold joined; destruct (Rle_dec t s); [reflexivity|lra]).
      assert (JY : forall t, s <= t -> joined Z Y s t = Y t) by (intros t Ht; unfold joined; destruct (Rle_dec t s); [replace t with s by lra; now symmetry|reflexivity]).
      exists (joined Z Y s). split; [rewrite JZ by lra; exact Z0|]. split; [|split].
      + apply moves_joined; [lra|exact ZM|now symmetry|]. intros t Ht. specialize (InD t ltac:(unfold h; lra)).
        destruct (tm_value _ _ _ _ _ _ (Tame i ltac:(lia)) 0 (Y t) ltac:(lra) InD) as (u & Eu & _). exists u. split; [exact Eu|].
        pose proof (HY t ltac:(unfold h; lra)) as Dv. unfold g in Dv. rewrite into_id, (velocity_eq _ _ _ Eu) in Dv by exact InD. exact Dv.
      + intros k Hk. destruct (Nat.eq_dec k (S i)) as [->|N].
        * rewrite JY by (unfold h in Hh; lra). rewrite W1. specialize (Line (nth (S i) ts 0) ltac:(unfold h in *; lra)). fold h in Line. exact Line.
        * assert (Hk' : (k <= i)%nat) by lia. rewrite JZ; [now apply ZV|]. specialize (Mono (i - k)%nat k ltac:(lia)). replace (k + (i - k))%nat with i in Mono by lia. exact Mono.
      + intros k Hk. cbv zeta. destruct (Nat.eq_dec (S k) (S i)) as [E|N].
        * injection E as ->. fold s. fold h. fold q. exists w. split; [exact W1|]. split; [exact W3|]. intros t Ht. rewrite JY by lra. apply Line. unfold h. lra.
        * destruct (ZL k ltac:(lia)) as (w' & A1 & A2 & A3). exists w'. split; [exact A1|]. split; [exact A2|]. intros t Ht. rewrite JZ; [now apply A3|].
          specialize (Mono (i - S k)%nat (S k) ltac:(lia)). replace (S k + (i - S k))%nat with i in Mono by lia. fold s in Mono. lra. }
  destruct (Build (length l - 1)%nat ltac:(lia)) as (Z & Z0 & ZM & ZV & ZL). rewrite <- ET in ZM.
  (* every time is in a step *)
  assert (At : forall t, 0 <= t <= T -> exists i w, (i < length l)%nat /\ nth i ts 0 <= t /\ t - nth i ts 0 <= H /\ pnorm w <= 3 / 2 * V /\
      pdist (Z t) (padd (nth i l (0, 0)) (pscale (t - nth i ts 0) w)) <= e t /\ on_track l (padd (nth i l (0, 0)) (pscale (t - nth i ts 0) w))).
  { intros t Ht. destruct (interval_of ts t) with (n := (length l - 1)%nat) as [E0|(i & Hi & Hb)].
    - rewrite (pc_start _ _ _ _ _ _ _ P). lra.
    - rewrite <- ET. lra.
    - exists 0%nat, (0, 0). replace (padd (nth 0 l (0, 0)) (pscale (t - nth 0 ts 0) (0, 0))) with q0 by (unfold q0, padd, pscale; destruct (nth 0 l (0, 0)); cbn; f_equal; ring).
      split; [exact Pl|]. split; [lra|]. split; [lra|]. split; [rewrite pnorm_0; lra|]. split; [|left; apply nth_In; exact Pl].
      specialize (ZV 0%nat ltac:(lia)). rewrite <- E0 in ZV. exact ZV.
    - assert (Hi' : (S i < length l)%nat) by lia. destruct (Dir i Hi') as (Hh & _). destruct (ZL i ltac:(lia)) as (w & W1 & W3 & W4). cbv zeta in Hh, W1. exists i, w. split; [lia|]. split; [lra|]. split; [lra|]. split; [exact W3|].
      split; [exact (W4 t Hb)|].
      right. exists (nth i l (0, 0)), (nth (S i) l (0, 0)). split; [exists i; split; apply nth_error_nth'; lia|].
      set (h := nth (S i) ts 0 - nth i ts 0) in *. exists ((t - nth i ts 0) / h). split.
      + split; [apply Rmult_le_pos; [lra|left; apply Rinv_0_lt_compat; lra]|]. apply Rmult_le_reg_r with h; [lra|]. unfold Rdiv. rewrite Rmult_assoc, Rinv_l by lra. unfold h. lra.
      + rewrite W1. unfold padd, pscale. cbn [fst snd]. f_equal; field; lra. }
  exists Z. split; [exact Z0|]. split; [exact ZM|]. split; [exact HV|]. split; [exact HT0|]. split; [|split].
  - intros i Hi. split; [split; [now apply Pt|now apply Upto]|]. rewrite pdist_sym. apply ZV. lia.
  - fold (e T). split.
    + intros x [Hx|(a & b & (k & N1 & N2) & (th & Hth & Eq))].
      * destruct (In_nth _ _ (0, 0) Hx) as (i & Hi & Ei). assert (Hti : 0 <= nth i ts 0 <= T) by (split; [now apply Pt|now apply Upto]). exists (nth i ts 0). split; [exact Hti|]. rewrite <- Ei, pdist_sym. eapply Rle_trans; [exact (ZV i ltac:(change (i < length (A := pt) l)%nat in Hi; lia))|]. now apply eT.
      * assert (Hk : (S k < length l)%nat) by (apply nth_error_Some; rewrite N2; discriminate).
        assert (X1 : nth k l (0, 0) = a) by exact (nth_error_nth _ _ _ N1). assert (X2 : nth (S k) l (0, 0) = b) by exact (nth_error_nth _ _ _ N2).
        destruct (Dir k Hk) as (Hh & _). destruct (ZL k ltac:(lia)) as (w & W1 & W3 & W4). pose proof (Pt k ltac:(lia)) as Pk. pose proof (Upto (S k) Hk) as Uk. cbv zeta in Hh, W1, W3, W4.
        set (s := nth k ts 0) in *. set (h := nth (S k) ts 0 - s) in *. assert (Hth' : 0 <= th * h <= h) by nra.
        exists (s + th * h). assert (Ht : 0 <= s + th * h <= T) by (unfold h in *; lra). split; [exact Ht|].
        assert (Ex : x = padd a (pscale (s + th * h - s) w)).
        { rewrite Eq, <- X2, W1, X1. unfold padd, pscale. cbn [fst snd]. f_equal; ring. }
        rewrite Ex, pdist_sym, <- X1. eapply Rle_trans; [apply W4; unfold h in *; lra|]. now apply eT.
    + intros t Ht. destruct (At t Ht) as (i & w & Hi & H1 & H2 & W3 & X & Ot). eexists. split; [exact Ot|]. rewrite pdist_sym. eapply Rle_trans; [exact X|]. now apply eT.
  - intros t Ht. destruct (At t Ht) as (i & w & Hi & H1 & H2 & W3 & X & Ot). exists (nth i l (0, 0)). split; [now apply nth_In|]. exact (Disk i w (Z t) t Hi H1 H2 Ht W3 X).
Qed.

(** C122.  A trace along any velocity, whether of a confined aquifer or of an unconfined one or of another kind, that is gentle
    around the vertices, with short time steps [H]: there is a path of the water from the start point, only one, and the trace
    is within 6 V H (e^(L T) - 1) of it, [T] being the time that the trace ends. *)
Lemma c122_water : forall (f : vec xr -> res (vec xr)) (fuel : nat) (p : pt) (D : R) (tol maxstep : xr) (tr : trace xr), 0 <= D ->
  compute_backtrace fuel (Fin (fst p)) (Fin (snd p)) (Fin D) tol maxstep f = Ok tr ->
  exists l ts, paced f tol maxstep D tr l ts /\
    forall V L rho H, 0 < rho -> 0 <= L -> 0 <= H -> gentle f V L rho l -> steps_within H ts ->
      let T := last ts 0 in
      50 * L * H <= 1 -> 6 * V * H * (exp (L * T) - 1) + 2 * V * H <= rho ->
      exists Z, Z 0 = p /\ moves f Z T /\
        (forall i, (i < length l)%nat -> let t := nth i ts 0 in 0 <= t <= T /\ pdist (nth i l (0, 0)) (Z t) <= 6 * V * H * (exp (L * t) - 1)) /\
        beside (6 * V * H * (exp (L * T) - 1)) l Z T /\
        forall Y, Y 0 = p -> moves f Y T -> forall t, 0 <= t <= T -> Y t = Z t.
Proof.
  intros f fuel p D tol maxstep tr HD Hr. destruct (paced_trace _ _ _ _ _ _ _ HD Hr) as (l & ts & P & E).
  assert (Pl : (0 < length l)%nat).
  { destruct l as [|x l]; [|cbn; lia]. exfalso. pose proof (pc_vertices _ _ _ _ _ _ _ P) as E'. destruct (c36_path _ _ _ _ _ _ _ _ Hr) as (more & E7 & _). rewrite E7 in E'. discriminate E'. }
  exists l, ts. split; [exact P|]. intros V L rho H Hrho HL HH Hg HS T H50 HB.
  destruct (gentle_follow f D tol maxstep tr l ts V L rho H HD P Pl Hrho HL HH Hg HS H50 HB) as (Z & Z0 & ZM & HV & HT & ZE & ZB & ZN). rewrite E in Z0.
  exists Z. split; [exact Z0|]. split; [exact ZM|]. split; [exact ZE|]. split; [exact ZB|].
  intros Y Y0 YM. apply (stay_together f Z Y T (proj1 HT) ZM YM); [congruence|]. intros t Ht. destruct (ZN t Ht) as (q & Iq & Hq).
  exists q, V, L, rho. split; [exact HL|]. split; [exact Hq|]. now apply (gentle_tame f V L rho l).
Qed.
