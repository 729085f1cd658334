(** * Proofs about the drawing computations: C84 *)
From Coq Require Import Reals Lra Lia Psatz List ZArith.
From Verif Require Import Py Num NumXR Grid ModelField ModelObs ModelPlot ModelDraw SpecField SpecPlot SpecDraw ProofField ProofFieldProps ProofFieldHist ProofOps ProofPlot.
Import ListNotations.
Local Open Scope R_scope.

(** ** Sums *)
Lemma zrange_shift a b c : zrange (a + c) (b + c) = map (fun k => (k + c)%Z) (zrange a b).
Proof. unfold zrange. rewrite map_map. replace (b + c - (a + c))%Z with (b - a)%Z by lia. apply map_ext. intros; lia. Qed.

Lemma nth_error_ext {A} (l l' : list A) : (forall n, nth_error l n = nth_error l' n) -> l = l'.
Proof.
  revert l'. induction l as [|a l IH]; intros [|a' l'] H; [reflexivity|specialize (H O); discriminate|specialize (H O); discriminate|].
  pose proof (H O) as H0. cbn in H0. injection H0 as ->. f_equal. apply IH. intros n. exact (H (S n)).
Qed.

Lemma rev_zrange_opp a n : rev (zrange a (a + Z.of_nat n)) = map Z.opp (zrange (- (a + Z.of_nat n) + 1) (- a + 1)).
Proof.
  induction n as [|n IH].
  - rewrite !zrange_nil by lia. reflexivity.
  - replace (a + Z.of_nat (S n))%Z with (a + Z.of_nat n + 1)%Z by lia. rewrite zrange_snoc by lia. rewrite rev_app_distr, IH. cbn [rev app].
    rewrite (zrange_cons (- (a + Z.of_nat n + 1) + 1)) by lia. cbn [map]. f_equal; [lia|]. f_equal. f_equal. lia.
Qed.
Lemma rev_zrange r : (0 <= r)%Z -> rev (zrange (- r) (r + 1)) = map Z.opp (zrange (- r) (r + 1)).
Proof.
  intros Hr. replace (r + 1)%Z with (- r + Z.of_nat (Z.to_nat (2 * r + 1)))%Z at 1 by lia. rewrite rev_zrange_opp. f_equal. f_equal; lia.
Qed.

Section Sums.
  Variables a b : Z.
  Lemma zsum_ext f g : (forall k, (a <= k <= b)%Z -> f k = g k) -> zsum a b f = zsum a b g.
  Proof.
    intros H. unfold zsum. assert (K : forall k, In k (zrange a (b + 1)) -> f k = g k) by (intros k Hk; apply in_zrange in Hk; apply H; lia).
    induction (zrange a (b + 1)) as [|k l IH]; [reflexivity|]. cbn. rewrite K, IH; auto with datatypes.
  Qed.
  Lemma zsum_plus f g : zsum a b (fun k => f k + g k) = zsum a b f + zsum a b g.
  Proof. unfold zsum. induction (zrange a (b + 1)) as [|k l IH]; cbn; [ring|]. rewrite IH. ring. Qed.
  Lemma zsum_scal c f : zsum a b (fun k => c * f k) = c * zsum a b f.
  Proof. unfold zsum. induction (zrange a (b + 1)) as [|k l IH]; cbn; [ring|]. rewrite IH. ring. Qed.
  Lemma zsum_le f g : (forall k, (a <= k <= b)%Z -> f k <= g k) -> zsum a b f <= zsum a b g.
  Proof.
    intros H. unfold zsum. assert (K : forall k, In k (zrange a (b + 1)) -> f k <= g k) by (intros k Hk; apply in_zrange in Hk; apply H; lia).
    induction (zrange a (b + 1)) as [|k l IH]; cbn; [lra|]. assert (f k <= g k) by auto with datatypes.
    assert (fold_right (fun k s => f k + s) 0 l <= fold_right (fun k s => g k + s) 0 l) by auto with datatypes. lra.
  Qed.
  Lemma zsum_0 : zsum a b (fun _ => 0) = 0.
  Proof. unfold zsum. induction (zrange a (b + 1)) as [|k l IH]; cbn; [ring|]. rewrite IH. ring. Qed.
  Lemma zsum_nonneg f : (forall k, (a <= k <= b)%Z -> 0 <= f k) -> 0 <= zsum a b f.
  Proof. intros H. rewrite <- zsum_0. apply zsum_le, H. Qed.
End Sums.

Lemma zsum_swap a b c d f : zsum a b (fun i => zsum c d (f i)) = zsum c d (fun j => zsum a b (fun i => f i j)).
Proof.
  unfold zsum at 1. rewrite (zsum_ext c d _ (fun j => fold_right (fun i s => f i j + s) 0 (zrange a (b + 1)))) by reflexivity.
  induction (zrange a (b + 1)) as [|k l IH]; cbn [fold_right]; [symmetry; apply zsum_0|]. rewrite IH, <- zsum_plus. reflexivity.
Qed.
Lemma zsum_term a b f m : (a <= m <= b)%Z -> (forall k, (a <= k <= b)%Z -> 0 <= f k) -> f m <= zsum a b f.
Proof.
  intros Hm Hf. assert (K : forall k, In k (zrange a (b + 1)) -> 0 <= f k) by (intros k Hk; apply in_zrange in Hk; apply Hf; lia).
  assert (I : In m (zrange a (b + 1))) by (apply in_zrange; lia). unfold zsum.
  assert (NN : forall l, (forall k, In k l -> 0 <= f k) -> 0 <= fold_right (fun k s => f k + s) 0 l).
  { induction l as [|k l IH]; cbn; [lra|]. intros Q. assert (0 <= f k) by auto. assert (0 <= fold_right (fun k s => f k + s) 0 l) by auto. lra. }
  induction (zrange a (b + 1)) as [|k l IH]; [destruct I|]. cbn. destruct I as [->|I].
  - assert (0 <= fold_right (fun k s => f k + s) 0 l) by (apply NN; auto with datatypes). lra.
  - assert (f m <= fold_right (fun k s => f k + s) 0 l) by (apply IH; auto with datatypes). assert (0 <= f k) by auto with datatypes. lra.
Qed.
Lemma zsum_shift a b c f : zsum a b (fun k => f (k + c)%Z) = zsum (a + c) (b + c) f.
Proof.
  unfold zsum. replace (b + c + 1)%Z with (b + 1 + c)%Z by lia. rewrite zrange_shift.
  induction (zrange a (b + 1)) as [|k l IH]; cbn; [reflexivity|]. rewrite IH. reflexivity.
Qed.
Lemma zsum_last a b f : (a <= b + 1)%Z -> zsum a (b + 1) f = zsum a b f + f (b + 1)%Z.
Proof.
  intros H. unfold zsum. rewrite zrange_snoc by lia. rewrite fold_right_app. cbn. rewrite Rplus_0_r. generalize (f (b + 1)%Z). intros v.
  induction (zrange a (b + 1)) as [|k l IH]; cbn; [ring|]. rewrite IH. ring.
Qed.
Lemma zsum_first a b f : (a <= b + 1)%Z -> zsum (a - 1) b f = f (a - 1)%Z + zsum a b f.
Proof. intros H. unfold zsum. rewrite zrange_cons by lia. cbn. replace (a - 1 + 1)%Z with a by lia. reflexivity. Qed.

(** The sum over any window that contains the support. *)
Lemma zsum_support a b a' b' f : (a' <= a)%Z -> (b <= b')%Z -> (a <= b + 1)%Z -> (forall k, ~ (a <= k <= b)%Z -> f k = 0) -> zsum a' b' f = zsum a b f.
Proof.
  intros H1 H2 H3 Hf. replace a' with (a - Z.of_nat (Z.to_nat (a - a')))%Z by lia. replace b' with (b + Z.of_nat (Z.to_nat (b' - b)))%Z by lia.
  generalize (Z.to_nat (a - a')) as m, (Z.to_nat (b' - b)) as n. intros m n. induction m as [|m IH].
  - replace (a - Z.of_nat 0)%Z with a by lia. induction n as [|n IH]; [f_equal; lia|].
    replace (b + Z.of_nat (S n))%Z with (b + Z.of_nat n + 1)%Z by lia. rewrite zsum_last, IH, Hf by lia. ring.
  - replace (a - Z.of_nat (S m))%Z with (a - Z.of_nat m - 1)%Z by lia. rewrite zsum_first, IH, Hf by lia. ring.
Qed.
(** A non-negative summand: a smaller window gives a smaller sum. *)
Lemma zsum_window a b a' b' f : (a' <= a)%Z -> (b <= b')%Z -> (a <= b + 1)%Z -> (forall k, 0 <= f k) -> zsum a b f <= zsum a' b' f.
Proof.
  intros H1 H2 H3 Hf. replace a' with (a - Z.of_nat (Z.to_nat (a - a')))%Z by lia. replace b' with (b + Z.of_nat (Z.to_nat (b' - b)))%Z by lia.
  generalize (Z.to_nat (a - a')) as m, (Z.to_nat (b' - b)) as n. intros m n. induction m as [|m IH].
  - replace (a - Z.of_nat 0)%Z with a by lia. induction n as [|n IH]; [replace (b + Z.of_nat 0)%Z with b by lia; lra|].
    replace (b + Z.of_nat (S n))%Z with (b + Z.of_nat n + 1)%Z by lia. rewrite zsum_last by lia. pose proof (Hf (b + Z.of_nat n + 1)%Z). lra.
  - replace (a - Z.of_nat (S m))%Z with (a - Z.of_nat m - 1)%Z by lia. rewrite zsum_first by lia. pose proof (Hf (a - Z.of_nat m - 1)%Z). lra.
Qed.

(** ** The weights *)
Lemma bell_pos sigma k : 0 < bell sigma k. Proof. apply exp_pos. Qed.
Lemma bell_even sigma k : bell sigma (- k) = bell sigma k.
Proof. unfold bell. rewrite opp_IZR. do 3 f_equal. ring. Qed.
Lemma bell_sum_pos sigma r : (0 <= r)%Z -> 0 < zsum (- r) r (bell sigma).
Proof. intros Hr. apply Rlt_le_trans with (bell sigma 0); [apply bell_pos|]. apply zsum_term; [lia|]. intros; left; apply bell_pos. Qed.
Lemma weight_pos sigma r k : (0 <= r)%Z -> 0 < bell_weight sigma r k.
Proof. intros Hr. apply Rdiv_lt_0_compat; [apply bell_pos|apply bell_sum_pos, Hr]. Qed.
Lemma weight_sum sigma r : (0 <= r)%Z -> zsum (- r) r (bell_weight sigma r) = 1.
Proof.
  intros Hr. pose proof (bell_sum_pos sigma r Hr). rewrite (zsum_ext _ _ _ (fun k => / zsum (- r) r (bell sigma) * bell sigma k)) by (intros; unfold bell_weight, Rdiv; ring).
  rewrite zsum_scal. field. lra.
Qed.
Lemma weight_even sigma r k : bell_weight sigma r (- k) = bell_weight sigma r k.
Proof. unfold bell_weight. rewrite bell_even. reflexivity. Qed.

Lemma fold_fin {A} (f : A -> R) l : forall acc, fold_left nadd (map (fun a => Fin (f a)) l) (Fin acc) = Fin (acc + fold_right (fun a s => f a + s) 0 l).
Proof. induction l as [|a l IH]; intros acc; cbn [map fold_left fold_right]; [f_equal; ring|]. cbn [nadd XR xadd]. rewrite IH. f_equal. ring. Qed.

Lemma kernel_weights sigma r : 0 < sigma -> cut_off sigma r ->
  (0 <= r)%Z /\ gaussian_kernel fexp (Fin sigma) = Ok (map (fun a => Fin (bell_weight sigma r a)) (zrange (- r) (r + 1))).
Proof.
  intros Hs Hr. assert (R0 : (0 <= r)%Z). { destruct Hr as [_ Hr]. apply Z.lt_succ_r. apply lt_IZR. rewrite succ_IZR. lra. }
  split; [exact R0|]. unfold gaussian_kernel.
  assert (F : nfloor (nadd (nmul (nZ 4) (Fin sigma)) (nlit 1 2)) = Ok r).
  { cbn [nZ nlit nmul nadd nfloor XR xmul xadd xfloor]. f_equal. apply Int_part_unique. exact Hr. }
  rewrite F. cbn [bind]. clear F. assert (S2 : sigma * sigma <> 0) by nra.
  set (phi := map _ (zrange (- r) (r + 1))) at 1 2. assert (Eh : phi = map (fun x => Fin (bell sigma x)) (zrange (- r) (r + 1))).
  { apply map_ext. intros x. unfold nsq. cbn [nZ nlit nmul ndiv nopp XR xmul xopp]. rewrite div_fin by exact S2. cbn [xmul fexp]. unfold bell. do 2 f_equal. field. intros E. apply S2. rewrite E. ring. }
  change (nZ 0) with (Fin 0). rewrite Eh, fold_fin, Rplus_0_l. fold (zsum (- r) r (bell sigma)). rewrite map_map, <- map_rev, rev_zrange, map_map by exact R0.
  f_equal. apply map_ext. intros a. cbn [ndiv XR]. rewrite div_fin by (pose proof (bell_sum_pos sigma r R0); lra). rewrite bell_even. reflexivity.
Qed.

(** ** One pass *)
Lemma nth_map_zrange n (f : Z -> R) k : (0 <= k < n)%Z -> nth (Z.to_nat k) (map (fun k => Fin (f k)) (zrange 0 n)) (Fin 0) = Fin (f k).
Proof.
  intros Hk. apply nth_error_nth. rewrite nth_error_map, nth_error_zrange, Z.sub_0_r, Z2Nat.id by lia.
  destruct (Z.ltb_spec k n); [|lia]. cbn. do 2 f_equal.
Qed.
Lemma padded_map n (f : Z -> R) k : (forall k, ~ (0 <= k < n)%Z -> f k = 0) -> padded (map (fun k => Fin (f k)) (zrange 0 n)) k = Fin (f k).
Proof.
  intros Hf. unfold padded. destruct (Z.ltb_spec k 0) as [L|L].
  - change (nZ 0) with (Fin 0). rewrite Hf by lia. reflexivity.
  - destruct (Z.lt_ge_cases k n) as [L2|L2]; [apply nth_map_zrange; lia|].
    rewrite nth_overflow; [change (nZ 0) with (Fin 0); rewrite Hf by lia; reflexivity|]. rewrite map_length, zrange_length. lia.
Qed.
Lemma fold_seq_zsum (f : Z -> R) (body : nat -> xr) r n : (0 <= r)%Z ->
  (forall t, body t = Fin (f (Z.of_nat t - r)%Z)) -> n = Z.to_nat (2 * r + 1) ->
  fold_left (fun acc t => nadd acc (body t)) (seq 0 n) (Fin 0) = Fin (zsum (- r) r f).
Proof.
  intros Hr Hb ->.
  assert (E : forall l acc, fold_left (fun acc t => nadd acc (body t)) l (Fin acc) = Fin (acc + fold_right (fun k s => f k + s) 0 (map (fun t => (- r + Z.of_nat t)%Z) l))).
  { induction l as [|t l IH]; intros acc; cbn [fold_left map fold_right]; [f_equal; ring|]. rewrite Hb. cbn [nadd XR xadd]. rewrite IH. f_equal.
    replace (Z.of_nat t - r)%Z with (- r + Z.of_nat t)%Z by lia. ring. }
  rewrite E, Rplus_0_l. unfold zsum, zrange. replace (Z.to_nat (r + 1 - - r)) with (Z.to_nat (2 * r + 1)) by lia. reflexivity.
Qed.
Lemma zrange_seq n : zrange 0 n = map Z.of_nat (seq 0 (Z.to_nat n)).
Proof. unfold zrange. rewrite Z.sub_0_r. apply map_ext. intros; lia. Qed.

Lemma correlate_zsum (w : Z -> R) (f : Z -> R) r n : (0 <= r)%Z -> (forall k, ~ (0 <= k < n)%Z -> f k = 0) ->
  correlate1d (map (fun a => Fin (w a)) (zrange (- r) (r + 1))) (map (fun k => Fin (f k)) (zrange 0 n))
  = map (fun k => Fin (zsum (- r) r (fun a => w a * f (k + a)%Z))) (zrange 0 n).
Proof.
  intros Hr Hf. unfold correlate1d. rewrite !map_length, !zrange_length, Z.sub_0_r.
  rewrite (zrange_seq n) at 1. rewrite !map_map.
  replace (Z.of_nat (Nat.div2 (Z.to_nat (r + 1 - - r)))) with r.
  2:{ rewrite Nat.div2_div. replace (Z.to_nat (r + 1 - - r)) with (1 + Z.to_nat r * 2)%nat by lia. rewrite Nat.div_add by lia. cbn. lia. }
  apply map_ext. intros k. change (nZ 0) with (Fin 0).
  rewrite <- (fold_seq_zsum (fun a => w a * f (Z.of_nat k + a)%Z) (fun t => if (Z.of_nat t <? 2 * r + 1)%Z then nmul (nth t (map (fun a => Fin (w a)) (zrange (- r) (r + 1))) (Fin 0)) (padded (map (fun k => Fin (f k)) (zrange 0 n)) (Z.of_nat k + Z.of_nat t - r)%Z)
     else Fin (w (Z.of_nat t - r)%Z * f (Z.of_nat k + (Z.of_nat t - r))%Z)) r (Z.to_nat (2 * r + 1)) Hr); [|clear - Hr Hf|reflexivity].
  - replace (Z.to_nat (r + 1 - - r)) with (Z.to_nat (2 * r + 1)) by lia.
    assert (B : forall t, In t (seq 0 (Z.to_nat (2 * r + 1))) -> (Z.of_nat t <? 2 * r + 1)%Z = true) by (intros t Ht; apply in_seq in Ht; apply Z.ltb_lt; lia).
    revert B. generalize (seq 0 (Z.to_nat (2 * r + 1))). generalize (Fin 0) at 2 4 as acc. intros acc l. revert acc.
    induction l as [|t l IH]; intros acc B; [reflexivity|]. cbn [fold_left]. rewrite (B t) by (left; reflexivity). apply IH. intros; apply B; right; assumption.
  - intros t. cbn beta. destruct (Z.ltb_spec (Z.of_nat t) (2 * r + 1)) as [L|L]; [|reflexivity].
    rewrite (padded_map n f) by exact Hf.
    rewrite (nth_error_nth _ _ (x := Fin (w (Z.of_nat t - r)%Z))).
    2:{ rewrite nth_error_map, nth_error_zrange. destruct (Z.ltb_spec (Z.of_nat t) (r + 1 - - r)); [|lia]. cbn. do 3 f_equal. lia. }
    cbn [nmul XR xmul]. do 3 f_equal. lia.
Qed.

(** ** Two passes *)
Lemma columns_tab nr nc (f : Z -> Z -> R) : (0 <= nr)%Z -> (0 <= nc)%Z ->
  columns (Z.to_nat nc) (tab nr nc (fun i j => Fin (f i j))) = tab nc nr (fun j i => Fin (f i j)).
Proof.
  intros Hr Hc. unfold columns, tab. rewrite (zrange_seq nc) at 1. rewrite map_map. apply map_ext_in. intros j Hj. apply in_seq in Hj.
  rewrite map_map. apply map_ext. intros i. replace j with (Z.to_nat (Z.of_nat j)) at 1 by lia. apply (nth_map_zrange nc (fun j => f i j)). lia.
Qed.

Lemma correlate_rows (w : Z -> R) (f : Z -> Z -> R) r nr nc : (0 <= r)%Z -> (forall i j, ~ (0 <= j < nc)%Z -> f i j = 0) ->
  map (correlate1d (map (fun a => Fin (w a)) (zrange (- r) (r + 1)))) (tab nr nc (fun i j => Fin (f i j)))
  = tab nr nc (fun i j => Fin (zsum (- r) r (fun a => w a * f i (j + a)%Z))).
Proof.
  intros Hr Hf. unfold tab. rewrite map_map. apply map_ext. intros i. apply (correlate_zsum w (fun j => f i j)); auto.
Qed.

Lemma filter_blurs sigma r nr nc (f : Z -> Z -> R) : / 1000000000000000 < sigma -> cut_off sigma r -> (0 <= nr)%Z -> (0 <= nc)%Z ->
  (forall i j, ~ ((0 <= i < nr)%Z /\ (0 <= j < nc)%Z) -> f i j = 0) ->
  gaussian_filter fexp (Fin sigma) (Z.to_nat nc) (tab nr nc (fun i j => Fin (f i j))) = Ok (tab nr nc (fun i j => Fin (blurred sigma r f i j))).
Proof.
  intros Hs Hr Hnr Hnc Hf. assert (0 < sigma) by lra. destruct (kernel_weights sigma r H Hr) as [R0 K].
  unfold gaussian_filter. cbn [nlt nlit XR xlt]. destruct (Rltb_spec (1 / 1000000000000000) sigma); [|lra].
  rewrite K. cbn [bind]. f_equal. rewrite columns_tab by assumption.
  rewrite (correlate_rows (bell_weight sigma r) (fun j i => f i j)); [|exact R0|intros; apply Hf; lia].
  rewrite tab_length. rewrite (columns_tab nc nr (fun j i => zsum (- r) r (fun a => bell_weight sigma r a * f (i + a)%Z j))) by assumption.
  rewrite (correlate_rows (bell_weight sigma r) (fun i j => zsum (- r) r (fun a => bell_weight sigma r a * f (i + a)%Z j))).
  - apply tab_ext. intros i j _ _. f_equal. unfold blurred. rewrite zsum_swap. apply zsum_ext. intros b _. rewrite <- zsum_scal. apply zsum_ext. intros a _. ring.
  - exact R0.
  - intros i j Hj. rewrite <- (zsum_0 (- r) r). apply zsum_ext. intros a _. rewrite Hf by lia. ring.
Qed.

(** ** C84 *)

(** The table of the probabilities, continued by 0. *)
Lemma table_tab nr nc f i j : table (tab nr nc (fun i j => Fin (f i j))) i j = if inb nr nc i j then f i j else 0.
Proof. unfold table. rewrite get2_tab. destruct (inb nr nc i j); reflexivity. Qed.

Lemma drawn_form s W smooth : wf s -> total s W -> 0 < W ->
  exists nr nc X Y f, (3 <= nr)%Z /\ (3 <= nc)%Z /\ length X = Z.to_nat nc /\ length Y = Z.to_nat nr /\
    create_probability_plot s = Ok (X, Y, tab nr nc (fun i j => Fin (f i j))) /\
    (forall i j, ~ ((0 <= i < nr)%Z /\ (0 <= j < nc)%Z) -> f i j = 0) /\
    (forall i j, (0 <= i < nr)%Z -> (0 <= j < nc)%Z -> exists x y w m, has_node s x y w m /\ f i j = w / W) /\
    (forall r, 0 < smooth -> cut_off smooth r ->
       drawn_probabilities fexp s (Fin smooth) = Ok (X, Y, tab nr nc (fun i j => Fin (if Rlt_dec (/ 1000000000000000) smooth then blurred smooth r f i j else f i j)))) /\
    (smooth <= 0 -> drawn_probabilities fexp s (Fin smooth) = create_probability_plot s).
Proof.
  intros Hwf (g & Eg & EW) HW. destruct (wf_rep s Hwf) as (a & Hok & ->); [unfold initialised; congruence|].
  assert (EWa : ProofField.W a = W) by (injection Eg as <-; cbn in EW; congruence). subst W.
  pose proof Hok as (Hdx & Hdy & Hc & Hr & _). destruct (conc_axes a Hok) as [AX AY].
  exists (NR a), (NC a). eexists. eexists. exists (fun i j => if inb (NR a) (NC a) i j then P a (R0 a + i) (C0 a + j) / ProofField.W a else 0).
  assert (E : create_probability_plot (conc a) = Ok (map (fun j => Fin (lat (X0 a) (Dx a) (C0 a + j))) (zrange 0 (NC a)), map (fun j => Fin (lat (Y0 a) (Dy a) (R0 a + j))) (zrange 0 (NR a)),
     tab (NR a) (NC a) (fun i j => Fin (if inb (NR a) (NC a) i j then P a (R0 a + i) (C0 a + j) / ProofField.W a else 0)))).
  { unfold create_probability_plot. rewrite Eg, EW. cbn [nle nZ XR xle]. destruct (Rleb_spec (ProofField.W a) 0); [lra|].
    rewrite (conc_probs a g Eg HW). injection Eg as <-. cbn [xmin xmax ymin ymax nrows ncols]. rewrite AX, AY. cbn [bind]. do 2 f_equal.
    apply tab_ext. intros i j Hi Hj. replace (inb _ _ _ _) with true by (symmetry; apply inb_true; lia). reflexivity. }
  split; [lia|]. split; [lia|]. split; [|split; [|split; [exact E|]]].
  { rewrite map_length, zrange_length. f_equal. lia. } { rewrite map_length, zrange_length. f_equal. lia. }
  split; [|split; [|split]].
  - intros i j Hn. destruct (inb (NR a) (NC a) i j) eqn:B; [|reflexivity]. apply inb_true in B. tauto.
  - intros i j Hi Hj. exists (lat (X0 a) (Dx a) (C0 a + j)), (lat (Y0 a) (Dy a) (R0 a + i)), (P a (R0 a + i) (C0 a + j)), (M a (R0 a + i) (C0 a + j)). split.
    + apply conc_node; [exact Hok|]. exists (R0 a + i)%Z, (C0 a + j)%Z. unfold inwin. repeat split; lia.
    + replace (inb _ _ _ _) with true by (symmetry; apply inb_true; lia). reflexivity.
  - intros r Hs Hr'. unfold drawn_probabilities. rewrite E. cbn [bind]. cbn [nlt nZ XR xlt]. destruct (Rltb_spec 0 smooth); [|lra].
    rewrite map_length, zrange_length, Z.sub_0_r.
    destruct (Rlt_dec (/ 1000000000000000) smooth) as [L|L].
    + rewrite (filter_blurs smooth r (NR a) (NC a) (fun i j => if inb (NR a) (NC a) i j then P a (R0 a + i) (C0 a + j) / ProofField.W a else 0)); [reflexivity|exact L|exact Hr'|lia|lia|].
      intros i j Hn. destruct (inb (NR a) (NC a) i j) eqn:B; [|reflexivity]. apply inb_true in B. tauto.
    + unfold gaussian_filter. cbn [nlt nlit XR xlt]. destruct (Rltb_spec (1 / 1000000000000000) smooth); [lra|]. reflexivity.
  - intros Hs. unfold drawn_probabilities. rewrite E. cbn [bind]. cbn [nlt nZ XR xlt]. destruct (Rltb_spec 0 smooth); [lra|]. reflexivity.
Qed.

Lemma cut_off_exists sigma : exists r, cut_off sigma r.
Proof. exists (Int_part (4 * sigma + 1 / 2)). split; [apply Int_part_le|apply Int_part_lt]. Qed.
Lemma cut_off_nonneg sigma r : 0 < sigma -> cut_off sigma r -> (0 <= r)%Z.
Proof. intros Hs [_ Hr]. apply Z.lt_succ_r. apply lt_IZR. rewrite succ_IZR. lra. Qed.

Lemma blurred_ext sigma r p q : (forall i j, p i j = q i j) -> forall i j, blurred sigma r p i j = blurred sigma r q i j.
Proof. intros H i j. apply zsum_ext. intros a _. apply zsum_ext. intros b _. rewrite H. reflexivity. Qed.

(** The drawn values are the weighted means of the probabilities with truncated, normalised Gaussian weights in both
    directions; beyond the grid the probabilities count as 0.  The axes are those of the unsmoothed map. *)
Lemma c84_gaussian_mean : forall (s : pfield xr) (W sigma : R) (r : Z), wf s -> total s W -> 0 < W ->
  / 1000000000000000 < sigma -> cut_off sigma r ->
  exists X Y P Q, create_probability_plot s = Ok (X, Y, P) /\ drawn_probabilities fexp s (Fin sigma) = Ok (X, Y, Q) /\
    rect (Z.of_nat (length Y)) (Z.of_nat (length X)) Q /\
    forall i j, (0 <= i < Z.of_nat (length Y))%Z -> (0 <= j < Z.of_nat (length X))%Z ->
      get2 Q i j = Some (Fin (blurred sigma r (table P) i j)).
Proof.
  intros s W sigma r Hwf HT HW Hs Hr. destruct (drawn_form s W sigma Hwf HT HW) as (nr & nc & X & Y & f & Hnr & Hnc & LX & LY & E & F0 & _ & D & _).
  specialize (D r ltac:(lra) Hr). destruct (Rlt_dec (/ 1000000000000000) sigma); [|lra].
  exists X, Y. eexists. eexists. split; [exact E|]. split; [exact D|]. rewrite LX, LY, !Z2Nat.id by lia. split; [apply rect_tab; lia|].
  intros i j Hi Hj. rewrite get2_tab. replace (inb _ _ _ _) with true by (symmetry; apply inb_true; lia). do 2 f_equal. apply blurred_ext.
  intros i' j'. rewrite table_tab. destruct (inb nr nc i' j') eqn:B; [reflexivity|]. apply F0. intros Q. apply inb_true in Q. congruence.
Qed.

(** Without smoothing (smooth <= 0, or at most 1e-15) the probabilities themselves are drawn. *)
Lemma c84_unsmoothed : forall (s : pfield xr) (W sigma : R), wf s -> total s W -> 0 < W -> sigma <= / 1000000000000000 ->
  drawn_probabilities fexp s (Fin sigma) = create_probability_plot s.
Proof.
  intros s W sigma Hwf HT HW Hs. destruct (drawn_form s W sigma Hwf HT HW) as (nr & nc & X & Y & f & Hnr & Hnc & LX & LY & E & F0 & _ & D & D0).
  destruct (Rle_lt_dec sigma 0) as [L|L]; [apply D0, L|]. destruct (cut_off_exists sigma) as (r & Hr). rewrite (D r L Hr), E.
  destruct (Rlt_dec (/ 1000000000000000) sigma); [lra|]. reflexivity.
Qed.

Lemma blurred_bounds sigma r p lo hi : (0 <= r)%Z -> (forall i j, lo <= p i j <= hi) -> forall i j, lo <= blurred sigma r p i j <= hi.
Proof.
  intros Hr Hp i j.
  assert (K : forall c, zsum (- r) r (fun a => zsum (- r) r (fun b => bell_weight sigma r a * bell_weight sigma r b * c)) = c).
  { intros c. rewrite (zsum_ext _ _ _ (fun a => c * bell_weight sigma r a)).
    - rewrite zsum_scal, weight_sum by exact Hr. ring.
    - intros a _. rewrite (zsum_ext _ _ _ (fun b => (c * bell_weight sigma r a) * bell_weight sigma r b)) by (intros; ring). rewrite zsum_scal, weight_sum by exact Hr. ring. }
  unfold blurred. split.
  - rewrite <- (K lo) at 1. apply zsum_le. intros a _. apply zsum_le. intros b _. pose proof (weight_pos sigma r a Hr). pose proof (weight_pos sigma r b Hr).
    apply Rmult_le_compat_l; [nra|apply Hp].
  - rewrite <- (K hi). apply zsum_le. intros a _. apply zsum_le. intros b _. pose proof (weight_pos sigma r a Hr). pose proof (weight_pos sigma r b Hr).
    apply Rmult_le_compat_l; [nra|apply Hp].
Qed.

Lemma ratio_01 w W : 0 < W -> 0 <= w <= W -> 0 <= w / W <= 1.
Proof.
  intros HW [H1 H2]. split; [apply Rmult_le_pos; [lra|left; apply Rinv_0_lt_compat; lra]|].
  apply Rmult_le_reg_r with W; [lra|]. unfold Rdiv. rewrite Rmult_assoc, Rinv_l; lra.
Qed.

(** For every field that can be reached from the constructor by operations with non-negative weights, and every finite
    [smooth], the drawn values lie between 0 and 1, and drawing raises nothing. *)
Lemma c84_range : forall (dx dy : R) xo yo s0 fuel l (W sigma : R),
  fin_or_nan xo -> fin_or_nan yo -> pf_init (Fin dx) (Fin dy) xo yo = Ok s0 -> Forall nonneg_weight l ->
  let s := run_ops fuel s0 l in total s W -> 0 < W ->
  exists X Y Q, drawn_probabilities fexp s (Fin sigma) = Ok (X, Y, Q) /\
    rect (Z.of_nat (length Y)) (Z.of_nat (length X)) Q /\
    forall i j v, get2 Q i j = Some v -> exists q, v = Fin q /\ 0 <= q <= 1.
Proof.
  intros dx dy xo yo s0 fuel l W sigma Hx Hy H0 Hl s HT HW.
  assert (Hwf : wf s).
  { apply run_ops_wf.
    - destruct (init_state _ _ _ _ _ Hx Hy H0) as (D1 & D2 & [-> | (x0 & y0 & ->)]); [apply unborn_wf; assumption|]. apply conc_wf, blank_ok; auto; lia.
    - eapply Forall_impl; [|exact Hl]. intros [] Q; cbn in *; auto. destruct Q as (q & -> & _). eauto. }
  pose proof (proj1 (c16_probability_bounds dx dy xo yo s0 fuel l Hx Hy H0 Hl)) as B. fold s in B.
  destruct (drawn_form s W sigma Hwf HT HW) as (nr & nc & X & Y & f & Hnr & Hnc & LX & LY & E & F0 & F1 & D & D0).
  assert (Hf : forall i j, 0 <= f i j <= 1).
  { intros i j. destruct (inb nr nc i j) eqn:I.
    - apply inb_true in I. destruct (F1 i j) as (x & y & w & m & Hn & ->); [tauto..|]. apply ratio_01; [exact HW|]. eapply B; eauto.
    - rewrite F0; [lra|]. intros Q. apply inb_true in Q. congruence. }
  assert (R : rect (Z.of_nat (length Y)) (Z.of_nat (length X)) = rect (A := xr) nr nc) by (rewrite LX, LY, !Z2Nat.id by lia; reflexivity).
  destruct (Rle_lt_dec sigma 0) as [L|L].
  - exists X, Y. eexists. split; [rewrite (D0 L); exact E|]. rewrite R. split; [apply rect_tab; lia|].
    intros i j v Hv. rewrite get2_tab in Hv. destruct (inb nr nc i j); [|discriminate]. injection Hv as <-. eauto.
  - destruct (cut_off_exists sigma) as (r & Hr). exists X, Y. eexists. split; [exact (D r L Hr)|]. rewrite R. split; [apply rect_tab; lia|].
    intros i j v Hv. rewrite get2_tab in Hv. destruct (inb nr nc i j); [|discriminate]. injection Hv as <-. eexists. split; [reflexivity|].
    destruct (Rlt_dec (/ 1000000000000000) sigma); [|apply Hf]. apply blurred_bounds; [eapply cut_off_nonneg; eauto|exact Hf].
Qed.

Lemma blurred_pos sigma r p i j : (0 <= r)%Z -> (forall i j, 0 <= p i j) ->
  (0 < blurred sigma r p i j <-> exists i' j', (Z.abs (i' - i) <= r)%Z /\ (Z.abs (j' - j) <= r)%Z /\ 0 < p i' j').
Proof.
  intros Hr Hp. split.
  - intros H. apply Classical_Prop.NNPP. intros N. apply Rlt_not_le in H. apply H. right. unfold blurred.
    transitivity (zsum (- r) r (fun _ => 0)); [|apply zsum_0]. apply zsum_ext. intros a Ha. transitivity (zsum (- r) r (fun _ => 0)); [|apply zsum_0]. apply zsum_ext. intros b Hb.
    replace (p (i + a)%Z (j + b)%Z) with 0; [ring|]. destruct (Hp (i + a)%Z (j + b)%Z) as [P|P]; [|exact P]. exfalso. apply N.
    exists (i + a)%Z, (j + b)%Z. repeat split; [lia|lia|exact P].
  - intros (i' & j' & Hi & Hj & P).
    assert (NN : forall a b, 0 <= bell_weight sigma r a * bell_weight sigma r b * p (i + a)%Z (j + b)%Z).
    { intros a b. pose proof (weight_pos sigma r a Hr). pose proof (weight_pos sigma r b Hr). apply Rmult_le_pos; [nra|apply Hp]. }
    unfold blurred. apply Rlt_le_trans with (bell_weight sigma r (i' - i) * bell_weight sigma r (j' - j) * p (i + (i' - i))%Z (j + (j' - j))%Z).
    + replace (i + (i' - i))%Z with i' by lia. replace (j + (j' - j))%Z with j' by lia. pose proof (weight_pos sigma r (i' - i) Hr). pose proof (weight_pos sigma r (j' - j) Hr).
      apply Rmult_lt_0_compat; [nra|exact P].
    + apply Rle_trans with (zsum (- r) r (fun b => bell_weight sigma r (i' - i) * bell_weight sigma r b * p (i + (i' - i))%Z (j + b)%Z)).
      * apply (zsum_term (- r) r (fun b => bell_weight sigma r (i' - i) * bell_weight sigma r b * p (i + (i' - i))%Z (j + b)%Z)); [lia|]. intros; apply NN.
      * apply (zsum_term (- r) r (fun a => zsum (- r) r (fun b => bell_weight sigma r a * bell_weight sigma r b * p (i + a)%Z (j + b)%Z))); [lia|].
        intros a _. apply zsum_nonneg. intros; apply NN.
Qed.

(** Smoothing spreads the captured region by exactly the cut-off: a drawn value is positive exactly when a node of
    positive probability is at most [r] rows and [r] columns away. *)
Lemma c84_spread : forall (s : pfield xr) (W sigma : R) (r : Z), wf s -> total s W -> 0 < W ->
  (forall x y w m, has_node s x y w m -> 0 <= w) -> / 1000000000000000 < sigma -> cut_off sigma r ->
  exists X Y P Q, create_probability_plot s = Ok (X, Y, P) /\ drawn_probabilities fexp s (Fin sigma) = Ok (X, Y, Q) /\
    forall i j v, get2 Q i j = Some (Fin v) ->
      (0 < v <-> exists i' j' w, (Z.abs (i' - i) <= r)%Z /\ (Z.abs (j' - j) <= r)%Z /\ get2 P i' j' = Some (Fin w) /\ 0 < w).
Proof.
  intros s W sigma r Hwf HT HW Hn Hs Hr. destruct (drawn_form s W sigma Hwf HT HW) as (nr & nc & X & Y & f & Hnr & Hnc & LX & LY & E & F0 & F1 & D & _).
  specialize (D r ltac:(lra) Hr). destruct (Rlt_dec (/ 1000000000000000) sigma); [|lra].
  assert (Hf : forall i j, 0 <= f i j).
  { intros i j. destruct (inb nr nc i j) eqn:I.
    - apply inb_true in I. destruct (F1 i j) as (x & y & w & m & Hno & ->); [tauto..|]. apply Hn in Hno. apply Rmult_le_pos; [exact Hno|left; apply Rinv_0_lt_compat; exact HW].
    - rewrite F0; [lra|]. intros Q. apply inb_true in Q. congruence. }
  exists X, Y. eexists. eexists. split; [exact E|]. split; [exact D|].
  intros i j v Hv. rewrite get2_tab in Hv. destruct (inb nr nc i j); [|discriminate]. injection Hv as <-.
  rewrite blurred_pos; [|eapply cut_off_nonneg; [|exact Hr]; lra|exact Hf]. split.
  - intros (i' & j' & A & B & C). exists i', j', (f i' j'). repeat split; try assumption. rewrite get2_tab.
    destruct (inb nr nc i' j') eqn:I; [reflexivity|]. exfalso. rewrite F0 in C; [lra|]. intros Q. apply inb_true in Q. congruence.
  - intros (i' & j' & w & A & B & C & Dw). exists i', j'. repeat split; try assumption. rewrite get2_tab in C. destruct (inb nr nc i' j'); [|discriminate]. injection C as ->. exact Dw.
Qed.

Lemma blurred_total sigma r p nr nc : (0 <= r)%Z -> (0 < nr)%Z -> (0 < nc)%Z -> (forall i j, 0 <= p i j) ->
  (forall i j, ~ ((0 <= i < nr)%Z /\ (0 <= j < nc)%Z) -> p i j = 0) ->
  let total f := zsum 0 (nr - 1) (fun i => zsum 0 (nc - 1) (f i)) in
  total (blurred sigma r p) <= total p /\
  ((forall i j, 0 < p i j -> (r <= i < nr - r)%Z /\ (r <= j < nc - r)%Z) -> total (blurred sigma r p) = total p).
Proof.
  intros Hr Hnr Hnc Hp H0 total.
  set (sh := fun a b => total (fun i j => p (i + a)%Z (j + b)%Z)).
  assert (E : total (blurred sigma r p) = zsum (- r) r (fun a => zsum (- r) r (fun b => bell_weight sigma r a * bell_weight sigma r b * sh a b))).
  { unfold total, blurred, sh.
    rewrite (zsum_ext _ _ _ (fun i => zsum (- r) r (fun a => zsum (- r) r (fun b => zsum 0 (nc - 1) (fun j => bell_weight sigma r a * bell_weight sigma r b * p (i + a)%Z (j + b)%Z))))).
    2:{ intros i _. rewrite zsum_swap. apply zsum_ext. intros a _. apply zsum_swap. }
    rewrite zsum_swap. apply zsum_ext. intros a _. rewrite zsum_swap. apply zsum_ext. intros b _. etransitivity; [|apply zsum_scal]. apply zsum_ext. intros i _. apply zsum_scal. }
  assert (S : forall a b, (- r <= a <= r)%Z -> (- r <= b <= r)%Z -> sh a b = zsum (0 + a) (nr - 1 + a) (fun i => zsum (0 + b) (nc - 1 + b) (fun j => p i j))).
  { intros a b _ _. unfold sh, total. rewrite <- zsum_shift. apply zsum_ext. intros i _. rewrite <- zsum_shift. reflexivity. }
  assert (Inner : forall i lo hi, (lo <= 0)%Z -> (nc - 1 <= hi)%Z -> zsum lo hi (fun j => p i j) = zsum 0 (nc - 1) (fun j => p i j)).
  { intros i lo hi A B. apply zsum_support; [lia|lia|lia|]. intros k Hk. apply H0. lia. }
  assert (Outer : forall (q : Z -> R) lo hi, (forall i, ~ (0 <= i < nr)%Z -> q i = 0) -> (lo <= 0)%Z -> (nr - 1 <= hi)%Z -> zsum lo hi q = zsum 0 (nr - 1) q).
  { intros q lo hi Q A B. apply zsum_support; [lia|lia|lia|]. intros k Hk. apply Q. lia. }
  assert (Kw : forall c, zsum (- r) r (fun a => zsum (- r) r (fun b => bell_weight sigma r a * bell_weight sigma r b * c)) = c).
  { intros c. rewrite (zsum_ext _ _ _ (fun a => c * bell_weight sigma r a)).
    - rewrite zsum_scal, weight_sum by exact Hr. ring.
    - intros a _. rewrite (zsum_ext _ _ _ (fun b => (c * bell_weight sigma r a) * bell_weight sigma r b)) by (intros; ring). rewrite zsum_scal, weight_sum by exact Hr. ring. }
  rewrite E. split.
  - rewrite <- (Kw (total p)). apply zsum_le. intros a Ha. apply zsum_le. intros b Hb.
    pose proof (weight_pos sigma r a Hr). pose proof (weight_pos sigma r b Hr). apply Rmult_le_compat_l; [nra|]. rewrite S by assumption. unfold total.
    apply Rle_trans with (zsum (- r) (nr - 1 + r) (fun i => zsum (- r) (nc - 1 + r) (p i))).
    + apply Rle_trans with (zsum (0 + a) (nr - 1 + a) (fun i => zsum (- r) (nc - 1 + r) (p i))).
      * apply zsum_le. intros i _. apply zsum_window; [lia|lia|lia|apply Hp].
      * apply zsum_window; [lia|lia|lia|]. intros i. apply zsum_nonneg. intros; apply Hp.
    + right. rewrite (Outer (fun i => zsum (- r) (nc - 1 + r) (p i))); [|intros i Hi|lia|lia].
      * apply zsum_ext. intros i _. apply Inner; lia.
      * rewrite <- (zsum_0 (- r) (nc - 1 + r)). apply zsum_ext. intros j _. apply H0. lia.
  - intros Hin. etransitivity; [|apply (Kw (total p))]. apply zsum_ext. intros a Ha. apply zsum_ext. intros b Hb. f_equal. rewrite S by assumption.
    assert (Z0 : forall i j, ~ ((r <= i < nr - r)%Z /\ (r <= j < nc - r)%Z) -> p i j = 0).
    { intros i j Q. destruct (Hp i j) as [P|P]; [exfalso; apply Q, Hin, P|symmetry; exact P]. }
    assert (I2 : forall i, zsum (0 + b) (nc - 1 + b) (fun j => p i j) = zsum 0 (nc - 1) (fun j => p i j)).
    { intros i. destruct (Z.le_gt_cases (2 * r) nc) as [L|L].
      - transitivity (zsum r (nc - r - 1) (fun j => p i j)); [|symmetry]; (apply zsum_support; [lia|lia|lia|]; intros k Hk; apply Z0; lia).
      - rewrite (zsum_ext _ _ _ (fun _ => 0)) by (intros; apply Z0; lia). rewrite zsum_0. symmetry. rewrite (zsum_ext _ _ _ (fun _ => 0)) by (intros; apply Z0; lia). apply zsum_0. }
    unfold total. rewrite (zsum_ext (0 + a) _ _ (fun i => zsum 0 (nc - 1) (p i))) by (intros; apply I2).
    assert (Z1 : forall i, ~ (r <= i < nr - r)%Z -> zsum 0 (nc - 1) (p i) = 0).
    { intros i Q. rewrite <- (zsum_0 0 (nc - 1)). apply zsum_ext. intros; apply Z0; lia. }
    destruct (Z.le_gt_cases (2 * r) nr) as [L|L].
    + transitivity (zsum r (nr - r - 1) (fun i => zsum 0 (nc - 1) (p i))); [|symmetry]; (apply zsum_support; [lia|lia|lia|]; intros k Hk; apply Z1; lia).
    + rewrite (zsum_ext _ _ _ (fun _ => 0)) by (intros; apply Z1; lia). rewrite zsum_0. symmetry. rewrite (zsum_ext _ _ _ (fun _ => 0)) by (intros; apply Z1; lia). apply zsum_0.
Qed.

(** The sum of the drawn values (the expected captured area in cells) does not exceed the sum of the probabilities; it
    is the same when every node of positive probability is at least [r] nodes away from the border of the grid. *)
Lemma c84_total : forall (s : pfield xr) (W sigma : R) (r : Z), wf s -> total s W -> 0 < W ->
  (forall x y w m, has_node s x y w m -> 0 <= w) -> / 1000000000000000 < sigma -> cut_off sigma r ->
  exists X Y P Q, create_probability_plot s = Ok (X, Y, P) /\ drawn_probabilities fexp s (Fin sigma) = Ok (X, Y, Q) /\
    let nr := Z.of_nat (length Y) in let nc := Z.of_nat (length X) in
    let sum G := zsum 0 (nr - 1) (fun i => zsum 0 (nc - 1) (table G i)) in
    sum Q <= sum P /\
    ((forall i j w, get2 P i j = Some (Fin w) -> 0 < w -> (r <= i < nr - r)%Z /\ (r <= j < nc - r)%Z) -> sum Q = sum P).
Proof.
  intros s W sigma r Hwf HT HW Hn Hs Hr. destruct (drawn_form s W sigma Hwf HT HW) as (nr & nc & X & Y & f & Hnr & Hnc & LX & LY & E & F0 & F1 & D & _).
  specialize (D r ltac:(lra) Hr). destruct (Rlt_dec (/ 1000000000000000) sigma); [|lra].
  assert (Hf : forall i j, 0 <= f i j).
  { intros i j. destruct (inb nr nc i j) eqn:I.
    - apply inb_true in I. destruct (F1 i j) as (x & y & w & m & Hno & ->); [tauto..|]. apply Hn in Hno. apply Rmult_le_pos; [exact Hno|left; apply Rinv_0_lt_compat; exact HW].
    - rewrite F0; [lra|]. intros Q. apply inb_true in Q. congruence. }
  exists X, Y. eexists. eexists. split; [exact E|]. split; [exact D|]. cbn zeta. rewrite LX, LY, !Z2Nat.id by lia.
  assert (TS : forall g, zsum 0 (nr - 1) (fun i => zsum 0 (nc - 1) (table (tab nr nc (fun i j => Fin (g i j))) i)) = zsum 0 (nr - 1) (fun i => zsum 0 (nc - 1) (g i))).
  { intros g. apply zsum_ext. intros i Hi. apply zsum_ext. intros j Hj. rewrite table_tab. replace (inb _ _ _ _) with true by (symmetry; apply inb_true; lia). reflexivity. }
  rewrite !TS. destruct (blurred_total sigma r f nr nc) as [A B]; [eapply cut_off_nonneg; [|exact Hr]; lra|lia|lia|exact Hf|exact F0|].
  cbv zeta in A, B. split; [exact A|]. intros H. apply B. intros i j P. apply (H i j (f i j)); [|exact P]. rewrite get2_tab.
  destruct (inb nr nc i j) eqn:I; [reflexivity|]. exfalso. rewrite F0 in P; [lra|]. intros Q. apply inb_true in Q. congruence.
Qed.
