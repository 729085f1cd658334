(** * Concrete cases for the probability-field theorems *)
From Coq Require Import Reals Lra Lia Psatz.
From Verif Require Import Py Num NumXR Grid ModelField SpecField ProofGeom ProofField ProofInsert ProofOps ProofFieldProps ProofFieldHist.
Local Open Scope R_scope.

Lemma extent_eq s a b c d a' b' c' d' :
  extent s a b c d -> a = a' -> b = b' -> c = c' -> d = d' -> extent s a' b' c' d'.
Proof. intros H -> -> -> ->. exact H. Qed.

(** The 3x3 field with unit spacing around the origin. *)
Lemma field0 : exists s, pf_init (Fin 1) (Fin 1) (Fin 0) (Fin 0) = Ok s /\ wf s /\ initialised s /\
  extent s (-1) 1 (-1) 1 /\ total s 0 /\ deltax s = Fin 1 /\ deltay s = Fin 1 /\
  (forall x y w m, has_node s x y w m <->
     w = 0 /\ m = false /\ (x = -1 \/ x = 0 \/ x = 1) /\ (y = -1 \/ y = 0 \/ y = 1)).
Proof.
  destruct (c01_constructor_centred 1 1 0 0 ltac:(lra) ltac:(lra)) as (s & E & Hw & Hi & Hx & Ht & Hn).
  exists s. split; [exact E|]. split; [exact Hw|]. split; [exact Hi|]. split.
  { apply (extent_eq _ _ _ _ _ _ _ _ _ Hx); ring. }
  split; [exact Ht|]. split; [rewrite pf_init_fin in E by lra; injection E as <-; reflexivity|].
  split; [rewrite pf_init_fin in E by lra; injection E as <-; reflexivity|].
  intros x y w m. rewrite Hn. replace (0 - 1) with (-1) by ring. replace (0 + 1) with 1 by ring. tauto.
Qed.

Lemma near_horizontal x y : near (1/2) (-1, 0) (1, 0) (x, y) <->
  (-1 <= x <= 1 /\ -1/2 < y < 1/2) \/ (x < -1 /\ (x+1)*(x+1) + y*y < 1/4) \/ (1 < x /\ (x-1)*(x-1) + y*y < 1/4).
Proof.
  split.
  - intros (p & (t & Ht & ->) & Hd). unfold dist2 in Hd. cbn in Hd.
    set (z := (1 - t) * -1 + t * 1) in *. assert (-1 <= z <= 1) by (unfold z; lra). clearbody z.
    replace ((1 - t) * 0 + t * 0 - y) with (- y) in Hd by ring.
    destruct (Rlt_dec x (-1)); [right; left; split; nra|]. destruct (Rlt_dec 1 x); [right; right; split; nra|].
    left. split; [lra|]. pose proof (Rle_0_sqr (z - x)). unfold Rsqr in *. split; nra.
  - intros [[Hx Hy]|[[Hx H]|[Hx H]]].
    + exists (x, 0). split; [|unfold dist2; cbn; nra]. exists ((x + 1) / 2). split; [lra|]. cbn. f_equal; lra.
    + exists (-1, 0). split; [|unfold dist2; cbn; nra]. exists 0. split; [lra|]. cbn. f_equal; lra.
    + exists (1, 0). split; [|unfold dist2; cbn; nra]. exists 1. split; [lra|]. cbn. f_equal; lra.
Qed.

(** expand(2, 3, -5, 0) on [field0]: three columns are added on the right, five rows below. *)
Lemma c02_expand_example : forall s,
  pf_init (Fin 1) (Fin 1) (Fin 0) (Fin 0) = Ok s ->
  exists fuel s', expand fuel s (Fin 2) (Fin 3) (Fin (-5)) (Fin 0) = (s', Ok tt) /\ extent s' (-1) 4 (-6) 1.
Proof.
  intros s E. destruct field0 as (s0 & E0 & Hw & Hi & Hx & Ht & D1 & D2 & Hn). rewrite E in E0. injection E0 as <-.
  destruct (c07_expand_terminates s 2 3 (-5) 0 Hw ltac:(lra) ltac:(lra)) as (n & Hf). specialize (Hf n (le_n n)).
  exists n. destruct (expand n s _ _ _ _) as [s' r] eqn:Ee. cbn in Hf. subst r. exists s'. split; [reflexivity|].
  destruct (c05_expand_minimal _ _ _ _ _ _ _ _ _ _ _ _ _ Hw Hx D1 D2 Ee) as (l & r & b & t & Hp & Hext & H1 & H2 & H3 & H4).
  assert (l = 0%Z). { assert (l <= 0)%Z by (apply H1; [lia|lra]). lia. }
  assert (r = 3%Z).
  { assert (r <= 3)%Z by (apply H2; [lia|lra]). assert (~ r <= 2)%Z by (intros H'; apply H2 in H'; [lra|lia]). lia. }
  assert (b = 5%Z).
  { assert (b <= 5)%Z by (apply H3; [lia|lra]). assert (~ b <= 4)%Z by (intros H'; apply H3 in H'; [lra|lia]). lia. }
  assert (t = 0%Z). { assert (t <= 0)%Z by (apply H4; [lia|lra]). lia. }
  subst. apply (extent_eq _ _ _ _ _ _ _ _ _ Hext); ring.
Qed.

(** A worked history: two insertions, one registered and one discarded, then growth. *)
Definition history : list (op xr) :=
  [OInsert (Fin (-1)) (Fin 0) (Fin 1) (Fin 0) (Fin (1/2)); ORegister (Fin 2);
   OInsert (Fin (-1)) (Fin 0) (Fin 1) (Fin 0) (Fin (1/2)); OReset; ORegister (Fin 3);
   OExpand (Fin 2) (Fin 3) (Fin (-5)) (Fin 0)].

Lemma history_finite : Forall finite_op history.
Proof. repeat constructor; lra. Qed.
Lemma history_nonneg : Forall nonneg_weight history.
Proof.
  repeat constructor.
  - exists 2. split; [reflexivity|lra].
  - exists 3. split; [reflexivity|lra].
Qed.

Lemma run_run_ops fuel l : forall s s', run fuel s l s' -> run_ops fuel s l = s'.
Proof.
  induction l as [|o l IH]; intros s s' H; inversion H as [|s0 o' s1 l' s0' Ho Hr]; subst; [reflexivity|].
  unfold run_ops. cbn [fold_left]. rewrite Ho. now apply IH.
Qed.

Lemma c15_history_example : forall s0,
  pf_init (Fin 1) (Fin 1) (Fin 0) (Fin 0) = Ok s0 ->
  exists fuel s, run fuel s0 history s /\ Forall finite_op history /\ Forall nonneg_weight history /\
    run_ops fuel s0 history = s /\ wf s /\ total s 5 /\
    has_node s 0 0 2 false /\ has_node s 0 1 0 false /\ has_node s 4 (-6) 0 false /\
    (exists l, Ledger fuel 0 0 s0 false history s 2 l).
Proof.
  intros s0 E. destruct field0 as (s' & E0 & Hw & Hi & Hx & Ht & D1 & D2 & Hn). rewrite E in E0. injection E0 as <-.
  assert (U : 0 <= 1/2) by lra.
  destruct (c10_insert_exact s0 (-1, 0) (1, 0) (1/2) Hw Hi U) as (s1 & R1 & W1 & I1 & N1 & X1 & T1 & D11 & D12).
  destruct (c14_register_exact s1 2 W1 I1) as (s2 & R2 & W2 & N2 & T2 & X2 & D21 & D22).
  assert (I2 : initialised s2) by (destruct (X2 _ _ _ _ (X1 _ _ _ _ Hx)) as (g & Hg & _); unfold initialised; congruence).
  destruct (c10_insert_exact s2 (-1, 0) (1, 0) (1/2) W2 I2 U) as (s3 & R3 & W3 & I3 & N3 & X3 & T3 & D31 & D32).
  destruct (c14_reset_exact s3 W3 I3) as (s4 & R4 & W4 & N4 & T4 & X4 & D41 & D42).
  assert (I4 : initialised s4).
  { destruct (X4 _ _ _ _ (X3 _ _ _ _ (X2 _ _ _ _ (X1 _ _ _ _ Hx)))) as (g & Hg & _). unfold initialised. congruence. }
  destruct (c14_register_exact s4 3 W4 I4) as (s5 & R5 & W5 & N5 & T5 & X5 & D51 & D52).
  pose proof (X5 _ _ _ _ (X4 _ _ _ _ (X3 _ _ _ _ (X2 _ _ _ _ (X1 _ _ _ _ Hx))))) as X5'.
  assert (I5 : initialised s5) by (destruct X5' as (g & Hg & _); unfold initialised; congruence).
  destruct (c07_expand_terminates s5 2 3 (-5) 0 W5 ltac:(lra) ltac:(lra)) as (n & Hf). specialize (Hf n (le_n n)).
  destruct (expand n s5 (Fin 2) (Fin 3) (Fin (-5)) (Fin 0)) as [s6 r] eqn:R6. cbn in Hf. subst r.
  destruct (c03_expand_preserves _ _ _ _ _ _ _ W5 I5 R6) as (K1 & K2 & K3 & D61 & D62).
  destruct (c02_expand_contains _ _ _ _ _ _ _ W5 R6) as (W6 & x0 & x1 & y0 & y1 & X6 & B6).
  assert (Hrun : run n s0 history s6).
  { unfold history. repeat (eapply run_cons; [cbn [run_op]; eassumption|]). apply run_nil. }
  assert (A00 : has_node s6 0 0 2 false).
  { apply K1, N5. split; [reflexivity|]. exists 2, false. split; [|reflexivity].
    apply N4. split; [reflexivity|]. exists true. apply N3. exists false. split.
    - apply N2. split; [reflexivity|]. exists 0, true. split; [|ring]. apply N1. exists false.
      split; [apply Hn; lra|]. split; [|auto]. intros _. right. split; [intros F; injection F; lra|].
      apply near_horizontal. lra.
    - split; [|auto]. intros _. right. split; [intros F; injection F; lra|]. apply near_horizontal. lra. }
  assert (N5' : forall y, y = -1 \/ y = 0 \/ y = 1 -> forall x, x = -1 \/ x = 0 \/ x = 1 -> ~ near (1/2) (-1,0) (1,0) (x, y) -> has_node s5 x y 0 false).
  { intros y Hy x Hxx Hnn. apply N5. split; [reflexivity|]. exists 0, false. split; [|reflexivity].
    apply N4. split; [reflexivity|]. exists false. apply N3. exists false. split; [|split; [discriminate|tauto]].
    apply N2. split; [reflexivity|]. exists 0, false. split; [|reflexivity]. apply N1. exists false. split; [apply Hn; auto|].
    split; [discriminate|tauto]. }
  assert (A01 : has_node s6 0 1 0 false).
  { apply K1, N5'; auto. rewrite near_horizontal. lra. }
  exists n, s6. split; [exact Hrun|]. split; [apply history_finite|]. split; [apply history_nonneg|].
  split; [now apply run_run_ops|]. split; [exact W6|]. split.
  { apply K3. replace 5 with (0 + 2 + 3) by ring. exact (T5 _ (T4 _ (T3 _ (T2 _ (T1 _ Ht))))). }
  split; [exact A00|]. split; [exact A01|]. split.
  - assert (Hnode : is_node s6 4 (-6)).
    { replace 4 with (0 + IZR 4 * 1) by ring. replace (-6) with (0 + IZR (-6) * 1) by ring.
      destruct (c05_expand_minimal _ _ _ _ _ _ _ _ _ _ _ 1 1 W5 X5' ltac:(congruence) ltac:(congruence) R6) as (l & r & b & t & Hp & Hext & H1 & H2 & H3 & H4).
      assert (IZR r <= 3 /\ 3 <= IZR r).
      { split; apply IZR_le.
        - apply H2; [lia|lra].
        - assert (~ r <= 2)%Z by (intros H'; apply H2 in H'; [lra|lia]). lia. }
      assert (IZR b <= 5 /\ 5 <= IZR b).
      { split; apply IZR_le.
        - apply H3; [lia|lra].
        - assert (~ b <= 4)%Z by (intros H'; apply H3 in H'; [lra|lia]). lia. }
      assert (IZR l = 0 /\ IZR t = 0).
      { split; apply IZR_eq.
        - assert (l <= 0)%Z by (apply H1; [lia|lra]). lia.
        - assert (t <= 0)%Z by (apply H4; [lia|lra]). lia. }
      eapply lattice_in_extent; [exact W6|exists 2, false; exact A00|exact Hext|congruence|congruence|lra|lra]. }
    destruct Hnode as (w & m & Hm). destruct (K2 _ _ _ _ Hm) as [Hold|(_ & -> & ->)]; [|exact Hm].
    exfalso. destruct (node_in_extent s5 4 (-6) _ _ _ _ W5 ltac:(unfold is_node; eauto) X5'). lra.
  - destruct (c15_ledger_exists n 0 0 history s0 false s6 0 0 Hw history_finite Hrun) as (c & t & HL & A1 & A2).
    + split; [discriminate|]. intros (w & H). apply Hn in H. destruct H as (_ & H & _). discriminate.
    + left. exists false. apply Hn. lra.
    + left. exact Ht.
    + exists t. rewrite Rplus_0_l in A1. destruct A1 as [(m & H)|[H _]].
      * destruct (has_node_fun _ _ _ _ _ _ _ W6 H A00) as [-> _]. exact HL.
      * destruct H. exists 2, false. exact A00.
Qed.

(** distancesquared((0,1), (1,0), (0,0)) = 1/2, the repository's own test value. *)
Lemma c09_distance_example :
  distancesquared (Fin 0) (Fin 1) (Fin 1) (Fin 0) (Fin 0) (Fin 0) = Fin (1/2).
Proof.
  rewrite distancesquared_fin by (intros E; injection E; lra). f_equal. unfold dsq, perp, dotp, len2. cbn.
  rb; lra.
Qed.

(** rasterize on [field0]: the track from (0,0) to (3,0) with umbra 1/2. *)
Lemma c11_rasterize_example : forall s,
  pf_init (Fin 1) (Fin 1) (Fin 0) (Fin 0) = Ok s ->
  exists fuel s', rasterize fuel s (xs [(0, 0); (3, 0)]) (ys [(0, 0); (3, 0)]) (Fin (1/2)) = (s', Ok tt) /\
    marked s' 2 0 /\ is_node s' 2 1 /\ ~ marked s' 2 1.
Proof.
  intros s E. destruct field0 as (s0 & E0 & Hw & Hi & Hx & Ht & D1 & D2 & Hn). rewrite E in E0. injection E0 as <-.
  set (tr := [(0, 0); (3, 0)] : list point).
  assert (U : 0 <= 1/2) by lra.
  destruct (c11_rasterize_returns s tr (1/2) Hw ltac:(discriminate) U) as (n & R). specialize (R n (le_n n)).
  destruct R as (s' & R & W' & I'). exists n, s'. split; [exact R|].
  destruct (c11_rasterize_exact _ _ _ _ _ Hw Hi U R) as (_ & _ & K1 & K2 & _ & x0 & x1 & y0 & y1 & X & B).
  destruct (c11_rasterize_spacing _ _ _ _ _ Hw U R Hi) as [S1 S2].
  pose proof (B (0, 0) ltac:(left; reflexivity)) as B0. pose proof (B (3, 0) ltac:(right; left; reflexivity)) as B3. cbn in B0, B3.
  assert (N00 : is_node s' 0 0) by (destruct (K1 0 0 0 false) as (m & H); [apply Hn; lra|unfold is_node; eauto]).
  assert (N01 : is_node s' 0 1) by (destruct (K1 0 1 0 false) as (m & H); [apply Hn; lra|unfold is_node; eauto]).
  assert (N20 : is_node s' (0 + IZR 2 * 1) (0 + IZR 0 * 1)).
  { eapply lattice_in_extent; [exact W'|exact N00|exact X|congruence|congruence|lra|lra]. }
  destruct (node_in_extent _ _ _ _ _ _ _ W' N01 X).
  assert (N21 : is_node s' (0 + IZR 2 * 1) (1 + IZR 0 * 1)).
  { eapply lattice_in_extent; [exact W'|exact N01|exact X|congruence|congruence|lra|lra]. }
  replace (0 + 2 * 1) with 2 in * by ring. replace (0 + 0 * 1) with 0 in * by ring. replace (1 + 0 * 1) with 1 in * by ring.
  assert (Seg : forall p q, consecutive tr p q -> p = (0, 0) /\ q = (3, 0)).
  { intros p q (k & H1 & H2). destruct k as [|[|[|k]]]; cbn in *; try discriminate. injection H1 as <-. injection H2 as <-. auto. }
  split; [|split; [exact N21|]].
  - destruct N20 as (w & m & H'). exists w. destruct (K2 _ _ _ _ H') as (_ & _ & Hm).
    assert (m = true); [|subst; exact H']. apply Hm. right. exists (0, 0), (3, 0). split; [exists O; auto|].
    split; [intros F; injection F; lra|]. exists (2, 0). split; [|unfold dist2; cbn; lra].
    exists (2/3). split; [lra|]. cbn. apply f_equal2; lra.
  - intros (w & H'). destruct (K2 _ _ _ _ H') as (_ & _ & Hm). destruct (proj1 Hm eq_refl) as [(w' & H'')|(p & q & Hc & _ & r & (t & Htt & ->) & Hd)].
    + apply Hn in H''. lra.
    + apply Seg in Hc. destruct Hc as [-> ->]. unfold dist2 in Hd. cbn in Hd.
      pose proof (Rle_0_sqr ((1 - t) * 0 + t * 3 - 2)). unfold Rsqr in *. nra.
Qed.

(** Spacings 1 and 2 around (3, 4); a zero spacing. *)
Lemma c01_constructor_example :
  (exists s, pf_init (Fin 1) (Fin 2) (Fin 3) (Fin 4) = Ok s /\ has_node s 3 4 0 false /\ has_node s 2 6 0 false /\
             ~ is_node s 3 5) /\
  pf_init (Fin 1) (Fin 0) (Fin 3) (Fin 4) = Raise RangeError /\
  (exists s, pf_init (Fin 1) (Fin 2) NaN (Fin 4) = Ok s /\ ~ initialised s).
Proof.
  split; [|split].
  - destruct (c01_constructor_centred 1 2 3 4 ltac:(lra) ltac:(lra)) as (s & E & _ & _ & _ & _ & Hn).
    exists s. split; [exact E|]. split; [apply Hn; lra|]. split; [apply Hn; lra|].
    intros (w & m & H). apply Hn in H. lra.
  - apply c01_constructor_rejects. lra.
  - destruct (c01_constructor_uncentred 1 2 NaN (Fin 4) ltac:(lra) ltac:(lra) (or_introl eq_refl)) as (s & E & _ & H). eauto.
Qed.

(** Boxes on [field0]: x inverted, y inverted, a single point. *)
Lemma c06_inverted_example : forall s,
  pf_init (Fin 1) (Fin 1) (Fin 0) (Fin 0) = Ok s ->
  expand 5 s (Fin 1) (Fin 0) (Fin 0) (Fin 0) = (s, Raise RangeError) /\
  expand 5 s (Fin 0) (Fin 0) (Fin 1) (Fin 0) = (s, Raise RangeError) /\
  expand 5 s (Fin 0) (Fin 0) (Fin 0) (Fin 0) = (s, Ok tt).
Proof.
  intros s E. destruct field0 as (s0 & E0 & Hw & Hi & Hx & Ht & D1 & D2 & Hn). rewrite E in E0. injection E0 as <-.
  split; [|split].
  - apply (c06_inverted_box 5 s (Fin 1) (Fin 0) (Fin 0) (Fin 0)). left. cbn. apply Rltb_true. lra.
  - apply (c06_inverted_box 5 s (Fin 0) (Fin 0) (Fin 1) (Fin 0)). right. cbn. apply Rltb_true. lra.
  - eapply c05_expand_noop; try eassumption; try lia; lra.
Qed.

(** A field without centre. *)
Lemma c18_uninitialised_example : exists s,
  pf_init (Fin 1) (Fin 1) NaN NaN = Ok s /\ register s (Fin 1) = (s, Raise AttributeError) /\
  exists s', rasterize 9 s (xs [(0, 0); (3, 0)]) (ys [(0, 0); (3, 0)]) (Fin (1/2)) = (s', Ok tt) /\ initialised s'.
Proof.
  destruct (c01_constructor_uncentred 1 1 NaN NaN ltac:(lra) ltac:(lra) (or_introl eq_refl)) as (s & E & Hw & Hi).
  exists s. split; [exact E|]. destruct (c18_uninitialised s 9 Hi) as (_ & Hr & _ & _ & Hq).
  split; [apply Hr|]. destruct (Hq Hw [(0, 0); (3, 0)] (1/2) ltac:(discriminate) ltac:(lra)) as (s' & E' & _ & I'). eauto.
Qed.

(** A segment inserted and then discarded leaves weights, total and marks as they were. *)
Lemma c17_reset_example : forall s,
  pf_init (Fin 1) (Fin 1) (Fin 0) (Fin 0) = Ok s ->
  let s1 := run_ops 9 s [OInsert (Fin (-1)) (Fin 0) (Fin 1) (Fin 0) (Fin (1/2))] in
  let s2 := run_ops 9 s ([OInsert (Fin (-1)) (Fin 0) (Fin 1) (Fin 0) (Fin (1/2))] ++ [OReset]) in
  marked s1 0 0 /\ ~ marked s2 0 0 /\ weight_at s2 0 0 0 /\ total_at s2 0.
Proof.
  intros s E s1 s2. destruct field0 as (s0 & E0 & Hw & Hi & Hx & Ht & D1 & D2 & Hn). rewrite E in E0. injection E0 as <-.
  destruct (c17_reset_discards 9 [OInsert (Fin (-1)) (Fin 0) (Fin 1) (Fin 0) (Fin (1/2))] s Hw) as (A & B & C).
  { repeat constructor. }
  split; [|split; [apply C|split; [apply A|apply B]]].
  - destruct (c10_insert_exact s (-1, 0) (1, 0) (1/2) Hw Hi ltac:(lra)) as (s' & R & _ & _ & N & _).
    unfold s1, run_ops. cbn [fold_left run_op]. cbn [fst snd] in R. rewrite R. cbn [fst].
    exists 0. apply N. exists false. split; [apply Hn; lra|]. split; [|auto]. intros _. right.
    split; [intros F; injection F; lra|]. apply near_horizontal. lra.
  - left. exists false. apply Hn. lra.
  - left. exact Ht.
Qed.
