(** * The observation filter in exact arithmetic: properties C48-C50, C52-C54 *)
From Coq Require Import Reals Lra Lia Psatz.
From Verif Require Import Py Num NumXR ModelAquifer ModelObs SpecAquifer SpecObs ProofAquifer ProofObs.
Local Open Scope R_scope.

(** ** A group and its average *)

Fixpoint best_weights (P : R) (g : list (obs R)) : list R :=
  match g with [] => [] | o :: g' => prec o / P :: best_weights P g' end.

Lemma best_weights_length P g : length (best_weights P g) = length g.
Proof. induction g; cbn; congruence. Qed.
Lemma best_weights_sum P g : P <> 0 -> wsum (fun a _ => a) (best_weights P g) g = Rsum prec g / P.
Proof. intros. induction g; cbn [best_weights wsum Rsum fold_right]; [field; auto|]. rewrite IHg. unfold Rsum. field. auto. Qed.
Lemma best_weights_avg P g : P <> 0 -> sq_nonzero g -> average (best_weights P g) g = Rsum wval g / P.
Proof.
  intros H Z. unfold average. induction g as [|o g IH]; cbn [best_weights wsum Rsum fold_right]; [field; auto|].
  rewrite IH by (intros p Hp; apply Z; right; exact Hp). assert (os o <> 0) by (apply Z; left; reflexivity).
  unfold Rsum, prec, wval. field. auto.
Qed.
Lemma best_weights_var P g : P <> 0 -> sq_nonzero g -> variance (best_weights P g) g = Rsum prec g / (P * P).
Proof.
  intros H Z. unfold variance. induction g as [|o g IH]; cbn [best_weights wsum Rsum fold_right]; [field; auto|].
  rewrite IH by (intros p Hp; apply Z; right; exact Hp). assert (os o <> 0) by (apply Z; left; reflexivity).
  unfold Rsum, prec. field. auto.
Qed.
Lemma variance_bound g w P : P <> 0 -> sq_nonzero g -> length w = length g ->
  0 <= variance w g - 2 / P * wsum (fun a _ => a) w g + Rsum prec g / (P * P).
Proof.
  intros H Z. revert w. induction g as [|o g IH]; intros [|a w] L; try discriminate L.
  - unfold variance. cbn. unfold Rdiv. lra.
  - injection L as L. assert (Z' : sq_nonzero g) by (intros p Hp; apply Z; right; exact Hp).
    assert (S : os o <> 0) by (apply Z; left; reflexivity). specialize (IH Z' w L).
    unfold variance in *. cbn [wsum Rsum fold_right]. fold (Rsum prec g).
    assert (0 <= (a * os o - 1 / (P * os o)) * (a * os o - 1 / (P * os o))) by apply Rle_0_sqr.
    assert (E : (a * os o - 1 / (P * os o)) * (a * os o - 1 / (P * os o))
                = a * os o * (a * os o) - 2 / P * a + prec o / (P * P)) by (unfold prec; field; auto).
    replace ((prec o + Rsum prec g) / (P * P)) with (prec o / (P * P) + Rsum prec g / (P * P)) by (field; auto).
    lra.
Qed.

Lemma Rle_em a b : a <= b \/ ~ a <= b.
Proof. destruct (Rle_dec a b); tauto. Qed.
Lemma wval_between a g P : sq_nonzero (a :: g) -> P = Rsum prec (a :: g) ->
  (exists p, In p (a :: g) /\ oz p <= Rsum wval (a :: g) / P) /\ (exists q, In q (a :: g) /\ Rsum wval (a :: g) / P <= oz q).
Proof.
  intros Z HP. pose proof (prec_sum_pos _ _ Z) as Q. rewrite <- HP in Q.
  assert (K : forall l, sq_nonzero l -> (forall z, (forall p, In p l -> z < oz p) -> l <> [] -> z * Rsum prec l < Rsum wval l)
                 /\ (forall z, (forall p, In p l -> oz p < z) -> l <> [] -> Rsum wval l < z * Rsum prec l)).
  { intros l. induction l as [|o l IH]; intros Zl; [split; intros; contradiction|].
    assert (Zl' : sq_nonzero l) by (intros p Hp; apply Zl; right; exact Hp).
    assert (Po : 0 < prec o) by (apply prec_pos, Zl; left; reflexivity).
    assert (W : wval o = oz o * prec o) by (unfold wval, prec; field; apply Zl; left; reflexivity).
    destruct (IH Zl') as [I1 I2]. split; intros z Hz _; cbn [Rsum fold_right]; fold (Rsum prec l); fold (Rsum wval l); rewrite W.
    - assert (z < oz o) by (apply Hz; left; reflexivity).
      destruct l as [|p l]; [cbn; nra|]. specialize (I1 z (fun p Hp => Hz p (or_intror Hp)) ltac:(discriminate)). nra.
    - assert (oz o < z) by (apply Hz; left; reflexivity).
      destruct l as [|p l]; [cbn; nra|]. specialize (I2 z (fun p Hp => Hz p (or_intror Hp)) ltac:(discriminate)). nra. }
  destruct (K _ Z) as [K1 K2]. set (V := Rsum wval (a :: g) / P) in *.
  assert (E : Rsum wval (a :: g) = V * Rsum prec (a :: g)) by (unfold V; rewrite <- HP; field; lra).
  assert (D : forall (Q : obs R -> Prop) (dec : forall o, Q o \/ ~ Q o) l, (exists p, In p l /\ Q p) \/ (forall p, In p l -> ~ Q p)).
  { intros Q' dec l. induction l as [|o l [(p & ? & ?)|IH]]; [right; intros p []|left; exists p; cbn; auto|].
    destruct (dec o); [left; exists o; cbn; auto|]. right. intros p [<-|Hp]; auto. }
  split.
  - destruct (D (fun p => oz p <= V) (fun o => Rle_em _ _) (a :: g)) as [?|C]; [assumption|].
    exfalso. assert (V * Rsum prec (a :: g) < Rsum wval (a :: g)); [|lra].
    apply K1; [|discriminate]. intros p Hp. specialize (C p Hp). lra.
  - destruct (D (fun p => V <= oz p) (fun o => Rle_em _ _) (a :: g)) as [?|C]; [assumption|].
    exfalso. assert (Rsum wval (a :: g) < V * Rsum prec (a :: g)); [|lra].
    apply K2; [|discriminate]. intros p Hp. specialize (C p Hp). lra.
Qed.

Lemma prec_le_sum g : sq_nonzero g -> forall p, In p g -> prec p <= Rsum prec g.
Proof.
  intros Z p. induction g as [|o g IH]; intros Hp; [destruct Hp|]. destruct Hp as [<-|Hp].
  - cbn. pose proof (Rsum_nonneg prec g) as K. unfold Rsum in K.
    assert (0 <= fold_right (fun a s => prec a + s) 0 g); [|lra].
    apply K. intros q Hq. apply Rlt_le, prec_pos, Z. right; exact Hq.
  - cbn. assert (0 < prec o) by (apply prec_pos, Z; left; reflexivity).
    assert (Z' : sq_nonzero g) by (intros q Hq; apply Z; right; exact Hq). specialize (IH Z' Hp). unfold Rsum in IH. lra.
Qed.

Lemma merged_spec a g : g = [] \/ sq_nonzero (a :: g) -> (forall p, In p (a :: g) -> 0 <= os p) ->
  loc (merged a g) = loc a /\ uses_all (a :: g) (merged a g) /\ best_average (a :: g) (merged a g)
  /\ (exists p, In p (a :: g) /\ oz p <= oz (merged a g)) /\ (exists q, In q (a :: g) /\ oz (merged a g) <= oz q)
  /\ (forall p, In p (a :: g) -> os (merged a g) <= os p).
Proof.
  intros H S. destruct g as [|b g].
  - clear H. cbn [merged]. split; [reflexivity|].
    split; [exists [1]; repeat split; [cbn; lra|intros x [<-|[]]; lra|unfold average; cbn; ring]|].
    split.
    + exists [1]. split; [split; [reflexivity|cbn; ring]|].
      split; [unfold average; cbn; ring|]. split; [apply S; left; reflexivity|].
      split; [unfold variance; cbn; ring|].
      intros [|x [|y w]] [L W]; try discriminate L. cbn in W. replace x with 1 by lra. lra.
    + split; [exists a; split; [left; reflexivity|lra]|]. split; [exists a; split; [left; reflexivity|lra]|].
      intros p [<-|[]]. lra.
  - destruct H as [H|Z]; [discriminate H|]. remember (b :: g) as g' eqn:Hg.
    assert (E : merged a g' = {| ox := ox a; oy := oy a; oz := Rsum wval (a :: g') / Rsum prec (a :: g'); os := sqrt (1 / Rsum prec (a :: g')) |})
      by (rewrite Hg; reflexivity).
    pose proof (prec_sum_pos _ _ Z) as P. pose proof (wval_between a g' _ Z eq_refl) as [B1 B2].
    rewrite E; clear E. unfold loc. cbn [ox oy oz os].
    remember (a :: g') as l eqn:Hl. remember (Rsum prec l) as D eqn:HD.
    assert (D0 : D <> 0) by lra. assert (PD : 0 < 1 / D) by (apply Rdiv_lt_0_compat; lra).
    assert (W : weighting (best_weights D l) l).
    { split; [apply best_weights_length|]. rewrite best_weights_sum, <- HD by exact D0. field; exact D0. }
    assert (V : variance (best_weights D l) l = 1 / D) by (rewrite best_weights_var, <- HD by assumption; field; exact D0).
    split; [reflexivity|]. split.
    + exists (best_weights D l). split; [exact W|]. split; [|rewrite best_weights_avg by assumption; reflexivity].
      clear - Z P. assert (K : forall m, sq_nonzero m -> forall x, In x (best_weights D m) -> 0 < x).
      { induction m as [|o m IH]; intros Zm x Hx; [destruct Hx|]. destruct Hx as [<-|Hx].
        - apply Rdiv_lt_0_compat; [apply prec_pos, Zm; left; reflexivity|exact P].
        - apply IH; [intros q Hq; apply Zm; right; exact Hq|exact Hx]. }
      apply K, Z.
    + split; [|split; [exact B1|split; [exact B2|]]].
      * exists (best_weights D l). split; [exact W|]. cbn [oz os].
        split; [rewrite best_weights_avg by assumption; reflexivity|].
        split; [apply sqrt_pos|]. split; [rewrite sqrt_sqrt by lra; symmetry; exact V|].
        intros w [L Sw]. pose proof (variance_bound l w D D0 Z L) as K. rewrite Sw, <- HD in K. rewrite V.
        replace (D / (D * D)) with (1 / D) in K by (field; exact D0). lra.
      * intros p Hp. pose proof (prec_le_sum l Z p Hp) as K. rewrite <- HD in K.
        assert (Sp : 0 < os p) by (specialize (S p Hp); specialize (Z p Hp); lra).
        rewrite <- (sqrt_square (os p)) by lra. apply sqrt_le_1_alt. unfold prec in K.
        assert (0 < os p * os p) by nra.
        apply (Rmult_le_reg_r D); [exact P|]. replace (1 / D * D) with 1 by (field; exact D0).
        apply (Rmult_le_compat_l (os p * os p)) in K; [|lra]. replace (os p * os p * (1 / (os p * os p))) with 1 in K by (field; lra). exact K.
Qed.

Lemma merged_sums a g : sq_nonzero (a :: g) ->
  prec (merged a g) = Rsum prec (a :: g) /\ wval (merged a g) = Rsum wval (a :: g).
Proof.
  intros Z. destruct g as [|b g]; [cbn; split; ring|]. pose proof (prec_sum_pos _ _ Z) as P.
  unfold prec at 1, wval at 1, merged. cbn [oz os]. remember (Rsum prec (a :: b :: g)) as D. remember (Rsum wval (a :: b :: g)) as M.
  assert (0 < 1 / D) by (apply Rdiv_lt_0_compat; lra). rewrite sqrt_sqrt by lra. split; field; lra.
Qed.

(** ** The filter *)

Lemma filter_R l ws b : exists k, survivors (survives ws b) l k /\
  filter_obs (map fobs l) (map floc ws) (Fin b) = merge (length k) (map fobs k).
Proof.
  destruct (kept_R ws b l) as (k & E & S). exists k. split; [exact S|]. unfold filter_obs. rewrite E, map_length. reflexivity.
Qed.

(** Every returned observation stands where an input observation stands, and that place is farther than
    the buffer from every well. *)
Lemma c48_far : forall (l : list (obs R)) (ws : list (R * R)) (b : R) out,
  filter_obs (map fobs l) (map floc ws) (Fin b) = Ok out ->
  forall o', In o' out -> exists o, In o l /\ ox o' = Fin (ox o) /\ oy o' = Fin (oy o)
                                    /\ forall w, In w ws -> b < odist o w.
Proof.
  intros l ws b out H o' Ho'. destruct (filter_R l ws b) as (k & S & E). rewrite E in H.
  destruct (merge_loc _ _ _ H _ Ho') as (o & Ho & X & Y). apply in_map_iff in Ho. destruct Ho as (p & <- & Hp).
  apply (survivors_in _ _ _ S) in Hp. exists p. tauto.
Qed.

Lemma filter_groups l ws b out : (forall o, In o l -> 0 <= os o) ->
  filter_obs (map fobs l) (map floc ws) (Fin b) = Ok out ->
  exists groups outR, out = map fobs outR /\ survivors (survives ws b) l (concat groups) /\
    Forall2 (fun g o' => one_group g /\ at_leader g o' /\ uses_all g o' /\ best_average g o'
                 /\ (exists p, In p g /\ oz p <= oz o') /\ (exists q, In q g /\ oz o' <= oz q)
                 /\ (forall p, In p g -> os o' <= os p)) groups outR.
Proof.
  intros P H. destruct (filter_R l ws b) as (k & S & E). rewrite E in H.
  destruct (merge_R (length k) k (le_n _)) as [(gs & L & C & Z & M)|(M & _)]; rewrite M in H; [|discriminate H].
  injection H as <-. exists (map (fun g => fst g :: snd g) gs), (map (fun g => merged (fst g) (snd g)) gs).
  split; [symmetry; apply map_map|]. rewrite L. split; [exact S|].
  assert (Q : forall g, In g gs -> forall p, In p (fst g :: snd g) -> 0 <= os p).
  { intros g Hg p Hp. apply P. apply (survivors_in _ _ _ S). rewrite <- L. apply in_concat.
    exists (fst g :: snd g). split; [apply in_map_iff; exists g; auto|exact Hp]. }
  clear L M S E. induction gs as [|g gs IH]; [constructor|]. cbn [map]. constructor.
  - destruct (merged_spec (fst g) (snd g) (Z g (or_introl eq_refl)) (Q g (or_introl eq_refl))) as (A1 & A2 & A3 & A4 & A5 & A6).
    split; [exists (fst g), (snd g); split; [reflexivity|apply C; left; reflexivity]|].
    split; [exists (fst g), (snd g); split; [reflexivity|exact A1]|]. auto.
  - apply IH; intros; [apply C|apply Z|eapply Q]; try (right; eassumption); eassumption.
Qed.

Lemma Forall2_weaken {A B} (P Q : A -> B -> Prop) l m : (forall a b, P a b -> Q a b) -> Forall2 P l m -> Forall2 Q l m.
Proof. intros H F. induction F; constructor; auto. Qed.

(** Every surviving observation is used: the survivors are split, in order, into groups, one for each
    returned observation, whose value is an average of the group with a positive weight for each member. *)
Lemma c48_used : forall (l : list (obs R)) (ws : list (R * R)) (b : R) out,
  (forall o, In o l -> 0 <= os o) ->
  filter_obs (map fobs l) (map floc ws) (Fin b) = Ok out ->
  exists groups outR, out = map fobs outR /\
    survivors (fun o => forall w, In w ws -> b < odist o w) l (concat groups) /\
    Forall2 uses_all groups outR.
Proof.
  intros l ws b out P H. destruct (filter_groups _ _ _ _ P H) as (gs & o & -> & S & F).
  exists gs, o. repeat split; [exact S|]. eapply Forall2_weaken; [|exact F]. cbn. tauto.
Qed.

(** The sums of the precisions and of the weighted values are those of the survivors. *)
Lemma c49_sums : forall (l : list (obs R)) (ws : list (R * R)) (b : R),
  (forall o, In o l -> 0 < os o) ->
  exists k out, filter_obs (map fobs l) (map floc ws) (Fin b) = Ok (map fobs out) /\
    survivors (survives ws b) l k /\
    Rsum (fun o => 1 / (os o * os o)) out = Rsum (fun o => 1 / (os o * os o)) k /\
    Rsum (fun o => oz o / (os o * os o)) out = Rsum (fun o => oz o / (os o * os o)) k.
Proof.
  intros l ws b P. destruct (filter_R l ws b) as (k & S & E). rewrite E. exists k.
  assert (Zk : sq_nonzero k) by (intros o Ho; apply (survivors_in _ _ _ S) in Ho; specialize (P o (proj1 Ho)); lra).
  destruct (merge_R (length k) k (le_n _)) as [(gs & L & C & Z & M)|(M & a & p & q & ? & ? & Hq & ? & ? & Q)]; [|exfalso; exact (Zk q Hq Q)].
  exists (map (fun g => merged (fst g) (snd g)) gs). rewrite M, map_map. split; [reflexivity|]. split; [exact S|].
  change (fun o : obs R => 1 / (os o * os o)) with prec. change (fun o : obs R => oz o / (os o * os o)) with wval.
  subst k. clear S E Z C M. induction gs as [|g gs IH]; [cbn; auto|]. cbn [map concat] in *.
  assert (Z1 : sq_nonzero (fst g :: snd g)) by (intros o Ho; apply Zk, in_or_app; left; exact Ho).
  assert (Z2 : sq_nonzero (concat (map (fun g => fst g :: snd g) gs))) by (intros o Ho; apply Zk, in_or_app; right; exact Ho).
  destruct (IH Z2) as [I1 I2]. destruct (merged_sums _ _ Z1) as [M1 M2]. rewrite !Rsum_app, <- M1, <- M2, <- I1, <- I2.
  split; reflexivity.
Qed.

(** Each returned observation is the minimum-variance unbiased average of its group. *)
Lemma c50_best : forall (l : list (obs R)) (ws : list (R * R)) (b : R) out,
  (forall o, In o l -> 0 <= os o) ->
  filter_obs (map fobs l) (map floc ws) (Fin b) = Ok out ->
  exists groups outR, out = map fobs outR /\
    survivors (fun o => forall w, In w ws -> b < odist o w) l (concat groups) /\
    Forall2 (fun g o' =>
      one_group g /\ at_leader g o' /\
      ((exists p, In p g /\ oz p <= oz o') /\ (exists q, In q g /\ oz o' <= oz q)) /\
      (forall p, In p g -> os o' <= os p) /\
      best_average g o') groups outR.
Proof.
  intros l ws b out P H. destruct (filter_groups _ _ _ _ P H) as (gs & o & -> & S & F).
  exists gs, o. repeat split; [exact S|]. eapply Forall2_weaken; [|exact F]. cbn. tauto.
Qed.

(** The minimum is attained by the weights proportional to 1/std^2 only. *)
Lemma c50_unique : forall (g : list (obs R)) (w w' : list R),
  (forall o, In o g -> 0 < os o) -> weighting w g -> weighting w' g ->
  (forall v, weighting v g -> variance w g <= variance v g) ->
  variance w' g = variance w g -> w' = w.
Proof.
  intros g w w' P Hw Hw' M E. unfold weighting in *.
  assert (H : forall v, length v = length g -> forall u, length u = length g ->
    wsum (fun a _ => a) (map (fun p => (fst p + snd p) / 2) (combine v u)) g = (wsum (fun a _ => a) v g + wsum (fun a _ => a) u g) / 2
    /\ variance (map (fun p => (fst p + snd p) / 2) (combine v u)) g = (variance v g + variance u g) / 2 - wsum (fun a o => (a * os o) * (a * os o)) (map (fun p => (fst p - snd p) / 2) (combine v u)) g
    /\ 0 <= wsum (fun a o => (a * os o) * (a * os o)) (map (fun p => (fst p - snd p) / 2) (combine v u)) g
    /\ (wsum (fun a o => (a * os o) * (a * os o)) (map (fun p => (fst p - snd p) / 2) (combine v u)) g = 0 -> v = u)).
  { clear - P. unfold variance. induction g as [|o g IH]; intros [|x v] Lv [|y u] Lu; try discriminate Lv; try discriminate Lu.
    - cbn. repeat split; lra.
    - injection Lv as Lv. injection Lu as Lu.
      destruct (IH (fun p Hp => P p (or_intror Hp)) v Lv u Lu) as (I1 & I2 & I3 & I4).
      cbn [combine map fst snd wsum]. assert (So : 0 < os o) by (apply P; left; reflexivity).
      assert (0 <= (x - y) / 2 * os o * ((x - y) / 2 * os o)) by apply Rle_0_sqr.
      repeat split; [lra|rewrite I2; field|lra|]. intros Z.
      assert (Q : wsum (fun a o => (a * os o) * (a * os o)) (map (fun p => (fst p - snd p) / 2) (combine v u)) g = 0) by lra.
      rewrite (I4 Q). f_equal.
      assert (K : (x - y) / 2 * os o * ((x - y) / 2 * os o) = 0) by lra. apply Rmult_integral in K.
      assert ((x - y) / 2 * os o = 0) as K2 by (destruct K; assumption). apply Rmult_integral in K2. destruct K2; lra. }
  destruct (H w' (proj1 Hw') w (proj1 Hw)) as (H1 & H2 & H3 & H4). apply H4.
  specialize (M (map (fun p => (fst p + snd p) / 2) (combine w' w))).
  assert (K : variance w g <= variance (map (fun p => (fst p + snd p) / 2) (combine w' w)) g).
  { apply M. split; [rewrite map_length, combine_length, (proj1 Hw), (proj1 Hw'); apply Nat.min_id|].
    rewrite H1, (proj2 Hw), (proj2 Hw'). field. }
  rewrite H2, E in K. lra.
Qed.

(** ** C52 Duplicates *)

Lemma separated_R l : separated (map fobs l) -> forall l1 a b l2, l = l1 ++ a :: b :: l2 -> 1 <= odist b (loc a).
Proof.
  intros S l1 a b l2 ->. rewrite map_app in S. cbn [map] in S. induction l1 as [|c l1 IH].
  - destruct S as [S _]. rewrite too_close_R in S. apply Rltb_false in S. exact S.
  - apply IH. cbn [map app] in S. destruct (map fobs l1 ++ fobs a :: fobs b :: map fobs l2) eqn:E.
    + destruct l1; discriminate E.
    + exact (proj2 S).
Qed.

(** Neighbours in the result are at least 1 apart (so no two neighbours share a location). *)
Lemma c52_neighbours_partial : forall (l : list (obs R)) (ws : list (R * R)) (b : R) out,
  filter_obs (map fobs l) (map floc ws) (Fin b) = Ok (map fobs out) ->
  forall l1 o o' l2, out = l1 ++ o :: o' :: l2 -> 1 <= odist o' (loc o).
Proof.
  intros l ws b out H. apply separated_R. exact (proj1 (merge_separated _ _ _ H)).
Qed.

Lemma survivors_app {A} (P : A -> Prop) l k1 k2 : survivors P l (k1 ++ k2) ->
  exists l1 l2, l = l1 ++ l2 /\ survivors P l1 k1 /\ survivors P l2 k2.
Proof.
  revert k1. induction l as [|x l IH]; intros k1 S.
  - inversion S. destruct k1; [|discriminate]. cbn in *. subst. exists [], []. repeat split; constructor.
  - inversion S as [|? ? k ? S' E1 E2|? ? k ? S' E1 E2]; subst.
    + destruct k1 as [|y k1]; cbn in *.
      * exists [], (x :: l). repeat split; [constructor|exact S].
      * injection E2 as -> ->. destruct (IH _ S') as (l1 & l2 & -> & S1 & S2).
        exists (y :: l1), l2. repeat split; [constructor; assumption|exact S2].
    + destruct (IH _ S') as (l1 & l2 & -> & S1 & S2).
      exists (x :: l1), l2. repeat split; [apply sv_drop; assumption|exact S2].
Qed.
Lemma survivors_cons {A} (P : A -> Prop) l x k : survivors P l (x :: k) ->
  exists l1 l2, l = l1 ++ x :: l2 /\ survivors P l2 k.
Proof.
  induction l as [|y l IH]; intros S; inversion S as [|? ? ? ? S' E1 E2|? ? ? ? S' E1 E2]; subst.
  - exists [], l. auto.
  - destruct (IH S') as (l1 & l2 & -> & S2). exists (y :: l1), l2. auto.
Qed.

Lemma contiguous_survivors P l k : survivors P l k -> contiguous l -> contiguous k.
Proof.
  intros S C k1 a k2 b k3 -> E o Ho.
  destruct (survivors_app _ _ _ _ S) as (l1 & l2 & -> & _ & S2).
  destruct (survivors_cons _ _ _ _ S2) as (l3 & l4 & -> & S3).
  destruct (survivors_app _ _ _ _ S3) as (l5 & l6 & -> & S4 & S5).
  destruct (survivors_cons _ _ _ _ S5) as (l7 & l8 & -> & _).
  apply (C (l1 ++ l3) a (l5 ++ l7) b l8); [rewrite <- !app_assoc; reflexivity|exact E|].
  apply in_or_app. left. apply (survivors_in _ _ _ S4) in Ho. tauto.
Qed.

Lemma merge_contiguous n k out : merge n (map fobs k) = Ok (map fobs out) -> contiguous k -> NoDup (map loc out).
Proof.
  revert k out. induction n as [|n IH]; intros [|a l] out H C; cbn [map merge] in H; try discriminate H;
    try (injection H as H; destruct out; [constructor|discriminate H]).
  destruct (take_close_R a l) as (g & r & E & -> & _ & F). rewrite E in H. clear E.
  destruct (merge_group _ _) as [m| |] eqn:M; try discriminate H. cbn [bind] in H.
  destruct (merge n (map fobs r)) as [ms| |] eqn:R; try discriminate H. injection H as H.
  destruct out as [|o out]; [discriminate H|]. cbn [map] in *. injection H as Hm Hms. subst ms.
  apply merge_group_loc in M. rewrite Hm in M. destruct M as [Mx My]. cbn in Mx, My. injection Mx as Mx. injection My as My.
  assert (Lo : loc o = loc a) by (unfold loc; congruence). rewrite Lo. constructor.
  - intros I. apply in_map_iff in I. destruct I as (o' & Lo' & Ho').
    destruct (merge_loc _ _ _ R (fobs o') (in_map _ _ _ Ho')) as (q & Hq & Xq & Yq).
    apply in_map_iff in Hq. destruct Hq as (q' & <- & Hq). cbn in Xq, Yq. injection Xq as Xq. injection Yq as Yq.
    assert (Lq : loc a = loc q') by (rewrite <- Lo'; unfold loc; congruence).
    destruct r as [|p r]; [destruct Hq|].
    assert (Lp : loc p = loc a).
    { destruct Hq as [->|Hq]; [auto|]. apply in_split in Hq. destruct Hq as (r1 & r2 & ->).
      apply (C [] a (g ++ p :: r1) q' r2); [cbn; rewrite <- app_assoc; reflexivity|exact Lq|]. apply in_or_app. right. left. reflexivity. }
    unfold odist in F. rewrite <- Lp in F. unfold loc in F. cbn [fst snd] in F.
    replace ((ox p - ox p) * (ox p - ox p) + (oy p - oy p) * (oy p - oy p)) with 0 in F by ring. rewrite sqrt_0 in F. lra.
  - apply (IH r out R). intros l1 x l2 y l3 -> Exy. apply (C (a :: g ++ l1) x l2 y l3); [cbn; rewrite <- app_assoc; reflexivity|exact Exy].
Qed.

(** When equal locations are adjacent in the input, no two returned observations share a location. *)
Lemma c52_adjacent_partial : forall (l : list (obs R)) (ws : list (R * R)) (b : R) out,
  contiguous l ->
  filter_obs (map fobs l) (map floc ws) (Fin b) = Ok (map fobs out) -> NoDup (map loc out).
Proof.
  intros l ws b out C H. destruct (filter_R l ws b) as (k & S & E). rewrite E in H.
  eapply merge_contiguous; [exact H|]. eapply contiguous_survivors; eassumption.
Qed.

Definition ob (x y z s : R) : obs R := {| ox := x; oy := y; oz := z; os := s |}.

Lemma sqrt_ge1 x : 1 <= x -> 1 <= sqrt x.
Proof. intros H. rewrite <- sqrt_1. apply sqrt_le_1_alt. exact H. Qed.

(** The same location before and after another one: both are returned. *)
Lemma c52_example : filter_obs (map fobs [ob 0 0 1 1; ob 10 0 2 1; ob 0 0 3 1]) [] (Fin 5)
  = Ok (map fobs [ob 0 0 1 1; ob 10 0 2 1; ob 0 0 3 1]).
Proof.
  unfold filter_obs. assert (E : forall l, filter (@far_from_wells xr XR [] (Fin 5)) l = l) by (induction l as [|a l IH]; cbn; [|rewrite IH]; reflexivity).
  rewrite E. apply merge_id; [apply le_n|]. cbn [map separated]. rewrite !too_close_R. unfold odist, loc, ob. cbn [ox oy fst snd].
  repeat split; apply Rltb_false; apply sqrt_ge1; lra.
Qed.

(** Two returned observations may share a location. *)
Lemma c52_refuted : exists (l out : list (obs R)) (b : R),
  (forall o, In o l -> 0 < os o) /\ filter_obs (map fobs l) [] (Fin b) = Ok (map fobs out) /\ ~ NoDup (map loc out).
Proof.
  exists [ob 0 0 1 1; ob 10 0 2 1; ob 0 0 3 1], [ob 0 0 1 1; ob 10 0 2 1; ob 0 0 3 1], 5.
  split; [intros o [<-|[<-|[<-|[]]]]; cbn; lra|]. split; [apply c52_example|].
  intros N. inversion N as [|? ? K _]. apply K. right. left. reflexivity.
Qed.

(** ** C53 Zero deviations *)

(** Two observations at one place with deviation 0 (accepted by oneka's validation): an exception. *)
Lemma c53_refuted : filter_obs (map fobs [ob 0 0 1 0; ob 0 0 1 0]) [] (Fin 5) = Raise ZeroDivisionError.
Proof.
  destruct (filter_R [ob 0 0 1 0; ob 0 0 1 0] [] 5) as (k & S & E). cbn [map] in E. unfold floc in E. cbn [map] in *. rewrite E; clear E.
  assert (k = [ob 0 0 1 0; ob 0 0 1 0]) as ->.
  { eapply survivors_fun; [exact S|]. repeat constructor; intros w []. }
  cbn [length map merge take_close]. rewrite too_close_R.
  assert (K : odist (ob 0 0 1 0) (loc (ob 0 0 1 0)) < 1).
  { unfold odist, loc, ob. cbn. replace ((0 - 0) * (0 - 0) + (0 - 0) * (0 - 0)) with 0 by ring. rewrite sqrt_0. lra. }
  apply Rltb_true in K. rewrite K. change [fobs (ob 0 0 1 0)] with (map fobs [ob 0 0 1 0]).
  rewrite merge_group_zero; [reflexivity|discriminate|]. intros C. apply (C (ob 0 0 1 0)); [left; reflexivity|reflexivity].
Qed.

(** With positive deviations nothing is raised; and for any deviations the only exception is
    ZeroDivisionError, raised only when an observation of deviation 0 is to be merged with another. *)
Lemma c53_positive_partial : forall (l : list (obs R)) (ws : list (R * R)) (b : R),
  (exists out, filter_obs (map fobs l) (map floc ws) (Fin b) = Ok (map fobs out)) \/
  (filter_obs (map fobs l) (map floc ws) (Fin b) = Raise ZeroDivisionError /\
   exists a p q, In a l /\ In p l /\ In q l /\ odist p (loc a) < 1 /\ (q = a \/ odist q (loc a) < 1) /\ os q = 0).
Proof.
  intros l ws b. destruct (filter_R l ws b) as (k & S & E). rewrite E.
  destruct (merge_R (length k) k (le_n _)) as [(gs & L & C & Z & M)|(M & a & p & q & Ha & Hp & Hq & R)]; rewrite M.
  - left. eexists. rewrite <- map_map. reflexivity.
  - right. split; [reflexivity|]. exists a, p, q. apply (survivors_in _ _ _ S) in Ha, Hp, Hq. tauto.
Qed.

(** ** C54 Change of units *)

Lemma odist_rescale c o w : 0 < c -> odist (rescale c o) (rescale_loc c w) = c * odist o w.
Proof.
  intros H. unfold odist, rescale, rescale_loc. cbn.
  replace ((c * ox o - c * fst w) * (c * ox o - c * fst w) + (c * oy o - c * snd w) * (c * oy o - c * snd w))
    with ((c * c) * ((ox o - fst w) * (ox o - fst w) + (oy o - snd w) * (oy o - snd w))) by ring.
  rewrite sqrt_mult_alt by nra. rewrite sqrt_square by lra. reflexivity.
Qed.
Lemma survivors_rescale c ws b l k : 0 < c -> survivors (survives ws b) l k ->
  survivors (survives (map (rescale_loc c) ws) (c * b)) (map (rescale c) l) (map (rescale c) k).
Proof.
  intros Hc S. assert (K : forall o, survives (map (rescale_loc c) ws) (c * b) (rescale c o) <-> survives ws b o).
  { intros o. unfold survives. split.
    - intros H w Hw. specialize (H _ (in_map _ _ _ Hw)). rewrite odist_rescale in H by exact Hc. nra.
    - intros H w Hw. apply in_map_iff in Hw. destruct Hw as (v & <- & Hv). rewrite odist_rescale by exact Hc. specialize (H _ Hv). nra. }
  induction S; cbn; constructor; rewrite ?K; assumption.
Qed.
Lemma Rsum_prec_rescale c l : c <> 0 -> sq_nonzero l -> Rsum prec (map (rescale c) l) = Rsum prec l / (c * c).
Proof.
  intros H Z. induction l as [|o l IH]; cbn [map Rsum fold_right]; [field; exact H|]. fold (Rsum prec (map (rescale c) l)). fold (Rsum prec l).
  rewrite IH by (intros p Hp; apply Z; right; exact Hp). assert (os o <> 0) by (apply Z; left; reflexivity).
  unfold prec, rescale. cbn. field. auto.
Qed.
Lemma Rsum_wval_rescale c l : c <> 0 -> sq_nonzero l -> Rsum wval (map (rescale c) l) = Rsum wval l / c.
Proof.
  intros H Z. induction l as [|o l IH]; cbn [map Rsum fold_right]; [field; exact H|]. fold (Rsum wval (map (rescale c) l)). fold (Rsum wval l).
  rewrite IH by (intros p Hp; apply Z; right; exact Hp). assert (os o <> 0) by (apply Z; left; reflexivity).
  unfold wval, rescale. cbn. field. auto.
Qed.
Lemma merged_rescale c a g : 0 < c -> sq_nonzero (a :: g) -> merged (rescale c a) (map (rescale c) g) = rescale c (merged a g).
Proof.
  intros H Z. destruct g as [|b g]; [reflexivity|]. pose proof (prec_sum_pos _ _ Z) as P.
  assert (c <> 0) by lra.
  change (merged (rescale c a) (map (rescale c) (b :: g)))
    with {| ox := ox (rescale c a); oy := oy (rescale c a);
            oz := Rsum wval (map (rescale c) (a :: b :: g)) / Rsum prec (map (rescale c) (a :: b :: g));
            os := sqrt (1 / Rsum prec (map (rescale c) (a :: b :: g))) |}.
  rewrite Rsum_prec_rescale, Rsum_wval_rescale by assumption. unfold rescale, merged. cbn [ox oy oz os].
  remember (Rsum prec (a :: b :: g)) as D. remember (Rsum wval (a :: b :: g)) as M.
  assert (0 < 1 / D) by (apply Rdiv_lt_0_compat; lra). f_equal.
  - field. split; lra.
  - replace (1 / (D / (c * c))) with (c * c * (1 / D)) by (field; split; lra).
    rewrite sqrt_mult_alt by nra. rewrite sqrt_square by lra. reflexivity.
Qed.

Lemma fobs_inj a b : fobs a = fobs b -> a = b.
Proof. destruct a, b. unfold fobs. cbn. intros H. injection H as -> -> -> ->. reflexivity. Qed.

Lemma take_close_rescale c a l : 0 < c ->
  (forall p, In p l -> (odist p (loc a) < 1 <-> c * odist p (loc a) < 1)) ->
  forall g r, take_close (fobs a) (map fobs l) = (map fobs g, map fobs r) -> l = g ++ r ->
  take_close (fobs (rescale c a)) (map fobs (map (rescale c) l)) = (map fobs (map (rescale c) g), map fobs (map (rescale c) r)).
Proof.
  intros Hc. induction l as [|o l IH]; intros B g r E L.
  - destruct g; [|discriminate L]. cbn in L. subst r. reflexivity.
  - cbn [map take_close] in *. rewrite too_close_R in *.
    change (loc (rescale c a)) with (rescale_loc c (loc a)). rewrite odist_rescale by exact Hc.
    specialize (B o (or_introl eq_refl)) as Bo.
    destruct (Rltb_spec (odist o (loc a)) 1) as [K|K].
    + rewrite (proj2 (Rltb_true _ _) (proj1 Bo K)).
      destruct g as [|o' g].
      * destruct (take_close (fobs a) (map fobs l)). discriminate E.
      * cbn [app] in L. injection L as <- L.
        destruct (take_close (fobs a) (map fobs l)) as [g0 r0] eqn:E0. cbn [map] in E. injection E as E1 E2.
        rewrite (IH (fun p Hp => B p (or_intror Hp)) g r); [reflexivity| |exact L]. rewrite E1, E2. reflexivity.
    + assert (K' : Rltb (c * odist o (loc a)) 1 = false).
      { destruct (Rltb_spec (c * odist o (loc a)) 1); [|reflexivity]. exfalso. apply K. tauto. }
      rewrite K'. destruct g; [|discriminate E]. cbn in L. subst r. reflexivity.
Qed.

Lemma merge_rescale c n k out : 0 < c -> sq_nonzero k ->
  (forall p q, In p k -> In q k -> (odist p (loc q) < 1 <-> c * odist p (loc q) < 1)) ->
  merge n (map fobs k) = Ok (map fobs out) ->
  merge n (map fobs (map (rescale c) k)) = Ok (map fobs (map (rescale c) out)).
Proof.
  intros Hc. revert k out. induction n as [|n IH]; intros [|a l] out Z B H; cbn [map merge] in *; try discriminate H;
    try (injection H as H; destruct out; [reflexivity|discriminate H]).
  destruct (take_close_R a l) as (g & r & E & L & _ & _).
  assert (E' := take_close_rescale c a l Hc (fun p Hp => B p a (or_intror Hp) (or_introl eq_refl)) g r E L).
  rewrite E in H. rewrite E'. clear E E'. subst l.
  assert (Zg : sq_nonzero (a :: g)).
  { intros p [<-|Hp]; apply Z; [left; reflexivity|right; apply in_or_app; left; exact Hp]. }
  rewrite merge_group_R in H by (right; exact Zg). cbn [bind] in H.
  rewrite merge_group_R.
  2:{ right. intros p Hp. change (rescale c a :: map (rescale c) g) with (map (rescale c) (a :: g)) in Hp.
      apply in_map_iff in Hp. destruct Hp as (q & <- & Hq). specialize (Zg q Hq). unfold rescale. cbn. nra. }
  cbn [bind]. destruct (merge n (map fobs r)) as [ms| |] eqn:R; try discriminate H. injection H as H.
  destruct out as [|o out]; [discriminate H|]. cbn [map] in H.
  pose proof (f_equal (hd (fobs a)) H) as H1. pose proof (f_equal (@tl _) H) as H2. cbn [hd tl] in H1, H2. subst ms.
  erewrite IH; [|..|exact R].
  - cbn [bind map]. rewrite merged_rescale by assumption. apply f_equal. apply f_equal2; [|reflexivity].
    rewrite (fobs_inj _ _ H1). reflexivity.
  - intros p Hp. apply Z. right. apply in_or_app. right; exact Hp.
  - intros p q Hp Hq. apply B; right; apply in_or_app; right; assumption.
Qed.

(** Rescaling all lengths rescales the result when no distance between two observations crosses the fixed threshold 1. *)
Lemma c54_partial : forall (c : R) (l : list (obs R)) (ws : list (R * R)) (b : R) (out : list (obs R)),
  0 < c -> (forall o, In o l -> 0 < os o) ->
  (forall p q, In p l -> In q l -> (odist p (loc q) < 1 <-> c * odist p (loc q) < 1)) ->
  filter_obs (map fobs l) (map floc ws) (Fin b) = Ok (map fobs out) ->
  filter_obs (map fobs (map (rescale c) l)) (map floc (map (rescale_loc c) ws)) (Fin (c * b)) = Ok (map fobs (map (rescale c) out)).
Proof.
  intros c l ws b out Hc P B H. destruct (filter_R l ws b) as (k & S & E). rewrite E in H.
  destruct (filter_R (map (rescale c) l) (map (rescale_loc c) ws) (c * b)) as (k' & S' & E'). rewrite E'.
  apply (survivors_rescale c _ _ _ _ Hc) in S as S2. pose proof (survivors_fun _ _ _ _ S' S2) as ->.
  rewrite map_length. apply merge_rescale; try assumption.
  - intros o Ho. apply (survivors_in _ _ _ S) in Ho. specialize (P o (proj1 Ho)). lra.
  - intros p q Hp Hq. apply (survivors_in _ _ _ S) in Hp, Hq. apply B; tauto.
Qed.

Lemma filter_no_wells l b : filter_obs (map fobs l) [] (Fin b) = merge (length l) (map fobs l).
Proof.
  unfold filter_obs. assert (E : forall l, filter (@far_from_wells xr XR [] (Fin b)) l = l) by (clear l; induction l as [|a l IH]; cbn; [|rewrite IH]; reflexivity).
  rewrite E, map_length. reflexivity.
Qed.

(** Two observations 3/5 apart are averaged into one of value 2 and deviation sqrt(1/2). *)
Lemma c54_metres_example : filter_obs (map fobs [ob 0 0 1 1; ob (3 / 5) 0 3 1]) [] (Fin 5) = Ok (map fobs [ob 0 0 2 (sqrt (1 / 2))]).
Proof.
  rewrite filter_no_wells. cbn [length map merge take_close]. rewrite too_close_R.
  assert (K : odist (ob (3 / 5) 0 3 1) (loc (ob 0 0 1 1)) < 1).
  { unfold odist, loc, ob. cbn. replace ((3 / 5 - 0) * (3 / 5 - 0) + (0 - 0) * (0 - 0)) with ((3 / 5) * (3 / 5)) by ring. rewrite sqrt_square; lra. }
  apply Rltb_true in K. rewrite K. change [fobs (ob (3 / 5) 0 3 1)] with (map fobs [ob (3 / 5) 0 3 1]).
  rewrite merge_group_R by (right; intros p [<-|[<-|[]]]; cbn; lra). cbn [bind merge].
  apply f_equal. apply f_equal2; [|reflexivity]. unfold merged, Rsum, wval, prec, ob, fobs. cbn.
  replace ((1 / (1 * 1) + (3 / (1 * 1) + 0)) / (1 / (1 * 1) + (1 / (1 * 1) + 0))) with 2 by field.
  replace (1 / (1 / (1 * 1) + (1 / (1 * 1) + 0))) with (1 / 2) by field. reflexivity.
Qed.

(** The same two observations in half-metres stay two: rescaling by 2 does not rescale the result. *)
Lemma c54_refuted : exists (c : R) (l out : list (obs R)) (b : R),
  0 < c /\ (forall o, In o l -> 0 < os o) /\
  filter_obs (map fobs l) [] (Fin b) = Ok (map fobs out) /\
  filter_obs (map fobs (map (rescale c) l)) [] (Fin (c * b)) <> Ok (map fobs (map (rescale c) out)).
Proof.
  exists 2, [ob 0 0 1 1; ob (3 / 5) 0 3 1], [ob 0 0 2 (sqrt (1 / 2))], 5. split; [lra|].
  split; [intros o [<-|[<-|[]]]; cbn; lra|]. split; [apply c54_metres_example|].
  rewrite filter_no_wells. rewrite merge_id.
  - cbn. intros H. injection H. discriminate.
  - rewrite !map_length. apply le_n.
  - cbn [map separated]. split; [|exact I]. rewrite too_close_R. apply Rltb_false. unfold odist, loc, rescale, ob. cbn. apply sqrt_ge1. lra.
Qed.

Lemma sqrt_lt_intro x y : 0 <= x -> x < y * y -> 0 < y -> sqrt x < y.
Proof. intros. rewrite <- (sqrt_square y) by lra. apply sqrt_lt_1_alt. lra. Qed.
Lemma sqrt_gt_intro x y : 0 <= y -> y * y < x -> y < sqrt x.
Proof. intros. rewrite <- (sqrt_square y) by lra. apply sqrt_lt_1_alt. nra. Qed.

(** Three observations, one of them within 5 of the well, the other two 1/2 apart with deviations 1 and 2:
    one observation is returned, of value (1 + 3/4)/(1 + 1/4) and variance 1/(1 + 1/4). *)
Lemma c48_example :
  filter_obs (map fobs [ob 0 0 1 1; ob 10 0 5 2; ob 0 (1 / 2) 3 2]) (map floc [(10, 3)]) (Fin 5)
  = Ok (map fobs [ob 0 0 (7 / 5) (sqrt (4 / 5))]).
Proof.
  destruct (filter_R [ob 0 0 1 1; ob 10 0 5 2; ob 0 (1 / 2) 3 2] [(10, 3)] 5) as (k & S & E). rewrite E; clear E.
  assert (k = [ob 0 0 1 1; ob 0 (1 / 2) 3 2]) as ->.
  { eapply survivors_fun; [exact S|]. constructor.
    - intros w [<-|[]]. unfold odist, ob. cbn. apply sqrt_gt_intro; lra.
    - apply sv_drop.
      + intros C. specialize (C _ (or_introl eq_refl)). unfold odist, ob in C. cbn in C.
        assert (sqrt ((10 - 10) * (10 - 10) + (0 - 3) * (0 - 3)) < 5) by (apply sqrt_lt_intro; lra). lra.
      + constructor; [|constructor]. intros w [<-|[]]. unfold odist, ob. cbn. apply sqrt_gt_intro; lra. }
  cbn [length map merge take_close]. rewrite too_close_R.
  assert (K : odist (ob 0 (1 / 2) 3 2) (loc (ob 0 0 1 1)) < 1) by (unfold odist, loc, ob; cbn; apply sqrt_lt_intro; lra).
  apply Rltb_true in K. rewrite K. change [fobs (ob 0 (1 / 2) 3 2)] with (map fobs [ob 0 (1 / 2) 3 2]).
  rewrite merge_group_R by (right; intros p [<-|[<-|[]]]; cbn; lra). cbn [bind merge].
  apply f_equal. apply f_equal2; [|reflexivity]. unfold merged, Rsum, wval, prec, ob, fobs. cbn.
  replace ((1 / (1 * 1) + (3 / (2 * 2) + 0)) / (1 / (1 * 1) + (1 / (2 * 2) + 0))) with (7 / 5) by field.
  replace (1 / (1 / (1 * 1) + (1 / (2 * 2) + 0))) with (4 / 5) by field. reflexivity.
Qed.

(** Its two halves: 1 <= 7/5 <= 3, the deviation is below 1, the precisions add up, and filtering the
    result again changes nothing. *)
Lemma c50_example : best_average [ob 0 0 1 1; ob 0 (1 / 2) 3 2] (ob 0 0 (7 / 5) (sqrt (4 / 5))).
Proof.
  assert (E : ob 0 0 (7 / 5) (sqrt (4 / 5)) = merged (ob 0 0 1 1) [ob 0 (1 / 2) 3 2]).
  { unfold merged, Rsum, wval, prec, ob. cbn. f_equal; [field|]. apply f_equal. field. }
  rewrite E. apply merged_spec; [right|]; intros p [<-|[<-|[]]]; cbn; lra.
Qed.
Lemma c49_example : 1 / (sqrt (4 / 5) * sqrt (4 / 5)) = 1 / (1 * 1) + 1 / (2 * 2).
Proof. rewrite sqrt_sqrt by lra. field. Qed.
Lemma c51_example :
  filter_obs (map fobs [ob 0 0 (7 / 5) (sqrt (4 / 5))]) (map floc [(10, 3)]) (Fin 5)
  = Ok (map fobs [ob 0 0 (7 / 5) (sqrt (4 / 5))]).
Proof. eapply c51_idempotent. exact c48_example. Qed.
