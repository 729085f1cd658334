(** * The observation filter: properties C48-C54 *)
From Coq Require Import Reals Lra Lia Psatz.
From Verif Require Import Py Num NumXR ModelAquifer ModelObs SpecAquifer SpecObs ProofAquifer.
Local Open Scope R_scope.

(** ** In any arithmetic *)
Section Any.
  Context {T : Type} {N : Num T}.

  Lemma take_close_app (a : obs T) l g r : take_close a l = (g, r) -> l = g ++ r.
  Proof.
    revert g r. induction l as [|o l IH]; intros g r H; cbn in H; [injection H as <- <-; reflexivity|].
    destruct (too_close a o); [|injection H as <- <-; reflexivity].
    destruct (take_close a l) as [g' r'] eqn:E. injection H as <- <-. cbn. f_equal. apply IH. reflexivity.
  Qed.
  Lemma take_close_all (a : obs T) l g r : take_close a l = (g, r) -> forall o, In o g -> too_close a o = true.
  Proof.
    revert g r. induction l as [|o l IH]; intros g r H p Hp; cbn in H; [injection H as <- <-; destruct Hp|].
    destruct (too_close a o) eqn:C; [|injection H as <- <-; destruct Hp].
    destruct (take_close a l) as [g' r'] eqn:E. injection H as <- <-. destruct Hp as [->|Hp]; [exact C|].
    eapply IH; [reflexivity|exact Hp].
  Qed.
  Lemma take_close_rest (a : obs T) l g r : take_close a l = (g, r) ->
    match r with [] => True | o :: _ => too_close a o = false end.
  Proof.
    revert g r. induction l as [|o l IH]; intros g r H; cbn in H; [injection H as <- <-; exact I|].
    destruct (too_close a o) eqn:C; [|injection H as <- <-; exact C].
    destruct (take_close a l) as [g' r'] eqn:E. injection H as <- <-. eapply IH; reflexivity.
  Qed.

  Lemma merge_group_loc (a : obs T) g m : merge_group a g = Ok m -> ox m = ox a /\ oy m = oy a.
  Proof.
    destruct g as [|b g]; intros H; [injection H as <-; auto|].
    unfold merge_group in H. destruct (weighted_sums _ _ _) as [[num den]| |]; try discriminate H. cbn [bind] in H.
    destruct (pydiv num den); try discriminate H. cbn [bind] in H. destruct (pydiv _ den); try discriminate H.
    injection H as <-. auto.
  Qed.

  (** The recursion bound never bites: the length of the list suffices, whatever happens inside. *)
  Lemma merge_fuel (l : list (obs T)) n m : (length l <= n)%nat -> (length l <= m)%nat -> merge n l = merge m l.
  Proof.
    revert l m. induction n as [|n IH]; intros [|o l] m Hn Hm; cbn in Hn; try lia; [destruct m; reflexivity..|].
    destruct m as [|m]; cbn in Hm; [lia|]. cbn [merge].
    destruct (take_close o l) as [g r] eqn:E. apply take_close_app in E. subst l. rewrite app_length in *.
    rewrite (IH r m) by lia. reflexivity.
  Qed.
  Lemma weighted_sums_fuel (g : list (obs T)) a b : weighted_sums g a b <> NoFuel.
  Proof.
    revert a b. induction g as [|o g IH]; intros a b; cbn; [discriminate|].
    unfold pydiv. destruct (neq _ _); cbn; [discriminate|]. apply IH.
  Qed.
  Lemma merge_group_fuel (a : obs T) g : merge_group a g <> NoFuel.
  Proof.
    destruct g as [|b g]; [discriminate|]. unfold merge_group. pose proof (weighted_sums_fuel (a :: b :: g) (nZ 0) (nZ 0)).
    destruct (weighted_sums _ _ _) as [[num den]| |]; try discriminate; [|contradiction]. cbn.
    unfold pydiv. destruct (neq _ _); discriminate.
  Qed.
  Lemma merge_no_fuel (l : list (obs T)) n : (length l <= n)%nat -> merge n l <> NoFuel.
  Proof.
    revert l. induction n as [|n IH]; intros [|o l] Hn; cbn in Hn; try lia; try discriminate. cbn [merge].
    destruct (take_close o l) as [g r] eqn:E. apply take_close_app in E. subst l. rewrite app_length in *.
    pose proof (merge_group_fuel o g). destruct (merge_group o g); try discriminate; [|contradiction]. cbn.
    specialize (IH r ltac:(lia)). destruct (merge n r); try discriminate. contradiction.
  Qed.

  (** Every element of the result stands at the place of an element of the list. *)
  Lemma merge_loc n (l : list (obs T)) out : merge n l = Ok out ->
    forall o', In o' out -> exists o, In o l /\ ox o' = ox o /\ oy o' = oy o.
  Proof.
    revert l out. induction n as [|n IH]; intros [|o l] out H o' Ho'; cbn [merge] in H;
      try discriminate H; try (injection H as <-; destruct Ho').
    destruct (take_close o l) as [g r] eqn:E. apply take_close_app in E. subst l.
    destruct (merge_group o g) as [m| |] eqn:M; try discriminate H. cbn [bind] in H.
    destruct (merge n r) as [ms| |] eqn:R; try discriminate H. injection H as <-.
    destruct Ho' as [<-|Ho'].
    - apply merge_group_loc in M. exists o. cbn. tauto.
    - destruct (IH _ _ R _ Ho') as (p & Hp & Q). exists p. split; [right; apply in_or_app; right; exact Hp|exact Q].
  Qed.

  (** Neighbours in the result are not close. *)
  Fixpoint separated (l : list (obs T)) : Prop :=
    match l with
    | a :: (b :: _) as l' => too_close a b = false /\ separated l'
    | _ => True
    end.
  Lemma too_close_loc (a b a' b' : obs T) : ox a = ox a' -> oy a = oy a' -> ox b = ox b' -> oy b = oy b' ->
    too_close a b = too_close a' b'.
  Proof. unfold too_close. intros -> -> -> ->. reflexivity. Qed.
  Lemma merge_separated n (l : list (obs T)) out : merge n l = Ok out ->
    separated out /\ match l, out with o :: _, m :: _ => ox m = ox o /\ oy m = oy o | [], [] => True | _, _ => False end.
  Proof.
    revert l out. induction n as [|n IH]; intros [|o l] out H; cbn [merge] in H;
      try discriminate H; try (injection H as <-; cbn; auto).
    destruct (take_close o l) as [g r] eqn:E. pose proof (take_close_rest _ _ _ _ E) as C.
    destruct (merge_group o g) as [m| |] eqn:M; try discriminate H. cbn [bind] in H. apply merge_group_loc in M.
    destruct (merge n r) as [ms| |] eqn:R; try discriminate H. injection H as <-.
    destruct (IH _ _ R) as [S Q]. split; [|exact M]. cbn. destruct ms as [|m' ms]; [exact I|]. split; [|exact S].
    destruct r as [|p r]; [destruct Q|]. rewrite <- C. apply too_close_loc; tauto.
  Qed.
  Lemma merge_id n (l : list (obs T)) : (length l <= n)%nat -> separated l -> merge n l = Ok l.
  Proof.
    revert l. induction n as [|n IH]; intros [|o l] Hn S; cbn in Hn; try lia; try reflexivity. cbn [merge].
    destruct l as [|p l]; [cbn; destruct n; reflexivity|]. destruct S as [C S]. cbn [take_close]. rewrite C. cbn.
    change (p :: l) with ([p] ++ l) in *. rewrite IH; [reflexivity|cbn in *; lia|exact S].
  Qed.
End Any.

(** In any arithmetic, including binary64 with its special values: whatever is returned stands at the
    place of an input observation, and the distance from there to no well compares as at most the buffer. *)
Lemma c48_any_arithmetic : forall (T : Type) (N : Num T) (l : list (obs T)) (ws : list (T * T)) (b : T) out,
  filter_obs l ws b = Ok out ->
  forall o', In o' out ->
    (exists o, In o l /\ ox o' = ox o /\ oy o' = oy o) /\
    (forall w, In w ws -> nle (nhypot (nsub (ox o') (fst w)) (nsub (oy o') (snd w))) b = false).
Proof.
  intros T N l ws b out H o' Ho'. unfold filter_obs in H.
  destruct (merge_loc _ _ _ H _ Ho') as (o & Ho & X & Y). apply filter_In in Ho. destruct Ho as [Ho F].
  split; [exists o; auto|]. intros w Hw. unfold far_from_wells in F. rewrite forallb_forall in F.
  specialize (F _ Hw). apply negb_true_iff in F. rewrite X, Y. exact F.
Qed.

(** Filtering twice is filtering once, in any arithmetic. *)
Lemma c51_idempotent : forall (T : Type) (N : Num T) (l : list (obs T)) (ws : list (T * T)) (b : T) out,
  filter_obs l ws b = Ok out -> filter_obs out ws b = Ok out.
Proof.
  intros T N l ws b out H. pose proof (c48_any_arithmetic _ _ _ _ _ _ H) as F.
  unfold filter_obs in *. destruct (merge_separated _ _ _ H) as [S _].
  assert (E : filter (far_from_wells ws b) out = out).
  { clear H S. induction out as [|o out IH]; [reflexivity|]. cbn.
    assert (K : far_from_wells ws b o = true).
    { unfold far_from_wells. apply forallb_forall. intros w Hw. apply negb_true_iff. apply F; [left; reflexivity|exact Hw]. }
    rewrite K. f_equal. apply IH. intros o' Ho'. apply F. right; exact Ho'. }
  rewrite E. apply merge_id; [lia|exact S].
Qed.

(** ** In exact arithmetic *)

Lemma too_close_R a b : too_close (fobs a) (fobs b) = Rltb (odist b (loc a)) 1.
Proof.
  unfold too_close, odist, loc, fobs. cbn. apply f_equal2; [|reflexivity]. apply f_equal. ring.
Qed.
Lemma far_R ws b o : far_from_wells (map floc ws) (Fin b) (fobs o) = true <-> survives ws b o.
Proof.
  unfold far_from_wells, survives. rewrite forallb_forall. split.
  - intros H w Hw. specialize (H _ (in_map floc _ _ Hw)). apply negb_true_iff in H. cbn in H.
    apply Rleb_false in H. exact H.
  - intros H w Hw. apply in_map_iff in Hw. destruct Hw as (v & <- & Hv). apply negb_true_iff. cbn.
    apply Rleb_false. exact (H _ Hv).
Qed.

Lemma kept_R ws b l : exists k,
  filter (far_from_wells (map floc ws) (Fin b)) (map fobs l) = map fobs k /\ survivors (survives ws b) l k.
Proof.
  induction l as [|o l [k [E S]]]; [exists []; split; [reflexivity|constructor]|]. cbn.
  pose proof (far_R ws b o) as F. destruct (far_from_wells _ _ (fobs o)).
  - exists (o :: k). rewrite E. split; [reflexivity|]. constructor; [apply F; reflexivity|exact S].
  - exists k. split; [exact E|]. apply sv_drop; [|exact S]. intros C. apply F in C. discriminate C.
Qed.

Lemma survivors_in {A} (P : A -> Prop) l k : survivors P l k -> forall x, In x k <-> In x l /\ P x.
Proof.
  intros S. induction S; intros y; cbn; [tauto|rewrite IHS|rewrite IHS].
  - split; [intros [->|?]; tauto|intros [[->|?] ?]; tauto].
  - split; [tauto|intros [[->|?] ?]; tauto].
Qed.
Lemma survivors_fun {A} (P : A -> Prop) l k k' : survivors P l k -> survivors P l k' -> k = k'.
Proof.
  intros S. revert k'. induction S; intros k' S'; inversion S'; subst; try contradiction; auto. f_equal; auto.
Qed.

Lemma take_close_R a l : exists g r, take_close (fobs a) (map fobs l) = (map fobs g, map fobs r)
  /\ l = g ++ r /\ (forall p, In p g -> odist p (loc a) < 1)
  /\ match r with [] => True | p :: _ => 1 <= odist p (loc a) end.
Proof.
  induction l as [|o l (g & r & E & -> & C & Q)]; [exists [], []; cbn; tauto|]. cbn [map take_close]. rewrite too_close_R.
  destruct (Rltb_spec (odist o (loc a)) 1) as [K|K].
  - exists (o :: g), r. rewrite E. repeat split; auto. intros p [<-|Hp]; auto.
  - exists [], (o :: g ++ r). repeat split; [intros p []|]. lra.
Qed.

Definition sq_nonzero (g : list (obs R)) : Prop := forall p, In p g -> os p <> 0.

Lemma weighted_sums_R g num den : sq_nonzero g ->
  weighted_sums (map fobs g) (Fin num) (Fin den) = Ok (Fin (num + Rsum wval g), Fin (den + Rsum prec g)).
Proof.
  revert num den. induction g as [|o g IH]; intros num den H; cbn [map weighted_sums Rsum fold_right].
  - rewrite !Rplus_0_r. reflexivity.
  - assert (S : os o <> 0) by (apply H; left; reflexivity). assert (S2 : os o * os o <> 0) by nra.
    unfold pydiv, nsq. cbn. destruct (Reqb_spec (os o * os o) 0); [contradiction|]. cbn.
    rewrite IH by (intros p Hp; apply H; right; exact Hp). unfold Rsum, wval, prec. apply f_equal.
    apply f_equal2; apply f_equal; ring.
Qed.
Lemma weighted_sums_zero g num den : ~ sq_nonzero g ->
  weighted_sums (map fobs g) (Fin num) (Fin den) = Raise ZeroDivisionError.
Proof.
  revert num den. induction g as [|o g IH]; intros num den H; [exfalso; apply H; intros p []|].
  cbn [map weighted_sums]. unfold pydiv, nsq. cbn. destruct (Reqb_spec (os o * os o) 0) as [Z|Z]; [reflexivity|]. cbn.
  apply IH. intros C. apply H. intros p [<-|Hp]; [nra|auto].
Qed.

Lemma prec_pos o : os o <> 0 -> 0 < prec o.
Proof. intros. unfold prec. apply Rdiv_lt_0_compat; nra. Qed.
Lemma Rsum_nonneg {A} (f : A -> R) l : (forall a, In a l -> 0 <= f a) -> 0 <= Rsum f l.
Proof.
  induction l as [|a l IH]; intros H; cbn; [lra|]. apply Rplus_le_le_0_compat; [apply H; left; reflexivity|].
  apply IH. intros; apply H; right; assumption.
Qed.
Lemma prec_sum_pos a g : sq_nonzero (a :: g) -> 0 < Rsum prec (a :: g).
Proof.
  intros H. cbn. apply Rplus_lt_le_0_compat; [apply prec_pos, H; left; reflexivity|].
  apply Rsum_nonneg. intros p Hp. apply Rlt_le, prec_pos, H. right; exact Hp.
Qed.

(** What a group is replaced by. *)
Definition merged (a : obs R) (g : list (obs R)) : obs R :=
  match g with
  | [] => a
  | _ => {| ox := ox a; oy := oy a; oz := Rsum wval (a :: g) / Rsum prec (a :: g); os := sqrt (1 / Rsum prec (a :: g)) |}
  end.

Lemma merge_group_R a g : g = [] \/ sq_nonzero (a :: g) -> merge_group (fobs a) (map fobs g) = Ok (fobs (merged a g)).
Proof.
  intros H. destruct g as [|b g]; [reflexivity|]. destruct H as [H|H]; [discriminate H|].
  unfold merge_group. cbn [map]. change (fobs a :: fobs b :: map fobs g) with (map fobs (a :: b :: g)).
  change (@nZ xr XR 0) with (Fin 0). rewrite weighted_sums_R by exact H. cbn [bind]. rewrite !Rplus_0_l.
  pose proof (prec_sum_pos _ _ H) as P. remember (Rsum prec (a :: b :: g)) as D. remember (Rsum wval (a :: b :: g)) as M.
  assert (E : merged a (b :: g) = {| ox := ox a; oy := oy a; oz := M / D; os := sqrt (1 / D) |})
    by (rewrite HeqD, HeqM; reflexivity).
  rewrite E. clear E HeqD HeqM.
  unfold pydiv. cbn. destruct (Reqb_spec D 0); [lra|]. cbn.
  assert (0 < 1 / D) by (apply Rdiv_lt_0_compat; lra). destruct (Rltb_spec (1 / D) 0); [lra|]. reflexivity.
Qed.
Lemma merge_group_zero a g : g <> [] -> ~ sq_nonzero (a :: g) ->
  merge_group (fobs a) (map fobs g) = Raise ZeroDivisionError.
Proof.
  intros H Z. destruct g as [|b g]; [contradiction|]. unfold merge_group. cbn [map].
  change (fobs a :: fobs b :: map fobs g) with (map fobs (a :: b :: g)).
  change (@nZ xr XR 0) with (Fin 0). rewrite weighted_sums_zero by exact Z. reflexivity.
Qed.

Lemma sq_nonzero_dec g : sq_nonzero g \/ exists p, In p g /\ os p = 0.
Proof.
  induction g as [|a g [H|(p & H & Z)]]; [left; intros p []| |right; exists p; split; [right|]; assumption].
  destruct (Req_dec (os a) 0) as [E|E]; [right; exists a; split; [left; reflexivity|exact E]|].
  left. intros p [<-|Hp]; auto.
Qed.

(** The groups of a run: consecutive, each one a leader and those near to it. *)
Lemma merge_R n l : (length l <= n)%nat ->
  (exists groups, concat (map (fun g => fst g :: snd g) groups) = l /\
     (forall g, In g groups -> forall p, In p (snd g) -> odist p (loc (fst g)) < 1) /\
     (forall g, In g groups -> snd g = [] \/ sq_nonzero (fst g :: snd g)) /\
     merge n (map fobs l) = Ok (map (fun g => fobs (merged (fst g) (snd g))) groups))
  \/ (merge n (map fobs l) = Raise ZeroDivisionError /\
      exists a p q, In a l /\ In p l /\ In q l /\ odist p (loc a) < 1 /\ (q = a \/ odist q (loc a) < 1) /\ os q = 0).
Proof.
  revert l. induction n as [|n IH]; intros [|a l] Hn; cbn in Hn; try lia;
    [left; exists []; cbn; repeat split; tauto..|].
  cbn [map merge]. destruct (take_close_R a l) as (g & r & E & -> & C & _). rewrite E. rewrite app_length in Hn.
  destruct (sq_nonzero_dec (a :: g)) as [Z|(q & Hq & Z)].
  - rewrite merge_group_R by (right; exact Z). cbn [bind]. destruct (IH r ltac:(lia)) as [(gs & L & G & Z' & M)|(M & K)]; rewrite M.
    + left. exists ((a, g) :: gs). cbn [map concat fst snd bind]. rewrite L.
      split; [reflexivity|]. split; [intros x [<-|Hx]; auto|]. split; [intros x [<-|Hx]; auto|reflexivity].
    + right. split; [reflexivity|]. destruct K as (a' & p & q & ? & ? & ? & ?). exists a', p, q.
      cbn. rewrite !in_app_iff. tauto.
  - destruct g as [|b g].
    + rewrite merge_group_R by (left; reflexivity). cbn [bind]. destruct (IH r ltac:(cbn in *; lia)) as [(gs & L & G & Z' & M)|(M & K)]; rewrite M.
      * left. exists ((a, []) :: gs). cbn [map concat fst snd bind]. rewrite L.
        split; [reflexivity|]. split; [intros x [<-|Hx]; [intros p []|auto]|]. split; [intros x [<-|Hx]; auto|reflexivity].
      * right. split; [reflexivity|]. destruct K as (a' & p & q' & ? & ? & ? & ?). exists a', p, q'. cbn. tauto.
    + right. rewrite merge_group_zero; [|discriminate|intros K; exact (K _ Hq Z)]. split; [reflexivity|].
      exists a, b, q. repeat split; try exact Z; cbn in *; rewrite ?in_app_iff; try tauto.
      * apply C. left; reflexivity.
      * destruct Hq as [<-|Hq]; [left; reflexivity|right; apply C, Hq].
Qed.
