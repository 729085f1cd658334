(** * Distributions: properties C55-C58 *)
From Coq Require Import Reals Lra Lia Psatz String.
From Verif Require Import Py Num NumXR ModelDist SpecDist.
Local Open Scope R_scope.

Lemma xle_spec a b : xle a b = true <-> xr_le a b.
Proof. destruct a, b; cbn; try (split; [discriminate|tauto]); try tauto. apply Rleb_true. Qed.
Lemma nle_spec (a b : xr) : nle a b = true <-> xr_le a b.
Proof. apply xle_spec. Qed.
Lemma xr_le_trans a b c : xr_le a b -> xr_le b c -> xr_le a c.
Proof. destruct a, b, c; cbn; try tauto. intros; lra. Qed.
Lemma xr_le_refl a : a <> NaN -> xr_le a a.
Proof. destruct a; cbn; try tauto. intros; lra. Qed.

Lemma number_of v x : num_of v = Some x <-> number v x.
Proof.
  split.
  - destruct v; cbn; intros H; try discriminate H; injection H as <-; try constructor. destruct b; constructor.
  - destruct 1; reflexivity.
Qed.
Lemma number_none v : num_of v = None -> forall x, ~ number v x.
Proof. intros H x Hx. apply number_of in Hx. congruence. Qed.
Lemma number_fun v x y : number v x -> number v y -> x = y.
Proof. intros H1 H2. apply number_of in H1, H2. congruence. Qed.

Lemma chain_cons a x l r : number a x ->
  chain_le a (l :: r) = match num_of l with Some y => if xle x y then chain_le l r else Ok false | None => Raise TypeError end.
Proof. intros H. apply number_of in H. cbn [chain_le]. rewrite H. reflexivity. Qed.

Lemma chain_true a x l ub : number a x ->
  (chain_le a (l ++ [PFloat ub]) = Ok true <-> exists xs, Forall2 number l xs /\ ordered x xs ub).
Proof.
  revert a x. induction l as [|b l IH]; intros a x H; cbn [app].
  - rewrite (chain_cons _ _ _ _ H). cbn. split.
    + destruct (xle x ub) eqn:E; [|discriminate]. intros _. exists []. split; [constructor|]. apply xle_spec, E.
    + intros (xs & F & O). inversion F. subst. cbn in O. apply xle_spec in O. rewrite O. reflexivity.
  - rewrite (chain_cons _ _ _ _ H). destruct (num_of b) as [y|] eqn:E.
    + apply number_of in E. split.
      * destruct (xle x y) eqn:L; [|discriminate]. intros C. apply (IH _ _ E) in C. destruct C as (xs & F & O).
        exists (y :: xs). split; [constructor; assumption|]. split; [apply xle_spec, L|exact O].
      * intros (xs & F & O). inversion F as [|? y' ? xs' Hy F' E1 E2]. subst. destruct O as [O1 O2].
        pose proof (number_fun _ _ _ E Hy). subst y'. apply xle_spec in O1. rewrite O1. apply (IH _ _ E). exists xs'. auto.
    + split; [discriminate|]. intros (xs & F & O). inversion F as [|? y' ? xs' Hy F' E1 E2]. subst.
      exfalso. exact (number_none _ E _ Hy).
Qed.
Lemma chain_two lb l ub : chain_le (PFloat lb) (l ++ [PFloat ub]) = Ok true <-> exists xs, Forall2 number l xs /\ ordered lb xs ub.
Proof. apply chain_true. constructor. Qed.

(** isdistribution answers True exactly on the ordered numbers, pairs and triples within the bounds. *)
Lemma c55_exactly : forall (v : pyval xr) (lb ub : xr),
  isdistribution v lb ub = Ok true <-> distribution v lb ub.
Proof.
  intros v lb ub.
  assert (S : forall w, (exists x, number w x) -> (chain_le (PFloat lb) [w; PFloat ub] = Ok true <-> distribution w lb ub)).
  { intros w (x & Hx). rewrite (chain_two lb [w] ub). split.
    - intros (xs & F & O). inversion F as [|? x' ? l Hx' F' E1 E2]. inversion F'. subst. exists [x']. split; [constructor; exact Hx'|exact O].
    - intros (xs & E & O). exists xs. split; [|exact O]. inversion E; subst.
      + constructor; [assumption|constructor].
      + exfalso. destruct H as [->| ->]; inversion Hx.
      + exfalso. destruct H as [->| ->]; inversion Hx. }
  assert (P2 : forall c a b, c = PTuple \/ c = PList ->
     (chain_le (PFloat lb) [a; b; PFloat ub] = Ok true <-> distribution (c [a; b]) lb ub)).
  { intros c a b Hc. rewrite (chain_two lb [a; b] ub). split.
    - intros (xs & F & O). inversion F as [|? x ? l Hx F' E1 E2]. inversion F' as [|? y ? l' Hy F'' E3 E4]. inversion F''. subst.
      exists [x; y]. split; [constructor; assumption|exact O].
    - intros (xs & E & O). exists xs. split; [|exact O]. inversion E as [v' x Hx E1|l a' b' Hl x y Hx Hy E1|l a' b' c' Hl x y z Hx Hy Hz E1]; subst.
      + exfalso. destruct Hc as [->| ->]; inversion Hx.
      + assert (a' = a /\ b' = b) as [-> ->] by (destruct Hc as [->| ->], Hl as [->| ->]; inversion E1; auto). repeat constructor; assumption.
      + exfalso. destruct Hc as [->| ->], Hl as [->| ->]; inversion E1. }
  assert (P3 : forall k a b c, k = PTuple \/ k = PList ->
     (chain_le (PFloat lb) [a; b; c; PFloat ub] = Ok true <-> distribution (k [a; b; c]) lb ub)).
  { intros k a b c Hc. rewrite (chain_two lb [a; b; c] ub). split.
    - intros (xs & F & O). inversion F as [|? x ? l Hx F' E1 E2]. inversion F' as [|? y ? l' Hy F'' E3 E4]. inversion F'' as [|? z ? l'' Hz F''' E5 E6]. inversion F'''. subst.
      exists [x; y; z]. split; [constructor; assumption|exact O].
    - intros (xs & E & O). exists xs. split; [|exact O]. inversion E as [v' x Hx E1|l a' b' Hl x y Hx Hy E1|l a' b' c' Hl x y z Hx Hy Hz E1]; subst.
      + exfalso. destruct Hc as [->| ->]; inversion Hx.
      + exfalso. destruct Hc as [->| ->], Hl as [->| ->]; inversion E1.
      + assert (a' = a /\ b' = b /\ c' = c) as (-> & -> & ->) by (destruct Hc as [->| ->], Hl as [->| ->]; inversion E1; auto). repeat constructor; assumption. }
  assert (N : forall w, (forall l, ~ entries w l) -> (Ok false = Ok true <-> distribution w lb ub)).
  { intros w H. split; [discriminate|]. intros (l & E & _). exfalso. exact (H l E). }
  destruct v as [z|x|b|s| |l|l]; cbn [isdistribution].
  - apply S. eexists; constructor.
  - apply S. eexists; constructor.
  - apply S. destruct b; eexists; constructor.
  - apply N. intros l E. inversion E as [v' x Hx E1|k' a' b' Hl x y Hx Hy E1|k' a' b' c' Hl x y z Hx Hy Hz E1]; subst;
      try (inversion Hx; fail); destruct Hl as [->| ->]; inversion E1.
  - apply N. intros l E. inversion E as [v' x Hx E1|k' a' b' Hl x y Hx Hy E1|k' a' b' c' Hl x y z Hx Hy Hz E1]; subst;
      try (inversion Hx; fail); destruct Hl as [->| ->]; inversion E1.
  - destruct l as [|a [|b [|c [|d l]]]]; try (apply (P2 PTuple); auto); try (apply (P3 PTuple); auto);
      apply N; intros k E; inversion E as [v' x Hx E1|k' a' b' Hl x y Hx Hy E1|k' a' b' c' Hl x y z Hx Hy Hz E1]; subst;
      try (inversion Hx; fail); destruct Hl as [->| ->]; inversion E1.
  - destruct l as [|a [|b [|c [|d l]]]]; try (apply (P2 PList); auto); try (apply (P3 PList); auto);
      apply N; intros k E; inversion E as [v' x Hx E1|k' a' b' Hl x y Hx Hy E1|k' a' b' c' Hl x y z Hx Hy Hz E1]; subst;
      try (inversion Hx; fail); destruct Hl as [->| ->]; inversion E1.
Qed.

Lemma ordered_bounds l a b : ordered a l b -> (forall x, In x l -> xr_le a x /\ xr_le x b) /\ xr_le a b.
Proof.
  revert a. induction l as [|y l IH]; intros a H; cbn in H.
  - split; [intros x []|exact H].
  - destruct H as [H1 H2]. destruct (IH _ H2) as [I1 I2]. split; [|eapply xr_le_trans; eassumption].
    intros x [<-|Hx]; [auto|]. destruct (I1 _ Hx). split; [eapply xr_le_trans; eassumption|assumption].
Qed.

(** Nothing containing NaN is accepted, whatever the bounds; nor is anything when a bound is NaN. *)
Lemma c55_no_nan : forall (v : pyval xr) (l : list xr) (lb ub : xr),
  isdistribution v lb ub = Ok true -> entries v l -> ~ In NaN l /\ lb <> NaN /\ ub <> NaN.
Proof.
  intros v l lb ub H E. apply c55_exactly in H. destruct H as (l' & E' & O).
  assert (l' = l) as ->.
  { inversion E as [v1 x1 Hx1 Q1|k1 a1 b1 K1 x1 y1 Hx1 Hy1 Q1|k1 a1 b1 c1 K1 x1 y1 z1 Hx1 Hy1 Hz1 Q1]; subst;
    inversion E' as [v2 x2 Hx2 Q2|k2 a2 b2 K2 x2 y2 Hx2 Hy2 Q2|k2 a2 b2 c2 K2 x2 y2 z2 Hx2 Hy2 Hz2 Q2]; subst.
    - rewrite (number_fun _ _ _ Hx1 Hx2). reflexivity.
    - exfalso. destruct K2 as [->| ->]; inversion Hx1.
    - exfalso. destruct K2 as [->| ->]; inversion Hx1.
    - exfalso. destruct K1 as [->| ->]; inversion Hx2.
    - assert (a2 = a1 /\ b2 = b1) as [-> ->] by (destruct K1 as [->| ->], K2 as [->| ->]; inversion Q2; auto).
      rewrite (number_fun _ _ _ Hx1 Hx2), (number_fun _ _ _ Hy1 Hy2). reflexivity.
    - exfalso. destruct K1 as [->| ->], K2 as [->| ->]; inversion Q2.
    - exfalso. destruct K1 as [->| ->]; inversion Hx2.
    - exfalso. destruct K1 as [->| ->], K2 as [->| ->]; inversion Q2.
    - assert (a2 = a1 /\ b2 = b1 /\ c2 = c1) as (-> & -> & ->) by (destruct K1 as [->| ->], K2 as [->| ->]; inversion Q2; auto).
      rewrite (number_fun _ _ _ Hx1 Hx2), (number_fun _ _ _ Hy1 Hy2), (number_fun _ _ _ Hz1 Hz2). reflexivity. }
  apply ordered_bounds in O. destruct O as [O1 O2]. repeat split.
  - intros I. destruct (O1 _ I) as [_ C]. destruct ub; exact C.
  - intros ->. destruct ub; exact O2.
  - intros ->. destruct lb; exact O2.
Qed.

(** Anything else gives False, except that a pair or triple with an entry that is not a number may raise TypeError. *)
Lemma c55_otherwise : forall (v : pyval xr) (lb ub : xr),
  isdistribution v lb ub = Ok true \/ isdistribution v lb ub = Ok false \/
  (isdistribution v lb ub = Raise TypeError /\
   exists k l a, (k = PTuple \/ k = PList) /\ v = k l /\ In a l /\ forall x, ~ number a x).
Proof.
  assert (K : forall l (a : pyval xr) x, number a x -> chain_le a l = Ok true \/ chain_le a l = Ok false \/
     (chain_le a l = Raise TypeError /\ exists b, In b l /\ forall y, ~ number b y)).
  { induction l as [|b l IH]; intros a x H; [left; reflexivity|]. rewrite (chain_cons _ _ _ _ H).
    destruct (num_of b) as [y|] eqn:E.
    - apply number_of in E. destruct (xle x y); [|tauto]. destruct (IH _ _ E) as [?|[?|(? & c & ? & ?)]]; auto.
      right. right. split; [assumption|]. exists c. cbn. auto.
    - right. right. split; [reflexivity|]. exists b. split; [left; reflexivity|]. apply number_none, E. }
  intros v lb ub.
  assert (Q : forall k l, k = PTuple \/ k = PList -> isdistribution (k l) lb ub = chain_le (PFloat lb) (l ++ [PFloat ub]) \/ isdistribution (k l) lb ub = Ok false).
  { intros k l [->| ->]; destruct l as [|a [|b [|c [|d l]]]]; cbn [isdistribution app]; auto. }
  assert (Q2 : forall k l, k = PTuple \/ k = PList -> isdistribution (k l) lb ub = Ok true \/ isdistribution (k l) lb ub = Ok false \/
    (isdistribution (k l) lb ub = Raise TypeError /\ exists a, In a l /\ forall x, ~ number a x)).
  { intros k l Hk. destruct (Q k l Hk) as [E|E]; rewrite E; [|auto].
    destruct (K (l ++ [PFloat ub]) (PFloat lb) lb (num_float lb)) as [?|[?|(? & b & Hb & Nb)]]; auto. right. right. split; [assumption|].
    exists b. split; [|exact Nb]. apply in_app_iff in Hb. destruct Hb as [Hb|[<-|[]]]; [exact Hb|]. exfalso. exact (Nb _ (num_float ub)). }
  destruct v as [z|x|b|s| |l|l]; try (right; left; reflexivity).
  - destruct (K [PInt z; PFloat ub] (PFloat lb) lb (num_float lb)) as [?|[?|(? & b & [<-|[<-|[]]] & Nb)]]; auto; exfalso; eapply Nb; constructor.
  - destruct (K [PFloat x; PFloat ub] (PFloat lb) lb (num_float lb)) as [?|[?|(? & b & [<-|[<-|[]]] & Nb)]]; auto; exfalso; eapply Nb; constructor.
  - destruct (K [PBool b; PFloat ub] (PFloat lb) lb (num_float lb)) as [?|[?|(? & c & [<-|[<-|[]]] & Nb)]]; auto; exfalso; [destruct b|]; eapply Nb; constructor.
  - destruct (Q2 PTuple l (or_introl eq_refl)) as [?|[?|(? & a & ? & ?)]]; auto. right. right. split; [assumption|]. exists PTuple, l, a. auto.
  - destruct (Q2 PList l (or_intror eq_refl)) as [?|[?|(? & a & ? & ?)]]; auto. right. right. split; [assumption|]. exists PList, l, a. auto.
Qed.

(** Concrete values: a triple in order, one out of order, NaN, a string, a pair with a string, four entries. *)
Lemma c55_example :
  isdistribution (PTuple [PInt 1; PFloat (Fin (3 / 2)); PInt 2]) (Fin 0) PInf = Ok true /\
  isdistribution (PList [PInt 2; PInt 1]) (Fin 0) PInf = Ok false /\
  isdistribution (PFloat NaN) NInf PInf = Ok false /\
  isdistribution (PStr "1"%string) NInf PInf = Ok false /\
  isdistribution (PTuple [PInt 1; PStr "2"%string]) (Fin 0) PInf = Raise TypeError /\
  isdistribution (PTuple [PInt 1; PInt 2; PInt 3; PInt 4]) (Fin 0) PInf = Ok false.
Proof.
  repeat split; cbn.
  - destruct (Rleb_spec 0 1); [|lra]. destruct (Rleb_spec 1 (3 / 2)); [|lra]. destruct (Rleb_spec (3 / 2) 2); [reflexivity|lra].
  - destruct (Rleb_spec 0 2); [|lra]. destruct (Rleb_spec 2 1); [lra|reflexivity].
  - destruct (Rleb_spec 0 1); [reflexivity|lra].
Qed.

(** ** C56 The mean *)

(** The mean of an accepted number or tuple is within the bounds and between the entries, provided the
    entries do not contain both infinities. *)
Lemma c56_mean_partial : forall (v : pyval xr) (l : list xr) (lb ub : xr),
  isdistribution v lb ub = Ok true -> ~ is_list v -> entries v l -> ~ (In NInf l /\ In PInf l) ->
  exists w m, compute_variate_mean v = Ok w /\ number w m /\ xr_le lb m /\ xr_le m ub /\
    (exists a, In a l /\ xr_le a m) /\ (exists b, In b l /\ xr_le m b).
Proof.
  intros v l lb ub H NL E NI. pose proof (c55_no_nan v l lb ub H E) as (NN & _).
  apply c55_exactly in H. destruct H as (l' & E' & O).
  assert (OO : ordered lb l ub).
  { clear NI NN. revert O. inversion E as [v1 x1 Hx1 Q1|k1 a1 b1 K1 x1 y1 Hx1 Hy1 Q1|k1 a1 b1 c1 K1 x1 y1 z1 Hx1 Hy1 Hz1 Q1]; subst;
    inversion E' as [v2 x2 Hx2 Q2|k2 a2 b2 K2 x2 y2 Hx2 Hy2 Q2|k2 a2 b2 c2 K2 x2 y2 z2 Hx2 Hy2 Hz2 Q2]; subst.
    - rewrite (number_fun _ _ _ Hx1 Hx2). auto.
    - exfalso. destruct K2 as [->| ->]; inversion Hx1.
    - exfalso. destruct K2 as [->| ->]; inversion Hx1.
    - exfalso. destruct K1 as [->| ->]; inversion Hx2.
    - assert (a2 = a1 /\ b2 = b1) as [-> ->] by (destruct K1 as [->| ->], K2 as [->| ->]; inversion Q2; auto).
      rewrite (number_fun _ _ _ Hx1 Hx2), (number_fun _ _ _ Hy1 Hy2). auto.
    - exfalso. destruct K1 as [->| ->], K2 as [->| ->]; inversion Q2.
    - exfalso. destruct K1 as [->| ->]; inversion Hx2.
    - exfalso. destruct K1 as [->| ->], K2 as [->| ->]; inversion Q2.
    - assert (a2 = a1 /\ b2 = b1 /\ c2 = c1) as (-> & -> & ->) by (destruct K1 as [->| ->], K2 as [->| ->]; inversion Q2; auto).
      rewrite (number_fun _ _ _ Hx1 Hx2), (number_fun _ _ _ Hy1 Hy2), (number_fun _ _ _ Hz1 Hz2). auto. }
  assert (B : forall m, (exists a, In a l /\ xr_le a m) -> (exists b, In b l /\ xr_le m b) -> xr_le lb m /\ xr_le m ub).
  { intros m (a & Ia & La) (b & Ib & Lb). apply ordered_bounds in OO. destruct OO as [OO _].
    split; [eapply xr_le_trans; [apply (OO a Ia)|exact La]|eapply xr_le_trans; [exact Lb|apply (OO b Ib)]]. }
  enough (G : exists w m, compute_variate_mean v = Ok w /\ number w m /\ (exists a, In a l /\ xr_le a m) /\ (exists b, In b l /\ xr_le m b)).
  { destruct G as (w & m & G1 & G2 & G3 & G4). exists w, m. destruct (B m G3 G4). auto 10. }
  clear B E' O l'. inversion E as [v1 x1 Hx1 Q1|k1 a1 b1 K1 x1 y1 Hx1 Hy1 Q1|k1 a1 b1 c1 K1 x1 y1 z1 Hx1 Hy1 Hz1 Q1]; subst.
  - exists v, x1. assert (x1 <> NaN) by (intros ->; apply NN; left; reflexivity). apply xr_le_refl in H.
    split; [destruct Hx1; reflexivity|]. split; [exact Hx1|]. split; exists x1; cbn; auto.
  - destruct K1 as [->| ->]; [|exfalso; apply NL; eexists; reflexivity].
    apply number_of in Hx1, Hy1. cbn [compute_variate_mean]. unfold as_num. rewrite Hx1, Hy1. cbn [bind].
    destruct OO as (_ & O1 & _). do 2 eexists. split; [reflexivity|]. split; [constructor|].
    destruct x1 as [x| | |], y1 as [y| | |]; cbn in O1; try contradiction O1; try (exfalso; apply NI; cbn; tauto);
      cbn; repeat match goal with |- context [Reqb 2 0] => destruct (Reqb_spec 2 0); [lra|] | |- context [Rltb ?a ?b] => destruct (Rltb_spec a b); [try lra|try lra] end; cbn.
    + split; [exists (Fin x)|exists (Fin y)]; cbn; split; auto; lra.
    + split; [exists (Fin x)|exists PInf]; cbn; auto.
    + split; [exists PInf|exists PInf]; cbn; auto.
    + split; [exists NInf|exists (Fin y)]; cbn; auto.
    + split; [exists NInf|exists NInf]; cbn; auto.
  - destruct K1 as [->| ->]; [|exfalso; apply NL; eexists; reflexivity].
    apply number_of in Hx1, Hy1, Hz1. cbn [compute_variate_mean]. unfold as_num. rewrite Hx1, Hy1, Hz1. cbn [bind].
    destruct OO as (_ & O1 & O2 & _). do 2 eexists. split; [reflexivity|]. split; [constructor|].
    destruct x1 as [x| | |], y1 as [y| | |], z1 as [z| | |]; cbn in O1, O2; try contradiction O1; try contradiction O2; try (exfalso; apply NI; cbn; tauto);
      cbn; repeat match goal with |- context [Reqb 3 0] => destruct (Reqb_spec 3 0); [lra|] | |- context [Rltb ?a ?b] => destruct (Rltb_spec a b); [try lra|try lra] end; cbn.
    + split; [exists (Fin x)|exists (Fin z)]; cbn; split; auto; lra.
    + split; [exists (Fin x)|exists PInf]; cbn; auto.
    + split; [exists (Fin x)|exists PInf]; cbn; auto.
    + split; [exists PInf|exists PInf]; cbn; auto.
    + split; [exists NInf|exists (Fin z)]; cbn; auto.
    + split; [exists NInf|exists (Fin z)]; cbn; auto.
    + split; [exists NInf|exists NInf]; cbn; auto.
Qed.

(** The mean of an accepted finite distribution is what it should be. *)
Lemma c56_value_partial : forall x y z : R,
  compute_variate_mean (PFloat (Fin x)) = Ok (PFloat (Fin x)) /\
  compute_variate_mean (PTuple [PFloat (Fin x); PFloat (Fin y)]) = Ok (PFloat (Fin ((x + y) / 2))) /\
  compute_variate_mean (PTuple [PFloat (Fin x); PFloat (Fin y); PFloat (Fin z)]) = Ok (PFloat (Fin ((x + y + z) / 3))).
Proof.
  intros. split; [reflexivity|]. split; cbn; destruct (Reqb_spec 2 0), (Reqb_spec 3 0); try lra; reflexivity.
Qed.

(** The pair (-inf, inf), accepted for a discharge, has mean NaN. *)
Lemma c56_infinite_refuted :
  isdistribution (PTuple [PFloat NInf; PFloat PInf]) NInf PInf = Ok true /\
  compute_variate_mean (PTuple [PFloat NInf; PFloat PInf]) = Ok (PFloat NaN).
Proof. split; reflexivity. Qed.

Lemma c56_example :
  compute_variate_mean (PTuple [PInt 1; PFloat (Fin 2); PInt 6]) = Ok (PFloat (Fin 3)) /\
  compute_variate_mean (PTuple [PInt 1; PFloat PInf]) = Ok (PFloat PInf).
Proof.
  split; cbn; [|destruct (Rltb_spec 2 0); [lra|reflexivity]].
  destruct (Reqb_spec 3 0); [lra|]. do 3 f_equal. field.
Qed.

(** ** C57 Random variates *)

Lemma distribution_entries v l lb ub : isdistribution v lb ub = Ok true -> entries v l -> ordered lb l ub.
Proof.
  intros H E. apply c55_exactly in H. destruct H as (l' & E' & O). revert O.
  inversion E as [v1 x1 Hx1 Q1|k1 a1 b1 K1 x1 y1 Hx1 Hy1 Q1|k1 a1 b1 c1 K1 x1 y1 z1 Hx1 Hy1 Hz1 Q1]; subst;
    inversion E' as [v2 x2 Hx2 Q2|k2 a2 b2 K2 x2 y2 Hx2 Hy2 Q2|k2 a2 b2 c2 K2 x2 y2 z2 Hx2 Hy2 Hz2 Q2]; subst.
  - rewrite (number_fun _ _ _ Hx1 Hx2). auto.
  - exfalso. destruct K2 as [->| ->]; inversion Hx1.
  - exfalso. destruct K2 as [->| ->]; inversion Hx1.
  - exfalso. destruct K1 as [->| ->]; inversion Hx2.
  - assert (a2 = a1 /\ b2 = b1) as [-> ->] by (destruct K1 as [->| ->], K2 as [->| ->]; inversion Q2; auto).
    rewrite (number_fun _ _ _ Hx1 Hx2), (number_fun _ _ _ Hy1 Hy2). auto.
  - exfalso. destruct K1 as [->| ->], K2 as [->| ->]; inversion Q2.
  - exfalso. destruct K1 as [->| ->]; inversion Hx2.
  - exfalso. destruct K1 as [->| ->], K2 as [->| ->]; inversion Q2.
  - assert (a2 = a1 /\ b2 = b1 /\ c2 = c1) as (-> & -> & ->) by (destruct K1 as [->| ->], K2 as [->| ->]; inversion Q2; auto).
    rewrite (number_fun _ _ _ Hx1 Hx2), (number_fun _ _ _ Hy1 Hy2), (number_fun _ _ _ Hz1 Hz2). auto.
Qed.

Lemma finite_diff x y : xr_le x y -> nfinite (nsub y x) = true -> exists a b, x = Fin a /\ y = Fin b /\ a <= b.
Proof.
  destruct x as [x| | |], y as [y| | |]; cbn; try contradiction; try discriminate. intros. exists x, y. auto.
Qed.

(** A value that generate_random_variate returns for an accepted number or tuple is a number within the bounds
    and between the entries, for every random source with numpy's documented supports. *)
Lemma c57_within : forall (G : Type) (R : rng xr G) (g g' : G) (v w : pyval xr) (l : list xr) (lb ub : xr),
  documented R -> isdistribution v lb ub = Ok true -> ~ is_list v -> entries v l ->
  generate_random_variate R g v = Ok (w, g') ->
  exists x, number w x /\ xr_le lb x /\ xr_le x ub /\ (exists a, In a l /\ xr_le a x) /\ (exists b, In b l /\ xr_le x b).
Proof.
  intros G R g g' v w l lb ub [DU DT] H NL E S. pose proof (c55_no_nan v l lb ub H E) as (NN & _).
  pose proof (distribution_entries _ _ _ _ H E) as O. pose proof (ordered_bounds _ _ _ O) as [OO _].
  assert (Gx : forall x, number w x -> (exists a, In a l /\ xr_le a x) -> (exists b, In b l /\ xr_le x b) ->
     exists x, number w x /\ xr_le lb x /\ xr_le x ub /\ (exists a, In a l /\ xr_le a x) /\ (exists b, In b l /\ xr_le x b)).
  { intros x Hx (a & Ia & La) (b & Ib & Lb). exists x. split; [exact Hx|].
    split; [eapply xr_le_trans; [apply (OO a Ia)|exact La]|].
    split; [eapply xr_le_trans; [exact Lb|apply (OO b Ib)]|]. split; [exists a|exists b]; auto. }
  inversion E as [v1 x1 Hx1 Q1|k1 a1 b1 K1 x1 y1 Hx1 Hy1 Q1|k1 a1 b1 c1 K1 x1 y1 z1 Hx1 Hy1 Hz1 Q1]; subst.
  - assert (w = v) as -> by (destruct Hx1; cbn in S; congruence).
    assert (x1 <> NaN) as Nx by (intros ->; apply NN; left; reflexivity). apply xr_le_refl in Nx.
    apply (Gx x1 Hx1); exists x1; cbn; auto.
  - destruct K1 as [->| ->]; [|exfalso; apply NL; eexists; reflexivity].
    apply number_of in Hx1, Hy1. cbn [generate_random_variate] in S. unfold as_num in S. rewrite Hx1, Hy1 in S. cbn [bind] in S.
    unfold np_uniform in S. destruct (nfinite (nsub y1 x1)) eqn:F; [|discriminate S].
    destruct O as (_ & O1 & _). destruct (finite_diff _ _ O1 F) as (a & b & -> & -> & Hab).
    specialize (DU g a b Hab). destruct (draw_uniform R g (Fin a) (Fin b)) as [u g1]. cbn [bind fst] in *. injection S as <- <-.
    apply (Gx u); [constructor|exists (Fin a)|exists (Fin b)]; cbn; tauto.
  - destruct K1 as [->| ->]; [|exfalso; apply NL; eexists; reflexivity].
    apply number_of in Hx1, Hy1, Hz1. cbn [generate_random_variate] in S. unfold as_num in S. rewrite Hx1, Hy1, Hz1 in S. cbn [bind] in S.
    unfold np_triangular in S. destruct (nlt y1 x1); [discriminate S|]. destruct (nlt z1 y1); [discriminate S|].
    destruct (neq x1 z1) eqn:Q; [discriminate S|]. destruct O as (_ & O1 & O2 & _).
    assert (Nxz : x1 <> z1).
    { intros ->. destruct z1 as [z| | |]; cbn in Q; try discriminate Q; [|apply NN; left; reflexivity].
      apply Reqb_false in Q. contradiction. }
    specialize (DT g x1 y1 z1 O1 O2 Nxz). destruct (draw_triangular R g x1 y1 z1) as [u g1]. cbn [bind fst] in *. injection S as <- <-.
    apply (Gx u); [constructor|exists x1|exists z1]; cbn; tauto.
Qed.

(** The same for finite entries, when the supports are promised for finite parameters only. *)
Lemma c57_within_finite : forall (G : Type) (Rg : rng xr G) (g g' : G) (v w : pyval xr) (l : list R) (lb ub : xr),
  documented_finite Rg -> isdistribution v lb ub = Ok true -> ~ is_list v -> entries v (map Fin l) ->
  generate_random_variate Rg g v = Ok (w, g') ->
  exists x, number w (Fin x) /\ xr_le lb (Fin x) /\ xr_le (Fin x) ub /\ (exists a, In a l /\ a <= x) /\ (exists b, In b l /\ x <= b).
Proof.
  intros G Rg g g' v w l lb ub D H NL E S.
  (* a source that agrees with Rg on finite parameters and is documented everywhere *)
  set (R' := {| draw_uniform := draw_uniform Rg;
               draw_triangular := fun g a b c => match a, b, c with Fin _, Fin _, Fin _ => draw_triangular Rg g a b c | _, _, _ => (b, g) end |}).
  assert (DR : documented R').
  { destruct D as [DU DT]. split; [exact DU|]. intros g0 a b c H1 H2 H3. cbn.
    destruct a as [a| | |], b as [b| | |], c as [c| | |]; cbn in *; try contradiction; try tauto; try (split; auto; lra).
    apply (DT g0 a b c H1 H2). intros ->. apply H3. reflexivity. }
  assert (S' : generate_random_variate R' g v = Ok (w, g')).
  { rewrite <- S. clear - E. inversion E as [v1 x1 Hx1 Q1 Q2|k1 a1 b1 K1 x1 y1 Hx1 Hy1 Q1 Q2|k1 a1 b1 c1 K1 x1 y1 z1 Hx1 Hy1 Hz1 Q1 Q2]; subst.
    - destruct Hx1; reflexivity.
    - destruct K1 as [->| ->]; reflexivity.
    - destruct K1 as [->| ->]; [|reflexivity]. cbn [generate_random_variate]. unfold as_num.
      apply number_of in Hx1, Hy1, Hz1. rewrite Hx1, Hy1, Hz1. cbn [bind].
      destruct l as [|a [|b [|c [|d l]]]]; try discriminate Q2. cbn in Q2. injection Q2 as -> -> ->. reflexivity. }
  destruct (c57_within G R' g g' v w (map Fin l) lb ub DR H NL E S') as (x & Nx & L1 & L2 & (a & Ia & La) & (b & Ib & Lb)).
  apply in_map_iff in Ia, Ib. destruct Ia as (a' & <- & Ia), Ib as (b' & <- & Ib).
  destruct x as [x| | |]; cbn in La, Lb; try contradiction. exists x. split; [exact Nx|]. split; [exact L1|]. split; [exact L2|].
  split; [exists a'|exists b']; auto.
Qed.

(** The contract is met by numpy's own formulas over any source of uniform numbers in [0,1). *)
Lemma c57_satisfiable : forall u : nat -> R, (forall n, 0 <= u n < 1) -> documented_finite (inverse_rng u).
Proof.
  intros u Hu. split; cbn.
  - intros g a b H. destruct (Hu g). nra.
  - intros g a b c H1 H2 H3. destruct (Hu g) as [U0 U1]. assert (Hac : a < c) by (destruct (Rle_lt_or_eq_dec a c); [lra|lra|contradiction]).
    destruct (Reqb_spec (c - a) 0); [lra|]. cbn.
    assert (HQ : (b - a) / (c - a) * (c - a) = b - a) by (field; lra).
    destruct (Rleb_spec (u g) ((b - a) / (c - a))) as [L|L].
    + assert (P : 0 <= u g * ((b - a) * (c - a)) <= (b - a) * (b - a)).
      { assert (u g * (c - a) <= b - a) by (rewrite <- HQ; apply Rmult_le_compat_r; lra).
        assert (0 <= u g * (c - a)) by (apply Rmult_le_pos; lra).
        replace (u g * ((b - a) * (c - a))) with (u g * (c - a) * (b - a)) by ring. split; [apply Rmult_le_pos; lra|apply Rmult_le_compat_r; lra]. }
      destruct (Rltb_spec (u g * ((b - a) * (c - a))) 0); [lra|]. cbn.
      pose proof (sqrt_pos (u g * ((b - a) * (c - a)))). pose proof (sqrt_le_1_alt _ _ (proj2 P)) as Q.
      rewrite sqrt_square in Q by lra. split; lra.
    + assert (P : 0 <= (1 - u g) * ((c - b) * (c - a)) <= (c - b) * (c - b)).
      { assert (b - a <= u g * (c - a)) by (rewrite <- HQ; apply Rmult_le_compat_r; lra).
        assert ((1 - u g) * (c - a) <= c - b) by lra.
        assert (0 <= (1 - u g) * (c - a)) by (apply Rmult_le_pos; lra).
        replace ((1 - u g) * ((c - b) * (c - a))) with ((1 - u g) * (c - a) * (c - b)) by ring. split; [apply Rmult_le_pos; lra|apply Rmult_le_compat_r; lra]. }
      destruct (Rltb_spec ((1 - u g) * ((c - b) * (c - a))) 0); [lra|]. cbn.
      pose proof (sqrt_pos ((1 - u g) * ((c - b) * (c - a)))). pose proof (sqrt_le_1_alt _ _ (proj2 P)) as Q.
      rewrite sqrt_square in Q by lra. split; lra.
Qed.

(** With u = 1/4, a pair and a triple. *)
Lemma c57_example :
  generate_random_variate (inverse_rng (fun _ => 1 / 4)) 0%nat (PTuple [PInt 1; PInt 3]) = Ok (PFloat (Fin (3 / 2)), 1%nat) /\
  generate_random_variate (inverse_rng (fun _ => 1 / 4)) 0%nat (PTuple [PInt 1; PInt 5; PInt 5]) = Ok (PFloat (Fin 3), 1%nat) /\
  generate_random_variate (inverse_rng (fun _ => 1 / 4)) 0%nat (PInt 7) = Ok (PInt 7, 0%nat).
Proof.
  split; [|split; [|reflexivity]].
  - cbn. do 4 f_equal. lra.
  - cbn [generate_random_variate bind as_num num_of]. unfold np_triangular. cbn. destruct (Rltb_spec 5 1); [lra|]. destruct (Rltb_spec 5 5); [lra|]. destruct (Reqb_spec 1 5); [lra|]. cbn.
    destruct (Reqb_spec (5 - 1) 0); [lra|]. cbn.
    match goal with |- context [Rleb ?a ?b] => destruct (Rleb_spec a b) end; [|lra].
    match goal with |- context [Rltb ?a ?b] => destruct (Rltb_spec a b) end; [lra|]. cbn.
    replace (1 / 4 * ((5 - 1) * (5 - 1))) with (2 * 2) by lra. rewrite sqrt_square by lra. apply f_equal, f_equal2; [|reflexivity]. apply f_equal, f_equal. lra.
Qed.

(** An infinite triple, accepted, makes numpy's formulas return NaN. *)
Lemma c57_infinite_example :
  isdistribution (PTuple [PInt 0; PInt 1; PFloat PInf]) (Fin 0) PInf = Ok true /\
  generate_random_variate (inverse_rng (fun _ => 1 / 4)) 0%nat (PTuple [PInt 0; PInt 1; PFloat PInf]) = Ok (PFloat NaN, 1%nat).
Proof.
  split; cbn; [destruct (Rleb_spec 0 0), (Rleb_spec 0 1); try lra; reflexivity|].
  unfold np_triangular, inf_of_sign. cbn. unfold inf_of_sign. rb; try lra; cbn; unfold inf_of_sign; rb; try lra; reflexivity.
Qed.

(** ** C58 Sampling an accepted distribution *)

(** It fails, whatever the random source, on a triple with equal ends and on an infinite pair, and a list is
    returned unsampled. *)
Lemma c58_refuted :
  isdistribution (PTuple [PInt 5; PInt 5; PInt 5]) (Fin 0) PInf = Ok true /\
  (forall (G : Type) (R : rng xr G) g, generate_random_variate R g (PTuple [PInt 5; PInt 5; PInt 5]) = Raise ValueError) /\
  isdistribution (PTuple [PInt 0; PFloat PInf]) (Fin 0) PInf = Ok true /\
  (forall (G : Type) (R : rng xr G) g, generate_random_variate R g (PTuple [PInt 0; PFloat PInf]) = Raise OverflowError) /\
  isdistribution (PList [PInt 1; PInt 2]) (Fin 0) PInf = Ok true /\
  (forall (G : Type) (R : rng xr G) g, generate_random_variate R g (PList [PInt 1; PInt 2]) = Ok (PList [PInt 1; PInt 2], g)).
Proof.
  split; [cbn; rb; try lra; reflexivity|]. split; [intros; cbn; unfold np_triangular; cbn; rb; try lra; reflexivity|].
  split; [cbn; rb; try lra; reflexivity|]. split; [intros; reflexivity|].
  split; [cbn; rb; try lra; reflexivity|]. intros; reflexivity.
Qed.

(** Exactly which accepted values are sampled: numbers, pairs of finite difference, triples with distinct ends.
    Missing from the property: the others. *)
Lemma c58_exactly_partial : forall (G : Type) (R : rng xr G) (g : G) (v : pyval xr) (l : list xr) (lb ub : xr),
  isdistribution v lb ub = Ok true -> entries v l ->
  ((exists w x g', generate_random_variate R g v = Ok (w, g') /\ number w x) <->
   ~ is_list v /\ match l with
                  | [_] => True
                  | [a; b] => exists x y, a = Fin x /\ b = Fin y
                  | [a; _; c] => a <> c
                  | _ => False
                  end).
Proof.
  intros G R g v l lb ub H E. pose proof (c55_no_nan v l lb ub H E) as (NN & _).
  pose proof (distribution_entries _ _ _ _ H E) as O.
  inversion E as [v1 x1 Hx1 Q1|k1 a1 b1 K1 x1 y1 Hx1 Hy1 Q1|k1 a1 b1 c1 K1 x1 y1 z1 Hx1 Hy1 Hz1 Q1]; subst.
  - split; [intros _; split; [intros (l & ->); inversion Hx1|exact I]|]. intros _. exists v, x1, g. split; [destruct Hx1; reflexivity|exact Hx1].
  - apply number_of in Hx1, Hy1. destruct K1 as [->| ->].
    + cbn [generate_random_variate]. unfold as_num. rewrite Hx1, Hy1. cbn [bind]. unfold np_uniform. destruct O as (_ & O1 & _). split.
      * intros (w & x & g' & S & _). split; [intros (l & Q); discriminate Q|]. destruct (nfinite (nsub y1 x1)) eqn:F; [|discriminate S].
        destruct (finite_diff _ _ O1 F) as (a & b & -> & -> & _). exists a, b. auto.
      * intros (_ & a & b & -> & ->). cbn. destruct (draw_uniform R g (Fin a) (Fin b)) as [u g'] eqn:D. exists (PFloat u), u, g'. split; [reflexivity|constructor].
    + split; [intros (w & x & g' & S & Nw)|intros (NL & _); exfalso; apply NL; eexists; reflexivity].
      cbn in S. injection S as <- _. inversion Nw.
  - apply number_of in Hx1, Hy1, Hz1. destruct K1 as [->| ->].
    + cbn [generate_random_variate]. unfold as_num. rewrite Hx1, Hy1, Hz1. cbn [bind]. unfold np_triangular. destruct O as (_ & O1 & O2 & _).
      assert (nlt y1 x1 = false) as -> by (destruct y1, x1; cbn in *; try reflexivity; try contradiction; apply Rltb_false; lra).
      assert (nlt z1 y1 = false) as -> by (destruct y1, z1; cbn in *; try reflexivity; try contradiction; apply Rltb_false; lra).
      destruct (neq x1 z1) eqn:Q; split.
      * intros (w & x & g' & S & _). discriminate S.
      * intros (_ & Nac). exfalso. apply Nac. destruct x1, z1; cbn in Q; try discriminate Q; try reflexivity. apply Reqb_true in Q. subst. reflexivity.
      * intros _. split; [intros (l & C); discriminate C|]. intros ->. destruct z1; cbn in Q; try discriminate Q; [apply Reqb_false in Q; contradiction|apply NN; left; reflexivity].
      * intros _. destruct (draw_triangular R g x1 y1 z1) as [u g'] eqn:D. exists (PFloat u), u, g'. split; [reflexivity|constructor].
    + split; [intros (w & x & g' & S & Nw)|intros (NL & _); exfalso; apply NL; eexists; reflexivity].
      cbn in S. injection S as <- _. inversion Nw.
Qed.
