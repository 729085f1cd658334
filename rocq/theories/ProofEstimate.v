(** * The probability map as an estimate: properties C113 and C114 *)
From Coq Require Import Reals Lra Lia.
From Verif Require Import Py Num NumXR ModelField ModelAquifer ModelTrace ModelDist ModelDriver ModelMain.
From Verif Require Import SpecTrace SpecDriver SpecDist SpecMain ProofWhole ProofDraws ProofExactMap ProofMonteCarlo.
From Verif Require Import SpecField SpecWhole SpecDraws SpecExactMap SpecMonteCarlo.
Import ListNotations.
Local Open Scope R_scope.

(** ** One realization draws one block of numbers *)
Lemma drawn_split {G} (Rg : rng xr G) ds1 ds2 : forall g vs g', drawn Rg g (ds1 ++ ds2) vs g' ->
  exists vs1 vs2 g1, vs = vs1 ++ vs2 /\ length vs1 = length ds1 /\ drawn Rg g ds1 vs1 g1 /\ drawn Rg g1 ds2 vs2 g'.
Proof.
  induction ds1 as [|d ds1 IH]; intros g vs g' H; [exists [], vs, g; auto using drawn_none|].
  cbn [app] in H. inversion H; subst; match goal with D : drawn _ _ (ds1 ++ ds2) _ _ |- _ => destruct (IH _ _ _ D) as (vs1 & vs2 & g2 & -> & L & D1 & D2) end.
  - exists (d :: vs1), vs2, g2. cbn. auto using drawn_number.
  - eexists (_ :: vs1), vs2, g2. cbn. split; [reflexivity|]. split; [lia|]. split; [eapply drawn_uniform; eassumption|exact D2].
  - eexists (_ :: vs1), vs2, g2. cbn. split; [reflexivity|]. split; [lia|]. split; [eapply drawn_triangular; eassumption|exact D2].
Qed.

Lemma drawn_end u ds : forall g vs g', drawn (inverse_rng u) g ds vs g' -> g' = (g + length (filter is_tuple ds))%nat.
Proof.
  induction ds as [|d ds IH]; intros g vs g' H; inversion H; subst; cbn [filter is_tuple length].
  - lia.
  - assert (is_tuple d = false) as -> by (destruct d; cbn; auto; match goal with N : forall l, PTuple _ <> PTuple l |- _ => destruct (N _ eq_refl) end). eauto.
  - match goal with E : draw_uniform _ _ _ _ = _ |- _ => cbn in E; injection E as _ <- end. match goal with D : drawn _ _ ds _ _ |- _ => rewrite (IH _ _ _ D) end. cbn. lia.
  - match goal with E : draw_triangular _ _ _ _ _ = _ |- _ => cbn in E; injection E as _ <- end. match goal with D : drawn _ _ ds _ _ |- _ => rewrite (IH _ _ _ D) end. cbn. lia.
Qed.

(** The values depend only on the numbers of the block. *)
Lemma drawn_shift u u' ds : forall g h vs g', drawn (inverse_rng u) g ds vs g' ->
  (forall i, (i < length (filter is_tuple ds))%nat -> u' (h + i)%nat = u (g + i)%nat) ->
  drawn (inverse_rng u') h ds vs (h + length (filter is_tuple ds))%nat.
Proof.
  induction ds as [|d ds IH]; intros g h vs g' H Hu; inversion H; subst; cbn [filter is_tuple length].
  - rewrite Nat.add_0_r. constructor.
  - assert (E : is_tuple d = false) by (destruct d; cbn; auto; match goal with N : forall l, PTuple _ <> PTuple l |- _ => destruct (N _ eq_refl) end). cbn [filter] in Hu. rewrite E in *. constructor; eauto.
  - match goal with E : draw_uniform _ _ _ _ = _ |- _ => pose proof E as E0; cbn in E; injection E as <- <- end.
    cbn [filter is_tuple length] in Hu. rewrite <- Nat.add_succ_comm. eapply drawn_uniform; [eassumption..| |].
    + cbn. pose proof (Hu 0%nat ltac:(lia)) as U. rewrite !Nat.add_0_r in U. rewrite U. reflexivity.
    + eapply IH; [eassumption|]. intros i Hi. rewrite !Nat.add_succ_comm. apply Hu. lia.
  - match goal with E : draw_triangular _ _ _ _ _ = _ |- _ => pose proof E as E0; cbn in E; injection E as <- <- end.
    cbn [filter is_tuple length] in Hu. rewrite <- Nat.add_succ_comm. eapply drawn_triangular; [eassumption..| |].
    + cbn. pose proof (Hu 0%nat ltac:(lia)) as U. rewrite !Nat.add_0_r in U. rewrite U. reflexivity.
    + eapply IH; [eassumption|]. intros i Hi. rewrite !Nat.add_succ_comm. apply Hu. lia.
Qed.

Lemma drawn_length {G} (Rg : rng xr G) ds : forall g vs g', drawn Rg g ds vs g' -> length vs = length ds.
Proof. induction ds as [|d ds IH]; intros g vs g' H; inversion H; subst; cbn; f_equal; eauto. Qed.

Lemma drawn_blocks ds K : K = length (filter is_tuple ds) -> forall bs pre vals g', Forall (fun b => length b = K) bs -> length vals = length bs -> Forall (fun vs => length vs = length ds) vals ->
  drawn (inverse_rng (stream (pre ++ concat bs))) (length pre) (concat (repeat ds (length bs))) (concat vals) g' ->
  Forall2 (fun b vs => drawn (inverse_rng (stream b)) 0%nat ds vs K) bs vals.
Proof.
  intros EK. induction bs as [|b bs IH]; intros pre vals g' Hb Lv Hv H; destruct vals as [|vs vals]; try discriminate Lv; [constructor|].
  cbn [length repeat concat] in H. apply drawn_split in H. destruct H as (vs1 & vs2 & g1 & E & L & D1 & D2).
  inversion Hb as [|? ? Lb Hb']; subst. inversion Hv as [|? ? Lvs Hv']; subst.
  assert (Ev : vs1 = vs /\ vs2 = concat vals).
  { assert (E1 : firstn (length ds) (vs ++ concat vals) = vs) by (rewrite <- Lvs, firstn_app, Nat.sub_diag, firstn_O, app_nil_r, firstn_all; reflexivity).
    assert (E2 : firstn (length ds) (vs1 ++ vs2) = vs1) by (rewrite <- L, firstn_app, Nat.sub_diag, firstn_O, app_nil_r, firstn_all; reflexivity).
    assert (E3 : vs1 = vs) by congruence. split; [exact E3|]. rewrite E3 in E. apply app_inv_head in E. congruence. }
  destruct Ev as [-> ->]. constructor.
  - pose proof (drawn_shift _ (stream b) ds _ 0%nat _ _ D1) as Q. cbn [Nat.add] in Q. apply Q. intros i Hi. unfold stream.
    rewrite app_nth2_plus, app_nth1 by lia. reflexivity.
  - pose proof (drawn_end _ _ _ _ _ D1) as Eg. apply (IH (pre ++ b) vals g'); auto.
    rewrite app_length, Lb, <- app_assoc. rewrite <- Eg. exact D2.
Qed.

(** ** The zone is a function of the outcome *)
Lemma drawn_fun {G} (Rg : rng xr G) ds : forall g vs vs' g1 g2, drawn Rg g ds vs g1 -> drawn Rg g ds vs' g2 -> vs = vs'.
Proof.
  induction ds as [|d ds IH]; intros g vs vs' g1 g2 H H'.
  - inversion H; inversion H'; subst; reflexivity.
  - inversion H; subst; inversion H'; subst;
      try match goal with N : forall l, PTuple _ <> PTuple l |- _ => destruct (N _ eq_refl) end.
    all: repeat match goal with A : num_of ?v = Some ?p, B : num_of ?v = Some ?q |- _ => assert (q = p) by congruence; subst q; clear B end.
    all: try match goal with A : draw_uniform _ _ _ _ = (_, ?g3), B : draw_uniform _ _ _ _ = (_, ?g4) |- _ => rewrite A in B; injection B as <- <- end.
    all: try match goal with A : draw_triangular _ _ _ _ _ = (_, ?g3), B : draw_triangular _ _ _ _ _ = (_, ?g4) |- _ => rewrite A in B; injection B as <- <- end.
    all: f_equal; eauto.
Qed.

Lemma app_three {A} (l l' : list A) a b c a' b' c' : l ++ [a; b; c] = l' ++ [a'; b'; c'] -> l = l' /\ a = a' /\ b = b' /\ c = c'.
Proof.
  intros H. assert (L : length l = length l') by (apply (f_equal (@length A)) in H; rewrite !app_length in H; cbn in H; lia).
  revert l' L H. induction l as [|x l IH]; intros [|x' l'] L H; try discriminate L; cbn in H.
  - injection H as -> -> ->. auto.
  - injection H as -> H. destruct (IH l' ltac:(cbn in L; lia) H) as (-> & E). auto.
Qed.

Lemma made_fun la b xt yt ws kept pick qs k n h (m m' : model xr) :
  made la b xt yt ws kept pick qs k n h m -> made la b xt yt ws kept pick qs k n h m' -> m = m'.
Proof.
  intros (A1 & A2 & A3 & A4 & A5 & A6 & A7 & (m1 & ev & cov & A8 & A9)) (B1 & B2 & B3 & B4 & B5 & B6 & B7 & (m1' & ev' & cov' & B8 & B9)).
  assert (K : conductivity m = conductivity m') by congruence. assert (P : porosity m = porosity m') by congruence. assert (H : thickness m = thickness m') by congruence.
  assert (W : wells m = wells m').
  { clear - A7 B7. revert B7. generalize (wells m') as l'. induction A7 as [|[s q] v l l1 (E1 & E2 & E3 & E4) F IH]; intros l' F'; inversion F' as [|? v' ? l2 (E1' & E2' & E3' & E4') F2]; subst; [reflexivity|].
    f_equal; [|apply IH, F2]. cbn in *. destruct v, v'; cbn in *. congruence. }
  rewrite K, P, H, W in A8. rewrite A8 in B8. injection B8 as <- <- <-. rewrite A9 in B9.
  assert (C : coef m = coef m').
  { destruct (coef m), (coef m'). unfold coef_list in B9. cbn in B9. injection B9 as -> -> -> -> -> ->. reflexivity. }
  destruct m, m'. cbn in *. congruence.
Qed.

Lemma traced_fun fuel xt yt rt d tol ms np conf (m : model xr) t t' :
  SpecDriver.traced fuel xt yt rt d tol ms np conf m t -> SpecDriver.traced fuel xt yt rt d tol ms np conf m t' -> t = t'.
Proof.
  intros (th & E & F) (th' & E' & F'). assert (th' = th) by congruence. subst th'. clear E E'.
  revert t' F'. induction F as [|a v th t (tr & Hv) F IH]; intros t' F'; inversion F' as [|? v' ? t2 (tr' & Hv') F2]; subst; [reflexivity|].
  f_equal; [|apply IH, F2]. destruct (start_point xt yt rt a) as [px py]. destruct Hv as [H1 ->], Hv' as [H2 ->]. congruence.
Qed.

Lemma zone_fun {E} mvn fuel la a c kept w (o : list R * E) z z' : zone_of mvn fuel la a c kept w o z -> zone_of mvn fuel la a c kept w o z' -> z = z'.
Proof.
  intros (vs & qs & k & n & h & m & D & -> & L & Md & T) (vs' & qs' & k' & n' & h' & m' & D' & -> & L' & Md' & T').
  pose proof (drawn_fun _ _ _ _ _ _ _ D D') as Ev. apply app_three in Ev. destruct Ev as (<- & <- & <- & <-).
  rewrite (made_fun _ _ _ _ _ _ _ _ _ _ _ _ _ Md Md') in T. apply tracks_inj. eapply traced_fun; eassumption.
Qed.

(** ** The run with given outcomes *)
Lemma run_with_zones {E} (mvn : E -> list xr -> list (list xr) -> list xr) fuel la a c kept e0 w x y sp u (os : list (list R * E)) s logs :
  set_out c w x y sp u -> length os = Z.to_nat (k_n c) -> Forall (fun o => length (fst o) = drawn_numbers a c) os ->
  run_with mvn fuel la a c kept e0 os = Ok (s, logs) ->
  exists zones, Forall2 (zone_of mvn fuel la a c kept w) os zones /\ exactly_recorded s x y sp u zones.
Proof.
  intros Hs Ln Ho Run. unfold run_with in Run.
  destruct (run_zones _ _ _ _ _ _ _ _ _ _ _ _ _ _ _ _ _ _ Hs Run) as (values & models & zones & g' & L1 & L2 & L3 & L4 & D & F & X). cbv zeta in *.
  exists zones. split; [|exact X].
  assert (LV : Forall (fun vs => length vs = length (distributions a c)) values).
  { apply Forall_forall. intros vs Iv. apply In_nth_error in Iv. destruct Iv as (j & E2). assert (Hj : (j < length values)%nat) by (apply nth_error_Some; congruence).
    destruct (nth_error logs j) as [l|] eqn:E1; [|apply nth_error_None in E1; lia]. destruct (nth_error models j) as [m|] eqn:E3; [|apply nth_error_None in E3; lia].
    destruct (nth_error zones j) as [z|] eqn:E4; [|apply nth_error_None in E4; lia].
    destruct (F j l vs m z E1 E2 E3 E4) as ((qs & k & n & h & -> & Lq & _) & _). unfold distributions. rewrite !app_length, map_length, Lq. reflexivity. }
  rewrite <- Ln in D. rewrite <- (map_length fst os) in D.
  pose proof (drawn_blocks (distributions a c) (drawn_numbers a c) eq_refl (map fst os) [] values g') as B. cbn [app length] in B.
  specialize (B ltac:(apply Forall_map; exact Ho) ltac:(rewrite map_length; lia) LV D). clear D.
  assert (K : forall j o z, nth_error os j = Some o -> nth_error zones j = Some z -> zone_of mvn fuel la a c kept w o z).
  { intros j o z Eo Ez. assert (Hj : (j < length os)%nat) by (apply nth_error_Some; congruence).
    destruct (nth_error logs j) as [l|] eqn:E1; [|apply nth_error_None in E1; lia]. destruct (nth_error models j) as [m|] eqn:E3; [|apply nth_error_None in E3; lia].
    destruct (nth_error values j) as [vs|] eqn:E2; [|apply nth_error_None in E2; lia].
    destruct (F j l vs m z E1 E2 E3 Ez) as ((qs & k & n & h & Ev & Lq & Md) & _ & T & _).
    exists vs, qs, k, n, h, m. split; [|split; [exact Ev|split; [exact Lq|split; [|exact T]]]].
    - clear - B Eo E2. revert j values B Eo E2. induction os as [|o' os IH]; intros [|j] values B Eo E2; cbn in *; try discriminate Eo; inversion B; subst; cbn in E2.
      + injection Eo as ->. injection E2 as ->. assumption.
      + eauto.
    - assert (En : nth j (map snd os) e0 = snd o) by (apply nth_error_nth; rewrite nth_error_map, Eo; reflexivity). rewrite En in Md. exact Md. }
  assert (L : length os = length zones) by lia. clear - K L. revert zones L K. induction os as [|o os IH]; intros [|z zones] L K; try discriminate L; constructor.
  - exact (K 0%nat o z eq_refl eq_refl).
  - apply IH; [cbn in L; lia|]. intros j o' z' Eo Ez. exact (K (S j) o' z' Eo Ez).
Qed.

(** ** Counting *)
Definition count (hits : list bool) : R := INR (length (filter (fun h => h) hits)).
Lemma count_cons h hits : count (h :: hits) = ind h + count hits.
Proof. unfold count, ind. cbn [filter]. destruct h; [cbn [length]; rewrite S_INR|]; ring. Qed.

Lemma count_le {A} (f : A -> bool) : forall os hits, length hits = length os ->
  (forall i o, nth_error os i = Some o -> nth i hits false = true -> f o = true) -> count hits <= successes f os.
Proof.
  unfold successes. induction os as [|o os IH]; intros [|h hits] L H; try discriminate L; [unfold count; cbn; lra|].
  rewrite count_cons, total_cons. specialize (IH hits ltac:(cbn in L; lia) (fun i o' E => H (S i) o' E)).
  pose proof (H 0%nat o eq_refl) as H0. cbn in H0. destruct h; [rewrite (H0 eq_refl); lra|]. assert (0 <= ind (f o)) by (unfold ind; destruct (f o); lra). change (ind false) with 0. lra.
Qed.
Lemma count_ge {A} (f : A -> bool) : forall os hits, length hits = length os ->
  (forall i o, nth_error os i = Some o -> f o = true -> nth i hits false = true) -> successes f os <= count hits.
Proof.
  unfold successes. induction os as [|o os IH]; intros [|h hits] L H; try discriminate L; [unfold count; cbn; lra|].
  rewrite count_cons, total_cons. specialize (IH hits ltac:(cbn in L; lia) (fun i o' E => H (S i) o' E)).
  pose proof (H 0%nat o eq_refl) as H0. cbn in H0. destruct (f o); [rewrite (H0 eq_refl); lra|]. assert (0 <= ind h) by (unfold ind; destruct h; lra). change (ind false) with 0. lra.
Qed.

(** The successes that come after something of the kind [g]. *)
Fixpoint late {A} (f g : A -> bool) (seen : bool) (os : list A) : R :=
  match os with
  | [] => 0
  | o :: r => (if seen then ind (f o) else 0) + late f g (seen || g o)%bool r
  end.
Lemma late_ge {A} (f g : A -> bool) : forall os hits seen, length hits = length os ->
  (forall i o, nth_error os i = Some o -> f o = true -> seen = true \/ (exists k o', (k < i)%nat /\ nth_error os k = Some o' /\ g o' = true) -> nth i hits false = true) ->
  late f g seen os <= count hits.
Proof.
  induction os as [|o os IH]; intros [|h hits] seen L H; try discriminate L; [unfold count; cbn; lra|].
  rewrite count_cons. cbn [late].
  specialize (IH hits (seen || g o)%bool ltac:(cbn in L; lia)). apply Rplus_le_compat.
  - pose proof (H 0%nat o eq_refl) as H0. cbn in H0. unfold ind. destruct seen; [|destruct h; lra]. destruct (f o); [rewrite (H0 eq_refl (or_introl eq_refl)); lra|destruct h; lra].
  - apply IH. intros i o' E Ef [Es|(k & o'' & Hk & Ek & Eg)]; apply (H (S i) o' E Ef).
    + destruct seen; [left; reflexivity|]. right. exists 0%nat, o. cbn in Es. split; [lia|]. split; [reflexivity|exact Es].
    + right. exists (S k), o''. split; [lia|]. auto.
Qed.
Lemma late_true {A} (f g : A -> bool) os : late f g true os = successes f os.
Proof. induction os as [|o os IH]; [reflexivity|]. cbn [late orb]. rewrite IH. reflexivity. Qed.
Lemma late_none {A} (f g : A -> bool) os : (forall o, In o os -> g o = false) -> late f g false os = 0.
Proof.
  induction os as [|o os IH]; intros H; [reflexivity|]. cbn [late orb]. rewrite (H o (or_introl eq_refl)), IH by (intros o' Ho; apply H; right; exact Ho). ring.
Qed.
Lemma late_le {A} (f g : A -> bool) os seen : late f g seen os <= successes f os.
Proof.
  revert seen. induction os as [|o os IH]; intros seen; [cbn; lra|]. cbn [late]. unfold successes. rewrite total_cons. specialize (IH (seen || g o)%bool). unfold successes in IH.
  destruct seen; [lra|]. assert (0 <= ind (f o)) by (unfold ind; destruct (f o); lra). lra.
Qed.

Lemma mean_late {A} (l : list A) (f g : A -> bool) n p c : l <> [] -> p = mean l (fun x => ind (f x)) -> c = mean l (fun x => ind (g x)) -> 0 < c ->
  INR n * p - 1 / c <= mean (tuples l n) (late f g false).
Proof.
  intros H Ep Ec Hc. pose proof (mean_ind l f H) as Bp. rewrite <- Ep in Bp. pose proof (mean_ind l g H) as Bc. rewrite <- Ec in Bc.
  induction n as [|n IH].
  - unfold mean. cbn. assert (0 < 1 / c) by (apply Rdiv_lt_0_compat; lra). lra.
  - rewrite (mean_step l H n). set (L := mean (tuples l n) (late f g false)) in *.
    rewrite (mean_eq l _ (fun x => (INR n * p - L) * ind (g x) + L)).
    + rewrite mean_plus, mean_scale, <- Ec, (mean_const l L H), S_INR.
      assert (E : (INR n * p - L) * c + L = INR n * p * c + (1 - c) * L) by ring. rewrite E.
      assert (M : (1 - c) * (INR n * p - 1 / c) <= (1 - c) * L) by (apply Rmult_le_compat_l; lra).
      assert (F : (1 - c) * (INR n * p - 1 / c) = INR n * p - INR n * p * c - 1 / c + 1) by (field; lra). lra.
    + intros x _. cbn [late orb]. rewrite (mean_eq (tuples l n) _ (fun t => late f g (g x) t)) by (intros; ring). unfold ind. destruct (g x).
      * rewrite (mean_eq (tuples l n) _ (fun t => total_of t (fun x => ind (f x)))) by (intros; apply late_true). rewrite mean_sum by exact H. rewrite <- Ep. ring.
      * change (L = (INR n * p - L) * 0 + L). ring.
Qed.

(** ** What a run with given outcomes shows at a location *)
Lemma Forall2_nth {A B} (Q : A -> B -> Prop) l l' : Forall2 Q l l' -> forall i a, nth_error l i = Some a -> exists b, nth_error l' i = Some b /\ Q a b.
Proof.
  induction 1 as [|a b l l' Hab F IH]; intros [|i] a' E; try discriminate E; cbn in E.
  - injection E as <-. exists b. auto.
  - exact (IH i a' E).
Qed.
Lemma nth_in_concat {A} (zs : list (list A)) i z q : nth_error zs i = Some z -> In q z -> In q (concat zs).
Proof. intros E I. apply in_concat. exists z. split; [eapply nth_error_In; exact E|exact I]. Qed.
Lemma nth_firstn {A} (l : list A) i k a : (k < i)%nat -> nth_error l k = Some a -> nth_error (firstn i l) k = Some a.
Proof.
  revert i k. induction l as [|b l IH]; intros [|i] [|k] Hk E; try discriminate E; try lia; cbn in *; [exact E|]. apply IH; [lia|exact E].
Qed.

Section Location.
  Context {E : Type} (mvn : E -> list xr -> list (list xr) -> list xr) (fuel : nat) (la : linalg xr) (a : args xr) (c : call) (kept : list (obs xr)) (e0 : E).
  Context (w : swell xr) (x y sp u : R) (i0 j0 : Z).
  Let t : point := (x, y).
  Let p : point := (x + IZR i0 * sp, y + IZR j0 * sp).
  Let ev (P : list (list point) -> Prop) := zone_with mvn fuel la a c kept w P.
  Context (fo fi fc : list R * E -> bool).
  Hypothesis Ho : forall o, fo o = true <-> ev (reaches u p) o.
  Hypothesis Hi : forall o, fi o = true <-> ev (counted_first u sp t p) o.
  Hypothesis Hc : forall o, fc o = true <-> ev (covers sp t p) o.

  Lemma location os s logs v : set_out c w x y sp u -> length os = Z.to_nat (k_n c) -> Forall (fun o => length (fst o) = drawn_numbers a c) os ->
    run_with mvn fuel la a c kept e0 os = Ok (s, logs) -> weight_at s (fst p) (snd p) v ->
    successes fi os <= v <= successes fo os /\ late fo fc false os <= v.
  Proof.
    intros Hs Ln Hl Run Hv. destruct (run_with_zones mvn fuel la a c kept e0 w x y sp u os s logs Hs Ln Hl Run) as (zones & FZ & (_ & X1 & X2)).
    assert (Zo : forall i o, nth_error os i = Some o -> exists z, nth_error zones i = Some z /\ zone_of mvn fuel la a c kept w o z) by (intros; eapply Forall2_nth; eassumption).
    assert (Ev : forall P o z, zone_of mvn fuel la a c kept w o z -> ev P o -> P z).
    { intros P o z Z1 (z' & Z2 & HP). rewrite (zone_fun _ _ _ _ _ _ _ _ _ _ Z1 Z2). exact HP. }
    assert (Cp : forall i z, nth_error zones i = Some z -> covers sp t p z -> covered sp (t :: concat (concat zones)) p).
    { intros i z Ez Cz. revert Cz. unfold covers. apply covered_more. intros q [<-|Iq]; [left; reflexivity|right].
      apply in_concat in Iq. destruct Iq as (tr & It & Iq). eapply nth_in_concat in Ez; [|exact It]. apply in_concat. exists tr. auto. }
    assert (Fc : forall z, counted_first u sp t p z -> covers sp t p z).
    { intros z C. unfold counted_first, taken in C. destruct (proj1 C eq_refl) as (pre & tr & post & -> & _ & Cv). revert Cv. unfold covers. apply covered_more.
      intros q Iq. cbn in Iq. destruct Iq as [<-|Iq]; [left; reflexivity|right]. rewrite concat_app. cbn. rewrite !in_app_iff in *. tauto. }
    destruct Hv as [(b & N)|[NN ->]].
    - destruct (X2 _ _ _ _ N) as (_ & hits & L & Hh & ->). rewrite <- surjective_pairing in Hh. fold (count hits).
      assert (Lz : length zones = length os) by (clear - FZ; induction FZ; cbn; congruence). split; [split|].
      + apply count_ge; [congruence|]. intros i o Eo Ef. destruct (Zo i o Eo) as (z & Ez & Z1). apply Hi in Ef. apply (Ev _ _ _ Z1) in Ef.
        apply (Hh i z Ez). unfold counted_first, taken in Ef. destruct (proj1 Ef eq_refl) as (pre & tr & post & -> & Nr & Cv). exists pre, tr, post. split; [reflexivity|]. split; [exact Nr|].
        revert Cv. apply covered_more. intros q Iq. cbn [app In] in *. rewrite !in_app_iff in *. tauto.
      + apply count_le; [congruence|]. intros i o Eo Eh. destruct (Zo i o Eo) as (z & Ez & Z1). apply (Hh i z Ez) in Eh. destruct Eh as (pre & tr & post & Ep & Nr & _).
        apply Ho. exists z. split; [exact Z1|]. exists tr. split; [|exact Nr]. rewrite Ep, in_app_iff. right; left; reflexivity.
      + apply late_ge; [congruence|]. intros i o Eo Ef [Q|(k & o' & Hk & Ek & Eg)]; [discriminate Q|]. destruct (Zo i o Eo) as (z & Ez & Z1). destruct (Zo k o' Ek) as (z' & Ez' & Z2).
        apply Ho in Ef. apply (Ev _ _ _ Z1) in Ef. apply Hc in Eg. apply (Ev _ _ _ Z2) in Eg. destruct Ef as (tr & It & Nr). apply in_split in It. destruct It as (pre & post & Ep).
        apply (Hh i z Ez). exists pre, tr, post. split; [exact Ep|]. split; [exact Nr|]. revert Eg. unfold covers. apply covered_more. intros q [<-|Iq]; [left; reflexivity|right].
        apply in_app_iff. left. apply in_concat in Iq. destruct Iq as (tr' & It' & Iq). apply in_concat. exists tr'. split; [|exact Iq].
        eapply nth_in_concat; [|exact It']. apply nth_firstn; eassumption.
    - assert (NC : ~ covered sp (t :: concat (concat zones)) p).
      { intros C. apply NN. apply X1. split; [exists i0, j0; split; reflexivity|]. exact C. }
      assert (Zi : forall o, In o os -> fc o = false /\ fi o = false).
      { intros o Io. apply In_nth_error in Io. destruct Io as (k & Eo). destruct (Zo k o Eo) as (z & Ez & Z1). split.
        - destruct (fc o) eqn:Q; [|reflexivity]. apply Hc in Q. apply (Ev _ _ _ Z1) in Q. destruct (NC (Cp k z Ez Q)).
        - destruct (fi o) eqn:Q; [|reflexivity]. apply Hi in Q. apply (Ev _ _ _ Z1) in Q. destruct (NC (Cp k z Ez (Fc z Q))). }
      rewrite late_none by (intros; apply Zi; assumption). split; [split|lra].
      + unfold successes. rewrite (total_eq _ _ (fun _ => 0)); [rewrite total_const; lra|]. intros o Io. destruct (Zi o Io) as [_ ->]. reflexivity.
      + unfold successes. rewrite <- (Rmult_0_r (INR (length os))), <- total_const. apply total_le. intros o _. unfold ind. destruct (fo o); lra.
  Qed.
End Location.
