(** * The decile table and the points of the impact plot *)
From Coq Require Import Reals Lra Lia Psatz Permutation Sorted List.
From Verif Require Import Py Num NumXR Grid ModelField ModelObs ModelPlot SpecField SpecObs SpecPlot ProofField ProofFieldProps ProofStats ProofPlot.
Import ListNotations.
Local Open Scope R_scope.

Section Sorted.
  Variable q : R -> bool.
  Hypothesis Hq : forall x y, y <= x -> q x = true -> q y = true.

  Lemma sorted_split l : StronglySorted Rge l -> l = filter (fun v => negb (q v)) l ++ filter q l.
  Proof.
    intros H. induction H as [|x l Hs IH Hf]; [reflexivity|]. cbn. destruct (q x) eqn:E; cbn.
    - assert (F : Forall (fun v => q v = true) l).
      { eapply Forall_impl; [|exact Hf]. cbn. intros v Hv. apply (Hq x); [lra|exact E]. }
      assert (A : filter (fun v => negb (q v)) l = []).
      { clear -F. induction F as [|v l Hv F IH]; [reflexivity|]. cbn. rewrite Hv. exact IH. }
      rewrite A in *. cbn in *. rewrite <- IH. reflexivity.
    - rewrite <- IH. reflexivity.
  Qed.

  Lemma find_first_app (Q : xr -> bool) a b k : (forall r, Q (Fin r) = q r) -> Forall (fun v => q v = false) a ->
    find_first Q (map Fin (a ++ b)) k = find_first Q (map Fin b) (k + length a).
  Proof.
    intros HQ. revert k. induction a as [|x a IH]; intros k F; [cbn; f_equal; lia|]. inversion F; subst. cbn. rewrite HQ.
    replace (q x) with false by congruence. rewrite IH by assumption. f_equal. lia.
  Qed.

  Lemma find_first_sorted (Q : xr -> bool) l : (forall r, Q (Fin r) = q r) -> StronglySorted Rge l ->
    find_first Q (map Fin l) 0 = match filter q l with [] => None | _ => Some (length (filter (fun v => negb (q v)) l)) end.
  Proof.
    intros HQ Hs. rewrite (sorted_split l Hs) at 1. rewrite find_first_app; [|exact HQ|].
    - destruct (filter q l) as [|x b] eqn:E; [reflexivity|]. cbn. rewrite HQ.
      assert (I : In x (filter q l)) by (rewrite E; left; reflexivity). apply filter_In in I. destruct I as [_ ->]. reflexivity.
    - apply Forall_forall. intros x I. apply filter_In in I. destruct (q x); [destruct I; discriminate|reflexivity].
  Qed.

  Lemma nth_sorted l x b : StronglySorted Rge l -> filter q l = x :: b ->
    nth_error l (length (filter (fun v => negb (q v)) l)) = Some x /\ q x = true /\ In x l /\ forall y, In y l -> q y = true -> y <= x.
  Proof.
    intros Hs E. assert (I : In x (filter q l)) by (rewrite E; left; reflexivity). apply filter_In in I.
    assert (S' : StronglySorted Rge (x :: b)).
    { rewrite <- E. clear -Hs. induction Hs as [|y l Hs IH Hf]; [constructor|]. cbn. destruct (q y); [|exact IH].
      constructor; [exact IH|]. rewrite Forall_forall in *. intros z Hz. apply filter_In in Hz. apply Hf, Hz. }
    split; [|split; [tauto|split; [tauto|]]].
    - rewrite (sorted_split l Hs) at 1. rewrite nth_error_app2 by lia. rewrite Nat.sub_diag, E. reflexivity.
    - intros y Hy Hqy. assert (Iy : In y (x :: b)) by (rewrite <- E; apply filter_In; auto).
      destruct Iy as [->|Iy]; [lra|]. inversion S' as [|? ? _ F]; subst. rewrite Forall_forall in F. specialize (F y Iy). lra.
  Qed.
End Sorted.

Lemma thresholds : linspace (@nlit xr XR 5 100) (@nlit xr XR 95 100) 19 = Ok (map (fun k => Fin (INR (k + 1) / 20)) (seq 0 19)).
Proof.
  change (@nlit xr XR 5 100) with (Fin (5 / 100)). change (@nlit xr XR 95 100) with (Fin (95 / 100)).
  replace (95 / 100) with (5 / 100 + IZR (19 - 1) * (1 / 20)) by (cbn; lra). rewrite linspace_grid by lia. apply f_equal.
  unfold zrange. rewrite map_map. apply map_ext. intros k. apply f_equal. rewrite Z.add_0_l, <- INR_IZR_INZ, plus_INR. cbn. lra.
Qed.

Lemma leb_down p : forall x y, y <= x -> Rleb x p = true -> Rleb y p = true.
Proof. intros x y H. rewrite !Rleb_true. lra. Qed.

Lemma exceeding_filter W p l pr : Permutation pr (map (fun n : point * R => snd n / W) l) ->
  length (filter (fun v => negb (Rleb v p)) pr) = exceeding W p l.
Proof.
  intros H. rewrite (Permutation_length (filter_perm _ _ _ H)), filter_map_length. unfold exceeding. f_equal. apply filter_ext. intros n.
  destruct (Rlt_dec p (snd n / W)); destruct (Rleb_spec (snd n / W) p); cbn; auto; lra.
Qed.

Lemma decile_row_eq (pr : list R) sp p i v : StronglySorted Rge pr ->
  i = match filter (fun v => Rleb v p) pr with [] => O | _ => length (filter (fun v => negb (Rleb v p)) pr) end ->
  nth_error pr i = Some v ->
  decile_row (map Fin pr) (map (fun k => Fin (INR (k + 1) * (sp * sp))) (seq 0 (length pr))) (Fin p)
  = Ok (Fin v, Fin (INR (i + 1) * (sp * sp)), Fin (INR (i + 1) * (sp * sp) / (404686 / 100))).
Proof.
  intros Hs Ei En. unfold decile_row, argmax_first.
  rewrite (find_first_sorted (fun v => Rleb v p) (leb_down p) (fun v => @nle xr XR v (Fin p)) pr (fun r => eq_refl) Hs).
  assert (Hi : (i < length pr)%nat) by (apply nth_error_Some; congruence).
  replace (match match filter (fun v0 => Rleb v0 p) pr with [] => None | _ => Some (length (filter (fun v0 => negb (Rleb v0 p)) pr)) end with Some i0 => i0 | None => O end)
    with i by (rewrite Ei; destruct (filter (fun v0 => Rleb v0 p) pr); reflexivity).
  unfold py_nth. rewrite (map_nth_error Fin i pr En). cbn [bind].
  rewrite (map_nth_error _ i (seq 0 (length pr)) (d := i)).
  2:{ rewrite (nth_error_nth' _ O) by (rewrite seq_length; exact Hi). rewrite seq_nth by exact Hi. reflexivity. }
  cbn [bind]. apply f_equal, f_equal. change (@nlit xr XR 404686 100) with (Fin (404686 / 100)). cbn [ndiv XR]. apply div_fin. lra.
Qed.

(** Row [k] of the table, for the threshold p = (k+1)/20: with some probability at most p, the area is one cell too
    large (the node at which the curve has already fallen to p or below is counted) and the first column is the largest
    probability that is at most p; with every probability above p, the row is that of the single most probable node. *)
Lemma c69_exactly_partial : forall (s : pfield xr) (sp W : R) (l : list (point * R)) pr area,
  wf s -> total s W -> 0 < W -> enumerates s l -> create_impact_plot (Fin sp) s = Ok (pr, area) ->
  exists rows, decile_table pr area = Ok rows /\ length rows = 19%nat /\
    forall k, (k < 19)%nat -> let p := INR (k + 1) / 20 in
      exists v c, nth_error rows k = Some (Fin v, Fin (c * (sp * sp)), Fin (c * (sp * sp) / (404686 / 100))) /\
        (exists n, In n l /\ snd n / W = v) /\
        ((exists n, In n l /\ snd n / W <= p) ->
           c = INR (exceeding W p l) + 1 /\ v <= p /\ forall n, In n l -> snd n / W <= p -> snd n / W <= v) /\
        ((forall n, In n l -> p < snd n / W) -> c = 1 /\ forall n, In n l -> snd n / W <= v).
Proof.
  intros s sp W l pr area Hw Ht HW He E. destruct (c68_curve s sp W l Hw Ht He) as [_ H]. destruct (H HW) as (pr' & E' & Hp & Hs). clear H.
  rewrite E' in E. injection E as <- <-. unfold decile_table. rewrite thresholds. cbn [bind].
  assert (Hi : initialised s) by (destruct Ht as (g & Eg & _); unfold initialised; congruence).
  assert (Hl : pr' <> []).
  { intros ->. apply Permutation_nil in Hp. destruct (proj1 (c68_enumeration s Hw Hi)) as (l0 & He0 & H9).
    pose proof (Permutation_length (enumerates_perm _ _ _ He He0)) as HL. destruct l; [cbn in HL; lia|discriminate]. }
  assert (In_pr : forall v, In v pr' <-> exists n, In n l /\ snd n / W = v).
  { intros v. rewrite (Permutation_in' eq_refl Hp), in_map_iff. split; intros (n & A & B); exists n; auto. }
  assert (M : forall ks, exists rows,
     map_res (decile_row (map Fin pr') (map (fun k => Fin (INR (k + 1) * (sp * sp))) (seq 0 (length pr')))) (map (fun k => Fin (INR (k + 1) / 20)) ks) = Ok rows /\
     length rows = length ks /\
     forall k' k, nth_error ks k' = Some k -> let p := INR (k + 1) / 20 in
      exists v c, nth_error rows k' = Some (Fin v, Fin (c * (sp * sp)), Fin (c * (sp * sp) / (404686 / 100))) /\
        (exists n, In n l /\ snd n / W = v) /\
        ((exists n, In n l /\ snd n / W <= p) ->
           c = INR (exceeding W p l) + 1 /\ v <= p /\ forall n, In n l -> snd n / W <= p -> snd n / W <= v) /\
        ((forall n, In n l -> p < snd n / W) -> c = 1 /\ forall n, In n l -> snd n / W <= v)).
  { induction ks as [|k ks IH].
    { exists []. split; [reflexivity|]. split; [reflexivity|]. intros [|k'] k H; discriminate H. }
    destruct IH as (rows & E & HL & Hr). set (p := INR (k + 1) / 20).
    assert (R1 : exists v c, decile_row (map Fin pr') (map (fun k => Fin (INR (k + 1) * (sp * sp))) (seq 0 (length pr'))) (Fin p) = Ok (Fin v, Fin (c * (sp * sp)), Fin (c * (sp * sp) / (404686 / 100))) /\
       (exists n, In n l /\ snd n / W = v) /\
        ((exists n, In n l /\ snd n / W <= p) ->
           c = INR (exceeding W p l) + 1 /\ v <= p /\ forall n, In n l -> snd n / W <= p -> snd n / W <= v) /\
        ((forall n, In n l -> p < snd n / W) -> c = 1 /\ forall n, In n l -> snd n / W <= v)).
    { destruct (filter (fun v => Rleb v p) pr') as [|x b] eqn:F.
      - destruct pr' as [|v pr']; [congruence|]. exists v, 1. split; [|split; [|split]].
        + rewrite (decile_row_eq _ sp p O v Hs); [|rewrite F; reflexivity|reflexivity]. cbn [INR Nat.add]. reflexivity.
        + apply In_pr. left. reflexivity.
        + intros (n & Hn & Hle). exfalso. assert (I : In (snd n / W) (filter (fun v => Rleb v p) (v :: pr'))).
          { apply filter_In. split; [apply In_pr; eauto|apply Rleb_true, Hle]. } rewrite F in I. exact I.
        + intros _. split; [reflexivity|]. intros n Hn. assert (I : In (snd n / W) (v :: pr')) by (apply In_pr; eauto).
          destruct I as [->|I]; [lra|]. inversion Hs as [|? ? _ Hf]; subst. rewrite Forall_forall in Hf. specialize (Hf _ I). lra.
      - destruct (nth_sorted _ (leb_down p) _ _ _ Hs F) as (N1 & N2 & N3 & N4). apply Rleb_true in N2.
        exists x, (INR (exceeding W p l) + 1). split; [|split; [|split]].
        + rewrite (decile_row_eq _ sp p _ x Hs eq_refl); [|rewrite F; exact N1]. rewrite F, (exceeding_filter W p l pr' Hp), plus_INR. reflexivity.
        + apply In_pr, N3.
        + intros _. split; [reflexivity|]. split; [exact N2|]. intros n Hn Hle. apply N4; [apply In_pr; eauto|apply Rleb_true, Hle].
        + intros Hall. exfalso. apply In_pr in N3. destruct N3 as (n & Hn & <-). specialize (Hall n Hn). lra. }
    destruct R1 as (v & c & Er & Hv). exists ((Fin v, Fin (c * (sp * sp)), Fin (c * (sp * sp) / (404686 / 100))) :: rows).
    split; [cbn [map map_res]; fold p; rewrite Er, E; reflexivity|]. split; [cbn; congruence|].
    intros [|k'] k0 Hk; cbn in Hk.
    - injection Hk as <-. exists v, c. split; [reflexivity|exact Hv].
    - destruct (Hr k' k0 Hk) as (v' & c' & H'). exists v', c'. exact H'. }
  destruct (M (seq 0 19)) as (rows & E & HL & Hr). exists rows. split; [exact E|]. split; [exact HL|].
  intros k Hk. apply (Hr k k). rewrite (nth_error_nth' _ O) by (rewrite seq_length; exact Hk). rewrite seq_nth by exact Hk. reflexivity.
Qed.

(** The logged area is never the area over which the probability exceeds p. *)
Lemma c69_refuted : forall (s : pfield xr) (sp W : R) (l : list (point * R)) pr area rows,
  wf s -> total s W -> 0 < W -> enumerates s l -> 0 < sp ->
  create_impact_plot (Fin sp) s = Ok (pr, area) -> decile_table pr area = Ok rows ->
  forall k v a acres, nth_error rows k = Some (v, a, acres) ->
    a <> Fin (INR (exceeding W (INR (k + 1) / 20) l) * (sp * sp)).
Proof.
  intros s sp W l pr area rows Hw Ht HW He Hsp E Er k v a acres Hk Ha.
  destruct (c69_exactly_partial s sp W l pr area Hw Ht HW He E) as (rows' & Er' & HL & H). rewrite Er in Er'. injection Er' as <-.
  assert (Hk19 : (k < 19)%nat) by (rewrite <- HL; apply nth_error_Some; congruence).
  destruct (H k Hk19) as (v' & c & En & _ & H1 & H2). rewrite En in Hk. injection Hk as <- <- <-. injection Ha as Ha.
  assert (Hc : c = INR (exceeding W (INR (k + 1) / 20) l)) by (apply Rmult_eq_reg_r with (sp * sp); [exact Ha|nra]).
  set (p := INR (k + 1) / 20) in *.
  destruct (Nat.eq_dec (exceeding W p l) (length l)) as [Eq|Ne].
  - assert (A : forall n, In n l -> p < snd n / W).
    { intros n Hn. destruct (Rlt_dec p (snd n / W)) as [L|L]; [exact L|]. exfalso. unfold exceeding in Eq. clear -Eq Hn L.
      induction l as [|m l IH]; [destruct Hn|]. cbn in Eq.
      assert (B : (length (filter (fun n => if Rlt_dec p (snd n / W) then true else false) l) <= length l)%nat).
      { clear. induction l as [|m l IH]; cbn; [lia|]. destruct (Rlt_dec p (snd m / W)); cbn; lia. }
      destruct Hn as [->|Hn]; [destruct (Rlt_dec p (snd n / W)); [contradiction|lia]|]. apply IH; [|exact Hn].
      destruct (Rlt_dec p (snd m / W)); cbn in Eq; lia. }
    destruct (H2 A) as [C1 _].
    assert (Hi : initialised s) by (destruct Ht as (g & Eg & _); unfold initialised; congruence).
    destruct (proj1 (c68_enumeration s Hw Hi)) as (l0 & He0 & H9). pose proof (Permutation_length (enumerates_perm _ _ _ He He0)) as HL'.
    rewrite Eq in Hc. assert (9 <= INR (length l)) by (replace 9 with (INR 9) by (cbn; lra); apply le_INR; lia). lra.
  - assert (A : exists n, In n l /\ snd n / W <= p).
    { clear -Ne. unfold exceeding in Ne. induction l as [|m l IH]; [cbn in Ne; lia|]. cbn in Ne.
      destruct (Rlt_dec p (snd m / W)) as [L|L].
      - cbn in Ne. destruct IH as (n & Hn & Hle); [lia|]. exists n. split; [right|]; assumption.
      - exists m. split; [left; reflexivity|lra]. }
    destruct (H1 A) as [C1 _]. lra.
Qed.

(** ** C78 *)

Lemma find_first_ext {T} (p p' : T -> bool) l k : (forall v, In v l -> p v = p' v) -> find_first p l k = find_first p' l k.
Proof.
  revert k. induction l as [|v l IH]; intros k H; [reflexivity|]. cbn. rewrite (H v (or_introl eq_refl)). destruct (p' v); [reflexivity|].
  apply IH. intros; apply H; right; assumption.
Qed.

Lemma count_all {A} (f : A -> bool) l : length (filter f l) = length l <-> forall a, In a l -> f a = true.
Proof.
  assert (B : forall l, (length (filter f l) <= length l)%nat) by (clear; induction l as [|m l IH]; cbn; [lia|]; destruct (f m); cbn; lia).
  induction l as [|a l IH]; [cbn; split; [intros _ ? []|reflexivity]|]. cbn. destruct (f a) eqn:E; cbn.
  - split; [intros H; injection H as H; intros x [<-|Hx]; [exact E|apply IH; assumption]|intros H; f_equal; apply IH; intros; apply H; auto].
  - specialize (B l). split; [lia|]. intros H. specialize (H a (or_introl eq_refl)). congruence.
Qed.

Lemma filter_nil {A} (f : A -> bool) l : filter f l = [] <-> forall a, In a l -> f a = false.
Proof.
  split.
  - intros H a Ha. destruct (f a) eqn:E; [|reflexivity]. assert (I : In a (filter f l)) by (apply filter_In; auto). rewrite H in I. destruct I.
  - induction l as [|a l IH]; intros H; [reflexivity|]. cbn. rewrite (H a (or_introl eq_refl)). apply IH. intros; apply H; right; assumption.
Qed.

(** The points that are drawn: the slice [i:j] of the curve with i one less than the number of certain nodes, and j one
    more than the number of captured nodes - but j = 1 when every node is captured, so that then at most one point is
    drawn, and none when two nodes or more are certain. *)
Lemma c78_exactly_partial : forall (s : pfield xr) (sp W : R) (l : list (point * R)) pr area,
  wf s -> total s W -> 0 < W -> enumerates s l -> (forall n, In n l -> 0 <= snd n) ->
  create_impact_plot (Fin sp) s = Ok (pr, area) ->
  exists i j, impact_points pr area = firstn (j - i) (skipn i (combine pr area)) /\
    ((exists n, In n l /\ snd n / W < 1) -> i = (certain W l - 1)%nat) /\
    ((forall n, In n l -> 1 <= snd n / W) -> i = O) /\
    ((exists n, In n l /\ snd n = 0) -> j = (captured l + 1)%nat) /\
    ((forall n, In n l -> 0 < snd n) -> j = 1%nat).
Proof.
  intros s sp W l pr area Hw Ht HW He Hpos E. destruct (c68_curve s sp W l Hw Ht He) as [_ H]. destruct (H HW) as (pr' & E' & Hp & Hs). clear H.
  rewrite E' in E. injection E as <- <-.
  set (q1 := fun v => Rltb v 1). set (q0 := fun v => Rleb v 0).
  assert (D1 : forall x y, y <= x -> q1 x = true -> q1 y = true) by (intros x y H; unfold q1; rewrite !Rltb_true; lra).
  assert (D0 : forall x y, y <= x -> q0 x = true -> q0 y = true) by (intros x y H; unfold q0; rewrite !Rleb_true; lra).
  assert (In_pr : forall v, In v pr' <-> exists n, In n l /\ snd n / W = v).
  { intros v. rewrite (Permutation_in' eq_refl Hp), in_map_iff. split; intros (n & A & B); exists n; auto. }
  assert (Wi : 0 < / W) by (apply Rinv_0_lt_compat, HW).
  assert (Npos : forall v, In v pr' -> 0 <= v).
  { intros v Hv. apply In_pr in Hv. destruct Hv as (n & Hn & <-). specialize (Hpos n Hn). unfold Rdiv. nra. }
  exists (argmax_first (fun v => @nlt xr XR v (nZ 1)) (map Fin pr') - 1)%nat, (Nat.min (length pr') (S (argmax_first (fun v => @neq xr XR v (nZ 0)) (map Fin pr')))).
  split; [unfold impact_points; rewrite map_length; reflexivity|]. unfold argmax_first.
  rewrite (find_first_sorted q1 D1 _ pr' (fun r => eq_refl) Hs).
  rewrite (find_first_ext _ (fun v => @nle xr XR v (nZ 0))).
  2:{ intros v Hv. apply in_map_iff in Hv. destruct Hv as (r & <- & Hr). specialize (Npos r Hr). cbn.
      destruct (Reqb_spec r 0), (Rleb_spec r 0); auto; lra. }
  rewrite (find_first_sorted q0 D0 _ pr' (fun r => eq_refl) Hs).
  assert (C1 : length (filter (fun v => negb (q1 v)) pr') = certain W l).
  { rewrite (Permutation_length (filter_perm _ _ _ Hp)), filter_map_length. unfold certain. f_equal. apply filter_ext. intros n. unfold q1.
    destruct (Rle_dec 1 (snd n / W)); destruct (Rltb_spec (snd n / W) 1); cbn; auto; lra. }
  assert (C0 : length (filter (fun v => negb (q0 v)) pr') = captured l).
  { rewrite (Permutation_length (filter_perm _ _ _ Hp)), filter_map_length. unfold captured. f_equal. apply filter_ext. intros n. unfold q0, Rdiv.
    destruct (Rlt_dec 0 (snd n)); destruct (Rleb_spec (snd n * / W) 0); cbn; auto; nra. }
  rewrite C1, C0. split; [|split; [|split]].
  - intros (n & Hn & Hlt). destruct (filter q1 pr') eqn:F; [exfalso|reflexivity].
    rewrite filter_nil in F. specialize (F (snd n / W) (proj2 (In_pr _) (ex_intro _ n (conj Hn eq_refl)))). unfold q1 in F. apply Rltb_false in F. lra.
  - intros Hall. destruct (filter q1 pr') eqn:F; [reflexivity|exfalso]. assert (I : In r (filter q1 pr')) by (rewrite F; left; reflexivity).
    apply filter_In in I. destruct I as [I J]. apply In_pr in I. destruct I as (n & Hn & <-). apply Rltb_true in J. specialize (Hall n Hn). lra.
  - intros (n & Hn & H0). assert (I : In 0 pr') by (apply In_pr; exists n; split; [exact Hn|rewrite H0; unfold Rdiv; ring]).
    destruct (filter q0 pr') eqn:F.
    + exfalso. rewrite filter_nil in F. specialize (F 0 I). unfold q0 in F. apply Rleb_false in F. lra.
    + assert (captured l < length pr')%nat; [|lia]. rewrite <- C0.
      assert (B : (length (filter (fun v => negb (q0 v)) pr') + length (filter q0 pr') = length pr')%nat).
      { rewrite <- app_length, <- sorted_split; auto. }
      rewrite F in B. cbn in B. lia.
  - intros Hall. replace (filter q0 pr') with (@nil R).
    2:{ symmetry. apply filter_nil. intros v Hv. apply In_pr in Hv. destruct Hv as (n & Hn & <-). apply Rleb_false. specialize (Hall n Hn). unfold Rdiv. nra. }
    assert (Hi : initialised s) by (destruct Ht as (g & Eg & _); unfold initialised; congruence).
    destruct (proj1 (c68_enumeration s Hw Hi)) as (l0 & He0 & H9).
    pose proof (Permutation_length (enumerates_perm _ _ _ He He0)) as HL. pose proof (Permutation_length Hp) as HP. rewrite map_length in HP.
    apply Nat.min_r. lia.
Qed.

(** When some node is never captured, every probability strictly between 0 and 1 is drawn, with its area. *)
Lemma c78_drawn_partial : forall (s : pfield xr) (sp W : R) (l : list (point * R)) pr area,
  wf s -> total s W -> 0 < W -> enumerates s l -> (forall n, In n l -> 0 <= snd n) -> (exists n, In n l /\ snd n = 0) ->
  create_impact_plot (Fin sp) s = Ok (pr, area) ->
  forall k v a, nth_error pr k = Some (Fin v) -> nth_error area k = Some a -> 0 < v < 1 -> In (Fin v, a) (impact_points pr area).
Proof.
  intros s sp W l pr area Hw Ht HW He Hpos Hz E k v a Hk Ha Hv.
  destruct (c78_exactly_partial s sp W l pr area Hw Ht HW He Hpos E) as (i & j & -> & Hi & _ & Hj & _). specialize (Hj Hz).
  destruct (c68_curve s sp W l Hw Ht He) as [_ H]. destruct (H HW) as (pr' & E' & Hp & Hs). clear H.
  rewrite E' in E. injection E as <- <-.
  assert (In_pr : forall v, In v pr' <-> exists n, In n l /\ snd n / W = v).
  { intros u. rewrite (Permutation_in' eq_refl Hp), in_map_iff. split; intros (n & A & B); exists n; auto. }
  assert (Hkv : nth_error pr' k = Some v).
  { rewrite nth_error_map in Hk. destruct (nth_error pr' k); cbn in Hk; congruence. }
  assert (Wi : 0 < / W) by (apply Rinv_0_lt_compat, HW).
  assert (C1 : length (filter (fun v => negb (Rltb v 1)) pr') = certain W l).
  { rewrite (Permutation_length (filter_perm _ _ _ Hp)), filter_map_length. unfold certain. f_equal. apply filter_ext. intros n.
    destruct (Rle_dec 1 (snd n / W)); destruct (Rltb_spec (snd n / W) 1); cbn; auto; lra. }
  assert (C0 : length (filter (fun v => negb (Rleb v 0)) pr') = captured l).
  { rewrite (Permutation_length (filter_perm _ _ _ Hp)), filter_map_length. unfold captured. f_equal. apply filter_ext. intros n. unfold Rdiv.
    destruct (Rlt_dec 0 (snd n)); destruct (Rleb_spec (snd n * / W) 0); cbn; auto; nra. }
  assert (K1 : (certain W l <= k)%nat).
  { rewrite <- C1. destruct (Nat.le_gt_cases (length (filter (fun v => negb (Rltb v 1)) pr')) k) as [|L]; [assumption|exfalso].
    assert (D : forall x y, y <= x -> Rltb x 1 = true -> Rltb y 1 = true) by (intros x y H; rewrite !Rltb_true; lra).
    rewrite (sorted_split _ D pr' Hs), nth_error_app1 in Hkv by exact L. apply nth_error_In, filter_In in Hkv. destruct (Rltb_spec v 1); cbn in Hkv; [intuition discriminate|lra]. }
  assert (K0 : (k < captured l)%nat).
  { rewrite <- C0. destruct (Nat.le_gt_cases (length (filter (fun v => negb (Rleb v 0)) pr')) k) as [L|]; [exfalso|assumption].
    rewrite (sorted_split _ (leb_down 0) pr' Hs), nth_error_app2 in Hkv by exact L. apply nth_error_In, filter_In in Hkv. destruct (Rleb_spec v 0); cbn in Hkv; [lra|intuition discriminate]. }
  assert (Hlt : exists n, In n l /\ snd n / W < 1).
  { apply nth_error_In, In_pr in Hkv. destruct Hkv as (n & Hn & Ev). exists n. split; [exact Hn|lra]. }
  specialize (Hi Hlt). subst i j.
  assert (Hc : nth_error (combine (map Fin pr') (map (fun k => Fin (INR (k + 1) * (sp * sp))) (seq 0 (length pr')))) k = Some (Fin v, a)).
  { clear -Hk Ha. revert k Hk Ha. generalize (map Fin pr') as A, (map (fun k => Fin (INR (k + 1) * (sp * sp))) (seq 0 (length pr'))) as B.
    induction A as [|x A IH]; intros B [|k] Hk Ha; try discriminate; destruct B as [|y B]; try discriminate; cbn in *; [congruence|auto]. }
  apply nth_error_In with (k - (certain W l - 1))%nat.
  assert (N : forall {A} (L : list A) n m, nth_error (firstn n L) m = if (m <? n)%nat then nth_error L m else None).
  { clear. intros A L. induction L as [|x L IH]; intros [|n] [|m]; try reflexivity; [cbn; match goal with |- context [if ?c then _ else _] => destruct c end; reflexivity|]. cbn. rewrite IH. reflexivity. }
  assert (S' : forall {A} (L : list A) n m, nth_error (skipn n L) m = nth_error L (n + m)).
  { clear. intros A L. induction L as [|x L IH]; intros [|n] m; cbn; auto. destruct m; reflexivity. }
  rewrite N, S'. destruct (Nat.ltb_spec (k - (certain W l - 1)) (captured l + 1 - (certain W l - 1))); [|lia].
  rewrite <- Hc. f_equal. lia.
Qed.
