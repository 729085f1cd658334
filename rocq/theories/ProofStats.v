(** * Summary statistics: property C75 *)
From Coq Require Import Reals Lra Lia Psatz Permutation Sorted.
From Verif Require Import Py Num NumXR ModelAquifer ModelObs SpecAquifer SpecObs ProofAquifer ProofFit ProofObs.
Local Open Scope R_scope.

(** ** Lists of reals *)

Lemma fold_add l a : fold_left nadd (map Fin l) (Fin a) = Fin (a + total_of l).
Proof.
  revert a. induction l as [|x l IH]; intros a; cbn.
  - f_equal. unfold total_of, Rsum. cbn. ring.
  - change (xadd (Fin a) (Fin x)) with (Fin (a + x)). rewrite IH. f_equal. unfold total_of, Rsum. cbn. ring.
Qed.
Lemma lsum_R l : lsum (map Fin l) = Fin (total_of l).
Proof. unfold lsum. change (@nZ xr XR 0) with (Fin 0). rewrite fold_add. f_equal. ring. Qed.

Definition rmean (l : list R) : R := total_of l / INR (length l).

Lemma mean_R l : l <> [] -> mean (map Fin l) = Fin (rmean l).
Proof.
  intros H. unfold mean. rewrite lsum_R, map_length. change (@nZ xr XR (Z.of_nat (length l))) with (Fin (IZR (Z.of_nat (length l)))).
  rewrite <- INR_IZR_INZ. assert (INR (length l) <> 0). { apply not_0_INR. destruct l; [contradiction|discriminate]. }
  apply div_fin. assumption.
Qed.

Definition rdev (l : list R) : list R := map (fun x => (x - rmean l) * (x - rmean l)) l.

Lemma total_nonneg l : (forall x, In x l -> 0 <= x) -> 0 <= total_of l.
Proof. intros H. apply Rsum_nonneg. exact H. Qed.

Lemma std_R l : l <> [] -> std (map Fin l) = Fin (sqrt (rmean (rdev l))).
Proof.
  intros H. unfold std. rewrite mean_R by exact H. rewrite map_map.
  assert (E : map (fun x : R => nsq (nsub (Fin x) (Fin (rmean l)))) l = map Fin (rdev l)).
  { unfold rdev. rewrite map_map. apply map_ext. intros x. reflexivity. }
  rewrite E. rewrite mean_R by (destruct l; [contradiction|discriminate]). cbn. unfold xsqrt.
  assert (0 <= rmean (rdev l)).
  { unfold rmean at 1. apply Rmult_le_pos.
    - apply total_nonneg. intros x Hx. unfold rdev in Hx. apply in_map_iff in Hx. destruct Hx as (y & <- & _). apply Rle_0_sqr.
    - apply Rlt_le, Rinv_0_lt_compat, lt_0_INR. unfold rdev. rewrite map_length. destruct l; [contradiction|cbn; lia]. }
  destruct (Rltb_spec (rmean (rdev l)) 0); [lra|reflexivity].
Qed.

Lemma total_perm l l' : Permutation l l' -> total_of l = total_of l'.
Proof. intros H. unfold total_of. apply Rsum_perm. exact H. Qed.
Lemma rmean_perm l l' : Permutation l l' -> rmean l = rmean l'.
Proof. intros H. unfold rmean. rewrite (total_perm _ _ H), (Permutation_length H). reflexivity. Qed.
Lemma rdev_perm l l' : Permutation l l' -> Permutation (rdev l) (rdev l').
Proof. intros H. unfold rdev. rewrite (rmean_perm _ _ H). apply Permutation_map, H. Qed.

(** ** Sorting *)
Fixpoint rinsert (x : R) (l : list R) : list R :=
  match l with
  | [] => [x]
  | y :: l' => if Rleb x y then x :: l else y :: rinsert x l'
  end.
Definition rsort (l : list R) : list R := fold_right rinsert [] l.

Lemma sort_insert_R x l : sort_insert (Fin x) (map Fin l) = map Fin (rinsert x l).
Proof. induction l as [|y l IH]; [reflexivity|]. cbn. destruct (Rleb x y); [reflexivity|]. rewrite IH. reflexivity. Qed.
Lemma nsort_R l : nsort (map Fin l) = map Fin (rsort l).
Proof.
  induction l as [|x l IH]; [reflexivity|]. unfold nsort, rsort in *. cbn [map fold_right]. rewrite IH. apply sort_insert_R.
Qed.
Lemma rinsert_perm x l : Permutation (x :: l) (rinsert x l).
Proof.
  induction l as [|y l IH]; [reflexivity|]. cbn. destruct (Rleb x y); [reflexivity|].
  etransitivity; [apply perm_swap|]. apply perm_skip. exact IH.
Qed.
Lemma rsort_perm l : Permutation l (rsort l).
Proof. induction l as [|x l IH]; [constructor|]. cbn. etransitivity; [apply perm_skip, IH|]. apply rinsert_perm. Qed.
Lemma rinsert_sorted x l : StronglySorted Rle l -> StronglySorted Rle (rinsert x l).
Proof.
  intros S. induction S as [|y l S IH F]; cbn; [repeat constructor|].
  destruct (Rleb_spec x y) as [H|H].
  - constructor; [constructor; assumption|]. constructor; [exact H|]. eapply Forall_impl; [|exact F]. intros; lra.
  - constructor; [exact IH|]. eapply Permutation_Forall; [apply rinsert_perm|]. constructor; [lra|exact F].
Qed.
Lemma rsort_sorted l : StronglySorted Rle (rsort l).
Proof. induction l; cbn; [constructor|apply rinsert_sorted; assumption]. Qed.
Lemma sorted_unique l l' : StronglySorted Rle l -> StronglySorted Rle l' -> Permutation l l' -> l = l'.
Proof.
  intros S. revert l'. induction S as [|x l S IH F]; intros l' S' P.
  - apply Permutation_nil in P. auto.
  - destruct S' as [|y l' S' F']; [apply Permutation_sym, Permutation_nil in P; discriminate|].
    assert (x = y).
    { assert (Hx : In x (y :: l')) by (eapply Permutation_in; [exact P|left; reflexivity]).
      assert (Hy : In y (x :: l)) by (eapply Permutation_in; [apply Permutation_sym, P|left; reflexivity]).
      rewrite Forall_forall in F, F'. destruct Hx as [->|Hx]; [reflexivity|]. destruct Hy as [->|Hy]; [reflexivity|].
      specialize (F _ Hy). specialize (F' _ Hx). lra. }
    subst y. f_equal. apply IH; [exact S'|]. eapply Permutation_cons_inv, P.
Qed.
Lemma rsort_length l : length (rsort l) = length l.
Proof. symmetry. apply Permutation_length, rsort_perm. Qed.

Definition rmedian (l : list R) : R := (nth ((length l - 1) / 2) (rsort l) 0 + nth (length l / 2) (rsort l) 0) / 2.

Lemma nth_Fin n l : (n < length l)%nat -> nth n (map Fin l) NaN = Fin (nth n l 0).
Proof.
  revert n. induction l as [|x l IH]; intros [|n] H; cbn in *; try lia; [reflexivity|]. apply IH. lia.
Qed.
Lemma median_R l : l <> [] -> median (map Fin l) = Fin (rmedian l).
Proof.
  intros H. unfold median. rewrite nsort_R, map_length. change (@nnan xr XR) with NaN.
  assert (L : (0 < length l)%nat) by (destruct l; [contradiction|cbn; lia]).
  assert (L2 : (length l / 2 < length l)%nat) by (apply Nat.div_lt; lia).
  pose proof (Nat.div_mod_eq (length l) 2) as D. pose proof (Nat.mod_upper_bound (length l) 2 ltac:(lia)) as M.
  unfold rmedian. destruct (Nat.even (length l)) eqn:E.
  - apply Nat.even_spec in E. destruct E as [m E].
    assert (E2 : (length l / 2 = m)%nat) by (rewrite E, Nat.mul_comm; apply Nat.div_mul; lia).
    assert (E3 : ((length l - 1) / 2 = m - 1)%nat).
    { symmetry. apply Nat.div_unique with (r := 1%nat); lia. }
    rewrite !nth_Fin by (rewrite rsort_length; lia). rewrite E2, E3. cbn. destruct (Reqb_spec 2 0); [lra|]. reflexivity.
  - rewrite nth_Fin by (rewrite rsort_length; lia). apply f_equal.
    assert (O : Nat.odd (length l) = true) by (rewrite <- Nat.negb_even, E; reflexivity).
    apply Nat.odd_spec in O. destruct O as [m O].
    assert (E2 : (length l / 2 = m)%nat) by (symmetry; apply Nat.div_unique with (r := 1%nat); lia).
    assert (E3 : ((length l - 1) / 2 = m)%nat) by (symmetry; apply Nat.div_unique with (r := 0%nat); lia).
    rewrite E2, E3. field.
Qed.
Lemma rmedian_perm l l' : Permutation l l' -> rmedian l = rmedian l'.
Proof.
  intros P. unfold rmedian. rewrite (Permutation_length P).
  assert (E : rsort l = rsort l').
  { apply sorted_unique; try apply rsort_sorted. etransitivity; [apply Permutation_sym, rsort_perm|].
    etransitivity; [exact P|apply rsort_perm]. }
  rewrite E. reflexivity.
Qed.
Lemma rmedian_is l : is_median l (rmedian l).
Proof. exists (rsort l). split; [apply Permutation_sym, rsort_perm|]. split; [apply rsort_sorted|reflexivity]. Qed.

(** ** Extremes *)
Lemma pymin_list_R x l : exists m, pymin_list (map Fin (x :: l)) = Ok (Fin m) /\ In m (x :: l) /\ forall y, In y (x :: l) -> m <= y.
Proof.
  cbn [map]. unfold pymin_list. revert x. induction l as [|a l IH]; intros x.
  - exists x. cbn. repeat split; auto. intros y [<-|[]]. lra.
  - cbn [map fold_left]. assert (E : exists z, pymin (Fin x) (Fin a) = Fin z /\ (z = x \/ z = a) /\ z <= x /\ z <= a).
    { unfold pymin. cbn. destruct (Rltb_spec a x); [exists a|exists x]; repeat split; auto; lra. }
    destruct E as (z & E & C & H1 & H2). rewrite E. destruct (IH z) as (m & M & I & B). exists m. split; [exact M|].
    split; [destruct I as [<-|I]; cbn; [destruct C; auto|auto]|].
    intros y [<-|[<-|Hy]]; [specialize (B z (or_introl eq_refl)); lra..|apply B; right; exact Hy].
Qed.
Lemma pymax_list_R x l : exists m, pymax_list (map Fin (x :: l)) = Ok (Fin m) /\ In m (x :: l) /\ forall y, In y (x :: l) -> y <= m.
Proof.
  cbn [map]. unfold pymax_list. revert x. induction l as [|a l IH]; intros x.
  - exists x. cbn. repeat split; auto. intros y [<-|[]]. lra.
  - cbn [map fold_left]. assert (E : exists z, pymax (Fin x) (Fin a) = Fin z /\ (z = x \/ z = a) /\ x <= z /\ a <= z).
    { unfold pymax. cbn. destruct (Rltb_spec x a); [exists a|exists x]; repeat split; auto; lra. }
    destruct E as (z & E & C & H1 & H2). rewrite E. destruct (IH z) as (m & M & I & B). exists m. split; [exact M|].
    split; [destruct I as [<-|I]; cbn; [destruct C; auto|auto]|].
    intros y [<-|[<-|Hy]]; [specialize (B z (or_introl eq_refl)); lra..|apply B; right; exact Hy].
Qed.

Lemma total_bounds l lo hi : (forall x, In x l -> lo <= x <= hi) -> lo * INR (length l) <= total_of l <= hi * INR (length l).
Proof.
  induction l as [|x l IH]; intros H; [cbn; lra|]. cbn [length]. rewrite S_INR.
  specialize (IH (fun y Hy => H y (or_intror Hy))). specialize (H x (or_introl eq_refl)).
  unfold total_of, Rsum in *. cbn. lra.
Qed.
Lemma rmean_bounds l lo hi : l <> [] -> (forall x, In x l -> lo <= x <= hi) -> lo <= rmean l <= hi.
Proof.
  intros N H. apply total_bounds in H. unfold rmean.
  assert (P : 0 < INR (length l)) by (apply lt_0_INR; destruct l; [contradiction|cbn; lia]).
  split; apply (Rmult_le_reg_r (INR (length l))); try exact P;
    unfold Rdiv; rewrite ?Rmult_assoc, ?Rinv_l, ?Rmult_1_r by lra; lra.
Qed.
Lemma total_zero l : (forall x, In x l -> 0 <= x) -> total_of l = 0 -> forall x, In x l -> x = 0.
Proof.
  induction l as [|a l IH]; intros P Z x Hx; [destruct Hx|].
  assert (0 <= a) by (apply P; left; reflexivity).
  assert (Pl : forall y, In y l -> 0 <= y) by (intros; apply P; right; assumption).
  pose proof (total_nonneg l Pl) as Q. assert (E : total_of (a :: l) = a + total_of l) by reflexivity. rewrite E in Z.
  destruct Hx as [<-|Hx]; [lra|]. apply IH; auto. lra.
Qed.

Lemma rdev_nonneg l : forall x, In x (rdev l) -> 0 <= x.
Proof. intros x Hx. unfold rdev in Hx. apply in_map_iff in Hx. destruct Hx as (y & <- & _). apply Rle_0_sqr. Qed.

Lemma std_zero l : l <> [] -> (sqrt (rmean (rdev l)) = 0 <-> forall y z, In y l -> In z l -> y = z).
Proof.
  intros N. assert (P : 0 < INR (length l)) by (apply lt_0_INR; destruct l; [contradiction|cbn; lia]).
  pose proof (total_nonneg _ (rdev_nonneg l)) as Q. unfold rmean at 1. assert (L : length (rdev l) = length l) by (unfold rdev; apply map_length). rewrite L.
  split.
  - intros Z y z Hy Hz. apply sqrt_eq_0 in Z; [|apply Rmult_le_pos; [exact Q|apply Rlt_le, Rinv_0_lt_compat, P]].
    assert (T : total_of (rdev l) = 0).
    { apply (f_equal (fun v => v * INR (length l))) in Z. unfold Rdiv in Z. rewrite Rmult_assoc, Rinv_l, Rmult_1_r, Rmult_0_l in Z by lra. exact Z. }
    assert (K : forall v, In v l -> v = rmean l).
    { intros v Hv. pose proof (total_zero _ (rdev_nonneg l) T ((v - rmean l) * (v - rmean l))) as K.
      assert (I : In ((v - rmean l) * (v - rmean l)) (rdev l)) by (unfold rdev; apply (in_map (fun x => (x - rmean l) * (x - rmean l))), Hv).
      specialize (K I). apply Rmult_integral in K. destruct K; lra. }
    rewrite (K y Hy), (K z Hz). reflexivity.
  - intros H. destruct l as [|a l]; [contradiction|].
    assert (M : rmean (a :: l) = a).
    { pose proof (rmean_bounds (a :: l) a a N) as B. assert (a <= rmean (a :: l) <= a); [|lra]. apply B.
      intros x Hx. rewrite (H x a Hx (or_introl eq_refl)). lra. }
    assert (T : total_of (rdev (a :: l)) = 0).
    { pose proof (total_bounds (rdev (a :: l)) 0 0) as B.
      assert (0 * INR (length (rdev (a :: l))) <= total_of (rdev (a :: l)) <= 0 * INR (length (rdev (a :: l)))); [|lra].
      apply B. intros x Hx. unfold rdev in Hx. rewrite M in Hx. apply in_map_iff in Hx. destruct Hx as (y & <- & Hy).
      rewrite (H y a Hy (or_introl eq_refl)). replace ((a - a) * (a - a)) with 0 by ring. lra. }
    rewrite T. unfold Rdiv. rewrite Rmult_0_l. apply sqrt_0.
Qed.

Lemma sorted_nth_in (s : list R) n : (n < length s)%nat -> In (nth n s 0) s.
Proof. intros. apply nth_In. assumption. Qed.
Lemma rmedian_bounds l lo hi : l <> [] -> (forall x, In x l -> lo <= x <= hi) -> lo <= rmedian l <= hi.
Proof.
  intros N H. assert (L : (0 < length l)%nat) by (destruct l; [contradiction|cbn; lia]).
  assert (K : forall n, (n < length l)%nat -> lo <= nth n (rsort l) 0 <= hi).
  { intros n Hn. apply H. eapply Permutation_in; [apply Permutation_sym, rsort_perm|]. apply nth_In. rewrite rsort_length. exact Hn. }
  pose proof (K (length l / 2)%nat ltac:(apply Nat.div_lt; lia)).
  assert ((length l - 1) / 2 < length l)%nat by (apply Nat.div_lt_upper_bound; lia).
  pose proof (K ((length l - 1) / 2)%nat ltac:(assumption)). unfold rmedian. lra.
Qed.

(** ** Columns *)

Definition stats_of (x : list R) (mn mx : R) : stats xr :=
  {| s_cnt := Z.of_nat (length x); s_min := Fin mn; s_med := Fin (rmedian x); s_max := Fin mx;
     s_avg := Fin (rmean x); s_std := Fin (sqrt (rmean (rdev x))) |}.

Lemma column_filter j rows :
  filter (fun v => negb (nisnan v)) (map (fun row => fval (nth j row None)) rows) = map Fin (column j rows).
Proof.
  induction rows as [|r rows IH]; [reflexivity|]. unfold column in *. cbn [map filter flat_map]. rewrite map_app, <- IH.
  destruct (nth j r None); reflexivity.
Qed.

Lemma column_stats_R j rows : column j rows <> [] -> exists mn mx,
  column_stats (map (fun row => fval (nth j row None)) rows) = Ok (stats_of (column j rows) mn mx) /\
  In mn (column j rows) /\ In mx (column j rows) /\ (forall y, In y (column j rows) -> mn <= y <= mx).
Proof.
  intros N. unfold column_stats. rewrite column_filter. remember (column j rows) as x eqn:E. clear E.
  destruct x as [|a x]; [contradiction|].
  destruct (pymin_list_R a x) as (mn & E1 & I1 & B1). destruct (pymax_list_R a x) as (mx & E2 & I2 & B2).
  exists mn, mx. rewrite E1, E2. cbn [bind]. rewrite median_R, mean_R, std_R, map_length by discriminate.
  split; [reflexivity|]. split; [exact I1|]. split; [exact I2|]. intros y Hy. split; auto.
Qed.

Lemma get_column j rows n : (j < n)%nat -> (forall row, In row rows -> length row = n) ->
  map_res (fun v => match nth_error v j with Some a => Ok a | None => Raise IndexError end) (map (map fval) rows)
  = Ok (map (fun row => fval (nth j row None)) rows).
Proof.
  intros Hj. induction rows as [|r rows IH]; intros H; [reflexivity|]. cbn [map map_res].
  assert (L : length r = n) by (apply H; left; reflexivity).
  rewrite nth_error_map. rewrite (nth_error_nth' r None) by lia. cbn [option_map].
  rewrite IH by (intros; apply H; right; assumption). reflexivity.
Qed.

Lemma map_res_seq {A B} (f : A -> res B) (P : A -> B -> Prop) l : (forall a, In a l -> exists b, f a = Ok b /\ P a b) ->
  exists bs, map_res f l = Ok bs /\ Forall2 P l bs.
Proof.
  induction l as [|a l IH]; intros H; [exists []; split; [reflexivity|constructor]|].
  destruct (H a (or_introl eq_refl)) as (b & E & Pb). destruct (IH (fun x Hx => H x (or_intror Hx))) as (bs & E2 & F).
  exists (b :: bs). cbn. rewrite E. cbn. rewrite E2. split; [reflexivity|constructor; assumption].
Qed.
Lemma Forall2_seq {B} (P : nat -> B -> Prop) a n bs : Forall2 P (seq a n) bs ->
  length bs = n /\ forall j, (j < n)%nat -> exists b, nth_error bs j = Some b /\ P (a + j)%nat b.
Proof.
  revert a bs. induction n as [|n IH]; intros a bs F; cbn in F; inversion F as [|? b ? bs' Pb F' E1]; subst.
  - split; [reflexivity|]. lia.
  - destruct (IH _ _ F') as [L K]. split; [cbn; congruence|]. intros [|j] Hj.
    + exists b. rewrite Nat.add_0_r. auto.
    + destruct (K j ltac:(lia)) as (b' & E & Pb'). exists b'. split; [exact E|]. rewrite <- plus_n_Sm. exact Pb'.
Qed.

(** Each column: the count is the number of numbers (entries that are not NaN), the extremes are
    elements bounding the others, the median is the middle of the sorted numbers, the mean and the
    deviation have their usual meaning, and the stated inequalities hold. *)
Lemma c75_columns : forall (rows : list (list (option R))) (n : nat),
  rows <> [] -> (forall row, In row rows -> length row = n) ->
  (forall j, (j < n)%nat -> column j rows <> []) ->
  exists sts, summary_statistics (map (map fval) rows) = Ok sts /\ length sts = n /\
    forall j, (j < n)%nat -> exists mn md mx av sd,
      nth_error sts j = Some {| s_cnt := Z.of_nat (length (column j rows)); s_min := Fin mn; s_med := Fin md;
                                s_max := Fin mx; s_avg := Fin av; s_std := Fin sd |} /\
      In mn (column j rows) /\ In mx (column j rows) /\ (forall y, In y (column j rows) -> mn <= y <= mx) /\
      is_median (column j rows) md /\ mn <= md <= mx /\
      av * INR (length (column j rows)) = total_of (column j rows) /\ mn <= av <= mx /\
      0 <= sd /\ sd * sd * INR (length (column j rows)) = Rsum (fun y => (y - av) * (y - av)) (column j rows) /\
      (sd = 0 <-> forall y z, In y (column j rows) -> In z (column j rows) -> y = z).
Proof.
  intros rows n N H C. destruct rows as [|r0 rows]; [contradiction|].
  assert (L0 : length r0 = n) by (apply H; left; reflexivity).
  unfold summary_statistics. cbn [map]. rewrite map_length, L0.
  change (map fval r0 :: map (map fval) rows) with (map (map fval) (r0 :: rows)).
  remember (r0 :: rows) as rs eqn:E. clear E N r0 rows L0.
  destruct (map_res_seq (fun j => let! col := map_res (fun v => match nth_error v j with Some a => Ok a | None => Raise IndexError end) (map (map fval) rs) in column_stats col)
             (fun j st => exists mn mx, st = stats_of (column j rs) mn mx /\ In mn (column j rs) /\ In mx (column j rs) /\ (forall y, In y (column j rs) -> mn <= y <= mx))
             (seq 0 n)) as (sts & E & F).
  { intros j Hj. apply in_seq in Hj. rewrite (get_column j rs n) by (lia || assumption). cbn [bind].
    destruct (column_stats_R j rs (C j ltac:(lia))) as (mn & mx & E & K). eexists. split; [exact E|]. exists mn, mx. auto. }
  exists sts. split; [exact E|]. apply Forall2_seq in F. destruct F as [L F]. split; [exact L|].
  intros j Hj. destruct (F j Hj) as (st & Est & mn & mx & -> & I1 & I2 & B). cbn [Nat.add] in *.
  specialize (C j Hj). remember (column j rs) as x eqn:Ex. clear - C Est I1 I2 B.
  assert (P : 0 < INR (length x)) by (apply lt_0_INR; destruct x; [contradiction|cbn; lia]).
  exists mn, (rmedian x), mx, (rmean x), (sqrt (rmean (rdev x))).
  split; [exact Est|]. split; [exact I1|]. split; [exact I2|]. split; [exact B|]. split; [apply rmedian_is|].
  split; [apply rmedian_bounds; assumption|]. split; [unfold rmean; field; lra|].
  split; [apply rmean_bounds; assumption|]. split; [apply sqrt_pos|].
  split; [|apply std_zero, C].
  pose proof (total_nonneg _ (rdev_nonneg x)) as Q. assert (Lx : length (rdev x) = length x) by (unfold rdev; apply map_length).
  rewrite sqrt_sqrt.
  - unfold rmean at 1. rewrite Lx. replace (total_of (rdev x) / INR (length x) * INR (length x)) with (total_of (rdev x)) by (field; lra).
    unfold total_of, rdev. generalize (rmean x) as m. intros m. clear. induction x as [|a x IH]; [reflexivity|].
    cbn. unfold Rsum in IH. rewrite IH. reflexivity.
  - unfold rmean at 1. rewrite Lx. apply Rmult_le_pos; [exact Q|apply Rlt_le, Rinv_0_lt_compat, P].
Qed.

Lemma column_perm j rows rows' : Permutation rows rows' -> Permutation (column j rows) (column j rows').
Proof. intros P. unfold column. apply Permutation_flat_map, P. Qed.

(** The order of the rows does not matter. *)
Lemma c75_row_order : forall (rows rows' : list (list (option R))) (n : nat),
  rows <> [] -> (forall row, In row rows -> length row = n) ->
  (forall j, (j < n)%nat -> column j rows <> []) -> Permutation rows rows' ->
  summary_statistics (map (map fval) rows') = summary_statistics (map (map fval) rows).
Proof.
  intros rows rows' n N H C P.
  assert (K : forall rs, rs <> [] -> (forall row, In row rs -> length row = n) ->
    summary_statistics (map (map fval) rs) = map_res (fun j => column_stats (map (fun row => fval (nth j row None)) rs)) (seq 0 n)).
  { clear. intros rs N H. destruct rs as [|r rs]; [contradiction|]. assert (L : length r = n) by (apply H; left; reflexivity).
    unfold summary_statistics. cbn [map]. rewrite map_length, L. change (map fval r :: map (map fval) rs) with (map (map fval) (r :: rs)).
    assert (Q : forall l, (forall j, In j l -> (j < n)%nat) ->
      map_res (fun j => let! col := map_res (fun v => match nth_error v j with Some a => Ok a | None => Raise IndexError end) (map (map fval) (r :: rs)) in column_stats col) l
      = map_res (fun j => column_stats (map (fun row => fval (nth j row None)) (r :: rs))) l).
    { induction l as [|j l IH]; intros B; [reflexivity|]. cbn [map_res]. rewrite (get_column j (r :: rs) n) by (try assumption; apply B; left; reflexivity).
      rewrite IH by (intros; apply B; right; assumption). reflexivity. }
    apply Q. intros j Hj. apply in_seq in Hj. lia. }
  assert (N' : rows' <> []) by (intros ->; apply N; apply Permutation_nil, Permutation_sym, P).
  assert (H' : forall row, In row rows' -> length row = n) by (intros row Hr; apply H; eapply Permutation_in; [apply Permutation_sym, P|exact Hr]).
  rewrite (K rows' N' H'), (K rows N H). clear K.
  assert (Q : forall l, (forall j, In j l -> (j < n)%nat) ->
     map_res (fun j => column_stats (map (fun row => fval (nth j row None)) rows')) l
     = map_res (fun j => column_stats (map (fun row => fval (nth j row None)) rows)) l).
  { induction l as [|j l IH]; intros B; [reflexivity|]. cbn [map_res]. rewrite IH by (intros; apply B; right; assumption).
    assert (Hj : (j < n)%nat) by (apply B; left; reflexivity).
    assert (E : column_stats (map (fun row => fval (nth j row None)) rows') = column_stats (map (fun row => fval (nth j row None)) rows)); [|rewrite E; reflexivity].
    pose proof (column_perm j _ _ P) as PC. specialize (C j Hj).
    assert (C' : column j rows' <> []) by (intros Z; rewrite Z in PC; apply C; apply Permutation_nil, Permutation_sym, PC).
    destruct (column_stats_R j rows C) as (mn & mx & -> & I1 & I2 & B1). destruct (column_stats_R j rows' C') as (mn' & mx' & -> & I1' & I2' & B1').
    assert (mn' = mn) as ->.
    { specialize (B1 mn' (Permutation_in _ (Permutation_sym PC) I1')). specialize (B1' mn (Permutation_in _ PC I1)). lra. }
    assert (mx' = mx) as ->.
    { specialize (B1 mx' (Permutation_in _ (Permutation_sym PC) I2')). specialize (B1' mx (Permutation_in _ PC I2)). lra. }
    unfold stats_of. rewrite (Permutation_length PC), (rmedian_perm _ _ PC), (rmean_perm _ _ PC), (rmean_perm _ _ (rdev_perm _ _ PC)). reflexivity. }
  apply Q. intros j Hj. apply in_seq in Hj. lia.
Qed.

(** A table of two columns with a missing entry. *)
Lemma c75_example :
  summary_statistics (map (map fval) [[Some 1; Some 5]; [Some 4; None]; [Some 2; Some 5]; [Some 1; Some 5]])
  = Ok [{| s_cnt := 4; s_min := Fin 1; s_med := Fin (3 / 2); s_max := Fin 4; s_avg := Fin 2; s_std := Fin (sqrt (3 / 2)) |};
        {| s_cnt := 3; s_min := Fin 5; s_med := Fin 5; s_max := Fin 5; s_avg := Fin 5; s_std := Fin 0 |}].
Proof.
  cbn [map fval]. unfold summary_statistics. cbn [length seq map_res nth_error bind]. unfold column_stats. cbn [filter nisnan XR negb].
  cbn [xisnan negb].
  change [Fin 1; Fin 4; Fin 2; Fin 1] with (map Fin [1; 4; 2; 1]). change [Fin 5; Fin 5; Fin 5] with (map Fin [5; 5; 5]).
  rewrite !median_R, !mean_R, !std_R by discriminate.
  assert (E1 : rmean [1; 4; 2; 1] = 2) by (unfold rmean, total_of, Rsum; cbn; field).
  assert (E2 : rmean [5; 5; 5] = 5) by (unfold rmean, total_of, Rsum; cbn; field).
  assert (E3 : rmean (rdev [1; 4; 2; 1]) = 3 / 2) by (unfold rdev; rewrite E1; unfold rmean, total_of, Rsum; cbn; field).
  assert (E4 : rmean (rdev [5; 5; 5]) = 0) by (unfold rdev; rewrite E2; unfold rmean, total_of, Rsum; cbn; field).
  assert (E5 : rmedian [1; 4; 2; 1] = 3 / 2).
  { assert (S : rsort [1; 4; 2; 1] = [1; 1; 2; 4]).
    { apply sorted_unique; [apply rsort_sorted|repeat constructor; lra|].
      etransitivity; [apply Permutation_sym, rsort_perm|]. etransitivity; [apply perm_skip, Permutation_rev|]. cbn. apply perm_skip. apply Permutation_refl. }
    unfold rmedian. rewrite S. cbn. field. }
  assert (E6 : rmedian [5; 5; 5] = 5).
  { assert (S : rsort [5; 5; 5] = [5; 5; 5]).
    { apply sorted_unique; [apply rsort_sorted|repeat constructor; lra|]. apply Permutation_sym, rsort_perm. }
    unfold rmedian. rewrite S. cbn. field. }
  rewrite E1, E2, E3, E4, E5, E6, sqrt_0.
  destruct (pymin_list_R 1 [4; 2; 1]) as (a & -> & Ia & Ba). destruct (pymax_list_R 1 [4; 2; 1]) as (b & -> & Ib & Bb).
  destruct (pymin_list_R 5 [5; 5]) as (c & -> & Ic & Bc). destruct (pymax_list_R 5 [5; 5]) as (d & -> & Id & Bd). cbn [bind].
  assert (a = 1) as ->. { specialize (Ba 1 (or_introl eq_refl)). cbn in Ia. lra. }
  assert (b = 4) as ->. { specialize (Bb 4 (or_intror (or_introl eq_refl))). cbn in Ib. lra. }
  assert (c = 5) as -> by (cbn in Ic; lra). assert (d = 5) as -> by (cbn in Id; lra). reflexivity.
Qed.

(** With an infinite entry the inequalities fail: the mean of inf and -inf is NaN. *)
Lemma c75_infinite_example : exists st, summary_statistics [[PInf]; [NInf]] = Ok [st] /\ s_avg st = NaN /\ s_min st = NInf /\ s_max st = PInf.
Proof. eexists. split; [reflexivity|]. repeat split. Qed.
