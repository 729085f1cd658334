(** * Averages over independent choices *)
From Coq Require Import Reals List Lra Lia Classical_Prop.
From Verif Require Import SpecMonteCarlo.
Import ListNotations.
Local Open Scope R_scope.

Section Sums.
  Context {A : Type}.
  Implicit Types (f g : A -> R) (l : list A).

  Definition total_of l f := fold_right (fun x a => f x + a) 0 l.

  Lemma total_cons x l f : total_of (x :: l) f = f x + total_of l f.
  Proof. reflexivity. Qed.
  Lemma total_app l1 l2 f : total_of (l1 ++ l2) f = total_of l1 f + total_of l2 f.
  Proof. unfold total_of. induction l1 as [|x l1 IH]; cbn; [ring|]. rewrite IH. ring. Qed.
  Lemma total_plus l f g : total_of l (fun x => f x + g x) = total_of l f + total_of l g.
  Proof. unfold total_of. induction l as [|x l IH]; cbn; [ring|]. rewrite IH. ring. Qed.
  Lemma total_scale l f k : total_of l (fun x => k * f x) = k * total_of l f.
  Proof. unfold total_of. induction l as [|x l IH]; cbn; [ring|]. rewrite IH. ring. Qed.
  Lemma total_const l k : total_of l (fun _ => k) = INR (length l) * k.
  Proof. unfold total_of. induction l as [|x l IH]; [cbn; ring|]. cbn [length fold_right]. rewrite IH, S_INR. ring. Qed.
  Lemma total_le l f g : (forall x, In x l -> f x <= g x) -> total_of l f <= total_of l g.
  Proof.
    unfold total_of. induction l as [|x l IH]; intros H; cbn; [lra|]. pose proof (H x (or_introl eq_refl)).
    specialize (IH (fun z Hz => H z (or_intror Hz))). lra.
  Qed.
  Lemma total_eq l f g : (forall x, In x l -> f x = g x) -> total_of l f = total_of l g.
  Proof. intros H. apply Rle_antisym; apply total_le; intros x Hx; rewrite (H x Hx); lra. Qed.

  Lemma mean_plus l f g : mean l (fun x => f x + g x) = mean l f + mean l g.
  Proof. unfold mean. change (total_of l (fun x => f x + g x) / INR (length l) = total_of l f / INR (length l) + total_of l g / INR (length l)). rewrite total_plus. unfold Rdiv. ring. Qed.
  Lemma mean_scale l f k : mean l (fun x => k * f x) = k * mean l f.
  Proof. unfold mean. change (total_of l (fun x => k * f x) / INR (length l) = k * (total_of l f / INR (length l))). rewrite total_scale. unfold Rdiv. ring. Qed.
  Lemma length_pos l : l <> [] -> 0 < INR (length l).
  Proof. intros H. apply lt_0_INR. destruct l; [congruence|cbn; lia]. Qed.
  Lemma mean_const l k : l <> [] -> mean l (fun _ => k) = k.
  Proof. intros H. pose proof (length_pos l H). unfold mean. change (total_of l (fun _ => k) / INR (length l) = k). rewrite total_const. field. lra. Qed.
  Lemma mean_le l f g : l <> [] -> (forall x, In x l -> f x <= g x) -> mean l f <= mean l g.
  Proof.
    intros H L. pose proof (length_pos l H) as P. unfold mean. change (total_of l f / INR (length l) <= total_of l g / INR (length l)).
    unfold Rdiv. apply Rmult_le_compat_r; [left; apply Rinv_0_lt_compat; exact P|apply total_le; exact L].
  Qed.
  Lemma mean_eq l f g : (forall x, In x l -> f x = g x) -> mean l f = mean l g.
  Proof. intros H. unfold mean. change (total_of l f / INR (length l) = total_of l g / INR (length l)). rewrite (total_eq l f g H). reflexivity. Qed.
End Sums.

Section Tuples.
  Context {A : Type} (l : list A).
  Hypothesis nonempty : l <> [].

  Lemma tuples_length n : INR (length (tuples l n)) = INR (length l) ^ n.
  Proof.
    induction n as [|n IH]; [cbn; ring|]. cbn [tuples pow]. rewrite <- IH.
    enough (H : forall m, length (flat_map (fun x => map (cons x) (tuples l n)) m) = (length m * length (tuples l n))%nat) by (rewrite H, mult_INR; reflexivity).
    induction m as [|x m IHm]; [reflexivity|]. cbn [flat_map]. rewrite app_length, map_length, IHm. cbn [length]. lia.
  Qed.
  Lemma tuples_nonempty n : tuples l n <> [].
  Proof.
    intros H. pose proof (tuples_length n) as L. rewrite H in L. cbn in L. pose proof (pow_lt _ n (length_pos l nonempty)). lra.
  Qed.
  Lemma in_tuples n t : In t (tuples l n) -> length t = n /\ (forall x, In x t -> In x l).
  Proof.
    revert t. induction n as [|n IH]; cbn [tuples]; intros t H.
    - destruct H as [<-|[]]. split; [reflexivity|intros x []].
    - apply in_flat_map in H. destruct H as (x & Hx & H). apply in_map_iff in H. destruct H as (t' & <- & H). destruct (IH t' H) as [L M].
      split; [cbn; lia|]. intros z [<-|Hz]; auto.
  Qed.
  Lemma mean_step n (F : list A -> R) : mean (tuples l (S n)) F = mean l (fun x => mean (tuples l n) (fun t => F (x :: t))).
  Proof.
    unfold mean at 1. rewrite tuples_length. cbn [tuples].
    assert (H : forall m, total_of (flat_map (fun x => map (cons x) (tuples l n)) m) F = total_of m (fun x => total_of (tuples l n) (fun t => F (x :: t)))).
    { induction m as [|x m IHm]; [reflexivity|]. cbn [flat_map]. rewrite total_app, IHm, total_cons. apply f_equal2; [|reflexivity].
      generalize (tuples l n). intros q. unfold total_of. induction q as [|t q IHq]; [reflexivity|]. cbn. rewrite IHq. reflexivity. }
    change (total_of (flat_map (fun x => map (cons x) (tuples l n)) l) F / INR (length l) ^ S n
            = total_of l (fun x => total_of (tuples l n) (fun t => F (x :: t)) / INR (length (tuples l n))) / INR (length l)).
    rewrite H, tuples_length. pose proof (length_pos l nonempty) as P. pose proof (pow_lt _ n P) as Q.
    rewrite (total_eq l (fun x => total_of (tuples l n) (fun t => F (x :: t)) / INR (length l) ^ n)
                        (fun x => / INR (length l) ^ n * total_of (tuples l n) (fun t => F (x :: t)))) by (intros; unfold Rdiv; ring).
    rewrite total_scale. cbn [pow]. field. split; lra.
  Qed.

  Lemma mean_sum n f : mean (tuples l n) (fun t => total_of t f) = INR n * mean l f.
  Proof.
    induction n as [|n IH]; [unfold mean at 1; cbn; unfold Rdiv; ring|]. rewrite mean_step.
    rewrite (mean_eq l _ (fun x => f x + INR n * mean l f)).
    - rewrite mean_plus, (mean_const l (INR n * mean l f) nonempty), S_INR. ring.
    - intros x _. change (fun t => total_of (x :: t) f) with (fun t => f x + total_of t f).
      rewrite (mean_plus (tuples l n) (fun _ => f x) (fun t => total_of t f)), IH, (mean_const _ (f x) (tuples_nonempty n)). reflexivity.
  Qed.

  Lemma variance_sum n g : mean l g = 0 -> mean (tuples l n) (fun t => total_of t g * total_of t g) = INR n * mean l (fun x => g x * g x).
  Proof.
    intros Z. induction n as [|n IH]; [unfold mean at 1; cbn; unfold Rdiv; ring|]. rewrite mean_step.
    rewrite (mean_eq l _ (fun x => g x * g x + INR n * mean l (fun x => g x * g x))).
    - rewrite mean_plus, (mean_const l (INR n * mean l (fun x => g x * g x)) nonempty), S_INR. ring.
    - intros x _. rewrite (mean_eq (tuples l n) _ (fun t => (g x * g x + 2 * g x * total_of t g) + total_of t g * total_of t g)) by (intros; unfold total_of; cbn; ring).
      rewrite mean_plus, IH, (mean_plus (tuples l n) (fun _ => g x * g x) (fun t => 2 * g x * total_of t g)), (mean_scale (tuples l n) (fun t => total_of t g) (2 * g x)), mean_sum, Z, (mean_const _ _ (tuples_nonempty n)). ring.
  Qed.
End Tuples.

(** Shares as means of indicators, given pointwise. *)
Definition ind (b : bool) : R := if b then 1 else 0.
Lemma share_mean {A} (l : list A) (f : A -> bool) (P : A -> Prop) p : (forall x, In x l -> (f x = true <-> P x)) -> share l P p -> p = mean l (fun x => ind (f x)).
Proof.
  intros H (bs & F & ->). unfold mean. apply (f_equal (fun z => z / INR (length l))).
  revert H. induction F as [|x b l bs Hb F IH]; intros H; [reflexivity|]. cbn [filter fold_right].
  rewrite <- IH by (intros z Hz; apply H; right; exact Hz).
  assert (E : f x = b). { pose proof (H x (or_introl eq_refl)) as Hx. destruct (f x), b; try reflexivity; [symmetry; apply Hb, Hx|apply Hx, Hb]; reflexivity. }
  rewrite E. destruct b; cbn [length ind]; [rewrite S_INR; ring|ring].
Qed.

Lemma decider {A} (P : A -> Prop) : exists f : A -> bool, forall x, f x = true <-> P x.
Proof.
  exists (fun x => if ClassicalDedekindReals.sig_not_dec (P x) then true else false). intros x.
  destruct (ClassicalDedekindReals.sig_not_dec (P x)) as [H|H]; split; intros Q; try reflexivity; try discriminate Q; [apply NNPP, H|destruct (H Q)].
Qed.

Lemma share_exists {A} (l : list A) (P : A -> Prop) : exists p, share l P p.
Proof.
  destruct (decider P) as (f & Hf). eexists. exists (map f l). split; [|reflexivity].
  induction l as [|x l IH]; constructor; auto.
Qed.

Lemma mean_ind {A} (l : list A) (f : A -> bool) : l <> [] -> 0 <= mean l (fun x => ind (f x)) <= 1.
Proof.
  intros H. split.
  - rewrite <- (mean_const l 0 H). apply mean_le; [exact H|]. intros x _. unfold ind. destruct (f x); lra.
  - rewrite <- (mean_const l 1 H). apply mean_le; [exact H|]. intros x _. unfold ind. destruct (f x); lra.
Qed.

(** The squared deviation of the number of successes among [n] from what is expected. *)
Lemma deviation {A} (l : list A) (f : A -> bool) n p : l <> [] -> p = mean l (fun x => ind (f x)) ->
  mean (tuples l n) (fun t => (total_of t (fun x => ind (f x)) - INR n * p) * (total_of t (fun x => ind (f x)) - INR n * p)) <= INR n / 4.
Proof.
  intros H E. set (g := fun x => ind (f x) + - p).
  assert (Z : mean l g = 0) by (unfold g; rewrite mean_plus, <- E, (mean_const l (- p) H); ring).
  assert (S : forall t, In t (tuples l n) -> (total_of t (fun x => ind (f x)) - INR n * p) * (total_of t (fun x => ind (f x)) - INR n * p) = total_of t g * total_of t g).
  { intros t Ht. destruct (in_tuples l n t Ht) as [L _]. unfold g. rewrite total_plus, total_const, L. ring. }
  rewrite (mean_eq _ _ _ S), (variance_sum l H n g Z).
  assert (V : mean l (fun x => g x * g x) = p * (1 - p)).
  { rewrite (mean_eq l _ (fun x => (1 - 2 * p) * ind (f x) + p * p)).
    - rewrite mean_plus, mean_scale, <- E, (mean_const l (p * p) H). ring.
    - intros x _. unfold g, ind. destruct (f x); ring. }
  rewrite V. pose proof (pos_INR n) as Pn. assert (Q : p * (1 - p) <= 1 / 4) by (pose proof (Rle_0_sqr (p - 1 / 2)) as Q; unfold Rsqr in Q; lra).
  apply (Rmult_le_compat_l (INR n)) in Q; lra.
Qed.

(** Markov's inequality. *)
Lemma markov {A} (l : list A) (F : A -> R) (P : A -> Prop) q k : l <> [] -> 0 < k -> (forall x, In x l -> 0 <= F x) -> (forall x, In x l -> P x -> k <= F x) ->
  share l P q -> q * k <= mean l F.
Proof.
  intros H Hk H0 H1 Hs. destruct (decider P) as (f & Hf). rewrite (share_mean l f P q (fun x _ => Hf x) Hs), Rmult_comm, <- mean_scale.
  apply mean_le; [exact H|]. intros x Hx. unfold ind. destruct (f x) eqn:E; [rewrite Rmult_1_r; apply H1; [exact Hx|apply Hf, E]|rewrite Rmult_0_r; auto].
Qed.

Definition successes {A} (f : A -> bool) (t : list A) : R := total_of t (fun x => ind (f x)).

(** An estimate that is at most, or at least, the share of the successes. *)
Lemma above {A} (l : list A) (f : A -> bool) n (est : list A -> R) p e q : l <> [] -> (0 < n)%nat -> 0 < e -> p = mean l (fun x => ind (f x)) ->
  (forall t, In t (tuples l n) -> est t <= successes f t / INR n) -> share (tuples l n) (fun t => p + e < est t) q -> q <= 1 / (4 * INR n * (e * e)).
Proof.
  intros H Hn He E Hest Hs. assert (N : 0 < INR n) by (apply lt_0_INR; exact Hn).
  pose proof (markov (tuples l n) (fun t => (successes f t - INR n * p) * (successes f t - INR n * p)) (fun t => p + e < est t) q (INR n * e * (INR n * e)) (tuples_nonempty l H n)) as M.
  specialize (M ltac:(apply Rmult_lt_0_compat; apply Rmult_lt_0_compat; assumption) ltac:(intros; apply Rle_0_sqr)).
  assert (K : q * (INR n * e * (INR n * e)) <= INR n / 4).
  { eapply Rle_trans; [apply M; [|exact Hs]|apply deviation; assumption]. cbv beta. intros t Ht Hlt. specialize (Hest t Ht).
    assert (D : INR n * e <= successes f t - INR n * p).
    { assert (X : p + e < successes f t / INR n) by lra. apply (Rmult_lt_compat_l (INR n)) in X; [|exact N].
      replace (INR n * (successes f t / INR n)) with (successes f t) in X by (field; lra). lra. }
    apply Rmult_le_compat; try exact D; apply Rmult_le_pos; lra. }
  assert (Q : 0 < 4 * INR n * (e * e)) by (repeat apply Rmult_lt_0_compat; lra).
  apply (Rmult_le_reg_r (4 * INR n * (e * e))); [exact Q|]. replace (1 / (4 * INR n * (e * e)) * (4 * INR n * (e * e))) with 1 by (field; lra).
  apply (Rmult_le_reg_l (INR n / 4)); [lra|]. lra.
Qed.
Lemma below {A} (l : list A) (f : A -> bool) n (est : list A -> R) p e q : l <> [] -> (0 < n)%nat -> 0 < e -> p = mean l (fun x => ind (f x)) ->
  (forall t, In t (tuples l n) -> successes f t / INR n <= est t) -> share (tuples l n) (fun t => est t < p - e) q -> q <= 1 / (4 * INR n * (e * e)).
Proof.
  intros H Hn He E Hest Hs. assert (N : 0 < INR n) by (apply lt_0_INR; exact Hn).
  pose proof (markov (tuples l n) (fun t => (successes f t - INR n * p) * (successes f t - INR n * p)) (fun t => est t < p - e) q (INR n * e * (INR n * e)) (tuples_nonempty l H n)) as M.
  specialize (M ltac:(apply Rmult_lt_0_compat; apply Rmult_lt_0_compat; assumption) ltac:(intros; apply Rle_0_sqr)).
  assert (K : q * (INR n * e * (INR n * e)) <= INR n / 4).
  { eapply Rle_trans; [apply M; [|exact Hs]|apply deviation; assumption]. cbv beta. intros t Ht Hlt. specialize (Hest t Ht).
    assert (D : INR n * e <= INR n * p - successes f t).
    { assert (X : successes f t / INR n < p - e) by lra. apply (Rmult_lt_compat_l (INR n)) in X; [|exact N].
      replace (INR n * (successes f t / INR n)) with (successes f t) in X by (field; lra). lra. }
    replace ((successes f t - INR n * p) * (successes f t - INR n * p)) with ((INR n * p - successes f t) * (INR n * p - successes f t)) by ring.
    apply Rmult_le_compat; try exact D; apply Rmult_le_pos; lra. }
  assert (Q : 0 < 4 * INR n * (e * e)) by (repeat apply Rmult_lt_0_compat; lra).
  apply (Rmult_le_reg_r (4 * INR n * (e * e))); [exact Q|]. replace (1 / (4 * INR n * (e * e)) * (4 * INR n * (e * e))) with 1 by (field; lra).
  apply (Rmult_le_reg_l (INR n / 4)); [lra|]. lra.
Qed.
Lemma mean_successes {A} (l : list A) (f : A -> bool) n : l <> [] -> (0 < n)%nat -> mean (tuples l n) (fun t => successes f t / INR n) = mean l (fun x => ind (f x)).
Proof.
  intros H Hn. assert (N : 0 < INR n) by (apply lt_0_INR; exact Hn). unfold successes.
  rewrite (mean_eq _ _ (fun t => / INR n * total_of t (fun x => ind (f x)))) by (intros; unfold Rdiv; ring). rewrite mean_scale, mean_sum by exact H. field. lra.
Qed.
