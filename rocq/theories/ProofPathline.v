(** * Calculus for pathlines: growth, Taylor expansion *)
From Coq Require Import Reals Lra Lia Psatz List.
From Verif Require Import Py Num ModelTrace SpecTrace SpecPathline ProofAquifer ProofTraceFlow.
Import ListNotations.
Local Open Scope R_scope.

(** ** Lengths *)
Lemma pnorm_pos p : 0 <= pnorm p.
Proof. apply sqrt_pos. Qed.
Lemma pnorm_sq p : pnorm p * pnorm p = fst p * fst p + snd p * snd p.
Proof. unfold pnorm. apply sqrt_sqrt. nra. Qed.
Lemma pdist_norm p q : pdist p q = pnorm (psub q p).
Proof. unfold pdist, pnorm, psub. reflexivity. Qed.
Lemma le_of_sq a b : 0 <= b -> a * a <= b * b -> a <= b.
Proof. intros H K. destruct (Rle_or_lt a b); [assumption|]. nra. Qed.
Lemma inner_le p q : fst p * fst q + snd p * snd q <= pnorm p * pnorm q.
Proof.
  apply le_of_sq; [apply Rmult_le_pos; apply pnorm_pos|].
  replace (pnorm p * pnorm q * (pnorm p * pnorm q)) with ((pnorm p * pnorm p) * (pnorm q * pnorm q)) by ring. rewrite !pnorm_sq.
  pose proof (Rle_0_sqr (fst p * snd q - snd p * fst q)) as S. unfold Rsqr in S. nra.
Qed.
Lemma pnorm_add p q : pnorm (padd p q) <= pnorm p + pnorm q.
Proof.
  pose proof (pnorm_pos p). pose proof (pnorm_pos q). apply le_of_sq; [lra|]. rewrite pnorm_sq. unfold padd. cbn [fst snd].
  pose proof (inner_le p q). pose proof (pnorm_sq p). pose proof (pnorm_sq q). nra.
Qed.
Lemma pnorm_scale c p : pnorm (pscale c p) = Rabs c * pnorm p.
Proof.
  unfold pnorm, pscale. cbn [fst snd]. replace (c * fst p * (c * fst p) + c * snd p * (c * snd p)) with ((c * c) * (fst p * fst p + snd p * snd p)) by ring.
  rewrite sqrt_mult by nra. f_equal. apply sqrt_Rsqr_abs.
Qed.
Lemma pnorm_0 : pnorm (0, 0) = 0.
Proof. unfold pnorm. cbn. rewrite Rmult_0_l, Rplus_0_l. apply sqrt_0. Qed.
Lemma pnorm_sub_sym p q : pnorm (psub p q) = pnorm (psub q p).
Proof. unfold pnorm, psub. cbn. f_equal. ring. Qed.
Lemma pdist_triangle p q r : pdist p r <= pdist p q + pdist q r.
Proof.
  rewrite !pdist_norm. eapply Rle_trans; [|apply pnorm_add]. right. f_equal. unfold padd, psub. cbn. f_equal; ring.
Qed.
Lemma pdist_sym p q : pdist p q = pdist q p.
Proof. rewrite !pdist_norm. apply pnorm_sub_sym. Qed.
Lemma pdist_pos p q : 0 <= pdist p q.
Proof. rewrite pdist_norm. apply pnorm_pos. Qed.
(** A length is the largest component in any direction. *)
Lemma pnorm_direction p b : 0 <= b -> (forall u, pnorm u = 1 -> fst u * fst p + snd u * snd p <= b) -> pnorm p <= b.
Proof.
  intros Hb H. destruct (Req_dec (pnorm p) 0) as [E|E]; [lra|]. pose proof (pnorm_pos p).
  specialize (H (pscale (/ pnorm p) p)). rewrite pnorm_scale, Rabs_pos_eq in H by (left; apply Rinv_0_lt_compat; lra).
  rewrite Rinv_l in H by assumption. specialize (H eq_refl). unfold pscale in H. cbn [fst snd] in H.
  replace (/ pnorm p * fst p * fst p + / pnorm p * snd p * snd p) with (/ pnorm p * (fst p * fst p + snd p * snd p)) in H by ring.
  rewrite <- pnorm_sq, <- Rmult_assoc, Rinv_l, Rmult_1_l in H by assumption. exact H.
Qed.

(** ** Monotone functions *)
Lemma decreasing g g' a b : a <= b -> (forall t, a <= t <= b -> derivable_pt_lim g t (g' t)) -> (forall t, a <= t <= b -> g' t <= 0) -> g b <= g a.
Proof.
  intros Hab D N. destruct (Req_dec a b) as [->|]; [lra|]. destruct (MVT_cor2 g g' a b ltac:(lra) D) as (c & E & C).
  specialize (N c ltac:(lra)). nra.
Qed.
(** Derivatives at most those of another function. *)
Lemma compare f f' g g' a b : a <= b ->
  (forall t, a <= t <= b -> derivable_pt_lim f t (f' t)) -> (forall t, a <= t <= b -> derivable_pt_lim g t (g' t)) ->
  (forall t, a <= t <= b -> f' t <= g' t) -> f b - f a <= g b - g a.
Proof.
  intros Hab Df Dg N.
  assert (K : (f b - g b) <= (f a - g a)); [|lra].
  apply (decreasing (fun t => f t - g t) (fun t => f' t - g' t)); [assumption| |].
  - intros t Ht. apply derivable_pt_lim_minus; auto.
  - intros t Ht. specialize (N t Ht). lra.
Qed.

Lemma deriv_exp c t : derivable_pt_lim (fun s => exp (c * s)) t (c * exp (c * t)).
Proof.
  pose proof (derivable_pt_lim_comp (fun s => c * s) exp t c (exp (c * t))) as D. unfold comp in D.
  eapply deriv_val; [apply D|ring].
  - eapply deriv_val; [apply derivable_pt_lim_scal, derivable_pt_lim_id|ring].
  - apply derivable_pt_lim_exp.
Qed.

(** Gronwall's estimate. *)
Lemma gronwall g g' c a b : a <= b ->
  (forall t, a <= t <= b -> derivable_pt_lim g t (g' t)) -> (forall t, a <= t <= b -> g' t <= c * g t) ->
  g b <= g a * exp (c * (b - a)).
Proof.
  intros Hab D N.
  assert (K : g b * exp (- c * b) <= g a * exp (- c * a)).
  { apply (decreasing (fun t => g t * exp (- c * t)) (fun t => g' t * exp (- c * t) + g t * (- c * exp (- c * t)))); [assumption| |].
    - intros t Ht. apply (derivable_pt_lim_mult g (fun s => exp (- c * s))); [auto|apply deriv_exp].
    - intros t Ht. specialize (N t Ht). pose proof (exp_pos (- c * t)). nra. }
  apply (Rmult_le_compat_r (exp (c * b))) in K; [|left; apply exp_pos]. rewrite !Rmult_assoc, <- !exp_plus in K.
  replace (- c * b + c * b) with 0 in K by ring. rewrite exp_0, Rmult_1_r in K. replace (- c * a + c * b) with (c * (b - a)) in K by ring. exact K.
Qed.

(** ** Taylor expansion *)
Definition taylor (g : nat -> R -> R) (n : nat) (a s : R) : R := sum_f_R0 (fun k => g k a * (s - a) ^ k / INR (fact k)) n.
Lemma deriv_power k a c t : derivable_pt_lim (fun s => c * (s - a) ^ S k / INR (fact (S k))) t (c * (t - a) ^ k / INR (fact k)).
Proof.
  assert (P : derivable_pt_lim (fun s => (s - a) ^ S k) t (INR (S k) * (t - a) ^ k)).
  { pose proof (derivable_pt_lim_comp (fun s => s - a) (fun y => y ^ S k) t 1 (INR (S k) * (t - a) ^ pred (S k))) as D. unfold comp in D.
    eapply deriv_val; [apply D|cbn [pred]; ring].
    - eapply deriv_val; [apply (derivable_pt_lim_minus id (fct_cte a)); [apply derivable_pt_lim_id|apply derivable_pt_lim_const]|ring].
    - apply derivable_pt_lim_pow. }
  pose proof (derivable_pt_lim_scal _ (c / INR (fact (S k))) t _ P) as D. unfold mult_real_fct in D.
  eapply deriv_val; [eapply deriv_fun; [|exact D]|].
  - intros s. cbn beta. field. apply INR_fact_neq_0.
  - change (fact (S k)) with (S k * fact k)%nat. rewrite mult_INR. field. split; [apply INR_fact_neq_0|apply not_0_INR; discriminate].
Qed.
Lemma deriv_taylor g n a t : derivable_pt_lim (taylor g (S n) a) t (taylor (fun k => g (S k)) n a t).
Proof.
  induction n as [|n IH].
  - unfold taylor. cbn [sum_f_R0]. pose proof (derivable_pt_lim_plus _ _ t _ _ (derivable_pt_lim_const (g 0%nat a) t) (deriv_power 0 a (g 1%nat a) t)) as D.
    unfold plus_fct in D. eapply deriv_val; [eapply deriv_fun; [|exact D]|]; [|cbn; field].
    intros s. unfold fct_cte. cbn. field.
  - pose proof (derivable_pt_lim_plus _ _ t _ _ IH (deriv_power (S n) a (g (S (S n)) a) t)) as D. unfold plus_fct in D. exact D.
Qed.
Lemma taylor_at g n a : taylor g n a a = g 0%nat a.
Proof.
  unfold taylor. induction n as [|n IH]; cbn [sum_f_R0].
  - cbn. field.
  - rewrite IH. rewrite Rminus_diag_eq by reflexivity. rewrite pow_ne_zero by discriminate. unfold Rdiv. ring.
Qed.
Lemma taylor_bound : forall n g a b M, a <= b ->
  (forall k t, (k <= n)%nat -> a <= t <= b -> derivable_pt_lim (g k) t (g (S k) t)) ->
  (forall t, a <= t <= b -> g (S n) t <= M) ->
  g 0%nat b - taylor g n a b <= M * (b - a) ^ S n / INR (fact (S n)).
Proof.
  induction n as [|n IH]; intros g a b M Hab D N.
  - pose proof (compare (g 0%nat) (g 1%nat) (fun t => M * t) (fun _ => M) a b Hab) as K.
    unfold taylor. cbn [sum_f_R0 pow fact]. cbn [INR Nat.mul Nat.add]. unfold Rdiv. rewrite Rinv_1, !Rmult_1_r.
    assert (g 0%nat b - g 0%nat a <= M * b - M * a); [|lra]. apply K; auto.
    intros t Ht. eapply deriv_val; [apply derivable_pt_lim_scal, derivable_pt_lim_id|ring].
  - pose proof (compare (fun t => g 0%nat t - taylor g (S n) a t) (fun t => g 1%nat t - taylor (fun k => g (S k)) n a t)
      (fun t => M * (t - a) ^ S (S n) / INR (fact (S (S n)))) (fun t => M * (t - a) ^ S n / INR (fact (S n))) a b Hab) as K.
    cbn beta in K. rewrite taylor_at in K.
    assert (E : M * (a - a) ^ S (S n) / INR (fact (S (S n))) = 0).
    { rewrite (Rminus_diag_eq a a) by reflexivity. rewrite pow_ne_zero by discriminate. unfold Rdiv. ring. }
    rewrite E in K. assert (g 0%nat b - taylor g (S n) a b - (g 0%nat a - g 0%nat a) <= M * (b - a) ^ S (S n) / INR (fact (S (S n))) - 0); [|lra].
    apply K.
    + intros t Ht. apply (derivable_pt_lim_minus (g 0%nat) (taylor g (S n) a)); [apply D; [lia|assumption]|apply deriv_taylor].
    + intros t Ht. apply deriv_power.
    + intros t Ht. apply (IH (fun k => g (S k)) a t M); [lra| |].
      * intros k s Hk Hs. apply D; [lia|lra].
      * intros s Hs. apply N. lra.
Qed.

(** The exponential function is above its Taylor polynomials. *)
Lemma exp_above n x : 0 <= x -> sum_f_R0 (fun k => x ^ k / INR (fact k)) n <= exp x.
Proof.
  intros Hx. revert x Hx. induction n as [|n IH]; intros x Hx.
  - cbn. pose proof (exp_ineq1_le x). lra.
  - pose proof (compare (taylor (fun _ => fct_cte 1) (S n) 0) (taylor (fun _ => fct_cte 1) n 0) exp exp 0 x Hx) as K.
    assert (E : forall m y, taylor (fun _ => fct_cte 1) m 0 y = sum_f_R0 (fun k => y ^ k / INR (fact k)) m).
    { intros m y. unfold taylor. apply sum_eq. intros i _. unfold fct_cte. now rewrite Rminus_0_r, Rmult_1_l. }
    rewrite taylor_at in K. unfold fct_cte at 2 in K. rewrite exp_0, E in K.
    assert (sum_f_R0 (fun k => x ^ k / INR (fact k)) (S n) - 1 <= exp x - 1); [|lra]. apply K.
    + intros t Ht. apply (deriv_taylor (fun _ => fct_cte 1)).
    + intros t Ht. apply derivable_pt_lim_exp.
    + intros t Ht. rewrite E. apply IH. lra.
Qed.
