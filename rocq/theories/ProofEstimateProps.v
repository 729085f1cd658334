(** * The probability map as an estimate: statements *)
From Coq Require Import Reals Lra Lia.
From Verif Require Import Py Num NumXR ModelField ModelAquifer ModelTrace ModelDist ModelDriver ModelMain.
From Verif Require Import SpecTrace SpecDriver SpecDist SpecMain ProofWhole ProofDraws ProofExactMap ProofMonteCarlo ProofEstimate.
From Verif Require Import SpecField SpecWhole SpecDraws SpecExactMap SpecMonteCarlo.
Import ListNotations.
Local Open Scope R_scope.

Section Estimate.
  Context {E : Type} (mvn : E -> list xr -> list (list xr) -> list xr) (fuel : nat) (la : linalg xr) (a : args xr) (c : call) (kept : list (obs xr)) (e0 : E).
  Context (w : swell xr) (x y sp u : R) (i0 j0 : Z) (us : list R) (es : list E) (est : list (list R * E) -> R).
  Let n := Z.to_nat (k_n c).
  Let t : point := (x, y).
  Let p : point := (x + IZR i0 * sp, y + IZR j0 * sp).
  Let os := outcomes a c us es.
  Let ev (P : list (list point) -> Prop) := zone_with mvn fuel la a c kept w P.
  Hypothesis Hs : set_out c w x y sp u.
  Hypothesis Hn : (0 < k_n c)%Z.
  Hypothesis Hus : us <> [].
  Hypothesis Hes : es <> [].
  Hypothesis Hest : forall o, In o (tuples os n) -> exists s logs, run_with mvn fuel la a c kept e0 o = Ok (s, logs) /\ estimates s n (fst p) (snd p) (est o).

  Lemma os_nonempty : os <> [].
  Proof.
    unfold os, outcomes. pose proof (tuples_nonempty us Hus (drawn_numbers a c)) as T. destruct (tuples us (drawn_numbers a c)) as [|b bs]; [congruence|].
    destruct es as [|e es']; [congruence|]. discriminate.
  Qed.
  Lemma n_pos : (0 < n)%nat.
  Proof. unfold n. lia. Qed.
  Lemma nR_pos : 0 < INR n.
  Proof. apply lt_0_INR, n_pos. Qed.

  Lemma at_location fo fi fc o : (forall o, fo o = true <-> ev (reaches u p) o) -> (forall o, fi o = true <-> ev (counted_first u sp t p) o) ->
    (forall o, fc o = true <-> ev (covers sp t p) o) -> In o (tuples os n) ->
    successes fi o / INR n <= est o <= successes fo o / INR n /\ late fo fc false o / INR n <= est o.
  Proof.
    intros Ho Hi Hc Io. destruct (Hest o Io) as (s & logs & Run & v & Wv & ->). destruct (in_tuples os n o Io) as [L M].
    assert (Fl : Forall (fun o => length (fst o) = drawn_numbers a c) o).
    { apply Forall_forall. intros b Ib. apply M in Ib. unfold os, outcomes in Ib. destruct b as [b e]. apply in_prod_iff in Ib. destruct Ib as [Ib _].
      apply (in_tuples us _ b Ib). }
    destruct (location mvn fuel la a c kept e0 w x y sp u i0 j0 fo fi fc Ho Hi Hc o s logs v Hs L Fl Run Wv) as [[L1 L2] L3].
    pose proof (Rinv_0_lt_compat _ nR_pos). unfold Rdiv. repeat split; apply Rmult_le_compat_r; lra.
  Qed.

  Lemma unbiased p_in p_out : share os (ev (counted_first u sp t p)) p_in -> share os (ev (reaches u p)) p_out ->
    p_in <= mean (tuples os n) est <= p_out.
  Proof.
    intros Si So. destruct (decider (ev (reaches u p))) as (fo & Ho). destruct (decider (ev (counted_first u sp t p))) as (fi & Hi). destruct (decider (ev (covers sp t p))) as (fc & Hc).
    rewrite (share_mean os fo _ _ (fun o _ => Ho o) So), (share_mean os fi _ _ (fun o _ => Hi o) Si).
    rewrite <- (mean_successes os fi n os_nonempty n_pos), <- (mean_successes os fo n os_nonempty n_pos).
    split; (apply mean_le; [apply tuples_nonempty, os_nonempty|]; intros o Io; apply (at_location fo fi fc o Ho Hi Hc Io)).
  Qed.

  Lemma nearly_unbiased p_out p_cov : share os (ev (reaches u p)) p_out -> share os (ev (covers sp t p)) p_cov -> 0 < p_cov ->
    p_out - 1 / (INR n * p_cov) <= mean (tuples os n) est.
  Proof.
    intros So Sc Hc0. destruct (decider (ev (reaches u p))) as (fo & Ho). destruct (decider (ev (counted_first u sp t p))) as (fi & Hi). destruct (decider (ev (covers sp t p))) as (fc & Hc).
    pose proof (share_mean os fo _ _ (fun o _ => Ho o) So) as Eo. pose proof (share_mean os fc _ _ (fun o _ => Hc o) Sc) as Ec.
    pose proof (mean_late os fo fc n p_out p_cov os_nonempty Eo Ec Hc0) as L. pose proof nR_pos as N.
    apply Rle_trans with (mean (tuples os n) (fun o => / INR n * late fo fc false o)).
    - rewrite mean_scale. apply (Rmult_le_compat_l (/ INR n)) in L; [|left; apply Rinv_0_lt_compat; exact N].
      replace (/ INR n * (INR n * p_out - 1 / p_cov)) with (p_out - 1 / (INR n * p_cov)) in L by (field; lra). exact L.
    - apply mean_le; [apply tuples_nonempty, os_nonempty|]. intros o Io. rewrite Rmult_comm. apply (at_location fo fi fc o Ho Hi Hc Io).
  Qed.

  Lemma seldom_above p_out e q : 0 < e -> share os (ev (reaches u p)) p_out -> share (tuples os n) (fun o => p_out + e < est o) q ->
    q <= 1 / (4 * INR n * (e * e)).
  Proof.
    intros He So Sq. destruct (decider (ev (reaches u p))) as (fo & Ho). destruct (decider (ev (counted_first u sp t p))) as (fi & Hi). destruct (decider (ev (covers sp t p))) as (fc & Hc).
    apply (above os fo n est p_out e q os_nonempty n_pos He (share_mean os fo _ _ (fun o _ => Ho o) So)); [|exact Sq].
    intros o Io. apply (at_location fo fi fc o Ho Hi Hc Io).
  Qed.
  Lemma seldom_below p_in e q : 0 < e -> share os (ev (counted_first u sp t p)) p_in -> share (tuples os n) (fun o => est o < p_in - e) q ->
    q <= 1 / (4 * INR n * (e * e)).
  Proof.
    intros He So Sq. destruct (decider (ev (reaches u p))) as (fo & Ho). destruct (decider (ev (counted_first u sp t p))) as (fi & Hi). destruct (decider (ev (covers sp t p))) as (fc & Hc).
    apply (below os fi n est p_in e q os_nonempty n_pos He (share_mean os fi _ _ (fun o _ => Hi o) So)); [|exact Sq].
    intros o Io. apply (at_location fo fi fc o Ho Hi Hc Io).
  Qed.

  (** Few outcomes come late. *)
  Lemma seldom_late fo fc p_out p_cov e q : 0 < e -> p_out = mean os (fun o => ind (fo o)) -> p_cov = mean os (fun o => ind (fc o)) -> 0 < p_cov ->
    share (tuples os n) (fun o => INR n * e < successes fo o - late fo fc false o) q -> q <= 1 / (INR n * e * p_cov).
  Proof.
    intros He Eo Ec Hc0 Sq. pose proof nR_pos as N. assert (Q : 0 < INR n * e) by (apply Rmult_lt_0_compat; assumption).
    pose proof (markov (tuples os n) (fun o => successes fo o + -1 * late fo fc false o) (fun o => INR n * e < successes fo o - late fo fc false o) q (INR n * e) (tuples_nonempty os os_nonempty n) Q) as M.
    assert (K : q * (INR n * e) <= 1 / p_cov).
    { eapply Rle_trans.
      - apply M; [| |exact Sq].
        + intros o _. pose proof (late_le fo fc o false). lra.
        + intros o _ H. lra.
      - rewrite mean_plus, mean_scale. unfold successes. rewrite (mean_sum os os_nonempty n), <- Eo. pose proof (mean_late os fo fc n p_out p_cov os_nonempty Eo Ec Hc0). lra. }
    assert (P : 0 < INR n * e * p_cov) by (apply Rmult_lt_0_compat; assumption).
    apply (Rmult_le_reg_r (INR n * e)); [exact Q|]. replace (1 / (INR n * e * p_cov) * (INR n * e)) with (1 / p_cov) by (field; lra). exact K.
  Qed.

  Lemma share_le {A} (l : list A) (P Q1 Q2 : A -> Prop) q q1 q2 : l <> [] -> (forall z, In z l -> P z -> Q1 z \/ Q2 z) -> share l P q -> share l Q1 q1 -> share l Q2 q2 -> q <= q1 + q2.
  Proof.
    intros H Im S0 S1 S2. destruct (decider P) as (f & Hf). destruct (decider Q1) as (f1 & Hf1). destruct (decider Q2) as (f2 & Hf2).
    rewrite (share_mean l f P q (fun z _ => Hf z) S0), (share_mean l f1 Q1 q1 (fun z _ => Hf1 z) S1), (share_mean l f2 Q2 q2 (fun z _ => Hf2 z) S2), <- mean_plus.
    apply mean_le; [exact H|]. intros z Iz. unfold ind. destruct (f z) eqn:Ef; [|destruct (f1 z), (f2 z); lra].
    destruct (Im z Iz (proj1 (Hf z) Ef)) as [Y|Y]; [rewrite (proj2 (Hf1 z) Y); destruct (f2 z); lra|rewrite (proj2 (Hf2 z) Y); destruct (f1 z); lra].
  Qed.
  Lemma share_not {A} (l : list A) (P : A -> Prop) q q' : l <> [] -> share l P q -> share l (fun z => ~ P z) q' -> q = 1 - q'.
  Proof.
    intros H S0 S1. destruct (decider P) as (f & Hf).
    rewrite (share_mean l f P q (fun z _ => Hf z) S0), (share_mean l (fun z => negb (f z)) (fun z => ~ P z) q'); [|intros z _; rewrite <- Hf; destruct (f z); cbn; split; [discriminate|congruence|congruence|reflexivity]|exact S1].
    rewrite <- (mean_const l 1 H). assert (Eq : mean l (fun _ => 1) = mean l (fun x => ind (f x)) + mean l (fun x => ind (negb (f x)))); [|lra].
    rewrite <- mean_plus. apply mean_eq. intros z _. unfold ind. destruct (f z); cbn; lra.
  Qed.

  Lemma converges p_out p_cov e q : 0 < e -> share os (ev (reaches u p)) p_out -> share os (ev (covers sp t p)) p_cov -> 0 < p_cov ->
    share (tuples os n) (fun o => p_out - e <= est o <= p_out + e) q ->
    1 - (5 / (4 * INR n * (e * e)) + 2 / (INR n * e * p_cov)) <= q.
  Proof.
    intros He So Sc Hc0 Sq. destruct (decider (ev (reaches u p))) as (fo & Ho). destruct (decider (ev (counted_first u sp t p))) as (fi & Hi). destruct (decider (ev (covers sp t p))) as (fc & Hc).
    pose proof (share_mean os fo _ _ (fun o _ => Ho o) So) as Eo. pose proof (share_mean os fc _ _ (fun o _ => Hc o) Sc) as Ec. pose proof nR_pos as N.
    pose proof (tuples_nonempty os os_nonempty n) as Tn.
    destruct (share_exists (tuples os n) (fun o => ~ (p_out - e <= est o <= p_out + e))) as (q0 & S0).
    destruct (share_exists (tuples os n) (fun o => p_out + e < est o)) as (q1 & S1).
    destruct (share_exists (tuples os n) (fun o => est o < p_out - e)) as (q2 & S2).
    destruct (share_exists (tuples os n) (fun o => successes fo o / INR n < p_out - e / 2)) as (q3 & S3).
    destruct (share_exists (tuples os n) (fun o => INR n * (e / 2) < successes fo o - late fo fc false o)) as (q4 & S4).
    rewrite (share_not _ _ _ _ Tn Sq S0).
    assert (H0 : q0 <= q1 + q2). { eapply share_le; [exact Tn| |exact S0|exact S1|exact S2]. intros o _ H. cbv beta in *. destruct (Rlt_dec (p_out + e) (est o)); [left; assumption|right; lra]. }
    assert (H2 : q2 <= q3 + q4).
    { eapply share_le; [exact Tn| |exact S2|exact S3|exact S4]. intros o Io H. cbv beta in *. destruct (at_location fo fi fc o Ho Hi Hc Io) as [_ L].
      destruct (Rlt_dec (successes fo o / INR n) (p_out - e / 2)) as [|G]; [left; assumption|right].
      assert (G1 : e / 2 < successes fo o / INR n - late fo fc false o / INR n) by lra.
      apply (Rmult_lt_compat_l (INR n)) in G1; [|exact N]. replace (INR n * (successes fo o / INR n - late fo fc false o / INR n)) with (successes fo o - late fo fc false o) in G1 by (field; lra). exact G1. }
    pose proof (seldom_above p_out e q1 He So S1) as B1.
    pose proof (below os fo n (fun o => successes fo o / INR n) p_out (e / 2) q3 os_nonempty n_pos ltac:(lra) Eo (fun o _ => Rle_refl _) S3) as B3.
    pose proof (seldom_late fo fc p_out p_cov (e / 2) q4 ltac:(lra) Eo Ec Hc0 S4) as B4.
    assert (F3 : 1 / (4 * INR n * (e / 2 * (e / 2))) = 4 * (1 / (4 * INR n * (e * e)))) by (field; lra).
    assert (F4 : 1 / (INR n * (e / 2) * p_cov) = 2 / (INR n * e * p_cov)) by (field; lra).
    assert (F5 : 5 / (4 * INR n * (e * e)) = 5 * (1 / (4 * INR n * (e * e)))) by (field; lra). lra.
  Qed.
End Estimate.

Lemma Forall2_impl' {A B} (P Q : A -> B -> Prop) l l' : (forall a b, P a b -> Q a b) -> Forall2 P l l' -> Forall2 Q l l'.
Proof. intros H. induction 1; constructor; auto. Qed.

(** C113.  The mean of the estimate, over all that can be drawn, is at least the probability that the zone of a realization is counted even when
    it is the first, and at most the probability that it reaches the location. *)
Lemma c113_unbiased : forall (E : Type) (mvn : E -> list xr -> list (list xr) -> list xr) (fuel : nat) (la : linalg xr) (a : args xr) (c : call) (kept : list (obs xr)) (e0 : E)
    w x y sp u (i j : Z) (us : list R) (es : list E) (est : list (list R * E) -> R) p_in p_out,
  set_out c w x y sp u -> (0 < k_n c)%Z -> us <> [] -> es <> [] ->
  let n := Z.to_nat (k_n c) in let t := (x, y) in let p := (x + IZR i * sp, y + IZR j * sp) in
  let os := outcomes a c us es in let share_with := fun P => share os (zone_with mvn fuel la a c kept w P) in
  estimator mvn fuel la a c kept e0 os n p est ->
  share_with (counted_first u sp t p) p_in -> share_with (reaches u p) p_out ->
  p_in <= mean (tuples os n) est <= p_out.
Proof. intros E mvn fuel la a c kept e0 w x y sp u i j us es est p_in p_out Hs Hn Hu He n t p os sw Hest. apply (unbiased mvn fuel la a c kept e0 w x y sp u i j us es est Hs Hn Hu He Hest). Qed.

(** C113.  The bias is at most one over the number of realizations that can be expected to cover the location. *)
Lemma c113_bias : forall (E : Type) (mvn : E -> list xr -> list (list xr) -> list xr) (fuel : nat) (la : linalg xr) (a : args xr) (c : call) (kept : list (obs xr)) (e0 : E)
    w x y sp u (i j : Z) (us : list R) (es : list E) (est : list (list R * E) -> R) p_out p_cov,
  set_out c w x y sp u -> (0 < k_n c)%Z -> us <> [] -> es <> [] ->
  let n := Z.to_nat (k_n c) in let t := (x, y) in let p := (x + IZR i * sp, y + IZR j * sp) in
  let os := outcomes a c us es in let share_with := fun P => share os (zone_with mvn fuel la a c kept w P) in
  estimator mvn fuel la a c kept e0 os n p est ->
  share_with (reaches u p) p_out -> share_with (covers sp t p) p_cov -> 0 < p_cov ->
  p_out - 1 / (INR n * p_cov) <= mean (tuples os n) est.
Proof. intros E mvn fuel la a c kept e0 w x y sp u i j us es est p_out p_cov Hs Hn Hu He n t p os sw Hest. apply (nearly_unbiased mvn fuel la a c kept e0 w x y sp u i j us es est Hs Hn Hu He Hest). Qed.

(** C113.  There is no bias at the nine points of the lattice around the well. *)
Lemma c113_centre : forall (E : Type) (mvn : E -> list xr -> list (list xr) -> list xr) (fuel : nat) (la : linalg xr) (a : args xr) (c : call) (kept : list (obs xr)) (e0 : E)
    w x y sp u (i j : Z) (us : list R) (es : list E) (est : list (list R * E) -> R) p_out,
  set_out c w x y sp u -> (0 < k_n c)%Z -> us <> [] -> es <> [] ->
  let n := Z.to_nat (k_n c) in let t := (x, y) in let p := (x + IZR i * sp, y + IZR j * sp) in
  let os := outcomes a c us es in let share_with := fun P => share os (zone_with mvn fuel la a c kept w P) in
  estimator mvn fuel la a c kept e0 os n p est ->
  (-1 <= i <= 1)%Z -> (-1 <= j <= 1)%Z -> share_with (reaches u p) p_out ->
  mean (tuples os n) est = p_out.
Proof.
  intros E mvn fuel la a c kept e0 w x y sp u i j us es est p_out Hs Hn Hu He n t p os sw Hest Hi Hj So.
  assert (Hsp : 0 < sp) by apply Hs.
  assert (Cv : forall l, covered sp ((x, y) :: l) p).
  { intros l. exists (x, y), (x, y), (x, y), (x, y). cbn. do 4 (split; [auto|]).
    assert (B : forall k, (-1 <= k <= 1)%Z -> - sp <= IZR k * sp <= sp).
    { intros k [K1 K2]. apply IZR_le in K1, K2. split; [replace (- sp) with (-1 * sp) by ring|replace sp with (1 * sp) at 2 by ring]; apply Rmult_le_compat_r; lra. }
    pose proof (B i Hi). pose proof (B j Hj). lra. }
  assert (Eq : forall z, reaches u p z <-> counted_first u sp t p z).
  { intros z. unfold reaches, counted_first, taken. split.
    - intros (tr & It & Nr). split; [intros _|reflexivity]. apply in_split in It. destruct It as (pre & post & ->). exists pre, tr, post. split; [reflexivity|]. split; [exact Nr|]. apply Cv.
    - intros C. destruct (proj1 C eq_refl) as (pre & tr & post & -> & Nr & _). exists tr. split; [|exact Nr]. apply in_app_iff. right. left. reflexivity. }
  assert (Si : sw (counted_first u sp t p) p_out).
  { destruct So as (bs & F & ->). exists bs. split; [|reflexivity]. revert F. apply Forall2_impl'. intros o b H. rewrite H. unfold zone_with.
    split; intros (z & Z1 & Z2); exists z; (split; [exact Z1|apply Eq; exact Z2]). }
  pose proof (unbiased mvn fuel la a c kept e0 w x y sp u i j us es est Hs Hn Hu He Hest p_out p_out Si So). unfold os, n. lra.
Qed.

(** C114.  The estimate is seldom more than [e] above the probability that the zone of a realization reaches the location. *)
Lemma c114_above : forall (E : Type) (mvn : E -> list xr -> list (list xr) -> list xr) (fuel : nat) (la : linalg xr) (a : args xr) (c : call) (kept : list (obs xr)) (e0 : E)
    w x y sp u (i j : Z) (us : list R) (es : list E) (est : list (list R * E) -> R) p_out e q,
  set_out c w x y sp u -> (0 < k_n c)%Z -> us <> [] -> es <> [] ->
  let n := Z.to_nat (k_n c) in let t := (x, y) in let p := (x + IZR i * sp, y + IZR j * sp) in
  let os := outcomes a c us es in let share_with := fun P => share os (zone_with mvn fuel la a c kept w P) in
  estimator mvn fuel la a c kept e0 os n p est ->
  share_with (reaches u p) p_out -> 0 < e -> share (tuples os n) (fun o => p_out + e < est o) q ->
  q <= 1 / (4 * INR n * (e * e)).
Proof. intros E mvn fuel la a c kept e0 w x y sp u i j us es est p_out e q Hs Hn Hu He n t p os sw Hest So He0. apply (seldom_above mvn fuel la a c kept e0 w x y sp u i j us es est Hs Hn Hu He Hest p_out e q He0 So). Qed.

(** C114.  It is seldom more than [e] below the probability that the zone of a realization is counted even when it is the first. *)
Lemma c114_below : forall (E : Type) (mvn : E -> list xr -> list (list xr) -> list xr) (fuel : nat) (la : linalg xr) (a : args xr) (c : call) (kept : list (obs xr)) (e0 : E)
    w x y sp u (i j : Z) (us : list R) (es : list E) (est : list (list R * E) -> R) p_in e q,
  set_out c w x y sp u -> (0 < k_n c)%Z -> us <> [] -> es <> [] ->
  let n := Z.to_nat (k_n c) in let t := (x, y) in let p := (x + IZR i * sp, y + IZR j * sp) in
  let os := outcomes a c us es in let share_with := fun P => share os (zone_with mvn fuel la a c kept w P) in
  estimator mvn fuel la a c kept e0 os n p est ->
  share_with (counted_first u sp t p) p_in -> 0 < e -> share (tuples os n) (fun o => est o < p_in - e) q ->
  q <= 1 / (4 * INR n * (e * e)).
Proof. intros E mvn fuel la a c kept e0 w x y sp u i j us es est p_in e q Hs Hn Hu He n t p os sw Hest So He0. apply (seldom_below mvn fuel la a c kept e0 w x y sp u i j us es est Hs Hn Hu He Hest p_in e q He0 So). Qed.

(** C114.  Convergence: the runs whose estimate is within [e] of the probability that the zone of a realization reaches the location are all but a share
    that goes to 0 like one over the number of realizations. *)
Lemma c114_converges : forall (E : Type) (mvn : E -> list xr -> list (list xr) -> list xr) (fuel : nat) (la : linalg xr) (a : args xr) (c : call) (kept : list (obs xr)) (e0 : E)
    w x y sp u (i j : Z) (us : list R) (es : list E) (est : list (list R * E) -> R) p_out p_cov e q,
  set_out c w x y sp u -> (0 < k_n c)%Z -> us <> [] -> es <> [] ->
  let n := Z.to_nat (k_n c) in let t := (x, y) in let p := (x + IZR i * sp, y + IZR j * sp) in
  let os := outcomes a c us es in let share_with := fun P => share os (zone_with mvn fuel la a c kept w P) in
  estimator mvn fuel la a c kept e0 os n p est ->
  share_with (reaches u p) p_out -> share_with (covers sp t p) p_cov -> 0 < p_cov ->
  0 < e -> share (tuples os n) (fun o => p_out - e <= est o <= p_out + e) q ->
  1 - (5 / (4 * INR n * (e * e)) + 2 / (INR n * e * p_cov)) <= q.
Proof. intros E mvn fuel la a c kept e0 w x y sp u i j us es est p_out p_cov e q Hs Hn Hu He n t p os sw Hest So Sc Hc He0. apply (converges mvn fuel la a c kept e0 w x y sp u i j us es est Hs Hn Hu He Hest p_out p_cov e q He0 So Sc Hc). Qed.
