(** * Least squares by the normal equations, over the reals *)
From Coq Require Import Reals Lra Lia Psatz List.
From Verif Require Import SpecAquifer ProofAquifer LinAlg.
Import ListNotations.
Local Open Scope R_scope.

(** An equation: coefficients and right-hand side. *)
Definition eqn : Type := (nat -> R) * R.

Definition rssv (n : nat) (es : list eqn) (c : nat -> R) : R :=
  Rsum (fun e => (dotv n (fst e) c - snd e) * (dotv n (fst e) c - snd e)) es.
Definition gramv (es : list eqn) (i j : nat) : R := Rsum (fun e => fst e i * fst e j) es.
Definition rhsv (es : list eqn) (i : nat) : R := Rsum (fun e => fst e i * snd e) es.

Lemma vsum_Rsum {A} n (f : nat -> A -> R) l : vsum n (fun i => Rsum (f i) l) = Rsum (fun a => vsum n (fun i => f i a)) l.
Proof.
  induction l as [|a l IH].
  - cbn. apply vsum_0.
  - unfold Rsum in *. cbn [fold_right]. rewrite <- IH, <- vsum_plus. reflexivity.
Qed.

Lemma Rsum_scal_r {A} k (f : A -> R) l : Rsum (fun a => f a * k) l = Rsum f l * k.
Proof. rewrite Rmult_comm, <- Rsum_scal. apply Rsum_ext. intros. ring. Qed.

Lemma gramv_mv n es c i : mv n (gramv es) c i = Rsum (fun e => fst e i * dotv n (fst e) c) es.
Proof.
  unfold mv, gramv, dotv.
  rewrite (vsum_ext n _ (fun j => Rsum (fun e => fst e i * fst e j * c j) es)) by (intros; now rewrite Rsum_scal_r).
  rewrite vsum_Rsum. apply Rsum_ext. intros e _. rewrite <- vsum_scal. apply vsum_ext. intros. ring.
Qed.

Lemma dotv_Rsum {A} n (f : nat -> A -> R) l d : dotv n d (fun i => Rsum (f i) l) = Rsum (fun a => dotv n d (fun i => f i a)) l.
Proof.
  unfold dotv. rewrite (vsum_ext n _ (fun i => Rsum (fun a => d i * f i a) l)) by (intros; now rewrite Rsum_scal).
  apply vsum_Rsum.
Qed.

Lemma dotv_comm n x y : dotv n x y = dotv n y x.
Proof. apply vsum_ext. intros. ring. Qed.
Lemma dotv_plus n x y z : dotv n x (fun i => y i + z i) = dotv n x y + dotv n x z.
Proof. unfold dotv. rewrite <- vsum_plus. apply vsum_ext. intros. ring. Qed.
Lemma dotv_scal n x k y : dotv n x (fun i => k * y i) = k * dotv n x y.
Proof. unfold dotv. rewrite <- vsum_scal. apply vsum_ext. intros. ring. Qed.
Lemma dotv_ext n x y x' y' : (forall i, (i < n)%nat -> x i = x' i) -> (forall i, (i < n)%nat -> y i = y' i) -> dotv n x y = dotv n x' y'.
Proof. intros H H'. apply vsum_ext. intros i Hi. now rewrite H, H'. Qed.

Lemma gramv_qform n es d : qform n (gramv es) d = Rsum (fun e => dotv n (fst e) d * dotv n (fst e) d) es.
Proof.
  unfold qform. rewrite (dotv_ext n d (mv n (gramv es) d) d (fun i => Rsum (fun e => fst e i * dotv n (fst e) d) es)) by (intros; auto using gramv_mv).
  rewrite dotv_Rsum. apply Rsum_ext. intros e _.
  rewrite (dotv_ext n d _ d (fun i => dotv n (fst e) d * fst e i)) by (intros; ring). rewrite dotv_scal, (dotv_comm n d). ring.
Qed.

Lemma Rsum_nonneg {A} (f : A -> R) l : (forall a, In a l -> 0 <= f a) -> 0 <= Rsum f l.
Proof.
  induction l as [|a l IH]; unfold Rsum in *; cbn [fold_right]; intros H; [lra|].
  pose proof (H a (or_introl eq_refl)). pose proof (IH (fun b Hb => H b (or_intror Hb))). lra.
Qed.
Lemma Rsum_zero {A} (f : A -> R) l : (forall a, In a l -> 0 <= f a) -> Rsum f l = 0 -> forall a, In a l -> f a = 0.
Proof.
  induction l as [|a l IH]; [easy|]. intros H Z. unfold Rsum in *. cbn [fold_right] in Z.
  pose proof (H a (or_introl eq_refl)). pose proof (Rsum_nonneg f l (fun b Hb => H b (or_intror Hb))) as N. unfold Rsum in N.
  intros b [<-|Hb]; [lra|]. apply IH; auto; [intros; apply H; now right|lra].
Qed.

Lemma gramv_sym n es : symmetric n (gramv es).
Proof. intros i j _ _. unfold gramv. apply Rsum_ext. intros. ring. Qed.
Lemma gramv_psd n es : psd n (gramv es).
Proof. intros x. rewrite gramv_qform. apply Rsum_nonneg. intros. apply Rle_0_sqr. Qed.

(** The Gram matrix is singular iff the equations do not determine the unknowns. *)
Lemma gramv_singular n es : singular n (gramv es) <-> exists d, nonzero n d /\ forall e, In e es -> dotv n (fst e) d = 0.
Proof.
  split; intros (d & Hd & H); exists d; (split; [exact Hd|]).
  - assert (Z : qform n (gramv es) d = 0).
    { unfold qform, dotv. rewrite (vsum_ext n _ (fun _ => 0)); [apply vsum_0|]. intros i Hi. rewrite H by exact Hi. ring. }
    rewrite gramv_qform in Z. intros e He. apply (Rsum_zero _ es) with (a := e) in Z; [|intros; apply Rle_0_sqr|exact He].
    apply Rsqr_0_uniq. exact Z.
  - intros i Hi. rewrite gramv_mv. rewrite (Rsum_ext _ (fun _ => 0)).
    + clear. induction es as [|e es IH]; unfold Rsum in *; cbn [fold_right]; [reflexivity|]. rewrite IH. ring.
    + intros e He. rewrite H by exact He. ring.
Qed.

Lemma rss_shift n es c d :
  rssv n es (fun i => c i + d i)
  = rssv n es c + 2 * dotv n d (fun i => mv n (gramv es) c i - rhsv es i) + qform n (gramv es) d.
Proof.
  assert (E : dotv n d (fun i => mv n (gramv es) c i - rhsv es i)
              = Rsum (fun e => dotv n (fst e) d * (dotv n (fst e) c - snd e)) es).
  { rewrite (dotv_ext n d _ d (fun i => Rsum (fun e => (dotv n (fst e) c - snd e) * fst e i) es)); [|auto|].
    - rewrite dotv_Rsum. apply Rsum_ext. intros e _. rewrite dotv_scal, (dotv_comm n d). ring.
    - intros i Hi. rewrite gramv_mv. unfold rhsv.
      rewrite (Rsum_ext (fun e => (dotv n (fst e) c - snd e) * fst e i) (fun e => fst e i * dotv n (fst e) c + -1 * (fst e i * snd e))) by (intros; ring).
      rewrite Rsum_plus, Rsum_scal. ring. }
  rewrite E, gramv_qform, <- Rsum_scal. unfold rssv. rewrite <- !Rsum_plus. apply Rsum_ext. intros e _.
  rewrite dotv_plus. ring.
Qed.

Definition normal_eqs (n : nat) (es : list eqn) (c : nat -> R) : Prop :=
  forall i, (i < n)%nat -> mv n (gramv es) c i = rhsv es i.

Lemma rssv_ext n es c d : (forall i, (i < n)%nat -> c i = d i) -> rssv n es c = rssv n es d.
Proof. intros H. unfold rssv. apply Rsum_ext. intros e _. rewrite (dotv_ext n (fst e) c (fst e) d); auto. Qed.

Lemma normal_minimum n es c : normal_eqs n es c -> forall d,
  rssv n es d = rssv n es c + qform n (gramv es) (fun i => d i - c i).
Proof.
  intros H d. rewrite (rssv_ext n es d (fun i => c i + (d i - c i))) by (intros; ring). rewrite rss_shift.
  unfold dotv. rewrite (vsum_ext n (fun i => _ * (mv n (gramv es) c i - rhsv es i)) (fun _ => 0)).
  - rewrite vsum_0. ring.
  - intros i Hi. rewrite H by exact Hi. ring.
Qed.

Lemma minimum_normal n es c : (forall d, rssv n es c <= rssv n es d) -> normal_eqs n es c.
Proof.
  intros H. set (r := fun i => mv n (gramv es) c i - rhsv es i).
  assert (Z : dotv n r r = 0).
  { destruct (Rle_lt_or_eq_dec 0 (dotv n r r)) as [L|E]; [apply vsum_nonneg; intros; apply Rle_0_sqr| |auto].
    exfalso. set (q := qform n (gramv es) r). assert (Hq : 0 <= q) by apply gramv_psd. set (w := dotv n r r) in *.
    pose proof (H (fun i => c i + (- (w / (q + w))) * r i)) as Hm.
    rewrite rss_shift in Hm.
    assert (E1 : dotv n (fun i => - (w / (q + w)) * r i) (fun i => mv n (gramv es) c i - rhsv es i) = - (w / (q + w)) * w).
    { rewrite dotv_comm. fold r. now rewrite dotv_scal. }
    assert (E2 : qform n (gramv es) (fun i => - (w / (q + w)) * r i) = (w / (q + w)) * (w / (q + w)) * q).
    { unfold q. rewrite !gramv_qform, <- Rsum_scal. apply Rsum_ext. intros e _. rewrite dotv_scal. ring. }
    rewrite E1, E2 in Hm. 
    assert (P : 0 < w / (q + w)) by (apply Rdiv_lt_0_compat; lra).
    assert (B : w / (q + w) * q <= w).
    { apply Rmult_le_reg_r with (q + w); [lra|]. replace (w / (q + w) * q * (q + w)) with (w * q) by (field; lra). nra. }
    set (s := w / (q + w)) in *. assert (s * (s * q) <= s * w) by (apply Rmult_le_compat_l; lra). nra. }
  intros i Hi. apply (vsum_pos_or_0 n _ (fun i _ => Rle_0_sqr (r i))) with (i := i) in Z; [|exact Hi].
  apply Rsqr_0_uniq in Z. unfold r in Z. lra.
Qed.

(** Unique minimiser when the equations determine the unknowns. *)
Lemma minimum_unique n es c d : ~ singular n (gramv es) -> normal_eqs n es c -> rssv n es d <= rssv n es c ->
  forall i, (i < n)%nat -> d i = c i.
Proof.
  intros Hs Hc Hd i Hi. rewrite (normal_minimum n es c Hc d) in Hd.
  destruct (Req_dec (d i) (c i)) as [E|E]; [exact E|exfalso]. apply Hs. apply gramv_singular.
  exists (fun i => d i - c i). split; [exists i; split; [exact Hi|lra]|].
  pose proof (gramv_psd n es (fun i => d i - c i)) as P.
  assert (Z : qform n (gramv es) (fun i => d i - c i) = 0) by lra. rewrite gramv_qform in Z.
  intros e He. apply (Rsum_zero _ es) with (a := e) in Z; [|intros; apply Rle_0_sqr|exact He].
  apply Rsqr_0_uniq. exact Z.
Qed.
