(** * Small dense linear algebra over the reals

    Vectors are functions [nat -> R] looked at below a dimension; elimination without pivoting
    decides whether a symmetric positive semidefinite matrix is invertible. *)
From Coq Require Import Reals Lra Lia Psatz List.
Import ListNotations.
Local Open Scope R_scope.

Fixpoint vsum (n : nat) (f : nat -> R) : R :=
  match n with O => 0 | S k => f O + vsum k (fun i => f (S i)) end.

Lemma vsum_ext n : forall f g, (forall i, (i < n)%nat -> f i = g i) -> vsum n f = vsum n g.
Proof.
  induction n as [|n IH]; intros f g H; cbn; [reflexivity|]. rewrite H by lia. f_equal. apply IH. intros i Hi. apply H. lia.
Qed.
Lemma vsum_plus n : forall f g, vsum n (fun i => f i + g i) = vsum n f + vsum n g.
Proof. induction n as [|n IH]; intros f g; cbn; [ring|]. rewrite IH. ring. Qed.
Lemma vsum_scal n k : forall f, vsum n (fun i => k * f i) = k * vsum n f.
Proof. induction n as [|n IH]; intros f; cbn; [ring|]. rewrite IH. ring. Qed.
Lemma vsum_0 n : vsum n (fun _ => 0) = 0.
Proof. induction n as [|n IH]; cbn; [reflexivity|]. rewrite IH. ring. Qed.
Lemma vsum_swap n : forall m f, vsum n (fun i => vsum m (f i)) = vsum m (fun j => vsum n (fun i => f i j)).
Proof.
  induction n as [|n IH]; intros m f; cbn; [now rewrite vsum_0|]. rewrite (IH m (fun i => f (S i))), <- vsum_plus. reflexivity.
Qed.
Lemma vsum_nonneg n : forall f, (forall i, (i < n)%nat -> 0 <= f i) -> 0 <= vsum n f.
Proof.
  induction n as [|n IH]; intros f H; cbn; [lra|]. pose proof (H O ltac:(lia)).
  pose proof (IH (fun i => f (S i)) ltac:(intros; apply H; lia)). lra.
Qed.
Lemma vsum_delta n : forall k f, (k < n)%nat -> vsum n (fun i => if Nat.eqb i k then f i else 0) = f k.
Proof.
  induction n as [|n IH]; intros k f H; [lia|]. cbn. destruct k as [|k]; cbn.
  - rewrite vsum_0. ring.
  - rewrite (IH k (fun i => f (S i))) by lia. ring.
Qed.
Lemma vsum_pos_or_0 n : forall f, (forall i, (i < n)%nat -> 0 <= f i) -> vsum n f = 0 -> forall i, (i < n)%nat -> f i = 0.
Proof.
  induction n as [|n IH]; intros f H H0 i Hi; [lia|]. cbn in H0. pose proof (H O ltac:(lia)).
  pose proof (vsum_nonneg n (fun i => f (S i)) ltac:(intros; apply H; lia)).
  destruct i as [|i]; [lra|]. apply (IH (fun i => f (S i))); [intros; apply H; lia|lra|lia].
Qed.

(** Matrix times vector, bilinear form. *)
Definition mv (n : nat) (A : nat -> nat -> R) (x : nat -> R) (i : nat) : R := vsum n (fun j => A i j * x j).
Definition dotv (n : nat) (x y : nat -> R) : R := vsum n (fun i => x i * y i).
Definition qform (n : nat) (A : nat -> nat -> R) (x : nat -> R) : R := dotv n x (mv n A x).

Definition symmetric (n : nat) (A : nat -> nat -> R) : Prop :=
  forall i j, (i < n)%nat -> (j < n)%nat -> A i j = A j i.
Definition psd (n : nat) (A : nat -> nat -> R) : Prop := forall x, 0 <= qform n A x.
Definition nonzero (n : nat) (x : nat -> R) : Prop := exists i, (i < n)%nat /\ x i <> 0.
Definition singular (n : nat) (A : nat -> nat -> R) : Prop :=
  exists x, nonzero n x /\ forall i, (i < n)%nat -> mv n A x i = 0.

Lemma mv_ext n A x y i : (forall j, (j < n)%nat -> x j = y j) -> mv n A x i = mv n A y i.
Proof. intros H. apply vsum_ext. intros j Hj. now rewrite H. Qed.
Lemma mv_plus n A x y i : mv n A (fun j => x j + y j) i = mv n A x i + mv n A y i.
Proof. unfold mv. rewrite <- vsum_plus. apply vsum_ext. intros. ring. Qed.
Lemma mv_scal n A k x i : mv n A (fun j => k * x j) i = k * mv n A x i.
Proof. unfold mv. rewrite <- vsum_scal. apply vsum_ext. intros. ring. Qed.

Lemma dotv_sym n A x y : symmetric n A -> dotv n x (mv n A y) = dotv n y (mv n A x).
Proof.
  intros Hs. unfold dotv, mv.
  rewrite (vsum_ext n _ (fun i => vsum n (fun j => x i * A i j * y j))) by
    (intros i Hi; rewrite <- vsum_scal; apply vsum_ext; intros; ring).
  rewrite vsum_swap. apply vsum_ext. intros j Hj. rewrite <- vsum_scal. apply vsum_ext. intros i Hi.
  rewrite (Hs i j) by auto. ring.
Qed.

(** ** Elimination *)
Definition schur (A : nat -> nat -> R) (i j : nat) : R := A (S i) (S j) - A (S i) O * A O (S j) / A O O.
Definition cons_v (x0 : R) (y : nat -> R) (i : nat) : R := match i with O => x0 | S k => y k end.

Fixpoint solve (n : nat) (A : nat -> nat -> R) (b : nat -> R) : option (nat -> R) :=
  match n with
  | O => Some (fun _ => 0)
  | S k =>
      if Rlt_dec 0 (A O O) then
        match solve k (schur A) (fun i => b (S i) - A (S i) O * b O / A O O) with
        | Some y => Some (cons_v ((b O - vsum k (fun j => A O (S j) * y j)) / A O O) y)
        | None => None
        end
      else None
  end.

(** Whether elimination succeeds does not depend on the right-hand side. *)
Fixpoint pivots (n : nat) (A : nat -> nat -> R) : bool :=
  match n with O => true | S k => if Rlt_dec 0 (A O O) then pivots k (schur A) else false end.

Lemma solve_pivots n : forall A b, (exists x, solve n A b = Some x) <-> pivots n A = true.
Proof.
  induction n as [|n IH]; intros A b; cbn.
  - split; eauto.
  - destruct (Rlt_dec 0 (A O O)); [|split; [intros [x Hx]; discriminate|discriminate]].
    rewrite <- (IH (schur A) (fun i => b (S i) - A (S i) O * b O / A O O)).
    destruct (solve n _ _) as [y|]; split; intros [x Hx]; eauto; discriminate.
Qed.

(** A vector solves the system iff its tail solves the reduced one and its head follows. *)
Lemma elim_step n A b x0 y : A O O <> 0 ->
  (forall i, (i < S n)%nat -> mv (S n) A (cons_v x0 y) i = b i) <->
  x0 = (b O - vsum n (fun j => A O (S j) * y j)) / A O O /\
  (forall i, (i < n)%nat -> mv n (schur A) y i = b (S i) - A (S i) O * b O / A O O).
Proof.
  intros H0.
  assert (E : forall i, mv (S n) A (cons_v x0 y) i = A i O * x0 + vsum n (fun j => A i (S j) * y j)) by reflexivity.
  assert (F : forall i, mv n (schur A) y i = vsum n (fun j => A (S i) (S j) * y j)
                - A (S i) O / A O O * vsum n (fun j => A O (S j) * y j)).
  { intros i. unfold mv, schur. rewrite <- vsum_scal.
    rewrite (vsum_ext n _ (fun j => A (S i) (S j) * y j + -1 * (A (S i) O / A O O * (A O (S j) * y j)))).
    - rewrite vsum_plus, vsum_scal. ring.
    - intros j Hj. field. exact H0. }
  split.
  - intros H. pose proof (H O ltac:(lia)) as HO. rewrite E in HO.
    assert (X : x0 = (b O - vsum n (fun j => A O (S j) * y j)) / A O O).
    { rewrite <- HO. field. exact H0. }
    split; [exact X|]. intros i Hi. pose proof (H (S i) ltac:(lia)) as Hi'. rewrite E in Hi'. rewrite F, <- Hi'.
    rewrite <- HO. field. exact H0.
  - intros [X H] [|i] Hi; rewrite E.
    + rewrite X. field. exact H0.
    + specialize (H i ltac:(lia)). rewrite F in H. rewrite X.
      replace (b (S i)) with (b (S i) - A (S i) O * b O / A O O + A (S i) O * b O / A O O) by ring. rewrite <- H. field. exact H0.
Qed.

Lemma solve_correct n : forall A b x, solve n A b = Some x -> forall i, (i < n)%nat -> mv n A x i = b i.
Proof.
  induction n as [|n IH]; intros A b x H i Hi; [lia|]. cbn [solve] in H.
  destruct (Rlt_dec 0 (A O O)) as [P|]; [|discriminate].
  destruct (solve n _ _) as [y|] eqn:E; [|discriminate]. injection H as <-.
  pose proof (IH _ _ _ E) as HI. apply (elim_step n A b); auto. lra.
Qed.

Lemma solve_unique n : forall A b x y, pivots n A = true ->
  (forall i, (i < n)%nat -> mv n A x i = b i) -> (forall i, (i < n)%nat -> mv n A y i = b i) ->
  forall i, (i < n)%nat -> x i = y i.
Proof.
  induction n as [|n IH]; intros A b x y HP Hx Hy; [lia|]. cbn [pivots] in HP.
  destruct (Rlt_dec 0 (A O O)) as [P|]; [|discriminate].
  assert (E : forall z : nat -> R, forall i, z i = cons_v (z O) (fun k => z (S k)) i) by (intros z [|k]; reflexivity).
  assert (Hx' : forall i, (i < S n)%nat -> mv (S n) A (cons_v (x O) (fun k => x (S k))) i = b i).
  { intros i Hi. rewrite <- Hx by exact Hi. apply mv_ext. intros j Hj. symmetry. apply E. }
  assert (Hy' : forall i, (i < S n)%nat -> mv (S n) A (cons_v (y O) (fun k => y (S k))) i = b i).
  { intros i Hi. rewrite <- Hy by exact Hi. apply mv_ext. intros j Hj. symmetry. apply E. }
  apply elim_step in Hx'; [|lra]. apply elim_step in Hy'; [|lra]. destruct Hx' as [X1 X2], Hy' as [Y1 Y2].
  pose proof (IH _ _ _ _ HP X2 Y2) as HT. intros [|i] Hi.
  - rewrite X1, Y1. f_equal. f_equal. apply vsum_ext. intros j Hj. now rewrite HT.
  - apply HT. lia.
Qed.

Lemma pivots_nonsingular n A : pivots n A = true -> ~ singular n A.
Proof.
  intros HP (x & (i & Hi & Hx) & H). apply Hx.
  apply (solve_unique n A (fun _ => 0) x (fun _ => 0) HP); auto.
  intros j Hj. unfold mv. rewrite (vsum_ext n _ (fun _ => 0)); [apply vsum_0|]. intros. ring.
Qed.

(** ** Positive semidefinite matrices *)
Lemma qform_step n A x0 y : symmetric (S n) A -> A O O <> 0 ->
  qform (S n) A (cons_v x0 y)
  = A O O * ((x0 + vsum n (fun j => A O (S j) * y j) / A O O) * (x0 + vsum n (fun j => A O (S j) * y j) / A O O))
    + qform n (schur A) y.
Proof.
  intros Hs H0. unfold qform, dotv. cbn [vsum cons_v].
  set (a := vsum n (fun j => A O (S j) * y j)).
  assert (E : forall i, mv (S n) A (cons_v x0 y) i = A i O * x0 + vsum n (fun j => A i (S j) * y j)) by reflexivity.
  rewrite E. fold a.
  rewrite (vsum_ext n (fun i => y i * mv (S n) A (cons_v x0 y) (S i))
            (fun i => x0 * (A O (S i) * y i) + y i * vsum n (fun j => A (S i) (S j) * y j))).
  2:{ intros i Hi. rewrite E. rewrite (Hs (S i) O) by lia. ring. }
  rewrite vsum_plus, vsum_scal. fold a.
  rewrite (vsum_ext n (fun i => y i * mv n (schur A) y i)
            (fun i => y i * vsum n (fun j => A (S i) (S j) * y j) + (- a / A O O) * (A O (S i) * y i))).
  2:{ intros i Hi. unfold mv, schur. 
      rewrite (vsum_ext n (fun j => _) (fun j => A (S i) (S j) * y j + - (A (S i) O / A O O) * (A O (S j) * y j))) by (intros; field; auto).
      rewrite vsum_plus, vsum_scal. fold a. rewrite (Hs (S i) O) by lia. field. exact H0. }
  rewrite vsum_plus, vsum_scal. fold a. field. exact H0.
Qed.

Lemma schur_symmetric n A : symmetric (S n) A -> symmetric n (schur A).
Proof.
  intros Hs i j Hi Hj. unfold schur. rewrite (Hs (S i) (S j)), (Hs (S i) O), (Hs O (S j)) by lia. unfold Rdiv. ring.
Qed.

Lemma schur_psd n A : symmetric (S n) A -> 0 < A O O -> psd (S n) A -> psd n (schur A).
Proof.
  intros Hs H0 HP y. pose proof (HP (cons_v (- vsum n (fun j => A O (S j) * y j) / A O O) y)) as H.
  rewrite qform_step in H by (auto; lra).
  replace (- vsum n (fun j => A O (S j) * y j) / A O O + vsum n (fun j => A O (S j) * y j) / A O O) with 0 in H by (field; lra).
  rewrite !Rmult_0_r in H. lra.
Qed.

Lemma qform_2 n A i j a b : (i < n)%nat -> (j < n)%nat -> i <> j -> symmetric n A ->
  qform n A (fun k => if Nat.eqb k i then a else if Nat.eqb k j then b else 0)
  = a * a * A i i + 2 * a * b * A i j + b * b * A j j.
Proof.
  intros Hi Hj Hij Hs.
  set (x := fun k => if Nat.eqb k i then a else if Nat.eqb k j then b else 0).
  assert (V : forall f, vsum n (fun k => f k * x k) = f i * a + f j * b).
  { intros f. rewrite (vsum_ext n _ (fun k => (if Nat.eqb k i then f k * a else 0) + (if Nat.eqb k j then f k * b else 0))).
    - now rewrite vsum_plus, !vsum_delta.
    - intros k Hk. unfold x. destruct (Nat.eqb_spec k i), (Nat.eqb_spec k j); subst; try lia; ring. }
  unfold qform, dotv. rewrite (vsum_ext n _ (fun k => mv n A x k * x k)) by (intros; ring).
  rewrite V. unfold mv. rewrite !V. rewrite (Hs j i) by auto. ring.
Qed.

Lemma psd_pivot n A : symmetric n A -> psd n A -> (0 < n)%nat -> 0 <= A O O /\ (A O O = 0 -> forall j, (j < n)%nat -> A O j = 0).
Proof.
  intros Hs HP Hn.
  assert (H0 : 0 <= A O O).
  { pose proof (HP (fun k => if Nat.eqb k O then 1 else 0)) as H. unfold qform, dotv in H.
    rewrite (vsum_ext n _ (fun k => if Nat.eqb k O then mv n A (fun k => if Nat.eqb k O then 1 else 0) k else 0)) in H
      by (intros k Hk; destruct (Nat.eqb k O); ring).
    rewrite vsum_delta in H by exact Hn. unfold mv in H.
    rewrite (vsum_ext n _ (fun j => if Nat.eqb j O then A O j else 0)) in H by (intros k Hk; destruct (Nat.eqb k O); ring).
    now rewrite vsum_delta in H by exact Hn. }
  split; [exact H0|]. intros E j Hj. destruct (Nat.eq_dec j O) as [->|Hne]; [exact E|].
  destruct (Req_dec (A O j) 0) as [Z|Z]; [exact Z|exfalso].
  pose proof (HP (fun k => if Nat.eqb k O then - (A j j + 1) / A O j else if Nat.eqb k j then 1 else 0)) as H.
  rewrite qform_2 in H by auto. rewrite E in H.
  replace (2 * (- (A j j + 1) / A O j) * 1 * A O j) with (- 2 * (A j j + 1)) in H by (field; auto).
  assert (Hjj : 0 <= A j j).
  { pose proof (HP (fun k => if Nat.eqb k O then 0 else if Nat.eqb k j then 1 else 0)) as H1.
    rewrite qform_2 in H1 by auto. lra. }
  lra.
Qed.

(** Elimination fails only on singular matrices. *)
Lemma psd_pivots n : forall A, symmetric n A -> psd n A -> pivots n A = false -> singular n A.
Proof.
  induction n as [|n IH]; intros A Hs HP H; [discriminate|]. cbn [pivots] in H.
  destruct (psd_pivot (S n) A Hs HP ltac:(lia)) as [P0 PZ].
  destruct (Rlt_dec 0 (A O O)) as [P|P].
  - destruct (IH (schur A) (schur_symmetric n A Hs) (schur_psd n A Hs P HP) H) as (y & (i & Hi & Hy) & Hker).
    exists (cons_v ((0 - vsum n (fun j => A O (S j) * y j)) / A O O) y). split.
    + exists (S i). split; [lia|exact Hy].
    + apply (elim_step n A (fun _ => 0)); [lra|]. split; [reflexivity|]. intros k Hk. rewrite Hker by exact Hk. unfold Rdiv. ring.
  - assert (E : A O O = 0) by lra. specialize (PZ E).
    exists (fun k => if Nat.eqb k O then 1 else 0). split; [exists O; split; [lia|cbn; lra]|].
    intros i Hi. unfold mv. rewrite (vsum_ext (S n) _ (fun j => if Nat.eqb j O then A i j else 0)).
    + rewrite vsum_delta by lia. rewrite (Hs i O) by lia. now apply PZ.
    + intros k Hk. destruct (Nat.eqb k O); ring.
Qed.

Lemma psd_pivots_iff n A : symmetric n A -> psd n A -> (pivots n A = true <-> ~ singular n A).
Proof.
  intros Hs HP. split; [apply pivots_nonsingular|]. intros H. destruct (pivots n A) eqn:E; [reflexivity|].
  destruct H. now apply psd_pivots.
Qed.

(** ** Inverses *)
Definition idm (i j : nat) : R := if Nat.eqb i j then 1 else 0.
Definition mm (n : nat) (A B : nat -> nat -> R) (i j : nat) : R := vsum n (fun k => A i k * B k j).
Definition inverse_of (n : nat) (A X : nat -> nat -> R) : Prop :=
  forall i j, (i < n)%nat -> (j < n)%nat -> mm n A X i j = idm i j /\ mm n X A i j = idm i j.

Lemma mm_mv n A X j i : mm n A X i j = mv n A (fun k => X k j) i.
Proof. reflexivity. Qed.

Lemma inverse_nonsingular n A X : inverse_of n A X -> ~ singular n A.
Proof.
  intros H (x & (i & Hi & Hx) & Hk). apply Hx.
  assert (E : mv n (mm n X A) x i = 0).
  { unfold mv, mm. rewrite (vsum_ext n _ (fun j => vsum n (fun k => X i k * (A k j * x j)))).
    - rewrite vsum_swap. rewrite (vsum_ext n _ (fun _ => 0)); [apply vsum_0|]. intros k Hk'. rewrite vsum_scal.
      fold (mv n A x k). rewrite Hk by exact Hk'. ring.
    - intros j Hj. rewrite Rmult_comm, <- vsum_scal. apply vsum_ext. intros. ring. }
  rewrite <- E. unfold mv. rewrite (vsum_ext n _ (fun j => if Nat.eqb j i then x j else 0)).
  - now rewrite vsum_delta.
  - intros j Hj. destruct (H i j Hi Hj) as [_ ->]. unfold idm. rewrite Nat.eqb_sym. destruct (Nat.eqb j i); ring.
Qed.

(** For a symmetric matrix a right inverse is symmetric and two-sided. *)
Lemma right_inverse n A X : symmetric n A ->
  (forall i j, (i < n)%nat -> (j < n)%nat -> mm n A X i j = idm i j) -> symmetric n X /\ inverse_of n A X.
Proof.
  intros Hs H.
  assert (S : symmetric n X).
  { intros i j Hi Hj.
    (* X i j = e_i . X e_j = (A X e_i) . X e_j = X e_i . A X e_j = X j i *)
    assert (D : forall k f, (k < n)%nat -> dotv n f (mv n A (fun l => X l k)) = f k).
    { intros k f Hk. unfold dotv. rewrite (vsum_ext n _ (fun l => if Nat.eqb l k then f l else 0)).
      - now rewrite vsum_delta.
      - intros l Hl. rewrite <- mm_mv, H by auto. unfold idm. destruct (Nat.eqb l k); ring. }
    pose proof (dotv_sym n A (fun l => X l i) (fun l => X l j) Hs) as E.
    rewrite !D in E by auto. auto. }
  split; [exact S|]. intros i j Hi Hj. split; [now apply H|].
  transitivity (mm n A X j i).
  - unfold mm. apply vsum_ext. intros k Hk. rewrite (S i k), (Hs k j) by auto. ring.
  - rewrite H by auto. unfold idm. now rewrite Nat.eqb_sym.
Qed.

Lemma inverse_unique n A X Y : inverse_of n A X -> inverse_of n A Y ->
  forall i j, (i < n)%nat -> (j < n)%nat -> X i j = Y i j.
Proof.
  intros HX HY i j Hi Hj.
  assert (E : vsum n (fun k => vsum n (fun l => X i k * (A k l * Y l j))) = X i j).
  { rewrite (vsum_ext n _ (fun k => if Nat.eqb k j then X i k else 0)).
    - now rewrite vsum_delta.
    - intros k Hk. rewrite vsum_scal. fold (mm n A Y k j). destruct (HY k j Hk Hj) as [-> _]. unfold idm. destruct (Nat.eqb k j); ring. }
  rewrite <- E, vsum_swap. rewrite (vsum_ext n _ (fun l => if Nat.eqb l i then Y l j else 0)).
  - now rewrite vsum_delta.
  - intros l Hl. rewrite (vsum_ext n _ (fun k => Y l j * (X i k * A k l))) by (intros; ring). rewrite vsum_scal.
    fold (mm n X A i l). destruct (HX i l Hi Hl) as [_ ->]. unfold idm. rewrite Nat.eqb_sym. destruct (Nat.eqb l i); ring.
Qed.

(** The inverse computed column by column. *)
Definition column (n : nat) (A : nat -> nat -> R) (j i : nat) : R :=
  match solve n A (fun k => idm k j) with Some x => x i | None => 0 end.

Lemma column_inverse n A : symmetric n A -> pivots n A = true -> inverse_of n A (fun i j => column n A j i).
Proof.
  intros Hs HP. apply right_inverse; auto. intros i j Hi Hj. rewrite mm_mv. unfold column.
  destruct (proj2 (solve_pivots n A (fun k => idm k j)) HP) as (x & E). rewrite E.
  apply (solve_correct n A (fun k => idm k j) x E i Hi).
Qed.

(** Inverse of a positive semidefinite matrix is positive definite. *)
Lemma inverse_pd n A X : symmetric n A -> psd n A -> inverse_of n A X -> symmetric n X /\ forall x, nonzero n x -> 0 < qform n X x.
Proof.
  intros Hs HP HX.
  assert (SX : symmetric n X) by (apply (right_inverse n A X Hs); intros; now apply HX).
  split; [exact SX|]. intros x Hx.
  set (y := mv n X x).
  assert (Ax : forall i, (i < n)%nat -> mv n A y i = x i).
  { intros i Hi. unfold mv, y, mv. rewrite (vsum_ext n _ (fun k => vsum n (fun j => A i k * X k j * x j))).
    - rewrite vsum_swap. rewrite (vsum_ext n _ (fun j => if Nat.eqb j i then x j else 0)).
      + now rewrite vsum_delta.
      + intros j Hj. rewrite (vsum_ext n _ (fun k => x j * (A i k * X k j))) by (intros; ring). rewrite vsum_scal.
        fold (mm n A X i j). destruct (HX i j Hi Hj) as [-> _]. unfold idm. rewrite Nat.eqb_sym. destruct (Nat.eqb j i); ring.
    - intros k Hk. rewrite <- vsum_scal. apply vsum_ext. intros. ring. }
  assert (Q : qform n X x = qform n A y).
  { unfold qform. fold y. unfold dotv. apply vsum_ext. intros i Hi. rewrite Ax by auto. ring. }
  rewrite Q. destruct (Rle_lt_or_eq_dec 0 (qform n A y) (HP y)) as [L|E]; [exact L|exfalso].
  (* qform y = 0 and A y = x <> 0: move along x *)
  assert (N : 0 < dotv n x x).
  { destruct Hx as (i & Hi & Hxi). destruct (Rle_lt_or_eq_dec 0 (dotv n x x)) as [L|Z]; [apply vsum_nonneg; intros; apply Rle_0_sqr|exact L|].
    exfalso. apply Hxi. symmetry in Z. apply (vsum_pos_or_0 n _ (fun i _ => Rle_0_sqr (x i))) with (i := i) in Z; [apply Rsqr_0_uniq; exact Z|exact Hi]. }
  assert (Qt : forall t, qform n A (fun i => y i + t * x i) = qform n A y + 2 * t * dotv n x x + t * t * qform n A x).
  { intros t. unfold qform at 1, dotv.
    rewrite (vsum_ext n _ (fun i => y i * mv n A y i + t * (y i * mv n A x i) + (t * (x i * mv n A y i) + t * t * (x i * mv n A x i)))).
    - rewrite !vsum_plus, !vsum_scal. fold (dotv n y (mv n A x)). fold (dotv n x (mv n A y)). rewrite (dotv_sym n A y x Hs).
      assert (D : dotv n x (mv n A y) = dotv n x x) by (apply vsum_ext; intros i Hi; now rewrite Ax).
      rewrite D. unfold qform, dotv. ring.
    - intros i Hi. rewrite mv_plus, mv_scal. ring. }
  set (q := qform n A x) in *. set (d := dotv n x x) in *. pose proof (HP x) as Hq. fold q in Hq.
  pose proof (HP (fun i => y i + (- d / (q + 1)) * x i)) as Hneg. rewrite Qt, <- E in Hneg.
  assert (0 < q + 1) by lra.
  replace (0 + 2 * (- d / (q + 1)) * d + - d / (q + 1) * (- d / (q + 1)) * q) with (- (d * d) * (q + 2) / ((q + 1) * (q + 1))) in Hneg by (field; lra).
  assert (0 < d * d * (q + 2) / ((q + 1) * (q + 1))).
  { apply Rmult_lt_0_compat; [apply Rmult_lt_0_compat; nra|apply Rinv_0_lt_compat; nra]. }
  replace (- (d * d) * (q + 2) / ((q + 1) * (q + 1))) with (- (d * d * (q + 2) / ((q + 1) * (q + 1)))) in Hneg by (field; lra).
  lra.
Qed.

(** ** Fewer equations than unknowns *)
Lemma underdetermined n : forall rows : list (nat -> R), (length rows < n)%nat ->
  exists d, nonzero n d /\ forall r, In r rows -> dotv n r d = 0.
Proof.
  induction n as [|n IH]; intros rows H; [lia|].
  assert (C : (forall r, In r rows -> r O = 0) \/ exists r l1 l2, rows = l1 ++ r :: l2 /\ r O <> 0).
  { clear H. induction rows as [|r rows IHr]; [left; easy|]. destruct (Req_dec (r O) 0) as [E|E].
    - destruct IHr as [A|(r' & l1 & l2 & -> & A)]; [left; intros x [<-|Hx]; auto|right].
      exists r', (r :: l1), l2. auto.
    - right. exists r, nil, rows. auto. }
  destruct C as [C|(r & l1 & l2 & -> & C)].
  - exists (fun k => if Nat.eqb k O then 1 else 0). split; [exists O; split; [lia|cbn; lra]|].
    intros r Hr. unfold dotv. rewrite (vsum_ext (S n) _ (fun j => if Nat.eqb j O then r j else 0)).
    + rewrite vsum_delta by lia. auto.
    + intros k Hk. destruct (Nat.eqb k O); ring.
  - destruct (IH (map (fun s i => s (S i) - s O / r O * r (S i)) (l1 ++ l2))) as (y & (i & Hi & Hy) & Hk).
    { rewrite map_length, app_length. rewrite app_length in H. cbn in H. lia. }
    exists (cons_v (- dotv n (fun i => r (S i)) y / r O) y). split; [exists (S i); split; [lia|exact Hy]|].
    assert (E : forall s, dotv (S n) s (cons_v (- dotv n (fun i => r (S i)) y / r O) y)
                          = s O * (- dotv n (fun i => r (S i)) y / r O) + dotv n (fun i => s (S i)) y) by reflexivity.
    assert (F : forall s, In s (l1 ++ l2) -> dotv n (fun i => s (S i)) y = s O / r O * dotv n (fun i => r (S i)) y).
    { intros s Hs. specialize (Hk (fun i => s (S i) - s O / r O * r (S i)) ltac:(apply in_map_iff; eauto)).
      unfold dotv in Hk. rewrite (vsum_ext n _ (fun i => s (S i) * y i + (- (s O / r O)) * (r (S i) * y i))) in Hk by (intros; ring).
      rewrite vsum_plus, vsum_scal in Hk. unfold dotv. lra. }
    intros s Hs. rewrite E. apply in_app_or in Hs. destruct Hs as [Hs|[<-|Hs]].
    + rewrite (F s) by (apply in_or_app; auto). field. exact C.
    + field. exact C.
    + rewrite (F s) by (apply in_or_app; auto). field. exact C.
Qed.
