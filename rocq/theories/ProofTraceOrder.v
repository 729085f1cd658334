(** * The Dormand-Prince constants satisfy the order conditions (C42) *)
From Coq Require Import Reals Lra Lia QArith Qreals Qreduction.
From Verif Require Import Py Num NumXR ModelTrace SpecTrace.
Local Open Scope R_scope.

(** ** All trees of bounded order *)
Fixpoint forests (T : list tree) (k n : nat) : list (list tree) :=
  match k with
  | O => [[]]
  | S k => [] :: flat_map (fun t => if (order t <=? n)%nat then map (cons t) (forests T k (n - order t)) else []) T
  end.
Fixpoint trees (n : nat) : list tree :=
  match n with O => [] | S n => map Node (forests (trees n) n n) end.

Lemma order_pos t : (1 <= order t)%nat.
Proof. destruct t. cbn. lia. Qed.

Lemma forests_complete T : forall k n l, (list_sum (map order l) <= n)%nat -> (length l <= k)%nat -> (forall t, In t l -> In t T) -> In l (forests T k n).
Proof.
  induction k as [|k IH]; intros n l Hs Hl HT.
  - destruct l; [now left|cbn in Hl; lia].
  - destruct l as [|t l]; [now left|]. right. apply in_flat_map. exists t. split; [apply HT; now left|].
    change (list_sum (map order (t :: l))) with (order t + list_sum (map order l))%nat in Hs. cbn in Hl.
    rewrite (proj2 (Nat.leb_le _ _)) by lia. apply in_map. apply IH; [lia|lia|]. intros u Hu. apply HT. now right.
Qed.

Lemma list_sum_in l t : In t l -> (order t <= list_sum (map order l))%nat.
Proof.
  induction l as [|u l IH]; intros H; [destruct H|]. change (list_sum (map order (u :: l))) with (order u + list_sum (map order l))%nat.
  destruct H as [<-|H]; [lia|]. specialize (IH H). lia.
Qed.
Lemma list_sum_length l : (length l <= list_sum (map order l))%nat.
Proof.
  induction l as [|u l IH]; [cbn; lia|]. change (list_sum (map order (u :: l))) with (order u + list_sum (map order l))%nat.
  cbn [length]. pose proof (order_pos u). lia.
Qed.

Lemma trees_complete : forall n t, (order t <= n)%nat -> In t (trees n).
Proof.
  induction n as [|n IH]; intros t Ht; [pose proof (order_pos t); lia|]. destruct t as [l]. cbn [order] in Ht. cbn [trees].
  apply in_map. apply forests_complete; [lia|pose proof (list_sum_length l); lia|].
  intros t Hin. apply IH. pose proof (list_sum_in l t Hin). lia.
Qed.

(** ** Rational computation *)
Definition dotQ (c v : list Q) : Q := fold_right (fun x s => Qred (x + s)) 0%Q (map (fun xy => (fst xy * snd xy)%Q) (combine c v)).
Fixpoint weightsQ (a : list (list Q)) (t : tree) : list Q :=
  match t with Node l => map (fun row => fold_right (fun x s => Qred (x * s)) 1%Q (map (fun u => dotQ row (weightsQ a u)) l)) a end.

Lemma Q2R_Qred q : Q2R (Qred q) = Q2R q.
Proof. apply Qeq_eqR, Qred_correct. Qed.

Lemma dotQ_R : forall c v, Q2R (dotQ c v) = dot (map Q2R c) (map Q2R v).
Proof.
  induction c as [|x c IH]; intros v; [cbn; unfold Q2R; cbn; lra|]. destruct v as [|y v]; [cbn; unfold Q2R; cbn; lra|].
  unfold dotQ, dot in *. cbn [map combine fold_right fst snd]. rewrite Q2R_Qred, Q2R_plus, Q2R_mult. now rewrite IH.
Qed.

Lemma weightsQ_R a : forall t, map Q2R (weightsQ a t) = stage_weights (map (map Q2R) a) t.
Proof.
  fix IH 1. intros [l]. cbn [weightsQ stage_weights]. rewrite !map_map. apply map_ext. intros row.
  induction l as [|u l IHl]; cbn [map fold_right]; [unfold Q2R; cbn; lra|].
  rewrite Q2R_Qred, Q2R_mult, IHl, dotQ_R, IH. reflexivity.
Qed.

Definition dp_aQ : list (list Q) :=
  [ [];
    [1#5];
    [3#40; 9#40];
    [44#45; -56#15; 32#9];
    [19372#6561; -25360#2187; 64448#6561; -212#729];
    [9017#3168; -355#33; 46732#5247; 49#176; -5103#18656];
    [35#384; 0#1; 500#1113; 125#192; -2187#6784; 11#84] ]%Q.
Definition dp_bQ : list Q := [35#384; 0#1; 500#1113; 125#192; -2187#6784; 11#84; 0#1]%Q.
Definition dp_bhatQ : list Q := [5179#57600; 0#1; 7571#16695; 393#640; -92097#339200; 187#2100; 1#40]%Q.

Lemma dp_aQ_R : map (map Q2R) dp_aQ = dp_a.
Proof. unfold dp_aQ, dp_a. cbn [map]. repeat apply f_equal2; try reflexivity; unfold Q2R; cbn; field. Qed.
Lemma dp_bQ_R : map Q2R dp_bQ = dp_b.
Proof. unfold dp_bQ, dp_b. cbn [map]. repeat apply f_equal2; try reflexivity; unfold Q2R; cbn; field. Qed.
Lemma dp_bhatQ_R : map Q2R dp_bhatQ = dp_bhat.
Proof. unfold dp_bhatQ, dp_bhat. cbn [map]. repeat apply f_equal2; try reflexivity; unfold Q2R; cbn; field. Qed.

Definition checkQ (b : list Q) (t : tree) : bool := Qeq_bool (dotQ b (weightsQ dp_aQ t)) (1 # Pos.of_nat (density t)).

Lemma density_pos : forall t, (1 <= density t)%nat.
Proof.
  fix IH 1. intros [l]. cbn [density]. assert (1 <= fold_right Nat.mul 1 (map density l))%nat; [|nia].
  induction l as [|u l IHl]; cbn [map fold_right]; [lia|]. specialize (IH u). nia.
Qed.

Lemma checkQ_R b bR t : map Q2R b = bR -> checkQ b t = true -> order_condition dp_a bR t.
Proof.
  intros <- H. apply Qeq_bool_eq in H. apply Qeq_eqR in H. unfold order_condition. rewrite <- dp_aQ_R, <- weightsQ_R, <- dotQ_R, H.
  unfold Q2R. cbn [Qnum Qden]. pose proof (density_pos t). rewrite Rmult_1_l. f_equal. rewrite INR_IPR || idtac.
  rewrite INR_IZR_INZ. f_equal. rewrite <- (Nat2Pos.id (density t)) at 2 by lia. now rewrite positive_nat_Z.
Qed.

(** The constants of the program are those of the tableau; the error weights are the difference of the
    two rows of weights. *)
Lemma c42_constants :
  ([[]; [a2_0]; [a3_0; a3_1]; [a4_0; a4_1; a4_2]; [a5_0; a5_1; a5_2; a5_3]; [a6_0; a6_1; a6_2; a6_3; a6_4];
    [a7_0; Fin 0; a7_2; a7_3; a7_4; a7_5]] : list (list xr)) = map (map Fin) dp_a /\
  ([a7_0; Fin 0; a7_2; a7_3; a7_4; a7_5; Fin 0] : list xr) = map Fin dp_b /\
  ([e_0; Fin 0; e_2; e_3; e_4; e_5; e_1] : list xr) = map (fun bc => Fin (fst bc - snd bc)) (combine dp_b dp_bhat).
Proof.
  split; [|split].
  - unfold dp_a. cbn. reflexivity.
  - unfold dp_b. cbn. reflexivity.
  - unfold dp_b, dp_bhat, e_0, e_1, e_2, e_3, e_4, e_5. cbn. repeat apply f_equal2; try reflexivity; apply (f_equal Fin); field.
Qed.

(** C42: the update weights satisfy every order condition up to order 5. *)
Lemma c42_order_five : forall t : tree, (order t <= 5)%nat -> order_condition dp_a dp_b t.
Proof.
  intros t Ht. apply trees_complete in Ht. apply (checkQ_R dp_bQ dp_b t dp_bQ_R).
  assert (H : forallb (checkQ dp_bQ) (trees 5) = true) by (vm_compute; reflexivity).
  rewrite forallb_forall in H. now apply H.
Qed.

(** C42: the embedded weights satisfy every order condition up to order 4. *)
Lemma c42_order_four_embedded : forall t : tree, (order t <= 4)%nat -> order_condition dp_a dp_bhat t.
Proof.
  intros t Ht. apply trees_complete in Ht. apply (checkQ_R dp_bhatQ dp_bhat t dp_bhatQ_R).
  assert (H : forallb (checkQ dp_bhatQ) (trees 4) = true) by (vm_compute; reflexivity).
  rewrite forallb_forall in H. now apply H.
Qed.

(** C42: neither is of a higher order (the chains of 6 and 5 nodes fail), so the estimate is a genuine
    comparison of orders 5 and 4. *)
Lemma c42_orders_sharp :
  ~ order_condition dp_a dp_b (Node [Node [Node [Node [Node [Node []]]]]]) /\
  ~ order_condition dp_a dp_bhat (Node [Node [Node [Node [Node []]]]]).
Proof.
  assert (N : forall b bR t, map Q2R b = bR -> checkQ b t = false -> ~ order_condition dp_a bR t).
  { intros b bR t <- H E. unfold order_condition in E. rewrite <- dp_aQ_R, <- weightsQ_R, <- dotQ_R in E.
    assert (Q2R (1 # Pos.of_nat (density t)) = / INR (density t)).
    { unfold Q2R. cbn [Qnum Qden]. pose proof (density_pos t). rewrite Rmult_1_l. f_equal.
      rewrite INR_IZR_INZ. f_equal. rewrite <- (Nat2Pos.id (density t)) at 2 by lia. now rewrite positive_nat_Z. }
    rewrite <- H0 in E. apply eqR_Qeq in E. apply Qeq_bool_iff in E. unfold checkQ in H. congruence. }
  split; [apply (N dp_bQ _ _ dp_bQ_R)|apply (N dp_bhatQ _ _ dp_bhatQ_R)]; vm_compute; reflexivity.
Qed.

(** C42: the rows are consistent: with the abscissae 0, 1/5, 3/10, 4/5, 8/9, 1, 1, and both rows of weights
    sum to 1. *)
Lemma c42_rows :
  map (fold_right Rplus 0) dp_a = [0; 1/5; 3/10; 4/5; 8/9; 1; 1] /\
  fold_right Rplus 0 dp_b = 1 /\ fold_right Rplus 0 dp_bhat = 1.
Proof.
  unfold dp_a, dp_b, dp_bhat. cbn [map fold_right]. split; [|split; field].
  repeat apply f_equal2; try reflexivity; field.
Qed.

(** The bushy and the tall tree of order 5: densities 5 and 120. *)
Lemma c42_trees_example :
  order (Node [Node []; Node []; Node []; Node []]) = 5%nat /\ density (Node [Node []; Node []; Node []; Node []]) = 5%nat /\
  density (Node [Node [Node [Node [Node []]]]]) = 120%nat /\
  dot dp_b (map (fun c => c ^ 4) [0; 1/5; 3/10; 4/5; 8/9; 1; 1]) = 1 / 5.
Proof. repeat split. unfold dot, dp_b. cbn [map combine fold_right fst snd]. field. Qed.
