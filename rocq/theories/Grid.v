(** * Rectangular grids as functions: lemmas about lists of lists *)
From Verif Require Import Py.
Local Open Scope Z_scope.

(** ** zrange *)
Lemma zrange_length a b : length (zrange a b) = Z.to_nat (b - a).
Proof. unfold zrange. now rewrite map_length, seq_length. Qed.

Lemma in_zrange a b k : In k (zrange a b) <-> a <= k < b.
Proof.
  unfold zrange. rewrite in_map_iff. split.
  - intros (n & <- & H). apply in_seq in H. lia.
  - intros H. exists (Z.to_nat (k - a)). split; [lia|]. apply in_seq. lia.
Qed.

Lemma nth_error_zrange a b n :
  nth_error (zrange a b) n = if (Z.of_nat n <? b - a) then Some (a + Z.of_nat n) else None.
Proof.
  unfold zrange. rewrite nth_error_map.
  destruct (Z.ltb_spec (Z.of_nat n) (b - a)).
  - rewrite (nth_error_nth' _ O) by (rewrite seq_length; lia).
    rewrite seq_nth by lia. reflexivity.
  - rewrite (proj2 (nth_error_None _ _)) by (rewrite seq_length; lia). reflexivity.
Qed.

Lemma zrange_nil a b : b <= a -> zrange a b = [].
Proof. intros. unfold zrange. replace (Z.to_nat (b - a)) with O by lia. reflexivity. Qed.

Lemma zrange_cons a b : a < b -> zrange a b = a :: zrange (a + 1) b.
Proof.
  intros. unfold zrange.
  replace (Z.to_nat (b - a)) with (S (Z.to_nat (b - (a + 1)))) by lia.
  cbn [seq map]. f_equal; [lia|].
  rewrite <- seq_shift, map_map. apply map_ext. intros. lia.
Qed.

Lemma zrange_snoc a b : a <= b -> zrange a (b + 1) = zrange a b ++ [b].
Proof.
  intros. unfold zrange.
  replace (Z.to_nat (b + 1 - a)) with (S (Z.to_nat (b - a))) by lia.
  rewrite seq_S, map_app. cbn. do 2 f_equal. lia.
Qed.

(** ** list_set *)
Lemma list_set_length A (l : list A) n v : length (list_set l n v) = length l.
Proof. revert n; induction l; destruct n; cbn; auto. Qed.

Lemma nth_error_list_set A (l : list A) n v m :
  nth_error (list_set l n v) m =
  if Nat.eqb n m then (match nth_error l m with Some _ => Some v | None => None end)
  else nth_error l m.
Proof.
  revert n m. induction l; intros [|n] [|m]; cbn; auto.
  - destruct (Nat.eqb n m); auto.
Qed.

Lemma nth_error_ext A (l l' : list A) :
  (forall n, nth_error l n = nth_error l' n) -> l = l'.
Proof.
  revert l'. induction l as [|a l IH]; intros [|b l'] H; auto.
  - specialize (H O). discriminate.
  - specialize (H O). discriminate.
  - pose proof (H O) as H0. cbn in H0. injection H0 as ->. f_equal.
    apply IH. intros n. exact (H (S n)).
Qed.

(** ** tab: the nr x nc grid of a function *)
Definition tab {A} (nr nc : Z) (f : Z -> Z -> A) : list (list A) :=
  map (fun i => map (fun j => f i j) (zrange 0 nc)) (zrange 0 nr).

Lemma tab_ext A nr nc (f g : Z -> Z -> A) :
  (forall i j, 0 <= i < nr -> 0 <= j < nc -> f i j = g i j) -> tab nr nc f = tab nr nc g.
Proof.
  intros H. unfold tab. apply map_ext_in. intros i Hi. apply map_ext_in. intros j Hj.
  apply in_zrange in Hi, Hj. auto.
Qed.

Definition inb (nr nc i j : Z) : bool := (0 <=? i) && (i <? nr) && (0 <=? j) && (j <? nc).

Lemma inb_true nr nc i j : inb nr nc i j = true <-> 0 <= i < nr /\ 0 <= j < nc.
Proof. unfold inb. rewrite !andb_true_iff. lia. Qed.

Lemma get2_tab A nr nc (f : Z -> Z -> A) i j :
  get2 (tab nr nc f) i j = if inb nr nc i j then Some (f i j) else None.
Proof.
  unfold get2, inb.
  destruct (Z.ltb_spec i 0); cbn [orb].
  { destruct (Z.leb_spec 0 i); [lia|reflexivity]. }
  destruct (Z.ltb_spec j 0); cbn [orb].
  { destruct (Z.leb_spec 0 j); [lia|]. rewrite !andb_false_r. reflexivity. }
  destruct (Z.leb_spec 0 i); [|lia]. destruct (Z.leb_spec 0 j); [|lia].
  unfold tab. rewrite nth_error_map, nth_error_zrange, Z2Nat.id by lia.
  rewrite Z.sub_0_r, Z.add_0_l. cbn [andb].
  destruct (Z.ltb_spec i nr); cbn [option_map andb]; auto.
  rewrite nth_error_map, nth_error_zrange, Z2Nat.id, Z.sub_0_r, Z.add_0_l by lia.
  destruct (Z.ltb_spec j nc); cbn [option_map]; auto.
Qed.

Lemma set2_tab A nr nc (f : Z -> Z -> A) i j v :
  0 <= i < nr -> 0 <= j < nc ->
  set2 (tab nr nc f) i j v =
  tab nr nc (fun i' j' => if (i' =? i) && (j' =? j) then v else f i' j').
Proof.
  intros Hi Hj. unfold set2.
  assert (Hrow : nth_error (tab nr nc f) (Z.to_nat i) = Some (map (fun j => f i j) (zrange 0 nc))).
  { unfold tab. rewrite nth_error_map, nth_error_zrange, Z2Nat.id, Z.sub_0_r, Z.add_0_l by lia.
    destruct (Z.ltb_spec i nr); [reflexivity|lia]. }
  rewrite Hrow. apply nth_error_ext. intros n.
  rewrite nth_error_list_set. unfold tab. rewrite !nth_error_map, nth_error_zrange.
  rewrite Z.sub_0_r, Z.add_0_l.
  destruct (Z.ltb_spec (Z.of_nat n) nr); cbn [option_map].
  2: { destruct (Nat.eqb_spec (Z.to_nat i) n); [|reflexivity]. reflexivity. }
  destruct (Nat.eqb_spec (Z.to_nat i) n) as [<-|Hn].
  - f_equal. apply nth_error_ext. intros m.
    rewrite nth_error_list_set, !nth_error_map, nth_error_zrange, Z.sub_0_r, Z.add_0_l.
    rewrite Z2Nat.id by lia. rewrite Z.eqb_refl. cbn [andb].
    destruct (Z.ltb_spec (Z.of_nat m) nc); cbn [option_map].
    2: { destruct (Nat.eqb _ _); reflexivity. }
    destruct (Nat.eqb_spec (Z.to_nat j) m); destruct (Z.eqb_spec (Z.of_nat m) j); auto; lia.
  - f_equal. apply map_ext. intros j'.
    destruct (Z.eqb_spec (Z.of_nat n) i); [lia|reflexivity].
Qed.

Lemma const2_tab A nr nc (v : A) : const2 nr nc v = tab nr nc (fun _ _ => v).
Proof.
  unfold const2, tab, zrange. rewrite !Z.sub_0_r, map_map.
  set (row := repeat v _).
  assert (E : forall (k : nat) (w : list A) s, repeat w k = map (fun _ : nat => w) (seq s k)).
  { induction k; intros; cbn; auto. f_equal. apply IHk. }
  rewrite (E _ row 0%nat). apply map_ext. intros _.
  unfold row. rewrite map_map.
  assert (E2 : forall (k : nat) s, repeat v k = map (fun _ : nat => v) (seq s k)).
  { induction k; intros; cbn; auto. f_equal. apply IHk. }
  apply E2.
Qed.

(** [l] is a rectangle of the given shape *)
Definition rect {A} (nr nc : Z) (l : list (list A)) : Prop :=
  Z.of_nat (length l) = nr /\ Forall (fun row => Z.of_nat (length row) = nc) l.

Lemma tab_length A nr nc (f : Z -> Z -> A) : length (tab nr nc f) = Z.to_nat nr.
Proof. unfold tab. rewrite map_length, zrange_length. f_equal. lia. Qed.

Lemma rect_tab A nr nc (f : Z -> Z -> A) : 0 <= nr -> 0 <= nc -> rect nr nc (tab nr nc f).
Proof.
  intros. split.
  - rewrite tab_length. lia.
  - apply Forall_forall. intros row Hr. unfold tab in Hr. apply in_map_iff in Hr.
    destruct Hr as (i & <- & _). rewrite map_length, zrange_length. lia.
Qed.

Lemma rect_is_tab A nr nc (l : list (list A)) (d : A) :
  rect nr nc l -> l = tab nr nc (fun i j => match get2 l i j with Some a => a | None => d end).
Proof.
  intros [Hl Hf]. apply nth_error_ext. intros n. unfold tab.
  rewrite nth_error_map, nth_error_zrange, Z.sub_0_r, Z.add_0_l.
  destruct (Z.ltb_spec (Z.of_nat n) nr); cbn [option_map].
  2: { apply nth_error_None. lia. }
  destruct (nth_error l n) as [row|] eqn:E.
  2: { apply nth_error_None in E. lia. }
  f_equal.
  assert (Hrow : Z.of_nat (length row) = nc).
  { rewrite Forall_forall in Hf. apply Hf. eapply nth_error_In; eauto. }
  apply nth_error_ext. intros m.
  rewrite nth_error_map, nth_error_zrange, Z.sub_0_r, Z.add_0_l.
  destruct (Z.ltb_spec (Z.of_nat m) nc); cbn [option_map].
  2: { apply nth_error_None. lia. }
  unfold get2.
  destruct (Z.ltb_spec (Z.of_nat n) 0); [lia|]. destruct (Z.ltb_spec (Z.of_nat m) 0); [lia|].
  cbn [orb]. rewrite !Nat2Z.id, E.
  destruct (nth_error row m) eqn:E2; auto.
  apply nth_error_None in E2. lia.
Qed.

Lemma get2_rect A nr nc (l : list (list A)) i j :
  rect nr nc l -> 0 <= i < nr -> 0 <= j < nc -> exists a, get2 l i j = Some a.
Proof.
  intros [Hl Hf] Hi Hj. unfold get2.
  destruct (Z.ltb_spec i 0); [lia|]. destruct (Z.ltb_spec j 0); [lia|]. cbn [orb].
  destruct (nth_error l (Z.to_nat i)) as [row|] eqn:E.
  2: { apply nth_error_None in E. lia. }
  rewrite Forall_forall in Hf. pose proof (Hf _ (nth_error_In _ _ E)).
  destruct (nth_error row (Z.to_nat j)) eqn:E2; eauto.
  apply nth_error_None in E2. lia.
Qed.

Lemma get2_rect_none A nr nc (l : list (list A)) i j a :
  rect nr nc l -> get2 l i j = Some a -> 0 <= i < nr /\ 0 <= j < nc.
Proof.
  intros [Hl Hf]. unfold get2.
  destruct (Z.ltb_spec i 0); cbn [orb]; [discriminate|].
  destruct (Z.ltb_spec j 0); [discriminate|]. cbn [orb].
  destruct (nth_error l (Z.to_nat i)) as [row|] eqn:E; [|discriminate].
  intros E2. rewrite Forall_forall in Hf. pose proof (Hf _ (nth_error_In _ _ E)).
  assert (Z.to_nat j < length row)%nat by (apply nth_error_Some; congruence).
  assert (Z.to_nat i < length l)%nat by (apply nth_error_Some; congruence). lia.
Qed.

(** ** for_in with a pure accumulator *)
Lemma for_in_app A S (l1 l2 : list A) (b : A -> S -> res S) s :
  for_in (l1 ++ l2) b s = bind (for_in l1 b s) (for_in l2 b).
Proof.
  revert s. induction l1; intros; cbn; auto.
  destruct (b a s); cbn; auto.
Qed.
