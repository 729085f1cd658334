(** * The probability field refines an abstract map on a fixed lattice *)
From Coq Require Import Reals Lra Lia Psatz.
From Verif Require Import Py Num NumXR Grid ModelField SpecField ProofGeom.
Local Open Scope R_scope.

(** Lattice coordinate [k] on an axis with origin [o] and spacing [d]. *)
Definition lat (o d : R) (k : Z) : R := o + IZR k * d.

Lemma lat_add o d k l : lat o d (k + l) = lat o d k + IZR l * d.
Proof. unfold lat. rewrite plus_IZR. ring. Qed.

Lemma lat_lt o d k l : 0 < d -> (lat o d k < lat o d l <-> (k < l)%Z).
Proof.
  intros Hd. unfold lat. split; intros H.
  - apply lt_IZR. nra.
  - apply IZR_lt in H. nra.
Qed.

Lemma lat_le o d k l : 0 < d -> (lat o d k <= lat o d l <-> (k <= l)%Z).
Proof.
  intros Hd. unfold lat. split; intros H.
  - apply le_IZR. nra.
  - apply IZR_le in H. nra.
Qed.

Lemma lat_inj o d k l : 0 < d -> lat o d k = lat o d l -> k = l.
Proof.
  intros Hd H. unfold lat in H. apply eq_IZR. nra.
Qed.

(** ** The growth loops *)
Lemma grow_down_spec fuel x o d k n v m :
  0 < d ->
  grow_down fuel x (Fin (lat o d k)) (Fin d) n = Ok (v, m) ->
  exists j, (0 <= j)%Z /\ v = Fin (lat o d (k - j)) /\ m = (n + j)%Z /\
            nle x v = false /\
            (forall i, (0 <= i < j)%Z -> nle x (Fin (lat o d (k - i))) = true).
Proof.
  intros Hd. revert k n. induction fuel as [|fuel IH]; intros k n H; cbn [grow_down] in H; [discriminate|].
  destruct (nle x (Fin (lat o d k))) eqn:E.
  - replace (nsub (Fin (lat o d k)) (Fin d)) with (Fin (lat o d (k - 1))) in H
      by (cbn; unfold lat; rewrite minus_IZR; f_equal; ring).
    apply IH in H. destruct H as (j & Hj & -> & -> & E' & Hi).
    exists (j + 1)%Z. split; [lia|]. split; [do 2 f_equal; lia|]. split; [lia|].
    split; [exact E'|]. intros i Hi'. destruct (Z.eq_dec i 0) as [->|].
    + rewrite Z.sub_0_r. exact E.
    + replace (k - i)%Z with (k - 1 - (i - 1))%Z by lia. apply Hi. lia.
  - injection H as <- <-. exists 0%Z. rewrite Z.sub_0_r. repeat split; auto; try lia.
Qed.

Lemma grow_up_spec fuel x o d k n v m :
  0 < d ->
  grow_up fuel x (Fin (lat o d k)) (Fin d) n = Ok (v, m) ->
  exists j, (0 <= j)%Z /\ v = Fin (lat o d (k + j)) /\ m = (n + j)%Z /\
            nle v x = false /\
            (forall i, (0 <= i < j)%Z -> nle (Fin (lat o d (k + i))) x = true).
Proof.
  intros Hd. revert k n. induction fuel as [|fuel IH]; intros k n H; cbn [grow_up] in H; [discriminate|].
  destruct (nle (Fin (lat o d k)) x) eqn:E.
  - replace (nadd (Fin (lat o d k)) (Fin d)) with (Fin (lat o d (k + 1))) in H
      by (cbn; unfold lat; rewrite plus_IZR; f_equal; ring).
    apply IH in H. destruct H as (j & Hj & -> & -> & E' & Hi).
    exists (j + 1)%Z. split; [lia|]. split; [do 2 f_equal; lia|]. split; [lia|].
    split; [exact E'|]. intros i Hi'. destruct (Z.eq_dec i 0) as [->|].
    + rewrite Z.add_0_r. exact E.
    + replace (k + i)%Z with (k + 1 + (i - 1))%Z by lia. apply Hi. lia.
  - injection H as <- <-. exists 0%Z. rewrite Z.add_0_r. repeat split; auto; try lia.
Qed.

(** Enough fuel: the loop stops after at most [k] steps if [lat (-k)] is below [x]. *)
Lemma grow_down_total fuel x o d k n j :
  0 < d -> lat o d (k - Z.of_nat j) < x -> (j < fuel)%nat ->
  exists r, grow_down fuel (Fin x) (Fin (lat o d k)) (Fin d) n = Ok r.
Proof.
  intros Hd. revert fuel k n. induction j as [|j IH]; intros fuel k n Hx Hf;
    (destruct fuel as [|fuel]; [lia|]); cbn [grow_down].
  - rewrite Z.sub_0_r in Hx. replace (nle (Fin x) (Fin (lat o d k))) with false; eauto.
    symmetry. cbn. apply Rleb_false. exact Hx.
  - destruct (nle (Fin x) (Fin (lat o d k))) eqn:E; eauto.
    replace (nsub (Fin (lat o d k)) (Fin d)) with (Fin (lat o d (k - 1)))
      by (cbn; unfold lat; rewrite minus_IZR; f_equal; ring).
    apply IH; [|lia]. replace (k - 1 - Z.of_nat j)%Z with (k - Z.of_nat (S j))%Z by lia. exact Hx.
Qed.

Lemma grow_up_total fuel x o d k n j :
  0 < d -> x < lat o d (k + Z.of_nat j) -> (j < fuel)%nat ->
  exists r, grow_up fuel (Fin x) (Fin (lat o d k)) (Fin d) n = Ok r.
Proof.
  intros Hd. revert fuel k n. induction j as [|j IH]; intros fuel k n Hx Hf;
    (destruct fuel as [|fuel]; [lia|]); cbn [grow_up].
  - rewrite Z.add_0_r in Hx. replace (nle (Fin (lat o d k)) (Fin x)) with false; eauto.
    symmetry. cbn. apply Rleb_false. exact Hx.
  - destruct (nle (Fin (lat o d k)) (Fin x)) eqn:E; eauto.
    replace (nadd (Fin (lat o d k)) (Fin d)) with (Fin (lat o d (k + 1)))
      by (cbn; unfold lat; rewrite plus_IZR; f_equal; ring).
    apply IH; [|lia]. replace (k + 1 + Z.of_nat j)%Z with (k + Z.of_nat (S j))%Z by lia. exact Hx.
Qed.

(** ** The abstract field *)
Record abs := {
  X0 : R; Y0 : R; Dx : R; Dy : R;            (* the lattice *)
  C0 : Z; R0 : Z; NC : Z; NR : Z;            (* the window: columns C0.., rows R0.. *)
  P : Z -> Z -> R;                           (* accumulated weight of (row, column) *)
  M : Z -> Z -> bool;                        (* mark of (row, column) *)
  W : R                                      (* total weight *)
}.

Definition inwin (a : abs) (p q : Z) : Prop :=
  (R0 a <= p < R0 a + NR a)%Z /\ (C0 a <= q < C0 a + NC a)%Z.

Definition inwinb (a : abs) (p q : Z) : bool := inb (NR a) (NC a) (p - R0 a) (q - C0 a).

Lemma inwinb_true a p q : inwinb a p q = true <-> inwin a p q.
Proof. unfold inwinb, inwin. rewrite inb_true. lia. Qed.

Definition ok (a : abs) : Prop :=
  0 < Dx a /\ 0 < Dy a /\ (3 <= NC a)%Z /\ (3 <= NR a)%Z /\
  (forall p q, ~ inwin a p q -> P a p q = 0 /\ M a p q = false).

Definition conc (a : abs) : pfield xr :=
  {| deltax := Fin (Dx a); deltay := Fin (Dy a);
     body := Some {| nrows := NR a; ncols := NC a;
                     xmin := Fin (lat (X0 a) (Dx a) (C0 a));
                     xmax := Fin (lat (X0 a) (Dx a) (C0 a + NC a - 1));
                     ymin := Fin (lat (Y0 a) (Dy a) (R0 a));
                     ymax := Fin (lat (Y0 a) (Dy a) (R0 a + NR a - 1));
                     pgrid := tab (NR a) (NC a) (fun i j => Fin (P a (R0 a + i) (C0 a + j)));
                     rgrid := tab (NR a) (NC a) (fun i j => M a (R0 a + i) (C0 a + j));
                     total_weight := Fin (W a) |} |}.

(** Every well-formed initialised field is represented, anchored at its own corner. *)
Lemma wf_rep s : wf s -> initialised s -> exists a, ok a /\ s = conc a.
Proof.
  intros (dx & dy & Edx & Edy & Hdx & Hdy & Hg) Hi. unfold initialised in Hi.
  destruct (body s) as [g|] eqn:Eb; [|congruence].
  destruct (Hg g eq_refl) as (Hnr & Hnc & Hp & Hr & (x0 & y0 & Ex0 & Ex1 & Ey0 & Ey1) & Hv & (w & Ew)).
  exists {| X0 := x0; Y0 := y0; Dx := dx; Dy := dy; C0 := 0; R0 := 0; NC := ncols g; NR := nrows g;
            P := fun p q => match get2 (pgrid g) p q with Some (Fin r) => r | _ => 0 end;
            M := fun p q => match get2 (rgrid g) p q with Some b => b | _ => false end;
            W := w |}.
  split.
  - repeat split; auto; cbn; unfold inwin in *; cbn in *.
    + destruct (get2 (pgrid g) p q) eqn:E; auto. apply (get2_rect_none _ _ _ _ _ _ _ Hp) in E. lia.
    + destruct (get2 (rgrid g) p q) eqn:E; auto. apply (get2_rect_none _ _ _ _ _ _ _ Hr) in E. lia.
  - unfold conc. cbn. destruct s as [sdx sdy sb]; cbn in *. subst sdx sdy sb. f_equal. f_equal.
    destruct g as [a1 a2 a3 a4 a5 a6 a7 a8 a9]; cbn in *. subst. f_equal.
    + apply f_equal. unfold lat. ring.
    + apply f_equal. unfold lat. ring.
    + rewrite (rect_is_tab _ _ _ _ (Fin 0) Hp) at 1. apply tab_ext. intros i j Hi' Hj'.
      destruct (get2_rect _ _ _ _ _ _ Hp Hi' Hj') as (v & Ev). rewrite Ev.
      destruct (Hv _ _ _ Ev) as (r & ->). rewrite ?Ev. reflexivity.
    + rewrite (rect_is_tab _ _ _ _ false Hr) at 1. apply tab_ext. intros i j Hi' Hj'. reflexivity.
Qed.

Lemma conc_wf a : ok a -> wf (conc a).
Proof.
  intros (Hdx & Hdy & Hnc & Hnr & _). exists (Dx a), (Dy a). repeat split; auto.
  - injection H as <-. cbn. exact Hnr.
  - injection H as <-. cbn. exact Hnc.
  - injection H as <-. cbn. rewrite tab_length. lia.
  - injection H as <-. cbn. apply rect_tab; lia.
  - injection H as <-. cbn. rewrite tab_length. lia.
  - injection H as <-. cbn. apply rect_tab; lia.
  - injection H as <-. cbn. eexists _, _. split; [reflexivity|]. split; [|split; [reflexivity|]].
    + f_equal. replace (C0 a + NC a - 1)%Z with (C0 a + (NC a - 1))%Z by lia. apply lat_add.
    + f_equal. replace (R0 a + NR a - 1)%Z with (R0 a + (NR a - 1))%Z by lia. apply lat_add.
  - injection H as <-. cbn. intros i j v. rewrite get2_tab. destruct (inb _ _ _ _); [|discriminate].
    intros E. injection E as <-. eauto.
  - injection H as <-. cbn. eauto.
Qed.

Lemma conc_node a x y w m :
  ok a ->
  (has_node (conc a) x y w m <->
   exists p q, inwin a p q /\ x = lat (X0 a) (Dx a) q /\ y = lat (Y0 a) (Dy a) p /\
               w = P a p q /\ m = M a p q).
Proof.
  intros Hok. split.
  - intros (g & i & j & dx & dy & x0 & y0 & Eb & Edx & Edy & Ex & Ey & -> & -> & Ep & Er).
    cbn in *. injection Eb as <-. injection Edx as <-. injection Edy as <-. cbn in *.
    injection Ex as <-. injection Ey as <-.
    rewrite get2_tab in Ep, Er. destruct (inb (NR a) (NC a) i j) eqn:E; [|discriminate].
    apply inb_true in E. injection Ep as <-. injection Er as <-.
    exists (R0 a + i)%Z, (C0 a + j)%Z. unfold inwin. rewrite !lat_add. repeat split; lia.
  - intros (p & q & Hw & -> & -> & -> & ->). unfold inwin in Hw.
    eexists _, (p - R0 a)%Z, (q - C0 a)%Z, _, _, _, _.
    split; [reflexivity|]. cbn. repeat (split; [reflexivity|]).
    rewrite <- !lat_add, !get2_tab.
    replace (inb (NR a) (NC a) (p - R0 a) (q - C0 a)) with true
      by (symmetry; apply inb_true; lia).
    replace (C0 a + (q - C0 a))%Z with q by lia. replace (R0 a + (p - R0 a))%Z with p by lia. auto.
Qed.

(** ** expand *)
Definition set_win (a : abs) (c r nc nr : Z) : abs :=
  {| X0 := X0 a; Y0 := Y0 a; Dx := Dx a; Dy := Dy a; C0 := c; R0 := r; NC := nc; NR := nr;
     P := P a; M := M a; W := W a |}.

Lemma paste_tab A n m (v : A) rs cs nr nc (f : Z -> Z -> A) :
  paste n m v rs cs (tab nr nc f) =
  tab n m (fun i j => if inb nr nc (i - rs) (j - cs) then f (i - rs)%Z (j - cs)%Z else v).
Proof.
  unfold paste, tab at 2. apply map_ext. intros i. apply map_ext. intros j.
  rewrite get2_tab. destruct (inb _ _ _ _); reflexivity.
Qed.

(** What growing does to the window, for arbitrary (even non-finite) arguments. *)
Definition grown (a : abs) (xmn xmx ymn ymx : xr) (l r b t : Z) : Prop :=
  (0 <= l)%Z /\ (0 <= r)%Z /\ (0 <= b)%Z /\ (0 <= t)%Z /\
  let X k := Fin (lat (X0 a) (Dx a) k) in
  let Y k := Fin (lat (Y0 a) (Dy a) k) in
  nle xmn (X (C0 a - l)%Z) = false /\
  nle (X (C0 a + NC a - 1 + r)%Z) xmx = false /\
  nle ymn (Y (R0 a - b)%Z) = false /\
  nle (Y (R0 a + NR a - 1 + t)%Z) ymx = false /\
  (forall i, (0 <= i < l)%Z -> nle xmn (X (C0 a - i)%Z) = true) /\
  (forall i, (0 <= i < r)%Z -> nle (X (C0 a + NC a - 1 + i)%Z) xmx = true) /\
  (forall i, (0 <= i < b)%Z -> nle ymn (Y (R0 a - i)%Z) = true) /\
  (forall i, (0 <= i < t)%Z -> nle (Y (R0 a + NR a - 1 + i)%Z) ymx = true).

Definition grow_win (a : abs) (l r b t : Z) : abs :=
  set_win a (C0 a - l) (R0 a - b) (NC a + l + r) (NR a + b + t).

Lemma grow_win_ok a l r b t :
  ok a -> (0 <= l)%Z -> (0 <= r)%Z -> (0 <= b)%Z -> (0 <= t)%Z -> ok (grow_win a l r b t).
Proof.
  intros (H1 & H2 & H3 & H4 & H5) Hl Hr Hb Ht. unfold grow_win.
  split; [exact H1|]. split; [exact H2|]. split; [cbn; lia|]. split; [cbn; lia|].
  intros p q Hn. apply H5. unfold inwin in *. cbn in *. lia.
Qed.

Lemma expand_more_spec fuel a xmn xmx ymn ymx g' :
  ok a ->
  (forall g, body (conc a) = Some g ->
     expand_more fuel (Fin (Dx a)) (Fin (Dy a)) g xmn xmx ymn ymx = Ok g') ->
  exists l r b t, grown a xmn xmx ymn ymx l r b t /\
                  with_body (conc a) g' = conc (grow_win a l r b t).
Proof.
  intros Hok H. specialize (H _ eq_refl). pose proof Hok as (Hdx & Hdy & Hnc & Hnr & Hout).
  unfold expand_more in H. cbn [xmin xmax ymin ymax ncols nrows pgrid rgrid total_weight] in H.
  destruct (grow_down fuel xmn _ _ 0) as [[x0 cl]| |] eqn:E1; try discriminate. cbn [bind] in H.
  destruct (grow_up fuel xmx _ _ 0) as [[x1 cr]| |] eqn:E2; try discriminate. cbn [bind] in H.
  destruct (grow_down fuel ymn _ _ 0) as [[y0 rb]| |] eqn:E3; try discriminate. cbn [bind] in H.
  destruct (grow_up fuel ymx _ _ 0) as [[y1 rt]| |] eqn:E4; try discriminate. cbn [bind] in H.
  apply grow_down_spec in E1; auto. destruct E1 as (l & Hl & -> & -> & A1 & B1).
  apply grow_up_spec in E2; auto. destruct E2 as (r & Hr & -> & -> & A2 & B2).
  apply grow_down_spec in E3; auto. destruct E3 as (b & Hb & -> & -> & A3 & B3).
  apply grow_up_spec in E4; auto. destruct E4 as (t & Ht & -> & -> & A4 & B4).
  exists l, r, b, t. split.
  { unfold grown. repeat split; auto. }
  rewrite !Z.add_0_l in H.
  assert (Eg : g' = {| nrows := NR a + b + t; ncols := NC a + l + r;
     xmin := Fin (lat (X0 a) (Dx a) (C0 a - l)); xmax := Fin (lat (X0 a) (Dx a) (C0 a + NC a - 1 + r));
     ymin := Fin (lat (Y0 a) (Dy a) (R0 a - b)); ymax := Fin (lat (Y0 a) (Dy a) (R0 a + NR a - 1 + t));
     pgrid := tab (NR a + b + t) (NC a + l + r) (fun i j => Fin (P a (R0 a - b + i) (C0 a - l + j)));
     rgrid := tab (NR a + b + t) (NC a + l + r) (fun i j => M a (R0 a - b + i) (C0 a - l + j));
     total_weight := Fin (W a) |}).
  { destruct (_ || _) eqn:Ec in H; injection H as <-.
    - rewrite !paste_tab. f_equal; apply tab_ext; intros i j Hi Hj.
      + destruct (inb _ _ _ _) eqn:Ei.
        * do 2 f_equal; lia.
        * f_equal. change (IZR 0) with 0. symmetry. apply Hout. unfold inwin. intros Hw.
          rewrite <- not_true_iff_false, inb_true in Ei. lia.
      + destruct (inb _ _ _ _) eqn:Ei.
        * f_equal; lia.
        * symmetry. apply Hout. unfold inwin. intros Hw.
          rewrite <- not_true_iff_false, inb_true in Ei. lia.
    - apply orb_false_iff in Ec. destruct Ec as [Ea Eb].
      apply negb_false_iff, Z.eqb_eq in Ea. apply negb_false_iff, Z.eqb_eq in Eb.
      assert (l = 0 /\ r = 0 /\ b = 0 /\ t = 0)%Z as (-> & -> & -> & ->) by lia.
      rewrite !Z.add_0_r, !Z.sub_0_r. reflexivity. }
  subst g'. unfold with_body, conc, grow_win, set_win. cbn. do 2 f_equal. f_equal; do 2 f_equal; lia.
Qed.
