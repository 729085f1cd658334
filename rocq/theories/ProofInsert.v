(** * insert, rasterize, register, reset on the abstract field *)
From Coq Require Import Reals Lra Lia Psatz.
From Verif Require Import Py Num NumXR Grid ModelField SpecField ProofGeom ProofField.
Local Open Scope R_scope.

Definition memb (i : Z) (l : list Z) : bool := existsb (Z.eqb i) l.
Lemma memb_true i l : memb i l = true <-> In i l.
Proof.
  unfold memb. rewrite existsb_exists. split.
  - intros (x & Hx & E). apply Z.eqb_eq in E. now subst.
  - intros H. exists i. split; auto. apply Z.eqb_refl.
Qed.

Section Loops.
  Context {T : Type} {N : Num T}.
  Variables (dx dy x0 y0 ax ay bx by_ u2 : T) (nr nc : Z).
  Let cell (i j : Z) : bool :=
    nlt (distancesquared ax ay bx by_ (nadd x0 (nmul (nZ j) dx)) (nadd y0 (nmul (nZ i) dy))) u2.

  Lemma insert_cell_tab f i j :
    (0 <= i < nr)%Z -> (0 <= j < nc)%Z ->
    insert_cell dx dy x0 y0 ax ay bx by_ u2 j i (tab nr nc f) =
    Ok (tab nr nc (fun i' j' => f i' j' || ((i' =? i)%Z && (j' =? j)%Z && cell i' j'))).
  Proof.
    intros Hi Hj. unfold insert_cell. rewrite get2_tab.
    replace (inb nr nc i j) with true by (symmetry; apply inb_true; auto).
    destruct (f i j) eqn:E.
    - f_equal. apply tab_ext. intros i' j' _ _.
      destruct (Z.eqb_spec i' i), (Z.eqb_spec j' j); subst; rewrite ?E; cbn; rewrite ?orb_false_r; auto.
    - fold (cell i j). destruct (cell i j) eqn:Ec.
      + rewrite set2_tab by auto. f_equal. apply tab_ext. intros i' j' _ _.
        destruct (Z.eqb_spec i' i), (Z.eqb_spec j' j); subst; rewrite ?Ec; cbn;
          rewrite ?orb_true_r, ?orb_false_r; auto.
      + f_equal. apply tab_ext. intros i' j' _ _.
        destruct (Z.eqb_spec i' i), (Z.eqb_spec j' j); subst; rewrite ?Ec; cbn;
          rewrite ?orb_true_r, ?orb_false_r; auto.
  Qed.

  Lemma inner_loop li j f :
    (forall i, In i li -> (0 <= i < nr)%Z) -> (0 <= j < nc)%Z ->
    for_in li (fun i rg => insert_cell dx dy x0 y0 ax ay bx by_ u2 j i rg) (tab nr nc f) =
    Ok (tab nr nc (fun i' j' => f i' j' || (memb i' li && (j' =? j)%Z && cell i' j'))).
  Proof.
    revert f. induction li as [|i li IH]; intros f Hi Hj.
    - cbn. f_equal. apply tab_ext. intros. now rewrite orb_false_r.
    - cbn [for_in]. rewrite insert_cell_tab by (auto with datatypes). cbn [bind].
      rewrite IH by (auto with datatypes). f_equal. apply tab_ext. intros i' j' _ _.
      cbn [memb existsb]. fold (memb i' li).
      destruct (f i' j'), (i' =? i)%Z, (j' =? j)%Z, (cell i' j'), (memb i' li); reflexivity.
  Qed.

  Lemma outer_loop lj li f :
    (forall i, In i li -> (0 <= i < nr)%Z) -> (forall j, In j lj -> (0 <= j < nc)%Z) ->
    for_in lj (fun j rg0 =>
                 for_in li (fun i rg1 => insert_cell dx dy x0 y0 ax ay bx by_ u2 j i rg1) rg0)
           (tab nr nc f) =
    Ok (tab nr nc (fun i' j' => f i' j' || (memb i' li && memb j' lj && cell i' j'))).
  Proof.
    revert f. induction lj as [|j lj IH]; intros f Hi Hj.
    - cbn. f_equal. apply tab_ext. intros. now rewrite andb_false_r, orb_false_r.
    - cbn [for_in]. rewrite inner_loop by (auto with datatypes). cbn [bind].
      rewrite IH by (auto with datatypes). f_equal. apply tab_ext. intros i' j' _ _.
      cbn [memb existsb]. fold (memb j' lj).
      destruct (f i' j'), (memb i' li), (j' =? j)%Z, (cell i' j'), (memb j' lj); reflexivity.
  Qed.
End Loops.

Definition set_M (a : abs) (m : Z -> Z -> bool) : abs :=
  {| X0 := X0 a; Y0 := Y0 a; Dx := Dx a; Dy := Dy a; C0 := C0 a; R0 := R0 a; NC := NC a; NR := NR a;
     P := P a; M := m; W := W a |}.

(** The test that [insert] applies to lattice node (p, q). *)
Definition hit (a : abs) (ax ay bx by_ u : xr) (p q : Z) : bool :=
  nlt (distancesquared ax ay bx by_ (Fin (lat (X0 a) (Dx a) q)) (Fin (lat (Y0 a) (Dy a) p))) (nmul u u).

(** insert, whatever the arguments: it raises and leaves the field alone, or marks some
    window nodes that pass the test. *)
Lemma insert_general a ax ay bx by_ u :
  ok a ->
  (exists e, insert (conc a) ax ay bx by_ u = (conc a, Raise e)) \/
  (exists fl fr fb ft,
     nfloor (ndiv (nsub (nsub (pymin ax bx) u) (Fin (lat (X0 a) (Dx a) (C0 a)))) (Fin (Dx a))) = Ok fl /\
     nfloor (ndiv (nsub (nadd (pymax ax bx) u) (Fin (lat (X0 a) (Dx a) (C0 a)))) (Fin (Dx a))) = Ok fr /\
     nfloor (ndiv (nsub (nsub (pymin ay by_) u) (Fin (lat (Y0 a) (Dy a) (R0 a)))) (Fin (Dy a))) = Ok fb /\
     nfloor (ndiv (nsub (nadd (pymax ay by_) u) (Fin (lat (Y0 a) (Dy a) (R0 a)))) (Fin (Dy a))) = Ok ft /\
     insert (conc a) ax ay bx by_ u =
     (conc (set_M a (fun p q => M a p q ||
        ((Z.max 0 fb <=? p - R0 a)%Z && (p - R0 a <? Z.min (NR a) (ft + 1))%Z &&
         (Z.max 0 fl <=? q - C0 a)%Z && (q - C0 a <? Z.min (NC a) (fr + 1))%Z &&
         hit a ax ay bx by_ u p q))), Ok tt)).
Proof.
  intros (Hdx & Hdy & Hnc & Hnr & Hout).
  unfold insert. cbn [body conc]. unfold insert_geom. cbn [xmin ymin ncols nrows rgrid].
  change (deltax (conc a)) with (Fin (Dx a)). change (deltay (conc a)) with (Fin (Dy a)).
  destruct (nfloor (ndiv (nsub (nsub (pymin ax bx) u) _) _)) as [fl|e|] eqn:E1.
  2: { left. exists e. reflexivity. }
  2: { exfalso. revert E1. cbn. destruct (xdiv _ _); discriminate. }
  destruct (nfloor (ndiv (nsub (nadd (pymax ax bx) u) _) _)) as [fr|e|] eqn:E2.
  2: { left. exists e. reflexivity. }
  2: { exfalso. revert E2. cbn. destruct (xdiv _ _); discriminate. }
  destruct (nfloor (ndiv (nsub (nsub (pymin ay by_) u) _) _)) as [fb|e|] eqn:E3.
  2: { left. exists e. reflexivity. }
  2: { exfalso. revert E3. cbn. destruct (xdiv _ _); discriminate. }
  destruct (nfloor (ndiv (nsub (nadd (pymax ay by_) u) _) _)) as [ft|e|] eqn:E4.
  2: { left. exists e. reflexivity. }
  2: { exfalso. revert E4. cbn. destruct (xdiv _ _); discriminate. }
  right. exists fl, fr, fb, ft. repeat (split; [reflexivity|]).
  cbn [bind]. rewrite outer_loop.
  2: { intros i Hi. apply in_zrange in Hi. lia. }
  2: { intros i Hi. apply in_zrange in Hi. lia. }
  cbn [bind update]. f_equal. unfold with_body, conc. cbn. do 2 f_equal. f_equal.
  apply tab_ext. intros i j Hi Hj.
  replace (R0 a + i - R0 a)%Z with i by lia. replace (C0 a + j - C0 a)%Z with j by lia.
  f_equal.
  assert (Em : forall k lo hi, memb k (zrange lo hi) = ((lo <=? k)%Z && (k <? hi)%Z)).
  { intros. apply eq_true_iff_eq. rewrite andb_true_iff, memb_true, in_zrange. lia. }
  rewrite !Em, !andb_assoc. f_equal.
  unfold hit. cbn. rewrite <- !lat_add. reflexivity.
Qed.

Lemma pymin_fin a b : pymin (Fin a) (Fin b) = Fin (Rmin a b).
Proof. unfold pymin. cbn. unfold Rmin. rb; destruct (Rle_dec a b); try lra; f_equal; lra. Qed.
Lemma pymax_fin a b : pymax (Fin a) (Fin b) = Fin (Rmax a b).
Proof. unfold pymax. cbn. unfold Rmax. rb; destruct (Rle_dec a b); try lra; f_equal; lra. Qed.

Lemma hit_near a ax ay bx by_ u p q :
  hit a (Fin ax) (Fin ay) (Fin bx) (Fin by_) (Fin u) p q = true <->
  (ax, ay) <> (bx, by_) /\
  near u (ax, ay) (bx, by_) (lat (X0 a) (Dx a) q, lat (Y0 a) (Dy a) p).
Proof.
  unfold hit. destruct (Req_dec ax bx) as [<-|Hx]; [destruct (Req_dec ay by_) as [<-|Hy]|].
  - rewrite distancesquared_degenerate. cbn. split; [discriminate|]. intros [H _]. congruence.
  - assert (Hne : (ax, ay) <> (ax, by_)) by congruence.
    rewrite distancesquared_fin, near_dsq by exact Hne. cbn. rewrite Rltb_true. tauto.
  - assert (Hne : (ax, ay) <> (bx, by_)) by congruence.
    rewrite distancesquared_fin, near_dsq by exact Hne. cbn. rewrite Rltb_true. tauto.
Qed.

(** insert with finite arguments marks exactly the near window nodes. *)
Lemma insert_fin a ax ay bx by_ u :
  ok a -> 0 <= u ->
  exists m, insert (conc a) (Fin ax) (Fin ay) (Fin bx) (Fin by_) (Fin u) = (conc (set_M a m), Ok tt) /\
    forall p q, m p q = true <->
      M a p q = true \/
      (inwin a p q /\ (ax, ay) <> (bx, by_) /\
       near u (ax, ay) (bx, by_) (lat (X0 a) (Dx a) q, lat (Y0 a) (Dy a) p)).
Proof.
  intros Hok Hu. pose proof Hok as (Hdx & Hdy & Hnc & Hnr & Hout).
  destruct (insert_general a (Fin ax) (Fin ay) (Fin bx) (Fin by_) (Fin u) Hok)
    as [(e & He)|(fl & fr & fb & ft & E1 & E2 & E3 & E4 & E)].
  - exfalso. unfold insert, insert_geom in He. cbn [body conc xmin ymin] in He.
    rewrite !pymin_fin, !pymax_fin in He.
    change (deltax (conc a)) with (Fin (Dx a)) in He. change (deltay (conc a)) with (Fin (Dy a)) in He.
    cbn [nsub nadd XR xsub xadd ndiv] in He. rewrite !div_fin in He by lra.
    cbn [nfloor XR xfloor bind] in He. cbn [rgrid ncols nrows] in He.
    rewrite outer_loop in He; [discriminate| |]; intros i Hi; apply in_zrange in Hi; lia.
  - eexists. split; [exact E|]. intros p q. cbn beta.
    rewrite pymin_fin in E1, E3. rewrite pymax_fin in E2, E4.
    cbn [nsub nadd XR xsub xadd ndiv] in E1, E2, E3, E4.
    rewrite div_fin in E1, E2, E3, E4 by lra. cbn [nfloor XR xfloor] in E1, E2, E3, E4.
    injection E1 as <-. injection E2 as <-. injection E3 as <-. injection E4 as <-.
    rewrite orb_true_iff, !andb_true_iff, hit_near.
    rewrite !Z.leb_le, !Z.ltb_lt.
    split.
    + intros [H|H]; [auto|]. right. split; [|tauto]. unfold inwin. lia.
    + intros [H|[Hw [Hne Hn]]]; [auto|]. right. split; [|tauto].
      pose proof (near_box _ _ _ _ Hu Hn) as [[Bx1 Bx2] [By1 By2]]. cbn [fst snd] in *.
      assert (K : forall d o lo k c, 0 < d -> lo < lat o d k ->
                  (Int_part ((lo - lat o d c) / d) <= k - c)%Z).
      { intros d o lo k c Hd Hlo.
        assert ((lo - lat o d c) / d < IZR (k - c + 1)).
        { apply Rmult_lt_reg_r with d; [lra|]. unfold Rdiv. rewrite Rmult_assoc, Rinv_l by lra.
          unfold lat in *. rewrite plus_IZR, minus_IZR. lra. }
        apply Int_part_lt_Z in H. lia. }
      assert (K2 : forall d o hi k c, 0 < d -> lat o d k < hi ->
                  (k - c < Int_part ((hi - lat o d c) / d) + 1)%Z).
      { intros d o hi k c Hd Hhi.
        assert (IZR (k - c) <= (hi - lat o d c) / d).
        { apply Rmult_le_reg_r with d; [lra|]. unfold Rdiv. rewrite Rmult_assoc, Rinv_l by lra.
          unfold lat in *. rewrite minus_IZR. lra. }
        apply Int_part_ge in H. lia. }
      pose proof (K _ _ _ _ (C0 a) Hdx Bx1). pose proof (K2 _ _ _ _ (C0 a) Hdx Bx2).
      pose proof (K _ _ _ _ (R0 a) Hdy By1). pose proof (K2 _ _ _ _ (R0 a) Hdy By2).
      unfold inwin in Hw. lia.
Qed.

(** ** register and reset *)
Lemma combine_map A B C (f : A -> B) (g : A -> C) l :
  combine (map f l) (map g l) = map (fun x => (f x, g x)) l.
Proof. induction l; cbn; auto. now rewrite IHl. Qed.

Lemma mask_add_tab nr nc (f : Z -> Z -> xr) (m : Z -> Z -> bool) w :
  mask_add (tab nr nc f) (tab nr nc m) w =
  tab nr nc (fun i j => if m i j then nadd (f i j) w else f i j).
Proof.
  unfold mask_add, tab. rewrite combine_map, map_map. apply map_ext. intros i.
  rewrite combine_map, map_map. reflexivity.
Qed.

Lemma clear_tab nr nc (m : Z -> Z -> bool) : clear (tab nr nc m) = tab nr nc (fun _ _ => false).
Proof.
  unfold clear, tab. rewrite map_map. apply map_ext. intros i. rewrite map_map. reflexivity.
Qed.

Definition reg (a : abs) (w : R) : abs :=
  {| X0 := X0 a; Y0 := Y0 a; Dx := Dx a; Dy := Dy a; C0 := C0 a; R0 := R0 a; NC := NC a; NR := NR a;
     P := fun p q => if M a p q then P a p q + w else P a p q;
     M := fun _ _ => false; W := W a + w |}.

Lemma register_fin a w : register (conc a) (Fin w) = (conc (reg a w), Ok tt).
Proof.
  unfold register. cbn [body conc pgrid rgrid total_weight]. rewrite mask_add_tab, clear_tab.
  unfold with_body, conc, reg. cbn. do 3 f_equal. f_equal.
  apply tab_ext. intros. destruct (M a _ _); reflexivity.
Qed.

Lemma reset_conc a : reset (conc a) = (conc (set_M a (fun _ _ => false)), Ok tt).
Proof.
  unfold reset. cbn [body conc rgrid]. rewrite clear_tab. reflexivity.
Qed.

Lemma set_M_ok a m : ok a -> (forall p q, m p q = true -> inwin a p q) -> ok (set_M a m).
Proof.
  intros (H1 & H2 & H3 & H4 & H5) Hm.
  split; [exact H1|]. split; [exact H2|]. split; [exact H3|]. split; [exact H4|].
  intros p q Hn. cbn in *. change (inwin a p q -> False) in Hn. split; [apply H5; exact Hn|].
  destruct (m p q) eqn:E; auto. exfalso. auto.
Qed.

Lemma ok_M a p q : ok a -> M a p q = true -> inwin a p q.
Proof.
  intros (_ & _ & _ & _ & H) E. destruct (inwinb a p q) eqn:Ew.
  - now apply inwinb_true.
  - exfalso. rewrite <- not_true_iff_false, inwinb_true in Ew. destruct (H p q Ew). congruence.
Qed.

Lemma reg_ok a w : ok a -> ok (reg a w).
Proof.
  intros Hok. pose proof Hok as (H1 & H2 & H3 & H4 & H5).
  split; [exact H1|]. split; [exact H2|]. split; [exact H3|]. split; [exact H4|].
  intros p q Hn. cbn. destruct (H5 p q Hn) as [-> ->]. auto.
Qed.
