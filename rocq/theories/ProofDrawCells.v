(** * Filled cells, potential maps, acres, quick tracks: C85-C88; concrete cases for C84 *)
From Coq Require Import Reals Lra Lia Psatz List ZArith.
From Verif Require Import Py Num NumXR Grid ModelField ModelAquifer ModelObs ModelPlot ModelDraw SpecField SpecAquifer SpecPlot SpecDraw ProofField ProofFieldProps ProofFieldHist ProofOps ProofAquifer ProofPlot ProofDecile ProofPlotEx ProofContour ProofDraw.
Import ListNotations.
Local Open Scope R_scope.

Lemma run_functional fuel l : forall s a b, run fuel s l a -> run fuel s l b -> a = b.
Proof.
  induction l as [|o l IH]; intros s a b Ha Hb; inversion Ha; inversion Hb; subst; [reflexivity|].
  match goal with H1 : run_op fuel s o = (?x, _), H2 : run_op fuel s o = (?y, _) |- _ => assert (x = y) by congruence; subst end. eauto.
Qed.

(** The field with two paths: the values that are plotted, continued by 0. *)
Lemma two_paths_plotted : exists s0 s X Y f, pf_init (Fin 1) (Fin 1) (Fin 0) (Fin 0) = Ok s0 /\ run 1 s0 two_paths s /\
  wf s /\ total s 2 /\ length X = 3%nat /\ length Y = 3%nat /\
  create_probability_plot s = Ok (X, Y, tab 3 3 (fun i j => Fin (f i j))) /\
  (forall i j, f i j = if (0 <=? i)%Z && (i <? 3)%Z && (0 <=? j)%Z && (j <? 3)%Z then (if (i =? 0)%Z then 1/2 else 1) else 0).
Proof.
  destruct c71_example as (s0 & s & P & E & Hr & _ & Ht & EP & _ & _).
  destruct two_paths_field as (s0' & s' & E' & Hr' & Hw & Ht' & D1 & D2 & He).
  assert (s0' = s0) by congruence. subst s0'. assert (s' = s) by (eapply run_functional; eauto). subst s'.
  destruct (drawn_form s 2 1 Hw Ht ltac:(lra)) as (nr & nc & X & Y & f & Hnr & Hnc & LX & LY & E1 & F0 & _).
  rewrite EP in E1. injection E1 as <- <- EPt. cbn in LX, LY. assert (nr = 3%Z /\ nc = 3%Z) as [-> ->] by lia.
  exists s0, s. eexists. eexists. exists f. split; [exact E|]. split; [exact Hr|]. split; [exact Hw|]. split; [exact Ht|].
  split; [|split; [|split; [rewrite EP, EPt; reflexivity|]]]; [reflexivity|reflexivity|].
  destruct (c71_axes s 2 Hw Ht ltac:(lra)) as (g & dx & dy & x0 & y0 & P' & Eg & Dx & Dy & Ex & Ey & EP' & Hn & _).
  rewrite EP in EP'. injection EP' as EX EY <-. rewrite Dx in D1. rewrite Dy in D2. injection D1 as ->. injection D2 as ->.
  assert (NC : ncols g = 3%Z). { apply (f_equal (@length xr)) in EX. cbn [length] in EX. rewrite map_length, zrange_length in EX. lia. }
  assert (NR : nrows g = 3%Z). { apply (f_equal (@length xr)) in EY. cbn [length] in EY. rewrite map_length, zrange_length in EY. lia. }
  rewrite NR, NC in *. cbn in EX, EY. injection EX as EX _ _. injection EY as EY _ _. assert (x0 = -1) by lra. assert (y0 = -1) by lra. subst x0 y0.
  intros i j. destruct (inb 3 3 i j) eqn:B.
  - apply inb_true in B. destruct B as [Bi Bj]. destruct (Hn i j Bi Bj) as (w & m & Hno & Eij). rewrite EPt, get2_tab in Eij.
    replace (inb 3 3 i j) with true in Eij by (symmetry; apply inb_true; lia). injection Eij as ->.
    assert (Hin : In ((-1 + IZR j * 1, -1 + IZR i * 1), w) (listed weight_two)) by (apply He; eauto). apply in_listed in Hin. destruct Hin as (_ & _ & ->).
    unfold weight_two. assert (i = 0 \/ i = 1 \/ i = 2)%Z as [->|[->| ->]] by lia; assert (j = 0 \/ j = 1 \/ j = 2)%Z as [->|[->| ->]] by lia; cbn [Z.leb Z.ltb Z.eqb Z.compare andb Pos.compare Pos.compare_cont]; destruct (Req_EM_T _ _); lra.
  - rewrite F0 by (intros Q; apply inb_true in Q; congruence).
    destruct ((0 <=? i)%Z && (i <? 3)%Z && (0 <=? j)%Z && (j <? 3)%Z) eqn:Q; [|reflexivity]. exfalso.
    repeat (apply andb_prop in Q; destruct Q as [Q ?]). assert (inb 3 3 i j = true) by (apply inb_true; lia). congruence.
Qed.

(** In that field (probability 1/2 along y = -1, 1 elsewhere), smoothed with standard deviation 1/4 (cut-off 1), the
    value in the middle is a bit less than 1; a border node with probability 1, surrounded by such nodes, loses too. *)
Lemma c84_example : exists s0 s X Y Q g, pf_init (Fin 1) (Fin 1) (Fin 0) (Fin 0) = Ok s0 /\ run 1 s0 two_paths s /\
  wf s /\ total s 2 /\ cut_off (1/4) 1 /\ 0 < g < 1 /\
  drawn_probabilities fexp s (Fin (1/4)) = Ok (X, Y, Q) /\
  get2 Q 1 1 = Some (Fin (1 - g / 2)) /\ get2 Q 2 1 = Some (Fin (1 - g)).
Proof.
  destruct two_paths_plotted as (s0 & s & X & Y & f & E & Hr & Hw & Ht & LX & LY & EP & Hf).
  assert (C : cut_off (1/4) 1) by (unfold cut_off; lra).
  destruct (c84_gaussian_mean s 2 (1/4) 1 Hw Ht ltac:(lra) ltac:(lra) C) as (X' & Y' & P & Q & EP' & EQ & _ & HQ).
  rewrite EP in EP'. injection EP' as <- <- <-. rewrite LX, LY in HQ.
  exists s0, s, X, Y, Q, (bell_weight (1/4) 1 1). repeat (split; [assumption|]).
  pose proof (weight_sum (1/4) 1 ltac:(lia)) as S. unfold zsum in S.
  change (zrange (- (1)) (1 + 1)) with [-1; 0; 1]%Z in S. cbn [fold_right] in S.
  change (-1)%Z with (- (1))%Z in S. rewrite weight_even in S.
  pose proof (weight_pos (1/4) 1 1 ltac:(lia)). pose proof (weight_pos (1/4) 1 0 ltac:(lia)).
  split; [lra|]. split; [exact EQ|].
  assert (T : forall i j, table (tab 3 3 (fun i j => Fin (f i j))) i j = f i j).
  { intros i j. rewrite table_tab. destruct (inb 3 3 i j) eqn:B; [reflexivity|]. rewrite Hf.
    destruct ((0 <=? i)%Z && (i <? 3)%Z && (0 <=? j)%Z && (j <? 3)%Z) eqn:W; [|reflexivity]. exfalso.
    repeat (apply andb_prop in W; destruct W as [W ?]). assert (inb 3 3 i j = true) by (apply inb_true; lia). congruence. }
  rewrite !HQ by lia.
  assert (B : forall i j, blurred (1/4) 1 (table (tab 3 3 (fun i j => Fin (f i j)))) i j = blurred (1/4) 1 f i j) by (intros; apply blurred_ext, T).
  rewrite !B. unfold blurred, zsum.
  change (zrange (- (1)) (1 + 1)) with [-1; 0; 1]%Z. cbn [fold_right].
  rewrite !Hf. cbn [Z.leb Z.ltb Z.eqb Z.compare andb Pos.compare Pos.compare_cont Z.add Pos.add Z.pos_sub Pos.succ Pos.pred_double].
  change (-1)%Z with (- (1))%Z. rewrite !weight_even. set (a := bell_weight (1/4) 1 1) in *. set (b := bell_weight (1/4) 1 0) in *.
  assert (b = 1 - 2 * a) by lra. split; do 2 f_equal; rewrite H1; field.
Qed.

(** ** C85 *)
Lemma cells_row {A} (l : list A) (body : A -> list (list xr * list xr) -> res (list (list xr * list xr))) (keep : A -> bool) (c : A -> list xr * list xr) :
  (forall a acc, In a l -> body a acc = Ok (if keep a then acc ++ [c a] else acc)) ->
  forall acc, for_in l body acc = Ok (acc ++ map c (filter keep l)).
Proof.
  induction l as [|a l IH]; intros H acc; cbn [for_in filter map]; [rewrite app_nil_r; reflexivity|].
  rewrite H by (left; reflexivity). cbn [bind]. rewrite IH by (intros; apply H; right; assumption).
  destruct (keep a); cbn [map]; [rewrite <- app_assoc|]; reflexivity.
Qed.
Lemma cells_rows {A} (l : list A) (body : A -> list (list xr * list xr) -> res (list (list xr * list xr))) (r : A -> list (list xr * list xr)) :
  (forall a acc, In a l -> body a acc = Ok (acc ++ r a)) ->
  forall acc, for_in l body acc = Ok (acc ++ concat (map r l)).
Proof.
  induction l as [|a l IH]; intros H acc; cbn [for_in map concat]; [rewrite app_nil_r; reflexivity|].
  rewrite H by (left; reflexivity). cbn [bind]. rewrite IH by (intros; apply H; right; assumption). rewrite <- app_assoc. reflexivity.
Qed.
Lemma combine_seq_map (f : Z -> xr) n : (0 <= n)%Z -> combine (seq 0 (Z.to_nat n)) (map f (zrange 0 n)) = map (fun j => (Z.to_nat j, f j)) (zrange 0 n).
Proof.
  intros Hn. rewrite zrange_seq, !map_map. generalize (seq 0 (Z.to_nat n)). induction l as [|k l IH]; [reflexivity|]. cbn [map combine]. rewrite IH, Nat2Z.id. reflexivity.
Qed.

(** The cells that are filled are, one for one, the rectangles with the spacings as sides around the nodes of positive
    weight; their number times the area of a rectangle is the area that is returned. *)
Lemma c85_cells : forall (s : pfield xr) (W dx dy : R), wf s -> total s W -> 0 < W -> deltax s = Fin dx -> deltay s = Fin dy ->
  exists nodes : list point, NoDup nodes /\
    (forall x y, In (x, y) nodes <-> exists w m, has_node s x y w m /\ 0 < w) /\
    filled_cells s = Ok (map (fun p => fin_cell (rectangle (fst p) (snd p) dx dy)) nodes) /\
    create_deterministic_plot s = Ok (Fin (INR (length nodes) * (dx * dy))).
Proof.
  intros s W dx dy Hwf HT HW Ex Ey. pose proof HT as (g & Eg & EW). destruct (wf_rep s Hwf) as (a & Hok & ->); [unfold initialised; congruence|].
  assert (EWa : ProofField.W a = W) by (injection Eg as <-; cbn in EW; congruence). subst W.
  cbn [deltax deltay conc] in Ex, Ey. injection Ex as <-. injection Ey as <-.
  pose proof (conc_enumerates a Hok) as He.
  set (pos := fun n : point * R => if Rlt_dec 0 (snd n) then true else false).
  exists (map fst (filter pos (conc_enum a))). split; [|split; [|split]].
  - destruct He as [N _]. revert N. generalize (conc_enum a). induction l as [|n l IH]; intros N; [constructor|]. cbn [map] in N. inversion N as [|? ? N1 N2]; subst.
    cbn [filter]. destruct (pos n); [cbn [map]; constructor|]; auto. intros Q. apply N1. apply in_map_iff in Q. destruct Q as (n' & E & Q). apply filter_In in Q. apply in_map_iff. exists n'. tauto.
  - intros x y. rewrite in_map_iff. split.
    + intros ([p w] & E & Q). cbn in E. subst p. apply filter_In in Q. destruct Q as [Q1 Q2]. apply He in Q1. destruct Q1 as (m & Q1). exists w, m. split; [exact Q1|].
      unfold pos in Q2. cbn in Q2. destruct (Rlt_dec 0 w); [assumption|discriminate].
    + intros (w & m & Hn & Hw). exists ((x, y), w). split; [reflexivity|]. apply filter_In. split; [apply He; eauto|]. unfold pos. cbn. destruct (Rlt_dec 0 w); [reflexivity|contradiction].
  - pose proof (conc_probs a g Eg HW) as EP. pose proof Hok as (Hdx & Hdy & Hc & Hr & _). destruct (conc_axes a Hok) as [AX AY].
    unfold filled_cells. rewrite Eg, EW. cbn [nle nZ XR xle]. destruct (Rleb_spec (ProofField.W a) 0); [lra|]. rewrite EP.
    injection Eg as <-. cbn [xmin xmax ymin ymax nrows ncols]. rewrite AX, AY. cbn [bind].
    assert (N0 : forall f n, (0 < n)%Z -> py_nth (map (fun j => Fin (f j)) (zrange 0 n)) 0 = Ok (Fin (f 0%Z))).
    { intros f k Hk. unfold py_nth. rewrite nth_error_map, nth_error_zrange. cbn [Z.of_nat]. rewrite Z.sub_0_r. destruct (Z.ltb_spec 0 k); [|lia]. reflexivity. }
    assert (N1 : forall f n, (1 < n)%Z -> py_nth (map (fun j => Fin (f j)) (zrange 0 n)) 1 = Ok (Fin (f 1%Z))).
    { intros f k Hk. unfold py_nth. rewrite nth_error_map, nth_error_zrange. cbn [Z.of_nat Pos.of_succ_nat]. rewrite Z.sub_0_r. destruct (Z.ltb_spec 1 k); [|lia]. reflexivity. }
    rewrite (N0 (fun j => lat (X0 a) (Dx a) (C0 a + j))) by lia. rewrite (N1 (fun j => lat (X0 a) (Dx a) (C0 a + j))) by lia.
    rewrite (N0 (fun j => lat (Y0 a) (Dy a) (R0 a + j))) by lia. rewrite (N1 (fun j => lat (Y0 a) (Dy a) (R0 a + j))) by lia. cbn [bind].
    rewrite !map_length, !zrange_length, !Z.sub_0_r, !combine_seq_map by lia.
    set (cell := fun i j => fin_cell (rectangle (lat (X0 a) (Dx a) (C0 a + j)) (lat (Y0 a) (Dy a) (R0 a + i)) (Dx a) (Dy a))).
    set (keep := fun i j => if Rlt_dec 0 (P a (R0 a + i) (C0 a + j)) then true else false).
    assert (Inner : forall i acc, (0 <= i < NR a)%Z -> for_in (map (fun j => (Z.to_nat j, Fin (lat (X0 a) (Dx a) (C0 a + j)))) (zrange 0 (NC a)))
       (fun '(j, x) cells => match get2 (tab (NR a) (NC a) (fun i j => Fin (P a (R0 a + i) (C0 a + j) / ProofField.W a))) (Z.of_nat (Z.to_nat i)) (Z.of_nat j) with
          | Some z => if nlt (Fin 0) z then Ok (cells ++ [([nsub x (ndiv (nsub (Fin (lat (X0 a) (Dx a) (C0 a + 1))) (Fin (lat (X0 a) (Dx a) (C0 a + 0)))) (nZ 2)); nadd x (ndiv (nsub (Fin (lat (X0 a) (Dx a) (C0 a + 1))) (Fin (lat (X0 a) (Dx a) (C0 a + 0)))) (nZ 2)); nadd x (ndiv (nsub (Fin (lat (X0 a) (Dx a) (C0 a + 1))) (Fin (lat (X0 a) (Dx a) (C0 a + 0)))) (nZ 2)); nsub x (ndiv (nsub (Fin (lat (X0 a) (Dx a) (C0 a + 1))) (Fin (lat (X0 a) (Dx a) (C0 a + 0)))) (nZ 2)); nsub x (ndiv (nsub (Fin (lat (X0 a) (Dx a) (C0 a + 1))) (Fin (lat (X0 a) (Dx a) (C0 a + 0)))) (nZ 2))],
              [nsub (Fin (lat (Y0 a) (Dy a) (R0 a + i))) (ndiv (nsub (Fin (lat (Y0 a) (Dy a) (R0 a + 1))) (Fin (lat (Y0 a) (Dy a) (R0 a + 0)))) (nZ 2)); nsub (Fin (lat (Y0 a) (Dy a) (R0 a + i))) (ndiv (nsub (Fin (lat (Y0 a) (Dy a) (R0 a + 1))) (Fin (lat (Y0 a) (Dy a) (R0 a + 0)))) (nZ 2)); nadd (Fin (lat (Y0 a) (Dy a) (R0 a + i))) (ndiv (nsub (Fin (lat (Y0 a) (Dy a) (R0 a + 1))) (Fin (lat (Y0 a) (Dy a) (R0 a + 0)))) (nZ 2)); nadd (Fin (lat (Y0 a) (Dy a) (R0 a + i))) (ndiv (nsub (Fin (lat (Y0 a) (Dy a) (R0 a + 1))) (Fin (lat (Y0 a) (Dy a) (R0 a + 0)))) (nZ 2)); nsub (Fin (lat (Y0 a) (Dy a) (R0 a + i))) (ndiv (nsub (Fin (lat (Y0 a) (Dy a) (R0 a + 1))) (Fin (lat (Y0 a) (Dy a) (R0 a + 0)))) (nZ 2))])]) else Ok cells
          | None => Raise IndexError end) acc = Ok (acc ++ map (cell i) (filter (keep i) (zrange 0 (NC a))))).
    { intros i acc Hi.
      rewrite (cells_row _ _ (fun jx => keep i (Z.of_nat (fst jx))) (fun jx => cell i (Z.of_nat (fst jx)))).
      - f_equal. f_equal.
        assert (G : forall l, (forall j, In j l -> 0 <= j)%Z -> map (fun jx : nat * xr => cell i (Z.of_nat (fst jx))) (filter (fun jx => keep i (Z.of_nat (fst jx))) (map (fun j => (Z.to_nat j, Fin (lat (X0 a) (Dx a) (C0 a + j)))) l)) = map (cell i) (filter (keep i) l)).
        { induction l as [|j l IH]; intros Hl; [reflexivity|]. cbn [map filter fst]. rewrite Z2Nat.id by (apply Hl; left; reflexivity).
          destruct (keep i j); cbn [map fst]; rewrite ?IH by (intros; apply Hl; right; assumption); [rewrite Z2Nat.id by (apply Hl; left; reflexivity)|]; reflexivity. }
        apply G. intros j Hj. apply in_zrange in Hj. lia.
      - intros [j x] acc' Hj. apply in_map_iff in Hj. destruct Hj as (j' & Ej & Hj). injection Ej as <- <-. apply in_zrange in Hj. cbn [fst].
        rewrite !Z2Nat.id by lia. rewrite get2_tab. replace (inb _ _ _ _) with true by (symmetry; apply inb_true; lia).
        cbn [nlt nsub nadd nZ XR xlt xsub xadd]. cbn [ndiv XR]. rewrite !div_fin by lra. cbn [xsub xadd].
        replace (lat (X0 a) (Dx a) (C0 a + 1) - lat (X0 a) (Dx a) (C0 a + 0)) with (Dx a) by (unfold lat; rewrite !plus_IZR; ring).
        replace (lat (Y0 a) (Dy a) (R0 a + 1) - lat (Y0 a) (Dy a) (R0 a + 0)) with (Dy a) by (unfold lat; rewrite !plus_IZR; ring).
        unfold keep. destruct (Rltb_spec 0 (P a (R0 a + i) (C0 a + j') / ProofField.W a)) as [L|L];
        destruct (Rlt_dec 0 (P a (R0 a + i) (C0 a + j'))) as [L'|L']; try reflexivity; exfalso.
        + apply L'. unfold Rdiv in L. apply Rmult_lt_reg_r with (/ ProofField.W a); [apply Rinv_0_lt_compat, HW|]. lra.
        + apply L. apply Rdiv_lt_0_compat; assumption. }
    rewrite (cells_rows _ _ (fun iy => map (cell (Z.of_nat (fst iy))) (filter (keep (Z.of_nat (fst iy))) (zrange 0 (NC a))))).
    + cbn [app]. f_equal. rewrite map_map. cbn [fst]. rewrite map_map. unfold conc_enum, tab.
      assert (G : forall l, (forall i, In i l -> 0 <= i)%Z -> concat (map (fun i => map (cell (Z.of_nat (Z.to_nat i))) (filter (keep (Z.of_nat (Z.to_nat i))) (zrange 0 (NC a)))) l)
        = map (fun x : point * R => fin_cell (rectangle (fst (fst x)) (snd (fst x)) (Dx a) (Dy a)))
            (filter pos (concat (map (fun i => map (fun j => ((lat (X0 a) (Dx a) (C0 a + j), lat (Y0 a) (Dy a) (R0 a + i)), P a (R0 a + i) (C0 a + j))) (zrange 0 (NC a))) l)))).
      { induction l as [|i l IH]; intros Hl; [reflexivity|]. cbn [map concat]. rewrite filter_app, map_app, IH by (intros; apply Hl; right; assumption). f_equal.
        rewrite Z2Nat.id by (apply Hl; left; reflexivity). generalize (zrange 0 (NC a)). induction l0 as [|j l0 IH0]; [reflexivity|]. cbn [map filter]. unfold pos at 1. cbn [snd]. unfold keep at 1.
        destruct (Rlt_dec 0 (P a (R0 a + i) (C0 a + j))); cbn [map]; rewrite IH0; reflexivity. }
      apply G. intros i Hi. apply in_zrange in Hi. lia.
    + intros [i y] acc Hi. apply in_map_iff in Hi. destruct Hi as (i' & Ei & Hi). injection Ei as <- <-. apply in_zrange in Hi. cbn [fst]. etransitivity; [apply (Inner i' acc Hi)|]. rewrite Z2Nat.id by lia. reflexivity.
  - rewrite (c70_area _ _ _ _ _ Hwf HT HW eq_refl eq_refl He). rewrite map_length. reflexivity.
Qed.

(** The interiors of the cells of different nodes have no common point. *)
Lemma c85_disjoint : forall (s : pfield xr) (dx dy x y x' y' w w' : R) (m m' : bool) (p : point), wf s -> deltax s = Fin dx -> deltay s = Fin dy ->
  has_node s x y w m -> has_node s x' y' w' m' ->
  inside_rectangle x y dx dy p -> inside_rectangle x' y' dx dy p -> (x, y) = (x', y').
Proof.
  intros s dx dy x y x' y' w w' m m' [px py] Hwf Ex Ey Hn Hn' [I1 I2] [J1 J2]. cbn [fst snd] in *.
  destruct Hwf as (dx0 & dy0 & E1 & E2 & P1 & P2 & _). assert (dx0 = dx) by congruence. assert (dy0 = dy) by congruence. subst.
  destruct Hn as (g & i & j & dx1 & dy1 & x0 & y0 & Eg & A1 & A2 & A3 & A4 & -> & -> & _).
  destruct Hn' as (g' & i' & j' & dx2 & dy2 & x0' & y0' & Eg' & B1 & B2 & B3 & B4 & -> & -> & _).
  assert (g' = g) by congruence. subst g'. assert (dx1 = dx /\ dx2 = dx /\ dy1 = dy /\ dy2 = dy /\ x0' = x0 /\ y0' = y0) as (-> & -> & -> & -> & -> & ->) by (repeat split; congruence).
  assert (K : forall a b c d q, 0 < d -> Rabs (q - (c + IZR a * d)) < d / 2 -> Rabs (q - (c + IZR b * d)) < d / 2 -> a = b).
  { intros a b c d q Hd H1 H2. apply Rabs_def2 in H1, H2. assert (L1 : IZR (a - b) < IZR 1) by (rewrite minus_IZR; apply Rmult_lt_reg_r with d; lra).
    assert (L2 : IZR (-1) < IZR (a - b)) by (rewrite minus_IZR; apply Rmult_lt_reg_r with d; lra). apply lt_IZR in L1, L2. lia. }
  rewrite (K j j' x0 dx px P1 I1 J1), (K i i' y0 dy py P2 I2 J2). reflexivity.
Qed.

(** One path along y = 0 on the grid -1, 0, 1: three unit squares are filled, their total area is returned. *)
Lemma c85_example : exists s0 s, pf_init (Fin 1) (Fin 1) (Fin 0) (Fin 0) = Ok s0 /\ run 1 s0 one_path s /\
  wf s /\ total s 1 /\ (exists cells, filled_cells s = Ok cells /\ length cells = 3%nat /\
    In ([Fin (-1/2); Fin (1/2); Fin (1/2); Fin (-1/2); Fin (-1/2)], [Fin (-1/2); Fin (-1/2); Fin (1/2); Fin (1/2); Fin (-1/2)]) cells) /\
  create_deterministic_plot s = Ok (Fin 3).
Proof.
  destruct one_path_field as (s0 & s & E & Hr & Hw & Ht & D1 & D2 & He). exists s0, s. repeat (split; [assumption|]).
  assert (A : create_deterministic_plot s = Ok (Fin 3)).
  { rewrite (c70_area s 1 1 1 _ Hw Ht ltac:(lra) D1 D2 He). rewrite listed_one. unfold captured. cbn [filter snd].
    repeat (destruct (Rlt_dec 0 _); [|]; try lra). cbn [length]. apply f_equal, f_equal. cbn. lra. }
  destruct (c85_cells s 1 1 1 Hw Ht ltac:(lra) D1 D2) as (nodes & N & Hi & F & A'). split; [|exact A].
  eexists. split; [exact F|]. split.
  - rewrite map_length. rewrite A in A'. injection A' as A'. apply INR_eq. change (@length (R * R) nodes) with (@length point nodes). rewrite (INR_IZR_INZ 3). change (IZR (Z.of_nat 3)) with 3. rewrite A'. ring.
  - apply in_map_iff. exists (0, 0). split.
    + unfold fin_cell, rectangle. cbn [fst snd map]. repeat (apply f_equal2 || apply f_equal); try reflexivity; lra.
    + apply Hi. assert (Q : In ((0, 0), 1) (listed weight_one)) by (rewrite listed_one; cbn; tauto). apply He in Q. destruct Q as (m & Q). exists 1, m. split; [exact Q|lra].
Qed.

(** ** C86 *)

(** The map of the potential is drawn for every model and has the potential at each grid location. *)
Lemma c86_map : forall (m : model xr) (x0 x1 y0 y1 : R) (nr nc : Z), (2 <= nr)%Z -> (2 <= nc)%Z ->
  exists grid, contour_potential m (Fin x0) (Fin x1) (Fin y0) (Fin y1) nr nc = Ok grid /\ rect nr nc grid /\
    forall i j, (0 <= i < nr)%Z -> (0 <= j < nc)%Z ->
      get2 grid i j = Some (compute_potential m (Fin (spaced x0 x1 nc j)) (Fin (spaced y0 y1 nr i))).
Proof.
  intros m x0 x1 y0 y1 nr nc Hr Hc. unfold contour_potential. rewrite !linspace_spaced by assumption. cbn [bind].
  exists (tab nr nc (fun i j => compute_potential m (Fin (spaced x0 x1 nc j)) (Fin (spaced y0 y1 nr i)))). split.
  - f_equal. unfold tab. rewrite map_map. apply map_ext. intros i. rewrite map_map. reflexivity.
  - split; [apply rect_tab; lia|]. intros i j Hi Hj. rewrite get2_tab. replace (inb _ _ _ _) with true by (symmetry; apply inb_true; lia). reflexivity.
Qed.

(** In any arithmetic, for any window: the map fails exactly for a negative size (ValueError). *)
Lemma c86_total : forall (T : Type) (N : Num T) (m : model T) (x0 x1 y0 y1 : T) (nr nc : Z),
  ((0 <= nr)%Z /\ (0 <= nc)%Z -> exists grid, contour_potential m x0 x1 y0 y1 nr nc = Ok grid) /\
  ((nr < 0)%Z \/ (nc < 0)%Z -> contour_potential m x0 x1 y0 y1 nr nc = Raise ValueError).
Proof.
  intros T N m x0 x1 y0 y1 nr nc. unfold contour_potential, linspace. split.
  - intros [H1 H2]. destruct (Z.ltb_spec nc 0); [lia|]. destruct (Z.ltb_spec nr 0); [lia|]. destruct (nc =? 1)%Z, (nr =? 1)%Z; cbn [bind]; eauto.
  - intros [H|H].
    + destruct (Z.ltb_spec nc 0); [reflexivity|]. destruct (nc =? 1)%Z; cbn [bind]; (destruct (Z.ltb_spec nr 0); [reflexivity|lia]).
    + destruct (Z.ltb_spec nc 0); [reflexivity|lia].
Qed.

(** The potential of the example model is its x-coordinate, also where the aquifer is dry. *)
Lemma c86_example : exists grid, contour_potential (fmodel slope) (Fin (-1)) (Fin 1) (Fin 0) (Fin 1) 2 3 = Ok grid /\
  dry slope (-1) 0 /\ get2 grid 0 0 = Some (Fin (-1)) /\ get2 grid 1 2 = Some (Fin 1).
Proof.
  destruct (c86_map (fmodel slope) (-1) 1 0 1 2 3 ltac:(lia) ltac:(lia)) as (grid & E & _ & H). exists grid. split; [exact E|].
  split; [apply slope_dry; lra|]. rewrite !H by lia. rewrite !slope_pot. unfold spaced. split; do 2 f_equal; cbn; lra.
Qed.

(** ** C87 *)

(** Each point of the impact plot stands at the whole number of acres (4046.86 square metres) in its area. *)
Lemma c87_whole_acres_partial : forall (pr area : list xr) (k : nat) (p : xr) (a : R), nth_error (impact_points pr area) k = Some (p, Fin a) ->
  exists n, nth_error (impact_drawn pr area) k = Some (p, Fin (IZR n)) /\ IZR n * (404686 / 100) <= a < (IZR n + 1) * (404686 / 100).
Proof.
  intros pr area k p a H. exists (Int_part (a / (404686 / 100))). split.
  - unfold impact_drawn. rewrite nth_error_map, H. cbn [option_map]. unfold whole_acres. cbn [nlit ndiv XR]. rewrite div_fin by lra. reflexivity.
  - pose proof (Int_part_le (a / (404686 / 100))). pose proof (Int_part_lt (a / (404686 / 100))).
    assert (E : a = a / (404686 / 100) * (404686 / 100)) by field. set (q := a / (404686 / 100)) in *. rewrite E. split; nra.
Qed.

(** All cells of the field together are less than one acre: every point of the plot stands at height 0, which a
    logarithmic axis cannot show. *)
Lemma c87_small_partial : forall (s : pfield xr) (sp W : R) (l : list (point * R)) pr area, wf s -> total s W -> 0 < W -> enumerates s l ->
  INR (length l) * (sp * sp) < 404686 / 100 -> create_impact_plot (Fin sp) s = Ok (pr, area) ->
  forall v h, In (v, h) (impact_drawn pr area) -> h = Fin 0.
Proof.
  intros s sp W l pr area Hwf HT HW He Hs E v h Hin.
  destruct (proj2 (c68_curve s sp W l Hwf HT He) HW) as (pr' & E' & Hp & _). rewrite E in E'. injection E' as -> ->.
  unfold impact_drawn in Hin. apply in_map_iff in Hin. destruct Hin as ((p & a) & Ev & Hin). injection Ev as <- <-.
  assert (Ha : In a (map (fun k => Fin (INR (k + 1) * (sp * sp))) (seq 0 (length pr')))).
  { unfold impact_points in Hin. match type of Hin with In _ (firstn ?n (skipn ?m ?c)) => assert (In (p, a) c) by (rewrite <- (firstn_skipn m c); apply in_or_app; right; rewrite <- (firstn_skipn n (skipn m c)); apply in_or_app; left; exact Hin) end.
    eapply in_combine_r; eauto. }
  apply in_map_iff in Ha. destruct Ha as (k & <- & Hk). apply in_seq in Hk.
  assert (HL : length pr' = length l) by (apply Permutation.Permutation_length in Hp; rewrite map_length in Hp; exact Hp).
  assert (B1 : 0 <= INR (k + 1) * (sp * sp)) by (apply Rmult_le_pos; [apply pos_INR|nra]).
  assert (B2 : INR (k + 1) * (sp * sp) <= INR (length l) * (sp * sp)) by (apply Rmult_le_compat_r; [nra|apply le_INR; lia]).
  unfold whole_acres. cbn [nlit ndiv XR]. rewrite div_fin by lra. cbn [nfloor XR xfloor nZ].
  replace (Int_part (INR (k + 1) * (sp * sp) / (404686 / 100))) with 0%Z; [reflexivity|]. symmetry. apply Int_part_unique.
  assert (Ed : INR (k + 1) * (sp * sp) = INR (k + 1) * (sp * sp) / (404686 / 100) * (404686 / 100)) by field.
  set (q := INR (k + 1) * (sp * sp) / (404686 / 100)) in *. split; nra.
Qed.

(** A field with spacing 10 and three probabilities: five points, of 300 to 700 square metres, none of which appears
    on the logarithmic axis. *)
Lemma c87_refuted : exists s0 s pr area, pf_init (Fin 1) (Fin 1) (Fin 0) (Fin 0) = Ok s0 /\ run 1 s0 thin_paths s /\
  wf s /\ total s 2 /\ create_impact_plot (Fin 10) s = Ok (pr, area) /\
  impact_points pr area = [(Fin 1, Fin 300); (Fin (1/2), Fin 400); (Fin (1/2), Fin 500); (Fin (1/2), Fin 600); (Fin 0, Fin 700)] /\
  impact_drawn pr area = [(Fin 1, Fin 0); (Fin (1/2), Fin 0); (Fin (1/2), Fin 0); (Fin (1/2), Fin 0); (Fin 0, Fin 0)].
Proof.
  destruct c78_example as (s0 & s & pr & area & E0 & Hr & Hw & Ht & He & _ & _ & E & I). exists s0, s, pr, area. repeat (split; [assumption|]).
  assert (H : forall v h, In (v, h) (impact_drawn pr area) -> h = Fin 0).
  { apply (c87_small_partial s 10 2 _ pr area Hw Ht ltac:(lra) He); [|exact E].
    replace (length (listed weight_thin)) with 9%nat by reflexivity. cbn. lra. }
  unfold impact_drawn in *. rewrite I in *. cbn [map] in *. repeat (f_equal; [f_equal; eapply H; cbn; tauto|]). f_equal. f_equal. eapply H. cbn. tauto.
Qed.

(** ** C88 *)

(** For a Model and at least one ray the call fails: nothing is drawn. *)
Lemma c88_refuted : forall (T : Type) (N : Num T) (radius xc yc maxstep : T) (nrays nyears : Z), (0 < nrays)%Z ->
  quick_tracks model_backtrack radius xc yc nrays nyears maxstep = Raise AttributeError.
Proof.
  intros T N radius xc yc maxstep nrays nyears H. unfold quick_tracks, linspace. destruct (Z.ltb_spec nrays 0); [lia|].
  destruct (Z.eqb_spec nrays 1) as [->|Q]; [reflexivity|]. cbn [bind]. rewrite zrange_cons by lia. reflexivity.
Qed.

(** With an object that can compute the tracks (times and locations), the piece for a year holds the locations strictly
    inside the year; those at whole years, among them the start, are in no piece. *)
Lemma c88_pieces_partial : forall (nyears : Z) (sol : list (R * (R * R))) (x y : R),
  let pieces := year_pieces nyears (map (fun '(t, (a, b)) => (Fin t, (Fin a, Fin b))) sol) in
  (forall k piece, nth_error pieces k = Some piece ->
     (In (Fin x, Fin y) piece <-> exists t, In (t, (x, y)) sol /\ IZR (Z.of_nat k * 365) < t < IZR ((Z.of_nat k + 1) * 365))) /\
  (length pieces = Z.to_nat nyears).
Proof.
  intros nyears sol x y pieces. split.
  - intros k piece Hk. unfold pieces, year_pieces in Hk. rewrite nth_error_map, nth_error_zrange in Hk.
    destruct (Z.ltb_spec (Z.of_nat k) (nyears - 0)); [|discriminate]. cbn [option_map] in Hk. injection Hk as <-. rewrite in_map_iff. split.
    + intros ((t & p) & E & Q). cbn [snd] in E. subst p. apply filter_In in Q. destruct Q as [Q1 Q2]. apply in_map_iff in Q1. destruct Q1 as ((t0 & (a & b)) & E & Q1). injection E as <- <- <-.
      exists t0. split; [exact Q1|]. cbn [nlt nZ XR xlt] in Q2. apply andb_prop in Q2. destruct Q2 as [Q2 Q3]. apply Rltb_true in Q2, Q3. lra.
    + intros (t & Q & H1 & H2). exists (Fin t, (Fin x, Fin y)). split; [reflexivity|]. apply filter_In. split.
      * apply in_map_iff. exists (t, (x, y)). auto.
      * cbn [nlt nZ XR xlt]. apply andb_true_intro. split; apply Rltb_true; assumption.
  - unfold pieces, year_pieces. rewrite map_length, zrange_length. f_equal. lia.
Qed.

(** A track with locations at days 0, 100, 365 and 500: two pieces of one location each. *)
Lemma c88_example :
  year_pieces 2 [(Fin 0, (Fin 0, Fin 0)); (Fin 100, (Fin 1, Fin 0)); (Fin 365, (Fin 2, Fin 0)); (Fin 500, (Fin 3, Fin 0))]
  = [[(Fin 1, Fin 0)]; [(Fin 3, Fin 0)]].
Proof.
  unfold year_pieces. change (zrange 0 2) with [0; 1]%Z. cbn [map filter nlt nZ XR xlt snd].
  repeat match goal with |- context [Rltb ?a ?b] => destruct (Rltb_spec a b); try (exfalso; cbn in *; lra) end; cbn [andb map snd]; reflexivity.
Qed.
