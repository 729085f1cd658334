(** * Cases of the binary64 field theorems *)
From Coq Require Import ZArith Reals Lra Lia SpecFloat List.
From Verif Require Import Py Num NumXR Grid ModelField ProofFloatGrow ProofFloatOps ProofFloatMean ProofFloatGrid ProofFloatDist ProofFloatInsert ProofFloatWeight ProofFloatField.
From Verif Require Import SpecFloats SpecExact SpecField.
Import ListNotations.
Local Open Scope R_scope.

Definition some_lm : libm := {| lm_log := fun x => x; lm_cos := fun x => x; lm_sin := fun x => x; lm_hypot := fun x _ => x; lm_root5 := fun x => x |}.

(** The field around the well, evaluated. *)
Definition well0 : pfield spec_float := Eval vm_compute in
  match @pf_init spec_float (SF some_lm) two two wx wy with Ok s => s | _ => {| deltax := two; deltay := two; body := None |} end.
Lemma well0_init lm : @pf_init spec_float (SF lm) two two wx wy = Ok well0.
Proof. vm_compute. reflexivity. Qed.
Lemma well0_facts : deltax well0 = two /\ deltay well0 = two /\ dyadic (-34) (-30) well0 /\ wf (exact_field well0) /\ sound_grid 0 well0 /\
  total (exact_field well0) 0 /\ (forall x y, weight_at (exact_field well0) x y 0).
Proof. destruct (well_field some_lm) as (s & E & K). rewrite well0_init in E. injection E as <-. exact K. Qed.

(** A spacing of 2 around a well at (438042.3, 5032118.9): the edges are multiples of 2^-34 and 2^-30; a track, rasterized and registered, leaves 8 rows and 9 columns. *)
Lemma c89_example : forall lm, exists s, @pf_init spec_float (SF lm) two two wx wy = Ok s /\ dyadic (-34) (-30) s /\ Forall (in_range_op (-34) (-30) two two) story /\
  exists g, body (@run_ops spec_float (SF lm) 100 s story) = Some g /\ (nrows g, ncols g) = (8, 9)%Z.
Proof.
  intros lm. exists well0. split; [apply well0_init|]. split; [apply well0_facts|]. split; [exact story_range|].
  eexists. split; [vm_compute; reflexivity|reflexivity].
Qed.

(** ** Spacings that are not dyadic *)
Definition tenth : spec_float := Eval vm_compute in lit 1 10.
Definition quarter (s : bool) : spec_float := (if s then SFopp else fun x => x) (lit 1 4).
Definition fine0 : pfield spec_float := Eval vm_compute in
  match @pf_init spec_float (SF some_lm) tenth tenth (f_of_Z 0) (f_of_Z 0) with Ok s => s | _ => {| deltax := two; deltay := two; body := None |} end.
Definition fine1 : pfield spec_float := Eval vm_compute in fst (@expand spec_float (SF some_lm) 10 fine0 (quarter true) (quarter false) (quarter true) (quarter false)).

Lemma fin_eq a b e : above e a = true -> above e b = true -> Fin (fval a) = Fin (fval b) -> mant a e = mant b e.
Proof.
  intros A B H. injection H as H. rewrite (fval_mant a e A), (fval_mant b e B) in H. apply eq_IZR. apply Rmult_eq_reg_r in H; [exact H|]. apply Rgt_not_eq, p_pos.
Qed.

(** With spacing 0.1 the theorem fails: the field is sound when built, but after one call of expand the last column is no longer where the first column and the
    spacing put it. *)
Lemma c89_decimal : forall lm, exists s, @pf_init spec_float (SF lm) tenth tenth (f_of_Z 0) (f_of_Z 0) = Ok s /\ wf (exact_field s) /\
  exists s', @expand spec_float (SF lm) 10 s (quarter true) (quarter false) (quarter true) (quarter false) = (s', Ok tt) /\ ~ wf (exact_field s').
Proof.
  intros lm. exists fine0. split; [vm_compute; reflexivity|]. split.
  - assert (P : 0 < fval tenth) by (apply (positive_check _ (-56)); vm_compute; reflexivity).
    exists (fval tenth), (fval tenth). split; [reflexivity|]. split; [reflexivity|]. split; [exact P|]. split; [exact P|].
    intros g E. injection E as <-. split; [cbn; lia|]. split; [cbn; lia|]. cbn [nrows ncols pgrid rgrid xmin xmax ymin ymax total_weight exact_geom].
    split; [vm_compute; auto 10|]. split; [vm_compute; auto 10|]. split; [|split].
    + exists (- fval tenth), (- fval tenth). 
      assert (Q : forall m e, Fin (- IZR m * powerRZ 2 e) = Fin (- (IZR m * powerRZ 2 e)) /\ Fin (IZR m * powerRZ 2 e) = Fin (- (IZR m * powerRZ 2 e) + IZR 2 * (IZR m * powerRZ 2 e))) by (intros; split; f_equal; ring).
      split; [apply Q|]. split; [apply Q|]. split; apply Q.
    + intros i j v H. exists 0. change (get2 (const2 3 3 (Fin 0)) i j = Some v) in H. rewrite const2_tab, get2_tab in H. destruct (inb 3 3 i j); [|discriminate]. injection H as <-. reflexivity.
    + exists 0. reflexivity.
  - exists fine1. split; [vm_compute; reflexivity|]. intros (dx & dy & E1 & _ & _ & _ & W). destruct (W _ eq_refl) as (_ & _ & _ & _ & (x0 & y0 & X0 & X1 & _) & _).
    set (e0 := S754_finite true 5404319552844596 (-54)). set (e1 := S754_finite false 5404319552844596 (-54)).
    assert (D : Fin (fval tenth) = Fin dx) by exact E1. assert (X0' : Fin (fval e0) = Fin x0) by exact X0. assert (X1' : Fin (fval e1) = Fin (x0 + IZR (7 - 1) * dx)) by exact X1.
    assert (Q : fval e1 = fval e0 + 6 * fval tenth) by (change (7 - 1)%Z with 6%Z in X1'; congruence).
    rewrite (fval_mant e1 (-56) eq_refl), (fval_mant e0 (-56) eq_refl), (fval_mant tenth (-56) eq_refl) in Q.
    set (n1 := mant e1 _) in Q. vm_compute in n1. set (n0 := mant e0 _) in Q. vm_compute in n0. set (nt := mant tenth _) in Q. vm_compute in nt. subst n1 n0 nt.
    pose proof (p_pos (-56)). lra.
Qed.

(** ** A distance whose rounding shows *)
(** (0.1, 0.7) and the segment from (0, 0) to (3, 4): the computed squared distance is smaller than the squared distance to every point of the segment. *)
Lemma c90_example : forall lm, let z := f_of_Z 0 in let t := f_of_Z 3 in let f := f_of_Z 4 in
  (forall v, In v [z; z; t; f; lit 1 10; lit 7 10] -> ffinite v /\ Rabs (fval v) <= 2 ^ 200) /\
  / 2 ^ 400 <= dist2 (fval z, fval z) (fval t, fval f) /\
  forall p, on_segment (fval z, fval z) (fval t, fval f) p ->
    fval (@distancesquared spec_float (SF lm) z z t f (lit 1 10) (lit 7 10)) < dist2 p (fval (lit 1 10), fval (lit 7 10)).
Proof.
  intros lm z t f. destruct (of_small 0 ltac:(lia)) as (F0 & V0). destruct (of_small 3 ltac:(lia)) as (F3 & V3). destruct (of_small 4 ltac:(lia)) as (F4 & V4).
  fold z in F0, V0. fold t in F3, V3. fold f in F4, V4.
  pose proof (fval_mant (lit 1 10) (-56) eq_refl) as V1. pose proof (fval_mant (lit 7 10) (-56) eq_refl) as V7.
  set (m := mant (lit 1 10) (-56)) in V1. vm_compute in m. subst m. set (m := mant (lit 7 10) (-56)) in V7. vm_compute in m. subst m.
  replace (powerRZ 2 (-56)) with (/ 72057594037927936) in V1, V7 by (unfold powerRZ; f_equal; rewrite (pow_IZR 2); reflexivity).
  assert (H200 : 4 <= 2 ^ 200) by (rewrite (pow_IZR 2); apply IZR_le; vm_compute; discriminate).
  assert (H400 : 25 * 2 ^ 400 >= 1) by (apply Rle_ge; rewrite (pow_IZR 2), <- mult_IZR; apply IZR_le; vm_compute; discriminate).
  split; [|split].
  - intros v [<-|[<-|[<-|[<-|[<-|[<-|[]]]]]]]; (split; [first [assumption|split; [vm_compute; reflexivity|exact I]]|]); rewrite ?V0, ?V3, ?V4, ?V1, ?V7; rewrite Rabs_pos_eq by lra; lra.
  - unfold dist2. cbn [fst snd]. rewrite V0, V3, V4. assert (0 < 2 ^ 400) by lra. apply Rmult_le_reg_r with (2 ^ 400); [assumption|]. rewrite Rinv_l by lra. nra.
  - intros p (q & Hq & ->). unfold dist2. cbn [fst snd]. rewrite V0, V3, V4, V1, V7.
    set (d := distancesquared _ _ _ _ _ _). assert (Vd : fval d = 8329857870784467 * / 72057594037927936).
    { replace (/ 72057594037927936) with (powerRZ 2 (-56)) by (unfold powerRZ; f_equal; rewrite (pow_IZR 2); reflexivity). apply (fval_mant d (-56)). vm_compute. reflexivity. }
    rewrite Vd. match goal with |- _ < ?u * ?u + ?v * ?v => pose proof (Rle_0_sqr (3 * u + 4 * v)) as S; unfold Rsqr in S;
      assert (E : 4 * u - 3 * v = 122497909864477480 * / 72057594037927936) by lra; assert (E2 : (4 * u - 3 * v) * (4 * u - 3 * v) = 122497909864477480 * / 72057594037927936 * (122497909864477480 * / 72057594037927936)) by (rewrite E; ring) end.
    lra.
Qed.

(** ** Marks and weights around the well *)
Definition well1 : pfield spec_float := Eval vm_compute in fst (@rasterize spec_float (SF some_lm) 100 well0 (map fst path3) (map snd path3) umbra5).
Lemma well1_raster lm : @rasterize spec_float (SF lm) 100 well0 (map fst path3) (map snd path3) umbra5 = (well1, Ok tt).
Proof. vm_compute. reflexivity. Qed.

Lemma value x n : forall k e, above e x = true -> mant x e = n -> powerRZ 2 e = / IZR k -> fval x = IZR n * / IZR k.
Proof. intros k e A M P. rewrite (fval_mant x e A), M, P. reflexivity. Qed.
Lemma p34 : powerRZ 2 (-34) = / 17179869184. Proof. unfold powerRZ. f_equal. rewrite (pow_IZR 2). reflexivity. Qed.
Lemma p30 : powerRZ 2 (-30) = / 1073741824. Proof. unfold powerRZ. f_equal. rewrite (pow_IZR 2). reflexivity. Qed.
Ltac val34 x := let n := fresh "n" in let V := fresh "V" in
  pose proof (value x _ 17179869184 (-34) eq_refl eq_refl p34) as V; set (n := mant x (-34)) in V; vm_compute in n; subst n.
Ltac val30 x := let n := fresh "n" in let V := fresh "V" in
  pose proof (value x _ 1073741824 (-30) eq_refl eq_refl p30) as V; set (n := mant x (-30)) in V; vm_compute in n; subst n.

(** The hypotheses of the theorem hold for the track of three points and umbra 5; the node at the well is marked, and some node is not. *)
Lemma c91_example : forall lm, exists s s', @pf_init spec_float (SF lm) two two wx wy = Ok s /\ dyadic (-34) (-30) s /\ wf (exact_field s) /\
  Forall (fun p => in_range (-34) (deltax s) (fst p) /\ in_range (-30) (deltay s) (snd p)) path3 /\
  (forall p q, consecutive path3 p q -> apart (at_ p) (at_ q) /\ at_ p <> at_ q) /\ reach (-34) umbra5 /\ reach (-30) umbra5 /\ fval umbra5 = 5 /\
  @rasterize spec_float (SF lm) 100 s (map fst path3) (map snd path3) umbra5 = (s', Ok tt) /\ compact (-34) (-30) s' /\
  marked (exact_field s') (fval wx) (fval wy) /\ exists x y w, has_node (exact_field s') x y w false.
Proof.
  intros lm. exists well0, well1. destruct well0_facts as (Ex & Ey & D & Wf & _). split; [apply well0_init|]. split; [exact D|]. split; [exact Wf|].
  assert (R : Forall (fun p => in_range (-34) (deltax well0) (fst p) /\ in_range (-30) (deltay well0) (snd p)) path3) by (rewrite Ex, Ey; exact path3_range).
  split; [exact R|].
  val34 (fst (nth 0 path3 (two, two))). val34 (fst (nth 1 path3 (two, two))). val34 (fst (nth 2 path3 (two, two))).
  val30 (snd (nth 0 path3 (two, two))). val30 (snd (nth 1 path3 (two, two))). val30 (snd (nth 2 path3 (two, two))).
  cbn [path3 nth fst snd] in V, V0, V1, V2, V3, V4.
  assert (HA : forall p q, consecutive path3 p q -> 1 <= dist2 (at_ p) (at_ q) <= 10000).
  { intros p q (k & H1 & H2). destruct k as [|[|[|k]]]; cbn in H1, H2; try discriminate;
      injection H1 as <-; injection H2 as <-; unfold dist2, at_; cbn [fst snd]; rewrite ?V, ?V0, ?V1, ?V2, ?V3, ?V4; lra. }
  assert (H400 : / 2 ^ 400 <= 1) by (rewrite <- Rinv_1; apply Rinv_le_contravar; [lra|]; apply pow_R1_Rle; lra).
  assert (HN : forall p q, consecutive path3 p q -> apart (at_ p) (at_ q) /\ at_ p <> at_ q).
  { intros p q H. specialize (HA p q H). split; [right; lra|]. intros E. rewrite E in HA. unfold dist2 in HA. lra. }
  split; [exact HN|]. destruct (of_small 5 ltac:(lia)) as (F5 & V5). change (f_of_Z 5) with umbra5 in F5, V5.
  assert (B : forall e, (-34 <= e)%Z -> Rabs (fval umbra5) <= powerRZ 2 (53 + e)).
  { intros e He. rewrite V5, Rabs_pos_eq by lra. apply Rle_trans with (powerRZ 2 3); [change (powerRZ 2 3) with (2 ^ 3); lra|]. rewrite !p_bpow. apply Raux.bpow_le. lia. }
  assert (R34 : reach (-34) umbra5) by (split; [exact F5|apply B; lia]). assert (R30 : reach (-30) umbra5) by (split; [exact F5|apply B; lia]).
  split; [exact R34|]. split; [exact R30|]. split; [exact V5|]. split; [apply well1_raster|].
  assert (CP : compact (-34) (-30) well1).
  { intros g E. injection E as <-. cbn [xmin xmax ymin ymax]. rewrite !p_bpow.
    split; [apply Rle_trans with 16|apply Rle_trans with 16].
    - match goal with |- fval ?a - fval ?b <= _ => rewrite (value a _ 17179869184 (-34) eq_refl eq_refl p34), (value b _ 17179869184 (-34) eq_refl eq_refl p34) end. cbv [mant]. cbn. lra.
    - change 16 with (Raux.bpow Zaux.radix2 4). apply Raux.bpow_le. lia.
    - match goal with |- fval ?a - fval ?b <= _ => rewrite (value a _ 1073741824 (-30) eq_refl eq_refl p30), (value b _ 1073741824 (-30) eq_refl eq_refl p30) end. cbv [mant]. cbn. lra.
    - change 16 with (Raux.bpow Zaux.radix2 4). apply Raux.bpow_le. lia. }
  split; [exact CP|].
  destruct (c91_rasterize lm 100 (-34) (-30) well0 path3 umbra5 well1 D ltac:(lia) ltac:(lia) CP Wf R (fun p q H => proj1 (HN p q H)) R34 R30 ltac:(lra) (well1_raster lm))
    as (_ & Wf1 & _ & K & M & _).
  split.
  - assert (N0 : has_node (exact_field well0) (fval wx) (fval wy) 0 false).
    { set (x0 := SFsub fprec femax wx two). vm_compute in x0. set (y0 := SFsub fprec femax wy two). vm_compute in y0.
      val34 x0. val30 y0. eexists _, 1%Z, 1%Z, (fval two), (fval two), (fval x0), (fval y0). split; [reflexivity|]. split; [reflexivity|]. split; [reflexivity|]. split; [reflexivity|]. split; [reflexivity|].
      destruct two_good as (_ & T & _). rewrite T.
      split; [|split; [|split; [reflexivity|reflexivity]]].
      - rewrite V, V6. lra.
      - rewrite V2, V7. lra. }
    destruct (K _ _ _ _ N0) as (m' & H'). destruct (M _ _ _ _ H') as (_ & _ & _ & Q). exists 0. rewrite (Q (wx, wy) (nth 1 path3 (two, two))) in H'; [exact H'| | |].
    + exists 0%nat. split; reflexivity.
    + apply HN. exists 0%nat. split; reflexivity.
    + assert (C : consecutive path3 (wx, wy) (nth 1 path3 (two, two))) by (exists 0%nat; split; reflexivity). specialize (HA _ _ C).
      exists (at_ (wx, wy)). split; [exists 0; split; [lra|]; unfold at_; cbn [fst snd]; f_equal; ring|]. unfold slack. rewrite V5.
      change (fval wx, fval wy) with (at_ (wx, wy)). assert (Z : dist2 (at_ (wx, wy)) (at_ (wx, wy)) = 0) by (unfold dist2; ring). rewrite Z.
      assert (H46 : / 2 ^ 46 <= / 100000) by (apply Rinv_le_contravar; [lra|]; rewrite (pow_IZR 2); apply IZR_le; vm_compute; discriminate).
      assert (0 < / 2 ^ 46) by (apply Rinv_0_lt_compat, pow_lt; lra). nra.
  - eexists _, _, 0, _, 0%Z, 0%Z, (fval two), (fval two), _, _. do 5 (split; [reflexivity|]). split; [reflexivity|]. split; [reflexivity|]. split; reflexivity.
Qed.

(** Registering weight 1 after the track: the node at the well has credit 1, hence weight 1 of a total of 1. *)
Lemma c92_example : forall lm, exists s, @pf_init spec_float (SF lm) two two wx wy = Ok s /\ Forall (in_range_op (-34) (-30) two two) story /\ Forall (sound_op 0) story /\
  load story = 1 /\ load story <= powerRZ 2 (53 + 0) /\ Credit lm 100 (fval wx) (fval wy) s story 1 /\
  weight_at (exact_field (@run_ops spec_float (SF lm) 100 s story)) (fval wx) (fval wy) 1 /\ total (exact_field (@run_ops spec_float (SF lm) 100 s story)) 1.
Proof.
  intros lm. exists well0. destruct well0_facts as (Ex & Ey & D & Wf & G & T & Z). split; [apply well0_init|]. split; [exact story_range|].
  destruct (of_small 1 ltac:(lia)) as (F1 & V1). change (f_of_Z 1) with one in F1, V1.
  assert (B1 : 1 <= powerRZ 2 (53 + 0)) by (rewrite p_bpow; change 1 with (Raux.bpow Zaux.radix2 0); apply Raux.bpow_le; lia).
  assert (S : Forall (sound_op 0) story).
  { apply Forall_cons; [exact I|]. apply Forall_cons; [|apply Forall_nil]. split; [exact F1|]. rewrite V1. split; [lra|]. split; [exists 1%Z; cbn; ring|]. rewrite Rabs_pos_eq by lra. exact B1. }
  assert (L : load story = 1) by (cbn [story load]; rewrite V1; ring).
  split; [exact S|]. split; [exact L|]. split; [rewrite L; exact B1|].
  assert (C : Credit lm 100 (fval wx) (fval wy) well0 story 1).
  { apply C_other; [discriminate|]. cbn [run_op]. rewrite well1_raster. cbn [fst]. replace 1 with (fval one + 0) by (rewrite V1; ring). apply C_register_marked; [|apply C_nil].
    destruct (c91_example lm) as (s & s' & E & _ & _ & _ & _ & _ & _ & _ & Er & _ & M & _). rewrite well0_init in E. injection E as <-. rewrite well1_raster in Er. injection Er as <-. exact M. }
  split; [exact C|].
  destruct (c92_history lm 100 (-34) (-30) 0 story well0 (fval wx) (fval wy) 0 0 D Wf G ltac:(lia)) as (c & C' & Q1 & Q2 & _).
  - rewrite Ex, Ey. exact story_range.
  - exact S.
  - apply Z.
  - exact T.
  - rewrite L. lra.
  - rewrite (c92_credit_unique _ _ _ _ _ _ _ _ C' C), Rplus_0_l in Q1. rewrite L, Rplus_0_l in Q2. split; assumption.
Qed.
