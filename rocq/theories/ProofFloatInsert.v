(** * insert and rasterize in binary64 *)
From Coq Require Import ZArith Reals Lra Lia SpecFloat List Psatz.
From Flocq Require Import Core.
From Verif Require Import Py Num NumXR Grid ModelField ProofFloat ProofFloatGrow ProofFloatOps ProofFloatMean ProofFloatGrid ProofGeom ProofField ProofInsert ProofFieldProps ProofFloatDist.
From Verif Require Import SpecFloats SpecExact SpecField.
Import ListNotations.
Local Open Scope R_scope.

Local Notation fx := (FLT_exp (-1074) 53).
Local Notation F := (generic_format radix2 fx).
Local Notation rd := (round radix2 fx ZnearestE).

(** ** The window *)
Lemma floor_val x : ffinite x -> f_floor x = Ok (Zfloor (fval x)).
Proof.
  intros (_ & H). destruct x as [s|s| |s m e]; try contradiction; cbn [f_floor fval].
  - f_equal. symmetry. apply (Zfloor_IZR 0).
  - f_equal. set (v := cond_Zopp s (Z.pos m)).
    replace (if s then - IZR (Z.pos m) else IZR (Z.pos m)) with (IZR v) by (subst v; destruct s; cbn [cond_Zopp]; [apply opp_IZR|reflexivity]).
    destruct e as [|p|p]; rewrite p_bpow.
    + cbn [bpow]. rewrite Rmult_1_r. symmetry. apply Zfloor_IZR.
    + change (bpow radix2 (Z.pos p)) with (IZR (2 ^ Z.pos p)). rewrite <- mult_IZR. symmetry. apply Zfloor_IZR.
    + change (bpow radix2 (Z.neg p)) with (/ IZR (2 ^ Z.pos p)). symmetry. apply Zfloor_div. lia.
Qed.

Lemma unit_pos e d : good e d -> 0 < fval d -> powerRZ 2 e <= fval d.
Proof.
  intros (_ & (n & E) & _) P. rewrite E in *. pose proof (p_pos e). assert (0 < IZR n) by nra.
  apply lt_IZR in H0. assert (1 <= IZR n) by (apply IZR_le; lia). nra.
Qed.

Lemma quot e t lo d : (-1074 <= e <= 960)%Z -> ffinite t -> Rabs (fval t) <= powerRZ 2 (54 + e) -> good e lo -> good e d -> 0 < fval d ->
  exists z, f_floor (SFdiv fprec femax (SFsub fprec femax t lo) d) = Ok z /\
    forall j, (Z.abs j <= 2 ^ 53)%Z -> F (IZR j * fval d) ->
      (fval t <= fval lo + IZR j * fval d -> (z <= j)%Z) /\ (fval lo + IZR j * fval d <= fval t -> (j <= z)%Z).
Proof.
  intros He Ht Bt Gl Gd Pd. pose proof (unit_pos e d Gd Pd) as Ud. destruct Gl as (Hl & (_ & Bl)), Gd as (Hd & _).
  rewrite p_bpow in *.
  assert (B1 : Rabs (fval t - fval lo) <= bpow radix2 (55 + e)).
  { replace (55 + e)%Z with (1 + (54 + e))%Z by lia. apply abs_sub_le; [exact Bt|]. eapply Rle_trans; [exact Bl|]. apply bpow_le. lia. }
  pose proof (rd_small (55 + e) _ ltac:(lia) B1) as B2.
  destruct (sub_rd t lo Ht Hl) as (H1 & V1); [eapply Rle_lt_trans; [exact B2|]; apply bpow_lt; lia|].
  set (w := SFsub fprec femax t lo) in *.
  assert (B3 : Rabs (fval w / fval d) <= bpow radix2 55).
  { unfold Rdiv. rewrite Rabs_mult, Rabs_inv, (Rabs_pos_eq (fval d)) by lra.
    apply Rmult_le_reg_r with (fval d); [exact Pd|]. rewrite Rmult_assoc, Rinv_l by lra. rewrite Rmult_1_r, V1. eapply Rle_trans; [exact B2|].
    rewrite bpow_plus. apply Rmult_le_compat_l; [apply bpow_ge_0|exact Ud]. }
  pose proof (rd_small 55 _ ltac:(lia) B3) as B4.
  destruct (div_rd w d H1 Hd) as (H2 & V2); [lra|eapply Rle_lt_trans; [exact B4|]; apply bpow_lt; lia|].
  rewrite (floor_val _ H2), V2. eexists. split; [reflexivity|]. intros j Hj Fj.
  assert (Ej : rd (IZR j) = IZR j). { apply rd_F. destruct (of_small j Hj) as (Q & V). rewrite <- V. apply F_of. exact Q. }
  split; intros L.
  - assert (fval w <= IZR j * fval d) by (rewrite V1, <- (rd_F _ Fj); apply rd_le; lra).
    assert (rd (fval w / fval d) <= IZR j).
    { rewrite <- Ej. apply rd_le. apply Rmult_le_reg_r with (fval d); [exact Pd|]. unfold Rdiv. rewrite Rmult_assoc, Rinv_l by lra. lra. }
    apply le_IZR. eapply Rle_trans; [apply Zfloor_lb|exact H0].
  - assert (IZR j * fval d <= fval w) by (rewrite V1, <- (rd_F _ Fj); apply rd_le; lra).
    assert (IZR j <= rd (fval w / fval d)).
    { rewrite <- Ej at 1. apply rd_le. apply Rmult_le_reg_r with (fval d); [exact Pd|]. unfold Rdiv. rewrite Rmult_assoc, Rinv_l by lra. lra. }
    apply Zfloor_lub. exact H0.
Qed.

(** One axis: [n] grid lines from [lo], at spacing [d]. *)
Definition axis e lo d n := good e lo /\ good e d /\ 0 < fval d /\ (3 <= n)%Z /\ Rabs (fval lo + IZR (n - 1) * fval d) <= powerRZ 2 (53 + e) /\
  IZR (n - 1) * fval d <= powerRZ 2 (53 + e).

Lemma axis_line e lo d n j : axis e lo d n -> (0 <= j < n)%Z ->
  (Z.abs j <= 2 ^ 53)%Z /\ (exists m : Z, IZR j * fval d = IZR m * powerRZ 2 e) /\ Rabs (IZR j * fval d) <= powerRZ 2 (53 + e) /\
  on_units e (fval lo + IZR j * fval d).
Proof.
  intros (Gl & Gd & Pd & Hn & B & Bw) Hj. pose proof (unit_pos e d Gd Pd) as Ud. destruct Gl as (_ & (m & El) & Bl), Gd as (_ & (n' & Ed) & _).
  pose proof (p_pos e) as Pe.
  assert (P53 : powerRZ 2 (53 + e) = 2 ^ 53 * powerRZ 2 e). { rewrite !p_bpow, bpow_plus. f_equal. change (bpow radix2 53) with (IZR (Z.pow_pos 2 53)). change (Z.pow_pos 2 53) with 9007199254740992%Z. lra. }
  assert (0 <= IZR j) by (apply IZR_le; lia). assert (IZR j <= IZR (n - 1)) by (apply IZR_le; lia).
  assert (J : 0 <= IZR j * fval d <= IZR (n - 1) * fval d) by (split; [nra|apply Rmult_le_compat_r; lra]).
  apply Rabs_le_inv in B. apply Rabs_le_inv in Bl.
  assert (J2 : IZR j * fval d <= powerRZ 2 (53 + e)) by lra.
  split.
  { assert (IZR j * powerRZ 2 e <= IZR j * fval d) by (apply Rmult_le_compat_l; assumption).
    assert (H2 : IZR j <= 2 ^ 53) by (apply Rmult_le_reg_r with (powerRZ 2 e); [exact Pe|rewrite <- P53; eapply Rle_trans; eassumption]).
    replace (2 ^ 53) with (IZR (2 ^ 53)%Z) in H2 by (symmetry; apply (pow_IZR 2 53)). apply le_IZR in H2. lia. }
  split; [exists (j * n')%Z; rewrite Ed, mult_IZR; ring|]. split; [rewrite Rabs_pos_eq by lra; exact J2|].
  split; [exists (m + j * n')%Z; rewrite El, Ed, plus_IZR, mult_IZR; ring|]. apply Rabs_le. lra.
Qed.

Lemma axis_node e lo d n j : (-1074 <= e <= 960)%Z -> axis e lo d n -> (0 <= j < n)%Z ->
  let c := SFadd fprec femax lo (SFmul fprec femax (f_of_Z j) d) in
  ffinite c /\ fval c = fval lo + IZR j * fval d /\ Rabs (fval c) <= powerRZ 2 (53 + e).
Proof.
  intros He A Hj c. destruct (axis_line e lo d n j A Hj) as (Sj & Mj & Bj & Uc). destruct A as ((Hl & _) & (Hd & _) & _).
  destruct (of_small j Sj) as (Hz & Vz).
  assert (Fj : rd (fval (f_of_Z j) * fval d) = IZR j * fval d) by (rewrite Vz; apply rd_F, (mult_F e); [lia|exact Mj|exact Bj]).
  destruct (mul_rd (f_of_Z j) d Hz Hd) as (Hm & Vm); [rewrite Fj; eapply Rle_lt_trans; [exact Bj|]; rewrite p_bpow; apply bpow_lt; lia|]. rewrite Fj in Vm.
  destruct (add_units e lo (SFmul fprec femax (f_of_Z j) d) He Hl Hm) as (Hc & Vc); [rewrite Vm; exact Uc|]. rewrite Vm in Vc.
  split; [exact Hc|]. split; [exact Vc|]. subst c. rewrite Vc. apply Uc.
Qed.

Lemma window e lo d n mn mx u : (-1074 <= e <= 960)%Z -> axis e lo d n -> reach e mn -> reach e mx -> reach e u ->
  exists f1 f2, f_floor (SFdiv fprec femax (SFsub fprec femax (SFsub fprec femax mn u) lo) d) = Ok f1 /\
                f_floor (SFdiv fprec femax (SFsub fprec femax (SFadd fprec femax mx u) lo) d) = Ok f2 /\
    forall j, (0 <= j < n)%Z -> fval mn - fval u <= fval lo + IZR j * fval d <= fval mx + fval u -> (f1 <= j <= f2)%Z.
Proof.
  intros He A (H1 & B1) (H2 & B2) (H3 & B3). rewrite p_bpow in B1, B2, B3.
  pose proof (abs_sub_le _ _ _ B1 B3) as B4. pose proof (abs_add_le _ _ _ B2 B3) as B5. replace (1 + (53 + e))%Z with (54 + e)%Z in * by lia.
  pose proof (rd_small (54 + e) _ ltac:(lia) B4) as B6. pose proof (rd_small (54 + e) _ ltac:(lia) B5) as B7.
  destruct (sub_rd mn u H1 H3) as (H4 & V4); [eapply Rle_lt_trans; [exact B6|]; apply bpow_lt; lia|].
  destruct (add_rd mx u H2 H3) as (H5 & V5); [eapply Rle_lt_trans; [exact B7|]; apply bpow_lt; lia|].
  rewrite <- V4 in B6. rewrite <- V5 in B7. rewrite <- p_bpow in B6, B7.
  pose proof A as (Gl & Gd & Pd & _).
  destruct (quot e _ lo d He H4 B6 Gl Gd Pd) as (f1 & E1 & K1). destruct (quot e _ lo d He H5 B7 Gl Gd Pd) as (f2 & E2 & K2).
  exists f1, f2. split; [exact E1|]. split; [exact E2|]. intros j Hj (L1 & L2).
  destruct (axis_line e lo d n j A Hj) as (Sj & Mj & Bj & Uc).
  assert (Fj : F (IZR j * fval d)) by (apply (mult_F e); [lia|exact Mj|exact Bj]).
  assert (Fc : rd (fval lo + IZR j * fval d) = fval lo + IZR j * fval d) by (apply rd_F, (units_F e); [lia|exact Uc]).
  split.
  - apply (K1 j Sj Fj). rewrite V4, <- Fc. now apply rd_le.
  - apply (K2 j Sj Fj). rewrite V5, <- Fc. now apply rd_le.
Qed.

Lemma min_val lm a b : ffinite a -> ffinite b -> fval (@pymin spec_float (SF lm) a b) = Rmin (fval a) (fval b).
Proof.
  intros Ha Hb. unfold pymin. cbn [nlt SF]. rewrite fltb by assumption. destruct (Rlt_bool_spec (fval b) (fval a)); unfold Rmin; destruct Rle_dec; lra.
Qed.
Lemma max_val lm a b : ffinite a -> ffinite b -> fval (@pymax spec_float (SF lm) a b) = Rmax (fval a) (fval b).
Proof.
  intros Ha Hb. unfold pymax. cbn [nlt SF]. rewrite fltb by assumption. destruct (Rlt_bool_spec (fval a) (fval b)); unfold Rmax; destruct Rle_dec; lra.
Qed.
Lemma min_reach lm e a b : reach e a -> reach e b -> reach e (@pymin spec_float (SF lm) a b).
Proof. intros. unfold pymin. destruct nlt; assumption. Qed.
Lemma max_reach lm e a b : reach e a -> reach e b -> reach e (@pymax spec_float (SF lm) a b).
Proof. intros. unfold pymax. destruct nlt; assumption. Qed.

Lemma axes ex ey s g : dyadic ex ey s -> compact ex ey s -> wf (exact_field s) -> body s = Some g ->
  axis ex (xmin g) (deltax s) (ncols g) /\ axis ey (ymin g) (deltay s) (nrows g) /\ rect (nrows g) (ncols g) (rgrid g).
Proof.
  intros (He & He' & Hdx & Px & Ux & Hdy & Py & Uy & g' & Eg' & Dg) Cm (dx & dy & E1 & E2 & _ & _ & K) Eg. rewrite Eg in Eg'. injection Eg' as <-. destruct (Cm g Eg) as (C1 & C2).
  unfold exact_field in K, E1, E2. cbn [body deltax deltay] in *. rewrite Eg in K. specialize (K _ eq_refl).
  destruct K as (K1 & K2 & _ & K3 & (x0 & y0 & Q1 & Q2 & Q3 & Q4) & _). cbn in K1, K2, K3, Q1, Q2, Q3, Q4.
  destruct (dyadic_good ex ey g Dg) as (G1 & G2 & G3 & G4).
  rewrite exact_fin in E1, E2, Q1, Q2, Q3, Q4 by (assumption || apply G1 || apply G2 || apply G3 || apply G4).
  injection E1 as <-. injection E2 as <-. injection Q1 as <-. injection Q3 as <-. injection Q2 as Q2. injection Q4 as Q4.
  split; [|split; [|exact K3]].
  - split; [exact G1|]. split; [split; assumption|]. split; [exact Px|]. split; [exact K2|]. split; [rewrite <- Q2; apply G2|lra].
  - split; [exact G3|]. split; [split; assumption|]. split; [exact Py|]. split; [exact K1|]. split; [rewrite <- Q4; apply G4|lra].
Qed.

(** ** The marks that insert leaves *)
Lemma marks lm ex ey s g ax ay bx by_ u : dyadic ex ey s -> compact ex ey s -> wf (exact_field s) -> body s = Some g ->
  reach ex ax -> reach ey ay -> reach ex bx -> reach ey by_ -> reach ex u -> reach ey u ->
  let cx j := SFadd fprec femax (xmin g) (SFmul fprec femax (f_of_Z j) (deltax s)) in
  let cy i := SFadd fprec femax (ymin g) (SFmul fprec femax (f_of_Z i) (deltay s)) in
  let test i j := SFltb (@distancesquared spec_float (SF lm) ax ay bx by_ (cx j) (cy i)) (SFmul fprec femax u u) in
  exists rg, @insert spec_float (SF lm) s ax ay bx by_ u =
      (with_body s {| nrows := nrows g; ncols := ncols g; xmin := xmin g; xmax := xmax g; ymin := ymin g; ymax := ymax g;
                      pgrid := pgrid g; rgrid := rg; total_weight := total_weight g |}, Ok tt) /\
    rect (nrows g) (ncols g) rg /\
    forall i j m', get2 rg i j = Some m' -> (0 <= i < nrows g)%Z /\ (0 <= j < ncols g)%Z /\
      exists m, get2 (rgrid g) i j = Some m /\ (m = true -> m' = true) /\ (m' = true -> m = true \/ test i j = true) /\
        (test i j = true ->
         Rmin (fval ax) (fval bx) - fval u <= fval (xmin g) + IZR j * fval (deltax s) <= Rmax (fval ax) (fval bx) + fval u ->
         Rmin (fval ay) (fval by_) - fval u <= fval (ymin g) + IZR i * fval (deltay s) <= Rmax (fval ay) (fval by_) + fval u -> m' = true).
Proof.
  intros D Cm Wf Eg R1 R2 R3 R4 R5 R6 cx cy test. destruct (axes ex ey s g D Cm Wf Eg) as (Ax & Ay & Hr). pose proof D as (He & He' & _).
  destruct (window ex _ _ _ _ _ u He Ax (min_reach lm ex ax bx R1 R3) (max_reach lm ex ax bx R1 R3) R5) as (fl & fr & E1 & E2 & K1).
  destruct (window ey _ _ _ _ _ u He' Ay (min_reach lm ey ay by_ R2 R4) (max_reach lm ey ay by_ R2 R4) R6) as (fb & ft & E3 & E4 & K2).
  rewrite min_val, max_val in K1 by (apply R1 || apply R3). rewrite min_val, max_val in K2 by (apply R2 || apply R4).
  set (f := fun i j => match get2 (rgrid g) i j with Some b => b | None => false end).
  assert (Et : rgrid g = tab (nrows g) (ncols g) f) by (rewrite (rect_is_tab _ _ _ _ false Hr) at 1; reflexivity).
  destruct Ax as (_ & _ & _ & Hc & _), Ay as (_ & _ & _ & Hrw & _).
  set (rg := tab (nrows g) (ncols g) (fun i j => f i j || (memb i (zrange (Z.max 0 fb) (Z.min (nrows g) (ft + 1))) && memb j (zrange (Z.max 0 fl) (Z.min (ncols g) (fr + 1))) && test i j))).
  exists rg. split.
  { unfold insert. rewrite Eg. unfold insert_geom. cbn [nsub nadd nmul ndiv nfloor SF]. rewrite E1, E2, E3, E4. cbn [bind].
    rewrite Et, outer_loop by (intros k Hk; apply in_zrange in Hk; lia). reflexivity. }
  split; [apply rect_tab; lia|]. intros i j m' G. unfold rg in G. rewrite get2_tab in G.
  destruct (inb (nrows g) (ncols g) i j) eqn:I; [|discriminate]. apply inb_true in I. destruct I as (Hi & Hj). injection G as <-.
  split; [exact Hi|]. split; [exact Hj|]. exists (f i j). split.
  { destruct (get2_rect _ _ _ _ _ _ Hr Hi Hj) as (v & Ev). unfold f. rewrite Ev. reflexivity. }
  split; [intros ->; reflexivity|]. split.
  - intros Q. apply orb_true_iff in Q. destruct Q as [Q|Q]; [auto|]. apply andb_true_iff in Q. destruct Q as (_ & Q). auto.
  - intros T Bx By. specialize (K1 j Hj Bx). specialize (K2 i Hi By). rewrite T.
    replace (memb i _) with true by (symmetry; apply memb_true, in_zrange; lia). replace (memb j _) with true by (symmetry; apply memb_true, in_zrange; lia).
    apply orb_true_r.
Qed.

(** ** The test *)
Lemma reach_200 e x : (e <= 147)%Z -> reach e x -> ffinite x /\ Rabs (fval x) <= 2 ^ 200.
Proof.
  intros He (Hx & B). split; [exact Hx|]. eapply Rle_trans; [exact B|]. rewrite p_bpow, pow_bpow. apply bpow_le. lia.
Qed.

Lemma test_near lm p q cx cy u : (forall v, In v [fst p; snd p; fst q; snd q; cx; cy] -> ffinite v /\ Rabs (fval v) <= 2 ^ 200) ->
  ffinite u -> Rabs (fval u) <= 2 ^ 200 -> / 2 ^ 400 <= dist2 (at_ p) (at_ q) ->
  let test := SFltb (@distancesquared spec_float (SF lm) (fst p) (snd p) (fst q) (snd q) cx cy) (SFmul fprec femax u u) in
  (test = true -> possibly_near (fval u) (at_ p) (at_ q) (fval cx, fval cy)) /\ (surely_near (fval u) (at_ p) (at_ q) (fval cx, fval cy) -> test = true).
Proof.
  intros HB Hu Bu LB test. rewrite pow_bpow in Bu.
  assert (FF : Forall (fits 200) [fst p; snd p; fst q; snd q; cx; cy]).
  { apply Forall_forall. intros v Hv. destruct (HB v Hv) as (A & B). split; [exact A|]. rewrite pow_bpow in B. exact B. }
  set (a := at_ p) in *. set (b := at_ q) in *. set (c := (fval cx, fval cy)).
  assert (LB' : bpow radix2 (-400) <= dist2 a b) by (rewrite pow_bpow, <- bpow_opp in LB; exact LB).
  destruct (dist_float lm _ _ _ _ cx cy FF LB') as (Fd & E). change (fval (fst p), fval (snd p)) with a in E. change (fval (fst q), fval (snd q)) with b in E. fold c in E.
  set (d := distancesquared (fst p) (snd p) (fst q) (snd q) cx cy) in *.
  pose proof (bpow_gt_0 radix2 (-400)) as P0.
  assert (N : a <> b). { intros X. rewrite <- X in LB'. assert (dist2 a a = 0) by (unfold dist2; ring). lra. }
  destruct (mul_op 400 u u ltac:(lia) Hu Hu) as ((Fu & _) & Eu); [apply (abs_mul_le _ _ 200 200); exact Bu|].
  rewrite (Rabs_pos_eq (fval u * fval u)) in Eu by exact (Rle_0_sqr (fval u)). set (U := fval u * fval u) in *. set (u2 := SFmul fprec femax u u) in *.
  assert (U0 : 0 <= U) by (exact (Rle_0_sqr (fval u))). pose proof (dist2_nonneg a b). pose proof (dist2_nonneg a c).
  set (S := dist2 a b + dist2 a c) in *.
  assert (T : 100 * (kk * S) + kk * U + hh <= slack (fval u) a b c).
  { unfold slack. fold S. fold U. assert (Hh : hh <= kk * S).
    { assert (hh = kk * bpow radix2 (-1022)).
      { unfold hh, kk. rewrite pow_bpow, <- bpow_opp, <- bpow_plus. reflexivity. }
      rewrite H1. apply Rmult_le_compat_l; [apply Rlt_le, K_small|]. apply Rle_trans with (bpow radix2 (-400)); [apply bpow_le; lia|]. unfold S. lra. }
    assert (/ 2 ^ 46 = 128 * kk) by (unfold kk; lra). rewrite H1.
    assert (0 <= kk * S) by (apply Rmult_le_pos; [apply Rlt_le, K_small|unfold S; lra]). assert (0 <= kk * U) by (apply Rmult_le_pos; [apply Rlt_le, K_small|exact U0]). lra. }
  apply Rabs_le_inv in E. apply Rabs_le_inv in Eu. unfold test. rewrite (fltb d u2 Fd Fu). split.
  - intros X. destruct (Rlt_bool_spec (fval d) (fval u2)) as [L|L]; [|discriminate].
    destruct (dsq_attained a b c N) as (r & Hr & Er). exists r. split; [exact Hr|]. fold U. lra.
  - intros (r & Hr & L). fold U in L. pose proof (dsq_lower a b c r N Hr). apply Rlt_bool_true. lra.
Qed.

Lemma slack_pos u a b c : 0 <= slack u a b c.
Proof.
  unfold slack. apply Rmult_le_pos; [apply Rlt_le, Rinv_0_lt_compat, pow_lt; lra|]. pose proof (dist2_nonneg a b). pose proof (dist2_nonneg a c). pose proof (Rle_0_sqr u) as Q. unfold Rsqr in Q. lra.
Qed.
Lemma surely_near_near u a b c : surely_near u a b c -> near u a b c.
Proof. intros (p & Hp & L). exists p. split; [exact Hp|]. pose proof (slack_pos u a b c). lra. Qed.

(** ** insert *)
(** insert marks the nodes that are surely near, and only nodes possibly near. *)
Lemma c91_insert : forall lm ex ey s p q u, dyadic ex ey s -> (ex <= 147)%Z -> (ey <= 147)%Z -> compact ex ey s -> wf (exact_field s) ->
  reach ex (fst p) -> reach ey (snd p) -> reach ex (fst q) -> reach ey (snd q) -> reach ex u -> reach ey u -> 0 <= fval u -> apart (at_ p) (at_ q) ->
  exists s', @insert spec_float (SF lm) s (fst p) (snd p) (fst q) (snd q) u = (s', Ok tt) /\ dyadic ex ey s' /\
    deltax s' = deltax s /\ deltay s' = deltay s /\
    painted (exact_field s) (exact_field s') (fun x y => at_ p <> at_ q /\ surely_near (fval u) (at_ p) (at_ q) (x, y))
                                             (fun x y => at_ p <> at_ q /\ possibly_near (fval u) (at_ p) (at_ q) (x, y)).
Proof.
  intros lm ex ey s p q u D He He' Cm Wf R1 R2 R3 R4 R5 R6 Pu Sep. pose proof D as (Re & Re' & _ & _ & _ & _ & _ & _ & g & Eg & Dg).
  destruct (marks lm ex ey s g _ _ _ _ u D Cm Wf Eg R1 R2 R3 R4 R5 R6) as (rg & E & Hr & K).
  destruct (axes ex ey s g D Cm Wf Eg) as (Ax & Ay & Hr0).
  rewrite E. eexists. split; [reflexivity|]. split.
  { eapply kept_dyadic; [|exact D]. pose proof (insert_kept (N := SF lm) s (fst p) (snd p) (fst q) (snd q) u) as Kp. rewrite E in Kp. exact Kp. }
  split; [reflexivity|]. split; [reflexivity|].
  assert (Tests : forall i j, (0 <= i < nrows g)%Z -> (0 <= j < ncols g)%Z ->
    let c := (fval (xmin g) + IZR j * fval (deltax s), fval (ymin g) + IZR i * fval (deltay s)) in
    let test := SFltb (@distancesquared spec_float (SF lm) (fst p) (snd p) (fst q) (snd q) (SFadd fprec femax (xmin g) (SFmul fprec femax (f_of_Z j) (deltax s)))
                        (SFadd fprec femax (ymin g) (SFmul fprec femax (f_of_Z i) (deltay s)))) (SFmul fprec femax u u) in
    (test = true -> at_ p <> at_ q /\ possibly_near (fval u) (at_ p) (at_ q) c) /\ (at_ p <> at_ q -> surely_near (fval u) (at_ p) (at_ q) c -> test = true)).
  { intros i j Hi Hj c test. destruct (axis_node ex _ _ _ j Re Ax Hj) as (F1 & V1 & B1). destruct (axis_node ey _ _ _ i Re' Ay Hi) as (F2 & V2 & B2).
    assert (HB : forall v, In v [fst p; snd p; fst q; snd q; SFadd fprec femax (xmin g) (SFmul fprec femax (f_of_Z j) (deltax s)); SFadd fprec femax (ymin g) (SFmul fprec femax (f_of_Z i) (deltay s))] ->
      ffinite v /\ Rabs (fval v) <= 2 ^ 200).
    { intros v Hv. destruct Hv as [<-|[<-|[<-|[<-|[<-|[<-|[]]]]]]]; first [apply (reach_200 ex _ He); first [assumption|split; assumption]|apply (reach_200 ey _ He'); first [assumption|split; assumption]]. }
    destruct Sep as [Sep|Sep].
    - assert (X : test = false).
      { unfold test. unfold at_ in Sep. injection Sep as S1 S2. rewrite (c90_degenerate lm _ _ _ _ _ _ HB S1 S2). reflexivity. }
      rewrite X. split; [discriminate|]. intros X'. contradiction.
    - destruct (reach_200 ex u He R5) as (Q1 & Q2). destruct (test_near lm p q _ _ u HB Q1 Q2 Sep) as (T1 & T2). rewrite V1, V2 in T1, T2.
      split; [|intros _; exact T2]. intros X. split; [|exact (T1 X)].
      intros Y. rewrite Y in Sep. assert (dist2 (at_ q) (at_ q) = 0) by (unfold dist2; ring).
      assert (0 < / 2 ^ 400) by (apply Rinv_0_lt_compat, pow_lt; lra). lra. }
  assert (Gfin : exact (deltax s) = Fin (fval (deltax s)) /\ exact (deltay s) = Fin (fval (deltay s)) /\ exact (xmin g) = Fin (fval (xmin g)) /\ exact (ymin g) = Fin (fval (ymin g))).
  { destruct Ax as ((A1 & _) & (A2 & _) & _), Ay as ((A3 & _) & (A4 & _) & _). rewrite !exact_fin by assumption. auto. }
  destruct Gfin as (G1 & G2 & G3 & G4).
  assert (Node : forall x y w m', has_node (exact_field (with_body s {| nrows := nrows g; ncols := ncols g; xmin := xmin g; xmax := xmax g; ymin := ymin g; ymax := ymax g;
      pgrid := pgrid g; rgrid := rg; total_weight := total_weight g |})) x y w m' <->
      exists i j, x = fval (xmin g) + IZR j * fval (deltax s) /\ y = fval (ymin g) + IZR i * fval (deltay s) /\
        get2 (map (map exact) (pgrid g)) i j = Some (Fin w) /\ get2 rg i j = Some m').
  { intros x y w m'. split.
    - intros (g1 & i & j & dx & dy & x0 & y0 & Q1 & Q2 & Q3 & Q4 & Q5 & Q6 & Q7 & Q8 & Q9). injection Q1 as <-. cbn in Q2, Q3, Q4, Q5, Q8, Q9.
      rewrite G1 in Q2. rewrite G2 in Q3. rewrite G3 in Q4. rewrite G4 in Q5. injection Q2 as <-. injection Q3 as <-. injection Q4 as <-. injection Q5 as <-. exists i, j. auto.
    - intros (i & j & Q1 & Q2 & Q3 & Q4). eexists _, i, j, _, _, _, _. split; [reflexivity|]. cbn. rewrite G1, G2, G3, G4. auto 10. }
  assert (Node0 : forall x y w m, has_node (exact_field s) x y w m <->
      exists i j, x = fval (xmin g) + IZR j * fval (deltax s) /\ y = fval (ymin g) + IZR i * fval (deltay s) /\
        get2 (map (map exact) (pgrid g)) i j = Some (Fin w) /\ get2 (rgrid g) i j = Some m).
  { intros x y w m. split.
    - intros (g1 & i & j & dx & dy & x0 & y0 & Q1 & Q2 & Q3 & Q4 & Q5 & Q6 & Q7 & Q8 & Q9). unfold exact_field in Q1. cbn [body] in Q1. rewrite Eg in Q1. injection Q1 as <-. cbn in Q2, Q3, Q4, Q5, Q8, Q9.
      rewrite G1 in Q2. rewrite G2 in Q3. rewrite G3 in Q4. rewrite G4 in Q5. injection Q2 as <-. injection Q3 as <-. injection Q4 as <-. injection Q5 as <-. exists i, j. auto.
    - intros (i & j & Q1 & Q2 & Q3 & Q4). unfold has_node, exact_field. cbn [body deltax deltay]. rewrite Eg. eexists _, i, j, _, _, _, _. split; [reflexivity|]. cbn. rewrite G1, G2, G3, G4. auto 10. }
  split.
  { destruct Wf as (dx & dy & W1 & W2 & W3 & W4 & W5). exists dx, dy. split; [exact W1|]. split; [exact W2|]. split; [exact W3|]. split; [exact W4|].
    intros g1 Q. injection Q as <-. unfold exact_field in W5. cbn [body] in W5. rewrite Eg in W5. specialize (W5 _ eq_refl).
    destruct W5 as (Z1 & Z2 & Z3 & Z4 & Z5). split; [exact Z1|]. split; [exact Z2|]. split; [exact Z3|]. split; [exact Hr|exact Z5]. }
  split; [discriminate|]. split; [|split; [|split]].
  - intros x y w m H. apply Node0 in H. destruct H as (i & j & Q1 & Q2 & Q3 & Q4).
    apply (get2_rect_none _ _ _ _ _ _ _ Hr0) in Q4. destruct Q4 as (I1 & I2). destruct (get2_rect _ _ _ _ _ _ Hr I1 I2) as (m' & Em').
    exists m'. apply Node. exists i, j. auto.
  - intros x y w m' H. apply Node in H. destruct H as (i & j & -> & -> & Q3 & Q4).
    destruct (K i j m' Q4) as (Hi & Hj & m & Em & K1 & K2 & K3). destruct (Tests i j Hi Hj) as (T1 & T2).
    exists m. split; [apply Node0; exists i, j; auto|]. split; [exact K1|]. split.
    + intros X. destruct (K2 X) as [Y|Y]; [auto|]. right. exact (T1 Y).
    + intros (X & Y). pose proof (near_box _ _ _ _ Pu (surely_near_near _ _ _ _ Y)) as ((B1 & B2) & (B3 & B4)). cbn [fst snd at_] in B1, B2, B3, B4.
      apply K3; [exact (T2 X Y)| |]; lra.
  - intros W (g1 & Q & HW). unfold exact_field in Q. cbn [body] in Q. rewrite Eg in Q. injection Q as <-. eexists. split; [reflexivity|exact HW].
  - unfold shape, exact_field. cbn [body with_body]. rewrite Eg. reflexivity.
Qed.

(** ** rasterize *)
Lemma painted_refl s (lo up : R -> R -> Prop) : wf s -> initialised s -> (forall x y, ~ lo x y) -> painted s s lo up.
Proof.
  intros W I N. split; [exact W|]. split; [exact I|]. split; [eauto|]. split; [|split; [auto|reflexivity]].
  intros x y w m H. exists m. split; [exact H|]. split; [auto|]. split; [auto|]. intros X. destruct (N _ _ X).
Qed.
Lemma painted_trans s1 s2 s3 lo up lo' up' (LO UP : R -> R -> Prop) : painted s1 s2 lo up -> painted s2 s3 lo' up' ->
  (forall x y, LO x y -> lo x y \/ lo' x y) -> (forall x y, up x y \/ up' x y -> UP x y) -> painted s1 s3 LO UP.
Proof.
  intros (_ & _ & A3 & A4 & A5 & A6) (B1 & B2 & B3 & B4 & B5 & B6) HL HU.
  split; [exact B1|]. split; [exact B2|]. split; [|split; [|split; [auto|congruence]]].
  - intros x y w m H. destruct (A3 _ _ _ _ H) as (m1 & H1). exact (B3 _ _ _ _ H1).
  - intros x y w m3 H. destruct (B4 _ _ _ _ H) as (m2 & H2 & C1 & C2 & C3). destruct (A4 _ _ _ _ H2) as (m1 & H1 & D1 & D2 & D3).
    exists m1. split; [exact H1|]. split; [auto|]. split.
    + intros X. destruct (C2 X) as [Y|Y]; [|right; apply HU; auto]. destruct (D2 Y) as [Z|Z]; [auto|right; apply HU; auto].
    + intros X. destruct (HL _ _ X); auto.
Qed.

Definition near_lo u tr x y := exists p q, consecutive tr p q /\ at_ p <> at_ q /\ surely_near (fval u) (at_ p) (at_ q) (x, y).
Definition near_up u tr x y := exists p q, consecutive tr p q /\ at_ p <> at_ q /\ possibly_near (fval u) (at_ p) (at_ q) (x, y).

Lemma consecutive_cons {A} (a b : A) l p q : consecutive (a :: b :: l) p q <-> (p = a /\ q = b) \/ consecutive (b :: l) p q.
Proof.
  split.
  - intros ([|k] & H1 & H2); cbn in H1, H2; [left; split; congruence|]. right. exists k. auto.
  - intros [(-> & ->)|(k & H1 & H2)]; [exists 0%nat; auto|exists (S k); auto].
Qed.

Lemma kept_compact ex ey s s' : kept s s' -> compact ex ey s -> compact ex ey s'.
Proof.
  intros (_ & _ & K) C g Eg. rewrite Eg in K. destruct (body s) as [g0|] eqn:E0; [|contradiction]. destruct K as (_ & _ & -> & -> & -> & ->). exact (C g0 E0).
Qed.
Lemma compact_kept ex ey s s' : kept s s' -> compact ex ey s' -> compact ex ey s.
Proof.
  intros (_ & _ & K) C g Eg. rewrite Eg in K. destruct (body s') as [g0|] eqn:E0; [|contradiction]. destruct K as (_ & _ & <- & <- & <- & <-). exact (C g0 E0).
Qed.

Lemma segments_painted lm ex ey u : (ex <= 147)%Z -> (ey <= 147)%Z -> reach ex u -> reach ey u -> 0 <= fval u ->
  forall tr s, dyadic ex ey s -> compact ex ey s -> wf (exact_field s) -> Forall (fun p => reach ex (fst p) /\ reach ey (snd p)) tr ->
  (forall p q, consecutive tr p q -> apart (at_ p) (at_ q)) ->
  exists s', @insert_segments spec_float (SF lm) s (map fst tr) (map snd tr) u = (s', Ok tt) /\ dyadic ex ey s' /\
    deltax s' = deltax s /\ deltay s' = deltay s /\ painted (exact_field s) (exact_field s') (near_lo u tr) (near_up u tr).
Proof.
  intros He He' Ru Ru' Pu. induction tr as [|p tr IH]; intros s D Cm Wf Rt Sep.
  - exists s. split; [reflexivity|]. split; [exact D|]. split; [reflexivity|]. split; [reflexivity|]. apply painted_refl; [exact Wf| |].
    + destruct D as (_ & _ & _ & _ & _ & _ & _ & _ & g & Eg & _). unfold initialised, exact_field. cbn [body]. rewrite Eg. discriminate.
    + intros x y (p & q & (k & H & _) & _). destruct k; discriminate.
  - destruct tr as [|q tr].
    { exists s. split; [reflexivity|]. split; [exact D|]. split; [reflexivity|]. split; [reflexivity|]. apply painted_refl; [exact Wf| |].
      + destruct D as (_ & _ & _ & _ & _ & _ & _ & _ & g & Eg & _). unfold initialised, exact_field. cbn [body]. rewrite Eg. discriminate.
      + intros x y (p' & q & (k & _ & H) & _). destruct k as [|[|k]]; discriminate. }
    inversion Rt as [|? ? (R1 & R2) Rt']; subst. inversion Rt' as [|? ? (R3 & R4) _]; subst.
    destruct (c91_insert lm ex ey s p q u D He He' Cm Wf R1 R2 R3 R4 Ru Ru' Pu) as (s1 & E1 & D1 & X1 & Y1 & P1); [apply Sep, consecutive_cons; auto|].
    assert (Cm1 : compact ex ey s1). { apply (kept_compact ex ey s); [|exact Cm]. pose proof (insert_kept (N := SF lm) s (fst p) (snd p) (fst q) (snd q) u) as Kp. rewrite E1 in Kp. exact Kp. }
    destruct (IH s1 D1 Cm1 (proj1 P1) Rt') as (s2 & E2 & D2 & X2 & Y2 & P2); [intros a b H; apply Sep, consecutive_cons; auto|].
    exists s2. split; [cbn [map insert_segments]; rewrite E1; exact E2|]. split; [exact D2|]. split; [congruence|]. split; [congruence|].
    eapply painted_trans; [exact P1|exact P2| |].
    + intros x y (a & b & H & HH). apply consecutive_cons in H. destruct H as [(-> & ->)|H]; [auto|right; exists a, b; auto].
    + intros x y [H|(a & b & H & HH)]; [exists p, q|exists a, b]; (split; [apply consecutive_cons|]); auto.
Qed.

Lemma in_range_reach e d x : 0 < fval d -> in_range e d x -> reach e x.
Proof. intros P (H & B). split; [exact H|]. lra. Qed.

Lemma fold_bounds lm : forall v l z, ffinite z -> Forall ffinite l -> In v (z :: l) ->
  fval (fold_left (@pymin spec_float (SF lm)) l z) <= fval v /\ fval v <= fval (fold_left (@pymax spec_float (SF lm)) l z).
Proof.
  intros v l. revert v. induction l as [|w l IH]; intros v z Hz Hl Hv; [destruct Hv as [->|[]]; cbn; lra|].
  inversion Hl as [|? ? Hw Hl']; subst. cbn [fold_left].
  assert (Fm : ffinite (@pymin spec_float (SF lm) z w)) by (unfold pymin; destruct nlt; assumption).
  assert (FM : ffinite (@pymax spec_float (SF lm) z w)) by (unfold pymax; destruct nlt; assumption).
  pose proof (min_val lm z w Hz Hw) as V1. pose proof (max_val lm z w Hz Hw) as V2.
  pose proof (IH _ _ Fm Hl' (or_introl eq_refl)) as (A1 & _). pose proof (IH _ _ FM Hl' (or_introl eq_refl)) as (_ & A2). rewrite V1 in A1. rewrite V2 in A2.
  destruct Hv as [<-|[<-|Hv]].
  - pose proof (Rmin_l (fval z) (fval w)). pose proof (Rmax_l (fval z) (fval w)). lra.
  - pose proof (Rmin_r (fval z) (fval w)). pose proof (Rmax_r (fval z) (fval w)). lra.
  - split; [apply (IH _ _ Fm Hl' (or_intror Hv))|apply (IH _ _ FM Hl' (or_intror Hv))].
Qed.

(** rasterize, whatever the track. *)
Lemma c91_rasterize : forall lm fuel ex ey s tr u s', dyadic ex ey s -> (ex <= 147)%Z -> (ey <= 147)%Z -> compact ex ey s' -> wf (exact_field s) ->
  Forall (fun p => in_range ex (deltax s) (fst p) /\ in_range ey (deltay s) (snd p)) tr ->
  (forall p q, consecutive tr p q -> apart (at_ p) (at_ q)) -> reach ex u -> reach ey u -> 0 <= fval u ->
  @rasterize spec_float (SF lm) fuel s (map fst tr) (map snd tr) u = (s', Ok tt) ->
  dyadic ex ey s' /\ wf (exact_field s') /\ initialised (exact_field s') /\
  (forall x y w m, has_node (exact_field s) x y w m -> exists m', has_node (exact_field s') x y w m') /\
  (forall x y w m', has_node (exact_field s') x y w m' ->
     (~ is_node (exact_field s) x y -> w = 0) /\
     (marked (exact_field s) x y -> m' = true) /\
     (m' = true -> marked (exact_field s) x y \/
        exists p q, consecutive tr p q /\ at_ p <> at_ q /\ possibly_near (fval u) (at_ p) (at_ q) (x, y)) /\
     (forall p q, consecutive tr p q -> at_ p <> at_ q -> surely_near (fval u) (at_ p) (at_ q) (x, y) -> m' = true)) /\
  (forall W, total (exact_field s) W -> total (exact_field s') W) /\
  (exists x0 x1 y0 y1, extent (exact_field s') x0 x1 y0 y1 /\
     forall p, In p tr -> x0 < fst (at_ p) < x1 /\ y0 < snd (at_ p) < y1).
Proof.
  intros lm fuel ex ey s tr u s' D He He' Cm Wf Rt Sep Ru Ru' Pu H. pose proof D as (Re & Re' & Hdx & Px & Ux & Hdy & Py & Uy & g & Eg & Dg).
  assert (Ini : initialised (exact_field s)) by (unfold initialised, exact_field; cbn [body]; rewrite Eg; discriminate).
  destruct tr as [|p0 tr]; [discriminate|].
  unfold rasterize in H. cbn [map pymin_list pymax_list] in H.
  set (x := map fst tr) in *. set (y := map snd tr) in *. destruct p0 as [x0 y0]. cbn [fst snd] in H.
  assert (Rx : Forall (in_range ex (deltax s)) (x0 :: x)). { apply Forall_forall. intros v Hv. apply (in_map_iff fst ((x0, y0) :: tr)) in Hv. destruct Hv as (p & <- & Hp). rewrite Forall_forall in Rt. apply Rt. exact Hp. }
  assert (Ry : Forall (in_range ey (deltay s)) (y0 :: y)). { apply Forall_forall. intros v Hv. apply (in_map_iff snd ((x0, y0) :: tr)) in Hv. destruct Hv as (p & <- & Hp). rewrite Forall_forall in Rt. apply Rt. exact Hp. }
  pose proof (in_range_finite _ _ _ Rx) as Fx. pose proof (in_range_finite _ _ _ Ry) as Fy.
  inversion Fx as [|? ? Fx0 Fxl]; subst. inversion Fy as [|? ? Fy0 Fyl]; subst.
  destruct (min_exact lm x x0 Fx0 Fxl) as (N1 & I1). destruct (max_exact lm x x0 Fx0 Fxl) as (N2 & I2).
  destruct (min_exact lm y y0 Fy0 Fyl) as (N3 & I3). destruct (max_exact lm y y0 Fy0 Fyl) as (N4 & I4).
  pose proof Rx as Rx'. pose proof Ry as Ry'. rewrite Forall_forall in Rx', Ry'. apply Rx' in I1, I2. apply Ry' in I3, I4.
  set (a := fold_left pymin x x0) in *. set (b := fold_left pymax x x0) in *. set (c := fold_left pymin y y0) in *. set (d := fold_left pymax y y0) in *.
  destruct (c89_expand lm fuel ex ey s a b c d D I1 I2 I3 I4) as (EE & D1). destruct (expand_keeps_deltas (N := SF lm) fuel s a b c d) as (K1 & K2).
  destruct (@expand spec_float (SF lm) fuel s a b c d) as [s1 r1] eqn:E1. cbn [fst snd] in *.
  destruct r1 as [[]| |]; try discriminate.
  rewrite (exact_fin a (proj1 I1)), (exact_fin b (proj1 I2)), (exact_fin c (proj1 I3)), (exact_fin d (proj1 I4)) in EE.
  destruct (c03_expand_preserves _ _ _ _ _ _ _ Wf Ini EE) as (P1 & P2 & P3 & _).
  destruct (c02_expand_contains _ _ _ _ _ _ _ Wf EE) as (Wf1 & xa & xb & ya & yb & Ex & L1 & _ & L2 & L3 & _ & L4).
  assert (Cm1 : compact ex ey s1).
  { apply (compact_kept ex ey s1 s'); [|exact Cm]. pose proof (segments_kept (N := SF lm) u (x0 :: x) (y0 :: y) s1) as Kp. rewrite H in Kp. exact Kp. }
  destruct (segments_painted lm ex ey u He He' Ru Ru' Pu ((x0, y0) :: tr) s1 D1 Cm1 Wf1) as (s2 & E2 & D2 & _ & _ & (Q1 & Q2 & Q3 & Q4 & Q5 & Q6)).
  { eapply Forall_impl; [|exact Rt]. intros p (A & B). split; [exact (in_range_reach ex _ _ Px A)|exact (in_range_reach ey _ _ Py B)]. }
  { exact Sep. }
  cbn [map fst snd] in E2. fold x y in E2. rewrite E2 in H. injection H as <-.
  split; [exact D2|]. split; [exact Q1|]. split; [exact Q2|]. split; [|split; [|split]].
  - intros u1 u2 w m Hn. exact (Q3 _ _ _ _ (P1 _ _ _ _ Hn)).
  - intros u1 u2 w m' Hn. destruct (Q4 _ _ _ _ Hn) as (m & Hm & C1 & C2 & C3). split; [|split; [|split]].
    + intros X. destruct (P2 _ _ _ _ Hm) as [Y|(_ & Y & _)]; [|exact Y]. destruct X. exists w, m. exact Y.
    + intros (w' & X). apply P1 in X. destruct (has_node_fun _ _ _ _ _ _ _ Wf1 Hm X) as (_ & ->). auto.
    + intros X. destruct (C2 X) as [Y|(p & q & Y)]; [left|right; eauto]. subst m. destruct (P2 _ _ _ _ Hm) as [Z|(_ & _ & Z)]; [exists w; exact Z|discriminate].
    + intros p q Hc Hne Hs. apply C3. exists p, q. auto.
  - intros W HW. apply Q5, P3. exact HW.
  - exists xa, xb, ya, yb. split.
    + unfold shape in Q6. destruct Ex as (g1 & B1 & X1 & X2 & X3 & X4). rewrite B1 in Q6.
      destruct (body (exact_field s2)) as [g2|] eqn:B2; [|discriminate]. injection Q6 as _ _ Z1 Z2 Z3 Z4.
      exists g2. split; [exact B2|]. rewrite Z1, Z2, Z3, Z4. auto.
    + intros p Hp.
      destruct (fold_bounds lm (fst p) x x0 Fx0 Fxl) as (A1 & A2); [apply (in_map fst) in Hp; exact Hp|].
      destruct (fold_bounds lm (snd p) y y0 Fy0 Fyl) as (A3 & A4); [apply (in_map snd) in Hp; exact Hp|].
      fold a in A1. fold b in A2. fold c in A3. fold d in A4. unfold at_. cbn [fst snd]. lra.
Qed.

(** rasterize returns, as long as the field that it reaches is compact. *)
Lemma c91_rasterize_returns : forall lm ex ey s tr u, dyadic ex ey s -> (ex <= 147)%Z -> (ey <= 147)%Z -> wf (exact_field s) -> tr <> [] ->
  Forall (fun p => in_range ex (deltax s) (fst p) /\ in_range ey (deltay s) (snd p)) tr ->
  (forall p q, consecutive tr p q -> apart (at_ p) (at_ q)) -> reach ex u -> reach ey u -> 0 <= fval u ->
  exists n, forall fuel, (n <= fuel)%nat ->
    let r := @rasterize spec_float (SF lm) fuel s (map fst tr) (map snd tr) u in compact ex ey (fst r) -> snd r = Ok tt.
Proof.
  intros lm ex ey s tr u D He He' Wf Ne Rt Sep Ru Ru' Pu. pose proof D as (Re & Re' & Hdx & Px & Ux & Hdy & Py & Uy & _).
  destruct tr as [|p0 tr]; [congruence|]. destruct p0 as [x0 y0].
  set (x := map fst tr) in *. set (y := map snd tr) in *.
  assert (Rx : Forall (in_range ex (deltax s)) (x0 :: x)). { apply Forall_forall. intros v Hv. apply (in_map_iff fst ((x0, y0) :: tr)) in Hv. destruct Hv as (p & <- & Hp). rewrite Forall_forall in Rt. apply Rt. exact Hp. }
  assert (Ry : Forall (in_range ey (deltay s)) (y0 :: y)). { apply Forall_forall. intros v Hv. apply (in_map_iff snd ((x0, y0) :: tr)) in Hv. destruct Hv as (p & <- & Hp). rewrite Forall_forall in Rt. apply Rt. exact Hp. }
  pose proof (in_range_finite _ _ _ Rx) as Fx. pose proof (in_range_finite _ _ _ Ry) as Fy.
  inversion Fx as [|? ? Fx0 Fxl]; subst. inversion Fy as [|? ? Fy0 Fyl]; subst.
  destruct (min_exact lm x x0 Fx0 Fxl) as (_ & I1). destruct (max_exact lm x x0 Fx0 Fxl) as (_ & I2).
  destruct (min_exact lm y y0 Fy0 Fyl) as (_ & I3). destruct (max_exact lm y y0 Fy0 Fyl) as (_ & I4).
  assert (Lx : fval (fold_left (@pymin spec_float (SF lm)) x x0) <= fval (fold_left (@pymax spec_float (SF lm)) x x0)).
  { destruct (fold_bounds lm x0 x x0 Fx0 Fxl) as (A & B); [cbn; auto|]. lra. }
  assert (Ly : fval (fold_left (@pymin spec_float (SF lm)) y y0) <= fval (fold_left (@pymax spec_float (SF lm)) y y0)).
  { destruct (fold_bounds lm y0 y y0 Fy0 Fyl) as (A & B); [cbn; auto|]. lra. }
  pose proof Rx as Rx'. pose proof Ry as Ry'. rewrite Forall_forall in Rx', Ry'. apply Rx' in I1, I2. apply Ry' in I3, I4.
  set (a := fold_left pymin x x0) in *. set (b := fold_left pymax x x0) in *. set (c := fold_left pymin y y0) in *. set (d := fold_left pymax y y0) in *.
  destruct (c07_expand_terminates (exact_field s) _ _ _ _ Wf Lx Ly) as (n & Hn). exists n. intros fuel Hf r. subst r. specialize (Hn fuel Hf).
  unfold rasterize. cbn [map pymin_list pymax_list fst snd]. fold x y. fold a b c d.
  destruct (c89_expand lm fuel ex ey s a b c d D I1 I2 I3 I4) as (EE & D1).
  destruct (@expand spec_float (SF lm) fuel s a b c d) as [s1 r1] eqn:E1. cbn [fst snd] in *.
  rewrite (exact_fin a (proj1 I1)), (exact_fin b (proj1 I2)), (exact_fin c (proj1 I3)), (exact_fin d (proj1 I4)) in EE.
  rewrite EE in Hn. cbn [snd] in Hn. subst r1.
  destruct (c02_expand_contains _ _ _ _ _ _ _ Wf EE) as (Wf1 & _).
  intros Cm. pose proof (compact_kept _ _ _ _ (segments_kept (N := SF lm) u (x0 :: x) (y0 :: y) s1) Cm) as Cm1.
  destruct (segments_painted lm ex ey u He He' Ru Ru' Pu ((x0, y0) :: tr) s1 D1 Cm1 Wf1) as (s2 & E2 & _).
  { eapply Forall_impl; [|exact Rt]. intros p (A & B). split; [exact (in_range_reach ex _ _ Px A)|exact (in_range_reach ey _ _ Py B)]. }
  { exact Sep. }
  cbn [map fst snd] in E2. fold x y in E2. rewrite E2. reflexivity.
Qed.
