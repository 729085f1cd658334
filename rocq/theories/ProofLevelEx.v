(** * Concrete cases of C126 and C127 *)
From Coq Require Import ZArith Reals Lra Lia SpecFloat List Psatz.
From Flocq Require Import Core.
From Verif Require Import Py Num NumXR ModelAquifer ModelTrace SpecFloats SpecAquifer SpecTrace SpecPathline SpecRough SpecDischarge
  ProofFloat ProofFloatGrow ProofFloatOps ProofFloatMean ProofFloatGrid ProofDistError ProofFloatDist ProofPi ProofAquifer ProofHead ProofPathline ProofRoughStep ProofDischargeFloat ProofDischargeAcc ProofDischargeTrace ProofDischargeEx SpecLevel ProofLevelPot ProofLevelHead ProofLevelVel.
Import ListNotations.
Local Open Scope R_scope.
Local Notation B2 := (bpow radix2).

(** A logarithm that is rounded up to a multiple of 2^-40. *)
Definition even_log : libm :=
  {| lm_log := fun x => SFdiv fprec femax (f_of_Z (up (ln (fval x) * 2 ^ 40))) (f_of_Z (2 ^ 40)); lm_cos := fun x => x; lm_sin := fun x => x; lm_hypot := fun x _ => x; lm_root5 := fun x => x |}.

Lemma ln_wide x : / 2 ^ 401 <= x -> x <= 2 ^ 404 -> Rabs (ln x) <= 404.
Proof.
  intros L U. assert (P : 0 < / 2 ^ 401) by (apply Rinv_0_lt_compat, pow_lt; lra).
  assert (Mono : forall a b, 0 < a -> a <= b -> ln a <= ln b) by (intros a b Ha [Hab| ->]; [left; now apply ln_increasing|right; reflexivity]).
  assert (A1 : ln x <= 404).
  { rewrite <- (ln_exp 404). apply Mono; [eapply Rlt_le_trans; [exact P|exact L]|]. eapply Rle_trans; [exact U|]. eapply Rle_trans; [apply two_exp|]. rewrite INR_IZR_INZ. right. reflexivity. }
  assert (A2 : Ropp (IZR 401) <= ln x).
  { rewrite <- (ln_exp (Ropp (IZR 401))). apply Mono; [apply exp_pos|]. eapply Rle_trans; [|exact L]. rewrite exp_Ropp. apply Rinv_le_contravar; [apply pow_lt; lra|]. eapply Rle_trans; [apply two_exp|]. rewrite INR_IZR_INZ. right. reflexivity. }
  clear - A1 A2. unfold Rabs. destruct (Rcase_abs _); lra.
Qed.

Lemma even_within : log_within even_log (/ 2 ^ 38).
Proof.
  intros x _ (L & U). pose proof (ln_wide _ L U) as W. clear L U. cbn [lm_log even_log]. set (l := ln (fval x)) in *. destruct (archimed (l * 2 ^ 40)) as (A1 & A2). set (n := up (l * 2 ^ 40)) in *. apply Rabs_le_inv in W as W'.
  assert (N : (Z.abs n <= 2 ^ 53)%Z).
  { apply Z.abs_le. split; apply le_IZR; [rewrite opp_IZR|]; change (IZR (2 ^ 53)) with 9007199254740992; lra. }
  destruct (of_small n N) as (F1 & E1). destruct (of_small (2 ^ 40) ltac:(lia)) as (F2 & E2). change (IZR (2 ^ 40)) with 1099511627776 in E2.
  assert (Q : Rabs (fval (f_of_Z n) / fval (f_of_Z (2 ^ 40)) - l) <= / 2 ^ 40) by (rewrite E1, E2; apply Rabs_le; split; lra).
  assert (Q2 : Rabs (fval (f_of_Z n) / fval (f_of_Z (2 ^ 40))) <= 405) by (rewrite E1, E2; apply Rabs_le; split; lra).
  destruct (div_op 9 (f_of_Z n) (f_of_Z (2 ^ 40)) ltac:(lia) F1 F2 ltac:(rewrite E2; lra) ltac:(eapply Rle_trans; [exact Q2|change (B2 9) with 512; lra])) as ((F3 & _) & E3). split; [exact F3|].
  set (q := fval (f_of_Z n) / fval (f_of_Z (2 ^ 40))) in *. replace (fval (SFdiv fprec femax (f_of_Z n) (f_of_Z (2 ^ 40))) - l) with ((fval (SFdiv fprec femax (f_of_Z n) (f_of_Z (2 ^ 40))) - q) + (q - l)) by ring.
  eapply Rle_trans; [apply Rabs_triang|]. pose proof (Rabs_pos l). assert (HH : hh <= / 2 ^ 53).
  { unfold hh. apply Rle_trans with (B2 (-53)); [apply bpow_le; lia|]. right. change (-53)%Z with (- (53))%Z. rewrite bpow_opp. f_equal. rewrite bpow_powerRZ. symmetry. apply (pow_powerRZ 2 53). }
  assert (K : kk * Rabs q <= kk * 405) by (apply Rmult_le_compat_l; [left; apply K_small|exact Q2]). assert (K2 : kk * 405 <= / 2 ^ 40) by (unfold kk; lra). lra.
Qed.

(** An aquifer that is not full. *)
Definition pond : model spec_float :=
  {| base := f_of_Z 0; conductivity := f_of_Z 1; porosity := fq 1 4; thickness := f_of_Z 4;
     wells := [{| wx := f_of_Z 0; wy := f_of_Z 0; wr := f_of_Z 1; wq := f_of_Z 6 |}]; xo := f_of_Z 0; yo := f_of_Z 0;
     ModelAquifer.coef := {| cA := fq 1 256; cB := f_of_Z 0; cC := f_of_Z 0; cD := f_of_Z (-1); cE := f_of_Z 0; cF := f_of_Z 5 |} |}.
Definition pond_real : model R :=
  {| base := 0; conductivity := 1; porosity := / 4; thickness := 4; wells := [{| wx := 0; wy := 0; wr := 1; wq := 6 |}]; xo := 0; yo := 0;
     ModelAquifer.coef := {| cA := / 256; cB := 0; cC := 0; cD := -1; cE := 0; cF := 5 |} |}.
Lemma pond_is : real_model pond = pond_real.
Proof.
  unfold real_model, pond, pond_real, real_well, real_coef. cbn [base conductivity porosity thickness wells xo yo ModelAquifer.coef map wx wy wr wq cA cB cC cD cE cF].
  rewrite fv_4, fv_256, !fv_int by lia. reflexivity.
Qed.
Lemma pond_moderate : moderate_model pond.
Proof.
  pose proof huge_big as HB. pose proof huge_inv as HI.
  assert (Q4 : moderate (fq 1 4)) by (split; [apply fin_q; [reflexivity|exact I]|rewrite fv_4, Rabs_pos_eq; lra]).
  assert (Q256 : moderate (fq 1 256)) by (split; [apply fin_q; [reflexivity|exact I]|rewrite fv_256, Rabs_pos_eq; lra]).
  assert (N : forall n, (Z.abs n <= 1024)%Z -> moderate (f_of_Z n)) by exact int_moderate.
  split; [apply N; lia|]. split; [apply N; lia|]. split.
  { intros c Ic. unfold coef_list in Ic. cbn [pond ModelAquifer.coef cA cB cC cD cE cF In] in Ic. destruct Ic as [<-|[<-|[<-|[<-|[<-|[<-|[]]]]]]]; solve [exact Q256|apply N; lia]. }
  split.
  { intros w [<-|[]]. split; [apply N; lia|]. split; apply N; lia. }
  split; [apply N; lia|]. split; [exact Q4|]. cbn [pond thickness porosity]. rewrite fv_4, fv_int by lia. lra.
Qed.
Lemma pond_sized : sized (conductivity pond).
Proof. split; [apply int_moderate; lia|]. cbn [pond conductivity]. rewrite fv_int by lia. pose proof huge_inv. lra. Qed.
Lemma pond_clear : clear_of_wells (real_model pond) (fval (f_of_Z 2), fval (f_of_Z 0)).
Proof. rewrite pond_is, !fv_int by lia. intros w [<-|[]]. cbn [wx wy]. pose proof (proj1 (dist_comps (2, 0) (0, 0))) as D. cbn [fst snd] in D. rewrite Rabs_pos_eq in D by lra. pose proof huge_inv. lra. Qed.

Lemma ln_4 : 1 < ln 4 < 2.
Proof.
  replace 4 with (2 * 2) by ring. rewrite ln_mult by lra. pose proof ln_lt_2 as L. pose proof (ln_below 2 ltac:(lra)) as U. split; [lra|]. assert (ln 2 < 1); [|lra].
  rewrite <- (ln_exp 1). apply ln_increasing; [lra|]. pose proof (exp_ineq1 1 ltac:(lra)). lra.
Qed.
Lemma pond_potential : 3 <= potential pond_real 2 0 <= 5.
Proof.
  unfold potential. rewrite compute_potential_eq by (intros w [<-|[]] (Q & _); cbn [wx] in Q; lra). cbn [Rval]. unfold quad, wpot, wdist2, kappa. cbn [pond_real ModelAquifer.coef cA cB cC cD cE cF xo yo wells Rsum fold_right wx wy wq].
  replace ((2 - 0) * (2 - 0) + (0 - 0) * (0 - 0)) with 4 by ring. pose proof ln_4. lra.
Qed.
Lemma pond_load : 0 <= load_p pond_real 2 0 <= 9.
Proof.
  unfold load_p, wdist2. cbn [pond_real ModelAquifer.coef cA cB cC cD cE cF xo yo wells Rsum fold_right wx wy wq]. replace ((2 - 0) * (2 - 0) + (0 - 0) * (0 - 0)) with 4 by ring. replace (2 - 0) with 2 by ring. replace (0 - 0) with 0 by ring.
  pose proof ln_4. rewrite !Rabs_R0, (Rabs_pos_eq 2), (Rabs_pos_eq 6), (Rabs_pos_eq 5), (Rabs_pos_eq (/ 256)), (Rabs_left (-1)), (Rabs_pos_eq (ln 4)) by lra. lra.
Qed.
Lemma pond_level : 0 <= level_error (/ 2 ^ 38) pond_real 2 0 <= / 10 ^ 10.
Proof.
  unfold level_error. cbn [pond_real wells length INR]. fold pond_real. pose proof pond_load as L. pose proof tiny_pos as P. pose proof tiny_small as S. split; [apply Rmult_le_pos; lra|].
  apply Rle_trans with (((1 + 13) / 2 ^ 52 + 2 * / 2 ^ 38) * (9 + 2 * / 1024)); [apply Rmult_le_compat_l; lra|lra].
Qed.
Lemma pond_firm : firm (/ 2 ^ 38) pond_real 2 0.
Proof.
  pose proof pond_potential as P. pose proof pond_level as E. pose proof huge_big as H. assert (1024 * 1 <= huge * huge) by (apply Rmult_le_compat; lra). split; [split; [|lra]|lra].
  apply Rle_trans with (/ 1); [apply Rinv_le_contravar; lra|lra].
Qed.

(** A case of [c126_potential]. *)
Lemma c126_example : log_within even_log (/ 2 ^ 38) /\ moderate_model pond /\ moderate (f_of_Z 2) /\ moderate (f_of_Z 0) /\ clear_of_wells (real_model pond) (fval (f_of_Z 2), fval (f_of_Z 0)) /\
  let p := @compute_potential _ (SF even_log) pond (f_of_Z 2) (f_of_Z 0) in 3 <= potential (real_model pond) 2 0 <= 5 /\ Rabs (fval p - potential (real_model pond) 2 0) <= / 10 ^ 10.
Proof.
  pose proof (int_moderate 2 ltac:(lia)) as M1. pose proof (int_moderate 0 ltac:(lia)) as M2. split; [exact even_within|]. split; [exact pond_moderate|]. split; [exact M1|]. split; [exact M2|]. split; [exact pond_clear|].
  pose proof (c126_potential even_log (/ 2 ^ 38) pond _ _ ltac:(lra) even_within pond_moderate M1 M2 pond_clear ltac:(cbn; lia)) as (_ & E). rewrite pond_is, !fv_int in E by lia. rewrite pond_is. split; [exact pond_potential|].
  pose proof pond_level as L. unfold level_error in L. cbn [pond_real wells length] in L. fold pond_real in L. cbn [pond wells length] in E. lra.
Qed.

(** A case of [c127_head] and [c127_velocity]: the aquifer is not full. *)
Lemma c127_example : log_within even_log (/ 2 ^ 38) /\ moderate_model pond /\ sized (conductivity pond) /\ firm (/ 2 ^ 38) (real_model pond) 2 0 /\
  exists hd h v ux uy, @compute_head _ (SF even_log) pond (f_of_Z 2) (f_of_Z 0) = Ok hd /\ compute_head (fmodel (real_model pond)) (Fin 2) (Fin 0) = Ok (Fin h) /\ 2 <= h < 4 /\ Rabs (fval hd - h) <= / 10 ^ 9 /\
    @compute_velocity _ (SF even_log) pond (f_of_Z 2) (f_of_Z 0) = Ok v /\ compute_velocity (fmodel (real_model pond)) (Fin 2) (Fin 0) = Ok (Fin ux, Fin uy) /\
    Rabs (fval (fst v) - ux) <= / 10 ^ 8 /\ Rabs (fval (snd v) - uy) <= / 10 ^ 8.
Proof.
  pose proof (int_moderate 2 ltac:(lia)) as M1. pose proof (int_moderate 0 ltac:(lia)) as M2. split; [exact even_within|]. split; [exact pond_moderate|]. split; [exact pond_sized|]. rewrite pond_is. split; [exact pond_firm|].
  pose proof pond_potential as P. pose proof pond_level as E. set (h0 := head_at 1 4 (potential pond_real 2 0)).
  assert (H0 : 2 <= h0 < 4).
  { destruct (girinskii_head 1 4 (potential pond_real 2 0) ltac:(lra) ltac:(lra) ltac:(lra)) as (P0 & G & _). fold h0 in P0, G. unfold girinskii in G. destruct (Rlt_dec h0 4) as [L|L]; [|lra]. split; [|exact L]. destruct (Rle_or_lt 2 h0) as [C|C]; [exact C|].
    assert (h0 * h0 <= 2 * 2) by (apply Rmult_le_compat; lra). lra. }
  assert (WD : water_depth pond_real 2 0 = h0) by (unfold water_depth; cbn [pond_real conductivity thickness]; fold pond_real; fold h0; apply Rmin_left; lra).
  pose proof (c127_head even_log (/ 2 ^ 38) pond _ _ ltac:(lra) even_within pond_moderate pond_sized M1 M2 pond_clear ltac:(cbn; lia)) as A. pose proof (c127_velocity even_log (/ 2 ^ 38) pond _ _ ltac:(lra) even_within pond_moderate pond_sized M1 M2 pond_clear ltac:(cbn; lia)) as B.
  rewrite !fv_int in A, B by lia. rewrite pond_is in A, B. cbv zeta in A, B. destruct (A pond_firm) as (hd & h & A1 & A2 & A3 & A4 & A5). destruct (B pond_firm) as (v & ux & uy & B1 & B2' & B3 & B4 & B5 & B6 & B7 & B8). clear A B.
  assert (Eh : h = h0).
  { assert (EP : compute_potential (fmodel pond_real) (Fin 2) (Fin 0) = Fin (potential pond_real 2 0)) by (unfold potential; rewrite compute_potential_eq by (intros w [<-|[]] (Q & _); cbn [wx] in Q; lra); reflexivity).
    unfold compute_head in A3. rewrite EP in A3. cbn [conductivity thickness fmodel pond_real] in A3. unfold h0, head_at. rewrite A3. reflexivity. }
  exists hd, h, v, ux, uy. split; [exact A1|]. split; [exact A3|]. split; [rewrite Eh; exact H0|]. rewrite WD in *. cbn [pond_real conductivity porosity pond wells length INR] in A5, B7, B8. fold pond_real in A5, B7, B8. rewrite Eh in *.
  assert (Q : 3 * level_error (/ 2 ^ 38) pond_real 2 0 / (1 * h0) <= 3 / 2 * / 10 ^ 10).
  { apply Rmult_le_reg_r with (1 * h0); [lra|]. unfold Rdiv at 1. rewrite Rmult_assoc, Rinv_l by lra. assert (/ 10 ^ 10 * 2 <= / 10 ^ 10 * h0) by (apply Rmult_le_compat_l; lra). lra. }
  split; [lra|]. split; [exact B1|]. split; [exact B4|]. clear B1 B4 A1 A3.
  assert (D : depth_error (/ 2 ^ 38) pond_real 2 0 <= / 10 ^ 10).
  { unfold depth_error. rewrite WD. cbn [pond_real conductivity]. fold pond_real. assert (4 <= h0 * h0) by (replace 4 with (2 * 2) by ring; apply Rmult_le_compat; lra).
    assert (3 * level_error (/ 2 ^ 38) pond_real 2 0 / (1 * (h0 * h0)) <= 3 / 4 * / 10 ^ 10); [|lra].
    apply Rmult_le_reg_r with (1 * (h0 * h0)); [lra|]. unfold Rdiv at 1. rewrite Rmult_assoc, Rinv_l by lra. assert (/ 10 ^ 10 * 4 <= / 10 ^ 10 * (h0 * h0)) by (apply Rmult_le_compat_l; lra). lra. }
  assert (D0 : 0 <= depth_error (/ 2 ^ 38) pond_real 2 0).
  { unfold depth_error. rewrite WD. cbn [pond_real conductivity]. fold pond_real. apply Rplus_le_le_0_compat; [|lra]. apply Rmult_le_pos; [lra|]. left. apply Rinv_0_lt_compat. assert (2 * 2 <= h0 * h0) by (apply Rmult_le_compat; lra). lra. }
  pose proof tiny_small as TS. pose proof tiny_pos as TP.
  assert (LX : 0 <= load_x pond_real 2 0 <= 3).
  { unfold load_x, pond_real, wdist2. cbn [ModelAquifer.coef cA cC cD xo yo wells Rsum fold_right wx wy wq]. rewrite !Rabs_R0. replace (2 - 0) with 2 by ring. replace (0 - 0) with 0 by ring.
    rewrite ?Rabs_R0, (Rabs_pos_eq 2), (Rabs_pos_eq 6), (Rabs_pos_eq (/ 256)), (Rabs_left (-1)) by lra. lra. }
  assert (LY : 0 <= load_y pond_real 2 0 <= 3).
  { unfold load_y, pond_real, wdist2. cbn [ModelAquifer.coef cB cC cE xo yo wells Rsum fold_right wx wy wq]. rewrite !Rabs_R0. replace (2 - 0) with 2 by ring. replace (0 - 0) with 0 by ring.
    rewrite ?Rabs_R0, (Rabs_pos_eq 6) by lra. lra. }
  assert (G : forall a, 0 <= a <= 3 -> ((1 + 12) / 2 ^ 51 + 2 * depth_error (/ 2 ^ 38) pond_real 2 0) * ((a + tiny) / (h0 * / 4)) <= / 10 ^ 8).
  { intros a Ha. assert (J : 0 <= (a + tiny) / (h0 * / 4) <= 8).
    { split; [apply Rmult_le_pos; [lra|left; apply Rinv_0_lt_compat; lra]|]. apply Rmult_le_reg_r with (h0 * / 4); [lra|]. unfold Rdiv. rewrite Rmult_assoc, Rinv_l by lra. lra. }
    apply Rle_trans with ((13 / 2 ^ 51 + 2 * / 10 ^ 10) * 8); [apply Rmult_le_compat; lra|lra]. }
  split; [exact (Rle_trans _ _ _ B7 (G _ LX))|exact (Rle_trans _ _ _ B8 (G _ LY))].
Qed.
