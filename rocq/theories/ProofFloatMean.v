(** * Means of distributions in binary64: property C56 *)
From Coq Require Import ZArith Reals Lra Lia SpecFloat List.
From Flocq Require Import Core Relative.
From Verif Require Import Py Num ModelDist SpecFloats ProofFloat ProofFloatGrow ProofFloatOps.
Import ListNotations.
Local Open Scope R_scope.

Local Notation fx := (FLT_exp (-1074) 53).
Local Notation F := (generic_format radix2 fx).
Local Notation rd := (round radix2 fx ZnearestE).

Lemma of_small (n : Z) : (Z.abs n <= 2 ^ 53)%Z -> ffinite (f_of_Z n) /\ fval (f_of_Z n) = IZR n.
Proof.
  intros H. destruct (of_int n H) as (b & E & Fb & Vb & _). rewrite E. destruct (b_finite b Fb) as (Q & V). split; [exact Q|]. etransitivity; [exact V|exact Vb].
Qed.

Lemma F_int_mul n : (Z.abs n <= 2 ^ 53)%Z -> F (IZR n).
Proof. intros H. destruct (of_small n H) as (Q & <-). now apply F_of. Qed.

Lemma pow_bpow n : 2 ^ n = bpow radix2 (Z.of_nat n).
Proof. rewrite bpow_powerRZ, <- pow_powerRZ. reflexivity. Qed.

Lemma F_bpow e : (-1074 <= e)%Z -> F (bpow radix2 e).
Proof. intros H. apply generic_format_bpow. unfold FLT_exp. lia. Qed.

Lemma leb_left lb x m : valid_binary fprec femax lb = true -> ffinite x -> ffinite m ->
  SFleb lb x = true -> fval x <= fval m -> SFleb lb m = true.
Proof.
  intros Vl Hx Hm H L. destruct lb as [s|s| |s k e].
  - rewrite fleb in * by (assumption || (split; [assumption|exact I])). revert H. case Rle_bool_spec; [|discriminate]. intros H _. apply Rle_bool_true. lra.
  - destruct s; [destruct Hm as (_ & Hm); destruct m; try contradiction; reflexivity|destruct Hx as (_ & Hx); destruct x; try contradiction; discriminate].
  - discriminate.
  - rewrite fleb in * by (assumption || (split; [assumption|exact I])). revert H. case Rle_bool_spec; [|discriminate]. intros H _. apply Rle_bool_true. lra.
Qed.
Lemma leb_right ub y m : valid_binary fprec femax ub = true -> ffinite y -> ffinite m ->
  SFleb y ub = true -> fval m <= fval y -> SFleb m ub = true.
Proof.
  intros Vu Hy Hm H L. destruct ub as [s|s| |s k e].
  - rewrite fleb in * by (assumption || (split; [assumption|exact I])). revert H. case Rle_bool_spec; [|discriminate]. intros H _. apply Rle_bool_true. lra.
  - destruct s; [destruct Hy as (_ & Hy); destruct y as [|[]| |[] ? ?]; try contradiction; discriminate|destruct Hm as (_ & Hm); destruct m as [|[]| |[] ? ?]; try contradiction; reflexivity].
  - destruct Hy as (_ & Hy); destruct y as [|[]| |[] ? ?]; try contradiction; discriminate.
  - rewrite fleb in * by (assumption || (split; [assumption|exact I])). revert H. case Rle_bool_spec; [|discriminate]. intros H _. apply Rle_bool_true. lra.
Qed.

(** Pairs of finite entries: unless the sum may overflow, the mean lies between the two entries, and within the bounds,
    finite or not. *)
Lemma c56_pair_binary64_partial : forall lm (a b : pyval spec_float) x y lb ub,
  @num_of spec_float (SF lm) a = Some x -> @num_of spec_float (SF lm) b = Some y ->
  ffinite x -> ffinite y -> Rabs (fval x) < 2 ^ 1022 -> Rabs (fval y) < 2 ^ 1022 ->
  valid_binary fprec femax lb = true -> valid_binary fprec femax ub = true ->
  @isdistribution spec_float (SF lm) (PTuple [a; b]) lb ub = Ok true ->
  exists m, @compute_variate_mean spec_float (SF lm) (PTuple [a; b]) = Ok (PFloat m) /\ ffinite m /\
    fval x <= fval m <= fval y /\ SFleb lb m = true /\ SFleb m ub = true.
Proof.
  intros lm a b x y lb ub Ea Eb Hx Hy Bx By Hl Hu H.
  unfold isdistribution, chain_le in H. rewrite Ea, Eb in H. cbn [num_of SF nle] in H.
  destruct (SFleb lb x) eqn:H1; [|discriminate]. destruct (SFleb x y) eqn:H2; [|discriminate]. destruct (SFleb y ub) eqn:H3; [|discriminate]. clear H.
  rewrite fleb in H2 by assumption.
  destruct (Rle_bool_spec (fval x) (fval y)) as [L|]; [|discriminate].
  unfold compute_variate_mean, as_num. rewrite Ea, Eb. cbn [bind]. eexists. split; [reflexivity|].
  cbn [nadd ndiv nZ SF].
  assert (FX : F (2 * fval x)) by (apply F_double, F_of; assumption).
  assert (FY : F (2 * fval y)) by (apply F_double, F_of; assumption).
  assert (B : 2 * fval x <= rd (fval x + fval y) <= 2 * fval y) by (apply rd_between; auto; lra).
  apply Rabs_def2 in Bx, By. rewrite pow_bpow in Bx, By. change (Z.of_nat 1022) with 1022%Z in Bx, By.
  assert (E : bpow radix2 1024 = 4 * bpow radix2 1022) by (change 1024%Z with (2 + 1022)%Z; rewrite bpow_plus; reflexivity).
  destruct (add_rd x y Hx Hy) as (Q & V); [apply Rabs_def1; lra|].
  destruct (of_small 2 ltac:(cbn; lia)) as (Q2 & V2).
  assert (B' : fval x <= rd (rd (fval x + fval y) / 2) <= fval y).
  { apply rd_between; [apply F_of; assumption|apply F_of; assumption|lra]. }
  destruct (div_rd _ _ Q Q2) as (Q3 & V3); [rewrite V2; lra|rewrite V, V2; apply Rabs_def1; lra|].
  rewrite V, V2 in V3. split; [exact Q3|]. rewrite V3. split; [exact B'|].
  split; [apply (leb_left lb x); auto; rewrite V3; apply B'|apply (leb_right ub y); auto; rewrite V3; apply B'].
Qed.

(** Triples: every bound on the entries that is a binary64 number and whose triple is one too is respected. *)
Lemma c56_triple_binary64_partial : forall lm (a b c : pyval spec_float) x y z l u,
  @num_of spec_float (SF lm) a = Some x -> @num_of spec_float (SF lm) b = Some y -> @num_of spec_float (SF lm) c = Some z ->
  ffinite x -> ffinite y -> ffinite z -> ffinite l -> ffinite u -> - 2 ^ 1022 < fval l -> fval u < 2 ^ 1022 ->
  has_triple l -> has_triple u ->
  (forall v, In v [x; y; z] -> fval l <= fval v <= fval u) ->
  exists m, @compute_variate_mean spec_float (SF lm) (PTuple [a; b; c]) = Ok (PFloat m) /\ ffinite m /\ fval l <= fval m <= fval u.
Proof.
  intros lm a b c x y z lf uf Ea Eb Ec Hx Hy Hz Hl Hu Bl Bu (tl & Htl & Etl) (tu & Htu & Etu) I.
  assert (Ix : fval lf <= fval x <= fval uf) by (apply I; cbn; auto). assert (Iy : fval lf <= fval y <= fval uf) by (apply I; cbn; auto).
  assert (Iz : fval lf <= fval z <= fval uf) by (apply I; cbn; auto). clear I.
  assert (Fl : F (fval lf)) by (apply F_of; assumption). assert (Fu : F (fval uf)) by (apply F_of; assumption).
  assert (Fl3 : F (3 * fval lf)) by (rewrite <- Etl; apply F_of; assumption). assert (Fu3 : F (3 * fval uf)) by (rewrite <- Etu; apply F_of; assumption).
  set (l := fval lf) in *. set (u := fval uf) in *.
  unfold compute_variate_mean, as_num. rewrite Ea, Eb, Ec. cbn [bind]. eexists. split; [reflexivity|]. cbn [nadd ndiv nZ SF].
  rewrite pow_bpow in Bl, Bu. change (Z.of_nat 1022) with 1022%Z in Bl, Bu.
  assert (E : bpow radix2 1024 = 4 * bpow radix2 1022) by (change 1024%Z with (2 + 1022)%Z; rewrite bpow_plus; reflexivity).
  assert (B : 2 * l <= rd (fval x + fval y) <= 2 * u) by (apply rd_between; [apply F_double; assumption|apply F_double; assumption|lra]).
  destruct (add_rd x y Hx Hy) as (Q & V); [apply Rabs_def1; lra|].
  assert (B1 : 3 * l <= rd (rd (fval x + fval y) + fval z) <= 3 * u) by (apply rd_between; auto; lra).
  destruct (add_rd _ z Q Hz) as (Q1 & V1); [rewrite V; apply Rabs_def1; lra|]. rewrite V in V1.
  destruct (of_small 3 ltac:(cbn; lia)) as (Q2 & V2).
  assert (B2 : l <= rd (rd (rd (fval x + fval y) + fval z) / 3) <= u) by (apply rd_between; auto; lra).
  destruct (div_rd _ _ Q1 Q2) as (Q3 & V3); [rewrite V2; lra|rewrite V1, V2; apply Rabs_def1; lra|].
  rewrite V1, V2 in V3. split; [exact Q3|]. rewrite V3. exact B2.
Qed.

Lemma rd_rel x : bpow radix2 (-1022) <= x -> x * (1 - / 2 ^ 53) <= rd x <= x * (1 + / 2 ^ 53).
Proof.
  intros H. pose proof (bpow_gt_0 radix2 (-1022)).
  assert (A : Rabs (rd x - x) <= / 2 * bpow radix2 (- (53) + 1) * Rabs x).
  { apply (relative_error_N_FLT radix2 (-1074) 53 ltac:(reflexivity) (fun n => negb (Z.even n)) x). rewrite Rabs_pos_eq by lra. exact H. }
  rewrite (Rabs_pos_eq x) in A by lra. replace (/ 2 * bpow radix2 (- (53) + 1)) with (/ 2 ^ 53) in A.
  - apply Rabs_le_inv in A. lra.
  - change (bpow radix2 (- (53) + 1)) with (/ IZR (Z.pow_pos 2 52)). change (Z.pow_pos 2 52) with 4503599627370496%Z. lra.
Qed.

(** Triples of positive entries: the mean leaves the range of the entries by at most a part in 2^51. *)
Lemma c56_triple_accuracy_partial : forall lm (a b c : pyval spec_float) x y z,
  @num_of spec_float (SF lm) a = Some x -> @num_of spec_float (SF lm) b = Some y -> @num_of spec_float (SF lm) c = Some z ->
  ffinite x -> ffinite y -> ffinite z -> / 2 ^ 1020 <= fval x -> fval x <= fval y -> fval y <= fval z -> fval z < 2 ^ 1021 ->
  exists m, @compute_variate_mean spec_float (SF lm) (PTuple [a; b; c]) = Ok (PFloat m) /\ ffinite m /\
    fval x * (1 - / 2 ^ 51) <= fval m <= fval z * (1 + / 2 ^ 51).
Proof.
  intros lm a b c x y z Ea Eb Ec Hx Hy Hz L H1 H2 U.
  unfold compute_variate_mean, as_num. rewrite Ea, Eb, Ec. cbn [bind]. eexists. split; [reflexivity|]. cbn [nadd ndiv nZ SF].
  rewrite pow_bpow in L, U. rewrite <- bpow_opp in L. change (- Z.of_nat 1020)%Z with (-1020)%Z in L. change (Z.of_nat 1021) with 1021%Z in U.
  assert (E : bpow radix2 1024 = 8 * bpow radix2 1021) by (change 1024%Z with (3 + 1021)%Z; rewrite bpow_plus; reflexivity).
  assert (E' : bpow radix2 (-1020) = 4 * bpow radix2 (-1022)) by (change (-1020)%Z with (2 + -1022)%Z; rewrite bpow_plus; reflexivity).
  pose proof (bpow_gt_0 radix2 (-1022)). set (k := / 2 ^ 53) in *. assert (Ek : / 2 ^ 51 = 4 * k) by (unfold k; lra).
  assert (K : 0 < k <= / 16) by (unfold k; lra).
  set (X := fval x) in *. set (Y := fval y) in *. set (Z_ := fval z) in *.
  assert (B1 : (X + Y) * (1 - k) <= rd (X + Y) <= (X + Y) * (1 + k)) by (apply rd_rel; lra).
  destruct (add_rd x y Hx Hy) as (Q & V); [fold X Y; apply Rabs_def1; nra|]. fold X Y in V. set (S := rd (X + Y)) in *.
  assert (S0 : X <= S) by nra.
  assert (B2 : (S + Z_) * (1 - k) <= rd (S + Z_) <= (S + Z_) * (1 + k)) by (apply rd_rel; lra).
  destruct (add_rd _ z Q Hz) as (Q1 & V1); [rewrite V; fold Z_; apply Rabs_def1; nra|]. rewrite V in V1. fold Z_ in V1. set (S2 := rd (S + Z_)) in *.
  destruct (of_small 3 ltac:(cbn; lia)) as (Q2 & V2).
  assert (S20 : X <= S2) by nra.
  assert (B3 : S2 / 3 * (1 - k) <= rd (S2 / 3) <= S2 / 3 * (1 + k)) by (apply rd_rel; lra).
  destruct (div_rd _ _ Q1 Q2) as (Q3 & V3); [rewrite V2; lra|rewrite V1, V2; apply Rabs_def1; nra|].
  rewrite V1, V2 in V3. split; [exact Q3|]. rewrite V3. rewrite Ek. split.
  - apply Rle_trans with (S2 / 3 * (1 - k)); [|apply B3].
    assert (3 * X * ((1 - k) * (1 - k)) <= S2) by nra.
    apply Rle_trans with (X * ((1 - k) * (1 - k)) * (1 - k)); [|nra].
    assert (1 - 4 * k <= (1 - k) * (1 - k) * (1 - k)) by nra. nra.
  - apply Rle_trans with (S2 / 3 * (1 + k)); [apply B3|].
    assert (S2 <= 3 * Z_ * ((1 + k) * (1 + k))) by nra.
    apply Rle_trans with (Z_ * ((1 + k) * (1 + k)) * (1 + k)); [nra|].
    assert ((1 + k) * (1 + k) * (1 + k) <= 1 + 4 * k) by nra. nra.
Qed.

(** The triple (0.2, 0.2, 0.2), accepted with least and greatest value 0.2, has mean 0.2 + 2^-55. *)
Lemma c56_triple_binary64_refuted : forall lm, exists x m, x = SFdiv fprec femax (f_of_Z 2) (f_of_Z 10) /\ ffinite x /\
  @isdistribution spec_float (SF lm) (PTuple [PFloat x; PFloat x; PFloat x]) x x = Ok true /\
  @compute_variate_mean spec_float (SF lm) (PTuple [PFloat x; PFloat x; PFloat x]) = Ok (PFloat m) /\ SFltb x m = true /\
  fval m = fval x + / 2 ^ 55.
Proof.
  intros lm. eexists _, _. split; [reflexivity|]. split; [split; [vm_compute; reflexivity|vm_compute; exact I]|].
  split; [vm_compute; reflexivity|]. split; [vm_compute; reflexivity|]. split; [vm_compute; reflexivity|].
  change (SFdiv fprec femax (f_of_Z 2) (f_of_Z 10)) with (S754_finite false 7205759403792794 (-55)).
  unfold fval. change (powerRZ 2 (-55)) with (/ 2 ^ 55). lra.
Qed.

(** The pair (1.5 * 2^1023, 1.5 * 2^1023), accepted as a discharge, has an infinite mean. *)
Lemma c56_overflow_refuted : forall lm, exists x, ffinite x /\
  @isdistribution spec_float (SF lm) (PTuple [PFloat x; PFloat x]) (S754_infinity true) (S754_infinity false) = Ok true /\
  @compute_variate_mean spec_float (SF lm) (PTuple [PFloat x; PFloat x]) = Ok (PFloat (S754_infinity false)).
Proof.
  intros lm. exists (S754_finite false 6755399441055744 971). split; [split; [reflexivity|exact I]|]. split; vm_compute; reflexivity.
Qed.

(** The number 0.2, and the pair (0.2, 1), meet the conditions. *)
Lemma c56_binary64_example : forall lm, let x := SFdiv fprec femax (f_of_Z 2) (f_of_Z 10) in
  ffinite x /\ / 2 ^ 1020 <= fval x /\ Rabs (fval x) < 2 ^ 1022 /\ 0 <= fval x <= 1 /\ has_triple (f_of_Z 1) /\ has_triple (f_of_Z 0) /\
  @isdistribution spec_float (SF lm) (PTuple [PFloat x; PInt 1]) (f_of_Z 0) (f_of_Z 1) = Ok true.
Proof.
  intros lm x. assert (E : fval x = 7205759403792794 * / 2 ^ 55).
  { subst x. change (SFdiv fprec femax (f_of_Z 2) (f_of_Z 10)) with (S754_finite false 7205759403792794 (-55)). reflexivity. }
  assert (U : 0 <= fval x <= 1) by (rewrite E; lra).
  split; [split; vm_compute; [reflexivity|exact I]|]. split.
  { apply Rle_trans with (/ 2 ^ 3); [|rewrite E; lra]. apply Rinv_le_contravar; [lra|]. apply Rle_pow; [lra|lia]. }
  split.
  { apply Rle_lt_trans with 1; [apply Rabs_le; lra|]. apply Rlt_pow_R1; [lra|lia]. }
  split; [exact U|].
  destruct (of_small 0 ltac:(cbn; lia)) as (Q0 & V0). destruct (of_small 1 ltac:(cbn; lia)) as (Q1 & V1). destruct (of_small 3 ltac:(cbn; lia)) as (Q3 & V3).
  split; [exists (f_of_Z 3); split; [exact Q3|rewrite V1, V3; lra]|]. split; [exists (f_of_Z 0); split; [exact Q0|rewrite V0; lra]|].
  vm_compute. reflexivity.
Qed.
