(** * The two constants of model.py:264,312 against 1/(4 pi) and 1/(2 pi)

    Machin's formula from the standard library, summed in rational arithmetic. *)
From Coq Require Import Reals Machin QArith Qpower Qreals Qreduction Lra Lia.
Local Open Scope R_scope.

Definition qterm (n : nat) : Q :=
  let k := (2 * n + 1)%nat in
  ((if Nat.even n then 1 else -1) *
   (2 * (1 # 3) ^ Z.of_nat k / inject_Z (Z.of_nat k)
    + (1 # 7) ^ Z.of_nat k / inject_Z (Z.of_nat k)))%Q.

Fixpoint qsum (n : nat) : Q :=
  match n with O => Qred (qterm 0) | S m => Qred (qsum m + qterm (S m)) end.

Lemma Q2R_pow q n : Q2R (q ^ Z.of_nat n) = Q2R q ^ n.
Proof.
  induction n as [|n IH]; [cbn; unfold Q2R; cbn; lra|].
  assert (E : (q ^ Z.of_nat (S n) == q ^ Z.of_nat n * q)%Q).
  { destruct n as [|n]; [cbn; ring|]. rewrite (Nat2Z.inj_succ (S n)). unfold Z.succ.
    rewrite Qpower_plus' by (clear; lia). reflexivity. }
  rewrite (Qeq_eqR _ _ E), Q2R_mult, IH. cbn. ring.
Qed.

Lemma Q2R_of_nat k : Q2R (inject_Z (Z.of_nat k)) = INR k.
Proof. unfold Q2R, inject_Z. cbn [Qnum Qden]. rewrite <- INR_IZR_INZ. field. Qed.

Lemma qterm_R n : Q2R (qterm n) = tg_alt PI_2_3_7_tg n.
Proof.
  unfold qterm, tg_alt, PI_2_3_7_tg, Ratan_seq. set (k := (2 * n + 1)%nat).
  assert (Hk : ~ (inject_Z (Z.of_nat k) == 0)%Q).
  { unfold Qeq, inject_Z. cbn [Qnum Qden]. unfold k. clear. lia. }
  rewrite Q2R_mult, Q2R_plus, !Q2R_div, Q2R_mult, !Q2R_pow, Q2R_of_nat by exact Hk.
  replace (Q2R (1 # 3)) with (/ 3) by (unfold Q2R; cbn; lra).
  replace (Q2R (1 # 7)) with (/ 7) by (unfold Q2R; cbn; lra).
  replace (Q2R 2) with 2 by (unfold Q2R; cbn; lra).
  replace (Q2R (if Nat.even n then 1 else -1)%Q) with ((-1) ^ n).
  - unfold Rdiv. ring.
  - destruct (Nat.even n) eqn:E.
    + apply Nat.even_spec in E. destruct E as [m ->]. rewrite pow_1_even. unfold Q2R. cbn. lra.
    + assert (O : Nat.odd n = true) by (unfold Nat.odd; now rewrite E).
      apply Nat.odd_spec in O. destruct O as [m ->]. rewrite Nat.add_1_r, pow_1_odd. unfold Q2R. cbn. lra.
Qed.

Lemma qsum_R n : Q2R (qsum n) = sum_f_R0 (tg_alt PI_2_3_7_tg) n.
Proof.
  induction n as [|n IH]; cbn [qsum sum_f_R0]; rewrite (Qeq_eqR _ _ (Qred_correct _)).
  - apply qterm_R.
  - now rewrite Q2R_plus, IH, qterm_R.
Qed.

(** pi/4 between two consecutive partial sums. *)
Lemma PI_bounds : 314159265358979323846 / 10 ^ 20 <= PI <= 314159265358979323847 / 10 ^ 20.
Proof.
  pose proof (PI_2_3_7_ineq 20) as [H1 H2]. rewrite <- !qsum_R in *.
  assert (B1 : (314159265358979323846 # 10 ^ 20 <= 4 * qsum (S (2 * 20)))%Q) by (vm_compute; discriminate).
  assert (B2 : (4 * qsum (2 * 20) <= 314159265358979323847 # 10 ^ 20)%Q) by (vm_compute; discriminate).
  apply Qle_Rle in B1. apply Qle_Rle in B2. rewrite Q2R_mult in B1, B2.
  assert (E : forall z, Q2R (z # 10 ^ 20) = IZR z / 10 ^ 20).
  { intros z. unfold Q2R. cbn [Qnum Qden]. replace (IZR (Z.pos (10 ^ 20))) with (10 ^ 20); [reflexivity|].
    now rewrite (pow_IZR 10 20). }
  rewrite E in B1, B2. replace (Q2R 4) with 4 in * by (unfold Q2R; cbn; lra).
  lra.
Qed.

Definition kappa : R := 5734161139222659 / 72057594037927936.

Lemma kappa_4pi : Rabs (kappa - / (4 * PI)) <= / 10 ^ 17.
Proof.
  pose proof PI_bounds as [H1 H2]. assert (P : 0 < PI) by lra.
  assert (E : kappa - / (4 * PI) = (4 * kappa * PI - 1) / (4 * PI)) by (field; lra).
  rewrite E. unfold Rdiv. rewrite Rabs_mult. rewrite (Rabs_pos_eq (/ (4 * PI))) by (left; apply Rinv_0_lt_compat; lra).
  apply Rmult_le_reg_r with (4 * PI); [lra|]. rewrite Rmult_assoc, Rinv_l by lra. rewrite Rmult_1_r.
  unfold kappa. apply Rabs_le. split; lra.
Qed.

Lemma kappa_2pi : Rabs (2 * kappa - / (2 * PI)) <= 2 * / 10 ^ 17.
Proof.
  pose proof PI_bounds as [H1 H2].
  replace (2 * kappa - / (2 * PI)) with (2 * (kappa - / (4 * PI))) by (field; lra).
  rewrite Rabs_mult, (Rabs_pos_eq 2) by lra. pose proof kappa_4pi. lra.
Qed.

Lemma kappa_flux : Rabs (2 * PI * (2 * kappa) - 1) <= 13 / 10 ^ 17.
Proof.
  pose proof PI_bounds as [H1 H2]. unfold kappa. apply Rabs_le. split; lra.
Qed.

Lemma kappa_pos : 0 < kappa.
Proof. unfold kappa. lra. Qed.
