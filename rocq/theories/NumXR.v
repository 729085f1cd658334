(** * Lemmas about the exact-arithmetic instance *)
From Coq Require Import Reals Lra Lia Psatz.
From Verif Require Import Py Num.
Local Open Scope R_scope.

Lemma Rltb_true a b : Rltb a b = true <-> a < b.
Proof. unfold Rltb. destruct (Rlt_dec a b); split; intros; auto; try discriminate; lra. Qed.
Lemma Rltb_false a b : Rltb a b = false <-> b <= a.
Proof. unfold Rltb. destruct (Rlt_dec a b); split; intros; auto; try discriminate; lra. Qed.
Lemma Rleb_true a b : Rleb a b = true <-> a <= b.
Proof. unfold Rleb. destruct (Rle_dec a b); split; intros; auto; try discriminate; lra. Qed.
Lemma Rleb_false a b : Rleb a b = false <-> b < a.
Proof. unfold Rleb. destruct (Rle_dec a b); split; intros; auto; try discriminate; lra. Qed.
Lemma Reqb_true a b : Reqb a b = true <-> a = b.
Proof. unfold Reqb. destruct (Req_EM_T a b); split; intros; auto; try discriminate; lra. Qed.
Lemma Reqb_false a b : Reqb a b = false <-> a <> b.
Proof. unfold Reqb. destruct (Req_EM_T a b); split; intros; auto; try discriminate; contradiction. Qed.

(** Case analysis on the comparison of two reals. *)
Lemma Rltb_spec a b : reflect (a < b) (Rltb a b).
Proof. apply iff_reflect. symmetry. apply Rltb_true. Qed.
Lemma Rleb_spec a b : reflect (a <= b) (Rleb a b).
Proof. apply iff_reflect. symmetry. apply Rleb_true. Qed.
Lemma Reqb_spec a b : reflect (a = b) (Reqb a b).
Proof. apply iff_reflect. symmetry. apply Reqb_true. Qed.

Lemma div_fin a b : b <> 0 -> xdiv (Fin a) (Fin b) = Fin (a / b).
Proof. intros. cbn. destruct (Reqb_spec b 0); [contradiction|reflexivity]. Qed.

(** Floor *)
Lemma Int_part_le r : IZR (Int_part r) <= r.
Proof. pose proof (base_Int_part r). lra. Qed.
Lemma Int_part_lt r : r < IZR (Int_part r) + 1.
Proof. pose proof (base_Int_part r). lra. Qed.
Lemma Int_part_ge k r : IZR k <= r -> (k <= Int_part r)%Z.
Proof.
  intros. pose proof (Int_part_lt r).
  assert (IZR k < IZR (Int_part r + 1)) by (rewrite plus_IZR; lra).
  apply lt_IZR in H1. lia.
Qed.
Lemma Int_part_lt_Z k r : r < IZR k -> (Int_part r < k)%Z.
Proof. intros. pose proof (Int_part_le r). apply lt_IZR. lra. Qed.
Lemma Int_part_unique k r : IZR k <= r < IZR k + 1 -> Int_part r = k.
Proof.
  intros [H1 H2]. apply Int_part_ge in H1.
  rewrite <- plus_IZR in H2. apply Int_part_lt_Z in H2. lia.
Qed.

Lemma Fin_inj a b : Fin a = Fin b -> a = b.
Proof. congruence. Qed.

Ltac rb :=
  repeat match goal with
  | |- context [Rltb ?a ?b] => destruct (Rltb_spec a b)
  | |- context [Rleb ?a ?b] => destruct (Rleb_spec a b)
  | |- context [Reqb ?a ?b] => destruct (Reqb_spec a b)
  end.

Ltac fin := apply f_equal; try (rewrite ?plus_IZR, ?minus_IZR, ?mult_IZR, ?opp_IZR; field; lra);
            try (rewrite ?plus_IZR, ?minus_IZR, ?mult_IZR, ?opp_IZR; ring).
