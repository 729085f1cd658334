(** * Text of numbers: what is written can be read back as the correctly rounded number (C98) *)
From Coq Require Import Reals String Ascii SpecFloat ZArith Lia Lra Bool.
From Verif Require Import Py Num ModelDist ModelText SpecText.
Local Open Scope string_scope.
Local Open Scope Z_scope.

(** ** Strings *)
Lemma app_assoc_s : forall a b c : string, (a ++ b) ++ c = a ++ (b ++ c).
Proof. induction a; intros; cbn; [reflexivity|]. now rewrite IHa. Qed.
Lemma app_nil_s : forall a : string, a ++ "" = a.
Proof. induction a; cbn; congruence. Qed.
Lemma length_app_s : forall a b : string, String.length (a ++ b) = (String.length a + String.length b)%nat.
Proof. induction a; intros; cbn; [reflexivity|]. now rewrite IHa. Qed.

Lemma digit_cases : forall (P : Z -> Prop), P 0 -> P 1 -> P 2 -> P 3 -> P 4 -> P 5 -> P 6 -> P 7 -> P 8 -> P 9 ->
  forall d, 0 <= d < 10 -> P d.
Proof.
  intros. assert (d = 0 \/ d = 1 \/ d = 2 \/ d = 3 \/ d = 4 \/ d = 5 \/ d = 6 \/ d = 7 \/ d = 8 \/ d = 9) as K by lia.
  repeat destruct K as [-> | K]; try assumption. now subst.
Qed.
Lemma digit_of_digit : forall d, 0 <= d < 10 -> digit_of (digit d) = Some d.
Proof. apply digit_cases; reflexivity. Qed.

Lemma digs_length : forall k n, String.length (digs k n) = k.
Proof. induction k; intros; cbn; [reflexivity|]. rewrite length_app_s, IHk. cbn. lia. Qed.

Definition more (k : nat) (d : option nat) : option nat := match d with Some n => Some (n + k)%nat | None => None end.
Lemma more_0 : forall d, more 0 d = d.
Proof. intros [n|]; cbn; [f_equal; lia|reflexivity]. Qed.

Lemma pow10_S : forall k, 10 ^ Z.of_nat (S k) = 10 * 10 ^ Z.of_nat k.
Proof. intros. rewrite Nat2Z.inj_succ, Z.pow_succ_r by lia. lia. Qed.
Lemma pow10_pos : forall k, 0 < 10 ^ Z.of_nat k.
Proof. intros. apply Z.pow_pos_nonneg; lia. Qed.

Lemma read_digs : forall k n rest v d, 0 <= n < 10 ^ Z.of_nat k ->
  read_from (digs k n ++ rest) v d = read_from rest (v * 10 ^ Z.of_nat k + n) (more k d).
Proof.
  induction k; intros n rest v d H.
  - cbn [digs]. change (10 ^ Z.of_nat 0) with 1 in *. rewrite more_0. cbn. f_equal; lia.
  - cbn [digs]. rewrite app_assoc_s. rewrite pow10_S in *. rewrite IHk.
    2:{ split; [apply Z.div_pos; lia|]. apply Z.div_lt_upper_bound; lia. }
    cbn [append read_from]. rewrite digit_of_digit by (apply Z.mod_pos_bound; lia).
    pose proof (Z.div_mod n 10). f_equal; [lia|].
    destruct d; cbn; [f_equal; lia|reflexivity].
Qed.

Lemma ndigits_spec_ : forall f n, 0 < n < 10 * 2 ^ Z.of_nat f ->
  (1 <= ndigits_ f n)%nat /\ 10 ^ (Z.of_nat (ndigits_ f n) - 1) <= n < 10 ^ Z.of_nat (ndigits_ f n).
Proof.
  induction f; intros n H.
  - cbn in *. lia.
  - cbn [ndigits_]. destruct (Z.ltb_spec n 10); [cbn; lia|].
    rewrite Nat2Z.inj_succ, Z.pow_succ_r in H by lia.
    destruct (IHf (n / 10)) as (A & B & C).
    { split; [apply Z.div_str_pos; lia|]. apply Z.div_lt_upper_bound; lia. }
    split; [lia|]. rewrite pow10_S, Nat2Z.inj_succ.
    replace (Z.succ (Z.of_nat (ndigits_ f (n / 10))) - 1) with (Z.succ (Z.of_nat (ndigits_ f (n / 10)) - 1)) by lia.
    rewrite Z.pow_succ_r by lia. pose proof (Z.div_mod n 10). pose proof (Z.mod_pos_bound n 10). lia.
Qed.
Lemma log2_fuel : forall n, 0 < n -> n < 2 * 2 ^ Z.of_nat (Z.to_nat (Z.log2 n)).
Proof.
  intros. rewrite Z2Nat.id by apply Z.log2_nonneg. pose proof (Z.log2_spec n H) as [_ K].
  rewrite Z.pow_succ_r in K by apply Z.log2_nonneg. lia.
Qed.
Lemma ndigits_spec : forall n, 0 < n ->
  (1 <= ndigits n)%nat /\ 10 ^ (Z.of_nat (ndigits n) - 1) <= n < 10 ^ Z.of_nat (ndigits n).
Proof.
  intros. apply ndigits_spec_. pose proof (log2_fuel n H). split; [lia|].
  pose proof (Z.pow_pos_nonneg 2 (Z.of_nat (Z.to_nat (Z.log2 n)))). lia.
Qed.
Lemma ndigits_bound : forall n, 0 <= n -> (1 <= ndigits n)%nat /\ n < 10 ^ Z.of_nat (ndigits n).
Proof.
  intros. destruct (Z.eq_dec n 0) as [-> | Hn]; [cbn; lia|].
  destruct (ndigits_spec n); [lia|]. lia.
Qed.
Lemma read_natural : forall n rest v d, 0 <= n ->
  read_from (natural n ++ rest) v d = read_from rest (v * 10 ^ Z.of_nat (ndigits n) + n) (more (ndigits n) d).
Proof. intros. apply read_digs. pose proof (ndigits_bound n H). lia. Qed.

Lemma read_grouped_ : forall f n rest, 0 <= n < 1000 * 2 ^ Z.of_nat f ->
  read_from (grouped_ f n ++ rest) 0 None = read_from rest n None.
Proof.
  induction f; intros n rest H.
  - cbn [grouped_]. now rewrite read_natural by lia.
  - cbn [grouped_]. destruct (Z.ltb_spec n 1000); [now rewrite read_natural by lia|].
    rewrite Nat2Z.inj_succ, Z.pow_succ_r in H by lia.
    rewrite !app_assoc_s. rewrite IHf by (split; [apply Z.div_pos; lia|apply Z.div_lt_upper_bound; lia]).
    change ("," ++ digs 3 (n mod 1000) ++ rest) with (String "," (digs 3 (n mod 1000) ++ rest)).
    cbn [read_from].
    change (digit_of ",") with (@None Z). cbn [Ascii.eqb Bool.eqb].
    rewrite read_digs by (apply Z.mod_pos_bound; lia).
    cbn [more]. f_equal. change (10 ^ Z.of_nat 3) with 1000. pose proof (Z.div_mod n 1000). lia.
Qed.
Lemma read_grouped : forall n rest, 0 <= n -> read_from (grouped n ++ rest) 0 None = read_from rest n None.
Proof.
  intros. apply read_grouped_. destruct (Z.eq_dec n 0) as [->|]; [cbn; lia|].
  pose proof (log2_fuel n). lia.
Qed.

Lemma read_fixed : forall comma n v, 0 <= v ->
  read_from (fixed_digits comma n v) 0 None = Some (v, n).
Proof.
  intros comma n v H. unfold fixed_digits. pose proof (pow10_pos n).
  assert (0 <= v / 10 ^ Z.of_nat n) by (apply Z.div_pos; lia).
  assert (W : forall rest, read_from ((if comma then grouped (v / 10 ^ Z.of_nat n) else natural (v / 10 ^ Z.of_nat n)) ++ rest) 0 None
            = read_from rest (v / 10 ^ Z.of_nat n) None).
  { intros. destruct comma; [apply read_grouped; lia|]. now rewrite read_natural by lia. }
  rewrite W. destruct n.
  - cbn. f_equal. f_equal. now rewrite Z.div_1_r.
  - set (k := S n) in *. change ("." ++ digs k (v mod 10 ^ Z.of_nat k)) with (String "." (digs k (v mod 10 ^ Z.of_nat k))).
    cbn [read_from]. change (digit_of ".") with (@None Z). change (Ascii.eqb "." ".") with true. cbv iota.
    rewrite <- (app_nil_s (digs k _)), read_digs by (apply Z.mod_pos_bound; lia).
    cbn [read_from more]. f_equal. f_equal. pose proof (Z.div_mod v (10 ^ Z.of_nat k)). lia.
Qed.

(** The first character of a written number is a digit. *)
Definition starts (s : string) : Prop := match s with String c _ => exists d, 0 <= d < 10 /\ c = digit d | _ => False end.
Lemma starts_app : forall a b, starts a -> starts (a ++ b).
Proof. intros [|c a] b H; [easy|exact H]. Qed.
Lemma starts_digs : forall k n, (1 <= k)%nat -> starts (digs k n).
Proof.
  induction k; intros; [lia|]. cbn [digs]. destruct k.
  - cbn. exists (n mod 10). split; [apply Z.mod_pos_bound; lia|reflexivity].
  - apply starts_app, IHk. lia.
Qed.
Lemma ndigits_pos : forall n, (1 <= ndigits n)%nat.
Proof.
  intros. unfold ndigits. destruct (Z.to_nat (Z.log2 n)); cbn [ndigits_]; [lia|]. destruct (_ <? _); lia.
Qed.
Lemma starts_natural : forall n, starts (natural n).
Proof. intros. apply starts_digs, ndigits_pos. Qed.
Lemma starts_grouped : forall n, starts (grouped n).
Proof.
  intros. unfold grouped. generalize (Z.to_nat (Z.log2 n)) as f. intros f. revert n.
  induction f; intros; cbn [grouped_]; [apply starts_natural|].
  destruct (n <? 1000); [apply starts_natural|]. apply starts_app, IHf.
Qed.
Lemma starts_fixed : forall comma n v, starts (fixed_digits comma n v).
Proof. intros. unfold fixed_digits. apply starts_app. destruct comma; [apply starts_grouped|apply starts_natural]. Qed.

Lemma read_unsigned_fixed : forall neg comma n v, 0 <= v ->
  read_unsigned neg (fixed_digits comma n v) = Some {| n_neg := neg; n_int := v; n_decimals := n |}.
Proof.
  intros. pose proof (starts_fixed comma n v) as S. pose proof (read_fixed comma n v H) as R.
  unfold read_unsigned. destruct (fixed_digits comma n v) as [|c r]; [easy|].
  destruct S as (d & Hd & ->). rewrite digit_of_digit by assumption. rewrite R. reflexivity.
Qed.
Lemma read_starts : forall s, starts s -> read s = read_unsigned false s.
Proof.
  intros [|c r] S; [easy|]. destruct S as (d & Hd & ->). revert d Hd. apply digit_cases; reflexivity.
Qed.
Lemma read_signed : forall plus s t, starts t -> read (sign_text plus s ++ t) = read_unsigned s t.
Proof.
  intros plus [|] t S; cbn [sign_text]; [reflexivity|]. destruct plus; [reflexivity|]. now apply read_starts.
Qed.
Lemma read_spaces : forall k s, read (spaces k ++ s) = read s.
Proof. induction k; intros; cbn; auto. Qed.

(** ** Rounding *)
Lemma round_even_spec : forall num den, 0 < den -> rounded (IZR num / IZR den) (round_even num den).
Proof.
  intros num den Hd. assert (0 < IZR den)%R as Hd' by (apply IZR_lt; lia).
  pose proof (Z.div_mod num den ltac:(lia)) as E. pose proof (Z.mod_pos_bound num den Hd) as B.
  assert (IZR num = IZR den * IZR (num / den) + IZR (num mod den))%R as E' by (rewrite <- mult_IZR, <- plus_IZR; now f_equal).
  unfold round_even, rounded. set (q := num / den) in *. set (r := num mod den) in *. clearbody q r.
  assert (IZR num / IZR den = IZR q + IZR r / IZR den)%R as F by (rewrite E'; field; lra).
  rewrite F. set (f := (IZR r / IZR den)%R).
  assert (0 <= f < 1)%R as Hf.
  { unfold f. split; [apply Rle_mult_inv_pos; [apply IZR_le; lia|assumption]|].
    apply Rmult_lt_reg_r with (IZR den); [assumption|]. unfold Rdiv. rewrite Rmult_assoc, Rinv_l, Rmult_1_r, Rmult_1_l by lra.
    apply IZR_lt; lia. }
  assert (K : (2 * f * IZR den = 2 * IZR r)%R) by (unfold f; field; lra).
  destruct (Z.compare_spec (2 * r) den) as [C|C|C].
  - assert (f = 1 / 2)%R. { assert (IZR den = 2 * IZR r)%R by (rewrite <- mult_IZR; now f_equal). nra. }
    destruct (Z.even q) eqn:Q.
    + replace (IZR q - (IZR q + f))%R with (- f)%R by lra. rewrite Rabs_Ropp, (Rabs_pos_eq f) by lra. split; [lra|auto].
    + rewrite plus_IZR. replace (IZR q + 1 - (IZR q + f))%R with (1 - f)%R by lra. rewrite (Rabs_pos_eq (1 - f)) by lra.
      split; [lra|]. intros _. rewrite Z.even_add, Q. reflexivity.
  - assert (f < 1 / 2)%R. { assert (2 * IZR r < IZR den)%R by (rewrite <- mult_IZR; now apply IZR_lt). nra. }
    replace (IZR q - (IZR q + f))%R with (- f)%R by lra. rewrite Rabs_Ropp, (Rabs_pos_eq f) by lra. split; lra.
  - assert (1 / 2 < f)%R. { assert (IZR den < 2 * IZR r)%R by (rewrite <- mult_IZR; now apply IZR_lt). nra. }
    rewrite plus_IZR. replace (IZR q + 1 - (IZR q + f))%R with (1 - f)%R by lra. rewrite (Rabs_pos_eq (1 - f)) by lra. split; lra.
Qed.
Lemma round_even_nonneg : forall num den, 0 <= num -> 0 < den -> 0 <= round_even num den.
Proof.
  intros. unfold round_even. assert (0 <= num / den) by (apply Z.div_pos; lia).
  destruct (_ ?= _); [destruct (Z.even _)| |]; lia.
Qed.

Lemma split_pow : forall (b : Z) (p : Z), 1 < b ->
  (powerRZ (IZR b) p = IZR (b ^ Z.max p 0) / IZR (b ^ Z.max (- p) 0))%R.
Proof.
  intros b p Hb. assert (IZR b <> 0)%R by (apply not_0_IZR; lia).
  destruct (Z.le_gt_cases 0 p).
  - rewrite (Z.max_l p 0), (Z.max_r (- p) 0) by lia. rewrite Z.pow_0_r.
    rewrite <- (Z2Nat.id p) at 2 by lia. rewrite <- pow_IZR, pow_powerRZ, Z2Nat.id by lia. field.
  - rewrite (Z.max_r p 0), (Z.max_l (- p) 0) by lia. rewrite Z.pow_0_r.
    rewrite <- (Z2Nat.id (- p)) by lia. rewrite <- pow_IZR, pow_powerRZ, Z2Nat.id by lia.
    rewrite powerRZ_neg'. field. now apply powerRZ_NOR.
Qed.
Lemma pow_max_pos : forall b p, 1 < b -> 0 < b ^ Z.max p 0.
Proof. intros. apply Z.pow_pos_nonneg; lia. Qed.
Lemma scaled_spec : forall m e n, rounded (IZR (Zpos m) * powerRZ 2 e * powerRZ 10 n) (scaled m e n).
Proof.
  intros. unfold scaled. rewrite (split_pow 2 e), (split_pow 10 n) by lia.
  pose proof (pow_max_pos 2 (- e)). pose proof (pow_max_pos 10 (- n)).
  replace (IZR (Z.pos m) * (IZR (2 ^ Z.max e 0) / IZR (2 ^ Z.max (- e) 0)) * (IZR (10 ^ Z.max n 0) / IZR (10 ^ Z.max (- n) 0)))%R
    with (IZR (Z.pos m * 2 ^ Z.max e 0 * 10 ^ Z.max n 0) / IZR (2 ^ Z.max (- e) 0 * 10 ^ Z.max (- n) 0))%R.
  - apply round_even_spec. apply Z.mul_pos_pos; lia.
  - rewrite !mult_IZR. field. split; apply not_0_IZR; lia.
Qed.
Lemma scaled_nonneg : forall m e n, 0 <= scaled m e n.
Proof.
  intros. apply round_even_nonneg.
  - pose proof (pow_max_pos 2 e). pose proof (pow_max_pos 10 n). apply Z.mul_nonneg_nonneg; lia.
  - pose proof (pow_max_pos 2 (- e)). pose proof (pow_max_pos 10 (- n)). apply Z.mul_pos_pos; lia.
Qed.

(** ** Fixed point *)
Lemma value_abs : forall s m e, (Rabs (value (S754_finite s m e)) = IZR (Zpos m) * powerRZ 2 e)%R.
Proof.
  intros. cbn [value]. assert (0 < IZR (Zpos m))%R by (apply IZR_lt; lia). pose proof (powerRZ_lt 2 e ltac:(lra)).
  assert (0 < IZR (Zpos m) * powerRZ 2 e)%R by nra.
  destruct s.
  - rewrite Rabs_left; lra.
  - rewrite Rabs_right; lra.
Qed.
Lemma rounded_0 : rounded 0 0.
Proof. unfold rounded. rewrite Rminus_0_r, Rabs_R0. split; [lra|reflexivity]. Qed.

(** The fixed-point codes: reading the text gives the sign and the value rounded to [n] decimals, ties to even. *)
Lemma c98_fixed : forall plus comma n x, finite x ->
  exists v, read (fmt_f plus comma n x) = Some {| n_neg := negative x; n_int := v; n_decimals := n |} /\
            rounded (Rabs (value x) * 10 ^ n) v.
Proof.
  intros plus comma n x H. destruct x as [s|s| |s m e]; try easy; cbn [fmt_f negative].
  - exists 0. rewrite read_signed by apply starts_fixed. rewrite read_unsigned_fixed by lia. split; [reflexivity|].
    cbn. rewrite Rabs_R0, Rmult_0_l. apply rounded_0.
  - exists (scaled m e (Z.of_nat n)). rewrite read_signed by apply starts_fixed.
    rewrite read_unsigned_fixed by apply scaled_nonneg. split; [reflexivity|].
    rewrite value_abs, pow_powerRZ. apply scaled_spec.
Qed.

(** ** The decimal exponent *)
Lemma at_least_spec : forall m e k,
  at_least m e k = true <-> (powerRZ 10 k <= IZR (Zpos m) * powerRZ 2 e)%R.
Proof.
  intros. unfold at_least. rewrite Z.leb_le, (split_pow 2 e), (split_pow 10 k) by lia.
  pose proof (pow_max_pos 2 (- e)) as A. pose proof (pow_max_pos 10 (- k)) as B.
  set (a := 2 ^ Z.max (- e) 0) in *. set (b := 10 ^ Z.max (- k) 0) in *. set (c := 2 ^ Z.max e 0). set (d := 10 ^ Z.max k 0).
  clearbody a b c d. specialize (A eq_refl). specialize (B eq_refl).
  assert (0 < IZR a)%R by (now apply IZR_lt). assert (0 < IZR b)%R by (now apply IZR_lt).
  assert (E : (IZR (a * d) <= IZR (Z.pos m * c * b) <-> IZR d / IZR b <= IZR (Z.pos m) * (IZR c / IZR a))%R).
  { rewrite !mult_IZR.
    assert (F : (IZR (Z.pos m) * IZR c * IZR b - IZR a * IZR d =
                (IZR (Z.pos m) * (IZR c / IZR a) - IZR d / IZR b) * (IZR a * IZR b))%R) by (field; lra).
    assert (0 < IZR a * IZR b)%R by nra. split; intros; nra. }
  rewrite <- E. split; [apply IZR_le|apply le_IZR].
Qed.
Lemma pow10_succ : forall k, powerRZ 10 (k + 1) = (10 * powerRZ 10 k)%R.
Proof. intros. rewrite powerRZ_add by lra. rewrite powerRZ_1. lra. Qed.
Lemma find_exp_spec : forall f m e k,
  (powerRZ 10 (k + 1 - Z.of_nat f) <= IZR (Zpos m) * powerRZ 2 e < powerRZ 10 (k + 1))%R ->
  (powerRZ 10 (find_exp f m e k) <= IZR (Zpos m) * powerRZ 2 e < powerRZ 10 (find_exp f m e k + 1))%R.
Proof.
  induction f; intros m e k H.
  - replace (k + 1 - Z.of_nat 0) with (k + 1) in H by lia. lra.
  - cbn [find_exp]. destruct (at_least m e k) eqn:A.
    + apply at_least_spec in A. lra.
    + apply IHf. replace (k - 1 + 1) with k by lia.
      assert (~ (powerRZ 10 k <= IZR (Z.pos m) * powerRZ 2 e)%R) by (rewrite <- at_least_spec; congruence).
      replace (k + 1 - Z.of_nat (S f)) with (k - Z.of_nat f) in H by lia. lra.
Qed.

(** The estimate is good for all binary exponents of binary64. *)
Definition estimate (l : Z) : Z := l * 30103 / 100000 + 1.
Definition good_estimate (l : Z) : bool := at_least 1 l (estimate l - 3) && negb (at_least 1 (l + 1) (estimate l + 1)).
Lemma good_estimates : forallb (fun i => good_estimate (Z.of_nat i - 1074)) (seq 0 2100) = true.
Proof. vm_compute. reflexivity. Qed.
Lemma good_estimate_all : forall l, -1074 <= l <= 1024 -> good_estimate l = true.
Proof.
  intros. pose proof good_estimates as G. rewrite forallb_forall in G.
  specialize (G (Z.to_nat (l + 1074))). rewrite Z2Nat.id in G by lia.
  replace (l + 1074 - 1074) with l in G by lia. apply G. apply in_seq. lia.
Qed.

(** Numbers of binary64. *)
Lemma bounded_range : forall m e, bounded fprec femax m e = true -> -1074 <= Z.log2 (Zpos m) + e <= 1023.
Proof.
  intros m e H. unfold bounded in H. apply andb_prop in H. destruct H as [A B].
  apply Z.leb_le in B. unfold canonical_mantissa in A. apply Zeq_bool_eq in A.
  unfold SpecFloat.fexp, SpecFloat.emin in A. change fprec with 53 in *. change femax with 1024 in *.
  pose proof (Z.log2_nonneg (Zpos m)).
  assert (Zpos (digits2_pos m) = Z.log2 (Zpos m) + 1) as D.
  { clear. induction m; [..|reflexivity]; cbn [digits2_pos]; rewrite Pos2Z.inj_succ, IHm; cbn [Z.log2].
    - destruct m; cbn [Z.log2 Pos.size]; lia.
    - destruct m; cbn [Z.log2 Pos.size]; lia. }
  rewrite D in A. lia.
Qed.
Lemma decimal_exp_spec : forall m e, bounded fprec femax m e = true ->
  (powerRZ 10 (decimal_exp m e) <= IZR (Zpos m) * powerRZ 2 e < powerRZ 10 (decimal_exp m e + 1))%R.
Proof.
  intros m e H. apply bounded_range in H. unfold decimal_exp. apply find_exp_spec.
  set (l := Z.log2 (Z.pos m) + e) in *.
  pose proof (good_estimate_all l ltac:(lia)) as G. unfold good_estimate in G. apply andb_prop in G. destruct G as [A B].
  apply at_least_spec in A. apply negb_true_iff in B.
  assert (~ (powerRZ 10 (estimate l + 1) <= IZR 1 * powerRZ 2 (l + 1)))%R as B' by (rewrite <- at_least_spec; congruence).
  clear B. change (l * 30103 / 100000 + 1) with (estimate l).
  pose proof (Z.log2_spec (Zpos m) eq_refl) as [C D].
  assert (powerRZ 2 l = IZR (2 ^ Z.log2 (Zpos m)) * powerRZ 2 e)%R as E.
  { unfold l. rewrite powerRZ_add by lra. f_equal. rewrite (split_pow 2) by lia.
    pose proof (Z.log2_nonneg (Zpos m)). rewrite Z.max_l, Z.max_r, Z.pow_0_r by lia. field. }
  assert (powerRZ 2 (l + 1) = IZR (2 ^ (Z.succ (Z.log2 (Zpos m)))) * powerRZ 2 e)%R as F.
  { rewrite powerRZ_add by lra. rewrite E, powerRZ_1, Z.pow_succ_r, mult_IZR by apply Z.log2_nonneg. lra. }
  pose proof (powerRZ_lt 2 e ltac:(lra)). apply IZR_le in C. apply IZR_lt in D.
  split.
  - apply Rle_trans with (1 * powerRZ 2 l)%R.
    + replace (estimate l + 1 - Z.of_nat 4) with (estimate l - 3) by lia. exact A.
    + rewrite E. nra.
  - apply Rlt_trans with (1 * powerRZ 2 (l + 1))%R; [rewrite F; nra|lra].
Qed.

Lemma abs_le : forall a b, (Rabs a <= b -> - b <= a <= b)%R.
Proof. intros a b H. unfold Rabs in H. destruct (Rcase_abs a); lra. Qed.
Lemma IZR_pow10 : forall n, (IZR (10 ^ Z.of_nat n) = powerRZ 10 (Z.of_nat n))%R.
Proof. intros. rewrite <- pow_IZR, pow_powerRZ. reflexivity. Qed.

Lemma significant_spec : forall n m e v k, (1 <= n)%nat -> bounded fprec femax m e = true -> significant n m e = (v, k) ->
  10 ^ Z.of_nat n <= v < 10 ^ (Z.of_nat n + 1) /\
  rounded (IZR (Zpos m) * powerRZ 2 e * powerRZ 10 (Z.of_nat n - k)) v.
Proof.
  intros n m e v k Hn H. unfold significant, carry. pose proof (decimal_exp_spec m e H) as D.
  set (q := decimal_exp m e) in *. pose proof (scaled_spec m e (Z.of_nat n - q)) as S.
  set (w := scaled m e (Z.of_nat n - q)) in *. clearbody q w.
  set (r := (IZR (Z.pos m) * powerRZ 2 e)%R) in *. clearbody r.
  assert (P : (0 < powerRZ 10 (Z.of_nat n - q))%R) by (apply powerRZ_lt; lra).
  assert (A : (powerRZ 10 q * powerRZ 10 (Z.of_nat n - q) = IZR (10 ^ Z.of_nat n))%R).
  { rewrite <- powerRZ_add by lra. rewrite IZR_pow10. f_equal. lia. }
  assert (B : (powerRZ 10 (q + 1) * powerRZ 10 (Z.of_nat n - q) = IZR (10 ^ (Z.of_nat n + 1)))%R).
  { rewrite pow10_succ, Rmult_assoc, A, Z.pow_add_r, mult_IZR by lia. change (10 ^ 1) with 10. lra. }
  set (x := (r * powerRZ 10 (Z.of_nat n - q))%R) in *.
  assert (X : (IZR (10 ^ Z.of_nat n) <= x < IZR (10 ^ (Z.of_nat n + 1)))%R).
  { rewrite <- A, <- B. unfold x. split; [apply Rmult_le_compat_r|apply Rmult_lt_compat_r]; lra. }
  destruct S as [S1 S2]. pose proof (abs_le _ _ S1) as S1'.
  assert (W : 10 ^ Z.of_nat n <= w <= 10 ^ (Z.of_nat n + 1)).
  { split; apply Z.lt_succ_r; apply lt_IZR; rewrite succ_IZR; lra. }
  destruct (Z.eqb_spec w (10 ^ (Z.of_nat n + 1))) as [E|E]; intros V; injection V as <- <-.
  - assert (T : 10 ^ (Z.of_nat n + 1) = 10 * 10 ^ Z.of_nat n) by (rewrite Z.pow_add_r by lia; change (10 ^ 1) with 10; lia).
    pose proof (pow10_pos n). split; [lia|].
    replace (Z.of_nat n - (q + 1)) with (Z.of_nat n - q + -1) by lia. rewrite powerRZ_add by lra.
    replace (powerRZ 10 (-1)) with (/ 10)%R by (unfold powerRZ; change (Pos.to_nat 1) with 1%nat; rewrite pow_1; reflexivity).
    rewrite <- Rmult_assoc. fold x. rewrite E, T, mult_IZR in S1.
    unfold rounded. replace (IZR (10 ^ Z.of_nat n) - x * / 10)%R with ((10 * IZR (10 ^ Z.of_nat n) - x) * / 10)%R by field.
    rewrite Rabs_mult, (Rabs_pos_eq (/ 10)) by lra. split; [lra|]. intros. lra.
  - split; [lia|]. split; assumption.
Qed.

(** ** Scientific notation *)
Lemma split_app : forall c a b, (forall u v, a <> u ++ String c v) -> split_at c (a ++ String c b) = Some (a, b).
Proof.
  induction a; intros b H; cbn [append split_at].
  - now rewrite Ascii.eqb_refl.
  - destruct (Ascii.eqb_spec a c) as [->|N].
    + exfalso. apply (H "" a0). reflexivity.
    + rewrite IHa; [reflexivity|]. intros u v ->. apply (H (String a u) v). reflexivity.
Qed.
Fixpoint over (f : ascii -> bool) (s : string) : bool := match s with EmptyString => true | String c r => f c && over f r end.
Lemma over_app : forall f a b, over f (a ++ b) = over f a && over f b.
Proof. induction a; intros; cbn; [reflexivity|]. now rewrite IHa, andb_assoc. Qed.
Lemma over_mid : forall f c u v, f c = false -> over f (u ++ String c v) = false.
Proof. intros. rewrite over_app. cbn. rewrite H. apply andb_false_r. Qed.
Definition digitb (c : ascii) : bool := match digit_of c with Some _ => true | None => false end.
Definition plainb (c : ascii) : bool := digitb c || Ascii.eqb c "." .
Definition numberb (c : ascii) : bool := plainb c || Ascii.eqb c "," || Ascii.eqb c "-" || Ascii.eqb c "+".
Lemma over_weaken : forall (f g : ascii -> bool) s, (forall c, f c = true -> g c = true) -> over f s = true -> over g s = true.
Proof.
  induction s; intros I H; [reflexivity|]. cbn in *. apply andb_prop in H. destruct H. rewrite I, IHs; auto.
Qed.
Lemma over_digs : forall k n, over digitb (digs k n) = true.
Proof.
  induction k; intros; cbn [digs]; [reflexivity|]. rewrite over_app, IHk. cbn [over]. unfold digitb.
  rewrite digit_of_digit by (apply Z.mod_pos_bound; lia). reflexivity.
Qed.
Lemma over_fixed : forall comma n v, over numberb (fixed_digits comma n v) = true.
Proof.
  intros. assert (W : forall k q, over numberb (digs k q) = true).
  { intros. eapply over_weaken; [|apply over_digs]. intros c Hc. unfold numberb, plainb. now rewrite Hc. }
  unfold fixed_digits. rewrite over_app. apply andb_true_intro. split.
  - destruct comma; [|apply W]. unfold grouped. generalize (Z.to_nat (Z.log2 (v / 10 ^ Z.of_nat n))). intros f.
    generalize (v / 10 ^ Z.of_nat n). induction f; intros; cbn [grouped_]; [apply W|]. destruct (_ <? _); [apply W|].
    rewrite !over_app, IHf, W. reflexivity.
  - destruct n; [reflexivity|]. rewrite over_app, W. reflexivity.
Qed.
Lemma over_sign : forall plus s, over numberb (sign_text plus s) = true.
Proof. intros [|] [|]; reflexivity. Qed.

Lemma natural_fixed : forall n, natural n = fixed_digits false 0 n.
Proof. intros. unfold fixed_digits. rewrite Z.div_1_r. cbn. now rewrite app_nil_s. Qed.
Lemma read_exponent : forall k, Z.abs k < 1000 -> 
  read (exponent_text k) = Some {| n_neg := k <? 0; n_int := Z.abs k; n_decimals := 0 |}.
Proof.
  intros k Hk. unfold exponent_text. set (t := if Z.abs k <? 10 then _ else _).
  assert (read_unsigned (k <? 0) t = Some {| n_neg := k <? 0; n_int := Z.abs k; n_decimals := 0 |}) as R.
  { unfold t. destruct (Z.ltb_spec (Z.abs k) 10).
    - unfold read_unsigned. pose proof (starts_digs 2 (Z.abs k) ltac:(lia)) as S.
      pose proof (read_digs 2 (Z.abs k) "" 0 None ltac:(lia)) as D. rewrite app_nil_s in D.
      destruct (digs 2 (Z.abs k)); [easy|]. destruct S as (d & Hd & ->). rewrite digit_of_digit by assumption.
      rewrite D. reflexivity.
    - rewrite natural_fixed. apply read_unsigned_fixed. lia. }
  destruct (k <? 0); exact R.
Qed.

Lemma read_e_text : forall plus s n v k, 0 <= v -> Z.abs k < 1000 ->
  read_e (sign_text plus s ++ fixed_digits false n v ++ "e" ++ exponent_text k) =
  Some ({| n_neg := s; n_int := v; n_decimals := n |}, k).
Proof.
  intros. rewrite <- app_assoc_s. unfold read_e.
  change ("e" ++ exponent_text k) with (String "e" (exponent_text k)). rewrite split_app.
  - rewrite read_signed by apply starts_fixed. rewrite read_unsigned_fixed by assumption.
    rewrite read_exponent by assumption. cbn. f_equal. f_equal. destruct (Z.ltb_spec k 0); lia.
  - intros u w E. assert (over numberb (sign_text plus s ++ fixed_digits false n v) = true) as O.
    { rewrite over_app, over_sign, over_fixed. reflexivity. }
    rewrite E, over_mid in O by reflexivity. discriminate.
Qed.

Lemma decimal_exp_range : forall m e, bounded fprec femax m e = true -> -400 <= decimal_exp m e <= 400.
Proof.
  intros m e H. apply bounded_range in H. unfold decimal_exp.
  assert (K : forall f k, k - Z.of_nat f <= find_exp f m e k <= k).
  { induction f; intros; cbn [find_exp]; [lia|]. destruct (at_least m e k); [lia|]. specialize (IHf (k - 1)). lia. }
  specialize (K 4%nat ((Z.log2 (Z.pos m) + e) * 30103 / 100000 + 1)).
  assert (-324 <= (Z.log2 (Z.pos m) + e) * 30103 / 100000 <= 308).
  { split; [apply Z.div_le_lower_bound|apply Z.lt_succ_r, Z.div_lt_upper_bound]; lia. }
  lia.
Qed.
Lemma significant_range : forall n m e, bounded fprec femax m e = true -> Z.abs (snd (significant n m e)) < 1000.
Proof.
  intros. pose proof (decimal_exp_range m e H). unfold significant, carry. destruct (_ =? _); cbn [snd]; lia.
Qed.

(** The exponent codes: reading the text gives the sign and the value rounded to [n+1] significant digits. *)
Lemma c98_scientific : forall plus n x, (1 <= n)%nat -> finite x -> value x <> 0%R -> SpecFloat.valid_binary fprec femax x = true ->
  exists v k, read_e (fmt_e plus n x) = Some ({| n_neg := negative x; n_int := v; n_decimals := n |}, k) /\
              10 ^ Z.of_nat n <= v < 10 ^ (Z.of_nat n + 1) /\
              rounded (Rabs (value x) * powerRZ 10 (Z.of_nat n - k)) v.
Proof.
  intros plus n x Hn Hf H0 V. destruct x as [s|s| |s m e]; try easy; cbn [value] in H0; try lra.
  cbn [SpecFloat.valid_binary] in V. pose proof (significant_range n m e V) as R.
  destruct (significant n m e) as [v k] eqn:E. exists v, k.
  destruct (significant_spec n m e v k Hn V E) as [A B]. pose proof (pow10_pos n).
  cbn [fmt_e negative]. rewrite E. rewrite read_e_text by (cbn in R; lia).
  rewrite value_abs. auto.
Qed.

(** ** Layout *)
Lemma grouping_digs : forall j first k n r, grouping first k (digs j n ++ r) <-> grouping first (k + j) r.
Proof.
  induction j; intros; cbn [digs append].
  - now replace (k + 0)%nat with k by lia.
  - rewrite app_assoc_s, IHj. cbn [append grouping]. rewrite digit_of_digit by (apply Z.mod_pos_bound; lia).
    now replace (S (k + j)) with (k + S j)%nat by lia.
Qed.
Lemma ndigits_3 : forall n, 0 <= n < 1000 -> (1 <= ndigits n <= 3)%nat.
Proof.
  intros n H. destruct (Z.eq_dec n 0) as [->|]; [cbn; lia|]. destruct (ndigits_spec n ltac:(lia)) as (A & B & C).
  split; [lia|]. destruct (Nat.le_gt_cases (ndigits n) 3); [lia|]. exfalso.
  assert (10 ^ 3 <= 10 ^ (Z.of_nat (ndigits n) - 1)) by (apply Z.pow_le_mono_r; lia). lia.
Qed.
Lemma grouping_grouped : forall f n rest, 0 <= n < 1000 * 2 ^ Z.of_nat f ->
  (forall (first : bool) k, (if first then (1 <= k <= 3)%nat else k = 3%nat) -> grouping first k rest) ->
  grouping true 0 (grouped_ f n ++ rest).
Proof.
  assert (small : forall n rest, 0 <= n < 1000 ->
    (forall (first : bool) k, (if first then (1 <= k <= 3)%nat else k = 3%nat) -> grouping first k rest) ->
    grouping true 0 (natural n ++ rest)).
  { intros n rest H R. unfold natural. rewrite grouping_digs. apply R. pose proof (ndigits_3 n H). lia. }
  induction f; intros n rest H R.
  - cbn [grouped_]. apply small; [cbn in H; lia|assumption].
  - cbn [grouped_]. destruct (Z.ltb_spec n 1000); [apply small; [lia|assumption]|].
    rewrite Nat2Z.inj_succ, Z.pow_succ_r in H by lia.
    rewrite !app_assoc_s. apply IHf; [split; [apply Z.div_pos; lia|apply Z.div_lt_upper_bound; lia]|].
    intros first k Hk. change ("," ++ digs 3 (n mod 1000) ++ rest) with (String "," (digs 3 (n mod 1000) ++ rest)).
    cbn [grouping]. change (digit_of ",") with (@None Z). change (Ascii.eqb "," ",") with true. cbv iota.
    split; [assumption|]. rewrite grouping_digs. apply R. reflexivity.
Qed.

Lemma first_digit : forall k n, 10 ^ Z.of_nat k <= n < 10 ^ Z.of_nat (S k) ->
  exists d r, 1 <= d < 10 /\ digs (S k) n = String (digit d) r.
Proof.
  induction k; intros n H.
  - change (10 ^ Z.of_nat 0) with 1 in H. change (10 ^ Z.of_nat 1) with 10 in H.
    exists n, "". split; [lia|]. cbn [digs append]. now rewrite Z.mod_small by lia.
  - rewrite (pow10_S (S k)), (pow10_S k) in H.
    destruct (IHk (n / 10)) as (d & r & A & B).
    { rewrite (pow10_S k). split; [apply Z.div_le_lower_bound; lia|apply Z.div_lt_upper_bound; lia]. }
    exists d, (r ++ String (digit (n mod 10)) ""). split; [assumption|].
    change (digs (S (S k)) n) with (digs (S k) (n / 10) ++ String (digit (n mod 10)) ""). rewrite B. reflexivity.
Qed.
Lemma natural_first : forall n, 0 < n -> exists d r, 1 <= d < 10 /\ natural n = String (digit d) r.
Proof.
  intros n H. unfold natural. destruct (ndigits_spec n H) as (A & B). destruct (ndigits n) as [|k]; [lia|].
  apply first_digit. replace (Z.of_nat (S k) - 1) with (Z.of_nat k) in B by lia. assumption.
Qed.
Lemma grouped_first : forall f n, 0 < n -> exists d r, 1 <= d < 10 /\ grouped_ f n = String (digit d) r.
Proof.
  induction f; intros n H; cbn [grouped_]; [now apply natural_first|].
  destruct (Z.ltb_spec n 1000); [now apply natural_first|].
  destruct (IHf (n / 1000)) as (d & r & A & B); [apply Z.div_str_pos; lia|]. rewrite B.
  exists d, (r ++ "," ++ digs 3 (n mod 1000)). split; [assumption|reflexivity].
Qed.
Lemma nonzero_first : forall d r, 1 <= d < 10 -> no_leading_zero (String (digit d) r).
Proof.
  intros d r H. assert (K : 0 <= d < 10) by lia. revert d K H.
  apply (digit_cases (fun d => 1 <= d < 10 -> no_leading_zero (String (digit d) r))); intros; try exact I; lia.
Qed.
Lemma no_leading_zero_fixed : forall comma n v, 0 <= v -> no_leading_zero (fixed_digits comma n v).
Proof.
  intros comma n v H. unfold fixed_digits. set (i := v / 10 ^ Z.of_nat n).
  assert (0 <= i) by (apply Z.div_pos; [lia|apply pow10_pos]).
  destruct (Z.eq_dec i 0) as [->|].
  - assert (E : (if comma then grouped 0 else natural 0) = "0") by (destruct comma; reflexivity). rewrite E.
    destruct n; [exact I|reflexivity].
  - assert (exists d r, 1 <= d < 10 /\ (if comma then grouped i else natural i) = String (digit d) r) as (d & r & A & ->).
    { destruct comma; [apply grouped_first|apply natural_first]; lia. }
    apply nonzero_first. assumption.
Qed.
Lemma plain_over : forall s, over plainb s = true -> plain s.
Proof.
  induction s; intros H; [exact I|]. cbn in *. apply andb_prop in H. destruct H as [A B]. split; [|auto].
  unfold plainb, digitb in A. destruct (digit_of a); [left; discriminate|right]. now apply Ascii.eqb_eq.
Qed.

(** The layout of fixed-point text after the sign: no zeros in front; thousands separated if (and only if) asked. *)
Lemma c98_layout : forall plus comma n x, finite x ->
  exists sign t, fmt_f plus comma n x = sign ++ t /\ no_leading_zero t /\
    (if comma then grouping true 0 t else plain t) /\
    sign = (if negative x then "-" else if plus then "+" else "").
Proof.
  intros plus comma n x H.
  assert (K : forall v, 0 <= v -> no_leading_zero (fixed_digits comma n v) /\
              (if comma then grouping true 0 (fixed_digits comma n v) else plain (fixed_digits comma n v))).
  { intros v Hv. split; [now apply no_leading_zero_fixed|]. unfold fixed_digits. destruct comma.
    - apply grouping_grouped.
      + pose proof (Z.div_pos v (10 ^ Z.of_nat n) Hv (pow10_pos n)). set (i := v / 10 ^ Z.of_nat n) in *.
        destruct (Z.eq_dec i 0) as [->|]; [cbn; lia|]. pose proof (log2_fuel i). lia.
      + intros first k Hk. destruct n; [cbn; assumption|].
        change ("." ++ ?a) with (String "." a). cbn [grouping]. exact Hk.
    - apply plain_over. rewrite over_app. apply andb_true_intro. split.
      + eapply over_weaken; [|apply over_digs]. intros c Hc. unfold plainb. now rewrite Hc.
      + destruct n; [reflexivity|]. rewrite over_app. apply andb_true_intro. split; [reflexivity|].
        eapply over_weaken; [|apply over_digs]. intros c Hc. unfold plainb. now rewrite Hc. }
  destruct x as [s|s| |s m e]; try easy; cbn [fmt_f negative].
  - exists (sign_text plus s), (fixed_digits comma n 0). destruct (K 0 ltac:(lia)). auto.
  - exists (sign_text plus s), (fixed_digits comma n (scaled m e (Z.of_nat n))).
    destruct (K (scaled m e (Z.of_nat n)) (scaled_nonneg m e _)). auto.
Qed.

Lemma spaces_length : forall k, String.length (spaces k) = k.
Proof. induction k; cbn; congruence. Qed.
(** Padding to a width keeps the number; the text is never cut. *)
Lemma c98_padding : forall w s,
  String.length (pad w s) = Nat.max w (String.length s) /\ read (pad w s) = read s /\
  (w <= String.length s -> pad w s = s)%nat.
Proof.
  intros. unfold pad. rewrite length_app_s, spaces_length. split; [lia|]. split; [apply read_spaces|].
  intros. replace (w - String.length s)%nat with 0%nat by lia. reflexivity.
Qed.

(** Integers. *)
Lemma c98_integer : forall z, exists a, read (fmt_d z) = Some a /\ meaning a = IZR z /\ n_decimals a = 0%nat /\
  (n_neg a = true <-> z < 0).
Proof.
  intros z. unfold fmt_d. destruct (Z.ltb_spec z 0).
  - exists {| n_neg := true; n_int := - z; n_decimals := 0 |}. rewrite natural_fixed. split.
    + change ("-" ++ ?t) with (sign_text false true ++ t). rewrite read_signed by apply starts_fixed.
      apply read_unsigned_fixed. lia.
    + unfold meaning, magnitude. cbn. rewrite opp_IZR. split; [lra|]. split; [reflexivity|]. split; auto.
  - exists {| n_neg := false; n_int := z; n_decimals := 0 |}. rewrite natural_fixed. split.
    + rewrite read_starts by apply starts_fixed. apply read_unsigned_fixed. lia.
    + unfold meaning, magnitude. cbn. split; [lra|]. split; [reflexivity|]. split; [discriminate|lia].
Qed.

(** What is not a number is written as such. *)
Lemma c98_special : forall plus comma n x, ~ finite x ->
  read (fmt_f plus comma n x) = None /\ read_e (fmt_e plus n x) = None /\ fmt_f plus comma n x = fmt_e plus n x.
Proof.
  intros plus comma n x H. destruct x as [s|s| |s m e]; try (exfalso; apply H; exact I); cbn [fmt_f fmt_e].
  - destruct s, plus; repeat split.
  - destruct plus; repeat split.
Qed.
