(** * The table of summary statistics (C99) *)
From Coq Require Import Reals String Ascii SpecFloat ZArith Lia Lra Bool.
From Flocq Require Import Core BinarySingleNaN.
From Verif Require Import Py Num ModelAquifer ModelDist ModelObs ModelText ModelLog SpecText SpecTable ProofFloat ProofText ProofTextRepr.
Import ListNotations.
Local Open Scope string_scope.
Local Open Scope Z_scope.

(** ** Lengths *)
Lemma natural_length : forall n k, (1 <= k)%nat -> 0 <= n < 10 ^ Z.of_nat k -> (String.length (natural n) <= k)%nat.
Proof.
  intros n k Hk H. unfold natural. rewrite digs_length. destruct (Z.eq_dec n 0) as [->|]; [cbn; lia|].
  destruct (ndigits_spec n ltac:(lia)) as (A & B & C). destruct (Nat.le_gt_cases (ndigits n) k); [lia|]. exfalso.
  assert (10 ^ Z.of_nat k <= 10 ^ (Z.of_nat (ndigits n) - 1)) by (apply Z.pow_le_mono_r; lia). lia.
Qed.
Lemma fixed_length : forall v k, (1 <= k)%nat -> 0 <= v < 10 ^ Z.of_nat (k + 2) -> (String.length (fixed_digits false 2 v) <= k + 3)%nat.
Proof.
  intros v k Hk H. unfold fixed_digits. rewrite !length_app_s, digs_length.
  assert (String.length (natural (v / 10 ^ Z.of_nat 2)) <= k)%nat; [|cbn [String.length]; lia].
  apply natural_length; [assumption|]. rewrite Nat2Z.inj_add, Z.pow_add_r in H by lia. split.
  - apply Z.div_pos; lia.
  - apply Z.div_lt_upper_bound; lia.
Qed.
Lemma fits_length : forall x, fits x -> (String.length (fmt_f false false 2 x) <= 12)%nat.
Proof.
  assert (S : forall s, (String.length (sign_text false s) <= 1)%nat) by (intros []; cbn; lia).
  intros x [F B]. destruct x as [s|s| |s m e]; try easy; cbn [fmt_f].
  - rewrite length_app_s. specialize (S s). pose proof (fixed_length 0 8 ltac:(lia) ltac:(cbn; lia)). lia.
  - rewrite length_app_s. specialize (S s). rewrite value_abs in B.
    pose proof (scaled_spec m e 2) as [Q _]. pose proof (scaled_nonneg m e 2) as P. apply abs_le in Q.
    assert (scaled m e 2 < 10 ^ 10).
    { apply lt_IZR. change (10 ^ 10) with 10000000000. change (powerRZ 10 2) with (10 * (10 * 1))%R in Q. lra. }
    pose proof (fixed_length (scaled m e (Z.of_nat 2)) 8 ltac:(lia) ltac:(cbn [Z.of_nat Pos.of_succ_nat Pos.succ Nat.add] in *; lia)). lia.
Qed.

(** ** Parts of a line *)
Lemma substring_front : forall a b, substring 0 (String.length a) (a ++ b) = a.
Proof. induction a as [|c a IH]; intros b; cbn; [destruct b; reflexivity|]. now rewrite IH. Qed.
Lemma substring_skip : forall a b n m, substring (String.length a + n) m (a ++ b) = substring n m b.
Proof. induction a as [|c a IH]; intros b n m; [reflexivity|]. cbn. apply IH. Qed.
Lemma front : forall a b n, String.length a = n -> substring 0 n (a ++ b) = a.
Proof. intros a b n <-. apply substring_front. Qed.
Lemma skip : forall a b k n m, String.length a = k -> substring (k + n) m (a ++ b) = substring n m b.
Proof. intros a b k n m <-. apply substring_skip. Qed.

Lemma four : forall l a b c d, String.length l = 5%nat -> Forall (fun t => String.length t = 12%nat) [a; b; c; d] ->
  let line := l ++ String.concat "" [a; b; c; d] in
  String.length line = 53%nat /\ label_of line = l /\
  forall j t, nth_error [a; b; c; d] j = Some t -> field j line = t.
Proof.
  intros l a b c d L F line. inversion_clear F as [|? ? A F']. inversion_clear F' as [|? ? B F]. inversion_clear F as [|? ? C F']. inversion_clear F' as [|? ? D F].
  assert (E : line = l ++ a ++ b ++ c ++ d ++ "") by (unfold line; cbn [String.concat]; now rewrite app_nil_s).
  rewrite E. clear E line. split; [rewrite !length_app_s; cbn; lia|]. unfold label_of, field. split; [now apply front|].
  intros j t H. destruct j as [|[|[|[|j]]]]; cbn in H; try (destruct j; discriminate); injection H as <-; cbn [Nat.mul Nat.add].
  - change (5)%nat with (5 + 0)%nat. rewrite (skip l) by assumption. now apply front.
  - change (17)%nat with (5 + (12 + 0))%nat. rewrite (skip l), (skip a) by assumption. now apply front.
  - change (29)%nat with (5 + (12 + (12 + 0)))%nat. rewrite (skip l), (skip a), (skip b) by assumption. now apply front.
  - change (41)%nat with (5 + (12 + (12 + (12 + 0))))%nat. rewrite (skip l), (skip a), (skip b), (skip c) by assumption. now apply front.
Qed.

Lemma pad_then : forall w s, blanks_then s (pad w s).
Proof. intros w s. unfold pad. induction (w - String.length s)%nat; cbn; constructor; assumption. Qed.
Lemma pad_12 : forall s, (String.length s <= 12)%nat -> String.length (pad 12 s) = 12%nat.
Proof. intros s H. destruct (c98_padding 12 s) as (-> & _). lia. Qed.

Definition columns : list string := ["Easting"; "Northing"; "Head"; "Stdev"].

(** The table of the retained observations has eleven lines of 53 characters; below the title, the labels and the names
    of the columns, the field of each statistic and column shows that statistic of that column, rounded to two decimals. *)
Lemma c99_table : forall st, List.length st = 4%nat -> Forall fit st ->
  exists title rule1 head rule2 cnt mn md mx av sd rule3,
  retained_table st = [title; rule1; head; rule2; cnt; mn; md; mx; av; sd; rule3] /\
  Forall (fun line => String.length line = 53%nat) (retained_table st) /\
  map label_of [head; cnt; mn; md; mx; av; sd] = ["     "; "cnt: "; "min: "; "med: "; "max: "; "avg: "; "std: "] /\
  (exists u v, title = u ++ "Retained Observations" ++ v) /\
  forall j s name, nth_error st j = Some s -> nth_error columns j = Some name ->
    blanks_then name (field j head) /\
    (exists a, read (field j cnt) = Some a /\ meaning a = IZR (s_cnt s) /\ n_decimals a = 0%nat) /\
    Forall2 (shows 2) (map (field j) [mn; md; mx; av; sd]) (statistics s).
Proof.
  intros st L F. destruct st as [|s0 [|s1 [|s2 [|s3 [|? ?]]]]]; cbn [List.length] in L; try lia. clear L.
  inversion_clear F as [|? ? [C0 F0] F']. inversion_clear F' as [|? ? [C1 F1] F]. inversion_clear F as [|? ? [C2 F2] F']. inversion_clear F' as [|? ? [C3 F3] F].
  assert (W : width (CodeF 12 2) = 12%nat) by (vm_compute; reflexivity).
  assert (TW : total_width [CodeF 12 2; CodeF 12 2; CodeF 12 2; CodeF 12 2] = 53%nat) by (vm_compute; reflexivity).
  assert (P1 : forall s x, Forall fits (statistics s) -> In x (statistics s) -> String.length (by_code (CodeF 12 2) x) = 12%nat).
  { clear. intros s x Fs Hx. cbn [by_code]. apply pad_12, fits_length. rewrite Forall_forall in Fs. now apply Fs. }
  assert (P2 : forall s x, Forall fits (statistics s) -> In x (statistics s) -> shows 2 (by_code (CodeF 12 2) x) x).
  { clear. intros s x Fs Hx. cbn [by_code]. unfold shows. rewrite Forall_forall in Fs. destruct (Fs x Hx) as [Fx _].
    destruct (c98_padding 12 (fmt_f false false 2 x)) as (_ & -> & _). now apply c98_fixed. }
  assert (P3 : forall s : stats spec_float, 0 <= s_cnt s < 10 ^ 12 -> String.length (pad 12 (fmt_d (s_cnt s))) = 12%nat).
  { intros s Hs. apply pad_12. unfold fmt_d. destruct (Z.ltb_spec (s_cnt s) 0); [lia|]. apply natural_length; [lia|exact Hs]. }
  assert (P4 : forall s : stats spec_float, exists a, read (pad 12 (fmt_d (s_cnt s))) = Some a /\ meaning a = IZR (s_cnt s) /\ n_decimals a = 0%nat).
  { intros s. destruct (c98_padding 12 (fmt_d (s_cnt s))) as (_ & -> & _). destruct (c98_integer (s_cnt s)) as (a & A1 & A2 & A3 & _). exists a. auto. }
  assert (R : forall (name : string) (f : stats spec_float -> spec_float), String.length name = 5%nat -> (forall s, In (f s) (statistics s)) ->
     let line := row [CodeF 12 2; CodeF 12 2; CodeF 12 2; CodeF 12 2] name (map f [s0; s1; s2; s3]) in
     String.length line = 53%nat /\ label_of line = name /\ forall j s, nth_error [s0; s1; s2; s3] j = Some s -> shows 2 (field j line) (f s)).
  { intros name f Ln Hf. cbn zeta. unfold row. cbn [combine map].
    destruct (four name (by_code (CodeF 12 2) (f s0)) (by_code (CodeF 12 2) (f s1)) (by_code (CodeF 12 2) (f s2)) (by_code (CodeF 12 2) (f s3)) Ln) as (E1 & E2 & E3).
    { repeat (constructor; [eapply P1; [|apply Hf]; assumption|]). constructor. }
    split; [exact E1|]. split; [exact E2|]. intros j s Hj.
    destruct j as [|[|[|[|j]]]]; cbn in Hj; try (destruct j; discriminate); injection Hj as <-; erewrite E3 by reflexivity; eapply P2; try apply Hf; assumption. }
  destruct (R "min: " s_min eq_refl ltac:(intros; cbn; tauto)) as (M1 & M2 & M3).
  destruct (R "med: " s_med eq_refl ltac:(intros; cbn; tauto)) as (D1 & D2 & D3).
  destruct (R "max: " s_max eq_refl ltac:(intros; cbn; tauto)) as (X1 & X2 & X3).
  destruct (R "avg: " s_avg eq_refl ltac:(intros; cbn; tauto)) as (A1 & A2 & A3).
  destruct (R "std: " s_std eq_refl ltac:(intros; cbn; tauto)) as (S1 & S2 & S3).
  destruct (four "cnt: " (pad 12 (fmt_d (s_cnt s0))) (pad 12 (fmt_d (s_cnt s1))) (pad 12 (fmt_d (s_cnt s2))) (pad 12 (fmt_d (s_cnt s3))) eq_refl) as (N1 & N2 & N3).
  { repeat (constructor; [apply P3; assumption|]). constructor. }
  destruct (four "     " (pad 12 "Easting") (pad 12 "Northing") (pad 12 "Head") (pad 12 "Stdev") eq_refl) as (H1 & H2 & H3).
  { repeat (constructor; [reflexivity|]). constructor. }
  unfold retained_table, table. rewrite TW. cbn [combine map]. rewrite W.
  do 11 eexists. split; [reflexivity|]. split.
  { repeat (constructor; [try eassumption; reflexivity|]). constructor. }
  split; [cbn [map]; repeat (f_equal; try eassumption)|].
  split; [eexists (spaces 16), (spaces 16); reflexivity|].
  intros j s name Hj Hn. split; [|split].
  - destruct j as [|[|[|[|j]]]]; cbn in Hn; try (destruct j; discriminate); injection Hn as <-; erewrite H3 by reflexivity; apply pad_then.
  - destruct j as [|[|[|[|j]]]]; cbn in Hj; try (destruct j; discriminate); injection Hj as <-; erewrite N3 by reflexivity; apply P4.
  - unfold statistics. cbn [map]. constructor; [now apply M3|]. constructor; [now apply D3|]. constructor; [now apply X3|].
    constructor; [now apply A3|]. constructor; [now apply S3|constructor].
Qed.

(** ** Cases *)
Lemma fits_int : forall n, Z.abs n <= 99999999 -> fits (f_of_Z n).
Proof.
  intros n H. destruct (of_int n ltac:(lia)) as (b & -> & Fb & Rb & _). split.
  - destruct b; try discriminate; exact I.
  - rewrite value_SF2R, SF2R_B2SF, Rb, <- abs_IZR. now apply IZR_le.
Qed.
Definition a_column (a b c d e : Z) : stats spec_float :=
  {| s_cnt := 7; s_min := f_of_Z a; s_med := f_of_Z b; s_max := f_of_Z c; s_avg := f_of_Z d; s_std := f_of_Z e |}.
Definition a_table : list (stats spec_float) :=
  [a_column (-3000) 25 4000 12 1500; a_column 4980000 4981000 4983000 4981200 900; a_column 290 305 333 306 11; a_column 1 2 3 2 1].
(** A table. *)
Lemma c99_table_example : List.length a_table = 4%nat /\ Forall fit a_table /\
  retained_table a_table =
  ["                Retained Observations                ";
   "=====================================================";
   "          Easting    Northing        Head       Stdev";
   "-----------------------------------------------------";
   "cnt:            7           7           7           7";
   "min:     -3000.00  4980000.00      290.00        1.00";
   "med:        25.00  4981000.00      305.00        2.00";
   "max:      4000.00  4983000.00      333.00        3.00";
   "avg:        12.00  4981200.00      306.00        2.00";
   "std:      1500.00      900.00       11.00        1.00";
   "====================================================="].
Proof.
  split; [reflexivity|]. split; [|vm_compute; reflexivity].
  repeat (constructor; [split; [cbn; lia|repeat (constructor; [apply fits_int; cbn; lia|]); constructor]|]). constructor.
Qed.

(** Wider numbers push the following columns to the right. *)
Lemma c99_wide_example :
  map String.length (retained_table [a_column (-123456789) 25 4000 12 1500; a_column 0 0 0 0 0; a_column 290 305 333 306 11; a_column 1 2 3 2 1]) =
  [53; 53; 53; 53; 53; 54; 53; 53; 53; 53; 53]%nat.
Proof. vm_compute. reflexivity. Qed.
