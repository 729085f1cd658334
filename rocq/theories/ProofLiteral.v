(** * Proofs about quoted and centred text and the announced kind of a run: C98, C100 *)
From Coq Require Import Bool String Ascii SpecFloat ZArith Lia List Reals.
From Verif Require Import Py Num ModelDist ModelMain ModelText ModelLog SpecText SpecLog SpecLiteral ProofText ProofLog.
Import ListNotations.
Local Open Scope string_scope.

Definition quote_of (b : bool) : ascii := if b then double else single.

Lemma read_one b c t : read_body (quote_of b) ((if special (quote_of b) c then String "\" (String c "")
       else match nat_of_ascii c with
            | 9%nat => "\t" | 10%nat => "\n" | 13%nat => "\r"
            | n => if ((n <? 32) || (n =? 127))%nat then String "\" (String "x" (String (hex (n / 16)) (String (hex (n mod 16)) "")))
                   else String c ""
            end) ++ t) = option_map (String c) (read_body (quote_of b) t).
Proof. destruct b, c as [[] [] [] [] [] [] [] []]; reflexivity. Qed.

Lemma read_escape b s : read_body (quote_of b) (escape (quote_of b) s ++ String (quote_of b) "") = Some s.
Proof.
  induction s as [|c r IH]; [destruct b; reflexivity|]. cbn [escape].
  rewrite app_assoc_s.
  rewrite (read_one b c), IH. reflexivity.
Qed.

Lemma has_occurs q s : has q s = true <-> occurs q s.
Proof.
  induction s as [|c r IH]; cbn [has].
  - split; [discriminate|]. intros (u & v & E). destruct u; discriminate.
  - rewrite orb_true_iff, IH. split.
    + intros [E|(u & v & ->)]; [apply Ascii.eqb_eq in E; subst; exists "", r; reflexivity|exists (String c u), v; reflexivity].
    + intros (u & v & E). destruct u as [|x u]; cbn in E; injection E as -> ->; [left; apply Ascii.eqb_refl|right; exists u, v; reflexivity].
Qed.

(** The text of a string reads back as the string; it is in double quotes exactly if the string has a single quote and no
    double quote. *)
Lemma c98_string : forall s : string, read_literal (repr_str s) = Some s /\
  exists q t, repr_str s = String q t /\ (q = ascii_of_nat 34 <-> occurs "'" s /\ ~ occurs (ascii_of_nat 34) s).
Proof.
  intros s. unfold repr_str. change single with (quote_of false). change double with (quote_of true).
  destruct (has (quote_of false) s && negb (has (quote_of true) s))%bool eqn:B.
  - split; [unfold read_literal; cbn [quote_of]; exact (read_escape true s)|]. do 2 eexists. split; [reflexivity|]. split; [|reflexivity]. intros _.
    apply andb_prop in B. destruct B as [B1 B2]. split; [apply has_occurs, B1|]. intros O. apply (proj2 (has_occurs (quote_of true) s)) in O. rewrite O in B2. discriminate.
  - split; [exact (read_escape false s)|]. do 2 eexists. split; [reflexivity|]. split; [discriminate|]. intros [O1 O2].
    apply (proj2 (has_occurs (quote_of false) s)) in O1. rewrite O1 in B. cbn [andb] in B. apply negb_false_iff in B. apply has_occurs in B. contradiction.
Qed.

Lemma spaces_blank n : blank (spaces n).
Proof. induction n as [|n IH]; intros c (u & v & E); [destruct u; discriminate|]. destruct u as [|x u]; cbn in E; injection E as E1 E2; [now symmetry|]. apply IH. exists u, v. exact E2. Qed.
Lemma spaces_length n : String.length (spaces n) = n.
Proof. induction n; cbn; congruence. Qed.

(** Centred text has blanks on both sides, as many on the left as on the right or one fewer, and is never cut. *)
Lemma c98_centred : forall (w : nat) (s : string), exists u v, center w s = u ++ s ++ v /\ blank u /\ blank v /\
  (String.length u <= String.length v <= S (String.length u))%nat /\
  (String.length u + String.length s + String.length v = Nat.max w (String.length s))%nat.
Proof.
  intros w s. unfold center. set (n := (w - String.length s)%nat). exists (spaces (n / 2)), (spaces (n - n / 2)). split; [reflexivity|].
  split; [apply spaces_blank|]. split; [apply spaces_blank|]. rewrite !spaces_length.
  pose proof (Nat.div_mod n 2 ltac:(lia)). pose proof (Nat.mod_upper_bound n 2 ltac:(lia)). unfold n in *. lia.
Qed.

Lemma c98_literal_example : repr_str "it's 5 m" = String (ascii_of_nat 34) ("it's 5 m" ++ String (ascii_of_nat 34) "") /\
  repr_str (String "a" (String (ascii_of_nat 9) "\")) = "'a\t\\'" /\ center 8 "abc" = "  abc   ".
Proof. repeat split. Qed.

(** The line about the realizations says their number, and STOCHASTIC exactly if there is more than one. *)
Lemma c100_announced : forall lm (a : args spec_float), @validate spec_float (SF lm) a = Ok tt -> snd (log_the_run a) = Ok tt ->
  exists n t x, integer_of (nrealizations a) = Some n /\ read t = Some x /\ meaning x = IZR n /\ n_decimals x = 0%nat /\
    nth_error (fst (log_the_run a)) (List.length banner + 5) =
      Some ("nrealizations = " ++ t ++ if (1 <? n)%Z then " STOCHASTIC" else " DETERMINISTIC").
Proof.
  intros lm a V H. pose proof (proj1 (c100_returns lm a V) H) as [HI _]. destruct (integer_of (nrealizations a)) as [n|] eqn:EI; [|contradiction].
  destruct (c98_integer n) as (x & R1 & R2 & R3 & _). exists n, (fmt_d n), x. split; [reflexivity|]. split; [exact R1|]. split; [exact R2|]. split; [exact R3|].
  unfold log_the_run in *. unfold say at 1. cbn [fst]. rewrite nth_error_app2 by lia. replace (List.length banner + 5 - List.length banner)%nat with 5%nat by lia.
  cbn [say snd] in H.
  assert (NR : (let! b := more_than_one (nrealizations a) in let! t := val_d (nrealizations a) in
       Ok ("nrealizations = " ++ t ++ (if (b : bool) then " STOCHASTIC" else " DETERMINISTIC"))) = Ok ("nrealizations = " ++ fmt_d n ++ (if (1 <? n)%Z then " STOCHASTIC" else " DETERMINISTIC"))).
  { destruct (nrealizations a) as [z|?|b|?| |?|?]; try discriminate EI; injection EI as <-; [reflexivity|destruct b; reflexivity]. }
  set (nr := (let! b := more_than_one (nrealizations a) in _)) in *. clearbody nr. subst nr.
  destruct (val_d (target a)) as [t1|?|]; cbn [label put say fst snd app] in *; try discriminate.
  destruct (val_d (npaths a)) as [t2|?|]; cbn [label put say fst snd app] in *; try discriminate.
  destruct (val_f 2 (duration a)) as [t3|?|]; cbn [label put say fst snd app] in *; try discriminate.
  reflexivity.
Qed.
