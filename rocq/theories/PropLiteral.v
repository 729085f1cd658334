(** * Quoted and centred text, the announced kind of a run: more of C98 and C100

    Written by tools/genprops.py: statements only, each closed by the lemma of the
    same name in ProofLiteral.v. *)
From Coq Require Import String Ascii SpecFloat ZArith List Reals.
From Verif Require Import Py Num ModelDist ModelMain ModelText ModelLog SpecText SpecLog SpecLiteral ProofLiteral.
Import ListNotations.
Local Open Scope string_scope.

(** ** C98 Printed numbers are the numbers, correctly rounded *)

(** The text of a string reads back as the string; it is in double quotes exactly if the string has a single quote and no
    double quote. *)
Theorem C98_string : forall s : string, read_literal (repr_str s) = Some s /\
  exists q t, repr_str s = String q t /\ (q = ascii_of_nat 34 <-> occurs "'" s /\ ~ occurs (ascii_of_nat 34) s).
Proof. exact c98_string. Qed.
Print Assumptions C98_string.

(** Centred text has blanks on both sides, as many on the left as on the right or one fewer, and is never cut. *)
Theorem C98_centred : forall (w : nat) (s : string), exists u v, center w s = u ++ s ++ v /\ blank u /\ blank v /\
  (String.length u <= String.length v <= S (String.length u))%nat /\
  (String.length u + String.length s + String.length v = Nat.max w (String.length s))%nat.
Proof. exact c98_centred. Qed.
Print Assumptions C98_centred.

Example C98_literal_example : repr_str "it's 5 m" = String (ascii_of_nat 34) ("it's 5 m" ++ String (ascii_of_nat 34) "") /\
  repr_str (String "a" (String (ascii_of_nat 9) "\")) = "'a\t\\'" /\ center 8 "abc" = "  abc   ".
Proof. exact c98_literal_example. Qed.

(** ** C100 The log identifies the run *)

(** The line about the realizations says their number, and STOCHASTIC exactly if there is more than one. *)
Theorem C100_announced : forall lm (a : args spec_float), @validate spec_float (SF lm) a = Ok tt -> snd (log_the_run a) = Ok tt ->
  exists n t x, integer_of (nrealizations a) = Some n /\ read t = Some x /\ meaning x = IZR n /\ n_decimals x = 0%nat /\
    nth_error (fst (log_the_run a)) (List.length banner + 5) =
      Some ("nrealizations = " ++ t ++ if (1 <? n)%Z then " STOCHASTIC" else " DETERMINISTIC").
Proof. exact c100_announced. Qed.
Print Assumptions C100_announced.
