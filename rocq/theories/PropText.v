(** * Numbers as text and the summary table: C98, C99

    Written by tools/genprops.py: statements only, each closed by the lemma of the
    same name in ProofText.v, ProofTextRepr.v, ProofTable.v. *)
From Coq Require Import Reals String Ascii SpecFloat ZArith.
From Flocq Require Import Core BinarySingleNaN.
From Verif Require Import Py Num ModelAquifer ModelDist ModelObs ModelText ModelLog SpecText SpecTable ProofFloat ProofText ProofTextRepr ProofTable.
Import ListNotations.
Local Open Scope string_scope.
Local Open Scope Z_scope.

(** ** C98 Printed numbers are the numbers, correctly rounded *)

(** The fixed-point codes: reading the text gives the sign and the value rounded to [n] decimals, ties to even. *)
Theorem C98_fixed : forall plus comma n x, finite x ->
  exists v, read (fmt_f plus comma n x) = Some {| n_neg := negative x; n_int := v; n_decimals := n |} /\
            rounded (Rabs (value x) * 10 ^ n) v.
Proof. exact c98_fixed. Qed.
Print Assumptions C98_fixed.

(** The exponent codes: reading the text gives the sign and the value rounded to [n+1] significant digits. *)
Theorem C98_scientific : forall plus n x, (1 <= n)%nat -> finite x -> value x <> 0%R -> SpecFloat.valid_binary fprec femax x = true ->
  exists v k, read_e (fmt_e plus n x) = Some ({| n_neg := negative x; n_int := v; n_decimals := n |}, k) /\
              10 ^ Z.of_nat n <= v < 10 ^ (Z.of_nat n + 1) /\
              rounded (Rabs (value x) * powerRZ 10 (Z.of_nat n - k)) v.
Proof. exact c98_scientific. Qed.
Print Assumptions C98_scientific.

(** The layout of fixed-point text after the sign: no zeros in front; thousands separated if (and only if) asked. *)
Theorem C98_layout : forall plus comma n x, finite x ->
  exists sign t, fmt_f plus comma n x = sign ++ t /\ no_leading_zero t /\
    (if comma then grouping true 0 t else plain t) /\
    sign = (if negative x then "-" else if plus then "+" else "").
Proof. exact c98_layout. Qed.
Print Assumptions C98_layout.

(** Padding to a width keeps the number; the text is never cut. *)
Theorem C98_padding : forall w s,
  String.length (pad w s) = Nat.max w (String.length s) /\ read (pad w s) = read s /\
  (w <= String.length s -> pad w s = s)%nat.
Proof. exact c98_padding. Qed.
Print Assumptions C98_padding.

(** Integers. *)
Theorem C98_integer : forall z, exists a, read (fmt_d z) = Some a /\ meaning a = IZR z /\ n_decimals a = 0%nat /\
  (n_neg a = true <-> z < 0).
Proof. exact c98_integer. Qed.
Print Assumptions C98_integer.

(** What is not a number is written as such. *)
Theorem C98_special : forall plus comma n x, ~ finite x ->
  read (fmt_f plus comma n x) = None /\ read_e (fmt_e plus n x) = None /\ fmt_f plus comma n x = fmt_e plus n x.
Proof. exact c98_special. Qed.
Print Assumptions C98_special.

(** The text of a float denotes a decimal number that is rounded to that float, and no decimal number with fewer digits is. *)
Theorem C98_repr : forall x, finite x -> SpecFloat.valid_binary fprec femax x = true ->
  exists r, denotes (repr_float x) r /\ round radix2 (FLT_exp (-1074) 53) ZnearestE r = value x /\
    exists v p, Rabs r = (IZR v * powerRZ 10 p)%R /\ 0 <= v /\
      forall w q d, 0 < w < 10 ^ d -> round radix2 (FLT_exp (-1074) 53) ZnearestE (IZR w * powerRZ 10 q) = Rabs (value x) ->
        v < 10 ^ d.
Proof. exact c98_repr. Qed.
Print Assumptions C98_repr.

(** Different floats have different texts. *)
Theorem C98_repr_injective : forall x y, finite x -> finite y ->
  SpecFloat.valid_binary fprec femax x = true -> SpecFloat.valid_binary fprec femax y = true ->
  repr_float x = repr_float y -> value x = value y.
Proof. exact c98_repr_injective. Qed.
Print Assumptions C98_repr_injective.

(** Separated thousands, ties to even, a sign. *)
Example C98_fixed_example : finite (hundredths 123456789) /\
  fmt_f false true 2 (hundredths 123456789) = "1,234,567.89" /\ fmt_f false false 0 (hundredths (-250)) = "-2" /\
  fmt_f true false 3 (hundredths 50) = "+0.500".
Proof. exact c98_fixed_example. Qed.

Example C98_scientific_example : finite (hundredths (-1)) /\ SpecFloat.valid_binary fprec femax (hundredths (-1)) = true /\
  fmt_e true 4 (hundredths (-1)) = "-1.0000e-02" /\ fmt_e true 4 (hundredths 99999999) = "+1.0000e+06".
Proof. exact c98_scientific_example. Qed.

Example C98_repr_example : finite (hundredths 10) /\ SpecFloat.valid_binary fprec femax (hundredths 10) = true /\
  repr_float (hundredths 10) = "0.1" /\ repr_float (SFadd fprec femax (hundredths 10) (hundredths 20)) = "0.30000000000000004" /\
  repr_float (f_of_Z (10 ^ 22)) = "1e+22" /\ repr_float (hundredths (-300)) = "-3.0".
Proof. exact c98_repr_example. Qed.

(** ** C99 The summary table is aligned and says what it labels *)

(** The table of the retained observations has eleven lines of 53 characters; below the title, the labels and the names
    of the columns, the field of each statistic and column shows that statistic of that column, rounded to two decimals. *)
Theorem C99_table : forall st, List.length st = 4%nat -> Forall fit st ->
  exists title rule1 head rule2 cnt mn md mx av sd rule3,
  retained_table st = [title; rule1; head; rule2; cnt; mn; md; mx; av; sd; rule3] /\
  Forall (fun line => String.length line = 53%nat) (retained_table st) /\
  map label_of [head; cnt; mn; md; mx; av; sd] = ["     "; "cnt: "; "min: "; "med: "; "max: "; "avg: "; "std: "] /\
  (exists u v, title = u ++ "Retained Observations" ++ v) /\
  forall j s name, nth_error st j = Some s -> nth_error columns j = Some name ->
    blanks_then name (field j head) /\
    (exists a, read (field j cnt) = Some a /\ meaning a = IZR (s_cnt s) /\ n_decimals a = 0%nat) /\
    Forall2 (shows 2) (map (field j) [mn; md; mx; av; sd]) (statistics s).
Proof. exact c99_table. Qed.
Print Assumptions C99_table.

(** A table. *)
Example C99_table_example : List.length a_table = 4%nat /\ Forall fit a_table /\
  retained_table a_table =
  ["                Retained Observations                ";
   "=====================================================";
   "          Easting    Northing        Head       Stdev";
   "-----------------------------------------------------";
   "cnt:            7           7           7           7";
   "min:     -3000.00  4980000.00      290.00        1.00";
   "med:        25.00  4981000.00      305.00        2.00";
   "max:      4000.00  4983000.00      333.00        3.00";
   "avg:        12.00  4981200.00      306.00        2.00";
   "std:      1500.00      900.00       11.00        1.00";
   "====================================================="].
Proof. exact c99_table_example. Qed.

(** Wider numbers push the following columns to the right. *)
Example C99_wide_example : map String.length (retained_table [a_column (-123456789) 25 4000 12 1500; a_column 0 0 0 0 0; a_column 290 305 333 306 11; a_column 1 2 3 2 1]) =
  [53; 53; 53; 53; 53; 54; 53; 53; 53; 53; 53]%nat.
Proof. exact c99_wide_example. Qed.
