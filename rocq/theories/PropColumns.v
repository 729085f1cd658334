(** * Tables with any columns: C129

    Written by tools/genprops.py: statements only, each closed by the lemma of the
    same name in ProofColumns.v. *)
From Coq Require Import Reals String Ascii SpecFloat ZArith List.
From Verif Require Import Py Num ModelObs ModelText ModelLog SpecText SpecTable SpecLines ProofTable ProofLines SpecColumns ProofColumns.
Import ListNotations.
Local Open Scope string_scope.

(** ** C129 summary_statistics lays out a table with any columns *)

(** C129.  The table of [summary_statistics], for any columns with format codes like 12.2f and 9.4e.  If no entry is wider than the text of 1 in its column then
    all lines have the same length, and each cell shows the statistic of its row and column. *)
Theorem C129_table : forall (cs : list code) (names : list string) (title : string) (st : list (stats spec_float)),
  List.length names = List.length cs -> List.length st = List.length cs ->
  (forall j c name s, nth_error cs j = Some c -> nth_error names j = Some name -> nth_error st j = Some s -> roomy c name s) ->
  let ws := map (fun c => String.length (by_code c (f_of_Z 1))) cs in (String.length title <= 5 + list_sum ws)%nat ->
  exists top rule1 head rule2 cnt mn md mx av sd rule3,
  table cs names title st = [top; rule1; head; rule2; cnt; mn; md; mx; av; sd; rule3] /\
  (forall line, In line (table cs names title st) -> String.length line = (5 + list_sum ws)%nat) /\
  (exists u v, top = u ++ title ++ v) /\
  map label_of [head; cnt; mn; md; mx; av; sd] = ["     "; "cnt: "; "min: "; "med: "; "max: "; "avg: "; "std: "] /\
  forall j c name s, nth_error cs j = Some c -> nth_error names j = Some name -> nth_error st j = Some s ->
    blanks_then name (cell ws j head) /\
    (exists a, read (cell ws j cnt) = Some a /\ meaning a = IZR (s_cnt s) /\ n_decimals a = 0%nat) /\
    Forall2 (shows_as c) (map (cell ws j) [mn; md; mx; av; sd]) (statistics s).
Proof. exact c129_table. Qed.
Print Assumptions C129_table.

(** C129.  The text of a table is its lines, each ended by a line break. *)
Theorem C129_text : forall ls : list string, forallb without_break ls = true -> split_lines (table_text ls) = (ls, "").
Proof. exact c129_text. Qed.
Print Assumptions C129_text.

Example C129_example : (forall j c name s, nth_error three_codes j = Some c -> nth_error ["X"; "Y"; "Z"] j = Some name -> nth_error three_stats j = Some s -> roomy c name s) /\
  table three_codes ["X"; "Y"; "Z"] "This is a TITLE" three_stats =
  ["       This is a TITLE       ";
   "=============================";
   "            X     Y         Z";
   "-----------------------------";
   "cnt:        7     7         7";
   "min:  -300.00 0.0001.2000e+01";
   "med:    25.00 1.0003.0500e+05";
   "max:  4000.00 3.0007.6543e+06";
   "avg:    12.00 2.0005.4000e+04";
   "std:  1500.00 1.0003.0000e+00";
   "============================="].
Proof. exact c129_example. Qed.

(** With the third of these formats a negative number makes its line longer than the others: the width is that of the text of 1, which has no sign. *)
Example C129_sign_example : map String.length (table three_codes ["X"; "Y"; "Z"] "This is a TITLE" [a_column 1 1 1 1 1; a_column 1 1 1 1 1; a_column (-1) 1 1 1 1]) = [29; 29; 29; 29; 29; 30; 29; 29; 29; 29; 29]%nat.
Proof. exact c129_sign_example. Qed.

Example C129_text_example : let t := table three_codes ["X"; "Y"; "Z"] "This is a TITLE" three_stats in
  forallb without_break t = true /\ split_lines (table_text t) = (t, "") /\ List.length t = 11%nat /\ split_lines (String "a" (newline ++ "b")) = (["a"], "b").
Proof. exact c129_text_example. Qed.
