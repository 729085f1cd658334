(** * The decile table in binary64: C132

    Written by tools/genprops.py: statements only, each closed by the lemma of the
    same name in ProofDecileFloat.v. *)
From Coq Require Import ZArith Reals SpecFloat List Permutation Sorted.
From Verif Require Import Py Num NumXR ModelField ModelPlot SpecFloats SpecExact SpecField SpecPlot SpecDecile ProofFloatField ProofFloatCases ProofAreas ProofDecileFloat.
Import ListNotations.
Local Open Scope R_scope.

(** ** C132 The decile table in binary64 *)

(** C132: row j of the table is the pair of probability and area at the position of the first node, in descending order of
    probability, that does not exceed (j+1)/20; for the five low thresholds, the first that is less than (j+1)/20. *)
Theorem C132_rows_partial : forall lm k s W l sp pr area, (-1074 <= k <= 960)%Z -> sound_grid k s -> wf (exact_field s) -> total (exact_field s) W -> 0 < W ->
  W <= powerRZ 2 (40 + k) -> enumerates (exact_field s) l -> @create_impact_plot spec_float (SF lm) sp s = Ok (pr, area) ->
  exists rows, @decile_table spec_float (SF lm) pr area = Ok rows /\ length rows = 19%nat /\
    forall j, (j < 19)%nat ->
      let c := (if low j then reaching W (INR (j + 1) / 20) l else exceeding W (INR (j + 1) / 20) l) in
      let i := (if (c <? length l)%nat then c else 0%nat) in
      exists v a, nth_error pr i = Some v /\ nth_error area i = Some a /\ 
        nth_error rows j = Some (v, a, @ndiv spec_float (SF lm) a (@nlit spec_float (SF lm) 404686 100)).
Proof. exact c132_rows_partial. Qed.
Print Assumptions C132_rows_partial.

(** C132, refuted: for the thresholds 0.4, 0.45, 0.5, 0.55 and 0.8, a node whose probability is exactly the threshold is not
    found: the row is that of a node of smaller probability, where exact arithmetic gives the threshold itself. *)
Theorem C132_refuted : forall lm k s W l sp pr area j n n', (-1074 <= k <= 960)%Z -> sound_grid k s -> wf (exact_field s) -> total (exact_field s) W -> 0 < W ->
  W <= powerRZ 2 (40 + k) -> enumerates (exact_field s) l -> @create_impact_plot spec_float (SF lm) sp s = Ok (pr, area) ->
  low j = true -> In n l -> snd n / W = INR (j + 1) / 20 -> In n' l -> snd n' / W < INR (j + 1) / 20 ->
  (exists rows v a b m, @decile_table spec_float (SF lm) pr area = Ok rows /\ nth_error rows j = Some (v, a, b) /\
     In m l /\ snd m / W < INR (j + 1) / 20 /\ snd m / W * (1 - / 2 ^ 53) <= fval v <= snd m / W * (1 + / 2 ^ 53)) /\
  (forall sp' pr' area', create_impact_plot (Fin sp') (exact_field s) = Ok (pr', area') ->
     exists rows a b, decile_table pr' area' = Ok rows /\ nth_error rows j = Some (Fin (INR (j + 1) / 20), a, b)).
Proof. exact c132_refuted. Qed.
Print Assumptions C132_refuted.

Example C132_example : forall lm, exists s l pr area n n', s = @run_ops spec_float (SF lm) 100 well0 (story ++ [ORegister one]) /\ sound_grid 0 s /\ wf (exact_field s) /\
  total (exact_field s) 2 /\ 2 <= powerRZ 2 (40 + 0) /\ enumerates (exact_field s) l /\ @create_impact_plot spec_float (SF lm) two s = Ok (pr, area) /\ low 9 = true /\
  In n l /\ snd n / 2 = INR (9 + 1) / 20 /\ In n' l /\ snd n' / 2 < INR (9 + 1) / 20 /\
  exists rows a b, @decile_table spec_float (SF lm) pr area = Ok rows /\ nth_error rows 9 = Some (f_of_Z 0, a, b) /\ fval a = 204.
Proof. exact c132_example. Qed.
