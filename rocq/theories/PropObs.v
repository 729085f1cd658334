(** * Observation filter and summary statistics: properties C48-C54, C75

    Written by tools/genprops.py: statements only, each closed by the lemma of the
    same name in ProofObs.v, ProofObsProps.v, ProofStats.v. *)
From Coq Require Import Reals Permutation.
From Verif Require Import Py Num ModelAquifer ModelObs SpecAquifer SpecObs ProofObs ProofObsProps ProofStats.
Local Open Scope R_scope.

(** ** C48 No retained observation is within buffer of a well *)

(** In any arithmetic, including binary64 with its special values: whatever is returned stands at the
    place of an input observation, and the distance from there to no well compares as at most the buffer. *)
Theorem C48_any_arithmetic : forall (T : Type) (N : Num T) (l : list (obs T)) (ws : list (T * T)) (b : T) out,
  filter_obs l ws b = Ok out ->
  forall o', In o' out ->
    (exists o, In o l /\ ox o' = ox o /\ oy o' = oy o) /\
    (forall w, In w ws -> nle (nhypot (nsub (ox o') (fst w)) (nsub (oy o') (snd w))) b = false).
Proof. exact c48_any_arithmetic. Qed.
Print Assumptions C48_any_arithmetic.

(** Every returned observation stands where an input observation stands, and that place is farther than
    the buffer from every well. *)
Theorem C48_far : forall (l : list (obs R)) (ws : list (R * R)) (b : R) out,
  filter_obs (map fobs l) (map floc ws) (Fin b) = Ok out ->
  forall o', In o' out -> exists o, In o l /\ ox o' = Fin (ox o) /\ oy o' = Fin (oy o)
                                    /\ forall w, In w ws -> b < odist o w.
Proof. exact c48_far. Qed.
Print Assumptions C48_far.

(** Every surviving observation is used: the survivors are split, in order, into groups, one for each
    returned observation, whose value is an average of the group with a positive weight for each member. *)
Theorem C48_used : forall (l : list (obs R)) (ws : list (R * R)) (b : R) out,
  (forall o, In o l -> 0 <= os o) ->
  filter_obs (map fobs l) (map floc ws) (Fin b) = Ok out ->
  exists groups outR, out = map fobs outR /\
    survivors (fun o => forall w, In w ws -> b < odist o w) l (concat groups) /\
    Forall2 uses_all groups outR.
Proof. exact c48_used. Qed.
Print Assumptions C48_used.

(** Three observations, one of them within 5 of the well, the other two 1/2 apart with deviations 1 and 2:
    one observation is returned, of value (1 + 3/4)/(1 + 1/4) and variance 1/(1 + 1/4). *)
Example C48_example : filter_obs (map fobs [ob 0 0 1 1; ob 10 0 5 2; ob 0 (1 / 2) 3 2]) (map floc [(10, 3)]) (Fin 5)
  = Ok (map fobs [ob 0 0 (7 / 5) (sqrt (4 / 5))]).
Proof. exact c48_example. Qed.

(** ** C49 Averaging conserves total precision and weighted mean *)

(** The sums of the precisions and of the weighted values are those of the survivors. *)
Theorem C49_sums : forall (l : list (obs R)) (ws : list (R * R)) (b : R),
  (forall o, In o l -> 0 < os o) ->
  exists k out, filter_obs (map fobs l) (map floc ws) (Fin b) = Ok (map fobs out) /\
    survivors (survives ws b) l k /\
    Rsum (fun o => 1 / (os o * os o)) out = Rsum (fun o => 1 / (os o * os o)) k /\
    Rsum (fun o => oz o / (os o * os o)) out = Rsum (fun o => oz o / (os o * os o)) k.
Proof. exact c49_sums. Qed.
Print Assumptions C49_sums.

Example C49_example : 1 / (sqrt (4 / 5) * sqrt (4 / 5)) = 1 / (1 * 1) + 1 / (2 * 2).
Proof. exact c49_example. Qed.

(** ** C50 Merged observations are the minimum-variance average *)

(** Each returned observation is the minimum-variance unbiased average of its group. *)
Theorem C50_best : forall (l : list (obs R)) (ws : list (R * R)) (b : R) out,
  (forall o, In o l -> 0 <= os o) ->
  filter_obs (map fobs l) (map floc ws) (Fin b) = Ok out ->
  exists groups outR, out = map fobs outR /\
    survivors (fun o => forall w, In w ws -> b < odist o w) l (concat groups) /\
    Forall2 (fun g o' =>
      one_group g /\ at_leader g o' /\
      ((exists p, In p g /\ oz p <= oz o') /\ (exists q, In q g /\ oz o' <= oz q)) /\
      (forall p, In p g -> os o' <= os p) /\
      best_average g o') groups outR.
Proof. exact c50_best. Qed.
Print Assumptions C50_best.

(** The minimum is attained by the weights proportional to 1/std^2 only. *)
Theorem C50_unique : forall (g : list (obs R)) (w w' : list R),
  (forall o, In o g -> 0 < os o) -> weighting w g -> weighting w' g ->
  (forall v, weighting v g -> variance w g <= variance v g) ->
  variance w' g = variance w g -> w' = w.
Proof. exact c50_unique. Qed.
Print Assumptions C50_unique.

(** Its two halves: 1 <= 7/5 <= 3, the deviation is below 1, the precisions add up, and filtering the
    result again changes nothing. *)
Example C50_example : best_average [ob 0 0 1 1; ob 0 (1 / 2) 3 2] (ob 0 0 (7 / 5) (sqrt (4 / 5))).
Proof. exact c50_example. Qed.

(** ** C51 filter_obs is idempotent *)

(** Filtering twice is filtering once, in any arithmetic. *)
Theorem C51_idempotent : forall (T : Type) (N : Num T) (l : list (obs T)) (ws : list (T * T)) (b : T) out,
  filter_obs l ws b = Ok out -> filter_obs out ws b = Ok out.
Proof. exact c51_idempotent. Qed.
Print Assumptions C51_idempotent.

Example C51_example : filter_obs (map fobs [ob 0 0 (7 / 5) (sqrt (4 / 5))]) (map floc [(10, 3)]) (Fin 5)
  = Ok (map fobs [ob 0 0 (7 / 5) (sqrt (4 / 5))]).
Proof. exact c51_example. Qed.

(** ** C52 Duplicates (within 1 m) are merged *)

(** Neighbours in the result are at least 1 apart (so no two neighbours share a location). *)
Theorem C52_neighbours_partial : forall (l : list (obs R)) (ws : list (R * R)) (b : R) out,
  filter_obs (map fobs l) (map floc ws) (Fin b) = Ok (map fobs out) ->
  forall l1 o o' l2, out = l1 ++ o :: o' :: l2 -> 1 <= odist o' (loc o).
Proof. exact c52_neighbours_partial. Qed.
Print Assumptions C52_neighbours_partial.

(** When equal locations are adjacent in the input, no two returned observations share a location. *)
Theorem C52_adjacent_partial : forall (l : list (obs R)) (ws : list (R * R)) (b : R) out,
  contiguous l ->
  filter_obs (map fobs l) (map floc ws) (Fin b) = Ok (map fobs out) -> NoDup (map loc out).
Proof. exact c52_adjacent_partial. Qed.
Print Assumptions C52_adjacent_partial.

(** The same location before and after another one: both are returned. *)
Example C52_example : filter_obs (map fobs [ob 0 0 1 1; ob 10 0 2 1; ob 0 0 3 1]) [] (Fin 5)
  = Ok (map fobs [ob 0 0 1 1; ob 10 0 2 1; ob 0 0 3 1]).
Proof. exact c52_example. Qed.

(** Two returned observations may share a location. *)
Theorem C52_refuted : exists (l out : list (obs R)) (b : R),
  (forall o, In o l -> 0 < os o) /\ filter_obs (map fobs l) [] (Fin b) = Ok (map fobs out) /\ ~ NoDup (map loc out).
Proof. exact c52_refuted. Qed.
Print Assumptions C52_refuted.

(** ** C53 filter_obs handles every validated observation list *)

(** Two observations at one place with deviation 0 (accepted by oneka's validation): an exception. *)
Theorem C53_refuted : filter_obs (map fobs [ob 0 0 1 0; ob 0 0 1 0]) [] (Fin 5) = Raise ZeroDivisionError.
Proof. exact c53_refuted. Qed.
Print Assumptions C53_refuted.

(** With positive deviations nothing is raised; and for any deviations the only exception is
    ZeroDivisionError, raised only when an observation of deviation 0 is to be merged with another. *)
Theorem C53_positive_partial : forall (l : list (obs R)) (ws : list (R * R)) (b : R),
  (exists out, filter_obs (map fobs l) (map floc ws) (Fin b) = Ok (map fobs out)) \/
  (filter_obs (map fobs l) (map floc ws) (Fin b) = Raise ZeroDivisionError /\
   exists a p q, In a l /\ In p l /\ In q l /\ odist p (loc a) < 1 /\ (q = a \/ odist q (loc a) < 1) /\ os q = 0).
Proof. exact c53_positive_partial. Qed.
Print Assumptions C53_positive_partial.

(** ** C54 Changing length units changes nothing but units *)

(** Rescaling all lengths rescales the result when no distance between two observations crosses the fixed threshold 1. *)
Theorem C54_partial : forall (c : R) (l : list (obs R)) (ws : list (R * R)) (b : R) (out : list (obs R)),
  0 < c -> (forall o, In o l -> 0 < os o) ->
  (forall p q, In p l -> In q l -> (odist p (loc q) < 1 <-> c * odist p (loc q) < 1)) ->
  filter_obs (map fobs l) (map floc ws) (Fin b) = Ok (map fobs out) ->
  filter_obs (map fobs (map (rescale c) l)) (map floc (map (rescale_loc c) ws)) (Fin (c * b)) = Ok (map fobs (map (rescale c) out)).
Proof. exact c54_partial. Qed.
Print Assumptions C54_partial.

(** Two observations 3/5 apart are averaged into one of value 2 and deviation sqrt(1/2). *)
Example C54_metres_example : filter_obs (map fobs [ob 0 0 1 1; ob (3 / 5) 0 3 1]) [] (Fin 5) = Ok (map fobs [ob 0 0 2 (sqrt (1 / 2))]).
Proof. exact c54_metres_example. Qed.

(** The same two observations in half-metres stay two: rescaling by 2 does not rescale the result. *)
Theorem C54_refuted : exists (c : R) (l out : list (obs R)) (b : R),
  0 < c /\ (forall o, In o l -> 0 < os o) /\
  filter_obs (map fobs l) [] (Fin b) = Ok (map fobs out) /\
  filter_obs (map fobs (map (rescale c) l)) [] (Fin (c * b)) <> Ok (map fobs (map (rescale c) out)).
Proof. exact c54_refuted. Qed.
Print Assumptions C54_refuted.

(** ** C75 Summary statistics are order statistics of the non-NaN values *)

(** Each column: the count is the number of numbers (entries that are not NaN), the extremes are
    elements bounding the others, the median is the middle of the sorted numbers, the mean and the
    deviation have their usual meaning, and the stated inequalities hold. *)
Theorem C75_columns : forall (rows : list (list (option R))) (n : nat),
  rows <> [] -> (forall row, In row rows -> length row = n) ->
  (forall j, (j < n)%nat -> column j rows <> []) ->
  exists sts, summary_statistics (map (map fval) rows) = Ok sts /\ length sts = n /\
    forall j, (j < n)%nat -> exists mn md mx av sd,
      nth_error sts j = Some {| s_cnt := Z.of_nat (length (column j rows)); s_min := Fin mn; s_med := Fin md;
                                s_max := Fin mx; s_avg := Fin av; s_std := Fin sd |} /\
      In mn (column j rows) /\ In mx (column j rows) /\ (forall y, In y (column j rows) -> mn <= y <= mx) /\
      is_median (column j rows) md /\ mn <= md <= mx /\
      av * INR (length (column j rows)) = total_of (column j rows) /\ mn <= av <= mx /\
      0 <= sd /\ sd * sd * INR (length (column j rows)) = Rsum (fun y => (y - av) * (y - av)) (column j rows) /\
      (sd = 0 <-> forall y z, In y (column j rows) -> In z (column j rows) -> y = z).
Proof. exact c75_columns. Qed.
Print Assumptions C75_columns.

(** The order of the rows does not matter. *)
Theorem C75_row_order : forall (rows rows' : list (list (option R))) (n : nat),
  rows <> [] -> (forall row, In row rows -> length row = n) ->
  (forall j, (j < n)%nat -> column j rows <> []) -> Permutation rows rows' ->
  summary_statistics (map (map fval) rows') = summary_statistics (map (map fval) rows).
Proof. exact c75_row_order. Qed.
Print Assumptions C75_row_order.

(** A table of two columns with a missing entry. *)
Example C75_example : summary_statistics (map (map fval) [[Some 1; Some 5]; [Some 4; None]; [Some 2; Some 5]; [Some 1; Some 5]])
  = Ok [{| s_cnt := 4; s_min := Fin 1; s_med := Fin (3 / 2); s_max := Fin 4; s_avg := Fin 2; s_std := Fin (sqrt (3 / 2)) |};
        {| s_cnt := 3; s_min := Fin 5; s_med := Fin 5; s_max := Fin 5; s_avg := Fin 5; s_std := Fin 0 |}].
Proof. exact c75_example. Qed.

(** With an infinite entry the inequalities fail: the mean of inf and -inf is NaN. *)
Example C75_infinite_example : exists st, summary_statistics [[PInf]; [NInf]] = Ok [st] /\ s_avg st = NaN /\ s_min st = NInf /\ s_max st = PInf.
Proof. exact c75_infinite_example. Qed.
