(** * Means of distributions in binary64: property C56

    Written by tools/genprops.py: statements only, each closed by the lemma of the
    same name in ProofFloatMean.v. *)
From Coq Require Import Reals SpecFloat List.
From Verif Require Import Py Num ModelDist SpecFloats ProofFloatMean.
Import ListNotations.
Local Open Scope R_scope.

(** ** C56 The mean of a validated distribution lies within its bounds *)

(** Pairs of finite entries: unless the sum may overflow, the mean lies between the two entries, and within the bounds,
    finite or not. *)
Theorem C56_pair_binary64_partial : forall lm (a b : pyval spec_float) x y lb ub,
  @num_of spec_float (SF lm) a = Some x -> @num_of spec_float (SF lm) b = Some y ->
  ffinite x -> ffinite y -> Rabs (fval x) < 2 ^ 1022 -> Rabs (fval y) < 2 ^ 1022 ->
  valid_binary fprec femax lb = true -> valid_binary fprec femax ub = true ->
  @isdistribution spec_float (SF lm) (PTuple [a; b]) lb ub = Ok true ->
  exists m, @compute_variate_mean spec_float (SF lm) (PTuple [a; b]) = Ok (PFloat m) /\ ffinite m /\
    fval x <= fval m <= fval y /\ SFleb lb m = true /\ SFleb m ub = true.
Proof. exact c56_pair_binary64_partial. Qed.
Print Assumptions C56_pair_binary64_partial.

(** Triples: every bound on the entries that is a binary64 number and whose triple is one too is respected. *)
Theorem C56_triple_binary64_partial : forall lm (a b c : pyval spec_float) x y z l u,
  @num_of spec_float (SF lm) a = Some x -> @num_of spec_float (SF lm) b = Some y -> @num_of spec_float (SF lm) c = Some z ->
  ffinite x -> ffinite y -> ffinite z -> ffinite l -> ffinite u -> - 2 ^ 1022 < fval l -> fval u < 2 ^ 1022 ->
  has_triple l -> has_triple u ->
  (forall v, In v [x; y; z] -> fval l <= fval v <= fval u) ->
  exists m, @compute_variate_mean spec_float (SF lm) (PTuple [a; b; c]) = Ok (PFloat m) /\ ffinite m /\ fval l <= fval m <= fval u.
Proof. exact c56_triple_binary64_partial. Qed.
Print Assumptions C56_triple_binary64_partial.

(** Triples of positive entries: the mean leaves the range of the entries by at most a part in 2^51. *)
Theorem C56_triple_accuracy_partial : forall lm (a b c : pyval spec_float) x y z,
  @num_of spec_float (SF lm) a = Some x -> @num_of spec_float (SF lm) b = Some y -> @num_of spec_float (SF lm) c = Some z ->
  ffinite x -> ffinite y -> ffinite z -> / 2 ^ 1020 <= fval x -> fval x <= fval y -> fval y <= fval z -> fval z < 2 ^ 1021 ->
  exists m, @compute_variate_mean spec_float (SF lm) (PTuple [a; b; c]) = Ok (PFloat m) /\ ffinite m /\
    fval x * (1 - / 2 ^ 51) <= fval m <= fval z * (1 + / 2 ^ 51).
Proof. exact c56_triple_accuracy_partial. Qed.
Print Assumptions C56_triple_accuracy_partial.

(** The triple (0.2, 0.2, 0.2), accepted with least and greatest value 0.2, has mean 0.2 + 2^-55. *)
Theorem C56_triple_binary64_refuted : forall lm, exists x m, x = SFdiv fprec femax (f_of_Z 2) (f_of_Z 10) /\ ffinite x /\
  @isdistribution spec_float (SF lm) (PTuple [PFloat x; PFloat x; PFloat x]) x x = Ok true /\
  @compute_variate_mean spec_float (SF lm) (PTuple [PFloat x; PFloat x; PFloat x]) = Ok (PFloat m) /\ SFltb x m = true /\
  fval m = fval x + / 2 ^ 55.
Proof. exact c56_triple_binary64_refuted. Qed.
Print Assumptions C56_triple_binary64_refuted.

(** The pair (1.5 * 2^1023, 1.5 * 2^1023), accepted as a discharge, has an infinite mean. *)
Theorem C56_overflow_refuted : forall lm, exists x, ffinite x /\
  @isdistribution spec_float (SF lm) (PTuple [PFloat x; PFloat x]) (S754_infinity true) (S754_infinity false) = Ok true /\
  @compute_variate_mean spec_float (SF lm) (PTuple [PFloat x; PFloat x]) = Ok (PFloat (S754_infinity false)).
Proof. exact c56_overflow_refuted. Qed.
Print Assumptions C56_overflow_refuted.

(** The number 0.2, and the pair (0.2, 1), meet the conditions. *)
Example C56_binary64_example : forall lm, let x := SFdiv fprec femax (f_of_Z 2) (f_of_Z 10) in
  ffinite x /\ / 2 ^ 1020 <= fval x /\ Rabs (fval x) < 2 ^ 1022 /\ 0 <= fval x <= 1 /\ has_triple (f_of_Z 1) /\ has_triple (f_of_Z 0) /\
  @isdistribution spec_float (SF lm) (PTuple [PFloat x; PInt 1]) (f_of_Z 0) (f_of_Z 1) = Ok true.
Proof. exact c56_binary64_example. Qed.
