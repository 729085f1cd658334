(** * Distributions: properties C55-C58

    Written by tools/genprops.py: statements only, each closed by the lemma of the
    same name in ProofDist.v. *)
From Coq Require Import Reals String.
From Verif Require Import Py Num ModelDist SpecDist ProofDist.
Local Open Scope R_scope.

(** ** C55 isdistribution accepts exactly ordered scalars, pairs and triples within bounds *)

(** isdistribution answers True exactly on the ordered numbers, pairs and triples within the bounds. *)
Theorem C55_exactly : forall (v : pyval xr) (lb ub : xr),
  isdistribution v lb ub = Ok true <-> distribution v lb ub.
Proof. exact c55_exactly. Qed.
Print Assumptions C55_exactly.

(** Nothing containing NaN is accepted, whatever the bounds; nor is anything when a bound is NaN. *)
Theorem C55_no_nan : forall (v : pyval xr) (l : list xr) (lb ub : xr),
  isdistribution v lb ub = Ok true -> entries v l -> ~ In NaN l /\ lb <> NaN /\ ub <> NaN.
Proof. exact c55_no_nan. Qed.
Print Assumptions C55_no_nan.

(** Anything else gives False, except that a pair or triple with an entry that is not a number may raise TypeError. *)
Theorem C55_otherwise : forall (v : pyval xr) (lb ub : xr),
  isdistribution v lb ub = Ok true \/ isdistribution v lb ub = Ok false \/
  (isdistribution v lb ub = Raise TypeError /\
   exists k l a, (k = PTuple \/ k = PList) /\ v = k l /\ In a l /\ forall x, ~ number a x).
Proof. exact c55_otherwise. Qed.
Print Assumptions C55_otherwise.

(** Concrete values: a triple in order, one out of order, NaN, a string, a pair with a string, four entries. *)
Example C55_example : isdistribution (PTuple [PInt 1; PFloat (Fin (3 / 2)); PInt 2]) (Fin 0) PInf = Ok true /\
  isdistribution (PList [PInt 2; PInt 1]) (Fin 0) PInf = Ok false /\
  isdistribution (PFloat NaN) NInf PInf = Ok false /\
  isdistribution (PStr "1"%string) NInf PInf = Ok false /\
  isdistribution (PTuple [PInt 1; PStr "2"%string]) (Fin 0) PInf = Raise TypeError /\
  isdistribution (PTuple [PInt 1; PInt 2; PInt 3; PInt 4]) (Fin 0) PInf = Ok false.
Proof. exact c55_example. Qed.

(** ** C56 The mean of a validated distribution lies within its bounds *)

(** The mean of an accepted number or tuple is within the bounds and between the entries, provided the
    entries do not contain both infinities. *)
Theorem C56_mean_partial : forall (v : pyval xr) (l : list xr) (lb ub : xr),
  isdistribution v lb ub = Ok true -> ~ is_list v -> entries v l -> ~ (In NInf l /\ In PInf l) ->
  exists w m, compute_variate_mean v = Ok w /\ number w m /\ xr_le lb m /\ xr_le m ub /\
    (exists a, In a l /\ xr_le a m) /\ (exists b, In b l /\ xr_le m b).
Proof. exact c56_mean_partial. Qed.
Print Assumptions C56_mean_partial.

(** The mean of an accepted finite distribution is what it should be. *)
Theorem C56_value_partial : forall x y z : R,
  compute_variate_mean (PFloat (Fin x)) = Ok (PFloat (Fin x)) /\
  compute_variate_mean (PTuple [PFloat (Fin x); PFloat (Fin y)]) = Ok (PFloat (Fin ((x + y) / 2))) /\
  compute_variate_mean (PTuple [PFloat (Fin x); PFloat (Fin y); PFloat (Fin z)]) = Ok (PFloat (Fin ((x + y + z) / 3))).
Proof. exact c56_value_partial. Qed.
Print Assumptions C56_value_partial.

(** The pair (-inf, inf), accepted for a discharge, has mean NaN. *)
Theorem C56_infinite_refuted : isdistribution (PTuple [PFloat NInf; PFloat PInf]) NInf PInf = Ok true /\
  compute_variate_mean (PTuple [PFloat NInf; PFloat PInf]) = Ok (PFloat NaN).
Proof. exact c56_infinite_refuted. Qed.
Print Assumptions C56_infinite_refuted.

Example C56_example : compute_variate_mean (PTuple [PInt 1; PFloat (Fin 2); PInt 6]) = Ok (PFloat (Fin 3)) /\
  compute_variate_mean (PTuple [PInt 1; PFloat PInf]) = Ok (PFloat PInf).
Proof. exact c56_example. Qed.

(** ** C57 Random variates stay within the validated bounds *)

(** A value that generate_random_variate returns for an accepted number or tuple is a number within the bounds
    and between the entries, for every random source with numpy's documented supports. *)
Theorem C57_within : forall (G : Type) (R : rng xr G) (g g' : G) (v w : pyval xr) (l : list xr) (lb ub : xr),
  documented R -> isdistribution v lb ub = Ok true -> ~ is_list v -> entries v l ->
  generate_random_variate R g v = Ok (w, g') ->
  exists x, number w x /\ xr_le lb x /\ xr_le x ub /\ (exists a, In a l /\ xr_le a x) /\ (exists b, In b l /\ xr_le x b).
Proof. exact c57_within. Qed.
Print Assumptions C57_within.

(** The same for finite entries, when the supports are promised for finite parameters only. *)
Theorem C57_within_finite : forall (G : Type) (Rg : rng xr G) (g g' : G) (v w : pyval xr) (l : list R) (lb ub : xr),
  documented_finite Rg -> isdistribution v lb ub = Ok true -> ~ is_list v -> entries v (map Fin l) ->
  generate_random_variate Rg g v = Ok (w, g') ->
  exists x, number w (Fin x) /\ xr_le lb (Fin x) /\ xr_le (Fin x) ub /\ (exists a, In a l /\ a <= x) /\ (exists b, In b l /\ x <= b).
Proof. exact c57_within_finite. Qed.
Print Assumptions C57_within_finite.

(** The contract is met by numpy's own formulas over any source of uniform numbers in [0,1). *)
Theorem C57_satisfiable : forall u : nat -> R, (forall n, 0 <= u n < 1) -> documented_finite (inverse_rng u).
Proof. exact c57_satisfiable. Qed.
Print Assumptions C57_satisfiable.

(** With u = 1/4, a pair and a triple. *)
Example C57_example : generate_random_variate (inverse_rng (fun _ => 1 / 4)) 0%nat (PTuple [PInt 1; PInt 3]) = Ok (PFloat (Fin (3 / 2)), 1%nat) /\
  generate_random_variate (inverse_rng (fun _ => 1 / 4)) 0%nat (PTuple [PInt 1; PInt 5; PInt 5]) = Ok (PFloat (Fin 3), 1%nat) /\
  generate_random_variate (inverse_rng (fun _ => 1 / 4)) 0%nat (PInt 7) = Ok (PInt 7, 0%nat).
Proof. exact c57_example. Qed.

(** An infinite triple, accepted, makes numpy's formulas return NaN. *)
Example C57_infinite_example : isdistribution (PTuple [PInt 0; PInt 1; PFloat PInf]) (Fin 0) PInf = Ok true /\
  generate_random_variate (inverse_rng (fun _ => 1 / 4)) 0%nat (PTuple [PInt 0; PInt 1; PFloat PInf]) = Ok (PFloat NaN, 1%nat).
Proof. exact c57_infinite_example. Qed.

(** ** C58 Every validated distribution can be sampled *)

(** It fails, whatever the random source, on a triple with equal ends and on an infinite pair, and a list is
    returned unsampled. *)
Theorem C58_refuted : isdistribution (PTuple [PInt 5; PInt 5; PInt 5]) (Fin 0) PInf = Ok true /\
  (forall (G : Type) (R : rng xr G) g, generate_random_variate R g (PTuple [PInt 5; PInt 5; PInt 5]) = Raise ValueError) /\
  isdistribution (PTuple [PInt 0; PFloat PInf]) (Fin 0) PInf = Ok true /\
  (forall (G : Type) (R : rng xr G) g, generate_random_variate R g (PTuple [PInt 0; PFloat PInf]) = Raise OverflowError) /\
  isdistribution (PList [PInt 1; PInt 2]) (Fin 0) PInf = Ok true /\
  (forall (G : Type) (R : rng xr G) g, generate_random_variate R g (PList [PInt 1; PInt 2]) = Ok (PList [PInt 1; PInt 2], g)).
Proof. exact c58_refuted. Qed.
Print Assumptions C58_refuted.

(** Exactly which accepted values are sampled: numbers, pairs of finite difference, triples with distinct ends.
    Missing from the property: the others. *)
Theorem C58_exactly_partial : forall (G : Type) (R : rng xr G) (g : G) (v : pyval xr) (l : list xr) (lb ub : xr),
  isdistribution v lb ub = Ok true -> entries v l ->
  ((exists w x g', generate_random_variate R g v = Ok (w, g') /\ number w x) <->
   ~ is_list v /\ match l with
                  | [_] => True
                  | [a; b] => exists x y, a = Fin x /\ b = Fin y
                  | [a; _; c] => a <> c
                  | _ => False
                  end).
Proof. exact c58_exactly_partial. Qed.
Print Assumptions C58_exactly_partial.
