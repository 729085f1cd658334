(** * Water balance: property C94

    Written by tools/genprops.py: statements only, each closed by the lemma of the
    same name in ProofBalance.v. *)
From Coq Require Import Reals List.
From Verif Require Import Py Num ModelAquifer SpecAquifer SpecBalance ProofBalance.
Import ListNotations.
Local Open Scope R_scope.

(** ** C94 Water balance of a circle *)

(** The water entering a circle is what the wells inside it pump, plus 2(A+B) times its area (the regional recharge, with its sign changed). *)
Theorem C94_balance : exists k, Rabs (k - 1) <= 13 / 10 ^ 17 /\ forall m a b r, 0 < r -> off_circle (wells m) a b r ->
  integral (inward m a b r) 0 (2 * PI) (k * Rsum wq (filter (inside a b r) (wells m)) + 2 * (cA (coef m) + cB (coef m)) * (PI * r ^ 2)).
Proof. exact c94_balance. Qed.
Print Assumptions C94_balance.

(** Nothing circulates, not even around wells. *)
Theorem C94_circulation : forall m a b r, 0 < r -> off_circle (wells m) a b r -> integral (along m a b r) 0 (2 * PI) 0.
Proof. exact c94_circulation. Qed.
Print Assumptions C94_circulation.

(** Two circles that hold the same wells, without recharge, take in the same water, wherever their centres. *)
Theorem C94_same_wells : forall m a b r a' b' r' v v', 0 < r -> 0 < r' -> off_circle (wells m) a b r -> off_circle (wells m) a' b' r' ->
  cA (coef m) + cB (coef m) = 0 -> (forall w, In w (wells m) -> inside a b r w = inside a' b' r' w) ->
  integral (inward m a b r) 0 (2 * PI) v -> integral (inward m a' b' r') 0 (2 * PI) v' -> v = v'.
Proof. exact c94_same_wells. Qed.
Print Assumptions C94_same_wells.

(** Two wells, one inside the unit circle about the origin and one outside, and recharge. *)
Example C94_example : let m := {| base := 0; conductivity := 1; porosity := 1 / 4; thickness := 10; wells := [{| wx := 1 / 2; wy := 0; wr := 1 / 10; wq := 3 |}; {| wx := 2; wy := 1; wr := 1 / 10; wq := 5 |}];
      xo := 0; yo := 0; coef := {| cA := -1; cB := -2; cC := 1; cD := 4; cE := 5; cF := 100 |} |} in
  off_circle (wells m) 0 0 1 /\ exists v, integral (inward m 0 0 1) 0 (2 * PI) v /\ Rabs (v - (3 - 6 * PI)) <= 39 / 10 ^ 17 /\ integral (along m 0 0 1) 0 (2 * PI) 0.
Proof. exact c94_example. Qed.
