(** * Edges of a binary64 grid that cannot move *)
From Coq Require Import Reals SpecFloat.
From Verif Require Import Num SpecFloats.
Local Open Scope R_scope.

(** The lower edge after [k] subtractions of the spacing, the upper edge after [k] additions. *)
Definition lowered (d : spec_float) (k : nat) (edge : spec_float) : spec_float := Nat.iter k (fun y => SFsub fprec femax y d) edge.
Definition raised (d : spec_float) (k : nat) (edge : spec_float) : spec_float := Nat.iter k (fun y => SFadd fprec femax y d) edge.

(** On its way to the box the edge comes to a number that the next subtraction (addition) of the spacing does not change. *)
Definition stuck_below (d box edge : spec_float) : Prop :=
  exists k, let e := lowered d k edge in ffinite e /\ fval box <= fval e /\ fval (SFsub fprec femax e d) = fval e.
Definition stuck_above (d box edge : spec_float) : Prop :=
  exists k, let e := raised d k edge in ffinite e /\ fval e <= fval box /\ fval (SFadd fprec femax e d) = fval e.
