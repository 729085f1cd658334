(** * Model objects and C libraries with binary64 values *)
From Coq Require Import ZArith Reals SpecFloat List.
From Verif Require Import Py Num ModelAquifer ModelTrace SpecFloats SpecFloatTrace.
Local Open Scope R_scope.

Definition valid_libm (lm : libm) : Prop :=
  forall x, fvalid x -> fvalid (lm_log lm x) /\ fvalid (lm_cos lm x) /\ fvalid (lm_sin lm x) /\ fvalid (lm_root5 lm x).
Definition valid_well (w : well spec_float) : Prop := fvalid (wx w) /\ fvalid (wy w) /\ fvalid (wq w).
Definition valid_coef (c : coef6 spec_float) : Prop := fvalid (cA c) /\ fvalid (cB c) /\ fvalid (cC c) /\ fvalid (cD c) /\ fvalid (cE c) /\ fvalid (cF c).
Definition valid_model (m : model spec_float) : Prop :=
  fvalid (conductivity m) /\ fvalid (porosity m) /\ fvalid (thickness m) /\ fvalid (xo m) /\ fvalid (yo m) /\ valid_coef (coef m) /\
  forall w, In w (wells m) -> valid_well w.
