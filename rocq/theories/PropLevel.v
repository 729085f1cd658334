(** * The potential, the head and the velocity of an aquifer that need not be full, in binary64: C126, C127

    Written by tools/genprops.py: statements only, each closed by the lemma of the
    same name in ProofLevelPot.v, ProofLevelVel.v, ProofLevelEx.v. *)
From Coq Require Import Reals ZArith SpecFloat List.
From Verif Require Import Py Num NumXR ModelAquifer SpecFloats SpecAquifer SpecTrace SpecRough SpecDischarge SpecLevel ProofLevelPot ProofLevelVel ProofLevelEx.
Import ListNotations.
Local Open Scope R_scope.

(** ** C126 The potential in binary64 is accurate *)

(** C126.  The potential that [compute_potential] returns in binary64 differs from the exact one by at most a fixed number of units in the
    last place, growing with the number of wells, and twice the error of the logarithm, of the sum of the absolute values of its parts. *)
Theorem C126_potential : forall (lm : libm) (eps : R) (m : model spec_float) (x y : spec_float), 0 <= eps <= / 1000 -> log_within lm eps ->
  moderate_model m -> moderate x -> moderate y -> clear_of_wells (real_model m) (fval x, fval y) -> (Z.of_nat (length (wells m)) <= 10 ^ 12)%Z ->
  let p := @compute_potential _ (SF lm) m x y in let n := INR (length (wells m)) in let M := real_model m in let X := fval x in let Y := fval y in
  ffinite p /\ Rabs (fval p - potential M X Y) <= ((n + 13) / 2 ^ 52 + 2 * eps) * (load_p M X Y + 2 * tiny).
Proof. exact c126_potential. Qed.
Print Assumptions C126_potential.

(** A case of [c126_potential]. *)
Example C126_example : log_within even_log (/ 2 ^ 38) /\ moderate_model pond /\ moderate (f_of_Z 2) /\ moderate (f_of_Z 0) /\ clear_of_wells (real_model pond) (fval (f_of_Z 2), fval (f_of_Z 0)) /\
  let p := @compute_potential _ (SF even_log) pond (f_of_Z 2) (f_of_Z 0) in 3 <= potential (real_model pond) 2 0 <= 5 /\ Rabs (fval p - potential (real_model pond) 2 0) <= / 10 ^ 10.
Proof. exact c126_example. Qed.

(** ** C127 Head and velocity in binary64 are accurate, whether the aquifer is full or not *)

(** C127.  The head that [compute_head] returns in binary64 is the exact one up to the effect of the error of the potential and a few units in the last place. *)
Theorem C127_head : forall (lm : libm) (eps : R) (m : model spec_float) (x y : spec_float), 0 <= eps <= / 1000 -> log_within lm eps ->
  moderate_model m -> sized (conductivity m) -> moderate x -> moderate y -> clear_of_wells (real_model m) (fval x, fval y) -> (Z.of_nat (length (wells m)) <= 10 ^ 12)%Z ->
  let M := real_model m in let X := fval x in let Y := fval y in firm eps M X Y ->
  exists hd h, @compute_head _ (SF lm) m x y = Ok hd /\ ffinite hd /\ compute_head (fmodel M) (Fin X) (Fin Y) = Ok (Fin h) /\ 0 < h /\
    Rabs (fval hd - h) <= 3 * level_error eps M X Y / (conductivity M * water_depth M X Y) + h / 2 ^ 48.
Proof. exact c127_head. Qed.
Print Assumptions C127_head.

(** C127.  The velocity that [compute_velocity] returns in binary64, in an aquifer that may be unconfined, is the exact one up to a bound in terms of the
    parts of the discharge and of the errors of the potential and of the logarithm. *)
Theorem C127_velocity : forall (lm : libm) (eps : R) (m : model spec_float) (x y : spec_float), 0 <= eps <= / 1000 -> log_within lm eps ->
  moderate_model m -> sized (conductivity m) -> moderate x -> moderate y -> clear_of_wells (real_model m) (fval x, fval y) -> (Z.of_nat (length (wells m)) <= 10 ^ 12)%Z ->
  let M := real_model m in let X := fval x in let Y := fval y in let n := INR (length (wells m)) in firm eps M X Y ->
  let s := water_depth M X Y * porosity M in let c := (n + 12) / 2 ^ 51 + 2 * depth_error eps M X Y in
  exists v ux uy, @compute_velocity _ (SF lm) m x y = Ok v /\ ffinite (fst v) /\ ffinite (snd v) /\ compute_velocity (fmodel M) (Fin X) (Fin Y) = Ok (Fin ux, Fin uy) /\
    ux = discharge_x M X Y / s /\ uy = discharge_y M X Y / s /\
    Rabs (fval (fst v) - ux) <= c * ((load_x M X Y + tiny) / s) /\ Rabs (fval (snd v) - uy) <= c * ((load_y M X Y + tiny) / s).
Proof. exact c127_velocity. Qed.
Print Assumptions C127_velocity.

(** A case of [c127_head] and [c127_velocity]: the aquifer is not full. *)
Example C127_example : log_within even_log (/ 2 ^ 38) /\ moderate_model pond /\ sized (conductivity pond) /\ firm (/ 2 ^ 38) (real_model pond) 2 0 /\
  exists hd h v ux uy, @compute_head _ (SF even_log) pond (f_of_Z 2) (f_of_Z 0) = Ok hd /\ compute_head (fmodel (real_model pond)) (Fin 2) (Fin 0) = Ok (Fin h) /\ 2 <= h < 4 /\ Rabs (fval hd - h) <= / 10 ^ 9 /\
    @compute_velocity _ (SF even_log) pond (f_of_Z 2) (f_of_Z 0) = Ok v /\ compute_velocity (fmodel (real_model pond)) (Fin 2) (Fin 0) = Ok (Fin ux, Fin uy) /\
    Rabs (fval (fst v) - ux) <= / 10 ^ 8 /\ Rabs (fval (snd v) - uy) <= / 10 ^ 8.
Proof. exact c127_example. Qed.
