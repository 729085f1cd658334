(** * A run that ends with LinAlgError (C108) *)
From Coq Require Import String SpecFloat ZArith List.
From Verif Require Import Py Num ModelField ModelAquifer ModelTrace ModelObs ModelDist ModelDriver ModelPlot ModelArchive ModelMain
  ModelText ModelLog ModelTranscript ModelLogging SpecTranscript ProofTranscript ProofLogging SpecLog ProofLog ProofFilterLog ProofLoggingEx.
Import ListNotations.
Local Open Scope string_scope.

(** The run of ProofLoggingEx with a least squares solver that does not converge. *)
Lemma c108_levels_example :
  let la := {| lstsq := fun _ _ => Raise LinAlgError; inv := fun _ => Ok [] |} in
  let run := oneka_said (N := SF sqrt_libm) no_rng (fun (_ : unit) ev _ => ev) (fun _ => Ok tt) 50 la (fun _ => tt) tt (dry_args 2 10) in
  In {| from := "Oneka"; at_level := Error; text := " numpy.linalg.lstsq: failed" |} (messages (fst run)) /\ snd run = Raise LinAlgError.
Proof.
  cbv zeta. set (run := oneka_said (N := SF sqrt_libm) _ _ _ _ _ _ _ _).
  split; [|vm_compute; reflexivity].
  assert (E : skipn 58 (messages (fst run)) = [{| from := "Oneka"; at_level := Error; text := " numpy.linalg.lstsq: failed" |}]) by (vm_compute; reflexivity).
  rewrite <- (firstn_skipn 58 (messages (fst run))), E. apply in_or_app. right. left. reflexivity.
Qed.
