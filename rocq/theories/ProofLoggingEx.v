(** * Concrete runs for C108 - C111 *)
From Coq Require Import String SpecFloat ZArith List Lia Bool.
From Verif Require Import Py Num ModelField ModelAquifer ModelTrace ModelObs ModelDist ModelDriver ModelPlot ModelArchive ModelMain
  ModelText ModelLog ModelTranscript ModelLogging SpecTranscript ProofTranscript ProofLogging SpecLog ProofLog ProofFilterLog.
Import ListNotations.
Local Open Scope string_scope.

(** An unconfined aquifer that is dry at the well: seven heads that say nothing, a least squares solver that returns the
    discharge potential -1, [n] realizations, two paths. *)
Definition dry_observation (x y : Z) : val := PTuple [PInt x; PInt y; PInt 10; PInt 1].
Definition dry_args (n : Z) (duration : Z) : args spec_float :=
  {| projectname := PStr "Dry"; runtime := PStr "now"; target := PInt 0; npaths := PInt 2; duration := PInt duration; nrealizations := PInt n;
     base_ := PInt 0; c_dist := PInt 1; p_dist := PFloat (SFdiv fprec femax (f_of_Z 1) (f_of_Z 4)); t_dist := PInt 10;
     stochastic_wells := PList [PTuple [PInt 0; PInt 0; PInt 1; PInt 0]];
     observations := PList [dry_observation 10 0; dry_observation 20 0; dry_observation 30 0; dry_observation 0 40; dry_observation 0 50;
                            dry_observation 60 60; dry_observation 70 10];
     buffer := PInt 1; spacing := PInt 2; umbra := PInt 1; smooth := PInt 1; confined := PBool false; tol := PInt 1; maxstep := PInt 10 |}.
Definition dry_la : linalg spec_float :=
  {| lstsq := fun _ _ => Ok (map f_of_Z [0; 0; 0; 0; 0; -1]%Z); inv := fun _ => Ok [] |}.
Definition no_rng : rng spec_float unit := {| draw_uniform := fun g a b => (a, g); draw_triangular := fun g a b c => (a, g) |}.
Definition dry (n duration : Z) : story (result spec_float) :=
  oneka_said (N := SF sqrt_libm) no_rng (fun (_ : unit) ev _ => ev) (fun _ => Ok tt) 50 dry_la (fun _ => tt) tt (dry_args n duration).
Definition dry_warning : string := " trace terminated prematurely at t = 0.00 < duration.".

Lemma dry_ok n d : snd (dry n d) = Ok RNone -> exists ms, dry n d = (ms, Ok RNone).
Proof. intros <-. exists (fst (dry n d)). apply surjective_pairing. Qed.

(** A run of two realizations that meets the hypotheses and returns; what its driver says. *)
Lemma c108_example :
  Forall convertible (List.app (rounded_arguments (dry_args 2 10)) [c_dist (dry_args 2 10); p_dist (dry_args 2 10); t_dist (dry_args 2 10)]) /\
  integer_of (nrealizations (dry_args 2 10)) = Some 2%Z /\ snd (dry 2 10) = Ok RNone /\ List.length (messages (fst (dry 2 10))) = 93%nat /\
  firstn 10 (skipn 58 (messages (fst (dry 2 10)))) =
    List.concat (map (fun first => (lines [first;
      "    coef ev:  (+0.0000e+00, +0.0000e+00, +0.0000e+00, +0.0000e+00, +0.0000e+00, -1.0000e+00)";
      "    coef rng: (+0.0000e+00, +0.0000e+00, +0.0000e+00, +0.0000e+00, +0.0000e+00, -1.0000e+00)"] ++
      [{| from := "oneka.capturezone"; at_level := Warning; text := dry_warning |};
       {| from := "oneka.capturezone"; at_level := Warning; text := dry_warning |}])%list)
    ["Realization #0: 0.00, 1.00, 0.25, 10.00, 0.0000e+00"; "Realization #1: 0.00, 1.00, 0.25, 10.00, 0.0000e+00"]).
Proof.
  split; [repeat (constructor; [first [exact I|vm_compute; reflexivity]|]); constructor|].
  split; [reflexivity|]. split; [vm_compute; reflexivity|]. split; vm_compute; reflexivity.
Qed.
(** A deterministic run that returns. *)
Lemma c108_deterministic_example :
  Forall convertible (List.app (rounded_arguments (dry_args 1 10)) [c_dist (dry_args 1 10); p_dist (dry_args 1 10); t_dist (dry_args 1 10)]) /\
  integer_of (nrealizations (dry_args 1 10)) = Some 1%Z /\ snd (dry 1 10) = Ok RNone /\
  skipn 58 (map text (messages (fst (dry 1 10)))) =
    [newline; "Deterministic Capture Zone Parameters: "; "base         = 0.00"; "conductivity = 1.00"; "porosity     = 0.25"; "recharge     = -0.0000e+00";
     newline; "Conic Discharge Potential Coefficients: "; "A = +0.0000e+00"; "B = +0.0000e+00"; "C = +0.0000e+00"; "D = +0.0000e+00"; "E = +0.0000e+00";
     "F = -1.0000e+00"; dry_warning; dry_warning; newline; "Capture Zone Area:"; "0 [m^2]"; "0.00 [acres]"].
Proof.
  split; [repeat (constructor; [first [exact I|vm_compute; reflexivity]|]); constructor|].
  split; [reflexivity|]. split; vm_compute; reflexivity.
Qed.

(** "A trace that ends early is reported in the log file": in this run, started as runme.py does, all four traces end at once,
    the run returns, no line of any file says so; the four warnings are on stderr. *)
Lemma c109_refuted : exists c out,
  main fresh (dry_args 2 10) "20261117T120000" (Ok tt) (dry 2 10) (f_of_Z 1) = (c, out, Ok tt) /\
  written_to Stderr out = [dry_warning; dry_warning; dry_warning; dry_warning] /\ List.length (written_to (File (log_file "20261117T120000")) out) = 91%nat /\
  (forall f, ~ In dry_warning (written_to (File f) out)).
Proof.
  destruct (c109_first (SF sqrt_libm) unit unit no_rng (fun (_ : unit) ev _ => ev) (fun _ => Ok tt) 50 dry_la (fun _ => tt) tt (dry_args 2 10)
              "20261117T120000" (f_of_Z 1)) as (c & out & r & M & Hr & W & WE & O).
  fold (dry 2 10) in *. exists c, out. split; [rewrite M; f_equal; rewrite Hr; vm_compute; reflexivity|].
  split; [rewrite WE; vm_compute; reflexivity|]. split; [rewrite W; vm_compute; reflexivity|]. intros f I.
  destruct (String.eqb_spec f (log_file "20261117T120000")) as [->|D]; [|rewrite (O f D) in I; exact I].
  rewrite W in I. assert (E : existsb (String.eqb dry_warning) (program_lines (dry 2 10) (f_of_Z 1)) = false) by (vm_compute; reflexivity).
  assert (existsb (String.eqb dry_warning) (program_lines (dry 2 10) (f_of_Z 1)) = true); [|congruence].
  apply existsb_exists. exists dry_warning. split; [exact I|apply String.eqb_refl].
Qed.

(** "The log file of a run holds the messages of that run": a stochastic run after a deterministic one, in one process, is
    logged into the file of the deterministic run too. *)
Definition first_call : call := {| c_args := dry_args 1 10; c_stamp := "20261117T120000"; c_run := dry 1 10; c_elapsed := f_of_Z 1 |}.
Definition second_call : call := {| c_args := dry_args 2 10; c_stamp := "20261117T120001"; c_run := dry 2 10; c_elapsed := f_of_Z 1 |}.
Lemma dry_kinds n d : Forall two_kinds (messages (fst (dry n d))).
Proof. apply c109_kinds. Qed.
Lemma calls_exist : forall ks stamps c, after_calls stamps c -> Forall (fun k => Forall two_kinds (messages (fst (c_run k)))) ks -> exists outs, calls c ks outs.
Proof.
  induction ks as [|k ks IH]; intros stamps c Hc HK; [exists []; constructor|]. inversion HK as [|x y K1 K2]; subst.
  destruct (main_writes stamps c k Hc K1) as (c' & out & r & M & Hc' & _). destruct (IH _ _ Hc' K2) as (outs & Ho).
  exists (out :: outs). econstructor; eassumption.
Qed.
Lemma c110_refuted : exists outs,
  calls fresh [first_call; second_call] outs /\ Forall two_kinds (messages (fst (c_run first_call))) /\ Forall two_kinds (messages (fst (c_run second_call))) /\
  In "nrealizations = 2 STOCHASTIC" (written_to (File (log_file (c_stamp first_call))) (concat outs)) /\
  ~ In "nrealizations = 2 STOCHASTIC" (program_lines (c_run first_call) (c_elapsed first_call)) /\
  written_to (File (log_file (c_stamp second_call))) (concat outs) = program_lines (c_run second_call) (c_elapsed second_call).
Proof.
  assert (HK : Forall (fun k => Forall two_kinds (messages (fst (c_run k)))) [first_call; second_call]).
  { constructor; [apply dry_kinds|]. constructor; [apply dry_kinds|]. constructor. }
  assert (HN : NoDup (map c_stamp [first_call; second_call])).
  { constructor; [intros [H|[]]; discriminate H|]. constructor; [intros []|constructor]. }
  destruct (calls_exist [first_call; second_call] [] fresh after_fresh HK) as (outs & Ho). exists outs.
  split; [exact Ho|]. split; [apply dry_kinds|]. split; [apply dry_kinds|].
  destruct (c110_calls _ outs 0 first_call HK HN Ho eq_refl) as (W & _). rewrite W. cbn [skipn flat_map]. rewrite app_nil_r.
  split; [|split].
  - apply in_or_app. right. assert (E : existsb (String.eqb "nrealizations = 2 STOCHASTIC") (program_lines (c_run second_call) (c_elapsed second_call)) = true)
      by (vm_compute; reflexivity).
    apply existsb_exists in E. destruct E as (x & I & E). apply String.eqb_eq in E. rewrite E. exact I.
  - intros I. assert (E : existsb (String.eqb "nrealizations = 2 STOCHASTIC") (program_lines (c_run first_call) (c_elapsed first_call)) = false)
      by (vm_compute; reflexivity).
    assert (existsb (String.eqb "nrealizations = 2 STOCHASTIC") (program_lines (c_run first_call) (c_elapsed first_call)) = true); [|congruence].
    apply existsb_exists. eexists. split; [exact I|apply String.eqb_refl].
  - exact (c110_last [first_call] outs second_call HK HN Ho).
Qed.

(** "The warning is true": a run with a negative duration, which [oneka] accepts, says twice that 0 is less than -10. *)
Lemma c111_refuted : snd (dry 1 (-10)) = Ok RNone /\ trace_lines (dry 1 (-10)) = [dry_warning; dry_warning] /\
  (forall (lm : libm) fuel xs ys D tol maxstep (f : vec spec_float -> res (vec spec_float)) tr,
     compute_backtrace (N := SF lm) fuel xs ys D tol maxstep f = Ok tr -> completed tr = false -> SFltb D (S754_zero false) = true -> SFltb (t_end tr) D = false).
Proof.
  split; [vm_compute; reflexivity|]. split; [vm_compute; reflexivity|].
  intros lm fuel xs ys D tol maxstep f tr H F HD. rewrite (c111_truth lm fuel xs ys D tol maxstep f tr H F).
  destruct D as [[|]|[|]| |[|] m e]; discriminate HD || reflexivity.
Qed.
(** For positive durations it is true; a trace that ends early after a vertex. *)
Definition half_dry (p : vec spec_float) : res (vec spec_float) :=
  if SFltb (f_of_Z 1) (fst p) then Raise AquiferError else Ok (f_of_Z 1, f_of_Z 0).
Lemma c111_example : exists tr, compute_backtrace (N := SF sqrt_libm) 100 (f_of_Z 0) (f_of_Z 0) (f_of_Z 10) (f_of_Z 1) (f_of_Z 10) half_dry = Ok tr /\
  completed tr = false /\ SFltb (S754_zero false) (t_end tr) = true /\ SFltb (t_end tr) (f_of_Z 10) = true /\ (1 < List.length (vertices tr))%nat.
Proof. eexists. split; [vm_compute; reflexivity|]. repeat split; vm_compute; try reflexivity. lia. Qed.
