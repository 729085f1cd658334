(** * What filter_obs writes to the log: C101

    Written by tools/genprops.py: statements only, each closed by the lemma of the
    same name in ProofFilterLog.v. *)
From Coq Require Import Reals String Ascii SpecFloat ZArith Permutation.
From Verif Require Import Py Num ModelAquifer ModelDist ModelObs ModelText ModelLog SpecText SpecFilterLog ProofText ProofFilterLog.
Import ListNotations.
Local Open Scope string_scope.

(** ** C101 The log accounts for every observation *)

(** The observations that the logged filter returns, and its exceptions, are those of filter_obs. *)
Theorem C101_result : forall (N : Num spec_float) (l : list tobs) (ws : list twell) buf,
  match filter_obs (map snd l) (map snd ws) buf with
  | Ok k => exists out, snd (filter_text l ws buf) = Ok out /\ map snd out = k
  | Raise e => snd (filter_text l ws buf) = Raise e
  | NoFuel => snd (filter_text l ws buf) = NoFuel
  end.
Proof. exact c101_result. Qed.
Print Assumptions C101_result.

(** Every observation that is given is removed (with a message that names it and a well within the buffer), or merged
    (with a message), or retained as it is; what is returned are these and the averages (with a message each). The
    messages end with the number and the list of what is returned, in order, numbered from 0. *)
Theorem C101_accounts : forall (N : Num spec_float) (l : list tobs) (ws : list twell) buf lines out, filter_text l ws buf = (lines, Ok out) ->
  exists removed wells dups kept avgs,
    Permutation l (removed ++ dups ++ kept) /\ Permutation out (kept ++ avgs) /\ (List.length avgs <= List.length dups)%nat /\
    Forall2 (fun o w => In w ws /\ near buf o w) removed wells /\
    Forall (fun o => forall w, In w ws -> ~ near buf o w) (dups ++ kept) /\
    beginning "observation removed: " lines =
      map (fun '(o, w) => "observation removed: " ++ str (fst o) ++ " is too close to " ++ str (fst w)) (combine removed wells) /\
    beginning "    duplicate observation: " lines = map (fun o => "    duplicate observation: " ++ str (fst o)) dups /\
    beginning "averaged observation created: " lines = map (fun o => "averaged observation created: " ++ str (fst o)) avgs /\
    (exists n, beginning "active observations: " lines = ["active observations: " ++ n] /\
       exists a, read n = Some a /\ meaning a = INR (List.length out) /\ n_decimals a = 0%nat) /\
    List.length (beginning "     [" lines) = List.length out /\
    forall i o, nth_error out i = Some o ->
      exists t, nth_error (beginning "     [" lines) i = Some ("     [" ++ t ++ "] " ++ str (fst o)) /\ index_text i t.
Proof. exact c101_accounts. Qed.
Print Assumptions C101_accounts.

Example C101_example : fst (@filter_text (SF sqrt_libm) some_obs [a_well] (f_of_Z 5)) =
  (["observation removed: (3, 4, 10.0, 1.0) is too close to (0, 0, 1.0, 300)";
    "    duplicate observation: (100, 7, 10.0, 1.0)";
    "    duplicate observation: (100, 7, 20.0, 1.0)";
    "averaged observation created: (100, 7, 15.0, 0.7071067811865476)";
    "";
    "active observations: 2";
    "     [000] (100, 7, 15.0, 0.7071067811865476)";
    "     [001] (200, -7, 5.0, 2.0)";
    "";
    "Note: the index numbers associated with these active";
    "      observations may differ from the original index";
    "      numbers. This is a consequence of averaging ";
    "      duplicates and deleting observations near wellfield.";
    "      These new index numbers are used in the subsequent";
    "      reporting. Be aware!"])%list /\
  snd (@filter_text (SF sqrt_libm) some_obs [a_well] (f_of_Z 5)) =
    Ok [ (PTuple [PInt 100; PInt 7; PFloat (f_of_Z 15); PFloat (SFsqrt fprec femax (SFdiv fprec femax (f_of_Z 1) (f_of_Z 2)))],
          {| ox := f_of_Z 100; oy := f_of_Z 7; oz := f_of_Z 15; os := SFsqrt fprec femax (SFdiv fprec femax (f_of_Z 1) (f_of_Z 2)) |});
         an_obs 200 (-7) 5 2 ].
Proof. exact c101_example. Qed.

(** A standard deviation of zero in a group stops the filter; the messages up to there are written. *)
Example C101_zero_example : @filter_text (SF sqrt_libm) [an_obs 3 4 10 1; an_obs 100 7 10 1; an_obs 100 7 20 0] [a_well] (f_of_Z 5) =
  (["observation removed: (3, 4, 10.0, 1.0) is too close to (0, 0, 1.0, 300)"; "    duplicate observation: (100, 7, 10.0, 1.0)"],
   Raise ZeroDivisionError).
Proof. exact c101_zero_example. Qed.
