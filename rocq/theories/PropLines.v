(** * Lines written by the drivers and at the end of a run: C102

    Written by tools/genprops.py: statements only, each closed by the lemma of the
    same name in ProofLines.v. *)
From Coq Require Import Reals String Ascii SpecFloat ZArith.
From Verif Require Import Py Num ModelAquifer ModelDist ModelObs ModelText ModelLog SpecText SpecTable SpecLines ProofText ProofLines.
Import ListNotations.
Local Open Scope string_scope.
Local Open Scope Z_scope.

(** ** C102 The logged results can be read back *)

(** The three lines about a realization show its number, the base, the conductivity, porosity and thickness to two decimals,
    the recharge and the coefficients (expected and drawn) to five significant digits, in this order. *)
Theorem C102_realization : forall i base k n h recharge ev drawn,
  Forall finite [base; k; n; h] -> Forall normal (recharge :: six_of ev ++ six_of drawn) ->
  exists number values first others,
    realization_text i base k n h recharge ev drawn =
      ["Realization #" ++ number ++ ": " ++ values; "    coef ev:  (" ++ first ++ ")"; "    coef rng: (" ++ others ++ ")"] /\
    (exists a, read number = Some a /\ meaning a = IZR i /\ n_decimals a = 0%nat) /\
    Forall2 (shows 2) (firstn 4 (parts values)) [base; k; n; h] /\ Forall2 (shows_e 4) (skipn 4 (parts values)) [recharge] /\
    Forall2 (shows_e 4) (parts first) (six_of ev) /\ Forall2 (shows_e 4) (parts others) (six_of drawn).
Proof. exact c102_realization. Qed.
Print Assumptions C102_realization.

(** The parameters and coefficients that the deterministic driver logs. *)
Theorem C102_deterministic : forall base k n recharge c,
  Forall finite [base; k; n] -> Forall normal (recharge :: six_of c) ->
  exists tb tk tn tr ts,
    deterministic_text base k n recharge c =
      List.app [newline; "Deterministic Capture Zone Parameters: "; "base         = " ++ tb; "conductivity = " ++ tk; "porosity     = " ++ tn;
                "recharge     = " ++ tr; newline; "Conic Discharge Potential Coefficients: "]
               (map (fun '(name, t) => name ++ " = " ++ t) (combine ["A"; "B"; "C"; "D"; "E"; "F"] ts)) /\
    shows 2 tb base /\ shows 2 tk k /\ shows 2 tn n /\ shows_e 4 tr recharge /\ Forall2 (shows_e 4) ts (six_of c).
Proof. exact c102_deterministic. Qed.
Print Assumptions C102_deterministic.

(** The table of capture probabilities has one line for each level, in order, after five lines of heading and before the rule;
    its three fields show the probability to three decimals, the area to the unit and the acres to two decimals. *)
Theorem C102_deciles : forall rows, Forall fits_row rows ->
  List.length (deciles_text rows) = (List.length rows + 6)%nat /\
  forall i p area acres, nth_error rows i = Some (p, area, acres) ->
    exists line, nth_error (deciles_text rows) (5 + i) = Some line /\ String.length line = 42%nat /\
      shows 3 (field_p line) p /\ shows 0 (field_area line) area /\ shows 2 (field_acres line) acres.
Proof. exact c102_deciles. Qed.
Print Assumptions C102_deciles.

(** The area of the deterministic capture zone, to the unit, and in acres, to two decimals. *)
Theorem C102_area : forall area, finite area ->
  exists t u, area_text area = [newline; "Capture Zone Area:"; t ++ " [m^2]"; u ++ " [acres]"] /\ shows 0 t area /\
    (finite (SFdiv fprec femax area (SFdiv fprec femax (f_of_Z 404686) (f_of_Z 100))) ->
     shows 2 u (SFdiv fprec femax area (SFdiv fprec femax (f_of_Z 404686) (f_of_Z 100)))).
Proof. exact c102_area. Qed.
Print Assumptions C102_area.

Example C102_lines_example : Forall finite [tenth 0; tenth 205; tenth 2; f_of_Z 30] /\ Forall normal (tenth 1 :: six_of sample_coef ++ six_of sample_coef) /\
  realization_text 7 (tenth 0) (tenth 205) (tenth 2) (f_of_Z 30) (tenth 1) sample_coef sample_coef =
    [ "Realization #7: 0.00, 20.50, 0.20, 30.00, 1.0000e-01";
      "    coef ev:  (-3.0000e-01, +2.5000e+00, +0.0000e+00, +7.0000e-01, -1.2000e+01, +1.2346e+05)";
      "    coef rng: (-3.0000e-01, +2.5000e+00, +0.0000e+00, +7.0000e-01, -1.2000e+01, +1.2346e+05)" ] /\
  Forall fits_row [(tenth 1, f_of_Z 1234567, tenth 3051); (tenth 9, f_of_Z 0, f_of_Z 0)] /\
  map decile_line [(tenth 1, f_of_Z 1234567, tenth 3051); (tenth 9, f_of_Z 0, f_of_Z 0)] =
    [ "   0.100        1,234,567           305.10"; "   0.900                0             0.00" ] /\
  area_text (f_of_Z 1234567) = [newline; "Capture Zone Area:"; "1234567 [m^2]"; "305.07 [acres]"].
Proof. exact c102_lines_example. Qed.
