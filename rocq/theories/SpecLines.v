(** * What is asked of the lines that the drivers and oneka write *)
From Coq Require Import Reals String Ascii SpecFloat ZArith List.
From Verif Require Import Py Num ModelAquifer SpecText SpecTable.
Import ListNotations.
Local Open Scope string_scope.

(** The parts of a text between commas. *)
Fixpoint parts (s : string) : list string :=
  match s with
  | EmptyString => [""]
  | String c r =>
      if Ascii.eqb c "," then "" :: parts r
      else match parts r with p :: ps => String c p :: ps | [] => [String c ""] end
  end.

(** The text is [x] rounded to [n+1] significant digits, with the sign of [x]. *)
Definition shows_e (n : nat) (t : string) (x : spec_float) : Prop :=
  exists v k, read_e t = Some ({| n_neg := negative x; n_int := v; n_decimals := n |}, k) /\
    (value x = 0%R -> v = 0%Z) /\
    (value x <> 0%R -> (10 ^ Z.of_nat n <= v < 10 ^ (Z.of_nat n + 1))%Z /\ rounded (Rabs (value x) * powerRZ 10 (Z.of_nat n - k)) v).

(** A binary64 number that is not infinite or NaN. *)
Definition normal (x : spec_float) : Prop := finite x /\ SpecFloat.valid_binary fprec femax x = true.

(** The six coefficients, in order. *)
Definition six_of (c : coef6 spec_float) : list spec_float := [cA c; cB c; cC c; cD c; cE c; cF c].

(** The three fields of a line of the table of capture probabilities. *)
Definition field_p (line : string) : string := substring 0 8 line.
Definition field_area (line : string) : string := substring 9 16 line.
Definition field_acres (line : string) : string := substring 26 16 line.

(** Small enough for the widths of the fields. *)
Definition fits_row (r : spec_float * spec_float * spec_float) : Prop :=
  let '(p, area, acres) := r in
  finite p /\ finite area /\ finite acres /\
  (Rabs (value p) <= 1)%R /\ (Rabs (value area) <= 999999999999)%R /\ (Rabs (value acres) <= 999999999)%R.
