(** * Reading decimal text, independently of how the program writes it *)
From Coq Require Import Bool Reals String Ascii SpecFloat ZArith.
Local Open Scope string_scope.
Local Open Scope Z_scope.

(** A character as a decimal digit. *)
Definition digit_of (c : ascii) : option Z :=
  let n := Z.of_nat (nat_of_ascii c) in
  if (48 <=? n) && (n <=? 57) then Some (n - 48) else None.

(** Reads a string of digits with at most one point; [v] is the integer read so far, [d] the number of digits
    read after the point.  Commas before the point are skipped ([grouping] checks their places). *)
Fixpoint read_from (s : string) (v : Z) (d : option nat) : option (Z * nat) :=
  match s with
  | EmptyString => Some (v, match d with Some n => n | None => 0%nat end)
  | String c r =>
      match digit_of c with
      | Some x => read_from r (10 * v + x) (match d with Some n => Some (S n) | None => None end)
      | None =>
          match d with
          | None => if Ascii.eqb c "." then read_from r v (Some 0%nat)
                    else if Ascii.eqb c "," then read_from r v None else None
          | Some _ => None
          end
      end
  end.

(** A number as it is read from text: negative?, integer read without the point, digits after the point. *)
Record number := { n_neg : bool; n_int : Z; n_decimals : nat }.
Definition read_unsigned (neg : bool) (s : string) : option number :=
  match s with
  | String c _ =>
      match digit_of c with          (* begins with a digit *)
      | None => None
      | Some _ => match read_from s 0 None with
                  | Some (v, n) => Some {| n_neg := neg; n_int := v; n_decimals := n |}
                  | None => None
                  end
      end
  | EmptyString => None
  end.
(** Leading blanks, an optional sign, digits. *)
Fixpoint read (s : string) : option number :=
  match s with
  | EmptyString => None
  | String c r =>
      if Ascii.eqb c " " then read r
      else if Ascii.eqb c "-" then read_unsigned true r
      else if Ascii.eqb c "+" then read_unsigned false r
      else read_unsigned false s
  end.
(** Splits at the first [c]. *)
Fixpoint split_at (c : ascii) (s : string) : option (string * string) :=
  match s with
  | EmptyString => None
  | String a r => if Ascii.eqb a c then Some ("", r)
                  else match split_at c r with Some (u, v) => Some (String a u, v) | None => None end
  end.
(** mantissa e exponent *)
Definition read_e (s : string) : option (number * Z) :=
  match split_at "e" s with
  | Some (u, v) =>
      match read u, read v with
      | Some a, Some b => match n_decimals b with
                          | O => Some (a, if n_neg b then - n_int b else n_int b)
                          | S _ => None
                          end
      | _, _ => None
      end
  | None => None
  end.

Open Scope R_scope.
(** The real number that was read. *)
Definition magnitude (a : number) : R := IZR (n_int a) / 10 ^ n_decimals a.
Definition meaning (a : number) : R := if n_neg a then - magnitude a else magnitude a.

(** The value and the sign of a float. *)
Definition value (x : spec_float) : R :=
  match x with
  | S754_finite s m e => (if s then -1 else 1) * IZR (Zpos m) * powerRZ 2 e
  | _ => 0
  end.
Definition negative (x : spec_float) : bool :=
  match x with S754_zero s | S754_infinity s | S754_finite s _ _ => s | S754_nan => false end.
Definition finite (x : spec_float) : Prop :=
  match x with S754_zero _ | S754_finite _ _ _ => True | _ => False end.

(** [v] is the real [r] rounded to an integer, ties to even. *)
Definition rounded (r : R) (v : Z) : Prop :=
  Rabs (IZR v - r) <= 1 / 2 /\ (Rabs (IZR v - r) = 1 / 2 -> Z.even v = true).

(** Thousands are separated by commas: groups of one to three digits, then of exactly three. [k] counts the
    digits of the current group, [first] tells whether no comma was seen yet; the whole part ends at the point
    or the end of the text. *)
Fixpoint grouping (first : bool) (k : nat) (s : string) : Prop :=
  let full := if first then (1 <= k <= 3)%nat else k = 3%nat in
  match s with
  | EmptyString => full
  | String c r =>
      match digit_of c with
      | Some _ => grouping first (S k) r
      | None => if Ascii.eqb c "," then full /\ grouping false 0 r
                else if Ascii.eqb c "." then full else False
      end
  end.

(** The whole part has no superfluous zeros in front. *)
Definition no_leading_zero (s : string) : Prop :=
  match s with
  | String "0" (String c _) => digit_of c = None
  | _ => True
  end.

(** Only digits and a point. *)
Fixpoint plain (s : string) : Prop :=
  match s with
  | EmptyString => True
  | String c r => (digit_of c <> None \/ c = "."%char) /\ plain r
  end.

(** The text denotes [r], in positional or in scientific notation. *)
Definition denotes (s : string) (r : R) : Prop :=
  (exists a, read s = Some a /\ r = meaning a) \/
  (exists a k, read_e s = Some (a, k) /\ r = meaning a * powerRZ 10 k).
