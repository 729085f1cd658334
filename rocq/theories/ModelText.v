(** * Model of the text that the program writes: Python's format codes for numbers (binary64)

    The format strings of oneka.py, deterministic.py, stochastic.py, utilities.py and capturezone.py use the codes
    d, f (with precision, width, thousands separator), e (with precision and sign), s (with width and alignment) and
    the empty code ([str]).  Floats are binary64 numbers; their decimal expansion is exact, so the
    rounding to a number of digits is done on integers. *)
From Coq Require Import String Ascii SpecFloat.
From Verif Require Import Py Num ModelDist.
Local Open Scope string_scope.
Local Open Scope Z_scope.

(** ** Digits *)
Definition digit (d : Z) : ascii := ascii_of_nat (48 + Z.to_nat d).
(** The last [k] decimal digits of [n]. *)
Fixpoint digs (k : nat) (n : Z) : string :=
  match k with
  | O => ""
  | S k' => digs k' (n / 10) ++ String (digit (n mod 10)) ""
  end.
(** The number of decimal digits of [n >= 0] (at least 1). *)
Fixpoint ndigits_ (fuel : nat) (n : Z) : nat :=
  match fuel with
  | O => 1%nat
  | S f => if n <? 10 then 1%nat else S (ndigits_ f (n / 10))
  end.
Definition ndigits (n : Z) : nat := ndigits_ (Z.to_nat (Z.log2 n)) n.
(** [str(n)] for [n >= 0]. *)
Definition natural (n : Z) : string := digs (ndigits n) n.
(** ... with a comma between groups of three digits. *)
Fixpoint grouped_ (fuel : nat) (n : Z) : string :=
  match fuel with
  | O => natural n
  | S f => if n <? 1000 then natural n else grouped_ f (n / 1000) ++ "," ++ digs 3 (n mod 1000)
  end.
Definition grouped (n : Z) : string := grouped_ (Z.to_nat (Z.log2 n)) n.

(** [str(z)] and the code d. *)
Definition fmt_d (z : Z) : string := if z <? 0 then "-" ++ natural (- z) else natural z.
(** The code 03d for [z >= 0]. *)
Definition fmt_03d (z : Z) : string := if (ndigits z <? 3)%nat then digs 3 z else natural z.

(** ** Width and alignment *)
Fixpoint spaces (n : nat) : string := match n with O => "" | S n' => String " " (spaces n') end.
Fixpoint times (n : nat) (s : string) : string := match n with O => "" | S n' => s ++ times n' s end.
(** The codes wf, >ws, >wd: blanks on the left. *)
Definition pad (w : nat) (s : string) : string := spaces (w - String.length s) ++ s.
(** The code ^ws: half of the blanks (rounded down) on the left, the others on the right. *)
Definition center (w : nat) (s : string) : string :=
  let n := (w - String.length s)%nat in spaces (n / 2) ++ s ++ spaces (n - n / 2).

(** ** Floats *)
(** [num/den] rounded to an integer, ties to even. *)
Definition round_even (num den : Z) : Z :=
  let q := num / den in
  match (2 * (num mod den) ?= den) with
  | Lt => q
  | Gt => q + 1
  | Eq => if Z.even q then q else q + 1
  end.
(** [m 2^e 10^n] as a fraction, rounded. *)
Definition scaled (m : positive) (e n : Z) : Z :=
  round_even (Zpos m * 2 ^ Z.max e 0 * 10 ^ Z.max n 0) (2 ^ Z.max (- e) 0 * 10 ^ Z.max (- n) 0).

Definition sign_text (plus s : bool) : string := if s then "-" else if plus then "+" else "".

(** The code .nf (with + and ,). *)
Definition fixed_digits (comma : bool) (n : nat) (v : Z) : string :=
  let i := v / 10 ^ Z.of_nat n in
  (if comma then grouped i else natural i) ++
  (match n with O => "" | _ => "." ++ digs n (v mod 10 ^ Z.of_nat n) end).
Definition fmt_f (plus comma : bool) (n : nat) (x : spec_float) : string :=
  match x with
  | S754_nan => sign_text plus false ++ "nan"
  | S754_infinity s => sign_text plus s ++ "inf"
  | S754_zero s => sign_text plus s ++ fixed_digits comma n 0
  | S754_finite s m e => sign_text plus s ++ fixed_digits comma n (scaled m e (Z.of_nat n))
  end.

(** The decimal exponent: the largest [k] with [10^k <= m 2^e], found by counting down from an estimate. *)
Definition at_least (m : positive) (e k : Z) : bool :=
  (2 ^ Z.max (- e) 0 * 10 ^ Z.max k 0 <=? Zpos m * 2 ^ Z.max e 0 * 10 ^ Z.max (- k) 0).
Fixpoint find_exp (fuel : nat) (m : positive) (e k : Z) : Z :=
  match fuel with
  | O => k
  | S f => if at_least m e k then k else find_exp f m e (k - 1)
  end.
Definition decimal_exp (m : positive) (e : Z) : Z := find_exp 4 m e ((Z.log2 (Zpos m) + e) * 30103 / 100000 + 1).
(** Ten units of the first digit are one unit of the next power. *)
Definition carry (n : nat) (v k : Z) : Z * Z :=
  if (v =? 10 ^ (Z.of_nat n + 1)) then (10 ^ Z.of_nat n, k + 1) else (v, k).
(** [n+1] significant digits and the exponent, after rounding. *)
Definition significant (n : nat) (m : positive) (e : Z) : Z * Z :=
  let k := decimal_exp m e in carry n (scaled m e (Z.of_nat n - k)) k.
Definition exponent_text (k : Z) : string :=
  (if k <? 0 then "-" else "+") ++ (if Z.abs k <? 10 then digs 2 (Z.abs k) else natural (Z.abs k)).
(** The code .ne (with +). *)
Definition fmt_e (plus : bool) (n : nat) (x : spec_float) : string :=
  match x with
  | S754_nan => sign_text plus false ++ "nan"
  | S754_infinity s => sign_text plus s ++ "inf"
  | S754_zero s => sign_text plus s ++ fixed_digits false n 0 ++ "e+00"
  | S754_finite s m e =>
      let (v, k) := significant n m e in
      sign_text plus s ++ fixed_digits false n v ++ "e" ++ exponent_text k
  end.

(** ** repr of a float: the fewest significant digits that read back as the same number *)
(** The binary64 number nearest to [n 10^p]. *)
Definition of_decimal (s : bool) (n : positive) (p : Z) : spec_float :=
  let num := (Zpos n * 10 ^ Z.max p 0) in
  let den := 10 ^ Z.max (- p) 0 in
  match num, den with
  | Zpos a, Zpos b =>
      let '(mz, ez, lz) := SFdiv_core_binary fprec femax (Zpos a) 0 (Zpos b) 0 in
      binary_round_aux fprec femax s mz ez lz
  | _, _ => S754_nan
  end.
Definition same_float (x y : spec_float) : bool :=
  match x, y with
  | S754_zero a, S754_zero b => Bool.eqb a b
  | S754_infinity a, S754_infinity b => Bool.eqb a b
  | S754_nan, S754_nan => true
  | S754_finite a m e, S754_finite b m' e' => Bool.eqb a b && (Pos.eqb m m') && (Z.eqb e e')
  | _, _ => false
  end.
(** Does [v 10^p] read back as the number? *)
Definition reads_back (s : bool) (m : positive) (e : Z) (v p : Z) : bool :=
  match v with Zpos q => same_float (of_decimal s q p) (S754_finite s m e) | _ => false end.
(** The integer on the other side of [m 2^e 10^n] than [v]. *)
Definition other (m : positive) (e n v : Z) : Z :=
  if Zpos m * 2 ^ Z.max e 0 * 10 ^ Z.max n 0 <=? v * (2 ^ Z.max (- e) 0 * 10 ^ Z.max (- n) 0) then v - 1 else v + 1.
(** [n+1] significant digits that read back as the number, the nearest ones if possible. *)
Definition digits_for (s : bool) (m : positive) (e : Z) (n : nat) : option (Z * Z) :=
  let k := decimal_exp m e in
  let p := Z.of_nat n - k in
  let v := scaled m e p in
  if reads_back s m e v (- p) then Some (carry n v k)
  else let w := other m e p v in
       if reads_back s m e w (- p) then Some (carry n w k) else None.
(** The number of digits after the first (at most 16), the digits and the exponent. *)
Fixpoint shortest (fuel : nat) (s : bool) (m : positive) (e : Z) (n : nat) : nat * (Z * Z) :=
  match digits_for s m e n, fuel with
  | Some r, _ => (n, r)
  | None, O => (n, significant n m e)
  | None, S f => shortest f s m e (S n)
  end.
Definition repr_float (x : spec_float) : string :=
  match x with
  | S754_nan => "nan"
  | S754_infinity s => sign_text false s ++ "inf"
  | S754_zero s => sign_text false s ++ "0.0"
  | S754_finite s m e =>
      let '(n, (v, k)) := shortest 16 s m e 0 in
      sign_text false s ++
      (if (-4 <=? k) && (k <? 16) then
         (* positional: at least one digit after the point *)
         if k <? Z.of_nat n
         then fixed_digits false (Z.to_nat (Z.of_nat n - k)) v
         else natural (v * 10 ^ (k - Z.of_nat n)) ++ ".0"
       else
         fixed_digits false n v ++ "e" ++ exponent_text k)
  end.

(** ** str and repr of the values in an argument list *)
(** Quoted string, with Python's choice of the quote. *)
Definition special (q c : ascii) : bool := (Ascii.eqb c q || Ascii.eqb c "\")%bool.
Definition hex (n : nat) : ascii := if (n <? 10)%nat then ascii_of_nat (48 + n) else ascii_of_nat (87 + n).
Fixpoint escape (q : ascii) (s : string) : string :=
  match s with
  | EmptyString => ""
  | String c r =>
      (if special q c then String "\" (String c "")
       else match nat_of_ascii c with
            | 9%nat => "\t" | 10%nat => "\n" | 13%nat => "\r"
            | n => if ((n <? 32) || (n =? 127))%nat then String "\" (String "x" (String (hex (n / 16)) (String (hex (n mod 16)) "")))
                   else String c ""
            end) ++ escape q r
  end.
Fixpoint has (q : ascii) (s : string) : bool :=
  match s with EmptyString => false | String c r => (Ascii.eqb c q || has q r)%bool end.
Definition single : ascii := "'".
Definition double : ascii := ascii_of_nat 34.
Definition repr_str (s : string) : string :=
  let q := if (has single s && negb (has double s))%bool then double else single in
  String q (escape q s ++ String q "").

Fixpoint join (sep : string) (l : list string) : string :=
  match l with
  | [] => ""
  | [s] => s
  | s :: r => s ++ sep ++ join sep r
  end.
Fixpoint repr (v : pyval spec_float) : string :=
  match v with
  | PInt z => fmt_d z
  | PFloat x => repr_float x
  | PBool b => if b then "True" else "False"
  | PStr s => repr_str s
  | PNone => "None"
  | PTuple [a] => "(" ++ repr a ++ ",)"
  | PTuple l => "(" ++ join ", " (map repr l) ++ ")"
  | PList l => "[" ++ join ", " (map repr l) ++ "]"
  end.
(** The empty format code. *)
Definition str (v : pyval spec_float) : string := match v with PStr s => s | _ => repr v end.

(** The code d applied to an argument: ValueError for floats and strings, TypeError for None, tuples and lists. *)
Definition val_d (v : pyval spec_float) : res string :=
  match v with
  | PInt z => Ok (fmt_d z)
  | PBool b => Ok (if b then "1" else "0")
  | PFloat _ | PStr _ => Raise ValueError
  | _ => Raise TypeError
  end.
(** The code .nf applied to an argument: an integer is converted to float first (OverflowError). *)
Definition val_f (n : nat) (v : pyval spec_float) : res string :=
  match v with
  | PInt z => match f_of_Z z with S754_infinity _ => Raise OverflowError | x => Ok (fmt_f false false n x) end
  | PBool b => Ok (fmt_f false false n (f_of_Z (if b then 1 else 0)))
  | PFloat x => Ok (fmt_f false false n x)
  | PStr _ => Raise ValueError
  | _ => Raise TypeError
  end.
