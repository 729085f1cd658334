(** * Reading a string literal, independently of how the program writes it *)
From Coq Require Import Bool String Ascii.
Local Open Scope string_scope.

(** The character after a backslash, except x. *)
Definition unescaped (c : ascii) : ascii :=
  if Ascii.eqb c "n" then ascii_of_nat 10 else if Ascii.eqb c "t" then ascii_of_nat 9 else if Ascii.eqb c "r" then ascii_of_nat 13 else c.

Definition hex_value (c : ascii) : option nat :=
  let n := nat_of_ascii c in
  if (Nat.leb 48 n && Nat.leb n 57)%bool then Some (n - 48)%nat
  else if (Nat.leb 97 n && Nat.leb n 102)%bool then Some (n - 87)%nat else None.

(** The text after the opening quote [q]: it ends with the first [q] that no backslash escapes. *)
Fixpoint read_body (q : ascii) (s : string) : option string :=
  match s with
  | EmptyString => None
  | String c r =>
      if Ascii.eqb c q then match r with EmptyString => Some "" | _ => None end
      else if Ascii.eqb c "\" then
        match r with
        | String "x" (String a (String b t)) =>
            match hex_value a, hex_value b with
            | Some m, Some n => option_map (String (ascii_of_nat (16 * m + n))) (read_body q t)
            | _, _ => None
            end
        | String d t => option_map (String (unescaped d)) (read_body q t)
        | EmptyString => None
        end
      else option_map (String c) (read_body q r)
  end.

(** A literal in single or double quotes. *)
Definition read_literal (s : string) : option string :=
  match s with
  | String q r => if (Ascii.eqb q "'" || Ascii.eqb q (ascii_of_nat 34))%bool then read_body q r else None
  | EmptyString => None
  end.

Definition occurs (c : ascii) (s : string) : Prop := exists u v, s = u ++ String c v.
Definition blank (s : string) : Prop := forall c, occurs c s -> c = " "%char.
