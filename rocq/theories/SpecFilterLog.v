(** * What is asked of the messages of filter_obs *)
From Coq Require Import Reals String SpecFloat ZArith List.
From Verif Require Import Py Num ModelAquifer ModelDist SpecText.
Import ListNotations.
Local Open Scope string_scope.

(** The messages that begin with [p]. *)
Definition beginning (p : string) (lines : list string) : list string := filter (String.prefix p) lines.

(** An observation and a well, each with the value that is printed. *)
Definition near {N : Num spec_float} (buf : spec_float) (o : pyval spec_float * obs spec_float) (w : pyval spec_float * (spec_float * spec_float)) : Prop :=
  nle (nhypot (nsub (ox (snd o)) (fst (snd w))) (nsub (oy (snd o)) (snd (snd w)))) buf = true.

(** [t] is the index [i], with at least three digits. *)
Definition index_text (i : nat) (t : string) : Prop :=
  (3 <= String.length t)%nat /\ exists a, read t = Some a /\ meaning a = INR i /\ n_decimals a = 0%nat.
