(** * Python control flow: exceptions as values, loops, list indexing. *)
From Coq Require Export List ZArith Bool Lia.
Export ListNotations.
Set Implicit Arguments.

(** The exceptions that the modelled code can raise.
    RangeError/AquiferError: /repo/oneka/model.py:51-58 and
    /repo/oneka/probabilityfield.py:47-49; DistributionError:
    /repo/oneka/stochastic.py:70-72; CaptureZoneError:
    /repo/oneka/visualize.py:61-63.  The others are Python's and numpy's. *)
Inductive exn : Set :=
| RangeError | AquiferError | DistributionError | CaptureZoneError
| ValueError | OverflowError | ZeroDivisionError | AttributeError
| NameError | TypeError | IndexError | AssertionError | LinAlgError.

Definition exn_eq_dec (a b : exn) : {a = b} + {a <> b}.
Proof. decide equality. Defined.

(** Result of running Python code: a value, an exception, or "the fuel given
    to some loop did not suffice" (never a value the real code could return). *)
Inductive res (A : Type) : Type :=
| Ok (a : A)
| Raise (e : exn)
| NoFuel.
Arguments Raise {A} e.
Arguments NoFuel {A}.

Definition bind {A B} (m : res A) (k : A -> res B) : res B :=
  match m with Ok a => k a | Raise e => Raise e | NoFuel => NoFuel end.

Declare Scope py_scope.
Delimit Scope py_scope with py.
Notation "'let!' x ':=' m 'in' k" := (bind m (fun x => k))
  (at level 200, x pattern, m at level 100, k at level 200, right associativity) : py_scope.
Open Scope py_scope.

(** [for x in l: s = body(x, s)], stopping at the first exception. *)
Fixpoint for_in {A S} (l : list A) (body : A -> S -> res S) (s : S) : res S :=
  match l with
  | [] => Ok s
  | a :: l' => let! s' := body a s in for_in l' body s'
  end.

(** [[f(x) for x in l]] with exceptions. *)
Fixpoint map_res {A B} (f : A -> res B) (l : list A) : res (list B) :=
  match l with
  | [] => Ok []
  | a :: l' => let! b := f a in let! bs := map_res f l' in Ok (b :: bs)
  end.

(** [np.arange(a, b)] / [range(a, b)] for integers. *)
Definition zrange (a b : Z) : list Z :=
  map (fun k => (a + Z.of_nat k)%Z) (seq 0 (Z.to_nat (b - a))).

(** List element update; out-of-range leaves the list unchanged (callers check). *)
Fixpoint list_set {A} (l : list A) (n : nat) (v : A) : list A :=
  match l, n with
  | [], _ => []
  | _ :: l', O => v :: l'
  | x :: l', S n' => x :: list_set l' n' v
  end.

(** 2-D array read and write with integer indices [a[i, j]]: [None] when out of
    range.  Negative indices (which Python would wrap) are treated as out of
    range; the modelled code never uses them. *)
Definition get2 {A} (a : list (list A)) (i j : Z) : option A :=
  if (i <? 0)%Z || (j <? 0)%Z then None
  else match nth_error a (Z.to_nat i) with
       | None => None
       | Some row => nth_error row (Z.to_nat j)
       end.

Definition set2 {A} (a : list (list A)) (i j : Z) (v : A) : list (list A) :=
  match nth_error a (Z.to_nat i) with
  | None => a
  | Some row => list_set a (Z.to_nat i) (list_set row (Z.to_nat j) v)
  end.

(** [np.zeros((n, m))]-like constant array. *)
Definition const2 {A} (n m : Z) (v : A) : list (list A) :=
  repeat (repeat v (Z.to_nat m)) (Z.to_nat n).
