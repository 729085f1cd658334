(** * Messages of level DEBUG (C120) *)
From Coq Require Import String Ascii SpecFloat ZArith Lia Bool.
From Verif Require Import Py Num ModelField ModelDist ModelMain ModelText ModelLog ModelPrint SpecText SpecLog SpecPrint ProofText ProofTextRepr ProofLog ProofPrint.
Import ListNotations.
Local Open Scope string_scope.
Local Open Scope Z_scope.

(** A field with grids says something exactly if its size changes, once, and what it says is the new size: another size has
    another text. *)
Lemma c120_size_partial : forall (lm : libm) (fuel : nat) (s s' : pfield spec_float) (g : geom spec_float) (x0 x1 y0 y1 : spec_float),
  expand (N := SF lm) fuel s x0 x1 y0 y1 = (s', Ok tt) -> body s = Some g ->
  exists g', body s' = Some g' /\ (expand_debug s s' = [] <-> nrows g' = nrows g /\ ncols g' = ncols g) /\
  forall line, In line (expand_debug s s') -> expand_debug s s' = [line] /\
    forall r c, reads line " grids expanded to " [PInt r; PInt c] <-> r = nrows g' /\ c = ncols g'.
Proof.
  intros lm fuel s s' g x0 x1 y0 y1 H Hb.
  assert (B : exists g', body s' = Some g').
  { unfold expand in H. rewrite Hb in H. destruct (nlt x1 x0); [congruence|]. destruct (nlt y1 y0); [congruence|].
    unfold update in H. destruct (expand_more _ _ _ _ _ _ _ _) as [g'|?|]; [|congruence|congruence]. exists g'. assert (s' = with_body s g') by congruence. subst. reflexivity. }
  destruct B as (g' & Hb'). exists g'. split; [exact Hb'|]. clear H. unfold expand_debug. rewrite Hb, Hb'.
  destruct (Z.eqb_spec (nrows g') (nrows g)) as [E1|E1], (Z.eqb_spec (ncols g') (ncols g)) as [E2|E2]; cbn [negb orb].
  1: { split; [split; auto|]. intros line []. }
  all: split; [split; [discriminate|intros [? ?]; contradiction]|]; intros line [<-|[]]; split; [reflexivity|]; intros r c; set (t := " grids expanded to (" ++ _);
    assert (R : reads t " grids expanded to " [PInt (nrows g'); PInt (ncols g')]) by (unfold reads, t; cbn [map repr join]; rewrite !app_assoc_s; reflexivity);
    (split; [intros Q|intros [-> ->]; exact R]);
    destruct (c119_reading t _ _ [PInt r; PInt c] [PInt (nrows g'); PInt (ncols g')] (no_paren " grids expanded to " eq_refl) (no_paren " grids expanded to " eq_refl) ltac:(repeat constructor) ltac:(repeat constructor) ltac:(discriminate) ltac:(discriminate) Q R) as [_ K];
    injection K as -> ->; auto.
Qed.
(** A field that fails to expand says nothing. *)
Lemma c120_failure : forall (lm : libm) (fuel : nat) (s s' : pfield spec_float) (x0 x1 y0 y1 : spec_float) (e : exn),
  expand (N := SF lm) fuel s x0 x1 y0 y1 = (s', Raise e) -> expand_debug s s' = [].
Proof.
  intros lm fuel s s' x0 x1 y0 y1 e H.
  assert (s' = s).
  { unfold expand in H. destruct (nlt x1 x0); [congruence|]. destruct (nlt y1 y0); [congruence|]. destruct (body s); unfold update in H; destruct (_ : res _) in H; congruence. }
  subst s'. unfold expand_debug. destruct (body s); [|reflexivity]. now rewrite !Z.eqb_refl.
Qed.
(** The first grids of a field are announced by a text without their size: the same for grids of any size. *)
Lemma c120_first_refuted : forall lm : libm, exists e s s' g g',
  pf_init (N := SF lm) (f_of_Z 1) (f_of_Z 1) S754_nan S754_nan = Ok e /\
  expand (N := SF lm) 5 e (f_of_Z 0) (f_of_Z 0) (f_of_Z 0) (f_of_Z 0) = (s, Ok tt) /\ body s = Some g /\ nrows g = 3 /\ ncols g = 3 /\
  expand (N := SF lm) 5 e (f_of_Z 0) (f_of_Z 7) (f_of_Z 0) (f_of_Z 4) = (s', Ok tt) /\ body s' = Some g' /\ nrows g' = 7 /\ ncols g' = 10 /\
  expand_debug e s = ["grids expanded to ({self.nrows}, {self.ncols})."] /\ expand_debug e s' = expand_debug e s.
Proof. intros lm. do 5 eexists. repeat (split; [vm_compute; reflexivity|]). reflexivity. Qed.
(** A field of nine nodes that grows to the right says so once. *)
Lemma c120_example : forall lm : libm, exists s s' g g',
  pf_init (N := SF lm) (f_of_Z 1) (f_of_Z 1) (f_of_Z 0) (f_of_Z 0) = Ok s /\ body s = Some g /\
  expand (N := SF lm) 5 s (f_of_Z 0) (f_of_Z 2) (f_of_Z 0) (f_of_Z 0) = (s', Ok tt) /\ body s' = Some g' /\ nrows g' = nrows g /\ ncols g' <> ncols g /\
  expand_debug s s' = [" grids expanded to (3, 5)"].
Proof. intros lm. do 4 eexists. repeat (split; [vm_compute; first [reflexivity|discriminate]|]). vm_compute. reflexivity. Qed.
