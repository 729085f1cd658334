(** * Printed forms and debug messages: C119, C120

    Written by tools/genprops.py: statements only, each closed by the lemma of the
    same name in ProofPrint.v, ProofDebug.v. *)
From Coq Require Import String Ascii SpecFloat ZArith List.
From Verif Require Import Py Num ModelField ModelDist ModelMain ModelText ModelLog ModelPrint SpecText SpecLog SpecPrint ProofPrint ProofDebug.
Import ListNotations.
Local Open Scope string_scope.
Local Open Scope Z_scope.

(** ** C119 The printed form of an object *)

(** A text is read as one call at most: it has one name and one list of arguments. *)
Theorem C119_reading : forall (text name name' : string) (l l' : list val),
  simple name -> simple name' -> Forall data l -> Forall data l' -> l <> [] -> l' <> [] ->
  reads text name l -> reads text name' l' -> name = name' /\ l = l'.
Proof. exact c119_reading. Qed.
Print Assumptions C119_reading.

(** An empty field that the constructor made is given back by the call that its repr reads as. *)
Theorem C119_empty_partial : forall (lm : libm) (dx dy x y : spec_float) (s : pfield spec_float),
  pf_init (N := SF lm) dx dy x y = Ok s -> body s = None -> numeral dx -> numeral dy ->
  rebuilds (call_field lm) "ProbabilityField" (field_repr s) s.
Proof. exact c119_empty_partial. Qed.
Print Assumptions C119_empty_partial.

(** Fields with grids have the same repr exactly if they have the same spacings, sizes, edges and total weight (it does not
    show the weights and marks of the nodes). *)
Theorem C119_fields_partial : forall (s t : pfield spec_float) (g h : geom spec_float),
  body s = Some g -> body t = Some h -> 0 < nrows g -> 0 < nrows h -> numeral_field s g -> numeral_field t h ->
  (field_repr s = field_repr t <->
   deltax s = deltax t /\ deltay s = deltay t /\ nrows g = nrows h /\ ncols g = ncols h /\
   xmin g = xmin h /\ xmax g = xmax h /\ ymin g = ymin h /\ ymax g = ymax h /\ total_weight g = total_weight h).
Proof. exact c119_fields_partial. Qed.
Print Assumptions C119_fields_partial.

(** The str of a field with grids is its repr with the two arrays added to the arguments. *)
Theorem C119_str_partial : forall (weights : list (list spec_float) -> string) (marks : list (list bool) -> string) (s : pfield spec_float) (g : geom spec_float),
  body s = Some g -> 0 < nrows g -> exists u, field_repr s = u ++ ")" /\
  field_str weights marks s = u ++ ", " ++ newline ++ weights (pgrid g) ++ ", " ++ newline ++ marks (rgrid g) ++ ")".
Proof. exact c119_str_partial. Qed.
Print Assumptions C119_str_partial.

(** The repr of a field with grids is not a call that gives it back: whatever call it is read as has the wrong number of
    arguments. *)
Theorem C119_field_refuted : forall (lm : libm) (s : pfield spec_float) (g : geom spec_float),
  body s = Some g -> 0 < nrows g -> numeral_field s g ->
  (exists l, Forall data l /\ reads (field_repr s) "ProbabilityField" l) /\
  forall l, Forall data l -> l <> [] -> reads (field_repr s) "ProbabilityField" l -> call_field lm l = Raise TypeError.
Proof. exact c119_field_refuted. Qed.
Print Assumptions C119_field_refuted.

(** The str of an empty field reads as the call that makes a field with nine nodes around the origin. *)
Theorem C119_empty_refuted : forall (lm : libm) (dx dy x y : spec_float) (s : pfield spec_float) (weights : list (list spec_float) -> string) (marks : list (list bool) -> string),
  pf_init (N := SF lm) dx dy x y = Ok s -> body s = None -> numeral dx -> numeral dy ->
  (exists l, Forall data l /\ reads (field_str weights marks s) "ProbabilityField" l) /\
  forall l, Forall data l -> l <> [] -> reads (field_str weights marks s) "ProbabilityField" l ->
    exists s' g, call_field lm l = Ok s' /\ body s' = Some g /\ nrows g = 3 /\ ncols g = 3.
Proof. exact c119_empty_refuted. Qed.
Print Assumptions C119_empty_refuted.

(** Models have the same text exactly if they have the same base, conductivity, porosity and thickness. *)
Theorem C119_models_partial : forall m m' : model_object,
  Forall data [mo_base m; mo_conductivity m; mo_porosity m; mo_thickness m] -> Forall data [mo_base m'; mo_conductivity m'; mo_porosity m'; mo_thickness m'] ->
  (model_repr m = model_repr m' <->
   mo_base m = mo_base m' /\ mo_conductivity m = mo_conductivity m' /\ mo_porosity m = mo_porosity m' /\ mo_thickness m = mo_thickness m').
Proof. exact c119_models_partial. Qed.
Print Assumptions C119_models_partial.

(** The text of a model is not a call that gives it back: the wells are missing, which have no default. *)
Theorem C119_model_refuted : forall m : model_object, Forall data [mo_base m; mo_conductivity m; mo_porosity m; mo_thickness m] ->
  (exists l, Forall data l /\ reads (model_repr m) "Model" l) /\
  forall l, Forall data l -> l <> [] -> reads (model_repr m) "Model" l -> call_model l = Raise TypeError.
Proof. exact c119_model_refuted. Qed.
Print Assumptions C119_model_refuted.

(** Arguments that are left out count as these; True and False count as the numbers 1 and 0. *)
Theorem C119_defaults : forall (lm : libm) (b k n h w x y dx dy : val),
  let o := PFloat (S754_zero false) in let six := PList [o; o; o; o; o; o] in
  (exists m, call_model [b; k; n; h; w] = Ok m /\ mo_coef m = six) /\
  call_model [b; k; n; h; w] = call_model [b; k; n; h; w; PInt 0] /\ call_model [b; k; n; h; w; x] = call_model [b; k; n; h; w; x; PInt 0] /\
  call_model [b; k; n; h; w; x; y] = call_model [b; k; n; h; w; x; y; six] /\
  call_field lm [dx; dy] = call_field lm [dx; dy; PFloat S754_nan] /\ call_field lm [dx; dy; x] = call_field lm [dx; dy; x; PFloat S754_nan] /\
  call_field lm [PBool true; dy; x; y] = call_field lm [PInt 1; dy; x; y] /\ call_field lm [dx; PBool false; x; y] = call_field lm [dx; PInt 0; x; y].
Proof. exact c119_defaults. Qed.
Print Assumptions C119_defaults.

Example C119_model_example : let w := PTuple [PInt 0; PInt 0; PFloat quarter; PInt 500] in
  call_model [PInt 0; PFloat (f_of_Z 25); PFloat quarter; PInt 20; PList [w]] = Ok (a_model [w]) /\
  Forall data [mo_base (a_model [w]); mo_conductivity (a_model [w]); mo_porosity (a_model [w]); mo_thickness (a_model [w])] /\
  model_repr (a_model [w]) = "Model(0, 25.0, 0.25, 20)" /\ model_repr (a_model []) = model_repr (a_model [w]) /\ a_model [] <> a_model [w].
Proof. exact c119_model_example. Qed.

Example C119_field_example : forall lm : libm, exists e s g,
  pf_init (N := SF lm) one_ quarter S754_nan S754_nan = Ok e /\ body e = None /\ numeral one_ /\ numeral quarter /\
  field_repr e = "ProbabilityField(1.0, 0.25)" /\ field_str (fun _ => "") (fun _ => "") e = "ProbabilityField(1.0, 0.25, 0, 0)" /\
  expand (N := SF lm) 5 e (f_of_Z 0) (f_of_Z 2) (f_of_Z 0) (f_of_Z 0) = (s, Ok tt) /\ body s = Some g /\ 0 < nrows g /\ numeral_field s g /\
  field_repr s = "ProbabilityField(1.0, 0.25, 3, 5, -1.0, 3.0, -0.25, 0.25, 0.0)".
Proof. exact c119_field_example. Qed.

(** ** C120 Debug messages of the grids *)

(** A field with grids says something exactly if its size changes, once, and what it says is the new size: another size has
    another text. *)
Theorem C120_size_partial : forall (lm : libm) (fuel : nat) (s s' : pfield spec_float) (g : geom spec_float) (x0 x1 y0 y1 : spec_float),
  expand (N := SF lm) fuel s x0 x1 y0 y1 = (s', Ok tt) -> body s = Some g ->
  exists g', body s' = Some g' /\ (expand_debug s s' = [] <-> nrows g' = nrows g /\ ncols g' = ncols g) /\
  forall line, In line (expand_debug s s') -> expand_debug s s' = [line] /\
    forall r c, reads line " grids expanded to " [PInt r; PInt c] <-> r = nrows g' /\ c = ncols g'.
Proof. exact c120_size_partial. Qed.
Print Assumptions C120_size_partial.

(** A field that fails to expand says nothing. *)
Theorem C120_failure : forall (lm : libm) (fuel : nat) (s s' : pfield spec_float) (x0 x1 y0 y1 : spec_float) (e : exn),
  expand (N := SF lm) fuel s x0 x1 y0 y1 = (s', Raise e) -> expand_debug s s' = [].
Proof. exact c120_failure. Qed.
Print Assumptions C120_failure.

(** The first grids of a field are announced by a text without their size: the same for grids of any size. *)
Theorem C120_first_refuted : forall lm : libm, exists e s s' g g',
  pf_init (N := SF lm) (f_of_Z 1) (f_of_Z 1) S754_nan S754_nan = Ok e /\
  expand (N := SF lm) 5 e (f_of_Z 0) (f_of_Z 0) (f_of_Z 0) (f_of_Z 0) = (s, Ok tt) /\ body s = Some g /\ nrows g = 3 /\ ncols g = 3 /\
  expand (N := SF lm) 5 e (f_of_Z 0) (f_of_Z 7) (f_of_Z 0) (f_of_Z 4) = (s', Ok tt) /\ body s' = Some g' /\ nrows g' = 7 /\ ncols g' = 10 /\
  expand_debug e s = ["grids expanded to ({self.nrows}, {self.ncols})."] /\ expand_debug e s' = expand_debug e s.
Proof. exact c120_first_refuted. Qed.
Print Assumptions C120_first_refuted.

(** A field of nine nodes that grows to the right says so once. *)
Example C120_example : forall lm : libm, exists s s' g g',
  pf_init (N := SF lm) (f_of_Z 1) (f_of_Z 1) (f_of_Z 0) (f_of_Z 0) = Ok s /\ body s = Some g /\
  expand (N := SF lm) 5 s (f_of_Z 0) (f_of_Z 2) (f_of_Z 0) (f_of_Z 0) = (s', Ok tt) /\ body s' = Some g' /\ nrows g' = nrows g /\ ncols g' <> ncols g /\
  expand_debug s s' = [" grids expanded to (3, 5)"].
Proof. exact c120_example. Qed.
