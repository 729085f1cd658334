(** * Model of the printed forms of objects and of the messages of level DEBUG (binary64)

    probabilityfield.py:154-172, 220, 261 and model.py:199-204. *)
From Coq Require Import String Ascii SpecFloat.
From Verif Require Import Py Num ModelField ModelDist ModelMain ModelText ModelLog.
Local Open Scope string_scope.
Local Open Scope Z_scope.

(** probabilityfield.py:154-161, [__repr__].  Simplification: [deltax] and [deltay] are floats (an int prints without its
    point). *)
Definition field_repr (s : pfield spec_float) : string :=
  let short := "ProbabilityField(" ++ repr_float (deltax s) ++ ", " ++ repr_float (deltay s) ++ ")" in
  match body s with
  | None => short
  | Some g =>
      if nrows g =? 0 then short
      else "ProbabilityField(" ++ repr_float (deltax s) ++ ", " ++ repr_float (deltay s) ++ ", " ++
           fmt_d (nrows g) ++ ", " ++ fmt_d (ncols g) ++ ", " ++
           repr_float (xmin g) ++ ", " ++ repr_float (xmax g) ++ ", " ++ repr_float (ymin g) ++ ", " ++
           repr_float (ymax g) ++ ", " ++ repr_float (total_weight g) ++ ")"
  end.

(** probabilityfield.py:164-172, [__str__]; [weights] and [marks] are numpy's [repr] of the two arrays. *)
Definition field_str (weights : list (list spec_float) -> string) (marks : list (list bool) -> string) (s : pfield spec_float) : string :=
  let short := "ProbabilityField(" ++ repr_float (deltax s) ++ ", " ++ repr_float (deltay s) ++ ", " ++ fmt_d 0 ++ ", " ++
               fmt_d (match body s with None => 0 | Some g => ncols g end) ++ ")" in
  match body s with
  | None => short
  | Some g =>
      if nrows g =? 0 then short
      else "ProbabilityField(" ++ repr_float (deltax s) ++ ", " ++ repr_float (deltay s) ++ ", " ++
           fmt_d (nrows g) ++ ", " ++ fmt_d (ncols g) ++ ", " ++
           repr_float (xmin g) ++ ", " ++ repr_float (xmax g) ++ ", " ++ repr_float (ymin g) ++ ", " ++
           repr_float (ymax g) ++ ", " ++ repr_float (total_weight g) ++ ", " ++
           newline ++ weights (pgrid g) ++ ", " ++ newline ++ marks (rgrid g) ++ ")"
  end.

(** The attributes of a Model object in the order of the arguments of [__init__] (model.py:131-187). *)
Record model_object := { mo_base : val; mo_conductivity : val; mo_porosity : val; mo_thickness : val; mo_wells : val; mo_xo : val; mo_yo : val; mo_coef : val }.
(** model.py:199-204: [__repr__] and [__str__] of a model. *)
Definition model_repr (m : model_object) : string := model_text (mo_base m) (mo_conductivity m) (mo_porosity m) (mo_thickness m).

(** model.py:131-187: a call of [Model] with the positional arguments [l].  TypeError for a wrong number of them, ValueError for
    coefficients that are not six (np.reshape, model.py:194-196).  Simplification: coefficients are a flat list or tuple. *)
Definition zeros6 : val := PList (repeat (PFloat (f_of_Z 0)) 6).
Definition call_model (l : list val) : res model_object :=
  match l with
  | b :: k :: n :: h :: w :: r =>
      let mk x y c := {| mo_base := b; mo_conductivity := k; mo_porosity := n; mo_thickness := h; mo_wells := w; mo_xo := x; mo_yo := y; mo_coef := c |} in
      match r with
      | [] => Ok (mk (PInt 0) (PInt 0) zeros6)
      | [x] => Ok (mk x (PInt 0) zeros6)
      | [x; y] => Ok (mk x y zeros6)
      | [x; y; c] =>
          match c with
          | PList e | PTuple e => if (List.length e =? 6)%nat then Ok (mk x y c) else Raise ValueError
          | _ => Raise ValueError
          end
      | _ => Raise TypeError
      end
  | _ => Raise TypeError
  end.

(** probabilityfield.py:125-151: a call of [ProbabilityField] with the positional arguments [l].  Simplification: an int argument is
    read as the float of its value. *)
Definition as_float (v : val) : res spec_float :=
  match v with PInt z => Ok (f_of_Z z) | PFloat x => Ok x | PBool b => Ok (f_of_Z (if b then 1 else 0)) | _ => Raise TypeError end.
Definition call_field (lm : libm) (l : list val) : res (pfield spec_float) :=
  match l with
  | [dx; dy] => let! a := as_float dx in let! b := as_float dy in pf_init (N := SF lm) a b S754_nan S754_nan
  | [dx; dy; x] => let! a := as_float dx in let! b := as_float dy in let! c := as_float x in pf_init (N := SF lm) a b c S754_nan
  | [dx; dy; x; y] => let! a := as_float dx in let! b := as_float dy in let! c := as_float x in let! d := as_float y in pf_init (N := SF lm) a b c d
  | _ => Raise TypeError
  end.

(** probabilityfield.py:220 (the text is not an f-string) and 261: what [expand] says at level DEBUG when it takes the field
    [s] to [s']; nothing when it raises, since no grid has been replaced then. *)
Definition expand_debug (s s' : pfield spec_float) : list string :=
  match body s, body s' with
  | None, Some _ => ["grids expanded to ({self.nrows}, {self.ncols})."]
  | Some g, Some g' =>
      if negb (nrows g' =? nrows g) || negb (ncols g' =? ncols g)
      then [" grids expanded to (" ++ fmt_d (nrows g') ++ ", " ++ fmt_d (ncols g') ++ ")"]
      else []
  | _, None => []
  end.
