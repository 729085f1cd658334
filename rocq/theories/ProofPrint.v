(** * Printed forms of objects (C119) and messages of level DEBUG (C120) *)
From Coq Require Import String Ascii SpecFloat ZArith Lia Bool.
From Verif Require Import Py Num ModelField ModelDist ModelMain ModelText ModelLog ModelPrint SpecText SpecLog SpecPrint ProofText ProofTextRepr ProofLog.
Import ListNotations.
Local Open Scope string_scope.
Local Open Scope Z_scope.

Lemma name_injective : forall n n' r r', simple n -> simple n' -> n ++ String "(" r = n' ++ String "(" r' -> n = n' /\ r = r'.
Proof.
  induction n as [|c n IH]; intros [|c' n'] r r' H H' E.
  - split; [reflexivity|]. now apply (open_injective "(") in E.
  - exfalso. change (String "(" r = String c' (n' ++ String "(" r')) in E. inversion E; subst. exact (H' "" n' eq_refl).
  - exfalso. change (String c (n ++ String "(" r) = String "(" r') in E. inversion E; subst. exact (H "" n eq_refl).
  - change (String c (n ++ String "(" r) = String c' (n' ++ String "(" r')) in E. assert (E1 : c = c') by congruence. assert (E2 : n ++ String "(" r = n' ++ String "(" r') by congruence. subst c'.
    destruct (IH n' r r') as [-> ->]; [intros u v K; apply (H (String c u) v); cbn; now rewrite K|intros u v K; apply (H' (String c u) v); cbn; now rewrite K|exact E2|auto].
Qed.

(** A text is read as one call at most: it has one name and one list of arguments. *)
Lemma c119_reading : forall (text name name' : string) (l l' : list val),
  simple name -> simple name' -> Forall data l -> Forall data l' -> l <> [] -> l' <> [] ->
  reads text name l -> reads text name' l' -> name = name' /\ l = l'.
Proof.
  intros text name name' l l' Hn Hn' Hl Hl' N N' E E'. unfold reads in *. rewrite E in E'. clear E text.
  destruct (name_injective _ _ _ _ Hn Hn' E') as [-> K]. split; [reflexivity|].
  assert (D : Forall decodes l) by (clear; induction l; constructor; [apply all_decode|assumption]).
  destruct (items_injective ")" (or_introl eq_refl) l D Hl l' "" "" Hl' N N' K) as [-> _]. reflexivity.
Qed.

Definition field_name : string := "ProbabilityField".
Definition model_name : string := "Model".
Lemma no_paren n : forallb (fun c => negb (Ascii.eqb c "(")) (list_ascii_of_string n) = true -> simple n.
Proof.
  intros H u v ->. revert H. induction u as [|c u IH]; cbn; [discriminate|]. intros H. apply andb_prop in H. now apply IH.
Qed.
Lemma field_simple : simple field_name. Proof. now apply no_paren. Qed.
Lemma model_simple : simple model_name. Proof. now apply no_paren. Qed.
Lemma numeral_data x : numeral x -> data (PFloat x).
Proof. intros [_ H]. now constructor. Qed.

(** ** Fields *)
Definition field_args (s : pfield spec_float) (g : geom spec_float) : list val :=
  [PFloat (deltax s); PFloat (deltay s); PInt (nrows g); PInt (ncols g); PFloat (xmin g); PFloat (xmax g); PFloat (ymin g); PFloat (ymax g); PFloat (total_weight g)].
Lemma field_reads s g : body s = Some g -> nrows g <> 0 -> reads (field_repr s) field_name (field_args s g).
Proof.
  intros Hb Hn. unfold reads, field_repr, field_args, field_name. rewrite Hb. destruct (Z.eqb_spec (nrows g) 0); [contradiction|].
  cbn [map repr join]. rewrite !app_assoc_s. reflexivity.
Qed.
Lemma field_data s g : numeral_field s g -> Forall data (field_args s g).
Proof.
  unfold numeral_field, field_args. intros H.
  repeat match goal with K : Forall _ (_ :: _) |- _ => apply Forall_cons_iff in K; destruct K as [? K] end.
  repeat (apply Forall_cons; [first [now apply numeral_data|constructor]|]). constructor.
Qed.

(** An empty field that the constructor made is given back by the call that its repr reads as. *)
Lemma c119_empty_partial : forall (lm : libm) (dx dy x y : spec_float) (s : pfield spec_float),
  pf_init (N := SF lm) dx dy x y = Ok s -> body s = None -> numeral dx -> numeral dy ->
  rebuilds (call_field lm) "ProbabilityField" (field_repr s) s.
Proof.
  intros lm dx dy x y s H Hb Hx Hy. exists [PFloat dx; PFloat dy]. split; [repeat constructor; [apply Hx|apply Hy]|].
  unfold pf_init in H. destruct (nle dx _) eqn:E1 in H; [discriminate|]. destruct (nle dy _) eqn:E2 in H; [discriminate|].
  destruct (_ || _) in H.
  - injection H as <-. split; [unfold reads, field_repr; cbn [body deltax deltay map repr join]; now rewrite !app_assoc_s|].
    cbn [call_field as_float bind]. unfold pf_init. rewrite E1, E2. reflexivity.
  - injection H as <-. discriminate.
Qed.

(** Fields with grids have the same repr exactly if they have the same spacings, sizes, edges and total weight (it does not
    show the weights and marks of the nodes). *)
Lemma c119_fields_partial : forall (s t : pfield spec_float) (g h : geom spec_float),
  body s = Some g -> body t = Some h -> 0 < nrows g -> 0 < nrows h -> numeral_field s g -> numeral_field t h ->
  (field_repr s = field_repr t <->
   deltax s = deltax t /\ deltay s = deltay t /\ nrows g = nrows h /\ ncols g = ncols h /\
   xmin g = xmin h /\ xmax g = xmax h /\ ymin g = ymin h /\ ymax g = ymax h /\ total_weight g = total_weight h).
Proof.
  intros s t g h Hs Ht Ng Nh Fs Ft. pose proof (field_reads s g Hs ltac:(lia)) as Rs. pose proof (field_reads t h Ht ltac:(lia)) as Rt. split.
  - intros E. rewrite E in Rs.
    destruct (c119_reading _ _ _ _ _ field_simple field_simple (field_data s g Fs) (field_data t h Ft) ltac:(discriminate) ltac:(discriminate) Rs Rt) as [_ K].
    unfold field_args in K. injection K as -> -> -> -> -> -> -> -> ->. repeat split.
  - intros (E1 & E2 & E3 & E4 & E5 & E6 & E7 & E8 & E9). unfold reads in *. rewrite Rs, Rt. unfold field_args. now rewrite E1, E2, E3, E4, E5, E6, E7, E8, E9.
Qed.

(** The str of a field with grids is its repr with the two arrays added to the arguments. *)
Lemma c119_str_partial : forall (weights : list (list spec_float) -> string) (marks : list (list bool) -> string) (s : pfield spec_float) (g : geom spec_float),
  body s = Some g -> 0 < nrows g -> exists u, field_repr s = u ++ ")" /\
  field_str weights marks s = u ++ ", " ++ newline ++ weights (pgrid g) ++ ", " ++ newline ++ marks (rgrid g) ++ ")".
Proof.
  intros weights marks s g Hb Hn. exists ("ProbabilityField(" ++ join ", " (map repr (field_args s g))). unfold field_repr, field_str. rewrite Hb. destruct (Z.eqb_spec (nrows g) 0); [lia|].
  unfold field_args. cbn [map repr join]. rewrite !app_assoc_s. split; reflexivity.
Qed.

(** The repr of a field with grids is not a call that gives it back: whatever call it is read as has the wrong number of
    arguments. *)
Lemma c119_field_refuted : forall (lm : libm) (s : pfield spec_float) (g : geom spec_float),
  body s = Some g -> 0 < nrows g -> numeral_field s g ->
  (exists l, Forall data l /\ reads (field_repr s) "ProbabilityField" l) /\
  forall l, Forall data l -> l <> [] -> reads (field_repr s) "ProbabilityField" l -> call_field lm l = Raise TypeError.
Proof.
  intros lm s g Hb Hn Hf. pose proof (field_reads s g Hb ltac:(lia)) as Rs. split; [exists (field_args s g); split; [now apply field_data|exact Rs]|].
  intros l Hl Nl Rl. destruct (c119_reading _ _ _ _ _ field_simple field_simple Hl (field_data s g Hf) Nl ltac:(discriminate) Rl Rs) as [_ ->]. reflexivity.
Qed.

(** The str of an empty field reads as the call that makes a field with nine nodes around the origin. *)
Lemma c119_empty_refuted : forall (lm : libm) (dx dy x y : spec_float) (s : pfield spec_float) (weights : list (list spec_float) -> string) (marks : list (list bool) -> string),
  pf_init (N := SF lm) dx dy x y = Ok s -> body s = None -> numeral dx -> numeral dy ->
  (exists l, Forall data l /\ reads (field_str weights marks s) "ProbabilityField" l) /\
  forall l, Forall data l -> l <> [] -> reads (field_str weights marks s) "ProbabilityField" l ->
    exists s' g, call_field lm l = Ok s' /\ body s' = Some g /\ nrows g = 3 /\ ncols g = 3.
Proof.
  intros lm dx dy x y s weights marks H Hb Hx Hy. set (a := [PFloat dx; PFloat dy; PInt 0; PInt 0]).
  assert (Da : Forall data a) by (repeat (apply Forall_cons; [first [now apply numeral_data|constructor]|]); constructor).
  unfold pf_init in H. destruct (nle dx _) eqn:E1 in H; [discriminate|]. destruct (nle dy _) eqn:E2 in H; [discriminate|].
  assert (Rs : reads (field_str weights marks s) field_name a).
  { destruct (_ || _) in H; injection H as <-; [|discriminate]. unfold reads, field_str, field_name. cbn [body deltax deltay]. cbn [map repr join a]. now rewrite !app_assoc_s. }
  split; [exists a; split; [exact Da|exact Rs]|].
  intros l Hl Nl Rl. destruct (c119_reading _ _ _ _ _ field_simple field_simple Hl Da Nl ltac:(discriminate) Rl Rs) as [_ ->].
  unfold a. cbn [call_field as_float bind]. unfold pf_init. rewrite E1, E2. cbn [orb]. eexists. eexists. split; [reflexivity|]. repeat split.
Qed.

(** ** Models *)
Definition model_args (m : model_object) : list val := [mo_base m; mo_conductivity m; mo_porosity m; mo_thickness m].
Lemma model_reads m : Forall data (model_args m) -> reads (model_repr m) model_name (model_args m).
Proof.
  unfold reads, model_repr, model_text, model_args, model_name. intros H.
  repeat match goal with K : Forall _ (_ :: _) |- _ => apply Forall_cons_iff in K; destruct K as [? K] end.
  rewrite !str_data by assumption. cbn [map join]. rewrite !app_assoc_s. reflexivity.
Qed.
(** Models have the same text exactly if they have the same base, conductivity, porosity and thickness. *)
Lemma c119_models_partial : forall m m' : model_object,
  Forall data [mo_base m; mo_conductivity m; mo_porosity m; mo_thickness m] -> Forall data [mo_base m'; mo_conductivity m'; mo_porosity m'; mo_thickness m'] ->
  (model_repr m = model_repr m' <->
   mo_base m = mo_base m' /\ mo_conductivity m = mo_conductivity m' /\ mo_porosity m = mo_porosity m' /\ mo_thickness m = mo_thickness m').
Proof.
  intros m m' H H'. pose proof (model_reads m H) as Rm. pose proof (model_reads m' H') as Rm'. split.
  - intros E. rewrite E in Rm. destruct (c119_reading _ _ _ _ _ model_simple model_simple H H' ltac:(discriminate) ltac:(discriminate) Rm Rm') as [_ K]. injection K as -> -> -> ->. repeat split.
  - intros (E1 & E2 & E3 & E4). unfold model_repr. now rewrite E1, E2, E3, E4.
Qed.

(** The text of a model is not a call that gives it back: the wells are missing, which have no default. *)
Lemma c119_model_refuted : forall m : model_object, Forall data [mo_base m; mo_conductivity m; mo_porosity m; mo_thickness m] ->
  (exists l, Forall data l /\ reads (model_repr m) "Model" l) /\
  forall l, Forall data l -> l <> [] -> reads (model_repr m) "Model" l -> call_model l = Raise TypeError.
Proof.
  intros m H. pose proof (model_reads m H) as Rm. split; [exists (model_args m); split; [exact H|exact Rm]|].
  intros l Hl Nl Rl. destruct (c119_reading _ _ _ _ _ model_simple model_simple Hl H Nl ltac:(discriminate) Rl Rm) as [_ ->]. reflexivity.
Qed.

(** Arguments that are left out count as these; True and False count as the numbers 1 and 0. *)
Lemma c119_defaults : forall (lm : libm) (b k n h w x y dx dy : val),
  let o := PFloat (S754_zero false) in let six := PList [o; o; o; o; o; o] in
  (exists m, call_model [b; k; n; h; w] = Ok m /\ mo_coef m = six) /\
  call_model [b; k; n; h; w] = call_model [b; k; n; h; w; PInt 0] /\ call_model [b; k; n; h; w; x] = call_model [b; k; n; h; w; x; PInt 0] /\
  call_model [b; k; n; h; w; x; y] = call_model [b; k; n; h; w; x; y; six] /\
  call_field lm [dx; dy] = call_field lm [dx; dy; PFloat S754_nan] /\ call_field lm [dx; dy; x] = call_field lm [dx; dy; x; PFloat S754_nan] /\
  call_field lm [PBool true; dy; x; y] = call_field lm [PInt 1; dy; x; y] /\ call_field lm [dx; PBool false; x; y] = call_field lm [dx; PInt 0; x; y].
Proof.
  intros lm b k n h w x y dx dy o six. split; [eexists; split; reflexivity|]. do 6 (split; [reflexivity|]). reflexivity.
Qed.

(** ** Examples *)
Definition quarter : spec_float := S754_finite false 4503599627370496 (-54).
Definition one_ : spec_float := f_of_Z 1.
Definition a_model (w : list val) : model_object :=
  {| mo_base := PInt 0; mo_conductivity := PFloat (f_of_Z 25); mo_porosity := PFloat quarter; mo_thickness := PInt 20;
     mo_wells := PList w; mo_xo := PInt 0; mo_yo := PInt 0; mo_coef := zeros6 |}.
Lemma c119_model_example :
  let w := PTuple [PInt 0; PInt 0; PFloat quarter; PInt 500] in
  call_model [PInt 0; PFloat (f_of_Z 25); PFloat quarter; PInt 20; PList [w]] = Ok (a_model [w]) /\
  Forall data [mo_base (a_model [w]); mo_conductivity (a_model [w]); mo_porosity (a_model [w]); mo_thickness (a_model [w])] /\
  model_repr (a_model [w]) = "Model(0, 25.0, 0.25, 20)" /\ model_repr (a_model []) = model_repr (a_model [w]) /\ a_model [] <> a_model [w].
Proof.
  cbv zeta. split; [reflexivity|]. split; [|split; [vm_compute; reflexivity|split; [reflexivity|discriminate]]].
  repeat (apply Forall_cons; [constructor; reflexivity|]). constructor.
Qed.

Lemma c119_field_example : forall lm : libm, exists e s g,
  pf_init (N := SF lm) one_ quarter S754_nan S754_nan = Ok e /\ body e = None /\ numeral one_ /\ numeral quarter /\
  field_repr e = "ProbabilityField(1.0, 0.25)" /\ field_str (fun _ => "") (fun _ => "") e = "ProbabilityField(1.0, 0.25, 0, 0)" /\
  expand (N := SF lm) 5 e (f_of_Z 0) (f_of_Z 2) (f_of_Z 0) (f_of_Z 0) = (s, Ok tt) /\ body s = Some g /\ 0 < nrows g /\ numeral_field s g /\
  field_repr s = "ProbabilityField(1.0, 0.25, 3, 5, -1.0, 3.0, -0.25, 0.25, 0.0)".
Proof.
  intros lm. do 3 eexists. split; [vm_compute; reflexivity|]. split; [reflexivity|]. split; [split; [exact I|reflexivity]|]. split; [split; [exact I|reflexivity]|].
  split; [vm_compute; reflexivity|]. split; [vm_compute; reflexivity|]. split; [vm_compute; reflexivity|]. split; [reflexivity|]. split; [reflexivity|].
  split; [|vm_compute; reflexivity]. repeat (apply Forall_cons; [split; [exact I|reflexivity]|]). constructor.
Qed.
