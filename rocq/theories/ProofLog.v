(** * The log of a run: what it determines (C100) *)
From Coq Require Import Reals String Ascii SpecFloat ZArith Lia Lra Bool.
From Flocq Require Import Core BinarySingleNaN.
From Verif Require Import Py Num ModelAquifer ModelDist ModelObs ModelMain ModelText ModelLog ModelData SpecText SpecLog ProofFloat ProofText ProofTextRepr.
Import ListNotations.
Local Open Scope string_scope.
Local Open Scope Z_scope.

(** ** Different values have different texts *)
Definition intb (c : ascii) : bool := digitb c || Ascii.eqb c "-".
Definition floatb (c : ascii) : bool := plainb c || Ascii.eqb c "-" || Ascii.eqb c "+" || Ascii.eqb c "e".
Definition tokb (c : ascii) : bool :=
  negb (Ascii.eqb c "," || Ascii.eqb c "(" || Ascii.eqb c ")" || Ascii.eqb c "[" || Ascii.eqb c "]" || Ascii.eqb c " ").

Lemma over_exists : forall f s, over f s = false -> exists u c v, s = u ++ String c v /\ f c = false.
Proof.
  induction s; intros H; [discriminate|]. cbn in H. destruct (f a) eqn:E.
  - destruct IHs as (u & c & v & -> & F); [assumption|]. exists (String a u), c, v. auto.
  - exists "", a, s. auto.
Qed.

Lemma int_text : forall z, over intb (fmt_d z) = true.
Proof.
  assert (N : forall n, over intb (natural n) = true).
  { intros. eapply over_weaken; [|apply over_digs]. intros c Hc. unfold intb. now rewrite Hc. }
  intros z. unfold fmt_d. destruct (z <? 0); [|apply N]. rewrite over_app, N. reflexivity.
Qed.
Lemma int_nonempty : forall z, fmt_d z <> "".
Proof.
  intros z. assert (N : forall n, natural n <> "") by (intros n E; pose proof (starts_natural n) as S; now rewrite E in S).
  unfold fmt_d. destruct (z <? 0); [discriminate|apply N].
Qed.

Lemma floatb_fixed : forall n v, over floatb (fixed_digits false n v) = true.
Proof.
  intros. assert (W : forall k q, over floatb (digs k q) = true).
  { intros. eapply over_weaken; [|apply over_digs]. intros c Hc. unfold floatb, plainb. now rewrite Hc. }
  unfold fixed_digits, natural. rewrite over_app, W. destruct n; [reflexivity|]. rewrite over_app, W. reflexivity.
Qed.
Lemma floatb_natural : forall n, over floatb (natural n) = true.
Proof. intros. rewrite natural_fixed. apply floatb_fixed. Qed.
Lemma floatb_sign : forall p s, over floatb (sign_text p s) = true.
Proof. intros [|] [|]; reflexivity. Qed.
Lemma floatb_exponent : forall k, over floatb (exponent_text k) = true.
Proof.
  intros. unfold exponent_text. rewrite over_app. destruct (k <? 0); destruct (Z.abs k <? 10); cbn [over andb];
    rewrite ?floatb_natural; try (eapply over_weaken; [|apply over_digs]; intros c Hc; unfold floatb, plainb; rewrite Hc; reflexivity); reflexivity.
Qed.
Lemma float_text : forall x, finite x -> over floatb (repr_float x) = true.
Proof.
  intros [s|s| |s m e] H; try easy; cbn [repr_float].
  - destruct s; reflexivity.
  - destruct (shortest 16 s m e 0) as [n [v k]]. rewrite over_app, floatb_sign. cbn [andb].
    destruct (_ && _); [destruct (k <? Z.of_nat n)|].
    + apply floatb_fixed.
    + rewrite over_app, floatb_natural. reflexivity.
    + rewrite !over_app, floatb_fixed, floatb_exponent. reflexivity.
Qed.
Lemma float_not_int : forall x, over intb (repr_float x) = false.
Proof.
  assert (P : forall a b, over intb b = false -> over intb (a ++ b) = false).
  { intros a b H. rewrite over_app, H. apply andb_false_r. }
  intros [s|s| |s m e]; cbn [repr_float]; try (destruct s; reflexivity); try reflexivity.
  destruct (shortest 16 s m e 0) as [n [v k]]. apply P.
  destruct (_ && _); [destruct (Z.ltb_spec k (Z.of_nat n))|].
  - unfold fixed_digits. apply P. destruct (Z.to_nat (Z.of_nat n - k)) eqn:E; [lia|]. reflexivity.
  - apply P. reflexivity.
  - apply P. reflexivity.
Qed.

Lemma float_injective : forall x y, SpecFloat.valid_binary fprec femax x = true -> SpecFloat.valid_binary fprec femax y = true ->
  repr_float x = repr_float y -> x = y.
Proof.
  assert (NF : forall x y, finite x -> ~ finite y -> repr_float x = repr_float y -> False).
  { intros x y Fx Ny E. pose proof (float_text x Fx) as T. rewrite E in T.
    destruct y as [s|s| |s m e]; try (now apply Ny); try discriminate. destruct s; discriminate. }
  assert (dec : forall x, finite x \/ ~ finite x) by (intros [s|s| |s m e]; cbn; tauto).
  intros x y Vx Vy E. destruct (dec x) as [Fx|Nx], (dec y) as [Fy|Ny].
  - pose proof (c98_repr_injective x y Fx Fy Vx Vy E) as V.
    destruct x as [s|s| |s m e], y as [s'|s'| |s' m' e']; try easy.
    + destruct s, s'; try reflexivity; discriminate.
    + exfalso. pose proof (value_abs s' m' e') as A. rewrite <- V in A. cbn [value] in A. rewrite Rabs_R0 in A.
      pose proof (absval_pos m' e') as B. unfold absval in B. lra.
    + exfalso. pose proof (value_abs s m e) as A. rewrite V in A. cbn [value] in A. rewrite Rabs_R0 in A.
      pose proof (absval_pos m e) as B. unfold absval in B. lra.
    + rewrite !value_SF2R in V. cbn [SpecFloat.valid_binary] in Vx, Vy.
      pose proof (B2R_inj fprec femax (B754_finite (prec := fprec) (emax := femax) s m e Vx) (B754_finite s' m' e' Vy) eq_refl eq_refl V) as I.
      injection I as -> -> ->. reflexivity.
  - exfalso. eapply NF; eassumption.
  - exfalso. symmetry in E. eapply NF; eassumption.
  - destruct x as [s|s| |s m e], y as [s'|s'| |s' m' e']; try (exfalso; cbn in *; tauto); try reflexivity;
      try (destruct s); try (destruct s'); try reflexivity; discriminate.
Qed.
Lemma int_injective : forall a b, fmt_d a = fmt_d b -> a = b.
Proof.
  intros a b E. destruct (c98_integer a) as (u & A & B & _). destruct (c98_integer b) as (v & C & D & _).
  rewrite E, C in A. injection A as <-. apply eq_IZR. congruence.
Qed.

(** *** Scalars *)
Definition scalar (v : val) : Prop := match v with PInt _ | PFloat _ | PBool _ | PNone => True | _ => False end.
Lemma tokb_int : forall s, over intb s = true -> over tokb s = true.
Proof.
  intros. eapply over_weaken; [|eassumption]. intros c. unfold intb, digitb, digit_of.
  destruct c as [[] [] [] [] [] [] [] []]; cbn; intros; try reflexivity; discriminate.
Qed.
Lemma tokb_float : forall s, over floatb s = true -> over tokb s = true.
Proof.
  intros. eapply over_weaken; [|eassumption]. intros c. unfold floatb, plainb, digitb, digit_of.
  destruct c as [[] [] [] [] [] [] [] []]; cbn; intros; try reflexivity; discriminate.
Qed.
Lemma scalar_token : forall v, scalar v -> over tokb (repr v) = true /\ repr v <> "".
Proof.
  intros [z|x|b|s| |l|l] H; try easy; cbn [repr].
  - split; [apply tokb_int, int_text|apply int_nonempty].
  - destruct x as [s|s| |s m e]; try (split; [destruct s; reflexivity|destruct s; discriminate]); [split; [reflexivity|discriminate]|].
    split; [apply tokb_float, float_text; exact I|]. intros E. pose proof (float_not_int (S754_finite s m e)) as F.
    rewrite E in F. discriminate.
  - destruct b; split; (reflexivity || discriminate).
Qed.
Lemma scalar_injective : forall v w, data v -> data w -> scalar v -> scalar w -> repr v = repr w -> v = w.
Proof.
  assert (FI : forall x z, repr_float x = fmt_d z -> False).
  { intros x z E. pose proof (float_not_int x) as A. rewrite E, int_text in A. discriminate. }
  assert (word : forall x t, over floatb t = false -> t <> "nan" -> t <> "inf" -> t <> "-inf" -> repr_float x = t -> False).
  { intros x t A B C D E. subst t. destruct x as [s|s| |s m e].
    - destruct s; discriminate.
    - destruct s; [exact (D eq_refl)|exact (C eq_refl)].
    - exact (B eq_refl).
    - now rewrite float_text in A by exact I. }
  assert (wordi : forall z t, over intb t = false -> fmt_d z = t -> False).
  { intros z t A E. subst t. rewrite int_text in A. discriminate. }
  intros v w Dv Dw Sv Sw E.
  destruct v as [z|x|b|s| |l|l]; try easy; destruct w as [z'|x'|b'|s'| |l'|l']; try easy; cbn [repr] in E.
  - f_equal. now apply int_injective.
  - exfalso. symmetry in E. now apply FI in E.
  - exfalso. apply wordi in E; [assumption|destruct b'; reflexivity].
  - exfalso. apply wordi in E; [assumption|reflexivity].
  - exfalso. now apply FI in E.
  - f_equal. inversion Dv; inversion Dw; subst. now apply float_injective.
  - exfalso. revert E. apply word; destruct b'; (reflexivity || discriminate).
  - exfalso. revert E. apply word; (reflexivity || discriminate).
  - exfalso. symmetry in E. apply wordi in E; [assumption|destruct b; reflexivity].
  - exfalso. symmetry in E. revert E. apply word; destruct b; (reflexivity || discriminate).
  - f_equal. destruct b, b'; (reflexivity || discriminate).
  - destruct b; discriminate.
  - exfalso. symmetry in E. apply wordi in E; [assumption|reflexivity].
  - exfalso. symmetry in E. revert E. apply word; (reflexivity || discriminate).
  - destruct b'; discriminate.
Qed.

(** *** Tuples and lists *)
Definition stop (r : string) : Prop := match r with EmptyString => True | String c _ => tokb c = false end.
Lemma token_injective : forall a b r r', over tokb a = true -> over tokb b = true -> stop r -> stop r' ->
  a ++ r = b ++ r' -> a = b /\ r = r'.
Proof.
  induction a as [|c a IH]; intros [|d b] r r' A B Sr Sr' E; cbn in *.
  - auto.
  - subst r. cbn in Sr. apply andb_prop in B. destruct B. congruence.
  - subst r'. cbn in Sr'. apply andb_prop in A. destruct A. congruence.
  - injection E as -> E. apply andb_prop in A, B. destruct A, B.
    destruct (IH b r r') as [-> ->]; auto.
Qed.

Section Induction.
  Variable P : val -> Prop.
  Hypothesis HS : forall v, (match v with PTuple _ | PList _ => False | _ => True end) -> P v.
  Hypothesis HT : forall l, Forall P l -> P (PTuple l).
  Hypothesis HL : forall l, Forall P l -> P (PList l).
  Fixpoint val_induction (v : val) : P v :=
    match v with
    | PTuple l => HT l ((fix go l : Forall P l := match l with [] => Forall_nil P | a :: r => Forall_cons a (val_induction a) (go r) end) l)
    | PList l => HL l ((fix go l : Forall P l := match l with [] => Forall_nil P | a :: r => Forall_cons a (val_induction a) (go r) end) l)
    | v => HS v I
    end.
End Induction.

Definition decodes (v : val) : Prop := data v -> forall w r r', data w -> stop r -> stop r' -> repr v ++ r = repr w ++ r' -> v = w /\ r = r'.

Lemma first_char : forall v r, data v -> exists c t, repr v ++ r = String c t /\
  ((scalar v /\ tokb c = true) \/ ((exists l, v = PTuple l) /\ c = "("%char) \/ ((exists l, v = PList l) /\ c = "["%char)).
Proof.
  intros v r D. assert (S : scalar v \/ (exists l, v = PTuple l) \/ (exists l, v = PList l)) by (inversion D; cbn; eauto).
  destruct S as [S|[[l ->]|[l ->]]].
  - destruct (scalar_token v S) as [A B]. destruct (repr v) as [|c t] eqn:E; [easy|]. exists c, (t ++ r). split; [reflexivity|].
    cbn in A. apply andb_prop in A. destruct A. auto.
  - exists "("%char. destruct l as [|a [|b l]]; eexists; (split; [reflexivity|right; left; eauto]).
  - exists "["%char. eexists. split; [reflexivity|right; right; eauto].
Qed.

Lemma join_cons2 : forall s a b l, join s (a :: b :: l) = a ++ s ++ join s (b :: l).
Proof. reflexivity. Qed.
Lemma items_injective : forall close, close = ")"%char \/ close = "]"%char -> forall l, Forall decodes l -> Forall data l ->
  forall l' r r', Forall data l' -> l <> [] -> l' <> [] ->
  join ", " (map repr l) ++ String close r = join ", " (map repr l') ++ String close r' -> l = l' /\ r = r'.
Proof.
  intros close HC. assert (SC : forall r, stop (String close r)) by (intros; destruct HC as [-> | ->]; reflexivity).
  induction l as [|a l IH]; intros Hd Da l' r r' Da' Hl Hl' E; [easy|].
  destruct l' as [|a' l']; [easy|]. inversion Hd as [|? ? H1 H2]; subst. inversion Da; subst. inversion Da'; subst.
  destruct l as [|b l], l' as [|b' l'].
  - cbn [map join] in E. destruct (H1 ltac:(assumption) a' (String close r) (String close r')) as [-> K]; auto.
    split; [reflexivity|]. congruence.
  - change (map repr (a' :: b' :: l')) with (repr a' :: repr b' :: map repr l') in E. rewrite join_cons2 in E.
    cbn [map join] in E. rewrite !app_assoc_s in E.
    destruct (H1 ltac:(assumption) a' _ _ ltac:(assumption) (SC r) (eq_refl : stop (", " ++ join ", " (repr b' :: map repr l') ++ String close r')) E) as [_ K].
    destruct HC as [-> | ->]; discriminate.
  - change (map repr (a :: b :: l)) with (repr a :: repr b :: map repr l) in E. rewrite join_cons2 in E.
    cbn [map join] in E. rewrite !app_assoc_s in E.
    destruct (H1 ltac:(assumption) a' _ _ ltac:(assumption) (eq_refl : stop (", " ++ join ", " (repr b :: map repr l) ++ String close r)) (SC r') E) as [_ K].
    destruct HC as [-> | ->]; discriminate.
  - change (map repr (a :: b :: l)) with (repr a :: repr b :: map repr l) in E.
    change (map repr (a' :: b' :: l')) with (repr a' :: repr b' :: map repr l') in E. rewrite !join_cons2, !app_assoc_s in E.
    destruct (H1 ltac:(assumption) a' _ _ ltac:(assumption)
      (eq_refl : stop (", " ++ join ", " (repr b :: map repr l) ++ String close r))
      (eq_refl : stop (", " ++ join ", " (repr b' :: map repr l') ++ String close r')) E) as [-> K].
    injection K as K.
    destruct (IH ltac:(assumption) ltac:(assumption) (b' :: l') r r' ltac:(assumption) ltac:(discriminate) ltac:(discriminate) K) as [-> ->].
    auto.
Qed.

Lemma repr_tuple1 : forall a, repr (PTuple [a]) = "(" ++ repr a ++ ",)".
Proof. reflexivity. Qed.
Lemma repr_tuple2 : forall a b l, repr (PTuple (a :: b :: l)) = "(" ++ join ", " (map repr (a :: b :: l)) ++ ")".
Proof. reflexivity. Qed.
Lemma repr_list : forall l, repr (PList l) = "[" ++ join ", " (map repr l) ++ "]".
Proof. reflexivity. Qed.

Lemma open_injective : forall c s t, String c "" ++ s = String c "" ++ t -> s = t.
Proof. intros c s t E. now injection E. Qed.
Lemma all_decode : forall v, decodes v.
Proof.
  assert (tok_paren : forall c, tokb c = true -> c <> "("%char /\ c <> "["%char /\ c <> ")"%char /\ c <> "]"%char).
  { intros c H. repeat split; intros ->; discriminate. }
  apply val_induction.
  - intros v Hv Dv w r r' Dw Sr Sr' E. assert (Sv : scalar v) by (inversion Dv; subst; cbn in *; tauto).
    destruct (first_char v r Dv) as (c & t & Ec & Hc). destruct (first_char w r' Dw) as (c' & t' & Ec' & Hc').
    rewrite E, Ec' in Ec. injection Ec as -> ->.
    assert (tokb c = true) as Tc. { destruct Hc as [[_ T]|[[[l ->] _]|[[l ->] _]]]; [assumption|easy|easy]. }
    destruct (tok_paren c Tc) as (N1 & N2 & _).
    destruct Hc' as [[Sw _]|[[_ K]|[_ K]]]; [|congruence|congruence].
    destruct (scalar_token v Sv) as [A _]. destruct (scalar_token w Sw) as [B _].
    destruct (token_injective _ _ r r' A B Sr Sr' E) as [F ->]. split; [|reflexivity].
    now apply scalar_injective.
  - intros l IH Dv w r r' Dw Sr Sr' E. destruct (first_char w r' Dw) as (c' & t' & Ec' & Hc').
    destruct (first_char (PTuple l) r Dv) as (c & t & Ec & Hc).
    rewrite E, Ec' in Ec. injection Ec as -> ->.
    assert (c = "("%char) as -> by (destruct Hc as [[[] _]|[[_ K]|[[l' K] _]]]; [assumption|discriminate]).
    destruct Hc' as [[_ K]|[[[l' ->] _]|[_ K]]]; [discriminate| |discriminate].
    clear Hc Ec'; try clear t; try clear t'; try clear c; try clear c'. inversion Dv as [| | | |? Dl|]; subst. inversion Dw as [| | | |? Dl'|]; subst.
    destruct l as [|a [|b l]], l' as [|a' [|b' l']].
    + cbn in E. injection E as ->. auto.
    + exfalso. rewrite repr_tuple1 in E. cbn [repr join map append] in E. injection E as E. rewrite app_assoc_s in E.
      inversion Dl'; subst. destruct (first_char a' (",)" ++ r') ltac:(assumption)) as (c & t & Ec & Hc). rewrite Ec in E. injection E as <- _.
      destruct Hc as [[_ K]|[[_ K]|[_ K]]]; discriminate.
    + exfalso. rewrite repr_tuple2 in E. change (map repr (a' :: b' :: l')) with (repr a' :: repr b' :: map repr l') in E.
      rewrite join_cons2 in E. cbn [repr join map append] in E. injection E as E. rewrite !app_assoc_s in E.
      inversion Dl'; subst. edestruct (first_char a') as (c & t & Ec & Hc); [eassumption|]. erewrite Ec in E. injection E as <- _.
      destruct Hc as [[_ K]|[[_ K]|[_ K]]]; discriminate.
    + exfalso. rewrite repr_tuple1 in E. cbn [repr join map append] in E. injection E as E. rewrite app_assoc_s in E.
      inversion Dl; subst. destruct (first_char a (",)" ++ r) ltac:(assumption)) as (c & t & Ec & Hc). rewrite Ec in E. injection E as -> _.
      destruct Hc as [[_ K]|[[_ K]|[_ K]]]; discriminate.
    + rewrite !repr_tuple1 in E. change ("(" ++ ?s) with (String "(" s) in E. cbn [append] in E. injection E as E. rewrite !app_assoc_s in E.
      inversion IH; subst. inversion Dl; subst. inversion Dl'; subst.
      destruct (H1 ltac:(assumption) a' (",)" ++ r) (",)" ++ r') ltac:(assumption) eq_refl eq_refl E) as [-> K].
      injection K as ->. auto.
    + exfalso. rewrite repr_tuple1, repr_tuple2 in E. change (map repr (a' :: b' :: l')) with (repr a' :: repr b' :: map repr l') in E.
      rewrite join_cons2 in E. change ("(" ++ ?s) with (String "(" s) in E. cbn [append] in E. injection E as E. rewrite !app_assoc_s in E.
      inversion IH; subst. inversion Dl; subst. inversion Dl'; subst.
      destruct (H1 ltac:(assumption) a' (",)" ++ r) _ ltac:(assumption) eq_refl (eq_refl : stop (", " ++ join ", " (repr b' :: map repr l') ++ ")" ++ r')) E) as [_ K].
      discriminate.
    + exfalso. rewrite repr_tuple2 in E. change (map repr (a :: b :: l)) with (repr a :: repr b :: map repr l) in E.
      rewrite join_cons2 in E. cbn [repr join map append] in E. injection E as E. rewrite !app_assoc_s in E.
      inversion Dl; subst. edestruct (first_char a) as (c & t & Ec & Hc); [eassumption|]. erewrite Ec in E. injection E as -> _.
      destruct Hc as [[_ K]|[[_ K]|[_ K]]]; discriminate.
    + exfalso. rewrite repr_tuple1, repr_tuple2 in E. change (map repr (a :: b :: l)) with (repr a :: repr b :: map repr l) in E.
      rewrite join_cons2 in E. change ("(" ++ ?s) with (String "(" s) in E. cbn [append] in E. injection E as E. rewrite !app_assoc_s in E.
      inversion IH; subst. inversion Dl; subst. inversion Dl'; subst.
      destruct (H1 ltac:(assumption) a' _ (",)" ++ r') ltac:(assumption) (eq_refl : stop (", " ++ join ", " (repr b :: map repr l) ++ ")" ++ r)) eq_refl E) as [_ K].
      discriminate.
    + rewrite !repr_tuple2, !app_assoc_s in E. apply open_injective in E.
      destruct (items_injective ")" (or_introl eq_refl) (a :: b :: l) IH Dl (a' :: b' :: l') r r' Dl' ltac:(discriminate) ltac:(discriminate) E) as [-> ->].
      auto.
  - intros l IH Dv w r r' Dw Sr Sr' E. destruct (first_char w r' Dw) as (c' & t' & Ec' & Hc').
    destruct (first_char (PList l) r Dv) as (c & t & Ec & Hc).
    rewrite E, Ec' in Ec. injection Ec as -> ->.
    assert (c = "["%char) as -> by (destruct Hc as [[[] _]|[[[l' K] _]|[_ K]]]; [discriminate|assumption]).
    destruct Hc' as [[_ K]|[[_ K]|[[l' ->] _]]]; [discriminate|discriminate|].
    clear Hc Ec'; try clear t; try clear t'; try clear c; try clear c'. inversion Dv as [| | | | |? Dl]; subst. inversion Dw as [| | | | |? Dl']; subst.
    rewrite !repr_list, !app_assoc_s in E. apply open_injective in E.
    destruct l as [|a l], l' as [|a' l'].
    + cbn in E. injection E as ->. auto.
    + exfalso. change (join ", " (map repr []) ++ "]" ++ r) with (String "]" r) in E.
      change (map repr (a' :: l')) with (repr a' :: map repr l') in E.
      assert (exists t, join ", " (repr a' :: map repr l') ++ "]" ++ r' = repr a' ++ t) as [t Et].
      { destruct l'; cbn [map]; [exists ("]" ++ r'); reflexivity|]. rewrite join_cons2, !app_assoc_s. eauto. }
      rewrite Et in E. inversion Dl'; subst.
      destruct (first_char a' t ltac:(assumption)) as (c & u & Ec & Hc). rewrite Ec in E. injection E as <- _.
      destruct Hc as [[_ K]|[[_ K]|[_ K]]]; discriminate.
    + exfalso. change (join ", " (map repr []) ++ "]" ++ r') with (String "]" r') in E.
      change (map repr (a :: l)) with (repr a :: map repr l) in E.
      assert (exists t, join ", " (repr a :: map repr l) ++ "]" ++ r = repr a ++ t) as [t Et].
      { destruct l; cbn [map]; [exists ("]" ++ r); reflexivity|]. rewrite join_cons2, !app_assoc_s. eauto. }
      rewrite Et in E. inversion Dl; subst.
      destruct (first_char a t ltac:(assumption)) as (c & u & Ec & Hc). rewrite Ec in E. injection E as -> _.
      destruct Hc as [[_ K]|[[_ K]|[_ K]]]; discriminate.
    + destruct (items_injective "]" (or_intror eq_refl) (a :: l) IH Dl (a' :: l') r r' Dl' ltac:(discriminate) ltac:(discriminate) E) as [-> ->].
      auto.
Qed.

Lemma repr_injective : forall v w, data v -> data w -> repr v = repr w -> v = w.
Proof.
  intros v w Dv Dw E. destruct (all_decode v Dv w "" "" Dw I I) as [-> _]; [|reflexivity]. now rewrite !app_nil_s.
Qed.
Lemma str_data : forall v, data v -> str v = repr v.
Proof. intros v D. inversion D; reflexivity. Qed.

(** ** Rounded numbers *)
Lemma val_f_number : forall n v t, val_f n v = Ok t -> exists x, number_of v = Some x /\ t = fmt_f false false n x.
Proof.
  intros n v t H. destruct v as [z|x|b|s| |l|l]; try discriminate; cbn [val_f number_of] in *.
  - exists (f_of_Z z). split; [reflexivity|]. destruct (f_of_Z z); congruence.
  - exists x. split; [reflexivity|]. congruence.
  - eexists. split; [reflexivity|]. congruence.
Qed.
Lemma fixed_2_close : forall x y, fmt_f false false 2 x = fmt_f false false 2 y ->
  (finite x /\ finite y /\ (Rabs (value x - value y) <= 1 / 100)%R) \/ (~ finite x /\ x = y).
Proof.
  assert (dec : forall x, finite x \/ ~ finite x) by (intros [s|s| |s m e]; cbn; tauto).
  intros x y E. destruct (dec x) as [Fx|Nx], (dec y) as [Fy|Ny].
  - left. repeat split; try assumption. destruct (c98_fixed false false 2 x Fx) as (v & A & B). destruct (c98_fixed false false 2 y Fy) as (w & C & D).
    rewrite E, C in A. injection A as Hs ->. destruct B as [B _], D as [D _]. apply abs_le in B, D.
    assert (S : forall z, finite z -> value z = (if negative z then - Rabs (value z) else Rabs (value z))%R).
    { intros z Fz. destruct z as [s|s| |s m e]; try easy; cbn [value negative].
      - rewrite Rabs_R0. destruct s; lra.
      - pose proof (absval_pos m e) as P. unfold absval in P. destruct s.
        + rewrite Rabs_left; nra.
        + rewrite Rabs_right; nra. }
    rewrite (S x Fx), (S y Fy), Hs. apply Rabs_le. cbn [pow] in B, D. destruct (negative x); lra.
  - exfalso. destruct (c98_fixed false false 2 x Fx) as (v & A & _). destruct (c98_special false false 2 y Ny) as (B & _). congruence.
  - exfalso. destruct (c98_fixed false false 2 y Fy) as (v & A & _). destruct (c98_special false false 2 x Nx) as (B & _). congruence.
  - right. split; [assumption|]. destruct x as [s|s| |s m e], y as [s'|s'| |s' m' e']; try (exfalso; cbn in *; tauto); try reflexivity;
      try (destruct s); try (destruct s'); try reflexivity; discriminate.
Qed.
Lemma val_f_close : forall u v t, val_f 2 u = Ok t -> val_f 2 v = Ok t -> within_cent u v.
Proof.
  intros u v t A B. destruct (val_f_number 2 u t A) as (x & Hx & ->). destruct (val_f_number 2 v _ B) as (y & Hy & E).
  exists x, y. repeat split; try assumption. now apply fixed_2_close.
Qed.
Lemma val_d_integer : forall u v t, val_d u = Ok t -> val_d v = Ok t -> exists z, integer_of u = Some z /\ integer_of v = Some z.
Proof.
  assert (K : forall v t, val_d v = Ok t -> exists z, integer_of v = Some z /\ t = fmt_d z).
  { intros [z|x|b|s| |l|l] t H; try discriminate; cbn in H |- *; [exists z|exists (if b then 1 else 0)]; split; try reflexivity; try congruence.
    destruct b; injection H as <-; reflexivity. }
  intros u v t A B. destruct (K u t A) as (z & Hz & ->). destruct (K v _ B) as (z' & Hz' & E). apply int_injective in E. subst z'.
  exists z. auto.
Qed.

(** ** The log *)
Lemma put_eq : forall (s s' : res string) (k k' : logged unit),
  snd (put s k) = Ok tt -> snd (put s' k') = Ok tt -> fst (put s k) = fst (put s' k') ->
  exists t, s = Ok t /\ s' = Ok t /\ snd k = Ok tt /\ snd k' = Ok tt /\ fst k = fst k'.
Proof. intros [t|e|] [t'|e'|] k k' H H' E; cbn in *; try discriminate. injection E as <- E. exists t. auto. Qed.
Lemma say_eq : forall ls (k k' : logged unit),
  snd (say ls k) = Ok tt -> snd (say ls k') = Ok tt -> fst (say ls k) = fst (say ls k') ->
  snd k = Ok tt /\ snd k' = Ok tt /\ fst k = fst k'.
Proof. intros ls k k' H H' E. cbn in *. apply List.app_inv_head in E. auto. Qed.
Lemma say_map_eq : forall (f : val -> string) l l' (k k' : logged unit), List.length l = List.length l' ->
  snd (say (map f l) k) = Ok tt -> snd (say (map f l') k') = Ok tt -> fst (say (map f l) k) = fst (say (map f l') k') ->
  map f l = map f l' /\ snd k = Ok tt /\ snd k' = Ok tt /\ fst k = fst k'.
Proof.
  intros f l l' k k' L H H' E. cbn in *. enough (map f l = map f l' /\ fst k = fst k') by tauto. clear H H'.
  revert l' L E. induction l as [|x l IH]; intros [|y l'] L E; try discriminate; [auto|].
  cbn in E. injection E as E1 E2. destruct (IH l') as [K1 K2]; [cbn in L; lia|assumption|]. split; [|assumption]. cbn. congruence.
Qed.
Lemma prefix_injective : forall p a b : string, p ++ a = p ++ b -> a = b.
Proof. induction p; intros a' b H; cbn in H; [assumption|]. injection H as H. now apply IHp. Qed.
Lemma label_ok : forall p s t, label p s = Ok t -> exists u, s = Ok u /\ t = p ++ u.
Proof. intros p [u|e|] t H; cbn in H; try discriminate. exists u. split; congruence. Qed.

Lemma map_str_injective : forall (l l' : list val), Forall data l -> Forall data l' ->
  map (fun v => "    " ++ str v) l = map (fun v => "    " ++ str v) l' -> l = l'.
Proof.
  induction l as [|x l IH]; intros [|y l'] D D' E; try discriminate; [reflexivity|]. inversion D; subst. inversion D'; subst.
  cbn [map] in E. injection E as E1 E2. f_equal; [|now apply IH].
  rewrite !str_data in E1 by assumption. now apply repr_injective.
Qed.

Lemma log_determines : forall a b : args spec_float,
  snd (log_the_run a) = Ok tt -> snd (log_the_run b) = Ok tt -> fst (log_the_run a) = fst (log_the_run b) ->
  (exists s, projectname a = PStr s) -> (exists s, projectname b = PStr s) ->
  (exists s, runtime a = PStr s) -> (exists s, runtime b = PStr s) ->
  Forall data [c_dist a; p_dist a; t_dist a; smooth a; confined a] -> Forall data [c_dist b; p_dist b; t_dist b; smooth b; confined b] ->
  (exists w o, stochastic_wells a = PList w /\ observations a = PList o /\ Forall data w /\ Forall data o) ->
  (exists w o, stochastic_wells b = PList w /\ observations b = PList o /\ Forall data w /\ Forall data o) ->
  projectname a = projectname b /\ runtime a = runtime b /\
  same_integer (target a) (target b) /\ same_integer (npaths a) (npaths b) /\ same_integer (nrealizations a) (nrealizations b) /\
  c_dist a = c_dist b /\ p_dist a = p_dist b /\ t_dist a = t_dist b /\ smooth a = smooth b /\ confined a = confined b /\
  stochastic_wells a = stochastic_wells b /\ observations a = observations b /\
  within_cent (duration a) (duration b) /\ within_cent (base_ a) (base_ b) /\ within_cent (buffer a) (buffer b) /\
  within_cent (spacing a) (spacing b) /\ within_cent (umbra a) (umbra b) /\ within_cent (tol a) (tol b) /\
  within_cent (maxstep a) (maxstep b).
Proof.
  intros a b Ha Hb E (pa & Pa) (pb & Pb) (ra & Ra) (rb & Rb) Da Db (wa & oa & Wa & Oa & DWa & DOa) (wb & ob & Wb & Ob & DWb & DOb).
  unfold log_the_run in Ha, Hb, E.
  rewrite Pa, Ra, Wa, Oa in Ha, E. rewrite Pb, Rb, Wb, Ob in Hb, E. cbn [str py_len bind elements] in Ha, Hb, E.
  assert (EX : forall u v t p, Ok (p ++ str u) = Ok t -> Ok (p ++ str v) = Ok t -> data u -> data v -> u = v).
  { intros u v t p A B Du Dv. rewrite <- A in B. injection B as B. apply prefix_injective in B. rewrite !str_data in B by assumption.
    symmetry. now apply repr_injective. }
  assert (EC : forall u v t p, label p (val_f 2 u) = Ok t -> label p (val_f 2 v) = Ok t -> within_cent u v).
  { intros u v t p A B. destruct (label_ok _ _ _ A) as (x & Hx & ->). destruct (label_ok _ _ _ B) as (y & Hy & F).
    apply prefix_injective in F. subst y. eapply val_f_close; eassumption. }
  assert (ED : forall u v t p, label p (val_d u) = Ok t -> label p (val_d v) = Ok t -> exists z, integer_of u = Some z /\ integer_of v = Some z).
  { intros u v t p A B. destruct (label_ok _ _ _ A) as (x & Hx & ->). destruct (label_ok _ _ _ B) as (y & Hy & F).
    apply prefix_injective in F. subst y. eapply val_d_integer; eassumption. }
  destruct (say_eq _ _ _ Ha Hb E) as (Ha1 & Hb1 & E1). clear Ha Hb E.
  (* one message after the other *)
  destruct (put_eq _ _ _ _ Ha1 Hb1 E1) as (t1 & A1 & B1 & Ha & Hb & E). clear Ha1 Hb1 E1.
  destruct (put_eq _ _ _ _ Ha Hb E) as (t2 & A2 & B2 & Ha1 & Hb1 & E1). clear Ha Hb E.
  destruct (put_eq _ _ _ _ Ha1 Hb1 E1) as (t3 & A3 & B3 & Ha & Hb & E). clear Ha1 Hb1 E1.
  destruct (put_eq _ _ _ _ Ha Hb E) as (t4 & A4 & B4 & Ha1 & Hb1 & E1). clear Ha Hb E.
  destruct (put_eq _ _ _ _ Ha1 Hb1 E1) as (t5 & A5 & B5 & Ha & Hb & E). clear Ha1 Hb1 E1.
  destruct (put_eq _ _ _ _ Ha Hb E) as (t6 & A6 & B6 & Ha1 & Hb1 & E1). clear Ha Hb E.
  destruct (put_eq _ _ _ _ Ha1 Hb1 E1) as (t7 & A7 & B7 & Ha & Hb & E). clear Ha1 Hb1 E1.
  destruct (put_eq _ _ _ _ Ha Hb E) as (t8 & A8 & B8 & Ha1 & Hb1 & E1). clear Ha Hb E.
  destruct (put_eq _ _ _ _ Ha1 Hb1 E1) as (t9 & A9 & B9 & Ha & Hb & E). clear Ha1 Hb1 E1.
  destruct (put_eq _ _ _ _ Ha Hb E) as (t10 & A10 & B10 & Ha1 & Hb1 & E1). clear Ha Hb E.
  destruct (put_eq _ _ _ _ Ha1 Hb1 E1) as (t11 & A11 & B11 & Ha & Hb & E). clear Ha1 Hb1 E1.
  destruct (put_eq _ _ _ _ Ha Hb E) as (t12 & A12 & B12 & Ha1 & Hb1 & E1). clear Ha Hb E.
  destruct (put_eq _ _ _ _ Ha1 Hb1 E1) as (t13 & A13 & B13 & Ha & Hb & E). clear Ha1 Hb1 E1.
  destruct (put_eq _ _ _ _ Ha Hb E) as (t14 & A14 & B14 & Ha1 & Hb1 & E1). clear Ha Hb E.
  destruct (put_eq _ _ _ _ Ha1 Hb1 E1) as (t15 & A15 & B15 & Ha & Hb & E). clear Ha1 Hb1 E1.
  destruct (put_eq _ _ _ _ Ha Hb E) as (t16 & A16 & B16 & Ha1 & Hb1 & E1). clear Ha Hb E.
  destruct (put_eq _ _ _ _ Ha1 Hb1 E1) as (t17 & A17 & B17 & Ha & Hb & E). clear Ha1 Hb1 E1.
  destruct (say_eq _ _ _ Ha Hb E) as (Ha1 & Hb1 & E1). clear Ha Hb E.
  destruct (put_eq _ _ _ _ Ha1 Hb1 E1) as (t18 & A18 & B18 & Ha & Hb & E). clear Ha1 Hb1 E1.
  assert (LW : List.length wa = List.length wb).
  { rewrite <- A18 in B18. assert (K : fmt_d (Z.of_nat (List.length wb)) = fmt_d (Z.of_nat (List.length wa))).
    { apply (prefix_injective "stochastic_wells: "). congruence. } apply int_injective in K. lia. }
  destruct (say_map_eq _ _ _ _ _ LW Ha Hb E) as (EW & Ha1 & Hb1 & E1). clear Ha Hb E.
  destruct (say_eq _ _ _ Ha1 Hb1 E1) as (Ha & Hb & E). clear Ha1 Hb1 E1.
  destruct (put_eq _ _ _ _ Ha Hb E) as (t19 & A19 & B19 & Ha1 & Hb1 & E1). clear Ha Hb E.
  assert (LO : List.length oa = List.length ob).
  { rewrite <- A19 in B19. assert (K : fmt_d (Z.of_nat (List.length ob)) = fmt_d (Z.of_nat (List.length oa))).
    { apply (prefix_injective "observations: "). congruence. } apply int_injective in K. lia. }
  destruct (say_map_eq _ _ _ _ _ LO Ha1 Hb1 E1) as (EO & _).
  apply map_str_injective in EW; [|assumption|assumption]. apply map_str_injective in EO; [|assumption|assumption].
  assert (NR : exists z, integer_of (nrealizations a) = Some z /\ integer_of (nrealizations b) = Some z).
  { destruct (more_than_one (nrealizations a)) as [ma| |]; try discriminate. destruct (more_than_one (nrealizations b)) as [mb| |]; try discriminate.
    cbn [bind] in A6, B6.
    destruct (val_d (nrealizations a)) as [da| |] eqn:Va; try discriminate. destruct (val_d (nrealizations b)) as [db| |] eqn:Vb; try discriminate.
    cbn [bind] in A6, B6. rewrite <- A6 in B6.
    assert (K : da ++ (if ma then " STOCHASTIC" else " DETERMINISTIC") = db ++ (if mb then " STOCHASTIC" else " DETERMINISTIC")).
    { apply (prefix_injective "nrealizations = "). congruence. }
    assert (T : forall v d, val_d v = Ok d -> over tokb d = true).
    { intros v d V. destruct v as [z|x|bb|s| |l|l]; try discriminate; cbn in V.
      - injection V as <-. apply tokb_int, int_text.
      - destruct bb; injection V as <-; reflexivity. }
    assert (St : forall m : bool, stop (if m then " STOCHASTIC" else " DETERMINISTIC")) by (intros []; reflexivity).
    destruct (token_injective da db _ _ (T _ _ Va) (T _ _ Vb) (St ma) (St mb) K) as [-> _].
    eapply val_d_integer; eassumption. }
  inversion_clear Da as [|? ? D1 Da']. inversion_clear Da' as [|? ? D2 Da]. inversion_clear Da as [|? ? D3 Da'].
  inversion_clear Da' as [|? ? D4 Da]. inversion_clear Da as [|? ? D5 Da'].
  inversion_clear Db as [|? ? F1 Db']. inversion_clear Db' as [|? ? F2 Db]. inversion_clear Db as [|? ? F3 Db'].
  inversion_clear Db' as [|? ? F4 Db]. inversion_clear Db as [|? ? F5 Db'].
  assert (PP : pa = pb). { apply (prefix_injective "project name  = "). congruence. }
  assert (RR : ra = rb). { apply (prefix_injective "run time      = "). congruence. }
  subst.
  repeat match goal with |- _ /\ _ => split end; try congruence; try (eapply EC; eassumption); try (eapply ED; eassumption); try (eapply EX; eassumption); try exact NR.

Qed.

(** ** Validated arguments *)
Lemma f_of_Z_round : forall z, finite (f_of_Z z) <-> (Rabs (round radix2 (SpecFloat.fexp fprec femax) ZnearestE (IZR z)) < bpow radix2 femax)%R.
Proof.
  intros z. unfold f_of_Z. rewrite normalize_equiv.
  pose proof (binary_normalize_correct fprec femax Hprec Hmax mode_NE z 0 false) as H. cbn zeta in H.
  assert (E : F2R (Float radix2 z 0) = IZR z) by (unfold F2R; cbn; ring).
  rewrite E in H. change (round_mode mode_NE) with ZnearestE in H.
  set (r := round radix2 _ ZnearestE (IZR z)) in *. destruct (Rlt_bool_spec (Rabs r) (bpow radix2 femax)) as [L|L].
  - destruct H as (_ & H & _). split; [intros _; exact L|intros _]. destruct (binary_normalize _ _ _ _ _ _ _ _); try discriminate; exact I.
  - split; [|lra]. intros F. exfalso. rewrite H in F. unfold binary_overflow in F. cbn in F. exact F.
Qed.
Lemma f_of_Z_finite : forall z, finite (f_of_Z z) <-> Z.abs z < 2 ^ 1024 - 2 ^ 970.
Proof.
  set (M := 2 ^ 1024 - 2 ^ 970).
  assert (A : finite (f_of_Z (M - 1))) by (vm_compute; exact I).
  assert (B : ~ finite (f_of_Z M)) by (vm_compute; tauto).
  rewrite f_of_Z_round in A, B. assert (P : 0 < M - 1) by (vm_compute; reflexivity).
  pose proof (fexp_correct fprec femax Hprec : Valid_exp (SpecFloat.fexp fprec femax)) as VE.
  intros z. rewrite f_of_Z_round, <- round_NE_abs, <- abs_IZR by exact VE.
  rewrite <- round_NE_abs, <- abs_IZR in A, B by exact VE. rewrite Z.abs_eq in A, B by lia. clearbody M.
  split; intros H.
  - destruct (Z.lt_ge_cases (Z.abs z) M) as [L|L]; [exact L|]. destruct B. eapply Rle_lt_trans; [|exact H].
    apply round_le; try typeclasses eauto. now apply IZR_le.
  - eapply Rle_lt_trans; [|exact A]. apply round_le; try typeclasses eauto. apply IZR_le. lia.
Qed.

Section Validated.
  Context {lm : libm}.
  Let N : Num spec_float := SF lm.
  Local Existing Instance N.

  Lemma assert_ok (c : res bool) : py_assert c = Ok tt <-> c = Ok true.
  Proof. destruct c as [[]|e|]; cbn; split; intros; congruence. Qed.
  Lemma and_ok (a b : res bool) : py_and a b = Ok true <-> a = Ok true /\ b = Ok true.
  Proof. destruct a as [[]|e|]; cbn; intuition congruence. Qed.
  Lemma seq_ok (r s : res unit) : (let! _ := r in s) = Ok tt <-> r = Ok tt /\ s = Ok tt.
  Proof. destruct r as [[]|e|]; cbn; intuition congruence. Qed.
  Lemma all_ok {A} (p : A -> res bool) l : for_in l (fun x _ => py_assert (p x)) tt = Ok tt <-> Forall (fun x => p x = Ok true) l.
  Proof.
    induction l as [|x l IH]; cbn [for_in]; [split; [constructor|reflexivity]|].
    rewrite Forall_cons_iff, <- IH, <- assert_ok. destruct (py_assert (p x)) as [[]|e|]; cbn [bind]; intuition congruence.
  Qed.

  Lemma number_data v : is_number v = true -> wellformed v -> data v.
  Proof. intros H W. destruct v; try discriminate; inversion W; constructor; assumption. Qed.
  Lemma num_data v x : num_of v = Some x -> wellformed v -> data v.
  Proof. intros H W. destruct v; try discriminate; inversion W; constructor; assumption. Qed.
  Lemma chain_data l : forall a, wellformed a -> Forall wellformed l -> chain_le a l = Ok true -> Forall data l.
  Proof.
    induction l as [|b l IH]; intros a Wa Wl H; [constructor|]. cbn [chain_le] in H. inversion Wl; subst.
    destruct (num_of a) eqn:Ea; [|discriminate]. destruct (num_of b) eqn:Eb; [|discriminate].
    destruct (nle s s0) eqn:En; [|discriminate]. constructor; [eapply num_data; eassumption|]. eapply IH; eassumption.
  Qed.
  Lemma dist_data v lb ub : SpecFloat.valid_binary fprec femax lb = true -> SpecFloat.valid_binary fprec femax ub = true ->
    isdistribution v lb ub = Ok true -> wellformed v -> data v.
  Proof.
    intros Vl Vu H W. assert (Wl : wellformed (PFloat lb)) by (constructor; assumption).
    assert (Wu : wellformed (PFloat ub)) by (constructor; assumption).
    assert (K : forall l, Forall wellformed l -> chain_le (PFloat lb) (l ++ [PFloat ub])%list = Ok true -> Forall data l).
    { intros l F C. apply chain_data in C; [|assumption|]; [apply Forall_app in C; tauto|]. apply Forall_app. auto. }
    destruct v as [z|x|b|s| |l|l]; try discriminate; try (inversion W; constructor; assumption).
    - constructor. inversion W; subst. destruct l as [|a [|b [|c [|? ?]]]]; try discriminate; apply K; assumption.
    - constructor. inversion W; subst. destruct l as [|a [|b [|c [|? ?]]]]; try discriminate; apply K; assumption.
  Qed.

  Lemma four_data v : wellformed v -> py_len v = Ok 4 ->
    (forall a b c d, py_item v 0 = Ok a -> py_item v 1 = Ok b -> py_item v 2 = Ok c -> py_item v 3 = Ok d ->
      is_number a = true /\ (wellformed b -> data b) /\ (wellformed c -> data c) /\ (wellformed d -> data d)) -> data v.
  Proof.
    intros W L K. destruct v as [z|x|b|s| |l|l]; try discriminate.
    - exfalso. cbn in L. injection L as L. destruct s as [|c0 [|c1 [|c2 [|c3 [|c4 s]]]]]; cbn [String.length] in L; try lia.
      destruct (K _ _ _ _ eq_refl eq_refl eq_refl eq_refl) as [? _]. discriminate.
    - cbn in L. injection L as L. destruct l as [|a [|b [|c [|d [|e l]]]]]; cbn [List.length] in L; try lia.
      destruct (K _ _ _ _ eq_refl eq_refl eq_refl eq_refl) as (A & B & C & D). inversion W as [| | | | |? F|]; subst.
      inversion_clear F as [|? ? F1 F']. inversion_clear F' as [|? ? F2 F]. inversion_clear F as [|? ? F3 F']. inversion_clear F' as [|? ? F4 F].
      constructor. repeat constructor; auto. now apply number_data.
    - cbn in L. injection L as L. destruct l as [|a [|b [|c [|d [|e l]]]]]; cbn [List.length] in L; try lia.
      destruct (K _ _ _ _ eq_refl eq_refl eq_refl eq_refl) as (A & B & C & D). inversion W as [| | | | | |? F]; subst.
      inversion_clear F as [|? ? F1 F']. inversion_clear F' as [|? ? F2 F]. inversion_clear F as [|? ? F3 F']. inversion_clear F' as [|? ? F4 F].
      constructor. repeat constructor; auto. now apply number_data.
  Qed.
  Lemma well_data v : valid_well v = Ok true -> wellformed v -> data v.
  Proof.
    unfold valid_well. intros H W. destruct (py_len v) as [n| |] eqn:L; try discriminate. cbn [bind] in H.
    destruct (Z.eqb_spec n 4) as [->|]; [|discriminate]. cbn [negb] in H. apply four_data; [assumption..|].
    intros a b c d A B C D. rewrite A, B, C, D in H. cbn [bind] in H. rewrite !and_ok in H. destruct H as (Ha & Hb & Hc & _ & Hd).
    injection Ha as Ha. injection Hb as Hb. injection Hc as Hc. repeat split; try assumption; try (now apply number_data).
    revert Hd. now apply dist_data.
  Qed.
  Lemma obs_data v : valid_obs v = Ok true -> wellformed v -> data v.
  Proof.
    unfold valid_obs. intros H W. destruct (py_len v) as [n| |] eqn:L; try discriminate. cbn [bind] in H.
    destruct (Z.eqb_spec n 4) as [->|]; [|discriminate]. cbn [negb] in H. apply four_data; [assumption..|].
    intros a b c d A B C D. rewrite A, B, C, D in H. cbn [bind] in H. rewrite !and_ok in H. destruct H as (Ha & Hb & Hc & Hd & _).
    injection Ha as Ha. injection Hb as Hb. injection Hc as Hc. injection Hd as Hd. repeat split; try assumption; now apply number_data.
  Qed.

  Lemma valid_z z : SpecFloat.valid_binary fprec femax (f_of_Z z) = true -> SpecFloat.valid_binary fprec femax (nZ z) = true.
  Proof. intros H. exact H. Qed.
  Lemma valid_inf : SpecFloat.valid_binary fprec femax ninf = true.
  Proof. reflexivity. Qed.
  Record checked (a : args spec_float) : Prop := {
    ck_project : exists s, projectname a = PStr s;
    ck_runtime : exists s, runtime a = PStr s;
    ck_target : is_int (target a) = true;
    ck_npaths : is_int (npaths a) = true;
    ck_numbers : Forall (fun v => is_number v = true) (smooth a :: rounded_arguments a);
    ck_confined : is_bool (confined a) = true;
    ck_dists : Forall (fun v => wellformed v -> data v) [c_dist a; p_dist a; t_dist a];
    ck_wells : exists w, stochastic_wells a = PList w /\ Forall (fun v => wellformed v -> data v) w;
    ck_obs : exists o, observations a = PList o /\ Forall (fun v => wellformed v -> data v) o
  }.
  Lemma validate_checked a : validate a = Ok tt -> checked a.
  Proof.
    unfold validate. rewrite !seq_ok.
    intros (P & Rt & T & Np & Du & Ba & Cd & Pd & Td & Wl & Ws & Ol & Os & Bu & Sp & Um & Sm & Co & To & Ma & _).
    apply all_ok in Ws, Os. apply assert_ok in P, Rt, T, Np, Du, Ba, Cd, Pd, Td, Wl, Ol, Bu, Sp, Um, Sm, Co, To, Ma.
    unfold positive_number in Bu, Sp, Um, Sm, To, Ma. apply and_ok in T, Np, Du, Wl, Ol, Bu, Sp, Um, Sm, To, Ma.
    assert (I : forall b, Ok b = Ok true -> b = true) by (intros b [= H]; exact H).
    destruct T as [T _], Np as [Np _], Du as [Du _], Wl as [Wl _], Ol as [Ol _], Bu as [Bu _], Sp as [Sp _], Um as [Um _], Sm as [Sm _], To as [To _], Ma as [Ma _].
    apply I in P, Rt, T, Np, Du, Ba, Wl, Ol, Bu, Sp, Um, Sm, Co, To, Ma.
    split; try assumption.
    - destruct (projectname a); try discriminate. eexists. reflexivity.
    - destruct (runtime a); try discriminate. eexists. reflexivity.
    - unfold rounded_arguments. repeat constructor; assumption.
    - pose proof (valid_z 0 eq_refl) as V0. pose proof (valid_z 1 eq_refl) as V1. pose proof valid_inf as Vi.
      constructor; [exact (dist_data _ _ _ V0 Vi Cd)|]. constructor; [exact (dist_data _ _ _ V0 V1 Pd)|]. constructor; [exact (dist_data _ _ _ V0 Vi Td)|]. constructor.
    - destruct (stochastic_wells a) as [z|x|b|s| |l|l]; try discriminate. exists l. split; [reflexivity|].
      eapply Forall_impl; [|exact Ws]. intros v. apply well_data.
    - destruct (observations a) as [z|x|b|s| |l|l]; try discriminate. exists l. split; [reflexivity|].
      eapply Forall_impl; [|exact Os]. intros v. apply obs_data.
  Qed.
End Validated.

Lemma f_of_Z_case : forall z, finite (f_of_Z z) \/ exists s, f_of_Z z = S754_infinity s.
Proof.
  intros z. unfold f_of_Z. rewrite normalize_equiv.
  pose proof (binary_normalize_correct fprec femax Hprec Hmax mode_NE z 0 false) as H. cbn zeta in H.
  destruct (Rlt_bool _ _).
  - left. destruct H as (_ & H & _). destruct (binary_normalize _ _ _ _ _ _ _ _); try discriminate; exact I.
  - right. rewrite H. eexists. reflexivity.
Qed.
Lemma val_f_ok : forall v, is_number v = true -> ((exists t, val_f 2 v = Ok t) <-> convertible v).
Proof.
  intros [z|x|b|s| |l|l] H; try discriminate; cbn [val_f convertible].
  - rewrite <- f_of_Z_finite. destruct (f_of_Z_case z) as [F|(s & E)].
    + split; [intros; exact F|intros _]. destruct (f_of_Z z); try contradiction; eexists; reflexivity.
    + rewrite E. split; [intros (t & D); discriminate|intros []].
  - split; intros; [exact I|eexists; reflexivity].
  - split; intros; [exact I|eexists; reflexivity].
Qed.
Lemma label_iff : forall p s, (exists t, label p s = Ok t) <-> exists t, s = Ok t.
Proof. intros p [t|e|]; cbn; split; intros (u & H); try discriminate; eexists; reflexivity. Qed.
Lemma put_iff : forall s (k : logged unit), snd (put s k) = Ok tt <-> (exists t, s = Ok t) /\ snd k = Ok tt.
Proof.
  intros [t|e|] k; cbn; split; intros H; try discriminate; try (destruct H as [(u & D) ?]; discriminate).
  - split; [eexists; reflexivity|exact H].
  - tauto.
Qed.
Lemma ok_iff : forall t : string, (exists u, Ok t = Ok u) <-> True.
Proof. intros t. split; intros; [exact I|]. exists t. reflexivity. Qed.
Lemma val_d_iff : forall v, (exists t, val_d v = Ok t) <-> integer_of v <> None.
Proof.
  intros [z|x|b|s| |l|l]; cbn; split; try (intros (t & D); discriminate); try (intros D; destruct (D eq_refl)); intros; try discriminate; eexists; reflexivity.
Qed.

(** A validated call is logged without an exception exactly if nrealizations is an integer and the integers among
    the arguments that are written with two decimals can be converted to float. *)
Lemma c100_returns : forall lm (a : args spec_float), @validate spec_float (SF lm) a = Ok tt ->
  (snd (log_the_run a) = Ok tt <-> integer_of (nrealizations a) <> None /\ Forall convertible (rounded_arguments a)).
Proof.
  intros lm a V. apply validate_checked in V. destruct V as [_ _ T Np Nu _ _ (w & Ws & _) (o & Os & _)].
  unfold log_the_run. rewrite Ws, Os. cbn [py_len bind elements].
  assert (SY : forall ls (k : logged unit), snd (say ls k) = snd k) by reflexivity.
  rewrite !SY. rewrite !put_iff, !label_iff, !ok_iff. rewrite !SY. rewrite !put_iff, !ok_iff. rewrite !SY. rewrite !put_iff, !ok_iff. rewrite !SY.
  rewrite !val_d_iff.
  assert (NR : (exists t, (let! b := more_than_one (nrealizations a) in let! t0 := val_d (nrealizations a) in
      Ok ("nrealizations = " ++ t0 ++ (if (b : bool) then " STOCHASTIC" else " DETERMINISTIC"))) = Ok t) <-> integer_of (nrealizations a) <> None).
  { rewrite <- val_d_iff. destruct (nrealizations a) as [z|x|b|s| |l|l]; cbn; split; intros (t & D); try discriminate; eexists; reflexivity. }
  rewrite NR. inversion_clear Nu as [|? ? N0 Nu']. unfold rounded_arguments in *.
  inversion_clear Nu' as [|? ? N1 Nu]. inversion_clear Nu as [|? ? N2 Nu']. inversion_clear Nu' as [|? ? N3 Nu]. inversion_clear Nu as [|? ? N4 Nu'].
  inversion_clear Nu' as [|? ? N5 Nu]. inversion_clear Nu as [|? ? N6 Nu']. inversion_clear Nu' as [|? ? N7 Nu].
  rewrite !val_f_ok by assumption.
  assert (IT : integer_of (target a) <> None) by (destruct (target a); try discriminate T; discriminate).
  assert (IN : integer_of (npaths a) <> None) by (destruct (npaths a); try discriminate Np; discriminate).
  split.
  - intros (_ & _ & _ & _ & D1 & D2 & D3 & _ & _ & _ & D4 & D5 & D6 & _ & _ & D7 & D8 & _). split; [exact D2|]. repeat (constructor; [assumption|]). constructor.
  - intros (D & F). inversion_clear F as [|? ? F1 F']. inversion_clear F' as [|? ? F2 F]. inversion_clear F as [|? ? F3 F']. inversion_clear F' as [|? ? F4 F].
    inversion_clear F as [|? ? F5 F']. inversion_clear F' as [|? ? F6 F]. inversion_clear F as [|? ? F7 F'].
    repeat split; assumption.
Qed.

(** Two validated calls with the same log have the same project name, run time, target, npaths and nrealizations
    (as integers), distributions, smooth, confined, wells and observations; the other arguments agree to within a
    hundredth.  Not proved, because it is false: that these are the same, too. *)
Lemma c100_determines_partial : forall lm (a b : args spec_float),
  @validate spec_float (SF lm) a = Ok tt -> @validate spec_float (SF lm) b = Ok tt ->
  Forall wellformed (arguments a) -> Forall wellformed (arguments b) ->
  snd (log_the_run a) = Ok tt -> snd (log_the_run b) = Ok tt -> fst (log_the_run a) = fst (log_the_run b) ->
  projectname a = projectname b /\ runtime a = runtime b /\
  same_integer (target a) (target b) /\ same_integer (npaths a) (npaths b) /\ same_integer (nrealizations a) (nrealizations b) /\
  c_dist a = c_dist b /\ p_dist a = p_dist b /\ t_dist a = t_dist b /\ smooth a = smooth b /\ confined a = confined b /\
  stochastic_wells a = stochastic_wells b /\ observations a = observations b /\
  Forall2 within_cent (rounded_arguments a) (rounded_arguments b).
Proof.
  assert (K : forall lm (a : args spec_float), @validate spec_float (SF lm) a = Ok tt -> Forall wellformed (arguments a) ->
    (exists s, projectname a = PStr s) /\ (exists s, runtime a = PStr s) /\ Forall data [c_dist a; p_dist a; t_dist a; smooth a; confined a] /\
    (exists w o, stochastic_wells a = PList w /\ observations a = PList o /\ Forall data w /\ Forall data o)).
  { intros lm a V W. apply validate_checked in V. destruct V as [P Rt _ _ Nu Co Di (w & Ws & Dw) (o & Os & Do)].
    rewrite Forall_forall in W. unfold arguments in W.
    assert (WW : forall l, wellformed (PList l) -> Forall (fun v => wellformed v -> data v) l -> Forall data l).
    { intros l Wl F. inversion Wl as [| | | | | |? Fl]; subst. rewrite Forall_forall in *. auto. }
    repeat split; try assumption.
    - inversion_clear Di as [|? ? D1 Di']. inversion_clear Di' as [|? ? D2 Di]. inversion_clear Di as [|? ? D3 Di'].
      inversion_clear Nu as [|? ? N0 Nu']. constructor; [apply D1, W; cbn; tauto|]. constructor; [apply D2, W; cbn; tauto|]. constructor; [apply D3, W; cbn; tauto|].
      constructor; [apply number_data; [exact N0|apply W; cbn; tauto]|]. constructor; [|constructor].
      destruct (confined a); try discriminate. constructor.
    - exists w, o. repeat split; try assumption; apply WW; try assumption; apply W; cbn; [rewrite Ws|rewrite Os]; tauto. }
  intros lm a b Va Vb Wa Wb La Lb E. destruct (K lm a Va Wa) as (A1 & A2 & A3 & A4). destruct (K lm b Vb Wb) as (B1 & B2 & B3 & B4).
  destruct (log_determines a b La Lb E A1 B1 A2 B2 A3 B3 A4 B4)
    as (? & ? & ? & ? & ? & ? & ? & ? & ? & ? & ? & ? & ? & ? & ? & ? & ? & ? & ?).
  repeat split; try assumption. unfold rounded_arguments. repeat (constructor; [assumption|]). constructor.
Qed.

(** ** Cases *)
Definition thousandths (lm : libm) (z : Z) : spec_float := @ndiv spec_float (SF lm) (@nZ spec_float (SF lm) z) (@nZ spec_float (SF lm) 1000).

(** log_the_run: "Log all of the defining arguments".  The tolerance is printed with two decimals: 0.001 and 0.002
    give the same log. *)
Lemma c100_determines_refuted : forall lm, exists a b : args spec_float, exists x y : spec_float,
  @validate spec_float (SF lm) a = Ok tt /\ @validate spec_float (SF lm) b = Ok tt /\
  Forall wellformed (arguments a) /\ Forall wellformed (arguments b) /\
  snd (log_the_run a) = Ok tt /\ log_the_run a = log_the_run b /\
  b = with_tol a (PFloat y) /\ tol a = PFloat x /\ (value y = 2 * value x)%R /\ (0 < value x)%R.
Proof.
  intros lm. set (d := @data_args spec_float (SF lm) barnesville "20200725").
  exists (with_tol d (PFloat (thousandths lm 1))), (with_tol d (PFloat (thousandths lm 2))), (thousandths lm 1), (thousandths lm 2).
  split; [vm_compute; reflexivity|]. split; [vm_compute; reflexivity|].
  assert (W : forall z, SpecFloat.valid_binary fprec femax (thousandths lm z) = true -> Forall wellformed (arguments (with_tol d (PFloat (thousandths lm z))))).
  { intros z V. repeat (constructor; [try (constructor; fail); try (constructor; exact V); try (vm_compute; repeat constructor)|]). constructor. }
  split; [apply W; vm_compute; reflexivity|]. split; [apply W; vm_compute; reflexivity|].
  split; [vm_compute; reflexivity|]. split; [vm_compute; reflexivity|]. split; [reflexivity|]. split; [reflexivity|].
  assert (Hv : thousandths lm 1 = S754_finite false 4611686018427388 (-62)) by (vm_compute; reflexivity).
  assert (Hu : thousandths lm 2 = S754_finite false 4611686018427388 (-61)) by (vm_compute; reflexivity).
  rewrite Hu, Hv. cbn [value]. assert (E : powerRZ 2 (-61) = (2 * powerRZ 2 (-62))%R).
  { change (-61) with (1 + -62). rewrite powerRZ_add by lra. rewrite powerRZ_1. reflexivity. }
  pose proof (powerRZ_lt 2 (-62) ltac:(lra)) as P. rewrite E. split; [ring|nra].
Qed.

(** The log of a shipped data set, from the line after the banner. *)
Lemma c100_log_example : forall lm,
  firstn 17 (skipn 10 (fst (log_the_run (@data_args spec_float (SF lm) barnesville "20200725")))) =
  ["project name  = Barnesville example"; "run time      = 20200725"; "target        = 0"; "npaths        = 200";
   "duration      = 3652.50"; "nrealizations = 200 STOCHASTIC"; "base          = 0.00"; "c_dist        = (1.0, 5.0, 20.0)";
   "p_dist        = (0.2, 0.25)"; "t_dist        = (100.0, 120.0, 150.0)"; "buffer        = 100.00"; "spacing       = 2.00";
   "umbra         = 4.00"; "smooth        = 2"; "confined      = True"; "tol           = 1.00"; "maxstep       = 10.00"].
Proof. intros lm. vm_compute. reflexivity. Qed.

(** Calls that pass the validation but cannot be logged: an integer tolerance too large for a float, a float
    number of realizations. *)
Lemma c100_returns_example : forall lm, let d := @data_args spec_float (SF lm) barnesville "20200725" in
  (@validate spec_float (SF lm) d = Ok tt /\ integer_of (nrealizations d) <> None /\ Forall convertible (rounded_arguments d)) /\
  (let a := with_tol d (PInt (2 ^ 1024)) in @validate spec_float (SF lm) a = Ok tt /\ snd (log_the_run a) = Raise OverflowError).
Proof.
  intros lm d. split.
  - split; [vm_compute; reflexivity|]. split; [discriminate|]. repeat (constructor; [vm_compute; reflexivity || exact I|]). constructor.
  - split; vm_compute; reflexivity.
Qed.
