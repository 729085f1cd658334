(** * Lines written by the drivers and at the end of a run (C102) *)
From Coq Require Import Reals String Ascii SpecFloat ZArith Lia Lra Bool.
From Flocq Require Import Core BinarySingleNaN.
From Verif Require Import Py Num ModelAquifer ModelDist ModelObs ModelText ModelLog SpecText SpecTable SpecLines ProofFloat ProofText ProofTextRepr ProofTable.
Import ListNotations.
Local Open Scope string_scope.
Local Open Scope Z_scope.

Lemma shows_fixed : forall w n x, finite x -> shows n (pad w (fmt_f false false n x)) x.
Proof. intros w n x F. unfold shows. destruct (c98_padding w (fmt_f false false n x)) as (_ & -> & _). now apply c98_fixed. Qed.
Lemma shows_fixed0 : forall plus comma n x, finite x -> shows n (fmt_f plus comma n x) x.
Proof. intros. now apply c98_fixed. Qed.
Lemma shows_scientific : forall plus n x, (1 <= n)%nat -> normal x -> shows_e n (fmt_e plus n x) x.
Proof.
  intros plus n x Hn [F V]. destruct (Req_dec (value x) 0) as [E|E].
  - destruct x as [s|s| |s m e]; try easy.
    + exists 0, 0. split; [|split; [reflexivity|intros C; destruct (C eq_refl)]]. cbn [fmt_e negative].
      change "e+00" with ("e" ++ exponent_text 0). apply read_e_text; cbn; lia.
    + exfalso. pose proof (absval_pos m e) as P. unfold absval in P. cbn [value] in E. destruct s; nra.
  - destruct (c98_scientific plus n x Hn F E V) as (v & k & A & B & C). exists v, k. split; [exact A|]. split; [contradiction|auto].
Qed.
Lemma shows_e_blank : forall n t x, shows_e n t x -> shows_e n (" " ++ t) x.
Proof.
  intros n t x (v & k & A & B). exists v, k. split; [|exact B]. unfold read_e in *. cbn [split_at append Ascii.eqb].
  destruct (split_at "e" t) as [[u w]|] eqn:E; [|discriminate]. rewrite <- A. clear. unfold split_at. cbn. reflexivity.
Qed.
Lemma shows_blank : forall n t x, shows n t x -> shows n (" " ++ t) x.
Proof. intros n t x (v & A & B). exists v. auto. Qed.

(** ** Lists of numbers *)
Definition no_comma (c : ascii) : bool := negb (Ascii.eqb c ",").
Lemma parts_plain : forall s, over no_comma s = true -> parts s = [s].
Proof.
  induction s as [|c s IH]; intros H; [reflexivity|]. cbn [over] in H. apply andb_prop in H. destruct H as [A B]. cbn [parts].
  unfold no_comma in A. destruct (Ascii.eqb c ","); [discriminate|]. now rewrite IH.
Qed.
Lemma parts_app : forall s t, over no_comma s = true -> parts (s ++ "," ++ t) = s :: parts t.
Proof.
  induction s as [|c s IH]; intros t H; [reflexivity|]. cbn [over] in H. apply andb_prop in H. destruct H as [A B]. specialize (IH t B). cbn [append] in *. cbn [parts].
  unfold no_comma in A. destruct (Ascii.eqb c ","); [discriminate|]. rewrite IH. reflexivity.
Qed.
Lemma parts_join : forall s l, Forall (fun t => over no_comma t = true) (s :: l) ->
  parts (join ", " (s :: l)) = s :: map (fun t => " " ++ t) l.
Proof.
  intros s l. revert s. induction l as [|t l IH]; intros s H; inversion_clear H as [|? ? A B].
  - now apply parts_plain.
  - change (join ", " (s :: t :: l)) with (s ++ "," ++ " " ++ join ", " (t :: l)). rewrite parts_app by assumption. cbn [map]. f_equal.
    inversion B as [|? ? C D]; subst. specialize (IH t B).
    assert (K : forall u, parts (" " ++ u) = match parts u with p :: ps => (" " ++ p) :: ps | [] => [" "] end) by (intros u; cbn [parts append]; destruct (parts u); reflexivity).
    rewrite K, IH. reflexivity.
Qed.
Lemma over_nocomma_digs : forall k n, over no_comma (digs k n) = true.
Proof.
  intros. eapply over_weaken; [|apply over_digs]. intros c. unfold digitb, digit_of, no_comma.
  destruct c as [[] [] [] [] [] [] [] []]; cbn; intros; try reflexivity; discriminate.
Qed.
Lemma over_nocomma_fixed : forall n v, over no_comma (fixed_digits false n v) = true.
Proof.
  intros n v. unfold fixed_digits. rewrite over_app. apply andb_true_intro. split; [apply over_nocomma_digs|].
  destruct n; [reflexivity|]. rewrite over_app, over_nocomma_digs. reflexivity.
Qed.
Lemma over_nocomma_sign : forall p s, over no_comma (sign_text p s) = true.
Proof. intros [] []; reflexivity. Qed.
Lemma nocomma_f : forall p n x, over no_comma (fmt_f p false n x) = true.
Proof. intros p n [s|s| |s m e]; cbn [fmt_f]; rewrite over_app, over_nocomma_sign; try reflexivity; apply over_nocomma_fixed. Qed.
Lemma nocomma_e : forall p n x, over no_comma (fmt_e p n x) = true.
Proof.
  intros p n [s|s| |s m e]; cbn [fmt_e]; try (rewrite over_app, over_nocomma_sign; reflexivity).
  - rewrite !over_app, over_nocomma_sign, over_nocomma_fixed. reflexivity.
  - destruct (significant n m e) as [v k]. rewrite !over_app, over_nocomma_sign, over_nocomma_fixed. unfold exponent_text. rewrite over_app.
    destruct (k <? 0), (Z.abs k <? 10); unfold natural; rewrite over_nocomma_digs; reflexivity.
Qed.

Lemma six_shown : forall c, Forall normal (six_of c) ->
  exists body, six c = "(" ++ body ++ ")" /\ Forall2 (shows_e 4) (parts body) (six_of c).
Proof.
  intros c H. eexists. split; [reflexivity|]. unfold six_of in *.
  inversion_clear H as [|? ? H1 H']. inversion_clear H' as [|? ? H2 H]. inversion_clear H as [|? ? H3 H']. inversion_clear H' as [|? ? H4 H].
  inversion_clear H as [|? ? H5 H']. inversion_clear H' as [|? ? H6 H].
  cbn [map]. rewrite parts_join by (repeat (constructor; [apply nocomma_e|]); constructor). cbn [map].
  constructor; [apply shows_scientific; [lia|assumption]|].
  repeat (constructor; [apply shows_e_blank, shows_scientific; [lia|assumption]|]). constructor.
Qed.

(** The three lines about a realization show its number, the base, the conductivity, porosity and thickness to two decimals,
    the recharge and the coefficients (expected and drawn) to five significant digits, in this order. *)
Lemma c102_realization : forall i base k n h recharge ev drawn,
  Forall finite [base; k; n; h] -> Forall normal (recharge :: six_of ev ++ six_of drawn) ->
  exists number values first others,
    realization_text i base k n h recharge ev drawn =
      ["Realization #" ++ number ++ ": " ++ values; "    coef ev:  (" ++ first ++ ")"; "    coef rng: (" ++ others ++ ")"] /\
    (exists a, read number = Some a /\ meaning a = IZR i /\ n_decimals a = 0%nat) /\
    Forall2 (shows 2) (firstn 4 (parts values)) [base; k; n; h] /\ Forall2 (shows_e 4) (skipn 4 (parts values)) [recharge] /\
    Forall2 (shows_e 4) (parts first) (six_of ev) /\ Forall2 (shows_e 4) (parts others) (six_of drawn).
Proof.
  intros i base k n h recharge ev drawn F V. inversion_clear V as [|? ? V1 V2]. apply (proj1 (Forall_app normal (six_of ev) (six_of drawn))) in V2. destruct V2 as [V2 V3].
  destruct (six_shown ev V2) as (b1 & E1 & S1). destruct (six_shown drawn V3) as (b2 & E2 & S2).
  unfold realization_text. rewrite E1, E2. do 4 eexists. split; [reflexivity|]. split.
  { destruct (c98_integer i) as (a & A1 & A2 & A3 & _). exists a. auto. }
  split; [|split; [|split; assumption]].
  - rewrite parts_join by (repeat (constructor; [first [apply nocomma_f|apply nocomma_e]|]); constructor). cbn [map firstn].
    inversion_clear F as [|? ? F1 F']. inversion_clear F' as [|? ? F2 F]. inversion_clear F as [|? ? F3 F']. inversion_clear F' as [|? ? F4 F].
    constructor; [now apply shows_fixed0|]. repeat (constructor; [now apply shows_blank, shows_fixed0|]). constructor.
  - rewrite parts_join by (repeat (constructor; [first [apply nocomma_f|apply nocomma_e]|]); constructor). cbn [map skipn].
    constructor; [apply shows_e_blank, shows_scientific; [lia|assumption]|constructor].
Qed.

(** The parameters and coefficients that the deterministic driver logs. *)
Lemma c102_deterministic : forall base k n recharge c,
  Forall finite [base; k; n] -> Forall normal (recharge :: six_of c) ->
  exists tb tk tn tr ts,
    deterministic_text base k n recharge c =
      List.app [newline; "Deterministic Capture Zone Parameters: "; "base         = " ++ tb; "conductivity = " ++ tk; "porosity     = " ++ tn;
                "recharge     = " ++ tr; newline; "Conic Discharge Potential Coefficients: "]
               (map (fun '(name, t) => name ++ " = " ++ t) (combine ["A"; "B"; "C"; "D"; "E"; "F"] ts)) /\
    shows 2 tb base /\ shows 2 tk k /\ shows 2 tn n /\ shows_e 4 tr recharge /\ Forall2 (shows_e 4) ts (six_of c).
Proof.
  intros base k n recharge c F V. inversion_clear V as [|? ? V1 V2]. rewrite Forall_forall in F.
  exists (fmt_f false false 2 base), (fmt_f false false 2 k), (fmt_f false false 2 n), (fmt_e true 4 recharge), (map (fmt_e true 4) (six_of c)).
  split; [reflexivity|]. do 3 (split; [apply shows_fixed0, F; cbn; tauto|]). split; [apply shows_scientific; [lia|assumption]|].
  induction V2 as [|x l Hx V2 IH]; constructor; [apply shows_scientific; [lia|assumption]|exact IH].
Qed.

(** ** The table of capture probabilities *)
Lemma grouped_length : forall f n k, (1 <= k)%nat -> 0 <= n < 10 ^ (3 * Z.of_nat k) -> (String.length (grouped_ f n) <= 4 * k - 1)%nat.
Proof.
  assert (W : forall n k, (1 <= k)%nat -> 0 <= n < 10 ^ (3 * Z.of_nat k) -> (String.length (natural n) <= 4 * k - 1)%nat).
  { intros n k Hk H. pose proof (natural_length n (3 * k) ltac:(lia)) as L. rewrite Nat2Z.inj_mul in L. specialize (L H). lia. }
  induction f as [|f IH]; intros n k Hk H; cbn [grouped_]; [now apply W|].
  destruct (Z.ltb_spec n 1000); [now apply W|]. rewrite !length_app_s, digs_length. cbn [String.length].
  destruct k as [|[|k]]; [lia|cbn in H; lia|]. specialize (IH (n / 1000) (S k) ltac:(lia)).
  assert (0 <= n / 1000 < 10 ^ (3 * Z.of_nat (S k))).
  { replace (3 * Z.of_nat (S (S k))) with (3 + 3 * Z.of_nat (S k)) in H by lia. rewrite Z.pow_add_r in H by lia.
    split; [apply Z.div_pos; lia|apply Z.div_lt_upper_bound; lia]. }
  specialize (IH H1). lia.
Qed.
Lemma scaled_bound : forall s m e n b, (Rabs (value (S754_finite s m e)) * 10 ^ n <= IZR b)%R -> 0 <= scaled m e (Z.of_nat n) <= b.
Proof.
  intros s m e n b H. pose proof (scaled_spec m e (Z.of_nat n)) as [Q _]. pose proof (scaled_nonneg m e (Z.of_nat n)) as P. apply abs_le in Q.
  rewrite value_abs in H. rewrite <- pow_powerRZ in Q. split; [exact P|].
  assert (scaled m e (Z.of_nat n) < b + 1); [|lia]. apply lt_IZR. rewrite plus_IZR. lra.
Qed.
Lemma number_length : forall comma n x b k, finite x -> (Rabs (value x) * 10 ^ n <= IZR b)%R ->
  (forall v, 0 <= v <= b -> (String.length (fixed_digits comma n v) <= k)%nat) -> (String.length (fmt_f false comma n x) <= S k)%nat.
Proof.
  intros comma n x b k F B K. assert (L : forall s, (String.length (sign_text false s) <= 1)%nat) by (intros []; cbn; lia).
  destruct x as [s|s| |s m e]; try easy; cbn [fmt_f]; rewrite length_app_s; specialize (L s).
  - assert (0 <= b) by (apply le_IZR; eapply Rle_trans; [|exact B]; cbn; rewrite Rabs_R0; lra).
    specialize (K 0 ltac:(lia)). lia.
  - specialize (K _ (scaled_bound s m e n b B)). lia.
Qed.
Lemma line_fields : forall p area acres, fits_row (p, area, acres) ->
  let line := decile_line (p, area, acres) in
  String.length line = 42%nat /\ shows 3 (field_p line) p /\ shows 0 (field_area line) area /\ shows 2 (field_acres line) acres.
Proof.
  intros p area acres (Fp & Fa & Fc & Bp & Ba & Bc) line.
  assert (Lp : (String.length (fmt_f false false 3 p) <= 6)%nat).
  { apply (number_length false 3 p 1000 5 Fp); [cbn; lra|]. intros v Hv. unfold fixed_digits. rewrite !length_app_s, digs_length. cbn [String.length].
    pose proof (natural_length (v / 10 ^ Z.of_nat 3) 1 ltac:(lia)) as N. cbn [Z.of_nat Pos.of_succ_nat Pos.succ] in N.
    change (10 ^ 3) with 1000 in *. change (10 ^ 1) with 10 in N. cbn [Z.of_nat Pos.of_succ_nat Pos.succ]. change (10 ^ 3) with 1000.
    assert (0 <= v / 1000 < 10) by (split; [apply Z.div_pos; lia|apply Z.div_lt_upper_bound; lia]). specialize (N H). lia. }
  assert (La : (String.length (fmt_f false true 0 area) <= 16)%nat).
  { apply (number_length true 0 area 999999999999 15 Fa); [cbn; lra|]. intros v Hv. unfold fixed_digits. rewrite app_nil_s.
    cbn [Z.of_nat]. rewrite Z.pow_0_r, Z.div_1_r. apply (grouped_length _ _ 4); [lia|]. cbn. lia. }
  assert (Lc : (String.length (fmt_f false true 2 acres) <= 16)%nat).
  { eapply Nat.le_trans; [apply (number_length true 2 acres 99999999900 14 Fc); [cbn; lra|]|lia]. intros v Hv. unfold fixed_digits. rewrite !length_app_s, digs_length. cbn [String.length].
    pose proof (grouped_length (Z.to_nat (Z.log2 (v / 10 ^ Z.of_nat 2))) (v / 10 ^ Z.of_nat 2) 3 ltac:(lia)) as N.
    change (10 ^ Z.of_nat 2) with 100 in *. change (10 ^ (3 * Z.of_nat 3)) with 1000000000 in N.
    assert (0 <= v / 100 < 1000000000) by (split; [apply Z.div_pos; lia|apply Z.div_lt_upper_bound; lia]). specialize (N H). unfold grouped. lia. }
  pose proof (c98_padding 8 (fmt_f false false 3 p)) as (P1 & P2 & _).
  pose proof (c98_padding 16 (fmt_f false true 0 area)) as (A1 & A2 & _).
  pose proof (c98_padding 16 (fmt_f false true 2 acres)) as (C1 & C2 & _).
  unfold line, decile_line, field_p, field_area, field_acres.
  set (u := pad 8 (fmt_f false false 3 p)) in *. set (v := pad 16 (fmt_f false true 0 area)) in *. set (w := pad 16 (fmt_f false true 2 acres)) in *.
  clearbody u v w.
  assert (Lu : String.length u = 8%nat) by (rewrite P1; lia).
  assert (Lv : String.length v = 16%nat) by (rewrite A1; lia).
  assert (Lw : String.length w = 16%nat) by (rewrite C1; lia).
  split; [rewrite !length_app_s, Lu, Lv, Lw; reflexivity|]. split; [|split].
  - rewrite (front u) by assumption. unfold shows. rewrite P2. now apply c98_fixed.
  - change 9%nat with (8 + (1 + 0))%nat. rewrite (skip u) by assumption. rewrite (skip " ") by reflexivity. rewrite (front v) by assumption.
    unfold shows. rewrite A2. now apply c98_fixed.
  - change 26%nat with (8 + (1 + (16 + (1 + 0))))%nat. rewrite (skip u) by assumption. rewrite (skip " ") by reflexivity.
    rewrite (skip v) by assumption. rewrite (skip " ") by reflexivity.
    replace w with (w ++ "") by apply app_nil_s. rewrite (front w) by assumption. unfold shows. rewrite C2. now apply c98_fixed.
Qed.

(** The table of capture probabilities has one line for each level, in order, after five lines of heading and before the rule;
    its three fields show the probability to three decimals, the area to the unit and the acres to two decimals. *)
Lemma c102_deciles : forall rows, Forall fits_row rows ->
  List.length (deciles_text rows) = (List.length rows + 6)%nat /\
  forall i p area acres, nth_error rows i = Some (p, area, acres) ->
    exists line, nth_error (deciles_text rows) (5 + i) = Some line /\ String.length line = 42%nat /\
      shows 3 (field_p line) p /\ shows 0 (field_area line) area /\ shows 2 (field_acres line) acres.
Proof.
  intros rows H. unfold deciles_text. split; [rewrite !app_length, map_length; cbn [List.length]; lia|].
  intros i p area acres E. exists (decile_line (p, area, acres)). split.
  - rewrite nth_error_app2 by (cbn; lia). cbn [List.length]. replace (5 + i - 5)%nat with i by lia.
    rewrite nth_error_app1 by (rewrite map_length; apply nth_error_Some; congruence). now rewrite nth_error_map, E.
  - rewrite Forall_forall in H. apply (line_fields p area acres). apply H. eapply nth_error_In, E.
Qed.

(** The area of the deterministic capture zone, to the unit, and in acres, to two decimals. *)
Lemma c102_area : forall area, finite area ->
  exists t u, area_text area = [newline; "Capture Zone Area:"; t ++ " [m^2]"; u ++ " [acres]"] /\ shows 0 t area /\
    (finite (SFdiv fprec femax area (SFdiv fprec femax (f_of_Z 404686) (f_of_Z 100))) ->
     shows 2 u (SFdiv fprec femax area (SFdiv fprec femax (f_of_Z 404686) (f_of_Z 100)))).
Proof.
  intros area F. do 2 eexists. split; [reflexivity|]. split; [now apply shows_fixed0|]. intros G. now apply shows_fixed0.
Qed.

(** A realization with the values of the example of the documentation, a table of two levels. *)
Definition tenth (z : Z) : spec_float := SFdiv fprec femax (f_of_Z z) (f_of_Z 10).
Definition sample_coef : coef6 spec_float := {| cA := tenth (-3); cB := tenth 25; cC := f_of_Z 0; cD := tenth 7; cE := f_of_Z (-12); cF := f_of_Z 123456 |}.
Lemma magnitude_check : forall s m e b, e <= 0 -> Zpos m <= b * 2 ^ (- e) -> (Rabs (value (S754_finite s m e)) <= IZR b)%R.
Proof.
  intros s m e b He H. rewrite value_abs. apply IZR_le in H. rewrite mult_IZR in H.
  assert (P : (0 < powerRZ 2 e)%R) by (apply powerRZ_lt; lra).
  assert (Q : (IZR (2 ^ (- e)) * powerRZ 2 e = 1)%R).
  { replace (- e) with (Z.of_nat (Z.to_nat (- e))) by lia. rewrite <- pow_IZR, pow_powerRZ, <- powerRZ_add by lra.
    replace (Z.of_nat (Z.to_nat (- e)) + e) with 0 by lia. reflexivity. }
  apply Rle_trans with (IZR b * IZR (2 ^ (- e)) * powerRZ 2 e)%R; [apply Rmult_le_compat_r; [lra|exact H]|]. rewrite Rmult_assoc, Q. lra.
Qed.
Lemma c102_lines_example :
  Forall finite [tenth 0; tenth 205; tenth 2; f_of_Z 30] /\ Forall normal (tenth 1 :: six_of sample_coef ++ six_of sample_coef) /\
  realization_text 7 (tenth 0) (tenth 205) (tenth 2) (f_of_Z 30) (tenth 1) sample_coef sample_coef =
    [ "Realization #7: 0.00, 20.50, 0.20, 30.00, 1.0000e-01";
      "    coef ev:  (-3.0000e-01, +2.5000e+00, +0.0000e+00, +7.0000e-01, -1.2000e+01, +1.2346e+05)";
      "    coef rng: (-3.0000e-01, +2.5000e+00, +0.0000e+00, +7.0000e-01, -1.2000e+01, +1.2346e+05)" ] /\
  Forall fits_row [(tenth 1, f_of_Z 1234567, tenth 3051); (tenth 9, f_of_Z 0, f_of_Z 0)] /\
  map decile_line [(tenth 1, f_of_Z 1234567, tenth 3051); (tenth 9, f_of_Z 0, f_of_Z 0)] =
    [ "   0.100        1,234,567           305.10"; "   0.900                0             0.00" ] /\
  area_text (f_of_Z 1234567) = [newline; "Capture Zone Area:"; "1234567 [m^2]"; "305.07 [acres]"].
Proof.
  split; [repeat constructor|]. split; [repeat constructor|]. split; [vm_compute; reflexivity|]. split; [|split; vm_compute; reflexivity].
  constructor; [|constructor; [|constructor]]; unfold fits_row; (split; [exact I|]); (split; [exact I|]); (split; [exact I|]).
  - let p := eval vm_compute in (tenth 1) in change (tenth 1) with p. let p := eval vm_compute in (f_of_Z 1234567) in change (f_of_Z 1234567) with p.
    let p := eval vm_compute in (tenth 3051) in change (tenth 3051) with p. repeat split; apply magnitude_check; vm_compute; congruence.
  - let p := eval vm_compute in (tenth 9) in change (tenth 9) with p. let p := eval vm_compute in (f_of_Z 0) in change (f_of_Z 0) with p.
    split; [apply magnitude_check; vm_compute; congruence|]. cbn. rewrite Rabs_R0. lra.
Qed.
