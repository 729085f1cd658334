(** * Tables with any columns *)
From Coq Require Import Reals String Ascii SpecFloat ZArith Lia Lra Bool List.
From Verif Require Import Py Num ModelAquifer ModelDist ModelObs ModelText ModelLog SpecText SpecTable SpecLines ProofFloat ProofText ProofTextRepr ProofTable ProofLines SpecColumns.
Import ListNotations.
Local Open Scope string_scope.

Lemma concat_cons (t : string) ts : String.concat "" (t :: ts) = t ++ String.concat "" ts.
Proof. destruct ts; cbn [String.concat]; [now rewrite app_nil_s|reflexivity]. Qed.
Lemma concat_parts : forall ts ws, map String.length ts = ws ->
  String.length (String.concat "" ts) = list_sum ws /\
  forall j t, nth_error ts j = Some t -> substring (list_sum (firstn j ws)) (nth j ws 0%nat) (String.concat "" ts) = t.
Proof.
  induction ts as [|a ts IH]; intros ws <-; [split; [reflexivity|intros [|j] t H; discriminate H]|]. destruct (IH _ eq_refl) as (L & N). rewrite concat_cons. cbn [map list_sum fold_right]. split.
  - rewrite length_app_s, L. reflexivity.
  - intros [|j] t H; cbn [nth_error] in H.
    + injection H as ->. cbn [firstn list_sum fold_right nth]. now apply front.
    + cbn [firstn list_sum fold_right nth]. rewrite (skip a) by reflexivity. exact (N j t H).
Qed.
Lemma labelled : forall l ts ws, String.length l = 5%nat -> map String.length ts = ws ->
  let line := l ++ String.concat "" ts in String.length line = (5 + list_sum ws)%nat /\ label_of line = l /\ forall j t, nth_error ts j = Some t -> cell ws j line = t.
Proof.
  intros l ts ws L E line. destruct (concat_parts ts ws E) as (L2 & N). unfold line. split; [rewrite length_app_s, L, L2; reflexivity|]. split; [unfold label_of; now apply front|].
  intros j t H. unfold cell. rewrite (skip l) by exact L. now apply N.
Qed.

Lemma pad_to w s : (String.length s <= w)%nat -> String.length (pad w s) = w.
Proof. intros H. destruct (c98_padding w s) as (-> & _). lia. Qed.

(** No text is shorter than that of 1. *)
Definition rest (n : nat) : nat := match n with O => 0%nat | _ => S n end.
Lemma digits_length n v : String.length (fixed_digits false n v) = (String.length (natural (v / 10 ^ Z.of_nat n)) + rest n)%nat.
Proof. unfold fixed_digits. rewrite length_app_s. f_equal. destruct n as [|n]; [reflexivity|]. rewrite length_app_s, digs_length. reflexivity. Qed.
Lemma natural_some v : (1 <= String.length (natural v))%nat.
Proof. unfold natural. rewrite digs_length. unfold ndigits. destruct (Z.to_nat (Z.log2 v)) as [|f]; cbn [ndigits_]; [lia|]. destruct (v <? 10)%Z; lia. Qed.
Lemma one_is : f_of_Z 1 = S754_finite false 4503599627370496 (-52). Proof. vm_compute. reflexivity. Qed.
Lemma scaled_one n : scaled 4503599627370496 (-52) (Z.of_nat n) = (10 ^ Z.of_nat n)%Z.
Proof.
  unfold scaled. rewrite (Z.max_l (Z.of_nat n)), (Z.max_r (- Z.of_nat n)) by lia. set (t := (10 ^ Z.of_nat n)%Z). change (Z.pos 4503599627370496 * 2 ^ Z.max (-52) 0)%Z with 4503599627370496%Z. change (2 ^ Z.max (- (-52)) 0 * 10 ^ 0)%Z with 4503599627370496%Z.
  unfold round_even. replace (4503599627370496 * t)%Z with (t * 4503599627370496)%Z by ring. rewrite Z.div_mul, Z.mod_mul by lia. cbn. reflexivity.
Qed.
Lemma one_fixed n : String.length (fmt_f false false n (f_of_Z 1)) = (1 + rest n)%nat.
Proof.
  rewrite one_is. cbn [fmt_f sign_text]. change ("" ++ ?x) with x. rewrite digits_length, scaled_one, Z.div_same by (apply Z.pow_nonzero; lia). reflexivity.
Qed.
Lemma one_scientific n : String.length (fmt_e false n (f_of_Z 1)) = (5 + rest n)%nat.
Proof.
  rewrite one_is. cbn [fmt_e]. unfold significant. change (decimal_exp 4503599627370496 (-52)) with 0%Z. rewrite Z.sub_0_r, scaled_one. unfold carry. destruct (Z.eqb_spec (10 ^ Z.of_nat n) (10 ^ (Z.of_nat n + 1))) as [E|_].
  { rewrite Z.pow_add_r in E by lia. assert (0 < 10 ^ Z.of_nat n)%Z by (apply Z.pow_pos_nonneg; lia). lia. }
  rewrite !length_app_s, digits_length, Z.div_same by (apply Z.pow_nonzero; lia). cbn. lia.
Qed.
Lemma not_shorter c x : finite x -> (width c <= String.length (by_code c x))%nat.
Proof.
  intros Fx. unfold width. destruct c as [w n|w n]; cbn [by_code]; rewrite (proj1 (c98_padding w _)), (proj1 (c98_padding w (_ x))); apply Nat.max_le_compat_l.
  - rewrite one_fixed. destruct x as [s|s| |s m e]; try easy; cbn [fmt_f]; rewrite length_app_s, digits_length; match goal with |- context [natural ?v] => pose proof (natural_some v) end; lia.
  - rewrite one_scientific. destruct x as [s|s| |s m e]; try easy; cbn [fmt_e].
    + rewrite !length_app_s, digits_length. match goal with |- context [natural ?v] => pose proof (natural_some v) end. cbn [String.length]. lia.
    + destruct (significant n m e) as [v k]. rewrite !length_app_s, digits_length. unfold exponent_text. rewrite length_app_s. pose proof (natural_some (v / 10 ^ Z.of_nat n)).
      assert (2 <= String.length (if (Z.abs k <? 10)%Z then digs 2 (Z.abs k) else natural (Z.abs k)))%nat.
      { destruct (Z.ltb_spec (Z.abs k) 10); [reflexivity|]. unfold natural. rewrite digs_length. destruct (ndigits_spec (Z.abs k) ltac:(lia)) as (U & V & W). destruct (Nat.le_gt_cases 2 (ndigits (Z.abs k))) as [|C]; [assumption|]. exfalso. assert (10 ^ Z.of_nat (ndigits (Z.abs k)) <= 10 ^ 1)%Z by (apply Z.pow_le_mono_r; lia). change (10 ^ 1)%Z with 10%Z in *. lia. }
      destruct (k <? 0)%Z; cbn [String.length]; lia.
Qed.

Lemma times_length n s : String.length s = 1%nat -> String.length (times n s) = n.
Proof. intros H. induction n as [|n IH]; [reflexivity|]. cbn [times]. rewrite length_app_s, H, IH. reflexivity. Qed.
Lemma center_length w s : (String.length s <= w)%nat -> String.length (center w s) = w.
Proof. intros H. unfold center. rewrite !length_app_s, !spaces_length. pose proof (Nat.div_le_upper_bound (w - String.length s) 2 (w - String.length s) ltac:(lia) ltac:(lia)). lia. Qed.

Lemma map_combine_length {A} (g : code -> A -> string) : forall (cs : list code) (xs : list A), List.length xs = List.length cs ->
  (forall j c x, nth_error cs j = Some c -> nth_error xs j = Some x -> String.length (g c x) = width c) -> map String.length (map (fun '(c, x) => g c x) (combine cs xs)) = map width cs.
Proof.
  induction cs as [|c cs IH]; intros [|x xs] L H; try discriminate L; [reflexivity|]. cbn [combine map]. f_equal; [exact (H 0%nat c x eq_refl eq_refl)|]. apply IH; [cbn in L; lia|]. intros j. exact (H (S j)).
Qed.
Lemma nth_combine {A} (g : code -> A -> string) : forall (cs : list code) (xs : list A) j c x, nth_error cs j = Some c -> nth_error xs j = Some x -> nth_error (map (fun '(c, x) => g c x) (combine cs xs)) j = Some (g c x).
Proof.
  induction cs as [|c0 cs IH]; intros [|x0 xs] [|j] c x Hc Hx; try discriminate Hc; try discriminate Hx; cbn [combine map nth_error] in *; [congruence|]. now apply IH.
Qed.

Lemma row_of c x n : match c with CodeF _ _ => True | CodeE _ n => (1 <= n)%nat end -> normal x -> n = by_code c x -> shows_as c n x.
Proof.
  intros Hc Hx ->. destruct c as [w n|w n]; cbn [by_code shows_as].
  - exists (fmt_f false false n x). split; [apply pad_then|]. apply shows_fixed0. exact (proj1 Hx).
  - exists (fmt_e false n x). split; [apply pad_then|]. now apply shows_scientific.
Qed.

(** C129.  The table of [summary_statistics], for any columns with format codes like 12.2f and 9.4e.  If no entry is wider than the text of 1 in its column then
    all lines have the same length, and each cell shows the statistic of its row and column. *)
Lemma c129_table : forall (cs : list code) (names : list string) (title : string) (st : list (stats spec_float)),
  List.length names = List.length cs -> List.length st = List.length cs ->
  (forall j c name s, nth_error cs j = Some c -> nth_error names j = Some name -> nth_error st j = Some s -> roomy c name s) ->
  let ws := map (fun c => String.length (by_code c (f_of_Z 1))) cs in (String.length title <= 5 + list_sum ws)%nat ->
  exists top rule1 head rule2 cnt mn md mx av sd rule3,
  table cs names title st = [top; rule1; head; rule2; cnt; mn; md; mx; av; sd; rule3] /\
  (forall line, In line (table cs names title st) -> String.length line = (5 + list_sum ws)%nat) /\
  (exists u v, top = u ++ title ++ v) /\
  map label_of [head; cnt; mn; md; mx; av; sd] = ["     "; "cnt: "; "min: "; "med: "; "max: "; "avg: "; "std: "] /\
  forall j c name s, nth_error cs j = Some c -> nth_error names j = Some name -> nth_error st j = Some s ->
    blanks_then name (cell ws j head) /\
    (exists a, read (cell ws j cnt) = Some a /\ meaning a = IZR (s_cnt s) /\ n_decimals a = 0%nat) /\
    Forall2 (shows_as c) (map (cell ws j) [mn; md; mx; av; sd]) (statistics s).
Proof.
  intros cs names title st Ln Ls HR ws Ht. assert (TW : total_width cs = (5 + list_sum ws)%nat) by reflexivity.
  assert (Pick : forall j c s, nth_error cs j = Some c -> nth_error st j = Some s -> exists name, roomy c name s).
  { intros j c s Hc Hs. destruct (nth_error names j) as [name|] eqn:En; [exists name; exact (HR j c name s Hc En Hs)|]. apply nth_error_None in En. assert (j < List.length cs)%nat by (apply nth_error_Some; congruence). lia. }
  assert (Pick2 : forall j c name, nth_error cs j = Some c -> nth_error names j = Some name -> exists s, roomy c name s).
  { intros j c name Hc Hnm. destruct (nth_error st j) as [s|] eqn:En; [exists s; exact (HR j c name s Hc Hnm En)|]. apply nth_error_None in En. assert (j < List.length cs)%nat by (apply nth_error_Some; congruence). lia. }
  assert (R : forall (name : string) (f : stats spec_float -> spec_float), String.length name = 5%nat -> (forall s, In (f s) (statistics s)) ->
     let line := row cs name (map f st) in
     String.length line = (5 + list_sum ws)%nat /\ label_of line = name /\ forall j c s, nth_error cs j = Some c -> nth_error st j = Some s -> shows_as c (cell ws j line) (f s)).
  { intros name f L5 Hf line. unfold line, row.
    assert (E : map String.length (map (fun '(c, x) => by_code c x) (combine cs (map f st))) = ws).
    { apply (map_combine_length by_code); [rewrite map_length; exact Ls|]. intros j c x Hc Hx. rewrite nth_error_map in Hx. destruct (nth_error st j) as [s|] eqn:Es; [|discriminate Hx]. injection Hx as <-.
      destruct (Pick j c s Hc Es) as (nm & _ & _ & H & _). destruct (H (f s) (Hf s)) as (_ & Hle). destruct (H (f s) (Hf s)) as ((Fx & _) & _). apply Nat.le_antisymm; [exact Hle|]. now apply not_shorter. }
    destruct (labelled name _ _ L5 E) as (A1 & A2 & A3). split; [exact A1|]. split; [exact A2|]. intros j c s Hc Hs.
    destruct (Pick j c s Hc Hs) as (nm & _ & _ & H & H1). apply (row_of c (f s)); [exact H1|exact (proj1 (H (f s) (Hf s)))|]. apply A3. apply nth_combine; [exact Hc|]. rewrite nth_error_map, Hs. reflexivity. }
  destruct (R "min: " s_min eq_refl ltac:(intros; cbn; tauto)) as (M1 & M2 & M3).
  destruct (R "med: " s_med eq_refl ltac:(intros; cbn; tauto)) as (D1 & D2 & D3).
  destruct (R "max: " s_max eq_refl ltac:(intros; cbn; tauto)) as (X1 & X2 & X3).
  destruct (R "avg: " s_avg eq_refl ltac:(intros; cbn; tauto)) as (A1 & A2 & A3).
  destruct (R "std: " s_std eq_refl ltac:(intros; cbn; tauto)) as (S1 & S2 & S3).
  assert (EN : map String.length (map (fun '(c, s) => pad (width c) s) (combine cs names)) = ws).
  { apply (map_combine_length (fun c s => pad (width c) s)); [exact Ln|]. intros j c nm Hc Hnm. destruct (Pick2 j c nm Hc Hnm) as (s & H & _). now apply pad_to. }
  assert (EC : map String.length (map (fun '(c, s) => pad (width c) (fmt_d (s_cnt s))) (combine cs st)) = ws).
  { apply (map_combine_length (fun c s => pad (width c) (fmt_d (s_cnt s)))); [exact Ls|]. intros j c s Hc Hs. destruct (Pick j c s Hc Hs) as (nm & _ & H & _). now apply pad_to. }
  destruct (labelled "     " _ _ eq_refl EN) as (H1 & H2 & H3). destruct (labelled "cnt: " _ _ eq_refl EC) as (N1 & N2 & N3).
  do 11 eexists. split; [reflexivity|]. split; [|split; [|split]].
  - rewrite <- TW in *. intros line I. unfold table in I. cbn [In] in I. repeat (destruct I as [<-|I]; [first [exact M1|exact D1|exact X1|exact A1|exact S1|exact H1|exact N1|now apply times_length|now apply center_length]|]). destruct I.
  - unfold center. eexists. eexists. reflexivity.
  - cbn [map]. rewrite H2, N2, M2, D2, X2, A2, S2. reflexivity.
  - intros j c name s Hc Hnm Hs. split; [|split].
    + rewrite (H3 j (pad (width c) name)); [apply pad_then|]. exact (nth_combine (fun c s => pad (width c) s) cs names j c name Hc Hnm).
    + rewrite (N3 j (pad (width c) (fmt_d (s_cnt s)))) by exact (nth_combine (fun c s => pad (width c) (fmt_d (s_cnt s))) cs st j c s Hc Hs).
      destruct (c98_padding (width c) (fmt_d (s_cnt s))) as (_ & -> & _). destruct (c98_integer (s_cnt s)) as (a & B1 & B2 & B3 & _). exists a. auto.
    + unfold statistics. cbn [map]. constructor; [now apply M3|]. constructor; [now apply D3|]. constructor; [now apply X3|]. constructor; [now apply A3|]. constructor; [now apply S3|constructor].
Qed.

(** C129.  The text of a table is its lines, each ended by a line break. *)
Lemma c129_text : forall ls : list string, forallb without_break ls = true -> split_lines (table_text ls) = (ls, "").
Proof.
  unfold table_text. induction ls as [|l ls IH]; intros H; [reflexivity|]. cbn [forallb] in H. apply andb_true_iff in H as [H1 H2]. cbn [map]. rewrite concat_cons. specialize (IH H2). set (r := String.concat "" (map (fun l => l ++ newline) ls)) in *. clearbody r.
  rewrite app_assoc_s. induction l as [|a l IHl].
  - cbn [String.append newline]. cbn [split_lines]. rewrite IH. reflexivity.
  - cbn [without_break] in H1. apply andb_true_iff in H1 as [Ha Hl]. cbn [String.append split_lines]. rewrite (IHl Hl). apply negb_true_iff in Ha. rewrite Ha. reflexivity.
Qed.

(** The columns of the usage example in the comment of [summary_statistics]. *)
Definition three_codes : list code := [CodeF 8 2; CodeF 6 3; CodeE 9 4].
Definition three_stats : list (stats spec_float) := [a_column (-300) 25 4000 12 1500; a_column 0 1 3 2 1; a_column 12 305000 7654321 54000 3].
Lemma c129_example :
  (forall j c name s, nth_error three_codes j = Some c -> nth_error ["X"; "Y"; "Z"] j = Some name -> nth_error three_stats j = Some s -> roomy c name s) /\
  table three_codes ["X"; "Y"; "Z"] "This is a TITLE" three_stats =
  ["       This is a TITLE       ";
   "=============================";
   "            X     Y         Z";
   "-----------------------------";
   "cnt:        7     7         7";
   "min:  -300.00 0.0001.2000e+01";
   "med:    25.00 1.0003.0500e+05";
   "max:  4000.00 3.0007.6543e+06";
   "avg:    12.00 2.0005.4000e+04";
   "std:  1500.00 1.0003.0000e+00";
   "============================="].
Proof.
  split; [|vm_compute; reflexivity]. intros j c name s Hc Hn Hs.
  destruct j as [|[|[|j]]]; cbn in Hc, Hn, Hs; [| | |destruct j; discriminate Hc]; injection Hc as <-; injection Hn as <-; injection Hs as <-; (split; [vm_compute; lia|]; split; [vm_compute; lia|]; split; [|try exact I; lia]);
    intros x Hx; cbn [statistics a_column s_min s_med s_max s_avg s_std In] in Hx; repeat (destruct Hx as [<-|Hx]; [split; [split; [vm_compute; exact I|vm_compute; reflexivity]|vm_compute; lia]|]); destruct Hx.
Qed.

(** With the third of these formats a negative number makes its line longer than the others: the width is that of the text of 1, which has no sign. *)
Lemma c129_sign_example : map String.length (table three_codes ["X"; "Y"; "Z"] "This is a TITLE" [a_column 1 1 1 1 1; a_column 1 1 1 1 1; a_column (-1) 1 1 1 1]) = [29; 29; 29; 29; 29; 30; 29; 29; 29; 29; 29]%nat.
Proof. vm_compute. reflexivity. Qed.

Lemma c129_text_example : let t := table three_codes ["X"; "Y"; "Z"] "This is a TITLE" three_stats in
  forallb without_break t = true /\ split_lines (table_text t) = (t, "") /\ List.length t = 11%nat /\ split_lines (String "a" (newline ++ "b")) = (["a"], "b").
Proof. cbv zeta. split; [vm_compute; reflexivity|]. split; [vm_compute; reflexivity|]. split; reflexivity. Qed.
