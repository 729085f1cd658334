(** * repr of a float reads back as the same float, with the fewest digits (C98) *)
From Coq Require Import Reals String Ascii SpecFloat ZArith Lia Lra Bool.
From Flocq Require Import Core BinarySingleNaN.
From Verif Require Import Py Num ModelDist ModelText SpecText ProofFloat ProofText.
Local Open Scope string_scope.
Local Open Scope Z_scope.

Local Instance P53 : Prec_gt_0 53. Proof. reflexivity. Qed.
Local Instance fok : Valid_exp (SpecFloat.fexp fprec femax) := ProofFloat.fexp_ok.

(** The value of a float is Flocq's. *)
Lemma value_SF2R : forall x, value x = SF2R radix2 x.
Proof.
  intros [s|s| |s m e]; try reflexivity. cbn [value SF2R]. unfold F2R. cbn [Fnum Fexp].
  assert (bpow radix2 e = powerRZ 2 e) as ->.
  { rewrite bpow_powerRZ. reflexivity. }
  destruct s; cbn [SpecFloat.cond_Zopp]; [rewrite opp_IZR|]; lra.
Qed.

Definition dec (v p : Z) : R := (IZR v * powerRZ 10 p)%R.
Lemma dec_split : forall v p, dec v p = (IZR (v * 10 ^ Z.max p 0) / IZR (10 ^ Z.max (- p) 0))%R.
Proof.
  intros. unfold dec. rewrite (split_pow 10 p) by lia. rewrite mult_IZR. field.
  pose proof (pow_max_pos 10 (- p)). apply not_0_IZR. lia.
Qed.
Lemma of_decimal_spec : forall s q p, let z := of_decimal s q p in
  let r := (if s then - dec (Zpos q) p else dec (Zpos q) p)%R in
  SpecFloat.valid_binary fprec femax z = true /\
  if Rlt_bool (Rabs (rnd r)) (bpow radix2 femax)
  then SF2R radix2 z = rnd r /\ is_finite_SF z = true /\ sign_SF z = s
  else z = S754_infinity s.
Proof.
  intros s q p. unfold of_decimal. rewrite dec_split.
  pose proof (pow_max_pos 10 p ltac:(lia)) as A. pose proof (pow_max_pos 10 (- p) ltac:(lia)) as B.
  assert (0 < Zpos q * 10 ^ Z.max p 0) as A' by (apply Z.mul_pos_pos; lia).
  destruct (Zpos q * 10 ^ Z.max p 0) as [|a|a]; try lia.
  destruct (10 ^ Z.max (- p) 0) as [|b|b]; try lia.
  pose proof (Bdiv_correct_aux fprec femax Hprec Hmax mode_NE s a 0 false b 0) as C. cbn zeta in C.
  rewrite xorb_false_r in C.
  assert (E : (F2R (beta := radix2) {| Fnum := SpecFloat.cond_Zopp s (Z.pos a); Fexp := 0 |} /
               F2R (beta := radix2) {| Fnum := SpecFloat.cond_Zopp false (Z.pos b); Fexp := 0 |} =
               (if s then - (IZR (Z.pos a) / IZR (Z.pos b)) else IZR (Z.pos a) / IZR (Z.pos b)))%R).
  { unfold F2R. cbn [Fnum Fexp bpow]. assert (IZR (Z.pos b) <> 0)%R by (apply not_0_IZR; lia).
    destruct s; cbn [SpecFloat.cond_Zopp]; [rewrite opp_IZR|]; field; assumption. }
  rewrite E in C. cbn zeta. change (round_mode mode_NE) with ZnearestE in C.
  destruct (SFdiv_core_binary fprec femax (Z.pos a) 0 (Z.pos b) 0) as [[mz ez] lz].
  rewrite round_aux_equiv. exact C.
Qed.

Lemma same_float_eq : forall x y, same_float x y = true -> x = y.
Proof.
  intros [a|a| |a m e] [b|b| |b m' e']; cbn; intros H; try discriminate; try reflexivity.
  - apply eqb_prop in H. congruence.
  - apply eqb_prop in H. congruence.
  - apply andb_prop in H. destruct H as [H C]. apply andb_prop in H. destruct H as [A B].
    apply eqb_prop in A. apply Pos.eqb_eq in B. apply Z.eqb_eq in C. congruence.
Qed.
Lemma same_float_refl : forall x, same_float x x = true.
Proof.
  intros [a|a| |a m e]; cbn; rewrite ?eqb_reflx, ?Pos.eqb_refl, ?Z.eqb_refl; reflexivity.
Qed.

Definition absval (m : positive) (e : Z) : R := (IZR (Zpos m) * powerRZ 2 e)%R.
Lemma absval_value : forall m e, absval m e = value (S754_finite false m e).
Proof. intros. unfold absval. cbn [value]. lra. Qed.
Lemma absval_pos : forall m e, (0 < absval m e)%R.
Proof. intros. unfold absval. apply Rmult_lt_0_compat; [apply IZR_lt; lia|apply powerRZ_lt; lra]. Qed.
Lemma absval_format : forall m e, bounded fprec femax m e = true -> generic_format radix2 (SpecFloat.fexp fprec femax) (absval m e).
Proof.
  intros m e H. rewrite absval_value, value_SF2R.
  change (SF2R radix2 (S754_finite false m e)) with (B2R (B754_finite (prec := fprec) (emax := femax) false m e H)).
  apply generic_format_B2R.
Qed.
Lemma rnd_opp : forall r, rnd (- r) = (- rnd r)%R.
Proof. intros. apply round_NE_opp. Qed.

Lemma reads_back_spec : forall s m e v p, bounded fprec femax m e = true ->
  (reads_back s m e v p = true <-> 0 < v /\ rnd (dec v p) = absval m e).
Proof.
  intros s m e v p H. unfold reads_back. destruct v as [|q|q]; [split; [discriminate|lia]| |split; [discriminate|lia]].
  pose proof (of_decimal_spec s q p) as [V C]. cbn zeta in V, C.
  assert (N : rnd (if s then - dec (Z.pos q) p else dec (Z.pos q) p)%R = (if s then - rnd (dec (Z.pos q) p) else rnd (dec (Z.pos q) p))%R).
  { destruct s; [apply rnd_opp|reflexivity]. }
  rewrite N in C.
  assert (AB : Rabs (if s then - rnd (dec (Z.pos q) p) else rnd (dec (Z.pos q) p)) = Rabs (rnd (dec (Z.pos q) p))).
  { destruct s; [apply Rabs_Ropp|reflexivity]. }
  rewrite AB in C.
  assert (X : SF2R radix2 (S754_finite s m e) = (if s then - absval m e else absval m e)%R).
  { rewrite <- value_SF2R. unfold absval. cbn [value]. destruct s; lra. }
  split.
  - intros S. apply same_float_eq in S. split; [lia|]. rewrite S in C. destruct (Rlt_bool _ _); [|discriminate].
    destruct C as (C & _). rewrite X in C. destruct s; lra.
  - intros [_ RR]. rewrite RR in C. rewrite Rlt_bool_true in C.
    + destruct C as (C1 & C2 & C3).
      destruct (of_decimal s q p) as [a|a| |a m' e'] eqn:OD; try discriminate.
      * cbn in C1. pose proof (absval_pos m e). destruct s; lra.
      * cbn in C3. subst a. rewrite <- X in C1. cbn [SpecFloat.valid_binary] in V.
        pose proof (B2R_inj fprec femax (B754_finite (prec := fprec) (emax := femax) s m' e' V) (B754_finite s m e H) eq_refl eq_refl C1) as I.
        injection I as -> ->. apply same_float_refl.
    + rewrite Rabs_pos_eq by (pose proof (absval_pos m e); lra). rewrite absval_value, value_SF2R. cbn [SF2R].
      apply (bounded_lt_emax fprec femax m e H).
Qed.

(** ** Seventeen digits suffice *)
Notation fx := (SpecFloat.fexp fprec femax).
Lemma ulp_gt : forall x, (Rabs x * bpow radix2 (-53) < ulp radix2 fx x)%R.
Proof. intros. change fx with (FLT_exp (-1074) 53). exact (ulp_FLT_gt radix2 (-1074) 53 x). Qed.
Lemma close_rounds : forall x r, generic_format radix2 fx x -> (0 < x)%R -> (Rabs (r - x) <= x * (1 / 2) / 10 ^ 16)%R -> rnd r = x.
Proof.
  intros x r F P C. apply abs_le in C.
  assert (B : (bpow radix2 (-53) = / 9007199254740992)%R) by reflexivity.
  apply Rle_antisym.
  - apply round_N_le_midp; [exact fok|assumption|]. rewrite succ_eq_pos by lra.
    pose proof (ulp_gt x) as U. rewrite (Rabs_pos_eq x) in U by lra. rewrite B in U.
    enough (r < x + ulp radix2 fx x / 2)%R by lra. nra.
  - apply round_N_ge_midp; [exact fok|assumption|].
    pose proof (pred_plus_ulp radix2 fx x P F) as U. pose proof (ulp_gt (pred radix2 fx x)) as G.
    assert (0 <= pred radix2 fx x)%R by (apply pred_ge_0; auto; exact fok).
    rewrite Rabs_pos_eq in G by assumption. rewrite B in G.
    set (y := pred radix2 fx x) in *. clearbody y. set (u := ulp radix2 fx y) in *. clearbody u.
    enough (x - u / 2 < r)%R by lra. nra.
Qed.

(** ** The search *)
Lemma rnd_id : forall x, generic_format radix2 fx x -> rnd x = x.
Proof. intros. apply round_generic; [typeclasses eauto|assumption]. Qed.
Lemma rnd_between : forall a b x, generic_format radix2 fx x -> rnd a = x ->
  (a <= b <= x \/ x <= b <= a)%R -> rnd b = x.
Proof.
  assert (M : forall u t, (u <= t -> rnd u <= rnd t)%R) by (intros; apply round_le; [exact fok|typeclasses eauto|assumption]).
  intros a b x F A H. pose proof (rnd_id x F) as X.
  destruct H as [[H1 H2]|[H1 H2]]; apply M in H1, H2; lra.
Qed.

Section Digits.
  Variables (s : bool) (m : positive) (e : Z).
  Hypothesis Hb : bounded fprec femax m e = true.
  Let x := absval m e.
  Let k := decimal_exp m e.
  Variable n : nat.
  Let p := Z.of_nat n - k.
  Let X := (x * powerRZ 10 p)%R.
  Let v := scaled m e p.

  Lemma dec_le : forall a b, (dec a (- p) <= dec b (- p) <-> IZR a <= IZR b)%R.
  Proof.
    intros. unfold dec. pose proof (powerRZ_lt 10 (- p) ltac:(lra)). split; intros; nra.
  Qed.
  Lemma x_dec : x = (X * powerRZ 10 (- p))%R.
  Proof. unfold X. rewrite Rmult_assoc, <- powerRZ_add by lra. replace (p + - p) with 0 by lia. cbn. lra. Qed.
  Lemma dec_lex : forall a, (dec a (- p) <= x <-> IZR a <= X)%R.
  Proof. intros. rewrite x_dec. unfold dec. pose proof (powerRZ_lt 10 (- p) ltac:(lra)). split; intros; nra. Qed.
  Lemma dec_gex : forall a, (x <= dec a (- p) <-> X <= IZR a)%R.
  Proof. intros. rewrite x_dec. unfold dec. pose proof (powerRZ_lt 10 (- p) ltac:(lra)). split; intros; nra. Qed.
  Lemma X_range : (IZR (10 ^ Z.of_nat n) <= X < IZR (10 ^ (Z.of_nat n + 1)))%R.
  Proof.
    pose proof (decimal_exp_spec m e Hb) as D. fold k in D. change (IZR (Z.pos m) * powerRZ 2 e)%R with x in D.
    pose proof (powerRZ_lt 10 p ltac:(lra)) as P. unfold X.
    assert (A : (powerRZ 10 k * powerRZ 10 p = IZR (10 ^ Z.of_nat n))%R).
    { rewrite <- powerRZ_add by lra. rewrite IZR_pow10. f_equal. unfold p. lia. }
    assert (B : (powerRZ 10 (k + 1) * powerRZ 10 p = IZR (10 ^ (Z.of_nat n + 1)))%R).
    { rewrite pow10_succ, Rmult_assoc, A, Z.pow_add_r, mult_IZR by lia. change (10 ^ 1) with 10. lra. }
    rewrite <- A, <- B. split; [apply Rmult_le_compat_r|apply Rmult_lt_compat_r]; lra.
  Qed.
  Lemma v_near : (- (1 / 2) <= IZR v - X <= 1 / 2)%R.
  Proof. pose proof (scaled_spec m e p) as [A _]. apply abs_le in A. exact A. Qed.
  Lemma other_spec : other m e p v = (if Rle_bool X (IZR v) then v - 1 else v + 1).
  Proof.
    unfold other. set (A := Z.pos m * 2 ^ Z.max e 0 * 10 ^ Z.max p 0). set (B := 2 ^ Z.max (- e) 0 * 10 ^ Z.max (- p) 0).
    assert (HB : 0 < B) by (apply Z.mul_pos_pos; apply pow_max_pos; lia).
    assert (E : (X * IZR B = IZR A)%R).
    { unfold X, x, absval, A, B. rewrite (split_pow 2 e), (split_pow 10 p), !mult_IZR by lia. field.
      split; apply not_0_IZR; [pose proof (pow_max_pos 10 (- p) ltac:(lia))|pose proof (pow_max_pos 2 (- e) ltac:(lia))]; lia. }
    apply IZR_lt in HB.
    destruct (Z.leb_spec A (v * B)) as [C|C].
    - apply IZR_le in C. rewrite mult_IZR in C. rewrite Rle_bool_true; [reflexivity|]. nra.
    - apply IZR_lt in C. rewrite mult_IZR in C. rewrite Rle_bool_false; [reflexivity|]. nra.
  Qed.
  Lemma reads_exact : IZR v = X -> reads_back s m e v (- p) = true.
  Proof.
    intros E. apply reads_back_spec; [assumption|]. split.
    - apply lt_IZR. rewrite E. pose proof X_range. pose proof (pow10_pos n) as P. apply IZR_lt in P. lra.
    - unfold dec. rewrite E, <- x_dec. apply rnd_id. now apply absval_format.
  Qed.

  Lemma carry_spec : forall c w q, 10 ^ Z.of_nat n <= c <= 10 ^ (Z.of_nat n + 1) -> carry n c k = (w, q) ->
    10 ^ Z.of_nat n <= w < 10 ^ (Z.of_nat n + 1) /\ dec w (q - Z.of_nat n) = dec c (- p) /\ k <= q <= k + 1.
  Proof.
    intros c w q H. unfold carry. assert (T : 10 ^ (Z.of_nat n + 1) = 10 * 10 ^ Z.of_nat n).
    { rewrite Z.pow_add_r by lia. change (10 ^ 1) with 10. lia. }
    pose proof (pow10_pos n). destruct (Z.eqb_spec c (10 ^ (Z.of_nat n + 1))) as [E|E]; intros I; injection I as <- <-.
    - split; [lia|]. split; [|lia]. unfold dec. rewrite E, T, mult_IZR.
      replace (k + 1 - Z.of_nat n) with (- p + 1) by (unfold p; lia). rewrite pow10_succ. lra.
    - split; [lia|]. split; [|lia]. f_equal. unfold p. lia.
  Qed.

  Lemma digits_for_some : forall w q, digits_for s m e n = Some (w, q) ->
    10 ^ Z.of_nat n <= w < 10 ^ (Z.of_nat n + 1) /\ rnd (dec w (q - Z.of_nat n)) = x /\ k <= q <= k + 1.
  Proof.
    intros w q. unfold digits_for. fold k. fold p. fold v. pose proof X_range as XR_. pose proof v_near as VN.
    destruct (reads_back s m e v (- p)) eqn:R1.
    - intros E. injection E as E. apply reads_back_spec in R1; [|assumption].
      destruct (carry_spec v w q) as (A & B & C); [|assumption|].
      + split; apply Z.lt_succ_r; apply lt_IZR; rewrite succ_IZR; lra.
      + rewrite B. tauto.
    - destruct (reads_back s m e (other m e p v) (- p)) eqn:R2; [|discriminate].
      intros E. injection E as E. apply reads_back_spec in R2; [|assumption].
      destruct (carry_spec (other m e p v) w q) as (A & B & C); [|assumption|rewrite B; tauto].
      assert (NE : IZR v <> X) by (intros K; rewrite reads_exact in R1 by assumption; discriminate).
      rewrite other_spec. destruct (Rle_bool_spec X (IZR v)).
      + assert (10 ^ Z.of_nat n < v) by (apply lt_IZR; lra). split; [lia|].
        apply Z.lt_succ_r, lt_IZR. rewrite succ_IZR, minus_IZR. lra.
      + assert (v < 10 ^ (Z.of_nat n + 1)) by (apply lt_IZR; lra). split; [|lia].
        apply Z.lt_succ_r, lt_IZR. rewrite succ_IZR, plus_IZR. lra.
  Qed.

  Lemma digits_for_grid : forall g, 0 < g -> rnd (dec g (- p)) = x -> digits_for s m e n <> None.
  Proof.
    intros g Hg R. unfold digits_for. fold k. fold p. fold v. pose proof X_range as XR_. pose proof v_near as VN.
    destruct (reads_back s m e v (- p)) eqn:R1; [discriminate|].
    destruct (reads_back s m e (other m e p v) (- p)) eqn:R2; [discriminate|]. exfalso.
    pose proof (absval_format m e Hb) as F. fold x in F.
    assert (NE : IZR v <> X) by (intros K; rewrite reads_exact in R1 by assumption; discriminate).
    assert (T : forall b c, reads_back s m e c (- p) = b -> b = false -> 0 < c ->
                (IZR g <= IZR c <= X \/ X <= IZR c <= IZR g)%R -> False).
    { intros b c Rc -> Hc Hbt. assert (reads_back s m e c (- p) = true); [|congruence].
      apply reads_back_spec; [assumption|]. split; [assumption|].
      apply (rnd_between (dec g (- p))); [assumption|assumption|].
      change (absval m e) with x. rewrite !dec_le, dec_lex, dec_gex. assumption. }
    pose proof (pow10_pos n) as P. apply IZR_lt in P.
    rewrite other_spec in R2. destruct (Rle_bool_spec X (IZR v)) as [C|C].
    - destruct (Rle_or_lt (IZR g) X) as [D|D].
      + assert (g <= v - 1). { enough (g < v) by lia. apply lt_IZR. lra. }
        apply (T _ (v - 1) R2 eq_refl); [lia|]. left. split; [now apply IZR_le|]. rewrite minus_IZR. lra.
      + apply (T _ v R1 eq_refl); [apply lt_IZR; lra|]. right. split; [assumption|]. apply IZR_le.
        apply Z.lt_succ_r, lt_IZR. rewrite succ_IZR. lra.
    - destruct (Rle_or_lt (IZR g) X) as [D|D].
      + assert (g <= v). { apply Z.lt_succ_r, lt_IZR. rewrite succ_IZR. lra. }
        apply (T _ v R1 eq_refl); [lia|]. left. split; [now apply IZR_le|]. lra.
      + assert (v + 1 <= g). { enough (v < g) by lia. apply lt_IZR. lra. }
        apply (T _ (v + 1) R2 eq_refl); [apply lt_IZR; rewrite plus_IZR; lra|]. right.
        split; [rewrite plus_IZR; lra|now apply IZR_le].
  Qed.

  Lemma digits_for_none : digits_for s m e n = None -> forall w q, 0 < w < 10 ^ (Z.of_nat n + 1) -> rnd (dec w q) <> x.
  Proof.
    intros D w q Hw R. pose proof (absval_format m e Hb) as F. fold x in F. pose proof X_range as XR_.
    destruct (Z.le_gt_cases (- p) q) as [L|L].
    - apply (digits_for_grid (w * 10 ^ (q + p))); [apply Z.mul_pos_pos; [lia|apply Z.pow_pos_nonneg; lia]| |assumption].
      rewrite <- R. f_equal. unfold dec. rewrite mult_IZR. rewrite <- (Z2Nat.id (q + p)) by lia.
      rewrite IZR_pow10, Z2Nat.id by lia. rewrite Rmult_assoc, <- powerRZ_add by lra. do 2 f_equal. lia.
    - apply (digits_for_grid (10 ^ Z.of_nat n)); [apply pow10_pos| |assumption].
      apply (rnd_between (dec w q)); [assumption|assumption|]. left. split.
      + unfold dec. rewrite <- mult_IZR || idtac.
        assert (T : (IZR (10 ^ Z.of_nat n) * powerRZ 10 (- p) = IZR (10 ^ (Z.of_nat n + 1)) * powerRZ 10 (- p - 1))%R).
        { replace (- p) with ((- p - 1) + 1) at 1 by lia. rewrite pow10_succ.
          rewrite Z.pow_add_r, mult_IZR by lia. change (10 ^ 1) with 10. lra. }
        rewrite T. destruct Hw as [W1 W2]. apply IZR_lt in W1. apply IZR_lt in W2.
        assert (powerRZ 10 q <= powerRZ 10 (- p - 1))%R.
        { replace (- p - 1) with (q + Z.of_nat (Z.to_nat (- p - 1 - q))) by lia. rewrite powerRZ_add by lra.
          rewrite <- pow_powerRZ. pose proof (pow_R1_Rle 10 (Z.to_nat (- p - 1 - q)) ltac:(lra)).
          pose proof (powerRZ_lt 10 q ltac:(lra)). nra. }
        pose proof (powerRZ_lt 10 q ltac:(lra)). nra.
      + apply dec_lex. lra.
  Qed.
End Digits.

Lemma digits_for_16 : forall s m e, bounded fprec femax m e = true -> digits_for s m e 16 <> None.
Proof.
  intros s m e H. pose proof (v_near m e 16) as V. pose proof (X_range m e H 16) as X.
  apply (digits_for_grid s m e H 16 (scaled m e (Z.of_nat 16 - decimal_exp m e))).
  - apply lt_IZR. replace (10 ^ Z.of_nat 16) with 10000000000000000 in X by reflexivity. lra.
  - pose proof (absval_format m e H) as F. pose proof (absval_pos m e) as P.
    apply close_rounds; [assumption|assumption|].
    set (p := Z.of_nat 16 - decimal_exp m e) in *. set (w := scaled m e p) in *.
    rewrite (x_dec m e 16) at 1 2. fold p. unfold dec.
    set (y := (absval m e * powerRZ 10 p)%R) in *. pose proof (powerRZ_lt 10 (- p) ltac:(lra)) as Q.
    replace (IZR w * powerRZ 10 (- p) - y * powerRZ 10 (- p))%R with ((IZR w - y) * powerRZ 10 (- p))%R by ring.
    rewrite Rabs_mult, (Rabs_pos_eq (powerRZ 10 (- p))) by lra.
    assert (Rabs (IZR w - y) <= 1 / 2)%R by (apply Rabs_le; lra).
    replace (10 ^ Z.of_nat 16) with 10000000000000000 in X by reflexivity.
    replace (y * powerRZ 10 (- p) * (1 / 2) / 10 ^ 16)%R with ((y * (1 / 2) / 10 ^ 16) * powerRZ 10 (- p))%R by (field; lra).
    apply Rmult_le_compat_r; [lra|]. apply Rle_trans with (1 / 2)%R; [assumption|].
    apply Rmult_le_reg_r with (10 ^ 16)%R; [lra|]. unfold Rdiv at 2. rewrite Rmult_assoc, Rinv_l by lra. lra.
Qed.

Lemma shortest_spec : forall s m e, bounded fprec femax m e = true -> forall f n, (n + f = 16)%nat ->
  (forall i, (i < n)%nat -> digits_for s m e i = None) ->
  exists j r, shortest f s m e n = (j, r) /\ digits_for s m e j = Some r /\ (j <= 16)%nat /\
              (forall i, (i < j)%nat -> digits_for s m e i = None).
Proof.
  intros s m e H. induction f; intros n E Hn; cbn [shortest].
  - assert (n = 16%nat) by lia. subst n. pose proof (digits_for_16 s m e H) as D.
    destruct (digits_for s m e 16) as [r|] eqn:R; [|easy]. exists 16%nat, r. auto.
  - destruct (digits_for s m e n) as [r|] eqn:R.
    + exists n, r. repeat split; auto. lia.
    + apply IHf; [lia|]. intros i Hi. destruct (Nat.eq_dec i n) as [->|]; [assumption|]. apply Hn. lia.
Qed.

(** ** The text *)
Definition near (r : R) (x : spec_float) : Prop := round radix2 (FLT_exp (-1074) 53) ZnearestE r = value x.

Lemma natural_point : forall i, 0 <= i -> natural i ++ ".0" = fixed_digits false 1 (10 * i).
Proof.
  intros. unfold fixed_digits. change (10 ^ Z.of_nat 1) with 10.
  rewrite Z.mul_comm, Z.div_mul, Z.mod_mul by lia. reflexivity.
Qed.

(** The text of a float denotes a decimal number that is rounded to that float, and no decimal number with fewer digits is. *)
Lemma c98_repr : forall x, finite x -> SpecFloat.valid_binary fprec femax x = true ->
  exists r, denotes (repr_float x) r /\ round radix2 (FLT_exp (-1074) 53) ZnearestE r = value x /\
    exists v p, Rabs r = (IZR v * powerRZ 10 p)%R /\ 0 <= v /\
      forall w q d, 0 < w < 10 ^ d -> round radix2 (FLT_exp (-1074) 53) ZnearestE (IZR w * powerRZ 10 q) = Rabs (value x) ->
        v < 10 ^ d.
Proof.
  intros x Hf V. change (FLT_exp (-1074) 53) with fx. destruct x as [s|s| |s m e]; try easy.
  - exists 0%R. split.
    + left. exists {| n_neg := s; n_int := 0; n_decimals := 1 |}. split; [destruct s; reflexivity|].
      unfold meaning, magnitude. cbn. destruct s; lra.
    + cbn [value]. split; [apply round_0; typeclasses eauto|]. exists 0, 0. rewrite Rabs_R0. split; [lra|].
      split; [lia|]. intros w q d [A B] _. lia.
  - cbn [SpecFloat.valid_binary] in V.
    destruct (shortest_spec s m e V 16 0 eq_refl ltac:(intros; lia)) as (n & (v & k) & S & D & N16 & Hmin).
    destruct (digits_for_some s m e V n v k D) as (A & B & C).
    pose proof (decimal_exp_range m e V) as DR. pose proof (pow10_pos n) as PP.
    set (r0 := dec v (k - Z.of_nat n)) in *.
    assert (R0 : (0 < r0)%R).
    { unfold r0, dec. apply Rmult_lt_0_compat; [apply IZR_lt; lia|apply powerRZ_lt; lra]. }
    exists (if s then - r0 else r0)%R.
    assert (RD : denotes (repr_float (S754_finite s m e)) (if s then - r0 else r0)%R).
    { cbn [repr_float]. rewrite S.
      destruct ((-4 <=? k) && (k <? 16)) eqn:K.
      - apply andb_prop in K. destruct K as [K1 K2]. apply Z.leb_le in K1. apply Z.ltb_lt in K2. left.
        destruct (Z.ltb_spec k (Z.of_nat n)).
        + exists {| n_neg := s; n_int := v; n_decimals := Z.to_nat (Z.of_nat n - k) |}.
          rewrite read_signed by apply starts_fixed. rewrite read_unsigned_fixed by lia. split; [reflexivity|].
          assert (E : magnitude {| n_neg := s; n_int := v; n_decimals := Z.to_nat (Z.of_nat n - k) |} = r0).
          { unfold magnitude, r0, dec. cbn [n_int n_decimals]. rewrite pow_powerRZ, Z2Nat.id by lia.
            replace (k - Z.of_nat n) with (- (Z.of_nat n - k)) by lia. rewrite powerRZ_neg'. reflexivity. }
          unfold meaning. cbn [n_neg]. rewrite E. reflexivity.
        + exists {| n_neg := s; n_int := 10 * (v * 10 ^ (k - Z.of_nat n)); n_decimals := 1 |}.
          assert (0 <= v * 10 ^ (k - Z.of_nat n)) by (apply Z.mul_nonneg_nonneg; [lia|apply Z.pow_nonneg; lia]).
          rewrite natural_point by assumption. rewrite read_signed by apply starts_fixed.
          rewrite read_unsigned_fixed by lia. split; [reflexivity|].
          assert (E : magnitude {| n_neg := s; n_int := 10 * (v * 10 ^ (k - Z.of_nat n)); n_decimals := 1 |} = r0).
          { unfold magnitude, r0, dec. cbn [n_int n_decimals]. rewrite !mult_IZR.
            rewrite <- (Z2Nat.id (k - Z.of_nat n)) by lia. rewrite IZR_pow10. field. }
          unfold meaning. cbn [n_neg]. rewrite E. reflexivity.
      - right. exists {| n_neg := s; n_int := v; n_decimals := n |}, k.
        rewrite read_e_text by lia. split; [reflexivity|].
        assert (E : (magnitude {| n_neg := s; n_int := v; n_decimals := n |} * powerRZ 10 k = r0)%R).
        { unfold magnitude, r0, dec. cbn [n_int n_decimals]. unfold Z.sub. rewrite powerRZ_add, powerRZ_neg', pow_powerRZ by lra.
          field. apply powerRZ_NOR. lra. }
        unfold meaning. cbn [n_neg]. rewrite <- E. destruct s; lra. }
    split; [assumption|].
    assert (VA : value (S754_finite s m e) = (if s then - absval m e else absval m e)%R).
    { unfold absval. cbn [value]. destruct s; lra. }
    split.
    + rewrite VA. destruct s; [rewrite rnd_opp|]; rewrite B; reflexivity.
    + exists v, (k - Z.of_nat n). split; [|split; [lia|]].
      * change (IZR v * powerRZ 10 (k - Z.of_nat n))%R with r0.
        destruct s; [rewrite Rabs_Ropp|]; rewrite Rabs_pos_eq; lra.
      * intros w q d Hw Hr. rewrite value_abs in Hr. change (IZR (Z.pos m) * powerRZ 2 e)%R with (absval m e) in Hr.
        assert (0 <= d).
        { destruct (Z.le_gt_cases 0 d); [assumption|]. rewrite Z.pow_neg_r in Hw by lia. lia. }
        destruct (Z.le_gt_cases (Z.of_nat n + 1) d) as [L|L].
        -- apply Z.lt_le_trans with (10 ^ (Z.of_nat n + 1)); [lia|]. apply Z.pow_le_mono_r; lia.
        -- exfalso. destruct n as [|j].
           ++ assert (d = 0) by lia. subst d. cbn in Hw. lia.
           ++ refine (digits_for_none s m e V j (Hmin j ltac:(lia)) w q _ Hr). split; [lia|].
              apply Z.lt_le_trans with (10 ^ d); [lia|]. apply Z.pow_le_mono_r; lia.
Qed.

(** A text denotes one number, so different floats have different texts (except the two zeros, which differ
    by their sign only). *)
Lemma read_no_e : forall u v a, read (u ++ String "e" v) = Some a -> False.
Proof.
  assert (F : forall u v w d a, read_from (u ++ String "e" v) w d = Some a -> False).
  { induction u; intros v w d b H; cbn [append read_from] in H.
    - change (digit_of "e") with (@None Z) in H. destruct d; discriminate.
    - destruct (digit_of a) as [c|]; [exact (IHu _ _ _ _ H)|]. destruct d; [discriminate|].
      destruct (Ascii.eqb a "."); [exact (IHu _ _ _ _ H)|]. destruct (Ascii.eqb a ","); [exact (IHu _ _ _ _ H)|discriminate]. }
  assert (U : forall u v s a, read_unsigned s (u ++ String "e" v) = Some a -> False).
  { intros u v s a H. unfold read_unsigned in H. destruct (u ++ String "e" v) as [|c t] eqn:E; [discriminate|].
    destruct (digit_of c); [|discriminate]. rewrite <- E in H.
    destruct (read_from (u ++ String "e" v) 0 None) eqn:R; [exact (F _ _ _ _ _ R)|discriminate]. }
  induction u; intros v b H; cbn [append read] in H.
  - change (Ascii.eqb "e" " ") with false in H. change (Ascii.eqb "e" "-") with false in H.
    change (Ascii.eqb "e" "+") with false in H. cbv iota in H. exact (U "" v false b H).
  - destruct (Ascii.eqb a " "); [exact (IHu _ _ H)|]. destruct (Ascii.eqb a "-"); [exact (U _ _ _ _ H)|].
    destruct (Ascii.eqb a "+"); [exact (U _ _ _ _ H)|]. exact (U (String a u) v false b H).
Qed.
Lemma split_at_app : forall c s u v, split_at c s = Some (u, v) -> s = u ++ String c v.
Proof.
  induction s; intros u v H; cbn [split_at] in H; [discriminate|].
  destruct (Ascii.eqb_spec a c) as [->|].
  - injection H as <- <-. reflexivity.
  - destruct (split_at c s) as [[u' v']|]; [|discriminate]. injection H as <- <-. cbn. f_equal. now apply IHs.
Qed.
Lemma denotes_unique : forall t r1 r2, denotes t r1 -> denotes t r2 -> r1 = r2.
Proof.
  assert (N : forall t a b k, read t = Some a -> read_e t = Some (b, k) -> False).
  { intros t a b k A B. unfold read_e in B. destruct (split_at "e" t) as [[u v]|] eqn:S; [|discriminate].
    apply split_at_app in S. subst t. exact (read_no_e _ _ _ A). }
  intros t r1 r2 [(a & A & ->)|(a & k & A & ->)] [(b & B & ->)|(b & j & B & ->)].
  - congruence.
  - exfalso. eapply N; eassumption.
  - exfalso. eapply N; eassumption.
  - rewrite A in B. injection B as -> ->. reflexivity.
Qed.
(** Different floats have different texts. *)
Lemma c98_repr_injective : forall x y, finite x -> finite y ->
  SpecFloat.valid_binary fprec femax x = true -> SpecFloat.valid_binary fprec femax y = true ->
  repr_float x = repr_float y -> value x = value y.
Proof.
  intros x y Fx Fy Vx Vy E. destruct (c98_repr x Fx Vx) as (r & A & B & _). destruct (c98_repr y Fy Vy) as (q & C & D & _).
  rewrite E in A. rewrite <- B, <- D. f_equal. eapply denotes_unique; eassumption.
Qed.

(** ** Cases *)
Definition hundredths (z : Z) : spec_float := SFdiv fprec femax (f_of_Z z) (f_of_Z 100).
(** Separated thousands, ties to even, a sign. *)
Lemma c98_fixed_example : finite (hundredths 123456789) /\
  fmt_f false true 2 (hundredths 123456789) = "1,234,567.89" /\ fmt_f false false 0 (hundredths (-250)) = "-2" /\
  fmt_f true false 3 (hundredths 50) = "+0.500".
Proof. split; [vm_compute; exact I|]. repeat split; vm_compute; reflexivity. Qed.
Lemma c98_scientific_example : finite (hundredths (-1)) /\ SpecFloat.valid_binary fprec femax (hundredths (-1)) = true /\
  fmt_e true 4 (hundredths (-1)) = "-1.0000e-02" /\ fmt_e true 4 (hundredths 99999999) = "+1.0000e+06".
Proof. split; [vm_compute; exact I|]. repeat split; vm_compute; reflexivity. Qed.
Lemma c98_repr_example : finite (hundredths 10) /\ SpecFloat.valid_binary fprec femax (hundredths 10) = true /\
  repr_float (hundredths 10) = "0.1" /\ repr_float (SFadd fprec femax (hundredths 10) (hundredths 20)) = "0.30000000000000004" /\
  repr_float (f_of_Z (10 ^ 22)) = "1e+22" /\ repr_float (hundredths (-300)) = "-3.0".
Proof. split; [vm_compute; exact I|]. repeat split; vm_compute; reflexivity. Qed.
