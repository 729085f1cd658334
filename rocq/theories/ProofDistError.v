(** * Error analysis of distancesquared, in real numbers

    [k] bounds the relative error of one rounding, [h] its absolute error near 0. *)
From Coq Require Import Reals Lra Psatz.
Local Open Scope R_scope.

Lemma mul_err a a' ea b b' eb : Rabs (a' - a) <= ea -> Rabs (b' - b) <= eb ->
  Rabs (a' * b' - a * b) <= ea * Rabs b + eb * Rabs a + ea * eb.
Proof.
  intros A B. replace (a' * b' - a * b) with ((a' - a) * b + (b' - b) * a + (a' - a) * (b' - b)) by ring.
  pose proof (Rabs_pos (a' - a)). pose proof (Rabs_pos (b' - b)). pose proof (Rabs_pos a). pose proof (Rabs_pos b).
  eapply Rle_trans; [apply Rabs_triang|]. apply Rplus_le_compat; [eapply Rle_trans; [apply Rabs_triang|]; apply Rplus_le_compat|]; rewrite Rabs_mult.
  - apply Rmult_le_compat_r; lra.
  - apply Rmult_le_compat_r; lra.
  - apply Rmult_le_compat; lra.
Qed.

Lemma abs_inv x y : Rabs x <= y -> - y <= x <= y.
Proof. unfold Rabs. destruct Rcase_abs; lra. Qed.

Section Error.
  Variables (k h : R).
  Hypothesis (K : 0 < k <= / 1000000) (H0 : 0 < h).

  (** A rounded product of two numbers with relative error [k]. *)
  Lemma product x y x' y' t : Rabs (x' - x) <= k * Rabs x -> Rabs (y' - y) <= k * Rabs y ->
    Rabs (t - x' * y') <= k * Rabs (x' * y') + h -> Rabs (t - x * y) <= 31/10 * k * Rabs (x * y) + h.
  Proof.
    intros X Y T. pose proof (mul_err _ _ _ _ _ _ X Y) as M. rewrite (Rabs_mult x y).
    set (a := Rabs x) in *. set (b := Rabs y) in *. assert (0 <= a) by apply Rabs_pos. assert (0 <= b) by apply Rabs_pos.
    assert (AB : 0 <= a * b) by nra.
    assert (KK : k * (k * (a * b)) <= / 1000000 * (k * (a * b))) by (apply Rmult_le_compat_r; [apply Rmult_le_pos|]; lra).
    assert (M1 : Rabs (x' * y' - x * y) <= 201/100 * k * (a * b)) by (eapply Rle_trans; [exact M|]; nra).
    assert (B : Rabs (x' * y') <= a * b * (1 + 201/100 * k)).
    { replace (x' * y') with ((x' * y' - x * y) + x * y) by ring. eapply Rle_trans; [apply Rabs_triang|]. rewrite (Rabs_mult x y). fold a b. lra. }
    replace (t - x * y) with ((t - x' * y') + (x' * y' - x * y)) by ring. eapply Rle_trans; [apply Rabs_triang|].
    assert (k * Rabs (x' * y') <= k * (a * b * (1 + 201/100 * k))) by (apply Rmult_le_compat_l; lra).
    nra.
  Qed.

  (** A rounded sum of two such products. *)
  Lemma sum_products p q t1 t2 s B : Rabs (t1 - p) <= 31/10 * k * Rabs p + h -> Rabs (t2 - q) <= 31/10 * k * Rabs q + h ->
    Rabs (s - (t1 + t2)) <= k * Rabs (t1 + t2) -> Rabs p + Rabs q <= B -> Rabs (s - (p + q)) <= 5 * k * B + 4 * h.
  Proof.
    intros P Q S L. assert (E : Rabs (t1 + t2 - (p + q)) <= 31/10 * k * B + 2 * h).
    { replace (t1 + t2 - (p + q)) with ((t1 - p) + (t2 - q)) by ring. eapply Rle_trans; [apply Rabs_triang|]. nra. }
    assert (T : Rabs (t1 + t2) <= B + 31/10 * k * B + 2 * h).
    { replace (t1 + t2) with ((t1 + t2 - (p + q)) + (p + q)) by ring. eapply Rle_trans; [apply Rabs_triang|]. pose proof (Rabs_triang p q). lra. }
    replace (s - (p + q)) with ((s - (t1 + t2)) + (t1 + t2 - (p + q))) by ring. eapply Rle_trans; [apply Rabs_triang|].
    assert (k * Rabs (t1 + t2) <= k * (B + 31/10 * k * B + 2 * h)) by (apply Rmult_le_compat_l; lra).
    pose proof (Rabs_pos p). pose proof (Rabs_pos q).
    assert (0 <= B) by lra. assert (k * (k * B) <= / 1000000 * (k * B)) by (apply Rmult_le_compat_r; [apply Rmult_le_pos|]; lra).
    assert (k * h <= / 1000000 * h) by (apply Rmult_le_compat_r; lra). nra.
  Qed.

  Variables (L D m : R).
  Hypothesis (PL : 0 < L) (PD : 0 <= D) (Pm : 0 < m) (Em : m * m = L * L + D * D).
  Hypothesis (S1 : 1000 * h <= k * (L * L)) (S2 : 1000 * h <= k * (L * L * (L * L))).

  Lemma Lm : L <= m. Proof. destruct (Rle_or_lt L m); [assumption|]. exfalso. assert (m * m < L * L) by (apply Rmult_gt_0_lt_compat; lra). assert (0 <= D * D) by (apply Rmult_le_pos; lra). lra. Qed.
  Lemma Dm : D <= m. Proof. destruct (Rle_or_lt D m); [assumption|]. exfalso. assert (m * m < D * D) by (apply Rmult_gt_0_lt_compat; lra). assert (0 <= L * L) by (apply Rmult_le_pos; lra). lra. Qed.
  Lemma LDm : 2 * (L * D) <= m * m. Proof. pose proof (Rle_0_sqr (L - D)) as Q. unfold Rsqr in Q. lra. Qed.

  Lemma rho : 5 * k * (L * D) + 4 * h <= L * (k * (5 * D + L / 250)).
  Proof. lra. Qed.
  Lemma rho_m : 5 * k * (L * D) + 4 * h <= 26/10 * k * (m * m).
  Proof. pose proof LDm. nra. Qed.

  (** The computed square of the length. *)
  Lemma length_err l : Rabs (l - L * L) <= 5 * k * (L * L) + 4 * h -> Rabs (l - L * L) <= 6 * k * (L * L).
  Proof using K H0 PL PD Pm Em S1 S2. intros H. lra. Qed.

  (** A computed square of a scalar or perp-dot product, over the computed square of the length. *)
  Lemma ratio P s n l : Rabs P <= L * D -> Rabs (s - P) <= 5 * k * (L * D) + 4 * h ->
    Rabs (n - s * s) <= k * Rabs (s * s) + h -> Rabs (l - L * L) <= 6 * k * (L * L) ->
    Rabs (n / l - P * P / (L * L)) <= 19 * k * (m * m) /\ Rabs (n / l) <= 11/10 * (m * m).
  Proof using K H0 PL PD Pm Em S1 S2.
    intros HP HS HN HL. pose proof Lm as LM. pose proof Dm as DM. pose proof LDm as LD.
    assert (LL : 0 < L * L) by nra. assert (MM : 0 < m * m) by nra. assert (LD0 : 0 <= L * D) by nra.
    set (r := k * (5 * D + L / 250)). assert (R0 : 0 <= r) by (unfold r; apply Rmult_le_pos; lra).
    assert (HS' : Rabs (s - P) <= L * r) by (pose proof rho; unfold r; lra).
    assert (Rm : r <= 51/10 * k * m) by (unfold r; nra).
    pose proof (mul_err _ _ _ _ _ _ HS' HS') as HQ.
    assert (HQ' : Rabs (s * s - P * P) <= 11 * k * (L * L * (m * m))).
    { eapply Rle_trans; [exact HQ|]. assert (L * r * Rabs P <= L * r * (L * D)) by (apply Rmult_le_compat_l; [nra|exact HP]).
      assert (r * D <= 51/10 * k * m * D) by (apply Rmult_le_compat_r; lra). assert (m * D <= m * m) by nra.
      assert (r * r <= 51/10 * k * m * r) by (apply Rmult_le_compat_r; lra).
      assert (k * m * r <= k * m * (51/10 * k * m)) by (apply Rmult_le_compat_l; nra).
      assert (r * D <= 51/10 * k * (m * m)) by nra.
      assert (k * k * (m * m) <= / 1000000 * k * (m * m)) by (apply Rmult_le_compat_r; nra).
      assert (r * r <= 1/10 * k * (m * m)) by nra.
      assert (L * r * (L * D) + L * r * (L * D) + L * r * (L * r) = L * L * (2 * (r * D) + r * r)) by ring.
      assert (2 * (r * D) + r * r <= 11 * k * (m * m)) by nra.
      assert (L * L * (2 * (r * D) + r * r) <= L * L * (11 * k * (m * m))) by (apply Rmult_le_compat_l; lra). lra. }
    assert (PP : P * P <= L * L * (D * D)).
    { apply abs_inv in HP. replace (L * L * (D * D)) with ((L * D) * (L * D)) by ring. nra. }
    assert (PP0 : 0 <= P * P) by nra. assert (SS0 : 0 <= s * s) by nra.
    set (w := L * L * (m * m)) in *. assert (W0 : 0 < w) by (unfold w; nra).
    assert (PW : P * P <= w) by (unfold w; nra). 
    assert (SW : s * s <= 101/100 * w). { apply abs_inv in HQ'. nra. }
    assert (HW : 1000 * h <= k * w). { unfold w. assert (L * L * (L * L) <= L * L * (m * m)) by (apply Rmult_le_compat_l; nra). nra. }
    rewrite (Rabs_pos_eq _ SS0) in HN.
    assert (HN' : Rabs (n - P * P) <= 125/10 * k * w).
    { replace (n - P * P) with ((n - s * s) + (s * s - P * P)) by ring. eapply Rle_trans; [apply Rabs_triang|].
      assert (k * (s * s) <= k * (101/100 * w)) by (apply Rmult_le_compat_l; lra). nra. }
    assert (Bl : 999/1000 * (L * L) <= l). { apply abs_inv in HL. nra. }
    assert (l0 : 0 < l) by nra.
    assert (Q1 : Rabs (n / l - P * P / (L * L)) <= 19 * k * (m * m)).
    { replace (n / l - P * P / (L * L)) with ((n - P * P) / l + P * P * (L * L - l) / (l * (L * L))) by (field; split; nra).
      eapply Rle_trans; [apply Rabs_triang|].
      assert (A1 : Rabs ((n - P * P) / l) <= 126/10 * k * (m * m)).
      { unfold Rdiv. rewrite Rabs_mult, (Rabs_pos_eq (/ l)) by (left; now apply Rinv_0_lt_compat).
        apply Rmult_le_reg_r with l; [exact l0|]. rewrite Rmult_assoc, Rinv_l, Rmult_1_r by lra.
        eapply Rle_trans; [exact HN'|]. unfold w. assert (0 <= k * (m * m)) by nra.
        assert (k * (m * m) * (999/1000 * (L * L)) <= k * (m * m) * l) by (apply Rmult_le_compat_l; lra). nra. }
      assert (A2 : Rabs (P * P * (L * L - l) / (l * (L * L))) <= 61/10 * k * (m * m)).
      { unfold Rdiv. rewrite !Rabs_mult, (Rabs_pos_eq (/ (l * (L * L)))) by (left; apply Rinv_0_lt_compat; nra).
        rewrite <- Rabs_mult, (Rabs_pos_eq (P * P)) by exact PP0. rewrite (Rabs_minus_sym (L * L) l).
        apply Rmult_le_reg_r with (l * (L * L)); [nra|]. rewrite Rmult_assoc, Rinv_l, Rmult_1_r by nra.
        assert (P * P * Rabs (l - L * L) <= w * (6 * k * (L * L))) by (apply Rmult_le_compat; [exact PP0|apply Rabs_pos|exact PW|exact HL]).
        unfold w in *. assert (0 <= k * (m * m) * (L * L)) by (apply Rmult_le_pos; nra).
        assert (k * (m * m) * (L * L) * (999/1000 * (L * L)) <= k * (m * m) * (L * L) * l) by (apply Rmult_le_compat_l; lra). nra. }
      assert (0 <= k * (m * m)) by (apply Rmult_le_pos; lra). lra. }
    assert (A0 : P * P / (L * L) <= m * m).
    { apply Rmult_le_reg_r with (L * L); [exact LL|]. unfold Rdiv. rewrite Rmult_assoc, Rinv_l, Rmult_1_r by lra. unfold w in PW. lra. }
    assert (A0' : 0 <= P * P / (L * L)) by (apply Rmult_le_pos; [exact PP0|left; now apply Rinv_0_lt_compat]).
    assert (NL : Rabs (n / l) <= 11/10 * (m * m)).
    { replace (n / l) with ((n / l - P * P / (L * L)) + P * P / (L * L)) by ring. eapply Rle_trans; [apply Rabs_triang|].
      rewrite (Rabs_pos_eq _ A0'). nra. }
    split; assumption.
  Qed.
  Lemma quotient P s n l z : Rabs P <= L * D -> Rabs (s - P) <= 5 * k * (L * D) + 4 * h ->
    Rabs (n - s * s) <= k * Rabs (s * s) + h -> Rabs (l - L * L) <= 6 * k * (L * L) ->
    Rabs (z - n / l) <= k * Rabs (n / l) + h ->
    Rabs (z - P * P / (L * L)) <= 21 * k * (m * m).
  Proof using K H0 PL PD Pm Em S1 S2.
    intros HP HS HN HL HZ. destruct (ratio P s n l HP HS HN HL) as (Q1 & NL). pose proof Lm as LM.
    assert (LL : 0 < L * L) by nra. assert (MM : 0 < m * m) by nra.
    replace (z - P * P / (L * L)) with ((z - n / l) + (n / l - P * P / (L * L))) by ring. eapply Rle_trans; [apply Rabs_triang|].
    assert (k * Rabs (n / l) <= k * (11/10 * (m * m))) by (apply Rmult_le_compat_l; lra).
    assert (h <= / 1000 * k * (m * m)) by nra. nra.
  Qed.

  (** The three branches of the computation against the three branches of the exact formula. *)
  Lemma branches P Q dt al be l c :
    Rabs Q <= L * D -> P * P + Q * Q = L * L * (D * D) ->
    Rabs (dt - Q) <= 5 * k * (L * D) + 4 * h ->
    Rabs (al - P * P / (L * L)) <= 21 * k * (m * m) -> Rabs (be - Q * Q / (L * L)) <= 21 * k * (m * m) ->
    Rabs (l - L * L) <= 6 * k * (L * L) ->
    (dt < 0 /\ Rabs (c - (al + be)) <= k * Rabs (al + be) \/
     0 <= dt /\ l < be /\ (exists s1 d2 s2, Rabs (s1 - (al + be)) <= k * Rabs (al + be) /\ Rabs (d2 - 2 * dt) <= k * Rabs (2 * dt) + h /\
       Rabs (s2 - (s1 - d2)) <= k * Rabs (s1 - d2) /\ Rabs (c - (s2 + l)) <= k * Rabs (s2 + l)) \/
     0 <= dt /\ be <= l /\ c = al) ->
    Rabs (c - (if Rlt_dec Q 0 then P * P / (L * L) + Q * Q / (L * L)
               else if Rlt_dec (L * L) (Q * Q / (L * L)) then P * P / (L * L) + Q * Q / (L * L) - 2 * Q + L * L
               else P * P / (L * L))) <= 100 * (k * (m * m)).
  Proof using K H0 PL PD Pm Em S1 S2.
    intros HQ PQ HD HA HB HL C. pose proof Lm as LM. pose proof Dm as DM. pose proof LDm as LD. pose proof rho_m as RM.
    assert (LL : 0 < L * L) by nra. assert (MM : 0 < m * m) by nra. assert (DD : 0 <= D * D) by nra.
    set (A := P * P / (L * L)) in *. set (B := Q * Q / (L * L)) in *.
    assert (EA : A * (L * L) = P * P) by (unfold A; field; lra). assert (EB : B * (L * L) = Q * Q) by (unfold B; field; lra).
    assert (A0 : 0 <= A) by (unfold A; apply Rmult_le_pos; [nra|left; now apply Rinv_0_lt_compat]).
    assert (B0 : 0 <= B) by (unfold B; apply Rmult_le_pos; [nra|left; now apply Rinv_0_lt_compat]).
    assert (AB : A + B = D * D) by (apply Rmult_eq_reg_r with (L * L); lra).
    set (M := m * m) in *. set (E := k * M). assert (E0 : 0 < E) by (unfold E; nra). assert (EM : E <= / 1000000 * M) by (unfold E; apply Rmult_le_compat_r; lra).
    assert (HE : 1000 * h <= E). { unfold E. assert (k * (L * L) <= k * M) by (apply Rmult_le_compat_l; lra). lra. }
    assert (HL' : Rabs (l - L * L) <= 6 * E). { unfold E. assert (k * (L * L) <= k * M) by (apply Rmult_le_compat_l; lra). lra. }
    assert (HD' : Rabs (dt - Q) <= 26/10 * E) by (unfold E; lra).
    replace (21 * k * M) with (21 * E) in * by (unfold E; ring).
    apply abs_inv in HQ, HA, HB, HL', HD'.
    (* when the scalar product is lost in the error, its square is negligible *)
    assert (SB : Rabs Q <= 5 * k * (L * D) + 4 * h -> B <= E).
    { intros HQ'. pose proof rho as RH. set (r := k * (5 * D + L / 250)) in *. assert (0 <= r) by (unfold r; apply Rmult_le_pos; lra).
      assert (Rm : r <= 51/10 * k * m) by (unfold r; nra).
      assert (HQ2 : Rabs Q <= L * r) by lra. apply abs_inv in HQ2.
      assert (Q * Q <= L * r * (L * r)) by nra.
      assert (B <= r * r). { apply Rmult_le_reg_r with (L * L); [exact LL|]. lra. }
      assert (r * r <= (51/10 * k * m) * (51/10 * k * m)) by (apply Rmult_le_compat; lra).
      assert ((51/10 * k * m) * (51/10 * k * m) = 2601/100 * k * E) by (unfold E, M; field).
      assert (k * E <= / 1000000 * E) by (apply Rmult_le_compat_r; lra). lra. }
    (* B - 2 Q + L^2 is the square of Q/L - L *)
    assert (F1 : 2 * Q <= B + L * L).
    { pose proof (Rle_0_sqr (Q - L * L)) as S. unfold Rsqr in S. apply Rmult_le_reg_r with (L * L); [exact LL|]. nra. }
    assert (F2 : 0 <= Q -> L * L <= B -> L * L <= Q).
    { intros q b. destruct (Rle_or_lt (L * L) Q) as [|X]; [assumption|]. exfalso. assert (L * L * (L * L) <= B * (L * L)) by (apply Rmult_le_compat_r; lra). nra. }
    assert (F3 : 0 <= Q -> B <= L * L -> B <= Q).
    { intros q b. assert (Q <= L * L).
      { destruct (Rle_or_lt Q (L * L)) as [|X]; [assumption|]. exfalso. assert (B * (L * L) <= L * L * (L * L)) by (apply Rmult_le_compat_r; lra). nra. }
      apply Rmult_le_reg_r with (L * L); [exact LL|]. nra. }
    assert (SQ : forall q, - M <= q <= M -> 0 <= k * Rabs q <= E).
    { intros q Hq. assert (Rabs q <= M) by (apply Rabs_le; lra). pose proof (Rabs_pos q). unfold E. split; [apply Rmult_le_pos; lra|apply Rmult_le_compat_l; lra]. }
    assert (SK : forall q n, 0 <= n -> - (n * M) <= q <= n * M -> k * Rabs q <= n * E).
    { intros q n Hn Hq. assert (Rabs q <= n * M) by (apply Rabs_le; lra). unfold E. replace (n * (k * M)) with (k * (n * M)) by ring. apply Rmult_le_compat_l; lra. }
    destruct C as [(Cd & C)|[(Cd & Cb & s1 & d2 & s2 & C1 & C2 & C3 & C4)|(Cd & Cb & ->)]].
    - assert (K1 := SK (al + be) 2 ltac:(lra) ltac:(lra)). 
      assert (C' : Rabs (c - (A + B)) <= 45 * E).
      { apply abs_inv in C. apply Rabs_le. lra. }
      apply abs_inv in C'. destruct (Rlt_dec Q 0) as [q|q]; [apply Rabs_le; lra|].
      assert (SB' : B <= E) by (apply SB; rewrite Rabs_pos_eq by lra; apply abs_inv in HD; lra).
      destruct (Rlt_dec (L * L) B) as [b|b].
      + specialize (F2 ltac:(lra) ltac:(lra)). apply Rabs_le. lra.
      + apply Rabs_le. lra.
    - assert (K1 := SK (al + be) 2 ltac:(lra) ltac:(lra)). apply abs_inv in C1.
      assert (K2 := SK (2 * dt) 2 ltac:(lra) ltac:(lra)). apply abs_inv in C2.
      assert (K3 := SK (s1 - d2) 3 ltac:(lra) ltac:(lra)). apply abs_inv in C3.
      assert (K4 := SK (s2 + l) 5 ltac:(lra) ltac:(lra)). apply abs_inv in C4.
      assert (C' : - (70 * E) <= c - (A + B - 2 * Q + L * L) <= 70 * E) by lra.
      destruct (Rlt_dec Q 0) as [q|q].
      + assert (SB' : B <= E) by (apply SB; rewrite Rabs_left by lra; apply abs_inv in HD; lra).
        apply Rabs_le. lra.
      + destruct (Rlt_dec (L * L) B) as [b|b]; [apply Rabs_le; lra|].
        specialize (F3 ltac:(lra) ltac:(lra)). apply Rabs_le. lra.
    - destruct (Rlt_dec Q 0) as [q|q].
      + assert (SB' : B <= E) by (apply SB; rewrite Rabs_left by lra; apply abs_inv in HD; lra). apply Rabs_le. lra.
      + destruct (Rlt_dec (L * L) B) as [b|b]; [|apply Rabs_le; lra].
        specialize (F2 ltac:(lra) ltac:(lra)). apply Rabs_le. lra.
  Qed.
End Error.
