(** * Axes, probabilities and areas of the plots in binary64 (C131) *)
From Coq Require Import ZArith Reals Lra Lia SpecFloat List Permutation Sorted.
From Flocq Require Import Core.
From Verif Require Import Py Num NumXR Grid ModelField ModelObs ModelPlot SpecFloats SpecExact SpecField SpecPlot
  ProofFloat ProofFloatGrow ProofFloatOps ProofFloatMean ProofFloatGrid ProofStats ProofPlot ProofField ProofFloatWeight
  ProofFloatField ProofFloatCases ProofFieldHist.
Import ListNotations.
Local Open Scope R_scope.

Local Notation fx := (FLT_exp (-1074) 53).
Local Notation F := (generic_format radix2 fx).
Local Notation rd := (round radix2 fx ZnearestE).

(** ** The axes *)
Lemma units_pos e d : on_units e d -> 0 < d -> powerRZ 2 e <= d.
Proof.
  intros ((n & E) & _) P. pose proof (p_pos e) as Q. assert (1 <= IZR n).
  { apply IZR_le. assert (0 < IZR n) by (apply Rnot_le_lt; intros C; rewrite E in P; nra). apply lt_IZR in H. lia. }
  rewrite E. nra.
Qed.

Lemma linspace_exact lm e lo hi d n : (-1074 <= e <= 960)%Z -> good e lo -> good e hi -> good e d -> 0 < fval d -> (2 <= n)%Z ->
  fval hi = fval lo + IZR (n - 1) * fval d -> fval hi - fval lo <= powerRZ 2 (53 + e) ->
  exists l, @linspace spec_float (SF lm) lo hi n = Ok l /\ (forall j, (0 <= j < n)%Z -> exists v, nth_error l (Z.to_nat j) = Some v /\ ffinite v /\ fval v = fval lo + IZR j * fval d) /\
    map exact l = map (fun j => Fin (fval lo + IZR j * fval d)) (zrange 0 n).
Proof.
  intros He (Flo & Ulo) (Fhi & Uhi) (Fd & Ud) Pd Hn E C. pose proof (units_pos e _ Ud Pd) as D1. pose proof (p_pos e) as Pe.
  assert (N1 : 1 <= IZR (n - 1)) by (apply IZR_le; lia).
  assert (NB : (n - 1 <= 2 ^ 53)%Z).
  { apply le_IZR. rewrite E in C. replace (powerRZ 2 (53 + e)) with (IZR (2 ^ 53) * powerRZ 2 e) in C by (rewrite !p_bpow, bpow_plus; reflexivity).
    apply Rmult_le_reg_r with (powerRZ 2 e); [exact Pe|]. nra. }
  destruct (of_small (n - 1) ltac:(lia)) as (Qn & Vn).
  assert (U1 : on_units e (fval hi - fval lo)) by (apply units_sub; [assumption|assumption|]; rewrite Rabs_pos_eq by (rewrite E; nra); exact C).
  destruct (sub_units e hi lo He Fhi Flo U1) as (Q1 & V1).
  assert (Sd : fval (SFsub fprec femax hi lo) / fval (f_of_Z (n - 1)) = fval d) by (rewrite V1, Vn, E; field; lra).
  destruct (div_rd (SFsub fprec femax hi lo) (f_of_Z (n - 1)) Q1 Qn) as (Q2 & V2).
  { rewrite Vn. lra. }
  { rewrite Sd, rd_F by (apply (units_F e); [lia|exact Ud]). apply (units_small e); [lia|exact Ud]. }
  rewrite Sd, rd_F in V2 by (apply (units_F e); [lia|exact Ud]).
  set (step := SFdiv fprec femax (SFsub fprec femax hi lo) (f_of_Z (n - 1))) in *.
  assert (ND : forall j, (0 <= j < n)%Z -> let v := if (j =? n - 1)%Z then hi else SFadd fprec femax (SFmul fprec femax (f_of_Z j) step) lo in ffinite v /\ fval v = fval lo + IZR j * fval d).
  { intros j Hj v. subst v. destruct (Z.eqb_spec j (n - 1)) as [->|NE]; [auto|].
    assert (J : 0 <= IZR j <= IZR (n - 1)) by (split; apply IZR_le; lia).
    destruct (of_small j ltac:(lia)) as (Qj & Vj). 
    assert (J2 : 0 <= IZR j * fval d <= IZR (n - 1) * fval d) by (split; [apply Rmult_le_pos; lra|apply Rmult_le_compat_r; lra]).
    assert (U2 : on_units e (fval (f_of_Z j) * fval step)).
    { rewrite Vj, V2. apply units_mulZ; [exact Ud|]. rewrite Rabs_pos_eq by lra. rewrite E in C. lra. }
    destruct (mul_units e (f_of_Z j) step He Qj Q2 U2) as (Q3 & V3). rewrite Vj, V2 in V3, U2.
    assert (U4 : on_units e (fval (SFmul fprec femax (f_of_Z j) step) + fval lo)).
    { rewrite V3. apply units_add; [exact U2|exact Ulo|]. destruct Ulo as (_ & B1). destruct Uhi as (_ & B2). apply Rabs_le_inv in B1. apply Rabs_le_inv in B2. rewrite E in B2. apply Rabs_le. lra. }
    destruct (add_units e _ lo He Q3 Flo U4) as (Q4 & V4). split; [exact Q4|]. rewrite V4, V3. ring. }
  exists (map (fun j => if (j =? n - 1)%Z then hi else SFadd fprec femax (SFmul fprec femax (f_of_Z j) step) lo) (zrange 0 n)). split; [|split].
  - unfold linspace. destruct (Z.ltb_spec n 0); [lia|]. destruct (Z.eqb_spec n 1); [lia|]. reflexivity.
  - intros j Hj. eexists. split; [|exact (ND j Hj)]. rewrite nth_error_map, nth_error_zrange. rewrite Z.sub_0_r, Z2Nat.id by lia. destruct (Z.ltb_spec j n); [|lia]. reflexivity.
  - rewrite map_map. apply map_ext_in. intros j Hj. apply in_zrange in Hj. destruct (ND j Hj) as (Q & V). rewrite (exact_fin _ Q), V. reflexivity.
Qed.

(** A dyadic field: its axes. *)
Lemma field_axes lm ex ey s g : dyadic ex ey s -> compact ex ey s -> wf (exact_field s) -> body s = Some g ->
  exists X Y, @linspace spec_float (SF lm) (xmin g) (xmax g) (ncols g) = Ok X /\ @linspace spec_float (SF lm) (ymin g) (ymax g) (nrows g) = Ok Y /\
    (3 <= ncols g)%Z /\ (3 <= nrows g)%Z /\
    (forall j, (0 <= j < ncols g)%Z -> exists v, nth_error X (Z.to_nat j) = Some v /\ ffinite v /\ fval v = fval (xmin g) + IZR j * fval (deltax s)) /\
    (forall j, (0 <= j < nrows g)%Z -> exists v, nth_error Y (Z.to_nat j) = Some v /\ ffinite v /\ fval v = fval (ymin g) + IZR j * fval (deltay s)) /\
    map exact X = map (fun j => Fin (fval (xmin g) + IZR j * fval (deltax s))) (zrange 0 (ncols g)) /\
    map exact Y = map (fun j => Fin (fval (ymin g) + IZR j * fval (deltay s))) (zrange 0 (nrows g)).
Proof.
  intros (Hex & Hey & Fdx & Pdx & Udx & Fdy & Pdy & Udy & g' & Eg' & Dg) CP Wf Eg. rewrite Eg in Eg'. injection Eg' as <-.
  destruct (dyadic_good _ _ _ Dg) as (G1 & G2 & G3 & G4). destruct (CP g Eg) as (C1 & C2).
  destruct Wf as (dx & dy & E1 & E2 & _ & _ & W5). unfold exact_field in E1, E2, W5. cbn [deltax deltay body] in E1, E2, W5. rewrite Eg in W5. specialize (W5 _ eq_refl).
  rewrite (exact_fin _ Fdx) in E1. rewrite (exact_fin _ Fdy) in E2. injection E1 as <-. injection E2 as <-.
  destruct W5 as (Z1 & Z2 & _ & _ & (x0 & y0 & L1 & L2 & L3 & L4) & _). cbn [nrows ncols xmin xmax ymin ymax exact_geom] in *.
  rewrite (exact_fin _ (proj1 G1)) in L1. rewrite (exact_fin _ (proj1 G2)) in L2. rewrite (exact_fin _ (proj1 G3)) in L3. rewrite (exact_fin _ (proj1 G4)) in L4.
  injection L1 as <-. injection L2 as L2. injection L3 as <-. injection L4 as L4.
  destruct (linspace_exact lm ex (xmin g) (xmax g) (deltax s) (ncols g) Hex G1 G2 (conj Fdx Udx) Pdx ltac:(lia) L2 C1) as (X & X1 & X2 & X3).
  destruct (linspace_exact lm ey (ymin g) (ymax g) (deltay s) (nrows g) Hey G3 G4 (conj Fdy Udy) Pdy ltac:(lia) L4 C2) as (Y & Y1 & Y2 & Y3).
  exists X, Y. auto 10.
Qed.

(** ** The probabilities *)
Definition near_quotient (p : spec_float) (q : R) : Prop := ffinite p /\ fval p = rd q /\ q * (1 - / 2 ^ 53) <= fval p <= q * (1 + / 2 ^ 53).

Lemma quotient k v w : (-1074 <= k <= 960)%Z -> sound_weight k v -> sound_weight k w -> fval v <= fval w -> 0 < fval w ->
  near_quotient (SFdiv fprec femax v w) (fval v / fval w) /\ (0 < fval (SFdiv fprec femax v w) <-> 0 < fval v).
Proof.
  intros Hk (Fv & Pv & Uv) (Fw & Pw & Uw) L P. assert (I : 0 < / fval w) by now apply Rinv_0_lt_compat.
  assert (B : 0 <= fval v / fval w <= 1) by (split; [apply Rmult_le_pos; lra|apply Rmult_le_reg_r with (fval w); [exact P|]; unfold Rdiv; rewrite Rmult_assoc, Rinv_l by lra; lra]).
  assert (R1 : 0 <= rd (fval v / fval w) <= 1).
  { apply rd_between; [apply generic_format_0|apply (F_int_mul 1); lia|exact B]. }
  destruct (div_rd v w Fv Fw) as (Q & V); [lra|rewrite Rabs_pos_eq by lra; eapply Rle_lt_trans; [apply R1|]; change 1 with (bpow radix2 0); apply bpow_lt; lia|].
  destruct (Rle_lt_or_eq_dec 0 (fval v) Pv) as [Pv'|Zv].
  - pose proof (units_pos k _ Uv Pv') as V1. destruct Uw as (_ & Bw). rewrite (Rabs_pos_eq (fval w)) in Bw by exact Pw. pose proof (p_pos k) as Pk.
    assert (LQ : bpow radix2 (-53) <= fval v / fval w).
    { apply Rmult_le_reg_r with (fval w); [exact P|]. unfold Rdiv. rewrite Rmult_assoc, Rinv_l, Rmult_1_r by lra.
      eapply Rle_trans; [apply Rmult_le_compat_l; [apply bpow_ge_0|exact Bw]|]. rewrite p_bpow in *. rewrite <- bpow_plus. replace (-53 + (53 + k))%Z with k by lia. exact V1. }
    assert (LN : bpow radix2 (-1022) <= fval v / fval w) by (eapply Rle_trans; [|exact LQ]; apply bpow_le; lia).
    pose proof (rd_rel _ LN) as RR. split.
    + split; [exact Q|]. rewrite V. split; [reflexivity|exact RR].
    + split; [intros _; exact Pv'|intros _]. rewrite V. pose proof (bpow_gt_0 radix2 (-53)).
      assert (0 < 1 - / 2 ^ 53) by (pose proof (pow_R1_Rle 2 53 ltac:(lra)); assert (/ 2 ^ 53 < 1); [|lra]; rewrite <- Rinv_1; apply Rinv_1_lt_contravar; [lra|]; change 1 with (2 ^ 0); apply Rlt_pow; [lra|lia]).
      eapply Rlt_le_trans; [|apply RR]. apply Rmult_lt_0_compat; lra.
  - rewrite <- Zv in *. assert (E0 : rd (0 / fval w) = 0) by (unfold Rdiv; rewrite Rmult_0_l; apply round_0; typeclasses eauto). rewrite E0 in V.
    split; [split; [exact Q|]; rewrite V; unfold Rdiv in *; rewrite E0; split; [reflexivity|]; rewrite Rmult_0_l; lra|]. rewrite V. tauto.
Qed.

(** ** Counting the captured cells, in any arithmetic *)
Section Count.
  Context {T : Type} {N : Num T}.
  Definition positive (Z_ : list (list T)) (i j : nat) : bool :=
    match get2 Z_ (Z.of_nat i) (Z.of_nat j) with Some z => nlt (nZ 0) z | None => false end.
  Definition hits (p : nat -> nat -> bool) (rows cols : list nat) : nat := list_sum (map (fun i => length (filter (p i) cols)) rows).
  Definition tally (c : T) (n : nat) (a : T) : T := Nat.iter n (fun a => nadd a c) a.

  Lemma tally_add c n m a : tally c (n + m) a = tally c m (tally c n a).
  Proof. rewrite Nat.add_comm. induction m as [|m IH]; [reflexivity|]. unfold tally in *. exact (f_equal (fun a => nadd a c) IH). Qed.
  Lemma count_row Z_ c i cols : (forall j, In j cols -> get2 Z_ (Z.of_nat i) (Z.of_nat j) <> None) -> forall a,
    for_in cols (fun j area => match get2 Z_ (Z.of_nat i) (Z.of_nat j) with None => Raise IndexError | Some z => if nlt (nZ 0) z then Ok (nadd area c) else Ok area end) a
    = Ok (tally c (length (filter (positive Z_ i) cols)) a).
  Proof.
    induction cols as [|j cols IH]; intros H a; [reflexivity|]. cbn [for_in filter]. specialize (IH (fun j' Hj => H j' (or_intror Hj))).
    pose proof (H j (or_introl eq_refl)) as Hj. unfold positive at 1. destruct (get2 Z_ (Z.of_nat i) (Z.of_nat j)) as [z|]; [|congruence].
    destruct (nlt (nZ 0) z); cbn [bind]; rewrite IH; [|reflexivity]. cbn [length]. f_equal. change (S ?n) with (1 + n)%nat. rewrite tally_add. reflexivity.
  Qed.
  Lemma count_rows Z_ c cols rows : (forall i j, In i rows -> In j cols -> get2 Z_ (Z.of_nat i) (Z.of_nat j) <> None) -> forall a,
    for_in rows (fun i area0 => for_in cols (fun j area => match get2 Z_ (Z.of_nat i) (Z.of_nat j) with None => Raise IndexError | Some z => if nlt (nZ 0) z then Ok (nadd area c) else Ok area end) area0) a
    = Ok (tally c (hits (positive Z_) rows cols) a).
  Proof.
    induction rows as [|i rows IH]; intros H a; [reflexivity|]. cbn [for_in]. rewrite count_row by (intros j Hj; exact (H i j (or_introl eq_refl) Hj)). cbn [bind].
    rewrite IH by (intros i' j Hi Hj; exact (H i' j (or_intror Hi) Hj)). unfold hits. cbn [map list_sum fold_right]. now rewrite tally_add.
  Qed.
End Count.

Lemma tally_R c n : @tally xr XR (Fin c) n (Fin 0) = Fin (INR n * c).
Proof. unfold tally. induction n as [|n IH]; [cbn; f_equal; ring|]. change (Nat.iter (S n) ?f ?x) with (f (Nat.iter n f x)). cbv beta. rewrite IH. cbn [nadd XR xadd]. rewrite S_INR. f_equal. ring. Qed.

(** The same sum in binary64. *)
Lemma u_small : 0 < / 2 ^ 53 < / 1000.
Proof. split; [apply Rinv_0_lt_compat, pow_lt; lra|]. apply Rinv_1_lt_contravar; [lra|]. lra. Qed.
Lemma exp_1_bound n : (Z.of_nat n <= 2 ^ 53)%Z -> (1 + / 2 ^ 53) ^ n <= 3.
Proof.
  intros H. apply Rle_trans with (exp (INR n * / 2 ^ 53)).
  - clear H. induction n as [|n IH]; [cbn; rewrite Rmult_0_l, exp_0; lra|]. rewrite S_INR, Rmult_plus_distr_r, Rmult_1_l, exp_plus. cbn [pow]. rewrite Rmult_comm. 
    pose proof u_small as U. apply Rmult_le_compat; [apply pow_le; lra|lra|exact IH|]. apply exp_ineq1_le.
  - eapply Rle_trans; [|apply exp_le_3]. assert (INR n * / 2 ^ 53 <= 1).
    { rewrite INR_IZR_INZ. apply IZR_le in H. apply Rmult_le_reg_r with (2 ^ 53); [apply pow_lt; lra|]. rewrite Rmult_assoc, Rinv_l by (apply pow_nonzero; lra). lra. }
    destruct (Req_dec (INR n * / 2 ^ 53) 1) as [->|NE]; [lra|]. left. apply exp_increasing. lra.
Qed.

Lemma tally_bounds lm (cell : spec_float) (c : R) n : bpow radix2 (-1022) <= c -> ffinite cell -> fval cell = rd c -> (Z.of_nat n <= 2 ^ 53)%Z -> INR n * c <= bpow radix2 1000 ->
  ffinite (@tally spec_float (SF lm) cell n (f_of_Z 0)) /\
  (1 - / 2 ^ 53) ^ n * (INR n * c) <= fval (@tally spec_float (SF lm) cell n (f_of_Z 0)) <= (1 + / 2 ^ 53) ^ n * (INR n * c).
Proof.
  intros Hc Fc Vc. pose proof u_small as U. set (u := / 2 ^ 53) in *. assert (C0 : 0 < c) by (pose proof (bpow_gt_0 radix2 (-1022)); lra).
  pose proof (rd_rel c Hc) as RC. fold u in RC. rewrite <- Vc in RC.
  induction n as [|n IH]; intros Hn Hb.
  { unfold tally. cbn [Nat.iter nat_rect]. destruct (of_small 0 ltac:(lia)) as (Q & V). split; [exact Q|]. rewrite V. cbn [INR pow]. lra. }
  assert (I0 : 0 <= INR n) by apply pos_INR. rewrite S_INR in *. 
  destruct (IH ltac:(lia) ltac:(nra)) as (Q & B1 & B2). clear IH.
  change (@tally spec_float (SF lm) cell (S n) (f_of_Z 0)) with (SFadd fprec femax (@tally spec_float (SF lm) cell n (f_of_Z 0)) cell).
  set (A := @tally spec_float (SF lm) cell n (f_of_Z 0)) in *.
  assert (P1 : (1 + u) ^ n <= 3) by (apply exp_1_bound; lia). assert (P2 : 1 <= (1 + u) ^ n) by (apply pow_R1_Rle; lra).
  assert (P3 : 0 <= (1 - u) ^ n) by (apply pow_le; lra). pose proof (pow_incr (1 - u) 1 n ltac:(lra)) as P4. rewrite pow1 in P4.
  assert (HA : 0 <= fval A) by (eapply Rle_trans; [|exact B1]; apply Rmult_le_pos; [exact P3|apply Rmult_le_pos; lra]).
  destruct n as [|n].
  - (* the first cell *)
    assert (EA : fval A = 0) by (unfold A, tally; cbn [Nat.iter nat_rect]; destruct (of_small 0 ltac:(lia)) as (_ & V); exact V).
    assert (RA : rd (fval A + fval cell) = fval cell) by (rewrite EA, Rplus_0_l; apply rd_F, F_of, Fc).
    assert (CB : fval cell < bpow radix2 1024).
    { apply Rle_lt_trans with (c * (1 + u)); [apply RC|]. cbn [INR] in Hb. apply Rle_lt_trans with (bpow radix2 1001); [|apply bpow_lt; lia].
      change 1001%Z with (1 + 1000)%Z. rewrite bpow_plus. change (bpow radix2 1) with 2. nra. }
    destruct (add_rd A cell Q Fc) as (Q1 & V1); [rewrite RA, Rabs_pos_eq by (eapply Rle_trans; [|apply RC]; nra); exact CB|].
    split; [exact Q1|]. rewrite V1, RA. cbn [INR pow]. rewrite !Rmult_1_r, Rplus_0_l, Rmult_1_l. split; [rewrite Rmult_comm|rewrite (Rmult_comm (1 + u))]; apply RC.
  - set (m := S n) in *. assert (I1 : 1 <= INR m) by (unfold m; rewrite S_INR; pose proof (pos_INR n); lra).
    assert (LO : (1 - u) ^ m * ((INR m + 1) * c) <= fval A + fval cell).
    { assert ((1 - u) ^ m <= 1 - u).
      { unfold m. cbn [pow]. rewrite <- (Rmult_1_r (1 - u)) at 3. apply Rmult_le_compat_l; [lra|]. pose proof (pow_incr (1 - u) 1 n ltac:(lra)) as P6. rewrite pow1 in P6. exact P6. }
      assert ((1 - u) ^ m * c <= fval cell) by (eapply Rle_trans; [|apply RC]; rewrite (Rmult_comm c); apply Rmult_le_compat_r; lra). lra. }
    assert (HI : fval A + fval cell <= (1 + u) ^ m * ((INR m + 1) * c)).
    { assert (1 + u <= (1 + u) ^ m).
      { unfold m. cbn [pow]. rewrite <- (Rmult_1_r (1 + u)) at 1. apply Rmult_le_compat_l; [lra|]. apply pow_R1_Rle. lra. }
      assert (fval cell <= (1 + u) ^ m * c) by (eapply Rle_trans; [apply RC|]; rewrite (Rmult_comm c); apply Rmult_le_compat_r; lra). lra. }
    assert (BIG : bpow radix2 (-1022) <= fval A + fval cell).
    { apply Rle_trans with (fval cell); [|lra]. rewrite Vc, <- (rd_F (bpow radix2 (-1022))) by (apply F_bpow; lia). now apply rd_le. }
    pose proof (rd_rel _ BIG) as RA. fold u in RA.
    assert (UP : rd (fval A + fval cell) <= (1 + u) ^ S m * ((INR m + 1) * c)).
    { eapply Rle_trans; [apply RA|]. rewrite Rmult_comm. cbn [pow]. rewrite Rmult_assoc. apply Rmult_le_compat_l; [lra|exact HI]. }
    assert (P0 : 0 <= rd (fval A + fval cell)) by (pose proof (bpow_gt_0 radix2 (-1022)); eapply Rle_trans; [|apply RA]; apply Rmult_le_pos; lra).
    assert (P5 : (1 + u) ^ S m <= 3) by (apply exp_1_bound; exact Hn).
    destruct (add_rd A cell Q Fc) as (Q1 & V1).
    { rewrite Rabs_pos_eq by exact P0. eapply Rle_lt_trans; [exact UP|]. apply Rle_lt_trans with (3 * bpow radix2 1000).
      - apply Rmult_le_compat; [apply pow_le; lra|apply Rmult_le_pos; lra|exact P5|exact Hb].
      - apply Rlt_le_trans with (bpow radix2 2 * bpow radix2 1000); [change (bpow radix2 2) with 4; pose proof (bpow_gt_0 radix2 1000); lra|]. rewrite <- bpow_plus. apply bpow_le. lia. }
    split; [exact Q1|]. rewrite V1. split; [|exact UP].
    eapply Rle_trans; [|apply RA]. cbn [pow]. rewrite (Rmult_comm (fval A + fval cell)), Rmult_assoc. apply Rmult_le_compat_l; [lra|exact LO].
Qed.

Lemma tally_exact lm (cell : spec_float) e n : (-1074 <= e <= 960)%Z -> ffinite cell -> on_units e (fval cell) -> Rabs (INR n * fval cell) <= powerRZ 2 (53 + e) ->
  ffinite (@tally spec_float (SF lm) cell n (f_of_Z 0)) /\ fval (@tally spec_float (SF lm) cell n (f_of_Z 0)) = INR n * fval cell.
Proof.
  intros He Fc Uc. induction n as [|n IH]; intros B.
  { unfold tally. cbn [Nat.iter nat_rect]. destruct (of_small 0 ltac:(lia)) as (Q & V). split; [exact Q|]. rewrite V. cbn [INR]. ring. }
  pose proof (pos_INR n) as I0. destruct IH as (Q & V).
  { eapply Rle_trans; [|exact B]. rewrite S_INR, !Rabs_mult. apply Rmult_le_compat_r; [apply Rabs_pos|]. rewrite !Rabs_pos_eq by lra. lra. }
  change (@tally spec_float (SF lm) cell (S n) (f_of_Z 0)) with (SFadd fprec femax (@tally spec_float (SF lm) cell n (f_of_Z 0)) cell).
  set (A := @tally spec_float (SF lm) cell n (f_of_Z 0)) in *.
  assert (E : fval A + fval cell = INR (S n) * fval cell) by (rewrite V, S_INR; ring).
  assert (U : on_units e (fval A + fval cell)).
  { rewrite E, INR_IZR_INZ. apply units_mulZ; [exact Uc|]. rewrite <- INR_IZR_INZ. exact B. }
  destruct (add_units e A cell He Q Fc U) as (Q1 & V1). split; [exact Q1|]. now rewrite V1.
Qed.

(** ** The plots *)
Lemma weight_total k s g W : sound_grid k s -> body s = Some g -> total (exact_field s) W -> ffinite (total_weight g) /\ fval (total_weight g) = W.
Proof.
  intros G Eg (g' & Eg' & EW). unfold exact_field in Eg'. cbn [body] in Eg'. rewrite Eg in Eg'. injection Eg' as <-. cbn [total_weight exact_geom] in EW.
  destruct (G g Eg) as ((FW & _) & _). rewrite (exact_fin _ FW) in EW. injection EW as EW. auto.
Qed.
Lemma not_stopped lm k s g W : sound_grid k s -> body s = Some g -> total (exact_field s) W -> 0 < W ->
  @nle spec_float (SF lm) (total_weight g) (@nZ spec_float (SF lm) 0) = false.
Proof.
  intros G Eg HT HW. destruct (weight_total k s g W G Eg HT) as (FW & VW). destruct (of_small 0 ltac:(lia)) as (Q & V).
  cbn [nle nZ SF]. rewrite (fleb _ _ FW Q), V, VW. apply Rle_bool_false. lra.
Qed.

Lemma entry lm k s g W i j : (-1074 <= k <= 960)%Z -> sound_grid k s -> body s = Some g -> total (exact_field s) W -> 0 < W ->
  match get2 (pgrid g) i j with
  | Some v => get2 (@prob_grid spec_float (SF lm) g) i j = Some (SFdiv fprec femax v (total_weight g)) /\
      get2 (@prob_grid xr XR (exact_geom g)) i j = Some (Fin (fval v / W)) /\
      near_quotient (SFdiv fprec femax v (total_weight g)) (fval v / W) /\ (0 < fval (SFdiv fprec femax v (total_weight g)) <-> 0 < fval v / W)
  | None => get2 (@prob_grid spec_float (SF lm) g) i j = None /\ get2 (@prob_grid xr XR (exact_geom g)) i j = None
  end.
Proof.
  intros Hk G Eg HT HW. destruct (weight_total k s g W G Eg HT) as (FW & VW). destruct (G g Eg) as (SW & SG).
  unfold prob_grid. cbn [pgrid total_weight exact_geom]. rewrite !get2_map. destruct (get2 (pgrid g) i j) as [v|] eqn:E; cbn [option_map]; [|auto].
  assert (SV : sound_weight k v /\ fval v <= fval (total_weight g)).
  { unfold get2 in E. destruct ((i <? 0)%Z || (j <? 0)%Z); [discriminate|]. destruct (nth_error (pgrid g) (Z.to_nat i)) as [row|] eqn:E1; [|discriminate].
    apply nth_error_In in E1. apply nth_error_In in E. exact (SG row v E1 E). }
  destruct SV as (SV & LV). destruct (quotient k v (total_weight g) Hk SV SW LV ltac:(lra)) as (Q1 & Q2). rewrite VW in Q1.
  split; [reflexivity|]. split; [|split; [exact Q1|]].
  - rewrite (exact_fin _ (proj1 SV)), (exact_fin _ FW), VW. cbn [ndiv XR]. f_equal. apply div_fin. lra.
  - rewrite Q2. assert (I : 0 < / W) by now apply Rinv_0_lt_compat. unfold Rdiv. split; intros P; [now apply Rmult_lt_0_compat|]. apply Rmult_lt_reg_r with (/ W); [exact I|]. lra.
Qed.

(** C131: the axes are the coordinates of the grid lines, without rounding, and the drawn probabilities are correct to
    one part in 2^53. *)
Lemma c131_axes : forall lm ex ey k s W, dyadic ex ey s -> compact ex ey s -> (-1074 <= k <= 960)%Z -> sound_grid k s ->
  wf (exact_field s) -> total (exact_field s) W -> 0 < W ->
  exists X Y P P', @create_probability_plot spec_float (SF lm) s = Ok (X, Y, P) /\
    create_probability_plot (exact_field s) = Ok (map exact X, map exact Y, P') /\
    forall i j q, get2 P' i j = Some (Fin q) ->
      exists p, get2 P i j = Some p /\ ffinite p /\ q * (1 - / 2 ^ 53) <= fval p <= q * (1 + / 2 ^ 53).
Proof.
  intros lm ex ey k s W D C Hk G Wf HT HW. pose proof D as (_ & _ & Fdx & _ & _ & Fdy & _ & _ & g & Eg & Dg).
  destruct (field_axes lm ex ey s g D C Wf Eg) as (X & Y & X1 & Y1 & _ & _ & _ & _ & X3 & Y3).
  destruct (c71_axes (exact_field s) W Wf HT HW) as (g' & dx & dy & x0 & y0 & P' & Eg' & Ex & Ey & Ex0 & Ey0 & EP & _ & _).
  unfold exact_field in Eg'. cbn [body] in Eg'. rewrite Eg in Eg'. injection Eg' as <-. cbn [deltax deltay exact_field xmin ymin exact_geom] in Ex, Ey, Ex0, Ey0.
  destruct (dyadic_good _ _ _ Dg) as (G1 & _ & G3 & _).
  rewrite (exact_fin _ Fdx) in Ex. rewrite (exact_fin _ Fdy) in Ey. rewrite (exact_fin _ (proj1 G1)) in Ex0. rewrite (exact_fin _ (proj1 G3)) in Ey0.
  injection Ex as <-. injection Ey as <-. injection Ex0 as <-. injection Ey0 as <-.
  exists X, Y, (@prob_grid spec_float (SF lm) g), P'. split; [|split].
  - unfold create_probability_plot. rewrite Eg, (not_stopped lm k s g W G Eg HT HW), X1, Y1. reflexivity.
  - rewrite EP, X3, Y3. reflexivity.
  - assert (EP' : P' = @prob_grid xr XR (exact_geom g)).
    { unfold create_probability_plot, exact_field in EP. cbn [body] in EP. rewrite Eg in EP. destruct (nle _ _) in EP; [discriminate|].
      destruct (linspace _ _ _) in EP; [|discriminate..]. destruct (linspace _ _ _) in EP; [|discriminate..]. cbn [bind] in EP. congruence. }
    intros i j q H. rewrite EP' in H. pose proof (entry lm k s g W i j Hk G Eg HT HW) as K. destruct (get2 (pgrid g) i j) as [v|]; [|destruct K as (_ & K); congruence].
    destruct K as (K1 & K2 & (K3 & _ & K4) & _). rewrite K2 in H. injection H as <-. eexists. split; [exact K1|]. split; [exact K3|exact K4].
Qed.

Lemma hits_ext (p q : nat -> nat -> bool) rows cols : (forall i j, In i rows -> In j cols -> p i j = q i j) -> hits p rows cols = hits q rows cols.
Proof.
  intros H. unfold hits. f_equal. apply map_ext_in. intros i Hi. f_equal. apply filter_ext_in. intros j Hj. now apply H.
Qed.

(** C131: the area of a deterministic capture zone: the number of captured nodes times the area of a cell, up to one
    rounding for each; exactly, if the area of a cell has few digits (spacings in whole metres, for example). *)
Lemma c131_area : forall lm ex ey k s W l, dyadic ex ey s -> compact ex ey s -> (-1074 <= k <= 960)%Z -> sound_grid k s ->
  wf (exact_field s) -> total (exact_field s) W -> 0 < W -> (-1022 <= ex + ey)%Z -> enumerates (exact_field s) l ->
  let n := captured l in let c := fval (deltax s) * fval (deltay s) in
  (Z.of_nat n <= 2 ^ 53)%Z -> c <= powerRZ 2 900 -> INR n * c <= powerRZ 2 1000 ->
  exists A, @create_deterministic_plot spec_float (SF lm) s = Ok A /\ ffinite A /\
    (1 - / 2 ^ 53) ^ n * (INR n * c) <= fval A <= (1 + / 2 ^ 53) ^ n * (INR n * c) /\
    (forall e, (-1074 <= e <= 960)%Z -> on_units e c -> on_units e (INR n * c) -> fval A = INR n * c).
Proof.
  intros lm ex ey k s W l D C Hk G Wf HT HW Hee En n c Hn Hc Hb. pose proof D as (Hex & Hey & Fdx & Pdx & Udx & Fdy & Pdy & Udy & g & Eg & Dg).
  destruct (field_axes lm ex ey s g D C Wf Eg) as (X & Y & X1 & Y1 & NC & NR & X2 & Y2 & X3 & Y3).
  assert (LX : length X = Z.to_nat (ncols g)) by (rewrite <- (map_length exact X), X3, map_length, zrange_length; f_equal; lia).
  assert (LY : length Y = Z.to_nat (nrows g)) by (rewrite <- (map_length exact Y), Y3, map_length, zrange_length; f_equal; lia).
  assert (RE : rect (nrows g) (ncols g) (pgrid g)).
  { destruct Wf as (dx & dy & _ & _ & _ & _ & W5). unfold exact_field in W5. cbn [body] in W5. rewrite Eg in W5. destruct (W5 _ eq_refl) as (_ & _ & (R1 & R2) & _). cbn in R1, R2.
    rewrite map_length in R1. split; [exact R1|]. rewrite Forall_map in R2. eapply Forall_impl; [|exact R2]. cbn. intros r Hr. now rewrite map_length in Hr. }
  assert (SOME : forall i j, In i (seq 0 (length Y)) -> In j (seq 0 (length X)) -> exists v, get2 (pgrid g) (Z.of_nat i) (Z.of_nat j) = Some v).
  { intros i j Hi Hj. apply in_seq in Hi. apply in_seq in Hj. apply (get2_rect _ _ _ _ _ _ RE); lia. }
  (* the cell *)
  destruct (X2 0%Z ltac:(lia)) as (x0 & NX0 & Fx0 & Vx0). destruct (X2 1%Z ltac:(lia)) as (x1 & NX1 & Fx1 & Vx1).
  destruct (Y2 0%Z ltac:(lia)) as (y0 & NY0 & Fy0 & Vy0). destruct (Y2 1%Z ltac:(lia)) as (y1 & NY1 & Fy1 & Vy1).
  assert (Ddx : fval x1 - fval x0 = fval (deltax s)) by (rewrite Vx0, Vx1; ring). assert (Ddy : fval y1 - fval y0 = fval (deltay s)) by (rewrite Vy0, Vy1; ring).
  destruct (sub_units ex x1 x0 Hex Fx1 Fx0 ltac:(rewrite Ddx; exact Udx)) as (Qx & Vx). destruct (sub_units ey y1 y0 Hey Fy1 Fy0 ltac:(rewrite Ddy; exact Udy)) as (Qy & Vy).
  rewrite Ddx in Vx. rewrite Ddy in Vy.
  assert (C1 : bpow radix2 (-1022) <= c).
  { pose proof (units_pos _ _ Udx Pdx) as U1. pose proof (units_pos _ _ Udy Pdy) as U2. rewrite p_bpow in U1, U2.
    apply Rle_trans with (bpow radix2 (ex + ey)); [apply bpow_le; lia|]. rewrite bpow_plus. apply Rmult_le_compat; auto using bpow_ge_0. }
  assert (C0 : 0 < c) by (pose proof (bpow_gt_0 radix2 (-1022)); lra).
  assert (RB : 0 <= rd c < bpow radix2 1024).
  { pose proof (rd_rel c C1) as RR. pose proof u_small. split; [eapply Rle_trans; [|apply RR]; apply Rmult_le_pos; lra|].
    eapply Rle_lt_trans; [apply RR|]. rewrite p_bpow in Hc. apply Rle_lt_trans with (bpow radix2 901); [|apply bpow_lt; lia].
    change 901%Z with (1 + 900)%Z. rewrite bpow_plus. change (bpow radix2 1) with 2. nra. }
  destruct (mul_rd (SFsub fprec femax x1 x0) (SFsub fprec femax y1 y0) Qx Qy) as (Qc & Vc); [rewrite Vx, Vy; rewrite Rabs_pos_eq by apply RB; apply RB|].
  rewrite Vx, Vy in Vc. fold c in Vc. set (cell := SFmul fprec femax (SFsub fprec femax x1 x0) (SFsub fprec femax y1 y0)) in *.
  (* the count *)
  set (PS := @prob_grid spec_float (SF lm) g). set (PX := @prob_grid xr XR (exact_geom g)).
  assert (HITS : hits (@positive spec_float (SF lm) PS) (seq 0 (length Y)) (seq 0 (length X)) = n).
  { rewrite (hits_ext _ (@positive xr XR PX)).
    - pose proof (c70_area (exact_field s) W _ _ l Wf HT HW (exact_fin _ Fdx) (exact_fin _ Fdy) En) as CA. fold n in CA. fold c in CA.
      destruct (c71_axes (exact_field s) W Wf HT HW) as (g' & dx & dy & xx & yy & P' & Eg' & Ex & Ey & Ex0 & Ey0 & EP & _ & _).
      unfold exact_field in Eg'. cbn [body] in Eg'. rewrite Eg in Eg'. injection Eg' as <-. cbn [deltax deltay exact_field xmin ymin exact_geom ncols nrows] in Ex, Ey, Ex0, Ey0, EP.
      rewrite (exact_fin _ Fdx) in Ex. rewrite (exact_fin _ Fdy) in Ey. injection Ex as <-. injection Ey as <-.
      unfold create_deterministic_plot, create_probability_plot, exact_field in CA, EP. cbn [body] in CA, EP. rewrite Eg in CA, EP.
      destruct (nle _ _) in CA, EP; [discriminate|]. destruct (linspace (xmin (exact_geom g)) _ _) as [XX| |] in CA, EP; [|discriminate..].
      destruct (linspace (ymin (exact_geom g)) _ _) as [YY| |] in CA, EP; [|discriminate..]. cbn [bind] in CA, EP. injection EP as EX EY _. subst XX YY.
      rewrite !map_length, !zrange_length, !Z.sub_0_r in CA. rewrite LX, LY.
      assert (N0 : forall f m, (0 < m)%Z -> py_nth (map (fun j => Fin (f j)) (zrange 0 m)) 0 = Ok (Fin (f 0%Z))).
      { intros f m Hm. unfold py_nth. rewrite nth_error_map, nth_error_zrange. cbn [Z.of_nat]. rewrite Z.sub_0_r. destruct (Z.ltb_spec 0 m); [|lia]. reflexivity. }
      assert (N1 : forall f m, (1 < m)%Z -> py_nth (map (fun j => Fin (f j)) (zrange 0 m)) 1 = Ok (Fin (f 1%Z))).
      { intros f m Hm. unfold py_nth. rewrite nth_error_map, nth_error_zrange. cbn [Z.of_nat Pos.of_succ_nat]. rewrite Z.sub_0_r. destruct (Z.ltb_spec 1 m); [|lia]. reflexivity. }
      rewrite (N0 (fun j => xx + IZR j * fval (deltax s))) in CA by lia. rewrite (N1 (fun j => xx + IZR j * fval (deltax s))) in CA by lia.
      rewrite (N0 (fun j => yy + IZR j * fval (deltay s))) in CA by lia. rewrite (N1 (fun j => yy + IZR j * fval (deltay s))) in CA by lia. cbn [bind nsub nmul XR xsub xmul] in CA.
      replace (xx + 1 * fval (deltax s) - (xx + 0 * fval (deltax s))) with (fval (deltax s)) in CA by ring.
      replace (yy + 1 * fval (deltay s) - (yy + 0 * fval (deltay s))) with (fval (deltay s)) in CA by ring. fold c in CA. fold PX in CA.
      rewrite (count_rows PX (Fin c)) in CA.
      + rewrite tally_R in CA. injection CA as CA. apply INR_eq. apply Rmult_eq_reg_r with c; [exact CA|lra].
      + intros i j Hi Hj. rewrite <- LY in Hi. rewrite <- LX in Hj. destruct (SOME i j Hi Hj) as (v & Ev). pose proof (entry lm k s g W (Z.of_nat i) (Z.of_nat j) Hk G Eg HT HW) as K. rewrite Ev in K.
        destruct K as (_ & K2 & _). unfold PX. rewrite K2. discriminate.
    - intros i j Hi Hj. destruct (SOME i j Hi Hj) as (v & Ev). pose proof (entry lm k s g W (Z.of_nat i) (Z.of_nat j) Hk G Eg HT HW) as K. rewrite Ev in K.
      destruct K as (K1 & K2 & (K3 & _) & K4). unfold positive, PS, PX. rewrite K1, K2. destruct (of_small 0 ltac:(lia)) as (Q0 & V0).
      cbn [nlt nZ SF XR xlt]. rewrite (fltb _ _ Q0 K3), V0. destruct (Rltb_spec 0 (fval v / W)) as [L|L].
      + apply Rlt_bool_true, K4, L.
      + apply Rlt_bool_false. apply Rnot_lt_le. intros L'. apply K4 in L'. lra. }
  exists (@tally spec_float (SF lm) cell n (f_of_Z 0)). split; [|].
  - unfold create_deterministic_plot. rewrite Eg, (not_stopped lm k s g W G Eg HT HW), X1, Y1. cbn [bind].
    unfold py_nth. cbn [Z.to_nat Pos.to_nat] in NX0, NX1, NY0, NY1. change (Pos.to_nat 1) with 1%nat in NX1, NY1. rewrite NX0, NX1, NY0, NY1. cbn [bind nsub nmul SF]. fold cell. fold PS.
    rewrite (count_rows (N := SF lm) PS cell); [rewrite HITS; reflexivity|].
    intros i j Hi Hj. destruct (SOME i j Hi Hj) as (v & Ev). pose proof (entry lm k s g W (Z.of_nat i) (Z.of_nat j) Hk G Eg HT HW) as K. rewrite Ev in K.
    destruct K as (K1 & _). unfold PS. rewrite K1. discriminate.
  - rewrite p_bpow in Hb. destruct (tally_bounds lm cell c n C1 Qc Vc Hn Hb) as (T1 & T2). split; [exact T1|]. split; [exact T2|].
    intros e He U1 U2. assert (VC : fval cell = c) by (rewrite Vc; apply rd_F, (units_F e); [lia|exact U1]).
    destruct (tally_exact lm cell e n He Qc ltac:(rewrite VC; exact U1) ltac:(rewrite VC; apply U2)) as (_ & V). now rewrite V, VC.
Qed.

(** ** The curve of areas *)
Lemma insert_exact lm x l : ffinite x -> Forall ffinite l -> map exact (@sort_insert spec_float (SF lm) x l) = @sort_insert xr XR (exact x) (map exact l).
Proof.
  intros Fx H. induction H as [|y l Fy H IH]; [reflexivity|]. cbn [sort_insert map]. rewrite (exact_le lm) by assumption.
  destruct (@nle spec_float (SF lm) x y); [reflexivity|]. cbn [map]. now rewrite IH.
Qed.
Lemma insert_finite lm x l : ffinite x -> Forall ffinite l -> Forall ffinite (@sort_insert spec_float (SF lm) x l).
Proof.
  intros Fx H. induction H as [|y l Fy H IH]; cbn [sort_insert]; [auto|]. destruct (nle x y); auto.
Qed.
Lemma sort_exact lm l : Forall ffinite l -> Forall ffinite (@nsort spec_float (SF lm) l) /\ map exact (@nsort spec_float (SF lm) l) = @nsort xr XR (map exact l).
Proof.
  intros H. induction H as [|x l Fx H (IH1 & IH2)]; [split; [constructor|reflexivity]|]. unfold nsort in *. cbn [fold_right map]. split; [now apply insert_finite|].
  rewrite insert_exact by assumption. now rewrite IH2.
Qed.
Lemma map_exact_fin l : Forall ffinite l -> map exact l = map Fin (map fval l).
Proof. intros H. rewrite map_map. apply map_ext_in. intros x Hx. apply exact_fin. rewrite Forall_forall in H. auto. Qed.
Lemma map_Fin_inj l l' : map Fin l = map Fin l' -> l = l'.
Proof. revert l'. induction l as [|x l IH]; intros [|y l'] H; try discriminate; [reflexivity|]. injection H as -> H. f_equal. auto. Qed.

Lemma sorted_rd l : StronglySorted Rle l -> StronglySorted Rle (map (fun q => rd q) l).
Proof.
  induction 1 as [|x l S IH H]; cbn; constructor; [exact IH|]. rewrite Forall_map. eapply Forall_impl; [|exact H]. cbn. intros a. apply rd_le.
Qed.
Lemma sort_rd l : rsort (map (fun q => rd q) l) = map (fun q => rd q) (rsort l).
Proof.
  apply sorted_unique; [apply rsort_sorted|apply sorted_rd, rsort_sorted|]. etransitivity; [apply Permutation_sym, rsort_perm|]. apply Permutation_map, rsort_perm.
Qed.

Lemma quotients (w : spec_float) (W : R) grid :
  (forall row v, In row grid -> In v row -> near_quotient (SFdiv fprec femax v w) (fval v / W) /\ ndiv (exact v) (exact w) = Fin (fval v / W)) ->
  let L := concat (map (map (fun v => SFdiv fprec femax v w)) grid) in
  exists Q, concat (map (map (fun v => @ndiv xr XR v (exact w))) (map (map exact) grid)) = map Fin Q /\ Forall2 near_quotient L Q.
Proof.
  induction grid as [|row grid IH]; intros H L; [exists []; split; [reflexivity|constructor]|].
  destruct IH as (Q & E & R); [intros r v Hr Hv; exact (H r v (or_intror Hr) Hv)|].
  exists (map (fun v => fval v / W) row ++ Q). unfold L. cbn [map concat]. split.
  - rewrite map_app, E. f_equal. rewrite !map_map. apply map_ext_in. intros v Hv. exact (proj2 (H row v (or_introl eq_refl) Hv)).
  - apply Forall2_app; [|exact R]. clear -H. assert (H' := fun v Hv => proj1 (H row v (or_introl eq_refl) Hv)). clear H. induction row as [|v row IH]; [constructor|]. cbn [map]. constructor; [apply H'; now left|]. apply IH. intros u Hu. apply H'. now right.
Qed.

Lemma impact_core lm k s W l sp : (-1074 <= k <= 960)%Z -> sound_grid k s -> wf (exact_field s) -> total (exact_field s) W -> 0 < W -> enumerates (exact_field s) l ->
  exists pr qs g, body s = Some g /\
    @create_impact_plot spec_float (SF lm) sp s = Ok (pr, map (fun j => SFmul fprec femax (f_of_Z (Z.of_nat j + 1)) (SFmul fprec femax sp sp)) (seq 0 (length pr))) /\
    Permutation qs (map (fun n => snd n / W) l) /\ StronglySorted Rge qs /\ Forall ffinite pr /\ map fval pr = map (fun q => rd q) qs /\ length pr = length l /\
    forall q, In q qs -> q * (1 - / 2 ^ 53) <= rd q <= q * (1 + / 2 ^ 53) /\ exists row v, In row (pgrid g) /\ In v row /\ q = fval v / W.
Proof.
  intros Hk G Wf HT HW En.
  destruct (proj2 (c68_curve (exact_field s) 0 W l Wf HT En) HW) as (qs & E & P & S).
  pose proof HT as (g' & Eg' & _). unfold exact_field in Eg'. cbn [body] in Eg'. destruct (body s) as [g|] eqn:Eg; [|discriminate]. clear g' Eg'.
  destruct (weight_total k s g W G Eg HT) as (FW & VW). destruct (G g Eg) as (SW & SG).
  assert (EP : map Fin qs = rev (nsort (concat (@prob_grid xr XR (exact_geom g))))).
  { unfold create_impact_plot, exact_field in E. cbn [body] in E. rewrite Eg in E. cbn [option_map] in E. destruct (nle _ _) in E; [discriminate|]. injection E as E _. now symmetry. }
  destruct (quotients (total_weight g) W (pgrid g)) as (Q & EQ & RQ).
  { intros row v Hr Hv. destruct (SG row v Hr Hv) as (SV & LV). destruct (quotient k v (total_weight g) Hk SV SW LV ltac:(lra)) as (Q1 & _). rewrite VW in Q1. split; [exact Q1|].
    rewrite (exact_fin _ (proj1 SV)), (exact_fin _ FW), VW. cbn [ndiv XR]. apply div_fin. lra. }
  set (L := concat (map (map (fun v => SFdiv fprec femax v (total_weight g))) (pgrid g))) in *.
  unfold prob_grid in EP. cbn [pgrid total_weight exact_geom] in EP. rewrite EQ, nsort_R, <- map_rev in EP. apply map_Fin_inj in EP.
  assert (FL : Forall ffinite L) by (clear -RQ; induction RQ as [|p q L Q H _ IH]; constructor; [apply H|exact IH]).
  assert (VL : map fval L = map (fun q => rd q) Q) by (clear -RQ; induction RQ as [|p q L Q (_ & H & _) _ IH]; [reflexivity|]; cbn [map]; now rewrite H, IH).
  assert (NQ : forall q, In q Q -> q * (1 - / 2 ^ 53) <= rd q <= q * (1 + / 2 ^ 53)).
  { clear -RQ. induction RQ as [|p q L Q (_ & H1 & H2) _ IH]; [contradiction|]. intros r [<-|I]; [rewrite <- H1; exact H2|auto]. }
  destruct (sort_exact lm L FL) as (FS & ES). rewrite (map_exact_fin _ FS), (map_exact_fin _ FL), nsort_R in ES. apply map_Fin_inj in ES. rewrite VL, sort_rd in ES.
  set (pr := rev (@nsort spec_float (SF lm) L)).
  assert (FP : Forall ffinite pr) by (unfold pr; apply Forall_rev; exact FS).
  assert (VP : map fval pr = map (fun q => rd q) qs) by (unfold pr; rewrite map_rev, ES, EP, map_rev; reflexivity).
  assert (IQ : forall q, In q qs -> In q Q) by (intros q; rewrite EP, <- in_rev; apply Permutation_in, Permutation_sym, rsort_perm).
  assert (LP : length pr = length l) by (rewrite <- (map_length fval pr), VP, map_length, (Permutation_length P), map_length; reflexivity).
  exists pr, qs, g. split; [reflexivity|]. split; [|split; [exact P|split; [exact S|split; [exact FP|split; [exact VP|split; [exact LP|]]]]]].
  - unfold create_impact_plot. rewrite Eg, (not_stopped lm k s g W G Eg HT HW). reflexivity.
  - intros q Hq. split; [apply NQ, IQ, Hq|]. apply IQ in Hq.
    assert (I : In (Fin q) (concat (map (map (fun v => @ndiv xr XR v (exact (total_weight g)))) (map (map exact) (pgrid g))))) by (rewrite EQ; now apply in_map).
    apply in_concat in I. destruct I as (rw & H1 & H2). rewrite map_map in H1. apply in_map_iff in H1. destruct H1 as (row & <- & Hr). rewrite map_map in H2. apply in_map_iff in H2.
    destruct H2 as (v & H2 & Hv). exists row, v. split; [exact Hr|]. split; [exact Hv|]. destruct (SG row v Hr Hv) as (SV & _).
    rewrite (exact_fin _ (proj1 SV)), (exact_fin _ FW), VW in H2. cbn [ndiv XR] in H2. rewrite div_fin in H2 by lra. now injection H2 as <-.
Qed.

(** C131: the curve of areas: the same probabilities in the same order, each correct to one part in 2^53, and the areas
    correct to two roundings. *)
Lemma c131_impact : forall lm k s W l sp, (-1074 <= k <= 960)%Z -> sound_grid k s -> wf (exact_field s) -> total (exact_field s) W -> 0 < W ->
  enumerates (exact_field s) l -> (Z.of_nat (length l) <= 2 ^ 53)%Z -> ffinite sp -> powerRZ 2 (-500) <= fval sp <= powerRZ 2 400 ->
  exists pr area qs, @create_impact_plot spec_float (SF lm) sp s = Ok (pr, area) /\
    Permutation qs (map (fun n => snd n / W) l) /\ StronglySorted Rge qs /\
    Forall2 (fun p q => ffinite p /\ q * (1 - / 2 ^ 53) <= fval p <= q * (1 + / 2 ^ 53)) pr qs /\
    StronglySorted (fun p p' => fval p >= fval p') pr /\ length area = length pr /\
    forall i, (i < length pr)%nat -> exists a, nth_error area i = Some a /\ ffinite a /\
      (1 - / 2 ^ 53) ^ 2 * (INR (i + 1) * (fval sp * fval sp)) <= fval a <= (1 + / 2 ^ 53) ^ 2 * (INR (i + 1) * (fval sp * fval sp)).
Proof.
  intros lm k s W l sp Hk G Wf HT HW En Hl Fs Bs.
  destruct (impact_core lm k s W l sp Hk G Wf HT HW En) as (pr & qs & g & _ & E & P & S & FP & VP & LP & NQ).
  exists pr, (map (fun j => SFmul fprec femax (f_of_Z (Z.of_nat j + 1)) (SFmul fprec femax sp sp)) (seq 0 (length pr))), qs.
  split; [|split; [exact P|split; [exact S|split; [|split; [|split; [now rewrite map_length, seq_length|]]]]]].
  - exact E.
  - clear -FP VP NQ. revert qs VP NQ. induction FP as [|p pr Fp FP IH]; intros [|q qs] V NQ; try discriminate; [constructor|]. cbn [map] in V. injection V as V1 V2. constructor.
    + split; [exact Fp|]. rewrite V1. apply NQ. now left.
    + apply IH; [exact V2|]. intros r Hr. apply NQ. now right.
  - clear -VP S. revert pr VP. induction S as [|q qs S IH H]; intros [|p pr] V; try discriminate; [constructor|]. cbn [map] in V. injection V as V1 V2. constructor; [now apply IH|].
    clear -V1 V2 H. revert pr V2. induction H as [|r qs Hr H IH]; intros [|p' pr] V; try discriminate; constructor; cbn [map] in V; injection V as V3 V4; [|auto]. rewrite V1, V3. apply Rle_ge, rd_le, Rge_le, Hr.
  - intros i Hi. eexists. split; [rewrite nth_error_map, (nth_error_nth' _ 0%nat) by (rewrite seq_length; exact Hi); rewrite seq_nth by exact Hi; reflexivity|].
    cbn [Nat.add]. destruct (of_small (Z.of_nat i + 1) ltac:(lia)) as (Fi & Vi). rewrite !p_bpow in Bs.
    assert (B2 : bpow radix2 (-1000) <= fval sp * fval sp <= bpow radix2 800).
    { pose proof (bpow_gt_0 radix2 (-500)). pose proof (bpow_gt_0 radix2 400). change (-1000)%Z with (-500 + -500)%Z. change 800%Z with (400 + 400)%Z. rewrite !bpow_plus. split; apply Rmult_le_compat; lra. }
    set (a := fval sp * fval sp) in *. set (m := INR (i + 1)).
    assert (Em : IZR (Z.of_nat i + 1) = m) by (unfold m; rewrite INR_IZR_INZ; f_equal; lia). rewrite Em in Vi.
    assert (Bm : 1 <= m <= bpow radix2 53) by (rewrite <- Em; split; [apply IZR_le; lia|]; change (bpow radix2 53) with (IZR (2 ^ 53)); apply IZR_le; lia).
    assert (R1 : bpow radix2 (-1022) <= a) by (eapply Rle_trans; [|apply B2]; apply bpow_le; lia).
    pose proof (rd_rel a R1) as RA. pose proof u_small as US. set (u := / 2 ^ 53) in *.
    pose proof (bpow_gt_0 radix2 (-1000)) as Z1. pose proof (bpow_gt_0 radix2 800) as Z2.
    assert (RA2 : bpow radix2 (-1001) <= rd a <= bpow radix2 801).
    { change (-1001)%Z with (-1 + -1000)%Z. change 801%Z with (1 + 800)%Z. rewrite !bpow_plus. change (bpow radix2 (-1)) with (/ 2). change (bpow radix2 1) with 2. split; nra. }
    destruct (mul_rd sp sp Fs Fs) as (Fa & Va); [fold a; rewrite Rabs_pos_eq by (pose proof (bpow_gt_0 radix2 (-1001)); lra); eapply Rle_lt_trans; [apply RA2|apply bpow_lt; lia]|]. fold a in Va.
    assert (M1 : bpow radix2 (-1022) <= m * rd a). { apply Rle_trans with (1 * bpow radix2 (-1001)); [rewrite Rmult_1_l; apply bpow_le; lia|]. apply Rmult_le_compat; [lra|apply bpow_ge_0|apply Bm|apply RA2]. }
    assert (M2 : m * rd a <= bpow radix2 854). { change 854%Z with (53 + 801)%Z. rewrite bpow_plus. apply Rmult_le_compat; [lra| |apply Bm|apply RA2]. pose proof (bpow_gt_0 radix2 (-1001)); lra. }
    pose proof (rd_rel _ M1) as RM. fold u in RM. pose proof (bpow_gt_0 radix2 (-1022)) as Z3. pose proof (bpow_gt_0 radix2 854) as Z4.
    assert (RM2 : Rabs (rd (m * rd a)) < bpow radix2 1024).
    { rewrite Rabs_pos_eq by (eapply Rle_trans; [|apply RM]; apply Rmult_le_pos; lra). apply Rle_lt_trans with (bpow radix2 855); [|apply bpow_lt; lia]. change 855%Z with (1 + 854)%Z. rewrite bpow_plus. change (bpow radix2 1) with 2. nra. }
    destruct (mul_rd (f_of_Z (Z.of_nat i + 1)) (SFmul fprec femax sp sp) Fi Fa) as (Fm & Vm); [rewrite Vi, Va; exact RM2|]. rewrite Vi, Va in Vm.
    split; [exact Fm|]. rewrite Vm. clear -RM RA US Bm. destruct Bm as (Bm & _). split.
    + eapply Rle_trans; [|apply RM]. replace ((1 - u) ^ 2 * (m * a)) with (m * (a * (1 - u)) * (1 - u)) by ring. apply Rmult_le_compat_r; [lra|]. apply Rmult_le_compat_l; [lra|apply RA].
    + eapply Rle_trans; [apply RM|]. replace ((1 + u) ^ 2 * (m * a)) with (m * (a * (1 + u)) * (1 + u)) by ring. apply Rmult_le_compat_r; [lra|]. apply Rmult_le_compat_l; [lra|apply RA].
Qed.

(** ** The points of the curve that are drawn *)
Lemma equal_zero v : ffinite v -> SFeqb v (f_of_Z 0) = (SFleb v (f_of_Z 0) && SFleb (f_of_Z 0) v)%bool.
Proof. intros (_ & H). destruct v as [b|b| |b m e]; try contradiction; destruct b; reflexivity. Qed.
Lemma find_points (f : spec_float -> bool) (h : xr -> bool) : forall pr qs, Forall2 (fun v q => f v = h (Fin q)) pr qs -> forall k,
  find_first f pr k = find_first h (map Fin qs) k.
Proof. induction 1 as [|v q pr qs E H IH]; intros k; [reflexivity|]. cbn [find_first map]. rewrite E. destruct (h (Fin q)); [reflexivity|apply IH]. Qed.

(** C131: the points of the curve that are drawn are the same as in exact arithmetic. *)
Lemma c131_points : forall lm k s W l sp sp' pr area pr' area', (-1074 <= k <= 960)%Z -> sound_grid k s -> wf (exact_field s) -> total (exact_field s) W -> 0 < W ->
  enumerates (exact_field s) l -> @create_impact_plot spec_float (SF lm) sp s = Ok (pr, area) -> create_impact_plot (Fin sp') (exact_field s) = Ok (pr', area') ->
  exists i n, @impact_points spec_float (SF lm) pr area = firstn n (skipn i (combine pr area)) /\
    impact_points pr' area' = firstn n (skipn i (combine pr' area')).
Proof.
  intros lm k s W l sp sp' pr area pr' area' Hk G Wf HT HW En E E'.
  destruct (impact_core lm k s W l sp Hk G Wf HT HW En) as (pr0 & qs & g & Eg & E0 & P & S & FP & VP & LP & NQ). rewrite E in E0. injection E0 as <- _.
  destruct (proj2 (c68_curve (exact_field s) sp' W l Wf HT En) HW) as (qs' & E1 & P' & S'). rewrite E' in E1. injection E1 as -> _.
  assert (EQ : qs' = qs).
  { rewrite <- (rev_involutive qs'), <- (rev_involutive qs). f_equal.
    assert (SR : forall q, StronglySorted Rge q -> StronglySorted Rle (rev q)).
    { clear. induction 1 as [|x q S IH H]; [constructor|]. cbn [rev]. clear S. revert IH. assert (H' : Forall (Rge x) (rev q)) by now apply Forall_rev. clear H. generalize dependent (rev q). clear q.
      induction l as [|y l IH]; intros H S; [repeat constructor|]. inversion H as [|? ? H1 H2]; subst. inversion S as [|? ? S1 S2]; subst. cbn [app]. constructor; [now apply IH|].
      apply Forall_app. split; [exact S2|]. constructor; [lra|constructor]. }
    apply sorted_unique; [now apply SR|now apply SR|]. etransitivity; [apply Permutation_sym, Permutation_rev|]. etransitivity; [exact P'|]. etransitivity; [apply Permutation_sym, P|]. apply Permutation_rev. }
  subst qs'. destruct (weight_total k s g W G Eg HT) as (FW & VW). destruct (G g Eg) as ((_ & _ & UW) & SG). rewrite VW in UW. destruct UW as ((n & EW) & BW).
  rewrite (Rabs_pos_eq W) in BW by lra. pose proof (p_pos k) as Pk.
  assert (Hn : (0 < n <= 2 ^ 53)%Z).
  { rewrite p_bpow in BW, EW, Pk. rewrite bpow_plus in BW. split.
    - apply lt_IZR. apply Rmult_lt_reg_r with (bpow radix2 k); [exact Pk|]. rewrite Rmult_0_l. lra.
    - apply le_IZR. apply Rmult_le_reg_r with (bpow radix2 k); [exact Pk|]. change (IZR (2 ^ 53)) with (bpow radix2 53). lra. }
  assert (N0 : 0 < IZR n) by (apply IZR_lt; lia).
  destruct (of_small 0 ltac:(lia)) as (F0 & V0). destruct (of_small 1 ltac:(lia)) as (F1 & V1). pose proof u_small as US.
  assert (ONE : forall v q, ffinite v -> fval v = rd q -> In q qs -> @nlt spec_float (SF lm) v (@nZ spec_float (SF lm) 1) = @nlt xr XR (Fin q) (nZ 1)).
  { intros v q Fv Vv Hq. destruct (NQ q Hq) as (_ & row & w & Hr & Hw & Eq). destruct (SG row w Hr Hw) as ((_ & Pw & ((m & Em) & _)) & Lw). rewrite VW in Lw.
    cbn [nlt nZ SF XR xlt]. rewrite (fltb _ _ Fv F1), Vv, V1.
    destruct (Rle_lt_or_eq_dec _ _ Lw) as [L|L].
    - assert (Hm : (m < n)%Z) by (apply lt_IZR; apply Rmult_lt_reg_r with (powerRZ 2 k); [exact Pk|]; lra).
      assert (Q1 : q <= 1 - bpow radix2 (-53)).
      { assert (E1 : q = IZR m / IZR n) by (rewrite Eq, Em, EW; field; lra). rewrite E1. apply Rmult_le_reg_r with (IZR n); [exact N0|]. unfold Rdiv. rewrite Rmult_assoc, Rinv_l, Rmult_1_r by lra.
        assert (IZR m <= IZR n - 1) by (rewrite <- minus_IZR; apply IZR_le; lia). assert (bpow radix2 (-53) * IZR n <= 1); [|lra].
        apply Rle_trans with (bpow radix2 (-53) * bpow radix2 53); [apply Rmult_le_compat_l; [apply bpow_ge_0|]; change (bpow radix2 53) with (IZR (2 ^ 53)); apply IZR_le; lia|]. rewrite <- bpow_plus. cbn. lra. }
      assert (FF : F (1 - bpow radix2 (-53))).
      { replace (1 - bpow radix2 (-53)) with (IZR (2 ^ 53 - 1) * powerRZ 2 (-53)).
        - apply (units_F (-53)); [lia|]. split; [exists (2 ^ 53 - 1)%Z; reflexivity|]. rewrite p_bpow, Rabs_pos_eq by (apply Rmult_le_pos; [apply IZR_le; lia|apply bpow_ge_0]).
          rewrite p_bpow. apply Rle_trans with (IZR (2 ^ 53) * bpow radix2 (-53)); [apply Rmult_le_compat_r; [apply bpow_ge_0|apply IZR_le; lia]|]. change (IZR (2 ^ 53)) with (bpow radix2 53). rewrite <- bpow_plus. apply bpow_le. lia.
        - rewrite p_bpow, minus_IZR. change (IZR (2 ^ 53)) with (bpow radix2 53). rewrite Rmult_minus_distr_r, <- bpow_plus. change (bpow radix2 (53 + -53)) with 1. ring. }
      pose proof (rd_le _ _ Q1) as R1. rewrite (rd_F _ FF) in R1. pose proof (bpow_gt_0 radix2 (-53)) as B.
      rewrite Rlt_bool_true by lra. symmetry. apply Rltb_true. lra.
    - assert (E1 : q = 1) by (rewrite Eq, L; field; lra). rewrite E1, (rd_F 1) by (apply (F_int_mul 1); lia). rewrite Rlt_bool_false by lra. symmetry. apply Rltb_false. lra. }
  assert (ZERO : forall v q, ffinite v -> fval v = rd q -> In q qs -> @neq spec_float (SF lm) v (@nZ spec_float (SF lm) 0) = @neq xr XR (Fin q) (nZ 0)).
  { intros v q Fv Vv Hq. destruct (NQ q Hq) as (RQ & row & w & Hr & Hw & Eq). destruct (SG row w Hr Hw) as ((_ & Pw & _) & _).
    assert (Q0 : 0 <= q) by (rewrite Eq; apply Rmult_le_pos; [exact Pw|apply Rlt_le, Rinv_0_lt_compat, HW]).
    cbn [neq nZ SF XR xeq]. rewrite (equal_zero v Fv), (fleb _ _ Fv F0), (fleb _ _ F0 Fv), Vv, V0. set (u := / 2 ^ 53) in *.
    destruct (Req_dec q 0) as [Z|Z].
    - rewrite Z in *. rewrite !Rle_bool_true by lra. symmetry. apply Reqb_true. reflexivity.
    - assert (0 < rd q) by (eapply Rlt_le_trans; [|apply RQ]; apply Rmult_lt_0_compat; lra). rewrite (Rle_bool_false (rd q)) by lra. symmetry. apply Reqb_false. exact Z. }
  assert (ALL : forall (f : spec_float -> bool) (h : xr -> bool), (forall v q, ffinite v -> fval v = rd q -> In q qs -> f v = h (Fin q)) -> argmax_first f pr = argmax_first h (map Fin qs)).
  { intros f h H. unfold argmax_first. rewrite (find_points f h pr qs); [reflexivity|]. clear -FP VP H. revert qs VP H. induction FP as [|v pr Fv FP IH]; intros [|q qs] V H; try discriminate; [constructor|].
    cbn [map] in V. injection V as V1 V2. constructor; [apply H; [exact Fv|exact V1|now left]|]. apply IH; [exact V2|]. intros w r Fw Vw Hr. apply H; [exact Fw|exact Vw|now right]. }
  assert (LQ : length (map Fin qs) = length pr) by (rewrite map_length, (Permutation_length P), map_length; symmetry; exact LP).
  unfold impact_points. rewrite (ALL (fun v => @nlt spec_float (SF lm) v (@nZ spec_float (SF lm) 1)) (fun x => @nlt xr XR x (nZ 1)) ONE), (ALL (fun v => @neq spec_float (SF lm) v (@nZ spec_float (SF lm) 0)) (fun x => @neq xr XR x (nZ 0)) ZERO), LQ. eexists _, _. split; reflexivity.
Qed.

(** ** A case *)
Definition well2 : pfield spec_float := Eval vm_compute in @run_ops spec_float (SF some_lm) 100 well0 story.
Lemma well2_ran lm : @run_ops spec_float (SF lm) 100 well0 story = well2.
Proof. vm_compute. reflexivity. Qed.
Lemma well2_facts : dyadic (-34) (-30) well2 /\ compact (-34) (-30) well2 /\ sound_grid 0 well2 /\ wf (exact_field well2) /\ total (exact_field well2) 1.
Proof.
  destruct well0_facts as (Ex & Ey & D & Wf & G & T & Z).
  destruct (c92_example some_lm) as (s & E & SR & SS & SL & SB & _ & _ & ST). rewrite well0_init in E. injection E as <-. rewrite well2_ran in ST.
  assert (R : Forall (in_range_op (-34) (-30) (deltax well0) (deltay well0)) story) by (rewrite Ex, Ey; exact SR).
  destruct (c89_history some_lm 100 (-34) (-30) story well0 D R) as (_ & D2). rewrite well2_ran in D2.
  inversion R as [|? ? R1 R2]; subst. inversion SS as [|? ? S1 S2]; subst. inversion S2 as [|? ? S3 _]; subst.
  destruct (other_calm some_lm 0 (-34) (-30) 100 well0 _ D Wf G R1) as ((Wf1 & Ini1 & _ & C2) & G1); [discriminate|].
  cbn [run_op] in Wf1, Ini1, C2, G1. rewrite well1_raster in Wf1, Ini1, C2, G1. cbn [fst] in Wf1, Ini1, C2, G1.
  cbn [sound_op] in S3. assert (B : 0 + fval one <= powerRZ 2 (53 + 0)) by (cbn [story load] in SL, SB; lra).
  destruct (c92_register some_lm 0 well1 one 0 ltac:(lia) G1 S3 (C2 0 T) B) as (E1 & G2). cbn zeta in E1, G2.
  assert (N : fst (@register spec_float (SF some_lm) well1 one) = well2) by (vm_compute; reflexivity). rewrite N in E1, G2.
  destruct (c14_register_exact (exact_field well1) (fval one) Wf1 Ini1) as (t & E' & Wf2 & _). rewrite E1 in E'. injection E' as <-.
  split; [exact D2|]. split; [|split; [exact G2|split; [exact Wf2|exact ST]]].
  intros g E. injection E as <-. cbn [xmin xmax ymin ymax]. rewrite !p_bpow.
  split; [apply Rle_trans with 16|apply Rle_trans with 16].
  - match goal with |- fval ?a - fval ?b <= _ => rewrite (value a _ 17179869184 (-34) eq_refl eq_refl p34), (value b _ 17179869184 (-34) eq_refl eq_refl p34) end. cbv [mant]. cbn. lra.
  - change 16 with (bpow radix2 4). apply bpow_le. lia.
  - match goal with |- fval ?a - fval ?b <= _ => rewrite (value a _ 1073741824 (-30) eq_refl eq_refl p30), (value b _ 1073741824 (-30) eq_refl eq_refl p30) end. cbv [mant]. cbn. lra.
  - change 16 with (bpow radix2 4). apply bpow_le. lia.
Qed.

Lemma impact_length (s : pfield xr) sp g pr area : body s = Some g -> create_impact_plot sp s = Ok (pr, area) -> length pr = length (concat (pgrid g)).
Proof.
  intros Eg E. unfold create_impact_plot in E. rewrite Eg in E. destruct (nle _ _) in E; [discriminate|]. injection E as E _. rewrite <- E, rev_length.
  assert (I : forall (x : xr) q, length (sort_insert x q) = S (length q)) by (intros x q; induction q as [|y q IH]; [reflexivity|]; cbn [sort_insert]; destruct (nle x y); cbn [length]; lia).
  assert (N : forall q : list xr, length (nsort q) = length q) by (intros q; unfold nsort; induction q as [|x q IH]; [reflexivity|]; cbn [fold_right length]; now rewrite I, IH).
  rewrite N. unfold prob_grid. rewrite <- concat_map. apply map_length.
Qed.

(** The track of three points on cells of 2 by 2: 50 nodes of 72 are captured, and the area is 200 exactly. *)
Lemma c131_example : forall lm, exists s l A, s = @run_ops spec_float (SF lm) 100 well0 story /\ dyadic (-34) (-30) s /\ compact (-34) (-30) s /\ sound_grid 0 s /\
  wf (exact_field s) /\ total (exact_field s) 1 /\ enumerates (exact_field s) l /\ captured l = 50%nat /\ length l = 72%nat /\
  fval (deltax s) * fval (deltay s) = 4 /\ @create_deterministic_plot spec_float (SF lm) s = Ok A /\ fval A = 200.
Proof.
  intros lm. destruct well2_facts as (D & C & G & Wf & T).
  assert (Ini : initialised (exact_field well2)) by (vm_compute; discriminate).
  destruct (c68_enumeration (exact_field well2) Wf Ini) as ((l & En & _) & _).
  destruct (of_small 2 ltac:(lia)) as (F2 & V2). change (f_of_Z 2) with two in F2, V2.
  assert (Cell : fval (deltax well2) * fval (deltay well2) = 4) by (change (deltax well2) with two; change (deltay well2) with two; rewrite V2; ring).
  assert (LL : length l = 72%nat).
  { destruct (proj2 (c68_curve (exact_field well2) 1 1 l Wf T En) ltac:(lra)) as (pr & E & P & _). apply Permutation_length in P. rewrite map_length in P. rewrite <- P.
    assert (X : exists g, body (exact_field well2) = Some g /\ length (concat (pgrid g)) = 72%nat) by (eexists; split; reflexivity).
    destruct X as (g & Eg & Lg). rewrite <- (map_length Fin pr), (impact_length _ _ _ _ _ Eg E). exact Lg. }
  assert (Bn : (captured l <= 72)%nat).
  { rewrite <- LL. unfold captured. clear. induction l as [|n l IH]; cbn; [lia|]. destruct (Rlt_dec 0 (snd n)); cbn; lia. }
  assert (Bn' : INR (captured l) <= 72) by (replace 72 with (INR 72) by (rewrite INR_IZR_INZ; reflexivity); apply le_INR; exact Bn). pose proof (pos_INR (captured l)) as Pn.
  assert (P10 : forall z, (9 <= z)%Z -> 512 <= powerRZ 2 z) by (intros z Hz; rewrite p_bpow; change 512 with (bpow radix2 9); apply bpow_le; exact Hz).
  destruct (c131_area lm (-34) (-30) 0 well2 1 l D C ltac:(lia) G Wf T ltac:(lra) ltac:(lia) En) as (A & EA & FA & BA & XA).
  { lia. } { rewrite Cell. pose proof (P10 900%Z ltac:(lia)). lra. } { rewrite Cell. pose proof (P10 1000%Z ltac:(lia)). lra. }
  assert (EX : fval A = INR (captured l) * 4).
  { rewrite <- Cell. apply (XA 0%Z); [lia| |]; rewrite Cell; (split; [|pose proof (P10 (53 + 0)%Z ltac:(lia)); rewrite Rabs_pos_eq by lra; lra]).
    - exists 4%Z. cbn. ring.
    - exists (Z.of_nat (captured l) * 4)%Z. rewrite mult_IZR, <- INR_IZR_INZ. cbn. ring. }
  assert (VA : A = S754_finite false 7036874417766400 (-45)).
  { assert (H : @create_deterministic_plot spec_float (SF lm) well2 = Ok (S754_finite false 7036874417766400 (-45))) by (vm_compute; reflexivity). rewrite H in EA. now injection EA as <-. }
  assert (V200 : fval A = 200).
  { rewrite VA. change (S754_finite false 7036874417766400 (-45)) with (f_of_Z 200). apply (of_small 200). lia. }
  exists well2, l, A. split; [symmetry; apply well2_ran|]. split; [exact D|]. split; [exact C|]. split; [exact G|]. split; [exact Wf|]. split; [exact T|]. split; [exact En|].
  split; [|split; [exact LL|split; [exact Cell|split; [exact EA|exact V200]]]].
  apply INR_eq. assert (F50 : INR 50 = 50) by (rewrite INR_IZR_INZ; reflexivity). rewrite F50. lra.
Qed.
