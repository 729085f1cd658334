(** * The decile table in binary64 (C132) *)
From Coq Require Import ZArith Reals Lra Lia SpecFloat List Permutation Sorted.
From Flocq Require Import Core.
From Verif Require Import Py Num NumXR Grid ModelField ModelObs ModelPlot SpecFloats SpecExact SpecField SpecPlot SpecDecile
  ProofFloat ProofFloatGrow ProofFloatOps ProofFloatMean ProofFloatGrid ProofStats ProofPlot ProofField ProofFloatWeight
  ProofFloatField ProofFloatCases ProofFieldHist ProofDecile ProofAreas.
Import ListNotations.
Local Open Scope R_scope.

Local Notation fx := (FLT_exp (-1074) 53).
Local Notation rd := (round radix2 fx ZnearestE).

(** ** The thresholds *)
Definition bounds64 : list spec_float := Eval vm_compute in
  match @linspace spec_float (SF some_lm) (@nlit spec_float (SF some_lm) 5 100) (@nlit spec_float (SF some_lm) 95 100) 19 with Ok l => l | _ => [] end.
Lemma bounds64_eq lm : @linspace spec_float (SF lm) (@nlit spec_float (SF lm) 5 100) (@nlit spec_float (SF lm) 95 100) 19 = Ok bounds64.
Proof. vm_compute. reflexivity. Qed.
Lemma p57 : powerRZ 2 (-57) = / 144115188075855872. Proof. unfold powerRZ. f_equal. rewrite (pow_IZR 2). reflexivity. Qed.

Lemma bound_at j : (j < 19)%nat -> exists t, nth_error bounds64 j = Some t /\ ffinite t /\
  INR (j + 1) / 20 - / 1125899906842624 <= fval t <= INR (j + 1) / 20 + / 1125899906842624 /\
  SFleb (SFdiv fprec femax (f_of_Z (Z.of_nat j + 1)) (f_of_Z 20)) t = negb (low j).
Proof.
  intros H. do 19 (destruct j as [|j]; [eexists; split; [reflexivity|]; split; [split; [vm_compute; reflexivity|exact I]|]; split; [|vm_compute; reflexivity];
    match goal with |- _ <= fval ?t <= _ => rewrite (value t _ 144115188075855872 (-57) eq_refl eq_refl p57) end; cbv [mant]; cbn [Nat.add]; rewrite INR_IZR_INZ; cbn; lra|]). lia.
Qed.

(** ** One comparison: the quotient of two numbers of realizations with a threshold *)
Lemma apart_or_equal m n j : (0 < n <= 2 ^ 40)%Z -> let q := IZR m / IZR n in let p := INR (j + 1) / 20 in
  q = p \/ (q < p /\ 1 <= (p - q) * 21990232555520) \/ (p < q /\ 1 <= (q - p) * 21990232555520).
Proof.
  intros Hn q p. assert (N0 : 0 < IZR n) by (apply IZR_lt; lia). assert (N1 : IZR n <= 1099511627776) by (apply IZR_le; lia).
  set (a := (20 * m - Z.of_nat (j + 1) * n)%Z). assert (E : (q - p) * (20 * IZR n) = IZR a).
  { unfold a, q, p. rewrite minus_IZR, !mult_IZR, <- INR_IZR_INZ. field. lra. }
  destruct (Z.lt_trichotomy a 0) as [L|[L|L]].
  - right. left. assert (IZR a <= -1) by (apply IZR_le; lia). assert (q < p) by nra. split; [assumption|]. nra.
  - left. rewrite L in E. nra.
  - right. right. assert (1 <= IZR a) by (apply IZR_le; lia). assert (p < q) by nra. split; [assumption|]. nra.
Qed.

Definition passes (j : nat) (q : R) : bool := if low j then Rltb q (INR (j + 1) / 20) else Rleb q (INR (j + 1) / 20).

Lemma compared m n j t v : (0 <= m <= n)%Z -> (0 < n <= 2 ^ 40)%Z -> (j < 19)%nat -> nth_error bounds64 j = Some t ->
  ffinite v -> let q := IZR m / IZR n in fval v = rd q -> q * (1 - / 2 ^ 53) <= rd q <= q * (1 + / 2 ^ 53) ->
  SFleb v t = passes j q.
Proof.
  intros Hm Hn Hj Et Fv q Vv Rq. destruct (bound_at j Hj) as (t' & Et' & Ft & Bt & Lt). rewrite Et in Et'. injection Et' as <-.
  rewrite (fleb _ _ Fv Ft), Vv. assert (N0 : 0 < IZR n) by (apply IZR_lt; lia).
  assert (Q01 : 0 <= q <= 1).
  { unfold q. split; [apply Rmult_le_pos; [apply IZR_le; lia|apply Rlt_le, Rinv_0_lt_compat, N0]|]. apply Rmult_le_reg_r with (IZR n); [exact N0|]. unfold Rdiv.
    rewrite Rmult_assoc, Rinv_l by lra. rewrite Rmult_1_l, Rmult_1_r. apply IZR_le. lia. }
  assert (U : 0 < / 2 ^ 53 <= / 1125899906842624).
  { split; [apply Rinv_0_lt_compat, pow_lt; lra|]. apply Rinv_le_contravar; [lra|]. rewrite (pow_IZR 2). apply IZR_le. vm_compute. discriminate. }
  set (u := / 2 ^ 53) in *. clearbody u. assert (D : q - u <= rd q <= q + u) by nra.
  unfold passes. destruct (apart_or_equal m n j Hn) as [E|[(L & S)|(L & S)]]; fold q in E || fold q in L, S.
  - (* equal *)
    destruct (of_small (Z.of_nat j + 1) ltac:(lia)) as (F1 & V1). destruct (of_small 20 ltac:(lia)) as (F2 & V2).
    assert (EQ : IZR (Z.of_nat j + 1) / 20 = q) by (rewrite E, INR_IZR_INZ; do 2 f_equal; lia).
    destruct (div_rd _ _ F1 F2) as (F3 & V3); [rewrite V2; lra|rewrite V1, V2, EQ; eapply Rle_lt_trans with 2; [apply Rabs_le; lra|change 2 with (bpow radix2 1); apply bpow_lt; lia]|].
    rewrite V1, V2, EQ in V3. rewrite (fleb _ _ F3 Ft), V3 in Lt. rewrite Lt, E.
    destruct (low j); cbn [negb]; symmetry; [apply Rltb_false; lra|apply Rleb_true; lra].
  - transitivity true; [apply Rle_bool_true; lra|]. symmetry. destruct (low j); [apply Rltb_true; lra|apply Rleb_true; lra].
  - transitivity false; [apply Rle_bool_false; lra|]. symmetry. destruct (low j); [apply Rltb_false; lra|apply Rleb_false; lra].
Qed.

(** ** The position of a row *)
Lemma passes_down j : forall x y, y <= x -> passes j x = true -> passes j y = true.
Proof. intros x y H. unfold passes. destruct (low j); rewrite ?Rltb_true, ?Rleb_true; lra. Qed.

Lemma find_same (f : spec_float -> bool) (h : R -> bool) : forall pr qs, Forall2 (fun v q => f v = h q) pr qs -> forall k,
  find_first f pr k = find_first (fun x : xr => match x with Fin r => h r | _ => false end) (map Fin qs) k.
Proof. induction 1 as [|v q pr qs E H IH]; intros k; [reflexivity|]. cbn [find_first map]. rewrite E. destruct (h q); [reflexivity|apply IH]. Qed.

Definition before (j : nat) (W : R) (l : list (point * R)) : nat :=
  if low j then reaching W (INR (j + 1) / 20) l else exceeding W (INR (j + 1) / 20) l.
Lemma before_filter j W l qs : Permutation qs (map (fun n : point * R => snd n / W) l) -> length (filter (fun v => negb (passes j v)) qs) = before j W l.
Proof.
  intros H. rewrite (Permutation_length (filter_perm _ _ _ H)), filter_map_length. unfold before, reaching, exceeding, passes.
  destruct (low j); f_equal; apply filter_ext; intros n.
  - destruct (Rle_dec (INR (j + 1) / 20) (snd n / W)); destruct (Rltb_spec (snd n / W) (INR (j + 1) / 20)); cbn; auto; lra.
  - destruct (Rlt_dec (INR (j + 1) / 20) (snd n / W)); destruct (Rleb_spec (snd n / W) (INR (j + 1) / 20)); cbn; auto; lra.
Qed.
Lemma filter_split {A} (f : A -> bool) l : (length (filter (fun a => negb (f a)) l) + length (filter f l) = length l)%nat.
Proof. induction l as [|a l IH]; [reflexivity|]. cbn. destruct (f a); cbn; lia. Qed.

Lemma map_res_all {A B} (f : A -> res B) ts : (forall t, In t ts -> exists r, f t = Ok r) ->
  exists rows, map_res f ts = Ok rows /\ length rows = length ts /\ forall j t, nth_error ts j = Some t -> exists r, nth_error rows j = Some r /\ f t = Ok r.
Proof.
  induction ts as [|t ts IH]; intros H; [exists []; split; [reflexivity|split; [reflexivity|intros [|j] t E; discriminate]]|].
  destruct IH as (rows & E & L & K); [intros u Hu; apply H; now right|]. destruct (H t (or_introl eq_refl)) as (r & Er).
  exists (r :: rows). cbn [map_res]. rewrite Er, E. split; [reflexivity|]. split; [cbn; congruence|]. intros [|j] u Hu; cbn in Hu; [injection Hu as <-; exists r; auto|]. exact (K j u Hu).
Qed.

(** C132: row j of the table is the pair of probability and area at the position of the first node, in descending order of
    probability, that does not exceed (j+1)/20; for the five low thresholds, the first that is less than (j+1)/20. *)
Lemma c132_rows_partial : forall lm k s W l sp pr area, (-1074 <= k <= 960)%Z -> sound_grid k s -> wf (exact_field s) -> total (exact_field s) W -> 0 < W ->
  W <= powerRZ 2 (40 + k) -> enumerates (exact_field s) l -> @create_impact_plot spec_float (SF lm) sp s = Ok (pr, area) ->
  exists rows, @decile_table spec_float (SF lm) pr area = Ok rows /\ length rows = 19%nat /\
    forall j, (j < 19)%nat ->
      let c := (if low j then reaching W (INR (j + 1) / 20) l else exceeding W (INR (j + 1) / 20) l) in
      let i := (if (c <? length l)%nat then c else 0%nat) in
      exists v a, nth_error pr i = Some v /\ nth_error area i = Some a /\ 
        nth_error rows j = Some (v, a, @ndiv spec_float (SF lm) a (@nlit spec_float (SF lm) 404686 100)).
Proof.
  intros lm k s W l sp pr area Hk G Wf HT HW BW En E.
  destruct (impact_core lm k s W l sp Hk G Wf HT HW En) as (pr' & qs & g & Eg & E' & P & S & FP & VP & LP & NQ). rewrite E in E'. injection E' as <- EA.
  assert (LA : length area = length pr) by (rewrite EA, map_length, seq_length; reflexivity). clear E.
  assert (Ini : initialised (exact_field s)) by (unfold initialised, exact_field; cbn [body]; rewrite Eg; discriminate).
  assert (L0 : (0 < length l)%nat).
  { destruct (proj1 (c68_enumeration _ Wf Ini)) as (l0 & En0 & H9). rewrite (Permutation_length (proj2 (c68_enumeration _ Wf Ini) _ _ En En0)). lia. }
  destruct (weight_total k s g W G Eg HT) as (FW & VW). destruct (G g Eg) as ((_ & _ & ((n & EW) & _)) & SG). rewrite VW in EW.
  pose proof (p_pos k) as Pk.
  assert (Hn : (0 < n <= 2 ^ 40)%Z).
  { rewrite p_bpow in BW, EW, Pk. rewrite bpow_plus in BW. split.
    - apply lt_IZR. apply Rmult_lt_reg_r with (bpow radix2 k); [exact Pk|]. rewrite Rmult_0_l. lra.
    - apply le_IZR. apply Rmult_le_reg_r with (bpow radix2 k); [exact Pk|]. change (IZR (2 ^ 40)) with (bpow radix2 40). lra. }
  assert (CQ : forall q, In q qs -> exists m, (0 <= m <= n)%Z /\ q = IZR m / IZR n).
  { intros q Hq. destruct (NQ q Hq) as (_ & row & v & Hr & Hv & ->). destruct (SG row v Hr Hv) as ((_ & Pv & ((m & Em) & _)) & Lv). rewrite VW in Lv.
    exists m. split.
    - split; apply le_IZR; apply Rmult_le_reg_r with (powerRZ 2 k); try exact Pk; rewrite ?Rmult_0_l; lra.
    - rewrite Em, EW. field. split; [|lra]. apply not_0_IZR. lia. }
  assert (ROW : forall j t, (j < 19)%nat -> nth_error bounds64 j = Some t -> exists v a,
     nth_error pr (if (before j W l <? length l)%nat then before j W l else 0%nat) = Some v /\ nth_error area (if (before j W l <? length l)%nat then before j W l else 0%nat) = Some a /\
     @decile_row spec_float (SF lm) pr area t = Ok (v, a, @ndiv spec_float (SF lm) a (@nlit spec_float (SF lm) 404686 100))).
  { intros j t Hj Et. set (i := if (before j W l <? length l)%nat then before j W l else 0%nat).
    assert (Hi : (i < length l)%nat) by (unfold i; destruct (Nat.ltb_spec (before j W l) (length l)); lia).
    destruct (nth_error pr i) as [v|] eqn:Ev; [|apply nth_error_None in Ev; lia]. destruct (nth_error area i) as [a|] eqn:Ea; [|apply nth_error_None in Ea; lia].
    exists v, a. split; [reflexivity|]. split; [reflexivity|]. unfold decile_row.
    assert (AI : argmax_first (fun v => @nle spec_float (SF lm) v t) pr = i).
    { unfold argmax_first. rewrite (find_same _ (passes j) pr qs).
      - rewrite (find_first_sorted (passes j) (passes_down j) _ qs (fun r => eq_refl) S). pose proof (filter_split (passes j) qs) as FS. rewrite (before_filter j W l qs P) in *.
        assert (LQ : length qs = length l) by (rewrite (Permutation_length P), map_length; reflexivity). rewrite LQ in FS.
        unfold i. destruct (filter (passes j) qs) as [|x b]; cbn [length] in FS; destruct (Nat.ltb_spec (before j W l) (length l)); auto; lia.
      - clear -FP VP NQ CQ Hn Hj Et. revert qs VP NQ CQ. induction FP as [|v pr Fv FP IH]; intros [|q qs] V NQ CQ; try discriminate; [constructor|]. cbn [map] in V. injection V as V1 V2. constructor.
        + destruct (CQ q (or_introl eq_refl)) as (m & Hm & Eq). destruct (NQ q (or_introl eq_refl)) as (RQ & _). rewrite Eq in V1, RQ |- *. exact (compared m n j t v Hm Hn Hj Et Fv V1 RQ).
        + apply IH; [exact V2| |]; intros r Hr; [apply NQ; now right|apply CQ; now right]. }
    rewrite AI. unfold py_nth. rewrite Ev, Ea. reflexivity. }
  destruct (map_res_all (@decile_row spec_float (SF lm) pr area) bounds64) as (rows & ER & LR & KR).
  { intros t Ht. apply In_nth_error in Ht. destruct Ht as (j & Et). assert (Hj : (j < 19)%nat) by (apply (nth_error_Some bounds64 j); congruence).
    destruct (ROW j t Hj Et) as (v & a & _ & _ & R1). eauto. }
  exists rows. split; [unfold decile_table; rewrite bounds64_eq; exact ER|]. split; [exact LR|].
  intros j Hj c i. destruct (bound_at j Hj) as (t & Et & _). destruct (ROW j t Hj Et) as (v & a & H1 & H2 & H3). destruct (KR j t Et) as (r & H4 & H5).
  rewrite H3 in H5. injection H5 as <-. exists v, a. auto.
Qed.

(** C132, refuted: for the thresholds 0.4, 0.45, 0.5, 0.55 and 0.8, a node whose probability is exactly the threshold is not
    found: the row is that of a node of smaller probability, where exact arithmetic gives the threshold itself. *)
Lemma c132_refuted : forall lm k s W l sp pr area j n n', (-1074 <= k <= 960)%Z -> sound_grid k s -> wf (exact_field s) -> total (exact_field s) W -> 0 < W ->
  W <= powerRZ 2 (40 + k) -> enumerates (exact_field s) l -> @create_impact_plot spec_float (SF lm) sp s = Ok (pr, area) ->
  low j = true -> In n l -> snd n / W = INR (j + 1) / 20 -> In n' l -> snd n' / W < INR (j + 1) / 20 ->
  (exists rows v a b m, @decile_table spec_float (SF lm) pr area = Ok rows /\ nth_error rows j = Some (v, a, b) /\
     In m l /\ snd m / W < INR (j + 1) / 20 /\ snd m / W * (1 - / 2 ^ 53) <= fval v <= snd m / W * (1 + / 2 ^ 53)) /\
  (forall sp' pr' area', create_impact_plot (Fin sp') (exact_field s) = Ok (pr', area') ->
     exists rows a b, decile_table pr' area' = Ok rows /\ nth_error rows j = Some (Fin (INR (j + 1) / 20), a, b)).
Proof.
  intros lm k s W l sp pr area j n n' Hk G Wf HT HW BW En E LJ In1 P1 In2 P2.
  assert (Hj : (j < 19)%nat) by (do 19 (destruct j as [|j]; [lia|]); discriminate). split.
  - destruct (c132_rows_partial lm k s W l sp pr area Hk G Wf HT HW BW En E) as (rows & ER & LR & KR).
    destruct (KR j Hj) as (v & a & E1 & E2 & E3). rewrite LJ in E1.
    destruct (impact_core lm k s W l sp Hk G Wf HT HW En) as (pr' & qs & g & Eg & E' & P & S & FP & VP & LP & NQ). rewrite E in E'. injection E' as <- EA.
    assert (I2 : In (snd n' / W) (filter (passes j) qs)).
    { apply filter_In. split; [apply (Permutation_in _ (Permutation_sym P)), (in_map (fun n : point * R => snd n / W) _ _ In2)|]. unfold passes. rewrite LJ. apply Rltb_true. exact P2. }
    destruct (filter (passes j) qs) as [|x b] eqn:EF; [contradiction|].
    destruct (nth_sorted _ (passes_down j) qs x b S EF) as (N1 & N2 & N3 & _). pose proof (filter_split (passes j) qs) as FS. rewrite EF, (before_filter j W l qs P) in FS. cbn [length] in FS.
    assert (LQ : length qs = length l) by (rewrite (Permutation_length P), map_length; reflexivity). rewrite (before_filter j W l qs P) in N1.
    unfold before in N1, FS. rewrite LJ in N1, FS. set (c := reaching W (INR (j + 1) / 20) l) in *. destruct (Nat.ltb_spec c (length l)) as [LC|LC]; [|lia].
    assert (Vv : fval v = rd x) by (apply (map_nth_error fval) in E1; rewrite VP, (map_nth_error _ _ _ N1) in E1; now injection E1 as <-).
    unfold passes in N2. rewrite LJ in N2. apply Rltb_true in N2.
    pose proof (Permutation_in _ P N3) as I3. apply in_map_iff in I3. destruct I3 as (m & Em & Im).
    exists rows, v, a, (@ndiv spec_float (SF lm) a (@nlit spec_float (SF lm) 404686 100)), m. rewrite Em. split; [exact ER|]. split; [exact E3|]. split; [exact Im|]. split; [exact N2|]. rewrite Vv. apply NQ, N3.
  - intros sp' pr' area' E'. destruct (c69_exactly_partial (exact_field s) sp' W l pr' area' Wf HT HW En E') as (rows & ER & LR & KR).
    destruct (KR j Hj) as (v & c & E1 & _ & E2 & _). destruct E2 as (_ & L1 & L2); [exists n; split; [exact In1|lra]|]. specialize (L2 n In1 ltac:(lra)).
    assert (v = INR (j + 1) / 20) by lra. subst v. eexists rows, _, _. split; [exact ER|exact E1].
Qed.

(** ** A case: the track of C131, registered once among two realizations *)
Definition well3 : pfield spec_float := Eval vm_compute in fst (@register spec_float (SF some_lm) well2 one).
Lemma well3_ran lm : @run_ops spec_float (SF lm) 100 well0 (story ++ [ORegister one]) = well3.
Proof. vm_compute. reflexivity. Qed.

Lemma c132_example : forall lm, exists s l pr area n n', s = @run_ops spec_float (SF lm) 100 well0 (story ++ [ORegister one]) /\ sound_grid 0 s /\ wf (exact_field s) /\
  total (exact_field s) 2 /\ 2 <= powerRZ 2 (40 + 0) /\ enumerates (exact_field s) l /\ @create_impact_plot spec_float (SF lm) two s = Ok (pr, area) /\ low 9 = true /\
  In n l /\ snd n / 2 = INR (9 + 1) / 20 /\ In n' l /\ snd n' / 2 < INR (9 + 1) / 20 /\
  exists rows a b, @decile_table spec_float (SF lm) pr area = Ok rows /\ nth_error rows 9 = Some (f_of_Z 0, a, b) /\ fval a = 204.
Proof.
  intros lm. destruct well2_facts as (D & C & G & Wf & T). destruct (of_small 1 ltac:(lia)) as (F1 & V1). change (f_of_Z 1) with one in F1, V1.
  assert (Ini : initialised (exact_field well2)) by (vm_compute; discriminate).
  assert (B40 : 2 <= powerRZ 2 (40 + 0)) by (rewrite p_bpow; change 2 with (bpow radix2 1) at 1; apply bpow_le; lia).
  assert (B53 : 2 <= powerRZ 2 (53 + 0)) by (rewrite p_bpow; change 2 with (bpow radix2 1) at 1; apply bpow_le; lia).
  assert (S1 : sound_weight 0 one). { split; [exact F1|]. rewrite V1. split; [lra|]. split; [exists 1%Z; cbn; ring|]. rewrite Rabs_pos_eq by lra. lra. }
  destruct (c92_register lm 0 well2 one 1 ltac:(lia) G S1 T ltac:(rewrite V1; lra)) as (E1 & G3). cbn zeta in E1, G3.
  assert (N : fst (@register spec_float (SF lm) well2 one) = well3) by (vm_compute; reflexivity). rewrite N in E1, G3.
  destruct (c14_register_exact (exact_field well2) (fval one) Wf Ini) as (t & E' & Wf3 & _ & K2 & _). rewrite E1 in E'. injection E' as <-.
  specialize (K2 1 T). rewrite V1 in K2. replace (1 + 1) with 2 in K2 by ring.
  assert (Ini3 : initialised (exact_field well3)) by (vm_compute; discriminate).
  destruct (proj1 (c68_enumeration (exact_field well3) Wf3 Ini3)) as (l & En & _).
  assert (NODE : forall j w, get2 (match body well3 with Some g => pgrid g | None => [] end) 0 j = Some w -> ffinite w -> (0 <= j < 9)%Z -> exists n, In n l /\ snd n = fval w).
  { intros j w Gw Fw Hj. destruct En as (_ & En). set (g := match body well3 with Some g => g | None => {| nrows := 0; ncols := 0; xmin := two; xmax := two; ymin := two; ymax := two; total_weight := two; pgrid := []; rgrid := [] |} end).
    assert (Dx : exact (deltax well3) = Fin (fval (deltax well3))) by reflexivity. assert (Dy : exact (deltay well3) = Fin (fval (deltay well3))) by reflexivity.
    exists ((fval (xmin g) + IZR j * fval (deltax well3), fval (ymin g) + IZR 0 * fval (deltay well3)), fval w). split; [|reflexivity].
    apply En. exists false. exists (exact_geom g), 0%Z, j, (fval (deltax well3)), (fval (deltay well3)), (fval (xmin g)), (fval (ymin g)).
    split; [reflexivity|]. split; [exact Dx|]. split; [exact Dy|]. split; [reflexivity|]. split; [reflexivity|]. split; [reflexivity|]. split; [reflexivity|]. split.
    - cbn [pgrid exact_geom]. rewrite get2_map. change (pgrid g) with (match body well3 with Some g => pgrid g | None => [] end). rewrite Gw. cbn [option_map]. now rewrite (exact_fin _ Fw).
    - assert (J : (j = 0 \/ j = 1 \/ j = 2 \/ j = 3 \/ j = 4 \/ j = 5 \/ j = 6 \/ j = 7 \/ j = 8)%Z) by lia.
      repeat (destruct J as [->|J]; [reflexivity|]). rewrite J. reflexivity. }
  destruct (of_small 0 ltac:(lia)) as (F0 & V0).
  destruct (NODE 5%Z one eq_refl F1 ltac:(lia)) as (n & I1 & W1). destruct (NODE 0%Z (f_of_Z 0) eq_refl F0 ltac:(lia)) as (n' & I0 & W0).
  rewrite V1 in W1. rewrite V0 in W0. assert (P10 : INR (9 + 1) / 20 = 1 / 2) by (cbn [Nat.add]; rewrite INR_IZR_INZ; cbn; lra).
  assert (PL : exists pr area, @create_impact_plot spec_float (SF lm) two well3 = Ok (pr, area) /\
    exists rows a b, @decile_table spec_float (SF lm) pr area = Ok rows /\ nth_error rows 9 = Some (f_of_Z 0, a, b) /\ a = f_of_Z 204).
  { do 2 eexists. split; [vm_compute; reflexivity|]. do 3 eexists. split; [vm_compute; reflexivity|]. split; vm_compute; reflexivity. }
  destruct PL as (pr & area & E & rows & a & b & ER & E9 & Ea).
  exists well3, l, pr, area, n, n'. rewrite P10, W1, W0. split; [symmetry; apply well3_ran|]. split; [exact G3|]. split; [exact Wf3|]. split; [exact K2|]. split; [exact B40|]. split; [exact En|].
  split; [exact E|]. split; [reflexivity|]. split; [exact I1|]. split; [lra|]. split; [exact I0|]. split; [lra|].
  exists rows, a, b. split; [exact ER|]. split; [exact E9|]. rewrite Ea. apply (of_small 204). lia.
Qed.
