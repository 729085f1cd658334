(** * Traces in binary64 *)
From Coq Require Import ZArith Reals Lra Lia SpecFloat List Psatz.
From Flocq Require Import Core.
From Verif Require Import Py Num NumXR ModelAquifer ModelTrace SpecFloats SpecExact SpecTrace SpecPathline SpecPathZone SpecWater SpecRough
  ProofFloat ProofFloatGrow ProofFloatOps ProofFloatMean ProofFloatGrid ProofDistError ProofFloatDist
  ProofAquifer ProofTrace ProofPathline ProofPathTube ProofPathZone ProofWaterPath ProofRoughPath ProofRoughFloat ProofRoughStep.
Import ListNotations.
Local Open Scope R_scope.

Lemma ok_four (A B C D : Type) (a a' : A) (b b' : B) (c c' : C) (d d' : D) : Ok (a, b, c, d) = Ok (a', b', c', d') -> a = a' /\ b = b'.
Proof. intros E. now injection E. Qed.

Section Loop.
  Context (lm : libm) (F : vec spec_float -> res (vec spec_float)) (tol maxstep : spec_float).
  Let o := (f_of_Z 0, f_of_Z 0).

  Inductive landed : vec spec_float -> list (vec spec_float) -> list spec_float -> Prop :=
  | L_nil p : landed p [] []
  | L_cons p q vs dt dts k k' est ds : F p = Ok k -> F q = Ok k' -> @dp_step _ (SF lm) F p dt k = Ok (q, k', est, ds) -> SFltb est tol = true -> SFltb ds maxstep = true ->
      landed q vs dts -> landed p (q :: vs) (dt :: dts).

  Lemma dp_last p dt k q k' est ds : @dp_step _ (SF lm) F p dt k = Ok (q, k', est, ds) -> F q = Ok k'.
  Proof.
    unfold dp_step, bind. repeat match goal with |- match ?t with _ => _ end = _ -> _ => let E := fresh "E" in destruct t eqn:E; try discriminate end.
    intros E'. apply ok_four in E' as (<- & <-). assumption.
  Qed.

  Lemma loop_landed duration : forall fuel t dt xy k1 acc tr, F xy = Ok k1 ->
    @trace_loop _ (SF lm) fuel F duration tol maxstep t dt xy k1 acc = Ok tr ->
    exists vs dts, vertices tr = acc ++ vs /\ t_end tr = fold_left (SFadd fprec femax) dts t /\ landed xy vs dts.
  Proof.
    induction fuel as [|n IH]; intros t dt xy k1 acc tr Ek H; [discriminate|]. cbn [trace_loop] in H.
    match type of H with (if ?b then _ else _) = _ => destruct b end; [|injection H as <-; exists [], []; cbn; rewrite app_nil_r; repeat split; constructor].
    cbv zeta in H. match type of H with context [dp_step F xy ?e k1] => set (d := e) in * end.
    destruct (dp_step F xy d k1) as [[[[q k'] est] ds]|e|] eqn:E; [|injection H as <-; exists [], []; cbn; rewrite app_nil_r; repeat split; constructor|discriminate].
    pose proof (dp_last _ _ _ _ _ _ _ E) as Eq.
    destruct (andb _ _) eqn:B in H.
    - apply andb_prop in B as (B1 & B2). destruct (IH _ _ _ _ _ _ Eq H) as (vs & dts & E1 & E2 & E3). exists (q :: vs), (d :: dts).
      rewrite <- app_assoc in E1. repeat split; [exact E1|exact E2|]. now apply (L_cons _ _ _ _ _ k1 k' est ds).
    - exact (IH _ _ _ _ _ _ Ek H).
  Qed.

  Lemma landed_length p vs dts : landed p vs dts -> length vs = length dts.
  Proof. induction 1; cbn; congruence. Qed.

  Lemma landed_nth p vs dts : landed p vs dts -> forall i, (i < length dts)%nat -> let a := nth i (p :: vs) o in let b := nth (S i) (p :: vs) o in
    exists k k' est ds, F a = Ok k /\ F b = Ok k' /\ @dp_step _ (SF lm) F a (nth i dts (f_of_Z 0)) k = Ok (b, k', est, ds) /\ SFltb est tol = true /\ SFltb ds maxstep = true.
  Proof.
    induction 1 as [|p q vs dt dts k k' est ds E1 E2 E3 E4 E5 H IH]; intros i Hi; [cbn in Hi; lia|]. destruct i as [|i].
    - cbn. exists k, k', est, ds. repeat split; assumption.
    - apply (IH i). cbn in Hi. lia.
  Qed.

  Lemma trace_reckoned fuel xs ys duration tr : @compute_backtrace _ (SF lm) fuel xs ys duration tol maxstep F = Ok tr ->
    exists dts vs, reckoned lm F tol maxstep tr dts /\ vertices tr = (xs, ys) :: vs /\ landed (xs, ys) vs dts.
  Proof.
    unfold compute_backtrace. cbv zeta. destruct (F (xs, ys)) as [k1|e|] eqn:E; [|intros H; injection H as <-; exists [], []|discriminate].
    - intros H. destruct (loop_landed _ _ _ _ _ _ _ _ E H) as (vs & dts & E1 & E2 & E3). exists dts, vs. cbn [app] in E1. split; [|split; assumption].
      constructor; rewrite ?E1.
      + cbn [length]. f_equal. exact (landed_length _ _ _ E3).
      + exact E2.
      + exact (landed_nth _ _ _ E3).
    - split; [|split; [reflexivity|constructor]]. constructor; [reflexivity|reflexivity|cbn; lia].
  Qed.
End Loop.

(** ** The clock *)
Lemma clock_length : forall dts t, length (clock t dts) = S (length dts).
Proof. induction dts as [|d r IH]; intros t; cbn; [reflexivity|now rewrite IH]. Qed.
Lemma clock_first : forall dts t, nth 0 (clock t dts) 0 = t.
Proof. destruct dts; reflexivity. Qed.
Lemma clock_next : forall dts t i, (i < length dts)%nat -> nth (S i) (clock t dts) 0 - nth i (clock t dts) 0 = fval (nth i dts (f_of_Z 0)).
Proof.
  induction dts as [|d r IH]; intros t i Hi; [cbn in Hi; lia|]. destruct i as [|i].
  - cbn [clock nth]. rewrite clock_first. ring.
  - cbn [clock nth]. apply (IH (t + fval d)). cbn in Hi. lia.
Qed.
Lemma clock_last : forall dts t, last (clock t dts) 0 = fold_left (fun s d => s + fval d) dts t.
Proof.
  induction dts as [|d r IH]; intros t; [reflexivity|]. cbn [clock fold_left]. rewrite <- IH. destruct r; reflexivity.
Qed.

Lemma fold_grows dts : Forall (fun d => 0 <= fval d) dts -> forall t, t <= fold_left (fun s d => s + fval d) dts t.
Proof. induction 1 as [|d r Hd _ IH]; intros t; cbn [fold_left]; [lra|]. specialize (IH (t + fval d)). lra. Qed.

(** The binary64 sum of the steps. *)
Lemma clock_err dts : Forall (fun d => ffinite d /\ 0 <= fval d) dts -> forall s t n, ffinite s -> 0 <= t -> 0 <= n -> n + INR (length dts) <= 1000000000000 ->
  Rabs (fval s - t) <= 2 * n * kk * t -> fold_left (fun s d => s + fval d) dts t <= huge ->
  let r := fold_left (SFadd fprec femax) dts s in let T := fold_left (fun s d => s + fval d) dts t in
  ffinite r /\ Rabs (fval r - T) <= 2 * (n + INR (length dts)) * kk * T.
Proof.
  assert (Sn : 2 * 1000000000000 * kk <= 1 / 100) by (unfold kk; apply Rmult_le_reg_r with (2 ^ 53); [lra|]; rewrite Rmult_assoc, Rinv_l by lra; lra). pose proof K_small as HK.
  induction 1 as [|d r (Fd & Pd) HR IH]; intros s t n Fs Ht Hn Hl E HT; cbn [fold_left] in *.
  - cbn [length INR]. rewrite Rplus_0_r. split; assumption.
  - cbn [length] in *. rewrite S_INR in *. pose proof (pos_INR (length r)) as Pn. assert (G := fold_grows r ltac:(eapply Forall_impl; [|exact HR]; intros x [_ Hx]; exact Hx) (t + fval d)). cbv beta in G.
    assert (B : Rabs (fval s + fval d - (t + fval d)) <= 2 * n * kk * t) by (replace (fval s + fval d - (t + fval d)) with (fval s - t) by ring; exact E).
    assert (Hnk : 2 * n * kk <= 1 / 100) by nra. assert (Hnt : 2 * n * kk * t <= 2 * n * kk * (t + fval d)) by (apply Rmult_le_compat_l; [apply Rmult_le_pos; lra|lra]).
    assert (B2 : Rabs (fval s + fval d) <= 101 / 100 * (t + fval d)).
    { replace (fval s + fval d) with ((t + fval d) + (fval s + fval d - (t + fval d))) by ring. eapply Rle_trans; [apply Rabs_triang|]. rewrite (Rabs_pos_eq (t + fval d)) by lra. nra. }
    destruct (add_op 201 s d ltac:(lia) Fs Fd) as ((F2 & _) & E2).
    { replace (bpow radix2 201) with (2 * huge) by (rewrite huge_bpow; change 2 with (bpow radix2 1); rewrite <- bpow_plus; reflexivity). pose proof huge_one. lra. }
    destruct (IH (SFadd fprec femax s d) (t + fval d) (n + 1) F2 ltac:(lra) ltac:(lra) ltac:(lra)) as (G1 & G2).
    + replace (fval (SFadd fprec femax s d) - (t + fval d)) with (fval (SFadd fprec femax s d) - (fval s + fval d) + (fval s + fval d - (t + fval d))) by ring.
      eapply Rle_trans; [apply Rabs_triang|]. pose proof (Rmult_le_compat_l kk _ _ ltac:(lra) B2). assert (0 <= kk * (t + fval d)) by (apply Rmult_le_pos; lra). lra.
    + exact HT.
    + split; [exact G1|]. replace (n + (INR (length r) + 1)) with (n + 1 + INR (length r)) by ring. exact G2.
Qed.

(** C124.  The elapsed time that a trace computed in binary64 reports is the exact sum of its time steps up to the rounding of the sum. *)
Lemma c124_clock : forall (lm : libm) (F : vec spec_float -> res (vec spec_float)) (tol maxstep : spec_float) (tr : trace spec_float) (dts : list spec_float),
  reckoned lm F tol maxstep tr dts -> (forall dt, In dt dts -> ffinite dt /\ 0 <= fval dt) ->
  let T := last (clock 0 dts) 0 in T <= huge -> (Z.of_nat (length dts) <= 10 ^ 12)%Z ->
  ffinite (t_end tr) /\ Rabs (fval (t_end tr) - T) <= INR (length dts) / 2 ^ 52 * T.
Proof.
  intros lm F tol maxstep tr dts K HS T HT Hn. rewrite (rk_end _ _ _ _ _ _ K). unfold T in *. rewrite clock_last in *.
  destruct (of_small 0 ltac:(lia)) as (F0 & E0).
  assert (Hd : Forall (fun d => ffinite d /\ 0 <= fval d) dts) by (apply Forall_forall; exact HS).
  destruct (clock_err dts Hd (f_of_Z 0) 0 0 F0 ltac:(lra) ltac:(lra)) as (A & B).
  - rewrite INR_IZR_INZ. apply IZR_le in Hn. cbn in Hn. lra.
  - rewrite E0. replace (0 - 0) with 0 by ring. rewrite Rabs_R0. lra.
  - exact HT.
  - split; [exact A|]. eapply Rle_trans; [exact B|]. right. unfold kk. field.
Qed.

(** ** Following the water *)
Lemma rounding_mono X H V h : 0 <= V -> h <= H -> rounding X h V <= rounding X H V.
Proof.
  intros HV Hh. unfold rounding. apply Rplus_le_compat_l. apply Rmult_le_compat_l; [left; apply Rinv_0_lt_compat, pow_lt; lra|]. now apply Rmult_le_compat_r.
Qed.
Lemma faithful_one F f d rho l c : faithful F f d rho l -> In c l -> faithful F f d rho [c].
Proof. intros HF Hc c' p [<-|[]]. exact (HF c p Hc). Qed.
Lemma gentle_one f V L rho l c : gentle f V L rho l -> In c l -> gentle f V L rho [c].
Proof. intros HG Hc c' [<-|[]]. exact (HG c Hc). Qed.

Lemma fvec_one u u' : Ok (fvec u) = Ok (fvec u') -> u = u'.
Proof. destruct u, u'. unfold fvec. cbn. intros E. injection E as -> ->. reflexivity. Qed.

Lemma water_followed (lm : libm) (F : vec spec_float -> res (vec spec_float)) (tol maxstep xs ys : spec_float) (vs : list (vec spec_float)) (tr : trace spec_float) (dts : list spec_float) :
  reckoned lm F tol maxstep tr dts -> vertices tr = (xs, ys) :: vs -> ffinite xs -> ffinite ys ->
    forall (f : vec xr -> res (vec xr)) (V L rho d X H : R),
      let l := map at_ (vertices tr) in let ts := clock 0 dts in let T := last ts 0 in
      0 < rho -> 0 < L -> 0 <= d -> 0 <= H <= huge -> V <= huge / 4 -> minute <= X <= huge ->
      (forall c, In c l -> Rabs (fst c) <= X /\ Rabs (snd c) <= X) -> (forall dt, In dt dts -> ffinite dt /\ 0 <= fval dt <= H) ->
      faithful F f d rho l -> gentle f V L rho l ->
      let Rr := rounding X H V in let E := astray V L H (wrong L d Rr) Rr in
      50 * L * H <= 1 -> wrong L d Rr <= V -> E (length l) T + 2 * V * H + 140 * d * H + 3 * Rr < rho ->
      (forall v, In v (vertices tr) -> solid v) /\
      exists Z, Z 0 = (fval xs, fval ys) /\ moves f Z T /\
        (forall i, (i < length l)%nat -> let t := nth i ts 0 in 0 <= t <= T /\ pdist (nth i l (0, 0)) (Z t) <= E i t) /\
        beside (E (length l) T) l Z T /\
        forall Y, Y 0 = (fval xs, fval ys) -> moves f Y T -> forall t, 0 <= t <= T -> Y t = Z t.
Proof.
  intros K Ev Fx Fy.
  intros f V L rho d X H l ts T Hrho HL Hd HH HV4 HX HC HS HF HG Rr E H50 Hw HE.
  set (o := (f_of_Z 0, f_of_Z 0)) in *.
  assert (Ll : length l = S (length dts)) by (unfold l; rewrite map_length; exact (rk_length _ _ _ _ _ _ K)).
  assert (Lv : length (vertices tr) = S (length dts)) by exact (rk_length _ _ _ _ _ _ K).
  assert (Nl : forall i, (i < S (length dts))%nat -> nth i l (0, 0) = at_ (nth i (vertices tr) o) /\ In (at_ (nth i (vertices tr) o)) l).
  { intros i Hi. split.
    - unfold l. rewrite (nth_indep _ (0, 0) (at_ o)) by (rewrite map_length; exact (eq_ind_r (fun n => (i < n)%nat) Hi Lv)). apply map_nth.
    - unfold l. apply in_map. apply nth_In. exact (eq_ind_r (fun n => (i < n)%nat) Hi Lv). }
  assert (HV : 0 <= V).
  { destruct (Nl 0%nat ltac:(lia)) as (_ & I). destruct (HG _ I) as (G & _). destruct (G (at_ (nth 0 (vertices tr) o)) ltac:(rewrite pdist_self; lra)) as (u & _ & B). pose proof (pnorm_pos u). lra. }
  assert (HR0 : 0 <= Rr).
  { unfold Rr, rounding. pose proof minute_pos. assert (0 <= H * V) by (apply Rmult_le_pos; lra).
    apply Rplus_le_le_0_compat; apply Rmult_le_pos; try lra; left; apply Rinv_0_lt_compat, pow_lt; lra. }
  pose proof (Rmult_le_pos _ _ (Rlt_le _ _ HL) HR0) as HLR.
  assert (Hw0 : 0 <= wrong L d Rr) by (unfold wrong; lra).
  assert (HVH : 0 <= V * H) by (apply Rmult_le_pos; lra). assert (HdH : 0 <= d * H) by (apply Rmult_le_pos; lra).
  assert (Hwd : forall i, (i < length dts)%nat -> ffinite (nth i dts (f_of_Z 0)) /\ 0 <= fval (nth i dts (f_of_Z 0)) <= H) by (intros i Hi; apply HS, nth_In; exact Hi).
  assert (HT0 : 0 <= T).
  { unfold T, ts. rewrite clock_last. apply fold_grows. apply Forall_forall. intros x Hx. apply HS in Hx. lra. }
  assert (HE0 : 0 <= E (length l) T).
  { unfold E, astray. assert (1 <= exp (L * T)) by (rewrite <- exp_0; destruct (Req_dec (L * T) 0) as [->|]; [lra|]; left; apply exp_increasing; pose proof (Rmult_le_pos L T ltac:(lra) HT0); lra).
    assert (0 <= wrong L d Rr / L) by (apply Rmult_le_pos; [exact Hw0|left; now apply Rinv_0_lt_compat]). pose proof (pos_INR (length l)).
    apply Rplus_le_le_0_compat; apply Rmult_le_pos; unfold Rdiv in *; try lra; try (apply Rmult_le_pos; lra). }
  assert (Step : forall i, (i < length dts)%nat -> solid (nth i (vertices tr) o) -> solid (nth (S i) (vertices tr) o) /\ let h := fval (nth i dts (f_of_Z 0)) in
    exists w, pdist (at_ (nth (S i) (vertices tr) o)) (padd (at_ (nth i (vertices tr) o)) (pscale h w)) <= Rr /\ pnorm w <= 3 / 2 * V + wrong L d Rr /\
      pnorm (psub w (velocity f (at_ (nth i (vertices tr) o)))) <= 4 * (L * (h * V)) + wrong L d Rr).
  { intros i Hi Sp. destruct (rk_step _ _ _ _ _ _ K i Hi) as (k & k' & est & ds & E1 & E2 & E3 & _ & _). fold o in E1, E2, E3.
    destruct (Nl i ltac:(lia)) as (_ & I). set (p := nth i (vertices tr) o) in *. set (q := nth (S i) (vertices tr) o) in *. destruct (Hwd i Hi) as (Fd & Bd). set (dt := nth i dts (f_of_Z 0)) in *. set (h := fval dt) in *.
    pose proof (rounding_mono X H V h HV (proj2 Bd)) as RM. fold Rr in RM.
    assert (R0 : 0 <= rounding X h V).
    { unfold rounding. pose proof minute_pos. assert (0 <= h * V) by (apply Rmult_le_pos; lra).
      apply Rplus_le_le_0_compat; apply Rmult_le_pos; try lra; left; apply Rinv_0_lt_compat, pow_lt; lra. }
    pose proof (Rmult_le_compat_l L _ _ ltac:(lra) RM) as LRM. assert (WM : wrong L d (rounding X h V) <= wrong L d Rr) by (unfold wrong; lra).
    destruct (HF _ p I Sp ltac:(rewrite pdist_self; lra)) as (k0 & u & Ek & Sk & Eu & Bk). rewrite E1 in Ek. injection Ek as <-.
    assert (hV : h * V <= V * H) by (rewrite (Rmult_comm V); apply Rmult_le_compat_r; lra). assert (hd : h * d <= d * H) by (rewrite (Rmult_comm d); apply Rmult_le_compat_r; lra).
    destruct (step_rough F f V L rho d X h p dt k u (faithful_one _ _ _ _ _ _ HF I) (gentle_one _ _ _ _ _ _ HG I) ltac:(lra) ltac:(lra) ltac:(lra) Hd HX Sp (HC _ I) Fd eq_refl Sk Eu Bk) with (lm := lm) as (y & k7 & e & s & D1 & D2 & D3 & w & W1 & W2 & W3).
    - assert (50 * L * h <= 50 * L * H) by (apply Rmult_le_compat_l; lra). lra.
    - lra.
    - lra.
    - rewrite E3 in D1. apply ok_four in D1 as (Eq & _). rewrite <- Eq in *. split; [exact D2|]. exists w. repeat split; try lra. }
  assert (Sol : forall i, (i < S (length dts))%nat -> solid (nth i (vertices tr) o)).
  { induction i as [|i IH]; intros Hi.
    - rewrite Ev. split; assumption.
    - apply Step; [lia|]. apply IH. lia. }
  split.
  { intros v Hv. apply (In_nth _ _ o) in Hv as (i & Hi & <-). apply Sol. rewrite <- Lv. exact Hi. }
  assert (First : nth 0 l (0, 0) = (fval xs, fval ys)) by (rewrite (proj1 (Nl 0%nat ltac:(lia))), Ev; reflexivity).
  assert (HwH : wrong L d Rr * H <= 11 * (d * H) + Rr).
  { unfold wrong. replace ((11 * d + 4 * L * Rr) * H) with (11 * (d * H) + 4 / 50 * (50 * L * H) * Rr) by field. assert ((50 * L * H) * Rr <= 1 * Rr) by (apply Rmult_le_compat_r; lra). lra. }
  destruct (rough_follow f l ts V L rho H (wrong L d Rr) Rr) as (Z & Z0 & ZM & _ & HT & ZE & ZB & ZN); try assumption; try lra.
  - exact (eq_ind_r (fun n => (0 < n)%nat) (Nat.lt_0_succ _) Ll).
  - unfold ts. rewrite clock_length. symmetry. exact Ll.
  - apply clock_first.
  - intros i Hi. assert (Hi' : (i < length dts)%nat) by (apply Nat.succ_lt_mono; exact (eq_ind _ (fun n => (S i < n)%nat) Hi _ Ll)). unfold ts. rewrite (clock_next dts 0 i Hi'). split; [apply Hwd; exact Hi'|].
    pose proof (proj1 (Nl i ltac:(lia))) as N1. pose proof (proj1 (Nl (S i) ltac:(lia))) as N2. change (@nth pt i l (0, 0) = at_ (nth i (vertices tr) o)) in N1. change (@nth pt (S i) l (0, 0) = at_ (nth (S i) (vertices tr) o)) in N2. rewrite N1, N2. apply (Step i Hi' (Sol i ltac:(lia))).
  - change (astray V L H (wrong L d Rr) Rr (length (A := pt) l) T + 2 * V * H + 140 * d * H + 3 * Rr < rho) in HE. fold T. lra.
  - assert (Z00 : Z 0 = (fval xs, fval ys)) by (etransitivity; [exact Z0|exact First]). clear Z0. exists Z. split; [exact Z00|]. split; [exact ZM|]. split; [exact ZE|]. split; [exact ZB|].
    intros Y Y0 YM. apply (stay_together f Z Y T HT0 ZM YM); [congruence|]. intros t Ht. destruct (ZN t Ht) as (q & Iq & Hq).
    exists q, V, L, rho. split; [lra|]. split; [exact Hq|]. now apply (gentle_tame f V L rho l).
Qed.

(** C124.  A trace computed in binary64 along any velocity that is evaluated with an error of at most [d]: under conditions on its vertices and time
    steps its coordinates are finite, the water follows a path from the start point, only one, and the trace is within [E] of it. *)
Lemma c124_water : forall (lm : libm) (F : vec spec_float -> res (vec spec_float)) (fuel : nat) (xs ys duration tol maxstep : spec_float) (tr : trace spec_float),
  @compute_backtrace _ (SF lm) fuel xs ys duration tol maxstep F = Ok tr -> ffinite xs -> ffinite ys ->
  exists dts, reckoned lm F tol maxstep tr dts /\
    forall (f : vec xr -> res (vec xr)) (V L rho d X H : R),
      let l := map at_ (vertices tr) in let ts := clock 0 dts in let T := last ts 0 in
      0 < rho -> 0 < L -> 0 <= d -> 0 <= H <= huge -> V <= huge / 4 -> minute <= X <= huge ->
      (forall c, In c l -> Rabs (fst c) <= X /\ Rabs (snd c) <= X) -> (forall dt, In dt dts -> ffinite dt /\ 0 <= fval dt <= H) ->
      faithful F f d rho l -> gentle f V L rho l ->
      let Rr := rounding X H V in let E := astray V L H (wrong L d Rr) Rr in
      50 * L * H <= 1 -> wrong L d Rr <= V -> E (length l) T + 2 * V * H + 140 * d * H + 3 * Rr < rho ->
      (forall v, In v (vertices tr) -> solid v) /\
      exists Z, Z 0 = (fval xs, fval ys) /\ moves f Z T /\
        (forall i, (i < length l)%nat -> let t := nth i ts 0 in 0 <= t <= T /\ pdist (nth i l (0, 0)) (Z t) <= E i t) /\
        beside (E (length l) T) l Z T /\
        forall Y, Y 0 = (fval xs, fval ys) -> moves f Y T -> forall t, 0 <= t <= T -> Y t = Z t.
Proof.
  intros lm F fuel xs ys duration tol maxstep tr Hr Fx Fy. destruct (trace_reckoned lm F tol maxstep fuel xs ys duration tr Hr) as (dts & vs & K & Ev & Hl). exists dts. split; [exact K|].
  exact (water_followed lm F tol maxstep xs ys vs tr dts K Ev Fx Fy).
Qed.
