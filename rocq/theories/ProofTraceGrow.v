(** * Backtraces in velocity fields of linear growth end (C39) *)
From Coq Require Import Reals Lra Lia Psatz List.
From Verif Require Import Py Num NumXR ModelField ModelAquifer ModelTrace ModelDriver SpecAquifer SpecTrace SpecGrowth ProofTrace ProofTraceLoop ProofTraceTerm ProofTraceFlow.
Import ListNotations.
Local Open Scope R_scope.

(** ** Sizes *)
Definition big (p : pt) : R := 1 + pmax p.
Lemma big_ge p : 1 <= big p.
Proof. unfold big, pmax. pose proof (Rabs_pos (fst p)). pose proof (Rmax_l (Rabs (fst p)) (Rabs (snd p))). lra. Qed.
Lemma within_pmax B p : within B p <-> pmax p <= B.
Proof.
  unfold within, pmax. split.
  - intros [H1 H2]. now apply Rmax_lub.
  - intros H. pose proof (Rmax_l (Rabs (fst p)) (Rabs (snd p))). pose proof (Rmax_r (Rabs (fst p)) (Rabs (snd p))). lra.
Qed.

Lemma big_move p h u B : within B u -> big (padd p (pscale h u)) <= big p + Rabs h * B.
Proof.
  intros [H1 H2]. unfold big, pmax, padd, pscale. cbn [fst snd]. pose proof (Rabs_pos h).
  pose proof (Rmax_l (Rabs (fst p)) (Rabs (snd p))). pose proof (Rmax_r (Rabs (fst p)) (Rabs (snd p))).
  assert (Rmax (Rabs (fst p + h * fst u)) (Rabs (snd p + h * snd u)) <= Rmax (Rabs (fst p)) (Rabs (snd p)) + Rabs h * B); [|lra].
  apply Rmax_lub; (eapply Rle_trans; [apply Rabs_triang|]); rewrite Rabs_mult; nra.
Qed.

(** A stage of a step no longer than [H], the earlier slopes being at most [g M] for [M >= big p]. *)
Lemma stage_big g H p h c ks M : 0 <= g -> Rabs h <= H -> big p <= M -> (forall k, In k ks -> within (g * M) k) ->
  fold_right (fun x s => Rabs x + s) 0 c <= 25 -> big (padd p (pscale h (lincomb c ks))) <= M * (1 + 25 * H * g).
Proof.
  intros Hg Hh HM Hk Hc. pose proof (big_ge p) as B1. assert (G : 0 <= g * M) by nra.
  pose proof (lincomb_within (g * M) c ks Hk G) as W. pose proof (big_move p h _ _ W) as Q. pose proof (Rabs_pos h) as P.
  eapply Rle_trans; [exact Q|].
  set (s := fold_right (fun x s => Rabs x + s) 0 c) in *. clearbody s.
  assert (S1 : s * (g * M) <= 25 * (g * M)) by (apply Rmult_le_compat_r; lra).
  assert (S2 : Rabs h * (s * (g * M)) <= Rabs h * (25 * (g * M))) by (apply Rmult_le_compat_l; lra).
  assert (S3 : Rabs h * (25 * (g * M)) <= H * (25 * (g * M))) by (apply Rmult_le_compat_r; lra). lra.
Qed.

Ltac sizes := cbn [fold_right]; unfold Rabs; repeat destruct (Rcase_abs _); lra.

Lemma dp_step_agree f f' p h k1 g H : grows g f -> total f -> 0 <= g -> Rabs h <= H -> f (fvec p) = Ok k1 ->
  let A := 1 + 25 * H * g in
  (forall q, big q <= big p * A ^ 6 -> f' (fvec q) = f (fvec q)) ->
  dp_step f' (fvec p) (Fin h) k1 = dp_step f (fvec p) (Fin h) k1 /\
  ((exists e, dp_step f (fvec p) (Fin h) k1 = Raise e) \/
   exists q k7 e d, dp_step f (fvec p) (Fin h) k1 = Ok (fvec q, k7, Fin e, Fin d) /\ f (fvec q) = Ok k7 /\
     big q <= big p * (1 + 2 * g * A ^ 6 * Rabs h) /\ 0 <= e /\ 0 <= d).
Proof.
  intros HG HT Hg Hh E1 A AG. pose proof (big_ge p) as Bp. pose proof (Rabs_pos h) as Ph.
  assert (HA : 1 <= A) by (unfold A; assert (0 <= H * g) by (apply Rmult_le_pos; lra); lra).
  assert (POW : forall n, 1 <= A ^ n) by (intros n; apply pow_R1_Rle; exact HA).
  assert (MON : forall n m, (n <= m)%nat -> A ^ n <= A ^ m) by (intros; apply Rle_pow; assumption).
  set (M := fun n => big p * A ^ n).
  assert (MS : forall n, M n * A = M (S n)) by (intros n; unfold M; cbn [pow]; ring).
  assert (ML : forall n m, (n <= m)%nat -> M n <= M m) by (intros n m Hnm; apply Rmult_le_compat_l; [lra|auto]).
  assert (M0 : M O = big p) by (unfold M; cbn; lra).
  assert (UP : forall n m k, (n <= m)%nat -> within (g * M n) k -> within (g * M m) k).
  { intros n m k Hnm [X Y]. pose proof (ML n m Hnm). split; nra. }
  assert (STEP : forall n x, (n <= 6)%nat -> big x <= M n -> f' (fvec x) = f (fvec x) /\ ((exists e, f (fvec x) = Raise e) \/ exists k, f (fvec x) = Ok (fvec k) /\ within (g * M n) k)).
  { intros n x Hn Hx. split; [apply AG; fold (M 6%nat); pose proof (ML n 6%nat Hn); lra|].
    destruct (f (fvec x)) as [k|e|] eqn:E; [|left; eauto|destruct (HT _ E)].
    destruct (HG _ _ E) as (q & -> & Hq). right. exists q. split; [reflexivity|]. apply within_pmax. fold (big x) in Hq.
    eapply Rle_trans; [exact Hq|]. apply Rmult_le_compat_l; lra. }
  destruct (STEP 0%nat p ltac:(lia) ltac:(lra)) as (A1 & [[e E]|(k1r & E1' & W1)]); [congruence|].
  assert (k1 = fvec k1r) by congruence. subst k1.
  assert (NXT : forall n c ks, (forall k, In k ks -> within (g * M n) k) -> fold_right (fun x s => Rabs x + s) 0 c <= 25 ->
    big (padd p (pscale h (lincomb c ks))) <= M (S n)).
  { intros n c ks Hk Hc. rewrite <- MS. apply stage_big; auto. rewrite <- M0. apply ML. lia. }
  assert (S2 : vadd (fvec p) (vscale (Fin h) (vscale a2_0 (fvec k1r))) = fvec (padd p (pscale h (lincomb [1/5] [k1r])))).
  { unfold vadd, vscale, a2_0, fvec, padd, pscale, lincomb. cbn. apply f_equal2; apply (f_equal Fin); ring. }
  destruct (STEP 1%nat (padd p (pscale h (lincomb [1/5] [k1r])))) as (A2 & D2); [lia|apply NXT; [intros k [<-|[]]; exact W1|sizes]|].
  unfold dp_step at 1 2. rewrite !S2, A2.
  destruct D2 as [[e E2]|(k2 & E2 & W2)].
  { rewrite E2. cbn [bind]. split; [reflexivity|]. left. exists e. unfold dp_step. rewrite S2, E2. reflexivity. }
  rewrite E2. cbn [bind].
  assert (S3 : vadd (fvec p) (vscale (Fin h) (vadd (vscale a3_0 (fvec k1r)) (vscale a3_1 (fvec k2)))) = fvec (padd p (pscale h (lincomb [3/40; 9/40] [k1r; k2])))).
  { unfold vadd, vscale, a3_0, a3_1, fvec, padd, pscale, lincomb. cbn. apply f_equal2; apply (f_equal Fin); ring. }
  destruct (STEP 2%nat (padd p (pscale h (lincomb [3/40; 9/40] [k1r; k2])))) as (A3 & D3).
  { lia. } { apply NXT; [intros k [<-|[<-|[]]]; [apply (UP 0%nat)|]; (lia || assumption)|sizes]. }
  rewrite !S3, A3. destruct D3 as [[e E3]|(k3 & E3 & W3)].
  { rewrite E3. cbn [bind]. split; [reflexivity|]. left. exists e. unfold dp_step. rewrite S2, E2. cbn [bind]. rewrite S3, E3. reflexivity. }
  rewrite E3. cbn [bind].
  assert (S4 : vadd (fvec p) (vscale (Fin h) (vadd (vadd (vscale a4_0 (fvec k1r)) (vscale a4_1 (fvec k2))) (vscale a4_2 (fvec k3))))
               = fvec (padd p (pscale h (lincomb [44/45; -56/15; 32/9] [k1r; k2; k3])))).
  { unfold vadd, vscale, a4_0, a4_1, a4_2, fvec, padd, pscale, lincomb. cbn. apply f_equal2; apply (f_equal Fin); ring. }
  destruct (STEP 3%nat (padd p (pscale h (lincomb [44/45; -56/15; 32/9] [k1r; k2; k3])))) as (A4 & D4).
  { lia. } { apply NXT; [intros k [<-|[<-|[<-|[]]]]; [apply (UP 0%nat)|apply (UP 1%nat)|]; (lia || assumption)|sizes]. }
  rewrite !S4, A4. destruct D4 as [[e E4]|(k4 & E4 & W4)].
  { rewrite E4. cbn [bind]. split; [reflexivity|]. left. exists e. unfold dp_step. rewrite S2, E2. cbn [bind]. rewrite S3, E3. cbn [bind]. rewrite S4, E4. reflexivity. }
  rewrite E4. cbn [bind].
  assert (S5 : vadd (fvec p) (vscale (Fin h) (vadd (vadd (vadd (vscale a5_0 (fvec k1r)) (vscale a5_1 (fvec k2))) (vscale a5_2 (fvec k3))) (vscale a5_3 (fvec k4))))
               = fvec (padd p (pscale h (lincomb [19372/6561; -25360/2187; 64448/6561; -212/729] [k1r; k2; k3; k4])))).
  { unfold vadd, vscale, a5_0, a5_1, a5_2, a5_3, fvec, padd, pscale, lincomb. cbn. apply f_equal2; apply (f_equal Fin); ring. }
  destruct (STEP 4%nat (padd p (pscale h (lincomb [19372/6561; -25360/2187; 64448/6561; -212/729] [k1r; k2; k3; k4])))) as (A5 & D5).
  { lia. } { apply NXT; [intros k [<-|[<-|[<-|[<-|[]]]]]; [apply (UP 0%nat)|apply (UP 1%nat)|apply (UP 2%nat)|]; (lia || assumption)|sizes]. }
  rewrite !S5, A5. destruct D5 as [[e E5]|(k5 & E5 & W5)].
  { rewrite E5. cbn [bind]. split; [reflexivity|]. left. exists e. unfold dp_step. rewrite S2, E2. cbn [bind]. rewrite S3, E3. cbn [bind]. rewrite S4, E4. cbn [bind]. rewrite S5, E5. reflexivity. }
  rewrite E5. cbn [bind].
  assert (S6 : vadd (fvec p) (vscale (Fin h) (vadd (vadd (vadd (vadd (vscale a6_0 (fvec k1r)) (vscale a6_1 (fvec k2))) (vscale a6_2 (fvec k3))) (vscale a6_3 (fvec k4))) (vscale a6_4 (fvec k5))))
               = fvec (padd p (pscale h (lincomb [9017/3168; -355/33; 46732/5247; 49/176; -5103/18656] [k1r; k2; k3; k4; k5])))).
  { unfold vadd, vscale, a6_0, a6_1, a6_2, a6_3, a6_4, fvec, padd, pscale, lincomb. cbn. apply f_equal2; apply (f_equal Fin); ring. }
  destruct (STEP 5%nat (padd p (pscale h (lincomb [9017/3168; -355/33; 46732/5247; 49/176; -5103/18656] [k1r; k2; k3; k4; k5])))) as (A6 & D6).
  { lia. } { apply NXT; [intros k [<-|[<-|[<-|[<-|[<-|[]]]]]]; [apply (UP 0%nat)|apply (UP 1%nat)|apply (UP 2%nat)|apply (UP 3%nat)|]; (lia || assumption)|sizes]. }
  rewrite !S6, A6. destruct D6 as [[e E6]|(k6 & E6 & W6)].
  { rewrite E6. cbn [bind]. split; [reflexivity|]. left. exists e. unfold dp_step. rewrite S2, E2. cbn [bind]. rewrite S3, E3. cbn [bind]. rewrite S4, E4. cbn [bind]. rewrite S5, E5. cbn [bind]. rewrite S6, E6. reflexivity. }
  rewrite E6. cbn [bind].
  assert (NOK7 : forall k, lincomb dp_b [k1r; k2; k3; k4; k5; k6; k] = lincomb dp_b [k1r; k2; k3; k4; k5; k6; (0, 0)]).
  { intros k. unfold lincomb, dp_b, padd, pscale. cbn. f_equal; ring. }
  assert (S7 : vadd (fvec p) (vscale (Fin h) (vadd (vadd (vadd (vadd (vscale a7_0 (fvec k1r)) (vscale a7_2 (fvec k3))) (vscale a7_3 (fvec k4))) (vscale a7_4 (fvec k5))) (vscale a7_5 (fvec k6))))
               = fvec (padd p (pscale h (lincomb dp_b [k1r; k2; k3; k4; k5; k6; (0, 0)])))).
  { unfold vadd, vscale, a7_0, a7_2, a7_3, a7_4, a7_5, fvec, padd, pscale, lincomb, dp_b. cbn. apply f_equal2; apply (f_equal Fin); ring. }
  assert (W0 : within (g * M 5%nat) (0, 0)).
  { unfold within. cbn. rewrite Rabs_R0. assert (0 <= g * M 5%nat); [|lra]. apply Rmult_le_pos; [exact Hg|]. unfold M. pose proof (POW 5%nat). apply Rmult_le_pos; lra. }
  assert (WK : forall k, In k [k1r; k2; k3; k4; k5; k6; (0, 0)] -> within (g * M 5%nat) k).
  { intros k [<-|[<-|[<-|[<-|[<-|[<-|[<-|[]]]]]]]]; [apply (UP 0%nat)|apply (UP 1%nat)|apply (UP 2%nat)|apply (UP 3%nat)|apply (UP 4%nat)| |exact W0]; (lia || assumption). }
  destruct (STEP 6%nat (padd p (pscale h (lincomb dp_b [k1r; k2; k3; k4; k5; k6; (0, 0)])))) as (A7 & D7).
  { lia. } { apply NXT; [exact WK|pose proof dp_b_size; lra]. }
  rewrite !S7, A7. split; [destruct (f (fvec (padd p (pscale h (lincomb dp_b [k1r; k2; k3; k4; k5; k6; (0, 0)]))))); reflexivity|].
  destruct D7 as [[e E7]|(k7 & E7 & W7)].
  { left. exists e. unfold dp_step. rewrite S2, E2. cbn [bind]. rewrite S3, E3. cbn [bind]. rewrite S4, E4. cbn [bind]. rewrite S5, E5. cbn [bind]. rewrite S6, E6. cbn [bind]. rewrite S7, E7. reflexivity. }
  right. pose proof (dp_step_finite f p h k1r k2 k3 k4 k5 k6 k7 E1 E2 E3 E4 E5 E6) as F. rewrite <- (NOK7 k7) in E7. specialize (F E7). cbv zeta in F.
  eexists _, _, _, _. split; [exact F|]. split; [exact E7|]. split; [|split].
  - rewrite (NOK7 k7). assert (G5 : 0 <= g * M 5%nat) by (destruct W0 as [W0 _]; cbn in W0; rewrite Rabs_R0 in W0; exact W0).
    pose proof (big_move p h _ _ (lincomb_within (g * M 5%nat) dp_b _ WK G5)) as Q. eapply Rle_trans; [exact Q|].
    pose proof dp_b_size as Sb. set (s := fold_right (fun x s => Rabs x + s) 0 dp_b) in *. clearbody s.
    assert (X1 : s * (g * M 5%nat) <= 2 * (g * M 5%nat)) by (apply Rmult_le_compat_r; lra).
    assert (X2 : g * M 5%nat <= g * M 6%nat) by (apply Rmult_le_compat_l; [exact Hg|apply ML; lia]).
    apply Rle_trans with (big p + Rabs h * (2 * (g * M 6%nat))); [apply Rplus_le_compat_l, Rmult_le_compat_l; lra|]. unfold M. lra.
  - unfold pmax. eapply Rle_trans; [apply Rabs_pos|apply Rmax_l].
  - apply sqrt_pos.
Qed.

(** ** A velocity function cut off outside a ball *)
Definition cut (R0 : R) (f : vec xr -> res (vec xr)) : vec xr -> res (vec xr) := fun xy =>
  match xy with
  | (Fin x, Fin y) => if Rle_dec (big (x, y)) R0 then f xy else Raise ValueError
  | _ => Raise ValueError
  end.
Lemma cut_in R0 f q : big q <= R0 -> cut R0 f (fvec q) = f (fvec q).
Proof. intros H. destruct q as [x y]. unfold cut, fvec. cbn [fst snd]. destruct (Rle_dec (big (x, y)) R0); [reflexivity|lra]. Qed.
Lemma cut_total R0 f : total f -> total (cut R0 f).
Proof. intros H [[x| | |] [y| | |]]; cbn; try discriminate. destruct (Rle_dec _ _); [apply H|discriminate]. Qed.
Lemma cut_bounded R0 g f : 0 <= g -> grows g f -> bounded_by (g * R0) (cut R0 f).
Proof.
  intros Hg H [[x| | |] [y| | |]] k E; cbn in E; try discriminate. destruct (Rle_dec (big (x, y)) R0) as [L|L]; [|discriminate].
  destruct (H (x, y) k E) as (q & -> & Hq). exists q. split; [reflexivity|]. apply within_pmax. fold (big (x, y)) in Hq.
  eapply Rle_trans; [exact Hq|]. now apply Rmult_le_compat_l.
Qed.

(** ** The two traces are the same *)
Section Same.
  Variables (f : vec xr -> res (vec xr)) (tol maxstep : xr) (g D tol' max' N0 : R).
  Hypothesis HG : grows g f.
  Hypothesis HT : total f.
  Hypothesis Hg : 0 <= g.
  Hypothesis Ptol : finite_part tol' tol.
  Hypothesis Pmax : finite_part max' maxstep.
  Hypothesis HD : D <> 0.
  Let A := 1 + 25 * Rabs D * g.
  Let c := 2 * g * A ^ 6.
  Let R0 := N0 * exp (c * Rabs D) * A ^ 6.

  Lemma A_ge : 1 <= A.
  Proof. unfold A. pose proof (Rabs_pos D). assert (0 <= Rabs D * g) by (apply Rmult_le_pos; lra). lra. Qed.
  Lemma c_nonneg : 0 <= c.
  Proof. unfold c. pose proof (pow_R1_Rle A 6 A_ge). apply Rmult_le_pos; lra. Qed.

  Lemma same : forall fuel t h p k1 acc, f (fvec p) = Ok k1 -> 0 <= t * D -> 0 <= h * D ->
    big p <= N0 * exp (c * Rabs t) ->
    trace_loop fuel (cut R0 f) (Fin D) tol maxstep (Fin t) (Fin h) (fvec p) k1 acc
    = trace_loop fuel f (Fin D) tol maxstep (Fin t) (Fin h) (fvec p) k1 acc.
  Proof.
    pose proof A_ge as HA. pose proof c_nonneg as Hc.
    induction fuel as [|fuel IH]; intros t h p k1 acc Ek Ht Hh Hp; [reflexivity|]. cbn [trace_loop].
    destruct (nlt (nabs (Fin t)) (nabs (Fin D))) eqn:LT; [|reflexivity]. apply (nabs_lt t D) in LT.
    set (h1 := if Rltb (Rabs D) (Rabs (t + h)) then D - t else h).
    assert (CL : (if nlt (nabs (Fin D)) (nabs (nadd (Fin t) (Fin h))) then nsub (Fin D) (Fin t) else Fin h) = Fin h1) by
      (unfold h1; cbn; destruct (Rltb (Rabs D) (Rabs (t + h))); reflexivity).
    assert (TRY : 0 <= h1 * D /\ 0 <= (t + h1) * D /\ Rabs (t + h1) = Rabs t + Rabs h1 /\ Rabs h1 <= Rabs D).
    { unfold h1. destruct (Rtotal_order D 0) as [X|[X|X]]; [|lra|].
      - assert (t <= 0) by nra. assert (h <= 0) by nra. rewrite (Rabs_left1 t), (Rabs_left1 D) in * by lra.
        destruct (Rltb_spec (- D) (Rabs (t + h))) as [C|C]; rewrite (Rabs_left1 (t + h)) in C by lra.
        + replace (t + (D - t)) with D by ring. rewrite (Rabs_left1 (D - t)), (Rabs_left1 D) by lra. repeat split; try nra; try lra.
        + rewrite (Rabs_left1 h), (Rabs_left1 (t + h)) by lra. repeat split; try nra; try lra.
      - assert (0 <= t) by nra. assert (0 <= h) by nra. rewrite (Rabs_pos_eq t), (Rabs_pos_eq D) in * by lra.
        destruct (Rltb_spec D (Rabs (t + h))) as [C|C]; rewrite (Rabs_pos_eq (t + h)) in C by lra.
        + replace (t + (D - t)) with D by ring. rewrite (Rabs_pos_eq (D - t)), (Rabs_pos_eq D) by lra. repeat split; try nra; try lra.
        + rewrite (Rabs_pos_eq h), (Rabs_pos_eq (t + h)) by lra. repeat split; try nra; try lra. }
    rewrite CL. clear CL. clearbody h1. destruct TRY as (T1 & T2 & T3 & T4).
    pose proof (big_ge p) as Bp. pose proof (exp_pos (c * Rabs t)) as EP.
    assert (N1 : 0 < N0) by nra.
    assert (IN : forall q, big q <= big p * A ^ 6 -> cut R0 f (fvec q) = f (fvec q)).
    { intros q Hq. apply cut_in. eapply Rle_trans; [exact Hq|]. unfold R0. apply Rmult_le_compat_r; [pose proof (pow_R1_Rle A 6 HA); lra|].
      eapply Rle_trans; [exact Hp|]. apply Rmult_le_compat_l; [lra|].
      destruct (Rle_lt_or_eq_dec (c * Rabs t) (c * Rabs D)) as [Z|Z]; [apply Rmult_le_compat_l; lra|left; now apply exp_increasing|rewrite Z; lra]. }
    destruct (dp_step_agree f (cut R0 f) p h1 k1 g (Rabs D) HG HT Hg T4 Ek IN) as (E & [[e Ee]|(q & k7 & e & d & Es & Eq & Hq & He & Hd)]).
    { rewrite E, Ee. reflexivity. }
    rewrite E, Es. destruct (next_dt_bounds tol maxstep tol' max' e d h1 Ptol Pmax He Hd) as (Aq & Bq & En & A0 & B0 & _). rewrite En.
    assert (C0 : 0 < 9 / 10 * Rmin (Rmin Aq Bq) 10) by (unfold Rmin; repeat destruct (Rle_dec _ _); lra).
    assert (NH : 0 <= 9 / 10 * Rmin (Rmin Aq Bq) 10 * h1 * D) by (rewrite Rmult_assoc; apply Rmult_le_pos; lra).
    destruct (nlt (Fin e) tol && nlt (Fin d) maxstep).
    - apply IH; auto. rewrite T3, Rmult_plus_distr_l, exp_plus. eapply Rle_trans; [exact Hq|].
      change (2 * g * (1 + 25 * Rabs D * g) ^ 6) with c.
      assert (X : 1 + c * Rabs h1 <= exp (c * Rabs h1)).
      { destruct (Req_dec (c * Rabs h1) 0) as [->|NZ]; [rewrite exp_0; lra|]. left. apply exp_ineq1. exact NZ. }
      rewrite <- Rmult_assoc. pose proof (Rabs_pos h1). assert (0 <= c * Rabs h1) by (apply Rmult_le_pos; lra).
      apply Rmult_le_compat; lra.
    - apply IH; auto.
  Qed.
End Same.

(** C39 for velocities that need not be bounded: it is enough that their size at a point is at most a
    multiple of one plus the size of the point.  (The size of points and velocities is the larger component.)
    What is missing of the stated property is, as above, that the tolerance and the longest step have to
    exceed 2^-52 / 0.9^5 and 2^-52 / 0.9. *)
Lemma c39_growth_partial : forall (g : R) (p : pt) (D : R) (tol maxstep : xr) (f : vec xr -> res (vec xr)),
  grows g f -> total f -> below (/ 2 ^ 52 / (9 / 10) ^ 5) tol -> below (/ 2 ^ 52 / (9 / 10)) maxstep ->
  exists fuel tr, forall fuel', (fuel <= fuel')%nat ->
    compute_backtrace fuel' (Fin (fst p)) (Fin (snd p)) (Fin D) tol maxstep f = Ok tr.
Proof.
  intros g0 p D tol maxstep f HG0 HT Htol Hmax.
  set (g := Rmax g0 0). assert (Hg : 0 <= g) by apply Rmax_r.
  assert (HG : grows g f).
  { intros x k E. destruct (HG0 x k E) as (q & -> & Hq). exists q. split; [reflexivity|]. eapply Rle_trans; [exact Hq|].
    apply Rmult_le_compat_r; [pose proof (big_ge x); unfold big in *; lra|apply Rmax_l]. }
  set (A := 1 + 25 * Rabs D * g). set (R0 := big p * exp (2 * g * A ^ 6 * Rabs D) * A ^ 6).
  destruct (c39_terminates_partial (g * R0) p D tol maxstep (cut R0 f) (cut_bounded _ _ _ Hg HG) (cut_total _ _ HT) Htol Hmax) as (n & tr & Hn).
  exists n, tr. intros m Hm. rewrite <- (Hn m Hm). unfold compute_backtrace. change (Fin (fst p), Fin (snd p)) with (fvec p).
  assert (HA : 1 <= A) by (unfold A; pose proof (Rabs_pos D); assert (0 <= Rabs D * g) by (apply Rmult_le_pos; lra); lra).
  pose proof (pow_R1_Rle A 6 HA) as PA. pose proof (Rabs_pos D) as PD. pose proof (big_ge p) as Bp.
  rewrite cut_in.
  2:{ unfold R0. assert (1 <= exp (2 * g * A ^ 6 * Rabs D)).
      { rewrite <- exp_0. assert (0 <= 2 * g * A ^ 6 * Rabs D) by (apply Rmult_le_pos; [apply Rmult_le_pos|]; lra).
        destruct (Rle_lt_or_eq_dec _ _ H) as [Z|Z]; [left; now apply exp_increasing|rewrite <- Z; lra]. }
      rewrite <- (Rmult_1_r (big p)) at 1. rewrite Rmult_assoc. apply Rmult_le_compat_l; [lra|]. rewrite <- (Rmult_1_r 1) at 1. apply Rmult_le_compat; lra. }
  destruct (f (fvec p)) as [k1|e|] eqn:Ek; try reflexivity.
  destruct (Req_dec D 0) as [->|HD].
  { destruct m; [reflexivity|]. cbn [trace_loop]. assert (E : nlt (nabs (nZ 0)) (nabs (Fin 0)) = false) by (cbn; apply Rltb_false; lra). rewrite E. reflexivity. }
  assert (HE : / 2 ^ 52 = eps_R) by (unfold eps_R; lra). rewrite HE in Htol, Hmax. pose proof eps_pos as HP.
  assert (P1 : 0 < eps_R / (9 / 10) ^ 5) by (apply Rdiv_lt_0_compat; [lra|apply pow_lt; lra]).
  assert (P2 : 0 < eps_R / (9 / 10)) by (apply Rdiv_lt_0_compat; lra).
  destruct (below_part _ tol P1 Htol) as (tol' & _ & T2).
  destruct (below_part _ maxstep P2 Hmax) as (max' & _ & M2).
  destruct (sign_fin D HD) as (s & Es & Hs). rewrite Es. change (nmul (nlit 1 10) (Fin s)) with (Fin (1 / 10 * s)). change (nZ 0) with (Fin 0).
  symmetry. apply (same f tol maxstep g D tol' max' (big p)); auto.
  - lra.
  - nra.
  - rewrite Rabs_R0, Rmult_0_r, exp_0. lra.
Qed.

(** An affine field grows linearly. *)
Lemma affine_grows A f : (forall q : pt, f (fvec q) = Ok (fvec (flow A q))) ->
  grows (Rabs (axx A) + Rabs (axy A) + Rabs (ayx A) + Rabs (ayy A) + Rabs (bx A) + Rabs (by_ A)) f.
Proof.
  intros Hf p k E. rewrite Hf in E. assert (k = fvec (flow A p)) by congruence. subst k. exists (flow A p). split; [reflexivity|].
  unfold pmax. set (M := Rmax (Rabs (fst p)) (Rabs (snd p))). assert (M1 : Rabs (fst p) <= M) by apply Rmax_l. assert (M2 : Rabs (snd p) <= M) by apply Rmax_r.
  pose proof (Rabs_pos (fst p)). pose proof (Rabs_pos (snd p)).
  pose proof (Rabs_pos (axx A)). pose proof (Rabs_pos (axy A)). pose proof (Rabs_pos (ayx A)). pose proof (Rabs_pos (ayy A)). pose proof (Rabs_pos (bx A)). pose proof (Rabs_pos (by_ A)).
  assert (X : forall a x, Rabs x <= M -> Rabs (a * x) <= Rabs a * M) by (intros; rewrite Rabs_mult; apply Rmult_le_compat_l; [apply Rabs_pos|assumption]).
  pose proof (X (axx A) _ M1). pose proof (X (axy A) _ M2). pose proof (X (ayx A) _ M1). pose proof (X (ayy A) _ M2).
  assert (forall a, 0 <= Rabs a * M) by (intros; apply Rmult_le_pos; [apply Rabs_pos|lra]).
  pose proof (H11 (axx A)). pose proof (H11 (axy A)). pose proof (H11 (ayx A)). pose proof (H11 (ayy A)). pose proof (H11 (bx A)). pose proof (H11 (by_ A)).
  unfold flow, lin, padd. cbn [fst snd].
  apply Rmax_lub; (eapply Rle_trans; [apply Rabs_triang|]); (eapply Rle_trans; [apply Rplus_le_compat_r, Rabs_triang|]); lra.
Qed.

(** C39 for the program's own velocities, which are not bounded: in confined mode, with no wells, every
    backtrace from every point, for every duration and every regional flow, returns. *)
Lemma c39_no_wells_partial : forall (m : model R) (p : pt) (D : R) (tol maxstep : xr),
  physical m -> wells m = [] -> below (/ 2 ^ 52 / (9 / 10) ^ 5) tol -> below (/ 2 ^ 52 / (9 / 10)) maxstep ->
  exists fuel tr, forall fuel', (fuel <= fuel')%nat ->
    compute_backtrace fuel' (Fin (fst p)) (Fin (snd p)) (Fin D) tol maxstep (feval true (fmodel m)) = Ok tr.
Proof.
  intros m p D tol maxstep Hm Hw Ht Hs. pose proof (c44_confined_affine m Hm Hw) as Hf. cbv zeta in Hf.
  eapply (c39_growth_partial _ p D tol maxstep _ (affine_grows _ _ Hf)); auto.
  intros xy. unfold feval. destruct (compute_velocity_confined _ _ _). discriminate.
Qed.

(** Regional flow with a saddle: the velocity grows along the axes without bound. *)
Definition saddle : model R :=
  {| base := 0; conductivity := 1; porosity := 1; thickness := 1; wells := []; xo := 0; yo := 0;
     coef := {| cA := 1; cB := -1; cC := 0; cD := 0; cE := 0; cF := 5 |} |}.
Lemma c39_saddle_example : physical saddle /\ wells saddle = [] /\ ~ (exists B, bounded_by B (feval true (fmodel saddle))) /\
  below (/ 2 ^ 52 / (9 / 10) ^ 5) (Fin 1) /\ below (/ 2 ^ 52 / (9 / 10)) PInf.
Proof.
  assert (PH : physical saddle) by (unfold physical, saddle; cbn; lra).
  split; [exact PH|]. split; [reflexivity|]. split; [|cbn; lra].
  intros (B & HB). pose proof (c44_confined_affine saddle PH eq_refl) as Hf. cbv zeta in Hf.
  destruct (HB _ _ (Hf (Rabs B + 1, 0))) as (v & E & V1 & _).
  injection E as E1 _. unfold flow, lin, padd, saddle in E1. cbn in E1. rewrite <- E1 in V1. pose proof (Rle_abs B).
  match type of V1 with Rabs ?a <= _ => pose proof (Rle_abs a); replace a with (2 * (Rabs B + 1)) in * by field end. pose proof (Rabs_pos B). lra.
Qed.
