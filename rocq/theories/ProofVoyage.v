(** * The capture zones of a run in binary64 and the water *)
From Coq Require Import ZArith Reals Lra Lia SpecFloat List Psatz.
From Verif Require Import Py Num NumXR ModelField ModelAquifer ModelTrace ModelDist ModelDriver ModelMain SpecFloats SpecExact SpecZone SpecTrace SpecAquifer SpecPathline SpecDriver
  ProofAquifer ProofTrace ProofPathline ProofPathTube ProofPathWells ProofPathZone SpecField SpecWhole SpecPathZone SpecWater ProofWaterPath SpecRough ProofRoughPath ProofRoughTrace SpecVoyage ProofFloatZone.
Import ListNotations.
Local Open Scope R_scope.

(** ** The test of the distance *)
Lemma blur_pos u S : 0 < u -> 0 <= blur u S.
Proof.
  intros Hu. unfold blur. apply Rmult_le_pos; [left; apply Rinv_0_lt_compat, pow_lt; lra|]. apply Rplus_le_le_0_compat; [lra|]. apply Rmult_le_pos; [apply Rle_0_sqr|left; now apply Rinv_0_lt_compat].
Qed.
Lemma dist2_pdist p q : dist2 p q = pdist p q * pdist p q.
Proof. unfold pdist. rewrite sqrt_sqrt; [unfold dist2; ring|]. apply Rplus_le_le_0_compat; apply Rle_0_sqr. Qed.
Lemma segment_dist a b p : on_segment a b p -> pdist a p <= pdist a b.
Proof.
  intros (t & Ht & ->). unfold pdist. cbn [fst snd]. apply sqrt_le_1_alt.
  replace (((1 - t) * fst a + t * fst b - fst a) * ((1 - t) * fst a + t * fst b - fst a) + ((1 - t) * snd a + t * snd b - snd a) * ((1 - t) * snd a + t * snd b - snd a))
    with ((t * t) * ((fst b - fst a) * (fst b - fst a) + (snd b - snd a) * (snd b - snd a))) by ring.
  set (Q := (fst b - fst a) * (fst b - fst a) + (snd b - snd a) * (snd b - snd a)). assert (0 <= Q) by (apply Rplus_le_le_0_compat; apply Rle_0_sqr). assert (t * t <= 1) by nra. nra.
Qed.

(** The numbers only: [e] is 2^-46. *)
Lemma slack_size e u S x y r : 0 < e <= / 1000 -> 0 < u -> 0 <= x <= S -> 0 <= y <= S + r -> 0 <= r ->
  e * (x * x + y * y + u * u) <= e * (3 * (S * S) + 2 * (r * r) + u * u).
Proof.
  intros He Hu Hx Hy Hr. apply Rmult_le_compat_l; [lra|]. assert (x * x <= S * S) by (apply Rmult_le_compat; lra). assert (y * y <= (S + r) * (S + r)) by (apply Rmult_le_compat; lra).
  assert (0 <= (S - r) * (S - r)) by apply Rle_0_sqr. lra.
Qed.
Lemma upper_number e u S r : 0 < e <= / 1000 -> 0 < u -> 0 <= r -> r * r < u * u + e * (3 * (S * S) + 2 * (r * r) + u * u) -> r < u + 4 * e * (u + S * S / u).
Proof.
  intros He Hu Hr H. destruct (Rlt_or_le r (u + 4 * e * (u + S * S / u))) as [C|C]; [exact C|exfalso].
  set (b := 4 * e * (u + S * S / u)) in *. assert (S2 : 0 <= S * S) by apply Rle_0_sqr.
  assert (Eb : u * b = 4 * (e * (u * u)) + 4 * (e * (S * S))) by (unfold b; field; lra).
  assert (Pb : 0 <= b).
  { unfold b. apply Rmult_le_pos; [lra|]. apply Rplus_le_le_0_compat; [lra|]. apply Rmult_le_pos; [exact S2|left; now apply Rinv_0_lt_compat]. }
  assert (A : (1 - 2 * e) * (r * r) < u * u + e * (3 * (S * S) + u * u)) by lra.
  assert (B : (u + b) * (u + b) <= r * r) by (apply Rmult_le_compat; lra).
  assert (B2 : (1 - 2 * e) * ((u + b) * (u + b)) <= (1 - 2 * e) * (r * r)) by (apply Rmult_le_compat_l; lra).
  assert (0 <= b * b) by apply Rle_0_sqr. assert (P1 : 0 <= (1 - 2 * e) * (b * b)) by (apply Rmult_le_pos; lra).
  assert (P2 : (1 - 2 * e) * (2 * (u * b)) >= 998 / 1000 * (2 * (u * b))).
  { apply Rle_ge, Rmult_le_compat_r; [assert (0 <= u * b) by (apply Rmult_le_pos; lra); lra|lra]. }
  assert (0 <= e * (u * u)) by (apply Rmult_le_pos; [lra|apply Rle_0_sqr]). assert (0 <= e * (S * S)) by (apply Rmult_le_pos; lra).
  replace ((1 - 2 * e) * ((u + b) * (u + b))) with (u * u - 2 * (e * (u * u)) + (1 - 2 * e) * (2 * (u * b)) + (1 - 2 * e) * (b * b)) in B2 by ring.
  replace (u * u + e * (3 * (S * S) + u * u)) with (u * u + 3 * (e * (S * S)) + e * (u * u)) in A by ring.
  assert (0 < e * (u * u)) by (apply Rmult_lt_0_compat; [lra|nra]). lra.
Qed.
Lemma lower_number e u S r : 0 < e <= / 1000 -> 0 < u -> 0 <= r -> r < u - 4 * e * (u + S * S / u) -> r * r + e * (3 * (S * S) + 2 * (r * r) + u * u) < u * u.
Proof.
  intros He Hu Hr H. set (b := 4 * e * (u + S * S / u)) in *. assert (S2 : 0 <= S * S) by apply Rle_0_sqr.
  assert (Eb : u * b = 4 * (e * (u * u)) + 4 * (e * (S * S))) by (unfold b; field; lra).
  assert (Pb : 0 <= b).
  { unfold b. apply Rmult_le_pos; [lra|]. apply Rplus_le_le_0_compat; [lra|]. apply Rmult_le_pos; [exact S2|left; now apply Rinv_0_lt_compat]. }
  assert (R1 : r * r <= (u - b) * (u - b)) by (apply Rmult_le_compat; lra).
  assert (R2 : r * r <= u * u) by (apply Rmult_le_compat; lra).
  assert (B1 : b * b <= u * b) by (apply Rmult_le_compat_r; lra).
  assert (B2 : e * (r * r) <= e * (u * u)) by (apply Rmult_le_compat_l; lra).
  assert (0 < e * (u * u)) by (apply Rmult_lt_0_compat; [lra|nra]). assert (0 <= e * (S * S)) by (apply Rmult_le_pos; lra).
  replace (e * (3 * (S * S) + 2 * (r * r) + u * u)) with (3 * (e * (S * S)) + 2 * (e * (r * r)) + e * (u * u)) by ring. nra.
Qed.

Lemma near_pass u S a b c : 0 < u -> pdist a b <= S ->
  (possibly_near u a b c -> exists p, on_segment a b p /\ pdist p c < u + blur u S) /\ (forall p, on_segment a b p -> pdist p c < u - blur u S -> surely_near u a b c).
Proof.
  intros Hu HS. set (e := / 2 ^ 46). assert (He : 0 < e <= / 1000) by (unfold e; split; [apply Rinv_0_lt_compat, pow_lt; lra|apply Rinv_le_contravar; lra]).
  assert (Eb : blur u S = 4 * e * (u + S * S / u)) by (unfold blur, e; field; lra).
  assert (Sl : forall p, on_segment a b p -> slack u a b c <= e * (3 * (S * S) + 2 * (pdist p c * pdist p c) + u * u)).
  { intros p Hp. unfold slack. fold e. rewrite !dist2_pdist. apply slack_size; try assumption; try apply sqrt_pos; [split; [apply sqrt_pos|exact HS]|]. split; [apply sqrt_pos|]. pose proof (segment_dist a b p Hp). pose proof (pdist_triangle a p c). lra. }
  rewrite Eb. split.
  - intros (p & Hp & H). exists p. split; [exact Hp|]. rewrite dist2_pdist in H. apply upper_number; [exact He|exact Hu|apply sqrt_pos|]. specialize (Sl p Hp). lra.
  - intros p Hp H. exists p. split; [exact Hp|]. rewrite dist2_pdist. specialize (Sl p Hp). pose proof (lower_number e u S (pdist p c) He Hu (sqrt_pos _) H). lra.
Qed.

(** ** One track *)
Lemma consecutive_map (A B : Type) (g : A -> B) l a b : consecutive (map g l) a b -> exists p q, consecutive l p q /\ a = g p /\ b = g q.
Proof.
  intros (k & K1 & K2). rewrite nth_error_map in K1, K2. destruct (nth_error l k) as [p|] eqn:E1; [|discriminate]. destruct (nth_error l (S k)) as [q|] eqn:E2; [|discriminate].
  exists p, q. split; [exists k; auto|]. cbn in *. split; congruence.
Qed.
Lemma map_consecutive (A B : Type) (g : A -> B) l p q : consecutive l p q -> consecutive (map g l) (g p) (g q).
Proof. intros (k & K1 & K2). exists k. rewrite !nth_error_map, K1, K2. auto. Qed.

Lemma astray_mono V L H eta Rr i j s t : 0 <= V -> 0 < L -> 0 <= H -> 0 <= eta -> 0 <= Rr -> (i <= j)%nat -> 0 <= s -> s <= t -> astray V L H eta Rr i s <= astray V L H eta Rr j t.
Proof.
  intros HV HL HH He HR Hij Hs Hst. unfold astray. assert (E : exp (L * s) <= exp (L * t)).
  { destruct (Req_dec s t) as [->|N]; [lra|]. left. apply exp_increasing. apply Rmult_lt_compat_l; lra. }
  assert (E1 : 1 <= exp (L * s)).
  { destruct (Req_dec (L * s) 0) as [->|N]; [rewrite exp_0; lra|]. pose proof (exp_ineq1 (L * s) N). assert (0 <= L * s) by (apply Rmult_le_pos; lra). lra. }
  apply le_INR in Hij. pose proof (pos_INR i) as Pi. assert (0 <= 2 * eta / L) by (apply Rmult_le_pos; [lra|left; now apply Rinv_0_lt_compat]). assert (0 <= 6 * V * H) by (apply Rmult_le_pos; lra).
  apply Rplus_le_compat; [apply Rmult_le_compat_l; lra|]. apply Rmult_le_compat; [apply Rmult_le_pos; lra|lra|apply Rmult_le_compat_r; lra|lra].
Qed.

Lemma track_beside lm F f tol maxstep k r : reckoned lm F tol maxstep (fst r) (snd r) -> seaworthy k -> charted F f k r ->
  exists Z, Z 0 = nth 0 (points r) (0, 0) /\ moves f Z (span r) /\ beside (drift k) (points r) Z (span r) /\
    forall Y, Y 0 = nth 0 (points r) (0, 0) -> moves f Y (span r) -> forall t, 0 <= t <= span r -> Y t = Z t.
Proof.
  intros K (S1 & S2 & S3 & S4 & S5 & S6 & S7 & S8 & S9) C. destruct r as [tr dts]. unfold points, span in *. cbn [fst snd] in *. destruct (vertices tr) as [|[xs ys] vs] eqn:Ev.
  { pose proof (rk_length _ _ _ _ _ _ K) as E. rewrite Ev in E. discriminate. }
  destruct (ct_start _ _ _ _ C (xs, ys)) as (Fx & Fy); [cbn [fst]; rewrite Ev; reflexivity|]. cbn [fst snd] in Fx, Fy.
  pose proof (ct_points _ _ _ _ C) as P. pose proof (ct_steps _ _ _ _ C) as St. pose proof (ct_count _ _ _ _ C) as Cn. pose proof (ct_span _ _ _ _ C) as Sp. pose proof (ct_faithful _ _ _ _ C) as Fa. pose proof (ct_gentle _ _ _ _ C) as Ge.
  unfold points, span in P, Cn, Sp, Fa, Ge. cbn [fst snd] in P, St, Cn, Sp, Fa, Ge.
  set (Rr := rounding (c_X k) (c_H k) (c_V k)) in *. set (T := last (clock 0 dts) 0) in *.
  assert (HV : 0 <= c_V k).
  { destruct (Ge (at_ (xs, ys))) as (G & _); [rewrite Ev; left; reflexivity|]. destruct (G (at_ (xs, ys)) ltac:(rewrite pdist_self; lra)) as (u & _ & B). pose proof (pnorm_pos u). lra. }
  assert (HX0 : 0 <= c_X k).
  { destruct (P (at_ (xs, ys))) as (B & _); [rewrite Ev; left; reflexivity|]. pose proof (Rabs_pos (fst (at_ (xs, ys)))). lra. }
  assert (HR0 : 0 <= Rr).
  { unfold Rr, rounding. assert (0 <= c_H k * c_V k) by (apply Rmult_le_pos; lra). apply Rplus_le_le_0_compat; apply Rmult_le_pos; try lra; left; apply Rinv_0_lt_compat, pow_lt; lra. }
  assert (Hw0 : 0 <= wrong (c_L k) (c_d k) Rr) by (unfold wrong; pose proof (Rmult_le_pos (c_L k) Rr ltac:(lra) HR0); lra).
  assert (HT0 : 0 <= T).
  { unfold T. rewrite clock_last. apply fold_grows. apply Forall_forall. intros x Hx. apply St in Hx. lra. }
  assert (Mono : astray (c_V k) (c_L k) (c_H k) (wrong (c_L k) (c_d k) Rr) Rr (length (map at_ (vertices tr))) T <= drift k) by (unfold drift; fold Rr; apply astray_mono; try assumption; lra).
  destruct (water_followed lm F tol maxstep xs ys vs tr dts K Ev Fx Fy f (c_V k) (c_L k) (c_rho k) (c_d k) (c_X k) (c_H k) S1 S2 S3 S4 S5 S6 P St Fa Ge S7 S8) as (_ & Z & Z0 & ZM & _ & (B1 & B2) & ZU).
  { fold Rr. fold T. lra. }
  fold Rr in B1, B2. fold T in B1, B2, ZM, ZU. rewrite <- Ev in *. assert (E0 : nth 0 (map at_ (vertices tr)) (0, 0) = (fval xs, fval ys)) by (rewrite Ev; reflexivity).
  exists Z. split; [exact (eq_trans Z0 (eq_sym E0))|]. split; [exact ZM|]. split; [split|].
  - intros p Hp. destruct (B1 p Hp) as (t & Ht & D). exists t. split; [exact Ht|]. lra.
  - intros t Ht. destruct (B2 t Ht) as (p & Hp & D). exists p. split; [exact Hp|]. lra.
  - intros Y Y0. apply ZU. exact (eq_trans Y0 E0).
Qed.

(** ** One capture zone *)
Lemma finite_paths (P : trace spec_float * list spec_float -> (R -> pt) -> Prop) runs : (forall r, In r runs -> exists Z, P r Z) ->
  exists path : nat -> R -> pt, forall j r, nth_error runs j = Some r -> P r (path j).
Proof.
  induction runs as [|r runs IH]; intros H.
  - exists (fun _ _ => (0, 0)). intros j r E. destruct j; discriminate.
  - destruct (H r (or_introl eq_refl)) as (Z & HZ). destruct IH as (path & HP); [intros r' Hr'; apply H; now right|].
    exists (fun j => match j with O => Z | S j' => path j' end). intros [|j] r' E; [cbn in E; injection E as <-; exact HZ|]. now apply HP.
Qed.

Lemma traced_sailed lm fuel xt yt rt duration tol maxstep npaths confined m tracks :
  @SpecDriver.traced _ (SF lm) fuel xt yt rt duration tol maxstep npaths confined m tracks ->
  exists z, g_model z = m /\ sailed lm fuel xt yt rt duration tol maxstep npaths confined z /\ map (fun r => vertices (fst r)) (g_runs z) = tracks.
Proof.
  intros (thetas & Et & F). assert (K : exists runs, Forall2 (fun th r => let (x, y) := @start_point _ (SF lm) xt yt rt th in
      @compute_backtrace _ (SF lm) fuel x y duration tol maxstep (@feval _ (SF lm) confined m) = Ok (fst r) /\ reckoned lm (@feval _ (SF lm) confined m) tol maxstep (fst r) (snd r)) thetas runs /\
      map (fun r : trace spec_float * list spec_float => vertices (fst r)) runs = tracks).
  { clear Et. induction F as [|th t thetas tracks (tr & H) F (runs & R1 & R2)]; [exists []; split; [constructor|reflexivity]|].
    destruct (@start_point _ (SF lm) xt yt rt th) as [x y] eqn:E. destruct H as (Hb & ->). destruct (trace_reckoned lm _ tol maxstep fuel x y duration tr Hb) as (dts & vs & K & _ & _).
    exists ((tr, dts) :: runs). split; [|cbn; now rewrite R2]. constructor; [|exact R1]. rewrite E. split; [exact Hb|exact K]. }
  destruct K as (runs & R1 & R2). exists {| g_model := m; g_runs := runs |}. split; [reflexivity|]. split; [|exact R2]. exists thetas. split; [exact Et|exact R1].
Qed.
Lemma sailed_reckoned lm fuel xt yt rt duration tol maxstep npaths confined z r : sailed lm fuel xt yt rt duration tol maxstep npaths confined z -> In r (g_runs z) ->
  reckoned lm (@feval _ (SF lm) confined (g_model z)) tol maxstep (fst r) (snd r).
Proof.
  intros (thetas & _ & F) Hr. induction F as [|th r' thetas runs H F IH]; [destruct Hr|]. destruct Hr as [->|Hr]; [|auto]. destruct (@start_point _ (SF lm) xt yt rt th). apply H.
Qed.

Lemma zone_carried lm F f tol maxstep k z : (forall r, In r (g_runs z) -> reckoned lm F tol maxstep (fst r) (snd r)) -> seaworthy k -> (forall r, In r (g_runs z) -> charted F f k r) ->
  (exists path, carries f z path) /\
  forall path, carries f z path -> forall j r, nth_error (g_runs z) j = Some r -> beside (drift k) (points r) (path j) (span r).
Proof.
  intros K S C. split.
  - destruct (finite_paths (fun r Z => Z 0 = nth 0 (points r) (0, 0) /\ moves f Z (span r)) (g_runs z)) as (path & P).
    + intros r Hr. destruct (track_beside lm F f tol maxstep k r (K r Hr) S (C r Hr)) as (Z & Z0 & ZM & _). exists Z. auto.
    + exists path. exact P.
  - intros path P j r E. assert (Hr : In r (g_runs z)) by (eapply nth_error_In; exact E). destruct (P j r E) as (Y0 & YM).
    destruct (track_beside lm F f tol maxstep k r (K r Hr) S (C r Hr)) as (Z & Z0 & ZM & (B1 & B2) & ZU). pose proof (ZU (path j) Y0 YM) as Eq. split.
    + intros p Hp. destruct (B1 p Hp) as (t & Ht & D). exists t. split; [exact Ht|]. now rewrite Eq.
    + intros t Ht. destruct (B2 t Ht) as (p & Hp & D). exists p. split; [exact Hp|]. now rewrite Eq.
Qed.

Lemma box_in tr l c : (forall q, In q tr -> In q l) -> SpecWhole.boxed (map at_ tr) c -> SpecZone.boxed l (fst c) (snd c).
Proof.
  intros Sub. unfold SpecWhole.boxed, SpecZone.boxed. intros H.
  destruct H as (p & q & p' & q' & Ip & Iq & Ip' & Iq' & B & B').
  apply in_map_iff in Ip as (a & <- & Ia). apply in_map_iff in Iq as (b & <- & Ib). apply in_map_iff in Ip' as (a' & <- & Ia'). apply in_map_iff in Iq' as (b' & <- & Ib').
  split; [exists a, b|exists a', b']; auto.
Qed.

Lemma zone_shown F f k z u old seen x y b path : 0 < u -> (forall r, In r (g_runs z) -> charted F f k r) ->
  fair u old seen x y b (map (fun r => vertices (fst r)) (g_runs z)) ->
  (forall j r, nth_error (g_runs z) j = Some r -> beside (drift k) (points r) (path j) (span r)) -> shows u (drift k + blur u (c_S k)) z path (x, y) b.
Proof.
  intros Hu C (F1 & F2) B. split.
  - intros Hb. destruct (F1 Hb) as (tr & p & q & It & Cs & Ne & Pn). apply in_map_iff in It as (r & <- & Ir). destruct (In_nth_error _ _ Ir) as (j & Ej).
    assert (Cp : consecutive (points r) (at_ p) (at_ q)) by (apply map_consecutive; exact Cs).
    destruct (proj1 (near_pass u (c_S k) (at_ p) (at_ q) (x, y) Hu (ct_hops _ _ _ _ (C r Ir) _ _ Cp)) Pn) as (pp & Hp & Dp).
    destruct (proj1 (B j r Ej) pp) as (t & Ht & Dt); [right; exists (at_ p), (at_ q); auto|]. exists j, r, t. split; [exact Ej|]. split; [exact Ht|].
    pose proof (pdist_triangle (x, y) pp (path j t)) as Tr. rewrite (pdist_sym (x, y) pp) in Tr. lra.
  - intros j r t Ej Hd Hb Ht Dt. assert (Ir : In r (g_runs z)) by (eapply nth_error_In; exact Ej). destruct (proj2 (B j r Ej) t Ht) as (pp & Hp & Dp).
    destruct (on_proper_segment (points r) pp Hd Hp) as (a & c & Cs & Ne & On). pose proof (ct_hops _ _ _ _ (C r Ir) _ _ Cs) as HS.
    assert (Dn : pdist pp (x, y) < u - blur u (c_S k)).
    { pose proof (pdist_triangle pp (path j t) (x, y)) as Tr. rewrite (pdist_sym (path j t) (x, y)) in Tr. lra. }
    pose proof (proj2 (near_pass u (c_S k) a c (x, y) Hu HS) pp On Dn) as Sn. destruct (consecutive_map _ _ _ _ _ _ Cs) as (p & q & Cv & -> & ->).
    destruct (nth_error_split _ _ Ej) as (l1 & l2 & E & _). set (g := fun r : trace spec_float * list spec_float => vertices (fst r)) in *.
    apply (F2 (map g l1) (g r) (map g l2)).
    + rewrite E, map_app. reflexivity.
    + exists p, q. auto.
    + right. apply (box_in (g r) _ (x, y)); [|exact Hb]. intros v Hv. rewrite !in_app_iff. auto.
Qed.

Lemma fairs_nth u old x y seen flags zones : fairs u old x y seen flags zones -> length flags = length zones /\
  forall i b z, nth_error flags i = Some b -> nth_error zones i = Some z -> exists seen', fair u old seen' x y b z.
Proof.
  intros H. induction H as [seen|seen b z flags zones H HF (IH1 & IH2)].
  - split; [reflexivity|]. intros [|i] b z E; discriminate.
  - split; [cbn; now rewrite IH1|]. intros [|i] b' z' E1 E2; cbn in E1, E2; [injection E1 as <-; injection E2 as <-; exists seen; exact H|]. now apply (IH2 i).
Qed.

(** C125, stochastic: under the conditions of C95 on the grid every weight is the exact number of the realizations that count the node; for each of them, under
    the conditions of C124 on its traces, the water follows a path from each start point, and the node is counted, up to the distance
    [drift k + blur u S], when the water passes closer than [u]. *)
Lemma c125_stochastic : forall (lm : libm) (G E : Type) (R : rng spec_float G) (mvn : E -> list spec_float -> list (list spec_float) -> list spec_float)
    fuel la entropy g target npaths duration nrealizations base_ c_dist p_dist t_dist ws observations spacing umbra confined tol maxstep s logs,
  @create_stochastic _ (SF lm) _ _ R mvn fuel la entropy g target npaths duration nrealizations base_ c_dist p_dist t_dist ws observations
                    spacing umbra confined tol maxstep = Ok (s, logs) ->
  exists w zones, nth_error ws target = Some w /\ length zones = Z.to_nat nrealizations /\
    Forall2 (fun l z => logs_model l (g_model z) /\ located (g_model z) ws /\ xo (g_model z) = sx w /\ yo (g_model z) = sy w /\
               sailed lm fuel (sx w) (sy w) (sr w) duration tol maxstep npaths confined z /\ length (g_runs z) = Z.to_nat npaths) logs zones /\
    forall ex ey, (-1073 <= ex <= 147)%Z -> (-1073 <= ey <= 147)%Z -> (nrealizations <= 2 ^ 53)%Z ->
      ffinite spacing -> roomy_units ex (fval spacing) -> roomy_units ey (fval spacing) ->
      roomy_range ex spacing (sx w) -> roomy_units ex (fval (sx w)) -> roomy_range ey spacing (sy w) -> roomy_units ey (fval (sy w)) ->
      reach ex umbra -> reach ey umbra -> 0 < fval umbra ->
      (forall z r, In z zones -> In r (g_runs z) -> good_track ex ey spacing spacing (vertices (fst r))) ->
      total (exact_field s) (INR (Z.to_nat nrealizations)) /\
      forall x y weight mk, has_node (exact_field s) x y weight mk -> exists flags, weight = tally flags /\ length flags = length zones /\
        forall i z b, nth_error zones i = Some z -> nth_error flags i = Some b -> forall f k, seaworthy k ->
          (forall r, In r (g_runs z) -> charted (@feval _ (SF lm) confined (g_model z)) f k r) ->
          (exists path, carries f z path) /\
          forall path, carries f z path -> shows (fval umbra) (drift k + blur (fval umbra) (c_S k)) z path (x, y) b.
Proof.
  intros lm G E R mvn fuel la entropy g target npaths duration nrealizations base_ c_dist p_dist t_dist ws observations spacing umbra confined tol maxstep s logs H.
  destruct (c95_stochastic _ _ _ _ _ _ _ _ _ _ _ _ _ _ _ _ _ _ _ _ _ _ _ _ _ _ H) as (w & s0 & tracks & Ew & I & Len & F & C). clear H.
  assert (Z : exists zones, map (fun z => map (fun r => vertices (fst r)) (g_runs z)) zones = tracks /\
    Forall2 (fun l z => logs_model l (g_model z) /\ located (g_model z) ws /\ xo (g_model z) = sx w /\ yo (g_model z) = sy w /\
               sailed lm fuel (sx w) (sy w) (sr w) duration tol maxstep npaths confined z /\ length (g_runs z) = Z.to_nat npaths) logs zones).
  { clear - F. induction F as [|l ts logs tracks (m & A1 & A2 & A3 & A4 & A5 & A6) F (zones & Z1 & Z2)]; [exists []; split; [reflexivity|constructor]|].
    destruct (traced_sailed _ _ _ _ _ _ _ _ _ _ _ _ A5) as (z & Em & Sz & Ez). exists (z :: zones). split; [cbn; now rewrite Ez, Z1|]. constructor; [|exact Z2]. rewrite Em.
    assert (length (g_runs z) = Z.to_nat npaths) by (rewrite <- A6, <- Ez, map_length; reflexivity). auto 10. }
  destruct Z as (zones & Ez & F2). exists w, zones. assert (Lz : length zones = length tracks) by (rewrite <- Ez, map_length; reflexivity).
  split; [exact Ew|]. split; [congruence|]. split; [exact F2|].
  intros ex ey Hx Hy Hn Fd Ux Uy Rx Uxo Ry Uyo Ru Ru' Pu Gt. destruct (C ex ey Hx Hy Hn Fd Ux Uy Rx Uxo Ry Uyo Ru Ru' ltac:(lra)) as (_ & Tt & _ & Nd).
  { rewrite <- Ez. apply Forall_forall. intros ts It. apply in_map_iff in It as (z & <- & Iz). apply Forall_forall. intros tr Ir. apply in_map_iff in Ir as (r & <- & Ir). now apply (Gt z r). }
  split; [exact Tt|]. intros x y weight mk Hnode. destruct (Nd x y weight mk Hnode) as (_ & flags & Ef & Fr). exists flags. split; [exact Ef|].
  destruct (fairs_nth _ _ _ _ _ _ _ Fr) as (Lf & Nf). split; [exact (eq_trans Lf (eq_sym Lz))|]. intros i z b Ezi Eb f k Sk Ck.
  assert (Iz : In z zones) by (eapply nth_error_In; exact Ezi).
  assert (Sz : sailed lm fuel (sx w) (sy w) (sr w) duration tol maxstep npaths confined z).
  { clear - F2 Iz. induction F2 as [|l z' logs zones' Q F2 IH]; [destruct Iz|]. destruct Iz as [->|Iz]; [apply Q|auto]. }
  destruct (zone_carried lm _ f tol maxstep k z (fun r Hr => sailed_reckoned _ _ _ _ _ _ _ _ _ _ _ r Sz Hr) Sk Ck) as (Ex & Bs). split; [exact Ex|].
  intros path Pt. destruct (Nf i b (map (fun r => vertices (fst r)) (g_runs z)) Eb) as (seen & Fz).
  { rewrite <- Ez, nth_error_map, Ezi. reflexivity. }
  exact (zone_shown _ f k z _ _ seen x y b path Pu Ck Fz (Bs path Pt)).
Qed.

(** The deterministic driver: the weight of a node is 1 if it is counted, 0 if not. *)
Lemma c125_deterministic : forall (lm : libm)
    fuel la target npaths duration base_ c_dist p_dist t_dist ws observations spacing umbra confined tol maxstep s l,
  @create_deterministic _ (SF lm) fuel la target npaths duration base_ c_dist p_dist t_dist ws observations
                       spacing umbra confined tol maxstep = Ok (s, l) ->
  exists w z, nth_error ws target = Some w /\ logs_model l (g_model z) /\ located (g_model z) ws /\ xo (g_model z) = sx w /\ yo (g_model z) = sy w /\
    sailed lm fuel (sx w) (sy w) (sr w) duration tol maxstep npaths confined z /\ length (g_runs z) = Z.to_nat npaths /\
    forall ex ey, (-1073 <= ex <= 147)%Z -> (-1073 <= ey <= 147)%Z ->
      ffinite spacing -> roomy_units ex (fval spacing) -> roomy_units ey (fval spacing) ->
      roomy_range ex spacing (sx w) -> roomy_units ex (fval (sx w)) -> roomy_range ey spacing (sy w) -> roomy_units ey (fval (sy w)) ->
      reach ex umbra -> reach ey umbra -> 0 < fval umbra ->
      (forall r, In r (g_runs z) -> good_track ex ey spacing spacing (vertices (fst r))) ->
      total (exact_field s) 1 /\
      forall x y weight mk, has_node (exact_field s) x y weight mk -> exists b : bool, weight = (if b then 1 else 0) /\ forall f k, seaworthy k ->
          (forall r, In r (g_runs z) -> charted (@feval _ (SF lm) confined (g_model z)) f k r) ->
          (exists path, carries f z path) /\
          forall path, carries f z path -> shows (fval umbra) (drift k + blur (fval umbra) (c_S k)) z path (x, y) b.
Proof.
  intros lm fuel la target npaths duration base_ c_dist p_dist t_dist ws observations spacing umbra confined tol maxstep s l H.
  destruct (c95_deterministic _ _ _ _ _ _ _ _ _ _ _ _ _ _ _ _ _ _ _ H) as (w & s0 & tracks & m & Ew & I & A1 & A2 & A3 & A4 & A5 & A6 & C). clear H.
  destruct (traced_sailed _ _ _ _ _ _ _ _ _ _ _ _ A5) as (z & Em & Sz & Ez). exists w, z. rewrite Em.
  assert (length (g_runs z) = Z.to_nat npaths) by (rewrite <- A6, <- Ez, map_length; reflexivity). do 7 (split; [assumption|]).
  intros ex ey Hx Hy Fd Ux Uy Rx Uxo Ry Uyo Ru Ru' Pu Gt. destruct (C ex ey Hx Hy Fd Ux Uy Rx Uxo Ry Uyo Ru Ru' ltac:(lra)) as (_ & Tt & _ & Nd).
  { rewrite <- Ez. apply Forall_forall. intros tr Ir. apply in_map_iff in Ir as (r & <- & Ir). now apply Gt. }
  split; [exact Tt|]. intros x y weight mk Hnode. destruct (Nd x y weight mk Hnode) as (_ & b & Eb & Fz). exists b. split; [exact Eb|]. intros f k Sk Ck. rewrite <- Ez in Fz. rewrite <- Em in Ck.
  destruct (zone_carried lm _ f tol maxstep k z (fun r Hr => sailed_reckoned _ _ _ _ _ _ _ _ _ _ _ r Sz Hr) Sk Ck) as (Ex & Bs). split; [exact Ex|].
  intros path Pt. exact (zone_shown _ f k z _ _ [] x y b path Pu Ck Fz (Bs path Pt)).
Qed.
