(** * Differential equations: a particle in a Lipschitz velocity field has a path

    Picard's iteration, for the paths of C107.  Integrals are antiderivatives of continuous functions, convergence is in the
    norm weighted with e^(-4Kt), so that the iteration contracts by one half. *)
From Coq Require Import Reals Lra Lia Psatz List.
From Verif Require Import Py Num ModelTrace SpecTrace SpecPathline ProofTrace ProofAquifer ProofPathline ProofPathAffine ProofPathTube.
Import ListNotations.
Local Open Scope R_scope.

(** ** Antiderivatives *)
Definition cont_on (T : R) (h : R -> R) : Prop := forall x, 0 <= x <= T -> continuity_pt h x.
Lemma antiderivative_of T h : 0 <= T -> cont_on T h -> {F : R -> R | F 0 = 0 /\ forall x, 0 <= x <= T -> derivable_pt_lim F x (h x)}.
Proof.
  intros HT C. exists (primitive HT (FTC_P1 HT C)). split.
  - unfold primitive. destruct (Rle_dec 0 0) as [H|H]; [|lra]. destruct (Rle_dec 0 T) as [H'|H']; [|contradiction]. apply RiemannInt_P9.
  - intros x Hx. now apply RiemannInt_P28.
Qed.
Lemma deriv_cont F x d : derivable_pt_lim F x d -> continuity_pt F x.
Proof. intros H. apply derivable_continuous_pt. now exists d. Qed.

(** ** Continuity *)
Lemma cont_dist (h : R -> R) t : continuity_pt h t <-> forall e, 0 < e -> exists d, 0 < d /\ forall x, Rabs (x - t) < d -> Rabs (h x - h t) < e.
Proof.
  split.
  - intros H e He. destruct (H e He) as (d & Hd & K). exists d. split; [exact Hd|]. intros x Hx. destruct (Req_dec x t) as [->|N].
    + unfold Rminus. rewrite Rplus_opp_r, Rabs_R0. exact He.
    + apply K. split; [split; [exact I|congruence]|exact Hx].
  - intros H e He. destruct (H e He) as (d & Hd & K). exists d. split; [exact Hd|]. intros x [_ Hx]. apply K, Hx.
Qed.
Lemma cont_lipschitz (h a b : R -> R) K t : 0 <= K -> (forall x, Rabs (h x - h t) <= K * (Rabs (a x - a t) + Rabs (b x - b t))) ->
  continuity_pt a t -> continuity_pt b t -> continuity_pt h t.
Proof.
  intros HK H Ca Cb. apply cont_dist. intros e He. assert (P : 0 < e / (2 * (K + 1))) by (apply Rdiv_lt_0_compat; lra).
  destruct (proj1 (cont_dist a t) Ca _ P) as (d1 & D1 & K1). destruct (proj1 (cont_dist b t) Cb _ P) as (d2 & D2 & K2).
  exists (Rmin d1 d2). split; [now apply Rmin_glb_lt|]. intros x Hx. pose proof (Rmin_l d1 d2). pose proof (Rmin_r d1 d2).
  specialize (K1 x ltac:(lra)). specialize (K2 x ltac:(lra)). set (c := e / (2 * (K + 1))) in *.
  assert (E : e = 2 * (K + 1) * c) by (unfold c; field; lra). specialize (H x).
  assert (K * (Rabs (a x - a t) + Rabs (b x - b t)) <= K * (2 * c)) by (apply Rmult_le_compat_l; lra). nra.
Qed.

Definition clamp (T t : R) : R := Rmax 0 (Rmin t T).
Lemma clamp_in T t : 0 <= T -> 0 <= clamp T t <= T.
Proof. intros. unfold clamp. split; [apply Rmax_l|]. apply Rmax_lub; [assumption|apply Rmin_r]. Qed.
Lemma clamp_id T t : 0 <= t <= T -> clamp T t = t.
Proof. intros. unfold clamp. rewrite Rmin_left by lra. apply Rmax_right. lra. Qed.
Lemma clamp_close T x t : 0 <= T -> Rabs (clamp T x - clamp T t) <= Rabs (x - t).
Proof.
  intros HT. unfold clamp, Rmax, Rmin. destruct (Rle_dec x T), (Rle_dec t T); repeat (match goal with |- context [Rle_dec ?a ?b] => destruct (Rle_dec a b) end); unfold Rabs;
    repeat (match goal with |- context [Rcase_abs ?a] => destruct (Rcase_abs a) end); lra.
Qed.

(** Small numbers. *)
Lemma pow_small c e : 0 <= c -> 0 < e -> exists n, c * (/ 2) ^ n < e.
Proof.
  intros Hc He. destruct (pow_lt_1_zero (/ 2)) with (y := e / (c + 1)) as (n & Hn); [rewrite Rabs_pos_eq; lra|apply Rdiv_lt_0_compat; lra|].
  exists n. specialize (Hn n (le_n n)). rewrite Rabs_pos_eq in Hn by (apply pow_le; lra). set (x := (/ 2) ^ n) in *. assert (0 <= x) by (apply pow_le; lra).
  apply Rle_lt_trans with ((c + 1) * x); [nra|]. replace e with ((c + 1) * (e / (c + 1))) at 1 by (field; lra). apply Rmult_lt_compat_l; lra.
Qed.
Lemma le_small a c : 0 <= c -> (forall n, a <= c * (/ 2) ^ n) -> a <= 0.
Proof. intros Hc H. destruct (Rle_or_lt a 0) as [|P]; [assumption|]. destruct (pow_small c a Hc P) as (n & Hn). specialize (H n). lra. Qed.

(** Lengths and coordinates. *)
Lemma coord_le p : Rabs (fst p) <= pnorm p /\ Rabs (snd p) <= pnorm p.
Proof.
  pose proof (pnorm_pos p). pose proof (pnorm_sq p) as S. pose proof (Rle_0_sqr (fst p)). pose proof (Rle_0_sqr (snd p)). unfold Rsqr in *.
  split; apply le_of_sq; try assumption; rewrite S, <- Rabs_mult, Rabs_pos_eq; lra.
Qed.
Lemma pnorm_le_coords p : pnorm p <= Rabs (fst p) + Rabs (snd p).
Proof.
  pose proof (Rabs_pos (fst p)). pose proof (Rabs_pos (snd p)). apply le_of_sq; [lra|]. rewrite pnorm_sq.
  assert (fst p * fst p = Rabs (fst p) * Rabs (fst p)) by (rewrite <- Rabs_mult, Rabs_pos_eq; [ring|apply Rle_0_sqr]).
  assert (snd p * snd p = Rabs (snd p) * Rabs (snd p)) by (rewrite <- Rabs_mult, Rabs_pos_eq; [ring|apply Rle_0_sqr]). nra.
Qed.

Section Picard.
  Context (g : pt -> pt) (K T : R) (p : pt).
  Hypothesis (HT : 0 <= T) (HK : 0 <= K) (Hg : forall a b, pnorm (psub (g a) (g b)) <= K * pdist a b).

  Definition gap (a b : pt) : R := Rabs (fst a - fst b) + Rabs (snd a - snd b).
  Lemma gap_pos a b : 0 <= gap a b.
  Proof. apply Rplus_le_le_0_compat; apply Rabs_pos. Qed.
  Lemma pdist_gap a b : pdist a b <= gap a b.
  Proof. rewrite pdist_norm. eapply Rle_trans; [apply pnorm_le_coords|]. unfold gap, psub. cbn [fst snd]. rewrite (Rabs_minus_sym (fst b)), (Rabs_minus_sym (snd b)). lra. Qed.
  Lemma g_coords a b : Rabs (fst (g a) - fst (g b)) <= K * gap a b /\ Rabs (snd (g a) - snd (g b)) <= K * gap a b.
  Proof.
    destruct (coord_le (psub (g a) (g b))) as [C1 C2]. unfold psub in C1, C2. cbn [fst snd] in C1, C2. pose proof (Hg a b) as G. pose proof (pdist_gap a b) as P.
    pose proof (Rmult_le_compat_l K _ _ HK P). unfold psub in G. split; lra.
  Qed.

  Definition curve := {c : R -> pt | cont_on T (fun t => fst (c t)) /\ cont_on T (fun t => snd (c t))}.
  Lemma image_cont (c : curve) : cont_on T (fun t => fst (g (proj1_sig c t))) /\ cont_on T (fun t => snd (g (proj1_sig c t))).
  Proof.
    destruct c as (c & C1 & C2). cbn [proj1_sig]. split; intros t Ht.
    - apply (cont_lipschitz _ (fun t => fst (c t)) (fun t => snd (c t)) K t HK); [intros x; apply g_coords|now apply C1|now apply C2].
    - apply (cont_lipschitz _ (fun t => fst (c t)) (fun t => snd (c t)) K t HK); [intros x; apply g_coords|now apply C1|now apply C2].
  Qed.
  Definition step (c : curve) : {d : R -> pt | d 0 = p /\
    forall t, 0 <= t <= T -> derivable_pt_lim (fun s => fst (d s)) t (fst (g (proj1_sig c t))) /\ derivable_pt_lim (fun s => snd (d s)) t (snd (g (proj1_sig c t)))}.
  Proof.
    destruct (image_cont c) as [C1 C2]. destruct (antiderivative_of T _ HT C1) as (F1 & Z1 & D1). destruct (antiderivative_of T _ HT C2) as (F2 & Z2 & D2).
    exists (fun t => (fst p + F1 t, snd p + F2 t)). split; [rewrite Z1, Z2; destruct p; cbn; f_equal; ring|]. intros t Ht. cbn [fst snd]. split.
    - eapply deriv_val; [apply (derivable_pt_lim_plus (fct_cte (fst p)) F1); [apply derivable_pt_lim_const|apply D1, Ht]|ring].
    - eapply deriv_val; [apply (derivable_pt_lim_plus (fct_cte (snd p)) F2); [apply derivable_pt_lim_const|apply D2, Ht]|ring].
  Defined.
  Definition next (c : curve) : curve.
  Proof.
    exists (proj1_sig (step c)). destruct (step c) as (d & D0 & D). cbn [proj1_sig]. split; intros t Ht; destruct (D t Ht) as [D1 D2]; eapply deriv_cont; eassumption.
  Defined.
  Definition start : curve.
  Proof. exists (fun _ => p). split; intros t _; apply continuity_pt_const; intros ? ?; reflexivity. Defined.
  Fixpoint iterate (n : nat) : curve := match n with O => start | S n => next (iterate n) end.
  Definition y (n : nat) : R -> pt := proj1_sig (iterate n).

  Lemma y_start n : y n 0 = p.
  Proof. destruct n as [|n]; [reflexivity|]. unfold y. cbn [iterate next proj1_sig]. destruct (step (iterate n)) as (d & D0 & D). exact D0. Qed.
  Lemma y_deriv n t : 0 <= t <= T -> derivable_pt_lim (fun s => fst (y (S n) s)) t (fst (g (y n t))) /\ derivable_pt_lim (fun s => snd (y (S n) s)) t (snd (g (y n t))).
  Proof. intros Ht. unfold y. cbn [iterate next proj1_sig]. destruct (step (iterate n)) as (d & D0 & D). exact (D t Ht). Qed.
  Lemma y_cont n : cont_on T (fun t => fst (y n t)) /\ cont_on T (fun t => snd (y n t)).
  Proof. unfold y. destruct (iterate n) as (c & C). exact C. Qed.

  (** Functions that start at 0 with derivatives below those of another. *)
  Lemma abs_compare f f' G G' t : 0 <= t -> (forall s, 0 <= s <= t -> derivable_pt_lim f s (f' s)) -> (forall s, 0 <= s <= t -> derivable_pt_lim G s (G' s)) ->
    (forall s, 0 <= s <= t -> Rabs (f' s) <= G' s) -> f 0 = 0 -> Rabs (f t) <= G t - G 0.
  Proof.
    intros Ht Df DG B F0. apply Rabs_le. split.
    - pose proof (compare (fun s => - f s) (fun s => - f' s) G G' 0 t Ht) as C. cbv beta in C. rewrite F0 in C. enough (- f t - - 0 <= G t - G 0) by lra. apply C; [|exact DG|].
      + intros s Hs. apply (derivable_pt_lim_opp f). now apply Df.
      + intros s Hs. specialize (B s Hs). pose proof (Rle_abs (- f' s)) as A. rewrite Rabs_Ropp in A. lra.
    - pose proof (compare f f' G G' 0 t Ht Df DG) as C. rewrite F0 in C. enough (f t - 0 <= G t - G 0) by lra. apply C.
      intros s Hs. specialize (B s Hs). pose proof (Rle_abs (f' s)). lra.
  Qed.

  Let B : R := 2 * pnorm (g p) * T.
  Lemma B_pos : 0 <= B.
  Proof. unfold B. pose proof (pnorm_pos (g p)). apply Rmult_le_pos; [lra|exact HT]. Qed.
  Lemma near_next : forall n t, 0 <= t <= T -> gap (y (S n) t) (y n t) <= B * exp (4 * K * t) * (/ 2) ^ n.
  Proof.
    pose proof B_pos as HB. induction n as [|n IH]; intros t Ht.
    - destruct (coord_le (g p)) as [C1 C2].
      assert (Q : forall (pr : pt -> R), (forall s, 0 <= s <= t -> derivable_pt_lim (fun s => pr (y 1 s)) s (pr (g p))) -> Rabs (pr (g p)) <= pnorm (g p) -> Rabs (pr (y 1 t) - pr p) <= pnorm (g p) * t).
      { intros pr D C. pose proof (abs_compare (fun s => pr (y 1 s) - pr p) (fun _ => pr (g p)) (fun s => pnorm (g p) * s) (fun _ => pnorm (g p)) t) as A. cbv beta in A.
        replace (pnorm (g p) * t) with (pnorm (g p) * t - pnorm (g p) * 0) by ring. apply A; [lra| | | |].
        - intros s Hs. eapply deriv_val; [apply (derivable_pt_lim_minus (fun s => pr (y 1 s)) (fct_cte (pr p))); [now apply D|apply derivable_pt_lim_const]|ring].
        - intros s Hs. eapply deriv_val; [apply (derivable_pt_lim_scal id (pnorm (g p))), derivable_pt_lim_id|ring].
        - intros s Hs. exact C.
        - rewrite y_start. ring. }
      pose proof (Q fst (fun s Hs => proj1 (y_deriv 0 s ltac:(lra))) C1) as Q1. pose proof (Q snd (fun s Hs => proj2 (y_deriv 0 s ltac:(lra))) C2) as Q2.
      unfold gap. change (y 0 t) with p. rewrite pow_O, Rmult_1_r.
      assert (E1 : 1 <= exp (4 * K * t)) by (pose proof (exp_ineq1_le (4 * K * t)); assert (0 <= 4 * K * t) by (apply Rmult_le_pos; lra); lra).
      pose proof (pnorm_pos (g p)). assert (pnorm (g p) * t <= pnorm (g p) * T) by (apply Rmult_le_compat_l; lra).
      assert (B <= B * exp (4 * K * t)) by (rewrite <- (Rmult_1_r B) at 1; apply Rmult_le_compat_l; lra). unfold B in *. lra.
    - set (c := (/ 2) ^ n) in *. assert (Hc : 0 <= c) by (apply pow_le; lra).
      assert (Q : forall (pr : pt -> R), (forall m s, 0 <= s <= T -> derivable_pt_lim (fun s => pr (y (S m) s)) s (pr (g (y m s)))) ->
        (forall a b, Rabs (pr (g a) - pr (g b)) <= K * gap a b) -> Rabs (pr (y (S (S n)) t) - pr (y (S n) t)) <= B * c * / 4 * exp (4 * K * t)).
      { intros pr D C. pose proof (abs_compare (fun s => pr (y (S (S n)) s) - pr (y (S n) s)) (fun s => pr (g (y (S n) s)) - pr (g (y n s))) (fun s => B * c * / 4 * exp (4 * K * s)) (fun s => B * c * / 4 * (4 * K * exp (4 * K * s))) t) as A.
        cbv beta in A. eapply Rle_trans; [apply A; [lra| | | |]|].
        - intros s Hs. apply (derivable_pt_lim_minus (fun s => pr (y (S (S n)) s)) (fun s => pr (y (S n) s))); apply D; lra.
        - intros s Hs. apply (derivable_pt_lim_scal (fun s => exp (4 * K * s))). apply deriv_exp.
        - intros s Hs. eapply Rle_trans; [apply C|]. specialize (IH s ltac:(lra)). pose proof (Rmult_le_compat_l K _ _ HK IH). lra.
        - rewrite !y_start. ring.
        - rewrite Rmult_0_r, exp_0. assert (0 <= B * c * / 4) by (apply Rmult_le_pos; [now apply Rmult_le_pos|lra]). lra. }
      pose proof (Q fst (fun m s Hs => proj1 (y_deriv m s Hs)) (fun a b => proj1 (g_coords a b))) as Q1.
      pose proof (Q snd (fun m s Hs => proj2 (y_deriv m s Hs)) (fun a b => proj2 (g_coords a b))) as Q2.
      unfold gap. cbn [pow]. fold c. lra.
  Qed.

  Let C : R := B * exp (4 * K * T).
  Lemma C_pos : 0 <= C.
  Proof. apply Rmult_le_pos; [apply B_pos|left; apply exp_pos]. Qed.
  Lemma gap_triangle a b c : gap a c <= gap a b + gap b c.
  Proof.
    unfold gap. pose proof (Rabs_triang (fst a - fst b) (fst b - fst c)) as A1. pose proof (Rabs_triang (snd a - snd b) (snd b - snd c)) as A2.
    replace (fst a - fst b + (fst b - fst c)) with (fst a - fst c) in A1 by ring. replace (snd a - snd b + (snd b - snd c)) with (snd a - snd c) in A2 by ring. lra.
  Qed.
  Lemma near_later n t : 0 <= t <= T -> forall k, gap (y (k + n) t) (y n t) <= C * (2 * (/ 2) ^ n - 2 * (/ 2) ^ (k + n)).
  Proof.
    intros Ht. pose proof C_pos. induction k as [|k IH].
    - cbn [plus]. unfold gap, Rminus. rewrite !Rplus_opp_r, Rabs_R0. lra.
    - cbn [plus]. eapply Rle_trans; [apply (gap_triangle _ (y (k + n) t))|]. pose proof (near_next (k + n) t Ht) as N.
      assert (X : B * exp (4 * K * t) * (/ 2) ^ (k + n) <= C * (/ 2) ^ (k + n)).
      { apply Rmult_le_compat_r; [apply pow_le; lra|]. apply Rmult_le_compat_l; [apply B_pos|]. apply exp_grow. apply Rmult_le_compat_l; lra. }
      cbn [pow]. lra.
  Qed.

  Lemma fst_gap a b : Rabs (fst a - fst b) <= gap a b.
  Proof. unfold gap. pose proof (Rabs_pos (snd a - snd b)). lra. Qed.
  Lemma snd_gap a b : Rabs (snd a - snd b) <= gap a b.
  Proof. unfold gap. pose proof (Rabs_pos (fst a - fst b)). lra. Qed.
  Lemma limit_exists t (pr : pt -> R) : (forall a b, Rabs (pr a - pr b) <= gap a b) -> 0 <= t <= T ->
    {l | forall n, Rabs (pr (y n t) - l) <= 2 * C * (/ 2) ^ n}.
  Proof.
    intros Hp Ht. pose proof C_pos as HC.
    assert (L : forall n m, (n <= m)%nat -> Rabs (pr (y m t) - pr (y n t)) <= 2 * C * (/ 2) ^ n).
    { intros n m Hm. replace m with ((m - n) + n)%nat by lia. eapply Rle_trans; [apply Hp|]. eapply Rle_trans; [apply (near_later n t Ht)|].
      assert (0 <= (/ 2) ^ (m - n + n)) by (apply pow_le; lra). assert (0 <= C * (/ 2) ^ (m - n + n)) by now apply Rmult_le_pos. lra. }
    destruct (R_complete (fun n => pr (y n t))) as (l & Hl).
    { intros e He. destruct (pow_small (4 * C) e ltac:(lra) He) as (N & HN). exists N. intros n m Hn Hm. unfold R_dist.
      pose proof (L N n Hn) as L1. pose proof (L N m Hm) as L2. rewrite Rabs_minus_sym in L2. pose proof (Rabs_triang (pr (y n t) - pr (y N t)) (pr (y N t) - pr (y m t))) as A.
      replace (pr (y n t) - pr (y N t) + (pr (y N t) - pr (y m t))) with (pr (y n t) - pr (y m t)) in A by ring. lra. }
    exists l. intros n. apply Rnot_lt_le. intros X. destruct (Hl (Rabs (pr (y n t) - l) - 2 * C * (/ 2) ^ n)) as (N & HN); [lra|].
    specialize (HN (Nat.max n N) (Nat.le_max_r n N)). unfold R_dist in HN. specialize (L n (Nat.max n N) (Nat.le_max_l n N)). rewrite Rabs_minus_sym in L.
    pose proof (Rabs_triang (pr (y n t) - pr (y (Nat.max n N) t)) (pr (y (Nat.max n N) t) - l)) as A.
    replace (pr (y n t) - pr (y (Nat.max n N) t) + (pr (y (Nat.max n N) t) - l)) with (pr (y n t) - l) in A by ring. lra.
  Qed.
  Definition limit (t : R) : pt :=
    (proj1_sig (limit_exists (clamp T t) fst fst_gap (clamp_in T t HT)), proj1_sig (limit_exists (clamp T t) snd snd_gap (clamp_in T t HT))).
  Lemma limit_near n t : Rabs (fst (y n (clamp T t)) - fst (limit t)) <= 2 * C * (/ 2) ^ n /\ Rabs (snd (y n (clamp T t)) - snd (limit t)) <= 2 * C * (/ 2) ^ n.
  Proof.
    unfold limit. cbn [fst snd]. destruct (limit_exists (clamp T t) fst fst_gap (clamp_in T t HT)) as (l1 & H1). destruct (limit_exists (clamp T t) snd snd_gap (clamp_in T t HT)) as (l2 & H2).
    cbn [proj1_sig]. split; [apply H1|apply H2].
  Qed.
  Lemma clamp_cont h t : cont_on T h -> continuity_pt (fun x => h (clamp T x)) t.
  Proof.
    intros Ch. apply cont_dist. intros e He. destruct (proj1 (cont_dist _ _) (Ch _ (clamp_in T t HT)) e He) as (d & Hd & K1). exists d. split; [exact Hd|].
    intros x Hx. apply K1. eapply Rle_lt_trans; [apply clamp_close, HT|exact Hx].
  Qed.
  Lemma limit_cont : cont_on T (fun t => fst (limit t)) /\ cont_on T (fun t => snd (limit t)).
  Proof.
    pose proof C_pos as HC.
    assert (Q : forall pr : pt -> R, (forall n t, Rabs (pr (y n (clamp T t)) - pr (limit t)) <= 2 * C * (/ 2) ^ n) -> (forall n, cont_on T (fun t => pr (y n t))) -> cont_on T (fun t => pr (limit t))).
    { intros pr N Cn t Ht. apply cont_dist. intros e He. destruct (pow_small (2 * C) (e / 3) ltac:(lra) ltac:(lra)) as (n & Hn).
      destruct (proj1 (cont_dist _ _) (clamp_cont _ t (Cn n)) (e / 3) ltac:(lra)) as (d & Hd & K1). exists d. split; [exact Hd|]. intros x Hx. specialize (K1 x Hx). cbv beta in K1.
      pose proof (N n x) as Nx. pose proof (N n t) as Nt. rewrite Rabs_minus_sym in Nx.
      pose proof (Rabs_triang (pr (limit x) - pr (y n (clamp T x))) (pr (y n (clamp T x)) - pr (y n (clamp T t)) + (pr (y n (clamp T t)) - pr (limit t)))) as A.
      pose proof (Rabs_triang (pr (y n (clamp T x)) - pr (y n (clamp T t))) (pr (y n (clamp T t)) - pr (limit t))) as A'.
      match type of A with Rabs ?s <= _ => replace s with (pr (limit x) - pr (limit t)) in A by ring end. lra. }
    split; [apply (Q fst)|apply (Q snd)]; try (intros n t; apply limit_near); intros n; apply y_cont.
  Qed.

  Lemma picard_path : exists Z : R -> pt, Z 0 = p /\ pathline g Z T.
  Proof.
    set (c := exist (fun c : R -> pt => cont_on T (fun t => fst (c t)) /\ cont_on T (fun t => snd (c t))) limit limit_cont : curve).
    destruct (step c) as (Z & Z0 & D). cbn [proj1_sig c] in D. exists Z. split; [exact Z0|]. pose proof C_pos as HC.
    assert (Near : forall n t, 0 <= t <= T -> gap (y n t) (limit t) <= 4 * C * (/ 2) ^ n).
    { intros n t Ht. destruct (limit_near n t) as [L1 L2]. rewrite clamp_id in L1, L2 by exact Ht. unfold gap. lra. }
    assert (Eq : forall t, 0 <= t <= T -> limit t = Z t).
    { intros t Ht.
      assert (Q : forall (pr : pt -> R), (forall m s, 0 <= s <= T -> derivable_pt_lim (fun s => pr (y (S m) s)) s (pr (g (y m s)))) ->
        (forall s, 0 <= s <= T -> derivable_pt_lim (fun s => pr (Z s)) s (pr (g (limit s)))) ->
        (forall a b, Rabs (pr (g a) - pr (g b)) <= K * gap a b) -> (forall a b, Rabs (pr a - pr b) <= gap a b) -> pr (limit t) = pr (Z t)).
      { intros pr D1 D2 Cg Cp.
        assert (Bn : forall n, Rabs (pr (limit t) - pr (Z t)) <= (4 * C + 4 * C * K * T) * (/ 2) ^ n).
        { intros n. set (x := (/ 2) ^ n). assert (Hx : 0 <= x) by (apply pow_le; lra).
          assert (X1 : Rabs (pr (limit t) - pr (y (S n) t)) <= 4 * C * (/ 2 * x)).
          { rewrite Rabs_minus_sym. eapply Rle_trans; [apply Cp|]. exact (Near (S n) t Ht). }
          assert (X2 : Rabs (pr (y (S n) t) - pr (Z t)) <= 4 * C * K * T * x).
          { pose proof (abs_compare (fun s => pr (y (S n) s) - pr (Z s)) (fun s => pr (g (y n s)) - pr (g (limit s))) (fun s => K * (4 * C * x) * s) (fun _ => K * (4 * C * x)) t) as A. cbv beta in A.
            eapply Rle_trans; [apply A; [lra| | | |]|].
            - intros s Hs. apply (derivable_pt_lim_minus (fun s => pr (y (S n) s)) (fun s => pr (Z s))); [apply D1|apply D2]; lra.
            - intros s Hs. eapply deriv_val; [apply (derivable_pt_lim_scal id (K * (4 * C * x))), derivable_pt_lim_id|ring].
            - intros s Hs. eapply Rle_trans; [apply Cg|]. apply Rmult_le_compat_l; [exact HK|]. apply Near. lra.
            - rewrite y_start, Z0. ring.
            - assert (0 <= K * (4 * C * x)) by (apply Rmult_le_pos; [exact HK|apply Rmult_le_pos; lra]). assert (K * (4 * C * x) * t <= K * (4 * C * x) * T) by (apply Rmult_le_compat_l; lra). lra. }
          pose proof (Rabs_triang (pr (limit t) - pr (y (S n) t)) (pr (y (S n) t) - pr (Z t))) as A.
          replace (pr (limit t) - pr (y (S n) t) + (pr (y (S n) t) - pr (Z t))) with (pr (limit t) - pr (Z t)) in A by ring.
          assert (0 <= C * x) by now apply Rmult_le_pos. lra. }
        apply le_small in Bn; [|assert (0 <= C * K * T) by (apply Rmult_le_pos; [now apply Rmult_le_pos|exact HT]); lra].
        destruct (Req_dec (pr (limit t) - pr (Z t)) 0) as [E|E]; [lra|]. apply Rabs_pos_lt in E. lra. }
      pose proof (Q fst (fun m s Hs => proj1 (y_deriv m s Hs)) (fun s Hs => proj1 (D s Hs)) (fun a b => proj1 (g_coords a b)) fst_gap) as Q1.
      pose proof (Q snd (fun m s Hs => proj2 (y_deriv m s Hs)) (fun s Hs => proj2 (D s Hs)) (fun a b => proj2 (g_coords a b)) snd_gap) as Q2.
      destruct (limit t) as [a b], (Z t) as [a' b']. cbn [fst snd] in Q1, Q2. congruence. }
    intros t Ht. rewrite <- (Eq t Ht). apply D, Ht.
  Qed.
End Picard.

(** ** Comparison of a path with a curve that nearly moves with the velocity *)
Lemma near_path g K Z Y w a b d : a <= b -> 0 <= K -> 0 <= d -> (forall p q, pnorm (psub (g p) (g q)) <= K * pdist p q) ->
  (forall t, a <= t <= b -> derivable_pt_lim (fun s => fst (Z s)) t (fst (g (Z t))) /\ derivable_pt_lim (fun s => snd (Z s)) t (snd (g (Z t)))) ->
  (forall t, a <= t <= b -> derivable_pt_lim (fun s => fst (Y s)) t (fst (w t)) /\ derivable_pt_lim (fun s => snd (Y s)) t (snd (w t))) ->
  (forall t, a <= t <= b -> pnorm (psub (w t) (g (Y t))) <= K * d) ->
  pdist (Z b) (Y b) <= pdist (Z a) (Y a) * exp (K * (b - a)) + d * (exp (K * (b - a)) - 1).
Proof.
  intros Hab HK Hd Hg HZ HY Hw. set (E := exp (K * (b - a))). assert (HE : 0 < E) by apply exp_pos.
  assert (HE1 : 1 <= E) by (unfold E; pose proof (exp_ineq1_le (K * (b - a))); assert (0 <= K * (b - a)) by (apply Rmult_le_pos; lra); lra).
  apply le_epsilon. intros eps Heps. set (e := eps / E). assert (He : 0 < e) by now apply Rdiv_lt_0_compat.
  set (N := fun t => (fst (Y t) - fst (Z t)) * (fst (Y t) - fst (Z t)) + (snd (Y t) - snd (Z t)) * (snd (Y t) - snd (Z t))).
  assert (HN : forall t, 0 <= N t) by (intros t; apply Rplus_le_le_0_compat; apply Rle_0_sqr).
  assert (EN : forall t, pdist (Z t) (Y t) = sqrt (N t)) by reflexivity.
  set (N' := fun t => 2 * ((fst (Y t) - fst (Z t)) * (fst (w t) - fst (g (Z t))) + (snd (Y t) - snd (Z t)) * (snd (w t) - snd (g (Z t))))).
  assert (DN : forall t, a <= t <= b -> derivable_pt_lim N t (N' t)).
  { intros t Ht. destruct (HZ t Ht) as [Z1 Z2]. destruct (HY t Ht) as [Y1 Y2].
    pose proof (derivable_pt_lim_minus _ _ _ _ _ Y1 Z1) as D1. pose proof (derivable_pt_lim_minus _ _ _ _ _ Y2 Z2) as D2.
    pose proof (derivable_pt_lim_plus _ _ _ _ _ (derivable_pt_lim_mult _ _ _ _ _ D1 D1) (derivable_pt_lim_mult _ _ _ _ _ D2 D2)) as D.
    eapply deriv_val; [exact D|]. unfold N', minus_fct. ring. }
  set (G := fun t => sqrt (N t + e * e) + d).
  assert (He2 : 0 < e * e) by now apply Rmult_lt_0_compat.
  assert (HG : forall t, 0 < sqrt (N t + e * e)) by (intros t; apply sqrt_lt_R0; specialize (HN t); lra).
  assert (DG : forall t, a <= t <= b -> derivable_pt_lim G t (N' t / (2 * sqrt (N t + e * e)))).
  { intros t Ht. unfold G. specialize (HG t). eapply deriv_val; [apply (derivable_pt_lim_plus (fun t => sqrt (N t + e * e)) (fct_cte d)); [|apply derivable_pt_lim_const]|apply Rplus_0_r].
    pose proof (derivable_pt_lim_comp (fun t => N t + e * e) sqrt t (N' t) (/ (2 * sqrt (N t + e * e)))) as X. unfold comp in X. eapply deriv_val; [apply X|unfold Rdiv; ring].
    - eapply deriv_val; [apply (derivable_pt_lim_plus N (fct_cte (e * e))); [now apply DN|apply derivable_pt_lim_const]|ring].
    - apply derivable_pt_lim_sqrt. specialize (HN t). lra. }
  pose proof (gronwall G (fun t => N' t / (2 * sqrt (N t + e * e))) K a b Hab DG) as Gr.
  assert (Bd : forall t, a <= t <= b -> N' t / (2 * sqrt (N t + e * e)) <= K * G t).
  { intros t Ht. specialize (HG t). set (s := sqrt (N t + e * e)) in *. set (r := pdist (Z t) (Y t)).
    assert (Hr : 0 <= r) by apply pdist_pos. assert (Hrs : r <= s) by (unfold r, s; rewrite EN; apply sqrt_le_1_alt; lra).
    assert (X : N' t <= 2 * (r * (K * d + K * r))).
    { unfold N'. apply Rmult_le_compat_l; [lra|]. pose proof (inner_le (psub (Y t) (Z t)) (psub (w t) (g (Z t)))) as I. rewrite <- (pdist_norm (Z t) (Y t)) in I. fold r in I. unfold psub in I at 1 2 3 4. cbn [fst snd] in I.
      eapply Rle_trans; [exact I|]. apply Rmult_le_compat_l; [exact Hr|].
      replace (psub (w t) (g (Z t))) with (padd (psub (w t) (g (Y t))) (psub (g (Y t)) (g (Z t)))) by (unfold psub, padd; cbn; f_equal; ring).
      eapply Rle_trans; [apply pnorm_add|]. specialize (Hw t Ht). specialize (Hg (Y t) (Z t)). rewrite (pdist_sym (Y t)) in Hg. fold r in Hg. lra. }
    apply Rmult_le_reg_r with (2 * s); [lra|]. unfold Rdiv. rewrite Rmult_assoc, Rinv_l, Rmult_1_r by lra. eapply Rle_trans; [exact X|]. unfold G. fold s.
    replace (2 * (r * (K * d + K * r))) with (2 * (r * (K * (d + r)))) by ring. replace (K * (s + d) * (2 * s)) with (2 * (s * (K * (d + s)))) by ring.
    apply Rmult_le_compat_l; [lra|]. apply Rmult_le_compat; [exact Hr|apply Rmult_le_pos; lra|exact Hrs|]. apply Rmult_le_compat_l; lra. }
  specialize (Gr Bd). fold E in Gr. unfold G in Gr.
  assert (S1 : sqrt (N b) <= sqrt (N b + e * e)) by (apply sqrt_le_1_alt; lra).
  assert (S2 : sqrt (N a + e * e) <= sqrt (N a) + e).
  { apply le_of_sq; [pose proof (sqrt_pos (N a)); lra|]. rewrite sqrt_sqrt by (specialize (HN a); lra). pose proof (sqrt_sqrt (N a) (HN a)). pose proof (sqrt_pos (N a)). nra. }
  rewrite !EN. assert (S3 : (sqrt (N a + e * e) + d) * E <= (sqrt (N a) + e + d) * E) by (apply Rmult_le_compat_r; lra).
  assert (S4 : e * E = eps) by (unfold e; field; lra). lra.
Qed.
