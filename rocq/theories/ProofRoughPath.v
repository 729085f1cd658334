(** * Traces whose steps have errors *)
From Coq Require Import Reals Lra Lia Psatz List Bool Arith.
From Verif Require Import Py Num NumXR ModelAquifer ModelTrace SpecTrace SpecPathline SpecPathZone SpecWater SpecRough
  ProofAquifer ProofTrace ProofTraceLoop ProofTraceFlow ProofPathline ProofPathAffine ProofPathTube ProofPathZone ProofPicard ProofWaterPath.
Import ListNotations.
Local Open Scope R_scope.

Lemma line_moves q w s x : derivable_pt_lim (fun x => fst (padd q (pscale (x - s) w))) x (fst w) /\ derivable_pt_lim (fun x => snd (padd q (pscale (x - s) w))) x (snd w).
Proof.
  unfold padd, pscale. cbn [fst snd]. split.
  - eapply deriv_val; [apply (derivable_pt_lim_plus (fct_cte (fst q)) (fun x => (x - s) * fst w)); [apply derivable_pt_lim_const|]|apply Rplus_0_l].
    eapply deriv_val; [apply (derivable_pt_lim_mult (fun x => x - s) (fct_cte (fst w))); [apply (derivable_pt_lim_minus id (fct_cte s)); [apply derivable_pt_lim_id|apply derivable_pt_lim_const]|apply derivable_pt_lim_const]|]. unfold fct_cte. ring.
  - eapply deriv_val; [apply (derivable_pt_lim_plus (fct_cte (snd q)) (fun x => (x - s) * snd w)); [apply derivable_pt_lim_const|]|apply Rplus_0_l].
    eapply deriv_val; [apply (derivable_pt_lim_mult (fun x => x - s) (fct_cte (snd w))); [apply (derivable_pt_lim_minus id (fct_cte s)); [apply derivable_pt_lim_id|apply derivable_pt_lim_const]|apply derivable_pt_lim_const]|]. unfold fct_cte. ring.
Qed.

(** The water and the straight line of a step in a direction that is wrong by [eta]; [B] is the distance that earlier steps left. *)
Lemma rough_beside g V L Y s q w h H eta B : 0 <= h -> h <= H -> 0 <= V -> 0 < L -> 0 <= eta -> 50 * L * H <= 1 -> pnorm w <= 3 / 2 * V + eta -> pnorm (psub w (g q)) <= 4 * (L * (h * V)) + eta ->
  (forall a b, pnorm (psub (g a) (g b)) <= L * pdist a b) ->
  (forall t, s <= t <= s + h -> derivable_pt_lim (fun x => fst (Y x)) t (fst (g (Y t))) /\ derivable_pt_lim (fun x => snd (Y x)) t (snd (g (Y t)))) ->
  pdist (Y s) q <= (6 * V * H + 2 * eta / L) * (exp (L * s) - 1) + B * exp (L * s) ->
  forall t, s <= t <= s + h -> pdist (Y t) (padd q (pscale (t - s) w)) <= (6 * V * H + 2 * eta / L) * (exp (L * t) - 1) + B * exp (L * t).
Proof.
  intros Hh HhH HV HL Heta H50 Bw Bg Hg HZ He t Ht. set (d := 6 * V * H + 2 * eta / L) in *.
  assert (HVH : 0 <= V * H) by (apply Rmult_le_pos; lra).
  assert (HeL : 0 <= eta / L) by (apply Rmult_le_pos; [exact Heta|left; now apply Rinv_0_lt_compat]).
  assert (Hd : 0 <= d) by (unfold d; unfold Rdiv in *; lra).
  pose proof (near_path g L Y (fun x => padd q (pscale (x - s) w)) (fun _ => w) s t d ltac:(lra) ltac:(lra)) as N.
  assert (N1 : pdist (Y t) (padd q (pscale (t - s) w)) <= pdist (Y s) (padd q (pscale (s - s) w)) * exp (L * (t - s)) + d * (exp (L * (t - s)) - 1)).
  { apply N.
    - exact Hd.
    - exact Hg.
    - intros x Hx. apply HZ. lra.
    - intros x Hx. apply line_moves.
    - intros x Hx. set (y := padd q (pscale (x - s) w)).
      assert (T : pnorm (psub w (g y)) <= pnorm (psub w (g q)) + pnorm (psub (g q) (g y))).
      { eapply Rle_trans; [|apply pnorm_add]. right. f_equal. unfold psub, padd. cbn. f_equal; ring. }
      pose proof (Hg q y) as C. unfold y in C at 2. rewrite pdist_move, pnorm_scale, Rabs_pos_eq in C by lra.
      assert (X : (x - s) * pnorm w <= H * (3 / 2 * V + eta)) by (apply Rmult_le_compat; try lra; apply pnorm_pos).
      pose proof (Rmult_le_compat_l L _ _ ltac:(lra) X) as X1. assert (X2 : h * V <= V * H) by (rewrite Rmult_comm; apply Rmult_le_compat_l; lra).
      pose proof (Rmult_le_compat_l L _ _ ltac:(lra) X2) as X3.
      assert (Ed : L * d = 6 * (L * (V * H)) + 2 * eta) by (unfold d; field; lra). rewrite Ed.
      assert (X4 : L * H * eta <= 1 / 50 * eta) by (apply Rmult_le_compat_r; lra).
      assert (X5 : 0 <= L * (V * H)) by (apply Rmult_le_pos; lra).
      replace (L * (H * (3 / 2 * V + eta))) with (3 / 2 * (L * (V * H)) + L * H * eta) in X1 by ring. lra. }
  eapply Rle_trans; [exact N1|]. replace (padd q (pscale (s - s) w)) with q by (unfold padd, pscale; destruct q; cbn; f_equal; ring).
  assert (Xp : exp (L * t) = exp (L * s) * exp (L * (t - s))) by (rewrite <- exp_plus; f_equal; ring). rewrite Xp. set (E := exp (L * (t - s))). assert (HE : 0 < E) by apply exp_pos.
  pose proof (Rmult_le_compat_r E _ _ ltac:(lra) He). lra.
Qed.

(** A trace with errors: each step goes in a direction that is wrong by [eta] and ends within [Rr] of where it leads. *)
Definition rough (f : vec xr -> res (vec xr)) (V L H eta Rr : R) (l : list pt) (ts : list R) : Prop :=
  forall i, (S i < length l)%nat -> let h := nth (S i) ts 0 - nth i ts 0 in 0 <= h <= H /\ exists w,
    pdist (nth (S i) l (0, 0)) (padd (nth i l (0, 0)) (pscale h w)) <= Rr /\ pnorm w <= 3 / 2 * V + eta /\ pnorm (psub w (velocity f (nth i l (0, 0)))) <= 4 * (L * (h * V)) + eta.

Lemma rough_follow f l ts V L rho H eta Rr : (0 < length l)%nat -> length ts = length l -> nth 0 ts 0 = 0 ->
  0 < rho -> 0 < L -> 0 <= H -> 0 <= eta -> 0 <= Rr -> gentle f V L rho l -> rough f V L H eta Rr l ts ->
  let T := last ts 0 in
  50 * L * H <= 1 -> astray V L H eta Rr (length l) T + 2 * V * H + eta * H < rho ->
  exists Z, Z 0 = nth 0 l (0, 0) /\ moves f Z T /\ 0 <= V /\ 0 <= T /\
    (forall i, (i < length l)%nat -> 0 <= nth i ts 0 <= T /\ pdist (nth i l (0, 0)) (Z (nth i ts 0)) <= astray V L H eta Rr i (nth i ts 0)) /\
    beside (astray V L H eta Rr (length l) T) l Z T /\
    (forall t, 0 <= t <= T -> exists q, In q l /\ pdist q (Z t) < rho).
Proof.
  intros Pl El Start Hrho HL HH Heta HR Hq Dir T H50 HB.
  assert (ET : T = nth (length l - 1) ts 0) by (unfold T; rewrite last_as_nth; congruence).
  assert (Mono : forall j i, (i + j < length l)%nat -> nth i ts 0 <= nth (i + j) ts 0).
  { induction j as [|j IH]; intros i Hi; [rewrite Nat.add_0_r; lra|]. specialize (IH i ltac:(lia)). destruct (Dir (i + j)%nat ltac:(lia)) as [K _].
    replace (i + S j)%nat with (S (i + j)) by lia. lra. }
  assert (Pt : forall i, (i < length l)%nat -> 0 <= nth i ts 0) by (intros i Hi; specialize (Mono i 0%nat ltac:(lia)); rewrite Start in Mono; exact Mono).
  assert (Upto : forall i, (i < length l)%nat -> nth i ts 0 <= T).
  { intros i Hi. rewrite ET. specialize (Mono (length l - 1 - i)%nat i ltac:(lia)). replace (i + (length l - 1 - i))%nat with (length l - 1)%nat in Mono by lia. exact Mono. }
  assert (HT0 : 0 <= T) by (rewrite ET; apply Pt; lia).
  set (q0 := nth 0 l (0, 0)).
  assert (Tame : forall i, (i < length l)%nat -> tame f (fun _ => nth i l (0, 0)) 0 V L rho) by (intros i Hi; apply (gentle_tame f V L rho l); [exact Hq|now apply nth_In]).
  assert (HV : 0 <= V) by (apply (speed_pos f (fun _ => q0) 0 V L rho (Tame 0%nat Pl) ltac:(lra) 0); lra).
  assert (HVH : 0 <= V * H) by now apply Rmult_le_pos. assert (HeH : 0 <= eta * H) by now apply Rmult_le_pos.
  assert (HeL : 0 <= 2 * eta / L) by (apply Rmult_le_pos; [lra|left; now apply Rinv_0_lt_compat]).
  set (e := astray V L H eta Rr).
  assert (ExpT : forall t, 0 <= t <= T -> 1 <= exp (L * t) /\ exp (L * t) <= exp (L * T)).
  { intros t Ht. split; [|apply exp_grow, Rmult_le_compat_l; lra]. pose proof (exp_ineq1_le (L * t)). assert (0 <= L * t) by (apply Rmult_le_pos; lra). lra. }
  assert (eT : forall i j t, (i <= j)%nat -> 0 <= t <= T -> 0 <= e i t <= e j T).
  { intros i j t Hij Ht. destruct (ExpT t Ht) as [X1 X2]. unfold e, astray. pose proof (le_INR _ _ Hij) as Y1. pose proof (pos_INR i) as Y2.
    assert (Y3 : 0 <= INR i * Rr) by now apply Rmult_le_pos. assert (Y4 : INR i * Rr <= INR j * Rr) by now apply Rmult_le_compat_r.
    split; [apply Rplus_le_le_0_compat; apply Rmult_le_pos; lra|]. apply Rplus_le_compat; [apply Rmult_le_compat_l; lra|apply Rmult_le_compat; lra]. }
  assert (eS : forall i t, 0 <= t <= T -> e i t + Rr <= e (S i) t).
  { intros i t Ht. destruct (ExpT t Ht) as [X1 _]. unfold e, astray. rewrite S_INR. pose proof (Rmult_le_compat_l Rr _ _ HR X1). lra. }
  (* a place on the straight line of a step is in the disk *)
  assert (Disk : forall i w x t, (i < length l)%nat -> nth i ts 0 <= t -> t - nth i ts 0 <= H -> 0 <= t <= T -> pnorm w <= 3 / 2 * V + eta -> pdist x (padd (nth i l (0, 0)) (pscale (t - nth i ts 0) w)) <= e i t -> pdist (nth i l (0, 0)) x < rho).
  { intros i w x t Hi H1 H2 Ht Bw Hx. set (y := padd _ _) in *.
    assert (Y : pdist (nth i l (0, 0)) y <= H * (3 / 2 * V + eta)).
    { unfold y. rewrite pdist_move, pnorm_scale, Rabs_pos_eq by lra. apply Rmult_le_compat; try lra. apply pnorm_pos. }
    pose proof (pdist_triangle (nth i l (0, 0)) y x) as T1. rewrite (pdist_sym y) in T1. destruct (eT i (length l) t ltac:(lia) Ht) as [_ X2]. fold e in HB. lra. }
  assert (Build : forall i, (i < length l)%nat -> exists Z, Z 0 = q0 /\ moves f Z (nth i ts 0) /\
     (forall k, (k <= i)%nat -> pdist (Z (nth k ts 0)) (nth k l (0, 0)) <= e k (nth k ts 0)) /\
     (forall k, (S k <= i)%nat -> let h := nth (S k) ts 0 - nth k ts 0 in exists w, pdist (nth (S k) l (0, 0)) (padd (nth k l (0, 0)) (pscale h w)) <= Rr /\ pnorm w <= 3 / 2 * V + eta /\
        forall t, nth k ts 0 <= t <= nth (S k) ts 0 -> pdist (Z t) (padd (nth k l (0, 0)) (pscale (t - nth k ts 0) w)) <= e k t)).
  { induction i as [|i IH]; intros Hi.
    - destruct (tm_value _ _ _ _ _ _ (Tame 0%nat Pl) 0 q0 ltac:(lra)) as (u & Eu & _); [fold q0; rewrite pdist_self; lra|].
      exists (fun t => padd q0 (pscale t u)). assert (Z0 : padd q0 (pscale 0 u) = q0) by (unfold padd, pscale; destruct q0; cbn; f_equal; ring).
      split; [exact Z0|]. split; [|split].
      + rewrite Start. intros t Ht. replace t with 0 by lra. exists u. rewrite Z0. split; [exact Eu|]. unfold padd, pscale. cbn [fst snd].
        split; [pose proof (deriv_poly 0 (fst u) (fst q0) 0 0) as D1|pose proof (deriv_poly 0 (snd u) (snd q0) 0 0) as D1]; (eapply deriv_val; [eapply deriv_fun; [|exact D1]|ring]); intros t'; cbv beta; ring.
      + intros k Hk. assert (k = 0)%nat by lia. subst k. rewrite Start, Z0. fold q0. rewrite pdist_self. apply (eT 0%nat 0%nat 0); [lia|lra].
      + intros k Hk. lia.
    - destruct (IH ltac:(lia)) as (Z & Z0 & ZM & ZV & ZL). destruct (Dir i Hi) as (Hh & w & W1 & W3 & W4). cbv zeta in Hh, W1, W3, W4.
      set (s := nth i ts 0) in *. set (h := nth (S i) ts 0 - s) in *. set (q := nth i l (0, 0)) in *.
      pose proof (Pt i ltac:(lia)) as Hs. fold s in Hs. pose proof (Upto (S i) Hi) as Us.
      set (g := fun x => velocity f (into q rho x)). pose proof (fun a b => disk_change f V L rho q a b (Tame i ltac:(lia)) Hrho (Rlt_le _ _ HL)) as Hg.
      destruct (picard_path g L h (Z s) ltac:(lra) (Rlt_le _ _ HL) Hg) as (X & X0 & HX).
      set (Y := fun t => X (t - s)). assert (Ys : Y s = Z s) by (unfold Y; replace (s - s) with 0 by ring; exact X0).
      assert (HY : forall t, s <= t <= s + h -> derivable_pt_lim (fun x => fst (Y x)) t (fst (g (Y t))) /\ derivable_pt_lim (fun x => snd (Y x)) t (snd (g (Y t)))).
      { intros t Ht. destruct (HX (t - s) ltac:(lra)) as [D1 D2]. unfold Y. split; [exact (deriv_shift (fun x => fst (X x)) s t _ D1)|exact (deriv_shift (fun x => snd (X x)) s t _ D2)]. }
      assert (Gq : g q = velocity f q) by (unfold g; rewrite into_id; [reflexivity|rewrite pdist_self; lra]).
      assert (Line : forall t, s <= t <= s + h -> pdist (Y t) (padd q (pscale (t - s) w)) <= e i t).
      { intros t Ht. apply (rough_beside g V L Y s q w h H eta); try lra; try assumption.
        - rewrite Gq. exact W4.
        - rewrite Ys. exact (ZV i (le_n i)). }
      assert (InD : forall t, s <= t <= s + h -> pdist q (Y t) <= rho).
      { intros t Ht. left. apply (Disk i w (Y t) t ltac:(lia)); fold s; fold q; try lra; [unfold h in Ht; lra|now apply Line]. }
      assert (JZ : forall t, t <= s -> joined Z Y s t = Z t) by (intros t Ht; unfold joined; destruct (Rle_dec t s); [reflexivity|lra]).
      assert (JY : forall t, s <= t -> joined Z Y s t = Y t) by (intros t Ht; unfold joined; destruct (Rle_dec t s); [replace t with s by lra; now symmetry|reflexivity]).
      exists (joined Z Y s). split; [rewrite JZ by lra; exact Z0|]. split; [|split].
      + apply moves_joined; [lra|exact ZM|now symmetry|]. intros t Ht. specialize (InD t ltac:(unfold h; lra)).
        destruct (tm_value _ _ _ _ _ _ (Tame i ltac:(lia)) 0 (Y t) ltac:(lra) InD) as (u & Eu & _). exists u. split; [exact Eu|].
        pose proof (HY t ltac:(unfold h; lra)) as Dv. unfold g in Dv. rewrite into_id, (velocity_eq _ _ _ Eu) in Dv by exact InD. exact Dv.
      + intros k Hk. destruct (Nat.eq_dec k (S i)) as [->|N].
        * rewrite JY by (unfold h in Hh; lra). specialize (Line (nth (S i) ts 0) ltac:(unfold h in *; lra)). fold h in Line.
          pose proof (pdist_triangle (Y (nth (S i) ts 0)) (padd q (pscale h w)) (nth (S i) l (0, 0))) as Tr. rewrite (pdist_sym (padd q _)) in Tr. specialize (eS i (nth (S i) ts 0) ltac:(unfold h in *; lra)). lra.
        * assert (Hk' : (k <= i)%nat) by lia. rewrite JZ; [now apply ZV|]. specialize (Mono (i - k)%nat k ltac:(lia)). replace (k + (i - k))%nat with i in Mono by lia. exact Mono.
      + intros k Hk. cbv zeta. destruct (Nat.eq_dec (S k) (S i)) as [E|N].
        * injection E as ->. fold s. fold h. fold q. exists w. split; [exact W1|]. split; [exact W3|]. intros t Ht. rewrite JY by lra. apply Line. unfold h. lra.
        * destruct (ZL k ltac:(lia)) as (w' & A1 & A2 & A3). exists w'. split; [exact A1|]. split; [exact A2|]. intros t Ht. rewrite JZ; [now apply A3|].
          specialize (Mono (i - S k)%nat (S k) ltac:(lia)). replace (S k + (i - S k))%nat with i in Mono by lia. fold s in Mono. lra. }
  destruct (Build (length l - 1)%nat ltac:(lia)) as (Z & Z0 & ZM & ZV & ZL). rewrite <- ET in ZM.
  (* the straight lines and the segments *)
  assert (Seg : forall a b c th, 0 <= th <= 1 -> pdist (padd a (pscale th (psub b a))) (padd a (pscale th (psub c a))) <= pdist b c).
  { intros a b c th Hth. rewrite pdist_norm, (pdist_norm b c). replace (psub (padd a (pscale th (psub c a))) (padd a (pscale th (psub b a)))) with (pscale th (psub c b)) by (unfold psub, padd, pscale; cbn; f_equal; ring).
    rewrite pnorm_scale, Rabs_pos_eq by lra. pose proof (pnorm_pos (psub c b)). nra. }
  (* every time is in a step *)
  assert (At : forall t, 0 <= t <= T -> exists i w x, (i < length l)%nat /\ nth i ts 0 <= t /\ t - nth i ts 0 <= H /\ pnorm w <= 3 / 2 * V + eta /\
      pdist (Z t) (padd (nth i l (0, 0)) (pscale (t - nth i ts 0) w)) <= e i t /\ on_track l x /\ pdist (Z t) x <= e (length l) T).
  { intros t Ht. destruct (interval_of ts t) with (n := (length l - 1)%nat) as [E0|(i & Hi & Hb)].
    - rewrite Start. lra.
    - rewrite <- ET. lra.
    - exists 0%nat, (0, 0), q0. replace (padd (nth 0 l (0, 0)) (pscale (t - nth 0 ts 0) (0, 0))) with q0 by (unfold q0, padd, pscale; destruct (nth 0 l (0, 0)); cbn; f_equal; ring).
      split; [exact Pl|]. split; [lra|]. split; [lra|]. split; [rewrite pnorm_0; lra|].
      specialize (ZV 0%nat ltac:(lia)). rewrite <- E0 in ZV. split; [exact ZV|]. split; [left; apply nth_In; exact Pl|]. eapply Rle_trans; [exact ZV|]. apply eT; [lia|lra].
    - assert (Hi' : (S i < length l)%nat) by lia. destruct (Dir i Hi') as (Hh & _). destruct (ZL i ltac:(lia)) as (w & W1 & W3 & W4). cbv zeta in Hh, W1.
      set (h := nth (S i) ts 0 - nth i ts 0) in *. set (th := if Req_EM_T h 0 then 0 else (t - nth i ts 0) / h).
      assert (Hth : 0 <= th <= 1 /\ th * h = t - nth i ts 0).
      { unfold th. destruct (Req_EM_T h 0) as [E|N]; [rewrite Rmult_0_l; unfold h in E; lra|]. split; [|field; exact N]. assert (Hp : 0 < h) by (unfold h in *; lra). split; [apply Rmult_le_pos; [lra|left; now apply Rinv_0_lt_compat]|].
        apply Rmult_le_reg_r with h; [exact Hp|]. unfold Rdiv. rewrite Rmult_assoc, Rinv_l by exact N. unfold h. lra. }
      set (x := padd (nth i l (0, 0)) (pscale th (psub (nth (S i) l (0, 0)) (nth i l (0, 0))))).
      exists i, w, x. split; [lia|]. split; [lra|]. split; [unfold h in Hh; lra|]. split; [exact W3|]. pose proof (W4 t Hb) as W5. split; [exact W5|]. split.
      + right. exists (nth i l (0, 0)), (nth (S i) l (0, 0)). split; [exists i; split; apply nth_error_nth'; lia|]. exists th. split; [apply Hth|]. unfold x, padd, pscale, psub. cbn [fst snd]. f_equal; ring.
      + pose proof (Seg (nth i l (0, 0)) (nth (S i) l (0, 0)) (padd (nth i l (0, 0)) (pscale h w)) th (proj1 Hth)) as X. fold x in X.
        replace (padd (nth i l (0, 0)) (pscale th (psub (padd (nth i l (0, 0)) (pscale h w)) (nth i l (0, 0))))) with (padd (nth i l (0, 0)) (pscale (t - nth i ts 0) w)) in X
          by (destruct Hth as [_ <-]; unfold psub, padd, pscale; cbn [fst snd]; f_equal; ring).
        pose proof (pdist_triangle (Z t) (padd (nth i l (0, 0)) (pscale (t - nth i ts 0) w)) x) as Tr. rewrite (pdist_sym (padd _ _) x) in Tr. specialize (eS i t Ht). destruct (eT (S i) (length l) t ltac:(lia) Ht). lra. }
  exists Z. split; [exact Z0|]. split; [exact ZM|]. split; [exact HV|]. split; [exact HT0|]. split; [|split].
  - intros i Hi. split; [split; [now apply Pt|now apply Upto]|]. rewrite pdist_sym. apply ZV. lia.
  - fold (e (length l) T). split.
    + intros x [Hx|(a & b & (k & N1 & N2) & (th & Hth & Eq))].
      * destruct (In_nth _ _ (0, 0) Hx) as (i & Hi & Ei). change (i < length (A := pt) l)%nat in Hi. assert (Hti : 0 <= nth i ts 0 <= T) by (split; [now apply Pt|now apply Upto]). exists (nth i ts 0). split; [exact Hti|]. rewrite <- Ei, pdist_sym. eapply Rle_trans; [exact (ZV i ltac:(lia))|]. apply eT; [lia|exact Hti].
      * assert (Hk : (S k < length l)%nat) by (apply nth_error_Some; rewrite N2; discriminate).
        assert (X1 : nth k l (0, 0) = a) by exact (nth_error_nth _ _ _ N1). assert (X2 : nth (S k) l (0, 0) = b) by exact (nth_error_nth _ _ _ N2).
        destruct (Dir k Hk) as (Hh & _). destruct (ZL k ltac:(lia)) as (w & W1 & W3 & W4). pose proof (Pt k ltac:(lia)) as Pk. pose proof (Upto (S k) Hk) as Uk. cbv zeta in Hh, W1, W3, W4.
        set (s := nth k ts 0) in *. set (h := nth (S k) ts 0 - s) in *. assert (Hth' : 0 <= th * h <= h) by nra.
        exists (s + th * h). assert (Ht : 0 <= s + th * h <= T) by (unfold h in *; lra). split; [exact Ht|].
        specialize (W4 (s + th * h) ltac:(unfold h in *; lra)). pose proof (Seg (nth k l (0, 0)) (nth (S k) l (0, 0)) (padd (nth k l (0, 0)) (pscale h w)) th Hth) as X.
        assert (Ex : x = padd (nth k l (0, 0)) (pscale th (psub (nth (S k) l (0, 0)) (nth k l (0, 0))))) by (rewrite Eq, X1, X2; unfold padd, pscale, psub; cbn [fst snd]; f_equal; ring). rewrite <- Ex in X.
        replace (padd (nth k l (0, 0)) (pscale th (psub (padd (nth k l (0, 0)) (pscale h w)) (nth k l (0, 0))))) with (padd (nth k l (0, 0)) (pscale (s + th * h - s) w)) in X
          by (unfold psub, padd, pscale; cbn [fst snd]; f_equal; ring).
        pose proof (pdist_triangle x (padd (nth k l (0, 0)) (pscale (s + th * h - s) w)) (Z (s + th * h))) as Tr. rewrite (pdist_sym (padd _ _) (Z _)) in Tr. specialize (eS k _ Ht). destruct (eT (S k) (length l) _ ltac:(lia) Ht). lra.
    + intros t Ht. destruct (At t Ht) as (i & w & x & Hi & H1 & H2 & W3 & X & Ot & Dx). exists x. split; [exact Ot|]. rewrite pdist_sym. exact Dx.
  - intros t Ht. destruct (At t Ht) as (i & w & x & Hi & H1 & H2 & W3 & X & Ot & _). exists (nth i l (0, 0)). split; [now apply nth_In|]. exact (Disk i w (Z t) t Hi H1 H2 Ht W3 X).
Qed.
