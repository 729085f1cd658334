(** * Points of the impact plot; concrete fields for the plot theorems *)
From Coq Require Import Reals Lra Lia Psatz Permutation Sorted List.
From Verif Require Import Py Num NumXR Grid ModelField ModelObs ModelPlot SpecField SpecObs SpecPlot ProofField ProofInsert ProofOps ProofFieldProps ProofFieldHist ProofFieldEx ProofStats ProofPlot ProofDecile.
Import ListNotations.
Local Open Scope R_scope.

Definition track_at (h : R) : list point := [(-1/2, h); (1/2, h)].
Definition draw (h u : R) : op xr := ORasterize (xs (track_at h)) (ys (track_at h)) (Fin u).
(** A path along y = 0, and that path followed by one along y = 1/2. *)
Definition one_path : list (op xr) := [draw 0 (3/5); ORegister (Fin 1)].
Definition two_paths : list (op xr) := [draw 0 (6/5); ORegister (Fin 1); draw (1/2) (6/5); ORegister (Fin 1)].

Lemma draw_in s h u : wf s -> initialised s -> extent s (-1) 1 (-1) 1 -> -1 < h < 1 -> 0 <= u ->
  exists s', run_op 1 s (draw h u) = (s', Ok tt) /\ wf s' /\ initialised s' /\
    (forall x y w m', has_node s' x y w m' <->
       exists m, has_node s x y w m /\ (m' = true <-> m = true \/ near u (-1/2, h) (1/2, h) (x, y))) /\
    (forall x0 x1 y0 y1, extent s x0 x1 y0 y1 -> extent s' x0 x1 y0 y1) /\
    (forall W, total s W -> total s' W).
Proof.
  intros Hw Hi Hx Hh Hu. destruct (c10_insert_exact s (-1/2, h) (1/2, h) u Hw Hi Hu) as (s' & E & Hw' & Hi' & Hn & Hx' & Ht & _).
  exists s'. split; [|split; [exact Hw'|split; [exact Hi'|split; [|split; assumption]]]].
  - unfold draw, run_op, rasterize, track_at, xs, ys. cbn [map fst snd pymin_list pymax_list].
    unfold pymin_list, pymax_list, pymin, pymax. cbn [fold_left]. cbn [nlt XR xlt].
    destruct (Rltb_spec (1/2) (-1/2)); [lra|]. destruct (Rltb_spec (-1/2) (1/2)); [|lra].
    destruct (Rltb_spec h h); [lra|]. rewrite (c05_expand_noop 1 s _ _ _ _ _ _ _ _ (le_n 1) Hw Hx) by lra.
    cbn in E |- *. rewrite E. reflexivity.
  - assert (D : (-1/2, h) <> (1/2, h)) by (intros Q; injection Q; lra).
    intros x y w m'. rewrite Hn. split; intros (m & A & B); exists m; (split; [exact A|]); tauto.
Qed.

Lemma near_track_at u h x y : near u (-1/2, h) (1/2, h) (x, y) <->
  exists z, -1/2 <= z <= 1/2 /\ (z - x) * (z - x) + (h - y) * (h - y) < u * u.
Proof.
  split.
  - intros (p & (t & Ht & ->) & Hd). unfold dist2 in Hd. cbn in Hd. exists ((1 - t) * (-1/2) + t * (1/2)). split; [lra|].
    replace (h - y) with ((1 - t) * h + t * h - y) by ring. exact Hd.
  - intros (z & Hz & Hd). exists (z, h). split; [|exact Hd]. exists (z + 1/2). split; [lra|]. cbn. f_equal; lra.
Qed.

(** The 3x3 grid around the origin, with the given weights. *)
Definition three : list R := [-1; 0; 1].
Definition listed (f : R -> R -> R) : list (point * R) :=
  concat (map (fun y => map (fun x => ((x, y), f x y)) three) three).

Lemma in_listed f x y w : In ((x, y), w) (listed f) <-> (x = -1 \/ x = 0 \/ x = 1) /\ (y = -1 \/ y = 0 \/ y = 1) /\ w = f x y.
Proof.
  unfold listed. rewrite in_concat. split.
  - intros (r & H1 & H2). apply in_map_iff in H1. destruct H1 as (y' & <- & Hy). apply in_map_iff in H2. destruct H2 as (x' & E & Hx).
    injection E as <- <- <-. cbn in Hx, Hy. repeat split; intuition congruence.
  - intros (Hx & Hy & ->). exists (map (fun x => ((x, y), f x y)) three). split; apply in_map_iff; [exists y|exists x]; (split; [reflexivity|]); cbn; intuition.
Qed.

Lemma listed_nodup f : NoDup (map fst (listed f)).
Proof.
  cbn. repeat constructor; cbn; intros H; repeat (destruct H as [H|H]; [injection H; lra|]); exact H.
Qed.

Lemma listed_enumerates s f : (forall x y w m, has_node s x y w m <->
    w = f x y /\ m = false /\ (x = -1 \/ x = 0 \/ x = 1) /\ (y = -1 \/ y = 0 \/ y = 1)) -> enumerates s (listed f).
Proof.
  intros H. split; [apply listed_nodup|]. intros x y w. rewrite in_listed. split.
  - intros (A & B & C). exists false. apply H. tauto.
  - intros (m & Hm). apply H in Hm. tauto.
Qed.

(** One path drawn on the grid and registered with weight 1. *)
Lemma path_step s h u f g : wf s -> initialised s -> extent s (-1) 1 (-1) 1 -> -1 < h < 1 -> 0 <= u ->
  (forall x y w m, has_node s x y w m <-> w = f x y /\ m = false /\ (x = -1 \/ x = 0 \/ x = 1) /\ (y = -1 \/ y = 0 \/ y = 1)) ->
  (forall x y, (x = -1 \/ x = 0 \/ x = 1) -> (y = -1 \/ y = 0 \/ y = 1) ->
     (near u (-1/2, h) (1/2, h) (x, y) /\ g x y = f x y + 1) \/ (~ near u (-1/2, h) (1/2, h) (x, y) /\ g x y = f x y)) ->
  exists s1 s', run_op 1 s (draw h u) = (s1, Ok tt) /\ run_op 1 s1 (ORegister (Fin 1)) = (s', Ok tt) /\
    wf s' /\ initialised s' /\ extent s' (-1) 1 (-1) 1 /\ (forall W, total s W -> total s' (W + 1)) /\
    (forall x y w m, has_node s' x y w m <-> w = g x y /\ m = false /\ (x = -1 \/ x = 0 \/ x = 1) /\ (y = -1 \/ y = 0 \/ y = 1)).
Proof.
  intros Hw Hi Hx Hh Hu Hn Hg. destruct (draw_in s h u Hw Hi Hx Hh Hu) as (s1 & E1 & Hw1 & Hi1 & Hn1 & Hx1 & Ht1).
  destruct (c14_register_exact s1 1 Hw1 Hi1) as (s' & E2 & Hw2 & Hn2 & Ht2 & Hx2 & _). exists s1, s'.
  split; [exact E1|]. split; [exact E2|]. split; [exact Hw2|].
  split; [destruct (Hx2 _ _ _ _ (Hx1 _ _ _ _ Hx)) as (g' & Eg & _); unfold initialised; congruence|]. split; [auto|]. split; [auto|].
  intros x y w m. rewrite Hn2. split.
  - intros (-> & v0 & m0 & H & ->). apply Hn1 in H. destruct H as (m1 & H & Hm). apply Hn in H. destruct H as (-> & -> & Px & Py_).
    split; [|tauto]. destruct (Hg x y Px Py_) as [[Q ->]|[Q ->]]; destruct m0; auto; exfalso.
    + assert (false = true) by tauto. discriminate.
    + destruct (proj1 Hm eq_refl) as [X|X]; [discriminate|contradiction].
  - intros (-> & -> & Px & Py_). split; [reflexivity|].
    destruct (Hg x y Px Py_) as [[Q ->]|[Q ->]]; [exists (f x y), true|exists (f x y), false]; (split; [|reflexivity]);
      apply Hn1; exists false; (split; [apply Hn; auto|]); split; intros X; try discriminate; auto; destruct X as [X|X]; try discriminate; contradiction.
Qed.

Definition weight_one (x y : R) : R := if Req_EM_T y 0 then 1 else 0.
Definition weight_two (x y : R) : R := if Req_EM_T y (-1) then 1 else 2.

Lemma one_path_field : exists s0 s, pf_init (Fin 1) (Fin 1) (Fin 0) (Fin 0) = Ok s0 /\ run 1 s0 one_path s /\
  wf s /\ total s 1 /\ deltax s = Fin 1 /\ deltay s = Fin 1 /\ enumerates s (listed weight_one).
Proof.
  destruct field0 as (s0 & E0 & Hw & Hi & Hx & Ht & D1 & D2 & Hn).
  destruct (path_step s0 0 (3/5) (fun _ _ => 0) weight_one Hw Hi Hx ltac:(lra) ltac:(lra)) as (s1 & s & E1 & E2 & Hw2 & Hi2 & Hx2 & Ht2 & Hn2).
  - intros x y w m. rewrite Hn. tauto.
  - intros x y Px Py_. rewrite near_track_at. unfold weight_one. destruct (Req_EM_T y 0) as [->|Hy].
    + left. split; [|lra]. exists (x / 2). split; [lra|]. assert (x * x <= 1) by (destruct Px as [->|[->| ->]]; lra). nra.
    + right. split; [|lra]. intros (z & Hz & Hd). assert (Y : y * y = 1) by (destruct Py_ as [->|[->| ->]]; lra). nra.
  - exists s0, s. split; [exact E0|].
    assert (Hr : run 1 s0 one_path s) by (econstructor; [exact E1|]; econstructor; [exact E2|]; constructor).
    split; [exact Hr|]. split; [exact Hw2|]. split; [replace 1 with (0 + 1) by ring; auto|].
    pose proof (run_ops_spacing 1 one_path s0) as [P Q]. rewrite (run_run_ops _ _ _ _ Hr) in P, Q.
    split; [congruence|]. split; [congruence|]. apply listed_enumerates, Hn2.
Qed.

Lemma two_paths_field : exists s0 s, pf_init (Fin 1) (Fin 1) (Fin 0) (Fin 0) = Ok s0 /\ run 1 s0 two_paths s /\
  wf s /\ total s 2 /\ deltax s = Fin 1 /\ deltay s = Fin 1 /\ enumerates s (listed weight_two).
Proof.
  destruct field0 as (s0 & E0 & Hw & Hi & Hx & Ht & D1 & D2 & Hn).
  destruct (path_step s0 0 (6/5) (fun _ _ => 0) (fun _ _ => 1) Hw Hi Hx ltac:(lra) ltac:(lra)) as (s1 & s2 & E1 & E2 & Hw2 & Hi2 & Hx2 & Ht2 & Hn2).
  - intros x y w m. rewrite Hn. tauto.
  - intros x y Px Py_. rewrite near_track_at. left. split; [|lra]. exists (x / 2). split; [lra|].
    assert (x * x <= 1) by (destruct Px as [->|[->| ->]]; lra). assert (y * y <= 1) by (destruct Py_ as [->|[->| ->]]; lra). nra.
  - destruct (path_step s2 (1/2) (6/5) (fun _ _ => 1) weight_two Hw2 Hi2 Hx2 ltac:(lra) ltac:(lra) Hn2) as (s3 & s & E3 & E4 & Hw4 & Hi4 & Hx4 & Ht4 & Hn4).
    { intros x y Px Py_. rewrite near_track_at. unfold weight_two. destruct (Req_EM_T y (-1)) as [->|Hy].
      - right. split; [|lra]. intros (z & Hz & Hd). nra.
      - left. split; [|lra]. exists (x / 2). split; [lra|].
        assert (x * x <= 1) by (destruct Px as [->|[->| ->]]; lra). assert (y = 0 \/ y = 1) as [->| ->] by tauto; nra. }
    exists s0, s. split; [exact E0|].
    assert (Hr : run 1 s0 two_paths s) by (econstructor; [exact E1|]; econstructor; [exact E2|]; econstructor; [exact E3|]; econstructor; [exact E4|]; constructor).
    split; [exact Hr|]. split; [exact Hw4|]. split; [replace 2 with (0 + 1 + 1) by ring; auto|].
    pose proof (run_ops_spacing 1 two_paths s0) as [P Q]. rewrite (run_run_ops _ _ _ _ Hr) in P, Q.
    split; [congruence|]. split; [congruence|]. apply listed_enumerates, Hn4.
Qed.

Lemma sorted_unique l l' : StronglySorted Rge l -> StronglySorted Rge l' -> Permutation l l' -> l = l'.
Proof.
  intros H. revert l'. induction H as [|x l Hs IH Hf]; intros l' H' P; [symmetry; apply Permutation_nil, P|].
  destruct H' as [|y l' Hs' Hf']; [symmetry in P; apply Permutation_nil in P; exact P|].
  assert (x = y).
  { assert (I : In x (y :: l')) by (eapply Permutation_in; [exact P|left; reflexivity]).
    assert (J : In y (x :: l)) by (eapply Permutation_in; [symmetry; exact P|left; reflexivity]).
    rewrite Forall_forall in Hf, Hf'. destruct I as [I|I]; [congruence|]. destruct J as [J|J]; [congruence|]. specialize (Hf _ J). specialize (Hf' _ I). lra. }
  subst y. f_equal. apply IH; [exact Hs'|]. eapply Permutation_cons_inv, P.
Qed.

Lemma listed_one : listed weight_one =
  [((-1, -1), 0); ((0, -1), 0); ((1, -1), 0); ((-1, 0), 1); ((0, 0), 1); ((1, 0), 1); ((-1, 1), 0); ((0, 1), 0); ((1, 1), 0)].
Proof. cbn. unfold weight_one. repeat destruct (Req_EM_T _ _); try lra. reflexivity. Qed.
Lemma listed_two : listed weight_two =
  [((-1, -1), 1); ((0, -1), 1); ((1, -1), 1); ((-1, 0), 2); ((0, 0), 2); ((1, 0), 2); ((-1, 1), 2); ((0, 1), 2); ((1, 1), 2)].
Proof. cbn. unfold weight_two. repeat destruct (Req_EM_T _ _); try lra. reflexivity. Qed.

Lemma sorted_descending l : (forall i x y, nth_error l i = Some x -> nth_error l (S i) = Some y -> y <= x) -> StronglySorted Rge l.
Proof.
  intros H. apply Sorted_StronglySorted; [intros x y z; apply Rge_trans|]. induction l as [|x l IH]; constructor.
  - apply IH. intros i a b A B. exact (H (S i) a b A B).
  - destruct l as [|y l]; constructor. apply Rle_ge, (H O x y eq_refl eq_refl).
Qed.

Lemma two_curve s sp : wf s -> total s 2 -> enumerates s (listed weight_two) ->
  create_impact_plot (Fin sp) s =
  Ok (map Fin [1; 1; 1; 1; 1; 1; 1/2; 1/2; 1/2], map (fun k => Fin (k * (sp * sp))) [1; 2; 3; 4; 5; 6; 7; 8; 9]).
Proof.
  intros Hw Ht He. destruct (c68_curve s sp 2 _ Hw Ht He) as [_ H]. destruct (H ltac:(lra)) as (pr & E & Hp & Hs). clear H.
  rewrite listed_two in Hp. cbn [map snd] in Hp.
  assert (Q : pr = [1; 1; 1; 1; 1; 1; 1/2; 1/2; 1/2]).
  { apply sorted_unique; [exact Hs| |].
    - apply sorted_descending. intros i x y A B. do 9 (destruct i as [|i]; [cbn in A, B; injection A as <-; try discriminate B; injection B as <-; lra|]). destruct i; discriminate A.
    - etransitivity; [exact Hp|]. replace (2 / 2) with 1 by lra. change (Permutation ([1/2; 1/2; 1/2] ++ [1; 1; 1; 1; 1; 1]) ([1; 1; 1; 1; 1; 1] ++ [1/2; 1/2; 1/2])). apply Permutation_app_comm. }
  rewrite E, Q. apply f_equal, f_equal. cbn [length seq map Nat.add]. rewrite !INR_IZR_INZ. reflexivity.
Qed.

Lemma one_curve s sp : wf s -> total s 1 -> enumerates s (listed weight_one) ->
  create_impact_plot (Fin sp) s =
  Ok (map Fin [1; 1; 1; 0; 0; 0; 0; 0; 0], map (fun k => Fin (k * (sp * sp))) [1; 2; 3; 4; 5; 6; 7; 8; 9]).
Proof.
  intros Hw Ht He. destruct (c68_curve s sp 1 _ Hw Ht He) as [_ H]. destruct (H ltac:(lra)) as (pr & E & Hp & Hs). clear H.
  rewrite listed_one in Hp. cbn [map snd] in Hp.
  assert (Q : pr = [1; 1; 1; 0; 0; 0; 0; 0; 0]).
  { apply sorted_unique; [exact Hs| |].
    - apply sorted_descending. intros i x y A B. do 9 (destruct i as [|i]; [cbn in A, B; injection A as <-; try discriminate B; injection B as <-; lra|]). destruct i; discriminate A.
    - etransitivity; [exact Hp|]. replace (1 / 1) with 1 by lra. replace (0 / 1) with 0 by lra.
      change (Permutation ([0; 0; 0] ++ [1; 1; 1] ++ [0; 0; 0]) ([1; 1; 1] ++ [0; 0; 0] ++ [0; 0; 0])). rewrite Permutation_app_swap_app. reflexivity. }
  rewrite E, Q. apply f_equal, f_equal. cbn [length seq map Nat.add]. rewrite !INR_IZR_INZ. reflexivity.
Qed.

(** The curve of the field with two paths: six nodes of probability 1, three of probability 1/2. *)
Lemma c68_example : exists s0 s, pf_init (Fin 1) (Fin 1) (Fin 0) (Fin 0) = Ok s0 /\ run 1 s0 two_paths s /\
  wf s /\ total s 2 /\ enumerates s (listed weight_two) /\ length (listed weight_two) = 9%nat /\
  create_impact_plot (Fin 10) s = Ok (map Fin [1; 1; 1; 1; 1; 1; 1/2; 1/2; 1/2], map (fun k => Fin (k * (10 * 10))) [1; 2; 3; 4; 5; 6; 7; 8; 9]) /\
  create_impact_plot (Fin 1) s0 = Raise CaptureZoneError.
Proof.
  destruct two_paths_field as (s0 & s & E & Hr & Hw & Ht & _ & _ & He). exists s0, s. repeat (split; [assumption|]).
  split; [reflexivity|]. split; [apply two_curve; assumption|].
  destruct field0 as (s0' & E0 & Hw0 & Hi0 & _ & Ht0 & _). rewrite E in E0. injection E0 as <-.
  destruct (proj1 (c68_enumeration s0 Hw0 Hi0)) as (l & Hl & _). apply (c68_curve s0 1 0 l Hw0 Ht0 Hl). lra.
Qed.

(** In that field the table gives 7 cells for p = 1/2 (the probability exceeds 1/2 at 6 nodes) and 1 cell for
    p = 5 percent (it exceeds 5 percent at all 9 nodes). *)
Lemma c69_example : exists s0 s rows, pf_init (Fin 1) (Fin 1) (Fin 0) (Fin 0) = Ok s0 /\ run 1 s0 two_paths s /\
  wf s /\ total s 2 /\ enumerates s (listed weight_two) /\
  (let! (pr, area) := create_impact_plot (Fin 10) s in decile_table pr area) = Ok rows /\
  nth_error rows 9 = Some (Fin (1/2), Fin 700, Fin (700 / (404686 / 100))) /\ exceeding 2 (1/2) (listed weight_two) = 6%nat /\
  nth_error rows 0 = Some (Fin 1, Fin 100, Fin (100 / (404686 / 100))) /\ exceeding 2 (1/20) (listed weight_two) = 9%nat.
Proof.
  destruct two_paths_field as (s0 & s & E & Hr & Hw & Ht & _ & _ & He). exists s0, s.
  pose proof (two_curve s 10 Hw Ht He) as Ec.
  destruct (c69_exactly_partial s 10 2 _ _ _ Hw Ht ltac:(lra) He Ec) as (rows & Er & HL & H). exists rows.
  split; [assumption|]. split; [assumption|]. split; [assumption|]. split; [assumption|]. split; [assumption|].
  split; [rewrite Ec; exact Er|].
  assert (X1 : exceeding 2 (1/2) (listed weight_two) = 6%nat).
  { rewrite listed_two. unfold exceeding. cbn [filter snd]. repeat (destruct (Rlt_dec (1/2) _); [|]; try lra). reflexivity. }
  assert (X2 : exceeding 2 (1/20) (listed weight_two) = 9%nat).
  { rewrite listed_two. unfold exceeding. cbn [filter snd]. repeat (destruct (Rlt_dec (1/20) _); [|]; try lra). reflexivity. }
  split; [|split; [exact X1|split; [|exact X2]]].
  - destruct (H 9%nat ltac:(lia)) as (v & c & En & _ & H1 & _). replace (INR (9 + 1) / 20) with (1/2) in H1 by (cbn; lra).
    assert (Hin : In ((0, -1), 1) (listed weight_two)) by (rewrite listed_two; cbn; tauto).
    destruct H1 as (Hc & Hv & Hm); [exists ((0, -1), 1); cbn; split; [exact Hin|lra]|]. specialize (Hm _ Hin). cbn in Hm.
    replace v with (1/2) in En by lra. rewrite En. rewrite X1 in Hc. replace c with 7 by (rewrite Hc; cbn; lra).
    replace (7 * (10 * 10)) with 700 by lra. reflexivity.
  - destruct (H 0%nat ltac:(lia)) as (v & c & En & (n & Hn & Ev) & _ & H2). replace (INR (0 + 1) / 20) with (1/20) in H2 by (cbn; lra).
    destruct H2 as (Hc & Hm). { rewrite listed_two. intros m Hm. cbn in Hm. repeat (destruct Hm as [<-|Hm]; [cbn; lra|]). destruct Hm. }
    assert (Hin : In ((0, 0), 2) (listed weight_two)) by (rewrite listed_two; cbn; tauto). specialize (Hm _ Hin). cbn in Hm.
    assert (v <= 1). { rewrite listed_two in Hn. cbn in Hn. repeat (destruct Hn as [<-|Hn]; [cbn in Ev; lra|]). destruct Hn. }
    replace v with 1 in En by lra. subst c. rewrite En. replace (1 * (10 * 10)) with 100 by lra. reflexivity.
Qed.

Lemma c70_example : exists s0 s, pf_init (Fin 1) (Fin 1) (Fin 0) (Fin 0) = Ok s0 /\ run 1 s0 one_path s /\
  wf s /\ total s 1 /\ enumerates s (listed weight_one) /\ create_deterministic_plot s = Ok (Fin 3).
Proof.
  destruct one_path_field as (s0 & s & E & Hr & Hw & Ht & D1 & D2 & He). exists s0, s. repeat (split; [assumption|]).
  rewrite (c70_area s 1 1 1 _ Hw Ht ltac:(lra) D1 D2 He). rewrite listed_one. unfold captured. cbn [filter snd].
  repeat (destruct (Rlt_dec 0 _); [|]; try lra). cbn [length]. apply f_equal, f_equal. cbn. lra.
Qed.

Lemma c71_example : exists s0 s P, pf_init (Fin 1) (Fin 1) (Fin 0) (Fin 0) = Ok s0 /\ run 1 s0 two_paths s /\
  Forall finite_weight two_paths /\ total s 2 /\
  create_probability_plot s = Ok ([Fin (-1); Fin 0; Fin 1], [Fin (-1); Fin 0; Fin 1], P) /\
  get2 P 0 0 = Some (Fin (1/2)) /\ get2 P 2 1 = Some (Fin 1).
Proof.
  destruct two_paths_field as (s0 & s & E & Hr & Hw & Ht & D1 & D2 & He).
  assert (Hx : extent s (-1) 1 (-1) 1 /\ exists g, body s = Some g /\ nrows g = 3%Z /\ ncols g = 3%Z).
  { destruct field0 as (s0' & E0 & Hw0 & Hi0 & Hx0 & _). rewrite E in E0. injection E0 as <-.
    assert (HX : extent s (-1) 1 (-1) 1).
    { unfold two_paths in Hr. inversion Hr as [|a1 b1 t1 l1 c1 Q1 R1]; subst. inversion R1 as [|a2 b2 t2 l2 c2 Q2 R2]; subst.
      inversion R2 as [|a3 b3 t3 l3 c3 Q3 R3]; subst. inversion R3 as [|a4 b4 t4 l4 c4 Q4 R4]; subst. inversion R4; subst.
      destruct (draw_in s0 0 (6/5) Hw0 Hi0 Hx0 ltac:(lra) ltac:(lra)) as (u1 & U1 & W1 & I1 & _ & X1 & _). rewrite U1 in Q1. injection Q1 as <-.
      destruct (c14_register_exact u1 1 W1 I1) as (u2 & U2 & W2 & _ & _ & X2 & _). cbn [run_op] in Q2. rewrite U2 in Q2. injection Q2 as <-.
      assert (I2 : initialised u2) by (destruct (X2 _ _ _ _ (X1 _ _ _ _ Hx0)) as (g' & Eg & _); unfold initialised; congruence).
      destruct (draw_in u2 (1/2) (6/5) W2 I2 (X2 _ _ _ _ (X1 _ _ _ _ Hx0)) ltac:(lra) ltac:(lra)) as (u3 & U3 & W3 & I3 & _ & X3 & _). rewrite U3 in Q3. injection Q3 as <-.
      destruct (c14_register_exact u3 1 W3 I3) as (u4 & U4 & W4 & _ & _ & X4 & _). cbn [run_op] in Q4. rewrite U4 in Q4. injection Q4 as <-. auto. }
    split; [exact HX|]. destruct HX as (g & Eg & H1 & H2 & H3 & H4). exists g. split; [exact Eg|].
    destruct Hw as (dx & dy & F1 & F2 & _ & _ & Hg). rewrite D1 in F1. rewrite D2 in F2. injection F1 as <-. injection F2 as <-.
    destruct (Hg g Eg) as (_ & _ & _ & _ & (x0 & y0 & G1 & G2 & G3 & G4) & _). rewrite H1 in G1. rewrite H2 in G2. rewrite H3 in G3. rewrite H4 in G4.
    injection G1 as <-. injection G2 as G2. injection G3 as <-. injection G4 as G4.
    assert (IZR (ncols g - 1) = 2) by lra. assert (IZR (nrows g - 1) = 2) by lra.
    assert (ncols g - 1 = 2)%Z by (apply eq_IZR; lra). assert (nrows g - 1 = 2)%Z by (apply eq_IZR; lra). lia. }
  destruct Hx as [(g & Eg & H1 & _ & H3 & _) (g' & Eg' & N1 & N2)]. rewrite Eg in Eg'. injection Eg' as <-.
  destruct (c71_axes s 2 Hw Ht ltac:(lra)) as (g' & dx & dy & x0 & y0 & P & Eg' & F1 & F2 & F3 & F4 & Ep & Hg & _).
  rewrite Eg in Eg'. injection Eg' as <-. rewrite D1 in F1. rewrite D2 in F2. rewrite H1 in F3. rewrite H3 in F4.
  injection F1 as <-. injection F2 as <-. injection F3 as <-. injection F4 as <-. rewrite N1, N2 in *.
  exists s0, s, P. split; [exact E|]. split; [exact Hr|].
  split. { repeat constructor; eexists; reflexivity. }
  split; [exact Ht|]. split.
  - rewrite Ep. assert (A : map (fun j => Fin (-1 + IZR j * 1)) (zrange 0 3) = [Fin (-1); Fin 0; Fin 1]).
    { change (zrange 0 3) with [0; 1; 2]%Z. cbn [map]. replace (-1 + 0 * 1) with (-1) by lra. replace (-1 + 1 * 1) with 0 by lra. replace (-1 + 2 * 1) with 1 by lra. reflexivity. }
    rewrite A. reflexivity.
  - assert (V : forall x y w m, has_node s x y w m -> w = weight_two x y).
    { intros x y w m H. assert (I : In ((x, y), w) (listed weight_two)) by (apply He; eauto). apply in_listed in I. tauto. }
    split.
    + destruct (Hg 0%Z 0%Z ltac:(lia) ltac:(lia)) as (w & m & Hn & ->). rewrite (V _ _ _ _ Hn). unfold weight_two.
      destruct (Req_EM_T _ _); [reflexivity|cbn in *; lra].
    + destruct (Hg 2%Z 1%Z ltac:(lia) ltac:(lia)) as (w & m & Hn & ->). rewrite (V _ _ _ _ Hn). unfold weight_two.
      destruct (Req_EM_T _ _); [cbn in *; lra|]. repeat f_equal. lra.
Qed.

(** The field with two paths: a node is captured with probability 1/2, and the plot has no point. *)
Lemma c78_refuted : exists s0 s pr area, pf_init (Fin 1) (Fin 1) (Fin 0) (Fin 0) = Ok s0 /\ run 1 s0 two_paths s /\
  wf s /\ total s 2 /\ (exists m, has_node s 0 (-1) 1 m) /\
  create_impact_plot (Fin 1) s = Ok (pr, area) /\ In (Fin (1/2)) pr /\ impact_points pr area = [].
Proof.
  destruct two_paths_field as (s0 & s & E & Hr & Hw & Ht & _ & _ & He). exists s0, s. pose proof (two_curve s 1 Hw Ht He) as Ec.
  eexists. eexists. split; [exact E|]. split; [exact Hr|]. split; [exact Hw|]. split; [exact Ht|].
  assert (Hin : In ((0, -1), 1) (listed weight_two)) by (rewrite listed_two; cbn; tauto).
  split; [apply He in Hin; exact Hin|]. split; [exact Ec|]. split; [apply in_map; cbn; tauto|].
  assert (Hpos : forall n, In n (listed weight_two) -> 0 <= snd n).
  { rewrite listed_two. intros m Hm. cbn in Hm. repeat (destruct Hm as [<-|Hm]; [cbn; lra|]). destruct Hm. }
  destruct (c78_exactly_partial s 1 2 _ _ _ Hw Ht ltac:(lra) He Hpos Ec) as (i & j & -> & Hi & _ & _ & Hj).
  rewrite Hi, Hj.
  - replace (certain 2 (listed weight_two)) with 6%nat; [reflexivity|]. rewrite listed_two. unfold certain. cbn [filter snd].
    repeat (destruct (Rle_dec 1 _); [|]; try lra). reflexivity.
  - rewrite listed_two. intros m Hm. cbn in Hm. repeat (destruct Hm as [<-|Hm]; [cbn; lra|]). destruct Hm.
  - exists ((0, -1), 1). cbn. split; [exact Hin|lra].
Qed.

(** Three nodes certain, three captured by one path of two, three never: the six drawn points. *)
Definition thin_paths : list (op xr) := [draw 0 (3/5); ORegister (Fin 1); draw (1/2) (3/4); ORegister (Fin 1)].
Definition weight_thin (x y : R) : R := if Req_EM_T y (-1) then 0 else if Req_EM_T y 0 then 2 else 1.

Lemma listed_thin : listed weight_thin =
  [((-1, -1), 0); ((0, -1), 0); ((1, -1), 0); ((-1, 0), 2); ((0, 0), 2); ((1, 0), 2); ((-1, 1), 1); ((0, 1), 1); ((1, 1), 1)].
Proof. cbn. unfold weight_thin. repeat destruct (Req_EM_T _ _); try lra. reflexivity. Qed.

Lemma c78_example : exists s0 s pr area, pf_init (Fin 1) (Fin 1) (Fin 0) (Fin 0) = Ok s0 /\ run 1 s0 thin_paths s /\
  wf s /\ total s 2 /\ enumerates s (listed weight_thin) /\ (forall n, In n (listed weight_thin) -> 0 <= snd n) /\
  In ((0, -1), 0) (listed weight_thin) /\ create_impact_plot (Fin 10) s = Ok (pr, area) /\
  impact_points pr area = [(Fin 1, Fin 300); (Fin (1/2), Fin 400); (Fin (1/2), Fin 500); (Fin (1/2), Fin 600); (Fin 0, Fin 700)].
Proof.
  destruct field0 as (s0 & E0 & Hw & Hi & Hx & Ht & D1 & D2 & Hn).
  destruct (path_step s0 0 (3/5) (fun _ _ => 0) weight_one Hw Hi Hx ltac:(lra) ltac:(lra)) as (s1 & s2 & E1 & E2 & Hw2 & Hi2 & Hx2 & Ht2 & Hn2).
  - intros x y w m. rewrite Hn. tauto.
  - intros x y Px Py_. rewrite near_track_at. unfold weight_one. destruct (Req_EM_T y 0) as [->|Hy].
    + left. split; [|lra]. exists (x / 2). split; [lra|]. assert (x * x <= 1) by (destruct Px as [->|[->| ->]]; lra). nra.
    + right. split; [|lra]. intros (z & Hz & Hd). assert (Y : y * y = 1) by (destruct Py_ as [->|[->| ->]]; lra). nra.
  - destruct (path_step s2 (1/2) (3/4) weight_one weight_thin Hw2 Hi2 Hx2 ltac:(lra) ltac:(lra) Hn2) as (s3 & s & E3 & E4 & Hw4 & Hi4 & Hx4 & Ht4 & Hn4).
    { intros x y Px Py_. rewrite near_track_at. unfold weight_thin, weight_one. destruct (Req_EM_T y (-1)) as [->|Hy].
      - right. split; [|destruct (Req_EM_T (-1) 0); lra]. intros (z & Hz & Hd). nra.
      - left. split; [|destruct (Req_EM_T y 0); lra]. exists (x / 2). split; [lra|].
        assert (x * x <= 1) by (destruct Px as [->|[->| ->]]; lra). assert (y = 0 \/ y = 1) as [->| ->] by tauto; nra. }
    assert (Hr : run 1 s0 thin_paths s) by (econstructor; [exact E1|]; econstructor; [exact E2|]; econstructor; [exact E3|]; econstructor; [exact E4|]; constructor).
    assert (Ht' : total s 2) by (replace 2 with (0 + 1 + 1) by ring; auto).
    assert (He : enumerates s (listed weight_thin)) by (apply listed_enumerates, Hn4).
    assert (Hpos : forall n, In n (listed weight_thin) -> 0 <= snd n).
    { rewrite listed_thin. intros m Hm. cbn in Hm. repeat (destruct Hm as [<-|Hm]; [cbn; lra|]). destruct Hm. }
    destruct (c68_curve s 10 2 _ Hw4 Ht' He) as [_ H]. destruct (H ltac:(lra)) as (pr & E & Hp & Hs). clear H.
    rewrite listed_thin in Hp. cbn [map snd] in Hp.
    assert (Q : pr = [1; 1; 1; 1/2; 1/2; 1/2; 0; 0; 0]).
    { apply sorted_unique; [exact Hs| |].
      - apply sorted_descending. intros i x y A B. do 9 (destruct i as [|i]; [cbn in A, B; injection A as <-; try discriminate B; injection B as <-; lra|]). destruct i; discriminate A.
      - etransitivity; [exact Hp|]. replace (2 / 2) with 1 by lra. replace (0 / 2) with 0 by lra.
        change (Permutation ([0; 0; 0] ++ [1; 1; 1; 1/2; 1/2; 1/2]) ([1; 1; 1; 1/2; 1/2; 1/2] ++ [0; 0; 0])). apply Permutation_app_comm. }
    subst pr. exists s0, s. eexists. eexists. split; [exact E0|]. split; [exact Hr|]. split; [exact Hw4|]. split; [exact Ht'|]. split; [exact He|].
    split; [exact Hpos|]. split; [rewrite listed_thin; cbn; tauto|]. split; [exact E|].
    destruct (c78_exactly_partial s 10 2 _ _ _ Hw4 Ht' ltac:(lra) He Hpos E) as (i & j & -> & Ei & _ & Ej & _).
    rewrite Ei by (exists ((0, -1), 0); rewrite listed_thin; cbn; split; [tauto|lra]).
    rewrite Ej by (exists ((0, -1), 0); rewrite listed_thin; cbn; tauto).
    replace (certain 2 (listed weight_thin)) with 3%nat.
    2:{ rewrite listed_thin. unfold certain. cbn [filter snd]. repeat (destruct (Rle_dec 1 _); [|]; try lra). reflexivity. }
    replace (captured (listed weight_thin)) with 6%nat.
    2:{ rewrite listed_thin. unfold captured. cbn [filter snd]. repeat (destruct (Rlt_dec 0 _); [|]; try lra). reflexivity. }
    rewrite (map_ext (fun k => Fin (INR (k + 1) * (10 * 10))) (fun k => Fin (IZR (Z.of_nat (k + 1) * 100)))).
    2:{ intros k. apply f_equal. rewrite mult_IZR, <- INR_IZR_INZ. lra. }
    reflexivity.
Qed.
