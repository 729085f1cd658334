(** * Tracks whose coordinate lists have different lengths (C11) *)
From Coq Require Import Reals Lra Lia Psatz.
From Verif Require Import Py Num NumXR Grid ModelField SpecField ProofGeom ProofField ProofInsert ProofOps ProofFieldProps ProofFieldEx ProofStats.
From Coq Require Import List.
From Verif Require Import SpecField.
Import ListNotations.
Local Open Scope R_scope.

Lemma seg_step : forall s (a b c d : xr) l k u, insert_segments s (a :: b :: l) (c :: d :: k) u =
  let (t, r) := insert s a c b d u in match r with Ok _ => insert_segments t (b :: l) (d :: k) u | _ => (t, r) end.
Proof. reflexivity. Qed.
Lemma segments_unequal : forall (xl yl : list R) u s s', yl <> [] ->
  insert_segments s (xs (combine xl yl)) (ys (combine xl yl)) (Fin u) = (s', Ok tt) ->
  insert_segments s (map Fin xl) (map Fin yl) (Fin u) =
    (s', if (List.length xl <=? List.length yl)%nat then Ok tt else Raise IndexError).
Proof.
  induction xl as [|x0 xl IH]; intros yl u s s' Hy H; [cbn in H |- *; congruence|].
  destruct yl as [|y0 yl]; [congruence|]. destruct xl as [|x1 xl]; [destruct yl; cbn in H |- *; congruence|].
  destruct yl as [|y1 yl]; [cbn in H |- *; congruence|].
  specialize (IH (y1 :: yl) u). cbn [combine xs ys map fst snd] in *.
  rewrite seg_step in *.
  destruct (insert s _ _ _ _ _) as [t r]. destruct r; try discriminate. rewrite (IH t s' ltac:(discriminate) H). reflexivity.
Qed.

(** The coordinate lists need not have the same length: the points are the pairs of coordinates, missing y coordinates
    raise an IndexError after the segments that exist have been marked, and an empty list raises a ValueError without effect. *)
Lemma c11_unequal : forall s xl yl u, wf s -> initialised s -> 0 <= u ->
  ((xl = [] \/ yl = []) -> forall fuel, rasterize fuel s (map Fin xl) (map Fin yl) (Fin u) = (s, Raise ValueError)) /\
  (xl <> [] -> yl <> [] -> exists n, forall fuel, (n <= fuel)%nat -> exists s',
     rasterize fuel s (map Fin xl) (map Fin yl) (Fin u) =
       (s', if (List.length xl <=? List.length yl)%nat then Ok tt else Raise IndexError) /\
     wf s' /\ initialised s' /\
     (forall x y w, (exists m, has_node s x y w m) -> exists m, has_node s' x y w m) /\
     (forall x y, is_node s' x y -> (marked s' x y <-> marked s x y \/ near_track u (combine xl yl) (x, y))) /\
     exists x0 x1 y0 y1, extent s' x0 x1 y0 y1 /\ (forall x, In x xl -> x0 < x < x1) /\ (forall y, In y yl -> y0 < y < y1)).
Proof.
  intros s xl yl u Hw Hi Hu. split.
  - intros [->| ->] fuel; unfold rasterize; [reflexivity|]. destruct xl; reflexivity.
  - intros Hx Hy. destruct xl as [|x0 xl]; [congruence|]. destruct yl as [|y0 yl]; [congruence|]. clear Hx Hy.
    destruct (pymin_list_R x0 xl) as (xa & E1 & A1 & B1). destruct (pymax_list_R x0 xl) as (xb & E2 & A2 & B2).
    destruct (pymin_list_R y0 yl) as (ya & E3 & A3 & B3). destruct (pymax_list_R y0 yl) as (yb & E4 & A4 & B4).
    destruct (c07_expand_terminates s xa xb ya yb Hw (B1 _ A2) (B3 _ A4)) as (n & Hn). exists n. intros fuel Hf.
    specialize (Hn fuel Hf). unfold rasterize. rewrite E1, E2, E3, E4.
    destruct (expand fuel s _ _ _ _) as [s1 r] eqn:Ee. cbn in Hn. subst r.
    destruct (expand_cover _ _ _ _ _ _ _ Hw Ee) as (a & Hok & -> & C1 & C2 & C3 & C4 & _).
    destruct (insert_segments_fin (combine (x0 :: xl) (y0 :: yl)) a u Hok Hu) as (m & E & Hm).
    rewrite (segments_unequal (x0 :: xl) (y0 :: yl) u _ _ ltac:(discriminate) E). eexists. split; [reflexivity|].
    destruct (c03_expand_preserves _ _ _ _ _ _ _ Hw Hi Ee) as (K1 & K2 & K3 & _).
    destruct (c02_expand_contains _ _ _ _ _ _ _ Hw Ee) as (_ & p0 & p1 & q0 & q1 & Hext & Hb).
    assert (Hok' : ok (set_M a m)). { apply set_M_ok; auto. intros p q Hpq. apply Hm in Hpq. destruct Hpq as [Hpq|[Hpq _]]; auto. now apply ok_M. }
    split; [now apply conc_wf|]. split; [apply conc_init|]. split; [|split].
    + intros x y w (mm & Hno). apply K1 in Hno. apply conc_node in Hno; auto. destruct Hno as (p & q & Hin & -> & -> & -> & ->).
      exists (m p q). apply conc_node; auto. exists p, q. auto.
    + intros x y (w & mm & Hno). pose proof Hno as Hno'. apply conc_node in Hno; auto. destruct Hno as (p & q & Hin & -> & -> & Ew & Em).
      cbn [P M X0 Y0 Dx Dy set_M] in *. change (inwin (set_M a m) p q) with (inwin a p q) in Hin.
      assert (Ha : has_node (conc a) (lat (X0 a) (Dx a) q) (lat (Y0 a) (Dy a) p) (P a p q) (M a p q))
        by (apply conc_node; auto; exists p, q; auto).
      assert (F1 : marked (conc (set_M a m)) (lat (X0 a) (Dx a) q) (lat (Y0 a) (Dy a) p) <-> m p q = true).
      { split.
        - intros (w' & Hc). destruct (has_node_fun _ _ _ _ _ _ _ (conc_wf _ Hok') Hno' Hc) as [_ E']. congruence.
        - intros Et. exists w. rewrite <- Et, <- Em. exact Hno'. }
      rewrite F1, Hm.
      assert (EM : M a p q = true <-> marked s (lat (X0 a) (Dx a) q) (lat (Y0 a) (Dy a) p)).
      { split.
        - intros EM. destruct (K2 _ _ _ _ Ha) as [Hc|(_ & _ & Hc)]; [|congruence]. rewrite EM in Hc. unfold marked. eauto.
        - intros (w' & Hc). apply K1 in Hc. destruct (has_node_fun _ _ _ _ _ _ _ (conc_wf _ Hok) Ha Hc) as [_ E']. exact E'. }
      rewrite EM. tauto.
    + exists p0, p1, q0, q1. split; [destruct Hext as (g & Eg & X); injection Eg as <-; eexists; split; [reflexivity|exact X]|].
      split; intros z Hz.
      * specialize (B1 z Hz). specialize (B2 z Hz). lra.
      * specialize (B3 z Hz). specialize (B4 z Hz). lra.
Qed.

(** Three x coordinates and two y coordinates: the first segment is marked, then the IndexError. *)
Lemma c11_unequal_example : forall s, pf_init (Fin 1) (Fin 1) (Fin 0) (Fin 0) = Ok s ->
  wf s /\ initialised s /\
  exists fuel s', rasterize fuel s (map Fin [0; 1/2; 7]) (map Fin [0; 0]) (Fin (1/2)) = (s', Raise IndexError) /\ marked s' 0 0.
Proof.
  intros s E. destruct field0 as (s0 & E0 & Hw & Hi & Hx & Ht & D1 & D2 & Hn). rewrite E in E0. injection E0 as <-.
  split; [exact Hw|]. split; [exact Hi|].
  destruct (c11_unequal s [0; 1/2; 7] [0; 0] (1/2) Hw Hi ltac:(lra)) as [_ K].
  destruct (K ltac:(discriminate) ltac:(discriminate)) as (n & R). destruct (R n (le_n n)) as (s' & R1 & W & I' & K1 & K2 & _).
  exists n, s'. split; [exact R1|]. apply K2.
  - destruct (K1 0 0 0) as (m & H); [exists false; apply Hn; lra|unfold is_node; eauto].
  - right. exists (0, 0), (1/2, 0). split; [exists O; auto|]. split; [intros F; injection F; lra|].
    exists (0, 0). split; [|unfold dist2; cbn; lra]. exists 0. split; [lra|]. cbn. apply f_equal2; lra.
Qed.
