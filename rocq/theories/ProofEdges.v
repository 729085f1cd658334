(** * What happens at the edges: tables without values (C75), archives that are missing or could not be written (C73, C79), the rays of the quick plot (C88) *)
From Coq Require Import Reals Lra Lia String.
From Verif Require Import Py Num NumXR ModelField ModelAquifer ModelObs ModelPlot ModelDraw ModelArchive.
From Verif Require Import SpecArchive SpecPlot Grid ProofFit ProofStats ProofArchive ProofContour.
From Verif Require Import SpecObs.
Import ListNotations.
Local Open Scope R_scope.

(** C73.  What is not there is not read: loading a file that does not exist raises. *)
Lemma c73_missing : forall (V B : Type) (c : codec V B) (f : files B) name, f name = None -> load_oneka c f name = Raise ValueError.
Proof. intros V B c f name H. unfold load_oneka. rewrite H. reflexivity. Qed.

(** C79.  A [dump_oneka] that raises has opened its file before: an archive of the same second is lost, and the file holds the
    part of the new one that was written. *)
Lemma c79_raised : forall (V B : Type) (c : codec V B) (f f' : files B) now a e, dump_oneka c f now a = (f', Raise e) ->
  exists d, records d a /\ pickle_bz2 c d = Raise e /\ f' (archive_name now) = Some (partial_bz2 c d (raised_after c d)) /\
    forall n, n <> archive_name now -> f' n = f n.
Proof.
  intros V B c f f' now a e H. pose proof (dump_other c f now a) as O. rewrite H in O. unfold dump_oneka in H. exists (oneka_dict a). split; [apply dict_records|].
  destruct (pickle_bz2 c (oneka_dict a)) as [b|e'|] eqn:E; try discriminate. injection H as <- <-. split; [reflexivity|].
  split; [unfold write; rewrite String.eqb_refl; reflexivity|]. intros n Hn. apply O, Hn.
Qed.

(** C75.  A table without rows, or with a column that has no value, has no statistics. *)
Lemma c75_no_rows : forall (T : Type) (N : Num T), summary_statistics (T := T) [] = Raise IndexError.
Proof. reflexivity. Qed.

Lemma c75_no_values : forall (rows : list (list (option R))) (n j : nat),
  rows <> [] -> (forall row, In row rows -> length row = n) -> (j < n)%nat -> column j rows = [] ->
  summary_statistics (map (map fval) rows) = Raise ValueError.
Proof.
  intros rows n j N H Hj C. destruct rows as [|r0 rows]; [contradiction|].
  assert (L0 : length r0 = n) by (apply H; left; reflexivity).
  unfold summary_statistics. cbn [map]. rewrite map_length, L0. change (map fval r0 :: map (map fval) rows) with (map (map fval) (r0 :: rows)).
  remember (r0 :: rows) as rs eqn:E. clear E N r0 rows L0.
  assert (V : forall i, column i rs = [] -> column_stats (map (fun row => fval (nth i row None)) rs) = Raise ValueError).
  { intros i Ci. unfold column_stats. replace (filter _ _) with (@nil xr); [reflexivity|]. symmetry. clear - Ci. revert Ci. unfold column. induction rs as [|r rs IH]; [reflexivity|].
    cbn. destruct (nth i r None); cbn; [discriminate|exact IH]. }
  apply (map_res_raised _ _ _ j).
  - intros i Hi. apply in_seq in Hi. rewrite (get_column i rs n) by (lia || assumption). cbn [bind].
    destruct (column i rs) as [|v l] eqn:Ci; [left; apply V, Ci|]. right. destruct (column_stats_R i rs ltac:(rewrite Ci; discriminate)) as (mn & mx & E & _). eauto.
  - apply in_seq. lia.
  - rewrite (get_column j rs n) by assumption. cbn [bind]. apply V, C.
Qed.

Lemma c75_no_values_example : summary_statistics (map (map fval) [[Some 1; None]; [Some 2; None]]) = Raise ValueError.
Proof. apply (c75_no_values _ 2 1); [discriminate|intros row [<-|[<-|[]]]; reflexivity|lia|reflexivity]. Qed.

(** C88.  With an object that can compute the tracks: ray [k] starts at distance radius + 1 from the centre, in direction 2 pi k/(nrays - 1); its track is drawn
    in pieces, or not at all when its computation raises AquiferError.  Any other exception ends the plot. *)
Lemma c88_rays_partial : forall (f : xr -> xr -> xr -> xr -> res (list (xr * (xr * xr)))) (radius xc yc : R) (nrays nyears : Z) (maxstep : xr), (2 <= nrays)%Z ->
  let track := fun k => let a := spaced 0 (2 * PI) nrays k in
    f (Fin ((radius + 1) * cos a + xc)) (Fin ((radius + 1) * sin a + yc)) (Fin (IZR (nyears * 365))) maxstep in
  let plot := quick_tracks (Some f) (Fin radius) (Fin xc) (Fin yc) nrays nyears maxstep in
  ((forall k, (0 <= k < nrays)%Z -> track k = Raise AquiferError \/ exists sol, track k = Ok sol) ->
     exists drawn, plot = Ok drawn /\ length drawn = Z.to_nat nrays /\
       forall k, (0 <= k < nrays)%Z -> exists pieces, nth_error drawn (Z.to_nat k) = Some pieces /\
         (track k = Raise AquiferError /\ pieces = [] \/ exists sol, track k = Ok sol /\ pieces = year_pieces nyears sol)) /\
  (forall e, plot = Raise e -> e <> AquiferError /\ exists k, (0 <= k < nrays)%Z /\ track k = Raise e).
Proof.
  intros f radius xc yc nrays nyears maxstep Hn track plot.
  set (g := fun k => match track k with Ok sol => Ok (year_pieces nyears sol) | Raise AquiferError => Ok [] | Raise e => Raise e | NoFuel => NoFuel end).
  assert (Ep : plot = map_res g (zrange 0 nrays)).
  { unfold plot, quick_tracks. replace (nmul (nZ 2) npi) with (Fin (2 * PI)) by reflexivity. change (nZ 0) with (Fin 0). rewrite linspace_spaced by lia. cbn [bind].
    rewrite map_res_map. reflexivity. }
  rewrite Ep. split.
  - intros H. set (d := fun k => match track k with Ok sol => year_pieces nyears sol | _ => [] end).
    exists (map d (zrange 0 nrays)). split; [|split].
    + apply map_res_ok. intros k Hk. apply in_zrange in Hk. unfold g, d. destruct (H k ltac:(lia)) as [->|(sol & ->)]; reflexivity.
    + rewrite map_length, zrange_length. f_equal. lia.
    + intros k Hk. exists (d k). split.
      * rewrite nth_error_map, nth_error_zrange. rewrite Z2Nat.id by lia. destruct (Z.ltb_spec k (nrays - 0)); [|lia]. reflexivity.
      * unfold d. destruct (H k Hk) as [E|(sol & E)]; rewrite E; [left; auto|right; eauto].
  - intros e He. apply map_res_raise in He. destruct He as (k & Hk & He). apply in_zrange in Hk. unfold g in He. destruct (track k) as [sol|e'|] eqn:E; try discriminate.
    split; [|exists k; split; [lia|]; destruct e'; try discriminate; injection He as <-; exact E]. intros ->. destruct e'; discriminate.
Qed.

(** Three rays; the third is the first again.  The computation of the second raises AquiferError: it leaves no pieces. *)
Lemma c88_rays_example :
  quick_tracks (Some (fun x y t m => if nlt (Fin 0) x then Ok [(Fin 1, (x, y))] else Raise AquiferError)) (Fin 1) (Fin 0) (Fin 0) 3 1 (Fin 10)
  = Ok [[[(Fin 2, Fin 0)]]; []; [[(Fin 2, Fin 0)]]].
Proof.
  unfold quick_tracks. change (nmul (nZ 2) npi) with (Fin (2 * PI)). change (nZ 0) with (Fin 0). rewrite linspace_spaced by lia. cbn [bind].
  change (zrange 0 3) with [0; 1; 2]%Z. cbn [map map_res].
  replace (spaced 0 (2 * PI) 3 0) with 0 by (unfold spaced; lra). replace (spaced 0 (2 * PI) 3 1) with PI by (unfold spaced; cbn; lra). replace (spaced 0 (2 * PI) 3 2) with (2 * PI) by (unfold spaced; cbn; lra).
  cbn [nadd nmul ncos nsin nZ XR xadd xmul xcos xsin]. rewrite cos_0, sin_0, cos_PI, sin_PI, cos_2PI, sin_2PI.
  replace ((1 + 1) * 1 + 0) with 2 by ring. replace ((1 + 1) * 0 + 0) with 0 by ring.
  cbn [nlt XR xlt].
  repeat match goal with |- context [Rltb ?a ?b] => destruct (Rltb_spec a b); try (exfalso; lra) end. cbn [andb bind].
  unfold year_pieces. change (zrange 0 1) with [0]%Z. cbn [map filter nlt nZ XR xlt snd].
  repeat match goal with |- context [Rltb ?a ?b] => destruct (Rltb_spec a b); try (exfalso; cbn in *; lra) end; reflexivity.
Qed.
