(** * Edges: tables without values, archives that fail, rays of the quick plot

    Written by tools/genprops.py: statements only, each closed by the lemma of the
    same name in ProofEdges.v. *)
From Coq Require Import Reals ZArith List String.
From Verif Require Import Py Num NumXR ModelField ModelAquifer ModelObs ModelPlot ModelDraw ModelArchive SpecArchive SpecPlot SpecObs ProofEdges.
Import ListNotations.
Local Open Scope R_scope.

(** ** C73 Archiving round-trips every input *)

(** C73.  What is not there is not read: loading a file that does not exist raises. *)
Theorem C73_missing : forall (V B : Type) (c : codec V B) (f : files B) name, f name = None -> load_oneka c f name = Raise ValueError.
Proof. exact c73_missing. Qed.
Print Assumptions C73_missing.

(** ** C75 Summary statistics are order statistics of the non-NaN values *)

(** C75.  A table without rows, or with a column that has no value, has no statistics. *)
Theorem C75_no_rows : forall (T : Type) (N : Num T), summary_statistics (T := T) [] = Raise IndexError.
Proof. exact c75_no_rows. Qed.
Print Assumptions C75_no_rows.

Theorem C75_no_values : forall (rows : list (list (option R))) (n j : nat),
  rows <> [] -> (forall row, In row rows -> length row = n) -> (j < n)%nat -> column j rows = [] ->
  summary_statistics (map (map fval) rows) = Raise ValueError.
Proof. exact c75_no_values. Qed.
Print Assumptions C75_no_values.

Example C75_no_values_example : summary_statistics (map (map fval) [[Some 1; None]; [Some 2; None]]) = Raise ValueError.
Proof. exact c75_no_values_example. Qed.

(** ** C79 A run that dies while archiving harms no earlier archive *)

(** C79.  A [dump_oneka] that raises has opened its file before: an archive of the same second is lost, and the file holds the
    part of the new one that was written. *)
Theorem C79_raised : forall (V B : Type) (c : codec V B) (f f' : files B) now a e, dump_oneka c f now a = (f', Raise e) ->
  exists d, records d a /\ pickle_bz2 c d = Raise e /\ f' (archive_name now) = Some (partial_bz2 c d (raised_after c d)) /\
    forall n, n <> archive_name now -> f' n = f n.
Proof. exact c79_raised. Qed.
Print Assumptions C79_raised.

(** ** C88 Quick capture zone plot *)

(** C88.  With an object that can compute the tracks: ray [k] starts at distance radius + 1 from the centre, in direction 2 pi k/(nrays - 1); its track is drawn
    in pieces, or not at all when its computation raises AquiferError.  Any other exception ends the plot. *)
Theorem C88_rays_partial : forall (f : xr -> xr -> xr -> xr -> res (list (xr * (xr * xr)))) (radius xc yc : R) (nrays nyears : Z) (maxstep : xr), (2 <= nrays)%Z ->
  let track := fun k => let a := spaced 0 (2 * PI) nrays k in
    f (Fin ((radius + 1) * cos a + xc)) (Fin ((radius + 1) * sin a + yc)) (Fin (IZR (nyears * 365))) maxstep in
  let plot := quick_tracks (Some f) (Fin radius) (Fin xc) (Fin yc) nrays nyears maxstep in
  ((forall k, (0 <= k < nrays)%Z -> track k = Raise AquiferError \/ exists sol, track k = Ok sol) ->
     exists drawn, plot = Ok drawn /\ length drawn = Z.to_nat nrays /\
       forall k, (0 <= k < nrays)%Z -> exists pieces, nth_error drawn (Z.to_nat k) = Some pieces /\
         (track k = Raise AquiferError /\ pieces = [] \/ exists sol, track k = Ok sol /\ pieces = year_pieces nyears sol)) /\
  (forall e, plot = Raise e -> e <> AquiferError /\ exists k, (0 <= k < nrays)%Z /\ track k = Raise e).
Proof. exact c88_rays_partial. Qed.
Print Assumptions C88_rays_partial.

(** Three rays; the third is the first again.  The computation of the second raises AquiferError: it leaves no pieces. *)
Example C88_rays_example : quick_tracks (Some (fun x y t m => if nlt (Fin 0) x then Ok [(Fin 1, (x, y))] else Raise AquiferError)) (Fin 1) (Fin 0) (Fin 0) 3 1 (Fin 10)
  = Ok [[[(Fin 2, Fin 0)]]; []; [[(Fin 2, Fin 0)]]].
Proof. exact c88_rays_example. Qed.
