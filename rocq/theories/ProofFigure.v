(** * Proofs about the figures of a run: C121 *)
From Coq Require Import Reals Lra Lia String List ZArith.
From Verif Require Import Py Num NumXR ModelField ModelAquifer ModelTrace ModelObs ModelDist ModelDriver ModelPlot ModelArchive ModelMain ModelDraw ModelFigure.
From Verif Require Import SpecField SpecAquifer SpecFit SpecObs SpecDriver SpecPlot SpecDist SpecArchive SpecMain SpecDraw SpecFigure ProofDist ProofObs ProofObsProps ProofFitProps ProofMain ProofMainRun ProofMainEnd ProofMainEx ProofDriverEx.
Import ListNotations.
Local Open Scope R_scope.

Section Values.
  Context {G E : Type} (Rg : rng xr G) (mvn : E -> list xr -> list (list xr) -> list xr) (dump : run_args (pyobj xr) -> res unit).

  (** The run in terms of the values. *)
  Lemma drawn_values fuel la entropy g a c sm : acceptable a -> reads a c -> number (smooth a) sm ->
    oneka_drawn fexp Rg mvn dump fuel la entropy g a =
    demit (Seen EBanner) (
    dstop (filter_obs (k_obs c) (map (fun w => (sx w, sy w)) (k_wells c)) (k_buffer c)) (fun kept =>
    demit (Seen (EFiltered kept)) (
    dstop (py_assert (Ok (Z.of_nat (List.length kept) >? 6)%Z)) (fun _ =>
    dstop (summary_statistics (SpecMain.table kept)) (fun st =>
    demit (Seen (ESummary st)) (
    if (k_n c >? 1)%Z then
      dstop (call_stochastic Rg mvn fuel la entropy g a c kept) (fun '(pf, logs) =>
      demit (Seen (ERealizations logs)) (
      dstop (map_figure fexp (Z.to_nat (k_target c)) (k_wells c) kept pf sm) (fun f =>
      demit (Drawn f) (
      dstop (create_impact_plot (k_spacing c) pf) (fun '(pr, area) =>
      demit (Drawn (FImpact (impact_drawn pr area))) (
      dstop (decile_table pr area) (fun rows =>
      demit (Seen (EDeciles rows)) (
      drawn_finish dump a pf))))))))
    else
      dstop (call_deterministic fuel la a c kept) (fun '(pf, l) =>
      demit (Seen (EDeterministic l)) (
      dstop (cells_figure (Z.to_nat (k_target c)) (k_wells c) kept pf) (fun '(f, area) =>
      demit (Drawn f) (
      demit (Seen (EAreaPlot area)) (
      drawn_finish dump a pf))))))))))).
  Proof.
    intros Ha (H1 & H2 & H3 & H4 & H5 & (lw & H6 & H7) & (lo & H8 & H9) & H10 & H11 & H12 & H13 & H14 & H15) Hs.
    pose proof (proj2 (c64_accepts a) Ha) as V. unfold oneka_drawn. rewrite V. cbn [dstop].
    rewrite (log_int _ _ H4), H6, H8. cbn [dstop elements]. rewrite (get_wells _ _ H7), (get_obss _ _ H9), (as_num_number _ _ H10). cbn [dstop].
    rewrite (get_int_integer _ _ H1), (get_int_integer _ _ H2), (as_num_number _ _ H3), (as_num_number _ _ H5), (as_num_number _ _ H11),
      (as_num_number _ _ H12), (as_num_number _ _ H14), (as_num_number _ _ H15), H13, (as_num_number _ _ Hs). reflexivity.
  Qed.
End Values.

(** ** No figure raises what the numbers did not raise, unless smooth is infinite *)
Lemma for_in_ok {A S S'} (l : list A) (b : A -> S -> res S) (b' : A -> S' -> res S') :
  (forall a s r, In a l -> b a s = Ok r -> forall s', exists r', b' a s' = Ok r') ->
  forall s r, for_in l b s = Ok r -> forall s', exists r', for_in l b' s' = Ok r'.
Proof.
  induction l as [|a l IH]; intros H s r E s'; [exists s'; reflexivity|]. cbn [for_in] in *.
  destruct (b a s) as [s1|e|] eqn:B; cbn [bind] in E; try discriminate.
  destruct (H a s s1 (or_introl eq_refl) B s') as (r1 & B'). rewrite B'. cbn [bind].
  apply (IH (fun x t u K => H x t u (or_intror K)) _ _ E).
Qed.
Lemma combine_seq {A} (l : list A) k : map fst (combine (seq k (length l)) l) = seq k (length l).
Proof. revert k. induction l as [|x l IH]; intros k; [reflexivity|]. cbn. now rewrite IH. Qed.
Lemma for_in_map {A B S} (f : A -> B) (l : list A) (b : B -> S -> res S) : forall s, for_in (map f l) b s = for_in l (fun a => b (f a)) s.
Proof. induction l as [|a l IH]; intros s; [reflexivity|]. cbn [map for_in]. destruct (b (f a) s); cbn [bind]; auto. Qed.

Lemma cells_ok (s : pfield xr) area : create_deterministic_plot s = Ok area -> exists cells, filled_cells s = Ok cells.
Proof.
  unfold create_deterministic_plot, filled_cells. destruct (body s) as [g|]; [|discriminate]. destruct (nle _ _); [discriminate|].
  destruct (linspace (xmin g) _ _) as [X|?|]; cbn [bind]; try discriminate.
  destruct (linspace (ymin g) _ _) as [Y|?|]; cbn [bind]; try discriminate.
  destruct (py_nth X 0); cbn [bind]; try discriminate. destruct (py_nth X 1); cbn [bind]; try discriminate.
  destruct (py_nth Y 0); cbn [bind]; try discriminate. destruct (py_nth Y 1); cbn [bind]; try discriminate.
  rewrite <- (combine_seq Y 0) at 1. rewrite for_in_map. intros E. refine (for_in_ok _ _ _ _ _ _ E _). clear E.
  intros [i y] s0 r0 _ E s'. cbn [fst] in E. rewrite <- (combine_seq X 0), for_in_map in E. refine (for_in_ok _ _ _ _ _ _ E _). clear E.
  intros [j x] s1 r1 _ E' s''. cbn [fst] in E'. destruct (get2 _ _ _); [|discriminate]. destruct (nlt _ _); eexists; reflexivity.
Qed.

Lemma smoothing_ok (sg : R) nc rows : exists Q, gaussian_filter fexp (Fin sg) nc rows = Ok Q.
Proof.
  unfold gaussian_filter. destruct (nlt _ _); [|eexists; reflexivity]. unfold gaussian_kernel.
  assert (K : exists r, nfloor (nadd (nmul (nZ 4) (Fin sg)) (nlit 1 2)) = Ok r) by (eexists; reflexivity).
  destruct K as (r & ->). eexists. reflexivity.
Qed.
Lemma drawn_ok (s : pfield xr) (sg : R) X Y P : create_probability_plot s = Ok (X, Y, P) -> exists Q, drawn_probabilities fexp s (Fin sg) = Ok (X, Y, Q).
Proof.
  intros H. unfold drawn_probabilities. rewrite H. cbn [bind]. destruct (nlt _ _); [|eexists; reflexivity].
  destruct (smoothing_ok sg (length X) P) as (Q & ->). eexists. reflexivity.
Qed.
Lemma markers_ok c kept : (exists w, nth_error (k_wells c) (Z.to_nat (k_target c)) = Some w) ->
  exists m, draw_markers (Z.to_nat (k_target c)) (k_wells c) kept = Ok m /\ marked c kept m.
Proof.
  intros (w & H). unfold draw_markers. rewrite H. cbn [bind]. eexists. split; [reflexivity|]. unfold marked. cbn [circles star pluses]. split; [|split].
  - clear H. induction (k_wells c); cbn; constructor; auto.
  - exists w. auto.
  - clear H. induction kept; cbn; constructor; auto.
Qed.

Lemma seen_map {T} (l : list (event T)) : seen (map Seen l) = l.
Proof. induction l as [|e l IH]; [reflexivity|]. cbn. f_equal. exact IH. Qed.
Lemma figures_map {T} (l : list (event T)) : figures (map Seen l) = [].
Proof. induction l as [|e l IH]; [reflexivity|]. exact IH. Qed.
Lemma finish_plots {T} (dump : run_args (pyobj T) -> res unit) (a : args T) pf : without_plots (fst (finish dump a pf)) = fst (finish dump a pf).
Proof. unfold finish. destruct (dump _); reflexivity. Qed.

(** With a finite smooth a run ends as the model of C66 says, with the same effects: drawing raises nothing else. *)
Lemma c121_outcome_partial : forall (G E : Type) (Rg : rng xr G) (mvn : E -> list xr -> list (list xr) -> list xr) (dump : run_args (pyobj xr) -> res unit)
    (fuel : nat) (la : linalg xr) (entropy : nat -> E) (g : G) (a : args xr) (c : call) (sg : R),
  acceptable a -> reads a c -> number (smooth a) (Fin sg) ->
  snd (oneka_drawn fexp Rg mvn dump fuel la entropy g a) = snd (oneka Rg mvn dump fuel la entropy g a) /\
  seen (fst (oneka_drawn fexp Rg mvn dump fuel la entropy g a)) = without_plots (fst (oneka Rg mvn dump fuel la entropy g a)).
Proof.
  intros G E Rg mvn dump fuel la entropy g a c sg Ha Hc Hs. pose proof (c66_target a c (proj2 (c64_accepts a) Ha) Hc) as Ht.
  rewrite (drawn_values Rg mvn dump fuel la entropy g a c (Fin sg) Ha Hc Hs), (oneka_values Rg mvn dump fuel la entropy g a c Ha Hc). cbn [emit demit fst snd].
  destruct (filter_obs _ _ _) as [kept|e|]; cbn [stop dstop emit demit fst snd]; [|split; reflexivity|split; reflexivity].
  destruct (py_assert _) as [[]|e|]; cbn [stop dstop emit demit fst snd]; [|split; reflexivity|split; reflexivity].
  destruct (summary_statistics _) as [st|e|]; cbn [stop dstop emit demit fst snd]; [|split; reflexivity|split; reflexivity].
  destruct (markers_ok c kept Ht) as (m & Hm & _).
  destruct (k_n c >? 1)%Z.
  - destruct (call_stochastic _ _ _ _ _ _ _ _ _) as [[pf logs]|e|]; cbn [stop dstop emit demit fst snd]; [|split; reflexivity|split; reflexivity].
    unfold map_figure. destruct (create_probability_plot pf) as [[[X Y] P]|e|] eqn:EP.
    + destruct (drawn_ok pf sg X Y P EP) as (Q & ->). cbn [bind]. rewrite Hm. cbn [bind stop dstop emit demit fst snd].
      destruct (create_impact_plot _ pf) as [[pr ar]|e|]; cbn [stop dstop emit demit fst snd]; [|split; reflexivity|split; reflexivity].
      destruct (decile_table pr ar) as [rows|e|]; cbn [stop dstop emit demit fst snd]; [|split; reflexivity|split; reflexivity].
      unfold drawn_finish. cbn [fst snd]. split; [reflexivity|]. cbn [seen flat_map app without_plots filter]. change (flat_map _ (map Seen ?l)) with (seen (map Seen l)).
      rewrite seen_map. change (filter _ ?l) with (without_plots l). now rewrite finish_plots.
    + unfold drawn_probabilities. rewrite EP. split; reflexivity.
    + unfold drawn_probabilities. rewrite EP. split; reflexivity.
  - destruct (call_deterministic _ _ _ _ _) as [[pf l]|e|]; cbn [stop dstop emit demit fst snd]; [|split; reflexivity|split; reflexivity].
    unfold cells_figure. destruct (create_deterministic_plot pf) as [ar|e|] eqn:EP; cbn [bind stop dstop emit demit fst snd]; [|split; reflexivity|split; reflexivity].
    destruct (cells_ok pf ar EP) as (cells & ->). cbn [bind]. rewrite Hm. cbn [bind dstop demit fst snd].
    unfold drawn_finish. cbn [fst snd]. split; [reflexivity|]. cbn [seen flat_map app without_plots filter]. change (flat_map _ (map Seen ?l0)) with (seen (map Seen l0)).
    rewrite seen_map. change (filter _ ?l0) with (without_plots l0). now rewrite finish_plots.
Qed.

(** A stochastic run that returns has drawn two figures of the field it archives: the map of the probabilities, smoothed,
    with the markers, and the impact plot. *)
Lemma c121_stochastic_partial : forall (G E : Type) (Rg : rng xr G) (mvn : E -> list xr -> list (list xr) -> list xr) (dump : run_args (pyobj xr) -> res unit)
    (fuel : nat) (la : linalg xr) (entropy : nat -> E) (g : G) (a : args xr) (c : call) (sm : xr) effects r,
  acceptable a -> reads a c -> number (smooth a) sm -> (1 < k_n c)%Z ->
  oneka_drawn fexp Rg mvn dump fuel la entropy g a = (effects, Ok r) ->
  exists kept s X Y Q m pr area, retained c kept /\ In (Seen (EFiltered kept)) effects /\ In (Seen (EArchive (archived a s))) effects /\
    figures effects = [FMap X Y Q m; FImpact (impact_drawn pr area)] /\
    drawn_probabilities fexp s sm = Ok (X, Y, Q) /\ create_impact_plot (k_spacing c) s = Ok (pr, area) /\ marked c kept m.
Proof.
  intros G E Rg mvn dump fuel la entropy g a c sm effects r Ha Hc Hs Hn. pose proof (c66_target a c (proj2 (c64_accepts a) Ha) Hc) as Ht.
  rewrite (drawn_values Rg mvn dump fuel la entropy g a c sm Ha Hc Hs). unfold retained. cbn [demit fst snd].
  destruct (filter_obs _ _ _) as [kept|e|]; cbn [dstop demit fst snd]; try discriminate.
  destruct (py_assert _) as [[]|e|]; cbn [dstop demit fst snd]; try discriminate.
  destruct (summary_statistics _) as [st|e|]; cbn [dstop demit fst snd]; try discriminate.
  destruct (markers_ok c kept Ht) as (m & Hm & Mm). destruct (Z.gtb_spec (k_n c) 1); [|lia].
  destruct (call_stochastic _ _ _ _ _ _ _ _ _) as [[pf logs]|e|]; cbn [dstop demit fst snd]; try discriminate.
  unfold map_figure. destruct (drawn_probabilities fexp pf sm) as [[[X Y] Q]|e|] eqn:ED; cbn [bind dstop demit fst snd]; try discriminate.
  rewrite Hm. cbn [bind dstop demit fst snd].
  destruct (create_impact_plot _ pf) as [[pr ar]|e|] eqn:EI; cbn [dstop demit fst snd]; try discriminate.
  destruct (decile_table pr ar) as [rows|e|]; cbn [dstop demit fst snd]; try discriminate.
  unfold drawn_finish. cbn [fst snd]. intros [= <- HR]. exists kept, pf, X, Y, Q, m, pr, ar. split; [reflexivity|].
  split; [right; left; reflexivity|]. split; [do 7 right; unfold finish; cbn [emit fst map]; left; reflexivity|].
  split; [|auto]. cbn [figures flat_map app]. change (flat_map _ (map Seen ?l)) with (figures (map Seen l)). now rewrite figures_map.
Qed.

(** A deterministic run that returns has drawn one figure: the cells of the field that it archives, with the markers. *)
Lemma c121_deterministic : forall (G E : Type) (Rg : rng xr G) (mvn : E -> list xr -> list (list xr) -> list xr) (dump : run_args (pyobj xr) -> res unit)
    (fuel : nat) (la : linalg xr) (entropy : nat -> E) (g : G) (a : args xr) (c : call) effects r,
  acceptable a -> reads a c -> (k_n c <= 1)%Z ->
  oneka_drawn fexp Rg mvn dump fuel la entropy g a = (effects, Ok r) ->
  exists kept s cells m, retained c kept /\ In (Seen (EFiltered kept)) effects /\ In (Seen (EArchive (archived a s))) effects /\
    figures effects = [FCells cells m] /\ filled_cells s = Ok cells /\ marked c kept m.
Proof.
  intros G E Rg mvn dump fuel la entropy g a c effects r Ha Hc Hn. pose proof (c66_target a c (proj2 (c64_accepts a) Ha) Hc) as Ht.
  destruct Ha as (Hr & Ho). pose proof Ho as (_ & _ & _ & (sm & Hs & _) & _). pose proof (conj Hr Ho : acceptable a) as Ha.
  rewrite (drawn_values Rg mvn dump fuel la entropy g a c sm Ha Hc Hs). unfold retained. cbn [demit fst snd].
  destruct (filter_obs _ _ _) as [kept|e|]; cbn [dstop demit fst snd]; try discriminate.
  destruct (py_assert _) as [[]|e|]; cbn [dstop demit fst snd]; try discriminate.
  destruct (summary_statistics _) as [st|e|]; cbn [dstop demit fst snd]; try discriminate.
  destruct (markers_ok c kept Ht) as (m & Hm & Mm). destruct (Z.gtb_spec (k_n c) 1); [lia|].
  destruct (call_deterministic _ _ _ _ _) as [[pf l]|e|]; cbn [dstop demit fst snd]; try discriminate.
  unfold cells_figure. destruct (create_deterministic_plot pf) as [ar|e|] eqn:EP; cbn [bind dstop demit fst snd]; try discriminate.
  destruct (filled_cells pf) as [cells|e|] eqn:EC; cbn [bind dstop demit fst snd]; try discriminate.
  rewrite Hm. cbn [bind dstop demit fst snd].
  unfold drawn_finish. cbn [fst snd]. intros [= <- HR]. exists kept, pf, cells, m. split; [reflexivity|].
  split; [right; left; reflexivity|]. split; [do 6 right; unfold finish; cbn [emit fst map]; left; reflexivity|].
  split; [|auto]. cbn [figures flat_map app]. change (flat_map _ (map Seen ?l0)) with (figures (map Seen l0)). now rewrite figures_map.
Qed.

(** Every plus stands where an observation of the call was made, farther than the buffer from the circle of every well. *)
Lemma c121_apart : forall (c : call) (kept : list (obs xr)) (m : markers xr) (l : list (obs R)) (ws : list (R * R)) (b : R),
  retained c kept -> marked c kept m ->
  k_obs c = map fobs l -> map (fun w => (sx w, sy w)) (k_wells c) = map floc ws -> k_buffer c = Fin b ->
  circles m = map floc ws /\
  forall p, In p (pluses m) -> exists o, In o l /\ p = floc (loc o) /\ forall w, In w ws -> b < odist o w.
Proof.
  intros c kept m l ws b Hk (M1 & _ & M3) El Ew Eb. unfold retained in Hk. rewrite El, Ew, Eb in Hk. split.
  - rewrite <- Ew. clear - M1. induction M1 as [|w p lw lp E F IH]; [reflexivity|]. cbn. now rewrite E, IH.
  - intros p Hp. assert (K : exists o', In o' kept /\ p = (ox o', oy o')).
    { clear - M3 Hp. induction M3 as [|o q lo lq E F IH]; [contradiction|]. destruct Hp as [<-|Hp]; [exists o; split; [left; reflexivity|exact E]|].
      destruct (IH Hp) as (o' & Ho' & ->). exists o'. split; [right; exact Ho'|reflexivity]. }
    destruct K as (o' & Ho' & ->). destruct (c48_far l ws b kept Hk o' Ho') as (o & Ho & -> & -> & F). exists o. split; [exact Ho|]. split; [reflexivity|exact F].
Qed.

(** ** An infinite smooth *)
Lemma gaussian_infinite nc rows : gaussian_filter fexp PInf nc rows = Raise OverflowError.
Proof.
  unfold gaussian_filter. assert (A : nlt (nlit 1 1000000000000000) PInf = true) by reflexivity. rewrite A. unfold gaussian_kernel.
  assert (B : nmul (nZ 4) PInf = PInf) by (cbn; unfold inf_of_sign; rewrite (proj2 (Rltb_true 0 4)) by lra; reflexivity). rewrite B. reflexivity.
Qed.
Lemma drawn_infinite (s : pfield xr) X Y P : create_probability_plot s = Ok (X, Y, P) -> drawn_probabilities fexp s PInf = Raise OverflowError.
Proof. intros E. unfold drawn_probabilities. rewrite E. cbn [bind]. assert (A : nlt (nZ 0) PInf = true) by reflexivity. rewrite A, gaussian_infinite. reflexivity. Qed.
Lemma no_smoothing (s : pfield xr) X Y Q : drawn_probabilities fexp s PInf <> Ok (X, Y, Q).
Proof.
  destruct (create_probability_plot s) as [[[X' Y'] P]|e|] eqn:EP; [rewrite (drawn_infinite _ _ _ _ EP); discriminate| |]; unfold drawn_probabilities; rewrite EP; discriminate.
Qed.

(** An infinite smooth is accepted, and no stochastic run with it returns or archives anything. *)
Lemma c121_infinite_refuted : forall (G E : Type) (Rg : rng xr G) (mvn : E -> list xr -> list (list xr) -> list xr) (dump : run_args (pyobj xr) -> res unit)
    (fuel : nat) (la : linalg xr) (entropy : nat -> E) (g : G) (a : args xr) (c : call),
  acceptable a -> reads a c -> (1 < k_n c)%Z -> number (smooth a) PInf ->
  (forall r, snd (oneka_drawn fexp Rg mvn dump fuel la entropy g a) <> Ok r) /\
  forall x, ~ In (Seen (EArchive x)) (fst (oneka_drawn fexp Rg mvn dump fuel la entropy g a)).
Proof.
  intros G E Rg mvn dump fuel la entropy g a c Ha Hc Hn Hs.
  rewrite (drawn_values Rg mvn dump fuel la entropy g a c PInf Ha Hc Hs). cbn [demit fst snd].
  destruct (filter_obs _ _ _) as [kept|e|]; cbn [dstop demit fst snd]; try (split; [discriminate|cbn; intuition discriminate]).
  destruct (py_assert _) as [[]|e|]; cbn [dstop demit fst snd]; try (split; [discriminate|cbn; intuition discriminate]).
  destruct (summary_statistics _) as [st|e|]; cbn [dstop demit fst snd]; try (split; [discriminate|cbn; intuition discriminate]).
  destruct (Z.gtb_spec (k_n c) 1); [|lia].
  destruct (call_stochastic _ _ _ _ _ _ _ _ _) as [[pf logs]|e|]; cbn [dstop demit fst snd]; try (split; [discriminate|cbn; intuition discriminate]).
  unfold map_figure. destruct (drawn_probabilities fexp pf PInf) as [[[X Y] Q]|e|] eqn:ED; [contradiction (no_smoothing _ _ _ _ ED)| |];
    cbn [bind dstop demit fst snd]; (split; [discriminate|cbn; intuition discriminate]).
Qed.

(** Where the model of C66 says that a run returns, the program has made all realizations and fails with OverflowError. *)
Lemma c121_lost_refuted : forall (G E : Type) (Rg : rng xr G) (mvn : E -> list xr -> list (list xr) -> list xr) (dump : run_args (pyobj xr) -> res unit)
    (fuel : nat) (la : linalg xr) (entropy : nat -> E) (g : G) (a : args xr) (c : call) events r,
  acceptable a -> reads a c -> (1 < k_n c)%Z -> number (smooth a) PInf ->
  oneka Rg mvn dump fuel la entropy g a = (events, Ok r) ->
  exists (effects : list (effect xr)) (logs : list (run_log xr)), oneka_drawn fexp Rg mvn dump fuel la entropy g a = (effects, Raise OverflowError) /\
    In (ERealizations logs) events /\ In (Seen (ERealizations logs)) effects /\ figures effects = [].
Proof.
  intros G E Rg mvn dump fuel la entropy g a c events r Ha Hc Hn Hs.
  rewrite (drawn_values Rg mvn dump fuel la entropy g a c PInf Ha Hc Hs), (oneka_values Rg mvn dump fuel la entropy g a c Ha Hc). cbn [emit demit fst snd].
  destruct (filter_obs _ _ _) as [kept|e|]; cbn [stop dstop emit demit fst snd]; try discriminate.
  destruct (py_assert _) as [[]|e|]; cbn [stop dstop emit demit fst snd]; try discriminate.
  destruct (summary_statistics _) as [st|e|]; cbn [stop dstop emit demit fst snd]; try discriminate.
  destruct (Z.gtb_spec (k_n c) 1); [|lia].
  destruct (call_stochastic _ _ _ _ _ _ _ _ _) as [[pf logs]|e|]; cbn [stop dstop emit demit fst snd]; try discriminate.
  destruct (create_probability_plot pf) as [[[X Y] P]|e|] eqn:EP; cbn [stop dstop emit demit fst snd]; try discriminate.
  unfold map_figure. rewrite (drawn_infinite _ _ _ _ EP). cbn [bind dstop fst snd]. intros [= <- _].
  eexists. exists logs. split; [reflexivity|]. cbn; auto 10.
Qed.

(** ** Examples *)
Lemma same_length {A B} (P : A -> B -> Prop) l l' : Forall2 P l l' -> List.length l' = List.length l.
Proof. induction 1; cbn; congruence. Qed.

(** Two realizations: the map has one circle, with the star on it, and seven pluses. *)
Lemma c121_example : exists fuel s, has_node s 2 0 2 false /\ acceptable (d_args (PInt 2) (PInt 1) quarter dobs) /\
  forall (G : Type) (Rg : rng xr G) g, exists (effects : list (effect xr)) X Y Q m pts,
    oneka_drawn fexp Rg (fun (e : list xr) _ _ => e) (fun _ => Ok tt) fuel elim_la (fun _ => map Fin [0; 0; 0; 1; 0; 0]) g (d_args (PInt 2) (PInt 1) quarter dobs) = (effects, Ok RNone) /\
    In (Seen (EArchive (archived (d_args (PInt 2) (PInt 1) quarter dobs) s))) effects /\ figures effects = [FMap X Y Q m; FImpact pts] /\
    circles m = [(Fin 0, Fin 0)] /\ star m = (Fin 0, Fin 0) /\ length (pluses m) = 7%nat.
Proof.
  destruct c66_example as (fuel & s & Nd & A & H). exists fuel, s. split; [exact Nd|]. split; [exact A|]. intros G Rg g. destruct (H G Rg g) as (events & E & _ & _ & Ar).
  destruct (c121_outcome_partial G (list xr) Rg (fun e _ _ => e) (fun _ => Ok tt) fuel elim_la (fun _ => map Fin [0; 0; 0; 1; 0; 0]) g _ (d_call 2 dobs) 1 A (d_reads 2 _ _ _) (ltac:(constructor))) as (S1 & S2).
  rewrite E in S1, S2. cbn [fst snd] in S1, S2. destruct (oneka_drawn _ _ _ _ _ _ _ _ _) as [effects r] eqn:ED. cbn [fst snd] in S1, S2. subst r.
  destruct (c121_stochastic_partial G (list xr) Rg (fun e _ _ => e) (fun _ => Ok tt) fuel elim_la (fun _ => map Fin [0; 0; 0; 1; 0; 0]) g _ (d_call 2 dobs) (Fin 1) effects RNone A (d_reads 2 _ _ _)
    (ltac:(constructor)) (ltac:(cbn; lia)) ED) as (kept & s' & X & Y & Q & m & pr & area & Rk & _ & _ & F & _ & _ & M1 & (w & W1 & W2) & M3).
  exists effects, X, Y, Q, m, (impact_drawn pr area). split; [reflexivity|]. split.
  { assert (I : In (EArchive (archived (d_args (PInt 2) (PInt 1) quarter dobs) s)) (seen effects)) by (rewrite S2; apply filter_In; split; [exact Ar|reflexivity]).
    apply in_flat_map in I. destruct I as ([e|f] & I1 & I2); [|contradiction]. destruct I2 as [->|[]]. exact I1. }
  split; [exact F|]. cbn [k_wells d_call k_target] in *. inversion M1 as [|w0 p lw lp -> M1']. inversion M1'. subst. split; [reflexivity|].
  injection W1 as <-. split; [exact W2|]. pose proof (d_retained 2) as K. unfold retained in Rk, K. rewrite K in Rk. injection Rk as <-. rewrite (same_length _ _ _ M3). reflexivity.
Qed.

(** The same call with an infinite smooth is accepted and meets the conditions of C121_lost_refuted. *)
Lemma c121_infinite_example : exists fuel, forall (G : Type) (Rg : rng xr G) g, exists events,
  let a := with_smooth (d_args (PInt 2) (PInt 1) quarter dobs) (PFloat PInf) in
  acceptable a /\ reads a (d_call 2 dobs) /\ number (smooth a) PInf /\
  oneka Rg (fun (e : list xr) _ _ => e) (fun _ => Ok tt) fuel elim_la (fun _ => map Fin [0; 0; 0; 1; 0; 0]) g a = (events, Ok RNone).
Proof.
  destruct c60_example as (fuel & s & W & Nd & D). exists fuel. intros G Rg g. destruct (D G Rg g) as (logs & E).
  set (a := with_smooth (d_args (PInt 2) (PInt 1) quarter dobs) (PFloat PInf)).
  assert (A : acceptable a).
  { destruct (d_acceptable (PInt 2) (PInt 1) quarter dobs one_dist quarter_dist dobs_seven dobs_os) as (A1 & A2 & A3 & A4 & A5 & A6). split; [exact A1|].
    split; [exact A2|]. split; [exact A3|]. split; [exact A4|]. split; [exists PInf; split; [constructor|exact I]|exact A6]. }
  assert (C : reads a (d_call 2 dobs)) by exact (d_reads 2 (PInt 1) quarter dobs).
  destruct (c80_stochastic G (list xr) Rg (fun e _ _ => e) (fun _ => Ok tt) fuel elim_la (fun _ => map Fin [0; 0; 0; 1; 0; 0]) g a (d_call 2 dobs) dobs 2 s logs
     A C (d_places 2 _) eq_refl (ltac:(cbn; lia)) (d_retained 2) dobs_seven E eq_refl) as (st & X & Y & P & pr & area & rows & nodes & _ & _ & _ & _ & _ & EE).
  eexists. split; [exact A|]. split; [exact C|]. split; [constructor|exact EE].
Qed.
