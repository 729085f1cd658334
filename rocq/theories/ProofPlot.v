(** * Proofs about the plots: C68-C71 *)
From Coq Require Import Reals Lra Lia Psatz Permutation Sorted.
From Verif Require Import Py Num NumXR Grid ModelField ModelObs ModelPlot SpecField SpecObs SpecPlot ProofField ProofFieldProps ProofStats.
Local Open Scope R_scope.

(** ** The nodes of a field *)
Definition conc_enum (a : abs) : list (point * R) :=
  concat (tab (NR a) (NC a) (fun i j => ((lat (X0 a) (Dx a) (C0 a + j), lat (Y0 a) (Dy a) (R0 a + i)), P a (R0 a + i) (C0 a + j)))).

Lemma in_concat_tab A nr nc (f : Z -> Z -> A) v :
  In v (concat (tab nr nc f)) <-> exists i j, (0 <= i < nr)%Z /\ (0 <= j < nc)%Z /\ v = f i j.
Proof.
  unfold tab. rewrite in_concat. split.
  - intros (row & H1 & H2). apply in_map_iff in H1. destruct H1 as (i & <- & Hi). apply in_map_iff in H2. destruct H2 as (j & <- & Hj).
    apply in_zrange in Hi, Hj. exists i, j. auto.
  - intros (i & j & Hi & Hj & ->). exists (map (fun j => f i j) (zrange 0 nc)). split.
    + apply in_map_iff. exists i. split; [reflexivity|]. apply in_zrange. exact Hi.
    + apply in_map_iff. exists j. split; [reflexivity|]. apply in_zrange. exact Hj.
Qed.

Lemma zrange_nodup a b : NoDup (zrange a b).
Proof. unfold zrange. apply FinFun.Injective_map_NoDup; [intros x y H; lia|apply seq_NoDup]. Qed.

Lemma nodup_concat_map {A B} (f : A -> list B) l : NoDup l -> (forall a, In a l -> NoDup (f a)) ->
  (forall a b x, In a l -> In b l -> In x (f a) -> In x (f b) -> a = b) -> NoDup (concat (map f l)).
Proof.
  induction l as [|a l IH]; intros Hl Hf Hd; cbn; [constructor|]. inversion Hl as [|? ? N1 N2]; subst.
  assert (D : forall x, In x (f a) -> ~ In x (concat (map f l))).
  { intros x Hx Hc. apply in_concat in Hc. destruct Hc as (r & Hr & Hx'). apply in_map_iff in Hr. destruct Hr as (b & <- & Hb).
    apply N1. rewrite (Hd a b x); cbn; auto. }
  assert (N3 : NoDup (concat (map f l))) by (apply IH; [exact N2|intros; apply Hf; cbn; auto|intros; eapply Hd; cbn; eauto]).
  pose proof (Hf a (or_introl eq_refl)) as N4. clear - D N3 N4.
  induction (f a) as [|x r IHr]; cbn; [exact N3|]. inversion N4; subst. constructor.
  - rewrite in_app_iff. intros [H|H]; [contradiction|]. exact (D x (or_introl eq_refl) H).
  - apply IHr; [intros y Hy; apply D; cbn; auto|assumption].
Qed.

Lemma conc_enumerates a : ok a -> enumerates (conc a) (conc_enum a).
Proof.
  intros Hok. pose proof Hok as (Hdx & Hdy & _). split.
  - unfold conc_enum, tab. rewrite concat_map, !map_map.
    rewrite (map_ext _ (fun i => map (fun j => (lat (X0 a) (Dx a) (C0 a + j), lat (Y0 a) (Dy a) (R0 a + i))) (zrange 0 (NC a)))) by (intros; rewrite map_map; reflexivity).
    apply nodup_concat_map; [apply zrange_nodup| |].
    + intros i _. apply FinFun.Injective_map_NoDup; [|apply zrange_nodup]. intros j j' H. injection H as H. apply lat_inj in H; [lia|assumption].
    + intros i i' x _ _ H1 H2. apply in_map_iff in H1, H2. destruct H1 as (j & <- & _), H2 as (j' & H & _). injection H as _ H. apply lat_inj in H; [lia|assumption].
  - intros x y w. unfold conc_enum. rewrite in_concat_tab. split.
    + intros (i & j & Hi & Hj & E). injection E as -> -> ->. exists (M a (R0 a + i) (C0 a + j)). apply conc_node; [exact Hok|].
      exists (R0 a + i)%Z, (C0 a + j)%Z. unfold inwin. repeat split; lia.
    + intros (m & H). apply conc_node in H; [|exact Hok]. destruct H as (p & q & Hw & -> & -> & -> & _). unfold inwin in Hw.
      exists (p - R0 a)%Z, (q - C0 a)%Z. split; [lia|]. split; [lia|]. replace (C0 a + (q - C0 a))%Z with q by lia. replace (R0 a + (p - R0 a))%Z with p by lia. reflexivity.
Qed.

Lemma enumerates_perm s l l' : enumerates s l -> enumerates s l' -> Permutation l l'.
Proof.
  intros [N1 H1] [N2 H2]. apply NoDup_Permutation; [eapply NoDup_map_inv; exact N1|eapply NoDup_map_inv; exact N2|].
  intros [[x y] w]. rewrite H1, H2. reflexivity.
Qed.

Lemma enumerates_init s l : enumerates s l -> l <> [] -> initialised s.
Proof.
  intros [_ H] Hl. destruct l as [|[[x y] w] l]; [congruence|]. destruct (proj1 (H x y w) (or_introl eq_refl)) as (m & g & _ & _ & _ & _ & _ & _ & E & _).
  unfold initialised. congruence.
Qed.

(** ** linspace *)
Lemma linspace_grid x0 d n : (2 <= n)%Z ->
  linspace (Fin x0) (Fin (x0 + IZR (n - 1) * d)) n = Ok (map (fun j => Fin (x0 + IZR j * d)) (zrange 0 n)).
Proof.
  intros Hn. unfold linspace. destruct (Z.ltb_spec n 0); [lia|]. destruct (Z.eqb_spec n 1); [lia|]. apply f_equal.
  apply map_ext_in. intros k Hk. apply in_zrange in Hk. destruct (Z.eqb_spec k (n - 1)) as [->|Hk']; [reflexivity|].
  assert (IZR (n - 1) <> 0) by (apply not_0_IZR; lia).
  cbn [nsub ndiv nadd nmul nZ XR xsub]. rewrite div_fin by assumption. cbn [xmul xadd]. apply f_equal. field. assumption.
Qed.

Lemma conc_axes a : ok a ->
  linspace (Fin (lat (X0 a) (Dx a) (C0 a))) (Fin (lat (X0 a) (Dx a) (C0 a + NC a - 1))) (NC a)
  = Ok (map (fun j => Fin (lat (X0 a) (Dx a) (C0 a + j))) (zrange 0 (NC a))) /\
  linspace (Fin (lat (Y0 a) (Dy a) (R0 a))) (Fin (lat (Y0 a) (Dy a) (R0 a + NR a - 1))) (NR a)
  = Ok (map (fun i => Fin (lat (Y0 a) (Dy a) (R0 a + i))) (zrange 0 (NR a))).
Proof.
  intros (_ & _ & Hc & Hr & _). split.
  - replace (lat (X0 a) (Dx a) (C0 a + NC a - 1)) with (lat (X0 a) (Dx a) (C0 a) + IZR (NC a - 1) * Dx a)
      by (unfold lat; rewrite !minus_IZR, plus_IZR; ring).
    rewrite linspace_grid by lia. apply f_equal, map_ext. intros j. apply f_equal. unfold lat. rewrite plus_IZR. ring.
  - replace (lat (Y0 a) (Dy a) (R0 a + NR a - 1)) with (lat (Y0 a) (Dy a) (R0 a) + IZR (NR a - 1) * Dy a)
      by (unfold lat; rewrite !minus_IZR, plus_IZR; ring).
    rewrite linspace_grid by lia. apply f_equal, map_ext. intros j. apply f_equal. unfold lat. rewrite plus_IZR. ring.
Qed.

(** ** Probabilities *)
Lemma map_tab {A B} (h : A -> B) nr nc f : map (map h) (tab nr nc f) = tab nr nc (fun i j => h (f i j)).
Proof. unfold tab. rewrite map_map. apply map_ext. intros i. rewrite map_map. reflexivity. Qed.

Lemma conc_probs a g : body (conc a) = Some g -> 0 < W a ->
  prob_grid g = tab (NR a) (NC a) (fun i j => Fin (P a (R0 a + i) (C0 a + j) / W a)).
Proof.
  intros E HW. injection E as <-. unfold prob_grid. cbn [pgrid total_weight]. rewrite map_tab. apply tab_ext. intros i j _ _.
  cbn [ndiv XR]. apply div_fin. lra.
Qed.

Definition probs (a : abs) : list R := map (fun n => snd n / W a) (conc_enum a).

Lemma conc_probs_flat a g : body (conc a) = Some g -> 0 < W a -> concat (prob_grid g) = map Fin (probs a).
Proof.
  intros E HW. rewrite (conc_probs a g E HW). unfold probs, conc_enum. rewrite map_map, concat_map. f_equal. unfold tab. rewrite map_map.
  apply map_ext. intros i. rewrite map_map. reflexivity.
Qed.

Lemma conc_enum_length a : ok a -> (9 <= length (conc_enum a))%nat.
Proof.
  intros (_ & _ & Hc & Hr & _). unfold conc_enum, tab.
  assert (E : forall l, length (concat (map (fun i : Z => map (fun j : Z => (lat (X0 a) (Dx a) (C0 a + j), lat (Y0 a) (Dy a) (R0 a + i), P a (R0 a + i) (C0 a + j))) (zrange 0 (NC a))) l))
                        = (length l * Z.to_nat (NC a))%nat).
  { induction l as [|i l IH]; [reflexivity|]. cbn [map concat]. rewrite app_length, IH, map_length, zrange_length, Z.sub_0_r. cbn [length]. lia. }
  rewrite E, zrange_length, Z.sub_0_r. nia.
Qed.

Lemma sorted_rev (l : list R) : StronglySorted Rle l -> StronglySorted Rge (rev l).
Proof.
  intros H. induction H as [|x l Hs IH Hf]; cbn; [constructor|].
  assert (Q : forall m, StronglySorted Rge m -> Forall (fun y => y >= x) m -> StronglySorted Rge (m ++ [x])).
  { clear. intros m H. induction H as [|y m Hs IH Hf]; intros F; cbn; [repeat constructor|]. inversion F; subst. constructor; [auto|].
    apply Forall_app. split; [exact Hf|]. constructor; [assumption|constructor]. }
  apply Q; [exact IH|]. apply Forall_rev. eapply Forall_impl; [|exact Hf]. cbn. intros; lra.
Qed.

(** C68: the first result lists the probabilities of all nodes in descending order, the second the multiples of
    the cell area; CaptureZoneError exactly when the total weight is not positive. *)
Lemma c68_curve : forall (s : pfield xr) (sp W : R) (l : list (point * R)),
  wf s -> total s W -> enumerates s l ->
  (create_impact_plot (Fin sp) s = Raise CaptureZoneError <-> W <= 0) /\
  (0 < W -> exists pr,
     create_impact_plot (Fin sp) s = Ok (map Fin pr, map (fun k => Fin (INR (k + 1) * (sp * sp))) (seq 0 (length pr))) /\
     Permutation pr (map (fun n => snd n / W) l) /\ StronglySorted Rge pr).
Proof.
  intros s sp W l Hwf (g & Eg & EW) En. destruct (wf_rep s Hwf) as (a & Hok & ->); [unfold initialised; congruence|].
  assert (EWa : ProofField.W a = W) by (injection Eg as <-; cbn in EW; congruence). subst W.
  unfold create_impact_plot. rewrite Eg, EW. cbn [nle nZ XR xle].
  destruct (Rleb_spec (ProofField.W a) 0) as [L|L].
  - split; [split; auto|intros; lra].
  - split; [split; [discriminate|intros; lra]|]. intros HW. exists (rev (rsort (probs a))).
    rewrite (conc_probs_flat a g Eg HW), nsort_R, <- map_rev, map_length. split; [|split].
    + apply f_equal. f_equal. apply map_ext. intros k. cbn [nmul nZ nsq XR xmul]. rewrite INR_IZR_INZ, Nat2Z.inj_add. reflexivity.
    + etransitivity; [symmetry; apply Permutation_rev|]. etransitivity; [symmetry; apply rsort_perm|]. apply Permutation_map.
      eapply enumerates_perm; [apply conc_enumerates; exact Hok|exact En].
    + apply sorted_rev, rsort_sorted.
Qed.

(** The nodes can be listed, in one way up to order; there are at least nine. *)
Lemma c68_enumeration : forall s : pfield xr, wf s -> initialised s ->
  (exists l, enumerates s l /\ (9 <= length l)%nat) /\
  forall l l', enumerates s l -> enumerates s l' -> Permutation l l'.
Proof.
  intros s Hw Hi. destruct (wf_rep s Hw Hi) as (a & Hok & ->). split.
  - exists (conc_enum a). split; [apply conc_enumerates|apply conc_enum_length]; exact Hok.
  - intros l l'. apply enumerates_perm.
Qed.

(** A field without grids: AttributeError from all three plots, in any arithmetic. *)
Lemma c68_uninitialised : forall (T : Type) (N : Num T) (sp : T) (s : pfield T), body s = None ->
  create_impact_plot sp s = Raise AttributeError /\ create_probability_plot s = Raise AttributeError /\
  create_deterministic_plot s = Raise AttributeError.
Proof. intros T N sp s E. unfold create_impact_plot, create_probability_plot, create_deterministic_plot. rewrite E. auto. Qed.

(** ** C71 *)

(** The axes are the coordinates of the grid lines of the field; at the crossing of the j-th vertical and the i-th
    horizontal line stands a node whose probability is the plotted value; every node is plotted. *)
Lemma c71_axes : forall (s : pfield xr) (W : R), wf s -> total s W -> 0 < W ->
  exists g dx dy x0 y0 P,
    body s = Some g /\ deltax s = Fin dx /\ deltay s = Fin dy /\ xmin g = Fin x0 /\ ymin g = Fin y0 /\
    create_probability_plot s = Ok (map (fun j => Fin (x0 + IZR j * dx)) (zrange 0 (ncols g)),
                                    map (fun i => Fin (y0 + IZR i * dy)) (zrange 0 (nrows g)), P) /\
    (forall i j, (0 <= i < nrows g)%Z -> (0 <= j < ncols g)%Z ->
       exists w m, has_node s (x0 + IZR j * dx) (y0 + IZR i * dy) w m /\ get2 P i j = Some (Fin (w / W))) /\
    (forall x y w m, has_node s x y w m ->
       exists i j, (0 <= i < nrows g)%Z /\ (0 <= j < ncols g)%Z /\ x = x0 + IZR j * dx /\ y = y0 + IZR i * dy).
Proof.
  intros s W Hwf (g & Eg & EW) HW. destruct (wf_rep s Hwf) as (a & Hok & ->); [unfold initialised; congruence|].
  assert (EWa : ProofField.W a = W) by (injection Eg as <-; cbn in EW; congruence). subst W.
  exists g, (Dx a), (Dy a), (lat (X0 a) (Dx a) (C0 a)), (lat (Y0 a) (Dy a) (R0 a)), (prob_grid g).
  split; [exact Eg|]. split; [reflexivity|]. split; [reflexivity|].
  split; [injection Eg as <-; reflexivity|]. split; [injection Eg as <-; reflexivity|].
  destruct (conc_axes a Hok) as [AX AY].
  assert (LX : forall j, lat (X0 a) (Dx a) (C0 a) + IZR j * Dx a = lat (X0 a) (Dx a) (C0 a + j)) by (intros; unfold lat; rewrite plus_IZR; ring).
  assert (LY : forall j, lat (Y0 a) (Dy a) (R0 a) + IZR j * Dy a = lat (Y0 a) (Dy a) (R0 a + j)) by (intros; unfold lat; rewrite plus_IZR; ring).
  assert (EN : ncols g = NC a /\ nrows g = NR a) by (injection Eg as <-; auto). destruct EN as [ENC ENR]. rewrite ENC, ENR.
  split; [|split].
  - unfold create_probability_plot. rewrite Eg, EW. cbn [nle nZ XR xle]. destruct (Rleb_spec (ProofField.W a) 0); [lra|].
    replace (xmin g) with (Fin (lat (X0 a) (Dx a) (C0 a))) by (injection Eg as <-; reflexivity).
    replace (xmax g) with (Fin (lat (X0 a) (Dx a) (C0 a + NC a - 1))) by (injection Eg as <-; reflexivity).
    replace (ymin g) with (Fin (lat (Y0 a) (Dy a) (R0 a))) by (injection Eg as <-; reflexivity).
    replace (ymax g) with (Fin (lat (Y0 a) (Dy a) (R0 a + NR a - 1))) by (injection Eg as <-; reflexivity).
    rewrite ENC, ENR, AX, AY. cbn [bind]. apply f_equal. f_equal. f_equal; apply map_ext; intros j; apply f_equal; auto.
  - intros i j Hi Hj. exists (P a (R0 a + i) (C0 a + j)), (M a (R0 a + i) (C0 a + j)). split.
    + apply conc_node; [exact Hok|]. exists (R0 a + i)%Z, (C0 a + j)%Z. unfold inwin. rewrite LX, LY. repeat split; lia.
    + rewrite (conc_probs a g Eg HW), get2_tab. replace (inb _ _ _ _) with true by (symmetry; apply inb_true; lia). reflexivity.
  - intros x y w m H. apply conc_node in H; [|exact Hok]. destruct H as (p & q & Hw & -> & -> & _). unfold inwin in Hw.
    exists (p - R0 a)%Z, (q - C0 a)%Z. rewrite LX, LY. replace (C0 a + (q - C0 a))%Z with q by lia. replace (R0 a + (p - R0 a))%Z with p by lia. repeat split; lia.
Qed.

(** The spacings never change, in any arithmetic. *)
Lemma run_op_spacing {T} {N : Num T} fuel (s : pfield T) o : deltax (fst (run_op fuel s o)) = deltax s /\ deltay (fst (run_op fuel s o)) = deltay s.
Proof.
  assert (U : forall (s : pfield T) r, deltax (fst (update s r)) = deltax s /\ deltay (fst (update s r)) = deltay s) by (intros s0 [g|e|]; cbn; auto).
  assert (X : forall (s : pfield T) a b c d, deltax (fst (expand fuel s a b c d)) = deltax s /\ deltay (fst (expand fuel s a b c d)) = deltay s).
  { intros s0 a b c d. unfold expand. destruct (nlt _ _); [cbn; auto|]. destruct (nlt _ _); [cbn; auto|]. destruct (body s0); apply U. }
  assert (I : forall (s : pfield T) a b c d u, deltax (fst (insert s a b c d u)) = deltax s /\ deltay (fst (insert s a b c d u)) = deltay s).
  { intros s0 a b c d u. unfold insert. destruct (body s0); [apply U|cbn; auto]. }
  assert (J : forall x y (s : pfield T) u, deltax (fst (insert_segments s x y u)) = deltax s /\ deltay (fst (insert_segments s x y u)) = deltay s).
  { induction x as [|x0 x IH]; intros y s0 u; [cbn; auto|]. destruct x as [|x1 x]; [cbn; auto|]. destruct y as [|y0 [|y1 y]]; try (cbn; auto; fail).
    cbn [insert_segments]. pose proof (I s0 x0 y0 x1 y1 u) as [I1 I2]. destruct (insert s0 x0 y0 x1 y1 u) as [s1 [v|e|]]; cbn [fst] in *; auto.
    destruct (IH (y1 :: y) s1 u) as [J1 J2]. cbn [insert_segments] in J1, J2. rewrite <- I1, <- I2. exact (conj J1 J2). }
  destruct o; cbn [run_op]; auto.
  - unfold rasterize. destruct (pymin_list x); [|cbn; auto..]. destruct (pymax_list x); [|cbn; auto..]. destruct (pymin_list y); [|cbn; auto..]. destruct (pymax_list y); [|cbn; auto..].
    pose proof (X s a a0 a1 a2) as [X1 X2]. destruct (expand fuel s a a0 a1 a2) as [s1 [v|e|]]; cbn [fst] in *; auto.
    destruct (J x y s1 umbra) as [J1 J2]. split; congruence.
  - unfold register. destruct (body s); cbn; auto.
  - unfold reset. destruct (body s); cbn; auto.
Qed.
Lemma run_ops_spacing {T} {N : Num T} fuel l : forall s : pfield T, deltax (run_ops fuel s l) = deltax s /\ deltay (run_ops fuel s l) = deltay s.
Proof.
  unfold run_ops. induction l as [|o l IH]; intros s; cbn [fold_left]; [auto|]. destruct (IH (fst (run_op fuel s o))) as [A B], (run_op_spacing fuel s o) as [C D]. split; congruence.
Qed.

(** The fields that can be reached from the constructor are of this kind. *)
Lemma c71_reachable : forall dx dy xo yo s0 fuel l W,
  fin_or_nan xo -> fin_or_nan yo -> pf_init (Fin dx) (Fin dy) xo yo = Ok s0 -> Forall finite_weight l ->
  let s := run_ops fuel s0 l in total s W -> 0 < W ->
  exists g x0 y0 P, body s = Some g /\ xmin g = Fin x0 /\ ymin g = Fin y0 /\
    create_probability_plot s = Ok (map (fun j => Fin (x0 + IZR j * dx)) (zrange 0 (ncols g)),
                                    map (fun i => Fin (y0 + IZR i * dy)) (zrange 0 (nrows g)), P).
Proof.
  intros dx dy xo yo s0 fuel l W Hx Hy H0 Hl s HT HW.
  assert (W0 : wf s0 /\ deltax s0 = Fin dx /\ deltay s0 = Fin dy).
  { assert (Hdx : 0 < dx).
    { destruct (Rle_lt_dec dx 0) as [L|L]; [|exact L]. exfalso. assert (E : pf_init (Fin dx) (Fin dy) xo yo = Raise RangeError) by (apply c01_constructor_rejects; auto). congruence. }
    assert (Hdy : 0 < dy).
    { destruct (Rle_lt_dec dy 0) as [L|L]; [|exact L]. exfalso. assert (E : pf_init (Fin dx) (Fin dy) xo yo = Raise RangeError) by (apply c01_constructor_rejects; auto). congruence. }
    split.
    - destruct Hx as [(x0 & ->)| ->].
      + destruct Hy as [(y0 & ->)| ->].
        * destruct (c01_constructor_centred dx dy x0 y0 Hdx Hdy) as (s' & E & Wf & _). congruence.
        * destruct (c01_constructor_uncentred dx dy (Fin x0) NaN Hdx Hdy) as (s' & E & Wf & _); [auto|congruence].
      + destruct (c01_constructor_uncentred dx dy NaN yo Hdx Hdy) as (s' & E & Wf & _); [auto|congruence].
    - unfold pf_init in H0. destruct (nle (Fin dx) (nZ 0)); [discriminate|]. destruct (nle (Fin dy) (nZ 0)); [discriminate|].
      destruct (nisnan xo || nisnan yo); injection H0 as <-; auto. }
  destruct W0 as (W0 & E1 & E2). assert (Wf : wf s) by (apply run_ops_wf; auto).
  assert (ED : deltax s = Fin dx /\ deltay s = Fin dy).
  { destruct (run_ops_spacing fuel l s0) as [A B]. subst s. rewrite A, B. auto. }
  destruct (c71_axes s W Wf HT HW) as (g & dx' & dy' & x0 & y0 & P & Eg & F1 & F2 & F3 & F4 & F5 & _).
  destruct ED as [ED1 ED2]. rewrite ED1 in F1. rewrite ED2 in F2. injection F1 as <-. injection F2 as <-.
  exists g, x0, y0, P. auto.
Qed.

(** ** C70 *)
Lemma filter_perm {A} (f : A -> bool) l l' : Permutation l l' -> Permutation (filter f l) (filter f l').
Proof.
  induction 1; cbn; [constructor| | |etransitivity; eassumption].
  - destruct (f x); [constructor|]; assumption.
  - destruct (f x), (f y); try reflexivity. constructor.
Qed.
Lemma exceeding_perm W p l l' : Permutation l l' -> exceeding W p l = exceeding W p l'.
Proof. intros H. apply Permutation_length, filter_perm, H. Qed.
Lemma captured_perm l l' : Permutation l l' -> captured l = captured l'.
Proof. intros H. apply Permutation_length, filter_perm, H. Qed.

Lemma area_row (z : Z -> R) cell rng : forall (body : nat -> xr -> res xr) acc,
  (forall j a, In j rng -> body j (Fin a) = Ok (Fin (if Rlt_dec 0 (z (Z.of_nat j)) then a + cell else a))) ->
  for_in rng body (Fin acc) = Ok (Fin (acc + INR (length (filter (fun j => if Rlt_dec 0 (z (Z.of_nat j)) then true else false) rng)) * cell)).
Proof.
  induction rng as [|j rng IH]; intros body acc H; cbn [for_in filter length]; [apply f_equal, f_equal; cbn; ring|].
  rewrite H by (left; reflexivity). cbn [bind]. rewrite IH by (intros; apply H; right; assumption).
  destruct (Rlt_dec 0 (z (Z.of_nat j))); cbn [length]; apply f_equal, f_equal; rewrite ?S_INR; ring.
Qed.

Lemma area_rows (f : nat -> nat) cell rng : forall (body : nat -> xr -> res xr) acc,
  (forall i a, In i rng -> body i (Fin a) = Ok (Fin (a + INR (f i) * cell))) ->
  for_in rng body (Fin acc) = Ok (Fin (acc + INR (fold_right (fun i n => f i + n)%nat O rng) * cell)).
Proof.
  induction rng as [|i rng IH]; intros body acc H; cbn [for_in fold_right]; [apply f_equal, f_equal; cbn; ring|].
  rewrite H by (left; reflexivity). cbn [bind]. rewrite IH by (intros; apply H; right; assumption).
  apply f_equal, f_equal. rewrite plus_INR. ring.
Qed.

Lemma captured_concat_map {A B} (f : B -> bool) (row : A -> list B) l :
  length (filter f (concat (map row l))) = fold_right (fun i n => length (filter f (row i)) + n)%nat O l.
Proof. induction l as [|a l IH]; [reflexivity|]. cbn [map concat fold_right]. rewrite filter_app, app_length, IH. reflexivity. Qed.

Lemma filter_map_length {A B} (f : B -> bool) (g : A -> B) l : length (filter f (map g l)) = length (filter (fun a => f (g a)) l).
Proof. induction l as [|a l IH]; [reflexivity|]. cbn. destruct (f (g a)); cbn; rewrite IH; reflexivity. Qed.

Lemma fold_right_map_seq (f : Z -> nat) n : forall k,
  fold_right (fun i m => f i + m)%nat O (map (fun k : nat => (0 + Z.of_nat k)%Z) (seq k n))
  = fold_right (fun i m => f (Z.of_nat i) + m)%nat O (seq k n).
Proof. induction n as [|n IH]; intros k; [reflexivity|]. cbn [seq map fold_right]. rewrite IH. reflexivity. Qed.

(** C70: the area is the number of nodes of positive weight times the area of a cell. *)
Lemma c70_area : forall (s : pfield xr) (W dx dy : R) (l : list (point * R)),
  wf s -> total s W -> 0 < W -> deltax s = Fin dx -> deltay s = Fin dy -> enumerates s l ->
  create_deterministic_plot s = Ok (Fin (INR (captured l) * (dx * dy))).
Proof.
  intros s W dx dy l Hwf (g & Eg & EW) HW Ex Ey En. destruct (wf_rep s Hwf) as (a & Hok & ->); [unfold initialised; congruence|].
  assert (EWa : ProofField.W a = W) by (injection Eg as <-; cbn in EW; congruence). subst W.
  cbn [deltax deltay conc] in Ex, Ey. injection Ex as <-. injection Ey as <-.
  rewrite <- (captured_perm _ _ (enumerates_perm _ _ _ (conc_enumerates a Hok) En)).
  pose proof (conc_probs a g Eg HW) as EP. pose proof Hok as (Hdx & Hdy & Hc & Hr & _). destruct (conc_axes a Hok) as [AX AY].
  unfold create_deterministic_plot. rewrite Eg, EW. cbn [nle nZ XR xle]. destruct (Rleb_spec (ProofField.W a) 0); [lra|]. rewrite EP.
  injection Eg as <-. cbn [xmin xmax ymin ymax nrows ncols]. rewrite AX, AY. cbn [bind].
  rewrite !map_length, !zrange_length, !Z.sub_0_r.
  assert (N0 : forall f n, (0 < n)%Z -> py_nth (map (fun j => Fin (f j)) (zrange 0 n)) 0 = Ok (Fin (f 0%Z))).
  { intros f k Hk. unfold py_nth. rewrite nth_error_map, nth_error_zrange. cbn [Z.of_nat]. rewrite Z.sub_0_r. destruct (Z.ltb_spec 0 k); [|lia]. reflexivity. }
  assert (N1 : forall f n, (1 < n)%Z -> py_nth (map (fun j => Fin (f j)) (zrange 0 n)) 1 = Ok (Fin (f 1%Z))).
  { intros f k Hk. unfold py_nth. rewrite nth_error_map, nth_error_zrange. cbn [Z.of_nat Pos.of_succ_nat]. rewrite Z.sub_0_r. destruct (Z.ltb_spec 1 k); [|lia]. reflexivity. }
  rewrite (N0 (fun j => lat (X0 a) (Dx a) (C0 a + j))) by lia. rewrite (N1 (fun j => lat (X0 a) (Dx a) (C0 a + j))) by lia.
  rewrite (N0 (fun j => lat (Y0 a) (Dy a) (R0 a + j))) by lia. rewrite (N1 (fun j => lat (Y0 a) (Dy a) (R0 a + j))) by lia. cbn [bind].
  cbn [nsub nmul XR xsub xmul].
  replace (lat (X0 a) (Dx a) (C0 a + 1) - lat (X0 a) (Dx a) (C0 a + 0)) with (Dx a) by (unfold lat; rewrite !plus_IZR; ring).
  replace (lat (Y0 a) (Dy a) (R0 a + 1) - lat (Y0 a) (Dy a) (R0 a + 0)) with (Dy a) by (unfold lat; rewrite !plus_IZR; ring).
  set (pos := fun i j => if Rlt_dec 0 (P a (R0 a + i) (C0 a + j)) then true else false).
  change (nZ 0) with (Fin 0).
  rewrite (area_rows (fun i => length (filter (fun j => pos (Z.of_nat i) (Z.of_nat j)) (seq 0 (Z.to_nat (NC a))))) (Dx a * Dy a)).
  - apply f_equal, f_equal. rewrite Rplus_0_l. apply f_equal2; [|reflexivity]. apply f_equal. unfold captured, conc_enum, tab. rewrite captured_concat_map.
    unfold zrange at 2. rewrite Z.sub_0_r.
    rewrite (fold_right_map_seq (fun i => length (filter (fun n : point * R => if Rlt_dec 0 (snd n) then true else false)
       (map (fun j : Z => (lat (X0 a) (Dx a) (C0 a + j), lat (Y0 a) (Dy a) (R0 a + i), P a (R0 a + i) (C0 a + j))) (zrange 0 (NC a)))))).
    induction (seq 0 (Z.to_nat (NR a))) as [|i r IH]; [reflexivity|]. cbn [fold_right]. rewrite IH. apply f_equal2; [|reflexivity].
    rewrite filter_map_length. cbn [snd]. unfold zrange. rewrite Z.sub_0_r, filter_map_length. reflexivity.
  - intros i acc Hi. apply in_seq in Hi.
    rewrite (area_row (fun j => P a (R0 a + Z.of_nat i) (C0 a + j)) (Dx a * Dy a)); [reflexivity|].
    intros j acc' Hj. apply in_seq in Hj. rewrite get2_tab. replace (inb _ _ _ _) with true by (symmetry; apply inb_true; lia).
    cbn [nlt XR xlt]. destruct (Rltb_spec 0 (P a (R0 a + Z.of_nat i) (C0 a + Z.of_nat j) / ProofField.W a)) as [L|L];
      destruct (Rlt_dec 0 (P a (R0 a + Z.of_nat i) (C0 a + Z.of_nat j))) as [L'|L']; try reflexivity; exfalso.
    + apply L'. unfold Rdiv in L. apply Rmult_lt_reg_r with (/ ProofField.W a); [apply Rinv_0_lt_compat, HW|]. lra.
    + apply L. apply Rdiv_lt_0_compat; assumption.
Qed.
