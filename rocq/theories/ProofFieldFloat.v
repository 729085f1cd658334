(** * The probability field in binary64 (C08, C19) *)
From Coq Require Import ZArith Reals Lra Lia SpecFloat.
From Verif Require Import Py Num NumXR Grid ModelField SpecField ProofGeom ProofField ProofInsert ProofOps ProofFieldProps ProofFloat.

(** ** A value invariant, for any arithmetic *)
Section Inv.
  Context {T : Type} {N : Num T}.
  Variables (J : Z -> T -> Prop) (Q : Z -> T -> T -> Prop).

  Definition inv_geom (n : Z) (g : geom T) : Prop :=
    J n (total_weight g) /\
    forall row v, In row (pgrid g) -> In v row -> Q n (total_weight g) v.
  Definition inv (n : Z) (s : pfield T) : Prop := forall g, body s = Some g -> inv_geom n g.

  Hypothesis Hzero : forall n W, J n W -> Q n W (nZ 0).
  Hypothesis Jzero : J 0 (nZ 0).

  Lemma in_const2 a b (v : T) row x : In row (const2 a b v) -> In x row -> x = v.
  Proof.
    unfold const2. intros H1 H2. apply repeat_spec in H1. subst. now apply repeat_spec in H2.
  Qed.

  Lemma get2_in (g : list (list T)) i j v : get2 g i j = Some v -> exists row, In row g /\ In v row.
  Proof.
    unfold get2. destruct (_ || _); [discriminate|]. destruct (nth_error g _) as [row|] eqn:E; [|discriminate].
    intros H. exists row. split; eapply nth_error_In; eauto.
  Qed.

  Lemma in_paste n m (v : T) rs cs old row x :
    In row (paste n m v rs cs old) -> In x row -> x = v \/ exists r, In r old /\ In x r.
  Proof.
    unfold paste. rewrite in_map_iff. intros (i & <- & _) H. apply in_map_iff in H.
    destruct H as (j & <- & _). destruct (get2 old (i - rs) (j - cs)) eqn:E; [right|left; reflexivity].
    now apply get2_in in E.
  Qed.

  Lemma in_mask_add p r (w : T) row x :
    In row (mask_add p r w) -> In x row -> exists r0 v, In r0 p /\ In v r0 /\ (x = nadd v w \/ x = v).
  Proof.
    unfold mask_add. rewrite in_map_iff. intros ([pr rr] & <- & H1) H2. apply in_map_iff in H2.
    destruct H2 as ([v b] & <- & H2). apply in_combine_l in H1. apply in_combine_l in H2.
    exists pr, v. destruct b; auto.
  Qed.

  Definition is_register (o : op T) : bool := match o with ORegister _ => true | _ => false end.

  Lemma inv_expand fuel n s a b c d :
    inv n s -> (body s = None -> n = 0%Z) -> inv n (fst (expand fuel s a b c d)).
  Proof.
    intros Hi Hn. unfold expand. destruct (nlt b a); [exact Hi|]. destruct (nlt d c); [exact Hi|].
    destruct (body s) as [g|] eqn:Eb.
    - unfold expand_more. destruct (grow_down _ _ _ _ _) as [[? ?]| |]; cbn [bind update fst]; try exact Hi.
      destruct (grow_up _ _ _ _ _) as [[? ?]| |]; cbn [bind update fst]; try exact Hi.
      destruct (grow_down _ _ _ _ _) as [[? ?]| |]; cbn [bind update fst]; try exact Hi.
      destruct (grow_up _ _ _ _ _) as [[? ?]| |]; cbn [bind update fst]; try exact Hi.
      destruct (Hi g Eb) as [HJ HQ].
      destruct (_ || _); cbn [update fst]; intros g' Eg; injection Eg as <-; split; cbn [total_weight pgrid]; auto.
      intros row v H1 H2. destruct (in_paste _ _ _ _ _ _ _ _ H1 H2) as [->|(r & H3 & H4)]; eauto.
    - rewrite (Hn eq_refl) in *. unfold expand_first.
      destruct (nceil _); cbn [bind update fst]; try exact Hi.
      destruct (nceil _); cbn [bind update fst]; try exact Hi.
      intros g' Eg; injection Eg as <-; split; cbn [total_weight pgrid]; auto.
      intros row v H1 H2. rewrite (in_const2 _ _ _ _ _ H1 H2). auto.
  Qed.

  Lemma expand_body fuel s a b c d : body (fst (expand fuel s a b c d)) = None -> body s = None.
  Proof.
    unfold expand. destruct (nlt b a); [auto|]. destruct (nlt d c); [auto|]. destruct (body s) as [g|] eqn:Eb; [|auto].
    destruct (expand_more _ _ _ _ _ _ _ _); cbn; congruence.
  Qed.

  Lemma insert_inv s n ax ay bx by_ u : inv n s -> inv n (fst (insert s ax ay bx by_ u)) /\
    (body (fst (insert s ax ay bx by_ u)) = None -> body s = None).
  Proof.
    intros Hi. unfold insert. destruct (body s) as [g|] eqn:Eb; [|cbn; auto].
    unfold insert_geom.
    destruct (nfloor _); cbn [bind update fst]; [|split; [auto|congruence]..].
    destruct (nfloor _); cbn [bind update fst]; [|split; [auto|congruence]..].
    destruct (nfloor _); cbn [bind update fst]; [|split; [auto|congruence]..].
    destruct (nfloor _); cbn [bind update fst]; [|split; [auto|congruence]..].
    match goal with |- context [for_in ?l ?f ?x] => destruct (for_in l f x) end; cbn [bind update fst]; [|split; [auto|congruence]..].
    split; [|discriminate]. intros g' Eg. injection Eg as <-. exact (Hi g Eb).
  Qed.

  Lemma segments_inv x : forall y s n u, inv n s -> inv n (fst (insert_segments s x y u)) /\
    (body (fst (insert_segments s x y u)) = None -> body s = None).
  Proof.
    induction x as [|x0 x IH]; intros y s n u Hi; [auto|].
    destruct x as [|x1 x]; [cbn; auto|]. cbn [insert_segments]. destruct y as [|y0 [|y1 y]]; auto.
    destruct (insert_inv s n x0 y0 x1 y1 u Hi) as [H1 H2]. destruct (insert s x0 y0 x1 y1 u) as [s' r]. cbn [fst] in *.
    destruct r; auto. destruct (IH (y1 :: y) s' n u H1) as [H3 H4]. split; auto.
  Qed.

  Lemma inv_op fuel n s o :
    inv n s -> (body s = None -> n = 0%Z) -> is_register o = false ->
    inv n (fst (run_op fuel s o)) /\ (body (fst (run_op fuel s o)) = None -> n = 0%Z) /\
    (body s <> None -> body (fst (run_op fuel s o)) <> None).
  Proof.
    intros Hi Hn Ho. destruct o; cbn [run_op] in *; try discriminate.
    - split; [now apply inv_expand|]. split; [intros H; apply Hn; eapply expand_body; eauto|].
      intros Hb H. apply Hb. eapply expand_body; eauto.
    - destruct (insert_inv s n ax ay bx by_ umbra Hi) as [H1 H2]. split; [exact H1|]. split; [auto|]. intros Hb Hc. apply Hb. auto.
    - unfold rasterize. destruct (pymin_list x) as [t| |]; [|auto..]. destruct (pymax_list x) as [t0| |]; [|auto..].
      destruct (pymin_list y) as [t1| |]; [|auto..]. destruct (pymax_list y) as [t2| |]; [|auto..].
      pose proof (inv_expand fuel n s t t0 t1 t2 Hi Hn) as H1. pose proof (expand_body fuel s t t0 t1 t2) as H2.
      destruct (expand fuel s t t0 t1 t2) as [s' r]. cbn [fst] in *.
      assert (Stay : inv n s' /\ (body s' = None -> n = 0%Z) /\ (body s <> None -> body s' <> None)).
      { split; [exact H1|]. split; [auto|]. intros Hb Hc. apply Hb. auto. }
      destruct r; [|exact Stay..]. destruct (segments_inv x y s' n umbra H1) as [H3 H4].
      split; [exact H3|]. split; [auto|]. intros Hb Hc. apply Hb. auto.
    - unfold reset. destruct (body s) as [g|] eqn:Eb; [|cbn; rewrite Eb; auto]. cbn. split; [|split; [discriminate|intros _; discriminate]].
      intros g' Eg. injection Eg as <-. exact (Hi g Eb).
  Qed.

  Variable okw : T -> Prop.
  Variable limit : Z.
  Hypothesis Hstep : forall n W w, (0 <= n < limit)%Z -> okw w -> J n W ->
    J (n + 1) (nadd W w) /\ forall v, Q n W v -> Q (n + 1) (nadd W w) (nadd v w) /\ Q (n + 1) (nadd W w) v.

  Definition count (l : list (op T)) : Z := Z.of_nat (length (filter is_register l)).

  Lemma inv_run fuel l : forall n s,
    inv n s -> (body s = None -> n = 0%Z) -> (0 <= n)%Z ->
    Forall (fun o => match o with ORegister w => okw w | _ => True end) l ->
    (n + count l <= limit)%Z ->
    exists m, (n <= m <= n + count l)%Z /\ inv m (run_ops fuel s l) /\ (body s <> None -> m = n + count l)%Z.
  Proof.
    induction l as [|o l IH]; intros n s Hi Hn Hpos Hf Hl.
    - exists n. unfold count. cbn. split; [lia|]. split; [exact Hi|]. lia.
    - inversion Hf as [|o' l' Ho Hf']; subst. unfold run_ops. cbn [fold_left]. fold (run_ops fuel (fst (run_op fuel s o)) l).
      assert (Hc : count (o :: l) = ((if is_register o then 1 else 0) + count l)%Z).
      { unfold count. cbn [filter]. destruct (is_register o); [|reflexivity]. cbn [length]. lia. }
      destruct (is_register o) eqn:Er.
      + destruct o; try discriminate. cbn [run_op]. unfold register.
        destruct (body s) as [g|] eqn:Eb.
        * cbn [fst]. assert (Hpos' : (0 <= n + 1)%Z) by lia.
          assert (Hlt : (0 <= n < limit)%Z) by (unfold count in Hl, Hc; lia).
          destruct (Hi g Eb) as [HJ HQ]. destruct (Hstep n (total_weight g) w Hlt Ho HJ) as [HJ' HQ'].
          match goal with |- context [run_ops fuel ?st l] => destruct (IH (n + 1)%Z st) as (m & Hm & Him & Hb) end; auto.
          -- intros g' Eg. injection Eg as <-. split; cbn [total_weight pgrid]; [exact HJ'|].
             intros row v H1 H2. destruct (in_mask_add _ _ _ _ _ H1 H2) as (r0 & v0 & H3 & H4 & [->| ->]).
             ++ exact (proj1 (HQ' v0 (HQ r0 v0 H3 H4))).
             ++ exact (proj2 (HQ' v0 (HQ r0 v0 H3 H4))).
          -- discriminate.
          -- rewrite Hc in Hl. lia.
          -- exists m. split; [lia|]. split; [exact Him|]. intros _. rewrite Hb by discriminate. lia.
        * cbn [fst]. destruct (IH n s Hi (fun _ => Hn eq_refl) Hpos Hf' ltac:(lia)) as (m & Hm & Him & Hb).
          exists m. split; [lia|]. split; [exact Him|]. intros Hs. exfalso. apply Hs. reflexivity.
      + destruct (inv_op fuel n s o Hi Hn Er) as (H1 & H2 & H3).
        destruct (IH n (fst (run_op fuel s o))) as (m & Hm & Him & Hb); auto; [lia|].
        exists m. split; [lia|]. split; [exact Him|]. intros Hs. rewrite Hb by auto. lia.
  Qed.

  Lemma inv_init dx dy xo yo s : pf_init dx dy xo yo = Ok s -> inv 0 s.
  Proof.
    unfold pf_init. destruct (nle dx _); [discriminate|]. destruct (nle dy _); [discriminate|].
    destruct (nisnan xo || nisnan yo); intros E; injection E as <-; intros g Eg; [discriminate|].
    injection Eg as <-. split; cbn [total_weight pgrid]; [exact Jzero|].
    intros row v H1 H2. rewrite (in_const2 _ _ _ _ _ H1 H2). auto.
  Qed.
End Inv.

(** ** C19 *)
(** Non-negative binary64 weights. *)
Definition fweight (o : op spec_float) : Prop :=
  match o with ORegister w => fnonneg w | _ => True end.
(** Every registered weight is 1.0. *)
Definition unit_weight (o : op spec_float) : Prop :=
  match o with ORegister w => w = f_of_Z 1 | _ => True end.
Definition registers (l : list (op spec_float)) : Z :=
  Z.of_nat (length (filter (fun o => match o with ORegister _ => true | _ => false end) l)).

Lemma c19_binary64_bounds : forall lm dx dy xo yo s0 fuel l,
  @pf_init _ (SF lm) dx dy xo yo = Ok s0 -> Forall fweight l ->
  forall g row v, body (@run_ops _ (SF lm) fuel s0 l) = Some g -> In row (pgrid g) -> In v row ->
    SFleb (f_of_Z 0) v = true /\ SFleb v (total_weight g) = true.
Proof.
  intros lm dx dy xo yo s0 fuel l H0 Hf g row v Eg H1 H2.
  set (J := fun (n : Z) (W : spec_float) => fnonneg W).
  set (Q := fun (n : Z) (W v : spec_float) => fnonneg v /\ SFleb v W = true).
  assert (Z0 : forall n W, J n W -> Q n W (f_of_Z 0)).
  { intros n W HJ. split; [apply f_zero_nonneg|apply HJ]. }
  pose proof (@inv_init _ (SF lm) J Q Z0 f_zero_nonneg dx dy xo yo s0 H0) as Hi.
  destruct (@inv_run _ (SF lm) J Q Z0 f_zero_nonneg fnonneg (count l)) with (fuel := fuel) (l := l) (n := 0%Z) (s := s0)
    as (m & _ & Him & _); auto; try lia.
  - intros n W w _ Hw HJ. split; [now apply fadd_nonneg|]. intros u [Hu1 Hu2]. split; (split; [|]).
    + now apply fadd_nonneg.
    + now apply fadd_mono.
    + exact Hu1.
    + now apply fadd_incr.
  - destruct (Him g Eg) as [_ HQ]. destruct (HQ row v H1 H2) as [[_ H3] H4]. auto.
Qed.

Lemma c19_unit_counts : forall lm dx dy xo yo s0 fuel l,
  @pf_init _ (SF lm) dx dy xo yo = Ok s0 -> Forall unit_weight l -> (registers l <= 2 ^ 53)%Z ->
  exists n, (0 <= n <= registers l)%Z /\ (body s0 <> None -> n = registers l) /\
    forall g, body (@run_ops _ (SF lm) fuel s0 l) = Some g ->
      total_weight g = f_of_Z n /\
      forall row v, In row (pgrid g) -> In v row -> exists k, (0 <= k <= n)%Z /\ v = f_of_Z k.
Proof.
  intros lm dx dy xo yo s0 fuel l H0 Hf Hc.
  set (J := fun (n : Z) (W : spec_float) => (0 <= n)%Z /\ W = f_of_Z n).
  set (Q := fun (n : Z) (W v : spec_float) => exists k, (0 <= k <= n)%Z /\ v = f_of_Z k).
  assert (Z0 : forall n W, J n W -> Q n W (f_of_Z 0)).
  { intros n W [HJ _]. exists 0%Z. split; [lia|reflexivity]. }
  assert (J0 : J 0%Z (f_of_Z 0)) by (split; [lia|reflexivity]).
  pose proof (@inv_init _ (SF lm) J Q Z0 J0 dx dy xo yo s0 H0) as Hi.
  destruct (@inv_run _ (SF lm) J Q Z0 J0 (fun w => w = f_of_Z 1) (2 ^ 53)%Z) with (fuel := fuel) (l := l) (n := 0%Z) (s := s0)
    as (m & Hm & Him & Hb); auto; try lia.
  - intros n W w Hn -> [HJ ->]. split; [split; [lia|]; apply count_step; lia|].
    intros u (k & Hk & ->). split.
    + exists (k + 1)%Z. split; [lia|]. apply count_step. lia.
    + exists k. split; [lia|reflexivity].
  - exists m. split; [exact Hm|]. split; [exact Hb|]. intros g Eg. destruct (Him g Eg) as [[_ H1] H2]. auto.
Qed.

(** ** C08 *)
Lemma grow_down_stuck lm fuel x lo d : forall n,
  SFleb x lo = true -> SFsub fprec femax lo d = lo -> @grow_down _ (SF lm) fuel x lo d n = NoFuel.
Proof.
  induction fuel as [|f IH]; intros n H1 H2; [reflexivity|]. cbn [grow_down nle SF]. rewrite H1.
  cbn [nsub SF]. rewrite H2. now apply IH.
Qed.

(** Centre (5000000, 5000000), spacing 1e-10: the box is just the centre point. *)
Lemma c08_expand_binary64_refuted : forall lm,
  let d := SFdiv fprec femax (f_of_Z 1) (f_of_Z (10 ^ 10)) in
  let b := f_of_Z 5000000 in
  exists s, @pf_init _ (SF lm) d d b b = Ok s /\
    SFltb (f_of_Z 0) d = true /\
    forall fuel, snd (@expand _ (SF lm) fuel s b b b b) = NoFuel.
Proof.
  intros lm d b.
  assert (E1 : SFleb d (f_of_Z 0) = false) by (vm_compute; reflexivity).
  assert (E2 : f_isnan b = false) by (vm_compute; reflexivity).
  assert (E3 : SFsub fprec femax b d = b) by (vm_compute; reflexivity).
  assert (E4 : SFltb (f_of_Z 0) d = true) by (vm_compute; reflexivity).
  assert (E5 : SFltb b b = false) by (vm_compute; reflexivity).
  assert (E6 : SFleb b b = true) by (vm_compute; reflexivity).
  clearbody d b. unfold pf_init. cbn [nle SF nZ nisnan]. rewrite E1, E2. cbn [orb].
  eexists. split; [reflexivity|]. split; [exact E4|]. intros fuel.
  unfold expand. cbn [nlt SF]. rewrite E5. cbn [body deltax deltay].
  unfold expand_more. cbn [xmin nsub SF]. rewrite E3.
  rewrite (grow_down_stuck lm fuel b b d 0); [reflexivity|exact E6|exact E3].
Qed.

(** A box with an infinite edge also makes the loop run forever, in any arithmetic with infinities. *)
Lemma c08_infinite_box_hangs : forall s fuel (a c d : R),
  wf s -> initialised s -> (c <= d)%R -> snd (expand fuel s (Fin a) PInf (Fin c) (Fin d)) = NoFuel.
Proof.
  intros s fuel a c d Hw Hi Hcd. destruct (wf_rep s Hw Hi) as (A & Hok & ->).
  unfold expand. cbn [nlt XR xlt]. rewrite (proj2 (Rltb_false d c)) by lra. cbn [body conc].
  change (deltax (conc A)) with (Fin (Dx A)). unfold expand_more. cbn [xmin xmax].
  assert (G : forall f x lo dd n, (exists r, grow_down (T:=xr) f x lo dd n = Ok r) \/ grow_down f x lo dd n = NoFuel).
  { induction f; intros; cbn; [auto|]. destruct (xle _ _); eauto. }
  match goal with |- context [grow_down ?f ?x ?l ?d ?n] => destruct (G f x l d n) as [([? ?] & ->)| ->] end; cbn [bind]; [|reflexivity].
  assert (U : forall f v n dd, grow_up (T:=xr) f PInf (Fin v) (Fin dd) n = NoFuel).
  { induction f; intros; cbn; auto. }
  rewrite U. reflexivity.
Qed.

(** With integer edges and spacing the binary64 lattice is exact and the loops stop. *)
Definition fbox (v : spec_float) : Prop :=
  valid v /\ SFleb (f_of_Z (- 2 ^ 52)) v = true /\ SFleb v (f_of_Z (2 ^ 52)) = true.

Lemma grow_down_int lm x d : (0 < d <= 2 ^ 51)%Z -> fbox x ->
  forall fuel k n, (- 2 ^ 53 <= k <= 2 ^ 53)%Z -> (k + 2 ^ 53 < Z.of_nat fuel)%Z ->
  exists r, @grow_down _ (SF lm) fuel x (f_of_Z k) (f_of_Z d) n = Ok r.
Proof.
  intros Hd (Hv & Hlo & Hhi). induction fuel as [|f IH]; intros k n Hk Hf; [lia|].
  cbn [grow_down nle SF]. destruct (SFleb x (f_of_Z k)) eqn:E; [|eauto].
  cbn [nsub SF]. assert (Hkx : (- 2 ^ 52 <= k)%Z) by (eapply leb_trans_int; eauto; lia).
  rewrite sub_int by lia. apply IH; lia.
Qed.

Lemma grow_up_int lm x d : (0 < d <= 2 ^ 51)%Z -> fbox x ->
  forall fuel k n, (- 2 ^ 53 <= k <= 2 ^ 53)%Z -> (2 ^ 53 - k < Z.of_nat fuel)%Z ->
  exists r, @grow_up _ (SF lm) fuel x (f_of_Z k) (f_of_Z d) n = Ok r.
Proof.
  intros Hd (Hv & Hlo & Hhi). induction fuel as [|f IH]; intros k n Hk Hf; [lia|].
  cbn [grow_up nle SF]. destruct (SFleb (f_of_Z k) x) eqn:E; [|eauto].
  cbn [nadd SF]. assert (Hkx : (k <= 2 ^ 52)%Z) by (eapply leb_trans_int'; eauto; lia).
  rewrite add_int by lia. apply IH; lia.
Qed.

Lemma c08_integer_lattice_partial : forall lm (s : pfield spec_float) g x0 x1 y0 y1 dx dy xmn xmx ymn ymx,
  body s = Some g -> deltax s = f_of_Z dx -> deltay s = f_of_Z dy ->
  (0 < dx <= 2 ^ 51)%Z -> (0 < dy <= 2 ^ 51)%Z ->
  xmin g = f_of_Z x0 -> xmax g = f_of_Z x1 -> ymin g = f_of_Z y0 -> ymax g = f_of_Z y1 ->
  (Z.abs x0 <= 2 ^ 52 /\ Z.abs x1 <= 2 ^ 52 /\ Z.abs y0 <= 2 ^ 52 /\ Z.abs y1 <= 2 ^ 52)%Z ->
  fbox xmn -> fbox xmx -> fbox ymn -> fbox ymx ->
  exists n, forall fuel, (n <= fuel)%nat -> snd (@expand _ (SF lm) fuel s xmn xmx ymn ymx) <> NoFuel.
Proof.
  intros lm s g x0 x1 y0 y1 dx dy xmn xmx ymn ymx Eb Edx Edy Hdx Hdy E1 E2 E3 E4 Hb F1 F2 F3 F4.
  exists (Z.to_nat (2 ^ 54)). intros fuel Hf.
  assert (Hf' : (2 ^ 54 <= Z.of_nat fuel)%Z).
  { apply Nat2Z.inj_le in Hf. rewrite Z2Nat.id in Hf; [exact Hf|]. apply Z.pow_nonneg. lia. }
  clear Hf. change (2 ^ 54)%Z with (2 * 2 ^ 53)%Z in Hf'.
  assert (P : (2 ^ 53 = 2 * 2 ^ 52)%Z) by reflexivity. assert (P' : (0 < 2 ^ 52)%Z) by reflexivity.
  set (b53 := (2 ^ 53)%Z) in *. 
  unfold expand. destruct (nlt _ _); [discriminate|]. destruct (nlt _ _); [discriminate|]. rewrite Eb.
  unfold expand_more. rewrite Edx, Edy, E1, E2, E3, E4. unfold b53 in *. 
  destruct (grow_down_int lm xmn dx Hdx F1 fuel x0 0%Z) as ([? ?] & ->); [lia|lia|]. cbn [bind].
  destruct (grow_up_int lm xmx dx Hdx F2 fuel x1 0%Z) as ([? ?] & ->); [lia|lia|]. cbn [bind].
  destruct (grow_down_int lm ymn dy Hdy F3 fuel y0 0%Z) as ([? ?] & ->); [lia|lia|]. cbn [bind].
  destruct (grow_up_int lm ymx dy Hdy F4 fuel y1 0%Z) as ([? ?] & ->); [lia|lia|]. cbn [bind].
  destruct (_ || _); discriminate.
Qed.

(** Spacing 6 around (2250, -2250), and a track box with
    fractional corners (1/3 etc.). *)
Lemma c08_integer_lattice_example : forall lm, exists s g,
  @pf_init _ (SF lm) (f_of_Z 6) (f_of_Z 6) (f_of_Z 2250) (f_of_Z (-2250)) = Ok s /\ body s = Some g /\
  xmin g = f_of_Z 2244 /\ xmax g = f_of_Z 2256 /\ ymin g = f_of_Z (-2256) /\ ymax g = f_of_Z (-2244) /\
  fbox (SFdiv fprec femax (f_of_Z 1) (f_of_Z 3)) /\
  fst (@expand _ (SF lm) 1000 s (SFdiv fprec femax (f_of_Z 1) (f_of_Z 3)) (f_of_Z 2300) (f_of_Z (-2250)) (f_of_Z (-2240)))
    <> s.
Proof.
  intros lm. eexists. eexists. split; [vm_compute; reflexivity|]. split; [reflexivity|].
  split; [vm_compute; reflexivity|]. split; [vm_compute; reflexivity|]. split; [vm_compute; reflexivity|].
  split; [vm_compute; reflexivity|]. split; [split; [|split]; vm_compute; reflexivity|].
  vm_compute. discriminate.
Qed.

(** A binary64 history: weights 1 and 0.1, the grid grows in between. *)
Definition fhistory : list (op spec_float) :=
  let h := SFdiv fprec femax (f_of_Z 1) (f_of_Z 2) in
  [ORasterize [f_of_Z 0; f_of_Z 3] [f_of_Z 0; f_of_Z 0] h; ORegister (f_of_Z 1);
   OInsert (f_of_Z 0) (f_of_Z 0) (f_of_Z 1) (f_of_Z 0) h;
   ORegister (SFdiv fprec femax (f_of_Z 1) (f_of_Z 10))].

Lemma c19_binary64_example : forall lm, exists s0 g,
  @pf_init _ (SF lm) (f_of_Z 1) (f_of_Z 1) (f_of_Z 0) (f_of_Z 0) = Ok s0 /\ Forall fweight fhistory /\
  body (@run_ops _ (SF lm) 50 s0 fhistory) = Some g /\ ncols g = 6%Z /\ nrows g = 3%Z /\
  get2 (pgrid g) 1 1 = Some (total_weight g) /\ get2 (pgrid g) 1 3 = Some (f_of_Z 1) /\
  get2 (pgrid g) 0 3 = Some (f_of_Z 0).
Proof.
  intros lm. eexists. eexists. split; [vm_compute; reflexivity|]. split.
  { repeat constructor; vm_compute; reflexivity. }
  split; [vm_compute; reflexivity|]. repeat split; vm_compute; reflexivity.
Qed.
