(** * The elapsed time of a trace in binary64 *)
From Coq Require Import ZArith Reals Lra Lia SpecFloat List Bool.
From Flocq Require Import Core BinarySingleNaN.
From Verif Require Import Py Num ModelTrace ProofFloat ProofFloatGrow ProofFloatOps ProofFloatMean ProofFloatGrid.
From Verif Require Import SpecFloats SpecFloatTrace.
Import ListNotations.
Local Open Scope R_scope.
Local Notation fx := (FLT_exp (-1074) 53).
Local Notation F := (generic_format radix2 fx).
Local Notation rd := (round radix2 fx ZnearestE).
Local Instance P53 : Prec_gt_0 53. Proof. reflexivity. Qed.
Local Instance Hprec : FLX.Prec_gt_0 fprec. Proof. reflexivity. Qed.
Local Instance Hmax : Prec_lt_emax fprec femax. Proof. reflexivity. Qed.

(** ** Real numbers *)
Lemma ulp_twice D : 0 < D -> ulp radix2 fx (2 * D) <= 2 * ulp radix2 fx D.
Proof.
  intros H. rewrite !ulp_neq_0 by lra. unfold cexp.
  assert (M : mag radix2 (2 * D) = (mag radix2 D + 1)%Z :> Z).
  { rewrite Rmult_comm. change 2 with (bpow radix2 1). apply mag_mult_bpow. lra. }
  rewrite M. change 2 with (bpow radix2 1). rewrite <- bpow_plus. apply bpow_le. unfold FLT_exp. lia.
Qed.
Lemma half_error x : Rabs (rd x - x) <= / 2 * ulp radix2 fx x.
Proof. apply error_le_half_ulp. typeclasses eauto. Qed.

(** The last step lands at most one place past the end. *)
Lemma overstep t D : F t -> F D -> 0 < D -> - D <= t <= D -> 0 <= rd (t + rd (D - t)) <= succ radix2 fx D.
Proof.
  intros Ft FD P B.
  assert (E : Rabs (rd (D - t) - (D - t)) <= ulp radix2 fx D).
  { eapply Rle_trans; [apply half_error|]. assert (ulp radix2 fx (D - t) <= ulp radix2 fx (2 * D)) by (apply ulp_le_pos; [typeclasses eauto|typeclasses eauto|lra|lra]).
    pose proof (ulp_twice D P). lra. }
  apply Rabs_le_inv in E. pose proof (ulp_le_id radix2 fx D P FD) as U.
  apply rd_between.
  - apply generic_format_0.
  - apply generic_format_succ; [typeclasses eauto|exact FD].
  - rewrite succ_eq_pos by lra. lra.
Qed.

(** ... and not past it when the last digit of the duration is 0. *)
Lemma middle D n e : F D -> 0 < D -> (Z.abs n < 2 ^ 52)%Z -> (-1073 <= e)%Z -> D = IZR n * bpow radix2 e -> rd (D + / 2 * ulp radix2 fx D) = D.
Proof.
  intros FD P Hn He E. set (c := cexp radix2 fx D).
  assert (LC : (c < e)%Z).
  { unfold c, cexp, FLT_exp. assert (M : (mag radix2 D <= 52 + e)%Z).
    { apply mag_le_bpow; [lra|]. rewrite E, Rabs_mult, (Rabs_pos_eq (bpow radix2 e)) by apply bpow_ge_0. rewrite bpow_plus. apply Rmult_lt_compat_r; [apply bpow_gt_0|].
      rewrite <- abs_IZR. change (bpow radix2 52) with (IZR (2 ^ 52)). apply IZR_lt. exact Hn. }
    lia. }
  set (m := (n * 2 ^ (e - c))%Z).
  assert (Em : D = IZR m * bpow radix2 c).
  { unfold m. rewrite mult_IZR. assert (X : IZR (2 ^ (e - c)) = bpow radix2 (e - c)) by (apply (IZR_Zpower radix2); lia). rewrite X, Rmult_assoc, <- bpow_plus.
    replace (e - c + c)%Z with e by lia. exact E. }
  assert (Ev : Z.even m = true).
  { unfold m. replace (e - c)%Z with (1 + (e - c - 1))%Z by lia. rewrite Z.pow_add_r by lia. rewrite Z.mul_assoc, Z.even_mul, Z.even_mul. change (Z.even (2 ^ 1)) with true. rewrite orb_true_r. reflexivity. }
  rewrite ulp_neq_0 by lra. fold c.
  assert (HM : mag radix2 (D + / 2 * bpow radix2 c) = mag radix2 D :> Z).
  { apply mag_unique_pos. destruct (mag radix2 D) as (k & Hk). cbn [mag_val]. assert (NZ : D <> 0) by lra. specialize (Hk NZ). rewrite Rabs_pos_eq in Hk by lra.
    pose proof (bpow_gt_0 radix2 c). split; [lra|].
    pose proof (id_p_ulp_le_bpow radix2 fx D k P FD (proj2 Hk)) as X. rewrite ulp_neq_0 in X by lra. fold c in X. lra. }
  assert (HC : cexp radix2 fx (D + / 2 * bpow radix2 c) = c) by (unfold cexp; rewrite HM; reflexivity).
  unfold round. rewrite HC. unfold scaled_mantissa. rewrite HC.
  replace ((D + / 2 * bpow radix2 c) * bpow radix2 (- c)) with (IZR m + / 2).
  2:{ rewrite Em at 1. rewrite Rmult_plus_distr_r, !Rmult_assoc, <- bpow_plus. replace (c + - c)%Z with 0%Z by lia. cbn. ring. }
  assert (HF : Zfloor (IZR m + / 2) = m) by (apply Zfloor_imp; rewrite plus_IZR; lra).
  unfold Znearest. rewrite HF. rewrite Rcompare_Eq by ring. rewrite Ev. cbn [negb]. unfold F2R. cbn [Fnum Fexp]. symmetry. exact Em.
Qed.
Lemma landing t D n e : F t -> F D -> 0 < D -> 0 <= t <= D -> (Z.abs n < 2 ^ 52)%Z -> (-1073 <= e)%Z -> D = IZR n * bpow radix2 e -> rd (t + rd (D - t)) <= D.
Proof.
  intros Ft FD P B Hn He E. rewrite <- (middle D n e FD P Hn He E) at 2. apply rd_le.
  pose proof (half_error (D - t)) as X. apply Rabs_le_inv in X.
  assert (ulp radix2 fx (D - t) <= ulp radix2 fx D) by (apply ulp_le_pos; [typeclasses eauto|typeclasses eauto|lra|lra]). lra.
Qed.

(** ** Binary64 values *)
Lemma valid_bin x : fvalid x -> exists b : bin, x = B2SF b.
Proof. intros V. exists (SF2B x V). symmetry. apply B2SF_SF2B. Qed.
Lemma bin_valid (b : bin) : fvalid (B2SF b).
Proof. apply valid_binary_B2SF. Qed.
Lemma v_add x y : fvalid x -> fvalid y -> fvalid (SFadd fprec femax x y).
Proof. intros Hx Hy. destruct (valid_bin x Hx) as (a & ->). destruct (valid_bin y Hy) as (b & ->). rewrite sfadd_badd. apply bin_valid. Qed.
Lemma v_sub x y : fvalid x -> fvalid y -> fvalid (SFsub fprec femax x y).
Proof. intros Hx Hy. destruct (valid_bin x Hx) as (a & ->). destruct (valid_bin y Hy) as (b & ->). rewrite sfsub_bminus. apply bin_valid. Qed.
Lemma v_mul x y : fvalid x -> fvalid y -> fvalid (SFmul fprec femax x y).
Proof. intros Hx Hy. destruct (valid_bin x Hx) as (a & ->). destruct (valid_bin y Hy) as (b & ->). rewrite sfmul_bmul. apply bin_valid. Qed.
Lemma v_div x y : fvalid x -> fvalid y -> fvalid (SFdiv fprec femax x y).
Proof. intros Hx Hy. destruct (valid_bin x Hx) as (a & ->). destruct (valid_bin y Hy) as (b & ->). rewrite sfdiv_bdiv. apply bin_valid. Qed.
Lemma v_abs x : fvalid x -> fvalid (SFabs x).
Proof. destruct x; intros H; exact H. Qed.
Lemma v_Z z : fvalid (f_of_Z z).
Proof. unfold f_of_Z. rewrite normalize_equiv. apply bin_valid. Qed.
Lemma sfsqrt_bsqrt (x : bin) : SFsqrt fprec femax (B2SF x) = B2SF (Bsqrt (prec := fprec) (emax := femax) mode_NE x).
Proof.
  destruct x as [s|s| |s m e B]; try reflexivity; [destruct s; reflexivity|]. destruct s; [reflexivity|].
  cbn -[SpecFloat.binary_round_aux binary_round_aux SFsqrt_core_binary]. rewrite B2SF_SF2B.
  set (melz := SFsqrt_core_binary _ _ _ _). case melz as [[mz ez] lz]. apply round_aux_equiv.
Qed.
Lemma v_sqrt x : fvalid x -> fvalid (SFsqrt fprec femax x).
Proof. intros Hx. destruct (valid_bin x Hx) as (a & ->). rewrite sfsqrt_bsqrt. apply bin_valid. Qed.

(** ** Signs *)
Definition toward (s : bool) (x : spec_float) : Prop := match x with S754_zero s' | S754_infinity s' | S754_finite s' _ _ => s' = s | S754_nan => True end.
Lemma toward_aux s m e l : toward s (SpecFloat.binary_round_aux fprec femax s m e l).
Proof.
  unfold SpecFloat.binary_round_aux. destruct (shr_fexp fprec femax m e l) as [mrs' e']. destruct (shr_fexp fprec femax _ _ _) as [mrs'' e''].
  destruct (shr_m mrs''); cbn; auto. destruct (_ <=? _)%Z; reflexivity.
Qed.
Lemma toward_mul s x y : unsigned x -> toward s y -> toward s (SFmul fprec femax x y).
Proof.
  destruct x as [a|a| |a m e], y as [b|b| |b m' e']; cbn -[SpecFloat.binary_round_aux]; intros -> || intros _; intros H; subst; auto.
  all: rewrite ?xorb_false_l; first [reflexivity|apply toward_aux].
Qed.
Lemma unsigned_square x : unsigned (SFmul fprec femax x x).
Proof. destruct x as [a|a| |a m e]; cbn -[SpecFloat.binary_round_aux]; rewrite ?xorb_nilpotent; auto. apply toward_aux. Qed.
Lemma unsigned_add x y : unsigned x -> unsigned y -> unsigned (SFadd fprec femax x y).
Proof.
  destruct x as [a|a| |a m e], y as [b|b| |b m' e']; cbn -[SpecFloat.binary_normalize SpecFloat.binary_round_aux]; intros; subst; auto.
  1-2: reflexivity.
  match goal with |- context [SpecFloat.binary_normalize _ _ ?z _ _] => assert (Q : (0 < z)%Z) by (cbn [SpecFloat.cond_Zopp]; lia); set (q := z) in * end.
  destruct q as [|q|q]; [lia| |lia]. cbn -[SpecFloat.binary_round_aux]. unfold SpecFloat.binary_round. match goal with |- context [let '(_, _) := ?p in _] => destruct p as [mz ez] end. apply toward_aux.
Qed.
Lemma unsigned_sqrt x : unsigned x -> unsigned (SFsqrt fprec femax x).
Proof.
  destruct x as [a|a| |a m e]; intros H; cbn in H; subst; [reflexivity|reflexivity|exact I|]. unfold SFsqrt.
  match goal with |- context [let '(_, _) := ?p in _] => destruct p as [[mz ez] lz] end. apply toward_aux.
Qed.
Lemma unsigned_div x y : unsigned x -> unsigned y -> unsigned (SFdiv fprec femax x y).
Proof.
  assert (K : forall m e m' e', unsigned (SFdiv fprec femax (S754_finite false m e) (S754_finite false m' e'))).
  { intros. unfold SFdiv. match goal with |- context [let '(_, _) := ?p in _] => destruct p as [[mz ez] lz] end. apply toward_aux. }
  destruct x as [a|a| |a m e], y as [b|b| |b m' e']; intros H1 H2; cbn in H1, H2; subst; first [exact I|apply K|vm_compute; exact I|vm_compute; reflexivity].
Qed.

(** ** One trial step *)
Lemma ok4 {A B C D : Type} (a a' : A) (b b' : B) (c c' : C) (d d' : D) : Ok (a, b, c, d) = Ok (a', b', c', d') -> a = a' /\ b = b' /\ c = c' /\ d = d'.
Proof. intros H. injection H. auto. Qed.
Section Step.
  Variable lm : libm.
  Existing Instance SF.
  Notation NS := (SF lm).
  Lemma v_lit p q : fvalid (@nlit _ NS p q).
  Proof. apply v_div; apply v_Z. Qed.
  Lemma vv_add a b : valid_vec a -> valid_vec b -> valid_vec (@vadd _ NS a b).
  Proof. intros (A & B) (C & D). split; apply v_add; assumption. Qed.
  Lemma vv_sub a b : valid_vec a -> valid_vec b -> valid_vec (@vsub _ NS a b).
  Proof. intros (A & B) (C & D). split; apply v_sub; assumption. Qed.
  Lemma vv_scale c a : fvalid c -> valid_vec a -> valid_vec (@vscale _ NS c a).
  Proof. intros H (A & B). split; apply v_mul; assumption. Qed.
  Lemma v_norm_inf a : valid_vec a -> fvalid (@norm_inf _ NS a).
  Proof.
    intros (A & B). unfold norm_inf, npmax. apply v_abs in A. apply v_abs in B. cbn [nabs nisnan nlt SF].
    destruct (f_isnan _); [exact A|]. destruct (f_isnan _); [exact B|]. destruct (SFltb _ _); assumption.
  Qed.
  Lemma v_norm2 a : valid_vec a -> fvalid (@norm2 _ NS a).
  Proof. intros (A & B). apply v_sqrt, v_add; apply v_mul; assumption. Qed.

  Ltac vv := repeat match goal with
    | |- valid_vec (vadd _ _) => apply vv_add
    | |- valid_vec (vscale _ _) => apply vv_scale
    | |- valid_vec ?k => is_var k; assumption
    | |- fvalid ?c => is_var c; assumption
    | |- fvalid _ => apply v_lit
    end.
  Lemma step_valid f xy dt k1 xyt k7 est ds : valid_field f -> valid_vec xy -> fvalid dt -> valid_vec k1 -> @dp_step _ NS f xy dt k1 = Ok (xyt, k7, est, ds) ->
    valid_vec xyt /\ valid_vec k7 /\ fvalid est /\ fvalid ds /\ unsigned ds /\ (dt = S754_nan -> est = S754_nan).
  Proof.
    intros HF Hxy Hdt Hk1 H. unfold dp_step in H.
    repeat match type of H with bind (f ?p) _ = _ =>
      let E := fresh "E" in let k := fresh "k" in destruct (f p) as [k|?|] eqn:E; cbn [bind] in H; [|discriminate H|discriminate H];
      let V := fresh "V" in assert (V : valid_vec k) by (refine (HF _ _ _ E); vv); clear E end.
    apply ok4 in H. destruct H as (<- & <- & <- & <-).
    split; [vv|]. split; [assumption|].
    split; [apply v_norm_inf; vv|].
    split; [apply v_norm2, vv_sub; vv|].
    split; [apply unsigned_sqrt, unsigned_add; apply unsigned_square|]. intros ->. reflexivity.
  Qed.

  Lemma next_valid tol maxstep est ds dt : valid_root lm -> fvalid tol -> fvalid maxstep -> fvalid est -> fvalid ds -> fvalid dt -> fvalid (@next_dt _ NS tol maxstep est ds dt).
  Proof.
    intros R T M E D H. unfold next_dt. apply v_mul; [|exact H]. apply v_mul; [apply v_lit|]. unfold pymin.
    repeat match goal with |- fvalid (if _ then _ else _) => match goal with |- fvalid (if ?b then _ else _) => destruct b end end;
      first [apply v_Z|apply v_div; [exact M|apply v_add; [exact D|apply v_lit]]|apply R; apply v_div; [exact T|apply v_add; [exact E|apply v_lit]]].
  Qed.
  Lemma next_toward s tol maxstep est ds dt : unsigned_root lm -> unsigned maxstep -> unsigned ds -> toward s dt -> toward s (@next_dt _ NS tol maxstep est ds dt).
  Proof.
    intros R M D H. unfold next_dt. apply toward_mul; [|exact H]. apply toward_mul; [reflexivity|]. unfold pymin.
    repeat match goal with |- toward _ (if ?b then _ else _) => destruct b end;
      first [reflexivity|apply unsigned_div; [exact M|apply unsigned_add; [exact D|reflexivity]]|apply R].
  Qed.
End Step.

(** ** The loop *)
Lemma rd_opp x : rd (- x) = - rd x.
Proof. apply round_NE_opp. Qed.
Lemma F_opp x : F x -> F (- x).
Proof. apply generic_format_opp. Qed.
Lemma sub_pos a b : F a -> F b -> b < a -> 0 < rd (a - b).
Proof.
  intros Fa Fb H. destruct (multiple a Fa) as (k & ->). destruct (multiple b Fb) as (l & ->).
  assert (P := bpow_gt_0 radix2 (-1074)). assert (K : (l < k)%Z) by (apply lt_IZR; nra).
  apply Rlt_le_trans with (bpow radix2 (-1074)); [exact P|]. rewrite <- (rd_F (bpow radix2 (-1074))) at 1 by (apply F_bpow; lia). apply rd_le.
  assert (1 <= IZR k - IZR l) by (rewrite <- minus_IZR; apply IZR_le; lia). nra.
Qed.

Definition digits52 (D : R) : Prop := exists n e, (Z.abs n < 2 ^ 52)%Z /\ (-1073 <= e)%Z /\ D = IZR n * bpow radix2 e.
Lemma digits52_opp D : digits52 D -> digits52 (- D).
Proof. intros (n & e & A & B & C). exists (- n)%Z, e. split; [lia|]. split; [exact B|]. rewrite C, opp_IZR. ring. Qed.

Lemma last_step t D : F t -> F D -> Rabs t < Rabs D ->
  let u := rd (D - t) in let t' := rd (t + u) in
  Rabs t' <= succ radix2 fx (Rabs D) /\ 0 <= t' * D /\ (0 <= t * D -> 0 < u * D /\ (digits52 D -> Rabs t' <= Rabs D)).
Proof.
  assert (K : forall t D, F t -> F D -> 0 < D -> Rabs t < D -> let u := rd (D - t) in let t' := rd (t + u) in
    0 <= t' <= succ radix2 fx D /\ (0 <= t -> 0 < u /\ (digits52 D -> t' <= D))).
  { clear. intros t D Ft FD P H u t'. apply Rabs_lt_inv in H. split; [apply overstep; auto; lra|]. intros Pt. split; [apply sub_pos; auto; lra|].
    intros (n & e & A & B & C). apply (landing t D n e); auto. lra. }
  intros Ft FD H u t'. assert (NZ : D <> 0) by (intros ->; rewrite Rabs_R0 in H; pose proof (Rabs_pos t); lra).
  destruct (Rlt_le_dec 0 D) as [P|P].
  - rewrite (Rabs_pos_eq D) in * by lra. destruct (K t D Ft FD P H) as (B & C). fold u in B, C. fold t' in B, C. rewrite Rabs_pos_eq by lra.
    split; [lra|]. split; [apply Rmult_le_pos; lra|]. intros Q. assert (Pt : 0 <= t) by nra. destruct (C Pt) as (C1 & C2). split; [nra|exact C2].
  - assert (P' : 0 < - D) by lra. rewrite (Rabs_left D) in * by lra. rewrite <- (Rabs_Ropp t) in H.
    destruct (K (- t) (- D) (F_opp t Ft) (F_opp D FD) P' H) as (B & C). replace (- D - - t) with (- (D - t)) in B, C by ring. rewrite rd_opp in B, C. fold u in B, C.
    replace (- t + - u) with (- (t + u)) in B, C by ring. rewrite rd_opp in B, C. fold t' in B, C. rewrite <- (Rabs_Ropp t'), Rabs_pos_eq by lra.
    split; [lra|]. split; [nra|]. intros Q. assert (Pt : 0 <= - t) by nra. destruct (C Pt) as (C1 & C2). split; [nra|]. intros E. apply C2. apply digits52_opp. exact E.
Qed.

Lemma fin_abs x : ffinite x -> ffinite (SFabs x) /\ fval (SFabs x) = Rabs (fval x).
Proof.
  intros (V & M). split; [split; [apply v_abs; exact V|destruct x; exact M]|]. destruct x as [s|s| |s m e]; try contradiction; cbn; [rewrite Rabs_R0; reflexivity|].
  assert (0 < powerRZ 2 e) by (apply powerRZ_lt; lra). rewrite Rabs_mult, (Rabs_pos_eq (powerRZ 2 e)) by lra. f_equal.
  assert (0 < IZR (Z.pos m)) by (apply IZR_lt; lia). destruct s; [rewrite Rabs_Ropp|]; rewrite Rabs_pos_eq; lra.
Qed.
Lemma lt_abs x y : ffinite x -> ffinite y -> SFltb (SFabs x) (SFabs y) = Rlt_bool (Rabs (fval x)) (Rabs (fval y)).
Proof. intros Hx Hy. destruct (fin_abs x Hx) as (F1 & V1). destruct (fin_abs y Hy) as (F2 & V2). rewrite (fltb _ _ F1 F2), V1, V2. reflexivity. Qed.

(** A step that does not pass the end. *)
Lemma inner_step D t dt : ffinite D -> ffinite t -> fvalid dt -> dt <> S754_nan -> SFltb (SFabs D) (SFabs (SFadd fprec femax t dt)) = false ->
  ffinite dt /\ ffinite (SFadd fprec femax t dt) /\ fval (SFadd fprec femax t dt) = rd (fval t + fval dt) /\ Rabs (fval (SFadd fprec femax t dt)) <= Rabs (fval D).
Proof.
  intros HD Ht Vd Nd L.
  assert (Big : forall s, SFltb (SFabs D) (SFabs (S754_infinity s)) = true).
  { intros s. destruct HD as (_ & M). destruct D as [?|?| |? ? ?]; try contradiction; reflexivity. }
  assert (Hd : ffinite dt).
  { split; [exact Vd|]. destruct dt as [s|s| |s m e]; try exact I; [|congruence]. exfalso. assert (E : SFadd fprec femax t (S754_infinity s) = S754_infinity s).
    { destruct Ht as (_ & M). destruct t as [?|?| |? ? ?]; try contradiction; reflexivity. } rewrite E, Big in L. discriminate. }
  split; [exact Hd|].
  assert (Q : ffinite (SFadd fprec femax t dt) /\ fval (SFadd fprec femax t dt) = rd (fval t + fval dt)).
  { destruct (Rlt_le_dec (Rabs (rd (fval t + fval dt))) (bpow radix2 1024)) as [B|B]; [apply add_rd; assumption|exfalso].
    destruct (finite_b t Ht) as (a & Ea & Fa & Va). destruct (finite_b dt Hd) as (b & Eb & Fb & Vb). rewrite Ea, Eb, sfadd_badd in L. rewrite <- Va, <- Vb in B.
    pose proof (Bplus_correct fprec femax ProofFloat.Hprec ProofFloat.Hmax mode_NE a b Fa Fb) as H. change (round radix2 (SpecFloat.fexp fprec femax) (round_mode mode_NE)) with rd in H.
    rewrite Rlt_bool_false in H by exact B. destruct H as (H & _). rewrite H in L. change (SFltb (SFabs D) (SFabs (S754_infinity (Bsign a))) = false) in L. rewrite Big in L. discriminate. }
  split; [apply Q|]. split; [apply Q|]. rewrite (lt_abs _ _ HD (proj1 Q)) in L. destruct (Rlt_bool_spec (Rabs (fval D)) (Rabs (fval (SFadd fprec femax t dt)))); [discriminate|assumption].
Qed.

Section Loop.
  Variables (lm : libm) (D tol maxstep : spec_float) (f : vec spec_float -> res (vec spec_float)).
  Hypotheses (HR : valid_root lm) (HF : valid_field f) (HT : fvalid tol) (HM : fvalid maxstep) (FD : ffinite D) (BD : Rabs (fval D) <= bpow radix2 1000).

  Lemma succ_bound : succ radix2 fx (Rabs (fval D)) < bpow radix2 1024.
  Proof.
    apply Rle_lt_trans with (bpow radix2 1001); [|apply bpow_lt; lia]. apply succ_le_lt; [typeclasses eauto|apply generic_format_abs, F_of, FD|apply F_bpow; lia|].
    eapply Rle_lt_trans; [exact BD|apply bpow_lt; lia].
  Qed.

  Lemma cut_step t : ffinite t -> Rabs (fval t) < Rabs (fval D) -> let dt := SFsub fprec femax D t in let t' := SFadd fprec femax t dt in
    ffinite dt /\ fval dt = rd (fval D - fval t) /\ ffinite t' /\ fval t' = rd (fval t + fval dt).
  Proof.
    intros Ht L dt t'. destruct (last_step (fval t) (fval D) (F_of t Ht) (F_of D FD) L) as (B & _).
    assert (B1 : Rabs (rd (fval D - fval t)) < bpow radix2 1024).
    { apply Rle_lt_trans with (bpow radix2 1001); [|apply bpow_lt; lia]. apply abs_round_le_generic; [typeclasses eauto|typeclasses eauto|apply F_bpow; lia|]. rewrite (bpow_plus radix2 1 1000 : bpow radix2 1001 = _). change (bpow radix2 1) with 2.
      assert (Rabs (fval D - fval t) <= Rabs (fval D) + Rabs (fval t)) by (unfold Rminus; rewrite <- (Rabs_Ropp (fval t)); apply Rabs_triang). lra. }
    destruct (sub_rd D t FD Ht B1) as (F1 & V1). fold dt in F1, V1. split; [exact F1|]. split; [exact V1|]. apply add_rd; [exact Ht|exact F1|]. rewrite V1.
    eapply Rle_lt_trans; [exact B|exact succ_bound].
  Qed.

  (** What a step does to the clock, whatever the velocities. *)
  Lemma clock t dt : ffinite t -> fvalid dt -> SFltb (SFabs t) (SFabs D) = true ->
    let dt1 := if SFltb (SFabs D) (SFabs (SFadd fprec femax t dt)) then SFsub fprec femax D t else dt in let t' := SFadd fprec femax t dt1 in
    fvalid dt1 /\ (dt1 <> S754_nan -> ffinite t' /\ Rabs (fval t') <= succ radix2 fx (Rabs (fval D))) /\
    (0 <= fval t * fval D -> forall s, (s = true -> fval D < 0) -> (s = false -> 0 < fval D) -> toward s dt ->
       toward s dt1 /\ (dt1 <> S754_nan -> 0 <= fval t' * fval D /\ (digits52 (fval D) -> Rabs (fval t') <= Rabs (fval D)))).
  Proof.
    intros Ht Vd L dt1 t'. assert (L' : Rabs (fval t) < Rabs (fval D)).
    { rewrite (lt_abs t D Ht FD) in L. destruct (Rlt_bool_spec (Rabs (fval t)) (Rabs (fval D))); [assumption|discriminate]. }
    assert (SU : Rabs (fval D) <= succ radix2 fx (Rabs (fval D))) by apply succ_ge_id.
    destruct (SFltb (SFabs D) (SFabs (SFadd fprec femax t dt))) eqn:C; cbv iota in dt1.
    - destruct (cut_step t Ht L') as (F1 & V1 & F2 & V2). fold dt1 in F1, V1, F2, V2. fold t' in F2, V2.
      destruct (last_step (fval t) (fval D) (F_of t Ht) (F_of D FD) L') as (B1 & B2 & B3). rewrite <- V1 in B1, B2, B3. rewrite <- V2 in B1, B2, B3.
      split; [apply F1|]. split; [auto|]. intros P s S1 S2 _. destruct (B3 P) as (B4 & B5). split; [|auto].
      destruct F1 as (_ & M). clearbody dt1. destruct dt1 as [b|b| |b m e]; try contradiction; cbn in B4 |- *; [lra|].
      assert (0 < IZR (Z.pos m) * powerRZ 2 e) by (apply Rmult_lt_0_compat; [apply IZR_lt; lia|apply powerRZ_lt; lra]).
      destruct b, s; auto; exfalso; [specialize (S2 eq_refl)|specialize (S1 eq_refl)]; nra.
    - split; [exact Vd|]. split.
      + intros N. destruct (inner_step D t dt FD Ht Vd N C) as (_ & Q1 & _ & Q2). split; [exact Q1|]. unfold t', dt1. lra.
      + intros P s S1 S2 Td. split; [exact Td|]. intros N. destruct (inner_step D t dt FD Ht Vd N C) as (Q0 & Q1 & Q3 & Q2). split; [|intros _; exact Q2].
        unfold t', dt1. rewrite Q3. destruct Q0 as (_ & M). clear - P S1 S2 Td M.
        assert (R0 : rd 0 = 0) by (apply round_0; typeclasses eauto).
        assert (Sg : (s = true -> fval dt <= 0) /\ (s = false -> 0 <= fval dt)).
        { destruct dt as [b|b| |b m e]; try contradiction; cbn in Td |- *; subst; [split; intros _; lra|].
          assert (0 < IZR (Z.pos m) * powerRZ 2 e) by (apply Rmult_lt_0_compat; [apply IZR_lt; lia|apply powerRZ_lt; lra]). split; intros ->; lra. }
        destruct Sg as (G1 & G2). destruct s.
        * specialize (S1 eq_refl). specialize (G1 eq_refl). assert (fval t + fval dt <= 0) by nra. apply rd_le in H. rewrite R0 in H. nra.
        * specialize (S2 eq_refl). specialize (G2 eq_refl). assert (0 <= fval t + fval dt) by nra. apply rd_le in H. rewrite R0 in H. nra.
  Qed.
End Loop.

(** A trace in binary64 stops at the duration or at the very next binary64 number, whatever the velocities; a trace not stopped by an exception gets to the duration. *)
Lemma c93_duration : forall lm fuel xs ys D tol maxstep f (tr : trace spec_float), valid_root lm -> valid_field f ->
  fvalid xs -> fvalid ys -> fvalid tol -> fvalid maxstep -> ffinite D -> Rabs (fval D) <= 2 ^ 1000 ->
  @compute_backtrace spec_float (SF lm) fuel xs ys D tol maxstep f = Ok tr ->
  ffinite (t_end tr) /\ (forall x, ffinite x -> Rabs (fval D) < fval x -> Rabs (fval (t_end tr)) <= fval x) /\
  (completed tr = true -> Rabs (fval D) <= Rabs (fval (t_end tr))).
Proof.
  intros lm fuel xs ys D tol maxstep f tr HR HF Vx Vy HT HM FD BD. rewrite pow_bpow in BD. change (Z.of_nat 1000) with 1000%Z in BD.
  assert (L : forall n t dt xy k1 acc, ffinite t -> Rabs (fval t) <= succ radix2 fx (Rabs (fval D)) -> fvalid dt -> valid_vec xy -> valid_vec k1 ->
    @trace_loop spec_float (SF lm) n f D tol maxstep t dt xy k1 acc = Ok tr ->
    ffinite (t_end tr) /\ Rabs (fval (t_end tr)) <= succ radix2 fx (Rabs (fval D)) /\ (completed tr = true -> Rabs (fval D) <= Rabs (fval (t_end tr)))).
  { induction n as [|n IH]; intros t dt xy k1 acc Ht Bt Vd Vxy Vk H; [discriminate|]. cbn [trace_loop] in H. cbn [nabs nlt nadd nsub SF] in H.
    destruct (SFltb (SFabs t) (SFabs D)) eqn:C.
    2:{ injection H as <-. cbn [t_end completed]. split; [exact Ht|]. split; [exact Bt|]. intros _. rewrite (lt_abs t D Ht FD) in C.
        destruct (Rlt_bool_spec (Rabs (fval t)) (Rabs (fval D))); [discriminate|assumption]. }
    destruct (clock D FD BD t dt Ht Vd C) as (V1 & K & _). set (dt1 := if SFltb _ _ then _ else _) in *.
    destruct (@dp_step spec_float (SF lm) f xy dt1 k1) as [[[[xyt k7] est] ds]|e|] eqn:E; [| |discriminate].
    2:{ injection H as <-. cbn [t_end completed]. split; [exact Ht|]. split; [exact Bt|discriminate]. }
    destruct (step_valid lm f xy dt1 k1 xyt k7 est ds HF Vxy V1 Vk E) as (W1 & W2 & W3 & W4 & _ & W5).
    pose proof (next_valid lm tol maxstep est ds dt1 HR HT HM W3 W4 V1) as W6.
    destruct (SFltb est tol && SFltb ds maxstep)%bool eqn:A; [|exact (IH _ _ _ _ _ Ht Bt W6 Vxy Vk H)].
    destruct K as (K1 & K2). { intros N. rewrite (W5 N) in A. discriminate A. }
    exact (IH _ _ _ _ _ K1 K2 W6 W1 W2 H). }
  intros H. unfold compute_backtrace in H. destruct (f (xs, ys)) as [k1|e|] eqn:E; [| |discriminate].
  - assert (V : fvalid (@nmul spec_float (SF lm) (@nlit spec_float (SF lm) 1 10) (@nsign spec_float (SF lm) D))).
    { apply v_mul; [apply v_lit|]. unfold nsign. destruct (nisnan _); [apply FD|]. destruct (nlt _ _); [apply v_Z|]. destruct (nlt _ _); apply v_Z. }
    destruct (of_small 0 ltac:(lia)) as (F0 & V0).
    destruct (L fuel (f_of_Z 0) (@nmul spec_float (SF lm) (@nlit spec_float (SF lm) 1 10) (@nsign spec_float (SF lm) D)) (xs, ys) k1 [(xs, ys)] F0) as (A & B & C); [|exact V|split; assumption|exact (HF (xs, ys) k1 (conj Vx Vy) E)|exact H|].
    + rewrite V0, Rabs_R0. eapply Rle_trans; [apply Rabs_pos|apply succ_ge_id].
    + split; [exact A|]. split; [|exact C]. intros x Hx Lx. eapply Rle_trans; [exact B|]. apply succ_le_lt; [typeclasses eauto|apply generic_format_abs, F_of, FD|apply F_of, Hx|exact Lx].
  - assert (E0 : t_end tr = f_of_Z 0 /\ completed tr = false) by (injection H as <-; split; reflexivity). destruct E0 as (-> & ->).
    destruct (of_small 0 ltac:(lia)) as (F0 & V0). split; [exact F0|]. rewrite V0, Rabs_R0. split; [|discriminate]. intros x _ Lx. pose proof (Rabs_pos (fval D)). lra.
Qed.

(** With a duration of at most 52 binary digits (any whole number of quarters of a day below 2^50 days, for instance) the elapsed time never
    passes the duration, and it is exactly the duration when the trace completes. *)
Lemma c93_exact : forall lm fuel xs ys D tol maxstep f (tr : trace spec_float), valid_root lm -> unsigned_root lm -> valid_field f ->
  fvalid xs -> fvalid ys -> fvalid tol -> fvalid maxstep -> unsigned maxstep -> ffinite D -> Rabs (fval D) <= 2 ^ 1000 -> short D ->
  @compute_backtrace spec_float (SF lm) fuel xs ys D tol maxstep f = Ok tr ->
  ffinite (t_end tr) /\ 0 <= fval (t_end tr) * fval D /\ Rabs (fval (t_end tr)) <= Rabs (fval D) /\ (completed tr = true -> fval (t_end tr) = fval D).
Proof.
  intros lm fuel xs ys D tol maxstep f tr HR UR HF Vx Vy HT HM UM FD BD SD. rewrite pow_bpow in BD. change (Z.of_nat 1000) with 1000%Z in BD.
  assert (DD : digits52 (fval D)). { destruct SD as (n & e & A & B & C). exists n, e. rewrite <- p_bpow. auto. }
  destruct (Req_dec (fval D) 0) as [Z0|NZ].
  { intros H. destruct (of_small 0 ltac:(lia)) as (F0 & V0).
    assert (E : t_end tr = f_of_Z 0).
    { unfold compute_backtrace in H. destruct (f (xs, ys)) as [k1|e|]; [|injection H as <-; reflexivity|discriminate]. destruct fuel as [|n]; [discriminate|].
      cbn [trace_loop] in H. cbn [nabs nlt SF] in H. change (@nZ spec_float (SF lm) 0) with (f_of_Z 0) in H. rewrite (lt_abs _ D F0 FD), V0, Z0, Rlt_bool_false in H by lra.
      injection H as <-. reflexivity. }
    rewrite E, V0, Z0. split; [exact F0|]. split; [lra|]. split; [lra|reflexivity]. }
  set (s := if Rlt_le_dec (fval D) 0 then true else false).
  assert (S1 : s = true -> fval D < 0) by (unfold s; destruct (Rlt_le_dec (fval D) 0); [auto|discriminate]).
  assert (S2 : s = false -> 0 < fval D) by (unfold s; destruct (Rlt_le_dec (fval D) 0); [discriminate|intros _; lra]).
  assert (Fin : forall t, 0 <= fval t * fval D -> Rabs (fval t) <= Rabs (fval D) -> Rabs (fval D) <= Rabs (fval t) -> fval t = fval D).
  { intros t A B C. unfold Rabs in B, C. destruct (Rcase_abs (fval t)), (Rcase_abs (fval D)); try lra; nra. }
  assert (L : forall n t dt xy k1 acc, ffinite t -> 0 <= fval t * fval D -> Rabs (fval t) <= Rabs (fval D) -> fvalid dt -> toward s dt -> valid_vec xy -> valid_vec k1 ->
    @trace_loop spec_float (SF lm) n f D tol maxstep t dt xy k1 acc = Ok tr ->
    ffinite (t_end tr) /\ 0 <= fval (t_end tr) * fval D /\ Rabs (fval (t_end tr)) <= Rabs (fval D) /\ (completed tr = true -> fval (t_end tr) = fval D)).
  { induction n as [|n IH]; intros t dt xy k1 acc Ht Pt Bt Vd Td Vxy Vk H; [discriminate|]. cbn [trace_loop] in H. cbn [nabs nlt nadd nsub SF] in H.
    destruct (SFltb (SFabs t) (SFabs D)) eqn:C.
    2:{ injection H as <-. cbn [t_end completed]. split; [exact Ht|]. split; [exact Pt|]. split; [exact Bt|]. intros _. rewrite (lt_abs t D Ht FD) in C.
        destruct (Rlt_bool_spec (Rabs (fval t)) (Rabs (fval D))); [discriminate|]. auto. }
    destruct (clock D FD BD t dt Ht Vd C) as (V1 & K & G). set (dt1 := if SFltb _ _ then _ else _) in *.
    destruct (G Pt s S1 S2 Td) as (T1 & G1).
    destruct (@dp_step spec_float (SF lm) f xy dt1 k1) as [[[[xyt k7] est] ds]|e|] eqn:E; [| |discriminate].
    2:{ injection H as <-. cbn [t_end completed]. split; [exact Ht|]. split; [exact Pt|]. split; [exact Bt|discriminate]. }
    destruct (step_valid lm f xy dt1 k1 xyt k7 est ds HF Vxy V1 Vk E) as (W1 & W2 & W3 & W4 & W7 & W5).
    pose proof (next_valid lm tol maxstep est ds dt1 HR HT HM W3 W4 V1) as W6.
    pose proof (next_toward lm s tol maxstep est ds dt1 UR UM W7 T1) as W8.
    destruct (SFltb est tol && SFltb ds maxstep)%bool eqn:A; [|exact (IH _ _ _ _ _ Ht Pt Bt W6 W8 Vxy Vk H)].
    assert (N : dt1 <> S754_nan). { intros N. rewrite (W5 N) in A. discriminate A. }
    destruct (G1 N) as (G2 & G3). exact (IH _ _ _ _ _ (proj1 (K N)) G2 (G3 DD) W6 W8 W1 W2 H). }
  intros H. unfold compute_backtrace in H. destruct (of_small 0 ltac:(lia)) as (F0 & V0). destruct (f (xs, ys)) as [k1|e|] eqn:E; [| |discriminate].
  - assert (V : fvalid (@nmul spec_float (SF lm) (@nlit spec_float (SF lm) 1 10) (@nsign spec_float (SF lm) D)) /\ toward s (@nmul spec_float (SF lm) (@nlit spec_float (SF lm) 1 10) (@nsign spec_float (SF lm) D))).
    { unfold nsign. assert (N : @nisnan spec_float (SF lm) D = false) by (destruct FD as (_ & M); destruct D; try contradiction; reflexivity). rewrite N.
      change (@nZ spec_float (SF lm) 0) with (f_of_Z 0). cbn [nlt SF]. rewrite (fltb _ _ F0 FD), (fltb _ _ FD F0), V0. destruct s.
      - specialize (S1 eq_refl). rewrite Rlt_bool_false, Rlt_bool_true by lra. split; [apply v_mul; [apply v_lit|apply v_Z]|vm_compute; reflexivity].
      - specialize (S2 eq_refl). rewrite Rlt_bool_true by lra. split; [apply v_mul; [apply v_lit|apply v_Z]|vm_compute; reflexivity]. }
    destruct V as (V & T). set (d0 := @nmul _ _ _ _) in *. change (@nZ spec_float (SF lm) 0) with (f_of_Z 0) in H. clearbody d0.
    apply (L fuel (f_of_Z 0) d0 (xs, ys) k1 [(xs, ys)] F0); [rewrite V0; lra|rewrite V0, Rabs_R0; apply Rabs_pos|exact V|exact T|split; assumption|exact (HF (xs, ys) k1 (conj Vx Vy) E)|exact H].
  - assert (E0 : t_end tr = f_of_Z 0 /\ completed tr = false) by (injection H as <-; split; reflexivity). destruct E0 as (-> & ->).
    rewrite V0, Rabs_R0. split; [exact F0|]. split; [lra|]. split; [apply Rabs_pos|discriminate].
Qed.

(** Still water: every velocity is zero. *)
Definition still (_ : vec spec_float) : res (vec spec_float) := Ok (S754_zero false, S754_zero false).
Definition zz : vec spec_float := (S754_zero false, S754_zero false).
Definition days252 : spec_float := Eval vm_compute in SFdiv fprec femax (f_of_Z 252) (f_of_Z 10).
Definition unit_ : spec_float := Eval vm_compute in f_of_Z 1.

(** 25.2 days have 53 digits, and a trace of 25.2 days runs to 25.200000000000003. *)
Lemma c93_past : forall lm, SFltb (f_of_Z 10) (lm_root5 lm (f_of_Z (2 ^ 52))) = true ->
  exists tr, @compute_backtrace spec_float (SF lm) 10 (S754_zero false) (S754_zero false) days252 unit_ unit_ still = Ok tr /\ completed tr = true /\
    fval days252 < fval (t_end tr) /\ length (vertices tr) = 5%nat.
Proof.
  intros lm H.
  assert (NX : forall dt, @next_dt spec_float (SF lm) unit_ unit_ (S754_zero false) (S754_zero false) dt = SFmul fprec femax (f_of_Z 9) dt).
  { assert (P : forall r q, SFltb (f_of_Z 10) r = true -> SFltb (f_of_Z 10) q = true -> @pymin spec_float (SF lm) (@pymin spec_float (SF lm) r q) (f_of_Z 10) = f_of_Z 10).
    { intros r q A B. unfold pymin. cbn [nlt SF]. destruct (SFltb q r); [rewrite B|rewrite A]; reflexivity. }
    intros dt. unfold next_dt.
    assert (Q : @ndiv spec_float (SF lm) unit_ (@nadd spec_float (SF lm) (S754_zero false) (@eps spec_float (SF lm))) = f_of_Z (2 ^ 52)) by (vm_compute; reflexivity).
    rewrite Q. change (@nroot5 spec_float (SF lm) (f_of_Z (2 ^ 52))) with (lm_root5 lm (f_of_Z (2 ^ 52))). change (@nZ spec_float (SF lm) 10) with (f_of_Z 10).
    rewrite P; [|exact H|vm_compute; reflexivity].
    assert (M : @nmul spec_float (SF lm) (@nlit spec_float (SF lm) 9 10) (f_of_Z 10) = f_of_Z 9) by (vm_compute; reflexivity). rewrite M. reflexivity. }
  assert (LP : forall n t dt acc, SFltb (SFabs t) (SFabs days252) = true ->
    let dt1 := if SFltb (SFabs days252) (SFabs (SFadd fprec femax t dt)) then SFsub fprec femax days252 t else dt in
    @dp_step spec_float (SF lm) still zz dt1 zz = Ok (zz, zz, S754_zero false, S754_zero false) ->
    @trace_loop spec_float (SF lm) (S n) still days252 unit_ unit_ t dt zz zz acc =
    @trace_loop spec_float (SF lm) n still days252 unit_ unit_ (SFadd fprec femax t dt1) (SFmul fprec femax (f_of_Z 9) dt1) zz zz (acc ++ [zz])).
  { intros n t dt acc C dt1 E. cbn [trace_loop]. cbn [nabs nlt nadd nsub SF]. rewrite C. fold dt1. rewrite E. rewrite NX. reflexivity. }
  unfold compute_backtrace. change (still (S754_zero false, S754_zero false)) with (Ok zz). cbv iota. change (S754_zero false, S754_zero false) with zz.
  eexists. split; [|split; [|split]].
  - rewrite LP by (vm_compute; reflexivity). rewrite LP by (vm_compute; reflexivity). rewrite LP by (vm_compute; reflexivity). rewrite LP by (vm_compute; reflexivity).
    vm_compute. reflexivity.
  - reflexivity.
  - cbn [t_end]. match goal with |- fval ?a < fval ?b => rewrite (fval_mant a (-48) eq_refl), (fval_mant b (-48) eq_refl) end. apply Rmult_lt_compat_r; [apply powerRZ_lt; lra|]. apply IZR_lt. vm_compute. reflexivity.
  - reflexivity.
Qed.

(** Five years backwards (−1826.25 days) through a shear flow, with a square root in place of the fifth root. *)
Definition root_libm : libm := {| lm_log := fun x => x; lm_cos := fun x => x; lm_sin := fun x => x; lm_hypot := fun x _ => x; lm_root5 := fun x => SFsqrt fprec femax (SFabs x) |}.
Definition quarter : spec_float := Eval vm_compute in SFdiv fprec femax (f_of_Z 1) (f_of_Z 4).
Definition shear (p : vec spec_float) : res (vec spec_float) := Ok (quarter, SFmul fprec femax (fst p) (SFmul fprec femax quarter quarter)).
Definition fiveyears : spec_float := Eval vm_compute in SFdiv fprec femax (f_of_Z (-7305)) (f_of_Z 4).
Definition hundred : spec_float := Eval vm_compute in f_of_Z 100.
Lemma c93_example : valid_root root_libm /\ unsigned_root root_libm /\ valid_field shear /\ ffinite fiveyears /\ Rabs (fval fiveyears) <= 2 ^ 1000 /\ short fiveyears /\ unsigned hundred /\
  exists tr, @compute_backtrace spec_float (SF root_libm) 1000 unit_ unit_ fiveyears unit_ hundred shear = Ok tr /\ completed tr = true /\ t_end tr = fiveyears /\ (20 < length (vertices tr))%nat.
Proof.
  split; [intros x V; cbn [lm_root5 root_libm]; apply v_sqrt, v_abs, V|]. split; [intros x; cbn [lm_root5 root_libm]; apply unsigned_sqrt; destruct x; exact I || reflexivity|].
  split. { intros p k (V & _) E. unfold shear in E. injection E as <-. split; cbn [fst snd]; [reflexivity|]. apply v_mul; [exact V|reflexivity]. }
  assert (FV : fval fiveyears = IZR (-7305) * powerRZ 2 (-2)).
  { rewrite (fval_mant fiveyears (-42) eq_refl). replace (mant fiveyears (-42)) with (-7305 * 2 ^ 40)%Z by (vm_compute; reflexivity).
    rewrite mult_IZR. replace (IZR (2 ^ 40)) with (powerRZ 2 40) by (change (powerRZ 2 40) with (2 ^ 40); rewrite pow_IZR; reflexivity).
    rewrite Rmult_assoc, <- powerRZ_add by lra. reflexivity. }
  split; [split; [reflexivity|exact I]|]. split.
  { rewrite FV. change (powerRZ 2 (-2)) with (/ (2 ^ 2)). apply Rle_trans with (2 ^ 11); [|apply Rle_pow; [lra|lia]]. rewrite Rabs_left by lra. lra. }
  split. { exists (-7305)%Z, (-2)%Z. split; [reflexivity|]. split; [lia|exact FV]. }
  split; [reflexivity|]. eexists. split; [vm_compute; reflexivity|]. split; [reflexivity|]. split; [reflexivity|]. vm_compute. lia.
Qed.
