(** * Fields from the constructor in binary64, and cases *)
From Coq Require Import ZArith Reals Lra Lia SpecFloat List.
From Verif Require Import Py Num NumXR Grid ModelField ProofFloat ProofFloatGrow ProofFloatOps ProofFloatMean ProofFloatGrid ProofGeom ProofField ProofInsert ProofFieldProps ProofFieldHist ProofFloatDist ProofFloatInsert ProofFloatWeight.
From Verif Require Import SpecFloats SpecExact SpecField.
Import ListNotations.
Local Open Scope R_scope.

(** The constructor, with a centre and spacings that are whole numbers of units. *)
Lemma c89_constructor : forall lm ex ey k dx dy xo yo, (-1074 <= ex <= 960)%Z -> (-1074 <= ey <= 960)%Z ->
  ffinite dx -> 0 < fval dx -> on_units ex (fval dx) -> ffinite dy -> 0 < fval dy -> on_units ey (fval dy) ->
  in_range ex dx xo -> on_units ex (fval xo) -> in_range ey dy yo -> on_units ey (fval yo) ->
  exists s, @pf_init spec_float (SF lm) dx dy xo yo = Ok s /\ @pf_init xr XR (exact dx) (exact dy) (exact xo) (exact yo) = Ok (exact_field s) /\
    deltax s = dx /\ deltay s = dy /\ dyadic ex ey s /\ wf (exact_field s) /\ sound_grid k s /\ total (exact_field s) 0 /\ forall x y, weight_at (exact_field s) x y 0.
Proof.
  intros lm ex ey k dx dy xo yo Hx Hy Fdx Pdx Udx Fdy Pdy Udy (Fxo & Bxo) Uxo (Fyo & Byo) Uyo.
  assert (AX : forall v d e, Rabs v + d <= powerRZ 2 (53 + e) -> 0 < d -> Rabs (v - d) <= powerRZ 2 (53 + e) /\ Rabs (v + d) <= powerRZ 2 (53 + e)).
  { intros v d e B P. revert B. unfold Rabs at 1. destruct Rcase_abs; intros B; split; unfold Rabs; destruct Rcase_abs; lra. }
  destruct (AX _ _ _ Bxo Pdx) as (A1 & A2). destruct (AX _ _ _ Byo Pdy) as (A3 & A4).
  pose proof (units_sub ex _ _ Uxo Udx A1) as U1. pose proof (units_add ex _ _ Uxo Udx A2) as U2.
  pose proof (units_sub ey _ _ Uyo Udy A3) as U3. pose proof (units_add ey _ _ Uyo Udy A4) as U4.
  destruct (sub_units ex xo dx Hx Fxo Fdx U1) as (F1 & V1). destruct (add_units ex xo dx Hx Fxo Fdx U2) as (F2 & V2).
  destruct (sub_units ey yo dy Hy Fyo Fdy U3) as (F3 & V3). destruct (add_units ey yo dy Hy Fyo Fdy U4) as (F4 & V4).
  assert (NN : forall v, ffinite v -> f_isnan v = false) by (intros v (_ & H); destruct v; try contradiction; reflexivity).
  assert (Pos : forall d, ffinite d -> 0 < fval d -> @nle spec_float (SF lm) d (@nZ spec_float (SF lm) 0) = false).
  { intros d Fd Pd. destruct (of_small 0 ltac:(lia)) as (Q & V). change (@nZ spec_float (SF lm) 0) with (f_of_Z 0). cbn [nle SF]. rewrite (fleb d _ Fd Q), V. apply Raux.Rle_bool_false. exact Pd. }
  unfold pf_init. rewrite (Pos dx Fdx Pdx), (Pos dy Fdy Pdy). cbn [nisnan SF]. rewrite (NN xo Fxo), (NN yo Fyo). cbn [orb].
  eexists. split; [reflexivity|].
  assert (EX : @pf_init xr XR (exact dx) (exact dy) (exact xo) (exact yo) = Ok (exact_field
     {| deltax := dx; deltay := dy; body := Some {| nrows := 3; ncols := 3; xmin := @nsub spec_float (SF lm) xo dx; xmax := @nadd spec_float (SF lm) xo dx;
        ymin := @nsub spec_float (SF lm) yo dy; ymax := @nadd spec_float (SF lm) yo dy; pgrid := const2 3 3 (@nZ spec_float (SF lm) 0); rgrid := const2 3 3 false; total_weight := @nZ spec_float (SF lm) 0 |} |})).
  { unfold pf_init. rewrite (exact_fin dx Fdx), (exact_fin dy Fdy), (exact_fin xo Fxo), (exact_fin yo Fyo). cbn [nle nZ XR xle]. rewrite !(proj2 (Rleb_false _ _)) by lra. cbn [nisnan XR xisnan orb].
    unfold exact_field, exact_geom. cbn [deltax deltay body nrows ncols xmin xmax ymin ymax pgrid rgrid total_weight nsub nadd SF].
    rewrite (exact_fin dx Fdx), (exact_fin dy Fdy), (exact_fin _ F1), (exact_fin _ F2), (exact_fin _ F3), (exact_fin _ F4), V1, V2, V3, V4. reflexivity. }
  unfold pf_init in EX at 1. split; [exact EX|]. split; [reflexivity|]. split; [reflexivity|].
  assert (DY : dyadic ex ey {| deltax := dx; deltay := dy; body := Some {| nrows := 3; ncols := 3; xmin := @nsub spec_float (SF lm) xo dx; xmax := @nadd spec_float (SF lm) xo dx;
        ymin := @nsub spec_float (SF lm) yo dy; ymax := @nadd spec_float (SF lm) yo dy; pgrid := const2 3 3 (@nZ spec_float (SF lm) 0); rgrid := const2 3 3 false; total_weight := @nZ spec_float (SF lm) 0 |} |}).
  { split; [exact Hx|]. split; [exact Hy|]. cbn [deltax deltay]. do 6 (split; [assumption|]). eexists. split; [reflexivity|].
    split; intros v [<-|[<-|[]]]; cbn [xmin xmax ymin ymax nsub nadd SF]; (split; [assumption|]); [rewrite V1|rewrite V2|rewrite V3|rewrite V4]; assumption. }
  split; [exact DY|].
  rewrite (exact_fin dx Fdx), (exact_fin dy Fdy), (exact_fin xo Fxo), (exact_fin yo Fyo) in EX.
  destruct (init_facts (fval dx) (fval dy) (Fin (fval xo)) (Fin (fval yo)) _ (or_introl (ex_intro _ _ eq_refl)) (or_introl (ex_intro _ _ eq_refl)) EX) as (Wf & _ & HV & HT).
  split; [exact Wf|]. split; [|split; [|exact (fun x y => HV x y)]].
  - intros g E. injection E as <-. cbn [total_weight pgrid]. pose proof (zero_sound k lm) as Z. split; [exact Z|].
    intros row v Hr Hv. assert (v = @nZ spec_float (SF lm) 0).
    { unfold const2 in Hr. apply repeat_spec in Hr. subst row. apply repeat_spec in Hv. exact Hv. }
    subst v. split; [exact Z|apply Rle_refl].
  - destruct HT as [HT|(HT & _)]; [exact HT|]. exfalso. apply HT. discriminate.
Qed.

(** A whole history on a fresh field: weights, total and probabilities. *)
Lemma c92_from_constructor : forall lm fuel ex ey k dx dy xo yo l x y, (-1074 <= ex <= 960)%Z -> (-1074 <= ey <= 960)%Z -> (-1074 <= k <= 960)%Z ->
  ffinite dx -> 0 < fval dx -> on_units ex (fval dx) -> ffinite dy -> 0 < fval dy -> on_units ey (fval dy) ->
  in_range ex dx xo -> on_units ex (fval xo) -> in_range ey dy yo -> on_units ey (fval yo) ->
  Forall (in_range_op ex ey dx dy) l -> Forall (sound_op k) l -> load l <= powerRZ 2 (53 + k) ->
  exists s c, @pf_init spec_float (SF lm) dx dy xo yo = Ok s /\ Credit lm fuel x y s l c /\
    let s' := @run_ops spec_float (SF lm) fuel s l in
    weight_at (exact_field s') x y c /\ total (exact_field s') (load l) /\ 0 <= c <= load l /\ sound_grid k s'.
Proof.
  intros lm fuel ex ey k dx dy xo yo l x y Hx Hy Hk Fdx Pdx Udx Fdy Pdy Udy Rx Ux Ry Uy RL SL B.
  destruct (c89_constructor lm ex ey k dx dy xo yo Hx Hy Fdx Pdx Udx Fdy Pdy Udy Rx Ux Ry Uy) as (s & E & _ & Ex & Ey & D & Wf & G & T0 & V0).
  assert (RL' : Forall (in_range_op ex ey (deltax s) (deltay s)) l) by (rewrite Ex, Ey; exact RL).
  assert (B' : 0 + load l <= powerRZ 2 (53 + k)) by lra.
  destruct (c92_history lm fuel ex ey k l s x y 0 0 D Wf G Hk RL' SL (V0 x y) T0 B') as (c & HC & Q1 & Q2 & _ & Wf' & G').
  exists s, c. split; [exact E|]. split; [exact HC|]. cbn zeta. rewrite Rplus_0_l in Q1, Q2. split; [exact Q1|]. split; [exact Q2|]. split; [|exact G'].
  clear - HC SL. induction HC as [s|s w l c M H IH|s w l c M H IH|s o l c N H IH].
  - cbn. lra.
  - inversion SL as [|? ? S1 S2]; subst. specialize (IH S2). cbn [load sound_op] in *. destruct S1 as (_ & P & _). lra.
  - inversion SL as [|? ? S1 S2]; subst. specialize (IH S2). cbn [load sound_op] in *. destruct S1 as (_ & P & _). lra.
  - inversion SL as [|? ? S1 S2]; subst. specialize (IH S2). destruct o; cbn [load]; try exact IH. exfalso. eapply N. reflexivity.
Qed.

(** ** Cases *)
Lemma units_check e x : above e x = true -> (Z.abs (mant x e) <= 2 ^ 53)%Z -> on_units e (fval x).
Proof.
  intros A B. rewrite (fval_mant x e A). split; [exists (mant x e); reflexivity|]. rewrite Rabs_mult, (Rabs_pos_eq (powerRZ 2 e)) by (apply Rlt_le, p_pos).
  rewrite !p_bpow, Raux.bpow_plus. apply Rmult_le_compat_r; [apply Raux.bpow_ge_0|]. rewrite <- abs_IZR. change (Raux.bpow Zaux.radix2 53) with (IZR (2 ^ 53)). apply IZR_le. exact B.
Qed.
Lemma int_units e z : (e <= 0)%Z -> IZR z = IZR (z * 2 ^ (- e)) * powerRZ 2 e.
Proof.
  intros He. rewrite mult_IZR, p_bpow, Rmult_assoc. assert (E : IZR (2 ^ (- e)) = Raux.bpow Zaux.radix2 (- e)) by (apply (Raux.IZR_Zpower Zaux.radix2); lia).
  rewrite E, <- Raux.bpow_plus. replace (- e + e)%Z with 0%Z by lia. cbn. ring.
Qed.
Lemma range_check e d z x : valid_binary fprec femax x = true -> match x with S754_zero _ | S754_finite _ _ _ => True | _ => False end ->
  above e x = true -> fval d = IZR z -> (e <= 0)%Z -> (Z.abs (mant x e) + z * 2 ^ (- e) <= 2 ^ 53)%Z -> in_range e d x.
Proof.
  intros V M A D He B. split; [split; assumption|]. rewrite (fval_mant x e A), D, (int_units e z He). rewrite Rabs_mult, (Rabs_pos_eq (powerRZ 2 e)) by (apply Rlt_le, p_pos).
  rewrite !p_bpow, Raux.bpow_plus. rewrite <- Rmult_plus_distr_r. apply Rmult_le_compat_r; [apply Raux.bpow_ge_0|]. rewrite <- abs_IZR, <- plus_IZR. change (Raux.bpow Zaux.radix2 53) with (IZR (2 ^ 53)). apply IZR_le. exact B.
Qed.

(** p/q rounded to binary64. *)
Definition lit (p q : Z) : spec_float := SFdiv fprec femax (f_of_Z p) (f_of_Z q).

(** A well at UTM coordinates (438042.3, 5032118.9), spacing 2, umbra 5, and a track of three points. *)
Definition wx : spec_float := Eval vm_compute in lit 4380423 10.
Definition wy : spec_float := Eval vm_compute in lit 50321189 10.
Definition two : spec_float := Eval vm_compute in f_of_Z 2.
Definition umbra5 : spec_float := Eval vm_compute in f_of_Z 5.
Definition mx : spec_float := Eval vm_compute in lit 4380476 10.
Definition my : spec_float := Eval vm_compute in lit 50321200 10.
Definition tx : spec_float := Eval vm_compute in lit 4380555 10.
Definition ty : spec_float := Eval vm_compute in lit 50321071 10.
Definition path3 : list (spec_float * spec_float) := [(wx, wy); (mx, my); (tx, ty)].
Definition one : spec_float := Eval vm_compute in f_of_Z 1.
Definition story : list (op spec_float) := [ORasterize (map fst path3) (map snd path3) umbra5; ORegister one].

Lemma two_good : ffinite two /\ fval two = 2 /\ on_units (-34) (fval two) /\ on_units (-30) (fval two).
Proof.
  destruct (of_small 2 ltac:(lia)) as (Q & V). change (f_of_Z 2) with two in Q, V. split; [exact Q|]. split; [exact V|]. rewrite V.
  split; (split; [eexists; apply int_units; lia|rewrite Rabs_pos_eq by lra; rewrite p_bpow; change 2 with (Raux.bpow Zaux.radix2 1); apply Raux.bpow_le; lia]).
Qed.

Lemma path3_range : Forall (fun p => in_range (-34) two (fst p) /\ in_range (-30) two (snd p)) path3.
Proof.
  destruct two_good as (F2 & V2 & _). unfold path3.
  repeat match goal with |- Forall _ (_ :: _) => apply Forall_cons; [split; cbn [fst snd]; apply (range_check _ two 2); try exact V2; vm_compute; try reflexivity; try exact I; discriminate|] end.
  apply Forall_nil.
Qed.
Lemma story_range : Forall (in_range_op (-34) (-30) two two) story.
Proof.
  apply Forall_cons; [|apply Forall_cons; [exact I|apply Forall_nil]]. pose proof path3_range as H. rewrite Forall_forall in H.
  split; apply Forall_forall; intros v Hv; apply in_map_iff in Hv; destruct Hv as (p & <- & Hp); apply H; exact Hp.
Qed.
Lemma well_field lm : exists s, @pf_init spec_float (SF lm) two two wx wy = Ok s /\ deltax s = two /\ deltay s = two /\ dyadic (-34) (-30) s /\ wf (exact_field s) /\ sound_grid 0 s /\
  total (exact_field s) 0 /\ (forall x y, weight_at (exact_field s) x y 0).
Proof.
  destruct two_good as (F2 & V2 & U2 & U2'). assert (P2 : 0 < fval two) by lra. pose proof path3_range as H. unfold path3 in H. inversion H as [|? ? (H1 & H2) _]; subst. cbn [fst snd] in H1, H2.
  destruct (c89_constructor lm (-34) (-30) 0 two two wx wy ltac:(lia) ltac:(lia) F2 P2 U2 F2 P2 U2' H1) as (s & E & _ & K); auto.
  - apply units_check; vm_compute; [reflexivity|discriminate].
  - apply units_check; vm_compute; [reflexivity|discriminate].
  - exists s. auto.
Qed.

