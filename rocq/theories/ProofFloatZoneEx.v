(** * A stochastic run in binary64 and what its weights count *)
From Coq Require Import ZArith Reals Lra Lia SpecFloat List Bool.
From Verif Require Import Py Num NumXR Grid ModelField ModelAquifer ModelTrace ModelDist ModelDriver ProofFloatGrow ProofFloatMean ProofFloatGrid ProofFloatDist ProofFloatTrace ProofTraceFlow ProofFloatZone.
From Verif Require Import SpecFloats SpecExact SpecZone SpecDriver SpecField.
Import ListNotations.
Local Open Scope R_scope.

(** Tracks whose coordinates are whole numbers of 2^-100 and at most 2^50 satisfy the hypotheses. *)
Definition coordinate_ok (x : spec_float) : bool :=
  valid_binary fprec femax x && match x with S754_zero _ | S754_finite _ _ _ => true | _ => false end && above (-100) x && (Z.abs (mant x (-100)) <=? 2 ^ 150)%Z.

Lemma coordinate_range d x : coordinate_ok x = true -> fval d <= 2 ^ 50 -> roomy_range 0 d x.
Proof.
  unfold coordinate_ok. rewrite !andb_true_iff. intros (((V & F) & A) & B) Hd. split.
  - split; [exact V|]. destruct x; try discriminate; exact I.
  - apply Z.leb_le in B. rewrite (fval_mant x _ A), Rabs_mult, (Rabs_pos_eq (powerRZ 2 _)), <- abs_IZR by (apply Rlt_le, p_pos).
    apply IZR_le in B. assert (E : IZR (2 ^ 150) * powerRZ 2 (-100) = 2 ^ 50).
    { replace (IZR (2 ^ 150)) with (powerRZ 2 150) by (change (powerRZ 2 150) with (2 ^ 150); rewrite (pow_IZR 2); reflexivity). rewrite <- powerRZ_add by lra. reflexivity. }
    pose proof (p_pos (-100)). change (powerRZ 2 (52 + 0)) with (2 ^ 52). assert (2 ^ 52 = 4 * 2 ^ 50) by ring. assert (0 < 2 ^ 50) by (apply pow_lt; lra). nra.
Qed.

Lemma coordinates_apart p q : coordinate_ok (fst p) = true -> coordinate_ok (snd p) = true -> coordinate_ok (fst q) = true -> coordinate_ok (snd q) = true -> apart (at_ p) (at_ q).
Proof.
  assert (AB : forall x, coordinate_ok x = true -> above (-100) x = true) by (unfold coordinate_ok; intros x; rewrite !andb_true_iff; tauto).
  intros H1 H2 H3 H4. unfold apart, at_, dist2. cbn [fst snd]. rewrite (fval_mant _ _ (AB _ H1)), (fval_mant _ _ (AB _ H2)), (fval_mant _ _ (AB _ H3)), (fval_mant _ _ (AB _ H4)).
  set (a := mant (fst p) _). set (b := mant (snd p) _). set (c := mant (fst q) _). set (d := mant (snd q) _). set (e := powerRZ 2 (-100)).
  assert (E : e * e = / 2 ^ 200) by (unfold e; rewrite <- powerRZ_add by lra; reflexivity).
  clearbody a b c d e. assert (SQ : forall u v, (u <> v -> 1 <= (u - v) * (u - v))%Z) by (intros u v Nuv; nia).
  assert (S0 : forall u v, (0 <= (u - v) * (u - v))%Z) by (intros u v; apply Z.square_nonneg).
  destruct (Z.eq_dec a c) as [Eq1|N1]; [destruct (Z.eq_dec b d) as [Eq2|N2]; [left; rewrite Eq1, Eq2; reflexivity|]|]; right.
  all: assert (L : / 2 ^ 400 <= e * e) by (rewrite E; apply Rinv_le_contravar; [apply pow_lt; lra|apply Rle_pow; [lra|lia]]).
  all: assert (Q : (1 <= (a - c) * (a - c) + (b - d) * (b - d))%Z) by (pose proof (S0 a c); pose proof (S0 b d); try pose proof (SQ _ _ N1); try pose proof (SQ _ _ N2); lia).
  all: apply IZR_le in Q; rewrite plus_IZR, !mult_IZR, !minus_IZR in Q; assert (0 <= e * e) by (rewrite E; apply Rlt_le, Rinv_0_lt_compat, pow_lt; lra); nra.
Qed.

Lemma good_check d tr : forallb (fun p => coordinate_ok (fst p) && coordinate_ok (snd p)) tr = true -> fval d <= 2 ^ 50 -> good_track 0 0 d d tr.
Proof.
  rewrite forallb_forall. intros H Hd. split.
  - apply Forall_forall. intros p Hp. specialize (H p Hp). apply andb_true_iff in H. split; apply coordinate_range; tauto.
  - intros p q (k & K1 & K2). apply nth_error_In in K1. apply nth_error_In in K2. pose proof (H p K1) as A. pose proof (H q K2) as B. apply andb_true_iff in A. apply andb_true_iff in B.
    apply coordinates_apart; tauto.
Qed.

(** ** The run: a well at (1000, 2000), spacing 4, umbra 5, two realizations with opposite regional flows, two paths of 20 days each *)
Definition e_lm : libm :=
  {| lm_log := fun x => x; lm_cos := fun x => SFsub fprec femax (f_of_Z 1) (SFdiv fprec femax x (f_of_Z 2)); lm_sin := fun x => SFdiv fprec femax x (f_of_Z 2);
     lm_hypot := fun x _ => x; lm_root5 := fun x => SFsqrt fprec femax (SFabs x) |}.
Definition e_la : linalg spec_float := {| lstsq := fun _ _ => Ok (map f_of_Z [0; 0; 0; 1; 0; 100]%Z); inv := fun m => Ok m |}.
Definition e_rng : rng spec_float unit := {| draw_uniform := fun g a _ => (a, g); draw_triangular := fun g a _ _ => (a, g) |}.
Definition e_entropy (n : nat) : list spec_float := map f_of_Z (match n with O => [0; 0; 0; 1; 0; 100] | _ => [0; 0; 0; -1; 1; 100] end)%Z.
Definition e_well : swell spec_float := {| sx := f_of_Z 1000; sy := f_of_Z 2000; sr := f_of_Z 1; sq := PInt 30 |}.
Definition e_obs : list (obs spec_float) := map (fun k => {| ox := f_of_Z (1100 + 10 * k); oy := f_of_Z (2100 + k * k); oz := f_of_Z 10; os := f_of_Z 1 |}) [0; 1; 2; 3; 4; 5; 6; 7]%Z.
Definition e_run : res (pfield spec_float * list (run_log spec_float)) :=
  @create_stochastic spec_float (SF e_lm) unit (list spec_float) e_rng (fun e _ _ => e) 1000 e_la e_entropy tt 0 2 (f_of_Z 20) 2 (f_of_Z 0) (PInt 1) (PFloat quarter) (PInt 10)
    [e_well] e_obs (f_of_Z 4) (f_of_Z 5) true (f_of_Z 1) (f_of_Z 10).

(** The models of the two realizations, and the tracks that the tracing function gives in them. *)
Definition e_model (n : nat) : model spec_float :=
  match e_entropy n with
  | [a; b; c; d; e; f] =>
      {| base := f_of_Z 0; conductivity := f_of_Z 1; porosity := quarter; thickness := f_of_Z 10;
         wells := [{| wx := f_of_Z 1000; wy := f_of_Z 2000; wr := f_of_Z 1; wq := f_of_Z 30 |}]; xo := f_of_Z 1000; yo := f_of_Z 2000;
         coef := {| cA := a; cB := b; cC := c; cD := d; cE := e; cF := f |} |}
  | _ => new_model (N := SF e_lm) (f_of_Z 0) (f_of_Z 0) (f_of_Z 0) (f_of_Z 0) []
  end.
Definition e_zone (n : nat) : list (list (spec_float * spec_float)) :=
  match @start_angles spec_float (SF e_lm) 2 with
  | Ok thetas => map (fun th => let (x, y) := @start_point spec_float (SF e_lm) (f_of_Z 1000) (f_of_Z 2000) (f_of_Z 1) th in
      match @compute_backtrace spec_float (SF e_lm) 1000 x y (f_of_Z 20) (f_of_Z 1) (f_of_Z 10) (@feval spec_float (SF e_lm) true (e_model n)) with Ok tr => vertices tr | _ => [] end) thetas
  | _ => []
  end.
Definition e_zones : list (list (list (spec_float * spec_float))) := Eval vm_compute in [e_zone 0; e_zone 1].
Definition e_start : pfield spec_float := Eval vm_compute in
  match @pf_init spec_float (SF e_lm) (f_of_Z 4) (f_of_Z 4) (f_of_Z 1000) (f_of_Z 2000) with Ok s => s | _ => {| deltax := f_of_Z 4; deltay := f_of_Z 4; body := None |} end.
Definition e_end : pfield spec_float := Eval vm_compute in fst (@calls spec_float (SF e_lm) 1000 e_start (concat (map (@zone_calls spec_float (SF e_lm) (f_of_Z 5)) e_zones))).

(** The run meets the hypotheses; the node at the well is counted twice, one at (1016, 1996) once, one at (988, 1996) never. *)
Lemma c95_example : (exists logs, e_run = Ok (e_end, logs)) /\ @pf_init spec_float (SF e_lm) (f_of_Z 4) (f_of_Z 4) (sx e_well) (sy e_well) = Ok e_start /\
  map (@length _) e_zones = [2; 2]%nat /\ Forall (Forall (good_track 0 0 (f_of_Z 4) (f_of_Z 4))) e_zones /\
  @calls spec_float (SF e_lm) 1000 e_start (concat (map (@zone_calls spec_float (SF e_lm) (f_of_Z 5)) e_zones)) = (e_end, Ok tt) /\
  ffinite (f_of_Z 4) /\ roomy_units 0 (fval (f_of_Z 4)) /\ roomy_range 0 (f_of_Z 4) (sx e_well) /\ roomy_units 0 (fval (sx e_well)) /\ roomy_range 0 (f_of_Z 4) (sy e_well) /\
  roomy_units 0 (fval (sy e_well)) /\ reach 0 (f_of_Z 5) /\ 0 <= fval (f_of_Z 5) /\
  has_node (exact_field e_end) 1000 2000 2 false /\ has_node (exact_field e_end) 1016 1996 1 false /\ has_node (exact_field e_end) 988 1996 0 false.
Proof.
  assert (F : forall z, (Z.abs z <= 2 ^ 53)%Z -> ffinite (f_of_Z z) /\ fval (f_of_Z z) = IZR z) by apply of_small.
  assert (P52 : powerRZ 2 (52 + 0) = 4503599627370496) by (change (powerRZ 2 (52 + 0)) with (2 ^ 52); rewrite (pow_IZR 2); reflexivity).
  assert (U : forall z, (Z.abs z <= 1000000)%Z -> roomy_units 0 (fval (f_of_Z z))).
  { intros z Hz. destruct (F z ltac:(change (2 ^ 53)%Z with 9007199254740992%Z; lia)) as (_ & V). rewrite V. split; [exists z; cbn; ring|]. rewrite P52, <- abs_IZR. apply IZR_le. lia. }
  assert (Rg : forall z, (Z.abs z <= 1000000)%Z -> roomy_range 0 (f_of_Z 4) (f_of_Z z)).
  { intros z Hz. destruct (F z ltac:(change (2 ^ 53)%Z with 9007199254740992%Z; lia)) as (Fz & V). destruct (F 4%Z ltac:(lia)) as (_ & V4). split; [exact Fz|]. rewrite V, V4, P52, <- abs_IZR, <- plus_IZR. apply IZR_le. lia. }
  split; [eexists; vm_compute; reflexivity|]. split; [vm_compute; reflexivity|]. split; [reflexivity|]. split.
  { assert (H4 : fval (f_of_Z 4) <= 2 ^ 50).
    { destruct (F 4%Z ltac:(lia)) as (_ & V4). rewrite V4. rewrite (pow_IZR 2). apply IZR_le. vm_compute. discriminate. }
    apply Forall_forall. intros z Hz. apply Forall_forall. intros tr Htr. apply good_check; [|exact H4].
    assert (A : forallb (forallb (forallb (fun p => coordinate_ok (fst p) && coordinate_ok (snd p)))) e_zones = true) by (vm_compute; reflexivity).
    rewrite forallb_forall in A. specialize (A z Hz). rewrite forallb_forall in A. exact (A tr Htr). }
  split; [vm_compute; reflexivity|]. split; [apply F; lia|]. split; [apply U; lia|]. split; [apply Rg; lia|]. split; [apply U; lia|]. split; [apply Rg; lia|]. split; [apply U; lia|].
  destruct (F 5%Z ltac:(lia)) as (F5 & V5). split.
  { split; [exact F5|]. rewrite V5, Rabs_pos_eq by lra. change (powerRZ 2 (53 + 0)) with (2 ^ 53). rewrite (pow_IZR 2). apply IZR_le. vm_compute. discriminate. }
  split; [rewrite V5; lra|].
  assert (VX : fval (S754_finite false 8690539905941504 (-43)) = 988).
  { cbn [fval]. unfold powerRZ. rewrite (pow_IZR 2). apply Rmult_eq_reg_r with (IZR (2 ^ Z.of_nat (Pos.to_nat 43))); [|apply IZR_neq; vm_compute; discriminate].
    rewrite Rmult_assoc, Rinv_l by (apply IZR_neq; vm_compute; discriminate). rewrite Rmult_1_r, <- mult_IZR. apply f_equal. vm_compute. reflexivity. }
  assert (VY : fval (S754_finite false 8778500836163584 (-42)) = 1996).
  { cbn [fval]. unfold powerRZ. rewrite (pow_IZR 2). apply Rmult_eq_reg_r with (IZR (2 ^ Z.of_nat (Pos.to_nat 42))); [|apply IZR_neq; vm_compute; discriminate].
    rewrite Rmult_assoc, Rinv_l by (apply IZR_neq; vm_compute; discriminate). rewrite Rmult_1_r, <- mult_IZR. apply f_equal. vm_compute. reflexivity. }
  destruct (F 4%Z ltac:(lia)) as (F4 & V4). destruct (F 1%Z ltac:(lia)) as (F1 & V1). destruct (F 2%Z ltac:(lia)) as (F2 & V2).
  assert (N : forall i j x y w (v : spec_float), x = 988 + IZR j * 4 -> y = 1996 + IZR i * 4 -> fval v = w -> exact v = Fin (fval v) ->
    match body e_end with Some g => get2 (pgrid g) i j = Some v /\ get2 (rgrid g) i j = Some false | None => False end -> has_node (exact_field e_end) x y w false).
  { intros i j x y w v Hx Hy Hw He H. exists (exact_geom (match body e_end with Some g => g | None => {| nrows := 0; ncols := 0; xmin := v; xmax := v; ymin := v; ymax := v; pgrid := []; rgrid := []; total_weight := v |} end)), i, j, 4, 4, 988, 1996.
    split; [reflexivity|]. split; [change (exact (f_of_Z 4) = Fin 4); rewrite (ProofFloatGrid.exact_fin _ F4), V4; reflexivity|].
    split; [change (exact (f_of_Z 4) = Fin 4); rewrite (ProofFloatGrid.exact_fin _ F4), V4; reflexivity|].
    split; [rewrite <- VX; reflexivity|]. split; [rewrite <- VY; reflexivity|]. split; [exact Hx|]. split; [exact Hy|]. cbn [body e_end pgrid rgrid] in H. destruct H as (H1 & H2).
    cbn [exact_geom pgrid rgrid body e_end]. split; [|exact H2]. rewrite get2_map, H1. cbn [option_map]. rewrite He, Hw. reflexivity. }
  split; [|split].
  - apply (N 1%Z 3%Z _ _ _ (f_of_Z 2)); [lra|lra|exact V2|apply exact_fin; exact F2|]. split; vm_compute; reflexivity.
  - apply (N 0%Z 7%Z _ _ _ (f_of_Z 1)); [lra|lra|exact V1|apply exact_fin; exact F1|]. split; vm_compute; reflexivity.
  - destruct (F 0%Z ltac:(lia)) as (F0 & V0). apply (N 0%Z 0%Z _ _ _ (f_of_Z 0)); [lra|lra|exact V0|apply exact_fin; exact F0|]. split; vm_compute; reflexivity.
Qed.
