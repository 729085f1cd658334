(** * The program's velocity functions return binary64 values *)
From Coq Require Import ZArith Reals SpecFloat List Lia Lra.
From Verif Require Import Py Num ModelAquifer ModelTrace ModelDriver SpecFloats SpecFloatTrace SpecFloatFlow ProofFloatTrace.
Import ListNotations.
Local Open Scope R_scope.

Section Flow.
  Variable lm : libm.
  Notation NS := (SF lm).
  Hypothesis HL : valid_libm lm.

  Lemma v_opp x : fvalid x -> fvalid (SFopp x).
  Proof. destruct x; intros H; exact H. Qed.
  Lemma o_add x y : fvalid x -> fvalid y -> fvalid (@nadd _ NS x y). Proof. exact (v_add x y). Qed.
  Lemma o_sub x y : fvalid x -> fvalid y -> fvalid (@nsub _ NS x y). Proof. exact (v_sub x y). Qed.
  Lemma o_mul x y : fvalid x -> fvalid y -> fvalid (@nmul _ NS x y). Proof. exact (v_mul x y). Qed.
  Lemma o_div x y : fvalid x -> fvalid y -> fvalid (@ndiv _ NS x y). Proof. exact (v_div x y). Qed.
  Lemma o_opp x : fvalid x -> fvalid (@nopp _ NS x). Proof. exact (v_opp x). Qed.
  Lemma o_sqrt x : fvalid x -> fvalid (@nsqrt _ NS x). Proof. exact (v_sqrt x). Qed.
  Lemma o_Z z : fvalid (@nZ _ NS z). Proof. exact (v_Z z). Qed.
  Lemma o_lit p q : fvalid (@nlit _ NS p q). Proof. exact (v_lit lm p q). Qed.
  Lemma o_sq x : fvalid x -> fvalid (@nsq _ NS x). Proof. intros H. exact (v_mul x x H H). Qed.
  Lemma o_log x : fvalid x -> fvalid (@nlog _ NS x). Proof. exact (fun H => proj1 (HL x H)). Qed.
  Lemma o_cos x : fvalid x -> fvalid (@ncos _ NS x). Proof. exact (fun H => proj1 (proj2 (HL x H))). Qed.
  Lemma o_sin x : fvalid x -> fvalid (@nsin _ NS x). Proof. exact (fun H => proj1 (proj2 (proj2 (HL x H)))). Qed.

  Ltac go := repeat match goal with
    | |- fvalid (@nadd _ _ _ _) => apply o_add | |- fvalid (@nsub _ _ _ _) => apply o_sub | |- fvalid (@nmul _ _ _ _) => apply o_mul
    | |- fvalid (@ndiv _ _ _ _) => apply o_div | |- fvalid (@nopp _ _ _) => apply o_opp | |- fvalid (@nsqrt _ _ _) => apply o_sqrt
    | |- fvalid (@nZ _ _ _) => apply o_Z | |- fvalid (@nlit _ _ _ _) => apply o_lit | |- fvalid (@nsq _ _ _) => apply o_sq
    | |- fvalid (@nlog _ _ _) => apply o_log | |- fvalid (@ncos _ _ _) => apply o_cos | |- fvalid (@nsin _ _ _) => apply o_sin
    | |- fvalid (@k4pi _ _) => apply o_lit | |- fvalid (@k2pi _ _) => apply o_lit
    | H : fvalid ?x |- fvalid ?x => exact H end.

  Variable m : model spec_float.
  Hypothesis HM : valid_model m.

  Lemma v_discharge x y : fvalid x -> fvalid y -> valid_vec (@compute_discharge _ NS m x y).
  Proof.
    intros Hx Hy. destruct HM as (Vk & Vn & Vh & Vx & Vy & (A & B & C & D & E & F) & W). unfold compute_discharge.
    set (q0 := (_, _)). assert (V : valid_vec q0) by (unfold q0; split; cbn [fst snd]; go). clearbody q0. revert q0 V. clear - W Hx Hy.
    induction (wells m) as [|w ws IH]; intros q0 V; [exact V|]. cbn [fold_left]. apply IH; [intros w' H; apply W; now right|].
    destruct (W w (or_introl eq_refl)) as (Wx & Wy & Wq). destruct V as (V1 & V2). split; cbn [fst snd]; go.
  Qed.
  Lemma v_potential x y : fvalid x -> fvalid y -> fvalid (@compute_potential _ NS m x y).
  Proof.
    intros Hx Hy. destruct HM as (Vk & Vn & Vh & Vx & Vy & (A & B & C & D & E & F) & W). unfold compute_potential. apply o_add.
    - unfold potential_regional. go.
    - unfold potential_wells. set (q0 := @nZ _ _ 0). assert (V : fvalid q0) by (unfold q0; go). clearbody q0. revert q0 V. clear - W Hx Hy HL.
      induction (wells m) as [|w ws IH]; intros q0 V; [exact V|]. cbn [fold_left]. apply IH; [intros w' H; apply W; now right|].
      destruct (W w (or_introl eq_refl)) as (Wx & Wy & Wq). go.
  Qed.
  Lemma v_head x y h : fvalid x -> fvalid y -> @compute_head _ NS m x y = Ok h -> fvalid h.
  Proof.
    intros Hx Hy. unfold compute_head, head_of_potential. pose proof (v_potential x y Hx Hy) as P. set (p := compute_potential _ _ _) in *. clearbody p.
    destruct HM as (Vk & Vn & Vh & _). destruct (nle _ _); [discriminate|]. destruct (nlt _ _).
    - set (z := nsqrt _). assert (Z : fvalid z) by (unfold z; go). intros E. injection E as <-. exact Z.
    - set (z := ndiv _ _). assert (Z : fvalid z) by (unfold z; go). intros E. injection E as <-. exact Z.
  Qed.

  Lemma ok_eq {A} (a b : A) : Ok a = Ok b -> a = b.
  Proof. congruence. Qed.
  Lemma v_field (confined : bool) : valid_field (@feval _ NS confined m).
  Proof.
    intros [x y] k (Hx & Hy). cbn [fst snd] in Hx, Hy. unfold feval. cbn [fst snd]. pose proof (v_discharge x y Hx Hy) as Q.
    destruct HM as (Vk & Vn & Vh & _). destruct confined.
    - unfold compute_velocity_confined. destruct (compute_discharge m x y) as [qx qy]. destruct Q as (Q1 & Q2). cbn [fst snd] in Q1, Q2. intros E. apply ok_eq in E. subst k. split; cbn [fst snd]; go.
    - unfold compute_velocity. destruct (compute_discharge m x y) as [qx qy]. destruct Q as (Q1 & Q2). cbn [fst snd] in Q1, Q2.
      pose proof (v_head x y) as VH. destruct (compute_head m x y) as [h|e|]; cbn [bind]; try discriminate. specialize (VH h Hx Hy eq_refl).
      destruct (nle h _); [discriminate|]. destruct (nlt _ h); cbn [bind]; intros E; apply ok_eq in E; subst k; split; cbn [fst snd]; go.
  Qed.
  Lemma v_start xt yt rt theta : fvalid xt -> fvalid yt -> fvalid rt -> fvalid theta -> valid_vec (@start_point _ NS xt yt rt theta).
  Proof. intros A B C D. unfold start_point. split; cbn [fst snd]; go. Qed.
End Flow.

(** The program's own traces: every path of a capture zone, with either velocity function of a model of binary64 numbers, stops at the duration or at the number after it;
    and exactly at the duration when that has at most 52 digits. *)
Lemma c93_program : forall lm fuel m confined xt yt rt theta D tol maxstep (tr : trace spec_float), valid_libm lm -> valid_model m ->
  fvalid xt -> fvalid yt -> fvalid rt -> fvalid theta -> fvalid tol -> fvalid maxstep -> ffinite D -> Rabs (fval D) <= 2 ^ 1000 ->
  let start := @start_point spec_float (SF lm) xt yt rt theta in
  @compute_backtrace spec_float (SF lm) fuel (fst start) (snd start) D tol maxstep (@feval spec_float (SF lm) confined m) = Ok tr ->
  ffinite (t_end tr) /\ (forall x, ffinite x -> Rabs (fval D) < fval x -> Rabs (fval (t_end tr)) <= fval x) /\
  (completed tr = true -> Rabs (fval D) <= Rabs (fval (t_end tr))) /\
  (unsigned_root lm -> unsigned maxstep -> short D ->
    0 <= fval (t_end tr) * fval D /\ Rabs (fval (t_end tr)) <= Rabs (fval D) /\ (completed tr = true -> fval (t_end tr) = fval D)).
Proof.
  intros lm fuel m confined xt yt rt theta D tol maxstep tr HL HM Vx Vy Vr Vt VT VM FD BD start H.
  destruct (v_start lm HL xt yt rt theta Vx Vy Vr Vt) as (S1 & S2). fold start in S1, S2. pose proof (v_field lm HL m HM confined) as VF.
  assert (VR : valid_root lm) by (intros x V; exact (proj2 (proj2 (proj2 (HL x V))))).
  destruct (c93_duration lm fuel _ _ D tol maxstep _ tr VR VF S1 S2 VT VM FD BD H) as (A & B & C).
  split; [exact A|]. split; [exact B|]. split; [exact C|]. intros UR UM SD.
  exact (proj2 (c93_exact lm fuel _ _ D tol maxstep _ tr VR UR VF S1 S2 VT VM UM FD BD SD H)).
Qed.

(** A confined aquifer with one well and a uniform regional flow; ten days backwards from one metre outside the well. *)
Definition fi (z : Z) : spec_float := f_of_Z z.
Definition small_model : model spec_float := Eval vm_compute in
  {| base := fi 0; conductivity := fi 1; porosity := quarter; thickness := fi 10; wells := [{| wx := fi 0; wy := fi 0; wr := quarter; wq := fi 100 |}];
     xo := fi 0; yo := fi 0; coef := {| cA := fi 0; cB := fi 0; cC := fi 0; cD := fi 5; cE := fi 3; cF := fi 1000 |} |}.
Definition tendays : spec_float := Eval vm_compute in f_of_Z (-10).
Lemma c93_program_example : valid_libm root_libm /\ valid_model small_model /\ unsigned_root root_libm /\ short tendays /\
  exists tr, let start := @start_point spec_float (SF root_libm) (fi 0) (fi 0) quarter (fi 1) in
    @compute_backtrace spec_float (SF root_libm) 1000 (fst start) (snd start) tendays unit_ hundred (@feval spec_float (SF root_libm) true small_model) = Ok tr /\
    completed tr = true /\ t_end tr = tendays /\ (4 < length (vertices tr))%nat.
Proof.
  split. { intros x V. cbn [lm_log lm_cos lm_sin lm_root5 root_libm]. split; [exact V|]. split; [exact V|]. split; [exact V|]. apply v_sqrt, v_abs, V. }
  split. { repeat split; try (vm_compute; reflexivity); destruct H as [<-|[]]; vm_compute; reflexivity. }
  split; [exact (proj1 (proj2 c93_example))|].
  split. { exists (-10)%Z, 0%Z. split; [reflexivity|]. split; [lia|]. rewrite (ProofFloatGrow.fval_mant tendays (-49) eq_refl).
    match goal with |- IZR ?z * _ = _ => replace z with (-10 * 2 ^ 49)%Z by (vm_compute; reflexivity) end.
    rewrite mult_IZR. replace (IZR (2 ^ 49)) with (powerRZ 2 49) by (change (powerRZ 2 49) with (2 ^ 49); rewrite pow_IZR; reflexivity).
    rewrite Rmult_assoc, <- powerRZ_add by lra. reflexivity. }
  eexists. split; [vm_compute; reflexivity|]. split; [reflexivity|]. split; [reflexivity|]. vm_compute. lia.
Qed.
