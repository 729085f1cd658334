(** * Traces that never end, in binary64 (C39, C40) *)
From Coq Require Import ZArith Lia SpecFloat List Bool.
From Verif Require Import Py Num ModelField ModelAquifer ModelTrace ModelDriver ProofFuel ProofFloatTrace.
Import ListNotations.

(** 2^-54 metres. *)
Definition tiny : spec_float := Eval vm_compute in SFdiv fprec femax (f_of_Z 1) (f_of_Z (2 ^ 54)).
Definition c225 : spec_float := Eval vm_compute in SFmul fprec femax (SFdiv fprec femax (f_of_Z 9) (f_of_Z 10)) quarter.
Local Notation z0 := (S754_zero false).

(** ** Standing water with a longest step of 2^-54 *)
Section Stall.
  Variable lm : libm.
  Local Notation NS := (SF lm).
  Hypothesis HR : SFltb quarter (lm_root5 lm (f_of_Z (2 ^ 52))) = true.

  Lemma stall_next dt : @next_dt spec_float NS unit_ tiny z0 z0 dt = SFmul fprec femax c225 dt.
  Proof.
    unfold next_dt.
    assert (Q : @ndiv spec_float NS unit_ (@nadd spec_float NS z0 (@eps spec_float NS)) = f_of_Z (2 ^ 52)) by (vm_compute; reflexivity).
    assert (Q' : @ndiv spec_float NS tiny (@nadd spec_float NS z0 (@eps spec_float NS)) = quarter) by (vm_compute; reflexivity).
    rewrite Q, Q'. change (@nroot5 spec_float NS (f_of_Z (2 ^ 52))) with (lm_root5 lm (f_of_Z (2 ^ 52))).
    unfold pymin at 2. cbn [nlt SF]. rewrite HR.
    assert (P : @pymin spec_float NS quarter (@nZ spec_float NS 10) = quarter) by (vm_compute; reflexivity). rewrite P.
    assert (M : @nmul spec_float NS (@nlit spec_float NS 9 10) quarter = c225) by (vm_compute; reflexivity). rewrite M. reflexivity.
  Qed.

  (** One step of the clock, checked. *)
  Definition tick (s : spec_float * spec_float) : option (spec_float * spec_float) :=
    let (t, dt) := s in
    if SFltb (SFabs t) (SFabs unit_) && negb (SFltb (SFabs unit_) (SFabs (SFadd fprec femax t dt))) then
      match @dp_step spec_float NS still zz dt zz with
      | Ok ((S754_zero false, S754_zero false), (S754_zero false, S754_zero false), S754_zero false, S754_zero false) =>
          Some (SFadd fprec femax t dt, SFmul fprec femax c225 dt)
      | _ => None
      end
    else None.
  Lemma tick_sound t dt s : tick (t, dt) = Some s -> forall n acc,
    @trace_loop spec_float NS (S n) still unit_ unit_ tiny t dt zz zz acc
    = @trace_loop spec_float NS n still unit_ unit_ tiny (fst s) (snd s) zz zz (acc ++ [zz]).
  Proof.
    unfold tick. destruct (_ && _) eqn:C; [|discriminate]. apply andb_true_iff in C. destruct C as [C1 C2]. apply negb_true_iff in C2.
    destruct (@dp_step spec_float NS still zz dt zz) as [[[[xyt k7] est] ds]|e|] eqn:E; try discriminate.
    intros H n acc.
    assert (X : xyt = zz /\ k7 = zz /\ est = z0 /\ ds = z0 /\ s = (SFadd fprec femax t dt, SFmul fprec femax c225 dt)).
    { destruct xyt as [[[]| | |] [[]| | |]]; try discriminate. destruct k7 as [[[]| | |] [[]| | |]]; try discriminate. destruct est as [[]| | |]; try discriminate. destruct ds as [[]| | |]; try discriminate.
      injection H as <-. repeat split. }
    destruct X as (-> & -> & -> & -> & ->). cbn [trace_loop]. cbn [nabs nlt nadd nsub SF]. rewrite C1, C2, E, stall_next. reflexivity.
  Qed.
  Fixpoint ticks (n : nat) (s : spec_float * spec_float) : option (spec_float * spec_float) :=
    match n with O => Some s | S n => match tick s with Some s' => ticks n s' | None => None end end.
  Lemma ticks_sound n : forall s s', ticks n s = Some s' -> forall m acc, exists acc',
    @trace_loop spec_float NS (n + m) still unit_ unit_ tiny (fst s) (snd s) zz zz acc
    = @trace_loop spec_float NS m still unit_ unit_ tiny (fst s') (snd s') zz zz acc'.
  Proof.
    induction n as [|n IH]; intros s s' H m acc; cbn [ticks] in H.
    - injection H as <-. exists acc. reflexivity.
    - destruct s as [t dt]. destruct (tick (t, dt)) as [s1|] eqn:E; [|discriminate]. destruct (IH s1 s' H m (acc ++ [zz])) as (acc' & A).
      exists acc'. cbn [Nat.add fst snd]. rewrite (tick_sound t dt s1 E). exact A.
  Qed.

  (** A step of 0 is taken again and again. *)
  Lemma halted t : tick (t, z0) = Some (t, z0) -> forall n acc, @trace_loop spec_float NS n still unit_ unit_ tiny t z0 zz zz acc = NoFuel.
  Proof. intros H. induction n as [|n IH]; intros acc; [reflexivity|]. rewrite (tick_sound t z0 _ H). apply IH. Qed.
End Stall.

Lemma no_result {T} {N : Num T} xs ys D tol maxstep (f : vec T -> res (vec T)) k :
  (forall n, compute_backtrace (k + n) xs ys D tol maxstep f = NoFuel) -> forall n, compute_backtrace n xs ys D tol maxstep f = NoFuel.
Proof.
  intros H n. pose proof (compute_backtrace_stable xs ys D tol maxstep f n (k + n)%nat) as S.
  destruct (compute_backtrace n xs ys D tol maxstep f) eqn:E; [| |reflexivity]; exfalso;
  cbv beta in S; rewrite E, H in S; discriminate (S ltac:(lia) ltac:(discriminate)).
Qed.

(** C39 is false in binary64 too: standing water, traced for one day with tolerance 1 and a longest step of 2^-54.
    The steps shrink to 0 and the clock stops.  Of the fifth root only this is used: that of 2^52 is above 1/4. *)
Lemma c39_binary64_refuted : forall lm, SFltb quarter (lm_root5 lm (f_of_Z (2 ^ 52))) = true ->
  SFltb (S754_zero false) unit_ = true /\ SFltb (S754_zero false) tiny = true /\
  forall fuel, @compute_backtrace spec_float (SF lm) fuel (S754_zero false) (S754_zero false) unit_ unit_ tiny still = NoFuel.
Proof.
  intros lm H. split; [reflexivity|]. split; [reflexivity|]. apply (no_result _ _ _ _ _ _ 510). intros n.
  change (@trace_loop spec_float (SF lm) (510 + n) still unit_ unit_ tiny (@nZ spec_float (SF lm) 0)
    (@nmul spec_float (SF lm) (@nlit spec_float (SF lm) 1 10) (@nsign spec_float (SF lm) unit_)) zz zz [zz] = NoFuel).
  assert (X : exists t, ticks lm 510 (@nZ spec_float (SF lm) 0, @nmul spec_float (SF lm) (@nlit spec_float (SF lm) 1 10) (@nsign spec_float (SF lm) unit_)) = Some (t, z0) /\ tick lm (t, z0) = Some (t, z0)).
  { eexists. split; [vm_compute; reflexivity|vm_compute; reflexivity]. }
  destruct X as (t & X1 & X2). destruct (ticks_sound lm H 510 _ _ X1 n [zz]) as (acc' & A). cbn [fst snd] in A. rewrite A. apply (halted lm H). exact X2.
Qed.

(** ** An idle well on the path *)
(** A regional flow of 50 m^2/d in x direction and a well of discharge 0 at (1, 0). *)
Definition fifty : spec_float := Eval vm_compute in f_of_Z 50.
Definition idle : model spec_float :=
  {| base := z0; conductivity := unit_; porosity := unit_; thickness := unit_;
     wells := [{| wx := unit_; wy := z0; wr := unit_; wq := z0 |}]; xo := z0; yo := z0;
     coef := {| cA := z0; cB := z0; cC := z0; cD := fifty; cE := z0; cF := z0 |} |}.
Definition nn : vec spec_float := (S754_nan, S754_nan).

Lemma sf_add_nan x : SFadd fprec femax x S754_nan = S754_nan.
Proof. destruct x; reflexivity. Qed.
Lemma sf_mul_nan x : SFmul fprec femax x S754_nan = S754_nan.
Proof. destruct x; reflexivity. Qed.

(** C40 is false in binary64 too: upstream of a well that is not pumped at all, in an otherwise uniform flow.  The
    second stage of the first trial step falls on the well, the velocity there is NaN, and so is every later step.
    Of the elementary functions only this is used: the fifth root of NaN is NaN. *)
Lemma c40_binary64_refuted : forall lm, lm_root5 lm S754_nan = S754_nan -> forall tol maxstep fuel,
  @compute_backtrace spec_float (SF lm) fuel (S754_zero false) (S754_zero false) unit_ tol maxstep (@feval spec_float (SF lm) true idle) = NoFuel.
Proof.
  intros lm H tol maxstep. set (f := @feval spec_float (SF lm) true idle).
  assert (F0 : f zz = Ok (fifty, z0)) by (vm_compute; reflexivity).
  assert (FN : f nn = Ok nn) by (vm_compute; reflexivity).
  assert (N1 : forall c, @vscale spec_float (SF lm) c nn = nn) by (intros c; unfold vscale, nn; cbn [fst snd nmul SF]; rewrite sf_mul_nan; reflexivity).
  assert (N2 : forall a, @vadd spec_float (SF lm) a nn = nn) by (intros a; unfold vadd, nn; cbn [fst snd nadd SF]; rewrite !sf_add_nan; reflexivity).
  assert (N3 : forall a, @vadd spec_float (SF lm) nn a = nn) by (intros a; unfold vadd, nn; cbn [fst snd nadd SF]; reflexivity).
  assert (N4 : forall a, @vscale spec_float (SF lm) S754_nan a = nn) by reflexivity.
  assert (NE : forall dt, @next_dt spec_float (SF lm) tol maxstep S754_nan S754_nan dt = S754_nan).
  { intros dt. unfold next_dt.
    assert (Q : forall a, @ndiv spec_float (SF lm) a (@nadd spec_float (SF lm) S754_nan (@eps spec_float (SF lm))) = S754_nan) by (intros []; reflexivity).
    rewrite !Q. change (@nroot5 spec_float (SF lm) S754_nan) with (lm_root5 lm S754_nan). rewrite H.
    change (@pymin spec_float (SF lm) S754_nan S754_nan) with S754_nan.
    assert (P : @pymin spec_float (SF lm) S754_nan (@nZ spec_float (SF lm) 10) = S754_nan) by (vm_compute; reflexivity). rewrite P.
    cbn [nmul SF]. rewrite sf_mul_nan. reflexivity. }
  assert (LT : SFltb (SFabs z0) (SFabs unit_) = true) by reflexivity.
  assert (LOOP : forall n acc, @trace_loop spec_float (SF lm) n f unit_ tol maxstep z0 S754_nan zz (fifty, z0) acc = NoFuel).
  { induction n as [|n IH]; intros acc; [reflexivity|]. cbn [trace_loop]. cbn [nabs nlt nadd nsub SF]. rewrite LT.
    change (SFltb (SFabs unit_) (SFabs (SFadd fprec femax z0 S754_nan))) with false. cbv iota.
    unfold dp_step. repeat first [rewrite N4 | rewrite N2 | rewrite N3 | rewrite N1 | rewrite FN; cbn [bind]].
    change (@norm_inf spec_float (SF lm) nn) with S754_nan.
    assert (D : @norm2 spec_float (SF lm) (@vsub spec_float (SF lm) nn zz) = S754_nan) by (vm_compute; reflexivity). rewrite D, NE. cbn [SFltb andb SFcompare].
    apply IH. }
  intros [|n]; unfold compute_backtrace; change (z0, z0) with zz; rewrite F0; [reflexivity|].
  cbn [trace_loop]. cbn [nabs nlt nadd nsub SF]. change (@nZ spec_float (SF lm) 0) with z0. rewrite LT.
  set (dt := @nmul spec_float (SF lm) (@nlit spec_float (SF lm) 1 10) (@nsign spec_float (SF lm) unit_)).
  assert (C : SFltb (SFabs unit_) (SFabs (SFadd fprec femax z0 dt)) = false) by (vm_compute; reflexivity). rewrite C.
  unfold dp_step.
  assert (S2 : @vadd spec_float (SF lm) zz (@vscale spec_float (SF lm) dt (@vscale spec_float (SF lm) (@a2_0 spec_float (SF lm)) (fifty, z0))) = (unit_, z0)) by (vm_compute; reflexivity).
  assert (F1 : f (unit_, z0) = Ok nn) by (vm_compute; reflexivity).
  rewrite S2, F1. cbn [bind].
  repeat first [rewrite N4 | rewrite N2 | rewrite N3 | rewrite N1 | rewrite FN; cbn [bind]].
  change (@norm_inf spec_float (SF lm) nn) with S754_nan.
  assert (D : @norm2 spec_float (SF lm) (@vsub spec_float (SF lm) nn zz) = S754_nan) by (vm_compute; reflexivity). rewrite D, NE. cbn [SFltb andb SFcompare].
  apply LOOP.
Qed.

(** With the square root in place of the fifth root both hypotheses hold. *)
Lemma c39_binary64_example : SFltb quarter (lm_root5 root_libm (f_of_Z (2 ^ 52))) = true /\ lm_root5 root_libm S754_nan = S754_nan.
Proof. split; vm_compute; reflexivity. Qed.
