(** * The step budget ("fuel") of the model never changes a result

    The loops of the program are modelled with a budget of iterations; running out of it is [NoFuel].
    Everything else the model computes is independent of the budget: more of it gives the same. *)
From Coq Require Import Lia.
From Verif Require Import Py Num ModelField ModelAquifer ModelTrace ModelDist ModelDriver.

(** [stable f]: a result other than NoFuel stays with a larger budget. *)
Definition stable {A} (f : nat -> res A) : Prop :=
  forall n m, (n <= m)%nat -> f n <> NoFuel -> f m = f n.
Definition stable2 {S A} (f : nat -> S * res A) : Prop :=
  forall n m, (n <= m)%nat -> snd (f n) <> NoFuel -> f m = f n.

Section Fuel.
  Context {T : Type} {N : Num T}.

  Lemma stable_const {A} (r : res A) : stable (fun _ => r).
  Proof. intros n m _ _. reflexivity. Qed.
  Lemma stable_bind {A B} (f : nat -> res A) (k : nat -> A -> res B) :
    stable f -> (forall a, stable (fun n => k n a)) -> stable (fun n => bind (f n) (k n)).
  Proof.
    intros Hf Hk n m L H. destruct (f n) as [a|e|] eqn:E; cbn [bind] in *.
    - rewrite (Hf n m L) by congruence. rewrite E. cbn [bind]. apply (Hk a n m L H).
    - rewrite (Hf n m L) by congruence. rewrite E. reflexivity.
    - contradiction.
  Qed.

  Lemma grow_down_stable x d : forall lo k, stable (fun n => grow_down n x lo d k).
  Proof.
    intros lo k n. revert lo k. induction n as [|n IH]; intros lo k [|m] L H; try lia; cbn [grow_down] in *; try contradiction.
    destruct (nle x lo); [apply IH; [lia|exact H]|reflexivity].
  Qed.
  Lemma grow_up_stable x d : forall hi k, stable (fun n => grow_up n x hi d k).
  Proof.
    intros hi k n. revert hi k. induction n as [|n IH]; intros hi k [|m] L H; try lia; cbn [grow_up] in *; try contradiction.
    destruct (nle hi x); [apply IH; [lia|exact H]|reflexivity].
  Qed.
  Lemma expand_stable s a b c d : stable2 (fun n => expand n s a b c d).
  Proof.
    intros n m L H. unfold expand in *. destruct (nlt b a); [reflexivity|]. destruct (nlt d c); [reflexivity|].
    destruct (body s) as [g|]; [|reflexivity].
    assert (S : stable (fun n => expand_more n (deltax s) (deltay s) g a b c d)).
    { unfold expand_more. apply stable_bind; [apply grow_down_stable|]. intros [x0 cl].
      apply (stable_bind (fun n => grow_up n b (xmax g) (deltax s) 0)); [apply grow_up_stable|]. intros [x1 cr].
      apply (stable_bind (fun n => grow_down n c (ymin g) (deltay s) 0)); [apply grow_down_stable|]. intros [y0 rb].
      apply (stable_bind (fun n => grow_up n d (ymax g) (deltay s) 0)); [apply grow_up_stable|]. intros [y1 rt]. apply stable_const. }
    specialize (S n m L). cbv beta in S. rewrite S; [reflexivity|]. intros E. rewrite E in H. apply H. reflexivity.
  Qed.
  Lemma rasterize_stable s x y u : stable2 (fun n => rasterize n s x y u).
  Proof.
    intros n m L H. unfold rasterize in *. destruct (pymin_list x) as [t|e|]; try reflexivity. destruct (pymax_list x) as [t0|e|]; try reflexivity.
    destruct (pymin_list y) as [t1|e|]; try reflexivity. destruct (pymax_list y) as [t2|e|]; try reflexivity.
    pose proof (expand_stable s t t0 t1 t2 n m L) as S. cbv beta in S. rewrite S; [reflexivity|].
    destruct (expand n s t t0 t1 t2) as [s' [u0|e|]]; cbn in *; congruence.
  Qed.
  Lemma run_op_stable s o : stable2 (fun n => run_op n s o).
  Proof.
    intros n m L H. destruct o; cbn [run_op] in *; try reflexivity.
    - apply expand_stable; assumption.
    - apply rasterize_stable; assumption.
  Qed.

  Lemma trace_loop_stable f duration tol maxstep : forall t dt xy k acc, stable (fun n => trace_loop n f duration tol maxstep t dt xy k acc).
  Proof.
    intros t dt xy k acc n. revert t dt xy k acc. induction n as [|n IH]; intros t dt xy k acc [|m] L H; try lia; cbn [trace_loop] in *; try contradiction.
    destruct (nlt (nabs t) (nabs duration)); [|reflexivity]. destruct (dp_step f xy _ k) as [[[[xyt k7] est] ds]|e|]; try reflexivity.
    destruct (_ && _); apply IH; try lia; exact H.
  Qed.
  Lemma compute_backtrace_stable xs ys duration tol maxstep f : stable (fun n => compute_backtrace n xs ys duration tol maxstep f).
  Proof.
    intros n m L H. unfold compute_backtrace in *. destruct (f (xs, ys)) as [k|e|]; try reflexivity.
    apply trace_loop_stable; assumption.
  Qed.
  Lemma trace_paths_stable xt yt rt duration umbra tol maxstep f thetas : forall s, stable2 (fun n => trace_paths n s xt yt rt duration umbra tol maxstep f thetas).
  Proof.
    induction thetas as [|th thetas IH]; intros s n m L H; cbn [trace_paths] in *; [reflexivity|].
    destruct (start_point xt yt rt th) as [x y].
    pose proof (compute_backtrace_stable x y duration tol maxstep f n m L) as S. cbv beta in S.
    destruct (compute_backtrace n x y duration tol maxstep f) as [tr|e|] eqn:E; [| |contradiction (H eq_refl)].
    - rewrite S by discriminate. pose proof (rasterize_stable s (map fst (vertices tr)) (map snd (vertices tr)) umbra n m L) as S2. cbv beta in S2.
      destruct (rasterize n s (map fst (vertices tr)) (map snd (vertices tr)) umbra) as [s' [u|e|]]; cbn [snd] in *.
      + rewrite S2 by discriminate. apply IH; assumption.
      + rewrite S2 by discriminate. reflexivity.
      + contradiction (H eq_refl).
    - rewrite S by discriminate. reflexivity.
  Qed.
  Lemma compute_capturezone_stable xt yt rt npaths duration s umbra weight tol maxstep f :
    stable2 (fun n => compute_capturezone n xt yt rt npaths duration s umbra weight tol maxstep f).
  Proof.
    intros n m L H. unfold compute_capturezone in *. destruct (start_angles npaths) as [thetas|e|]; try reflexivity.
    pose proof (trace_paths_stable xt yt rt duration umbra tol maxstep f thetas s n m L) as S. cbv beta in S.
    destruct (trace_paths n s xt yt rt duration umbra tol maxstep f thetas) as [s' [u|e|]]; cbn [snd] in *.
    - rewrite S by discriminate. reflexivity.
    - rewrite S by discriminate. reflexivity.
    - contradiction (H eq_refl).
  Qed.
  Lemma realization_stable la s xt yt rt npaths duration base_ kv nv hv ws qs observations umbra confined tol maxstep pick recharge :
    stable2 (fun n => realization n la s xt yt rt npaths duration base_ kv nv hv ws qs observations umbra confined tol maxstep pick recharge).
  Proof.
    intros n m L H. unfold realization in *.
    match goal with |- context [match ?r with Ok _ => _ | Raise _ => _ | NoFuel => _ end] => destruct r as [md|e|]; try reflexivity end.
    pose proof (compute_capturezone_stable xt yt rt npaths duration s umbra (nZ 1) tol maxstep (feval confined md) n m L) as S. cbv beta in S.
    destruct (compute_capturezone n xt yt rt npaths duration s umbra (nZ 1) tol maxstep (feval confined md)) as [s' [u|e|]]; cbn [snd bind] in *.
    - rewrite S by discriminate. reflexivity.
    - rewrite S by discriminate. reflexivity.
    - contradiction (H eq_refl).
  Qed.
  Lemma deterministic_stable la target npaths duration base_ c_dist p_dist t_dist ws observations spacing umbra confined tol maxstep :
    stable (fun n => create_deterministic n la target npaths duration base_ c_dist p_dist t_dist ws observations spacing umbra confined tol maxstep).
  Proof.
    intros n m L H. unfold create_deterministic in *. destruct (nth_error ws target) as [w|]; [|reflexivity].
    destruct (pf_init _ _ _ _) as [s0|e|]; cbn [bind] in *; try reflexivity.
    destruct (map_res _ ws) as [qs|e|]; cbn [bind] in *; try reflexivity.
    destruct (compute_variate_mean c_dist) as [k|e|]; cbn [bind] in *; try reflexivity.
    destruct (compute_variate_mean p_dist) as [p|e|]; cbn [bind] in *; try reflexivity.
    destruct (compute_variate_mean t_dist) as [h|e|]; cbn [bind] in *; try reflexivity.
    match type of H with context [realization n ?a1 ?a2 ?a3 ?a4 ?a5 ?a6 ?a7 ?a8 ?a9 ?a10 ?a11 ?a12 ?a13 ?a14 ?a15 ?a16 ?a17 ?a18 ?a19 ?a20] =>
      pose proof (realization_stable a1 a2 a3 a4 a5 a6 a7 a8 a9 a10 a11 a12 a13 a14 a15 a16 a17 a18 a19 a20 n m L) as S; cbv beta in S;
      destruct (realization n a1 a2 a3 a4 a5 a6 a7 a8 a9 a10 a11 a12 a13 a14 a15 a16 a17 a18 a19 a20) as [s' [u|e|]] end; cbn [snd bind] in *.
    - rewrite S by discriminate. reflexivity.
    - rewrite S by discriminate. reflexivity.
    - contradiction (H eq_refl).
  Qed.

  Context {G E : Type} (R : rng T G) (mvn : E -> list T -> list (list T) -> list T).
  Lemma realizations_stable la k : forall entropy i g s logs xt yt rt npaths duration base_ c_dist p_dist t_dist ws observations umbra confined tol maxstep,
    stable (fun n => realizations R mvn n la k entropy i g s logs xt yt rt npaths duration base_ c_dist p_dist t_dist ws observations umbra confined tol maxstep).
  Proof.
    induction k as [|k IH]; intros entropy i g s logs xt yt rt npaths duration base_ c_dist p_dist t_dist ws observations umbra confined tol maxstep n m L H; cbn [realizations] in *; [reflexivity|].
    destruct (sample_all R g (map sq ws)) as [[qs g1]|e|]; cbn [bind] in *; try reflexivity.
    destruct (generate_random_variate R g1 c_dist) as [[kv g2]|e|]; cbn [bind] in *; try reflexivity.
    destruct (generate_random_variate R g2 p_dist) as [[nv g3]|e|]; cbn [bind] in *; try reflexivity.
    destruct (generate_random_variate R g3 t_dist) as [[hv g4]|e|]; cbn [bind] in *; try reflexivity.
    match type of H with context [realization n ?a1 ?a2 ?a3 ?a4 ?a5 ?a6 ?a7 ?a8 ?a9 ?a10 ?a11 ?a12 ?a13 ?a14 ?a15 ?a16 ?a17 ?a18 ?a19 ?a20] =>
      pose proof (realization_stable a1 a2 a3 a4 a5 a6 a7 a8 a9 a10 a11 a12 a13 a14 a15 a16 a17 a18 a19 a20 n m L) as S; cbv beta in S;
      destruct (realization n a1 a2 a3 a4 a5 a6 a7 a8 a9 a10 a11 a12 a13 a14 a15 a16 a17 a18 a19 a20) as [s' [u|e|]] end; cbn [snd bind] in *.
    - rewrite S by discriminate. cbn [bind]. apply IH; assumption.
    - rewrite S by discriminate. reflexivity.
    - contradiction (H eq_refl).
  Qed.
  Lemma stochastic_stable la entropy g target npaths duration nrealizations base_ c_dist p_dist t_dist ws observations spacing umbra confined tol maxstep :
    stable (fun n => create_stochastic R mvn n la entropy g target npaths duration nrealizations base_ c_dist p_dist t_dist ws observations spacing umbra confined tol maxstep).
  Proof.
    intros n m L H. unfold create_stochastic in *. destruct (nth_error ws target) as [w|]; [|reflexivity].
    destruct (pf_init _ _ _ _) as [s0|e|]; cbn [bind] in *; try reflexivity.
    apply realizations_stable; assumption.
  Qed.
End Fuel.

(** ** C77 *)

Lemma agree {A} (f : nat -> res A) : stable f -> forall n m, f n <> NoFuel -> f m <> NoFuel -> f n = f m.
Proof. intros S n m H1 H2. destruct (Nat.le_ge_cases n m) as [L|L]; [symmetry|]; apply S; assumption. Qed.
Lemma agree2 {S A} (f : nat -> S * res A) : stable2 f -> forall n m, snd (f n) <> NoFuel -> snd (f m) <> NoFuel -> f n = f m.
Proof. intros H n m H1 H2. destruct (Nat.le_ge_cases n m) as [L|L]; [symmetry|]; apply H; assumption. Qed.

(** The operations on the field: two budgets that suffice give the same field and the same outcome. *)
Lemma c77_field : forall (T : Type) (N : Num T) (s : pfield T) (o : op T) n m,
  snd (run_op n s o) <> NoFuel -> snd (run_op m s o) <> NoFuel -> run_op n s o = run_op m s o.
Proof. intros T N s o n m. exact (agree2 _ (run_op_stable s o) n m). Qed.

(** The traces. *)
Lemma c77_backtrace : forall (T : Type) (N : Num T) xs ys duration tol maxstep (f : vec T -> res (vec T)) n m,
  compute_backtrace n xs ys duration tol maxstep f <> NoFuel -> compute_backtrace m xs ys duration tol maxstep f <> NoFuel ->
  compute_backtrace n xs ys duration tol maxstep f = compute_backtrace m xs ys duration tol maxstep f.
Proof. intros T N xs ys duration tol maxstep f n m. exact (agree _ (compute_backtrace_stable xs ys duration tol maxstep f) n m). Qed.

(** The capture zone of one realization. *)
Lemma c77_capturezone : forall (T : Type) (N : Num T) xt yt rt npaths duration (s : pfield T) umbra weight tol maxstep f n m,
  snd (compute_capturezone n xt yt rt npaths duration s umbra weight tol maxstep f) <> NoFuel ->
  snd (compute_capturezone m xt yt rt npaths duration s umbra weight tol maxstep f) <> NoFuel ->
  compute_capturezone n xt yt rt npaths duration s umbra weight tol maxstep f
  = compute_capturezone m xt yt rt npaths duration s umbra weight tol maxstep f.
Proof. intros T N xt yt rt npaths duration s umbra weight tol maxstep f n m. exact (agree2 _ (compute_capturezone_stable xt yt rt npaths duration s umbra weight tol maxstep f) n m). Qed.

(** The deterministic driver: once some budget suffices, every larger one gives the same result, and all that
    suffice agree. *)
Lemma c77_deterministic : forall (T : Type) (N : Num T)
    la target npaths duration base_ c_dist p_dist t_dist ws observations spacing umbra confined tol maxstep n m,
  let run k := create_deterministic k la target npaths duration base_ c_dist p_dist t_dist ws observations spacing umbra confined tol maxstep in
  run n <> NoFuel -> ((n <= m)%nat -> run m = run n) /\ (run m <> NoFuel -> run m = run n).
Proof.
  intros T N la target npaths duration base_ c_dist p_dist t_dist ws observations spacing umbra confined tol maxstep n m run H.
  pose proof (deterministic_stable la target npaths duration base_ c_dist p_dist t_dist ws observations spacing umbra confined tol maxstep) as S.
  split; [intros L; exact (S n m L H)|]. intros H'. exact (agree _ S m n H' H).
Qed.

(** The stochastic driver, for the same random outcomes. *)
Lemma c77_stochastic : forall (T : Type) (N : Num T) (G E : Type) (R : rng T G) (mvn : E -> list T -> list (list T) -> list T)
    la entropy g target npaths duration nrealizations base_ c_dist p_dist t_dist ws observations spacing umbra confined tol maxstep n m,
  let run k := create_stochastic R mvn k la entropy g target npaths duration nrealizations base_ c_dist p_dist t_dist ws observations spacing umbra confined tol maxstep in
  run n <> NoFuel -> ((n <= m)%nat -> run m = run n) /\ (run m <> NoFuel -> run m = run n).
Proof.
  intros T N G E R mvn la entropy g target npaths duration nrealizations base_ c_dist p_dist t_dist ws observations spacing umbra confined tol maxstep n m run H.
  pose proof (stochastic_stable R mvn la entropy g target npaths duration nrealizations base_ c_dist p_dist t_dist ws observations spacing umbra confined tol maxstep) as S.
  split; [intros L; exact (S n m L H)|]. intros H'. exact (agree _ S m n H' H).
Qed.
