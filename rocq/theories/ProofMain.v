(** * The arguments of oneka: proofs *)
From Coq Require Import Reals Lra Lia String.
From Verif Require Import Py Num NumXR ModelField ModelAquifer ModelTrace ModelObs ModelDist ModelDriver ModelPlot ModelArchive ModelMain.
From Verif Require Import SpecDist SpecMain ProofDist.
Local Open Scope R_scope.

(** ** Assertions *)
Lemma py_assert_ok c : py_assert c = Ok tt <-> c = Ok true.
Proof. destruct c as [[]|e|]; cbn; split; intros; congruence. Qed.
Lemma py_and_ok a b : py_and a b = Ok true <-> a = Ok true /\ b = Ok true.
Proof. destruct a as [[]|e|]; cbn; intuition congruence. Qed.
Lemma then_ok (r s : res unit) : (let! _ := r in s) = Ok tt <-> r = Ok tt /\ s = Ok tt.
Proof. destruct r as [[]|e|]; cbn; intuition congruence. Qed.
Lemma for_ok {A} (p : A -> res bool) l : for_in l (fun x _ => py_assert (p x)) tt = Ok tt <-> Forall (fun x => p x = Ok true) l.
Proof.
  induction l as [|x l IH]; cbn [for_in]; [split; [constructor|reflexivity]|].
  rewrite Forall_cons_iff, <- IH, <- py_assert_ok. destruct (py_assert (p x)) as [[]|e|]; cbn [bind]; intuition congruence.
Qed.

(** Tests that answer, or raise TypeError; assertions that pass, or raise AssertionError or TypeError. *)
Definition tests (c : res bool) : Prop := c = Ok true \/ c = Ok false \/ c = Raise TypeError.
Definition asserts (r : res unit) : Prop := r = Ok tt \/ r = Raise AssertionError \/ r = Raise TypeError.

Lemma tests_ok b : tests (Ok b).
Proof. destruct b; [left|right; left]; reflexivity. Qed.
Lemma tests_and a b : tests a -> tests b -> tests (py_and a b).
Proof. intros [->|[->| ->]] Hb; cbn; [exact Hb|right; left; reflexivity|right; right; reflexivity]. Qed.
Lemma tests_assert c : tests c -> asserts (py_assert c).
Proof. intros [->|[->| ->]]; cbn; [left|right; left|right; right]; reflexivity. Qed.
Lemma tests_lt (v w : pyval xr) : tests (py_lt v w).
Proof. unfold py_lt. destruct (num_of v), (num_of w); try apply tests_ok; right; right; reflexivity. Qed.
Lemma tests_leq (v w : pyval xr) : tests (py_leq v w).
Proof. unfold py_leq. destruct (num_of v), (num_of w); try apply tests_ok; right; right; reflexivity. Qed.
Lemma tests_ne0 (v : pyval xr) : tests (py_ne0 v).
Proof. unfold py_ne0. destruct (num_of v); apply tests_ok. Qed.
Lemma tests_dist (v : pyval xr) lb ub : tests (isdistribution v lb ub).
Proof. destruct (c55_otherwise v lb ub) as [->|[->|[-> _]]]; [left|right; left|right; right]; reflexivity. Qed.
Lemma tests_len (v : pyval xr) k : (forall n, tests (k n)) -> tests (let! n := py_len v in k n).
Proof. intros K. destruct v; cbn; try apply K; right; right; reflexivity. Qed.
Lemma asserts_then r s : asserts r -> asserts s -> asserts (let! _ := r in s).
Proof. intros [->|[->| ->]] Hs; cbn; [exact Hs|right; left; reflexivity|right; right; reflexivity]. Qed.
Lemma asserts_for {A} (p : A -> res bool) l : (forall x, tests (p x)) -> asserts (for_in l (fun x _ => py_assert (p x)) tt).
Proof.
  intros K. induction l as [|x l IH]; cbn [for_in]; [left; reflexivity|].
  destruct (tests_assert _ (K x)) as [E|[E|E]]; rewrite E; cbn [bind]; [exact IH|right; left|right; right]; reflexivity.
Qed.

(** Sequences of four entries. *)
Inductive len4 (v : pyval xr) (P : pyval xr -> pyval xr -> pyval xr -> pyval xr -> res bool) : res bool -> Prop :=
| l4_not : (forall a b c d, ~ sequence v [a; b; c; d]) -> (forall s, v <> PStr s) -> forall r, r = Ok false \/ r = Raise TypeError -> len4 v P r
| l4_str s a b c d : v = PStr s -> len4 v P (P (PStr a) b c d)
| l4_short s : v = PStr s -> len4 v P (Ok false)
| l4_seq a b c d : sequence v [a; b; c; d] -> len4 v P (P a b c d).

Lemma len4_case (v : pyval xr) P :
  len4 v P (let! n := py_len v in
            if negb (n =? 4)%Z then Ok false else
            let! a := py_item v 0 in let! b := py_item v 1 in let! c := py_item v 2 in let! d := py_item v 3 in P a b c d).
Proof.
  assert (L : forall k l, (k = PTuple \/ k = PList) -> v = k l ->
     py_len v = Ok (Z.of_nat (List.length l)) /\ forall i, py_item v i = match nth_error l i with Some a => Ok a | None => Raise IndexError end).
  { intros k l [->| ->] ->; split; reflexivity. }
  assert (K : forall k l, (k = PTuple \/ k = PList) -> v = k l ->
     len4 v P (let! n := py_len v in
            if negb (n =? 4)%Z then Ok false else
            let! a := py_item v 0 in let! b := py_item v 1 in let! c := py_item v 2 in let! d := py_item v 3 in P a b c d)).
  { intros k l Hk E. destruct (L k l Hk E) as (EL & EI). rewrite EL, !EI. cbn [bind].
    destruct l as [|a [|b [|c [|d [|e l]]]]].
    5: { cbn. apply l4_seq. destruct Hk as [->| ->]; [left|right]; exact E. }
    5: { destruct (Z.eqb_spec (Z.of_nat (List.length (a :: b :: c :: d :: e :: l))) 4) as [Q|Q]; [cbn [List.length] in Q; lia|]. cbn [negb].
         apply l4_not; [|destruct Hk as [->| ->]; congruence|left; reflexivity]. intros a' b' c' d' [S|S]; destruct Hk as [->| ->]; congruence. }
    all: cbn; apply l4_not; [|destruct Hk as [->| ->]; congruence|left; reflexivity]; intros a' b' c' d' [S|S]; destruct Hk as [->| ->]; congruence. }
  destruct v as [z|x|b|s| |l|l].
  4: { cbn [py_len bind]. destruct (Z.eqb_spec (Z.of_nat (String.length s)) 4) as [Q|Q]; cbn [negb]; [|eapply l4_short; reflexivity].
       destruct s as [|c0 [|c1 [|c2 [|c3 [|c4 s]]]]]; cbn [String.length] in Q; try lia. cbn. eapply l4_str. reflexivity. }
  5: { apply (K PTuple l); auto. }
  5: { apply (K PList l); auto. }
  all: cbn; apply l4_not; [|congruence|right; reflexivity]; intros ? ? ? ? [S|S]; congruence.
Qed.

Lemma is_number_iff (v : pyval xr) : Ok (is_number v) = Ok true <-> numeric v.
Proof.
  split.
  - destruct v as [z|y|[]|s| |l|l]; cbn; intros [=]; eexists; constructor.
  - intros (x & []); reflexivity.
Qed.
Lemma lt0_iff (v : pyval xr) : numeric v -> (py_lt (PInt 0) v = Ok true <-> positive v).
Proof.
  intros (x & Hx). unfold py_lt. rewrite (proj2 (number_of _ _) Hx). cbn [num_of].
  assert (E : Ok (nlt (nZ 0) x) = Ok true <-> xr_pos x).
  { cbn. destruct x as [r| | |]; cbn; try (split; intros; congruence || contradiction || reflexivity).
    unfold xlt. split; [intros [= H]; now apply Rltb_true in H|intros H; apply f_equal; now apply Rltb_true]. }
  rewrite E. split; [intros H; exists x; auto|]. intros (y & Hy & P). now rewrite (number_fun _ _ _ Hx Hy).
Qed.
Lemma le0_iff (v : pyval xr) : numeric v -> (py_leq (PInt 0) v = Ok true <-> exists x, number v x /\ xr_le (Fin 0) x).
Proof.
  intros (x & Hx). unfold py_leq. rewrite (proj2 (number_of _ _) Hx). cbn [num_of].
  assert (E : Ok (nle (nZ 0) x) = Ok true <-> xr_le (Fin 0) x).
  { cbn. destruct x as [r| | |]; cbn; try (split; intros; congruence || contradiction || reflexivity || exact I).
    split; [intros [= H]; now apply Rleb_true in H|intros H; apply f_equal; now apply Rleb_true]. }
  rewrite E. split; [intros H; exists x; auto|]. intros (y & Hy & P). now rewrite (number_fun _ _ _ Hx Hy).
Qed.
Lemma positive_iff (v : pyval xr) : positive_number v = Ok true <-> positive v.
Proof.
  unfold positive_number. rewrite py_and_ok, is_number_iff. split.
  - intros [Hn H]. now apply lt0_iff.
  - intros H. assert (numeric v) as Hn by (destruct H as (x & Hx & _); exists x; exact Hx). split; [exact Hn|]. now apply lt0_iff.
Qed.
Lemma positive_numeric v : positive v -> numeric v.
Proof. intros (x & Hx & _). exists x. exact Hx. Qed.

Lemma seq_inj v a b c d a' b' c' d' : sequence v [a; b; c; d] -> sequence v [a'; b'; c'; d'] -> a = a' /\ b = b' /\ c = c' /\ d = d'.
Proof. intros [->| ->] [S|S]; inversion S; auto. Qed.

Definition well_test (a b c d : pyval xr) : res bool :=
  py_and (Ok (is_number a)) (py_and (Ok (is_number b)) (py_and (Ok (is_number c)) (py_and (py_lt (PInt 0) c) (isdistribution d (nopp ninf) ninf)))).
Definition obs_test (a b c d : pyval xr) : res bool :=
  py_and (Ok (is_number a)) (py_and (Ok (is_number b)) (py_and (Ok (is_number c)) (py_and (Ok (is_number d)) (py_leq (PInt 0) d)))).

Lemma valid_well_iff (v : pyval xr) : valid_well v = Ok true <-> well_ok v.
Proof.
  unfold valid_well. set (P := well_test).
  match goal with |- ?r = _ <-> _ => pose proof (len4_case v P : len4 v P r) as H; destruct H as [N NS r0 Hr|s a b c d E|s E|a b c d S] end.
  - split; [destruct Hr as [->| ->]; discriminate|]. intros (x & y & r' & q & S & _). destruct (N _ _ _ _ S).
  - split; [discriminate|]. intros (x & y & r' & q & [S|S] & _); congruence.
  - split; [discriminate|]. intros (x & y & r' & q & [S|S] & _); congruence.
  - unfold P, well_test. rewrite !py_and_ok, !is_number_iff. rewrite c55_exactly. split.
    + intros (A & B & C & D & Q). exists a, b, c, d. repeat split; auto. now apply lt0_iff.
    + intros (x & y & r' & q & S' & X & Y & RR & Q). destruct (seq_inj _ _ _ _ _ _ _ _ _ S S') as (-> & -> & -> & ->).
      pose proof (positive_numeric _ RR) as Nr. repeat split; auto. now apply lt0_iff.
Qed.
Lemma valid_obs_iff (v : pyval xr) : valid_obs v = Ok true <-> obs_ok v.
Proof.
  unfold valid_obs. set (P := obs_test).
  match goal with |- ?r = _ <-> _ => pose proof (len4_case v P : len4 v P r) as H; destruct H as [N NS r0 Hr|s a b c d E|s E|a b c d S] end.
  - split; [destruct Hr as [->| ->]; discriminate|]. intros (x & y & r' & q & S & _). destruct (N _ _ _ _ S).
  - split; [discriminate|]. intros (x & y & r' & q & [S|S] & _); congruence.
  - split; [discriminate|]. intros (x & y & r' & q & [S|S] & _); congruence.
  - unfold P, obs_test. rewrite !py_and_ok, !is_number_iff. split.
    + intros (A & B & C & D & Q). exists a, b, c, d. repeat split; auto. now apply le0_iff.
    + intros (x & y & r' & q & S' & X & Y & RR & Q). destruct (seq_inj _ _ _ _ _ _ _ _ _ S S') as (-> & -> & -> & ->).
      assert (numeric q) as Nq by (destruct Q as (z & Hz & _); exists z; exact Hz). repeat split; auto. now apply le0_iff.
Qed.
Lemma tests_well (v : pyval xr) : tests (valid_well v).
Proof.
  unfold valid_well. set (P := well_test).
  match goal with |- tests ?r => pose proof (len4_case v P : len4 v P r) as H; destruct H as [N NS r0 Hr|s a b c d E|s E|a b c d S] end.
  - right. exact Hr.
  - right; left; reflexivity.
  - right; left; reflexivity.
  - unfold P, well_test. repeat apply tests_and; try apply tests_ok; [apply tests_lt|apply tests_dist].
Qed.
Lemma tests_obs (v : pyval xr) : tests (valid_obs v).
Proof.
  unfold valid_obs. set (P := obs_test).
  match goal with |- tests ?r => pose proof (len4_case v P : len4 v P r) as H; destruct H as [N NS r0 Hr|s a b c d E|s E|a b c d S] end.
  - right. exact Hr.
  - right; left; reflexivity.
  - right; left; reflexivity.
  - unfold P, obs_test. repeat apply tests_and; try apply tests_ok. apply tests_leq.
Qed.

Lemma validate_asserts (a : args xr) : asserts (validate a).
Proof.
  unfold validate. repeat (apply asserts_then; [first [apply tests_assert|apply asserts_for; apply tests_well|apply asserts_for; apply tests_obs]|]); [..|left; reflexivity].
  all: repeat first [apply tests_ok|apply tests_and|apply tests_lt|apply tests_leq|apply tests_ne0|apply tests_dist|apply tests_len; intros].
Qed.

(** ** The validation accepts exactly the acceptable arguments *)
Lemma is_int_iff (v : pyval xr) : Ok (is_int v) = Ok true <-> exists z, integer v z.
Proof.
  split.
  - destruct v as [z|y|[]|s| |l|l]; cbn; intros [=]; eexists; constructor.
  - intros (x & []); reflexivity.
Qed.
Lemma integer_number v z : integer v z -> number v (Fin (IZR z)).
Proof. intros []; constructor. Qed.
Lemma integer_fun v z z' : integer v z -> integer v z' -> z = z'.
Proof. intros H H'. apply eq_IZR. pose proof (number_fun _ _ _ (integer_number _ _ H) (integer_number _ _ H')) as E. congruence. Qed.

Lemma is_str_iff (v : pyval xr) : Ok (is_str v) = Ok true <-> exists s, v = PStr s.
Proof. destruct v; cbn; split; try (intros (s' & [=])); try discriminate; eauto. Qed.
Lemma is_bool_iff (v : pyval xr) : Ok (is_bool v) = Ok true <-> exists s, v = PBool s.
Proof. destruct v; cbn; split; try (intros (s' & [=])); try discriminate; eauto. Qed.
Lemma is_list_iff (v : pyval xr) : Ok (ModelMain.is_list v) = Ok true <-> exists l, v = PList l.
Proof. destruct v; cbn; split; try (intros (s' & [=])); try discriminate; eauto. Qed.

Lemma target_iff (v : pyval xr) z n : integer v z ->
  (py_leq (PInt 0) v = Ok true <-> (0 <= z)%Z) /\ (py_lt v (PInt n) = Ok true <-> (z < n)%Z) /\ (py_lt (PInt 0) v = Ok true <-> (0 < z)%Z).
Proof.
  intros H. apply integer_number, number_of in H. unfold py_leq, py_lt. rewrite H. cbn [num_of nZ XR nle nlt xle xlt].
  assert (O : forall b : bool, Ok b = Ok true <-> b = true) by (intros []; split; congruence). rewrite !O, Rleb_true, !Rltb_true.
  change (IZR 0) with 0. split; [split; [apply le_IZR|apply IZR_le]|split; split; [apply lt_IZR|apply IZR_lt|apply lt_IZR|apply IZR_lt]].
Qed.

Lemma duration_iff (v : pyval xr) : py_and (Ok (is_number v)) (py_ne0 v) = Ok true <-> exists x, number v x /\ x <> Fin 0.
Proof.
  rewrite py_and_ok, is_number_iff. unfold py_ne0. split.
  - intros ((x & Hx) & H). exists x. split; [exact Hx|]. rewrite (proj2 (number_of _ _) Hx) in H. intros ->. cbn in H.
    destruct (Reqb_spec 0 0) as [_|C]; [discriminate|apply C; reflexivity].
  - intros (x & Hx & N0). split; [exists x; exact Hx|]. rewrite (proj2 (number_of _ _) Hx). apply f_equal.
    destruct x as [r| | |]; cbn; try reflexivity. destruct (Reqb_spec 0 r) as [<-|C]; [destruct N0; reflexivity|reflexivity].
Qed.

(** The validation passes exactly when the arguments are acceptable. *)
Lemma c64_accepts : forall a : args xr, validate a = Ok tt <-> acceptable a.
Proof.
  intros a. unfold validate. rewrite !then_ok, !py_assert_ok, !for_ok, !positive_iff, !is_str_iff, is_bool_iff, is_number_iff, duration_iff.
  rewrite !py_and_ok, !is_int_iff, !is_list_iff.
  change (nZ 0) with (Fin 0). change (nZ 1) with (Fin 1). change (@ninf xr XR) with PInf. rewrite !c55_exactly.
  assert (FW : forall l, Forall (fun x => valid_well x = Ok true) l <-> Forall well_ok l).
  { intros l. rewrite !Forall_forall. split; intros H x Hx; apply valid_well_iff; auto. }
  assert (FO : forall l, Forall (fun x => valid_obs x = Ok true) l <-> Forall obs_ok l).
  { intros l. rewrite !Forall_forall. split; intros H x Hx; apply valid_obs_iff; auto. }
  rewrite FW, FO. unfold acceptable, required_ok, optional_ok. split.
  - intros (P & Rn & ((t & Ht) & T0 & T1) & ((n & Hn) & N0) & Du & Ba & C & Po & Th & ((ws & Ew) & _) & W & ((l & El) & L) & O & Bu & Sp & Um & Sm & Co & To & Ma & _).
    rewrite Ew in T1, W. rewrite El in L, O. cbn [py_len bind elements] in *.
    destruct (target_iff _ _ (Z.of_nat (List.length ws)) Ht) as (A1 & A2 & _). destruct (target_iff _ _ 0 Hn) as (_ & _ & A3).
    repeat split; auto.
    + exists ws. split; [exact Ew|]. split; [exact W|]. exists t. split; [exact Ht|]. split; [now apply A1|now apply A2].
    + exists n. split; [exact Hn|now apply A3].
    + exists l. split; [exact El|]. split; [|exact O]. injection L as L. lia.
  - intros ((P & Rn & (ws & Ew & W & t & Ht & T0 & T1) & (n & Hn & N0) & Du & Ba & C & Po & Th & (l & El & L & O)) & Bu & Sp & Um & Sm & Co & To & Ma).
    rewrite Ew, El. cbn [py_len bind elements].
    destruct (target_iff _ _ (Z.of_nat (List.length ws)) Ht) as (A1 & A2 & _). destruct (target_iff _ _ 0 Hn) as (_ & _ & A3).
    repeat split; eauto; try (now apply A1 || now apply A2 || now apply A3).
    + apply f_equal. lia.
    + apply f_equal. lia.
Qed.

(** ** C64 *)

(** Arguments that are not acceptable are rejected with AssertionError or TypeError, before anything is logged,
    plotted or archived. *)
Lemma c64_rejects : forall (G E : Type) (Rg : rng xr G) (mvn : E -> list xr -> list (list xr) -> list xr) (dump : run_args (pyobj xr) -> res unit)
    (fuel : nat) (la : linalg xr) (entropy : nat -> E) (g : G) (a : args xr),
  ~ acceptable a ->
  oneka Rg mvn dump fuel la entropy g a = ([], Raise AssertionError) \/ oneka Rg mvn dump fuel la entropy g a = ([], Raise TypeError).
Proof.
  intros. unfold oneka. destruct (validate_asserts a) as [E1|[E1|E1]]; rewrite E1; [|left; reflexivity|right; reflexivity].
  apply c64_accepts in E1. contradiction.
Qed.

(** Acceptable arguments are not rejected: the run is announced in the log. *)
Lemma c64_announced : forall (G E : Type) (Rg : rng xr G) (mvn : E -> list xr -> list (list xr) -> list xr) (dump : run_args (pyobj xr) -> res unit)
    (fuel : nat) (la : linalg xr) (entropy : nat -> E) (g : G) (a : args xr),
  acceptable a -> exists rest, fst (oneka Rg mvn dump fuel la entropy g a) = EBanner :: rest.
Proof. intros. apply c64_accepts in H. unfold oneka. rewrite H. eexists. reflexivity. Qed.

(** nrealizations is documented as an int and not checked: anything else fails after the log was started. *)
Lemma c64_nrealizations : forall (G E : Type) (Rg : rng xr G) (mvn : E -> list xr -> list (list xr) -> list xr) (dump : run_args (pyobj xr) -> res unit)
    (fuel : nat) (la : linalg xr) (entropy : nat -> E) (g : G) (a : args xr),
  acceptable a -> ~ documented_args a ->
  oneka Rg mvn dump fuel la entropy g a = ([EBanner], Raise (if is_float (nrealizations a) then ValueError else TypeError)).
Proof.
  intros G E Rg mvn dump fuel la entropy g a Ha Hd. pose proof (proj2 (c64_accepts a) Ha) as V. unfold oneka. rewrite V. cbn [stop].
  assert (Hn : forall n, ~ integer (nrealizations a) n) by (intros n Hn; apply Hd; split; [exact Ha|exists n; exact Hn]).
  destruct (nrealizations a) as [z|x|[]|s| |l|l]; try reflexivity; exfalso; eapply Hn; constructor.
Qed.

(** ** C65 *)

(** With every optional argument but smooth left out, and smooth positive, valid required arguments pass. *)
Lemma c65_partial : forall p r t n d k b c po th ws os v, let a := with_defaults p r t n d k b c po th ws os in
  required_ok a -> positive v -> validate (with_smooth a v) = Ok tt.
Proof.
  intros p r t n d k b c po th ws os v a H Hv. apply c64_accepts. split; [exact H|].
  assert (P : forall z, (0 < z)%Z -> positive (PInt z)) by (intros z Hz; exists (Fin (IZR z)); split; [constructor|now apply IZR_lt]).
  unfold optional_ok. repeat split; try (apply P; reflexivity); [exact Hv|exists true; reflexivity].
Qed.

Lemma default_smooth a : required_ok a -> optional_ok (with_smooth a (PInt 1)) -> smooth a = PInt 0 -> validate a = Raise AssertionError.
Proof.
  intros H1 H2 Hs. assert (V : validate (with_smooth a (PInt 1)) = Ok tt) by (apply c64_accepts; split; [exact H1|exact H2]).
  unfold validate in V. rewrite !then_ok in V.
  destruct V as (A1 & A2 & A3 & A4 & A5 & A6 & A7 & A8 & A9 & A10 & A11 & A12 & A13 & A14 & A15 & A16 & _).
  cbn [with_smooth projectname runtime target npaths duration base_ c_dist p_dist t_dist stochastic_wells observations buffer spacing umbra] in *.
  unfold validate. rewrite A1, A2, A3, A4, A5, A6, A7, A8, A9, A10, A11, A12, A13, A14, A15, A16, Hs. cbn [bind].
  unfold positive_number. cbn. destruct (Rltb 0 0) eqn:E; [apply Rltb_true in E; lra|reflexivity].
Qed.

(** ** C66: reading the arguments *)
Lemma as_num_number v x : number v x -> as_num v = Ok x.
Proof. intros H. unfold as_num. now rewrite (proj2 (number_of _ _) H). Qed.
Lemma get_int_integer v z : integer v z -> get_int v = Ok z.
Proof. intros []; reflexivity. Qed.
Lemma log_int v z : integer v z -> log_nrealizations v = Ok z.
Proof. intros []; reflexivity. Qed.
Lemma item4 v a b c d : sequence v [a; b; c; d] -> py_item v 0 = Ok a /\ py_item v 1 = Ok b /\ py_item v 2 = Ok c /\ py_item v 3 = Ok d.
Proof. intros [->| ->]; repeat split. Qed.
Lemma get_wells l ws : Forall2 reads_well l ws -> map_res get_well l = Ok ws.
Proof.
  induction 1 as [|v w l ws (x & y & r & S & X & Y & Rr) _ IH]; [reflexivity|]. cbn [map_res].
  destruct (item4 _ _ _ _ _ S) as (I0 & I1 & I2 & I3). assert (Q : get_well v = Ok w).
  { unfold get_well. rewrite I0, I1, I2, I3. cbn [bind].
    rewrite (as_num_number _ _ X), (as_num_number _ _ Y), (as_num_number _ _ Rr). destruct w; reflexivity. }
  rewrite Q, IH. reflexivity.
Qed.
Lemma get_obss l os : Forall2 reads_obs l os -> map_res get_obs l = Ok os.
Proof.
  induction 1 as [|v o l os (x & y & z & s & S & X & Y & Z & D) _ IH]; [reflexivity|]. cbn [map_res].
  destruct (item4 _ _ _ _ _ S) as (I0 & I1 & I2 & I3). assert (Q : get_obs v = Ok o).
  { unfold get_obs. rewrite I0, I1, I2, I3. cbn [bind].
    rewrite (as_num_number _ _ X), (as_num_number _ _ Y), (as_num_number _ _ Z), (as_num_number _ _ D). destruct o; reflexivity. }
  rewrite Q, IH. reflexivity.
Qed.

(** Documented arguments have values. *)
Lemma c66_values : forall a, documented_args a -> exists c, reads a c.
Proof.
  intros a (((_ & _ & (ws & Ew & W & t & Ht & T) & (n & Hn & N0) & (d & Hd & _) & (b & Hb) & _ & _ & _ & (l & El & _ & O)) &
            (bu & Hbu & _) & (sp & Hsp & _) & (um & Hum & _) & _ & (co & Hco) & (tl & Htl & _) & (ms & Hms & _)) & k & Hk).
  assert (WS : exists k, Forall2 reads_well ws k).
  { clear Ew T. induction W as [|v ws (x & y & r & q & S & (X & HX) & (Y & HY) & (Q & HQ & _) & _) _ (k' & IH)]; [exists []; constructor|].
    exists ({| sx := X; sy := Y; sr := Q; sq := q |} :: k'). constructor; [exists x, y, r; auto|exact IH]. }
  assert (OS : exists k, Forall2 reads_obs l k).
  { clear El. induction O as [|v l (x & y & z & s & S & (X & HX) & (Y & HY) & (Z & HZ) & D & HD & _) _ (k' & IH)]; [exists []; constructor|].
    exists ({| ox := X; oy := Y; oz := Z; os := D |} :: k'). constructor; [exists x, y, z, s; auto|exact IH]. }
  destruct WS as (ws' & WS), OS as (os' & OS).
  exists {| k_target := t; k_npaths := n; k_duration := d; k_n := k; k_base := b; k_wells := ws'; k_obs := os'; k_buffer := bu;
            k_spacing := sp; k_umbra := um; k_confined := co; k_tol := tl; k_maxstep := ms |}.
  repeat split; auto; [exists ws; auto|exists l; auto].
Qed.

Section Run.
  Context {G E : Type} (Rg : rng xr G) (mvn : E -> list xr -> list (list xr) -> list xr) (dump : run_args (pyobj xr) -> res unit).

  (** The run in terms of the values. *)
  Lemma oneka_values fuel la entropy g a c : acceptable a -> reads a c ->
    oneka Rg mvn dump fuel la entropy g a =
    emit EBanner (
    stop (filter_obs (k_obs c) (map (fun w => (sx w, sy w)) (k_wells c)) (k_buffer c)) (fun kept =>
    emit (EFiltered kept) (
    stop (py_assert (Ok (Z.of_nat (List.length kept) >? 6)%Z)) (fun _ =>
    stop (summary_statistics (table kept)) (fun st =>
    emit (ESummary st) (
    if (k_n c >? 1)%Z then
      stop (call_stochastic Rg mvn fuel la entropy g a c kept) (fun '(pf, logs) =>
      emit (ERealizations logs) (
      stop (create_probability_plot pf) (fun '(X, Y, P) =>
      emit (EProbabilityPlot X Y P) (
      stop (create_impact_plot (k_spacing c) pf) (fun '(pr, area) =>
      emit (EImpactPlot pr area) (
      stop (decile_table pr area) (fun rows =>
      emit (EDeciles rows) (
      finish dump a pf))))))))
    else
      stop (call_deterministic fuel la a c kept) (fun '(pf, l) =>
      emit (EDeterministic l) (
      stop (create_deterministic_plot pf) (fun area =>
      emit (EAreaPlot area) (
      finish dump a pf)))))))))).
  Proof.
    intros Ha (H1 & H2 & H3 & H4 & H5 & (lw & H6 & H7) & (lo & H8 & H9) & H10 & H11 & H12 & H13 & H14 & H15).
    pose proof (proj2 (c64_accepts a) Ha) as V. unfold oneka. rewrite V. cbn [stop].
    rewrite (log_int _ _ H4), H6, H8. cbn [stop elements]. rewrite (get_wells _ _ H7), (get_obss _ _ H9), (as_num_number _ _ H10). cbn [stop].
    rewrite (get_int_integer _ _ H1), (get_int_integer _ _ H2), (as_num_number _ _ H3), (as_num_number _ _ H5), (as_num_number _ _ H11),
      (as_num_number _ _ H12), (as_num_number _ _ H14), (as_num_number _ _ H15), H13. reflexivity.
  Qed.
End Run.
