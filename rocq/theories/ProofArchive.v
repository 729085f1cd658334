(** * The archive *)
From Coq Require Import String Ascii ZArith List Lia.
From Verif Require Import Py ModelArchive SpecArchive.
Import ListNotations.
Local Open Scope Z_scope.

Lemma digit_inj d e : 0 <= d <= 9 -> 0 <= e <= 9 -> ascii_of_nat (48 + Z.to_nat d) = ascii_of_nat (48 + Z.to_nat e) -> d = e.
Proof.
  intros Hd He H. apply (f_equal nat_of_ascii) in H. rewrite !nat_ascii_embedding in H by lia. lia.
Qed.

Lemma digits2 n m : 0 <= n <= 99 -> 0 <= m <= 99 ->
  ascii_of_nat (48 + Z.to_nat (n / 10 mod 10)) = ascii_of_nat (48 + Z.to_nat (m / 10 mod 10)) ->
  ascii_of_nat (48 + Z.to_nat (n mod 10)) = ascii_of_nat (48 + Z.to_nat (m mod 10)) -> n = m.
Proof.
  intros Hn Hm H1 H2. assert (M : forall k, 0 <= k mod 10 <= 9) by (intros k; pose proof (Z.mod_pos_bound k 10 ltac:(lia)); lia).
  apply digit_inj in H1; [|apply M|apply M]. apply digit_inj in H2; [|apply M|apply M].
  rewrite !(Z.mod_small (_ / 10)) in H1 by (split; [apply Z.div_pos; lia|apply Z.div_lt_upper_bound; lia]).
  rewrite (Z.div_mod n 10), (Z.div_mod m 10) by lia. congruence.
Qed.

Lemma two_eq n : two n = String (ascii_of_nat (48 + Z.to_nat (n / 10 mod 10))) (String (ascii_of_nat (48 + Z.to_nat (n mod 10))) "").
Proof. reflexivity. Qed.

Lemma two_inj n m s s' : 0 <= n <= 99 -> 0 <= m <= 99 -> (two n ++ s = two m ++ s')%string -> n = m /\ s = s'.
Proof.
  intros Hn Hm H. rewrite !two_eq in H. cbn [String.append] in H. injection H as H1 H2 H3. split; [|exact H3]. apply digits2; assumption.
Qed.

(** Two archives have the same name exactly when they are written within the same second. *)
Lemma c74_names_partial : forall t u, valid_time t -> valid_time u -> (archive_name t = archive_name u <-> same_second t u).
Proof.
  intros t u Ht Hu. split.
  - unfold archive_name, four. intros H. destruct Ht as (T1 & T2 & T3 & T4 & T5 & T6 & _), Hu as (U1 & U2 & U3 & U4 & U5 & U6 & _).
    assert (A : forall n, 1000 <= n <= 9999 -> 0 <= n / 100 <= 99 /\ 0 <= n mod 100 <= 99).
    { intros n Hn. pose proof (Z.mod_pos_bound n 100 ltac:(lia)). split; [|lia]. split; [apply Z.div_pos; lia|].
      assert (n / 100 < 100) by (apply Z.div_lt_upper_bound; lia). lia. }
    destruct (A _ T1) as [P1 P2], (A _ U1) as [Q1 Q2].
    assert (APP : forall x y z : string, ((x ++ y) ++ z = x ++ (y ++ z))%string).
    { clear. induction x as [|c x IH]; intros y z; [reflexivity|]. cbn. rewrite IH. reflexivity. }
    assert (PRE : forall p x y : string, (p ++ x = p ++ y)%string -> x = y).
    { clear. induction p as [|c p IH]; intros x y E; [exact E|]. cbn in E. injection E as E. apply IH, E. }
    rewrite !APP in H. apply PRE in H.
    apply two_inj in H; [destruct H as [E1 H]|assumption|assumption]. apply two_inj in H; [destruct H as [E2 H]|assumption|assumption].
    apply two_inj in H; [destruct H as [E3 H]|lia|lia]. apply two_inj in H; [destruct H as [E4 H]|lia|lia].
    apply PRE in H.
    apply two_inj in H; [destruct H as [E5 H]|lia|lia]. apply two_inj in H; [destruct H as [E6 H]|lia|lia].
    apply two_inj in H; [destruct H as [E7 H]|lia|lia].
    repeat split; auto. rewrite (Z.div_mod (year t) 100), (Z.div_mod (year u) 100) by lia. congruence.
  - intros (E1 & E2 & E3 & E4 & E5 & E6). unfold archive_name. rewrite E1, E2, E3, E4, E5, E6. reflexivity.
Qed.

Lemma dict_records {V} (a : run_args V) : records (oneka_dict a) a.
Proof.
  split; [reflexivity|]. split; [|unfold oneka_dict; tauto].
  cbn [oneka_dict map fst]. repeat constructor; cbn [In]; intros H; repeat (destruct H as [H|H]; [discriminate H|]); exact H.
Qed.

Lemma records_lookup {V} (d : dict V) (a : run_args V) k v : records d a -> In (k, v) d -> lookup d k = Some v.
Proof.
  intros (_ & N & _) I. clear a. unfold lookup. induction d as [|[k' v'] d IH]; [destruct I|]. cbn [map fst] in N. inversion N as [|? ? N1 N2]; subst.
  cbn [find fst]. destruct (String.eqb_spec k' k) as [->|Hk].
  - destruct I as [I|I]; [injection I as ->; reflexivity|]. exfalso. apply N1. change k with (fst (k, v)). apply in_map, I.
  - destruct I as [I|I]; [injection I; intros; subst; congruence|]. apply IH; assumption.
Qed.

(** ** C73 *)

(** What dump_oneka wrote is read back by load_oneka: twenty entries, each under its own name with the value given,
    and looking up a name gives that value. *)
Lemma c73_roundtrip : forall (V B : Type) (c : codec V B) (f f' : files B) now a,
  faithful c -> dump_oneka c f now a = (f', Ok tt) ->
  exists d, load_oneka c f' (archive_name now) = Ok d /\ records d a /\ forall k v, In (k, v) d -> lookup d k = Some v.
Proof.
  intros V B c f f' now a Hc H. unfold dump_oneka in H. destruct (pickle_bz2 c (oneka_dict a)) as [b|e|] eqn:E; try discriminate.
  injection H as <-. exists (oneka_dict a). split; [|split; [apply dict_records|intros k v; apply records_lookup with a, dict_records]].
  unfold load_oneka, write. rewrite String.eqb_refl. apply Hc, E.
Qed.

(** ** C74, C79 *)

Lemma dump_other {V B} (c : codec V B) f t a n : n <> archive_name t -> fst (dump_oneka c f t a) n = f n.
Proof.
  intros Hn. unfold dump_oneka, write. destruct (pickle_bz2 c (oneka_dict a)); cbn [fst]; try reflexivity;
    destruct (String.eqb_spec n (archive_name t)); congruence.
Qed.

(** In any sequence of runs (some of which may fail while archiving), an archive that was written and whose second
    does not come again stays readable. *)
Lemma c74_kept_partial : forall (V B : Type) (c : codec V B) (f f1 f' : files B) t a l,
  faithful c -> dump_oneka c f t a = (f1, Ok tt) -> archive_runs c f1 l f' ->
  valid_time t -> (forall u b, In (u, b) l -> valid_time u) -> never_again t l ->
  exists d, load_oneka c f' (archive_name t) = Ok d /\ records d a.
Proof.
  intros V B c f f1 f' t a l Hc Hd Hr Ht Hl Hn.
  destruct (c73_roundtrip V B c f f1 t a Hc Hd) as (d & E & Hrec & _). exists d. split; [|exact Hrec].
  assert (K : f' (archive_name t) = f1 (archive_name t)).
  { clear Hd E. induction Hr as [|f0 u b r f2 l f' Hu Hr IH]; [reflexivity|]. rewrite IH.
    - replace f2 with (fst (dump_oneka c f0 u b)) by (rewrite Hu; reflexivity). apply dump_other.
      intros X. apply (c74_names_partial t u) in X; [|exact Ht|eapply Hl; left; reflexivity]. eapply Hn; [left; reflexivity|exact X].
    - intros v b' I. eapply Hl. right. exact I.
    - intros v b' I. eapply Hn. right. exact I. }
  unfold load_oneka in *. rewrite K. exact E.
Qed.

(** A process killed while archiving, or a failing archive, changes no file except the one being written. *)
Lemma c79_crash : forall (V B : Type) (c : codec V B) (f f' : files B) now a,
  crash_state c f now a f' -> forall n, n <> archive_name now -> f' n = f n /\ load_oneka c f' n = load_oneka c f n.
Proof.
  intros V B c f f' now a H n Hn. assert (E : f' n = f n).
  { destruct H; [reflexivity|unfold write; destruct (String.eqb_spec n (archive_name now)); congruence|apply dump_other, Hn]. }
  split; [exact E|]. unfold load_oneka. rewrite E. reflexivity.
Qed.

(** Archives written before a crash, in other seconds, are still read back. *)
Lemma c79_archives : forall (V B : Type) (c : codec V B) (f f1 f' : files B) t a now b,
  faithful c -> dump_oneka c f t a = (f1, Ok tt) -> crash_state c f1 now b f' ->
  valid_time t -> valid_time now -> ~ same_second t now ->
  exists d, load_oneka c f' (archive_name t) = Ok d /\ records d a.
Proof.
  intros V B c f f1 f' t a now b Hc Hd Hk Ht Hn Hs. destruct (c73_roundtrip V B c f f1 t a Hc Hd) as (d & E & Hrec & _). exists d. split; [|exact Hrec].
  destruct (c79_crash V B c f1 f' now b Hk (archive_name t)) as [_ ->]; [|exact E]. intros X. apply Hs, c74_names_partial; assumption.
Qed.

(** ** A concrete library: a file holds the dictionary itself, or the first n entries when writing was interrupted. *)
Definition plain : codec Z (dict Z * bool) :=
  {| pickle_bz2 := fun d => Ok (d, true); unpickle_bz2 := fun b => if snd b then Ok (fst b) else Raise ValueError;
     partial_bz2 := fun d n => (firstn n d, false); raised_after := fun _ => 0%nat |}.
Lemma plain_faithful : faithful plain.
Proof. intros d b H. injection H as <-. reflexivity. Qed.

Definition run_of (v : Z) : run_args Z :=
  {| a_projectname := v; a_runtime := v + 1; a_target := v + 2; a_npaths := v + 3; a_duration := v + 4; a_nrealizations := v + 5;
     a_base := v + 6; a_c_dist := v + 7; a_p_dist := v + 8; a_t_dist := v + 9; a_stochastic_wells := v + 10; a_observations := v + 11;
     a_buffer := v + 12; a_spacing := v + 13; a_umbra := v + 14; a_smooth := v + 15; a_confined := v + 16; a_tol := v + 17;
     a_maxstep := v + 18; a_pfield := v + 19 |}.
Definition noon (s us : Z) : datetime :=
  {| year := 2020; month := 7; day := 25; hour := 12; minute := 0; second := s; microsecond := us |}.
Definition empty_disk : files (dict Z * bool) := fun _ => None.

Lemma c73_example : faithful plain /\ exists f' d,
  dump_oneka plain empty_disk (noon 7 250000) (run_of 100) = (f', Ok tt) /\
  load_oneka plain f' "logs\Oneka20200725T120007.bz2" = Ok d /\
  lookup d "projectname" = Some 100 /\ lookup d "maxstep" = Some 118 /\ lookup d "pfield" = Some 119 /\ lookup d "volume" = None.
Proof. split; [exact plain_faithful|]. eexists. eexists. split; [reflexivity|]. repeat split; reflexivity. Qed.

(** Two runs archived half a second apart: the second archive replaces the first. *)
Lemma c74_refuted :
  let t := noon 7 0 in let u := noon 7 500000 in
  valid_time t /\ valid_time u /\ t <> u /\ archive_name t = archive_name u /\
  forall (V B : Type) (c : codec V B) (f f1 f2 : files B) a b, faithful c ->
    dump_oneka c f t a = (f1, Ok tt) -> dump_oneka c f1 u b = (f2, Ok tt) ->
    exists d, load_oneka c f2 (archive_name t) = Ok d /\ records d b.
Proof.
  cbn zeta. split; [cbv; intuition discriminate|]. split; [cbv; intuition discriminate|]. split; [discriminate|]. split; [reflexivity|].
  intros V B c f f1 f2 a b Hc _ H2. destruct (c73_roundtrip V B c f1 f2 _ b Hc H2) as (d & E & R & _). exists d. split; [exact E|exact R].
Qed.

Lemma c74_example : exists f1 f' d,
  dump_oneka plain empty_disk (noon 7 0) (run_of 0) = (f1, Ok tt) /\
  archive_runs plain f1 [(noon 8 0, run_of 100); (noon 9 0, run_of 200)] f' /\
  load_oneka plain f' (archive_name (noon 7 0)) = Ok d /\ lookup d "npaths" = Some 3.
Proof.
  eexists. eexists. eexists. split; [reflexivity|]. split; [econstructor; [reflexivity|]; econstructor; [reflexivity|constructor]|]. split; reflexivity.
Qed.

(** The file being written when the process is killed is left behind, and cannot be loaded. *)
Lemma c79_example : exists f1 f',
  dump_oneka plain empty_disk (noon 7 0) (run_of 0) = (f1, Ok tt) /\ crash_state plain f1 (noon 8 0) (run_of 100) f' /\
  load_oneka plain f' (archive_name (noon 8 0)) = Raise ValueError /\ f' (archive_name (noon 8 0)) <> None /\
  load_oneka plain f' (archive_name (noon 7 0)) = load_oneka plain f1 (archive_name (noon 7 0)).
Proof.
  eexists. eexists. split; [reflexivity|]. split; [apply (crash_during _ _ _ _ 5)|]. split; [reflexivity|]. split; [discriminate|reflexivity].
Qed.
