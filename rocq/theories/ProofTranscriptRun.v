(** * Proofs about everything a run writes: the drivers *)
From Coq Require Import String SpecFloat ZArith List Lia.
From Verif Require Import Py Num ModelField ModelAquifer ModelTrace ModelObs ModelDist ModelDriver ModelPlot ModelArchive ModelMain
  ModelText ModelLog ModelTranscript ModelLogging SpecTranscript SpecLog ProofLog ProofTranscript.
Import ListNotations.
Local Open Scope string_scope.

Section Drivers.
  Context (lm : libm).
  Local Notation SFn := (SF lm).

  Lemma mean_plain v x : plain v -> compute_variate_mean (N := SFn) v = Ok x -> plain x.
  Proof.
    intros P H. destruct v as [z|y|b|s| |l|l]; cbn [compute_variate_mean] in H; try (injection H as <-; exact P).
    assert (F : forall y : spec_float, plain (PFloat y)) by (intros y; split; [exact I|discriminate]).
    destruct l as [|a [|b [|c [|d l]]]]; try discriminate H;
      repeat match type of H with (bind ?m _) = _ => destruct m; cbn [bind] in H; try discriminate H end; injection H as <-; apply F.
  Qed.
  Lemma variate_plain G (R : rng spec_float G) g v x g' : plain v -> generate_random_variate (N := SFn) R g v = Ok (x, g') -> plain x.
  Proof.
    intros P H. destruct v as [z|y|b|s| |l|l]; cbn [generate_random_variate] in H; try (injection H as <- <-; exact P).
    assert (F : forall y : spec_float, plain (PFloat y)) by (intros y; split; [exact I|discriminate]).
    destruct l as [|a [|b [|c [|d l]]]]; try discriminate H;
      repeat match type of H with (bind ?m _) = _ => destruct m; cbn [bind] in H; try discriminate H end;
      match type of H with (let (_, _) := ?q in _) = _ => destruct q end; injection H as <- <-; apply F.
  Qed.
  Lemma sample_length G (R : rng spec_float G) : forall l g qs g', sample_all (N := SFn) R g l = Ok (qs, g') -> List.length qs = List.length l.
  Proof.
    induction l as [|a l IH]; intros g qs g' H; cbn [sample_all] in H; [injection H as <- <-; reflexivity|].
    destruct (generate_random_variate (N := SFn) R g a) as [[v g1]| |]; cbn [bind] in H; try discriminate H.
    destruct (sample_all (N := SFn) R g1 l) as [[vs g2]| |] eqn:E; cbn [bind] in H; try discriminate H.
    injection H as <- <-. cbn. f_equal. exact (IH _ _ _ E).
  Qed.
  Lemma means_length (ws : list (swell spec_float)) : forall qs, map_res (fun w => compute_variate_mean (N := SFn) (sq w)) ws = Ok qs -> List.length qs = List.length ws.
  Proof.
    induction ws as [|w ws IH]; intros qs H; cbn [map_res] in H; [injection H as <-; reflexivity|].
    destruct (compute_variate_mean (sq w)); cbn [bind] in H; try discriminate H.
    destruct (map_res _ ws) as [r| |] eqn:E; cbn [bind] in H; try discriminate H. injection H as <-. cbn. f_equal. now apply IH.
  Qed.

  Lemma announce_stochastic_ok i bv base kv nv hv k n h e c : num_of (N := SFn) bv = Some base -> plain bv -> plain kv -> plain nv -> plain hv ->
    num_of (N := SFn) kv = Some k -> num_of (N := SFn) nv = Some n -> num_of (N := SFn) hv = Some h ->
    announce_stochastic (N := SFn) i bv kv nv hv e c = (saids (lines (realization_text i base k n h (recharge_stochastic (N := SFn) c) e c)), Ok tt).
  Proof.
    intros B (Pb & _) (Pk & _) (Pn & _) (Ph & _) K Nn H. unfold announce_stochastic.
    rewrite (val_f_num lm bv base B Pb), (val_f_num lm kv k K Pk), (val_f_num lm nv n Nn Pn), (val_f_num lm hv h H Ph). cbn [bind put].
    unfold aloud. rewrite infos_lines. reflexivity.
  Qed.
  Lemma announce_stochastic_bad i bv base kv nv hv k e c : num_of (N := SFn) bv = Some base -> plain bv -> plain kv -> plain nv ->
    num_of (N := SFn) kv = Some k -> num_of (N := SFn) nv = None ->
    announce_stochastic (N := SFn) i bv kv nv hv e c = (saids [], Raise TypeError).
  Proof.
    intros B (Pb & _) (Pk & _) (_ & Pn) K Nn. unfold announce_stochastic.
    rewrite (val_f_num lm bv base B Pb), (val_f_num lm kv k K Pk), (val_f_none lm nv Nn Pn). reflexivity.
  Qed.
  Lemma announce_deterministic_ok bv base kv nv k n c : num_of (N := SFn) bv = Some base -> plain bv -> plain kv -> plain nv ->
    num_of (N := SFn) kv = Some k -> num_of (N := SFn) nv = Some n ->
    announce_deterministic (N := SFn) bv kv nv c = (saids (lines (deterministic_text base k n (recharge_deterministic (N := SFn) c) c)), Ok tt).
  Proof.
    intros B (Pb & _) (Pk & _) (Pn & _) K Nn. unfold announce_deterministic.
    rewrite (val_f_num lm bv base B Pb), (val_f_num lm kv k K Pk), (val_f_num lm nv n Nn Pn). cbn [label put].
    unfold aloud. rewrite infos_lines. reflexivity.
  Qed.
  Lemma announce_deterministic_bad bv base kv nv k c : num_of (N := SFn) bv = Some base -> plain bv -> plain kv -> plain nv ->
    num_of (N := SFn) kv = Some k -> num_of (N := SFn) nv = None ->
    announce_deterministic (N := SFn) bv kv nv c =
      (saids (lines [newline; "Deterministic Capture Zone Parameters: "; "base         = " ++ fmt_f false false 2 base; "conductivity = " ++ fmt_f false false 2 k]),
       Raise TypeError).
  Proof.
    intros B (Pb & _) (Pk & _) (_ & Pn) K Nn. unfold announce_deterministic.
    rewrite (val_f_num lm bv base B Pb), (val_f_num lm kv k K Pk), (val_f_none lm nv Nn Pn). reflexivity.
  Qed.

  Context (G E : Type) (R : rng spec_float G) (mvn : E -> list spec_float -> list (list spec_float) -> list spec_float).

  Lemma realizations_story fuel la entropy (w : swell spec_float) npaths ths duration bv base cd pd td ws os umbra confined tol maxstep :
    start_angles (N := SFn) npaths = Ok ths -> num_of (N := SFn) bv = Some base -> plain bv -> plain cd -> plain pd -> plain td ->
    forall count i g s logs0,
    let st := realizations_said (N := SFn) R mvn fuel la count entropy i g s (sx w) (sy w) (sr w) npaths duration bv base cd pd td ws os umbra confined tol maxstep in
    let r := realizations (N := SFn) R mvn fuel la count entropy i g s logs0 (sx w) (sy w) (sr w) npaths duration base cd pd td ws os umbra confined tol maxstep in
    snd st = (let! p := r in Ok (fst p)) /\
    exists blocks ls rest, fst st = saids (List.app (concat blocks) rest) /\ List.length blocks = List.length ls /\
      (forall k l msgs, nth_error ls k = Some l -> nth_error blocks k = Some msgs ->
         told (N := SFn) fuel la ws os w ths duration base tol maxstep confined (mvn (entropy (i + k)%nat)) (i + k) l msgs) /\
      match r with
      | Ok p => rest = [] /\ List.length ls = count /\ snd p = List.app logs0 ls
      | _ => (List.length ls < count)%nat /\
             broken_off (N := SFn) fuel la ws os w ths duration base tol maxstep confined (mvn (entropy (i + List.length ls)%nat)) (i + List.length ls) rest
      end.
  Proof.
    intros HA B Pb Pc Pp Pt. induction count as [|count IH]; intros i g s logs0; cbn [realizations_said realizations].
    - split; [reflexivity|]. exists [], [], []. split; [reflexivity|]. split; [reflexivity|].
      split; [intros [|k] l msgs D; discriminate D|]. cbn [snd]. rewrite app_nil_r. auto.
    - assert (empty : forall (st : story (pfield spec_float)) (r : res (pfield spec_float * list (run_log spec_float))), snd st = (let! p := r in Ok (fst p)) /\ fst st = [] /\ (forall p, r <> Ok p) ->
        snd st = (let! p := r in Ok (fst p)) /\
        exists blocks ls rest, fst st = saids (List.app (concat blocks) rest) /\ List.length blocks = List.length ls /\
          (forall k l msgs, nth_error ls k = Some l -> nth_error blocks k = Some msgs ->
             told (N := SFn) fuel la ws os w ths duration base tol maxstep confined (mvn (entropy (i + k)%nat)) (i + k) l msgs) /\
          match r with
          | Ok p => rest = [] /\ List.length ls = S count /\ snd p = List.app logs0 ls
          | _ => (List.length ls < S count)%nat /\
                 broken_off (N := SFn) fuel la ws os w ths duration base tol maxstep confined (mvn (entropy (i + List.length ls)%nat)) (i + List.length ls) rest
          end).
      { intros st r (A & F & D). split; [exact A|]. exists [], [], []. split; [exact F|]. split; [reflexivity|].
        split; [intros [|k] l msgs D'; discriminate D'|]. destruct r as [p|e|]; [now destruct (D p)|split; [apply Nat.lt_0_succ|left; reflexivity]..]. }
      destruct (sample_all (N := SFn) R g (map sq ws)) as [[qs g1]|e|] eqn:SA; cbn [attempt bind];
        [|apply (empty ([], Raise e) (Raise e)); split; [reflexivity|split; [reflexivity|discriminate]]
         |apply (empty ([], NoFuel) NoFuel); split; [reflexivity|split; [reflexivity|discriminate]]].
      destruct (generate_random_variate (N := SFn) R g1 cd) as [[k g2]|e|] eqn:GC; cbn [attempt bind];
        [|apply (empty ([], Raise e) (Raise e)); split; [reflexivity|split; [reflexivity|discriminate]]
         |apply (empty ([], NoFuel) NoFuel); split; [reflexivity|split; [reflexivity|discriminate]]].
      destruct (generate_random_variate (N := SFn) R g2 pd) as [[n g3]|e|] eqn:GP; cbn [attempt bind];
        [|apply (empty ([], Raise e) (Raise e)); split; [reflexivity|split; [reflexivity|discriminate]]
         |apply (empty ([], NoFuel) NoFuel); split; [reflexivity|split; [reflexivity|discriminate]]].
      destruct (generate_random_variate (N := SFn) R g3 td) as [[h g4]|e|] eqn:GT; cbn [attempt bind];
        [|apply (empty ([], Raise e) (Raise e)); split; [reflexivity|split; [reflexivity|discriminate]]
         |apply (empty ([], NoFuel) NoFuel); split; [reflexivity|split; [reflexivity|discriminate]]].
      clear empty.
      assert (L : List.length qs = List.length ws) by (rewrite (sample_length _ _ _ _ _ _ SA); apply map_length).
      pose proof (variate_plain _ _ _ _ _ _ Pc GC) as Pk. pose proof (variate_plain _ _ _ _ _ _ Pp GP) as Pn. pose proof (variate_plain _ _ _ _ _ _ Pt GT) as Ph.
      pose proof (realization_story lm fuel la s w npaths ths duration base k n h ws qs os umbra confined tol maxstep (mvn (entropy i))
        (fun k n h e c => announce_stochastic (N := SFn) (Z.of_nat i) bv k n h e c) (recharge_stochastic (N := SFn))
        (fun k n h e c => lines (realization_text (Z.of_nat i) base k n h (recharge_stochastic (N := SFn) c) e c)) [] HA L) as RS.
      cbv zeta in RS.
      assert (A1 := fun k0 n0 h0 e c => announce_stochastic_ok (Z.of_nat i) bv base k n h k0 n0 h0 e c B Pb Pk Pn Ph).
      assert (A2 := fun k0 (h0 : spec_float) e c K Nn (_ : num_of (N := SFn) h = Some h0) => announce_stochastic_bad (Z.of_nat i) bv base k n h k0 e c B Pb Pk Pn K Nn).
      specialize (RS A1 A2). clear A1 A2. destruct RS as (O & msgs & M & C).
      set (st := realization_said (N := SFn) _ _ _ _ _ _ _ _ _ _ _ _ _ _ _ _ _ _ _ _ _) in *.
      set (rr := realization (N := SFn) _ _ _ _ _ _ _ _ _ _ _ _ _ _ _ _ _ _ _ _ _) in *.
      destruct rr as [s' rl] eqn:RR. cbn [fst snd] in O, C. unfold thereafter. rewrite O.
      destruct rl as [l|e|]; cbn [bind].
      + specialize (IH (S i) g4 s' (List.app logs0 [l])). cbv zeta in IH. destruct IH as (O' & blocks & ls & rest & M' & Lb & T & K).
        unfold tell. cbn [fst snd]. split; [exact O'|]. exists (msgs :: blocks), (l :: ls), rest.
        split; [rewrite M, M', <- map_app; cbn [concat]; rewrite app_assoc; reflexivity|].
        split; [cbn; f_equal; exact Lb|]. split.
        * intros [|j] l0 ms H1 H2; cbn [nth_error] in H1, H2.
          -- injection H1 as <-. injection H2 as <-. rewrite Nat.add_0_r.
             destruct C as [(D & _)|(l1 & m & ev & cov & e & j & trs & C1 & C2 & C3 & C4 & C5 & C6 & C7 & C8 & C9)]; [now destruct (D l)|].
             destruct (C9 l eq_refl) as (<- & ->). rewrite firstn_all in C6.
             exists m, ev, cov, e, trs. split; [exact C1|]. split; [exact C2|]. split; [exact C3|]. split; [exact C4|]. split; [exact C5|]. split; [exact C6|].
             rewrite C5. exact C7.
          -- rewrite <- plus_n_Sm. exact (T j l0 ms H1 H2).
        * destruct (realizations (N := SFn) _ _ _ _ _ _ _ _ _ _ _ _ _ _ _ _ _ _ _ _ _ _ _ _) as [p|x|].
          -- destruct K as (K1 & K2 & K3). split; [exact K1|]. split; [cbn; f_equal; exact K2|]. rewrite K3, <- app_assoc. reflexivity.
          -- destruct K as (K1 & K2). cbn [List.length]. rewrite <- plus_n_Sm. split; [lia|exact K2].
          -- destruct K as (K1 & K2). cbn [List.length]. rewrite <- plus_n_Sm. split; [lia|exact K2].
      + cbn [fst snd]. split; [reflexivity|]. exists [], [], msgs. cbn [concat List.app List.length]. split; [exact M|]. split; [reflexivity|].
        split; [intros [|j] l ms D; discriminate D|]. rewrite Nat.add_0_r. split; [lia|].
        destruct C as [(_ & [C|[C|[_ C]]])|(l1 & m & ev & cov & e0 & j & trs & C1 & C2 & C3 & C4 & C5 & C6 & C7 & C8 & C9)].
        * left; exact C.
        * right; left; exact C.
        * left; exact C.
        * right; right. exists l1, j, m, ev, cov, e0, trs. repeat split; try assumption; try apply C1. rewrite C5. exact C7.
      + cbn [fst snd]. split; [reflexivity|]. exists [], [], msgs. cbn [concat List.app List.length]. split; [exact M|]. split; [reflexivity|].
        split; [intros [|j] l ms D; discriminate D|]. rewrite Nat.add_0_r. split; [lia|].
        destruct C as [(_ & [C|[C|[_ C]]])|(l1 & m & ev & cov & e0 & j & trs & C1 & C2 & C3 & C4 & C5 & C6 & C7 & C8 & C9)].
        * left; exact C.
        * right; left; exact C.
        * left; exact C.
        * right; right. exists l1, j, m, ev, cov, e0, trs. repeat split; try assumption; try apply C1. rewrite C5. exact C7.
  Qed.
End Drivers.
