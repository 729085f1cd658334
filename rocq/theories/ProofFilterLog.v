(** * The messages of filter_obs (C101) *)
From Coq Require Import Reals String Ascii SpecFloat ZArith Lia Lra Bool Permutation.
From Verif Require Import Py Num ModelAquifer ModelDist ModelObs ModelText ModelLog SpecText SpecFilterLog ProofText.
Import ListNotations.
Local Open Scope string_scope.

Section Filter.
  Context {N : Num spec_float}.

  (** ** The observations are those of filter_obs *)
  Lemma find_far : forall buf (o : tobs) ws,
    match find (within buf o) ws with Some _ => false | None => true end = far_from_wells (map snd ws) buf (snd o).
  Proof.
    intros buf o ws. unfold far_from_wells. induction ws as [|w ws IH]; [reflexivity|]. cbn [find map forallb].
    unfold within at 1. destruct (nle _ _); [reflexivity|]. cbn [negb andb]. exact IH.
  Qed.
  Lemma drop_near_kept : forall ws buf l, map snd (snd (drop_near ws buf l)) = filter (far_from_wells (map snd ws) buf) (map snd l).
  Proof.
    intros ws buf l. induction l as [|o l IH]; [reflexivity|]. cbn [drop_near map filter]. rewrite <- find_far.
    destruct (drop_near ws buf l) as [lines kept]. destruct (find (within buf o) ws); cbn [snd map] in *; now rewrite IH.
  Qed.
  Lemma take_close_kept : forall lead l, (map snd (fst (take_close_text lead l)), map snd (snd (take_close_text lead l))) = take_close (snd lead) (map snd l).
  Proof.
    intros lead l. induction l as [|o l IH]; [reflexivity|]. cbn [take_close_text take_close map]. destruct (too_close (snd lead) (snd o)); [|reflexivity].
    rewrite <- IH. destruct (take_close_text lead l). reflexivity.
  Qed.
  Lemma take_close_app : forall lead l, (fst (take_close_text lead l) ++ snd (take_close_text lead l))%list = l.
  Proof.
    intros lead l. induction l as [|o l IH]; [reflexivity|]. cbn [take_close_text]. destruct (too_close _ _); [|reflexivity].
    destruct (take_close_text lead l). cbn in *. now rewrite IH.
  Qed.

  Definition agree {A B} (f : A -> B) (r : res A) (s : res B) : Prop :=
    match r, s with
    | Ok a, Ok b => f a = b
    | Raise e, Raise e' => e = e'
    | NoFuel, NoFuel => True
    | _, _ => False
    end.
  Lemma sums_agree : forall g num den, snd (sums_text g num den) = weighted_sums (map snd g) num den.
  Proof.
    induction g as [|o g IH]; intros num den; [reflexivity|]. cbn [sums_text weighted_sums map].
    destruct (pydiv (oz (snd o)) (nsq (os (snd o)))) as [a| |]; [|reflexivity..]. cbn [bind].
    destruct (pydiv (nZ 1) (nsq (os (snd o)))) as [b| |]; [|reflexivity..]. cbn [bind]. rewrite <- IH. reflexivity.
  Qed.
  Lemma group_agree : forall lead g, agree snd (snd (group_text lead g)) (merge_group (snd lead) (map snd g)).
  Proof.
    intros lead [|o g]; [reflexivity|]. cbn [group_text merge_group map]. unfold after.
    change (snd lead :: snd o :: map snd g) with (map (@snd val (obs spec_float)) (lead :: o :: g)). rewrite <- sums_agree.
    destruct (snd (sums_text (lead :: o :: g) (nZ 0) (nZ 0))) as [[num den]| |]; try exact I; [|reflexivity].
    cbn [bind snd say]. destruct (pydiv num den) as [z| |]; try exact I; [|reflexivity]. cbn [bind].
    destruct (pydiv (nZ 1) den) as [v| |]; try exact I; reflexivity.
  Qed.
  Lemma merge_agree : forall fuel l, agree (map snd) (snd (merge_text fuel l)) (merge fuel (map snd l)).
  Proof.
    induction fuel as [|f IH]; intros [|o l]; try reflexivity; try exact I. cbn [merge_text merge map].
    pose proof (take_close_kept o l) as TC. destruct (take_close_text o l) as [g rest]. cbn [fst snd] in TC. rewrite <- TC.
    pose proof (group_agree o g) as G. unfold after at 1. destruct (snd (group_text o g)) as [m| |], (merge_group (snd o) (map snd g)) as [m'| |]; try contradiction; try exact G.
    cbn [say snd bind]. unfold after. pose proof (IH rest) as M.
    destruct (snd (merge_text f rest)) as [ms| |], (merge f (map snd rest)) as [ms'| |]; try contradiction; try exact M.
    cbn. now rewrite G, M.
  Qed.
  Lemma finish : forall (m : logged (list tobs)) (F : list tobs -> logged (list tobs)) s,
    agree (map snd) (snd m) s -> (forall out, snd (F out) = Ok out) ->
    match s with
    | Ok k => exists out, snd (after m F) = Ok out /\ map snd out = k
    | Raise e => snd (after m F) = Raise e
    | NoFuel => snd (after m F) = NoFuel
    end.
  Proof.
    intros [ls [o|e|]] F [k|e'|] A HF; cbn in A; try contradiction; unfold after; cbn [fst snd say].
    - exists o. split; [apply HF|exact A].
    - congruence.
    - reflexivity.
  Qed.
  Lemma filter_result : forall (l : list tobs) (ws : list twell) buf,
    match filter_obs (map snd l) (map snd ws) buf with
    | Ok k => exists out, snd (filter_text l ws buf) = Ok out /\ map snd out = k
    | Raise e => snd (filter_text l ws buf) = Raise e
    | NoFuel => snd (filter_text l ws buf) = NoFuel
    end.
  Proof.
    intros l ws buf. unfold filter_obs, filter_text. pose proof (drop_near_kept ws buf l) as D. destruct (drop_near ws buf l) as [lines kept].
    cbn [snd] in D. rewrite <- D, map_length. cbn [say snd]. apply finish; [apply merge_agree|reflexivity].
  Qed.

  (** ** The messages *)
  Lemma beginning_app : forall p a b, beginning p (a ++ b)%list = (beginning p a ++ beginning p b)%list.
  Proof. intros. unfold beginning. apply filter_app. Qed.
  Definition removed_line (o : tobs) (w : twell) : string := "observation removed: " ++ str (fst o) ++ " is too close to " ++ str (fst w).
  Definition duplicate_line (o : tobs) : string := "    duplicate observation: " ++ str (fst o).
  Definition created_line (o : tobs) : string := "averaged observation created: " ++ str (fst o).

  Lemma drop_lines : forall ws buf l, exists removed, Permutation l (removed ++ snd (drop_near ws buf l)) /\
    Forall (fun o => forall w, In w ws -> ~ near buf o w) (snd (drop_near ws buf l)) /\
    (exists by_, Forall2 (fun o w => In w ws /\ near buf o w) removed by_ /\ fst (drop_near ws buf l) = map (fun '(o, w) => removed_line o w) (combine removed by_)).
  Proof.
    intros ws buf l. induction l as [|o l (rm & P & F & by_ & Q & E)].
    - exists []. cbn. repeat split; auto. exists []. auto.
    - cbn [drop_near]. destruct (drop_near ws buf l) as [lines kept]. cbn [fst snd] in *. destruct (find (within buf o) ws) as [w|] eqn:Fd; cbn [fst snd].
      + exists (o :: rm). split; [now constructor|]. split; [assumption|]. apply find_some in Fd. exists (w :: by_). split; [now constructor|]. cbn. now rewrite E.
      + exists rm. split; [now apply Permutation_cons_app|]. split; [|eauto]. constructor; [|assumption]. intros w Hw Hn. 
        apply find_none with (x := w) in Fd; [|assumption]. unfold near in Hn. unfold within in Fd. congruence.
  Qed.

  Lemma prefix_own : forall p s, String.prefix p (p ++ s) = true.
  Proof. induction p as [|c p IH]; intros s; cbn; [destruct s; reflexivity|]. destruct (ascii_dec c c); [apply IH|congruence]. Qed.
  Lemma beginning_own : forall {A} p (f : A -> string) l, beginning p (map (fun x => p ++ f x) l) = map (fun x => p ++ f x) l.
  Proof. intros A p f l. unfold beginning. induction l as [|x l IH]; [reflexivity|]. cbn [map filter]. rewrite prefix_own. now rewrite IH. Qed.
  Lemma beginning_other : forall {A} p (f : A -> string) l, (forall x, String.prefix p (f x) = false) -> beginning p (map f l) = [].
  Proof. intros A p f l H. unfold beginning. induction l as [|x l IH]; [reflexivity|]. cbn [map filter]. now rewrite H. Qed.

  Lemma sums_lines : forall g num den lines r, sums_text g num den = (lines, Ok r) -> lines = map duplicate_line g.
  Proof.
    induction g as [|o g IH]; intros num den lines r H; cbn [sums_text] in H; [injection H as <- _; reflexivity|].
    destruct (let! a := _ in _) as [[a b]| |]; try discriminate. unfold say in H.
    destruct (sums_text g (nadd num a) (nadd den b)) as [ls q] eqn:E. cbn [fst snd] in H. injection H as <- ->. apply IH in E. rewrite E. reflexivity.
  Qed.
  Lemma group_lines : forall lead g lines m, group_text lead g = (lines, Ok m) ->
    (g = [] /\ m = lead /\ lines = []) \/
    (g <> [] /\ lines = (map duplicate_line (lead :: g) ++ [created_line m])%list).
  Proof.
    intros lead [|o g] lines m H; [left; cbn in H; injection H as <- <-; auto|]. right. split; [discriminate|]. cbn [group_text] in H. unfold after in H.
    destruct (sums_text (lead :: o :: g) (nZ 0) (nZ 0)) as [ls [[num den]| |]] eqn:E; try discriminate. cbn [fst snd] in H. apply sums_lines in E. subst ls.
    destruct (pydiv num den) as [z| |]; try discriminate. cbn [bind] in H. destruct (pydiv (nZ 1) den) as [v| |]; try discriminate. cbn [bind] in H.
    unfold say in H. injection H as <- <-. reflexivity.
  Qed.
  Lemma merge_lines : forall fuel l lines out, merge_text fuel l = (lines, Ok out) ->
    exists dups kept avgs, Permutation l (dups ++ kept) /\ Permutation out (kept ++ avgs) /\
      beginning "    duplicate observation: " lines = map duplicate_line dups /\
      beginning "averaged observation created: " lines = map created_line avgs /\
      beginning "observation removed: " lines = [] /\ beginning "     [" lines = [] /\ beginning "active observations: " lines = [] /\
      (List.length avgs <= List.length dups)%nat.
  Proof.
    induction fuel as [|f IH]; intros [|o l] lines out H; cbn [merge_text] in H; try discriminate;
      try (injection H as <- <-; exists [], [], []; repeat split; constructor).
    pose proof (take_close_app o l) as TC. destruct (take_close_text o l) as [g rest]. cbn [fst snd] in TC. subst l.
    unfold after in H. destruct (group_text o g) as [l1 [m| |]] eqn:G; try discriminate. cbn [fst snd] in H.
    destruct (merge_text f rest) as [l2 [ms| |]] eqn:M; try discriminate. cbn [fst snd say] in H. injection H as <- <-.
    destruct (IH _ _ _ M) as (dups & kept & avgs & P1 & P2 & D & C & Rm & A & A2 & L). rewrite app_nil_r, !beginning_app, D, C, Rm, A, A2.
    destruct (group_lines _ _ _ _ G) as [(-> & -> & ->)|(Hg & ->)].
    - exists dups, (o :: kept), avgs. cbn [beginning filter app]. repeat split; try assumption; try reflexivity.
      + now apply Permutation_cons_app.
      + now constructor.
    - exists ((o :: g) ++ dups)%list, kept, (m :: avgs). rewrite !beginning_app.
      assert (OD : beginning "    duplicate observation: " (map duplicate_line (o :: g)) = map duplicate_line (o :: g)) by apply beginning_own.
      assert (OC : beginning "averaged observation created: " [created_line m] = [created_line m]) by (unfold created_line, beginning; cbn [filter]; now rewrite prefix_own).
      rewrite OD, OC. rewrite !(beginning_other _ duplicate_line) by reflexivity.
      split; [change (o :: g ++ rest)%list with ((o :: g) ++ rest)%list; rewrite <- app_assoc; now apply Permutation_app_head|].
      split; [now apply Permutation_cons_app|]. rewrite map_app. split; [now rewrite app_nil_r|]. repeat (split; [reflexivity|]).
      rewrite app_length. cbn [List.length]. lia.
  Qed.

  Lemma active_begin : forall l i p, (forall s, String.prefix p ("     [" ++ s) = false) -> beginning p (active_text i l) = [].
  Proof. intros l i p H. revert i. induction l as [|o l IH]; intros i; [reflexivity|]. cbn [active_text]. unfold beginning. cbn [filter]. rewrite H. apply IH. Qed.
  Lemma active_lines : forall l i, beginning "     [" (active_text i l) = active_text i l.
  Proof. induction l as [|o l IH]; intros i; [reflexivity|]. cbn [active_text]. unfold beginning in *. cbn [filter]. rewrite prefix_own. now rewrite IH. Qed.
  Lemma read_digits : forall k n, (1 <= k)%nat -> (0 <= n < 10 ^ Z.of_nat k)%Z ->
    read (digs k n) = Some {| n_neg := false; n_int := n; n_decimals := 0 |}.
  Proof.
    intros k n Hk Hn. pose proof (starts_digs k n Hk) as St. rewrite read_starts by assumption.
    pose proof (read_digs k n "" 0 None Hn) as R. rewrite app_nil_s in R. unfold read_unsigned. destruct (digs k n) as [|c r]; [easy|].
    destruct St as (d & Hd & ->). rewrite digit_of_digit by assumption. rewrite R. cbn. reflexivity.
  Qed.
  Lemma fmt_03d_index : forall i : nat, index_text i (fmt_03d (Z.of_nat i)).
  Proof.
    assert (K : forall k (i : nat), (3 <= k)%nat -> (0 <= Z.of_nat i < 10 ^ Z.of_nat k)%Z -> index_text i (digs k (Z.of_nat i))).
    { intros k i Hk H. split; [rewrite digs_length; lia|]. eexists. split; [apply read_digits; [lia|assumption]|].
      unfold meaning, magnitude. cbn [n_neg n_int n_decimals pow]. rewrite <- INR_IZR_INZ. split; [field|reflexivity]. }
    intros i. unfold fmt_03d. pose proof (ndigits_bound (Z.of_nat i) ltac:(lia)) as [_ B].
    destruct (Nat.ltb_spec (ndigits (Z.of_nat i)) 3) as [L|L].
    - apply K; [lia|]. split; [lia|]. eapply Z.lt_le_trans; [exact B|]. apply Z.pow_le_mono_r; lia.
    - unfold natural. apply K; [lia|]. split; [lia|exact B].
  Qed.
  Lemma active_nth : forall l k i o, nth_error l i = Some o ->
    nth_error (active_text (Z.of_nat k) l) i = Some ("     [" ++ fmt_03d (Z.of_nat (k + i)) ++ "] " ++ str (fst o)).
  Proof.
    induction l as [|a l IH]; intros k i o H; destruct i as [|i]; cbn in H; try discriminate; cbn [active_text nth_error].
    - injection H as ->. now rewrite Nat.add_0_r.
    - replace (Z.of_nat k + 1)%Z with (Z.of_nat (S k)) by lia. rewrite (IH (S k) i o H). do 4 f_equal. lia.
  Qed.
  Lemma active_length : forall l i, List.length (active_text i l) = List.length l.
  Proof. induction l; intros; cbn; congruence. Qed.

  Lemma filter_accounts : forall (l : list tobs) (ws : list twell) buf lines out, filter_text l ws buf = (lines, Ok out) ->
    exists removed wells dups kept avgs,
      Permutation l (removed ++ dups ++ kept) /\ Permutation out (kept ++ avgs) /\ (List.length avgs <= List.length dups)%nat /\
      Forall2 (fun o w => In w ws /\ near buf o w) removed wells /\
      Forall (fun o => forall w, In w ws -> ~ near buf o w) (dups ++ kept) /\
      beginning "observation removed: " lines =
        map (fun '(o, w) => "observation removed: " ++ str (fst o) ++ " is too close to " ++ str (fst w)) (combine removed wells) /\
      beginning "    duplicate observation: " lines = map (fun o => "    duplicate observation: " ++ str (fst o)) dups /\
      beginning "averaged observation created: " lines = map (fun o => "averaged observation created: " ++ str (fst o)) avgs /\
      (exists n, beginning "active observations: " lines = ["active observations: " ++ n] /\
         exists a, read n = Some a /\ meaning a = INR (List.length out) /\ n_decimals a = 0%nat) /\
      List.length (beginning "     [" lines) = List.length out /\
      forall i o, nth_error out i = Some o ->
        exists t, nth_error (beginning "     [" lines) i = Some ("     [" ++ t ++ "] " ++ str (fst o)) /\ index_text i t.
  Proof.
    intros l ws buf lines out H. unfold filter_text in H. destruct (drop_lines ws buf l) as (rm & P & F & by_ & Q & E).
    destruct (drop_near ws buf l) as [l1 kept0]. cbn [fst snd] in *. subst l1. unfold after in H.
    destruct (merge_text (List.length kept0) kept0) as [l2 [out'| |]] eqn:M; try discriminate. cbn [fst snd say] in H. injection H as <- ->.
    destruct (merge_lines _ _ _ _ M) as (dups & kept & avgs & P1 & P2 & D & C & Rm & A & A2 & L).
    exists rm, by_, dups, kept, avgs.
    set (act := "active observations: " ++ fmt_d (Z.of_nat (List.length out))).
    assert (B : forall p, beginning p (("" :: act :: active_text 0 out) ++ note)%list =
       ((if String.prefix p "" then [""] else []) ++ (if String.prefix p act then [act] else []) ++ beginning p (active_text 0 out) ++ beginning p note)%list).
    { intros p. rewrite beginning_app. unfold beginning at 1. cbn [filter]. destruct (String.prefix p ""), (String.prefix p act); reflexivity. }
    assert (KD : forall p, (forall x, String.prefix p ("observation removed: " ++ x) = false) -> beginning p (map (fun '(o, w) => removed_line o w) (combine rm by_)) = []).
    { intros p Hp. apply beginning_other. intros [o w]. apply Hp. }
    assert (KR : beginning "observation removed: " (map (fun '(o, w) => removed_line o w) (combine rm by_)) = map (fun '(o, w) => removed_line o w) (combine rm by_)).
    { rewrite (map_ext (fun '(o, w) => removed_line o w) (fun x : tobs * twell => "observation removed: " ++ (str (fst (fst x)) ++ " is too close to " ++ str (fst (snd x))))) by (intros []; reflexivity).
      apply beginning_own. }
    assert (N0 : forall p, In p ["observation removed: "; "    duplicate observation: "; "averaged observation created: "; "active observations: "; "     ["] -> beginning p note = [] /\ String.prefix p "" = false).
    { intros p Hp. cbn [In] in Hp. repeat (destruct Hp as [<-|Hp]; [split; reflexivity|]). contradiction. }
    assert (N1 : forall p, In p ["observation removed: "; "    duplicate observation: "; "averaged observation created: "; "     ["] -> String.prefix p act = false).
    { intros p Hp. unfold act. cbn [In] in Hp. repeat (destruct Hp as [<-|Hp]; [reflexivity|]). contradiction. }
    split; [etransitivity; [exact P|]; now apply Permutation_app_head|]. split; [exact P2|]. split; [exact L|]. split; [exact Q|].
    split; [eapply Permutation_Forall; [exact P1|exact F]|].
    rewrite !beginning_app with (b := (l2 ++ _)%list). rewrite !beginning_app with (a := l2), Rm, A, A2, D, C.
    rewrite !B, KR. rewrite !KD by reflexivity. rewrite active_lines. rewrite !active_begin by reflexivity.
    assert (S1 : forall p, In p ["observation removed: "; "    duplicate observation: "; "averaged observation created: "; "     ["] ->
       forall q, ((if String.prefix p "" then [""] else []) ++ (if String.prefix p act then [act] else []) ++ q ++ beginning p note)%list = q).
    { intros p Hp q. destruct (N0 p) as [-> ->]; [cbn [In] in *; tauto|]. rewrite (N1 p Hp). cbn [app]. apply app_nil_r. }
    rewrite !S1 by (cbn [In]; tauto). rewrite !app_nil_r. split; [reflexivity|]. split; [reflexivity|]. split; [reflexivity|]. split.
    - exists (fmt_d (Z.of_nat (List.length out))). destruct (N0 "active observations: ") as [_ ->]; [cbn [In]; tauto|]. unfold act. rewrite prefix_own.
      split; [reflexivity|]. destruct (c98_integer (Z.of_nat (List.length out))) as (a & A1 & A3 & A4 & _). exists a. rewrite INR_IZR_INZ. auto.
    - cbn [app]. split; [apply active_length|]. intros i o Ho. exists (fmt_03d (Z.of_nat i)). split; [|apply fmt_03d_index].
      exact (active_nth out 0 i o Ho).
  Qed.
End Filter.

(** The observations that the logged filter returns, and its exceptions, are those of filter_obs. *)
Lemma c101_result : forall (N : Num spec_float) (l : list tobs) (ws : list twell) buf,
  match filter_obs (map snd l) (map snd ws) buf with
  | Ok k => exists out, snd (filter_text l ws buf) = Ok out /\ map snd out = k
  | Raise e => snd (filter_text l ws buf) = Raise e
  | NoFuel => snd (filter_text l ws buf) = NoFuel
  end.
Proof. intros N. exact filter_result. Qed.

(** Every observation that is given is removed (with a message that names it and a well within the buffer), or merged
    (with a message), or retained as it is; what is returned are these and the averages (with a message each). The
    messages end with the number and the list of what is returned, in order, numbered from 0. *)
Lemma c101_accounts : forall (N : Num spec_float) (l : list tobs) (ws : list twell) buf lines out, filter_text l ws buf = (lines, Ok out) ->
  exists removed wells dups kept avgs,
    Permutation l (removed ++ dups ++ kept) /\ Permutation out (kept ++ avgs) /\ (List.length avgs <= List.length dups)%nat /\
    Forall2 (fun o w => In w ws /\ near buf o w) removed wells /\
    Forall (fun o => forall w, In w ws -> ~ near buf o w) (dups ++ kept) /\
    beginning "observation removed: " lines =
      map (fun '(o, w) => "observation removed: " ++ str (fst o) ++ " is too close to " ++ str (fst w)) (combine removed wells) /\
    beginning "    duplicate observation: " lines = map (fun o => "    duplicate observation: " ++ str (fst o)) dups /\
    beginning "averaged observation created: " lines = map (fun o => "averaged observation created: " ++ str (fst o)) avgs /\
    (exists n, beginning "active observations: " lines = ["active observations: " ++ n] /\
       exists a, read n = Some a /\ meaning a = INR (List.length out) /\ n_decimals a = 0%nat) /\
    List.length (beginning "     [" lines) = List.length out /\
    forall i o, nth_error out i = Some o ->
      exists t, nth_error (beginning "     [" lines) i = Some ("     [" ++ t ++ "] " ++ str (fst o)) /\ index_text i t.
Proof. intros N. exact filter_accounts. Qed.

(** ** A case: one observation near the well, two that are merged, one that is kept *)
Definition sqrt_libm : libm :=
  {| lm_log := fun x => x; lm_cos := fun x => x; lm_sin := fun x => x; lm_root5 := fun x => x;
     lm_hypot := fun x y => SFsqrt fprec femax (SFadd fprec femax (SFmul fprec femax x x) (SFmul fprec femax y y)) |}.
Definition an_obs (x y z s : Z) : tobs :=
  (PTuple [PInt x; PInt y; PFloat (f_of_Z z); PFloat (f_of_Z s)], {| ox := f_of_Z x; oy := f_of_Z y; oz := f_of_Z z; os := f_of_Z s |}).
Definition a_well : twell := (PTuple [PInt 0; PInt 0; PFloat (f_of_Z 1); PInt 300], (f_of_Z 0, f_of_Z 0)).
Definition some_obs : list tobs := [an_obs 3 4 10 1; an_obs 100 7 10 1; an_obs 100 7 20 1; an_obs 200 (-7) 5 2].
Lemma c101_example : fst (@filter_text (SF sqrt_libm) some_obs [a_well] (f_of_Z 5)) =
  (["observation removed: (3, 4, 10.0, 1.0) is too close to (0, 0, 1.0, 300)";
    "    duplicate observation: (100, 7, 10.0, 1.0)";
    "    duplicate observation: (100, 7, 20.0, 1.0)";
    "averaged observation created: (100, 7, 15.0, 0.7071067811865476)";
    "";
    "active observations: 2";
    "     [000] (100, 7, 15.0, 0.7071067811865476)";
    "     [001] (200, -7, 5.0, 2.0)";
    "";
    "Note: the index numbers associated with these active";
    "      observations may differ from the original index";
    "      numbers. This is a consequence of averaging ";
    "      duplicates and deleting observations near wellfield.";
    "      These new index numbers are used in the subsequent";
    "      reporting. Be aware!"])%list /\
  snd (@filter_text (SF sqrt_libm) some_obs [a_well] (f_of_Z 5)) =
    Ok [ (PTuple [PInt 100; PInt 7; PFloat (f_of_Z 15); PFloat (SFsqrt fprec femax (SFdiv fprec femax (f_of_Z 1) (f_of_Z 2)))],
          {| ox := f_of_Z 100; oy := f_of_Z 7; oz := f_of_Z 15; os := SFsqrt fprec femax (SFdiv fprec femax (f_of_Z 1) (f_of_Z 2)) |});
         an_obs 200 (-7) 5 2 ].
Proof. split; vm_compute; reflexivity. Qed.

(** A standard deviation of zero in a group stops the filter; the messages up to there are written. *)
Lemma c101_zero_example :
  @filter_text (SF sqrt_libm) [an_obs 3 4 10 1; an_obs 100 7 10 1; an_obs 100 7 20 0] [a_well] (f_of_Z 5) =
  (["observation removed: (3, 4, 10.0, 1.0) is too close to (0, 0, 1.0, 300)"; "    duplicate observation: (100, 7, 10.0, 1.0)"],
   Raise ZeroDivisionError).
Proof. vm_compute. reflexivity. Qed.
