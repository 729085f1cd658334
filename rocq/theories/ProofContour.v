(** * The contour maps *)
From Coq Require Import Reals Lra Lia Psatz List.
From Verif Require Import Py Num NumXR Grid ModelField ModelAquifer ModelPlot SpecField SpecAquifer SpecPlot ProofAquifer ProofHead ProofAquiferEx ProofFit ProofPlot.
Import ListNotations.
Local Open Scope R_scope.

Lemma linspace_spaced a b n : (2 <= n)%Z -> linspace (Fin a) (Fin b) n = Ok (map (fun k => Fin (spaced a b n k)) (zrange 0 n)).
Proof.
  intros Hn. assert (IZR (n - 1) <> 0) by (apply not_0_IZR; lia).
  replace b with (a + IZR (n - 1) * ((b - a) / IZR (n - 1))) at 1 by (field; assumption). apply linspace_grid, Hn.
Qed.

Lemma head_ok_or_dry m x y : (dry m x y /\ compute_head (fmodel m) (Fin x) (Fin y) = Raise AquiferError) \/
  (~ dry m x y /\ exists h, compute_head (fmodel m) (Fin x) (Fin y) = Ok h).
Proof.
  unfold dry, compute_head, head_of_potential. destruct (compute_potential (fmodel m) (Fin x) (Fin y)) as [p| | |]; cbn [nle nZ XR xle].
  - destruct (Rleb_spec p 0); [left; auto|right]. split; [assumption|]. destruct (nlt _ _); eauto.
  - right. split; [tauto|]. destruct (nlt _ _); eauto.
  - left. auto.
  - right. split; [tauto|]. destruct (nlt _ _); eauto.
Qed.

Lemma map_res_cases {A B} (f : A -> res B) e l : (forall a, In a l -> f a = Raise e \/ exists b, f a = Ok b) ->
  ((exists a, In a l /\ f a = Raise e) -> map_res f l = Raise e) /\
  ((forall a, In a l -> exists b, f a = Ok b) -> exists bs, map_res f l = Ok bs /\ Forall2 (fun a b => f a = Ok b) l bs).
Proof.
  intros H. split.
  - intros (a & Ha & E). eapply map_res_raised; eauto.
  - clear H. induction l as [|a l IH]; intros H; [exists []; split; [reflexivity|constructor]|].
    destruct (H a (or_introl eq_refl)) as (b & E). destruct IH as (bs & E2 & F); [intros; apply H; right; assumption|].
    exists (b :: bs). cbn. rewrite E, E2. split; [reflexivity|constructor; assumption].
Qed.

Lemma Forall2_zrange {B} (P : Z -> B -> Prop) n l : Forall2 P (zrange 0 n) l ->
  forall k, (0 <= k < n)%Z -> exists b, nth_error l (Z.to_nat k) = Some b /\ P k b.
Proof.
  intros F k Hk.
  assert (E : nth_error (zrange 0 n) (Z.to_nat k) = Some k).
  { unfold zrange. rewrite (map_nth_error _ _ _ (d := Z.to_nat k)); [f_equal; lia|].
    rewrite (nth_error_nth' _ O) by (rewrite seq_length; lia). rewrite seq_nth by lia. reflexivity. }
  revert E. generalize (Z.to_nat k) as i. induction F as [|a b la lb Hab F IH]; intros [|i] E; try discriminate; cbn in *.
  - injection E as ->. eauto.
  - apply IH, E.
Qed.

(** The exact behaviour: the map is drawn when no grid location is dry, and otherwise the call fails (NameError: the
    except clause names a module that is not imported). *)
Lemma c72_exactly_partial : forall (m : model R) (x0 x1 y0 y1 : R) (nr nc : Z), (2 <= nr)%Z -> (2 <= nc)%Z ->
  let X := spaced x0 x1 nc in let Y := spaced y0 y1 nr in
  ((exists i j, (0 <= i < nr)%Z /\ (0 <= j < nc)%Z /\ dry m (X j) (Y i)) ->
     contour_head (fmodel m) (Fin x0) (Fin x1) (Fin y0) (Fin y1) nr nc = Raise NameError) /\
  ((forall i j, (0 <= i < nr)%Z -> (0 <= j < nc)%Z -> ~ dry m (X j) (Y i)) ->
     exists grid, contour_head (fmodel m) (Fin x0) (Fin x1) (Fin y0) (Fin y1) nr nc = Ok grid /\
       forall i j, (0 <= i < nr)%Z -> (0 <= j < nc)%Z ->
         exists h, get2 grid i j = Some h /\ compute_head (fmodel m) (Fin (X j)) (Fin (Y i)) = Ok h).
Proof.
  intros m x0 x1 y0 y1 nr nc Hr Hc X Y. unfold contour_head. rewrite !linspace_spaced by assumption. cbn [bind].
  fold X Y. rewrite map_res_map. set (h := fun x y => match compute_head (fmodel m) (Fin x) (Fin y) with Ok h => Ok h | Raise _ => Raise NameError | NoFuel => NoFuel end).
  assert (Hh : forall x y, (dry m x y /\ h x y = Raise NameError) \/ (~ dry m x y /\ exists v, h x y = Ok v /\ compute_head (fmodel m) (Fin x) (Fin y) = Ok v)).
  { intros x y. unfold h. destruct (head_ok_or_dry m x y) as [[A ->]|[A [v ->]]]; [left|right]; eauto. }
  assert (Hrow : forall y, map_res (fun x : xr => match compute_head (fmodel m) x (Fin y) with Ok h => Ok h | Raise _ => Raise NameError | NoFuel => NoFuel end) (map (fun k => Fin (X k)) (zrange 0 nc))
                 = map_res (fun k => h (X k) y) (zrange 0 nc)) by (intros y; apply map_res_map).
  set (row := fun i => map_res (fun k => h (X k) (Y i)) (zrange 0 nc)).
  assert (Erow : map_res (fun a => map_res (fun x : xr => match compute_head (fmodel m) x (Fin (Y a)) with Ok h => Ok h | Raise _ => Raise NameError | NoFuel => NoFuel end) (map (fun k => Fin (X k)) (zrange 0 nc))) (zrange 0 nr) = map_res row (zrange 0 nr)).
  { generalize (zrange 0 nr). intros l. induction l as [|i l IH]; [reflexivity|]. cbn [map_res]. rewrite IH, Hrow. reflexivity. }
  rewrite Erow.
  assert (C : forall i, row i = Raise NameError \/ exists r, row i = Ok r).
  { intros i. unfold row. destruct (map_res_cases (fun k => h (X k) (Y i)) NameError (zrange 0 nc)) as [M1 M2].
    - intros k _. destruct (Hh (X k) (Y i)) as [[_ A]|[_ (v & A & _)]]; [left|right]; eauto.
    - destruct (Classical_Prop.classic (exists k, In k (zrange 0 nc) /\ h (X k) (Y i) = Raise NameError)) as [D|D]; [left; auto|right].
      destruct M2 as (bs & E & _); [|eauto]. intros k Hk. destruct (Hh (X k) (Y i)) as [[_ A]|[_ (v & A & _)]]; [exfalso; eauto|eauto]. }
  destruct (map_res_cases row NameError (zrange 0 nr)) as [N1 N2]; [intros; apply C|]. split.
  - intros (i & j & Hi & Hj & Hd). apply N1. exists i. split; [apply in_zrange; exact Hi|]. unfold row.
    apply map_res_cases.
    + intros k _. destruct (Hh (X k) (Y i)) as [[_ A]|[_ (v & A & _)]]; [left|right]; eauto.
    + exists j. split; [apply in_zrange; exact Hj|]. destruct (Hh (X j) (Y i)) as [[_ A]|[A _]]; [exact A|contradiction].
  - intros Hw. destruct N2 as (grid & E & F).
    { intros i Hi. apply in_zrange in Hi. unfold row. destruct (map_res_cases (fun k => h (X k) (Y i)) NameError (zrange 0 nc)) as [_ M2].
      - intros k _. destruct (Hh (X k) (Y i)) as [[_ A]|[_ (v & A & _)]]; [left|right]; eauto.
      - destruct M2 as (bs & E & _); [|eauto]. intros k Hk. apply in_zrange in Hk. destruct (Hh (X k) (Y i)) as [[A _]|[_ (v & A & _)]]; [exfalso; eapply Hw; eauto|eauto]. }
    exists grid. split; [exact E|]. intros i j Hi Hj. destruct (Forall2_zrange _ _ _ F i Hi) as (r & Er & Hrow_i).
    assert (Fr : Forall2 (fun k b => h (X k) (Y i) = Ok b) (zrange 0 nc) r).
    { unfold row in Hrow_i. revert Hrow_i. generalize (zrange 0 nc). clear. intros l. revert r. induction l as [|k l IH]; intros r H; cbn in H.
      - injection H as <-. constructor.
      - destruct (h (X k) (Y i)) eqn:E1; cbn in H; try discriminate. destruct (map_res _ l) eqn:E2; cbn in H; try discriminate. injection H as <-. constructor; auto. }
    destruct (Forall2_zrange _ _ _ Fr j Hj) as (v & Ev & Hv). exists v. split.
    + unfold get2. rewrite (proj2 (Z.ltb_ge i 0)), (proj2 (Z.ltb_ge j 0)) by lia. cbn. rewrite Er. exact Ev.
    + destruct (Hh (X j) (Y i)) as [[A B]|[_ (v' & A & B)]]; congruence.
Qed.

(** K = 2, H = 1, no wells, potential x: dry for x <= 0, head 1 at x = 1. *)
Definition slope : model R :=
  {| base := 0; conductivity := 2; porosity := 1/2; thickness := 1; wells := []; xo := 0; yo := 0;
     coef := {| cA := 0; cB := 0; cC := 0; cD := 1; cE := 0; cF := 0 |} |}.
Lemma slope_physical : physical slope.
Proof. unfold physical, slope. cbn. lra. Qed.
Lemma slope_pot x y : compute_potential (fmodel slope) (Fin x) (Fin y) = Fin x.
Proof. rewrite compute_potential_eq by (intros w []). cbn. unfold quad. cbn. apply f_equal. ring. Qed.
Lemma slope_dry x y : dry slope x y <-> x <= 0.
Proof. unfold dry. rewrite slope_pot. tauto. Qed.

(** A map with a dry left edge and a wet right edge: the call fails, no map is drawn. *)
Lemma c72_refuted :
  physical slope /\ dry slope (-1) 0 /\ compute_head (fmodel slope) (Fin 1) (Fin 0) = Ok (Fin 1) /\
  contour_head (fmodel slope) (Fin (-1)) (Fin 1) (Fin 0) (Fin 1) 2 2 = Raise NameError.
Proof.
  split; [apply slope_physical|]. split; [apply slope_dry; lra|]. split.
  - destruct (c24_head_inverts_potential slope 1 0 1 slope_physical (slope_pot 1 0)) as [_ H]. destruct (H ltac:(lra)) as (h & E & _ & _ & U).
    rewrite E. rewrite <- (U 1 ltac:(lra)); [reflexivity|]. unfold girinskii. cbn. destruct (Rlt_dec _ _); lra.
  - apply c72_exactly_partial; [lia|lia|]. exists 0%Z, 0%Z. split; [lia|]. split; [lia|]. apply slope_dry. unfold spaced. lra.
Qed.

(** A map without dry locations is drawn: the head at its lower left corner. *)
Lemma c72_example : exists grid,
  contour_head (fmodel slope) (Fin 1) (Fin 2) (Fin 0) (Fin 1) 3 3 = Ok grid /\ get2 grid 0 0 = Some (Fin 1).
Proof.
  destruct (c72_exactly_partial slope 1 2 0 1 3 3 ltac:(lia) ltac:(lia)) as [_ H]. destruct H as (grid & E & Hg).
  - intros i j Hi Hj. rewrite slope_dry. unfold spaced. assert (0 <= IZR j) by (apply (IZR_le 0); lia). cbn. lra.
  - exists grid. split; [exact E|]. destruct (Hg 0%Z 0%Z ltac:(lia) ltac:(lia)) as (h & -> & Eh).
    replace (spaced 1 2 3 0) with 1 in Eh by (unfold spaced; lra). replace (spaced 0 1 3 0) with 0 in Eh by (unfold spaced; lra).
    destruct c72_refuted as (_ & _ & E1 & _). congruence.
Qed.
