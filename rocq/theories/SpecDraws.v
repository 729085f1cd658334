(** * The random numbers of a stochastic run, in the order in which they are drawn *)
From Coq Require Import ZArith List.
From Verif Require Import Py Num ModelDist ModelAquifer ModelDriver.
Import ListNotations.

Section Draws.
  Context {T : Type} {N : Num T} {G : Type} (R : rng T G).

  (** From generator state [g], the distributions [ds] give the values [vs], one draw per pair or triple, none for a number; the next state is [g']. *)
  Inductive drawn : G -> list (pyval T) -> list (pyval T) -> G -> Prop :=
  | drawn_none g : drawn g [] [] g
  | drawn_number g v ds vs g' : (forall l, v <> PTuple l) -> drawn g ds vs g' -> drawn g (v :: ds) (v :: vs) g'
  | drawn_uniform g a b x y v g1 ds vs g' : num_of a = Some x -> num_of b = Some y -> draw_uniform R g x y = (v, g1) ->
      drawn g1 ds vs g' -> drawn g (PTuple [a; b] :: ds) (PFloat v :: vs) g'
  | drawn_triangular g a b c x y z v g1 ds vs g' : num_of a = Some x -> num_of b = Some y -> num_of c = Some z -> draw_triangular R g x y z = (v, g1) ->
      drawn g1 ds vs g' -> drawn g (PTuple [a; b; c] :: ds) (PFloat v :: vs) g'.

  (** The model of a realization: the given base and wells, the drawn discharges [qs], conductivity, porosity and thickness; origin at the target; and
      the coefficients that [pick] draws with the mean and covariance of the fit of just this model. *)
  Definition made (la : linalg T) (base_ xt yt : T) (ws : list (swell T)) (observations : list (obs T)) (pick : list T -> list (list T) -> list T)
      (qs : list (pyval T)) (k n h : pyval T) (m : model T) : Prop :=
    base m = base_ /\ num_of k = Some (conductivity m) /\ num_of n = Some (porosity m) /\ num_of h = Some (thickness m) /\ xo m = xt /\ yo m = yt /\
    Forall2 (fun (wq' : swell T * pyval T) v => wx v = sx (fst wq') /\ wy v = sy (fst wq') /\ wr v = sr (fst wq') /\ num_of (snd wq') = Some (wq v)) (combine ws qs) (wells m) /\
    exists m1 ev cov, fit_regional_flow la (new_model base_ (conductivity m) (porosity m) (thickness m) (wells m)) observations xt yt = (m1, Ok (ev, cov)) /\
      pick ev cov = coef_list (coef m).

  (** A generator that counts its draws. *)
  Definition counts_draws (counter : G -> nat) : Prop :=
    (forall g a b, counter (snd (draw_uniform R g a b)) = S (counter g)) /\ (forall g a b c, counter (snd (draw_triangular R g a b c)) = S (counter g)).
  Definition is_tuple (v : pyval T) : bool := match v with PTuple _ => true | _ => false end.
End Draws.
