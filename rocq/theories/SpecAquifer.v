(** * Specification of the groundwater model, in real analysis

    A model with real parameters is read as a model object of the program by [fmodel]; the
    specifications below use only real functions and their derivatives. *)
From Coq Require Import Reals.
From Verif Require Import Py Num ModelAquifer.
Local Open Scope R_scope.

Definition fwell (w : well R) : well xr :=
  {| wx := Fin (wx w); wy := Fin (wy w); wr := Fin (wr w); wq := Fin (wq w) |}.
Definition fobs (o : obs R) : obs xr :=
  {| ox := Fin (ox o); oy := Fin (oy o); oz := Fin (oz o); os := Fin (os o) |}.
Definition fcoef (c : coef6 R) : coef6 xr :=
  {| cA := Fin (cA c); cB := Fin (cB c); cC := Fin (cC c);
     cD := Fin (cD c); cE := Fin (cE c); cF := Fin (cF c) |}.
Definition fmodel (m : model R) : model xr :=
  {| base := Fin (base m); conductivity := Fin (conductivity m); porosity := Fin (porosity m);
     thickness := Fin (thickness m); wells := map fwell (wells m);
     xo := Fin (xo m); yo := Fin (yo m); coef := fcoef (coef m) |}.

(** The same model with other wells / other regional coefficients. *)
Definition with_wells (m : model R) (ws : list (well R)) : model R :=
  {| base := base m; conductivity := conductivity m; porosity := porosity m;
     thickness := thickness m; wells := ws; xo := xo m; yo := yo m; coef := coef m |}.
Definition with_coef (m : model R) (x0 y0 : R) (c : coef6 R) : model R :=
  {| base := base m; conductivity := conductivity m; porosity := porosity m;
     thickness := thickness m; wells := wells m; xo := x0; yo := y0; coef := c |}.
Definition zero_coef : coef6 R :=
  {| cA := 0; cB := 0; cC := 0; cD := 0; cE := 0; cF := 0 |}.

(** A number of the program read as a real number (0 for the special values). *)
Definition Rval (v : xr) : R := match v with Fin r => r | _ => 0 end.

Definition off_wells (ws : list (well R)) (x y : R) : Prop :=
  forall w, In w ws -> ~ (x = wx w /\ y = wy w).

(** A quadratic polynomial. *)
Definition quad (c : coef6 R) (u v : R) : R :=
  cA c * (u * u) + cB c * (v * v) + cC c * (u * v) + cD c * u + cE c * v + cF c.

(** Squared distance to a well. *)
Definition wdist2 (w : well R) (x y : R) : R :=
  (x - wx w) * (x - wx w) + (y - wy w) * (y - wy w).

Definition Rsum {A} (f : A -> R) (l : list A) : R := fold_right (fun a s => f a + s) 0 l.

(** Physically meaningful parameters. *)
Definition physical (m : model R) : Prop :=
  0 < conductivity m /\ 0 < porosity m /\ 0 < thickness m.

(** Partial derivatives of a function of two variables. *)
Definition d_dx (f : R -> R -> R) (x y d : R) : Prop := derivable_pt_lim (fun t => f t y) x d.
Definition d_dy (f : R -> R -> R) (x y d : R) : Prop := derivable_pt_lim (fun t => f x t) y d.

(** What the program computes, as real functions of the location. *)
Definition potential (m : model R) (x y : R) : R := Rval (compute_potential (fmodel m) (Fin x) (Fin y)).
Definition discharge_x (m : model R) (x y : R) : R := Rval (fst (compute_discharge (fmodel m) (Fin x) (Fin y))).
Definition discharge_y (m : model R) (x y : R) : R := Rval (snd (compute_discharge (fmodel m) (Fin x) (Fin y))).

(** Discharge potential of a head [h] above the base (Girinskii potential of an aquifer of
    conductivity [K], thickness [H]). *)
Definition girinskii (K H h : R) : R :=
  if Rlt_dec h H then K * (h * h) / 2 else K * H * (h - H / 2).

(** Head for a given potential, as a real function (0 where the program raises). *)
Definition head_at (K H p : R) : R :=
  match head_of_potential (Fin K) (Fin H) (Fin p) with Ok v => Rval v | _ => 0 end.
