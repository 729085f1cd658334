(** * Model of /repo/oneka/model.py (class Model) *)
From Verif Require Import Py Num.
Local Open Scope num_scope.

Section Aquifer.
  Context {T : Type} {N : Num T}.

  (** Well tuple (xw, yw, rw, qw): model.py:80-89. *)
  Record well := { wx : T; wy : T; wr : T; wq : T }.

  (** Observation tuple (x, y, z_ev, z_std): model.py:436-450. *)
  Record obs := { ox : T; oy : T; oz : T; os : T }.

  (** The six regional-flow coefficients A..F: model.py:99-100. *)
  Record coef6 := { cA : T; cB : T; cC : T; cD : T; cE : T; cF : T }.

  (** A Model object: model.py:131-187. *)
  Record model := {
    base : T; conductivity : T; porosity : T; thickness : T;
    wells : list well;
    xo : T; yo : T;
    coef : coef6
  }.

  (** model.py:194-196, coef setter: [np.reshape(coef, [6, ])], ValueError unless there
      are exactly six entries. *)
  Definition reshape6 (l : list T) : res coef6 :=
    match l with
    | [a; b; c; d; e; f] => Ok {| cA := a; cB := b; cC := c; cD := d; cE := e; cF := f |}
    | _ => Raise ValueError
    end.

  Definition coef_list (c : coef6) : list T := [cA c; cB c; cC c; cD c; cE c; cF c].

  Definition set_coef (m : model) (c : coef6) : model :=
    {| base := base m; conductivity := conductivity m; porosity := porosity m;
       thickness := thickness m; wells := wells m; xo := xo m; yo := yo m; coef := c |}.

  Definition set_origin (m : model) (x y : T) : model :=
    {| base := base m; conductivity := conductivity m; porosity := porosity m;
       thickness := thickness m; wells := wells m; xo := x; yo := y; coef := coef m |}.

  (** model.py:131-132: the default arguments xo=0, yo=0, coef=np.zeros((6, )). *)
  Definition new_model (b k n h : T) (ws : list well) : model :=
    {| base := b; conductivity := k; porosity := n; thickness := h; wells := ws;
       xo := nZ 0; yo := nZ 0;
       coef := {| cA := nZ 0; cB := nZ 0; cC := nZ 0; cD := nZ 0; cE := nZ 0; cF := nZ 0 |} |}.

  (** model.py:264: the double 0.07957747154594767 = 5734161139222659 / 2^56. *)
  Definition k4pi : T := nlit 5734161139222659 72057594037927936.
  (** model.py:312-313: the double 0.15915494309189535 = 5734161139222659 / 2^55. *)
  Definition k2pi : T := nlit 5734161139222659 36028797018963968.

  (** model.py:240-266, [compute_potential_wells_only(x, y)]; np.log(0) = -inf. *)
  Definition potential_wells (ws : list well) (x y : T) : T :=
    fold_left (fun pot w =>
                 let dx := x - wx w in
                 let dy := y - wy w in
                 let r2 := dx * dx + dy * dy in
                 pot + wq w * nlog r2 * k4pi) ws (nZ 0).

  (** model.py:225-232, regional part of the potential. *)
  Definition potential_regional (c : coef6) (x0 y0 x y : T) : T :=
    let dx := x - x0 in
    let dy := y - y0 in
    cA c * nsq dx + cB c * nsq dy + cC c * dx * dy + cD c * dx + cE c * dy + cF c.

  (** model.py:207-237, [compute_potential(x, y)] *)
  Definition compute_potential (m : model) (x y : T) : T :=
    potential_regional (coef m) (xo m) (yo m) x y + potential_wells (wells m) x y.

  (** model.py:269-315, [compute_discharge(x, y)] *)
  Definition compute_discharge (m : model) (x y : T) : T * T :=
    let dx := x - xo m in
    let dy := y - yo m in
    let qx := - (nZ 2 * cA (coef m) * dx + cC (coef m) * dy + cD (coef m)) in
    let qy := - (nZ 2 * cB (coef m) * dy + cC (coef m) * dx + cE (coef m)) in
    fold_left (fun q w =>
                 let dx := x - wx w in
                 let dy := y - wy w in
                 let r2 := dx * dx + dy * dy in
                 (fst q + (- wq w) * dx / r2 * k2pi,
                  snd q + (- wq w) * dy / r2 * k2pi)) (wells m) (qx, qy).

  (** model.py:318-350, [compute_head(x, y)]; [thickness**2] is [nsq]. *)
  Definition head_of_potential (k h pot : T) : res T :=
    if pot <=? nZ 0 then Raise AquiferError
    else if pot <? nlit 1 2 * k * nsq h then Ok (nsqrt (nZ 2 * pot / k))
    else Ok ((pot + nlit 1 2 * k * nsq h) / (k * h)).

  Definition compute_head (m : model) (x y : T) : res T :=
    head_of_potential (conductivity m) (thickness m) (compute_potential m x y).

  (** model.py:353-389, [compute_velocity(x, y)] *)
  Definition compute_velocity (m : model) (x y : T) : res (T * T) :=
    let (qx, qy) := compute_discharge m x y in
    let! head := compute_head m x y in
    if head <=? nZ 0 then Raise AquiferError
    else if head >? thickness m then
      Ok (qx / (thickness m * porosity m), qy / (thickness m * porosity m))
    else
      Ok (qx / (head * porosity m), qy / (head * porosity m)).

  (** model.py:392-427, [compute_velocity_confined(x, y)] *)
  Definition compute_velocity_confined (m : model) (x y : T) : T * T :=
    let (qx, qy) := compute_discharge m x y in
    (qx / (thickness m * porosity m), qy / (thickness m * porosity m)).

  (** model.py:548-559: expected value and standard deviation of the discharge
      potential of one observation. *)
  Definition obs_potential (m : model) (o : obs) : res (T * T) :=
    let head := oz o - base m in
    if head >=? thickness m then
      Ok (conductivity m * thickness m * (head - nlit 1 2 * thickness m),
          conductivity m * thickness m * os o)
    else if head >? nZ 0 then
      Ok (nlit 1 2 * conductivity m * (nsq head + nsq (os o)),
          conductivity m * head * os o)
    else Raise RangeError.

  (** model.py:546-565: one row of WA and one entry of Wb.  The division for WA is numpy's
      (line 563).  The one for Wb (line 565) is numpy's when there are wells, because np.log made
      the numerator a numpy number; without wells all operands are Python numbers. *)
  Definition fit_row (m : model) (x0 y0 : T) (o : obs) : res (list T * T) :=
    let! (pot_ev, pot_std) := obs_potential m o in
    let dx := ox o - x0 in
    let dy := oy o - y0 in
    let num := pot_ev - potential_wells (wells m) (ox o) (oy o) in
    let! b := match wells m with [] => pydiv num pot_std | _ => Ok (num / pot_std) end in
    Ok (map (fun v => v / pot_std) [nsq dx; nsq dy; dx * dy; dx; dy; nZ 1], b).

  (** model.py:497-567, [construct_fit(obs, xo, yo)] *)
  Definition construct_fit (m : model) (os : list obs) (x0 y0 : T)
    : res (list (list T) * list T) :=
    let! rows := map_res (fit_row m x0 y0) os in
    Ok (map fst rows, map snd rows).

  (** [np.matmul(WA.T, WA)] for WA with six columns (model.py:604). *)
  Definition nsum (l : list T) : T := fold_left nadd l (nZ 0).
  Definition gram (wa : list (list T)) : list (list T) :=
    map (fun i => map (fun j => nsum (map (fun row => nth i row (nZ 0) * nth j row (nZ 0)) wa))
                      (seq 0 6)) (seq 0 6).

  (** numpy.linalg is external: least-squares solver and matrix inverse as oracles. *)
  Record linalg := {
    lstsq : list (list T) -> list T -> res (list T);
    inv : list (list T) -> res (list (list T))
  }.

  (** model.py:571-606, [compute_fit(WA, Wb)] *)
  Definition compute_fit (la : linalg) (wa : list (list T)) (wb : list T)
    : res (list T * list (list T)) :=
    let! ev := lstsq la wa wb in
    let! cov := inv la (gram wa) in
    Ok (ev, cov).

  (** model.py:430-494, [fit_regional_flow(obs, xo, yo)]: returns the model as it is
      afterwards, and the result. *)
  Definition fit_regional_flow (la : linalg) (m : model) (os : list obs) (x0 y0 : T)
    : model * res (list T * list (list T)) :=
    match (let! (wa, wb) := construct_fit m os x0 y0 in compute_fit la wa wb) with
    | Ok (ev, cov) =>
        let m' := set_origin m x0 y0 in
        match reshape6 ev with
        | Ok c => (set_coef m' c, Ok (ev, cov))
        | Raise e => (m', Raise e)
        | NoFuel => (m', NoFuel)
        end
    | Raise e => (m, Raise e)
    | NoFuel => (m, NoFuel)
    end.
End Aquifer.

Arguments well T : clear implicits.
Arguments obs T : clear implicits.
Arguments coef6 T : clear implicits.
Arguments model T : clear implicits.
Arguments linalg T : clear implicits.
