(** * The repository's unit tests, run on the binary64 instance of the model

    /repo/tests/test_model.py and /repo/tests/test_probabilityfield.py, evaluated inside Coq.  These are
    checks of the transcription, not properties: the expected numbers were computed by the authors
    of the code with another program. *)
From Coq Require Import ZArith List Bool Floats.SpecFloat.
From Verif Require Import Py Num ModelField ModelAquifer.
Import ListNotations.
Local Open Scope Z_scope.

(** ** A logarithm for binary64 (IEEE 754 does not fix one)

    log (m 2^e) = 2 artanh ((m - 1) / (m + 1)) + e log 2 for m in [1, 2). *)
Definition fa := SFadd fprec femax.
Definition fs := SFsub fprec femax.
Definition fm := SFmul fprec femax.
Definition fd := SFdiv fprec femax.
Definition flit (p : Z) (q : positive) := fd (f_of_Z p) (f_of_Z (Zpos q)).

Fixpoint artanh_sum (n : nat) (z2 : spec_float) (k : Z) (acc : spec_float) : spec_float :=
  match n with
  | O => acc
  | S n' => artanh_sum n' z2 (k - 2) (fa (fd (f_of_Z 1) (f_of_Z k)) (fm z2 acc))
  end.
Definition f_log (x : spec_float) : spec_float :=
  match x with
  | S754_zero _ => S754_infinity true
  | S754_infinity false => S754_infinity false
  | S754_finite false m e =>
      let d := Z.log2 (Zpos m) in
      let y := SFldexp fprec femax (f_of_Z (Zpos m)) (- d) in
      let z := fd (fs y (f_of_Z 1)) (fa y (f_of_Z 1)) in
      fa (fm (f_of_Z 2) (fm z (artanh_sum 20 (fm z z) 39 (f_of_Z 0))))
         (fm (f_of_Z (d + e)) (flit 6931471805599453 10000000000000000))
  | _ => S754_nan
  end.

Definition the_libm : libm :=
  {| lm_log := f_log; lm_cos := fun x => x; lm_sin := fun x => x; lm_hypot := fun x _ => x; lm_root5 := fun x => x |}.
Local Instance Num64 : Num spec_float := SF the_libm.

(** np.isclose (rtol, with the default atol = 1e-8): |a - b| <= atol + rtol |b| *)
Definition isclose (rtol a b : spec_float) : bool :=
  SFleb (SFabs (fs a b)) (fa (flit 1 100000000) (fm rtol (SFabs b))).
Definition millionth := flit 1 1000000.
Definition billionth := flit 1 1000000000.

(** ** test_model.py *)
(** test_model.py:25-42 *)
Definition my_model : model spec_float :=
  {| base := f_of_Z 500; conductivity := f_of_Z 1; porosity := flit 1 4; thickness := f_of_Z 100;
     wells := [{| wx := f_of_Z 100; wy := f_of_Z 200; wr := f_of_Z 1; wq := f_of_Z 1000 |};
               {| wx := f_of_Z 200; wy := f_of_Z 100; wr := f_of_Z 1; wq := f_of_Z 1000 |}];
     xo := f_of_Z 0; yo := f_of_Z 0;
     coef := {| cA := f_of_Z 1; cB := f_of_Z 1; cC := f_of_Z 1; cD := f_of_Z 1; cE := f_of_Z 1; cF := f_of_Z 500 |} |}.

(** test_model.py:45-48 *)
Example test_model_compute_potential :
  isclose millionth (compute_potential my_model (f_of_Z 100) (f_of_Z 100)) (flit 321658711977589 10000000000) = true.
Proof. vm_compute. reflexivity. Qed.

(** test_model.py:51-54 *)
Example test_model_compute_head :
  match compute_head my_model (f_of_Z 100) (f_of_Z 100) with
  | Ok h => isclose millionth h (flit 371658711977589 1000000000000)
  | _ => false
  end = true.
Proof. vm_compute. reflexivity. Qed.

(** test_model.py:57-62 *)
Example test_model_compute_discharge :
  (let (qx, qy) := compute_discharge my_model (f_of_Z 120) (f_of_Z 160) in
   isclose millionth qx (flit (-401318309886184) 1000000000000) && isclose millionth qy (flit (-438771830796713) 1000000000000)) = true.
Proof. vm_compute. reflexivity. Qed.

(** test_model.py:65-76 *)
Definition velocity_close (x y vx vy : spec_float) : bool :=
  match compute_velocity my_model x y with
  | Ok (ux, uy) => isclose millionth ux vx && isclose millionth uy vy
  | _ => false
  end.
Example test_model_compute_velocity :
  velocity_close (f_of_Z 100) (f_of_Z 100) (flit (-11976338022763) 1000000000000) (flit (-11976338022763) 1000000000000)
  && velocity_close (f_of_Z 120) (f_of_Z 160) (flit (-16052732395447) 1000000000000) (flit (-17550873231869) 1000000000000) = true.
Proof. vm_compute. reflexivity. Qed.

(** *** test_model_compute_fit

    numpy.linalg is an oracle of the model; here it is Gauss-Jordan elimination with the normal
    equations, in binary64. *)
Definition scale_row (c : spec_float) := map (fm c).
Definition sub_row (a b : list spec_float) := map (fun p => fs (fst p) (snd p)) (combine a b).
(** One elimination step on the rows [done ++ p :: rest] for column [k]: no pivoting is needed for a positive
    definite matrix. *)
Fixpoint gauss (n : nat) (k : nat) (rows : list (list spec_float)) : list (list spec_float) :=
  match n with
  | O => rows
  | S n' =>
      let p := nth k rows [] in
      let p' := map (fun v => fd v (nth k p (f_of_Z 0))) p in
      let rows' := map (fun ir => if Nat.eqb (fst ir) k then p' else sub_row (snd ir) (scale_row (nth k (snd ir) (f_of_Z 0)) p'))
                       (combine (seq 0 (length rows)) rows) in
      gauss n' (S k) rows'
  end.
Definition solve (a : list (list spec_float)) (b : list (list spec_float)) : list (list spec_float) :=
  map (skipn 6) (gauss 6 0 (map (fun ab => fst ab ++ snd ab) (combine a b))).
Definition identity6 : list (list spec_float) :=
  map (fun i => map (fun j => f_of_Z (if Nat.eqb i j then 1 else 0)) (seq 0 6)) (seq 0 6).
Definition gauss_la : linalg spec_float := {|
  lstsq := fun wa wb => Ok (map (fun r => nth 0 r (f_of_Z 0))
             (solve (gram wa) (map (fun i => [nsum (map (fun rb => fm (nth i (fst rb) (f_of_Z 0)) (snd rb)) (combine wa wb))]) (seq 0 6))));
  inv := fun g => Ok (solve g identity6) |}.

(** test_model.py:90-116 *)
Definition ob (x y : Z) (z : Z) : obs spec_float :=
  {| ox := f_of_Z x; oy := f_of_Z y; oz := flit z 100; os := flit 1 10 |}.
Definition test_obs : list (obs spec_float) :=
  [ob 23 11 57364; ob 24 85 66855; ob 26 80 66158; ob 28 65 63797; ob 37 50 62662; ob 41 21 59885; ob 42 53 63751;
   ob 42 74 67332; ob 45 70 67052; ob 46 15 59943; ob 52 76 69414; ob 58 90 73675; ob 64 22 62954; ob 71 19 63734;
   ob 72 36 66054; ob 72 55 69145; ob 74 50 68657; ob 75 18 64292; ob 76 43 67880; ob 77 79 75205; ob 79 66 72781;
   ob 81 81 76623; ob 82 77 75915; ob 86 26 67324; ob 90 57 73472].
(** test_model.py:80-88 *)
Definition ev_true : list spec_float := [flit 9916 10000; flit 9956 10000; flit 9422 10000; flit 17185 100; flit 1658 10; flit 96678 10].
(** The entries of the covariance matrix, in units of 1e-9. *)
Definition cov_true : list (list Z) :=
  [[31950; -2031; -2437; 217600; -31170; -13400000];
   [-2031; 19170; -3666; 128200; 129700; -11210000];
   [-2437; -3666; 12940; -27450; 59140; 3349000];
   [217600; 128200; -27450; 10830000; 639900; -171900000];
   [-31170; 129700; 59140; 639900; 7370000; -60470000];
   [-13400000; -11210000; 3349000; -171900000; -60470000; 17150000000]].
Definition fit_test : bool :=
  match fit_regional_flow gauss_la my_model test_obs (flit 5852 100) (flit 5276 100) with
  | (_, Ok (ev, cov)) =>
      forallb (fun p => isclose (flit 1 1000) (fst p) (snd p)) (combine ev ev_true) && Nat.eqb (length ev) 6 &&
      Nat.eqb (length cov) 6 && forallb (fun r => Nat.eqb (length r) 6) cov &&
      forallb (fun p => forallb (fun q => isclose (flit 1 1000) (fst q) (flit (snd q) 1000000000)) (combine (fst p) (snd p))) (combine cov cov_true)
  | _ => false
  end.
(** test_model.py:79-120 *)
Example test_model_compute_fit : fit_test = true.
Proof. vm_compute. reflexivity. Qed.

(** ** test_probabilityfield.py *)
Definition nan := S754_nan.
(** test_probabilityfield.py:24-30 *)
Example test_probabilityfield_constructor :
  pf_init (f_of_Z 0) (f_of_Z 0) nan nan = Raise RangeError /\
  pf_init (f_of_Z 1) (f_of_Z 1) nan nan = Ok {| deltax := f_of_Z 1; deltay := f_of_Z 1; body := None |}.
Proof. vm_compute. auto. Qed.

Definition unit_field : pfield spec_float := {| deltax := f_of_Z 1; deltay := f_of_Z 1; body := None |}.
Definition grid_is (s : pfield spec_float) (nr nc x0 x1 y0 y1 : Z) : bool :=
  match body s with
  | Some g => (nrows g =? nr) && (ncols g =? nc) && isclose billionth (xmin g) (f_of_Z x0) && isclose billionth (xmax g) (f_of_Z x1)
              && isclose billionth (ymin g) (f_of_Z y0) && isclose billionth (ymax g) (f_of_Z y1)
  | None => false
  end.
(** test_probabilityfield.py:33-50 *)
Example test_probabilityfield_expand :
  snd (expand 10 unit_field (f_of_Z 1) (f_of_Z 0) (f_of_Z 1) (f_of_Z 0)) = Raise RangeError /\
  let s1 := fst (expand 10 unit_field (f_of_Z 100) (f_of_Z 200) (f_of_Z 50) (f_of_Z 100)) in
  grid_is s1 53 103 99 201 49 101 = true /\
  grid_is (fst (expand 10 s1 (f_of_Z 150) (f_of_Z 175) (f_of_Z 75) (f_of_Z 100))) 53 103 99 201 49 101 = true.
Proof. vm_compute. auto. Qed.

(** test_probabilityfield.py:53-54 *)
Example test_probabilityfield_distancesquared :
  isclose billionth (distancesquared (f_of_Z 0) (f_of_Z 1) (f_of_Z 1) (f_of_Z 0) (f_of_Z 0) (f_of_Z 0)) (flit 1 2) = true.
Proof. vm_compute. reflexivity. Qed.
