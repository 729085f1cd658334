(** * A stochastic run with random discharge, conductivity and thickness *)
From Coq Require Import ZArith SpecFloat List.
From Verif Require Import Py Num ModelDist ModelField ModelAquifer ModelTrace ModelDriver ProofFloatTrace ProofFloatZoneEx.
From Verif Require Import SpecFloats SpecDriver SpecDraws.
Import ListNotations.

(** A generator whose n-th number lies n above the lower end. *)
Definition n_rng : rng spec_float nat :=
  {| draw_uniform := fun n a _ => (SFadd fprec femax a (f_of_Z (Z.of_nat n)), S n); draw_triangular := fun n a _ _ => (SFadd fprec femax a (f_of_Z (Z.of_nat n)), S n) |}.
Definition n_well : swell spec_float := {| sx := f_of_Z 1000; sy := f_of_Z 2000; sr := f_of_Z 1; sq := PTuple [PInt 30; PInt 40] |}.
Definition n_run : res (pfield spec_float * list (run_log spec_float)) :=
  @create_stochastic spec_float (SF e_lm) nat (list spec_float) n_rng (fun e _ _ => e) 1000 e_la e_entropy 0%nat 0 2 (f_of_Z 20) 2 (f_of_Z 0)
    (PTuple [PInt 1; PInt 9]) (PFloat quarter) (PTuple [PInt 10; PInt 12; PInt 20]) [n_well] e_obs (f_of_Z 4) (f_of_Z 5) true (f_of_Z 1) (f_of_Z 10).

(** Two realizations take six draws: discharge, conductivity, thickness 30, 2, 12 and then 33, 5, 15. *)
Lemma c96_example : counts_draws n_rng (fun n => n) /\
  match n_run with
  | Ok (_, logs) => map (@l_conductivity _) logs = [f_of_Z 2; f_of_Z 5] /\ map (@l_thickness _) logs = [f_of_Z 12; f_of_Z 15]
  | _ => False
  end /\
  @drawn spec_float (SF e_lm) nat n_rng 0%nat
    (concat (repeat [PTuple [PInt 30; PInt 40]; PTuple [PInt 1; PInt 9]; PFloat quarter; PTuple [PInt 10; PInt 12; PInt 20]] 2))
    [PFloat (f_of_Z 30); PFloat (f_of_Z 2); PFloat quarter; PFloat (f_of_Z 12); PFloat (f_of_Z 33); PFloat (f_of_Z 5); PFloat quarter; PFloat (f_of_Z 15)] 6%nat.
Proof.
  split; [split; reflexivity|]. split; [vm_compute; split; reflexivity|]. cbn [repeat concat app].
  repeat first [apply drawn_none | apply drawn_number; [discriminate|] | eapply drawn_uniform; [reflexivity|reflexivity|vm_compute; reflexivity|] | eapply drawn_triangular; [reflexivity|reflexivity|reflexivity|vm_compute; reflexivity|]].
Qed.
