(** * The data sets that come with the program, /repo/data/*.py, and /repo/runme.py

    Written by tools/gendata.py from the text of these files. *)
From Coq Require Import String.
From Verif Require Import Py Num ModelDist ModelMain.
Local Open Scope Z_scope.

(** A literal: an int, or a float given as numerator and power of ten.  [LD p q] is the number
    closest to p/q (p and q are below 2^53, so the division is correctly rounded). *)
Inductive lit := LI (z : Z) | LD (p : Z) (q : positive).

(** One module of /repo/data.  A distribution is the list of its entries; one entry stands for a scalar
    (in Python, (0.25) is a number). *)
Record dataset := {
  d_name : string; d_target : Z; d_npaths : Z; d_duration : lit; d_nrealizations : Z;
  d_base : lit; d_c : list lit; d_p : list lit; d_t : list lit;
  d_buffer : lit; d_spacing : lit; d_umbra : lit; d_smooth : lit; d_confined : bool; d_tol : lit; d_maxstep : lit;
  d_wells : list (lit * lit * lit * list lit);
  d_obs : list (lit * lit * lit * lit)
}.

Section Args.
  Context {T : Type} {N : Num T}.
  Definition lit_val (l : lit) : pyval T :=
    match l with LI z => PInt z | LD p q => PFloat (nlit p q) end.
  Definition dist_val (l : list lit) : pyval T :=
    match l with [x] => lit_val x | _ => PTuple (map lit_val l) end.
  (** runme.py:56-63: the call of oneka for the module [d]; [runtime] is time.asctime(). *)
  Definition data_args (d : dataset) (runtime : string) : args T :=
    {| projectname := PStr (d_name d); runtime := PStr runtime; target := PInt (d_target d); npaths := PInt (d_npaths d);
       duration := lit_val (d_duration d); nrealizations := PInt (d_nrealizations d); base_ := lit_val (d_base d);
       c_dist := dist_val (d_c d); p_dist := dist_val (d_p d); t_dist := dist_val (d_t d);
       stochastic_wells := PList (map (fun w => let '(x, y, r, q) := w in PTuple [lit_val x; lit_val y; lit_val r; dist_val q]) (d_wells d));
       observations := PList (map (fun o => let '(x, y, z, s) := o in PTuple [lit_val x; lit_val y; lit_val z; lit_val s]) (d_obs d));
       buffer := lit_val (d_buffer d); spacing := lit_val (d_spacing d); umbra := lit_val (d_umbra d); smooth := lit_val (d_smooth d);
       confined := PBool (d_confined d); tol := lit_val (d_tol d); maxstep := lit_val (d_maxstep d) |}.
End Args.

(** data/barnesville.py *)
Definition barnesville : dataset := {|
  d_name := "Barnesville example"; d_target := 0; d_npaths := 200; d_duration := LD 36525 10; d_nrealizations := 200;
  d_base := LD 0 1; d_c := [LD 1 1; LD 5 1; LD 20 1]; d_p := [LD 2 10; LD 25 100]; d_t := [LD 100 1; LD 120 1; LD 150 1];
  d_buffer := LI 100; d_spacing := LI 2; d_umbra := LI 4; d_smooth := LI 2; d_confined := true; d_tol := LI 1; d_maxstep := LI 10;
  d_wells := [
    (LD 0 1, LD 0 1, LD 2 10, [LD 312 1])];
  d_obs := [
    (LI (-857), LI (-737), LD 30602 100, LD 162 100);
    (LI (-1128), LI 686, LD 30907 100, LD 162 100);
    (LI 799, LI (-1218), LD 31821 100, LD 162 100);
    (LI (-1081), LI 1867, LD 30648 100, LD 162 100);
    (LI (-2333), LI 756, LD 2987 10, LD 162 100);
    (LI (-2833), LI (-602), LD 30145 100, LD 162 100);
    (LI 3243, LI (-107), LD 33284 100, LD 162 100);
    (LI (-2823), LI (-1971), LD 30206 100, LD 162 100);
    (LI (-515), LI 3679, LD 30663 100, LD 162 100);
    (LI (-722), LI 4128, LD 30937 100, LD 162 100);
    (LI (-3677), LI (-2236), LD 30023 100, LD 162 100);
    (LI 805, LI (-4232), LD 31547 100, LD 162 100);
    (LI 2244, LI 4038, LD 33162 100, LD 162 100);
    (LI (-1091), LI 4552, LD 30358 100, LD 162 100);
    (LI (-3127), LI (-3688), LD 30114 100, LD 162 100);
    (LI 1357, LI (-4784), LD 32126 100, LD 162 100);
    (LI 3340, LI (-4336), LD 33345 100, LD 162 100);
    (LI 5617, LI 184, LD 33833 100, LD 162 100);
    (LI 4415, LI 3641, LD 33619 100, LD 162 100);
    (LI 6239, LI 423, LD 3426 10, LD 162 100);
    (LI 1157, LI (-6174), LD 32065 100, LD 162 100);
    (LI 5493, LI 3338, LD 34381 100, LD 162 100);
    (LI (-1815), LI (-6173), LD 30693 100, LD 162 100);
    (LI (-3184), LI (-5778), LD 30175 100, LD 162 100);
    (LI 5993, LI 3198, LD 34168 100, LD 162 100);
    (LI 5902, LI (-3423), LD 34229 100, LD 162 100);
    (LI 7262, LI 1039, LD 34442 100, LD 162 100);
    (LI 4196, LI 6022, LD 33528 100, LD 162 100);
    (LI 1359, LI 7822, LD 32827 100, LD 162 100);
    (LI 6332, LI (-6215), LD 34595 100, LD 162 100);
    (LI (-666), LI 9303, LD 3176 10, LD 162 100)] |}.

(** data/basic.py *)
Definition basic : dataset := {|
  d_name := "Basic example"; d_target := 0; d_npaths := 10; d_duration := LD 36525 10; d_nrealizations := 20;
  d_base := LD 0 1; d_c := [LD 15 1; LD 20 1; LD 25 1]; d_p := [LD 2 10]; d_t := [LD 20 1; LD 25 1];
  d_buffer := LI 100; d_spacing := LI 10; d_umbra := LI 20; d_smooth := LI 4; d_confined := true; d_tol := LI 1; d_maxstep := LI 20;
  d_wells := [
    (LI 2250, LI 2250, LD 25 100, [LI 600; LI 750; LI 900]);
    (LI 1750, LI 2750, LD 25 100, [LI 600; LI 750; LI 900])];
  d_obs := [
    (LI 1000, LI 1000, LI 100, LI 2);
    (LI 1000, LI 1500, LI 105, LI 2);
    (LI 1000, LI 2000, LI 110, LI 2);
    (LI 1000, LI 2500, LI 115, LI 2);
    (LI 1000, LI 3000, LI 120, LI 2);
    (LI 1500, LI 1000, LI 95, LI 2);
    (LI 1500, LI 1500, LI 100, LI 2);
    (LI 1500, LI 2000, LI 105, LI 2);
    (LI 1500, LI 2500, LI 110, LI 2);
    (LI 1500, LI 3000, LI 115, LI 2);
    (LI 2000, LI 1000, LI 90, LI 2);
    (LI 2000, LI 1500, LI 95, LI 2);
    (LI 2000, LI 2000, LI 100, LI 2);
    (LI 2000, LI 2500, LI 105, LI 2);
    (LI 2000, LI 3000, LI 110, LI 2);
    (LI 2500, LI 1000, LI 85, LI 2);
    (LI 2500, LI 1500, LI 90, LI 2);
    (LI 2500, LI 2000, LI 95, LI 2);
    (LI 2500, LI 2500, LI 100, LI 2);
    (LI 2500, LI 3000, LI 105, LI 2);
    (LI 3000, LI 1000, LI 80, LI 2);
    (LI 3000, LI 1500, LI 85, LI 2);
    (LI 3000, LI 2000, LI 90, LI 2);
    (LI 3000, LI 2500, LI 95, LI 2);
    (LI 3000, LI 3000, LI 100, LI 2)] |}.

(** data/basic_deterministic.py *)
Definition basic_deterministic : dataset := {|
  d_name := "Basic deterministic example"; d_target := 0; d_npaths := 100; d_duration := LD 36525 10; d_nrealizations := 1;
  d_base := LD 0 1; d_c := [LD 35 1; LD 50 1; LD 75 1]; d_p := [LD 25 100]; d_t := [LD 20 1; LD 25 1];
  d_buffer := LI 100; d_spacing := LI 2; d_umbra := LI 10; d_smooth := LI 4; d_confined := true; d_tol := LI 1; d_maxstep := LI 20;
  d_wells := [
    (LI 2250, LI 2250, LD 25 100, [LI 600; LI 750; LI 900]);
    (LI 1750, LI 2750, LD 25 100, [LI 600; LI 750; LI 900])];
  d_obs := [
    (LI 1000, LI 1000, LI 100, LI 2);
    (LI 1000, LI 1500, LI 105, LI 2);
    (LI 1000, LI 2000, LI 110, LI 2);
    (LI 1000, LI 2500, LI 115, LI 2);
    (LI 1000, LI 3000, LI 120, LI 2);
    (LI 1500, LI 1000, LI 95, LI 2);
    (LI 1500, LI 1500, LI 100, LI 2);
    (LI 1500, LI 2000, LI 105, LI 2);
    (LI 1500, LI 2500, LI 110, LI 2);
    (LI 1500, LI 3000, LI 115, LI 2);
    (LI 2000, LI 1000, LI 90, LI 2);
    (LI 2000, LI 1500, LI 95, LI 2);
    (LI 2000, LI 2000, LI 100, LI 2);
    (LI 2000, LI 2500, LI 105, LI 2);
    (LI 2000, LI 3000, LI 110, LI 2);
    (LI 2500, LI 1000, LI 85, LI 2);
    (LI 2500, LI 1500, LI 90, LI 2);
    (LI 2500, LI 2000, LI 95, LI 2);
    (LI 2500, LI 2500, LI 100, LI 2);
    (LI 2500, LI 3000, LI 105, LI 2);
    (LI 3000, LI 1000, LI 80, LI 2);
    (LI 3000, LI 1500, LI 85, LI 2);
    (LI 3000, LI 2000, LI 90, LI 2);
    (LI 3000, LI 2500, LI 95, LI 2);
    (LI 3000, LI 3000, LI 100, LI 2)] |}.

(** data/carlos.py *)
Definition carlos : dataset := {|
  d_name := "Carlos example"; d_target := 0; d_npaths := 200; d_duration := LD 36525 10; d_nrealizations := 200;
  d_base := LD 0 1; d_c := [LD 1 1; LD 3 1; LD 10 1]; d_p := [LD 2 10; LD 25 100]; d_t := [LI 20; LI 25; LI 30];
  d_buffer := LI 100; d_spacing := LI 2; d_umbra := LI 4; d_smooth := LI 2; d_confined := true; d_tol := LI 1; d_maxstep := LI 10;
  d_wells := [
    (LI 322579, LI 5093431, LD 2 10, [LI 179])];
  d_obs := [
    (LI 324125, LD 5094758 1, LD 413004 1000, LD 16 10);
    (LI 322332, LD 5093693 1, LD 4117848 10000, LD 16 10);
    (LI 322636, LD 5094024 1, LD 4108704 10000, LD 16 10);
    (LI 323438, LD 5092221 1, LD 4191 10, LD 16 10);
    (LI 322474, LD 5092682 1, LD 4157472 10000, LD 16 10);
    (LI 323402, LD 5092650 1, LD 420 1, LD 15 10);
    (LI 324334, LD 5092974 1, LD 423 1, LD 15 10);
    (LI 324201, LD 5092476 1, LD 421 1, LD 15 10);
    (LI 321612, LD 5092354 1, LD 418 1, LD 15 10);
    (LI 321739, LD 5093159 1, LD 414 1, LD 15 10);
    (LI 321820, LD 5093298 1, LD 414 1, LD 15 10);
    (LI 323384, LD 5094353 1, LD 415 1, LD 15 10);
    (LI 323060, LD 5091983 1, LD 423 1, LD 15 10)] |}.

(** data/long_prairie.py *)
Definition long_prairie : dataset := {|
  d_name := "Long Prairie example"; d_target := 0; d_npaths := 200; d_duration := LD 36525 10; d_nrealizations := 200;
  d_base := LD 0 1; d_c := [LD 20 1; LD 25 1; LD 30 1]; d_p := [LD 25 100]; d_t := [LD 10 1; LD 20 1];
  d_buffer := LI 100; d_spacing := LI 5; d_umbra := LI 10; d_smooth := LI 2; d_confined := true; d_tol := LI 1; d_maxstep := LI 20;
  d_wells := [
    (LI 355731, LI 5091141, LD 1524 10000, [LD 109756 100]);
    (LI 356276, LI 5092259, LD 762 10000, [LD 2798 100]);
    (LI 356276, LI 5092259, LD 762 10000, [LD 10053 100]);
    (LI 355796, LI 5091952, LD 762 10000, [LD 1244 100]);
    (LI 355800, LI 5092454, LD 635 10000, [LD 829 100]);
    (LI 356366, LI 5092269, LD 762 10000, [LD 8913 100]);
    (LI 356366, LI 5092269, LD 762 10000, [LD 2487 100]);
    (LI 355674, LI 5091161, LD 2032 10000, [LD 96283 100]);
    (LI 355306, LI 5091163, LD 508 10000, [LD 852 100]);
    (LI 356467, LI 5092921, LD 1016 10000, [LD 27465 100]);
    (LI 355736, LI 5091176, LD 2032 10000, [LD 56381 100])];
  d_obs := [
    (LI 353676, LI 5092700, LD 4002 10, LD 2 1);
    (LI 355056, LI 5092739, LD 3859 10, LD 2 1);
    (LI 353996, LI 5092723, LD 3946 10, LD 2 1);
    (LI 354040, LI 5092723, LD 3939 10, LD 2 1);
    (LI 353745, LI 5092665, LD 4022 10, LD 2 1);
    (LI 355474, LI 5092596, LD 3912 10, LD 2 1);
    (LI 354098, LI 5092694, LD 3953 10, LD 2 1);
    (LI 353957, LI 5092687, LD 3966 10, LD 2 1);
    (LI 353512, LI 5092499, LD 4012 10, LD 2 1);
    (LI 355494, LI 5092570, LD 3935 10, LD 2 1);
    (LI 355810, LI 5092480, LD 3942 10, LD 2 1);
    (LI 357436, LI 5092465, LD 4037 10, LD 2 1);
    (LI 354593, LI 5092404, LD 3929 10, LD 2 1);
    (LI 354613, LI 5092340, LD 3898 10, LD 2 1);
    (LI 356299, LI 5092242, LD 3948 10, LD 2 1);
    (LI 356413, LI 5092268, LD 395 1, LD 2 1);
    (LI 355280, LI 5092210, LD 3938 10, LD 2 1);
    (LI 356896, LI 5092108, LD 3944 10, LD 2 1);
    (LI 356984, LI 5092143, LD 4004 10, LD 2 1);
    (LI 356956, LI 5092055, LD 3933 10, LD 2 1);
    (LI 353664, LI 5092008, LD 4029 10, LD 2 1);
    (LI 355773, LI 5091947, LD 3977 10, LD 2 1);
    (LI 354068, LI 5091785, LD 398 1, LD 2 1);
    (LI 357258, LI 5091739, LD 4017 10, LD 2 1);
    (LI 354322, LI 5091700, LD 4039 10, LD 2 1);
    (LI 357108, LI 5091713, LD 3973 10, LD 2 1);
    (LI 357055, LI 5091589, LD 4023 10, LD 2 1);
    (LI 357269, LI 5091528, LD 4036 10, LD 2 1);
    (LI 357134, LI 5091500, LD 4019 10, LD 2 1);
    (LI 354252, LI 5091329, LD 4006 10, LD 2 1);
    (LI 357348, LI 5091262, LD 3984 10, LD 2 1);
    (LI 354444, LI 5091299, LD 3976 10, LD 2 1);
    (LI 355731, LI 5091141, LD 3948 10, LD 2 1);
    (LI 357970, LI 5091139, LD 4044 10, LD 2 1);
    (LI 355736, LI 5091176, LD 3946 10, LD 2 1);
    (LI 354297, LI 5091170, LD 3992 10, LD 2 1);
    (LI 355306, LI 5091163, LD 3951 10, LD 2 1);
    (LI 355674, LI 5091161, LD 3944 10, LD 2 1);
    (LI 357429, LI 5091234, LD 3999 10, LD 2 1);
    (LI 356099, LI 5090755, LD 3934 10, LD 2 1);
    (LI 356079, LI 5090655, LD 3927 10, LD 2 1);
    (LI 356108, LI 5090698, LD 3937 10, LD 2 1);
    (LI 356108, LI 5090700, LD 3971 10, LD 2 1);
    (LI 356088, LI 5090659, LD 3928 10, LD 2 1);
    (LI 356747, LI 5090656, LD 3979 10, LD 2 1);
    (LI 356253, LI 5090481, LD 399 1, LD 2 1);
    (LI 357783, LI 5090485, LD 401 1, LD 2 1);
    (LI 355945, LI 5090333, LD 3932 10, LD 2 1);
    (LI 356308, LI 5090204, LD 3999 10, LD 2 1);
    (LI 358419, LI 5090200, LD 3995 10, LD 2 1);
    (LI 354335, LI 5090043, LD 3999 10, LD 2 1);
    (LI 356466, LI 5090007, LD 4014 10, LD 2 1);
    (LI 353569, LI 5089997, LD 4157 10, LD 2 1);
    (LI 356274, LI 5090073, LD 3988 10, LD 2 1);
    (LI 356502, LI 5089983, LD 3946 10, LD 2 1);
    (LI 355175, LI 5089923, LD 3943 10, LD 2 1);
    (LI 355324, LI 5089757, LD 3965 10, LD 2 1);
    (LI 355379, LI 5089050, LD 3924 10, LD 2 1);
    (LI 355326, LI 5089115, LD 3967 10, LD 2 1);
    (LI 354864, LI 5088290, LD 3972 10, LD 2 1);
    (LI 355249, LI 5088248, LD 3971 10, LD 2 1)] |}.

(** data/paynesville.py *)
Definition paynesville : dataset := {|
  d_name := "Paynesville example"; d_target := 0; d_npaths := 200; d_duration := LD 36525 10; d_nrealizations := 200;
  d_base := LD 0 1; d_c := [LD 10 1; LD 20 1; LD 40 1]; d_p := [LD 25 100]; d_t := [LD 5 1; LD 10 1];
  d_buffer := LI 100; d_spacing := LI 2; d_umbra := LI 4; d_smooth := LI 2; d_confined := true; d_tol := LI 1; d_maxstep := LI 10;
  d_wells := [
    (LD 366156 1, LD 5026806 1, LD 2 10, [LD 500 1]);
    (LD 366631 1, LD 5026508 1, LD 2 10, [LD 500 1]);
    (LD 366745 1, LD 5026484 1, LD 2 10, [LD 500 1]);
    (LD 366668 1, LD 5026216 1, LD 2 10, [LD 500 1]);
    (LD 365543 1, LD 5025752 1, LD 2 10, [LD 500 1])];
  d_obs := [
    (LD 365186 1, LD 5020576 1, LD 34229 100, LD 162 100);
    (LD 363456 1, LD 5034924 1, LD 38039 100, LD 162 100);
    (LD 370197 1, LD 5018014 1, LD 34229 100, LD 162 100);
    (LD 374033 1, LD 5022942 1, LD 35662 100, LD 162 100);
    (LD 372921 1, LD 5029544 1, LD 35326 100, LD 162 100);
    (LD 373731 1, LD 5027679 1, LD 34625 100, LD 162 100);
    (LD 371995 1, LD 5022062 1, LD 35723 100, LD 162 100);
    (LD 369825 1, LD 5030209 1, LD 35448 100, LD 162 100);
    (LD 366984 1, LD 5019300 1, LD 33833 100, LD 162 100);
    (LD 367127 1, LD 5019275 1, LD 33894 100, LD 162 100);
    (LD 360058 1, LD 5028884 1, LD 38222 100, LD 162 100);
    (LD 373852 1, LD 5017677 1, LD 35723 100, LD 162 100);
    (LD 371940 1, LD 5028486 1, LD 35204 100, LD 162 100);
    (LD 363526 1, LD 5030240 1, LD 3685 10, LD 162 100);
    (LD 365477 1, LD 5029387 1, LD 35753 100, LD 162 100);
    (LD 365451 1, LD 5029303 1, LD 35784 100, LD 162 100);
    (LD 371333 1, LD 5019767 1, LD 35662 100, LD 162 100);
    (LD 365309 1, LD 5032485 1, LD 37399 100, LD 162 100);
    (LD 371811 1, LD 5031344 1, LD 36576 100, LD 162 100);
    (LD 368090 1, LD 5034180 1, LD 36119 100, LD 162 100);
    (LD 365168 1, LD 5029061 1, LD 35387 100, LD 162 100);
    (LD 373895 1, LD 5024841 1, LD 3525 10, LD 162 100);
    (LD 369193 1, LD 5027743 1, LD 35509 100, LD 162 100);
    (LD 360082 1, LD 5018527 1, LD 35692 100, LD 162 100);
    (LD 372345 1, LD 5032473 1, LD 3493 10, LD 162 100);
    (LD 363671 1, LD 5027786 1, LD 36088 100, LD 162 100);
    (LD 363341 1, LD 5020077 1, LD 35265 100, LD 162 100);
    (LD 359412 1, LD 5027927 1, LD 36241 100, LD 162 100);
    (LD 372544 1, LD 5020332 1, LD 3618 10, LD 162 100);
    (LD 373783 1, LD 5028527 1, LD 34991 100, LD 162 100);
    (LD 367637 1, LD 5024955 1, LD 35022 100, LD 162 100);
    (LD 373443 1, LD 5021072 1, LD 34747 100, LD 162 100);
    (LD 373578 1, LD 5034330 1, LD 36393 100, LD 162 100);
    (LD 372670 1, LD 5020450 1, LD 35662 100, LD 162 100);
    (LD 371816 1, LD 5026466 1, LD 34412 100, LD 162 100);
    (LD 365249 1, LD 5023977 1, LD 34412 100, LD 162 100);
    (LD 373913 1, LD 5028349 1, LD 34351 100, LD 162 100);
    (LD 374057 1, LD 5023969 1, LD 35784 100, LD 162 100);
    (LD 374619 1, LD 5020432 1, LD 35448 100, LD 162 100);
    (LD 372304 1, LD 5032073 1, LD 35204 100, LD 162 100);
    (LD 374389 1, LD 5033776 1, LD 33985 100, LD 162 100);
    (LD 363231 1, LD 5031480 1, LD 37887 100, LD 162 100);
    (LD 364977 1, LD 5020729 1, LD 349 1, LD 162 100);
    (LD 363924 1, LD 5022765 1, LD 35631 100, LD 162 100);
    (LD 367662 1, LD 5021853 1, LD 34229 100, LD 162 100);
    (LD 369309 1, LD 5034925 1, LD 36119 100, LD 162 100);
    (LD 367645 1, LD 5025180 1, LD 34747 100, LD 162 100);
    (LD 367785 1, LD 5031876 1, LD 35905 100, LD 162 100);
    (LD 366770 1, LD 5025795 1, LD 35418 100, LD 162 100);
    (LD 367690 1, LD 5027172 1, LD 34686 100, LD 162 100);
    (LD 372394 1, LD 5025293 1, LD 34473 100, LD 162 100);
    (LD 365360 1, LD 5034882 1, LD 38161 100, LD 162 100);
    (LD 362797 1, LD 5021507 1, LD 3432 10, LD 162 100);
    (LD 364000 1, LD 5031844 1, LD 38222 100, LD 162 100);
    (LD 366974 1, LD 5025742 1, LD 35357 100, LD 162 100);
    (LD 366621 1, LD 5023616 1, LD 34534 100, LD 162 100);
    (LD 366405 1, LD 5024471 1, LD 34747 100, LD 162 100);
    (LD 365833 1, LD 5025559 1, LD 35296 100, LD 162 100);
    (LD 368037 1, LD 5022654 1, LD 3493 10, LD 162 100);
    (LD 360277 1, LD 5021333 1, LD 36119 100, LD 162 100);
    (LD 358791 1, LD 5027009 1, LD 36058 100, LD 162 100);
    (LD 361495 1, LD 5024973 1, LD 36363 100, LD 162 100);
    (LD 359005 1, LD 5023784 1, LD 34503 100, LD 162 100);
    (LD 359006 1, LD 5023783 1, LD 34534 100, LD 162 100);
    (LD 359197 1, LD 5022266 1, LD 37338 100, LD 162 100);
    (LD 360263 1, LD 5017479 1, LD 35723 100, LD 162 100);
    (LD 366464 1, LD 5018229 1, LD 34961 100, LD 162 100);
    (LD 367845 1, LD 5017169 1, LD 3429 10, LD 162 100);
    (LD 374594 1, LD 5019934 1, LD 3554 10, LD 162 100);
    (LD 364283 1, LD 5027951 1, LD 35692 100, LD 162 100);
    (LD 372937 1, LD 5029704 1, LD 35509 100, LD 162 100);
    (LD 366172 1, LD 5026822 1, LD 35357 100, LD 162 100);
    (LD 363861 1, LD 5025494 1, LD 35662 100, LD 162 100);
    (LD 365879 1, LD 5026734 1, LD 35113 100, LD 162 100);
    (LD 366689 1, LD 5031359 1, LD 35997 100, LD 162 100);
    (LD 365026 1, LD 5022709 1, LD 3429 10, LD 162 100);
    (LD 370747 1, LD 5028983 1, LD 35905 100, LD 162 100);
    (LD 361876 1, LD 5032387 1, LD 38191 100, LD 162 100);
    (LD 372073 1, LD 5024872 1, LD 34138 100, LD 162 100);
    (LD 373581 1, LD 5031050 1, LD 36119 100, LD 162 100);
    (LD 372501 1, LD 5023557 1, LD 35113 100, LD 162 100);
    (LD 371741 1, LD 5025469 1, LD 3426 10, LD 162 100);
    (LD 374686 1, LD 5024443 1, LD 35601 100, LD 162 100);
    (LD 374025 1, LD 5025828 1, LD 34717 100, LD 162 100);
    (LD 365854 1, LD 5026958 1, LD 34991 100, LD 162 100);
    (LD 366964 1, LD 5025710 1, LD 35326 100, LD 162 100);
    (LD 365278 1, LD 5030798 1, LD 35997 100, LD 162 100);
    (LD 368710 1, LD 5023935 1, LD 35022 100, LD 162 100);
    (LD 365981 1, LD 5026141 1, LD 35113 100, LD 162 100);
    (LD 372142 1, LD 5024051 1, LD 34991 100, LD 162 100);
    (LD 361972 1, LD 5022813 1, LD 37368 100, LD 162 100);
    (LD 366716 1, LD 5024293 1, LD 35509 100, LD 162 100);
    (LD 373960 1, LD 5023621 1, LD 3557 10, LD 162 100);
    (LD 364473 1, LD 5027876 1, LD 35631 100, LD 162 100);
    (LD 371179 1, LD 5023338 1, LD 35143 100, LD 162 100);
    (LD 367091 1, LD 5022584 1, LD 33985 100, LD 162 100);
    (LD 363812 1, LD 5024914 1, LD 3621 10, LD 162 100);
    (LD 366759 1, LD 5023623 1, LD 35022 100, LD 162 100);
    (LD 371776 1, LD 5026409 1, LD 34199 100, LD 162 100);
    (LD 372530 1, LD 5024313 1, LD 3368 10, LD 162 100);
    (LD 365401 1, LD 5023786 1, LD 35265 100, LD 162 100);
    (LD 359198 1, LD 5030616 1, LD 39106 100, LD 162 100);
    (LD 367773 1, LD 5022945 1, LD 34869 100, LD 162 100);
    (LD 362593 1, LD 5026251 1, LD 35601 100, LD 162 100);
    (LD 371896 1, LD 5022055 1, LD 35784 100, LD 162 100);
    (LD 371824 1, LD 5026520 1, LD 3429 10, LD 162 100);
    (LD 372246 1, LD 5025100 1, LD 3426 10, LD 162 100);
    (LD 374000 1, LD 5021545 1, LD 35875 100, LD 162 100);
    (LD 365787 1, LD 5024901 1, LD 3554 10, LD 162 100);
    (LD 363926 1, LD 5021007 1, LD 35326 100, LD 162 100);
    (LD 366109 1, LD 5023846 1, LD 3426 10, LD 162 100);
    (LD 364204 1, LD 5025019 1, LD 35418 100, LD 162 100);
    (LD 366379 1, LD 5025720 1, LD 34961 100, LD 162 100);
    (LD 365465 1, LD 5023968 1, LD 34686 100, LD 162 100);
    (LD 367355 1, LD 5023832 1, LD 34412 100, LD 162 100);
    (LD 371677 1, LD 5031728 1, LD 35784 100, LD 162 100);
    (LD 365201 1, LD 5020710 1, LD 3432 10, LD 162 100);
    (LD 371544 1, LD 5027255 1, LD 35296 100, LD 162 100);
    (LD 364578 1, LD 5026839 1, LD 35022 100, LD 162 100);
    (LD 366799 1, LD 5025752 1, LD 35357 100, LD 162 100);
    (LD 365347 1, LD 5025826 1, LD 35265 100, LD 162 100);
    (LD 374555 1, LD 5030000 1, LD 35235 100, LD 162 100);
    (LD 374699 1, LD 5025680 1, LD 34747 100, LD 162 100);
    (LD 365716 1, LD 5025646 1, LD 35357 100, LD 162 100);
    (LD 368860 1, LD 5021091 1, LD 34473 100, LD 162 100);
    (LD 366180 1, LD 5024000 1, LD 34991 100, LD 162 100);
    (LD 362789 1, LD 5033414 1, LD 37643 100, LD 162 100);
    (LD 366936 1, LD 5023543 1, LD 34991 100, LD 162 100);
    (LD 366900 1, LD 5032532 1, LD 35875 100, LD 162 100);
    (LD 368422 1, LD 5033495 1, LD 35662 100, LD 162 100);
    (LD 363532 1, LD 5023097 1, LD 35875 100, LD 162 100);
    (LD 373424 1, LD 5033799 1, LD 34442 100, LD 162 100);
    (LD 371797 1, LD 5027455 1, LD 35509 100, LD 162 100);
    (LD 366815 1, LD 5023479 1, LD 34351 100, LD 162 100);
    (LD 363359 1, LD 5021609 1, LD 34839 100, LD 162 100);
    (LD 367219 1, LD 5025346 1, LD 3493 10, LD 162 100);
    (LD 371923 1, LD 5025267 1, LD 34199 100, LD 162 100);
    (LD 372012 1, LD 5025277 1, LD 34199 100, LD 162 100);
    (LD 372126 1, LD 5025348 1, LD 33955 100, LD 162 100);
    (LD 367004 1, LD 5025839 1, LD 35204 100, LD 162 100);
    (LD 364001 1, LD 5022536 1, LD 35113 100, LD 162 100);
    (LD 372892 1, LD 5024342 1, LD 35204 100, LD 162 100);
    (LD 364755 1, LD 5025524 1, LD 35387 100, LD 162 100);
    (LD 366090 1, LD 5024096 1, LD 34381 100, LD 162 100);
    (LD 364841 1, LD 5022701 1, LD 34747 100, LD 162 100);
    (LD 370051 1, LD 5028420 1, LD 35509 100, LD 162 100);
    (LD 365969 1, LD 5027419 1, LD 35296 100, LD 162 100);
    (LD 365963 1, LD 5027705 1, LD 35204 100, LD 162 100);
    (LD 365514 1, LD 5024923 1, LD 35662 100, LD 162 100);
    (LD 370990 1, LD 5026808 1, LD 35204 100, LD 162 100);
    (LD 369756 1, LD 5033786 1, LD 35509 100, LD 162 100);
    (LD 372214 1, LD 5024058 1, LD 34412 100, LD 162 100);
    (LD 363106 1, LD 5021038 1, LD 34595 100, LD 162 100);
    (LD 366911 1, LD 5032100 1, LD 35814 100, LD 162 100);
    (LD 367708 1, LD 5023246 1, LD 3493 10, LD 162 100);
    (LD 368607 1, LD 5021390 1, LD 33406 100, LD 162 100);
    (LD 374177 1, LD 5025723 1, LD 34869 100, LD 162 100);
    (LD 366196 1, LD 5027033 1, LD 34839 100, LD 162 100);
    (LD 366772 1, LD 5025858 1, LD 35418 100, LD 162 100);
    (LD 366548 1, LD 5029548 1, LD 3557 10, LD 162 100);
    (LD 365858 1, LD 5025176 1, LD 35418 100, LD 162 100);
    (LD 366291 1, LD 5024126 1, LD 34778 100, LD 162 100);
    (LD 359954 1, LD 5033896 1, LD 38649 100, LD 162 100);
    (LD 371785 1, LD 5029728 1, LD 35601 100, LD 162 100);
    (LD 371481 1, LD 5024125 1, LD 34016 100, LD 162 100);
    (LD 373358 1, LD 5023356 1, LD 35479 100, LD 162 100);
    (LD 372682 1, LD 5023650 1, LD 35204 100, LD 162 100);
    (LD 367108 1, LD 5027078 1, LD 34442 100, LD 162 100);
    (LD 366645 1, LD 5025633 1, LD 35326 100, LD 162 100);
    (LD 363400 1, LD 5023222 1, LD 36515 100, LD 162 100);
    (LD 367371 1, LD 5021836 1, LD 34442 100, LD 162 100);
    (LD 363577 1, LD 5024754 1, LD 35631 100, LD 162 100);
    (LD 371522 1, LD 5024925 1, LD 34503 100, LD 162 100);
    (LD 369420 1, LD 5028019 1, LD 35082 100, LD 162 100);
    (LD 363721 1, LD 5026973 1, LD 35235 100, LD 162 100);
    (LD 365744 1, LD 5023801 1, LD 3493 10, LD 162 100);
    (LD 371665 1, LD 5025548 1, LD 33802 100, LD 162 100);
    (LD 373390 1, LD 5024663 1, LD 35265 100, LD 162 100);
    (LD 362892 1, LD 5021458 1, LD 34717 100, LD 162 100);
    (LD 370074 1, LD 5025817 1, LD 34412 100, LD 162 100);
    (LD 369952 1, LD 5028609 1, LD 35692 100, LD 162 100);
    (LD 368213 1, LD 5034223 1, LD 36027 100, LD 162 100);
    (LD 368402 1, LD 5024156 1, LD 35326 100, LD 162 100);
    (LD 362879 1, LD 5027866 1, LD 35814 100, LD 162 100);
    (LD 370502 1, LD 5030321 1, LD 35387 100, LD 162 100);
    (LD 363192 1, LD 5020865 1, LD 36789 100, LD 162 100);
    (LD 365069 1, LD 5020722 1, LD 34686 100, LD 162 100);
    (LD 371659 1, LD 5024034 1, LD 34168 100, LD 162 100);
    (LD 365326 1, LD 5023815 1, LD 34351 100, LD 162 100);
    (LD 368888 1, LD 5023682 1, LD 35204 100, LD 162 100);
    (LD 365373 1, LD 5024920 1, LD 35265 100, LD 162 100);
    (LD 372415 1, LD 5034551 1, LD 36058 100, LD 162 100);
    (LD 374026 1, LD 5030824 1, LD 35448 100, LD 162 100);
    (LD 371593 1, LD 5023708 1, LD 34564 100, LD 162 100);
    (LD 374023 1, LD 5029532 1, LD 35326 100, LD 162 100);
    (LD 374708 1, LD 5028950 1, LD 34473 100, LD 162 100);
    (LD 360793 1, LD 5033952 1, LD 38405 100, LD 162 100);
    (LD 371742 1, LD 5025544 1, LD 34046 100, LD 162 100);
    (LD 371370 1, LD 5024888 1, LD 34351 100, LD 162 100);
    (LD 363777 1, LD 5029947 1, LD 36911 100, LD 162 100);
    (LD 371750 1, LD 5025580 1, LD 34107 100, LD 162 100);
    (LD 372991 1, LD 5024368 1, LD 35022 100, LD 162 100);
    (LD 366886 1, LD 5026040 1, LD 35204 100, LD 162 100);
    (LD 366745 1, LD 5026484 1, LD 35082 100, LD 162 100);
    (LD 366631 1, LD 5026508 1, LD 35143 100, LD 162 100);
    (LD 367954 1, LD 5027402 1, LD 34747 100, LD 162 100);
    (LD 374538 1, LD 5021701 1, LD 35509 100, LD 162 100);
    (LD 366045 1, LD 5024802 1, LD 34778 100, LD 162 100);
    (LD 371197 1, LD 5023498 1, LD 35296 100, LD 162 100);
    (LD 362456 1, LD 5021394 1, LD 34656 100, LD 162 100);
    (LD 371603 1, LD 5025830 1, LD 33619 100, LD 162 100);
    (LD 365265 1, LD 5026040 1, LD 35235 100, LD 162 100)] |}.

(** data/perham.py *)
Definition perham : dataset := {|
  d_name := "Perham example"; d_target := 0; d_npaths := 200; d_duration := LD 36525 10; d_nrealizations := 200;
  d_base := LD 0 1; d_c := [LD 12 1; LD 65 1; LD 120 1]; d_p := [LD 2 10; LD 25 100]; d_t := [LI 10; LI 20; LI 30];
  d_buffer := LI 100; d_spacing := LI 4; d_umbra := LI 8; d_smooth := LI 2; d_confined := true; d_tol := LI 1; d_maxstep := LI 10;
  d_wells := [
    (LI 302338, LI 5162551, LD 2 10, [LI 1372]);
    (LI 302320, LI 5162497, LD 2 10, [LI 914]);
    (LI 303063, LI 5163421, LD 2 10, [LI 321]);
    (LI 303076, LI 5163430, LD 2 10, [LI 288]);
    (LI 303371, LI 5165863, LI 1, [LD 2377 10]);
    (LI 298697, LI 5165187, LI 1, [LD 2649 10]);
    (LI 303496, LI 5165806, LI 1, [LD 25369 100]);
    (LI 302519, LI 5161144, LI 1, [LD 43575 100]);
    (LI 303216, LI 5160419, LI 1, [LD 34379 100]);
    (LI 297985, LI 5162970, LI 1, [LD 34399 100]);
    (LI 300129, LI 5162793, LI 1, [LD 43617 100]);
    (LI 300764, LI 5164436, LI 1, [LD 29666 100]);
    (LI 301424, LI 5163588, LI 1, [LD 28483 100]);
    (LI 300725, LI 5162217, LI 1, [LD 40274 100]);
    (LI 298294, LI 5160592, LI 1, [LD 20822 100]);
    (LI 301920, LI 5165290, LI 1, [LD 27528 100]);
    (LI 299946, LI 5164412, LI 1, [LD 22068 100]);
    (LI 303554, LI 5161918, LI 1, [LD 32988 100]);
    (LI 299031, LI 5164454, LI 1, [LD 34918 100]);
    (LI 299594, LI 5166936, LI 1, [LD 26946 100]);
    (LI 303217, LI 5163200, LI 1, [LD 74757 100]);
    (LI 304120, LI 5165050, LI 1, [LD 41499 100]);
    (LI 301376, LI 5163584, LI 1, [LD 31576 100]);
    (LI 299977, LI 5163625, LI 1, [LD 35354 100]);
    (LI 303269, LI 5163114, LI 1, [LD 170274 100]);
    (LI 298417, LI 5166145, LI 1, [LD 26095 100]);
    (LI 300835, LI 5166454, LI 1, [LD 28192 100]);
    (LI 301781, LI 5165652, LI 1, [LD 26407 100]);
    (LI 301545, LI 5162789, LI 1, [LD 52606 100])];
  d_obs := [
    (LI 301201, LD 5166890 1, LI 406, LD 162 100);
    (LI 301340, LD 5166470 1, LI 406, LD 162 100);
    (LI 301853, LD 5166320 1, LI 407, LD 162 100);
    (LI 302227, LD 5166530 1, LI 406, LD 162 100);
    (LI 302768, LD 5166590 1, LI 406, LD 162 100);
    (LI 303226, LD 5166460 1, LI 406, LD 162 100);
    (LI 303822, LD 5166130 1, LI 406, LD 162 100);
    (LI 304654, LD 5166350 1, LI 406, LD 162 100);
    (LI 305305, LD 5166670 1, LI 406, LD 162 100);
    (LI 306928, LD 5166520 1, LI 405, LD 162 100);
    (LI 306914, LD 5165740 1, LI 405, LD 162 100);
    (LI 307039, LD 5165230 1, LI 405, LD 162 100);
    (LI 307122, LD 5164450 1, LI 405, LD 162 100);
    (LI 307580, LD 5163850 1, LI 405, LD 162 100);
    (LI 307829, LD 5163410 1, LI 405, LD 162 100);
    (LI 308384, LD 5162980 1, LI 405, LD 162 100);
    (LI 308883, LD 5162370 1, LI 405, LD 162 100);
    (LI 309354, LD 5162130 1, LI 405, LD 162 100);
    (LI 307344, LD 5162470 1, LI 405, LD 162 100);
    (LI 305916, LD 5162550 1, LI 405, LD 162 100);
    (LI 306734, LD 5162360 1, LI 405, LD 162 100);
    (LI 305652, LD 5162050 1, LI 405, LD 162 100);
    (LI 305333, LD 5161840 1, LI 405, LD 162 100);
    (LI 305389, LD 5161460 1, LI 405, LD 162 100);
    (LI 305208, LD 5161180 1, LI 405, LD 162 100);
    (LI 305472, LD 5160800 1, LI 405, LD 162 100);
    (LI 305569, LD 5160320 1, LI 408, LD 162 100);
    (LI 305070, LD 5160150 1, LI 405, LD 162 100);
    (LI 305472, LD 5159740 1, LI 404, LD 162 100);
    (LI 305486, LD 5158820 1, LI 403, LD 162 100);
    (LI 305305, LD 5158490 1, LI 403, LD 162 100);
    (LI 305597, LD 5157840 1, LI 403, LD 162 100);
    (LI 306512, LD 5156640 1, LI 405, LD 162 100);
    (LI 305819, LD 5156780 1, LI 405, LD 162 100);
    (LI 306054, LD 5155800 1, LI 404, LD 162 100);
    (LI 306567, LD 5154510 1, LI 405, LD 162 100);
    (LI 306484, LD 5153020 1, LI 403, LD 162 100);
    (LI 305819, LD 5153220 1, LI 403, LD 162 100);
    (LI 305347, LD 5153220 1, LI 403, LD 162 100);
    (LI 304584, LD 5153120 1, LI 403, LD 162 100);
    (LI 304099, LD 5152830 1, LI 403, LD 162 100);
    (LI 303655, LD 5152680 1, LI 403, LD 162 100);
    (LI 303517, LD 5153480 1, LI 404, LD 162 100);
    (LI 302435, LD 5153830 1, LI 406, LD 162 100);
    (LI 301548, LD 5154090 1, LI 408, LD 162 100);
    (LI 300674, LD 5154590 1, LI 406, LD 162 100);
    (LI 300092, LD 5154550 1, LI 406, LD 162 100);
    (LI 298816, LD 5154740 1, LI 406, LD 162 100);
    (LI 298192, LD 5156130 1, LI 406, LD 162 100);
    (LI 297859, LD 5157170 1, LI 406, LD 162 100);
    (LI 296889, LD 5157340 1, LI 406, LD 162 100);
    (LI 295876, LD 5156980 1, LI 406, LD 162 100);
    (LI 294698, LD 5157030 1, LI 406, LD 162 100);
    (LI 294088, LD 5157000 1, LI 406, LD 162 100);
    (LI 292867, LD 5156800 1, LI 406, LD 162 100);
    (LI 292743, LD 5156230 1, LI 406, LD 162 100);
    (LI 294115, LD 5160000 1, LI 412, LD 162 100);
    (LI 293270, LD 5160140 1, LI 412, LD 162 100);
    (LI 292729, LD 5160620 1, LI 412, LD 162 100);
    (LI 296098, LD 5160260 1, LI 420, LD 162 100);
    (LI 291994, LD 5158030 1, LI 411, LD 162 100);
    (LI 289983, LD 5159890 1, LI 412, LD 162 100);
    (LI 289650, LD 5160890 1, LI 412, LD 162 100);
    (LI 290080, LD 5161930 1, LI 412, LD 162 100);
    (LI 289942, LD 5162990 1, LI 412, LD 162 100);
    (LI 290261, LD 5163540 1, LI 412, LD 162 100);
    (LI 292119, LD 5162230 1, LI 412, LD 162 100);
    (LI 291786, LD 5160710 1, LI 412, LD 162 100);
    (LI 290774, LD 5160970 1, LI 412, LD 162 100);
    (LI 291231, LD 5159610 1, LI 412, LD 162 100);
    (LI 291009, LD 5162160 1, LI 412, LD 162 100);
    (LI 291467, LD 5162900 1, LI 412, LD 162 100);
    (LI 293020, LD 5163380 1, LI 412, LD 162 100);
    (LI 293547, LD 5164130 1, LI 412, LD 162 100);
    (LI 293200, LD 5163690 1, LI 412, LD 162 100);
    (LI 292202, LD 5165050 1, LI 412, LD 162 100);
    (LI 293186, LD 5164920 1, LI 412, LD 162 100);
    (LI 294115, LD 5165320 1, LI 412, LD 162 100);
    (LI 294393, LD 5165780 1, LI 412, LD 162 100);
    (LI 294462, LD 5164740 1, LI 412, LD 162 100);
    (LI 294781, LD 5165090 1, LI 412, LD 162 100);
    (LI 295225, LD 5165210 1, LI 412, LD 162 100);
    (LI 296126, LD 5165230 1, LI 411, LD 162 100);
    (LI 294809, LD 5164330 1, LI 412, LD 162 100);
    (LI 295349, LD 5163990 1, LI 412, LD 162 100);
    (LI 295668, LD 5163590 1, LI 413, LD 162 100);
    (LI 296445, LD 5163310 1, LI 417, LD 162 100);
    (LI 296459, LD 5163740 1, LI 414, LD 162 100);
    (LI 296223, LD 5166700 1, LI 411, LD 162 100);
    (LI 296750, LD 5167080 1, LI 411, LD 162 100);
    (LI 297305, LD 5167220 1, LI 411, LD 162 100);
    (LI 296833, LD 5166320 1, LI 411, LD 162 100);
    (LI 298830, LD 5166770 1, LI 409, LD 162 100);
    (LI 300217, LD 5166560 1, LI 410, LD 162 100);
    (LI 303900, LD 5161060 1, LI 411, LD 162 100);
    (LI 304112, LD 5161210 1, LI 411, LD 162 100);
    (LI 300725, LD 5162690 1, LI 409, LD 162 100);
    (LI 301252, LD 5162110 1, LI 410, LD 162 100);
    (LI 301558, LD 5161880 1, LI 410, LD 162 100);
    (LI 300508, LD 5161780 1, LI 415, LD 162 100);
    (LI 299837, LD 5162440 1, LI 415, LD 162 100);
    (LI 300586, LD 5163130 1, LI 409, LD 162 100)] |}.

Definition shipped : list dataset := [barnesville; basic; basic_deterministic; carlos; long_prairie; paynesville; perham].
