(** * Properties: array programs with any operands follow a reference interpreter in
    both build profiles (C87). *)

From Verif Require Import Base Bv Map Array Spec CallSpec ArraySpec KindSpec UnwindSpec ArrayInterpSpec RawArraySpec
  PRawInterp.
From Verif Require PArrays.
Import PArrays(some_probe).

(** C87: Whatever the widths and the unused bits of the operands, every call of every
    program does what the interpreter says, in both build profiles and whatever the
    hash tables do. *)
Theorem C87_programs : forall probe ho order m cs os, reorders ho -> reorders order ->
  Forall raw_range cs -> raw_predict m cs = Some os ->
  perform probe ho order m cs = os.
Proof. exact raw_perform_ok. Qed.
Print Assumptions C87_programs.

(** C87: The interpreter knows the result unless the program wrote to an element
    beyond [2 ^ 32]. *)
Theorem C87_known : forall m cs, Forall raw_range cs -> Forall low_call cs ->
  exists os, raw_predict m cs = Some os.
Proof. exact raw_predict_known. Qed.
Print Assumptions C87_known.

(** C87: On valid operands in a debug build, it is the interpreter of C82. *)
Theorem C87_agrees : forall cs os, Forall raw_range cs -> Forall acall_range cs ->
  raw_predict Debug cs = Some os -> os = predict cs.
Proof. exact raw_predict_agrees. Qed.
Print Assumptions C87_agrees.

(** Release builds cut dense elements when reading, accept indices and elements of any
    width, keep the width of wide sparse elements and let positions wrap around. *)
Example C87_example :
  let i n := bv_of 3 n in
  let x n := bv_of 5 n in
  let cs := [New 0 (NewDense 3 (x 9)); Change 0 (Store (i 2) (x 255)); Select 0 (i 2); Select 0 (bv_of 70 1);
             Change 0 (Store (i 8) (x 1)); Change 0 (Store (i 4) (bv_of 80 (2 ^ 70)));
             Change 0 (Store (i 4) (bv_of 80 1000)); Select 0 (i 4);
             New 1 (NewSparse 3 (x 9)); Change 1 (Store (i 2) (x 255)); Change 1 (Store (i 4) (bv_of 80 1000));
             Compare 0 1; Change 1 (Store (bv_of 30 9) (x 1)); Select 1 (bv_of 9 9); Compare 0 1; Reload 1;
             New 2 (NewSparse 2 (bv_of 70 (2 ^ 66))); Change 2 (Store (bv_of 2 1) (bv_of 80 (2 ^ 79 + 1)));
             Select 2 (bv_of 2 1); Change 2 (Store (bv_of 2 2) (bv_of 8 0)); Select 2 (bv_of 2 2);
             Change 2 MakeDense; Select 2 (bv_of 2 1); Change 2 (Store (bv_of 2 2) (bv_of 8 1));
             Change 2 (Store (bv_of 64 (2 ^ 63 + 2)) (bv_of 128 1)); Select 2 (bv_of 2 2);
             New 3 (NewSparse 5 (bv_of 1 1)); Change 3 (Store (bv_of 5 7) (bv_of 1 3)); Change 3 MakeDense;
             Describe 3; Select 3 (bv_of 5 7); Select 3 (bv_of 50 60)] in
  Forall raw_range cs
  /\ raw_predict Release cs = Some
     [Done; Done; Saw (x 31); Saw (x 9);
      Panicked; Panicked;
      Done; Saw (x 8);
      Done; Done; Done;
      Answered (Some true); Done; Saw (x 1); Panicked; Done;
      Done; Done;
      Saw (bv_of 80 (2 ^ 79 + 1)); Done; Saw (bv_of 70 (2 ^ 66));
      Done; Saw (bv_of 70 (2 ^ 79 + 1)); Panicked;
      Done; Saw (bv_of 70 1);
      Done; Done; Done;
      Described true 5 1; Saw (bv_of 1 0); Saw (bv_of 1 0)]
  /\ raw_predict Debug cs = Some
     [Done; Done; Panicked; Panicked;
      Panicked; Panicked;
      Panicked; Saw (x 9);
      Done; Done; Panicked;
      Answered (Some true); Panicked; Panicked; Answered (Some true); Done;
      Done; Panicked;
      Saw (bv_of 70 (2 ^ 66)); Panicked; Saw (bv_of 70 (2 ^ 66));
      Done; Saw (bv_of 70 (2 ^ 66)); Panicked;
      Panicked; Saw (bv_of 70 (2 ^ 66));
      Done; Done; Panicked;
      Described false 5 1; Panicked; Panicked]
  /\ Some (perform some_probe (fun _ l => rev l) (fun _ l => l) Release cs) = raw_predict Release cs.
Proof. exact raw_array_example. Qed.
