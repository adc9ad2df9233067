(** * Properties: programs over the whole library follow a reference interpreter in both
    build profiles (C88). *)

From Verif Require Import Base Bv Map Array Spec ArraySpec CallSpec PanicSpec DirtySpec KindSpec AnswerSpec.
From Verif Require ArrayInterpSpec BvInterpSpec.
Import BvInterpSpec(Make, Update, Inspect, Done, Panicked, Missing, Says, Tells, ISetBit, IAssign).
From Verif Require Import WholeSpec FullSpec PArrays PFull.

(** C88: Every program over bit-vectors, arrays and handles for which the interpreter has
    a prediction does exactly what is predicted, call by call, in both build profiles. *)
Theorem C88_programs : forall probe ho order m cs os, reorders ho -> reorders order ->
  Forall fcall_range cs -> fpredict m cs = Some os -> wperform probe ho order m cs = os.
Proof. exact fperform_ok. Qed.
Print Assumptions C88_programs.

(** C88: Where the interpreter of C85 has a prediction too, it is the same. *)
Theorem C88_agrees : forall cs os os', Forall fcall_range cs -> Forall wcall_range cs ->
  fpredict Debug cs = Some os -> wpredict cs = Some os' -> os = os'.
Proof. exact fpredict_agrees. Qed.
Print Assumptions C88_agrees.

(** In a release build an 8-bit value of 300 is 44, ten bits fit an 8-bit element but
    are read back as eight, bit 12 of a ten-bit value gets lost in an array and stays
    in the interner, a wide sparse array takes an 8-bit element, and width 0 can be
    interned but is not the constant 0. *)
Example C88_example :
  let cs := [OnVector (Make 0 (KFromU64 300 8)); OnVector (Make 1 (KFromU64 1023 10)); OnVector (Make 2 (KFromU64 2 2));
             OnVector (Make 3 (KFromU64 7 70)); NewArray 0 true 3 0; Store 0 2 1; Select 4 0 2; OnVector (Inspect LU64 4);
             OnVector (Update 2 (IAssign 1)); Store 0 2 1; OnVector (Make 2 (KFromU64 2 2));
             OnVector (Make 5 (KFromU64 1 10)); OnVector (Update 5 (ISetBit 12)); NewArray 1 false 3 5; Store 1 2 5;
             Select 6 1 2; OnVector (Inspect LU64 6); Intern 0 5; Intern 1 6; Same 0 1; Fetch 7 0;
             OnVector (Inspect LU64 7); NewArray 2 false 2 3; Store 2 2 0; Select 8 2 2; OnVector (Inspect LWidth 8);
             OnVector (Make 9 (KZero 0)); Intern 2 9; Intern 3 9; Same 2 3; IsZero 2; Fetch 10 2;
             OnVector (Inspect LWidth 10)] in
  Forall fcall_range cs
  /\ fpredict Release cs = Some
     [V Done; V Done; V Done;
      V Done; A ArrayInterpSpec.Done; A ArrayInterpSpec.Done; V Done; V (Tells (AOptNum (Some 255)));
      V Done; A ArrayInterpSpec.Panicked; V Done;
      V Done; V Done; A ArrayInterpSpec.Done; A ArrayInterpSpec.Done;
      V Done; V (Tells (AOptNum (Some 1))); V Done; V Done; V (Says false); V Done;
      V (Tells (AOptNum (Some 4097))); A ArrayInterpSpec.Done; A ArrayInterpSpec.Done; V Done; V (Tells (ANum 8));
      V Done; V Done; V Done; V (Says true); V (Says false); V Done;
      V (Tells (ANum 0))]
  /\ fpredict Debug cs = Some
     [V Panicked; V Done; V Done;
      V Done; V Missing; A ArrayInterpSpec.Missing; A ArrayInterpSpec.Missing; V Missing;
      V Panicked; A ArrayInterpSpec.Missing; V Done;
      V Done; V Done; A ArrayInterpSpec.Done; A ArrayInterpSpec.Panicked;
      A ArrayInterpSpec.Panicked; V Missing; V Done; V Missing; V Missing; V Done;
      V (Tells (AOptNum (Some 4097))); A ArrayInterpSpec.Done; V Missing; V Done; V (Tells (ANum 70));
      V Done; V Panicked; V Panicked; V Missing; V Missing; V Missing;
      V Missing]
  /\ Some (wperform some_probe (fun _ l => rev l) (fun _ l => l) Release cs) = fpredict Release cs.
Proof. exact full_example. Qed.
