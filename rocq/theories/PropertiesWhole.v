(** * Properties: programs over the whole library follow a reference interpreter (C85). *)

From Verif Require Import Base Bv Map Array Spec ArraySpec CallSpec PanicSpec DirtySpec KindSpec AnswerSpec.
From Verif Require ArrayInterpSpec BvInterpSpec.
Import BvInterpSpec(Make, Update, Inspect, Binary, Done, Panicked, Missing, Says, Tells, ISetBit).
From Verif Require Import WholeSpec PArrays PWhole.

(** C85: In a debug build, every program over bit-vectors, arrays and handles for which
    the interpreter has a prediction does exactly what is predicted, call by call. *)
Theorem C85_debug : forall probe ho order cs os, hashing probe -> reorders ho -> reorders order ->
  Forall wcall_range cs -> wpredict cs = Some os -> wperform probe ho order Debug cs = os.
Proof. exact wperform_debug. Qed.
Print Assumptions C85_debug.

(** C85: A program in which nothing is predicted to panic does the same in a release
    build. *)
Theorem C85_release : forall probe ho order cs os, hashing probe -> reorders ho -> reorders order ->
  Forall wcall_range cs -> wpredict cs = Some os -> (forall o, In o os -> panicked o = false) ->
  wperform probe ho order Release cs = os.
Proof. exact wperform_release. Qed.
Print Assumptions C85_release.

(** A sum goes through an array and gives the same handle as before; an index of the
    wrong width and make_dense of 65-bit elements panic and leave the array as it was;
    an 8-bit 1 with bit 9 set has another handle than 1 and comes back with the bit; a
    70-bit 1 is not the constant 1; width 0 cannot be interned. *)
Example C85_example :
  let cs := [OnVector (Make 0 (KFromU64 7 65)); OnVector (Make 1 (KFromU64 2 2)); NewArray 0 false 2 0;
             OnVector (Binary 2 BAdd 0 0); Store 0 1 2; Select 3 0 1; OnVector (BvInterpSpec.Compare TEqual 2 3);
             Intern 0 2; Intern 1 3; Same 0 1; Intern 2 0; Same 0 2;
             Fetch 4 2; OnVector (Inspect LDecStr 4); Store 0 4 0;
             OnArray (ArrayInterpSpec.Change 0 MakeDense); OnArray (ArrayInterpSpec.Describe 0);
             OnVector (Make 5 (KFromU64 1 8)); Intern 3 5; IsOne 3; OnVector (Update 5 (ISetBit 9));
             Intern 4 5; Same 3 4; IsOne 4; Fetch 6 4; OnVector (BvInterpSpec.Compare TEqual 5 6);
             OnVector (Make 7 (KFromU64 1 70)); Intern 5 7; IsOne 5;
             OnVector (Make 8 (KZero 0)); Intern 6 8; Fetch 6 6; Select 9 1 1] in
  Forall wcall_range cs
  /\ wpredict cs = Some
     [V Done; V Done; A ArrayInterpSpec.Done;
      V Done; A ArrayInterpSpec.Done; V Done; V (Says true);
      V Done; V Done; V (Says true); V Done; V (Says false);
      V Done; V (Tells (AText [55])); A ArrayInterpSpec.Panicked;
      A ArrayInterpSpec.Panicked; A (ArrayInterpSpec.Described false 2 65);
      V Done; V Done; V (Says true); V Done;
      V Done; V (Says false); V (Says false); V Done; V (Says true);
      V Done; V Done; V (Says false);
      V Done; V Panicked; V Missing; A ArrayInterpSpec.Missing]
  /\ Some (wperform some_probe (fun _ l => rev l) (fun _ l => l) Debug cs) = wpredict cs.
Proof. exact whole_example. Qed.
