(** * Properties: array programs with every public operation (C93). *)

From Verif Require Import Base Bv Map Array Spec CallSpec ArraySpec KindSpec UnwindSpec ArrayInterpSpec RawArraySpec
  ChanceSpec FullArraySpec PFullArray.
From Verif Require PArrays.
Import PArrays(some_probe).

(** C93: With the conversion to sparse arrays, the list of entries, the default and the
    sizes: a list of observations is possible, with hash tables that may behave
    differently at each call, if and only if the interpreter gives it for some luck. *)
Theorem C93_exactly : forall m cs os, Forall full_range cs ->
  (exists hs, (forall n, proper (hs n)) /\ full_perform m hs cs = os)
  <-> (exists gs, full_predict m gs cs = os).
Proof. exact full_behaviours. Qed.
Print Assumptions C93_exactly.

(** C93: Programs without these calls are those of C92. *)
Theorem C93_plain : forall m cs gs,
  full_predict m gs (map Plain cs) = map Simply (any_predict m (fun n => plain (gs n)) cs).
Proof. exact full_predict_plain. Qed.
Print Assumptions C93_plain.

(** Two elements are equally frequent: either becomes the default.  Entries are listed
    in any order.  An array with the byte 200 cannot be converted. *)
Example C93_example :
  let g order keys x := fun _ : nat => mkluck (mkchance false order) keys x in
  let cs :=
    [Plain (New 0 (OfU64s [5; 9; 5; 9])); IntoSparse 1 0; Default 1; Entries 1; Entries 0; Sizes 0; Plain (Compare 0 1);
     Plain (New 2 (OfU8s [3; 1; 1; 3])); IntoSparse 2 2; Default 2; Entries 2;
     Plain (New 3 (OfU8s [3; 200])); IntoSparse 3 3; Plain (Describe 3);
     Plain (New 4 (OfBools [true; false; true; true])); IntoSparse 4 4; Default 4; Entries 4;
     Plain (New 5 (NewSparse 70 (bv_of 8 7))); Plain (Change 5 (Store (bv_of 70 1) (bv_of 8 2)));
     Plain (Change 5 (Store (bv_of 70 2) (bv_of 8 3))); Entries 5; Sizes 5; Default 5;
     Plain (New 6 (NewDense 1 (bv_of 65 (2 ^ 64)))); Plain (Change 6 (Store (bv_of 1 1) (bv_of 65 4)));
     IntoSparse 6 6; Default 6; Entries 6; Sizes 6] in
  Forall full_range cs
  /\ full_predict Debug (g [3; 1; 0; 2] [(70, 1); (70, 2)] 9) cs
     = [Simply Done; Simply Done; Simply (Saw (bv_of 64 9));
        Listed [(bv_of 2 0, bv_of 64 5); (bv_of 2 2, bv_of 64 5)]; Simply Missing; Sized 4 1; Simply (Answered (Some true));
        Simply Done; Simply Done; Simply (Saw (bv_of 8 3)); Listed [(bv_of 2 1, bv_of 8 1); (bv_of 2 2, bv_of 8 1)];
        Simply Done; Simply Panicked; Simply (Described true 1 8);
        Simply Done; Simply Done; Simply (Saw (bv_of 1 1)); Listed [(bv_of 2 1, bv_of 1 0)];
        Simply Done; Simply Done; Simply Done; Listed [(bv_of 70 1, bv_of 8 2); (bv_of 70 2, bv_of 8 3)];
        Simply Panicked; Simply (Saw (bv_of 8 7));
        Simply Done; Simply Done; Simply Done; Simply (Saw (bv_of 65 (2 ^ 64))); Listed [(bv_of 1 1, bv_of 65 4)]; Sized 2 2]
  /\ full_predict Release (g [2; 1; 0; 3] [(70, 2); (70, 1)] 4) cs
     = [Simply Done; Simply Done; Simply (Saw (bv_of 64 5));
        Listed [(bv_of 2 1, bv_of 64 9); (bv_of 2 3, bv_of 64 9)]; Simply Missing; Sized 4 1; Simply (Answered (Some true));
        Simply Done; Simply Done; Simply (Saw (bv_of 8 3)); Listed [(bv_of 2 2, bv_of 8 1); (bv_of 2 1, bv_of 8 1)];
        Simply Done; Simply Panicked; Simply (Described true 1 8);
        Simply Done; Simply Done; Simply (Saw (bv_of 1 1)); Listed [(bv_of 2 1, bv_of 1 0)];
        Simply Done; Simply Done; Simply Done; Listed [(bv_of 70 2, bv_of 8 3); (bv_of 70 1, bv_of 8 2)];
        Sized 64 1; Simply (Saw (bv_of 8 7));
        Simply Done; Simply Done; Simply Done; Simply (Saw (bv_of 65 4)); Listed [(bv_of 1 0, bv_of 65 (2 ^ 64))]; Sized 2 2]
  /\ full_perform Release (fun _ => mkhashes some_probe (fun _ l => l) (fun _ l => l)) cs
     = full_predict Release (fun n => g [0; 1; 2; 3] [(70, 1); (70, 2)] (if Nat.eqb n 1 then 9 else 4) n) cs.
Proof. exact full_example. Qed.
