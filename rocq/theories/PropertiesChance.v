(** * Properties: the behaviours of array programs that depend on hash tables (C92). *)

From Verif Require Import Base Bv Map Array Spec CallSpec ArraySpec KindSpec UnwindSpec ArrayInterpSpec RawArraySpec
  ChanceSpec PChance.
From Verif Require PArrays.
Import PArrays(some_probe).

(** C92: A list of observations is possible, with hash tables that may behave
    differently at each call, if and only if the interpreter gives it for some chances. *)
Theorem C92_exactly : forall m cs os, Forall any_range cs ->
  (exists hs, (forall n, proper (hs n)) /\ perform_each m (fun _ => None) hs cs = os)
  <-> (exists gs, any_predict m gs cs = os).
Proof. exact chance_behaviours. Qed.
Print Assumptions C92_exactly.

(** C92: In particular with the same hash function throughout. *)
Theorem C92_programs : forall probe ho order m cs, hashing probe -> reorders ho -> reorders order ->
  Forall any_range cs -> exists gs, perform probe ho order m cs = any_predict m gs cs.
Proof. exact chance_sound. Qed.
Print Assumptions C92_programs.

(** C92: Where the interpreter of C87 predicts the observations, chance plays no role. *)
Theorem C92_certain : forall m cs os, Forall raw_range cs -> raw_predict m cs = Some os ->
  forall gs, any_predict m gs cs = os.
Proof. exact chance_irrelevant. Qed.
Print Assumptions C92_certain.

(** C92: So it is for arrays with indices of at most 64 bits that are written below
    element [2 ^ 32] only. *)
Theorem C92_low : forall m cs gs gs', Forall raw_range cs -> Forall low_call cs ->
  any_predict m gs cs = any_predict m gs' cs.
Proof. exact chance_low. Qed.
Print Assumptions C92_low.

(** Keys of 100 bits: reading or resetting a missing key works or panics.  Two entries
    for the same bit, or the same words: the one visited last stays. *)
Example C92_example :
  let k n := bv_of 100 (2 ^ 90 + n) in
  let cs := [New 0 (NewSparse 100 (bv_of 8 7)); Change 0 (Store (k 1) (bv_of 8 9)); Copy 1 0;
             Select 0 (k 2); Select 0 (k 1); Change 0 (Store (k 2) (bv_of 8 7)); Change 0 (Store (k 1) (bv_of 8 7));
             Compare 0 1; Change 1 (Store (k 3) (bv_of 8 7)); Change 1 (Store (k 3) (bv_of 8 0)); Compare 1 0; Reload 1;
             Change 1 MakeDense; Change 1 Clear; Select 1 (k 1);
             New 2 (NewSparse 5 (bv_of 1 0)); Change 2 (Store (bv_of 5 7) (bv_of 1 1));
             Change 2 (Store (bv_of 50 (2 ^ 32 + 7)) (bv_of 1 3)); Copy 3 2; Change 2 MakeDense; Select 2 (bv_of 5 7);
             Compare 2 3; New 4 (NewSparse 64 (bv_of 65 1)); Change 4 (Store (bv_of 64 0) (bv_of 65 10));
             Change 4 (Store (bv_of 64 (2 ^ 63)) (bv_of 65 20)); Change 4 MakeDense; Select 4 (bv_of 64 0)] in
  Forall any_range cs
  /\ any_predict Release (fun _ => mkchance false [7; 2 ^ 32 + 7; 0; 2 ^ 63]) cs
     = [Done; Done; Done; Saw (bv_of 8 7); Panicked; Done; Panicked;
        Answered (Some true); Done; Done; Answered (Some false); Done;
        Panicked; Done; Saw (bv_of 8 0);
        Done; Done; Done; Done; Done; Saw (bv_of 1 0);
        Answered (Some true); Done; Done; Done; Done; Saw (bv_of 65 20)]
  /\ any_predict Release (fun _ => mkchance true [2 ^ 63; 0; 2 ^ 32 + 7; 7]) cs
     = [Done; Done; Done; Panicked; Panicked; Panicked; Panicked;
        Answered (Some true); Panicked; Done; Answered (Some false); Done;
        Panicked; Done; Saw (bv_of 8 0);
        Done; Done; Done; Done; Done; Saw (bv_of 1 1);
        Answered (Some true); Done; Done; Done; Done; Saw (bv_of 65 10)]
  /\ perform some_probe (fun _ l => l) (fun _ l => l) Release cs
     = any_predict Release (fun _ => mkchance false [7; 2 ^ 32 + 7; 0; 2 ^ 63]) cs
  /\ raw_predict Release (skipn 15 cs) = None.
Proof. exact chance_example. Qed.
