(** * PropertiesArrayInterp: every program over arrays does what a reference
    interpreter says (C82). *)

From Verif Require Import Base Bv Map Array Spec ArraySpec KindSpec UnwindSpec ArrayInterpSpec PArrays PArrayInterp.

(** A debug build: the same panics, elements, answers, kinds and types, whatever
    the hash tables do. *)
Theorem C82_debug : forall probe ho order cs, hashing probe -> reorders ho -> reorders order ->
  Forall acall_range cs ->
  perform probe ho order Debug cs = predict cs.
Proof. exact perform_ok. Qed.
Print Assumptions C82_debug.

(** A release build: the same, if no call of the debug build panics. *)
Theorem C82_release : forall probe ho order cs, hashing probe -> reorders ho -> reorders order ->
  Forall acall_range cs ->
  ~ In Panicked (predict cs) -> perform probe ho order Release cs = predict cs.
Proof. exact perform_release. Qed.
Print Assumptions C82_release.

(** A sparse array of 65-bit elements cannot be made dense while one element is
    not the default, but can after that element was overwritten; a clone is a
    second array; a sparse array and a dense one are compared by contents, two
    sparse ones by their defaults too; one array has no room for its elements. *)
Example C82_example :
  let i n := bv_of 2 n in
  let x n := bv_of 65 n in
  let cs := [New 0 (NewSparse 2 (x 7)); Change 0 (Store (i 1) (x (2 ^ 64))); Select 0 (i 1);
             Change 0 MakeDense; Copy 1 0; Select 0 (i 1); Change 0 (Store (i 1) (x 7));
             Compare 0 1; Change 0 MakeDense; Describe 0; Describe 1; Compare 0 1;
             Reload 0; Reload 1; Change 1 Clear; Change 0 Clear; Compare 0 1; Select 0 (x 1); Select 5 (i 0);
             New 2 (OfU8s [3; 1; 4; 1; 5]); Reload 2; Select 2 (bv_of 3 4); Select 2 (bv_of 3 6); Compare 2 0;
             New 3 (NewDense 32 (bv_of 1 0)); Reload 3; Select 3 (bv_of 32 5);
             New 3 (NewDense 28 (bv_of 64 0)); Describe 3;
             New 4 (NewSparse 0 (bv_of 8 9)); New 5 (NewSparse 0 (bv_of 8 8));
             Change 5 (Store (bv_of 0 0) (bv_of 8 9)); Compare 4 5; Change 5 MakeDense; Compare 4 5] in
  Forall acall_range cs
  /\ predict cs =
     [Done; Done; Saw (x (2 ^ 64)); Panicked; Done; Saw (x (2 ^ 64)); Done;
      Answered (Some false); Done; Described true 2 65; Described false 2 65; Panicked;
      Done; Done; Done; Done; Answered (Some true); Panicked; Missing;
      Done; Done; Saw (bv_of 8 5); Saw (bv_of 8 0); Answered None;
      Done; Done; Panicked; Panicked; Described true 32 1;
      Done; Done; Done; Answered (Some false); Done; Answered (Some true)]
  /\ perform some_probe (fun _ l => rev l) (fun _ l => l) Debug cs = predict cs.
Proof. exact array_interp_example. Qed.
