(** * Properties: programs with every operation of the library (C94). *)

From Coq Require Import String.
From Verif Require Import Base Bv Map Array Fmt Indexed Spec ArraySpec CallSpec PanicSpec DirtySpec KindSpec AnswerSpec.
From Verif Require ArrayInterpSpec BvInterpSpec StoreInterpSpec FullArraySpec StoreSpec.
Import BvInterpSpec(Make, Update, Inspect, Done, Panicked, Missing, Says, Tells, ISetBit, IAssign, IOnes).
From Verif Require Import WholeSpec FullSpec AllSpec ChanceSpec EverySpec PArrays PEvery.
Local Open Scope list_scope.
Local Open Scope N_scope.

(** C94: A list of observations is possible, with hash tables that may behave differently
    at each call, if and only if the interpreter gives it for some luck. *)
Theorem C94_exactly : forall m n cs os, Forall gcall_range cs ->
  (exists hs, (forall k, proper (hs k)) /\ gperform m n hs cs = os)
  <-> (exists gs, gpredict m n gs cs = os).
Proof. exact every_behaviour. Qed.
Print Assumptions C94_exactly.

(** C94: Where the interpreter of C91 has a prediction, luck is of no importance. *)
Theorem C94_agrees : forall m n cs os gs, Forall ecall_range cs -> epredict m n cs = Some os ->
  gpredict m n gs (map Core cs) = map Told os.
Proof. exact core_agrees. Qed.
Print Assumptions C94_agrees.

(** C94: On programs that use arrays only, the interpreter is that of C93. *)
Theorem C94_arrays : forall m n cs gs,
  gpredict m n gs (map More cs) = map Also (FullArraySpec.full_predict m gs cs).
Proof. exact more_agrees. Qed.
Print Assumptions C94_arrays.

(** C94: A program interns the 64-bit numbers from 0 to 2^32.  The last handle is said to
    be that of 0, and the value fetched with it is 0. *)
Theorem C94_interner_wraps : forall m n hs k, (forall i, proper (hs i)) -> N.of_nat k = 2 ^ 32 + 1 ->
  gperform m n hs (intern_numbers (seq 0 k)
                   ++ [Core (Lib (IsZero 0)); Core (Lib (Fetch 1 0)); Core (Digest 0); Core (Digest 1)])
  = repeat done (2 * k)
    ++ [Told (Seen (V (Says true))); done;
        Told (Hashed [HashU32 64; HashLen 1; HashU64 (2 ^ 32)]); Told (Hashed [HashU32 64; HashLen 1; HashU64 0])].
Proof. exact interner_wraps. Qed.
Print Assumptions C94_interner_wraps.

(** C94: Fetching with a handle that the interner has given never panics. *)
Theorem C94_fetch : forall m n hs cs k h i, (forall i, proper (hs i)) -> Forall gcall_range cs ->
  (forall h i, ~ In (NewHandle h i) cs) -> nth_error cs i = Some (Core (Lib (Fetch k h))) ->
  nth_error (gperform m n hs cs) i <> Some (Told (Seen (V Panicked))).
Proof. exact fetches_all. Qed.
Print Assumptions C94_fetch.

Definition sample : list gcall :=
  let lib c := Core (Lib c) in
  [lib (OnVector (Make 0 (KFromU64 5 70))); lib (OnVector (Make 1 (KFromU64 9 70))); lib (OnVector (Make 2 (KFromU64 200 8)));
   lib (OnVector (Make 3 (KFromU64 7 8)));
   (* a sparse array with indices of 70 bits *)
   lib (NewArray 0 false 70 3); lib (Store 0 0 2); lib (Store 0 1 3); lib (Select 4 0 1); lib (Store 0 1 2);
   More (FullArraySpec.Entries 0); Core (ArrayText 0);
   (* its default goes to the interner and to the words *)
   TakeDefault 5 0; lib (Intern 0 5); lib (Intern 1 2); lib (Intern 2 0); lib (Intern 3 1); lib (Intern 4 0);
   lib (Same 2 4); lib (Same 2 3); lib (IsZero 0); lib (Fetch 6 3); Core (Mem (StoreInterpSpec.Change (mkindex 70 0) (IAssign 6)));
   Core (Mem (StoreInterpSpec.Load 7 (mkindex 70 0))); Core (Digest 7);
   (* two elements are equally frequent *)
   lib (OnArray (ArrayInterpSpec.New 1 (OfU64s [5; 9; 5; 9]))); More (FullArraySpec.IntoSparse 2 1); TakeDefault 8 2; Core (Digest 8);
   TakeDefault 8 1; Core (Text 9)].

(** The search for index 9 meets an entry with a similar hash, or it does not. *)
Example C94_example :
  let g met order keys x := fun _ : nat => FullArraySpec.mkluck (mkchance met order) keys x in
  let says b := Told (Seen (V (Says b))) in
  let stored := Told (Seen (A ArrayInterpSpec.Done)) in
  Forall gcall_range sample
  /\ gpredict Debug 2 (g false [] [(70, 9); (70, 5)] 9) sample
     = [done; done; done; done; stored; stored; stored; done; stored;
        Also (FullArraySpec.Listed [(bv_of 70 9, bv_of 8 200); (bv_of 70 5, bv_of 8 200)]); Told (Printed (lit "SparseArrayValue(..)"));
        done; done; done; done; done; done; says true; says false; says false; done; done; done;
        Told (Hashed [HashU32 70; HashLen 2; HashU64 9; HashU64 0]);
        stored; Also (FullArraySpec.Simply ArrayInterpSpec.Done); done; Told (Hashed [HashU32 64; HashLen 1; HashU64 9]);
        Also (FullArraySpec.Simply ArrayInterpSpec.Missing); Told (Seen missing)]
  /\ gpredict Debug 2 (g true [] [(70, 9); (70, 5)] 4) sample
     = [done; done; done; done; stored; stored; Told (Seen (A ArrayInterpSpec.Panicked)); Told (Seen (A ArrayInterpSpec.Panicked)); stored;
        Also (FullArraySpec.Listed [(bv_of 70 9, bv_of 8 200); (bv_of 70 5, bv_of 8 200)]); Told (Printed (lit "SparseArrayValue(..)"));
        done; done; done; done; done; done; says true; says false; says false; done; done; done;
        Told (Hashed [HashU32 70; HashLen 2; HashU64 9; HashU64 0]);
        stored; Also (FullArraySpec.Simply ArrayInterpSpec.Done); done; Told (Hashed [HashU32 64; HashLen 1; HashU64 5]);
        Also (FullArraySpec.Simply ArrayInterpSpec.Missing); Told (Seen missing)].
Proof.
  cbv zeta. split; [|split; vm_compute; reflexivity].
  unfold sample. repeat (apply Forall_cons || apply Forall_nil); cbn -[N.pow]; unfold StoreInterpSpec.index_typed; auto;
    repeat split; repeat constructor; try reflexivity; try (vm_compute; congruence).
Qed.

(** Handles that the program makes and uses on both kinds of words *)
Example C94_handles :
  let lib c := Core (Lib c) in
  let says b := Told (Seen (V (Says b))) in
  let panics := Told (Seen (V Panicked)) in
  let made := Told (Seen (A ArrayInterpSpec.Done)) in
  let any := FullArraySpec.mkluck (mkchance false []) [] 0 in
  let cs :=
    [lib (OnVector (Make 0 (KFromU64 100 70))); lib (OnVector (Make 1 (KFromU64 200 8))); lib (OnVector (Make 2 (KFromU64 5 8)));
     lib (Intern 0 0); lib (Intern 1 1); lib (Intern 2 2); InternerText; HandleText 1;
     (* the words of two values *)
     NewHandle 3 (mkindex 128 9); lib (Fetch 3 3); Core (Digest 3);
     NewHandle 4 (mkindex 128 10); lib (Fetch 4 4); HandleText 4; lib (Same 4 3);
     Through 2 (StoreInterpSpec.Change (mkindex 0 0) (IAssign 1)); Through 0 (StoreInterpSpec.Load 5 (mkindex 0 0));
     Through 3 (StoreInterpSpec.Load 5 (mkindex 0 0)); Through 7 (StoreInterpSpec.Load 5 (mkindex 0 0));
     NewHandle 5 (mkindex 128 5); Through 5 (StoreInterpSpec.Load 5 (mkindex 0 0)); Core (Digest 5);
     lib (NewArray 0 true 2 1); lib (NewArray 1 false 2 1); lib (NewArray 2 false 2 0);
     EqualArrays 0 1; EqualArrays 1 2; EqualArrays 0 9] in
  Forall gcall_range cs
  /\ gpredict Debug 7 (fun _ => any) cs
     = [done; done; done; done; done; done; Told (Printed (lit "ValueInterner(1 small, 1 large)"));
        Told (Printed (lit "BitVecValueIndex { width: 8, index: 10 }"));
        done; done; Told (Hashed [HashU32 128; HashLen 2; HashU64 0; HashU64 200]);
        done; panics; Told (Printed (lit "BitVecValueIndex { width: 128, index: 10 }")); says false;
        done; panics; panics; Told (Seen missing);
        done; done; Told (Hashed [HashU32 128; HashLen 2; HashU64 200; HashU64 0]);
        made; made; made; says true; says false; Told (Seen missing)].
Proof.
  cbv zeta. split; [|vm_compute; reflexivity].
  repeat (apply Forall_cons || apply Forall_nil); cbn -[N.pow]; unfold StoreInterpSpec.index_typed; auto;
    repeat split; repeat constructor; try reflexivity; try (vm_compute; congruence).
Qed.

(** C62: Interning a value again changes nothing and gives the same handle. This needs no bound
    on the number of stored words (C62_again has one), and holds of values with unused bits set. *)
Theorem C62_again_always : forall m vs, Forall (fun v => well_shaped v /\ (m = Release \/ 0 < width v)) vs ->
  exists st is, StoreSpec.intern_all m interner_new vs = Ok (st, is) /\ length is = length vs
    /\ forall k v i, nth_error vs k = Some v -> nth_error is k = Some i -> interner_get_index m st v = Ok (st, i).
Proof. exact again_always. Qed.
Print Assumptions C62_again_always.

Example C62_again_always_example :
  let vs := [mkbv 100 [5; 0]; mkbv 16 [1000]; mkbv 100 [5; 0]; mkbv 3 [255]] in
  Forall (fun v => well_shaped v /\ (Debug = Release \/ 0 < width v)) vs
  /\ exists st, StoreSpec.intern_all Debug interner_new vs
       = Ok (st, [mkindex 100 8; mkindex 16 10; mkindex 100 8; mkindex 3 11]).
Proof.
  split; [|eexists; vm_compute; reflexivity].
  repeat (apply Forall_cons; [split; [repeat split; repeat constructor|right; reflexivity]|]). apply Forall_nil.
Qed.
