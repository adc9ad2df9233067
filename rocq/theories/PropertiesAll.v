(** * Properties: programs over the library and a shared word store together follow a
    reference interpreter in both build profiles (C91). *)

From Coq Require Import String.
From Verif Require Import Base Bv Map Array Fmt Indexed Spec ArraySpec CallSpec PanicSpec DirtySpec KindSpec AnswerSpec.
From Verif Require ArrayInterpSpec BvInterpSpec StoreInterpSpec.
Import BvInterpSpec(Make, Update, Inspect, Done, Panicked, Missing, Says, Tells, ISetBit, IAssign, IOnes).
Import StoreInterpSpec(Load, Poke, Check, Combine, Look).
From Verif Require Import WholeSpec FullSpec AllSpec PArrays PAll.
Local Open Scope list_scope.
Local Open Scope N_scope.

(** C91: Every program for which the interpreter has a prediction does exactly what is
    predicted, call by call, in both build profiles, whatever the length [n] of the
    vector of words. *)
Theorem C91_programs : forall probe ho order m n cs os, reorders ho -> reorders order ->
  Forall ecall_range cs -> epredict m n cs = Some os -> eperform probe ho order m n cs = os.
Proof. exact eperform_ok. Qed.
Print Assumptions C91_programs.

(** C91: On programs that use the library only, the interpreter is that of C88. *)
Theorem C91_library : forall m n cs,
  epredict m n (map Lib cs) = match fpredict m cs with Some os => Some (map Seen os) | None => None end.
Proof. exact (fun m n cs => lib_only m cs (mkscene n 0 empty)). Qed.
Print Assumptions C91_library.

(** C91: On programs that use the words only, it is that of C89, and always knows. *)
Theorem C91_words : forall m n cs,
  epredict m n (map Mem cs) = Some (map (fun o => Seen (V o)) (StoreInterpSpec.spredict m n cs)).
Proof. exact (fun m n cs => mem_only m cs (mkscene n 0 empty)). Qed.
Print Assumptions C91_words.

(** C91: The interpreter is silent about a call only if it interns a value when 2^32 words
    may be in use, or converts or compares a sparse array that was written at an
    index of 2^32 or more. *)
Theorem C91_silent : forall m n cs r c, Forall ecall_range cs -> scene_after m (mkscene n 0 empty) cs = Some r ->
  ecall_range c -> epredict1 m r c = None ->
  interns_too_much r c \/ exists a q, raws (rest r) a = Some q /\ far q /\ converts c a.
Proof. exact esilent. Qed.
Print Assumptions C91_silent.

(** A release build lets a one-bit array with indices of 5 bits take a 64-bit index and a
    2-bit element.  The iteration order decides which one of elements 7 and 2^32 + 7 the
    dense array gets as element 7. *)
Example C91_silent_example :
  let store i w x := Lib (OnArray (ArrayInterpSpec.Change 0 (KindSpec.Store (bv_of 64 i) (bv_of w x)))) in
  let cs := [Lib (OnArray (ArrayInterpSpec.New 0 (NewSparse 5 (bv_of 1 0)))); store 7 1 1; store (2 ^ 32 + 7) 2 2] in
  let c := Lib (OnArray (ArrayInterpSpec.Change 0 MakeDense)) in
  Forall ecall_range (cs ++ [c])
  /\ (exists os, epredict Release 0 cs = Some os) /\ epredict Release 0 (cs ++ [c]) = None.
Proof. exact silent_example. Qed.

(** A 70-bit value is read from words 0 and 1, stored in an array, interned, fetched,
    and written to words 2 and 3.  The order of two values of equal width looks at
    their lowest 64 bits first: 2^64 is before 1. *)
Example C91_example :
  let at_ w i := mkindex w i in
  let cs :=
    [Mem (StoreInterpSpec.Change (at_ 70 0) IOnes); Mem (Load 0 (at_ 70 0)); Lib (OnVector (Make 1 (KZero 70)));
     Lib (OnVector (Make 2 (KFromU64 3 2))); Lib (NewArray 0 false 2 1); Lib (Store 0 2 0); ArrayText 0; ArrayText 1;
     Lib (Select 3 0 2); Lib (Intern 0 3); Lib (Fetch 4 0); Mem (StoreInterpSpec.Change (at_ 70 2) (IAssign 4));
     Mem (Check TEqual (at_ 70 0) (at_ 70 2)); Mem (Poke 3 1); Mem (Poke 2 0); Mem (Load 5 (at_ 70 2));
     Lib (OnVector (Make 6 (KFromU64 1 70))); Order 5 6; Order 2 5; Order 5 5; Digest 5; Text 2; Text 9;
     Mem (Load 7 (at_ 70 3)); Order 7 5] in
  Forall ecall_range cs
  /\ epredict Debug 4 cs = Some
     [Seen (V Done); Seen (V Done); Seen (V Done);
      Seen (V Done); Seen (A ArrayInterpSpec.Done); Seen (A ArrayInterpSpec.Done);
      Printed (lit "SparseArrayValue(..)"); Seen missing;
      Seen (V Done); Seen (V Done); Seen (V Done); Seen (V Done);
      Seen (V (Says true)); Seen (V Done); Seen (V Done); Seen (V Done);
      Seen (V Done); Ordered Lt; Ordered Lt; Ordered Eq;
      Hashed [HashU32 70; HashLen 2; HashU64 0; HashU64 1]; Printed (lit "ValueOwned(11)"); Seen missing;
      Seen (V Panicked); Seen missing]
  /\ Some (eperform some_probe (fun _ l => rev l) (fun _ l => l) Debug 4 cs) = epredict Debug 4 cs.
Proof.
  cbv zeta. match goal with |- Forall _ ?l /\ _ => assert (T : Forall ecall_range l) end.
  { repeat (apply Forall_cons || apply Forall_nil); cbn -[N.pow]; unfold StoreInterpSpec.index_typed; auto;
      repeat split; try reflexivity; vm_compute; congruence. }
  split; [exact T|]. split; vm_compute; reflexivity.
Qed.
