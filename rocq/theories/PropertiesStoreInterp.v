(** * Properties: programs over a shared word store follow a reference interpreter in
    both build profiles (C89). *)

From Coq Require Import String.
From Verif Require Import Base Strings Bv Indexed Spec TextSpec CallSpec PanicSpec MixedSpec InterpSpec AnswerSpec
  BvInterpSpec StoreInterpSpec PStoreInterp Fmt.
Local Open Scope list_scope.
Local Open Scope N_scope.

(** C89: Whatever the indices, every call of every program over a vector of any length
    does what the interpreter says, in both build profiles. *)
Theorem C89_programs : forall m n cs, Forall scall_range cs -> sperform m n cs = spredict m n cs.
Proof. exact sperform_ok. Qed.
Print Assumptions C89_programs.

(** C89: In the interpreter, writing to an index changes what is read there, and nothing
    that is read from words apart from it. *)
Theorem C89_frame : forall r i n, n < 2 ^ (64 * places (i_width i)) ->
  part (put r i n) i = n /\ (forall j, separate i j = true -> part (put r i n) j = part r j).
Proof. exact part_put. Qed.
Print Assumptions C89_frame.

(** A bit-vector of 70 bits in words 1 and 2; a view of word 2 alone sees its upper bits.
    Copying between overlapping places panics, and so does a view that reaches beyond the
    end.  A release build copies between different widths with equal numbers of words, and
    cuts the argument of [assign_from_u64]; a debug build panics with it stored already. *)
Example C89_example :
  let at_ w i := mkindex w i in
  let cs :=
    [Change (at_ 70 1) IOnes; Load 0 (at_ 64 2); Own (Inspect LBigUint 0);
     Copy (at_ 128 0) (at_ 128 1); Load 1 (at_ 65 3); Own (Inspect LWidth 1);
     Combine (at_ 64 3) BAdd (at_ 64 1) (at_ 64 2); Look LU64 (at_ 64 3);
     Combine (at_ 64 3) BAdd (at_ 64 3) (at_ 64 2);
     Poke 0 300; Poke 4 1; Copy (at_ 8 3) (at_ 16 0); Check TEqual (at_ 64 0) (at_ 64 3);
     Change (at_ 70 1) (ISetBit 100); Change (at_ 70 1) (ISetBit 128); Look LBigUint (at_ 128 1);
     Change (at_ 4 0) (IFromU64 300); Look LU64 (at_ 64 0);
     Compute (at_ 3 0) (USlice 2 0) (at_ 64 2); LoadPair 2 3 (at_ 64 0) (at_ 128 0); Own (Compare TEqual 2 3);
     Change (at_ 64 3) (IAssign 9); Change (at_ 64 3) (IAssign 2);
     Change (at_ 65 2) (IParse (lit "-1") 10); Look LBigUint (at_ 128 2)] in
  Forall scall_range cs
  /\ spredict Debug 4 cs =
     [Done; Done; Tells (ANum 63);
      Panicked; Panicked; Missing;
      Done; Tells (AOptNum (Some 62));
      Panicked;
      Done; Panicked; Panicked; Says false;
      Done; Panicked; Tells (ANum (2 ^ 100 + 2 ^ 70 - 1));
      Panicked; Tells (AOptNum (Some 12));
      Done; Done; Panicked;
      Missing; Done;
      Done; Tells (ANum (2 ^ 65 - 1))]
  /\ spredict Release 4 cs =
     [Done; Done; Tells (ANum 63);
      Panicked; Panicked; Missing;
      Done; Tells (AOptNum (Some 62));
      Panicked;
      Done; Panicked; Done; Says true;
      Done; Panicked; Tells (ANum (2 ^ 100 + 2 ^ 70 - 1));
      Done; Tells (AOptNum (Some 12));
      Done; Done; Says true;
      Missing; Done;
      Done; Tells (ANum (2 ^ 65 - 1))]
  /\ sperform Debug 4 cs = spredict Debug 4 cs
  /\ sperform Release 4 cs = spredict Release 4 cs.
Proof.
  cbv zeta. match goal with |- Forall _ ?l /\ _ => assert (T : Forall scall_range l) end.
  { repeat (apply Forall_cons || apply Forall_nil); cbn; unfold index_typed; repeat split; reflexivity. }
  split; [exact T|]. split; [vm_compute; reflexivity|]. split; [vm_compute; reflexivity|].
  split; now apply sperform_ok.
Qed.
