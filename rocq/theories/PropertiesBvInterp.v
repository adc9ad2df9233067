(** * Properties: programs over bit-vectors follow a reference interpreter (C83). *)

From Coq Require Import String QArith.
From Verif Require Import Base Strings Bv Spec TextSpec CallSpec PanicSpec DirtySpec InterpSpec AnswerSpec BvInterpSpec
  Fmt PBvInterp.
Local Open Scope N_scope.

(** C83: In a debug build every call of every program does what the interpreter says,
    also after any number of caught panics and parse errors. *)
Theorem C83_debug : forall cs, Forall vcall_range cs -> vperform Debug cs = vpredict cs.
Proof. exact vperform_debug. Qed.
Print Assumptions C83_debug.

(** C83: A program in which nothing is predicted to panic does the same in a release
    build. *)
Theorem C83_release : forall cs, Forall vcall_range cs -> ~ In Panicked (vpredict cs) ->
  vperform Release cs = vpredict cs.
Proof. exact vperform_release. Qed.
Print Assumptions C83_release.

(** A panicking assign_from_u64 leaves 1000 mod 256; bit 9 of an 8-bit value is stored,
    invisible in hexadecimal, and still makes a difference until it is masked; parse
    errors and width mismatches leave the variables alone. *)
Example C83_example :
  let cs := [Make 0 (KFromU64 7 8); Update 0 (IFromU64 1000); Inspect LU64 0; Clone 1 0;
             Update 0 (ISetBit 9); Compare TEqual 0 1; Inspect (LFixedSigned 4) 1; Reload 0;
             Inspect LHexStr 0; Inspect LU64 0; Unary 2 UMask 0; Compare TEqual 2 1;
             Update 2 (IParse (lit "12x") 10); Inspect LU64 2; Update 2 (IParse (lit "-7") 10); Inspect LI64 2;
             Binary 3 BConcat 1 2; Inspect LHexStr 3; Binary 4 BAdd 3 2; Inspect LWidth 4; Update 3 (IAssign 4);
             Make 4 (KFromStr (lit "-1") 2 70); Update 4 (IWord 0 5); Inspect LBigUint 4; Inspect LDecStr 4;
             Update 4 (IAssign 3); Update 4 (IWord 2 5); Inspect LIsNegative 4; Make 5 (KFromStr (lit "9") 8 8);
             Make 5 (KFromU64 256 8); Update 5 IClear] in
  Forall vcall_range cs
  /\ vpredict cs =
     [Done; Panicked; Tells (AOptNum (Some 232)); Done;
      Done; Says false; Tells (ARatio (Some (-3 # 2)%Q)); Done;
      Tells (AText (lit "e8")); Tells (AOptNum (Some 744)); Done; Says true;
      Failed InvalidDigit; Tells (AOptNum (Some 232)); Done; Tells (AOptInt (Some (-7)%Z));
      Done; Tells (AText (lit "e8f9")); Panicked; Missing; Missing;
      Done; Done; Tells (ANum 1162144876643701751813); Tells (AText (lit "1162144876643701751813"));
      Panicked; Panicked; Tells (ABool true); Failed InvalidDigit; Panicked; Missing]
  /\ vperform Debug cs = vpredict cs.
Proof. exact bv_interp_example. Qed.
