(** * Properties: bit-vector programs of a release build follow a reference interpreter (C86). *)

From Coq Require Import String QArith.
From Verif Require Import Base Strings Bv Spec TextSpec CallSpec PanicSpec DirtySpec InterpSpec AnswerSpec BvInterpSpec
  ReleaseInterpSpec Fmt PReleaseInterp.
Local Open Scope N_scope.

(** C86: In a release build every call of every program does what the interpreter for
    release builds says, also where a debug build would have panicked. *)
Theorem C86_release : forall cs, Forall vcall_range cs -> vperform Release cs = rpredict cs.
Proof. exact rperform_ok. Qed.
Print Assumptions C86_release.

(** Numbers are cut to the width, widths are only compared by the words they need,
    stored bits above the width survive, and widths wrap around. *)
Example C86_example :
  let cs := [Make 0 (KFromU64 300 8); Inspect LU64 0; Make 1 (KFromU64 5 70); Binary 2 BAdd 1 0; Inspect LU64 2;
             Update 0 (IAssign 1); Make 3 (KFromU64 1023 10); Update 0 (IAssign 3); Inspect LU64 0; Inspect LHexStr 0;
             Unary 4 (USlice 9 2) 0; Inspect LU64 4; Unary 5 (UZeroExtend (2 ^ 32 - 4)) 3; Inspect LWidth 5;
             Inspect LU64 5; Unary 6 (USignExtend (2 ^ 32 - 4)) 3; Inspect LU64 6; Inspect (LFixed 70) 3;
             Unary 7 (USlice 3 4) 0; Unary 7 (USlice 64 0) 0; Binary 8 BConcat 0 3; Inspect LHexStr 8;
             Update 3 (IFromU64 5000); Binary 9 BSub 0 3; Inspect LU64 9; Compare TGreater 0 3;
             Binary 9 BShl 3 1; Inspect LU64 9] in
  Forall vcall_range cs
  /\ rpredict cs =
     [Done; Tells (AOptNum (Some 44)); Done; Done; Tells (AOptNum (Some 49));
      Panicked; Done; Done; Tells (AOptNum (Some 1023)); Tells (AText (lit "ff"));
      Done; Tells (AOptNum (Some 255)); Done; Tells (ANum 6);
      Tells (AOptNum (Some 1023)); Done; Tells (AOptNum (Some 63)); Tells (ARatio (Some (1023 # 64)%Q));
      Panicked; Panicked; Done; Tells (AText (lit "fffff"));
      Done; Done; Tells (AOptNum (Some 119)); Says true;
      Done; Tells (AOptNum (Some 256))]
  /\ vperform Release cs = rpredict cs.
Proof. exact release_interp_example. Qed.
