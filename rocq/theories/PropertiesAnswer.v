(** * PropertiesAnswer: what every call that looks at one bit-vector answers (C78). *)

From Coq Require Import QArith.
From Verif Require Import Base Bv Spec TextSpec CallSpec PanicSpec MixedSpec DirtySpec InterpSpec AnswerSpec
  PAnswer.
Local Open Scope N_scope.

(** For any stored number, clean or not. *)
Theorem C78_answers : forall l a w n, stores a w n ->
  match look_result l w n with
  | Some x => forall m, tells (tell m l a) x
  | None => panics (tell Debug l a)
  end.
Proof. exact look_ok. Qed.
Print Assumptions C78_answers.

(** After any program. *)
Theorem C78_programs : forall l p w n, typed p -> meaning p = Gives w n ->
  forall m, exists v, execute m p = Ok (Some v)
  /\ match look_result l w n with
     | Some x => tells (tell m l v) x
     | None => panics (tell Debug l v)
     end.
Proof. exact look_program. Qed.
Print Assumptions C78_programs.

(** 255 << 64 in 70 bits, which leaves unused bits set; and -3 in 8 bits *)
Example C78_example :
  let p := Bin BShl (Fresh (KFromU64 255 70)) (Fresh (KFromU64 64 70)) in
  let q := Fresh (KFromI64 (-3) 8) in
  typed p /\ typed q
  /\ meaning p = Gives 70 (255 * 2 ^ 64) /\ meaning q = Gives 8 253
  /\ look_result LU64 70 (255 * 2 ^ 64) = Some (AOptNum None)
  /\ look_result LBitStr 8 253 = Some (AText [49; 49; 49; 49; 49; 49; 48; 49])
  /\ look_result LBitStrSigned 8 253 = Some (AText [45; 48; 48; 48; 48; 48; 49; 49])
  /\ look_result LDecStr 8 253 = Some (AText [50; 53; 51])
  /\ look_result LHexStr 70 (255 * 2 ^ 64)
     = Some (AText (102 :: 102 :: repeat 48 16))
  /\ look_result LI64 8 253 = Some (AOptInt (Some (-3)%Z))
  /\ look_result LBigInt 70 (255 * 2 ^ 64) = Some (AInt (- 2 ^ 64))
  /\ look_result LBytes 70 (255 * 2 ^ 64) = Some (AText [0; 0; 0; 0; 0; 0; 0; 0; 255])
  /\ (exists x, look_result (LFixedSigned 1) 8 253 = Some (ARatio (Some x)) /\ (x == - (3 # 2))%Q)
  /\ look_result LDecStr 200 (2 ^ 130) = None.
Proof. exact look_example. Qed.
