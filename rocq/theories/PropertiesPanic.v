(** * C70: which calls panic. *)

From Verif Require Import Base Strings Bv Spec TextSpec IoSpec CallSpec PanicSpec PropsArith PPanic.

(** ** C70 *)

(** In a debug build a call on valid values panics for exactly the arguments
    listed in PanicSpec.v. *)
Theorem C70_calls : forall c, (forall a, In a (operands c) -> wf a) -> in_range c -> in_memory c ->
  (panics (run Debug c) <-> rejects c).
Proof. exact call_panics. Qed.
Print Assumptions C70_calls.

Theorem C70_questions : forall q, (forall a, In a (asked q) -> wf a) ->
  (panics (ask Debug q) <-> rejects_question q).
Proof. exact question_panics. Qed.
Print Assumptions C70_questions.

(** For all other arguments the call returns, in both build profiles, and the
    same value. *)
Theorem C70_calls_return : forall m c, (forall a, In a (operands c) -> wf a) -> in_range c -> in_memory c ->
  ~ rejects c -> exists v, run m c = Ok v /\ forall m', run m' c = Ok v.
Proof. exact call_returns. Qed.
Print Assumptions C70_calls_return.

Theorem C70_questions_return : forall m q, (forall a, In a (asked q) -> wf a) ->
  ~ rejects_question q -> exists u, ask m q = Ok u.
Proof. exact question_returns. Qed.
Print Assumptions C70_questions_return.

(** Parsing 49 hexadecimal digits into 130 bits (three words hold 48) panics,
    unless the first digit is bad; a bad digit further on is not reached.
    A slice up to and including bit [width] panics for 128 bits, not for 70. *)
Example C70_example :
  let a := bv_of 70 (2 ^ 69 + 5) in let b := bv_of 128 7 in
  wf a /\ wf b
  /\ (rejects (KFromStr (repeat 49 49) 16 130) /\ panics (run Debug (KFromStr (repeat 49 49) 16 130)))
  /\ panics (run Debug (KFromStr (repeat 49 48 ++ [120]) 16 130))
  /\ (~ rejects (KFromStr (120 :: repeat 49 48) 16 130)
      /\ run Debug (KFromStr (120 :: repeat 49 48) 16 130) = Ok None)
  /\ (~ rejects (KSlice a 70 3) /\ run Debug (KSlice a 70 3) = Ok (Some (bv_of 68 (2 ^ 66))))
  /\ (rejects (KSlice b 128 3) /\ panics (run Debug (KSlice b 128 3)))
  /\ (~ rejects_question (QTest TLessSigned a a) /\ ask Release (QTest TLessSigned a a) = Ok tt)
  /\ rejects_question (QTest TLessSigned a b).
Proof.
  cbv zeta. split; [apply bv_of_is_bv; reflexivity|]. split; [apply bv_of_is_bv; reflexivity|].
  split; [split; [|eexists; reflexivity]|].
  { cbn [rejects]. split; [reflexivity|]. split; [discriminate|]. right. right.
    split; [reflexivity|]. split; [reflexivity|]. split; [reflexivity|].
    constructor; [left; split; discriminate|constructor]. }
  split; [eexists; reflexivity|].
  split; [split; [|reflexivity]|].
  { intros (_ & _ & [[H _]|[(_ & _ & _ & H)|(_ & _ & _ & F)]]); [now apply H|now apply H|].
    inversion_clear F. unfold hex_digit in H. vm_compute in H.
    destruct H as [[_ H]|[[_ H]|[_ H]]]; now apply H. }
  split; [split; [|reflexivity]|].
  { intros [H|[H|[_ [H|H]]]]; vm_compute in H; discriminate. }
  split; [split; [right; right; split; [reflexivity|now left]|eexists; reflexivity]|].
  split; [split; [|reflexivity]|left; discriminate].
  intros [H|H]; [now apply H|discriminate].
Qed.
