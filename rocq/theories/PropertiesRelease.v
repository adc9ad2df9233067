(** * C75: which calls panic in a release build. *)

From Verif Require Import Base Bv Spec CallSpec PanicSpec MixedSpec ReleaseSpec PropsArith PRelease.

(** C75: a call on valid values panics in a release build for exactly the arguments
    listed in ReleaseSpec.v. *)
Theorem C75_calls : forall c, (forall a, In a (operands c) -> wf a) -> in_range c -> in_memory c ->
  (panics (run Release c) <-> rejects_release c).
Proof. exact release_panics. Qed.
Print Assumptions C75_calls.

Theorem C75_questions : forall q, (forall a, In a (asked q) -> wf a) ->
  (panics (ask Release q) <-> rejects_question_release q).
Proof. exact question_release_panics. Qed.
Print Assumptions C75_questions.

(** C75: a release build never panics where a debug build does not. *)
Theorem C75_no_new_panics : forall c, (forall a, In a (operands c) -> wf a) -> in_range c -> in_memory c ->
  panics (run Release c) -> panics (run Debug c).
Proof. exact no_new_panics. Qed.
Print Assumptions C75_no_new_panics.

Theorem C75_no_new_panics_questions : forall q, (forall a, In a (asked q) -> wf a) ->
  panics (ask Release q) -> panics (ask Debug q).
Proof. exact no_new_panics_question. Qed.
Print Assumptions C75_no_new_panics_questions.

(** C75: a number of 2^32 bits or more is silently cut to the wrapped-around width. *)
Theorem C75_big_uint : forall n, N.size n < 2 ^ 38 - 64 ->
  yields (bv_of_big_uint Release n) (N.size n mod 2 ^ 32) (n mod 2 ^ (N.size n mod 2 ^ 32)).
Proof. exact of_big_uint_release. Qed.
Print Assumptions C75_big_uint.

Theorem C75_big_int : forall z, N.size (Z.abs_N z) < 2 ^ 38 - 64 ->
  let w := (N.size (Z.abs_N z) + 1) mod 2 ^ 32 in
  w <> 0 -> yields (bv_of_big_int Release z) w (wrap w z).
Proof. exact of_big_int_wraps. Qed.
Print Assumptions C75_big_int.

(** Bit 70 of a 70-bit value can be sliced, in both builds; bits 71 to 127 only in a
    release build, bit 128 in neither.  Adding 100 bits to 70 works in a release
    build, multiplying them does not; 70 bits can be assigned to 100, not to 130. *)
Example C75_example :
  let a := bv_of 70 (2 ^ 69 + 5) in let b := bv_of 100 7 in let c := bv_of 130 7 in
  wf a /\ wf b /\ wf c
  /\ (rejects (KSlice a 127 69) /\ ~ rejects_release (KSlice a 127 69)
      /\ run Release (KSlice a 127 69) = Ok (Some (bv_of 59 1)))
  /\ (rejects_release (KSlice a 128 69) /\ panics (run Release (KSlice a 128 69)))
  /\ (~ rejects_release (KBin BAdd a b) /\ rejects_release (KBin BMul a b))
  /\ (~ rejects_release (KAssign b a) /\ rejects_release (KAssign c a))
  /\ (~ rejects_question_release (QFixed a 80) /\ rejects_question (QFixed a 80)
      /\ ask Release (QFixed a 80) = Ok tt).
Proof.
  cbv zeta. do 3 (split; [apply bv_of_is_bv; reflexivity|]).
  split; [split; [left; reflexivity|split; [|reflexivity]]|].
  { intros [H|[H|[H|[H _]]]]; vm_compute in H; try discriminate; now apply H. }
  split; [split; [left; vm_compute; discriminate|eexists; reflexivity]|].
  split; [split|].
  { intros [H|[H _]]; vm_compute in H; [discriminate|now apply H]. }
  { right. left. reflexivity. }
  split; [split; [intros H; now apply H|discriminate]|].
  split; [intros []|]. split; [left; reflexivity|reflexivity].
Qed.
