(** * ProfileSpec: comparing the two build profiles. *)

From Verif Require Import Base.

(** Whatever the call returns in a debug build, it returns in a release build:
    debug assertions and overflow checks may turn a result into a panic, but
    never change a result. *)
Definition same_in_release {A} (call : mode -> res A) : Prop :=
  forall x, call Debug = Ok x -> call Release = Ok x.
