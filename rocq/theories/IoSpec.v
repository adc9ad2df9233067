(** * IoSpec: the number denoted by a byte string, for C28. *)

From Verif Require Import Base.

(** A byte string, least significant byte first. *)
Fixpoint bytes_val (l : list N) : N :=
  match l with
  | [] => 0
  | x :: t => x + 256 * bytes_val t
  end.

Definition is_bytes (l : list N) : Prop := Forall (fun b => b < 256) l.
