(** * PrettySpec: texts of several lines, for C90. *)

From Coq Require Import String.
From Verif Require Import Base Fmt.
Open Scope list_scope.

(** every line is followed by a line break (character 10) *)
Definition line (s : list N) : list N := s ++ [10].
