(** * PropertiesKind: kind and type of arrays (C80). *)

From Coq Require Import String.
From Verif Require Import Base Bv Map Array Fmt Spec KindSpec PKind.
Open Scope list_scope.
Open Scope N_scope.

(** ** C80: an array keeps the type it was made with and changes its kind only when
    [make_dense] is called, whatever the operands of the calls in between and in both
    build modes. *)
Theorem C80_kind : forall probe ho m o cs a, (let* a := make m o in apply_all probe ho m a cs) = Ok a ->
  array_is_dense a = ends_dense o cs /\ array_is_sparse a = negb (ends_dense o cs)
  /\ has_type o (array_index_width a) (array_data_width a)
  /\ debug_array a = lit (if ends_dense o cs then "DenseArrayValue(..)" else "SparseArrayValue(..)").
Proof. exact kinds. Qed.
Print Assumptions C80_kind.

(** [make_dense] leaves a dense array as it is. *)
Theorem C80_idempotent : forall ho m a, array_is_dense a = true -> array_make_dense ho m a = Ok a.
Proof. exact make_dense_same. Qed.
Print Assumptions C80_idempotent.

Example C80_example :
  let probe := (fun _ _ => false) : probe_oracle in let ho := (fun _ l => l) : hash_order in
  (exists a, (let* a := make Debug (NewSparse 3 (bv_of 8 7)) in
              apply_all probe ho Debug a [Store (bv_of 3 1) (bv_of 8 5); Clear]) = Ok a
     /\ array_is_sparse a = true /\ array_is_dense a = false /\ array_index_width a = 3)
  /\ (exists a, (let* a := make Release (NewSparse 3 (bv_of 8 7)) in
              apply_all probe ho Release a [Store (bv_of 4 1) (bv_of 9 5); MakeDense; Clear]) = Ok a
     /\ array_is_sparse a = false /\ array_is_dense a = true /\ array_data_width a = 8)
  /\ (exists a, make Debug (OfU64s [1; 2; 3; 4; 5]) = Ok a /\ array_index_width a = 3
     /\ array_is_dense a = true).
Proof. cbv zeta. split; [|split]; eexists; repeat split. Qed.
