(** * KindSpec: histories of an array in which only its kind and its type matter (C80). *)

From Verif Require Import Base Bv Map Array.

(** How an array is made ... *)
Inductive origin :=
| NewDense (iw : N) (default : bv) | NewSparse (iw : N) (default : bv)
| OfBools (l : list bool) | OfU8s (l : list N) | OfU64s (l : list N).
Definition make (m : mode) (o : origin) : res array :=
  match o with
  | NewDense iw d => array_new_dense m iw d
  | NewSparse iw d => array_new_sparse m iw d
  | OfBools l => array_from_bools m l
  | OfU8s l => array_from_u8s m l
  | OfU64s l => array_from_u64s m l
  end.

(** ... and what is done to it afterwards. *)
Inductive change := Store (index data : bv) | Clear | MakeDense.
Definition apply (probe : probe_oracle) (ho : hash_order) (m : mode) (a : array) (c : change) : res array :=
  match c with
  | Store i x => array_store probe m a i x
  | Clear => Ok (array_clear a)
  | MakeDense => array_make_dense ho m a
  end.
Fixpoint apply_all (probe : probe_oracle) (ho : hash_order) (m : mode) (a : array) (cs : list change) : res array :=
  match cs with
  | [] => Ok a
  | c :: rest => let* a' := apply probe ho m a c in apply_all probe ho m a' rest
  end.

(** Dense: made dense or from a slice, or [make_dense] was called. *)
Definition ends_dense (o : origin) (cs : list change) : bool :=
  (match o with NewSparse _ _ => false | _ => true end)
  || existsb (fun c => match c with MakeDense => true | _ => false end) cs.

(** The type the origin asks for; for a slice the smallest index width that has an
    index for each element. *)
Definition has_type (o : origin) (iw dw : N) : Prop :=
  match o with
  | NewDense i d | NewSparse i d => iw = i /\ dw = width d
  | OfBools l => len l <= 2 ^ iw /\ (forall k, len l <= 2 ^ k -> iw <= k) /\ dw = 1
  | OfU8s l => len l <= 2 ^ iw /\ (forall k, len l <= 2 ^ k -> iw <= k) /\ dw = 8
  | OfU64s l => len l <= 2 ^ iw /\ (forall k, len l <= 2 ^ k -> iw <= k) /\ dw = 64
  end.
