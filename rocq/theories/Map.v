(** * Map: std::collections::HashMap as an association list.

    The model keeps one entry per key.  The position of an entry in the list
    carries no meaning: wherever the code iterates over a map, the model first
    passes the entries through an arbitrary reordering (see [hash_order]). *)

From Verif Require Import Base.

Section HashMap.
  Context {K V : Type} (eqb : K -> K -> bool).

  (** [map.get(k)] *)
  Fixpoint hm_get (l : list (K * V)) (k : K) : option V :=
    match l with
    | [] => None
    | (k', v) :: t => if eqb k' k then Some v else hm_get t k
    end.

  (** [map.insert(k, v)] *)
  Fixpoint hm_insert (l : list (K * V)) (k : K) (v : V) : list (K * V) :=
    match l with
    | [] => [(k, v)]
    | (k', v') :: t => if eqb k' k then (k', v) :: t else (k', v') :: hm_insert t k v
    end.

  (** [map.remove(k)] *)
  Fixpoint hm_remove (l : list (K * V)) (k : K) : list (K * V) :=
    match l with
    | [] => []
    | (k', v') :: t => if eqb k' k then t else (k', v') :: hm_remove t k
    end.

  (** [map_a == map_b]: same length and every entry of the left one is found
      with an equal value in the right one (std's PartialEq for HashMap) *)
  Definition hm_eqb (veqb : V -> V -> bool) (a b : list (K * V)) : bool :=
    (len a =? len b)
    && forallb (fun kv => match hm_get b (fst kv) with
                          | Some v => veqb (snd kv) v
                          | None => false
                          end) a.
End HashMap.

(** An iteration order: some reordering of the entries of a map. *)
Definition hash_order := forall A : Type, list A -> list A.

(** Folding a fallible step over a list ([for] loop whose body may panic). *)
Fixpoint foldM {A B} (f : A -> B -> res A) (l : list B) (a : A) : res A :=
  match l with
  | [] => Ok a
  | x :: t => let* a' := f a x in foldM f t a'
  end.

(** Mapping a fallible function over a list. *)
Fixpoint mapM {A B} (f : A -> res B) (l : list A) : res (list B) :=
  match l with
  | [] => Ok []
  | x :: t => let* y := f x in let* r := mapM f t in Ok (y :: r)
  end.

(** [iter.max_by_key(key)]: the last element with the greatest key. *)
Fixpoint max_by_key_from {A} (key : A -> N) (best : A) (l : list A) : A :=
  match l with
  | [] => best
  | x :: t => max_by_key_from key (if key best <=? key x then x else best) t
  end.
Definition max_by_key {A} (key : A -> N) (l : list A) : option A :=
  match l with [] => None | x :: t => Some (max_by_key_from key x t) end.
