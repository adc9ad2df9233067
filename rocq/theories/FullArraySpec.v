(** * FullArraySpec: array programs with every public operation (C93).

    The programs of ChanceSpec.v with the remaining public operations on arrays: the
    conversion to a sparse array, the list of its entries, its default and the sizes.
    A [SparseArrayValue] is kept like an [ArrayValue] that is sparse; both share the
    operations of the two array traits. *)

From Verif Require Import Base Bv Map Array Unwind Spec CallSpec ArraySpec DirtySpec MixedSpec KindSpec UnwindSpec
  ArrayInterpSpec RawArraySpec ChanceSpec.
From Verif Require BvInterpSpec.
Import BvInterpSpec(slot).

Inductive fcall :=
| Plain (c : acall)
| IntoSparse (k j : N)             (* let k = SparseArrayValue::from(j.clone()) *)
| Entries (k : N)                  (* k.non_default_entries().collect::<Vec<_>>() *)
| Default (k : N)                  (* k.default() *)
| Sizes (k : N).                   (* k.num_elements(), k.words_per_element() *)

Inductive seen :=
| Simply (o : observation)
| Listed (l : list (bv * bv))
| Sized (num_elements words_per_element : N).

Definition full_range (c : fcall) : Prop := match c with Plain c => any_range c | _ => True end.

(** ** With the code *)
Definition full_perform1 (h : hashes) (m : mode) (env : N -> option array) (c : fcall)
  : (N -> option array) * seen :=
  match c with
  | Plain c => let (env', o) := perform1 (h_probe h) (h_order h) (h_saved h) m env c in (env', Simply o)
  | IntoSparse k j =>
      match env j with
      | Some a => match sparse_of_array (h_order h) m a with
                  | Ok s => (update env k (ASparse s), Simply Done)
                  | Panic _ => (env, Simply Panicked)
                  end
      | None => (env, Simply Missing)
      end
  | Entries k =>
      (env, match env k with
            | Some (ASparse s) =>
                match sparse_entries (h_order h) m s with Ok l => Listed l | Panic _ => Simply Panicked end
            | _ => Simply Missing      (* not a sparse array *)
            end)
  | Default k =>
      (env, match env k with
            | Some (ASparse s) => match sparse_default m s with Ok v => Simply (Saw v) | Panic _ => Simply Panicked end
            | _ => Simply Missing
            end)
  | Sizes k =>
      (env, match env k with
            | Some a => match num_elements m (array_index_width a) with
                        | Ok n => Sized n (words_per_element (array_data_width a))
                        | Panic _ => Simply Panicked
                        end
            | None => Simply Missing
            end)
  end.
Fixpoint full_perform_from (m : mode) (env : N -> option array) (hs : nat -> hashes) (cs : list fcall)
  : list seen :=
  match cs with
  | [] => []
  | c :: rest =>
      let (env', o) := full_perform1 (hs O) m env c in o :: full_perform_from m env' (fun n => hs (S n)) rest
  end.
Definition full_perform (m : mode) : (nat -> hashes) -> list fcall -> list seen :=
  full_perform_from m (fun _ => None).

(** ** With the interpreter *)

(** Chance also decides in which order keys of more than 64 bits are visited, and
    which of the most frequent elements becomes the default. *)
Record luck := mkluck { plain : chance; keys : list slot; favourite : N }.

(** *** Dense to sparse *)

(** the elements, from element 0 on *)
Definition numbers (r : raw) : list N :=
  map (fun k => let i := N.of_nat k in
         match q_cells r with
         | RBits n => if N.testbit n i then 1 else 0
         | RCells base writes => at_cell base writes i
         | RWords base writes =>
             joined (word_at (q_dw r) base writes) (places (q_dw r) * i) (N.to_nat (places (q_dw r)))
         | _ => 0
         end) (seq 0 (N.to_nat (elements (q_iw r)))).

(** how often [x] occurs; no element occurs more often *)
Definition times (l : list N) (x : N) : N := len (filter (N.eqb x) l).
Definition most_common (l : list N) (x : N) : bool := forallb (fun y => times l y <=? times l x) l.

(** Elements of 9 bits and more are counted until there are more than 2^20 different
    ones. *)
Fixpoint counted (different l : list N) : list N :=
  match l with
  | [] => []
  | x :: rest =>
      let different := if existsb (N.eqb x) different then different else x :: different in
      x :: if 2 ^ 20 <? len different then [] else counted different rest
  end.
Definition favoured (x : N) (l : list N) : N :=
  if existsb (N.eqb x) l && most_common l x then x
  else match find (most_common l) l with Some y => y | None => 0 end.

Definition new_default (g : luck) (r : raw) : option N :=
  let l := numbers r in
  match q_cells r with
  | RBits _ =>
      (* 2^32 bits and more cannot be read *)
      if elements (q_iw r) <? 2 ^ 32 then Some (if times l 0 <? times l 1 then 1 else 0) else None
  | RCells _ _ =>
      if q_dw r <=? 8 then
        (* there are 8 counters, see C40 *)
        if forallb (fun x => x <? 8) l then find (most_common l) [7; 6; 5; 4; 3; 2; 1; 0] else None
      else Some (favoured (favourite g) (counted [] l))
  | RWords _ _ => Some (favoured (favourite g) (counted [] l))
  | _ => None
  end.

(** the elements other than [x], the last one first; [base] is the default *)
Definition others {A} (f : N -> A) (x base : N) (l : list N) : list (N * option A) :=
  rev (flat_map (fun e => if snd e =? x then [] else [(fst e, if snd e =? base then None else Some (f (snd e)))])
         (combine (map N.of_nat (seq 0 (length l))) l)).

Definition into_sparse (m : mode) (g : luck) (t : thing) : option thing :=
  match t with
  | Wide _ _ _ _ => Some t
  | Narrow r =>
      if raw_is_dense r then
        let iw := q_iw r in
        let dw := q_dw r in
        match new_default g r with
        | Some x =>
            match (if dw <=? 64 then known (from_number m dw x) else Some (dw, x)) with
            | Some (_, base) =>
                if iw <=? 64 then
                  Some (Narrow (mkraw iw dw
                    (if dw <=? 64 then RSmall base (others (fun y => y) x base (numbers r))
                     else RBig base (others (fun y => (dw, y)) x base (numbers r)))))
                else
                  (* elements are written with indices of at most 64 bits *)
                  if forallb (N.eqb x) (numbers r) then Some (Wide iw dw base []) else None
            | None => None
            end
        | None => None
        end
      else Some t
  end.

(** *** Looking at sparse arrays *)
Definition slot_dec (s t : slot) : {s = t} + {s <> t}.
Proof. decide equality; apply N.eq_dec. Defined.

Definition wide_arranged (order : list slot) (writes : list (slot * slot)) : list (slot * slot) :=
  flat_map (fun k => match wide_at writes k with Some x => [(k, x)] | None => [] end)
    (nodup slot_dec (map fst writes ++ order)).

Fixpoint each {A B} (f : A -> option B) (l : list A) : option (list B) :=
  match l with
  | [] => Some []
  | x :: l => match f x, each f l with Some y, Some r => Some (y :: r) | _, _ => None end
  end.
Definition both {A B} (a : option A) (b : option B) : option (A * B) :=
  match a, b with Some x, Some y => Some (x, y) | _, _ => None end.

(** [None]: not a sparse array; [Some None]: a panic *)
Definition full_entries (m : mode) (g : luck) (t : thing) : option (option (list (slot * slot))) :=
  match t with
  | Narrow r =>
      let index i := known (from_number m (q_iw r) i) in
      match q_cells r with
      | RSmall _ writes =>
          Some (each (fun e => both (index (fst e)) (known (from_number m (q_dw r) (snd e))))
                  (arranged (visited (plain g)) writes))
      | RBig _ writes => Some (each (fun e => both (index (fst e)) (Some (snd e))) (arranged (visited (plain g)) writes))
      | _ => None
      end
  | Wide _ _ _ writes => Some (Some (wide_arranged (keys g) writes))
  end.

Definition full_default (m : mode) (t : thing) : option (option slot) :=
  match t with
  | Narrow r =>
      match q_cells r with
      | RSmall base _ => Some (known (from_number m (q_dw r) base))
      | RBig base _ => Some (Some (q_dw r, base))
      | _ => None
      end
  | Wide _ dw base _ => Some (Some (dw, base))
  end.

(** *** Programs *)
Definition a_bv (s : slot) : bv := bv_of (fst s) (snd s).

Definition full_predict1 (m : mode) (g : luck) (env : N -> option thing) (c : fcall)
  : (N -> option thing) * seen :=
  match c with
  | Plain c => let (env', o) := any_predict1 m (plain g) env c in (env', Simply o)
  | IntoSparse k j =>
      match env j with
      | Some t => match into_sparse m g t with
                  | Some t' => (update env k t', Simply Done)
                  | None => (env, Simply Panicked)
                  end
      | None => (env, Simply Missing)
      end
  | Entries k =>
      (env, match env k with
            | Some t => match full_entries m g t with
                        | Some (Some l) => Listed (map (fun e => (a_bv (fst e), a_bv (snd e))) l)
                        | Some None => Simply Panicked
                        | None => Simply Missing
                        end
            | None => Simply Missing
            end)
  | Default k =>
      (env, match env k with
            | Some t => match full_default m t with
                        | Some (Some s) => Simply (Saw (a_bv s))
                        | Some None => Simply Panicked
                        | None => Simply Missing
                        end
            | None => Simply Missing
            end)
  | Sizes k =>
      (env, match env k with
            | Some t => if passes m (any_iw t <? 64) then Sized (elements (any_iw t)) (places (any_dw t)) else Simply Panicked
            | None => Simply Missing
            end)
  end.
Fixpoint full_predict_from (m : mode) (env : N -> option thing) (gs : nat -> luck) (cs : list fcall)
  : list seen :=
  match cs with
  | [] => []
  | c :: rest =>
      let (env', o) := full_predict1 m (gs O) env c in o :: full_predict_from m env' (fun n => gs (S n)) rest
  end.
Definition full_predict (m : mode) : (nat -> luck) -> list fcall -> list seen :=
  full_predict_from m (fun _ => None).
