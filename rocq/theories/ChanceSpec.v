(** * ChanceSpec: array programs whose results depend on the hash tables (C92).

    The programs are those of ArrayInterpSpec.v, without the limits of RawArraySpec.v:
    sparse arrays may have indices of any width, and every write may be followed by a
    conversion.  Some results then depend on the hash tables.  The interpreter takes
    that chance as an argument, one [chance] for each call, and is never silent. *)

From Verif Require Import Base Bv Map Array Unwind Spec CallSpec ArraySpec DirtySpec MixedSpec KindSpec UnwindSpec
  ArrayInterpSpec RawArraySpec.
From Verif Require BvInterpSpec.
Import BvInterpSpec(slot).

(** Operands have the storage for their width; slices fit in memory. *)
Definition any_origin (o : origin) : Prop :=
  match o with
  | NewDense iw d | NewSparse iw d => well_shaped d /\ iw < 2 ^ 32
  | OfBools l => len l < 2 ^ 63
  | OfU8s l => Forall (fun x => x < 2 ^ 8) l /\ len l < 2 ^ 63
  | OfU64s l => Forall (fun x => x < 2 ^ 64) l /\ 8 * len l < 2 ^ 63
  end.
Definition any_range (c : acall) : Prop :=
  match c with
  | New _ o => any_origin o
  | Select _ i => well_shaped i
  | Change _ (Store i x) => well_shaped i /\ well_shaped x
  | _ => True
  end.

(** ** With the code

    Hash tables may behave differently at each call: each has a hasher of its own, and
    a table changes its layout when it grows. *)
Record hashes := mkhashes { h_probe : probe_oracle; h_order : hash_order; h_saved : hash_order }.
Definition proper (h : hashes) : Prop := hashing (h_probe h) /\ reorders (h_order h) /\ reorders (h_saved h).

Fixpoint perform_each (m : mode) (env : N -> option array) (hs : nat -> hashes) (cs : list acall)
  : list observation :=
  match cs with
  | [] => []
  | c :: rest =>
      let h := hs O in
      let (env', o) := perform1 (h_probe h) (h_order h) (h_saved h) m env c in
      o :: perform_each m env' (fun n => hs (S n)) rest
  end.

(** ** With the interpreter *)

(** What a hash table decides: whether the search for a missing key meets an entry
    with a similar hash, and in which order the entries are visited. *)
Record chance := mkchance { met : bool; visited : list N }.

(** Arrays with indices of up to 64 bits are known as before; wider ones by the
    elements written that are not the default, newest first. *)
Inductive thing :=
| Narrow (r : raw)
| Wide (iw dw base : N) (writes : list (slot * slot)).

Definition wide_at (writes : list (slot * slot)) (k : slot) : option slot :=
  match find (fun e => slot_eqb (fst e) k) writes with Some e => Some (snd e) | None => None end.

(** a debug assertion holds, or there is none *)
Definition passes (m : mode) (b : bool) : bool := match m with Debug => b | Release => true end.
Definition known {A} (g : guess A) : option A := match g with Known a => Some a | _ => None end.

(** ** Creation.  A result [None] is a panic. *)
Definition any_created (m : mode) (o : origin) : option thing :=
  match o with
  | NewSparse iw d =>
      if 64 <? iw then Some (Wide iw (width d) (uval d) []) else option_map Narrow (known (raw_created m o))
  | OfBools l =>
      (* beyond 2^31 elements there is no room for any of them *)
      if (len l <=? 2 ^ 31) || forallb negb l
      then Some (Narrow (mkraw (N.log2_up (len l)) 1 (RBits (packed l)))) else None
  | _ => option_map Narrow (known (raw_created m o))
  end.

(** ** Reading and writing *)

(** Looking for an index of more than 64 bits panics as soon as it meets an entry. *)
Definition lookup_fails (g : chance) (writes : list (slot * slot)) (k : slot) : bool :=
  match writes with
  | [] => false
  | _ => match wide_at writes k with Some _ => true | None => met g end
  end.

Definition any_read (m : mode) (g : chance) (t : thing) (w i : N) : option slot :=
  match t with
  | Narrow r => known (raw_read m r w i)
  | Wide iw dw base writes =>
      if passes m (w =? iw) && negb (lookup_fails g writes (w, i)) then Some (dw, base) else None
  end.

Definition with_cells (r : raw) (c : cells) : thing := Narrow (mkraw (q_iw r) (q_dw r) c).

Definition any_written (m : mode) (g : chance) (t : thing) (w i w' x : N) : option thing :=
  match t with
  | Narrow r => option_map (with_cells r) (known (raw_write m r w i w' x))
  | Wide iw dw base writes =>
      if passes m ((w =? iw) && (w' =? dw)) then
        (* compares the words that both have *)
        if low w' dw x =? low w' dw base
        then if lookup_fails g writes (w, i) then None else Some t
        else Some (Wide iw dw base (((w, i), (w', x)) :: writes))
      else None
  end.

Definition any_cleared (t : thing) : thing :=
  match t with
  | Narrow r => with_cells r (raw_cleared (q_cells r))
  | Wide iw dw _ _ => Wide iw dw 0 []
  end.

(** ** Sparse to dense *)

(** what differs from the default, in the order in which it is visited *)
Definition arranged {A} (order : list N) (writes : list (N * option A)) : list (N * A) :=
  flat_map (fun i => match entry_at writes i with Some x => [(i, x)] | None => [] end)
    (nodup N.eq_dec (map fst writes ++ order)).

Definition put_bits (n : N) (l : list (N * N)) : N :=
  fold_left (fun n e => if snd e =? 1 then N.setbit n (fst e mod 2 ^ 32) else N.clearbit n (fst e mod 2 ^ 32)) l n.

Definition densified_in (order : list N) (m : mode) (r : raw) : guess cells :=
  let iw := q_iw r in
  let dw := q_dw r in
  match q_cells r with
  | RSmall base writes =>
      let l := arranged order writes in
      match from_number m dw base with
      | Known (_, n) =>
          match raw_dense m iw dw n with
          | Known (RBits n) =>
              required (forallb (fun e => fst e mod 2 ^ 32 <? 64 * places (bits iw)) l)
                (checked m (forallb (fun e => snd e <=? 1) l) (Known (RBits (put_bits n l))))
          | Known (RCells n _) =>
              required (forallb (fun e => fst e <? elements iw) l)
                (Known (RCells n (map (fun e => (fst e, cell dw (snd e))) l)))
          | _ => Panicking
          end
      | _ => Panicking
      end
  | RBig base writes =>
      let l := arranged order writes in
      let p i := places dw * i mod 2 ^ 64 in
      match raw_dense m iw dw base with
      | Known _ =>
          (* every entry fails an assertion, see C39 *)
          checked m (match l with [] => true | _ => false end)
            (required (forallb (fun e => (p (fst e) + places dw <=? places dw * elements iw)
                                         && (places (fst (snd e)) =? places dw)) l)
               (Known (RWords base
                  (flat_map (fun e => split_from (p (fst e)) (snd (snd e)) (N.to_nat (places dw))) (rev l)))))
      | _ => Panicking
      end
  | c => Known c
  end.

Definition any_changed (m : mode) (g : chance) (t : thing) (c : change) : option thing :=
  match c with
  | Store i x => any_written m g t (width i) (uval i) (width x) (uval x)
  | Clear => Some (any_cleared t)
  | MakeDense =>
      match t with
      | Narrow r => option_map (with_cells r) (known (densified_in (visited g) m r))
      | Wide _ _ _ _ => None
      end
  end.

(** ** Comparing *)
Definition same_wide (l l' : list (slot * slot)) : bool :=
  forallb (fun k => option_eqb slot_eqb (wide_at l k) (wide_at l' k)) (map fst l ++ map fst l').

Definition any_iw (t : thing) : N := match t with Narrow r => q_iw r | Wide iw _ _ _ => iw end.
Definition any_dw (t : thing) : N := match t with Narrow r => q_dw r | Wide _ dw _ _ => dw end.
Definition any_is_dense (t : thing) : bool := match t with Narrow r => raw_is_dense r | Wide _ _ _ _ => false end.

Definition any_compared (m : mode) (g : chance) (t u : thing) : option (option bool) :=
  if (any_iw t =? any_iw u) && (any_dw t =? any_dw u) then
    match t, u with
    | Narrow r, Narrow s =>
        if Bool.eqb (raw_is_dense r) (raw_is_dense s)
        then Some (Some (same_cells (q_iw r) (q_dw r) (q_cells r) (q_cells s)))
        else
          match densified_in (visited g) m r, densified_in (visited g) m s with
          | Known a, Known b => Some (Some (same_cells (q_iw r) (q_dw r) a b))
          | _, _ => None
          end
    | Wide _ _ x l, Wide _ _ y l' => Some (Some ((x =? y) && same_wide l l'))
    | _, _ => None
    end
  else Some None.

(** ** Programs *)
Definition any_predict1 (m : mode) (g : chance) (env : N -> option thing) (c : acall)
  : (N -> option thing) * observation :=
  match c with
  | New k o => match any_created m o with Some t => (update env k t, Done) | None => (env, Panicked) end
  | Copy k j => match env j with Some t => (update env k t, Done) | None => (env, Missing) end
  | Select k i =>
      (env, match env k with
            | Some t => match any_read m g t (width i) (uval i) with Some (w, n) => Saw (bv_of w n) | None => Panicked end
            | None => Missing
            end)
  | Change k c =>
      match env k with
      | Some t => match any_changed m g t c with Some t' => (update env k t', Done) | None => (env, Panicked) end
      | None => (env, Missing)
      end
  | Compare k j =>
      (env, match env k, env j with
            | Some t, Some u => match any_compared m g t u with Some x => Answered x | None => Panicked end
            | _, _ => Missing
            end)
  | Reload k => (env, match env k with Some _ => Done | None => Missing end)
  | Describe k =>
      (env, match env k with Some t => Described (any_is_dense t) (any_iw t) (any_dw t) | None => Missing end)
  end.
Fixpoint any_predict_from (m : mode) (env : N -> option thing) (gs : nat -> chance) (cs : list acall)
  : list observation :=
  match cs with
  | [] => []
  | c :: rest =>
      let (env', o) := any_predict1 m (gs O) env c in o :: any_predict_from m env' (fun n => gs (S n)) rest
  end.
Definition any_predict (m : mode) : (nat -> chance) -> list acall -> list observation :=
  any_predict_from m (fun _ => None).
