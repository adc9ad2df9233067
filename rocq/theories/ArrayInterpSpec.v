(** * ArrayInterpSpec: a reference interpreter for programs over arrays (C82).

    A program is a list of calls on numbered variables that hold arrays.  [perform]
    runs it with the modelled code and catches every panic.  [predict] computes what
    each call does; it knows an array only as a number for the elements that were
    never written, and the list of the writes, newest first. *)

From Verif Require Import Base Bv Map Array Serde Unwind Spec KindSpec UnwindSpec.

(** ** Programs *)
Inductive acall :=
| New (k : N) (o : origin)         (* let k = ArrayValue::new_dense(..), ... *)
| Copy (k j : N)                   (* let k = j.clone() *)
| Select (k : N) (index : bv)      (* k.select(index) *)
| Change (k : N) (c : change)      (* k.store(..), k.clear(), k.make_dense() *)
| Compare (k j : N)                (* k.is_equal(&j) *)
| Reload (k : N)                   (* k is serialized and deserialized with serde *)
| Describe (k : N).                (* k.is_dense(), k.index_width(), k.data_width() *)

(** What a call does, for the caller. *)
Inductive observation :=
| Missing                          (* there is no such variable *)
| Panicked
| Rejected                         (* a deserialization error *)
| Done
| Saw (v : bv)
| Answered (r : option bool)
| Described (is_dense : bool) (index_width data_width : N).

(** Operands are valid bit-vectors, elements have at least one bit; sparse arrays
    have indices of at most 64 bits, and slices fit in memory. *)
Definition origin_range (o : origin) : Prop :=
  match o with
  | NewDense _ d => wf d /\ 0 < width d
  | NewSparse iw d => wf d /\ 0 < width d /\ iw <= 64
  | OfBools l => len l <= 2 ^ 31
  | OfU8s l => Forall (fun x => x < 2 ^ 8) l /\ len l <= 2 ^ 62
  | OfU64s l => Forall (fun x => x < 2 ^ 64) l /\ len l <= 2 ^ 59
  end.
Definition acall_range (c : acall) : Prop :=
  match c with
  | New _ o => origin_range o
  | Select _ i => wf i
  | Change _ (Store i x) => wf i /\ wf x
  | _ => True
  end.

(** ** With the code

    [ho] and [order] are the orders in which entries of hash tables are visited by
    the library and by serde. *)

Definition update {A} (env : N -> option A) (k : N) (a : A) : N -> option A :=
  fun n => if n =? k then Some a else env n.

Definition perform1 (probe : probe_oracle) (ho order : hash_order) (m : mode) (env : N -> option array)
  (c : acall) : (N -> option array) * observation :=
  match c with
  | New k o => match make m o with Ok a => (update env k a, Done) | Panic _ => (env, Panicked) end
  | Copy k j => match env j with Some a => (update env k a, Done) | None => (env, Missing) end
  | Select k i =>
      match env k with
      | Some a => (env, match array_select probe m a i with Ok v => Saw v | Panic _ => Panicked end)
      | None => (env, Missing)
      end
  | Change k c =>
      match env k with
      | Some a => match change_call probe ho m c a with
                  | Returned a' _ => (update env k a', Done)
                  | Unwound a' _ => (update env k a', Panicked)
                  end
      | None => (env, Missing)
      end
  | Compare k j =>
      match env k, env j with
      | Some a, Some b =>
          (env, match array_is_equal ho m a b with Ok r => Answered r | Panic _ => Panicked end)
      | _, _ => (env, Missing)
      end
  | Reload k =>
      match env k with
      | Some a => match de_array (ser_array order a) with
                  | Some a' => (update env k a', Done)
                  | None => (env, Rejected)
                  end
      | None => (env, Missing)
      end
  | Describe k =>
      match env k with
      | Some a => (env, Described (array_is_dense a) (array_index_width a) (array_data_width a))
      | None => (env, Missing)
      end
  end.
Fixpoint perform_from (probe : probe_oracle) (ho order : hash_order) (m : mode) (env : N -> option array)
  (cs : list acall) : list observation :=
  match cs with
  | [] => []
  | c :: rest => let (env', o) := perform1 probe ho order m env c in o :: perform_from probe ho order m env' rest
  end.
Definition perform (probe : probe_oracle) (ho order : hash_order) (m : mode) : list acall -> list observation :=
  perform_from probe ho order m (fun _ => None).

(** ** With the interpreter *)

Record memory := mkmem { r_dense : bool; r_iw : N; r_dw : N; r_base : N; r_writes : list (N * N) }.

Definition elem (r : memory) (i : N) : N :=
  match find (fun e => fst e =? i) (r_writes r) with Some e => snd e | None => r_base r end.

(** some element is not [base] *)
Definition touched (r : memory) : bool := existsb (fun e => negb (elem r (fst e) =? r_base r)) (r_writes r).

(** A debug build creates no dense array of more than 2^30 bytes; for elements of
    more than 64 bits it counts words, not bytes. *)
Definition refused (iw dw : N) : bool :=
  2 ^ 30 <? (if dw =? 1 then (2 ^ iw + 7) / 8
             else if dw <=? 8 then 2 ^ iw
             else if dw <=? 64 then 8 * 2 ^ iw
             else (dw + 63) / 64 * 2 ^ iw).
(** 2^32 and more one-bit elements are not refused, but there is no room for them:
    no index works, and creating or copying a 1 fails. *)
Definition roomless (iw dw : N) : bool := (dw =? 1) && (32 <=? iw).

(** make_dense of a sparse array panics *)
Definition stuck (r : memory) : bool :=
  refused (r_iw r) (r_dw r)
  || ((64 <? r_dw r) && touched r)
  || (roomless (r_iw r) (r_dw r) && ((r_base r =? 1) || touched r)).

(** a dense array of the elements of a slice; the rest of the indices gives 0 *)
Definition slice (dw : N) (l : list N) : memory :=
  mkmem true (N.log2_up (len l)) dw 0 (combine (map N.of_nat (seq 0 (length l))) l).

Definition created (o : origin) : option memory :=
  match o with
  | NewDense w d =>
      if refused w (width d) || (roomless w (width d) && (uval d =? 1)) then None
      else Some (mkmem true w (width d) (uval d) [])
  | NewSparse w d => Some (mkmem false w (width d) (uval d) [])
  | OfBools l => Some (slice 1 (map (fun b : bool => if b then 1 else 0) l))
  | OfU8s l => Some (slice 8 l)
  | OfU64s l => Some (slice 64 l)
  end.

(** index [i] can be used with [r] *)
Definition usable (r : memory) (i : bv) : bool :=
  (width i =? r_iw r) && negb (r_dense r && roomless (r_iw r) (r_dw r)).

Definition changed (r : memory) (c : change) : option memory :=
  match c with
  | Store i x =>
      if usable r i && (width x =? r_dw r)
      then Some (mkmem (r_dense r) (r_iw r) (r_dw r) (r_base r) ((uval i, uval x) :: r_writes r)) else None
  | Clear => Some (mkmem (r_dense r) (r_iw r) (r_dw r) 0 [])
  | MakeDense =>
      if r_dense r then Some r
      else if stuck r then None
      else Some (mkmem true (r_iw r) (r_dw r) (r_base r) (r_writes r))
  end.

Definition same_elements (r s : memory) : bool :=
  forallb (fun i => elem r (N.of_nat i) =? elem s (N.of_nat i)) (seq 0 (N.to_nat (2 ^ r_iw r))).

(** Arrays of different types are not comparable ([None]).  Two sparse arrays also
    differ when their defaults do.  Comparing a sparse array with a dense one makes
    it dense first. *)
Definition compared (r s : memory) : observation :=
  if (r_iw r =? r_iw s) && (r_dw r =? r_dw s) then
    match r_dense r, r_dense s with
    | true, true => Answered (Some (same_elements r s))
    | false, false => Answered (Some ((r_base r =? r_base s) && same_elements r s))
    | true, false => if stuck s then Panicked else Answered (Some (same_elements r s))
    | false, true => if stuck r then Panicked else Answered (Some (same_elements r s))
    end
  else Answered None.

Definition predict1 (env : N -> option memory) (c : acall) : (N -> option memory) * observation :=
  match c with
  | New k o => match created o with Some r => (update env k r, Done) | None => (env, Panicked) end
  | Copy k j => match env j with Some r => (update env k r, Done) | None => (env, Missing) end
  | Select k i =>
      match env k with
      | Some r => (env, if usable r i then Saw (bv_of (r_dw r) (elem r (uval i))) else Panicked)
      | None => (env, Missing)
      end
  | Change k c =>
      match env k with
      | Some r => match changed r c with Some r' => (update env k r', Done) | None => (env, Panicked) end
      | None => (env, Missing)
      end
  | Compare k j =>
      match env k, env j with
      | Some r, Some s => (env, compared r s)
      | _, _ => (env, Missing)
      end
  | Reload k => (env, match env k with Some _ => Done | None => Missing end)
  | Describe k =>
      match env k with
      | Some r => (env, Described (r_dense r) (r_iw r) (r_dw r))
      | None => (env, Missing)
      end
  end.
Fixpoint predict_from (env : N -> option memory) (cs : list acall) : list observation :=
  match cs with
  | [] => []
  | c :: rest => let (env', o) := predict1 env c in o :: predict_from env' rest
  end.
Definition predict : list acall -> list observation := predict_from (fun _ => None).
