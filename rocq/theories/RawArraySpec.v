(** * RawArraySpec: a reference interpreter for array programs with any operands, in
    both build profiles (C87).

    The programs are those of ArrayInterpSpec.v.  There the operands are valid and the
    build has debug assertions.  Here an operand is any bit-vector, of any width and
    with any bits of its storage set, known as a width and a number.  An array is
    known by the numbers written into it. *)

From Verif Require Import Base Bv Map Array Spec CallSpec DirtySpec MixedSpec KindSpec ArrayInterpSpec.
From Verif Require BvInterpSpec.
Import BvInterpSpec(slot).

(** Operands have the storage for their width; slices fit in memory.  Sparse arrays
    have indices of at most 64 bits (beyond that, results depend on the hash function,
    see C71). *)
Definition raw_origin (o : origin) : Prop :=
  match o with
  | NewDense iw d => well_shaped d /\ iw < 2 ^ 32
  | NewSparse iw d => well_shaped d /\ iw <= 64
  | OfBools l => len l <= 2 ^ 31
  | OfU8s l => Forall (fun x => x < 2 ^ 8) l /\ len l < 2 ^ 63
  | OfU64s l => Forall (fun x => x < 2 ^ 64) l /\ 8 * len l < 2 ^ 63
  end.
Definition raw_range (c : acall) : Prop :=
  match c with
  | New _ o => raw_origin o
  | Select _ i => well_shaped i
  | Change _ (Store i x) => well_shaped i /\ well_shaped x
  | _ => True
  end.

(** What is known about a call: its result, that it panics, or nothing. *)
Inductive guess (A : Type) := Known (a : A) | Panicking | Unknown.
Arguments Known {A} a.
Arguments Panicking {A}.
Arguments Unknown {A}.

(** The writes are listed newest first. *)
Inductive cells :=
| RBits (n : N)                                 (* dense, one bit per element: one number *)
| RCells (base : N) (writes : list (N * N))     (* dense, up to 64 bits: element numbers *)
| RWords (base : N) (writes : list (N * N))     (* dense, above: 64-bit words at word positions *)
| RSmall (base : N) (writes : list (N * option N))    (* sparse, up to 64 bits; None: the default *)
| RBig (base : N) (writes : list (N * option slot)).  (* sparse, above: each element has its own width *)
Record raw := mkraw { q_iw : N; q_dw : N; q_cells : cells }.

Definition latest {A} (writes : list (N * A)) (i : N) : option A :=
  match find (fun e => fst e =? i) writes with Some e => Some (snd e) | None => None end.
Definition at_cell (base : N) (writes : list (N * N)) (i : N) : N :=
  match latest writes i with Some x => x | None => base end.
Definition entry_at {A} (writes : list (N * option A)) (i : N) : option A :=
  match latest writes i with Some o => o | None => None end.

(** the number of elements ([1usize << iw]) and of one-bit elements (a u32) *)
Definition elements (iw : N) : N := 2 ^ (iw mod 64).
Definition bits (iw : N) : N := elements iw mod 2 ^ 32.

(** elements of up to 8 bits are kept as bytes *)
Definition cell (dw x : N) : N := if dw <=? 8 then x mod 2 ^ 8 else x.

(** the 64-bit words of a number, and back *)
Definition word (n j : N) : N := n / 2 ^ (64 * j) mod 2 ^ 64.
Definition word_at (dw base : N) (writes : list (N * N)) (p : N) : N :=
  match latest writes p with Some x => x | None => word base (p mod places dw) end.
Fixpoint joined (f : N -> N) (p : N) (k : nat) : N :=
  match k with O => 0 | S k => f p + 2 ^ 64 * joined f (p + 1) k end.
Fixpoint split_from (p n : N) (k : nat) : list (N * N) :=
  match k with O => [] | S k => (p, n mod 2 ^ 64) :: split_from (p + 1) (n / 2 ^ 64) k end.

(** a debug assertion *)
Definition checked {A} (m : mode) (b : bool) (g : guess A) : guess A :=
  match m with Debug => if b then g else Panicking | Release => g end.
Definition required {A} (b : bool) (g : guess A) : guess A := if b then g else Panicking.

(** [BitVecValue::from_u64] *)
Definition from_number (m : mode) (w x : N) : guess slot :=
  required (0 <? w) (checked m (x <? 2 ^ w) (Known (w, x mod 2 ^ w))).

(** ** Creation *)

(** A vector of more than 2^63 - 1 bytes is a panic. *)
Definition raw_dense (m : mode) (iw dw n : N) : guess cells :=
  checked m (negb (refused iw dw))
    (if dw =? 1 then
       if n =? 1 then required (0 <? bits iw) (Known (RBits (2 ^ bits iw - 1)))
       else checked m (n =? 0) (Known (RBits 0))
     else if dw <=? 64 then
       required ((if dw <=? 8 then 1 else 8) * elements iw <? 2 ^ 63) (Known (RCells (cell dw n) []))
     else required (8 * (places dw * elements iw) <? 2 ^ 63) (Known (RWords n []))).
Definition raw_slice (dw : N) (l : list N) : raw :=
  mkraw (N.log2_up (len l)) dw (RCells 0 (combine (map N.of_nat (seq 0 (length l))) l)).
Fixpoint packed (l : list bool) : N :=
  match l with [] => 0 | b :: l => (if b then 1 else 0) + 2 * packed l end.
Definition raw_created (m : mode) (o : origin) : guess raw :=
  match o with
  | NewDense iw d =>
      match raw_dense m iw (width d) (uval d) with
      | Known c => Known (mkraw iw (width d) c)
      | Panicking => Panicking
      | Unknown => Unknown
      end
  | NewSparse iw d =>
      Known (mkraw iw (width d) (if width d <=? 64 then RSmall (uval d) [] else RBig (uval d) []))
  | OfBools l => Known (mkraw (N.log2_up (len l)) 1 (RBits (packed l)))
  | OfU8s l => required (2 ^ N.log2_up (len l) <? 2 ^ 63) (Known (raw_slice 8 l))
  | OfU64s l => required (8 * 2 ^ N.log2_up (len l) <? 2 ^ 63) (Known (raw_slice 64 l))
  end.

(** ** Reading *)

(** the position of element [i] in the words of a wide dense array *)
Definition position {A} (m : mode) (iw dw i : N) (k : N -> guess A) : guess A :=
  checked m (places dw * i <? 2 ^ 64)
    (let p := places dw * i mod 2 ^ 64 in
     required (p + places dw <=? places dw * elements iw) (k p)).

Definition raw_read (m : mode) (r : raw) (w i : N) : guess slot :=
  checked m (w =? q_iw r) (required (i <? 2 ^ 64)
    match q_cells r with
    | RBits n =>
        let p := i mod 2 ^ 32 in
        required (p <? 64 * places (bits (q_iw r))) (Known (1, if N.testbit n p then 1 else 0))
    | RCells base writes =>
        required (i <? elements (q_iw r)) (from_number m (q_dw r) (at_cell base writes i))
    | RWords base writes =>
        position m (q_iw r) (q_dw r) i (fun p =>
          Known (q_dw r, joined (word_at (q_dw r) base writes) p (N.to_nat (places (q_dw r)))))
    | RSmall base writes =>
        from_number m (q_dw r) match entry_at writes i with Some x => x | None => base end
    | RBig base writes =>
        Known match entry_at writes i with Some s => s | None => (q_dw r, base) end
    end).

(** ** Writing *)
Definition raw_write (m : mode) (r : raw) (w i w' x : N) : guess cells :=
  checked m ((w =? q_iw r) && (w' =? q_dw r)) (required (i <? 2 ^ 64)
    match q_cells r with
    | RBits n =>
        let p := i mod 2 ^ 32 in
        required (p <? 64 * places (bits (q_iw r)))
          (Known (RBits (if (w' =? 1) && (x =? 1) then N.setbit n p else N.clearbit n p)))
    | RCells base writes =>
        required ((i <? elements (q_iw r)) && (x <? 2 ^ 64)) (Known (RCells base ((i, cell (q_dw r) x) :: writes)))
    | RWords base writes =>
        position m (q_iw r) (q_dw r) i (fun p =>
          required (places w' =? places (q_dw r))
            (Known (RWords base (split_from p x (N.to_nat (places (q_dw r))) ++ writes))))
    | RSmall base writes =>
        required (x <? 2 ^ 64) (Known (RSmall base ((i, if x =? base then None else Some x) :: writes)))
    | RBig base writes =>
        (* compares the words that both have *)
        Known (RBig base ((i, if low w' (q_dw r) x =? low w' (q_dw r) base then None else Some (w', x)) :: writes))
    end).

Definition raw_cleared (c : cells) : cells :=
  match c with
  | RBits _ => RBits 0
  | RCells _ _ => RCells 0 []
  | RWords _ _ => RWords 0 []
  | RSmall _ _ => RSmall 0 []
  | RBig _ _ => RBig 0 []
  end.

(** ** Sparse to dense *)

(** what differs from the default *)
Definition entries {A} (writes : list (N * option A)) : list (N * A) :=
  flat_map (fun e => match entry_at writes (fst e) with Some x => [(fst e, x)] | None => [] end) writes.

Definition into_bits (m : mode) (iw : N) (n : N) (l : list (N * N)) : guess cells :=
  let room := 64 * places (bits iw) in
  required (forallb (fun e => fst e mod 2 ^ 32 <? room) l)
    (checked m (forallb (fun e => snd e <=? 1) l)
       (* the order in which hash tables are visited decides between two such entries *)
       (if existsb (fun e => existsb (fun f =>
             negb (fst e =? fst f) && (fst e mod 2 ^ 32 =? fst f mod 2 ^ 32)) l) l
        then Unknown
        else Known (RBits (fold_left (fun n e => if snd e =? 1 then N.setbit n (fst e mod 2 ^ 32)
                                                 else N.clearbit n (fst e mod 2 ^ 32)) l n)))).

(** [self] as dense array *)
Definition densified (m : mode) (r : raw) : guess cells :=
  let iw := q_iw r in
  let dw := q_dw r in
  match q_cells r with
  | RSmall base writes =>
      match from_number m dw base with
      | Known (_, n) =>
          match raw_dense m iw dw n with
          | Known (RBits n) => into_bits m iw n (entries writes)
          | Known (RCells n _) =>
              required (forallb (fun e => fst e <? elements iw) (entries writes))
                (Known (RCells n (map (fun e => (fst e, cell dw (snd e))) (entries writes))))
          | Known _ => Unknown
          | Panicking => Panicking
          | Unknown => Unknown
          end
      | Panicking => Panicking
      | Unknown => Unknown
      end
  | RBig base writes =>
      match raw_dense m iw dw base with
      | Known _ =>
          let l := entries writes in
          (* every entry fails an assertion, see C39 *)
          checked m (match l with [] => true | _ => false end)
            (* positions that do not fit 64 bits may overlap with others *)
            (if existsb (fun e => 2 ^ 64 <=? places dw * fst e) l then Unknown
             else required (forallb (fun e => (fst e <? elements iw) && (places (fst (snd e)) =? places dw)) l)
                    (Known (RWords base
                       (flat_map (fun e => split_from (places dw * fst e) (snd (snd e)) (N.to_nat (places dw))) l))))
      | Panicking => Panicking
      | Unknown => Unknown
      end
  | c => Known c
  end.

Definition raw_changed (m : mode) (r : raw) (c : change) : guess cells :=
  match c with
  | Store i x => raw_write m r (width i) (uval i) (width x) (uval x)
  | Clear => Known (raw_cleared (q_cells r))
  | MakeDense => densified m r
  end.

(** ** Comparing *)

Definition same_at {A} (eqb : A -> A -> bool) (n : N) (f g : N -> A) : bool :=
  forallb (fun i => eqb (f (N.of_nat i)) (g (N.of_nat i))) (seq 0 (N.to_nat n)).
Definition option_eqb {A} (eqb : A -> A -> bool) (a b : option A) : bool :=
  match a, b with Some x, Some y => eqb x y | None, None => true | _, _ => false end.
Definition slot_eqb (s t : slot) : bool := (fst s =? fst t) && (snd s =? snd t).
(** two sparse arrays: the entries of both *)
Definition same_entries {A} (eqb : A -> A -> bool) (l l' : list (N * option A)) : bool :=
  forallb (fun i => option_eqb eqb (entry_at l i) (entry_at l' i)) (map fst l ++ map fst l').

(** two dense or two sparse arrays of the same type; dense ones are compared cell by
    cell, whatever their width *)
Definition same_cells (iw dw : N) (a b : cells) : bool :=
  match a, b with
  | RBits n, RBits k => n =? k
  | RCells x l, RCells y l' => same_at N.eqb (elements iw) (at_cell x l) (at_cell y l')
  | RWords x l, RWords y l' => same_at N.eqb (places dw * elements iw) (word_at dw x l) (word_at dw y l')
  | RSmall x l, RSmall y l' => (x =? y) && same_entries N.eqb l l'
  | RBig x l, RBig y l' => (x =? y) && same_entries slot_eqb l l'
  | _, _ => false
  end.

Definition raw_is_dense (r : raw) : bool :=
  match q_cells r with RSmall _ _ | RBig _ _ => false | _ => true end.

Definition raw_compared (m : mode) (r s : raw) : guess (option bool) :=
  if (q_iw r =? q_iw s) && (q_dw r =? q_dw s) then
    if Bool.eqb (raw_is_dense r) (raw_is_dense s)
    then Known (Some (same_cells (q_iw r) (q_dw r) (q_cells r) (q_cells s)))
    else
      match densified m r, densified m s with
      | Known a, Known b => Known (Some (same_cells (q_iw r) (q_dw r) a b))
      | Panicking, _ | _, Panicking => Panicking
      | _, _ => Unknown
      end
  else Known None.

(** ** Programs *)

Definition raw_predict1 (m : mode) (env : N -> option raw) (c : acall)
  : option ((N -> option raw) * observation) :=
  match c with
  | New k o =>
      match raw_created m o with
      | Known r => Some (update env k r, Done)
      | Panicking => Some (env, Panicked)
      | Unknown => None
      end
  | Copy k j =>
      Some match env j with Some r => (update env k r, Done) | None => (env, Missing) end
  | Select k i =>
      match env k with
      | Some r =>
          match raw_read m r (width i) (uval i) with
          | Known (w, n) => Some (env, Saw (bv_of w n))
          | Panicking => Some (env, Panicked)
          | Unknown => None
          end
      | None => Some (env, Missing)
      end
  | Change k c =>
      match env k with
      | Some r =>
          match raw_changed m r c with
          | Known cells => Some (update env k (mkraw (q_iw r) (q_dw r) cells), Done)
          | Panicking => Some (env, Panicked)
          | Unknown => None
          end
      | None => Some (env, Missing)
      end
  | Compare k j =>
      match env k, env j with
      | Some r, Some s =>
          match raw_compared m r s with
          | Known x => Some (env, Answered x)
          | Panicking => Some (env, Panicked)
          | Unknown => None
          end
      | _, _ => Some (env, Missing)
      end
  | Reload k => Some (env, match env k with Some _ => Done | None => Missing end)
  | Describe k =>
      Some (env, match env k with Some r => Described (raw_is_dense r) (q_iw r) (q_dw r) | None => Missing end)
  end.
Fixpoint raw_predict_from (m : mode) (env : N -> option raw) (cs : list acall) : option (list observation) :=
  match cs with
  | [] => Some []
  | c :: rest =>
      match raw_predict1 m env c with
      | Some (env', o) => match raw_predict_from m env' rest with Some l => Some (o :: l) | None => None end
      | None => None
      end
  end.
Definition raw_predict (m : mode) : list acall -> option (list observation) := raw_predict_from m (fun _ => None).

(** The interpreter gives up only after a write to an element beyond [2 ^ 32]. *)
Definition low_call (c : acall) : Prop :=
  match c with Change _ (Store i _) => uval i < 2 ^ 32 | _ => True end.
