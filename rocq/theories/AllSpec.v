(** * AllSpec: a reference interpreter for programs over the library and a shared word
    store together, in both build profiles (C91).

    A program makes the calls of C88 (bit-vectors, arrays, an interner) and those of C89
    (views of a vector of words) in any order.  Both kinds work on the same bit-vector
    variables.  It also asks for the order of two variables, for what a variable
    writes into a hasher, and for [Debug] texts. *)

From Coq Require Import String.
From Verif Require Import Base Bv Map Array Fmt Spec MixedSpec AnswerSpec StoreSpec KindSpec.
From Verif Require ArrayInterpSpec BvInterpSpec StoreInterpSpec RawArraySpec.
From Verif Require Import WholeSpec FullSpec.
Import StoreInterpSpec(scall, scall_range, sperform1, spredict1).
Local Open Scope list_scope.
Local Open Scope N_scope.

(** ** Programs *)
Inductive ecall :=
| Lib (c : wcall)
| Mem (c : scall)
| Order (i j : N)                 (* i.cmp(&j) *)
| Digest (k : N)                  (* k.hash(&mut hasher) *)
| Text (k : N)                    (* format!("{:?}", k) *)
| ArrayText (a : N).              (* format!("{:?}", a) *)

Inductive told :=
| Seen (s : seen)
| Ordered (c : comparison)
| Hashed (l : list hash_write)
| Printed (t : list N).

Definition ecall_range (c : ecall) : Prop :=
  match c with Lib c => fcall_range c | Mem c => scall_range c | _ => True end.

(** ** With the code *)
Definition state : Type := list N * world.

Definition with_vectors (w : world) (e : N -> option bv) : world := mkworld e (arrays w) (handles w) (pool w).

Definition eperform1 (probe : probe_oracle) (ho order : hash_order) (m : mode) (s : state) (c : ecall)
  : state * told :=
  let (store, w) := s in
  match c with
  | Lib c => let (w', o) := wperform1 probe ho order m w c in ((store, w'), Seen o)
  | Mem c =>
      let '((store', e), o) := sperform1 m (store, vectors w) c in ((store', with_vectors w e), Seen (V o))
  | Order i j =>
      (s, match vectors w i, vectors w j with Some a, Some b => Ordered (bv_cmp a b) | _, _ => Seen missing end)
  | Digest k => (s, match vectors w k with Some a => Hashed (bv_hash a) | None => Seen missing end)
  | Text k =>
      (s, match vectors w k with
          | Some a => match debug_bv a with Ok t => Printed t | Panic _ => Seen (V BvInterpSpec.Panicked) end
          | None => Seen missing
          end)
  | ArrayText a => (s, match arrays w a with Some a => Printed (debug_array a) | None => Seen missing end)
  end.
Fixpoint eperform_from (probe : probe_oracle) (ho order : hash_order) (m : mode) (s : state) (cs : list ecall)
  : list told :=
  match cs with
  | [] => []
  | c :: rest => let (s', o) := eperform1 probe ho order m s c in o :: eperform_from probe ho order m s' rest
  end.
(** [n] is the length of the vector of words *)
Definition eperform (probe : probe_oracle) (ho order : hash_order) (m : mode) (n : N) : list ecall -> list told :=
  eperform_from probe ho order m (repeat 0 (N.to_nat n), fresh).

(** ** With the interpreter *)

(** the length of the vector, the number in it, and the rest *)
Record scene := mkscene { cells : N; content : N; rest : picture }.

Definition with_slots (r : picture) (e : N -> option BvInterpSpec.slot) : picture :=
  mkpicture e (raws r) (means r) (interned_values r).

(** Values of equal width are ordered by their lowest 64 bits first. *)
Fixpoint low_first (k : nat) (a b : N) : comparison :=
  match k with
  | O => Eq
  | S k => match a mod 2 ^ 64 ?= b mod 2 ^ 64 with Eq => low_first k (a / 2 ^ 64) (b / 2 ^ 64) | c => c end
  end.
Definition order_of (s t : BvInterpSpec.slot) : comparison :=
  match fst s ?= fst t with Eq => low_first (N.to_nat (places (fst s))) (snd s) (snd t) | c => c end.

(** the width, the number of words and the words *)
Fixpoint pieces (k : nat) (n : N) : list hash_write :=
  match k with O => [] | S k => HashU64 (n mod 2 ^ 64) :: pieces k (n / 2 ^ 64) end.
Definition digest_of (s : BvInterpSpec.slot) : list hash_write :=
  HashU32 (fst s) :: HashLen (places (fst s)) :: pieces (N.to_nat (places (fst s))) (snd s).

Definition text_of (s : BvInterpSpec.slot) : list N :=
  lit "ValueOwned(" ++ digits 1 (N.to_nat (fst s)) (snd s) ++ lit ")".

Definition epredict1 (m : mode) (r : scene) (c : ecall) : option (scene * told) :=
  match c with
  | Lib c =>
      match fpredict1 m (rest r) c with
      | Some (p, o) => Some (mkscene (cells r) (content r) p, Seen o)
      | None => None
      end
  | Mem c =>
      let (s, o) := spredict1 m (StoreInterpSpec.mkmemory (cells r) (content r) (slots (rest r))) c in
      Some (mkscene (StoreInterpSpec.cells s) (StoreInterpSpec.content s)
              (with_slots (rest r) (StoreInterpSpec.owned s)), Seen (V o))
  | Order i j =>
      Some (r, match slots (rest r) i, slots (rest r) j with
               | Some s, Some t => Ordered (order_of s t)
               | _, _ => Seen missing
               end)
  | Digest k =>
      Some (r, match slots (rest r) k with Some s => Hashed (digest_of s) | None => Seen missing end)
  | Text k =>
      Some (r, match slots (rest r) k with Some s => Printed (text_of s) | None => Seen missing end)
  | ArrayText a =>
      Some (r, match raws (rest r) a with
               | Some q => Printed (if RawArraySpec.raw_is_dense q then lit "DenseArrayValue(..)"
                                    else lit "SparseArrayValue(..)")
               | None => Seen missing
               end)
  end.
Fixpoint epredict_from (m : mode) (r : scene) (cs : list ecall) : option (list told) :=
  match cs with
  | [] => Some []
  | c :: cs =>
      match epredict1 m r c with
      | Some (r', o) => match epredict_from m r' cs with Some l => Some (o :: l) | None => None end
      | None => None
      end
  end.
Definition epredict (m : mode) (n : N) : list ecall -> option (list told) := epredict_from m (mkscene n 0 empty).

(** ** When the interpreter is silent *)

(** the state of the interpreter after a program *)
Fixpoint scene_after (m : mode) (r : scene) (cs : list ecall) : option scene :=
  match cs with
  | [] => Some r
  | c :: cs => match epredict1 m r c with Some (r', _) => scene_after m r' cs | None => None end
  end.

(** The call interns a value for which the interner may have no room left. *)
Definition interns_too_much (r : scene) (c : ecall) : Prop :=
  exists h k s, c = Lib (Intern h k) /\ slots (rest r) k = Some s
    /\ 2 ^ 32 <= stored (interned_values (rest r) ++ [value s]).

(** The call converts or compares array [a]. *)
Definition converts (c : ecall) (a : N) : Prop :=
  c = Lib (OnArray (ArrayInterpSpec.Change a MakeDense))
  \/ exists b, c = Lib (OnArray (ArrayInterpSpec.Compare a b)) \/ c = Lib (OnArray (ArrayInterpSpec.Compare b a)).

(** A sparse array was written at an index of 2^32 or more. *)
Definition far (q : RawArraySpec.raw) : Prop :=
  match RawArraySpec.q_cells q with
  | RawArraySpec.RSmall _ l => exists e, In e l /\ 2 ^ 32 <= fst e
  | RawArraySpec.RBig _ l => exists e, In e l /\ 2 ^ 32 <= fst e
  | _ => False
  end.
