(** * EverySpec: programs with every operation of the library (C94).

    A program makes the calls of C91 (bit-vectors, arrays, an interner, views of a vector
    of words) and those of C93 (the remaining operations on arrays) in any order, and
    without their limits: sparse arrays may have indices of any width, and the interner
    may hold more than 2^32 words.  Handles may come from the interner or be made by the
    program, and may be used with the interner's words or with the vector of words.  The interpreter is never silent.  What hash tables
    decide is an argument, one [luck] for each call. *)

From Coq Require Import String.
From Verif Require Import Base Strings Bv Map Array Fmt Indexed Unwind Spec CallSpec ArraySpec DirtySpec MixedSpec AnswerSpec
  StoreSpec KindSpec UnwindSpec.
From Verif Require ArrayInterpSpec BvInterpSpec StoreInterpSpec RawArraySpec.
From Verif Require Import WholeSpec FullSpec AllSpec ChanceSpec.
From Verif Require FullArraySpec.
Import BvInterpSpec(slot, set, vcall_range).
Import ArrayInterpSpec(acall).
Import StoreInterpSpec(scall, scall_range, index_typed, spredict1).
Import FullArraySpec(fcall, luck, plain, full_range, full_perform1, full_predict1).
Local Open Scope list_scope.
Local Open Scope N_scope.

(** ** Programs *)
Inductive gcall :=
| Core (c : ecall)
| More (c : fcall)
| TakeDefault (k a : N)           (* let k = a.default() *)
| NewHandle (h : N) (i : bvindex) (* let h = BitVecValueIndex::new(..) *)
| Through (h : N) (c : scall)     (* the call [c] on the words, with [h] in place of its first index *)
| EqualArrays (a b : N)           (* a == b *)
| HandleText (h : N)              (* format!("{:?}", h) *)
| InternerText.                   (* format!("{:?}", interner) *)

Inductive shown :=
| Told (t : told)
| Also (o : FullArraySpec.seen).

Definition gcall_range (c : gcall) : Prop :=
  match c with
  | Core (Lib (OnVector c)) => vcall_range c
  | Core (Lib (OnArray c)) => any_range c
  | Core (Lib (NewArray _ _ iw _)) => iw < 2 ^ 32
  | Core (Mem c) => scall_range c
  | More c => full_range c
  | NewHandle _ i => index_typed i
  | Through _ c => scall_range c
  | _ => True
  end.

(** [c] at the index [i] *)
Definition at_index (i : bvindex) (c : scall) : scall :=
  match c with
  | StoreInterpSpec.Own _ | StoreInterpSpec.Poke _ _ => c
  | StoreInterpSpec.Load k _ => StoreInterpSpec.Load k i
  | StoreInterpSpec.LoadPair k l _ j => StoreInterpSpec.LoadPair k l i j
  | StoreInterpSpec.Look l _ => StoreInterpSpec.Look l i
  | StoreInterpSpec.Check t _ j => StoreInterpSpec.Check t i j
  | StoreInterpSpec.Change _ u => StoreInterpSpec.Change i u
  | StoreInterpSpec.Copy _ j => StoreInterpSpec.Copy i j
  | StoreInterpSpec.Compute _ u j => StoreInterpSpec.Compute i u j
  | StoreInterpSpec.Combine _ op j k => StoreInterpSpec.Combine i op j k
  end.

(** ** With the code *)
Definition vector_given (o : FullArraySpec.seen) : option bv :=
  match o with FullArraySpec.Simply (ArrayInterpSpec.Saw v) => Some v | _ => None end.

Definition gperform1 (h : hashes) (m : mode) (s : state) (c : gcall) : state * shown :=
  match c with
  | Core c => let (s', o) := eperform1 (h_probe h) (h_order h) (h_saved h) m s c in (s', Told o)
  | More c =>
      let (store, w) := s in
      let (e, o) := full_perform1 h m (arrays w) c in
      ((store, mkworld (vectors w) e (handles w) (pool w)), Also o)
  | TakeDefault k a =>
      let (store, w) := s in
      let (e, o) := full_perform1 h m (arrays w) (FullArraySpec.Default a) in
      match vector_given o with
      | Some v => ((store, fst (assign w k v)), Told (Seen (V BvInterpSpec.Done)))
      | None => (s, Also o)
      end
  | NewHandle h i =>
      let (store, w) := s in
      ((store, mkworld (vectors w) (arrays w) (set (handles w) h (index_new (i_index i) (i_width i))) (pool w)),
       Told (Seen (V BvInterpSpec.Done)))
  | Through hd c =>
      match handles (snd s) hd with
      | Some i =>
          let (s', o) := eperform1 (h_probe h) (h_order h) (h_saved h) m s (Mem (at_index i c)) in (s', Told o)
      | None => (s, Told (Seen missing))
      end
  | EqualArrays a b =>
      (s, Told (Seen match arrays (snd s) a, arrays (snd s) b with
                     | Some x, Some y =>
                         match array_eq (h_order h) m x y with
                         | Ok e => V (BvInterpSpec.Says e)
                         | Panic _ => V BvInterpSpec.Panicked
                         end
                     | _, _ => missing
                     end))
  | HandleText hd =>
      (s, Told match handles (snd s) hd with Some i => Printed (debug_index i) | None => Seen missing end)
  | InternerText => (s, Told (Printed (debug_interner (pool (snd s)))))
  end.
Fixpoint gperform_from (m : mode) (s : state) (hs : nat -> hashes) (cs : list gcall) : list shown :=
  match cs with
  | [] => []
  | c :: rest => let (s', o) := gperform1 (hs O) m s c in o :: gperform_from m s' (fun n => hs (S n)) rest
  end.
(** [n] is the length of the vector of words *)
Definition gperform (m : mode) (n : N) : (nat -> hashes) -> list gcall -> list shown :=
  gperform_from m (repeat 0 (N.to_nat n), fresh).

(** ** With the interpreter *)

(** *** The interner

    It has a tape of values, each on one or more words; the constants 0 to 7 come
    first.  A value is added unless one with the same words is there.  A handle is
    the width and the place on the tape, modulo 2^32. *)
Definition alike (s t : slot) : bool := (places (fst s) =? places (fst t)) && (snd s =? snd t).

Definition constants : list slot := map (fun n => (64, n)) [0; 1; 2; 3; 4; 5; 6; 7].

(** the words before [s], or all of them *)
Fixpoint place (tape : list slot) (s : slot) : N :=
  match tape with
  | [] => 0
  | t :: rest => if alike t s then 0 else places (fst t) + place rest s
  end.
Definition taped (tape : list slot) (s : slot) : list slot :=
  if existsb (fun t => alike t s) tape then tape else tape ++ [s].

(** the number on the tape, its length, and what is at a place *)
Fixpoint tape_number (tape : list slot) : N :=
  match tape with [] => 0 | t :: rest => snd t + 2 ^ (64 * places (fst t)) * tape_number rest end.
Definition tape_length (tape : list slot) : N := fold_right (fun t n => places (fst t) + n) 0 tape.
Definition read_back (tape : list slot) (h : N * N) : slot :=
  (fst h, tape_number tape / 2 ^ (64 * snd h) mod 2 ^ (64 * places (fst h))).

(** values on one word, without the constants, and others *)
Definition one_word (s : slot) : bool := places (fst s) =? 1.
Definition small_ones (tape : list slot) : N := len (filter one_word tape) - 8.
Definition large_ones (tape : list slot) : N := len (filter (fun s => negb (one_word s)) tape).

(** *** Programs *)
Record stage := mkstage {
  cells : N; content : N;              (* the length of the vector of words, and the number in it *)
  vars : N -> option slot;
  things : N -> option thing;
  refs : N -> option (N * N);          (* handles *)
  tape : list slot }.

Definition start (n : N) : stage := mkstage n 0 (fun _ => None) (fun _ => None) (fun _ => None) constants.

Definition with_vars (r : stage) (e : N -> option slot) : stage :=
  mkstage (cells r) (content r) e (things r) (refs r) (tape r).
Definition with_things (r : stage) (e : N -> option thing) : stage :=
  mkstage (cells r) (content r) (vars r) e (refs r) (tape r).
Definition set_var (r : stage) (k : N) (s : slot) : stage := with_vars r (set (vars r) k s).

Definition gintern (m : mode) (r : stage) (h : N) (s : slot) : stage * seen :=
  match m, fst s with
  | Debug, 0 => (r, V BvInterpSpec.Panicked)
  | _, _ =>
      (mkstage (cells r) (content r) (vars r) (things r)
         (set (refs r) h (fst s, place (tape r) s mod 2 ^ 32)) (taped (tape r) s), V BvInterpSpec.Done)
  end.

Definition array_step (m : mode) (g : luck) (r : stage) (c : acall) : stage * ArrayInterpSpec.observation :=
  let (e, o) := any_predict1 m (plain g) (things r) c in (with_things r e, o).

Definition library_step (m : mode) (g : luck) (r : stage) (c : wcall) : stage * seen :=
  match c with
  | OnVector c => let (e, o) := vector_step m (vars r) c in (with_vars r e, V o)
  | OnArray c => let (r', o) := array_step m g r c in (r', A o)
  | NewArray a dense iw d =>
      match vars r d with
      | Some s => let (r', o) := array_step m g r (ArrayInterpSpec.New a (origin dense iw (value s))) in (r', A o)
      | None => (r, missing)
      end
  | Select k a i =>
      match vars r i with
      | Some s =>
          match array_step m g r (ArrayInterpSpec.Select a (value s)) with
          | (r', ArrayInterpSpec.Saw v) => (set_var r' k (width v, uval v), V BvInterpSpec.Done)
          | (r', o) => (r', A o)
          end
      | None => (r, missing)
      end
  | Store a i x =>
      match vars r i, vars r x with
      | Some s, Some t =>
          let (r', o) := array_step m g r (ArrayInterpSpec.Change a (KindSpec.Store (value s) (value t))) in (r', A o)
      | _, _ => (r, missing)
      end
  | Intern h k => match vars r k with Some s => gintern m r h s | None => (r, missing) end
  | Fetch k h =>
      match refs r h with
      | Some x =>
          if snd x + places (fst x) <=? tape_length (tape r)
          then (set_var r k (read_back (tape r) x), V BvInterpSpec.Done)
          else (r, V BvInterpSpec.Panicked)
      | None => (r, missing)
      end
  | Same h g =>
      (r, match refs r h, refs r g with
          | Some x, Some y => V (BvInterpSpec.Says ((fst x =? fst y) && (snd x =? snd y)))
          | _, _ => missing
          end)
  | IsZero h => (r, match refs r h with Some x => V (BvInterpSpec.Says (snd x =? 0)) | None => missing end)
  | IsOne h => (r, match refs r h with Some x => V (BvInterpSpec.Says (snd x =? 1)) | None => missing end)
  end.

Definition core_step (m : mode) (g : luck) (r : stage) (c : ecall) : stage * told :=
  match c with
  | Lib c => let (r', o) := library_step m g r c in (r', Seen o)
  | Mem c =>
      let (s, o) := spredict1 m (StoreInterpSpec.mkmemory (cells r) (content r) (vars r)) c in
      (mkstage (StoreInterpSpec.cells s) (StoreInterpSpec.content s) (StoreInterpSpec.owned s)
         (things r) (refs r) (tape r), Seen (V o))
  | Order i j =>
      (r, match vars r i, vars r j with Some s, Some t => Ordered (order_of s t) | _, _ => Seen missing end)
  | Digest k => (r, match vars r k with Some s => Hashed (digest_of s) | None => Seen missing end)
  | Text k => (r, match vars r k with Some s => Printed (text_of s) | None => Seen missing end)
  | ArrayText a =>
      (r, match things r a with
          | Some t => Printed (if any_is_dense t then lit "DenseArrayValue(..)" else lit "SparseArrayValue(..)")
          | None => Seen missing
          end)
  end.

Definition gpredict1 (m : mode) (g : luck) (r : stage) (c : gcall) : stage * shown :=
  match c with
  | Core c => let (r', o) := core_step m g r c in (r', Told o)
  | More c => let (e, o) := full_predict1 m g (things r) c in (with_things r e, Also o)
  | TakeDefault k a =>
      let (e, o) := full_predict1 m g (things r) (FullArraySpec.Default a) in
      match vector_given o with
      | Some v => (set_var r k (width v, uval v), Told (Seen (V BvInterpSpec.Done)))
      | None => (r, Also o)
      end
  | NewHandle h i =>
      (mkstage (cells r) (content r) (vars r) (things r) (set (refs r) h (i_width i, i_index i)) (tape r),
       Told (Seen (V BvInterpSpec.Done)))
  | Through hd c =>
      match refs r hd with
      | Some x => let (r', o) := core_step m g r (Mem (at_index (mkindex (fst x) (snd x)) c)) in (r', Told o)
      | None => (r, Told (Seen missing))
      end
  | EqualArrays a b =>
      (r, Told (Seen match things r a, things r b with
                     | Some t, Some u =>
                         match any_compared m (plain g) t u with
                         | Some (Some e) => V (BvInterpSpec.Says e)
                         | Some None => V (BvInterpSpec.Says false)     (* of different types *)
                         | None => V BvInterpSpec.Panicked
                         end
                     | _, _ => missing
                     end))
  | HandleText hd =>
      (r, Told match refs r hd with
               | Some (w, i) => Printed (lit "BitVecValueIndex { width: " ++ display_dec w ++ lit ", index: "
                                           ++ display_dec i ++ lit " }")
               | None => Seen missing
               end)
  | InternerText =>
      (r, Told (Printed (lit "ValueInterner(" ++ display_dec (small_ones (tape r)) ++ lit " small, "
                           ++ display_dec (large_ones (tape r)) ++ lit " large)")))
  end.
Fixpoint gpredict_from (m : mode) (r : stage) (gs : nat -> luck) (cs : list gcall) : list shown :=
  match cs with
  | [] => []
  | c :: rest => let (r', o) := gpredict1 m (gs O) r c in o :: gpredict_from m r' (fun n => gs (S n)) rest
  end.
Definition gpredict (m : mode) (n : N) : (nat -> luck) -> list gcall -> list shown := gpredict_from m (start n).

(** ** A program that interns the numbers in [l] *)
Definition done : shown := Told (Seen (V BvInterpSpec.Done)).
Definition intern_numbers (l : list nat) : list gcall :=
  flat_map (fun i => [Core (Lib (OnVector (BvInterpSpec.Make 0 (KFromU64 (N.of_nat i) 64)))); Core (Lib (Intern 0 0))]) l.
