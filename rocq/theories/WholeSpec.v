(** * WholeSpec: a reference interpreter for programs over the whole library (C85).

    A program is a list of calls on three families of numbered variables: bit-vectors,
    arrays, and the handles that one value interner gave out.  [wperform] runs it with
    the modelled code and catches every panic.  [wpredict] computes what each call does
    from the interpreters of C82 and C83 and from the list of the values interned so
    far; it knows a handle only as the value that it stands for. *)

From Verif Require Import Base Bv Map Array Indexed Unwind Spec StoreSpec KindSpec UnwindSpec.
From Verif Require ArrayInterpSpec BvInterpSpec.
Import BvInterpSpec(vcall, observed, slot, vperform1, vpredict1, vcall_range, set).
Import ArrayInterpSpec(acall, observation, memory, perform1, predict1, acall_range).

(** ** Programs *)
Inductive wcall :=
| OnVector (c : vcall)
| OnArray (c : acall)
| NewArray (a : N) (dense : bool) (index_width d : N)
                                  (* let a = ArrayValue::new_dense(index_width, &d), or new_sparse *)
| Select (k a i : N)              (* let k = a.select(&i) *)
| Store (a i x : N)               (* a.store(&i, &x) *)
| Intern (h k : N)                (* let h = interner.get_index(&k) *)
| Fetch (k h : N)                 (* let k = interner.words().get_ref(h).into() *)
| Same (h g : N)                  (* h == g *)
| IsZero (h : N) | IsOne (h : N). (* interner.is_zero(h), interner.is_one(h) *)

(** What a call does, for the caller. *)
Inductive seen := V (o : observed) | A (o : observation).
Definition panicked (s : seen) : bool :=
  match s with V BvInterpSpec.Panicked => true | A ArrayInterpSpec.Panicked => true | _ => false end.

(** Arguments are in range, as in C82 and C83. *)
Definition wcall_range (c : wcall) : Prop :=
  match c with OnVector c => vcall_range c | OnArray c => acall_range c | _ => True end.

(** ** With the code *)
Record world := mkworld {
  vectors : N -> option bv; arrays : N -> option array; handles : N -> option bvindex; pool : interner }.

Definition fresh : world := mkworld (fun _ => None) (fun _ => None) (fun _ => None) interner_new.

Definition origin (dense : bool) (index_width : N) (d : bv) : origin :=
  if dense then NewDense index_width d else NewSparse index_width d.

Definition missing : seen := V BvInterpSpec.Missing.

Definition on_array (probe : probe_oracle) (ho order : hash_order) (m : mode) (w : world) (c : acall)
  : world * seen :=
  let (e, o) := perform1 probe ho order m (arrays w) c in
  (mkworld (vectors w) e (handles w) (pool w), A o).
Definition assign (w : world) (k : N) (v : bv) : world * seen :=
  (mkworld (set (vectors w) k v) (arrays w) (handles w) (pool w), V BvInterpSpec.Done).

Definition wperform1 (probe : probe_oracle) (ho order : hash_order) (m : mode) (w : world) (c : wcall)
  : world * seen :=
  match c with
  | OnVector c =>
      let (e, o) := vperform1 m (vectors w) c in (mkworld e (arrays w) (handles w) (pool w), V o)
  | OnArray c => on_array probe ho order m w c
  | NewArray a dense iw d =>
      match vectors w d with
      | Some v => on_array probe ho order m w (ArrayInterpSpec.New a (origin dense iw v))
      | None => (w, missing)
      end
  | Select k a i =>
      match vectors w i with
      | Some iv =>
          match on_array probe ho order m w (ArrayInterpSpec.Select a iv) with
          | (w', A (ArrayInterpSpec.Saw v)) => assign w' k v
          | (w', o) => (w', o)
          end
      | None => (w, missing)
      end
  | Store a i x =>
      match vectors w i, vectors w x with
      | Some iv, Some xv => on_array probe ho order m w (ArrayInterpSpec.Change a (KindSpec.Store iv xv))
      | _, _ => (w, missing)
      end
  | Intern h k =>
      match vectors w k with
      | Some v =>
          match un_get_index m v (pool w) with
          | Returned p i => (mkworld (vectors w) (arrays w) (set (handles w) h i) p, V BvInterpSpec.Done)
          | Unwound p _ => (mkworld (vectors w) (arrays w) (handles w) p, V BvInterpSpec.Panicked)
          end
      | None => (w, missing)
      end
  | Fetch k h =>
      match handles w h with
      | Some i =>
          match get_ref (interner_words (pool w)) i with
          | Ok v => assign w k v
          | Panic _ => (w, V BvInterpSpec.Panicked)
          end
      | None => (w, missing)
      end
  | Same h g =>
      (w, match handles w h, handles w g with
          | Some i, Some j =>
              V (BvInterpSpec.Says ((i_width i =? i_width j) && (i_index i =? i_index j)))
          | _, _ => missing
          end)
  | IsZero h =>
      (w, match handles w h with Some i => V (BvInterpSpec.Says (interner_is_zero i)) | None => missing end)
  | IsOne h =>
      (w, match handles w h with Some i => V (BvInterpSpec.Says (interner_is_one i)) | None => missing end)
  end.
Fixpoint wperform_from (probe : probe_oracle) (ho order : hash_order) (m : mode) (w : world) (cs : list wcall)
  : list seen :=
  match cs with
  | [] => []
  | c :: rest => let (w', o) := wperform1 probe ho order m w c in o :: wperform_from probe ho order m w' rest
  end.
Definition wperform (probe : probe_oracle) (ho order : hash_order) (m : mode) : list wcall -> list seen :=
  wperform_from probe ho order m fresh.

(** ** With the interpreter *)

Record image := mkimage {
  numbers : N -> option slot; memories : N -> option memory; meant : N -> option slot; known : list bv }.

Definition blank : image := mkimage (fun _ => None) (fun _ => None) (fun _ => None) [].

(** The number is below 2^width: no unused bit of the storage is set. *)
Definition tidy (s : slot) : bool := snd s <? 2 ^ fst s.
Definition value (s : slot) : bv := bv_of (fst s) (snd s).

Definition of_array (r : image) (c : acall) : image * seen :=
  let (e, o) := predict1 (memories r) c in
  (mkimage (numbers r) e (meant r) (known r), A o).
Definition number (r : image) (k : N) (s : slot) : image * seen :=
  (mkimage (set (numbers r) k s) (memories r) (meant r) (known r), V BvInterpSpec.Done).
(** the constant [n] of the interner, which has the constants for widths up to 64 only *)
Definition constant (n : N) (s : slot) : bool := (snd s =? n) && (fst s <=? 64).

(** [None]: no prediction.  That is so for an array operand with unused bits set, for
    elements of width 0, for sparse arrays with indices of more than 64 bits, and for
    an interner that would store more than 2^32 words. *)
Definition wpredict1 (r : image) (c : wcall) : option (image * seen) :=
  match c with
  | OnVector c =>
      let (e, o) := vpredict1 (numbers r) c in Some (mkimage e (memories r) (meant r) (known r), V o)
  | OnArray c => Some (of_array r c)
  | NewArray a dense iw d =>
      match numbers r d with
      | Some s =>
          if tidy s && (0 <? fst s) && (dense || (iw <=? 64))
          then Some (of_array r (ArrayInterpSpec.New a (origin dense iw (value s))))
          else None
      | None => Some (r, missing)
      end
  | Select k a i =>
      match numbers r i with
      | Some s =>
          if tidy s then
            match of_array r (ArrayInterpSpec.Select a (value s)) with
            | (r', A (ArrayInterpSpec.Saw v)) => Some (number r' k (width v, uval v))
            | (r', o) => Some (r', o)
            end
          else None
      | None => Some (r, missing)
      end
  | Store a i x =>
      match numbers r i, numbers r x with
      | Some s, Some t =>
          if tidy s && tidy t
          then Some (of_array r (ArrayInterpSpec.Change a (KindSpec.Store (value s) (value t))))
          else None
      | _, _ => Some (r, missing)
      end
  | Intern h k =>
      match numbers r k with
      | Some s =>
          if fst s =? 0 then Some (r, V BvInterpSpec.Panicked)
          else if stored (known r ++ [value s]) <=? 2 ^ 32
          then Some (mkimage (numbers r) (memories r) (set (meant r) h s) (known r ++ [value s]),
                     V BvInterpSpec.Done)
          else None
      | None => Some (r, missing)
      end
  | Fetch k h => Some match meant r h with Some s => number r k s | None => (r, missing) end
  | Same h g =>
      Some (r, match meant r h, meant r g with
               | Some s, Some t => V (BvInterpSpec.Says ((fst s =? fst t) && (snd s =? snd t)))
               | _, _ => missing
               end)
  | IsZero h =>
      Some (r, match meant r h with Some s => V (BvInterpSpec.Says (constant 0 s)) | None => missing end)
  | IsOne h =>
      Some (r, match meant r h with Some s => V (BvInterpSpec.Says (constant 1 s)) | None => missing end)
  end.
Fixpoint wpredict_from (r : image) (cs : list wcall) : option (list seen) :=
  match cs with
  | [] => Some []
  | c :: rest =>
      match wpredict1 r c with
      | Some (r', o) => match wpredict_from r' rest with Some l => Some (o :: l) | None => None end
      | None => None
      end
  end.
Definition wpredict : list wcall -> option (list seen) := wpredict_from blank.
