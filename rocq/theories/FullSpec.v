(** * FullSpec: a reference interpreter for programs over the whole library, in both
    build profiles (C88).

    The programs and the code that runs them are those of WholeSpec.v.  The
    interpreter is put together from the exact ones: for bit-vectors [vpredict1]
    (debug, C83) and [rpredict1] (release, C86), for arrays [raw_predict1] (C87).  It
    knows a handle only as the value that it stands for. *)

From Verif Require Import Base Bv Map Array Indexed Unwind Spec StoreSpec KindSpec UnwindSpec.
From Verif Require ArrayInterpSpec BvInterpSpec ReleaseInterpSpec RawArraySpec.
From Verif Require Import WholeSpec.
Import BvInterpSpec(slot, vcall_range, set).
Import ArrayInterpSpec(acall).
Import RawArraySpec(raw, raw_predict1, raw_range).

(** Arguments are in the range of their types; sparse arrays have indices of at most
    64 bits. *)
Definition fcall_range (c : wcall) : Prop :=
  match c with
  | OnVector c => vcall_range c
  | OnArray c => raw_range c
  | NewArray _ dense iw _ => if dense then iw < 2 ^ 32 else iw <= 64
  | _ => True
  end.

Record picture := mkpicture {
  slots : N -> option slot; raws : N -> option raw; means : N -> option slot; interned_values : list bv }.

Definition empty : picture := mkpicture (fun _ => None) (fun _ => None) (fun _ => None) [].

Definition vector_step (m : mode) := match m with Debug => BvInterpSpec.vpredict1 | Release => ReleaseInterpSpec.rpredict1 end.

Definition array_call (m : mode) (r : picture) (c : acall) : option (picture * seen) :=
  match raw_predict1 m (raws r) c with
  | Some (e, o) => Some (mkpicture (slots r) e (means r) (interned_values r), A o)
  | None => None
  end.
Definition give (r : picture) (k : N) (s : slot) : picture * seen :=
  (mkpicture (set (slots r) k s) (raws r) (means r) (interned_values r), V BvInterpSpec.Done).

(** The constant [n] of the interner, which has the constants for widths from 1 to 64. *)
Definition builtin (n : N) (s : slot) : bool := (snd s =? n) && (0 <? fst s) && (fst s <=? 64).

(** A value of width 0 needs no word.  Only a debug build refuses it. *)
Definition intern (m : mode) (r : picture) (h : N) (s : slot) : option (picture * seen) :=
  if fst s =? 0 then
    match m with
    | Debug => Some (r, V BvInterpSpec.Panicked)
    | Release =>
        if stored (interned_values r) <? 2 ^ 32
        then Some (mkpicture (slots r) (raws r) (set (means r) h s) (interned_values r), V BvInterpSpec.Done)
        else None
    end
  else if stored (interned_values r ++ [value s]) <=? 2 ^ 32
  then Some (mkpicture (slots r) (raws r) (set (means r) h s) (interned_values r ++ [value s]), V BvInterpSpec.Done)
  else None.

(** [None]: no prediction.  That is so for what [raw_predict1] does not know and for an
    interner that stores more than 2^32 words. *)
Definition fpredict1 (m : mode) (r : picture) (c : wcall) : option (picture * seen) :=
  match c with
  | OnVector c =>
      let (e, o) := vector_step m (slots r) c in Some (mkpicture e (raws r) (means r) (interned_values r), V o)
  | OnArray c => array_call m r c
  | NewArray a dense iw d =>
      match slots r d with
      | Some s => array_call m r (ArrayInterpSpec.New a (origin dense iw (value s)))
      | None => Some (r, missing)
      end
  | Select k a i =>
      match slots r i with
      | Some s =>
          match array_call m r (ArrayInterpSpec.Select a (value s)) with
          | Some (r', A (ArrayInterpSpec.Saw v)) => Some (give r' k (width v, uval v))
          | x => x
          end
      | None => Some (r, missing)
      end
  | Store a i x =>
      match slots r i, slots r x with
      | Some s, Some t => array_call m r (ArrayInterpSpec.Change a (KindSpec.Store (value s) (value t)))
      | _, _ => Some (r, missing)
      end
  | Intern h k => match slots r k with Some s => intern m r h s | None => Some (r, missing) end
  | Fetch k h => Some match means r h with Some s => give r k s | None => (r, missing) end
  | Same h g =>
      Some (r, match means r h, means r g with
               | Some s, Some t => V (BvInterpSpec.Says ((fst s =? fst t) && (snd s =? snd t)))
               | _, _ => missing
               end)
  | IsZero h =>
      Some (r, match means r h with Some s => V (BvInterpSpec.Says (builtin 0 s)) | None => missing end)
  | IsOne h =>
      Some (r, match means r h with Some s => V (BvInterpSpec.Says (builtin 1 s)) | None => missing end)
  end.
Fixpoint fpredict_from (m : mode) (r : picture) (cs : list wcall) : option (list seen) :=
  match cs with
  | [] => Some []
  | c :: rest =>
      match fpredict1 m r c with
      | Some (r', o) => match fpredict_from m r' rest with Some l => Some (o :: l) | None => None end
      | None => None
      end
  end.
Definition fpredict (m : mode) : list wcall -> option (list seen) := fpredict_from m empty.
