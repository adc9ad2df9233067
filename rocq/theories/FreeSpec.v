(** * FreeSpec: programs with every operation of the library, and texts and big integers of
    any size (C97).

    The programs of C94, with the parsers of C95 and the conversions of C96: a text need
    only be one that a 64-bit machine can hold, and big integers are not limited. *)

From Verif Require Import Base Strings Bv Indexed Spec CallSpec InterpSpec BvInterpSpec BigSpec.
From Verif Require LongSpec StoreInterpSpec.
From Verif Require Import WholeSpec FullSpec AllSpec ChanceSpec EverySpec.
From Verif Require FullArraySpec.
Import StoreInterpSpec(scall, memory, mkmemory, within, separate, part, put, owned, with_owned, index_typed, spredict1,
  assign_result).
Import FullArraySpec(luck).

(** ** Programs *)
Definition free_fresh (c : call) : Prop :=
  operands c = [] /\
  match c with
  | KFromStr s r w => len s < 2 ^ 63 /\ r < 2 ^ 32 /\ w < 2 ^ 32
  | KFromBitStr s | KFromHexStr s => len s < 2 ^ 63
  | c => in_range c
  end.
Definition free_unary (u : unary) : Prop :=
  match u with UAssignStr s r => len s < 2 ^ 63 /\ r < 2 ^ 32 | u => unary_range u end.
Definition free_update (u : update) : Prop :=
  match u with IParse s r => len s < 2 ^ 63 /\ r < 2 ^ 32 | u => update_range u end.
Definition free_vcall (c : vcall) : Prop :=
  match c with
  | Make _ c => free_fresh c
  | Unary _ u _ => free_unary u
  | Update _ u => free_update u
  | _ => True
  end.
Definition free_scall (c : scall) : Prop :=
  match c with
  | StoreInterpSpec.Own c => free_vcall c
  | StoreInterpSpec.Change i u => index_typed i /\ free_update u
  | StoreInterpSpec.Compute i u j => index_typed i /\ free_unary u /\ index_typed j
  | c => StoreInterpSpec.scall_range c
  end.
Definition free_call (c : gcall) : Prop :=
  match c with
  | Core (Lib (OnVector c)) => free_vcall c
  | Core (Mem c) | Through _ c => free_scall c
  | c => gcall_range c
  end.

(** ** The interpreter *)

(** a text becomes a new bit-vector *)
Definition read_new (m : mode) (radix w : N) (s : list N) : outcome + int_error_kind :=
  match LongSpec.any_reading m radix w 0 s with
  | LongSpec.Accepts n => inl (Gives w n)
  | LongSpec.Rejects k _ => inr k
  | LongSpec.Stops _ => inl Stops
  end.
(** ... or goes to one that holds [n]: what that holds then, and what the caller sees *)
Definition read_into (m : mode) (radix w n : N) (s : list N) : N * observed :=
  match LongSpec.any_reading m radix w n s with
  | LongSpec.Accepts n => (n, Done)
  | LongSpec.Rejects k n => (n, Failed k)
  | LongSpec.Stops n => (n, Panicked)
  end.
(** ... or to a clone of it; the error is not looked at *)
Definition read_copy (m : mode) (radix w n : N) (s : list N) : outcome :=
  match read_into m radix w n s with (_, Panicked) => Stops | (n, _) => Gives w n end.

(** the constructors without limits, [None] for all others *)
Definition new_vector (m : mode) (c : call) : option (outcome + int_error_kind) :=
  match c with
  | KFromStr s r w => Some (read_new m r w s)
  | KFromBitStr s =>
      Some match LongSpec.any_width m 1 s with Some w => read_new m 2 w s | None => inl Stops end
  | KFromHexStr s =>
      Some match LongSpec.any_width m 4 s with Some w => read_new m 16 w s | None => inl Stops end
  | KOfBigUint n =>
      Some (inl match big_width m 0 (N.size n) with Some w => Gives w (n mod 2 ^ w) | None => Stops end)
  | KOfBigInt z =>
      Some (inl match big_width m 1 (N.size (Z.abs_N z)) with
                | Some w => if (w =? 0) && (z <? 0)%Z then Stops else Gives w (wrap w z)
                | None => Stops
                end)
  | _ => None
  end.

Definition free_vstep (m : mode) (env : N -> option slot) (c : vcall) : (N -> option slot) * observed :=
  match c with
  | Make k c' =>
      match new_vector m c' with
      | Some (inl o) => keep env k o
      | Some (inr e) => (env, Failed e)
      | None => vector_step m env c
      end
  | Unary k (UAssignStr s r) j =>
      match env j with Some (w, n) => keep env k (read_copy m r w n s) | None => (env, Missing) end
  | Update k (IParse s r) =>
      match env k with
      | Some (w, n) => let (n', o) := read_into m r w n s in (set env k (w, n'), o)
      | None => (env, Missing)
      end
  | c => vector_step m env c
  end.

Definition free_sstep (m : mode) (r : memory) (c : scall) : memory * observed :=
  match c with
  | StoreInterpSpec.Own c => let (e, o) := free_vstep m (owned r) c in (with_owned r e, o)
  | StoreInterpSpec.Change i (IParse s rx) =>
      if within r i then let (n, o) := read_into m rx (i_width i) (part r i) s in (put r i n, o) else (r, Panicked)
  | StoreInterpSpec.Compute dst (UAssignStr s rx) a =>
      if within r dst && within r a && separate dst a
      then assign_result m r dst (read_copy m rx (i_width a) (part r a) s)
      else (r, Panicked)
  | c => spredict1 m r c
  end.

Definition free_mem (m : mode) (r : stage) (c : scall) : stage * shown :=
  let (s, o) := free_sstep m (mkmemory (cells r) (content r) (vars r)) c in
  (mkstage (StoreInterpSpec.cells s) (StoreInterpSpec.content s) (owned s) (things r) (refs r) (tape r),
   Told (Seen (V o))).

Definition free_predict1 (m : mode) (g : luck) (r : stage) (c : gcall) : stage * shown :=
  match c with
  | Core (Lib (OnVector c)) => let (e, o) := free_vstep m (vars r) c in (with_vars r e, Told (Seen (V o)))
  | Core (Mem c) => free_mem m r c
  | Through hd c =>
      match refs r hd with
      | Some x => free_mem m r (at_index (mkindex (fst x) (snd x)) c)
      | None => (r, Told (Seen missing))
      end
  | c => gpredict1 m g r c
  end.
Fixpoint free_predict_from (m : mode) (r : stage) (gs : nat -> luck) (cs : list gcall) : list shown :=
  match cs with
  | [] => []
  | c :: rest => let (r', o) := free_predict1 m (gs O) r c in o :: free_predict_from m r' (fun n => gs (S n)) rest
  end.
Definition free_predict (m : mode) (n : N) : (nat -> luck) -> list gcall -> list shown :=
  free_predict_from m (start n).
