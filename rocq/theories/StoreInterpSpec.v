(** * StoreInterpSpec: a reference interpreter for programs over a shared word store,
    in both build profiles (C89).

    A program owns a vector of words, which is full of zeros at first, and numbered
    variables that hold bit-vectors.  It looks at the words through indices of any
    kind, which may overlap or reach beyond the end, and changes them.  [sperform]
    runs it with the modelled code and catches every panic.  [spredict] knows the
    words only as one large number, and a bit-vector as a width and a number. *)

From Verif Require Import Base Strings Bv Indexed Unwind Spec TextSpec CallSpec PanicSpec MixedSpec InterpSpec
  AnswerSpec BvInterpSpec.
From Verif Require ReleaseInterpSpec.
Import ReleaseInterpSpec(rpredict1, rupdated, rbinary, runary, rlook).

(** ** Programs *)

Inductive scall :=
| Own (c : vcall)                                 (* a call on the variables *)
| Poke (p x : N)                                  (* store[p] = x *)
| Load (k : N) (i : bvindex)                      (* let k = store.get_ref(i).into() *)
| LoadPair (k l : N) (i j : bvindex)              (* let (a, b) = store.get_ref((i, j)); k = a.into(); l = b.into() *)
| Look (l : look) (i : bvindex)                   (* store.get_ref(i).to_bit_str(), ... *)
| Check (t : test) (i j : bvindex)                (* let (a, b) = store.get_ref((i, j)); a.is_equal(&b), ... *)
| Change (i : bvindex) (u : update)               (* store.get_mut_ref(i).set_bit(..), .assign(&k), ... *)
| Copy (dst src : bvindex)                        (* let (mut d, s) = store.get_mut_ref((dst, src)); d.assign(&s) *)
| Compute (dst : bvindex) (u : unary) (a : bvindex)
    (* let (mut d, a) = store.get_mut_ref((dst, a)); d.assign(&a.not()), ... *)
| Combine (dst : bvindex) (op : binop) (a b : bvindex).
    (* let (mut d, a, b) = store.get_mut_ref((dst, a, b)); d.assign(&a.add(&b)), ... *)

(** Arguments are in the range of their types.  There is no condition on indices. *)
Definition index_typed (i : bvindex) : Prop := i_index i < 2 ^ 32 /\ i_width i < 2 ^ 32.
Definition scall_range (c : scall) : Prop :=
  match c with
  | Own c => vcall_range c
  | Poke _ x => x < 2 ^ 64
  | Load _ i | Look _ i => index_typed i
  | LoadPair _ _ i j | Check _ i j | Copy i j => index_typed i /\ index_typed j
  | Change i u => index_typed i /\ update_range u
  | Compute i u j => index_typed i /\ unary_range u /\ index_typed j
  | Combine i _ j k => index_typed i /\ index_typed j /\ index_typed k
  end.

(** ** With the code *)

Definition machine : Type := list N * (N -> option bv).

(** the call on the view [i] is over: its words are those of the store *)
Definition finish (s : machine) (i : bvindex) (e : ending (list N) (option int_error_kind)) : machine * observed :=
  match e with
  | Returned ws None => ((splice (fst s) (i_index i) ws, snd s), Done)
  | Returned ws (Some k) => ((splice (fst s) (i_index i) ws, snd s), Failed k)
  | Unwound ws _ => ((splice (fst s) (i_index i) ws, snd s), Panicked)
  end.
Definition assign_to (m : mode) (s : machine) (i : bvindex) (d src : bv) : machine * observed :=
  finish s i ((do _ <- un_assign m (width d) src ;; ret None) (words d)).

Definition sperform1 (m : mode) (s : machine) (c : scall) : machine * observed :=
  let (store, vars) := s in
  match c with
  | Own c => let (vars', o) := vperform1 m vars c in ((store, vars'), o)
  | Poke p x => match set_idx store p x with Ok store' => ((store', vars), Done) | Panic _ => (s, Panicked) end
  | Load k i =>
      match get_ref store i with
      | Ok v => ((store, set vars k (bv_owned_of_ref v)), Done)
      | Panic _ => (s, Panicked)
      end
  | LoadPair k l i j =>
      match get_ref_2 store i j with
      | Ok (a, b) => ((store, set (set vars k (bv_owned_of_ref a)) l (bv_owned_of_ref b)), Done)
      | Panic _ => (s, Panicked)
      end
  | Look l i =>
      (s, match get_ref store i with
          | Ok v => match tell m l v with Ok x => Tells (lowest x) | Panic _ => Panicked end
          | Panic _ => Panicked
          end)
  | Check t i j =>
      (s, match get_ref_2 store i j with
          | Ok (a, b) => match run_test t m a b with Ok x => Says x | Panic _ => Panicked end
          | Panic _ => Panicked
          end)
  | Change i u =>
      match get_mut_ref store i with
      | Ok v =>
          match update_call m (width v) vars u with
          | Some e => finish s i (e (words v))
          | None => (s, Missing)
          end
      | Panic _ => (s, Panicked)
      end
  | Copy dst src =>
      match get_mut_ref_2 m store dst src with
      | Ok (d, a) => assign_to m s dst d a
      | Panic _ => (s, Panicked)
      end
  | Compute dst u a =>
      match get_mut_ref_2 m store dst a with
      | Ok (d, a) =>
          match run m (unary_call u a) with
          | Ok (Some r) => assign_to m s dst d r
          | _ => (s, Panicked)
          end
      | Panic _ => (s, Panicked)
      end
  | Combine dst op a b =>
      match get_mut_ref_3 m store dst a b with
      | Ok (d, a, b) =>
          match run m (KBin op a b) with
          | Ok (Some r) => assign_to m s dst d r
          | _ => (s, Panicked)
          end
      | Panic _ => (s, Panicked)
      end
  end.
Fixpoint sperform_from (m : mode) (s : machine) (cs : list scall) : list observed :=
  match cs with
  | [] => []
  | c :: rest => let (s', o) := sperform1 m s c in o :: sperform_from m s' rest
  end.
(** [n] is the length of the vector *)
Definition sperform (m : mode) (n : N) : list scall -> list observed :=
  sperform_from m (repeat 0 (N.to_nat n), fun _ => None).

(** ** With the interpreter *)

Record memory := mkmemory { cells : N; content : N; owned : N -> option slot }.

(** the words of an index: from [start] up to, not including, [stop] *)
Definition start (i : bvindex) : N := i_index i.
Definition stop (i : bvindex) : N := i_index i + places (i_width i).
Definition within (r : memory) (i : bvindex) : bool := stop i <=? cells r.
Definition separate (i j : bvindex) : bool := (stop i <=? start j) || (stop j <=? start i).

Definition part (r : memory) (i : bvindex) : N :=
  content r / 2 ^ (64 * start i) mod 2 ^ (64 * places (i_width i)).
Definition put (r : memory) (i : bvindex) (n : N) : memory :=
  let low := 2 ^ (64 * start i) in
  let high := 2 ^ (64 * stop i) in
  mkmemory (cells r) (content r mod low + n * low + content r / high * high) (owned r).

(** the rules for debug builds are those of C83, for release builds those of C86 *)
Definition own_step (m : mode) := match m with Debug => vpredict1 | Release => rpredict1 end.
Definition update_step (m : mode) := match m with Debug => updated | Release => rupdated end.
Definition unary_step (m : mode) := match m with Debug => unary_result | Release => runary end.
Definition binary_step (m : mode) := match m with Debug => binary_result | Release => rbinary end.
Definition test_step (m : mode) := match m with Debug => test_result | Release => mixed_test end.
Definition look_step (m : mode) := match m with Debug => look_result | Release => rlook end.

Definition change (m : mode) (r : memory) (i : bvindex) (src : N -> option slot) (u : update) : memory * observed :=
  let (n, o) := update_step m (i_width i) (part r i) src u in (put r i n, o).
Definition assign_result (m : mode) (r : memory) (i : bvindex) (x : outcome) : memory * observed :=
  match x with
  | Gives w n => change m r i (fun _ => Some (w, n)) (IAssign 0)
  | _ => (r, Panicked)
  end.
Definition with_owned (r : memory) (e : N -> option slot) : memory := mkmemory (cells r) (content r) e.

Definition spredict1 (m : mode) (r : memory) (c : scall) : memory * observed :=
  match c with
  | Own c => let (e, o) := own_step m (owned r) c in (with_owned r e, o)
  | Poke p x => if p <? cells r then (put r (mkindex 64 p) x, Done) else (r, Panicked)
  | Load k i =>
      if within r i then (with_owned r (set (owned r) k (i_width i, part r i)), Done) else (r, Panicked)
  | LoadPair k l i j =>
      if within r i && within r j
      then (with_owned r (set (set (owned r) k (i_width i, part r i)) l (i_width j, part r j)), Done)
      else (r, Panicked)
  | Look l i =>
      (r, if within r i
          then match look_step m l (i_width i) (part r i) with Some x => Tells (lowest x) | None => Panicked end
          else Panicked)
  | Check t i j =>
      (r, if within r i && within r j
          then match test_step m t (i_width i) (part r i) (i_width j) (part r j) with
               | Some b => Says b
               | None => Panicked
               end
          else Panicked)
  | Change i u => if within r i then change m r i (owned r) u else (r, Panicked)
  | Copy dst src =>
      if within r dst && within r src && separate dst src
      then assign_result m r dst (Gives (i_width src) (part r src))
      else (r, Panicked)
  | Compute dst u a =>
      if within r dst && within r a && separate dst a
      then assign_result m r dst (unary_step m u (i_width a) (part r a))
      else (r, Panicked)
  | Combine dst op a b =>
      if within r dst && within r a && within r b && separate dst a && separate dst b
      then assign_result m r dst (binary_step m op (i_width a) (part r a) (i_width b) (part r b))
      else (r, Panicked)
  end.
Fixpoint spredict_from (m : mode) (r : memory) (cs : list scall) : list observed :=
  match cs with
  | [] => []
  | c :: rest => let (r', o) := spredict1 m r c in o :: spredict_from m r' rest
  end.
Definition spredict (m : mode) (n : N) : list scall -> list observed :=
  spredict_from m (mkmemory n 0 (fun _ => None)).
