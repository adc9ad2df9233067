(** * BvInterpSpec: a reference interpreter for programs over bit-vectors (C83).

    A program is a list of calls on numbered variables that hold bit-vectors.
    [vperform] runs it with the modelled code and catches every panic.  [vpredict]
    computes what each call does; it knows a bit-vector only as a width and a
    number. *)

From Coq Require Import QArith.
From Verif Require Import Base Strings Bv Serde Unwind Spec TextSpec IoSpec CallSpec PanicSpec ParseSpec
  MixedSpec DirtySpec InterpSpec AnswerSpec.
Local Open Scope N_scope.

(** ** Programs *)

(** the calls on a variable that change it *)
Inductive update :=
| IAssign (j : N)                     (* k.assign(&j) *)
| IClear | IOnes | IMask
| IFromU64 (x : N) | IFromI64 (z : Z)
| ISetBit (pos : N) | IClearBit (pos : N)
| IWord (i x : N)                     (* k.words_mut()[i] = x *)
| IParse (s : list N) (radix : N).    (* k.assign_from_str_radix(s, radix) *)

Inductive vcall :=
| Make (k : N) (c : call)             (* let k = BitVecValue::zero(..), ... *)
| Clone (k j : N)                     (* let k = j.clone() *)
| Unary (k : N) (u : unary) (j : N)   (* let k = j.not(), ...; updates work on a clone of j *)
| Binary (k : N) (op : binop) (i j : N)
| Update (k : N) (u : update)
| Compare (t : test) (i j : N)
| Inspect (l : look) (k : N)
| Reload (k : N).                     (* k is serialized and deserialized with serde *)

(** What a call does, for the caller. *)
Inductive observed :=
| Missing                             (* there is no such variable *)
| Panicked
| Done
| Failed (e : int_error_kind)         (* a parse error *)
| Rejected                            (* a deserialization error *)
| Says (b : bool)
| Tells (x : answer).

(** Arguments are in the range of their Rust types; texts and big integers fit in memory. *)
Definition update_range (u : update) : Prop :=
  match u with
  | IFromU64 x | IWord _ x => x < 2 ^ 64
  | IFromI64 z => fits 64 z
  | ISetBit pos | IClearBit pos => pos < 2 ^ 32
  | IParse s r => len s < 2 ^ 30 /\ r < 2 ^ 32
  | _ => True
  end.
Definition vcall_range (c : vcall) : Prop :=
  match c with
  | Make _ c => fresh_range c
  | Unary _ u _ => unary_range u
  | Update _ u => update_range u
  | _ => True
  end.

(** ** With the code *)

Definition set {A} (env : N -> option A) (k : N) (a : A) : N -> option A :=
  fun n => if n =? k then Some a else env n.

(** constructors: the value or the parse error *)
Definition construct (m : mode) (c : call) : res parsed :=
  match c with
  | KFromStr s r w => bv_from_str_radix m s r w
  | KFromBitStr s => bv_from_bit_str m s
  | KFromHexStr s => bv_from_hex_str m s
  | c => let* v := run m c in let* v := unwrap v in Ok (Parsed v)
  end.

(** an update, on the words of a bit-vector of width [w]; [src] are the other variables *)
Definition update_call (m : mode) (w : N) (src : N -> option bv) (u : update)
  : option (eff (list N) (option int_error_kind)) :=
  let plain e := Some (do _ <- e ;; ret None) in
  match u with
  | IAssign j => match src j with Some b => plain (un_assign m w b) | None => None end
  | IClear => plain un_clear
  | IOnes => plain (un_assign_ones m w)
  | IMask => plain (un_mask_msb m w)
  | IFromU64 x => plain (un_assign_from_u64 m w x)
  | IFromI64 z => plain (un_assign_from_i64 m w z)
  | ISetBit pos => plain (un_set_bit pos)
  | IClearBit pos => plain (un_clear_bit pos)
  | IWord i x => plain (write (fun ws => set_idx ws i x))
  | IParse s radix => Some (un_from_str_radix m s radix w)
  end.

(** fractions in lowest terms, to compare them by their value *)
Definition lowest (x : answer) : answer :=
  match x with ARatio (Some q) => ARatio (Some (Qred q)) | x => x end.

Definition into (env : N -> option bv) (k : N) (r : res (option bv)) : (N -> option bv) * observed :=
  match r with Ok (Some v) => (set env k v, Done) | _ => (env, Panicked) end.

Definition vperform1 (m : mode) (env : N -> option bv) (c : vcall) : (N -> option bv) * observed :=
  match c with
  | Make k c =>
      match construct m c with
      | Ok (Parsed v) => (set env k v, Done)
      | Ok (ParseErr e) => (env, Failed e)
      | Panic _ => (env, Panicked)
      end
  | Clone k j => match env j with Some v => (set env k v, Done) | None => (env, Missing) end
  | Unary k u j =>
      match env j with Some a => into env k (run m (unary_call u a)) | None => (env, Missing) end
  | Binary k op i j =>
      match env i, env j with
      | Some a, Some b => into env k (run m (KBin op a b))
      | _, _ => (env, Missing)
      end
  | Update k u =>
      match env k with
      | Some v =>
          match update_call m (width v) env u with
          | Some e =>
              match e (words v) with
              | Returned ws None => (set env k (mkbv (width v) ws), Done)
              | Returned ws (Some e) => (set env k (mkbv (width v) ws), Failed e)
              | Unwound ws _ => (set env k (mkbv (width v) ws), Panicked)
              end
          | None => (env, Missing)
          end
      | None => (env, Missing)
      end
  | Compare t i j =>
      match env i, env j with
      | Some a, Some b => (env, match run_test t m a b with Ok b => Says b | Panic _ => Panicked end)
      | _, _ => (env, Missing)
      end
  | Inspect l k =>
      match env k with
      | Some a => (env, match tell m l a with Ok x => Tells (lowest x) | Panic _ => Panicked end)
      | None => (env, Missing)
      end
  | Reload k =>
      match env k with
      | Some v => match de_bv (ser_bv v) with Some v' => (set env k v', Done) | None => (env, Rejected) end
      | None => (env, Missing)
      end
  end.
Fixpoint vperform_from (m : mode) (env : N -> option bv) (cs : list vcall) : list observed :=
  match cs with
  | [] => []
  | c :: rest => let (env', o) := vperform1 m env c in o :: vperform_from m env' rest
  end.
Definition vperform (m : mode) : list vcall -> list observed := vperform_from m (fun _ => None).

(** ** With the interpreter *)

(** a width, and the number in the storage *)
Definition slot : Set := N * N.

Definition built (c : call) : outcome + int_error_kind :=
  let read w r := match r with Reads n => inl (Gives w n) | Fails e _ => inr e | Breaks => inl Stops end in
  match c with
  | KFromStr s r w => read w (reading_of r w 0 s)
  | KFromBitStr s => read (text_width 1 s) (reading_of 2 (text_width 1 s) 0 s)
  | KFromHexStr s => read (text_width 4 s) (reading_of 16 (text_width 4 s) 0 s)
  | c => inl (fresh c)
  end.

(** The number after an update, and what the caller sees.  When [assign_from_u64] or
    [assign_from_i64] panics the number is lost: the argument, cut to the width, is
    there instead. *)
Definition updated (w n : N) (src : N -> option slot) (u : update) : N * observed :=
  match u with
  | IAssign j =>
      match src j with
      | Some (w', k) => if w =? w' then (k, Done) else (n, Panicked)
      | None => (n, Missing)
      end
  | IClear => (0, Done)
  | IOnes => if w =? 0 then (n, Panicked) else (2 ^ w - 1, Done)
  | IMask => if w =? 0 then (n, Panicked) else (n mod 2 ^ w, Done)
  | IFromU64 x => (x mod 2 ^ w, if (w =? 0) || (2 ^ w <=? x) then Panicked else Done)
  | IFromI64 z => (wrap w z, if (w =? 0) || negb (fitsb w z) then Panicked else Done)
  | ISetBit pos => if 64 * places w <=? pos then (n, Panicked) else (N.setbit n pos, Done)
  | IClearBit pos => if 64 * places w <=? pos then (n, Panicked) else (N.clearbit n pos, Done)
  | IWord i x =>
      if places w <=? i then (n, Panicked)
      else let low := 2 ^ (64 * i) in
           (n mod low + x * low + n / (low * 2 ^ 64) * (low * 2 ^ 64), Done)
  | IParse s radix =>
      match reading_of radix w n s with
      | Reads k => (k, Done)
      | Fails e k => (k, Failed e)
      | Breaks => (n, Panicked)
      end
  end.

Definition keep (env : N -> option slot) (k : N) (o : outcome) : (N -> option slot) * observed :=
  match o with Gives w n => (set env k (w, n), Done) | _ => (env, Panicked) end.

Definition vpredict1 (env : N -> option slot) (c : vcall) : (N -> option slot) * observed :=
  match c with
  | Make k c => match built c with inl o => keep env k o | inr e => (env, Failed e) end
  | Clone k j => match env j with Some s => (set env k s, Done) | None => (env, Missing) end
  | Unary k u j =>
      match env j with Some (w, n) => keep env k (unary_result u w n) | None => (env, Missing) end
  | Binary k op i j =>
      match env i, env j with
      | Some (w, n), Some (w', n') => keep env k (binary_result op w n w' n')
      | _, _ => (env, Missing)
      end
  | Update k u =>
      match env k with
      | Some (w, n) => let (n', o) := updated w n env u in (set env k (w, n'), o)
      | None => (env, Missing)
      end
  | Compare t i j =>
      match env i, env j with
      | Some (w, n), Some (w', n') =>
          (env, match test_result t w n w' n' with Some b => Says b | None => Panicked end)
      | _, _ => (env, Missing)
      end
  | Inspect l k =>
      match env k with
      | Some (w, n) => (env, match look_result l w n with Some x => Tells (lowest x) | None => Panicked end)
      | None => (env, Missing)
      end
  | Reload k => (env, match env k with Some _ => Done | None => Missing end)
  end.
Fixpoint vpredict_from (env : N -> option slot) (cs : list vcall) : list observed :=
  match cs with
  | [] => []
  | c :: rest => let (env', o) := vpredict1 env c in o :: vpredict_from env' rest
  end.
Definition vpredict : list vcall -> list observed := vpredict_from (fun _ => None).
