(** * ReleaseInterpSpec: a reference interpreter for bit-vector programs of a release build (C86).

    [vpredict] of BvInterpSpec.v says what a debug build does, and by C83 a release
    build does the same as long as nothing panics.  A release build goes on where a
    debug build stops: it has no debug assertions and its arithmetic on widths
    wraps around.  [rpredict] says what it does then, again on pairs of a width and
    a number. *)

From Coq Require Import QArith.
From Verif Require Import Base Strings Bv Serde Unwind Spec TextSpec IoSpec CallSpec PanicSpec ParseSpec
  MixedSpec DirtySpec InterpSpec AnswerSpec BvInterpSpec.
Local Open Scope N_scope.

(** the first word, and the width taken into account when only it is looked at *)
Definition first (n : N) : N := n mod 2 ^ 64.
Definition last_bits (w : N) : N := (w - 1) mod 64 + 1.

(** constructors: arguments are cut to the width *)
Definition rfresh (c : call) : outcome :=
  match c with
  | KFromU64 n w => if w =? 0 then Stops else Gives w (n mod 2 ^ w)
  | KFromI64 z w => if w =? 0 then Stops else Gives w (wrap w z)
  (* the width wraps around *)
  | KOfBigInt z =>
      let w := (N.size (Z.abs_N z) + 1) mod 2 ^ 32 in
      if (w =? 0) && (z <? 0)%Z then Stops else Gives w (wrap w z)
  | KOfBigUint n => let w := N.size n mod 2 ^ 32 in Gives w (n mod 2 ^ w)
  | c => fresh c
  end.
Definition rbuilt (c : call) : outcome + int_error_kind :=
  match c with
  | KFromStr _ _ _ | KFromBitStr _ | KFromHexStr _ => built c
  | c => inl (rfresh c)
  end.

Definition runary (u : unary) (w n : N) : outcome :=
  match u with
  | USlice msb lsb =>
      (* whole words are addressed; reversed by less than a word the result is
         almost [2 ^ 32] bits wide *)
      let out := (msb + 1 + 2 ^ 32 - lsb) mod 2 ^ 32 in
      let last := 64 * (msb / 64 + 1) in
      if (64 * places w <? last) || (last <? lsb) || (out =? 0) then Stops
      else Gives out ((n mod 2 ^ last / 2 ^ lsb) mod 2 ^ out)
  | UZeroExtend k =>
      let out := (w + k) mod 2 ^ 32 in
      if (out =? 0) || (if out <=? 64 then w =? 0 else places out <? places w) then Stops
      else Gives out (if out <=? 64 then first n else n)
  | USignExtend k =>
      let out := (w + k) mod 2 ^ 32 in
      let (w1, n1) := if out <=? 64 then (last_bits w, first n) else (w, n) in
      if (out =? 0) || (w =? 0) || ((64 <? out) && (places out <? places w)) then Stops
      else Gives out (if N.testbit n1 (w1 - 1) then wrap out (signed w1 (n1 mod 2 ^ w1)) else n1)
  | UAssignU64 x => if w =? 0 then Stops else Gives w (x mod 2 ^ w)
  | UAssignI64 z => if w =? 0 then Stops else Gives w (wrap w z)
  | u => unary_result u w n
  end.

(** the operands of [mixed] are stored numbers; a shift to the right looks at the
    first [w] bits only *)
Definition rbinary (op : binop) (w n w' k : N) : outcome :=
  match op with
  | BConcat =>
      let out := (w + w') mod 2 ^ 32 in
      if out =? 0 then Stops
      else if out <=? 64 then
        if (w =? 0) || (w' =? 0) then Stops
        else Gives out (N.lor (first n * 2 ^ last_bits w') (first k) mod 2 ^ 64)
      else
        if negb (w' mod 64 =? 0) && (places out <? places w') then Stops
        else Gives out (N.lor (n * 2 ^ w') k mod 2 ^ (64 * places out))
  | op =>
      let n := match op with BShr | BAshr => n mod 2 ^ w | _ => n end in
      match mixed op w n w' k with Some r => Gives w r | None => Stops end
  end.

Definition rlook (l : look) (w n : N) : option answer :=
  match l with
  | LDecStr => if 2 ^ 128 <=? n then None else Some (AText (decimal n))
  | LFixed f =>
      Some (ARatio (if n <? 2 ^ 64
                    then Some (inject_Z (Z.of_N n) / inject_Z (2 ^ (Z.of_N f mod 64)))%Q
                    else None))
  | LFixedSigned f =>
      if w =? 0 then None
      else if top w n && (64 <? w) then Some (ARatio None)
      else Some (ARatio (if shown w n <? 2 ^ 64
        then Some (inject_Z (if top w n then - Z.of_N (shown w n) else Z.of_N n)
                   / inject_Z (2 ^ (Z.of_N f mod 64)))%Q
        else None))
  | l => look_result l w n
  end.

Definition rupdated (w n : N) (src : N -> option slot) (u : update) : N * observed :=
  match u with
  | IAssign j =>
      match src j with
      | Some (w', k) => if places w =? places w' then (k, Done) else (n, Panicked)
      | None => (n, Missing)
      end
  | IFromU64 x => if w =? 0 then (n, Panicked) else (x mod 2 ^ w, Done)
  | IFromI64 z => if w =? 0 then (n, Panicked) else (wrap w z, Done)
  | u => updated w n src u
  end.

Definition rpredict1 (env : N -> option slot) (c : vcall) : (N -> option slot) * observed :=
  match c with
  | Make k c => match rbuilt c with inl o => keep env k o | inr e => (env, Failed e) end
  | Unary k u j =>
      match env j with Some (w, n) => keep env k (runary u w n) | None => (env, Missing) end
  | Binary k op i j =>
      match env i, env j with
      | Some (w, n), Some (w', n') => keep env k (rbinary op w n w' n')
      | _, _ => (env, Missing)
      end
  | Update k u =>
      match env k with
      | Some (w, n) => let (n', o) := rupdated w n env u in (set env k (w, n'), o)
      | None => (env, Missing)
      end
  | Compare t i j =>
      match env i, env j with
      | Some (w, n), Some (w', n') =>
          (env, match mixed_test t w n w' n' with Some b => Says b | None => Panicked end)
      | _, _ => (env, Missing)
      end
  | Inspect l k =>
      match env k with
      | Some (w, n) => (env, match rlook l w n with Some x => Tells (lowest x) | None => Panicked end)
      | None => (env, Missing)
      end
  | c => vpredict1 env c
  end.
Fixpoint rpredict_from (env : N -> option slot) (cs : list vcall) : list observed :=
  match cs with
  | [] => []
  | c :: rest => let (env', o) := rpredict1 env c in o :: rpredict_from env' rest
  end.
Definition rpredict : list vcall -> list observed := rpredict_from (fun _ => None).
