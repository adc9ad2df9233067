(** * Base: the fragment of Rust semantics used by the model.

    Nothing in this file is specific to baa.  It fixes how the model renders
    panics, build profiles, fixed-size integers and slices. *)

From Coq Require Export NArith ZArith List Bool Lia.
Export ListNotations.
Open Scope N_scope.

(** Cargo build profile.  [Debug] enables [debug_assert!] and integer overflow
    checks; [Release] disables both (Cargo's defaults; /repo/Cargo.toml has no
    [profile] section that changes them). *)
Inductive mode := Debug | Release.

(** Why a Rust computation panicked. *)
Inductive panic :=
| PIndex        (* slice or vector index / range out of bounds *)
| PUnwrap       (* unwrap on None *)
| PDebugAssert  (* failed debug_assert! *)
| PAssert       (* failed assert!, or a std function's own precondition *)
| POverflow     (* integer overflow with overflow checks enabled *)
| PTodo         (* todo!() *)
| PUnreachable  (* unreachable!() *)
| PExplicit     (* panic!(..) *)
| PCapacity.    (* a Vec of more than isize::MAX bytes: "capacity overflow" *)

(** A computation either returns or panics. *)
Inductive res (A : Type) :=
| Ok (a : A)
| Panic (p : panic).
Arguments Ok {A} a.
Arguments Panic {A} p.

Definition bind {A B} (x : res A) (k : A -> res B) : res B :=
  match x with Ok a => k a | Panic p => Panic p end.

Notation "'let*' x ':=' e 'in' k" := (bind e (fun x => k))
  (at level 200, x pattern, e at level 100, k at level 200, right associativity).

(** [assert!] / [debug_assert!]. *)
Definition assert (b : bool) : res unit := if b then Ok tt else Panic PAssert.
Definition debug_assert (m : mode) (b : bool) : res unit :=
  match m with
  | Debug => if b then Ok tt else Panic PDebugAssert
  | Release => Ok tt
  end.

(** [Option::unwrap]. *)
Definition unwrap {A} (o : option A) : res A :=
  match o with Some a => Ok a | None => Panic PUnwrap end.

(** ** Fixed-size integers *)

(** 2^64: number of values of a [Word]; 2^32: number of values of a [WidthInt].
    lib.rs:5 ([WidthInt = u32]), lib.rs:8 ([Word = u64]). *)
Definition B64 : N := 18446744073709551616.
Definition B32 : N := 4294967296.
(** [Word::MAX] *)
Definition WMAX : N := 18446744073709551615.

(** [as u64], [as u32], [as u8] from a wider unsigned type *)
Definition as_u64 (x : N) : N := x mod B64.
Definition as_u32 (x : N) : N := x mod B32.
Definition as_u8  (x : N) : N := x mod 256.

(** u64 [<<] and [>>].  In every use below the amount is below 64 by
    construction, so the overflow check of debug builds cannot fire; for
    larger amounts this is what release builds compute. *)
Definition wshl (x k : N) : N := as_u64 (N.shiftl x (k mod 64)).
Definition wshr (x k : N) : N := N.shiftr x (k mod 64).
(** u64 [!x] *)
Definition wnot (x : N) : N := WMAX - x.

(** u32 arithmetic with the overflow behaviour of the build profile. *)
Definition u32_add (m : mode) (a b : N) : res N :=
  if a + b <? B32 then Ok (a + b)
  else match m with Debug => Panic POverflow | Release => Ok (as_u32 (a + b)) end.
Definition u32_sub (m : mode) (a b : N) : res N :=
  if b <=? a then Ok (a - b)
  else match m with Debug => Panic POverflow | Release => Ok (as_u32 (a + B32 - b)) end.
Definition u32_mul (m : mode) (a b : N) : res N :=
  if a * b <? B32 then Ok (a * b)
  else match m with Debug => Panic POverflow | Release => Ok (as_u32 (a * b)) end.

(** usize arithmetic (64-bit target). *)
Definition usz_sub (m : mode) (a b : N) : res N :=
  if b <=? a then Ok (a - b)
  else match m with Debug => Panic POverflow | Release => Ok (as_u64 (a + B64 - b)) end.
Definition usz_mul (m : mode) (a b : N) : res N :=
  if a * b <? B64 then Ok (a * b)
  else match m with Debug => Panic POverflow | Release => Ok (as_u64 (a * b)) end.
(** [1 << k] on u64 / usize: debug builds panic for k >= 64, release builds
    shift by [k mod 64]. *)
Definition u64_shl1 (m : mode) (k : N) : res N :=
  if k <? 64 then Ok (2 ^ k)
  else match m with Debug => Panic POverflow | Release => Ok (2 ^ (k mod 64)) end.

(** [u32::div_ceil] (no overflow, whatever the operands). *)
Definition div_ceil (a b : N) : N := (a + b - 1) / b.

(** ** Slices *)

(** [l[i]] *)
Definition idx {A} (l : list A) (i : N) : res A :=
  match nth_error l (N.to_nat i) with Some x => Ok x | None => Panic PIndex end.

(** [l[i] = v] *)
Fixpoint set_nth {A} (l : list A) (i : nat) (v : A) : option (list A) :=
  match l, i with
  | [], _ => None
  | _ :: t, O => Some (v :: t)
  | x :: t, S j => match set_nth t j v with Some t' => Some (x :: t') | None => None end
  end.
Definition set_idx {A} (l : list A) (i : N) (v : A) : res (list A) :=
  match set_nth l (N.to_nat i) v with Some l' => Ok l' | None => Panic PIndex end.

(** number of elements as a [usize] *)
Definition len {A} (l : list A) : N := N.of_nat (length l).

(** [&l[a..b]] *)
Definition range {A} (l : list A) (a b : N) : res (list A) :=
  if (a <=? b) && (b <=? len l)
  then Ok (firstn (N.to_nat (b - a)) (skipn (N.to_nat a) l))
  else Panic PIndex.

(** writing back the sub-slice [&mut l[a..a + length new]] after it was
    replaced by [new] *)
Definition splice {A} (l : list A) (a : N) (new : list A) : list A :=
  firstn (N.to_nat a) l ++ new ++ skipn (N.to_nat a + length new) l.

(** [l.last()] *)
Definition last_opt {A} (l : list A) : option A :=
  match rev l with [] => None | x :: _ => Some x end.

(** [*l.last_mut().unwrap() = f(old)] *)
Definition map_last {A} (f : A -> A) (l : list A) : res (list A) :=
  match rev l with [] => Panic PUnwrap | x :: t => Ok (rev (f x :: t)) end.
