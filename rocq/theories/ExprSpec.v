(** * ExprSpec: bit-vector expressions over any number of variables.

    [meaning] is the SMT-LIB-style value of an expression, a number below
    2^width; it is written with integer arithmetic only.  [evaluate] composes the
    calls of the library; it contains no computation of its own. *)

From Verif Require Import Base Bv Spec.

Inductive expr :=
| EVar (i : N)                       (* the i-th variable *)
| EWord (n w : N)                    (* BitVecValue::from_u64(n, w) *)
| EZero (w : N) | EOnes (w : N)      (* zero(w), ones(w) *)
| EAdd (a b : expr) | ESub (a b : expr) | EMul (a b : expr)
| EAnd (a b : expr) | EOr (a b : expr) | EXor (a b : expr)
| EShl (a b : expr) | EShr (a b : expr) | EAsr (a b : expr)
| ENot (a : expr) | ENeg (a : expr)
| ESlice (a : expr) (msb lsb : N)
| EConcat (a b : expr)
| EZext (a : expr) (by_ : N) | ESext (a : expr) (by_ : N)
| EEq (a b : expr)                   (* from_bool(a.is_equal(b)) *)
| EGt (a b : expr) | EGe (a b : expr)                        (* unsigned *)
| EGtS (a b : expr) | EGeS (a b : expr).                     (* signed *)

(** ** Static widths: [typed ws e w] says that, with variables of widths [ws],
    [e] is a well-sorted expression of width [w]; all widths are u32. *)
Inductive typed (ws : N -> N) : expr -> N -> Prop :=
| t_var i : 0 < ws i -> ws i < 2 ^ 32 -> typed ws (EVar i) (ws i)
| t_word n w : 0 < w -> w < 2 ^ 32 -> n < 2 ^ 64 -> n < 2 ^ w -> typed ws (EWord n w) w
| t_zero w : 0 < w -> w < 2 ^ 32 -> typed ws (EZero w) w
| t_ones w : 0 < w -> w < 2 ^ 32 -> typed ws (EOnes w) w
| t_add a b w : typed ws a w -> typed ws b w -> typed ws (EAdd a b) w
| t_sub a b w : typed ws a w -> typed ws b w -> typed ws (ESub a b) w
| t_mul a b w : typed ws a w -> typed ws b w -> typed ws (EMul a b) w
| t_and a b w : typed ws a w -> typed ws b w -> typed ws (EAnd a b) w
| t_or a b w : typed ws a w -> typed ws b w -> typed ws (EOr a b) w
| t_xor a b w : typed ws a w -> typed ws b w -> typed ws (EXor a b) w
| t_shl a b w : typed ws a w -> typed ws b w -> typed ws (EShl a b) w
| t_shr a b w : typed ws a w -> typed ws b w -> typed ws (EShr a b) w
| t_asr a b w : typed ws a w -> typed ws b w -> typed ws (EAsr a b) w
| t_not a w : typed ws a w -> typed ws (ENot a) w
| t_neg a w : typed ws a w -> typed ws (ENeg a) w
| t_slice a msb lsb w : typed ws a w -> lsb <= msb -> msb < w ->
    typed ws (ESlice a msb lsb) (msb - lsb + 1)
| t_concat a b wa wb : typed ws a wa -> typed ws b wb -> wa + wb < 2 ^ 32 ->
    typed ws (EConcat a b) (wa + wb)
| t_zext a by_ w : typed ws a w -> w + by_ < 2 ^ 32 -> typed ws (EZext a by_) (w + by_)
| t_sext a by_ w : typed ws a w -> w + by_ < 2 ^ 32 -> typed ws (ESext a by_) (w + by_)
| t_eq a b w : typed ws a w -> typed ws b w -> typed ws (EEq a b) 1
| t_gt a b w : typed ws a w -> typed ws b w -> typed ws (EGt a b) 1
| t_ge a b w : typed ws a w -> typed ws b w -> typed ws (EGe a b) 1
| t_gts a b w : typed ws a w -> typed ws b w -> typed ws (EGtS a b) 1
| t_ges a b w : typed ws a w -> typed ws b w -> typed ws (EGeS a b) 1.

(** the width of a well-sorted expression *)
Fixpoint ewidth (ws : N -> N) (e : expr) : N :=
  match e with
  | EVar i => ws i
  | EWord _ w | EZero w | EOnes w => w
  | EAdd a _ | ESub a _ | EMul a _ | EAnd a _ | EOr a _ | EXor a _
  | EShl a _ | EShr a _ | EAsr a _ | ENot a | ENeg a => ewidth ws a
  | ESlice _ msb lsb => msb - lsb + 1
  | EConcat a b => ewidth ws a + ewidth ws b
  | EZext a by_ | ESext a by_ => ewidth ws a + by_
  | EEq _ _ | EGt _ _ | EGe _ _ | EGtS _ _ | EGeS _ _ => 1
  end.

Definition truth (c : bool) : N := if c then 1 else 0.

(** ** The value of an expression, over the integers modulo 2^width *)
Fixpoint meaning (ws vs : N -> N) (e : expr) : N :=
  let val := meaning ws vs in
  let sval a := signed (ewidth ws a) (val a) in
  match e with
  | EVar i => vs i
  | EWord n _ => n
  | EZero _ => 0
  | EOnes w => 2 ^ w - 1
  | EAdd a b => wrap (ewidth ws a) (Z.of_N (val a) + Z.of_N (val b))
  | ESub a b => wrap (ewidth ws a) (Z.of_N (val a) - Z.of_N (val b))
  | EMul a b => wrap (ewidth ws a) (Z.of_N (val a) * Z.of_N (val b))
  | ENeg a => wrap (ewidth ws a) (- Z.of_N (val a))
  | EAnd a b => N.land (val a) (val b)
  | EOr a b => N.lor (val a) (val b)
  | EXor a b => N.lxor (val a) (val b)
  | ENot a => 2 ^ ewidth ws a - 1 - val a
  | EShl a b => (val a * 2 ^ val b) mod 2 ^ ewidth ws a
  | EShr a b => val a / 2 ^ val b
  | EAsr a b => wrap (ewidth ws a) (sval a / 2 ^ Z.of_N (val b))
  | ESlice a msb lsb => (val a / 2 ^ lsb) mod 2 ^ (msb - lsb + 1)
  | EConcat a b => val a * 2 ^ ewidth ws b + val b
  | EZext a _ => val a
  | ESext a by_ => wrap (ewidth ws a + by_) (sval a)
  | EEq a b => truth (val a =? val b)
  | EGt a b => truth (val b <? val a)
  | EGe a b => truth (val b <=? val a)
  | EGtS a b => truth (sval b <? sval a)%Z
  | EGeS a b => truth (sval b <=? sval a)%Z
  end.

(** ** The same expression as calls of the library *)
Definition call2 (f : bv -> bv -> res bv) (a b : res bv) : res bv :=
  let* x := a in let* y := b in f x y.
Definition test2 (m : mode) (f : bv -> bv -> res bool) (a b : res bv) : res bv :=
  let* x := a in let* y := b in let* c := f x y in bv_from_bool m c.

Fixpoint evaluate (m : mode) (env : N -> bv) (e : expr) : res bv :=
  let ev := evaluate m env in
  match e with
  | EVar i => Ok (env i)
  | EWord n w => bv_from_u64 m n w
  | EZero w => Ok (bv_zero w)
  | EOnes w => bv_ones m w
  | EAdd a b => call2 (bv_add m) (ev a) (ev b)
  | ESub a b => call2 (bv_sub m) (ev a) (ev b)
  | EMul a b => call2 (bv_mul m) (ev a) (ev b)
  | EAnd a b => call2 (bv_and m) (ev a) (ev b)
  | EOr a b => call2 (bv_or m) (ev a) (ev b)
  | EXor a b => call2 (bv_xor m) (ev a) (ev b)
  | EShl a b => call2 (bv_shift_left m) (ev a) (ev b)
  | EShr a b => call2 (bv_shift_right m) (ev a) (ev b)
  | EAsr a b => call2 (bv_arithmetic_shift_right m) (ev a) (ev b)
  | ENot a => let* x := ev a in bv_not m x
  | ENeg a => let* x := ev a in bv_negate m x
  | ESlice a msb lsb => let* x := ev a in bv_slice m x msb lsb
  | EConcat a b => call2 (bv_concat m) (ev a) (ev b)
  | EZext a by_ => let* x := ev a in bv_zero_extend m x by_
  | ESext a by_ => let* x := ev a in bv_sign_extend m x by_
  | EEq a b => test2 m (bv_is_equal m) (ev a) (ev b)
  | EGt a b => test2 m (bv_is_greater m) (ev a) (ev b)
  | EGe a b => test2 m (bv_is_greater_or_equal m) (ev a) (ev b)
  | EGtS a b => test2 m (bv_is_greater_signed m) (ev a) (ev b)
  | EGeS a b => test2 m (bv_is_greater_or_equal_signed m) (ev a) (ev b)
  end.

(** [env] holds well-formed values of widths [ws] and values [vs]. *)
Definition env_is (env : N -> bv) (ws vs : N -> N) : Prop :=
  forall i, 0 < ws i -> ws i < 2 ^ 32 -> is_bv (env i) (ws i) (vs i).

(** The expression avoids the three operations that are known to be wrong or
    missing on wide values (C03, C06, C14): products and [>=] are at most 64 bits
    wide, and a left shift is not by a non-zero multiple of 64 below the width,
    unless the width is itself a multiple of 64. *)
Fixpoint avoids (ws vs : N -> N) (e : expr) : Prop :=
  match e with
  | EVar _ | EWord _ _ | EZero _ | EOnes _ => True
  | EMul a b | EGe a b => avoids ws vs a /\ avoids ws vs b /\ ewidth ws a <= 64
  | EShl a b => avoids ws vs a /\ avoids ws vs b
      /\ (ewidth ws a mod 64 = 0 \/ meaning ws vs b mod 64 <> 0 \/ meaning ws vs b = 0
          \/ ewidth ws a <= meaning ws vs b)
  | EAdd a b | ESub a b | EAnd a b | EOr a b | EXor a b | EShr a b | EAsr a b
  | EConcat a b | EEq a b | EGt a b | EGtS a b | EGeS a b => avoids ws vs a /\ avoids ws vs b
  | ENot a | ENeg a | ESlice a _ _ | EZext a _ | ESext a _ => avoids ws vs a
  end.
