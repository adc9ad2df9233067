(** * PropertiesView: C68 and C69, what a user sees who only reads and prints.

    [read m s] is [from_bit_str(s).unwrap()] (ViewSpec.v); [binary s] says that
    [s] is a non-empty text of '0' and '1'.  Texts are lists of ASCII codes,
    48 = '0' and 49 = '1', most significant bit first.  These are the project's own property tests
    (src/bv/arithmetic.rs:786-876), for every text and every length. *)

From Verif Require Import Base Bv Spec TextSpec ViewSpec PropsArith PView.

(** ** C68: operations on texts of bits *)

Theorem C68_concat : forall m a b, binary a -> binary b -> len a + len b < 2 ^ 32 ->
  (let* x := read m a in let* y := read m b in let* r := bv_concat m x y in bv_to_bit_str r) = Ok (a ++ b).
Proof. exact text_concat. Qed.

(** the character for bit [i] is the one at position [len s - 1 - i] *)
Theorem C68_slice : forall m s hi lo, binary s -> lo <= hi -> hi < len s ->
  (let* x := read m s in let* r := bv_slice m x hi lo in bv_to_bit_str r)
  = Ok (first (hi - lo + 1) (rest (len s - 1 - hi) s)).
Proof. exact text_slice. Qed.

(** [number 2 b = Some k]: the text [b] denotes the amount [k] *)
Theorem C68_shift_right : forall m a b k, binary a -> binary b -> len b = len a -> number 2 b = Some k ->
  (let* x := read m a in let* y := read m b in let* r := bv_shift_right m x y in bv_to_bit_str r)
  = Ok (copies (N.min k (len a)) 48 ++ first (len a - k) a).
Proof. exact text_shift_right. Qed.

Theorem C68_arithmetic_shift_right : forall m a b k, binary a -> binary b -> len b = len a -> number 2 b = Some k ->
  (let* x := read m a in let* y := read m b in let* r := bv_arithmetic_shift_right m x y in bv_to_bit_str r)
  = Ok (copies (N.min k (len a)) (hd 48 a) ++ first (len a - k) a).
Proof. exact text_asr. Qed.

(** The text of a left shift is always right, even where C06 says that the value
    is not: the stray bits are not printed. *)
Theorem C68_shift_left : forall m a b k, binary a -> binary b -> len b = len a -> number 2 b = Some k ->
  (let* x := read m a in let* y := read m b in let* r := bv_shift_left m x y in bv_to_bit_str r)
  = Ok (rest k a ++ copies (N.min k (len a)) 48).
Proof. exact text_shift_left. Qed.

Theorem C68_zero_extend : forall m s k, binary s -> len s + k < 2 ^ 32 ->
  (let* x := read m s in let* r := bv_zero_extend m x k in bv_to_bit_str r) = Ok (copies k 48 ++ s).
Proof. exact text_zero_extend. Qed.

Theorem C68_sign_extend : forall m s k, binary s -> len s + k < 2 ^ 32 ->
  (let* x := read m s in let* r := bv_sign_extend m x k in bv_to_bit_str r) = Ok (copies k (hd 48 s) ++ s).
Proof. exact text_sign_extend. Qed.

Theorem C68_is_negative : forall m s, binary s ->
  (let* x := read m s in bv_is_negative m x) = Ok (hd 48 s =? 49).
Proof. exact text_is_negative. Qed.

Theorem C68_bitwise : forall m a b, binary a -> binary b -> len b = len a ->
  (let* x := read m a in let* y := read m b in let* r := bv_and m x y in bv_to_bit_str r) = Ok (zip char_and a b)
  /\ (let* x := read m a in let* y := read m b in let* r := bv_or m x y in bv_to_bit_str r) = Ok (zip char_or a b)
  /\ (let* x := read m a in let* y := read m b in let* r := bv_xor m x y in bv_to_bit_str r) = Ok (zip char_xor a b)
  /\ (let* x := read m a in let* r := bv_not m x in bv_to_bit_str r) = Ok (map char_not a).
Proof. exact text_bitwise. Qed.

Theorem C68_bits : forall m s pos, binary s -> pos < len s ->
  (let* x := read m s in bv_is_bit_set x pos) = Ok (nth (N.to_nat (len s - 1 - pos)) s 48 =? 49)
  /\ (let* x := read m s in let* r := bv_set_bit x pos in bv_to_bit_str r)
     = Ok (first (len s - 1 - pos) s ++ [49] ++ rest (len s - pos) s)
  /\ (let* x := read m s in let* r := bv_clear_bit x pos in bv_to_bit_str r)
     = Ok (first (len s - 1 - pos) s ++ [48] ++ rest (len s - pos) s).
Proof. exact text_bits. Qed.

Theorem C68_eq : forall m a b, binary a -> binary b ->
  exists r, (let* x := read m a in let* y := read m b in bv_eq m x y) = Ok r /\ (r = true <-> a = b).
Proof. exact text_eq. Qed.

(** texts of equal length compare like the words of a dictionary *)
Theorem C68_order : forall m a b, binary a -> binary b -> len b = len a ->
  (let* x := read m a in let* y := read m b in bv_is_less m x y) = Ok (before a b)
  /\ (let* x := read m a in let* y := read m b in bv_is_greater m x y) = Ok (before b a).
Proof. exact text_order. Qed.

(** "101", 70 zeros and "11"; the amount 66 *)
Example C68_example :
  let a := [49; 48; 49] ++ copies 70 48 ++ [49; 49] in
  let b := copies 68 48 ++ [49; 48; 48; 48; 48; 49; 48] in
  binary a /\ binary b /\ len b = len a /\ number 2 b = Some 66
  /\ (let* x := read Debug a in let* y := read Debug b in
      let* r := bv_arithmetic_shift_right Debug x y in bv_to_bit_str r)
     = Ok (copies 66 49 ++ [49; 48; 49] ++ copies 6 48)
  /\ before b a = true.
Proof.
  assert (B : forall s, forallb (fun c => (c =? 48) || (c =? 49)) s = true -> Forall (fun c => c = 48 \/ c = 49) s).
  { intros s H. rewrite forallb_forall in H. apply Forall_forall. intros c Hc. specialize (H c Hc).
    apply Bool.orb_true_iff in H. destruct H as [H|H]; apply N.eqb_eq in H; auto. }
  cbn zeta. repeat split; try discriminate; try (apply B; reflexivity); reflexivity.
Qed.

(** ** C69: operations on big integers

    [wrap w z] is the [w]-bit number congruent to [z]; [fits w z] says that [z]
    is a [w]-bit two's complement number (Spec.v). *)

Theorem C69_ring : forall m a b w, 0 < w -> w < 2 ^ 32 ->
  (let* x := bv_from_big_int m a w in let* y := bv_from_big_int m b w in
   let* r := bv_add m x y in bv_to_big_uint r) = Ok (wrap w (a + b))
  /\ (let* x := bv_from_big_int m a w in let* y := bv_from_big_int m b w in
      let* r := bv_sub m x y in bv_to_big_uint r) = Ok (wrap w (a - b))
  /\ (let* x := bv_from_big_int m a w in let* r := bv_negate m x in bv_to_big_uint r) = Ok (wrap w (- a))
  /\ (w <= 64 -> (let* x := bv_from_big_int m a w in let* y := bv_from_big_int m b w in
      let* r := bv_mul m x y in bv_to_big_uint r) = Ok (wrap w (a * b))).
Proof. exact ring_mod. Qed.

(** without overflow the result is the integer itself *)
Theorem C69_ring_exact : forall m a b w, 0 < w -> w < 2 ^ 32 ->
  (fits w (a + b) -> (let* x := bv_from_big_int m a w in let* y := bv_from_big_int m b w in
   let* r := bv_add m x y in bv_to_big_int m r) = Ok (a + b)%Z)
  /\ (fits w (a - b) -> (let* x := bv_from_big_int m a w in let* y := bv_from_big_int m b w in
      let* r := bv_sub m x y in bv_to_big_int m r) = Ok (a - b)%Z)
  /\ (fits w (- a) -> (let* x := bv_from_big_int m a w in let* r := bv_negate m x in bv_to_big_int m r) = Ok (- a)%Z)
  /\ (w <= 64 -> fits w (a * b) -> (let* x := bv_from_big_int m a w in let* y := bv_from_big_int m b w in
      let* r := bv_mul m x y in bv_to_big_int m r) = Ok (a * b)%Z).
Proof. exact ring_exact. Qed.

Theorem C69_compare : forall m a b w, 0 < w -> w < 2 ^ 32 -> fits w a -> fits w b ->
  exists x y, bv_from_big_int m a w = Ok x /\ bv_from_big_int m b w = Ok y
    /\ bv_is_greater_signed m x y = Ok (b <? a)%Z /\ bv_is_greater_or_equal_signed m x y = Ok (b <=? a)%Z
    /\ bv_is_less_signed m x y = Ok (a <? b)%Z /\ bv_is_less_or_equal_signed m x y = Ok (a <=? b)%Z
    /\ bv_is_equal m x y = Ok (a =? b)%Z /\ bv_is_negative m x = Ok (a <? 0)%Z.
Proof. exact big_compare. Qed.

Theorem C69_compare_unsigned : forall m a b w, w < 2 ^ 32 -> a < 2 ^ w -> b < 2 ^ w ->
  exists x y, bv_from_big_uint m a w = Ok x /\ bv_from_big_uint m b w = Ok y
    /\ bv_is_greater m x y = Ok (b <? a) /\ bv_is_less m x y = Ok (a <? b) /\ bv_is_equal m x y = Ok (a =? b).
Proof. exact big_ucompare. Qed.

(** [Z.land] and so on act on two's complement numbers of unlimited width *)
Theorem C69_bitwise : forall m a b w, 0 < w -> w < 2 ^ 32 -> fits w a -> fits w b ->
  (let* x := bv_from_big_int m a w in let* y := bv_from_big_int m b w in
   let* r := bv_and m x y in bv_to_big_int m r) = Ok (Z.land a b)
  /\ (let* x := bv_from_big_int m a w in let* y := bv_from_big_int m b w in
      let* r := bv_or m x y in bv_to_big_int m r) = Ok (Z.lor a b)
  /\ (let* x := bv_from_big_int m a w in let* y := bv_from_big_int m b w in
      let* r := bv_xor m x y in bv_to_big_int m r) = Ok (Z.lxor a b)
  /\ (let* x := bv_from_big_int m a w in let* r := bv_not m x in bv_to_big_int m r) = Ok (Z.lnot a).
Proof. exact big_bitwise. Qed.

(** [/] on [Z] rounds down *)
Theorem C69_shift_right : forall m a n k w, 0 < w -> w < 2 ^ 32 -> fits w a -> n < 2 ^ w -> k < 2 ^ w ->
  (let* x := bv_from_big_int m a w in let* y := bv_from_big_uint m k w in
   let* r := bv_arithmetic_shift_right m x y in bv_to_big_int m r) = Ok (a / 2 ^ Z.of_N k)%Z
  /\ (let* x := bv_from_big_uint m n w in let* y := bv_from_big_uint m k w in
      let* r := bv_shift_right m x y in bv_to_big_uint r) = Ok (n / 2 ^ k).
Proof. exact big_shift. Qed.

Theorem C69_layout : forall m a n1 n2 w w2 k hi lo, 0 < w -> w + k < 2 ^ 32 -> 0 < w2 -> w + w2 < 2 ^ 32 ->
  fits w a -> n1 < 2 ^ w -> n2 < 2 ^ w2 -> lo <= hi -> hi < w ->
  (let* x := bv_from_big_int m a w in let* r := bv_sign_extend m x k in bv_to_big_int m r) = Ok a
  /\ (let* x := bv_from_big_uint m n1 w in let* r := bv_zero_extend m x k in bv_to_big_uint r) = Ok n1
  /\ (let* x := bv_from_big_uint m n1 w in let* y := bv_from_big_uint m n2 w2 in
      let* r := bv_concat m x y in bv_to_big_uint r) = Ok (n1 * 2 ^ w2 + n2)
  /\ (let* x := bv_from_big_uint m n1 w in let* r := bv_slice m x hi lo in bv_to_big_uint r)
     = Ok ((n1 / 2 ^ lo) mod 2 ^ (hi - lo + 1)).
Proof. exact big_layout. Qed.

Example C69_example :
  fits 130 (- 2 ^ 100) /\ fits 130 7 /\ fits 130 (- 2 ^ 100 - 7)
  /\ (let* x := bv_from_big_int Debug (- 2 ^ 100) 130 in let* y := bv_from_big_int Debug 7 130 in
      let* r := bv_sub Debug x y in bv_to_big_int Debug r) = Ok (- 2 ^ 100 - 7)%Z
  /\ (let* x := bv_from_big_int Debug (- 2 ^ 100) 130 in let* y := bv_from_big_uint Debug 97 130 in
      let* r := bv_arithmetic_shift_right Debug x y in bv_to_big_int Debug r) = Ok (-8)%Z.
Proof. unfold fits. repeat split; try reflexivity; discriminate. Qed.

Print Assumptions C68_concat.
Print Assumptions C68_slice.
Print Assumptions C68_shift_right.
Print Assumptions C68_arithmetic_shift_right.
Print Assumptions C68_shift_left.
Print Assumptions C68_zero_extend.
Print Assumptions C68_sign_extend.
Print Assumptions C68_is_negative.
Print Assumptions C68_bitwise.
Print Assumptions C68_bits.
Print Assumptions C68_eq.
Print Assumptions C68_order.
Print Assumptions C69_ring.
Print Assumptions C69_ring_exact.
Print Assumptions C69_compare.
Print Assumptions C69_compare_unsigned.
Print Assumptions C69_bitwise.
Print Assumptions C69_shift_right.
Print Assumptions C69_layout.
