(** * PropertiesArith: C01 - C11.

    Vocabulary (Spec.v): [is_bv v w n]: [v] is the well-formed [w]-bit value
    [n]; [yields r w n]: the computation [r] returns, without panicking, the
    well-formed [w]-bit value [n].  [m] ranges over debug and release builds. *)

From Verif Require Import Base Bv Spec.
From Verif Require Import PArith PShift PropsArith.

(** Every number below 2^w is a well-formed [w]-bit value, so that the
    hypotheses [is_bv a w x] below are met for every [w] and [x]. *)
Theorem values_exist : forall w x, w < 2 ^ 32 -> x < 2 ^ w -> is_bv (bv_of w x) w x.
Proof. exact bv_of_is_bv. Qed.
Print Assumptions values_exist.

(** A well-formed value is determined by its width and number. *)
Theorem values_unique : forall a b w x, is_bv a w x -> is_bv b w x -> a = b.
Proof. exact PWords.is_bv_unique. Qed.
Print Assumptions values_unique.

(** ** C01 *)
Theorem C01_add : forall m a b w x y, 0 < w -> is_bv a w x -> is_bv b w y ->
  yields (bv_add m a b) w ((x + y) mod 2 ^ w)
  /\ yields (bv_op_add m a b) w ((x + y) mod 2 ^ w).
Proof. exact (fun m a b w x y H Ha Hb => conj (add_ok m a b w x y H Ha Hb) (add_ok m a b w x y H Ha Hb)). Qed.
Print Assumptions C01_add.

Example C01_example :
  is_bv (bv_of 65 (2 ^ 65 - 1)) 65 (2 ^ 65 - 1) /\ is_bv (bv_of 65 3) 65 3
  /\ bv_add Debug (bv_of 65 (2 ^ 65 - 1)) (bv_of 65 3) = Ok (bv_of 65 2).
Proof. split; [apply bv_of_is_bv; reflexivity|split; [apply bv_of_is_bv; reflexivity|reflexivity]]. Qed.

(** ** C02 *)
Theorem C02_sub : forall m a b w x y, 0 < w -> is_bv a w x -> is_bv b w y ->
  yields (bv_sub m a b) w (wrap w (Z.of_N x - Z.of_N y))
  /\ yields (bv_op_sub m a b) w (wrap w (Z.of_N x - Z.of_N y)).
Proof. exact (fun m a b w x y H Ha Hb => conj (sub_ok m a b w x y H Ha Hb) (sub_ok m a b w x y H Ha Hb)). Qed.
Print Assumptions C02_sub.

Theorem C02_sub_undoes_add : forall m a b w x y, 0 < w -> is_bv a w x -> is_bv b w y ->
  exists s, bv_add m a b = Ok s /\ bv_sub m s b = Ok a.
Proof. exact sub_after_add. Qed.
Print Assumptions C02_sub_undoes_add.

Example C02_example :
  is_bv (bv_of 100 1) 100 1 /\ is_bv (bv_of 100 3) 100 3
  /\ bv_sub Release (bv_of 100 1) (bv_of 100 3) = Ok (bv_of 100 (2 ^ 100 - 2)).
Proof. split; [apply bv_of_is_bv; reflexivity|split; [apply bv_of_is_bv; reflexivity|reflexivity]]. Qed.

(** ** C03

    Full statement (false of the code):
    [forall m a b w x y, 0 < w -> is_bv a w x -> is_bv b w y ->
       yields (bv_mul m a b) w ((x * y) mod 2 ^ w)]. *)
Theorem C03_mul_refuted : exists m a b w x y, 0 < w /\ is_bv a w x /\ is_bv b w y
  /\ ~ yields (bv_mul m a b) w ((x * y) mod 2 ^ w).
Proof. exact mul_refuted. Qed.
Print Assumptions C03_mul_refuted.

(** Up to 64 bits the product is right, above 64 bits every call panics. *)
Theorem C03_mul_partial : forall m a b w x y, 0 < w -> is_bv a w x -> is_bv b w y ->
  (w <= 64 -> yields (bv_mul m a b) w ((x * y) mod 2 ^ w))
  /\ (64 < w -> panics (bv_mul m a b)).
Proof. exact mul_cases. Qed.
Print Assumptions C03_mul_partial.

Example C03_example :
  is_bv (bv_of 64 (2 ^ 63 + 5)) 64 (2 ^ 63 + 5) /\ is_bv (bv_of 64 6) 64 6
  /\ bv_mul Debug (bv_of 64 (2 ^ 63 + 5)) (bv_of 64 6) = Ok (bv_of 64 30).
Proof. split; [apply bv_of_is_bv; reflexivity|split; [apply bv_of_is_bv; reflexivity|reflexivity]]. Qed.

(** ** C04 *)
Theorem C04_negate : forall m a w x, 0 < w -> is_bv a w x ->
  yields (bv_negate m a) w (wrap w (- Z.of_N x)).
Proof. exact negate_ok. Qed.
Print Assumptions C04_negate.

Theorem C04_negate_twice : forall m a w x, 0 < w -> is_bv a w x ->
  exists n, bv_negate m a = Ok n /\ bv_negate m n = Ok a.
Proof. exact negate_twice. Qed.
Print Assumptions C04_negate_twice.

Theorem C04_add_negated : forall m a w x, 0 < w -> is_bv a w x ->
  exists n, bv_negate m a = Ok n /\ yields (bv_add m a n) w 0.
Proof. exact add_negated. Qed.
Print Assumptions C04_add_negated.

Example C04_example :
  is_bv (bv_of 130 7) 130 7 /\ bv_negate Debug (bv_of 130 7) = Ok (bv_of 130 (2 ^ 130 - 7)).
Proof. split; [apply bv_of_is_bv; reflexivity|reflexivity]. Qed.

(** ** C05: [bits_of r w f] says that [r] returns a well-formed [w]-bit value
    with bit [i] equal to [f i] for [i < w] and no bit set from [w] on. *)
Theorem C05_bitwise : forall m a b w x y, 0 < w -> is_bv a w x -> is_bv b w y ->
  bits_of (bv_and m a b) w (fun i => N.testbit x i && N.testbit y i)
  /\ bits_of (bv_or m a b) w (fun i => N.testbit x i || N.testbit y i)
  /\ bits_of (bv_xor m a b) w (fun i => xorb (N.testbit x i) (N.testbit y i))
  /\ bits_of (bv_not m a) w (fun i => negb (N.testbit x i)).
Proof. exact bitwise_bits. Qed.
Print Assumptions C05_bitwise.

Example C05_example :
  is_bv (bv_of 70 (2 ^ 69 + 5)) 70 (2 ^ 69 + 5)
  /\ bv_not Debug (bv_of 70 (2 ^ 69 + 5)) = Ok (bv_of 70 (2 ^ 69 - 6))
  /\ bv_xor Debug (bv_of 70 (2 ^ 69 + 5)) (bv_of 70 6) = Ok (bv_of 70 (2 ^ 69 + 3)).
Proof. split; [apply bv_of_is_bv; reflexivity|split; reflexivity]. Qed.

(** ** C06

    Full statement (false of the code):
    [forall m a b w x y, 0 < w -> is_bv a w x -> is_bv b w y ->
       yields (bv_shift_left m a b) w ((x * 2 ^ y) mod 2 ^ w)]. *)
Theorem C06_shift_left_refuted : exists m a b w x y, 0 < w /\ is_bv a w x /\ is_bv b w y
  /\ ~ yields (bv_shift_left m a b) w ((x * 2 ^ y) mod 2 ^ w).
Proof. exact shift_left_refuted. Qed.
Print Assumptions C06_shift_left_refuted.

(** It holds exactly when the amount is at least the width, or no multiple of
    64, or when the bits shifted past the width would leave the storage
    anyway. *)
Theorem C06_shift_left_exact : forall m a b w x y, 0 < w -> is_bv a w x -> is_bv b w y ->
  (yields (bv_shift_left m a b) w ((x * 2 ^ y) mod 2 ^ w)
   <-> (w <= y \/ y mod 64 <> 0 \/ (x * 2 ^ y) mod 2 ^ (64 * ((w + 63) / 64)) < 2 ^ w)).
Proof. exact shift_left_exact. Qed.
Print Assumptions C06_shift_left_exact.

(** In particular for widths that are a multiple of 64, and for amounts that are
    not a non-zero multiple of 64. *)
Theorem C06_shift_left_partial : forall m a b w x y, 0 < w -> is_bv a w x -> is_bv b w y ->
  w mod 64 = 0 \/ y mod 64 <> 0 \/ y = 0 \/ w <= y ->
  yields (bv_shift_left m a b) w ((x * 2 ^ y) mod 2 ^ w).
Proof. exact shift_left_good. Qed.
Print Assumptions C06_shift_left_partial.

(** For every amount there is no panic and the low [w] bits are right. *)
Theorem C06_shift_left_low_bits_partial : forall m a b w x y,
  0 < w -> is_bv a w x -> is_bv b w y ->
  exists v, bv_shift_left m a b = Ok v /\ width v = w
            /\ uval v mod 2 ^ w = (x * 2 ^ y) mod 2 ^ w.
Proof. exact shift_left_low. Qed.
Print Assumptions C06_shift_left_low_bits_partial.

Example C06_example :
  is_bv (bv_of 100 (2 ^ 90 + 1)) 100 (2 ^ 90 + 1) /\ is_bv (bv_of 100 70) 100 70
  /\ bv_shift_left Debug (bv_of 100 (2 ^ 90 + 1)) (bv_of 100 70) = Ok (bv_of 100 (2 ^ 70)).
Proof. split; [apply bv_of_is_bv; reflexivity|split; [apply bv_of_is_bv; reflexivity|reflexivity]]. Qed.

(** ** C07 *)
Theorem C07_shift_right : forall m a b w x y, 0 < w -> is_bv a w x -> is_bv b w y ->
  yields (bv_shift_right m a b) w (x / 2 ^ y)
  /\ (w <= y -> yields (bv_shift_right m a b) w 0).
Proof. exact shift_right_cases. Qed.
Print Assumptions C07_shift_right.

Example C07_example :
  is_bv (bv_of 130 (2 ^ 129 + 5)) 130 (2 ^ 129 + 5) /\ is_bv (bv_of 130 65) 130 65
  /\ bv_shift_right Debug (bv_of 130 (2 ^ 129 + 5)) (bv_of 130 65) = Ok (bv_of 130 (2 ^ 64)).
Proof. split; [apply bv_of_is_bv; reflexivity|split; [apply bv_of_is_bv; reflexivity|reflexivity]]. Qed.

(** ** C08 ([/] on [Z] rounds towards minus infinity) *)
Theorem C08_arithmetic_shift_right : forall m a b w x y,
  0 < w -> is_bv a w x -> is_bv b w y ->
  exists v n, bv_arithmetic_shift_right m a b = Ok v /\ is_bv v w n
              /\ signed w n = (signed w x / 2 ^ Z.of_N y)%Z.
Proof. exact (fun m a b w x y Hw Ha Hb => asr_signed m a b w x y Ha Hb Hw). Qed.
Print Assumptions C08_arithmetic_shift_right.

(** all sign bits from the width on *)
Theorem C08_arithmetic_shift_right_far : forall m a b w x y,
  0 < w -> is_bv a w x -> is_bv b w y -> w <= y ->
  yields (bv_arithmetic_shift_right m a b) w (if 2 ^ (w - 1) <=? x then 2 ^ w - 1 else 0).
Proof. exact asr_far. Qed.
Print Assumptions C08_arithmetic_shift_right_far.

Example C08_example :
  is_bv (bv_of 130 (2 ^ 129 + 5)) 130 (2 ^ 129 + 5) /\ is_bv (bv_of 130 65) 130 65
  /\ bv_arithmetic_shift_right Debug (bv_of 130 (2 ^ 129 + 5)) (bv_of 130 65)
     = Ok (bv_of 130 (2 ^ 130 - 2 ^ 64)).
Proof. split; [apply bv_of_is_bv; reflexivity|split; [apply bv_of_is_bv; reflexivity|reflexivity]]. Qed.

(** ** C09 *)
Theorem C09_slice : forall m a w x msb lsb, is_bv a w x -> lsb <= msb -> msb < w ->
  yields (bv_slice m a msb lsb) (msb - lsb + 1) ((x / 2 ^ lsb) mod 2 ^ (msb - lsb + 1)).
Proof. exact slice_ok. Qed.
Print Assumptions C09_slice.

Theorem C09_slice_bits : forall m a w x msb lsb, is_bv a w x -> lsb <= msb -> msb < w ->
  bits_of (bv_slice m a msb lsb) (msb - lsb + 1) (fun i => N.testbit x (lsb + i)).
Proof. exact slice_bits. Qed.
Print Assumptions C09_slice_bits.

Theorem C09_slice_full : forall m a w x, 0 < w -> is_bv a w x ->
  bv_slice m a (w - 1) 0 = Ok a.
Proof. exact slice_full. Qed.
Print Assumptions C09_slice_full.

Example C09_example :
  is_bv (bv_of 200 (2 ^ 150 + 2 ^ 63)) 200 (2 ^ 150 + 2 ^ 63)
  /\ bv_slice Debug (bv_of 200 (2 ^ 150 + 2 ^ 63)) 150 60 = Ok (bv_of 91 (2 ^ 90 + 8)).
Proof. split; [apply bv_of_is_bv; reflexivity|reflexivity]. Qed.

(** ** C10 *)
Theorem C10_concat : forall m a b wa wb x y, is_bv a wa x -> is_bv b wb y ->
  0 < wa -> 0 < wb -> wa + wb < 2 ^ 32 ->
  yields (bv_concat m a b) (wa + wb) (x * 2 ^ wb + y).
Proof. exact concat_ok. Qed.
Print Assumptions C10_concat.

Theorem C10_concat_slice_apart : forall m a b wa wb x y, is_bv a wa x -> is_bv b wb y ->
  0 < wa -> 0 < wb -> wa + wb < 2 ^ 32 ->
  exists c, bv_concat m a b = Ok c
    /\ bv_slice m c (wa + wb - 1) wb = Ok a /\ bv_slice m c (wb - 1) 0 = Ok b.
Proof. exact concat_apart. Qed.
Print Assumptions C10_concat_slice_apart.

Theorem C10_concat_assoc : forall m a b c wa wb wc x y z,
  is_bv a wa x -> is_bv b wb y -> is_bv c wc z -> 0 < wa -> 0 < wb -> 0 < wc ->
  wa + wb + wc < 2 ^ 32 ->
  exists ab bc r, bv_concat m a b = Ok ab /\ bv_concat m b c = Ok bc
    /\ bv_concat m ab c = Ok r /\ bv_concat m a bc = Ok r.
Proof. exact concat_assoc. Qed.
Print Assumptions C10_concat_assoc.

Example C10_example :
  is_bv (bv_of 70 (2 ^ 69 + 1)) 70 (2 ^ 69 + 1) /\ is_bv (bv_of 3 5) 3 5
  /\ bv_concat Debug (bv_of 70 (2 ^ 69 + 1)) (bv_of 3 5) = Ok (bv_of 73 (2 ^ 72 + 13)).
Proof. split; [apply bv_of_is_bv; reflexivity|split; [apply bv_of_is_bv; reflexivity|reflexivity]]. Qed.

(** ** C11 *)
Theorem C11_zero_extend : forall m a w x by_, is_bv a w x -> 0 < w -> w + by_ < 2 ^ 32 ->
  yields (bv_zero_extend m a by_) (w + by_) x.
Proof. exact zero_extend_ok. Qed.
Print Assumptions C11_zero_extend.

Theorem C11_sign_extend : forall m a w x by_, is_bv a w x -> 0 < w -> w + by_ < 2 ^ 32 ->
  exists v n, bv_sign_extend m a by_ = Ok v /\ is_bv v (w + by_) n
              /\ signed (w + by_) n = signed w x.
Proof. exact sign_extend_signed. Qed.
Print Assumptions C11_sign_extend.

Example C11_example :
  is_bv (bv_of 70 (2 ^ 70 - 2)) 70 (2 ^ 70 - 2)
  /\ bv_sign_extend Debug (bv_of 70 (2 ^ 70 - 2)) 65 = Ok (bv_of 135 (2 ^ 135 - 2))
  /\ bv_zero_extend Debug (bv_of 70 (2 ^ 70 - 2)) 65 = Ok (bv_of 135 (2 ^ 70 - 2)).
Proof. split; [apply bv_of_is_bv; reflexivity|split; reflexivity]. Qed.
