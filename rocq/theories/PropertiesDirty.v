(** * PropertiesDirty: what set unused bits do to later calls (C76). *)

From Verif Require Import Base Bv Spec CallSpec PanicSpec MixedSpec DirtySpec PDirty.

(** ** Calls for which they make no difference *)

Theorem C76_ignored m c : (forall a, In a (operands c) -> well_shaped a) -> ignores c ->
  run m c = run m (clean_call c).
Proof. exact (ignores_ok m c). Qed.
Print Assumptions C76_ignored.

Theorem C76_arithmetic m a b w n k : 0 < w -> stores a w n -> stores b w k ->
  yields (bv_add m a b) w ((n + k) mod 2 ^ w)
  /\ yields (bv_sub m a b) w (wrap w (Z.of_N n - Z.of_N k))
  /\ (w <= 64 -> yields (bv_mul m a b) w ((n * k) mod 2 ^ w))
  /\ yields (bv_negate m a) w (wrap w (- Z.of_N n))
  /\ yields (bv_not m a) w (2 ^ w - 1 - n mod 2 ^ w).
Proof.
  exact (fun H Ha Hb => conj (dirty_add m a b w n k H Ha Hb)
    (conj (dirty_sub m a b w n k H Ha Hb)
    (conj (fun L => dirty_mul m a b w n k H L Ha Hb)
    (conj (dirty_negate m a w n H Ha) (dirty_not m a w n H Ha))))).
Qed.
Print Assumptions C76_arithmetic.

Theorem C76_slice m a w n msb lsb : stores a w n -> lsb <= msb -> msb < w ->
  yields (bv_slice m a msb lsb) (msb - lsb + 1) ((n / 2 ^ lsb) mod 2 ^ (msb - lsb + 1)).
Proof. exact (dirty_slice m a w n msb lsb). Qed.
Print Assumptions C76_slice.

Theorem C76_bits_and_sign m a w n : 0 < w -> stores a w n ->
  bv_is_negative m a = Ok (signed w (n mod 2 ^ w) <? 0)%Z
  /\ (forall pos, pos < 64 * places w -> bv_is_bit_set a pos = Ok (N.testbit n pos))
  /\ bv_to_bit_str a = bv_to_bit_str (cleaned a).
Proof.
  exact (fun H Ha => conj (dirty_is_negative m a w n H Ha)
    (conj (fun pos => dirty_is_bit_set a w n pos Ha) (dirty_bit_str a w n Ha))).
Qed.
Print Assumptions C76_bits_and_sign.

(** [mask_msb] is the way to get rid of them. *)
Theorem C76_mask m a : well_shaped a -> 0 < width a ->
  bv_mask_msb m a = Ok (cleaned a)
  /\ is_bv (cleaned a) (width a) (uval a mod 2 ^ width a).
Proof.
  exact (fun H H0 => conj (mask_cleans m a H H0) (cleaned_ok a _ _ (shaped_stores a H))).
Qed.
Print Assumptions C76_mask.

(** ** Calls for which they make a difference *)

(** The right shifts ignore those of the value, but not those of the amount. *)
Theorem C76_shift_right m a b w n k : 0 < w -> stores a w n -> stores b w k ->
  yields (bv_shift_right m a b) w (n mod 2 ^ w / 2 ^ k)
  /\ yields (bv_arithmetic_shift_right m a b) w (wrap w (signed w (n mod 2 ^ w) / 2 ^ Z.of_N k)).
Proof.
  exact (fun H Ha Hb => conj (dirty_shr m a b w n k H Ha Hb) (dirty_ashr m a b w n k H Ha Hb)).
Qed.
Print Assumptions C76_shift_right.

Theorem C76_shift_left m a b w n k : 0 < w -> stores a w n -> stores b w k ->
  holds (bv_shift_left m a b) w
    (if w <=? k then 0
     else if k mod 64 =? 0 then (n * 2 ^ k) mod 2 ^ (64 * places w)
     else (n * 2 ^ k) mod 2 ^ w).
Proof. exact (dirty_shl m a b w n k). Qed.
Print Assumptions C76_shift_left.

Theorem C76_bitwise m a b w n k : stores a w n -> stores b w k ->
  holds (bv_and m a b) w (N.land n k)
  /\ holds (bv_or m a b) w (N.lor n k)
  /\ holds (bv_xor m a b) w (N.lxor n k).
Proof.
  exact (fun Ha Hb => conj (dirty_and m a b w n k Ha Hb)
    (conj (dirty_or m a b w n k Ha Hb) (dirty_xor m a b w n k Ha Hb))).
Qed.
Print Assumptions C76_bitwise.

Theorem C76_compare t m a b w n k : 0 < w -> stores a w n -> stores b w k ->
  run_test t m a b = Ok (stored_test t w n k).
Proof. exact (dirty_test t m a b w n k). Qed.
Print Assumptions C76_compare.

Theorem C76_extend m a w n k : 0 < w -> stores a w n -> w + k < 2 ^ 32 ->
  holds (bv_zero_extend m a k) (w + k) n
  /\ holds (bv_sign_extend m a k) (w + k)
       (if N.testbit n (w - 1) then wrap (w + k) (signed w (n mod 2 ^ w)) else n).
Proof.
  exact (fun H Ha Hk => conj (dirty_zext m a w n k H Ha Hk) (dirty_sext m a w n k H Ha Hk)).
Qed.
Print Assumptions C76_extend.

(** the unused bits of the lower part fall onto the upper part *)
Theorem C76_concat m a b w n w' k : 0 < w -> 0 < w' -> stores a w n -> stores b w' k ->
  w + w' < 2 ^ 32 ->
  holds (bv_concat m a b) (w + w') (N.lor (n * 2 ^ w') k mod 2 ^ (64 * places (w + w'))).
Proof. exact (dirty_concat m a b w w' n k). Qed.
Print Assumptions C76_concat.

Theorem C76_numbers m a w n : 0 < w -> stores a w n ->
  bv_to_u64 a = (if n <? 2 ^ 64 then Some n else None)
  /\ bv_is_zero a = (n =? 0)
  /\ bv_to_big_uint a = Ok n
  /\ bv_to_big_int m a = Ok (if N.testbit n (w - 1) then signed w (n mod 2 ^ w) else Z.of_N n).
Proof.
  exact (fun H Ha => conj (dirty_to_u64 a w n Ha) (conj (dirty_is_zero a w n Ha)
    (conj (dirty_big_uint a w n Ha) (dirty_big_int m a w n H Ha)))).
Qed.
Print Assumptions C76_numbers.

(** No other operation ignores them. *)
Theorem C76_sensitive :
  (forall op, ~ In op [BAdd; BSub; BMul] -> exists a b,
     made Debug any_call a /\ made Debug any_call b /\ width a = width b
     /\ run_bin op Debug a b <> run_bin op Debug (cleaned a) (cleaned b))
  /\ (forall t, exists a b,
     made Debug any_call a /\ made Debug any_call b /\ width a = width b
     /\ run_test t Debug a b <> run_test t Debug (cleaned a) (cleaned b))
  /\ (exists a, made Debug any_call a
     /\ bv_zero_extend Debug a 8 <> bv_zero_extend Debug (cleaned a) 8
     /\ bv_sign_extend Debug a 8 <> bv_sign_extend Debug (cleaned a) 8
     /\ bv_to_u64 a <> bv_to_u64 (cleaned a)
     /\ bv_is_zero a <> bv_is_zero (cleaned a)
     /\ bv_to_big_uint a <> bv_to_big_uint (cleaned a)
     /\ bv_to_big_int Debug a <> bv_to_big_int Debug (cleaned a)).
Proof. exact sensitive_ok. Qed.
Print Assumptions C76_sensitive.

(** A value whose unused bits are set, as a user gets it, and what the calls
    above make of it. *)
Example C76_example :
  let a := mkbv 4 [19] in
  bv_set_bit (bv_of 4 3) 4 = Ok a
  /\ stores a 4 19 /\ ~ wf a /\ cleaned a = bv_of 4 3
  /\ bv_add Debug a (bv_of 4 1) = Ok (bv_of 4 4)
  /\ bv_is_equal Debug a (bv_of 4 3) = Ok false
  /\ bv_is_greater Debug a (bv_of 4 15) = Ok true
  /\ bv_concat Debug (bv_of 4 2) a = Ok (bv_of 8 51)
  /\ bv_zero_extend Debug a 4 = Ok (bv_of 8 19)
  /\ bv_mask_msb Debug a = Ok (bv_of 4 3).
Proof. exact dirty_example. Qed.
