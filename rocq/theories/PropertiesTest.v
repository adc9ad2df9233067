(** * PropertiesTest: the project's property tests, for all inputs (C79).

    The bodies of the tests are in TestSpec; the conditions below are the ranges their
    generators draw from, without the bounds on the lengths.  A test that answers
    [Ok true] has passed. *)

From Verif Require Import Base Arith Strings Bytes BigInt Bv Indexed Spec TextSpec ViewSpec IoSpec TestSpec PTest.

(** ** C79

    Full statement (false of the code): every property test passes on every input of the
    kind its generator describes.  It fails for left shifts by multiples of the
    word size, for multiplication above 64 bits, for signed binary texts with a multiple of 64
    digits, and for decimal texts above 128 bits; each of these is characterised
    exactly. *)
Theorem C79_refuted :
  (exists s k, binary s /\ amount s k /\ ~ passes (fun m => do_test_shift_left m s k))
  /\ (exists a b w, small w a /\ small w b /\ 0 < w /\ w < 2 ^ 32 /\ ~ passes (fun m => do_test_mul m a b w))
  /\ (exists d, binary d /\ ~ passes (fun m => do_test_from_to_bit_str m (45 :: d)))
  /\ (exists d, binary d /\ ~ passes (fun m => do_test_to_from_decimal_str m d)).
Proof. exact test_refuted. Qed.
Print Assumptions C79_refuted.

Theorem C79_texts_partial : forall a b, binary a -> binary b ->
  passes (fun m => do_test_is_neg m a) /\ passes (fun m => do_test_hash m a)
  /\ (len a + len b < 2 ^ 32 -> passes (fun m => do_test_concat m a b))
  /\ (forall hi lo, lo <= hi -> hi < len a -> passes (fun m => do_test_slice m a hi lo))
  /\ (forall k, len a + k < 2 ^ 32 -> passes (fun m => do_test_zero_ext m a k) /\ passes (fun m => do_test_sign_ext m a k))
  /\ (forall k, amount a k -> passes (fun m => do_test_shift_right m a k) /\ passes (fun m => do_test_arithmetic_shift_right m a k)).
Proof.
  exact (fun a b Ha Hb => conj (test_is_neg_ok a Ha) (conj (test_hash_ok a Ha) (conj (test_concat_ok a b Ha Hb)
    (conj (fun hi lo => test_slice_ok a hi lo Ha) (conj (fun k H => conj (test_zero_ext_ok a k Ha H) (test_sign_ext_ok a k Ha H))
      (fun k H => conj (test_shift_right_ok a k Ha H) (test_asr_ok a k Ha H))))))).
Qed.
Print Assumptions C79_texts_partial.

(** A left shift fails exactly for the amounts below the width that are multiples of
    64, when one of the digits that leave the width without leaving the storage is a 1:
    of the first [k] digits, the last [unused (len s)] end up in the unused bits, which
    are not cleared. *)
Theorem C79_shift_left_partial : forall s k, binary s -> amount s k ->
  (passes (fun m => do_test_shift_left m s k)
   <-> k mod 64 <> 0 \/ len s <= k \/ Forall (fun c => c = 48) (rest (k - unused (len s)) (first k s))).
Proof. exact test_shift_left_iff. Qed.
Print Assumptions C79_shift_left_partial.

Theorem C79_big_partial : forall a b w, 0 < w -> w < 2 ^ 32 -> small w a -> small w b ->
  passes (fun m => do_test_add m a b w) /\ passes (fun m => do_test_sub m a b w)
  /\ (passes (fun m => do_test_mul m a b w) <-> w <= 64)
  /\ passes (fun m => do_test_cmp_greater m a b w) /\ passes (fun m => do_test_cmp_greater_equal m a b w)
  /\ passes (fun m => do_test_cmp_equal m a b w)
  /\ passes (fun m => do_test_cmp_greater_signed m a b w) /\ passes (fun m => do_test_cmp_greater_equal_signed m a b w)
  /\ passes (fun m => do_test_cmp_equal_signed m a b w)
  /\ passes (fun m => interner_should_return_same_value m a w).
Proof. exact test_big_ok. Qed.
Print Assumptions C79_big_partial.

Theorem C79_round_trips :
  (forall z, N.size (Z.abs_N z) < 2 ^ 32 - 63 -> passes (fun m => do_test_from_to_big_int m z))
  /\ (forall n, N.size n < 2 ^ 32 - 63 -> passes (fun m => do_test_from_to_big_uint m n))
  /\ (forall b, is_bytes b -> 8 * len b < 2 ^ 32 -> passes (fun m => do_test_from_to_bytes_le m b))
  /\ (forall sg d, sign sg -> d <> [] -> Forall hex_digit d -> len d < 2 ^ 30 -> (sg = [45] -> 4 * len d + 1 < 2 ^ 32) ->
        passes (fun m => do_test_from_to_hex_str m (sg ++ d)))
  /\ passes (fun m => do_test_from_to_bit_str m []) /\ passes (fun m => do_test_from_to_hex_str m [])
  /\ passes (fun m => do_test_to_from_decimal_str m []).
Proof. exact (conj test_big_int_ok (conj test_big_uint_ok (conj test_bytes_ok (conj test_hex_str_ok test_empty)))). Qed.
Print Assumptions C79_round_trips.

Theorem C79_bit_str_partial : forall sg d, sign sg -> binary d -> len (sg ++ d) < 2 ^ 32 ->
  (passes (fun m => do_test_from_to_bit_str m (sg ++ d)) <-> sg = [] \/ len d mod 64 <> 0).
Proof. exact test_bit_str_iff. Qed.
Print Assumptions C79_bit_str_partial.

Theorem C79_decimal_partial : forall sg d, sign sg -> binary d -> len (sg ++ d) < 2 ^ 32 ->
  (passes (fun m => do_test_to_from_decimal_str m (sg ++ d)) <-> (if starts 45 sg then len d + 1 else len d) <= 128).
Proof. exact test_decimal_iff. Qed.
Print Assumptions C79_decimal_partial.

(** The generators draw texts of at most 32 digits, where every one of these passes:
    the tests cannot find what C79_refuted shows. *)
Theorem C79_short : forall sg d k, sign sg -> binary d -> len d < 64 -> amount d k ->
  passes (fun m => do_test_shift_left m d k)
  /\ passes (fun m => do_test_from_to_bit_str m (sg ++ d))
  /\ passes (fun m => do_test_to_from_decimal_str m (sg ++ d)).
Proof. exact test_short. Qed.
Print Assumptions C79_short.

(** Inputs in the ranges, and what the tests answer on them, in and out of the exact
    conditions. *)
Example C79_example :
  let d := copies 64 49 in
  binary (49 :: d) /\ amount (49 :: d) 64 /\ sign [43] /\ small 70 (2 ^ 68) /\ small 70 (- 3)
  /\ do_test_slice Debug (49 :: d) 64 3 = Ok true
  /\ do_test_shift_left Debug (49 :: d) 63 = Ok true
  /\ do_test_shift_left Debug (49 :: d) 64 = Ok false
  /\ do_test_shift_left Debug (49 :: copies 64 48) 64 = Ok true
  /\ do_test_shift_left Debug (d ++ d) 64 = Ok true
  /\ do_test_mul Debug 5 (-7) 64 = Ok true /\ do_test_mul Debug (2 ^ 68) (-3) 70 = Panic PTodo
  /\ do_test_add Debug (2 ^ 68) (-3) 70 = Ok true
  /\ do_test_from_to_bit_str Debug (45 :: d) = Ok false /\ do_test_from_to_bit_str Debug (45 :: 49 :: d) = Ok true
  /\ do_test_from_to_bytes_le Debug [1; 2; 255] = Ok true
  /\ do_test_to_from_decimal_str Release (d ++ d) = Ok true
  /\ do_test_to_from_decimal_str Release (48 :: d ++ d) = Panic PTodo.
Proof.
  cbv zeta. split; [|split; [|split; [|split; [|split]]]]; [| | | |reflexivity|vm_compute; repeat split].
  - split; [discriminate|]. split; [|reflexivity].
    apply Forall_forall. intros x [<-|Hx]; [now right|]. apply repeat_spec in Hx. now right.
  - split; reflexivity.
  - right; left; reflexivity.
  - reflexivity.
Qed.
