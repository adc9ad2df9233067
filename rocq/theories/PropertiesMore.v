(** * PropertiesMore: build profiles, rejected arguments, order, algebraic laws
    and array equality. *)

From Coq Require Import ZifyBool ZifyNat ZifyN.
From Verif Require Import Base Arith Strings Bytes BigInt Bv Map Indexed Array.
From Verif Require Import Spec TextSpec ArraySpec ExprSpec ProfileSpec LawSpec.
From Verif Require Import PWords PArith PCompare PConv PropsArith PArrays PMisc PProfile PReject PArrayEq PLaws.

(** ** C54: a debug result is also the release result

    For all arguments whatsoever: mismatched widths, indices out of range and
    values with stray bits included. *)
Theorem C54_arithmetic : forall a b,
  (same_in_release (fun m => bv_add m a b) /\ same_in_release (fun m => bv_sub m a b)
   /\ same_in_release (fun m => bv_mul m a b) /\ same_in_release (fun m => bv_negate m a))
  /\ (same_in_release (fun m => bv_and m a b) /\ same_in_release (fun m => bv_or m a b)
      /\ same_in_release (fun m => bv_xor m a b) /\ same_in_release (fun m => bv_not m a))
  /\ (same_in_release (fun m => bv_shift_left m a b)
      /\ same_in_release (fun m => bv_shift_right m a b)
      /\ same_in_release (fun m => bv_arithmetic_shift_right m a b))
  /\ (forall msb lsb, same_in_release (fun m => bv_slice m a msb lsb))
  /\ same_in_release (fun m => bv_concat m a b)
  /\ (forall k, same_in_release (fun m => bv_zero_extend m a k)
        /\ same_in_release (fun m => bv_sign_extend m a k)).
Proof. exact profile_arith. Qed.
Print Assumptions C54_arithmetic.

Theorem C54_tests : forall a b,
  (same_in_release (fun m => bv_eq m a b) /\ same_in_release (fun m => bvref_eq m a b)
   /\ same_in_release (fun m => bv_is_equal m a b)
   /\ same_in_release (fun m => bv_is_not_equal m a b))
  /\ (same_in_release (fun m => bv_is_greater m a b) /\ same_in_release (fun m => bv_is_less m a b)
      /\ same_in_release (fun m => bv_is_greater_or_equal m a b)
      /\ same_in_release (fun m => bv_is_less_or_equal m a b))
  /\ (same_in_release (fun m => bv_is_greater_signed m a b)
      /\ same_in_release (fun m => bv_is_less_signed m a b)
      /\ same_in_release (fun m => bv_is_greater_or_equal_signed m a b)
      /\ same_in_release (fun m => bv_is_less_or_equal_signed m a b))
  /\ (same_in_release (fun m => bv_is_negative m a) /\ same_in_release (fun m => bv_to_i64 m a)).
Proof. exact profile_tests. Qed.
Print Assumptions C54_tests.

Theorem C54_text : forall a s r w,
  (same_in_release (fun m => bv_to_bit_str_signed m a)
   /\ same_in_release (fun m => bv_to_hex_str m a)
   /\ same_in_release (fun m => bv_to_hex_str_signed m a)
   /\ same_in_release (fun m => bv_to_dec_str m a))
  /\ (same_in_release (fun m => bv_from_bit_str m s) /\ same_in_release (fun m => bv_from_hex_str m s)
      /\ same_in_release (fun m => bv_from_str_radix m s r w)
      /\ same_in_release (fun m => bv_assign_from_str_radix m a s r)).
Proof. exact profile_text. Qed.
Print Assumptions C54_text.

Theorem C54_conversions : forall a f n (z : Z) bytes w,
  (same_in_release (fun m => bv_from_u64 m n w) /\ same_in_release (fun m => bv_from_i64 m z w)
   /\ (forall b, same_in_release (fun m => bv_from_bool m b))
   /\ same_in_release (fun m => bv_ones m w))
  /\ (same_in_release (fun m => bv_from_bytes_le m bytes w)
      /\ same_in_release (fun m => bv_from_big_int m z w)
      /\ same_in_release (fun m => bv_from_big_uint m n w)
      /\ same_in_release (fun m => bv_of_big_int m z)
      /\ same_in_release (fun m => bv_of_big_uint m n)
      /\ same_in_release (fun m => bv_to_big_int m a))
  /\ (same_in_release (fun m => bv_to_unsigned_fixed_point m a f)
      /\ same_in_release (fun m => bv_to_signed_fixed_point m a f)).
Proof. exact profile_convert. Qed.
Print Assumptions C54_conversions.

Theorem C54_in_place : forall a b n (z : Z) store i j k st,
  (same_in_release (fun m => bv_assign m a b) /\ same_in_release (fun m => bv_mask_msb m a)
   /\ same_in_release (fun m => bv_assign_ones m a)
   /\ same_in_release (fun m => bv_assign_from_u64 m a n)
   /\ same_in_release (fun m => bv_assign_from_i64 m a z))
  /\ (same_in_release (fun m => get_mut_ref_2 m store i j)
      /\ same_in_release (fun m => get_mut_ref_3 m store i j k)
      /\ same_in_release (fun m => interner_get_index m st a)).
Proof. exact profile_in_place. Qed.
Print Assumptions C54_in_place.

Theorem C54_arrays : forall ho probe iw v x y i,
  (same_in_release (fun m => array_new_dense m iw v)
   /\ same_in_release (fun m => array_new_sparse m iw v)
   /\ (forall l, same_in_release (fun m => array_from_bools m l))
   /\ (forall l, same_in_release (fun m => array_from_u8s m l)
        /\ same_in_release (fun m => array_from_u64s m l)))
  /\ (same_in_release (fun m => array_select probe m x i)
      /\ same_in_release (fun m => array_store probe m x i v))
  /\ (same_in_release (fun m => array_make_dense ho m x)
      /\ same_in_release (fun m => sparse_of_array ho m x))
  /\ (same_in_release (fun m => array_is_equal ho m x y)
      /\ same_in_release (fun m => array_eq ho m x y)
      /\ (forall p q, same_in_release (fun m => value_eq ho m p q)))
  /\ (forall s, same_in_release (fun m => sparse_default m s)
        /\ same_in_release (fun m => sparse_entries ho m s)).
Proof. exact profile_arrays. Qed.
Print Assumptions C54_arrays.

(** ... hence also for every program made of such calls. *)
Theorem C54_sequence : forall A B (f : mode -> res A) (g : A -> mode -> res B),
  same_in_release f -> (forall x, same_in_release (g x)) ->
  same_in_release (fun m => let* x := f m in g x m).
Proof. exact profile_sequence. Qed.
Print Assumptions C54_sequence.

Example C54_example : bv_add Debug (bv_of 65 (2 ^ 65 - 1)) (bv_of 65 3) = Ok (bv_of 65 2)
  /\ bv_add Release (bv_of 65 (2 ^ 65 - 1)) (bv_of 65 3) = Ok (bv_of 65 2)
  /\ panics (bv_add Debug (bv_of 8 1) (bv_of 9 1))
  /\ bv_add Release (bv_of 8 1) (bv_of 9 1) = Ok (bv_of 8 2).
Proof. repeat split; try reflexivity. eexists. reflexivity. Qed.

(** ** C55: operands of different widths are rejected *)
Theorem C55_debug_partial : forall a b, width a <> width b ->
  (panics (bv_add Debug a b) /\ panics (bv_sub Debug a b) /\ panics (bv_mul Debug a b))
  /\ (panics (bv_and Debug a b) /\ panics (bv_or Debug a b) /\ panics (bv_xor Debug a b))
  /\ (panics (bv_shift_left Debug a b) /\ panics (bv_shift_right Debug a b)
      /\ panics (bv_arithmetic_shift_right Debug a b))
  /\ (panics (bv_is_equal Debug a b) /\ panics (bv_is_not_equal Debug a b))
  /\ (panics (bv_is_greater Debug a b) /\ panics (bv_is_less Debug a b)
      /\ panics (bv_is_greater_or_equal Debug a b) /\ panics (bv_is_less_or_equal Debug a b))
  /\ (panics (bv_is_greater_signed Debug a b) /\ panics (bv_is_less_signed Debug a b)
      /\ panics (bv_is_greater_or_equal_signed Debug a b)
      /\ panics (bv_is_less_or_equal_signed Debug a b))
  /\ panics (bv_assign Debug a b).
Proof. exact mismatch_debug. Qed.
Print Assumptions C55_debug_partial.

(** an index or an element of the wrong width *)
Theorem C55_array_index_partial : forall probe a i v, width i <> array_index_width a ->
  panics (array_select probe Debug a i) /\ panics (array_store probe Debug a i v).
Proof. exact mismatch_array_ops. Qed.
Print Assumptions C55_array_index_partial.
Theorem C55_array_data_partial : forall probe a i v, width v <> array_data_width a ->
  panics (array_store probe Debug a i v).
Proof. exact mismatch_array_data. Qed.
Print Assumptions C55_array_data_partial.

(** [==] is defined on all pairs: different widths are never equal. *)
Theorem C55_eq : forall m a b, width a <> width b ->
  bv_eq m a b = Ok false /\ bvref_eq m a b = Ok false.
Proof. exact mismatch_eq. Qed.
Print Assumptions C55_eq.

(** A release build rejects nothing: [is_equal] finds an 8-bit value equal to a
    different 130-bit value, and [or] returns an 8-bit vector with bits beyond
    its width. *)
Theorem C55_release_refuted : exists a b c wa wb x y z,
  is_bv a wa x /\ is_bv b wb y /\ is_bv c wb z /\ wa <> wb
  /\ bv_is_equal Release a b = Ok true /\ x <> y
  /\ exists v, bv_or Release a c = Ok v /\ ~ wf v.
Proof. exact mismatch_refuted. Qed.
Print Assumptions C55_release_refuted.

Example C55_example : width (bv_of 8 5) <> width (bv_of 9 5) /\ panics (bv_and Debug (bv_of 8 5) (bv_of 9 5))
  /\ exists a, array_new_dense Debug 3 (bv_of 8 7) = Ok a /\ width (bv_of 8 5) <> array_index_width a.
Proof.
  split; [discriminate|]. split; [eexists; reflexivity|].
  eexists. split; [reflexivity|discriminate].
Qed.

(** ** C56: slices outside the value are rejected *)
Theorem C56_debug_partial : forall a msb lsb, width a < msb \/ msb < lsb ->
  panics (bv_slice Debug a msb lsb).
Proof. exact slice_debug. Qed.
Print Assumptions C56_debug_partial.

(** The most significant bit of the slice is at or above the width ([msb = w] is
    what the debug assertion lets through): a panic when it falls into a word
    the value does not have, otherwise the value is read as if zero-extended. *)
Theorem C56_beyond_partial : forall m a w x msb lsb, is_bv a w x -> lsb <= msb -> w <= msb ->
  msb - lsb + 1 < 2 ^ 32 -> (m = Debug -> msb = w) ->
  (msb / 64 < (w + 63) / 64 -> yields (bv_slice m a msb lsb) (msb - lsb + 1) (x / 2 ^ lsb))
  /\ ((w + 63) / 64 <= msb / 64 -> panics (bv_slice m a msb lsb)).
Proof. exact slice_beyond. Qed.
Print Assumptions C56_beyond_partial.

Theorem C56_beyond_refuted : exists a w x, is_bv a w x /\ 0 < w
  /\ (forall m, yields (bv_slice m a w 0) (w + 1) x)
  /\ exists v, bv_slice Release a (w + 5) (w + 2) = Ok v.
Proof. exact slice_beyond_refuted. Qed.
Print Assumptions C56_beyond_refuted.

(** A release build takes [slice(0, 5)] for a slice of 2^32 - 4 bits. *)
Theorem C56_reversed_refuted : exists a w x v, is_bv a w x
  /\ bv_slice Release a 0 5 = Ok v /\ width v = 2 ^ 32 - 4.
Proof. exact slice_reversed_refuted. Qed.
Print Assumptions C56_reversed_refuted.

Example C56_example : is_bv (bv_of 100 9) 100 9 /\ panics (bv_slice Debug (bv_of 100 9) 101 0)
  /\ bv_slice Release (bv_of 100 9) 120 1 = Ok (bv_of 120 4)
  /\ panics (bv_slice Release (bv_of 100 9) 128 1).
Proof.
  split; [apply bv_of_is_bv; reflexivity|].
  split; [eexists; reflexivity|split; [reflexivity|eexists; reflexivity]].
Qed.

(** ** C57: a result that would be wider than a width can express is rejected *)
Theorem C57_debug_partial : forall a b k,
  (2 ^ 32 <= width a + width b -> panics (bv_concat Debug a b))
  /\ (2 ^ 32 <= width a + k -> panics (bv_zero_extend Debug a k) /\ panics (bv_sign_extend Debug a k)).
Proof. exact overflow_debug. Qed.
Print Assumptions C57_debug_partial.

Theorem C57_extend_refuted : exists a w x k v, is_bv a w x /\ k < 2 ^ 32
  /\ 2 ^ 32 <= w + k /\ bv_zero_extend Release a k = Ok v /\ width v = 1 /\ ~ wf v.
Proof. exact overflow_extend_refuted. Qed.
Print Assumptions C57_extend_refuted.

Theorem C57_concat_refuted : exists a b wa wb x y v, is_bv a wa x /\ is_bv b wb y
  /\ 2 ^ 32 <= wa + wb /\ bv_concat Release a b = Ok v /\ width v = 8 /\ ~ wf v.
Proof. exact overflow_concat_refuted. Qed.
Print Assumptions C57_concat_refuted.

Example C57_example : panics (bv_zero_extend Debug (bv_of 8 3) (2 ^ 32 - 8))
  /\ panics (bv_sign_extend Debug (bv_of 8 3) (2 ^ 32 - 1)).
Proof. split; eexists; reflexivity. Qed.

(** ** C58: the order of [BitVecValue] *)
Theorem C58_widths : forall a b, width a <> width b -> bv_cmp a b = (width a ?= width b).
Proof. exact cmp_widths. Qed.
Print Assumptions C58_widths.

Theorem C58_equal_widths : forall a b w x y k, is_bv a w x -> is_bv b w y ->
  x mod 2 ^ (64 * k) = y mod 2 ^ (64 * k) ->
  (x / 2 ^ (64 * k)) mod 2 ^ 64 <> (y / 2 ^ (64 * k)) mod 2 ^ 64 ->
  bv_cmp a b = ((x / 2 ^ (64 * k)) mod 2 ^ 64 ?= (y / 2 ^ (64 * k)) mod 2 ^ 64).
Proof. exact cmp_digits. Qed.
Print Assumptions C58_equal_widths.

(** Different values always have a lowest differing digit, so the previous
    theorem decides every pair. *)
Theorem C58_decided : forall a b w x y, is_bv a w x -> is_bv b w y -> x <> y ->
  exists k, x mod 2 ^ (64 * k) = y mod 2 ^ (64 * k)
  /\ (x / 2 ^ (64 * k)) mod 2 ^ 64 <> (y / 2 ^ (64 * k)) mod 2 ^ 64.
Proof. exact cmp_decided. Qed.
Print Assumptions C58_decided.

Theorem C58_by_value_up_to_64 : forall a b w x y, is_bv a w x -> is_bv b w y -> w <= 64 ->
  bv_cmp a b = (x ?= y).
Proof. exact cmp_one_word. Qed.
Print Assumptions C58_by_value_up_to_64.

(** "Ord does not necessarily order by value" (owned.rs:13) is meant. *)
Theorem C58_not_by_value : exists a b w x y, is_bv a w x /\ is_bv b w y /\ y < x /\ bv_cmp a b = Lt.
Proof. exact cmp_not_by_value. Qed.
Print Assumptions C58_not_by_value.

Example C58_example : bv_cmp (bv_of 40 7) (bv_of 40 9) = Lt /\ bv_cmp (bv_of 9 7) (bv_of 8 200) = Gt
  /\ is_bv (bv_of 40 7) 40 7.
Proof. repeat split; try reflexivity; apply bv_of_is_bv; reflexivity. Qed.

(** ** C59: laws of arithmetic

    [laws], [mul_laws], [split_laws] and [shift_left_laws] (LawSpec.v) list the
    equations. *)
Theorem C59_laws : forall m a b c w x y z, 0 < w -> is_bv a w x -> is_bv b w y -> is_bv c w z ->
  Forall (holds m a b c) (laws w).
Proof. exact laws_ok. Qed.
Print Assumptions C59_laws.

Theorem C59_mul_laws : forall m a b c w x y z, 0 < w -> w <= 64 ->
  is_bv a w x -> is_bv b w y -> is_bv c w z -> Forall (holds m a b c) (mul_laws w).
Proof. exact mul_laws_ok. Qed.
Print Assumptions C59_mul_laws.

Theorem C59_split_laws : forall m a b c w k x y z, 0 < k -> k < w -> w + w + k < 2 ^ 32 ->
  is_bv a w x -> is_bv b w y -> is_bv c w z -> Forall (holds m a b c) (split_laws w k).
Proof. exact split_laws_ok. Qed.
Print Assumptions C59_split_laws.

Theorem C59_shift_left_law : forall m a b c w k x y z, 0 < k -> k < w ->
  w mod 64 = 0 \/ k mod 64 <> 0 ->
  is_bv a w x -> is_bv b w y -> is_bv c w z -> Forall (holds m a b c) (shift_left_laws w k).
Proof. exact shift_left_laws_ok. Qed.
Print Assumptions C59_shift_left_law.

Example C59_example :
  evaluate Debug (operands (bv_of 65 (2 ^ 64 + 7)) (bv_of 65 9) (bv_of 65 1)) (ENot (EAnd vx vy))
    = Ok (bv_of 65 (2 ^ 65 - 2))
  /\ evaluate Debug (operands (bv_of 65 (2 ^ 64 + 7)) (bv_of 65 9) (bv_of 65 1)) (EOr (ENot vx) (ENot vy))
    = Ok (bv_of 65 (2 ^ 65 - 2))
  /\ is_bv (bv_of 65 (2 ^ 64 + 7)) 65 (2 ^ 64 + 7) /\ length (laws 65) = 39%nat.
Proof. repeat split; try reflexivity; apply bv_of_is_bv; reflexivity. Qed.

(** ** C60: [==] of arrays is an equivalence relation *)
Theorem C60_reflexive : forall probe ho m a iw dw f, hashing probe -> reorders ho ->
  built probe ho m a iw dw f -> array_eq ho m a a = Ok true.
Proof. exact array_refl. Qed.
Print Assumptions C60_reflexive.

Theorem C60_symmetric : forall probe ho m a b iw dw f iw' dw' g r, hashing probe -> reorders ho ->
  built probe ho m a iw dw f -> built probe ho m b iw' dw' g ->
  array_is_equal ho m a b = Ok r -> array_is_equal ho m b a = Ok r.
Proof. exact array_sym. Qed.
Print Assumptions C60_symmetric.

Theorem C60_transitive_partial : forall probe ho m a b c iw dw f iw' dw' g iw'' dw'' h r,
  hashing probe -> reorders ho ->
  built probe ho m a iw dw f -> built probe ho m b iw' dw' g -> built probe ho m c iw'' dw'' h ->
  array_is_dense a = true \/ array_is_dense c = true \/ array_is_dense b = false ->
  array_eq ho m a b = Ok true -> array_eq ho m b c = Ok true -> array_eq ho m a c = Ok r -> r = true.
Proof. exact array_trans. Qed.
Print Assumptions C60_transitive_partial.

(** Two sparse arrays that equal the same dense array need not be equal. *)
Theorem C60_transitive_refuted : forall probe ho m, hashing probe -> reorders ho ->
  exists a b c f g h, built probe ho m a 1 8 f /\ built probe ho m b 1 8 g /\ built probe ho m c 1 8 h
    /\ array_eq ho m a b = Ok true /\ array_eq ho m b c = Ok true /\ array_eq ho m a c = Ok false.
Proof. exact array_trans_refuted. Qed.
Print Assumptions C60_transitive_refuted.

(** ** C43, continued: two sparse arrays whose entries together are fewer than
    the indices compare equal exactly when they have the same contents. *)
Theorem C43_few_entries_partial : forall probe ho m a b iw dw f g la lb, hashing probe -> reorders ho -> 0 < iw ->
  built probe ho m (ASparse a) iw dw f -> built probe ho m (ASparse b) iw dw g ->
  sparse_entries ho m a = Ok la -> sparse_entries ho m b = Ok lb -> len la + len lb < 2 ^ iw ->
  (array_eq ho m (ASparse a) (ASparse b) = Ok true <-> same_contents iw f g).
Proof. exact sparse_few. Qed.
Print Assumptions C43_few_entries_partial.

(** One entry each, stored at different indices of 32. *)
Example C43_few_example : exists a b f g la lb,
  built some_probe some_order Debug (ASparse a) 5 8 f /\ built some_probe some_order Debug (ASparse b) 5 8 g
  /\ sparse_entries some_order Debug a = Ok la /\ sparse_entries some_order Debug b = Ok lb
  /\ len la = 1 /\ len lb = 1
  /\ array_eq some_order Debug (ASparse a) (ASparse b) = Ok false
  /\ array_eq some_order Debug (ASparse a) (ASparse a) = Ok true.
Proof.
  destruct (array_new_sparse Debug 5 (bv_of 8 3)) as [a0|] eqn:E0; [|discriminate].
  destruct (bv_of_is_bv 8 3) as (W & _ & _); [reflexivity|reflexivity|].
  assert (B0 := built_sparse some_probe some_order Debug 5 (bv_of 8 3) a0 W ltac:(reflexivity) ltac:(reflexivity) E0).
  assert (L : forall i, i < 2 ^ 5 -> arr_legal 5 8 (AStore (bv_of 5 i) (bv_of 8 9))).
  { intros i Hi. destruct (bv_of_is_bv 5 i) as (A1 & A2 & _); [reflexivity|auto|].
    destruct (bv_of_is_bv 8 9) as (C1 & C2 & _); [reflexivity|reflexivity|]. repeat (split; [assumption|]). assumption. }
  destruct (built_mutates _ _ _ _ _ _ _ _ some_probe_hashing some_order_reorders B0 ltac:(vm_compute; discriminate) (L 4 eq_refl)) as (a1 & E1).
  destruct (built_mutates _ _ _ _ _ _ _ _ some_probe_hashing some_order_reorders B0 ltac:(vm_compute; discriminate) (L 7 eq_refl)) as (a2 & E2).
  assert (B1 := built_step _ _ _ _ _ _ _ _ _ B0 (L 4 eq_refl) E1).
  assert (B2 := built_step _ _ _ _ _ _ _ _ _ B0 (L 7 eq_refl) E2).
  vm_compute in E0; injection E0 as <-. vm_compute in E1; injection E1 as <-. vm_compute in E2; injection E2 as <-.
  eexists _, _, _, _, _, _. split; [exact B1|]. split; [exact B2|].
  repeat (split; [reflexivity|]). reflexivity.
Qed.

(** The same contents dense and sparse: both directions of [==] hold. *)
Example C60_example : exists s0 s d, array_new_sparse Debug 2 (bv_of 64 0) = Ok s0
  /\ arr_run_all some_probe Debug s0 [AStore (bv_of 2 2) (bv_of 64 9); AStore (bv_of 2 0) (bv_of 64 5)] = Ok s
  /\ array_from_u64s Debug [5; 0; 9] = Ok d
  /\ array_is_equal some_order Debug s d = Ok (Some true) /\ array_is_equal some_order Debug d s = Ok (Some true)
  /\ array_eq some_order Debug s s = Ok true.
Proof.
  eexists _, _, _. split; [reflexivity|]. split; [reflexivity|]. split; [reflexivity|]. repeat split; reflexivity.
Qed.
