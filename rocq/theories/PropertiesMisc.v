(** * PropertiesMisc: C46, C49, C50, C51. *)

From Coq Require Import QArith.
From Verif Require Import Base Arith Strings Bytes BigInt Bv Array Spec ArraySpec ExprSpec.
From Verif Require Import PropsArith PConv PArrays PMisc.
Open Scope N_scope.

(** ** C46

    Full statement (false of the code for [64 <= f]):
    [forall m a w x f, is_bv a w x -> f <= w -> x < 2 ^ 64 ->
       exists q, bv_to_unsigned_fixed_point m a f = Ok (Some q) /\ q == x / 2 ^ f],
    and likewise for the signed conversion. *)
Theorem C46_unsigned_partial : forall m a w x f, is_bv a w x -> f <= w -> f < 64 ->
  (x < 2 ^ 64 -> exists q, bv_to_unsigned_fixed_point m a f = Ok (Some q)
     /\ (q == inject_Z (Z.of_N x) / inject_Z (2 ^ Z.of_N f))%Q)
  /\ (2 ^ 64 <= x -> bv_to_unsigned_fixed_point m a f = Ok None).
Proof. exact unsigned_fixed_ok. Qed.
Print Assumptions C46_unsigned_partial.

Theorem C46_signed_partial : forall m a w x f, 0 < w -> is_bv a w x -> f <= w -> f < 64 ->
  (w <= 64 -> exists q, bv_to_signed_fixed_point m a f = Ok (Some q)
     /\ (q == inject_Z (signed w x) / inject_Z (2 ^ Z.of_N f))%Q)
  /\ (64 < w -> (signed w x < 0)%Z -> bv_to_signed_fixed_point m a f = Ok None)
  /\ (64 < w -> (0 <= signed w x)%Z ->
      bv_to_signed_fixed_point m a f = bv_to_unsigned_fixed_point m a f).
Proof. exact signed_fixed_ok. Qed.
Print Assumptions C46_signed_partial.

(** From 64 fraction bits on, debug builds panic and release builds divide by
    2^(f mod 64). *)
Theorem C46_wide_fraction_partial : forall m a w x f, is_bv a w x -> f <= w -> 64 <= f ->
  bv_to_unsigned_fixed_point m a f
  = match m with
    | Debug => Panic POverflow
    | Release => Ok (if x <? 2 ^ 64
                     then Some (inject_Z (Z.of_N x) / inject_Z (2 ^ Z.of_N (f mod 64)))%Q
                     else None)
    end.
Proof. exact fixed_wide. Qed.
Print Assumptions C46_wide_fraction_partial.

Theorem C46_fixed_point_refuted : exists a w x f, is_bv a w x /\ f <= w /\ x < 2 ^ 64
  /\ panics (bv_to_unsigned_fixed_point Debug a f)
  /\ panics (bv_to_signed_fixed_point Debug a f)
  /\ exists q, bv_to_unsigned_fixed_point Release a f = Ok (Some q)
       /\ ~ (q == inject_Z (Z.of_N x) / inject_Z (2 ^ Z.of_N f))%Q.
Proof. exact fixed_refuted. Qed.
Print Assumptions C46_fixed_point_refuted.

(** [f > width] is rejected in debug builds. *)
Theorem C46_fraction_wider_than_value : forall m a w x f, is_bv a w x -> w < f -> m = Debug ->
  panics (bv_to_unsigned_fixed_point m a f) /\ panics (bv_to_signed_fixed_point m a f).
Proof. exact fixed_too_wide. Qed.
Print Assumptions C46_fraction_wider_than_value.

(** The 8-bit value 0xe9 with 4 fraction bits is -23/16. *)
Example C46_example : is_bv (bv_of 8 233) 8 233 /\ signed 8 233 = (-23)%Z
  /\ exists q, bv_to_signed_fixed_point Debug (bv_of 8 233) 4 = Ok (Some q) /\ (q == -23 # 16)%Q.
Proof.
  split; [apply bv_of_is_bv; reflexivity|]. split; [reflexivity|].
  eexists. split; [reflexivity|]. reflexivity.
Qed.

(** ** C49

    Full statement (false of the code): the theorem below without [avoids]. *)
Theorem C49_expressions_partial : forall m env ws vs e w,
  env_is env ws vs -> typed ws e w -> avoids ws vs e ->
  yields (evaluate m env e) w (meaning ws vs e).
Proof. exact evaluate_ok. Qed.
Print Assumptions C49_expressions_partial.

Theorem C49_build_profiles_agree_partial : forall env ws vs e w,
  env_is env ws vs -> typed ws e w -> avoids ws vs e ->
  evaluate Debug env e = evaluate Release env e.
Proof. exact evaluate_modes. Qed.
Print Assumptions C49_build_profiles_agree_partial.

Theorem C49_expressions_refuted : exists env ws vs e w, env_is env ws vs /\ typed ws e w
  /\ panics (evaluate Debug env e) /\ panics (evaluate Release env e).
Proof. exact evaluate_refuted. Qed.
Print Assumptions C49_expressions_refuted.

(** An unmasked intermediate result makes a later comparison wrong. *)
Theorem C49_wrong_answer_refuted : exists m env ws vs e w, env_is env ws vs /\ typed ws e w
  /\ exists v, evaluate m env e = Ok v /\ uval v <> meaning ws vs e.
Proof. exact evaluate_shift_refuted. Qed.
Print Assumptions C49_wrong_answer_refuted.

(** sext(x[69:3] + 5, 40) <s -(y << 3), x and y of 70 and 107 bits *)
Definition C49_expr : expr :=
  EGtS (ENeg (EShl (EVar 1) (EWord 3 107)))
       (ESext (EAdd (ESlice (EVar 0) 69 3) (EWord 5 67)) 40).
Example C49_example :
  let ws i := if i =? 0 then 70 else 107 in
  let vs i := if i =? 0 then 2 ^ 69 + 17 else 2 ^ 105 in
  let env i := bv_of (ws i) (vs i) in
  env_is env ws vs /\ typed ws C49_expr 1 /\ avoids ws vs C49_expr
  /\ meaning ws vs C49_expr = 1 /\ evaluate Debug env C49_expr = Ok (bv_of 1 1).
Proof.
  cbv zeta. split; [|split; [|split; [|split]]].
  - intros i _ _. destruct (i =? 0); apply bv_of_is_bv; reflexivity.
  - unfold C49_expr. set (ws := fun i : N => if i =? 0 then 70 else 107).
    assert (V0 : typed ws (EVar 0) 70) by (apply (t_var ws 0); reflexivity).
    assert (V1 : typed ws (EVar 1) 107) by (apply (t_var ws 1); reflexivity).
    apply (t_gts _ _ _ 107).
    + apply t_neg, t_shl; [exact V1|]. apply t_word; reflexivity.
    + apply (t_sext ws _ 40 67); [|reflexivity]. apply t_add; [|apply t_word; reflexivity].
      apply (t_slice ws _ 69 3 70); [exact V0|discriminate|reflexivity].
  - cbn. repeat split; auto. right. left. discriminate.
  - reflexivity.
  - reflexivity.
Qed.

(** ** C50

    Full statement (false of the code): every width-preserving operation,
    concatenation and conversion accepts the 0-bit value. *)
Theorem C50_zero_width_unique : forall a x, is_bv a 0 x -> a = bv_zero 0 /\ x = 0.
Proof. exact zero_width_only. Qed.
Print Assumptions C50_zero_width_unique.

(** What works. *)
Theorem C50_zero_width_partial : forall m a b, is_bv a 0 0 -> is_bv b 0 0 ->
  a = b
  /\ (bv_eq m a b = Ok true /\ bvref_eq m a b = Ok true /\ bv_is_equal m a b = Ok true
      /\ bv_is_not_equal m a b = Ok false)
  /\ (bv_is_greater m a b = Ok false /\ bv_is_less m a b = Ok false)
  /\ (yields (bv_and m a b) 0 0 /\ yields (bv_or m a b) 0 0 /\ yields (bv_xor m a b) 0 0)
  /\ (bv_is_zero a = true /\ bv_to_u64 a = Some 0 /\ bv_to_i64 m a = Ok (Some 0%Z)
      /\ bv_to_bool a = Ok None /\ bv_is_tru a = Ok false /\ bv_is_fals a = Ok false)
  /\ (bv_to_big_uint a = Ok 0 /\ bv_to_big_int m a = Ok 0%Z /\ bv_to_bytes_le a = [])
  /\ (bv_to_bit_str a = Ok [] /\ bv_to_hex_str m a = Ok [] /\ bv_to_dec_str m a = Ok [48])
  /\ (yields (bv_assign m a b) 0 0 /\ is_bv (bv_clear a) 0 0)
  /\ (bv_from_bit_str m [] = Ok (Parsed a) /\ bv_from_hex_str m [] = Ok (Parsed a)
      /\ bv_from_bytes_le m [] 0 = Ok a /\ bv_from_big_uint m 0 0 = Ok a
      /\ bv_from_big_int m 0 0 = Ok a /\ bv_zero 0 = a).
Proof. exact zero_width_works. Qed.
Print Assumptions C50_zero_width_partial.

(** What panics, in both build profiles (and [a >= a] is false). *)
Theorem C50_zero_width_refuted : forall m a, is_bv a 0 0 ->
  (panics (bv_add m a a) /\ panics (bv_sub m a a) /\ panics (bv_mul m a a))
  /\ (panics (bv_shift_left m a a) /\ panics (bv_shift_right m a a)
      /\ panics (bv_arithmetic_shift_right m a a))
  /\ (panics (bv_not m a) /\ panics (bv_negate m a))
  /\ (panics (bv_is_negative m a) /\ panics (bv_is_greater_signed m a a)
      /\ panics (bv_is_greater_or_equal_signed m a a))
  /\ (panics (bv_to_bit_str_signed m a) /\ panics (bv_to_hex_str_signed m a))
  /\ (panics (bv_mask_msb m a) /\ panics (bv_assign_ones m a) /\ panics (bv_ones m 0))
  /\ (panics (bv_from_u64 m 0 0) /\ panics (bv_from_i64 m 0 0))
  /\ bv_is_greater_or_equal m a a = Ok false.
Proof. exact zero_width_panics. Qed.
Print Assumptions C50_zero_width_refuted.

(** Concatenation with it is neutral above 64 bits and panics up to 64 bits. *)
Theorem C50_concat_partial : forall m z a w x, is_bv z 0 0 -> is_bv a w x ->
  (64 < w -> bv_concat m a z = Ok a /\ bv_concat m z a = Ok a)
  /\ (w <= 64 -> panics (bv_concat m a z) /\ panics (bv_concat m z a)).
Proof. exact zero_width_concat. Qed.
Print Assumptions C50_concat_partial.

Theorem C50_extend_partial : forall m z by_, is_bv z 0 0 -> by_ < 2 ^ 32 ->
  (64 < by_ -> yields (bv_zero_extend m z by_) by_ 0)
  /\ (by_ <= 64 -> panics (bv_zero_extend m z by_))
  /\ panics (bv_sign_extend m z by_).
Proof. exact zero_width_extend. Qed.
Print Assumptions C50_extend_partial.

Example C50_example : is_bv (bv_zero 0) 0 0 /\ is_bv (bv_of 65 9) 65 9
  /\ bv_concat Debug (bv_of 65 9) (bv_zero 0) = Ok (bv_of 65 9).
Proof.
  split; [apply zero_is_bv; reflexivity|]. split; [apply bv_of_is_bv; reflexivity|reflexivity].
Qed.

(** ** C51 *)
Theorem C51_try_from : forall v,
  (forall b, bv_try_from v = Some b <-> v = VBitVec b)
  /\ (forall a, array_try_from v = Some a <-> v = VArray a)
  /\ (bv_try_from v = None <-> exists a, v = VArray a)
  /\ (array_try_from v = None <-> exists b, v = VBitVec b).
Proof. exact try_from_ok. Qed.
Print Assumptions C51_try_from.

(** [==] on [Value]: never across kinds, otherwise that of the payload. *)
Theorem C51_equality : forall ho m,
  (forall a b, wf a -> wf b -> value_eq ho m (VBitVec a) (VBitVec b)
     = Ok ((width a =? width b) && (uval a =? uval b)))
  /\ (forall a b, value_eq ho m (VBitVec a) (VArray b) = Ok false
               /\ value_eq ho m (VArray b) (VBitVec a) = Ok false)
  /\ (forall a b, value_eq ho m (VArray a) (VArray b) = array_eq ho m a b).
Proof. exact value_eq_ok. Qed.
Print Assumptions C51_equality.

Example C51_example : exists a, array_new_sparse Debug 3 (bv_of 8 7) = Ok a
  /\ array_try_from (VArray a) = Some a /\ bv_try_from (VArray a) = None
  /\ value_eq some_order Debug (VArray a) (VArray a) = Ok true.
Proof. eexists. split; [reflexivity|]. repeat split. Qed.
