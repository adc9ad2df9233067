(** * C74: operands of different widths in release builds. *)

From Verif Require Import Base Bv Spec CallSpec PanicSpec MixedSpec PropsArith PMixed.

(** C74: the binary operations.  The outcome is a function of the two widths and
    the two numbers. *)
Theorem C74_operations : forall op a b w n w' k,
  op <> BConcat -> is_bv a w n -> is_bv b w' k ->
  delivers (run_bin op Release a b) w (mixed op w n w' k).
Proof. exact mixed_ok. Qed.
Print Assumptions C74_operations.

(** C74: the comparisons. *)
Theorem C74_tests : forall t a b w n w' k,
  is_bv a w n -> is_bv b w' k ->
  answers (run_test t Release a b) (mixed_test t w n w' k).
Proof. exact mixed_test_ok. Qed.
Print Assumptions C74_tests.

(** C74: [assign]. *)
Theorem C74_assign : forall a b w n w' k,
  is_bv a w n -> is_bv b w' k ->
  delivers (bv_assign Release a b) w (mixed_assign w w' k).
Proof. exact assign_mixed. Qed.
Print Assumptions C74_assign.

(** C74: for equal widths this is the operation of the same name. *)
Theorem C74_equal_widths : forall w n k, 0 < w -> n < 2 ^ w -> k < 2 ^ w ->
  mixed BAdd w n w k = Some ((n + k) mod 2 ^ w)
  /\ mixed BSub w n w k = Some (wrap w (Z.of_N n - Z.of_N k))
  /\ mixed BAnd w n w k = Some (N.land n k)
  /\ mixed BOr w n w k = Some (N.lor n k)
  /\ mixed BXor w n w k = Some (N.lxor n k)
  /\ mixed BShr w n w k = Some (n / 2 ^ k)
  /\ mixed_test TEqual w n w k = Some (n =? k)
  /\ mixed_test TGreater w n w k = Some (k <? n)
  /\ mixed_assign w w k = Some k.
Proof. exact same_widths. Qed.
Print Assumptions C74_equal_widths.

(** Adding an 8-bit 3 to a 128-bit value drops the upper word of the sum; a
    128-bit value is not greater than an 8-bit one if only its lower word is; the
    sum with a wider operand is the sum of the low bits; the or with a wider
    operand exceeds its width. *)
Example C74_example :
  is_bv (bv_of 128 (2 ^ 64 + 5)) 128 (2 ^ 64 + 5)
  /\ is_bv (bv_of 8 3) 8 3
  /\ bv_add Release (bv_of 128 (2 ^ 64 + 5)) (bv_of 8 3) = Ok (bv_of 128 8)
  /\ mixed BAdd 128 (2 ^ 64 + 5) 8 3 = Some 8
  /\ bv_is_greater Release (bv_of 128 200) (bv_of 8 3) = Ok false
  /\ mixed_test TGreater 128 200 8 3 = Some false
  /\ bv_add Release (bv_of 8 3) (bv_of 128 (2 ^ 64 + 5)) = Ok (bv_of 8 8)
  /\ bv_or Release (bv_of 8 3) (bv_of 16 256) = Ok (mkbv 8 [259])
  /\ mixed BOr 8 3 16 256 = Some 259
  /\ mixed BAdd 8 3 0 0 = None
  /\ mixed_test TLessSigned 8 3 128 (2 ^ 127) = Some false.
Proof.
  split; [apply bv_of_is_bv; reflexivity|]. split; [apply bv_of_is_bv; reflexivity|].
  repeat split; vm_compute; reflexivity.
Qed.
