(** * PropertiesCompare: C12 - C20, C47, C48 (equality, order, conversions).

    Vocabulary in Spec.v; [signed w x] is the two's complement reading of the
    [w]-bit number [x], [fits w z] says that [z] is a [w]-bit two's complement
    number, [i64_result z] is [Some z] if [fits 64 z] and [None] otherwise. *)

From Verif Require Import Base Bv Spec.
From Verif Require Import PropsArith PCompare PConv.

(** ** C12 *)
Theorem C12_eq : forall m a b, wf a -> wf b ->
  (bv_eq m a b = Ok true <-> width a = width b /\ uval a = uval b)
  /\ (bvref_eq m a b = Ok true <-> width a = width b /\ uval a = uval b)
  /\ (exists c, bv_eq m a b = Ok c) /\ (exists c, bvref_eq m a b = Ok c).
Proof. exact eq_cases. Qed.
Print Assumptions C12_eq.

Theorem C12_is_equal : forall m a b w x y, is_bv a w x -> is_bv b w y ->
  bv_is_equal m a b = Ok (x =? y) /\ bv_is_not_equal m a b = Ok (negb (x =? y)).
Proof. exact equal_cases. Qed.
Print Assumptions C12_is_equal.

Example C12_example :
  wf (bv_of 65 (2 ^ 64)) /\ wf (bv_of 66 (2 ^ 64))
  /\ bv_eq Debug (bv_of 65 (2 ^ 64)) (bv_of 65 (2 ^ 64)) = Ok true
  /\ bv_eq Debug (bv_of 65 (2 ^ 64)) (bv_of 65 0) = Ok false
  /\ bvref_eq Debug (bv_of 65 (2 ^ 64)) (bv_of 66 (2 ^ 64)) = Ok false.
Proof.
  split; [apply (bv_of_is_bv 65 (2 ^ 64)); reflexivity|].
  split; [apply (bv_of_is_bv 66 (2 ^ 64)); reflexivity|]. repeat split.
Qed.

(** ** C13 *)
Theorem C13_strict : forall m a b w x y, is_bv a w x -> is_bv b w y ->
  bv_is_greater m a b = Ok (y <? x) /\ bv_is_less m a b = Ok (x <? y).
Proof. exact strict_cases. Qed.
Print Assumptions C13_strict.

Example C13_example :
  is_bv (bv_of 130 (2 ^ 129)) 130 (2 ^ 129) /\ is_bv (bv_of 130 (2 ^ 64 - 1)) 130 (2 ^ 64 - 1)
  /\ bv_is_greater Debug (bv_of 130 (2 ^ 129)) (bv_of 130 (2 ^ 64 - 1)) = Ok true.
Proof. split; [apply bv_of_is_bv; reflexivity|split; [apply bv_of_is_bv; reflexivity|reflexivity]]. Qed.

(** ** C14

    Full statement (false of the code):
    [forall m a b w x y, 0 < w -> is_bv a w x -> is_bv b w y ->
       bv_is_greater_or_equal m a b = Ok (y <=? x)
       /\ bv_is_less_or_equal m a b = Ok (x <=? y)]. *)
Theorem C14_non_strict_refuted : exists m a w x, 0 < w /\ is_bv a w x
  /\ bv_is_greater_or_equal m a a = Ok false /\ bv_is_less_or_equal m a a = Ok false.
Proof. exact greater_equal_refuted. Qed.
Print Assumptions C14_non_strict_refuted.

(** It holds for one word ... *)
Theorem C14_non_strict_partial : forall m a b w x y, is_bv a w x -> is_bv b w y ->
  0 < w -> w <= 64 ->
  bv_is_greater_or_equal m a b = Ok (y <=? x) /\ bv_is_less_or_equal m a b = Ok (x <=? y).
Proof. exact greater_equal_good. Qed.
Print Assumptions C14_non_strict_partial.

(** ... and above 64 bits both are the strict comparison. *)
Theorem C14_non_strict_wide_partial : forall m a b w x y, is_bv a w x -> is_bv b w y -> 64 < w ->
  bv_is_greater_or_equal m a b = Ok (y <? x) /\ bv_is_less_or_equal m a b = Ok (x <? y).
Proof. exact greater_equal_wide. Qed.
Print Assumptions C14_non_strict_wide_partial.

Example C14_example :
  is_bv (bv_of 64 5) 64 5
  /\ bv_is_greater_or_equal Debug (bv_of 64 5) (bv_of 64 5) = Ok true
  /\ bv_is_less_or_equal Debug (bv_of 64 5) (bv_of 64 4) = Ok false.
Proof. split; [apply bv_of_is_bv; reflexivity|split; reflexivity]. Qed.

(** ** C15 *)
Theorem C15_signed : forall m a b w x y, 0 < w -> is_bv a w x -> is_bv b w y ->
  bv_is_greater_signed m a b = Ok (signed w y <? signed w x)%Z
  /\ bv_is_greater_or_equal_signed m a b = Ok (signed w y <=? signed w x)%Z
  /\ bv_is_less_signed m a b = Ok (signed w x <? signed w y)%Z
  /\ bv_is_less_or_equal_signed m a b = Ok (signed w x <=? signed w y)%Z.
Proof. exact signed_cases. Qed.
Print Assumptions C15_signed.

Example C15_example :
  is_bv (bv_of 65 (2 ^ 65 - 1)) 65 (2 ^ 65 - 1) /\ is_bv (bv_of 65 1) 65 1
  /\ signed 65 (2 ^ 65 - 1) = (-1)%Z
  /\ bv_is_greater_signed Debug (bv_of 65 1) (bv_of 65 (2 ^ 65 - 1)) = Ok true
  /\ bv_is_less_or_equal_signed Debug (bv_of 65 1) (bv_of 65 1) = Ok true.
Proof.
  split; [apply bv_of_is_bv; reflexivity|]. split; [apply bv_of_is_bv; reflexivity|]. repeat split.
Qed.

(** ** C16 *)
Theorem C16_is_negative : forall m a w x, 0 < w -> is_bv a w x ->
  bv_is_negative m a = Ok (signed w x <? 0)%Z.
Proof. exact is_negative_ok. Qed.
Print Assumptions C16_is_negative.

Example C16_example :
  is_bv (bv_of 65 (2 ^ 64)) 65 (2 ^ 64) /\ signed 65 (2 ^ 64) = (- 2 ^ 64)%Z
  /\ bv_is_negative Debug (bv_of 65 (2 ^ 64)) = Ok true.
Proof. split; [apply bv_of_is_bv; reflexivity|split; reflexivity]. Qed.

(** ** C17 *)
Theorem C17_to_u64 : forall v w x, is_bv v w x ->
  bv_to_u64 v = if x <? 2 ^ 64 then Some x else None.
Proof. exact to_u64_ok. Qed.
Print Assumptions C17_to_u64.

Theorem C17_u64_round_trip : forall m v w, 0 < w -> w < 2 ^ 32 -> v < 2 ^ 64 -> v < 2 ^ w ->
  exists b, bv_from_u64 m v w = Ok b /\ is_bv b w v /\ bv_to_u64 b = Some v.
Proof. exact u64_round_trip. Qed.
Print Assumptions C17_u64_round_trip.

Example C17_example :
  is_bv (bv_of 65 (2 ^ 64)) 65 (2 ^ 64) /\ bv_to_u64 (bv_of 65 (2 ^ 64)) = None
  /\ bv_from_u64 Debug 77 200 = Ok (bv_of 200 77) /\ bv_to_u64 (bv_of 200 77) = Some 77.
Proof. split; [apply bv_of_is_bv; reflexivity|split; [|split]; reflexivity]. Qed.

(** ** C18

    Full statement (false of the code):
    [forall m v w x, 0 < w -> is_bv v w x ->
       bv_to_i64 m v = Ok (i64_result (signed w x))]. *)
Theorem C18_to_i64_refuted : exists m v w x, 0 < w /\ is_bv v w x
  /\ bv_to_i64 m v <> Ok (i64_result (signed w x)).
Proof. exact to_i64_refuted. Qed.
Print Assumptions C18_to_i64_refuted.

(** The exact condition: it fails precisely for representable negative values of
    widths above 64 that are no multiple of 64. *)
Theorem C18_to_i64_exact : forall m v w x, is_bv v w x -> 0 < w ->
  (bv_to_i64 m v = Ok (i64_result (signed w x))
   <-> (w <= 64 \/ w mod 64 = 0 \/ (0 <= signed w x)%Z \/ (signed w x < - 2 ^ 63)%Z)).
Proof. exact to_i64_exact. Qed.
Print Assumptions C18_to_i64_exact.

Theorem C18_to_i64_partial : forall m v w x, is_bv v w x -> 0 < w ->
  w <= 64 \/ w mod 64 = 0 \/ (0 <= signed w x)%Z ->
  bv_to_i64 m v = Ok (i64_result (signed w x)).
Proof. exact to_i64_good. Qed.
Print Assumptions C18_to_i64_partial.

Theorem C18_i64_round_trip_partial : forall m z w, 0 < w -> w < 2 ^ 32 ->
  fits 64 z -> fits w z -> w <= 64 \/ w mod 64 = 0 \/ (0 <= z)%Z ->
  exists b, bv_from_i64 m z w = Ok b /\ is_bv b w (wrap w z) /\ bv_to_i64 m b = Ok (Some z).
Proof. exact i64_round_trip. Qed.
Print Assumptions C18_i64_round_trip_partial.

(** The other round trips all give [None]. *)
Theorem C18_i64_round_trip_fails : forall m z w, w < 2 ^ 32 -> fits 64 z ->
  64 < w -> w mod 64 <> 0 -> (z < 0)%Z ->
  exists b, bv_from_i64 m z w = Ok b /\ bv_to_i64 m b = Ok None.
Proof. exact i64_round_trip_fails. Qed.
Print Assumptions C18_i64_round_trip_fails.

Example C18_example :
  is_bv (bv_of 128 (2 ^ 128 - 5)) 128 (2 ^ 128 - 5)
  /\ bv_to_i64 Debug (bv_of 128 (2 ^ 128 - 5)) = Ok (Some (-5)%Z)
  /\ bv_to_i64 Debug (bv_of 7 (2 ^ 7 - 5)) = Ok (Some (-5)%Z)
  /\ bv_to_i64 Debug (bv_of 70 (2 ^ 69)) = Ok None.
Proof. split; [apply bv_of_is_bv; reflexivity|split; [|split]; reflexivity]. Qed.

(** ** C19 *)
Theorem C19_from_u64 : forall v w, 0 < w -> w < 2 ^ 32 -> v < 2 ^ 64 ->
  yields (bv_from_u64 Release v w) w (v mod 2 ^ w)
  /\ (v < 2 ^ w -> yields (bv_from_u64 Debug v w) w v)
  /\ (2 ^ w <= v -> panics (bv_from_u64 Debug v w)).
Proof. exact from_u64_cases. Qed.
Print Assumptions C19_from_u64.

Theorem C19_from_i64 : forall z w, 0 < w -> w < 2 ^ 32 -> fits 64 z ->
  yields (bv_from_i64 Release z w) w (wrap w z)
  /\ (fits w z -> yields (bv_from_i64 Debug z w) w (wrap w z))
  /\ (~ fits w z -> panics (bv_from_i64 Debug z w)).
Proof. exact from_i64_cases. Qed.
Print Assumptions C19_from_i64.

Example C19_example :
  fits 64 (-3)%Z /\ fits 3 (-3)%Z /\ ~ fits 2 (-3)%Z
  /\ bv_from_i64 Debug (-3) 3 = Ok (bv_of 3 5) /\ bv_from_i64 Release (-3) 2 = Ok (bv_of 2 1)
  /\ bv_from_i64 Debug (-3) 2 = Panic PDebugAssert
  /\ bv_from_i64 Debug (-3) 130 = Ok (bv_of 130 (2 ^ 130 - 3))
  /\ bv_from_u64 Release 255 4 = Ok (bv_of 4 15) /\ bv_from_u64 Debug 255 4 = Panic PDebugAssert.
Proof.
  split; [split; [intros H; discriminate H|reflexivity]|].
  split; [split; [intros H; discriminate H|reflexivity]|].
  split; [intros [H _]; apply H; reflexivity|]. repeat split.
Qed.

(** ** C20 *)
Theorem C20_bool : forall m c,
  exists v, bv_from_bool m c = Ok v /\ is_bv v 1 (if c then 1 else 0)
    /\ bv_to_bool v = Ok (Some c) /\ bv_is_tru v = Ok c /\ bv_is_fals v = Ok (negb c).
Proof. exact bool_cases. Qed.
Print Assumptions C20_bool.

Theorem C20_tests : forall v w x, is_bv v w x ->
  bv_is_zero v = (x =? 0)
  /\ bv_to_bool v = Ok (if w =? 1 then Some (x =? 1) else None)
  /\ bv_is_tru v = Ok ((w =? 1) && (x =? 1))
  /\ bv_is_fals v = Ok ((w =? 1) && (x =? 0)).
Proof. exact tests_ok. Qed.
Print Assumptions C20_tests.

Theorem C20_zero : forall w, w < 2 ^ 32 -> is_bv (bv_zero w) w 0.
Proof. exact zero_is_bv. Qed.
Print Assumptions C20_zero.

Theorem C20_ones : forall m w, 0 < w -> w < 2 ^ 32 -> yields (bv_ones m w) w (2 ^ w - 1).
Proof. exact ones_ok. Qed.
Print Assumptions C20_ones.

Example C20_example :
  bv_ones Debug 67 = Ok (bv_of 67 (2 ^ 67 - 1)) /\ bv_is_zero (bv_of 67 (2 ^ 66)) = false
  /\ bv_to_bool (bv_of 2 1) = Ok None.
Proof. repeat split. Qed.

(** ** C47 *)
Theorem C47_ord_consistent : forall m a b, wf a -> wf b ->
  (bv_cmp a b = Eq <-> width a = width b /\ uval a = uval b)
  /\ (bv_eq m a b = Ok true <-> bv_cmp a b = Eq).
Proof. exact bv_cmp_wf. Qed.
Print Assumptions C47_ord_consistent.

Theorem C47_ord_total : forall a b, bv_cmp b a = CompOpp (bv_cmp a b).
Proof. exact bv_cmp_sym. Qed.
Print Assumptions C47_ord_total.

Theorem C47_ord_transitive : forall a b c,
  bv_cmp a b = Lt -> bv_cmp b c = Lt -> bv_cmp a c = Lt.
Proof. exact bv_cmp_trans. Qed.
Print Assumptions C47_ord_transitive.

(** The order is not the numeric order once there is more than one word. *)
Example C47_example :
  wf (bv_of 65 1) /\ wf (bv_of 65 (2 ^ 64)) /\ wf (bv_of 66 0)
  /\ bv_cmp (bv_of 65 (2 ^ 64)) (bv_of 65 1) = Lt /\ bv_cmp (bv_of 65 1) (bv_of 66 0) = Lt.
Proof.
  split; [apply (bv_of_is_bv 65 1); reflexivity|].
  split; [apply (bv_of_is_bv 65 (2 ^ 64)); reflexivity|].
  split; [apply (bv_of_is_bv 66 0); reflexivity|]. split; reflexivity.
Qed.

(** ** C48 *)
Theorem C48_hash : forall m a b, wf a -> wf b -> bv_eq m a b = Ok true ->
  bv_hash a = bv_hash b /\ bv_hash a = bvref_hash b /\ bvref_hash a = bvref_hash b.
Proof. exact hash_agrees. Qed.
Print Assumptions C48_hash.

Example C48_example :
  wf (bv_of 65 (2 ^ 64)) /\ bv_eq Debug (bv_of 65 (2 ^ 64)) (bv_of 65 (2 ^ 64)) = Ok true
  /\ bvref_hash (bv_of 65 (2 ^ 64)) = [HashU32 65; HashLen 2; HashU64 0; HashU64 1].
Proof. split; [apply (bv_of_is_bv 65 (2 ^ 64)); reflexivity|split; reflexivity]. Qed.
