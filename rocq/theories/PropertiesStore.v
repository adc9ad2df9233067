(** * PropertiesStore: C28 - C36 and C52 (bytes, big integers, single bits,
    in-place updates, word stores, interner).

    Vocabulary in Spec.v, IoSpec.v, RegSpec.v and StoreSpec.v. *)

From Verif Require Import Base Bv Indexed Spec IoSpec RegSpec StoreSpec.
From Verif Require Import PropsArith PConv PIo PRegister PStore PIntern PInternZero.

(** ** C28 *)
Theorem C28_to_bytes : forall v w x, is_bv v w x ->
  len (bv_to_bytes_le v) = (w + 7) / 8 /\ is_bytes (bv_to_bytes_le v)
  /\ bytes_val (bv_to_bytes_le v) = x.
Proof. exact to_bytes_le_ok. Qed.
Print Assumptions C28_to_bytes.

Theorem C28_from_bytes : forall m bytes w, w < 2 ^ 32 -> is_bytes bytes ->
  w = 0 \/ len bytes <= 8 * ((w + 63) / 64) ->
  yields (bv_from_bytes_le m bytes w) w (bytes_val bytes mod 2 ^ w).
Proof. exact from_bytes_le_ok. Qed.
Print Assumptions C28_from_bytes.

(** More bytes than the words of the vector hold is a panic, never a wrong value. *)
Theorem C28_from_bytes_long : forall m bytes w, 0 < w -> 8 * ((w + 63) / 64) < len bytes ->
  panics (bv_from_bytes_le m bytes w).
Proof. exact from_bytes_le_panics. Qed.
Print Assumptions C28_from_bytes_long.

Theorem C28_round_trip : forall m v w x, is_bv v w x -> bv_from_bytes_le m (bv_to_bytes_le v) w = Ok v.
Proof. exact bytes_round_trip. Qed.
Print Assumptions C28_round_trip.

Example C28_example :
  is_bv (bv_of 70 (2 ^ 69 + 258)) 70 (2 ^ 69 + 258)
  /\ bv_to_bytes_le (bv_of 70 (2 ^ 69 + 258)) = [2; 1; 0; 0; 0; 0; 0; 0; 32]
  /\ bv_from_bytes_le Debug [255; 255] 12 = Ok (bv_of 12 4095).
Proof. split; [apply bv_of_is_bv; reflexivity|split; reflexivity]. Qed.

(** ** C29 *)
Theorem C29_to_big_uint : forall v w x, is_bv v w x -> bv_to_big_uint v = Ok x.
Proof. exact to_big_uint_ok. Qed.
Print Assumptions C29_to_big_uint.

Theorem C29_to_big_int : forall m v w x, is_bv v w x -> bv_to_big_int m v = Ok (signed w x).
Proof. exact to_big_int_ok. Qed.
Print Assumptions C29_to_big_int.

Theorem C29_from_big_uint : forall m n w, w < 2 ^ 32 ->
  yields (bv_from_big_uint m n w) w (n mod 2 ^ w).
Proof. exact from_big_uint_ok. Qed.
Print Assumptions C29_from_big_uint.

Theorem C29_from_big_int : forall m z w, 0 < w -> w < 2 ^ 32 ->
  yields (bv_from_big_int m z w) w (wrap w z).
Proof. exact from_big_int_ok. Qed.
Print Assumptions C29_from_big_int.

(** [N.size n] is the bit length of [n]. *)
Theorem C29_uint_round_trip : forall m n, N.size n < 2 ^ 32 - 63 ->
  exists v, bv_of_big_uint m n = Ok v /\ is_bv v (N.size n) n /\ bv_to_big_uint v = Ok n.
Proof. exact of_big_uint_ok. Qed.
Print Assumptions C29_uint_round_trip.

Theorem C29_int_round_trip : forall m z, N.size (Z.abs_N z) < 2 ^ 32 - 63 ->
  exists v, bv_of_big_int m z = Ok v
    /\ is_bv v (N.size (Z.abs_N z) + 1) (wrap (N.size (Z.abs_N z) + 1) z)
    /\ bv_to_big_int m v = Ok z.
Proof. exact of_big_int_ok. Qed.
Print Assumptions C29_int_round_trip.

Example C29_example :
  is_bv (bv_of 70 (2 ^ 70 - 5)) 70 (2 ^ 70 - 5)
  /\ bv_to_big_int Debug (bv_of 70 (2 ^ 70 - 5)) = Ok (-5)%Z
  /\ bv_of_big_int Debug (- 2 ^ 100)%Z = Ok (bv_of 102 (2 ^ 101 + 2 ^ 100))
  /\ bv_of_big_uint Debug (2 ^ 64) = Ok (bv_of 65 (2 ^ 64))
  /\ N.size (2 ^ 64) = 65.
Proof. split; [apply bv_of_is_bv; reflexivity|repeat split]. Qed.

(** ** C30 *)
Theorem C30_is_bit_set : forall v w x pos, is_bv v w x -> pos < w ->
  bv_is_bit_set v pos = Ok (N.testbit x pos).
Proof. exact is_bit_set_ok. Qed.
Print Assumptions C30_is_bit_set.

Theorem C30_set_bit : forall v w x pos, is_bv v w x -> pos < w ->
  exists v' n, bv_set_bit v pos = Ok v' /\ is_bv v' w n
    /\ forall i, N.testbit n i = if i =? pos then true else N.testbit x i.
Proof. exact set_bit_bits. Qed.
Print Assumptions C30_set_bit.

Theorem C30_clear_bit : forall v w x pos, is_bv v w x -> pos < w ->
  exists v' n, bv_clear_bit v pos = Ok v' /\ is_bv v' w n
    /\ forall i, N.testbit n i = if i =? pos then false else N.testbit x i.
Proof. exact clear_bit_bits. Qed.
Print Assumptions C30_clear_bit.

Example C30_example :
  is_bv (bv_of 130 (2 ^ 129)) 130 (2 ^ 129)
  /\ bv_is_bit_set (bv_of 130 (2 ^ 129)) 129 = Ok true
  /\ bv_set_bit (bv_of 130 (2 ^ 129)) 64 = Ok (bv_of 130 (2 ^ 129 + 2 ^ 64))
  /\ bv_clear_bit (bv_of 130 (2 ^ 129)) 129 = Ok (bv_of 130 0).
Proof. split; [apply bv_of_is_bv; reflexivity|repeat split]. Qed.

(** ** C31 *)
Theorem C31_history : forall m v w x ops, 0 < w -> is_bv v w x -> Forall (reg_legal m w) ops ->
  yields (reg_run_all m v ops) w (fold_left (reg_step w) ops x).
Proof. exact reg_history. Qed.
Print Assumptions C31_history.

Example C31_example :
  let ops := [ROnes; RClearBit 64; RAssign (bv_of 70 9); RSetBit 69; RFromI64 (-2)%Z; RMask; RClearBit 0;
              RParse [45; 55] 10; RParse [45; 120] 10; RWord 1 (2 ^ 64 - 2)] in
  is_bv (bv_of 70 1) 70 1 /\ Forall (reg_legal Debug 70) ops
  /\ fold_left (reg_step 70) ops 1 = 2 ^ 70 - 2 ^ 64 - 7.
Proof.
  split; [apply bv_of_is_bv; reflexivity|]. split; [|reflexivity].
  assert (wf (bv_of 70 9)) by (apply (bv_of_is_bv 70 9); reflexivity).
  repeat (apply Forall_cons); try apply Forall_nil; cbn [reg_legal]; auto; try reflexivity.
  - split; [|right]; split; try reflexivity; cbn; intros X; discriminate X.
  - repeat split; try discriminate; intros X; discriminate X.
  - repeat split; try discriminate; intros X; discriminate X.
  - split; reflexivity.
Qed.

(** ** C32 *)
(** One write, with any function that keeps the number of words. *)
Theorem C32_write : forall store i (f : bv -> res bv) v v', in_range store i ->
  get_mut_ref store i = Ok v -> f v = Ok v' -> len (words v') = (i_width i + 63) / 64 ->
  exists store', update_ref store i f = Ok store' /\ len store' = len store
    /\ get_ref store' i = Ok (mkbv (i_width i) (words v'))
    /\ (forall j, in_range store j -> apart i j -> get_ref store' j = get_ref store j)
    /\ (forall p, ~ covers i p -> nth (N.to_nat p) store' 0 = nth (N.to_nat p) store 0).
Proof.
  intros store i f v v' H Hv Hf L. unfold get_mut_ref in Hv. rewrite (get_ref_in store i H) in Hv.
  injection Hv as <-. exact (update_ref_ok store i f v' H Hf L).
Qed.
Print Assumptions C32_write.

(** Any history: the values behave like independent registers, and words outside
    all indices never change. *)
Theorem C32_history : forall m is store regs ops,
  (forall k, (k < length is)%nat -> 0 < i_width (index_at is k) /\ in_range store (index_at is k)) ->
  (forall j k, (j < length is)%nat -> (k < length is)%nat -> j <> k ->
     apart (index_at is j) (index_at is k)) ->
  (forall k, (k < length is)%nat ->
     yields (get_ref store (index_at is k)) (i_width (index_at is k)) (regs k)) ->
  Forall (store_legal m is) ops ->
  exists store', store_run_all m is store ops = Ok store' /\ len store' = len store
    /\ (forall k, (k < length is)%nat ->
          yields (get_ref store' (index_at is k)) (i_width (index_at is k))
            (fold_left (store_step is) ops regs k))
    /\ (forall p, (forall j, (j < length is)%nat -> ~ covers (index_at is j) p) ->
          nth (N.to_nat p) store' 0 = nth (N.to_nat p) store 0).
Proof. exact store_history. Qed.
Print Assumptions C32_history.

(** A view consists of the words the index names. *)
Theorem C32_view : forall store a,
  (in_range store a -> exists v, get_ref store a = Ok v /\ get_mut_ref store a = Ok v /\ width v = i_width a
     /\ forall k, k < (i_width a + 63) / 64 ->
          nth (N.to_nat k) (words v) 0 = nth (N.to_nat (first a + k)) store 0)
  /\ (~ in_range store a -> panics (get_ref store a) /\ panics (get_mut_ref store a)).
Proof. exact ref_cases. Qed.
Print Assumptions C32_view.

Example C32_example :
  let is := [mkindex 70 1; mkindex 8 0; mkindex 70 3] in
  let store := repeat 0 6 in
  (forall k, (k < length is)%nat -> 0 < i_width (index_at is k) /\ in_range store (index_at is k))
  /\ (forall j k, (j < length is)%nat -> (k < length is)%nat -> j <> k ->
        apart (index_at is j) (index_at is k))
  /\ (forall k, (k < length is)%nat ->
        yields (get_ref store (index_at is k)) (i_width (index_at is k)) 0)
  /\ Forall (store_legal Debug is) [SUpdate 0 ROnes; SCopy 2 0; SUpdate 0 RClear]
  /\ fold_left (store_step is) [SUpdate 0 ROnes; SCopy 2 0; SUpdate 0 RClear] (fun _ => 0) 2%nat = 2 ^ 70 - 1.
Proof.
  cbv zeta. split; [|split; [|split; [|split]]].
  - intros [|[|[|k]]] H; cbn in H; try lia; split; try reflexivity; unfold in_range; cbn; intros X; discriminate X.
  - intros [|[|[|j]]] [|[|[|k]]] Hj Hk N; cbn in Hj, Hk; try lia; unfold apart, past, first; cbn; lia.
  - intros [|[|[|k]]] H; cbn in H; try lia; cbn [index_at nth i_width].
    + exists (bv_zero 70). split; [reflexivity|apply zero_is_bv; reflexivity].
    + exists (bv_zero 8). split; [reflexivity|apply zero_is_bv; reflexivity].
    + exists (bv_zero 70). split; [reflexivity|apply zero_is_bv; reflexivity].
  - repeat constructor; cbn; lia.
  - reflexivity.
Qed.

(** ** C33 *)
Theorem C33_pair : forall m store a b,
  (in_range store a /\ in_range store b /\ apart a b ->
   exists va vb, get_mut_ref_2 m store a b = Ok (va, vb)
     /\ get_ref store a = Ok va /\ get_ref store b = Ok vb)
  /\ (~ (in_range store a /\ in_range store b /\ apart a b) -> panics (get_mut_ref_2 m store a b)).
Proof. exact mut_2_cases. Qed.
Print Assumptions C33_pair.

(** Two shared views may overlap. *)
Theorem C33_shared_pair : forall store a b,
  (in_range store a /\ in_range store b ->
   exists va vb, get_ref_2 store a b = Ok (va, vb) /\ get_ref store a = Ok va /\ get_ref store b = Ok vb)
  /\ (~ (in_range store a /\ in_range store b) -> panics (get_ref_2 store a b)).
Proof. exact ref_2_cases. Qed.
Print Assumptions C33_shared_pair.

Theorem C33_triple : forall m store a b c,
  (in_range store a /\ in_range store b /\ in_range store c /\ apart a b /\ apart a c ->
   exists va vb vc, get_mut_ref_3 m store a b c = Ok (va, vb, vc)
     /\ get_ref store a = Ok va /\ get_ref store b = Ok vb /\ get_ref store c = Ok vc)
  /\ (~ (in_range store a /\ in_range store b /\ in_range store c /\ apart a b /\ apart a c) ->
      panics (get_mut_ref_3 m store a b c)).
Proof. exact mut_3_cases. Qed.
Print Assumptions C33_triple.

Example C33_example :
  get_mut_ref_2 Debug [1; 2; 3] (mkindex 64 1) (mkindex 64 2) = Ok (mkbv 64 [2], mkbv 64 [3])
  /\ get_mut_ref_2 Debug [1; 2; 3] (mkindex 128 1) (mkindex 64 2) = Panic PIndex
  /\ get_ref_2 [1; 2; 3] (mkindex 128 1) (mkindex 64 2) = Ok (mkbv 128 [2; 3], mkbv 64 [3])
  /\ get_mut_ref_3 Release [1; 2; 3] (mkindex 64 1) (mkindex 64 2) (mkindex 64 0)
     = Ok (mkbv 64 [2], mkbv 64 [3], mkbv 64 [1])
  /\ get_mut_ref_3 Release [1; 2; 3] (mkindex 64 1) (mkindex 64 2) (mkindex 64 1) = Panic PIndex.
Proof. repeat split. Qed.

(** ** C34 *)
Theorem C34_unique : forall m vs,
  Forall (fun v => wf v /\ 0 < width v) vs -> stored vs <= 2 ^ 32 ->
  exists st is, intern_all m interner_new vs = Ok (st, is) /\ length is = length vs
    /\ forall j k vj vk ij ik, nth_error vs j = Some vj -> nth_error vs k = Some vk ->
         nth_error is j = Some ij -> nth_error is k = Some ik ->
         (ij = ik <-> width vj = width vk /\ uval vj = uval vk).
Proof. exact intern_history. Qed.
Print Assumptions C34_unique.

(** Values of width 0: a release build interns them as well; a debug build panics. *)
Theorem C34_release : forall vs, Forall wf vs -> stored vs <= 2 ^ 32 ->
  exists st is, intern_all Release interner_new vs = Ok (st, is) /\ length is = length vs
    /\ forall j k vj vk ij ik, nth_error vs j = Some vj -> nth_error vs k = Some vk ->
         nth_error is j = Some ij -> nth_error is k = Some ik ->
         (ij = ik <-> width vj = width vk /\ uval vj = uval vk).
Proof. exact release_unique. Qed.
Print Assumptions C34_release.

Theorem C34_zero_width_debug : forall st v, wf v -> width v = 0 ->
  interner_get_index Debug st v = Panic PDebugAssert.
Proof. exact zero_width_debug. Qed.
Print Assumptions C34_zero_width_debug.

(** The bound is sharp: indices are u32 numbers, so the value stored behind
    2^32 words gets the index of another one. *)
Theorem C34_limit : forall m, exists vs st is j k vj vk i,
  Forall (fun v => wf v /\ 0 < width v) vs /\ stored vs = 2 ^ 32 + 1
  /\ intern_all m interner_new vs = Ok (st, is)
  /\ nth_error vs j = Some vj /\ nth_error vs k = Some vk
  /\ nth_error is j = Some i /\ nth_error is k = Some i
  /\ width vj = width vk /\ uval vj <> uval vk.
Proof. exact intern_limit. Qed.
Print Assumptions C34_limit.

(** ** C35 *)
Theorem C35_read_back : forall m vs later,
  Forall (fun v => wf v /\ 0 < width v) (vs ++ later) -> stored (vs ++ later) <= 2 ^ 32 ->
  exists st1 is1 st2 is2, intern_all m interner_new vs = Ok (st1, is1)
    /\ intern_all m st1 later = Ok (st2, is2)
    /\ (forall k v i, nth_error vs k = Some v -> nth_error is1 k = Some i ->
          get_ref (interner_words st1) i = Ok v /\ get_ref (interner_words st2) i = Ok v)
    /\ length is1 = length vs.
Proof. exact intern_read. Qed.
Print Assumptions C35_read_back.

Theorem C35_release : forall vs later, Forall wf (vs ++ later) -> stored (vs ++ later) <= 2 ^ 32 ->
  exists st1 is1 st2 is2, intern_all Release interner_new vs = Ok (st1, is1)
    /\ intern_all Release st1 later = Ok (st2, is2)
    /\ (forall k v i, nth_error vs k = Some v -> nth_error is1 k = Some i ->
          get_ref (interner_words st1) i = Ok v /\ get_ref (interner_words st2) i = Ok v)
    /\ length is1 = length vs.
Proof. exact release_read. Qed.
Print Assumptions C35_release.

Example C34_C35_release_example :
  let vs := [bv_of 16 1000; bv_zero 0; bv_of 17 2000; bv_zero 0] in
  Forall wf vs /\ stored vs <= 2 ^ 32
  /\ exists st, intern_all Release interner_new vs
     = Ok (st, [mkindex 16 8; mkindex 0 9; mkindex 17 9; mkindex 0 9]).
Proof.
  split; [|split; [vm_compute; discriminate|eexists; reflexivity]].
  assert (H : forall w n, w < 2 ^ 32 -> n < 2 ^ w -> wf (bv_of w n)).
  { intros w n A B. apply (bv_of_is_bv w n); auto. }
  repeat constructor; try (apply H; reflexivity); reflexivity.
Qed.

Example C34_C35_example :
  let vs := [bv_of 16 1000; bv_of 16 3; bv_of 100 1000; bv_of 17 1000; bv_of 16 1000] in
  Forall (fun v => wf v /\ 0 < width v) vs /\ stored vs <= 2 ^ 32
  /\ exists st, intern_all Debug interner_new vs
     = Ok (st, [mkindex 16 8; mkindex 16 3; mkindex 100 9; mkindex 17 8; mkindex 16 8]).
Proof.
  split; [|split; [vm_compute; discriminate|eexists; reflexivity]].
  assert (H : forall w n, w < 2 ^ 32 -> 0 < w -> n < 2 ^ w -> wf (bv_of w n) /\ 0 < width (bv_of w n)).
  { intros w n A B C. split; [apply (bv_of_is_bv w n); auto|auto]. }
  repeat constructor; try (apply H; reflexivity); reflexivity.
Qed.

(** ** C36

    Full statement (false of the code): [interner_is_zero i] iff the value is 0,
    for values of every width. *)
Theorem C36_refuted : exists m v st i, is_bv v 65 0
  /\ interner_get_index m interner_new v = Ok (st, i) /\ interner_is_zero i = false.
Proof. exact intern_zero_refuted. Qed.
Print Assumptions C36_refuted.

Theorem C36_zero_width_refuted : exists v st i, is_bv v 0 0
  /\ interner_get_index Release interner_new v = Ok (st, i) /\ interner_is_zero i = false.
Proof. exact zero_width_constant. Qed.
Print Assumptions C36_zero_width_refuted.

Theorem C36_constants_partial : forall m vs,
  Forall (fun v => wf v /\ 0 < width v) vs -> stored vs <= 2 ^ 32 ->
  exists st is, intern_all m interner_new vs = Ok (st, is)
    /\ forall k v i, nth_error vs k = Some v -> nth_error is k = Some i ->
         (interner_is_zero i = true <-> uval v = 0 /\ width v <= 64)
         /\ (interner_is_one i = true <-> uval v = 1 /\ width v <= 64).
Proof. exact intern_const. Qed.
Print Assumptions C36_constants_partial.

Example C36_example :
  Forall (fun v => wf v /\ 0 < width v) [bv_of 64 0; bv_of 3 1]
  /\ exists st, intern_all Debug interner_new [bv_of 64 0; bv_of 3 1]
     = Ok (st, [mkindex 64 0; mkindex 3 1]).
Proof.
  split; [|eexists; reflexivity].
  assert (H : forall w n, w < 2 ^ 32 -> 0 < w -> n < 2 ^ w -> wf (bv_of w n) /\ 0 < width (bv_of w n)).
  { intros w n A B C. split; [apply (bv_of_is_bv w n); auto|auto]. }
  repeat constructor; try (apply H; reflexivity); reflexivity.
Qed.

(** ** C52

    Full statement (false of the code): a position at or above the width is
    rejected with a panic or has no effect. *)
Theorem C52_set_bit_refuted : forall v w x pos, is_bv v w x -> w <= pos -> pos < 64 * ((w + 63) / 64) ->
  exists v', bv_set_bit v pos = Ok v' /\ width v' = w /\ uval v' = x + 2 ^ pos /\ ~ wf v'.
Proof. exact set_bit_beyond. Qed.
Print Assumptions C52_set_bit_refuted.

Theorem C52_is_bit_set_partial : forall v w x pos, is_bv v w x -> w <= pos ->
  pos < 64 * ((w + 63) / 64) -> bv_is_bit_set v pos = Ok false.
Proof. exact is_bit_set_beyond. Qed.
Print Assumptions C52_is_bit_set_partial.

Theorem C52_clear_bit_partial : forall v w x pos, is_bv v w x -> w <= pos ->
  pos < 64 * ((w + 63) / 64) -> bv_clear_bit v pos = Ok v.
Proof. exact clear_bit_beyond. Qed.
Print Assumptions C52_clear_bit_partial.

Theorem C52_panics_partial : forall v w x pos, is_bv v w x -> 64 * ((w + 63) / 64) <= pos ->
  panics (bv_is_bit_set v pos) /\ panics (bv_set_bit v pos) /\ panics (bv_clear_bit v pos).
Proof. exact beyond_panics. Qed.
Print Assumptions C52_panics_partial.

Example C52_example :
  is_bv (bv_of 5 1) 5 1 /\ bv_set_bit (bv_of 5 1) 10 = Ok (mkbv 5 [1025])
  /\ bv_set_bit (bv_of 5 1) 64 = Panic PIndex.
Proof. split; [apply bv_of_is_bv; reflexivity|split; reflexivity]. Qed.
