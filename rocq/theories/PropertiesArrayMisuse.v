(** * C72: operands of the wrong width in a release build. *)

From Verif Require Import Base Map Bv Array Spec ArraySpec ArrayMisuseSpec PropsArith PArrays PArrayMisuse.

(** ** C72 *)

(** Elements of at most 64 bits, except dense arrays of single bits: every history
    of stores that return leaves a valid array; the numbers denoted count, elements
    are cut off at the width of the array. *)
Theorem C72_words_partial : forall probe ho a iw dw f ops a', hashing probe -> reorders ho ->
  built probe ho Release a iw dw f -> iw <= 64 -> dw <= 64 -> (dw = 1 -> array_is_dense a = false) ->
  Forall arr_any ops -> arr_run_all probe Release a ops = Ok a' ->
  arr_is probe Release a' iw dw (fold_left (loose_step dw) ops f)
  /\ (forall i, wf i -> uval i < 2 ^ iw ->
        yields (array_select probe Release a' i) dw (fold_left (loose_step dw) ops f (uval i)))
  /\ (forall i, wf i -> (panics (array_select probe Release a' i) <-> index_end a <= uval i))
  /\ (forall i x, wf i -> wf x ->
        (panics (array_store probe Release a' i x) <-> index_end a <= uval i \/ 2 ^ 64 <= uval x)).
Proof. exact misuse_words. Qed.
Print Assumptions C72_words_partial.

(** Dense arrays of single bits: valid, but with other rules. *)
Theorem C72_bits_partial : forall probe ho a iw f ops a', hashing probe -> reorders ho ->
  built probe ho Release a iw 1 f -> array_is_dense a = true ->
  Forall arr_any ops -> arr_run_all probe Release a ops = Ok a' ->
  arr_is probe Release a' iw 1 (fold_left loose_bit_step ops f)
  /\ (forall i, wf i -> uval i < 2 ^ 64 -> uval i mod 2 ^ 32 < 2 ^ iw ->
        yields (array_select probe Release a' i) 1 (fold_left loose_bit_step ops f (uval i mod 2 ^ 32)))
  /\ (forall i, wf i ->
        (panics (array_select probe Release a' i) <-> 2 ^ 64 <= uval i \/ bit_index_end iw <= uval i mod 2 ^ 32))
  /\ (forall i x, wf i -> wf x ->
        (panics (array_store probe Release a' i x) <-> 2 ^ 64 <= uval i \/ bit_index_end iw <= uval i mod 2 ^ 32)).
Proof. exact misuse_bits. Qed.
Print Assumptions C72_bits_partial.

(** Dense arrays of wider elements: as long as positions fit 64 bits, the words of
    an element are stored as they are, if there are as many as in the array. *)
Theorem C72_wide_dense_partial : forall probe ho a iw dw f ops a', hashing probe -> reorders ho ->
  built probe ho Release a iw dw f -> array_is_dense a = true -> 64 < dw ->
  Forall (arr_reaches dw) ops -> arr_run_all probe Release a ops = Ok a' ->
  (forall i, wf i -> uval i < 2 ^ iw ->
     exists v, array_select probe Release a' i = Ok v /\ width v = dw
       /\ uval v = fold_left arr_step ops f (uval i))
  /\ (forall i, wf i -> uval i < 2 ^ 64 -> reachable_index dw (uval i) ->
        (panics (array_select probe Release a' i) <-> 2 ^ iw <= uval i))
  /\ (forall i x, wf i -> wf x -> uval i < 2 ^ 64 -> reachable_index dw (uval i) ->
        (panics (array_store probe Release a' i x)
         <-> 2 ^ iw <= uval i \/ (width x + 63) / 64 <> (dw + 63) / 64)).
Proof. exact misuse_wide. Qed.
Print Assumptions C72_wide_dense_partial.

(** Not so: an index 2^32 + 1 hits the element at 1, and a one of two bits stores 0
    in a dense array of single bits. *)
Theorem C72_bits_refuted : forall probe ho, exists a i x y a1 a2, built probe ho Release a 2 1 (fun _ => 0)
  /\ wf i /\ wf x /\ wf y /\ uval i = 2 ^ 32 + 1 /\ uval x = 1 /\ uval y = 1
  /\ array_store probe Release a i x = Ok a1 /\ array_select probe Release a1 (bv_of 2 1) = Ok (bv_of 1 1)
  /\ array_store probe Release a (bv_of 2 1) y = Ok a2
  /\ array_select probe Release a2 (bv_of 2 1) = Ok (bv_of 1 0).
Proof. exact bits_refuted. Qed.
Print Assumptions C72_bits_refuted.

(** Not so: arrays that read alike but are not equal. *)
Theorem C72_equal_refuted : forall probe ho, exists a a1 a2 i x y, built probe ho Release a 2 4 (fun _ => 3)
  /\ wf i /\ wf x /\ wf y /\ array_store probe Release a i x = Ok a1 /\ array_store probe Release a i y = Ok a2
  /\ (forall j, wf j -> width j = 2 -> array_select probe Release a1 j = array_select probe Release a2 j)
  /\ array_eq ho Release a1 a2 = Ok false.
Proof. exact equal_refuted. Qed.
Print Assumptions C72_equal_refuted.

(** Not so: a dense array of wide elements returns a value that is not valid, and
    an index 2^63 hits the element at 0. *)
Theorem C72_wide_dense_refuted : forall probe ho, exists a i x a1 v j y a2, built probe ho Release a 1 70 (fun _ => 0)
  /\ wf i /\ wf x /\ array_store probe Release a i x = Ok a1 /\ array_select probe Release a1 i = Ok v /\ ~ wf v
  /\ wf j /\ wf y /\ uval j = 2 ^ 63 /\ width y = 70 /\ array_store probe Release a j y = Ok a2
  /\ array_select probe Release a2 (bv_of 1 0) = Ok y /\ uval y <> 0.
Proof. exact wide_dense_refuted. Qed.
Print Assumptions C72_wide_dense_refuted.

(** Not so: a sparse array of wide elements returns an element of the wrong width. *)
Theorem C72_wide_sparse_refuted : forall probe ho, exists a x a1, built probe ho Release a 2 70 (fun _ => 1)
  /\ wf x /\ width x = 10 /\ array_store probe Release a (bv_of 2 1) x = Ok a1
  /\ array_select probe Release a1 (bv_of 2 1) = Ok x.
Proof. exact wide_sparse_refuted. Qed.
Print Assumptions C72_wide_sparse_refuted.

(** Not so: a store beyond the last index leaves every element as it was, but the
    array then differs from the old one, lists the entry at another index, and
    cannot be made dense. *)
Theorem C72_hidden_refuted : forall probe ho, reorders ho -> exists a i x s, built probe ho Release a 2 8 (fun _ => 1)
  /\ wf i /\ wf x /\ uval i = 77 /\ array_store probe Release a i x = Ok (ASparse s)
  /\ arr_is probe Release (ASparse s) 2 8 (fun _ => 1)
  /\ array_eq ho Release a (ASparse s) = Ok false
  /\ sparse_entries ho Release s = Ok [(bv_of 2 1, bv_of 8 3)]
  /\ panics (array_make_dense ho Release (ASparse s)).
Proof. exact hidden_refuted. Qed.
Print Assumptions C72_hidden_refuted.

(** A dense array of four 4-bit elements, a 16-bit index, an 8-bit element; a
    dense array of four bits; a dense array of two 70-bit elements and an 80-bit
    element; a sparse array and an index that it does not have. *)
Example C72_example :
  (exists a a', built some_probe some_order Release a 2 4 (fun _ => 3) /\ array_is_dense a = true
      /\ arr_run_all some_probe Release a [AStore (bv_of 16 2) (bv_of 8 200)] = Ok a' /\ arr_any (AStore (bv_of 16 2) (bv_of 8 200))
      /\ array_select some_probe Release a' (bv_of 7 2) = Ok (bv_of 4 8)
      /\ panics (array_select some_probe Release a' (bv_of 7 4)))
  /\ (exists a, built some_probe some_order Release a 2 1 (fun _ => 0) /\ array_is_dense a = true)
  /\ arr_reaches 70 (AStore (bv_of 3 1) (bv_of 80 (2 ^ 79)))
  /\ (exists a, built some_probe some_order Release a 2 8 (fun _ => 1) /\ array_is_dense a = false
      /\ array_select some_probe Release a (bv_of 9 300) = Ok (bv_of 8 1)).
Proof.
  split; [|split; [|split]].
  - exists (ADense (mkdense 2 4 (DU8 [3; 3; 3; 3]))). eexists. split.
    { refine (built_dense some_probe some_order Release 2 (bv_of 4 3) _ _ _ _ _); try reflexivity.
      - apply bv_of_is_bv; reflexivity.
      - split; [reflexivity|]. discriminate. }
    split; [reflexivity|]. split; [reflexivity|]. split; [split; apply bv_of_is_bv; reflexivity|].
    split; [reflexivity|]. eexists. reflexivity.
  - eexists. split; [apply new_bits|reflexivity].
  - split; [apply bv_of_is_bv; reflexivity|]. split; [apply bv_of_is_bv; reflexivity|]. split; [reflexivity|]. discriminate.
  - exists (ASparse (mksparse 2 8 (SU64U64 1 []))). split.
    { refine (built_sparse some_probe some_order Release 2 (bv_of 8 1) _ _ _ _ _); try reflexivity. apply bv_of_is_bv; reflexivity. }
    split; reflexivity.
Qed.
