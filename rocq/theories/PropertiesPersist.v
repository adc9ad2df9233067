(** * PropertiesPersist: values saved and loaded with serde (C64, C65).

    [ser_*] and [de_*] (Serde.v) are what the derive macros generate, over trees
    of serde's data model.  [order] is the iteration order of the hash maps when
    the array is saved. *)

From Coq Require Import String.
From Verif Require Import Base Map Bv Array Serde Spec ArraySpec.
From Verif Require Import PropsArith PConv PArrays PPersist.
Open Scope list_scope.

(** ** C64: what was saved is loaded *)
Theorem C64_bit_vectors : forall v w x, is_bv v w x -> de_bv (ser_bv v) = Some v.
Proof. exact reload_bv. Qed.
Print Assumptions C64_bit_vectors.

(** [built] includes arrays that were saved and loaded before, so everything
    proved about [built] arrays (C39 - C43, C53, C60, C61) holds of the loaded
    array; in particular it has the contents [f]. *)
Theorem C64_arrays : forall probe ho m order a iw dw f, hashing probe -> reorders ho -> reorders order ->
  built probe ho m a iw dw f ->
  exists a', de_array (ser_array order a) = Some a' /\ built probe ho m a' iw dw f
    /\ array_is_dense a' = array_is_dense a /\ array_is_equal ho m a a' = Ok (Some true).
Proof. exact reload_array. Qed.
Print Assumptions C64_arrays.

Theorem C64_contents : forall probe ho m order a iw dw f a', hashing probe -> reorders ho -> reorders order ->
  built probe ho m a iw dw f -> iw <= 64 -> de_array (ser_array order a) = Some a' ->
  arr_is probe m a' iw dw f.
Proof.
  intros probe ho m order a iw dw f a' P Ho Oo B I E.
  exact (built_reads probe ho m a' iw dw f P Ho (built_reload _ _ _ order a iw dw f a' B Oo E) I).
Qed.
Print Assumptions C64_contents.

Example C64_example :
  let a := ASparse (mksparse 8 70 (SU64Big (bv_of 70 (2 ^ 67)) [(3, bv_of 70 5); (9, bv_of 70 6)])) in
  is_bv (bv_of 70 (2 ^ 69 + 5)) 70 (2 ^ 69 + 5)
  /\ ser_bv (bv_of 70 (2 ^ 69 + 5)) =
     TStruct [("width"%string, TInt 70); ("words"%string, TSeq [TInt 5; TInt 32])]
  /\ built some_probe some_order Debug a 8 70 (fun n => if n =? 9 then 6 else if n =? 3 then 5 else 2 ^ 67)
  /\ reorders (fun _ l => rev l)
  /\ de_array (ser_array (fun _ l => rev l) a)
     = Some (ASparse (mksparse 8 70 (SU64Big (bv_of 70 (2 ^ 67)) [(9, bv_of 70 6); (3, bv_of 70 5)]))).
Proof.
  intros a. split; [apply bv_of_is_bv; reflexivity|]. split; [reflexivity|]. split; [|split; [apply reverse_order_reorders|reflexivity]].
  assert (H : forall w n, w < 2 ^ 32 -> n < 2 ^ w -> wf (bv_of w n)) by (intros w n A B; apply (bv_of_is_bv w n); auto).
  apply (built_step some_probe some_order Debug
    (ASparse (mksparse 8 70 (SU64Big (bv_of 70 (2 ^ 67)) [(3, bv_of 70 5)]))) 8 70
    (fun n => if n =? 3 then 5 else 2 ^ 67) (AStore (bv_of 8 9) (bv_of 70 6))).
  - apply (built_step some_probe some_order Debug
      (ASparse (mksparse 8 70 (SU64Big (bv_of 70 (2 ^ 67)) []))) 8 70 (fun n => 2 ^ 67) (AStore (bv_of 8 3) (bv_of 70 5))).
    + apply (built_sparse some_probe some_order Debug 8 (bv_of 70 (2 ^ 67))); try reflexivity. apply H; reflexivity.
    + repeat split; apply H; reflexivity.
    + reflexivity.
  - repeat split; apply H; reflexivity.
  - reflexivity.
Qed.

(** ** C65

    Full statement (false of the code): whatever is loaded without an error is a
    valid value.  The derived code checks only the ranges of the integers. *)
Theorem C65_bit_vector_refuted : exists t v, de_bv t = Some v /\ ~ wf v.
Proof. exact de_bv_refuted. Qed.
Print Assumptions C65_bit_vector_refuted.

Theorem C65_array_refuted : forall probe m, exists t a i, de_array t = Some a
  /\ is_bv i (array_index_width a) 3 /\ panics (array_select probe m a i).
Proof. exact de_array_refuted. Qed.
Print Assumptions C65_array_refuted.

Theorem C65_ranges_partial : forall t v, de_bv t = Some v ->
  width v < 2 ^ 32 /\ Forall (fun x => x < 2 ^ 64) (words v).
Proof. exact de_bv_range. Qed.
Print Assumptions C65_ranges_partial.

(** With the right number of words, [mask_msb] makes the value valid. *)
Theorem C65_mask_partial : forall m t v, de_bv t = Some v -> 0 < width v ->
  len (words v) = (width v + 63) / 64 ->
  yields (bv_mask_msb m v) (width v) (words_val (words v) mod 2 ^ width v).
Proof. exact de_bv_repair. Qed.
Print Assumptions C65_mask_partial.

Example C65_example :
  de_bv (TStruct [("words"%string, TSeq [TInt 7]); ("extra"%string, TSeq []); ("width"%string, TInt 2)])
    = Some (mkbv 2 [7])
  /\ bv_mask_msb Debug (mkbv 2 [7]) = Ok (bv_of 2 3)
  /\ de_bv (TStruct [("words"%string, TSeq [TInt (2 ^ 64)]); ("width"%string, TInt 2)]) = None.
Proof. repeat split. Qed.
