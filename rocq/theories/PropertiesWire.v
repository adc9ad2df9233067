(** * Properties: saving to positional formats (C84). *)

From Verif Require Import Base Map Bv Array Serde Wire Spec CallSpec ArraySpec StoreSpec WireSpec PArrays PWire.

(** C84: The positional form reads back what the named form reads back (C64), and leaves
    the rest of the stream alone. *)
Theorem C84_bit_vectors : forall v rest, get_bv (put_bv v ++ rest)
  = match de_bv (ser_bv v) with Some v' => Some (v', rest) | None => None end.
Proof. exact wire_bv. Qed.
Print Assumptions C84_bit_vectors.

Theorem C84_arrays : forall order a rest, get_array (put_array order a ++ rest)
  = match de_array (ser_array order a) with Some a' => Some (a', rest) | None => None end.
Proof. exact wire_array. Qed.
Print Assumptions C84_arrays.

(** C84: Any number of values written one after the other is read back in that order. *)
Theorem C84_streams : forall probe ho m order l rest, hashing probe -> reorders ho -> reorders order ->
  Forall (savable probe ho m) l ->
  exists l', read_all (map type_of l) (write_all order l ++ rest) = Some (l', rest)
    /\ Forall2 (same_item probe ho m) l l'.
Proof. exact stream_ok. Qed.
Print Assumptions C84_streams.

(** C84: A stream that lost its end is an error. *)
Theorem C84_truncated_bit_vector : forall s v p q,
  get_bv s = Some (v, []) -> s = p ++ q -> q <> [] -> get_bv p = None.
Proof. exact truncated_bv. Qed.
Print Assumptions C84_truncated_bit_vector.

Theorem C84_truncated_array : forall s a p q,
  get_array s = Some (a, []) -> s = p ++ q -> q <> [] -> get_array p = None.
Proof. exact truncated_array. Qed.
Print Assumptions C84_truncated_array.

(** C84: Different bit-vectors have different streams. *)
Theorem C84_unique : forall v v' r r', well_shaped v -> well_shaped v' ->
  put_bv v ++ r = put_bv v' ++ r' -> v = v' /\ r = r'.
Proof. exact unique_bv. Qed.
Print Assumptions C84_unique.

(** C84: A bit-vector read from any stream has a width and words in the range of their
    types, and is written back as the stream it was read from. *)
Theorem C84_any_stream : forall s v r, get_bv s = Some (v, r) ->
  s = put_bv v ++ r /\ width v < 2 ^ 32 /\ Forall (fun x => x < 2 ^ 64) (words v).
Proof. exact any_bv. Qed.
Print Assumptions C84_any_stream.

(** C84: The readers accept exactly the streams of the grammar in WireSpec.v: every other
    stream, such as one with an unknown variant or a number out of range, is an error. *)
Theorem C84_accepted_bit_vectors : forall s v r,
  get_bv s = Some (v, r) <-> exists p, s = p ++ r /\ bit_vector p v.
Proof. exact accepts_bv. Qed.
Print Assumptions C84_accepted_bit_vectors.

Theorem C84_accepted_arrays : forall s a r,
  get_array s = Some (a, r) <-> exists p, s = p ++ r /\ array_form p a.
Proof. exact accepts_array. Qed.
Print Assumptions C84_accepted_arrays.

Example C84_example :
  let a := ASparse (mksparse 8 70 (SU64Big (bv_of 70 (2 ^ 67)) [(3, bv_of 70 5); (9, bv_of 70 6)])) in
  let l := [Vec (bv_of 70 (2 ^ 69 + 5)); Arr a; Vec (bv_of 0 0); Arr (ADense (mkdense 1 8 (DU8 [7; 9])))] in
  let order := (fun _ l => rev l) : hash_order in
  write_all order l =
    [70; 2; 5; 32;
     0; 8; 70; 1; 70; 2; 0; 8; 2; 9; 70; 2; 6; 0; 3; 70; 2; 5; 0;
     0; 0;
     1; 1; 8; 1; 2; 7; 9]
  /\ read_all (map type_of l) (write_all order l) =
     Some ([Vec (bv_of 70 (2 ^ 69 + 5));
            Arr (ASparse (mksparse 8 70 (SU64Big (bv_of 70 (2 ^ 67)) [(9, bv_of 70 6); (3, bv_of 70 5)])));
            Vec (bv_of 0 0); Arr (ADense (mkdense 1 8 (DU8 [7; 9])))], [])
  /\ well_shaped (bv_of 70 (2 ^ 69 + 5))
  /\ built some_probe some_order Debug (ADense (mkdense 1 8 (DU8 [7; 9]))) 1 8 (fun i => nth (N.to_nat i) [7; 9] 0)
  /\ get_bv [70; 2; 5] = None /\ get_bv [2 ^ 32; 1; 5] = None /\ get_array [2; 1; 8] = None.
Proof. exact wire_example. Qed.
