(** * C71: which array calls panic. *)

From Verif Require Import Base Map Bv Array Serde Spec ArraySpec ArrayPanicSpec PropsArith PSparse PArrays PArrayPanic.

(** ** C71 *)

(** Creating an array. *)
Theorem C71_new_dense : forall iw default, wf default -> 0 < width default ->
  (panics (array_new_dense Debug iw default)
   <-> too_large iw (width default) \/ (too_many_bits iw (width default) /\ uval default = 1)).
Proof. exact new_dense_iff. Qed.
Print Assumptions C71_new_dense.

Theorem C71_new_sparse : forall m iw default, wf default -> 0 < width default -> iw < 2 ^ 32 ->
  exists a, array_new_sparse m iw default = Ok a.
Proof. exact new_sparse_never. Qed.
Print Assumptions C71_new_sparse.

(** Reading and writing panic exactly for operands of the wrong width, as long as
    an index fits 64 bits. *)
Theorem C71_select : forall probe ho a iw dw f i, hashing probe -> reorders ho ->
  built probe ho Debug a iw dw f -> iw <= 64 -> wf i ->
  (panics (array_select probe Debug a i) <-> width i <> iw).
Proof. exact select_iff. Qed.
Print Assumptions C71_select.

Theorem C71_store : forall probe ho a iw dw f i x, hashing probe -> reorders ho ->
  built probe ho Debug a iw dw f -> iw <= 64 -> wf i -> wf x ->
  (panics (array_store probe Debug a i x) <-> width i <> iw \/ width x <> dw).
Proof. exact store_iff. Qed.
Print Assumptions C71_store.

(** Wider indices, operands of the right width: reading a non-default element
    panics, in both build profiles, and so does overwriting one with the default;
    what never panics is reading an array of default elements, and writing
    anything but the default.  The calls in between depend on the hash function. *)
Theorem C71_wide_select_partial : forall probe ho m s iw dw f d i, hashing probe -> reorders ho ->
  built probe ho m (ASparse s) iw dw f -> 64 < iw -> sparse_default m s = Ok d -> wf i -> width i = iw ->
  (f (uval i) <> uval d -> panics (array_select probe m (ASparse s) i))
  /\ ((forall k, k < 2 ^ iw -> f k = uval d) -> exists v, array_select probe m (ASparse s) i = Ok v).
Proof. exact wide_select. Qed.
Print Assumptions C71_wide_select_partial.

Theorem C71_wide_store_partial : forall probe ho m s iw dw f d i x, hashing probe -> reorders ho ->
  built probe ho m (ASparse s) iw dw f -> 64 < iw -> sparse_default m s = Ok d ->
  wf i -> width i = iw -> wf x -> width x = dw ->
  (uval x <> uval d \/ (forall k, k < 2 ^ iw -> f k = uval d) ->
     exists a, array_store probe m (ASparse s) i x = Ok a)
  /\ (uval x = uval d -> f (uval i) <> uval d -> panics (array_store probe m (ASparse s) i x)).
Proof. exact wide_store. Qed.
Print Assumptions C71_wide_store_partial.

(** Two hash functions that disagree on whether the same read panics. *)
Theorem C71_wide_refuted : forall m, exists p q s iw i, hashing p /\ hashing q /\ wf i /\ width i = iw
  /\ built p (fun _ l => l) m (ASparse s) iw 8 (fun k => if k =? 5 then 7 else 0)
  /\ built q (fun _ l => l) m (ASparse s) iw 8 (fun k => if k =? 5 then 7 else 0)
  /\ panics (array_select p m (ASparse s) i) /\ yields (array_select q m (ASparse s) i) 8 0.
Proof. exact wide_depends. Qed.
Print Assumptions C71_wide_refuted.

(** Conversions. *)
Theorem C71_make_dense : forall probe ho a iw dw f, hashing probe -> reorders ho ->
  built probe ho Debug a iw dw f ->
  (panics (array_make_dense ho Debug a)
   <-> exists s d, a = ASparse s /\ sparse_default Debug s = Ok d /\ densify_rejected iw dw f (uval d)).
Proof. exact make_dense_iff. Qed.
Print Assumptions C71_make_dense.

Theorem C71_into_sparse : forall probe ho m a iw dw f, hashing probe -> reorders ho ->
  built probe ho m a iw dw f ->
  (panics (sparse_of_array ho m a) <-> array_is_dense a = true /\ sparsify_rejected iw dw f).
Proof. exact into_sparse_iff. Qed.
Print Assumptions C71_into_sparse.

(** Listing the entries panics exactly for the only entry of an array with a
    single, non-default element. *)
Theorem C71_entries : forall probe ho m s iw dw f d, hashing probe -> reorders ho ->
  built probe ho m (ASparse s) iw dw f -> sparse_default m s = Ok d ->
  (panics (sparse_entries ho m s) <-> iw = 0 /\ f 0 <> uval d).
Proof. exact entries_iff. Qed.
Print Assumptions C71_entries.

(** Comparing panics exactly when a sparse array is compared with a dense array
    of the same widths and cannot be made dense. *)
Theorem C71_is_equal : forall probe ho a b iw dw f iw' dw' g, hashing probe -> reorders ho ->
  built probe ho Debug a iw dw f -> built probe ho Debug b iw' dw' g ->
  (panics (array_is_equal ho Debug a b)
   <-> iw = iw' /\ dw = dw' /\ array_is_dense a <> array_is_dense b
       /\ (panics (array_make_dense ho Debug a) \/ panics (array_make_dense ho Debug b))).
Proof. exact equal_iff. Qed.
Print Assumptions C71_is_equal.

(** Limits met exactly; a sparse array of four 65-bit elements, one of them
    stored; a dense array of four bytes, one of them 8. *)
Example C71_example :
  (~ too_large 27 64 /\ too_large 28 64 /\ ~ too_large 29 128 /\ too_large 30 128
   /\ ~ too_large 33 1 /\ too_large 34 1 /\ too_many_bits 33 1)
  /\ (exists s f, built some_probe some_order Debug (ASparse s) 2 65 f
      /\ sparse_default Debug s = Ok (bv_of 65 1) /\ densify_rejected 2 65 f 1
      /\ panics (array_make_dense some_order Debug (ASparse s))
      /\ panics (array_select some_probe Debug (ASparse s) (bv_of 3 0)))
  /\ (exists a f, array_from_u8s Debug [1; 2; 8; 3] = Ok a /\ built some_probe some_order Debug a 2 8 f
      /\ sparsify_rejected 2 8 f).
Proof.
  split; [repeat split; try reflexivity; try discriminate; vm_compute; discriminate|]. split.
  - exists (mksparse 2 65 (SU64Big (bv_of 65 1) [(3, bv_of 65 (2 ^ 64))])), (fun n => if n =? 3 then 2 ^ 64 else 1).
    split; [|split; [reflexivity|split; [|split; eexists; reflexivity]]].
    + refine (built_step some_probe some_order Debug (ASparse (mksparse 2 65 (SU64Big (bv_of 65 1) []))) 2 65
        (fun _ => 1) (AStore (bv_of 2 3) (bv_of 65 (2 ^ 64))) _ _ _ _).
      * refine (built_sparse some_probe some_order Debug 2 (bv_of 65 1) _ _ _ _ _); try reflexivity.
        apply bv_of_is_bv; reflexivity.
      * split; [apply bv_of_is_bv; reflexivity|]. split; [reflexivity|].
        split; [apply bv_of_is_bv; reflexivity|]. reflexivity.
      * reflexivity.
    + right. left. split; [reflexivity|]. exists 3. split; [reflexivity|]. discriminate.
  - destruct (array_from_u8s Debug [1; 2; 8; 3]) as [a|] eqn:E; [|discriminate].
    exists a, (fun i => nth (N.to_nat i) [1; 2; 8; 3] 0). split; [reflexivity|]. split.
    + assert (I : array_index_width a = 2) by (vm_compute in E; injection E as <-; reflexivity).
      generalize (built_u8s some_probe some_order Debug [1; 2; 8; 3] a). rewrite I. intros X. apply X; [repeat (constructor; [reflexivity|]); constructor|vm_compute; discriminate|exact E].
    + split; [reflexivity|]. split; [discriminate|]. exists 2. split; [reflexivity|]. discriminate.
Qed.

(** ** C45 in release builds

    The number of elements is [1 << index_width], where a release build shifts by
    [index_width] modulo 64.  So an array with 64-bit indices gets one element. *)
Theorem C45_release_exact : forall iw default, wf default -> 0 < width default ->
  (panics (array_new_dense Release iw default)
   <-> 2 ^ 63 <= dense_bytes (iw mod 64) (width default)
       \/ (width default = 1 /\ uval default = 1 /\ 32 <= iw mod 64)).
Proof. exact release_exact. Qed.
Print Assumptions C45_release_exact.

Theorem C45_release_refuted : exists iw default a, wf default /\ 0 < width default
  /\ array_new_dense Release iw default = Ok a /\ 2 ^ 63 <= dense_bytes iw (width default).
Proof. exact release_refuted. Qed.
Print Assumptions C45_release_refuted.

Example C45_release_exact_example : 2 ^ 63 <= dense_bytes (127 mod 64) 8 /\ dense_bytes (128 mod 64) 8 = 1
  /\ wf (bv_of 1 1) /\ 32 <= 96 mod 64.
Proof.
  split; [vm_compute; discriminate|]. split; [reflexivity|]. split; [now apply (bv_of_is_bv 1 1)|vm_compute; discriminate].
Qed.

(** ** C53 and C64 at any index width

    Above 64 bits a read may panic; what it returns is right, also after a reload. *)
Theorem C53_any_width : forall probe ho m a iw dw f i, hashing probe -> reorders ho ->
  built probe ho m a iw dw f -> wf i -> width i = iw ->
  panics (array_select probe m a i) \/ yields (array_select probe m a i) dw (f (uval i)).
Proof. exact any_width_reads. Qed.
Print Assumptions C53_any_width.

Theorem C64_any_width : forall probe ho m order a iw dw f a' i, hashing probe -> reorders ho -> reorders order ->
  built probe ho m a iw dw f -> de_array (ser_array order a) = Some a' -> wf i -> width i = iw ->
  panics (array_select probe m a' i) \/ yields (array_select probe m a' i) dw (f (uval i)).
Proof. exact reload_reads. Qed.
Print Assumptions C64_any_width.

Example C64_any_width_example : forall probe ho m, hashing probe -> exists s,
  built probe ho m (ASparse s) 70 8 (arr_step (fun _ => 7) (AStore (bv_of 70 5) (bv_of 8 200)))
  /\ yields (array_select (fun _ _ => false) m (ASparse s) (bv_of 70 9)) 8 7.
Proof.
  intros probe ho m H.
  assert (W : forall w n, 0 < w -> w < 2 ^ 32 -> n < 2 ^ w -> wf (bv_of w n)) by (intros; now apply (bv_of_is_bv w n)).
  exists (mksparse 70 8 (SBigBig (bv_of 8 7) [(bv_of 70 5, bv_of 8 200)])). split.
  - apply (built_step probe ho m (ASparse (mksparse 70 8 (SBigBig (bv_of 8 7) [])))).
    + apply (built_sparse probe ho m 70 (bv_of 8 7)); [now apply W|reflexivity|reflexivity|].
      destruct m; reflexivity.
    + split; [now apply W|]. split; [reflexivity|]. split; [now apply W|reflexivity].
    + destruct m; vm_compute; reflexivity.
  - exists (bv_of 8 7). split; [destruct m; reflexivity|]. now apply (bv_of_is_bv 8 7).
Qed.
