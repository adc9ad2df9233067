(** * PropertiesArray: C37 - C45 and C53 (dense and sparse arrays).

    Vocabulary in Spec.v and ArraySpec.v. *)

From Coq Require Import Permutation.
From Verif Require Import Base Bv Map Array Spec ArraySpec.
From Verif Require Import PropsArith PDense PSparse PConvert PArrays.

(** ** C37

    Full statement (false of the code): as below for every shape the constructor
    accepts.  One-bit elements with 2^32 of them are accepted but not stored. *)
Theorem C37_dense_history_partial : forall probe m iw default ops a,
  wf default -> 0 < width default -> addressable iw (width default) ->
  array_new_dense m iw default = Ok a -> Forall (arr_legal iw (width default)) ops ->
  exists a', arr_run_all probe m a ops = Ok a' /\ array_is_dense a' = true
    /\ arr_is probe m a' iw (width default) (fold_left arr_step ops (fun _ => uval default)).
Proof. exact dense_array_history. Qed.
Print Assumptions C37_dense_history_partial.

Theorem C37_refuted : exists iw default a, wf default /\ 0 < width default
  /\ array_new_dense Debug iw default = Ok a
  /\ dense_bytes iw (width default) <= 2 ^ 30
  /\ forall probe m i, wf i -> width i = iw -> panics (array_select probe m a i).
Proof. exact bit_limit_refuted. Qed.
Print Assumptions C37_refuted.

Definition ex_ops (dw : N) : list arr_op :=
  [AStore (bv_of 2 1) (bv_of dw 1); AClear; AStore (bv_of 2 3) (bv_of dw 1); AStore (bv_of 2 3) (bv_of dw 0);
   AStore (bv_of 2 0) (bv_of dw 1)].

Lemma ex_ops_legal dw : 0 < dw -> dw < 2 ^ 32 -> Forall (arr_legal 2 dw) (ex_ops dw).
Proof.
  intros D D32.
  assert (P : 2 ^ 1 <= 2 ^ dw) by (apply N.pow_le_mono_r; [discriminate|]; now apply N.le_succ_l in D).
  change (2 ^ 1) with 2 in P.
  assert (H1 : 1 < 2 ^ dw) by (eapply N.lt_le_trans; [|exact P]; reflexivity).
  assert (H0 : 0 < 2 ^ dw) by (eapply N.lt_trans; [|exact H1]; reflexivity).
  assert (S : forall i x, i < 2 ^ 2 -> x < 2 ^ dw -> arr_legal 2 dw (AStore (bv_of 2 i) (bv_of dw x))).
  { intros i x Hi Hx. destruct (bv_of_is_bv 2 i) as (A1 & A2 & _); [reflexivity|auto|].
    destruct (bv_of_is_bv dw x) as (B1 & B2 & _); auto. repeat (split; [assumption|]). assumption. }
  unfold ex_ops. constructor; [now apply S|]. constructor; [exact I|].
  constructor; [now apply S|]. constructor; [now apply S|]. constructor; [now apply S|constructor].
Qed.

Lemma ex_wf dw : 0 < dw -> dw < 2 ^ 32 -> wf (bv_of dw 1).
Proof.
  intros D D32. apply (bv_of_is_bv dw 1); [auto|].
  eapply N.lt_le_trans; [|apply N.pow_le_mono_r; [discriminate|]; apply N.le_succ_l in D; exact D]. reflexivity.
Qed.

Lemma ex_addressable dw : dw = 1 \/ dw = 7 \/ dw = 33 \/ dw = 130 -> addressable 2 dw.
Proof. intros [->|[->|[->| ->]]]; (split; [reflexivity|]); intros; reflexivity. Qed.

(** One array per storage layout. *)
Example C37_example : forall dw, dw = 1 \/ dw = 7 \/ dw = 33 \/ dw = 130 ->
  wf (bv_of dw 1) /\ 0 < width (bv_of dw 1) /\ addressable 2 dw
  /\ (exists a, array_new_dense Debug 2 (bv_of dw 1) = Ok a) /\ Forall (arr_legal 2 dw) (ex_ops dw).
Proof.
  intros dw H. assert (0 < dw /\ dw < 2 ^ 32).
  { destruct H as [->|[->|[->| ->]]]; split; reflexivity. }
  split; [now apply ex_wf|]. split; [apply H0|]. split; [now apply ex_addressable|].
  split; [|now apply ex_ops_legal].
  destruct H as [->|[->|[->| ->]]]; eexists; reflexivity.
Qed.

(** ** C38

    Full statement (false of the code): as [C38_history_partial] without the
    bound on the index width. *)
Theorem C38_history_partial : forall probe m iw default ops,
  wf default -> 0 < width default -> iw <= 64 -> Forall (arr_legal iw (width default)) ops ->
  exists a a', array_new_sparse m iw default = Ok a /\ arr_run_all probe m a ops = Ok a'
    /\ array_is_sparse a' = true
    /\ arr_is probe m a' iw (width default) (fold_left arr_step ops (fun _ => uval default)).
Proof. exact sparse_array_history. Qed.
Print Assumptions C38_history_partial.

(** Wider indices: a read may panic, but what it returns is right. *)
Theorem C38_wide_partial : forall probe m iw default ops a0 a,
  hashing probe -> wf default -> 0 < width default -> 64 < iw -> iw < 2 ^ 32 ->
  Forall (arr_legal iw (width default)) ops ->
  array_new_sparse m iw default = Ok a0 -> arr_run_all probe m a0 ops = Ok a ->
  forall i, wf i -> width i = iw ->
    panics (array_select probe m a i)
    \/ yields (array_select probe m a i) (width default)
         (fold_left arr_step ops (fun _ => uval default) (uval i)).
Proof. exact sparse_wide_sound. Qed.
Print Assumptions C38_wide_partial.

(** Reading back the value just stored panics. *)
Theorem C38_wide_refuted : forall probe m, hashing probe ->
  exists default i x a0 a, wf default /\ arr_legal 65 8 (AStore i x) /\ width default = 8
    /\ array_new_sparse m 65 default = Ok a0 /\ array_store probe m a0 i x = Ok a
    /\ panics (array_select probe m a i).
Proof. exact sparse_wide_refuted. Qed.
Print Assumptions C38_wide_refuted.

Example C38_example : (forall dw, dw = 7 \/ dw = 130 ->
    wf (bv_of dw 1) /\ 0 < width (bv_of dw 1) /\ Forall (arr_legal 2 dw) (ex_ops dw))
  /\ hashing some_probe
  /\ exists a0 a, array_new_sparse Debug 65 (bv_of 8 1) = Ok a0
     /\ arr_run_all some_probe Debug a0 [AStore (bv_of 65 (2 ^ 64)) (bv_of 8 200); AStore (bv_of 65 3) (bv_of 8 7)] = Ok a
     /\ array_select some_probe Debug a (bv_of 65 4) = Ok (bv_of 8 1).
Proof.
  split.
  - intros dw H. assert (0 < dw /\ dw < 2 ^ 32) by (destruct H as [->| ->]; split; reflexivity).
    split; [now apply ex_wf|]. split; [apply H0|]. now apply ex_ops_legal.
  - split; [exact some_probe_hashing|]. eexists _, _. split; [reflexivity|]. split; reflexivity.
Qed.

(** ** C39

    Full statement (false of the code): [make_dense] on any sparse array whose
    shape fits a dense array returns, in both build profiles. *)
Theorem C39_returns_partial : forall probe ho m a iw dw f, hashing probe -> reorders ho ->
  built probe ho m a iw dw f -> fits_dense m iw dw -> dw <= 64 \/ m = Release ->
  exists a', array_make_dense ho m a = Ok a' /\ array_is_dense a' = true
    /\ arr_is probe m a' iw dw f.
Proof. exact make_dense_ok. Qed.
Print Assumptions C39_returns_partial.

(** Every result is right, in both profiles and for every data width. *)
Theorem C39_contents : forall probe ho m a iw dw f a', hashing probe -> reorders ho ->
  built probe ho m a iw dw f -> addressable iw dw -> array_make_dense ho m a = Ok a' ->
  array_is_dense a' = true /\ arr_is probe m a' iw dw f.
Proof. exact make_dense_contents. Qed.
Print Assumptions C39_contents.

(** Debug builds panic on every array with wide elements, except constant ones. *)
Theorem C39_wide_elements_refuted : forall probe ho s iw dw f d x0 i, hashing probe -> reorders ho ->
  built probe ho Debug (ASparse s) iw dw f -> iw <= 64 -> 64 < dw ->
  sparse_default Debug s = Ok d -> uval d = x0 -> i < 2 ^ iw -> f i <> x0 ->
  panics (array_make_dense ho Debug (ASparse s)).
Proof. exact make_dense_panics. Qed.
Print Assumptions C39_wide_elements_refuted.

Theorem C39_refuted : forall probe ho, hashing probe -> reorders ho ->
  exists a f, built probe ho Debug a 2 65 f /\ fits_dense Debug 2 65 /\ array_is_sparse a = true
    /\ panics (array_make_dense ho Debug a).
Proof. exact make_dense_refuted. Qed.
Print Assumptions C39_refuted.

Example C39_example : reorders some_order /\ reorders (fun _ l => rev l)
  /\ fits_dense Debug 10 64 /\ fits_dense Debug 27 64 /\ fits_dense Release 30 100
  /\ exists a0 a a', array_new_sparse Debug 2 (bv_of 33 1) = Ok a0
     /\ arr_run_all some_probe Debug a0 (ex_ops 33) = Ok a /\ array_make_dense some_order Debug a = Ok a'
     /\ array_select some_probe Debug a' (bv_of 2 0) = Ok (bv_of 33 1).
Proof.
  split; [exact some_order_reorders|]. split; [exact reverse_order_reorders|].
  split; [split; [split; [reflexivity|discriminate]|right; vm_compute; discriminate]|].
  split; [split; [split; [reflexivity|discriminate]|right; vm_compute; discriminate]|].
  split; [split; [split; [reflexivity|discriminate]|left; reflexivity]|].
  eexists _, _, _. split; [reflexivity|]. split; [reflexivity|]. split; reflexivity.
Qed.

(** ** C40

    Full statement (false of the code): the conversion of any dense array
    returns and has the same contents. *)
Theorem C40_contents : forall probe ho m a iw dw f s, hashing probe -> reorders ho ->
  built probe ho m a iw dw f -> iw <= 64 -> sparse_of_array ho m a = Ok s ->
  arr_is probe m (ASparse s) iw dw f.
Proof. exact make_sparse_contents. Qed.
Print Assumptions C40_contents.

Theorem C40_returns_partial : forall probe ho m a iw dw f, hashing probe -> reorders ho ->
  built probe ho m a iw dw f -> (1 < dw -> dw <= 8 -> forall i, i < 2 ^ iw -> f i < 8) ->
  exists s, sparse_of_array ho m a = Ok s.
Proof. exact make_sparse_ok. Qed.
Print Assumptions C40_returns_partial.

(** Elements of 2 to 8 bits: panics as soon as one of them is 8 or more. *)
Theorem C40_bytes_refuted : forall probe ho m a iw dw f i, hashing probe -> reorders ho ->
  built probe ho m a iw dw f -> array_is_dense a = true -> 1 < dw -> dw <= 8 -> i < 2 ^ iw -> 8 <= f i ->
  panics (sparse_of_array ho m a).
Proof. exact make_sparse_panics. Qed.
Print Assumptions C40_bytes_refuted.

Theorem C40_refuted : forall probe ho m, hashing probe -> reorders ho ->
  exists a, array_from_u8s m [1; 2; 8; 3] = Ok a
    /\ built probe ho m a 2 8 (fun i => nth (N.to_nat i) [1; 2; 8; 3] 0)
    /\ panics (sparse_of_array ho m a).
Proof. exact make_sparse_refuted. Qed.
Print Assumptions C40_refuted.

Example C40_example : exists a s, array_from_u64s Debug [300; 7; 7; 2 ^ 64 - 1; 7] = Ok a
  /\ sparse_of_array some_order Debug a = Ok s
  /\ array_index_width (ASparse s) = 3
  /\ array_select some_probe Debug (ASparse s) (bv_of 3 3) = Ok (bv_of 64 (2 ^ 64 - 1))
  /\ array_select some_probe Debug (ASparse s) (bv_of 3 7) = Ok (bv_of 64 0).
Proof. eexists _, _. split; [reflexivity|]. split; [reflexivity|]. split; [reflexivity|]. split; reflexivity. Qed.

(** ** C41 *)
Theorem C41_default : forall probe ho m a iw dw f s, hashing probe -> reorders ho ->
  built probe ho m a iw dw f -> array_is_dense a = true -> few (2 ^ 20) iw f ->
  sparse_of_array ho m a = Ok s ->
  exists d x0, sparse_default m s = Ok d /\ is_bv d dw x0
    /\ forall y, occurrences iw f y <= occurrences iw f x0.
Proof. exact default_frequent. Qed.
Print Assumptions C41_default.

Example C41_example : few (2 ^ 20) 2 (fun i => nth (N.to_nat i) [300; 7; 7; 7] 0)
  /\ occurrences 2 (fun i => nth (N.to_nat i) [300; 7; 7; 7] 0) 7 = 3
  /\ exists a s, array_from_u64s Debug [300; 7; 7; 7] = Ok a /\ sparse_of_array some_order Debug a = Ok s
     /\ sparse_default Debug s = Ok (bv_of 64 7).
Proof.
  split.
  - exists [300; 7; 0]. split; [vm_compute; discriminate|]. intros i _.
    destruct (N.to_nat i) as [|[|[|[|[|n]]]]]; cbn; auto.
  - split; [reflexivity|]. eexists _, _. split; [reflexivity|]. split; reflexivity.
Qed.

(** ** C42

    Full statement (false of the code for index width 0): as below for every
    index width. *)
Theorem C42_entries_partial : forall probe ho m s iw dw f, hashing probe -> reorders ho ->
  built probe ho m (ASparse s) iw dw f -> 0 < iw ->
  exists es d x0, sparse_entries ho m s = Ok es
    /\ sparse_default m s = Ok d /\ is_bv d dw x0
    /\ NoDup (map (fun e => uval (fst e)) es)
    /\ (forall e, In e es -> exists i, is_bv (fst e) iw i /\ is_bv (snd e) dw (f i) /\ f i <> x0)
    /\ (forall i, i < 2 ^ iw -> f i <> x0 -> exists e, In e es /\ uval (fst e) = i).
Proof. exact built_entries. Qed.
Print Assumptions C42_entries_partial.

Theorem C42_refuted : forall probe ho m, reorders ho ->
  exists a s i x f, array_new_sparse m 0 (bv_of 8 0) = Ok a /\ arr_legal 0 8 (AStore i x)
    /\ array_store probe m a i x = Ok (ASparse s)
    /\ built probe ho m (ASparse s) 0 8 f
    /\ panics (sparse_entries ho m s).
Proof. exact entries_zero_refuted. Qed.
Print Assumptions C42_refuted.

Example C42_example : exists a0 s, array_new_sparse Debug 2 (bv_of 33 1) = Ok a0
  /\ arr_run_all some_probe Debug a0 (ex_ops 33) = Ok (ASparse s)
  /\ sparse_entries some_order Debug s = Ok [(bv_of 2 0, bv_of 33 1)].
Proof. eexists _, _. split; [reflexivity|]. split; reflexivity. Qed.

(** ** C43

    Full statement (false of the code for two sparse arrays): [Some true] iff
    the contents agree. *)
Theorem C43_contents : forall probe ho m a b iw dw f iw' dw' g r, hashing probe -> reorders ho ->
  built probe ho m a iw dw f -> built probe ho m b iw' dw' g -> array_is_equal ho m a b = Ok r ->
  (r = None <-> (iw <> iw' \/ dw <> dw'))
  /\ (r = Some true -> same_contents iw f g)
  /\ (r = Some false -> array_is_dense a = true \/ array_is_dense b = true -> ~ same_contents iw f g).
Proof. exact array_equal_ok. Qed.
Print Assumptions C43_contents.

(** Two sparse arrays are equal iff their defaults and contents are. *)
Theorem C43_sparse_partial : forall probe ho m a b iw dw f g, hashing probe -> reorders ho ->
  built probe ho m (ASparse a) iw dw f -> built probe ho m (ASparse b) iw dw g ->
  exists r da db, array_is_equal ho m (ASparse a) (ASparse b) = Ok (Some r)
    /\ sparse_default m a = Ok da /\ sparse_default m b = Ok db
    /\ (r = true <-> uval da = uval db /\ same_contents iw f g).
Proof. exact sparse_equal_exact. Qed.
Print Assumptions C43_sparse_partial.

Theorem C43_returns_partial : forall probe ho m a b iw dw f iw' dw' g, hashing probe -> reorders ho ->
  built probe ho m a iw dw f -> built probe ho m b iw' dw' g ->
  array_is_dense a = array_is_dense b \/ (fits_dense m iw dw /\ (dw <= 64 \/ m = Release)) ->
  exists r, array_is_equal ho m a b = Ok r.
Proof. exact array_equal_total. Qed.
Print Assumptions C43_returns_partial.

Theorem C43_eq : forall ho m a b r, array_is_equal ho m a b = Ok r ->
  array_eq ho m a b = Ok (match r with Some true => true | _ => false end).
Proof. exact array_eq_iff. Qed.
Print Assumptions C43_eq.

Theorem C43_refuted : forall probe ho m, hashing probe -> reorders ho ->
  exists a b f g, built probe ho m a 1 8 f /\ built probe ho m b 1 8 g /\ same_contents 1 f g
    /\ array_is_equal ho m a b = Ok (Some false).
Proof. exact sparse_equal_refuted. Qed.
Print Assumptions C43_refuted.

Example C43_example : exists s0 s d, array_new_sparse Debug 2 (bv_of 64 0) = Ok s0
  /\ arr_run_all some_probe Debug s0 [AStore (bv_of 2 2) (bv_of 64 9); AStore (bv_of 2 0) (bv_of 64 5)] = Ok s
  /\ array_from_u64s Debug [5; 0; 9] = Ok d
  /\ array_is_equal some_order Debug s d = Ok (Some true)
  /\ array_is_equal some_order Debug d s0 = Ok (Some false).
Proof.
  eexists _, _, _. split; [reflexivity|]. split; [reflexivity|]. split; [reflexivity|]. split; reflexivity.
Qed.

(** ** C44 *)
Theorem C44_bools : forall probe m l, len l <= 2 ^ 31 ->
  exists a iw, array_from_bools m l = Ok a
    /\ arr_is probe m a iw 1 (fun i => if nth (N.to_nat i) l false then 1 else 0)
    /\ len l <= 2 ^ iw /\ (forall k, len l <= 2 ^ k -> iw <= k) /\ array_is_dense a = true.
Proof. exact array_from_bools_ok. Qed.
Print Assumptions C44_bools.

Theorem C44_u8s : forall probe m l, Forall (fun x => x < 2 ^ 8) l -> len l <= 2 ^ 62 ->
  exists a iw, array_from_u8s m l = Ok a
    /\ arr_is probe m a iw 8 (fun i => nth (N.to_nat i) l 0)
    /\ len l <= 2 ^ iw /\ (forall k, len l <= 2 ^ k -> iw <= k) /\ array_is_dense a = true.
Proof. exact array_from_u8s_ok. Qed.
Print Assumptions C44_u8s.

Theorem C44_u64s : forall probe m l, Forall (fun x => x < 2 ^ 64) l -> len l <= 2 ^ 59 ->
  exists a iw, array_from_u64s m l = Ok a
    /\ arr_is probe m a iw 64 (fun i => nth (N.to_nat i) l 0)
    /\ len l <= 2 ^ iw /\ (forall k, len l <= 2 ^ k -> iw <= k) /\ array_is_dense a = true.
Proof. exact array_from_u64s_ok. Qed.
Print Assumptions C44_u64s.

(** Longer slices (a slice has at most 2^63 - 1 bytes) cannot be padded: the array
    would need 2^63 bytes. *)
Theorem C44_long_u8s : forall m l, 2 ^ 62 < len l -> len l < 2 ^ 63 -> panics (array_from_u8s m l).
Proof. exact array_from_u8s_long. Qed.
Print Assumptions C44_long_u8s.

Theorem C44_long_u64s : forall m l, 2 ^ 59 < len l -> 8 * len l < 2 ^ 63 -> panics (array_from_u64s m l).
Proof. exact array_from_u64s_long. Qed.
Print Assumptions C44_long_u64s.

(** More than 2^31 booleans: a panic if one of them is true, otherwise an array
    that cannot be read. *)
Theorem C44_long_bools : forall probe m l, 2 ^ 31 < len l -> len l < 2 ^ 63 ->
  (In true l -> panics (array_from_bools m l))
  /\ (~ In true l -> exists a, array_from_bools m l = Ok a
      /\ forall i, wf i -> width i = array_index_width a -> panics (array_select probe m a i)).
Proof. exact array_from_bools_long. Qed.
Print Assumptions C44_long_bools.

Example C44_long_bools_example : exists l : list bool, 2 ^ 31 < len l /\ len l < 2 ^ 63 /\ In true l.
Proof.
  exists (true :: repeat false (N.to_nat (2 ^ 31))). rewrite PWords.len_cons, PWords.len_repeat, N2Nat.id.
  split; [reflexivity|]. split; [reflexivity|]. apply in_eq.
Qed.

Example C44_long_example : exists l : list N, 2 ^ 62 < len l /\ len l < 2 ^ 63.
Proof.
  exists (repeat 0 (N.to_nat (2 ^ 62 + 1))). rewrite PWords.len_repeat, N2Nat.id. split; reflexivity.
Qed.

Example C44_example : len [true; false; true] <= 2 ^ 31 /\ Forall (fun x => x < 2 ^ 8) [255; 0; 3; 9; 1]
  /\ exists a, array_from_u8s Debug [255; 0; 3; 9; 1] = Ok a /\ array_index_width a = 3
     /\ array_select some_probe Debug a (bv_of 3 4) = Ok (bv_of 8 1).
Proof.
  split; [vm_compute; discriminate|]. split; [repeat constructor|].
  eexists. split; [reflexivity|]. split; reflexivity.
Qed.

(** ** C45

    Full statement (false of the code): a debug build accepts a shape iff it
    needs at most 1 GiB, and then every index can be read. *)
Theorem C45_accepts_partial : forall probe m iw default, wf default -> 0 < width default ->
  addressable iw (width default) ->
  m = Release \/ (if 64 <? width default then dense_bytes iw (width default) / 8
                  else dense_bytes iw (width default)) <= 2 ^ 30 ->
  exists a, array_new_dense m iw default = Ok a
    /\ arr_is probe m a iw (width default) (fun _ => uval default).
Proof. exact dense_new_accepts. Qed.
Print Assumptions C45_accepts_partial.

(** The limit is exact up to 64 bits per element, and 8 times too large above. *)
Theorem C45_refuses_partial : forall iw default, 0 < width default ->
  2 ^ 30 < (if 64 <? width default then dense_bytes iw (width default) / 8
            else dense_bytes iw (width default)) ->
  panics (array_new_dense Debug iw default).
Proof. exact dense_new_refuses. Qed.
Print Assumptions C45_refuses_partial.

(** A release build accepts every shape that a vector can hold, and no other. *)
Theorem C45_release_partial : forall iw default, wf default -> 1 < width default -> iw < 64 ->
  (2 ^ 63 <= dense_bytes iw (width default) <-> panics (array_new_dense Release iw default)).
Proof. exact dense_new_release. Qed.
Print Assumptions C45_release_partial.

Theorem C45_limit_refuted : exists iw default a, wf default /\ 0 < width default
  /\ array_new_dense Debug iw default = Ok a
  /\ 8 * 2 ^ 30 <= dense_bytes (array_index_width a) (array_data_width a).
Proof. exact big_limit_refuted. Qed.
Print Assumptions C45_limit_refuted.

Theorem C45_usable_refuted : exists iw default a, wf default /\ 0 < width default
  /\ array_new_dense Debug iw default = Ok a
  /\ dense_bytes iw (width default) <= 2 ^ 30
  /\ forall probe m i, wf i -> width i = iw -> panics (array_select probe m a i).
Proof. exact bit_limit_refuted. Qed.
Print Assumptions C45_usable_refuted.

Example C45_example : wf (bv_of 33 1) /\ addressable 27 33 /\ dense_bytes 27 33 = 2 ^ 30
  /\ 2 ^ 30 < dense_bytes 28 33.
Proof.
  split; [apply ex_wf; reflexivity|]. split; [split; [reflexivity|discriminate]|]. split; reflexivity.
Qed.
Example C45_release_example : wf (bv_of 33 1) /\ 1 < width (bv_of 33 1)
  /\ dense_bytes 59 33 < 2 ^ 63 /\ dense_bytes 60 33 = 2 ^ 63.
Proof. split; [apply ex_wf; reflexivity|]. split; [reflexivity|]. split; reflexivity. Qed.

(** ** C53 *)
Theorem C53_reads : forall probe ho m a iw dw f, hashing probe -> reorders ho ->
  built probe ho m a iw dw f -> iw <= 64 -> arr_is probe m a iw dw f.
Proof. exact built_reads. Qed.
Print Assumptions C53_reads.

Theorem C53_mutates : forall probe ho m a iw dw f op, hashing probe -> reorders ho ->
  built probe ho m a iw dw f -> iw <= 64 -> arr_legal iw dw op ->
  exists a', arr_run probe m a op = Ok a'.
Proof. exact built_mutates. Qed.
Print Assumptions C53_mutates.

(** A slice, converted to sparse, written to, converted to dense, written to. *)
Example C53_example : exists a f, built some_probe some_order Debug a 2 64 f
  /\ f 0 = 9 /\ f 1 = 8 /\ f 2 = 7 /\ f 3 = 0
  /\ array_select some_probe Debug a (bv_of 2 1) = Ok (bv_of 64 8).
Proof.
  destruct (array_from_u64s Debug [5; 6; 7]) as [a0|] eqn:E0; [|discriminate].
  assert (B0 : built some_probe some_order Debug a0 2 64 (fun i => nth (N.to_nat i) [5; 6; 7] 0)).
  { assert (X := built_u64s some_probe some_order Debug [5; 6; 7] a0 ltac:(repeat constructor) ltac:(vm_compute; discriminate) E0).
    vm_compute in E0. injection E0 as <-. exact X. }
  destruct (sparse_of_array some_order Debug a0) as [s1|] eqn:E1; [|vm_compute in E0; injection E0 as <-; discriminate].
  assert (B1 := built_make_sparse _ _ _ _ _ _ _ _ B0 E1).
  assert (L : forall i x, i < 2 ^ 2 -> x < 2 ^ 64 -> arr_legal 2 64 (AStore (bv_of 2 i) (bv_of 64 x))).
  { intros i x Hi Hx. destruct (bv_of_is_bv 2 i) as (A1 & A2 & _); [reflexivity|auto|].
    destruct (bv_of_is_bv 64 x) as (C1 & C2 & _); [reflexivity|auto|]. repeat (split; [assumption|]). assumption. }
  destruct (built_mutates _ _ _ _ _ _ _ _ some_probe_hashing some_order_reorders B1 ltac:(vm_compute; discriminate) (L 1 8 eq_refl eq_refl)) as (a2 & E2).
  assert (B2 := built_step _ _ _ _ _ _ _ _ _ B1 (L 1 8 eq_refl eq_refl) E2).
  assert (Ad : addressable 2 64) by (split; [reflexivity|discriminate]).
  destruct (array_make_dense some_order Debug a2) as [a3|] eqn:E3.
  2:{ vm_compute in E0; injection E0 as <-; vm_compute in E1; injection E1 as <-; vm_compute in E2; injection E2 as <-; vm_compute in E3; discriminate. }
  assert (B3 := built_make_dense _ _ _ _ _ _ _ _ B2 Ad E3).
  destruct (built_mutates _ _ _ _ _ _ _ _ some_probe_hashing some_order_reorders B3 ltac:(vm_compute; discriminate) (L 0 9 eq_refl eq_refl)) as (a4 & E4).
  assert (B4 := built_step _ _ _ _ _ _ _ _ _ B3 (L 0 9 eq_refl eq_refl) E4).
  exists a4. eexists. split; [exact B4|]. repeat (split; [reflexivity|]).
  vm_compute in E0; injection E0 as <-; vm_compute in E1; injection E1 as <-; vm_compute in E2; injection E2 as <-; vm_compute in E3; injection E3 as <-; vm_compute in E4; injection E4 as <-. reflexivity.
Qed.
