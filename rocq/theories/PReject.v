(** * PReject: calls with operands that do not fit together. *)

From Coq Require Import ZifyBool ZifyNat ZifyN.
From Verif Require Import Base Arith Strings Bv Array Spec.
From Verif Require Import PWords PArith PShift PropsArith PCompare PConv.
Ltac Zify.zify_post_hook ::= idtac.

Lemma panics_bind A B (r : res A) (k : A -> res B) : panics r -> panics (bind r k).
Proof. intros (p & ->). exists p. reflexivity. Qed.
Lemma panics_debug_assert b : b = false -> panics (debug_assert Debug b).
Proof. intros ->. eexists. reflexivity. Qed.

(** ** Different widths *)

Lemma mismatch_arith f a b : width a <> width b -> panics (arith_bin_fn f Debug a b).
Proof. intros H. apply panics_bind, panics_debug_assert. lia. Qed.
Lemma mismatch_bit_arith f a b : width a <> width b -> panics (bit_arith_bin_fn f Debug a b).
Proof. intros H. apply panics_bind, panics_debug_assert. lia. Qed.

Lemma mismatch_debug a b : width a <> width b ->
  (panics (bv_add Debug a b) /\ panics (bv_sub Debug a b) /\ panics (bv_mul Debug a b))
  /\ (panics (bv_and Debug a b) /\ panics (bv_or Debug a b) /\ panics (bv_xor Debug a b))
  /\ (panics (bv_shift_left Debug a b) /\ panics (bv_shift_right Debug a b)
      /\ panics (bv_arithmetic_shift_right Debug a b))
  /\ (panics (bv_is_equal Debug a b) /\ panics (bv_is_not_equal Debug a b))
  /\ (panics (bv_is_greater Debug a b) /\ panics (bv_is_less Debug a b)
      /\ panics (bv_is_greater_or_equal Debug a b) /\ panics (bv_is_less_or_equal Debug a b))
  /\ (panics (bv_is_greater_signed Debug a b) /\ panics (bv_is_less_signed Debug a b)
      /\ panics (bv_is_greater_or_equal_signed Debug a b)
      /\ panics (bv_is_less_or_equal_signed Debug a b))
  /\ panics (bv_assign Debug a b).
Proof.
  intros H.
  repeat match goal with |- _ /\ _ => split end;
    try (apply mismatch_arith; exact H); try (apply mismatch_bit_arith; exact H);
    try (apply panics_bind, panics_debug_assert; lia).
  apply panics_bind, panics_bind, panics_debug_assert; lia.
Qed.

(** Nothing of the sort happens for [==], which is [false]. *)
Lemma mismatch_eq m a b : width a <> width b ->
  bv_eq m a b = Ok false /\ bvref_eq m a b = Ok false.
Proof.
  intros H. unfold bv_eq, bvref_eq. replace (width b =? width a) with false by lia.
  cbn [negb orb andb]. rewrite debug_assert_true. auto.
Qed.

Lemma mismatch_arrays probe i v :
  (forall d, width i <> d_iw d \/ width v <> d_dw d ->
     panics (dense_store Debug d i v))
  /\ (forall d, width i <> d_iw d -> panics (dense_select Debug d i))
  /\ (forall s, width i <> s_iw s \/ width v <> s_dw s ->
     panics (sparse_store probe Debug s i v))
  /\ (forall s, width i <> s_iw s -> panics (sparse_select probe Debug s i)).
Proof.
  repeat split; intros d H.
  - unfold dense_store. destruct (N.eqb_spec (width i) (d_iw d)) as [E|E].
    + rewrite debug_assert_true. cbn [bind]. destruct (unwrap _) as [x|p]; cbn [bind].
      * apply panics_bind, panics_debug_assert. lia.
      * now exists p.
    + apply panics_bind, panics_debug_assert. reflexivity.
  - apply panics_bind, panics_debug_assert. lia.
  - unfold sparse_store. destruct (N.eqb_spec (width i) (s_iw d)) as [E|E].
    + rewrite debug_assert_true. cbn [bind]. apply panics_bind, panics_debug_assert. lia.
    + apply panics_bind, panics_debug_assert. reflexivity.
  - apply panics_bind, panics_debug_assert. lia.
Qed.

Lemma mismatch_array_ops probe a i v : width i <> array_index_width a ->
  panics (array_select probe Debug a i) /\ panics (array_store probe Debug a i v).
Proof.
  destruct (mismatch_arrays probe i v) as (D1 & D2 & S1 & S2). intros H.
  destruct a as [s|d]; cbn [array_index_width array_select array_store] in *; split; auto using panics_bind.
Qed.
Lemma mismatch_array_data probe a i v : width v <> array_data_width a ->
  panics (array_store probe Debug a i v).
Proof.
  destruct (mismatch_arrays probe i v) as (D1 & D2 & S1 & S2). intros H.
  destruct a as [s|d]; cbn [array_data_width array_store] in *; auto using panics_bind.
Qed.

Lemma mismatch_refuted : exists a b c wa wb x y z,
  is_bv a wa x /\ is_bv b wb y /\ is_bv c wb z /\ wa <> wb
  /\ bv_is_equal Release a b = Ok true /\ x <> y
  /\ exists v, bv_or Release a c = Ok v /\ ~ wf v.
Proof.
  exists (bv_of 8 5), (bv_of 130 (2 ^ 64 + 5)), (bv_of 130 256), 8, 130, 5, (2 ^ 64 + 5), 256.
  do 3 (split; [apply bv_of_is_bv; reflexivity|]).
  split; [discriminate|]. split; [reflexivity|]. split; [discriminate|].
  eexists. split; [reflexivity|]. intros (_ & _ & _ & H). vm_compute in H. discriminate.
Qed.

(** ** Slices beyond the width *)

Lemma slice_debug a msb lsb : width a < msb \/ msb < lsb -> panics (bv_slice Debug a msb lsb).
Proof.
  intros H. unfold bv_slice. destruct (N.leb_spec msb (width a)) as [E|E].
  - rewrite debug_assert_true. cbn [bind]. apply panics_bind, panics_debug_assert. lia.
  - apply panics_bind, panics_debug_assert. reflexivity.
Qed.

Lemma slice_beyond m a w x msb lsb : is_bv a w x -> lsb <= msb -> w <= msb ->
  msb - lsb + 1 < 2 ^ 32 -> (m = Debug -> msb = w) ->
  (msb / 64 < (w + 63) / 64 -> yields (bv_slice m a msb lsb) (msb - lsb + 1) (x / 2 ^ lsb))
  /\ ((w + 63) / 64 <= msb / 64 -> panics (bv_slice m a msb lsb)).
Proof.
  intros Ha Hl Hw Hb Hm. apply is_bv_inv in Ha as (Wa & Hw' & La & Fa & Va & Ba).
  unfold bv_slice. rewrite Wa.
  replace (debug_assert m (msb <=? w)) with (Ok tt)
    by (destruct m; [rewrite Hm by auto; rewrite N.leb_refl|]; reflexivity).
  replace (lsb <=? msb) with true by lia. rewrite debug_assert_true. cbn [bind].
  rewrite u32_sub_ok by auto. cbn [bind]. rewrite u32_add_ok by lia. cbn [bind].
  split; intros Hn.
  - assert (Hx : x / 2 ^ lsb < 2 ^ (msb - lsb + 1)).
    { apply div_lt_pow. eapply N.lt_le_trans; [exact Ba|]. apply pow_le. lia. }
    apply wres_yields; [lia|auto|].
    apply (narrow_ok (fun o l => ar_slice m o l msb lsb)); [dlia|].
    eapply wres_eq; [apply slice_wres; auto; try dlia; rewrite zeros_len; auto|].
    rewrite Va. now apply N.mod_small.
  - assert (P : forall o, ar_slice m o (words a) msb lsb = Panic PIndex).
    { intros o. unfold ar_slice, range.
      replace (_ && _) with false by lia. reflexivity. }
    destruct (msb - lsb + 1 <=? 64) eqn:E.
    + rewrite range_ok by (rewrite ?zeros_len; dlia). cbn [bind]. rewrite P. eexists. reflexivity.
    + rewrite P. eexists. reflexivity.
Qed.

Lemma slice_beyond_refuted : exists a w x, is_bv a w x /\ 0 < w
  /\ (forall m, yields (bv_slice m a w 0) (w + 1) x)
  /\ exists v, bv_slice Release a (w + 5) (w + 2) = Ok v.
Proof.
  exists (bv_of 8 200), 8, 200. split; [apply bv_of_is_bv; reflexivity|]. split; [reflexivity|].
  split; [|eexists; reflexivity].
  intros m. exists (bv_of 9 200). split; [destruct m; reflexivity|]. apply bv_of_is_bv; reflexivity.
Qed.

Lemma map_last_some {A} (f : A -> A) l : l <> [] -> exists r, map_last f l = Ok r.
Proof.
  intros H. destruct (rev_cons_inv l H) as (t & x & ->). rewrite map_last_app. eauto.
Qed.

(** A release build takes a reversed range for one of almost 2^32 bits. *)
Lemma slice_reversed_refuted : exists a w x v, is_bv a w x
  /\ bv_slice Release a 0 5 = Ok v /\ width v = 2 ^ 32 - 4.
Proof.
  exists (bv_of 8 200), 8, 200.
  unfold bv_slice. change (u32_sub Release 0 5) with (Ok 4294967291). cbn [debug_assert bind].
  change (u32_add Release 4294967291 1) with (Ok 4294967292). cbn [bind].
  change (4294967292 <=? 64) with false. cbv iota.
  assert (L : len (value_vec_zeros 4294967292) = 67108864) by (rewrite zeros_len; reflexivity).
  destruct (value_vec_zeros 4294967292) as [|z zs] eqn:E; [discriminate|].
  unfold ar_slice. change (range (words (bv_of 8 200)) (5 / 64) (0 / 64 + 1)) with (Ok [200]).
  cbn [bind]. change (5 mod 64 =? 0) with false. cbv iota.
  change (5 mod 64) with 5. change (ar_mask 5) with (Ok 31). cbn [bind].
  change (idx [200] 0) with (Ok 200). cbn [bind skipn app ar_slice_loop].
  change (u32_sub Release 0 5) with (Ok 4294967291). cbn [bind].
  change (u32_add Release 4294967291 1) with (Ok 4294967292). cbn [bind].
  unfold ar_mask_msb. cbn [debug_assert bind]. change (ar_mask (4294967292 mod 64)) with (Ok (2 ^ 60 - 1)).
  cbn [bind].
  match goal with |- context [map_last ?f ?l] =>
    destruct (map_last_some f l) as (r & Hr); [discriminate|rewrite Hr] end.
  eexists. split; [apply bv_of_is_bv; reflexivity|]. cbn [bind]. split; [reflexivity|]. reflexivity.
Qed.

(** ** Result widths beyond 2^32 - 1 *)

Lemma overflow_debug a b k :
  (2 ^ 32 <= width a + width b -> panics (bv_concat Debug a b))
  /\ (2 ^ 32 <= width a + k -> panics (bv_zero_extend Debug a k) /\ panics (bv_sign_extend Debug a k)).
Proof.
  assert (O : forall x y, 2 ^ 32 <= x + y -> panics (u32_add Debug x y)).
  { intros x y H. unfold u32_add. rewrite B32_eq. replace (x + y <? 2 ^ 32) with false by lia.
    eexists. reflexivity. }
  split; [intros H|intros H; split]; apply panics_bind, O; exact H.
Qed.

Lemma overflow_extend_refuted : exists a w x k v, is_bv a w x /\ k < 2 ^ 32
  /\ 2 ^ 32 <= w + k /\ bv_zero_extend Release a k = Ok v /\ width v = 1 /\ ~ wf v.
Proof.
  exists (bv_of 64 6), 64, 6, (2 ^ 32 - 63). eexists.
  split; [apply bv_of_is_bv; reflexivity|]. split; [reflexivity|]. split; [discriminate|].
  split; [reflexivity|]. split; [reflexivity|].
  intros (_ & _ & _ & H). vm_compute in H. discriminate.
Qed.

Lemma overflow_concat_step a : width a = 2 ^ 32 - 8 -> range (words a) 0 1 = Ok [0] ->
  bv_concat Release a (bv_of 16 65535) = Ok (mkbv 8 [65535]).
Proof.
  intros W R. unfold bv_concat. rewrite W.
  change (u32_add Release (2 ^ 32 - 8) (width (bv_of 16 65535))) with (Ok 8). cbn [bind].
  rewrite R. reflexivity.
Qed.
Lemma zeros_range w : 0 < w -> range (value_vec_zeros w) 0 1 = Ok [0].
Proof.
  intros H. assert (L := zeros_len w). rewrite range_ok by dlia. clear L.
  unfold value_vec_zeros. rewrite div_ceil_eq.
  destruct (N.to_nat ((w + 63) / 64)) as [|n] eqn:E; [exfalso; dlia|]. reflexivity.
Qed.

Lemma overflow_concat_refuted : exists a b wa wb x y v, is_bv a wa x /\ is_bv b wb y
  /\ 2 ^ 32 <= wa + wb /\ bv_concat Release a b = Ok v /\ width v = 8 /\ ~ wf v.
Proof.
  exists (bv_zero (2 ^ 32 - 8)), (bv_of 16 65535), (2 ^ 32 - 8), 16, 0, 65535, (mkbv 8 [65535]).
  split; [apply zero_is_bv; reflexivity|]. split; [apply bv_of_is_bv; reflexivity|].
  split; [discriminate|]. split; [|split; [reflexivity|]].
  - apply overflow_concat_step; [reflexivity|]. apply (zeros_range (2 ^ 32 - 8)). reflexivity.
  - intros (_ & _ & _ & H). vm_compute in H. discriminate.
Qed.

(** ** The derived order *)

Lemma cmp_widths a b : width a <> width b -> bv_cmp a b = (width a ?= width b).
Proof. intros H. unfold bv_cmp. destruct (N.compare_spec (width a) (width b)); auto; lia. Qed.

Lemma cmp_one_word a b w x y : is_bv a w x -> is_bv b w y -> w <= 64 -> bv_cmp a b = (x ?= y).
Proof.
  intros Ha Hb H. apply is_bv_inv in Ha as (Wa & Hw & La & Fa & Va & Ba).
  apply is_bv_inv in Hb as (Wb & _ & Lb & Fb & Vb & Bb).
  unfold bv_cmp. rewrite Wa, Wb, N.compare_refl.
  destruct (N.eq_dec w 0) as [->|Hn].
  - apply len_0 in La. apply len_0 in Lb. rewrite La in *. rewrite Lb in *. cbn in Va, Vb.
    subst. reflexivity.
  - assert (L1 : (w + 63) / 64 = 1) by dlia. rewrite L1 in *.
    destruct (len_0_1 _ La) as (p & Ep). destruct (len_0_1 _ Lb) as (q & Eq).
    rewrite Ep in *. rewrite Eq in *. rewrite wv_cons in Va, Vb. cbn [words_val] in Va, Vb.
    rewrite N.mul_0_r, N.add_0_r in Va, Vb. subst. cbn [words_cmp]. destruct (x ?= y); auto.
Qed.

Lemma words_cmp_at k : forall a b, len a = len b -> firstn k a = firstn k b ->
  nth k a 0 <> nth k b 0 -> words_cmp a b = (nth k a 0 ?= nth k b 0).
Proof.
  induction k as [|k IH]; intros [|p a] [|q b] Hl Hf Hn; rewrite ?len_cons in Hl; nils; try lia;
    try (exfalso; apply Hn; reflexivity).
  - cbn [nth words_cmp] in *. destruct (N.compare_spec p q); auto. congruence.
  - cbn [nth words_cmp firstn] in *. injection Hf as -> Hf. rewrite N.compare_refl.
    apply IH; auto. lia.
Qed.

Lemma words_differ : forall a b, len a = len b -> a <> b ->
  exists k, firstn k a = firstn k b /\ nth k a 0 <> nth k b 0.
Proof.
  induction a as [|p a IH]; intros [|q b] Hl Hn; rewrite ?len_cons in Hl; nils; try lia; try congruence.
  destruct (N.eq_dec p q) as [->|Hd].
  - destruct (IH b) as (k & Hf & Hk); [lia | congruence |].
    exists (S k). cbn [firstn nth]. rewrite Hf. auto.
  - exists 0%nat. auto.
Qed.

Lemma cmp_digits a b w x y k : is_bv a w x -> is_bv b w y ->
  x mod 2 ^ (64 * k) = y mod 2 ^ (64 * k) ->
  (x / 2 ^ (64 * k)) mod 2 ^ 64 <> (y / 2 ^ (64 * k)) mod 2 ^ 64 ->
  bv_cmp a b = ((x / 2 ^ (64 * k)) mod 2 ^ 64 ?= (y / 2 ^ (64 * k)) mod 2 ^ 64).
Proof.
  intros Ha Hb. apply is_bv_inv in Ha as (Wa & Hw & La & Fa & Va & Ba).
  apply is_bv_inv in Hb as (Wb & _ & Lb & Fb & Vb & Bb).
  unfold bv_cmp. rewrite Wa, Wb, N.compare_refl. rewrite <- Va, <- Vb.
  rewrite <- (N2Nat.id k). rewrite <- !wv_nth, <- !wv_firstn by auto. intros Hf Hn.
  apply words_cmp_at; auto; try congruence.
  apply wv_inj; auto using Words_firstn. unfold len in *. rewrite !firstn_length. lia.
Qed.

Lemma cmp_decided a b w x y : is_bv a w x -> is_bv b w y -> x <> y ->
  exists k, x mod 2 ^ (64 * k) = y mod 2 ^ (64 * k)
  /\ (x / 2 ^ (64 * k)) mod 2 ^ 64 <> (y / 2 ^ (64 * k)) mod 2 ^ 64.
Proof.
  intros Ha Hb Hn. apply is_bv_inv in Ha as (Wa & Hw & La & Fa & Va & Ba).
  apply is_bv_inv in Hb as (Wb & _ & Lb & Fb & Vb & Bb).
  destruct (words_differ (words a) (words b)) as (k & Hf & Hk); [congruence | congruence |].
  exists (N.of_nat k). rewrite <- Va, <- Vb. rewrite <- !wv_nth, <- !wv_firstn by auto.
  split; auto. rewrite Hf. reflexivity.
Qed.

Lemma cmp_not_by_value : exists a b w x y, is_bv a w x /\ is_bv b w y /\ y < x /\ bv_cmp a b = Lt.
Proof.
  exists (bv_of 65 (2 ^ 64)), (bv_of 65 1), 65, (2 ^ 64), 1.
  do 2 (split; [apply bv_of_is_bv; reflexivity|]). split; reflexivity.
Qed.
