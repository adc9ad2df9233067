(** * PProfile: a call that returns in a debug build returns the same in a
    release build. *)

From Verif Require Import Base Arith Strings Bytes BigInt Bv Map Indexed Array Spec ProfileSpec.

(** [le a b]: whatever [a] returns, [b] returns too. *)
Definition le {A} (a b : res A) : Prop := forall x, a = Ok x -> b = Ok x.

Lemma le_refl A (a : res A) : le a a.
Proof. intros x H. exact H. Qed.
Lemma le_panic A p (b : res A) : le (Panic p) b.
Proof. intros x H. discriminate. Qed.
Lemma le_bind A B (a a' : res A) (k k' : A -> res B) :
  le a a' -> (forall x, le (k x) (k' x)) -> le (bind a k) (bind a' k').
Proof.
  intros H K x. destruct a as [y|p]; cbn; [|discriminate]. intros E.
  rewrite (H y eq_refl). cbn. now apply K.
Qed.
Lemma le_debug_assert b : le (debug_assert Debug b) (debug_assert Release b).
Proof. destruct b; [apply le_refl|apply le_panic]. Qed.
Lemma le_u32_add a b : le (u32_add Debug a b) (u32_add Release a b).
Proof. unfold u32_add. destruct (a + b <? B32); [apply le_refl|apply le_panic]. Qed.
Lemma le_u32_sub a b : le (u32_sub Debug a b) (u32_sub Release a b).
Proof. unfold u32_sub. destruct (b <=? a); [apply le_refl|apply le_panic]. Qed.
Lemma le_u32_mul a b : le (u32_mul Debug a b) (u32_mul Release a b).
Proof. unfold u32_mul. destruct (a * b <? B32); [apply le_refl|apply le_panic]. Qed.
Lemma le_usz_sub a b : le (usz_sub Debug a b) (usz_sub Release a b).
Proof. unfold usz_sub. destruct (b <=? a); [apply le_refl|apply le_panic]. Qed.
Lemma le_usz_mul a b : le (usz_mul Debug a b) (usz_mul Release a b).
Proof. unfold usz_mul. destruct (a * b <? B64); [apply le_refl|apply le_panic]. Qed.
Lemma le_u64_shl1 k : le (u64_shl1 Debug k) (u64_shl1 Release k).
Proof. unfold u64_shl1. destruct (k <? 64); [apply le_refl|apply le_panic]. Qed.
Lemma le_foldM A B (f g : A -> B -> res A) l : (forall a x, le (f a x) (g a x)) ->
  forall a, le (foldM f l a) (foldM g l a).
Proof.
  intros H. induction l as [|x l IH]; intros a; cbn [foldM]; [apply le_refl|].
  apply le_bind; [apply H|]. intros y. apply IH.
Qed.
Lemma le_mapM A B (f g : A -> res B) l : (forall x, le (f x) (g x)) ->
  le (mapM f l) (mapM g l).
Proof.
  intros H. induction l as [|x l IH]; cbn [mapM]; [apply le_refl|].
  apply le_bind; [apply H|]. intros y. apply le_bind; [exact IH|]. intros ?. apply le_refl.
Qed.

Create HintDb prof.
#[export] Hint Resolve le_refl le_panic le_debug_assert le_u32_add le_u32_sub le_u32_mul
  le_usz_sub le_usz_mul le_u64_shl1 : prof.

(** one step: a known operation, a sequence, or a case split shared by both *)
Ltac le_step :=
  match goal with
  | |- le ?a ?a => apply le_refl
  | |- le (Panic _) _ => apply le_panic
  | |- le (bind _ _) (bind _ _) => apply le_bind; [|intros ?]
  | |- le (foldM _ ?l ?a) (foldM _ ?l ?a) => apply le_foldM; intros ? ?
  | |- le (mapM _ ?l) (mapM _ ?l) => apply le_mapM; intros ?
  | |- le _ _ => solve [auto 2 with prof nocore]
  | |- le (match ?x with _ => _ end) (match ?x with _ => _ end) => destruct x
  | |- le (if ?x then _ else _) (if ?x then _ else _) => destruct x
  end.
Ltac le_solve := cbv beta zeta; repeat (le_step; cbv beta zeta).

Lemma le_mask_msb d w : le (ar_mask_msb Debug d w) (ar_mask_msb Release d w).
Proof. unfold ar_mask_msb. le_solve. Qed.
Lemma le_is_neg s w : le (ar_is_neg Debug s w) (ar_is_neg Release s w).
Proof. unfold ar_is_neg. le_solve. Qed.
#[export] Hint Resolve le_mask_msb le_is_neg : prof.
Lemma le_sign_extend d s a b : le (ar_sign_extend Debug d s a b) (ar_sign_extend Release d s a b).
Proof. unfold ar_sign_extend. le_solve. Qed.
Lemma le_slice d s a b : le (ar_slice Debug d s a b) (ar_slice Release d s a b).
Proof. unfold ar_slice. le_solve. Qed.
Lemma le_concat d a b w : le (ar_concat Debug d a b w) (ar_concat Release d a b w).
Proof. unfold ar_concat. le_solve. Qed.
Lemma le_not d a w : le (ar_not Debug d a w) (ar_not Release d a w).
Proof. unfold ar_not. le_solve. Qed.
Lemma le_add d a b w : le (ar_add Debug d a b w) (ar_add Release d a b w).
Proof. unfold ar_add. le_solve. Qed.
Lemma le_sub d a b w : le (ar_sub Debug d a b w) (ar_sub Release d a b w).
Proof. unfold ar_sub. le_solve. Qed.
Lemma le_mul d a b w : le (ar_mul Debug d a b w) (ar_mul Release d a b w).
Proof. unfold ar_mul. le_solve. Qed.
#[export] Hint Resolve le_sign_extend le_slice le_concat le_not le_add le_sub le_mul : prof.
Lemma le_shift_right d a b w : le (ar_shift_right Debug d a b w) (ar_shift_right Release d a b w).
Proof. unfold ar_shift_right. le_solve. Qed.
#[export] Hint Resolve le_shift_right : prof.
Lemma le_arithmetic_shift_right d a b w :
  le (ar_arithmetic_shift_right Debug d a b w) (ar_arithmetic_shift_right Release d a b w).
Proof. unfold ar_arithmetic_shift_right. le_solve. Qed.
Lemma le_shift_left d a b w : le (ar_shift_left Debug d a b w) (ar_shift_left Release d a b w).
Proof. unfold ar_shift_left. le_solve. Qed.
Lemma le_negate_in_place d w : le (ar_negate_in_place Debug d w) (ar_negate_in_place Release d w).
Proof. unfold ar_negate_in_place. le_solve. Qed.
#[export] Hint Resolve le_arithmetic_shift_right le_shift_left le_negate_in_place : prof.
Lemma le_negate d b w : le (ar_negate Debug d b w) (ar_negate Release d b w).
Proof. unfold ar_negate. le_solve. Qed.
Lemma le_cmp_greater_signed a b w :
  le (ar_cmp_greater_signed Debug a b w) (ar_cmp_greater_signed Release a b w).
Proof. unfold ar_cmp_greater_signed. le_solve. Qed.
Lemma le_cmp_greater_equal_signed a b w :
  le (ar_cmp_greater_equal_signed Debug a b w) (ar_cmp_greater_equal_signed Release a b w).
Proof. unfold ar_cmp_greater_equal_signed. le_solve. Qed.
#[export] Hint Resolve le_negate le_cmp_greater_signed le_cmp_greater_equal_signed : prof.

(** ** Text *)
Lemma le_to_bit_str_signed v w : le (to_bit_str_signed Debug v w) (to_bit_str_signed Release v w).
Proof. unfold to_bit_str_signed. le_solve. Qed.
Lemma le_to_hex_str_internal v w o :
  le (to_hex_str_internal Debug v w o) (to_hex_str_internal Release v w o).
Proof. unfold to_hex_str_internal. le_solve. Qed.
#[export] Hint Resolve le_to_bit_str_signed le_to_hex_str_internal : prof.
Lemma le_to_hex_str v w : le (to_hex_str Debug v w) (to_hex_str Release v w).
Proof. unfold to_hex_str. le_solve. Qed.
Lemma le_select_words v w :
  le (select_words_for_width Debug v w) (select_words_for_width Release v w).
Proof. unfold select_words_for_width. le_solve. Qed.
#[export] Hint Resolve le_to_hex_str le_select_words : prof.
Lemma le_to_hex_str_signed v w : le (to_hex_str_signed Debug v w) (to_hex_str_signed Release v w).
Proof. unfold to_hex_str_signed. le_solve. Qed.
Lemma le_words_to_u128 v : le (words_to_u128 Debug v) (words_to_u128 Release v).
Proof. unfold words_to_u128. le_solve. Qed.
#[export] Hint Resolve le_to_hex_str_signed le_words_to_u128 : prof.
Lemma le_to_dec_str v w : le (to_dec_str Debug v w) (to_dec_str Release v w).
Proof. unfold to_dec_str, to_dec_str_internal. le_solve. Qed.
Lemma le_determine_width v r :
  le (determine_width_from_str_radix Debug v r) (determine_width_from_str_radix Release v r).
Proof. unfold determine_width_from_str_radix. le_solve. Qed.
#[export] Hint Resolve le_to_dec_str le_determine_width : prof.
Lemma le_parse_base_2_loop w ds : forall ii o oi word,
  le (parse_base_2_loop Debug w ds ii o oi word) (parse_base_2_loop Release w ds ii o oi word).
Proof.
  induction ds as [|c ds IH]; intros; cbn [parse_base_2_loop]; le_solve.
Qed.
Lemma le_parse_base_16_loop n ds : forall ii o oi word,
  le (parse_base_16_loop Debug n ds ii o oi word) (parse_base_16_loop Release n ds ii o oi word).
Proof.
  induction ds as [|c ds IH]; intros; cbn [parse_base_16_loop]; le_solve.
Qed.
#[export] Hint Resolve le_parse_base_2_loop le_parse_base_16_loop : prof.
Lemma le_parse_magnitude v r o w :
  le (parse_magnitude Debug v r o w) (parse_magnitude Release v r o w).
Proof. unfold parse_magnitude, parse_base_2, parse_base_16. le_solve. Qed.
#[export] Hint Resolve le_parse_magnitude : prof.
Lemma le_from_str_radix v r o w :
  le (from_str_radix Debug v r o w) (from_str_radix Release v r o w).
Proof. unfold from_str_radix. le_solve. Qed.
#[export] Hint Resolve le_from_str_radix : prof.

(** ** Bytes and big integers *)
Lemma le_from_bytes_le b w o : le (from_bytes_le Debug b w o) (from_bytes_le Release b w o).
Proof. unfold from_bytes_le. le_solve. Qed.
Lemma le_to_big_int v w : le (to_big_int Debug v w) (to_big_int Release v w).
Proof. unfold to_big_int, get_sign. le_solve. Qed.
Lemma le_iter_to_word i w o : le (iter_to_word Debug i w o) (iter_to_word Release i w o).
Proof. unfold iter_to_word. le_solve. Qed.
#[export] Hint Resolve le_from_bytes_le le_to_big_int le_iter_to_word : prof.
Lemma le_from_big_uint v w o : le (from_big_uint Debug v w o) (from_big_uint Release v w o).
Proof. unfold from_big_uint. le_solve. Qed.
Lemma le_from_big_int v w o : le (from_big_int Debug v w o) (from_big_int Release v w o).
Proof. unfold from_big_int. le_solve. Qed.
Lemma le_count_big_uint_bits v : le (count_big_uint_bits Debug v) (count_big_uint_bits Release v).
Proof. unfold count_big_uint_bits. le_solve. Qed.
Lemma le_count_big_int_bits v : le (count_big_int_bits Debug v) (count_big_int_bits Release v).
Proof. unfold count_big_int_bits. le_solve. Qed.
#[export] Hint Resolve le_from_big_uint le_from_big_int le_count_big_uint_bits
  le_count_big_int_bits : prof.

(** ** Bit-vectors *)
Lemma le_arith_bin_fn f a b :
  (forall d x y w, le (f Debug d x y w) (f Release d x y w)) ->
  le (arith_bin_fn f Debug a b) (arith_bin_fn f Release a b).
Proof. intros H. unfold arith_bin_fn. le_solve; apply H. Qed.
Lemma le_bit_arith_bin_fn f a b : le (bit_arith_bin_fn f Debug a b) (bit_arith_bin_fn f Release a b).
Proof. unfold bit_arith_bin_fn. le_solve. Qed.
#[export] Hint Resolve le_bit_arith_bin_fn : prof.

Lemma le_bv_add a b : le (bv_add Debug a b) (bv_add Release a b).
Proof. apply le_arith_bin_fn. intros. le_solve. Qed.
Lemma le_bv_sub a b : le (bv_sub Debug a b) (bv_sub Release a b).
Proof. apply le_arith_bin_fn. intros. le_solve. Qed.
Lemma le_bv_mul a b : le (bv_mul Debug a b) (bv_mul Release a b).
Proof. apply le_arith_bin_fn. intros. le_solve. Qed.
Lemma le_bv_shift_left a b : le (bv_shift_left Debug a b) (bv_shift_left Release a b).
Proof. apply le_arith_bin_fn. intros. le_solve. Qed.
Lemma le_bv_shift_right a b : le (bv_shift_right Debug a b) (bv_shift_right Release a b).
Proof. apply le_arith_bin_fn. intros. le_solve. Qed.
Lemma le_bv_arithmetic_shift_right a b :
  le (bv_arithmetic_shift_right Debug a b) (bv_arithmetic_shift_right Release a b).
Proof. apply le_arith_bin_fn. intros. le_solve. Qed.
Lemma le_bv_is_equal a b : le (bv_is_equal Debug a b) (bv_is_equal Release a b).
Proof. unfold bv_is_equal. le_solve. Qed.
Lemma le_bv_is_greater a b : le (bv_is_greater Debug a b) (bv_is_greater Release a b).
Proof. unfold bv_is_greater. le_solve. Qed.
Lemma le_bv_is_greater_or_equal a b :
  le (bv_is_greater_or_equal Debug a b) (bv_is_greater_or_equal Release a b).
Proof. unfold bv_is_greater_or_equal. le_solve. Qed.
Lemma le_bv_is_greater_signed a b :
  le (bv_is_greater_signed Debug a b) (bv_is_greater_signed Release a b).
Proof. unfold bv_is_greater_signed. le_solve. Qed.
Lemma le_bv_is_greater_or_equal_signed a b :
  le (bv_is_greater_or_equal_signed Debug a b) (bv_is_greater_or_equal_signed Release a b).
Proof. unfold bv_is_greater_or_equal_signed. le_solve. Qed.
#[export] Hint Resolve le_bv_add le_bv_sub le_bv_mul le_bv_shift_left le_bv_shift_right
  le_bv_arithmetic_shift_right le_bv_is_equal le_bv_is_greater le_bv_is_greater_or_equal
  le_bv_is_greater_signed le_bv_is_greater_or_equal_signed : prof.
Lemma le_bv_slice a x y : le (bv_slice Debug a x y) (bv_slice Release a x y).
Proof. unfold bv_slice. le_solve. Qed.
Lemma le_bv_sign_extend a x : le (bv_sign_extend Debug a x) (bv_sign_extend Release a x).
Proof. unfold bv_sign_extend. le_solve. Qed.
Lemma le_bv_zero_extend a x : le (bv_zero_extend Debug a x) (bv_zero_extend Release a x).
Proof. unfold bv_zero_extend. le_solve. Qed.
Lemma le_bv_not a : le (bv_not Debug a) (bv_not Release a).
Proof. unfold bv_not. le_solve. Qed.
Lemma le_bv_negate a : le (bv_negate Debug a) (bv_negate Release a).
Proof. unfold bv_negate. le_solve. Qed.
Lemma le_bv_concat a b : le (bv_concat Debug a b) (bv_concat Release a b).
Proof. unfold bv_concat. le_solve. Qed.
Lemma le_bv_is_negative a : le (bv_is_negative Debug a) (bv_is_negative Release a).
Proof. unfold bv_is_negative. le_solve. Qed.
Lemma le_bv_to_i64 a : le (bv_to_i64 Debug a) (bv_to_i64 Release a).
Proof. unfold bv_to_i64. le_solve. Qed.
#[export] Hint Resolve le_bv_slice le_bv_sign_extend le_bv_zero_extend le_bv_not le_bv_negate
  le_bv_concat le_bv_is_negative le_bv_to_i64 : prof.
Lemma le_bv_unsigned_fixed a f :
  le (bv_to_unsigned_fixed_point Debug a f) (bv_to_unsigned_fixed_point Release a f).
Proof. unfold bv_to_unsigned_fixed_point. le_solve. Qed.
#[export] Hint Resolve le_bv_unsigned_fixed : prof.
Lemma le_bv_signed_fixed a f :
  le (bv_to_signed_fixed_point Debug a f) (bv_to_signed_fixed_point Release a f).
Proof. unfold bv_to_signed_fixed_point. le_solve. Qed.
Lemma le_bv_assign a b : le (bv_assign Debug a b) (bv_assign Release a b).
Proof. unfold bv_assign. le_solve. Qed.
Lemma le_bv_mask_msb a : le (bv_mask_msb Debug a) (bv_mask_msb Release a).
Proof. unfold bv_mask_msb. le_solve. Qed.
#[export] Hint Resolve le_bv_signed_fixed le_bv_assign le_bv_mask_msb : prof.
Lemma le_bv_assign_ones a : le (bv_assign_ones Debug a) (bv_assign_ones Release a).
Proof. unfold bv_assign_ones. le_solve. Qed.
Lemma le_bv_assign_from_u64 a v : le (bv_assign_from_u64 Debug a v) (bv_assign_from_u64 Release a v).
Proof.
  unfold bv_assign_from_u64. le_step; [apply le_refl|]. le_step; [auto with prof|].
  cbn [debug_assert bind]. intros y. destruct (idx (words _) 0); [|discriminate].
  cbn [bind]. destruct (_ =? _); [auto|discriminate].
Qed.
Lemma le_bv_assign_from_i64 a v : le (bv_assign_from_i64 Debug a v) (bv_assign_from_i64 Release a v).
Proof.
  unfold bv_assign_from_i64. cbv zeta. le_step; [le_solve|]. intros y.
  repeat match goal with
  | |- bind ?r _ = Ok _ -> _ => destruct r; cbn [bind]; [|discriminate]
  end. auto.
Qed.
#[export] Hint Resolve le_bv_assign_ones le_bv_assign_from_u64 le_bv_assign_from_i64 : prof.
Lemma le_bv_assign_from_str_radix a s r :
  le (bv_assign_from_str_radix Debug a s r) (bv_assign_from_str_radix Release a s r).
Proof. unfold bv_assign_from_str_radix. le_solve. Qed.
Lemma le_bv_ones w : le (bv_ones Debug w) (bv_ones Release w).
Proof. unfold bv_ones. le_solve. Qed.
Lemma le_bv_from_u64 v w : le (bv_from_u64 Debug v w) (bv_from_u64 Release v w).
Proof. unfold bv_from_u64. le_solve. Qed.
Lemma le_bv_from_i64 v w : le (bv_from_i64 Debug v w) (bv_from_i64 Release v w).
Proof. unfold bv_from_i64. le_solve. Qed.
#[export] Hint Resolve le_bv_assign_from_str_radix le_bv_ones le_bv_from_u64 le_bv_from_i64 : prof.
Lemma le_bv_from_bool b : le (bv_from_bool Debug b) (bv_from_bool Release b).
Proof. unfold bv_from_bool, bv_tru, bv_fals. le_solve. Qed.
Lemma le_bv_from_str_radix s r w :
  le (bv_from_str_radix Debug s r w) (bv_from_str_radix Release s r w).
Proof. unfold bv_from_str_radix. le_solve. Qed.
#[export] Hint Resolve le_bv_from_bool le_bv_from_str_radix : prof.
Lemma le_bv_from_bit_str s : le (bv_from_bit_str Debug s) (bv_from_bit_str Release s).
Proof. unfold bv_from_bit_str. le_solve. Qed.
Lemma le_bv_from_hex_str s : le (bv_from_hex_str Debug s) (bv_from_hex_str Release s).
Proof. unfold bv_from_hex_str. le_solve. Qed.
Lemma le_bv_from_bytes_le s w : le (bv_from_bytes_le Debug s w) (bv_from_bytes_le Release s w).
Proof. unfold bv_from_bytes_le. le_solve. Qed.
Lemma le_bv_from_big_int s w : le (bv_from_big_int Debug s w) (bv_from_big_int Release s w).
Proof. unfold bv_from_big_int. le_solve. Qed.
Lemma le_bv_from_big_uint s w : le (bv_from_big_uint Debug s w) (bv_from_big_uint Release s w).
Proof. unfold bv_from_big_uint. le_solve. Qed.
#[export] Hint Resolve le_bv_from_bit_str le_bv_from_hex_str le_bv_from_bytes_le
  le_bv_from_big_int le_bv_from_big_uint : prof.
Lemma le_bv_of_big_int s : le (bv_of_big_int Debug s) (bv_of_big_int Release s).
Proof. unfold bv_of_big_int. le_solve. Qed.
Lemma le_bv_of_big_uint s : le (bv_of_big_uint Debug s) (bv_of_big_uint Release s).
Proof. unfold bv_of_big_uint. le_solve. Qed.
Lemma le_bv_eq a b : le (bv_eq Debug a b) (bv_eq Release a b).
Proof. unfold bv_eq. le_solve. Qed.
Lemma le_bvref_eq a b : le (bvref_eq Debug a b) (bvref_eq Release a b).
Proof. unfold bvref_eq. le_solve. Qed.
#[export] Hint Resolve le_bv_of_big_int le_bv_of_big_uint le_bv_eq le_bvref_eq : prof.

(** ** Word stores *)
Lemma le_borrow_src a b c s : le (borrow_src Debug a b c s) (borrow_src Release a b c s).
Proof. unfold borrow_src, move_range. le_solve. Qed.
#[export] Hint Resolve le_borrow_src : prof.
Lemma le_get_mut_ref_2 l a b : le (get_mut_ref_2 Debug l a b) (get_mut_ref_2 Release l a b).
Proof. unfold get_mut_ref_2, split_borrow_1. le_solve. Qed.
Lemma le_get_mut_ref_3 l a b c : le (get_mut_ref_3 Debug l a b c) (get_mut_ref_3 Release l a b c).
Proof. unfold get_mut_ref_3, split_borrow_2. le_solve. Qed.
Lemma le_interner st v : le (interner_get_index Debug st v) (interner_get_index Release st v).
Proof. unfold interner_get_index. le_solve. Qed.
#[export] Hint Resolve le_get_mut_ref_2 le_get_mut_ref_3 le_interner : prof.

(** ** Arrays *)
Lemma le_approx i d : le (approx_dense_storage_size Debug i d) (approx_dense_storage_size Release i d).
Proof. unfold approx_dense_storage_size. le_solve. Qed.
#[export] Hint Resolve le_approx : prof.
Lemma le_dense_new i v : le (dense_new Debug i v) (dense_new Release i v).
Proof.
  unfold dense_new. le_solve.
  intros y. destruct (bv_is_fals v) as [[|]|]; cbn; try discriminate. destruct y. auto.
Qed.
Lemma le_dense_is_equal a b : le (dense_is_equal Debug a b) (dense_is_equal Release a b).
Proof. unfold dense_is_equal. le_solve. Qed.
Lemma le_dense_select_usize a i : le (dense_select_usize Debug a i) (dense_select_usize Release a i).
Proof. unfold dense_select_usize. le_solve. Qed.
#[export] Hint Resolve le_dense_new le_dense_is_equal le_dense_select_usize : prof.
Lemma le_dense_select a i : le (dense_select Debug a i) (dense_select Release a i).
Proof. unfold dense_select. le_solve. Qed.
Lemma le_dense_store a i v : le (dense_store Debug a i v) (dense_store Release a i v).
Proof. unfold dense_store. le_solve. Qed.
Lemma le_dense_from_bools l : le (dense_from_bools Debug l) (dense_from_bools Release l).
Proof. unfold dense_from_bools, num_elements_from_index_width. le_solve. Qed.
Lemma le_dense_from_u8s l : le (dense_from_u8s Debug l) (dense_from_u8s Release l).
Proof. unfold dense_from_u8s, num_elements_from_index_width. le_solve. Qed.
Lemma le_dense_from_u64s l : le (dense_from_u64s Debug l) (dense_from_u64s Release l).
Proof. unfold dense_from_u64s, num_elements_from_index_width. le_solve. Qed.
Lemma le_sparse_new i v : le (sparse_new Debug i v) (sparse_new Release i v).
Proof. unfold sparse_new. le_solve. Qed.
Lemma le_sparse_is_equal a b : le (sparse_is_equal Debug a b) (sparse_is_equal Release a b).
Proof. unfold sparse_is_equal. le_solve. Qed.
Lemma le_sparse_default a : le (sparse_default Debug a) (sparse_default Release a).
Proof. unfold sparse_default. le_solve. Qed.
Lemma le_sparse_store_u64_big a i v :
  le (sparse_store_u64_big Debug a i v) (sparse_store_u64_big Release a i v).
Proof. unfold sparse_store_u64_big. le_solve. Qed.
Lemma le_sparse_select p a i : le (sparse_select p Debug a i) (sparse_select p Release a i).
Proof. unfold sparse_select. le_solve. Qed.
Lemma le_sparse_store p a i v : le (sparse_store p Debug a i v) (sparse_store p Release a i v).
Proof. unfold sparse_store. le_solve. Qed.
Lemma le_sparse_entries ho a : le (sparse_entries ho Debug a) (sparse_entries ho Release a).
Proof. unfold sparse_entries. le_solve. Qed.
#[export] Hint Resolve le_dense_select le_dense_store le_dense_from_bools le_dense_from_u8s
  le_dense_from_u64s le_sparse_new le_sparse_is_equal le_sparse_default le_sparse_store_u64_big
  le_sparse_select le_sparse_store le_sparse_entries : prof.
Lemma le_densify_step_u64 d kv : le (densify_step_u64 d kv Debug) (densify_step_u64 d kv Release).
Proof. unfold densify_step_u64. le_solve. Qed.
Lemma le_densify_step_big st kv : le (densify_step_big Debug st kv) (densify_step_big Release st kv).
Proof. unfold densify_step_big. le_solve. Qed.
#[export] Hint Resolve le_densify_step_u64 le_densify_step_big : prof.
Lemma le_dense_of_sparse ho s : le (dense_of_sparse ho Debug s) (dense_of_sparse ho Release s).
Proof. unfold dense_of_sparse. le_solve. Qed.
Lemma le_count_big a l : forall c, le (count_big Debug a l c) (count_big Release a l c).
Proof. induction l as [|x l IH]; intros; cbn [count_big]; le_solve. Qed.
#[export] Hint Resolve le_dense_of_sparse le_count_big : prof.
Lemma le_sparse_of_dense ho d : le (sparse_of_dense ho Debug d) (sparse_of_dense ho Release d).
Proof. unfold sparse_of_dense, num_elements. le_solve. Qed.
#[export] Hint Resolve le_sparse_of_dense : prof.
Lemma le_array_is_equal ho a b : le (array_is_equal ho Debug a b) (array_is_equal ho Release a b).
Proof. unfold array_is_equal, is_equal_mixed. le_solve. Qed.
#[export] Hint Resolve le_array_is_equal : prof.

(** ** The API, grouped *)

Lemma profile_arith a b :
  (same_in_release (fun m => bv_add m a b) /\ same_in_release (fun m => bv_sub m a b)
   /\ same_in_release (fun m => bv_mul m a b) /\ same_in_release (fun m => bv_negate m a))
  /\ (same_in_release (fun m => bv_and m a b) /\ same_in_release (fun m => bv_or m a b)
      /\ same_in_release (fun m => bv_xor m a b) /\ same_in_release (fun m => bv_not m a))
  /\ (same_in_release (fun m => bv_shift_left m a b)
      /\ same_in_release (fun m => bv_shift_right m a b)
      /\ same_in_release (fun m => bv_arithmetic_shift_right m a b))
  /\ (forall msb lsb, same_in_release (fun m => bv_slice m a msb lsb))
  /\ same_in_release (fun m => bv_concat m a b)
  /\ (forall k, same_in_release (fun m => bv_zero_extend m a k)
        /\ same_in_release (fun m => bv_sign_extend m a k)).
Proof.
  repeat match goal with |- _ /\ _ => split | |- forall _ : N, _ => intros ? end;
    red; intros x; revert x; try (apply le_bit_arith_bin_fn);
    change (forall x, ?f Debug = Ok x -> ?f Release = Ok x) with (le (f Debug) (f Release));
    cbv beta; first [apply le_bv_add|apply le_bv_sub|apply le_bv_mul|apply le_bv_negate
      |apply le_bv_not|apply le_bv_shift_left|apply le_bv_shift_right
      |apply le_bv_arithmetic_shift_right|apply le_bv_slice|apply le_bv_concat
      |apply le_bv_zero_extend|apply le_bv_sign_extend].
Qed.

Lemma profile_tests a b :
  (same_in_release (fun m => bv_eq m a b) /\ same_in_release (fun m => bvref_eq m a b)
   /\ same_in_release (fun m => bv_is_equal m a b)
   /\ same_in_release (fun m => bv_is_not_equal m a b))
  /\ (same_in_release (fun m => bv_is_greater m a b) /\ same_in_release (fun m => bv_is_less m a b)
      /\ same_in_release (fun m => bv_is_greater_or_equal m a b)
      /\ same_in_release (fun m => bv_is_less_or_equal m a b))
  /\ (same_in_release (fun m => bv_is_greater_signed m a b)
      /\ same_in_release (fun m => bv_is_less_signed m a b)
      /\ same_in_release (fun m => bv_is_greater_or_equal_signed m a b)
      /\ same_in_release (fun m => bv_is_less_or_equal_signed m a b))
  /\ (same_in_release (fun m => bv_is_negative m a) /\ same_in_release (fun m => bv_to_i64 m a)).
Proof.
  repeat match goal with |- _ /\ _ => split end.
  - exact (le_bv_eq a b).
  - exact (le_bvref_eq a b).
  - exact (le_bv_is_equal a b).
  - enough (L : le (bv_is_not_equal Debug a b) (bv_is_not_equal Release a b)) by exact L.
    unfold bv_is_not_equal. le_solve.
  - exact (le_bv_is_greater a b).
  - exact (le_bv_is_greater b a).
  - exact (le_bv_is_greater_or_equal a b).
  - exact (le_bv_is_greater_or_equal b a).
  - exact (le_bv_is_greater_signed a b).
  - exact (le_bv_is_greater_signed b a).
  - exact (le_bv_is_greater_or_equal_signed a b).
  - exact (le_bv_is_greater_or_equal_signed b a).
  - exact (le_bv_is_negative a).
  - exact (le_bv_to_i64 a).
Qed.

Lemma profile_text a s r w :
  (same_in_release (fun m => bv_to_bit_str_signed m a)
   /\ same_in_release (fun m => bv_to_hex_str m a)
   /\ same_in_release (fun m => bv_to_hex_str_signed m a)
   /\ same_in_release (fun m => bv_to_dec_str m a))
  /\ (same_in_release (fun m => bv_from_bit_str m s) /\ same_in_release (fun m => bv_from_hex_str m s)
      /\ same_in_release (fun m => bv_from_str_radix m s r w)
      /\ same_in_release (fun m => bv_assign_from_str_radix m a s r)).
Proof.
  repeat match goal with |- _ /\ _ => split end.
  - exact (le_to_bit_str_signed _ _).
  - exact (le_to_hex_str _ _).
  - exact (le_to_hex_str_signed _ _).
  - exact (le_to_dec_str _ _).
  - exact (le_bv_from_bit_str s).
  - exact (le_bv_from_hex_str s).
  - exact (le_bv_from_str_radix s r w).
  - exact (le_bv_assign_from_str_radix a s r).
Qed.

Lemma profile_convert a f n (z : Z) bytes w :
  (same_in_release (fun m => bv_from_u64 m n w) /\ same_in_release (fun m => bv_from_i64 m z w)
   /\ (forall b, same_in_release (fun m => bv_from_bool m b))
   /\ same_in_release (fun m => bv_ones m w))
  /\ (same_in_release (fun m => bv_from_bytes_le m bytes w)
      /\ same_in_release (fun m => bv_from_big_int m z w)
      /\ same_in_release (fun m => bv_from_big_uint m n w)
      /\ same_in_release (fun m => bv_of_big_int m z)
      /\ same_in_release (fun m => bv_of_big_uint m n)
      /\ same_in_release (fun m => bv_to_big_int m a))
  /\ (same_in_release (fun m => bv_to_unsigned_fixed_point m a f)
      /\ same_in_release (fun m => bv_to_signed_fixed_point m a f)).
Proof.
  repeat match goal with |- _ /\ _ => split end.
  - exact (le_bv_from_u64 n w).
  - exact (le_bv_from_i64 z w).
  - exact le_bv_from_bool.
  - exact (le_bv_ones w).
  - exact (le_bv_from_bytes_le bytes w).
  - exact (le_bv_from_big_int z w).
  - exact (le_bv_from_big_uint n w).
  - exact (le_bv_of_big_int z).
  - exact (le_bv_of_big_uint n).
  - exact (le_to_big_int _ _).
  - exact (le_bv_unsigned_fixed a f).
  - exact (le_bv_signed_fixed a f).
Qed.

Lemma profile_in_place a b n (z : Z) store i j k st :
  (same_in_release (fun m => bv_assign m a b) /\ same_in_release (fun m => bv_mask_msb m a)
   /\ same_in_release (fun m => bv_assign_ones m a)
   /\ same_in_release (fun m => bv_assign_from_u64 m a n)
   /\ same_in_release (fun m => bv_assign_from_i64 m a z))
  /\ (same_in_release (fun m => get_mut_ref_2 m store i j)
      /\ same_in_release (fun m => get_mut_ref_3 m store i j k)
      /\ same_in_release (fun m => interner_get_index m st a)).
Proof.
  repeat match goal with |- _ /\ _ => split end.
  - exact (le_bv_assign a b).
  - exact (le_bv_mask_msb a).
  - exact (le_bv_assign_ones a).
  - exact (le_bv_assign_from_u64 a n).
  - exact (le_bv_assign_from_i64 a z).
  - exact (le_get_mut_ref_2 store i j).
  - exact (le_get_mut_ref_3 store i j k).
  - exact (le_interner st a).
Qed.

Lemma profile_arrays ho probe iw v x y i :
  (same_in_release (fun m => array_new_dense m iw v)
   /\ same_in_release (fun m => array_new_sparse m iw v)
   /\ (forall l, same_in_release (fun m => array_from_bools m l))
   /\ (forall l, same_in_release (fun m => array_from_u8s m l)
        /\ same_in_release (fun m => array_from_u64s m l)))
  /\ (same_in_release (fun m => array_select probe m x i)
      /\ same_in_release (fun m => array_store probe m x i v))
  /\ (same_in_release (fun m => array_make_dense ho m x)
      /\ same_in_release (fun m => sparse_of_array ho m x))
  /\ (same_in_release (fun m => array_is_equal ho m x y)
      /\ same_in_release (fun m => array_eq ho m x y)
      /\ (forall p q, same_in_release (fun m => value_eq ho m p q)))
  /\ (forall s, same_in_release (fun m => sparse_default m s)
        /\ same_in_release (fun m => sparse_entries ho m s)).
Proof.
  assert (E : forall x y, le (array_eq ho Debug x y) (array_eq ho Release x y)).
  { intros. unfold array_eq. le_solve. }
  repeat match goal with |- _ /\ _ => split | |- forall _, _ /\ _ => intros ? end;
    try exact (le_array_is_equal ho x y); try exact (E x y);
    try exact (le_sparse_default s); try exact (le_sparse_entries ho s).
  - enough (L : le (array_new_dense Debug iw v) (array_new_dense Release iw v)) by exact L.
    unfold array_new_dense. le_solve.
  - enough (L : le (array_new_sparse Debug iw v) (array_new_sparse Release iw v)) by exact L.
    unfold array_new_sparse. le_solve.
  - intros l. enough (L : le (array_from_bools Debug l) (array_from_bools Release l)) by exact L.
    unfold array_from_bools. le_solve.
  - enough (L : le (array_from_u8s Debug l) (array_from_u8s Release l)) by exact L.
    unfold array_from_u8s. le_solve.
  - enough (L : le (array_from_u64s Debug l) (array_from_u64s Release l)) by exact L.
    unfold array_from_u64s. le_solve.
  - enough (L : le (array_select probe Debug x i) (array_select probe Release x i)) by exact L.
    unfold array_select. le_solve.
  - enough (L : le (array_store probe Debug x i v) (array_store probe Release x i v)) by exact L.
    unfold array_store. le_solve.
  - enough (L : le (array_make_dense ho Debug x) (array_make_dense ho Release x)) by exact L.
    unfold array_make_dense. le_solve.
  - enough (L : le (sparse_of_array ho Debug x) (sparse_of_array ho Release x)) by exact L.
    unfold sparse_of_array. le_solve.
  - intros p q. enough (L : le (value_eq ho Debug p q) (value_eq ho Release p q)) by exact L.
    unfold value_eq. destruct p, q; le_solve.
Qed.

Lemma profile_sequence A B (f : mode -> res A) (g : A -> mode -> res B) :
  same_in_release f -> (forall x, same_in_release (g x)) ->
  same_in_release (fun m => let* x := f m in g x m).
Proof. intros F G. apply (le_bind A B); [exact F|]. intros x. exact (G x). Qed.
