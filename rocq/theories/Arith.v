(** * Arith: model of /repo/src/bv/arithmetic.rs

    A [&mut [Word]] destination becomes an explicit argument (its old contents)
    plus the returned new contents.  Slices are [list N] with the least
    significant word first, exactly as in the code.  [zip] loops stop at the
    shorter side and leave the remaining destination words untouched. *)

From Verif Require Import Base.

(** arithmetic.rs:14-22 [mask] *)
Definition ar_mask (bits : N) : res N :=
  if (bits =? 64) || (bits =? 0) then Ok WMAX
  else let* _ := assert (bits <? 64) in Ok (2 ^ bits - 1).

(** arithmetic.rs:24-29 [clear] *)
Definition ar_clear (dst : list N) : list N := map (fun _ => 0) dst.

(** arithmetic.rs:31-36 [set] *)
Definition ar_set (dst : list N) : list N := map (fun _ => WMAX) dst.

(** arithmetic.rs:38-43 [assign] *)
Fixpoint ar_assign (dst source : list N) : list N :=
  match dst, source with
  | _ :: d', s :: s' => s :: ar_assign d' s'
  | _, _ => dst
  end.

(** arithmetic.rs:78-83 [mask_msb] *)
Definition ar_mask_msb (m : mode) (dst : list N) (width : N) : res (list N) :=
  let* _ := debug_assert m (div_ceil width 64 =? len dst) in
  let* k := ar_mask (width mod 64) in
  map_last (fun w => N.land w k) dst.

(** [f(&mut dst[n..])]: the tail of [dst] from [n] on is replaced by [f] of it;
    panics when [n] is beyond the end.  Used by arithmetic.rs:50, 70, 74. *)
Definition on_tail (dst : list N) (n : N) (f : list N -> list N) : res (list N) :=
  let* t := range dst n (len dst) in
  Ok (firstn (N.to_nat n) dst ++ f t).

(** arithmetic.rs:45-51 [zero_extend] *)
Definition ar_zero_extend (dst source : list N) : res (list N) :=
  let dst := ar_assign dst source in
  on_tail dst (len source) ar_clear.

(** arithmetic.rs:366-372 [is_neg] *)
Definition ar_is_neg (m : mode) (src : list N) (width : N) : res bool :=
  let* w1 := u32_sub m width 1 in
  let msb_bit_id := w1 mod 64 in
  let* msb_word := unwrap (last_opt src) in
  Ok (N.land (wshr msb_word msb_bit_id) 1 =? 1).

(** arithmetic.rs:53-76 [sign_extend].  [dst[source.len() - 1]] with an empty
    source would underflow; [is_neg] has already panicked on an empty source,
    so a plain predecessor is used. *)
Definition ar_sign_extend (m : mode) (dst source : list N) (src_width dst_width : N)
  : res (list N) :=
  let dst := ar_assign dst source in
  let* neg := ar_is_neg m source src_width in
  if neg then
    let lsbs_in_msb := src_width mod 64 in
    let* dst :=
      (if 0 <? lsbs_in_msb then
         let msbs_in_msb := 64 - lsbs_in_msb in
         let* k := ar_mask msbs_in_msb in
         let* old := idx dst (len source - 1) in
         set_idx dst (len source - 1) (N.lor old (wshl k lsbs_in_msb))
       else Ok dst) in
    let* dst := on_tail dst (len source) ar_set in
    ar_mask_msb m dst dst_width
  else on_tail dst (len source) ar_clear.

(** arithmetic.rs:85-90 [is_bit_set] *)
Definition ar_is_bit_set (source : list N) (pos : N) : res bool :=
  let bit_idx := pos mod 64 in
  let word_idx := pos / 64 in
  let* w := idx source word_idx in
  Ok (N.land (wshr w bit_idx) 1 =? 1).

(** arithmetic.rs:92-97 [set_bit] *)
Definition ar_set_bit (dst : list N) (pos : N) : res (list N) :=
  let bit_idx := pos mod 64 in
  let word_idx := pos / 64 in
  let* w := idx dst word_idx in
  set_idx dst word_idx (N.lor w (wshl 1 bit_idx)).

(** arithmetic.rs:99-104 [clear_bit] *)
Definition ar_clear_bit (dst : list N) (pos : N) : res (list N) :=
  let bit_idx := pos mod 64 in
  let word_idx := pos / 64 in
  let* w := idx dst word_idx in
  set_idx dst word_idx (N.land w (wnot (wshl 1 bit_idx))).

(** arithmetic.rs:120-126, loop of [slice]:
    [for (d, s) in dst.zip(srcs) { d = prev | (s & k) << shift_left;
     prev = s >> shift_right; }] *)
Fixpoint ar_slice_loop (shl shr k prev : N) (dst srcs : list N) : list N :=
  match dst, srcs with
  | _ :: d', s :: s' =>
      N.lor prev (wshl (N.land s k) shl)
        :: ar_slice_loop shl shr k (wshr s shr) d' s'
  | _, _ => dst
  end.

(** arithmetic.rs:106-130 [slice] *)
Definition ar_slice (m : mode) (dst source : list N) (hi lo : N) : res (list N) :=
  let lo_offset := lo mod 64 in
  let hi_word := hi / 64 in
  let lo_word := lo / 64 in
  let* src := range source lo_word (hi_word + 1) in
  let shr := lo_offset in
  let* dst :=
    (if shr =? 0 then Ok (ar_assign dst src)
     else
       let shl := 64 - shr in
       let* k := ar_mask shr in
       let* s0 := idx src 0 in
       let prev := wshr s0 shr in
       Ok (ar_slice_loop shl shr k prev dst (skipn 1 src ++ [0]))) in
  let* d := u32_sub m hi lo in
  let* w := u32_add m d 1 in
  ar_mask_msb m dst w.

(** arithmetic.rs:148-155, loop of [concat] *)
Fixpoint ar_concat_loop (lsb_offset shr k prev : N) (dst srcs : list N) : list N :=
  match dst, srcs with
  | _ :: d', s :: s' =>
      N.lor prev (wshl (N.land s k) lsb_offset)
        :: ar_concat_loop lsb_offset shr k (wshr s shr) d' s'
  | _, _ => dst
  end.

(** arithmetic.rs:132-157 [concat].  [lsb.len() - 1] underflows for an empty
    [lsb]: overflow panic in debug builds, index panic in release builds. *)
Definition ar_concat (m : mode) (dst msb lsb : list N) (lsb_width : N) : res (list N) :=
  let dst := ar_assign dst lsb in
  let lsb_offset := lsb_width mod 64 in
  if lsb_offset =? 0 then
    Ok (firstn (length lsb) dst ++ ar_assign (skipn (length lsb) dst) msb)
  else
    let shr := 64 - lsb_offset in
    let* k := ar_mask shr in
    let* i := usz_sub m (len lsb) 1 in
    let* prev := idx dst i in
    Ok (firstn (N.to_nat i) dst
          ++ ar_concat_loop lsb_offset shr k prev (skipn (N.to_nat i) dst) (msb ++ [0])).

(** arithmetic.rs:165-170 [bitwise_un_op] *)
Fixpoint ar_bitwise_un_op (op : N -> N) (dst source : list N) : list N :=
  match dst, source with
  | _ :: d', s :: s' => op s :: ar_bitwise_un_op op d' s'
  | _, _ => dst
  end.

(** arithmetic.rs:159-163 [not] *)
Definition ar_not (m : mode) (dst source : list N) (width : N) : res (list N) :=
  ar_mask_msb m (ar_bitwise_un_op wnot dst source) width.

(** arithmetic.rs:187-192 [bitwise_bin_op] *)
Fixpoint ar_bitwise_bin_op (op : N -> N -> N) (dst a b : list N) : list N :=
  match dst, a, b with
  | _ :: d', x :: a', y :: b' => op x y :: ar_bitwise_bin_op op d' a' b'
  | _, _, _ => dst
  end.

(** arithmetic.rs:172-175 [and] *)
Definition ar_and (dst a b : list N) : list N := ar_bitwise_bin_op N.land dst a b.
(** arithmetic.rs:177-180 [or] *)
Definition ar_or (dst a b : list N) : list N := ar_bitwise_bin_op N.lor dst a b.
(** arithmetic.rs:182-185 [xor] *)
Definition ar_xor (dst a b : list N) : list N := ar_bitwise_bin_op N.lxor dst a b.

(** arithmetic.rs:194-200 [adc]: the new word and the new carry.  The sum is
    formed in u128 and cannot overflow. *)
Definition ar_adc (carry a b : N) : N * N :=
  let sum := carry + a + b in
  (as_u64 sum, as_u8 (N.shiftr sum 64)).

(** arithmetic.rs:206-208, loop of [add] *)
Fixpoint ar_add_loop (carry : N) (dst a b : list N) : list N :=
  match dst, a, b with
  | _ :: d', x :: a', y :: b' =>
      let (w, c) := ar_adc carry x y in w :: ar_add_loop c d' a' b'
  | _, _, _ => dst
  end.

(** arithmetic.rs:202-210 [add] *)
Definition ar_add (m : mode) (dst a b : list N) (width : N) : res (list N) :=
  ar_mask_msb m (ar_add_loop 0 dst a b) width.

(** arithmetic.rs:217-220, loop of [sub] *)
Fixpoint ar_sub_loop (carry : N) (dst a b : list N) : list N :=
  match dst, a, b with
  | _ :: d', x :: a', y :: b' =>
      let (w, c) := ar_adc carry x (wnot y) in w :: ar_sub_loop c d' a' b'
  | _, _, _ => dst
  end.

(** arithmetic.rs:212-222 [sub] *)
Definition ar_sub (m : mode) (dst a b : list N) (width : N) : res (list N) :=
  ar_mask_msb m (ar_sub_loop 1 dst a b) width.

(** arithmetic.rs:224-236 [mul] *)
Definition ar_mul (m : mode) (dst a b : list N) (width : N) : res (list N) :=
  if width <=? 64 then
    let* a0 := idx a 0 in
    let* b0 := idx b 0 in
    let r := as_u64 (a0 * b0) in
    let* k := ar_mask width in
    set_idx dst 0 (N.land r k)
  else Panic PTodo.

(** arithmetic.rs:327-336 [get_shift_amount] *)
Definition ar_get_shift_amount (b : list N) (width : N) : res (option N) :=
  let msb_set := existsb (fun w => negb (w =? 0)) (skipn 1 b) in
  let* shift_amount := idx b 0 in
  if msb_set || (width <=? shift_amount) then Ok None
  else Ok (Some (as_u32 shift_amount)).

(** arithmetic.rs:238-261 [shift_right]: new destination and returned amount *)
Definition ar_shift_right (m : mode) (dst a b : list N) (width : N)
  : res (list N * option N) :=
  let dst := ar_clear dst in
  let* sa := ar_get_shift_amount b width in
  match sa with
  | None => Ok (dst, None)
  | Some shift_amount =>
      let* hi := u32_sub m width 1 in
      let lo := shift_amount in
      let* d := u32_sub m hi lo in
      let* result_width := u32_add m d 1 in
      let result_words := div_ceil result_width 64 in
      let* part := range dst 0 result_words in
      let* part := ar_slice m part a hi lo in
      Ok (splice dst 0 part, Some shift_amount)
  end.

(** arithmetic.rs:263-295 [arithmetic_shift_right] *)
Definition ar_arithmetic_shift_right (m : mode) (dst a b : list N) (width : N)
  : res (list N) :=
  let* (dst, shift_amount) := ar_shift_right m dst a b width in
  let* neg := ar_is_neg m a width in
  if neg then
    match shift_amount with
    | None => ar_mask_msb m (map (fun _ => WMAX) dst) width
    | Some amount =>
        if 0 <? amount then
          let* res_width := u32_sub m width amount in
          let* rw1 := u32_sub m res_width 1 in
          let local_msb := rw1 mod 64 in
          let msb_word := rw1 / 64 in
          let* dst :=
            (if local_msb <? 63 then
               let* k := ar_mask (64 - (local_msb + 1)) in
               let* old := idx dst msb_word in
               set_idx dst msb_word (N.lor old (wshl k (local_msb + 1)))
             else Ok dst) in
          let* dst := on_tail dst (msb_word + 1) (map (fun _ => WMAX)) in
          ar_mask_msb m dst width
        else Ok dst
    end
  else Ok dst.

(** arithmetic.rs:313-321, loop of [shift_left] *)
Fixpoint ar_shift_left_loop (shl shr prev : N) (dst srcs : list N) : list N :=
  match dst, srcs with
  | _ :: d', s :: s' =>
      if shl =? 0
      then s :: ar_shift_left_loop shl shr prev d' s'
      else N.lor (wshl s shl) prev
             :: ar_shift_left_loop shl shr (wshr s shr) d' s'
  | _, _ => dst
  end.

(** arithmetic.rs:297-325 [shift_left] *)
Definition ar_shift_left (m : mode) (dst a b : list N) (width : N) : res (list N) :=
  let* sa := ar_get_shift_amount b width in
  match sa with
  | None => Ok (ar_clear dst)
  | Some shift_amount =>
      let shl := shift_amount mod 64 in
      let shift_words := shift_amount / 64 in
      let shr := 64 - shl in
      let zeros := repeat 0 (N.to_nat shift_words) in
      let dst := ar_shift_left_loop shl shr 0 dst (zeros ++ a) in
      if 0 <? shl then ar_mask_msb m dst width else Ok dst
  end.

(** arithmetic.rs:348-352, loop of [negate_in_place] *)
Fixpoint ar_negate_loop (carry : N) (dst : list N) : list N :=
  match dst with
  | dd :: d' => let (w, c) := ar_adc carry 0 (wnot dd) in w :: ar_negate_loop c d'
  | [] => []
  end.

(** arithmetic.rs:344-354 [negate_in_place] *)
Definition ar_negate_in_place (m : mode) (dst : list N) (width : N) : res (list N) :=
  ar_mask_msb m (ar_negate_loop 1 dst) width.

(** arithmetic.rs:338-342 [negate]; [clone_from_slice] panics unless the
    lengths agree *)
Definition ar_negate (m : mode) (dst b : list N) (width : N) : res (list N) :=
  let* _ := assert (len dst =? len b) in
  ar_negate_in_place m b width.

(** arithmetic.rs:356-359 [cmp_equal] *)
Fixpoint ar_cmp_equal (a b : list N) : bool :=
  match a, b with
  | x :: a', y :: b' => (x =? y) && ar_cmp_equal a' b'
  | _, _ => true
  end.

(** arithmetic.rs:388-395, loop of [is_greater_and_not_less] over the reversed
    slices *)
Fixpoint ar_greater_loop (a b : list N) : option bool :=
  match a, b with
  | x :: a', y :: b' =>
      match x ?= y with
      | Lt => Some false
      | Eq => ar_greater_loop a' b'
      | Gt => Some true
      end
  | _, _ => None
  end.

(** arithmetic.rs:385-396 [is_greater_and_not_less] *)
Definition ar_is_greater_and_not_less (a b : list N) : option bool :=
  ar_greater_loop (rev a) (rev b).

(** [Option::unwrap_or] *)
Definition unwrap_or {A} (o : option A) (d : A) : A :=
  match o with Some x => x | None => d end.

(** arithmetic.rs:361-364 [cmp_greater] *)
Definition ar_cmp_greater (a b : list N) : bool :=
  unwrap_or (ar_is_greater_and_not_less a b) false.

(** arithmetic.rs:398-401 [cmp_greater_equal] *)
Definition ar_cmp_greater_equal (a b : list N) : bool :=
  unwrap_or (ar_is_greater_and_not_less a b) true.

(** arithmetic.rs:374-383 [cmp_greater_signed] *)
Definition ar_cmp_greater_signed (m : mode) (a b : list N) (width : N) : res bool :=
  let* na := ar_is_neg m a width in
  let* nb := ar_is_neg m b width in
  Ok (match na, nb with
      | true, false => false
      | false, true => true
      | false, false => ar_cmp_greater a b
      | true, true => ar_cmp_greater a b
      end).

(** arithmetic.rs:403-411 [cmp_greater_equal_signed] *)
Definition ar_cmp_greater_equal_signed (m : mode) (a b : list N) (width : N) : res bool :=
  let* na := ar_is_neg m a width in
  let* nb := ar_is_neg m b width in
  Ok (match na, nb with
      | true, false => false
      | false, true => true
      | false, false => ar_cmp_greater_equal a b
      | true, true => ar_cmp_greater_equal a b
      end).

(** arithmetic.rs:413-416 [word_to_bool] *)
Definition ar_word_to_bool (value : N) : bool := N.land value 1 =? 1.
