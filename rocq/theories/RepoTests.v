(** * RepoTests: the unit tests of the project, run on the model.

    These are tests, not proofs: they check that the model computes what the
    project's own tests say the code computes.  Each [Example] carries the place of
    the test it was copied from; [do_test_*] are the helper functions of those
    tests.  Left out: the [type_size] tests (memory layout is not modelled) and
    the random inputs of the property tests (see C68 and C69 for all inputs). *)

From Coq Require Import String.
From Verif Require Import Base Arith Strings Bytes BigInt Bv Map Indexed Array Fmt Spec ArraySpec.
Open Scope string_scope.
Open Scope list_scope.
Open Scope N_scope.

(** [Result::unwrap] of a parse into words *)
Definition parsed_words (r : res (list N * option int_error_kind)) : res (list N) :=
  let* (out, e) := r in match e with None => Ok out | Some _ => Panic PUnwrap end.
Definition parsed_bv (r : res parsed) : res bv :=
  let* p := r in match p with Parsed v => Ok v | ParseErr _ => Panic PUnwrap end.
(** [assert_eq!] *)
Definition same (a b : list N) : bool := words_eqb a b.
Definition rep (s : string) (n : N) : list N := List.concat (repeat (lit s) (N.to_nat n)).
Definition starts (c : N) (s : list N) : bool := match s with x :: _ => x =? c | [] => false end.
(** arithmetic.rs:419-430 [assert_unused_bits_zero], read as a bound on the value *)
Definition unused_zero (l : list N) (w : N) : bool := words_val l <? 2 ^ w.

(** the [from_bit_str] helper, arithmetic.rs:436-445 *)
Definition from_bits (m : mode) (s : list N) : res (list N * N) :=
  let* w := determine_width_from_str_radix m s 2 in
  let* out := parsed_words (from_str_radix m s 2 (value_vec_zeros w) w) in
  Ok (out, w).

(** arithmetic.rs:447-452, 460-470, 472-490, 516-550, 590-599, 601-615 *)
Definition do_test_is_neg (m : mode) (a : list N) : res bool :=
  let* (v, w) := from_bits m a in
  let* r := ar_is_neg m v w in
  Ok (Bool.eqb r (starts c_1 a)).

Definition do_test_concat (m : mode) (a b : list N) : res bool :=
  let* (av, aw) := from_bits m a in
  let* (bv, bw) := from_bits m b in
  let* (cv, cw) := from_bits m (rep "1" (len a + len b)) in
  let* cv := ar_concat m cv av bv bw in
  let* s := to_bit_str cv cw in
  Ok ((cw =? aw + bw) && unused_zero cv cw && same s (a ++ b)).

Definition do_test_slice (m : mode) (src : list N) (hi lo : N) : res bool :=
  let* (v, w) := from_bits m src in
  let rw := hi - lo + 1 in
  let* r := ar_slice m (value_vec_zeros rw) v hi lo in
  let* s := to_bit_str r rw in
  Ok (unused_zero r rw && same s (firstn (N.to_nat rw) (skipn (N.to_nat (w - 1 - hi)) src))).

Definition do_test_shift (m : mode) (src : list N) (by_ : N) (right sgn : bool) : res bool :=
  let* (a, w) := from_bits m src in
  let* bs := to_bit_str (splice (value_vec_zeros w) 0 [by_]) w in
  let* (b, _) := from_bits m bs in
  let zero := value_vec_zeros w in
  let* r := (if right then
               if sgn then ar_arithmetic_shift_right m zero a b w
               else let* (r, _) := ar_shift_right m zero a b w in Ok r
             else ar_shift_left m zero a b w) in
  let* s := to_bit_str r w in
  let pad := N.min by_ w in
  let c := if sgn then List.hd 0 src else c_0 in
  let p := repeat c (N.to_nat pad) in
  let expected := if right then p ++ firstn (N.to_nat (w - pad)) src
                  else skipn (N.to_nat pad) src ++ p in
  Ok (unused_zero r w && same s expected).

Definition do_test_zero_ext (m : mode) (src : list N) (by_ : N) : res bool :=
  let* (v, w) := from_bits m src in
  let* r := ar_zero_extend (value_vec_zeros (w + by_)) v in
  let* s := to_bit_str r (w + by_) in
  Ok (unused_zero r (w + by_) && same s (rep "0" by_ ++ src)).

Definition do_test_sign_ext (m : mode) (src : list N) (by_ : N) : res bool :=
  let* (v, w) := from_bits m src in
  let* r := ar_sign_extend m (value_vec_zeros (w + by_)) v w (w + by_) in
  let* s := to_bit_str r (w + by_) in
  Ok (unused_zero r (w + by_) && same s (repeat (List.hd 0 src) (N.to_nat by_) ++ src)).

Definition big_words (m : mode) (z : Z) (w : N) : res (list N) := from_big_int m z w (value_vec_zeros w).
Definition ubig_words (m : mode) (n : N) (w : N) : res (list N) := from_big_uint m n w (value_vec_zeros w).

(** arithmetic.rs:674-693 and 721-733 *)
Definition do_test_arith (m : mode) (a b : Z) (w : N)
  (our : mode -> list N -> list N -> list N -> N -> res (list N)) (big : Z -> Z -> Z) : res bool :=
  let* av := big_words m a w in
  let* bv := big_words m b w in
  let* r := our m (value_vec_zeros w) av bv w in
  let* expected := ubig_words m (Z.to_N (Z.land (big a b) (2 ^ Z.of_N w - 1))) w in
  Ok (unused_zero r w && same expected r).

Definition do_test_cmp_signed (m : mode) (a b : Z) (w : N)
  (our : mode -> list N -> list N -> N -> res bool) (big : Z -> Z -> bool) : res bool :=
  let* av := big_words m a w in
  let* bv := big_words m b w in
  let* r := our m av bv w in
  Ok (Bool.eqb (big a b) r).

Definition both (t : mode -> res bool) : bool :=
  match t Debug, t Release with Ok true, Ok true => true | _, _ => false end.
Definition all_of (l : list (mode -> res bool)) : bool := forallb both l.

(** ** src/bv/arithmetic.rs *)

(** arithmetic.rs:455-458 *)
Example do_test_is_neg_regressions :
  both (fun m => do_test_is_neg m (lit "010110100111101000011100000101101" ++ rep "0" 259)) = true.
Proof. vm_compute. reflexivity. Qed.

(** arithmetic.rs:564-588 *)
Example test_arithmetic_shift_right_regression :
  all_of [fun m => do_test_shift m (lit "1") 0 true true;
          fun m => do_test_shift m (lit "10") 1 true true;
          fun m => do_test_shift m (lit "1" ++ rep "0" 64) 1 true true;
          fun m => do_test_shift m (lit "1" ++ rep "0" 128) 1 true true;
          fun m => do_test_shift m (lit "1" ++ rep "0" 128) 64 true true;
          fun m => do_test_shift m (lit "1" ++ rep "0" 128) 128 true true] = true.
Proof. vm_compute. reflexivity. Qed.

(** arithmetic.rs:704-718 test_sub_regressions, test_mul_regressions *)
Example test_sub_regressions : both (fun m => do_test_arith m (-32) 32 7 ar_sub Z.sub) = true.
Proof. vm_compute. reflexivity. Qed.
Example test_mul_regressions :
  both (fun m => do_test_arith m 1099511627776 1099511627776 50 ar_mul Z.mul) = true.
Proof. vm_compute. reflexivity. Qed.

(** arithmetic.rs:759-765 do_test_cmp_greater_signed_regressions *)
Example do_test_cmp_greater_signed_regressions :
  both (fun m => do_test_cmp_signed m
    2812269376756553621043437133860079836754636903388049287067766551164406258259928767528960
    16927137481 292 ar_cmp_greater_signed Z.gtb) = true.
Proof. vm_compute. reflexivity. Qed.

(** a few inputs of the property tests, up to several words *)
Definition sample (n seed : N) : list N :=
  map (fun i => c_0 + ((i * i * seed + i + seed / 3) / 2) mod 2) (map N.of_nat (seq 0 (N.to_nat n))).
Definition lens : list N := [1; 2; 31; 32; 63; 64; 65; 127; 128; 129; 200].

Example test_concat :
  forallb (fun n => forallb (fun k => both (fun m => do_test_concat m (sample n 5) (sample k 7))) lens) lens = true.
Proof. vm_compute. reflexivity. Qed.
Example test_slice :
  forallb (fun n => forallb (fun hi => forallb (fun lo =>
     (n <=? hi) || (hi <? lo) || both (fun m => do_test_slice m (sample n 11) hi lo)) [0; 1; 30; 63; 64; 65; 128])
     [0; 1; 31; 62; 63; 64; 65; 127; 128; 199]) lens = true.
Proof. vm_compute. reflexivity. Qed.
Example test_shift_right :
  forallb (fun n => forallb (fun k => (2 ^ n <=? k) || both (fun m => do_test_shift m (sample n 3) k true false))
    [0; 1; 31; 63; 64; 65; 100; 128; 300]) lens = true.
Proof. vm_compute. reflexivity. Qed.
Example test_arithmetic_shift_right :
  forallb (fun n => forallb (fun k => (2 ^ n <=? k) || both (fun m => do_test_shift m (c_1 :: sample (n - 1) 3) k true true))
    [0; 1; 31; 63; 64; 65; 100; 128; 300]) lens = true.
Proof. vm_compute. reflexivity. Qed.
(** the generator makes texts of up to 32 characters only; see C06 for 64 and 128 *)
Example test_shift_left :
  forallb (fun n => forallb (fun k => (2 ^ n <=? k) || both (fun m => do_test_shift m (sample n 3) k false false))
    [0; 1; 31; 63; 65; 100; 300]) lens = true.
Proof. vm_compute. reflexivity. Qed.
Example test_zero_extend :
  forallb (fun n => forallb (fun k => both (fun m => do_test_zero_ext m (sample n 13) k)) [0; 1; 32; 63; 64; 65; 500]) lens = true.
Proof. vm_compute. reflexivity. Qed.
Example test_sign_extend :
  forallb (fun n => forallb (fun k => both (fun m => do_test_sign_ext m (sample n 13) k)
                              && both (fun m => do_test_sign_ext m (c_1 :: sample n 13) k)) [0; 1; 32; 63; 64; 65; 500]) lens = true.
Proof. vm_compute. reflexivity. Qed.

(** ** src/bv/borrowed.rs *)

(** borrowed.rs borrowed_hash: a value and a reference to it are equal and write
    the same to the hasher *)
Fixpoint same_writes (a b : list hash_write) : bool :=
  match a, b with
  | [], [] => true
  | HashU32 x :: a', HashU32 y :: b' | HashLen x :: a', HashLen y :: b' | HashU64 x :: a', HashU64 y :: b' =>
      (x =? y) && same_writes a' b'
  | _, _ => false
  end.
Definition check_hash (m : mode) (v : bv) : res bool :=
  let r := bv_ref_of_owned v in
  let* e := bv_eq m v r in
  Ok (e && same_writes (bv_hash v) (bvref_hash r)).
Example borrowed_hash :
  all_of [fun m => check_hash m (bv_zero 1); fun m => check_hash m (bv_zero 1000000);
          fun m => let* v := parsed_bv (bv_from_bit_str m (lit "11")) in check_hash m v] = true.
Proof. vm_compute. reflexivity. Qed.

(** ** src/bv/indexed.rs *)

(** indexed.rs test_bv_index *)
Example test_bv_index :
  both (fun m =>
    let a := index_new 0 8 in let b := index_new 1 8 in
    let* v := bv_from_u64 m 123 8 in
    let* st := update_ref (repeat 0 16) a (fun d => bv_assign m d v) in
    let* x0 := idx st 0 in
    let* st := set_idx st 1 111 in
    let* st := update_ref_2 m st a b (bv_assign m) in
    let* x1 := idx st 0 in
    Ok ((x0 =? 123) && (x1 =? 111))) = true.
Proof. vm_compute. reflexivity. Qed.

(** indexed.rs test_split_borrow *)
Example test_split_borrow :
  both (fun m =>
    let data := [0; 1; 2; 3] in
    let* (d1, s1) := split_borrow_1 m data (0, 1) (2, 4) in
    let* (d2, s2) := split_borrow_1 m data (2, 4) (0, 2) in
    let* (da, b3) := split_borrow_2 m data (2, 4) (1, 2) (0, 2) in
    let (d3, a3) := da in
    Ok (same d1 [0] && same s1 [2; 3] && same d2 [2; 3] && same s2 [0; 1]
        && same d3 [2; 3] && same a3 [1] && same b3 [0; 1])) = true.
Proof. vm_compute. reflexivity. Qed.

(** indexed.rs test_interner *)
Example test_interner :
  both (fun m =>
    let st := interner_new in
    let* t := bv_tru m in let* f := bv_fals m in
    let* z4 := bv_from_u64 m 0 4 in let* o4 := bv_from_u64 m 1 4 in
    let* (st, i1) := interner_get_index m st t in
    let* (st, i2) := interner_get_index m st f in
    let* (st, i3) := interner_get_index m st z4 in
    let* (st, i4) := interner_get_index m st z4 in
    let* (st, i5) := interner_get_index m st z4 in
    let* (st, i6) := interner_get_index m st o4 in
    Ok ((i_index i1 =? 1) && (i_index i2 =? 0) && (i_index i3 =? 0) && interner_is_zero i4
        && negb (interner_is_one i5) && interner_is_one i6)) = true.
Proof. vm_compute. reflexivity. Qed.

Definition interner_should_return_same_value (m : mode) (z : Z) (w : N) : res bool :=
  let* v := bv_from_big_int m z w in
  let* (st, i0) := interner_get_index m interner_new v in
  let* (st, i1) := interner_get_index m st v in
  let* v0 := get_ref (interner_words st) i0 in
  let* e := bv_eq m v v0 in
  Ok ((i_index i0 =? i_index i1) && (i_width i0 =? i_width i1) && e).
Example prop_test_interner :
  all_of [fun m => interner_should_return_same_value m (-5) 4;
          fun m => interner_should_return_same_value m (2 ^ 100 + 17) 102;
          fun m => interner_should_return_same_value m (- 2 ^ 600 - 1) 700] = true.
Proof. vm_compute. reflexivity. Qed.

(** ** src/bv/io/bigint.rs *)
Definition do_test_from_to_big_int (m : mode) (z : Z) : res bool :=
  let* bits := count_big_int_bits m z in
  let* out := big_words m z bits in
  let* z' := to_big_int m out bits in
  Ok (unused_zero out bits && (z =? z')%Z).
Definition do_test_from_to_big_uint (m : mode) (n : N) : res bool :=
  let* bits := count_big_uint_bits m n in
  let* out := ubig_words m n bits in
  let* n' := to_big_uint out in
  Ok (unused_zero out bits && (n =? n')).
Example test_from_to_big :
  forallb (fun z => both (fun m => do_test_from_to_big_int m z))
    [0; 1; -1; 2; -2; 2 ^ 63; - 2 ^ 63; 2 ^ 64; - 2 ^ 64; 2 ^ 64 - 1; 123456789012345678901234567890; - 2 ^ 200 - 3]%Z
  && forallb (fun n => both (fun m => do_test_from_to_big_uint m n))
    [0; 1; 2 ^ 63; 2 ^ 64 - 1; 2 ^ 64; 2 ^ 128 - 1; 2 ^ 300 + 1] = true.
Proof. vm_compute. reflexivity. Qed.

(** ** src/bv/io/bytes.rs *)
Example test_to_bytes_le :
  same (to_bytes_le [0x1234] 16) [0x34; 0x12]
  && same (to_bytes_le [0x1234; 0xf] 72) [0x34; 0x12; 0; 0; 0; 0; 0; 0; 0xf] = true.
Proof. vm_compute. reflexivity. Qed.
Example test_from_bytes_le :
  both (fun m => let* o := from_bytes_le m [0x34; 0x12] 16 [0] in Ok (same o [0x1234])) = true.
Proof. vm_compute. reflexivity. Qed.
Definition do_test_from_to_bytes_le (m : mode) (b : list N) : res bool :=
  let w := match b with [] => 0 | _ => (len b - 1) * 8 + N.max (N.size (List.last b 0)) 1 end in
  let* out := from_bytes_le m b w (value_vec_zeros w) in
  Ok (unused_zero out w && same (to_bytes_le out w) b).
Example test_from_to_bytes_le :
  forallb (fun b => both (fun m => do_test_from_to_bytes_le m b))
    [[]; [0]; [255]; [1; 2; 3; 4; 5; 6; 7; 8]; [1; 2; 3; 4; 5; 6; 7; 8; 0]; repeat 255 17; repeat 0 16 ++ [129]] = true.
Proof. vm_compute. reflexivity. Qed.

(** ** src/bv/io/strings.rs *)
Definition all_zero (s : list N) : bool := forallb (fun c => c =? c_0) s.
Definition lowercase (s : list N) : list N :=
  map (fun c => if (65 <=? c) && (c <=? 90) then c + 32 else c) s.
(** what the round trip should print *)
Definition expected (s : list N) : list N :=
  match s with
  | c :: t => if c =? c_plus then lowercase t
              else if (c =? c_minus) && all_zero t then t else lowercase s
  | [] => []
  end.
Definition do_test_from_to_bit_str (m : mode) (s : list N) : res bool :=
  let* w := determine_width_from_str_radix m s 2 in
  let* out := parsed_words (from_str_radix m s 2 (repeat 0 (N.to_nat (div_ceil (len s) 64))) w) in
  let* o := (if starts c_minus s then to_bit_str_signed m out w else to_bit_str out w) in
  Ok ((w =? if starts c_plus s then len s - 1 else len s) && unused_zero out w && same o (expected s)).
Definition do_test_from_to_hex_str (m : mode) (s : list N) : res bool :=
  let* w := determine_width_from_str_radix m s 16 in
  let* out := parsed_words (from_str_radix m s 16 (value_vec_zeros w) w) in
  let* o := (if starts c_minus s then to_hex_str_signed m out w else to_hex_str m out w) in
  Ok ((w =? if starts c_plus s then (len s - 1) * 4
            else if starts c_minus s then (len s - 1) * 4 + 1 else len s * 4)
      && unused_zero out w && same o (expected s)).

Example test_to_bit_str_with_extra_words :
  both (fun _ => let* a := to_bit_str (value_vec_zeros 7) 7 in
                 let* b := to_bit_str (value_vec_zeros 7) 33 in
                 Ok (same a (lit "0000000") && same b (rep "0" 33))) = true.
Proof. vm_compute. reflexivity. Qed.
Example test_from_to_bit_str_regression :
  forallb (fun s => both (fun m => do_test_from_to_bit_str m (lit s))) ["+0"; "-0"; "-1"; "-11"; ""; "10"; "+101"] = true.
Proof. vm_compute. reflexivity. Qed.
Example test_from_to_hex_str_regression :
  forallb (fun s => both (fun m => do_test_from_to_hex_str m (lit s)))
    ["a"; "A"; "0aaaA0a0aAA0aaaA"; "+A"; "0"; "+aaaa0aa0aaaa0aaa00a0aaaaaa00aa00"; "-aaaa00aaaaaaaaa0"; ""] = true
  /\ hex_digit_value 97 = Some 10 /\ hex_digit_value 65 = Some 10.
Proof. vm_compute. repeat split. Qed.
Example test_to_hex_str :
  both (fun m =>
    let a := 0xaaaaaaaaaaaaaaaa in
    let* s1 := to_hex_str m [0] 7 in
    let* s2 := to_hex_str m [0] 33 in
    let* s3 := to_hex_str m [0xa4aa78] 24 in
    let* s4 := to_hex_str m [a; 0] 71 in
    let* s5 := to_hex_str m [a; 0] 97 in
    let* s6 := to_hex_str m [a; 0xa4aa78] 88 in
    let* s7 := to_hex_str m [768603298337958570] 64 in
    Ok (same s1 (lit "00") && same s2 (rep "0" 9) && same s3 (lit "a4aa78")
        && same s4 (lit "00aaaaaaaaaaaaaaaa") && same s5 (rep "0" 9 ++ lit "aaaaaaaaaaaaaaaa")
        && same s6 (lit "a4aa78aaaaaaaaaaaaaaaa") && same s7 (lit "0aaaa0a0aaa0aaaa"))) = true.
Proof. vm_compute. reflexivity. Qed.
Definition do_test_to_from_decimal_str (m : mode) (s : list N) : res bool :=
  let* v := parsed_bv (bv_from_bit_str m s) in
  let* d := bv_to_dec_str m v in
  let* v' := parsed_bv (bv_from_str_radix m d 10 (width v)) in
  bv_eq m v v'.
Example test_to_from_dec_str_regression :
  forallb (fun s => both (fun m => do_test_to_from_decimal_str m (lit s)))
    [""; "1000000"; "-1011"; "+11111111111111111111111111111111"] = true.
Proof. vm_compute. reflexivity. Qed.

(** ** src/bv/ops.rs *)
Example assign_bit_vector :
  both (fun m =>
    let dst := bv_zero 123 in
    let* s1 := bv_from_u64 m 1111111111 123 in
    let* dst := bv_assign m dst s1 in
    let* s2 := bv_from_u64 m (1111111111 * 2) 123 in
    let* dst := bv_assign m dst (bv_ref_of_owned s2) in
    let* n := unwrap (bv_to_u64 s2) in
    let* e := bv_eq m dst s2 in
    Ok (e && (n =? 1111111111 * 2))) = true.
Proof. vm_compute. reflexivity. Qed.

(** ** src/bv/owned.rs *)
Example test_tru_fals :
  both (fun m => let* t := bv_tru m in let* f := bv_fals m in
                 let* bt := bv_to_bool t in let* bt := unwrap bt in
                 let* bf := bv_to_bool f in let* bf := unwrap bf in Ok (bt && negb bf)) = true.
Proof. vm_compute. reflexivity. Qed.
Example test_from_u64_in_debug_mode : panics (bv_from_u64 Debug 16 4).
Proof. eexists. vm_compute. reflexivity. Qed.
Example test_from_u64_in_release_mode : (let* v := bv_from_u64 Release 16 4 in Ok (bv_to_u64 v)) = Ok (Some 0).
Proof. vm_compute. reflexivity. Qed.
Example test_from_i64_in_debug_mode :
  ~ panics (bv_from_i64 Debug (-8) 4) /\ ~ panics (bv_from_i64 Debug 7 4) /\ panics (bv_from_i64 Debug (-9) 4).
Proof. split; [|split]; [intros (p & H); vm_compute in H; discriminate..|eexists; vm_compute; reflexivity]. Qed.
Example test_from_i64_in_release_mode : (let* v := bv_from_i64 Release (-9) 4 in Ok (bv_to_u64 v)) = Ok (Some 7).
Proof. vm_compute. reflexivity. Qed.
Example test_ones :
  both (fun m => let* a := bv_ones m 3 in let* b := bv_ones m 67 in
                 Ok (same (words a) [7] && same (words b) [2 ^ 64 - 1; 7])) = true.
Proof. vm_compute. reflexivity. Qed.

(** ** src/array/owned.rs *)
Example test_index_width_from_len :
  map index_width_from_len [0; 1; 2; 3; 8; 9] = [0; 0; 1; 2; 3; 4].
Proof. vm_compute. reflexivity. Qed.
(** hash tables are read in the stored and in the reverse order *)
Definition orders : list hash_order := [fun _ l => l; fun A l => @List.rev A l].
Definition conversions (m : mode) (ho : hash_order) (d0 : res dense) : res bool :=
  let* d0 := d0 in
  let* s0 := sparse_of_dense ho m d0 in
  let* d1 := dense_of_sparse ho m s0 in
  let* e1 := is_equal_mixed ho m d0 s0 in let* e1 := unwrap e1 in
  let* e2 := dense_is_equal m d0 d1 in let* e2 := unwrap e2 in
  Ok (e1 && e2).
Example test_conversions_bool :
  forallb (fun ho => both (fun m => conversions m ho (dense_from_bools m [true; false; false; false; true]))) orders = true.
Proof. vm_compute. reflexivity. Qed.
Example test_conversions_u8 :
  forallb (fun ho => both (fun m => conversions m ho (dense_from_u8s m [1; 2; 3; 4; 5; 6; 1; 1; 1]))) orders = true.
Proof. vm_compute. reflexivity. Qed.
Example test_conversions_u64 :
  forallb (fun ho => both (fun m => conversions m ho (dense_from_u64s m [1; 2; 3; 4; 5; 6; 1; 1; 1]))) orders = true.
Proof. vm_compute. reflexivity. Qed.

(** ** tests/arrays.rs *)
Fixpoint insert (x : N * N) (l : list (N * N)) : list (N * N) :=
  match l with [] => [x] | y :: t => if fst x <=? fst y then x :: l else y :: insert x t end.
Example test_sparse_array_conversion_and_access :
  forallb (fun ho => both (fun m =>
    let* a := array_from_u8s m [1; 0; 2; 0; 3; 0; 5; 0] in
    let* s := sparse_of_array ho m a in
    let* d := sparse_default m s in
    let* z := bv_from_u64 m 0 8 in
    let* e := bv_eq m d z in
    let* l := sparse_entries ho m s in
    let* l := mapM (fun kv => let* k := unwrap (bv_to_u64 (fst kv)) in
                              let* v := unwrap (bv_to_u64 (snd kv)) in Ok (k, v)) l in
    let l := fold_right insert [] l in
    Ok (e && same (map fst l) [0; 2; 4; 6] && same (map snd l) [1; 2; 3; 5]))) orders = true.
Proof. vm_compute. reflexivity. Qed.

(** ** tests/value.rs *)
Example i64_roundtrip :
  forallb (fun z => both (fun m => let* v := bv_from_i64 m z 64 in
                                   let* o := bv_to_i64 m v in let* r := unwrap o in Ok (r =? z)%Z))
    [0; -1; 1; 2 ^ 63 - 1; - 2 ^ 63; 123456789; -987654321]%Z = true.
Proof. vm_compute. reflexivity. Qed.
Example u64_roundtrip :
  forallb (fun n => both (fun m => let* v := bv_from_u64 m n 64 in
                                   let* r := unwrap (bv_to_u64 v) in Ok (r =? n)))
    [0; 1; 2 ^ 63; 2 ^ 64 - 1; 123456789] = true.
Proof. vm_compute. reflexivity. Qed.
Example i32_to_ibig :
  forallb (fun z => both (fun m => let* v := bv_from_i64 m z 32 in
                                   let* r := bv_to_big_int m v in Ok (r =? z)%Z))
    [0; -1; 1; 2 ^ 31 - 1; - 2 ^ 31; 12345]%Z = true.
Proof. vm_compute. reflexivity. Qed.
