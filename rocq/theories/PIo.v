(** * PIo: bytes and big integers (C28, C29). *)

From Coq Require Import ZifyBool ZifyNat ZifyN.
From Verif Require Import Base Arith Bytes BigInt Bv Spec IoSpec PWords PArith PShift PropsArith PConv.

Ltac Zify.zify_post_hook ::= idtac.

(** ** Replacing one word *)

Lemma wv_set l q v : Words l -> (q < length l)%nat ->
  wv (firstn q l ++ v :: skipn (S q) l) + 2 ^ (64 * N.of_nat q) * nth q l 0
  = wv l + 2 ^ (64 * N.of_nat q) * v.
Proof.
  intros Wl Hq. rewrite (wv_split3 l q Wl Hq), wv_app, wv_cons.
  rewrite len_firstn by (unfold len; lia). ring.
Qed.

Lemma set_words (l : list N) q v : Words l -> v < 2 ^ 64 -> (q < length l)%nat ->
  Words (firstn q l ++ v :: skipn (S q) l)
  /\ len (firstn q l ++ v :: skipn (S q) l) = len l.
Proof.
  intros Wl Hv Hq. split.
  - apply Words_app; [now apply Words_firstn|]. constructor; auto.
  - rewrite len_app, len_cons, len_skipn, len_firstn; unfold len; lia.
Qed.

(** ** to_bytes_le *)

Fixpoint le (k : nat) (x : N) : list N :=
  match k with O => [] | S k => x mod 2 ^ 8 :: le k (x / 2 ^ 8) end.

Lemma le_len k x : length (le k x) = k.
Proof. revert x; induction k; intros; cbn [le length]; auto. Qed.

Lemma le_bytes k x : is_bytes (le k x).
Proof.
  revert x; induction k; intros; cbn [le]; constructor; auto. apply (mod_lt x 8). apply IHk.
Qed.

Lemma le_val k x : bytes_val (le k x) = x mod 2 ^ (8 * N.of_nat k).
Proof.
  revert x; induction k as [|k IH]; intros x; cbn [le bytes_val].
  - change (8 * N.of_nat 0) with 0. now rewrite N.pow_0_r, N.mod_1_r.
  - rewrite IH. replace (8 * N.of_nat (S k)) with (8 + 8 * N.of_nat k) by lia.
    assert (E : x = x mod 2 ^ 8 + 2 ^ 8 * (x / 2 ^ 8)) by (rewrite N.add_comm; apply N.div_mod, pow_nz).
    rewrite E at 3. rewrite add_mul_mod by apply mod_lt. reflexivity.
Qed.

Lemma le_app a b x : le (a + b) x = le a x ++ le b (x / 2 ^ (8 * N.of_nat a)).
Proof.
  revert x; induction a as [|a IH]; intros x.
  - change (8 * N.of_nat 0) with 0. now rewrite N.pow_0_r, N.div_1_r.
  - cbn [Nat.add le app]. rewrite IH, div_div_pow. replace (8 + 8 * N.of_nat a) with (8 * N.of_nat (S a)) by lia. reflexivity.
Qed.

Lemma le_low a v t k : (8 * N.of_nat a <= k) -> v < 2 ^ k -> le a (v + 2 ^ k * t) = le a v.
Proof.
  revert v k; induction a as [|a IH]; intros v k H Hv; cbn [le]; [auto|].
  assert (E : 2 ^ k = 2 ^ 8 * 2 ^ (k - 8)) by (apply pow_split; lia).
  rewrite E, <- N.mul_assoc. f_equal.
  - rewrite (N.mul_comm (2 ^ 8)), N.mod_add by apply pow_nz. auto.
  - rewrite (N.mul_comm (2 ^ 8)), N.div_add by apply pow_nz. apply IH; [lia|]. apply div_lt_pow.
    replace (8 + (k - 8)) with k by lia. auto.
Qed.

Lemma push_bytes_ok k bc v out : len out <= bc ->
  push_bytes k bc v out = out ++ le (Nat.min k (N.to_nat (bc - len out))) v.
Proof.
  revert v out; induction k as [|k IH]; intros v out H; cbn [push_bytes].
  - now rewrite app_nil_r.
  - destruct (len out =? bc) eqn:E.
    + replace (N.to_nat (bc - len out)) with O by lia. cbn. now rewrite app_nil_r.
    + assert (L : len (out ++ [as_u8 (N.land v 255)]) = len out + 1) by (rewrite len_app; reflexivity).
      rewrite IH by lia. rewrite L.
      destruct (N.to_nat (bc - len out)) as [|j] eqn:Ej; [lia|].
      replace (N.to_nat (bc - (len out + 1))) with j by lia. cbn [Nat.min le].
      rewrite <- app_assoc. cbn [app]. do 2 f_equal.
      * change 255 with (2 ^ 8 - 1). rewrite land_ones_sub. unfold as_u8.
        change 256 with (2 ^ 8). apply N.mod_mod, pow_nz.
      * rewrite wshr_div by lia. auto.
Qed.

Lemma bytes_fold bc values out : Words values -> len out <= bc ->
  fold_left (fun out word => push_bytes 8 bc word out) values out
  = out ++ le (Nat.min (8 * length values) (N.to_nat (bc - len out))) (wv values).
Proof.
  revert out; induction values as [|v t IH]; intros out HW H; cbn [fold_left].
  - cbn. now rewrite app_nil_r.
  - inversion HW; subst. rewrite push_bytes_ok by auto. rewrite IH; auto.
    2:{ rewrite len_app. unfold len at 2. rewrite le_len. lia. }
    rewrite <- app_assoc, wv_cons. f_equal. cbn [length].
    remember (N.to_nat (bc - len out)) as r eqn:Er.
    replace (N.to_nat (bc - len (out ++ le (Nat.min 8 r) v))) with (r - 8)%nat.
    2:{ rewrite len_app. unfold len at 2. rewrite le_len. lia. }
    destruct (Nat.le_gt_cases r 8) as [C|C].
    + replace (r - 8)%nat with O by lia. rewrite Nat.min_0_r. cbn [le]. rewrite app_nil_r.
      replace (Nat.min (8 * S (length t)) r) with r by lia. replace (Nat.min 8 r) with r by lia.
      rewrite le_low; auto. lia.
    + replace (Nat.min (8 * S (length t)) r) with (8 + Nat.min (8 * length t) (r - 8))%nat by lia.
      rewrite le_app. replace (Nat.min 8 r) with 8%nat by lia.
      change (8 * N.of_nat 8) with 64. rewrite add_mul_div by auto. f_equal.
      symmetry. apply le_low; auto. lia.
Qed.

Lemma to_bytes_le_ok v w x : is_bv v w x ->
  len (bv_to_bytes_le v) = (w + 7) / 8 /\ is_bytes (bv_to_bytes_le v)
  /\ bytes_val (bv_to_bytes_le v) = x.
Proof.
  intros H. apply is_bv_inv in H as (E & H32 & Hl & HW & Hv & Hx).
  unfold bv_to_bytes_le, to_bytes_le. rewrite bytes_fold by (auto; unfold len; cbn; lia).
  cbn [app]. change (@len N []) with 0. rewrite N.sub_0_r, E.
  unfold div_ceil. replace (w + 8 - 1) with (w + 7) by lia.
  replace (Nat.min (8 * length (words v)) (N.to_nat ((w + 7) / 8))) with (N.to_nat ((w + 7) / 8)).
  2:{ unfold len in Hl. clear - Hl. dlia. }
  split; [unfold len; rewrite le_len; lia|]. split; [apply le_bytes|].
  rewrite le_val, Hv. rewrite N2Nat.id. apply mod_small_pow.
  apply (N.lt_le_trans _ _ _ Hx). apply pow_le. clear. dlia.
Qed.

(** ** from_bytes_le *)

Lemma from_bytes_loop_ok bytes ii out : is_bytes bytes -> Words out ->
  wv out < 2 ^ (8 * ii) -> ii + len bytes <= 8 * len out ->
  exists out', from_bytes_loop bytes ii out = Ok out' /\ Words out' /\ len out' = len out
    /\ wv out' = wv out + 2 ^ (8 * ii) * bytes_val bytes.
Proof.
  revert ii out; induction bytes as [|b t IH]; intros ii out HB HW Hlt Hlen.
  - cbn [from_bytes_loop bytes_val]. exists out. rewrite N.mul_0_r, N.add_0_r. auto.
  - inversion HB; subst. rewrite len_cons in Hlen. cbn [from_bytes_loop bytes_val].
    assert (Hq : ii / 8 < len out) by (clear - Hlen; dlia).
    rewrite idx_ok by auto. cbn [bind].
    assert (Es : as_u32 ii mod 8 = ii mod 8).
    { unfold as_u32. change 8 with (2 ^ 3). rewrite B32_eq. apply mod_mod_le. lia. }
    rewrite Es, wshl_mul by (clear; dlia).
    set (q := ii / 8) in *. set (r := ii mod 8).
    assert (Eii : ii = 8 * q + r) by (apply N.div_mod; lia).
    assert (Hr : r < 8) by (apply N.mod_lt; lia).
    set (old := nth (N.to_nat q) out 0).
    assert (Hold : old < 2 ^ (8 * r)).
    { unfold old. rewrite wv_nth by auto. rewrite N2Nat.id.
      eapply N.le_lt_trans; [apply N.mod_le, pow_nz|]. apply div_lt_pow.
      replace (64 * q + 8 * r) with (8 * ii) by lia. auto. }
    rewrite mul_pow_mod64 by lia.
    rewrite (N.mod_small b) by (apply (N.lt_le_trans _ (2 ^ 8)); [auto|apply pow_le; lia]).
    rewrite lor_add by auto.
    assert (Lv : old + 2 ^ (8 * r) * b < 2 ^ 64).
    { apply (N.lt_le_trans _ (2 ^ (8 * r + 8))); [now apply add_mul_lt|apply pow_le; lia]. }
    rewrite set_idx_ok by auto. cbn [bind].
    assert (Hn : (N.to_nat q < length out)%nat) by (unfold len in Hq; lia).
    destruct (set_words out (N.to_nat q) _ HW Lv Hn) as (W1 & L1).
    assert (V := wv_set out (N.to_nat q) (old + 2 ^ (8 * r) * b) HW Hn).
    fold old in V. rewrite N2Nat.id, N.mul_add_distr_l, N.mul_assoc, <- N.pow_add_r in V.
    replace (64 * q + 8 * r) with (8 * ii) in V by lia.
    destruct (IH (ii + 1) _ H2 W1) as (out' & E1 & E2 & E3 & E4).
    { replace (8 * (ii + 1)) with (8 * ii + 8) by lia.
      eapply N.le_lt_trans with (wv out + 2 ^ (8 * ii) * b); [lia|]. now apply add_mul_lt. }
    { rewrite L1. lia. }
    exists out'. rewrite E1, E3, L1. split; [auto|]. split; [auto|]. split; [auto|].
    rewrite E4. replace (8 * (ii + 1)) with (8 * ii + 8) by lia. rewrite N.pow_add_r.
    change (2 ^ 8) with 256. lia.
Qed.

Lemma from_bytes_loop_panics bytes ii out : ii <= 8 * len out -> 8 * len out < ii + len bytes ->
  panics (from_bytes_loop bytes ii out).
Proof.
  revert ii out; induction bytes as [|b t IH]; intros ii out H1 H2.
  - change (@len N []) with 0 in H2. lia.
  - rewrite len_cons in H2. cbn [from_bytes_loop].
    destruct (N.lt_ge_cases (ii / 8) (len out)) as [C|C].
    + rewrite idx_ok by auto. cbn [bind]. rewrite set_idx_ok by auto. cbn [bind].
      apply IH; rewrite len_app, len_cons, len_skipn, len_firstn by (clear - C; dlia);
        clear - C H1 H2; dlia.
    + rewrite idx_panic by auto. cbn [bind]. eexists. reflexivity.
Qed.

Lemma from_bytes_le_ok m bytes w : w < 2 ^ 32 -> is_bytes bytes ->
  w = 0 \/ len bytes <= 8 * ((w + 63) / 64) ->
  yields (bv_from_bytes_le m bytes w) w (bytes_val bytes mod 2 ^ w).
Proof.
  intros H32 HB HL. unfold bv_from_bytes_le, from_bytes_le.
  rewrite div_ceil_eq, zeros_len, N.leb_refl, debug_assert_true. cbn [bind].
  destruct (w =? 0) eqn:E0.
  { replace w with 0 by lia. cbn [bind]. rewrite N.pow_0_r, N.mod_1_r.
    eexists. split; [reflexivity|]. apply (zero_is_bv 0). lia. }
  rewrite clear_zeros.
  destruct (from_bytes_loop_ok bytes 0 (value_vec_zeros w) HB) as (out & E1 & E2 & E3 & E4);
    rewrite ?zeros_len, ?zeros_val; auto; try lia. { apply zeros_words. }
  rewrite zeros_len in E3. rewrite zeros_val, N.mul_0_r, N.pow_0_r in E4.
  rewrite E1. cbn [bind].
  destruct (mask_wres m out w ltac:(lia) E2 E3) as (l & M1 & M2 & M3 & M4).
  rewrite M1. cbn [bind]. eexists. split; [reflexivity|]. apply is_bv_intro; auto.
  rewrite M4, E4. f_equal. lia.
Qed.

Lemma from_bytes_le_panics m bytes w : 0 < w -> 8 * ((w + 63) / 64) < len bytes ->
  panics (bv_from_bytes_le m bytes w).
Proof.
  intros Hw HL. unfold bv_from_bytes_le, from_bytes_le.
  rewrite div_ceil_eq, zeros_len, N.leb_refl, debug_assert_true. cbn [bind].
  replace (w =? 0) with false by lia. rewrite clear_zeros.
  destruct (from_bytes_loop_panics bytes 0 (value_vec_zeros w)) as (p & ->);
    rewrite ?zeros_len; try lia.
  eexists. reflexivity.
Qed.

Lemma bytes_round_trip m v w x : is_bv v w x -> bv_from_bytes_le m (bv_to_bytes_le v) w = Ok v.
Proof.
  intros H. destruct (to_bytes_le_ok v w x H) as (L & B & V).
  apply yields_is_bv with (w := w) (n := x); auto.
  eapply yields_eq; [apply from_bytes_le_ok; auto|].
  - now apply is_bv_w in H.
  - right. rewrite L. clear. dlia.
  - rewrite V. apply mod_small_pow. now apply is_bv_lt in H.
Qed.

(** ** to_big_uint / to_big_int *)

Lemma words_to_u32_ok l : Words l ->
  exists r, words_to_u32 l = Ok r /\ from_u32_slice r = wv l.
Proof.
  induction l as [|x t IH]; intros H; [eexists; split; reflexivity|].
  inversion H; subst. destruct (IH H3) as (r & E1 & E2). cbn [words_to_u32].
  rewrite ar_mask_pos by lia. cbn [bind]. rewrite E1. cbn [bind]. eexists. split; [reflexivity|].
  cbn [from_u32_slice]. rewrite !land_ones_sub, wshr_div by lia. rewrite wv_cons, E2.
  unfold as_u32. rewrite B32_eq, !N.mod_mod by apply pow_nz.
  rewrite (N.mod_small (x / 2 ^ 32)) by (apply div_lt_pow; auto).
  assert (D := N.div_mod x (2 ^ 32) ltac:(apply pow_nz)).
  rewrite N.mul_add_distr_l, N.mul_assoc, <- N.pow_add_r. change (32 + 32) with 64.
  rewrite D at 3. ring.
Qed.

Lemma to_big_uint_ok v w x : is_bv v w x -> bv_to_big_uint v = Ok x.
Proof.
  intros H. apply is_bv_inv in H as (E & H32 & Hl & HW & Hv & Hx).
  unfold bv_to_big_uint, to_big_uint. destruct (words_to_u32_ok _ HW) as (r & E1 & E2).
  rewrite E1. cbn [bind]. congruence.
Qed.

Lemma wrap_neg_abs w x : 0 < w -> x < 2 ^ w -> 2 ^ (w - 1) <= x ->
  wrap w (- Z.of_N x) = 2 ^ w - x.
Proof.
  intros Hw Hx Hn. assert (0 < 2 ^ (w - 1)) by apply pow_pos.
  apply wrap_eq with (k := (-1)%Z); [lia|]. lia.
Qed.

Lemma get_sign_is_neg : get_sign = ar_is_neg.
Proof. reflexivity. Qed.

Lemma to_big_int_ok m v w x : is_bv v w x -> bv_to_big_int m v = Ok (signed w x).
Proof.
  intros H. assert (HH := H). apply is_bv_inv in H as (E & H32 & Hl & HW & Hv & Hx).
  unfold bv_to_big_int, to_big_int. rewrite E. destruct (w =? 0) eqn:E0.
  { replace w with 0 in * by lia. replace x with 0 by (clear - Hx; lia). reflexivity. }
  assert (Hw : 0 < w) by lia. rewrite get_sign_is_neg, (is_neg_ok m v w x Hw HH). cbn [bind].
  destruct (2 ^ (w - 1) <=? x) eqn:C.
  - destruct (negate_wres m (repeat 0 (length (words v))) (words v) w) as (l & E1 & E2 & E3 & E4); auto.
    { rewrite len_repeat. reflexivity. } { rewrite Hv. auto. }
    rewrite E1. cbn [bind]. destruct (words_to_u32_ok _ E3) as (r & R1 & R2). rewrite R1. cbn [bind].
    unfold big_int_from_slice. rewrite R2, E4, Hv, wrap_neg_abs by (auto; lia).
    rewrite signed_neg by auto. rewrite C. f_equal. lia.
  - cbn [bind]. destruct (words_to_u32_ok _ HW) as (r & R1 & R2). rewrite R1. cbn [bind].
    unfold big_int_from_slice. rewrite signed_neg, C by auto. congruence.
Qed.

(** ** from_big_uint / from_big_int *)

Lemma u64_digits_fuel_ok f n : N.size n <= 64 * N.of_nat f ->
  Words (u64_digits_fuel f n) /\ wv (u64_digits_fuel f n) = n
  /\ len (u64_digits_fuel f n) = (N.size n + 63) / 64.
Proof.
  revert n; induction f as [|f IH]; intros n H; cbn [u64_digits_fuel].
  - destruct n; [|cbn [N.size] in H; lia]. repeat split. constructor.
  - destruct (n =? 0) eqn:E.
    { replace n with 0 by lia. repeat split. constructor. }
    rewrite B64_eq. destruct (N.lt_ge_cases (N.size n) 65) as [C|C].
    + assert (S := N.size_gt n). assert (n < 2 ^ 64).
      { apply (N.lt_le_trans _ _ _ S). apply pow_le. lia. }
      rewrite N.mod_small, N.div_small by auto.
      assert (Z0 : u64_digits_fuel f 0 = []) by (destruct f; reflexivity). rewrite Z0.
      split; [constructor; auto; constructor|]. split; [rewrite wv_cons; cbn [words_val]; lia|].
      change (len [n]) with 1. assert (N.size n <> 0) by (destruct n; [lia|discriminate]).
      clear - C H1. dlia.
    + assert (Sz : N.size (n / 2 ^ 64) = N.size n - 64).
      { rewrite !N.size_log2.
        - change (2 ^ 64) with (2 ^ 64). rewrite <- N.shiftr_div_pow2, N.log2_shiftr.
          rewrite N.size_log2 in C by lia. lia.
        - lia.
        - intros Z0. assert (n < 2 ^ 64) by (apply N.div_small_iff in Z0; auto; apply pow_nz).
          assert (N.size n <= 64); [|lia]. rewrite N.size_log2 by lia.
          assert (N.log2 n < 64); [|lia]. apply N.log2_lt_pow2; lia. }
      destruct (IH (n / 2 ^ 64)) as (I1 & I2 & I3); [rewrite Sz; lia|].
      split; [constructor; auto; apply mod_lt|].
      split; [rewrite wv_cons, I2; symmetry; rewrite N.add_comm; apply N.div_mod, pow_nz|].
      rewrite len_cons, I3, Sz. clear - C. dlia.
Qed.

Lemma u64_digits_ok n : Words (u64_digits n) /\ wv (u64_digits n) = n
  /\ len (u64_digits n) = (N.size n + 63) / 64.
Proof. apply u64_digits_fuel_ok. lia. Qed.

Lemma copy_digits_ok out iter : copy_digits out iter
  = (firstn (length out) iter ++ skipn (length iter) out, N.min (len out) (len iter)).
Proof.
  revert iter; induction out as [|o out IH]; intros [|d iter]; cbn [copy_digits]; auto.
  rewrite IH. cbn [length firstn skipn app]. f_equal. rewrite !len_cons. lia.
Qed.

Lemma iter_to_word_ok m n w : 0 < w ->
  wres (iter_to_word m (u64_digits n) w (value_vec_zeros w)) w (n mod 2 ^ w).
Proof.
  intros Hw. destruct (u64_digits_ok n) as (D1 & D2 & D3). unfold iter_to_word.
  replace (w =? 0) with false by lia. rewrite div_ceil_eq, zeros_len, N.leb_refl, debug_assert_true.
  cbn [bind]. rewrite copy_digits_ok, zeros_len.
  set (d := u64_digits n) in *. assert (Lz := zeros_len w).
  assert (Bd := wv_bound d D1). rewrite D2 in Bd.
  destruct (N.le_gt_cases ((w + 63) / 64) (len d)) as [C|C].
  - replace (N.min ((w + 63) / 64) (len d)) with ((w + 63) / 64) by lia. rewrite N.compare_refl.
    rewrite (skipn_all2 (value_vec_zeros w)) by (unfold len in *; lia). rewrite app_nil_r.
    assert (Lf : len (firstn (length (value_vec_zeros w)) d) = (w + 63) / 64).
    { rewrite len_firstn; unfold len in *; lia. }
    eapply wres_eq; [apply mask_wres; auto; now apply Words_firstn|].
    rewrite wv_firstn, D2 by auto. apply mod_mod_le. fold (len (value_vec_zeros w)).
    rewrite zeros_len. apply ceil_mul.
  - replace (N.min ((w + 63) / 64) (len d)) with (len d) by lia.
    replace ((w + 63) / 64 ?= len d) with Gt by (symmetry; apply N.compare_gt_iff; auto).
    rewrite (firstn_all2 d) by (unfold len in *; lia).
    assert (Ed : N.to_nat (len d) = length d) by (unfold len; lia).
    rewrite firstn_app_exact, skipn_app_exact by auto.
    eexists. split; [reflexivity|]. split; [|split].
    + rewrite len_app, len_map, len_skipn, Lz. unfold len in *. lia.
    + apply Words_app; auto.
    + rewrite wv_app, wv_map0, N.mul_0_r, N.add_0_r, D2. symmetry. apply mod_small_pow.
      apply (N.lt_le_trans _ _ _ Bd). apply pow_le. clear - C. dlia.
Qed.

Lemma from_big_uint_ok m n w : w < 2 ^ 32 -> yields (bv_from_big_uint m n w) w (n mod 2 ^ w).
Proof.
  intros H32. unfold bv_from_big_uint, from_big_uint. destruct (N.eq_dec w 0) as [->|Hw].
  { cbn. rewrite N.mod_1_r. eexists. split; [reflexivity|]. apply (zero_is_bv 0). lia. }
  apply wres_yields; auto. apply iter_to_word_ok. lia.
Qed.

Lemma wrap_neg_mod w n : wrap w (- Z.of_N (n mod 2 ^ w)) = wrap w (- Z.of_N n).
Proof.
  destruct (wrap_spec w (- Z.of_N n)) as (k & E).
  apply wrap_eq with (k := (k + Z.of_N (n / 2 ^ w))%Z); [apply wrap_lt|].
  assert (D := N.div_mod n (2 ^ w) (pow_nz w)).
  assert (E2 : (Z.of_N (n mod 2 ^ w) = Z.of_N n - Z.of_N (n / 2 ^ w) * Z.of_N (2 ^ w))%Z).
  { rewrite D at 2. rewrite N2Z.inj_add, N2Z.inj_mul. ring. }
  rewrite E2. rewrite Z.mul_add_distr_r. lia.
Qed.

Lemma from_big_int_ok m z w : 0 < w -> w < 2 ^ 32 -> yields (bv_from_big_int m z w) w (wrap w z).
Proof.
  intros Hw H32. unfold bv_from_big_int, from_big_int.
  destruct (iter_to_word_ok m (Z.abs_N z) w Hw) as (l & E1 & E2 & E3 & E4).
  rewrite E1. cbn [bind]. destruct (z <? 0)%Z eqn:C.
  - apply wres_yields; auto.
    eapply wres_eq; [apply negate_wres; auto|].
    + rewrite E4. apply mod_lt.
    + rewrite E4, wrap_neg_mod. f_equal. lia.
  - cbn [bind]. eexists. split; [reflexivity|]. apply is_bv_intro; auto.
    rewrite E4, <- wrap_mod. f_equal. lia.
Qed.

Lemma from_big_uint_w0 m n : bv_from_big_uint m n 0 = Ok (bv_zero 0).
Proof. reflexivity. Qed.

(** ** Width of a big integer *)

Lemma last_digit n : n <> 0 -> exists d, last_opt (u64_digits n) = Some d /\
  len (u64_digits n) * 64 - leading_zeros64 d = N.size n /\ leading_zeros64 d <= 64.
Proof.
  intros Hn. destruct (u64_digits_ok n) as (D1 & D2 & D3). set (d := u64_digits n) in *.
  assert (Sn : N.size n <> 0) by (destruct n; [lia|discriminate]).
  destruct (rev_cons_inv d) as (t & x & E).
  { intros E. rewrite E in D3. change (@len N []) with 0 in D3. clear - D3 Sn. dlia. }
  rewrite E, last_opt_app. exists x. split; [auto|].
  rewrite E in D1, D2, D3. apply Forall_app in D1 as (W1 & W2).
  assert (Hx := Forall_inv W2). cbv beta in Hx.
  rewrite wv_app in D2. cbn [words_val] in D2. rewrite N.mul_0_r, N.add_0_r in D2.
  rewrite len_app in *. change (len [x]) with 1 in *.
  assert (Bt := wv_bound t W1).
  assert (Ex : x = n / 2 ^ (64 * len t)) by (rewrite <- D2; symmetry; now apply add_mul_div).
  assert (Hs : 64 * len t < N.size n) by (clear - D3 Sn; dlia).
  assert (Lg : N.size n = N.log2 n + 1) by (rewrite N.size_log2; lia).
  assert (Hx0 : x <> 0).
  { intros ->. assert (n < 2 ^ (64 * len t)) by lia.
    assert (N.log2 n < 64 * len t) by (apply N.log2_lt_pow2; lia). lia. }
  assert (Sx : N.size x = N.size n - 64 * len t).
  { rewrite (N.size_log2 x Hx0), Ex, <- N.shiftr_div_pow2, N.log2_shiftr, Lg. lia. }
  assert (Sx64 : N.size x <= 64).
  { rewrite (N.size_log2 x Hx0). assert (N.log2 x < 64) by (apply N.log2_lt_pow2; lia). lia. }
  unfold leading_zeros64. lia.
Qed.

Lemma count_ok m n : n <> 0 -> N.size n < 2 ^ 32 - 63 ->
  exists d, as_u32 (len (u64_digits n)) = len (u64_digits n) /\ len (u64_digits n) <> 0
    /\ last_opt (u64_digits n) = Some d
    /\ (let* t := u32_mul m (len (u64_digits n)) 64 in u32_sub m t (leading_zeros64 d)) = Ok (N.size n).
Proof.
  intros Hn Hs. destruct (last_digit n Hn) as (d & E1 & E2 & E3). exists d.
  destruct (u64_digits_ok n) as (_ & _ & L).
  assert (Sn : N.size n <> 0) by (destruct n; [lia|discriminate]).
  remember (len (u64_digits n)) as k. clear Heqk.
  assert (Hk : k <> 0 /\ k * 64 < 2 ^ 32) by (clear - L Hs Sn; dlia). destruct Hk as (Hk & Hk2).
  split; [unfold as_u32; rewrite B32_eq; apply N.mod_small; lia|]. split; [auto|]. split; [auto|].
  unfold u32_mul. rewrite B32_eq. replace (k * 64 <? 2 ^ 32) with true by lia. cbn [bind].
  rewrite u32_sub_ok by lia. congruence.
Qed.

Lemma of_big_uint_ok m n : N.size n < 2 ^ 32 - 63 ->
  exists v, bv_of_big_uint m n = Ok v /\ is_bv v (N.size n) n /\ bv_to_big_uint v = Ok n.
Proof.
  intros Hs. assert (E : count_big_uint_bits m n = Ok (N.size n)).
  { unfold count_big_uint_bits. destruct (N.eq_dec n 0) as [->|Hn]; [reflexivity|].
    destruct (count_ok m n Hn Hs) as (d & E1 & E2 & E3 & E4). rewrite E1, E3.
    replace (len (u64_digits n) =? 0) with false by lia. cbn [unwrap bind]. exact E4. }
  unfold bv_of_big_uint. rewrite E. cbn [bind].
  destruct (from_big_uint_ok m n (N.size n)) as (v & V1 & V2); [lia|].
  rewrite mod_small_pow in V2 by apply N.size_gt.
  exists v. split; [auto|]. split; [auto|]. now apply to_big_uint_ok in V2.
Qed.

Lemma of_big_int_ok m z : N.size (Z.abs_N z) < 2 ^ 32 - 63 ->
  exists v, bv_of_big_int m z = Ok v /\ is_bv v (N.size (Z.abs_N z) + 1) (wrap (N.size (Z.abs_N z) + 1) z)
    /\ bv_to_big_int m v = Ok z.
Proof.
  intros Hs. set (n := Z.abs_N z) in *.
  assert (E : count_big_int_bits m z = Ok (N.size n + 1)).
  { unfold count_big_int_bits. fold n. destruct (N.eq_dec n 0) as [->|Hn]; [reflexivity|].
    destruct (count_ok m n Hn Hs) as (d & E1 & E2 & E3 & E4). rewrite E1, E3.
    replace (len (u64_digits n) =? 0) with false by lia. cbn [unwrap bind].
    rewrite (bind_bind_ok _ _ (fun t => u32_add m t 1) _ E4). apply u32_add_ok. lia. }
  unfold bv_of_big_int. rewrite E. cbn [bind].
  destruct (from_big_int_ok m z (N.size n + 1)) as (v & V1 & V2); [lia|lia|].
  exists v. split; [auto|]. split; [auto|]. rewrite (to_big_int_ok m _ _ _ V2). f_equal.
  apply signed_of_wrap; [lia|]. assert (S := N.size_gt n).
  replace (Z.of_N (N.size n + 1) - 1)%Z with (Z.of_N (N.size n)) by lia. rewrite Zpow. lia.
Qed.
