(** * PLoadText: numbers and texts read from loaded values (C98). *)

From Coq Require Import ZifyBool ZifyNat ZifyN.
From Verif Require Import Base Arith Strings Bytes BigInt Bv Spec TextSpec CallSpec PanicSpec MixedSpec AnswerSpec LoadSpec.
From Verif Require Import PWords PArith PShift PCompare PConv PIo PText PLaws PDirty PMixed PAnswer PLoad PLoadShift.
Ltac Zify.zify_post_hook ::= idtac.

Lemma sign_mod w c : (sign_bit w c + 1) mod 64 = w mod 64.
Proof. unfold sign_bit. dlia. Qed.
Lemma shown_words w c : 0 < c -> (shown_bits w c + 63) / 64 = c.
Proof.
  intros H. unfold shown_bits, sign_bit.
  pose proof (N.mod_lt (w + 63) 64 ltac:(discriminate)) as M. revert M. generalize ((w + 63) mod 64).
  intros r M. clear - H M. dlia.
Qed.
Lemma shown_own w : 0 < w -> shown_bits w (places w) = w.
Proof. intros H. unfold shown_bits, sign_bit, places. clear - H. dlia. Qed.
Lemma shown_last w : 0 < w -> (w - 1) mod 64 + 1 = (w + 63) mod 64 + 1.
Proof. intros H. dlia. Qed.
Lemma nonempty v : count v <> 0 -> words v <> [].
Proof. intros H E. apply H. unfold count. now rewrite E. Qed.
Lemma first_word v : loaded v -> count v <> 0 ->
  exists x t, words v = x :: t /\ x < 2 ^ 64 /\ Words t /\ x = uval v mod 2 ^ 64
    /\ uval v = x + 2 ^ 64 * wv t /\ idx (words v) 0 = Ok x /\ count v = len t + 1.
Proof.
  intros (_ & F) H. apply nonempty in H. unfold uval, count. destruct (words v) as [|x t]; [easy|].
  inversion_clear F as [|? ? Hx Ht]. exists x, t.
  rewrite wv_cons, len_cons. rewrite (add_mul_mod0 x) by auto. repeat (split; auto).
Qed.
Lemma no_words v : count v = 0 -> words v = [].
Proof. intros H. now apply len_0. Qed.

Lemma bit_str_load v : loaded v -> gives (bv_to_bit_str v) (load_bit_str v).
Proof.
  intros (Hw & F). unfold bv_to_bit_str, to_bit_str, load_bit_str.
  destruct (N.eqb_spec (width v) 0) as [Z|Z]; cbn [gives].
  { unfold to_bit_str_internal. rewrite Z. reflexivity. }
  destruct (N.eqb_spec (count v) 0) as [C|C]; cbn [gives].
  { unfold to_bit_str_internal. rewrite (no_words v C). apply N.eqb_neq in Z. rewrite Z. eexists. reflexivity. }
  rewrite to_bit_str_words; auto using nonempty; [|clear - Z; lia].
  cbn [app]. etransitivity; [|symmetry; apply (f_equal Ok), digits_dt]. do 2 f_equal. rewrite shown_last by (clear - Z; lia).
  unfold shown_bits, sign_bit, count, len in *. clear - C. lia.
Qed.

Lemma odd_count_false m v : odd_count m v = false -> m = Release \/ places (width v) = count v.
Proof. unfold odd_count. destruct m; intros H; [right; lia|left; reflexivity]. Qed.
Lemma odd_count_true m v : odd_count m v = true -> m = Debug /\ places (width v) <> count v.
Proof. unfold odd_count. destruct m; intros H; [split; [auto|lia]|discriminate]. Qed.

Lemma hex_str_load m v : loaded v -> gives (bv_to_hex_str m v) (load_hex_str m v).
Proof.
  intros (Hw & F). unfold bv_to_hex_str, to_hex_str, load_hex_str.
  destruct (odd_count m v) eqn:O; cbn [gives].
  { apply odd_count_true in O as (-> & O). unfold to_hex_str_internal. rewrite div_ceil_eq.
    unfold places, count in O. rewrite (proj2 (N.eqb_neq _ _) O). eexists. reflexivity. }
  assert (A : debug_assert m (div_ceil (width v) 64 =? len (words v)) = Ok tt).
  { apply odd_count_false in O as [->|O]; [reflexivity|]. rewrite div_ceil_eq.
    unfold places, count in O. rewrite O, N.eqb_refl. destruct m; reflexivity. }
  destruct (N.eqb_spec (width v) 0) as [Z|Z]; cbn [gives].
  { unfold to_hex_str_internal. rewrite A, Z. reflexivity. }
  destruct (N.eqb_spec (count v) 0) as [C|C]; cbn [gives].
  { unfold to_hex_str_internal. rewrite A. cbn [bind]. rewrite (no_words v C). apply N.eqb_neq in Z. rewrite Z.
    eexists. reflexivity. }
  set (e := shown_bits (width v) (count v)).
  assert (E : (e + 63) / 64 = len (words v)) by (apply shown_words; unfold count in *; clear - C; lia).
  pose proof (to_hex_str_words Release (words v) e []) as G.
  etransitivity; [|symmetry; apply (f_equal Ok), digits_dt].
  cbn [app] in G. fold (uval v) in G. rewrite <- G; auto; [|unfold e, shown_bits; clear; lia].
  unfold to_hex_str_internal. rewrite A. cbn [bind debug_assert].
  replace (e mod 64) with (width v mod 64) by (symmetry; apply sign_mod).
  rewrite (proj2 (N.eqb_neq _ _) Z). replace (e =? 0) with false by (unfold e, shown_bits; clear; lia). reflexivity.
Qed.

Lemma bytes_load v : loaded v ->
  bv_to_bytes_le v = low_bytes (N.to_nat (N.min (8 * count v) ((width v + 7) / 8))) (uval v).
Proof.
  intros (Hw & F). unfold bv_to_bytes_le, to_bytes_le. rewrite bytes_fold by (auto; unfold len; cbn; lia).
  cbn [app]. change (@len N []) with 0. rewrite N.sub_0_r.
  etransitivity; [|symmetry; apply low_bytes_le]. fold (uval v).
  unfold div_ceil. replace (width v + 8 - 1) with (width v + 7) by (clear; lia). f_equal.
  unfold count, len. clear. lia.
Qed.

Lemma dec_load m v : loaded v ->
  (uval v < 2 ^ 128 -> m = Release \/ width v * 3 < 2 ^ 32 ->
     exists s, bv_to_dec_str m v = Ok s /\ number 10 s = Some (uval v) /\ no_leading_zero s)
  /\ (2 ^ 128 <= uval v \/ (m = Debug /\ 2 ^ 32 <= width v * 3) -> panics (bv_to_dec_str m v)).
Proof.
  intros (Hw & F). unfold uval in *. remember (wv (words v)) as x eqn:Hv. symmetry in Hv. split.
  - intros Hx Hm. unfold bv_to_dec_str, to_dec_str.
    assert (Em : exists z, u32_mul m (width v) 3 = Ok z).
    { unfold u32_mul. rewrite B32_eq. destruct (width v * 3 <? 2 ^ 32) eqn:Eq; eauto.
      destruct m; eauto. destruct Hm; [discriminate|]. apply N.ltb_ge in Eq. clear - Eq H. lia. }
    destruct Em as (z & ->). cbn [bind]. unfold to_dec_str_internal.
    rewrite words_used_ok by auto. rewrite Hv.
    destruct (N.eqb_spec x 0) as [Z|Z].
    { eexists. split; [reflexivity|]. cbn [app]. rewrite Z. split; reflexivity. }
    assert (P : 0 < x) by (clear - Z; lia).
    assert (Hlog : N.log2 x < 128) by (apply N.log2_lt_pow2; auto).
    assert (Hlen : N.log2 x / 64 < len (words v)).
    { pose proof (wv_bound _ F) as B. rewrite Hv in B. apply N.log2_lt_pow2 in B; auto.
      revert B. generalize (N.log2 x). clear. intros; dlia. }
    assert (C : N.log2 x / 64 = 0 \/ N.log2 x / 64 = 1).
    { revert Hlog. generalize (N.log2 x). clear. intros; dlia. }
    destruct C as [C|C]; rewrite C in *; cbn [N.add Pos.add Pos.succ].
    + change (0 + 1) with 1. cbn iota. rewrite idx_ok by exact Hlen. cbn [bind app].
      change (N.to_nat 0) with O. rewrite wv_nth by auto. rewrite Hv.
      change (N.of_nat 0) with 0. rewrite N.mul_0_r, N.pow_0_r, N.div_1_r.
      assert (x < 2 ^ 64).
      { apply N.log2_lt_pow2; auto. revert C. generalize (N.log2 x). clear. intros; dlia. }
      rewrite mod_small_pow by auto. eexists. split; [reflexivity|]. apply display_dec_ok; auto.
    + change (1 + 1) with 2. cbn iota. unfold words_to_u128.
      replace (2 <=? len (words v)) with true by (clear - Hlen; lia). rewrite debug_assert_true.
      cbn [bind]. rewrite !idx_ok by (clear - Hlen; lia). cbn [bind app]. rewrite !wv_nth by auto. rewrite Hv.
      change (N.of_nat (N.to_nat 1)) with 1. change (N.of_nat (N.to_nat 0)) with 0.
      rewrite N.mul_1_r, N.mul_0_r, N.pow_0_r, N.div_1_r.
      rewrite (mod_small_pow (x / 2 ^ 64)) by (apply div_lt_pow; auto).
      rewrite N.shiftl_mul_pow2, N.mul_comm, lor_add' by auto.
      rewrite N.add_comm, <- N.div_mod by auto.
      eexists. split; [reflexivity|]. apply display_dec_ok; auto.
  - intros [Hx|(-> & Hm)]; unfold bv_to_dec_str, to_dec_str.
    + destruct (u32_mul m (width v) 3); [|eexists; reflexivity].
      cbn [bind]. unfold to_dec_str_internal. rewrite words_used_ok by auto. rewrite Hv.
      assert (P : 0 < x) by (eapply N.lt_le_trans; [|exact Hx]; reflexivity).
      replace (x =? 0) with false by (clear - P; lia).
      assert (Hlog : 128 <= N.log2 x) by (apply N.log2_le_pow2; auto).
      assert (C : 3 <= N.log2 x / 64 + 1).
      { revert Hlog. generalize (N.log2 x). clear. intros; dlia. }
      revert C. generalize (N.log2 x / 64 + 1). clear. intros n C.
      destruct n as [|[p|[p|p|]|]]; try lia; eexists; reflexivity.
    + unfold u32_mul. rewrite B32_eq. apply N.ltb_ge in Hm. rewrite Hm. eexists. reflexivity.
Qed.

Lemma big_int_load m v : loaded v -> gives (bv_to_big_int m v) (load_big_int m v).
Proof.
  intros (Hw & F). unfold bv_to_big_int, to_big_int, load_big_int.
  destruct (N.eqb_spec (width v) 0) as [Z|Z]; cbn [gives]; [reflexivity|].
  pose proof (neg_any m (words v) (width v) F Hw) as G. fold (count v) (uval v) in G.
  rewrite get_sign_is_neg.
  destruct (N.eqb_spec (count v) 0) as [C|C].
  { rewrite C in G. cbn [signless N.eqb orb answers] in G. destruct G as (p & ->). eexists. reflexivity. }
  replace (signless m (width v) (count v)) with false in G.
  2:{ unfold signless. rewrite (proj2 (N.eqb_neq _ _) Z), (proj2 (N.eqb_neq _ _) C). reflexivity. }
  cbn [answers] in G. rewrite G. cbn [bind]. unfold shown_bits.
  replace (sign_bit (width v) (count v) + 1 - 1) with (sign_bit (width v) (count v)) by (clear; lia).
  destruct (N.testbit (uval v) (sign_bit (width v) (count v))) eqn:T.
  - unfold ar_negate. rewrite len_repeat. fold (len (words v)). rewrite N.eqb_refl. cbn [assert bind].
    destruct (odd_count m v) eqn:O; cbn [gives].
    { apply odd_count_true in O as (-> & O). unfold ar_negate_in_place, ar_mask_msb.
      rewrite div_ceil_eq. assert (L : len (ar_negate_loop 1 (words v)) = count v).
      { rewrite negate_loop_add. unfold count.
        destruct (add_loop_ok 1 (words v) (repeat 0 (length (words v))) (map wnot (words v))) as (_ & L & _);
          rewrite ?len_map, ?len_repeat; auto; try apply Words_map_wnot; auto; clear; lia. }
      rewrite L. unfold places in O. rewrite (proj2 (N.eqb_neq _ _) O). eexists. reflexivity. }
    set (e := sign_bit (width v) (count v) + 1) in *.
    assert (E0 : 0 < e) by (unfold e; clear; lia).
    assert (Le : len (words v) = (e + 63) / 64).
    { symmetry. apply shown_words. unfold count in *. clear - C. lia. }
    assert (N1 : ar_negate_in_place m (words v) (width v) = ar_negate_in_place m (words v) e).
    { unfold ar_negate_in_place, ar_mask_msb. replace (e mod 64) with (width v mod 64) by (symmetry; apply sign_mod).
      apply odd_count_false in O as [->|O]; [reflexivity|].
      rewrite !div_ceil_eq. fold (places (width v)). rewrite O. unfold count. now rewrite Le. }
    rewrite N1. destruct (dirty_negate_wres m (words v) e E0 F Le) as (l & E1 & E2 & E3 & E4).
    rewrite E1. cbn [bind]. destruct (words_to_u32_ok _ E3) as (r & R1 & R2). rewrite R1. cbn [bind].
    fold (uval v) in E4. set (x := uval v) in *.
    unfold big_int_from_slice. rewrite R2, E4.
    assert (B : x mod 2 ^ e < 2 ^ e) by apply mod_lt.
    assert (C' : 2 ^ (e - 1) <=? x mod 2 ^ e = true).
    { rewrite <- testbit_top by auto. rewrite N.mod_pow2_bits_low by (clear - E0; lia).
      unfold e. replace (sign_bit (width v) (count v) + 1 - 1) with (sign_bit (width v) (count v)) by (clear; lia). auto. }
    assert (W : wrap e (- Z.of_N x) = wrap e (- Z.of_N (x mod 2 ^ e))).
    { apply wrap_cong with (k := (- Z.of_N (x / 2 ^ e))%Z).
      pose proof (N.div_mod x (2 ^ e) ltac:(apply pow_nz)) as D. clear - D. nia. }
    apply N.leb_le in C' as C''.
    rewrite W, wrap_neg_abs by auto. rewrite signed_neg by auto. rewrite C'. f_equal.
    clear - B. lia.
  - cbn [bind gives]. destruct (words_to_u32_ok _ F) as (r & R1 & R2). rewrite R1. cbn [bind].
    unfold big_int_from_slice. rewrite R2. reflexivity.
Qed.

Lemma i64_load m v : loaded v -> gives (bv_to_i64 m v) (load_i64 m v).
Proof.
  intros Lv. pose proof Lv as (Hw & F). unfold bv_to_i64, load_i64.
  destruct (N.eqb_spec (width v) 0) as [Z|Z].
  { rewrite Z. reflexivity. }
  destruct (N.eqb_spec (count v) 0) as [C|C].
  { assert (I : idx (words v) 0 = Panic PIndex) by (rewrite (no_words v C); reflexivity).
    rewrite I. cbn [gives]. destruct (width v <=? 64); [|eexists; reflexivity].
    destruct (width v =? 64); [eexists; reflexivity|].
    destruct (debug_assert m _); cbn [bind]; [|eexists; reflexivity].
    destruct (ar_is_neg _ _ _) as [[|]|]; cbn [bind]; [|eexists; reflexivity|eexists; reflexivity].
    destruct (ar_mask _); eexists; reflexivity. }
  destruct (first_word v Lv C) as (x & t & E & Hx & Ht & Ex & En & I & Lt).
  rewrite I. destruct (N.leb_spec (width v) 64) as [L|L].
  - destruct (N.eqb_spec (width v) 64) as [W|W].
    { rewrite W. cbn [gives bind]. change (64 <? 64) with false. cbv iota. cbn [gives].
      rewrite u64_as_i64_signed, <- Ex. reflexivity. }
    assert (W1 : width v < 64) by (clear - L W; lia). apply N.ltb_lt in W1 as W2. rewrite W2.
    assert (P : places (width v) = 1) by (unfold places; clear - L Z; dlia).
    pose proof (neg_any m (words v) (width v) F Hw) as G. fold (count v) (uval v) in *.
    replace (signless m (width v) (count v)) with false in G.
    2:{ unfold signless. rewrite (proj2 (N.eqb_neq _ _) Z), (proj2 (N.eqb_neq _ _) C). reflexivity. }
    cbn [answers] in G.
    destruct (odd_count m v) eqn:O; cbn [gives].
    { apply odd_count_true in O as (-> & O). rewrite P in O. fold (count v).
      replace (count v =? 1) with false by (clear - O; lia). eexists. reflexivity. }
    assert (A : debug_assert m (len (words v) =? 1) = Ok tt).
    { apply odd_count_false in O as [->|O]; [reflexivity|]. fold (count v). rewrite <- O, P.
      destruct m; reflexivity. }
    fold (count v) in A. rewrite A. cbn [bind]. rewrite G. cbn [bind].
    destruct (N.testbit (uval v) (sign_bit (width v) (count v))); cbn [gives].
    2:{ rewrite u64_as_i64_signed, <- Ex. reflexivity. }
    rewrite ar_mask_pos by (clear - W1; lia). cbn [bind].
    pose proof (lor_hides x (width v - 1)) as LH. replace (width v - 1 + 1) with (width v) in LH by (clear - Z; lia).
    rewrite LH by (auto; clear - W1 Z; lia). clear LH.
    rewrite lor_signs by (auto using mod_lt; clear - Z; lia).
    assert (Em : x mod 2 ^ width v = uval v mod 2 ^ width v).
    { rewrite Ex. apply mod_mod_le. clear - W1. lia. }
    rewrite Em, u64_as_i64_signed. do 2 f_equal.
    assert (B : uval v mod 2 ^ width v < 2 ^ width v) by apply mod_lt.
    assert (P1 : 2 ^ width v <= 2 ^ 63) by (apply pow_le; clear - W1; lia).
    unfold signed. change (2 ^ (64 - 1)) with (2 ^ 63). change (2 ^ Z.of_N 64)%Z with (Z.of_N (2 * 2 ^ 63)).
    change (2 ^ 64) with (2 * 2 ^ 63).
    revert B P1. generalize (2 ^ width v) (uval v mod 2 ^ width v) (2 ^ 63). clear. intros a b c B P1.
    replace (b + (2 * c - a) <? c) with false by lia. lia.
  - replace (width v <? 64) with false by (clear - L; lia).
    replace (width v =? 64) with false by (clear - L; lia). cbn [bind].
    rewrite E. cbn [skipn]. rewrite is_neg_words.
    2:{ reflexivity. } 2:{ constructor; auto. } 2:{ reflexivity. }
    cbn [bind gives]. f_equal. rewrite wv_cons. nils. rewrite N.mul_0_r, N.add_0_r.
    rewrite testbit_top by (auto; reflexivity). change (64 - 1) with 63.
    rewrite forallb_zero, forallb_max by auto. rewrite u64_as_i64_signed.
    destruct (N.eqb_spec (count v) 1) as [C1|C1].
    { assert (T0 : t = []) by (apply len_0; clear - C1 Lt; lia). rewrite T0. reflexivity. }
    pose proof (wv_bound t Ht) as Bt.
    assert (Lt1 : 1 <= len t) by (clear - C1 C Lt; lia).
    assert (P64 : 2 ^ 64 <= 2 ^ (64 * len t)) by (apply pow_le; clear - Lt1; lia).
    assert (P64' : 2 ^ 64 = 2 * 2 ^ 63) by reflexivity.
    pose proof (pow_pos 63) as P63.
    assert (Sg : signed 64 x = if 2 ^ 63 <=? x then (Z.of_N x - Z.of_N (2 ^ 64))%Z else Z.of_N x).
    { unfold signed. rewrite (N.ltb_antisym _ x). change (2 ^ (64 - 1)) with (2 ^ 63).
      destruct (2 ^ 63 <=? x); auto. }
    assert (EK : 64 * count v = 64 + 64 * len t) by (rewrite Lt; clear; lia).
    pose proof (wv_bound (words v) F) as Bv. fold (uval v) (count v) in Bv. rewrite EK in Bv |- *.
    unfold i64_result. rewrite (signed_neg (64 + 64 * len t) (uval v)); auto.
    2:{ clear; lia. }
    assert (PK : 2 ^ (64 + 64 * len t) = 2 ^ 64 * 2 ^ (64 * len t)) by apply N.pow_add_r.
    assert (PH : 2 ^ (64 + 64 * len t) = 2 * 2 ^ (64 + 64 * len t - 1)).
    { rewrite <- pow_S. f_equal. clear; lia. }
    change (2 ^ 63)%Z with (Z.of_N (2 ^ 63)). rewrite Sg. clear Ex.
    rename En into Ex. revert Ex PK PH P64 Bt.
    generalize (uval v) (2 ^ (64 + 64 * len t)) (2 ^ (64 + 64 * len t - 1)) (2 ^ (64 * len t)) (wv t).
    intros n K2 K1 K0 q Ex PK PH P64 Bt. clear - Ex PK PH P64 Bt Hx P64' P63. rewrite P64' in *.
    revert P63. generalize dependent (2 ^ 63). intros Q. intros.
    destruct (N.eqb_spec q 0) as [Z0|Z0].
    + replace (q =? K0 - 1) with false by lia. subst q. rewrite N.mul_0_r, N.add_0_r in Ex. subst x.
      replace (K1 <=? n) with false by nia.
      destruct (N.leb_spec Q n) as [C|C].
      * replace ((- Z.of_N Q <=? Z.of_N n) && (Z.of_N n <? Z.of_N Q))%Z with false by lia. reflexivity.
      * replace ((- Z.of_N Q <=? Z.of_N n) && (Z.of_N n <? Z.of_N Q))%Z with true by lia. reflexivity.
    + destruct (N.eqb_spec q (K0 - 1)) as [Zm|Zm].
      * assert (Ex' : n + 2 * Q = x + K2) by nia. replace (K1 <=? n) with true by nia.
        destruct (N.leb_spec Q x) as [C|C].
        -- replace ((- Z.of_N Q <=? Z.of_N n - Z.of_N K2) && (Z.of_N n - Z.of_N K2 <? Z.of_N Q))%Z with true by lia.
           f_equal. lia.
        -- replace ((- Z.of_N Q <=? Z.of_N n - Z.of_N K2) && (Z.of_N n - Z.of_N K2 <? Z.of_N Q))%Z with false by lia.
           reflexivity.
      * assert (B1 : 2 * Q <= n) by nia. assert (B2 : n + 2 * Q < K2) by nia.
        destruct (K1 <=? n).
        -- replace ((- Z.of_N Q <=? Z.of_N n - Z.of_N K2) && (Z.of_N n - Z.of_N K2 <? Z.of_N Q))%Z with false by lia.
           reflexivity.
        -- replace ((- Z.of_N Q <=? Z.of_N n) && (Z.of_N n <? Z.of_N Q))%Z with false by lia.
           reflexivity.
Qed.

Lemma bool_load v : loaded v ->
  gives (bv_to_bool v)
    (if width v =? 1 then if count v =? 0 then None else Some (Some (N.odd (uval v))) else Some None)
  /\ answers (bv_is_tru v) (load_word_is v 1)
  /\ answers (bv_is_fals v) (load_word_is v 0).
Proof.
  intros Lv. unfold bv_to_bool, bv_is_tru, bv_is_fals, load_word_is.
  destruct (width v =? 1); [|repeat split].
  destruct (N.eqb_spec (count v) 0) as [C|C].
  { rewrite (no_words v C). repeat split; eexists; reflexivity. }
  destruct (first_word v Lv C) as (x & t & E & Hx & Ht & Ex & En & I & Lt).
  rewrite I, <- Ex. cbn [bind gives answers]. repeat split. unfold ar_word_to_bool. do 2 f_equal.
  rewrite En. change (2 ^ 64) with (2 * 2 ^ 63). rewrite <- N.mul_assoc, N.odd_add_mul_2.
  change 1 with (N.ones 1) at 1. rewrite N.land_ones. change (2 ^ 1) with 2.
  rewrite <- N.bit0_mod, N.bit0_odd. destruct (N.odd x); reflexivity.
Qed.
