(** * PAnswer: what every call that looks at one bit-vector answers (C78). *)

From Coq Require Import QArith ZifyBool ZifyNat ZifyN.
From Verif Require Import Base Arith Strings Bytes BigInt Bv Spec TextSpec IoSpec ProfileSpec CallSpec
  PanicSpec ParseSpec MixedSpec DirtySpec InterpSpec AnswerSpec.
From Verif Require Import PWords PArith PShift PropsArith PCompare PConv PText PParse PropsText PIo PRegister
  PMisc PReject PProfile PCall PShape PPanic PMixed PDirty PInterp.
Local Open Scope N_scope.
Ltac Zify.zify_post_hook ::= idtac.

Lemma digits_dt b k n : digits b k n = dt b k n.
Proof. induction k as [|k IH]; cbn [digits dt]; [reflexivity|]. now rewrite IH. Qed.
Lemma low_bytes_le k : forall n, low_bytes k n = PIo.le k n.
Proof. induction k as [|k IH]; intros n; cbn [low_bytes PIo.le]; [reflexivity|]. now rewrite IH. Qed.

Lemma decimal_eq fuel : forall n acc f, n < 10 ^ N.of_nat fuel -> n < 10 ^ (N.of_nat f + 1) -> (0 < fuel)%nat ->
  dec_digits fuel n acc = decimal_digits f n ++ acc.
Proof.
  induction fuel as [|fuel IH]; intros n acc f Hn Hf H0; [lia|]. cbn [dec_digits].
  assert (L := N.mod_upper_bound n 10 ltac:(lia)).
  assert (D := N.div_mod n 10 ltac:(lia)).
  assert (C : forall d, d < 10 -> c_0 + d = digit_char d).
  { intros d H. unfold digit_char, c_0. now replace (d <? 10) with true by lia. }
  rewrite C by auto.
  destruct (N.eqb_spec (n / 10) 0) as [E|E].
  - assert (N1 : n < 10) by (clear - D L E; nia). rewrite N.mod_small by auto.
    destruct f; cbn [decimal_digits]; [reflexivity|].
    apply N.ltb_lt in N1. rewrite N1. reflexivity.
  - assert (N1 : 10 <= n) by (apply N.nlt_ge; intros K; apply E, N.div_small; auto).
    destruct f as [|f].
    { change (10 ^ (N.of_nat 0 + 1)) with 10 in Hf. clear - Hf N1. lia. }
    cbn [decimal_digits]. replace (n <? 10) with false by lia. rewrite <- app_assoc. cbn [app].
    apply IH.
    + rewrite Nat2N.inj_succ, N.pow_succ_r' in Hn. apply N.div_lt_upper_bound; [lia|auto].
    + replace (N.of_nat (S f) + 1) with (N.succ (N.of_nat f + 1)) in Hf by lia.
      rewrite N.pow_succ_r' in Hf. apply N.div_lt_upper_bound; [lia|auto].
    + destruct fuel; [|lia]. change (10 ^ N.of_nat 1) with 10 in Hn. clear - Hn N1. lia.
Qed.

Lemma display_decimal n : n < 2 ^ 128 -> display_dec n = decimal n.
Proof.
  intros H. unfold display_dec, decimal.
  rewrite (decimal_eq 40 n [] (N.to_nat (N.size n))); [apply app_nil_r| | |lia].
  - apply (N.lt_trans _ _ _ H). reflexivity.
  - rewrite N2Nat.id. pose proof (N.size_gt n) as S.
    apply (N.lt_le_trans _ _ _ S). etransitivity; [apply (N.pow_le_mono_l 2 10 (N.size n)); discriminate|].
    apply N.pow_le_mono_r; lia.
Qed.

Lemma stores_cases a w n : stores a w n -> 0 < w -> exists x0 t, words a = x0 :: t
  /\ x0 < 2 ^ 64 /\ Words t /\ n = x0 + 2 ^ 64 * wv t /\ len t = (w + 63) / 64 - 1.
Proof.
  intros Ha Hw. apply stores_inv in Ha as (Wv & _ & Lv & Fv & Vv & Bv).
  destruct (words a) as [|x0 t]. { nils. dlia. }
  inversion Fv; subst. exists x0, t. rewrite wv_cons. rewrite len_cons in Lv.
  repeat split; auto. dlia.
Qed.

(** ** The answers, one by one *)

Lemma dirty_dec m a w n : stores a w n -> n < 2 ^ 128 -> m = Release \/ w * 3 < 2 ^ 32 ->
  bv_to_dec_str m a = Ok (decimal n).
Proof.
  intros H Hx Hm. apply stores_inv in H as (E & Hw & Hl & HW & Hv & Hxw).
  unfold bv_to_dec_str, to_dec_str. rewrite E.
  assert (Em : exists z, u32_mul m w 3 = Ok z).
  { unfold u32_mul. destruct Hm as [->|Hm]; [destruct (_ <? _); eauto|].
    rewrite B32_eq. apply N.ltb_lt in Hm. rewrite Hm. eauto. }
  destruct Em as (z & ->). cbn [bind]. unfold to_dec_str_internal.
  rewrite words_used_ok by auto. rewrite Hv.
  destruct (n =? 0) eqn:Z.
  { apply N.eqb_eq in Z. subst n. rewrite Z. reflexivity. }
  assert (Hlog : N.log2 n < 128) by (apply N.log2_lt_pow2; [lia|auto]).
  assert (Hlen : N.log2 n / 64 < len (words a)).
  { rewrite Hl. assert (N.log2 n < 64 * ((w + 63) / 64)) by (apply N.log2_lt_pow2; [lia|auto]).
    revert H. generalize (N.log2 n). clear. intros; dlia. }
  assert (C : N.log2 n / 64 = 0 \/ N.log2 n / 64 = 1).
  { revert Hlog. generalize (N.log2 n). clear. intros; dlia. }
  destruct C as [C|C]; rewrite C in *; cbn [N.add Pos.add Pos.succ].
  - change (0 + 1) with 1. cbn iota. rewrite idx_ok by lia. cbn [bind app].
    change (N.to_nat 0) with O. rewrite wv_nth by auto. rewrite Hv.
    change (N.of_nat 0) with 0. rewrite N.mul_0_r, N.pow_0_r, N.div_1_r.
    assert (n < 2 ^ 64).
    { apply N.log2_lt_pow2; [lia|]. revert C. generalize (N.log2 n). clear. intros; dlia. }
    rewrite mod_small_pow by auto. now rewrite display_decimal.
  - change (1 + 1) with 2. cbn iota. unfold words_to_u128.
    replace (2 <=? len (words a)) with true by lia. rewrite debug_assert_true.
    cbn [bind]. rewrite !idx_ok by lia. cbn [bind app]. rewrite !wv_nth by auto. rewrite Hv.
    change (N.of_nat (N.to_nat 1)) with 1. change (N.of_nat (N.to_nat 0)) with 0.
    rewrite N.mul_1_r, N.mul_0_r, N.pow_0_r, N.div_1_r.
    rewrite (mod_small_pow (n / 2 ^ 64)) by (apply div_lt_pow; auto).
    rewrite N.shiftl_mul_pow2, N.mul_comm, lor_add' by auto.
    rewrite N.add_comm, <- N.div_mod by auto.
    now rewrite display_decimal.
Qed.

Lemma dirty_dec_wide m a w n : stores a w n -> 2 ^ 128 <= n -> panics (bv_to_dec_str m a).
Proof.
  intros H Hx. apply stores_inv in H as (E & Hw & Hl & HW & Hv & Hxw).
  unfold bv_to_dec_str, to_dec_str. destruct (u32_mul m (width a) 3); [|eexists; reflexivity].
  cbn [bind]. unfold to_dec_str_internal. rewrite words_used_ok by auto. rewrite Hv.
  replace (n =? 0) with false by lia.
  assert (Hlog : 128 <= N.log2 n) by (apply N.log2_le_pow2; [lia|auto]).
  assert (C : 3 <= N.log2 n / 64 + 1).
  { revert Hlog. generalize (N.log2 n). clear. intros; dlia. }
  destruct (N.log2 n / 64 + 1) as [|[p|[p|p|]|]]; try lia; eexists; reflexivity.
Qed.

Lemma dirty_i64 m a w n : 0 < w -> stores a w n ->
  bv_to_i64 m a
  = Ok (if w <=? 64 then Some (if N.testbit n (w - 1) then signed w (n mod 2 ^ w) else signed 64 n)
        else i64_result (signed (64 * places w) n)).
Proof.
  intros Hw Ha. pose proof (stores_inv _ _ _ Ha) as (Wv & Hw' & Lv & Fv & Vv & Bv).
  destruct (stores_cases a w n Ha Hw) as (x0 & t & E & H0 & Ht & Ex & Lt).
  unfold bv_to_i64. rewrite Wv.
  destruct (N.leb_spec w 64) as [L|L].
  - replace (w =? 0) with false by lia.
    assert (T0 : t = []) by (apply len_0; dlia). subst t. nils.
    rewrite N.mul_0_r, N.add_0_r in Ex. subst x0.
    destruct (N.eqb_spec w 64) as [->|N64].
    + rewrite E. unfold idx. change (N.to_nat 0) with O. cbn [nth_error bind].
      rewrite u64_as_i64_signed, mod_small_pow by auto. destruct (N.testbit n (64 - 1)); auto.
    + rewrite Lv. replace ((w + 63) / 64) with 1 by dlia. change (1 =? 1) with true.
      rewrite debug_assert_true. cbn [bind].
      rewrite is_neg_words, Vv by auto. cbn [bind].
      rewrite E. unfold idx. change (N.to_nat 0) with O. cbn [nth_error bind].
      rewrite !u64_as_i64_signed.
      destruct (N.testbit n (w - 1)) eqn:T; [|reflexivity].
      rewrite ar_mask_pos by lia. cbn [bind].
      pose proof (lor_hides n (w - 1)) as LH. replace (w - 1 + 1) with w in LH by lia.
      rewrite LH by (auto; lia). rewrite lor_signs by (auto using mod_lt; lia).
      assert (Top : 2 ^ (w - 1) <=? n mod 2 ^ w = true).
      { rewrite <- testbit_top by (auto; apply mod_lt). rewrite N.mod_pow2_bits_low by lia. auto. }
      pose proof (signed_wrap w 64 (n mod 2 ^ w) Hw) as S.
      rewrite <- sign_ext_spec in S by (auto using mod_lt; lia). rewrite Top in S.
      rewrite u64_as_i64_signed, S; auto using mod_lt; lia.
  - rewrite E. cbn [skipn]. unfold idx. change (N.to_nat 0) with O. cbn [nth_error bind].
    rewrite is_neg_words.
    2:{ reflexivity. } 2:{ constructor; auto. } 2:{ reflexivity. }
    cbn [bind]. f_equal. rewrite wv_cons. nils. rewrite N.mul_0_r, N.add_0_r.
    rewrite testbit_top by (auto; reflexivity). change (64 - 1) with 63.
    rewrite forallb_zero, forallb_max by auto. rewrite u64_as_i64_signed.
    pose proof (wv_bound t Ht) as Bt.
    assert (Lt1 : 1 <= len t) by (rewrite Lt; dlia).
    assert (P64 : 2 ^ 64 <= 2 ^ (64 * len t)) by (apply pow_le; lia).
    assert (P64' : 2 ^ 64 = 2 * 2 ^ 63) by reflexivity.
    pose proof (pow_pos 63) as P63.
    assert (Sg : signed 64 x0 = if 2 ^ 63 <=? x0 then (Z.of_N x0 - Z.of_N (2 ^ 64))%Z else Z.of_N x0).
    { unfold signed. rewrite (N.ltb_antisym _ x0). change (2 ^ (64 - 1)) with (2 ^ 63).
      destruct (2 ^ 63 <=? x0); auto. }
    assert (EK : 64 * places w = 64 + 64 * len t) by (unfold places; rewrite Lt; dlia).
    rewrite EK. unfold i64_result. rewrite (signed_neg (64 + 64 * len t) n).
    2:{ lia. }
    2:{ unfold places in EK. rewrite EK in Bv. exact Bv. }
    assert (PK : 2 ^ (64 + 64 * len t) = 2 ^ 64 * 2 ^ (64 * len t)) by apply N.pow_add_r.
    assert (PH : 2 ^ (64 + 64 * len t) = 2 * 2 ^ (64 + 64 * len t - 1)).
    { rewrite <- pow_S. f_equal. lia. }
    change (2 ^ 63)%Z with (Z.of_N (2 ^ 63)). rewrite Sg.
    revert Ex PK PH P64 Bt. generalize (2 ^ (64 + 64 * len t)) (2 ^ (64 + 64 * len t - 1)) (2 ^ (64 * len t)) (wv t).
    intros K2 K1 K0 v Ex PK PH P64 Bt. clear - Ex PK PH P64 Bt H0 P64' P63. rewrite P64' in *.
    revert P63. generalize dependent (2 ^ 63). intros Q. intros.
    destruct (N.eqb_spec v 0) as [Z0|Z0].
    + replace (v =? K0 - 1) with false by lia. subst v. rewrite N.mul_0_r, N.add_0_r in Ex. subst x0.
      replace (K1 <=? n) with false by nia.
      destruct (N.leb_spec Q n) as [C|C].
      * replace ((- Z.of_N Q <=? Z.of_N n) && (Z.of_N n <? Z.of_N Q))%Z with false by lia. reflexivity.
      * replace ((- Z.of_N Q <=? Z.of_N n) && (Z.of_N n <? Z.of_N Q))%Z with true by lia. reflexivity.
    + destruct (N.eqb_spec v (K0 - 1)) as [Zm|Zm].
      * assert (Ex' : n + 2 * Q = x0 + K2) by nia. replace (K1 <=? n) with true by nia.
        destruct (N.leb_spec Q x0) as [C|C].
        -- replace ((- Z.of_N Q <=? Z.of_N n - Z.of_N K2) && (Z.of_N n - Z.of_N K2 <? Z.of_N Q))%Z with true by lia.
           f_equal. lia.
        -- replace ((- Z.of_N Q <=? Z.of_N n - Z.of_N K2) && (Z.of_N n - Z.of_N K2 <? Z.of_N Q))%Z with false by lia.
           reflexivity.
      * assert (B1 : 2 * Q <= n) by nia. assert (B2 : n + 2 * Q < K2) by nia.
        destruct (K1 <=? n).
        -- replace ((- Z.of_N Q <=? Z.of_N n - Z.of_N K2) && (Z.of_N n - Z.of_N K2 <? Z.of_N Q))%Z with false by lia.
           reflexivity.
        -- replace ((- Z.of_N Q <=? Z.of_N n) && (Z.of_N n <? Z.of_N Q))%Z with false by lia.
           reflexivity.
Qed.

Lemma dirty_bit_signed m a w n : stores a w n -> 2 <= w ->
  bv_to_bit_str_signed m a
  = Ok (sign w n ++ digits 1 (N.to_nat (signed_bits w)) (shown w n)).
Proof.
  intros H Hw. apply stores_inv in H as (E & H32 & Hl & HW & Hv & Hx).
  unfold bv_to_bit_str_signed, to_bit_str_signed. rewrite E.
  rewrite is_neg_words, Hv by (auto; lia). cbn [bind].
  assert (KE : forall l : list N, len l = (w + 63) / 64 ->
     (N.to_nat ((w - 1 - 1) mod 64 + 1) + 64 * (length l - 1))%nat
     = N.to_nat (signed_bits w)).
  { intros l L. unfold len in L. unfold signed_bits. destruct (w mod 64 =? 1) eqn:M; clear - L M Hw; dlia. }
  unfold sign, shown, top. rewrite digits_dt. destruct (N.testbit n (w - 1)) eqn:Neg.
  - destruct (dirty_negate_wres m (words a) w) as (l' & E1 & E2 & E3 & E4); auto; try lia.
    rewrite E1. cbn [bind]. rewrite u32_sub_ok by lia. cbn [bind].
    rewrite to_bit_str_words; auto; try lia.
    2:{ intros ->. nils. clear - E2 Hw. dlia. }
    rewrite (KE _ E2), E4, Hv. reflexivity.
  - rewrite u32_sub_ok by lia. cbn [bind]. unfold to_bit_str.
    rewrite to_bit_str_words; auto; try lia.
    2:{ intros E2. rewrite E2 in Hl. nils. clear - Hl Hw. dlia. }
    rewrite (KE _ Hl), Hv. reflexivity.
Qed.

Lemma dirty_hex_signed m a w n : stores a w n -> 2 <= w ->
  bv_to_hex_str_signed m a
  = Ok (sign w n ++ digits 4 (N.to_nat ((w - 1 + 3) / 4)) (shown w n)).
Proof.
  intros H Hw. apply stores_inv in H as (E & H32 & Hl & HW & Hv & Hx).
  unfold bv_to_hex_str_signed, to_hex_str_signed. rewrite E.
  rewrite is_neg_words, Hv by (auto; lia). cbn [bind].
  assert (G : forall l out, Words l -> len l = (w + 63) / 64 ->
    (let* ws := select_words_for_width m l (w - 1) in to_hex_str_internal m ws (w - 1) out)
    = Ok (out ++ dt 4 (N.to_nat ((w - 1 + 3) / 4)) (wv l))).
  { intros l out Wl Ll. unfold select_words_for_width. rewrite div_ceil_eq.
    assert (Le : (w - 1 + 63) / 64 <= len l) by (rewrite Ll; apply N.div_le_mono; lia).
    replace (_ <=? len l) with true by lia. rewrite debug_assert_true. cbn [bind].
    rewrite range_ok by lia. cbn [bind]. change (N.to_nat 0) with O. cbn [skipn].
    rewrite N.sub_0_r.
    rewrite to_hex_str_words; auto; try lia.
    2:{ rewrite len_firstn; rewrite N2Nat.id; auto. }
    do 2 f_equal. apply dt_ext. rewrite wv_firstn by auto.
    apply mod_mod_le. rewrite !N2Nat.id. clear. dlia. }
  unfold sign, shown, top. rewrite digits_dt. destruct (N.testbit n (w - 1)) eqn:Neg.
  - destruct (dirty_negate_wres m (words a) w) as (l' & E1 & E2 & E3 & E4); auto; try lia.
    rewrite E1. cbn [bind]. rewrite u32_sub_ok by lia. cbn [bind]. rewrite G by auto.
    rewrite E4, Hv. reflexivity.
  - rewrite u32_sub_ok by lia. cbn [bind]. unfold to_hex_str. rewrite G by auto.
    cbn [app]. rewrite Hv. reflexivity.
Qed.

Lemma dirty_hex m a w n : stores a w n -> bv_to_hex_str m a = Ok (digits 4 (N.to_nat ((w + 3) / 4)) n).
Proof.
  intros H. apply stores_inv in H as (E & H32 & Hl & HW & Hv & Hx).
  unfold bv_to_hex_str, to_hex_str. rewrite E, digits_dt.
  destruct (N.eq_dec w 0) as [->|W].
  - unfold to_hex_str_internal. rewrite Hl. change (div_ceil 0 64 =? (0 + 63) / 64) with true.
    rewrite debug_assert_true. reflexivity.
  - rewrite to_hex_str_words by (auto; lia). rewrite Hv. reflexivity.
Qed.

Lemma dirty_bits a w n : stores a w n -> bv_to_bit_str a = Ok (digits 1 (N.to_nat w) n).
Proof.
  intros Ha. rewrite (dirty_bit_str a w n Ha), digits_dt, dt_low, N2Nat.id.
  apply to_bit_str_ok, cleaned_ok. auto.
Qed.

Lemma dirty_bytes a w n : stores a w n -> bv_to_bytes_le a = low_bytes (N.to_nat ((w + 7) / 8)) n.
Proof.
  intros H. apply stores_inv in H as (E & H32 & Hl & HW & Hv & Hx).
  unfold bv_to_bytes_le, to_bytes_le. rewrite bytes_fold by (auto; unfold len; cbn; lia).
  cbn [app]. change (@len N []) with 0. rewrite N.sub_0_r, E, Hv.
  etransitivity; [|symmetry; apply low_bytes_le].
  unfold div_ceil. replace (w + 8 - 1) with (w + 7) by lia. f_equal.
  unfold len in Hl. clear - Hl. dlia.
Qed.

Lemma dirty_fixed m a w n f : stores a w n -> f <= w -> f < 64 ->
  bv_to_unsigned_fixed_point m a f
  = Ok (if n <? 2 ^ 64 then Some (inject_Z (Z.of_N n) / inject_Z (2 ^ Z.of_N f))%Q else None).
Proof.
  intros Ha Hf H64. unfold bv_to_unsigned_fixed_point, u64_shl1.
  rewrite (dirty_to_u64 a w n Ha). replace (f <? 64) with true by lia.
  apply stores_inv in Ha as (Wa & _). rewrite Wa.
  replace (f <=? w) with true by lia. rewrite debug_assert_true. cbn [bind].
  rewrite Zpow. destruct (n <? 2 ^ 64); reflexivity.
Qed.

Lemma fixed_panics a w n f : stores a w n -> w < f \/ 64 <= f -> panics (bv_to_unsigned_fixed_point Debug a f).
Proof.
  intros Ha Hf. apply stores_inv in Ha as (Wa & _). unfold bv_to_unsigned_fixed_point. rewrite Wa.
  destruct (N.leb_spec f w) as [L|L].
  - rewrite debug_assert_true. cbn [bind]. unfold u64_shl1. replace (f <? 64) with false by lia.
    eexists. reflexivity.
  - eexists. reflexivity.
Qed.

(** ** All together *)

Lemma tells_refl {A} (k : A -> answer) r x : r = Ok x -> tells (let* y := r in Ok (k y)) (k x).
Proof. intros ->. exists (k x). split; [reflexivity|]. destruct (k x) as [| | | | | | |[]]; reflexivity. Qed.
Lemma tells_ok x : tells (Ok x) x.
Proof. exists x. split; [reflexivity|]. destruct x as [| | | | | | |[]]; reflexivity. Qed.

Theorem look_ok l a w n : stores a w n ->
  match look_result l w n with
  | Some x => forall m, tells (tell m l a) x
  | None => panics (tell Debug l a)
  end.
Proof.
  intros Ha. pose proof (stores_inv _ _ _ Ha) as (Wa & Hw & La & Fa & Va & Ba).
  destruct l; cbn [look_result tell].
  - intros m. rewrite Wa. apply tells_ok.
  - intros m. rewrite (dirty_is_zero a w n Ha). apply tells_ok.
  - intros m. apply (tells_refl ABool). unfold bv_is_tru. rewrite Wa.
    destruct (N.eqb_spec w 1) as [->|W]; cbn [andb]; [|reflexivity].
    destruct (stores_cases a 1 n Ha eq_refl) as (x0 & t & -> & _ & _ & -> & Lt).
    change ((1 + 63) / 64 - 1) with 0 in Lt. apply len_0 in Lt. subst t. nils.
    rewrite N.mul_0_r, N.add_0_r. reflexivity.
  - intros m. apply (tells_refl ABool). unfold bv_is_fals. rewrite Wa.
    destruct (N.eqb_spec w 1) as [->|W]; cbn [andb]; [|reflexivity].
    destruct (stores_cases a 1 n Ha eq_refl) as (x0 & t & -> & _ & _ & -> & Lt).
    change ((1 + 63) / 64 - 1) with 0 in Lt. apply len_0 in Lt. subst t. nils.
    rewrite N.mul_0_r, N.add_0_r. reflexivity.
  - destruct (N.eqb_spec w 0) as [->|W].
    + destruct (stores_0 a n Ha) as [A ->]. apply panics_bind.
      apply (zero_width_panics Debug a). now apply stores_is_bv.
    + intros m. apply (tells_refl ABool). unfold bv_is_negative. rewrite Wa, is_neg_words, Va by (auto; lia).
      reflexivity.
  - destruct (N.leb_spec (64 * places w) pos) as [L|L].
    + apply panics_bind. unfold bv_is_bit_set, ar_is_bit_set.
      rewrite idx_panic by (rewrite La; unfold places in L; clear - L; dlia). eexists. reflexivity.
    + intros m. apply (tells_refl ABool). now apply (dirty_is_bit_set a w n).
  - intros m. apply (tells_refl AOptBool). unfold bv_to_bool. rewrite Wa.
    destruct (N.eqb_spec w 1) as [->|W]; [|reflexivity].
    destruct (stores_cases a 1 n Ha eq_refl) as (x0 & t & -> & _ & _ & -> & Lt).
    change ((1 + 63) / 64 - 1) with 0 in Lt. apply len_0 in Lt. subst t. nils.
    rewrite N.mul_0_r, N.add_0_r. unfold idx. cbn [nth_error N.to_nat bind]. do 2 f_equal.
    clear. destruct x0 as [|[p|p|]]; reflexivity.
  - intros m. rewrite (dirty_to_u64 a w n Ha). apply tells_ok.
  - intros m. destruct (N.eqb_spec w 0) as [W|W].
    + apply (tells_refl AOptInt). unfold bv_to_i64. rewrite Wa, W. reflexivity.
    + apply (tells_refl AOptInt). now apply dirty_i64; [lia|].
  - intros m. apply (tells_refl AInt). destruct (N.eqb_spec w 0) as [->|W].
    + unfold bv_to_big_int, to_big_int. rewrite Wa. reflexivity.
    + apply dirty_big_int; auto. lia.
  - intros m. apply (tells_refl ANum). now apply (dirty_big_uint a w n).
  - intros m. apply (tells_refl AText). now apply (dirty_bits a w n).
  - destruct (N.eqb_spec w 0) as [->|W].
    + destruct (stores_0 a n Ha) as [A ->]. apply panics_bind.
      apply (zero_width_panics Debug a). now apply stores_is_bv.
    + destruct (N.eqb_spec w 1) as [->|W1].
      * intros m. apply (tells_refl AText). unfold bv_to_bit_str_signed, to_bit_str_signed.
        rewrite Wa, is_neg_words by auto. cbn [bind].
        destruct (N.testbit (wv (words a)) (1 - 1)).
        -- destruct (dirty_negate_wres m (words a) 1) as (l & E & _); auto; try lia. rewrite E. reflexivity.
        -- reflexivity.
      * intros m. apply (tells_refl AText). apply dirty_bit_signed; auto. lia.
  - intros m. apply (tells_refl AText). now apply dirty_hex.
  - destruct (N.eqb_spec w 0) as [->|W].
    + destruct (stores_0 a n Ha) as [A ->]. apply panics_bind.
      apply (zero_width_panics Debug a). now apply stores_is_bv.
    + destruct (N.eqb_spec w 1) as [->|W1].
      * intros m. apply (tells_refl AText). unfold bv_to_hex_str_signed, to_hex_str_signed.
        rewrite Wa, is_neg_words by auto. cbn [bind].
        assert (S : forall l, select_words_for_width m l 0 = Ok []).
        { intros l. unfold select_words_for_width. change (div_ceil 0 64) with 0.
          replace (0 <=? len l) with true by lia. rewrite debug_assert_true. cbn [bind].
          rewrite range_ok by lia. reflexivity. }
        destruct (N.testbit (wv (words a)) (1 - 1)).
        -- destruct (dirty_negate_wres m (words a) 1) as (l & E & _); auto; try lia. rewrite E. cbn [bind].
           rewrite u32_sub_ok by lia. cbn [bind]. change (1 - 1) with 0. rewrite S. cbn [bind].
           unfold to_hex_str_internal. change (div_ceil 0 64 =? len (@nil N)) with true.
           rewrite debug_assert_true. reflexivity.
        -- rewrite u32_sub_ok by lia. cbn [bind]. change (1 - 1) with 0. rewrite S. cbn [bind].
           unfold to_hex_str, to_hex_str_internal. change (div_ceil 0 64 =? len (@nil N)) with true.
           rewrite debug_assert_true. reflexivity.
      * intros m. apply (tells_refl AText). apply dirty_hex_signed; auto. lia.
  - destruct (N.leb_spec (2 ^ 128) n) as [L|L]; cbn [orb].
    + apply panics_bind. now apply (dirty_dec_wide Debug a w n).
    + destruct (N.leb_spec (2 ^ 32) (w * 3)) as [L'|L'].
      * apply panics_bind. unfold bv_to_dec_str, to_dec_str. apply panics_bind. unfold u32_mul.
        rewrite Wa, B32_eq. apply N.ltb_ge in L'. rewrite L'. eexists. reflexivity.
      * intros m. apply (tells_refl AText). apply (dirty_dec m a w n); auto.
  - intros m. rewrite (dirty_bytes a w n Ha). apply tells_ok.
  - destruct (N.ltb_spec w f) as [L|L]; cbn [orb].
    + apply panics_bind. apply (fixed_panics a w n); auto.
    + destruct (N.leb_spec 64 f) as [L'|L'].
      * apply panics_bind. apply (fixed_panics a w n); auto.
      * intros m. apply (tells_refl ARatio). now apply (dirty_fixed m a w n).
  - destruct (N.eqb_spec w 0) as [->|W]; cbn [orb].
    { destruct (stores_0 a n Ha) as [A ->]. apply panics_bind. unfold bv_to_signed_fixed_point.
      destruct (debug_assert _ _) as [|p]; cbn [bind]; [|exists p; reflexivity]. apply panics_bind.
      apply (zero_width_panics Debug a). now apply stores_is_bv. }
    assert (W0 : 0 < w) by lia.
    destruct (N.ltb_spec w f) as [L|L].
    { apply panics_bind. unfold bv_to_signed_fixed_point. rewrite Wa.
      replace (f <=? w) with false by lia. eexists. reflexivity. }
    assert (R : forall m, bv_to_signed_fixed_point m a f
      = if top w n then
          if 64 <? w then Ok None
          else
            let* negated := bv_negate m a in
            let* frac := bv_to_unsigned_fixed_point m negated f in
            Ok (match frac with Some f => Some (- f)%Q | None => None end)
        else bv_to_unsigned_fixed_point m a f).
    { intros m. unfold bv_to_signed_fixed_point. rewrite Wa. replace (f <=? w) with true by lia.
      rewrite debug_assert_true. cbn [bind]. unfold bv_is_negative. rewrite Wa, is_neg_words, Va by auto.
      reflexivity. }
    destruct (top w n) eqn:T; cbn [andb].
    + destruct (N.ltb_spec 64 w) as [G|G].
      { intros m. rewrite R. cbn [bind]. apply tells_ok. }
      destruct (N.leb_spec 64 f) as [F|F].
      * rewrite R. destruct (dirty_negate Debug a w n W0 Ha) as (v & E & I). rewrite E. cbn [bind].
        apply panics_bind, panics_bind. eapply fixed_panics; [apply is_bv_stores; eauto|auto].
      * intros m. rewrite R. destruct (dirty_negate m a w n W0 Ha) as (v & E & I). rewrite E. cbn [bind].
        rewrite (dirty_fixed m v w (wrap w (- Z.of_N n)) f) by (auto using is_bv_stores).
        unfold shown. rewrite T. destruct (N.ltb_spec (wrap w (- Z.of_N n)) (2 ^ 64)) as [B|B]; cbn [bind].
        -- eexists. split; [reflexivity|]. cbn [same_answer]. rewrite inject_Z_opp. unfold Qdiv. ring.
        -- apply tells_ok.
    + destruct (N.leb_spec 64 f) as [F|F].
      * rewrite R. apply panics_bind. eapply fixed_panics; eauto.
      * intros m. rewrite R. rewrite (dirty_fixed m a w n f) by auto. unfold shown. rewrite T.
        destruct (n <? 2 ^ 64); apply tells_ok.
Qed.

Theorem look_program l p w n : typed p -> meaning p = Gives w n ->
  forall m, exists v, execute m p = Ok (Some v)
  /\ match look_result l w n with
     | Some x => tells (tell m l v) x
     | None => panics (tell Debug l v)
     end.
Proof.
  intros T M m.
  assert (A : agrees (execute m p) (meaning p)).
  { destruct m; [now apply execute_ok|]. apply execute_release; auto. rewrite M. discriminate. }
  rewrite M in A. destruct A as (v & E & S). exists v. split; auto.
  pose proof (look_ok l v w n S) as L. destruct (look_result l w n); auto.
Qed.

Lemma look_example :
  let p := Bin BShl (Fresh (KFromU64 255 70)) (Fresh (KFromU64 64 70)) in
  let q := Fresh (KFromI64 (-3) 8) in
  typed p /\ typed q
  /\ meaning p = Gives 70 (255 * 2 ^ 64) /\ meaning q = Gives 8 253
  /\ look_result LU64 70 (255 * 2 ^ 64) = Some (AOptNum None)
  /\ look_result LBitStr 8 253 = Some (AText [49; 49; 49; 49; 49; 49; 48; 49])
  /\ look_result LBitStrSigned 8 253 = Some (AText [45; 48; 48; 48; 48; 48; 49; 49])
  /\ look_result LDecStr 8 253 = Some (AText [50; 53; 51])
  /\ look_result LHexStr 70 (255 * 2 ^ 64)
     = Some (AText (102 :: 102 :: repeat 48 16))
  /\ look_result LI64 8 253 = Some (AOptInt (Some (-3)%Z))
  /\ look_result LBigInt 70 (255 * 2 ^ 64) = Some (AInt (- 2 ^ 64))
  /\ look_result LBytes 70 (255 * 2 ^ 64) = Some (AText [0; 0; 0; 0; 0; 0; 0; 0; 255])
  /\ (exists x, look_result (LFixedSigned 1) 8 253 = Some (ARatio (Some x)) /\ (x == - (3 # 2))%Q)
  /\ look_result LDecStr 200 (2 ^ 130) = None.
Proof.
  intros p q.
  assert (T : typed p /\ typed q) by (repeat split; try reflexivity; try exact I; vm_compute; discriminate).
  destruct T as (T1 & T2). do 2 (split; [assumption|]).
  do 10 (split; [vm_compute; reflexivity|]).
  split; [|vm_compute; reflexivity]. eexists. split; vm_compute; reflexivity.
Qed.
