(** * PText: lemmas about texts and the numbers they denote. *)

From Coq Require Import ZifyBool ZifyNat ZifyN.
From Verif Require Import Base Arith Strings Bv Spec TextSpec PWords PArith PShift PropsArith.
Ltac Zify.zify_post_hook ::= idtac.

(** The [k] lowest base-2^b digits of [x], most significant first. *)
Fixpoint dt (b : N) (k : nat) (x : N) : list N :=
  match k with
  | O => []
  | S k' => digit_char ((x / 2 ^ (b * N.of_nat k')) mod 2 ^ b) :: dt b k' x
  end.

Lemma dt_len b k x : length (dt b k x) = k.
Proof. induction k; cbn [dt length]; auto. Qed.

Lemma dt_ext b k x y : x mod 2 ^ (b * N.of_nat k) = y mod 2 ^ (b * N.of_nat k) ->
  dt b k x = dt b k y.
Proof.
  revert x y; induction k as [|k IH]; intros x y H; [reflexivity|]. cbn [dt].
  assert (E : b * N.of_nat (S k) = b * N.of_nat k + b) by lia.
  rewrite E in H. f_equal.
  - rewrite !div_mod_pow, H. reflexivity.
  - apply IH. rewrite <- (mod_mod_le x (b * N.of_nat k + b)), H by lia.
    apply mod_mod_le. lia.
Qed.

Lemma dt_app b j k x : dt b (j + k) x = dt b j (x / 2 ^ (b * N.of_nat k)) ++ dt b k x.
Proof.
  induction j as [|j IH]; [reflexivity|]. cbn [plus dt app]. rewrite IH. f_equal.
  rewrite div_div_pow. do 3 f_equal. f_equal. lia.
Qed.

Lemma digit_value_char r d : d < r -> r <= 36 -> digit_value r (digit_char d) = Some d.
Proof.
  intros H1 H2. unfold digit_value, digit_char.
  destruct (d <? 10) eqn:E.
  - replace ((48 <=? 48 + d) && (48 + d <=? 57)) with true by lia.
    replace (48 + d - 48) with d by lia. now replace (d <? r) with true by lia.
  - replace ((48 <=? 87 + d) && (87 + d <=? 57)) with false by lia.
    replace ((97 <=? 87 + d) && (87 + d <=? 122)) with true by lia.
    replace (87 + d - 87) with d by lia. now replace (d <? r) with true by lia.
Qed.

Lemma digit_char_value r c d : r <= 36 -> digit_value r c = Some d -> digit_char d = lower c.
Proof.
  intros Hr. unfold digit_value, digit_char, lower.
  destruct ((48 <=? c) && (c <=? 57)) eqn:E1.
  { destruct (c - 48 <? r) eqn:E; [intros [= <-]|discriminate].
    replace (c - 48 <? 10) with true by lia. replace ((65 <=? c) && (c <=? 90)) with false by lia. lia. }
  destruct ((97 <=? c) && (c <=? 122)) eqn:E2.
  { destruct (c - 87 <? r) eqn:E; [intros [= <-]|discriminate].
    replace (c - 87 <? 10) with false by lia. replace ((65 <=? c) && (c <=? 90)) with false by lia. lia. }
  destruct ((65 <=? c) && (c <=? 90)) eqn:E3.
  { destruct (c - 55 <? r) eqn:E; [intros [= <-]|discriminate].
    replace (c - 55 <? 10) with false by lia. lia. }
  rewrite N.ltb_irrefl. discriminate.
Qed.

Lemma digit_value_lt r c d : digit_value r c = Some d -> d < r.
Proof. unfold digit_value. destruct (_ <? r) eqn:E; [intros [= <-]; lia|discriminate]. Qed.

Lemma number_lt r s n : 0 < r -> number r s = Some n -> n < r ^ N.of_nat (length s).
Proof.
  intros Hr. revert n; induction s as [|c t IH]; cbn [number length]; intros n H.
  - injection H as <-. change (N.of_nat 0) with 0. rewrite N.pow_0_r. lia.
  - destruct (digit_value r c) as [d|] eqn:Hd; [|discriminate].
    destruct (number r t) as [n'|]; [|discriminate]. injection H as <-.
    specialize (IH n' eq_refl). apply digit_value_lt in Hd.
    rewrite Nat2N.inj_succ, N.pow_succ_r'.
    remember (r ^ N.of_nat (length t)) as P. clear - IH Hd. nia.
Qed.

Lemma pow_base b k : (2 ^ b) ^ k = 2 ^ (b * k).
Proof. symmetry. apply N.pow_mul_r. Qed.

Lemma number_dt b k x : 0 < b -> 2 ^ b <= 36 ->
  number (2 ^ b) (dt b k x) = Some (x mod 2 ^ (b * N.of_nat k)).
Proof.
  intros Hb H36. induction k as [|k IH]; cbn [dt number].
  - change (N.of_nat 0) with 0. now rewrite N.mul_0_r, N.pow_0_r, N.mod_1_r.
  - rewrite digit_value_char, IH, dt_len, pow_base by auto. f_equal.
    replace (b * N.of_nat (S k)) with (b * N.of_nat k + b) by lia.
    remember (b * N.of_nat k) as p. rewrite (N.div_mod x (2 ^ p)) at 3 by auto.
    rewrite N.add_comm, (N.add_comm (2 ^ p * _)), add_mul_mod by auto. lia.
Qed.

Lemma dt_number b s n : 0 < b -> 2 ^ b <= 36 -> number (2 ^ b) s = Some n ->
  dt b (length s) n = map lower s.
Proof.
  intros Hb H36. revert n; induction s as [|c t IH]; cbn [number length dt map]; intros n H; auto.
  destruct (digit_value (2 ^ b) c) as [d|] eqn:Hd; [|discriminate].
  destruct (number (2 ^ b) t) as [n'|] eqn:Hn; [|discriminate]. injection H as <-.
  assert (L := number_lt (2 ^ b) t n' ltac:(auto) Hn).
  rewrite pow_base in *. assert (Ld := digit_value_lt _ _ _ Hd).
  f_equal.
  - replace (d * _ + n') with (n' + 2 ^ (b * N.of_nat (length t)) * d) by lia.
    rewrite add_mul_div, N.mod_small by auto. apply (digit_char_value (2 ^ b)); auto.
  - rewrite <- (IH n' eq_refl). apply dt_ext.
    rewrite N.add_comm, N.mul_comm, (N.mul_comm _ d), N.mod_add by auto. reflexivity.
Qed.

(** ** Printing *)

Lemma upto_len n : length (upto n) = N.to_nat n.
Proof. unfold upto. rewrite map_length. apply seq_length. Qed.

Lemma upto_S k : upto (N.of_nat (S k)) = upto (N.of_nat k) ++ [N.of_nat k].
Proof.
  unfold upto. rewrite !Nat2N.id, seq_S, map_app. reflexivity.
Qed.

Lemma bit_char_ok word ii : ii < 64 -> bit_char word ii = digit_char ((word / 2 ^ ii) mod 2 ^ 1).
Proof.
  intros H. unfold bit_char. rewrite wshr_testbit by auto.
  rewrite N.testbit_eqb. change (2 ^ 1) with 2. rewrite N.pow_1_r || idtac.
  assert (L := N.mod_upper_bound (word / 2 ^ ii) 2 ltac:(lia)).
  revert L. generalize ((word / 2 ^ ii) mod 2). intros d L.
  unfold digit_char, c_1, c_0. replace (d <? 10) with true by lia.
  destruct (d =? 1) eqn:E; lia.
Qed.

Lemma bit_chars_ok word k : (k <= 64)%nat ->
  map (bit_char word) (rev (upto (N.of_nat k))) = dt 1 k word.
Proof.
  induction k as [|k IH]; intros H; [reflexivity|].
  rewrite upto_S, rev_app_distr. cbn [rev app map dt].
  rewrite IH, bit_char_ok by lia. now rewrite N.mul_1_l.
Qed.

Lemma dt_snoc b k n t x : Words t -> b * N.of_nat k = 64 -> x < 2 ^ 64 \/ True ->
  dt b (n + k * length t) (wv (t ++ [x])) = dt b n x ++ dt b (k * length t) (wv t).
Proof.
  intros Ht Hk _. rewrite dt_app.
  assert (E : b * N.of_nat (k * length t) = 64 * len t).
  { unfold len. rewrite Nat2N.inj_mul, N.mul_assoc, Hk. reflexivity. }
  assert (L := wv_bound t Ht).
  rewrite wv_app, wv_cons. change (wv []) with 0. rewrite N.mul_0_r, N.add_0_r.
  rewrite E, add_mul_div by auto. f_equal.
  apply dt_ext. rewrite E. rewrite add_mul_mod0 by auto. now rewrite mod_small_pow.
Qed.

Lemma bit_words_ok t out : Words t ->
  fold_left (fun out word => out ++ map (bit_char word) (rev (upto 64))) (rev t) out
  = out ++ dt 1 (64 * length t) (wv t).
Proof.
  revert out; induction t as [|x t IH] using rev_ind; intros out H.
  - cbn. now rewrite app_nil_r.
  - apply Forall_app in H as [Ht Hx].
    rewrite rev_app_distr. cbn [rev app fold_left]. rewrite IH by auto.
    change 64 with (N.of_nat 64) at 1. rewrite bit_chars_ok by lia.
    rewrite app_length. cbn [length].
    replace (64 * (length t + 1))%nat with (64 + 64 * length t)%nat by lia.
    rewrite (dt_snoc 1 64) by auto. now rewrite app_assoc.
Qed.

Lemma to_bit_str_words l w out : 0 < w -> Words l -> l <> [] ->
  to_bit_str_internal l w out
  = Ok (out ++ dt 1 (N.to_nat ((w - 1) mod 64 + 1) + 64 * (length l - 1)) (wv l)).
Proof.
  intros Hw Hl Hn. destruct (rev_cons_inv l Hn) as (t & x & ->).
  apply Forall_app in Hl as [Ht Hx].
  unfold to_bit_str_internal. replace (w =? 0) with false by lia.
  rewrite last_opt_app. cbn [unwrap bind].
  rewrite rev_app_distr. cbn [rev app skipn]. rewrite bit_words_ok by auto.
  assert (L := N.mod_upper_bound (w - 1) 64 ltac:(lia)).
  replace ((w - 1) mod 64 + 1) with (N.of_nat (N.to_nat ((w - 1) mod 64 + 1))) at 1 by lia.
  rewrite bit_chars_ok by lia.
  rewrite app_length. cbn [length]. replace (length t + 1 - 1)%nat with (length t) by lia.
  rewrite (dt_snoc 1 64) by auto. now rewrite app_assoc.
Qed.

Lemma to_bit_str_ok v w x : is_bv v w x -> bv_to_bit_str v = Ok (dt 1 (N.to_nat w) x).
Proof.
  intros H. apply is_bv_inv in H as (E & Hw & Hl & HW & Hv & Hx).
  unfold bv_to_bit_str, to_bit_str. rewrite E.
  destruct (N.eq_dec w 0) as [->|Hn]; [reflexivity|].
  rewrite to_bit_str_words; auto; try lia.
  - cbn [app]. rewrite Hv. do 2 f_equal. unfold len in Hl.
    clear - Hl Hn. dlia.
  - intros E2. rewrite E2 in Hl. nils. clear - Hl Hn. dlia.
Qed.

(** hexadecimal *)
Lemma hex_char_ok word ii : ii < 16 -> hex_char word ii = Ok (digit_char ((word / 2 ^ (4 * ii)) mod 2 ^ 4)).
Proof.
  intros H. unfold hex_char. rewrite wshr_div by lia.
  change 15 with (2 ^ 4 - 1). rewrite land_ones_sub, (N.mul_comm ii 4).
  assert (L := mod_lt (word / 2 ^ (4 * ii)) 4). unfold from_digit.
  change (2 ^ 4) with 16 in *. now replace (_ <? 16) with true by lia.
Qed.

Lemma push_hex_ok word k out : (k <= 16)%nat ->
  push_hex word (rev (upto (N.of_nat k))) out = Ok (out ++ dt 4 k word).
Proof.
  revert out; induction k as [|k IH]; intros out H; [cbn; now rewrite app_nil_r|].
  rewrite upto_S, rev_app_distr. cbn [rev app push_hex dt].
  rewrite hex_char_ok by lia. cbn [bind]. rewrite IH by lia. now rewrite <- app_assoc.
Qed.

Lemma push_hex_words_ok t out : Words t ->
  push_hex_words (rev t) out = Ok (out ++ dt 4 (16 * length t) (wv t)).
Proof.
  revert out; induction t as [|x t IH] using rev_ind; intros out H.
  - cbn. now rewrite app_nil_r.
  - apply Forall_app in H as [Ht Hx].
    rewrite rev_app_distr. cbn [rev app push_hex_words].
    change 16 with (N.of_nat 16) at 1. rewrite push_hex_ok by lia. cbn [bind].
    rewrite IH by auto. rewrite app_length. cbn [length].
    replace (16 * (length t + 1))%nat with (16 + 16 * length t)%nat by lia.
    rewrite (dt_snoc 4 16) by auto. now rewrite app_assoc.
Qed.

Lemma to_hex_str_words m l w out : 0 < w -> Words l -> len l = (w + 63) / 64 ->
  to_hex_str_internal m l w out = Ok (out ++ dt 4 (N.to_nat ((w + 3) / 4)) (wv l)).
Proof.
  intros Hw Hl Hn.
  assert (Hne : l <> []) by (intros ->; nils; clear - Hn Hw; dlia).
  destruct (rev_cons_inv l Hne) as (t & x & ->).
  assert (HW := Hl). apply Forall_app in Hl as [Ht Hx].
  unfold to_hex_str_internal. rewrite div_ceil_eq, Hn, N.eqb_refl, debug_assert_true. cbn [bind].
  replace (w =? 0) with false by lia.
  rewrite last_opt_app. cbn [unwrap bind].
  rewrite len_app in Hn. change (len [x]) with 1 in Hn.
  assert (L := N.mod_upper_bound w 64 ltac:(lia)).
  assert (D : div_ceil (w mod 64) 4 = (w mod 64 + 3) / 4) by (unfold div_ceil; f_equal; lia).
  rewrite D.
  assert (D16 : (w mod 64 + 3) / 4 <= 16) by (clear - L; dlia).
  replace (upto ((w mod 64 + 3) / 4))
    with (upto (N.of_nat (N.to_nat ((w mod 64 + 3) / 4)))) by (f_equal; lia).
  rewrite push_hex_ok by lia. cbn [bind].
  rewrite rev_app_distr. cbn [rev app].
  destruct (0 <? (w mod 64 + 3) / 4) eqn:Z; cbn [skipn].
  - rewrite push_hex_words_ok by auto. rewrite <- app_assoc, <- (dt_snoc 4 16) by auto.
    do 3 f_equal. unfold len in Hn. clear - Hn Hw L Z. dlia.
  - change (x :: rev t) with (rev [x] ++ rev t). rewrite <- rev_app_distr.
    rewrite push_hex_words_ok by auto.
    replace (N.to_nat ((w mod 64 + 3) / 4)) with O by lia. cbn [dt]. rewrite app_nil_r.
    do 3 f_equal. rewrite app_length. cbn [length]. unfold len in Hn. clear - Hn Hw L Z. dlia.
Qed.

Lemma to_hex_str_ok m v w x : is_bv v w x ->
  bv_to_hex_str m v = Ok (dt 4 (N.to_nat ((w + 3) / 4)) x).
Proof.
  intros H. apply is_bv_inv in H as (E & Hw & Hl & HW & Hv & Hx).
  unfold bv_to_hex_str, to_hex_str. rewrite E.
  destruct (N.eq_dec w 0) as [->|Hn].
  - unfold to_hex_str_internal. rewrite div_ceil_eq, Hl, N.eqb_refl, debug_assert_true. reflexivity.
  - rewrite to_hex_str_words by (auto; lia). now rewrite Hv.
Qed.

(** decimal *)
Lemma words_used_ok l : Words l ->
  words_used l = if wv l =? 0 then 0 else N.log2 (wv l) / 64 + 1.
Proof.
  unfold words_used. induction l as [|x t IH] using rev_ind; intros H; [reflexivity|].
  apply Forall_app in H as [Ht Hx]. assert (Bx := Forall_inv Hx). cbv beta in Bx.
  rewrite rev_app_distr. cbn [rev app words_used_loop].
  rewrite len_app. change (len [x]) with 1.
  rewrite wv_app, wv_cons. change (wv []) with 0. rewrite N.mul_0_r, N.add_0_r.
  destruct (x =? 0) eqn:E.
  - replace x with 0 by lia. rewrite N.mul_0_r, N.add_0_r.
    replace (len t + 1 - 1) with (len t) by lia. auto.
  - assert (L := wv_bound t Ht). assert (P := pow_pos (64 * len t)).
    replace (_ =? 0) with false by nia. f_equal.
    apply (N.div_unique _ _ _ (N.log2 (wv t + 2 ^ (64 * len t) * x) - 64 * len t)).
    + assert (U : N.log2 (wv t + 2 ^ (64 * len t) * x) < 64 * len t + 64).
      { apply N.log2_lt_pow2; [nia|]. rewrite N.pow_add_r. 
        apply (N.lt_le_trans _ (2 ^ (64 * len t) * (x + 1))); [nia|].
        apply N.mul_le_mono_l. lia. }
      clear - U. lia.
    + assert (U : 64 * len t <= N.log2 (wv t + 2 ^ (64 * len t) * x)).
      { apply N.log2_le_pow2; [nia|]. clear - E P. nia. }
      clear - U. lia.
Qed.

Lemma number_app r a b x y : number r a = Some x -> number r b = Some y ->
  number r (a ++ b) = Some (x * r ^ N.of_nat (length b) + y).
Proof.
  revert x; induction a as [|c a IH]; cbn [number app]; intros x Ha Hb.
  - injection Ha as <-. rewrite Hb. reflexivity.
  - destruct (digit_value r c); [|discriminate]. destruct (number r a) as [n'|]; [|discriminate].
    injection Ha as <-. rewrite (IH n' eq_refl Hb). f_equal.
    rewrite app_length, Nat2N.inj_add, N.pow_add_r. ring.
Qed.

Lemma dec_digits_ok fuel n acc : n < 10 ^ N.of_nat fuel -> (0 < fuel)%nat ->
  exists d, dec_digits fuel n acc = d ++ acc /\ number 10 d = Some n
    /\ match d with [] => False | [_] => True | c :: _ => c <> 48 end
    /\ (n <> 0 -> match d with [] => False | c :: _ => c <> 48 end).
Proof.
  revert n acc; induction fuel as [|f IH]; intros n acc Hn Hf; [lia|].
  cbn [dec_digits].
  assert (L := N.mod_upper_bound n 10 ltac:(lia)).
  assert (D := N.div_mod n 10 ltac:(lia)).
  assert (One : number 10 [c_0 + n mod 10] = Some (n mod 10)).
  { cbn [number length]. replace (c_0 + n mod 10) with (digit_char (n mod 10)).
    - rewrite digit_value_char by lia. f_equal. rewrite N.pow_0_r. lia.
    - unfold digit_char, c_0. now replace (n mod 10 <? 10) with true by lia. }
  destruct (n / 10 =? 0) eqn:E.
  - exists [c_0 + n mod 10]. split; [reflexivity|]. split; [rewrite One; f_equal; lia|].
    split; [exact I|]. intros. unfold c_0.
    revert D L E. generalize (n / 10) (n mod 10). intros; lia.
  - rewrite Nat2N.inj_succ, N.pow_succ_r' in Hn.
    assert (Lt : n / 10 < 10 ^ N.of_nat f) by (apply N.div_lt_upper_bound; lia).
    assert (Fp : (0 < f)%nat).
    { destruct f; [|lia]. change (N.of_nat 0) with 0 in Lt. rewrite N.pow_0_r in Lt.
      clear - Lt E. lia. }
    destruct (IH (n / 10) ((c_0 + n mod 10) :: acc) Lt Fp) as (d & E1 & E2 & E3 & E4).
    exists (d ++ [c_0 + n mod 10]). rewrite E1, <- app_assoc. split; [reflexivity|].
    split.
    + rewrite (number_app _ _ _ _ _ E2 One). cbn [length]. change (N.of_nat 1) with 1.
      rewrite N.pow_1_r. f_equal. lia.
    + assert (Hh : match d with [] => False | c :: _ => c <> 48 end) by (apply E4; lia).
      destruct d as [|c d]; [easy|]. cbn [app]. split; [|auto].
      destruct (d ++ [c_0 + n mod 10]) eqn:Ed; auto.
Qed.

Lemma display_dec_ok n : n < 2 ^ 128 ->
  number 10 (display_dec n) = Some n /\ no_leading_zero (display_dec n).
Proof.
  intros H. unfold display_dec.
  destruct (dec_digits_ok 40 n []) as (d & E & E1 & E2 & _); [|lia|].
  - apply (N.lt_trans _ _ _ H). reflexivity.
  - rewrite E, app_nil_r. split; auto.
Qed.

Lemma to_dec_str_raw m v w x : is_bv v w x -> x < 2 ^ 128 -> m = Release \/ w * 3 < 2 ^ 32 ->
  exists s, bv_to_dec_str m v = Ok s /\ number 10 s = Some x /\ no_leading_zero s.
Proof.
  intros H Hx Hm. apply is_bv_inv in H as (E & Hw & Hl & HW & Hv & Hxw).
  unfold bv_to_dec_str, to_dec_str. rewrite E.
  assert (Em : exists z, u32_mul m w 3 = Ok z).
  { unfold u32_mul. rewrite B32_eq. destruct (w * 3 <? 2 ^ 32) eqn:Eq; eauto.
    destruct m; eauto. destruct Hm; [discriminate|lia]. }
  destruct Em as (z & ->). cbn [bind]. unfold to_dec_str_internal.
  rewrite words_used_ok by auto. rewrite Hv.
  destruct (x =? 0) eqn:Z.
  { eexists. split; [reflexivity|]. cbn [app]. replace x with 0 by lia.
    split; reflexivity. }
  assert (Hlog : N.log2 x < 128) by (apply N.log2_lt_pow2; [lia|auto]).
  assert (Hlen : N.log2 x / 64 < len (words v)).
  { rewrite Hl. assert (N.log2 x < w) by (apply N.log2_lt_pow2; [lia|auto]).
    revert H. generalize (N.log2 x). clear. intros; dlia. }
  assert (C : N.log2 x / 64 = 0 \/ N.log2 x / 64 = 1).
  { revert Hlog. generalize (N.log2 x). clear. intros; dlia. }
  destruct C as [C|C]; rewrite C in *; cbn [N.add Pos.add Pos.succ].
  - change (0 + 1) with 1. cbn iota. rewrite idx_ok by lia. cbn [bind app].
    change (N.to_nat 0) with O. rewrite wv_nth by auto. rewrite Hv.
    change (N.of_nat 0) with 0. rewrite N.mul_0_r, N.pow_0_r, N.div_1_r.
    assert (x < 2 ^ 64).
    { apply N.log2_lt_pow2; [lia|]. revert C. generalize (N.log2 x). clear. intros; dlia. }
    rewrite mod_small_pow by auto. eexists. split; [reflexivity|]. apply display_dec_ok; auto.
  - change (1 + 1) with 2. cbn iota. unfold words_to_u128.
    replace (2 <=? len (words v)) with true by lia. rewrite debug_assert_true.
    cbn [bind]. rewrite !idx_ok by lia. cbn [bind app]. rewrite !wv_nth by auto. rewrite Hv.
    change (N.of_nat (N.to_nat 1)) with 1. change (N.of_nat (N.to_nat 0)) with 0.
    rewrite N.mul_1_r, N.mul_0_r, N.pow_0_r, N.div_1_r.
    rewrite (mod_small_pow (x / 2 ^ 64)) by (apply div_lt_pow; auto).
    rewrite N.shiftl_mul_pow2, N.mul_comm, lor_add' by auto.
    rewrite N.add_comm, <- N.div_mod by auto.
    eexists. split; [reflexivity|]. apply display_dec_ok; auto.
Qed.

Lemma to_dec_str_wide m v w x : is_bv v w x -> 2 ^ 128 <= x -> panics (bv_to_dec_str m v).
Proof.
  intros H Hx. apply is_bv_inv in H as (E & Hw & Hl & HW & Hv & Hxw).
  unfold bv_to_dec_str, to_dec_str. destruct (u32_mul m (width v) 3); [|eexists; reflexivity].
  cbn [bind]. unfold to_dec_str_internal. rewrite words_used_ok by auto. rewrite Hv.
  replace (x =? 0) with false by lia.
  assert (Hlog : 128 <= N.log2 x) by (apply N.log2_le_pow2; [lia|auto]).
  assert (C : 3 <= N.log2 x / 64 + 1).
  { revert Hlog. generalize (N.log2 x). clear. intros; dlia. }
  destruct (N.log2 x / 64 + 1) as [|[p|[p|p|]|]]; try lia; eexists; reflexivity.
Qed.

(** ** Parsing *)

Lemma to_digit_value c r : r <= 36 -> to_digit c r = digit_value r c.
Proof.
  intros Hr. unfold to_digit, digit_value.
  destruct ((48 <=? c) && (c <=? 57)); [reflexivity|].
  destruct ((97 <=? c) && (c <=? 122)) eqn:E2.
  { replace (c - 97 + 10) with (c - 87) by lia. reflexivity. }
  destruct ((65 <=? c) && (c <=? 90)) eqn:E3.
  { replace (c - 65 + 10) with (c - 55) by lia. reflexivity. }
  now rewrite N.ltb_irrefl.
Qed.

Lemma std_parse_loop_ok lim r s acc : 2 <= r -> r <= 36 -> acc < lim ->
  match number r s with
  | Some n => std_parse_loop lim r s acc =
      let v := acc * r ^ N.of_nat (length s) + n in
      if v <? lim then StdOk v else StdPosOverflow
  | None => std_parse_loop lim r s acc = StdInvalidDigit \/ std_parse_loop lim r s acc = StdPosOverflow
  end.
Proof.
  intros H2 H36. revert acc; induction s as [|c t IH]; intros acc Hacc; cbn [number std_parse_loop length].
  - change (N.of_nat 0) with 0. cbv zeta. rewrite N.pow_0_r, N.mul_1_r, N.add_0_r.
    now replace (acc <? lim) with true by lia.
  - rewrite to_digit_value by auto. destruct (digit_value r c) as [d|] eqn:Hd; [|auto].
    assert (Ld := digit_value_lt _ _ _ Hd).
    rewrite Nat2N.inj_succ, N.pow_succ_r'.
    assert (P : 0 < r ^ N.of_nat (length t)) by (apply N.neq_0_lt_0, N.pow_nonzero; lia).
    destruct (acc * r <? lim) eqn:E1; [destruct (acc * r + d <? lim) eqn:E2|].
    + specialize (IH (acc * r + d) ltac:(lia)). destruct (number r t) as [n|]; [|exact IH].
      rewrite IH. cbv zeta. 
      replace ((acc * r + d) * r ^ N.of_nat (length t) + n)
        with (acc * (r * r ^ N.of_nat (length t)) + (d * r ^ N.of_nat (length t) + n)) by ring.
      reflexivity.
    + destruct (number r t) as [n|]; [|auto]. cbv zeta.
      replace (_ <? lim) with false; [reflexivity|].
      symmetry. apply N.ltb_ge. revert P E2. generalize (r ^ N.of_nat (length t)). clear. intros p P E2. nia.
    + destruct (number r t) as [n|]; [|auto]. cbv zeta.
      replace (_ <? lim) with false; [reflexivity|].
      symmetry. apply N.ltb_ge. revert P E1. generalize (r ^ N.of_nat (length t)). clear. intros p P E2. nia.
Qed.
