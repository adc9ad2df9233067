(** * PropsText: lemmas behind C21 - C27. *)

From Coq Require Import ZifyBool ZifyNat ZifyN.
From Verif Require Import Base Arith Strings Bv Spec TextSpec PWords PArith PShift PropsArith PConv PText PParse.
Ltac Zify.zify_post_hook ::= idtac.

Lemma dt_nth b k x i : (i < k)%nat ->
  nth i (dt b k x) 0 = digit_char ((x / 2 ^ (b * N.of_nat (k - 1 - i))) mod 2 ^ b).
Proof.
  revert i; induction k as [|k IH]; intros i H; [lia|]. cbn [dt].
  destruct i as [|i].
  - cbn [nth]. now replace (S k - 1 - 0)%nat with k by lia.
  - cbn [nth]. rewrite IH by lia. now replace (S k - 1 - S i)%nat with (k - 1 - i)%nat by lia.
Qed.

Lemma digit_char_bit x i : digit_char ((x / 2 ^ i) mod 2 ^ 1) = if N.testbit x i then 49 else 48.
Proof.
  rewrite N.testbit_eqb. change (2 ^ 1) with 2.
  assert (L := N.mod_upper_bound (x / 2 ^ i) 2 ltac:(lia)).
  revert L. generalize ((x / 2 ^ i) mod 2). intros d L.
  unfold digit_char. replace (d <? 10) with true by lia. destruct (d =? 1) eqn:E; lia.
Qed.

Lemma bit_str_print v w x : is_bv v w x ->
  exists s, bv_to_bit_str v = Ok s /\ len s = w
    /\ forall i, i < w -> nth (N.to_nat i) s 0 = if N.testbit x (w - 1 - i) then 49 else 48.
Proof.
  intros H. exists (dt 1 (N.to_nat w) x). split; [now apply to_bit_str_ok|].
  split; [unfold len; rewrite dt_len; lia|].
  intros i Hi. rewrite dt_nth by lia. rewrite N.mul_1_l.
  replace (N.of_nat (N.to_nat w - 1 - N.to_nat i)) with (w - 1 - i) by lia.
  apply digit_char_bit.
Qed.

Lemma hex_str_print m v w x : is_bv v w x ->
  exists s, bv_to_hex_str m v = Ok s /\ len s = (w + 3) / 4
    /\ (forall i, i < (w + 3) / 4 ->
          nth (N.to_nat i) s 0 = digit_char ((x / 16 ^ ((w + 3) / 4 - 1 - i)) mod 16))
    /\ number 16 s = Some x.
Proof.
  intros H. exists (dt 4 (N.to_nat ((w + 3) / 4)) x). split; [now apply to_hex_str_ok|].
  split; [unfold len; rewrite dt_len; lia|]. split.
  - intros i Hi. rewrite dt_nth by lia.
    replace (N.of_nat (N.to_nat ((w + 3) / 4) - 1 - N.to_nat i)) with ((w + 3) / 4 - 1 - i) by lia.
    rewrite <- pow_base. reflexivity.
  - assert (L := is_bv_lt _ _ _ H).
    change 16 with (2 ^ 4). rewrite number_dt by (try reflexivity; discriminate). f_equal. apply mod_small_pow.
    apply (N.lt_le_trans _ _ _ L). apply pow_le. rewrite N2Nat.id. clear. dlia.
Qed.

(** ** widths *)
Lemma num_digits_ok r s z : signed_text r s = Some z -> len (without_sign s) < 2 ^ 32 ->
  num_digits s = len (without_sign s).
Proof.
  intros Hs Hl. destruct (signed_text_inv _ _ _ Hs) as (n & Hd & Hn & C).
  destruct (digits_head _ _ _ Hd Hn) as (c & t & Ed & N1 & N2).
  assert (A : as_u32 (len (c :: t)) = len (c :: t)).
  { unfold as_u32. apply N.mod_small. rewrite B32_eq, <- Ed. auto. }
  rewrite Ed in *. clear Ed Hd Hn Hs.
  unfold num_digits, c_plus, c_minus. destruct C as [[-> _]|[[->| ->] _]].
  - change ((45 =? 43) || (45 =? 45)) with true. cbn iota. exact A.
  - change ((43 =? 43) || (43 =? 45)) with true. cbn iota. exact A.
  - replace (c =? 43) with false by lia. replace (c =? 45) with false by lia. cbn [orb].
    destruct t; exact A.
Qed.

Lemma sign_cases r s z : signed_text r s = Some z ->
  starts_with_minus s = (match s with c :: _ => c =? 45 | [] => false end).
Proof. destruct s; reflexivity. Qed.

Lemma number_fits r b d n : r = 2 ^ b -> number r d = Some n -> n < 2 ^ (b * len d).
Proof.
  intros -> H. apply number_lt in H; auto. rewrite pow_base in H. exact H.
Qed.

Lemma text_lt r b s z : r = 2 ^ b -> signed_text r s = Some z ->
  Z.abs_N z < 2 ^ (b * len (without_sign s)).
Proof.
  intros Hr Hs. destruct (signed_text_inv _ _ _ Hs) as (n & Hd & Hn & C).
  apply (number_fits _ b) in Hn; auto. destruct C as [[_ ->]|[_ ->]]; lia.
Qed.

Definition extra (s : list N) : N := match s with c :: _ => if c =? 45 then 1 else 0 | [] => 0 end.

Lemma extra_minus s : (if starts_with_minus s then 1 else 0) = extra s.
Proof. destruct s; reflexivity. Qed.

Lemma text_pos r s z : signed_text r s = Some z -> 0 < len (without_sign s).
Proof.
  intros Hs. destruct (signed_text_inv _ _ _ Hs) as (n & Hd & Hn & C).
  destruct (without_sign s); [easy|]. rewrite len_cons. lia.
Qed.

Lemma from_bit_str_ok m s z : signed_text 2 s = Some z ->
  len (without_sign s) + extra s < 2 ^ 32 ->
  yields (let* p := bv_from_bit_str m s in match p with Parsed v => Ok v | ParseErr _ => Panic PExplicit end)
    (len (without_sign s) + extra s) (wrap (len (without_sign s) + extra s) z)
  /\ exists v, bv_from_bit_str m s = Ok (Parsed v)
     /\ is_bv v (len (without_sign s) + extra s) (wrap (len (without_sign s) + extra s) z).
Proof.
  intros Hs Hlen.
  assert (G : exists v, bv_from_bit_str m s = Ok (Parsed v)
     /\ is_bv v (len (without_sign s) + extra s) (wrap (len (without_sign s) + extra s) z)).
  2:{ split; [|exact G]. destruct G as (v & E & H). exists v. rewrite E. auto. }
  unfold bv_from_bit_str, determine_width_from_str_radix.
  change ((2 =? 2) || (2 =? 16)) with true. rewrite debug_assert_true. cbn [bind].
  change (2 =? 2) with true. cbn iota. cbn [bind].
  rewrite (num_digits_ok _ _ _ Hs) by lia. rewrite extra_minus, u32_add_ok by auto. cbn [bind].
  assert (P := text_pos _ _ _ Hs).
  assert (L := text_lt 2 1 s z eq_refl Hs). rewrite N.mul_1_l in L.
  apply parse_ok; auto; try lia.
  - apply (N.lt_le_trans _ _ _ L). apply pow_le. lia.
  - unfold parser_fits. destruct (N.le_gt_cases (len (without_sign s) + extra s) 128); [left; lia|].
    right; left. lia.
Qed.

Lemma from_hex_str_ok m s z : signed_text 16 s = Some z ->
  len (without_sign s) < 2 ^ 30 -> 4 * len (without_sign s) + extra s < 2 ^ 32 ->
  exists v, bv_from_hex_str m s = Ok (Parsed v)
     /\ is_bv v (4 * len (without_sign s) + extra s) (wrap (4 * len (without_sign s) + extra s) z).
Proof.
  intros Hs Hlen Hlen2.
  unfold bv_from_hex_str, determine_width_from_str_radix.
  change ((16 =? 2) || (16 =? 16)) with true. rewrite debug_assert_true. cbn [bind].
  change (16 =? 2) with false. change (16 =? 16) with true. cbn iota. cbn [bind].
  rewrite (num_digits_ok _ _ _ Hs) by lia.
  assert (M : u32_mul m (len (without_sign s)) 4 = Ok (4 * len (without_sign s))).
  { unfold u32_mul. rewrite N.mul_comm. rewrite B32_eq.
    now replace (4 * len (without_sign s) <? 2 ^ 32) with true by lia. }
  rewrite M. cbn [bind]. rewrite extra_minus, u32_add_ok by auto. cbn [bind].
  assert (P := text_pos _ _ _ Hs).
  assert (L := text_lt 16 4 s z eq_refl Hs).
  apply parse_ok; auto; try lia.
  - apply (N.lt_le_trans _ _ _ L). apply pow_le. lia.
  - unfold parser_fits. destruct (N.le_gt_cases (4 * len (without_sign s) + extra s) 128); [left; lia|].
    right; right. split; [auto|]. split; [auto|]. split; [auto|].
    clear. dlia.
Qed.

(** plain digits *)
Lemma plain_text r s n : s <> [] -> number r s = Some n ->
  signed_text r s = Some (Z.of_N n) /\ without_sign s = s /\ extra s = 0.
Proof.
  intros Hs Hn. destruct (digits_head _ _ _ Hs Hn) as (c & t & -> & N1 & N2).
  unfold signed_text, without_sign, extra.
  replace (c =? 45) with false by lia. replace (c =? 43) with false by lia. cbn [orb].
  unfold unsigned_text. rewrite Hn. auto.
Qed.

Lemma plus_text r s n : s <> [] -> number r s = Some n ->
  signed_text r (43 :: s) = Some (Z.of_N n) /\ without_sign (43 :: s) = s /\ extra (43 :: s) = 0.
Proof.
  intros Hs Hn. unfold signed_text, without_sign, extra.
  change (43 =? 45) with false. change (43 =? 43) with true. cbn [orb]. cbn iota.
  unfold unsigned_text. rewrite Hn. destruct s; [easy|]. auto.
Qed.

Lemma minus_text r s n : s <> [] -> number r s = Some n ->
  signed_text r (45 :: s) = Some (- Z.of_N n)%Z /\ without_sign (45 :: s) = s /\ extra (45 :: s) = 1.
Proof.
  intros Hs Hn. unfold signed_text, without_sign, extra.
  change (45 =? 45) with true. cbn [orb]. cbn iota.
  unfold unsigned_text. rewrite Hn. destruct s; [easy|]. auto.
Qed.

(** C21 *)
Lemma binary_number s : Forall (fun c => c = 48 \/ c = 49) s ->
  exists n, number 2 s = Some n.
Proof.
  induction 1 as [|c t Hc Ht (n & IH)]; [eexists; reflexivity|].
  cbn [number]. rewrite IH. destruct Hc as [-> | ->]; eexists; reflexivity.
Qed.

Lemma binary_lower s : Forall (fun c => c = 48 \/ c = 49) s -> map lower s = s.
Proof. induction 1 as [|c t [-> | ->] _ IH]; cbn [map]; [|rewrite IH..]; reflexivity. Qed.

Lemma bit_str_parse m s : s <> [] -> Forall (fun c => c = 48 \/ c = 49) s -> len s < 2 ^ 32 ->
  exists v n, number 2 s = Some n /\ bv_from_bit_str m s = Ok (Parsed v)
    /\ is_bv v (len s) n /\ bv_to_bit_str v = Ok s.
Proof.
  intros Hs Hb Hl. destruct (binary_number s Hb) as (n & Hn).
  destruct (plain_text 2 s n Hs Hn) as (T1 & T2 & T3).
  destruct (from_bit_str_ok m s _ T1) as (_ & v & E & H); [rewrite T2, T3; lia|].
  rewrite T2, T3, N.add_0_r in H.
  assert (L := number_fits 2 1 s n eq_refl Hn). rewrite N.mul_1_l in L.
  rewrite wrap_mod, mod_small_pow in H by auto.
  exists v, n. split; [auto|]. split; [auto|]. split; [auto|].
  rewrite (to_bit_str_ok _ _ _ H). unfold len. rewrite Nat2N.id.
  rewrite (dt_number 1 s n); try reflexivity; [|discriminate|exact Hn].
  now rewrite binary_lower.
Qed.

Lemma dt_binary k x : Forall (fun c => c = 48 \/ c = 49) (dt 1 k x).
Proof.
  induction k as [|k IH]; cbn [dt]; constructor; auto.
  rewrite digit_char_bit. destruct (N.testbit _ _); auto.
Qed.

Lemma bit_str_round_trip m v w x : is_bv v w x ->
  exists s, bv_to_bit_str v = Ok s /\ bv_from_bit_str m s = Ok (Parsed v).
Proof.
  intros H. rewrite (to_bit_str_ok _ _ _ H). eexists. split; [reflexivity|].
  destruct (N.eq_dec w 0) as [->|Hw].
  { change (N.to_nat 0) with O. cbn [dt].
    assert (E : bv_from_bit_str m [] = Ok (Parsed (bv_zero 0))) by (destruct m; reflexivity).
    rewrite E. do 2 f_equal. eapply is_bv_unique; eauto.
    assert (L := is_bv_lt _ _ _ H). change (2 ^ 0) with 1 in L. replace x with 0 by lia.
    apply zero_is_bv. reflexivity. }
  destruct (bit_str_parse m (dt 1 (N.to_nat w) x)) as (v' & n & E1 & E2 & E3 & E4).
  - intros E. apply (f_equal (@length N)) in E. rewrite dt_len in E. cbn [length] in E. lia.
  - apply dt_binary.
  - unfold len. rewrite dt_len. assert (L := is_bv_w _ _ _ H). lia.
  - rewrite E2. do 2 f_equal. unfold len in E3. rewrite dt_len, N2Nat.id in E3.
    change 2 with (2 ^ 1) in E1. rewrite number_dt in E1 by (try reflexivity; discriminate).
    rewrite N2Nat.id, N.mul_1_l, mod_small_pow in E1 by (eapply is_bv_lt; eauto).
    injection E1 as <-. eapply is_bv_unique; eauto.
Qed.

(** C22 *)

Lemma hex_number s : Forall hex_digit s -> exists n, number 16 s = Some n.
Proof.
  induction 1 as [|c t Hc Ht (n & IH)]; [eexists; reflexivity|].
  cbn [number]. rewrite IH. rewrite <- hex_digit_ok. unfold hex_digit_value, hex_digit in *.
  destruct ((48 <=? c) && (c <=? 57)) eqn:A; [eexists; reflexivity|].
  destruct ((97 <=? c) && (c <=? 102)) eqn:B; [eexists; reflexivity|].
  destruct ((65 <=? c) && (c <=? 70)) eqn:C; [eexists; reflexivity|]. lia.
Qed.

Lemma hex_str_parse m s : s <> [] -> Forall hex_digit s -> len s < 2 ^ 30 ->
  exists v n, number 16 s = Some n /\ bv_from_hex_str m s = Ok (Parsed v)
    /\ is_bv v (4 * len s) n /\ bv_to_hex_str m v = Ok (map lower s).
Proof.
  intros Hs Hb Hl. destruct (hex_number s Hb) as (n & Hn).
  destruct (plain_text 16 s n Hs Hn) as (T1 & T2 & T3).
  destruct (from_hex_str_ok m s _ T1) as (v & E & H); rewrite ?T2, ?T3; try lia.
  rewrite T2, T3, N.add_0_r in H.
  assert (L := number_fits 16 4 s n eq_refl Hn).
  rewrite wrap_mod, mod_small_pow in H by auto.
  exists v, n. split; [auto|]. split; [auto|]. split; [auto|].
  rewrite (to_hex_str_ok _ _ _ _ H).
  assert (E4 : N.to_nat ((4 * len s + 3) / 4) = length s).
  { unfold len. clear. dlia. }
  rewrite E4, (dt_number 4 s n); try reflexivity; [discriminate|exact Hn].
Qed.

(** reading back a printed hex string with the width it needs *)
Lemma hex_str_round_trip m v w x : is_bv v w x -> 0 < w -> w + 3 < 2 ^ 32 ->
  exists s, bv_to_hex_str m v = Ok s /\ bv_from_str_radix m s 16 w = Ok (Parsed v).
Proof.
  intros H Hw Hw3. assert (L := is_bv_lt _ _ _ H). assert (H32 := is_bv_w _ _ _ H).
  rewrite (to_hex_str_ok _ _ _ _ H). eexists. split; [reflexivity|].
  set (s := dt 4 (N.to_nat ((w + 3) / 4)) x).
  assert (Ls : len s = (w + 3) / 4) by (unfold len, s; rewrite dt_len; lia).
  assert (Hs : s <> []).
  { intros E. rewrite E in Ls. nils. clear - Ls Hw. dlia. }
  assert (Hn : number 16 s = Some x).
  { unfold s. change 16 with (2 ^ 4). rewrite number_dt by (try reflexivity; discriminate). f_equal.
    apply mod_small_pow. apply (N.lt_le_trans _ _ _ L). apply pow_le. rewrite N2Nat.id. clear. dlia. }
  destruct (plain_text 16 s x Hs Hn) as (T1 & T2 & T3).
  destruct (parse_ok m s 16 w _ Hw H32 T1) as (v' & E & H').
  - rewrite N2Z.id || idtac. replace (Z.abs_N (Z.of_N x)) with x by lia. auto.
  - rewrite T2, Ls. unfold parser_fits. destruct (N.le_gt_cases w 128); [left; lia|].
    right; right. split; [auto|]. split; [auto|]. change (2 ^ 30) with 1073741824. change (2 ^ 32) with 4294967296 in Hw3.
    split; clear - Hw3; dlia.
  - rewrite E. do 2 f_equal. rewrite wrap_mod, mod_small_pow in H' by auto. eapply is_bv_unique; eauto.
Qed.

(** C23 *)
Lemma dec_str_round_trip m v w x : is_bv v w x -> 0 < w -> w <= 128 ->
  exists s, bv_to_dec_str m v = Ok s /\ bv_from_str_radix m s 10 w = Ok (Parsed v).
Proof.
  intros H Hw H128. assert (L := is_bv_lt _ _ _ H). assert (H32 := is_bv_w _ _ _ H).
  destruct (to_dec_str_raw m v w x H) as (s & E1 & E2 & E3).
  { apply (N.lt_le_trans _ _ _ L). apply pow_le. auto. } { right. lia. }
  exists s. split; [auto|].
  assert (Hs : s <> []) by (intros ->; easy).
  destruct (plain_text 10 s x Hs E2) as (T1 & T2 & T3).
  destruct (parse_ok m s 10 w _ Hw H32 T1) as (v' & E & H').
  - replace (Z.abs_N (Z.of_N x)) with x by lia. auto.
  - left. lia.
  - rewrite E. do 2 f_equal. rewrite wrap_mod, mod_small_pow in H' by auto. eapply is_bv_unique; eauto.
Qed.

Lemma to_dec_str_overflow v w x : is_bv v w x -> 2 ^ 32 <= w * 3 -> panics (bv_to_dec_str Debug v).
Proof.
  intros H Hw. apply is_bv_inv in H as (E & _). unfold bv_to_dec_str, to_dec_str. rewrite E.
  unfold u32_mul. rewrite B32_eq. replace (w * 3 <? 2 ^ 32) with false by lia. eexists. reflexivity.
Qed.

Lemma dec_parse_wide m s w : 128 < w -> w < 2 ^ 32 -> s <> [] -> starts_with_minus s = false -> strip_plus s <> None ->
  panics (bv_from_str_radix m s 10 w).
Proof.
  intros Hw H32 Hs Hm Hp. unfold bv_from_str_radix, bv_assign_from_str_radix. cbn [bv_zero width words].
  rewrite from_str_pos by (auto; lia). rewrite mag_wide by (auto; apply zeros_len).
  destruct (strip_plus s); [|easy]. change (10 =? 2) with false. change (10 =? 10) with true.
  cbn iota. eexists. reflexivity.
Qed.

(** C24 *)
Lemma dt_text b K mag : 0 < b -> 2 ^ b <= 36 -> (0 < K)%nat ->
  signed_text (2 ^ b) (dt b K mag) = Some (Z.of_N (mag mod 2 ^ (b * N.of_nat K)))
  /\ signed_text (2 ^ b) (45 :: dt b K mag) = Some (- Z.of_N (mag mod 2 ^ (b * N.of_nat K)))%Z
  /\ without_sign (dt b K mag) = dt b K mag.
Proof.
  intros Hb H36 HK. assert (Hn := number_dt b K mag Hb H36).
  assert (Hs : dt b K mag <> []).
  { intros E. apply (f_equal (@length N)) in E. rewrite dt_len in E. cbn in E. lia. }
  split; [|split].
  - now apply plain_text.
  - now apply minus_text.
  - now apply (plain_text (2 ^ b) _ (mag mod 2 ^ (b * N.of_nat K))).
Qed.

Lemma bit_signed_raw m v w x : is_bv v w x -> 2 <= w ->
  bv_to_bit_str_signed m v
  = Ok (let K := N.to_nat (if w mod 64 =? 1 then w + 63 else w - 1) in
        if 2 ^ (w - 1) <=? x then 45 :: dt 1 K (2 ^ w - x) else dt 1 K x).
Proof.
  intros H Hw. assert (HH := H). apply is_bv_inv in H as (E & H32 & Hl & HW & Hv & Hx).
  unfold bv_to_bit_str_signed, to_bit_str_signed. rewrite E.
  rewrite (is_neg_ok m v w x) by (auto; lia). cbn [bind].
  assert (KE : forall l : list N, len l = (w + 63) / 64 ->
     (N.to_nat ((w - 1 - 1) mod 64 + 1) + 64 * (length l - 1))%nat
     = N.to_nat (if w mod 64 =? 1 then w + 63 else w - 1)).
  { intros l L. unfold len in L. destruct (w mod 64 =? 1) eqn:M; clear - L M Hw; dlia. }
  destruct (2 ^ (w - 1) <=? x) eqn:Neg.
  - destruct (negate_in_place_wres m (words v) w) as (l' & E1 & E2 & E3 & E4); auto; try lia.
    rewrite E1. cbn [bind]. rewrite u32_sub_ok by lia. cbn [bind].
    rewrite to_bit_str_words; auto; try lia.
    2:{ intros ->. nils. clear - E2 Hw. dlia. }
    rewrite (KE _ E2). cbn [app]. rewrite E4, Hv.
    assert (P := pow_pos (w - 1)).
    replace (- Z.of_N x)%Z with (Z.of_N 0 - Z.of_N x)%Z by lia.
    rewrite wrap_sub by lia. rewrite N.add_0_l, mod_small_pow by lia. reflexivity.
  - rewrite u32_sub_ok by lia. cbn [bind]. unfold to_bit_str.
    rewrite to_bit_str_words; auto; try lia.
    2:{ intros E2. rewrite E2 in Hl. nils. clear - Hl Hw. dlia. }
    rewrite (KE _ Hl), Hv. reflexivity.
Qed.

Lemma hex_signed_raw m v w x : is_bv v w x -> 2 <= w ->
  bv_to_hex_str_signed m v
  = Ok (let K := N.to_nat ((w - 1 + 3) / 4) in
        if 2 ^ (w - 1) <=? x then 45 :: dt 4 K (2 ^ w - x) else dt 4 K x).
Proof.
  intros H Hw. assert (HH := H). apply is_bv_inv in H as (E & H32 & Hl & HW & Hv & Hx).
  unfold bv_to_hex_str_signed, to_hex_str_signed. rewrite E.
  rewrite (is_neg_ok m v w x) by (auto; lia). cbn [bind].
  assert (G : forall l out, Words l -> len l = (w + 63) / 64 ->
    (let* ws := select_words_for_width m l (w - 1) in to_hex_str_internal m ws (w - 1) out)
    = Ok (out ++ dt 4 (N.to_nat ((w - 1 + 3) / 4)) (wv l))).
  { intros l out Wl Ll. unfold select_words_for_width. rewrite div_ceil_eq.
    assert (Le : (w - 1 + 63) / 64 <= len l) by (rewrite Ll; apply N.div_le_mono; lia).
    replace (_ <=? len l) with true by lia. rewrite debug_assert_true. cbn [bind].
    rewrite range_ok by lia. cbn [bind]. change (N.to_nat 0) with O. cbn [skipn].
    rewrite N.sub_0_r.
    rewrite to_hex_str_words; auto; try lia.
    2:{ rewrite len_firstn; rewrite N2Nat.id; auto. }
    do 2 f_equal. apply dt_ext. rewrite wv_firstn by auto.
    apply mod_mod_le. rewrite !N2Nat.id. clear. dlia. }
  destruct (2 ^ (w - 1) <=? x) eqn:Neg.
  - destruct (negate_in_place_wres m (words v) w) as (l' & E1 & E2 & E3 & E4); auto; try lia.
    rewrite E1. cbn [bind]. rewrite u32_sub_ok by lia. cbn [bind]. rewrite G by auto.
    cbn [app]. rewrite E4, Hv. assert (P := pow_pos (w - 1)).
    replace (- Z.of_N x)%Z with (Z.of_N 0 - Z.of_N x)%Z by lia.
    rewrite wrap_sub by lia. rewrite N.add_0_l, mod_small_pow by lia. reflexivity.
  - rewrite u32_sub_ok by lia. cbn [bind]. unfold to_hex_str. rewrite G by auto.
    cbn [app]. rewrite Hv. reflexivity.
Qed.

(** the text denotes the signed value iff the magnitude fits the printed digits *)
Lemma signed_dt b K w x : 0 < b -> 2 ^ b <= 36 -> (0 < K)%nat -> 2 <= w -> x < 2 ^ w ->
  w - 1 <= b * N.of_nat K ->
  signed_text (2 ^ b) (if 2 ^ (w - 1) <=? x then 45 :: dt b K (2 ^ w - x) else dt b K x)
  = Some (if (2 ^ (w - 1) =? x) && (w - 1 =? b * N.of_nat K) then 0%Z else signed w x).
Proof.
  intros Hb H36 HK Hw Hx Hfit.
  destruct (dt_text b K (2 ^ w - x) Hb H36 HK) as (_ & T2 & _).
  destruct (dt_text b K x Hb H36 HK) as (T1 & _ & _).
  assert (P2 : 2 ^ w = 2 * 2 ^ (w - 1)) by (rewrite <- pow_S; f_equal; lia).
  assert (Ple : 2 ^ (w - 1) <= 2 ^ (b * N.of_nat K)) by auto.
  rewrite signed_neg by (auto; lia).
  destruct (2 ^ (w - 1) <=? x) eqn:Neg.
  - rewrite T2. f_equal.
    destruct ((2 ^ (w - 1) =? x) && (w - 1 =? b * N.of_nat K)) eqn:C.
    + replace (2 ^ w - x) with (2 ^ (w - 1)) by lia.
      replace (b * N.of_nat K) with (w - 1) by lia. rewrite N.mod_same by auto. reflexivity.
    + rewrite mod_small_pow; [lia|].
      destruct (2 ^ (w - 1) =? x) eqn:C1; [|lia].
      apply (N.le_lt_trans _ (2 ^ (w - 1))); [lia|]. apply pow_lt. lia.
  - rewrite T1. replace (2 ^ (w - 1) =? x) with false by lia. cbn [andb].
    rewrite mod_small_pow by lia. reflexivity.
Qed.

Lemma signed_min_ne0 w : 0 < w -> signed w (2 ^ (w - 1)) <> 0%Z.
Proof.
  intros Hw. unfold signed. rewrite N.ltb_irrefl, Zpow.
  replace (2 ^ w) with (2 * 2 ^ (w - 1)) by (rewrite <- pow_S; f_equal; lia).
  assert (P := pow_pos (w - 1)). lia.
Qed.

Lemma bit_signed_exact m v w x : is_bv v w x -> 0 < w ->
  ((exists s, bv_to_bit_str_signed m v = Ok s /\ signed_text 2 s = Some (signed w x))
   <-> 2 <= w /\ (x <> 2 ^ (w - 1) \/ w mod 64 = 1)).
Proof.
  intros H Hw. assert (L := is_bv_lt _ _ _ H).
  destruct (N.eq_dec w 1) as [->|Hw1].
  { split; [|lia]. intros (s & E & Hs). exfalso. revert E Hs.
    assert (HH := H). apply is_bv_inv in H as (E & H32 & Hl & HW & Hv & Hx).
    unfold bv_to_bit_str_signed, to_bit_str_signed. rewrite E, (is_neg_ok m v 1 x) by (auto; lia).
    cbn [bind]. destruct (2 ^ (1 - 1) <=? x).
    - destruct (negate_in_place_wres m (words v) 1) as (l' & E1 & _); auto; try lia.
      rewrite E1. cbn [bind]. rewrite u32_sub_ok by lia. cbn [bind].
      change (1 - 1) with 0. intros [= <-]. discriminate.
    - rewrite u32_sub_ok by lia. cbn [bind]. change (1 - 1) with 0. intros [= <-]. discriminate. }
  assert (H2 : 2 <= w) by lia.
  rewrite (bit_signed_raw m v w x H H2). cbv zeta.
  set (K := N.to_nat (if w mod 64 =? 1 then w + 63 else w - 1)).
  assert (HK : N.of_nat K = if w mod 64 =? 1 then w + 63 else w - 1) by (unfold K; lia).
  assert (T := signed_dt 1 K w x eq_refl ltac:(discriminate)
    ltac:(destruct (w mod 64 =? 1); lia) H2 L ltac:(destruct (w mod 64 =? 1); lia)).
  change (2 ^ 1) with 2 in T. rewrite N.mul_1_l in T.
  split.
  - intros (s & [= <-] & Hs). rewrite Hs in T. split; [auto|].
    destruct (N.eq_dec x (2 ^ (w - 1))) as [Ex|]; [|auto]. right.
    destruct (w mod 64 =? 1) eqn:M; [lia|]. exfalso.
    replace ((2 ^ (w - 1) =? x) && (w - 1 =? N.of_nat K)) with true in T by lia.
    injection T as T. rewrite Ex in T. now apply signed_min_ne0 in T.
  - intros (_ & C). eexists. split; [reflexivity|]. rewrite T.
    replace (_ && _) with false; [reflexivity|]. destruct C as [C|C].
    + replace (2 ^ (w - 1) =? x) with false by lia. reflexivity.
    + replace (w mod 64 =? 1) with true in HK by lia. lia.
Qed.

Lemma hex_signed_exact m v w x : is_bv v w x -> 0 < w ->
  ((exists s, bv_to_hex_str_signed m v = Ok s /\ signed_text 16 s = Some (signed w x))
   <-> 2 <= w /\ (x <> 2 ^ (w - 1) \/ (w - 1) mod 4 <> 0)).
Proof.
  intros H Hw. assert (L := is_bv_lt _ _ _ H).
  destruct (N.eq_dec w 1) as [->|Hw1].
  { split; [|lia]. intros (s & E & Hs). exfalso. revert E Hs.
    assert (HH := H). apply is_bv_inv in H as (E & H32 & Hl & HW & Hv & Hx).
    unfold bv_to_hex_str_signed, to_hex_str_signed. rewrite E, (is_neg_ok m v 1 x) by (auto; lia).
    assert (G : forall l : list N, 
      (let* ws := select_words_for_width m l (1 - 1) in to_hex_str_internal m ws (1 - 1) [c_minus]) = Ok []
      /\ (let* ws := select_words_for_width m l (1 - 1) in to_hex_str m ws (1 - 1)) = Ok []).
    { intros l. unfold select_words_for_width. change (div_ceil (1 - 1) 64) with 0.
      replace (0 <=? len l) with true by lia. rewrite debug_assert_true. cbn [bind].
      rewrite range_ok by lia. cbn [bind]. destruct m; split; reflexivity. }
    cbn [bind]. destruct (2 ^ (1 - 1) <=? x).
    - destruct (negate_in_place_wres m (words v) 1) as (l' & E1 & _); auto; try lia.
      rewrite E1. cbn [bind]. rewrite u32_sub_ok by lia. cbn [bind].
      rewrite (proj1 (G l')). intros [= <-]. discriminate.
    - rewrite u32_sub_ok by lia. cbn [bind]. rewrite (proj2 (G _)). intros [= <-]. discriminate. }
  assert (H2 : 2 <= w) by lia.
  rewrite (hex_signed_raw m v w x H H2). cbv zeta.
  set (K := N.to_nat ((w - 1 + 3) / 4)).
  assert (HK : N.of_nat K = (w - 1 + 3) / 4) by (unfold K; lia).
  assert (HK0 : (0 < K)%nat) by (unfold K; clear - H2; dlia).
  assert (Hfit : w - 1 <= 4 * N.of_nat K) by (rewrite HK; clear; dlia).
  assert (T := signed_dt 4 K w x eq_refl ltac:(discriminate) HK0 H2 L Hfit).
  change (2 ^ 4) with 16 in T.
  assert (Q : (w - 1 =? 4 * N.of_nat K) = ((w - 1) mod 4 =? 0)).
  { rewrite HK. clear - H2. destruct ((w - 1) mod 4 =? 0) eqn:M; dlia. }
  rewrite Q in T.
  split.
  - intros (s & [= <-] & Hs). rewrite Hs in T. split; [auto|].
    destruct (N.eq_dec x (2 ^ (w - 1))) as [Ex|]; [|auto]. right. intros M.
    replace ((2 ^ (w - 1) =? x) && ((w - 1) mod 4 =? 0)) with true in T by lia.
    injection T as T. rewrite Ex in T. now apply signed_min_ne0 in T.
  - intros (_ & C). eexists. split; [reflexivity|]. rewrite T.
    replace (_ && _) with false; [reflexivity|]. destruct C as [C|C].
    + replace (2 ^ (w - 1) =? x) with false by lia. reflexivity.
    + replace ((w - 1) mod 4 =? 0) with false by lia. now rewrite andb_false_r.
Qed.

Lemma dt_without_sign b K mag : 0 < b -> 2 ^ b <= 36 -> (0 < K)%nat ->
  len (without_sign (dt b K mag)) = N.of_nat K
  /\ len (without_sign (45 :: dt b K mag)) = N.of_nat K.
Proof.
  intros Hb H36 HK. destruct (dt_text b K mag Hb H36 HK) as (_ & _ & T).
  rewrite T. unfold without_sign. change ((45 =? 45) || (45 =? 43)) with true. cbn iota.
  unfold len. rewrite dt_len. auto.
Qed.

Lemma abs_signed w x : 0 < w -> x < 2 ^ w -> Z.abs_N (signed w x) < 2 ^ w.
Proof.
  intros Hw Hx. rewrite signed_neg by auto. assert (P := pow_pos (w - 1)).
  destruct (_ <=? x) eqn:E; lia.
Qed.

(** printing signed and reading back *)
Lemma bit_signed_back m v w x : is_bv v w x -> 2 <= w -> x <> 2 ^ (w - 1) -> w mod 64 <> 1 ->
  exists s, bv_to_bit_str_signed m v = Ok s /\ bv_from_str_radix m s 2 w = Ok (Parsed v).
Proof.
  intros H Hw Hx Hm. assert (L := is_bv_lt _ _ _ H). assert (H32 := is_bv_w _ _ _ H).
  destruct (proj2 (bit_signed_exact m v w x H ltac:(lia))) as (s & E & Hs); [auto|].
  exists s. split; [auto|].
  rewrite (bit_signed_raw m v w x H Hw) in E. injection E as E.
  replace (w mod 64 =? 1) with false in E by lia.
  destruct (parse_ok m s 2 w _ ltac:(lia) H32 Hs) as (v' & E' & H').
  - apply abs_signed; auto; lia.
  - assert (Lk : len (without_sign s) = w - 1).
    { destruct (dt_without_sign 1 (N.to_nat (w - 1)) x) as [T1 _]; [reflexivity|discriminate|lia|].
      destruct (dt_without_sign 1 (N.to_nat (w - 1)) (2 ^ w - x)) as [_ T2]; [reflexivity|discriminate|lia|].
      destruct (2 ^ (w - 1) <=? x); rewrite <- E; [rewrite T2|rewrite T1]; lia. }
    rewrite Lk. unfold parser_fits. destruct (N.le_gt_cases w 128); [left; lia|]. right; left. lia.
  - rewrite E'. do 2 f_equal. rewrite wrap_signed in H' by auto. eapply is_bv_unique; eauto.
Qed.

Lemma hex_signed_back m v w x : is_bv v w x -> 2 <= w -> w + 3 < 2 ^ 32 ->
  x <> 2 ^ (w - 1) \/ (w - 1) mod 4 <> 0 ->
  exists s, bv_to_hex_str_signed m v = Ok s /\ bv_from_str_radix m s 16 w = Ok (Parsed v).
Proof.
  intros H Hw Hw3 Hx. assert (L := is_bv_lt _ _ _ H). assert (H32 := is_bv_w _ _ _ H).
  destruct (proj2 (hex_signed_exact m v w x H ltac:(lia))) as (s & E & Hs); [auto|].
  exists s. split; [auto|].
  rewrite (hex_signed_raw m v w x H Hw) in E. injection E as E.
  destruct (parse_ok m s 16 w _ ltac:(lia) H32 Hs) as (v' & E' & H').
  - apply abs_signed; auto; lia.
  - assert (HK0 : (0 < N.to_nat ((w - 1 + 3) / 4))%nat) by (clear - Hw; dlia).
    assert (Lk : len (without_sign s) = (w - 1 + 3) / 4).
    { destruct (dt_without_sign 4 (N.to_nat ((w - 1 + 3) / 4)) x) as [T1 _]; [reflexivity|discriminate|lia|].
      destruct (dt_without_sign 4 (N.to_nat ((w - 1 + 3) / 4)) (2 ^ w - x)) as [_ T2]; [reflexivity|discriminate|lia|].
      destruct (2 ^ (w - 1) <=? x); rewrite <- E; [rewrite T2|rewrite T1]; lia. }
    rewrite Lk. unfold parser_fits. destruct (N.le_gt_cases w 128); [left; lia|]. right; right.
    split; [auto|]. split; [auto|]. change (2 ^ 30) with 1073741824. change (2 ^ 32) with 4294967296 in Hw3.
    split; clear - Hw3 Hw; dlia.
  - rewrite E'. do 2 f_equal. rewrite wrap_signed in H' by auto. eapply is_bv_unique; eauto.
Qed.

Lemma bit_signed_refuted : exists m v w x s, 0 < w /\ is_bv v w x
  /\ bv_to_bit_str_signed m v = Ok s /\ signed w x = (-8)%Z /\ signed_text 2 s = Some 0%Z.
Proof.
  exists Debug, (bv_of 4 8), 4, 8, [45; 48; 48; 48].
  split; [reflexivity|]. split; [apply bv_of_is_bv; reflexivity|]. repeat split.
Qed.

Lemma hex_signed_refuted : exists m v w x s, 0 < w /\ is_bv v w x
  /\ bv_to_hex_str_signed m v = Ok s /\ signed w x = (-16)%Z /\ signed_text 16 s = Some 0%Z.
Proof.
  exists Debug, (bv_of 5 16), 5, 16, [45; 48].
  split; [reflexivity|]. split; [apply bv_of_is_bv; reflexivity|]. repeat split.
Qed.

(** two different values with the same text *)
Lemma bit_signed_collision : exists m a b w x y s, is_bv a w x /\ is_bv b w y /\ x <> y
  /\ bv_to_bit_str_signed m a = Ok s /\ bv_to_bit_str_signed m b = Ok s.
Proof.
  exists Debug, (bv_of 1 0), (bv_of 1 1), 1, 0, 1, [].
  split; [apply bv_of_is_bv; reflexivity|]. split; [apply bv_of_is_bv; reflexivity|].
  split; [discriminate|]. split; reflexivity.
Qed.

(** C25 *)
Lemma minus_bits m d n : d <> [] -> number 2 d = Some n -> len d + 1 < 2 ^ 32 ->
  exists v x, bv_from_bit_str m (45 :: d) = Ok (Parsed v) /\ is_bv v (len d + 1) x
    /\ signed (len d + 1) x = (- Z.of_N n)%Z.
Proof.
  intros Hd Hn Hl. destruct (minus_text 2 d n Hd Hn) as (T1 & T2 & T3).
  destruct (from_bit_str_ok m _ _ T1) as (_ & v & E & H); rewrite ?T2, ?T3; [lia|].
  rewrite T2, T3 in H. exists v, (wrap (len d + 1) (- Z.of_N n)). split; [auto|]. split; [auto|].
  apply signed_of_wrap; [lia|]. assert (L := number_fits 2 1 d n eq_refl Hn). rewrite N.mul_1_l in L.
  replace (Z.of_N (len d + 1) - 1)%Z with (Z.of_N (len d)) by lia. rewrite Zpow. lia.
Qed.

Lemma minus_hex m d n : d <> [] -> number 16 d = Some n -> len d < 2 ^ 30 -> 4 * len d + 1 < 2 ^ 32 ->
  exists v x, bv_from_hex_str m (45 :: d) = Ok (Parsed v) /\ is_bv v (4 * len d + 1) x
    /\ signed (4 * len d + 1) x = (- Z.of_N n)%Z.
Proof.
  intros Hd Hn Hl Hl4. destruct (minus_text 16 d n Hd Hn) as (T1 & T2 & T3).
  destruct (from_hex_str_ok m _ _ T1) as (v & E & H); rewrite ?T2, ?T3; try lia.
  rewrite T2, T3 in H. exists v, (wrap (4 * len d + 1) (- Z.of_N n)). split; [auto|]. split; [auto|].
  apply signed_of_wrap; [lia|]. assert (L := number_fits 16 4 d n eq_refl Hn).
  replace (Z.of_N (4 * len d + 1) - 1)%Z with (Z.of_N (4 * len d)) by lia. rewrite Zpow. lia.
Qed.

Lemma plus_bits m d n : d <> [] -> number 2 d = Some n -> len d < 2 ^ 32 ->
  bv_from_bit_str m (43 :: d) = bv_from_bit_str m d.
Proof.
  intros Hd Hn Hl. destruct (plus_text 2 d n Hd Hn) as (T1 & T2 & T3).
  destruct (plain_text 2 d n Hd Hn) as (U1 & U2 & U3).
  destruct (from_bit_str_ok m _ _ T1) as (_ & v & E & H); rewrite ?T2, ?T3; [lia|].
  destruct (from_bit_str_ok m _ _ U1) as (_ & v' & E' & H'); rewrite ?U2, ?U3; [lia|].
  rewrite T2, T3 in H. rewrite U2, U3 in H'. rewrite E, E'. do 2 f_equal. eapply is_bv_unique; eauto.
Qed.

Lemma plus_hex m d n : d <> [] -> number 16 d = Some n -> len d < 2 ^ 30 ->
  bv_from_hex_str m (43 :: d) = bv_from_hex_str m d.
Proof.
  intros Hd Hn Hl. destruct (plus_text 16 d n Hd Hn) as (T1 & T2 & T3).
  destruct (plain_text 16 d n Hd Hn) as (U1 & U2 & U3).
  destruct (from_hex_str_ok m _ _ T1) as (v & E & H); rewrite ?T2, ?T3; try lia.
  destruct (from_hex_str_ok m _ _ U1) as (v' & E' & H'); rewrite ?U2, ?U3; try lia.
  rewrite T2, T3 in H. rewrite U2, U3 in H'. rewrite E, E'. do 2 f_equal. eapply is_bv_unique; eauto.
Qed.

(** C26 *)
Lemma negate_any m l w : 0 < w -> Words l -> len l = (w + 63) / 64 ->
  wres (ar_negate_in_place m l w) w (wrap w (- Z.of_N (wv l))).
Proof.
  intros Hw Wl Ll. unfold ar_negate_in_place. rewrite negate_loop_add.
  destruct (add_loop_ok 1 l (repeat 0 (length l)) (map wnot l)) as (W & L & V);
    rewrite ?len_map, ?len_repeat; auto; try lia; try apply Words_map_wnot.
  eapply wres_eq; [apply mask_wres; auto; lia|].
  rewrite V, mod_mod_le by (rewrite Ll; apply ceil_mul).
  rewrite wv_map_wnot, wv_repeat0 by auto.
  assert (B := wv_bound l Wl). remember (64 * len l) as k.
  assert (Hk : w <= k) by (subst k; rewrite Ll; apply ceil_mul).
  assert (P := pow_pos k).
  replace (1 + 0 + (2 ^ k - 1 - wv l)) with (2 ^ k - wv l) by lia.
  symmetry. assert (D := N.div_mod (2 ^ k - wv l) (2 ^ w) ltac:(auto)).
  apply (wrap_eq w _ _ (Z.of_N ((2 ^ k - wv l) / 2 ^ w) - Z.of_N (2 ^ (k - w)))%Z); [auto|].
  assert (S := pow_split w k Hk).
  assert (Z.of_N (2 ^ k) - Z.of_N (wv l) = Z.of_N (2 ^ w) * Z.of_N ((2 ^ k - wv l) / 2 ^ w)
          + Z.of_N ((2 ^ k - wv l) mod 2 ^ w))%Z.
  { clear - D B. revert D. generalize ((2 ^ k - wv l) / 2 ^ w) ((2 ^ k - wv l) mod 2 ^ w). lia. }
  assert (Z.of_N (2 ^ k) = Z.of_N (2 ^ w) * Z.of_N (2 ^ (k - w)))%Z by (rewrite S at 1; apply N2Z.inj_mul).
  clear - H H0. revert H. generalize ((2 ^ k - wv l) / 2 ^ w) ((2 ^ k - wv l) mod 2 ^ w). lia.
Qed.

Lemma from_str_of_magnitude m s r w z : 0 < w -> signed_text r s = Some z ->
  bv_from_str_radix m s r w =
  let* (l, e) := parse_magnitude m (match s with c :: d => if c =? 45 then d else s | [] => [] end) r
                   (value_vec_zeros w) w in
  match e with
  | Some k => Ok (ParseErr k)
  | None => if (match s with c :: _ => c =? 45 | [] => false end)
            then let* l := ar_negate_in_place m l w in Ok (Parsed (mkbv w l))
            else Ok (Parsed (mkbv w l))
  end.
Proof.
  intros Hw Hs. destruct (signed_text_inv _ _ _ Hs) as (n & Hd & Hn & C).
  unfold bv_from_str_radix, bv_assign_from_str_radix. cbn [bv_zero width words].
  destruct s as [|c d]; [discriminate|]. destruct (c =? 45) eqn:E.
  - replace c with 45 in * by lia. rewrite from_str_neg; auto.
    destruct (parse_magnitude m d r (value_vec_zeros w) w) as [[l [k|]]|]; cbn [bind]; auto.
    destruct (ar_negate_in_place m l w); reflexivity.
  - rewrite from_str_pos; auto; [|discriminate].
    destruct (parse_magnitude m (c :: d) r (value_vec_zeros w) w) as [[l [k|]]|]; reflexivity.
Qed.

(** One or two words, a text that denotes a number: every case. *)
Lemma small_cases m s r w z : 0 < w -> w <= 128 -> 2 <= r -> r <= 36 -> signed_text r s = Some z ->
  (2 ^ (64 * ((w + 63) / 64)) <= Z.abs_N z -> bv_from_str_radix m s r w = Ok (ParseErr ExceedsWidth))
  /\ (Z.abs_N z < 2 ^ (64 * ((w + 63) / 64)) ->
      exists v, bv_from_str_radix m s r w = Ok (Parsed v) /\ width v = w
        /\ if match s with c :: _ => c =? 45 | [] => false end
           then is_bv v w (wrap w z) else uval v = Z.to_N z).
Proof.
  intros Hw H128 H2 H36 Hs. rewrite (from_str_of_magnitude m s r w z Hw Hs).
  destruct (signed_text_inv _ _ _ Hs) as (n & Hd & Hn & C).
  assert (P := pow_pos (64 * ((w + 63) / 64))).
  destruct (std_digits (2 ^ (64 * ((w + 63) / 64))) r _ n H2 H36 P Hd Hn) as [S1 S2].
  assert (Ez : Z.abs_N z = n) by (destruct C as [[_ ->]|[_ ->]]; lia). rewrite Ez.
  set (s' := match s with c :: d => if c =? 45 then d else s | [] => [] end).
  assert (Sstd : std_from_str_radix (2 ^ (64 * ((w + 63) / 64))) r s'
     = Ok (if n <? 2 ^ (64 * ((w + 63) / 64)) then StdOk n else StdPosOverflow)).
  { unfold s'. destruct C as [[E _]|[[E|E] _]].
    - rewrite E. exact S1.
    - rewrite E. exact S2.
    - destruct (digits_head _ _ _ Hd Hn) as (c & t & Ed & N1 & N2).
      rewrite E, Ed. replace (c =? 45) with false by lia. rewrite <- Ed. exact S1. }
  rewrite (small_ok m s' r _ w _ Hw H128 (zeros_len w) Sstd). cbn [bind].
  split; intros Hn2.
  - replace (n <? _) with false by lia. reflexivity.
  - replace (n <? _) with true by lia.
    destruct (words_of_ok (N.to_nat ((w + 63) / 64)) n) as (W1 & W2 & W3).
    rewrite N2Nat.id in *. rewrite mod_small_pow in W3 by auto.
    destruct C as [[E ->]|[E ->]].
    + rewrite E. change (45 =? 45) with true. cbn iota.
      destruct (negate_any m _ w Hw W1 W2) as (l & E1 & E2 & E3 & E4).
      rewrite E1. cbn [bind]. eexists. split; [reflexivity|]. split; [reflexivity|].
      rewrite W3 in E4. apply is_bv_intro; auto.
      apply (N.le_lt_trans _ 128); [auto|reflexivity].
    + assert (Em : match s with c :: _ => c =? 45 | [] => false end = false).
      { destruct (digits_head _ _ _ Hd Hn) as (c & t & Ed & N1 & N2).
        destruct E as [E|E]; rewrite E; [reflexivity|]. rewrite Ed. lia. }
      rewrite Em. eexists. split; [reflexivity|]. split; [reflexivity|].
      unfold uval. cbn [words]. rewrite W3. lia.
Qed.

Lemma small_unchecked m s r w n : 0 < w -> w <= 128 -> 2 <= r -> r <= 36 ->
  s <> [] -> number r s = Some n -> 2 ^ w <= n -> n < 2 ^ (64 * ((w + 63) / 64)) ->
  exists v, bv_from_str_radix m s r w = Ok (Parsed v) /\ uval v = n /\ ~ wf v.
Proof.
  intros Hw H128 H2 H36 Hs Hn H1 H3. destruct (plain_text r s n Hs Hn) as (T1 & _ & _).
  destruct (small_cases m s r w _ Hw H128 H2 H36 T1) as [_ G].
  destruct G as (v & E1 & E2 & E3). { replace (Z.abs_N (Z.of_N n)) with n by lia. auto. }
  destruct (digits_head _ _ _ Hs Hn) as (c & t & Ed & N1 & N2).
  rewrite Ed in E3. replace (c =? 45) with false in E3 by lia. rewrite N2Z.id in E3.
  exists v. split; [auto|]. split; [auto|].
  intros (_ & _ & _ & L). rewrite E2, E3 in L. lia.
Qed.

(** Not a number: an error, unless the text is empty or starts with "-+". *)
Lemma number_plus r t : number r (43 :: t) = None.
Proof.
  cbn [number]. destruct (digit_value r 43) eqn:E; [|auto].
  apply digit_not_sign in E. lia.
Qed.

Lemma small_not_a_number m s r w : 0 < w -> w <= 128 -> 2 <= r -> r <= 36 ->
  s <> [] -> signed_text r s = None -> match s with 45 :: 43 :: _ => False | _ => True end ->
  exists k, bv_from_str_radix m s r w = Ok (ParseErr k).
Proof.
  intros Hw H128 H2 H36 Hs Hn Hpm.
  unfold bv_from_str_radix, bv_assign_from_str_radix. cbn [bv_zero width words].
  assert (P := pow_pos (64 * ((w + 63) / 64))).
  assert (Key : forall d, d <> [] -> number r d = None ->
      match d with 43 :: t => number r t = None \/ t = [] | _ => True end ->
      exists o k, parse_magnitude m d r (value_vec_zeros w) w = Ok (o, Some k)).
  { intros d Hd Hdn Hp. destruct (std_bad (2 ^ (64 * ((w + 63) / 64))) r d H2 H36 P Hdn Hp) as [E|E];
      rewrite (small_ok m d r _ w _ Hw H128 (zeros_len w) E); eauto. }
  destruct s as [|c d]; [easy|]. unfold signed_text in Hn.
  destruct (c =? 45) eqn:E1.
  - assert (c = 45) by lia. subst c.
    destruct d as [|c2 d2].
    + exists InvalidDigit. unfold from_str_radix, strip_minus. change (45 =? c_minus) with true.
      cbn iota. now replace (w =? 0) with false by lia.
    + unfold unsigned_text in Hn. destruct (number r (c2 :: d2)) eqn:Hd; [discriminate|].
      destruct (Key (c2 :: d2)) as (o & k & E); [discriminate|auto| |].
      { destruct (N.eq_dec c2 43) as [->|]; [easy|].
        destruct c2 as [|p]; auto. do 6 (destruct p as [p|p|]; auto). now contradiction n. }
      exists k. rewrite from_str_neg by (auto; discriminate). rewrite E. reflexivity.
  - rewrite from_str_pos by (auto; cbn; unfold c_minus; lia).
    destruct (c =? 43) eqn:E2.
    + assert (c = 43) by lia. subst c.
      destruct (Key (43 :: d)) as (o & k & E).
      * discriminate.
      * apply number_plus.
      * destruct d as [|c2 d2]; [auto|]. unfold unsigned_text in Hn.
        destruct (number r (c2 :: d2)) eqn:Hd; [discriminate|auto].
      * exists k. rewrite E. reflexivity.
    + unfold unsigned_text in Hn. destruct (number r (c :: d)) eqn:Hd; [discriminate|].
      destruct (Key (c :: d)) as (o & k & E); auto.
      { destruct (N.eq_dec c 43) as [->|]; [easy|].
        destruct c as [|p]; auto. do 6 (destruct p as [p|p|]; auto). now contradiction n. }
      exists k. rewrite E. reflexivity.
Qed.

(** more than two words *)
Lemma mag_of_text m s r w z out : 128 < w -> len out = (w + 63) / 64 -> signed_text r s = Some z ->
  from_str_radix m s r out w =
  let* (l, e) := (if r =? 2 then parse_base_2 m (without_sign s) out w
                  else if r =? 10 then Panic PTodo
                  else if r =? 16 then parse_base_16 m (without_sign s) out
                  else Panic PTodo) in
  match e with
  | Some k => Ok (l, Some k)
  | None => if (match s with c :: _ => c =? 45 | [] => false end)
            then let* l := ar_negate_in_place m l w in Ok (l, None)
            else Ok (l, None)
  end.
Proof.
  intros Hw Hl Hs. destruct (signed_text_inv _ _ _ Hs) as (n & Hd & Hn & C).
  destruct (strip_plus_digits r _ n Hd Hn) as [S1 S2].
  destruct C as [[E _]|[E _]].
  - remember (without_sign s) as d. rewrite E, from_str_neg by (auto; lia).
    rewrite mag_wide, S1 by auto. reflexivity.
  - destruct (digits_head _ _ _ Hd Hn) as (c & t & Ed & N1 & N2).
    assert (Em : match s with c :: _ => c =? 45 | [] => false end = false).
    { destruct E as [E|E]; rewrite E; [reflexivity|]. rewrite Ed. lia. }
    rewrite Em. rewrite from_str_pos; auto; try lia.
    2:{ intros ->. discriminate. }
    rewrite mag_wide by auto.
    assert (Sp : strip_plus s = Some (without_sign s)) by (destruct E as [E|E]; rewrite E at 1; auto).
    rewrite Sp. destruct (if r =? 2 then _ else _) as [[l [k|]]|]; reflexivity.
Qed.

Lemma wide_bin_long m s w z : 128 < w -> signed_text 2 s = Some z ->
  w < len (without_sign s) -> len (without_sign s) < 2 ^ 32 ->
  bv_from_str_radix m s 2 w = Ok (ParseErr ExceedsWidth).
Proof.
  intros Hw Hs H1 H2. unfold bv_from_str_radix, bv_assign_from_str_radix. cbn [bv_zero width words].
  rewrite (mag_of_text m s 2 w z) by (auto using zeros_len). change (2 =? 2) with true. cbn iota.
  destruct (signed_text_inv _ _ _ Hs) as (n & Hd & _).
  destruct (parse_base_2_ok m (without_sign s) (value_vec_zeros w) w Hd H2 (zeros_words w) (zeros_len w))
    as [G _].
  rewrite (G H1). reflexivity.
Qed.

Lemma wide_bin_bad m d w : 128 < w -> w < 2 ^ 32 -> d <> [] -> number 2 d = None -> len d <= w ->
  match d with c :: _ => c <> 43 /\ c <> 45 | [] => True end ->
  bv_from_str_radix m d 2 w = Ok (ParseErr InvalidDigit).
Proof.
  intros Hw H32 Hd Hn Hl Hc. unfold bv_from_str_radix, bv_assign_from_str_radix. cbn [bv_zero width words].
  destruct d as [|c t]; [easy|].
  rewrite from_str_pos by (auto; try lia; cbn; unfold c_minus; lia).
  rewrite mag_wide by (auto using zeros_len).
  assert (Sp : strip_plus (c :: t) = Some (c :: t)).
  { unfold strip_plus, c_plus. replace (c =? 43) with false by lia. destruct t; auto. }
  rewrite Sp. change (2 =? 2) with true. cbn iota.
  destruct (parse_base_2_ok m (c :: t) (value_vec_zeros w) w Hd ltac:(lia) (zeros_words w) (zeros_len w))
    as [_ G].
  specialize (G Hl). rewrite Hn in G. destruct G as (o & E & _). rewrite E. reflexivity.
Qed.

Lemma wide_hex_panics m s w z : 128 < w -> signed_text 16 s = Some z ->
  (w + 63) / 64 < (len (without_sign s) + 15) / 16 -> len (without_sign s) < 2 ^ 30 ->
  panics (bv_from_str_radix m s 16 w).
Proof.
  intros Hw Hs H1 H2. unfold bv_from_str_radix, bv_assign_from_str_radix. cbn [bv_zero width words].
  rewrite (mag_of_text m s 16 w z) by (auto using zeros_len).
  change (16 =? 2) with false. change (16 =? 10) with false. change (16 =? 16) with true. cbn iota.
  destruct (signed_text_inv _ _ _ Hs) as (n & Hd & Hn & _).
  rewrite (parse_base_16_panics m _ _ n); auto; rewrite ?zeros_len; auto.
  - eexists. reflexivity.
  - clear - Hw. dlia.
Qed.

Lemma wide_hex_bad m d w : 128 < w -> d <> [] -> number 16 d = None ->
  len d < 2 ^ 30 -> (len d + 15) / 16 <= (w + 63) / 64 ->
  match d with c :: _ => c <> 43 /\ c <> 45 | [] => True end ->
  bv_from_str_radix m d 16 w = Ok (ParseErr InvalidDigit).
Proof.
  intros Hw Hd Hn H30 Hl Hc. unfold bv_from_str_radix, bv_assign_from_str_radix. cbn [bv_zero width words].
  destruct d as [|c t]; [easy|].
  rewrite from_str_pos by (auto; try lia; cbn; unfold c_minus; lia).
  rewrite mag_wide by (auto using zeros_len).
  assert (Sp : strip_plus (c :: t) = Some (c :: t)).
  { unfold strip_plus, c_plus. replace (c =? 43) with false by lia. destruct t; auto. }
  rewrite Sp. change (16 =? 2) with false. change (16 =? 10) with false. change (16 =? 16) with true. cbn iota.
  assert (G := parse_base_16_ok m (c :: t) (value_vec_zeros w) Hd H30 (zeros_words w)).
  rewrite zeros_len in G. specialize (G Hl). rewrite Hn in G. destruct G as (o & E & _). rewrite E. reflexivity.
Qed.

Lemma wide_dec_panics m s w z : 128 < w -> signed_text 10 s = Some z -> panics (bv_from_str_radix m s 10 w).
Proof.
  intros Hw Hs. unfold bv_from_str_radix, bv_assign_from_str_radix. cbn [bv_zero width words].
  rewrite (mag_of_text m s 10 w z) by (auto using zeros_len). eexists. reflexivity.
Qed.

Lemma parse_refuted_width : exists m s w v, signed_text 16 s = Some 255%Z /\ w = 4
  /\ bv_from_str_radix m s 16 w = Ok (Parsed v) /\ ~ wf v.
Proof.
  exists Debug, [102; 102], 4, (mkbv 4 [255]). repeat split.
  intros (_ & _ & _ & H). revert H. apply N.le_ngt. vm_compute. discriminate.
Qed.

Lemma parse_refuted_digit : exists m s w v, signed_text 10 s = None
  /\ bv_from_str_radix m s 10 w = Ok (Parsed v).
Proof. exists Debug, [45; 43; 53], 8, (mkbv 8 [251]). split; reflexivity. Qed.

(** C27 *)
Lemma assign_small m s r w : 0 < w -> w <= 128 -> 2 <= r -> r <= 36 -> s <> [] ->
  (exists v, forall old, wf old -> width old = w -> bv_assign_from_str_radix m old s r = Ok (v, None))
  \/ (exists k, forall old, wf old -> width old = w -> bv_assign_from_str_radix m old s r = Ok (old, Some k)).
Proof.
  intros Hw H128 H2 H36 Hs.
  assert (Key : forall d, exists p, std_from_str_radix (2 ^ (64 * ((w + 63) / 64))) r d = Ok p).
  { intros d. unfold std_from_str_radix. replace ((2 <=? r) && (r <=? 36)) with true by lia.
    cbn [assert bind]. eauto. }
  assert (Old : forall old, wf old -> width old = w -> len (words old) = (w + 63) / 64 /\ mkbv w (words old) = old).
  { intros [w' l] (_ & L & _) E. cbn in *. subst w'. auto. }
  assert (Pos : forall d, d <> [] -> starts_with_minus d = false ->
    (exists v, forall old, wf old -> width old = w -> bv_assign_from_str_radix m old d r = Ok (v, None))
    \/ (exists k, forall old, wf old -> width old = w -> bv_assign_from_str_radix m old d r = Ok (old, Some k))).
  { intros d Hd Hm. destruct (Key d) as (p & Hp).
    assert (G : forall old, wf old -> width old = w ->
      from_str_radix m d r (words old) (width old) = Ok
        (match p with StdOk v => (words_of (N.to_nat ((w + 63) / 64)) v, None)
         | e => (words old, Some (std_error e)) end)).
    { intros old Ho Ew. destruct (Old old Ho Ew) as [Lo _]. rewrite Ew, from_str_pos by auto.
      apply small_ok; auto. }
    destruct p.
    - left. exists (mkbv w (words_of (N.to_nat ((w + 63) / 64)) v)). intros old Ho Ew.
      unfold bv_assign_from_str_radix. rewrite (G old Ho Ew). cbn [bind]. now rewrite Ew.
    - right. eexists. intros old Ho Ew. destruct (Old old Ho Ew) as [_ Eo].
      unfold bv_assign_from_str_radix. rewrite (G old Ho Ew). cbn [bind]. rewrite Ew, Eo. reflexivity.
    - right. eexists. intros old Ho Ew. destruct (Old old Ho Ew) as [_ Eo].
      unfold bv_assign_from_str_radix. rewrite (G old Ho Ew). cbn [bind]. rewrite Ew, Eo. reflexivity.
    - right. eexists. intros old Ho Ew. destruct (Old old Ho Ew) as [_ Eo].
      unfold bv_assign_from_str_radix. rewrite (G old Ho Ew). cbn [bind]. rewrite Ew, Eo. reflexivity. }
  destruct s as [|c d]; [easy|]. destruct (c =? 45) eqn:E; [|apply Pos; auto].
  replace c with 45 by lia. destruct d as [|c2 d2].
  { right. exists InvalidDigit. intros old Ho Ew. destruct (Old old Ho Ew) as [_ Eo].
    unfold bv_assign_from_str_radix, from_str_radix, strip_minus. change (45 =? c_minus) with true. cbn iota.
    rewrite Ew. replace (w =? 0) with false by lia. cbn [bind]. now rewrite Eo. }
  destruct (Key (c2 :: d2)) as (p & Hp).
  assert (G : forall old, wf old -> width old = w ->
      parse_magnitude m (c2 :: d2) r (words old) (width old) = Ok
        (match p with StdOk v => (words_of (N.to_nat ((w + 63) / 64)) v, None)
         | e => (words old, Some (std_error e)) end)).
  { intros old Ho Ew. destruct (Old old Ho Ew) as [Lo _]. rewrite Ew. apply small_ok; auto. }
  destruct p.
  - destruct (words_of_ok (N.to_nat ((w + 63) / 64)) v) as (W1 & W2 & W3). rewrite N2Nat.id in *.
    destruct (negate_any m _ w Hw W1 W2) as (l & E1 & _).
    left. exists (mkbv w l). intros old Ho Ew.
    unfold bv_assign_from_str_radix. rewrite from_str_neg by (rewrite ?Ew; auto; discriminate).
    rewrite (G old Ho Ew). cbn [bind]. rewrite Ew, E1. reflexivity.
  - right. eexists. intros old Ho Ew. destruct (Old old Ho Ew) as [_ Eo].
    unfold bv_assign_from_str_radix. rewrite from_str_neg by (rewrite ?Ew; auto; discriminate).
    rewrite (G old Ho Ew). cbn [bind]. rewrite Ew, Eo. reflexivity.
  - right. eexists. intros old Ho Ew. destruct (Old old Ho Ew) as [_ Eo].
    unfold bv_assign_from_str_radix. rewrite from_str_neg by (rewrite ?Ew; auto; discriminate).
    rewrite (G old Ho Ew). cbn [bind]. rewrite Ew, Eo. reflexivity.
  - right. eexists. intros old Ho Ew. destruct (Old old Ho Ew) as [_ Eo].
    unfold bv_assign_from_str_radix. rewrite from_str_neg by (rewrite ?Ew; auto; discriminate).
    rewrite (G old Ho Ew). cbn [bind]. rewrite Ew, Eo. reflexivity.
Qed.

(** What really happens above two words: the words beyond the text stay. *)
Lemma assign_wide_bin m old w x d n : is_bv old w x -> 128 < w -> d <> [] -> number 2 d = Some n -> len d <= w ->
  exists v, bv_assign_from_str_radix m old d 2 = Ok (v, None) /\ width v = w
    /\ let k := (len d + 63) / 64 in uval v = n + 2 ^ (64 * k) * (x / 2 ^ (64 * k)).
Proof.
  intros H Hw Hd Hn Hl. apply is_bv_inv in H as (E & H32 & Lo & HW & Hv & Hx).
  destruct (plain_text 2 d n Hd Hn) as (T1 & T2 & T3).
  unfold bv_assign_from_str_radix. rewrite E, (mag_of_text m d 2 w _ _ Hw Lo T1).
  change (2 =? 2) with true. cbn iota. rewrite T2.
  destruct (parse_base_2_ok m d (words old) w Hd ltac:(lia) HW Lo) as [_ G].
  specialize (G Hl). rewrite Hn in G. destruct G as (l & E1 & E2 & E3 & E4). rewrite E1. cbn [bind].
  destruct (digits_head _ _ _ Hd Hn) as (c & t & Ed & N1 & N2).
  assert (Em : match d with c :: _ => c =? 45 | [] => false end = false) by (rewrite Ed; lia).
  rewrite Em. cbn [bind]. eexists. split; [reflexivity|]. split; [reflexivity|].
  unfold uval. cbn [words]. cbv zeta. rewrite E4, wv_skipn, Hv by auto. rewrite N2Nat.id. reflexivity.
Qed.

Lemma assign_wide_hex m old w x d n : is_bv old w x -> 128 < w -> d <> [] -> number 16 d = Some n ->
  len d < 2 ^ 30 -> (len d + 15) / 16 <= (w + 63) / 64 ->
  exists v, bv_assign_from_str_radix m old d 16 = Ok (v, None) /\ width v = w
    /\ let k := (len d + 15) / 16 in uval v = n + 2 ^ (64 * k) * (x / 2 ^ (64 * k)).
Proof.
  intros H Hw Hd Hn H30 Hl. apply is_bv_inv in H as (E & H32 & Lo & HW & Hv & Hx).
  destruct (plain_text 16 d n Hd Hn) as (T1 & T2 & T3).
  unfold bv_assign_from_str_radix. rewrite E, (mag_of_text m d 16 w _ _ Hw Lo T1).
  change (16 =? 2) with false. change (16 =? 10) with false. change (16 =? 16) with true. cbn iota. rewrite T2.
  assert (G := parse_base_16_ok m d (words old) Hd H30 HW ltac:(lia)).
  rewrite Hn in G. destruct G as (l & E1 & E2 & E3 & E4). rewrite E1. cbn [bind].
  destruct (digits_head _ _ _ Hd Hn) as (c & t & Ed & N1 & N2).
  assert (Em : match d with c :: _ => c =? 45 | [] => false end = false) by (rewrite Ed; lia).
  rewrite Em. cbn [bind]. eexists. split; [reflexivity|]. split; [reflexivity|].
  unfold uval. cbn [words]. cbv zeta. rewrite E4, wv_skipn, Hv by auto. rewrite N2Nat.id. reflexivity.
Qed.

Lemma assign_stale_refuted : exists m old s v, is_bv old 192 (2 ^ 191)
  /\ bv_assign_from_str_radix m old s 2 = Ok (v, None)
  /\ signed_text 2 s = Some 1%Z /\ uval v = 2 ^ 191 + 1.
Proof.
  exists Debug, (bv_of 192 (2 ^ 191)), [49], (mkbv 192 [1; 0; 2 ^ 63]).
  split; [apply bv_of_is_bv; reflexivity|]. repeat split.
Qed.

Definition torn_text : list N := repeat 49 64 ++ [50] ++ repeat 48 127.
Lemma assign_torn_refuted : exists m old s v k, is_bv old 192 0
  /\ bv_assign_from_str_radix m old s 2 = Ok (v, Some k) /\ uval v <> 0.
Proof.
  exists Debug, (bv_of 192 0), torn_text, (mkbv 192 [0; 0; 2 ^ 64 - 1]), InvalidDigit.
  split; [apply bv_of_is_bv; reflexivity|]. split; [vm_compute; reflexivity|]. vm_compute. discriminate.
Qed.

Lemma assign_empty m old r : bv_assign_from_str_radix m old [] r = Ok (old, None).
Proof. destruct old. reflexivity. Qed.
