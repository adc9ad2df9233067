(** * PropsTextMore: the exact signed texts (C24) and the kind of parse error (C26). *)

From Verif Require Import Base Bv Spec TextSpec.
From Verif Require Import Strings PWords PConv PropsArith PText PParse PropsText.
From Coq Require Import ZifyBool ZifyNat ZifyN.
Ltac Zify.zify_post_hook ::= idtac.

Lemma lower_digit_char d : lower (digit_char d) = digit_char d.
Proof.
  unfold lower, digit_char. destruct (d <? 10) eqn:E.
  - now replace ((65 <=? 48 + d) && (48 + d <=? 90)) with false by lia.
  - now replace ((65 <=? 87 + d) && (87 + d <=? 90)) with false by lia.
Qed.

Lemma lower_dt b k x : map lower (dt b k x) = dt b k x.
Proof. induction k as [|k IH]; cbn [dt map]; [auto|]. now rewrite lower_digit_char, IH. Qed.

Lemma signed_sign w x : 0 < w -> x < 2 ^ w ->
  (signed w x <? 0)%Z = (2 ^ (w - 1) <=? x)
  /\ Z.abs_N (signed w x) = if 2 ^ (w - 1) <=? x then 2 ^ w - x else x.
Proof.
  intros Hw Hx. rewrite signed_neg by auto.
  destruct (2 ^ (w - 1) <=? x); split; lia.
Qed.

Lemma bit_signed_text m v w x : is_bv v w x -> 2 <= w ->
  let K := if w mod 64 =? 1 then w + 63 else w - 1 in
  exists d, bv_to_bit_str_signed m v = Ok (if (signed w x <? 0)%Z then 45 :: d else d)
    /\ len d = K /\ number 2 d = Some (Z.abs_N (signed w x) mod 2 ^ K).
Proof.
  intros H Hw K. assert (L := is_bv_lt _ _ _ H).
  destruct (signed_sign w x ltac:(lia) L) as [E1 E2]. rewrite E1, E2.
  assert (B := bit_signed_raw m v w x H Hw). cbv zeta in B. fold K in B. rewrite B. clear B.
  exists (dt 1 (N.to_nat K) (if 2 ^ (w - 1) <=? x then 2 ^ w - x else x)).
  split; [now destruct (2 ^ (w - 1) <=? x)|].
  split; [unfold len; rewrite dt_len; lia|].
  change 2 with (2 ^ 1) at 1. rewrite (number_dt 1) by (reflexivity || discriminate).
  now rewrite N2Nat.id, N.mul_1_l.
Qed.

Lemma hex_signed_text m v w x : is_bv v w x -> 2 <= w ->
  let K := (w + 2) / 4 in
  exists d, bv_to_hex_str_signed m v = Ok (if (signed w x <? 0)%Z then 45 :: d else d)
    /\ len d = K /\ map lower d = d /\ number 16 d = Some (Z.abs_N (signed w x) mod 16 ^ K).
Proof.
  intros H Hw K. assert (L := is_bv_lt _ _ _ H).
  destruct (signed_sign w x ltac:(lia) L) as [E1 E2]. rewrite E1, E2.
  assert (B := hex_signed_raw m v w x H Hw). cbv zeta in B.
  replace (w - 1 + 3) with (w + 2) in B by lia. fold K in B. rewrite B. clear B.
  exists (dt 4 (N.to_nat K) (if 2 ^ (w - 1) <=? x then 2 ^ w - x else x)).
  split; [now destruct (2 ^ (w - 1) <=? x)|].
  split; [unfold len; rewrite dt_len; lia|].
  split; [apply lower_dt|].
  change 16 with (2 ^ 4). rewrite (number_dt 4) by (reflexivity || discriminate).
  rewrite N2Nat.id, <- N.pow_mul_r. reflexivity.
Qed.

(** ** the first character that is no digit *)
Lemma std_loop_bad lim r c rest : 2 <= r -> r <= 36 -> digit_value r c = None ->
  forall pre n acc, acc < lim -> number r pre = Some n ->
  std_parse_loop lim r (pre ++ c :: rest) acc
  = if acc * r ^ N.of_nat (length pre) + n <? lim then StdInvalidDigit else StdPosOverflow.
Proof.
  intros H2 H36 Hc. induction pre as [|a t IH]; intros n acc Ha Hn; cbn [app std_parse_loop number length] in *.
  - injection Hn as <-. rewrite to_digit_value, Hc by auto.
    change (N.of_nat 0) with 0. rewrite N.pow_0_r, N.mul_1_r, N.add_0_r.
    now replace (acc <? lim) with true by lia.
  - rewrite to_digit_value by auto. destruct (digit_value r a) as [d|] eqn:Hd; [|discriminate].
    destruct (number r t) as [n'|] eqn:Ht; [|discriminate]. injection Hn as <-.
    rewrite Nat2N.inj_succ, N.pow_succ_r'.
    assert (P : 0 < r ^ N.of_nat (length t)) by (apply N.neq_0_lt_0, N.pow_nonzero; lia).
    destruct (acc * r <? lim) eqn:E1; [destruct (acc * r + d <? lim) eqn:E2|].
    + rewrite (IH n') by (auto; lia).
      replace ((acc * r + d) * r ^ N.of_nat (length t) + n')
        with (acc * (r * r ^ N.of_nat (length t)) + (d * r ^ N.of_nat (length t) + n')) by ring.
      reflexivity.
    + replace (_ <? lim) with false; [reflexivity|].
      symmetry. apply N.ltb_ge. revert P E2. generalize (r ^ N.of_nat (length t)). clear. intros p P E2. nia.
    + replace (_ <? lim) with false; [reflexivity|].
      symmetry. apply N.ltb_ge. revert P E1. generalize (r ^ N.of_nat (length t)). clear. intros p P E2. nia.
Qed.

Lemma std_first_bad lim r pre c rest n : 2 <= r -> r <= 36 -> 0 < lim ->
  number r pre = Some n -> digit_value r c = None -> (pre = [] -> c <> 43 /\ c <> 45) ->
  let k := if n <? lim then StdInvalidDigit else StdPosOverflow in
  std_from_str_radix lim r (pre ++ c :: rest) = Ok k
  /\ std_from_str_radix lim r (43 :: pre ++ c :: rest) = Ok k.
Proof.
  intros H2 H36 Hl Hn Hc Hp k. unfold std_from_str_radix.
  replace ((2 <=? r) && (r <=? 36)) with true by lia. cbn [assert bind].
  assert (G := std_loop_bad lim r c rest H2 H36 Hc pre n 0 Hl Hn).
  rewrite N.mul_0_l, N.add_0_l in G. fold k in G.
  assert (F : exists a t, pre ++ c :: rest = a :: t /\ a <> 43 /\ a <> 45).
  { destruct pre as [|a t]; cbn [app].
    - exists c, rest. auto.
    - exists a, (t ++ c :: rest). split; [auto|]. cbn [number] in Hn.
      destruct (digit_value r a) eqn:Hd; [|discriminate]. eapply digit_not_sign; eauto. }
  destruct F as (a & t & F & N1 & N2). rewrite F in *.
  change (43 =? c_plus) with true. cbn iota. rewrite G.
  unfold c_plus, c_minus. replace (a =? 43) with false by lia. replace (a =? 45) with false by lia.
  cbn [orb]. destruct t; split; reflexivity.
Qed.

Lemma small_first_bad m pre c rest r w n : 0 < w -> w <= 128 -> 2 <= r -> r <= 36 ->
  number r pre = Some n -> digit_value r c = None -> (pre = [] -> c <> 43 /\ c <> 45) ->
  let k := if n <? 2 ^ (64 * ((w + 63) / 64)) then InvalidDigit else ExceedsWidth in
  bv_from_str_radix m (pre ++ c :: rest) r w = Ok (ParseErr k)
  /\ bv_from_str_radix m (43 :: pre ++ c :: rest) r w = Ok (ParseErr k)
  /\ bv_from_str_radix m (45 :: pre ++ c :: rest) r w = Ok (ParseErr k).
Proof.
  intros Hw H128 H2 H36 Hn Hc Hp k.
  assert (P := pow_pos (64 * ((w + 63) / 64))).
  destruct (std_first_bad _ r pre c rest n H2 H36 P Hn Hc Hp) as [S1 S2]. cbv zeta in S1, S2.
  assert (K1 := small_ok m _ r _ w _ Hw H128 (zeros_len w) S1).
  assert (K2 := small_ok m _ r _ w _ Hw H128 (zeros_len w) S2).
  assert (F : exists a t, pre ++ c :: rest = a :: t /\ a <> 45).
  { destruct pre as [|a t]; cbn [app].
    - exists c, rest. split; [auto|]. now apply Hp.
    - exists a, (t ++ c :: rest). split; [auto|]. cbn [number] in Hn.
      destruct (digit_value r a) eqn:Hd; [|discriminate]. apply digit_not_sign in Hd. lia. }
  destruct F as (a & t & F & N2). rewrite F in *.
  unfold bv_from_str_radix, bv_assign_from_str_radix. cbn [bv_zero width words].
  split; [|split].
  - rewrite from_str_pos by (auto; try discriminate; cbn; unfold c_minus; lia).
    rewrite K1. unfold k. destruct (n <? _); reflexivity.
  - rewrite from_str_pos by (auto; try discriminate; reflexivity).
    rewrite K2. unfold k. destruct (n <? _); reflexivity.
  - rewrite from_str_neg by (auto; discriminate).
    rewrite K1. unfold k. destruct (n <? _); reflexivity.
Qed.

Lemma sign_only m c r w : 0 < w -> w <= 128 -> 2 <= r -> r <= 36 -> c = 43 \/ c = 45 ->
  bv_from_str_radix m [c] r w = Ok (ParseErr InvalidDigit).
Proof.
  intros Hw H128 H2 H36 Hc.
  unfold bv_from_str_radix, bv_assign_from_str_radix. cbn [bv_zero width words].
  destruct Hc as [-> | ->].
  - rewrite from_str_pos by (auto; try discriminate; reflexivity).
    rewrite (small_ok m [43] r _ w StdInvalidDigit Hw H128 (zeros_len w)); [reflexivity|].
    unfold std_from_str_radix. replace ((2 <=? r) && (r <=? 36)) with true by lia. reflexivity.
  - unfold from_str_radix, strip_minus. change (45 =? c_minus) with true. cbn iota.
    now replace (w =? 0) with false by lia.
Qed.
