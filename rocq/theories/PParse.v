(** * PParse: what the parsers compute. *)

From Coq Require Import ZifyBool ZifyNat ZifyN.
From Verif Require Import Base Arith Strings Bv Spec TextSpec PWords PArith PShift PropsArith PConv PText.
Ltac Zify.zify_post_hook ::= idtac.

(** Both loops of the multi-word parsers in one: [b] bits per digit, [per]
    digits per word. *)
Fixpoint gloop (dv : N -> option N) (b per : N)
  (epi : list N -> res (list N * option int_error_kind)) (m : mode) (num : N)
  (digits : list N) (ii : N) (out : list N) (out_ii word : N)
  : res (list N * option int_error_kind) :=
  match digits with
  | [] =>
      let* _ := debug_assert m (out_ii =? 0) in
      let* out := set_idx out 0 word in
      epi out
  | cc :: rest =>
      let* t := usz_sub m num ii in
      let* ii_rev := usz_sub m t 1 in
      let* (out_word, out_ii) :=
        (if (0 <? ii) && ((ii_rev + 1) mod per =? 0) then
           let* out := set_idx out out_ii word in
           let* out_ii := usz_sub m out_ii 1 in
           Ok ((out, 0), out_ii)
         else Ok ((out, word), out_ii)) in
      let (out, word) := out_word in
      match dv cc with
      | None => Ok (out, Some InvalidDigit)
      | Some value =>
          gloop dv b per epi m num rest (ii + 1) out out_ii (N.lor (wshl word b) value)
      end
  end.

Lemma loop2_gloop m num digits ii out out_ii word :
  parse_base_2_loop m num digits ii out out_ii word
  = gloop bin_digit_value 1 64 (fun o => Ok (o, None)) m num digits ii out out_ii word.
Proof.
  revert ii out out_ii word; induction digits as [|c t IH]; intros; cbn [parse_base_2_loop gloop]; auto.
  destruct (usz_sub m num ii); cbn [bind]; auto.
  destruct (usz_sub m a 1); cbn [bind]; auto.
  match goal with |- bind ?x _ = _ => destruct x as [[[o w0] oi]|]; cbn [bind]; auto end.
  destruct (bin_digit_value c); auto.
Qed.

Lemma loop16_gloop m num digits ii out out_ii word :
  parse_base_16_loop m num digits ii out out_ii word
  = gloop hex_digit_value 4 16 (fun o => let* _ := u32_mul m (as_u32 num) 4 in Ok (o, None))
      m num digits ii out out_ii word.
Proof.
  revert ii out out_ii word; induction digits as [|c t IH]; intros; cbn [parse_base_16_loop gloop]; auto.
  destruct (usz_sub m num ii); cbn [bind]; auto.
  destruct (usz_sub m a 1); cbn [bind]; auto.
  match goal with |- bind ?x _ = _ => destruct x as [[[o w0] oi]|]; cbn [bind]; auto end.
  destruct (hex_digit_value c); auto.
Qed.

Lemma bin_digit_ok c : bin_digit_value c = digit_value 2 c.
Proof.
  unfold bin_digit_value, digit_value, c_1, c_0.
  destruct (c =? 49) eqn:E1; [replace c with 49 by lia; reflexivity|].
  destruct (c =? 48) eqn:E0; [replace c with 48 by lia; reflexivity|].
  destruct ((48 <=? c) && (c <=? 57)) eqn:A.
  { now replace (c - 48 <? 2) with false by lia. }
  destruct ((97 <=? c) && (c <=? 122)) eqn:B.
  { now replace (c - 87 <? 2) with false by lia. }
  destruct ((65 <=? c) && (c <=? 90)) eqn:C.
  { now replace (c - 55 <? 2) with false by lia. }
  reflexivity.
Qed.

Lemma hex_digit_ok c : hex_digit_value c = digit_value 16 c.
Proof.
  unfold hex_digit_value, digit_value.
  destruct ((48 <=? c) && (c <=? 57)) eqn:A.
  { now replace (c - 48 <? 16) with true by lia. }
  destruct ((97 <=? c) && (c <=? 102)) eqn:B.
  { replace ((97 <=? c) && (c <=? 122)) with true by lia.
    replace (c - 87 <? 16) with true by lia. f_equal. lia. }
  destruct ((65 <=? c) && (c <=? 70)) eqn:C.
  { replace ((97 <=? c) && (c <=? 122)) with false by lia.
    replace ((65 <=? c) && (c <=? 90)) with true by lia.
    replace (c - 55 <? 16) with true by lia. f_equal. lia. }
  destruct ((97 <=? c) && (c <=? 122)) eqn:D.
  { now replace (c - 87 <? 16) with false by lia. }
  destruct ((65 <=? c) && (c <=? 90)) eqn:E.
  { now replace (c - 55 <? 16) with false by lia. }
  reflexivity.
Qed.

Lemma gloop_step dv b per epi m num c t ii out out_ii word :
  num = ii + (len t + 1) ->
  gloop dv b per epi m num (c :: t) ii out out_ii word =
  let* (out_word, out_ii) :=
    (if (0 <? ii) && ((len t + 1) mod per =? 0) then
       let* out := set_idx out out_ii word in
       let* out_ii := usz_sub m out_ii 1 in
       Ok ((out, 0), out_ii)
     else Ok ((out, word), out_ii)) in
  let (out, word) := out_word in
  match dv c with
  | None => Ok (out, Some InvalidDigit)
  | Some value => gloop dv b per epi m num t (ii + 1) out out_ii (N.lor (wshl word b) value)
  end.
Proof.
  intros ->. cbn [gloop]. rewrite usz_sub_ok by lia. cbn [bind].
  rewrite usz_sub_ok by lia. cbn [bind].
  replace (ii + (len t + 1) - ii - 1 + 1) with (len t + 1) by lia. reflexivity.
Qed.

Lemma shift_in word b p d : b <= p -> p <= 64 -> b < 64 -> word < 2 ^ (p - b) -> d < 2 ^ b ->
  N.lor (wshl word b) d = 2 ^ b * word + d /\ 2 ^ b * word + d < 2 ^ p.
Proof.
  intros H1 H2 Hb Hw Hd.
  assert (L : d + 2 ^ b * word < 2 ^ p).
  { replace p with (b + (p - b)) by lia. apply add_mul_lt; auto. }
  assert (L2 : 2 ^ b * word < 2 ^ 64).
  { apply (N.lt_le_trans _ (2 ^ p)); [clear - L; lia | apply pow_le; lia]. }
  rewrite wshl_mul by auto. rewrite mod_small_pow by auto. rewrite lor_add' by auto.
  clear - L. lia.
Qed.

Lemma per_arith per q r : 0 < per -> r < per -> (q * per + r) / per = q /\ (q * per + r) mod per = r.
Proof.
  intros H1 H2. rewrite N.add_comm. rewrite N.div_add, N.mod_add by lia.
  now rewrite N.div_small, N.mod_small by auto.
Qed.

(** The loop invariant: with [r] digits to go, [word] holds what was read since
    the last word boundary and the words above index [r / per] are final. *)
Lemma gloop_ok dv b per epi m num s ii out word :
  0 < b -> b < 64 -> b * per = 64 -> (forall c, dv c = digit_value (2 ^ b) c) ->
  num = ii + len s -> 0 < ii ->
  Words out -> len s / per < len out -> word < 2 ^ (64 - b * (len s mod per)) ->
  match number (2 ^ b) s with
  | Some n => exists out', gloop dv b per epi m num s ii out (len s / per) word = epi out'
      /\ Words out' /\ len out' = len out
      /\ wv out' = n + 2 ^ (b * len s) * word
                   + 2 ^ (64 * (len s / per + 1)) * wv (skipn (N.to_nat (len s / per + 1)) out)
  | None => exists out', gloop dv b per epi m num s ii out (len s / per) word = Ok (out', Some InvalidDigit)
      /\ len out' = len out
  end.
Proof.
  intros Hb Hb2 Hper Hdv. revert ii out word.
  assert (Pp : 0 < per) by (destruct per; lia).
  induction s as [|c t IH]; intros ii out word Hnum Hii HW Hlen Hword.
  - cbn [number gloop]. change (@len N []) with 0 in *.
    rewrite N.div_0_l, N.mod_0_l in * by lia.
    rewrite N.eqb_refl, debug_assert_true. cbn [bind]. rewrite set_idx_ok by lia. cbn [bind].
    change (N.to_nat 0) with O. change (N.to_nat (0 + 1)) with 1%nat.
    eexists. split; [reflexivity|]. cbn [firstn app].
    replace (64 - b * 0) with 64 in Hword by lia.
    split; [constructor; auto; apply Words_skipn; auto|].
    split; [rewrite len_cons, len_skipn; lia|].
    rewrite wv_cons, N.mul_0_r, N.pow_0_r. change (64 * (0 + 1)) with 64. lia.
  - rewrite len_cons in *. rewrite gloop_step by auto. cbn [number].
    assert (Hq := N.div_mod (len t + 1) per ltac:(lia)).
    assert (Hr := N.mod_upper_bound (len t + 1) per ltac:(lia)).
    remember ((len t + 1) / per) as q eqn:Eq. remember ((len t + 1) mod per) as r eqn:Er.
    replace (0 <? ii) with true by lia. cbn [andb].
    assert (ET : N.of_nat (length t) = len t) by reflexivity.
    destruct (r =? 0) eqn:R.
    + assert (q <> 0) by (intros ->; lia).
      assert (Et : len t = (q - 1) * per + (per - 1)) by (clear - Hq R H Pp; nia).
      destruct (per_arith per (q - 1) (per - 1) ltac:(lia) ltac:(lia)) as (D1 & D2).
      rewrite <- Et in D1, D2.
      rewrite set_idx_ok by auto. cbn [bind]. rewrite usz_sub_ok by lia. cbn [bind].
      rewrite Hdv. destruct (digit_value (2 ^ b) c) as [d|] eqn:Hd.
      2:{ eexists. split; [reflexivity|]. rewrite len_app, len_cons, len_skipn, len_firstn; lia. }
      assert (Ld := digit_value_lt _ _ _ Hd).
      set (out1 := firstn (N.to_nat q) out ++ word :: skipn (S (N.to_nat q)) out).
      assert (Lout : len out1 = len out).
      { unfold out1. rewrite len_app, len_cons, len_skipn, len_firstn; lia. }
      assert (Ew : word < 2 ^ 64).
      { apply (N.lt_le_trans _ _ _ Hword). apply pow_le. lia. }
      assert (HW1 : Words out1).
      { unfold out1. apply Words_app; [apply Words_firstn; auto|]. constructor; auto. }
      assert (W0 : N.lor (wshl 0 b) d = d).
      { unfold wshl. rewrite N.shiftl_0_l. unfold as_u64. rewrite N.mod_0_l by (rewrite B64_eq; auto).
        apply N.lor_0_l. }
      rewrite W0.
      specialize (IH (ii + 1) out1 d). rewrite D1, D2 in IH.
      assert (Sk : skipn (N.to_nat q) out1 = word :: skipn (N.to_nat (q + 1)) out).
      { unfold out1. rewrite skipn_app_exact.
        - f_equal. f_equal. clear. lia.
        - rewrite firstn_length. unfold len in Hlen. lia. }
      replace (q - 1 + 1) with q in IH by (clear - H; lia). rewrite Sk, wv_cons in IH.
      specialize (IH ltac:(clear - Hnum; lia) ltac:(clear; lia) HW1 ltac:(clear - Lout Hlen; lia)).
      assert (Hd' : d < 2 ^ (64 - b * (per - 1))).
      { replace (64 - b * (per - 1)) with b; auto. clear - Hper Hb Pp. 
        assert (b * (per - 1) = 64 - b) by (rewrite N.mul_sub_distr_l; lia).
        assert (b <= 64) by nia. lia. }
      specialize (IH Hd').
      destruct (number (2 ^ b) t) as [n|].
      * destruct IH as (out' & E1 & E2 & E3 & E4). exists out'. rewrite E1.
        split; [reflexivity|]. split; [auto|]. split; [congruence|]. rewrite E4.
        rewrite ET, pow_base.
        assert (P1 : 2 ^ (b * (len t + 1)) = 2 ^ (64 * q)).
        { f_equal. rewrite Hq, <- Hper. replace r with 0 by lia. ring. }
        rewrite P1. replace (64 * (q + 1)) with (64 * q + 64) by lia. rewrite N.pow_add_r. ring.
      * destruct IH as (out' & E1 & E2). exists out'. rewrite E1. split; [reflexivity|congruence].
    + assert (Et : len t = q * per + (r - 1)) by (clear - Hq R; lia).
      destruct (per_arith per q (r - 1) ltac:(lia) ltac:(lia)) as (D1 & D2).
      rewrite <- Et in D1, D2. cbn [bind].
      rewrite Hdv. destruct (digit_value (2 ^ b) c) as [d|] eqn:Hd.
      2:{ eexists. split; [reflexivity|]. reflexivity. }
      assert (Ld := digit_value_lt _ _ _ Hd).
      assert (Hbr : b * r <= 64 - b).
      { clear - Hr Hper Hb. assert (b * (r + 1) <= b * per) by (apply N.mul_le_mono_l; lia). lia. }
      assert (Hbr1 : b * (r - 1) = b * r - b) by (clear - R; rewrite N.mul_sub_distr_l; lia).
      assert (Hbr2 : b <= b * r) by (clear - R; nia).
      destruct (shift_in word b (64 - b * (r - 1)) d) as (S1 & S2); auto.
      { clear - Hbr Hbr1 Hbr2 Hb2. lia. } { lia. }
      { replace (64 - b * (r - 1) - b) with (64 - b * r); auto. clear - Hbr Hbr1 Hbr2 Hb2. lia. }
      rewrite S1. specialize (IH (ii + 1) out (2 ^ b * word + d)). rewrite D1, D2 in IH.
      specialize (IH ltac:(clear - Hnum; lia) ltac:(clear; lia) HW Hlen S2).
      destruct (number (2 ^ b) t) as [n|].
      * destruct IH as (out' & E1 & E2 & E3 & E4). exists out'. rewrite E1.
        split; [reflexivity|]. split; [auto|]. split; [congruence|]. rewrite E4.
        rewrite ET, pow_base.
        replace (b * (len t + 1)) with (b * len t + b) by lia. rewrite N.pow_add_r. ring.
      * destruct IH as (out' & E1 & E2). exists out'. rewrite E1. split; [reflexivity|congruence].
Qed.

(** The whole loop, started at the first digit. *)
Lemma gloop_start dv b per epi m s out :
  0 < b -> b < 64 -> b * per = 64 -> (forall c, dv c = digit_value (2 ^ b) c) ->
  s <> [] -> Words out -> (len s + per - 1) / per <= len out ->
  match number (2 ^ b) s with
  | Some n => exists out', gloop dv b per epi m (len s) s 0 out ((len s + per - 1) / per - 1) 0 = epi out'
      /\ Words out' /\ len out' = len out
      /\ wv out' = n + 2 ^ (64 * ((len s + per - 1) / per))
                       * wv (skipn (N.to_nat ((len s + per - 1) / per)) out)
  | None => exists out', gloop dv b per epi m (len s) s 0 out ((len s + per - 1) / per - 1) 0
                         = Ok (out', Some InvalidDigit) /\ len out' = len out
  end.
Proof.
  intros Hb Hb2 Hper Hdv Hs HW Hlen. assert (Pp : 0 < per) by (destruct per; lia).
  destruct s as [|c t]; [easy|]. rewrite len_cons in *. rewrite gloop_step by auto.
  change (0 <? 0) with false. cbn [andb bind number].
  replace (len t + 1 + per - 1) with (1 * per + len t) in * by lia.
  rewrite (N.add_comm (1 * per)), N.div_add in * by lia.
  rewrite N.add_sub.
  rewrite Hdv. destruct (digit_value (2 ^ b) c) as [d|] eqn:Hd.
  2:{ eexists. split; reflexivity. }
  assert (Ld := digit_value_lt _ _ _ Hd).
  assert (W0 : N.lor (wshl 0 b) d = d).
  { unfold wshl. rewrite N.shiftl_0_l. unfold as_u64. rewrite N.mod_0_l by (rewrite B64_eq; auto).
    apply N.lor_0_l. }
  rewrite W0.
  assert (Hr := N.mod_upper_bound (len t) per ltac:(lia)).
  assert (Hd' : d < 2 ^ (64 - b * (len t mod per))).
  { apply (N.lt_le_trans _ _ _ Ld). apply pow_le.
    assert (b * (len t mod per + 1) <= b * per) by (apply N.mul_le_mono_l; lia). lia. }
  assert (G := gloop_ok dv b per epi m (len t + 1) t (0 + 1) out d Hb Hb2 Hper Hdv
                 ltac:(lia) ltac:(lia) HW ltac:(lia) Hd').
  destruct (number (2 ^ b) t) as [n|].
  - destruct G as (out' & E1 & E2 & E3 & E4). exists out'. rewrite E1.
    split; [reflexivity|]. split; [auto|]. split; [auto|].
    rewrite E4. change (N.of_nat (length t)) with (len t). rewrite pow_base. ring.
  - exact G.
Qed.

(** ** The three parsers *)

Lemma parse_base_2_ok m d out w : d <> [] -> len d < 2 ^ 32 -> Words out ->
  len out = (w + 63) / 64 ->
  (w < len d -> parse_base_2 m d out w = Ok (out, Some ExceedsWidth))
  /\ (len d <= w ->
      match number 2 d with
      | Some n => exists out', parse_base_2 m d out w = Ok (out', None)
          /\ Words out' /\ len out' = len out
          /\ wv out' = n + 2 ^ (64 * ((len d + 63) / 64)) * wv (skipn (N.to_nat ((len d + 63) / 64)) out)
      | None => exists out', parse_base_2 m d out w = Ok (out', Some InvalidDigit) /\ len out' = len out
      end).
Proof.
  intros Hd Hlen HW Hout. unfold parse_base_2.
  assert (E : as_u32 (len d) = len d) by (unfold as_u32; apply N.mod_small; rewrite B32_eq; auto).
  rewrite E. split; intros H.
  { now replace (w <? len d) with true by lia. }
  replace (w <? len d) with false by lia. rewrite div_ceil_eq.
  assert (P : 0 < len d) by (destruct d; [easy|rewrite len_cons; lia]).
  rewrite u32_sub_ok by (clear - P; dlia). cbn [bind]. rewrite loop2_gloop.
  assert (G := gloop_start bin_digit_value 1 64 (fun o => Ok (o, None)) m d out
    ltac:(lia) ltac:(lia) eq_refl bin_digit_ok Hd HW).
  change (2 ^ 1) with 2 in G. replace (len d + 64 - 1) with (len d + 63) in G by lia.
  apply G. rewrite Hout. apply N.div_le_mono; lia.
Qed.

Lemma parse_base_16_ok m d out : d <> [] -> len d < 2 ^ 30 -> Words out ->
  (len d + 15) / 16 <= len out ->
  match number 16 d with
  | Some n => exists out', parse_base_16 m d out = Ok (out', None)
      /\ Words out' /\ len out' = len out
      /\ wv out' = n + 2 ^ (64 * ((len d + 15) / 16)) * wv (skipn (N.to_nat ((len d + 15) / 16)) out)
  | None => exists out', parse_base_16 m d out = Ok (out', Some InvalidDigit) /\ len out' = len out
  end.
Proof.
  intros Hd Hlen HW Hout. unfold parse_base_16.
  change (2 ^ 30) with 1073741824 in Hlen.
  assert (E : as_u32 (len d) = len d).
  { unfold as_u32; apply N.mod_small; unfold B32. lia. }
  rewrite E.
  assert (M : u32_mul m (len d) 4 = Ok (len d * 4)).
  { unfold u32_mul. unfold B32. now replace (len d * 4 <? 4294967296) with true by lia. }
  rewrite M. cbn [bind]. rewrite div_ceil_eq.
  assert (P : 0 < len d) by (destruct d; [easy|rewrite len_cons; lia]).
  assert (Q : (len d * 4 + 63) / 64 = (len d + 15) / 16) by (clear; dlia).
  rewrite Q. rewrite u32_sub_ok by (clear - P; dlia). cbn [bind]. rewrite loop16_gloop.
  rewrite E, M.
  assert (G := gloop_start hex_digit_value 4 16 (fun o => let* _ := Ok (len d * 4) in Ok (o, None)) m d out
    ltac:(lia) ltac:(lia) eq_refl hex_digit_ok Hd HW).
  change (2 ^ 4) with 16 in G. replace (len d + 16 - 1) with (len d + 15) in G by lia.
  apply G. auto.
Qed.

(** digits beyond the last word: the first word boundary is out of range *)
Lemma gloop_panics dv b per epi m num s ii out word n : 0 < per -> (forall c, dv c = digit_value (2 ^ b) c) ->
  num = ii + len s -> 0 < ii -> number (2 ^ b) s = Some n ->
  len out <= len s / per -> 0 < len out ->
  gloop dv b per epi m num s ii out (len s / per) word = Panic PIndex.
Proof.
  intros Pp Hdv. revert ii word n; induction s as [|c t IH]; intros ii word n Hnum Hii Hn Hlen Hpos.
  - change (@len N []) with 0 in *. rewrite N.div_0_l in Hlen by lia. lia.
  - rewrite len_cons in *. rewrite gloop_step by auto. cbn [number] in Hn.
    destruct (digit_value (2 ^ b) c) as [d|] eqn:Hd; [|discriminate].
    destruct (number (2 ^ b) t) as [n'|]; [|discriminate].
    replace (0 <? ii) with true by lia. cbn [andb].
    destruct ((len t + 1) mod per =? 0) eqn:R.
    + rewrite set_idx_panic by auto. reflexivity.
    + cbn [bind]. rewrite Hdv, Hd.
      assert (Hq := N.div_mod (len t + 1) per ltac:(lia)).
      assert (Hr := N.mod_upper_bound (len t + 1) per ltac:(lia)).
      assert (D : len t / per = (len t + 1) / per).
      { symmetry. apply (N.div_unique _ _ _ ((len t + 1) mod per - 1)); lia. }
      rewrite <- D in *. eapply IH; eauto; lia.
Qed.

Lemma parse_base_16_panics m d out n : len d < 2 ^ 30 -> number 16 d = Some n ->
  len out < (len d + 15) / 16 -> 0 < len out -> parse_base_16 m d out = Panic PIndex.
Proof.
  intros Hlen Hn Hout Hpos. unfold parse_base_16.
  change (2 ^ 30) with 1073741824 in Hlen.
  assert (E : as_u32 (len d) = len d).
  { unfold as_u32; apply N.mod_small; unfold B32. lia. }
  rewrite E.
  assert (M : u32_mul m (len d) 4 = Ok (len d * 4)).
  { unfold u32_mul. unfold B32. now replace (len d * 4 <? 4294967296) with true by lia. }
  rewrite M. cbn [bind]. rewrite div_ceil_eq.
  destruct d as [|c t].
  { change (@len N []) with 0 in *. change ((0 + 15) / 16) with 0 in Hout. lia. }
  rewrite len_cons in *.
  assert (Q : ((len t + 1) * 4 + 63) / 64 = len t / 16 + 1) by (clear; dlia).
  assert (Q2 : (len t + 1 + 15) / 16 = len t / 16 + 1) by (clear; dlia).
  rewrite Q. rewrite u32_sub_ok by (clear; dlia). cbn [bind]. rewrite loop16_gloop.
  rewrite gloop_step by auto. change (0 <? 0) with false. cbn [andb bind].
  cbn [number] in Hn. rewrite hex_digit_ok.
  destruct (digit_value 16 c); [|discriminate]. destruct (number 16 t) eqn:Ht; [|discriminate].
  rewrite N.add_sub. eapply (gloop_panics hex_digit_value 4 16); eauto; try lia.
  apply hex_digit_ok.
Qed.

Lemma digit_not_sign r c d : digit_value r c = Some d -> c <> 43 /\ c <> 45.
Proof.
  intros H. split; intros ->; unfold digit_value in H;
    change ((48 <=? 43) && (43 <=? 57)) with false in H;
    change ((97 <=? 43) && (43 <=? 122)) with false in H;
    change ((65 <=? 43) && (43 <=? 90)) with false in H;
    change ((48 <=? 45) && (45 <=? 57)) with false in H;
    change ((97 <=? 45) && (45 <=? 122)) with false in H;
    change ((65 <=? 45) && (45 <=? 90)) with false in H;
    cbv zeta iota in H; rewrite N.ltb_irrefl in H; discriminate.
Qed.

Lemma std_digits lim r d n : 2 <= r -> r <= 36 -> 0 < lim -> d <> [] -> number r d = Some n ->
  std_from_str_radix lim r d = Ok (if n <? lim then StdOk n else StdPosOverflow)
  /\ std_from_str_radix lim r (43 :: d) = Ok (if n <? lim then StdOk n else StdPosOverflow).
Proof.
  intros H2 H36 Hl Hd Hn. unfold std_from_str_radix.
  replace ((2 <=? r) && (r <=? 36)) with true by lia. cbn [assert bind].
  destruct d as [|c t]; [easy|].
  assert (G := std_parse_loop_ok lim r (c :: t) 0 H2 H36 Hl). rewrite Hn in G. cbv zeta in G.
  rewrite N.mul_0_l, N.add_0_l in G.
  cbn [number] in Hn. destruct (digit_value r c) as [dd|] eqn:Hdv; [|discriminate].
  destruct (digit_not_sign _ _ _ Hdv) as [N1 N2].
  change (43 =? c_plus) with true. cbn iota. rewrite G.
  unfold c_plus, c_minus. replace (c =? 43) with false by lia. replace (c =? 45) with false by lia.
  cbn [orb]. destruct t; split; reflexivity.
Qed.

Lemma std_bad lim r s : 2 <= r -> r <= 36 -> 0 < lim -> number r s = None ->
  match s with 43 :: t => number r t = None \/ t = [] | _ => True end ->
  std_from_str_radix lim r s = Ok StdInvalidDigit \/ std_from_str_radix lim r s = Ok StdPosOverflow.
Proof.
  intros H2 H36 Hl Hn Hs. unfold std_from_str_radix.
  replace ((2 <=? r) && (r <=? 36)) with true by lia. cbn [assert bind].
  assert (G := std_parse_loop_ok lim r s 0 H2 H36 Hl). rewrite Hn in G.
  destruct s as [|c t]; [discriminate|].
  destruct t as [|c2 t2].
  - destruct (_ || _); [auto|]. destruct G as [-> | ->]; auto.
  - unfold c_plus. destruct (c =? 43) eqn:E.
    + replace c with 43 in Hs by lia. destruct Hs as [Hs|Hs]; [|discriminate].
      assert (G2 := std_parse_loop_ok lim r (c2 :: t2) 0 H2 H36 Hl). rewrite Hs in G2.
      destruct G2 as [-> | ->]; auto.
    + destruct G as [-> | ->]; auto.
Qed.

(** one or two words: the result does not depend on the old contents *)
Lemma small_ok m s r out w p : 0 < w -> w <= 128 -> len out = (w + 63) / 64 ->
  std_from_str_radix (2 ^ (64 * ((w + 63) / 64))) r s = Ok p ->
  parse_magnitude m s r out w = Ok
    (match p with
     | StdOk v => (words_of (N.to_nat ((w + 63) / 64)) v, None)
     | e => (out, Some (std_error e))
     end).
Proof.
  intros H0 H128 Hlen Hp. unfold parse_magnitude.
  assert (C : (w + 63) / 64 = 1 /\ w <= 64 \/ (w + 63) / 64 = 2) by (clear - H0 H128; dlia).
  destruct C as [[C H64]|C]; rewrite C in *.
  - destruct (len_0_1 _ Hlen) as (x & ->).
    replace (w <=? 64) with true by lia. rewrite debug_assert_true. cbn [bind].
    change (2 ^ (64 * 1)) with B64 in Hp. rewrite Hp. cbn [bind].
    destruct p; try reflexivity. change (N.to_nat 1) with 1%nat. cbn [words_of].
    assert (v < 2 ^ 64).
    { revert Hp. unfold std_from_str_radix. destruct (assert _); [|discriminate]. cbn [bind].
      intros [= Hp]. revert Hp. 
      assert (L : forall s acc, acc < B64 -> std_parse_loop B64 r s acc = StdOk v -> v < 2 ^ 64).
      { clear. induction s as [|c t IH]; cbn [std_parse_loop]; intros acc Ha E.
        - injection E as <-. auto.
        - destruct (to_digit c r); [|discriminate]. destruct (_ <? B64); [|discriminate].
          destruct (acc * r + n <? B64) eqn:E2; [|discriminate]. apply (IH (acc * r + n)); auto. lia. }
      destruct s as [|c [|c2 t]]; [discriminate| |].
      - destruct (_ || _); [discriminate|]. apply L. reflexivity.
      - destruct (c =? c_plus); apply L; reflexivity. }
    rewrite mod_small_pow by auto. reflexivity.
  - assert (E : exists x y, out = [x; y]).
    { destruct out as [|x [|y [|z t]]]; rewrite ?len_cons in Hlen; nils; try lia; eauto. }
    destruct E as (x & y & ->).
    replace (w <=? 128) with true by lia. rewrite debug_assert_true. cbn [bind].
    change (2 ^ (64 * 2)) with (B64 * B64) in Hp. rewrite Hp. cbn [bind].
    destruct p; try reflexivity. change (N.to_nat 2) with 2%nat. cbn [words_of].
    unfold as_u64. rewrite N.shiftr_div_pow2, B64_eq. reflexivity.
Qed.

Lemma mag_wide m s r out w : 128 < w -> len out = (w + 63) / 64 ->
  parse_magnitude m s r out w =
  match strip_plus s with
  | None => Ok (out, Some InvalidDigit)
  | Some digits =>
      if r =? 2 then parse_base_2 m digits out w
      else if r =? 10 then Panic PTodo
      else if r =? 16 then parse_base_16 m digits out
      else Panic PTodo
  end.
Proof.
  intros H Hlen. unfold parse_magnitude.
  assert (H3 : 3 <= len out) by (rewrite Hlen; clear - H; dlia).
  destruct out as [|a [|b [|c t]]]; rewrite ?len_cons in H3; nils; try lia.
  rewrite div_ceil_eq, Hlen, N.eqb_refl, debug_assert_true. reflexivity.
Qed.

Lemma strip_plus_digits r d n : d <> [] -> number r d = Some n ->
  strip_plus d = Some d /\ strip_plus (43 :: d) = Some d.
Proof.
  intros Hd Hn. destruct d as [|c t]; [easy|]. cbn [number] in Hn.
  destruct (digit_value r c) as [dd|] eqn:Hdv; [|discriminate].
  destruct (digit_not_sign _ _ _ Hdv) as [N1 N2].
  unfold strip_plus, c_plus. replace (c =? 43) with false by lia.
  destruct t; split; reflexivity.
Qed.

(** When the text fits the buffer of the parser. *)
Definition parser_fits (r k w : N) : Prop :=
  (w <= 128 /\ 2 <= r /\ r <= 36)
  \/ (128 < w /\ r = 2 /\ k <= w)
  \/ (128 < w /\ r = 16 /\ k < 2 ^ 30 /\ (k + 15) / 16 <= (w + 63) / 64).

Lemma magnitude_ok m r d n w : 0 < w -> w < 2 ^ 32 -> d <> [] -> number r d = Some n -> n < 2 ^ w ->
  parser_fits r (len d) w ->
  exists l, Words l /\ len l = (w + 63) / 64 /\ wv l = n
    /\ parse_magnitude m d r (value_vec_zeros w) w = Ok (l, None)
    /\ parse_magnitude m (43 :: d) r (value_vec_zeros w) w = Ok (l, None).
Proof.
  intros H0 H32 Hd Hn Hnw [(H128 & H2 & H36)|Hwide].
  - assert (Hk : n < 2 ^ (64 * ((w + 63) / 64))).
    { apply (N.lt_le_trans _ _ _ Hnw). apply pow_le, ceil_mul. }
    destruct (std_digits (2 ^ (64 * ((w + 63) / 64))) r d n) as [E1 E2]; auto.
    replace (n <? _) with true in E1, E2 by lia.
    exists (words_of (N.to_nat ((w + 63) / 64)) n).
    destruct (words_of_ok (N.to_nat ((w + 63) / 64)) n) as (W1 & W2 & W3).
    rewrite N2Nat.id in *.
    split; [auto|]. split; [auto|]. split; [rewrite W3; apply mod_small_pow; auto|].
    rewrite (small_ok m d r _ w _ H0 H128 (zeros_len w) E1).
    rewrite (small_ok m (43 :: d) r _ w _ H0 H128 (zeros_len w) E2). auto.
  - destruct (strip_plus_digits r d n Hd Hn) as [S1 S2].
    assert (Zs : forall k, wv (skipn k (value_vec_zeros w)) = 0).
    { intros k. rewrite skipn_zeros. apply wv_repeat0. }
    destruct Hwide as [(H128 & -> & Hk)|(H128 & -> & Hk & Hfit)];
      rewrite !mag_wide by (auto; apply zeros_len); rewrite S1, S2.
    + change (2 =? 2) with true. cbn iota.
      destruct (parse_base_2_ok m d (value_vec_zeros w) w) as [_ G]; auto using zeros_words, zeros_len; [lia|].
      specialize (G Hk). rewrite Hn in G. destruct G as (l & E1 & E2 & E3 & E4).
      exists l. rewrite Zs, N.mul_0_r, N.add_0_r in E4.
      split; [auto|]. split; [rewrite E3; apply zeros_len|]. auto.
    + change (16 =? 2) with false. change (16 =? 10) with false. change (16 =? 16) with true. cbn iota.
      assert (G := parse_base_16_ok m d (value_vec_zeros w) Hd Hk (zeros_words w)).
      rewrite zeros_len in G. specialize (G Hfit). rewrite Hn in G. destruct G as (l & E1 & E2 & E3 & E4).
      exists l. rewrite Zs, N.mul_0_r, N.add_0_r in E4.
      split; [auto|]. split; [auto|]. auto.
Qed.

Lemma signed_text_inv r s z : signed_text r s = Some z ->
  exists n, without_sign s <> [] /\ number r (without_sign s) = Some n /\
    ((s = 45 :: without_sign s /\ z = (- Z.of_N n)%Z)
     \/ ((s = 43 :: without_sign s \/ s = without_sign s) /\ z = Z.of_N n)).
Proof.
  unfold signed_text, without_sign. destruct s as [|c d]; [discriminate|].
  destruct (c =? 45) eqn:E1; cbn [orb].
  { replace c with 45 by lia. destruct d as [|c2 d]; [discriminate|].
    unfold unsigned_text. destruct (number r (c2 :: d)) as [n|]; [|discriminate].
    intros [= <-]. exists n. repeat split; auto; discriminate. }
  destruct (c =? 43) eqn:E2.
  { replace c with 43 by lia. destruct d as [|c2 d]; [discriminate|].
    unfold unsigned_text. destruct (number r (c2 :: d)) as [n|]; [|discriminate].
    intros [= <-]. exists n. repeat split; auto; discriminate. }
  unfold unsigned_text. destruct (number r (c :: d)) as [n|]; [|discriminate].
  intros [= <-]. exists n. repeat split; auto; discriminate.
Qed.

Lemma digits_head r d n : d <> [] -> number r d = Some n -> exists c t, d = c :: t /\ c <> 43 /\ c <> 45.
Proof.
  intros Hd Hn. destruct d as [|c t]; [easy|]. cbn [number] in Hn.
  destruct (digit_value r c) as [dd|] eqn:Hdv; [|discriminate].
  destruct (digit_not_sign _ _ _ Hdv). eauto.
Qed.

(** [from_str_radix] on a text with an optional sign, before and after '-'. *)
Lemma from_str_pos m s r out w : 0 < w -> s <> [] -> starts_with_minus s = false ->
  from_str_radix m s r out w = parse_magnitude m s r out w.
Proof.
  intros H0 Hs Hm. unfold from_str_radix, strip_minus. destruct s as [|c t]; [easy|].
  cbn [starts_with_minus] in Hm. rewrite Hm. replace (w =? 0) with false by lia.
  destruct (parse_magnitude m (c :: t) r out w) as [[o [k|]]|]; reflexivity.
Qed.

Lemma from_str_neg m d r out w : 0 < w -> d <> [] ->
  from_str_radix m (45 :: d) r out w =
  let* (out, e) := parse_magnitude m d r out w in
  match e with
  | Some k => Ok (out, Some k)
  | None => let* out := ar_negate_in_place m out w in Ok (out, None)
  end.
Proof.
  intros H0 Hs. unfold from_str_radix, strip_minus. change (45 =? c_minus) with true. cbn iota.
  replace (w =? 0) with false by lia. destruct d as [|c t]; [easy|]. reflexivity.
Qed.

Lemma parse_ok m s r w z : 0 < w -> w < 2 ^ 32 -> signed_text r s = Some z ->
  (Z.abs_N z < 2 ^ w) -> parser_fits r (len (without_sign s)) w ->
  exists v, bv_from_str_radix m s r w = Ok (Parsed v) /\ is_bv v w (wrap w z).
Proof.
  intros H0 H32 Hs Hz Hfit. destruct (signed_text_inv _ _ _ Hs) as (n & Hd & Hn & C).
  destruct (magnitude_ok m r (without_sign s) n w H0 H32 Hd Hn) as (l & L1 & L2 & L3 & L4 & L5); auto.
  { destruct C as [[_ ->]|[_ ->]]; lia. }
  unfold bv_from_str_radix, bv_assign_from_str_radix. cbn [bv_zero width words].
  destruct C as [[E ->]|[E ->]].
  - rewrite E, from_str_neg, L4 by auto. cbn [bind].
    destruct (negate_in_place_wres m l w H0 L1 L2) as (l' & E1 & E2 & E3 & E4).
    { rewrite L3. lia. }
    rewrite E1. cbn [bind]. eexists. split; [reflexivity|].
    apply is_bv_intro; auto. { rewrite E4, L3. reflexivity. }
  - assert (F : from_str_radix m s r (value_vec_zeros w) w = Ok (l, None)).
    { destruct (digits_head _ _ _ Hd Hn) as (c & t & Ed & N1 & N2).
      rewrite from_str_pos; auto.
      - destruct E as [E|E]; rewrite E; auto.
      - intros ->. cbn in Hd. easy.
      - destruct E as [E|E]; rewrite E; [reflexivity|].
        rewrite Ed. cbn [starts_with_minus]. unfold c_minus. lia. }
    rewrite F. cbn [bind]. eexists. split; [reflexivity|].
    rewrite wrap_mod. apply is_bv_intro; auto.
    rewrite mod_small_pow by lia. auto.
Qed.
