(** * PReading: the outcome of parsing, for every text. *)

From Coq Require Import ZifyBool ZifyNat ZifyN.
From Verif Require Import Base Arith Strings Bv Spec TextSpec CallSpec ParseSpec PWords PArith PShift PropsArith PConv
  PText PParse PropsText PropsTextMore.
Ltac Zify.zify_post_hook ::= idtac.

Lemma leading_all r s n : number r s = Some n -> leading r s = s.
Proof.
  revert n; induction s as [|c t IH]; intros n H; cbn [number leading] in *; auto.
  destruct (digit_value r c); [|discriminate]. destruct (number r t) as [k|]; [|discriminate].
  f_equal. eauto.
Qed.

Lemma leading_len r s : len (leading r s) <= len s.
Proof.
  induction s as [|c t IH]; cbn [leading]; [lia|]. rewrite len_cons.
  destruct (digit_value r c); [rewrite len_cons; lia|]. change (@len N []) with 0. lia.
Qed.

Lemma leading_short r s : number r s = None -> len (leading r s) < len s.
Proof.
  induction s as [|c t IH]; intros H; cbn [number leading] in *; [discriminate|]. rewrite len_cons.
  destruct (digit_value r c); [|change (@len N []) with 0; lia]. rewrite len_cons.
  destruct (number r t); [discriminate|]. specialize (IH eq_refl). lia.
Qed.

Lemma leading_some r s : number r (leading r s) = Some (leading_number r s).
Proof.
  unfold leading_number. enough (exists n, number r (leading r s) = Some n) as [n ->] by auto.
  induction s as [|c t IH]; cbn [leading]; [eexists; reflexivity|].
  destruct (digit_value r c) as [d|] eqn:D; [|eexists; reflexivity]. cbn [number]. rewrite D.
  destruct IH as [n ->]. eauto.
Qed.

Lemma leading_number_all r s n : number r s = Some n -> leading_number r s = n.
Proof. intros H. unfold leading_number. now rewrite (leading_all _ _ _ H), H. Qed.

Lemma leading_number_cons r c t d : digit_value r c = Some d ->
  leading_number r (c :: t) = d * r ^ len (leading r t) + leading_number r t.
Proof.
  intros D. unfold leading_number at 1. cbn [leading]. rewrite D. cbn [number]. rewrite D.
  now rewrite leading_some.
Qed.

(** the prefix and the first bad character *)
Lemma leading_split r s : number r s = None ->
  exists c rest, s = leading r s ++ c :: rest /\ digit_value r c = None.
Proof.
  induction s as [|c t IH]; intros H; cbn [number leading] in *; [discriminate|].
  destruct (digit_value r c) eqn:D; [|exists c, t; auto].
  destruct (number r t); [discriminate|]. destruct (IH eq_refl) as (x & y & E & B).
  exists x, y. split; auto. cbn [app]. now rewrite <- E.
Qed.

(** ** A bad digit above 128 bits *)

Lemma divide_out k a b j : j <= k -> 2 ^ j * ((a + 2 ^ k * b) / 2 ^ j) = 2 ^ j * (a / 2 ^ j) + 2 ^ k * b.
Proof.
  intros H. rewrite (pow_split j k H), <- N.mul_assoc, (N.mul_comm (2 ^ j) (2 ^ (k - j) * b)).
  rewrite N.div_add by auto. ring.
Qed.

Lemma gloop_torn dv b per epi m num s ii out word :
  0 < b -> b < 64 -> b * per = 64 -> (forall c, dv c = digit_value (2 ^ b) c) ->
  num = ii + len s -> 0 < ii ->
  Words out -> len s / per < len out -> word < 2 ^ (64 - b * (len s mod per)) ->
  number (2 ^ b) s = None ->
  let rest := len s - len (leading (2 ^ b) s) in
  exists out', gloop dv b per epi m num s ii out (len s / per) word = Ok (out', Some InvalidDigit)
      /\ Words out' /\ len out' = len out
      /\ wv out' = overwrite (wv out)
           (leading_number (2 ^ b) s * 2 ^ (b * rest) + 2 ^ (b * len s) * word)
           (digit_words b rest) (len s / per + 1).
Proof.
  intros Hb Hb2 Hper Hdv. revert ii out word.
  assert (Pp : 0 < per) by (destruct per; lia).
  induction s as [|c t IH]; intros ii out word Hnum Hii HW Hlen Hword Hbad; [discriminate|].
  rewrite len_cons in *. rewrite gloop_step by auto. cbn [number] in Hbad.
  assert (Hq := N.div_mod (len t + 1) per ltac:(lia)).
  assert (Hr := N.mod_upper_bound (len t + 1) per ltac:(lia)).
  remember ((len t + 1) / per) as q eqn:Eq. remember ((len t + 1) mod per) as r eqn:Er.
  replace (0 <? ii) with true by lia. cbn [andb].
  assert (Eb : b * (len t + 1) = 64 * q + b * r).
  { rewrite Hq, N.mul_add_distr_l, N.mul_assoc, Hper. reflexivity. }
  assert (Lt := leading_len (2 ^ b) t).
  destruct (r =? 0) eqn:R.
  - apply N.eqb_eq in R. clear Er Eq. subst r. rewrite N.mul_0_r, N.add_0_r in *.
    assert (H : q <> 0) by (intros ->; lia).
    assert (Et : len t = (q - 1) * per + (per - 1)) by (clear - Hq H Pp; nia).
    destruct (per_arith per (q - 1) (per - 1) ltac:(lia) ltac:(lia)) as (D1 & D2).
    rewrite <- Et in D1, D2.
    rewrite set_idx_ok by auto. cbn [bind]. rewrite usz_sub_ok by lia. cbn [bind].
    set (out1 := firstn (N.to_nat q) out ++ word :: skipn (S (N.to_nat q)) out).
    assert (Lout : len out1 = len out).
    { unfold out1. rewrite len_app, len_cons, len_skipn, len_firstn; lia. }
    assert (Ew : word < 2 ^ 64).
    { apply (N.lt_le_trans _ _ _ Hword). apply pow_le. lia. }
    assert (HW1 : Words out1).
    { unfold out1. apply Words_app; [apply Words_firstn; auto|]. constructor; auto. }
    assert (V1 : wv out1 = wv out mod 2 ^ (64 * q) + 2 ^ (64 * q) * (word + 2 ^ 64 * (wv out / 2 ^ (64 * (q + 1))))).
    { unfold out1. rewrite wv_app, wv_cons, len_firstn by (clear - Hlen; lia).
      rewrite wv_firstn, wv_skipn by auto.
      replace (N.of_nat (N.to_nat q)) with q by lia. replace (N.of_nat (S (N.to_nat q))) with (q + 1) by lia.
      reflexivity. }
    assert (Bm : wv out mod 2 ^ (64 * q) < 2 ^ (64 * q)) by (apply N.mod_upper_bound; auto).
    assert (P64 : 2 ^ (64 * (q + 1)) = 2 ^ (64 * q) * 2 ^ 64).
    { rewrite <- N.pow_add_r. f_equal. lia. }
    rewrite Hdv. destruct (digit_value (2 ^ b) c) as [d|] eqn:Hd.
    2:{ exists out1. split; [reflexivity|]. split; [auto|]. split; [auto|]. rewrite V1.
        unfold overwrite. cbn [leading]. rewrite Hd. change (@len N []) with 0.
        unfold leading_number. cbn [leading]. rewrite Hd. cbn [number].
        rewrite N.sub_0_r, N.mul_0_l, N.add_0_l.
        replace (digit_words b (len t + 1)) with q.
        2:{ unfold digit_words. rewrite Eb. clear. dlia. }
        rewrite Eb. rewrite (N.mul_comm (2 ^ (64 * q)) word).
        rewrite N.div_mul by auto. rewrite P64. ring. }
    assert (Ld := digit_value_lt _ _ _ Hd).
    assert (W0 : N.lor (wshl 0 b) d = d).
    { unfold wshl. rewrite N.shiftl_0_l. unfold as_u64. rewrite N.mod_0_l by (rewrite B64_eq; auto).
      apply N.lor_0_l. }
    rewrite W0.
    destruct (number (2 ^ b) t) as [|] eqn:Nt; [discriminate|].
    specialize (IH (ii + 1) out1 d). rewrite D1, D2 in IH.
    specialize (IH ltac:(clear - Hnum; lia) ltac:(clear; lia) HW1 ltac:(clear - Lout Hlen; lia)).
    assert (Hd' : d < 2 ^ (64 - b * (per - 1))).
    { replace (64 - b * (per - 1)) with b; auto. clear - Hper Hb Pp.
      assert (b * (per - 1) = 64 - b) by (rewrite N.mul_sub_distr_l; lia).
      assert (b <= 64) by nia. lia. }
    specialize (IH Hd' eq_refl). cbv zeta in IH.
    destruct IH as (out' & E1 & E2 & E3 & E4). exists out'. rewrite E1.
    split; [reflexivity|]. split; [auto|]. split; [congruence|]. rewrite E4.
    rewrite (leading_number_cons _ _ _ _ Hd). cbn [leading]. rewrite Hd, len_cons.
    replace (len t + 1 - (len (leading (2 ^ b) t) + 1)) with (len t - len (leading (2 ^ b) t)) by (clear; lia).
    set (rest := len t - len (leading (2 ^ b) t)) in *.
    set (n := leading_number (2 ^ b) t). set (j := digit_words b rest).
    assert (Lj : j <= q).
    { unfold j, digit_words. assert (H0 : b * rest <= b * len t) by (apply N.mul_le_mono_l; unfold rest; clear; lia).
      clear - H0 Eb Hb. dlia. }
    rewrite Eb. unfold overwrite.
    replace (q - 1 + 1) with q by (clear - H; lia).
    assert (A1 : wv out1 / 2 ^ (64 * q) = word + 2 ^ 64 * (wv out / 2 ^ (64 * (q + 1)))).
    { rewrite V1, (N.mul_comm (2 ^ (64 * q))), N.div_add, N.div_small by auto. apply N.add_0_l. }
    assert (A2 : wv out1 mod 2 ^ (64 * j) = wv out mod 2 ^ (64 * j)).
    { rewrite V1. rewrite (pow_split (64 * j) (64 * q)) at 2 by (clear - Lj; lia).
      rewrite <- N.mul_assoc, (N.mul_comm (2 ^ (64 * j)) (2 ^ (64 * q - 64 * j) * _)).
      rewrite N.mod_add by auto. apply mod_mod_le. clear - Lj. lia. }
    rewrite A1, A2, P64.
    replace (d * (2 ^ b) ^ len (leading (2 ^ b) t) + n) with (n + d * 2 ^ (b * len (leading (2 ^ b) t)))
      by (rewrite pow_base; apply N.add_comm).
    assert (A3 : (n + d * 2 ^ (b * len (leading (2 ^ b) t))) * 2 ^ (b * rest)
                 = n * 2 ^ (b * rest) + 2 ^ (b * len t) * d).
    { replace (b * len t) with (b * len (leading (2 ^ b) t) + b * rest).
      - rewrite N.pow_add_r. ring.
      - unfold rest. rewrite <- N.mul_add_distr_l. f_equal. clear - Lt. lia. }
    rewrite A3.
    rewrite (divide_out (64 * q) (n * 2 ^ (b * rest) + 2 ^ (b * len t) * d) word (64 * j)) by (clear - Lj; lia).
    ring.
  - assert (Et : len t = q * per + (r - 1)) by (clear - Hq R; lia).
    destruct (per_arith per q (r - 1) ltac:(lia) ltac:(lia)) as (D1 & D2).
    rewrite <- Et in D1, D2. cbn [bind].
    assert (Hbr : b * r <= 64 - b).
    { clear - Hr Hper Hb. assert (b * (r + 1) <= b * per) by (apply N.mul_le_mono_l; lia). lia. }
    assert (Hbr2 : b <= b * r) by (clear - R; nia).
    rewrite Hdv. destruct (digit_value (2 ^ b) c) as [d|] eqn:Hd.
    2:{ exists out. split; [reflexivity|]. split; [auto|]. split; [auto|].
        unfold overwrite, leading_number. cbn [leading]. rewrite Hd. change (@len N []) with 0. cbn [number].
        rewrite N.sub_0_r, N.mul_0_l, N.add_0_l.
        replace (digit_words b (len t + 1)) with (q + 1).
        2:{ unfold digit_words. rewrite Eb. clear - Hbr Hbr2 Hb. dlia. }
        rewrite (N.div_small (2 ^ (b * (len t + 1)) * word)).
        - rewrite N.mul_0_r, N.add_0_r. rewrite N.add_comm. apply N.div_mod. auto.
        - replace (64 * (q + 1)) with (b * (len t + 1) + (64 - b * r)) by (rewrite Eb; clear - Hbr Hb; lia).
          rewrite N.pow_add_r. apply N.mul_lt_mono_pos_l; auto. }
    assert (Ld := digit_value_lt _ _ _ Hd).
    assert (Hbr1 : b * (r - 1) = b * r - b) by (clear - R; rewrite N.mul_sub_distr_l; lia).
    destruct (shift_in word b (64 - b * (r - 1)) d) as (S1 & S2); auto.
    { clear - Hbr Hbr1 Hbr2 Hb2. lia. } { lia. }
    { replace (64 - b * (r - 1) - b) with (64 - b * r); auto. clear - Hbr Hbr1 Hbr2 Hb2. lia. }
    destruct (number (2 ^ b) t) as [|] eqn:Nt; [discriminate|].
    rewrite S1. specialize (IH (ii + 1) out (2 ^ b * word + d)). rewrite D1, D2 in IH.
    specialize (IH ltac:(clear - Hnum; lia) ltac:(clear; lia) HW Hlen S2 eq_refl). cbv zeta in IH.
    destruct IH as (out' & E1 & E2 & E3 & E4). exists out'. rewrite E1.
    split; [reflexivity|]. split; [auto|]. split; [auto|]. rewrite E4.
    rewrite (leading_number_cons _ _ _ _ Hd). cbn [leading]. rewrite Hd, len_cons.
    replace (len t + 1 - (len (leading (2 ^ b) t) + 1)) with (len t - len (leading (2 ^ b) t)) by (clear; lia).
    f_equal. rewrite pow_base.
    replace (b * (len t + 1)) with (b * len t + b) by (clear; lia).
    replace (b * len t) with (b * len (leading (2 ^ b) t) + b * (len t - len (leading (2 ^ b) t))).
    + rewrite !N.pow_add_r. ring.
    + rewrite <- N.mul_add_distr_l. f_equal. clear - Lt. lia.
Qed.

(** What a parser leaves in [k] words. *)
Definition lands (r : res (list N * option int_error_kind)) (k : N) (o : reading) : Prop :=
  match o with
  | Reads n => exists l, r = Ok (l, None) /\ Words l /\ len l = k /\ wv l = n
  | Fails e n => exists l, r = Ok (l, Some e) /\ Words l /\ len l = k /\ wv l = n
  | Breaks => panics r
  end.

Lemma digit_words_cons b per t : 0 < b -> b * per = 64 -> digit_words b (t + 1) = t / per + 1.
Proof.
  intros Hb Hper. assert (Pp : 0 < per) by (destruct per; lia). unfold digit_words.
  assert (Hq := N.div_mod t per ltac:(lia)). assert (Hr := N.mod_upper_bound t per ltac:(lia)).
  remember (t / per) as q eqn:Eq. remember (t mod per) as r eqn:Er. clear Eq Er.
  assert (E : b * (t + 1) = 64 * q + b * (r + 1)) by (rewrite Hq, <- Hper; ring).
  assert (L1 : b * (r + 1) <= b * per) by (apply N.mul_le_mono_l; clear - Hr; lia).
  assert (L2 : 0 < b * (r + 1)) by (clear - Hb; nia).
  rewrite E. rewrite Hper in L1. clear - L1 L2. dlia.
Qed.

Lemma wide_lands dv b per m epi s out :
  0 < b -> b < 64 -> b * per = 64 -> (forall c, dv c = digit_value (2 ^ b) c) ->
  (forall o, epi o = Ok (o, None)) ->
  s <> [] -> Words out -> (len s + per - 1) / per <= len out ->
  lands (gloop dv b per epi m (len s) s 0 out ((len s + per - 1) / per - 1) 0) (len out)
    (read_wide b (wv out) s).
Proof.
  intros Hb Hb2 Hper Hdv Hepi Hs HW Hlen. assert (Pp : 0 < per) by (destruct per; lia).
  unfold read_wide. destruct (number (2 ^ b) s) as [n|] eqn:E.
  - assert (G := gloop_start dv b per epi m s out Hb Hb2 Hper Hdv Hs HW Hlen). rewrite E in G.
    destruct G as (o & E1 & E2 & E3 & E4).
    rewrite (leading_all _ _ _ E), N.sub_diag, N.eqb_refl, (leading_number_all _ _ _ E).
    exists o. rewrite E1, Hepi. split; [reflexivity|]. split; [auto|]. split; [auto|].
    rewrite E4, wv_skipn by auto. rewrite N2Nat.id. unfold overwrite.
    rewrite N.mul_0_r, N.pow_0_r, N.mod_1_r, N.div_1_r, N.mul_1_l, N.add_0_l.
    destruct s as [|c t]; [easy|]. rewrite len_cons, (digit_words_cons b per) by auto.
    replace (len t + 1 + per - 1) with (1 * per + len t) by lia.
    rewrite (N.add_comm (1 * per)), N.div_add by lia. reflexivity.
  - assert (Sh := leading_short _ _ E). replace (len s - len (leading (2 ^ b) s) =? 0) with false by lia.
    destruct s as [|c t]; [easy|]. rewrite len_cons in *. rewrite gloop_step by auto.
    change (0 <? 0) with false. cbn [andb bind].
    rewrite (digit_words_cons b per (len t)) by auto.
    replace (len t + 1 + per - 1) with (1 * per + len t) in * by lia.
    rewrite (N.add_comm (1 * per)), N.div_add in * by lia.
    rewrite N.add_sub. rewrite Hdv. destruct (digit_value (2 ^ b) c) as [d|] eqn:Hd.
    2:{ exists out. split; [reflexivity|]. split; [auto|]. split; [auto|].
        unfold overwrite, leading_number. cbn [leading]. rewrite Hd. change (@len N []) with 0. cbn [number].
        rewrite N.sub_0_r, N.mul_0_l, N.div_0_l, N.mul_0_r, N.add_0_r by auto.
        rewrite (digit_words_cons b per (len t)) by auto.
        rewrite N.add_comm. apply N.div_mod. auto. }
    assert (Ld := digit_value_lt _ _ _ Hd).
    assert (W0 : N.lor (wshl 0 b) d = d).
    { unfold wshl. rewrite N.shiftl_0_l. unfold as_u64. rewrite N.mod_0_l by (rewrite B64_eq; auto).
      apply N.lor_0_l. }
    rewrite W0.
    assert (Hr := N.mod_upper_bound (len t) per ltac:(lia)).
    assert (Hd' : d < 2 ^ (64 - b * (len t mod per))).
    { apply (N.lt_le_trans _ _ _ Ld). apply pow_le.
      assert (b * (len t mod per + 1) <= b * per) by (apply N.mul_le_mono_l; lia). lia. }
    cbn [number] in E. rewrite Hd in E. destruct (number (2 ^ b) t) as [|] eqn:Et; [discriminate|].
    assert (G := gloop_torn dv b per epi m (len t + 1) t (0 + 1) out d Hb Hb2 Hper Hdv
                   ltac:(lia) ltac:(lia) HW ltac:(clear - Hlen; lia) Hd' Et). cbv zeta in G.
    destruct G as (o & E1 & E2 & E3 & E4). exists o. rewrite E1.
    split; [reflexivity|]. split; [auto|]. split; [auto|]. rewrite E4.
    rewrite (leading_number_cons _ _ _ _ Hd). cbn [leading]. rewrite Hd, len_cons.
    replace (len t + 1 - (len (leading (2 ^ b) t) + 1)) with (len t - len (leading (2 ^ b) t)) by (clear; lia).
    f_equal. rewrite pow_base. assert (Lt := leading_len (2 ^ b) t).
    replace (b * len t) with (b * len (leading (2 ^ b) t) + b * (len t - len (leading (2 ^ b) t))).
    + rewrite !N.pow_add_r. ring.
    + rewrite <- N.mul_add_distr_l. f_equal. clear - Lt. lia.
Qed.

(** more digits than words *)
Lemma gloop_over dv b per epi m num s : 0 < per -> (forall c, dv c = digit_value (2 ^ b) c) ->
  forall ii out word, num = ii + len s -> 0 < ii -> len out <= len s / per -> 0 < len out ->
  gloop dv b per epi m num s ii out (len s / per) word
  = if len s mod per <=? len (leading (2 ^ b) s) then Panic PIndex else Ok (out, Some InvalidDigit).
Proof.
  intros Pp Hdv. induction s as [|c t IH]; intros ii out word Hnum Hii Hlen Hpos.
  - change (@len N []) with 0 in *. rewrite N.div_0_l in Hlen by lia. lia.
  - rewrite len_cons in *. rewrite gloop_step by auto.
    replace (0 <? ii) with true by lia. cbn [andb].
    destruct ((len t + 1) mod per =? 0) eqn:R.
    + rewrite set_idx_panic by auto. apply N.eqb_eq in R. rewrite R.
      now replace (0 <=? len (leading (2 ^ b) (c :: t))) with true by lia.
    + cbn [bind].
      assert (Hq := N.div_mod (len t + 1) per ltac:(lia)).
      assert (Hr := N.mod_upper_bound (len t + 1) per ltac:(lia)).
      assert (D : len t / per = (len t + 1) / per).
      { symmetry. apply (N.div_unique _ _ _ ((len t + 1) mod per - 1)); lia. }
      assert (M : (len t + 1) mod per = len t mod per + 1).
      { assert (Q2 := N.div_mod (len t) per ltac:(lia)). rewrite D in Q2. lia. }
      rewrite M. rewrite Hdv. cbn [leading]. destruct (digit_value (2 ^ b) c) as [d|] eqn:E.
      * rewrite <- D in *. rewrite IH by (auto; lia). rewrite len_cons.
        now replace (len t mod per + 1 <=? len (leading (2 ^ b) t) + 1)
          with (len t mod per <=? len (leading (2 ^ b) t)) by (clear; lia).
      * change (@len N []) with 0. now replace (len t mod per + 1 <=? 0) with false by lia.
Qed.

Lemma base_2_lands m d out w : d <> [] -> len d < 2 ^ 32 -> Words out -> len out = (w + 63) / 64 ->
  lands (parse_base_2 m d out w) (len out)
    (if w <? len d then Fails ExceedsWidth (wv out) else read_wide 1 (wv out) d).
Proof.
  intros Hd Hlen HW Hout. unfold parse_base_2.
  assert (E : as_u32 (len d) = len d) by (unfold as_u32; apply N.mod_small; rewrite B32_eq; auto).
  rewrite E. destruct (w <? len d) eqn:Hw; [exists out; auto|]. rewrite div_ceil_eq.
  assert (P : 0 < len d) by (destruct d; [easy|rewrite len_cons; lia]).
  rewrite u32_sub_ok by (clear - P; dlia). cbn [bind]. rewrite loop2_gloop.
  assert (G := wide_lands bin_digit_value 1 64 m (fun o => Ok (o, None)) d out
    ltac:(lia) ltac:(lia) eq_refl bin_digit_ok (fun _ => eq_refl) Hd HW).
  replace (len d + 64 - 1) with (len d + 63) in G by lia.
  apply G. rewrite Hout. apply N.div_le_mono; lia.
Qed.

Lemma base_16_lands m d out : d <> [] -> len d < 2 ^ 30 -> Words out -> 0 < len out ->
  lands (parse_base_16 m d out) (len out)
    (if 16 * len out <? len d then
       if (len d - 1) mod 16 + 1 <=? len (leading 16 d) then Breaks else Fails InvalidDigit (wv out)
     else read_wide 4 (wv out) d).
Proof.
  intros Hd Hlen HW Hpos. unfold parse_base_16.
  change (2 ^ 30) with 1073741824 in Hlen.
  assert (E : as_u32 (len d) = len d).
  { unfold as_u32; apply N.mod_small; unfold B32. lia. }
  rewrite E.
  assert (M : u32_mul m (len d) 4 = Ok (len d * 4)).
  { unfold u32_mul. unfold B32. now replace (len d * 4 <? 4294967296) with true by lia. }
  rewrite M. cbn [bind]. rewrite div_ceil_eq.
  assert (P : 0 < len d) by (destruct d; [easy|rewrite len_cons; lia]).
  assert (Q : (len d * 4 + 63) / 64 = (len d + 15) / 16) by (clear; dlia).
  rewrite Q. rewrite u32_sub_ok by (clear - P; dlia). cbn [bind]. rewrite loop16_gloop. rewrite E, M.
  destruct (16 * len out <? len d) eqn:L.
  - destruct d as [|c t]; [easy|]. rewrite len_cons in *. rewrite gloop_step by auto.
    change (0 <? 0) with false. cbn [andb bind]. rewrite N.add_sub.
    replace ((len t + 1 + 15) / 16 - 1) with (len t / 16) by (clear; dlia).
    rewrite hex_digit_ok. cbn [leading]. destruct (digit_value 16 c) as [x|] eqn:Hx.
    + rewrite (gloop_over hex_digit_value 4 16) by (auto; try exact hex_digit_ok; try lia; clear - L; dlia).
      change (2 ^ 4) with 16. rewrite len_cons.
      replace (len t mod 16 + 1 <=? len (leading 16 t) + 1) with (len t mod 16 <=? len (leading 16 t)) by (clear; lia).
      destruct (len t mod 16 <=? len (leading 16 t)); [eexists; reflexivity|exists out; auto].
    + change (@len N []) with 0. replace (len t mod 16 + 1 <=? 0) with false by lia. exists out. auto.
  - assert (G := wide_lands hex_digit_value 4 16 m (fun o => let* _ := Ok (len d * 4) in Ok (o, None)) d out
      ltac:(lia) ltac:(lia) eq_refl hex_digit_ok (fun _ => eq_refl) Hd HW).
    replace (len d + 16 - 1) with (len d + 15) in G by lia.
    apply G. clear - L. dlia.
Qed.

(** ** At most 128 bits *)

Lemma std_loop_reading lim r d : 2 <= r -> r <= 36 -> 0 < lim ->
  std_parse_loop lim r d 0
  = if lim <=? leading_number r d then StdPosOverflow
    else if len (leading r d) =? len d then StdOk (leading_number r d) else StdInvalidDigit.
Proof.
  intros H2 H36 Hl. destruct (number r d) as [n|] eqn:E.
  - assert (G := std_parse_loop_ok lim r d 0 H2 H36 Hl). rewrite E in G. cbv zeta in G.
    rewrite N.mul_0_l, N.add_0_l in G. rewrite G, (leading_all _ _ _ E), (leading_number_all _ _ _ E), N.eqb_refl.
    destruct (N.ltb_spec n lim), (N.leb_spec lim n); auto; lia.
  - destruct (leading_split r d E) as (c & rest & E1 & Hc).
    assert (G := std_loop_bad lim r c rest H2 H36 Hc (leading r d) _ 0 Hl (leading_some r d)).
    rewrite <- E1, N.mul_0_l, N.add_0_l in G. rewrite G.
    assert (Sh := leading_short _ _ E). replace (len (leading r d) =? len d) with false by lia.
    destruct (N.ltb_spec (leading_number r d) lim), (N.leb_spec lim (leading_number r d)); auto; lia.
Qed.

Definition drop_plus (s : list N) : list N :=
  match s with c :: t => if c =? 43 then t else c :: t | [] => [] end.

Lemma std_reading lim r s : 2 <= r -> r <= 36 -> 0 < lim -> s <> [] ->
  std_from_str_radix lim r s
  = Ok (match drop_plus s with
        | [] => StdInvalidDigit
        | d => if lim <=? leading_number r d then StdPosOverflow
               else if len (leading r d) =? len d then StdOk (leading_number r d) else StdInvalidDigit
        end).
Proof.
  intros H2 H36 Hl Hs. unfold std_from_str_radix.
  replace ((2 <=? r) && (r <=? 36)) with true by lia. cbn [assert bind]. f_equal.
  change c_plus with 43. change c_minus with 45.
  destruct s as [|c [|c2 t]]; [easy| |].
  - cbn [drop_plus]. destruct (c =? 43) eqn:E; cbn [orb]; [reflexivity|].
    destruct (c =? 45) eqn:E2; [|apply std_loop_reading; auto].
    assert (B : digit_value r c = None).
    { destruct (digit_value r c) eqn:B; [|auto]. apply digit_not_sign in B. lia. }
    unfold leading_number. cbn [leading]. rewrite B. change (@len N []) with 0. rewrite len_cons.
    change (@len N []) with 0. cbn [number]. now replace (lim <=? 0) with false by lia.
  - cbn [drop_plus]. destruct (c =? 43); apply std_loop_reading; auto.
Qed.

Lemma std_bad_radix lim r s : ~ (2 <= r <= 36) -> panics (std_from_str_radix lim r s).
Proof.
  intros H. unfold std_from_str_radix. replace ((2 <=? r) && (r <=? 36)) with false by lia.
  eexists. reflexivity.
Qed.

Lemma small_bad_radix m s r out w : 0 < w -> w <= 128 -> len out = (w + 63) / 64 ->
  ~ (2 <= r <= 36) -> panics (parse_magnitude m s r out w).
Proof.
  intros H0 H1 L R. unfold parse_magnitude.
  assert (C : (w + 63) / 64 = 1 /\ w <= 64 \/ (w + 63) / 64 = 2) by (clear - H0 H1; dlia).
  destruct C as [[C H64]|C]; rewrite C in *.
  - destruct (len_0_1 _ L) as (x & ->). replace (w <=? 64) with true by lia. rewrite debug_assert_true. cbn [bind].
    destruct (std_bad_radix B64 r s R) as (p & ->). eexists. reflexivity.
  - assert (E : exists x y, out = [x; y]).
    { destruct out as [|x [|y [|z t]]]; rewrite ?len_cons in L; nils; try lia; eauto. }
    destruct E as (x & y & ->). replace (w <=? 128) with true by lia. rewrite debug_assert_true. cbn [bind].
    destruct (std_bad_radix (B64 * B64) r s R) as (p & ->). eexists. reflexivity.
Qed.

Lemma strip_plus_drop s : s <> [] -> strip_plus s = match drop_plus s with [] => None | d => Some d end.
Proof.
  intros H. unfold strip_plus, drop_plus. change c_plus with 43.
  destruct s as [|c [|c2 t]]; [easy| |]; destruct (c =? 43); reflexivity.
Qed.

Lemma drop_plus_len s : len (drop_plus s) <= len s.
Proof. destruct s as [|c t]; cbn [drop_plus]; [lia|]. destruct (c =? 43); rewrite ?len_cons; lia. Qed.

Lemma magnitude_lands m s r out w : 0 < w -> len out = (w + 63) / 64 -> Words out -> s <> [] -> len s < 2 ^ 30 ->
  lands (parse_magnitude m s r out w) ((w + 63) / 64) (read_digits r w (wv out) (drop_plus s)).
Proof.
  intros H0 Lo HW Hs Hl. unfold read_digits. destruct (w <=? 128) eqn:W.
  - destruct ((2 <=? r) && (r <=? 36)) eqn:R.
    2:{ apply small_bad_radix; auto; lia. }
    assert (P := pow_pos (64 * ((w + 63) / 64))).
    assert (E := std_reading _ r s ltac:(clear - R; lia) ltac:(clear - R; lia) P Hs).
    apply (small_ok m s r out w) in E; auto; [|lia]. rewrite E.
    destruct (drop_plus s) as [|c t]; [exists out; auto|]. unfold read_small.
    destruct (2 ^ (64 * ((w + 63) / 64)) <=? leading_number r (c :: t)) eqn:B; [exists out; auto|].
    destruct (len (leading r (c :: t)) =? len (c :: t)); [|exists out; auto].
    eexists. split; [reflexivity|].
    destruct (words_of_ok (N.to_nat ((w + 63) / 64)) (leading_number r (c :: t))) as (A1 & A2 & A3).
    rewrite N2Nat.id in A2, A3. split; [auto|]. split; [auto|]. rewrite A3. apply mod_small_pow.
    apply N.leb_gt. exact B.
  - rewrite mag_wide by (auto; lia). rewrite strip_plus_drop by auto.
    assert (Ld := drop_plus_len s).
    destruct (drop_plus s) as [|c t] eqn:E; [exists out; auto|].
    assert (Hd : len (c :: t) < 2 ^ 30) by (clear - Ld Hl; lia).
    destruct (r =? 2) eqn:R2.
    { rewrite <- Lo. apply base_2_lands; auto; [discriminate|]. eapply N.lt_trans; [exact Hd|reflexivity]. }
    destruct (r =? 10) eqn:R10.
    { replace (r =? 16) with false by lia. eexists. reflexivity. }
    destruct (r =? 16) eqn:R16; [|eexists; reflexivity].
    rewrite <- Lo. apply base_16_lands; auto; [discriminate|]. rewrite Lo. clear - H0. dlia.
Qed.

Lemma text_lands m s r out w : len out = (w + 63) / 64 -> Words out -> len s < 2 ^ 30 ->
  lands (from_str_radix m s r out w) ((w + 63) / 64) (reading_of r w (wv out) s).
Proof.
  intros Lo HW Hl. unfold from_str_radix, reading_of.
  destruct s as [|c t]; [exists out; auto|].
  replace (len (c :: t) =? 0) with false by (rewrite len_cons; lia).
  assert (M : strip_minus (c :: t) = (has_minus (c :: t), after_minus (c :: t))).
  { cbn [strip_minus after_minus has_minus]. change c_minus with 45. now destruct (c =? 45). }
  rewrite M. assert (Hl' : len (after_minus (c :: t)) < 2 ^ 30).
  { cbn [after_minus]. destruct (c =? 45); [|auto]. rewrite len_cons in Hl. clear - Hl. lia. }
  destruct (w =? 0) eqn:W.
  { destruct (after_minus (c :: t)) as [|x [|y u]]; [exists out; auto| |exists out; auto].
    change c_0 with 48. destruct (x =? 48); exists out; auto. }
  assert (H0 : 0 < w) by (clear - W; lia).
  change (digits_of (c :: t)) with (drop_plus (after_minus (c :: t))).
  destruct (after_minus (c :: t)) as [|x u]; [exists out; auto|].
  assert (G := magnitude_lands m (x :: u) r out w H0 Lo HW ltac:(discriminate) Hl').
  destruct (read_digits r w (wv out) (drop_plus (x :: u))) as [n|k n|].
  - destruct G as (l & -> & A & B & C). cbn [bind]. destruct (has_minus (c :: t)).
    + destruct (negate_any m l w H0 A B) as (l' & -> & B' & A' & C'). cbn [bind].
      exists l'. rewrite C in C'. auto.
    + exists l. auto.
  - destruct G as (l & -> & A & B & C). exists l. auto.
  - destruct G as (p & ->). eexists. reflexivity.
Qed.

(** C73 *)
Lemma reading_assign m old s r : well_shaped old -> len s < 2 ^ 30 ->
  assigned (bv_assign_from_str_radix m old s r) (width old) (reading_of r (width old) (uval old) s).
Proof.
  intros (Hw & Lo & HW) Hl. unfold bv_assign_from_str_radix, uval.
  assert (G := text_lands m s r (words old) (width old) Lo HW Hl).
  change (words_val (words old)) with (wv (words old)).
  destruct (reading_of r (width old) (wv (words old)) s) as [n|k n|].
  - destruct G as (l & -> & A & B & C). cbn [bind]. eexists. split; [reflexivity|].
    split; [split; [exact Hw|split; [exact B|exact A]]|]. split; [reflexivity|exact C].
  - destruct G as (l & -> & A & B & C). cbn [bind]. eexists. split; [reflexivity|].
    split; [split; [exact Hw|split; [exact B|exact A]]|]. split; [reflexivity|exact C].
  - destruct G as (p & ->). eexists. reflexivity.
Qed.

Lemma zero_shaped w : w < 2 ^ 32 -> well_shaped (bv_zero w) /\ uval (bv_zero w) = 0.
Proof.
  intros Hw. split; [split; [exact Hw|split]|]; cbn [bv_zero width words].
  - apply zeros_len.
  - apply zeros_words.
  - apply zeros_val.
Qed.

Lemma reading_parse m s r w : w < 2 ^ 32 -> len s < 2 ^ 30 ->
  parses_to (bv_from_str_radix m s r w) w (reading_of r w 0 s).
Proof.
  intros Hw Hl. unfold bv_from_str_radix. destruct (zero_shaped w Hw) as [S V].
  assert (G := reading_assign m (bv_zero w) s r S Hl). rewrite V in G. change (width (bv_zero w)) with w in G.
  destruct (reading_of r w 0 s) as [n|k n|].
  - destruct G as (v & -> & G). cbn [bind]. exists v. auto.
  - destruct G as (v & -> & G). reflexivity.
  - destruct G as (p & ->). eexists. reflexivity.
Qed.

Lemma num_digits_any s : len s < 2 ^ 30 -> num_digits s = len (without_sign s).
Proof.
  intros H. assert (A : forall l : list N, len l <= len s -> as_u32 (len l) = len l).
  { intros l Hl. unfold as_u32. apply N.mod_small. rewrite B32_eq.
    eapply N.le_lt_trans; [exact Hl|]. eapply N.lt_trans; [exact H|reflexivity]. }
  unfold num_digits, without_sign. change c_plus with 43. change c_minus with 45.
  destruct s as [|c [|c2 t]]; [reflexivity| |]; rewrite (orb_comm (c =? 45)); destruct ((c =? 43) || (c =? 45));
    try reflexivity; apply A; rewrite ?len_cons; lia.
Qed.

Lemma without_len s : len (without_sign s) <= len s.
Proof. destruct s as [|c t]; cbn [without_sign]; [lia|]. destruct ((c =? 45) || (c =? 43)); rewrite ?len_cons; lia. Qed.

Lemma width_any m b r s : (b = 1 /\ r = 2) \/ (b = 4 /\ r = 16) -> len s + 1 < 2 ^ 30 ->
  determine_width_from_str_radix m s r = Ok (text_width b s) /\ text_width b s < 2 ^ 32.
Proof.
  intros C H. unfold determine_width_from_str_radix, text_width.
  rewrite num_digits_any by (clear - H; lia). assert (L := without_len s).
  change (starts_with_minus s) with (has_minus s).
  change (2 ^ 30) with 1073741824 in H. change (2 ^ 32) with 4294967296.
  destruct C as [[-> ->]|[-> ->]].
  - change ((2 =? 2) || (2 =? 16)) with true. rewrite debug_assert_true. cbn [bind].
    change (2 =? 2) with true. cbn iota. cbn [bind]. rewrite N.mul_1_l.
    unfold u32_add, B32. destruct (has_minus s).
    + replace (len (without_sign s) + 1 <? 4294967296) with true by lia. split; [reflexivity|lia].
    + replace (len (without_sign s) + 0 <? 4294967296) with true by lia. split; [reflexivity|lia].
  - change ((16 =? 2) || (16 =? 16)) with true. rewrite debug_assert_true. cbn [bind].
    change (16 =? 2) with false. change (16 =? 16) with true. cbn iota.
    unfold u32_mul, u32_add, B32. replace (len (without_sign s) * 4 <? 4294967296) with true by lia.
    cbn [bind]. rewrite (N.mul_comm (len (without_sign s)) 4). destruct (has_minus s).
    + replace (4 * len (without_sign s) + 1 <? 4294967296) with true by lia. split; [reflexivity|lia].
    + replace (4 * len (without_sign s) + 0 <? 4294967296) with true by lia. split; [reflexivity|lia].
Qed.

Lemma reading_bit_str m s : len s + 1 < 2 ^ 30 ->
  parses_to (bv_from_bit_str m s) (text_width 1 s) (reading_of 2 (text_width 1 s) 0 s).
Proof.
  intros H. unfold bv_from_bit_str. destruct (width_any m 1 2 s (or_introl (conj eq_refl eq_refl)) H) as [-> W].
  cbn [bind]. apply reading_parse; auto. clear - H. lia.
Qed.

Lemma reading_hex_str m s : len s + 1 < 2 ^ 30 ->
  parses_to (bv_from_hex_str m s) (text_width 4 s) (reading_of 16 (text_width 4 s) 0 s).
Proof.
  intros H. unfold bv_from_hex_str. destruct (width_any m 4 16 s (or_intror (conj eq_refl eq_refl)) H) as [-> W].
  cbn [bind]. apply reading_parse; auto. clear - H. lia.
Qed.

(** the outcome for a text that denotes a number *)
Lemma signed_digits r s z : signed_text r s = Some z ->
  exists n, digits_of s <> [] /\ after_minus s <> [] /\ s <> [] /\ number r (digits_of s) = Some n
    /\ z = if has_minus s then (- Z.of_N n)%Z else Z.of_N n.
Proof.
  destruct s as [|c t]; [discriminate|]. cbn [signed_text has_minus]. unfold digits_of. cbn [after_minus].
  destruct (c =? 45) eqn:E.
  - intros H. destruct t as [|x u]; [discriminate|]. cbn [unsigned_text] in H.
    destruct (number r (x :: u)) as [n|] eqn:Hn; [|discriminate]. injection H as <-.
    destruct (x =? 43) eqn:P.
    + apply N.eqb_eq in P. subst x. rewrite number_plus in Hn. discriminate.
    + exists n. repeat split; try discriminate; try exact Hn.
  - destruct (c =? 43) eqn:P; intros H.
    + destruct t as [|x u]; [discriminate|]. cbn [unsigned_text] in H.
      destruct (number r (x :: u)) as [n|] eqn:Hn; [|discriminate]. injection H as <-.
      exists n. repeat split; try discriminate; try exact Hn.
    + cbn [unsigned_text] in H. destruct (number r (c :: t)) as [n|] eqn:Hn; [|discriminate]. injection H as <-.
      exists n. repeat split; try discriminate; try exact Hn.
Qed.

Lemma reading_meaning r w s z : 0 < w -> signed_text r s = Some z -> Z.abs_N z < 2 ^ w ->
  (w <= 128 /\ 2 <= r <= 36) \/ (r = 2 /\ len (digits_of s) <= w)
    \/ (r = 16 /\ len (digits_of s) <= 16 * ((w + 63) / 64)) ->
  reading_of r w 0 s = Reads (wrap w z).
Proof.
  intros Hw Hs Hz C. destruct (signed_digits r s z Hs) as (n & D & A & S & Hn & Ez).
  assert (Hn2 : n < 2 ^ w) by (destruct (has_minus s); subst z; clear - Hz; lia).
  assert (W : (if has_minus s then wrap w (- Z.of_N n) else n) = wrap w z).
  { rewrite Ez. destruct (has_minus s); [reflexivity|]. unfold wrap.
    rewrite Z.mod_small; [symmetry; apply N2Z.id|]. clear - Hn2. change 2%Z with (Z.of_N 2). rewrite <- N2Z.inj_pow. lia. }
  unfold reading_of. replace (len s =? 0) with false by (destruct s; [easy|rewrite len_cons; lia]).
  replace (w =? 0) with false by lia. destruct (after_minus s) as [|a u]; [easy|]. clear A.
  enough (E : read_digits r w 0 (digits_of s) = Reads n) by (now rewrite E, W).
  unfold read_digits. destruct (digits_of s) as [|c t]; [easy|]. clear D.
  assert (L := leading_all _ _ _ Hn). assert (V := leading_number_all _ _ _ Hn).
  assert (F : forall b k, 2 ^ b = r -> overwrite 0 (leading_number (2 ^ b) (c :: t)) 0 k = n).
  { intros b k ->. unfold overwrite. rewrite V, N.mul_0_r, N.pow_0_r, N.mod_1_r, N.div_1_r, N.mul_1_l.
    rewrite N.div_0_l by auto. lia. }
  destruct (w <=? 128) eqn:W1.
  - replace ((2 <=? r) && (r <=? 36)) with true by (clear - C; lia). unfold read_small.
    rewrite L, V, N.eqb_refl.
    replace (2 ^ (64 * ((w + 63) / 64)) <=? n) with false; [reflexivity|]. symmetry. apply N.leb_gt.
    apply (N.lt_le_trans _ _ _ Hn2). apply pow_le. apply ceil_mul.
  - destruct C as [[? _]|[[-> C]|[-> C]]]; [lia| |].
    + change (2 =? 2) with true. cbn iota. replace (w <? len (c :: t)) with false by lia.
      unfold read_wide. change (2 ^ 1) with 2 at 1. rewrite L, N.sub_diag. change (0 =? 0) with true. cbn iota.
      now rewrite F.
    + change (16 =? 2) with false. change (16 =? 16) with true. cbn iota.
      replace (16 * ((w + 63) / 64) <? len (c :: t)) with false by (clear - C; lia).
      unfold read_wide. change (2 ^ 4) with 16 at 1. rewrite L, N.sub_diag. change (0 =? 0) with true. cbn iota.
      now rewrite F.
Qed.
