(** * PCall: which calls keep bit-vectors valid. *)

From Coq Require Import ZifyBool ZifyNat ZifyN.
From Verif Require Import Base Arith Strings Bytes BigInt Bv Spec TextSpec IoSpec ProfileSpec CallSpec.
From Verif Require Import PWords PArith PShift PropsArith PConv PText PParse PropsText PIo PRegister PMisc
  PReject PProfile.
Ltac Zify.zify_post_hook ::= idtac.

(** ** Parsing *)

Lemma gloop_none dv b per epi m num s : (forall c, dv c = digit_value (2 ^ b) c) ->
  forall ii out oi word o, gloop dv b per epi m num s ii out oi word = Ok (o, None) ->
  exists n, number (2 ^ b) s = Some n.
Proof.
  intros Hdv. induction s as [|c t IH]; intros ii out oi word o H; [eexists; reflexivity|].
  cbn [gloop] in H. cbn [number]. rewrite <- Hdv.
  destruct (usz_sub m num ii) as [u|]; cbn [bind] in H; [|discriminate].
  destruct (usz_sub m u 1) as [u'|]; cbn [bind] in H; [|discriminate].
  destruct (if (0 <? ii) && ((u' + 1) mod per =? 0) then _ else _) as [[[o' w'] oi']|]; cbn [bind] in H; [|discriminate].
  destruct (dv c) as [v|]; [|discriminate].
  apply IH in H as (n & ->). eexists; reflexivity.
Qed.

Lemma base_16_none m d out o : parse_base_16 m d out = Ok (o, None) -> exists n, number 16 d = Some n.
Proof.
  unfold parse_base_16. intros H.
  destruct (u32_mul m (as_u32 (len d)) 4); cbn [bind] in H; [|discriminate].
  destruct (u32_sub m _ 1); cbn [bind] in H; [|discriminate].
  rewrite loop16_gloop in H. change 16 with (2 ^ 4) at 1. eapply gloop_none in H; eauto.
  intros c. now rewrite hex_digit_ok.
Qed.

Lemma std_ok_number lim r s v : 2 <= r -> r <= 36 -> 0 < lim -> s <> [] ->
  std_from_str_radix lim r s = Ok (StdOk v) ->
  exists d, d <> [] /\ (s = d \/ s = 43 :: d) /\ number r d = Some v.
Proof.
  intros H2 H36 Hl Hs E.
  destruct (number r s) as [n|] eqn:Hn.
  - exists s. split; [auto|]. split; [auto|].
    destruct (std_digits lim r s n H2 H36 Hl Hs Hn) as [E1 _]. rewrite E1 in E.
    destruct (n <? lim); [|discriminate]. congruence.
  - destruct s as [|c t]; [easy|].
    destruct (N.eq_dec c 43) as [->|Hc].
    + destruct t as [|c' t'].
      * destruct (std_bad lim r [43] H2 H36 Hl Hn) as [B|B]; [auto| |]; rewrite B in E; discriminate.
      * destruct (number r (c' :: t')) as [n|] eqn:Hn'.
        -- exists (c' :: t'). split; [easy|]. split; [auto|].
           destruct (std_digits lim r (c' :: t') n H2 H36 Hl ltac:(discriminate) Hn') as [_ E1]. rewrite E1 in E.
           destruct (n <? lim); [|discriminate]. congruence.
        -- destruct (std_bad lim r (43 :: c' :: t') H2 H36 Hl Hn) as [B|B]; [auto| |]; rewrite B in E; discriminate.
    + destruct (std_bad lim r (c :: t) H2 H36 Hl Hn) as [B|B]; [|rewrite B in E; discriminate|rewrite B in E; discriminate].
      destruct c as [|p]; [exact I|]. repeat (destruct p as [p|p|]; try exact I). congruence.
Qed.

(** What the magnitude parser leaves behind, in any case. *)
Lemma magnitude_any s r out w out' e : 0 < w -> w < 2 ^ 32 -> s <> [] -> len s < 2 ^ 30 -> Words out ->
  len out = (w + 63) / 64 -> wv out < 2 ^ w -> parse_magnitude Debug s r out w = Ok (out', e) ->
  (exists k, e = Some k /\ (w <= 128 -> out' = out))
  \/ e = None /\ Words out' /\ len out' = len out
     /\ exists d n, d <> [] /\ (s = d \/ s = 43 :: d) /\ number r d = Some n
        /\ (n < 2 ^ w -> wv out' < 2 ^ w).
Proof.
  intros Hw H32 Hs Hl HW Lo Bo E.
  destruct (N.le_gt_cases w 128) as [H|H].
  - destruct (std_from_str_radix (2 ^ (64 * ((w + 63) / 64))) r s) as [p|p] eqn:Es.
    + rewrite (small_ok Debug s r out w p Hw H Lo Es) in E.
      assert (R : 2 <= r /\ r <= 36).
      { unfold std_from_str_radix in Es. destruct ((2 <=? r) && (r <=? 36)) eqn:R; [lia|discriminate]. }
      destruct p as [v| | |]; injection E as <- <-; try (left; eexists; split; [reflexivity|auto]).
      right. split; [auto|].
      destruct (words_of_ok (N.to_nat ((w + 63) / 64)) v) as (W1 & W2 & W3).
      rewrite N2Nat.id in *. split; [auto|]. split; [congruence|].
      destruct (std_ok_number _ r s v (proj1 R) (proj2 R) (pow_pos _) Hs Es) as (d & D1 & D2 & D3).
      exists d, v. split; [auto|]. split; [auto|]. split; [auto|]. intros Hv. rewrite W3.
      eapply N.le_lt_trans; [apply N.mod_le; apply N.pow_nonzero; easy|exact Hv].
    + exfalso. unfold parse_magnitude in E.
      assert (C : (w + 63) / 64 = 1 \/ (w + 63) / 64 = 2) by (clear - Hw H; dlia).
      destruct C as [C|C]; rewrite C in Lo, Es; destruct out as [|o1 [|o2 [|o3 ot]]]; rewrite ?len_cons in Lo;
        try (change (@len N []) with 0 in Lo); try lia.
      * replace (w <=? 64) with true in E by (clear - C; symmetry; apply N.leb_le; dlia). cbn [debug_assert bind] in E.
        change (2 ^ (64 * 1)) with B64 in Es. rewrite Es in E. discriminate.
      * replace (w <=? 128) with true in E by lia. cbn [debug_assert bind] in E.
        change (2 ^ (64 * 2)) with (B64 * B64) in Es. rewrite Es in E. discriminate.
  - rewrite (mag_wide Debug s r out w H Lo) in E.
    assert (SP : strip_plus s = None \/ exists d, strip_plus s = Some d /\ d <> [] /\ (s = d \/ s = 43 :: d)).
    { clear - Hs. destruct s as [|c [|c' t]]; [easy| |]; unfold strip_plus, c_plus.
      - destruct (c =? 43); [auto|]. right. exists [c]. split; [auto|]. split; [easy|auto].
      - right. destruct (c =? 43) eqn:Ec.
        + exists (c' :: t). split; [auto|]. split; [easy|]. right. f_equal. now apply N.eqb_eq.
        + exists (c :: c' :: t). split; [auto|]. split; [easy|auto]. }
    destruct SP as [SP|(d & SP & Hd & Hsd)]; rewrite SP in E.
    { injection E as <- <-. left. eexists. split; [reflexivity|]. clear - H; lia. }
    assert (Ld : len d < 2 ^ 30) by (destruct Hsd as [->| ->]; rewrite ?len_cons in Hl; clear - Hl; lia).
    (* the top of the old words stays in place *)
    assert (Top : forall k n, k <= len out -> n < 2 ^ (64 * k) -> n < 2 ^ w ->
               n + 2 ^ (64 * k) * wv (skipn (N.to_nat k) out) < 2 ^ w).
    { intros k n Hk Hn1 Hn2. rewrite wv_skipn, N2Nat.id by auto.
      destruct (N.le_gt_cases (64 * k) w) as [L|L].
      - replace w with (64 * k + (w - 64 * k)) by (clear - L; lia). apply add_mul_lt; [auto|].
        apply div_lt_pow. now replace (64 * k + (w - 64 * k)) with w by (clear - L; lia).
      - rewrite N.div_small; [rewrite N.mul_0_r, N.add_0_r; auto|]. eapply N.lt_trans; [exact Bo|]. apply pow_lt. auto. }
    destruct (r =? 2) eqn:R2.
    { apply N.eqb_eq in R2. subst r.
      destruct (parse_base_2_ok Debug d out w Hd ltac:(eapply N.lt_trans; [exact Ld|reflexivity]) HW Lo) as [G1 G2].
      destruct (N.le_gt_cases (len d) w) as [L|L].
      - specialize (G2 L). destruct (number 2 d) as [n|] eqn:Hn.
        + destruct G2 as (o & E1 & E2 & E3 & E4). rewrite E1 in E. injection E as <- <-. right.
          split; [auto|]. split; [auto|]. split; [auto|]. exists d, n. repeat split; auto.
          intros B. rewrite E4. apply Top; auto.
          * rewrite Lo. apply N.div_le_mono; [easy|]. clear - L; lia.
          * apply (number_fits 2 1) in Hn; auto. rewrite N.mul_1_l in Hn.
            eapply N.lt_le_trans; [exact Hn|]. apply pow_le. clear. dlia.
        + destruct G2 as (o & E1 & E2). rewrite E1 in E. injection E as <- <-.
          left. eexists. split; [reflexivity|clear - H; lia].
      - rewrite (G1 L) in E. injection E as <- <-. left. eexists. split; [reflexivity|clear - H; lia]. }
    destruct (r =? 10); [discriminate|].
    destruct (r =? 16) eqn:R16; [|discriminate].
    apply N.eqb_eq in R16. subst r.
    destruct (number 16 d) as [n|] eqn:Hn.
    + destruct (N.le_gt_cases ((len d + 15) / 16) (len out)) as [L|L].
      * assert (G := parse_base_16_ok Debug d out Hd Ld HW L). rewrite Hn in G.
        destruct G as (o & E1 & E2 & E3 & E4). rewrite E1 in E. injection E as <- <-. right.
        split; [auto|]. split; [auto|]. split; [auto|]. exists d, n. repeat split; auto.
        intros B. rewrite E4. apply Top; auto.
        apply (number_fits 16 4) in Hn; auto. eapply N.lt_le_trans; [exact Hn|]. apply pow_le. clear. dlia.
      * rewrite (parse_base_16_panics Debug d out n Ld Hn L) in E; [discriminate|].
        rewrite Lo. clear - H. dlia.
    + destruct e as [k|].
      * left. exists k. split; [auto|clear - H; lia].
      * apply base_16_none in E as (n & E). congruence.
Qed.

Lemma parse_closed old s r v e : wf old -> len s < 2 ^ 30 -> fits_text s r (width old) ->
  bv_assign_from_str_radix Debug old s r = Ok (v, e) -> (width old <= 128 \/ e = None) ->
  wf v /\ width v = width old.
Proof.
  intros Hold Hl Hf E He.
  assert (Ho : is_bv old (width old) (uval old)) by (split; [exact Hold|split; reflexivity]).
  set (w := width old) in *. assert (Hw32 := is_bv_w _ _ _ Ho).
  apply is_bv_inv in Ho as (_ & _ & Lo & HW & Hv & Hx).
  assert (Same : wf (mkbv w (words old)) /\ width (mkbv w (words old)) = w).
  { split; [|reflexivity]. unfold w. now destruct old. }
  unfold bv_assign_from_str_radix in E. fold w in E.
  destruct s as [|c t]. { cbn in E. injection E as <- _. exact Same. }
  destruct (N.eq_dec w 0) as [W0|W0].
  { unfold from_str_radix in E. destruct (strip_minus (c :: t)) as [neg s'].
    apply N.eqb_eq in W0. rewrite W0 in E.
    destruct s' as [|c' [|c'' t']]; cbn [bind] in E; try (injection E as <- _; exact Same).
    destruct (c' =? c_0); cbn [bind] in E; injection E as <- _; exact Same. }
  assert (Pw : 0 < w) by (apply N.neq_0_lt_0; exact W0). clearbody w.
  destruct (starts_with_minus (c :: t)) eqn:M.
  - cbn [starts_with_minus] in M. apply N.eqb_eq in M. unfold c_minus in M. subst c.
    destruct t as [|c' t'].
    { unfold from_str_radix, strip_minus in E. change (45 =? c_minus) with true in E. cbn iota in E.
      apply N.eqb_neq in W0. rewrite W0 in E. cbn [bind] in E. injection E as <- _. exact Same. }
    rewrite (from_str_neg Debug (c' :: t') r (words old) w Pw ltac:(discriminate)) in E.
    destruct (parse_magnitude Debug (c' :: t') r (words old) w) as [[o e']|] eqn:P; cbn [bind] in E; [|discriminate].
    rewrite len_cons in Hl.
    destruct (magnitude_any (c' :: t') r (words old) w o e' Pw Hw32 ltac:(discriminate) ltac:(clear - Hl; lia) HW Lo ltac:(rewrite Hv; exact Hx) P)
      as [(k & -> & K)|(-> & W1 & L1 & _)].
    + cbn [bind] in E. injection E as <- <-. destruct He as [He|He]; [|discriminate]. rewrite (K He). exact Same.
    + destruct (negate_any Debug o w Pw W1 ltac:(congruence)) as (l & E1 & E2 & E3 & E4).
      rewrite E1 in E. cbn [bind] in E. injection E as <- <-. split; [|reflexivity].
      eapply (is_bv_intro w l); eauto.
  - rewrite (from_str_pos Debug (c :: t) r (words old) w Pw ltac:(discriminate) M) in E.
    destruct (parse_magnitude Debug (c :: t) r (words old) w) as [[o e']|] eqn:P; cbn [bind] in E; [|discriminate].
    destruct (magnitude_any (c :: t) r (words old) w o e' Pw Hw32 ltac:(discriminate) Hl HW Lo ltac:(rewrite Hv; exact Hx) P)
      as [(k & -> & K)|(-> & W1 & L1 & d & n & Hd & Hs & Hn & B)].
    + injection E as <- <-. destruct He as [He|He]; [|discriminate]. rewrite (K He). exact Same.
    + injection E as <- <-. split; [|reflexivity].
      assert (T : signed_text r (c :: t) = Some (Z.of_N n)).
      { destruct Hs as [->| ->]; [apply plain_text|apply plus_text]; auto. }
      apply Hf in T. eapply (is_bv_intro w o); eauto; [congruence|]. apply B.
      change 2%Z with (Z.of_N 2) in T. rewrite <- N2Z.inj_pow in T. now apply N2Z.inj_lt.
Qed.

(** ** Single calls *)

Lemma some_inv (r : res bv) v : (let* x := r in Ok (Some x)) = Ok (Some v) -> r = Ok v.
Proof. destruct r; cbn [bind]; congruence. Qed.
Lemma text_inv (r : res parsed) v : (let* p := r in Ok (parsed_value p)) = Ok (Some v) -> r = Ok (Parsed v).
Proof. destruct r as [[x|k]|]; cbn [bind parsed_value]; congruence. Qed.
Lemma yields_wf r w n v : yields r w n -> r = Ok v -> wf v.
Proof. intros (u & E & H) E'. assert (u = v) by congruence. subst. apply H. Qed.
Lemma panics_not {A} (r : res A) v : panics r -> r = Ok v -> False.
Proof. intros (p & E) E'. congruence. Qed.
Lemma wf_is a : wf a -> is_bv a (width a) (uval a).
Proof. intros H. split; [exact H|split; reflexivity]. Qed.
Lemma wf_0 a : wf a -> width a = 0 -> a = bv_zero 0.
Proof. intros H E. apply wf_is in H. rewrite E in H. now apply zero_width_only in H. Qed.
Lemma zero_bv_0 : is_bv (bv_zero 0) 0 0.
Proof. apply zero_is_bv. reflexivity. Qed.

Ltac by_fact E := match type of E with ?r = _ => match goal with
  | P : panics r |- _ => exfalso; exact (panics_not _ _ P E)
  | Y : yields r _ _ |- _ => exact (yields_wf _ _ _ _ Y E)
  end end.

Lemma bin_closed op a b v : wf a -> wf b -> harmless (KBin op a b) -> run_bin op Debug a b = Ok v -> wf v.
Proof.
  intros Ha Hb Hh E.
  assert (Ia := wf_is a Ha). assert (Ib := wf_is b Hb).
  destruct (N.eq_dec (width a) (width b)) as [W|W].
  - destruct (N.eq_dec (width a) 0) as [W0|W0].
    + rewrite W0 in W. symmetry in W. assert (Ea := wf_0 a Ha W0). assert (Eb := wf_0 b Hb W). subst a b.
      destruct (zero_width_panics Debug _ zero_bv_0) as ((P1 & P2 & P3) & (P4 & P5 & P6) & _).
      destruct (zero_width_works Debug _ _ zero_bv_0 zero_bv_0) as (_ & _ & _ & (Y1 & Y2 & Y3) & _).
      destruct op; cbn [run_bin] in E; try by_fact E.
      destruct (zero_width_concat Debug _ _ 0 0 zero_bv_0 zero_bv_0) as [_ C].
      destruct (C ltac:(lia)) as [C1 _]. exfalso. exact (panics_not _ _ C1 E).
    + assert (Hw : 0 < width a) by lia.
      assert (Ib' := Ib). rewrite <- W in Ib'. destruct op; cbn [run_bin] in E.
      * exact (yields_wf _ _ _ _ (add_ok Debug a b _ _ _ Hw Ia Ib') E).
      * exact (yields_wf _ _ _ _ (sub_ok Debug a b _ _ _ Hw Ia Ib') E).
      * destruct (mul_cases Debug a b _ _ _ Hw Ia Ib') as [M1 M2].
        destruct (N.le_gt_cases (width a) 64) as [L|L].
        -- exact (yields_wf _ _ _ _ (M1 L) E).
        -- exfalso. exact (panics_not _ _ (M2 L) E).
      * destruct (bitwise_bits Debug a b _ _ _ Hw Ia Ib') as ((u & n & E1 & I1 & _) & _).
        assert (u = v) by congruence. subst. apply I1.
      * destruct (bitwise_bits Debug a b _ _ _ Hw Ia Ib') as (_ & (u & n & E1 & I1 & _) & _).
        assert (u = v) by congruence. subst. apply I1.
      * destruct (bitwise_bits Debug a b _ _ _ Hw Ia Ib') as (_ & _ & (u & n & E1 & I1 & _) & _).
        assert (u = v) by congruence. subst. apply I1.
      * cbn [harmless] in Hh.
        exact (yields_wf _ _ _ _ (shift_left_good Debug a b _ _ _ Hw Ia Ib' Hh) E).
      * exact (yields_wf _ _ _ _ (proj1 (shift_right_cases Debug a b _ _ _ Hw Ia Ib')) E).
      * destruct (asr_signed Debug a b _ _ _ Ia Ib' Hw) as (u & n & E1 & I1 & _).
        assert (u = v) by congruence. subst. apply I1.
      * destruct (N.lt_ge_cases (width a + width b) (2 ^ 32)) as [L|L].
        -- exact (yields_wf _ _ _ _ (concat_any Debug a b _ _ _ _ Ia Ib ltac:(left; split; congruence) L) E).
        -- exfalso. exact (panics_not _ _ (proj1 (overflow_debug a b 0) L) E).
  - destruct (mismatch_debug a b W) as ((P1 & P2 & P3) & (P4 & P5 & P6) & (P7 & P8 & P9) & _).
    destruct op; cbn [run_bin] in E; try by_fact E.
    destruct (N.lt_ge_cases (width a + width b) (2 ^ 32)) as [L|L].
    + destruct (N.eq_dec (width a) 0) as [Z|Z]; [|destruct (N.eq_dec (width b) 0) as [Z'|Z']].
      * assert (Ea := wf_0 a Ha Z). subst a.
        destruct (zero_width_concat Debug _ _ _ _ zero_bv_0 Ib) as [C1 C2].
        destruct (N.lt_ge_cases 64 (width b)) as [G|G].
        -- destruct (C1 G) as [_ C]. assert (v = b) by congruence. now subst.
        -- exfalso. exact (panics_not _ _ (proj2 (C2 G)) E).
      * assert (Eb := wf_0 b Hb Z'). subst b.
        destruct (zero_width_concat Debug _ _ _ _ zero_bv_0 Ia) as [C1 C2].
        destruct (N.lt_ge_cases 64 (width a)) as [G|G].
        -- destruct (C1 G) as [C _]. assert (v = a) by congruence. now subst.
        -- exfalso. exact (panics_not _ _ (proj1 (C2 G)) E).
      * refine (yields_wf _ _ _ _ (concat_any Debug a b _ _ _ _ Ia Ib _ L) E). left. lia.
    + exfalso. exact (panics_not _ _ (proj1 (overflow_debug a b 0) L) E).
Qed.

Lemma clear_zero a : wf a -> bv_clear a = bv_zero (width a).
Proof.
  intros H. apply wf_is in H. apply is_bv_inv in H as (_ & _ & L & _).
  unfold bv_clear, bv_zero, value_vec_zeros. f_equal. rewrite div_ceil_eq, <- L.
  unfold len. rewrite Nat2N.id. clear. induction (words a); cbn; congruence.
Qed.

Lemma u64_closed n w v : n < 2 ^ 64 -> w < 2 ^ 32 -> bv_from_u64 Debug n w = Ok v -> wf v.
Proof.
  intros Hn Hw E. destruct (N.eq_dec w 0) as [->|W].
  - discriminate.
  - destruct (from_u64_cases n w ltac:(lia) Hw Hn) as (_ & C1 & C2).
    destruct (N.lt_ge_cases n (2 ^ w)) as [L|L].
    + exact (yields_wf _ _ _ _ (C1 L) E).
    + exfalso. exact (panics_not _ _ (C2 L) E).
Qed.

Lemma i64_closed z w v : fits 64 z -> w < 2 ^ 32 -> bv_from_i64 Debug z w = Ok v -> wf v.
Proof.
  intros Hn Hw E. destruct (N.eq_dec w 0) as [->|W].
  - exfalso. unfold bv_from_i64, bv_assign_from_i64 in E.
    change (len (words (bv_clear (bv_zero 0))) =? 1) with false in E.
    change (words (bv_clear (bv_zero 0))) with (@nil N) in E. change (width (bv_zero 0)) with 0 in E.
    unfold ar_sign_extend in E. destruct (ar_is_neg Debug [i64_as_u64 z] 64) as [[]|]; discriminate.
  - destruct (from_i64_cases z w ltac:(lia) Hw Hn) as (_ & C1 & C2).
    assert (D : fits w z \/ ~ fits w z) by (unfold fits; lia).
    destruct D as [L|L].
    + exact (yields_wf _ _ _ _ (C1 L) E).
    + exfalso. exact (panics_not _ _ (C2 L) E).
Qed.

Lemma big_uint_closed n w v : w < 2 ^ 32 -> bv_from_big_uint Debug n w = Ok v -> wf v.
Proof. intros H E. exact (yields_wf _ _ _ _ (from_big_uint_ok Debug n w H) E). Qed.
Lemma big_int_closed z w v : w < 2 ^ 32 -> bv_from_big_int Debug z w = Ok v -> wf v.
Proof.
  intros H E. destruct (N.eq_dec w 0) as [->|W].
  - unfold bv_from_big_int, from_big_int, iter_to_word in E. cbn [N.eqb bind value_vec_zeros] in E.
    destruct (z <? 0)%Z; [discriminate|]. cbn [bind] in E. injection E as <-. apply zero_bv_0.
  - exact (yields_wf _ _ _ _ (from_big_int_ok Debug z w ltac:(lia) H) E).
Qed.

Lemma u32_mul_range a b r : u32_mul Debug a b = Ok r -> r < 2 ^ 32.
Proof. unfold u32_mul. rewrite B32_eq. destruct (a * b <? 2 ^ 32) eqn:L; [|discriminate]. intros [= <-]. now apply N.ltb_lt. Qed.
Lemma u32_add_range a b r : u32_add Debug a b = Ok r -> r < 2 ^ 32.
Proof. unfold u32_add. rewrite B32_eq. destruct (a + b <? 2 ^ 32) eqn:L; [|discriminate]. intros [= <-]. now apply N.ltb_lt. Qed.
Lemma u32_sub_range a b r : a < 2 ^ 32 -> u32_sub Debug a b = Ok r -> r < 2 ^ 32.
Proof. unfold u32_sub. destruct (b <=? a); [|discriminate]. intros H [= <-]. eapply N.le_lt_trans; [apply N.le_sub_l|exact H]. Qed.

Lemma count_uint_range n w : count_big_uint_bits Debug n = Ok w -> w < 2 ^ 32.
Proof.
  unfold count_big_uint_bits. destruct (_ =? 0). { intros [= <-]. reflexivity. }
  destruct (unwrap _); cbn [bind]; [|discriminate].
  destruct (u32_mul _ _ _) eqn:M; cbn [bind]; [|discriminate]. apply u32_mul_range in M.
  now apply u32_sub_range.
Qed.
Lemma count_int_range z w : count_big_int_bits Debug z = Ok w -> w < 2 ^ 32.
Proof.
  unfold count_big_int_bits. destruct (_ =? 0). { intros [= <-]. reflexivity. }
  destruct (unwrap _); cbn [bind]; [|discriminate].
  destruct (u32_mul _ _ _) eqn:M; cbn [bind]; [|discriminate].
  destruct (u32_sub _ _ _); cbn [bind]; [|discriminate]. apply u32_add_range.
Qed.

Lemma from_str_closed s r w v : len s < 2 ^ 30 -> w < 2 ^ 32 -> fits_text s r w ->
  bv_from_str_radix Debug s r w = Ok (Parsed v) -> wf v.
Proof.
  intros Hl Hw Hf E. unfold bv_from_str_radix in E.
  destruct (bv_assign_from_str_radix Debug (bv_zero w) s r) as [[u [k|]]|] eqn:P; cbn [bind] in E;
    try discriminate.
  injection E as ->. apply parse_closed in P; auto; [apply P|]. apply (zero_is_bv w Hw).
Qed.

Lemma digits_lt s r : signed_text r s <> None -> len (without_sign s) <= len s.
Proof.
  intros _. destruct s as [|c t]; cbn [without_sign]; [apply N.le_refl|].
  destruct ((c =? 45) || (c =? 43)); rewrite ?len_cons; lia.
Qed.

Lemma width_text b s w : (2 ^ b = 2 /\ b = 1) \/ (2 ^ b = 16 /\ b = 4) -> len s < 2 ^ 30 ->
  determine_width_from_str_radix Debug s (2 ^ b) = Ok w -> w < 2 ^ 32 /\ fits_text s (2 ^ b) w.
Proof.
  intros Hb Hl E. unfold determine_width_from_str_radix in E.
  destruct (debug_assert _ _); cbn [bind] in E; [|discriminate].
  destruct (if 2 ^ b =? 2 then _ else _) as [bw|] eqn:B; cbn [bind] in E; [|discriminate].
  assert (R := u32_add_range _ _ _ E). split; [exact R|]. intros z Hz.
  assert (L1 : len (without_sign s) < 2 ^ 32).
  { eapply N.le_lt_trans; [apply (digits_lt s (2 ^ b)); congruence|]. eapply N.lt_trans; [exact Hl|reflexivity]. }
  assert (ND := num_digits_ok _ _ _ Hz L1).
  assert (T := text_lt (2 ^ b) b s z eq_refl Hz).
  assert (Bw : b * len (without_sign s) <= bw).
  { rewrite ND in B. destruct Hb as [[E1 E2]|[E1 E2]]; rewrite E1 in B; subst b.
    - injection B as <-. lia.
    - change (16 =? 2) with false in B. change (16 =? 16) with true in B. cbn iota in B.
      unfold u32_mul in B. destruct (_ <? _); [|discriminate]. injection B as <-. lia. }
  assert (W : bw <= w).
  { unfold u32_add in E. destruct (_ <? _); [|discriminate]. injection E as <-. apply N.le_add_r. }
  assert (P : Z.abs_N z < 2 ^ w).
  { eapply N.lt_le_trans; [exact T|]. apply pow_le. eapply N.le_trans; eauto. }
  change 2%Z with (Z.of_N 2). rewrite <- N2Z.inj_pow. clear - P. lia.
Qed.

Lemma slice_closed a msb lsb v : wf a -> bv_slice Debug a msb lsb = Ok v -> wf v.
Proof.
  intros Ha E. assert (Ia := wf_is a Ha). assert (Hw := is_bv_w _ _ _ Ia).
  destruct (N.lt_ge_cases msb lsb) as [L|L].
  { exfalso. exact (panics_not _ _ (slice_debug a msb lsb (or_intror L)) E). }
  destruct (N.lt_trichotomy msb (width a)) as [M|[M|M]].
  - exact (yields_wf _ _ _ _ (slice_ok Debug a _ _ msb lsb Ia L M) E).
  - destruct (N.lt_ge_cases (msb - lsb + 1) (2 ^ 32)) as [B|B].
    + destruct (slice_beyond Debug a _ _ msb lsb Ia L ltac:(rewrite M; apply N.le_refl) B (fun _ => M)) as [S1 S2].
      destruct (N.lt_ge_cases (msb / 64) ((width a + 63) / 64)) as [Q|Q].
      * exact (yields_wf _ _ _ _ (S1 Q) E).
      * exfalso. exact (panics_not _ _ (S2 Q) E).
    + exfalso. unfold bv_slice in E.
      destruct (debug_assert _ _); cbn [bind] in E; [|discriminate].
      destruct (debug_assert _ _); cbn [bind] in E; [|discriminate].
      rewrite u32_sub_ok in E by exact L. cbn [bind] in E. unfold u32_add in E. rewrite B32_eq in E.
      apply N.ltb_ge in B. rewrite B in E. discriminate.
  - exfalso. exact (panics_not _ _ (slice_debug a msb lsb (or_introl M)) E).
Qed.

Lemma call_closed c v : (forall a, In a (operands c) -> wf a) -> in_range c -> harmless c ->
  run Debug c = Ok (Some v) -> wf v.
Proof.
  intros Ho Hr Hh E. destruct c; cbn [run in_range operands] in *;
    try (apply some_inv in E); try (apply text_inv in E).
  - injection E as <-. apply zero_is_bv; auto.
  - destruct (N.eq_dec w 0) as [->|W]; [discriminate|].
    exact (yields_wf _ _ _ _ (ones_ok Debug w ltac:(lia) Hr) E).
  - exact (u64_closed _ _ _ (proj1 Hr) (proj2 Hr) E).
  - exact (i64_closed _ _ _ (proj1 Hr) (proj2 Hr) E).
  - destruct b; (eapply (u64_closed _ 1); [| |exact E]; reflexivity).
  - eapply (u64_closed _ 1); [| |exact E]; reflexivity.
  - eapply (u64_closed _ 1); [| |exact E]; reflexivity.
  - exact (from_str_closed _ _ _ _ (proj1 Hr) (proj2 (proj2 Hr)) Hh E).
  - unfold bv_from_bit_str in E.
    destruct (determine_width_from_str_radix Debug s 2) as [w|] eqn:D; cbn [bind] in E; [|discriminate].
    change 2 with (2 ^ 1) in D. apply width_text in D as [D1 D2]; auto.
    eapply from_str_closed; eauto.
  - unfold bv_from_hex_str in E.
    destruct (determine_width_from_str_radix Debug s 16) as [w|] eqn:D; cbn [bind] in E; [|discriminate].
    change 16 with (2 ^ 4) in D. apply width_text in D as [D1 D2]; auto.
    eapply from_str_closed; eauto.
  - destruct Hr as [H1 H2].
    destruct (N.eq_dec w 0) as [W|W].
    + exact (yields_wf _ _ _ _ (from_bytes_le_ok Debug bytes w H2 H1 (or_introl W)) E).
    + destruct (N.le_gt_cases (len bytes) (8 * ((w + 63) / 64))) as [L|L].
      * exact (yields_wf _ _ _ _ (from_bytes_le_ok Debug bytes w H2 H1 (or_intror L)) E).
      * exfalso. refine (panics_not _ _ (from_bytes_le_panics Debug bytes w _ L) E). now apply N.neq_0_lt_0.
  - eapply big_int_closed; eauto.
  - eapply big_uint_closed; eauto.
  - unfold bv_of_big_int in E. destruct (count_big_int_bits Debug z) as [w|] eqn:C; cbn [bind] in E; [|discriminate].
    apply count_int_range in C. eapply big_int_closed; eauto.
  - unfold bv_of_big_uint in E. destruct (count_big_uint_bits Debug n) as [w|] eqn:C; cbn [bind] in E; [|discriminate].
    apply count_uint_range in C. eapply big_uint_closed; eauto.
  - eapply bin_closed; eauto; apply Ho; cbn; auto.
  - assert (Ha := Ho a (or_introl eq_refl)). assert (Ia := wf_is a Ha).
    destruct (N.eq_dec (width a) 0) as [W|W].
    + exfalso. assert (Ea := wf_0 a Ha W). subst a. discriminate.
    + destruct (bitwise_bits Debug a a _ _ _ (proj1 (N.neq_0_lt_0 _) W) Ia Ia) as (_ & _ & _ & (u & n & E1 & I1 & _)).
      assert (u = v) by congruence. subst. apply I1.
  - assert (Ha := Ho a (or_introl eq_refl)). assert (Ia := wf_is a Ha).
    destruct (N.eq_dec (width a) 0) as [W|W].
    + exfalso. assert (Ea := wf_0 a Ha W). subst a. discriminate.
    + refine (yields_wf _ _ _ _ (negate_ok Debug a _ _ _ Ia) E). now apply N.neq_0_lt_0.
  - eapply slice_closed; eauto. apply Ho; cbn; auto.
  - assert (Ha := Ho a (or_introl eq_refl)). assert (Ia := wf_is a Ha).
    destruct (N.lt_ge_cases (width a + k) (2 ^ 32)) as [L|L].
    + destruct (N.eq_dec (width a) 0) as [W|W].
      * assert (Ea := wf_0 a Ha W). subst a.
        destruct (zero_width_extend Debug _ k zero_bv_0 Hr) as (Z1 & Z2 & _).
        destruct (N.lt_ge_cases 64 k) as [G|G].
        -- exact (yields_wf _ _ _ _ (Z1 G) E).
        -- exfalso. exact (panics_not _ _ (Z2 G) E).
      * refine (yields_wf _ _ _ _ (zero_extend_ok Debug a _ _ k Ia _ L) E). now apply N.neq_0_lt_0.
    + exfalso. exact (panics_not _ _ (proj1 (proj2 (overflow_debug a a k) L)) E).
  - assert (Ha := Ho a (or_introl eq_refl)). assert (Ia := wf_is a Ha).
    destruct (N.lt_ge_cases (width a + k) (2 ^ 32)) as [L|L].
    + destruct (N.eq_dec (width a) 0) as [W|W].
      * assert (Ea := wf_0 a Ha W). subst a.
        destruct (zero_width_extend Debug _ k zero_bv_0 Hr) as (_ & _ & Z2).
        exfalso. exact (panics_not _ _ Z2 E).
      * destruct (sign_extend_signed Debug a _ _ k Ia (proj1 (N.neq_0_lt_0 _) W) L) as (u & n & E1 & I1 & _).
        assert (u = v) by congruence. subst. apply I1.
    + exfalso. exact (panics_not _ _ (proj2 (proj2 (overflow_debug a a k) L)) E).
  - assert (Ha := Ho a (or_introl eq_refl)). assert (Hb := Ho b (or_intror (or_introl eq_refl))).
    destruct (N.eq_dec (width a) (width b)) as [W|W].
    + unfold bv_assign in E. destruct (debug_assert _ _); cbn [bind] in E; [|discriminate].
      destruct (debug_assert _ _); cbn [bind] in E; [|discriminate].
      destruct (assert _); cbn [bind] in E; [|discriminate]. injection E as <-.
      rewrite W. now destruct b.
    + exfalso. apply (panics_not (bv_assign Debug a b) v); [|exact E].
      destruct (mismatch_debug a b W) as (_ & _ & _ & _ & _ & _ & P). exact P.
  - assert (Ha := Ho a (or_introl eq_refl)). assert (Ia := wf_is a Ha).
    destruct (N.eq_dec (width a) 0) as [W|W].
    + exfalso. assert (Ea := wf_0 a Ha W). subst a. discriminate.
    + apply is_bv_inv in Ia as (_ & Hw & La & Wa & Va & Ba).
      destruct (mask_wres Debug (words a) (width a)) as (l & E1 & E2 & E3 & E4); auto; [now apply N.neq_0_lt_0|].
      unfold bv_mask_msb in E. rewrite E1 in E. cbn [bind] in E. injection E as <-.
      eapply (is_bv_intro (width a) l); eauto.
  - injection E as <-. assert (Ha := Ho a (or_introl eq_refl)). rewrite clear_zero by auto.
    apply zero_is_bv. apply Ha.
  - assert (Ha := Ho a (or_introl eq_refl)).
    assert (E' : bv_ones Debug (width a) = Ok v).
    { rewrite <- E. unfold bv_ones, bv_assign_ones. f_equal. rewrite <- (clear_zero a Ha).
      cbn [bv_clear width words]. f_equal. now rewrite map_map. }
    destruct (N.eq_dec (width a) 0) as [W|W]; [rewrite W in E'; discriminate|].
    refine (yields_wf _ _ _ _ (ones_ok Debug (width a) _ _) E'); [now apply N.neq_0_lt_0|apply Ha].
  - assert (Ha := Ho a (or_introl eq_refl)).
    eapply (u64_closed n (width a)); [auto|apply Ha|]. rewrite <- E. unfold bv_from_u64, bv_assign_from_u64.
    rewrite (clear_zero a Ha), clear_zero by (apply zero_is_bv; apply Ha). reflexivity.
  - assert (Ha := Ho a (or_introl eq_refl)).
    eapply (i64_closed z (width a)); [auto|apply Ha|]. rewrite <- E. unfold bv_from_i64, bv_assign_from_i64.
    rewrite (clear_zero a Ha), clear_zero by (apply zero_is_bv; apply Ha). reflexivity.
  - assert (Ha := Ho a (or_introl eq_refl)). destruct Hh as [Hf Hc]. destruct Hr as [Hl _].
    destruct (bv_assign_from_str_radix Debug a s radix) as [[u e]|] eqn:P; cbn [bind] in E; [|discriminate].
    injection E as <-. apply (parse_closed a s radix u e) in P; auto; [apply P|].
    destruct Hc as [Hc|(x & Hc)]; [auto|right; congruence].
  - assert (Ha := Ho a (or_introl eq_refl)). assert (Ia := wf_is a Ha).
    destruct (set_bit_bits a _ _ pos Ia Hh) as (u & n & E1 & I1 & _).
    assert (u = v) by congruence. subst. apply I1.
  - assert (Ha := Ho a (or_introl eq_refl)). assert (Ia := wf_is a Ha).
    destruct (N.lt_ge_cases pos (64 * ((width a + 63) / 64))) as [L|L].
    + apply is_bv_inv in Ia as (_ & H32 & Hl & HW & Hv & Hx).
      destruct (clear_bit_words (words a) pos HW) as (l & L1 & L2 & L3 & L4).
      { rewrite Hl. clear - L. dlia. }
      unfold bv_clear_bit in E. rewrite L1 in E. cbn [bind] in E. injection E as <-.
      eapply (is_bv_intro (width a) l (wv l)); auto; [congruence|]. apply lt_pow_bits. intros i Hi. rewrite L4.
      destruct (i =? pos); [auto|]. rewrite Hv. now apply (testbit_high (uval a) (width a)).
    + destruct (beyond_panics a _ _ pos Ia L) as (_ & _ & P). exfalso. exact (panics_not _ _ P E).
Qed.

Lemma made_wf v : made Debug harmless v -> wf v.
Proof. induction 1 as [c v _ IH Hr Hh E]. eapply call_closed; eauto. Qed.

(** Each exclusion is needed. *)
Lemma made_word n w : n < 2 ^ 64 -> w < 2 ^ 32 -> bv_from_u64 Debug n w = Ok (bv_of w n) -> made Debug harmless (bv_of w n).
Proof.
  intros Hn Hw E. apply (made_by Debug harmless (KFromU64 n w)); [easy|split; auto|exact I|].
  cbn [run]. rewrite E. reflexivity.
Qed.

Lemma harmful_set_bit : harmful (KSetBit (bv_of 5 1) 10).
Proof.
  split; [|split; [reflexivity|]].
  - intros a [<-|[]]. apply made_word; reflexivity.
  - exists (mkbv 5 [1025]). split; [reflexivity|]. intros (_ & _ & _ & H). vm_compute in H. discriminate.
Qed.

Lemma harmful_shift : harmful (KBin BShl (bv_of 65 2) (bv_of 65 64)).
Proof.
  split; [|split; [exact I|]].
  - intros a [<-|[<-|[]]]; apply made_word; reflexivity.
  - exists (mkbv 65 [0; 2]). split; [reflexivity|]. intros (_ & _ & _ & H). vm_compute in H. discriminate.
Qed.

Lemma harmful_parse : harmful (KFromStr [102; 102] 16 4).
Proof.
  split; [easy|]. split; [repeat split|].
  exists (mkbv 4 [255]). split; [reflexivity|]. intros (_ & _ & _ & H). vm_compute in H. discriminate.
Qed.

Lemma harmful_assign : harmful (KAssignStr (bv_zero 129) (repeat 102 16 ++ 122 :: repeat 48 31) 16)
  /\ signed_text 16 (repeat 102 16 ++ 122 :: repeat 48 31) = None.
Proof.
  split; [|vm_compute; reflexivity]. split; [|split; [split; reflexivity|]].
  - intros a [<-|[]]. apply (made_by Debug harmless (KZero 129)); [easy|reflexivity|exact I|reflexivity].
  - exists (mkbv 129 [0; 0; 2 ^ 64 - 1]). split; [vm_compute; reflexivity|].
    intros (_ & _ & _ & H). vm_compute in H. discriminate.
Qed.

(** A release build returns whatever a debug build returns. *)
Lemma run_release c : same_in_release (fun m => run m c).
Proof.
  change (le (run Debug c) (run Release c)).
  destruct c; cbn [run]; try destruct op; cbn [run_bin]; le_solve;
    try (try unfold bv_tru; try unfold bv_fals; le_solve); apply le_bit_arith_bin_fn.
Qed.

Lemma made_release_debug v :
  made Release (fun c => harmless c /\ ~ panics (run Debug c)) v -> made Debug harmless v.
Proof.
  induction 1 as [c v _ IH Hr [Hh Hp] E]. apply (made_by Debug harmless c); auto.
  destruct (run Debug c) as [r|p] eqn:D.
  - assert (R := run_release c r D). congruence.
  - destruct Hp. eexists. reflexivity.
Qed.

Lemma made_wf_release v :
  made Release (fun c => harmless c /\ ~ panics (run Debug c)) v -> wf v.
Proof. intros H. apply made_wf. now apply made_release_debug. Qed.
