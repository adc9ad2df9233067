(** * PropsArith: consequences used by the statements of C01 - C11. *)

From Coq Require Import ZifyBool ZifyNat ZifyN.
From Verif Require Import Base Arith Bv Spec PWords PArith PShift.

Ltac Zify.zify_post_hook ::= idtac.

Lemma words_of_ok k n : Words (words_of k n) /\ len (words_of k n) = N.of_nat k
  /\ wv (words_of k n) = n mod 2 ^ (64 * N.of_nat k).
Proof.
  revert n. induction k as [|k IH]; intros n; cbn [words_of].
  - split; [constructor|]. split; auto. change (64 * N.of_nat 0) with 0. rewrite N.mod_1_r. auto.
  - destruct (IH (n / 2 ^ 64)) as (W & L & V). split; [constructor; auto|].
    rewrite len_cons, wv_cons, V. split; [lia|].
    replace (64 * N.of_nat (S k)) with (64 + 64 * N.of_nat k) by lia.
    rewrite <- add_mul_mod by auto. f_equal.
    rewrite (N.div_mod n (2 ^ 64)) at 3 by auto. lia.
Qed.

(** Every number below 2^w is the value of a well-formed w-bit vector. *)
Lemma bv_of_is_bv w n : w < 2 ^ 32 -> n < 2 ^ w -> is_bv (bv_of w n) w n.
Proof.
  intros Hw Hn. destruct (words_of_ok (N.to_nat ((w + 63) / 64)) n) as (W & L & V).
  rewrite N2Nat.id in L, V. apply is_bv_intro; auto. rewrite V. apply N.mod_small.
  eapply N.lt_le_trans; [exact Hn|]. apply pow_le. dlia.
Qed.

Lemma yields_eq r w n n' : yields r w n -> n = n' -> yields r w n'.
Proof. intros H <-. auto. Qed.

Lemma yields_is_bv r w n v : yields r w n -> is_bv v w n -> r = Ok v.
Proof. intros (u & -> & Hu) Hv. f_equal. eapply is_bv_unique; eauto. Qed.

Lemma is_bv_lt v w n : is_bv v w n -> n < 2 ^ w.
Proof. intros H. apply is_bv_inv in H. tauto. Qed.
Lemma is_bv_w v w n : is_bv v w n -> w < 2 ^ 32.
Proof. intros H. apply is_bv_inv in H. tauto. Qed.

Lemma Zpow k : (2 ^ Z.of_N k)%Z = Z.of_N (2 ^ k).
Proof. rewrite N2Z.inj_pow. auto. Qed.

Lemma wrap_mod w n : wrap w (Z.of_N n) = n mod 2 ^ w.
Proof.
  unfold wrap. rewrite Zpow, <- N2Z.inj_mod. apply N2Z.id.
Qed.
Lemma wrap_spec w z : exists k, z = (Z.of_N (wrap w z) + k * Z.of_N (2 ^ w))%Z.
Proof.
  exists (z / Z.of_N (2 ^ w))%Z. unfold wrap. rewrite Zpow. pose proof (pow_pos w).
  rewrite Z2N.id by (apply Z.mod_pos_bound; lia).
  rewrite (Z.div_mod z (Z.of_N (2 ^ w))) at 1 by lia. lia.
Qed.
Lemma wrap_eq w n z k : n < 2 ^ w -> z = (Z.of_N n + k * Z.of_N (2 ^ w))%Z -> wrap w z = n.
Proof.
  intros Hn ->. unfold wrap. rewrite Zpow, Z.mod_add by lia.
  rewrite Z.mod_small by lia. lia.
Qed.

Lemma sub_after_add m a b w x y : 0 < w -> is_bv a w x -> is_bv b w y ->
  exists s, bv_add m a b = Ok s /\ bv_sub m s b = Ok a.
Proof.
  intros Hw Ha Hb. destruct (add_ok m a b w x y Hw Ha Hb) as (s & Es & Hs).
  exists s. split; auto. pose proof (sub_ok m s b w _ y Hw Hs Hb) as Hr.
  eapply yields_is_bv; [|exact Ha]. eapply yields_eq; [exact Hr|].
  pose proof (is_bv_lt _ _ _ Ha) as Hx.
  apply wrap_eq with (k := (- Z.of_N ((x + y) / 2 ^ w))%Z); auto.
  pose proof (N.div_mod (x + y) (2 ^ w)). pose proof (pow_pos w). lia.
Qed.

Lemma negate_twice m a w x : 0 < w -> is_bv a w x ->
  exists n, bv_negate m a = Ok n /\ bv_negate m n = Ok a.
Proof.
  intros Hw Ha. destruct (negate_ok m a w x Hw Ha) as (s & Es & Hs).
  exists s. split; auto. pose proof (negate_ok m s w _ Hw Hs) as Hr.
  eapply yields_is_bv; [|exact Ha]. eapply yields_eq; [exact Hr|].
  pose proof (is_bv_lt _ _ _ Ha) as Hx.
  destruct (wrap_spec w (- Z.of_N x)) as (k & Hk).
  apply wrap_eq with (k := k); auto. lia.
Qed.

Lemma add_negated m a w x : 0 < w -> is_bv a w x ->
  exists n, bv_negate m a = Ok n /\ yields (bv_add m a n) w 0.
Proof.
  intros Hw Ha. destruct (negate_ok m a w x Hw Ha) as (s & Es & Hs).
  exists s. split; auto. eapply yields_eq; [exact (add_ok m a s w _ _ Hw Ha Hs)|].
  destruct (wrap_spec w (- Z.of_N x)) as (k & Hk).
  rewrite <- wrap_mod. apply wrap_eq with (k := (-k)%Z); [apply pow_pos|].
  rewrite N2Z.inj_add. lia.
Qed.

(** ** Bitwise operations, per bit *)

Lemma testbit_lt w n i : n < 2 ^ w -> w <= i -> N.testbit n i = false.
Proof. intros H Hi. apply testbit_high with (k := w); auto. Qed.

Lemma yields_bits r w n f : yields r w n -> (forall i, i < w -> N.testbit n i = f i) ->
  bits_of r w f.
Proof.
  intros (v & Hr & Hv) Hf. exists v, n. repeat split; auto; try apply Hv.
  intros i Hi. eapply testbit_lt; eauto. eapply is_bv_lt; eauto.
Qed.

(** ** shift_left *)

Lemma shift_left_low m a b w x y : 0 < w -> is_bv a w x -> is_bv b w y ->
  exists v, bv_shift_left m a b = Ok v /\ width v = w
            /\ uval v mod 2 ^ w = (x * 2 ^ y) mod 2 ^ w.
Proof.
  intros Hw Ha Hb. destruct (shift_left_raw m a b w x y Ha Hb Hw) as (l & -> & L & W & V).
  eexists. split; [reflexivity|]. split; auto. unfold uval. cbn [words]. rewrite V.
  destruct (N.leb_spec w y) as [E|E].
  - rewrite N.mod_0_l by auto. rewrite (pow_split w y) by auto.
    rewrite (N.mul_comm (2 ^ w)), N.mul_assoc. rewrite N.mod_mul; auto.
  - destruct (y mod 64 =? 0).
    + apply mod_mod_le. dlia.
    + apply N.mod_mod. auto.
Qed.

Lemma shift_left_exact m a b w x y : 0 < w -> is_bv a w x -> is_bv b w y ->
  (yields (bv_shift_left m a b) w ((x * 2 ^ y) mod 2 ^ w)
   <-> (w <= y \/ y mod 64 <> 0 \/ (x * 2 ^ y) mod 2 ^ (64 * ((w + 63) / 64)) < 2 ^ w)).
Proof.
  intros Hw Ha Hb. destruct (shift_left_raw m a b w x y Ha Hb Hw) as (l & E & L & W & V).
  pose proof (is_bv_w _ _ _ Ha) as Hw32.
  assert (P : (x * 2 ^ y) mod 2 ^ w = wv l <-> yields (bv_shift_left m a b) w ((x * 2 ^ y) mod 2 ^ w)).
  { split.
    - intros H. exists (mkbv w l). split; auto. apply is_bv_intro; auto.
    - intros (v & Hv & Hb'). rewrite E in Hv. injection Hv as <-.
      apply is_bv_inv in Hb' as (_ & _ & _ & _ & Hv & _). cbn [words] in Hv. auto. }
  rewrite <- P, V. destruct (N.leb_spec w y) as [E1|E1].
  - split; auto. intros _. rewrite (pow_split w y) by auto.
    rewrite (N.mul_comm (2 ^ w)), N.mul_assoc. rewrite N.mod_mul; auto.
  - destruct (N.eqb_spec (y mod 64) 0) as [E2|E2].
    + assert (Hc : w <= 64 * ((w + 63) / 64)) by dlia.
      rewrite <- (mod_mod_le (x * 2 ^ y) (64 * ((w + 63) / 64)) w Hc).
      generalize ((x * 2 ^ y) mod 2 ^ (64 * ((w + 63) / 64))). intros z. split.
      * intros <-. right. right. auto.
      * intros [H|[H|H]]; [clear - E1 H; lia|clear - E2 H; lia|]. apply N.mod_small. auto.
    + split; auto.
Qed.

Lemma shift_left_good m a b w x y : 0 < w -> is_bv a w x -> is_bv b w y ->
  w mod 64 = 0 \/ y mod 64 <> 0 \/ y = 0 \/ w <= y ->
  yields (bv_shift_left m a b) w ((x * 2 ^ y) mod 2 ^ w).
Proof.
  intros Hw Ha Hb H. apply (shift_left_exact m a b w x y Hw Ha Hb).
  destruct H as [H|[H|[H|H]]]; auto; right; right.
  - replace (64 * ((w + 63) / 64)) with w by dlia. auto.
  - subst y. rewrite N.pow_0_r, N.mul_1_r. pose proof (is_bv_lt _ _ _ Ha).
    eapply N.le_lt_trans; [apply N.mod_le|]; auto.
Qed.

(** ** slice and concat *)

Lemma slice_full m a w x : 0 < w -> is_bv a w x -> bv_slice m a (w - 1) 0 = Ok a.
Proof.
  intros Hw Ha. pose proof (slice_ok m a w x (w - 1) 0 Ha) as H.
  replace (w - 1 - 0 + 1) with w in H by lia.
  eapply yields_is_bv; [|exact Ha]. eapply yields_eq; [apply H; lia|].
  rewrite N.pow_0_r, N.div_1_r. apply N.mod_small. eapply is_bv_lt; eauto.
Qed.

Lemma slice_bits m a w x msb lsb : is_bv a w x -> lsb <= msb -> msb < w ->
  bits_of (bv_slice m a msb lsb) (msb - lsb + 1) (fun i => N.testbit x (lsb + i)).
Proof.
  intros Ha H1 H2. eapply yields_bits; [eapply slice_ok; eauto|].
  intros i Hi. rewrite N.mod_pow2_bits_low, N.div_pow2_bits by auto. f_equal. lia.
Qed.

Lemma concat_apart m a b wa wb x y : is_bv a wa x -> is_bv b wb y -> 0 < wa -> 0 < wb ->
  wa + wb < 2 ^ 32 ->
  exists c, bv_concat m a b = Ok c
    /\ bv_slice m c (wa + wb - 1) wb = Ok a /\ bv_slice m c (wb - 1) 0 = Ok b.
Proof.
  intros Ha Hb Hwa Hwb Hw. destruct (concat_ok m a b wa wb x y) as (c & Ec & Hc); auto.
  pose proof (is_bv_lt _ _ _ Ha) as Hx. pose proof (is_bv_lt _ _ _ Hb) as Hy.
  exists c. split; auto. split.
  - pose proof (slice_ok m c _ _ (wa + wb - 1) wb Hc) as H.
    replace (wa + wb - 1 - wb + 1) with wa in H by lia.
    eapply yields_is_bv; [|exact Ha]. eapply yields_eq; [apply H; lia|].
    rewrite N.div_add_l, (N.div_small y), N.add_0_r by auto. apply N.mod_small. auto.
  - pose proof (slice_ok m c _ _ (wb - 1) 0 Hc) as H.
    replace (wb - 1 - 0 + 1) with wb in H by lia.
    eapply yields_is_bv; [|exact Hb]. eapply yields_eq; [apply H; lia|].
    rewrite N.pow_0_r, N.div_1_r. rewrite N.add_comm, N.mod_add by auto.
    apply N.mod_small. auto.
Qed.

Lemma concat_assoc m a b c wa wb wc x y z :
  is_bv a wa x -> is_bv b wb y -> is_bv c wc z -> 0 < wa -> 0 < wb -> 0 < wc ->
  wa + wb + wc < 2 ^ 32 ->
  exists ab bc r, bv_concat m a b = Ok ab /\ bv_concat m b c = Ok bc
    /\ bv_concat m ab c = Ok r /\ bv_concat m a bc = Ok r.
Proof.
  intros Ha Hb Hc Hwa Hwb Hwc Hw.
  destruct (concat_ok m a b wa wb x y) as (ab & Eab & Hab); auto; [lia|].
  destruct (concat_ok m b c wb wc y z) as (bc & Ebc & Hbc); auto; [lia|].
  destruct (concat_ok m ab c _ wc _ z Hab Hc) as (r & Er & Hr); auto; [lia|].
  exists ab, bc, r. repeat split; auto.
  pose proof (concat_ok m a bc wa _ x _ Ha Hbc) as H.
  eapply yields_is_bv; [apply H; lia|].
  replace (wa + (wb + wc)) with (wa + wb + wc) by lia.
  replace (x * 2 ^ (wb + wc) + (y * 2 ^ wc + z)) with ((x * 2 ^ wb + y) * 2 ^ wc + z); auto.
  rewrite N.pow_add_r. lia.
Qed.

(** ** signed values *)

Lemma signed_wrap w ow x : 0 < w -> w <= ow -> x < 2 ^ w ->
  signed ow (wrap ow (signed w x)) = signed w x.
Proof.
  intros Hw Ho Hx. rewrite <- sign_ext_spec by auto.
  unfold signed. rewrite !Zpow.
  pose proof (pow_S (w - 1)) as P. replace (w - 1 + 1) with w in P by lia.
  pose proof (pow_S (ow - 1)) as P'. replace (ow - 1 + 1) with ow in P' by lia.
  assert (L : 2 ^ (w - 1) <= 2 ^ (ow - 1)) by (apply pow_le; lia).
  pose proof (pow_pos (w - 1)).
  destruct (N.leb_spec (2 ^ (w - 1)) x) as [E|E].
  - replace (x <? 2 ^ (w - 1)) with false by lia.
    replace (x + (2 ^ ow - 2 ^ w) <? 2 ^ (ow - 1)) with false by lia. lia.
  - replace (x <? 2 ^ (w - 1)) with true by lia.
    replace (x <? 2 ^ (ow - 1)) with true by lia. auto.
Qed.

Lemma signed_range w x : 0 < w -> x < 2 ^ w ->
  (- 2 ^ (Z.of_N w - 1) <= signed w x < 2 ^ (Z.of_N w - 1))%Z.
Proof.
  intros Hw Hx. unfold signed. replace (Z.of_N w - 1)%Z with (Z.of_N (w - 1)) by lia.
  rewrite !Zpow. pose proof (pow_S (w - 1)) as P. replace (w - 1 + 1) with w in P by lia.
  destruct (N.ltb_spec x (2 ^ (w - 1))); lia.
Qed.

Lemma signed_of_wrap w z : 0 < w -> (- 2 ^ (Z.of_N w - 1) <= z < 2 ^ (Z.of_N w - 1))%Z ->
  signed w (wrap w z) = z.
Proof.
  intros Hw Hz. unfold signed, wrap.
  replace (Z.of_N w - 1)%Z with (Z.of_N (w - 1)) in Hz by lia.
  rewrite !Zpow in *. pose proof (pow_S (w - 1)) as P. replace (w - 1 + 1) with w in P by lia.
  pose proof (pow_pos (w - 1)).
  destruct (Z.ltb_spec z 0).
  - rewrite <- (Z_mod_plus_full z 1), Z.mod_small by lia.
    destruct (N.ltb_spec (Z.to_N (z + 1 * Z.of_N (2 ^ w))) (2 ^ (w - 1))); lia.
  - rewrite Z.mod_small by lia. destruct (N.ltb_spec (Z.to_N z) (2 ^ (w - 1))); lia.
Qed.

Lemma wrap_signed w x : x < 2 ^ w -> wrap w (signed w x) = x.
Proof.
  intros Hx. unfold signed. destruct (x <? 2 ^ (w - 1)).
  - apply wrap_eq with (k := 0%Z); auto. lia.
  - apply wrap_eq with (k := (-1)%Z); auto. rewrite Zpow. lia.
Qed.

Lemma signed_inj w x y : x < 2 ^ w -> y < 2 ^ w -> signed w x = signed w y -> x = y.
Proof. intros Hx Hy E. rewrite <- (wrap_signed w x), <- (wrap_signed w y), E; auto. Qed.

Lemma sign_extend_signed m a w x by_ : is_bv a w x -> 0 < w -> w + by_ < 2 ^ 32 ->
  exists v n, bv_sign_extend m a by_ = Ok v /\ is_bv v (w + by_) n
              /\ signed (w + by_) n = signed w x.
Proof.
  intros Ha Hw Ho. destruct (sign_extend_ok m a w x by_ Ha Hw Ho) as (v & E & Hv).
  exists v, (wrap (w + by_) (signed w x)). repeat split; auto; try apply Hv.
  apply signed_wrap; auto; [lia|]. eapply is_bv_lt; eauto.
Qed.

Lemma asr_signed m a b w x y : is_bv a w x -> is_bv b w y -> 0 < w ->
  exists v n, bv_arithmetic_shift_right m a b = Ok v /\ is_bv v w n
              /\ signed w n = (signed w x / 2 ^ Z.of_N y)%Z.
Proof.
  intros Ha Hb Hw. destruct (arithmetic_shift_right_ok m a b w x y Ha Hb Hw) as (v & E & Hv).
  exists v, (wrap w (signed w x / 2 ^ Z.of_N y)). repeat split; auto; try apply Hv.
  apply signed_of_wrap; auto. pose proof (signed_range w x Hw (is_bv_lt _ _ _ Ha)) as R.
  assert (Q : (0 < 2 ^ Z.of_N y)%Z) by (apply Z.pow_pos_nonneg; lia).
  revert R Q. generalize (2 ^ (Z.of_N w - 1))%Z (2 ^ Z.of_N y)%Z (signed w x). intros A B s R Q.
  assert (0 <= A)%Z by lia. split.
  - apply Z.div_le_lower_bound; nia.
  - apply Z.div_lt_upper_bound; nia.
Qed.

Lemma mul_cases m a b w x y : 0 < w -> is_bv a w x -> is_bv b w y ->
  (w <= 64 -> yields (bv_mul m a b) w ((x * y) mod 2 ^ w))
  /\ (64 < w -> panics (bv_mul m a b)).
Proof.
  intros Hw Ha Hb. split; intros H.
  - apply mul_ok; auto.
  - exists PTodo. eapply mul_wide_panics; eauto.
Qed.

Lemma mul_refuted : exists m a b w x y, 0 < w /\ is_bv a w x /\ is_bv b w y
  /\ ~ yields (bv_mul m a b) w ((x * y) mod 2 ^ w).
Proof.
  assert (H : is_bv (bv_of 65 1) 65 1) by (apply bv_of_is_bv; reflexivity).
  exists Release, (bv_of 65 1), (bv_of 65 1), 65, 1, 1. split; [reflexivity|].
  split; auto. split; auto. intros (v & E & _). vm_compute in E. discriminate.
Qed.

Lemma bitwise_bits m a b w x y : 0 < w -> is_bv a w x -> is_bv b w y ->
  bits_of (bv_and m a b) w (fun i => N.testbit x i && N.testbit y i)
  /\ bits_of (bv_or m a b) w (fun i => N.testbit x i || N.testbit y i)
  /\ bits_of (bv_xor m a b) w (fun i => xorb (N.testbit x i) (N.testbit y i))
  /\ bits_of (bv_not m a) w (fun i => negb (N.testbit x i)).
Proof.
  intros Hw Ha Hb. repeat split.
  - eapply yields_bits; [apply and_ok; eauto|]. intros; apply N.land_spec.
  - eapply yields_bits; [apply or_ok; eauto|]. intros; apply N.lor_spec.
  - eapply yields_bits; [apply xor_ok; eauto|]. intros; apply N.lxor_spec.
  - eapply yields_bits; [apply not_ok; eauto|]. intros; apply not_bits; auto.
    eapply is_bv_lt; eauto.
Qed.

Lemma shift_left_refuted : exists m a b w x y, 0 < w /\ is_bv a w x /\ is_bv b w y
  /\ ~ yields (bv_shift_left m a b) w ((x * 2 ^ y) mod 2 ^ w).
Proof.
  assert (Ha : is_bv (bv_of 65 2) 65 2) by (apply bv_of_is_bv; reflexivity).
  assert (Hb : is_bv (bv_of 65 64) 65 64) by (apply bv_of_is_bv; reflexivity).
  exists Release, (bv_of 65 2), (bv_of 65 64), 65, 2, 64. split; [reflexivity|].
  split; auto. split; auto. rewrite (shift_left_exact Release _ _ 65 2 64 eq_refl Ha Hb).
  intros [H|[H|H]]; vm_compute in H; congruence.
Qed.

Lemma shift_right_cases m a b w x y : 0 < w -> is_bv a w x -> is_bv b w y ->
  yields (bv_shift_right m a b) w (x / 2 ^ y)
  /\ (w <= y -> yields (bv_shift_right m a b) w 0).
Proof.
  intros Hw Ha Hb. pose proof (shift_right_ok m a b w x y Ha Hb Hw) as H.
  split; auto. intros Hy. eapply yields_eq; [exact H|]. apply N.div_small.
  eapply N.lt_le_trans; [eapply is_bv_lt; eauto|]. apply PWords.pow_le. auto.
Qed.

Lemma asr_far m a b w x y : 0 < w -> is_bv a w x -> is_bv b w y -> w <= y ->
  yields (bv_arithmetic_shift_right m a b) w (if 2 ^ (w - 1) <=? x then 2 ^ w - 1 else 0).
Proof.
  intros Hw Ha Hb Hy. pose proof (is_bv_lt _ _ _ Ha) as Hx.
  eapply yields_eq; [exact (arithmetic_shift_right_ok m a b w x y Ha Hb Hw)|].
  rewrite asr_spec by auto. replace (y <? w) with false by lia.
  destruct (2 ^ (w - 1) <=? x); auto. apply N.div_small.
  eapply N.lt_le_trans; [exact Hx|]. apply PWords.pow_le. auto.
Qed.
