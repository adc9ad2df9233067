(** * PView: lemmas behind C68 and C69. *)

From Coq Require Import ZifyBool ZifyNat ZifyN.
From Verif Require Import Base Arith Strings Bv Spec TextSpec ViewSpec PWords PArith PShift PropsArith PConv
  PText PParse PropsText PRegister PMisc PCompare PIo.
Ltac Zify.zify_post_hook ::= idtac.

(** ** texts *)

Definition ch (b : bool) : N := if b then 49 else 48.

(** bits [k-1 .. 0], most significant first *)
Fixpoint chars (k : nat) (f : N -> bool) : list N :=
  match k with O => [] | S k' => ch (f (N.of_nat k')) :: chars k' f end.

Lemma chars_len k f : length (chars k f) = k.
Proof. induction k; cbn [chars length]; auto. Qed.

Lemma chars_ext k f g : (forall i, i < N.of_nat k -> f i = g i) -> chars k f = chars k g.
Proof.
  induction k as [|k IH]; intros H; cbn [chars]; [reflexivity|].
  rewrite H, IH by (intros; try apply H; lia). reflexivity.
Qed.

Lemma dt_chars k x : dt 1 k x = chars k (N.testbit x).
Proof.
  induction k as [|k IH]; cbn [dt chars]; [reflexivity|]. rewrite IH. f_equal.
  rewrite N.mul_1_l. apply digit_char_bit.
Qed.

Lemma chars_app j k f : chars (j + k) f = chars j (fun i => f (i + N.of_nat k)) ++ chars k f.
Proof.
  induction j as [|j IH]; [reflexivity|]. cbn [plus chars app]. rewrite IH.
  replace (N.of_nat (j + k)) with (N.of_nat j + N.of_nat k) by lia. reflexivity.
Qed.

Lemma chars_const k b : chars k (fun _ => b) = repeat (ch b) k.
Proof. induction k as [|k IH]; cbn [chars repeat]; [|rewrite IH]; reflexivity. Qed.

Lemma chars_inj k f g i : chars k f = chars k g -> i < N.of_nat k -> f i = g i.
Proof.
  induction k as [|k IH]; intros E H; [lia|]. cbn [chars] in E. injection E as E1 E2.
  destruct (N.eq_dec i (N.of_nat k)) as [->|Hn]; [|apply IH; auto; lia].
  revert E1. unfold ch. destruct (f _), (g _); auto; discriminate.
Qed.

(** printing *)
Definition tx (w : N) (f : N -> bool) : list N := chars (N.to_nat w) f.

Lemma tx_len w f : len (tx w f) = w.
Proof. unfold len, tx. rewrite chars_len. lia. Qed.

Lemma tx_ext w f g : (forall i, i < w -> f i = g i) -> tx w f = tx w g.
Proof. intros H. apply chars_ext. intros i Hi. apply H. lia. Qed.

Lemma tx_app j k f : tx (j + k) f = tx j (fun i => f (i + k)) ++ tx k f.
Proof.
  unfold tx. replace (N.to_nat (j + k)) with (N.to_nat j + N.to_nat k)%nat by lia.
  rewrite chars_app, N2Nat.id. reflexivity.
Qed.

Lemma tx_const k b : tx k (fun _ => b) = copies k (ch b).
Proof. apply chars_const. Qed.

Lemma tx_first w j k f : w = j + k -> first j (tx w f) = tx j (fun i => f (i + k)).
Proof.
  intros ->. rewrite tx_app. unfold first. rewrite firstn_app.
  assert (L : length (tx j (fun i => f (i + k))) = N.to_nat j) by apply chars_len.
  rewrite L, Nat.sub_diag. cbn [firstn]. rewrite app_nil_r, <- L. apply firstn_all.
Qed.

Lemma tx_rest w j k f : w = j + k -> rest j (tx w f) = tx k f.
Proof.
  intros ->. rewrite tx_app. unfold rest. rewrite skipn_app.
  assert (L : length (tx j (fun i => f (i + k))) = N.to_nat j) by apply chars_len.
  rewrite L, Nat.sub_diag. cbn [skipn]. rewrite <- L, skipn_all. reflexivity.
Qed.

Lemma tx_top w f : 0 < w -> hd 48 (tx w f) = ch (f (w - 1)).
Proof.
  intros H. unfold tx. destruct (N.to_nat w) as [|k] eqn:E; [lia|]. cbn [chars hd].
  do 2 f_equal. lia.
Qed.

Lemma print_is_bv v w x : is_bv v w x -> bv_to_bit_str v = Ok (tx w (N.testbit x)).
Proof. intros H. rewrite (to_bit_str_ok _ _ _ H). now rewrite dt_chars. Qed.

Lemma print_yields r w x : yields r w x -> (let* v := r in bv_to_bit_str v) = Ok (tx w (N.testbit x)).
Proof. intros (v & -> & H). cbn [bind]. now apply print_is_bv. Qed.

Lemma print_bits r w f : bits_of r w f -> (let* v := r in bv_to_bit_str v) = Ok (tx w f).
Proof.
  intros (v & n & -> & H & B & _). cbn [bind]. rewrite (print_is_bv _ _ _ H). f_equal. now apply tx_ext.
Qed.

(** the value read from a text *)
Lemma read_ok m s : binary s -> exists v x, read m s = Ok v /\ is_bv v (len s) x /\ number 2 s = Some x
  /\ s = tx (len s) (N.testbit x) /\ 0 < len s.
Proof.
  intros (Hn & Hb & Hl). destruct (bit_str_parse m s Hn Hb Hl) as (v & n & E1 & E2 & E3 & E4).
  exists v, n. unfold read. rewrite E2. cbn [bind]. split; [auto|]. split; [auto|]. split; [auto|].
  rewrite (print_is_bv _ _ _ E3) in E4. split; [congruence|]. destruct s; [easy|]. unfold len. cbn [length]. lia.
Qed.

Ltac reads m s v x H W T P :=
  let E := fresh "E" in
  let N := fresh "Num" in
  destruct (read_ok m s H) as (v & x & E & W & N & T & P); rewrite E; cbn [bind].

(** ** C68 *)

Lemma text_concat m a b : binary a -> binary b -> len a + len b < 2 ^ 32 ->
  (let* x := read m a in let* y := read m b in let* r := bv_concat m x y in bv_to_bit_str r) = Ok (a ++ b).
Proof.
  intros Ha Hb Hl. reads m a va x Ha Wa Ta Pa. reads m b vb y Hb Wb Tb Pb.
  rewrite (print_yields _ _ _ (concat_ok m va vb _ _ x y Wa Wb Pa Pb Hl)). f_equal.
  rewrite tx_app. rewrite Ta at 2. rewrite Tb at 3. f_equal; apply tx_ext; intros i Hi.
  - rewrite <- N.shiftr_spec', N.shiftr_div_pow2. rewrite (N.add_comm (x * _)), N.div_add by (apply N.pow_nonzero; lia).
    rewrite N.div_small by (eapply is_bv_lt; eauto). reflexivity.
  - rewrite <- (N.mod_pow2_bits_low _ (len b)), (N.add_comm (x * _)), N.mod_add, N.mod_pow2_bits_low by (auto; apply N.pow_nonzero; lia). reflexivity.
Qed.

Lemma text_slice m s hi lo : binary s -> lo <= hi -> hi < len s ->
  (let* x := read m s in let* r := bv_slice m x hi lo in bv_to_bit_str r)
  = Ok (first (hi - lo + 1) (rest (len s - 1 - hi) s)).
Proof.
  intros Hs H1 H2. reads m s v x Hs W T P.
  rewrite (print_bits _ _ _ (slice_bits m v _ x hi lo W H1 H2)). f_equal.
  rewrite T at 2. remember (len s) as w. clear Heqw.
  rewrite (tx_rest w _ (hi + 1)), (tx_first _ _ lo) by lia.
  apply tx_ext. intros i _. f_equal. lia.
Qed.

Lemma shr_bits x k i : N.testbit (x / 2 ^ k) i = N.testbit x (i + k).
Proof. rewrite <- N.shiftr_div_pow2. apply N.shiftr_spec'. Qed.

Lemma high_bit x w i : x < 2 ^ w -> w <= i -> N.testbit x i = false.
Proof.
  intros H L. destruct (N.eq_dec x 0) as [->|Hx]; [apply N.bits_0|].
  apply N.bits_above_log2. apply N.log2_lt_pow2; [lia|]. eapply N.lt_le_trans; [exact H|]. now apply N.pow_le_mono_r.
Qed.

(** a text shifted right: copies of a bit, then the first characters *)
Lemma tx_shift w k f g b : k <= w -> (forall i, i < w - k -> g i = f (i + k)) ->
  (forall i, w - k <= i -> i < w -> g i = b) ->
  tx w g = copies k (ch b) ++ first (w - k) (tx w f).
Proof.
  intros Hk H1 H2. replace w with (k + (w - k)) at 1 by lia. rewrite tx_app. f_equal.
  - rewrite <- tx_const. apply tx_ext. intros i Hi. apply H2; lia.
  - rewrite (tx_first w _ k) by lia. now apply tx_ext.
Qed.

Lemma text_shift_right m a b k : binary a -> binary b -> len b = len a -> number 2 b = Some k ->
  (let* x := read m a in let* y := read m b in let* r := bv_shift_right m x y in bv_to_bit_str r)
  = Ok (copies (N.min k (len a)) 48 ++ first (len a - k) a).
Proof.
  intros Ha Hb HL Hk. reads m a va x Ha Wa Ta Pa. reads m b vb y Hb Wb Tb Pb.
  rewrite Hk in Num0. injection Num0 as <-. rewrite HL in Wb.
  destruct (shift_right_cases m va vb _ x k Pa Wa Wb) as (Y & _).
  rewrite (print_yields _ _ _ Y). f_equal.
  assert (L := is_bv_lt _ _ _ Wa). rewrite Ta at 4. remember (len a) as w.
  replace (w - k) with (w - N.min k w) by lia.
  apply (tx_shift w (N.min k w) (N.testbit x) (N.testbit (x / 2 ^ k)) false); [lia| |]; intros i Hi.
  - rewrite shr_bits. f_equal. lia.
  - intros Hi2. rewrite shr_bits. apply (high_bit x w); auto. lia.
Qed.

(** two's complement bits *)
Lemma wrap_bits w z i : i < w -> N.testbit (wrap w z) i = Z.testbit z (Z.of_N i).
Proof.
  intros H. unfold wrap.
  assert (B : (0 <= z mod 2 ^ Z.of_N w)%Z) by (apply Z.mod_pos_bound, Z.pow_pos_nonneg; lia).
  rewrite <- N2Z.inj_testbit, Z2N.id by auto. apply Z.mod_pow2_bits_low. lia.
Qed.

Lemma fits_bits w z i : 0 < w -> fits w z -> w - 1 <= i -> Z.testbit z (Z.of_N i) = (z <? 0)%Z.
Proof.
  unfold fits. intros Hw Hz Hi. replace (Z.of_N w - 1)%Z with (Z.of_N (w - 1)) in Hz by lia.
  replace (Z.of_N i) with (Z.of_N (i - (w - 1)) + Z.of_N (w - 1))%Z by lia.
  rewrite <- Z.div_pow2_bits by lia.
  assert (P : (0 < 2 ^ Z.of_N (w - 1))%Z) by (apply Z.pow_pos_nonneg; lia).
  destruct (Z.ltb_spec z 0) as [E|E].
  - rewrite <- (Z.div_unique z (2 ^ Z.of_N (w - 1)) (-1) (z + 2 ^ Z.of_N (w - 1))) by lia.
    apply Z.bits_m1. lia.
  - rewrite Z.div_small by lia. apply Z.bits_0.
Qed.

Lemma signed_bits w x i : 0 < w -> x < 2 ^ w ->
  Z.testbit (signed w x) (Z.of_N i) = if i <? w then N.testbit x i else N.testbit x (w - 1).
Proof.
  intros Hw Hx.
  assert (L : forall j, j < w -> Z.testbit (signed w x) (Z.of_N j) = N.testbit x j).
  { intros j Hj. rewrite <- (wrap_bits w) by auto. now rewrite wrap_signed. }
  destruct (N.ltb_spec i w) as [E|E]; [auto|].
  assert (F : fits w (signed w x)) by (apply signed_range; auto).
  rewrite (fits_bits w) by (auto; lia). rewrite <- L by lia. symmetry. apply (fits_bits w); auto. lia.
Qed.

Lemma text_asr m a b k : binary a -> binary b -> len b = len a -> number 2 b = Some k ->
  (let* x := read m a in let* y := read m b in let* r := bv_arithmetic_shift_right m x y in bv_to_bit_str r)
  = Ok (copies (N.min k (len a)) (hd 48 a) ++ first (len a - k) a).
Proof.
  intros Ha Hb HL Hk. reads m a va x Ha Wa Ta Pa. reads m b vb y Hb Wb Tb Pb.
  rewrite Hk in Num0. injection Num0 as <-. rewrite HL in Wb.
  assert (L := is_bv_lt _ _ _ Wa).
  assert (Top : hd 48 a = ch (N.testbit x (len a - 1))) by (rewrite Ta at 1; now apply tx_top).
  rewrite (print_yields _ _ _ (asr_wrap m va vb _ x k Pa Wa Wb)). f_equal.
  assert (F : first (len a - k) a = first (len a - k) (tx (len a) (N.testbit x))) by (f_equal; exact Ta).
  rewrite Top, F. remember (len a) as w. clear Ta Top F Heqw.
  assert (B : forall i, i < w -> N.testbit (wrap w (signed w x / 2 ^ Z.of_N k)) i
              = if i + k <? w then N.testbit x (i + k) else N.testbit x (w - 1)).
  { intros i Hi. rewrite wrap_bits, Z.div_pow2_bits by lia. rewrite <- signed_bits by auto. f_equal. lia. }
  replace (w - k) with (w - N.min k w) by lia.
  apply (tx_shift w (N.min k w) (N.testbit x)); [lia| |]; intros i Hi.
  - rewrite B by lia. replace (i + k <? w) with true by lia. f_equal. lia.
  - intros Hi2. rewrite B by lia. now replace (i + k <? w) with false by lia.
Qed.

Lemma low_print v w X : 0 < w -> width v = w -> Words (words v) -> len (words v) = (w + 63) / 64 -> uval v mod 2 ^ w = X mod 2 ^ w ->
  bv_to_bit_str v = Ok (tx w (N.testbit X)).
Proof.
  intros Hw E HW Hl HX. unfold bv_to_bit_str, to_bit_str. rewrite E, to_bit_str_words; auto.
  - cbn [app]. rewrite dt_chars. unfold tx.
    replace (N.to_nat ((w - 1) mod 64 + 1) + 64 * (length (words v) - 1))%nat with (N.to_nat w)
      by (unfold len in Hl; clear - Hl Hw; dlia).
    f_equal. apply chars_ext. intros i Hi.
    rewrite <- (N.mod_pow2_bits_low _ w), <- (N.mod_pow2_bits_low X w) by lia. fold (uval v). now rewrite HX.
  - intros E2. rewrite E2 in Hl. nils. clear - Hl Hw. dlia.
Qed.

Lemma text_shift_left m a b k : binary a -> binary b -> len b = len a -> number 2 b = Some k ->
  (let* x := read m a in let* y := read m b in let* r := bv_shift_left m x y in bv_to_bit_str r)
  = Ok (rest k a ++ copies (N.min k (len a)) 48).
Proof.
  intros Ha Hb HL Hk. reads m a va x Ha Wa Ta Pa. reads m b vb y Hb Wb Tb Pb.
  rewrite Hk in Num0. injection Num0 as <-. rewrite HL in Wb.
  destruct (shift_left_raw m va vb _ x k Wa Wb Pa) as (l & El & Ll & Wl & Vl).
  destruct (shift_left_low m va vb _ x k Pa Wa Wb) as (r & Er & Lr & Vr).
  rewrite Er in *. cbn [bind]. injection El as ->.
  rewrite (low_print _ (len a) (x * 2 ^ k)); auto.
  f_equal. rewrite Ta at 2. remember (len a) as w. clear Ta Heqw Vr Vl Hk Num.
  assert (B : forall i, N.testbit (x * 2 ^ k) i = if i <? k then false else N.testbit x (i - k)).
  { intros i. destruct (N.ltb_spec i k); [now apply N.mul_pow2_bits_low|now apply N.mul_pow2_bits_high]. }
  destruct (N.le_gt_cases w k) as [Ek|Ek].
  - replace (rest k (tx w (N.testbit x))) with (@nil N).
    + cbn [app]. replace (N.min k w) with w by (clear - Ek; lia).
      change (copies w 48) with (copies w (ch false)). rewrite <- tx_const.
      apply tx_ext. intros i Hi. rewrite B. now replace (i <? k) with true by lia.
    + symmetry. apply skipn_all2. unfold tx. rewrite chars_len. lia.
  - rewrite (tx_rest w k (w - k)) by lia. replace (N.min k w) with k by (clear - Ek; lia).
    replace w with ((w - k) + k) at 1 by lia. rewrite tx_app. f_equal.
    + apply tx_ext. intros i Hi. rewrite B. replace (i + k <? k) with false by lia. f_equal. lia.
    + change (copies k 48) with (copies k (ch false)). rewrite <- tx_const. apply tx_ext. intros i Hi. rewrite B. now replace (i <? k) with true by lia.
Qed.

Lemma tx_extend w k f g b : (forall i, i < w -> g i = f i) -> (forall i, w <= i -> i < w + k -> g i = b) ->
  tx (w + k) g = copies k (ch b) ++ tx w f.
Proof.
  intros H1 H2. rewrite (N.add_comm w k), tx_app. f_equal; [|now apply tx_ext].
  rewrite <- tx_const. apply tx_ext. intros i Hi. apply H2; lia.
Qed.

Lemma text_zero_extend m s k : binary s -> len s + k < 2 ^ 32 ->
  (let* x := read m s in let* r := bv_zero_extend m x k in bv_to_bit_str r) = Ok (copies k 48 ++ s).
Proof.
  intros Hs Hk. reads m s v x Hs W T P.
  rewrite (print_yields _ _ _ (zero_extend_ok m v _ x k W P Hk)). f_equal. rewrite T at 2.
  apply (tx_extend _ k (N.testbit x) _ false); auto. intros i Hi _. eapply high_bit; eauto. eapply is_bv_lt; eauto.
Qed.

Lemma text_sign_extend m s k : binary s -> len s + k < 2 ^ 32 ->
  (let* x := read m s in let* r := bv_sign_extend m x k in bv_to_bit_str r) = Ok (copies k (hd 48 s) ++ s).
Proof.
  intros Hs Hk. reads m s v x Hs W T P. assert (L := is_bv_lt _ _ _ W).
  assert (Top : hd 48 s = ch (N.testbit x (len s - 1))) by (rewrite T at 1; now apply tx_top).
  rewrite (print_yields _ _ _ (sign_extend_wrap m v _ x k W P Hk)). f_equal.
  rewrite Top. transitivity (copies k (ch (N.testbit x (len s - 1))) ++ tx (len s) (N.testbit x)); [|now rewrite <- T].
  apply tx_extend; intros i Hi; [|intros Hi2]; rewrite wrap_bits, signed_bits by (auto; lia).
  - now replace (i <? len s) with true by lia.
  - now replace (i <? len s) with false by lia.
Qed.

Lemma text_is_negative m s : binary s ->
  (let* x := read m s in bv_is_negative m x) = Ok (hd 48 s =? 49).
Proof.
  intros Hs. reads m s v x Hs W T P. assert (L := is_bv_lt _ _ _ W).
  rewrite (is_negative_ok m v _ x P W). f_equal. rewrite T at 2. rewrite tx_top by auto.
  rewrite <- (fits_bits (len s) _ (len s - 1)) by (auto; try lia; apply signed_range; auto).
  rewrite signed_bits by auto. replace (len s - 1 <? len s) with true by lia.
  now destruct (N.testbit x _).
Qed.

Lemma zip_chars F f g h k : (forall i, F (ch (f i)) (ch (g i)) = ch (h i)) ->
  zip F (chars k f) (chars k g) = chars k h.
Proof. intros H. induction k as [|k IH]; cbn [chars zip]; [reflexivity|]. now rewrite H, IH. Qed.

Lemma map_chars F f h k : (forall i, F (ch (f i)) = ch (h i)) -> map F (chars k f) = chars k h.
Proof. intros H. induction k as [|k IH]; cbn [chars map]; [reflexivity|]. now rewrite H, IH. Qed.

Lemma text_bitwise m a b : binary a -> binary b -> len b = len a ->
  (let* x := read m a in let* y := read m b in let* r := bv_and m x y in bv_to_bit_str r) = Ok (zip char_and a b)
  /\ (let* x := read m a in let* y := read m b in let* r := bv_or m x y in bv_to_bit_str r) = Ok (zip char_or a b)
  /\ (let* x := read m a in let* y := read m b in let* r := bv_xor m x y in bv_to_bit_str r) = Ok (zip char_xor a b)
  /\ (let* x := read m a in let* r := bv_not m x in bv_to_bit_str r) = Ok (map char_not a).
Proof.
  intros Ha Hb HL. reads m a va x Ha Wa Ta Pa. reads m b vb y Hb Wb Tb Pb. rewrite HL in Wb, Tb.
  destruct (bitwise_bits m va vb _ x y Pa Wa Wb) as (B1 & B2 & B3 & B4).
  rewrite (print_bits _ _ _ B1), (print_bits _ _ _ B2), (print_bits _ _ _ B3), (print_bits _ _ _ B4).
  rewrite Ta, Tb. rewrite tx_len. unfold tx.
  repeat split; f_equal; symmetry; (apply zip_chars || apply map_chars); intros i;
    destruct (N.testbit x i); try destruct (N.testbit y i); reflexivity.
Qed.

Lemma text_bits m s pos : binary s -> pos < len s ->
  (let* x := read m s in bv_is_bit_set x pos) = Ok (nth (N.to_nat (len s - 1 - pos)) s 48 =? 49)
  /\ (let* x := read m s in let* r := bv_set_bit x pos in bv_to_bit_str r)
     = Ok (first (len s - 1 - pos) s ++ [49] ++ rest (len s - pos) s)
  /\ (let* x := read m s in let* r := bv_clear_bit x pos in bv_to_bit_str r)
     = Ok (first (len s - 1 - pos) s ++ [48] ++ rest (len s - pos) s).
Proof.
  intros Hs Hp. reads m s v x Hs W T P.
  assert (S : forall f, tx (len s) f = tx (len s - 1 - pos) (fun i => f (i + (pos + 1))) ++ [ch (f pos)] ++ tx pos f).
  { intros f. replace (len s) with ((len s - 1 - pos) + (pos + 1)) at 1 by lia. rewrite tx_app. f_equal.
    rewrite (N.add_comm pos 1), tx_app. f_equal. }
  assert (C : forall g c, ch (g pos) = c -> (forall i, i <> pos -> g i = N.testbit x i) ->
    tx (len s) g = first (len s - 1 - pos) s ++ [c] ++ rest (len s - pos) s).
  { intros g c Hc Hg. rewrite S, Hc. rewrite T at 3. rewrite (tx_first (len s) _ (pos + 1)) by lia.
    rewrite T at 4. rewrite (tx_rest (len s) _ pos) by lia.
    f_equal; [|f_equal]; apply tx_ext; intros i Hi; apply Hg; lia. }
  split; [|split].
  - rewrite (is_bit_set_ok v _ x pos W Hp). f_equal. rewrite T at 2. rewrite S.
    rewrite app_nth2; unfold tx at 1; rewrite chars_len; [|lia]. rewrite Nat.sub_diag. cbn [app nth].
    now destruct (N.testbit x pos).
  - destruct (set_bit_bits v _ x pos W Hp) as (v' & n & -> & H & B). cbn [bind].
    rewrite (print_is_bv _ _ _ H). f_equal. apply C; [|intros i Hi]; rewrite B.
    + now rewrite N.eqb_refl.
    + now replace (i =? pos) with false by lia.
  - destruct (clear_bit_bits v _ x pos W Hp) as (v' & n & -> & H & B). cbn [bind].
    rewrite (print_is_bv _ _ _ H). f_equal. apply C; [|intros i Hi]; rewrite B.
    + now rewrite N.eqb_refl.
    + now replace (i =? pos) with false by lia.
Qed.

Lemma text_eq m a b : binary a -> binary b ->
  exists r, (let* x := read m a in let* y := read m b in bv_eq m x y) = Ok r /\ (r = true <-> a = b).
Proof.
  intros Ha Hb. reads m a va x Ha Wa Ta Pa. reads m b vb y Hb Wb Tb Pb.
  destruct (eq_cases m va vb (proj1 Wa) (proj1 Wb)) as (H & _ & (r & Er) & _). exists r. split; [auto|].
  rewrite Er in H. destruct Wa as (_ & Wa & Ua), Wb as (_ & Wb & Ub). rewrite Wa, Wb, Ua, Ub in H.
  split.
  - intros ->. destruct H as [H _]. destruct (H eq_refl) as (H1 & H2). rewrite Ta, Tb, H1, H2. reflexivity.
  - intros ->. rewrite Num in Num0. injection Num0 as ->. destruct H as [_ H]. specialize (H (conj eq_refl eq_refl)). congruence.
Qed.

Lemma before_chars x y k : before (chars k (N.testbit x)) (chars k (N.testbit y))
  = (x mod 2 ^ N.of_nat k <? y mod 2 ^ N.of_nat k).
Proof.
  induction k as [|k IH].
  - change (N.of_nat 0) with 0. rewrite N.pow_0_r, !N.mod_1_r. reflexivity.
  - cbn [chars before]. rewrite IH.
    assert (S : forall z, z mod 2 ^ N.of_nat (S k) = z mod 2 ^ N.of_nat k + 2 ^ N.of_nat k * N.b2n (N.testbit z (N.of_nat k))).
    { intros z. rewrite Nat2N.inj_succ, N.pow_succ_r', (N.mul_comm 2), N.mod_mul_r by (try apply N.pow_nonzero; lia).
      do 2 f_equal. now rewrite N.testbit_spec'. }
    rewrite !S.
    assert (B : forall z, z mod 2 ^ N.of_nat k < 2 ^ N.of_nat k) by (intros; apply N.mod_lt, N.pow_nonzero; lia).
    assert (Bx := B x). assert (By := B y).
    generalize dependent (x mod 2 ^ N.of_nat k). generalize dependent (y mod 2 ^ N.of_nat k).
    generalize (2 ^ N.of_nat k). intros p u Hu z Hz. clear - Hu Hz.
    destruct (N.testbit x _), (N.testbit y _); cbn [ch N.b2n]; rewrite ?N.mul_1_r, ?N.mul_0_r.
    + change (49 <? 49) with false. change (49 =? 49) with true. cbn [orb andb]. lia.
    + change (49 <? 48) with false. change (49 =? 48) with false. cbn [orb andb]. lia.
    + change (48 <? 49) with true. cbn [orb]. lia.
    + change (48 <? 48) with false. change (48 =? 48) with true. cbn [orb andb]. lia.
Qed.

Lemma before_tx w x y : x < 2 ^ w -> y < 2 ^ w -> before (tx w (N.testbit x)) (tx w (N.testbit y)) = (x <? y).
Proof. intros Hx Hy. unfold tx. rewrite before_chars, N2Nat.id, !N.mod_small by auto. reflexivity. Qed.

Lemma text_order m a b : binary a -> binary b -> len b = len a ->
  (let* x := read m a in let* y := read m b in bv_is_less m x y) = Ok (before a b)
  /\ (let* x := read m a in let* y := read m b in bv_is_greater m x y) = Ok (before b a).
Proof.
  intros Ha Hb HL. reads m a va x Ha Wa Ta Pa. reads m b vb y Hb Wb Tb Pb. rewrite HL in Wb, Tb.
  destruct (strict_cases m va vb _ x y Wa Wb) as (-> & ->). rewrite Ta, Tb.
  rewrite !before_tx by (eapply is_bv_lt; eauto). auto.
Qed.

(** ** C69 *)

Lemma big_in m z w : 0 < w -> w < 2 ^ 32 ->
  exists v, bv_from_big_int m z w = Ok v /\ is_bv v w (wrap w z).
Proof. apply from_big_int_ok. Qed.

Lemma ubig_in m n w : w < 2 ^ 32 -> n < 2 ^ w ->
  exists v, bv_from_big_uint m n w = Ok v /\ is_bv v w n.
Proof.
  intros H Hn. destruct (from_big_uint_ok m n w H) as (v & E & V). rewrite N.mod_small in V by auto. eauto.
Qed.

Lemma out_uint r w n : yields r w n -> (let* v := r in bv_to_big_uint v) = Ok n.
Proof. intros (v & -> & H). cbn [bind]. eapply to_big_uint_ok; eauto. Qed.

Lemma out_int m r w n : yields r w n -> (let* v := r in bv_to_big_int m v) = Ok (signed w n).
Proof. intros (v & -> & H). cbn [bind]. eapply to_big_int_ok; eauto. Qed.

Lemma wrap_Z w z : Z.of_N (wrap w z) = (z mod 2 ^ Z.of_N w)%Z.
Proof. unfold wrap. apply Z2N.id. apply Z.mod_pos_bound, Z.pow_pos_nonneg; lia. Qed.

Lemma to_wrap w n z : n < 2 ^ w -> (Z.of_N n mod 2 ^ Z.of_N w = z mod 2 ^ Z.of_N w)%Z -> n = wrap w z.
Proof.
  intros H E. unfold wrap. rewrite <- E. rewrite <- (N2Z.inj_pow 2), <- N2Z.inj_mod, N2Z.id, N.mod_small; auto.
Qed.

Lemma big_ring m a b w : 0 < w -> w < 2 ^ 32 ->
  exists x y, bv_from_big_int m a w = Ok x /\ bv_from_big_int m b w = Ok y
    /\ yields (bv_add m x y) w (wrap w (a + b)) /\ yields (bv_sub m x y) w (wrap w (a - b))
    /\ yields (bv_negate m x) w (wrap w (- a)) /\ (w <= 64 -> yields (bv_mul m x y) w (wrap w (a * b))).
Proof.
  intros Hw H32. destruct (big_in m a w Hw H32) as (x & Ex & Hx). destruct (big_in m b w Hw H32) as (y & Ey & Hy).
  exists x, y. split; [auto|]. split; [auto|].
  assert (P : (2 ^ Z.of_N w <> 0)%Z) by (apply Z.pow_nonzero; lia).
  split; [|split; [|split]].
  - eapply yields_eq; [apply (add_ok m x y w _ _ Hw Hx Hy)|]. apply to_wrap; [apply N.mod_lt, N.pow_nonzero; lia|].
    rewrite N2Z.inj_mod, N2Z.inj_pow, Z.mod_mod, N2Z.inj_add, !wrap_Z, <- Z.add_mod; auto.
  - eapply yields_eq; [apply (sub_ok m x y w _ _ Hw Hx Hy)|]. apply to_wrap; [apply wrap_lt|].
    rewrite !wrap_Z, Z.mod_mod, <- Zminus_mod by auto. reflexivity.
  - eapply yields_eq; [apply (negate_ok m x w _ Hw Hx)|]. apply to_wrap; [apply wrap_lt|].
    rewrite !wrap_Z, Z.mod_mod by auto. rewrite <- (Z.sub_0_l (a mod _)), <- (Z.sub_0_l a), Zminus_mod_idemp_r. reflexivity.
  - intros H64. destruct (mul_cases m x y w _ _ Hw Hx Hy) as (Y & _). eapply yields_eq; [exact (Y H64)|].
    apply to_wrap; [apply N.mod_lt, N.pow_nonzero; lia|].
    rewrite N2Z.inj_mod, N2Z.inj_pow, Z.mod_mod, N2Z.inj_mul, !wrap_Z, <- Z.mul_mod; auto.
Qed.

Lemma ring_mod m a b w : 0 < w -> w < 2 ^ 32 ->
  (let* x := bv_from_big_int m a w in let* y := bv_from_big_int m b w in
   let* r := bv_add m x y in bv_to_big_uint r) = Ok (wrap w (a + b))
  /\ (let* x := bv_from_big_int m a w in let* y := bv_from_big_int m b w in
      let* r := bv_sub m x y in bv_to_big_uint r) = Ok (wrap w (a - b))
  /\ (let* x := bv_from_big_int m a w in let* r := bv_negate m x in bv_to_big_uint r) = Ok (wrap w (- a))
  /\ (w <= 64 -> (let* x := bv_from_big_int m a w in let* y := bv_from_big_int m b w in
      let* r := bv_mul m x y in bv_to_big_uint r) = Ok (wrap w (a * b))).
Proof.
  intros Hw H32. destruct (big_ring m a b w Hw H32) as (x & y & -> & -> & A & S & G & M). cbn [bind].
  split; [|split; [|split]]; [eapply out_uint; eauto..|]. intros H. eapply out_uint; eauto.
Qed.

Lemma ring_exact m a b w : 0 < w -> w < 2 ^ 32 ->
  (fits w (a + b) -> (let* x := bv_from_big_int m a w in let* y := bv_from_big_int m b w in
   let* r := bv_add m x y in bv_to_big_int m r) = Ok (a + b)%Z)
  /\ (fits w (a - b) -> (let* x := bv_from_big_int m a w in let* y := bv_from_big_int m b w in
      let* r := bv_sub m x y in bv_to_big_int m r) = Ok (a - b)%Z)
  /\ (fits w (- a) -> (let* x := bv_from_big_int m a w in let* r := bv_negate m x in bv_to_big_int m r) = Ok (- a)%Z)
  /\ (w <= 64 -> fits w (a * b) -> (let* x := bv_from_big_int m a w in let* y := bv_from_big_int m b w in
      let* r := bv_mul m x y in bv_to_big_int m r) = Ok (a * b)%Z).
Proof.
  intros Hw H32. destruct (big_ring m a b w Hw H32) as (x & y & -> & -> & A & S & G & M). cbn [bind].
  split; [|split; [|split]]; intros F; [..|intros F2];
    (rewrite (out_int m _ w _ A) || rewrite (out_int m _ w _ S) || rewrite (out_int m _ w _ G) || rewrite (out_int m _ w _ (M F)));
    f_equal; now apply signed_of_wrap.
Qed.

Lemma big_compare m a b w : 0 < w -> w < 2 ^ 32 -> fits w a -> fits w b ->
  exists x y, bv_from_big_int m a w = Ok x /\ bv_from_big_int m b w = Ok y
    /\ bv_is_greater_signed m x y = Ok (b <? a)%Z /\ bv_is_greater_or_equal_signed m x y = Ok (b <=? a)%Z
    /\ bv_is_less_signed m x y = Ok (a <? b)%Z /\ bv_is_less_or_equal_signed m x y = Ok (a <=? b)%Z
    /\ bv_is_equal m x y = Ok (a =? b)%Z /\ bv_is_negative m x = Ok (a <? 0)%Z.
Proof.
  intros Hw H32 Fa Fb. destruct (big_in m a w Hw H32) as (x & Ex & Hx). destruct (big_in m b w Hw H32) as (y & Ey & Hy).
  exists x, y. split; [auto|]. split; [auto|].
  destruct (signed_cases m x y w _ _ Hw Hx Hy) as (-> & -> & -> & ->).
  destruct (equal_cases m x y w _ _ Hx Hy) as (-> & _). rewrite (is_negative_ok m x w _ Hw Hx).
  assert (E : (wrap w a =? wrap w b) = (a =? b)%Z).
  { destruct (Z.eqb_spec a b) as [->|Hn]; [apply N.eqb_refl|]. apply N.eqb_neq. intros E. apply Hn.
    rewrite <- (signed_of_wrap w a), <- (signed_of_wrap w b), E by auto. reflexivity. }
  rewrite E, !signed_of_wrap by auto. repeat split.
Qed.

Lemma big_ucompare m a b w : w < 2 ^ 32 -> a < 2 ^ w -> b < 2 ^ w ->
  exists x y, bv_from_big_uint m a w = Ok x /\ bv_from_big_uint m b w = Ok y
    /\ bv_is_greater m x y = Ok (b <? a) /\ bv_is_less m x y = Ok (a <? b) /\ bv_is_equal m x y = Ok (a =? b).
Proof.
  intros H32 Ha Hb. destruct (ubig_in m a w H32 Ha) as (x & Ex & Hx). destruct (ubig_in m b w H32 Hb) as (y & Ey & Hy).
  exists x, y. split; [auto|]. split; [auto|]. destruct (strict_cases m x y w _ _ Hx Hy) as (-> & ->).
  destruct (equal_cases m x y w _ _ Hx Hy) as (-> & _). auto.
Qed.

Lemma fits_of_bits w z : 0 < w -> (forall i, w - 1 <= i -> Z.testbit z (Z.of_N i) = (z <? 0)%Z) -> fits w z.
Proof.
  intros Hw H. unfold fits. replace (Z.of_N w - 1)%Z with (Z.of_N (w - 1)) by lia.
  assert (P : (0 < 2 ^ Z.of_N (w - 1))%Z) by (apply Z.pow_pos_nonneg; lia).
  assert (D := Z.div_mod z (2 ^ Z.of_N (w - 1)) ltac:(lia)).
  assert (M := Z.mod_pos_bound z (2 ^ Z.of_N (w - 1)) P).
  assert (Q : (z / 2 ^ Z.of_N (w - 1) = if z <? 0 then -1 else 0)%Z).
  { apply Z.bits_inj'. intros i Hi. rewrite Z.div_pow2_bits by lia.
    replace (i + Z.of_N (w - 1))%Z with (Z.of_N (Z.to_N i + (w - 1))) by lia. rewrite H by lia.
    destruct (z <? 0)%Z; [rewrite Z.bits_m1|rewrite Z.bits_0]; auto. }
  rewrite Q in D. destruct (Z.ltb_spec z 0); lia.
Qed.

Lemma sign_of_bits w z b : 0 < w -> (forall i, w - 1 <= i -> Z.testbit z (Z.of_N i) = b) -> (z <? 0)%Z = b.
Proof.
  intros Hw H. destruct b.
  - apply Z.ltb_lt. apply Z.bits_iff_neg_ex. exists (Z.of_N (w - 1)). intros i Hi.
    rewrite <- (Z2N.id i) by lia. apply H. lia.
  - apply Z.ltb_ge. apply Z.bits_iff_nonneg_ex. exists (Z.of_N (w - 1)). intros i Hi.
    rewrite <- (Z2N.id i) by lia. apply H. lia.
Qed.

Lemma fits_const w z b : 0 < w -> (forall i, w - 1 <= i -> Z.testbit z (Z.of_N i) = b) -> fits w z.
Proof. intros Hw H. apply fits_of_bits; auto. intros i Hi. rewrite H by auto. symmetry. eapply sign_of_bits; eauto. Qed.

Lemma out_bits m r w f z : 0 < w -> bits_of r w f -> (forall i, i < w -> f i = Z.testbit z (Z.of_N i)) -> fits w z ->
  (let* v := r in bv_to_big_int m v) = Ok z.
Proof.
  intros Hw (v & n & -> & H & B & _) Hf F. cbn [bind]. rewrite (to_big_int_ok m v w n H). f_equal.
  rewrite <- (signed_of_wrap w z) by auto. f_equal. apply N.bits_inj. intros i.
  destruct (N.lt_ge_cases i w) as [L|L].
  - rewrite B, Hf, wrap_bits by auto. reflexivity.
  - rewrite !(high_bit _ w) by (auto; try apply wrap_lt; eapply is_bv_lt; eauto). reflexivity.
Qed.

Lemma big_bitwise m a b w : 0 < w -> w < 2 ^ 32 -> fits w a -> fits w b ->
  (let* x := bv_from_big_int m a w in let* y := bv_from_big_int m b w in
   let* r := bv_and m x y in bv_to_big_int m r) = Ok (Z.land a b)
  /\ (let* x := bv_from_big_int m a w in let* y := bv_from_big_int m b w in
      let* r := bv_or m x y in bv_to_big_int m r) = Ok (Z.lor a b)
  /\ (let* x := bv_from_big_int m a w in let* y := bv_from_big_int m b w in
      let* r := bv_xor m x y in bv_to_big_int m r) = Ok (Z.lxor a b)
  /\ (let* x := bv_from_big_int m a w in let* r := bv_not m x in bv_to_big_int m r) = Ok (Z.lnot a).
Proof.
  intros Hw H32 Fa Fb. destruct (big_in m a w Hw H32) as (x & -> & Hx). destruct (big_in m b w Hw H32) as (y & -> & Hy).
  cbn [bind]. destruct (bitwise_bits m x y w _ _ Hw Hx Hy) as (B1 & B2 & B3 & B4).
  assert (Ta := fun i => fits_bits w a i Hw Fa). assert (Tb := fun i => fits_bits w b i Hw Fb).
  split; [|split; [|split]].
  - apply (out_bits m _ w _ _ Hw B1); [intros i Hi; cbv beta; rewrite !wrap_bits, Z.land_spec by auto; reflexivity|].
    apply (fits_const w _ ((a <? 0) && (b <? 0))%Z Hw). intros i Hi. now rewrite Z.land_spec, Ta, Tb.
  - apply (out_bits m _ w _ _ Hw B2); [intros i Hi; cbv beta; rewrite !wrap_bits, Z.lor_spec by auto; reflexivity|].
    apply (fits_const w _ ((a <? 0) || (b <? 0))%Z Hw). intros i Hi. now rewrite Z.lor_spec, Ta, Tb.
  - apply (out_bits m _ w _ _ Hw B3); [intros i Hi; cbv beta; rewrite !wrap_bits, Z.lxor_spec by auto; reflexivity|].
    apply (fits_const w _ (xorb (a <? 0) (b <? 0))%Z Hw). intros i Hi. now rewrite Z.lxor_spec, Ta, Tb.
  - apply (out_bits m _ w _ _ Hw B4); [intros i Hi; cbv beta; rewrite wrap_bits, Z.lnot_spec by (auto; lia); reflexivity|].
    apply (fits_const w _ (negb (a <? 0))%Z Hw). intros i Hi. now rewrite Z.lnot_spec, Ta by (auto; lia).
Qed.

Lemma big_shift m a n k w : 0 < w -> w < 2 ^ 32 -> fits w a -> n < 2 ^ w -> k < 2 ^ w ->
  (let* x := bv_from_big_int m a w in let* y := bv_from_big_uint m k w in
   let* r := bv_arithmetic_shift_right m x y in bv_to_big_int m r) = Ok (a / 2 ^ Z.of_N k)%Z
  /\ (let* x := bv_from_big_uint m n w in let* y := bv_from_big_uint m k w in
      let* r := bv_shift_right m x y in bv_to_big_uint r) = Ok (n / 2 ^ k).
Proof.
  intros Hw H32 Fa Hn Hk. destruct (big_in m a w Hw H32) as (x & -> & Hx).
  destruct (ubig_in m n w H32 Hn) as (u & -> & Hu). destruct (ubig_in m k w H32 Hk) as (y & -> & Hy). cbn [bind].
  split.
  - destruct (asr_signed m x y w _ k Hx Hy Hw) as (v & j & -> & Hv & S). cbn [bind].
    rewrite (to_big_int_ok m v w j Hv), S, signed_of_wrap by auto. reflexivity.
  - destruct (shift_right_cases m u y w n k Hw Hu Hy) as (Y & _). eapply out_uint; eauto.
Qed.

Lemma big_layout m a n1 n2 w w2 k hi lo : 0 < w -> w + k < 2 ^ 32 -> 0 < w2 -> w + w2 < 2 ^ 32 ->
  fits w a -> n1 < 2 ^ w -> n2 < 2 ^ w2 -> lo <= hi -> hi < w ->
  (let* x := bv_from_big_int m a w in let* r := bv_sign_extend m x k in bv_to_big_int m r) = Ok a
  /\ (let* x := bv_from_big_uint m n1 w in let* r := bv_zero_extend m x k in bv_to_big_uint r) = Ok n1
  /\ (let* x := bv_from_big_uint m n1 w in let* y := bv_from_big_uint m n2 w2 in
      let* r := bv_concat m x y in bv_to_big_uint r) = Ok (n1 * 2 ^ w2 + n2)
  /\ (let* x := bv_from_big_uint m n1 w in let* r := bv_slice m x hi lo in bv_to_big_uint r)
     = Ok ((n1 / 2 ^ lo) mod 2 ^ (hi - lo + 1)).
Proof.
  intros Hw Hk H2 Hc Fa Hn1 Hn2 Hlo Hhi. destruct (big_in m a w Hw ltac:(lia)) as (x & -> & Hx).
  destruct (ubig_in m n1 w ltac:(lia) Hn1) as (u & -> & Hu).
  destruct (ubig_in m n2 w2 ltac:(lia) Hn2) as (y & -> & Hy). cbn [bind].
  split; [|split; [|split]].
  - destruct (sign_extend_signed m x w _ k Hx Hw Hk) as (v & j & -> & Hv & S). cbn [bind].
    rewrite (to_big_int_ok m v _ j Hv), S, signed_of_wrap by auto. reflexivity.
  - eapply out_uint, zero_extend_ok; eauto.
  - eapply out_uint, concat_ok; eauto.
  - eapply out_uint, slice_ok; eauto.
Qed.
