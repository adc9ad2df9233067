(** * PTest: the property tests of the project, for all inputs. *)

From Coq Require Import ZifyBool ZifyNat ZifyN.
From Verif Require Import Base Arith Strings Bytes BigInt Bv Indexed Spec TextSpec StoreSpec PIntern ViewSpec IoSpec TestSpec
  PWords PArith PShift PCompare PConv PIo PText PropsText PropsTextMore PropsArith PDense PParse PStore PView PShape.
Ltac Zify.zify_post_hook ::= idtac.

Lemma same_eq a b : same a b = true <-> a = b.
Proof. apply words_eqb_eq. Qed.
Lemma same_refl a : same a a = true.
Proof. now apply same_eq. Qed.

(** the assertion on unused bits says that the value is below 2^w *)
Lemma last_word l : Words l -> l <> [] -> last l 0 = wv l / 2 ^ (64 * (len l - 1)).
Proof.
  intros H N. destruct (exists_last N) as (t & x & ->). rewrite last_last.
  apply Forall_app in H as (Ht & Hx). rewrite wv_app, wv_cons, len_app.
  replace (len t + len [x] - 1) with (len t) by (unfold len; cbn [length]; lia). cbn [words_val].
  rewrite N.mul_0_r, N.add_0_r, N.mul_comm, N.div_add by (apply N.pow_nonzero; lia).
  rewrite N.div_small by now apply wv_bound. lia.
Qed.

Lemma unused_iff l w : Words l -> len l = (w + 63) / 64 -> (unused_zero l w = true <-> wv l < 2 ^ w).
Proof.
  intros H L. unfold unused_zero. destruct (N.eqb_spec (w mod 64) 0) as [E|E]; cbn [orb].
  - split; [intros _|auto]. assert (B := wv_bound l H). rewrite L in B.
    now replace (64 * ((w + 63) / 64)) with w in B by dlia.
  - assert (L0 : len l <> 0) by dlia. replace (len l =? 0) with false by lia. cbn [negb andb].
    rewrite N.eqb_eq, N.shiftr_div_pow2, last_word; auto.
    2:{ intros ->. now apply L0. }
    rewrite div_div_pow. replace (64 * (len l - 1) + w mod 64) with w by dlia.
    rewrite N.div_small_iff by (apply N.pow_nonzero; lia). reflexivity.
Qed.

Lemma unused_ok l w x : is_bv (mkbv w l) w x -> unused_zero l w = true.
Proof. intros H. apply is_bv_inv in H as (_ & _ & L & W & V & B). apply unused_iff; auto. cbn [words] in *. now rewrite V. Qed.

Lemma wres_is_bv r w n : w < 2 ^ 32 -> n < 2 ^ w -> wres r w n -> exists l, r = Ok l /\ is_bv (mkbv w l) w n.
Proof. intros Hw Hn (l & -> & L & W & V). exists l. split; auto. now apply is_bv_intro. Qed.

Lemma print_words l w x : is_bv (mkbv w l) w x -> to_bit_str l w = Ok (tx w (N.testbit x)).
Proof. intros H. exact (print_is_bv _ _ _ H). Qed.

(** what the tests on [BitVecValue] say about the printed words *)
Lemma print_same op l w x e : yields op w x -> is_bv (mkbv w l) w x ->
  (let* r := op in bv_to_bit_str r) = Ok e -> to_bit_str l w = Ok e.
Proof. intros (v & -> & V) W E. cbn [bind] in E. now rewrite (is_bv_unique _ _ _ _ V W) in E. Qed.

(** reading a text in the tests *)
Lemma bits_in m s : binary s -> exists l x, from_bits m s = Ok (l, len s) /\ read m s = Ok (mkbv (len s) l)
  /\ is_bv (mkbv (len s) l) (len s) x /\ number 2 s = Some x /\ s = tx (len s) (N.testbit x) /\ 0 < len s.
Proof.
  intros H. destruct (read_ok m s H) as (v & x & R & V & Nu & T & P).
  exists (words v), x. assert (Ev : v = mkbv (len s) (words v)).
  { destruct V as (_ & V & _). destruct v as [wv0 lv0]. cbn [width words] in *. now subst. }
  split; [|rewrite <- Ev; auto 10]. clear T Nu.
  unfold read, bv_from_bit_str, bv_from_str_radix, bv_assign_from_str_radix, bv_zero in R. unfold from_bits.
  destruct (determine_width_from_str_radix m s 2) as [w|] eqn:D; [|discriminate]. cbn [bind words width] in *.
  unfold parsed_words.
  destruct (from_str_radix m s 2 (value_vec_zeros w) w) as [(o & e)|]; [|discriminate]. cbn [bind] in *.
  destruct e; [discriminate|]. injection R as R. rewrite <- R in *. cbn [width words] in *. injection Ev as ->. reflexivity.
Qed.

Ltac bits m s l x Hs W T P :=
  let E := fresh "E" in let R := fresh "R" in let Nu := fresh "Num" in
  destruct (bits_in m s Hs) as (l & x & E & R & W & Nu & T & P); rewrite E; clear E; cbn [bind];
  repeat match goal with H : context [read m s] |- _ =>
    lazymatch H with R => fail | _ => rewrite R in H; cbn [bind] in H end end; clear R.

Lemma starts_hd a : binary a -> starts 49 a = (hd 48 a =? 49).
Proof. destruct a; auto. Qed.

Lemma test_is_neg_ok a : binary a -> passes (fun m => do_test_is_neg m a).
Proof.
  intros H m. unfold do_test_is_neg. assert (R := text_is_negative m a H).
  bits m a l y H W T P. unfold bv_is_negative in R. cbn [words width] in R. rewrite R. cbn [bind].
  rewrite starts_hd by auto. now rewrite Bool.eqb_reflx.
Qed.

(** ** concatenation, into a buffer that holds anything *)
Lemma concat_loop_dst o s k prev d d' srcs : length d = length d' -> (length d <= length srcs)%nat ->
  ar_concat_loop o s k prev d srcs = ar_concat_loop o s k prev d' srcs.
Proof.
  revert prev d' srcs. induction d as [|x d IH]; intros prev [|x' d'] [|y srcs] H L; cbn [length] in *; try lia; auto.
  cbn [ar_concat_loop]. f_equal. apply IH; lia.
Qed.

Lemma concat_dst m d d' A B wb : len d = len d' -> 0 < len B -> len B <= len d -> len d <= len A + len B ->
  ar_concat m d A B wb = ar_concat m d' A B wb.
Proof.
  intros E H0 H1 H2. unfold ar_concat. rewrite (assign_short d), (assign_short d') by lia.
  assert (LX : length (skipn (length B) d) = length (skipn (length B) d')) by (rewrite !skipn_length; unfold len in *; lia).
  assert (LD : (length (skipn (length B) d) <= length A)%nat) by (rewrite skipn_length; unfold len in *; lia).
  destruct (wb mod 64 =? 0).
  - rewrite !firstn_app_exact, !skipn_app_exact by auto. do 2 f_equal.
    rewrite !assign_long by (unfold len in *; rewrite ?skipn_length in *; lia). now rewrite LX.
  - destruct (ar_mask (64 - wb mod 64)); cbn [bind]; [|auto]. rewrite !usz_sub_ok by lia. cbn [bind].
    assert (I : forall X, idx (B ++ X) (len B - 1) = idx B (len B - 1)).
    { intros X. unfold idx. rewrite nth_error_app1 by (unfold len in *; lia). reflexivity. }
    rewrite !I. destruct (idx B (len B - 1)); cbn [bind]; [|auto]. f_equal.
    rewrite !firstn_app, !skipn_app.
    replace (N.to_nat (len B - 1) - length B)%nat with 0%nat by (unfold len; lia). cbn [firstn skipn]. f_equal.
    apply concat_loop_dst; rewrite ?app_length, ?skipn_length in *; cbn [length]; unfold len in *; lia.
Qed.

Lemma ones_binary k : 0 < k -> k < 2 ^ 32 -> binary (copies k 49).
Proof.
  intros H1 H2. unfold binary, copies. split; [|split].
  - destruct (N.to_nat k) eqn:E; [lia|]. discriminate.
  - apply Forall_forall. intros x Hx. apply repeat_spec in Hx. auto.
  - now rewrite len_repeat, N2Nat.id.
Qed.

Lemma len_copies k c : len (copies k c) = k.
Proof. unfold copies. now rewrite len_repeat, N2Nat.id. Qed.

Lemma bv_len l w x : is_bv (mkbv w l) w x -> len l = (w + 63) / 64.
Proof. intros H. apply is_bv_inv in H. apply H. Qed.

Lemma test_concat_ok a b : binary a -> binary b -> len a + len b < 2 ^ 32 ->
  passes (fun m => do_test_concat m a b).
Proof.
  intros Ha Hb Hl m. assert (Tc := text_concat m a b Ha Hb Hl).
  unfold do_test_concat. bits m a la x Ha Wa Ta Pa. bits m b lb y Hb Wb Tb Pb.
  assert (Hc : binary (copies (len a + len b) 49)) by (apply ones_binary; lia).
  bits m (copies (len a + len b) 49) lc z Hc Wc Tc' Pc. rewrite len_copies in *.
  assert (La := bv_len _ _ _ Wa). assert (Lb := bv_len _ _ _ Wb). assert (Lc := bv_len _ _ _ Wc).
  rewrite (concat_dst m lc (value_vec_zeros (len a + len b))) by (rewrite ?zeros_len; clear - La Lb Lc Pa Pb; dlia).
  assert (G := concat_wres m _ _ _ _ _ _ Wa Wb Hl). cbn [words] in G.
  assert (Bx := is_bv_lt _ _ _ Wa). assert (By := is_bv_lt _ _ _ Wb).
  destruct (wres_is_bv _ _ _ Hl (concat_lt _ _ _ _ Bx By) G) as (r & -> & R). cbn [bind].
  rewrite (print_same _ _ _ _ _ (concat_ok m _ _ _ _ _ _ Wa Wb Pa Pb Hl) R Tc). cbn [bind].
  now rewrite N.eqb_refl, (unused_ok _ _ _ R), same_refl.
Qed.

Lemma test_slice_ok s hi lo : binary s -> lo <= hi -> hi < len s -> passes (fun m => do_test_slice m s hi lo).
Proof.
  intros Hs H1 H2 m. assert (Tc := text_slice m s hi lo Hs H1 H2).
  unfold do_test_slice. bits m s l x Hs W T P.
  assert (H32 : hi - lo + 1 < 2 ^ 32) by (destruct Hs as (_ & _ & Hs); clear - H1 H2 Hs; lia).
  assert (L := bv_len _ _ _ W). assert (Wl : Words l) by (apply is_bv_inv in W; apply W).
  assert (Vl : wv l = x) by (apply is_bv_inv in W; apply W).
  destruct (wres_is_bv _ _ _ H32 (N.mod_lt _ _ (N.pow_nonzero 2 _ ltac:(lia)))
    (slice_wres m (value_vec_zeros (hi - lo + 1)) l hi lo Wl H1 H32 ltac:(clear - L H2; dlia) (zeros_len _))) as (r & -> & R).
  cbn [bind]. assert (Y := slice_ok m _ _ _ hi lo W H1 H2). rewrite Vl in R.
  rewrite (print_same _ _ _ _ _ Y R Tc). cbn [bind].
  rewrite (unused_ok _ _ _ R), same_refl.
  replace (len s =? 0) with false by (clear - P; lia). replace (lo <=? hi) with true by (clear - H1; lia).
  replace (hi <? len s) with true by (clear - H2; lia). reflexivity.
Qed.

Lemma test_zero_ext_ok s k : binary s -> len s + k < 2 ^ 32 -> passes (fun m => do_test_zero_ext m s k).
Proof.
  intros Hs Hk m. assert (Tc := text_zero_extend m s k Hs Hk).
  unfold do_test_zero_ext. bits m s l x Hs W T P.
  rewrite u32_add_ok by auto. cbn [bind]. assert (B := is_bv_lt _ _ _ W).
  assert (B2 : x < 2 ^ (len s + k)) by (eapply N.lt_le_trans; [exact B|]; apply N.pow_le_mono_r; lia).
  assert (G := zero_extend_wres _ _ _ (len s + k) W ltac:(clear; lia)). cbn [words] in G.
  destruct (wres_is_bv _ _ _ Hk B2 G) as (r & -> & R). cbn [bind].
  rewrite (print_same _ _ _ _ _ (zero_extend_ok m _ _ _ k W P Hk) R Tc). cbn [bind].
  now rewrite (unused_ok _ _ _ R), same_refl.
Qed.

Lemma test_sign_ext_ok s k : binary s -> len s + k < 2 ^ 32 -> passes (fun m => do_test_sign_ext m s k).
Proof.
  intros Hs Hk m. assert (Tc := text_sign_extend m s k Hs Hk).
  unfold do_test_sign_ext. bits m s l x Hs W T P.
  rewrite u32_add_ok by auto. cbn [bind]. assert (B := is_bv_lt _ _ _ W).
  assert (Y := sign_extend_ok m _ _ _ k W P Hk).
  assert (G := sign_extend_wres m _ _ _ (len s + k) W P ltac:(clear; lia) Hk). cbn [words] in G.
  rewrite sign_ext_spec in G by (auto; clear; lia).
  destruct (wres_is_bv _ _ _ Hk (wrap_lt _ _) G) as (r & -> & R). cbn [bind].
  rewrite (print_same _ _ _ _ _ Y R Tc). cbn [bind].
  rewrite (unused_ok _ _ _ R), same_refl. now replace (len s =? 0) with false by (clear - P; lia).
Qed.

(** ** shifts *)
Lemma amount_text k w : 0 < w -> w < 2 ^ 32 -> k < 2 ^ 32 -> k < 2 ^ w ->
  width_int_to_bit_str k w = Ok (tx w (N.testbit k)).
Proof.
  intros H0 H1 H2 H3. unfold width_int_to_bit_str.
  replace (let* _ := (if w <? 32 then _ else _) in _) with (let* l := set_idx (value_vec_zeros w) 0 k in to_bit_str l w).
  2:{ destruct (N.ltb_spec w 32) as [H|H]; [|reflexivity]. rewrite ar_mask_pos by lia. cbn [bind].
      rewrite land_ones_sub, N.mod_small, N.eqb_refl by auto. reflexivity. }
  assert (L := zeros_len w). unfold value_vec_zeros in *. destruct (N.to_nat (div_ceil w 64)) as [|n] eqn:E.
  { cbn [repeat] in L. nils. clear - L H0. dlia. }
  cbn [repeat] in *. unfold set_idx. change (N.to_nat 0) with O. cbn [set_nth bind].
  apply print_words. apply is_bv_intro; auto.
  - constructor; [|apply Forall_forall; intros x Hx; apply repeat_spec in Hx; subst; lia].
    eapply N.lt_trans; [exact H2|]. reflexivity.
  - rewrite wv_cons, wv_repeat0, N.mul_0_r. lia.
Qed.

Lemma tx_binary w f : 0 < w -> w < 2 ^ 32 -> binary (tx w f).
Proof.
  intros H1 H2. unfold binary. rewrite tx_len. split; [|split]; auto.
  - intros E. assert (L := tx_len w f). rewrite E in L. unfold len in L. cbn [length] in L. lia.
  - unfold tx. induction (N.to_nat w) as [|n IH]; cbn [chars]; constructor; auto. unfold ch. destruct (f _); auto.
Qed.

Lemma tx_inj w x y : x < 2 ^ w -> y < 2 ^ w -> tx w (N.testbit x) = tx w (N.testbit y) -> x = y.
Proof.
  intros Hx Hy E. apply N.bits_inj. intros i. destruct (N.ltb_spec i w) as [H|H].
  - apply (chars_inj (N.to_nat w)); [exact E|lia].
  - rewrite !(high_bit _ w) by auto. reflexivity.
Qed.

Lemma amount_in m k w : 0 < w -> w < 2 ^ 32 -> k < 2 ^ w ->
  exists l, from_bits m (tx w (N.testbit k)) = Ok (l, w) /\ read m (tx w (N.testbit k)) = Ok (mkbv w l)
    /\ is_bv (mkbv w l) w k /\ number 2 (tx w (N.testbit k)) = Some k.
Proof.
  intros H0 H1 H2. destruct (bits_in m _ (tx_binary w (N.testbit k) H0 H1)) as (l & x & E & R & W & Nu & T & _).
  rewrite tx_len in *. assert (x = k) as ->; [|eauto].
  apply (tx_inj w); auto. apply (is_bv_lt _ _ _ W).
Qed.

Lemma zero_buffer l w x : is_bv (mkbv w l) w x -> repeat 0 (length l) = value_vec_zeros w.
Proof.
  intros H. apply bv_len in H. assert (L := zeros_len w). unfold value_vec_zeros in *. f_equal.
  rewrite len_repeat in L. unfold len in H. lia.
Qed.


Lemma min_first s k : first (len s - N.min k (len s)) s = first (len s - k) s.
Proof. f_equal. lia. Qed.
Lemma min_rest s k : rest (N.min k (len s)) s = rest k s.
Proof.
  destruct (N.le_gt_cases k (len s)); [f_equal; lia|]. replace (N.min k (len s)) with (len s) by lia.
  unfold rest, len in *. rewrite !skipn_all2 by lia. reflexivity.
Qed.

Lemma test_shift_right_ok s k : binary s -> amount s k -> passes (fun m => do_test_shift_right m s k).
Proof.
  intros Hs (K1 & K2) m. unfold do_test_shift_right, do_test_shift.
  assert (H32 : len s < 2 ^ 32) by apply Hs.
  assert (Tc : forall b, binary b -> len b = len s -> number 2 b = Some k -> _)
    by exact (fun b Hb => text_shift_right m s b k Hs Hb).
  destruct (bits_in m s Hs) as (l & x & -> & R & W & _ & _ & P). cbn [bind].
  rewrite amount_text by auto. cbn [bind].
  destruct (amount_in m k (len s) P H32 K2) as (lb & -> & Rb & Wb & Nb). cbn [bind].
  specialize (Tc _ (tx_binary _ _ P H32) (tx_len _ _) Nb). rewrite R, Rb in Tc. cbn [bind] in Tc.
  rewrite (zero_buffer _ _ _ W).
  destruct (shift_right_words m _ _ _ _ _ W Wb P) as (r & Er & Lr & Wr & Vr). cbn [words] in Er.
  rewrite Er. cbn [bind].
  assert (Wf : is_bv (mkbv (len s) r) (len s) (x / 2 ^ k)).
  { apply is_bv_intro; auto. apply div_lt. apply (is_bv_lt _ _ _ W). }
  rewrite (print_same _ _ _ _ _ (shift_right_ok m _ _ _ _ _ W Wb P) Wf Tc). cbn [bind].
  rewrite N.eqb_refl, (unused_ok _ _ _ Wf), min_first, same_refl. reflexivity.
Qed.

Lemma test_asr_ok s k : binary s -> amount s k -> passes (fun m => do_test_arithmetic_shift_right m s k).
Proof.
  intros Hs (K1 & K2) m. unfold do_test_arithmetic_shift_right, do_test_shift.
  assert (H32 : len s < 2 ^ 32) by apply Hs.
  assert (Tc : forall b, binary b -> len b = len s -> number 2 b = Some k -> _)
    by exact (fun b Hb => text_asr m s b k Hs Hb).
  destruct (bits_in m s Hs) as (l & x & -> & R & W & _ & _ & P). cbn [bind].
  rewrite amount_text by auto. cbn [bind].
  destruct (amount_in m k (len s) P H32 K2) as (lb & -> & Rb & Wb & Nb). cbn [bind].
  specialize (Tc _ (tx_binary _ _ P H32) (tx_len _ _) Nb). rewrite R, Rb in Tc. cbn [bind] in Tc.
  rewrite (zero_buffer _ _ _ W).
  assert (G := arithmetic_shift_right_wres m _ _ _ _ _ W Wb P). cbn [words] in G.
  destruct (wres_is_bv _ _ _ H32 (wrap_lt _ _) G) as (r & -> & Wf). cbn [bind].
  rewrite (print_same _ _ _ _ _ (arithmetic_shift_right_ok m _ _ _ _ _ W Wb P) Wf Tc). cbn [bind].
  rewrite N.eqb_refl, (unused_ok _ _ _ Wf), min_first, same_refl. reflexivity.
Qed.

Lemma below_bits n w : (forall i, w <= i -> N.testbit n i = false) -> n < 2 ^ w.
Proof.
  intros H. assert (n = n mod 2 ^ w) as ->; [|apply N.mod_lt, N.pow_nonzero; lia].
  apply N.bits_inj. intros i. destruct (N.ltb_spec i w) as [L|L].
  - now rewrite N.mod_pow2_bits_low.
  - rewrite N.mod_pow2_bits_high by auto. auto.
Qed.

Lemma mod_below n a w : w <= a ->
  (n mod 2 ^ a < 2 ^ w <-> forall i, i < a - w -> N.testbit n (i + w) = false).
Proof.
  intros Ha. split; intros H.
  - intros i Hi. rewrite <- (N.mod_pow2_bits_low n a) by lia. apply (high_bit _ w); auto. lia.
  - apply below_bits. intros i Hi. destruct (N.ltb_spec i a) as [L|L].
    + rewrite N.mod_pow2_bits_low by auto. replace i with (i - w + w) by lia. apply H. lia.
    + now apply N.mod_pow2_bits_high.
Qed.

Lemma zeros_tx u f : Forall (fun c => c = 48) (tx u f) <-> forall i, i < u -> f i = false.
Proof.
  unfold tx. split.
  - intros H i Hi. assert (G : forall k, Forall (fun c => c = 48) (chars k f) -> forall i, i < N.of_nat k -> f i = false).
    { induction k as [|k IH]; intros Hk j Hj; [lia|]. cbn [chars] in Hk. inversion Hk as [|? ? H1 H2]. subst.
      destruct (N.eq_dec j (N.of_nat k)) as [->|Hn]; [|apply IH; auto; lia]. unfold ch in H1. destruct (f _); auto; discriminate. }
    apply (G _ H). lia.
  - intros H. assert (G : forall k, (k <= N.to_nat u)%nat -> Forall (fun c => c = 48) (chars k f)).
    { induction k as [|k IH]; intros Hk; cbn [chars]; constructor; [|apply IH; lia]. rewrite H by lia. reflexivity. }
    apply G. lia.
Qed.


Lemma test_shift_left_run m s k : binary s -> amount s k ->
  exists b, do_test_shift_left m s k = Ok b
    /\ (b = true <-> k mod 64 <> 0 \/ len s <= k
          \/ Forall (fun c => c = 48) (rest (k - unused (len s)) (first k s))).
Proof.
  intros Hs (K1 & K2). unfold do_test_shift_left, do_test_shift.
  assert (H32 : len s < 2 ^ 32) by apply Hs.
  assert (Tc : forall b, binary b -> len b = len s -> number 2 b = Some k -> _)
    by exact (fun b Hb => text_shift_left m s b k Hs Hb).
  destruct (bits_in m s Hs) as (l & x & -> & R & W & _ & Ts & P). cbn [bind].
  rewrite amount_text by auto. cbn [bind].
  destruct (amount_in m k (len s) P H32 K2) as (lb & -> & Rb & Wb & Nb). cbn [bind].
  specialize (Tc _ (tx_binary _ _ P H32) (tx_len _ _) Nb). rewrite R, Rb in Tc. cbn [bind] in Tc.
  rewrite (zero_buffer _ _ _ W).
  destruct (shift_left_raw m _ _ _ _ _ W Wb P) as (r & Er & Lr & Wr & Vr). rewrite Er in Tc. cbn [bind] in Tc.
  destruct (shift_left_wres m _ _ _ _ _ W Wb P) as (r' & Er' & Lr' & Wr' & Vr'). cbn [words] in Er'. rewrite Er'.
  assert (r' = r) as ->. { apply wv_inj; auto; congruence. }
  cbn [bind]. unfold bv_to_bit_str in Tc. cbn [words width] in Tc. rewrite Tc. cbn [bind].
  eexists. split; [reflexivity|]. rewrite N.eqb_refl, min_rest, same_refl, andb_true_r. cbn [andb].
  rewrite unused_iff by auto. rewrite Vr. clear Tc Er Er' Vr Vr' R Rb Wb Nb.
  assert (Bx := is_bv_lt _ _ _ W).
  assert (Pw : 0 < 2 ^ len s) by (apply N.neq_0_lt_0, N.pow_nonzero; lia).
  destruct (N.leb_spec (len s) k) as [H|H]; [clear - H Pw; split; [right; left; auto|intros _; auto]|].
  destruct (N.eqb_spec (k mod 64) 0) as [E|E].
  2:{ split; [left; auto|intros _]. apply N.mod_lt, N.pow_nonzero. lia. }
  rewrite mod_below by (clear; dlia). unfold unused.
  set (u := 64 * ((len s + 63) / 64) - len s).
  assert (Hu : u <= k \/ k = 0) by (unfold u; clear - E H P; dlia).
  destruct Hu as [Hu|Hu].
  - assert (F : rest (k - u) (first k s) = tx u (fun i => N.testbit x (i + (len s - k)))).
    { rewrite Ts at 1. rewrite (tx_first (len s) k (len s - k)) by (clear - H; lia).
      now rewrite (tx_rest k (k - u) u) by (clear - Hu; lia). }
    rewrite F, zeros_tx.
    assert (Q : forall i, N.testbit (x * 2 ^ k) (i + len s) = N.testbit x (i + (len s - k))).
    { intros i. rewrite N.mul_pow2_bits_high by (clear - H; lia). f_equal. clear - H. lia. }
    split.
    + intros G. right. right. intros i Hi. rewrite <- Q. auto.
    + intros [G|[G|G]]; [easy|clear - G H; lia|]. intros i Hi. rewrite Q. auto.
  - subst k. replace (rest (0 - u) (first 0 s)) with (@nil N) by (unfold rest, first; change (N.to_nat 0) with O; cbn [firstn]; now rewrite skipn_nil).
    split; [right; right; constructor|]. intros _ i _. rewrite N.pow_0_r, N.mul_1_r. apply (high_bit _ (len s)); auto. clear. lia.
Qed.

Lemma test_shift_left_iff s k : binary s -> amount s k ->
  (passes (fun m => do_test_shift_left m s k)
   <-> k mod 64 <> 0 \/ len s <= k \/ Forall (fun c => c = 48) (rest (k - unused (len s)) (first k s))).
Proof.
  intros Hs Hk. split.
  - intros H. destruct (test_shift_left_run Debug s k Hs Hk) as (b & E & B). rewrite H in E. injection E as <-. now apply B.
  - intros H m. destruct (test_shift_left_run m s k Hs Hk) as (b & -> & B). f_equal. now apply B.
Qed.

(** ** big integers *)

Lemma size_le n k : n < 2 ^ k -> N.size n <= k.
Proof.
  intros H. destruct (N.eq_dec n 0) as [->|Hn]; [cbn [N.size]; lia|]. rewrite N.size_log2 by auto.
  assert (N.log2 n < k) by (apply N.log2_lt_pow2; lia). lia.
Qed.

Lemma small_abs w z : 0 < w -> small w z -> Z.abs_N z < 2 ^ (w - 1).
Proof.
  unfold small. intros Hw H. apply N2Z.inj_lt. rewrite N2Z.inj_abs_N, N2Z.inj_pow.
  now replace (Z.of_N (w - 1)) with (Z.of_N w - 1)%Z by lia.
Qed.
Lemma small_fits w z : small w z -> fits w z.
Proof. unfold small, fits. lia. Qed.

Lemma big_words_ok m z w : 0 < w -> w < 2 ^ 32 -> small w z ->
  exists l, big_words m z w = Ok l /\ bv_from_big_int m z w = Ok (mkbv w l) /\ is_bv (mkbv w l) w (wrap w z).
Proof.
  intros H0 H1 S. unfold big_words. assert (B := size_le _ _ (small_abs w z H0 S)).
  replace (N.size (Z.abs_N z) <? w) with true by lia.
  destruct (big_in m z w H0 H1) as (v & E & V). revert E. unfold bv_from_big_int.
  destruct (from_big_int m z w (value_vec_zeros w)) as [l|]; [|discriminate]. cbn [bind]. intros [= <-]. eauto.
Qed.

Lemma ubig_words_ok m n w : w < 2 ^ 32 -> n < 2 ^ w ->
  exists l, ubig_words m n w = Ok l /\ is_bv (mkbv w l) w n.
Proof.
  intros H1 S. unfold ubig_words. assert (B := size_le _ _ S).
  replace (N.size n <=? w) with true by lia.
  destruct (ubig_in m n w H1 S) as (v & E & V). revert E. unfold bv_from_big_uint.
  destruct (from_big_uint m n w (value_vec_zeros w)) as [l|]; [|discriminate]. cbn [bind]. intros [= <-]. eauto.
Qed.

Lemma expected_wrap w z : Z.abs_N (Z.land z (2 ^ Z.of_N w - 1)) = wrap w z.
Proof.
  rewrite Z.sub_1_r, <- Z.ones_equiv. unfold wrap. rewrite Z.land_ones by lia.
  rewrite Zabs2N.abs_N_nonneg; auto. apply Z.mod_pos_bound, Z.pow_pos_nonneg; lia.
Qed.

Lemma arith_passes our op big m a b w : 0 < w -> w < 2 ^ 32 -> small w a -> small w b ->
  (forall la lb x y, is_bv (mkbv w la) w x -> is_bv (mkbv w lb) w y ->
     exists r, our m (value_vec_zeros w) la lb w = Ok r /\ op (mkbv w la) (mkbv w lb) = Ok (mkbv w r)
       /\ exists n, is_bv (mkbv w r) w n) ->
  (forall x y, bv_from_big_int m a w = Ok x -> bv_from_big_int m b w = Ok y -> yields (op x y) w (wrap w (big a b))) ->
  do_test_arith our big m a b w = Ok true.
Proof.
  intros H0 H1 Sa Sb F G. unfold do_test_arith.
  destruct (big_words_ok m a w H0 H1 Sa) as (la & -> & Ea & Wa). cbn [bind].
  destruct (big_words_ok m b w H0 H1 Sb) as (lb & -> & Eb & Wb). cbn [bind].
  destruct (F _ _ _ _ Wa Wb) as (r & -> & Eo & n & Wr). cbn [bind]. rewrite expected_wrap.
  destruct (ubig_words_ok m (wrap w (big a b)) w H1 (wrap_lt _ _)) as (e & -> & We). cbn [bind].
  rewrite (unused_ok _ _ _ Wr). cbn [andb]. f_equal. apply same_eq.
  destruct (G _ _ Ea Eb) as (v & Ev & V). rewrite Eo in Ev. injection Ev as <-.
  assert (E := is_bv_unique _ _ _ _ V We). now injection E.
Qed.

Lemma op_words (our : mode -> list N -> list N -> list N -> N -> res (list N)) m la lb w x y n :
  w < 2 ^ 32 -> n < 2 ^ w -> is_bv (mkbv w la) w x -> is_bv (mkbv w lb) w y ->
  wres (our m (value_vec_zeros w) la lb w) w n ->
  exists r, our m (value_vec_zeros w) la lb w = Ok r /\ arith_bin_fn our m (mkbv w la) (mkbv w lb) = Ok (mkbv w r)
    /\ exists n, is_bv (mkbv w r) w n.
Proof.
  intros Hw Hn Wa Wb G. destruct (wres_is_bv _ _ _ Hw Hn G) as (r & E & R). exists r. split; auto. split; eauto.
  eapply arith_bin_fn_ok; eauto. eapply bv_len; eauto.
Qed.

Lemma mod_pow_lt x w : x mod 2 ^ w < 2 ^ w.
Proof. apply N.mod_lt, N.pow_nonzero. lia. Qed.

Lemma test_add_ok a b w : 0 < w -> w < 2 ^ 32 -> small w a -> small w b -> passes (fun m => do_test_add m a b w).
Proof.
  intros H0 H1 Sa Sb m. apply (arith_passes _ (bv_add m)); auto.
  - intros la lb x y Wa Wb. exact (op_words _ m la lb w x y _ H1 (mod_pow_lt _ _) Wa Wb (add_wres m _ _ _ _ _ H0 Wa Wb)).
  - intros x y Ex Ey. destruct (big_ring m a b w H0 H1) as (x' & y' & Ex' & Ey' & Y & _). congruence.
Qed.
Lemma test_sub_ok a b w : 0 < w -> w < 2 ^ 32 -> small w a -> small w b -> passes (fun m => do_test_sub m a b w).
Proof.
  intros H0 H1 Sa Sb m. apply (arith_passes _ (bv_sub m)); auto.
  - intros la lb x y Wa Wb. exact (op_words _ m la lb w x y _ H1 (wrap_lt _ _) Wa Wb (sub_wres m _ _ _ _ _ H0 Wa Wb)).
  - intros x y Ex Ey. destruct (big_ring m a b w H0 H1) as (x' & y' & Ex' & Ey' & _ & Y & _). congruence.
Qed.
Lemma test_mul_iff a b w : 0 < w -> w < 2 ^ 32 -> small w a -> small w b ->
  (passes (fun m => do_test_mul m a b w) <-> w <= 64).
Proof.
  intros H0 H1 Sa Sb. split.
  - intros H. destruct (N.le_gt_cases w 64) as [C|C]; auto. exfalso. specialize (H Debug).
    unfold do_test_mul, do_test_arith in H.
    destruct (big_words_ok Debug a w H0 H1 Sa) as (la & Ea & _). rewrite Ea in H. cbn [bind] in H.
    destruct (big_words_ok Debug b w H0 H1 Sb) as (lb & Eb & _). rewrite Eb in H. cbn [bind] in H.
    unfold ar_mul in H. replace (w <=? 64) with false in H by lia. discriminate.
  - intros C m. apply (arith_passes _ (bv_mul m)); auto.
    + intros la lb x y Wa Wb. exact (op_words _ m la lb w x y _ H1 (mod_pow_lt _ _) Wa Wb (mul_wres m _ _ _ _ _ H0 C Wa Wb)).
    + intros x y Ex Ey. destruct (big_ring m a b w H0 H1) as (x' & y' & Ex' & Ey' & _ & _ & _ & Y).
      specialize (Y C). congruence.
Qed.

Lemma cmp_equal_ok l k w x y : is_bv (mkbv w l) w x -> is_bv (mkbv w k) w y -> ar_cmp_equal l k = (x =? y).
Proof.
  intros Wa Wb. destruct (equal_cases Debug _ _ _ _ _ Wa Wb) as (E & _).
  unfold bv_is_equal in E. cbn [words width] in E. rewrite N.eqb_refl in E. cbn [debug_assert bind] in E.
  rewrite (bv_len _ _ _ Wa), (bv_len _ _ _ Wb), N.eqb_refl in E. cbn [debug_assert bind] in E.
  destruct (_ =? 1); now injection E.
Qed.

Lemma signed_test our big m a b w : 0 < w -> w < 2 ^ 32 -> small w a -> small w b ->
  (forall la lb, is_bv (mkbv w la) w (wrap w a) -> is_bv (mkbv w lb) w (wrap w b) -> our m la lb w = Ok (big a b)) ->
  do_test_cmp_signed our big m a b w = Ok true.
Proof.
  intros H0 H1 Sa Sb F. unfold do_test_cmp_signed.
  destruct (big_words_ok m a w H0 H1 Sa) as (la & -> & Ea & Wa). cbn [bind].
  destruct (big_words_ok m b w H0 H1 Sb) as (lb & -> & Eb & Wb). cbn [bind].
  rewrite (F _ _ Wa Wb). cbn [bind]. now rewrite Bool.eqb_reflx.
Qed.

Lemma unsigned_test our big m a b w : 0 < w -> w < 2 ^ 32 -> small w a -> small w b ->
  (forall la lb x y, is_bv (mkbv w la) w x -> is_bv (mkbv w lb) w y -> our la lb = big x y) ->
  do_test_cmp_unsigned our big m a b w = Ok true.
Proof.
  intros H0 H1 Sa Sb F. unfold do_test_cmp_unsigned.
  assert (M : 2 ^ (w - 1) <= 2 ^ w) by (apply N.pow_le_mono_r; lia).
  destruct (ubig_words_ok m (Z.abs_N a) w H1) as (la & -> & Wa). { eapply N.lt_le_trans; [apply small_abs; eauto|auto]. }
  destruct (ubig_words_ok m (Z.abs_N b) w H1) as (lb & -> & Wb). { eapply N.lt_le_trans; [apply small_abs; eauto|auto]. }
  cbn [bind]. rewrite (F _ _ _ _ Wa Wb). now rewrite Bool.eqb_reflx.
Qed.

Lemma test_compare_ok a b w : 0 < w -> w < 2 ^ 32 -> small w a -> small w b ->
  passes (fun m => do_test_cmp_greater m a b w) /\ passes (fun m => do_test_cmp_greater_equal m a b w)
  /\ passes (fun m => do_test_cmp_equal m a b w).
Proof.
  intros H0 H1 Sa Sb. split; [|split]; intros m; apply unsigned_test; auto; intros la lb x y Wa Wb.
  - apply is_bv_inv in Wa as (_ & _ & La & Fa & <- & _), Wb as (_ & _ & Lb & Fb & <- & _).
    cbn [words] in *. apply cmp_greater_ok; congruence.
  - apply is_bv_inv in Wa as (_ & _ & La & Fa & <- & _), Wb as (_ & _ & Lb & Fb & <- & _).
    cbn [words] in *. apply cmp_greater_equal_ok; congruence.
  - eapply cmp_equal_ok; eauto.
Qed.

Lemma test_compare_signed_ok a b w : 0 < w -> w < 2 ^ 32 -> small w a -> small w b ->
  passes (fun m => do_test_cmp_greater_signed m a b w) /\ passes (fun m => do_test_cmp_greater_equal_signed m a b w)
  /\ passes (fun m => do_test_cmp_equal_signed m a b w).
Proof.
  intros H0 H1 Sa Sb. assert (Fa := small_fits _ _ Sa). assert (Fb := small_fits _ _ Sb).
  split; [|split]; intros m; apply signed_test; auto; intros la lb Wa Wb.
  1,2: assert (Na := is_neg_ok m _ w _ H0 Wa); assert (Nb := is_neg_ok m _ w _ H0 Wb); cbn [words] in Na, Nb;
    assert (Ba := is_bv_lt _ _ _ Wa); assert (Bb := is_bv_lt _ _ _ Wb);
    destruct (signed_cmp w _ _ H0 Ba Bb) as (S1 & S2); rewrite !signed_of_wrap in S1, S2 by auto;
    apply is_bv_inv in Wa as (_ & _ & La & Ga & Va & _), Wb as (_ & _ & Lb & Gb & Vb & _); cbn [words] in *.
  - unfold ar_cmp_greater_signed. rewrite Na, Nb. cbn [bind]. rewrite S1, cmp_greater_ok, Va, Vb by (auto; congruence).
    destruct (_ <=? wrap w a), (_ <=? wrap w b); auto.
  - unfold ar_cmp_greater_equal_signed. rewrite Na, Nb. cbn [bind]. rewrite S2, cmp_greater_equal_ok, Va, Vb by (auto; congruence).
    destruct (_ <=? wrap w a), (_ <=? wrap w b); auto.
  - f_equal. rewrite (cmp_equal_ok _ _ _ _ _ Wa Wb).
    destruct (Z.eqb_spec a b) as [->|Hn]; [apply N.eqb_refl|]. apply N.eqb_neq. intros E. apply Hn.
    rewrite <- (signed_of_wrap w a), <- (signed_of_wrap w b), E by auto. reflexivity.
Qed.

Lemma test_big_int_ok z : N.size (Z.abs_N z) < 2 ^ 32 - 63 -> passes (fun m => do_test_from_to_big_int m z).
Proof.
  intros H m. destruct (of_big_int_ok m z H) as (v & E & V & B). unfold do_test_from_to_big_int.
  unfold bv_of_big_int in E. destruct (count_big_int_bits m z) as [k|]; [|discriminate]. cbn [bind] in *.
  unfold bv_from_big_int, value_vec_zeros in E. destruct (from_big_int m z k _) as [l|]; [|discriminate]. cbn [bind] in *.
  injection E as <-. unfold bv_to_big_int in B. cbn [words width] in B. rewrite B. cbn [bind].
  assert (k = N.size (Z.abs_N z) + 1) as -> by apply V. now rewrite (unused_ok _ _ _ V), Z.eqb_refl.
Qed.
Lemma test_big_uint_ok n : N.size n < 2 ^ 32 - 63 -> passes (fun m => do_test_from_to_big_uint m n).
Proof.
  intros H m. destruct (of_big_uint_ok m n H) as (v & E & V & B). unfold do_test_from_to_big_uint.
  unfold bv_of_big_uint in E. destruct (count_big_uint_bits m n) as [k|]; [|discriminate]. cbn [bind] in *.
  unfold bv_from_big_uint, value_vec_zeros in E. destruct (from_big_uint m n k _) as [l|]; [|discriminate]. cbn [bind] in *.
  injection E as <-. unfold bv_to_big_uint in B. cbn [words width] in B. rewrite B. cbn [bind].
  assert (k = N.size n) as -> by apply V. now rewrite (unused_ok _ _ _ V), N.eqb_refl.
Qed.

(** ** Bytes *)

Lemma bytes_bound b : is_bytes b -> bytes_val b < 2 ^ (8 * len b).
Proof.
  induction 1 as [|x t Hx Ht IH]; cbn [bytes_val]; [reflexivity|].
  replace (8 * len (x :: t)) with (8 + 8 * len t) by (unfold len; cbn [length]; lia).
  rewrite N.pow_add_r. change (2 ^ 8) with 256. lia.
Qed.
Lemma bytes_inj a b : is_bytes a -> is_bytes b -> length a = length b -> bytes_val a = bytes_val b -> a = b.
Proof.
  intros Ha. revert b. induction Ha as [|x a Hx Ha IH]; intros [|y b] Hb L E; try discriminate; auto.
  inversion Hb; subst. cbn [bytes_val] in E. injection L as L. f_equal; [lia|]. apply IH; auto; lia.
Qed.
Lemma bytes_app a b : bytes_val (a ++ b) = bytes_val a + 2 ^ (8 * len a) * bytes_val b.
Proof.
  induction a as [|x a IH]; cbn [app bytes_val]; [now rewrite N.mul_1_l|]. rewrite IH.
  replace (8 * len (x :: a)) with (8 + 8 * len a) by (unfold len; cbn [length]; lia).
  rewrite N.pow_add_r. change (2 ^ 8) with 256. ring.
Qed.

Lemma test_bytes_ok b : is_bytes b -> 8 * len b < 2 ^ 32 -> passes (fun m => do_test_from_to_bytes_le m b).
Proof.
  intros Hb Hl m. unfold do_test_from_to_bytes_le. destruct b as [|b0 b']; [destruct m; reflexivity|].
  set (b := b0 :: b') in *. assert (N : b <> []) by discriminate.
  destruct (exists_last N) as (t & x & E). rewrite E. rewrite last_last.
  assert (S : (len (t ++ [x]) - 1) * 8 = 8 * len t).
  { rewrite len_app. unfold len. cbn [length]. clear. lia. }
  rewrite S. clear S. rewrite E in Hb, Hl. clear E N b b0 b'. rewrite len_app in Hl. change (len [x]) with 1 in Hl.
  assert (Hb' := Hb). apply Forall_app in Hb' as (Ht & Hx). inversion Hx as [|? ? Hx' _]; subst. clear Hx.
  assert (Sx : N.size x <= 8).
  { apply size_le. exact Hx'. }
  set (w := 8 * len t + N.max (N.size x) 1) in *.
  assert (Hw : w < 2 ^ 32) by (subst w; clear - Hl Sx; lia).
  assert (as_u32 w = w) as -> by (unfold as_u32; apply N.mod_small; exact Hw).
  assert (Hlen : len (t ++ [x]) <= 8 * ((w + 63) / 64)).
  { rewrite len_app. change (len [x]) with 1. subst w. clear - Sx. dlia. }
  destruct (from_bytes_le_ok m (t ++ [x]) w Hw Hb (or_intror Hlen)) as (v & Ev & V).
  unfold bv_from_bytes_le in Ev. change (repeat 0 (N.to_nat (div_ceil w 64))) with (value_vec_zeros w).
  destruct (from_bytes_le m (t ++ [x]) w (value_vec_zeros w)) as [out|]; [|discriminate].
  cbn [bind] in *. injection Ev as <-. rewrite (unused_ok _ _ _ V). cbn [andb].
  f_equal. apply same_eq. destruct (to_bytes_le_ok _ _ _ V) as (L & B & Vl).
  unfold bv_to_bytes_le in *. cbn [width words] in *. apply bytes_inj; auto.
  - assert (L' : len (to_bytes_le out w) = len (t ++ [x])).
    { rewrite L, len_app. change (len [x]) with 1. subst w. clear - Sx. dlia. }
    unfold len in L'. clear - L'. lia.
  - rewrite Vl. apply N.mod_small. rewrite bytes_app. cbn [bytes_val]. rewrite N.mul_0_r, N.add_0_r.
    apply N.lt_le_trans with (2 ^ (8 * len t) * 2 ^ N.size x).
    + assert (X := N.size_gt x). assert (T := bytes_bound t Ht).
      apply N.lt_le_trans with (2 ^ (8 * len t) * (1 + x)); [clear - T; lia|].
      apply N.mul_le_mono_l. clear - X; lia.
    + rewrite <- N.pow_add_r. apply pow_le. subst w. clear. lia.
Qed.

(** ** Texts *)

Lemma parse_words m s r v : bv_from_str_radix m s r (width v) = Ok (Parsed v) ->
  parsed_words (from_str_radix m s r (value_vec_zeros (width v)) (width v)) = Ok (words v).
Proof.
  unfold bv_from_str_radix, bv_assign_from_str_radix, bv_zero, parsed_words. cbn [width words].
  destruct (from_str_radix m s r (value_vec_zeros (width v)) (width v)) as [[o [e|]]|]; cbn [bind]; try discriminate.
  intros [= H]. now rewrite <- H.
Qed.
Lemma text_words m s r v : (r = 2 /\ bv_from_bit_str m s = Ok (Parsed v) \/ r = 16 /\ bv_from_hex_str m s = Ok (Parsed v)) ->
  determine_width_from_str_radix m s r = Ok (width v)
  /\ parsed_words (from_str_radix m s r (value_vec_zeros (width v)) (width v)) = Ok (words v).
Proof.
  assert (G : (let* w := determine_width_from_str_radix m s r in bv_from_str_radix m s r w) = Ok (Parsed v) ->
    determine_width_from_str_radix m s r = Ok (width v)
    /\ parsed_words (from_str_radix m s r (value_vec_zeros (width v)) (width v)) = Ok (words v)).
  { destruct (determine_width_from_str_radix m s r) as [w|]; [|discriminate]. cbn [bind]. intros E.
    assert (w = width v) as ->; [|auto using parse_words].
    unfold bv_from_str_radix, bv_assign_from_str_radix in E. cbn [bv_zero width words] in E.
    destruct (from_str_radix m s r (value_vec_zeros w) w) as [[o [e|]]|]; cbn [bind] in E; try discriminate.
    now injection E as <-. }
  intros [(-> & E) | (-> & E)]; auto.
Qed.

Lemma zeros_number b s n : 0 < b -> 2 ^ b <= 36 -> number (2 ^ b) s = Some n ->
  forallb (fun c => c =? 48) s = (n =? 0).
Proof.
  intros Hb H36 Hn. apply Bool.eq_true_iff_eq. rewrite forallb_forall, N.eqb_eq.
  revert n Hn. induction s as [|c t IH]; cbn [number]; intros n Hn.
  { injection Hn as <-. split; [reflexivity|intros _ x []]. }
  destruct (digit_value (2 ^ b) c) as [d|] eqn:Hd; [|discriminate].
  destruct (number (2 ^ b) t) as [k|]; [|discriminate]. injection Hn as <-.
  specialize (IH k eq_refl).
  assert (D : c = 48 <-> d = 0).
  { unfold digit_value in Hd.
    repeat match type of Hd with context [if ?q then _ else _] => destruct q eqn:? end; try discriminate;
      injection Hd as <-; lia. }
  assert (P : (2 ^ b) ^ N.of_nat (length t) <> 0) by (apply N.pow_nonzero, N.pow_nonzero; lia).
  split.
  - intros H. assert (c = 48) by (apply N.eqb_eq, H; now left). apply D in H0. subst d.
    assert (k = 0) as -> by (apply IH; intros x Hx; apply H; now right). reflexivity.
  - intros H. assert (d = 0).
    { apply N.eq_add_0 in H as (H & _). apply N.eq_mul_0 in H as [H|H]; [auto|contradiction]. }
    subst d. rewrite N.mul_0_l in H. cbn in H. intros x [<-|Hx]; [apply N.eqb_eq; now apply D|].
    now apply IH.
Qed.

Lemma digits_lower s : Forall (fun c => c = 48 \/ c = 49) s -> map lower s = s.
Proof. induction 1 as [|c t [-> | ->] H IH]; cbn [map]; [auto| |]; now rewrite IH. Qed.

Lemma expected_digits r s n : s <> [] -> number r s = Some n -> expected s = s.
Proof.
  intros Hs Hn. destruct (digits_head _ _ _ Hs Hn) as (c & t & -> & N1 & N2). unfold expected.
  apply N.eqb_neq in N1, N2. now rewrite ?N1, ?N2.
Qed.
Lemma starts_digits r s n : s <> [] -> number r s = Some n -> starts 43 s = false /\ starts 45 s = false.
Proof.
  intros Hs Hn. destruct (digits_head _ _ _ Hs Hn) as (c & t & -> & N1 & N2). unfold starts.
  apply N.eqb_neq in N1, N2. split; assumption.
Qed.

(** a negative number prints as its digits behind a minus sign *)
Lemma minus_value w n x : 0 < w -> n < 2 ^ (w - 1) -> x < 2 ^ w -> signed w x = (- Z.of_N n)%Z ->
  (2 ^ (w - 1) <=? x) = negb (n =? 0) /\ (if 2 ^ (w - 1) <=? x then 2 ^ w - x else x) = n.
Proof.
  intros Hw Hn Hx E. assert (T : 2 ^ w = 2 * 2 ^ (w - 1)).
  { replace w with (N.succ (w - 1)) at 1 by lia. now rewrite N.pow_succ_r'. }
  unfold signed in E.
  destruct (x <? 2 ^ (w - 1)) eqn:A.
  - assert (Z.of_N x = (- Z.of_N n)%Z) by exact E.
    replace (2 ^ (w - 1) <=? x) with false by lia. split; lia.
  - assert (E2 : (Z.of_N x - Z.of_N (2 ^ w))%Z = (- Z.of_N n)%Z) by (rewrite N2Z.inj_pow; exact E).
    replace (2 ^ (w - 1) <=? x) with true by lia. split; lia.
Qed.

Lemma bits_words_len l w s : 0 < w -> to_bit_str l w = Ok s -> len s + 64 = (w - 1) mod 64 + 1 + 64 * len l.
Proof.
  intros Hw. unfold to_bit_str, to_bit_str_internal. replace (w =? 0) with false by lia.
  unfold last_opt. destruct (exists_last (l := 0 :: l)) as (t0 & x0 & _); [discriminate|].
  destruct l as [|a l'] using rev_ind; [discriminate|]. clear IHl' t0 x0. rewrite rev_unit.
  cbn [unwrap bind skipn app]. intros [= <-].
  assert (G : forall k o, len (fold_left (fun out word => out ++ map (bit_char word) (rev (upto 64))) k o) = len o + 64 * len k).
  { induction k as [|y k IH]; intros o; cbn [fold_left]; [unfold len; cbn [length]; lia|].
    rewrite IH, len_app. unfold len. rewrite map_length. cbn [length].
    change (length (rev (upto 64))) with 64%nat. lia. }
  rewrite G, len_app. unfold len. rewrite map_length, !rev_length.
  unfold upto. rewrite map_length, seq_length. cbn [length]. lia.
Qed.

Lemma bit_str_match m d n : d <> [] -> Forall (fun c => c = 48 \/ c = 49) d -> number 2 d = Some n ->
  len d < 2 ^ 32 -> exists v, bv_from_bit_str m d = Ok (Parsed v) /\ is_bv v (len d) n /\ bv_to_bit_str v = Ok d.
Proof.
  intros Hd Hb Hn Hl. destruct (bit_str_parse m d Hd Hb Hl) as (v & n' & E1 & E2 & E3 & E4).
  rewrite Hn in E1. injection E1 as <-. eauto.
Qed.

Lemma ok_inj {A} (a b : A) : Ok a = Ok b -> a = b.
Proof. now intros [= ->]. Qed.
Lemma same_len a b : same a b = true -> len a = len b.
Proof. intros H. now apply same_eq in H as ->. Qed.

Lemma test_bit_str_iff sg d : sg = [] \/ sg = [43] \/ sg = [45] -> binary d -> len (sg ++ d) < 2 ^ 32 ->
  (passes (fun m => do_test_from_to_bit_str m (sg ++ d)) <-> sg = [] \/ len d mod 64 <> 0).
Proof.
  intros Hsg (Hd & Hb & Hl) Hl2. destruct (binary_number d Hb) as (n & Hn).
  assert (Ld : 0 < len d) by (destruct d; [easy|unfold len; cbn [length]; lia]).
  assert (Bn : n < 2 ^ len d).
  { destruct (bit_str_match Debug d n Hd Hb Hn Hl) as (v & _ & V & _). now apply (is_bv_lt _ _ _ V). }
  destruct Hsg as [-> | [-> | ->]]; cbn [app] in *.
  - split; [auto|intros _ m]. unfold do_test_from_to_bit_str.
    destruct (bit_str_match m d n Hd Hb Hn Hl) as (v & E & V & P).
    destruct (text_words m d 2 v (or_introl (conj eq_refl E))) as (Wd & Ps).
    assert (Ew : width v = len d) by apply V. rewrite Ew in *.
    rewrite Wd. cbn [bind]. change (repeat 0 (N.to_nat (div_ceil (len d) 64))) with (value_vec_zeros (len d)).
    rewrite Ps. cbn [bind]. destruct (starts_digits _ _ _ Hd Hn) as (S1 & S2). rewrite S1, S2.
    unfold bv_to_bit_str in P. rewrite Ew in P. rewrite P. cbn [bind].
    destruct v as [wv0 lv0]. cbn [width words] in *. subst wv0.
    now rewrite N.eqb_refl, (unused_ok _ _ _ V), (expected_digits _ _ _ Hd Hn), same_refl.
  - assert (L1 : len (43 :: d) = len d + 1) by (unfold len; cbn [length]; lia).
    unfold do_test_from_to_bit_str, passes. change (starts 45 (43 :: d)) with false. change (starts 43 (43 :: d)) with true.
    change (expected (43 :: d)) with d. cbn iota.
    split.
    + intros H. right. intros M. specialize (H Release). destruct (bit_str_match Release d n Hd Hb Hn Hl) as (v & E & V & P).
      rewrite <- (plus_bits Release d n Hd Hn Hl) in E.
      destruct (text_words Release _ 2 v (or_introl (conj eq_refl E))) as (Wd & Ps).
      assert (Ew : width v = len d) by apply V. rewrite Ew in *. rewrite Wd in H. cbn [bind] in H.
      rewrite div_ceil_eq in H.
      set (buf := repeat 0 (N.to_nat ((len (43 :: d) + 63) / 64))) in H.
      assert (Lb : len buf = (len (43 :: d) + 63) / 64).
      { unfold buf, len at 1. rewrite repeat_length. lia. }
      assert (Wb : Words buf) by (unfold buf; apply Forall_forall; intros y Hy; apply repeat_spec in Hy; subst; reflexivity).
      assert (G := gives_parse Release (43 :: d) 2 buf (len d) _ Lb Wb). unfold gives2, parsed_words in *.
      destruct (from_str_radix Release (43 :: d) 2 buf (len d)) as [[o e]|]; [|discriminate].
      specialize (G o e eq_refl). destruct e; [discriminate|]. cbn [bind] in H.
      destruct (to_bit_str o (len d)) as [t|] eqn:T; [|discriminate]. cbn [bind] in H.
      apply bits_words_len in T; [|exact Ld]. injection H as H. apply andb_prop in H as (_ & H). apply same_len in H.
      destruct G as (G & _). rewrite G, H, L1 in T. clear - T M Ld. dlia.
    + intros [H|H] m; [discriminate|]. destruct (bit_str_match m d n Hd Hb Hn Hl) as (v & E & V & P).
      rewrite <- (plus_bits m d n Hd Hn Hl) in E.
      destruct (text_words m _ 2 v (or_introl (conj eq_refl E))) as (Wd & Ps).
      assert (Ew : width v = len d) by apply V. rewrite Ew in *. rewrite Wd. cbn [bind].
      replace (repeat 0 (N.to_nat (div_ceil (len (43 :: d)) 64))) with (value_vec_zeros (len d)).
      2:{ unfold value_vec_zeros. rewrite !div_ceil_eq, L1. do 2 f_equal. clear - H Ld. dlia. }
      rewrite Ps. cbn [bind]. unfold bv_to_bit_str in P. rewrite Ew in P. rewrite P. cbn [bind].
      destruct v as [wv0 lv0]. cbn [width words] in *. subst wv0.
      rewrite (unused_ok _ _ _ V), same_refl, L1. replace (len d =? len d + 1 - 1) with true by lia. reflexivity.
  - assert (L1 : len (45 :: d) = len d + 1) by (unfold len; cbn [length]; lia). rewrite L1 in Hl2.
    unfold do_test_from_to_bit_str, passes. change (starts 45 (45 :: d)) with true. change (starts 43 (45 :: d)) with false.
    cbn iota.
    assert (Run : forall m, (let* w := determine_width_from_str_radix m (45 :: d) 2 in
      let* out := parsed_words (from_str_radix m (45 :: d) 2 (repeat 0 (N.to_nat (div_ceil (len (45 :: d)) 64))) w) in
      let* o := to_bit_str_signed m out w in
      Ok ((w =? len (45 :: d)) && unused_zero out w && same o (expected (45 :: d))))
      = Ok (same (let K := N.to_nat (if (len d + 1) mod 64 =? 1 then len d + 1 + 63 else len d) in
             if n =? 0 then dt 1 K n else 45 :: dt 1 K n) (expected (45 :: d)))).
    { intros m. destruct (minus_bits m d n Hd Hn Hl2) as (v & x & E & V & Sx).
      destruct (text_words m _ 2 v (or_introl (conj eq_refl E))) as (Wd & Ps).
      assert (Ew : width v = len d + 1) by apply V. rewrite Ew in *. rewrite Wd. cbn [bind].
      rewrite L1. change (repeat 0 (N.to_nat (div_ceil (len d + 1) 64))) with (value_vec_zeros (len d + 1)).
      rewrite Ps. cbn [bind]. assert (R := bit_signed_raw m v _ x V ltac:(clear - Ld; lia)). cbv zeta in R.
      destruct (minus_value (len d + 1) n x) as (Mx & Mn).
      { clear; lia. } { now replace (len d + 1 - 1) with (len d) by lia. } { exact (is_bv_lt _ _ _ V). } { exact Sx. }
      rewrite Mx in R, Mn. unfold bv_to_bit_str_signed in R. rewrite Ew in R. rewrite R. cbn [bind].
      destruct v as [wv0 lv0]. cbn [width words] in *. subst wv0. rewrite (unused_ok _ _ _ V), N.eqb_refl. cbn [andb].
      f_equal. f_equal. replace (len d + 1 - 1) with (len d) by lia.
      destruct (n =? 0); cbn [negb] in *; rewrite Mn; reflexivity. }
    assert (Xp : expected (45 :: d) = if n =? 0 then d else 45 :: d).
    { unfold expected. change (45 =? 43) with false. change (45 =? 45) with true. cbn [andb]. cbn iota.
      now rewrite (zeros_number 1 d n) by (try exact Hn; vm_compute; first [reflexivity|discriminate]). }
    split.
    + intros H. right. intros M. specialize (H Debug). rewrite Run, Xp in H. cbv zeta in H. apply ok_inj in H.
      apply same_len in H. replace ((len d + 1) mod 64 =? 1) with true in H by (clear - M; dlia).
      assert (Lk : forall k, len (dt 1 k n) = N.of_nat k) by (intros k; unfold len; now rewrite dt_len).
      destruct (n =? 0); [|rewrite L1 in H; replace (len (45 :: dt 1 (N.to_nat (len d + 1 + 63)) n))
        with (len (dt 1 (N.to_nat (len d + 1 + 63)) n) + 1) in H by (unfold len; cbn [length]; lia)];
        rewrite Lk in H; clear - H; lia.
    + intros [H|H] m; [discriminate|]. rewrite Run. cbv zeta. rewrite Xp.
      replace ((len d + 1) mod 64 =? 1) with false by (clear - H; dlia).
      replace (N.to_nat (len d)) with (length d) by (unfold len; lia).
      rewrite (dt_number 1 d n) by (try exact Hn; vm_compute; first [reflexivity|discriminate]). rewrite digits_lower by auto. now rewrite same_refl.
Qed.

Lemma test_hex_str_ok sg d : sg = [] \/ sg = [43] \/ sg = [45] -> d <> [] -> Forall hex_digit d -> len d < 2 ^ 30 ->
  (sg = [45] -> 4 * len d + 1 < 2 ^ 32) -> passes (fun m => do_test_from_to_hex_str m (sg ++ d)).
Proof.
  intros Hsg Hd Hb Hl Hl2 m. destruct (hex_number d Hb) as (n & Hn).
  assert (Ld : 0 < len d) by (destruct d; [easy|unfold len; cbn [length]; lia]).
  assert (P : exists v, bv_from_hex_str m d = Ok (Parsed v) /\ is_bv v (4 * len d) n /\ bv_to_hex_str m v = Ok (map lower d)).
  { destruct (hex_str_parse m d Hd Hb Hl) as (v & n' & E1 & E2 & E3 & E4). rewrite Hn in E1. injection E1 as <-. eauto. }
  destruct P as (v & E & V & P). assert (Bn := is_bv_lt _ _ _ V). assert (Ew : width v = 4 * len d) by apply V.
  unfold bv_to_hex_str in P. rewrite Ew in P. unfold do_test_from_to_hex_str.
  destruct Hsg as [-> | [-> | ->]]; cbn [app] in *.
  - destruct (text_words m d 16 v (or_intror (conj eq_refl E))) as (Wd & Ps). rewrite Ew in *.
    rewrite Wd. cbn [bind]. change (repeat 0 (N.to_nat (div_ceil (4 * len d) 64))) with (value_vec_zeros (4 * len d)).
    rewrite Ps. cbn [bind]. destruct (starts_digits _ _ _ Hd Hn) as (S1 & S2). rewrite S1, S2, P. cbn [bind].
    destruct v as [wv0 lv0]. cbn [width words] in *. subst wv0.
    rewrite (unused_ok _ _ _ V), (expected_digits _ _ _ Hd Hn), same_refl.
    now replace (4 * len d =? len d * 4) with true by (clear; lia).
  - rewrite <- (plus_hex m d n Hd Hn Hl) in E.
    destruct (text_words m _ 16 v (or_intror (conj eq_refl E))) as (Wd & Ps). rewrite Ew in *.
    assert (L1 : len (43 :: d) = len d + 1) by (unfold len; cbn [length]; lia).
    change (starts 45 (43 :: d)) with false. change (starts 43 (43 :: d)) with true.
    change (expected (43 :: d)) with d. cbn iota.
    rewrite Wd. cbn [bind]. change (repeat 0 (N.to_nat (div_ceil (4 * len d) 64))) with (value_vec_zeros (4 * len d)).
    rewrite Ps. cbn [bind]. rewrite P. cbn [bind].
    destruct v as [wv0 lv0]. cbn [width words] in *. subst wv0.
    rewrite (unused_ok _ _ _ V), same_refl, L1.
    now replace (4 * len d =? (len d + 1 - 1) * 4) with true by (clear; lia).
  - clear v E V P Ew. specialize (Hl2 eq_refl).
    assert (L1 : len (45 :: d) = len d + 1) by (unfold len; cbn [length]; lia).
    change (starts 45 (45 :: d)) with true. change (starts 43 (45 :: d)) with false. cbn iota.
    destruct (minus_hex m d n Hd Hn Hl Hl2) as (v & x & E & V & Sx).
    destruct (text_words m _ 16 v (or_intror (conj eq_refl E))) as (Wd & Ps).
    assert (Ew : width v = 4 * len d + 1) by apply V. rewrite Ew in *. rewrite Wd. cbn [bind].
    change (repeat 0 (N.to_nat (div_ceil (4 * len d + 1) 64))) with (value_vec_zeros (4 * len d + 1)).
    rewrite Ps. cbn [bind]. assert (R := hex_signed_raw m v _ x V ltac:(clear - Ld; lia)). cbv zeta in R.
    destruct (minus_value (4 * len d + 1) n x) as (Mx & Mn).
    { clear; lia. } { now replace (4 * len d + 1 - 1) with (4 * len d) by lia. } { exact (is_bv_lt _ _ _ V). } { exact Sx. }
    rewrite Mx in R, Mn. unfold bv_to_hex_str_signed in R. rewrite Ew in R. rewrite R. cbn [bind].
    destruct v as [wv0 lv0]. cbn [width words] in *. subst wv0. rewrite (unused_ok _ _ _ V), L1.
    replace (4 * len d + 1 =? (len d + 1 - 1) * 4 + 1) with true by (clear; lia). cbn [andb].
    f_equal. apply same_eq. replace (N.to_nat ((4 * len d + 1 - 1 + 3) / 4)) with (length d).
    2:{ unfold len. clear. replace (4 * N.of_nat (length d) + 1 - 1 + 3) with (3 + N.of_nat (length d) * 4) by lia.
        rewrite N.div_add by discriminate. change (3 / 4) with 0. lia. }
    unfold expected. change (45 =? 43) with false. change (45 =? 45) with true. cbn [andb]. cbn iota.
    rewrite (zeros_number 4 d n) by (try exact Hn; vm_compute; first [reflexivity|discriminate]).
    destruct (n =? 0); cbn [negb] in *; rewrite Mn;
      rewrite (dt_number 4 d n) by (try exact Hn; vm_compute; first [reflexivity|discriminate]); reflexivity.
Qed.

Lemma test_decimal_iff sg d : sg = [] \/ sg = [43] \/ sg = [45] -> binary d -> len (sg ++ d) < 2 ^ 32 ->
  (passes (fun m => do_test_to_from_decimal_str m (sg ++ d))
   <-> (if starts 45 sg then len d + 1 else len d) <= 128).
Proof.
  intros Hsg (Hd & Hb & Hl) Hl2. destruct (binary_number d Hb) as (n & Hn).
  assert (Ld : 0 < len d) by (destruct d; [easy|unfold len; cbn [length]; lia]).
  set (w := if starts 45 sg then len d + 1 else len d).
  assert (V : forall m, exists v x, bv_from_bit_str m (sg ++ d) = Ok (Parsed v) /\ is_bv v w x).
  { intros m. destruct (bit_str_match m d n Hd Hb Hn Hl) as (v & E & V & _).
    destruct Hsg as [-> | [-> | ->]]; cbn [app] in *; unfold w.
    - exists v, n. split; [exact E|exact V].
    - exists v, n. split; [now rewrite (plus_bits m d n Hd Hn Hl)|exact V].
    - destruct (minus_bits m d n Hd Hn) as (v' & x & E' & V' & _).
      { unfold len in *. cbn [length] in Hl2. clear - Hl2. lia. }
      exists v', x. split; [exact E'|exact V']. }
  assert (Hw : 0 < w) by (unfold w; destruct (starts 45 sg); lia).
  unfold do_test_to_from_decimal_str, passes, parsed_bv. split.
  - intros H. apply N.nlt_ge. intros W. specialize (H Release).
    destruct (V Release) as (v & x & E & Vx). rewrite E in H. cbn [bind] in H.
    destruct (x <? 2 ^ 128) eqn:X.
    + destruct (to_dec_str_raw Release v w x Vx) as (t & Et & Nt & Z); [clear - X; lia|now left|].
      rewrite Et in H. cbn [bind] in H.
      assert (Ew : width v = w) by apply Vx. rewrite Ew in H.
      assert (Nt0 : t <> []) by (intros ->; exact Z).
      destruct (plain_text 10 t x Nt0 Nt) as (T & _).
      destruct (wide_dec_panics Release t w _ W T) as (k & Ek). now rewrite Ek in H.
    + destruct (to_dec_str_wide Release v w x Vx) as (k & Ek); [clear - X; lia|]. now rewrite Ek in H.
  - intros W m. destruct (V m) as (v & x & E & Vx). rewrite E. cbn [bind].
    destruct (dec_str_round_trip m v w x Vx Hw W) as (t & Et & Rt). rewrite Et. cbn [bind].
    assert (Ew : width v = w) by apply Vx. rewrite Ew, Rt. cbn [bind].
    rewrite bv_eq_ok by apply Vx. now rewrite !N.eqb_refl.
Qed.

(** ** Hashes and the interner *)

Lemma same_writes_refl l : same_writes l l = true.
Proof. induction l as [|[x|x|x] l IH]; cbn [same_writes]; rewrite ?N.eqb_refl; auto. Qed.

Lemma test_hash_ok s : binary s -> passes (fun m => do_test_hash m s).
Proof.
  intros H m. destruct (read_ok m s H) as (v & x & R & V & _). unfold do_test_hash, check_hash, parsed_bv.
  unfold read in R. destruct (bv_from_bit_str m s) as [[v0|]|]; try discriminate. cbn [bind] in *.
  injection R as ->. rewrite bv_eq_ok by apply V. rewrite !N.eqb_refl. cbn [andb bind].
  now rewrite same_writes_refl.
Qed.

Lemma stored_twice v : width v < 2 ^ 32 -> stored [v; v] <= 2 ^ 32.
Proof.
  intros W. unfold stored, small_values, wide_values. cbn [filter].
  destruct (64 <? width v) eqn:B; destruct ((width v <=? 64) && (8 <=? uval v)) eqn:A; try (clear - A B; lia); cbn [map nodup].
  - destruct (in_dec _ _) as [I|I]; [|exfalso; apply I; now left]. destruct (in_dec _ _) as [[]|_].
    cbn [sum_fst fst]. change (len (@nil N)) with 0. clear - W. dlia.
  - destruct (in_dec _ _) as [I|I]; [|exfalso; apply I; now left]. vm_compute. discriminate.
  - vm_compute. discriminate.
Qed.

Lemma test_interner_ok z w : 0 < w -> w < 2 ^ 32 -> passes (fun m => interner_should_return_same_value m z w).
Proof.
  intros Hw H32 m. unfold interner_should_return_same_value.
  destruct (from_big_int_ok m z w Hw H32) as (v & -> & V). cbn [bind].
  assert (Ew : width v = w) by apply V. assert (Hwf : wf v) by apply V.
  assert (F : Forall (fun v => wf v /\ 0 < width v) [v; v]).
  { assert (wf v /\ 0 < width v) by (split; [auto|now rewrite Ew]). repeat (apply Forall_cons; [assumption|]). apply Forall_nil. }
  assert (S : stored [v; v] <= 2 ^ 32) by (apply stored_twice; now rewrite Ew).
  destruct (intern_history m [v; v] F S) as (st & is & E & L & U).
  destruct (intern_read m [v; v] []) as (st1 & is1 & st2 & is2 & E1 & _ & G & _); [exact F|exact S|].
  rewrite E in E1. injection E1 as <- <-. destruct is as [|i0 [|i1 [|? ?]]]; try discriminate.
  assert (i0 = i1) as <- by (apply (U 0%nat 1%nat v v i0 i1 eq_refl eq_refl eq_refl eq_refl); auto).
  destruct (G 0%nat v i0 eq_refl eq_refl) as (G0 & _). clear U G.
  cbn [intern_all] in E. destruct (interner_get_index m interner_new v) as [[sa ia]|]; [|discriminate]. cbn [bind] in *.
  destruct (interner_get_index m sa v) as [[sb ib]|]; [|discriminate]. cbn [bind] in *.
  injection E as -> -> ->. rewrite G0. cbn [bind]. rewrite bv_eq_ok by auto. now rewrite !N.eqb_refl.
Qed.

(** ** What the generators reach: [[01]+] stands for at most 32 digits *)
Lemma test_short sg d k : sg = [] \/ sg = [43] \/ sg = [45] -> binary d -> len d < 64 -> amount d k ->
  passes (fun m => do_test_shift_left m d k)
  /\ passes (fun m => do_test_from_to_bit_str m (sg ++ d))
  /\ passes (fun m => do_test_to_from_decimal_str m (sg ++ d)).
Proof.
  intros Hsg Hd L A. assert (L2 : len (sg ++ d) <= len d + 1).
  { destruct Hsg as [-> | [-> | ->]]; unfold len; cbn [app length]; clear; lia. }
  assert (P : 0 < len d) by (destruct Hd as (Hd & _); destruct d; [easy|unfold len; cbn [length]; clear; lia]).
  split; [|split].
  - apply test_shift_left_iff; auto. destruct (N.eq_dec (k mod 64) 0) as [E|E]; [|now left]. right.
    destruct (N.le_gt_cases (len d) k) as [C|C]; [now left|]. right.
    assert (k = 0) as -> by (clear - E C L; dlia). unfold first. cbn [N.to_nat firstn]. unfold rest. now rewrite skipn_nil.
  - apply test_bit_str_iff; auto; [|right; clear - P L; dlia]. apply N.le_lt_trans with (1 := L2). clear - L. lia.
  - apply test_decimal_iff; auto; [|destruct (starts 45 sg); clear - L; lia].
    apply N.le_lt_trans with (1 := L2). clear - L. lia.
Qed.

Lemma test_empty : passes (fun m => do_test_from_to_bit_str m []) /\ passes (fun m => do_test_from_to_hex_str m [])
  /\ passes (fun m => do_test_to_from_decimal_str m []).
Proof. repeat split; intros []; reflexivity. Qed.

Lemma test_big_ok a b w : 0 < w -> w < 2 ^ 32 -> small w a -> small w b ->
  passes (fun m => do_test_add m a b w) /\ passes (fun m => do_test_sub m a b w)
  /\ (passes (fun m => do_test_mul m a b w) <-> w <= 64)
  /\ passes (fun m => do_test_cmp_greater m a b w) /\ passes (fun m => do_test_cmp_greater_equal m a b w)
  /\ passes (fun m => do_test_cmp_equal m a b w)
  /\ passes (fun m => do_test_cmp_greater_signed m a b w) /\ passes (fun m => do_test_cmp_greater_equal_signed m a b w)
  /\ passes (fun m => do_test_cmp_equal_signed m a b w)
  /\ passes (fun m => interner_should_return_same_value m a w).
Proof.
  intros H0 H1 Sa Sb. destruct (test_compare_ok a b w H0 H1 Sa Sb) as (C1 & C2 & C3).
  destruct (test_compare_signed_ok a b w H0 H1 Sa Sb) as (C4 & C5 & C6).
  repeat match goal with |- _ /\ _ => split end; auto using test_add_ok, test_sub_ok, test_interner_ok.
  now apply test_mul_iff.
Qed.

Lemma test_refuted :
  (exists s k, binary s /\ amount s k /\ ~ passes (fun m => do_test_shift_left m s k))
  /\ (exists a b w, small w a /\ small w b /\ 0 < w /\ w < 2 ^ 32 /\ ~ passes (fun m => do_test_mul m a b w))
  /\ (exists d, binary d /\ ~ passes (fun m => do_test_from_to_bit_str m (45 :: d)))
  /\ (exists d, binary d /\ ~ passes (fun m => do_test_to_from_decimal_str m d)).
Proof.
  assert (B : forall k, k <> 0 -> k < 2 ^ 32 -> binary (copies k 49)).
  { intros k K0 K. split; [unfold copies; destruct (N.to_nat k) eqn:E; [lia|discriminate]|]. split.
    - apply Forall_forall. intros x Hx. apply repeat_spec in Hx. now right.
    - unfold copies, len. rewrite repeat_length. lia. }
  split; [|split; [|split]].
  - exists (copies 65 49), 64. split; [now apply B|]. split; [split; reflexivity|].
    intros H. specialize (H Debug). now vm_compute in H.
  - exists 1%Z, 1%Z, 65. repeat split. intros H. specialize (H Debug). now vm_compute in H.
  - exists (copies 64 49). split; [now apply B|]. intros H. specialize (H Debug). now vm_compute in H.
  - exists (copies 129 49). split; [now apply B|]. intros H. specialize (H Debug). now vm_compute in H.
Qed.
