(** * PShape: no call disturbs the layout of a bit-vector, in either build. *)

From Coq Require Import ZifyBool ZifyNat ZifyN.
From Verif Require Import Base Arith Strings Bytes BigInt Bv Spec TextSpec IoSpec CallSpec.
From Verif Require Import PWords PArith.
Ltac Zify.zify_post_hook ::= idtac.

(** [r] returns, if anything, [n] words *)
Definition gives (n : N) (r : res (list N)) : Prop := forall l, r = Ok l -> len l = n /\ Words l.
Definition gives2 {A} (n : N) (r : res (list N * A)) : Prop := forall l a, r = Ok (l, a) -> len l = n /\ Words l.

Lemma gives_ok n l : len l = n -> Words l -> gives n (Ok l).
Proof. intros H1 H2 l' [= <-]. auto. Qed.
Lemma gives2_ok {A} n l (a : A) : len l = n -> Words l -> gives2 n (Ok (l, a)).
Proof. intros H1 H2 l' a' [= <- <-]. auto. Qed.
Lemma gives_panic n p : gives n (Panic p).
Proof. easy. Qed.
Lemma gives2_panic {A} n p : @gives2 A n (Panic p).
Proof. easy. Qed.
Lemma gives_bind {A} n (e : res A) k : (forall a, e = Ok a -> gives n (k a)) -> gives n (bind e k).
Proof. destruct e; cbn [bind]; [auto|easy]. Qed.
Lemma gives2_bind {A B} n (e : res A) (k : A -> res (list N * B)) : (forall a, e = Ok a -> gives2 n (k a)) -> gives2 n (bind e k).
Proof. destruct e; cbn [bind]; [auto|easy]. Qed.

(** ** Words *)

Lemma lor_word a b : a < 2 ^ 64 -> b < 2 ^ 64 -> N.lor a b < 2 ^ 64.
Proof.
  intros Ha Hb. apply lt_pow_bits. intros i Hi. rewrite N.lor_spec.
  now rewrite (testbit_high a 64), (testbit_high b 64).
Qed.
Lemma lxor_word a b : a < 2 ^ 64 -> b < 2 ^ 64 -> N.lxor a b < 2 ^ 64.
Proof.
  intros Ha Hb. apply lt_pow_bits. intros i Hi. rewrite N.lxor_spec.
  now rewrite (testbit_high a 64), (testbit_high b 64).
Qed.
Lemma land_word a b : a < 2 ^ 64 -> N.land a b < 2 ^ 64.
Proof.
  intros Ha. apply lt_pow_bits. intros i Hi. rewrite N.land_spec. now rewrite (testbit_high a 64).
Qed.
Lemma wshl_word a k : wshl a k < 2 ^ 64.
Proof. unfold wshl, as_u64. rewrite B64_eq. apply mod_lt. Qed.
Lemma as_u64_word a : as_u64 a < 2 ^ 64.
Proof. unfold as_u64. rewrite B64_eq. apply mod_lt. Qed.
Lemma wshr_word a k : a < 2 ^ 64 -> wshr a k < 2 ^ 64.
Proof.
  intros H. unfold wshr. rewrite N.shiftr_div_pow2. eapply N.le_lt_trans; [|exact H].
  apply N.div_le_upper_bound; [apply pow_nz|]. rewrite <- (N.mul_1_l a) at 1.
  apply N.mul_le_mono_r. apply N.lt_pred_le. apply pow_pos.
Qed.
Lemma adc_word c a b : fst (ar_adc c a b) < 2 ^ 64.
Proof. apply as_u64_word. Qed.
Lemma zero_word : 0 < 2 ^ 64. Proof. apply pow_pos. Qed.
Lemma max_word : WMAX < 2 ^ 64. Proof. reflexivity. Qed.

Lemma idx_word l i x : Words l -> idx l i = Ok x -> x < 2 ^ 64.
Proof.
  unfold idx. intros H E. destruct (nth_error l (N.to_nat i)) as [y|] eqn:E1; [|discriminate].
  injection E as <-. apply nth_error_In in E1. rewrite Forall_forall in H. auto.
Qed.
Lemma range_words l a b t : Words l -> range l a b = Ok t -> Words t /\ len t = b - a.
Proof.
  unfold range. intros H E. destruct (_ && _) eqn:C; [|discriminate]. injection E as <-.
  apply andb_true_iff in C as [C1 C2]. apply N.leb_le in C1, C2.
  split; [now apply Words_firstn, Words_skipn|].
  rewrite len_firstn; rewrite N2Nat.id; [reflexivity|]. rewrite len_skipn, N2Nat.id.
  apply N.sub_le_mono_r, C2.
Qed.
Lemma set_nth_words l : forall i x l', Words l -> x < 2 ^ 64 -> set_nth l i x = Some l' -> len l' = len l /\ Words l'.
Proof.
  induction l as [|y t IH]; intros [|i] x l' H Hx E; cbn [set_nth] in E; try discriminate.
  - injection E as <-. inversion_clear H. split; [now rewrite !len_cons|now constructor].
  - destruct (set_nth t i x) as [t'|] eqn:E1; [|discriminate]. injection E as <-. inversion_clear H.
    destruct (IH _ _ _ H1 Hx E1) as [L W]. split; [now rewrite !len_cons, L|now constructor].
Qed.
Lemma gives_set l i x n : len l = n -> Words l -> x < 2 ^ 64 -> gives n (set_idx l i x).
Proof.
  unfold set_idx. intros <- H Hx l'. destruct (set_nth l (N.to_nat i) x) as [t|] eqn:E; [|discriminate].
  intros [= <-]. eapply set_nth_words; eauto.
Qed.
Lemma gives_map_last f l n : len l = n -> Words l -> (forall x, x < 2 ^ 64 -> f x < 2 ^ 64) -> gives n (map_last f l).
Proof.
  unfold map_last. intros <- H Hf l'. destruct (rev l) as [|x t] eqn:E; [discriminate|]. intros [= <-].
  assert (L : l = rev t ++ [x]) by (rewrite <- (rev_involutive l), E; reflexivity).
  subst l. apply Forall_app in H as [H1 H2]. inversion_clear H2. cbn [rev].
  split; [now rewrite !len_app|]. apply Words_app; [auto|]. repeat constructor. auto.
Qed.
Lemma gives_tail l k f n : len l = n -> Words l ->
  (forall t, Words t -> len (f t) = len t /\ Words (f t)) -> gives n (on_tail l k f).
Proof.
  unfold on_tail. intros <- H Hf. apply gives_bind. intros t E. assert (E' := E).
  apply range_words in E as [E1 E2]; [|auto]. destruct (Hf t E1) as [F1 F2].
  apply gives_ok; [|now apply Words_app; [apply Words_firstn|]].
  unfold range in E'. destruct (_ && _) eqn:C; [|discriminate]. apply andb_true_iff in C as [C1 C2].
  apply N.leb_le in C1. rewrite len_app, F1, E2, len_firstn; rewrite N2Nat.id; [|exact C1]. clear - C1. lia.
Qed.
Lemma splice_shape l new k n : len l = n -> Words l -> Words new -> len new = k -> k <= n ->
  len (splice l 0 new) = n /\ Words (splice l 0 new).
Proof.
  intros <- H1 H2 <- K. unfold splice. change (N.to_nat 0) with 0%nat. cbn [firstn app plus].
  split; [|apply Words_app; [auto|now apply Words_skipn]].
  rewrite len_app, len_skipn. unfold len in *. lia.
Qed.

(** ** Loops *)

Lemma assign_shape d : forall s, Words d -> Words s -> len (ar_assign d s) = len d /\ Words (ar_assign d s).
Proof.
  induction d as [|x d IH]; intros [|y s] H1 H2; cbn [ar_assign]; auto.
  inversion_clear H1; inversion_clear H2. destruct (IH s) as [A B]; auto.
  split; [now rewrite !len_cons, A|now constructor].
Qed.
Lemma slice_loop_shape shl shr k d : forall p s, p < 2 ^ 64 -> Words d -> Words s ->
  len (ar_slice_loop shl shr k p d s) = len d /\ Words (ar_slice_loop shl shr k p d s).
Proof.
  induction d as [|x d IH]; intros p [|y s] Hp H1 H2; cbn [ar_slice_loop]; auto.
  inversion_clear H1; inversion_clear H2. destruct (IH (wshr y shr) s) as [A B]; auto using wshr_word.
  split; [now rewrite !len_cons, A|constructor; auto using lor_word, wshl_word].
Qed.
Lemma concat_loop_shape shl shr k d : forall p s, p < 2 ^ 64 -> Words d -> Words s ->
  len (ar_concat_loop shl shr k p d s) = len d /\ Words (ar_concat_loop shl shr k p d s).
Proof.
  induction d as [|x d IH]; intros p [|y s] Hp H1 H2; cbn [ar_concat_loop]; auto.
  inversion_clear H1; inversion_clear H2. destruct (IH (wshr y shr) s) as [A B]; auto using wshr_word.
  split; [now rewrite !len_cons, A|constructor; auto using lor_word, wshl_word].
Qed.
Lemma un_op_shape op d : (forall x, op x < 2 ^ 64) -> forall s, Words d ->
  len (ar_bitwise_un_op op d s) = len d /\ Words (ar_bitwise_un_op op d s).
Proof.
  intros Ho. induction d as [|x d IH]; intros [|y s] H1; cbn [ar_bitwise_un_op]; auto.
  inversion_clear H1. destruct (IH s) as [A B]; auto.
  split; [now rewrite !len_cons, A|constructor; auto].
Qed.
Lemma bin_op_shape op d : (forall x y, x < 2 ^ 64 -> y < 2 ^ 64 -> op x y < 2 ^ 64) ->
  forall a b, Words d -> Words a -> Words b ->
  len (ar_bitwise_bin_op op d a b) = len d /\ Words (ar_bitwise_bin_op op d a b).
Proof.
  intros Ho. induction d as [|x d IH]; intros [|y a] [|z b] H1 H2 H3; cbn [ar_bitwise_bin_op]; auto.
  inversion_clear H1; inversion_clear H2; inversion_clear H3. destruct (IH a b) as [A B]; auto.
  split; [now rewrite !len_cons, A|constructor; auto].
Qed.
Lemma add_loop_shape d : forall c a b, Words d -> len (ar_add_loop c d a b) = len d /\ Words (ar_add_loop c d a b).
Proof.
  induction d as [|x d IH]; intros c [|y a] [|z b] H; cbn [ar_add_loop]; auto.
  inversion_clear H. assert (W := adc_word c y z). destruct (ar_adc c y z) as [w c'].
  destruct (IH c' a b) as [A B]; auto. split; [now rewrite !len_cons, A|constructor; auto].
Qed.
Lemma sub_loop_shape d : forall c a b, Words d -> len (ar_sub_loop c d a b) = len d /\ Words (ar_sub_loop c d a b).
Proof.
  induction d as [|x d IH]; intros c [|y a] [|z b] H; cbn [ar_sub_loop]; auto.
  inversion_clear H. assert (W := adc_word c y (wnot z)). destruct (ar_adc c y (wnot z)) as [w c'].
  destruct (IH c' a b) as [A B]; auto. split; [now rewrite !len_cons, A|constructor; auto].
Qed.
Lemma negate_loop_shape d : forall c, len (ar_negate_loop c d) = len d /\ Words (ar_negate_loop c d).
Proof.
  induction d as [|x d IH]; intros c; cbn [ar_negate_loop]; [split; [auto|constructor]|].
  assert (W := adc_word c 0 (wnot x)). destruct (ar_adc c 0 (wnot x)) as [w c'].
  destruct (IH c') as [A B]. split; [now rewrite !len_cons, A|constructor; auto].
Qed.
Lemma shift_left_loop_shape shl shr d : forall p s, p < 2 ^ 64 -> Words d -> Words s ->
  len (ar_shift_left_loop shl shr p d s) = len d /\ Words (ar_shift_left_loop shl shr p d s).
Proof.
  induction d as [|x d IH]; intros p [|y s] Hp H1 H2; cbn [ar_shift_left_loop]; auto.
  inversion_clear H1; inversion_clear H2. destruct (shl =? 0).
  - destruct (IH p s) as [A B]; auto. split; [now rewrite !len_cons, A|constructor; auto].
  - destruct (IH (wshr y shr) s) as [A B]; auto using wshr_word.
    split; [now rewrite !len_cons, A|constructor; auto using lor_word, wshl_word].
Qed.

(** ** Word-level functions *)

Lemma gives_mask m l w n : len l = n -> Words l -> gives n (ar_mask_msb m l w).
Proof.
  intros L H. unfold ar_mask_msb. apply gives_bind. intros _ _. apply gives_bind. intros k _.
  apply gives_map_last; auto using land_word.
Qed.
Lemma mask_pair m l w n : len l = n /\ Words l -> gives n (ar_mask_msb m l w).
Proof. intros []. now apply gives_mask. Qed.
Lemma clear_shape l : Words l -> len (ar_clear l) = len l /\ Words (ar_clear l).
Proof. intros _. split; [apply len_map|apply Words_map0]. Qed.
Lemma set_shape l : Words l -> len (ar_set l) = len l /\ Words (ar_set l).
Proof. intros _. split; [apply len_map|apply Words_mapmax]. Qed.

Lemma gives_zext d s n : len d = n -> Words d -> Words s -> gives n (ar_zero_extend d s).
Proof.
  intros <- H1 H2. unfold ar_zero_extend. destruct (assign_shape d s H1 H2) as [A B].
  apply gives_tail; auto using clear_shape.
Qed.
Lemma gives_sext m d s w w' n : len d = n -> Words d -> Words s -> gives n (ar_sign_extend m d s w w').
Proof.
  intros <- H1 H2. unfold ar_sign_extend. destruct (assign_shape d s H1 H2) as [A B].
  apply gives_bind. intros neg _. destruct neg; [|apply gives_tail; auto using clear_shape].
  apply gives_bind. intros d' E.
  assert (S : len d' = len d /\ Words d').
  { revert d' E. change (gives (len d) (if 0 <? w mod 64 then
       let* k := ar_mask (64 - w mod 64) in let* old := idx (ar_assign d s) (len s - 1) in
       set_idx (ar_assign d s) (len s - 1) (N.lor old (wshl k (w mod 64))) else Ok (ar_assign d s))).
    destruct (0 <? w mod 64); [|now apply gives_ok].
    apply gives_bind. intros k _. apply gives_bind. intros old E.
    apply gives_set; eauto using lor_word, wshl_word, idx_word. }
  destruct S as [S1 S2]. apply gives_bind. intros d'' E''.
  apply mask_pair. revert d'' E''. apply gives_tail; auto using set_shape.
Qed.
Lemma gives_set_bit l p n : len l = n -> Words l -> gives n (ar_set_bit l p).
Proof.
  intros L H. unfold ar_set_bit. apply gives_bind. intros w E.
  apply gives_set; eauto using lor_word, wshl_word, idx_word.
Qed.
Lemma gives_clear_bit l p n : len l = n -> Words l -> gives n (ar_clear_bit l p).
Proof.
  intros L H. unfold ar_clear_bit. apply gives_bind. intros w E.
  apply gives_set; eauto using land_word, idx_word.
Qed.
Lemma gives_slice m d s hi lo n : len d = n -> Words d -> Words s -> gives n (ar_slice m d s hi lo).
Proof.
  intros <- H1 H2. unfold ar_slice. apply gives_bind. intros src E. apply range_words in E as [W _]; [|auto].
  apply gives_bind. intros d' E. apply gives_bind. intros x _. apply gives_bind. intros y _.
  apply mask_pair. revert d' E. change (gives (len d) (if lo mod 64 =? 0 then Ok (ar_assign d src) else
    let* k := ar_mask (lo mod 64) in let* s0 := idx src 0 in
    Ok (ar_slice_loop (64 - lo mod 64) (lo mod 64) k (wshr s0 (lo mod 64)) d (skipn 1 src ++ [0])))).
  destruct (lo mod 64 =? 0).
  - destruct (assign_shape d src H1 W). now apply gives_ok.
  - apply gives_bind. intros k _. apply gives_bind. intros s0 E.
    edestruct (slice_loop_shape (64 - lo mod 64) (lo mod 64) k d (wshr s0 (lo mod 64)) (skipn 1 src ++ [0])) as [A B];
      [eauto using wshr_word, idx_word|auto| |now apply gives_ok].
    apply Words_app; [now apply Words_skipn|]. repeat constructor.
Qed.
Lemma firstn_skipn_shape d k t : Words d -> Words t -> len t = len (skipn k d) ->
  len (firstn k d ++ t) = len d /\ Words (firstn k d ++ t).
Proof.
  intros H1 H2 L. split; [|apply Words_app; auto using Words_firstn].
  rewrite len_app, L, <- len_app, firstn_skipn. reflexivity.
Qed.
Lemma gives_concat m d a b w n : len d = n -> Words d -> Words a -> Words b -> gives n (ar_concat m d a b w).
Proof.
  intros <- H1 H2 H3. unfold ar_concat. destruct (assign_shape d b H1 H3) as [A B]. rewrite <- A. clear A.
  revert B. generalize (ar_assign d b). clear d H1. intros d H1.
  destruct (w mod 64 =? 0).
  - destruct (assign_shape (skipn (length b) d) a) as [C D]; auto using Words_skipn.
    destruct (firstn_skipn_shape d (length b) _ H1 D C). now apply gives_ok.
  - apply gives_bind. intros k _. apply gives_bind. intros i _. apply gives_bind. intros p E.
    edestruct (concat_loop_shape (w mod 64) (64 - w mod 64) k (skipn (N.to_nat i) d) p (a ++ [0])) as [C D];
      [eauto using idx_word|now apply Words_skipn|apply Words_app; [auto|repeat constructor]|].
    destruct (firstn_skipn_shape d (N.to_nat i) _ H1 D C). now apply gives_ok.
Qed.
Lemma gives_not m d s w n : len d = n -> Words d -> gives n (ar_not m d s w).
Proof. intros <- H. apply mask_pair, un_op_shape; auto using wnot_lt. Qed.
Lemma gives_add m d a b w n : len d = n -> Words d -> gives n (ar_add m d a b w).
Proof. intros <- H. now apply mask_pair, add_loop_shape. Qed.
Lemma gives_sub m d a b w n : len d = n -> Words d -> gives n (ar_sub m d a b w).
Proof. intros <- H. now apply mask_pair, sub_loop_shape. Qed.
Lemma gives_mul m d a b w n : len d = n -> Words d -> gives n (ar_mul m d a b w).
Proof.
  intros <- H. unfold ar_mul. destruct (w <=? 64); [|easy].
  apply gives_bind. intros a0 _. apply gives_bind. intros b0 _. apply gives_bind. intros k _.
  apply gives_set; auto using land_word, as_u64_word.
Qed.
Lemma gives_neg_in_place m d w n : len d = n -> gives n (ar_negate_in_place m d w).
Proof. intros <-. apply mask_pair, negate_loop_shape. Qed.
Lemma gives_neg m d b w n : len d = n -> gives n (ar_negate m d b w).
Proof.
  intros <-. unfold ar_negate. destruct (len d =? len b) eqn:E; cbn [assert bind]; [|easy].
  apply N.eqb_eq in E. now apply gives_neg_in_place.
Qed.
Lemma gives_shr m d a b w n : len d = n -> Words d -> Words a -> gives2 n (ar_shift_right m d a b w).
Proof.
  intros <- H1 H2. unfold ar_shift_right. destruct (clear_shape d H1) as [C D].
  apply gives2_bind. intros [k|] _; [|now apply gives2_ok].
  apply gives2_bind. intros hi _. apply gives2_bind. intros x _. apply gives2_bind. intros rw _.
  apply gives2_bind. intros p E. assert (E' := E). apply range_words in E as [E1 E2]; [|auto].
  unfold range in E'. destruct (_ && _) eqn:Q; [|discriminate]. apply andb_true_iff in Q as [_ Q]. apply N.leb_le in Q.
  apply gives2_bind. intros p' F. apply (gives_slice m p a hi k _ eq_refl E1 H2) in F as [F1 F2].
  destruct (splice_shape (ar_clear d) p' (len p) (len d)) as [S1 S2]; auto.
  - rewrite E2, N.sub_0_r. now rewrite <- C.
  - now apply gives2_ok.
Qed.
Lemma gives_ashr m d a b w n : len d = n -> Words d -> Words a -> gives n (ar_arithmetic_shift_right m d a b w).
Proof.
  intros <- H1 H2. unfold ar_arithmetic_shift_right. apply gives_bind. intros [d' k] E.
  apply (gives_shr m d a b w _ eq_refl H1 H2) in E as [L W]. rewrite <- L. clear L d H1.
  apply gives_bind. intros neg _. destruct neg; [|now apply gives_ok].
  destruct k as [k|]; [|apply gives_mask; [apply len_map|apply Words_mapmax]].
  destruct (0 <? k); [|now apply gives_ok].
  apply gives_bind. intros rw _. apply gives_bind. intros rw1 _. apply gives_bind. intros d'' E.
  assert (S : len d'' = len d' /\ Words d'').
  { revert d'' E. change (gives (len d') (if rw1 mod 64 <? 63 then
       let* k0 := ar_mask (64 - (rw1 mod 64 + 1)) in let* old := idx d' (rw1 / 64) in
       set_idx d' (rw1 / 64) (N.lor old (wshl k0 (rw1 mod 64 + 1))) else Ok d')).
    destruct (rw1 mod 64 <? 63); [|now apply gives_ok].
    apply gives_bind. intros k0 _. apply gives_bind. intros old E.
    apply gives_set; eauto using lor_word, wshl_word, idx_word. }
  destruct S as [S1 S2]. apply gives_bind. intros d3 E3. apply mask_pair. revert d3 E3.
  apply gives_tail; auto using set_shape.
Qed.
Lemma gives_shl m d a b w n : len d = n -> Words d -> Words a -> gives n (ar_shift_left m d a b w).
Proof.
  intros <- H1 H2. unfold ar_shift_left. apply gives_bind. intros [k|] _.
  - destruct (shift_left_loop_shape (k mod 64) (64 - k mod 64) d 0 (repeat 0 (N.to_nat (k / 64)) ++ a)) as [A B];
      [apply zero_word|auto|apply Words_app; auto using Words_repeat0|].
    destruct (0 <? k mod 64); [now apply gives_mask|now apply gives_ok].
  - destruct (clear_shape d H1). now apply gives_ok.
Qed.

(** ** Texts, bytes and big integers *)

Lemma std_loop_lt lim r d : forall n v, n < lim -> std_parse_loop lim r d n = StdOk v -> v < lim.
Proof.
  induction d as [|c t IH]; cbn [std_parse_loop]; intros n v H E.
  - injection E as <-. auto.
  - destruct (to_digit c r); [|discriminate]. destruct (n * r <? lim); [|discriminate].
    destruct (n * r + n0 <? lim) eqn:L; [|discriminate]. apply N.ltb_lt in L. eapply IH; eauto.
Qed.
Lemma std_lt lim r s v : 0 < lim -> std_from_str_radix lim r s = Ok (StdOk v) -> v < lim.
Proof.
  unfold std_from_str_radix. intros L E. destruct (assert _); cbn [bind] in E; [|discriminate].
  injection E as E. destruct s as [|c [|c' t]]; [discriminate| |].
  - destruct (_ || _); [discriminate|]. eapply std_loop_lt; eauto.
  - destruct (c =? c_plus); eapply std_loop_lt; eauto.
Qed.
Lemma gives_loop2 m w s : forall ii out oi word n, len out = n -> Words out -> word < 2 ^ 64 ->
  gives2 n (parse_base_2_loop m w s ii out oi word).
Proof.
  induction s as [|c t IH]; intros ii out oi word n L H Hw; cbn [parse_base_2_loop].
  - apply gives2_bind. intros _ _. apply gives2_bind. intros o E.
    apply (gives_set out 0 word n L H Hw) in E as [E1 E2]. now apply gives2_ok.
  - apply gives2_bind. intros u _. apply gives2_bind. intros u' _. apply gives2_bind. intros [[o w'] oi'] E.
    assert (S : len o = n /\ Words o /\ w' < 2 ^ 64).
    { destruct (_ && _).
      - destruct (set_idx out oi word) as [o1|] eqn:E1; cbn [bind] in E; [|discriminate].
        destruct (usz_sub m oi 1); cbn [bind] in E; [|discriminate]. injection E as <- <- <-.
        apply (gives_set out oi word n L H Hw) in E1 as [F1 F2]. auto using zero_word.
      - injection E as <- <- <-. auto. }
    destruct S as (S1 & S2 & S3). destruct (bin_digit_value c) as [v|] eqn:Ed; [|now apply gives2_ok].
    apply IH; auto. apply lor_word; auto using wshl_word. unfold bin_digit_value in Ed.
    destruct (c =? c_1); [injection Ed as <-; reflexivity|]. destruct (c =? c_0); [injection Ed as <-; reflexivity|discriminate].
Qed.
Lemma gives_loop16 m w s : forall ii out oi word n, len out = n -> Words out -> word < 2 ^ 64 ->
  gives2 n (parse_base_16_loop m w s ii out oi word).
Proof.
  induction s as [|c t IH]; intros ii out oi word n L H Hw; cbn [parse_base_16_loop].
  - apply gives2_bind. intros _ _. apply gives2_bind. intros o E. apply gives2_bind. intros _ _.
    apply (gives_set out 0 word n L H Hw) in E as [E1 E2]. now apply gives2_ok.
  - apply gives2_bind. intros u _. apply gives2_bind. intros u' _. apply gives2_bind. intros [[o w'] oi'] E.
    assert (S : len o = n /\ Words o /\ w' < 2 ^ 64).
    { destruct (_ && _).
      - destruct (set_idx out oi word) as [o1|] eqn:E1; cbn [bind] in E; [|discriminate].
        destruct (usz_sub m oi 1); cbn [bind] in E; [|discriminate]. injection E as <- <- <-.
        apply (gives_set out oi word n L H Hw) in E1 as [F1 F2]. auto using zero_word.
      - injection E as <- <- <-. auto. }
    destruct S as (S1 & S2 & S3). destruct (hex_digit_value c) as [v|] eqn:Ed; [|now apply gives2_ok].
    apply IH; auto. apply lor_word; auto using wshl_word. apply (N.lt_trans _ 16); [|reflexivity].
    unfold hex_digit_value in Ed.
    destruct ((48 <=? c) && (c <=? 57)) eqn:Q1; [injection Ed as <-; clear - Q1; lia|].
    destruct ((97 <=? c) && (c <=? 102)) eqn:Q2; [injection Ed as <-; clear - Q2; lia|].
    destruct ((65 <=? c) && (c <=? 70)) eqn:Q3; [injection Ed as <-; clear - Q3; lia|discriminate].
Qed.
Lemma gives_magnitude m s r out w n : len out = n -> Words out -> gives2 n (parse_magnitude m s r out w).
Proof.
  intros L H. unfold parse_magnitude.
  assert (G : gives2 n (let* _ := debug_assert m (div_ceil w 64 =? len out) in
      match strip_plus s with
      | None => Ok (out, Some InvalidDigit)
      | Some digits =>
          if r =? 2 then parse_base_2 m digits out w
          else if r =? 10 then Panic PTodo
          else if r =? 16 then parse_base_16 m digits out
          else Panic PTodo
      end)).
  { apply gives2_bind. intros _ _. destruct (strip_plus s) as [d|]; [|now apply gives2_ok].
    destruct (r =? 2).
    { unfold parse_base_2. destruct (w <? as_u32 (len d)); [now apply gives2_ok|].
      apply gives2_bind. intros oi _. apply gives_loop2; auto using zero_word. }
    destruct (r =? 10); [easy|]. destruct (r =? 16); [|easy].
    unfold parse_base_16. apply gives2_bind. intros b _. apply gives2_bind. intros oi _.
    apply gives_loop16; auto using zero_word. }
  destruct out as [|x [|y [|z t]]]; [exact G| | |exact G]; clear G.
  - apply gives2_bind. intros _ _. apply gives2_bind. intros p E.
    destruct p as [v| | |]; try (now apply gives2_ok).
    apply std_lt in E; [|reflexivity]. apply gives2_ok; [rewrite <- L; reflexivity|]. repeat constructor. exact E.
  - apply gives2_bind. intros _ _. apply gives2_bind. intros p E.
    destruct p as [v| | |]; try (now apply gives2_ok).
    apply gives2_ok; [rewrite <- L; reflexivity|]. repeat constructor; apply as_u64_word.
Qed.
Lemma gives_parse m s r out w n : len out = n -> Words out -> gives2 n (from_str_radix m s r out w).
Proof.
  intros L H. unfold from_str_radix. destruct s as [|c t]; [now apply gives2_ok|].
  destruct (strip_minus (c :: t)) as [neg v]. destruct (w =? 0).
  { destruct v as [|x [|y u]]; try (now apply gives2_ok). destruct (x =? c_0); now apply gives2_ok. }
  destruct v as [|x u]; [now apply gives2_ok|].
  apply gives2_bind. intros [o e] E. apply (gives_magnitude m (x :: u) r out w n L H) in E as [E1 E2].
  destruct e as [k|]; [now apply gives2_ok|]. destruct neg; [|now apply gives2_ok].
  apply gives2_bind. intros o' E'. apply (gives_neg_in_place m o w n E1) in E' as [F1 F2]. now apply gives2_ok.
Qed.
Lemma gives_bytes_loop bs : forall ii out n, len out = n -> Words out -> gives n (from_bytes_loop bs ii out).
Proof.
  induction bs as [|b t IH]; intros ii out n L H; cbn [from_bytes_loop]; [now apply gives_ok|].
  apply gives_bind. intros old E. apply gives_bind. intros o E'.
  apply (gives_set out (ii / 8) _ n L H) in E' as [F1 F2]; [now apply IH|].
  eauto using lor_word, wshl_word, idx_word.
Qed.
Lemma gives_bytes m bs w out n : len out = n -> Words out -> gives n (from_bytes_le m bs w out).
Proof.
  intros L H. unfold from_bytes_le. apply gives_bind. intros _ _. destruct (w =? 0); [now apply gives_ok|].
  apply gives_bind. intros o E. apply mask_pair. revert o E. apply gives_bytes_loop; [now rewrite <- L; apply len_map|apply Words_map0].
Qed.
Lemma digits_words f : forall n, Words (u64_digits_fuel f n).
Proof.
  induction f as [|f IH]; intros n; cbn [u64_digits_fuel]; [constructor|].
  destruct (n =? 0); constructor; [|apply IH]. change B64 with (2 ^ 64). apply mod_lt.
Qed.
Lemma copy_shape o : forall i l k, Words o -> Words i -> copy_digits o i = (l, k) -> len l = len o /\ Words l.
Proof.
  induction o as [|x o IH]; intros [|y i] l k H1 H2 E; cbn [copy_digits] in E; try (injection E as <- <-; auto; fail).
  destruct (copy_digits o i) as [l' k'] eqn:E'. injection E as <- <-. inversion_clear H1; inversion_clear H2.
  destruct (IH _ _ _ H0 H3 E') as [A B]. split; [now rewrite !len_cons, A|now constructor].
Qed.
Lemma gives_iter m it w out n : len out = n -> Words out -> Words it -> gives n (iter_to_word m it w out).
Proof.
  intros <- H Hi. unfold iter_to_word. destruct (w =? 0); [now apply gives_ok|].
  apply gives_bind. intros _ _. destruct (copy_digits out it) as [o k] eqn:E.
  destruct (copy_shape _ _ _ _ H Hi E) as [A B]. rewrite <- A. destruct (_ ?= _); [now apply gives_mask|easy|].
  destruct (firstn_skipn_shape o (N.to_nat k) (map (fun _ => 0) (skipn (N.to_nat k) o))) as [C D]; auto using Words_map0.
  - apply len_map.
  - now apply gives_ok.
Qed.

(** ** The calls *)

Lemma u32_add_lt m a b c : u32_add m a b = Ok c -> c < 2 ^ 32.
Proof.
  unfold u32_add, as_u32. destruct (a + b <? B32) eqn:E.
  - apply N.ltb_lt in E. intros [= <-]. exact E.
  - destruct m; [discriminate|]. intros [= <-]. change B32 with (2 ^ 32). apply mod_lt.
Qed.
Lemma u32_sub_lt m a b c : a < 2 ^ 32 -> u32_sub m a b = Ok c -> c < 2 ^ 32.
Proof.
  unfold u32_sub, as_u32. intros H. destruct (b <=? a) eqn:E.
  - intros [= <-]. eapply N.le_lt_trans; [apply N.le_sub_l|exact H].
  - destruct m; [discriminate|]. intros [= <-]. change B32 with (2 ^ 32). apply mod_lt.
Qed.
Lemma u32_mul_lt m a b c : u32_mul m a b = Ok c -> c < 2 ^ 32.
Proof.
  unfold u32_mul, as_u32. destruct (a * b <? B32) eqn:E.
  - apply N.ltb_lt in E. intros [= <-]. exact E.
  - destruct m; [discriminate|]. intros [= <-]. change B32 with (2 ^ 32). apply mod_lt.
Qed.

(** [r] returns, if anything, a well-shaped value *)
Definition shapes (r : res bv) : Prop := forall v, r = Ok v -> well_shaped v.
Lemma shapes_of w r : w < 2 ^ 32 -> gives ((w + 63) / 64) r -> shapes (let* l := r in Ok (mkbv w l)).
Proof.
  intros Hw G v. destruct r as [l|]; [|discriminate]. intros [= <-]. destruct (G l eq_refl). repeat split; auto.
Qed.
Lemma shapes_bind {A} (e : res A) k : (forall a, e = Ok a -> shapes (k a)) -> shapes (bind e k).
Proof. destruct e; cbn [bind]; [auto|easy]. Qed.

Lemma gives_one n out f : len out = n -> Words out -> (forall o, Words o -> gives (len o) (f o)) ->
  gives n (let* o := range out 0 1 in let* o := f o in Ok (splice out 0 o)).
Proof.
  intros L H G. apply gives_bind. intros o E. assert (E' := E). apply range_words in E as [E1 E2]; auto.
  unfold range in E'. destruct (_ && _) eqn:Q; [|discriminate]. apply andb_true_iff in Q as [_ Q]. apply N.leb_le in Q.
  apply gives_bind. intros o' F. apply G in F as [F1 F2]; [|auto].
  destruct (splice_shape out o' (len o) n) as [S1 S2]; auto.
  - rewrite E2, <- L. exact Q.
  - now apply gives_ok.
Qed.

Lemma zeros_shape w : len (value_vec_zeros w) = (w + 63) / 64 /\ Words (value_vec_zeros w).
Proof. split; [apply zeros_len|apply zeros_words]. Qed.

Lemma gives_ext n r r' : r = r' -> gives n r' -> gives n r.
Proof. now intros ->. Qed.

Lemma bin_shape f m a b : well_shaped a -> well_shaped b ->
  (forall d x y, Words d -> Words x -> Words y -> gives (len d) (f m d x y (width a))) -> shapes (arith_bin_fn f m a b).
Proof.
  intros (Wa & La & Ha) (_ & _ & Hb) G. unfold arith_bin_fn. apply shapes_bind. intros _ _. apply shapes_bind. intros _ _.
  apply shapes_of; [auto|]. destruct (zeros_shape (width a)) as [Lz Hz]. destruct (len (words a) =? 1).
  - eapply gives_ext; [|apply (gives_one _ (value_vec_zeros (width a)) (fun o => let* x := range (words a) 0 1 in
      let* y := range (words b) 0 1 in f m o x y (width a)) Lz Hz)].
    + destruct (range (value_vec_zeros _) 0 1); [|reflexivity]. cbn [bind].
      destruct (range (words a) 0 1); [|reflexivity]. cbn [bind]. now destruct (range (words b) 0 1).
    + intros o Ho. apply gives_bind. intros x Ex. apply gives_bind. intros y Ey.
      apply range_words in Ex as [Ex _]; auto. apply range_words in Ey as [Ey _]; auto.
  - rewrite <- Lz. auto.
Qed.
Lemma bit_shape f m a b : well_shaped a -> well_shaped b ->
  (forall d x y, Words d -> Words x -> Words y -> len (f d x y) = len d /\ Words (f d x y)) -> shapes (bit_arith_bin_fn f m a b).
Proof.
  intros Sa Sb G. apply (bin_shape (fun _ d x y _ => Ok (f d x y)) m a b Sa Sb).
  intros d x y Hd Hx Hy. destruct (G d x y Hd Hx Hy). now apply gives_ok.
Qed.

Lemma of_gives2 w r : w < 2 ^ 32 -> gives2 ((w + 63) / 64) r ->
  forall v (e : option int_error_kind), (let* (l, e) := r in Ok (mkbv w l, e)) = Ok (v, e) -> well_shaped v.
Proof.
  intros Hw G v e E. destruct r as [[l e']|]; cbn [bind] in E; [|discriminate]. injection E as <- <-.
  destruct (G l e' eq_refl). repeat split; auto.
Qed.

Lemma mask_shape m a : well_shaped a -> shapes (bv_mask_msb m a).
Proof. intros (W & L & H). apply shapes_of; [auto|]. now apply gives_mask. Qed.
Lemma clear_shaped a : well_shaped a -> well_shaped (bv_clear a).
Proof. intros (W & L & H). split; [auto|]. split; [cbn; now rewrite len_map|apply Words_map0]. Qed.
Lemma zero_shaped w : w < 2 ^ 32 -> well_shaped (bv_zero w).
Proof. intros W. split; [auto|]. apply zeros_shape. Qed.
Lemma ones_shape m a : well_shaped a -> shapes (bv_assign_ones m a).
Proof.
  intros (W & L & H). apply mask_shape. split; [auto|]. split; [cbn; now rewrite len_map|apply Words_mapmax].
Qed.
Lemma u64_shape m a n : well_shaped a -> n < 2 ^ 64 -> shapes (bv_assign_from_u64 m a n).
Proof.
  intros Ha Hn. apply clear_shaped in Ha as (W & L & H). unfold bv_assign_from_u64. apply shapes_bind. intros l E.
  apply (gives_set _ _ _ _ L H Hn) in E as [E1 E2]. apply shapes_bind. intros v Ev.
  apply mask_shape in Ev; [|repeat split; auto]. apply shapes_bind. intros x _. apply shapes_bind. intros _ _.
  now intros v' [= <-].
Qed.
Lemma i64_word z : i64_as_u64 z < 2 ^ 64.
Proof.
  unfold i64_as_u64. assert (B := Z.mod_pos_bound z 18446744073709551616 ltac:(reflexivity)).
  change (2 ^ 64) with 18446744073709551616. clear - B. lia.
Qed.
Lemma i64_shape m a z : well_shaped a -> shapes (bv_assign_from_i64 m a z).
Proof.
  intros Ha. apply clear_shaped in Ha as (W & L & H). unfold bv_assign_from_i64. apply shapes_bind. intros l E.
  assert (S : len l = (width a + 63) / 64 /\ Words l).
  { destruct (len (words (bv_clear a)) =? 1).
    - destruct (ar_mask (width a)) as [k|]; cbn [bind] in E; [|discriminate]. revert l E.
      apply gives_set; auto using land_word, i64_word.
    - revert l E. apply gives_sext; auto. repeat constructor. apply i64_word. }
  clear E. assert (Q : well_shaped (mkbv (width a) l)) by (split; [exact W|exact S]).
  destruct m; [|now intros v [= <-]].
  do 3 (apply shapes_bind; intros ? _). now intros v [= <-].
Qed.
Lemma str_shape m a s r v e : well_shaped a -> bv_assign_from_str_radix m a s r = Ok (v, e) -> well_shaped v.
Proof. intros (W & L & H). apply of_gives2; [auto|]. now apply gives_parse. Qed.
Lemma from_str_shape m s r w v : w < 2 ^ 32 -> bv_from_str_radix m s r w = Ok (Parsed v) -> well_shaped v.
Proof.
  unfold bv_from_str_radix. intros W E.
  destruct (bv_assign_from_str_radix m (bv_zero w) s r) as [[u e]|] eqn:P; cbn [bind] in E; [|discriminate].
  apply str_shape in P; [|now apply zero_shaped]. destruct e; [discriminate|]. now injection E as <-.
Qed.
Lemma det_width m s r w : determine_width_from_str_radix m s r = Ok w -> w < 2 ^ 32.
Proof.
  unfold determine_width_from_str_radix. intros E. destruct (debug_assert _ _); cbn [bind] in E; [|discriminate].
  destruct (if r =? 2 then _ else _); cbn [bind] in E; [|discriminate]. now apply u32_add_lt in E.
Qed.
Lemma big_shape m z w : w < 2 ^ 32 -> shapes (bv_from_big_int m z w).
Proof.
  intros W. apply shapes_of; [auto|]. unfold from_big_int. apply gives_bind. intros o E. destruct (zeros_shape w) as [L H].
  apply (gives_iter m (u64_digits (Z.abs_N z)) w _ _ L H) in E as [E1 E2]; [|apply digits_words].
  destruct (_ <? _)%Z; [now apply gives_neg|now apply gives_ok].
Qed.
Lemma biguint_shape m n w : w < 2 ^ 32 -> shapes (bv_from_big_uint m n w).
Proof.
  intros W. apply shapes_of; [auto|]. destruct (zeros_shape w) as [L H]. apply gives_iter; auto. apply digits_words.
Qed.

Lemma some_shape r v : shapes r -> (let* v := r in Ok (Some v)) = Ok (Some v) -> well_shaped v.
Proof. intros S E. destruct r as [u|]; cbn [bind] in E; [|discriminate]. injection E as <-. now apply S. Qed.
Lemma text_shape r v : (forall u, r = Ok (Parsed u) -> well_shaped u) ->
  (let* p := r in Ok (parsed_value p)) = Ok (Some v) -> well_shaped v.
Proof.
  intros S E. destruct r as [[u|k]|]; cbn [bind parsed_value] in E; [|discriminate|discriminate].
  injection E as <-. now apply S.
Qed.

Lemma unary_shape w ws f : w < 2 ^ 32 -> (forall d s, Words d -> Words s -> gives (len d) (f d s)) -> Words ws ->
  forall b : bool, shapes (let* out := (if b then
     let* o := range (value_vec_zeros w) 0 1 in let* s := range ws 0 1 in
     let* o := f o s in Ok (splice (value_vec_zeros w) 0 o)
     else f (value_vec_zeros w) ws) in Ok (mkbv w out)).
Proof.
  intros W G H b. apply shapes_of; [auto|]. destruct (zeros_shape w) as [L Z]. destruct b; [|rewrite <- L; auto].
  eapply gives_ext; [|apply (gives_one _ (value_vec_zeros w) (fun o => let* s := range ws 0 1 in f o s) L Z)].
  - destruct (range (value_vec_zeros w) 0 1); [|reflexivity]. cbn [bind]. now destruct (range ws 0 1).
  - intros o Ho. apply gives_bind. intros s E. apply range_words in E as [E _]; auto.
Qed.

Lemma run_shape m c v : (forall a, In a (operands c) -> well_shaped a) -> in_range c ->
  run m c = Ok (Some v) -> well_shaped v.
Proof.
  intros Ho Hr E. destruct c; cbn [run operands in_range] in *.
  - injection E as <-. now apply zero_shaped.
  - eapply some_shape; [|exact E]. now apply ones_shape, zero_shaped.
  - eapply some_shape; [|exact E]. now apply u64_shape; [apply zero_shaped|].
  - eapply some_shape; [|exact E]. now apply i64_shape, zero_shaped.
  - eapply some_shape; [|exact E]. destruct b; (apply u64_shape; [now apply zero_shaped|reflexivity]).
  - eapply some_shape; [|exact E]. apply u64_shape; [now apply zero_shaped|reflexivity].
  - eapply some_shape; [|exact E]. apply u64_shape; [now apply zero_shaped|reflexivity].
  - eapply text_shape; [|exact E]. intros u. now apply from_str_shape.
  - eapply text_shape; [|exact E]. intros u. unfold bv_from_bit_str.
    destruct (determine_width_from_str_radix m s 2) eqn:D; [|discriminate]. apply det_width in D. now apply from_str_shape.
  - eapply text_shape; [|exact E]. intros u. unfold bv_from_hex_str.
    destruct (determine_width_from_str_radix m s 16) eqn:D; [|discriminate]. apply det_width in D. now apply from_str_shape.
  - eapply some_shape; [|exact E]. apply shapes_of; [easy|]. destruct (zeros_shape w). now apply gives_bytes.
  - eapply some_shape; [|exact E]. now apply big_shape.
  - eapply some_shape; [|exact E]. now apply biguint_shape.
  - eapply some_shape; [|exact E]. apply shapes_bind. intros w D. apply big_shape.
    unfold count_big_int_bits in D. destruct (_ =? 0); [injection D as <-; reflexivity|].
    destruct (unwrap _); cbn [bind] in D; [|discriminate]. destruct (u32_mul m _ 64); cbn [bind] in D; [|discriminate].
    destruct (u32_sub m _ _); cbn [bind] in D; [|discriminate]. now apply u32_add_lt in D.
  - eapply some_shape; [|exact E]. apply shapes_bind. intros w D. apply biguint_shape.
    unfold count_big_uint_bits in D. destruct (_ =? 0); [injection D as <-; reflexivity|].
    destruct (unwrap _); cbn [bind] in D; [|discriminate].
    destruct (u32_mul m _ 64) eqn:M; cbn [bind] in D; [|discriminate]. apply u32_mul_lt in M. now apply u32_sub_lt in D.
  - eapply some_shape; [|exact E]. assert (Ha := Ho a (or_introl eq_refl)). assert (Hb := Ho b (or_intror (or_introl eq_refl))).
    destruct op; cbn [run_bin];
      try (apply bin_shape; [auto|auto|]; intros d x y Hd Hx Hy);
      try (apply bit_shape; [auto|auto|]; intros d x y Hd Hx Hy; apply bin_op_shape; auto using land_word, lor_word, lxor_word; fail).
    + now apply gives_add.
    + now apply gives_sub.
    + now apply gives_mul.
    + now apply gives_shl.
    + apply gives_bind. intros [l k] El. apply gives_shr with (n := len d) in El as []; auto. now apply gives_ok.
    + now apply gives_ashr.
    + unfold bv_concat. apply shapes_bind. intros w D. apply u32_add_lt in D.
      destruct Ha as (_ & _ & Ha), Hb as (_ & _ & Hb).
      apply shapes_of; [auto|]. destruct (zeros_shape w) as [L Z]. destruct (w <=? 64).
      * eapply gives_ext; [|apply (gives_one _ (value_vec_zeros w) (fun o => let* x := range (words a) 0 1 in
          let* y := range (words b) 0 1 in ar_concat m o x y (width b)) L Z)].
        -- destruct (range (value_vec_zeros w) 0 1); [|reflexivity]. cbn [bind].
           destruct (range (words a) 0 1); [|reflexivity]. cbn [bind]. now destruct (range (words b) 0 1).
        -- intros o Ho'. apply gives_bind. intros x Ex. apply gives_bind. intros y Ey.
           apply range_words in Ex as [Ex _]; auto. apply range_words in Ey as [Ey _]; auto. now apply gives_concat.
      * now apply gives_concat.
  - eapply some_shape; [|exact E]. destruct (Ho a (or_introl eq_refl)) as (W & L & H).
    apply (unary_shape (width a) (words a) (fun d s => ar_not m d s (width a))); auto.
    intros d s Hd _. now apply gives_not.
  - eapply some_shape; [|exact E]. destruct (Ho a (or_introl eq_refl)) as (W & L & H).
    apply (unary_shape (width a) (words a) (fun d s => ar_negate m d s (width a))); auto.
    intros d s Hd _. now apply gives_neg.
  - eapply some_shape; [|exact E]. destruct (Ho a (or_introl eq_refl)) as (W & L & H). unfold bv_slice.
    do 3 (apply shapes_bind; intros ? _). apply shapes_bind. intros w D. apply u32_add_lt in D.
    apply shapes_of; [auto|]. destruct (zeros_shape w) as [Lz Z]. destruct (w <=? 64); [|now apply gives_slice].
    apply (gives_one _ (value_vec_zeros w) (fun o => ar_slice m o (words a) msb lsb) Lz Z).
    intros o Ho'. now apply gives_slice.
  - eapply some_shape; [|exact E]. destruct (Ho a (or_introl eq_refl)) as (W & L & H). unfold bv_zero_extend.
    apply shapes_bind. intros w D. apply u32_add_lt in D.
    apply (unary_shape w (words a) (fun d s => ar_zero_extend d s)); auto.
    intros d s Hd Hs. now apply gives_zext.
  - eapply some_shape; [|exact E]. destruct (Ho a (or_introl eq_refl)) as (W & L & H). unfold bv_sign_extend.
    apply shapes_bind. intros w D. apply u32_add_lt in D.
    apply (unary_shape w (words a) (fun d s => ar_sign_extend m d s (width a) w)); auto.
    intros d s Hd Hs. now apply gives_sext.
  - eapply some_shape; [|exact E]. destruct (Ho a (or_introl eq_refl)) as (W & L & H).
    destruct (Ho b (or_intror (or_introl eq_refl))) as (Wb & Lb & Hb). unfold bv_assign.
    do 2 (apply shapes_bind; intros ? _). destruct (len (words a) =? len (words b)) eqn:Q; [|easy].
    apply N.eqb_eq in Q. intros u [= <-]. split; [auto|]. cbn. split; [congruence|auto].
  - eapply some_shape; [|exact E]. apply mask_shape, Ho. now left.
  - injection E as <-. apply clear_shaped, Ho. now left.
  - eapply some_shape; [|exact E]. apply ones_shape, Ho. now left.
  - eapply some_shape; [|exact E]. apply u64_shape; [|auto]. apply Ho. now left.
  - eapply some_shape; [|exact E]. apply i64_shape, Ho. now left.
  - destruct (bv_assign_from_str_radix m a s radix) as [[u e]|] eqn:P; cbn [bind] in E; [|discriminate].
    injection E as <-. apply str_shape in P; [auto|]. apply Ho. now left.
  - eapply some_shape; [|exact E]. destruct (Ho a (or_introl eq_refl)) as (W & L & H).
    apply shapes_of; [auto|]. now apply gives_set_bit.
  - eapply some_shape; [|exact E]. destruct (Ho a (or_introl eq_refl)) as (W & L & H).
    apply shapes_of; [auto|]. now apply gives_clear_bit.
Qed.

Lemma made_shaped m ok v : made m ok v -> well_shaped v.
Proof. induction 1 as [c v _ IH Hr Hh E]. eapply run_shape; eauto. Qed.

(** [mask_msb] turns whatever was made into a valid value. *)
Lemma made_repair m ok v : made m ok v -> 0 < width v -> forall m',
  yields (bv_mask_msb m' v) (width v) (uval v mod 2 ^ width v).
Proof.
  intros H W m'. apply made_shaped in H as (Hw & Hl & HW).
  destruct (mask_wres m' (words v) (width v)) as (l & E1 & E2 & E3 & E4); auto.
  exists (mkbv (width v) l). split; [unfold bv_mask_msb; now rewrite E1|].
  now apply is_bv_intro; auto.
Qed.
