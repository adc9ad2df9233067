(** * PFmt: the Debug texts (C63) and the size of the interner (C62). *)

From Coq Require Import String ZifyBool ZifyNat ZifyN.
From Verif Require Import Base Arith Strings Bytes BigInt Bv Map Indexed Array Fmt Spec TextSpec StoreSpec FmtSpec.
From Verif Require Import PWords PArith PropsArith PConv PText PropsText PRegister PStore PIntern.
Ltac Zify.zify_post_hook ::= idtac.
Open Scope list_scope.

Lemma debug_bits v w x : is_bv v w x -> exists s, bits_text w x s
  /\ debug_bv v = Ok (lit "ValueOwned(" ++ s ++ lit ")")
  /\ debug_ref v = Ok (lit "BitVecValueRef(" ++ s ++ lit ")")
  /\ debug_mut_ref v = Ok (lit "BitVecValueMutRef(" ++ s ++ lit ")")
  /\ debug_value (VBitVec v) = Ok (lit "BitVec(ValueOwned(" ++ s ++ lit "))").
Proof.
  intros H. destruct (bit_str_print v w x H) as (s & E & L & P). exists s. split; [split; auto|].
  unfold debug_ref, debug_mut_ref, debug_value, debug_bv. rewrite E. cbn [bind].
  repeat split. f_equal. rewrite <- !app_assoc. reflexivity.
Qed.

Lemma bits_text_inj w x s w' x' : x < 2 ^ w -> x' < 2 ^ w' -> bits_text w x s -> bits_text w' x' s -> w = w' /\ x = x'.
Proof.
  intros Hx Hx' (L & P) (L' & P'). assert (E : w = w') by congruence. clear L'. subst w'. split; [auto|].
  apply N.bits_inj. intros i. destruct (N.lt_ge_cases i w) as [Hi|Hi].
  - assert (Q := P (w - 1 - i) ltac:(lia)). rewrite P' in Q by lia.
    replace (w - 1 - (w - 1 - i)) with i in Q by lia.
    revert Q. destruct (N.testbit x i), (N.testbit x' i); intros Q; auto; discriminate Q.
  - assert (Z : forall n, n < 2 ^ w -> N.testbit n i = false).
    { intros n Hn. destruct (N.eq_dec n 0) as [->|N0]; [apply N.bits_0|]. apply N.bits_above_log2.
      apply N.log2_lt_pow2; [lia|]. apply (N.lt_le_trans _ _ _ Hn). apply N.pow_le_mono_r; lia. }
    now rewrite !Z.
Qed.

Lemma app_same_tail {A} (s s' t : list A) : s ++ t = s' ++ t -> s = s'.
Proof. apply app_inv_tail. Qed.

Lemma debug_injective v v' w x w' x' : is_bv v w x -> is_bv v' w' x' ->
  debug_bv v = debug_bv v' -> v = v'.
Proof.
  intros H H' E. destruct (debug_bits v w x H) as (s & T & D & _).
  destruct (debug_bits v' w' x' H') as (s' & T' & D' & _).
  rewrite D, D' in E. injection E as E. apply app_inv_tail in E. subst s'.
  destruct (bits_text_inj w x s w' x') as (-> & ->); auto.
  - destruct H as ((_ & _ & _ & B) & <- & <-). exact B.
  - destruct H' as ((_ & _ & _ & B) & <- & <-). exact B.
  - eapply is_bv_unique; eauto.
Qed.

Lemma decimal_ok n : n < 2 ^ 128 -> decimal n (display_dec n).
Proof. apply display_dec_ok. Qed.

Lemma debug_index_ok i : i_width i < 2 ^ 32 -> i_index i < 2 ^ 32 -> exists a b,
  decimal (i_width i) a /\ decimal (i_index i) b
  /\ debug_index i = lit "BitVecValueIndex { width: " ++ a ++ lit ", index: " ++ b ++ lit " }".
Proof.
  intros A B. exists (display_dec (i_width i)), (display_dec (i_index i)).
  assert (L : forall n, n < 2 ^ 32 -> n < 2 ^ 128).
  { intros n Hn. apply (N.lt_trans _ _ _ Hn). reflexivity. }
  split; [apply decimal_ok; auto|]. split; [apply decimal_ok; auto|reflexivity].
Qed.

Lemma number_digits s : forall n, number 10 s = Some n -> Forall (fun c => 48 <= c <= 57) s.
Proof.
  induction s as [|c t IH]; intros n H; [constructor|]. cbn [number] in H.
  destruct (digit_value 10 c) as [d|] eqn:D; [|discriminate].
  destruct (number 10 t) as [k|]; [|discriminate]. constructor; [|eapply IH; reflexivity].
  unfold digit_value in D.
  destruct ((48 <=? c) && (c <=? 57)) eqn:E1; [lia|].
  destruct ((97 <=? c) && (c <=? 122)) eqn:E2; [destruct (c - 87 <? 10) eqn:E3; [lia|discriminate]|].
  destruct ((65 <=? c) && (c <=? 90)) eqn:E4; [destruct (c - 55 <? 10) eqn:E3; [lia|discriminate]|].
  discriminate.
Qed.

Lemma digits_split a b t t' : Forall (fun c => 48 <= c <= 57) a -> Forall (fun c => 48 <= c <= 57) b ->
  forall d, d < 48 -> a ++ d :: t = b ++ d :: t' -> a = b /\ t = t'.
Proof.
  intros HA. revert b. induction HA as [|x a Hx HA IH]; intros [|y b] HB d Hd E; cbn [app] in E.
  - injection E as E. auto.
  - injection E as E _. inversion HB; subst. lia.
  - injection E as E _. lia.
  - injection E as E E'. inversion HB; subst. destruct (IH b ltac:(auto) d Hd E') as (-> & ->). auto.
Qed.

Lemma debug_index_inj i j : i_width i < 2 ^ 32 -> i_index i < 2 ^ 32 -> i_width j < 2 ^ 32 -> i_index j < 2 ^ 32 ->
  debug_index i = debug_index j -> i = j.
Proof.
  intros A B C D E.
  destruct (debug_index_ok i A B) as (a & b & (Na & _) & (Nb & _) & Ei).
  destruct (debug_index_ok j C D) as (a' & b' & (Na' & _) & (Nb' & _) & Ej).
  rewrite Ei, Ej in E. apply app_inv_head in E.
  apply (digits_split a a') in E; [|eapply number_digits; eauto|eapply number_digits; eauto|reflexivity].
  destruct E as (<- & E).
  injection E as E.
  apply (digits_split b b') in E; [|eapply number_digits; eauto|eapply number_digits; eauto|reflexivity].
  destruct E as (<- & _). rewrite Na in Na'. rewrite Nb in Nb'. injection Na' as Ew. injection Nb' as Ex.
  destruct i, j. cbn in *. congruence.
Qed.

Lemma debug_interner_ok m vs : Forall (fun v => wf v /\ 0 < width v) vs -> stored vs < 2 ^ 64 ->
  exists st is a b, intern_all m interner_new vs = Ok (st, is)
    /\ decimal (len (small_values vs)) a /\ decimal (len (wide_values vs)) b
    /\ debug_interner st = lit "ValueInterner(" ++ a ++ lit " small, " ++ b ++ lit " large)".
Proof.
  intros HF Hs. destruct (intern_stored m vs HF) as (st & is & E & L & A & B).
  exists st, is, (display_dec (len (small_values vs))), (display_dec (len (wide_values vs))).
  split; [auto|]. unfold stored in Hs.
  assert (W : len (wide_values vs) <= sum_fst (wide_values vs)).
  { assert (P : Forall (fun p : N * N => 1 <= fst p) (wide_values vs)).
    { apply Forall_forall. intros p Hp. unfold wide_values in Hp. apply nodup_In, in_map_iff in Hp.
      destruct Hp as (v & <- & Hv). apply filter_In in Hv. destruct Hv as (_ & Hv). cbn [fst].
      clear - Hv. apply N.ltb_lt in Hv. dlia. }
    clear - P. revert P. generalize (wide_values vs). intros l P.
    induction P as [|p t Hp P IH]; [reflexivity|]. rewrite len_cons. cbn [sum_fst]. lia. }
  assert (Lt : forall n, n < 2 ^ 64 -> n < 2 ^ 128) by (intros n Hn; apply (N.lt_trans _ _ _ Hn); reflexivity).
  split; [apply decimal_ok, Lt; lia|]. split; [apply decimal_ok, Lt; lia|].
  unfold debug_interner. rewrite A, B. reflexivity.
Qed.

(** ** Interning again *)
Lemma get_index_again m st v i : interned st v i -> wf v -> 0 < width v ->
  interner_get_index m st v = Ok (st, i).
Proof.
  intros (A & (B & B') & C) (_ & Hl & HW & _) Hw. unfold interner_get_index.
  destruct i as [wi ix]. cbn [i_width i_index] in *. subst wi.
  destruct (words v) as [|word [|w2 rest]] eqn:Ev.
  - exfalso. change (@len N []) with 0 in Hl. clear - Hl Hw. dlia.
  - change (len [word]) with 1 in Hl. replace (width v <=? 64) with true by (clear - Hl; dlia).
    rewrite debug_assert_true. cbn [bind]. destruct (word <? 8) eqn:E8.
    + subst ix. unfold index_new, as_u32. rewrite N.mod_small by (rewrite B32_eq; lia). reflexivity.
    + rewrite C. reflexivity.
  - rewrite !len_cons in Hl. replace (64 <? width v) with true by (clear - Hl; dlia).
    rewrite debug_assert_true. cbn [bind]. rewrite C. reflexivity.
Qed.

Lemma intern_again m vs : Forall (fun v => wf v /\ 0 < width v) vs -> stored vs <= 2 ^ 32 ->
  exists st is, intern_all m interner_new vs = Ok (st, is)
    /\ forall k v i, nth_error vs k = Some v -> nth_error is k = Some i ->
         interner_get_index m st v = Ok (st, i).
Proof.
  intros HF Hs. destruct (intern_new_ok m vs HF Hs) as (st & is & E & H). destruct H as (_ & F).
  exists st, is. split; [auto|]. intros k v i Hv Hi.
  destruct (Forall2_nth _ _ _ _ F HF _ _ _ Hv Hi) as (P & W & Z). now apply get_index_again.
Qed.

Lemma debug_errors s d :
  debug_parse_error InvalidDigit = lit "ParseIntError { kind: InvalidDigit }"
  /\ debug_parse_error ExceedsWidth = lit "ParseIntError { kind: ExceedsWidth }"
  /\ debug_value (VArray (ASparse s)) = Ok (lit "Array(SparseArrayValue(..))")
  /\ debug_value (VArray (ADense d)) = Ok (lit "Array(DenseArrayValue(..))").
Proof. repeat split; reflexivity. Qed.
