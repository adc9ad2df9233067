(** * PRelease: exactly which calls panic in a release build (C75). *)

From Coq Require Import ZifyBool ZifyNat ZifyN.
From Verif Require Import Base Arith Strings Bytes BigInt Bv Spec TextSpec IoSpec CallSpec PanicSpec ParseSpec
  MixedSpec ReleaseSpec.
From Verif Require Import PWords PArith PShift PropsArith PCompare PConv PText PParse PropsText PIo PRegister
  PMisc PReject PProfile PCall PShape PPanic PReading PMixed.
Ltac Zify.zify_post_hook ::= idtac.

Lemma delivers_settles (P : Prop) r w o : (P <-> o = None) -> delivers r w o -> settles P r.
Proof.
  intros H G. destruct o as [n|]; cbn [delivers] in G.
  - destruct G as (v & E & _). right. split; [rewrite H; discriminate|eauto].
  - left. tauto.
Qed.
Lemma answers_settles (P : Prop) r o : (P <-> o = None) -> answers r o -> settles P r.
Proof.
  intros H G. destruct o as [n|]; cbn [answers] in G.
  - right. split; [rewrite H; discriminate|eauto].
  - left. tauto.
Qed.

Lemma places_1 w : (places w =? 1) = (0 <? w) && (w <=? 64).
Proof. unfold places. destruct (N.eqb_spec ((w + 63) / 64) 1) as [E|E]; symmetry; dlia. Qed.
Lemma places_none w : (places w =? 0) = (w =? 0).
Proof. unfold places. destruct (N.eqb_spec ((w + 63) / 64) 0) as [E|E]; symmetry; dlia. Qed.

Lemma if_none {A} (b : bool) (x : A) : (b = true <-> (if b then None else Some x) = None).
Proof. destruct b; split; easy. Qed.

(** ** Slices *)

Lemma mask_exists w : exists k, ar_mask (w mod 64) = Ok k.
Proof.
  unfold ar_mask. pose proof (N.mod_lt w 64 ltac:(discriminate)) as H.
  destruct ((w mod 64 =? 64) || (w mod 64 =? 0)); [eauto|].
  replace (w mod 64 <? 64) with true by lia. cbn [assert bind]. eauto.
Qed.
Lemma mask_any l w : l <> [] -> exists r, ar_mask_msb Release l w = Ok r.
Proof.
  intros H. unfold ar_mask_msb. cbn [debug_assert bind].
  destruct (mask_exists w) as (k & ->). cbn [bind]. apply map_last_some; auto.
Qed.

Lemma assign_length d s : length (ar_assign d s) = length d.
Proof. revert s. induction d as [|x d IH]; intros [|y s]; cbn; auto. Qed.
Lemma slice_loop_length shl shr k prev d s : length (ar_slice_loop shl shr k prev d s) = length d.
Proof. revert prev s. induction d as [|x d IH]; intros prev [|y s]; cbn; auto. Qed.
Lemma not_nil {A} (l : list A) n : length l = S n -> l <> [].
Proof. intros H ->. discriminate. Qed.

Lemma slice_words_settles dst src hi lo : dst <> [] ->
  settles (64 * len src <= hi \/ 64 * (hi / 64 + 1) < lo) (ar_slice Release dst src hi lo).
Proof.
  intros Hd. unfold ar_slice, range.
  destruct ((lo / 64 <=? hi / 64 + 1) && (hi / 64 + 1 <=? len src)) eqn:E.
  - cbn [bind]. apply andb_true_iff in E as [E1 E2].
    apply N.leb_le in E1. apply N.leb_le in E2.
    set (l := firstn _ _).
    assert (Ll : len l = hi / 64 + 1 - lo / 64).
    { unfold l. rewrite len_firstn; rewrite ?N2Nat.id; auto. rewrite len_skipn. lia. }
    destruct (N.eqb_spec (lo mod 64) 0) as [Z|Z].
    + cbn [bind].
      right. split; [clear - E1 E2 Z; dlia|].
      destruct (u32_sub Release hi lo) as [d|] eqn:D; [|unfold u32_sub in D; destruct (lo <=? hi); discriminate].
      cbn [bind].
      destruct (u32_add Release d 1) as [u|] eqn:U; [|unfold u32_add in U; destruct (d + 1 <? B32); discriminate].
      cbn [bind]. apply mask_any.
      intros E. apply (f_equal (@length N)) in E. rewrite assign_length in E. destruct dst; easy.
    + assert (K : exists k, ar_mask (lo mod 64) = Ok k) by apply mask_exists.
      destruct K as (k & ->). cbn [bind].
      destruct l as [|s0 l'].
      * left. split; [|eexists; reflexivity]. nils. clear - E1 E2 Z Ll. dlia.
      * unfold idx. change (N.to_nat 0) with O. cbn [nth_error bind].
        right. rewrite len_cons in Ll. split; [clear - E1 E2 Z Ll; dlia|].
        destruct (u32_sub Release hi lo) as [d|] eqn:D; [|unfold u32_sub in D; destruct (lo <=? hi); discriminate].
        cbn [bind].
        destruct (u32_add Release d 1) as [u|] eqn:U; [|unfold u32_add in U; destruct (d + 1 <? B32); discriminate].
        cbn [bind]. apply mask_any.
        intros E. apply (f_equal (@length N)) in E. rewrite slice_loop_length in E. destruct dst; easy.
  - left. split; [|eexists; reflexivity]. clear - E. dlia.
Qed.

Lemma u32_add_release a b : a < 2 ^ 32 -> b < 2 ^ 32 -> u32_add Release a b = Ok ((a + b) mod 2 ^ 32).
Proof.
  intros Ha Hb. unfold u32_add. rewrite B32_eq. destruct (N.ltb_spec (a + b) (2 ^ 32)) as [L|L].
  - rewrite N.mod_small; auto.
  - reflexivity.
Qed.
Lemma u32_sub_release a b : a < 2 ^ 32 -> b < 2 ^ 32 ->
  u32_sub Release a b = Ok ((a + 2 ^ 32 - b) mod 2 ^ 32).
Proof.
  intros Ha Hb. unfold u32_sub. rewrite B32_eq. destruct (N.leb_spec b a) as [L|L].
  - replace (a + 2 ^ 32 - b) with (a - b + 1 * 2 ^ 32) by lia.
    rewrite N.mod_add, N.mod_small by (auto; lia). reflexivity.
  - reflexivity.
Qed.

Lemma zeros_nonempty w : 0 < w -> value_vec_zeros w <> [].
Proof. intros H E. pose proof (zeros_len w) as L. rewrite E in L. nils. dlia. Qed.
Lemma zeros_first w : 0 < w -> w <= 64 -> range (value_vec_zeros w) 0 1 = Ok (value_vec_zeros w).
Proof. intros H H'. apply range_all. rewrite zeros_len. dlia. Qed.

Lemma slice_release a msb lsb : wf a -> msb < 2 ^ 32 -> lsb < 2 ^ 32 ->
  settles (rejects_release (KSlice a msb lsb)) (bv_slice Release a msb lsb).
Proof.
  intros Ha Hm Hl. apply wf_is, is_bv_inv in Ha as (_ & Hw & La & _). fold (places (width a)) in La.
  unfold bv_slice. cbn [debug_assert bind]. rewrite u32_sub_release by auto. cbn [bind].
  rewrite u32_add_release by (auto; try apply mod_lt; reflexivity). cbn [bind rejects_release].
  rewrite <- La.
  set (out := ((msb + 2 ^ 32 - lsb) mod 2 ^ 32 + 1) mod 2 ^ 32).
  assert (O : out = 0 <-> lsb = msb + 1 \/ (msb = 2 ^ 32 - 1 /\ lsb = 0)).
  { unfold out. change (2 ^ 32) with 4294967296 in *.
    rewrite N.add_mod_idemp_l by discriminate. split.
    - intros E. apply N.mod_divide in E as (q & E); [|discriminate]. lia.
    - intros [-> | (-> & ->)]; [|reflexivity].
      replace (msb + 4294967296 - (msb + 1) + 1) with 4294967296 by lia. reflexivity. }
  apply settles_then; [intros ? _; eauto|].
  destruct (N.eq_dec out 0) as [Z|Z].
  { rewrite Z. change (0 <=? 64) with true. cbv iota. apply settles_panic; [tauto|].
    eexists. reflexivity. }
  destruct (slice_words_settles (value_vec_zeros out) (words a) msb lsb) as [[H K]|[H (v & E)]].
  { apply zeros_nonempty. lia. }
  - left. split; [tauto|]. destruct (N.leb_spec out 64) as [L|L]; auto.
    rewrite zeros_first by lia. cbn [bind]. apply panics_bind. auto.
  - right. split; [tauto|]. destruct (N.leb_spec out 64) as [L|L]; [|eauto].
    rewrite zeros_first by lia. cbn [bind]. rewrite E. cbn [bind]. eauto.
Qed.

(** ** Extension and concatenation *)

Lemma on_tail_settles l n f : settles (len l < n) (on_tail l n f).
Proof.
  unfold on_tail, range. rewrite N.leb_refl, andb_true_r. destruct (N.leb_spec n (len l)) as [L|L].
  - right. split; [lia|]. cbn [bind]. eauto.
  - left. split; auto. eexists. reflexivity.
Qed.
Lemma len_assign d s : len (ar_assign d s) = len d.
Proof. unfold len. rewrite assign_length. reflexivity. Qed.

Lemma first_word (l : list N) :
  range l 0 1 = match l return res (list N) with [] => Panic PIndex | x :: _ => Ok [x] end.
Proof.
  destruct l as [|x l]; [reflexivity|]. rewrite range_ok by (rewrite ?len_cons; lia). reflexivity.
Qed.

Lemma len_pos {A} (l : list A) : 0 < len l -> exists x t, l = x :: t.
Proof. destruct l; [|eauto]. unfold len. cbn [length]. intros H. exfalso. clear - H. lia. Qed.

Lemma zero_extend_release a k : wf a -> k < 2 ^ 32 ->
  settles (rejects_release (KZeroExtend a k)) (bv_zero_extend Release a k).
Proof.
  intros Ha Hk. apply wf_is, is_bv_inv in Ha as (_ & Hw & La & _). fold (places (width a)) in La.
  unfold bv_zero_extend. rewrite u32_add_release by auto. cbn [bind rejects_release].
  set (out := (width a + k) mod 2 ^ 32). cbv zeta.
  apply settles_then; [intros ? _; eauto|].
  destruct (N.eq_dec out 0) as [Z|Z].
  { rewrite Z. change (0 <=? 64) with true. cbv iota. apply settles_panic; [tauto|].
    eexists. reflexivity. }
  destruct (N.leb_spec out 64) as [L|L].
  - rewrite zeros_first by lia. cbn [bind]. rewrite first_word.
    destruct (N.eq_dec (width a) 0) as [W|W].
    + rewrite W in La. change (places 0) with 0 in La. rewrite (nil_of _ La).
      apply settles_panic; [lia|]. eexists. reflexivity.
    + destruct (len_pos (words a)) as (x & t & ->). { rewrite La. unfold places. dlia. }
      cbn [bind]. apply settles_then; [intros; eauto|].
      eapply settles_ext; [|apply on_tail_settles].
      rewrite len_assign, zeros_len. change (len [x]) with 1.
      split; [intros H; exfalso; dlia|]. intros [H|[H|H]]; [contradiction| |];
        exfalso; clear - H W L; lia.
  - eapply settles_ext; [|apply on_tail_settles]. rewrite len_assign, zeros_len, La.
    fold (places out). clear - Z L. lia.
Qed.

Lemma mask_one x w : exists r, ar_mask_msb Release [x] w = Ok r.
Proof. apply mask_any. discriminate. Qed.

Lemma on_tail_nonempty l n f r : l <> [] -> on_tail l n f = Ok r -> (forall t, length (f t) = length t) ->
  r <> [].
Proof.
  unfold on_tail, range. intros H E Hf. rewrite N.leb_refl, andb_true_r in E.
  destruct (N.leb_spec n (len l)) as [L|L]; [|discriminate]. cbn [bind] in E. injection E as <-.
  intros E. apply app_eq_nil in E as [E1 E2].
  apply (f_equal (@length N)) in E1, E2. rewrite Hf in E2.
  rewrite firstn_length in *. rewrite skipn_length in E2. cbn [length] in *. unfold len in *.
  apply H. destruct l; auto. cbn [length] in *. lia.
Qed.

Lemma set_idx_settles (l : list N) i x : settles (len l <= i) (set_idx l i x).
Proof.
  destruct (N.ltb_spec i (len l)) as [L|L].
  - right. split; [lia|]. rewrite set_idx_ok by auto. eauto.
  - left. split; auto. rewrite set_idx_panic by auto. eexists. reflexivity.
Qed.

Lemma is_neg_settles l w : w < 2 ^ 32 -> settles (l = []) (ar_is_neg Release l w).
Proof.
  intros H. unfold ar_is_neg. rewrite u32_sub_release by (auto; reflexivity). cbn [bind].
  destruct l as [|x l].
  - left. split; auto. eexists. reflexivity.
  - right. split; [discriminate|]. unfold last_opt.
    destruct (rev (x :: l)) eqn:E; [|cbn [unwrap bind]; eauto].
    apply (f_equal (@length N)) in E. rewrite rev_length in E. discriminate.
Qed.

Lemma mask_word_ok k : k <= 64 -> exists r, ar_mask k = Ok r.
Proof.
  intros H. unfold ar_mask. destruct (N.eqb_spec k 64) as [E|E]; [cbn; eauto|].
  destruct (N.eqb_spec k 0) as [E0|E0]; [cbn; eauto|].
  replace (k <? 64) with true by lia. cbn [orb assert bind]. eauto.
Qed.

Lemma on_tail_len l n f r : (forall t, length (f t) = length t) -> on_tail l n f = Ok r ->
  length r = length l.
Proof.
  unfold on_tail, range. intros Hf E. rewrite N.leb_refl, andb_true_r in E.
  destruct (N.leb_spec n (len l)) as [L|L]; [|discriminate]. cbn [bind] in E. injection E as <-.
  rewrite app_length, Hf, !firstn_length, skipn_length. unfold len in *. lia.
Qed.

Lemma set_nth_length {A} (l : list A) : forall i x l', set_nth l i x = Some l' -> length l' = length l.
Proof.
  induction l as [|y l IH]; intros i x l' E; [discriminate|]. destruct i as [|i]; cbn [set_nth] in E.
  - injection E as <-. reflexivity.
  - destruct (set_nth l i x) as [t|] eqn:F; [|discriminate]. injection E as <-. cbn [length].
    rewrite (IH i x t); auto.
Qed.

Lemma sign_extend_words_settles dst src w o : dst <> [] -> w < 2 ^ 32 ->
  settles (src = [] \/ len dst < len src) (ar_sign_extend Release dst src w o).
Proof.
  intros Hd Hw. unfold ar_sign_extend.
  destruct (is_neg_settles src w Hw) as [[H K]|[H (neg & E)]].
  { left. split; auto. apply panics_bind. auto. }
  rewrite E. cbn [bind].
  assert (P : settles (src = [] \/ len dst < len src) (on_tail (ar_assign dst src) (len src) ar_clear)).
  { eapply settles_ext; [|apply on_tail_settles]. rewrite len_assign. tauto. }
  destruct neg; auto. clear P.
  assert (S : 0 < len src). { destruct src; [contradiction|]. rewrite len_cons. lia. }
  assert (T : forall d, len d = len dst ->
     settles (src = [] \/ len dst < len src)
       (let* d' := on_tail d (len src) ar_set in ar_mask_msb Release d' o)).
  { intros d Ld. destruct (on_tail_settles d (len src) ar_set) as [[H' K]|[H' (r & E')]].
    - left. split; [rewrite <- Ld; auto|]. apply panics_bind. auto.
    - right. split; [rewrite <- Ld; tauto|]. rewrite E'. cbn [bind].
      apply on_tail_len in E'; [|intros; apply map_length].
      apply mask_any. intros ->. cbn in E'. unfold len in Ld.
      destruct dst; [contradiction|]. cbn [length] in Ld. lia. }
  destruct (N.ltb_spec 0 (w mod 64)) as [L|L]; [|cbn [bind]; apply T, len_assign].
  destruct (mask_word_ok (64 - w mod 64)) as (k & ->). { dlia. }
  cbn [bind].
  destruct (N.le_gt_cases (len dst) (len src - 1)) as [O|O].
  - left. split; [right; lia|]. unfold idx.
    rewrite (proj2 (nth_error_None _ _)). { eexists. reflexivity. }
    rewrite assign_length. unfold len in *. lia.
  - unfold idx. destruct (nth_error (ar_assign dst src) (N.to_nat (len src - 1))) as [x|] eqn:F.
    2: { apply nth_error_None in F. rewrite assign_length in F. unfold len in *. lia. }
    cbn [bind]. destruct (set_idx_settles (ar_assign dst src) (len src - 1) (N.lor x (wshl k (w mod 64))))
      as [[H' _]|[H' (r & E')]]. { rewrite len_assign in H'. lia. }
    rewrite E'. cbn [bind]. apply T. unfold set_idx in E'.
    destruct (set_nth _ _ _) as [l'|] eqn:G; [|discriminate]. injection E' as <-.
    rewrite <- (len_assign dst src).
    unfold len. apply set_nth_length in G. congruence.
Qed.

Lemma sign_extend_release a k : wf a -> k < 2 ^ 32 ->
  settles (rejects_release (KSignExtend a k)) (bv_sign_extend Release a k).
Proof.
  intros Ha Hk. apply wf_is, is_bv_inv in Ha as (_ & Hw & La & _). fold (places (width a)) in La.
  unfold bv_sign_extend. rewrite u32_add_release by auto. cbn [bind rejects_release].
  set (out := (width a + k) mod 2 ^ 32). cbv zeta.
  apply settles_then; [intros ? _; eauto|].
  destruct (N.eq_dec out 0) as [Z|Z].
  { rewrite Z. change (0 <=? 64) with true. cbv iota. apply settles_panic; [tauto|].
    eexists. reflexivity. }
  pose proof (zeros_nonempty out ltac:(lia)) as Nz.
  assert (W : words a = [] <-> width a = 0).
  { split; intros H.
    - rewrite H in La. change (len (@nil N)) with 0 in La. unfold places in La. dlia.
    - rewrite H in La. apply nil_of. rewrite La. reflexivity. }
  destruct (N.leb_spec out 64) as [L|L].
  - rewrite zeros_first by lia. cbn [bind]. rewrite first_word.
    destruct (words a) as [|x t].
    + apply settles_panic; [tauto|]. eexists. reflexivity.
    + cbn [bind]. apply settles_then; [intros; eauto|].
      eapply settles_ext; [|apply sign_extend_words_settles; auto].
      rewrite zeros_len. change (len [x]) with 1. split.
      * intros [H|H]; [discriminate|]. exfalso. dlia.
      * intros [H|[H|H]]; [contradiction| |].
        -- apply W in H. discriminate.
        -- exfalso. clear - H L. lia.
  - eapply settles_ext; [|apply sign_extend_words_settles; auto]. rewrite zeros_len, La.
    fold (places out). rewrite W. clear - Z L. lia.
Qed.

Lemma concat_words_settles dst msb lsb w : len lsb < 2 ^ 64 - 1 -> len dst < 2 ^ 64 - 1 ->
  settles (w mod 64 <> 0 /\ (lsb = [] \/ len dst < len lsb)) (ar_concat Release dst msb lsb w).
Proof.
  intros Hl Hd. unfold ar_concat. destruct (N.eqb_spec (w mod 64) 0) as [E|E].
  { right. split; [tauto|]. eauto. }
  destruct (mask_word_ok (64 - w mod 64)) as (k & ->). { dlia. }
  cbn [bind]. destruct lsb as [|x l].
  - left. split; [tauto|]. change (len (@nil N)) with 0. unfold usz_sub.
    change (1 <=? 0) with false. cbn [bind]. unfold idx.
    rewrite (proj2 (nth_error_None _ _)). { eexists. reflexivity. }
    rewrite assign_length. unfold len in Hd.
    change (as_u64 (0 + B64 - 1)) with 18446744073709551615.
    change (2 ^ 64 - 1) with 18446744073709551615 in Hd. clear - Hd. lia.
  - unfold usz_sub. rewrite len_cons. replace (1 <=? len l + 1) with true by lia. cbn [bind].
    replace (len l + 1 - 1) with (len l) by lia.
    unfold idx. destruct (nth_error (ar_assign dst (x :: l)) (N.to_nat (len l))) as [y|] eqn:F.
    + right. split; [|cbn [bind]; eauto]. intros (_ & [H|H]); [discriminate|].
      assert (nth_error (ar_assign dst (x :: l)) (N.to_nat (len l)) <> None) as K by congruence.
      apply nth_error_Some in K. rewrite assign_length in K. unfold len in *. lia.
    + apply nth_error_None in F. rewrite assign_length in F. left.
      split; [|eexists; reflexivity]. split; auto. right. unfold len in *. lia.
Qed.

Lemma concat_release a b : wf a -> wf b ->
  settles (rejects_release (KBin BConcat a b)) (bv_concat Release a b).
Proof.
  intros Ha Hb. apply wf_is, is_bv_inv in Ha as (_ & Hw & La & _). fold (places (width a)) in La.
  apply wf_is, is_bv_inv in Hb as (_ & Hv & Lb & _). fold (places (width b)) in Lb.
  unfold bv_concat. rewrite u32_add_release by auto. cbn [bind rejects_release].
  set (out := (width a + width b) mod 2 ^ 32). cbv zeta.
  assert (Ho : out < 2 ^ 32) by (apply mod_lt; reflexivity).
  apply settles_then; [intros ? _; eauto|].
  destruct (N.eq_dec out 0) as [Z|Z].
  { rewrite Z. change (0 <=? 64) with true. cbv iota. apply settles_panic; [tauto|].
    eexists. reflexivity. }
  assert (Wa : words a = [] <-> width a = 0).
  { split; intros H.
    - rewrite H in La. change (len (@nil N)) with 0 in La. unfold places in La. dlia.
    - rewrite H in La. apply nil_of. rewrite La. reflexivity. }
  assert (Wb : words b = [] <-> width b = 0).
  { split; intros H.
    - rewrite H in Lb. change (len (@nil N)) with 0 in Lb. unfold places in Lb. dlia.
    - rewrite H in Lb. apply nil_of. rewrite Lb. reflexivity. }
  assert (S : forall w, w < 2 ^ 32 -> places w < 2 ^ 64 - 1).
  { clear. intros w H. unfold places. change (2 ^ 64 - 1) with 18446744073709551615.
    change (2 ^ 32) with 4294967296 in H. dlia. }
  destruct (N.leb_spec out 64) as [L|L].
  - rewrite zeros_first by lia. cbn [bind]. rewrite !first_word.
    destruct (words a) as [|x t].
    { apply settles_panic; [tauto|]. eexists. reflexivity. }
    cbn [bind]. destruct (words b) as [|y u].
    { apply settles_panic; [tauto|]. eexists. reflexivity. }
    cbn [bind]. apply settles_then; [intros; eauto|].
    eapply settles_ext; [|apply concat_words_settles].
    + rewrite zeros_len. change (len [y]) with 1. split.
      * intros (_ & [H|H]); [discriminate|]. exfalso. dlia.
      * intros [H|[(_ & [H|H])|(H & _)]]; [contradiction| | |].
        -- apply Wa in H. discriminate.
        -- apply Wb in H. discriminate.
        -- exfalso. clear - H L. lia.
    + reflexivity.
    + rewrite zeros_len. apply S. auto.
  - eapply settles_ext; [|apply concat_words_settles].
    + rewrite zeros_len, Lb. fold (places out). rewrite Wb. split.
      * intros (K & [H|H]); [exfalso; rewrite H in K; apply K; reflexivity|]. auto.
      * intros [H|[(H & _)|H]]; [contradiction| |]; clear - H L; [exfalso|]; intuition lia.
    + rewrite Lb. apply S. auto.
    + rewrite zeros_len. apply S. auto.
Qed.

(** ** Numbers without a width *)

Lemma u32_mul_release a b : u32_mul Release a b = Ok ((a * b) mod 2 ^ 32).
Proof.
  unfold u32_mul. rewrite B32_eq. destruct (N.ltb_spec (a * b) (2 ^ 32)) as [L|L]; [|reflexivity].
  rewrite N.mod_small; auto.
Qed.

Lemma sub_mod_wrap x y b : b <> 0 -> y <= x -> y <= b -> (x mod b + b - y) mod b = (x - y) mod b.
Proof.
  intros B H1 H2.
  assert (E := N.div_mod x b B). rewrite <- (N.mod_add (x mod b + b - y) (x / b) b B).
  rewrite <- (N.mod_add (x - y) 1 b B). f_equal. lia.
Qed.

Lemma count_release n : n <> 0 -> N.size n < 2 ^ 38 - 64 ->
  exists d, as_u32 (len (u64_digits n)) <> 0 /\ last_opt (u64_digits n) = Some d
    /\ (let* t := u32_mul Release (as_u32 (len (u64_digits n))) 64 in
        u32_sub Release t (leading_zeros64 d)) = Ok (N.size n mod 2 ^ 32).
Proof.
  intros Hn Hs. destruct (last_digit n Hn) as (d & E1 & E2 & E3). exists d.
  destruct (u64_digits_ok n) as (_ & _ & L).
  assert (Sn : N.size n <> 0) by (destruct n; [lia|discriminate]).
  remember (len (u64_digits n)) as k. clear Heqk.
  assert (K : as_u32 k = k /\ k <> 0).
  { unfold as_u32. rewrite B32_eq. change (2 ^ 32) with 4294967296.
    change (2 ^ 38) with 274877906944 in Hs. rewrite N.mod_small by (clear - L Hs; dlia).
    split; auto. clear - L Sn. dlia. }
  destruct K as (-> & K). split; [auto|]. split; [auto|].
  rewrite u32_mul_release. cbn [bind].
  assert (D : leading_zeros64 d <= 64) by (unfold leading_zeros64; clear; lia).
  rewrite u32_sub_release; [|apply mod_lt; reflexivity|].
  2: { eapply N.le_lt_trans; [exact D|reflexivity]. }
  f_equal. rewrite <- E2. apply sub_mod_wrap; [discriminate|clear - K D; lia|].
  eapply N.le_trans; [exact D|discriminate].
Qed.

Lemma of_big_uint_release n : N.size n < 2 ^ 38 - 64 ->
  yields (bv_of_big_uint Release n) (N.size n mod 2 ^ 32) (n mod 2 ^ (N.size n mod 2 ^ 32)).
Proof.
  intros Hs. unfold bv_of_big_uint.
  assert (E : count_big_uint_bits Release n = Ok (N.size n mod 2 ^ 32)).
  { unfold count_big_uint_bits. destruct (N.eq_dec n 0) as [->|Hn]; [reflexivity|].
    destruct (count_release n Hn Hs) as (d & E1 & E2 & E3).
    replace (as_u32 (len (u64_digits n)) =? 0) with false by lia. rewrite E2. cbn [unwrap bind]. exact E3. }
  rewrite E. cbn [bind]. apply from_big_uint_ok, mod_lt. 
Qed.

Lemma of_big_int_release z : N.size (Z.abs_N z) < 2 ^ 38 - 64 ->
  let w := (N.size (Z.abs_N z) + 1) mod 2 ^ 32 in
  settles ((z < 0)%Z /\ w = 0) (bv_of_big_int Release z)
  /\ (w <> 0 -> yields (bv_of_big_int Release z) w (wrap w z)).
Proof.
  intros Hs w. unfold bv_of_big_int. set (n := Z.abs_N z) in *.
  assert (E : count_big_int_bits Release z = Ok w).
  { unfold count_big_int_bits. fold n. destruct (N.eq_dec n 0) as [->|Hn]; [reflexivity|].
    destruct (count_release n Hn Hs) as (d & E1 & E2 & E3).
    replace (as_u32 (len (u64_digits n)) =? 0) with false by lia. rewrite E2. cbn [unwrap bind].
    rewrite (bind_bind_ok _ _ (fun t => u32_add Release t 1) _ E3).
    rewrite u32_add_release by (try apply mod_lt; reflexivity).
    rewrite N.add_mod_idemp_l by discriminate. reflexivity. }
  rewrite E. cbn [bind]. assert (W : w < 2 ^ 32) by apply mod_lt. clearbody w. split.
  - destruct (N.eq_dec w 0) as [->|Hw].
    + unfold bv_from_big_int, from_big_int, iter_to_word. cbn [N.eqb bind value_vec_zeros].
      destruct (z <? 0)%Z eqn:F.
      * apply settles_panic; [lia|]. eexists. reflexivity.
      * right. split; [lia|]. cbn [bind]. eauto.
    + eapply settles_yields; [|exact (from_big_int_ok Release z w ltac:(lia) W)]. tauto.
  - intros Hw. apply from_big_int_ok; auto. lia.
Qed.

(** ** All calls *)

Lemma rejects_less c : rejects_release c -> (forall a, In a (operands c) -> wf a) -> in_range c -> rejects c.
Proof.
  destruct c as [| | | | | | | | | | | | | |? |op a b| | |a msb lsb|a k|a k|a b| | | | | | | |];
    try (cbn [rejects_release rejects]; tauto).
  - cbn [rejects_release rejects]. intros (_ & H) _ _. change (2 ^ 32 - 64) with 4294967232.
    change (2 ^ 32) with 4294967296 in H. revert H. generalize (N.size (Z.abs_N z)). clear.
    intros k H. apply N.mod_divide in H as (q & H); [|discriminate]. lia.
  - intros H Ho _. assert (Ha := proj1 (Ho a (or_introl eq_refl))).
    assert (Hb := proj1 (Ho b (or_intror (or_introl eq_refl)))).
    destruct op; cbn [rejects_release rejects] in *; try (clear - H; lia).
    destruct (N.lt_ge_cases (width a + width b) (2 ^ 32)) as [L|L]; [|auto].
    rewrite N.mod_small in H by auto. right. clear - H. unfold places in H. dlia.
  - intros H Ho _. assert (Ha := proj1 (Ho a (or_introl eq_refl))). cbn [rejects_release rejects] in *.
    clear - H Ha. unfold places in H. change (2 ^ 32) with 4294967296 in *. dlia.
  - intros H Ho _. assert (Ha := proj1 (Ho a (or_introl eq_refl))). cbn [rejects_release rejects] in *.
    destruct (N.lt_ge_cases (width a + k) (2 ^ 32)) as [L|L]; [|auto].
    rewrite N.mod_small in H by auto. right. clear - H. unfold places in H. dlia.
  - intros H Ho _. assert (Ha := proj1 (Ho a (or_introl eq_refl))). cbn [rejects_release rejects] in *.
    destruct (N.lt_ge_cases (width a + k) (2 ^ 32)) as [L|L]; [|auto].
    rewrite N.mod_small in H by auto. right. clear - H. unfold places in H. dlia.
  - cbn [rejects_release rejects]. intros H _ _ E. apply H. rewrite E. reflexivity.
Qed.

(** Only the calls that a debug build rejects need a look. *)
Lemma by_debug c : (forall a, In a (operands c) -> wf a) -> in_range c -> in_memory c ->
  (rejects c -> settles (rejects_release c) (run Release c)) -> settles (rejects_release c) (run Release c).
Proof.
  intros Ho Hr Hm H. destruct (call_settles c Ho Hr Hm) as [[R _]|[R _]]; [auto|].
  destruct (call_returns Release c Ho Hr Hm R) as (v & E & _). right.
  split; [|eauto]. intros R'. apply R. apply rejects_less; auto.
Qed.

Lemma u64_release n w : n < 2 ^ 64 -> w < 2 ^ 32 -> settles (w = 0) (bv_from_u64 Release n w).
Proof.
  intros Hn Hw. destruct (N.eq_dec w 0) as [->|W].
  - apply settles_panic; auto. eexists. reflexivity.
  - eapply settles_yields; [auto|]. apply (from_u64_cases n w); auto; lia.
Qed.
Lemma i64_release z w : fits 64 z -> w < 2 ^ 32 -> settles (w = 0) (bv_from_i64 Release z w).
Proof.
  intros Hn Hw. destruct (N.eq_dec w 0) as [->|W].
  - apply settles_panic; auto. unfold bv_from_i64, bv_assign_from_i64. apply panics_bind.
    change (words (bv_clear (bv_zero 0))) with (@nil N). unfold ar_sign_extend.
    change (len (@nil N) =? 1) with false. cbv iota.
    destruct (ar_is_neg Release [i64_as_u64 z] 64) as [[]|k]; eexists; reflexivity.
  - eapply settles_yields; [auto|]. apply (from_i64_cases z w); auto; lia.
Qed.

Lemma panic_not_ok {A} (r : res A) v : panics r -> r = Ok v -> False.
Proof. intros (k & ->). discriminate. Qed.

Lemma str_release s r w : w < 2 ^ 32 -> len s < 2 ^ 30 -> text_rejected s r w ->
  panics (bv_from_str_radix Release s r w).
Proof.
  intros Hw Hs T. assert (D := proj2 (settles_iff _ _ (from_str_settles s r w Hw Hs)) T).
  assert (D' := reading_parse Debug s r w Hw Hs). assert (R := reading_parse Release s r w Hw Hs).
  destruct (reading_of r w 0 s); cbn [parses_to] in D', R; auto; exfalso.
  - destruct D' as (v & E & _). eapply panic_not_ok; eauto.
  - eapply panic_not_ok; eauto.
Qed.
Lemma assign_str_release a s r : wf a -> len s < 2 ^ 30 -> text_rejected s r (width a) ->
  panics (bv_assign_from_str_radix Release a s r).
Proof.
  intros Ha Hs T. assert (D := proj2 (settles_iff _ _ (assign_str_settles a s r Ha Hs)) T).
  assert (W : well_shaped a) by (apply wf_is, is_bv_inv in Ha as (_ & H1 & H2 & H3 & _); repeat split; auto).
  assert (D' := reading_assign Debug a s r W Hs). assert (R := reading_assign Release a s r W Hs).
  destruct (reading_of r (width a) (uval a) s); cbn [assigned] in D', R; auto; exfalso;
    destruct D' as (v & E & _); eapply panic_not_ok; eauto.
Qed.

Lemma bin_release op a b : wf a -> wf b -> settles (rejects_release (KBin op a b)) (run_bin op Release a b).
Proof.
  intros Ha Hb. destruct (match op with BConcat => true | _ => false end) eqn:E.
  { destruct op; try discriminate. apply concat_release; auto. }
  eapply delivers_settles; [|apply mixed_ok; [destruct op; discriminate|apply wf_is; auto|apply wf_is; auto]].
  destruct op; try discriminate; cbn [rejects_release mixed]; rewrite ?places_1, ?places_none;
    (etransitivity; [|apply if_none]); clear; lia.
Qed.

Lemma release_settles c : (forall a, In a (operands c) -> wf a) -> in_range c -> in_memory c ->
  settles (rejects_release c) (run Release c).
Proof.
  intros Ho Hr Hm. apply by_debug; auto. intros R.
  destruct c; cbn [run in_range operands in_memory] in *;
    try (assert (Ha := Ho a (or_introl eq_refl)); assert (Ia := wf_is a Ha));
    try (cbn [rejects] in R; match type of R with False => destruct R end);
    try (apply settles_then; [now eauto|]).
  - cbn [rejects] in R. subst. apply settles_panic; [reflexivity|]. eexists. reflexivity.
  - now apply u64_release.
  - now apply i64_release.
  - apply settles_panic; [exact R|]. apply str_release; tauto.
  - apply settles_panic; [exact R|]. destruct R. apply from_bytes_le_panics; auto.
  - cbn [rejects] in R. destruct R as (-> & Z). apply settles_panic; [split; auto|].
    unfold bv_from_big_int, from_big_int, iter_to_word. cbn [N.eqb bind value_vec_zeros].
    replace (z <? 0)%Z with true by lia. eexists. reflexivity.
  - now apply of_big_int_release.
  - eapply settles_yields; [|apply of_big_uint_release; exact Hm]. auto.
  - apply bin_release; auto. apply Ho. cbn; auto.
  - cbn [rejects] in R. zero_case R. apply settles_panic; [reflexivity|]. eexists; reflexivity.
  - cbn [rejects] in R. zero_case R. apply settles_panic; [reflexivity|]. eexists; reflexivity.
  - now apply slice_release.
  - now apply zero_extend_release.
  - now apply sign_extend_release.
  - eapply delivers_settles; [|eapply assign_mixed; [exact Ia|apply wf_is, Ho; cbn; auto]].
    cbn [rejects_release]. unfold mixed_assign. clear.
    destruct (N.eqb_spec (places (width a)) (places (width b))); split; easy.
  - cbn [rejects] in R. zero_case R. apply settles_panic; [reflexivity|]. eexists; reflexivity.
  - cbn [rejects] in R. zero_case R. apply settles_panic; [reflexivity|]. eexists; reflexivity.
  - cbn [rejects_release]. eapply settles_eq; [|apply (u64_release n (width a)); [auto|apply Ha]].
    unfold bv_from_u64, bv_assign_from_u64.
    rewrite (clear_zero a Ha), clear_zero by (apply zero_is_bv; apply Ha). reflexivity.
  - cbn [rejects_release]. eapply settles_eq; [|apply (i64_release z (width a)); [auto|apply Ha]].
    unfold bv_from_i64, bv_assign_from_i64.
    rewrite (clear_zero a Ha), clear_zero by (apply zero_is_bv; apply Ha). reflexivity.
  - apply settles_then; [intros [? ?] _; eauto|]. apply settles_panic; [exact R|].
    apply assign_str_release; tauto.
  - now apply bit_pos_settles.
  - now apply bit_pos_settles.
Qed.

(** ** All questions *)

Lemma asks_less q : rejects_question_release q -> rejects_question q.
Proof.
  destruct q as [t a b| | | | | | | | | | | | | | |]; cbn [rejects_question_release rejects_question]; try tauto.
  destruct t; clear; lia.
Qed.

Lemma signed_none strict w n w' k : w = 0 \/ w' = 0 <-> mixed_greater_signed strict w n w' k = None.
Proof.
  unfold mixed_greater_signed, mixed_greater. rewrite places_1, places_none.
  destruct (N.eqb_spec w 0) as [E|E]; [cbn [orb]; tauto|].
  destruct (N.eqb_spec w' 0) as [E'|E']; [cbn [orb]; tauto|]. rewrite andb_false_r. cbn [orb].
  destruct (N.testbit n (w - 1)), (N.testbit k (sign_place w w')); split; try easy; lia.
Qed.

Lemma fixed_any v f : exists o, bv_to_unsigned_fixed_point Release v f = Ok o.
Proof.
  unfold bv_to_unsigned_fixed_point, u64_shl1. cbn [debug_assert bind]. destruct (f <? 64); cbn [bind]; eauto.
Qed.

Lemma question_release_settles q : (forall a, In a (asked q) -> wf a) ->
  settles (rejects_question_release q) (ask Release q).
Proof.
  intros Ho. destruct (question_settles q Ho) as [[R _]|[R _]].
  2: { destruct (question_returns Release q Ho R) as (v & E). right. split; [|eauto].
       intros R'. apply R, asks_less, R'. }
  destruct q; cbn [ask asked] in *;
    assert (Ha := Ho a (or_introl eq_refl)); assert (Ia := wf_is a Ha);
    try (cbn [rejects_question] in R; match type of R with False => destruct R end);
    apply settles_then; try (now eauto).
  - assert (Ib := wf_is b (Ho b (or_intror (or_introl eq_refl)))).
    eapply answers_settles; [|eapply mixed_test_ok; [exact Ia|exact Ib]].
    cbn [rejects_question_release]. clear.
    destruct t; cbn [mixed_test]; try (split; easy);
      try (etransitivity; [|apply signed_none]; clear; lia);
      unfold mixed_greater; rewrite ?places_1, ?places_none;
      (etransitivity; [|apply if_none]); clear; lia.
  - cbn [rejects_question] in R. zero_case R. apply settles_panic; [reflexivity|]. eexists; reflexivity.
  - now apply bit_pos_settles.
  - cbn [rejects_question] in R. zero_case R. apply settles_panic; [reflexivity|]. eexists; reflexivity.
  - cbn [rejects_question] in R. zero_case R. apply settles_panic; [reflexivity|]. eexists; reflexivity.
  - cbn [rejects_question_release]. destruct (N.lt_ge_cases (uval a) (2 ^ 128)) as [X|X].
    + destruct (to_dec_str_raw Release a _ _ Ia X (or_introl eq_refl)) as (s & E & _).
      eapply settles_ok; [|exact E]. clear - X. intros H. now apply N.le_ngt in H.
    + apply settles_panic; [auto|]. eapply to_dec_str_wide; eauto.
  - right. split; [auto|]. apply fixed_any.
  - cbn [rejects_question_release]. destruct (N.eq_dec (width a) 0) as [W|W].
    + apply settles_panic; auto. zero_case W. eexists. reflexivity.
    + right. split; [auto|]. assert (Hw := proj1 (N.neq_0_lt_0 _) W).
      unfold bv_to_signed_fixed_point. cbn [debug_assert bind].
      rewrite (is_negative_ok Release a _ _ Hw Ia). cbn [bind].
      assert (F : forall v, exists o, bv_to_unsigned_fixed_point Release v fraction_width = Ok o).
      { intros v. apply fixed_any. }
      destruct (_ <? 0)%Z; auto. destruct (64 <? width a); [eauto|].
      destruct (negate_ok Release a _ _ Hw Ia) as (n & E & In). rewrite E. cbn [bind].
      destruct (F n) as (o & ->). cbn [bind]. eauto.
Qed.

Lemma release_panics c : (forall a, In a (operands c) -> wf a) -> in_range c -> in_memory c ->
  (panics (run Release c) <-> rejects_release c).
Proof. intros. apply settles_iff, release_settles; auto. Qed.
Lemma question_release_panics q : (forall a, In a (asked q) -> wf a) ->
  (panics (ask Release q) <-> rejects_question_release q).
Proof. intros. apply settles_iff, question_release_settles; auto. Qed.
Lemma release_returns c : (forall a, In a (operands c) -> wf a) -> in_range c -> in_memory c ->
  ~ rejects_release c -> exists v, run Release c = Ok v.
Proof. intros Ho Hr Hm H. destruct (release_settles c Ho Hr Hm) as [[R _]|[_ R]]; [contradiction|auto]. Qed.
Lemma no_new_panics c : (forall a, In a (operands c) -> wf a) -> in_range c -> in_memory c ->
  panics (run Release c) -> panics (run Debug c).
Proof.
  intros Ho Hr Hm H. apply (call_panics c Ho Hr Hm). apply rejects_less; auto.
  apply (release_panics c Ho Hr Hm). auto.
Qed.
Lemma no_new_panics_question q : (forall a, In a (asked q) -> wf a) ->
  panics (ask Release q) -> panics (ask Debug q).
Proof.
  intros Ho H. apply (question_panics q Ho), asks_less. apply (question_release_panics q Ho). auto.
Qed.
Lemma of_big_int_wraps z : N.size (Z.abs_N z) < 2 ^ 38 - 64 ->
  let w := (N.size (Z.abs_N z) + 1) mod 2 ^ 32 in
  w <> 0 -> yields (bv_of_big_int Release z) w (wrap w z).
Proof. intros H. exact (proj2 (of_big_int_release z H)). Qed.
