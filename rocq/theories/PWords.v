(** * PWords: lemmas about numbers as lists of 64-bit words. *)

From Coq Require Import ZifyBool ZifyNat ZifyN.
From Verif Require Import Base Arith Bv Spec.

Ltac Zify.zify_post_hook ::= Z.div_mod_to_equations.
#[global] Arguments N.mul : simpl never.
#[global] Arguments N.add : simpl never.
#[global] Arguments N.sub : simpl never.
#[global] Arguments N.pow : simpl never.
#[global] Arguments N.div : simpl never.
#[global] Arguments N.modulo : simpl never.
#[global] Arguments N.shiftl : simpl never.
#[global] Arguments N.shiftr : simpl never.
#[global] Arguments N.land : simpl never.
#[global] Arguments N.lor : simpl never.
#[global] Arguments N.lxor : simpl never.
#[global] Arguments N.testbit : simpl never.
#[global] Arguments N.of_nat : simpl never.
#[global] Arguments N.to_nat : simpl never.

Notation wv := words_val.
Notation Words := (Forall (fun x => x < 2 ^ 64)).

Lemma B64_eq : B64 = 2 ^ 64. Proof. reflexivity. Qed.
Lemma B32_eq : B32 = 2 ^ 32. Proof. reflexivity. Qed.
Lemma WMAX_eq : WMAX = 2 ^ 64 - 1. Proof. reflexivity. Qed.

(** ** Powers of two *)

Lemma pow_pos k : 0 < 2 ^ k.
Proof. pose proof (N.pow_nonzero 2 k). lia. Qed.
Lemma pow_nz k : 2 ^ k <> 0.
Proof. pose proof (pow_pos k). lia. Qed.
Lemma pow_split a b : a <= b -> 2 ^ b = 2 ^ a * 2 ^ (b - a).
Proof. intros H. rewrite <- N.pow_add_r. f_equal. lia. Qed.
Lemma pow_le a b : a <= b -> 2 ^ a <= 2 ^ b.
Proof. intros H. apply N.pow_le_mono_r; lia. Qed.
Lemma pow_lt a b : a < b -> 2 ^ a < 2 ^ b.
Proof. intros H. apply N.pow_lt_mono_r; lia. Qed.
Lemma pow_S a : 2 ^ (a + 1) = 2 * 2 ^ a.
Proof. rewrite N.pow_add_r, N.pow_1_r. lia. Qed.
#[global] Hint Resolve pow_pos pow_nz pow_le pow_lt : core.

Lemma mod_lt a k : a mod 2 ^ k < 2 ^ k.
Proof. apply N.mod_lt; auto. Qed.
#[global] Hint Resolve mod_lt : core.

Lemma mod_small_pow a k : a < 2 ^ k -> a mod 2 ^ k = a.
Proof. apply N.mod_small. Qed.

(** low part plus high part *)
Lemma add_mul_mod x y k j : x < 2 ^ k ->
  (x + 2 ^ k * y) mod 2 ^ (k + j) = x + 2 ^ k * (y mod 2 ^ j).
Proof.
  intros H. rewrite N.pow_add_r.
  rewrite N.mod_mul_r by auto.
  replace ((x + 2 ^ k * y) mod 2 ^ k) with x.
  2:{ rewrite N.mul_comm, N.mod_add by auto. rewrite N.mod_small; auto. }
  replace ((x + 2 ^ k * y) / 2 ^ k) with y; auto.
  rewrite N.mul_comm, N.div_add by auto. rewrite N.div_small by auto. lia.
Qed.

Lemma add_mul_div x y k : x < 2 ^ k -> (x + 2 ^ k * y) / 2 ^ k = y.
Proof. intros H. rewrite N.mul_comm, N.div_add by auto. rewrite N.div_small by auto. lia. Qed.
Lemma add_mul_mod0 x y k : x < 2 ^ k -> (x + 2 ^ k * y) mod 2 ^ k = x.
Proof. intros H. rewrite N.mul_comm, N.mod_add by auto. apply N.mod_small; auto. Qed.

Lemma add_mul_lt x y k j : x < 2 ^ k -> y < 2 ^ j -> x + 2 ^ k * y < 2 ^ (k + j).
Proof. intros. rewrite N.pow_add_r. nia. Qed.

Lemma mod_mod_le a k j : j <= k -> (a mod 2 ^ k) mod 2 ^ j = a mod 2 ^ j.
Proof.
  intros H. rewrite (pow_split j k H), N.mod_mul_r by auto.
  rewrite N.mul_comm, N.mod_add by auto. rewrite N.mod_mod; auto.
Qed.

Lemma mod_div_mod a k b c : b + c <= k ->
  (a mod 2 ^ k / 2 ^ b) mod 2 ^ c = (a / 2 ^ b) mod 2 ^ c.
Proof.
  intros H. apply N.bits_inj. intros i.
  rewrite <- !N.shiftr_div_pow2.
  destruct (N.lt_ge_cases i c).
  - rewrite !N.mod_pow2_bits_low by auto. rewrite !N.shiftr_spec'.
    rewrite N.mod_pow2_bits_low; auto. lia.
  - rewrite !N.mod_pow2_bits_high by auto. auto.
Qed.

Lemma div_div_pow a b c : a / 2 ^ b / 2 ^ c = a / 2 ^ (b + c).
Proof. rewrite N.div_div by auto. rewrite N.pow_add_r. auto. Qed.

Lemma div_mod_pow a b c : (a / 2 ^ b) mod 2 ^ c = (a mod 2 ^ (b + c)) / 2 ^ b.
Proof.
  apply N.bits_inj. intros i. rewrite <- !N.shiftr_div_pow2.
  rewrite N.shiftr_spec'.
  destruct (N.lt_ge_cases i c).
  - rewrite !N.mod_pow2_bits_low by lia. rewrite N.shiftr_spec'. auto.
  - rewrite !N.mod_pow2_bits_high by lia. auto.
Qed.

Lemma div_lt_pow a b c : a < 2 ^ (b + c) -> a / 2 ^ b < 2 ^ c.
Proof. intros H. apply N.div_lt_upper_bound; auto. rewrite <- N.pow_add_r. auto. Qed.

(** ** Bits *)

Lemma testbit_add_low x r k i : x < 2 ^ k ->
  N.testbit (x + 2 ^ k * r) i = if i <? k then N.testbit x i else N.testbit r (i - k).
Proof.
  intros H. destruct (N.ltb_spec i k).
  - rewrite <- (N.mod_pow2_bits_low _ k) by auto.
    rewrite add_mul_mod0; auto.
  - replace i with ((i - k) + k) at 1 by lia.
    rewrite <- N.div_pow2_bits. rewrite add_mul_div; auto.
Qed.

Lemma testbit_high x k i : x < 2 ^ k -> k <= i -> N.testbit x i = false.
Proof.
  intros H Hi. destruct (N.eq_dec x 0) as [->|Hx]; [apply N.bits_0|].
  apply N.bits_above_log2. apply N.log2_lt_pow2 in H; lia.
Qed.

Lemma lt_pow_bits x k : (forall i, k <= i -> N.testbit x i = false) -> x < 2 ^ k.
Proof.
  intros H. destruct (N.eq_dec x 0) as [->|Hx]; auto.
  apply N.log2_lt_pow2; [lia|].
  destruct (N.lt_ge_cases (N.log2 x) k); auto.
  specialize (H _ H0). rewrite N.bit_log2 in H by auto. discriminate.
Qed.

Lemma lor_add x y k : x < 2 ^ k -> N.lor x (2 ^ k * y) = x + 2 ^ k * y.
Proof.
  intros H. apply N.bits_inj. intros i. rewrite N.lor_spec, testbit_add_low by auto.
  rewrite N.mul_comm, <- N.shiftl_mul_pow2.
  destruct (N.ltb_spec i k).
  - rewrite N.shiftl_spec_low by auto. apply orb_false_r.
  - rewrite N.shiftl_spec_high' by auto. rewrite (testbit_high x k i); auto.
Qed.

Lemma lor_add' x y k : x < 2 ^ k -> N.lor (2 ^ k * y) x = x + 2 ^ k * y.
Proof. rewrite N.lor_comm. apply lor_add. Qed.

Lemma land_ones_sub a k : N.land a (2 ^ k - 1) = a mod 2 ^ k.
Proof. rewrite <- N.land_ones, N.ones_equiv, N.pred_sub. auto. Qed.

Lemma testbit_ones_sub k i : N.testbit (2 ^ k - 1) i = (i <? k).
Proof.
  rewrite <- N.pred_sub, <- N.ones_equiv.
  destruct (N.ltb_spec i k); [apply N.ones_spec_low | apply N.ones_spec_high]; auto.
Qed.

Lemma land1_testbit a i : (N.land (N.shiftr a i) 1 =? 1) = N.testbit a i.
Proof.
  replace 1 with (2 ^ 1 - 1) at 1 by reflexivity.
  rewrite land_ones_sub. change (2 ^ 1) with 2. rewrite <- N.bit0_mod.
  rewrite N.shiftr_spec', N.add_0_l. destruct (N.testbit a i); reflexivity.
Qed.

(** ** Words *)

Lemma wshr_div x k : k < 64 -> wshr x k = x / 2 ^ k.
Proof. intros H. unfold wshr. rewrite N.mod_small by auto. apply N.shiftr_div_pow2. Qed.
Lemma wshl_mul x k : k < 64 -> wshl x k = (2 ^ k * x) mod 2 ^ 64.
Proof.
  intros H. unfold wshl, as_u64. rewrite (N.mod_small k 64) by auto.
  rewrite N.shiftl_mul_pow2, B64_eq. f_equal. lia.
Qed.
Lemma wshr_testbit x k : k < 64 -> (N.land (wshr x k) 1 =? 1) = N.testbit x k.
Proof. intros H. unfold wshr. rewrite N.mod_small by auto. apply land1_testbit. Qed.

Lemma mul_pow_mod64 x k : k <= 64 -> (2 ^ k * x) mod 2 ^ 64 = 2 ^ k * (x mod 2 ^ (64 - k)).
Proof. intros H. rewrite (pow_split k 64 H). rewrite N.mul_mod_distr_l by auto. auto. Qed.

Lemma wnot_lt x : wnot x < 2 ^ 64.
Proof. unfold wnot. rewrite WMAX_eq. lia. Qed.

Lemma wnot_testbit x i : x < 2 ^ 64 -> i < 64 -> N.testbit (wnot x) i = negb (N.testbit x i).
Proof.
  intros H Hi. unfold wnot. rewrite WMAX_eq, <- N.pred_sub, <- N.ones_equiv.
  rewrite N.sub_nocarry_ldiff.
  - rewrite N.ldiff_spec, N.ones_spec_low by auto. auto.
  - apply N.bits_inj. intros j. rewrite N.ldiff_spec, N.bits_0.
    destruct (N.lt_ge_cases j 64).
    + rewrite N.ones_spec_low by auto. apply andb_false_r.
    + rewrite (testbit_high x 64); auto.
Qed.

Lemma ar_mask_ok b : b <= 64 -> ar_mask b = Ok (2 ^ (if b =? 0 then 64 else b) - 1).
Proof.
  intros H. unfold ar_mask. destruct (N.eqb_spec b 64) as [->|]; [reflexivity|].
  destruct (N.eqb_spec b 0) as [->|]; [reflexivity|]. cbn [orb].
  replace (b <? 64) with true by lia. reflexivity.
Qed.
Lemma ar_mask_pos b : 0 < b -> b <= 64 -> ar_mask b = Ok (2 ^ b - 1).
Proof. intros H1 H2. rewrite ar_mask_ok by auto. destruct (N.eqb_spec b 0); [lia|auto]. Qed.

(** ** words_val *)

Lemma len_cons {A} (x : A) l : len (x :: l) = len l + 1.
Proof. unfold len. cbn [length]. lia. Qed.
Lemma len_app {A} (a b : list A) : len (a ++ b) = len a + len b.
Proof. unfold len. rewrite app_length. lia. Qed.
Lemma len_map {A B} (f : A -> B) l : len (map f l) = len l.
Proof. unfold len. rewrite map_length. auto. Qed.
Lemma len_rev {A} (l : list A) : len (rev l) = len l.
Proof. unfold len. rewrite rev_length. auto. Qed.
Lemma len_repeat {A} (x : A) n : len (repeat x n) = N.of_nat n.
Proof. unfold len. rewrite repeat_length. auto. Qed.
Lemma len_0 {A} (l : list A) : len l = 0 -> l = [].
Proof. destruct l; auto. rewrite len_cons. lia. Qed.
Lemma len_firstn {A} (l : list A) n : N.of_nat n <= len l -> len (firstn n l) = N.of_nat n.
Proof. unfold len. intros. rewrite firstn_length. lia. Qed.
Lemma len_skipn {A} (l : list A) n : len (skipn n l) = len l - N.of_nat n.
Proof. unfold len. rewrite skipn_length. lia. Qed.

(** [rewrite] with a lemma about a closed term would also match its value *)
Ltac nils :=
  change (@len N (@nil N)) with 0 in *; change (words_val (@nil N)) with 0 in *.
Lemma wv_cons x l : wv (x :: l) = x + 2 ^ 64 * wv l. Proof. reflexivity. Qed.
Lemma wv_app a b : wv (a ++ b) = wv a + 2 ^ (64 * len a) * wv b.
Proof.
  induction a as [|x a IH]; cbn [app].
  - nils. change (2 ^ (64 * 0)) with 1. lia.
  - rewrite !wv_cons, IH, len_cons.
    replace (64 * (len a + 1)) with (64 + 64 * len a) by lia.
    rewrite N.pow_add_r. lia.
Qed.
Lemma wv_bound l : Words l -> wv l < 2 ^ (64 * len l).
Proof.
  induction 1 as [|x l Hx Hl IH]; [reflexivity|].
  rewrite wv_cons, len_cons. replace (64 * (len l + 1)) with (64 + 64 * len l) by lia.
  apply add_mul_lt; auto.
Qed.
Lemma wv_repeat0 n : wv (repeat 0 n) = 0.
Proof. induction n; cbn [repeat]; auto. rewrite wv_cons, IHn. lia. Qed.
Lemma wv_map0 {A} (l : list A) : wv (map (fun _ => 0) l) = 0.
Proof. induction l; cbn [map]; auto. rewrite wv_cons, IHl. lia. Qed.
Lemma wv_mapmax {A} (l : list A) : wv (map (fun _ => WMAX) l) = 2 ^ (64 * len l) - 1.
Proof.
  induction l as [|x l IH]; cbn [map]; auto. rewrite wv_cons, IH, len_cons, WMAX_eq.
  replace (64 * (len l + 1)) with (64 + 64 * len l) by lia.
  rewrite N.pow_add_r. pose proof (pow_pos (64 * len l)). nia.
Qed.
Lemma Words_map0 {A} (l : list A) : Words (map (fun _ => 0) l).
Proof. induction l; cbn; constructor; auto; reflexivity. Qed.
Lemma Words_repeat0 n : Words (repeat 0 n).
Proof. induction n; cbn; constructor; auto; reflexivity. Qed.
Lemma Words_mapmax {A} (l : list A) : Words (map (fun _ => WMAX) l).
Proof. induction l; cbn; constructor; auto; reflexivity. Qed.
Lemma Words_app a b : Words a -> Words b -> Words (a ++ b).
Proof. intros. apply Forall_app. auto. Qed.
Lemma Words_firstn l n : Words l -> Words (firstn n l).
Proof. intros H. rewrite <- (firstn_skipn n l) in H. apply Forall_app in H. tauto. Qed.
Lemma Words_skipn l n : Words l -> Words (skipn n l).
Proof. intros H. rewrite <- (firstn_skipn n l) in H. apply Forall_app in H. tauto. Qed.
#[global] Hint Resolve Words_app Words_firstn Words_skipn Words_map0 Words_repeat0 Words_mapmax : core.

Lemma wv_inj a b : Words a -> Words b -> len a = len b -> wv a = wv b -> a = b.
Proof.
  intros Ha. revert b. induction Ha as [|x a Hx Ha IH]; intros [|y b] Hb Hl Hv; auto.
  - rewrite len_cons in Hl. nils. lia.
  - rewrite len_cons in Hl. nils. lia.
  - inversion Hb; subst. rewrite !len_cons in Hl. rewrite !wv_cons in Hv.
    assert (x = y).
    { rewrite <- (add_mul_mod0 x (wv a) 64), Hv by auto. apply add_mul_mod0; auto. }
    assert (wv a = wv b).
    { rewrite <- (add_mul_div x (wv a) 64), Hv by auto. apply add_mul_div; auto. }
    f_equal; auto. apply IH; auto. lia.
Qed.

Lemma wv_firstn l n : Words l -> wv (firstn n l) = wv l mod 2 ^ (64 * N.of_nat n).
Proof.
  intros H. destruct (Nat.le_gt_cases n (length l)) as [Hn|Hn].
  - rewrite <- (firstn_skipn n l) at 2. rewrite wv_app.
    rewrite len_firstn by (unfold len; lia).
    rewrite add_mul_mod0; auto.
    pose proof (wv_bound (firstn n l)) as B. rewrite len_firstn in B by (unfold len; lia).
    apply B; auto.
  - rewrite firstn_all2 by lia. rewrite N.mod_small; auto.
    eapply N.lt_le_trans; [apply wv_bound; auto|]. apply pow_le. unfold len. lia.
Qed.
Lemma wv_skipn l n : Words l -> wv (skipn n l) = wv l / 2 ^ (64 * N.of_nat n).
Proof.
  intros H. destruct (Nat.le_gt_cases n (length l)) as [Hn|Hn].
  - rewrite <- (firstn_skipn n l) at 2. rewrite wv_app.
    rewrite len_firstn by (unfold len; lia).
    rewrite add_mul_div; auto.
    pose proof (wv_bound (firstn n l)) as B. rewrite len_firstn in B by (unfold len; lia).
    apply B; auto.
  - rewrite skipn_all2 by lia. rewrite N.div_small; auto.
    eapply N.lt_le_trans; [apply wv_bound; auto|]. apply pow_le. unfold len. lia.
Qed.

Lemma wv_nth l n : Words l -> nth n l 0 = (wv l / 2 ^ (64 * N.of_nat n)) mod 2 ^ 64.
Proof.
  intros H. rewrite <- wv_skipn by auto. rewrite <- (firstn_skipn n l) in H.
  apply Forall_app in H as [_ H].
  destruct (Nat.le_gt_cases (length l) n) as [Hn|Hn].
  - rewrite nth_overflow, skipn_all2 by lia. reflexivity.
  - destruct (skipn n l) as [|y t] eqn:E.
    { apply (f_equal (@length N)) in E. rewrite skipn_length in E. cbn in E. lia. }
    assert (nth n l 0 = y).
    { rewrite <- (firstn_skipn n l), app_nth2; rewrite firstn_length; try lia.
      rewrite E. replace (n - Nat.min n (length l))%nat with O by lia. auto. }
    inversion H; subst. rewrite wv_cons, add_mul_mod0; auto.
Qed.

Lemma wv_testbit l i : Words l ->
  N.testbit (wv l) i = N.testbit (nth (N.to_nat (i / 64)) l 0) (i mod 64).
Proof.
  intros H. rewrite wv_nth by auto. rewrite N2Nat.id.
  rewrite N.mod_pow2_bits_low by lia. rewrite N.div_pow2_bits. f_equal. lia.
Qed.

(** last word *)
Lemma rev_cons_inv {A} (l : list A) : l <> [] -> exists t x, l = t ++ [x].
Proof. intros H. destruct (exists_last H) as (t & x & E). eauto. Qed.

Lemma last_opt_app {A} (t : list A) x : last_opt (t ++ [x]) = Some x.
Proof. unfold last_opt. rewrite rev_unit. auto. Qed.
Lemma map_last_app {A} (f : A -> A) t x : map_last f (t ++ [x]) = Ok (t ++ [f x]).
Proof. unfold map_last. rewrite rev_unit. cbn [rev]. rewrite rev_involutive. auto. Qed.

Lemma div_ceil_eq w : div_ceil w 64 = (w + 63) / 64.
Proof. unfold div_ceil. f_equal. lia. Qed.

(** [mask_msb] keeps the low [w] bits. *)
Lemma mask_msb_ok m l w : Words l -> len l = (w + 63) / 64 -> 0 < w ->
  exists l', ar_mask_msb m l w = Ok l' /\ Words l' /\ len l' = len l
             /\ wv l' = wv l mod 2 ^ w.
Proof.
  intros H Hl Hw. unfold ar_mask_msb. rewrite div_ceil_eq, Hl, N.eqb_refl.
  assert (debug_assert m true = Ok tt) as -> by (destruct m; auto). cbn [bind].
  rewrite ar_mask_ok by lia. cbn [bind].
  destruct (rev_cons_inv l) as (t & x & ->).
  { intros ->. nils. lia. }
  rewrite map_last_app. eexists; split; [reflexivity|].
  apply Forall_app in H as [Ht Hx]. inversion Hx; subst.
  rewrite !len_app, !len_cons in *. nils. rewrite N.add_0_l in *.
  set (k := if w mod 64 =? 0 then 64 else w mod 64) in *.
  assert (k <= 64) by (subst k; destruct (N.eqb_spec (w mod 64) 0); lia).
  assert (Hk : w = 64 * len t + k).
  { subst k. destruct (N.eqb_spec (w mod 64) 0); lia. }
  rewrite land_ones_sub. split; [|split].
  - apply Words_app; auto. repeat constructor.
    eapply N.lt_le_trans; [apply mod_lt|]. auto.
  - lia.
  - rewrite !wv_app, !wv_cons. nils. rewrite !N.mul_0_r, !N.add_0_r.
    rewrite Hk, add_mul_mod; auto. apply wv_bound; auto.
Qed.

(** ** Inversion of well-formedness *)

Lemma is_bv_inv v w n : is_bv v w n ->
  width v = w /\ w < 2 ^ 32 /\ len (words v) = (w + 63) / 64 /\ Words (words v)
  /\ wv (words v) = n /\ n < 2 ^ w.
Proof. intros ((H1 & H2 & H3 & H4) & <- & <-). unfold uval in *. auto 10. Qed.

Lemma is_bv_intro w l n : w < 2 ^ 32 -> len l = (w + 63) / 64 -> Words l -> wv l = n ->
  n < 2 ^ w -> is_bv (mkbv w l) w n.
Proof. intros. unfold is_bv, wf, uval. cbn [width words]. subst. auto 10. Qed.

Lemma is_bv_unique a b w n : is_bv a w n -> is_bv b w n -> a = b.
Proof.
  intros Ha Hb. apply is_bv_inv in Ha, Hb.
  destruct a as [wa la], b as [wb lb]; cbn [width words] in *.
  destruct Ha as (-> & _ & Hla & Wa & Va & _), Hb as (-> & _ & Hlb & Wb & Vb & _).
  f_equal. apply wv_inj; auto; congruence.
Qed.

Lemma wf_is_bv v : wf v -> is_bv v (width v) (uval v).
Proof. unfold is_bv. auto. Qed.

(** ** Slices *)

Lemma len_0_1 l : len l = 1 -> exists x : N, l = [x].
Proof.
  destruct l as [|x [|y t]]; rewrite ?len_cons; nils; try lia; eauto.
Qed.

Lemma range_all {A} (l : list A) n : n = len l -> range l 0 n = Ok l.
Proof.
  intros ->. unfold range. replace (0 <=? len l) with true by lia. rewrite N.leb_refl.
  cbn [andb]. f_equal. change (N.to_nat 0) with O. cbn [skipn].
  rewrite firstn_all2; auto. unfold len. lia.
Qed.
Lemma splice_all {A} (l new : list A) : length new = length l -> splice l 0 new = new.
Proof.
  intros H. unfold splice. change (N.to_nat 0) with O. cbn [firstn app Nat.add].
  rewrite skipn_all2 by lia. apply app_nil_r.
Qed.

Lemma zeros_len w : len (value_vec_zeros w) = (w + 63) / 64.
Proof. unfold value_vec_zeros. rewrite len_repeat, div_ceil_eq. lia. Qed.
Lemma zeros_words w : Words (value_vec_zeros w).
Proof. apply Words_repeat0. Qed.
Lemma zeros_val w : wv (value_vec_zeros w) = 0.
Proof. apply wv_repeat0. Qed.

Lemma debug_assert_true m : debug_assert m true = Ok tt.
Proof. destruct m; auto. Qed.

Lemma len_length {A B} (a : list A) (b : list B) : len a = len b -> length a = length b.
Proof. unfold len. lia. Qed.

(** ** Linear arithmetic with division by constants

    [dlia] drops every hypothesis that mentions a power (other than 2^32 and
    2^64) or a division by a power before calling [lia]. *)
Ltac drop_pow :=
  repeat match goal with
  | H : context [N.pow ?a ?b] |- _ =>
      lazymatch b with 32 => fail | 64 => fail | _ => clear H end
  | H : context [words_val _] |- _ => clear H
  | H : Forall _ _ |- _ => clear H
  | H : _ = Ok _ |- _ => clear H
  end.
Ltac dlia := drop_pow; zify; Z.div_mod_to_equations; lia.
