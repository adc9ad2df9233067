(** * PArith: add, sub, mul, negate and the bitwise operations. *)

From Coq Require Import ZifyBool ZifyNat ZifyN.
From Verif Require Import Base Arith Bv Spec PWords.

Ltac Zify.zify_post_hook ::= Z.div_mod_to_equations.

(** Result of a word-level function: a list of [ceil(w/64)] words of value [n]. *)
Definition wres (r : res (list N)) (w n : N) : Prop :=
  exists l, r = Ok l /\ len l = (w + 63) / 64 /\ Words l /\ wv l = n.

Lemma wres_yields r w n : w < 2 ^ 32 -> n < 2 ^ w -> wres r w n ->
  yields (let* l := r in Ok (mkbv w l)) w n.
Proof.
  intros Hw Hn (l & -> & Hl & Wl & Vl). exists (mkbv w l). split; auto.
  apply is_bv_intro; auto.
Qed.

Lemma arith_bin_fn_ok f m a b w x y l : is_bv a w x -> is_bv b w y ->
  f m (value_vec_zeros w) (words a) (words b) w = Ok l -> len l = (w + 63) / 64 ->
  arith_bin_fn f m a b = Ok (mkbv w l).
Proof.
  intros Ha Hb Hf Hl. apply is_bv_inv in Ha, Hb.
  destruct Ha as (Wa & Hw & La & Fa & Va & Ba), Hb as (Wb & _ & Lb & Fb & Vb & Bb).
  unfold arith_bin_fn. rewrite Wa, Wb, La, Lb, !N.eqb_refl, !debug_assert_true.
  cbn [bind].
  destruct (N.eqb_spec ((w + 63) / 64) 1) as [E|E].
  - rewrite !range_all by (rewrite ?zeros_len; congruence). cbn [bind].
    rewrite Hf. cbn [bind]. rewrite splice_all; auto.
    apply len_length. rewrite zeros_len. auto.
  - rewrite Hf. auto.
Qed.

Lemma arith_bin_fn_yields f m a b w x y n : is_bv a w x -> is_bv b w y ->
  n < 2 ^ w ->
  wres (f m (value_vec_zeros w) (words a) (words b) w) w n ->
  yields (arith_bin_fn f m a b) w n.
Proof.
  intros Ha Hb Hn (l & Hf & Hl & Wl & Vl).
  exists (mkbv w l). split.
  - eapply arith_bin_fn_ok; eauto.
  - apply is_bv_inv in Ha. apply is_bv_intro; auto; tauto.
Qed.

Lemma bit_arith_bin_fn_yields f m a b w x y n : is_bv a w x -> is_bv b w y ->
  n < 2 ^ w ->
  wres (Ok (f (value_vec_zeros w) (words a) (words b))) w n ->
  yields (bit_arith_bin_fn f m a b) w n.
Proof.
  intros Ha Hb Hn Hf.
  assert (bit_arith_bin_fn f m a b
          = arith_bin_fn (fun _ d p q _ => Ok (f d p q)) m a b) as ->.
  { unfold bit_arith_bin_fn, arith_bin_fn. destruct (len (words a) =? 1); auto. }
  eapply arith_bin_fn_yields; eauto.
Qed.

(** ** Carry chain *)

Lemma adc_ok c x y : c <= 1 -> x < 2 ^ 64 -> y < 2 ^ 64 ->
  exists w c', ar_adc c x y = (w, c') /\ w < 2 ^ 64 /\ c' <= 1
               /\ c + x + y = w + 2 ^ 64 * c'.
Proof.
  intros Hc Hx Hy. unfold ar_adc, as_u64, as_u8. rewrite N.shiftr_div_pow2, B64_eq.
  assert (Q : (c + x + y) / 2 ^ 64 <= 1).
  { change (2 ^ 64) with 18446744073709551616 in *. lia. }
  rewrite (N.mod_small _ 256) by lia.
  do 2 eexists. split; [reflexivity|]. split; [auto|]. split; [auto|].
  rewrite (N.add_comm (_ mod _)). apply N.div_mod. auto.
Qed.

Lemma add_loop_ok c dst a b : c <= 1 -> Words a -> Words b ->
  len a = len dst -> len b = len dst ->
  Words (ar_add_loop c dst a b) /\ len (ar_add_loop c dst a b) = len dst
  /\ wv (ar_add_loop c dst a b) = (c + wv a + wv b) mod 2 ^ (64 * len dst).
Proof.
  intros Hc Ha. revert c dst b Hc.
  induction Ha as [|x a Hx Ha IH]; intros c dst b Hc Hb La Lb.
  - destruct dst; [|rewrite len_cons in La; nils; lia]. cbn [ar_add_loop].
    split; auto. split; auto. nils. change (64 * 0) with 0. rewrite N.mod_1_r. auto.
  - destruct dst as [|d dst]; [rewrite len_cons in La; nils; lia|].
    destruct b as [|y b]; [rewrite len_cons in Lb; nils; lia|].
    inversion Hb as [|? ? Hy Hb']; subst. rewrite !len_cons in La, Lb.
    cbn [ar_add_loop]. destruct (adc_ok c x y Hc Hx Hy) as (w & c' & -> & Hw & Hc' & E).
    destruct (IH c' dst b) as (W & L & V); [auto|auto|lia|lia|].
    split; [constructor; auto|]. rewrite !len_cons. split; [lia|].
    rewrite !wv_cons, V.
    replace (c + (x + 2 ^ 64 * wv a) + (y + 2 ^ 64 * wv b))
      with (w + 2 ^ 64 * (c' + wv a + wv b)) by lia.
    replace (64 * (len dst + 1)) with (64 + 64 * len dst) by lia.
    rewrite add_mul_mod; auto.
Qed.

Lemma wv_map_wnot l : Words l -> wv (map wnot l) = 2 ^ (64 * len l) - 1 - wv l.
Proof.
  induction 1 as [|x l Hx Hl IH]; auto. cbn [map].
  rewrite !wv_cons, IH, len_cons.
  pose proof (wv_bound l Hl) as B.
  replace (64 * (len l + 1)) with (64 + 64 * len l) by lia.
  rewrite N.pow_add_r. unfold wnot. rewrite WMAX_eq. nia.
Qed.
Lemma Words_map_wnot l : Words (map wnot l).
Proof. induction l; cbn [map]; constructor; auto. apply wnot_lt. Qed.

Lemma sub_loop_add c dst a b : ar_sub_loop c dst a b = ar_add_loop c dst a (map wnot b).
Proof.
  revert c a b. induction dst as [|d dst IH]; intros c a b; auto.
  destruct a as [|x a]; auto. destruct b as [|y b]; auto.
  cbn [ar_sub_loop ar_add_loop map]. destruct (ar_adc c x (wnot y)). f_equal. auto.
Qed.
Lemma negate_loop_add c dst :
  ar_negate_loop c dst = ar_add_loop c dst (repeat 0 (length dst)) (map wnot dst).
Proof.
  revert c. induction dst as [|d dst IH]; intros c; auto.
  cbn [ar_negate_loop ar_add_loop map length repeat].
  destruct (ar_adc c 0 (wnot d)). f_equal. auto.
Qed.

Lemma ceil_mul w : w <= 64 * ((w + 63) / 64).
Proof. lia. Qed.
#[global] Hint Resolve ceil_mul : core.

Lemma mask_wres m l w : 0 < w -> Words l -> len l = (w + 63) / 64 ->
  wres (ar_mask_msb m l w) w (wv l mod 2 ^ w).
Proof.
  intros Hw Wl Hl. destruct (mask_msb_ok m l w Wl Hl Hw) as (l' & E & W & L & V).
  exists l'. rewrite L. auto.
Qed.

Lemma wres_eq r w n n' : wres r w n -> n = n' -> wres r w n'.
Proof. intros H <-. auto. Qed.

Lemma add_wres m a b w x y : 0 < w -> is_bv a w x -> is_bv b w y ->
  wres (ar_add m (value_vec_zeros w) (words a) (words b) w) w ((x + y) mod 2 ^ w).
Proof.
  intros Hw Ha Hb.
  apply is_bv_inv in Ha, Hb.
  destruct Ha as (Wa & Hw' & La & Fa & Va & Ba), Hb as (Wb & _ & Lb & Fb & Vb & Bb).
  unfold ar_add.
  destruct (add_loop_ok 0 (value_vec_zeros w) (words a) (words b)) as (W & L & V);
    rewrite ?zeros_len; auto; try lia.
  rewrite zeros_len in *.
  eapply wres_eq; [apply mask_wres; auto|].
  rewrite V, mod_mod_le by auto. rewrite Va, Vb. auto.
Qed.
Lemma add_ok m a b w x y : 0 < w -> is_bv a w x -> is_bv b w y ->
  yields (bv_add m a b) w ((x + y) mod 2 ^ w).
Proof. intros Hw Ha Hb. eapply arith_bin_fn_yields; eauto. now apply add_wres. Qed.

(** ** Subtraction and negation *)

Lemma wrap_sub w x y : y <= 2 ^ w -> wrap w (Z.of_N x - Z.of_N y) = (x + 2 ^ w - y) mod 2 ^ w.
Proof.
  intros H. unfold wrap.
  replace (2 ^ Z.of_N w)%Z with (Z.of_N (2 ^ w)) by (rewrite N2Z.inj_pow; auto).
  pose proof (pow_pos w).
  replace (Z.of_N x - Z.of_N y)%Z
    with (Z.of_N (x + 2 ^ w - y) + (-1) * Z.of_N (2 ^ w))%Z by lia.
  rewrite Z.mod_add by lia. rewrite <- N2Z.inj_mod, N2Z.id. auto.
Qed.
Lemma wrap_lt w z : wrap w z < 2 ^ w.
Proof.
  unfold wrap. pose proof (pow_pos w).
  assert (2 ^ Z.of_N w = Z.of_N (2 ^ w))%Z as -> by (rewrite N2Z.inj_pow; auto).
  pose proof (Z.mod_pos_bound z (Z.of_N (2 ^ w))). lia.
Qed.
#[global] Hint Resolve wrap_lt : core.

(** adding a multiple of 2^w does not matter *)
Lemma mod_sub_multiple a k w j : w <= k -> j <= 2 ^ w ->
  (a + 2 ^ k - j) mod 2 ^ w = (a + 2 ^ w - j) mod 2 ^ w.
Proof.
  intros H Hj. rewrite (pow_split w k H).
  pose proof (pow_pos (k - w)).
  replace (a + 2 ^ w * 2 ^ (k - w) - j)
    with ((a + 2 ^ w - j) + (2 ^ (k - w) - 1) * 2 ^ w) by nia.
  rewrite N.mod_add; auto.
Qed.

Lemma sub_wres m a b w x y : 0 < w -> is_bv a w x -> is_bv b w y ->
  wres (ar_sub m (value_vec_zeros w) (words a) (words b) w) w (wrap w (Z.of_N x - Z.of_N y)).
Proof.
  intros Hw Ha Hb.
  apply is_bv_inv in Ha, Hb.
  destruct Ha as (Wa & Hw' & La & Fa & Va & Ba), Hb as (Wb & _ & Lb & Fb & Vb & Bb).
  unfold ar_sub. rewrite sub_loop_add.
  destruct (add_loop_ok 1 (value_vec_zeros w) (words a) (map wnot (words b))) as (W & L & V);
    rewrite ?zeros_len, ?len_map; auto; try lia; try apply Words_map_wnot.
  rewrite zeros_len in *.
  eapply wres_eq; [apply mask_wres; auto|].
  rewrite V, mod_mod_le by auto. rewrite wv_map_wnot by auto. rewrite Va, Vb, Lb.
  rewrite wrap_sub by lia.
  rewrite <- (mod_sub_multiple x (64 * ((w + 63) / 64))) by (auto; lia).
  f_equal.
  assert (H2 : 2 ^ w <= 2 ^ (64 * ((w + 63) / 64))) by auto.
  clear - H2 Bb. generalize dependent (2 ^ (64 * ((w + 63) / 64))). intros; lia.
Qed.
Lemma sub_ok m a b w x y : 0 < w -> is_bv a w x -> is_bv b w y ->
  yields (bv_sub m a b) w (wrap w (Z.of_N x - Z.of_N y)).
Proof. intros Hw Ha Hb. eapply arith_bin_fn_yields; eauto. now apply sub_wres. Qed.

Lemma negate_in_place_wres m l w : 0 < w -> Words l -> len l = (w + 63) / 64 ->
  wv l < 2 ^ w ->
  wres (ar_negate_in_place m l w) w (wrap w (- Z.of_N (wv l))).
Proof.
  intros Hw Wl Ll B. unfold ar_negate_in_place. rewrite negate_loop_add.
  destruct (add_loop_ok 1 l (repeat 0 (length l)) (map wnot l)) as (W & L & V);
    rewrite ?len_map, ?len_repeat; auto; try lia; try apply Words_map_wnot.
  eapply wres_eq; [apply mask_wres; auto; lia|].
  rewrite Ll in V. rewrite V, mod_mod_le by auto. rewrite wv_map_wnot, wv_repeat0 by auto.
  rewrite Ll. replace (- Z.of_N (wv l))%Z with (Z.of_N 0 - Z.of_N (wv l))%Z by lia.
  rewrite wrap_sub by lia.
  rewrite <- (mod_sub_multiple 0 (64 * ((w + 63) / 64))) by (auto; lia).
  f_equal.
  assert (H2 : 2 ^ w <= 2 ^ (64 * ((w + 63) / 64))) by auto.
  clear - H2 B. generalize dependent (2 ^ (64 * ((w + 63) / 64))). intros; lia.
Qed.

Lemma negate_wres m dst l w : 0 < w -> Words l -> len l = (w + 63) / 64 -> len dst = len l ->
  wv l < 2 ^ w ->
  wres (ar_negate m dst l w) w (wrap w (- Z.of_N (wv l))).
Proof.
  intros. unfold ar_negate. rewrite H2, N.eqb_refl. cbn [assert bind].
  apply negate_in_place_wres; auto.
Qed.

(** unary operations with the one-word special case *)
Lemma un_fn_yields (f : list N -> list N -> res (list N)) v w x n :
  0 < w -> is_bv v w x -> n < 2 ^ w ->
  wres (f (value_vec_zeros w) (words v)) w n ->
  yields (let out := value_vec_zeros (width v) in
          let* out :=
            (if len (words v) <=? 1 then
               let* o := range out 0 1 in
               let* s := range (words v) 0 1 in
               let* o := f o s in
               Ok (splice out 0 o)
             else f out (words v)) in
          Ok (mkbv (width v) out)) w n.
Proof.
  intros Hw Hv Hn (l & Hf & Hl & Wl & Vl). apply is_bv_inv in Hv.
  destruct Hv as (Wv & Hw' & Lv & Fv & Vv & Bv).
  exists (mkbv w l). split; [|apply is_bv_intro; auto].
  cbn zeta. rewrite Wv, Lv. destruct (N.leb_spec ((w + 63) / 64) 1) as [E|E].
  - assert ((w + 63) / 64 = 1) by lia.
    rewrite !range_all by (rewrite ?zeros_len; congruence). cbn [bind].
    rewrite Hf. cbn [bind]. rewrite splice_all; auto.
    apply len_length. rewrite zeros_len. auto.
  - rewrite Hf. auto.
Qed.

Lemma negate_ok m a w x : 0 < w -> is_bv a w x ->
  yields (bv_negate m a) w (wrap w (- Z.of_N x)).
Proof.
  intros Hw Ha. unfold bv_negate.
  pose proof (is_bv_inv _ _ _ Ha) as (Wa & Hw' & La & Fa & Va & Ba).
  apply (un_fn_yields (fun o s => ar_negate m o s (width a)) a w x); auto.
  rewrite Wa, <- Va. apply negate_wres; auto; rewrite ?Va; auto.
  rewrite zeros_len. auto.
Qed.

(** ** Multiplication *)

Lemma mul_wres m a b w x y : 0 < w -> w <= 64 -> is_bv a w x -> is_bv b w y ->
  wres (ar_mul m (value_vec_zeros w) (words a) (words b) w) w ((x * y) mod 2 ^ w).
Proof.
  intros Hw Hw64 Ha Hb.
  apply is_bv_inv in Ha, Hb.
  destruct Ha as (Wa & Hw' & La & Fa & Va & Ba), Hb as (Wb & _ & Lb & Fb & Vb & Bb).
  assert (E : (w + 63) / 64 = 1) by lia. rewrite E in *.
  destruct (len_0_1 (words a) La) as (xa & Ea), (len_0_1 (words b) Lb) as (xb & Eb).
  rewrite Ea, Eb in *. unfold ar_mul. replace (w <=? 64) with true by lia.
  pose proof (zeros_len w) as Lz. rewrite E in Lz.
  destruct (len_0_1 _ Lz) as (z & ->).
  rewrite !wv_cons in *. nils. rewrite N.mul_0_r, N.add_0_r in *. subst xa xb.
  unfold idx, set_idx. change (N.to_nat 0) with O. cbn [nth_error set_nth bind].
  rewrite ar_mask_pos by auto. cbn [bind].
  eexists. split; [reflexivity|]. rewrite E. split; auto.
  rewrite land_ones_sub. unfold as_u64. rewrite B64_eq, mod_mod_le by auto. split.
  - constructor; auto. eapply N.lt_le_trans; [apply mod_lt|]; auto.
  - rewrite wv_cons. nils. lia.
Qed.
Lemma mul_ok m a b w x y : 0 < w -> w <= 64 -> is_bv a w x -> is_bv b w y ->
  yields (bv_mul m a b) w ((x * y) mod 2 ^ w).
Proof. intros Hw Hw64 Ha Hb. eapply arith_bin_fn_yields; eauto. now apply mul_wres. Qed.

Lemma mul_wide_panics m a b w x y : 64 < w -> is_bv a w x -> is_bv b w y ->
  bv_mul m a b = Panic PTodo.
Proof.
  intros Hw Ha Hb. apply is_bv_inv in Ha, Hb.
  destruct Ha as (Wa & Hw' & La & Fa & Va & Ba), Hb as (Wb & _ & Lb & Fb & Vb & Bb).
  unfold bv_mul, arith_bin_fn. rewrite Wa, Wb, La, Lb, !N.eqb_refl, !debug_assert_true.
  cbn [bind].
  replace ((w + 63) / 64 =? 1) with false by lia.
  unfold ar_mul. replace (w <=? 64) with false by lia. auto.
Qed.

(** ** Bitwise operations *)

Section Bitwise.
  Variable op : N -> N -> N.
  Variable f : bool -> bool -> bool.
  Hypothesis op_spec : forall a b i, N.testbit (op a b) i = f (N.testbit a i) (N.testbit b i).
  Hypothesis f_ff : f false false = false.

  Lemma op_lt a b k : a < 2 ^ k -> b < 2 ^ k -> op a b < 2 ^ k.
  Proof.
    intros Ha Hb. apply lt_pow_bits. intros i Hi.
    rewrite op_spec, (testbit_high a k), (testbit_high b k); auto.
  Qed.

  Lemma op_split x y a b : x < 2 ^ 64 -> y < 2 ^ 64 ->
    op (x + 2 ^ 64 * a) (y + 2 ^ 64 * b) = op x y + 2 ^ 64 * op a b.
  Proof.
    intros Hx Hy. apply N.bits_inj. intros i.
    rewrite op_spec, !testbit_add_low by (auto using op_lt).
    destruct (i <? 64); rewrite op_spec; auto.
  Qed.

  Lemma bin_op_ok dst a b : Words a -> Words b -> len a = len dst -> len b = len dst ->
    Words (ar_bitwise_bin_op op dst a b) /\ len (ar_bitwise_bin_op op dst a b) = len dst
    /\ wv (ar_bitwise_bin_op op dst a b) = op (wv a) (wv b).
  Proof.
    intros Ha. revert dst b. induction Ha as [|x a Hx Ha IH]; intros dst b Hb La Lb.
    - destruct dst; [|rewrite len_cons in La; nils; lia].
      destruct b; [|rewrite len_cons in Lb; nils; lia]. cbn [ar_bitwise_bin_op].
      split; auto. split; auto. nils. symmetry. apply N.bits_inj. intros i.
      rewrite op_spec, !N.bits_0. auto.
    - destruct dst as [|d dst]; [rewrite len_cons in La; nils; lia|].
      destruct b as [|y b]; [rewrite len_cons in Lb; nils; lia|].
      inversion Hb as [|? ? Hy Hb']; subst. rewrite !len_cons in La, Lb.
      cbn [ar_bitwise_bin_op]. destruct (IH dst b) as (W & L & V); auto; try lia.
      split; [constructor; auto using op_lt|]. rewrite !len_cons. split; [lia|].
      rewrite !wv_cons, V, op_split; auto.
  Qed.

  Lemma bitwise_ok m a b w x y : is_bv a w x -> is_bv b w y ->
    yields (bit_arith_bin_fn (ar_bitwise_bin_op op) m a b) w (op x y).
  Proof.
    intros Ha Hb.
    pose proof (is_bv_inv _ _ _ Ha) as (Wa & Hw' & La & Fa & Va & Ba).
    pose proof (is_bv_inv _ _ _ Hb) as (Wb & _ & Lb & Fb & Vb & Bb).
    eapply bit_arith_bin_fn_yields; eauto using op_lt.
    destruct (bin_op_ok (value_vec_zeros w) (words a) (words b)) as (W & L & V);
      rewrite ?zeros_len; auto.
    eexists. split; [reflexivity|]. rewrite L, zeros_len, V, Va, Vb. auto.
  Qed.
End Bitwise.

Lemma and_ok m a b w x y : is_bv a w x -> is_bv b w y ->
  yields (bv_and m a b) w (N.land x y).
Proof. apply (bitwise_ok N.land andb N.land_spec eq_refl). Qed.
Lemma or_ok m a b w x y : is_bv a w x -> is_bv b w y ->
  yields (bv_or m a b) w (N.lor x y).
Proof. apply (bitwise_ok N.lor orb N.lor_spec eq_refl). Qed.
Lemma xor_ok m a b w x y : is_bv a w x -> is_bv b w y ->
  yields (bv_xor m a b) w (N.lxor x y).
Proof. apply (bitwise_ok N.lxor xorb N.lxor_spec eq_refl). Qed.

Lemma un_op_map op dst l : len l = len dst -> ar_bitwise_un_op op dst l = map op l.
Proof.
  revert l. induction dst as [|d dst IH]; intros [|x l] L; rewrite ?len_cons in L; nils;
    try lia; auto.
  cbn [ar_bitwise_un_op map]. f_equal. apply IH. lia.
Qed.

Lemma not_val_mod k w x : w <= k -> x < 2 ^ w -> (2 ^ k - 1 - x) mod 2 ^ w = 2 ^ w - 1 - x.
Proof.
  intros H Hx. rewrite (pow_split w k H). pose proof (pow_pos (k - w)).
  replace (2 ^ w * 2 ^ (k - w) - 1 - x)
    with ((2 ^ w - 1 - x) + (2 ^ (k - w) - 1) * 2 ^ w) by nia.
  rewrite N.mod_add by auto. apply N.mod_small. lia.
Qed.

Lemma not_ok m a w x : 0 < w -> is_bv a w x -> yields (bv_not m a) w (2 ^ w - 1 - x).
Proof.
  intros Hw Ha. unfold bv_not.
  pose proof (is_bv_inv _ _ _ Ha) as (Wa & Hw' & La & Fa & Va & Ba).
  apply (un_fn_yields (fun o s => ar_not m o s (width a)) a w x); auto; [lia|].
  rewrite Wa. unfold ar_not. rewrite un_op_map by (rewrite zeros_len; auto).
  eapply wres_eq; [apply mask_wres; auto using Words_map_wnot|].
  - rewrite len_map. auto.
  - rewrite wv_map_wnot by auto. rewrite Va, La. apply not_val_mod; auto.
Qed.

Lemma not_bits w x i : x < 2 ^ w -> i < w ->
  N.testbit (2 ^ w - 1 - x) i = negb (N.testbit x i).
Proof.
  intros H Hi. rewrite <- N.pred_sub, <- N.ones_equiv.
  rewrite N.sub_nocarry_ldiff.
  - rewrite N.ldiff_spec, N.ones_spec_low by auto. auto.
  - apply N.bits_inj. intros j. rewrite N.ldiff_spec, N.bits_0.
    destruct (N.lt_ge_cases j w).
    + rewrite N.ones_spec_low by auto. apply andb_false_r.
    + rewrite (testbit_high x w); auto.
Qed.
