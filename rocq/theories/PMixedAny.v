(** * PMixedAny: release builds, operands of any widths with any unused bits set (C86). *)

From Coq Require Import ZifyBool ZifyNat ZifyN.
From Verif Require Import Base Arith Bv Spec CallSpec PanicSpec MixedSpec DirtySpec.
From Verif Require Import PWords PArith PShift PCompare PropsArith PMixed PDirty.

Ltac Zify.zify_post_hook ::= idtac.

Lemma stores_w v w n : stores v w n -> w < 2 ^ 32.
Proof. intros H. apply stores_inv in H. tauto. Qed.

(** ** The second operand as it is seen *)



Lemma any_sees_one w w' k b : stores b w' k -> places w = 1 -> places w' <> 0 ->
  range (words b) 0 1 = Ok (firstn 1 (words b)) /\ sees w w' k (firstn 1 (words b)).
Proof.
  intros Hb Hp Hn. apply stores_inv in Hb as (Wb & Hw & Lb & Fb & Vb & Bb). fold (places w') in Lb.
  split.
  - rewrite range_ok by lia. reflexivity.
  - unfold sees, seen. rewrite Hp. cbn [N.eqb Pos.eqb]. split; [apply Words_firstn; auto|].
    rewrite wv_firstn, Vb by auto. split; [reflexivity|]. split; [|intros; lia].
    rewrite len_firstn; lia.
Qed.

Lemma any_sees_all w w' k b : stores b w' k -> places w <> 1 -> sees w w' k (words b).
Proof.
  intros Hb Hp. apply stores_inv in Hb as (Wb & Hw & Lb & Fb & Vb & Bb).
  unfold sees, seen. apply N.eqb_neq in Hp as Hp'. rewrite Hp'.
  repeat split; auto. intros; lia.
Qed.

Lemma any_arith_mixed f a b w n w' k o : stores a w n -> stores b w' k ->
  (places w = 1 -> places w' = 0 -> o = None) ->
  (forall b', sees w w' k b' ->
    match o with
    | None => panics (f Release (value_vec_zeros w) (words a) b' w)
    | Some r => wres (f Release (value_vec_zeros w) (words a) b' w) w r
    end) ->
  delivers (arith_bin_fn f Release a b) w o.
Proof.
  intros Ha Hb Hnone Hf. pose proof Hb as Hb'.
  apply stores_inv in Ha as (Wa & Hw & La & Fa & Va & Ba).
  apply stores_inv in Hb as (Wb & _ & Lb & Fb & Vb & Bb).
  unfold arith_bin_fn. cbn [debug_assert bind]. rewrite Wa, La. fold (places w).
  destruct (N.eqb_spec (places w) 1) as [E|E].
  - rewrite !range_all by (rewrite ?zeros_len; unfold places in E; congruence). cbn [bind].
    destruct (N.eq_dec (places w') 0) as [Z|Z].
    + rewrite (Hnone E Z). cbn [delivers].
      destruct (range_none (words b)) as (p & ->). { unfold places in Z. congruence. }
      eexists. reflexivity.
    + destruct (any_sees_one w w' k b) as (-> & Hs); auto. cbn [bind]. specialize (Hf _ Hs).
      destruct o as [r|].
      * destruct Hf as (l & -> & L & W & V). cbn [bind].
        rewrite splice_all by (apply len_length; rewrite zeros_len; auto).
        eexists. split; [reflexivity|]. split; [apply is_bv_shaped; auto|]. auto.
      * destruct Hf as (p & ->). eexists. reflexivity.
  - specialize (Hf _ (any_sees_all w w' k b Hb' E)). destruct o as [r|].
    + destruct Hf as (l & -> & L & W & V). cbn [bind].
      eexists. split; [reflexivity|]. split; [apply is_bv_shaped; auto|]. auto.
    + destruct Hf as (p & ->). eexists. reflexivity.
Qed.

Lemma any_bitwise_mixed op f a b w n w' k :
  (forall a b i, N.testbit (op a b) i = f (N.testbit a i) (N.testbit b i)) ->
  f false false = false -> stores a w n -> stores b w' k ->
  delivers (bit_arith_bin_fn (ar_bitwise_bin_op op) Release a b) w
    (if (places w =? 1) && (places w' =? 0) then None
     else Some (op (low w w' n) (low w w' k))).
Proof.
  intros Hop Hff Ha Hb. rewrite bit_arith_same. eapply any_arith_mixed; eauto.
  - intros -> ->. reflexivity.
  - intros b' Hs.
    pose proof (sees_low _ _ _ _ Hs) as (C & S). destruct Hs as (W & V & L & P).
    replace ((places w =? 1) && (places w' =? 0)) with false.
    2:{ destruct (N.eqb_spec (places w) 1) as [E|E]; auto. specialize (P E). cbn [andb]. lia. }
    apply stores_inv in Ha as (Wa & Hw & La & Fa & Va & Ba).
    destruct (bitwise_zeros op f w (words a) b' Hop Hff Fa W La) as (W' & L' & V').
    eexists. split; [reflexivity|]. split; [exact L'|]. split; [exact W'|].
    rewrite V', C, V, S, Va. reflexivity.
Qed.

Lemma any_add_mixed a b w n w' k : stores a w n -> stores b w' k ->
  delivers (bv_add Release a b) w (mixed BAdd w n w' k).
Proof.
  intros Ha Hb. unfold mixed.
  eapply any_arith_mixed; eauto.
  - intros -> ->. rewrite orb_true_r. reflexivity.
  - intros b' Hs.
    pose proof (sees_low _ _ _ _ Hs) as (C & S). destruct Hs as (W & V & L & P).
    replace ((places w =? 1) && (places w' =? 0)) with false.
    2:{ destruct (N.eqb_spec (places w) 1) as [E|E]; auto. specialize (P E). cbn [andb]. lia. }
    apply stores_inv in Ha as (Wa & Hw & La & Fa & Va & Ba).
    rewrite orb_false_r. destruct (N.eqb_spec w 0) as [->|E].
    { apply mask_zero. }
    destruct (add_zeros 0 w (words a) b') as (W' & L' & V'); auto; [lia|].
    unfold ar_add. eapply wres_eq; [apply mask_wres; auto; lia|].
    rewrite V', C, V, S, Va. rewrite N.add_0_l. reflexivity.
Qed.

Lemma any_sub_mixed a b w n w' k : stores a w n -> stores b w' k ->
  delivers (bv_sub Release a b) w (mixed BSub w n w' k).
Proof.
  intros Ha Hb. unfold mixed.
  eapply any_arith_mixed; eauto.
  - intros -> ->. rewrite orb_true_r. reflexivity.
  - intros b' Hs.
    pose proof (sees_low _ _ _ _ Hs) as (C & S). destruct Hs as (W & V & L & P).
    replace ((places w =? 1) && (places w' =? 0)) with false.
    2:{ destruct (N.eqb_spec (places w) 1) as [E|E]; auto. specialize (P E). cbn [andb]. lia. }
    apply stores_inv in Ha as (Wa & Hw & La & Fa & Va & Ba).
    rewrite orb_false_r. destruct (N.eqb_spec w 0) as [->|E].
    { apply mask_zero. }
    unfold ar_sub. rewrite sub_loop_add.
    destruct (add_zeros 1 w (words a) (map wnot b')) as (W' & L' & V'); auto;
      [lia|apply Words_map_wnot|].
    eapply wres_eq; [apply mask_wres; auto; lia|].
    rewrite V', len_map, (wnot_low b' (N.min (places w) (len b'))) by (auto; apply N.le_min_r).
    rewrite C, V, S, Va. fold (low w w' n).
    do 2 f_equal. assert (H : low w w' k < 2 ^ common w w') by apply mod_lt.
    clear - H. lia.
Qed.

Lemma any_mul_mixed a b w n w' k : stores a w n -> stores b w' k ->
  delivers (bv_mul Release a b) w (mixed BMul w n w' k).
Proof.
  intros Ha Hb. unfold mixed.
  eapply any_arith_mixed; eauto.
  - intros _ ->. rewrite orb_true_r. reflexivity.
  - intros b' (W & V & L & P).
    apply stores_inv in Ha as (Wa & Hw & La & Fa & Va & Ba).
    unfold ar_mul. destruct (N.eqb_spec w 0) as [->|E]; cbn [orb].
    { destruct (words a) as [|x l]; [|rewrite len_cons in La; change ((0 + 63) / 64) with 0 in La; lia].
      eexists. reflexivity. }
    destruct (N.ltb_spec 64 w) as [E1|E1]; cbn [orb].
    { replace (w <=? 64) with false by lia. eexists. reflexivity. }
    replace (w <=? 64) with true by lia.
    assert (E2 : places w = 1) by (unfold places; dlia). specialize (P E2).
    replace (places w' =? 0) with false by lia. rewrite E2 in L. cbn [N.eqb Pos.eqb] in L.
    unfold places in E2. rewrite E2 in La.
    destruct (len_0_1 (words a) La) as (xa & Ea), (len_0_1 b' L) as (xb & Eb).
    rewrite Ea, Eb in *. pose proof (zeros_len w) as Lz. rewrite E2 in Lz.
    destruct (len_0_1 _ Lz) as (z & ->).
    rewrite !wv_cons in *. nils. rewrite N.mul_0_r, N.add_0_r in *. subst xa.
    unfold seen in V. unfold places in V. rewrite E2 in V. cbn [N.eqb Pos.eqb] in V. subst xb.
    unfold idx, set_idx. change (N.to_nat 0) with O. cbn [nth_error set_nth bind].
    rewrite ar_mask_pos by lia. cbn [bind].
    eexists. split; [reflexivity|]. rewrite E2. split; auto.
    rewrite land_ones_sub. unfold as_u64. rewrite B64_eq, N.mul_mod_idemp_r, mod_mod_le by auto.
    split.
    + constructor; auto. eapply N.lt_le_trans; [apply mod_lt|]; auto.
    + rewrite wv_cons. nils. lia.
Qed.

(** ** Shifts: only the amount matters *)



(** an operand of the same width that shifts as far *)

Lemma any_shift_mixed f a b w n w' k : by_amount f -> stores a w n -> stores b w' k -> 0 < w ->
  places w' <> 0 ->
  arith_bin_fn f Release a b = arith_bin_fn f Release a (like w k).
Proof.
  intros Hf Ha Hb Hw0 Hp. pose proof Hb as Hb'.
  apply stores_inv in Ha as (Wa & Hw & La & Fa & Va & Ba).
  apply stores_inv in Hb as (Wb & _ & Lb & Fb & Vb & Bb).
  pose proof (like_ok w k Hw) as Hc. pose proof Hc as Hc'.
  apply is_bv_stores, stores_inv in Hc as (Wc & _ & Lc & Fc & Vc & Bc).
  assert (Hp' : 0 < places w) by (unfold places; dlia).
  assert (G : forall b', sees w w' k b' ->
    ar_get_shift_amount b' w = ar_get_shift_amount (words (like w k)) w).
  { intros b' (W & V & L & P). rewrite !shift_amount_words; auto.
    - rewrite V, Vc. f_equal. generalize (seen w k). intros y.
      destruct (N.ltb_spec y w), (N.ltb_spec (N.min y w) w); auto; try lia.
      f_equal. lia.
    - rewrite Lc. auto.
    - rewrite L. destruct (places w =? 1); lia. }
  unfold arith_bin_fn. cbn [debug_assert bind]. rewrite Wa, La. fold (places w).
  destruct (N.eqb_spec (places w) 1) as [E|E].
  - rewrite !range_all by (rewrite ?zeros_len; unfold places in E; congruence). cbn [bind].
    destruct (any_sees_one w w' k b) as (-> & Hs); auto. cbn [bind].
    rewrite (range_all (words (like w k))) by (unfold places in E; congruence). cbn [bind].
    rewrite (Hf _ _ _ _ _ _ (G _ Hs)). reflexivity.
  - rewrite (Hf _ _ _ _ _ _ (G _ (any_sees_all w w' k b Hb' E))). reflexivity.
Qed.

Lemma any_empty_words a n : stores a 0 n -> words a = [] /\ n = 0.
Proof.
  intros Ha. apply stores_inv in Ha as (Wa & Hw & La & Fa & Va & Ba).
  change ((0 + 63) / 64) with 0 in *. change (2 ^ (64 * 0)) with 1 in Ba.
  split; [|lia]. destruct (words a); auto. rewrite len_cons in La. lia.
Qed.

Lemma any_shl_mixed a b w n w' k : stores a w n -> stores b w' k ->
  delivers (bv_shift_left Release a b) w (mixed BShl w n w' k).
Proof.
  intros Ha Hb. unfold mixed. destruct (N.eqb_spec (places w') 0) as [Z|Z].
  - apply any_arith_mixed with (n := n) (w' := w') (k := k); auto. intros b' (W & V & L & P).
    destruct (N.eqb_spec (places w) 1) as [E|E]; [specialize (P E); lia|].
    rewrite Z in L. rewrite (nil_of _ L). eexists. reflexivity.
  - destruct (N.eq_dec w 0) as [->|Hw].
    + apply any_arith_mixed with (n := n) (w' := w') (k := k); auto; [intros E; discriminate E|].
      intros b' (W & V & L & P). change (places 0 =? 1) with false in L.
      unfold ar_shift_left. rewrite amount_0 by (auto; lia). cbn [bind].
      replace (0 <=? seen 0 k) with true by lia.
      rewrite clear_zeros. eexists. split; [reflexivity|].
      rewrite zeros_len, zeros_val. auto using zeros_words.
    + unfold bv_shift_left.
      rewrite (any_shift_mixed _ a b w n w' k left_by_amount Ha Hb) by (auto; lia).
      pose proof (stores_w _ _ _ Ha) as Hw32.
      destruct (dirty_shl Release a (like w k) w n (N.min (seen w k) w)) as (v & E & G & W & V);
        auto using is_bv_stores, like_ok; [lia|].
      unfold bv_shift_left in E. rewrite E. eexists. split; [reflexivity|].
      split; auto. split; auto. rewrite V.
      destruct (N.leb_spec w (seen w k)) as [H|H].
      * replace (w <=? N.min (seen w k) w) with true by lia. reflexivity.
      * replace (N.min (seen w k) w) with (seen w k) by lia.
        replace (w <=? seen w k) with false by lia. reflexivity.
Qed.

Lemma any_shr_mixed a b w n w' k : stores a w n -> stores b w' k ->
  delivers (bv_shift_right Release a b) w (mixed BShr w (n mod 2 ^ w) w' k).
Proof.
  intros Ha Hb. unfold mixed. destruct (N.eqb_spec (places w') 0) as [Z|Z].
  - apply any_arith_mixed with (n := n) (w' := w') (k := k); auto. intros b' (W & V & L & P).
    destruct (N.eqb_spec (places w) 1) as [E|E]; [specialize (P E); lia|].
    rewrite Z in L. rewrite (nil_of _ L). eexists. reflexivity.
  - destruct (N.eq_dec w 0) as [->|Hw].
    + destruct (any_empty_words _ _ Ha) as (_ & ->).
      apply any_arith_mixed with (n := 0) (w' := w') (k := k); auto; [intros E; discriminate E|].
      intros b' (W & V & L & P). change (places 0 =? 1) with false in L.
      unfold ar_shift_right. rewrite amount_0 by (auto; lia). cbn [bind].
      rewrite clear_zeros. eexists. split; [reflexivity|].
      rewrite zeros_len, zeros_val, N.div_0_l by auto. auto using zeros_words.
    + unfold bv_shift_right.
      rewrite (any_shift_mixed _ a b w n w' k right_by_amount Ha Hb) by (auto; lia).
      pose proof (stores_w _ _ _ Ha) as Hw32.
      rewrite <- (div_min (n mod 2 ^ w) (seen w k) w) by apply mod_lt. apply yields_gives.
      apply dirty_shr; auto using is_bv_stores, like_ok. lia.
Qed.

Lemma any_ashr_mixed a b w n w' k : stores a w n -> stores b w' k ->
  delivers (bv_arithmetic_shift_right Release a b) w (mixed BAshr w (n mod 2 ^ w) w' k).
Proof.
  intros Ha Hb. unfold mixed. destruct (N.eqb_spec w 0) as [->|Hw]; cbn [orb].
  { destruct (any_empty_words _ _ Ha) as (Ea & ->).
    apply any_arith_mixed with (n := 0) (w' := w') (k := k); auto.
    intros b' (W & V & L & P). change (places 0 =? 1) with false in L. rewrite Ea.
    unfold ar_arithmetic_shift_right, ar_shift_right.
    destruct (N.eq_dec (places w') 0) as [Z|Z].
    - rewrite Z in L. rewrite (nil_of _ L). eexists. reflexivity.
    - rewrite amount_0 by (auto; lia). eexists. reflexivity. }
  destruct (N.eqb_spec (places w') 0) as [Z|Z].
  - apply any_arith_mixed with (n := n) (w' := w') (k := k); auto. intros b' (W & V & L & P).
    destruct (N.eqb_spec (places w) 1) as [E|E]; [specialize (P E); lia|].
    rewrite Z in L. rewrite (nil_of _ L). eexists. reflexivity.
  - unfold bv_arithmetic_shift_right.
    rewrite (any_shift_mixed _ a b w n w' k ashr_by_amount Ha Hb) by (auto; lia).
    pose proof (stores_w _ _ _ Ha) as Hw32.
    rewrite <- (asr_min w (n mod 2 ^ w) (seen w k)) by (try apply mod_lt; lia). apply yields_gives.
    apply dirty_ashr; auto using is_bv_stores, like_ok. lia.
Qed.

Lemma any_mixed_ok op a b w n w' k : op <> BConcat -> stores a w n -> stores b w' k ->
  delivers (run_bin op Release a b) w
    (mixed op w (match op with BShr | BAshr => n mod 2 ^ w | _ => n end) w' k).
Proof.
  intros Hop Ha Hb. destruct op; cbn [run_bin].
  - exact (any_add_mixed a b w n w' k Ha Hb).
  - exact (any_sub_mixed a b w n w' k Ha Hb).
  - exact (any_mul_mixed a b w n w' k Ha Hb).
  - apply (any_bitwise_mixed N.land andb a b w n w' k N.land_spec eq_refl); auto.
  - apply (any_bitwise_mixed N.lor orb a b w n w' k N.lor_spec eq_refl); auto.
  - apply (any_bitwise_mixed N.lxor xorb a b w n w' k N.lxor_spec eq_refl); auto.
  - exact (any_shl_mixed a b w n w' k Ha Hb).
  - exact (any_shr_mixed a b w n w' k Ha Hb).
  - exact (any_ashr_mixed a b w n w' k Ha Hb).
  - contradiction.
Qed.

Lemma any_assign_mixed a b w n w' k : stores a w n -> stores b w' k ->
  delivers (bv_assign Release a b) w (mixed_assign w w' k).
Proof.
  intros Ha Hb. apply stores_inv in Ha as (Wa & Hw & La & Fa & Va & Ba).
  apply stores_inv in Hb as (Wb & _ & Lb & Fb & Vb & Bb).
  unfold mixed_assign, bv_assign. cbn [debug_assert bind]. rewrite La, Lb. fold (places w) (places w').
  destruct (N.eqb_spec (places w) (places w')) as [E|E].
  - cbn [assert bind]. rewrite Wa. eexists. split; [reflexivity|].
    split; [apply is_bv_shaped; auto; unfold places in E; congruence|]. auto.
  - eexists. reflexivity.
Qed.

(** ** Comparisons *)

Lemma any_equal_mixed a b w n w' k : stores a w n -> stores b w' k ->
  bv_is_equal Release a b = Ok (low w w' n =? low w w' k).
Proof.
  intros Ha Hb. apply stores_inv in Ha as (Wa & Hw & La & Fa & Va & Ba).
  apply stores_inv in Hb as (Wb & _ & Lb & Fb & Vb & Bb).
  unfold bv_is_equal. cbn [debug_assert bind].
  assert (G : ar_cmp_equal (words a) (words b) = (low w w' n =? low w w' k)).
  { rewrite (cmp_equal_cut _ _ (N.to_nat (N.min (places w) (places w')))).
    2:{ unfold places. rewrite <- La, <- Lb. unfold len. lia. }
    rewrite cmp_equal_ok; auto using Words_firstn.
    - rewrite !wv_firstn, N2Nat.id, Va, Vb by auto. reflexivity.
    - rewrite !len_firstn; auto; rewrite N2Nat.id, ?La, ?Lb; fold (places w) (places w'); lia. }
  rewrite G. destruct (len (words a) =? 1); reflexivity.
Qed.

(** what [range .. 0 1] and the whole words give to the comparisons *)
Lemma any_high_words a b w w' n k b' : stores a w n -> stores b w' k -> sees w w' k b' ->
  let q := N.min (len (words a)) (len b') in
  wv (words a) / 2 ^ (64 * (len (words a) - q)) = left_ w n w'
  /\ wv b' / 2 ^ (64 * (len b' - q)) = right_ w w' k.
Proof.
  intros Ha Hb (W & V & L & P) q. apply stores_inv in Ha as (Wa & Hw & La & Fa & Va & Ba).
  fold (places w) in La. unfold left_, right_, high, common, q. rewrite Va, La, V, L.
  unfold seen. destruct (N.eqb_spec (places w) 1) as [E|E].
  - rewrite E. change (N.min 1 1) with 1. change (64 * (1 - 1)) with 0.
    rewrite N.pow_0_r, !N.div_1_r. auto.
  - split; do 2 f_equal; lia.
Qed.

Lemma any_greater_mixed (strict : bool) a b w n w' k b' : stores a w n -> stores b w' k ->
  sees w w' k b' ->
  mixed_greater strict w n w' k
  = Some (if strict then ar_cmp_greater (words a) b' else ar_cmp_greater_equal (words a) b').
Proof.
  intros Ha Hb Hs. unfold mixed_greater.
  replace ((places w =? 1) && (places w' =? 0)) with false.
  2:{ destruct Hs as (_ & _ & _ & P).
      destruct (N.eqb_spec (places w) 1) as [E|E]; auto. specialize (P E). cbn [andb]. lia. }
  f_equal. destruct (any_high_words a b w w' n k b' Ha Hb Hs) as (H1 & H2).
  destruct Hs as (W & _). apply stores_inv in Ha as (Wa & Hw & La & Fa & Va & Ba).
  unfold ar_cmp_greater, ar_cmp_greater_equal.
  rewrite (greater_any (words a) b' _ Fa W eq_refl), H1, H2.
  destruct strict, (N.compare_spec (left_ w n w') (right_ w w' k)); cbn [unwrap_or]; lia.
Qed.

Lemma any_test_mixed (f g : list N -> list N -> res bool) a b w n w' k o :
  stores a w n -> stores b w' k ->
  (places w = 1 -> places w' = 0 -> o = None) ->
  (forall b', sees w w' k b' -> places w = 1 -> answers (f (words a) b') o) ->
  (forall b', sees w w' k b' -> places w <> 1 -> answers (g (words a) b') o) ->
  answers (if len (words a) =? 1 then
     let* a := range (words a) 0 1 in
     let* b := range (words b) 0 1 in
     f a b
   else g (words a) (words b)) o.
Proof.
  intros Ha Hb Hn Hf Hg. pose proof Hb as Hb'.
  apply stores_inv in Ha as (Wa & Hw & La & Fa & Va & Ba).
  apply stores_inv in Hb as (Wb & _ & Lb & Fb & Vb & Bb).
  rewrite La. fold (places w). destruct (N.eqb_spec (places w) 1) as [E|E].
  - rewrite range_all by (unfold places in E; congruence). cbn [bind].
    destruct (N.eq_dec (places w') 0) as [Z|Z].
    + rewrite (Hn E Z). cbn [answers].
      destruct (range_none (words b)) as (p & ->). { unfold places in Z. congruence. }
      eexists. reflexivity.
    + destruct (any_sees_one w w' k b) as (-> & Hs); auto. cbn [bind]. auto.
  - apply Hg; auto. apply any_sees_all; auto.
Qed.

Lemma any_is_greater_mixed a b w n w' k : stores a w n -> stores b w' k ->
  answers (bv_is_greater Release a b) (mixed_greater true w n w' k).
Proof.
  intros Ha Hb. unfold bv_is_greater. cbn [debug_assert bind].
  apply (any_test_mixed (fun a b => Ok (ar_cmp_greater a b)) (fun a b => Ok (ar_cmp_greater a b))
    a b w n w' k); auto using none_greater;
  intros b' Hs _; rewrite (any_greater_mixed true a b w n w' k b'); auto; reflexivity.
Qed.

Lemma any_is_greater_equal_mixed a b w n w' k : stores a w n -> stores b w' k ->
  answers (bv_is_greater_or_equal Release a b)
    (mixed_greater (negb (places w =? 1)) w n w' k).
Proof.
  intros Ha Hb. unfold bv_is_greater_or_equal. cbn [debug_assert bind].
  apply (any_test_mixed (fun a b => Ok (ar_cmp_greater_equal a b)) (fun a b => Ok (ar_cmp_greater a b))
    a b w n w' k); auto using none_greater; intros b' Hs E.
  - rewrite E. rewrite (any_greater_mixed _ a b w n w' k b'); auto. reflexivity.
  - apply N.eqb_neq in E. rewrite E. rewrite (any_greater_mixed _ a b w n w' k b'); auto. reflexivity.
Qed.

Lemma any_signed_mixed (strict : bool) (f : list N -> list N -> N -> res bool) a b w n w' k :
  (f = ar_cmp_greater_signed Release /\ strict = true)
  \/ (f = ar_cmp_greater_equal_signed Release /\ strict = false) ->
  stores a w n -> stores b w' k ->
  answers (if len (words a) =? 1 then
     let* x := range (words a) 0 1 in
     let* y := range (words b) 0 1 in
     f x y (width a)
   else f (words a) (words b) (width a)) (mixed_greater_signed strict w n w' k).
Proof.
  intros Hf Ha Hb.
  assert (G : forall b', sees w w' k b' ->
    answers (f (words a) b' (width a)) (mixed_greater_signed strict w n w' k)).
  { intros b' Hs.
    pose proof (stores_inv _ _ _ Ha) as (Wa & Hw & La & Fa & Va & Ba). rewrite Wa.
    pose proof (any_greater_mixed strict a b w n w' k b' Ha Hb Hs) as Hg.
    destruct Hs as (W & V & L & P).
    unfold mixed_greater_signed. destruct (N.eqb_spec w 0) as [->|E]; cbn [orb].
    { destruct (any_empty_words _ _ Ha) as (-> & _).
      destruct Hf as [(-> & _)|(-> & _)]; eexists; reflexivity. }
    assert (Na : ar_is_neg Release (words a) w = Ok (N.testbit n (w - 1))).
    { rewrite is_neg_words by (auto; lia). rewrite Va. reflexivity. }
    destruct (N.eqb_spec w' 0) as [->|E'].
    { change (places 0) with 0 in L, P.
      destruct (N.eqb_spec (places w) 1) as [E1|E1]; [specialize (P E1); lia|].
      rewrite (nil_of _ L).
      destruct Hf as [(-> & _)|(-> & _)];
        unfold ar_cmp_greater_signed, ar_cmp_greater_equal_signed; rewrite Na;
        cbn [bind]; unfold ar_is_neg; rewrite u32_sub_ok by lia; eexists; reflexivity. }
    assert (Lp : 0 < len b').
    { rewrite L. destruct (places w =? 1); [lia|]. unfold places. dlia. }
    assert (Nb : ar_is_neg Release b' w = Ok (N.testbit k (sign_place w w'))).
    { rewrite is_neg_any by (auto; lia). rewrite V, L. unfold sign_place, seen.
      destruct (N.eqb_spec (places w) 1) as [E1|E1]; [|reflexivity].
      f_equal. apply N.mod_pow2_bits_low.
      change (64 * (1 - 1)) with 0. pose proof (N.mod_lt (w - 1) 64 ltac:(discriminate)). lia. }
    destruct Hf as [(-> & ->)|(-> & ->)];
      unfold ar_cmp_greater_signed, ar_cmp_greater_equal_signed; rewrite Na, Nb, Hg; cbn [bind];
      destruct (N.testbit n (w - 1)), (N.testbit k (sign_place w w')); reflexivity. }
  apply (any_test_mixed (fun x y => f x y (width a)) (fun x y => f x y (width a)) a b w n w' k); auto.
  intros E Z. unfold mixed_greater_signed. apply places_0 in Z. subst w'.
  rewrite orb_true_r. reflexivity.
Qed.

Lemma any_greater_signed_mixed a b w n w' k : stores a w n -> stores b w' k ->
  answers (bv_is_greater_signed Release a b) (mixed_greater_signed true w n w' k).
Proof.
  intros Ha Hb. apply (any_signed_mixed true (ar_cmp_greater_signed Release)); auto.
Qed.
Lemma any_greater_equal_signed_mixed a b w n w' k : stores a w n -> stores b w' k ->
  answers (bv_is_greater_or_equal_signed Release a b) (mixed_greater_signed false w n w' k).
Proof.
  intros Ha Hb. apply (any_signed_mixed false (ar_cmp_greater_equal_signed Release)); auto.
Qed.

Lemma any_eq m a b w n w' k : stores a w n -> stores b w' k ->
  bv_eq m a b = Ok ((w =? w') && (n =? k)).
Proof.
  intros Ha Hb. destruct (N.eqb_spec w w') as [<-|E].
  - eapply dirty_eq_owned; eauto.
  - destruct Ha as (_ & Wa & _), Hb as (_ & Wb & _). unfold bv_eq. rewrite Wa, Wb.
    replace (w' =? w) with false by lia. cbn [negb orb]. rewrite debug_assert_true. reflexivity.
Qed.

Lemma any_mixed_test_ok t a b w n w' k : stores a w n -> stores b w' k ->
  answers (run_test t Release a b) (mixed_test t w n w' k).
Proof.
  intros Ha Hb. destruct t; cbn [run_test mixed_test];
    auto using any_is_greater_mixed, any_is_greater_equal_mixed, any_greater_signed_mixed,
      any_greater_equal_signed_mixed.
  - apply any_equal_mixed; auto.
  - unfold bv_is_not_equal. rewrite (any_equal_mixed a b w n w' k) by auto. reflexivity.
  - apply (any_is_greater_mixed b a w' k w n Hb Ha).
  - apply (any_is_greater_equal_mixed b a w' k w n Hb Ha).
  - apply (any_greater_signed_mixed b a w' k w n Hb Ha).
  - apply (any_greater_equal_signed_mixed b a w' k w n Hb Ha).
  - apply any_eq; auto.
  - unfold bvref_eq. pose proof Ha as (_ & Wa & _). pose proof Hb as (_ & Wb & _). rewrite Wa, Wb.
    destruct (N.eqb_spec w w') as [<-|E]; [rewrite N.eqb_refl; eapply dirty_equal; eauto|].
    replace (w' =? w) with false by lia. reflexivity.
Qed.

