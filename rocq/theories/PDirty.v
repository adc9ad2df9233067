(** * PDirty: bit-vectors with unused bits set (C76). *)

From Coq Require Import ZifyBool ZifyNat ZifyN.
From Verif Require Import Base Arith Strings BigInt Bv Spec CallSpec PanicSpec MixedSpec DirtySpec.
From Verif Require Import PWords PArith PShift PCompare PConv PRegister PIo PText PropsArith PLaws PMixed.

Ltac Zify.zify_post_hook ::= idtac.

Lemma stores_inv v w n : stores v w n ->
  width v = w /\ w < 2 ^ 32 /\ len (words v) = (w + 63) / 64 /\ Words (words v) /\ wv (words v) = n
  /\ n < 2 ^ (64 * ((w + 63) / 64)).
Proof.
  intros ((H1 & H2 & H3) & <- & <-). repeat split; auto. unfold uval. rewrite <- H2. apply wv_bound. auto.
Qed.
Lemma stores_intro w l n : w < 2 ^ 32 -> len l = (w + 63) / 64 -> Words l -> wv l = n -> stores (mkbv w l) w n.
Proof. intros. repeat split; auto. Qed.
Lemma shaped_stores v : well_shaped v -> stores v (width v) (uval v).
Proof. intros H. repeat split; apply H. Qed.
Lemma is_bv_stores v w n : is_bv v w n -> stores v w n.
Proof. intros H. apply is_bv_inv in H as (H1 & H2 & H3 & H4 & H5 & _). subst w n. repeat split; auto. Qed.
Lemma stores_is_bv v w n : stores v w n -> n < 2 ^ w -> is_bv v w n.
Proof.
  intros H Hn. apply stores_inv in H as (H1 & H2 & H3 & H4 & H5 & _). destruct v as [w' l]. cbn in *. subst w'.
  apply is_bv_intro; auto.
Qed.
Lemma holds_yields r w n : holds r w n -> n < 2 ^ w -> yields r w n.
Proof. intros (v & E & H) Hn. exists v. split; auto. apply stores_is_bv; auto. Qed.
Lemma wres_holds r w n : w < 2 ^ 32 -> wres r w n -> holds (let* l := r in Ok (mkbv w l)) w n.
Proof. intros Hw (l & -> & L & W & V). exists (mkbv w l). split; [reflexivity|]. apply stores_intro; auto. Qed.
Lemma holds_same r r' w n : holds r w n -> holds r' w n -> r = r'.
Proof.
  intros (v & -> & H) (v' & -> & H'). f_equal.
  apply stores_inv in H as (H1 & H2 & H3 & H4 & H5 & _).
  apply stores_inv in H' as (H1' & _ & H3' & H4' & H5' & _).
  destruct v as [u l], v' as [u' l']. cbn in *. subst u u'. f_equal. apply wv_inj; auto; congruence.
Qed.
Lemma yields_holds r w n : yields r w n -> holds r w n.
Proof. intros (v & E & H). exists v. split; auto. apply is_bv_stores. auto. Qed.

Lemma cleaned_ok v w n : stores v w n -> is_bv (cleaned v) w (n mod 2 ^ w).
Proof.
  intros H. pose proof (stores_inv _ _ _ H) as (H1 & H2 & _). unfold cleaned.
  destruct H as (_ & <- & <-). apply bv_of_is_bv; auto.
Qed.
Lemma cleaned_id v : wf v -> cleaned v = v.
Proof.
  intros H. assert (I : is_bv v (width v) (uval v)) by (repeat split; apply H).
  pose proof (cleaned_ok _ _ _ (is_bv_stores _ _ _ I)) as C.
  rewrite N.mod_small in C by apply (is_bv_lt _ _ _ I).
  assert (E : Ok (cleaned v) = Ok v); [|now injection E].
  eapply holds_same with (w := width v) (n := uval v); eexists; split; eauto using is_bv_stores.
Qed.
Lemma stores_0 v n : stores v 0 n -> wf v /\ n = 0.
Proof.
  intros H. pose proof (stores_inv _ _ _ H) as (H1 & _ & _ & _ & _ & B).
  change (64 * ((0 + 63) / 64)) with 0 in B. change (2 ^ 0) with 1 in B.
  assert (n = 0) by lia. split; auto. apply (stores_is_bv v 0 n); auto.
Qed.

(** ** Two operands of the same width *)

Lemma bin_holds f m a b w x y n : stores a w x -> stores b w y ->
  wres (f m (value_vec_zeros w) (words a) (words b) w) w n ->
  holds (arith_bin_fn f m a b) w n.
Proof.
  intros Ha Hb (l & Hf & Hl & Wl & Vl). apply stores_inv in Ha, Hb.
  destruct Ha as (Wa & Hw & La & Fa & Va & Ba), Hb as (Wb & _ & Lb & Fb & Vb & Bb).
  exists (mkbv w l). split; [|apply stores_intro; auto].
  unfold arith_bin_fn. rewrite Wa, Wb, La, Lb, !N.eqb_refl, !debug_assert_true. cbn [bind].
  destruct (N.eqb_spec ((w + 63) / 64) 1) as [E|E].
  - rewrite !range_all by (rewrite ?zeros_len; congruence). cbn [bind]. rewrite Hf. cbn [bind].
    rewrite splice_all by (apply len_length; rewrite zeros_len; auto). reflexivity.
  - rewrite Hf. reflexivity.
Qed.

Lemma dirty_add m a b w x y : 0 < w -> stores a w x -> stores b w y ->
  yields (bv_add m a b) w ((x + y) mod 2 ^ w).
Proof.
  intros Hw Ha Hb. apply holds_yields; [|apply mod_lt]. eapply bin_holds; eauto.
  apply stores_inv in Ha as (Wa & Hw' & La & Fa & Va & Ba), Hb as (Wb & _ & Lb & Fb & Vb & Bb).
  destruct (add_loop_ok 0 (value_vec_zeros w) (words a) (words b)) as (W & L & V);
    rewrite ?zeros_len; auto; [lia|]. rewrite zeros_len in *.
  unfold ar_add. eapply wres_eq; [apply mask_wres; auto|].
  rewrite V, Va, Vb, N.add_0_l, mod_mod_le by auto. reflexivity.
Qed.

Lemma wide_sub w k x y : w <= k -> y <= 2 ^ k ->
  (x + 2 ^ k - y) mod 2 ^ w = wrap w (Z.of_N x - Z.of_N y).
Proof.
  intros H Hy. rewrite <- wrap_mod. apply wrap_cong with (k := Z.of_N (2 ^ (k - w))).
  rewrite N2Z.inj_sub by lia. rewrite N2Z.inj_add, <- N2Z.inj_mul, <- N.pow_add_r.
  replace (k - w + w) with k by lia. clear. lia.
Qed.

Lemma dirty_sub m a b w x y : 0 < w -> stores a w x -> stores b w y ->
  yields (bv_sub m a b) w (wrap w (Z.of_N x - Z.of_N y)).
Proof.
  intros Hw Ha Hb. apply holds_yields; [|apply wrap_lt]. eapply bin_holds; eauto.
  apply stores_inv in Ha as (Wa & Hw' & La & Fa & Va & Ba), Hb as (Wb & _ & Lb & Fb & Vb & Bb).
  unfold ar_sub. rewrite sub_loop_add.
  destruct (add_loop_ok 1 (value_vec_zeros w) (words a) (map wnot (words b))) as (W & L & V);
    rewrite ?len_map, ?zeros_len; auto; [lia|apply Words_map_wnot|]. rewrite zeros_len in *.
  eapply wres_eq; [apply mask_wres; auto|].
  rewrite V, mod_mod_le, wv_map_wnot, Va, Vb, Lb by auto.
  rewrite <- (wide_sub w (64 * ((w + 63) / 64))) by (auto; apply N.lt_le_incl; auto).
  f_equal. clear - Bb. lia.
Qed.

Lemma dirty_mul m a b w x y : 0 < w -> w <= 64 -> stores a w x -> stores b w y ->
  yields (bv_mul m a b) w ((x * y) mod 2 ^ w).
Proof.
  intros Hw Hw64 Ha Hb. apply holds_yields; [|apply mod_lt]. eapply bin_holds; eauto.
  apply stores_inv in Ha as (Wa & Hw' & La & Fa & Va & Ba), Hb as (Wb & _ & Lb & Fb & Vb & Bb).
  assert (E : (w + 63) / 64 = 1) by dlia. rewrite E in *.
  destruct (len_0_1 (words a) La) as (xa & Ea), (len_0_1 (words b) Lb) as (xb & Eb).
  rewrite Ea, Eb in *. unfold ar_mul. replace (w <=? 64) with true by lia.
  pose proof (zeros_len w) as Lz. rewrite E in Lz.
  destruct (len_0_1 _ Lz) as (z & ->).
  rewrite !wv_cons in *. nils. rewrite N.mul_0_r, N.add_0_r in *. subst xa xb.
  unfold idx, set_idx. change (N.to_nat 0) with O. cbn [nth_error set_nth bind].
  rewrite ar_mask_pos by auto. cbn [bind].
  eexists. split; [reflexivity|]. rewrite E. split; auto.
  rewrite land_ones_sub. unfold as_u64. rewrite B64_eq, mod_mod_le by auto. split.
  - constructor; auto. eapply N.lt_le_trans; [apply mod_lt|]; auto.
  - rewrite wv_cons. nils. lia.
Qed.

(** ** One operand *)

Lemma un_holds (f : list N -> list N -> res (list N)) v w x n : stores v w x -> 0 < w ->
  wres (f (value_vec_zeros w) (words v)) w n ->
  holds (let out := value_vec_zeros (width v) in
          let* out :=
            (if len (words v) <=? 1 then
               let* o := range out 0 1 in
               let* s := range (words v) 0 1 in
               let* o := f o s in
               Ok (splice out 0 o)
             else f out (words v)) in
          Ok (mkbv (width v) out)) w n.
Proof.
  intros Hv Hw (l & Hf & Hl & Wl & Vl). apply stores_inv in Hv.
  destruct Hv as (Wv & Hw' & Lv & Fv & Vv & Bv).
  exists (mkbv w l). split; [|apply stores_intro; auto].
  cbn zeta. rewrite Wv, Lv. destruct (N.leb_spec ((w + 63) / 64) 1) as [E|E].
  - assert ((w + 63) / 64 = 1) by dlia.
    rewrite !range_all by (rewrite ?zeros_len; congruence). cbn [bind].
    rewrite Hf. cbn [bind]. rewrite splice_all; auto.
    apply len_length. rewrite zeros_len. auto.
  - rewrite Hf. auto.
Qed.

Lemma dirty_not m a w x : 0 < w -> stores a w x -> yields (bv_not m a) w (2 ^ w - 1 - x mod 2 ^ w).
Proof.
  intros Hw Ha. apply holds_yields.
  2: { pose proof (pow_pos w). lia. }
  unfold bv_not. pose proof (stores_inv _ _ _ Ha) as (Wa & Hw' & La & Fa & Va & Ba).
  apply (un_holds (fun o s => ar_not m o s (width a)) a w x); auto.
  rewrite Wa. unfold ar_not. rewrite un_op_map by (rewrite zeros_len; auto).
  eapply wres_eq; [apply mask_wres; auto using Words_map_wnot|].
  - rewrite len_map. auto.
  - rewrite wv_map_wnot by auto. rewrite Va, La. set (k := 64 * ((w + 63) / 64)) in *.
    assert (Hk : w <= k) by apply ceil_mul. clearbody k.
    replace (2 ^ k - 1 - x) with (2 ^ k - 1 + 2 ^ k - (x + 2 ^ k)) by (clear; lia).
    replace (2 ^ k - 1 + 2 ^ k - (x + 2 ^ k)) with (2 ^ k - 1 - x) by (clear; lia).
    pose proof (N.div_mod x (2 ^ w) ltac:(apply N.pow_nonzero; discriminate)) as D.
    rewrite (pow_split w k Hk) in *. pose proof (pow_pos (k - w)) as P1. pose proof (pow_pos w) as P2.
    assert (x / 2 ^ w < 2 ^ (k - w)) as Q by (apply N.div_lt_upper_bound; auto; lia).
    assert (M : x mod 2 ^ w < 2 ^ w) by apply mod_lt.
    remember (x / 2 ^ w) as q. remember (x mod 2 ^ w) as r. remember (2 ^ w) as p. remember (2 ^ (k - w)) as s.
    clear - D Q M P1 P2.
    replace (p * s - 1 - x) with (p - 1 - r + (s - 1 - q) * p) by nia.
    rewrite N.mod_add by lia. apply N.mod_small. lia.
Qed.

Lemma dirty_negate_wres m l w : 0 < w -> Words l -> len l = (w + 63) / 64 ->
  wres (ar_negate_in_place m l w) w (wrap w (- Z.of_N (wv l))).
Proof.
  intros Hw Wl Ll. unfold ar_negate_in_place. rewrite negate_loop_add.
  destruct (add_loop_ok 1 l (repeat 0 (length l)) (map wnot l)) as (W & L & V);
    rewrite ?len_map, ?len_repeat; auto; try lia; try apply Words_map_wnot.
  eapply wres_eq; [apply mask_wres; auto; lia|].
  rewrite Ll in V. rewrite V, mod_mod_le by auto. rewrite wv_map_wnot, wv_repeat0 by auto.
  pose proof (wv_bound l Wl) as B. rewrite Ll in *.
  replace (- Z.of_N (wv l))%Z with (Z.of_N 0 - Z.of_N (wv l))%Z by lia.
  rewrite <- (wide_sub w (64 * ((w + 63) / 64))) by (auto; apply N.lt_le_incl; auto).
  f_equal. clear - B. lia.
Qed.

Lemma dirty_negate m a w x : 0 < w -> stores a w x -> yields (bv_negate m a) w (wrap w (- Z.of_N x)).
Proof.
  intros Hw Ha. apply holds_yields; [|apply wrap_lt]. unfold bv_negate.
  pose proof (stores_inv _ _ _ Ha) as (Wa & Hw' & La & Fa & Va & Ba).
  apply (un_holds (fun o s => ar_negate m o s (width a)) a w x); auto.
  rewrite Wa, <- Va. unfold ar_negate. rewrite zeros_len, La, N.eqb_refl. cbn [assert bind].
  apply dirty_negate_wres; auto.
Qed.

Lemma dirty_mask m a w x : 0 < w -> stores a w x -> yields (bv_mask_msb m a) w (x mod 2 ^ w).
Proof.
  intros Hw Ha. apply holds_yields; [|apply mod_lt].
  pose proof (stores_inv _ _ _ Ha) as (Wa & Hw' & La & Fa & Va & Ba).
  unfold bv_mask_msb. rewrite Wa. apply wres_holds; auto. rewrite <- Va. apply mask_wres; auto.
Qed.

Lemma dirty_slice m a w x msb lsb : stores a w x -> lsb <= msb -> msb < w ->
  yields (bv_slice m a msb lsb) (msb - lsb + 1) ((x / 2 ^ lsb) mod 2 ^ (msb - lsb + 1)).
Proof.
  intros Ha Hl Hm. apply holds_yields; [|apply mod_lt].
  apply stores_inv in Ha as (Wa & Hw & La & Fa & Va & Ba).
  unfold bv_slice. rewrite Wa. replace (msb <=? w) with true by dlia.
  replace (lsb <=? msb) with true by dlia. rewrite !debug_assert_true. cbn [bind].
  rewrite u32_sub_ok by auto. cbn [bind]. rewrite u32_add_ok by dlia. cbn [bind].
  apply wres_holds; [dlia|].
  apply (narrow_ok (fun o l => ar_slice m o l msb lsb)); [dlia|].
  rewrite <- Va. apply slice_wres; auto; try dlia. rewrite zeros_len. auto.
Qed.

(** ** Shifts *)

Lemma dirty_amount b w y : 0 < w -> stores b w y ->
  ar_get_shift_amount (words b) w = Ok (if y <? w then Some y else None).
Proof.
  intros Hw Hb. apply stores_inv in Hb as (Wb & Hw' & Lb & Fb & Vb & Bb).
  rewrite shift_amount_words, Vb by (auto; dlia). auto.
Qed.

Lemma dirty_shr_words m a b w x y : stores a w x -> stores b w y -> 0 < w ->
  exists l, ar_shift_right m (value_vec_zeros w) (words a) (words b) w
            = Ok (l, if y <? w then Some y else None)
            /\ len l = (w + 63) / 64 /\ Words l
            /\ wv l = x mod 2 ^ w / 2 ^ y.
Proof.
  intros Ha Hb Hw0.
  pose proof (dirty_amount b w y Hw0 Hb) as Hs.
  apply stores_inv in Ha as (Wa & Hw & La & Fa & Va & Ba).
  unfold ar_shift_right. rewrite clear_zeros, Hs. cbn [bind].
  destruct (N.ltb_spec y w) as [E|E].
  - rewrite !u32_sub_ok by lia. cbn [bind]. rewrite u32_sub_ok by lia. cbn [bind].
    rewrite u32_add_ok by lia. cbn [bind].
    rewrite div_ceil_eq. set (rw := w - 1 - y + 1).
    assert (Hr : (rw + 63) / 64 <= (w + 63) / 64) by (unfold rw; dlia).
    rewrite range_ok by (rewrite ?zeros_len; lia). cbn [bind].
    set (d0 := firstn _ _).
    destruct (slice_wres m d0 (words a) (w - 1) y) as (part & Hf & Hl & Wl & Vl);
      auto; try lia.
    { unfold d0. rewrite len_firstn; rewrite ?len_skipn, ?zeros_len; fold rw; lia. }
    rewrite Hf. cbn [bind]. fold rw in Hl, Vl.
    destruct (wv_splice0 part w ((w + 63) / 64)) as (V & L); auto; [lia|].
    eexists. split; [reflexivity|]. split; auto. split.
    + unfold splice. change (N.to_nat 0) with O. cbn [firstn app Nat.add].
      apply Words_app; auto. rewrite skipn_zeros. auto.
    + rewrite V, Vl, Va. replace w with (y + rw) at 2 by (unfold rw; clear - E; lia).
      rewrite <- !N.shiftr_div_pow2, <- !N.land_ones, N.shiftr_land. f_equal.
      apply N.bits_inj. intros i. rewrite N.shiftr_spec'.
      destruct (N.ltb_spec i rw).
      * rewrite !N.ones_spec_low by lia. auto.
      * rewrite !N.ones_spec_high by lia. auto.
  - eexists. split; [reflexivity|]. rewrite zeros_len. split; auto.
    split; [apply zeros_words|]. rewrite zeros_val. symmetry. apply N.div_small.
    eapply N.lt_le_trans; [apply mod_lt|]. apply pow_le. auto.
Qed.

Lemma dirty_shr m a b w x y : 0 < w -> stores a w x -> stores b w y ->
  yields (bv_shift_right m a b) w (x mod 2 ^ w / 2 ^ y).
Proof.
  intros Hw Ha Hb. apply holds_yields; [|apply div_lt, mod_lt].
  destruct (dirty_shr_words m a b w x y) as (l & Hf & Hl & Wl & Vl); auto.
  eapply bin_holds; eauto. exists l. rewrite Hf. auto.
Qed.

Lemma dirty_neg m a w x : 0 < w -> stores a w x ->
  ar_is_neg m (words a) w = Ok (2 ^ (w - 1) <=? x mod 2 ^ w).
Proof.
  intros Hw Ha. apply stores_inv in Ha as (Wa & _ & La & Fa & Va & Ba).
  rewrite is_neg_words, Va by auto. rewrite <- testbit_top by (auto; apply mod_lt).
  rewrite N.mod_pow2_bits_low by lia. auto.
Qed.

Lemma dirty_ashr m a b w x y : 0 < w -> stores a w x -> stores b w y ->
  yields (bv_arithmetic_shift_right m a b) w (wrap w (signed w (x mod 2 ^ w) / 2 ^ Z.of_N y)).
Proof.
  intros Hw Ha Hb. apply holds_yields; [|apply wrap_lt].
  destruct (dirty_shr_words m a b w x y) as (l & Hf & Hl & Wl & Vl); auto.
  eapply bin_holds; eauto.
  pose proof (dirty_neg m a w x Hw Ha) as Hn.
  assert (Bx : x mod 2 ^ w < 2 ^ w) by apply mod_lt.
  apply stores_inv in Ha as (Wa & Hw' & La & Fa & Va & Ba).
  rewrite asr_spec by auto. unfold ar_arithmetic_shift_right. rewrite Hf, Hn. cbn [bind].
  set (u := x mod 2 ^ w) in *. clearbody u.
  destruct (2 ^ (w - 1) <=? u). 2:{ exists l. auto. }
  destruct (N.ltb_spec y w) as [E|E].
  - destruct (N.ltb_spec 0 y) as [Ey|Ey].
    + rewrite !u32_sub_ok by lia. cbn [bind]. rewrite u32_sub_ok by lia. cbn [bind].
      destruct (fill_top_ok l (w - y)) as (l' & Hf' & Wl' & Ll & Vl'); auto.
      { lia. } { rewrite Hl. dlia. }
      { rewrite Vl. apply div_lt_pow. replace (y + (w - y)) with w by lia. auto. }
      unfold fill_top in Hf'. cbn zeta in Hf'.
      eapply wres_eq.
      * rewrite (bind_bind_ok _ _ (fun dst => ar_mask_msb m dst w) _ Hf').
        apply mask_wres; auto; lia.
      * rewrite Vl', Vl. apply fill_mask; try lia.
        -- apply div_lt_pow. replace (y + (w - y)) with w by lia. auto.
    + replace y with 0 in * by lia. exists l. rewrite N.sub_0_r, N.sub_diag, N.add_0_r. auto.
  - eapply wres_eq.
    + apply mask_wres; auto. rewrite len_map. auto.
    + rewrite wv_mapmax, max_mod; auto. rewrite Hl. dlia.
Qed.

Lemma dirty_shl m a b w x y : 0 < w -> stores a w x -> stores b w y ->
  holds (bv_shift_left m a b) w
    (if w <=? y then 0
     else if y mod 64 =? 0 then (x * 2 ^ y) mod 2 ^ (64 * places w)
     else (x * 2 ^ y) mod 2 ^ w).
Proof.
  intros Hw Ha Hb. eapply bin_holds; eauto. unfold places.
  pose proof (dirty_amount b w y Hw Hb) as Hs.
  apply stores_inv in Ha as (Wa & Hw' & La & Fa & Va & Ba).
  unfold ar_shift_left. rewrite Hs. cbn [bind]. rewrite (N.ltb_antisym w y).
  destruct (N.leb_spec w y) as [E|E]; cbn [negb].
  - rewrite clear_zeros. eexists. split; [reflexivity|]. rewrite zeros_len, zeros_val.
    auto using zeros_words.
  - set (z := repeat 0 (N.to_nat (y / 64))).
    assert (Vz : wv (z ++ words a) = 2 ^ (64 * (y / 64)) * x).
    { unfold z. rewrite wv_app, wv_repeat0, len_repeat, N2Nat.id, Va. auto. }
    assert (Lz : len (value_vec_zeros w) <= len (z ++ words a)).
    { rewrite zeros_len, len_app, La. lia. }
    assert (Wz : Words (z ++ words a)) by (unfold z; auto).
    destruct (N.eqb_spec (y mod 64) 0) as [E0|E0].
    + rewrite E0, shift_left_loop_0. change (0 <? 0) with false.
      rewrite assign_long by auto. eexists. split; [reflexivity|].
      rewrite len_firstn, wv_firstn by (auto; unfold len in *; lia).
      fold (len (value_vec_zeros w)). rewrite zeros_len. split; auto. split; auto.
      rewrite Vz. f_equal. replace (64 * (y / 64)) with y by dlia. lia.
    + rewrite shift_left_loop_slice by dlia.
      destruct (slice_loop_ok (y mod 64) (64 - y mod 64) 0 (value_vec_zeros w) (z ++ words a))
        as (W & L & V); auto; try dlia.
      rewrite zeros_len in L, V. rewrite Vz in V.
      replace (0 <? y mod 64) with true by dlia.
      eapply wres_eq; [apply mask_wres; auto|].
      rewrite V, mod_mod_le by dlia. f_equal.
      rewrite N.add_0_l, N.mul_assoc, <- N.pow_add_r.
      replace (y mod 64 + 64 * (y / 64)) with y by dlia. lia.
Qed.

(** ** and, or, xor *)

Lemma dirty_bitwise op f m a b w x y :
  (forall a b i, N.testbit (op a b) i = f (N.testbit a i) (N.testbit b i)) ->
  f false false = false -> stores a w x -> stores b w y ->
  holds (arith_bin_fn (fun _ dst a b _ => Ok (ar_bitwise_bin_op op dst a b)) m a b) w (op x y).
Proof.
  intros Hop Hf Ha Hb. eapply bin_holds; eauto.
  apply stores_inv in Ha as (Wa & Hw & La & Fa & Va & Ba), Hb as (Wb & _ & Lb & Fb & Vb & Bb).
  destruct (bin_op_ok op f Hop Hf (value_vec_zeros w) (words a) (words b)) as (W & L & V);
    rewrite ?zeros_len; auto.
  eexists. split; [reflexivity|]. rewrite L, zeros_len. split; auto. split; auto. congruence.
Qed.

(** ** Comparisons *)

Lemma dirty_cmp (f g : list N -> list N -> res bool) m a b w x y r :
  stores a w x -> stores b w y ->
  (len (words a) = 1 -> f (words a) (words b) = r) ->
  (len (words a) <> 1 -> g (words a) (words b) = r) ->
  (let* _ := debug_assert m (width a =? width b) in
   let* _ := debug_assert m (len (words a) =? len (words b)) in
   if len (words a) =? 1 then
     let* a := range (words a) 0 1 in
     let* b := range (words b) 0 1 in
     f a b
   else g (words a) (words b)) = r.
Proof.
  intros Ha Hb Hf Hg.
  apply stores_inv in Ha as (Wa & Hw & La & Fa & Va & Ba), Hb as (Wb & _ & Lb & Fb & Vb & Bb).
  rewrite Wa, Wb, La, Lb in *. rewrite !N.eqb_refl, !debug_assert_true. cbn [bind].
  destruct (N.eqb_spec ((w + 63) / 64) 1) as [E|E]; auto.
  rewrite !range_all by congruence. cbn [bind]. auto.
Qed.

Lemma dirty_equal m a b w x y : stores a w x -> stores b w y -> bv_is_equal m a b = Ok (x =? y).
Proof.
  intros Ha Hb.
  apply stores_inv in Ha as (Wa & Hw & La & Fa & Va & Ba), Hb as (Wb & _ & Lb & Fb & Vb & Bb).
  unfold bv_is_equal. rewrite Wa, Wb, La, Lb, !N.eqb_refl, !debug_assert_true. cbn [bind].
  rewrite cmp_equal_ok by (auto; congruence). rewrite Va, Vb.
  destruct ((w + 63) / 64 =? 1); auto.
Qed.

Lemma dirty_eq_owned m a b w x y : stores a w x -> stores b w y -> bv_eq m a b = Ok (x =? y).
Proof.
  intros Ha Hb.
  apply stores_inv in Ha as (Wa & Hw & La & Fa & Va & Ba), Hb as (Wb & _ & Lb & Fb & Vb & Bb).
  unfold bv_eq. rewrite Wa, Wb, La, Lb, !N.eqb_refl. cbn [negb orb]. rewrite debug_assert_true.
  cbn [bind andb]. rewrite words_eqb_ok by (auto; congruence). rewrite N.eqb_sym. congruence.
Qed.

Lemma dirty_greater m a b w x y : stores a w x -> stores b w y -> bv_is_greater m a b = Ok (y <? x).
Proof.
  intros Ha Hb.
  apply (dirty_cmp (fun a b => Ok (ar_cmp_greater a b)) (fun a b => Ok (ar_cmp_greater a b))
           m a b w x y); auto; intros _;
  apply stores_inv in Ha as (Wa & Hw & La & Fa & Va & Ba), Hb as (Wb & _ & Lb & Fb & Vb & Bb);
  rewrite cmp_greater_ok by (auto; congruence); congruence.
Qed.

Lemma dirty_greater_equal m a b w x y : 0 < w -> stores a w x -> stores b w y ->
  bv_is_greater_or_equal m a b = Ok (if w <=? 64 then y <=? x else y <? x).
Proof.
  intros Hw0 Ha Hb.
  apply (dirty_cmp (fun a b => Ok (ar_cmp_greater_equal a b)) (fun a b => Ok (ar_cmp_greater a b))
           m a b w x y); auto;
  apply stores_inv in Ha as (Wa & Hw & La & Fa & Va & Ba), Hb as (Wb & _ & Lb & Fb & Vb & Bb);
  intros L; f_equal.
  - rewrite cmp_greater_equal_ok by (auto; congruence).
    replace (w <=? 64) with true by dlia. congruence.
  - rewrite cmp_greater_ok by (auto; congruence).
    replace (w <=? 64) with false by dlia. congruence.
Qed.

Lemma dirty_signed (s : bool) (f : list N -> list N -> N -> res bool) m a b w x y :
  0 < w -> stores a w x -> stores b w y ->
  f (words a) (words b) w
  = (let* na := ar_is_neg m (words a) w in
     let* nb := ar_is_neg m (words b) w in
     match na, nb with
     | true, false => Ok false
     | false, true => Ok true
     | _, _ => Ok (if s then ar_cmp_greater (words a) (words b)
                   else ar_cmp_greater_equal (words a) (words b))
     end) ->
  (let* _ := debug_assert m (width a =? width b) in
   let* _ := debug_assert m (len (words a) =? len (words b)) in
   if len (words a) =? 1 then
     let* a' := range (words a) 0 1 in
     let* b := range (words b) 0 1 in
     f a' b (width a)
   else f (words a) (words b) (width a)) = Ok (stored_signed s w x y).
Proof.
  intros Hw Ha Hb Hf.
  assert (G : f (words a) (words b) (width a) = Ok (stored_signed s w x y)).
  { apply stores_inv in Ha as (Wa & Hw' & La & Fa & Va & Ba), Hb as (Wb & _ & Lb & Fb & Vb & Bb).
    rewrite Wa, Hf, !is_neg_words, Va, Vb by auto. cbn [bind].
    rewrite cmp_greater_ok, cmp_greater_equal_ok, Va, Vb by (auto; congruence).
    unfold stored_signed. destruct (N.testbit x (w - 1)), (N.testbit y (w - 1)), s; auto. }
  apply (dirty_cmp (fun p q => f p q (width a)) (fun p q => f p q (width a)) m a b w x y); auto.
Qed.

Lemma dirty_test t m a b w x y : 0 < w -> stores a w x -> stores b w y ->
  run_test t m a b = Ok (stored_test t w x y).
Proof.
  intros Hw Ha Hb.
  destruct t; cbn [run_test stored_test];
    unfold bv_is_less, bv_is_less_or_equal, bv_is_less_signed, bv_is_less_or_equal_signed,
      bv_is_not_equal.
  - eapply dirty_equal; eauto.
  - erewrite dirty_equal by eauto. auto.
  - eapply dirty_greater; eauto.
  - eapply dirty_greater_equal; eauto.
  - eapply dirty_greater; eauto.
  - eapply dirty_greater_equal; eauto.
  - apply (dirty_signed true (ar_cmp_greater_signed m) m a b w x y); auto.
    unfold ar_cmp_greater_signed.
    destruct (ar_is_neg m (words a) w) as [[|]|]; cbn [bind]; auto;
    destruct (ar_is_neg m (words b) w) as [[|]|]; cbn [bind]; auto.
  - apply (dirty_signed false (ar_cmp_greater_equal_signed m) m a b w x y); auto.
    unfold ar_cmp_greater_equal_signed.
    destruct (ar_is_neg m (words a) w) as [[|]|]; cbn [bind]; auto;
    destruct (ar_is_neg m (words b) w) as [[|]|]; cbn [bind]; auto.
  - apply (dirty_signed true (ar_cmp_greater_signed m) m b a w y x); auto.
    unfold ar_cmp_greater_signed.
    destruct (ar_is_neg m (words b) w) as [[|]|]; cbn [bind]; auto;
    destruct (ar_is_neg m (words a) w) as [[|]|]; cbn [bind]; auto.
  - apply (dirty_signed false (ar_cmp_greater_equal_signed m) m b a w y x); auto.
    unfold ar_cmp_greater_equal_signed.
    destruct (ar_is_neg m (words b) w) as [[|]|]; cbn [bind]; auto;
    destruct (ar_is_neg m (words a) w) as [[|]|]; cbn [bind]; auto.
  - eapply dirty_eq_owned; eauto.
  - unfold bvref_eq. pose proof Ha as (_ & Wa & _). pose proof Hb as (_ & Wb & _).
    rewrite Wa, Wb, N.eqb_refl. eapply dirty_equal; eauto.
Qed.

(** ** Extension *)

Lemma dirty_zext_wres a w x ow : stores a w x -> w <= ow ->
  wres (ar_zero_extend (value_vec_zeros ow) (words a)) ow x.
Proof.
  intros Ha Hw. apply stores_inv in Ha as (Wa & Hw' & La & Fa & Va & Ba).
  unfold ar_zero_extend. pose proof (zeros_len ow) as Lz.
  assert (L1 : len (words a) <= len (value_vec_zeros ow)) by (rewrite La, Lz; dlia).
  rewrite on_tail_ok by (rewrite assign_len; auto).
  rewrite assign_short by auto.
  rewrite firstn_app_exact, skipn_app_exact by (unfold len; lia).
  eexists. split; [reflexivity|]. unfold ar_clear.
  rewrite len_app, len_map, len_skipn. fold (len (words a)).
  split; [lia|]. split; auto. rewrite wv_app, wv_map0. lia.
Qed.

Lemma dirty_zext m a w x k : 0 < w -> stores a w x -> w + k < 2 ^ 32 ->
  holds (bv_zero_extend m a k) (w + k) x.
Proof.
  intros Hw0 Ha Hw. pose proof (dirty_zext_wres a w x (w + k) Ha) as Hz.
  destruct Hz as (l & Hf & Hl & Wl & Vl); [lia|].
  apply stores_inv in Ha as (Wa & Hw' & La & Fa & Va & Ba).
  unfold bv_zero_extend. rewrite Wa, u32_add_ok by auto. cbn [bind].
  exists (mkbv (w + k) l). split; [|apply stores_intro; auto].
  destruct (N.leb_spec (w + k) 64) as [E1|E1].
  - rewrite !range_all by (rewrite ?zeros_len; dlia). cbn [bind].
    rewrite Hf. cbn [bind]. rewrite splice_all; auto.
    apply len_length. rewrite zeros_len. auto.
  - rewrite Hf. auto.
Qed.

(** filling with ones hides what was there *)
Lemma lor_hides d r : r < 63 -> d < 2 ^ 64 ->
  N.lor d (wshl (2 ^ (64 - (r + 1)) - 1) (r + 1))
  = N.lor (d mod 2 ^ (r + 1)) (wshl (2 ^ (64 - (r + 1)) - 1) (r + 1)).
Proof.
  intros Hr Hd. rewrite wshl_mul, mul_pow_mod64 by lia.
  rewrite N.mod_small by (pose proof (pow_pos (64 - (r + 1))); lia).
  apply N.bits_inj. intros i. rewrite !N.lor_spec.
  destruct (N.ltb_spec i (r + 1)) as [L|L].
  - rewrite N.mod_pow2_bits_low by auto. auto.
  - rewrite N.mod_pow2_bits_high by auto. cbn [orb].
    rewrite (N.mul_comm (2 ^ (r + 1))), N.mul_pow2_bits_high by auto.
    rewrite N.sub_1_r, <- N.ones_equiv.
    destruct (N.ltb_spec i 64) as [G|G].
    + rewrite N.ones_spec_low by lia. apply orb_true_r.
    + rewrite <- (N.mod_small d (2 ^ 64)) by auto. rewrite N.mod_pow2_bits_high by auto. auto.
Qed.

Lemma fill_top_any l p : Words l -> 0 < p -> p <= 64 * len l ->
  exists l', fill_top l p = Ok l' /\ Words l' /\ len l' = len l
             /\ wv l' = wv l mod 2 ^ p + (2 ^ (64 * len l) - 2 ^ p).
Proof.
  intros Wl Hp Hpl. set (q := (p - 1) / 64). set (r := (p - 1) mod 64).
  assert (Hq : q < len l) by (unfold q; dlia).
  assert (Hr : r <= 63) by (unfold r; dlia).
  set (d := nth (N.to_nat q) l 0). set (tl := skipn (S (N.to_nat q)) l).
  set (l0 := firstn (N.to_nat q) l ++ d mod 2 ^ (r + 1) :: map (fun _ => 0) tl).
  assert (Hd : d < 2 ^ 64).
  { apply (proj1 (Forall_forall _ _) Wl). apply nth_In. unfold len in Hq. lia. }
  assert (L0 : len l0 = len l).
  { unfold l0, tl. rewrite len_app, len_cons, len_map, len_firstn, len_skipn by lia.
    unfold len in *. lia. }
  assert (Lf : len (firstn (N.to_nat q) l) = q) by (rewrite len_firstn; lia).
  assert (W0 : Words l0).
  { apply Words_app; [apply Words_firstn; auto|]. constructor.
    - eapply N.le_lt_trans; [|exact Hd]. apply N.mod_le. apply N.pow_nonzero. discriminate.
    - apply Forall_forall. intros z Hz. apply in_map_iff in Hz as (? & <- & _). auto. }
  assert (Ep : p = 64 * q + (r + 1)) by (unfold q, r; dlia).
  assert (V0 : wv l0 = wv l mod 2 ^ p).
  { rewrite (wv_split3 l (N.to_nat q)) by (auto; unfold len in Hq; lia). fold d tl.
    rewrite N2Nat.id. unfold l0. rewrite wv_app, wv_cons, wv_map0, N.mul_0_r, N.add_0_r, Lf, Ep.
    rewrite add_mul_mod by (rewrite <- Lf at 2; apply wv_bound, Words_firstn; auto).
    do 2 f_equal.
    replace (2 ^ 64 * wv tl) with (wv tl * 2 ^ (64 - (r + 1)) * 2 ^ (r + 1))
      by (rewrite (pow_split (r + 1) 64) by lia; ring).
    symmetry. apply N.mod_add. auto. }
  destruct (fill_top_ok l0 p W0 Hp) as (l' & Hf & Wl' & Ll' & Vl').
  { rewrite L0. auto. } { rewrite V0. apply mod_lt. }
  exists l'. rewrite L0, V0 in *. split; [|auto]. rewrite <- Hf.
  unfold fill_top. fold q r. rewrite (nth_split l (N.to_nat q)) by (unfold len in Hq; lia).
  fold d tl.
  assert (Lq : length (firstn (N.to_nat q) l) = N.to_nat q) by (unfold len in Lf; lia).
  assert (T : forall e s, on_tail (firstn (N.to_nat q) l ++ e :: s) (q + 1) (map (fun _ => WMAX))
                = Ok (firstn (N.to_nat q) l ++ e :: map (fun _ => WMAX) s)).
  { intros e s. rewrite on_tail_ok by (rewrite len_app, len_cons; lia).
    change (e :: s) with ([e] ++ s). rewrite app_assoc, firstn_app_exact, skipn_app_exact.
    - rewrite <- app_assoc. auto.
    - rewrite app_length, Lq. cbn [length]. lia.
    - rewrite app_length, Lq. cbn [length]. lia. }
  assert (I : forall e s, idx (firstn (N.to_nat q) l ++ e :: s) q = Ok e).
  { intros e s. rewrite idx_ok by (rewrite len_app, len_cons; lia).
    rewrite app_nth2, Lq, Nat.sub_diag by lia. auto. }
  assert (S : forall e s z, set_idx (firstn (N.to_nat q) l ++ e :: s) q z
                = Ok (firstn (N.to_nat q) l ++ z :: s)).
  { intros e s z. rewrite set_idx_ok by (rewrite len_app, len_cons; lia).
    rewrite firstn_app_exact by lia. change (e :: s) with ([e] ++ s).
    rewrite app_assoc, skipn_app_exact; auto. rewrite app_length, Lq. cbn [length]. lia. }
  unfold l0. destruct (N.ltb_spec r 63) as [E|E].
  - rewrite ar_mask_pos by lia. cbn [bind]. rewrite !I. cbn [bind]. rewrite !S. cbn [bind].
    rewrite !T, map_map, <- lor_hides by auto. auto.
  - cbn [bind]. rewrite !T, map_map. replace r with 63 by lia. change (63 + 1) with 64.
    rewrite (N.mod_small d) by auto. auto.
Qed.

Lemma dirty_sext_wres m a w x ow : 0 < w -> stores a w x -> w <= ow -> ow < 2 ^ 32 ->
  wres (ar_sign_extend m (value_vec_zeros ow) (words a) w ow) ow
       (if N.testbit x (w - 1) then wrap ow (signed w (x mod 2 ^ w)) else x).
Proof.
  intros Hw0 Ha Hw How. pose proof (dirty_zext_wres a w x ow Ha Hw) as Hz.
  assert (Bx : x mod 2 ^ w < 2 ^ w) by apply mod_lt.
  apply stores_inv in Ha as (Wa & _ & La & Fa & Va & Ba).
  unfold ar_sign_extend. rewrite is_neg_words, Va by auto. cbn [bind].
  destruct (N.testbit x (w - 1)) eqn:T; [|exact Hz].
  rewrite <- sign_ext_spec by auto.
  replace (2 ^ (w - 1) <=? x mod 2 ^ w) with true.
  2:{ rewrite <- testbit_top, N.mod_pow2_bits_low by (auto; lia). auto. }
  pose proof (zeros_len ow) as Lz.
  assert (L1 : len (words a) <= len (value_vec_zeros ow)) by (rewrite La, Lz; dlia).
  set (d := ar_assign (value_vec_zeros ow) (words a)).
  assert (Ld : len d = (ow + 63) / 64) by (unfold d; rewrite assign_len; auto).
  assert (Ed : d = words a ++ skipn (length (words a)) (value_vec_zeros ow)).
  { unfold d. apply assign_short. auto. }
  assert (Wd : Words d). { rewrite Ed. apply Words_app; auto. rewrite skipn_zeros. auto. }
  assert (Vd : wv d = x). { rewrite Ed, skipn_zeros, wv_app, wv_repeat0. lia. }
  destruct (fill_top_any d w) as (l' & Hf & Wl & Ll & Vl); auto.
  { rewrite Ld. dlia. }
  assert (Efill : (let* dst :=
      (if 0 <? w mod 64 then
         let msbs_in_msb := 64 - w mod 64 in
         let* k := ar_mask msbs_in_msb in
         let* old := idx d (len (words a) - 1) in
         set_idx d (len (words a) - 1) (N.lor old (wshl k (w mod 64)))
       else Ok d) in on_tail dst (len (words a)) ar_set) = Ok l').
  { rewrite <- Hf. unfold fill_top. rewrite La.
    replace ((w + 63) / 64 - 1) with ((w - 1) / 64) by dlia.
    replace ((w + 63) / 64) with ((w - 1) / 64 + 1) by dlia.
    unfold ar_set. destruct (N.ltb_spec 0 (w mod 64)) as [E|E].
    - replace ((w - 1) mod 64 <? 63) with true by dlia.
      replace ((w - 1) mod 64 + 1) with (w mod 64) by dlia. auto.
    - replace ((w - 1) mod 64 <? 63) with false by dlia. auto. }
  cbn zeta in Efill |- *.
  eapply wres_eq.
  - rewrite (bind_bind_ok _ _ (fun dst => ar_mask_msb m dst ow) _ Efill).
    apply mask_wres; auto; lia.
  - rewrite Vl, Vd. apply fill_mask; auto. rewrite Ld. dlia.
Qed.

Lemma dirty_sext m a w x k : 0 < w -> stores a w x -> w + k < 2 ^ 32 ->
  holds (bv_sign_extend m a k) (w + k)
    (if N.testbit x (w - 1) then wrap (w + k) (signed w (x mod 2 ^ w)) else x).
Proof.
  intros Hw0 Ha Hw. pose proof (dirty_sext_wres m a w x (w + k) Hw0 Ha) as Hz.
  destruct Hz as (l & Hf & Hl & Wl & Vl); [lia|auto|].
  apply stores_inv in Ha as (Wa & Hw' & La & Fa & Va & Ba).
  unfold bv_sign_extend. rewrite Wa, u32_add_ok by auto. cbn [bind].
  exists (mkbv (w + k) l). split; [|apply stores_intro; auto].
  destruct (N.leb_spec (w + k) 64) as [E1|E1].
  - rewrite !range_all by (rewrite ?zeros_len; dlia). cbn [bind].
    rewrite Hf. cbn [bind]. rewrite splice_all; auto.
    apply len_length. rewrite zeros_len. auto.
  - rewrite Hf. auto.
Qed.

(** ** Concatenation *)

Lemma lor_mod_low x y k : y < 2 ^ k -> N.lor (x mod 2 ^ k) y = N.lor x y mod 2 ^ k.
Proof.
  intros H. rewrite <- (N.mod_small y (2 ^ k)) at 1 by auto.
  rewrite <- !N.land_ones, N.land_lor_distr_l. auto.
Qed.

Lemma lor_mul_low h t p k : h < 2 ^ k -> p < 2 ^ k ->
  N.lor (h + 2 ^ k * t) p = N.lor h p + 2 ^ k * t.
Proof.
  intros Hh Hp.
  assert (H : N.lor h p < 2 ^ k).
  { rewrite <- (N.mod_small h (2 ^ k)), lor_mod_low by auto. apply mod_lt. }
  rewrite <- !lor_add by auto.
  rewrite <- N.lor_assoc, (N.lor_comm _ p), N.lor_assoc. auto.
Qed.

Lemma dirty_concat_wres m a b wa wb x y : stores a wa x -> stores b wb y -> wa + wb < 2 ^ 32 ->
  wres (ar_concat m (value_vec_zeros (wa + wb)) (words a) (words b) wb) (wa + wb)
       (N.lor (x * 2 ^ wb) y mod 2 ^ (64 * places (wa + wb))).
Proof.
  intros Ha Hb Hw. unfold places.
  apply stores_inv in Ha as (Wa & Hwa & La & Fa & Va & Ba), Hb as (Wb & _ & Lb & Fb & Vb & Bb).
  unfold ar_concat. set (z := value_vec_zeros (wa + wb)).
  assert (Lz : len z = (wa + wb + 63) / 64) by apply zeros_len.
  rewrite (assign_short z (words b)) by dlia.
  destruct (N.eqb_spec (wb mod 64) 0) as [E|E].
  - rewrite firstn_app_exact, skipn_app_exact by auto.
    rewrite assign_long by (rewrite len_skipn; fold (len (words b)); dlia).
    rewrite firstn_all2.
    2:{ unfold z, len in *. rewrite skipn_length. dlia. }
    eexists. split; [reflexivity|]. rewrite len_app, La, Lb. split; [dlia|].
    split; auto. rewrite wv_app, Va, Vb. replace (64 * len (words b)) with wb by dlia.
    replace (64 * ((wb + 63) / 64)) with wb in Bb by dlia.
    rewrite (N.mul_comm x), lor_add' by auto. symmetry. apply N.mod_small.
    replace (64 * ((wa + wb + 63) / 64)) with (wb + 64 * ((wa + 63) / 64)) by dlia.
    apply add_mul_lt; auto.
  - rewrite ar_mask_pos by dlia. cbn [bind].
    rewrite usz_sub_ok by dlia. cbn [bind].
    destruct (rev_cons_inv (words b)) as (t & p & Eb).
    { intros Eb. rewrite Eb in Lb. nils. dlia. }
    rewrite Eb in *. rewrite len_app, len_cons in *. nils. rewrite N.add_0_l in *.
    replace (len t + 1 - 1) with (len t) in * by dlia.
    rewrite <- app_assoc. rewrite idx_ok by (rewrite !len_app, !len_cons; dlia).
    replace (N.to_nat (len t)) with (length t) by (unfold len; dlia).
    rewrite app_nth2, Nat.sub_diag by dlia. cbn [nth app].
    cbn [bind].
    rewrite firstn_app_exact, skipn_app_exact by auto.
    rewrite app_length. cbn [length].
    apply Forall_app in Fb as [Ft Fp]. inversion Fp as [|? ? Hp _]; subst x0 l.
    rewrite wv_app, wv_cons in Vb. nils. rewrite N.mul_0_r, N.add_0_r in Vb.
    assert (Ewb : wb = 64 * len t + wb mod 64) by dlia.
    rewrite concat_loop_slice.
    destruct (slice_loop_ok (wb mod 64) (64 - wb mod 64) 0
                (p :: skipn (length t + 1) z) (words a ++ [0])) as (W & L & V);
      auto; try dlia.
    { rewrite len_app, !len_cons, len_skipn. nils. unfold len in *. dlia. }
    rewrite len_cons, len_skipn in L, V. rewrite Lz in L, V.
    destruct (words a ++ [0]) as [|s ss] eqn:Es. { destruct (words a); discriminate. }
    cbn [ar_slice_loop] in W, L, V |- *. rewrite N.lor_0_l in W, L, V.
    set (h := wshl _ _) in *. set (tl := ar_slice_loop _ _ _ _ _ _) in *.
    inversion W as [|? ? Wh Wt]; subst x0 l.
    assert (Hlor : N.lor p h < 2 ^ 64).
    { rewrite <- (N.mod_small p (2 ^ 64)), lor_mod_low by auto. apply mod_lt. }
    eexists. split; [reflexivity|]. rewrite len_app, len_cons. rewrite len_cons in L.
    assert (Lt : len t = N.of_nat (length t)) by reflexivity.
    split; [dlia|]. split. { apply Words_app; auto. }
    rewrite wv_app, wv_cons.
    rewrite N.add_0_l in V. rewrite wv_cons in V.
    rewrite (N.lor_comm p), <- lor_mul_low, V by auto.
    rewrite <- Es, wv_snoc0, Va.
    set (k := 64 * len t) in *. set (j := 64 * ((wa + wb + 63) / 64 - N.of_nat (length t + 1) + 1)) in *.
    assert (Ej : 64 * ((wa + wb + 63) / 64) = k + j) by (unfold k, j; dlia).
    rewrite Ej.
    rewrite <- lor_mod_low.
    2:{ eapply N.lt_le_trans; [exact Bb|]. apply pow_le. dlia. }
    replace (x * 2 ^ wb) with (2 ^ k * (2 ^ (wb mod 64) * x))
      by (rewrite N.mul_assoc, <- N.pow_add_r, <- Ewb; ring).
    rewrite N.pow_add_r, N.mul_mod_distr_l by auto.
    rewrite <- Vb, <- (lor_add (wv t) p k) by (apply wv_bound; auto).
    rewrite <- lor_add by (apply wv_bound; auto).
    rewrite <- !(N.mul_comm (2 ^ k)), <- !N.shiftl_mul_pow2 || idtac.
    apply N.bits_inj. intros i. rewrite !N.lor_spec.
    rewrite !(N.mul_comm (2 ^ k)), <- !N.shiftl_mul_pow2.
    destruct (N.ltb_spec i k) as [H|H].
    + rewrite !N.shiftl_spec_low by auto. rewrite !orb_false_r. auto.
    + rewrite !N.shiftl_spec_high' by auto. rewrite N.lor_spec.
      destruct (N.testbit (wv t) i), (N.testbit p (i - k)); cbn [orb];
        rewrite ?orb_true_r, ?orb_false_r; auto.
Qed.

Lemma dirty_concat m a b wa wb x y : 0 < wa -> 0 < wb -> stores a wa x -> stores b wb y ->
  wa + wb < 2 ^ 32 ->
  holds (bv_concat m a b) (wa + wb) (N.lor (x * 2 ^ wb) y mod 2 ^ (64 * places (wa + wb))).
Proof.
  intros Ha0 Hb0 Ha Hb Hw.
  destruct (dirty_concat_wres m a b wa wb x y) as (l & Hf & Hl & Wl & Vl); auto.
  apply stores_inv in Ha as (Wa & Hwa & La & Fa & Va & Ba), Hb as (Wb & _ & Lb & Fb & Vb & Bb).
  exists (mkbv (wa + wb) l). split; [|apply stores_intro; auto].
  unfold bv_concat. rewrite Wa, Wb, u32_add_ok by auto. cbn [bind].
  destruct (N.leb_spec (wa + wb) 64) as [E|E].
  - rewrite !range_all by (rewrite ?zeros_len; dlia). cbn [bind].
    rewrite Hf. cbn [bind]. rewrite splice_all; auto.
    apply len_length. rewrite zeros_len. auto.
  - rewrite Hf. auto.
Qed.

(** ** Looking at a value *)

Lemma dirty_to_u64 a w x : stores a w x -> bv_to_u64 a = if x <? 2 ^ 64 then Some x else None.
Proof.
  intros Ha. apply stores_inv in Ha as (Wa & _ & La & Fa & Va & Ba).
  unfold bv_to_u64. rewrite existsb_nonzero. destruct (words a) as [|x0 t].
  - nils. subst x. reflexivity.
  - inversion Fa as [|? ? H0 Ht]; subst x1 l. rewrite wv_cons in Va. cbn [skipn].
    subst x. destruct (N.eqb_spec (wv t) 0) as [Z|Z]; cbn [negb].
    + rewrite Z, N.mul_0_r, N.add_0_r. apply N.ltb_lt in H0. rewrite H0. auto.
    + replace (x0 + 2 ^ 64 * wv t <? 2 ^ 64) with false; auto.
      symmetry. apply N.ltb_ge. nia.
Qed.

Lemma dirty_is_zero a w x : stores a w x -> bv_is_zero a = (x =? 0).
Proof.
  intros Ha. apply stores_inv in Ha as (Wa & _ & La & Fa & <- & Ba).
  unfold bv_is_zero. apply forallb_zero.
Qed.

Lemma dirty_big_uint a w x : stores a w x -> bv_to_big_uint a = Ok x.
Proof.
  intros Ha. apply stores_inv in Ha as (Wa & _ & La & Fa & Va & Ba).
  unfold bv_to_big_uint, to_big_uint. destruct (words_to_u32_ok _ Fa) as (r & E1 & E2).
  rewrite E1. cbn [bind]. congruence.
Qed.

Lemma dirty_big_int m a w x : 0 < w -> stores a w x ->
  bv_to_big_int m a
  = Ok (if N.testbit x (w - 1) then signed w (x mod 2 ^ w) else Z.of_N x).
Proof.
  intros Hw Ha. apply stores_inv in Ha as (Wa & _ & La & Fa & Va & Ba).
  unfold bv_to_big_int, to_big_int. rewrite Wa. replace (w =? 0) with false by lia.
  rewrite get_sign_is_neg, is_neg_words, Va by auto. cbn [bind].
  destruct (N.testbit x (w - 1)) eqn:T.
  - unfold ar_negate. rewrite len_repeat. fold (len (words a)). rewrite N.eqb_refl.
    cbn [assert bind].
    destruct (dirty_negate_wres m (words a) w Hw Fa La) as (l & E1 & E2 & E3 & E4).
    rewrite E1. cbn [bind]. destruct (words_to_u32_ok _ E3) as (r & R1 & R2). rewrite R1. cbn [bind].
    unfold big_int_from_slice. rewrite R2, E4, Va.
    assert (B : x mod 2 ^ w < 2 ^ w) by apply mod_lt.
    assert (C : 2 ^ (w - 1) <=? x mod 2 ^ w = true).
    { rewrite <- testbit_top, N.mod_pow2_bits_low by (auto; lia). auto. }
    assert (W : wrap w (- Z.of_N x) = wrap w (- Z.of_N (x mod 2 ^ w))).
    { apply wrap_cong with (k := (- Z.of_N (x / 2 ^ w))%Z).
      pose proof (N.div_mod x (2 ^ w) ltac:(apply pow_nz)) as D. nia. }
    rewrite W, wrap_neg_abs by (auto; lia). rewrite signed_neg by auto. rewrite C. f_equal.
    clear - B. lia.
  - cbn [bind]. destruct (words_to_u32_ok _ Fa) as (r & R1 & R2). rewrite R1. cbn [bind].
    unfold big_int_from_slice. congruence.
Qed.

Lemma dirty_is_negative m a w x : 0 < w -> stores a w x ->
  bv_is_negative m a = Ok (signed w (x mod 2 ^ w) <? 0)%Z.
Proof.
  intros Hw Ha. unfold bv_is_negative. pose proof Ha as (_ & Wa & _). rewrite Wa.
  rewrite (dirty_neg m a w x Hw Ha). f_equal.
  assert (B : x mod 2 ^ w < 2 ^ w) by apply mod_lt.
  unfold signed. rewrite Zpow, (N.ltb_antisym _ (x mod 2 ^ w)).
  destruct (N.leb_spec (2 ^ (w - 1)) (x mod 2 ^ w)); cbn [negb]; clear - B; lia.
Qed.

Lemma dirty_is_bit_set a w x pos : stores a w x -> pos < 64 * places w ->
  bv_is_bit_set a pos = Ok (N.testbit x pos).
Proof.
  intros Ha Hp. apply stores_inv in Ha as (Wa & _ & La & Fa & Va & Ba).
  unfold bv_is_bit_set, places in *. rewrite is_bit_set_words; auto; [congruence|]. dlia.
Qed.

Lemma dt_low n x : dt 1 n x = dt 1 n (x mod 2 ^ N.of_nat n).
Proof.
  apply dt_ext. rewrite N.mul_1_l, N.mod_mod by apply pow_nz. auto.
Qed.

Lemma dirty_bit_str a w x : stores a w x -> bv_to_bit_str a = bv_to_bit_str (cleaned a).
Proof.
  intros Ha. rewrite (to_bit_str_ok (cleaned a) w (x mod 2 ^ w)) by (apply cleaned_ok; auto).
  apply stores_inv in Ha as (E & _ & Hl & HW & Hv & Hx).
  unfold bv_to_bit_str, to_bit_str. rewrite E.
  destruct (N.eq_dec w 0) as [->|Hn]; [reflexivity|].
  rewrite to_bit_str_words; auto; try lia.
  - cbn [app]. rewrite Hv, dt_low. f_equal.
    replace (N.to_nat ((w - 1) mod 64 + 1) + 64 * (length (words a) - 1))%nat with (N.to_nat w).
    + rewrite N2Nat.id. auto.
    + unfold len in Hl. clear - Hl Hn. dlia.
  - intros E2. rewrite E2 in Hl. nils. clear - Hl Hn. dlia.
Qed.

(** ** The calls that ignore unused bits *)

Lemma cleaned_width a : width (cleaned a) = width a.
Proof. reflexivity. Qed.

Lemma clear_cleaned a : well_shaped a -> bv_clear (cleaned a) = bv_clear a.
Proof.
  intros H. pose proof (cleaned_ok a _ _ (shaped_stores a H)) as C.
  apply is_bv_inv in C as (_ & _ & Lc & _). destruct H as (_ & La & _).
  unfold bv_clear. rewrite cleaned_width. f_equal.
  assert (E : length (words (cleaned a)) = length (words a)) by (unfold len in *; lia).
  revert E. generalize (words (cleaned a)) (words a). clear.
  induction l as [|x l IH]; intros [|y r] E; try discriminate; auto. cbn [map]. f_equal. auto.
Qed.

Lemma ones_cleaned a : well_shaped a ->
  map (fun _ => WMAX) (words (cleaned a)) = map (fun _ => WMAX) (words a).
Proof.
  intros H. pose proof (cleaned_ok a _ _ (shaped_stores a H)) as C.
  apply is_bv_inv in C as (_ & _ & Lc & _). destruct H as (_ & La & _).
  assert (E : length (words (cleaned a)) = length (words a)) by (unfold len in *; lia).
  revert E. generalize (words (cleaned a)) (words a). clear.
  induction l as [|x l IH]; intros [|y r] E; try discriminate; auto. cbn [map]. f_equal. auto.
Qed.

Lemma same_yields (r r' : res bv) w n : yields r w n -> yields r' w n -> r = r'.
Proof. intros H H'. apply (holds_same r r' w n); apply yields_holds; auto. Qed.

Lemma wrap_low w a b : wrap w (Z.of_N (a mod 2 ^ w) - Z.of_N (b mod 2 ^ w)) = wrap w (Z.of_N a - Z.of_N b).
Proof.
  apply wrap_cong with (k := (Z.of_N (b / 2 ^ w) - Z.of_N (a / 2 ^ w))%Z).
  pose proof (N.div_mod a (2 ^ w) ltac:(apply pow_nz)) as D.
  pose proof (N.div_mod b (2 ^ w) ltac:(apply pow_nz)) as D'.
  apply (f_equal Z.of_N) in D, D'. rewrite N2Z.inj_add, N2Z.inj_mul in D, D'.
  revert D D'. generalize (Z.of_N (2 ^ w)) (Z.of_N (a / 2 ^ w)) (Z.of_N (b / 2 ^ w)) (Z.of_N (a mod 2 ^ w))
    (Z.of_N (b mod 2 ^ w)). intros P q q' r r' -> ->. ring.
Qed.

Lemma cleaned_0 a : well_shaped a -> width a = 0 -> cleaned a = a.
Proof.
  intros H H0. apply cleaned_id. apply (stores_0 a (uval a)). rewrite <- H0.
  apply shaped_stores. auto.
Qed.

Lemma dirty_mul_todo m a b w x y : stores a w x -> stores b w y -> 64 < w ->
  bv_mul m a b = Panic PTodo.
Proof.
  intros Ha Hb L.
  apply stores_inv in Ha as (Wa & Hw & La & Fa & Va & Ba), Hb as (Wb & _ & Lb & Fb & Vb & Bb).
  unfold bv_mul, arith_bin_fn. rewrite Wa, Wb, La, Lb, !N.eqb_refl, !debug_assert_true.
  cbn [bind]. replace ((w + 63) / 64 =? 1) with false by dlia.
  unfold ar_mul. replace (w <=? 64) with false by lia. reflexivity.
Qed.

Lemma ignores_ok m c : (forall a, In a (operands c) -> well_shaped a) -> ignores c ->
  run m c = run m (clean_call c).
Proof.
  intros Hs Hi.
  assert (S : forall a, In a (operands c) -> stores a (width a) (uval a))
    by (intros; apply shaped_stores; auto).
  assert (C : forall a, In a (operands c) -> stores (cleaned a) (width a) (uval a mod 2 ^ width a))
    by (intros; apply is_bv_stores, cleaned_ok; auto).
  destruct c; try contradiction; cbn [operands run clean_call ignores] in *.
  - (* two operands *)
    destruct op; try contradiction; cbn [run_bin].
    + assert (E : bv_add m a b = bv_add m (cleaned a) (cleaned b)); [|now rewrite E].
      destruct (N.eq_dec (width a) 0) as [E0|E0].
      { rewrite !cleaned_0; auto with datatypes; congruence. }
      apply (same_yields _ _ (width a) ((uval a + uval b) mod 2 ^ width a)).
      * apply dirty_add; try lia; [|rewrite Hi]; auto with datatypes.
      * rewrite <- N.add_mod_idemp_l, <- N.add_mod_idemp_r by apply pow_nz.
        apply dirty_add; try lia; [|rewrite Hi]; auto with datatypes.
    + assert (E : bv_sub m a b = bv_sub m (cleaned a) (cleaned b)); [|now rewrite E].
      destruct (N.eq_dec (width a) 0) as [E0|E0].
      { rewrite !cleaned_0; auto with datatypes; congruence. }
      apply (same_yields _ _ (width a) (wrap (width a) (Z.of_N (uval a) - Z.of_N (uval b)))).
      * apply dirty_sub; try lia; [|rewrite Hi]; auto with datatypes.
      * rewrite <- wrap_low. apply dirty_sub; try lia; [|rewrite Hi]; auto with datatypes.
    + assert (E : bv_mul m a b = bv_mul m (cleaned a) (cleaned b)); [|now rewrite E].
      destruct (N.eq_dec (width a) 0) as [E0|E0].
      { rewrite !cleaned_0; auto with datatypes; congruence. }
      destruct (N.le_gt_cases (width a) 64) as [L|L].
      * apply (same_yields _ _ (width a) ((uval a * uval b) mod 2 ^ width a)).
        -- apply dirty_mul; try lia; [|rewrite Hi]; auto with datatypes.
        -- rewrite <- N.mul_mod_idemp_l, <- N.mul_mod_idemp_r by apply pow_nz.
           apply dirty_mul; try lia; [|rewrite Hi]; auto with datatypes.
      * rewrite (dirty_mul_todo m a b (width a) (uval a) (uval b)); auto with datatypes.
        2:{ rewrite Hi. auto with datatypes. }
        symmetry. eapply (dirty_mul_todo m _ _ (width a)); auto with datatypes.
        rewrite Hi. auto with datatypes.
  - assert (E : bv_not m a = bv_not m (cleaned a)); [|now rewrite E].
    destruct (N.eq_dec (width a) 0) as [E0|E0].
    { rewrite cleaned_0; auto with datatypes. }
    apply (same_yields _ _ (width a) (2 ^ width a - 1 - uval a mod 2 ^ width a)).
    + apply dirty_not; try lia; auto with datatypes.
    + rewrite <- (N.mod_mod (uval a)) by apply pow_nz.
      apply dirty_not; try lia; auto with datatypes.
  - assert (E : bv_negate m a = bv_negate m (cleaned a)); [|now rewrite E].
    destruct (N.eq_dec (width a) 0) as [E0|E0].
    { rewrite cleaned_0; auto with datatypes. }
    apply (same_yields _ _ (width a) (wrap (width a) (- Z.of_N (uval a)))).
    + apply dirty_negate; try lia; auto with datatypes.
    + replace (wrap (width a) (- Z.of_N (uval a)))
        with (wrap (width a) (- Z.of_N (uval a mod 2 ^ width a))).
      * apply dirty_negate; try lia; auto with datatypes.
      * pose proof (wrap_low (width a) 0 (uval a)) as W. rewrite N.mod_0_l in W by apply pow_nz.
        exact W.
  - assert (E : bv_slice m a msb lsb = bv_slice m (cleaned a) msb lsb); [|now rewrite E].
    destruct Hi as (H1 & H2).
    apply (same_yields _ _ (msb - lsb + 1) ((uval a / 2 ^ lsb) mod 2 ^ (msb - lsb + 1))).
    + apply (dirty_slice m a (width a)); auto with datatypes.
    + replace ((uval a / 2 ^ lsb) mod 2 ^ (msb - lsb + 1))
        with ((uval a mod 2 ^ width a / 2 ^ lsb) mod 2 ^ (msb - lsb + 1)).
      * apply (dirty_slice m _ (width a)); auto with datatypes.
      * apply N.bits_inj. intros i. destruct (N.ltb_spec i (msb - lsb + 1)) as [L|L].
        -- rewrite !N.mod_pow2_bits_low, <- !N.shiftr_div_pow2, !N.shiftr_spec' by auto.
           rewrite N.mod_pow2_bits_low by lia. auto.
        -- rewrite !N.mod_pow2_bits_high by auto. auto.
  - assert (E : bv_mask_msb m a = bv_mask_msb m (cleaned a)); [|now rewrite E].
    destruct (N.eq_dec (width a) 0) as [E0|E0].
    { rewrite cleaned_0; auto with datatypes. }
    apply (same_yields _ _ (width a) (uval a mod 2 ^ width a)).
    + apply dirty_mask; try lia; auto with datatypes.
    + rewrite <- (N.mod_mod (uval a)) by apply pow_nz.
      apply dirty_mask; try lia; auto with datatypes.
  - rewrite clear_cleaned; auto with datatypes.
  - unfold bv_assign_ones. rewrite cleaned_width, ones_cleaned; auto with datatypes.
  - unfold bv_assign_from_u64. rewrite clear_cleaned; auto with datatypes.
  - unfold bv_assign_from_i64. rewrite clear_cleaned, cleaned_width; auto with datatypes.
Qed.

(** ** Mask and use *)

Lemma mask_cleans m a : well_shaped a -> 0 < width a -> bv_mask_msb m a = Ok (cleaned a).
Proof.
  intros H H0. apply (same_yields _ _ (width a) (uval a mod 2 ^ width a)).
  - apply dirty_mask; auto. apply shaped_stores. auto.
  - exists (cleaned a). split; auto. apply cleaned_ok, shaped_stores. auto.
Qed.

Lemma dirty_and m a b w n k : stores a w n -> stores b w k -> holds (bv_and m a b) w (N.land n k).
Proof.
  unfold bv_and, ar_and. rewrite bit_arith_same. apply (dirty_bitwise N.land andb m a b w n k); auto using N.land_spec.
Qed.
Lemma dirty_or m a b w n k : stores a w n -> stores b w k -> holds (bv_or m a b) w (N.lor n k).
Proof.
  unfold bv_or, ar_or. rewrite bit_arith_same. apply (dirty_bitwise N.lor orb m a b w n k); auto using N.lor_spec.
Qed.
Lemma dirty_xor m a b w n k : stores a w n -> stores b w k -> holds (bv_xor m a b) w (N.lxor n k).
Proof.
  unfold bv_xor, ar_xor. rewrite bit_arith_same. apply (dirty_bitwise N.lxor xorb m a b w n k); auto using N.lxor_spec.
Qed.

(** ** Witnesses *)

(** four bits that hold 0 or 1, with the fifth bit set *)
Lemma made_clean w n : n < 2 ^ 64 -> w < 2 ^ 32 -> bv_from_u64 Debug n w = Ok (bv_of w n) ->
  made Debug any_call (bv_of w n).
Proof.
  intros Hn Hw H. apply (made_by _ _ (KFromU64 n w)).
  - intros a [].
  - split; auto.
  - exact I.
  - cbn [run]. rewrite H. reflexivity.
Qed.
Lemma made_dirty n : n < 2 ^ 4 -> bv_from_u64 Debug n 4 = Ok (bv_of 4 n) ->
  bv_set_bit (bv_of 4 n) 4 = Ok (mkbv 4 [n + 16]) ->
  made Debug any_call (mkbv 4 [n + 16]).
Proof.
  intros Hn Hf Hs. apply (made_by _ _ (KSetBit (bv_of 4 n) 4)).
  - intros a [<-|[]]. apply made_clean; auto; [|reflexivity].
    eapply N.lt_trans; [exact Hn|reflexivity].
  - reflexivity.
  - exact I.
  - cbn [run]. rewrite Hs. reflexivity.
Qed.

Lemma made_16 : made Debug any_call (mkbv 4 [16]).
Proof. apply (made_dirty 0); reflexivity. Qed.
Lemma made_17 : made Debug any_call (mkbv 4 [17]).
Proof. apply (made_dirty 1); reflexivity. Qed.
Lemma made_0 : made Debug any_call (bv_of 4 0).
Proof. apply made_clean; reflexivity. Qed.
Lemma made_1 : made Debug any_call (bv_of 4 1).
Proof. apply made_clean; reflexivity. Qed.

Lemma sensitive_ok :
  (forall op, ~ In op [BAdd; BSub; BMul] -> exists a b,
     made Debug any_call a /\ made Debug any_call b /\ width a = width b
     /\ run_bin op Debug a b <> run_bin op Debug (cleaned a) (cleaned b))
  /\ (forall t, exists a b,
     made Debug any_call a /\ made Debug any_call b /\ width a = width b
     /\ run_test t Debug a b <> run_test t Debug (cleaned a) (cleaned b))
  /\ (exists a, made Debug any_call a
     /\ bv_zero_extend Debug a 8 <> bv_zero_extend Debug (cleaned a) 8
     /\ bv_sign_extend Debug a 8 <> bv_sign_extend Debug (cleaned a) 8
     /\ bv_to_u64 a <> bv_to_u64 (cleaned a)
     /\ bv_is_zero a <> bv_is_zero (cleaned a)
     /\ bv_to_big_uint a <> bv_to_big_uint (cleaned a)
     /\ bv_to_big_int Debug a <> bv_to_big_int Debug (cleaned a)).
Proof.
  split; [|split].
  - intros op H.
    destruct op; try (exfalso; apply H; cbn [In]; tauto); clear H.
    + exists (mkbv 4 [16]), (mkbv 4 [16]). repeat (split; [apply made_16||reflexivity|]). vm_compute. discriminate.
    + exists (mkbv 4 [16]), (mkbv 4 [16]). repeat (split; [apply made_16||reflexivity|]). vm_compute. discriminate.
    + exists (mkbv 4 [16]), (bv_of 4 1). repeat (split; [apply made_16||apply made_1||reflexivity|]). vm_compute. discriminate.
    + exists (bv_of 4 1), (mkbv 4 [16]). repeat (split; [apply made_16||apply made_1||reflexivity|]). vm_compute. discriminate.
    + exists (bv_of 4 1), (mkbv 4 [16]). repeat (split; [apply made_16||apply made_1||reflexivity|]). vm_compute. discriminate.
    + exists (bv_of 4 1), (mkbv 4 [16]). repeat (split; [apply made_16||apply made_1||reflexivity|]). vm_compute. discriminate.
    + exists (bv_of 4 0), (mkbv 4 [16]). repeat (split; [apply made_16||apply made_0||reflexivity|]). vm_compute. discriminate.
  - intros t. destruct t;
      first [ exists (mkbv 4 [16]), (bv_of 4 0); repeat (split; [apply made_16||apply made_0||reflexivity|]);
              vm_compute; discriminate
            | exists (bv_of 4 0), (mkbv 4 [16]); repeat (split; [apply made_16||apply made_0||reflexivity|]);
              vm_compute; discriminate
            | exists (mkbv 4 [16]), (bv_of 4 1); repeat (split; [apply made_16||apply made_1||reflexivity|]);
              vm_compute; discriminate
            | exists (bv_of 4 1), (mkbv 4 [16]); repeat (split; [apply made_16||apply made_1||reflexivity|]);
              vm_compute; discriminate ].
  - exists (mkbv 4 [16]). split; [apply made_16|].
    repeat split; vm_compute; discriminate.
Qed.

Lemma dirty_example :
  let a := mkbv 4 [19] in
  bv_set_bit (bv_of 4 3) 4 = Ok a
  /\ stores a 4 19 /\ ~ wf a /\ cleaned a = bv_of 4 3
  /\ bv_add Debug a (bv_of 4 1) = Ok (bv_of 4 4)
  /\ bv_is_equal Debug a (bv_of 4 3) = Ok false
  /\ bv_is_greater Debug a (bv_of 4 15) = Ok true
  /\ bv_concat Debug (bv_of 4 2) a = Ok (bv_of 8 51)
  /\ bv_zero_extend Debug a 4 = Ok (bv_of 8 19)
  /\ bv_mask_msb Debug a = Ok (bv_of 4 3).
Proof.
  cbn zeta. split; [reflexivity|]. split.
  { split; [|split; reflexivity]. split; [reflexivity|]. split; [reflexivity|].
    constructor; [reflexivity|constructor]. }
  split. { intros (_ & _ & _ & H). revert H. vm_compute. discriminate. }
  repeat split; reflexivity.
Qed.
