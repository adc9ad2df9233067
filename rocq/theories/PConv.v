(** * PConv: conversions from and to machine integers and Booleans. *)

From Coq Require Import ZifyBool ZifyNat ZifyN.
From Verif Require Import Base Arith Bv Spec PWords PArith PShift PropsArith PCompare.

Ltac Zify.zify_post_hook ::= idtac.

Lemma u64_as_i64_signed x : u64_as_i64 x = signed 64 x.
Proof.
  unfold u64_as_i64, signed. change (2 ^ (64 - 1)) with 9223372036854775808.
  change (2 ^ Z.of_N 64)%Z with 18446744073709551616%Z. reflexivity.
Qed.
Lemma i64_as_u64_wrap z : i64_as_u64 z = wrap 64 z.
Proof.
  unfold i64_as_u64, wrap. change (2 ^ Z.of_N 64)%Z with 18446744073709551616%Z. reflexivity.
Qed.

Lemma words_cases v w x : is_bv v w x -> 0 < w -> exists x0 t, words v = x0 :: t
  /\ x0 < 2 ^ 64 /\ Words t /\ x = x0 + 2 ^ 64 * wv t /\ len t = (w + 63) / 64 - 1.
Proof.
  intros Hv Hw. apply is_bv_inv in Hv as (Wv & _ & Lv & Fv & Vv & Bv).
  destruct (words v) as [|x0 t]. { nils. dlia. }
  inversion Fv; subst. exists x0, t. rewrite wv_cons. rewrite len_cons in Lv.
  repeat split; auto. dlia.
Qed.

(** ** to_u64 *)

Lemma to_u64_ok v w x : is_bv v w x ->
  bv_to_u64 v = if x <? 2 ^ 64 then Some x else None.
Proof.
  intros Hv. unfold bv_to_u64. rewrite existsb_nonzero.
  destruct (N.eq_dec w 0) as [->|Hw].
  - apply is_bv_inv in Hv as (Wv & _ & Lv & Fv & Vv & Bv).
    change ((0 + 63) / 64) with 0 in Lv. apply len_0 in Lv. rewrite Lv in *.
    cbn [skipn]. nils. subst x. auto.
  - destruct (words_cases v w x Hv) as (x0 & t & E & H0 & Ht & Ex & _); [lia|].
    rewrite E. cbn [skipn]. subst x. destruct (N.eqb_spec (wv t) 0) as [Z|Z]; cbn [negb].
    + rewrite Z, N.mul_0_r, N.add_0_r. apply N.ltb_lt in H0. rewrite H0. auto.
    + replace (x0 + 2 ^ 64 * wv t <? 2 ^ 64) with false; auto.
      symmetry. apply N.ltb_ge. nia.
Qed.

(** ** from_u64 *)

Lemma clear_ok v w x : is_bv v w x -> is_bv (bv_clear v) w 0.
Proof.
  intros Hv. apply is_bv_inv in Hv as (Wv & Hw & Lv & Fv & Vv & Bv).
  unfold bv_clear. rewrite Wv. apply is_bv_intro; auto.
  - rewrite len_map. auto.
  - apply wv_map0.
Qed.

Lemma mask_msb_bv m w l : Words l -> len l = (w + 63) / 64 -> 0 < w -> w < 2 ^ 32 ->
  yields (bv_mask_msb m (mkbv w l)) w (wv l mod 2 ^ w).
Proof.
  intros Wl Ll Hw Hw'. unfold bv_mask_msb. cbn [words width].
  apply wres_yields; auto. apply mask_wres; auto.
Qed.

Lemma zero_is_bv w : w < 2 ^ 32 -> is_bv (bv_zero w) w 0.
Proof.
  intros Hw. apply is_bv_intro; auto using zeros_len, zeros_words, zeros_val.
Qed.

Lemma assign_from_u64_raw m s w x v : is_bv s w x -> 0 < w -> v < 2 ^ 64 ->
  exists r, is_bv r w (v mod 2 ^ w) /\
    bv_assign_from_u64 m s v
    = match m with Release => Ok r
      | Debug => if v <? 2 ^ w then Ok r else Panic PDebugAssert end.
Proof.
  intros Hs Hw Hv.
  destruct (words_cases _ w 0 (clear_ok _ _ _ Hs) Hw) as (x0 & t & E & H0 & Ht & Ex & Lt).
  assert (Zt : wv t = 0) by (pose proof (pow_pos 64); nia).
  pose proof (is_bv_inv _ _ _ (clear_ok _ _ _ Hs)) as (Wc & Hw' & _).
  destruct (mask_msb_bv m w (v :: t)) as (r & Er & Hr); auto.
  { rewrite len_cons, Lt. dlia. }
  rewrite wv_cons, Zt, N.mul_0_r, N.add_0_r in Hr. exists r. split; auto.
  unfold bv_assign_from_u64. rewrite E. unfold set_idx. change (N.to_nat 0) with O.
  cbn [set_nth bind]. rewrite Wc, Er. cbn [bind]. destruct m; auto.
  destruct (words_cases _ w _ Hr Hw) as (y0 & t' & E' & H0' & Ht' & Ex' & _).
  rewrite E'. unfold idx. change (N.to_nat 0) with O. cbn [nth_error bind].
  assert (Ey : y0 = v mod 2 ^ w).
  { rewrite <- (N.mod_small y0 (2 ^ 64)) by auto.
    rewrite <- (add_mul_mod0 y0 (wv t') 64), <- Ex', N.mod_mod by auto.
    apply N.mod_small. eapply N.le_lt_trans; [apply N.mod_le|]; auto. }
  rewrite Ey. destruct (N.ltb_spec v (2 ^ w)) as [L|L].
  - rewrite N.mod_small, N.eqb_refl by auto. auto.
  - replace (v mod 2 ^ w =? v) with false; auto.
    symmetry. apply N.eqb_neq. intros Q. pose proof (mod_lt v w). lia.
Qed.

Lemma assign_from_u64_ok m s w x v : is_bv s w x -> 0 < w -> v < 2 ^ 64 ->
  m = Release \/ v < 2 ^ w -> yields (bv_assign_from_u64 m s v) w (v mod 2 ^ w).
Proof.
  intros Hs Hw Hv H. destruct (assign_from_u64_raw m s w x v Hs Hw Hv) as (r & Hr & E).
  exists r. split; auto. rewrite E. destruct m; auto.
  destruct H as [H|H]; [discriminate|]. apply N.ltb_lt in H. rewrite H. auto.
Qed.
Lemma assign_from_u64_panics s w x v : is_bv s w x -> 0 < w -> v < 2 ^ 64 ->
  2 ^ w <= v -> panics (bv_assign_from_u64 Debug s v).
Proof.
  intros Hs Hw Hv H. destruct (assign_from_u64_raw Debug s w x v Hs Hw Hv) as (r & Hr & E).
  exists PDebugAssert. rewrite E. apply N.ltb_ge in H. rewrite H. auto.
Qed.

(** ** from_i64 *)

Lemma wrap_signed_ext w z : 0 < w -> w <= 64 -> fits 64 z ->
  (if 2 ^ (w - 1) <=? wrap w z then wrap w z + (2 ^ 64 - 2 ^ w) else wrap w z)
  = wrap 64 z <-> fits w z.
Proof.
  intros Hw Hw' Hz. rewrite sign_ext_spec by auto. unfold fits in *. split.
  - intros E. assert (E' : signed w (wrap w z) = z).
    { rewrite <- (signed_of_wrap 64 z eq_refl Hz) at 2. rewrite <- E.
      symmetry. apply signed_wrap; auto. }
    rewrite <- E'. apply signed_range; auto.
  - intros F. rewrite signed_of_wrap; auto.
Qed.

Lemma land_mod x w : w <= 64 -> 0 < w -> x < 2 ^ 64 -> N.land x (2 ^ w - 1) = x mod 2 ^ w.
Proof. intros. apply land_ones_sub. Qed.

Lemma wrap_wrap w k z : w <= k -> wrap k z mod 2 ^ w = wrap w z.
Proof.
  intros H. rewrite <- wrap_mod. destruct (wrap_spec k z) as (q & Hq).
  destruct (wrap_spec w z) as (q' & Hq').
  apply wrap_eq with (k := (q' - q * Z.of_N (2 ^ (k - w)))%Z); auto.
  assert (E : Z.of_N (2 ^ k) = (Z.of_N (2 ^ w) * Z.of_N (2 ^ (k - w)))%Z).
  { rewrite <- N2Z.inj_mul. f_equal. apply pow_split. auto. }
  rewrite E in Hq. rewrite Hq' in Hq at 1. lia.
Qed.

Lemma map0_zeros w (l : list N) : len l = (w + 63) / 64 ->
  map (fun _ => 0) l = value_vec_zeros w.
Proof.
  intros H. unfold value_vec_zeros. rewrite div_ceil_eq, <- H. unfold len.
  rewrite Nat2N.id. clear. induction l; cbn [map length repeat]; congruence.
Qed.

Lemma is_bv_64 x : x < 2 ^ 64 -> is_bv (mkbv 64 [x]) 64 x.
Proof.
  intros H. apply is_bv_intro; auto.
  - reflexivity.
  - rewrite wv_cons. nils. lia.
Qed.

Lemma fits_mono w k z : 0 < w -> w <= k -> fits w z -> fits k z.
Proof.
  unfold fits. intros H1 H2 H3.
  assert (2 ^ (Z.of_N w - 1) <= 2 ^ (Z.of_N k - 1))%Z by (apply Z.pow_le_mono_r; lia). lia.
Qed.

Lemma assign_from_i64_words m s w x z : is_bv s w x -> 0 < w -> fits 64 z ->
  wres (if len (words (bv_clear s)) =? 1 then
       let* k := ar_mask w in
       set_idx (words (bv_clear s)) 0 (N.land (i64_as_u64 z) k)
     else ar_sign_extend m (words (bv_clear s)) [i64_as_u64 z] 64 w) w (wrap w z).
Proof.
  intros Hs Hw Hz. pose proof (clear_ok _ _ _ Hs) as Hc.
  apply is_bv_inv in Hs as (Ws & Hw' & Ls & Fs & Vs & Bs).
  pose proof (is_bv_inv _ _ _ Hc) as (_ & _ & Lc & _).
  rewrite i64_as_u64_wrap. rewrite Lc.
  destruct (N.eqb_spec ((w + 63) / 64) 1) as [E|E].
  - assert (Hw64 : w <= 64) by dlia.
    rewrite ar_mask_pos by auto. cbn [bind].
    rewrite E in Lc. apply len_0_1 in Lc as (c & Ec). rewrite Ec.
    unfold set_idx. change (N.to_nat 0) with O. cbn [set_nth].
    eexists. split; [reflexivity|]. rewrite E. split; [reflexivity|].
    rewrite land_ones_sub, wrap_wrap by auto.
    assert (wrap w z < 2 ^ 64). { eapply N.lt_le_trans; [apply wrap_lt|]. auto. }
    split; [constructor; auto|]. rewrite wv_cons. nils. lia.
  - assert (Hw64 : 64 < w) by dlia.
    unfold bv_clear. cbn [words]. rewrite (map0_zeros w) by auto.
    assert (Hv : wrap 64 z < 2 ^ 64) by apply wrap_lt.
    eapply wres_eq; [apply (sign_extend_wres m (mkbv 64 [wrap 64 z]) 64 (wrap 64 z) w)|].
    + apply is_bv_64. auto.
    + reflexivity.
    + lia.
    + auto.
    + rewrite sign_ext_spec by (auto; lia). rewrite signed_of_wrap; auto. reflexivity.
Qed.

Lemma lor_signs w n : 0 < w -> w < 64 -> n < 2 ^ w ->
  N.lor n (wshl (2 ^ (64 - w) - 1) w) = n + (2 ^ 64 - 2 ^ w).
Proof.
  intros H1 H2 Hn. pose proof (lor_top n (w - 1)) as L.
  replace (w - 1 + 1) with w in L by lia. apply L; auto. lia.
Qed.

Lemma assign_from_i64_raw m s w x z : is_bv s w x -> 0 < w -> fits 64 z ->
  exists r, is_bv r w (wrap w z) /\
    (m = Release \/ fits w z -> bv_assign_from_i64 m s z = Ok r) /\
    (m = Debug -> ~ fits w z -> bv_assign_from_i64 m s z = Panic PDebugAssert).
Proof.
  intros Hs Hw Hz.
  destruct (assign_from_i64_words m s w x z Hs Hw Hz) as (l & El & Ll & Wl & Vl).
  pose proof (is_bv_inv _ _ _ Hs) as (Ws & Hw' & _).
  assert (Hr : is_bv (mkbv w l) w (wrap w z)) by (apply is_bv_intro; auto).
  exists (mkbv w l). split; auto.
  unfold bv_assign_from_i64. rewrite Ws, El. cbn [bind].
  destruct m; [|split; [auto|discriminate]].
  unfold bv_is_negative. cbn [words width].
  pose proof (is_neg_ok Debug (mkbv w l) w (wrap w z) Hw Hr) as Nr. cbn [words] in Nr.
  rewrite Nr. cbn [bind].
  destruct (words_cases _ w _ Hr Hw) as (w0 & t & E & H0 & Ht & Ex & Lt).
  cbn [words] in E. rewrite E. unfold idx. change (N.to_nat 0) with O. cbn [nth_error bind].
  rewrite i64_as_u64_wrap.
  assert (Hbig : 64 <= w -> w0 = wrap 64 z /\ fits w z).
  { intros H. split; [|apply (fits_mono 64); auto; reflexivity].
    rewrite <- (wrap_wrap 64 w z) by auto. rewrite Ex. rewrite add_mul_mod0; auto. }
  destruct (N.ltb_spec w 64) as [L64|L64].
  - assert (T0 : t = []) by (apply len_0; dlia). subst t. nils.
    rewrite N.mul_0_r, N.add_0_r in Ex. subst w0.
    pose proof (wrap_signed_ext w z Hw) as X. specialize (X ltac:(lia) Hz).
    destruct (2 ^ (w - 1) <=? wrap w z).
    + rewrite ar_mask_pos by lia. cbn [bind]. rewrite lor_signs by (auto; lia).
      destruct (N.eqb_spec (wrap w z + (2 ^ 64 - 2 ^ w)) (wrap 64 z)) as [Q|Q]; cbn [debug_assert bind].
      * apply X in Q. split; auto. intros _ F. tauto.
      * split; auto. intros [F|F]; [discriminate|]. apply X in F. congruence.
    + destruct (N.eqb_spec (wrap w z) (wrap 64 z)) as [Q|Q]; cbn [debug_assert bind].
      * apply X in Q. split; auto. intros _ F. tauto.
      * split; auto. intros [F|F]; [discriminate|]. apply X in F. congruence.
  - destruct (Hbig L64) as (-> & F). rewrite N.eqb_refl. cbn [debug_assert bind].
    destruct (2 ^ (w - 1) <=? wrap w z); split; auto; intros; tauto.
Qed.

(** ** to_i64 *)

Lemma forallb_zero l : forallb (fun w => w =? 0) l = (wv l =? 0).
Proof.
  induction l as [|x l IH]; auto. cbn [forallb]. rewrite wv_cons, IH.
  pose proof (pow_pos 64). lia.
Qed.
Lemma forallb_max l : Words l ->
  forallb (fun w => w =? WMAX) l = (wv l =? 2 ^ (64 * len l) - 1).
Proof.
  induction 1 as [|x l Hx Hl IH]; auto. cbn [forallb]. rewrite wv_cons, IH, len_cons.
  pose proof (wv_bound l Hl) as B. rewrite WMAX_eq.
  replace (64 * (len l + 1)) with (64 + 64 * len l) by lia. rewrite N.pow_add_r.
  revert B. generalize (2 ^ (64 * len l)) (wv l). intros K v B. clear - B Hx.
  change (2 ^ 64) with 18446744073709551616 in *. nia.
Qed.

(** what [to_i64] returns for every width *)
Lemma to_i64_raw m v w x : is_bv v w x -> 0 < w ->
  bv_to_i64 m v
  = Ok (if w <=? 64 then Some (signed w x)
        else if x <? 2 ^ 63 then Some (Z.of_N x)
        else if (w mod 64 =? 0) && (2 ^ w - 2 ^ 63 <=? x)
             then Some (Z.of_N x - 2 ^ Z.of_N w)%Z
        else None).
Proof.
  intros Hv Hw. pose proof (is_bv_inv _ _ _ Hv) as (Wv & Hw' & Lv & Fv & Vv & Bv).
  destruct (words_cases v w x Hv Hw) as (x0 & t & E & H0 & Ht & Ex & Lt).
  unfold bv_to_i64. rewrite Wv.
  destruct (N.leb_spec w 64) as [L|L].
  - replace (w =? 0) with false by lia.
    assert (T0 : t = []) by (apply len_0; dlia). subst t. nils.
    rewrite N.mul_0_r, N.add_0_r in Ex. subst x0.
    destruct (N.eqb_spec w 64) as [->|N64].
    + rewrite E. unfold idx. change (N.to_nat 0) with O. cbn [nth_error bind].
      rewrite u64_as_i64_signed. auto.
    + rewrite Lv. replace ((w + 63) / 64) with 1 by dlia. change (1 =? 1) with true.
      rewrite debug_assert_true. cbn [bind].
      pose proof (is_neg_ok m v w x Hw Hv) as Nv. rewrite Nv. cbn [bind].
      rewrite E. unfold idx. change (N.to_nat 0) with O. cbn [nth_error bind].
      pose proof (signed_wrap w 64 x Hw) as S. rewrite <- sign_ext_spec in S by (auto; lia).
      rewrite !u64_as_i64_signed.
      destruct (2 ^ (w - 1) <=? x).
      * rewrite ar_mask_pos by lia. cbn [bind]. rewrite lor_signs by (auto; lia).
        rewrite u64_as_i64_signed, S; auto; lia.
      * rewrite S; auto; lia.
  - rewrite E. cbn [skipn]. unfold idx. change (N.to_nat 0) with O. cbn [nth_error bind].
    rewrite is_neg_words.
    2:{ reflexivity. } 2:{ constructor; auto. } 2:{ reflexivity. }
    cbn [bind]. f_equal. rewrite wv_cons. nils. rewrite N.mul_0_r, N.add_0_r.
    rewrite testbit_top by (auto; reflexivity). change (64 - 1) with 63.
    rewrite forallb_zero, forallb_max by auto. rewrite u64_as_i64_signed.
    pose proof (wv_bound t Ht) as Bt.
    assert (Lt1 : 1 <= len t) by (rewrite Lt; dlia).
    assert (P64 : 2 ^ 64 <= 2 ^ (64 * len t)) by (apply pow_le; lia).
    assert (P64' : 2 ^ 64 = 2 * 2 ^ 63) by reflexivity.
    pose proof (pow_pos 63) as P63.
    assert (Sg : signed 64 x0 = if 2 ^ 63 <=? x0 then (Z.of_N x0 - Z.of_N (2 ^ 64))%Z else Z.of_N x0).
    { unfold signed. rewrite (N.ltb_antisym _ x0). change (2 ^ (64 - 1)) with (2 ^ 63).
      destruct (2 ^ 63 <=? x0); auto. }
    destruct (N.eqb_spec (wv t) 0) as [Z0|Z0].
    + replace (wv t =? 2 ^ (64 * len t) - 1) with false by lia.
      rewrite Z0, N.mul_0_r, N.add_0_r in Ex. subst x0.
      destruct (N.leb_spec (2 ^ 63) x) as [C|C].
      * replace (x <? 2 ^ 63) with false by lia.
        assert (Pw : 2 ^ 65 <= 2 ^ w) by (apply pow_le; lia).
        assert (P65 : 2 ^ 65 = 4 * 2 ^ 63) by reflexivity.
        replace (2 ^ w - 2 ^ 63 <=? x) with false by lia.
        rewrite andb_false_r. auto.
      * replace (x <? 2 ^ 63) with true by lia. rewrite Sg. auto.
    + assert (Xbig : 2 ^ 64 <= x) by nia.
      replace (x <? 2 ^ 63) with false by lia.
      destruct (N.eqb_spec (wv t) (2 ^ (64 * len t) - 1)) as [Zm|Zm].
      * assert (Ex' : x = x0 + 2 ^ (64 + 64 * len t) - 2 ^ 64).
        { rewrite N.pow_add_r. rewrite Zm in Ex. nia. }
        assert (Hwm : w mod 64 = 0).
        { assert (Hc : w <= 64 + 64 * len t) by (rewrite Lt; dlia).
          destruct (N.eq_dec w (64 + 64 * len t)) as [->|Hne]; [dlia|]. exfalso.
          assert (Pw : 2 * 2 ^ w <= 2 ^ (64 + 64 * len t)).
          { rewrite <- pow_S. apply pow_le. lia. }
          assert (Pw' : 2 ^ 65 <= 2 ^ w) by (apply pow_le; lia).
          assert (P65 : 2 ^ 65 = 4 * 2 ^ 63) by reflexivity. lia. }
        assert (Ew : w = 64 + 64 * len t) by (rewrite Lt; dlia).
        rewrite Hwm, N.eqb_refl. cbn [andb]. rewrite <- Ew in Ex'.
        assert (Pw' : 2 ^ 65 <= 2 ^ w) by (apply pow_le; lia).
        assert (P65 : 2 ^ 65 = 4 * 2 ^ 63) by reflexivity.
        rewrite Sg, Zpow. destruct (N.leb_spec (2 ^ 63) x0) as [C|C].
        -- replace (2 ^ w - 2 ^ 63 <=? x) with true by lia. f_equal. lia.
        -- replace (2 ^ w - 2 ^ 63 <=? x) with false by lia. auto.
      * destruct (N.eqb_spec (w mod 64) 0) as [C|C]; cbn [andb]; auto.
        assert (Ew : w = 64 + 64 * len t) by (rewrite Lt; dlia).
        replace (2 ^ w - 2 ^ 63 <=? x) with false; auto.
        symmetry. apply N.leb_gt. rewrite Ew, N.pow_add_r, Ex.
        assert (wv t + 2 <= 2 ^ (64 * len t)) by lia. nia.
Qed.

Lemma signed_neg w x : 0 < w -> x < 2 ^ w ->
  signed w x = if 2 ^ (w - 1) <=? x then (Z.of_N x - Z.of_N (2 ^ w))%Z else Z.of_N x.
Proof.
  intros. unfold signed. rewrite (N.ltb_antisym _ x), Zpow. destruct (2 ^ (w - 1) <=? x); auto.
Qed.

(** the claim holds exactly when the width is at most 64 or a multiple of 64, or
    the value is not a representable negative number *)
Lemma to_i64_exact m v w x : is_bv v w x -> 0 < w ->
  (bv_to_i64 m v = Ok (i64_result (signed w x))
   <-> (w <= 64 \/ w mod 64 = 0 \/ (0 <= signed w x)%Z \/ (signed w x < - 2 ^ 63)%Z)).
Proof.
  intros Hv Hw. rewrite (to_i64_raw m v w x Hv Hw). pose proof (is_bv_lt _ _ _ Hv) as Bv.
  unfold i64_result. destruct (N.leb_spec w 64) as [L|L].
  - split; auto. intros _. pose proof (signed_range w x Hw Bv) as R.
    assert (2 ^ (Z.of_N w - 1) <= 2 ^ 63)%Z by (apply Z.pow_le_mono_r; lia).
    replace ((- 2 ^ 63 <=? signed w x) && (signed w x <? 2 ^ 63))%Z with true by lia. auto.
  - assert (Pw' : 2 ^ 64 <= 2 ^ (w - 1)) by (apply pow_le; lia).
    assert (Pw : 2 ^ w = 2 * 2 ^ (w - 1)).
    { rewrite <- pow_S. f_equal. lia. }
    assert (P64 : 2 ^ 64 = 2 * 2 ^ 63) by reflexivity. pose proof (pow_pos 63) as P63.
    change (2 ^ 63)%Z with (Z.of_N (2 ^ 63)). rewrite Zpow.
    rewrite (signed_neg w x Hw Bv).
    destruct (N.leb_spec (2 ^ (w - 1)) x) as [C|C].
    + replace (x <? 2 ^ 63) with false by lia.
      replace (Z.of_N x - Z.of_N (2 ^ w) <? Z.of_N (2 ^ 63))%Z with true by lia.
      rewrite andb_true_r.
      destruct (N.leb_spec (2 ^ w - 2 ^ 63) x) as [D|D].
      * replace (- Z.of_N (2 ^ 63) <=? Z.of_N x - Z.of_N (2 ^ w))%Z with true by lia.
        rewrite andb_true_r. destruct (N.eqb_spec (w mod 64) 0) as [F|F].
        -- split; auto.
        -- split; [discriminate|]. clear - F L C D P64 P63 Pw Pw' Bv.
           intros [H|[H|[H|H]]]; [lia|tauto|lia|lia].
      * replace (- Z.of_N (2 ^ 63) <=? Z.of_N x - Z.of_N (2 ^ w))%Z with false by lia.
        rewrite andb_false_r. split; auto. intros _. right. right. right. lia.
    + destruct (N.ltb_spec x (2 ^ 63)) as [D|D].
      * replace ((- Z.of_N (2 ^ 63) <=? Z.of_N x) && (Z.of_N x <? Z.of_N (2 ^ 63)))%Z with true by lia.
        split; auto. intros _. right. right. left. lia.
      * replace (2 ^ w - 2 ^ 63 <=? x) with false by lia. rewrite andb_false_r.
        replace ((- Z.of_N (2 ^ 63) <=? Z.of_N x) && (Z.of_N x <? Z.of_N (2 ^ 63)))%Z with false by lia.
        split; auto. intros _. right. right. left. lia.
Qed.

(** ** ones, zero, Booleans *)

Lemma assign_ones_ok m s w x : is_bv s w x -> 0 < w ->
  yields (bv_assign_ones m s) w (2 ^ w - 1).
Proof.
  intros Hs Hw. apply is_bv_inv in Hs as (Ws & Hw' & Ls & Fs & Vs & Bs).
  unfold bv_assign_ones. rewrite Ws. eapply yields_eq.
  - apply mask_msb_bv; auto. rewrite len_map. auto.
  - rewrite wv_mapmax, max_mod; auto. rewrite Ls. dlia.
Qed.

Lemma is_zero_ok v w x : is_bv v w x -> bv_is_zero v = (x =? 0).
Proof.
  intros Hv. apply is_bv_inv in Hv as (_ & _ & _ & _ & <- & _).
  unfold bv_is_zero. apply forallb_zero.
Qed.

Lemma to_bool_ok v w x : is_bv v w x ->
  bv_to_bool v = Ok (if w =? 1 then Some (x =? 1) else None).
Proof.
  intros Hv. unfold bv_to_bool. pose proof (is_bv_inv _ _ _ Hv) as (-> & _ & _ & _ & _ & B).
  destruct (N.eqb_spec w 1) as [->|]; auto.
  destruct (words_cases v 1 x Hv) as (x0 & t & E & H0 & Ht & Ex & Lt); [reflexivity|].
  apply len_0 in Lt. subst t. nils. rewrite N.mul_0_r, N.add_0_r in Ex. subst x0.
  rewrite E. unfold idx. change (N.to_nat 0) with O. cbn [nth_error bind].
  assert (Hx : x = 0 \/ x = 1) by (change (2 ^ 1) with 2 in B; lia).
  destruct Hx; subst x; reflexivity.
Qed.
Lemma is_tru_ok v w x : is_bv v w x -> bv_is_tru v = Ok ((w =? 1) && (x =? 1)).
Proof.
  intros Hv. unfold bv_is_tru. pose proof (is_bv_inv _ _ _ Hv) as (-> & _ & _ & _ & _ & B).
  destruct (N.eqb_spec w 1) as [->|]; auto.
  destruct (words_cases v 1 x Hv) as (x0 & t & E & H0 & Ht & Ex & Lt); [reflexivity|].
  apply len_0 in Lt. subst t. nils. rewrite N.mul_0_r, N.add_0_r in Ex. subst x0.
  rewrite E. reflexivity.
Qed.
Lemma is_fals_ok v w x : is_bv v w x -> bv_is_fals v = Ok ((w =? 1) && (x =? 0)).
Proof.
  intros Hv. unfold bv_is_fals. pose proof (is_bv_inv _ _ _ Hv) as (-> & _ & _ & _ & _ & B).
  destruct (N.eqb_spec w 1) as [->|]; auto.
  destruct (words_cases v 1 x Hv) as (x0 & t & E & H0 & Ht & Ex & Lt); [reflexivity|].
  apply len_0 in Lt. subst t. nils. rewrite N.mul_0_r, N.add_0_r in Ex. subst x0.
  rewrite E. reflexivity.
Qed.

Lemma from_u64_ok m v w : 0 < w -> w < 2 ^ 32 -> v < 2 ^ 64 ->
  m = Release \/ v < 2 ^ w -> yields (bv_from_u64 m v w) w (v mod 2 ^ w).
Proof. intros Hw Hw' Hv H. eapply assign_from_u64_ok; eauto using zero_is_bv. Qed.

Lemma from_u64_panics v w : 0 < w -> w < 2 ^ 32 -> v < 2 ^ 64 -> 2 ^ w <= v ->
  panics (bv_from_u64 Debug v w).
Proof. intros Hw Hw' Hv H. eapply assign_from_u64_panics; eauto using zero_is_bv. Qed.

Lemma from_u64_cases v w : 0 < w -> w < 2 ^ 32 -> v < 2 ^ 64 ->
  yields (bv_from_u64 Release v w) w (v mod 2 ^ w)
  /\ (v < 2 ^ w -> yields (bv_from_u64 Debug v w) w v)
  /\ (2 ^ w <= v -> panics (bv_from_u64 Debug v w)).
Proof.
  intros Hw Hw' Hv. split; [|split].
  - apply from_u64_ok; auto.
  - intros H. eapply yields_eq; [apply from_u64_ok; auto|]. apply N.mod_small. auto.
  - apply from_u64_panics; auto.
Qed.

Lemma from_i64_cases z w : 0 < w -> w < 2 ^ 32 -> fits 64 z ->
  yields (bv_from_i64 Release z w) w (wrap w z)
  /\ (fits w z -> yields (bv_from_i64 Debug z w) w (wrap w z))
  /\ (~ fits w z -> panics (bv_from_i64 Debug z w)).
Proof.
  intros Hw Hw' Hz. unfold bv_from_i64.
  destruct (assign_from_i64_raw Release _ w 0 z (zero_is_bv w Hw') Hw Hz) as (r & Hr & H1 & _).
  destruct (assign_from_i64_raw Debug _ w 0 z (zero_is_bv w Hw') Hw Hz) as (r' & Hr' & H2 & H3).
  split; [|split].
  - exists r. split; auto.
  - intros H. exists r'. split; auto.
  - intros H. exists PDebugAssert. auto.
Qed.

Lemma u64_round_trip m v w : 0 < w -> w < 2 ^ 32 -> v < 2 ^ 64 -> v < 2 ^ w ->
  exists b, bv_from_u64 m v w = Ok b /\ is_bv b w v /\ bv_to_u64 b = Some v.
Proof.
  intros Hw Hw' Hv H. destruct (from_u64_ok m v w Hw Hw' Hv (or_intror H)) as (b & E & Hb).
  rewrite N.mod_small in Hb by auto. exists b. split; auto. split; auto.
  rewrite (to_u64_ok b w v Hb). apply N.ltb_lt in Hv. rewrite Hv. auto.
Qed.

Lemma i64_round_trip m z w : 0 < w -> w < 2 ^ 32 -> fits 64 z -> fits w z ->
  w <= 64 \/ w mod 64 = 0 \/ (0 <= z)%Z ->
  exists b, bv_from_i64 m z w = Ok b /\ is_bv b w (wrap w z) /\ bv_to_i64 m b = Ok (Some z).
Proof.
  intros Hw Hw' Hv Hf H. unfold bv_from_i64.
  destruct (assign_from_i64_raw m _ w 0 z (zero_is_bv w Hw') Hw Hv) as (r & Hr & H1 & _).
  exists r. split; auto. split; auto.
  assert (S : signed w (wrap w z) = z) by (apply signed_of_wrap; auto).
  assert (R : i64_result z = Some z).
  { unfold i64_result. unfold fits in Hv. change (Z.of_N 64 - 1)%Z with 63%Z in Hv.
    replace ((- 2 ^ 63 <=? z) && (z <? 2 ^ 63))%Z with true by lia. auto. }
  rewrite <- R. rewrite <- S at 1.
  apply (to_i64_exact m r w (wrap w z) Hr Hw). rewrite S. tauto.
Qed.

Lemma i64_round_trip_fails m z w : w < 2 ^ 32 -> fits 64 z -> 64 < w -> w mod 64 <> 0 ->
  (z < 0)%Z -> exists b, bv_from_i64 m z w = Ok b /\ bv_to_i64 m b = Ok None.
Proof.
  intros Hw Hz H64 Hm Hneg. assert (H0 : 0 < w) by lia.
  assert (Hf : fits w z) by (apply (fits_mono 64); auto; lia).
  unfold bv_from_i64.
  destruct (assign_from_i64_raw m _ w 0 z (zero_is_bv w Hw) H0 Hz) as (r & Hr & H1 & _).
  exists r. split; auto. rewrite (to_i64_raw m r w _ Hr H0).
  replace (w <=? 64) with false by lia. replace (w mod 64 =? 0) with false by lia.
  cbn [andb]. replace (wrap w z <? 2 ^ 63) with false; auto.
  symmetry. apply N.ltb_ge. pose proof (signed_of_wrap w z H0 Hf) as S.
  unfold signed in S. destruct (N.ltb_spec (wrap w z) (2 ^ (w - 1))); [lia|].
  assert (2 ^ 64 <= 2 ^ (w - 1)) by (apply pow_le; lia).
  assert (2 ^ 63 <= 2 ^ 64) by (apply pow_le; lia). lia.
Qed.

Lemma to_i64_refuted : exists m v w x, 0 < w /\ is_bv v w x
  /\ bv_to_i64 m v <> Ok (i64_result (signed w x)).
Proof.
  exists Release, (bv_of 65 (2 ^ 65 - 1)), 65, (2 ^ 65 - 1). split; [reflexivity|].
  split; [apply bv_of_is_bv; reflexivity|]. vm_compute. discriminate.
Qed.

Lemma to_i64_good m v w x : is_bv v w x -> 0 < w ->
  w <= 64 \/ w mod 64 = 0 \/ (0 <= signed w x)%Z ->
  bv_to_i64 m v = Ok (i64_result (signed w x)).
Proof. intros Hv Hw H. apply (to_i64_exact m v w x Hv Hw). tauto. Qed.

Lemma bool_cases : forall m c,
  exists v, bv_from_bool m c = Ok v /\ is_bv v 1 (if c then 1 else 0)
    /\ bv_to_bool v = Ok (Some c) /\ bv_is_tru v = Ok c /\ bv_is_fals v = Ok (negb c).
Proof.
  intros m c. exists (bv_of 1 (if c then 1 else 0)).
  split; [destruct m, c; reflexivity|].
  split; [apply bv_of_is_bv; destruct c; reflexivity|].
  destruct c; repeat split.
Qed.

Lemma ones_ok m w : 0 < w -> w < 2 ^ 32 -> yields (bv_ones m w) w (2 ^ w - 1).
Proof. intros. eapply assign_ones_ok; eauto using zero_is_bv. Qed.

Lemma greater_equal_good m a b w x y : is_bv a w x -> is_bv b w y -> 0 < w -> w <= 64 ->
  bv_is_greater_or_equal m a b = Ok (y <=? x) /\ bv_is_less_or_equal m a b = Ok (x <=? y).
Proof.
  intros Ha Hb H0 H1. unfold bv_is_less_or_equal.
  rewrite (is_greater_or_equal_raw m a b w x y Ha Hb), (is_greater_or_equal_raw m b a w y x Hb Ha).
  replace ((1 <=? w) && (w <=? 64)) with true by lia. auto.
Qed.
Lemma greater_equal_wide m a b w x y : is_bv a w x -> is_bv b w y -> 64 < w ->
  bv_is_greater_or_equal m a b = Ok (y <? x) /\ bv_is_less_or_equal m a b = Ok (x <? y).
Proof.
  intros Ha Hb H1. unfold bv_is_less_or_equal.
  rewrite (is_greater_or_equal_raw m a b w x y Ha Hb), (is_greater_or_equal_raw m b a w y x Hb Ha).
  replace ((1 <=? w) && (w <=? 64)) with false by lia. auto.
Qed.
Lemma greater_equal_refuted : exists m a w x, 0 < w /\ is_bv a w x
  /\ bv_is_greater_or_equal m a a = Ok false /\ bv_is_less_or_equal m a a = Ok false.
Proof.
  exists Debug, (bv_of 65 7), 65, 7. split; [reflexivity|].
  split; [apply bv_of_is_bv; reflexivity|]. split; reflexivity.
Qed.

Lemma bv_cmp_wf m a b : wf a -> wf b ->
  (bv_cmp a b = Eq <-> width a = width b /\ uval a = uval b)
  /\ (bv_eq m a b = Ok true <-> bv_cmp a b = Eq).
Proof.
  intros Ha Hb. rewrite bv_cmp_eq.
  assert (H : a = b <-> width a = width b /\ uval a = uval b).
  { split; [intros ->; auto|]. intros [H1 H2].
    apply (is_bv_unique a b (width a) (uval a)).
    - apply wf_is_bv. auto.
    - rewrite H1, H2. apply wf_is_bv. auto. }
  split; auto. rewrite bv_eq_ok by auto. rewrite H. split.
  - intros [= E]. lia.
  - intros [-> ->]. rewrite !N.eqb_refl. auto.
Qed.

Lemma hash_agrees m a b : wf a -> wf b ->
  bv_eq m a b = Ok true -> bv_hash a = bv_hash b /\ bv_hash a = bvref_hash b
                           /\ bvref_hash a = bvref_hash b.
Proof.
  intros Ha Hb H. apply (bv_cmp_wf m a b Ha Hb) in H. apply bv_cmp_eq in H. subst. auto.
Qed.

Lemma eq_cases m a b : wf a -> wf b ->
  (bv_eq m a b = Ok true <-> width a = width b /\ uval a = uval b)
  /\ (bvref_eq m a b = Ok true <-> width a = width b /\ uval a = uval b)
  /\ (exists c, bv_eq m a b = Ok c) /\ (exists c, bvref_eq m a b = Ok c).
Proof.
  intros Ha Hb. rewrite bv_eq_ok, bvref_eq_ok by auto.
  assert (H : @Ok bool ((width a =? width b) && (uval a =? uval b)) = Ok true
              <-> width a = width b /\ uval a = uval b).
  { split; [intros [= E]; lia|intros [-> ->]; rewrite !N.eqb_refl; auto]. }
  split; [exact H|]. split; [exact H|]. eauto.
Qed.

Lemma equal_cases m a b w x y : is_bv a w x -> is_bv b w y ->
  bv_is_equal m a b = Ok (x =? y) /\ bv_is_not_equal m a b = Ok (negb (x =? y)).
Proof. eauto using is_equal_ok, is_not_equal_ok. Qed.

Lemma strict_cases m a b w x y : is_bv a w x -> is_bv b w y ->
  bv_is_greater m a b = Ok (y <? x) /\ bv_is_less m a b = Ok (x <? y).
Proof.
  intros Ha Hb. split; [eapply is_greater_ok; eauto|].
  unfold bv_is_less. eapply is_greater_ok; eauto.
Qed.

Lemma signed_cases m a b w x y : 0 < w -> is_bv a w x -> is_bv b w y ->
  bv_is_greater_signed m a b = Ok (signed w y <? signed w x)%Z
  /\ bv_is_greater_or_equal_signed m a b = Ok (signed w y <=? signed w x)%Z
  /\ bv_is_less_signed m a b = Ok (signed w x <? signed w y)%Z
  /\ bv_is_less_or_equal_signed m a b = Ok (signed w x <=? signed w y)%Z.
Proof.
  intros Hw Ha Hb. unfold bv_is_less_signed, bv_is_less_or_equal_signed.
  repeat split; (apply is_greater_signed_ok || apply is_greater_or_equal_signed_ok); auto.
Qed.

Lemma tests_ok v w x : is_bv v w x ->
  bv_is_zero v = (x =? 0)
  /\ bv_to_bool v = Ok (if w =? 1 then Some (x =? 1) else None)
  /\ bv_is_tru v = Ok ((w =? 1) && (x =? 1))
  /\ bv_is_fals v = Ok ((w =? 1) && (x =? 0)).
Proof. intros H. repeat split; eauto using is_zero_ok, to_bool_ok, is_tru_ok, is_fals_ok. Qed.
