(** * PReleaseInterp: the reference interpreter for release builds agrees with the code (C86). *)

From Coq Require Import String QArith Qreduction ZifyBool ZifyNat ZifyN.
From Verif Require Import Base Arith Strings Bytes BigInt Bv Serde Unwind Spec TextSpec IoSpec RegSpec UnwindSpec ProfileSpec
  CallSpec PanicSpec ReleaseSpec ParseSpec MixedSpec DirtySpec InterpSpec AnswerSpec BvInterpSpec ReleaseInterpSpec Fmt.
From Verif Require Import PWords PArith PShift PConv PIo PRegister PReject PProfile PCall PPanic PReading PMixed PRelease PDirty PInterp PAnswer
  PSerde PUnwind PBvInterp PMixedAny.
Local Open Scope N_scope.
Ltac Zify.zify_post_hook ::= idtac.

(** ** Concatenation *)

Lemma concat_words m z xs ys wb : Words xs -> Words ys -> len ys = (wb + 63) / 64 ->
  len ys <= len z -> len z <= len ys + len xs ->
  exists l, ar_concat m z xs ys wb = Ok l /\ len l = len z /\ Words l
    /\ wv l = N.lor (wv xs * 2 ^ wb) (wv ys) mod 2 ^ (64 * len z).
Proof.
  intros Fa Fb Lb L1 L2. pose proof (wv_bound ys Fb) as Bb. pose proof (wv_bound xs Fa) as Ba.
  unfold ar_concat. rewrite (assign_short z ys) by auto.
  destruct (N.eqb_spec (wb mod 64) 0) as [E|E].
  - rewrite firstn_app_exact, skipn_app_exact by auto.
    rewrite assign_long by (rewrite len_skipn; fold (len ys); lia).
    eexists. split; [reflexivity|].
    rewrite len_app, skipn_length. rewrite len_firstn by (unfold len in *; lia).
    split; [unfold len in *; lia|].
    split; auto. rewrite wv_app, wv_firstn by auto.
    replace (64 * N.of_nat (length z - length ys)) with (64 * len z - wb) by (unfold len in *; dlia).
    replace (64 * len ys) with wb in * by dlia.
    rewrite (N.mul_comm (wv xs)), lor_add' by auto.
    replace (64 * len z) with (wb + (64 * len z - wb)) at 2 by (clear - L1 Lb E; dlia).
    now rewrite add_mul_mod.
  - rewrite ar_mask_pos by dlia. cbn [bind].
    rewrite usz_sub_ok by dlia. cbn [bind].
    destruct (rev_cons_inv ys) as (t & p & Eb).
    { intros Eb. rewrite Eb in Lb. nils. dlia. }
    rewrite Eb in *. rewrite len_app, len_cons in *. nils. rewrite N.add_0_l in *.
    replace (len t + 1 - 1) with (len t) in * by dlia.
    rewrite <- app_assoc. rewrite idx_ok by (rewrite !len_app, !len_cons; dlia).
    replace (N.to_nat (len t)) with (length t) by (unfold len; dlia).
    rewrite app_nth2, Nat.sub_diag by dlia. cbn [nth app].
    cbn [bind].
    rewrite firstn_app_exact, skipn_app_exact by auto.
    rewrite app_length. cbn [length].
    apply Forall_app in Fb as [Ft Fp]. inversion Fp as [|? ? Hp _]; subst x l.
    rewrite wv_app, wv_cons in *. nils. rewrite N.mul_0_r, N.add_0_r in *.
    assert (Ewb : wb = 64 * len t + wb mod 64) by dlia.
    rewrite concat_loop_slice.
    destruct (slice_loop_ok (wb mod 64) (64 - wb mod 64) 0
                (p :: skipn (length t + 1) z) (xs ++ [0])) as (W & L & V);
      auto; try dlia.
    { rewrite len_app, !len_cons, len_skipn. nils. unfold len in *. dlia. }
    rewrite len_cons, len_skipn in L, V.
    destruct (xs ++ [0]) as [|s ss] eqn:Es. { destruct xs; discriminate. }
    cbn [ar_slice_loop] in W, L, V |- *. rewrite N.lor_0_l in W, L, V.
    set (h := wshl _ _) in *. set (tl := ar_slice_loop _ _ _ _ _ _) in *.
    inversion W as [|? ? Wh Wt]; subst x l.
    assert (Hlor : N.lor p h < 2 ^ 64).
    { rewrite <- (N.mod_small p (2 ^ 64)), lor_mod_low by auto. apply mod_lt. }
    eexists. split; [reflexivity|]. rewrite len_app, len_cons. rewrite len_cons in L.
    assert (Lt : len t = N.of_nat (length t)) by reflexivity.
    split; [dlia|]. split. { apply Words_app; auto. }
    rewrite wv_app, wv_cons.
    rewrite N.add_0_l in V. rewrite wv_cons in V.
    rewrite (N.lor_comm p), <- lor_mul_low, V by auto.
    rewrite <- Es, wv_snoc0.
    set (k := 64 * len t) in *. set (j := 64 * (len z - N.of_nat (length t + 1) + 1)) in *.
    assert (Ej : 64 * len z = k + j) by (unfold k, j; dlia).
    rewrite Ej.
    rewrite <- lor_mod_low.
    2:{ eapply N.lt_le_trans; [exact Bb|]. apply pow_le. dlia. }
    replace (wv xs * 2 ^ wb) with (2 ^ k * (2 ^ (wb mod 64) * wv xs))
      by (rewrite N.mul_assoc, <- N.pow_add_r, <- Ewb; ring).
    rewrite N.pow_add_r, N.mul_mod_distr_l by auto.
    rewrite <- (lor_add (wv t) p k) by (apply wv_bound; auto).
    rewrite <- lor_add by (apply wv_bound; auto).
    apply N.bits_inj. intros i. rewrite !N.lor_spec.
    rewrite !(N.mul_comm (2 ^ k)), <- !N.shiftl_mul_pow2.
    destruct (N.ltb_spec i k) as [H|H].
    + rewrite !N.shiftl_spec_low by auto. rewrite !orb_false_r. auto.
    + rewrite !N.shiftl_spec_high' by auto. rewrite N.lor_spec.
      destruct (N.testbit (wv t) i), (N.testbit p (i - k)); cbn [orb];
        rewrite ?orb_true_r, ?orb_false_r; auto.
Qed.

Lemma head_stores a w n : stores a w n -> 0 < w -> exists x t, words a = x :: t /\ x = first n /\ x < 2 ^ 64.
Proof.
  intros Ha Hw. apply stores_inv in Ha as (Wa & _ & La & Fa & Va & Ba).
  destruct (words a) as [|x t]. { nils. dlia. }
  inversion Fa as [|? ? Hx Ft]; subst. exists x, t. split; auto. split; auto. unfold first.
  rewrite wv_cons. rewrite N.mul_comm, N.mod_add, N.mod_small by auto. reflexivity.
Qed.

Lemma one_word x : wv [x] = x.
Proof. rewrite wv_cons. change (wv []) with 0. lia. Qed.
Lemma zeros_one w : 0 < w -> w <= 64 -> value_vec_zeros w = [0].
Proof.
  intros H H'. assert (L : len (value_vec_zeros w) = 1) by (rewrite zeros_len; dlia).
  pose proof (zeros_val w) as V. pose proof (zeros_words w) as W.
  destruct (len_0_1 _ L) as (x & E). rewrite E in *. rewrite one_word in V. now subst.
Qed.

Lemma concat_off m z xs ys wb wb' : wb mod 64 = wb' mod 64 -> ar_concat m z xs ys wb = ar_concat m z xs ys wb'.
Proof. intros E. unfold ar_concat. now rewrite E. Qed.

Lemma last_bits_mod w : 0 < w -> last_bits w mod 64 = w mod 64.
Proof. intros H. unfold last_bits. dlia. Qed.

(** the width of the result of [w + k] *)
Lemma wrapped w k : w < 2 ^ 32 -> k < 2 ^ 32 ->
  (w + k) mod 2 ^ 32 = w + k /\ w + k < 2 ^ 32
  \/ (w + k) mod 2 ^ 32 = w + k - 2 ^ 32 /\ 2 ^ 32 <= w + k.
Proof.
  intros H1 H2. destruct (N.ltb_spec (w + k) (2 ^ 32)) as [L|L].
  - left. split; auto. now apply N.mod_small.
  - right. split; auto. symmetry. apply (N.mod_unique _ _ 1); lia.
Qed.

Lemma rconcat_does a b w n w' k : stores a w n -> stores b w' k ->
  does (bv_concat Release a b) (rbinary BConcat w n w' k).
Proof.
  intros Ha Hb.
  pose proof (stores_inv _ _ _ Ha) as (Wa & Hw & La & Fa & Va & Ba).
  pose proof (stores_inv _ _ _ Hb) as (Wb & Hw' & Lb & Fb & Vb & Bb).
  unfold bv_concat. rewrite Wa, Wb, u32_add_release by auto. cbn [bind rbinary].
  pose proof (wrapped w w' Hw Hw') as Ho. set (out := (w + w') mod 2 ^ 32) in *. cbv zeta.
  assert (Ho' : out < 2 ^ 32) by (apply mod_lt). clearbody out.
  destruct (N.eqb_spec out 0) as [Z|Z].
  { subst out. cbn [does]. change (0 <=? 64) with true. eexists. reflexivity. }
  destruct (N.leb_spec out 64) as [L|L].
  - rewrite zeros_first by lia. cbn [bind]. rewrite !first_word.
    destruct (N.eqb_spec w 0) as [E|E]; cbn [orb].
    { rewrite E in La. change ((0 + 63) / 64) with 0 in La. rewrite (nil_of _ La). eexists. reflexivity. }
    destruct (head_stores a w n Ha) as (x & t & Ea & Ex & Bx); [lia|]. rewrite Ea. cbn [bind].
    destruct (N.eqb_spec w' 0) as [E'|E'].
    { rewrite E' in Lb. change ((0 + 63) / 64) with 0 in Lb. rewrite (nil_of _ Lb). eexists. reflexivity. }
    destruct (head_stores b w' k Hb) as (y & t' & Eb & Ey & By); [lia|]. rewrite Eb. cbn [bind].
    rewrite zeros_one by lia.
    rewrite (concat_off Release [0] [x] [y] w' (last_bits w')) by (symmetry; apply last_bits_mod; lia).
    destruct (concat_words Release [0] [x] [y] (last_bits w')) as (l & -> & Ll & Wl & Vl);
      try (repeat constructor; assumption); try (change (len [x]) with 1; change (len [y]) with 1; change (len [0]) with 1).
    { unfold last_bits. dlia. } { lia. } { lia. }
    cbn [bind]. exists (mkbv out l).
    rewrite splice_all by (apply len_length; rewrite Ll; reflexivity). split; [reflexivity|].
    apply stores_intro; auto; [rewrite Ll; change (len [0]) with 1; dlia|].
    rewrite Vl, !one_word, Ex, Ey. reflexivity.
  - destruct (N.eqb_spec (w' mod 64) 0) as [E|E]; cbn [negb andb].
    + destruct (N.ltb_spec (places out) (places w')) as [P|P].
      * unfold ar_concat. replace (w' mod 64 =? 0) with true by lia. cbn [bind].
        rewrite assign_long by (rewrite zeros_len, Lb; unfold places in P; lia).
        assert (Q : (length (value_vec_zeros out) <= length (words b))%nat).
        { pose proof (zeros_len out) as Lz. unfold places, len in *. lia. }
        rewrite (firstn_all2 (n := length (words b))) by (rewrite firstn_length; lia).
        rewrite skipn_all2 by (rewrite firstn_length; lia). cbn [ar_assign]. rewrite app_nil_r.
        eexists. split; [reflexivity|]. apply stores_intro; auto.
        { rewrite len_firstn by (unfold len; lia). fold (len (value_vec_zeros out)). apply zeros_len. }
        rewrite wv_firstn by auto. fold (len (value_vec_zeros out)). rewrite zeros_len, Vb. fold (places out).
        replace (n * 2 ^ w') with (n * 2 ^ (w' - 64 * places out) * 2 ^ (64 * places out)).
        2:{ rewrite <- N.mul_assoc, <- N.pow_add_r. do 2 f_equal. unfold places in *. dlia. }
        rewrite <- !N.land_ones, N.land_lor_distr_l, !N.land_ones, N.mod_mul by auto. now rewrite N.lor_0_l.
      * destruct (concat_words Release (value_vec_zeros out) (words a) (words b) w') as (l & -> & Ll & Wl & Vl); auto.
        { rewrite zeros_len, Lb. exact P. }
        { rewrite zeros_len, La, Lb. clear - Ho Hw Hw' E. dlia. }
        cbn [bind]. eexists. split; [reflexivity|]. rewrite zeros_len in Ll. apply stores_intro; auto.
        rewrite Vl, Va, Vb, zeros_len. reflexivity.
    + destruct (N.ltb_spec (places out) (places w')) as [P|P].
      * destruct (concat_words_settles (value_vec_zeros out) (words a) (words b) w') as [[_ K]|[K _]].
        { rewrite Lb. change (2 ^ 64 - 1) with 18446744073709551615. clear - Hw'. change (2 ^ 32) with 4294967296 in Hw'. dlia. }
        { rewrite zeros_len. change (2 ^ 64 - 1) with 18446744073709551615. clear - Ho'. change (2 ^ 32) with 4294967296 in Ho'. dlia. }
        { cbn [does]. apply panics_bind. exact K. }
        exfalso. apply K. split; auto. right. rewrite zeros_len, Lb. exact P.
      * destruct (concat_words Release (value_vec_zeros out) (words a) (words b) w') as (l & -> & Ll & Wl & Vl); auto.
        { rewrite zeros_len, Lb. exact P. }
        { rewrite zeros_len, La, Lb. clear - Ho Hw Hw' E. dlia. }
        cbn [bind]. eexists. split; [reflexivity|]. rewrite zeros_len in Ll. apply stores_intro; auto.
        rewrite Vl, Va, Vb, zeros_len. reflexivity.
Qed.

(** ** Extension *)

Lemma zext_words z xs : Words xs -> Words z -> len xs <= len z -> wv z = 0 ->
  exists l, ar_zero_extend z xs = Ok l /\ len l = len z /\ Words l /\ wv l = wv xs.
Proof.
  intros Wx Wz L Z. unfold ar_zero_extend.
  rewrite on_tail_ok by (rewrite assign_len; auto). rewrite assign_short by auto.
  rewrite firstn_app_exact, skipn_app_exact by (unfold len; lia).
  eexists. split; [reflexivity|]. unfold ar_clear.
  rewrite len_app, len_map, len_skipn. fold (len xs).
  split; [lia|]. split.
  - apply Words_app; auto.
  - rewrite wv_app, wv_map0. lia.
Qed.

Lemma rzext_does a w n k : stores a w n -> k < 2 ^ 32 ->
  does (bv_zero_extend Release a k) (runary (UZeroExtend k) w n).
Proof.
  intros Ha Hk. pose proof (stores_inv _ _ _ Ha) as (Wa & Hw & La & Fa & Va & Ba).
  unfold bv_zero_extend. rewrite Wa, u32_add_release by auto. cbn [bind runary].
  set (out := (w + k) mod 2 ^ 32) in *. cbv zeta.
  assert (Ho' : out < 2 ^ 32) by (apply mod_lt). clearbody out.
  destruct (N.eqb_spec out 0) as [Z|Z]; cbn [orb].
  { subst out. cbn [does]. change (0 <=? 64) with true. eexists. reflexivity. }
  destruct (N.leb_spec out 64) as [L|L].
  - rewrite zeros_first by lia. cbn [bind]. rewrite !first_word.
    destruct (N.eqb_spec w 0) as [E|E].
    { rewrite E in La. change ((0 + 63) / 64) with 0 in La. rewrite (nil_of _ La). eexists. reflexivity. }
    destruct (head_stores a w n Ha) as (x & t & Ea & Ex & Bx); [lia|]. rewrite Ea. cbn [bind].
    rewrite zeros_one by lia.
    destruct (zext_words [0] [x]) as (l & -> & Ll & Wl & Vl); try (repeat constructor; assumption);
      [change (len [x]) with 1; change (len [0]) with 1; lia|].
    cbn [bind]. rewrite splice_all by (apply len_length; rewrite Ll; reflexivity).
    eexists. split; [reflexivity|]. change (len [0]) with 1 in Ll.
    apply stores_intro; auto; [rewrite Ll; dlia|]. now rewrite Vl, one_word, Ex.
  - destruct (N.ltb_spec (places out) (places w)) as [P|P].
    + cbn [does]. apply panics_bind. unfold ar_zero_extend.
      destruct (on_tail_settles (ar_assign (value_vec_zeros out) (words a)) (len (words a)) ar_clear) as [[_ K]|[K _]]; auto.
      exfalso. apply K. rewrite assign_len, zeros_len, La. exact P.
    + destruct (zext_words (value_vec_zeros out) (words a)) as (l & -> & Ll & Wl & Vl);
        auto using zeros_words, zeros_val; [rewrite zeros_len, La; exact P|].
      cbn [bind]. eexists. split; [reflexivity|]. rewrite zeros_len in Ll.
      apply stores_intro; auto. now rewrite Vl.
Qed.

Lemma wrap_fill out p j v : 0 < p -> p <= j -> out <= j -> v < 2 ^ p -> N.testbit v (p - 1) = true ->
  (v + (2 ^ j - 2 ^ p)) mod 2 ^ out = wrap out (signed p v).
Proof.
  intros Hp Hj Ho Hv T. apply N2Z.inj. unfold wrap, signed.
  rewrite testbit_top in T by auto.
  replace (v <? 2 ^ (p - 1)) with false by lia.
  rewrite N2Z.inj_mod by auto.
  assert (P1 : (0 < Z.of_N (2 ^ out))%Z) by (pose proof (pow_pos out); lia).
  replace (2 ^ Z.of_N out)%Z with (Z.of_N (2 ^ out)) by (rewrite N2Z.inj_pow; reflexivity).
  rewrite Z2N.id by (apply Z.mod_pos_bound; auto).
  assert (P2 : 2 ^ p <= 2 ^ j) by (apply pow_le; auto).
  rewrite N2Z.inj_add, N2Z.inj_sub by auto.
  replace (2 ^ Z.of_N p)%Z with (Z.of_N (2 ^ p)) by (rewrite N2Z.inj_pow; reflexivity).
  replace (2 ^ j) with (2 ^ (j - out) * 2 ^ out) by (rewrite <- N.pow_add_r; f_equal; lia).
  rewrite N2Z.inj_mul.
  replace (Z.of_N v + (Z.of_N (2 ^ (j - out)) * Z.of_N (2 ^ out) - Z.of_N (2 ^ p)))%Z
    with (Z.of_N v - Z.of_N (2 ^ p) + Z.of_N (2 ^ (j - out)) * Z.of_N (2 ^ out))%Z by ring.
  apply Z_mod_plus_full.
Qed.

Lemma is_neg_off m l w w' : 0 < w -> 0 < w' -> (w - 1) mod 64 = (w' - 1) mod 64 -> ar_is_neg m l w = ar_is_neg m l w'.
Proof. intros H H' E. unfold ar_is_neg. rewrite !u32_sub_ok by lia. cbn [bind]. now rewrite E. Qed.

Lemma sext_words m z xs w ow : 0 < w -> Words xs -> 0 < len xs -> Words z -> wv z = 0 -> len xs <= len z ->
  len z = (ow + 63) / 64 -> 0 < ow ->
  wres (ar_sign_extend m z xs w ow) ow
    (let p := 64 * (len xs - 1) + last_bits w in
     if N.testbit (wv xs) (p - 1) then wrap ow (signed p (wv xs mod 2 ^ p)) else wv xs).
Proof.
  intros Hw Fx Lx Fz Vz L1 Lz How. cbv zeta. set (p := 64 * (len xs - 1) + last_bits w).
  assert (Bl : last_bits w <= 64 /\ 0 < last_bits w) by (unfold last_bits; dlia).
  assert (Hp : 0 < p) by (unfold p; lia).
  assert (Lp : len xs = (p + 63) / 64) by (unfold p; dlia).
  unfold ar_sign_extend. rewrite (is_neg_off m xs w p) by (auto; unfold p, last_bits; dlia).
  rewrite is_neg_words by auto. cbn [bind].
  destruct (zext_words z xs Fx Fz L1 Vz) as (lz & Ez & Lzz & Wzz & Vzz).
  destruct (N.testbit (wv xs) (p - 1)) eqn:T; [|exists lz; repeat split; auto; congruence].
  set (d := ar_assign z xs).
  assert (Ld : len d = (ow + 63) / 64) by (unfold d; rewrite assign_len; auto).
  assert (Ed : d = xs ++ skipn (length xs) z) by (unfold d; apply assign_short; auto).
  assert (Wd : Words d) by (rewrite Ed; apply Words_app; auto).
  assert (Vd : wv d = wv xs).
  { rewrite Ed, wv_app, wv_skipn, Vz, N.div_0_l by auto. lia. }
  destruct (fill_top_any d p) as (l' & Hf & Wl & Ll & Vl); auto.
  { rewrite Ld. clear - Lp L1 Lz. dlia. }
  assert (Efill : (let* dst :=
      (if 0 <? w mod 64 then
         let msbs_in_msb := 64 - w mod 64 in
         let* k := ar_mask msbs_in_msb in
         let* old := idx d (len xs - 1) in
         set_idx d (len xs - 1) (N.lor old (wshl k (w mod 64)))
       else Ok d) in on_tail dst (len xs) ar_set) = Ok l').
  { rewrite <- Hf. unfold fill_top.
    replace ((p - 1) / 64) with (len xs - 1) by (clear - Lp Hp; dlia).
    replace (len xs - 1 + 1) with (len xs) by lia.
    assert (Ep : (p - 1) mod 64 = (w - 1) mod 64) by (unfold p, last_bits; clear - Lx; dlia).
    rewrite Ep. clear - Hw. unfold ar_set. destruct (N.ltb_spec 0 (w mod 64)) as [E|E].
    - replace ((w - 1) mod 64 <? 63) with true by dlia.
      replace ((w - 1) mod 64 + 1) with (w mod 64) by dlia. auto.
    - replace ((w - 1) mod 64 <? 63) with false by dlia. auto. }
  cbn zeta in Efill |- *.
  eapply wres_eq.
  - rewrite (bind_bind_ok _ _ (fun dst => ar_mask_msb m dst ow) _ Efill).
    apply mask_wres; auto; lia.
  - rewrite Vl, Vd. apply wrap_fill; auto; try apply mod_lt; rewrite ?Ld.
    + clear - Lp L1 Lz. dlia.
    + clear. dlia.
    + rewrite N.mod_pow2_bits_low by lia. auto.
Qed.

Lemma rsext_does a w n k : stores a w n -> k < 2 ^ 32 ->
  does (bv_sign_extend Release a k) (runary (USignExtend k) w n).
Proof.
  intros Ha Hk. pose proof (stores_inv _ _ _ Ha) as (Wa & Hw & La & Fa & Va & Ba).
  unfold bv_sign_extend. rewrite Wa, u32_add_release by auto. cbn [bind runary].
  set (out := (w + k) mod 2 ^ 32) in *. cbv zeta.
  assert (Ho' : out < 2 ^ 32) by (apply mod_lt). clearbody out.
  destruct (N.eqb_spec out 0) as [Z|Z]; cbn [orb].
  { subst out. cbn [does]. change (0 <=? 64) with true. eexists. reflexivity. }
  destruct (N.leb_spec out 64) as [L|L].
  - rewrite zeros_first by lia. cbn [bind]. rewrite !first_word.
    destruct (N.eqb_spec w 0) as [E|E]; cbn [orb].
    { rewrite E in La. change ((0 + 63) / 64) with 0 in La. rewrite (nil_of _ La). eexists. reflexivity. }
    replace (64 <? out) with false by lia. cbn [andb].
    destruct (head_stores a w n Ha) as (x & t & Ea & Ex & Bx); [lia|]. rewrite Ea. cbn [bind].
    rewrite zeros_one by lia.
    assert (F : forall y, y < 2 ^ 64 -> Words [y]) by (intros; repeat constructor; auto).
    assert (S : wres (ar_sign_extend Release [0] [x] w out) out
      (let p := 64 * (len [x] - 1) + last_bits w in
       if N.testbit (wv [x]) (p - 1) then wrap out (signed p (wv [x] mod 2 ^ p)) else wv [x])).
    { apply sext_words; auto; try (change (len [x]) with 1; change (len [0]) with 1); try lia; try (apply F; reflexivity); dlia. }
    destruct S as (l & -> & Ll & Wl & Vl).
    cbn [bind]. rewrite splice_all by (apply len_length; rewrite Ll; change (len [0]) with 1; dlia).
    eexists. split; [reflexivity|].
    apply stores_intro; auto. rewrite Vl. cbv zeta. rewrite one_word, Ex.
    change (64 * (len [x] - 1)) with 0. rewrite N.add_0_l. reflexivity.
  - replace (64 <? out) with true by lia. cbn [andb].
    destruct (N.eqb_spec w 0) as [E|E]; cbn [orb].
    { rewrite E in La. change ((0 + 63) / 64) with 0 in La. rewrite (nil_of _ La). cbn [does].
      apply panics_bind. unfold ar_sign_extend. apply panics_bind. unfold ar_is_neg.
      destruct (u32_sub Release w 1); eexists; reflexivity. }
    destruct (N.ltb_spec (places out) (places w)) as [P|P].
    + cbn [does]. apply panics_bind.
      destruct (sign_extend_words_settles (value_vec_zeros out) (words a) w out) as [[_ K]|[K _]]; auto.
      { apply zeros_nonempty. lia. }
      exfalso. apply K. right. rewrite zeros_len, La. exact P.
    + destruct (sext_words Release (value_vec_zeros out) (words a) w out) as (l & -> & Ll & Wl & Vl);
        auto using zeros_words, zeros_val, zeros_len; try lia.
      { rewrite zeros_len, La. exact P. }
      cbn [bind]. eexists. split; [reflexivity|].
      apply stores_intro; auto. rewrite Vl. cbv zeta.
      replace (64 * (len (words a) - 1) + last_bits w) with w; [now rewrite Va|].
      rewrite La. unfold last_bits. clear - E. dlia.
Qed.

(** ** Slices *)

Lemma slice_reversed z src hi lo : Words src -> hi < lo -> lo <= 64 * (hi / 64 + 1) -> hi / 64 < len src ->
  Words z -> wv z = 0 -> 0 < len z -> forall out, len z = (out + 63) / 64 -> 64 <= out ->
  u32_sub Release hi lo = Ok (out - 1) -> u32_add Release (out - 1) 1 = Ok out ->
  exists l, ar_slice Release z src hi lo = Ok l /\ len l = len z /\ Words l
    /\ wv l = wv src mod 2 ^ (64 * (hi / 64 + 1)) / 2 ^ lo.
Proof.
  intros Ws Hlh Hlo Hls Wz Vz Lz out Ho Ho64 E1 E2. unfold ar_slice.
  rewrite range_ok by dlia. cbn [bind]. rewrite E1. cbn [bind]. rewrite E2. cbn [bind].
  set (n := hi / 64 + 1 - lo / 64).
  set (s := firstn (N.to_nat n) (skipn (N.to_nat (lo / 64)) src)).
  assert (Vs : wv s = (wv src / 2 ^ (64 * (lo / 64))) mod 2 ^ (64 * n)).
  { subst s. rewrite wv_firstn by auto. rewrite wv_skipn by auto. rewrite !N2Nat.id. auto. }
  assert (Ls : len s = n).
  { subst s. rewrite len_firstn; rewrite ?len_skipn; subst n; dlia. }
  assert (Wss : Words s) by (subst s; auto).
  assert (M : forall l, Words l -> len l = len z -> wv l < 2 ^ 64 ->
    exists l', ar_mask_msb Release l out = Ok l' /\ len l' = len z /\ Words l' /\ wv l' = wv l).
  { intros l W L B. destruct (mask_wres Release l out) as (l' & E & L' & W' & V'); auto; try congruence; [lia|].
    exists l'. rewrite <- Ho in L'. repeat split; auto. rewrite V'. apply N.mod_small.
    eapply N.lt_le_trans; [exact B|]. apply pow_le. auto. }
  destruct (N.eqb_spec (lo mod 64) 0) as [E|E].
  - cbn [bind]. assert (N0 : n = 0) by (subst n; dlia). rewrite N0 in Ls. rewrite (nil_of _ Ls).
    replace (ar_assign z []) with z by (destruct z; reflexivity).
    destruct (M z) as (l & -> & L & W & V); auto; [rewrite Vz; reflexivity|].
    exists l. repeat split; auto. rewrite V, Vz. symmetry. apply N.div_small.
    replace lo with (64 * (hi / 64 + 1)) by (subst n; dlia). apply mod_lt.
  - rewrite ar_mask_pos by dlia. cbn [bind]. assert (N1 : n = 1) by (subst n; dlia). rewrite N1 in Ls.
    destruct (len_0_1 _ Ls) as (s0 & Es). rewrite Es in *. rewrite one_word in Vs.
    inversion Wss as [|? ? Bs0 _]; subst x l.
    unfold idx. change (N.to_nat 0) with O. cbn [nth_error bind skipn app].
    destruct z as [|z0 zs]; [nils; lia|].
    cbn [ar_slice_loop]. rewrite N.land_0_l. 
    replace (wshl 0 (64 - lo mod 64)) with 0 by (rewrite wshl_mul by dlia; rewrite ?N.mul_0_l, ?N.mul_0_r; reflexivity). rewrite N.lor_0_r.
    replace (ar_slice_loop (64 - lo mod 64) (lo mod 64) (2 ^ (lo mod 64) - 1) (wshr 0 (lo mod 64)) zs []) with zs
      by (destruct zs; reflexivity).
    inversion Wz as [|? ? _ Wzs]; subst x l.
    assert (Vzs : wv zs = 0) by (rewrite wv_cons in Vz; clear - Vz; lia).
    rewrite wshr_div by dlia.
    assert (B : s0 / 2 ^ (lo mod 64) < 2 ^ 64) by (apply div_lt; auto).
    assert (Vl : wv (s0 / 2 ^ (lo mod 64) :: zs) = s0 / 2 ^ (lo mod 64)) by (rewrite wv_cons, Vzs; lia).
    destruct (M (s0 / 2 ^ (lo mod 64) :: zs)) as (l & -> & L & W & V).
    { constructor; auto. } { now rewrite !len_cons. } { now rewrite Vl. }
    exists l. repeat split; auto. rewrite V, Vl, Vs.
    replace (64 * (hi / 64 + 1)) with (64 * (lo / 64) + 64) by dlia.
    replace (2 ^ lo) with (2 ^ (64 * (lo / 64)) * 2 ^ (lo mod 64)) by (rewrite <- N.pow_add_r; f_equal; dlia).
    rewrite <- N.div_div by auto. f_equal. rewrite N1. change (64 * 1) with 64.
    set (q := 64 * (lo / 64)). symmetry. rewrite N.pow_add_r, N.mod_mul_r by auto.
    rewrite (N.mul_comm (2 ^ q)), N.div_add, N.div_small by (auto; apply mod_lt). apply N.add_0_l.
Qed.

Lemma rslice_does a w n msb lsb : stores a w n -> msb < 2 ^ 32 -> lsb < 2 ^ 32 ->
  does (bv_slice Release a msb lsb) (runary (USlice msb lsb) w n).
Proof.
  intros Ha Hm Hl. pose proof (stores_inv _ _ _ Ha) as (Wa & Hw & La & Fa & Va & Ba).
  unfold bv_slice. cbn [debug_assert bind runary].
  pose proof (u32_sub_release msb lsb Hm Hl) as E1. rewrite E1. cbn [bind].
  set (d := (msb + 2 ^ 32 - lsb) mod 2 ^ 32) in *.
  assert (Hd : d < 2 ^ 32) by apply mod_lt.
  pose proof (u32_add_release d 1 Hd eq_refl) as E2.
  assert (Eo : (msb + 1 + 2 ^ 32 - lsb) mod 2 ^ 32 = (d + 1) mod 2 ^ 32).
  { unfold d. rewrite N.add_mod_idemp_l by discriminate. f_equal. clear - Hl. lia. }
  rewrite E2, Eo. cbn [bind]. set (out := (d + 1) mod 2 ^ 32) in *. cbv zeta.
  assert (Ho : out < 2 ^ 32) by apply mod_lt.
  destruct (N.eqb_spec out 0) as [Z|Z].
  { rewrite orb_true_r. rewrite Z. cbn [does]. change (0 <=? 64) with true. eexists. reflexivity. }
  rewrite orb_false_r.
  destruct ((64 * places w <? 64 * (msb / 64 + 1)) || (64 * (msb / 64 + 1) <? lsb)) eqn:R.
  { assert (P : panics (ar_slice Release (value_vec_zeros out) (words a) msb lsb)).
    { destruct (slice_words_settles (value_vec_zeros out) (words a) msb lsb) as [[_ K]|[K _]]; auto.
      { apply zeros_nonempty. lia. }
      exfalso. apply K. rewrite La. unfold places in R. clear - R. dlia. }
    cbn [does]. apply panics_bind. destruct (N.leb_spec out 64) as [L|L]; auto.
    rewrite zeros_first by lia. cbn [bind]. apply panics_bind. auto. }
  assert (S : wres (ar_slice Release (value_vec_zeros out) (words a) msb lsb) out
    ((n mod 2 ^ (64 * (msb / 64 + 1)) / 2 ^ lsb) mod 2 ^ out)).
  { destruct (N.leb_spec lsb msb) as [L|L].
    - assert (Eout : out = msb - lsb + 1).
      { unfold out in *. replace d with (msb - lsb) in *.
        - destruct (N.eq_dec (msb - lsb + 1) (2 ^ 32)) as [Q|Q]; [|apply N.mod_small; clear - Q Hm; lia].
          exfalso. apply Z. rewrite Q. reflexivity.
        - unfold d. apply (N.mod_unique _ _ 1); clear - L Hm; lia. }
      eapply wres_eq.
      + rewrite Eout. apply slice_wres; auto.
        * clear - Eout Ho. lia.
        * rewrite La. clear - R. unfold places in R. dlia.
        * rewrite zeros_len. auto.
      + rewrite Va, <- Eout. rewrite mod_div_mod by (clear - Eout L; dlia). reflexivity.
    - assert (Ed : d = msb + 2 ^ 32 - lsb) by (unfold d; apply N.mod_small; clear - L Hl; lia).
      assert (Ed' : d + 1 < 2 ^ 32).
      { unfold out in Z. destruct (N.eq_dec (d + 1) (2 ^ 32)) as [Q|Q]; [|clear - Q Hd; lia].
        exfalso. apply Z. rewrite Q. reflexivity. }
      assert (Eout : out = d + 1) by (unfold out; apply N.mod_small; auto).
      destruct (slice_reversed (value_vec_zeros out) (words a) msb lsb) with (out := out) as (l & Hf & Ll & Wl & Vl);
        auto using zeros_words, zeros_val, zeros_len.
      + clear - R. lia.
      + rewrite La. clear - R. unfold places in R. dlia.
      + rewrite zeros_len. clear - Z. dlia.
      + clear - Eout Ed R L Hm. change (2 ^ 32) with 4294967296 in *. dlia.
      + rewrite E1. f_equal. clear - Eout. lia.
      + rewrite Eout. replace (d + 1 - 1) with d by lia. rewrite E2. f_equal. auto.
      + exists l. rewrite zeros_len in Ll. repeat split; auto. rewrite Vl, Va. symmetry. apply N.mod_small.
        assert (Q : n mod 2 ^ (64 * (msb / 64 + 1)) / 2 ^ lsb < 2 ^ 64).
        { apply N.div_lt_upper_bound; auto. rewrite <- N.pow_add_r.
          eapply N.lt_le_trans; [apply mod_lt|]. apply pow_le. clear - L. dlia. }
        eapply N.lt_le_trans; [exact Q|]. apply pow_le. clear - Eout Ed R L Hm. change (2 ^ 32) with 4294967296 in *. dlia. }
  destruct S as (l & Hf & Ll & Wl & Vl). exists (mkbv out l). split; [|apply stores_intro; auto].
  destruct (N.leb_spec out 64) as [L|L]; [|rewrite Hf; reflexivity].
  rewrite zeros_first by lia. cbn [bind]. rewrite Hf. cbn [bind]. rewrite splice_all; auto.
  apply len_length. rewrite zeros_len. auto.
Qed.

(** ** One value *)

Lemma zero_release c a n : stores a 0 n -> operands c = [a] -> in_range c -> in_memory c -> rejects_release c ->
  panics (run Release c).
Proof.
  intros Ha Ho Hr Hm Hj.
  apply (settles_iff _ _ (release_settles c ltac:(rewrite Ho; intros b [<-|[]]; apply (stores_0 a n Ha)) Hr Hm)).
  auto.
Qed.

Lemma ru64_does n w : n < 2 ^ 64 -> w < 2 ^ 32 ->
  does (bv_from_u64 Release n w) (if w =? 0 then Stops else Gives w (n mod 2 ^ w)).
Proof.
  intros Hn Hw. destruct (N.eqb_spec w 0) as [->|W].
  - eexists. reflexivity.
  - apply does_yields, (from_u64_cases n w); auto. lia.
Qed.
Lemma ri64_does z w : fits 64 z -> w < 2 ^ 32 ->
  does (bv_from_i64 Release z w) (if w =? 0 then Stops else Gives w (wrap w z)).
Proof.
  intros Hn Hw. destruct (N.eqb_spec w 0) as [->|W].
  - apply (settles_iff _ _ (i64_release z 0 Hn eq_refl)). auto.
  - apply does_yields, (from_i64_cases z w); auto. lia.
Qed.

Lemma runary_agrees u a w n : unary_range u -> stores a w n ->
  agrees (run Release (unary_call u a)) (runary u w n).
Proof.
  intros Hu Ha. pose proof (stores_inv _ _ _ Ha) as (Wa & Hw & La & Fa & Va & Ba).
  assert (P : forall c, w = 0 -> operands c = [a] -> in_range c -> in_memory c -> rejects_release c ->
    panics (run Release c)).
  { intros c ->. apply (zero_release c a n Ha). }
  pose proof (unary_agrees u a w n Hu Ha) as A.
  assert (B : unary_result u w n <> Stops -> agrees (run Release (unary_call u a)) (unary_result u w n)).
  { intros N. apply run_agrees; auto. }
  destruct u; cbn [unary_call unary_range runary] in *.
  - cbn [unary_result] in *. destruct (N.eqb_spec w 0) as [E|E]; [apply P; cbn; auto; congruence|]. apply B. discriminate.
  - cbn [unary_result] in *. destruct (N.eqb_spec w 0) as [E|E]; [apply P; cbn; auto; congruence|]. apply B. discriminate.
  - apply does_agrees, rslice_does; tauto.
  - apply does_agrees, rzext_does; auto.
  - apply does_agrees, rsext_does; auto.
  - cbn [unary_result] in *. destruct (N.eqb_spec w 0) as [E|E]; [apply P; cbn; auto; congruence|]. apply B. discriminate.
  - apply B. discriminate.
  - cbn [unary_result] in *. destruct (N.eqb_spec w 0) as [E|E]; [apply P; cbn; auto; congruence|]. apply B. discriminate.
  - apply does_agrees. pose proof (ru64_does n0 w Hu Hw) as D.
    unfold bv_from_u64, bv_assign_from_u64 in *. rewrite (clear_shaped a w n Ha).
    rewrite (clear_shaped (bv_zero w) w 0) in D by (apply is_bv_stores, zero_is_bv; auto).
    cbn [width bv_zero] in *. rewrite ?Wa. auto.
  - apply does_agrees. pose proof (ri64_does z w Hu Hw) as D.
    unfold bv_from_i64, bv_assign_from_i64 in *. rewrite (clear_shaped a w n Ha).
    rewrite (clear_shaped (bv_zero w) w 0) in D by (apply is_bv_stores, zero_is_bv; auto).
    cbn [width bv_zero] in *. rewrite ?Wa. auto.
  - cbn [unary_result]. pose proof (reading_assign Release a s radix (proj1 Ha) (proj1 Hu)) as R.
    destruct Ha as (_ & E1 & E2). rewrite E1, E2 in R. cbn [run].
    destruct (reading_of radix w n s) as [k|e k|]; cbn [assigned agrees] in *.
    + destruct R as (v & -> & S1 & S2 & S3). cbn [bind]. exists v. repeat split; auto; apply S1.
    + destruct R as (v & -> & S1 & S2 & S3). cbn [bind]. exists v. repeat split; auto; apply S1.
    + destruct R as (p & ->). eexists. reflexivity.
  - exact A.
  - exact A.
Qed.

Lemma rbinary_agrees op a b w n w' k : stores a w n -> stores b w' k ->
  does (run_bin op Release a b) (rbinary op w n w' k).
Proof.
  intros Ha Hb. assert (D : op <> BConcat -> does (run_bin op Release a b)
    (match mixed op w (match op with BShr | BAshr => n mod 2 ^ w | _ => n end) w' k with
     | Some r => Gives w r | None => Stops end)).
  { intros N. pose proof (any_mixed_ok op a b w n w' k N Ha Hb) as M.
    destruct (mixed _ _ _ _ _); cbn [delivers does] in *; auto. }
  destruct op; try (apply D; discriminate). apply rconcat_does; auto.
Qed.

(** ** Constructors *)

Lemma of_big_int_none z : N.size (Z.abs_N z) < 2 ^ 38 - 64 -> (0 <= z)%Z ->
  (N.size (Z.abs_N z) + 1) mod 2 ^ 32 = 0 -> bv_of_big_int Release z = Ok (mkbv 0 []).
Proof.
  intros Hs Hz H0. unfold bv_of_big_int. set (n := Z.abs_N z) in *.
  assert (E : count_big_int_bits Release z = Ok 0).
  { rewrite <- H0. unfold count_big_int_bits. fold n. destruct (N.eq_dec n 0) as [->|Hn]; [reflexivity|].
    destruct (count_release n Hn Hs) as (d & E1 & E2 & E3).
    replace (as_u32 (len (u64_digits n)) =? 0) with false by lia. rewrite E2. cbn [unwrap bind].
    rewrite (bind_bind_ok _ _ (fun t => u32_add Release t 1) _ E3).
    rewrite u32_add_release by (try apply mod_lt; reflexivity).
    rewrite N.add_mod_idemp_l by discriminate. reflexivity. }
  rewrite E. cbn [bind].
  unfold bv_from_big_int, from_big_int, iter_to_word. cbn [N.eqb bind value_vec_zeros].
  replace (z <? 0)%Z with false by lia. reflexivity.
Qed.

Lemma rfresh_agrees c : fresh_range c -> agrees (run Release c) (rfresh c).
Proof.
  intros T. pose proof (fresh_agrees c T) as A.
  assert (B : fresh c <> Stops -> agrees (run Release c) (fresh c)).
  { intros N. apply run_agrees; auto. }
  pose proof T as (Ho & Hr & Hm & Hl).
  assert (S : fresh c = Stops -> rejects_release c -> agrees (run Release c) (fresh c)).
  { intros -> R. cbn [agrees]. apply (settles_iff _ _ (release_settles c ltac:(rewrite Ho; intros ? []) Hr Hm)). auto. }
  destruct c; cbn [operands] in Ho; try discriminate Ho; cbn [rfresh in_range in_memory] in *;
    try (apply B; discriminate).
  - cbn [fresh] in *. destruct (N.eqb_spec w 0); [apply S; auto|apply B; discriminate].
  - cbn [run]. apply does_agrees, ru64_does; tauto.
  - cbn [run]. apply does_agrees, ri64_does; tauto.
  - cbn [fresh run] in *. apply text_agrees, reading_parse; tauto.
  - cbn [fresh run] in *. apply text_agrees, reading_bit_str; auto.
  - cbn [fresh run] in *. apply text_agrees, reading_hex_str; auto.
  - destruct (fresh (KFromBytes bytes w)) eqn:F; try (apply B; discriminate).
    apply S; auto. cbn [rejects_release rejects]. cbn [fresh] in F.
    destruct ((0 <? w) && (8 * places w <? len bytes)) eqn:Q; [|discriminate]. unfold places in Q. clear - Q. lia.
  - cbn [fresh] in *. destruct ((w =? 0) && (z <? 0)%Z) eqn:Q; [|apply B; discriminate].
    apply S; auto. cbn [rejects_release rejects]. clear - Q. lia.
  - cbn [run]. apply does_agrees. destruct (of_big_int_release z Hm) as [R1 R2]. cbv zeta in *.
    set (w := (N.size (Z.abs_N z) + 1) mod 2 ^ 32) in *.
    destruct (N.eqb_spec w 0) as [W|W]; cbn [andb]; [|apply does_yields; auto].
    destruct (z <? 0)%Z eqn:Q.
    + apply (settles_iff _ _ R1). lia.
    + exists (mkbv 0 []). split; [apply of_big_int_none; auto; lia|]. rewrite W. clear. unfold wrap. rewrite Z.mod_1_r.
      repeat split. constructor.
  - cbn [run]. apply does_agrees, does_yields, of_big_uint_release; auto.
Qed.

(** ** Looking at a value *)

Lemma rfixed a w n f : stores a w n ->
  bv_to_unsigned_fixed_point Release a f
  = Ok (if n <? 2 ^ 64 then Some (inject_Z (Z.of_N n) / inject_Z (2 ^ (Z.of_N f mod 64)))%Q else None).
Proof.
  intros Ha. unfold bv_to_unsigned_fixed_point, u64_shl1. cbn [debug_assert bind].
  rewrite (dirty_to_u64 a w n Ha).
  assert (E : (2 ^ (Z.of_N f mod 64))%Z = Z.of_N (2 ^ (f mod 64))) by (rewrite N2Z.inj_pow, N2Z.inj_mod; reflexivity).
  rewrite E. destruct (N.ltb_spec f 64) as [L|L]; cbn [bind].
  - rewrite (N.mod_small f 64) by auto. destruct (n <? 2 ^ 64); reflexivity.
  - destruct (n <? 2 ^ 64); reflexivity.
Qed.

Lemma panics_map {A B C} (r : res A) (f : A -> B) (g : A -> C) :
  panics (let* x := r in Ok (f x)) -> panics (let* x := r in Ok (g x)).
Proof. destruct r; cbn [bind]; intros (q & E); [discriminate|eexists; reflexivity]. Qed.

Lemma rlook_ok l a w n : stores a w n ->
  match rlook l w n with Some x => tells (tell Release l a) x | None => panics (tell Release l a) end.
Proof.
  intros Ha. pose proof (stores_inv _ _ _ Ha) as (Wa & Hw & La & Fa & Va & Ba).
  pose proof (look_ok l a w n Ha) as K.
  assert (S : forall x, look_result l w n = Some x -> tells (tell Release l a) x).
  { intros x E. rewrite E in K. apply K. }
  assert (Z : w = 0 -> forall q, asked q = [a] -> rejects_question_release q -> panics (ask Release q)).
  { intros -> q Q R. apply (settles_iff _ _ (question_release_settles q ltac:(rewrite Q; intros b [<-|[]]; apply (stores_0 a n Ha)))).
    auto. }
  destruct l; cbn [rlook]; try (cbn [look_result] in *; apply S; reflexivity).
  - cbn [look_result] in *. destruct (N.eqb_spec w 0) as [E|E]; [|apply S; reflexivity].
    specialize (Z E (QIsNegative a) eq_refl ltac:(cbn; congruence)).
    cbn [ask tell] in *. eapply panics_map. exact Z.
  - cbn [look_result] in *. destruct (64 * places w <=? pos); [exact K|apply S; reflexivity].
  - cbn [look_result] in *. destruct (N.eqb_spec w 0) as [E|E]; [|destruct (w =? 1); apply S; reflexivity].
    specialize (Z E (QBitStrSigned a) eq_refl ltac:(cbn; congruence)).
    cbn [ask tell] in *. eapply panics_map. exact Z.
  - cbn [look_result] in *. destruct (N.eqb_spec w 0) as [E|E]; [|destruct (w =? 1); apply S; reflexivity].
    specialize (Z E (QHexStrSigned a) eq_refl ltac:(cbn; congruence)).
    cbn [ask tell] in *. eapply panics_map. exact Z.
  - destruct (N.leb_spec (2 ^ 128) n) as [L|L]; cbn [tell].
    + apply panics_bind. now apply (dirty_dec_wide Release a w n).
    + apply (tells_refl AText). apply (dirty_dec Release a w n); auto.
  - cbn [tell]. apply (tells_refl ARatio). now apply (rfixed a w n).
  - destruct (N.eqb_spec w 0) as [E|E].
    { cbn [tell]. specialize (Z E (QFixedSigned a f) eq_refl ltac:(cbn; congruence)).
    cbn [ask tell] in *. eapply panics_map. exact Z. }
    cbn [tell]. unfold bv_to_signed_fixed_point. cbn [debug_assert bind].
    unfold bv_is_negative. rewrite Wa, is_neg_words, Va by (auto; lia). cbn [bind]. fold (top w n).
    unfold shown. destruct (top w n) eqn:T; cbn [andb].
    + destruct (N.ltb_spec 64 w) as [G|G]; [apply tells_ok|].
      destruct (dirty_negate Release a w n ltac:(lia) Ha) as (v & Ev & I). rewrite Ev. cbn [bind].
      rewrite (rfixed v w (wrap w (- Z.of_N n)) f) by (auto using is_bv_stores).
      destruct (N.ltb_spec (wrap w (- Z.of_N n)) (2 ^ 64)) as [B|B]; cbn [bind].
      * eexists. split; [reflexivity|]. cbn [same_answer]. rewrite inject_Z_opp. unfold Qdiv. ring.
      * apply tells_ok.
    + rewrite (rfixed a w n f) by auto. destruct (n <? 2 ^ 64); apply tells_ok.
Qed.

(** ** Updates *)

Lemma rplain_ends v w n op (b : bool) n' : stores v w n -> reg_typed op ->
  does (reg_run Release v op) (if b then Stops else Gives w n') -> (b = true -> n' = reg_left w n op) ->
  ends ((do _ <- reg_call Release w op ;; ret None) (words v)) w n' (if b then Panicked else Done).
Proof.
  intros H T D L. pose proof H as (_ & Ew & _).
  pose proof (same_register Release v op) as SR. rewrite Ew in SR. unfold seq_, ret.
  destruct (reg_call Release w op (words v)) as [ws a|ws p] eqn:E; cbn [ends].
  - destruct b; cbn [does] in D.
    + destruct D as (q & D). rewrite D in SR. discriminate.
    + split; [|reflexivity]. destruct D as (x & D & Hx). rewrite SR in D. injection D as <-. exact Hx.
  - destruct b; cbn [does] in D.
    + split; [|reflexivity]. rewrite L by auto. eapply stores_left; eauto.
    + destruct D as (x & D & Hx). congruence.
Qed.

Lemma rassign_does a b w n w' k : stores a w n -> stores b w' k ->
  does (bv_assign Release a b) (if places w =? places w' then Gives w k else Stops).
Proof.
  intros Ha Hb. pose proof (any_assign_mixed a b w n w' k Ha Hb) as D. unfold mixed_assign in D.
  destruct (places w =? places w'); exact D.
Qed.

Lemma rupdate_ends env renv v w n u : related env renv -> stores v w n -> update_range u ->
  match update_call Release w env u with
  | Some e => ends (e (words v)) w (fst (rupdated w n renv u)) (snd (rupdated w n renv u))
  | None => rupdated w n renv u = (n, Missing)
  end.
Proof.
  intros R H T. pose proof H as (Sh & Ew & Ev).
  assert (PE : forall (op : reg_op) (b : bool) n', reg_typed op ->
    does (reg_run Release v op) (if b then Stops else Gives w n') -> (b = true -> n' = reg_left w n op) ->
    forall n2 o, n2 = n' -> o = (if b then Panicked else Done) ->
    ends ((do _ <- reg_call Release w op ;; ret None) (words v)) w n2 o).
  { intros op b n' A B C n2 o -> ->. eapply rplain_ends; eauto. }
  assert (UN : forall u, unary_range u -> agrees (run Release (unary_call u v)) (runary u w n))
    by (intros; apply runary_agrees; auto).
  assert (N0 : w = 0 -> n = 0).
  { intros ->. apply (stores_0 v n H). }
  destruct u as [j| | | |x|z|pos|pos|i x|s radix]; cbn [update_call rupdated updated update_range] in *.
  - specialize (R j). destruct (env j) as [b|], (renv j) as [[w' k]|]; try easy.
    pose proof (rassign_does v b w n w' k H R) as D.
    destruct (places w =? places w') eqn:Q; cbn [fst snd] in *.
    + apply (PE (RAssign b) false k); auto; easy.
    + apply (PE (RAssign b) true n); auto; easy.
  - apply (PE RClear false 0); auto; try easy. apply agrees_does, (UN UClear I).
  - pose proof (agrees_does _ _ (UN UOnes I)) as D. cbn [runary unary_result] in D.
    destruct (w =? 0) eqn:Q; cbn [fst snd] in *.
    + apply (PE ROnes true n); auto; easy.
    + apply (PE ROnes false (2 ^ w - 1)); auto; easy.
  - pose proof (agrees_does _ _ (UN UMask I)) as D. cbn [runary unary_result] in D.
    destruct (w =? 0) eqn:Q; cbn [fst snd] in *.
    + apply (PE RMask true n); auto; easy.
    + apply (PE RMask false (n mod 2 ^ w)); auto; easy.
  - pose proof (agrees_does _ _ (UN (UAssignU64 x) T)) as D. cbn [runary] in D.
    destruct (N.eqb_spec w 0) as [Q|Q]; cbn [fst snd] in *.
    + apply (PE (RFromU64 x) true n); auto; try easy. intros _. cbn [reg_left]. rewrite N0 by auto. rewrite Q.
      symmetry. apply N.mod_1_r.
    + apply (PE (RFromU64 x) false (x mod 2 ^ w)); auto; easy.
  - pose proof (agrees_does _ _ (UN (UAssignI64 z) T)) as D. cbn [runary] in D.
    destruct (N.eqb_spec w 0) as [Q|Q]; cbn [fst snd] in *.
    + apply (PE (RFromI64 z) true n); auto; try easy. intros _. cbn [reg_left]. rewrite N0 by auto. rewrite Q.
      unfold wrap. now rewrite Z.mod_1_r.
    + apply (PE (RFromI64 z) false (wrap w z)); auto; easy.
  - pose proof (agrees_does _ _ (UN (USetBit pos) T)) as D. cbn [runary unary_result] in D.
    destruct (64 * places w <=? pos) eqn:Q; cbn [fst snd] in *.
    + apply (PE (RSetBit pos) true n); auto; easy.
    + apply (PE (RSetBit pos) false (N.setbit n pos)); auto; easy.
  - pose proof (agrees_does _ _ (UN (UClearBit pos) T)) as D. cbn [runary unary_result] in D.
    destruct (64 * places w <=? pos) eqn:Q; cbn [fst snd] in *.
    + apply (PE (RClearBit pos) true n); auto; easy.
    + apply (PE (RClearBit pos) false (N.clearbit n pos)); auto; easy.
  - apply (word_ends v w n i x renv H T).
  - pose proof (stores_left Release v w n (RParse s radix)) as SL. cbn [reg_typed reg_call reg_left] in SL.
    pose proof (reading_assign Release v s radix Sh (proj1 T)) as Rd. rewrite Ew, Ev in Rd.
    pose proof (same_parse Release v s radix) as SP. rewrite Ew in SP.
    destruct (un_from_str_radix Release s radix w (words v)) as [ws e|ws p] eqn:E; rewrite SP in Rd.
    + destruct (reading_of radix w n s); cbn [assigned fst snd] in *.
      * destruct Rd as (v' & [= <- ->] & S' & _ & V'). split; [|reflexivity]. repeat split; auto; apply S'.
      * destruct Rd as (v' & [= <- ->] & S' & _ & V'). split; [|reflexivity]. repeat split; auto; apply S'.
      * destruct Rd as (p & [=]).
    + destruct (reading_of radix w n s); cbn [assigned fst snd] in *.
      * destruct Rd as (v' & [=] & _).
      * destruct Rd as (v' & [=] & _).
      * split; [|reflexivity]. apply (SL ws p H (proj1 T)). unfold seq_. now rewrite E.
Qed.

(** ** Steps *)

Definition rstep (env : N -> option bv) (renv : N -> option slot) (c : vcall) : Prop :=
  related (fst (vperform1 Release env c)) (fst (rpredict1 renv c))
  /\ snd (vperform1 Release env c) = snd (rpredict1 renv c).

Lemma rinto_keep env renv k c o : related env renv -> agrees (run Release c) o -> o <> Errs ->
  related (fst (into env k (run Release c))) (fst (keep renv k o))
  /\ snd (into env k (run Release c)) = snd (keep renv k o).
Proof.
  intros R A NE. destruct o; cbn [agrees keep] in *; [|easy|].
  - destruct A as (v & -> & H). cbn. split; [now apply related_set|reflexivity].
  - destruct A as (p & ->). cbn. auto.
Qed.

Lemma rmake_step env renv k c : related env renv -> fresh_range c -> rstep env renv (Make k c).
Proof.
  intros R T. unfold rstep. cbn [vperform1 rpredict1] in *.
  assert (PT : forall r w o, parses_to r w o ->
    let b := match o with Reads n => inl (Gives w n) | Fails e _ => inr e | Breaks => inl Stops end in
    let x := match r with
             | Ok (Parsed v) => (set env k v, Done)
             | Ok (ParseErr e) => (env, Failed e)
             | Panic _ => (env, Panicked) end in
    let y := match b with inl o => keep renv k o | inr e => (renv, Failed e) end in
    related (fst x) (fst y) /\ snd x = snd y).
  { intros r w o P. destruct o; cbn in *.
    - destruct P as (v & -> & S1 & S2 & S3). cbn. split; [|reflexivity]. apply related_set; [exact R|]. repeat split; auto; apply S1.
    - rewrite P. auto.
    - destruct P as (p & ->). auto. }
  assert (PN : match c with KFromStr _ _ _ | KFromBitStr _ | KFromHexStr _ => False | _ => True end ->
    let x := match (let* v := run Release c in let* v := unwrap v in Ok (Parsed v)) with
             | Ok (Parsed v) => (set env k v, Done)
             | Ok (ParseErr e) => (env, Failed e)
             | Panic _ => (env, Panicked) end in
    related (fst x) (fst (keep renv k (rfresh c))) /\ snd x = snd (keep renv k (rfresh c))).
  { intros NP. pose proof (rfresh_agrees c T) as A.
    assert (NE : rfresh c <> Errs).
    { destruct c; try easy; cbn [rfresh fresh]; try destruct (_ : bool); try discriminate. }
    destruct (rinto_keep env renv k c (rfresh c) R A NE) as [I1 I2].
    destruct (run Release c) as [[v|]|p]; cbn in *; auto. }
  destruct T as (Ho & Hr & Hm & Hl).
  destruct c; cbn [operands] in Ho; try discriminate Ho; cbn [construct rbuilt built] in *;
    try (apply PN; exact I).
  - cbn [in_range] in Hr. apply (PT _ w (reading_of radix w 0 s)), reading_parse; tauto.
  - apply (PT _ (text_width 1 s)), reading_bit_str; auto.
  - apply (PT _ (text_width 4 s)), reading_hex_str; auto.
Qed.

Lemma runary_errs u w n : runary u w n <> Errs.
Proof.
  destruct u; cbn [runary]; try apply unary_errs; cbv zeta;
    try (destruct (_ : bool); discriminate).
  destruct (if _ <=? 64 then _ else _). destruct (_ : bool); discriminate.
Qed.
Lemma rbinary_errs op w n w' k : rbinary op w n w' k <> Errs.
Proof.
  destruct op; cbn [rbinary]; cbv zeta; try (destruct (mixed _ _ _ _ _); discriminate).
  destruct (_ =? 0); [discriminate|]. destruct (_ <=? 64); destruct (_ : bool); discriminate.
Qed.

Lemma rstep_ok env renv c : related env renv -> vcall_range c -> rstep env renv c.
Proof.
  intros R T. destruct c as [k c|k j|k u j|k op i j|k u|t i j|l k|k]; [now apply rmake_step|..];
    unfold rstep; cbn [vperform1 rpredict1 vpredict1 vcall_range] in *.
  - pose proof (R j) as Rj. destruct (env j) as [v|], (renv j) as [[w n]|]; try easy.
    cbn [fst snd]. split; [now apply related_set|reflexivity].
  - pose proof (R j) as Rj. destruct (env j) as [v|], (renv j) as [[w n]|]; try easy.
    apply rinto_keep; auto using runary_errs. now apply runary_agrees.
  - pose proof (R i) as Ri. destruct (env i) as [a|], (renv i) as [[w n]|]; try easy.
    pose proof (R j) as Rj. destruct (env j) as [b|], (renv j) as [[w' n']|]; try easy.
    apply rinto_keep; auto using rbinary_errs. cbn [run]. apply does_agrees. now apply rbinary_agrees.
  - pose proof (R k) as Rk. destruct (env k) as [v|], (renv k) as [[w n]|] eqn:K; try easy.
    pose proof Rk as (_ & Ew & _). rewrite Ew.
    pose proof (rupdate_ends env renv v w n u R Rk T) as U.
    destruct (rupdated w n renv u) as [n' o] eqn:UE. cbn [fst snd] in *.
    destruct (update_call Release w env u) as [e|].
    + destruct (e (words v)) as [ws [x|]|ws p]; cbn [ends fst snd] in *; destruct U as [U ->];
        (split; [now apply related_set|reflexivity]).
    + injection U as -> ->. cbn [fst snd]. split; [|reflexivity]. intros q. unfold set.
      destruct (N.eqb_spec q k) as [->|]; [|apply R]. specialize (R k). rewrite K in R. exact R.
  - pose proof (R i) as Ri. destruct (env i) as [a|], (renv i) as [[w n]|]; try easy.
    pose proof (R j) as Rj. destruct (env j) as [b|], (renv j) as [[w' n']|]; try easy.
    cbn [fst snd] in *. split; [exact R|]. pose proof (any_mixed_test_ok t a b w n w' n' Ri Rj) as X.
    destruct (mixed_test t w n w' n'); cbn [answers] in X.
    + now rewrite X.
    + destruct X as (p & ->). reflexivity.
  - pose proof (R k) as Rk. destruct (env k) as [v|], (renv k) as [[w n]|]; try easy.
    cbn [fst snd] in *. split; [exact R|]. pose proof (rlook_ok l v w n Rk) as X.
    destruct (rlook l w n).
    + destruct X as (x & -> & E). f_equal. now apply same_lowest.
    + destruct X as (p & ->). reflexivity.
  - pose proof (R k) as Rk. destruct (env k) as [v|] eqn:K, (renv k) as [[w n]|] eqn:K'; try easy.
    rewrite (de_stores v w n Rk). cbn [fst snd]. split; [|reflexivity]. intros q. unfold set.
    destruct (N.eqb_spec q k) as [->|]; [|apply R]. now rewrite K'.
Qed.

Lemma rperform_from_ok : forall cs env renv, related env renv -> Forall vcall_range cs ->
  vperform_from Release env cs = rpredict_from renv cs.
Proof.
  induction cs as [|c cs IH]; intros env renv R T; [reflexivity|]. inversion T as [|? ? T1 T2]; subst.
  cbn [vperform_from rpredict_from] in *. pose proof (rstep_ok env renv c R T1) as S.
  unfold rstep in S. destruct (vperform1 Release env c) as [e o], (rpredict1 renv c) as [e' o']. cbn [fst snd] in S.
  destruct S as [S ->]. f_equal. now apply IH.
Qed.

Lemma rperform_ok cs : Forall vcall_range cs -> vperform Release cs = rpredict cs.
Proof. intros T. apply rperform_from_ok; auto. intros k. exact I. Qed.

From Coq Require Import String.
From Verif Require Import Fmt.
Lemma release_interp_example :
  let cs := [Make 0 (KFromU64 300 8); Inspect LU64 0; Make 1 (KFromU64 5 70); Binary 2 BAdd 1 0; Inspect LU64 2;
             Update 0 (IAssign 1); Make 3 (KFromU64 1023 10); Update 0 (IAssign 3); Inspect LU64 0; Inspect LHexStr 0;
             Unary 4 (USlice 9 2) 0; Inspect LU64 4; Unary 5 (UZeroExtend (2 ^ 32 - 4)) 3; Inspect LWidth 5;
             Inspect LU64 5; Unary 6 (USignExtend (2 ^ 32 - 4)) 3; Inspect LU64 6; Inspect (LFixed 70) 3;
             Unary 7 (USlice 3 4) 0; Unary 7 (USlice 64 0) 0; Binary 8 BConcat 0 3; Inspect LHexStr 8;
             Update 3 (IFromU64 5000); Binary 9 BSub 0 3; Inspect LU64 9; Compare TGreater 0 3;
             Binary 9 BShl 3 1; Inspect LU64 9] in
  Forall vcall_range cs
  /\ rpredict cs =
     [Done; Tells (AOptNum (Some 44)); Done; Done; Tells (AOptNum (Some 49));
      Panicked; Done; Done; Tells (AOptNum (Some 1023)); Tells (AText (lit "ff"));
      Done; Tells (AOptNum (Some 255)); Done; Tells (ANum 6);
      Tells (AOptNum (Some 1023)); Done; Tells (AOptNum (Some 63)); Tells (ARatio (Some (1023 # 64)%Q));
      Panicked; Panicked; Done; Tells (AText (lit "fffff"));
      Done; Done; Tells (AOptNum (Some 119)); Says true;
      Done; Tells (AOptNum (Some 256))]
  /\ vperform Release cs = rpredict cs.
Proof.
  cbv zeta. match goal with |- Forall _ ?l /\ _ => assert (T : Forall vcall_range l) end.
  { repeat (apply Forall_cons || apply Forall_nil); cbn; auto; unfold fresh_range, fits; cbn -[N.pow Z.pow];
      repeat split; try reflexivity. }
  split; [exact T|]. split; [vm_compute; reflexivity|]. now apply rperform_ok.
Qed.
