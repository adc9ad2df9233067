(** * PMixed: operands of different widths in release builds (C74). *)

From Coq Require Import ZifyBool ZifyNat ZifyN.
From Verif Require Import Base Arith Bv Spec CallSpec PanicSpec MixedSpec.
From Verif Require Import PWords PArith PShift PCompare PropsArith.

Ltac Zify.zify_post_hook ::= idtac.

(** ** The loops stop at the shorter operand *)

Lemma add_loop_cut c dst a b n : length a = length dst -> n = min (length dst) (length b) ->
  ar_add_loop c dst a b
  = ar_add_loop c (firstn n dst) (firstn n a) (firstn n b) ++ skipn n dst.
Proof.
  revert c a b n. induction dst as [|d dst IH]; intros c a b n Ha ->.
  - destruct a; [|discriminate]. reflexivity.
  - destruct a as [|x a]; [discriminate|]. destruct b as [|y b]; [reflexivity|].
    cbn [length Nat.min firstn skipn ar_add_loop]. destruct (ar_adc c x y).
    cbn [app]. f_equal. apply IH; auto.
Qed.

Lemma bin_op_cut op dst a b n : length a = length dst -> n = min (length dst) (length b) ->
  ar_bitwise_bin_op op dst a b
  = ar_bitwise_bin_op op (firstn n dst) (firstn n a) (firstn n b) ++ skipn n dst.
Proof.
  revert a b n. induction dst as [|d dst IH]; intros a b n Ha ->.
  - destruct a; [|discriminate]. reflexivity.
  - destruct a as [|x a]; [discriminate|]. destruct b as [|y b]; [reflexivity|].
    cbn [length Nat.min firstn skipn ar_bitwise_bin_op app]. f_equal. apply IH; auto.
Qed.

Lemma cmp_equal_cut a b n : n = min (length a) (length b) ->
  ar_cmp_equal a b = ar_cmp_equal (firstn n a) (firstn n b).
Proof.
  revert b n. induction a as [|x a IH]; intros b n ->; [reflexivity|].
  destruct b as [|y b]; [reflexivity|]. cbn [length Nat.min firstn ar_cmp_equal].
  f_equal. apply IH; auto.
Qed.

Lemma greater_loop_cut a b n : n = min (length a) (length b) ->
  ar_greater_loop a b = ar_greater_loop (firstn n a) (firstn n b).
Proof.
  revert b n. induction a as [|x a IH]; intros b n ->; [reflexivity|].
  destruct b as [|y b]; [reflexivity|]. cbn [length Nat.min firstn ar_greater_loop].
  destruct (x ?= y); auto.
Qed.

Lemma firstn_rev_skipn {A} (l : list A) n : (n <= length l)%nat ->
  firstn n (rev l) = rev (skipn (length l - n) l).
Proof.
  intros H. rewrite <- (firstn_skipn (length l - n) l) at 1.
  rewrite rev_app_distr. apply firstn_app_exact.
  rewrite rev_length, skipn_length. lia.
Qed.

Lemma Words_firstn l n : Words l -> Words (firstn n l).
Proof. intros H. rewrite <- (firstn_skipn n l) in H. apply Forall_app in H. tauto. Qed.
Lemma Words_skipn l n : Words l -> Words (skipn n l).
Proof. intros H. rewrite <- (firstn_skipn n l) in H. apply Forall_app in H. tauto. Qed.

Lemma greater_any a b q : Words a -> Words b -> q = N.min (len a) (len b) ->
  ar_is_greater_and_not_less a b
  = match wv a / 2 ^ (64 * (len a - q)) ?= wv b / 2 ^ (64 * (len b - q)) with
    | Lt => Some false | Eq => None | Gt => Some true end.
Proof.
  intros Ha Hb ->. unfold ar_is_greater_and_not_less.
  rewrite (greater_loop_cut _ _ (min (length a) (length b))) by now rewrite !rev_length.
  rewrite !firstn_rev_skipn by (clear; lia).
  rewrite greater_loop_ok.
  - rewrite !rev_involutive, !wv_skipn by auto.
    replace (N.of_nat (length a - min (length a) (length b)))
      with (len a - N.min (len a) (len b)) by (unfold len; clear; lia).
    replace (N.of_nat (length b - min (length a) (length b)))
      with (len b - N.min (len a) (len b)) by (unfold len; clear; lia).
    reflexivity.
  - apply Forall_rev, Words_skipn; auto.
  - apply Forall_rev, Words_skipn; auto.
  - unfold len. rewrite !rev_length, !skipn_length. clear. lia.
Qed.

(** ** A loop of a binary operation over zeros *)

Lemma add_zeros c w a b : c <= 1 -> Words a -> Words b -> len a = places w ->
  let q := 64 * N.min (places w) (len b) in
  let l := ar_add_loop c (value_vec_zeros w) a b in
  Words l /\ len l = places w /\ wv l = (c + wv a mod 2 ^ q + wv b mod 2 ^ q) mod 2 ^ q.
Proof.
  intros Hc Ha Hb La q l.
  set (n := N.to_nat (N.min (places w) (len b))).
  pose proof (zeros_len w) as Lz. fold (places w) in Lz.
  assert (E : l = ar_add_loop c (firstn n (value_vec_zeros w)) (firstn n a) (firstn n b)
                  ++ skipn n (value_vec_zeros w)).
  { apply add_loop_cut; unfold n, len in *; lia. }
  assert (N1 : N.of_nat n = N.min (places w) (len b)) by (unfold n; lia).
  destruct (add_loop_ok c (firstn n (value_vec_zeros w)) (firstn n a) (firstn n b))
    as (W & L & V); auto using Words_firstn.
  { rewrite !len_firstn by lia. auto. } { rewrite !len_firstn by lia. auto. }
  rewrite E. rewrite len_firstn in L, V by lia. rewrite N1 in *. split; [|split].
  - apply Words_app; auto. apply Words_skipn, zeros_words.
  - rewrite len_app, L, len_skipn. lia.
  - rewrite wv_app, V. rewrite skipn_zeros, wv_repeat0, N.mul_0_r, N.add_0_r.
    rewrite !wv_firstn, N1 by auto. reflexivity.
Qed.

Lemma bitwise_zeros op f w a b :
  (forall a b i, N.testbit (op a b) i = f (N.testbit a i) (N.testbit b i)) ->
  f false false = false -> Words a -> Words b -> len a = places w ->
  let q := 64 * N.min (places w) (len b) in
  let l := ar_bitwise_bin_op op (value_vec_zeros w) a b in
  Words l /\ len l = places w /\ wv l = op (wv a mod 2 ^ q) (wv b mod 2 ^ q).
Proof.
  intros Hop Hf Ha Hb La q l.
  set (n := N.to_nat (N.min (places w) (len b))).
  pose proof (zeros_len w) as Lz. fold (places w) in Lz.
  assert (E : l = ar_bitwise_bin_op op (firstn n (value_vec_zeros w)) (firstn n a) (firstn n b)
                  ++ skipn n (value_vec_zeros w)).
  { apply bin_op_cut; unfold n, len in *; lia. }
  assert (N1 : N.of_nat n = N.min (places w) (len b)) by (unfold n; lia).
  destruct (bin_op_ok op f Hop Hf (firstn n (value_vec_zeros w)) (firstn n a) (firstn n b))
    as (W & L & V); auto using Words_firstn.
  { rewrite !len_firstn by lia. auto. } { rewrite !len_firstn by lia. auto. }
  rewrite E. rewrite len_firstn in L by lia. rewrite N1 in *. split; [|split].
  - apply Words_app; auto. apply Words_skipn, zeros_words.
  - rewrite len_app, L, len_skipn. lia.
  - rewrite wv_app, V. rewrite skipn_zeros, wv_repeat0, N.mul_0_r, N.add_0_r.
    rewrite !wv_firstn, N1 by auto. reflexivity.
Qed.

(** ** The second operand as it is seen *)

Definition sees (w w' k : N) (b' : list N) : Prop :=
  Words b' /\ wv b' = seen w k /\ len b' = (if places w =? 1 then 1 else places w')
  /\ (places w = 1 -> 1 <= places w').

Lemma sees_one w w' k b : is_bv b w' k -> places w = 1 -> places w' <> 0 ->
  range (words b) 0 1 = Ok (firstn 1 (words b)) /\ sees w w' k (firstn 1 (words b)).
Proof.
  intros Hb Hp Hn. apply is_bv_inv in Hb as (Wb & Hw & Lb & Fb & Vb & Bb). fold (places w') in Lb.
  split.
  - rewrite range_ok by lia. reflexivity.
  - unfold sees, seen. rewrite Hp. cbn [N.eqb Pos.eqb]. split; [apply Words_firstn; auto|].
    rewrite wv_firstn, Vb by auto. split; [reflexivity|]. split; [|intros; lia].
    rewrite len_firstn; lia.
Qed.

Lemma sees_all w w' k b : is_bv b w' k -> places w <> 1 -> sees w w' k (words b).
Proof.
  intros Hb Hp. apply is_bv_inv in Hb as (Wb & Hw & Lb & Fb & Vb & Bb).
  unfold sees, seen. apply N.eqb_neq in Hp as Hp'. rewrite Hp'.
  repeat split; auto. intros; lia.
Qed.

Lemma sees_low w w' k b' : sees w w' k b' ->
  64 * N.min (places w) (len b') = common w w'
  /\ seen w k mod 2 ^ common w w' = low w w' k.
Proof.
  intros (W & V & L & P). unfold common, low, seen in *.
  destruct (N.eqb_spec (places w) 1) as [E|E].
  - rewrite L, E. specialize (P E). split; [lia|].
    unfold common. rewrite E. replace (N.min 1 (places w')) with 1 by lia.
    apply N.mod_mod. apply N.pow_nonzero. discriminate.
  - rewrite L. auto.
Qed.

Lemma range_none {A} (l : list A) : len l = 0 -> panics (range l 0 1).
Proof. intros H. unfold range. rewrite H. eexists. reflexivity. Qed.

Lemma is_bv_shaped w l : w < 2 ^ 32 -> len l = (w + 63) / 64 -> Words l ->
  well_shaped (mkbv w l).
Proof. intros. repeat split; auto. Qed.

Lemma arith_mixed f a b w n w' k o : is_bv a w n -> is_bv b w' k ->
  (places w = 1 -> places w' = 0 -> o = None) ->
  (forall b', sees w w' k b' ->
    match o with
    | None => panics (f Release (value_vec_zeros w) (words a) b' w)
    | Some r => wres (f Release (value_vec_zeros w) (words a) b' w) w r
    end) ->
  delivers (arith_bin_fn f Release a b) w o.
Proof.
  intros Ha Hb Hnone Hf. pose proof Hb as Hb'.
  apply is_bv_inv in Ha as (Wa & Hw & La & Fa & Va & Ba).
  apply is_bv_inv in Hb as (Wb & _ & Lb & Fb & Vb & Bb).
  unfold arith_bin_fn. cbn [debug_assert bind]. rewrite Wa, La. fold (places w).
  destruct (N.eqb_spec (places w) 1) as [E|E].
  - rewrite !range_all by (rewrite ?zeros_len; unfold places in E; congruence). cbn [bind].
    destruct (N.eq_dec (places w') 0) as [Z|Z].
    + rewrite (Hnone E Z). cbn [delivers].
      destruct (range_none (words b)) as (p & ->). { unfold places in Z. congruence. }
      eexists. reflexivity.
    + destruct (sees_one w w' k b) as (-> & Hs); auto. cbn [bind]. specialize (Hf _ Hs).
      destruct o as [r|].
      * destruct Hf as (l & -> & L & W & V). cbn [bind].
        rewrite splice_all by (apply len_length; rewrite zeros_len; auto).
        eexists. split; [reflexivity|]. split; [apply is_bv_shaped; auto|]. auto.
      * destruct Hf as (p & ->). eexists. reflexivity.
  - specialize (Hf _ (sees_all w w' k b Hb' E)). destruct o as [r|].
    + destruct Hf as (l & -> & L & W & V). cbn [bind].
      eexists. split; [reflexivity|]. split; [apply is_bv_shaped; auto|]. auto.
    + destruct Hf as (p & ->). eexists. reflexivity.
Qed.

Lemma bit_arith_same f m a b :
  bit_arith_bin_fn f m a b = arith_bin_fn (fun _ d p q _ => Ok (f d p q)) m a b.
Proof. unfold bit_arith_bin_fn, arith_bin_fn. destruct (len (words a) =? 1); auto. Qed.

Lemma bitwise_mixed op f a b w n w' k :
  (forall a b i, N.testbit (op a b) i = f (N.testbit a i) (N.testbit b i)) ->
  f false false = false -> is_bv a w n -> is_bv b w' k ->
  delivers (bit_arith_bin_fn (ar_bitwise_bin_op op) Release a b) w
    (if (places w =? 1) && (places w' =? 0) then None
     else Some (op (low w w' n) (low w w' k))).
Proof.
  intros Hop Hff Ha Hb. rewrite bit_arith_same. eapply arith_mixed; eauto.
  - intros -> ->. reflexivity.
  - intros b' Hs.
    pose proof (sees_low _ _ _ _ Hs) as (C & S). destruct Hs as (W & V & L & P).
    replace ((places w =? 1) && (places w' =? 0)) with false.
    2:{ destruct (N.eqb_spec (places w) 1) as [E|E]; auto. specialize (P E). cbn [andb]. lia. }
    apply is_bv_inv in Ha as (Wa & Hw & La & Fa & Va & Ba).
    destruct (bitwise_zeros op f w (words a) b' Hop Hff Fa W La) as (W' & L' & V').
    eexists. split; [reflexivity|]. split; [exact L'|]. split; [exact W'|].
    rewrite V', C, V, S, Va. reflexivity.
Qed.

Lemma mask_zero m : panics (ar_mask_msb m [] 0).
Proof. destruct m; eexists; reflexivity. Qed.

Lemma places_0 w : places w = 0 -> w = 0.
Proof. unfold places. intros. dlia. Qed.

Lemma add_mixed a b w n w' k : is_bv a w n -> is_bv b w' k ->
  delivers (bv_add Release a b) w (mixed BAdd w n w' k).
Proof.
  intros Ha Hb. unfold mixed.
  eapply arith_mixed; eauto.
  - intros -> ->. rewrite orb_true_r. reflexivity.
  - intros b' Hs.
    pose proof (sees_low _ _ _ _ Hs) as (C & S). destruct Hs as (W & V & L & P).
    replace ((places w =? 1) && (places w' =? 0)) with false.
    2:{ destruct (N.eqb_spec (places w) 1) as [E|E]; auto. specialize (P E). cbn [andb]. lia. }
    apply is_bv_inv in Ha as (Wa & Hw & La & Fa & Va & Ba).
    rewrite orb_false_r. destruct (N.eqb_spec w 0) as [->|E].
    { apply mask_zero. }
    destruct (add_zeros 0 w (words a) b') as (W' & L' & V'); auto; [lia|].
    unfold ar_add. eapply wres_eq; [apply mask_wres; auto; lia|].
    rewrite V', C, V, S, Va. rewrite N.add_0_l. reflexivity.
Qed.

Lemma wnot_low b q : Words b -> q <= len b ->
  wv (map wnot b) mod 2 ^ (64 * q) = 2 ^ (64 * q) - 1 - wv b mod 2 ^ (64 * q).
Proof.
  intros W H. rewrite <- (N2Nat.id q), <- wv_firstn by apply Words_map_wnot.
  rewrite firstn_map, wv_map_wnot by (apply Words_firstn; auto).
  rewrite wv_firstn, len_firstn by (auto; lia). reflexivity.
Qed.

Lemma sub_mixed a b w n w' k : is_bv a w n -> is_bv b w' k ->
  delivers (bv_sub Release a b) w (mixed BSub w n w' k).
Proof.
  intros Ha Hb. unfold mixed.
  eapply arith_mixed; eauto.
  - intros -> ->. rewrite orb_true_r. reflexivity.
  - intros b' Hs.
    pose proof (sees_low _ _ _ _ Hs) as (C & S). destruct Hs as (W & V & L & P).
    replace ((places w =? 1) && (places w' =? 0)) with false.
    2:{ destruct (N.eqb_spec (places w) 1) as [E|E]; auto. specialize (P E). cbn [andb]. lia. }
    apply is_bv_inv in Ha as (Wa & Hw & La & Fa & Va & Ba).
    rewrite orb_false_r. destruct (N.eqb_spec w 0) as [->|E].
    { apply mask_zero. }
    unfold ar_sub. rewrite sub_loop_add.
    destruct (add_zeros 1 w (words a) (map wnot b')) as (W' & L' & V'); auto;
      [lia|apply Words_map_wnot|].
    eapply wres_eq; [apply mask_wres; auto; lia|].
    rewrite V', len_map, (wnot_low b' (N.min (places w) (len b'))) by (auto; apply N.le_min_r).
    rewrite C, V, S, Va. fold (low w w' n).
    do 2 f_equal. assert (H : low w w' k < 2 ^ common w w') by apply mod_lt.
    clear - H. lia.
Qed.

Lemma mul_mixed a b w n w' k : is_bv a w n -> is_bv b w' k ->
  delivers (bv_mul Release a b) w (mixed BMul w n w' k).
Proof.
  intros Ha Hb. unfold mixed.
  eapply arith_mixed; eauto.
  - intros _ ->. rewrite orb_true_r. reflexivity.
  - intros b' (W & V & L & P).
    apply is_bv_inv in Ha as (Wa & Hw & La & Fa & Va & Ba).
    unfold ar_mul. destruct (N.eqb_spec w 0) as [->|E]; cbn [orb].
    { destruct (words a) as [|x l]; [|rewrite len_cons in La; change ((0 + 63) / 64) with 0 in La; lia].
      eexists. reflexivity. }
    destruct (N.ltb_spec 64 w) as [E1|E1]; cbn [orb].
    { replace (w <=? 64) with false by lia. eexists. reflexivity. }
    replace (w <=? 64) with true by lia.
    assert (E2 : places w = 1) by (unfold places; dlia). specialize (P E2).
    replace (places w' =? 0) with false by lia. rewrite E2 in L. cbn [N.eqb Pos.eqb] in L.
    unfold places in E2. rewrite E2 in La.
    destruct (len_0_1 (words a) La) as (xa & Ea), (len_0_1 b' L) as (xb & Eb).
    rewrite Ea, Eb in *. pose proof (zeros_len w) as Lz. rewrite E2 in Lz.
    destruct (len_0_1 _ Lz) as (z & ->).
    rewrite !wv_cons in *. nils. rewrite N.mul_0_r, N.add_0_r in *. subst xa.
    unfold seen in V. unfold places in V. rewrite E2 in V. cbn [N.eqb Pos.eqb] in V. subst xb.
    unfold idx, set_idx. change (N.to_nat 0) with O. cbn [nth_error set_nth bind].
    rewrite ar_mask_pos by lia. cbn [bind].
    eexists. split; [reflexivity|]. rewrite E2. split; auto.
    rewrite land_ones_sub. unfold as_u64. rewrite B64_eq, N.mul_mod_idemp_r, mod_mod_le by auto.
    split.
    + constructor; auto. eapply N.lt_le_trans; [apply mod_lt|]; auto.
    + rewrite wv_cons. nils. lia.
Qed.

(** ** Shifts: only the amount matters *)

Lemma shift_amount_words b w : 0 < len b -> Words b -> w < 2 ^ 32 ->
  ar_get_shift_amount b w = Ok (if wv b <? w then Some (wv b) else None).
Proof.
  intros Hl Fb Hw.
  unfold ar_get_shift_amount. destruct b as [|b0 t]. { nils. lia. }
  cbn [skipn]. rewrite existsb_nonzero. unfold idx. change (N.to_nat 0) with O.
  cbn [nth_error bind]. rewrite wv_cons.
  inversion Fb as [|? ? Hb0 Ft]; subst x l.
  assert (P : 2 ^ 32 < 2 ^ 64) by (apply N.ltb_lt; reflexivity).
  destruct (N.eqb_spec (wv t) 0) as [E|E]; cbn [negb orb].
  - rewrite E, N.mul_0_r, N.add_0_r.
    rewrite (N.leb_antisym b0 w). destruct (N.ltb_spec b0 w); cbn [negb]; auto.
    unfold as_u32. rewrite B32_eq, N.mod_small by lia. auto.
  - destruct (N.ltb_spec (b0 + 2 ^ 64 * wv t) w); auto. exfalso.
    assert (2 ^ 64 <= 2 ^ 64 * wv t) by nia. lia.
Qed.

Definition by_amount (f : mode -> list N -> list N -> list N -> N -> res (list N)) : Prop :=
  forall m o x p q w, ar_get_shift_amount p w = ar_get_shift_amount q w ->
    f m o x p w = f m o x q w.

Lemma right_by_amount : by_amount (fun m dst a b w =>
  let* (d, _) := ar_shift_right m dst a b w in Ok d).
Proof. intros m o x p q w H. unfold ar_shift_right. rewrite H. reflexivity. Qed.
Lemma ashr_by_amount : by_amount ar_arithmetic_shift_right.
Proof.
  intros m o x p q w H. unfold ar_arithmetic_shift_right, ar_shift_right. rewrite H. reflexivity.
Qed.
Lemma left_by_amount : by_amount ar_shift_left.
Proof. intros m o x p q w H. unfold ar_shift_left. rewrite H. reflexivity. Qed.

Lemma lt_pow w : w < 2 ^ w.
Proof. apply N.pow_gt_lin_r. lia. Qed.

(** an operand of the same width that shifts as far *)
Definition like (w k : N) : bv := bv_of w (N.min (seen w k) w).
Lemma like_ok w k : w < 2 ^ 32 -> is_bv (like w k) w (N.min (seen w k) w).
Proof.
  intros H. apply bv_of_is_bv; auto. eapply N.le_lt_trans; [apply N.le_min_r|]. apply lt_pow.
Qed.

Lemma shift_mixed f a b w n w' k : by_amount f -> is_bv a w n -> is_bv b w' k -> 0 < w ->
  places w' <> 0 ->
  arith_bin_fn f Release a b = arith_bin_fn f Release a (like w k).
Proof.
  intros Hf Ha Hb Hw0 Hp. pose proof Hb as Hb'.
  apply is_bv_inv in Ha as (Wa & Hw & La & Fa & Va & Ba).
  apply is_bv_inv in Hb as (Wb & _ & Lb & Fb & Vb & Bb).
  pose proof (like_ok w k Hw) as Hc. pose proof Hc as Hc'.
  apply is_bv_inv in Hc as (Wc & _ & Lc & Fc & Vc & Bc).
  assert (Hp' : 0 < places w) by (unfold places; dlia).
  assert (G : forall b', sees w w' k b' ->
    ar_get_shift_amount b' w = ar_get_shift_amount (words (like w k)) w).
  { intros b' (W & V & L & P). rewrite !shift_amount_words; auto.
    - rewrite V, Vc. f_equal. generalize (seen w k). intros y.
      destruct (N.ltb_spec y w), (N.ltb_spec (N.min y w) w); auto; try lia.
      f_equal. lia.
    - rewrite Lc. auto.
    - rewrite L. destruct (places w =? 1); lia. }
  unfold arith_bin_fn. cbn [debug_assert bind]. rewrite Wa, La. fold (places w).
  destruct (N.eqb_spec (places w) 1) as [E|E].
  - rewrite !range_all by (rewrite ?zeros_len; unfold places in E; congruence). cbn [bind].
    destruct (sees_one w w' k b) as (-> & Hs); auto. cbn [bind].
    rewrite (range_all (words (like w k))) by (unfold places in E; congruence). cbn [bind].
    rewrite (Hf _ _ _ _ _ _ (G _ Hs)). reflexivity.
  - rewrite (Hf _ _ _ _ _ _ (G _ (sees_all w w' k b Hb' E))). reflexivity.
Qed.

Lemma yields_gives r w n : yields r w n -> delivers r w (Some n).
Proof.
  intros (v & -> & (W & Hw & Hn)). exists v. split; auto. destruct W as (A & B & C & _).
  repeat split; auto.
Qed.

Lemma empty_words a n : is_bv a 0 n -> words a = [] /\ n = 0.
Proof.
  intros Ha. apply is_bv_inv in Ha as (Wa & Hw & La & Fa & Va & Ba).
  change ((0 + 63) / 64) with 0 in La. change (2 ^ 0) with 1 in Ba.
  split; [|lia]. destruct (words a); auto. rewrite len_cons in La. lia.
Qed.

Lemma no_words_amount w : panics (ar_get_shift_amount [] w).
Proof. eexists. reflexivity. Qed.

Lemma amount_0 b' : 0 < len b' -> Words b' -> ar_get_shift_amount b' 0 = Ok None.
Proof.
  intros L W. rewrite shift_amount_words by (auto; reflexivity).
  replace (wv b' <? 0) with false by lia. reflexivity.
Qed.

Lemma nil_of {A} (l : list A) : len l = 0 -> l = [].
Proof. destruct l; auto. rewrite len_cons. lia. Qed.

Lemma shl_mixed a b w n w' k : is_bv a w n -> is_bv b w' k ->
  delivers (bv_shift_left Release a b) w (mixed BShl w n w' k).
Proof.
  intros Ha Hb. unfold mixed. destruct (N.eqb_spec (places w') 0) as [Z|Z].
  - apply arith_mixed with (n := n) (w' := w') (k := k); auto. intros b' (W & V & L & P).
    destruct (N.eqb_spec (places w) 1) as [E|E]; [specialize (P E); lia|].
    rewrite Z in L. rewrite (nil_of _ L). eexists. reflexivity.
  - destruct (N.eq_dec w 0) as [->|Hw].
    + apply arith_mixed with (n := n) (w' := w') (k := k); auto; [intros E; discriminate E|].
      intros b' (W & V & L & P). change (places 0 =? 1) with false in L.
      unfold ar_shift_left. rewrite amount_0 by (auto; lia). cbn [bind].
      replace (0 <=? seen 0 k) with true by lia.
      rewrite clear_zeros. eexists. split; [reflexivity|].
      rewrite zeros_len, zeros_val. auto using zeros_words.
    + unfold bv_shift_left.
      rewrite (shift_mixed _ a b w n w' k left_by_amount Ha Hb) by (auto; lia).
      pose proof (is_bv_w _ _ _ Ha) as Hw32.
      destruct (shift_left_raw Release a (like w k) w n _ Ha (like_ok w k Hw32)) as (l & E & L & W & V).
      { lia. }
      unfold bv_shift_left in E. rewrite E. eexists. split; [reflexivity|].
      split; [apply is_bv_shaped; auto|]. split; auto. unfold uval. cbn [words]. rewrite V.
      destruct (N.leb_spec w (seen w k)) as [H|H].
      * replace (w <=? N.min (seen w k) w) with true by lia. reflexivity.
      * replace (N.min (seen w k) w) with (seen w k) by lia.
        replace (w <=? seen w k) with false by lia. reflexivity.
Qed.

Lemma div_min n y w : n < 2 ^ w -> n / 2 ^ N.min y w = n / 2 ^ y.
Proof.
  intros H. destruct (N.leb_spec y w) as [E|E].
  - replace (N.min y w) with y by lia. reflexivity.
  - replace (N.min y w) with w by lia. rewrite !N.div_small; auto.
    eapply N.lt_le_trans; [exact H|]. apply pow_le. lia.
Qed.

Lemma asr_min w n y : 0 < w -> n < 2 ^ w ->
  wrap w (signed w n / 2 ^ Z.of_N (N.min y w)) = wrap w (signed w n / 2 ^ Z.of_N y).
Proof.
  intros Hw Hn. rewrite !asr_spec by auto. rewrite div_min by auto.
  destruct (2 ^ (w - 1) <=? n); auto.
  destruct (N.ltb_spec y w) as [E|E].
  - replace (N.min y w) with y by lia. replace (y <? w) with true by lia. reflexivity.
  - replace (N.min y w <? w) with false by lia. reflexivity.
Qed.

Lemma shr_mixed a b w n w' k : is_bv a w n -> is_bv b w' k ->
  delivers (bv_shift_right Release a b) w (mixed BShr w n w' k).
Proof.
  intros Ha Hb. unfold mixed. destruct (N.eqb_spec (places w') 0) as [Z|Z].
  - apply arith_mixed with (n := n) (w' := w') (k := k); auto. intros b' (W & V & L & P).
    destruct (N.eqb_spec (places w) 1) as [E|E]; [specialize (P E); lia|].
    rewrite Z in L. rewrite (nil_of _ L). eexists. reflexivity.
  - destruct (N.eq_dec w 0) as [->|Hw].
    + destruct (empty_words _ _ Ha) as (_ & ->).
      apply arith_mixed with (n := 0) (w' := w') (k := k); auto; [intros E; discriminate E|].
      intros b' (W & V & L & P). change (places 0 =? 1) with false in L.
      unfold ar_shift_right. rewrite amount_0 by (auto; lia). cbn [bind].
      rewrite clear_zeros. eexists. split; [reflexivity|].
      rewrite zeros_len, zeros_val, N.div_0_l by auto. auto using zeros_words.
    + unfold bv_shift_right.
      rewrite (shift_mixed _ a b w n w' k right_by_amount Ha Hb) by (auto; lia).
      pose proof (is_bv_w _ _ _ Ha) as Hw32. pose proof (is_bv_lt _ _ _ Ha) as Hn.
      rewrite <- (div_min n (seen w k) w) by auto. apply yields_gives.
      apply shift_right_ok; auto using like_ok. lia.
Qed.

Lemma ashr_mixed a b w n w' k : is_bv a w n -> is_bv b w' k ->
  delivers (bv_arithmetic_shift_right Release a b) w (mixed BAshr w n w' k).
Proof.
  intros Ha Hb. unfold mixed. destruct (N.eqb_spec w 0) as [->|Hw]; cbn [orb].
  { destruct (empty_words _ _ Ha) as (Ea & ->).
    apply arith_mixed with (n := 0) (w' := w') (k := k); auto.
    intros b' (W & V & L & P). change (places 0 =? 1) with false in L. rewrite Ea.
    unfold ar_arithmetic_shift_right, ar_shift_right.
    destruct (N.eq_dec (places w') 0) as [Z|Z].
    - rewrite Z in L. rewrite (nil_of _ L). eexists. reflexivity.
    - rewrite amount_0 by (auto; lia). eexists. reflexivity. }
  destruct (N.eqb_spec (places w') 0) as [Z|Z].
  - apply arith_mixed with (n := n) (w' := w') (k := k); auto. intros b' (W & V & L & P).
    destruct (N.eqb_spec (places w) 1) as [E|E]; [specialize (P E); lia|].
    rewrite Z in L. rewrite (nil_of _ L). eexists. reflexivity.
  - unfold bv_arithmetic_shift_right.
    rewrite (shift_mixed _ a b w n w' k ashr_by_amount Ha Hb) by (auto; lia).
    pose proof (is_bv_w _ _ _ Ha) as Hw32. pose proof (is_bv_lt _ _ _ Ha) as Hn.
    rewrite <- (asr_min w n (seen w k)) by (auto; lia). apply yields_gives.
    apply arithmetic_shift_right_ok; auto using like_ok. lia.
Qed.

Lemma mixed_ok op a b w n w' k : op <> BConcat -> is_bv a w n -> is_bv b w' k ->
  delivers (run_bin op Release a b) w (mixed op w n w' k).
Proof.
  intros Hop Ha Hb. destruct op; cbn [run_bin]; [..|contradiction].
  all: first [ apply add_mixed; assumption | apply sub_mixed; assumption
             | apply mul_mixed; assumption | apply shl_mixed; assumption
             | apply shr_mixed; assumption | apply ashr_mixed; assumption | idtac ].
  - apply (bitwise_mixed N.land andb a b w n w' k N.land_spec eq_refl); auto.
  - apply (bitwise_mixed N.lor orb a b w n w' k N.lor_spec eq_refl); auto.
  - apply (bitwise_mixed N.lxor xorb a b w n w' k N.lxor_spec eq_refl); auto.
Qed.

Lemma assign_mixed a b w n w' k : is_bv a w n -> is_bv b w' k ->
  delivers (bv_assign Release a b) w (mixed_assign w w' k).
Proof.
  intros Ha Hb. apply is_bv_inv in Ha as (Wa & Hw & La & Fa & Va & Ba).
  apply is_bv_inv in Hb as (Wb & _ & Lb & Fb & Vb & Bb).
  unfold mixed_assign, bv_assign. cbn [debug_assert bind]. rewrite La, Lb. fold (places w) (places w').
  destruct (N.eqb_spec (places w) (places w')) as [E|E].
  - cbn [assert bind]. rewrite Wa. eexists. split; [reflexivity|].
    split; [apply is_bv_shaped; auto; unfold places in E; congruence|]. auto.
  - eexists. reflexivity.
Qed.

(** ** Comparisons *)

Lemma equal_mixed a b w n w' k : is_bv a w n -> is_bv b w' k ->
  bv_is_equal Release a b = Ok (low w w' n =? low w w' k).
Proof.
  intros Ha Hb. apply is_bv_inv in Ha as (Wa & Hw & La & Fa & Va & Ba).
  apply is_bv_inv in Hb as (Wb & _ & Lb & Fb & Vb & Bb).
  unfold bv_is_equal. cbn [debug_assert bind].
  assert (G : ar_cmp_equal (words a) (words b) = (low w w' n =? low w w' k)).
  { rewrite (cmp_equal_cut _ _ (N.to_nat (N.min (places w) (places w')))).
    2:{ unfold places. rewrite <- La, <- Lb. unfold len. lia. }
    rewrite cmp_equal_ok; auto using Words_firstn.
    - rewrite !wv_firstn, N2Nat.id, Va, Vb by auto. reflexivity.
    - rewrite !len_firstn; auto; rewrite N2Nat.id, ?La, ?Lb; fold (places w) (places w'); lia. }
  rewrite G. destruct (len (words a) =? 1); reflexivity.
Qed.

(** what [range .. 0 1] and the whole words give to the comparisons *)
Lemma high_words a b w w' n k b' : is_bv a w n -> is_bv b w' k -> sees w w' k b' ->
  let q := N.min (len (words a)) (len b') in
  wv (words a) / 2 ^ (64 * (len (words a) - q)) = left_ w n w'
  /\ wv b' / 2 ^ (64 * (len b' - q)) = right_ w w' k.
Proof.
  intros Ha Hb (W & V & L & P) q. apply is_bv_inv in Ha as (Wa & Hw & La & Fa & Va & Ba).
  fold (places w) in La. unfold left_, right_, high, common, q. rewrite Va, La, V, L.
  unfold seen. destruct (N.eqb_spec (places w) 1) as [E|E].
  - rewrite E. change (N.min 1 1) with 1. change (64 * (1 - 1)) with 0.
    rewrite N.pow_0_r, !N.div_1_r. auto.
  - split; do 2 f_equal; lia.
Qed.

Lemma greater_mixed (strict : bool) a b w n w' k b' : is_bv a w n -> is_bv b w' k ->
  sees w w' k b' ->
  mixed_greater strict w n w' k
  = Some (if strict then ar_cmp_greater (words a) b' else ar_cmp_greater_equal (words a) b').
Proof.
  intros Ha Hb Hs. unfold mixed_greater.
  replace ((places w =? 1) && (places w' =? 0)) with false.
  2:{ destruct Hs as (_ & _ & _ & P).
      destruct (N.eqb_spec (places w) 1) as [E|E]; auto. specialize (P E). cbn [andb]. lia. }
  f_equal. destruct (high_words a b w w' n k b' Ha Hb Hs) as (H1 & H2).
  destruct Hs as (W & _). apply is_bv_inv in Ha as (Wa & Hw & La & Fa & Va & Ba).
  unfold ar_cmp_greater, ar_cmp_greater_equal.
  rewrite (greater_any (words a) b' _ Fa W eq_refl), H1, H2.
  destruct strict, (N.compare_spec (left_ w n w') (right_ w w' k)); cbn [unwrap_or]; lia.
Qed.

Lemma test_mixed (f g : list N -> list N -> res bool) a b w n w' k o :
  is_bv a w n -> is_bv b w' k ->
  (places w = 1 -> places w' = 0 -> o = None) ->
  (forall b', sees w w' k b' -> places w = 1 -> answers (f (words a) b') o) ->
  (forall b', sees w w' k b' -> places w <> 1 -> answers (g (words a) b') o) ->
  answers (if len (words a) =? 1 then
     let* a := range (words a) 0 1 in
     let* b := range (words b) 0 1 in
     f a b
   else g (words a) (words b)) o.
Proof.
  intros Ha Hb Hn Hf Hg. pose proof Hb as Hb'.
  apply is_bv_inv in Ha as (Wa & Hw & La & Fa & Va & Ba).
  apply is_bv_inv in Hb as (Wb & _ & Lb & Fb & Vb & Bb).
  rewrite La. fold (places w). destruct (N.eqb_spec (places w) 1) as [E|E].
  - rewrite range_all by (unfold places in E; congruence). cbn [bind].
    destruct (N.eq_dec (places w') 0) as [Z|Z].
    + rewrite (Hn E Z). cbn [answers].
      destruct (range_none (words b)) as (p & ->). { unfold places in Z. congruence. }
      eexists. reflexivity.
    + destruct (sees_one w w' k b) as (-> & Hs); auto. cbn [bind]. auto.
  - apply Hg; auto. apply sees_all; auto.
Qed.

Lemma none_greater s w n w' k : places w = 1 -> places w' = 0 -> mixed_greater s w n w' k = None.
Proof. intros E Z. unfold mixed_greater. rewrite E, Z. reflexivity. Qed.

Lemma is_greater_mixed a b w n w' k : is_bv a w n -> is_bv b w' k ->
  answers (bv_is_greater Release a b) (mixed_greater true w n w' k).
Proof.
  intros Ha Hb. unfold bv_is_greater. cbn [debug_assert bind].
  apply (test_mixed (fun a b => Ok (ar_cmp_greater a b)) (fun a b => Ok (ar_cmp_greater a b))
    a b w n w' k); auto using none_greater;
  intros b' Hs _; rewrite (greater_mixed true a b w n w' k b'); auto; reflexivity.
Qed.

Lemma is_greater_equal_mixed a b w n w' k : is_bv a w n -> is_bv b w' k ->
  answers (bv_is_greater_or_equal Release a b)
    (mixed_greater (negb (places w =? 1)) w n w' k).
Proof.
  intros Ha Hb. unfold bv_is_greater_or_equal. cbn [debug_assert bind].
  apply (test_mixed (fun a b => Ok (ar_cmp_greater_equal a b)) (fun a b => Ok (ar_cmp_greater a b))
    a b w n w' k); auto using none_greater; intros b' Hs E.
  - rewrite E. rewrite (greater_mixed _ a b w n w' k b'); auto. reflexivity.
  - apply N.eqb_neq in E. rewrite E. rewrite (greater_mixed _ a b w n w' k b'); auto. reflexivity.
Qed.

Lemma is_neg_any l w : 0 < w -> Words l -> 0 < len l ->
  ar_is_neg Release l w = Ok (N.testbit (wv l) (64 * (len l - 1) + (w - 1) mod 64)).
Proof.
  intros Hw W L. set (v := 64 * (len l - 1) + (w - 1) mod 64 + 1).
  pose proof (N.mod_lt (w - 1) 64 ltac:(discriminate)) as Hm.
  replace (64 * (len l - 1) + (w - 1) mod 64) with (v - 1) by (unfold v; lia).
  rewrite <- (is_neg_words Release l v); auto.
  - unfold ar_is_neg. rewrite !u32_sub_ok by (unfold v; lia). cbn [bind].
    replace ((v - 1) mod 64) with ((w - 1) mod 64); auto.
    unfold v. replace (64 * (len l - 1) + (w - 1) mod 64 + 1 - 1)
      with ((w - 1) mod 64 + (len l - 1) * 64) by lia.
    rewrite N.mod_add by discriminate. symmetry. apply N.mod_mod. discriminate.
  - unfold v. lia.
  - unfold v. generalize dependent ((w - 1) mod 64). intros r Hr. dlia.
Qed.

Lemma signed_mixed (strict : bool) (f : list N -> list N -> N -> res bool) a b w n w' k :
  (f = ar_cmp_greater_signed Release /\ strict = true)
  \/ (f = ar_cmp_greater_equal_signed Release /\ strict = false) ->
  is_bv a w n -> is_bv b w' k ->
  answers (if len (words a) =? 1 then
     let* x := range (words a) 0 1 in
     let* y := range (words b) 0 1 in
     f x y (width a)
   else f (words a) (words b) (width a)) (mixed_greater_signed strict w n w' k).
Proof.
  intros Hf Ha Hb.
  assert (G : forall b', sees w w' k b' ->
    answers (f (words a) b' (width a)) (mixed_greater_signed strict w n w' k)).
  { intros b' Hs.
    pose proof (is_bv_inv _ _ _ Ha) as (Wa & Hw & La & Fa & Va & Ba). rewrite Wa.
    pose proof (greater_mixed strict a b w n w' k b' Ha Hb Hs) as Hg.
    destruct Hs as (W & V & L & P).
    unfold mixed_greater_signed. destruct (N.eqb_spec w 0) as [->|E]; cbn [orb].
    { destruct (empty_words _ _ Ha) as (-> & _).
      destruct Hf as [(-> & _)|(-> & _)]; eexists; reflexivity. }
    assert (Na : ar_is_neg Release (words a) w = Ok (N.testbit n (w - 1))).
    { rewrite is_neg_words by (auto; lia). rewrite Va. reflexivity. }
    destruct (N.eqb_spec w' 0) as [->|E'].
    { change (places 0) with 0 in L, P.
      destruct (N.eqb_spec (places w) 1) as [E1|E1]; [specialize (P E1); lia|].
      rewrite (nil_of _ L).
      destruct Hf as [(-> & _)|(-> & _)];
        unfold ar_cmp_greater_signed, ar_cmp_greater_equal_signed; rewrite Na;
        cbn [bind]; unfold ar_is_neg; rewrite u32_sub_ok by lia; eexists; reflexivity. }
    assert (Lp : 0 < len b').
    { rewrite L. destruct (places w =? 1); [lia|]. unfold places. dlia. }
    assert (Nb : ar_is_neg Release b' w = Ok (N.testbit k (sign_place w w'))).
    { rewrite is_neg_any by (auto; lia). rewrite V, L. unfold sign_place, seen.
      destruct (N.eqb_spec (places w) 1) as [E1|E1]; [|reflexivity].
      f_equal. apply N.mod_pow2_bits_low.
      change (64 * (1 - 1)) with 0. pose proof (N.mod_lt (w - 1) 64 ltac:(discriminate)). lia. }
    destruct Hf as [(-> & ->)|(-> & ->)];
      unfold ar_cmp_greater_signed, ar_cmp_greater_equal_signed; rewrite Na, Nb, Hg; cbn [bind];
      destruct (N.testbit n (w - 1)), (N.testbit k (sign_place w w')); reflexivity. }
  apply (test_mixed (fun x y => f x y (width a)) (fun x y => f x y (width a)) a b w n w' k); auto.
  intros E Z. unfold mixed_greater_signed. apply places_0 in Z. subst w'.
  rewrite orb_true_r. reflexivity.
Qed.

Lemma greater_signed_mixed a b w n w' k : is_bv a w n -> is_bv b w' k ->
  answers (bv_is_greater_signed Release a b) (mixed_greater_signed true w n w' k).
Proof.
  intros Ha Hb. apply (signed_mixed true (ar_cmp_greater_signed Release)); auto.
Qed.
Lemma greater_equal_signed_mixed a b w n w' k : is_bv a w n -> is_bv b w' k ->
  answers (bv_is_greater_or_equal_signed Release a b) (mixed_greater_signed false w n w' k).
Proof.
  intros Ha Hb. apply (signed_mixed false (ar_cmp_greater_equal_signed Release)); auto.
Qed.

Lemma mixed_test_ok t a b w n w' k : is_bv a w n -> is_bv b w' k ->
  answers (run_test t Release a b) (mixed_test t w n w' k).
Proof.
  intros Ha Hb. destruct t; cbn [run_test mixed_test];
    auto using is_greater_mixed, is_greater_equal_mixed, greater_signed_mixed,
      greater_equal_signed_mixed.
  - apply equal_mixed; auto.
  - unfold bv_is_not_equal. rewrite (equal_mixed a b w n w' k) by auto. reflexivity.
  - apply (is_greater_mixed b a w' k w n Hb Ha).
  - apply (is_greater_equal_mixed b a w' k w n Hb Ha).
  - apply (greater_signed_mixed b a w' k w n Hb Ha).
  - apply (greater_equal_signed_mixed b a w' k w n Hb Ha).
  - destruct Ha as (Ha & <- & <-), Hb as (Hb & <- & <-). apply bv_eq_ok; auto.
  - destruct Ha as (Ha & <- & <-), Hb as (Hb & <- & <-). apply bvref_eq_ok; auto.
Qed.

(** ** Equal widths: the ordinary operations *)

Lemma common_same w : w <= common w w.
Proof. unfold common, places. rewrite N.min_id. dlia. Qed.
Lemma low_same w n : n < 2 ^ w -> low w w n = n.
Proof.
  intros H. apply N.mod_small. eapply N.lt_le_trans; [exact H|]. apply pow_le, common_same.
Qed.

Lemma same_widths w n k : 0 < w -> n < 2 ^ w -> k < 2 ^ w ->
  mixed BAdd w n w k = Some ((n + k) mod 2 ^ w)
  /\ mixed BSub w n w k = Some (wrap w (Z.of_N n - Z.of_N k))
  /\ mixed BAnd w n w k = Some (N.land n k)
  /\ mixed BOr w n w k = Some (N.lor n k)
  /\ mixed BXor w n w k = Some (N.lxor n k)
  /\ mixed BShr w n w k = Some (n / 2 ^ k)
  /\ mixed_test TEqual w n w k = Some (n =? k)
  /\ mixed_test TGreater w n w k = Some (k <? n)
  /\ mixed_assign w w k = Some k.
Proof.
  intros Hw Hn Hk. unfold mixed, mixed_test, mixed_greater, mixed_assign.
  assert (P : places w <> 0) by (unfold places; dlia).
  apply N.eqb_neq in P as P'. rewrite P', andb_false_r, orb_false_r, N.eqb_refl.
  replace (w =? 0) with false by lia. rewrite !low_same by auto.
  assert (S : seen w k = k).
  { unfold seen. destruct (N.eqb_spec (places w) 1) as [E|E]; auto. apply N.mod_small.
    eapply N.lt_le_trans; [exact Hk|]. apply pow_le. unfold places in E. clear - E. dlia. }
  rewrite S. pose proof (common_same w) as C.
  assert (L : left_ w n w = n /\ right_ w w k = k).
  { unfold left_, right_, high, common. rewrite N.min_id, N.sub_diag, N.pow_0_r, !N.div_1_r.
    unfold seen in S. destruct (places w =? 1); auto. }
  destruct L as (-> & ->). rewrite !mod_mod_le by auto.
  repeat split. f_equal. rewrite wrap_sub by lia.
  rewrite <- (mod_sub_multiple n (common w w)) by (auto; lia).
  f_equal. assert (2 ^ w <= 2 ^ common w w) by (apply pow_le; auto).
  clear - H Hk. generalize dependent (2 ^ common w w). intros. lia.
Qed.
