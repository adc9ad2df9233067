(** * PLoadShift: shifts, signed comparisons and sign extension of bit-vectors of any shape (C98) *)

From Coq Require Import ZifyBool ZifyNat ZifyN.
From Verif Require Import Base Arith Bv Spec CallSpec PanicSpec MixedSpec LoadSpec.
From Verif Require Import PWords PArith PShift PCompare PDirty PMixed PReleaseInterp PLoad.
Ltac Zify.zify_post_hook ::= idtac.

(** ** Left *)

Lemma shl_loop_cut shl shr dst : forall prev s n, n = min (length dst) (length s) ->
  ar_shift_left_loop shl shr prev dst s
  = ar_shift_left_loop shl shr prev (firstn n dst) (firstn n s) ++ skipn n dst.
Proof.
  induction dst as [|d dst IH]; intros prev s n ->; [reflexivity|].
  destruct s as [|x s]; [reflexivity|].
  cbn [length Nat.min firstn skipn ar_shift_left_loop].
  destruct (shl =? 0); cbn [app]; f_equal; apply IH; auto.
Qed.

Lemma shl_loop_any k p s : k < 64 -> Words s ->
  let l := ar_shift_left_loop k (64 - k) 0 (repeat 0 p) s in
  Words l /\ len l = N.of_nat p
  /\ wv l = (wv s * 2 ^ k) mod 2 ^ (64 * N.min (N.of_nat p) (len s)).
Proof.
  intros Hk Ws l. unfold l. set (n := min p (length s)).
  rewrite (shl_loop_cut k (64 - k) (repeat 0 p) 0 s n) by (rewrite repeat_length; auto).
  assert (N1 : N.of_nat n = N.min (N.of_nat p) (len s)) by (unfold n, len; clear; lia).
  assert (Lf : len (firstn n s) = N.of_nat n) by (apply len_firstn; rewrite N1; clear; lia).
  assert (Ld : len (firstn n (repeat 0 p)) = N.of_nat n).
  { apply len_firstn. rewrite len_repeat, N1. clear; lia. }
  assert (Nn : (n <= p)%nat) by (unfold n; clear; lia).
  assert (Es : skipn n (repeat 0 p) = repeat 0 (p - n)).
  { clearbody n. clear. revert n. induction p as [|p IH]; intros [|n]; auto. cbn [repeat skipn Nat.sub]. apply IH. }
  assert (R : exists r, ar_shift_left_loop k (64 - k) 0 (firstn n (repeat 0 p)) (firstn n s) = r
            /\ Words r /\ len r = N.of_nat n /\ wv r = (wv s * 2 ^ k) mod 2 ^ (64 * N.of_nat n)).
  { eexists. split; [reflexivity|]. destruct (N.eq_dec k 0) as [->|K].
    - rewrite shift_left_loop_0, assign_long by (rewrite Lf, Ld; clear; lia).
      rewrite firstn_all2 by (unfold len in Lf, Ld; clear - Lf Ld; lia).
      split; [apply PWords.Words_firstn; auto|]. split; [exact Lf|].
      rewrite wv_firstn by auto. rewrite N.pow_0_r, N.mul_1_r. reflexivity.
    - rewrite shift_left_loop_slice by (clear - K Hk; lia).
      destruct (slice_loop_ok k (64 - k) 0 (firstn n (repeat 0 p)) (firstn n s)) as (W & L & V);
        auto using PWords.Words_firstn; try (clear - K Hk; lia).
      { rewrite Lf, Ld. clear; lia. }
      split; [exact W|]. split; [rewrite L; exact Ld|]. rewrite V, Ld, wv_firstn by auto.
      rewrite N.add_0_l, N.mul_mod_idemp_r by apply pow_nz. f_equal. apply N.mul_comm. }
  destruct R as (r & -> & W & L & V). rewrite Es.
  split; [apply Words_app; auto using Words_repeat0|]. split.
  - rewrite len_app, L, len_repeat. clear - Nn. lia.
  - rewrite wv_app, wv_repeat0, N.mul_0_r, N.add_0_r, V, N1. reflexivity.
Qed.

Lemma shl_any m p a b w : Words a -> Words b -> 0 < len b -> w < 2 ^ 32 -> wv b < w ->
  exists l, Words l /\ len l = N.of_nat p
    /\ wv l = (wv a * 2 ^ wv b) mod 2 ^ (64 * N.min (N.of_nat p) (wv b / 64 + len a))
    /\ ar_shift_left m (repeat 0 p) a b w
       = if wv b mod 64 =? 0 then Ok l else ar_mask_msb m l w.
Proof.
  intros Fa Fb Lb Hw Hy. unfold ar_shift_left. rewrite shift_amount_words by auto.
  apply N.ltb_lt in Hy. rewrite Hy. cbn [bind]. set (y := wv b) in *. clearbody y.
  assert (K : y mod 64 < 64) by (apply N.mod_lt; discriminate).
  destruct (shl_loop_any (y mod 64) p (repeat 0 (N.to_nat (y / 64)) ++ a) K) as (W & L & V).
  { apply Words_app; auto using Words_repeat0. }
  eexists. split; [exact W|]. split; [exact L|]. split.
  - rewrite V, len_app, len_repeat, N2Nat.id. f_equal.
    rewrite wv_app, wv_repeat0, len_repeat, N2Nat.id, N.add_0_l.
    rewrite (N.mul_comm (2 ^ (64 * (y / 64)))), <- N.mul_assoc, <- N.pow_add_r. do 2 f_equal.
    clear. dlia.
  - destruct (N.eqb_spec (y mod 64) 0) as [E|E].
    + rewrite E. reflexivity.
    + replace (0 <? y mod 64) with true by (clear - E; lia). reflexivity.
Qed.

Lemma amount_none b w : len b = 0 -> panics (ar_get_shift_amount b w).
Proof. intros H. apply len_0 in H. subst b. apply no_words_amount. Qed.

Lemma amount_far b w : Words b -> 0 < len b -> w < 2 ^ 32 -> w <= wv b ->
  ar_get_shift_amount b w = Ok None.
Proof.
  intros Fb Lb Hw H. rewrite shift_amount_words by auto.
  replace (wv b <? w) with false; [reflexivity|]. symmetry. apply N.ltb_ge. exact H.
Qed.

Lemma one_word y : y < 2 ^ 64 -> Words [y] /\ len [y] = 1 /\ wv [y] = y.
Proof.
  intros H. repeat split; [constructor; auto|]. rewrite wv_cons. change (wv []) with 0.
  rewrite N.mul_0_r. apply N.add_0_r.
Qed.

Lemma zeros_repeat w : value_vec_zeros w = repeat 0 (N.to_nat (places w)).
Proof. unfold value_vec_zeros, places. rewrite div_ceil_eq. reflexivity. Qed.

Lemma shift_left_load m a b : loaded a -> loaded b ->
  delivers (bv_shift_left m a b) (width a) (load_shift_left m a b).
Proof.
  intros Ha Hb. pose proof Ha as (Hw & Fa). pose proof Hb as (_ & Fb).
  unfold load_shift_left, shiftable, bv_shift_left. apply arith_load; auto.
  - intros ->. reflexivity.
  - intros ->. cbn [andb]. split; [|split].
    + intros E H. replace (lacking a b) with true; auto. symmetry. now apply lacking_ok.
    + intros x y Hx Hy E Hw0 C Ex Ey. replace (lacking a b) with false by (unfold lacking; clear - Hw0 C; lia).
      replace (count b =? 0) with false by (clear - C; lia). cbn [negb andb].
      unfold amount. rewrite E. change (1 =? 1) with true. cbv iota. rewrite <- Ey.
      destruct (one_word y Hy) as (W1 & L1 & V1). destruct (one_word x Hx) as (W2 & L2 & V2).
      destruct (N.leb_spec (width a) y) as [F|F].
      { unfold ar_shift_left. rewrite amount_far by (rewrite ?V1, ?L1; auto; reflexivity).
        cbn [bind]. split; reflexivity. }
      destruct (shl_any m 1 [x] [y] (width a)) as (l & W & L & V & S);
        rewrite ?V1, ?L1; auto; [reflexivity|].
      rewrite V1, V2, L2 in V. rewrite V1 in S. change (repeat 0 1) with [0] in S. rewrite S.
      change (N.of_nat 1) with 1 in L, V.
      destruct (len_0_1 l L) as (z & ->). inversion_clear W as [|? ? Hz _].
      destruct (one_word z Hz) as (_ & _ & Vz). rewrite Vz in V. rewrite <- Ex, <- V.
      destruct (N.eqb_spec (y mod 64) 0) as [Z|Z]; [split; auto|].
      destruct (odd_mask m a) eqn:O.
      { apply odd_mask_true in O as (-> & _ & P). now apply mask_single_debug. }
      rewrite mask_single; auto; [|apply odd_mask_false; auto]. unfold kept. rewrite E.
      split; [reflexivity|apply mod_last_lt].
    + intros E. replace (lacking a b) with false by (unfold lacking; clear - E; lia).
      cbn [negb andb]. unfold amount. rewrite (proj2 (N.eqb_neq _ _) E).
      destruct (N.eqb_spec (count b) 0) as [C|C]; cbn [negb].
      { unfold ar_shift_left. destruct (amount_none (words b) (width a) C) as (p & ->).
        eexists. reflexivity. }
      assert (Lb : 0 < len (words b)) by (unfold count in C; clear - C; lia).
      destruct (N.leb_spec (width a) (uval b)) as [F|F].
      { unfold ar_shift_left. rewrite amount_far by auto. cbn [bind fits_result].
        rewrite clear_zeros. eexists. split; [reflexivity|]. rewrite zeros_len, zeros_val.
        auto using zeros_words. }
      destruct (shl_any m (N.to_nat (places (width a))) (words a) (words b) (width a))
        as (l & W & L & V & S); auto.
      rewrite <- zeros_repeat in S. rewrite S. rewrite N2Nat.id in L, V. unfold uval, count in *.
      replace (odd_mask m a) with false.
      2:{ destruct (odd_mask m a) eqn:O; auto. apply odd_mask_true in O. unfold count in O. clear - O E. lia. }
      destruct (wv (words b) mod 64 =? 0); cbn [fits_result].
      * exists l. auto.
      * rewrite <- V. unfold kept, count. rewrite (proj2 (N.eqb_neq _ _) E).
        apply mask_wres; auto. clear - F. lia.
Qed.

(** ** Right *)

Lemma shr_short m dst a b w : Words b -> 0 < len b -> w < 2 ^ 32 -> wv b < w -> len a < places w ->
  panics (ar_shift_right m dst a b w).
Proof.
  intros Fb Lb Hw Hy La. unfold ar_shift_right. rewrite shift_amount_words by auto.
  pose proof Hy as Hy'. apply N.ltb_lt in Hy. rewrite Hy. cbn [bind]. set (y := wv b) in *. clearbody y.
  rewrite u32_sub_ok by (clear - Hy'; lia). cbn [bind]. rewrite u32_sub_ok by (clear - Hy'; lia).
  cbn [bind]. rewrite u32_add_ok by (clear - Hy' Hw; lia). cbn [bind].
  destruct (range (ar_clear dst) 0 _) as [part|]; [|eexists; reflexivity]. cbn [bind].
  unfold ar_slice, range. replace (_ && _) with false; [eexists; reflexivity|]. symmetry.
  unfold places in La. clear - La Hy'. dlia.
Qed.

Lemma shr_long m a b w : Words a -> Words b -> 0 < len b -> w < 2 ^ 32 -> wv b < w ->
  places w <= len a ->
  exists l, ar_shift_right m (value_vec_zeros w) a b w = Ok (l, Some (wv b))
            /\ len l = places w /\ Words l
            /\ wv l = (wv a / 2 ^ wv b) mod 2 ^ (w - wv b).
Proof.
  intros Fa Fb Lb Hw E La. unfold ar_shift_right. rewrite clear_zeros, shift_amount_words by auto.
  apply N.ltb_lt in E as E'. rewrite E'. cbn [bind]. set (y := wv b) in *. clearbody y.
  rewrite u32_sub_ok by (clear - E; lia). cbn [bind]. rewrite u32_sub_ok by (clear - E; lia).
  cbn [bind]. rewrite u32_add_ok by (clear - E Hw; lia). cbn [bind].
  rewrite div_ceil_eq. set (rw := w - 1 - y + 1). unfold places in *.
  assert (Hr : (rw + 63) / 64 <= (w + 63) / 64) by (unfold rw; clear - E; dlia).
  rewrite range_ok by (rewrite ?zeros_len; clear - Hr; lia). cbn [bind].
  set (d0 := firstn _ _).
  destruct (slice_wres m d0 a (w - 1) y) as (part & Hf & Hl & Wl & Vl); auto;
    try (clear - E; lia); try (clear - E Hw; lia).
  { clear - La E. dlia. }
  { unfold d0. rewrite len_firstn; rewrite ?len_skipn, ?zeros_len; fold rw; clear - Hr; lia. }
  rewrite Hf. cbn [bind]. fold rw in Hl, Vl.
  destruct (wv_splice0 part w ((w + 63) / 64)) as (V & L); auto; [rewrite Hl; exact Hr|].
  eexists. split; [reflexivity|]. split; auto. split.
  - unfold splice. change (N.to_nat 0) with O. cbn [firstn app Nat.add].
    apply Words_app; auto. rewrite skipn_zeros. apply Words_repeat0.
  - rewrite V, Vl. do 2 f_equal. unfold rw. clear - E. lia.
Qed.

Lemma zeros_single w : places w = 1 -> value_vec_zeros w = [0].
Proof. intros H. rewrite zeros_repeat, H. reflexivity. Qed.

Lemma shift_right_load m a b : loaded a -> loaded b ->
  delivers (bv_shift_right m a b) (width a) (load_shift_right m a b).
Proof.
  intros Ha Hb. pose proof Ha as (Hw & Fa). pose proof Hb as (_ & Fb).
  unfold load_shift_right, shiftable, bv_shift_right. apply arith_load; auto.
  - intros ->. reflexivity.
  - intros ->. cbn [andb]. split; [|split].
    + intros E H. replace (lacking a b) with true; auto. symmetry. now apply lacking_ok.
    + intros x y Hx Hy E Hw0 C Ex Ey. replace (lacking a b) with false by (unfold lacking; clear - Hw0 C; lia).
      replace (count b =? 0) with false by (clear - C; lia). cbn [negb andb].
      unfold amount. rewrite E. change (1 =? 1) with true. cbv iota. rewrite <- Ey.
      destruct (one_word y Hy) as (W1 & L1 & V1). destruct (one_word x Hx) as (W2 & L2 & V2).
      destruct (N.leb_spec (width a) y) as [F|F].
      { unfold ar_shift_right. rewrite amount_far by (rewrite ?V1, ?L1; auto; reflexivity).
        cbn [bind]. split; reflexivity. }
      destruct (N.ltb_spec 1 (places (width a))) as [P|P].
      { destruct (shr_short m [0] [x] [y] (width a)) as (p & ->); rewrite ?V1, ?L1, ?L2; auto;
          [reflexivity|]. eexists. reflexivity. }
      assert (P1 : places (width a) = 1).
      { apply (proj1 (places_pos _)) in Hw0. clear - P Hw0. lia. }
      destruct (shr_long m [x] [y] (width a)) as (l & S & L & W & V);
        rewrite ?V1, ?L1, ?L2, ?P1; auto; [reflexivity|reflexivity|].
      rewrite zeros_single, V1 in S by auto. rewrite S. cbn [bind].
      rewrite P1 in L. destruct (len_0_1 l L) as (z & ->). inversion_clear W as [|? ? Hz _].
      destruct (one_word z Hz) as (_ & _ & Vz). rewrite Vz, V1, V2 in V. rewrite <- Ex, <- V. auto.
    + intros E. replace (lacking a b) with false by (unfold lacking; clear - E; lia).
      cbn [negb andb]. unfold amount. rewrite (proj2 (N.eqb_neq _ _) E).
      destruct (N.eqb_spec (count b) 0) as [C|C]; cbn [negb].
      { unfold ar_shift_right. destruct (amount_none (words b) (width a) C) as (p & ->).
        eexists. reflexivity. }
      assert (Lb : 0 < len (words b)) by (unfold count in C; clear - C; lia).
      destruct (N.leb_spec (width a) (uval b)) as [F|F].
      { unfold ar_shift_right. rewrite amount_far by auto. cbn [bind fits_result].
        rewrite clear_zeros. eexists. split; [reflexivity|]. rewrite zeros_len, zeros_val.
        auto using zeros_words. }
      destruct (N.ltb_spec (count a) (places (width a))) as [P|P]; cbn [fits_result].
      { destruct (shr_short m (value_vec_zeros (width a)) (words a) (words b) (width a)) as (p & ->); auto.
        eexists. reflexivity. }
      destruct (shr_long m (words a) (words b) (width a)) as (l & S & L & W & V); auto.
      exists l. rewrite S. auto.
Qed.

(** ** Right, with the sign *)

Lemma neg_any m l w : Words l -> w < 2 ^ 32 ->
  answers (ar_is_neg m l w)
    (if signless m w (len l) then None else Some (N.testbit (wv l) (sign_bit w (len l)))).
Proof. intros F Hw. exact (negative_load m (mkbv w l) (conj Hw F)). Qed.

Lemma ashr_long m a b w : Words a -> Words b -> 0 < len b -> w < 2 ^ 32 -> wv b < w ->
  places w <= len a ->
  let y := wv b in
  let n := (wv a / 2 ^ y) mod 2 ^ (w - y) in
  wres (ar_arithmetic_shift_right m (value_vec_zeros w) a b w) w
    (if N.testbit (wv a) (sign_bit w (len a))
     then if 0 <? y then n + (2 ^ w - 2 ^ (w - y)) else n else n).
Proof.
  intros Fa Fb Lb Hw E La y n.
  destruct (shr_long m a b w Fa Fb Lb Hw E La) as (l & S & L & W & V).
  fold y in S, V. fold n in V. unfold ar_arithmetic_shift_right. rewrite S. cbn [bind].
  pose proof (neg_any m a w Fa Hw) as G.
  assert (P : 0 < places w) by (apply (proj1 (places_pos _)); clear - E; lia).
  replace (signless m w (len a)) with false in G.
  2:{ unfold signless. clear - La P E. replace (w =? 0) with false by lia. cbn [andb]. lia. }
  cbn [answers] in G. rewrite G. cbn [bind]. fold y in E. clearbody y.
  destruct (N.testbit (wv a) (sign_bit w (len a))). 2:{ exists l. auto. }
  destruct (N.ltb_spec 0 y) as [Ey|Ey]. 2:{ exists l. auto. }
  assert (Bn : n < 2 ^ (w - y)) by apply mod_lt.
  rewrite u32_sub_ok by (clear - E; lia). cbn [bind]. rewrite u32_sub_ok by (clear - E; lia). cbn [bind].
  destruct (fill_top_ok l (w - y)) as (l' & Hf' & Wl' & Ll & Vl'); auto.
  { clear - E. lia. } { rewrite L. unfold places. clear. dlia. } { rewrite V. exact Bn. }
  unfold fill_top in Hf'. cbn zeta in Hf'.
  eapply wres_eq.
  - rewrite (bind_bind_ok _ _ (fun dst => ar_mask_msb m dst w) _ Hf').
    apply mask_wres; auto; [clear - E; lia|rewrite Ll; exact L].
  - rewrite Vl', V, L. apply fill_mask; auto; [clear; lia|]. unfold places. clear. dlia.
Qed.

Lemma arith_shift_right_load m a b : loaded a -> loaded b ->
  delivers (bv_arithmetic_shift_right m a b) (width a) (load_arith_shift_right m a b).
Proof.
  intros Ha Hb. pose proof Ha as (Hw & Fa). pose proof Hb as (_ & Fb).
  unfold load_arith_shift_right, load_shift_right, shiftable, bv_arithmetic_shift_right.
  apply arith_load; auto.
  - intros ->. reflexivity.
  - intros ->. cbn [andb]. split; [|split].
    + intros E H. replace (lacking a b) with true; auto. symmetry. now apply lacking_ok.
    + intros x y Hx Hy E Hw0 C Ex Ey. replace (lacking a b) with false by (unfold lacking; clear - Hw0 C; lia).
      replace (count b =? 0) with false by (clear - C; lia). cbn [negb andb].
      unfold amount. rewrite E. change (1 =? 1) with true. cbv iota. rewrite <- Ey.
      destruct (one_word y Hy) as (W1 & L1 & V1). destruct (one_word x Hx) as (W2 & L2 & V2).
      pose proof (neg_any m [x] (width a) W2 Hw) as G. rewrite L2, V2, Ex in G.
      replace (signless m (width a) 1) with false in *.
      2:{ unfold signless. replace (width a =? 0) with false by (clear - Hw0; lia). reflexivity. }
      cbn [answers] in G. rewrite <- Ex in G |- *.
      destruct (N.leb_spec (width a) y) as [F|F].
      { unfold ar_arithmetic_shift_right, ar_shift_right.
        rewrite amount_far by (rewrite ?V1, ?L1; auto; reflexivity).
        cbn [bind]. rewrite G. cbn [bind]. destruct (N.testbit x (sign_bit (width a) 1)).
        2:{ split; reflexivity. }
        replace (width a =? 0) with false by (clear - Hw0; lia). cbn [orb ar_clear map].
        destruct (odd_mask m a) eqn:O.
        { apply odd_mask_true in O as (-> & _ & P). now apply mask_single_debug. }
        rewrite mask_single; auto; [|reflexivity|apply odd_mask_false; auto].
        rewrite WMAX_eq, max_mod by apply last_bits_64. unfold kept. rewrite E.
        split; [reflexivity|]. pose proof (pow_le _ _ (last_bits_64 (width a))) as Q.
        pose proof (pow_pos (last_bits (width a))) as Q'. change (1 =? 1) with true. cbv iota.
        clear - Q Q'. lia. }
      destruct (N.ltb_spec 1 (places (width a))) as [P|P].
      { unfold ar_arithmetic_shift_right.
        destruct (shr_short m [0] [x] [y] (width a)) as (p & ->); rewrite ?V1, ?L1, ?L2; auto;
          [reflexivity|]. eexists. reflexivity. }
      assert (P1 : places (width a) = 1).
      { apply (proj1 (places_pos _)) in Hw0. clear - P Hw0. lia. }
      pose proof (ashr_long m [x] [y] (width a)) as S. rewrite V1, V2, L1, L2, P1 in S.
      destruct S as (l & S & L & W & V); auto; [reflexivity|reflexivity|].
      rewrite zeros_single in S by auto. rewrite S.
      unfold places in P1. rewrite P1 in L. destruct (len_0_1 l L) as (z & ->).
      inversion_clear W as [|? ? Hz _]. destruct (one_word z Hz) as (_ & _ & Vz). rewrite Vz in V.
      destruct (N.testbit x (sign_bit (width a) 1)); rewrite <- V; auto.
    + intros E. replace (lacking a b) with false by (unfold lacking; clear - E; lia).
      cbn [negb andb]. unfold amount. rewrite (proj2 (N.eqb_neq _ _) E).
      destruct (N.eqb_spec (count b) 0) as [C|C]; cbn [negb].
      { unfold ar_arithmetic_shift_right, ar_shift_right.
        destruct (amount_none (words b) (width a) C) as (p & ->). eexists. reflexivity. }
      assert (Lb : 0 < len (words b)) by (unfold count in C; clear - C; lia).
      pose proof (neg_any m (words a) (width a) Fa Hw) as G. fold (uval a) (count a) in G.
      replace (odd_mask m a) with false.
      2:{ destruct (odd_mask m a) eqn:O; auto. apply odd_mask_true in O. clear - O E. lia. }
      destruct (N.leb_spec (width a) (uval b)) as [F|F].
      { unfold ar_arithmetic_shift_right, ar_shift_right. rewrite amount_far by auto. cbn [bind].
        rewrite clear_zeros. destruct (signless m (width a) (count a)); cbn [answers fits_result] in *.
        { destruct G as (p & ->). eexists. reflexivity. }
        rewrite G. cbn [bind]. destruct (N.testbit (uval a) _); cbn [fits_result].
        - destruct (N.eqb_spec (width a) 0) as [Z|Z]; cbn [orb fits_result].
          { rewrite Z. apply mask_zero. }
          eapply wres_eq; [apply mask_wres; [clear - Z; lia|apply Words_mapmax|rewrite len_map; apply zeros_len]|].
          rewrite wv_mapmax, zeros_len. unfold kept. rewrite (proj2 (N.eqb_neq _ _) E).
          apply max_mod. clear. dlia.
        - eexists. split; [reflexivity|]. rewrite zeros_len, zeros_val. auto using zeros_words. }
      destruct (N.ltb_spec (count a) (places (width a))) as [P|P]; cbn [fits_result].
      { unfold ar_arithmetic_shift_right.
        destruct (shr_short m (value_vec_zeros (width a)) (words a) (words b) (width a)) as (p & ->); auto.
        eexists. reflexivity. }
      replace (signless m (width a) (count a)) with false.
      2:{ assert (P' : 0 < places (width a)) by (apply (proj1 (places_pos _)); clear - F; lia).
          unfold signless. replace (width a =? 0) with false by (clear - F; lia).
          cbn [andb]. clear - P P'. lia. }
      pose proof (ashr_long m (words a) (words b) (width a) Fa Fb Lb Hw F P) as S. cbn zeta in S.
      unfold uval, count. destruct (N.testbit (wv (words a)) _); exact S.
Qed.

(** ** Signed comparisons *)

Lemma greater_signed_aux (strict : bool) m a b :
  loaded a -> loaded b ->
  answers (let* _ := debug_assert m (width a =? width b) in
           let* _ := debug_assert m (len (words a) =? len (words b)) in
           if len (words a) =? 1 then
             let* x := range (words a) 0 1 in
             let* y := range (words b) 0 1 in
             (if strict then ar_cmp_greater_signed m x y (width a)
              else ar_cmp_greater_equal_signed m x y (width a))
           else (if strict then ar_cmp_greater_signed m (words a) (words b) (width a)
                 else ar_cmp_greater_equal_signed m (words a) (words b) (width a)))
    (load_greater_signed strict m a b).
Proof.
  intros Ha Hb. pose proof Ha as (Hw & Fa). pose proof Hb as (_ & Fb).
  pose proof (greater_load_aux strict m a b
    (if strict then ar_cmp_greater else ar_cmp_greater_equal) Ha Hb
    (fun _ => eq_refl) (fun _ => eq_refl)) as G.
  unfold load_greater_signed. destruct (admits m a b) eqn:A; cbn [andb].
  2:{ now apply admits_stop. }
  rewrite admits_pass in G |- * by auto. fold (count a) in *.
  assert (K : forall x y, Words x -> Words y ->
    (if strict then ar_cmp_greater_signed m x y (width a) else ar_cmp_greater_equal_signed m x y (width a))
    = let* na := ar_is_neg m x (width a) in
      let* nb := ar_is_neg m y (width a) in
      Ok (match na, nb with
          | true, false => false
          | false, true => true
          | _, _ => (if strict then ar_cmp_greater else ar_cmp_greater_equal) x y
          end)).
  { intros x y _ _. unfold ar_cmp_greater_signed, ar_cmp_greater_equal_signed.
    destruct strict; destruct (ar_is_neg m x (width a)) as [[|]|]; cbn [bind]; auto;
      destruct (ar_is_neg m y (width a)) as [[|]|]; reflexivity. }
  assert (T : forall x y, Words x -> Words y -> len x = count a -> wv x = uval a ->
    len y = (if count a =? 1 then 1 else count b) ->
    (forall i, i < 64 * len y -> N.testbit (wv y) i = N.testbit (uval b) i) ->
    (count b = 0 -> len y = 0) ->
    (0 < len y -> 0 < count b) ->
    answers (Ok ((if strict then ar_cmp_greater else ar_cmp_greater_equal) x y)) (load_greater strict m a b) ->
    answers (if strict then ar_cmp_greater_signed m x y (width a)
             else ar_cmp_greater_equal_signed m x y (width a))
      (if negb (signless m (width a) (count a)) && negb (count b =? 0) then
         match N.testbit (uval a) (sign_bit (width a) (count a)),
               N.testbit (uval b) (sign_bit (width a) (if count a =? 1 then 1 else count b)) with
         | true, false => Some false
         | false, true => Some true
         | _, _ => load_greater strict m a b
         end else None)).
  { intros x y Wx Wy Lx Vx Ly Vy Y0 Y1 R. rewrite K by auto.
    pose proof (neg_any m x (width a) Wx Hw) as N1. pose proof (neg_any m y (width a) Wy Hw) as N2.
    rewrite Lx, Vx in N1.
    destruct (signless m (width a) (count a)) eqn:S; cbn [negb andb answers] in *.
    { destruct N1 as (p & ->). eexists. reflexivity. }
    rewrite N1. cbn [bind]. destruct (N.eqb_spec (count b) 0) as [C|C]; cbn [negb].
    { rewrite Y0 in N2 by auto. cbn [signless N.eqb orb answers] in N2.
      destruct N2 as (p & ->). eexists. reflexivity. }
    assert (L0 : 0 < len y).
    { rewrite Ly. destruct (count a =? 1); clear - C; lia. }
    replace (signless m (width a) (len y)) with false in N2.
    2:{ unfold signless in *. apply orb_false_iff in S as (_ & ->). clear - L0. rewrite orb_false_r. lia. }
    cbn [answers] in N2. rewrite N2. cbn [bind].
    rewrite Vy by (unfold sign_bit; pose proof (N.mod_lt (width a + 63) 64 ltac:(discriminate)); clear - L0 H; lia).
    rewrite Ly.
    destruct (N.testbit (uval a) _), (N.testbit (uval b) _); cbn [answers]; auto. }
  destruct (N.eqb_spec (count a) 1) as [E|E].
  - rewrite !range_first in G |- *. destruct (len_0_1 _ E) as (x & Ex). rewrite Ex in G |- *. cbn [bind] in *.
    destruct (words b) as [|y t] eqn:Eb.
    { replace (count b) with 0 by (unfold count; rewrite Eb; reflexivity).
      rewrite andb_false_r. eexists. reflexivity. }
    cbn [bind] in *. rewrite E in T |- *. apply T; auto.
    + rewrite <- Ex; auto.
    + inversion_clear Fb; constructor; auto.
    + unfold uval. rewrite Ex. reflexivity.
    + inversion_clear Fb as [|? ? Hy Ht]. change (len [y]) with 1. intros i Hi. destruct (one_word y Hy) as (_ & _ & ->).
      unfold uval. rewrite Eb, wv_cons. rewrite <- (N.mod_pow2_bits_low (y + _) 64) by exact Hi.
      rewrite add_mul_mod0 by auto. reflexivity.
    + unfold count. rewrite Eb, len_cons. clear. lia.
    + intros _. unfold count. rewrite Eb, len_cons. clear. lia.
  - try rewrite (proj2 (N.eqb_neq _ _) E) in T. apply T; auto.
Qed.

Lemma greater_signed_load m a b : loaded a -> loaded b ->
  answers (bv_is_greater_signed m a b) (load_greater_signed true m a b).
Proof. exact (greater_signed_aux true m a b). Qed.

Lemma greater_equal_signed_load m a b : loaded a -> loaded b ->
  answers (bv_is_greater_or_equal_signed m a b) (load_greater_signed false m a b).
Proof. exact (greater_signed_aux false m a b). Qed.

(** ** Sign extension *)

Lemma sign_bit_cases w c : 0 < c ->
  (0 < w mod 64 /\ (w + 63) mod 64 + 1 = w mod 64) \/ (w mod 64 = 0 /\ (w + 63) mod 64 = 63).
Proof. intros _. dlia. Qed.

Lemma sext_words m z l w ow : Words l -> w < 2 ^ 32 -> 0 < ow -> signless m w (len l) = false ->
  z = value_vec_zeros ow -> len l <= places ow ->
  wres (ar_sign_extend m z l w ow) ow
    (let e := sign_bit w (len l) + 1 in
     if N.testbit (wv l) (sign_bit w (len l))
     then (wv l mod 2 ^ e + (2 ^ (64 * places ow) - 2 ^ e)) mod 2 ^ ow else wv l).
Proof.
  intros F Hw Ho S -> Lc. pose proof (neg_any m l w F Hw) as G. rewrite S in G. cbn [answers] in G.
  assert (L0 : 0 < len l).
  { unfold signless in S. apply orb_false_iff in S as (S & _). clear - S. lia. }
  cbn zeta. set (s := sign_bit w (len l)) in *.
  pose proof (zeros_len ow) as Lz. fold (places ow) in Lz.
  pose proof (zext_words (value_vec_zeros ow) l F (zeros_words _)) as Z. rewrite Lz in Z.
  destruct (Z Lc (zeros_val _)) as (r & Er & Lr & Wr & Vr).
  unfold ar_sign_extend. rewrite G. cbn [bind].
  destruct (N.testbit (wv l) s). 2:{ exists r. unfold ar_zero_extend in Er. auto. }
  set (d := ar_assign (value_vec_zeros ow) l).
  assert (Ld : len d = places ow) by (unfold d; rewrite assign_len; auto).
  assert (Ed : d = l ++ skipn (length l) (value_vec_zeros ow)).
  { unfold d. apply assign_short. rewrite Lz. auto. }
  assert (Wd : Words d). { rewrite Ed. apply Words_app; auto. rewrite skipn_zeros. auto using Words_repeat0. }
  assert (Vd : wv d = wv l). { rewrite Ed, skipn_zeros, wv_app, wv_repeat0. lia. }
  assert (Q : s = 64 * (len l - 1) + (w + 63) mod 64) by reflexivity. clearbody s d.
  pose proof (N.mod_lt (w + 63) 64 ltac:(discriminate)) as M.
  destruct (fill_top_any d (s + 1)) as (l' & Hf & Wl & Ll & Vl); auto.
  { clear. lia. } { rewrite Ld, Q. clear - Lc L0 M. lia. }
  assert (Efill : (let* dst :=
      (if 0 <? w mod 64 then
         let msbs_in_msb := 64 - w mod 64 in
         let* k := ar_mask msbs_in_msb in
         let* old := idx d (len l - 1) in
         set_idx d (len l - 1) (N.lor old (wshl k (w mod 64)))
       else Ok d) in on_tail dst (len l) ar_set) = Ok l').
  { rewrite <- Hf. unfold fill_top.
    replace (s + 1 - 1) with s by (clear; lia).
    replace (s / 64) with (len l - 1) by (rewrite Q; clear - M; dlia).
    replace (s mod 64) with ((w + 63) mod 64) by (rewrite Q; clear - M; dlia).
    replace (len l - 1 + 1) with (len l) by (clear - L0; lia).
    unfold ar_set. destruct (sign_bit_cases w (len l) L0) as [[P1 P2]|[P1 P2]].
    - rewrite P2. replace (0 <? w mod 64) with true by (clear - P1; lia).
      replace ((w + 63) mod 64 <? 63) with true; [reflexivity|].
      pose proof (N.mod_lt w 64 ltac:(discriminate)) as M2. clear - P2 M2. lia.
    - rewrite P1, P2. reflexivity. }
  cbn zeta in Efill |- *.
  eapply wres_eq.
  - rewrite (bind_bind_ok _ _ (fun dst => ar_mask_msb m dst ow) _ Efill).
    apply mask_wres; auto. rewrite Ll. exact Ld.
  - rewrite Vl, Vd, Ld. reflexivity.
Qed.

Lemma sext_long m z l w ow : len z < len l -> panics (ar_sign_extend m z l w ow).
Proof.
  intros H. unfold ar_sign_extend. destruct (ar_is_neg m l w) as [[|]|p]; cbn [bind].
  3:{ eexists; reflexivity. }
  - cbn zeta. destruct (0 <? w mod 64); cbn [bind].
    + destruct (ar_mask _); cbn [bind]; [|eexists; reflexivity].
      rewrite idx_panic by (rewrite assign_len; clear - H; lia). eexists. reflexivity.
    + unfold on_tail, range. rewrite assign_len. replace (_ && _) with false by (clear - H; lia).
      eexists. reflexivity.
  - unfold on_tail, range. rewrite assign_len. replace (_ && _) with false by (clear - H; lia).
    eexists. reflexivity.
Qed.

Lemma sign_extend_load m v by_ : loaded v -> width v + by_ < 2 ^ 32 ->
  delivers (bv_sign_extend m v by_) (width v + by_) (load_sign_extend m v by_).
Proof.
  intros (Hw & F) H. unfold bv_sign_extend, load_sign_extend. rewrite u32_add_ok by auto. cbn [bind].
  set (w := width v + by_) in *. apply fits_delivers; auto.
  destruct (N.leb_spec w 64) as [L|L].
  - destruct (N.eqb_spec w 0) as [Z|Z]; rewrite ?orb_true_r, ?orb_false_r.
    { rewrite Z. eexists. reflexivity. }
    assert (P : places w = 1) by (unfold places; clear - L Z; dlia).
    rewrite range_zeros by (rewrite P; reflexivity). cbn [bind]. rewrite range_first.
    rewrite P. change (1 <? 1) with false. rewrite orb_false_r.
    unfold count, uval. destruct (words v) as [|x t]; [eexists; reflexivity|].
    replace (signless m (width v) (len (x :: t))) with (signless m (width v) (len [x])).
    2:{ unfold signless. rewrite !len_cons. replace (len t + 1 =? 0) with false by (clear; lia). reflexivity. }
    inversion_clear F as [|? ? Hx Ht]. rewrite wv_cons, add_mul_mod0 by auto. cbn [bind].
    destruct (one_word x Hx) as (W1 & L1 & V1).
    destruct (signless m (width v) (len [x])) eqn:S; cbn [fits_result].
    { pose proof (neg_any m [x] (width v) W1 Hw) as G. rewrite S in G. destruct G as (p & G).
      unfold ar_sign_extend. rewrite G. eexists. reflexivity. }
    pose proof (sext_words m (value_vec_zeros w) [x] (width v) w W1 Hw) as R.
    rewrite L1, V1, P in R. rewrite L1 in S.
    destruct R as (l & E & L' & W' & V'); auto; [clear - Z; lia|clear; lia|].
    rewrite zeros_single in E by (unfold places in P; exact P). rewrite E. cbn [bind].
    unfold places in P. rewrite P in L'. destruct (len_0_1 l L') as (y & ->).
    inversion_clear W' as [|? ? Hy _]. destruct (one_word y Hy) as (W2 & L2 & V2). rewrite V2 in V'.
    destruct (single_result w y) as (W3 & L3 & V3); [unfold places; rewrite P; reflexivity|auto|]. cbn zeta in V'.
    destruct (N.testbit x _); cbn [fits_result]; rewrite <- V'; (eexists; split; [reflexivity|]; auto).
  - unfold uval. pose proof (zeros_len w) as Lz. fold (places w) in Lz.
    replace (w =? 0) with false by (clear - L; lia). rewrite orb_false_r.
    destruct (signless m (width v) (count v)) eqn:S; cbn [orb fits_result].
    { pose proof (neg_any m (words v) (width v) F Hw) as G. unfold count in S. rewrite S in G.
      destruct G as (p & G). unfold ar_sign_extend. rewrite G. eexists. reflexivity. }
    unfold count in *.
    destruct (N.ltb_spec (places w) (len (words v))) as [C|C]; cbn [fits_result].
    + apply sext_long. rewrite Lz. exact C.
    + pose proof (sext_words m (value_vec_zeros w) (words v) (width v) w F Hw) as R. cbn zeta in R.
      assert (W0 : 0 < w) by (clear - L; lia). specialize (R W0 S eq_refl C).
      destruct (N.testbit (wv (words v)) _); exact R.
Qed.
