(** * PLoadConcat: concatenation of loaded values (C98). *)

From Coq Require Import ZifyBool ZifyNat ZifyN.
From Verif Require Import Base Arith Bv Spec CallSpec PanicSpec MixedSpec LoadSpec.
From Verif Require Import PWords PArith PShift PCompare PDirty PMixed PReleaseInterp PLoad PLoadShift.
Ltac Zify.zify_post_hook ::= idtac.

(** ** Concatenation *)

Lemma loop_zeros o s k n j : ar_concat_loop o s k 0 (repeat 0 n) (repeat 0 j ++ [0]) = repeat 0 n.
Proof.
  revert j. induction n as [|n IH]; intros j; [reflexivity|].
  assert (S0 : wshr 0 s = 0) by (unfold wshr; apply N.shiftr_0_l).
  assert (L0 : wshl 0 o = 0) by (unfold wshl; now rewrite N.shiftl_0_l).
  destruct j as [|j]; cbn [repeat app ar_concat_loop]; rewrite N.land_0_l, L0, S0, N.lor_0_l.
  - destruct n; reflexivity.
  - now rewrite IH.
Qed.

Lemma loop_pad o s k n j : forall prev x srcs,
  ar_concat_loop o s k prev (x :: repeat 0 n) (srcs ++ [0])
  = ar_concat_loop o s k prev (x :: repeat 0 n) ((srcs ++ repeat 0 j) ++ [0]).
Proof.
  assert (S0 : wshr 0 s = 0) by (unfold wshr; apply N.shiftr_0_l).
  assert (Q : forall p, ar_concat_loop o s k p (repeat 0 n) [] = repeat 0 n) by (intros; destruct n; reflexivity).
  induction n as [|n IH]; intros prev x srcs.
  - destruct srcs; [|reflexivity]. destruct j; reflexivity.
  - destruct srcs as [|y t].
    + destruct j as [|j]; [reflexivity|].
      change (([] ++ repeat 0 (S j)) ++ [0]) with (0 :: (repeat 0 j ++ [0])).
      change ([] ++ [0]) with [0]. set (d := repeat 0 (S n)). cbn [ar_concat_loop]. f_equal.
      rewrite S0. unfold d. symmetry. exact (loop_zeros o s k (S n) j).
    + rewrite <- app_assoc. cbn [app]. set (d := repeat 0 (S n)).
      cbn [ar_concat_loop]. f_equal. unfold d. cbn [repeat]. rewrite IH, <- app_assoc. reflexivity.
      intros. destruct n; reflexivity.
Qed.

Lemma assign_pad n j : forall xs, ar_assign (repeat 0 n) xs = ar_assign (repeat 0 n) (xs ++ repeat 0 j).
Proof.
  induction n as [|n IH]; intros [|x t]; try reflexivity.
  - cbn [app]. symmetry. clear IH. revert j. generalize (S n) as q. intros q. induction q as [|q IQ]; intros [|j]; try reflexivity.
    cbn [repeat ar_assign]. rewrite IQ. destruct q; reflexivity.
  - cbn [repeat app ar_assign]. now rewrite <- IH.
Qed.

Lemma concat_pad m p xs ys wb j : (length ys <= p)%nat -> wb mod 64 = 0 \/ ys <> [] ->
  ar_concat m (repeat 0 p) xs ys wb = ar_concat m (repeat 0 p) (xs ++ repeat 0 j) ys wb.
Proof.
  intros H C. unfold ar_concat. rewrite assign_short by (unfold len; rewrite repeat_length; lia).
  replace (skipn (length ys) (repeat 0 p)) with (repeat 0 (p - length ys)).
  2:{ clear - H. replace p with (length ys + (p - length ys))%nat at 2 by lia.
      rewrite repeat_app, skipn_app_exact; auto. now rewrite repeat_length. }
  destruct (N.eqb_spec (wb mod 64) 0) as [E|E].
  - rewrite skipn_app_exact by auto. now rewrite <- assign_pad.
  - destruct C as [C|C]; [contradiction|].
    destruct (ar_mask _) as [k|]; cbn [bind]; [|reflexivity].
    destruct (rev_cons_inv ys) as (t & y & ->); auto.
    rewrite len_app, len_cons. nils. rewrite usz_sub_ok by (clear; lia). cbn [bind].
    replace (len t + (0 + 1) - 1) with (len t) by (clear; lia).
    destruct (idx _ (len t)) as [prev|]; cbn [bind]; [|reflexivity]. f_equal. f_equal.
    rewrite <- app_assoc, skipn_app_exact by (unfold len; lia). cbn [app]. apply loop_pad.
Qed.

Lemma concat_any m p xs ys wb : Words xs -> Words ys -> wb mod 64 = 0 \/ ys <> [] ->
  let r := wb mod 64 in
  let c := len ys in
  let e := if r =? 0 then 64 * c else 64 * (c - 1) + r in
  c <= N.of_nat p ->
  exists l, ar_concat m (repeat 0 p) xs ys wb = Ok l /\ len l = N.of_nat p /\ Words l
    /\ wv l = N.lor (wv xs * 2 ^ e) (wv ys) mod 2 ^ (64 * N.of_nat p).
Proof.
  intros Wx Wy C r c e H.
  assert (Lz : len (repeat 0 p) = N.of_nat p) by (unfold len; now rewrite repeat_length).
  assert (R : r < 64) by (unfold r; apply N.mod_lt; discriminate).
  assert (K : ys <> [] -> 0 < c).
  { intros Q. unfold c. destruct ys; [congruence|]. rewrite len_cons. clear. lia. }
  assert (E1 : wb mod 64 = e mod 64).
  { unfold e. fold r. destruct (N.eqb_spec r 0) as [Z|Z]; [rewrite Z; clear; dlia|clear - R; dlia]. }
  assert (E2 : len ys = (e + 63) / 64).
  { fold c. unfold e. destruct (N.eqb_spec r 0) as [Z|Z]; [clear; dlia|].
    destruct C as [C|C]; [contradiction|]. apply K in C. clear - R Z C. dlia. }
  rewrite (concat_pad m p xs ys wb p), (concat_off m _ _ _ wb e E1); auto.
  2:{ unfold c, len in H. clear - H. lia. }
  destruct (concat_words m (repeat 0 p) (xs ++ repeat 0 p) ys e) as (l & -> & L & W & V); auto.
  - rewrite Lz. exact H.
  - rewrite len_app, Lz. clear. lia.
  - exists l. rewrite Lz in L, V. split; [reflexivity|]. split; auto. split; auto.
    rewrite V, wv_app, wv_repeat0, N.mul_0_r, N.add_0_r. reflexivity.
Qed.

Lemma zeros_repeat' w : value_vec_zeros w = repeat 0 (N.to_nat (places w)).
Proof.
  pose proof (zeros_len w) as L. fold (places w) in L. rewrite <- L. unfold len. rewrite Nat2N.id.
  pose proof (skipn_zeros w 0) as S. cbn [skipn] in S. rewrite S. now rewrite repeat_length.
Qed.

Lemma concat_load m a b : loaded a -> loaded b -> width a + width b < 2 ^ 32 ->
  delivers (bv_concat m a b) (width a + width b) (load_concat a b).
Proof.
  intros (Ha & Fa) (Hb & Fb) H. unfold bv_concat, load_concat. rewrite u32_add_ok by auto. cbn [bind].
  set (w := width a + width b) in *. apply fits_delivers; auto.
  pose proof (zeros_repeat' w) as Z0.
  destruct (N.leb_spec w 64) as [L|L]; cbn [andb].
  - destruct (N.eqb_spec w 0) as [Z|Z]; cbn [orb].
    { rewrite Z. eexists. reflexivity. }
    assert (P : places w = 1) by (unfold places; clear - L Z; dlia).
    rewrite range_zeros by (rewrite P; reflexivity). cbn [bind]. rewrite !range_first.
    rewrite P in Z0 |- *. change (1 <? 1) with false. change (1 =? 0) with false. cbn [orb].
    rewrite andb_false_r, orb_false_r.
    unfold count, uval. destruct (words a) as [|x t]; [eexists; reflexivity|]. cbn [bind].
    rewrite len_cons. replace (len t + 1 =? 0) with false by (clear; lia). cbn [orb].
    destruct (words b) as [|y s]; [eexists; reflexivity|]. cbn [bind].
    rewrite len_cons. replace (len s + 1 =? 0) with false by (clear; lia). cbn [fits_result].
    inversion_clear Fa as [|? ? Hx Ht]. inversion_clear Fb as [|? ? Hy Hs].
    rewrite !wv_cons, !add_mul_mod0 by auto.
    destruct (PLoadShift.one_word x Hx) as (W1 & L1 & V1). destruct (PLoadShift.one_word y Hy) as (W2 & L2 & V2).
    pose proof (concat_any m 1 [x] [y] (width b) W1 W2) as R. cbn zeta in R. rewrite L2, V1, V2 in R.
    destruct R as (l & E & L' & W' & V'); [right; discriminate|reflexivity|].
    change (repeat 0 1) with [0] in E. rewrite E. cbn [bind].
    destruct (len_0_1 l L') as (z & ->).
    inversion_clear W' as [|? ? Hz _]. destruct (PLoadShift.one_word z Hz) as (W3 & L3 & V3). rewrite V3 in V'.
    destruct (single_result w z) as (W4 & L4 & V4); [rewrite P; reflexivity|auto|].
    change (64 * N.of_nat 1) with (64 * 1) in V'. rewrite <- V'. eexists. split; [reflexivity|]. auto.
  - replace (w =? 0) with false by (clear - L; lia). cbn [orb]. unfold count, uval.
    pose proof (concat_any m (N.to_nat (places w)) (words a) (words b) (width b) Fa Fb) as R. cbn zeta in R.
    rewrite N2Nat.id in R. rewrite <- Z0 in R.
    pose proof (zeros_len w) as Lz. fold (places w) in Lz.
    destruct (N.eqb_spec (width b mod 64) 0) as [E|E].
    + replace (0 <? width b mod 64) with false by (clear - E; lia). cbn [andb fits_result].
      destruct (N.leb_spec (len (words b)) (places w)) as [C|C].
      { destruct R as (l & G1 & G2 & G3 & G4); auto. exists l. auto. }
      unfold ar_concat. rewrite E. change (0 =? 0) with true. cbv iota.
      rewrite assign_long by (rewrite Lz; clear - C; lia).
      assert (Ln : (length (value_vec_zeros w) <= length (words b))%nat) by (unfold len in *; clear - C Lz; lia).
      rewrite firstn_all2 by (rewrite firstn_length; clear; lia).
      rewrite skipn_all2 by (rewrite firstn_length; clear; lia). cbn [ar_assign]. rewrite app_nil_r.
      eexists. split; [reflexivity|].
      assert (Q : len (firstn (length (value_vec_zeros w)) (words b)) = places w).
      { rewrite <- Lz. unfold len. rewrite firstn_length. clear - Ln. lia. }
      split; [exact Q|]. split; [auto using Words_firstn|].
      rewrite wv_firstn by auto. fold (len (value_vec_zeros w)). rewrite Lz.
      apply N.bits_inj. intros i. destruct (N.ltb_spec i (64 * places w)) as [I|I].
      * rewrite !N.mod_pow2_bits_low, N.lor_spec by auto.
        rewrite N.mul_pow2_bits_low by (clear - I C; lia). reflexivity.
      * now rewrite !N.mod_pow2_bits_high by auto.
    + replace (0 <? width b mod 64) with true by (clear - E; lia). cbn [andb].
      destruct (N.eqb_spec (len (words b)) 0) as [N0|N0]; cbn [orb fits_result].
      { unfold ar_concat. rewrite (proj2 (N.eqb_neq _ _) E).
        destruct (ar_mask _); cbn [bind]; [|eexists; reflexivity].
        rewrite N0. unfold usz_sub. change (1 <=? 0) with false. cbv iota.
        destruct m; cbn [bind]; [eexists; reflexivity|].
        rewrite idx_panic; [eexists; reflexivity|]. rewrite assign_len, Lz.
        unfold as_u64. rewrite B64_eq. change ((0 + 2 ^ 64 - 1) mod 2 ^ 64) with (2 ^ 64 - 1).
        unfold places. clear - H. dlia. }
      destruct (N.ltb_spec (places w) (len (words b))) as [C|C]; cbn [fits_result].
      { unfold ar_concat. rewrite (proj2 (N.eqb_neq _ _) E).
        destruct (ar_mask _); cbn [bind]; [|eexists; reflexivity].
        rewrite usz_sub_ok by (clear - N0; lia). cbn [bind].
        rewrite idx_panic; [eexists; reflexivity|]. rewrite assign_len, Lz. clear - C. lia. }
      destruct R as (l & G1 & G2 & G3 & G4); auto.
      { right. intros Q. rewrite Q in N0. now apply N0. }
      exists l. auto.
Qed.
