(** * PShift: slice, concat, extension and shifts. *)

From Coq Require Import ZifyBool ZifyNat ZifyN.
From Verif Require Import Base Arith Bv Spec PWords PArith.

Ltac Zify.zify_post_hook ::= idtac.

(** ** List access *)

Lemma idx_ok (l : list N) i : i < len l -> idx l i = Ok (nth (N.to_nat i) l 0).
Proof.
  intros H. unfold idx. rewrite (nth_error_nth' l 0); auto. unfold len in H. lia.
Qed.
Lemma idx_panic {A} (l : list A) i : len l <= i -> idx l i = Panic PIndex.
Proof.
  intros H. unfold idx. rewrite (proj2 (nth_error_None l (N.to_nat i))); auto.
  unfold len in H. lia.
Qed.

Lemma set_nth_ok {A} (l : list A) i v : (i < length l)%nat ->
  set_nth l i v = Some (firstn i l ++ v :: skipn (S i) l).
Proof.
  revert i. induction l as [|x l IH]; intros [|i] H; cbn [length] in H; try lia; auto.
  cbn [set_nth]. rewrite IH by lia. auto.
Qed.
Lemma set_nth_none {A} (l : list A) i v : (length l <= i)%nat -> set_nth l i v = None.
Proof.
  revert i. induction l as [|x l IH]; intros [|i] H; cbn [length] in H; try lia; auto.
  cbn [set_nth]. rewrite IH by lia. auto.
Qed.
Lemma set_idx_ok {A} (l : list A) i v : i < len l ->
  set_idx l i v = Ok (firstn (N.to_nat i) l ++ v :: skipn (S (N.to_nat i)) l).
Proof.
  intros H. unfold set_idx. rewrite set_nth_ok; auto. unfold len in H. lia.
Qed.
Lemma set_idx_panic {A} (l : list A) i v : len l <= i -> set_idx l i v = Panic PIndex.
Proof.
  intros H. unfold set_idx. rewrite set_nth_none; auto. unfold len in H. lia.
Qed.

Lemma nth_split (l : list N) n : (n < length l)%nat ->
  l = firstn n l ++ nth n l 0 :: skipn (S n) l.
Proof.
  revert n. induction l as [|x l IH]; intros [|n] H; cbn [length] in H; try lia; auto.
  cbn [firstn nth skipn app]. f_equal. apply IH. lia.
Qed.

Lemma assign_eq dst src : ar_assign dst src
  = firstn (length dst) src ++ skipn (length src) dst.
Proof.
  revert src. induction dst as [|d dst IH]; intros [|s src]; auto.
  cbn [ar_assign length firstn skipn app]. f_equal. auto.
Qed.
Lemma assign_long dst src : len dst <= len src -> ar_assign dst src = firstn (length dst) src.
Proof.
  intros H. rewrite assign_eq, (skipn_all2 dst) by (unfold len in H; lia). apply app_nil_r.
Qed.
Lemma assign_short dst src : len src <= len dst ->
  ar_assign dst src = src ++ skipn (length src) dst.
Proof. intros H. rewrite assign_eq, (firstn_all2 src) by (unfold len in H; lia). auto. Qed.
Lemma assign_len dst src : len (ar_assign dst src) = len dst.
Proof.
  rewrite assign_eq, len_app. unfold len. rewrite firstn_length, skipn_length. lia.
Qed.

Lemma range_ok {A} (l : list A) a b : a <= b -> b <= len l ->
  range l a b = Ok (firstn (N.to_nat (b - a)) (skipn (N.to_nat a) l)).
Proof.
  intros H1 H2. unfold range. replace ((a <=? b) && (b <=? len l)) with true by lia. auto.
Qed.
Lemma range_len {A} (l r : list A) a b : range l a b = Ok r -> len r = b - a.
Proof.
  unfold range. destruct ((a <=? b) && (b <=? len l)) eqn:E; [|discriminate].
  intros [= <-]. unfold len in *. rewrite firstn_length, skipn_length. lia.
Qed.

(** ** Shifting a list of words by less than a word *)

Lemma slice_word prev s shl shr : 0 < shl -> 0 < shr -> shl + shr = 64 ->
  prev < 2 ^ shl -> s < 2 ^ 64 ->
  N.lor prev (wshl (N.land s (2 ^ shr - 1)) shl) = prev + 2 ^ shl * (s mod 2 ^ shr).
Proof.
  intros H1 H2 H3 Hp Hs. rewrite land_ones_sub, wshl_mul by lia.
  rewrite mul_pow_mod64 by lia. replace (64 - shl) with shr by lia.
  rewrite N.mod_mod by auto. apply lor_add; auto.
Qed.

Lemma slice_loop_ok shl shr prev dst srcs : 0 < shl -> 0 < shr -> shl + shr = 64 ->
  prev < 2 ^ shl -> Words srcs -> len dst <= len srcs ->
  let out := ar_slice_loop shl shr (2 ^ shr - 1) prev dst srcs in
  Words out /\ len out = len dst
  /\ wv out = (prev + 2 ^ shl * wv srcs) mod 2 ^ (64 * len dst).
Proof.
  intros H1 H2 H3. revert prev srcs.
  induction dst as [|d dst IH]; intros prev srcs Hp Hs Hl; cbn zeta.
  - split; [constructor|]. split; auto. nils. change (64 * 0) with 0. rewrite N.mod_1_r.
    auto.
  - destruct srcs as [|s srcs]; [rewrite len_cons in Hl; nils; lia|].
    inversion Hs as [|? ? Hs1 Hs2]; subst. rewrite !len_cons in Hl.
    cbn [ar_slice_loop]. rewrite slice_word by auto.
    rewrite wshr_div by lia.
    assert (Hp' : s / 2 ^ shr < 2 ^ shl).
    { apply div_lt_pow. replace (shr + shl) with 64 by lia. auto. }
    destruct (IH (s / 2 ^ shr) srcs Hp' Hs2) as (W & L & V); [lia|].
    assert (Hw : prev + 2 ^ shl * (s mod 2 ^ shr) < 2 ^ 64).
    { rewrite <- H3. apply add_mul_lt; auto. }
    split; [constructor; auto|]. rewrite !len_cons. split; [clear - L; lia|].
    rewrite !wv_cons, V.
    replace (64 * (len dst + 1)) with (64 + 64 * len dst) by lia.
    rewrite <- add_mul_mod by auto. f_equal.
    rewrite (N.div_mod s (2 ^ shr)) at 3 by auto.
    replace (2 ^ 64) with (2 ^ shl * 2 ^ shr) by (rewrite <- N.pow_add_r; f_equal; clear - H3; lia).
    ring.
Qed.

Lemma concat_loop_slice off shr k prev dst srcs :
  ar_concat_loop off shr k prev dst srcs = ar_slice_loop off shr k prev dst srcs.
Proof.
  revert prev srcs. induction dst as [|d dst IH]; intros prev [|s srcs]; auto.
Qed.

Lemma shift_left_loop_slice shl shr prev dst srcs : 0 < shl -> 0 < shr -> shl + shr = 64 ->
  ar_shift_left_loop shl shr prev dst srcs
  = ar_slice_loop shl shr (2 ^ shr - 1) prev dst srcs.
Proof.
  intros H1 H2 H3. revert prev srcs.
  induction dst as [|d dst IH]; intros prev [|s srcs]; auto.
  cbn [ar_shift_left_loop ar_slice_loop]. replace (shl =? 0) with false by lia.
  f_equal; auto. rewrite land_ones_sub, !wshl_mul, !mul_pow_mod64 by lia.
  replace (64 - shl) with shr by lia. rewrite N.mod_mod by auto. apply N.lor_comm.
Qed.
Lemma shift_left_loop_0 shr prev dst srcs :
  ar_shift_left_loop 0 shr prev dst srcs = ar_assign dst srcs.
Proof.
  revert srcs. induction dst as [|d dst IH]; intros [|s srcs]; auto.
  cbn [ar_shift_left_loop ar_assign]. rewrite N.eqb_refl. f_equal. auto.
Qed.

Lemma wv_snoc0 l : wv (l ++ [0]) = wv l.
Proof. rewrite wv_app. change (wv [0]) with 0. lia. Qed.

(** ** slice *)

Lemma u32_sub_ok m a b : b <= a -> u32_sub m a b = Ok (a - b).
Proof. intros H. unfold u32_sub. replace (b <=? a) with true by dlia. auto. Qed.
Lemma u32_add_ok m a b : a + b < 2 ^ 32 -> u32_add m a b = Ok (a + b).
Proof.
  intros H. unfold u32_add. rewrite B32_eq. apply N.ltb_lt in H. rewrite H. auto.
Qed.
Lemma usz_sub_ok m a b : b <= a -> usz_sub m a b = Ok (a - b).
Proof. intros H. unfold usz_sub. replace (b <=? a) with true by dlia. auto. Qed.

Lemma slice_final V lo a n w : lo = 64 * a + n -> n + w <= 64 * ((n + w + 63) / 64) ->
  forall k, n + w <= 64 * k ->
  ((V / 2 ^ (64 * a)) mod 2 ^ (64 * k) / 2 ^ n) mod 2 ^ w = (V / 2 ^ lo) mod 2 ^ w.
Proof.
  intros -> _ k Hk. rewrite mod_div_mod by dlia. rewrite div_div_pow. auto.
Qed.

Lemma slice_wres m dst src hi lo : Words src -> lo <= hi -> hi - lo + 1 < 2 ^ 32 ->
  hi / 64 < len src -> len dst = (hi - lo + 1 + 63) / 64 ->
  wres (ar_slice m dst src hi lo) (hi - lo + 1) ((wv src / 2 ^ lo) mod 2 ^ (hi - lo + 1)).
Proof.
  intros Ws Hlh Hhi Hls Hld. unfold ar_slice.
  rewrite range_ok by dlia. cbn [bind].
  set (n := hi / 64 + 1 - lo / 64).
  set (s := firstn (N.to_nat n) (skipn (N.to_nat (lo / 64)) src)).
  assert (Vs : wv s = (wv src / 2 ^ (64 * (lo / 64))) mod 2 ^ (64 * n)).
  { subst s. rewrite wv_firstn by auto. rewrite wv_skipn by auto. rewrite !N2Nat.id. auto. }
  assert (Ls : len s = n).
  { subst s. rewrite len_firstn; rewrite ?len_skipn; subst n; dlia. }
  assert (Wss : Words s) by (subst s; auto).
  rewrite (u32_sub_ok m hi lo) by auto.
  set (w := hi - lo + 1) in *.
  assert (Hw : 0 < w) by (subst w; dlia).
  assert (Hdl : len dst <= n) by (subst n w; dlia).
  assert (Hfin : lo mod 64 + w <= 64 * n) by (subst n w; dlia).
  assert (Hc : w <= 64 * len dst) by (rewrite Hld; auto).
  destruct (N.eqb_spec (lo mod 64) 0) as [E|E].
  - cbn [bind]. rewrite (u32_add_ok m (hi - lo) 1) by dlia. cbn [bind]. fold w.
    rewrite assign_long by dlia.
    eapply wres_eq; [apply mask_wres; auto|].
    + rewrite len_firstn; unfold len in *; dlia.
    + rewrite wv_firstn by auto. fold (len dst). rewrite mod_mod_le by auto.
      rewrite Vs, mod_mod_le by dlia. f_equal. f_equal. f_equal. dlia.
  - rewrite ar_mask_pos by dlia. cbn [bind].
    destruct s as [|s0 rest] eqn:Es. { nils. subst n. dlia. }
    unfold idx. change (N.to_nat 0) with O. cbn [nth_error bind skipn].
    rewrite (u32_add_ok m (hi - lo) 1) by dlia. cbn [bind]. fold w.
    inversion Wss as [|? ? Hs0 Wr]; subst x l.
    rewrite len_cons in Ls.
    assert (Hp : wshr s0 (lo mod 64) < 2 ^ (64 - lo mod 64)).
    { rewrite wshr_div by dlia. apply div_lt_pow.
      replace (lo mod 64 + (64 - lo mod 64)) with 64 by dlia. auto. }
    destruct (slice_loop_ok (64 - lo mod 64) (lo mod 64) (wshr s0 (lo mod 64)) dst
                (rest ++ [0])) as (W & L & V); auto; try dlia.
    { rewrite len_app, len_cons. nils. dlia. }
    eapply wres_eq; [apply mask_wres; auto; rewrite L; auto|].
    rewrite V, mod_mod_le by auto.
    rewrite wv_snoc0.
    replace (wshr s0 (lo mod 64) + 2 ^ (64 - lo mod 64) * wv rest)
      with (wv (s0 :: rest) / 2 ^ (lo mod 64)).
    + rewrite Vs. apply slice_final; dlia.
    + rewrite wv_cons, wshr_div by dlia.
      replace (s0 + 2 ^ 64 * wv rest)
        with (s0 + (2 ^ (64 - lo mod 64) * wv rest) * 2 ^ (lo mod 64)).
      * rewrite N.div_add by auto. auto.
      * rewrite (pow_split (lo mod 64) 64) by dlia. ring.
Qed.

Lemma narrow_ok (f : list N -> list N -> res (list N)) (l : list N) w n (P : bool) :
  (P = true -> (w + 63) / 64 = 1) ->
  wres (f (value_vec_zeros w) l) w n ->
  wres (if P then
          let* o := range (value_vec_zeros w) 0 1 in
          let* o := f o l in Ok (splice (value_vec_zeros w) 0 o)
        else f (value_vec_zeros w) l) w n.
Proof.
  intros HP (r & Hf & Hl & Wl & Vl). exists r. split; auto.
  destruct P; auto. specialize (HP eq_refl).
  rewrite range_all by (rewrite zeros_len; auto). cbn [bind]. rewrite Hf. cbn [bind].
  rewrite splice_all; auto. apply len_length. rewrite zeros_len. auto.
Qed.

Lemma slice_ok m a w x msb lsb : is_bv a w x -> lsb <= msb -> msb < w ->
  yields (bv_slice m a msb lsb) (msb - lsb + 1) ((x / 2 ^ lsb) mod 2 ^ (msb - lsb + 1)).
Proof.
  intros Ha Hl Hm. apply is_bv_inv in Ha as (Wa & Hw & La & Fa & Va & Ba).
  unfold bv_slice. rewrite Wa. replace (msb <=? w) with true by dlia.
  replace (lsb <=? msb) with true by dlia. rewrite !debug_assert_true. cbn [bind].
  rewrite u32_sub_ok by auto. cbn [bind]. rewrite u32_add_ok by dlia. cbn [bind].
  apply wres_yields; [dlia|auto|].
  apply (narrow_ok (fun o l => ar_slice m o l msb lsb)); [dlia|].
  rewrite <- Va. apply slice_wres; auto; try dlia. rewrite zeros_len. auto.
Qed.

(** ** concat *)

Lemma skipn_zeros w n : skipn n (value_vec_zeros w) = repeat 0 (N.to_nat (div_ceil w 64) - n).
Proof.
  unfold value_vec_zeros. generalize (N.to_nat (div_ceil w 64)). intros k.
  revert n. induction k; intros [|n]; auto. cbn [repeat skipn Nat.sub]. auto.
Qed.

Lemma firstn_app_l {A} (a b : list A) n : (n <= length a)%nat -> firstn n (a ++ b) = firstn n a.
Proof.
  intros H. rewrite firstn_app. replace (n - length a)%nat with O by dlia.
  cbn [firstn]. apply app_nil_r.
Qed.
Lemma skipn_app_exact {A} (a b : list A) n : n = length a -> skipn n (a ++ b) = b.
Proof. intros ->. rewrite skipn_app, Nat.sub_diag, skipn_all. auto. Qed.
Lemma firstn_app_exact {A} (a b : list A) n : n = length a -> firstn n (a ++ b) = a.
Proof. intros ->. rewrite firstn_app_l by dlia. apply firstn_all. Qed.

Lemma nth_last (t : list N) x : nth (length t) (t ++ [x]) 0 = x.
Proof. rewrite app_nth2, Nat.sub_diag; auto. Qed.

Lemma concat_wres m a b wa wb x y : is_bv a wa x -> is_bv b wb y -> wa + wb < 2 ^ 32 ->
  wres (ar_concat m (value_vec_zeros (wa + wb)) (words a) (words b) wb) (wa + wb)
       (x * 2 ^ wb + y).
Proof.
  intros Ha Hb Hw.
  apply is_bv_inv in Ha as (Wa & _ & La & Fa & Va & Ba).
  apply is_bv_inv in Hb as (Wb & _ & Lb & Fb & Vb & Bb).
  unfold ar_concat. set (z := value_vec_zeros (wa + wb)).
  assert (Lz : len z = (wa + wb + 63) / 64) by apply zeros_len.
  rewrite (assign_short z (words b)) by dlia.
  destruct (N.eqb_spec (wb mod 64) 0) as [E|E].
  - rewrite firstn_app_exact, skipn_app_exact by auto.
    rewrite assign_long by (rewrite len_skipn; fold (len (words b)); dlia).
    rewrite firstn_all2.
    2:{ unfold z, len in *. rewrite skipn_length. dlia. }
    eexists. split; [reflexivity|]. rewrite len_app, La, Lb. split; [dlia|].
    split; auto. rewrite wv_app, Va, Vb. replace (64 * len (words b)) with wb by dlia. dlia.
  - rewrite ar_mask_pos by dlia. cbn [bind].
    rewrite usz_sub_ok by dlia. cbn [bind].
    destruct (rev_cons_inv (words b)) as (t & p & Eb).
    { intros Eb. rewrite Eb in Lb. nils. dlia. }
    rewrite Eb in *. rewrite len_app, len_cons in *. nils. rewrite N.add_0_l in *.
    replace (len t + 1 - 1) with (len t) in * by dlia.
    rewrite <- app_assoc. rewrite idx_ok by (rewrite !len_app, !len_cons; dlia).
    replace (N.to_nat (len t)) with (length t) by (unfold len; dlia).
    rewrite app_nth2, Nat.sub_diag by dlia. cbn [nth app].
    rewrite app_nth1 || cbn [nth]. cbn [bind].
    rewrite firstn_app_exact, skipn_app_exact by auto.
    rewrite app_length. cbn [length].
    apply Forall_app in Fb as [Ft Fp]. inversion Fp as [|? ? Hp _]; subst x0 l.
    rewrite wv_app, wv_cons in Vb. nils. rewrite N.mul_0_r, N.add_0_r in Vb.
    assert (Ewb : wb = 64 * len t + wb mod 64) by dlia.
    assert (Hp' : p < 2 ^ (wb mod 64)).
    { rewrite <- (add_mul_div (wv t) p (64 * len t)) by (apply wv_bound; auto).
      apply div_lt_pow. rewrite Vb, <- Ewb. auto. }
    rewrite concat_loop_slice.
    destruct (slice_loop_ok (wb mod 64) (64 - wb mod 64) p
                (p :: skipn (length t + 1) z) (words a ++ [0])) as (W & L & V);
      auto; try dlia.
    { rewrite len_app, !len_cons, len_skipn. nils. unfold len in *. dlia. }
    rewrite len_cons, len_skipn in L, V. rewrite Lz in L, V.
    eexists. split; [reflexivity|]. rewrite len_app, L.
    assert (Lt : len t = N.of_nat (length t)) by reflexivity.
    split; [dlia|]. split; auto.
    rewrite wv_app, V, wv_snoc0, Va.
    rewrite N.mod_small.
    + rewrite N.mul_add_distr_l, N.mul_assoc, <- N.pow_add_r, <- Ewb. rewrite <- Vb. ring.
    + eapply N.lt_le_trans; [apply (add_mul_lt p x (wb mod 64) wa); auto|].
      apply pow_le. dlia.
Qed.

Lemma concat_lt x y wa wb : x < 2 ^ wa -> y < 2 ^ wb -> x * 2 ^ wb + y < 2 ^ (wa + wb).
Proof.
  intros Hx Hy. rewrite N.add_comm, N.mul_comm, (N.add_comm wa). apply add_mul_lt; auto.
Qed.

Lemma concat_any m a b wa wb x y : is_bv a wa x -> is_bv b wb y ->
  0 < wa /\ 0 < wb \/ 64 < wa + wb -> wa + wb < 2 ^ 32 ->
  yields (bv_concat m a b) (wa + wb) (x * 2 ^ wb + y).
Proof.
  intros Ha Hb Hpos Hw.
  destruct (concat_wres m a b wa wb x y) as (l & Hf & Hl & Wl & Vl); auto.
  apply is_bv_inv in Ha as (Wa & _ & La & Fa & Va & Ba).
  apply is_bv_inv in Hb as (Wb & _ & Lb & Fb & Vb & Bb).
  exists (mkbv (wa + wb) l). split; [|apply is_bv_intro; auto using concat_lt].
  unfold bv_concat. rewrite Wa, Wb, u32_add_ok by auto. cbn [bind].
  destruct (N.leb_spec (wa + wb) 64) as [E|E].
  - rewrite !range_all by (rewrite ?zeros_len; dlia). cbn [bind].
    rewrite Hf. cbn [bind]. rewrite splice_all; auto.
    apply len_length. rewrite zeros_len. auto.
  - rewrite Hf. auto.
Qed.

Lemma concat_ok m a b wa wb x y : is_bv a wa x -> is_bv b wb y -> 0 < wa -> 0 < wb ->
  wa + wb < 2 ^ 32 ->
  yields (bv_concat m a b) (wa + wb) (x * 2 ^ wb + y).
Proof. intros. apply concat_any; auto. Qed.

(** ** is_neg *)

Lemma is_neg_words m l w : 0 < w -> Words l -> len l = (w + 63) / 64 ->
  ar_is_neg m l w = Ok (N.testbit (wv l) (w - 1)).
Proof.
  intros Hw Wl Hl. unfold ar_is_neg. rewrite u32_sub_ok by dlia. cbn [bind].
  destruct (rev_cons_inv l) as (t & x & E). { intros ->. nils. dlia. }
  subst l. rewrite last_opt_app. cbn [unwrap bind].
  rewrite wshr_testbit by dlia. f_equal.
  rewrite wv_testbit by auto. rewrite len_app, len_cons in Hl. nils.
  replace (N.to_nat ((w - 1) / 64)) with (length t) by (unfold len in Hl; dlia).
  rewrite nth_last. auto.
Qed.

Lemma testbit_top w n : 0 < w -> n < 2 ^ w -> N.testbit n (w - 1) = (2 ^ (w - 1) <=? n).
Proof.
  intros Hw Hn. pose proof (pow_S (w - 1)) as P. replace (w - 1 + 1) with w in P by dlia.
  rewrite N.testbit_eqb. pose proof (pow_pos (w - 1)) as Q.
  destruct (N.leb_spec (2 ^ (w - 1)) n).
  - replace (n / 2 ^ (w - 1)) with 1; auto.
    apply (N.div_unique _ _ 1 (n - 2 ^ (w - 1))); lia.
  - rewrite N.div_small by auto. auto.
Qed.

Lemma is_neg_ok m a w x : 0 < w -> is_bv a w x ->
  ar_is_neg m (words a) w = Ok (2 ^ (w - 1) <=? x).
Proof.
  intros Hw Ha. apply is_bv_inv in Ha as (Wa & _ & La & Fa & Va & Ba).
  rewrite is_neg_words by auto. rewrite Va, testbit_top by auto. auto.
Qed.

(** ** Filling the words above position [p] with ones *)

Lemma on_tail_ok dst n f : n <= len dst ->
  on_tail dst n f = Ok (firstn (N.to_nat n) dst ++ f (skipn (N.to_nat n) dst)).
Proof.
  intros H. unfold on_tail. rewrite range_ok by dlia. cbn [bind].
  rewrite (firstn_all2 (skipn (N.to_nat n) dst)); auto. rewrite skipn_length. unfold len in *. dlia.
Qed.

(** the words from [q] on, when the value is below 2^(64 q) *)
Lemma wv_split3 l q : Words l -> (q < length l)%nat ->
  wv l = wv (firstn q l) + 2 ^ (64 * N.of_nat q)
         * (nth q l 0 + 2 ^ 64 * wv (skipn (S q) l)).
Proof.
  intros Wl Hq. rewrite (nth_split l q Hq) at 1. rewrite wv_app, wv_cons.
  rewrite len_firstn by (unfold len; dlia). auto.
Qed.

Lemma fill_arith A Q n B C E : C <= B -> 1 <= E ->
  A + Q * (n + (B - C) + B * (E - 1)) = A + Q * n + (Q * (B * E) - Q * C).
Proof.
  intros H1 H2.
  assert (exists B', B = C + B') as [B' ->] by (exists (B - C); lia).
  assert (exists E', E = 1 + E') as [E' ->] by (exists (E - 1); lia).
  replace (C + B' - C) with B' by lia.
  replace (1 + E' - 1) with E' by lia.
  rewrite <- N.mul_sub_distr_l.
  replace ((C + B') * (1 + E') - C) with (B' + (C + B') * E') by lia.
  ring.
Qed.

Lemma fill_ones l p : Words l -> 0 < p -> p <= 64 * len l -> wv l < 2 ^ p ->
  let q := N.to_nat ((p - 1) / 64) in
  let r := (p - 1) mod 64 in
  nth q l 0 < 2 ^ (r + 1)
  /\ wv (firstn q l ++ (nth q l 0 + (2 ^ 64 - 2 ^ (r + 1))) :: map (fun _ => WMAX) (skipn (S q) l))
     = wv l + (2 ^ (64 * len l) - 2 ^ p).
Proof.
  intros Wl Hp Hpl Hv q r.
  assert (Hq : (q < length l)%nat) by (unfold q, len in *; dlia).
  assert (Ep : p = 64 * N.of_nat q + (r + 1)) by (unfold q, r; dlia).
  pose proof (wv_split3 l q Wl Hq) as E.
  assert (Bt : nth q l 0 + 2 ^ 64 * wv (skipn (S q) l) < 2 ^ (r + 1)).
  { rewrite Ep in Hv. apply div_lt_pow in Hv. rewrite E in Hv.
    rewrite add_mul_div in Hv; auto.
    pose proof (wv_bound (firstn q l)) as B. rewrite len_firstn in B by (unfold len; dlia). auto. }
  assert (Hr : 2 ^ (r + 1) <= 2 ^ 64) by (apply pow_le; unfold r; dlia).
  split; [lia|].
  assert (Hz : wv (skipn (S q) l) = 0) by nia.
  rewrite wv_app, wv_cons, wv_mapmax, len_skipn, len_firstn by (unfold len; dlia).
  rewrite E, Hz, Ep.
  assert (El : 2 ^ (64 * len l)
               = 2 ^ (64 * N.of_nat q) * (2 ^ 64 * 2 ^ (64 * (len l - N.of_nat (S q))))).
  { rewrite <- !N.pow_add_r. f_equal. unfold len in *. dlia. }
  rewrite El, (N.pow_add_r 2 (64 * N.of_nat q) (r + 1)).
  pose proof (pow_pos (64 * N.of_nat q)) as P1.
  pose proof (pow_pos (64 * (len l - N.of_nat (S q)))) as P2.
  rewrite N.mul_0_r, N.add_0_r.
  apply fill_arith; auto. clear - P2; lia.
Qed.

(** OR-ing ones above bit [r] of a word *)
Lemma lor_top d r : r < 63 -> d < 2 ^ (r + 1) ->
  N.lor d (wshl (2 ^ (64 - (r + 1)) - 1) (r + 1)) = d + (2 ^ 64 - 2 ^ (r + 1)).
Proof.
  intros Hr Hd. rewrite wshl_mul by lia.
  assert (E : 2 ^ (r + 1) * (2 ^ (64 - (r + 1)) - 1) = 2 ^ 64 - 2 ^ (r + 1)).
  { rewrite (pow_split (r + 1) 64) by lia. rewrite N.mul_sub_distr_l. lia. }
  rewrite <- E, N.mod_small.
  - apply lor_add; auto.
  - rewrite E. pose proof (pow_pos (r + 1)). pose proof (pow_pos 64). lia.
Qed.

(** The two statements the code uses to fill: OR into the top word (skipped
    when all of it is used), then overwrite the rest. *)
Lemma bind_bind_ok {A B C} (e : res A) (f : A -> res B) (g : B -> res C) l :
  bind e f = Ok l -> bind e (fun d => bind (f d) g) = g l.
Proof. destruct e; cbn [bind]; [intros ->; auto|discriminate]. Qed.

Definition fill_top (l : list N) (p : N) : res (list N) :=
  let q := (p - 1) / 64 in
  let r := (p - 1) mod 64 in
  let* l :=
    (if r <? 63 then
       let* k := ar_mask (64 - (r + 1)) in
       let* old := idx l q in
       set_idx l q (N.lor old (wshl k (r + 1)))
     else Ok l) in
  on_tail l (q + 1) (map (fun _ => WMAX)).

Lemma fill_top_ok l p : Words l -> 0 < p -> p <= 64 * len l -> wv l < 2 ^ p ->
  exists l', fill_top l p = Ok l' /\ Words l' /\ len l' = len l
             /\ wv l' = wv l + (2 ^ (64 * len l) - 2 ^ p).
Proof.
  intros Wl Hp Hpl Hv. destruct (fill_ones l p Wl Hp Hpl Hv) as (Hn & Hf).
  set (q := (p - 1) / 64) in *. set (r := (p - 1) mod 64) in *.
  assert (Hq : q < len l) by (unfold q; dlia).
  assert (Hr : r <= 63) by (unfold r; dlia).
  eexists. split; [|split; [|split; [|exact Hf]]].
  - unfold fill_top. fold q r. destruct (N.ltb_spec r 63) as [E|E].
    + rewrite ar_mask_pos by lia. cbn [bind]. rewrite idx_ok by auto. cbn [bind].
      rewrite set_idx_ok by auto. cbn [bind]. rewrite lor_top by auto.
      set (d := _ + _).
      replace (firstn (N.to_nat q) l ++ d :: skipn (S (N.to_nat q)) l)
        with ((firstn (N.to_nat q) l ++ [d]) ++ skipn (S (N.to_nat q)) l)
        by (rewrite <- app_assoc; auto).
      assert (Hl : length (firstn (N.to_nat q) l ++ [d]) = N.to_nat (q + 1)).
      { rewrite app_length, firstn_length. cbn [length]. unfold len in *. lia. }
      rewrite on_tail_ok.
      * rewrite firstn_app_exact, skipn_app_exact by auto. rewrite <- app_assoc. auto.
      * rewrite len_app. unfold len. rewrite Hl. lia.
    + replace r with 63 by lia. cbn [bind]. change (2 ^ (63 + 1)) with (2 ^ 64).
      rewrite N.sub_diag, N.add_0_r. rewrite on_tail_ok by lia.
      f_equal. replace (N.to_nat (q + 1)) with (S (N.to_nat q)) by lia.
      rewrite (nth_split l (N.to_nat q)) at 1 by (unfold len in Hq; lia).
      change (nth (N.to_nat q) l 0 :: skipn (S (N.to_nat q)) l)
        with ([nth (N.to_nat q) l 0] ++ skipn (S (N.to_nat q)) l).
      rewrite app_assoc, firstn_app_exact.
      * rewrite <- app_assoc. auto.
      * rewrite app_length, firstn_length. cbn [length]. unfold len in *. lia.
  - apply Words_app; auto. constructor; auto.
    pose proof (pow_le (r + 1) 64). lia.
  - rewrite len_app, len_cons, len_map, len_firstn, len_skipn by lia. unfold len in *. lia.
Qed.

Lemma fill_mask x p w k : x < 2 ^ p -> p <= w -> w <= k ->
  (x + (2 ^ k - 2 ^ p)) mod 2 ^ w = x + (2 ^ w - 2 ^ p).
Proof.
  intros Hx Hp Hw. pose proof (pow_le p w Hp) as P1. pose proof (pow_pos p).
  assert (E : 2 ^ k = 2 ^ w + (2 ^ (k - w) - 1) * 2 ^ w).
  { rewrite (pow_split w k) by auto. pose proof (pow_pos (k - w)). nia. }
  assert (Y : forall K, x + (2 ^ w + K - 2 ^ p) = x + (2 ^ w - 2 ^ p) + K)
    by (intros; lia).
  rewrite E, Y.
  rewrite N.mod_add by auto. apply N.mod_small. lia.
Qed.

(** ** zero_extend *)

Lemma bv_words_pos a w x : is_bv a w x -> 0 < w -> 0 < len (words a).
Proof. intros Ha Hw. apply is_bv_inv in Ha as (_ & _ & -> & _). dlia. Qed.

Lemma zero_extend_wres a w x ow : is_bv a w x -> w <= ow ->
  wres (ar_zero_extend (value_vec_zeros ow) (words a)) ow x.
Proof.
  intros Ha Hw. apply is_bv_inv in Ha as (Wa & _ & La & Fa & Va & Ba).
  unfold ar_zero_extend. pose proof (zeros_len ow) as Lz.
  assert (L1 : len (words a) <= len (value_vec_zeros ow)) by (rewrite La, Lz; dlia).
  rewrite on_tail_ok by (rewrite assign_len; auto).
  rewrite assign_short by auto.
  rewrite firstn_app_exact, skipn_app_exact by (unfold len; lia).
  eexists. split; [reflexivity|]. unfold ar_clear.
  rewrite len_app, len_map, len_skipn. fold (len (words a)).
  split; [lia|]. split; auto. rewrite wv_app, wv_map0. lia.
Qed.

Lemma zero_extend_any m a w x by_ : is_bv a w x -> 0 < w \/ 64 < by_ -> w + by_ < 2 ^ 32 ->
  yields (bv_zero_extend m a by_) (w + by_) x.
Proof.
  intros Ha Hw0 Hw. pose proof (zero_extend_wres a w x (w + by_) Ha) as Hz.
  destruct Hz as (l & Hf & Hl & Wl & Vl); [lia|].
  pose proof Ha as Ha'. apply is_bv_inv in Ha as (Wa & _ & La & Fa & Va & Ba).
  assert (Hx : x < 2 ^ (w + by_)).
  { eapply N.lt_le_trans; [exact Ba|]. apply pow_le. lia. }
  unfold bv_zero_extend. rewrite Wa, u32_add_ok by auto. cbn [bind].
  exists (mkbv (w + by_) l). split; [|apply is_bv_intro; auto].
  - destruct (N.leb_spec (w + by_) 64) as [E1|E1].
    + rewrite !range_all by (rewrite ?zeros_len; dlia). cbn [bind].
      rewrite Hf. cbn [bind]. rewrite splice_all; auto.
      apply len_length. rewrite zeros_len. auto.
    + rewrite Hf. auto.
Qed.

Lemma zero_extend_ok m a w x by_ : is_bv a w x -> 0 < w -> w + by_ < 2 ^ 32 ->
  yields (bv_zero_extend m a by_) (w + by_) x.
Proof. intros. apply zero_extend_any; auto. Qed.

(** ** sign_extend *)

Lemma sign_extend_wres m a w x ow : is_bv a w x -> 0 < w -> w <= ow -> ow < 2 ^ 32 ->
  wres (ar_sign_extend m (value_vec_zeros ow) (words a) w ow) ow
       (if 2 ^ (w - 1) <=? x then x + (2 ^ ow - 2 ^ w) else x).
Proof.
  intros Ha Hw0 Hw How. pose proof (zero_extend_wres a w x ow Ha Hw) as Hz.
  pose proof (is_neg_ok m a w x Hw0 Ha) as Hn.
  apply is_bv_inv in Ha as (Wa & _ & La & Fa & Va & Ba).
  unfold ar_sign_extend. rewrite Hn. cbn [bind].
  destruct (2 ^ (w - 1) <=? x); [|exact Hz].
  pose proof (zeros_len ow) as Lz.
  assert (L1 : len (words a) <= len (value_vec_zeros ow)) by (rewrite La, Lz; dlia).
  set (d := ar_assign (value_vec_zeros ow) (words a)).
  assert (Ld : len d = (ow + 63) / 64) by (unfold d; rewrite assign_len; auto).
  assert (Ed : d = words a ++ skipn (length (words a)) (value_vec_zeros ow)).
  { unfold d. apply assign_short. auto. }
  assert (Wd : Words d). { rewrite Ed. apply Words_app; auto. rewrite skipn_zeros. auto. }
  assert (Vd : wv d = x). { rewrite Ed, skipn_zeros, wv_app, wv_repeat0. lia. }
  destruct (fill_top_ok d w) as (l' & Hf & Wl & Ll & Vl); auto.
  { rewrite Ld. dlia. } { rewrite Vd. auto. }
  assert (Efill : (let* dst :=
      (if 0 <? w mod 64 then
         let msbs_in_msb := 64 - w mod 64 in
         let* k := ar_mask msbs_in_msb in
         let* old := idx d (len (words a) - 1) in
         set_idx d (len (words a) - 1) (N.lor old (wshl k (w mod 64)))
       else Ok d) in on_tail dst (len (words a)) ar_set) = Ok l').
  { rewrite <- Hf. unfold fill_top. rewrite La.
    replace ((w + 63) / 64 - 1) with ((w - 1) / 64) by dlia.
    replace ((w + 63) / 64) with ((w - 1) / 64 + 1) by dlia.
    unfold ar_set. destruct (N.ltb_spec 0 (w mod 64)) as [E|E].
    - replace ((w - 1) mod 64 <? 63) with true by dlia.
      replace ((w - 1) mod 64 + 1) with (w mod 64) by dlia. auto.
    - replace ((w - 1) mod 64 <? 63) with false by dlia. auto. }
  cbn zeta in Efill |- *.
  eapply wres_eq.
  - rewrite (bind_bind_ok _ _ (fun dst => ar_mask_msb m dst ow) _ Efill).
    apply mask_wres; auto; lia.
  - rewrite Vl, Vd. apply fill_mask; auto. rewrite Ld. dlia.
Qed.

Lemma sign_ext_spec w ow x : 0 < w -> w <= ow -> x < 2 ^ w ->
  (if 2 ^ (w - 1) <=? x then x + (2 ^ ow - 2 ^ w) else x) = wrap ow (signed w x).
Proof.
  intros Hw Ho Hx. unfold signed, wrap.
  pose proof (pow_le w ow Ho) as P. pose proof (pow_pos ow) as Q.
  pose proof (pow_pos w) as Q'.
  assert (Zp : forall k, (2 ^ Z.of_N k)%Z = Z.of_N (2 ^ k)) by (intros; rewrite N2Z.inj_pow; auto).
  rewrite !Zp. rewrite (N.ltb_antisym _ x). destruct (N.leb_spec (2 ^ (w - 1)) x) as [E|E]; cbn [negb].
  - symmetry. rewrite <- (Z_mod_plus_full _ 1).
    rewrite Z.mod_small by lia. lia.
  - rewrite Z.mod_small by lia. lia.
Qed.

Lemma sign_extend_ok m a w x by_ : is_bv a w x -> 0 < w -> w + by_ < 2 ^ 32 ->
  yields (bv_sign_extend m a by_) (w + by_) (wrap (w + by_) (signed w x)).
Proof.
  intros Ha Hw0 Hw.
  destruct (sign_extend_wres m a w x (w + by_) Ha) as (l & Hf & Hl & Wl & Vl); auto; [lia|].
  pose proof Ha as Ha'. apply is_bv_inv in Ha as (Wa & _ & La & Fa & Va & Ba).
  rewrite sign_ext_spec in Vl by (auto; lia).
  unfold bv_sign_extend. rewrite Wa, u32_add_ok by auto. cbn [bind].
  assert (Hb : is_bv (mkbv (w + by_) l) (w + by_) (wrap (w + by_) (signed w x))).
  { apply is_bv_intro; auto. }
  exists (mkbv (w + by_) l). split; [|auto].
  - destruct (N.leb_spec (w + by_) 64) as [E1|E1].
    + rewrite !range_all by (rewrite ?zeros_len; dlia). cbn [bind].
      rewrite Hf. cbn [bind]. rewrite splice_all; auto.
      apply len_length. rewrite zeros_len. auto.
    + rewrite Hf. auto.
Qed.

(** ** shift amounts *)

Lemma existsb_nonzero l : existsb (fun w => negb (w =? 0)) l = negb (wv l =? 0).
Proof.
  induction l as [|x l IH]; auto. cbn [existsb]. rewrite wv_cons, IH.
  pose proof (pow_pos 64). lia.
Qed.

Lemma shift_amount_ok b w y wb : is_bv b wb y -> 0 < wb -> w < 2 ^ 32 ->
  ar_get_shift_amount (words b) w = Ok (if y <? w then Some y else None).
Proof.
  intros Hb Hw0 Hw. apply is_bv_inv in Hb as (Wb & _ & Lb & Fb & Vb & Bb).
  unfold ar_get_shift_amount. destruct (words b) as [|b0 t]. { nils. dlia. }
  cbn [skipn]. rewrite existsb_nonzero. unfold idx. change (N.to_nat 0) with O.
  cbn [nth_error bind]. rewrite wv_cons in Vb.
  inversion Fb as [|? ? Hb0 Ft]; subst x l.
  assert (P : 2 ^ 32 < 2 ^ 64) by (apply N.ltb_lt; reflexivity).
  destruct (N.eqb_spec (wv t) 0) as [E|E]; cbn [negb orb].
  - rewrite E, N.mul_0_r, N.add_0_r in Vb. subst b0.
    rewrite (N.leb_antisym y w). destruct (N.ltb_spec y w); cbn [negb]; auto.
    unfold as_u32. rewrite B32_eq, N.mod_small by lia. auto.
  - destruct (N.ltb_spec y w); auto. exfalso.
    assert (2 ^ 64 <= 2 ^ 64 * wv t) by nia. lia.
Qed.

(** ** shift_right *)

Lemma wv_splice0 part w n : len part <= n -> n = (w + 63) / 64 ->
  wv (splice (value_vec_zeros w) 0 part) = wv part
  /\ len (splice (value_vec_zeros w) 0 part) = n.
Proof.
  intros H Hn. unfold splice. change (N.to_nat 0) with O. cbn [firstn app Nat.add].
  rewrite skipn_zeros, wv_app, wv_repeat0, len_app, len_repeat, div_ceil_eq.
  split; [lia|]. unfold len in *. lia.
Qed.

Lemma clear_zeros w : ar_clear (value_vec_zeros w) = value_vec_zeros w.
Proof.
  unfold ar_clear, value_vec_zeros. induction (N.to_nat (div_ceil w 64)); auto.
  cbn [repeat map]. f_equal. auto.
Qed.

Lemma shift_right_words m a b w x y : is_bv a w x -> is_bv b w y -> 0 < w ->
  exists l, ar_shift_right m (value_vec_zeros w) (words a) (words b) w
            = Ok (l, if y <? w then Some y else None)
            /\ len l = (w + 63) / 64 /\ Words l
            /\ wv l = x / 2 ^ y.
Proof.
  intros Ha Hb Hw0. pose proof Ha as Ha'. pose proof Hb as Hb'.
  apply is_bv_inv in Ha as (Wa & Hw & La & Fa & Va & Ba).
  unfold ar_shift_right. rewrite clear_zeros.
  rewrite (shift_amount_ok b w y w) by auto. cbn [bind].
  destruct (N.ltb_spec y w) as [E|E].
  - rewrite !u32_sub_ok by lia. cbn [bind]. rewrite u32_sub_ok by lia. cbn [bind].
    rewrite u32_add_ok by lia. cbn [bind].
    rewrite div_ceil_eq. set (rw := w - 1 - y + 1).
    assert (Hr : (rw + 63) / 64 <= (w + 63) / 64) by (unfold rw; dlia).
    rewrite range_ok by (rewrite ?zeros_len; lia). cbn [bind].
    set (d0 := firstn _ _).
    destruct (slice_wres m d0 (words a) (w - 1) y) as (part & Hf & Hl & Wl & Vl);
      auto; try lia.
    { unfold d0. rewrite len_firstn; rewrite ?len_skipn, ?zeros_len; fold rw; lia. }
    rewrite Hf. cbn [bind]. fold rw in Hl, Vl.
    destruct (wv_splice0 part w ((w + 63) / 64)) as (V & L); auto; [lia|].
    eexists. split; [reflexivity|]. split; auto. split.
    + unfold splice. change (N.to_nat 0) with O. cbn [firstn app Nat.add].
      apply Words_app; auto. rewrite skipn_zeros. auto.
    + rewrite V, Vl, Va. apply N.mod_small. apply div_lt_pow.
      replace (y + rw) with w by (unfold rw; clear - E; lia). auto.
  - eexists. split; [reflexivity|]. rewrite zeros_len. split; auto.
    split; [apply zeros_words|]. rewrite zeros_val. symmetry. apply N.div_small.
    eapply N.lt_le_trans; [exact Ba|]. apply pow_le. auto.
Qed.

Lemma div_lt x y w : x < 2 ^ w -> x / 2 ^ y < 2 ^ w.
Proof. intros H. eapply N.le_lt_trans; [apply N.div_le_upper_bound with (q := x)|]; auto.
  pose proof (pow_pos y). nia. Qed.

Lemma shift_right_ok m a b w x y : is_bv a w x -> is_bv b w y -> 0 < w ->
  yields (bv_shift_right m a b) w (x / 2 ^ y).
Proof.
  intros Ha Hb Hw. unfold bv_shift_right.
  destruct (shift_right_words m a b w x y) as (l & Hf & Hl & Wl & Vl); auto.
  eapply arith_bin_fn_yields; eauto.
  - apply div_lt. apply is_bv_inv in Ha. tauto.
  - exists l. rewrite Hf. auto.
Qed.

(** ** arithmetic_shift_right *)

Lemma asr_spec w x y : 0 < w -> x < 2 ^ w ->
  wrap w (signed w x / 2 ^ Z.of_N y)
  = if 2 ^ (w - 1) <=? x then
      if y <? w then x / 2 ^ y + (2 ^ w - 2 ^ (w - y)) else 2 ^ w - 1
    else x / 2 ^ y.
Proof.
  intros Hw Hx. unfold signed, wrap.
  assert (Zp : forall k, (2 ^ Z.of_N k)%Z = Z.of_N (2 ^ k)) by (intros; rewrite N2Z.inj_pow; auto).
  rewrite !Zp. rewrite (N.ltb_antisym _ x).
  pose proof (pow_pos y) as Py. pose proof (pow_pos w) as Pw.
  destruct (N.leb_spec (2 ^ (w - 1)) x) as [E|E]; cbn [negb].
  - destruct (N.ltb_spec y w) as [Hy|Hy].
    + assert (E1 : (Z.of_N x - Z.of_N (2 ^ w)
                    = Z.of_N x + - Z.of_N (2 ^ (w - y)) * Z.of_N (2 ^ y))%Z).
      { rewrite (pow_split y w) by lia. lia. }
      rewrite E1, Z.div_add, <- N2Z.inj_div by lia.
      assert (B : x / 2 ^ y < 2 ^ (w - y)).
      { apply div_lt_pow. replace (y + (w - y)) with w by lia. auto. }
      assert (B2 : 2 ^ (w - y) <= 2 ^ w) by (apply pow_le; lia).
      pose proof (N.le_0_l (x / 2 ^ y)) as B3.
      rewrite <- (Z_mod_plus_full _ 1). rewrite Z.mod_small by lia. lia.
    + assert (E1 : ((Z.of_N x - Z.of_N (2 ^ w)) / Z.of_N (2 ^ y) = -1)%Z).
      { pose proof (pow_le w y Hy). symmetry.
        apply Z.div_unique with (r := (Z.of_N x - Z.of_N (2 ^ w) + Z.of_N (2 ^ y))%Z); lia. }
      rewrite E1, <- (Z_mod_plus_full _ 1), Z.mod_small by lia. lia.
  - rewrite <- N2Z.inj_div. pose proof (div_lt x y w Hx). pose proof (N.le_0_l (x / 2 ^ y)).
    rewrite Z.mod_small by lia. lia.
Qed.

Lemma max_mod k w : w <= k -> (2 ^ k - 1) mod 2 ^ w = 2 ^ w - 1.
Proof.
  intros H. symmetry. apply N.mod_unique with (q := 2 ^ (k - w) - 1).
  - pose proof (pow_pos w). lia.
  - rewrite (pow_split w k) by auto. pose proof (pow_pos (k - w)). pose proof (pow_pos w). nia.
Qed.

Lemma arithmetic_shift_right_wres m a b w x y : is_bv a w x -> is_bv b w y -> 0 < w ->
  wres (ar_arithmetic_shift_right m (value_vec_zeros w) (words a) (words b) w) w
       (wrap w (signed w x / 2 ^ Z.of_N y)).
Proof.
  intros Ha Hb Hw.
  destruct (shift_right_words m a b w x y) as (l & Hf & Hl & Wl & Vl); auto.
  pose proof (is_neg_ok m a w x Hw Ha) as Hn.
  apply is_bv_inv in Ha as (Wa & Hw' & La & Fa & Va & Ba).
  rewrite asr_spec by auto. unfold ar_arithmetic_shift_right. rewrite Hf, Hn. cbn [bind].
  destruct (2 ^ (w - 1) <=? x). 2:{ exists l. auto. }
  destruct (N.ltb_spec y w) as [E|E].
  - destruct (N.ltb_spec 0 y) as [Ey|Ey].
    + rewrite !u32_sub_ok by lia. cbn [bind]. rewrite u32_sub_ok by lia. cbn [bind].
      destruct (fill_top_ok l (w - y)) as (l' & Hf' & Wl' & Ll & Vl'); auto.
      { lia. } { rewrite Hl. dlia. }
      { rewrite Vl. apply div_lt_pow. replace (y + (w - y)) with w by lia. auto. }
      unfold fill_top in Hf'. cbn zeta in Hf'.
      eapply wres_eq.
      * rewrite (bind_bind_ok _ _ (fun dst => ar_mask_msb m dst w) _ Hf').
        apply mask_wres; auto; lia.
      * rewrite Vl', Vl. apply fill_mask; try lia.
        -- apply div_lt_pow. replace (y + (w - y)) with w by lia. auto.
    + replace y with 0 in * by lia. exists l. rewrite N.sub_0_r, N.sub_diag, N.add_0_r. auto.
  - eapply wres_eq.
    + apply mask_wres; auto. rewrite len_map. auto.
    + rewrite wv_mapmax, max_mod; auto. rewrite Hl. dlia.
Qed.

Lemma arithmetic_shift_right_ok m a b w x y : is_bv a w x -> is_bv b w y -> 0 < w ->
  yields (bv_arithmetic_shift_right m a b) w (wrap w (signed w x / 2 ^ Z.of_N y)).
Proof. intros Ha Hb Hw. eapply arith_bin_fn_yields; eauto. now apply arithmetic_shift_right_wres. Qed.

(** ** shift_left *)

(** What the code computes for every amount: the product reduced modulo
    2^w, except when the amount is a non-zero multiple of 64, where it is
    reduced modulo the storage size only. *)
Lemma shift_left_wres m a b w x y : is_bv a w x -> is_bv b w y -> 0 < w ->
  wres (ar_shift_left m (value_vec_zeros w) (words a) (words b) w) w
    (if w <=? y then 0
              else if y mod 64 =? 0 then (x * 2 ^ y) mod 2 ^ (64 * ((w + 63) / 64))
              else (x * 2 ^ y) mod 2 ^ w).
Proof.
  intros Ha Hb Hw. pose proof Ha as Ha'.
  pose proof (shift_amount_ok b w y w Hb Hw) as Hs.
  apply is_bv_inv in Ha as (Wa & Hw' & La & Fa & Va & Ba). specialize (Hs Hw').
  unfold ar_shift_left. rewrite Hs. cbn [bind]. rewrite (N.ltb_antisym w y).
  destruct (N.leb_spec w y) as [E|E]; cbn [negb].
  - rewrite clear_zeros. eexists. split; [reflexivity|]. rewrite zeros_len, zeros_val.
    auto using zeros_words.
  - set (z := repeat 0 (N.to_nat (y / 64))).
    assert (Vz : wv (z ++ words a) = 2 ^ (64 * (y / 64)) * x).
    { unfold z. rewrite wv_app, wv_repeat0, len_repeat, N2Nat.id, Va. auto. }
    assert (Lz : len (value_vec_zeros w) <= len (z ++ words a)).
    { rewrite zeros_len, len_app, La. lia. }
    assert (Wz : Words (z ++ words a)) by (unfold z; auto).
    destruct (N.eqb_spec (y mod 64) 0) as [E0|E0].
    + rewrite E0, shift_left_loop_0. change (0 <? 0) with false.
      rewrite assign_long by auto. eexists. split; [reflexivity|].
      rewrite len_firstn, wv_firstn by (auto; unfold len in *; lia).
      fold (len (value_vec_zeros w)). rewrite zeros_len. split; auto. split; auto.
      rewrite Vz. f_equal. replace (64 * (y / 64)) with y by dlia. lia.
    + rewrite shift_left_loop_slice by dlia.
      destruct (slice_loop_ok (y mod 64) (64 - y mod 64) 0 (value_vec_zeros w) (z ++ words a))
        as (W & L & V); auto; try dlia.
      rewrite zeros_len in L, V. rewrite Vz in V.
      replace (0 <? y mod 64) with true by dlia.
      eapply wres_eq; [apply mask_wres; auto|].
      rewrite V, mod_mod_le by dlia. f_equal.
      rewrite N.add_0_l, N.mul_assoc, <- N.pow_add_r.
      replace (y mod 64 + 64 * (y / 64)) with y by dlia. lia.
Qed.

Lemma shift_left_raw m a b w x y : is_bv a w x -> is_bv b w y -> 0 < w ->
  exists l, bv_shift_left m a b = Ok (mkbv w l)
    /\ len l = (w + 63) / 64 /\ Words l
    /\ wv l = if w <=? y then 0
              else if y mod 64 =? 0 then (x * 2 ^ y) mod 2 ^ (64 * ((w + 63) / 64))
              else (x * 2 ^ y) mod 2 ^ w.
Proof.
  intros Ha Hb Hw. destruct (shift_left_wres m a b w x y Ha Hb Hw) as (l & Hf & Hl & Wl & Vl).
  exists l. split; auto. unfold bv_shift_left. eapply arith_bin_fn_ok; eauto.
Qed.
