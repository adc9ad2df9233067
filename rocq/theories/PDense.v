(** * PDense: dense arrays (C37, C44, C45). *)

From Coq Require Import ZifyBool ZifyNat ZifyN.
From Verif Require Import Base Arith Map Bv Array Spec ArraySpec.
From Verif Require Import PWords PArith PShift PropsArith PConv PCompare PIo PRegister PStore.

Ltac Zify.zify_post_hook ::= idtac.

Lemma debug_assert_ok m b : b = true -> debug_assert m b = Ok tt.
Proof. intros ->. apply debug_assert_true. Qed.

Lemma shl1_ok m k : k < 64 -> u64_shl1 m k = Ok (2 ^ k).
Proof. intros H. unfold u64_shl1. replace (k <? 64) with true by lia. reflexivity. Qed.

Lemma usz_mul_ok m a b : a * b < 2 ^ 64 -> usz_mul m a b = Ok (a * b).
Proof.
  intros H. unfold usz_mul. rewrite B64_eq. destruct (a * b <? 2 ^ 64) eqn:E; [reflexivity|].
  apply N.ltb_ge in E. lia.
Qed.

Lemma as_u32_ok x : x < 2 ^ 32 -> as_u32 x = x.
Proof. intros H. unfold as_u32. rewrite B32_eq. now apply N.mod_small. Qed.

Lemma as_u8_ok x : x < 2 ^ 8 -> as_u8 x = x.
Proof. intros H. unfold as_u8. change 256 with (2 ^ 8). now apply N.mod_small. Qed.

Lemma addressable_iw iw dw : 0 < dw -> addressable iw dw -> iw < 64.
Proof.
  intros H [A A1]. destruct (N.eq_dec dw 1); [specialize (A1 e); lia|]. apply (N.pow_lt_mono_r_iff 2); [lia|].
  change (2 ^ 64) with (2 * 2 ^ 63). unfold dense_bytes in A. replace (dw =? 1) with false in A by lia.
  destruct (dw <=? 8); [lia|]. destruct (dw <=? 64); [lia|]. assert (1 <= (dw + 63) / 64) by dlia. nia.
Qed.

Lemma addressable_words iw dw : 64 < dw -> addressable iw dw -> 8 * (2 ^ iw * ((dw + 63) / 64)) < 2 ^ 63.
Proof.
  intros H [A _]. unfold dense_bytes in A. replace (dw =? 1) with false in A by lia.
  replace (dw <=? 8) with false in A by lia. replace (dw <=? 64) with false in A by lia.
  eapply N.le_lt_trans; [|exact A]. lia.
Qed.

Lemma capacity_ok n : n < 2 ^ 63 -> capacity n = Ok tt.
Proof. intros H. unfold capacity. replace (n <? 2 ^ 63) with true by (symmetry; now apply N.ltb_lt). reflexivity. Qed.
Lemma capacity_panic n : 2 ^ 63 <= n -> capacity n = Panic PCapacity.
Proof. intros H. unfold capacity. replace (n <? 2 ^ 63) with false by (symmetry; now apply N.ltb_ge). reflexivity. Qed.

Lemma unwrap_u64 v w x : is_bv v w x -> x < 2 ^ 64 -> unwrap (bv_to_u64 v) = Ok x.
Proof.
  intros H L. rewrite (to_u64_ok v w x H). replace (x <? 2 ^ 64) with true; [reflexivity|].
  symmetry. now apply N.ltb_lt.
Qed.

Lemma pow8_64 k : k <= 64 -> 2 ^ k <= 2 ^ 64.
Proof. intros. now apply pow_le. Qed.

(** ** Element view of a dense array *)
Definition delem (d : dense) (i : N) : N :=
  match d_data d with
  | DBit v => if N.testbit (uval v) i then 1 else 0
  | DU8 l | DU64 l => nth (N.to_nat i) l 0
  | DBig l => let k := (d_dw d + 63) / 64 in
      wv (firstn (N.to_nat k) (skipn (N.to_nat (k * i)) l))
  end.

Definition dense_wf (d : dense) : Prop :=
  (d_iw d < 64 /\ dense_bytes (d_iw d) (d_dw d) < 2 ^ 63) /\ 0 < d_dw d /\ d_dw d < 2 ^ 32
  /\ (forall i, i < 2 ^ d_iw d -> delem d i < 2 ^ d_dw d)
  /\ match d_data d with
     | DBit v => d_dw d = 1 /\ d_iw d < 32 /\ wf v /\ width v = 2 ^ d_iw d
     | DU8 l => 1 < d_dw d /\ d_dw d <= 8 /\ len l = 2 ^ d_iw d
     | DU64 l => 8 < d_dw d /\ d_dw d <= 64 /\ len l = 2 ^ d_iw d
     | DBig l => 64 < d_dw d /\ len l = (d_dw d + 63) / 64 * 2 ^ d_iw d
         /\ (d_dw d + 63) / 64 * 2 ^ d_iw d < 2 ^ 64 /\ Words l
     end.

Lemma mul_block k i n : i < n -> k * i + k <= k * n.
Proof. intros. nia. Qed.

Lemma select_usize_ok m d i : dense_wf d -> i < 2 ^ d_iw d ->
  yields (dense_select_usize m d i) (d_dw d) (delem d i).
Proof.
  intros (I & D0 & D & L & S) Hi. specialize (L i Hi). unfold dense_select_usize, delem in *.
  destruct (d_data d) as [v|l|l|l].
  - destruct S as (E & I32 & W & WW). assert (Hw := wf_is_bv v W). rewrite WW in Hw.
    rewrite as_u32_ok by (eapply N.lt_trans; [exact Hi|now apply pow_lt]).
    rewrite (is_bit_set_ok _ _ _ i Hw Hi). cbn [bind].
    destruct (bool_cases m (N.testbit (uval v) i)) as (b & -> & B & _). rewrite E.
    exists b. auto.
  - destruct S as (E1 & E2 & Ln). rewrite idx_ok by lia. cbn [bind].
    destruct (u64_round_trip m (nth (N.to_nat i) l 0) (d_dw d)) as (b & -> & B & _); auto.
    + eapply N.lt_le_trans; [exact L|apply pow8_64; lia].
    + exists b. auto.
  - destruct S as (E1 & E2 & Ln). rewrite idx_ok by lia. cbn [bind].
    destruct (u64_round_trip m (nth (N.to_nat i) l 0) (d_dw d)) as (b & -> & B & _); auto.
    + eapply N.lt_le_trans; [exact L|apply pow8_64; lia].
    + exists b. auto.
  - destruct S as (E1 & Ln & Sz & W). unfold words_per_element. rewrite div_ceil_eq.
    set (k := (d_dw d + 63) / 64) in *. assert (Bl := mul_block k i _ Hi).
    rewrite usz_mul_ok by (clear - Bl Sz; lia). cbn [bind].
    rewrite range_ok by lia. cbn [bind].
    replace (k * i + k - k * i) with k by lia.
    eexists. split; [reflexivity|]. apply is_bv_intro; auto.
    rewrite len_firstn; [unfold k; lia|]. rewrite len_skipn. lia.
Qed.

Lemma index_lt index iw i : is_bv index iw i -> iw < 64 -> i < 2 ^ 64.
Proof.
  intros H I. assert (A := is_bv_lt _ _ _ H). eapply N.lt_trans; [exact A|now apply pow_lt].
Qed.

Lemma dense_select_ok m d index i : dense_wf d -> is_bv index (d_iw d) i ->
  yields (dense_select m d index) (d_dw d) (delem d i).
Proof.
  intros W H. unfold dense_select. destruct (is_bv_inv _ _ _ H) as (E & _ & _ & _ & _ & L).
  rewrite debug_assert_ok by lia. cbn [bind].
  rewrite (unwrap_u64 _ _ _ H) by (eapply index_lt; [exact H|apply W]). cbn [bind].
  now apply select_usize_ok.
Qed.

Lemma nth_set_N (l : list N) i v j : i < len l ->
  nth (N.to_nat j) (firstn (N.to_nat i) l ++ v :: skipn (S (N.to_nat i)) l) 0
  = if j =? i then v else nth (N.to_nat j) l 0.
Proof.
  intros H. rewrite nth_set by (unfold len in H; lia).
  destruct (j =? i) eqn:E.
  - replace (Nat.eqb (N.to_nat j) (N.to_nat i)) with true by lia. reflexivity.
  - replace (Nat.eqb (N.to_nat j) (N.to_nat i)) with false by lia. reflexivity.
Qed.

Lemma len_set {A} (l : list A) i v : i < len l ->
  len (firstn (N.to_nat i) l ++ v :: skipn (S (N.to_nat i)) l) = len l.
Proof.
  intros H. rewrite len_app, len_cons, len_firstn by lia. rewrite len_skipn. lia.
Qed.

Lemma Words_splice l a new : Words l -> Words new -> Words (splice l a new).
Proof.
  intros. unfold splice. apply Words_app; [|apply Words_app]; auto using Words_firstn, Words_skipn.
Qed.

(** Blocks of [k] words: replacing block [i] leaves the others alone. *)
Lemma block_splice (l : list N) k i j new n : i < n -> j < n -> len l = k * n -> len new = k ->
  firstn (N.to_nat k) (skipn (N.to_nat (k * j)) (splice l (k * i) new))
  = if j =? i then new else firstn (N.to_nat k) (skipn (N.to_nat (k * j)) l).
Proof.
  intros Hi Hj Hl Hn. assert (Bi := mul_block k i n Hi). assert (Bj := mul_block k j n Hj).
  assert (Ls : len (splice l (k * i) new) = len l) by (apply splice_len; lia).
  apply (nth_ext _ _ 0 0).
  - assert (A : len (firstn (N.to_nat k) (skipn (N.to_nat (k * j)) (splice l (k * i) new))) = k).
    { rewrite len_firstn; [lia|]. rewrite len_skipn. lia. }
    destruct (j =? i); [unfold len in *; lia|].
    assert (B : len (firstn (N.to_nat k) (skipn (N.to_nat (k * j)) l)) = k).
    { rewrite len_firstn; [lia|]. rewrite len_skipn. lia. }
    unfold len in *; lia.
  - intros q Hq. assert (Hk : (q < N.to_nat k)%nat) by (rewrite firstn_length in Hq; lia).
    rewrite nth_firstn, nth_skipn. replace (q <? N.to_nat k)%nat with true by lia.
    rewrite nth_splice by lia. rewrite Hn.
    destruct (j =? i) eqn:E.
    + assert (j = i) by lia. subst j.
      replace ((k * i <=? N.of_nat (N.to_nat (k * i) + q)) && (N.of_nat (N.to_nat (k * i) + q) <? k * i + k))
        with true by lia.
      f_equal. lia.
    + rewrite nth_firstn, nth_skipn. replace (q <? N.to_nat k)%nat with true by lia.
      assert (A : k * j + k <= k * i \/ k * i + k <= k * j) by (clear - E; nia).
      replace ((k * i <=? N.of_nat (N.to_nat (k * j) + q)) && (N.of_nat (N.to_nat (k * j) + q) <? k * i + k))
        with false by (clear - A Hk; lia).
      reflexivity.
Qed.

Lemma bool_le1 (b : bool) : (if b then 1 else 0) < 2 ^ 1.
Proof. destruct b; reflexivity. Qed.

Lemma dense_store_ok m d index i data x : dense_wf d -> is_bv index (d_iw d) i -> is_bv data (d_dw d) x ->
  exists d', dense_store m d index data = Ok d' /\ dense_wf d' /\ d_iw d' = d_iw d /\ d_dw d' = d_dw d
    /\ forall j, j < 2 ^ d_iw d -> delem d' j = if j =? i then x else delem d j.
Proof.
  intros Wf H Hd. unfold dense_store.
  destruct (is_bv_inv _ _ _ H) as (E & _ & _ & _ & _ & L).
  destruct (is_bv_inv _ _ _ Hd) as (Ed & _ & _ & _ & _ & Ld).
  rewrite debug_assert_ok by lia. cbn [bind].
  rewrite (unwrap_u64 _ _ _ H) by (eapply index_lt; [exact H|apply Wf]). cbn [bind].
  rewrite debug_assert_ok by lia. cbn [bind].
  destruct Wf as (I & D0 & D & Lt & S).
  (* it is enough to give the elements of the result *)
  cbv zeta. match goal with |- exists d', bind ?e _ = _ /\ _ =>
    cut (exists new, e = Ok new
      /\ (forall j, j < 2 ^ d_iw d -> delem (mkdense (d_iw d) (d_dw d) new) j = if j =? i then x else delem d j)
      /\ ((forall j, j < 2 ^ d_iw d -> delem (mkdense (d_iw d) (d_dw d) new) j < 2 ^ d_dw d) ->
          dense_wf (mkdense (d_iw d) (d_dw d) new))) end.
  { intros (new & -> & El & W'). cbn [bind]. eexists. split; [reflexivity|]. cbn [d_iw d_dw].
    split; [|auto]. apply W'. intros j Hj. rewrite El by auto.
    destruct (j =? i); [exact Ld|now apply Lt]. }
  unfold dense_wf, delem in *.
  destruct (d_data d) as [v|l|l|l].
  - destruct S as (E1 & I32 & W & WW). assert (Hw := wf_is_bv v W). rewrite WW in Hw.
    rewrite as_u32_ok by (eapply N.lt_trans; [exact L|now apply pow_lt]).
    rewrite (is_tru_ok _ _ _ Hd). cbn [bind]. rewrite E1 in *. change (1 =? 1) with true. cbn [andb].
    change (2 ^ 1) with 2 in Ld.
    destruct (x =? 1) eqn:X.
    + destruct (set_bit_bits _ _ _ i Hw L) as (v' & n & -> & Hv & Bt). cbn [bind].
      eexists. split; [reflexivity|]. cbn [d_data d_iw d_dw].
      assert (Hv' := Hv). destruct Hv' as (Wv & WWv & Uv). rewrite Uv. split.
      * intros j Hj. rewrite Bt. destruct (j =? i); [lia|reflexivity].
      * intros A. repeat (split; [now auto|]); auto.
    + destruct (clear_bit_bits _ _ _ i Hw L) as (v' & n & -> & Hv & Bt). cbn [bind].
      eexists. split; [reflexivity|]. cbn [d_data d_iw d_dw].
      assert (Hv' := Hv). destruct Hv' as (Wv & WWv & Uv). rewrite Uv. split.
      * intros j Hj. rewrite Bt. destruct (j =? i); [lia|reflexivity].
      * intros A. repeat (split; [now auto|]); auto.
  - destruct S as (E1 & E2 & Ln).
    rewrite (unwrap_u64 _ _ _ Hd) by (eapply N.lt_le_trans; [exact Ld|apply pow8_64; lia]). cbn [bind].
    rewrite as_u8_ok by (eapply N.lt_le_trans; [exact Ld|apply pow_le; lia]).
    rewrite set_idx_ok by lia. cbn [bind]. eexists. split; [reflexivity|]. cbn [d_data d_iw d_dw].
    split.
    + intros j Hj. apply nth_set_N. lia.
    + intros A. repeat (split; [now auto|]). rewrite len_set by lia. auto.
  - destruct S as (E1 & E2 & Ln).
    rewrite (unwrap_u64 _ _ _ Hd) by (eapply N.lt_le_trans; [exact Ld|apply pow8_64; lia]). cbn [bind].
    rewrite set_idx_ok by lia. cbn [bind]. eexists. split; [reflexivity|]. cbn [d_data d_iw d_dw].
    split.
    + intros j Hj. apply nth_set_N. lia.
    + intros A. repeat (split; [now auto|]). rewrite len_set by lia. auto.
  - destruct S as (E1 & Ln & Sz & W). unfold words_per_element. rewrite div_ceil_eq.
    destruct (is_bv_inv _ _ _ Hd) as (_ & _ & Lnd & Wd & Vd & _).
    set (k := (d_dw d + 63) / 64) in *. assert (Bl := mul_block k i _ L).
    rewrite usz_mul_ok by (clear - Bl Sz; lia). cbn [bind].
    rewrite range_ok by lia. cbn [bind].
    replace (k * i + k - k * i) with k by lia.
    rewrite (bv_assign_ok m _ data (d_dw d) (wv (firstn (N.to_nat k) (skipn (N.to_nat (k * i)) l)))).
    2:{ apply is_bv_intro; auto.
        rewrite len_firstn; [unfold k; lia|]. rewrite len_skipn. lia. }
    2:{ apply Hd. } 2:{ apply Hd. }
    cbn [bind]. eexists. split; [reflexivity|]. cbn [d_data d_iw d_dw]. fold k. split.
    + intros j Hj. rewrite (block_splice l k i j (words data) (2 ^ d_iw d)) by auto.
      destruct (j =? i); auto.
    + intros A. repeat (split; [now auto|]). rewrite splice_len by lia. split; [auto|]. split; [auto|].
      now apply Words_splice.
Qed.

Lemma nth_map0 (l : list N) n : nth n (map (fun _ => 0) l) 0 = 0.
Proof.
  revert n; induction l as [|x l IH]; intros [|n]; cbn; auto.
Qed.

Lemma skipn_map {A B} (f : A -> B) l n : skipn n (map f l) = map f (skipn n l).
Proof. revert l; induction n; destruct l; cbn; auto. Qed.

Lemma dense_clear_ok d : dense_wf d ->
  dense_wf (dense_clear d) /\ d_iw (dense_clear d) = d_iw d /\ d_dw (dense_clear d) = d_dw d
  /\ forall j, delem (dense_clear d) j = 0.
Proof.
  intros (I & D0 & D & L & S).
  assert (El : forall j, delem (dense_clear d) j = 0).
  { intros j. unfold delem, dense_clear. destruct (d_data d); cbn [d_data d_dw].
    - destruct S as (_ & _ & W & _). destruct (clear_ok _ _ _ (wf_is_bv v W)) as (_ & _ & U).
      rewrite U, N.bits_0. reflexivity.
    - apply nth_map0.
    - apply nth_map0.
    - rewrite skipn_map, firstn_map. apply wv_map0. }
  split; [|auto]. unfold dense_wf.
  change (d_iw (dense_clear d)) with (d_iw d). change (d_dw (dense_clear d)) with (d_dw d).
  repeat (split; [now auto|]). split.
  { intros i _. rewrite El. apply pow_pos. }
  unfold dense_clear. destruct (d_data d); cbn [d_data].
  - destruct S as (E1 & I32 & W & WW). destruct (clear_ok _ _ _ (wf_is_bv v W)) as (Wc & WWc & _).
    repeat (split; [now auto|]). congruence.
  - rewrite len_map. auto.
  - rewrite len_map. auto.
  - rewrite len_map. destruct S as (? & ? & ? & ?). auto using Words_map0.
Qed.

Lemma nth_repeat_lt {A} (x d : A) n k : (k < n)%nat -> nth k (repeat x n) d = x.
Proof. revert k; induction n; intros [|k] H; cbn; auto; try lia. apply IHn. lia. Qed.

Lemma block_repeat (b : list N) n j : (j < n)%nat ->
  firstn (length b) (skipn (length b * j) (concat (repeat b n))) = b.
Proof.
  revert n; induction j as [|j IH]; intros [|n] H; try lia; cbn [repeat concat].
  - rewrite Nat.mul_0_r. cbn [skipn]. apply firstn_app_exact. reflexivity.
  - replace (length b * S j)%nat with (length b + length b * j)%nat by lia.
    rewrite <- skipn_skipn. rewrite skipn_app_exact by reflexivity. apply IH. lia.
Qed.

Lemma len_concat_repeat {A} (b : list A) n : len (concat (repeat b n)) = len b * N.of_nat n.
Proof.
  induction n; cbn [repeat concat]; [now rewrite N.mul_0_r|].
  rewrite len_app, IHn. lia.
Qed.

Lemma Words_concat_repeat b n : Words b -> Words (concat (repeat b n)).
Proof. intros H. induction n; cbn [repeat concat]; [constructor|]. now apply Words_app. Qed.

(** The size the code computes, and the limit. *)
Definition dense_limit (m : mode) (iw dw : N) : Prop :=
  m = Release \/ (if 64 <? dw then (dw + 63) / 64 * 2 ^ iw else dense_bytes iw dw) <= 2 ^ 30.

Lemma approx_ok m iw dw : 0 < dw -> iw < 61 \/ dw <= 8 \/ 64 < dw -> addressable iw dw ->
  approx_dense_storage_size m iw dw
  = Ok (if 64 <? dw then (dw + 63) / 64 * 2 ^ iw else dense_bytes iw dw).
Proof.
  intros D0 HI A. assert (I := addressable_iw iw dw D0 A).
  unfold approx_dense_storage_size, dense_bytes. rewrite shl1_ok by auto. cbn [bind].
  destruct (dw =? 1) eqn:E1.
  { assert (dw = 1) by lia. subst. change (64 <? 1) with false. cbn iota. f_equal. unfold div_ceil.
    f_equal. lia. }
  destruct (dw <=? 8) eqn:E8.
  { replace (64 <? dw) with false by lia. reflexivity. }
  destruct (dw <=? 64) eqn:E64.
  { replace (64 <? dw) with false by lia. rewrite usz_mul_ok; [f_equal; lia|].
    change (2 ^ 64) with (2 ^ 61 * 8). apply N.mul_lt_mono_pos_r; [lia|]. apply pow_lt. lia. }
  replace (64 <? dw) with true by lia. rewrite div_ceil_eq. assert (Q := addressable_words iw dw ltac:(lia) A).
  rewrite usz_mul_ok by (change (2 ^ 64) with (2 * 2 ^ 63); lia).
  f_equal. lia.
Qed.

(** Release builds check nothing. *)
Lemma approx_release iw dw : exists s, approx_dense_storage_size Release iw dw = Ok s.
Proof.
  unfold approx_dense_storage_size, u64_shl1, usz_mul.
  destruct (iw <? 64); cbn [bind]; destruct (dw =? 1); eauto; destruct (dw <=? 8); eauto;
    destruct (dw <=? 64).
  all: match goal with |- context [?a <? B64] => destruct (a <? B64); eauto end.
Qed.

Lemma elements_ok m iw default : wf default -> 0 < width default -> addressable iw (width default) ->
  exists data,
    (if width default =? 1 then
       let* t := bv_is_tru default in
       if t then let* v := bv_ones m (as_u32 (2 ^ iw)) in Ok (DBit v)
       else let* _ := match m with
                      | Debug => let* f := bv_is_fals default in debug_assert m f
                      | Release => Ok tt end in
            Ok (DBit (bv_zero (as_u32 (2 ^ iw))))
     else if width default <=? 8 then
       let* d := unwrap (bv_to_u64 default) in let* _ := capacity (2 ^ iw) in Ok (DU8 (repeat (as_u8 d) (N.to_nat (2 ^ iw))))
     else if width default <=? 64 then
       let* d := unwrap (bv_to_u64 default) in let* _ := capacity (8 * 2 ^ iw) in Ok (DU64 (repeat d (N.to_nat (2 ^ iw))))
     else let* _ := usz_mul m (2 ^ iw) (len (words default)) in
          let* _ := capacity (8 * (2 ^ iw * len (words default))) in
          Ok (DBig (concat (repeat (words default) (N.to_nat (2 ^ iw)))))) = Ok data
    /\ dense_wf (mkdense iw (width default) data)
    /\ forall j, j < 2 ^ iw -> delem (mkdense iw (width default) data) j = uval default.
Proof.
  intros W D0 A. assert (I := addressable_iw _ _ D0 A). assert (AW := addressable_words iw (width default)).
  assert (Ad := A). destruct A as (A & A1).
  assert (H := wf_is_bv _ W).
  destruct (is_bv_inv _ _ _ H) as (_ & D & Ln & Wd & V & Lt).
  set (dw := width default) in *. set (x := uval default) in *.
  match goal with |- exists data, ?e = _ /\ _ =>
    cut (exists data, e = Ok data
      /\ (forall j, j < 2 ^ iw -> delem (mkdense iw dw data) j = x)
      /\ ((forall j, j < 2 ^ iw -> delem (mkdense iw dw data) j < 2 ^ dw) ->
          dense_wf (mkdense iw dw data))) end.
  { intros (data & -> & El & W'). exists data. split; [auto|]. split; [|auto].
    apply W'. intros j Hj. rewrite El by auto. exact Lt. }
  unfold dense_wf, delem. cbn [d_iw d_dw d_data].
  destruct (dw =? 1) eqn:E1.
  - assert (E : dw = 1) by lia. specialize (A1 E).
    rewrite as_u32_ok by (apply pow_lt; lia).
    assert (P : 2 ^ iw < 2 ^ 32) by (apply pow_lt; lia).
    assert (P0 := pow_pos iw).
    rewrite (is_tru_ok _ _ _ H). fold dw. rewrite E1. cbn [bind andb].
    rewrite E in Lt. change (2 ^ 1) with 2 in Lt.
    destruct (x =? 1) eqn:X.
    + destruct (ones_ok m (2 ^ iw) P0 P) as (v & -> & Hv). cbn [bind].
      eexists. split; [reflexivity|]. cbn [d_data]. destruct Hv as (Wv & WWv & Uv). split.
      * intros j Hj. rewrite Uv, testbit_ones_sub. replace (j <? 2 ^ iw) with true by lia. lia.
      * intros B. repeat (split; [now auto|]); auto.
    + assert (F : (match m with Debug => let* f := bv_is_fals default in debug_assert m f
                   | Release => Ok tt end) = Ok tt).
      { destruct m; [|reflexivity]. rewrite (is_fals_ok _ _ _ H). fold dw x. rewrite E1.
        cbn [bind andb]. apply debug_assert_ok. lia. }
      rewrite F. cbn [bind]. eexists. split; [reflexivity|].
      destruct (zero_is_bv _ P) as (Wv & WWv & Uv). split.
      * intros j Hj. rewrite Uv, N.bits_0. lia.
      * intros B. repeat (split; [now auto|]); auto.
  - destruct (dw <=? 8) eqn:E8.
    + rewrite (unwrap_u64 _ _ _ H) by (eapply N.lt_le_trans; [exact Lt|apply pow8_64; lia]). cbn [bind].
      rewrite capacity_ok by (clear - A E1 E8; unfold dense_bytes in A; rewrite E1, E8 in A; exact A). cbn [bind].
      fold x. rewrite as_u8_ok by (eapply N.lt_le_trans; [exact Lt|apply pow_le; lia]).
      eexists. split; [reflexivity|]. split.
      * intros j Hj. apply nth_repeat_lt. lia.
      * intros B. repeat (split; [now auto|]). rewrite len_repeat. lia.
    + destruct (dw <=? 64) eqn:E64.
      * rewrite (unwrap_u64 _ _ _ H) by (eapply N.lt_le_trans; [exact Lt|apply pow8_64; lia]). cbn [bind].
        rewrite capacity_ok by (clear - A E1 E8 E64; unfold dense_bytes in A; rewrite E1, E8, E64 in A; exact A).
        cbn [bind]. fold x. eexists. split; [reflexivity|]. split.
        -- intros j Hj. apply nth_repeat_lt. lia.
        -- intros B. repeat (split; [now auto|]). rewrite len_repeat. lia.
      * specialize (AW ltac:(lia) Ad). fold dw in AW.
        rewrite Ln. rewrite usz_mul_ok by (clear - AW; change (2 ^ 64) with (2 * 2 ^ 63); lia). cbn [bind].
        rewrite capacity_ok by exact AW. cbn [bind].
        eexists. split; [reflexivity|]. split.
        -- intros j Hj. rewrite <- Ln. unfold len. rewrite Nat2N.id.
           replace (N.to_nat (N.of_nat (length (words default)) * j))
             with (length (words default) * N.to_nat j)%nat by lia.
           rewrite block_repeat by lia. exact V.
        -- intros B. repeat (split; [now auto|]).
           rewrite len_concat_repeat, Ln. split; [lia|]. split; [lia|].
           split; [clear - AW; change (2 ^ 64) with (2 * 2 ^ 63); lia|].
           now apply Words_concat_repeat.
Qed.

Lemma dense_new_ok m iw default : wf default -> 0 < width default -> addressable iw (width default) ->
  dense_limit m iw (width default) ->
  exists d, dense_new m iw default = Ok d /\ dense_wf d /\ d_iw d = iw /\ d_dw d = width default
    /\ forall j, j < 2 ^ iw -> delem d j = uval default.
Proof.
  intros W D0 A Lim. assert (I := addressable_iw _ _ D0 A). unfold dense_new.
  assert (S : exists s, approx_dense_storage_size m iw (width default) = Ok s
                        /\ debug_assert m (s <=? DENSE_ARRAY_MAX_BYTES) = Ok tt).
  { destruct m.
    - destruct Lim as [Lim|Lim]; [discriminate|].
      rewrite approx_ok; auto.
      + eexists. split; [reflexivity|]. apply debug_assert_ok.
        change DENSE_ARRAY_MAX_BYTES with (2 ^ 30). now apply N.leb_le.
      + destruct (width default <=? 8) eqn:E8; [lia|].
        destruct (64 <? width default) eqn:E64; [lia|].
        unfold dense_bytes in Lim. rewrite E8 in Lim.
        replace (width default =? 1) with false in Lim by lia.
        replace (width default <=? 64) with true in Lim by lia.
        left. apply (N.pow_lt_mono_r_iff 2); [lia|]. change (2 ^ 30) with (1073741824) in Lim.
        change (2 ^ 61) with 2305843009213693952. lia.
    - destruct (approx_release iw (width default)) as (s & ->). exists s. split; reflexivity. }
  destruct S as (s & -> & Da). cbn [bind]. rewrite Da. cbn [bind]. rewrite shl1_ok by auto. cbn [bind].
  destruct (elements_ok m iw default W D0 A) as (data & -> & Wd & El). cbn [bind].
  eexists. split; [reflexivity|]. auto.
Qed.

Lemma dense_new_inv m iw default d : wf default -> 0 < width default -> addressable iw (width default) ->
  dense_new m iw default = Ok d ->
  dense_wf d /\ d_iw d = iw /\ d_dw d = width default /\ forall j, j < 2 ^ iw -> delem d j = uval default.
Proof.
  intros W D0 A E. assert (I := addressable_iw _ _ D0 A).
  unfold dense_new in E.
  destruct (approx_dense_storage_size m iw (width default)); [|discriminate]. cbn [bind] in E.
  destruct (debug_assert m (a <=? DENSE_ARRAY_MAX_BYTES)); [|discriminate]. cbn [bind] in E.
  rewrite shl1_ok in E by auto. cbn [bind] in E.
  destruct (elements_ok m iw default W D0 A) as (data & El & Wd & De). rewrite El in E. cbn [bind] in E.
  injection E as <-. auto.
Qed.

(** ** Histories *)
Definition dense_is (d : dense) (iw dw : N) (f : N -> N) : Prop :=
  dense_wf d /\ d_iw d = iw /\ d_dw d = dw /\ forall i, i < 2 ^ iw -> delem d i = f i.

Lemma dense_is_reads probe m d iw dw f : dense_is d iw dw f -> arr_is probe m (ADense d) iw dw f.
Proof.
  intros (W & <- & <- & F). split; [reflexivity|]. split; [reflexivity|].
  intros i Hi Wi. assert (H := wf_is_bv i Hi). rewrite Wi in H. cbn [array_select].
  rewrite <- F by (apply (is_bv_lt _ _ _ H)). now apply dense_select_ok.
Qed.

Lemma dense_step probe m d iw dw f op : dense_is d iw dw f -> arr_legal iw dw op ->
  exists d', arr_run probe m (ADense d) op = Ok (ADense d') /\ dense_is d' iw dw (arr_step f op).
Proof.
  intros (W & <- & <- & F) L. destruct op as [i x|]; cbn [arr_run array_store array_clear arr_step].
  - destruct L as (Hi & Wi & Hx & Wx).
    assert (A := wf_is_bv i Hi). rewrite Wi in A. assert (B := wf_is_bv x Hx). rewrite Wx in B.
    destruct (dense_store_ok m d i _ x _ W A B) as (d' & -> & W' & E1 & E2 & El). cbn [bind].
    exists d'. split; [reflexivity|]. split; [auto|]. split; [auto|]. split; [auto|].
    intros j Hj. rewrite El by auto. rewrite F by auto. reflexivity.
  - eexists. split; [reflexivity|]. destruct (dense_clear_ok d W) as (W' & E1 & E2 & El).
    split; [auto|]. split; [auto|]. split; [auto|]. intros j _. apply El.
Qed.

Lemma dense_history probe m d iw dw f ops : dense_is d iw dw f -> Forall (arr_legal iw dw) ops ->
  exists d', arr_run_all probe m (ADense d) ops = Ok (ADense d')
    /\ dense_is d' iw dw (fold_left arr_step ops f).
Proof.
  revert d f; induction ops as [|op ops IH]; intros d f D L; cbn [arr_run_all fold_left]; [eauto|].
  inversion L as [|? ? L1 L2]; subst.
  destruct (dense_step probe m d iw dw f op D L1) as (d1 & -> & D1). cbn [bind]. now apply IH.
Qed.

Lemma array_new_dense_inv m iw default a : wf default -> 0 < width default ->
  addressable iw (width default) -> array_new_dense m iw default = Ok a ->
  exists d, a = ADense d /\ dense_is d iw (width default) (fun _ => uval default).
Proof.
  intros W D A E. unfold array_new_dense in E. destruct (dense_new m iw default) eqn:N1; [|discriminate].
  cbn [bind] in E. injection E as <-. exists a0. split; [reflexivity|].
  now apply (dense_new_inv m iw default).
Qed.

Lemma dense_array_history probe m iw default ops a : wf default -> 0 < width default ->
  addressable iw (width default) -> array_new_dense m iw default = Ok a ->
  Forall (arr_legal iw (width default)) ops ->
  exists a', arr_run_all probe m a ops = Ok a' /\ array_is_dense a' = true
    /\ arr_is probe m a' iw (width default) (fold_left arr_step ops (fun _ => uval default)).
Proof.
  intros W D A E L. destruct (array_new_dense_inv m iw default a W D A E) as (d & -> & Di).
  destruct (dense_history probe m d _ _ _ ops Di L) as (d' & -> & Di').
  eexists. split; [reflexivity|]. split; [reflexivity|]. now apply dense_is_reads.
Qed.

(** ** Equality *)
Lemma nth_eq_lists (a b : list N) n : len a = n -> len b = n ->
  (forall i, i < n -> nth (N.to_nat i) a 0 = nth (N.to_nat i) b 0) <-> a = b.
Proof.
  intros A B. split; [|intros ->; auto]. intros H. apply (nth_ext _ _ 0 0); [unfold len in *; lia|].
  intros k Hk. rewrite <- (Nat2N.id k). apply H. unfold len in *. lia.
Qed.

Lemma blocks_eq (a b : list N) k n : len a = k * n -> len b = k * n -> Words a -> Words b ->
  (forall i, i < n -> wv (firstn (N.to_nat k) (skipn (N.to_nat (k * i)) a))
                      = wv (firstn (N.to_nat k) (skipn (N.to_nat (k * i)) b))) -> a = b.
Proof.
  intros A B Wa Wb H. apply (nth_eq_lists a b (k * n)); auto. intros p Hp.
  assert (K : k <> 0) by (intros ->; lia).
  assert (Q : p / k < n) by (apply N.div_lt_upper_bound; lia).
  assert (E := N.div_mod p k K). assert (M := N.mod_lt p k K).
  set (q := p / k) in *. set (r := p mod k) in *. assert (Bl := mul_block k q n Q).
  specialize (H q Q). apply wv_inj in H; auto using Words_firstn, Words_skipn.
  - assert (G : forall l : list N, nth (N.to_nat p) l 0
                = nth (N.to_nat r) (firstn (N.to_nat k) (skipn (N.to_nat (k * q)) l)) 0).
    { intros l. rewrite nth_firstn, nth_skipn. replace (N.to_nat r <? N.to_nat k)%nat with true by lia.
      f_equal. lia. }
    rewrite !G. now rewrite H.
  - rewrite !len_firstn; auto; rewrite len_skipn; lia.
Qed.

Lemma bits_eq (x y n : N) : x < 2 ^ n -> y < 2 ^ n ->
  (forall i, i < n -> N.testbit x i = N.testbit y i) -> x = y.
Proof.
  intros X Y H. apply N.bits_inj. intros i. destruct (i <? n) eqn:E; [apply H; lia|].
  rewrite (testbit_high x n i), (testbit_high y n i); auto; lia.
Qed.

Lemma dense_equal_ok m a b iw dw : dense_wf a -> dense_wf b -> d_iw a = iw -> d_iw b = iw ->
  d_dw a = dw -> d_dw b = dw ->
  exists r, dense_is_equal m a b = Ok (Some r)
    /\ (r = true <-> forall i, i < 2 ^ iw -> delem a i = delem b i).
Proof.
  intros (_ & _ & _ & _ & Sa) (_ & _ & _ & _ & Sb) <- I <- D. rewrite I, D in Sb.
  unfold dense_is_equal, delem. rewrite I, D, !N.eqb_refl. cbn [negb orb].
  destruct (d_data a) as [x|x|x|x], (d_data b) as [y|y|y|y];
    try (exfalso; destruct Sa as (? & ? & _), Sb as (? & ? & _); lia).
  - destruct Sa as (_ & _ & Wx & Wwx), Sb as (_ & _ & Wy & Wwy).
    assert (X := wf_is_bv x Wx). assert (Y := wf_is_bv y Wy). rewrite Wwx in X. rewrite Wwy in Y.
    rewrite (is_equal_ok m x y _ _ _ X Y). cbn [bind]. eexists. split; [reflexivity|].
    rewrite N.eqb_eq. split; [intros ->; auto|]. intros H.
    apply (bits_eq _ _ (2 ^ d_iw a)); [apply (is_bv_lt _ _ _ X)|apply (is_bv_lt _ _ _ Y)|].
    intros i Hi. specialize (H i Hi). destruct (N.testbit (uval x) i), (N.testbit (uval y) i); auto; discriminate.
  - eexists. split; [reflexivity|]. rewrite words_eqb_eq. symmetry. apply nth_eq_lists; [apply Sa|apply Sb].
  - eexists. split; [reflexivity|]. rewrite words_eqb_eq. symmetry. apply nth_eq_lists; [apply Sa|apply Sb].
  - eexists. split; [reflexivity|]. rewrite words_eqb_eq. split; [intros ->; auto|].
    destruct Sa as (_ & La & _ & Wa), Sb as (_ & Lb & _ & Wb). now apply blocks_eq.
Qed.

(** ** Arrays from slices *)
Lemma index_width_ok n : n <= 2 ^ index_width_from_len n
  /\ forall k, n <= 2 ^ k -> index_width_from_len n <= k.
Proof.
  unfold index_width_from_len. destruct (n =? 0) eqn:E; [split; intros; [change (2 ^ 0) with 1|]; lia|].
  assert (G := N.size_gt (n - 1)). split; [lia|]. intros k H.
  destruct (n =? 1) eqn:E1; [replace (n - 1) with 0 by lia; cbn; lia|].
  rewrite N.size_log2 by lia. assert (L := N.log2_spec (n - 1) ltac:(lia)).
  assert (2 ^ N.log2 (n - 1) < 2 ^ k) by lia.
  assert (N.log2 (n - 1) < k) by (apply (N.pow_lt_mono_r_iff 2); [lia|auto]). lia.
Qed.

Lemma nth_resize l n i : len l <= n -> nth i (resize l n) 0 = nth i l 0.
Proof.
  intros H. unfold resize. rewrite firstn_all2 by (unfold len in H; lia).
  destruct (Nat.ltb i (length l)) eqn:E.
  - apply app_nth1. lia.
  - rewrite app_nth2 by lia. rewrite (nth_overflow l) by lia.
    generalize (i - length l)%nat (N.to_nat n - length l)%nat. intros a b. revert a.
    induction b; intros [|a]; cbn; auto.
Qed.

Lemma len_resize l n : len l <= n -> len (resize l n) = n.
Proof.
  intros H. unfold resize. rewrite len_app, len_repeat.
  rewrite firstn_all2 by (unfold len in H; lia). unfold len in *. lia.
Qed.

Lemma nth_lt_bound (l : list N) B i : Forall (fun x => x < B) l -> 0 < B -> nth i l 0 < B.
Proof.
  intros H B0. revert i; induction H; intros [|i]; cbn; auto.
Qed.

Lemma from_u8s_ok m l : Forall (fun x => x < 2 ^ 8) l -> len l <= 2 ^ 62 ->
  exists d, dense_from_u8s m l = Ok d
    /\ dense_is d (index_width_from_len (len l)) 8 (fun i => nth (N.to_nat i) l 0).
Proof.
  intros F L. destruct (index_width_ok (len l)) as (U & M). specialize (M 62 L).
  unfold dense_from_u8s, num_elements_from_index_width. rewrite shl1_ok by lia. cbn [bind].
  assert (P : 2 ^ index_width_from_len (len l) < 2 ^ 63) by (apply pow_lt; lia).
  rewrite capacity_ok by exact P. cbn [bind].
  eexists. split; [reflexivity|]. unfold dense_is, dense_wf, delem. cbn [d_iw d_dw d_data].
  repeat split; auto; try lia.
  - intros i _. rewrite nth_resize by auto. apply nth_lt_bound; [auto|reflexivity].
  - now apply len_resize.
  - intros i _. now apply nth_resize.
Qed.

Lemma from_u64s_ok m l : Forall (fun x => x < 2 ^ 64) l -> len l <= 2 ^ 59 ->
  exists d, dense_from_u64s m l = Ok d
    /\ dense_is d (index_width_from_len (len l)) 64 (fun i => nth (N.to_nat i) l 0).
Proof.
  intros F L. destruct (index_width_ok (len l)) as (U & M). specialize (M 59 L).
  unfold dense_from_u64s, num_elements_from_index_width. rewrite shl1_ok by lia. cbn [bind].
  assert (P : 8 * 2 ^ index_width_from_len (len l) < 2 ^ 63).
  { change (2 ^ 63) with (8 * 2 ^ 60). apply N.mul_lt_mono_pos_l; [lia|]. apply pow_lt; lia. }
  rewrite capacity_ok by exact P. cbn [bind].
  eexists. split; [reflexivity|]. unfold dense_is, dense_wf, delem. cbn [d_iw d_dw d_data].
  repeat split; auto; try lia.
  - intros i _. rewrite nth_resize by auto. apply nth_lt_bound; [auto|reflexivity].
  - now apply len_resize.
  - intros i _. now apply nth_resize.
Qed.

Lemma set_bits_ok l ii v w x : is_bv v w x -> ii + len l <= w ->
  exists v' n, set_bits l ii v = Ok v' /\ is_bv v' w n
    /\ forall i, N.testbit n i = ((ii <=? i) && nth (N.to_nat (i - ii)) l false) || N.testbit x i.
Proof.
  revert ii v x; induction l as [|b l IH]; intros ii v x H L; cbn [set_bits].
  - exists v, x. split; [reflexivity|]. split; [auto|]. intros i. cbn [nth].
    destruct (N.to_nat (i - ii)); rewrite andb_false_r; reflexivity.
  - rewrite len_cons in L. assert (Hw := is_bv_w _ _ _ H).
    assert (E : exists v1 x1, (if b then bv_set_bit v (as_u32 ii) else Ok v) = Ok v1 /\ is_bv v1 w x1
      /\ forall i, N.testbit x1 i = ((i =? ii) && b) || N.testbit x i).
    { destruct b.
      - rewrite as_u32_ok by lia. destruct (set_bit_bits v w x ii H ltac:(lia)) as (v1 & x1 & A & B & C).
        exists v1, x1. split; [auto|]. split; [auto|]. intros i. rewrite C.
        destruct (i =? ii); reflexivity.
      - exists v, x. split; [auto|]. split; [auto|]. intros i. now rewrite andb_false_r. }
    destruct E as (v1 & x1 & -> & H1 & B1). cbn [bind].
    destruct (IH (ii + 1) v1 x1 H1 ltac:(lia)) as (v2 & x2 & -> & H2 & B2).
    exists v2, x2. split; [reflexivity|]. split; [auto|]. intros i. rewrite B2, B1.
    destruct (i =? ii) eqn:E.
    + assert (i = ii) by lia. subst. replace (ii + 1 <=? ii) with false by lia.
      replace (ii <=? ii) with true by lia. replace (N.to_nat (ii - ii)) with O by lia. reflexivity.
    + cbn [andb orb]. destruct (ii <=? i) eqn:E2.
      * replace (ii + 1 <=? i) with true by lia.
        replace (N.to_nat (i - ii)) with (S (N.to_nat (i - (ii + 1)))) by lia. reflexivity.
      * replace (ii + 1 <=? i) with false by lia. reflexivity.
Qed.

Lemma from_bools_ok m l : len l <= 2 ^ 31 ->
  exists d, dense_from_bools m l = Ok d
    /\ dense_is d (index_width_from_len (len l)) 1 (fun i => if nth (N.to_nat i) l false then 1 else 0).
Proof.
  intros L. destruct (index_width_ok (len l)) as (U & M). specialize (M 31 L).
  unfold dense_from_bools, num_elements_from_index_width. rewrite shl1_ok by lia. cbn [bind].
  set (iw := index_width_from_len (len l)) in *.
  assert (P : 2 ^ iw < 2 ^ 32) by (apply pow_lt; lia). rewrite as_u32_ok by auto.
  destruct (set_bits_ok l 0 _ _ _ (zero_is_bv _ P) ltac:(lia)) as (v & n & -> & (W & WW & Uv) & B).
  cbn [bind]. eexists. split; [reflexivity|]. unfold dense_is, dense_wf, delem. cbn [d_iw d_dw d_data].
  assert (B1 : forall i, (if N.testbit (uval v) i then 1 else 0) < 2 ^ 1)
    by (intros i; destruct (N.testbit (uval v) i); reflexivity).
  assert (By : dense_bytes iw 1 < 2 ^ 63).
  { unfold dense_bytes. change (1 =? 1) with true. cbn iota. apply N.div_lt_upper_bound; [lia|].
    change (2 ^ 63) with 9223372036854775808. change (2 ^ 32) with 4294967296 in P. clear - P. lia. }
  split; [split; [split; [lia|exact By]|split; [lia|split; [lia|split; [auto|]]]]; split; [auto|split; [lia|auto]]|].
  split; [auto|]. split; [auto|].
  intros i _. rewrite Uv, B, N.bits_0, orb_false_r. replace (0 <=? i) with true by lia.
    rewrite N.sub_0_r. reflexivity.
Qed.

Lemma array_from_ok {A} probe m (l : list A) (mk : mode -> list A -> res dense)
  (arr : mode -> list A -> res array) dw f d :
  arr m l = (let* d := mk m l in Ok (ADense d)) ->
  mk m l = Ok d -> dense_is d (index_width_from_len (len l)) dw f ->
  exists a iw, arr m l = Ok a /\ arr_is probe m a iw dw f
    /\ len l <= 2 ^ iw /\ (forall k, len l <= 2 ^ k -> iw <= k) /\ array_is_dense a = true.
Proof.
  intros -> -> D. cbn [bind]. exists (ADense d), (index_width_from_len (len l)).
  split; [reflexivity|]. split; [now apply dense_is_reads|].
  destruct (index_width_ok (len l)). auto.
Qed.

Lemma array_from_bools_ok probe m l : len l <= 2 ^ 31 ->
  exists a iw, array_from_bools m l = Ok a
    /\ arr_is probe m a iw 1 (fun i => if nth (N.to_nat i) l false then 1 else 0)
    /\ len l <= 2 ^ iw /\ (forall k, len l <= 2 ^ k -> iw <= k) /\ array_is_dense a = true.
Proof.
  intros L. destruct (from_bools_ok m l L) as (d & E & D).
  exact (array_from_ok probe m l dense_from_bools array_from_bools 1 _ d eq_refl E D).
Qed.

Lemma array_from_u8s_ok probe m l : Forall (fun x => x < 2 ^ 8) l -> len l <= 2 ^ 62 ->
  exists a iw, array_from_u8s m l = Ok a
    /\ arr_is probe m a iw 8 (fun i => nth (N.to_nat i) l 0)
    /\ len l <= 2 ^ iw /\ (forall k, len l <= 2 ^ k -> iw <= k) /\ array_is_dense a = true.
Proof.
  intros F L. destruct (from_u8s_ok m l F L) as (d & E & D).
  exact (array_from_ok probe m l dense_from_u8s array_from_u8s 8 _ d eq_refl E D).
Qed.

Lemma array_from_u64s_ok probe m l : Forall (fun x => x < 2 ^ 64) l -> len l <= 2 ^ 59 ->
  exists a iw, array_from_u64s m l = Ok a
    /\ arr_is probe m a iw 64 (fun i => nth (N.to_nat i) l 0)
    /\ len l <= 2 ^ iw /\ (forall k, len l <= 2 ^ k -> iw <= k) /\ array_is_dense a = true.
Proof.
  intros F L. destruct (from_u64s_ok m l F L) as (d & E & D).
  exact (array_from_ok probe m l dense_from_u64s array_from_u64s 64 _ d eq_refl E D).
Qed.

(** Slices that cannot be padded to a power of two. *)
Lemma index_width_long (l : list N) (k : N) : 2 ^ k < len l -> len l < 2 ^ (k + 1) -> index_width_from_len (len l) = k + 1.
Proof.
  intros A B. destruct (index_width_ok (len l)) as (U & M). assert (M1 := M (k + 1) ltac:(lia)).
  destruct (N.eq_dec (index_width_from_len (len l)) (k + 1)) as [E|E]; [exact E|]. exfalso.
  assert (2 ^ index_width_from_len (len l) <= 2 ^ k) by (apply pow_le; lia). lia.
Qed.

Lemma array_from_u8s_long m l : 2 ^ 62 < len l -> len l < 2 ^ 63 -> panics (array_from_u8s m l).
Proof.
  intros A B. unfold array_from_u8s, dense_from_u8s, num_elements_from_index_width.
  rewrite (index_width_long l 62 A B), shl1_ok by reflexivity. cbn [bind].
  rewrite capacity_panic by (apply N.le_refl). eexists. reflexivity.
Qed.

Lemma array_from_u64s_long m l : 2 ^ 59 < len l -> 8 * len l < 2 ^ 63 -> panics (array_from_u64s m l).
Proof.
  intros A B. assert (B' : len l < 2 ^ 60) by (clear - B; lia). clear B. rename B' into B. unfold array_from_u64s, dense_from_u64s, num_elements_from_index_width.
  rewrite (index_width_long l 59 A B), shl1_ok by reflexivity. cbn [bind].
  rewrite capacity_panic by (apply N.le_refl). eexists. reflexivity.
Qed.

(** More than 2^31 booleans: the vector of bits gets the width 2^k mod 2^32 = 0. *)
Lemma as_u32_pow k : 32 <= k -> as_u32 (2 ^ k) = 0.
Proof.
  intros K. unfold as_u32. replace k with (k - 32 + 32) by lia. rewrite N.pow_add_r. apply N.mod_mul. discriminate.
Qed.

Lemma set_bits_nowhere l ii : (In true l -> panics (set_bits l ii (bv_zero 0)))
  /\ (~ In true l -> set_bits l ii (bv_zero 0) = Ok (bv_zero 0)).
Proof.
  revert ii; induction l as [|b l IH]; intros ii; cbn [set_bits In]; [now split|].
  destruct (IH (ii + 1)) as (P & Q). destruct b.
  - split; [intros _|intros X; exfalso; apply X; now left].
    destruct (beyond_panics (bv_zero 0) 0 0 (as_u32 ii)) as (_ & (p & E) & _).
    + apply zero_is_bv. reflexivity.
    + change (64 * ((0 + 63) / 64)) with 0. lia.
    + exists p. now rewrite E.
  - cbn [bind]. split; [intros [X|X]; [discriminate X|auto]|auto].
Qed.

Lemma array_from_bools_long probe m l : 2 ^ 31 < len l -> len l < 2 ^ 63 ->
  (In true l -> panics (array_from_bools m l))
  /\ (~ In true l -> exists a, array_from_bools m l = Ok a
      /\ forall i, wf i -> width i = array_index_width a -> panics (array_select probe m a i)).
Proof.
  intros A B. destruct (index_width_ok (len l)) as (U & M). specialize (M 63 ltac:(lia)).
  unfold array_from_bools, dense_from_bools, num_elements_from_index_width. rewrite shl1_ok by lia. cbn [bind].
  set (iw := index_width_from_len (len l)) in *.
  assert (K : 32 <= iw).
  { destruct (N.lt_ge_cases iw 32) as [X|X]; [|exact X]. exfalso.
    assert (2 ^ iw <= 2 ^ 31) by (apply pow_le; lia). lia. }
  rewrite (as_u32_pow iw K). destruct (set_bits_nowhere l 0) as (P & Q). split.
  - intros T. destruct (P T) as (p & ->). exists p. reflexivity.
  - intros T. rewrite (Q T). cbn [bind]. eexists. split; [reflexivity|]. cbn [array_index_width d_iw].
    intros i W Wi. assert (Hi := wf_is_bv i W). rewrite Wi in Hi.
    cbn [array_select]. unfold dense_select. rewrite debug_assert_ok by (cbn [d_iw]; lia). cbn [bind].
    rewrite (unwrap_u64 _ _ _ Hi).
    2: { eapply index_lt; [exact Hi|]. lia. }
    cbn [bind]. unfold dense_select_usize. cbn [d_data].
    destruct (beyond_panics (bv_zero 0) 0 0 (as_u32 (uval i))) as ((p & E) & _).
    + apply zero_is_bv. reflexivity.
    + change (64 * ((0 + 63) / 64)) with 0. lia.
    + exists p. now rewrite E.
Qed.

(** ** The size limit *)
Lemma dense_new_capacity m iw default : wf default -> width default <> 1 -> iw < 64 ->
  2 ^ 63 <= dense_bytes iw (width default) -> panics (array_new_dense m iw default).
Proof.
  intros W D1 I C. unfold array_new_dense, dense_new, panics.
  destruct (approx_dense_storage_size m iw (width default)) as [s|]; cbn [bind]; [|eauto].
  destruct (debug_assert m (s <=? DENSE_ARRAY_MAX_BYTES)); cbn [bind]; [|eauto].
  rewrite shl1_ok by auto. cbn [bind]. unfold dense_bytes in C.
  replace (width default =? 1) with false in * by lia.
  destruct (width default <=? 8).
  { destruct (bv_to_u64 default); cbn [unwrap bind]; [|eauto]. rewrite capacity_panic by exact C. cbn [bind]. eauto. }
  destruct (width default <=? 64).
  { destruct (bv_to_u64 default); cbn [unwrap bind]; [|eauto]. rewrite capacity_panic by exact C. cbn [bind]. eauto. }
  destruct (usz_mul m (2 ^ iw) (len (words default))); cbn [bind]; [|eauto].
  destruct W as (_ & Ln & _). rewrite Ln, capacity_panic; [cbn [bind]; eauto|]. eapply N.le_trans; [exact C|]. lia.
Qed.

Lemma dense_new_accepts probe m iw default : wf default -> 0 < width default ->
  addressable iw (width default) ->
  m = Release \/ (if 64 <? width default then dense_bytes iw (width default) / 8
                  else dense_bytes iw (width default)) <= 2 ^ 30 ->
  exists a, array_new_dense m iw default = Ok a
    /\ arr_is probe m a iw (width default) (fun _ => uval default).
Proof.
  intros W D A L.
  assert (L' : dense_limit m iw (width default)).
  { destruct L as [L|L]; [left; auto|right]. destruct (64 <? width default) eqn:E; [|auto].
    unfold dense_bytes in L. replace (width default =? 1) with false in L by lia.
    replace (width default <=? 8) with false in L by lia.
    replace (width default <=? 64) with false in L by lia.
    rewrite <- N.mul_assoc in L. rewrite N.mul_comm, N.div_mul in L by lia. exact L. }
  destruct (dense_new_ok m iw default W D A L') as (d & E & Wd & E1 & E2 & El).
  unfold array_new_dense. rewrite E. cbn [bind]. eexists. split; [reflexivity|].
  apply dense_is_reads. split; auto.
Qed.

Lemma dense_new_release iw default : wf default -> 1 < width default -> iw < 64 ->
  (2 ^ 63 <= dense_bytes iw (width default) <-> panics (array_new_dense Release iw default)).
Proof.
  intros W D I. split; [apply dense_new_capacity; auto; lia|]. intros (k & P).
  destruct (N.le_gt_cases (2 ^ 63) (dense_bytes iw (width default))) as [H|H]; auto. exfalso.
  destruct (dense_new_accepts (fun _ _ => true) Release iw default W ltac:(lia)) as (a & E & _);
    [split; [exact H|lia]|now left|congruence].
Qed.

Lemma debug_mul_big a b : 2 ^ 30 < a * b -> 
  (let* s := usz_mul Debug a b in debug_assert Debug (s <=? DENSE_ARRAY_MAX_BYTES)) = Panic POverflow
  \/ (let* s := usz_mul Debug a b in debug_assert Debug (s <=? DENSE_ARRAY_MAX_BYTES)) = Panic PDebugAssert.
Proof.
  intros H. unfold usz_mul. destruct (a * b <? B64); cbn [bind]; [right|left; reflexivity].
  change DENSE_ARRAY_MAX_BYTES with (2 ^ 30). unfold debug_assert.
  replace (a * b <=? 2 ^ 30) with false; [reflexivity|]. symmetry. now apply N.leb_gt.
Qed.

Lemma dense_new_refuses iw default : 0 < width default ->
  2 ^ 30 < (if 64 <? width default then dense_bytes iw (width default) / 8
            else dense_bytes iw (width default)) ->
  panics (array_new_dense Debug iw default).
Proof.
  intros D L. set (dw := width default) in *.
  assert (P : exists p, (let* s := approx_dense_storage_size Debug iw dw in
                         debug_assert Debug (s <=? DENSE_ARRAY_MAX_BYTES)) = Panic p).
  { unfold approx_dense_storage_size, u64_shl1.
    destruct (iw <? 64); cbn [bind]; [|eauto].
    unfold dense_bytes in L.
    destruct (dw =? 1) eqn:E1.
    { replace (64 <? dw) with false in L by lia. cbn [bind]. unfold div_ceil.
      replace (2 ^ iw + 8 - 1) with (2 ^ iw + 7) by lia.
      unfold debug_assert. change DENSE_ARRAY_MAX_BYTES with (2 ^ 30).
      replace ((2 ^ iw + 7) / 8 <=? 2 ^ 30) with false; [eauto|]. symmetry. now apply N.leb_gt. }
    destruct (dw <=? 8) eqn:E8.
    { replace (64 <? dw) with false in L by lia. cbn [bind].
      unfold debug_assert. change DENSE_ARRAY_MAX_BYTES with (2 ^ 30).
      replace (2 ^ iw <=? 2 ^ 30) with false; [eauto|]. symmetry. now apply N.leb_gt. }
    destruct (dw <=? 64) eqn:E64.
    { replace (64 <? dw) with false in L by lia.
      destruct (debug_mul_big (2 ^ iw) 8 ltac:(lia)) as [X|X]; rewrite X; eauto. }
    replace (64 <? dw) with true in L by lia. rewrite div_ceil_eq.
    rewrite <- N.mul_assoc in L. rewrite N.mul_comm, N.div_mul in L by lia.
    destruct (debug_mul_big (2 ^ iw) ((dw + 63) / 64) ltac:(lia)) as [X|X]; rewrite X; eauto. }
  destruct P as (p & P). exists p. unfold array_new_dense, dense_new. fold dw.
  destruct (approx_dense_storage_size Debug iw dw) as [s|q]; cbn [bind] in *; [|now injection P as ->].
  destruct (debug_assert Debug (s <=? DENSE_ARRAY_MAX_BYTES)); [discriminate|]. cbn [bind].
  now injection P as ->.
Qed.

Lemma big_limit_refuted : exists iw default a, wf default /\ 0 < width default
  /\ array_new_dense Debug iw default = Ok a
  /\ 8 * 2 ^ 30 <= dense_bytes (array_index_width a) (array_data_width a).
Proof.
  exists 29, (bv_of 65 0).
  assert (H : is_bv (bv_of 65 0) 65 0) by (apply bv_of_is_bv; reflexivity).
  destruct (dense_new_accepts (fun _ _ => false) Debug 29 (bv_of 65 0)) as (a & E & R).
  - apply H.
  - reflexivity.
  - split; [reflexivity|]. intros X. discriminate X.
  - right. intros X. vm_compute in X. discriminate X.
  - exists a. split; [apply H|]. split; [reflexivity|]. split; [exact E|].
    destruct R as (-> & -> & _). intros X. vm_compute in X. discriminate X.
Qed.

Lemma bit_limit_refuted : exists iw default a, wf default /\ 0 < width default
  /\ array_new_dense Debug iw default = Ok a
  /\ dense_bytes iw (width default) <= 2 ^ 30
  /\ forall probe m i, wf i -> width i = iw -> panics (array_select probe m a i).
Proof.
  exists 32, (bv_of 1 0), (ADense (mkdense 32 1 (DBit (bv_zero 0)))).
  assert (H : is_bv (bv_of 1 0) 1 0) by (apply bv_of_is_bv; reflexivity).
  split; [apply H|]. split; [reflexivity|]. split; [reflexivity|].
  split; [intros X; vm_compute in X; discriminate X|].
  intros probe m i W Wi. assert (Hi := wf_is_bv i W). rewrite Wi in Hi.
  cbn [array_select]. unfold dense_select. rewrite debug_assert_ok by (cbn [d_iw]; lia). cbn [bind].
  rewrite (unwrap_u64 _ _ _ Hi) by (eapply index_lt; [exact Hi|reflexivity]). cbn [bind].
  unfold dense_select_usize. cbn [d_data].
  destruct (beyond_panics (bv_zero 0) 0 0 (as_u32 (uval i))) as ((p & E) & _).
  - apply zero_is_bv. reflexivity.
  - change (64 * ((0 + 63) / 64)) with 0. lia.
  - exists p. now rewrite E.
Qed.
