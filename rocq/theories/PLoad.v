(** * PLoad: proofs about bit-vectors of any shape (C98) *)

From Coq Require Import String ZifyBool ZifyNat ZifyN.
From Verif Require Import Base Arith BigInt Bv Serde Spec CallSpec PanicSpec MixedSpec LoadSpec.
From Verif Require Import PWords PArith PShift PCompare PConv PIo PRegister PStore PPersist.
From Verif Require Import PReject PDirty PMixed PReleaseInterp.
Ltac Zify.zify_post_hook ::= idtac.
Open Scope list_scope.
Open Scope N_scope.

(** ** Loops over operands of any length *)

Lemma add_loop_cut3 c dst : forall a b n, n = min (length dst) (min (length a) (length b)) ->
  ar_add_loop c dst a b
  = ar_add_loop c (firstn n dst) (firstn n a) (firstn n b) ++ skipn n dst.
Proof.
  revert c. induction dst as [|d dst IH]; intros c a b n ->; [reflexivity|].
  destruct a as [|x a]; [reflexivity|]. destruct b as [|y b]; [reflexivity|].
  cbn [length Nat.min firstn skipn ar_add_loop]. destruct (ar_adc c x y) as [w c'].
  cbn [app]. f_equal. apply IH; auto.
Qed.

Lemma bin_op_cut3 op dst : forall a b n, n = min (length dst) (min (length a) (length b)) ->
  ar_bitwise_bin_op op dst a b
  = ar_bitwise_bin_op op (firstn n dst) (firstn n a) (firstn n b) ++ skipn n dst.
Proof.
  induction dst as [|d dst IH]; intros a b n ->; [reflexivity|].
  destruct a as [|x a]; [reflexivity|]. destruct b as [|y b]; [reflexivity|].
  cbn [length Nat.min firstn skipn ar_bitwise_bin_op app]. f_equal. apply IH; auto.
Qed.

Lemma un_op_bin op dst : forall a,
  ar_bitwise_un_op op dst a = ar_bitwise_bin_op (fun x _ => op x) dst a a.
Proof.
  induction dst as [|d dst IH]; intros [|x a]; [reflexivity..|].
  cbn [ar_bitwise_un_op ar_bitwise_bin_op]. f_equal. apply IH.
Qed.

Lemma un_op_map op dst : forall a, len a = len dst -> ar_bitwise_un_op op dst a = map op a.
Proof.
  induction dst as [|d dst IH]; intros [|x a] L; rewrite ?len_cons in L; nils; try lia; [reflexivity|].
  cbn [ar_bitwise_un_op map]. f_equal. apply IH. lia.
Qed.

Section Cut.
  Variables (w : N) (a b : list N).
  Hypotheses (Ha : Words a) (Hb : Words b).
  Let j := N.min (places w) (N.min (len a) (len b)).
  Let n := N.to_nat j.

  Lemma cut_nat : n = min (length (value_vec_zeros w)) (min (length a) (length b)).
  Proof. pose proof (zeros_len w). unfold n, j, places, len in *. lia. Qed.
  Lemma cut_n : N.of_nat n = j.
  Proof. unfold n. lia. Qed.
  Lemma cut_places : j <= places w. Proof. unfold j. lia. Qed.
  Lemma cut_a : j <= len a. Proof. unfold j. lia. Qed.
  Lemma cut_b : j <= len b. Proof. unfold j. lia. Qed.

  Lemma cut_pad (l : list N) : Words l -> len l = j ->
    let r := l ++ skipn n (value_vec_zeros w) in
    Words r /\ len r = places w /\ wv r = wv l.
  Proof.
    intros W L r. unfold r. pose proof (zeros_len w) as Lz. fold (places w) in Lz.
    pose proof cut_places. pose proof cut_n. split; [|split].
    - apply Words_app; auto. apply Words_skipn, zeros_words.
    - rewrite len_app, L, len_skipn. lia.
    - rewrite wv_app, skipn_zeros, wv_repeat0, N.mul_0_r, N.add_0_r. reflexivity.
  Qed.

  Lemma add_any c : c <= 1 ->
    let l := ar_add_loop c (value_vec_zeros w) a b in
    Words l /\ len l = places w
    /\ wv l = (c + wv a mod 2 ^ (64 * j) + wv b mod 2 ^ (64 * j)) mod 2 ^ (64 * j).
  Proof.
    intros Hc l. unfold l. rewrite (add_loop_cut3 c _ a b n cut_nat).
    pose proof (zeros_len w) as Lz. fold (places w) in Lz.
    pose proof cut_places. pose proof cut_a. pose proof cut_b. pose proof cut_n.
    destruct (add_loop_ok c (firstn n (value_vec_zeros w)) (firstn n a) (firstn n b))
      as (W & L & V); auto using PWords.Words_firstn.
    { rewrite !len_firstn by lia. auto. } { rewrite !len_firstn by lia. auto. }
    rewrite len_firstn in L, V by lia. rewrite cut_n in *.
    destruct (cut_pad _ W L) as (W' & L' & V'). split; [exact W'|]. split; [exact L'|].
    rewrite V', V, !wv_firstn, cut_n by auto. reflexivity.
  Qed.

  Lemma bitwise_any op f :
    (forall a b i, N.testbit (op a b) i = f (N.testbit a i) (N.testbit b i)) ->
    f false false = false ->
    let l := ar_bitwise_bin_op op (value_vec_zeros w) a b in
    Words l /\ len l = places w
    /\ wv l = op (wv a mod 2 ^ (64 * j)) (wv b mod 2 ^ (64 * j)).
  Proof.
    intros Hop Hf l. unfold l. rewrite (bin_op_cut3 op _ a b n cut_nat).
    pose proof (zeros_len w) as Lz. fold (places w) in Lz.
    pose proof cut_places. pose proof cut_a. pose proof cut_b. pose proof cut_n.
    destruct (bin_op_ok op f Hop Hf (firstn n (value_vec_zeros w)) (firstn n a) (firstn n b))
      as (W & L & V); auto using PWords.Words_firstn.
    { rewrite !len_firstn by lia. auto. } { rewrite !len_firstn by lia. auto. }
    rewrite len_firstn in L by lia. rewrite cut_n in *.
    destruct (cut_pad _ W L) as (W' & L' & V'). split; [exact W'|]. split; [exact L'|].
    rewrite V', V, !wv_firstn, cut_n by auto. reflexivity.
  Qed.
End Cut.

Lemma not_any w a : Words a ->
  let j := N.min (places w) (len a) in
  let l := ar_bitwise_un_op wnot (value_vec_zeros w) a in
  Words l /\ len l = places w /\ wv l = 2 ^ (64 * j) - 1 - wv a mod 2 ^ (64 * j).
Proof.
  intros Ha j l. unfold l. rewrite un_op_bin.
  pose proof (cut_nat w a a) as Hn. pose proof (cut_n w a a) as Hj.
  replace (N.min (len a) (len a)) with (len a) in * by (clear; lia). fold j in Hn, Hj.
  rewrite (bin_op_cut3 _ _ a a _ Hn), <- un_op_bin. set (n := N.to_nat j) in *.
  pose proof (zeros_len w) as Lz. fold (places w) in Lz.
  assert (j <= places w /\ j <= len a) as [J1 J2] by (unfold j; lia).
  rewrite un_op_map by (rewrite !len_firstn by lia; auto).
  destruct (cut_pad w a a (map wnot (firstn n a))) as (W' & L' & V').
  { apply Words_map_wnot. }
  { rewrite len_map, len_firstn by lia. unfold j in *. lia. }
  replace (N.min (len a) (len a)) with (len a) in * by (clear; lia). fold j in W', L', V'.
  fold n in W', L', V'. split; [exact W'|]. split; [exact L'|].
  rewrite V', wv_map_wnot by (apply PWords.Words_firstn; auto).
  rewrite len_firstn, wv_firstn, Hj by (auto; lia). reflexivity.
Qed.

(** ** A single word *)

Lemma last_bits_one w : 0 < w -> places w = 1 -> last_bits w = w.
Proof. unfold last_bits, places. intros. dlia. Qed.

Lemma mask_single m x w : x < 2 ^ 64 -> 0 < w -> (m = Debug -> places w = 1) ->
  ar_mask_msb m [x] w = Ok [x mod 2 ^ last_bits w].
Proof.
  intros Hx Hw Hm. unfold ar_mask_msb.
  replace (debug_assert m _) with (Ok tt).
  2:{ destruct m; auto. cbn [debug_assert]. rewrite div_ceil_eq. unfold places in Hm.
      rewrite Hm by auto. reflexivity. }
  cbn [bind]. rewrite ar_mask_ok by dlia. cbn [bind]. unfold map_last. cbn [rev app].
  rewrite land_ones_sub. do 4 f_equal. unfold last_bits.
  destruct (N.eqb_spec (w mod 64) 0); dlia.
Qed.

Lemma mask_single_debug x w : places w <> 1 -> panics (ar_mask_msb Debug [x] w).
Proof.
  intros H. unfold ar_mask_msb. cbn [debug_assert]. rewrite div_ceil_eq.
  change (len [x]) with 1. fold (places w). replace (places w =? 1) with false by lia.
  eexists. reflexivity.
Qed.

Lemma mask_none m w : w = 0 -> panics (ar_mask_msb m (value_vec_zeros w) w).
Proof. intros ->. apply mask_zero. Qed.

Lemma zeros_first w : 0 < places w -> exists t, value_vec_zeros w = 0 :: t /\ wv t = 0
  /\ Words t /\ len t + 1 = places w.
Proof.
  intros H. pose proof (zeros_len w) as L. pose proof (zeros_val w) as V. pose proof (zeros_words w) as W.
  fold (places w) in L. destruct (value_vec_zeros w) as [|z t]; [nils; lia|].
  rewrite wv_cons in V. rewrite len_cons in L. inversion_clear W.
  pose proof (pow_pos 64). assert (z = 0) by lia. assert (wv t = 0) by nia. subst. eauto 6.
Qed.

Lemma single_result w z : 0 < places w -> z < 2 ^ 64 ->
  let l := splice (value_vec_zeros w) 0 [z] in
  Words l /\ len l = places w /\ wv l = z.
Proof.
  intros H Hz. destruct (zeros_first w H) as (t & -> & V & W & L).
  unfold splice. change (N.to_nat 0) with O. cbn [firstn length Nat.add skipn app].
  rewrite len_cons, wv_cons, V. repeat split; [constructor; auto|auto|lia].
Qed.

Lemma range_first {A} (l : list A) : range l 0 1 = match l with [] => Panic PIndex | x :: _ => Ok [x] end.
Proof. destruct l; [reflexivity|]. rewrite range_ok by (rewrite ?len_cons; lia). reflexivity. Qed.

Lemma range_zeros w : 0 < places w -> range (value_vec_zeros w) 0 1 = Ok [0].
Proof. intros H. destruct (zeros_first w H) as (t & -> & _). rewrite range_first. reflexivity. Qed.
Lemma range_zeros_none w : places w = 0 -> panics (range (value_vec_zeros w) 0 1).
Proof. intros H. apply places_0 in H as ->. eexists. reflexivity. Qed.

Lemma places_pos w : 0 < w <-> 0 < places w.
Proof. unfold places. split; intros; dlia. Qed.

(** ** Operations on two values *)

Definition fits_result (r : res (list N)) (w : N) (o : option N) : Prop :=
  match o with None => panics r | Some n => wres r w n end.

Lemma fits_delivers r w o : w < 2 ^ 32 -> fits_result r w o ->
  delivers (let* out := r in Ok (mkbv w out)) w o.
Proof.
  intros Hw H. destruct o as [n|]; cbn [fits_result] in H.
  - destruct H as (l & -> & L & W & V). cbn [bind]. eexists. split; [reflexivity|].
    split; [apply is_bv_shaped; auto|auto].
  - destruct H as (p & ->). eexists. reflexivity.
Qed.

Lemma arith_load f m a b o : loaded a -> loaded b ->
  (admits m a b = false -> o = None) ->
  (admits m a b = true ->
    (count a = 1 -> count b = 0 \/ width a = 0 -> o = None)
    /\ (forall x y, x < 2 ^ 64 -> y < 2 ^ 64 -> count a = 1 -> 0 < width a -> 0 < count b ->
          x = uval a -> y = uval b mod 2 ^ 64 ->
          match o with
          | None => panics (f m [0] [x] [y] (width a))
          | Some r => f m [0] [x] [y] (width a) = Ok [r] /\ r < 2 ^ 64
          end)
    /\ (count a <> 1 -> fits_result (f m (value_vec_zeros (width a)) (words a) (words b) (width a))
                          (width a) o)) ->
  delivers (arith_bin_fn f m a b) (width a) o.
Proof.
  intros (Hw & Fa) (_ & Fb) Hno Hyes. unfold arith_bin_fn.
  destruct (admits m a b) eqn:A.
  2:{ rewrite Hno by auto. cbn [delivers]. destruct m; [|discriminate]. cbn [admits] in A.
      unfold count in A. cbn [debug_assert]. destruct (width a =? width b).
      - cbn [andb] in A. rewrite A. eexists. reflexivity.
      - eexists. reflexivity. }
  replace (debug_assert m (width a =? width b)) with (Ok tt).
  2:{ destruct m; auto. cbn [admits] in A. apply andb_true_iff in A as [-> _]. reflexivity. }
  cbn [bind].
  replace (debug_assert m (len (words a) =? len (words b))) with (Ok tt).
  2:{ destruct m; auto. cbn [admits] in A. apply andb_true_iff in A as [_ A].
      unfold count in A. rewrite A. reflexivity. }
  cbn [bind]. destruct Hyes as (H1 & H2 & H3); auto. fold (count a).
  apply fits_delivers; auto.
  destruct (N.eqb_spec (count a) 1) as [E|E]; [|auto].
  destruct (N.eq_dec (width a) 0) as [Z|Z].
  { rewrite H1 by auto. cbn [fits_result]. destruct (range_zeros_none (width a)) as (p & ->).
    { rewrite Z. reflexivity. } eexists. reflexivity. }
  assert (P : 0 < places (width a)) by (apply (proj1 (places_pos _)); clear - Z; lia).
  rewrite range_zeros by auto. cbn [bind]. destruct (len_0_1 (words a) E) as (x & Ex).
  rewrite !range_first, Ex. cbn [bind]. destruct (words b) as [|y t] eqn:Eb.
  { rewrite H1; auto; [eexists; reflexivity|]. left. unfold count. rewrite Eb. reflexivity. }
  cbn [bind]. inversion_clear Fb as [|? ? Hy Ht]. rewrite Ex in Fa. inversion_clear Fa as [|? ? Hx _].
  specialize (H2 x y Hx Hy E ltac:(clear - Z; lia)).
  assert (C : 0 < count b) by (unfold count; rewrite Eb, len_cons; clear; lia).
  assert (V1 : x = uval a) by (unfold uval; rewrite Ex; cbn [words_val]; clear; lia).
  assert (V2 : y = uval b mod 2 ^ 64).
  { unfold uval. rewrite Eb. rewrite wv_cons, add_mul_mod0 by auto. reflexivity. }
  specialize (H2 C V1 V2). destruct o as [r|].
  - destruct H2 as (-> & Hr). cbn [bind fits_result].
    destruct (single_result (width a) r P Hr) as (W & L & V). eexists. split; [reflexivity|auto].
  - destruct H2 as (p & ->). eexists. reflexivity.
Qed.

Lemma shared_one a b : count a = 1 -> 0 < width a -> 0 < count b -> shared a b = 64.
Proof. intros E H C. apply (proj1 (places_pos _)) in H. unfold shared. rewrite E. lia. Qed.

Lemma loaded_one v : loaded v -> count v = 1 -> uval v < 2 ^ 64.
Proof.
  intros (_ & F) E. pose proof (wv_bound _ F) as B. unfold count in E. rewrite E in B. exact B.
Qed.

Lemma lacking_ok a b : lacking a b = true <-> count a = 1 /\ (count b = 0 \/ width a = 0).
Proof. unfold lacking. lia. Qed.

Lemma bitwise_load op f m a b :
  (forall a b i, N.testbit (op a b) i = f (N.testbit a i) (N.testbit b i)) ->
  f false false = false -> loaded a -> loaded b ->
  delivers (bit_arith_bin_fn (ar_bitwise_bin_op op) m a b) (width a) (load_bitwise op m a b).
Proof.
  intros Hop Hff Ha Hb. rewrite bit_arith_same. unfold load_bitwise. apply arith_load; auto.
  - intros ->. reflexivity.
  - intros ->. cbn [andb]. split; [|split].
    + intros E H. replace (lacking a b) with true; auto. symmetry. now apply lacking_ok.
    + intros x y Hx Hy E Hw C -> ->. replace (lacking a b) with false by (unfold lacking; lia).
      cbn [negb ar_bitwise_bin_op]. unfold cut. rewrite (shared_one a b) by auto.
      rewrite (mod_small_pow (uval a)) by (apply loaded_one; auto). split; auto.
      apply lt_pow_bits. intros i Hi. rewrite Hop, !(testbit_high _ 64) by (auto; apply mod_lt). auto.
    + intros E. replace (lacking a b) with false by (unfold lacking; lia). cbn [negb fits_result].
      destruct Ha as (_ & Fa), Hb as (_ & Fb).
      destruct (bitwise_any (width a) (words a) (words b) Fa Fb op f Hop Hff) as (W & L & V).
      eexists. split; [reflexivity|]. split; [exact L|]. split; [exact W|]. exact V.
Qed.

Lemma odd_mask_false m a : count a = 1 -> odd_mask m a = false -> m = Debug -> places (width a) = 1.
Proof. intros E H ->. unfold odd_mask in H. rewrite E in H. cbn [N.eqb Pos.eqb andb] in H. lia. Qed.
Lemma odd_mask_true m a : odd_mask m a = true -> m = Debug /\ count a = 1 /\ places (width a) <> 1.
Proof. unfold odd_mask. destruct m; [|discriminate]. intros H. repeat split; lia. Qed.

Lemma last_bits_64 w : last_bits w <= 64.
Proof. unfold last_bits. pose proof (N.mod_lt (w - 1) 64 ltac:(discriminate)). lia. Qed.
Lemma mod_last_lt n w : n mod 2 ^ last_bits w < 2 ^ 64.
Proof. eapply N.lt_le_trans; [apply mod_lt|]. apply pow_le, last_bits_64. Qed.

Lemma adc_first c x y : fst (ar_adc c x y) = (c + x + y) mod 2 ^ 64.
Proof. unfold ar_adc, as_u64. cbn [fst]. rewrite B64_eq. reflexivity. Qed.

Lemma add_load m a b : loaded a -> loaded b -> delivers (bv_add m a b) (width a) (load_add m a b).
Proof.
  intros Ha Hb. unfold load_add, bv_add. apply arith_load; auto.
  - intros ->. reflexivity.
  - intros ->. cbn [andb]. split; [|split].
    + intros E H. replace (lacking a b) with true; auto. symmetry. now apply lacking_ok.
    + intros x y Hx Hy E Hw C -> ->. replace (lacking a b) with false by (unfold lacking; lia).
      replace (width a =? 0) with false by lia. cbn [negb andb]. unfold ar_add. cbn [ar_add_loop].
      pose proof (adc_first 0 (uval a) (uval b mod 2 ^ 64)) as F.
      destruct (ar_adc 0 _ _) as [s c']. cbn [fst] in F.
      destruct (odd_mask m a) eqn:O; cbn [negb].
      * apply odd_mask_true in O as (-> & _ & P). now apply mask_single_debug.
      * rewrite mask_single; auto; [|rewrite F; apply mod_lt|apply odd_mask_false; auto].
        unfold cut, kept. rewrite E. cbn [N.eqb Pos.eqb]. split; [|apply mod_last_lt].
        rewrite (shared_one a b) by auto. rewrite (mod_small_pow (uval a)) by auto.
        rewrite F. rewrite N.add_0_l. reflexivity.
    + intros E. replace (lacking a b) with false by (unfold lacking; lia).
      replace (odd_mask m a) with false.
      2:{ destruct (odd_mask m a) eqn:O; auto. apply odd_mask_true in O. lia. }
      cbn [negb]. rewrite !andb_true_r. cbn [andb].
      destruct (N.eqb_spec (width a) 0) as [Z|Z]; cbn [negb fits_result]; unfold ar_add.
      { rewrite Z. cbn. apply mask_zero. }
      destruct Ha as (_ & Fa), Hb as (_ & Fb).
      destruct (add_any (width a) (words a) (words b) Fa Fb 0) as (W & L & V); [lia|].
      eapply wres_eq; [apply mask_wres; auto; lia|]. rewrite V, N.add_0_l.
      unfold kept. rewrite (proj2 (N.eqb_neq _ _) E). reflexivity.
Qed.

Lemma sub_arith x y q : y < q -> 1 + x + (q - 1 - y) = x + (q - y).
Proof. lia. Qed.

Lemma sub_load m a b : loaded a -> loaded b -> delivers (bv_sub m a b) (width a) (load_sub m a b).
Proof.
  intros Ha Hb. unfold load_sub, bv_sub. apply arith_load; auto.
  - intros ->. reflexivity.
  - intros ->. cbn [andb]. split; [|split].
    + intros E H. replace (lacking a b) with true; auto. symmetry. now apply lacking_ok.
    + intros x y Hx Hy E Hw C -> ->. replace (lacking a b) with false by (unfold lacking; lia).
      replace (width a =? 0) with false by lia. cbn [negb andb]. unfold ar_sub. cbn [ar_sub_loop].
      pose proof (adc_first 1 (uval a) (wnot (uval b mod 2 ^ 64))) as F.
      destruct (ar_adc 1 _ _) as [s c']. cbn [fst] in F.
      destruct (odd_mask m a) eqn:O; cbn [negb].
      * apply odd_mask_true in O as (-> & _ & P). now apply mask_single_debug.
      * rewrite mask_single; auto; [|rewrite F; apply mod_lt|apply odd_mask_false; auto].
        unfold cut, kept. rewrite E. cbn [N.eqb Pos.eqb]. split; [|apply mod_last_lt].
        rewrite (shared_one a b) by auto. rewrite (mod_small_pow (uval a)) by auto.
        rewrite F. do 4 f_equal. pose proof (wv_map_wnot [uval b mod 2 ^ 64]) as N1.
        cbn [map] in N1. rewrite !wv_cons in N1. change (wv []) with 0 in N1.
        change (len [_]) with 1 in N1. rewrite N.mul_0_r, !N.add_0_r in N1.
        rewrite N1 by (constructor; auto). change (64 * 1) with 64.
        apply sub_arith. exact Hy.
    + intros E. replace (lacking a b) with false by (unfold lacking; lia).
      replace (odd_mask m a) with false.
      2:{ destruct (odd_mask m a) eqn:O; auto. apply odd_mask_true in O. lia. }
      cbn [negb]. rewrite !andb_true_r. cbn [andb].
      destruct (N.eqb_spec (width a) 0) as [Z|Z]; cbn [negb fits_result]; unfold ar_sub.
      { rewrite Z. cbn. apply mask_zero. }
      destruct Ha as (_ & Fa), Hb as (_ & Fb). rewrite sub_loop_add.
      destruct (add_any (width a) (words a) (map wnot (words b)) Fa (Words_map_wnot _) 1)
        as (W & L & V); [lia|].
      eapply wres_eq; [apply mask_wres; auto; lia|]. rewrite V, len_map.
      unfold kept. rewrite (proj2 (N.eqb_neq _ _) E).
      rewrite wnot_low by (auto; clear; lia). unfold cut, shared, uval, count.
      rewrite sub_arith by apply mod_lt. reflexivity.
Qed.

Lemma mul_load m a b : loaded a -> loaded b -> delivers (bv_mul m a b) (width a) (load_mul m a b).
Proof.
  intros Ha Hb. unfold load_mul, bv_mul. apply arith_load; auto.
  - intros ->. reflexivity.
  - intros ->. cbn [andb]. split; [|split].
    + intros E [H|H]; rewrite H; cbn [N.eqb negb andb]; rewrite ?andb_false_r; reflexivity.
    + intros x y Hx Hy E Hw C -> ->. unfold ar_mul.
      replace (width a =? 0) with false by (clear - Hw; lia).
      replace (count b =? 0) with false by (clear - C; lia). rewrite E. cbn [N.eqb negb andb].
      rewrite !andb_true_r. destruct (N.leb_spec (width a) 64) as [L|L]; [|eexists; reflexivity].
      unfold idx, set_idx. change (N.to_nat 0) with O. cbn [nth_error set_nth bind].
      rewrite ar_mask_pos by auto. cbn [bind].
      rewrite land_ones_sub. unfold as_u64. rewrite B64_eq, N.mul_mod_idemp_r, mod_mod_le by auto.
      split; auto. eapply N.lt_le_trans; [apply mod_lt|apply pow_le; auto].
    + intros E. destruct Ha as (Hw & Fa), Hb as (_ & Fb). unfold ar_mul.
      destruct (N.leb_spec (width a) 64) as [L|L].
      2:{ rewrite andb_false_r. eexists. reflexivity. }
      rewrite andb_true_r. unfold count, uval. destruct (words a) as [|x ta].
      { change (len []) with 0. cbn [N.eqb negb]. rewrite andb_false_r. eexists. reflexivity. }
      destruct (words b) as [|y tb].
      { change (len []) with 0. cbn [N.eqb negb]. rewrite andb_false_r. eexists. reflexivity. }
      replace (len (x :: ta) =? 0) with false by (rewrite len_cons; clear; lia).
      replace (len (y :: tb) =? 0) with false by (rewrite len_cons; clear; lia).
      cbn [negb]. rewrite !andb_true_r. unfold idx. change (N.to_nat 0) with O. cbn [nth_error bind].
      destruct (N.eqb_spec (width a) 0) as [Z|Z]; cbn [negb fits_result].
      { rewrite Z. eexists. reflexivity. }
      assert (P : 0 < places (width a)) by (apply (proj1 (places_pos _)); clear - Z; lia).
      rewrite ar_mask_pos by (auto; clear - Z; lia). cbn [bind]. rewrite land_ones_sub.
      destruct (zeros_first _ P) as (t & -> & V & W & L').
      unfold set_idx. change (N.to_nat 0) with O. cbn [set_nth].
      eexists. split; [reflexivity|]. rewrite len_cons. split; [exact L'|]. split.
      * constructor; auto. eapply N.lt_le_trans; [apply mod_lt|apply pow_le; auto].
      * rewrite wv_cons, V, N.mul_0_r, N.add_0_r. unfold as_u64.
        rewrite B64_eq, mod_mod_le by auto. rewrite !wv_cons.
        rewrite (pow_split (width a) 64) by auto. set (q := 2 ^ width a).
        rewrite (N.mul_mod (x + _) (y + _)) by apply pow_nz.
        rewrite <- !N.mul_assoc, !(N.mul_comm q), !N.mod_add by apply pow_nz.
        rewrite <- N.mul_mod by apply pow_nz. reflexivity.
Qed.

(** ** Operations on one value *)

Lemma not_load m a : loaded a -> delivers (bv_not m a) (width a) (load_not m a).
Proof.
  intros (Hw & Fa). unfold bv_not, load_not. apply fits_delivers; auto. fold (count a).
  destruct (N.leb_spec (count a) 1) as [L|L].
  - destruct (N.eqb_spec (width a) 0) as [Z|Z].
    { rewrite orb_true_r. cbn [orb fits_result]. rewrite Z. eexists. reflexivity. }
    rewrite orb_false_r.
    assert (P : 0 < places (width a)) by (apply (proj1 (places_pos _)); clear - Z; lia).
    rewrite range_zeros by auto. cbn [bind]. rewrite range_first.
    assert (E : count a = 0 \/ count a = 1) by (clear - L; lia). destruct E as [E|E]; rewrite E.
    { unfold count in E. apply len_0 in E. rewrite E. eexists. reflexivity. }
    destruct (len_0_1 _ E) as (x & Ex). rewrite Ex. cbn [bind N.eqb Pos.eqb orb].
    unfold ar_not. cbn [ar_bitwise_un_op]. destruct (odd_mask m a) eqn:O; cbn [fits_result].
    { apply odd_mask_true in O as (-> & _ & Q). destruct (mask_single_debug (wnot x) _ Q) as (p & ->).
      eexists. reflexivity. }
    rewrite mask_single; [|apply wnot_lt|clear - Z; lia|apply odd_mask_false; auto]. cbn [bind].
    destruct (single_result (width a) (wnot x mod 2 ^ last_bits (width a)) P) as (W' & L' & V').
    { apply mod_last_lt. }
    eexists. split; [reflexivity|]. split; [exact L'|]. split; [exact W'|]. rewrite V'.
    unfold kept. rewrite E. cbn [N.eqb Pos.eqb]. rewrite (shared_one a a); auto;
      [|clear - Z; lia|rewrite E; clear; lia].
    assert (Hx : x < 2 ^ 64) by (rewrite Ex in Fa; inversion_clear Fa; auto).
    unfold uval. rewrite Ex, wv_cons. change (wv []) with 0. rewrite N.mul_0_r, N.add_0_r.
    rewrite (mod_small_pow x) by auto. f_equal.
  - replace (count a =? 0) with false by (clear - L; lia).
    replace (odd_mask m a) with false.
    2:{ destruct (odd_mask m a) eqn:O; auto. apply odd_mask_true in O. clear - O L. lia. }
    cbn [orb]. rewrite orb_false_r. unfold ar_not.
    destruct (N.eqb_spec (width a) 0) as [Z|Z]; cbn [fits_result].
    { rewrite Z. apply mask_zero. }
    destruct (not_any (width a) (words a) Fa) as (W' & L' & V').
    eapply wres_eq; [apply mask_wres; auto; clear - Z; lia|]. rewrite V'.
    unfold kept. replace (count a =? 1) with false by (clear - L; lia).
    unfold shared. rewrite N.min_id. reflexivity.
Qed.

Lemma negate_words l : Words l ->
  wv (ar_negate_loop 1 l) = (2 ^ (64 * len l) - wv l) mod 2 ^ (64 * len l).
Proof.
  intros F. rewrite negate_loop_add.
  destruct (add_loop_ok 1 l (repeat 0 (length l)) (map wnot l)) as (_ & _ & ->);
    auto using Words_repeat0, Words_map_wnot; try reflexivity.
  { rewrite len_repeat. reflexivity. } { apply len_map. }
  rewrite wv_repeat0, wv_map_wnot by auto. f_equal. pose proof (wv_bound l F) as B.
  clear - B. lia.
Qed.

Lemma negate_load m a : loaded a -> delivers (bv_negate m a) (width a) (load_negate m a).
Proof.
  intros (Hw & Fa). unfold bv_negate, load_negate. apply fits_delivers; auto. fold (count a).
  destruct (N.leb_spec (count a) 1) as [L|L].
  - destruct (N.eqb_spec (width a) 0) as [Z|Z].
    { rewrite orb_true_r. cbn [orb fits_result]. rewrite Z. eexists. reflexivity. }
    rewrite orb_false_r.
    assert (P : 0 < places (width a)) by (apply (proj1 (places_pos _)); clear - Z; lia).
    rewrite range_zeros by auto. cbn [bind]. rewrite range_first.
    assert (E : count a = 0 \/ count a = 1) by (clear - L; lia). destruct E as [E|E]; rewrite E.
    { unfold count in E. apply len_0 in E. rewrite E. eexists. reflexivity. }
    destruct (len_0_1 _ E) as (x & Ex). rewrite Ex. cbn [bind N.eqb Pos.eqb orb negb].
    rewrite orb_false_r. rewrite Ex in Fa. pose proof (negate_words [x] Fa) as NV.
    unfold ar_negate. cbn [len length N.of_nat N.eqb Pos.of_succ_nat Pos.eqb assert bind].
    unfold ar_negate_in_place. cbn [ar_negate_loop] in NV |- *.
    destruct (ar_adc 1 0 (wnot x)) as [s c] eqn:A.
    assert (Hs : s < 2 ^ 64).
    { pose proof (adc_first 1 0 (wnot x)) as F. rewrite A in F. cbn [fst] in F. rewrite F. apply mod_lt. }
    destruct (odd_mask m a) eqn:O; cbn [fits_result].
    { apply odd_mask_true in O as (-> & _ & Q). destruct (mask_single_debug s _ Q) as (p & ->).
      eexists. reflexivity. }
    rewrite mask_single; [|auto|clear - Z; lia|apply odd_mask_false; auto]. cbn [bind].
    destruct (single_result (width a) (s mod 2 ^ last_bits (width a)) P) as (W' & L' & V').
    { apply mod_last_lt. }
    eexists. split; [reflexivity|]. split; [exact L'|]. split; [exact W'|]. rewrite V'.
    unfold kept. rewrite E. cbn [N.eqb Pos.eqb]. rewrite !wv_cons in NV.
    change (wv []) with 0 in NV. rewrite N.mul_0_r, !N.add_0_r in NV. rewrite NV.
    change (64 * len [x]) with 64. rewrite mod_mod_le by apply last_bits_64.
    unfold uval. rewrite Ex, wv_cons. change (wv []) with 0. rewrite N.mul_0_r, N.add_0_r. reflexivity.
  - replace (count a =? 0) with false by (clear - L; lia).
    replace (count a =? 1) with false by (clear - L; lia).
    replace (odd_mask m a) with false.
    2:{ destruct (odd_mask m a) eqn:O; auto. apply odd_mask_true in O. clear - O L. lia. }
    cbn [orb]. rewrite orb_false_r. unfold ar_negate. rewrite zeros_len. fold (places (width a)).
    fold (count a). rewrite (N.eqb_sym (places (width a))).
    destruct (N.eqb_spec (count a) (places (width a))) as [E|E]; cbn [negb].
    2:{ rewrite orb_true_r. eexists. reflexivity. }
    cbn [assert bind]. rewrite orb_false_r.
    assert (Z : 0 < width a) by (apply (proj2 (places_pos _)); rewrite <- E; clear - L; lia).
    replace (width a =? 0) with false by (clear - Z; lia). cbn [fits_result].
    unfold ar_negate_in_place.
    destruct (add_loop_ok 1 (words a) (repeat 0 (length (words a))) (map wnot (words a))) as (W' & L' & _);
      auto using Words_repeat0, Words_map_wnot; [reflexivity|apply len_repeat|apply len_map|].
    rewrite <- negate_loop_add in W', L'.
    eapply wres_eq; [apply mask_wres; auto; [rewrite L'; exact E]|].
    rewrite negate_words by auto. fold (count a). unfold kept.
    replace (count a =? 1) with false by (clear - L; lia).
    rewrite mod_mod_le; [reflexivity|]. rewrite E. unfold places. dlia.
Qed.

(** ** Comparisons *)

Lemma admits_pass {A} m a b (k : res A) : admits m a b = true ->
  (let* _ := debug_assert m (width a =? width b) in
   let* _ := debug_assert m (len (words a) =? len (words b)) in k) = k.
Proof.
  destruct m; cbn [admits debug_assert]; [|reflexivity]. unfold count.
  intros H. apply andb_true_iff in H as (-> & ->). reflexivity.
Qed.
Lemma admits_stop {A} m a b (k : res A) : admits m a b = false ->
  panics (let* _ := debug_assert m (width a =? width b) in
          let* _ := debug_assert m (len (words a) =? len (words b)) in k).
Proof.
  destruct m; cbn [admits debug_assert]; [|discriminate]. unfold count.
  destruct (width a =? width b); cbn [andb]; [intros ->|intros _]; eexists; reflexivity.
Qed.

Lemma equal_load m a b : loaded a -> loaded b -> answers (bv_is_equal m a b) (load_equal m a b).
Proof.
  intros (_ & Fa) (_ & Fb). unfold bv_is_equal, load_equal. destruct (admits m a b) eqn:A.
  2:{ now apply admits_stop. }
  rewrite admits_pass by auto. cbn [answers].
  replace (if len (words a) =? 1 then _ else _) with (Ok (ar_cmp_equal (words a) (words b)))
    by (destruct (_ =? 1); reflexivity).
  rewrite (cmp_equal_cut _ _ (min (length (words a)) (length (words b)))) by auto.
  rewrite PCompare.cmp_equal_ok; auto using PWords.Words_firstn.
  2:{ unfold len. rewrite !firstn_length. clear. lia. }
  rewrite !wv_firstn by auto. unfold uval, count, len.
  rewrite <- Nat2N.inj_min. reflexivity.
Qed.

Lemma greater_words strict a b : Words a -> Words b ->
  let q := N.min (len a) (len b) in
  let x := wv a / 2 ^ (64 * (len a - q)) in
  let y := wv b / 2 ^ (64 * (len b - q)) in
  (if strict : bool then ar_cmp_greater a b else ar_cmp_greater_equal a b)
  = if strict then y <? x else y <=? x.
Proof.
  intros Fa Fb q x y. unfold ar_cmp_greater, ar_cmp_greater_equal.
  rewrite (greater_any a b q) by auto. fold x y.
  destruct strict; destruct (N.compare_spec x y) as [E|E|E]; cbn [unwrap_or]; clear - E; lia.
Qed.

Lemma greater_load_aux strict m a b (f : list N -> list N -> bool) :
  loaded a -> loaded b ->
  (count a = 1 -> f = if strict : bool then ar_cmp_greater else ar_cmp_greater_equal) ->
  (count a <> 1 -> f = if strict : bool then ar_cmp_greater else ar_cmp_greater_equal) ->
  answers (let* _ := debug_assert m (width a =? width b) in
           let* _ := debug_assert m (len (words a) =? len (words b)) in
           if len (words a) =? 1 then
             let* x := range (words a) 0 1 in
             let* y := range (words b) 0 1 in Ok (f x y)
           else Ok (f (words a) (words b)))
    (load_greater strict m a b).
Proof.
  intros (_ & Fa) (_ & Fb) F1 F2. unfold load_greater. destruct (admits m a b) eqn:A.
  2:{ now apply admits_stop. }
  rewrite admits_pass by auto. cbn [andb]. fold (count a).
  destruct (N.eqb_spec (count a) 1) as [E|E]; cbn [andb].
  - destruct (len_0_1 _ E) as (x & Ex). rewrite !range_first, Ex. cbn [bind].
    destruct (words b) as [|y t] eqn:Eb.
    { replace (count b =? 0) with true by (unfold count; rewrite Eb; reflexivity).
      eexists. reflexivity. }
    assert (C : count b = len t + 1) by (unfold count; rewrite Eb; apply len_cons).
    replace (count b =? 0) with false by (rewrite C; clear; lia). cbn [negb bind answers].
    inversion_clear Fb as [|? ? Hy Ht]. rewrite Ex in Fa.
    assert (Fy : Words [y]) by (constructor; auto).
    rewrite F1 by auto.
    pose proof (greater_words strict [x] [y] Fa Fy) as G. cbn zeta in G.
    change (len [x]) with 1 in G. change (len [y]) with 1 in G.
    change (64 * (1 - N.min 1 1)) with 0 in G. change (2 ^ 0) with 1 in G.
    rewrite !N.div_1_r, !wv_cons in G. change (wv []) with 0 in G.
    rewrite !N.mul_0_r, !N.add_0_r in G.
    replace (N.min (count a) (count b)) with 1 by (rewrite E, C; clear; lia). rewrite E.
    change (64 * (1 - 1)) with 0. change (2 ^ 0) with 1. rewrite N.div_1_r.
    unfold uval. rewrite Ex, Eb, !wv_cons. change (wv []) with 0. rewrite N.mul_0_r, N.add_0_r.
    rewrite add_mul_mod0 by auto. rewrite <- G. destruct strict; reflexivity.
  - cbn [negb answers]. rewrite F2 by auto.
    pose proof (greater_words strict (words a) (words b) Fa Fb) as G. cbn zeta in G.
    unfold uval, count. rewrite <- G. destruct strict; reflexivity.
Qed.

Lemma greater_load m a b : loaded a -> loaded b ->
  answers (bv_is_greater m a b) (load_greater true m a b).
Proof. intros Ha Hb. apply (greater_load_aux true m a b ar_cmp_greater); auto. Qed.

Lemma greater_equal_load m a b : loaded a -> loaded b ->
  answers (bv_is_greater_or_equal m a b) (load_greater (negb (count a =? 1)) m a b).
Proof.
  intros Ha Hb. pose proof (greater_load_aux (negb (count a =? 1)) m a b
    (if count a =? 1 then ar_cmp_greater_equal else ar_cmp_greater) Ha Hb) as G.
  unfold bv_is_greater_or_equal. unfold count in *.
  destruct (len (words a) =? 1); cbn [negb] in *; apply G; auto.
Qed.

(** ** [==], [Ord] and [Hash] of the owned type, [==] of references *)

Lemma bv_eta a b : width a = width b -> words a = words b -> a = b.
Proof. destruct a as [wa la], b as [wb lb]. cbn [width words]. intros -> ->. reflexivity. Qed.

Lemma owned_eq_release a b : exists r, bv_eq Release a b = Ok r /\ (r = true <-> a = b).
Proof.
  eexists. split; [reflexivity|]. split.
  - intros H. apply andb_true_iff in H as (H1 & H2). apply words_eqb_eq in H2.
    apply bv_eta; [clear - H1; lia|auto].
  - intros ->. rewrite N.eqb_refl. apply words_eqb_eq. reflexivity.
Qed.

Lemma owned_eq_debug a b :
  (width a = width b -> count a <> count b -> panics (bv_eq Debug a b))
  /\ (width a <> width b \/ count a = count b -> bv_eq Debug a b = bv_eq Release a b).
Proof.
  unfold bv_eq, count. cbn [debug_assert]. split.
  - intros E C. rewrite E, N.eqb_refl. replace (len (words b) =? len (words a)) with false by (clear - C; lia).
    eexists. reflexivity.
  - intros H. replace (_ || _) with true; [reflexivity|]. symmetry. clear - H. lia.
Qed.

Lemma cmp_equal_same a b : bv_cmp a b = Eq <-> a = b.
Proof.
  unfold bv_cmp. split.
  - destruct (N.compare_spec (width a) (width b)) as [E|E|E]; try discriminate.
    intros H. apply words_cmp_eq in H. now apply bv_eta.
  - intros ->. rewrite N.compare_refl. apply words_cmp_refl.
Qed.

Lemma map_hash_inj l : forall l', map HashU64 l = map HashU64 l' -> l = l'.
Proof.
  induction l as [|x l IH]; intros [|y l'] H; try discriminate; auto.
  cbn [map] in H. injection H as -> H. f_equal. auto.
Qed.

Lemma hash_same a b : (bv_hash a = bv_hash b <-> a = b) /\ bvref_hash a = bv_hash a.
Proof.
  split; [|reflexivity]. split; [|intros ->; reflexivity].
  unfold bv_hash, words_hash. intros H. injection H as W L H. apply bv_eta; auto. now apply map_hash_inj.
Qed.

Lemma ref_eq_load m a b : loaded a -> loaded b ->
  (width a <> width b -> bvref_eq m a b = Ok false)
  /\ (width a = width b -> answers (bvref_eq m a b) (load_equal m a b)).
Proof.
  intros Ha Hb. unfold bvref_eq. split; intros E.
  - replace (width b =? width a) with false by (clear - E; lia). reflexivity.
  - rewrite E, N.eqb_refl. now apply equal_load.
Qed.

Lemma ref_eq_refuted : exists a b c, loaded a /\ loaded b /\ loaded c
  /\ bvref_eq Release a b = Ok true /\ bvref_eq Release b c = Ok true
  /\ bvref_eq Release a c = Ok false /\ bvref_hash a <> bvref_hash b
  /\ bv_eq Release a b = Ok false.
Proof.
  exists (mkbv 70 [5; 1]), (mkbv 70 [5]), (mkbv 70 [5; 2]).
  repeat split; try (repeat constructor; fail); discriminate.
Qed.

(** ** Questions *)

Lemma answers_load v : loaded v ->
  bv_is_zero v = (uval v =? 0)
  /\ bv_to_u64 v = (if uval v <? 2 ^ 64 then Some (uval v) else None)
  /\ bv_to_big_uint v = Ok (uval v).
Proof.
  intros (_ & F). split; [|split].
  - unfold bv_is_zero. apply forallb_zero.
  - unfold bv_to_u64. rewrite existsb_nonzero. unfold uval. destruct (words v) as [|x t]; [reflexivity|].
    cbn [skipn]. rewrite wv_cons. inversion_clear F as [|? ? Hx Ht].
    destruct (N.eqb_spec (wv t) 0) as [E|E]; cbn [negb].
    + rewrite E, N.mul_0_r, N.add_0_r. apply N.ltb_lt in Hx. rewrite Hx. reflexivity.
    + replace (x + 2 ^ 64 * wv t <? 2 ^ 64) with false; [reflexivity|]. symmetry.
      apply N.ltb_ge. clear - E. nia.
  - unfold bv_to_big_uint, to_big_uint. destruct (words_to_u32_ok _ F) as (r & E1 & E2).
    rewrite E1. cbn [bind]. unfold uval. congruence.
Qed.

Lemma negative_load m v : loaded v ->
  answers (bv_is_negative m v)
    (if (count v =? 0) || ((width v =? 0) && match m with Debug => true | Release => false end)
     then None else Some (N.testbit (uval v) (64 * (count v - 1) + (width v + 63) mod 64))).
Proof.
  intros (Hw & F). unfold bv_is_negative.
  destruct (N.eqb_spec (count v) 0) as [C|C]; cbn [orb].
  { unfold count in C. apply len_0 in C. rewrite C. unfold ar_is_neg. destruct (u32_sub m (width v) 1);
      eexists; reflexivity. }
  assert (L : 0 < len (words v)) by (unfold count in C; clear - C; lia).
  destruct (N.eqb_spec (width v) 0) as [Z|Z]; cbn [andb].
  - rewrite Z. destruct m; [eexists; reflexivity|]. cbn [answers].
    pose proof (is_neg_any (words v) 64 ltac:(reflexivity) F L) as H. exact H.
  - assert (P : 0 < width v) by (clear - Z; lia).
    assert (M : ar_is_neg m (words v) (width v) = ar_is_neg Release (words v) (width v)).
    { unfold ar_is_neg. rewrite !u32_sub_ok by (clear - P; lia). reflexivity. }
    rewrite M, is_neg_any by auto. cbn [answers]. do 3 f_equal.
    clear - P. dlia.
Qed.

Lemma idx_beyond {A} (l : list A) i : len l <= i -> panics (idx l i).
Proof.
  intros H. unfold idx. replace (nth_error l (N.to_nat i)) with (@None A); [eexists; reflexivity|].
  symmetry. apply nth_error_None. unfold len in H. clear - H. lia.
Qed.

Lemma bit_load v pos : loaded v ->
  answers (bv_is_bit_set v pos) (if pos <? 64 * count v then Some (N.testbit (uval v) pos) else None).
Proof.
  intros (_ & F). unfold bv_is_bit_set. destruct (N.ltb_spec pos (64 * count v)) as [L|L].
  - apply is_bit_set_words; auto. unfold count in L. dlia.
  - unfold ar_is_bit_set. destruct (idx_beyond (words v) (pos / 64)) as (p & ->); [|eexists; reflexivity].
    unfold count in L. dlia.
Qed.

Lemma set_bit_load v pos : loaded v ->
  keeps_words (bv_set_bit v pos) v
    (if pos <? 64 * count v then Some (N.setbit (uval v) pos) else None)
  /\ keeps_words (bv_clear_bit v pos) v
    (if pos <? 64 * count v then Some (N.clearbit (uval v) pos) else None).
Proof.
  intros (Hw & F). destruct (N.ltb_spec pos (64 * count v)) as [L|L]; cbn [keeps_words].
  - assert (P : pos / 64 < len (words v)) by (unfold count in L; dlia). split.
    + destruct (set_bit_words _ _ F P) as (l & E & W & L' & B). unfold bv_set_bit. rewrite E.
      eexists. split; [reflexivity|]. split; [split; auto|]. split; [reflexivity|]. split; [exact L'|].
      apply N.bits_inj. intros i. unfold uval. cbn [words]. rewrite B, N.setbit_eqb.
      rewrite (N.eqb_sym pos). destruct (i =? pos); reflexivity.
    + destruct (clear_bit_words _ _ F P) as (l & E & W & L' & B). unfold bv_clear_bit. rewrite E.
      eexists. split; [reflexivity|]. split; [split; auto|]. split; [reflexivity|]. split; [exact L'|].
      apply N.bits_inj. intros i. unfold uval. cbn [words]. rewrite B, N.clearbit_eqb.
      rewrite (N.eqb_sym pos). destruct (i =? pos); [rewrite andb_false_r|rewrite andb_true_r]; reflexivity.
  - destruct (idx_beyond (words v) (pos / 64)) as (p & E); [unfold count in L; dlia|].
    unfold bv_set_bit, bv_clear_bit, ar_set_bit, ar_clear_bit. rewrite E. split; eexists; reflexivity.
Qed.

Lemma assign_load m a b : loaded a -> loaded b ->
  keeps_words (bv_assign m a b) a
    (if admits m a b && (count a =? count b) then Some (uval b) else None).
Proof.
  intros (Hw & Fa) (_ & Fb). unfold bv_assign. destruct (admits m a b) eqn:A.
  2:{ now apply admits_stop. }
  rewrite admits_pass by auto. cbn [andb]. fold (count a) (count b).
  destruct (N.eqb_spec (count a) (count b)) as [E|E]; cbn [keeps_words].
  - cbn [assert bind]. eexists. split; [reflexivity|]. repeat split; auto.
  - eexists. reflexivity.
Qed.

(** ** Parts and extensions *)

Lemma slice_load m v msb lsb : loaded v -> lsb <= msb -> msb < 2 ^ 32 - 1 ->
  delivers (bv_slice m v msb lsb) (msb - lsb + 1) (load_slice m v msb lsb).
Proof.
  intros (Hw & F) H Hm. unfold bv_slice, load_slice.
  assert (S : msb - lsb + 1 < 2 ^ 32) by (clear - Hm; lia).
  destruct ((msb <=? width v) || _) eqn:A; cbn [andb].
  2:{ destruct m; [|rewrite orb_true_r in A; discriminate]. rewrite orb_false_r in A.
      rewrite A. eexists. reflexivity. }
  replace (debug_assert m (msb <=? width v)) with (Ok tt).
  2:{ destruct m; auto. rewrite orb_false_r in A. rewrite A. reflexivity. }
  replace (lsb <=? msb) with true by (clear - H; lia). rewrite debug_assert_true. cbn [bind].
  rewrite u32_sub_ok by auto. cbn [bind]. rewrite u32_add_ok by auto. cbn [bind].
  apply fits_delivers; auto.
  destruct (N.ltb_spec msb (64 * count v)) as [L|L]; cbn [fits_result].
  - apply (narrow_ok (fun o l => ar_slice m o l msb lsb)); [intros; dlia|].
    apply slice_wres; auto; [unfold count in L; dlia|apply zeros_len].
  - assert (P : forall o, ar_slice m o (words v) msb lsb = Panic PIndex).
    { intros o. unfold ar_slice, range. replace (_ && _) with false; [reflexivity|].
      symmetry. unfold count in L. dlia. }
    destruct (msb - lsb + 1 <=? 64) eqn:E.
    + rewrite range_zeros by (apply (proj1 (places_pos _)); clear; lia). cbn [bind]. rewrite P.
      eexists. reflexivity.
    + rewrite P. eexists. reflexivity.
Qed.

Lemma zext_load m v by_ : loaded v -> width v + by_ < 2 ^ 32 ->
  delivers (bv_zero_extend m v by_) (width v + by_) (load_zero_extend v by_).
Proof.
  intros (Hw & F) H. unfold bv_zero_extend, load_zero_extend. rewrite u32_add_ok by auto. cbn [bind].
  set (w := width v + by_) in *. apply fits_delivers; auto.
  destruct (N.leb_spec w 64) as [L|L].
  - destruct (N.eqb_spec w 0) as [Z|Z]; cbn [orb].
    { rewrite Z. eexists. reflexivity. }
    assert (P : places w = 1) by (unfold places; clear - L Z; dlia).
    rewrite range_zeros by (rewrite P; reflexivity). cbn [bind]. rewrite range_first.
    unfold count, uval. destruct (words v) as [|x t]; [eexists; reflexivity|].
    replace (len (x :: t) =? 0) with false by (rewrite len_cons; clear; lia). cbn [bind fits_result].
    inversion_clear F as [|? ? Hx Ht]. rewrite wv_cons, add_mul_mod0 by auto.
    change (ar_zero_extend [0] [x]) with (Ok [x]). cbn [bind].
    destruct (single_result w x) as (W' & L' & V'); [rewrite P; reflexivity|auto|].
    eexists. split; [reflexivity|auto].
  - unfold count, uval. pose proof (zeros_len w) as Lz. fold (places w) in Lz.
    destruct (N.ltb_spec (places w) (len (words v))) as [C|C]; cbn [fits_result].
    + unfold ar_zero_extend, on_tail, range. rewrite assign_len, Lz.
      replace (_ && _) with false by (clear - C; lia). eexists. reflexivity.
    + destruct (zext_words (value_vec_zeros w) (words v)) as (l & E & L' & W' & V');
        auto using zeros_words, zeros_val; [rewrite Lz; exact C|].
      exists l. rewrite L', Lz. auto.
Qed.

(** ** What can be loaded *)

Lemma omapM_ints b l : Forall (fun x => x < b) l -> omapM (de_int b) (map TInt l) = Some l.
Proof.
  induction 1 as [|x l Hx Hl IH]; [reflexivity|]. cbn [map omapM de_int].
  apply N.ltb_lt in Hx. rewrite Hx. cbn [obind]. rewrite IH. reflexivity.
Qed.

Lemma loadable v : loaded v <-> exists t, de_bv t = Some v.
Proof.
  split.
  - intros (Hw & F). exists (ser_bv v). unfold ser_bv. cbn [de_bv].
    change (field "width" _) with (Some (TInt (width v))).
    change (field "words" _) with (Some (TSeq (map TInt (words v)))). cbn [obind de_int de_seq].
    apply N.ltb_lt in Hw. rewrite B32_eq, Hw. cbn [obind]. rewrite B64_eq, omapM_ints by auto.
    destruct v. reflexivity.
  - intros (t & H). exact (de_bv_range t v H).
Qed.

Lemma bitwise_all m a b : loaded a -> loaded b ->
  delivers (bv_and m a b) (width a) (load_bitwise N.land m a b)
  /\ delivers (bv_or m a b) (width a) (load_bitwise N.lor m a b)
  /\ delivers (bv_xor m a b) (width a) (load_bitwise N.lxor m a b).
Proof.
  intros Ha Hb. repeat split.
  - apply (bitwise_load N.land andb); auto. intros; apply N.land_spec.
  - apply (bitwise_load N.lor orb); auto. intros; apply N.lor_spec.
  - apply (bitwise_load N.lxor xorb); auto. intros; apply N.lxor_spec.
Qed.

Lemma debug_compare a b : loaded a -> loaded b ->
  (width a = width b /\ count a = count b ->
     bv_is_equal Debug a b = Ok (uval a =? uval b)
     /\ bv_is_greater Debug a b = Ok (uval b <? uval a)
     /\ bv_is_less Debug a b = Ok (uval a <? uval b))
  /\ (~ (width a = width b /\ count a = count b) ->
     panics (bv_is_equal Debug a b) /\ panics (bv_is_greater Debug a b)
     /\ panics (bv_is_less Debug a b)).
Proof.
  intros Ha Hb. pose proof (equal_load Debug a b Ha Hb) as E.
  pose proof (greater_load Debug a b Ha Hb) as G. pose proof (greater_load Debug b a Hb Ha) as L.
  unfold load_equal, load_greater in *. cbn [admits] in *.
  change (bv_is_less Debug a b) with (bv_is_greater Debug b a). split.
  - intros (W & C).
    assert (Bx : uval a < 2 ^ (64 * count a)) by (apply wv_bound; apply Ha).
    assert (By : uval b < 2 ^ (64 * count b)) by (apply wv_bound; apply Hb).
    rewrite W, C, !N.eqb_refl, N.min_id, N.sub_diag in *. change (64 * 0) with 0 in *.
    change (2 ^ 0) with 1 in *. rewrite !N.div_1_r in *. cbn [andb] in *.
    replace ((count b =? 1) && (count b =? 0)) with false in * by (clear; lia). cbn [negb answers] in *.
    rewrite !mod_small_pow in E by auto. split; [exact E|].
    destruct (N.eqb_spec (count b) 1) as [O|O]; [|auto].
    rewrite O in Bx, By. change (64 * 1) with 64 in *. rewrite !mod_small_pow in G, L by auto. auto.
  - intros H.
    replace ((width a =? width b) && (count a =? count b)) with false in * by (clear - H; lia).
    replace ((width b =? width a) && (count b =? count a)) with false in * by (clear - H; lia).
    cbn [andb answers] in *. auto.
Qed.

(** In the values the library makes itself, the words are those of the width. *)
Lemma shaped_loaded v : well_shaped v -> loaded v /\ count v = places (width v).
Proof. intros (A & B & C). repeat split; auto. Qed.
