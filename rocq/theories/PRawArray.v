(** * PRawArray: array programs with any operands follow their reference interpreter (C87) *)

From Coq Require Import ZifyBool ZifyNat ZifyN Permutation.
From Verif Require Import Base Arith Map Bv Array Serde Unwind Spec CallSpec ArraySpec DirtySpec MixedSpec KindSpec
  UnwindSpec ArrayInterpSpec RawArraySpec.
From Verif Require BvInterpSpec.
Import BvInterpSpec(slot).
From Verif Require Import PWords PropsArith PRegister PDirty PDense PSparse PArrays PReject PUnwind PMixedAny.
From Verif Require PInterp PReleaseInterp PShift PStore PConv PArrayInterp.
Ltac Zify.zify_post_hook ::= idtac.

(** ** Guesses *)
Definition told {A B} (R : A -> B -> Prop) (r : res A) (g : guess B) : Prop :=
  match g with Known b => exists a, r = Ok a /\ R a b | Panicking => panics r | Unknown => True end.

Lemma told_checked {A B} (R : A -> B -> Prop) m b r g : (m = Release \/ b = true -> told R r g) ->
  told R (let* _ := debug_assert m b in r) (checked m b g).
Proof.
  intros H. unfold debug_assert, checked. destruct m; [|apply H; auto]. destruct b; [apply H; auto|].
  cbn. eexists. reflexivity.
Qed.
Lemma told_required {A B} (R : A -> B -> Prop) b r g : (b = true -> told R r g) -> (b = false -> panics r) ->
  told R r (required b g).
Proof. intros H K. destruct b; cbn [required]; [apply H|apply K]; auto. Qed.
(** the assertion is elsewhere *)
Lemma told_checked_in {A B} (R : A -> B -> Prop) m b r g : (m = Release \/ b = true -> told R r g) ->
  (m = Debug -> b = false -> panics r) -> told R r (checked m b g).
Proof. intros H K. unfold checked. destruct m; [|apply H; auto]. destruct b; [apply H; auto|]. now apply K. Qed.
Lemma told_known {A B} (R : A -> B -> Prop) a b : R a b -> told R (Ok a) (Known b).
Proof. intros H. exists a. auto. Qed.
Lemma told_map {A B C D} (R : A -> B -> Prop) (Q : C -> D -> Prop) r g (f : A -> res C) (h : B -> guess D) :
  told R r g -> (forall a b, R a b -> told Q (f a) (h b)) ->
  told Q (bind r f) match g with Known b => h b | Panicking => Panicking | Unknown => Unknown end.
Proof.
  intros T H. destruct g as [b| |]; cbn [told] in *; auto.
  - destruct T as (a & -> & K). cbn [bind]. now apply H.
  - now apply panics_bind.
Qed.

(** ** Values *)
Definition holds_slot (v : bv) (s : slot) : Prop := stores v (fst s) (snd s).

Lemma shaped_stores v : well_shaped v -> stores v (width v) (uval v).
Proof. intros H. repeat split; auto; apply H. Qed.
Lemma stores_bv_of w n : w < 2 ^ 32 -> n < 2 ^ (64 * places w) -> stores (bv_of w n) w n.
Proof.
  intros Hw Hn. destruct (words_of_ok (N.to_nat ((w + 63) / 64)) n) as (W & L & V).
  rewrite N2Nat.id in L, V. apply stores_intro; auto. rewrite V. now apply N.mod_small.
Qed.
Lemma stores_unique v w n : stores v w n -> v = bv_of w n.
Proof.
  intros ((H32 & L & W) & Ew & En). unfold bv_of.
  destruct (words_of_ok (N.to_nat ((w + 63) / 64)) n) as (W' & L' & V'). destruct v as [vw l].
  unfold uval in *. cbn [width words] in *. subst vw. f_equal. rewrite N2Nat.id in L', V'. apply wv_inj; auto; [lia|].
  rewrite V', <- En, <- L. symmetry. apply N.mod_small. now apply wv_bound.
Qed.
Lemma stores_bound v w n : stores v w n -> n < 2 ^ (64 * places w).
Proof. intros H. now apply stores_inv in H. Qed.

Lemma u64_told v w n : stores v w n -> unwrap (bv_to_u64 v) = if n <? 2 ^ 64 then Ok n else Panic PUnwrap.
Proof. intros H. rewrite (dirty_to_u64 v w n H). now destruct (n <? 2 ^ 64). Qed.

Lemma number_told m w x : w < 2 ^ 32 -> x < 2 ^ 64 -> told holds_slot (bv_from_u64 m x w) (from_number m w x).
Proof.
  intros Hw Hx. unfold from_number. pose proof (PReleaseInterp.ru64_does x w Hx Hw) as R.
  destruct m.
  - pose proof (PInterp.fresh_agrees (KFromU64 x w)) as A.
    assert (X : InterpSpec.fresh_range (KFromU64 x w)).
    { unfold InterpSpec.fresh_range. cbn. repeat split; auto. }
    specialize (A X). cbn [run InterpSpec.fresh] in A. clear X R.
    destruct (N.eqb_spec w 0) as [W|W]; cbn [orb] in A.
    + replace (0 <? w) with false by lia. cbn [required told].
      destruct A as (p & A). destruct (bv_from_u64 Debug x w); [discriminate|]. eexists; reflexivity.
    + replace (0 <? w) with true by lia. cbn [required checked].
      rewrite N.leb_antisym in A. destruct (x <? 2 ^ w) eqn:L; cbn [negb] in A; cbn [told].
      * destruct A as (v & A & H). destruct (bv_from_u64 Debug x w) as [v'|]; [|discriminate]. injection A as ->.
        exists v. split; [reflexivity|]. unfold holds_slot. cbn [fst snd]. rewrite N.mod_small by lia. exact H.
      * destruct A as (p & A). destruct (bv_from_u64 Debug x w); [discriminate|]. eexists; reflexivity.
  - cbn [checked]. destruct (N.eqb_spec w 0) as [W|W].
    + replace (0 <? w) with false by lia. exact R.
    + replace (0 <? w) with true by lia. exact R.
Qed.

Lemma bool_told m (b : bool) : told holds_slot (bv_from_bool m b) (Known (1, if b then 1 else 0)).
Proof.
  unfold bv_from_bool, bv_tru, bv_fals.
  destruct b; (eexists; split; [destruct m; vm_compute; reflexivity|]).
  - apply (is_bv_stores _ 1 1), (bv_of_is_bv 1 1); lia.
  - apply (is_bv_stores _ 1 0), (bv_of_is_bv 1 0); lia.
Qed.

Lemma bit_told v w n p : stores v w n ->
  if p <? 64 * places w then bv_is_bit_set v p = Ok (N.testbit n p) else panics (bv_is_bit_set v p).
Proof.
  intros H. destruct (N.ltb_spec p (64 * places w)) as [L|L].
  - now apply (dirty_is_bit_set v w n p).
  - apply stores_inv in H as (Wa & _ & La & Fa & Va & Ba). unfold bv_is_bit_set, ar_is_bit_set.
    rewrite PShift.idx_panic; [eexists; reflexivity|]. unfold places in L. rewrite La. dlia.
Qed.

(** ** Arrays *)
Definition rholds (a : array) (r : raw) : Prop :=
  let iw := q_iw r in
  let dw := q_dw r in
  iw < 2 ^ 32 /\ dw < 2 ^ 32 /\
  match q_cells r with
  | RBits n => dw = 1 /\ exists v, a = ADense (mkdense iw dw (DBit v)) /\ stores v (bits iw) n
  | RCells b l => dw <> 1 /\ dw <= 64 /\ exists ws,
      a = ADense (mkdense iw dw (if dw <=? 8 then DU8 ws else DU64 ws)) /\ len ws = elements iw
      /\ (forall i, i < elements iw -> nth (N.to_nat i) ws 0 = at_cell b l i)
      /\ Forall (fun x => x < if dw <=? 8 then 2 ^ 8 else 2 ^ 64) ws
  | RWords b l => 64 < dw /\ exists ws,
      a = ADense (mkdense iw dw (DBig ws)) /\ len ws = places dw * elements iw
      /\ (forall p, p < places dw * elements iw -> nth (N.to_nat p) ws 0 = word_at dw b l p)
      /\ Words ws
  | RSmall b l => iw <= 64 /\ dw <= 64 /\ b < 2 ^ 64 /\ exists table,
      a = ASparse (mksparse iw dw (SU64U64 b table)) /\ NoDup (map fst table)
      /\ (forall i, hm_get N.eqb table i = entry_at l i)
      /\ Forall (fun e => fst e < 2 ^ 64 /\ snd e < 2 ^ 64) table
  | RBig b l => iw <= 64 /\ 64 < dw /\ b < 2 ^ (64 * places dw) /\ exists table,
      a = ASparse (mksparse iw dw (SU64Big (bv_of dw b) table)) /\ NoDup (map fst table)
      /\ (forall i, hm_get N.eqb table i = option_map (fun s => bv_of (fst s) (snd s)) (entry_at l i))
      /\ (forall i s, entry_at l i = Some s -> i < 2 ^ 64 /\ fst s < 2 ^ 32 /\ snd s < 2 ^ (64 * places (fst s)))
  end.

Lemma rholds_type a r : rholds a r ->
  array_is_dense a = raw_is_dense r /\ array_index_width a = q_iw r /\ array_data_width a = q_dw r.
Proof.
  intros (_ & _ & H). unfold raw_is_dense. destruct (q_cells r).
  - destruct H as (_ & v & -> & _). auto.
  - destruct H as (_ & _ & ws & -> & _). auto.
  - destruct H as (_ & ws & -> & _). auto.
  - destruct H as (_ & _ & _ & t & -> & _). auto.
  - destruct H as (_ & _ & _ & t & -> & _). auto.
Qed.

(** ** Reading *)
Lemma nth_idx (l : list N) i : i < len l -> idx l i = Ok (nth (N.to_nat i) l 0).
Proof.
  intros H. unfold idx. rewrite (nth_error_nth' l 0); [reflexivity|]. unfold len in H. lia.
Qed.

(** a run of words *)
Lemma joined_words f : forall k (l : list N) p, (p + k <= length l)%nat ->
  (forall q, (q < length l)%nat -> nth q l 0 = f (N.of_nat q)) ->
  wv (firstn k (skipn p l)) = joined f (N.of_nat p) k.
Proof.
  induction k as [|k IH]; intros l p L H; [reflexivity|].
  destruct (skipn p l) as [|x t] eqn:E.
  { assert (X : length (skipn p l) = 0%nat) by now rewrite E. rewrite skipn_length in X. lia. }
  assert (X : x = nth p l 0).
  { rewrite <- (firstn_skipn p l) at 1. rewrite E, app_nth2; rewrite firstn_length_le by lia; [|lia].
    now rewrite Nat.sub_diag. }
  assert (T : t = skipn (S p) l).
  { clear - E. revert l E. induction p as [|p IH]; intros [|y l] E; try discriminate; [now injection E|].
    apply (IH l). exact E. }
  cbn [firstn joined]. rewrite wv_cons, T, IH by (auto; lia). rewrite X, H by lia.
  now replace (N.of_nat (S p)) with (N.of_nat p + 1) by lia.
Qed.

Lemma joined_below f : forall k p, (forall q, f q < 2 ^ 64) -> joined f p k < 2 ^ (64 * N.of_nat k).
Proof.
  induction k as [|k IH]; intros p H; cbn [joined]; [reflexivity|].
  replace (64 * N.of_nat (S k)) with (64 + 64 * N.of_nat k) by lia. rewrite N.pow_add_r.
  specialize (IH (p + 1) H). pose proof (H p). nia.
Qed.

(** where an element of a wide dense array starts *)
Lemma position_told {A B} (R : A -> B -> Prop) m iw dw i n (f : N -> res A) (k : N -> guess B) :
  n = places dw * elements iw ->
  (forall p, p + places dw <= n -> told R (f p) (k p)) ->
  (forall p, n < p + places dw -> panics (f p)) ->
  told R (let* p := usz_mul m (places dw) i in f p) (position m iw dw i k).
Proof.
  intros -> H K. unfold position, usz_mul, checked.
  assert (T : forall p, told R (f p) (required (p + places dw <=? places dw * elements iw) (k p))).
  { intros p. apply told_required; intros E; [apply H|apply K]; lia. }
  change B64 with (2 ^ 64). destruct (places dw * i <? 2 ^ 64) eqn:L.
  - rewrite N.mod_small by lia. destruct m; apply T.
  - destruct m; [eexists; reflexivity|]. apply T.
Qed.

Lemma in_get {V} (t : list (N * V)) i v : hm_get N.eqb t i = Some v -> In (i, v) t.
Proof.
  induction t as [|(k & x) t IH]; cbn [hm_get fst snd]; [discriminate|].
  destruct (N.eqb_spec k i) as [E|E]; intros H; [injection H as <-; left; now subst|right; auto].
Qed.

Lemma read_told probe m a r v w i : rholds a r -> stores v w i ->
  told holds_slot (array_select probe m a v) (raw_read m r w i).
Proof.
  intros (Hi & Hd & H) S. unfold raw_read. destruct r as [iw dw c]. cbn [q_iw q_dw q_cells] in *.
  assert (Ew : width v = w) by apply S.
  destruct c as [n|b l|b l|b l|b l].
  - destruct H as (-> & x & -> & X). cbn [array_select]. unfold dense_select. cbn [d_iw d_data]. rewrite Ew.
    apply told_checked. intros _. rewrite (u64_told _ _ _ S). apply told_required; intros E; rewrite E; [|eexists; reflexivity].
    cbn [bind]. unfold dense_select_usize. cbn [d_data]. unfold as_u32. change B32 with (2 ^ 32).
    pose proof (bit_told x (bits iw) n (i mod 2 ^ 32) X) as B.
    apply told_required; intros L; rewrite L in B; [rewrite B|now apply panics_bind]. apply bool_told.
  - destruct H as (D1 & D & ws & -> & L & G & F). cbn [array_select]. unfold dense_select. cbn [d_iw]. rewrite Ew.
    apply told_checked. intros _. rewrite (u64_told _ _ _ S). apply told_required; intros E; rewrite E; [|eexists; reflexivity].
    cbn [bind]. unfold dense_select_usize.
    assert (T : told holds_slot (let* v := idx ws i in bv_from_u64 m v dw)
                  (required (i <? elements iw) (from_number m dw (at_cell b l i)))).
    { apply told_required; intros I.
      - rewrite nth_idx by lia. cbn [bind]. rewrite G by lia. apply number_told; auto. rewrite <- G by lia.
        rewrite Forall_forall in F. assert (In (nth (N.to_nat i) ws 0) ws) by (apply nth_In; unfold len in L; lia).
        apply F in H. destruct (dw <=? 8); lia.
      - rewrite PShift.idx_panic by lia. eexists; reflexivity. }
    cbn [d_data d_dw]. destruct (dw <=? 8); exact T.
  - destruct H as (D & ws & -> & L & G & F). cbn [array_select]. unfold dense_select. cbn [d_iw]. rewrite Ew.
    apply told_checked. intros _. rewrite (u64_told _ _ _ S). apply told_required; intros E; rewrite E; [|eexists; reflexivity].
    cbn [bind]. unfold dense_select_usize. cbn [d_data d_dw]. unfold words_per_element. rewrite div_ceil_eq. fold (places dw).
    apply position_told with (n := len ws); auto; intros p P.
    + unfold range. replace ((p <=? p + places dw) && (p + places dw <=? len ws)) with true by lia.
      cbn [bind]. eexists; split; [reflexivity|]. unfold holds_slot. cbn [fst snd].
      replace (p + places dw - p) with (places dw) by lia.
      set (q := firstn _ _). assert (Lq : len q = places dw).
      { unfold q, len. rewrite firstn_length_le; [lia|]. rewrite skipn_length. unfold len in P. lia. }
      assert (Wq : Words q) by (unfold q; apply Words_firstn, Words_skipn; auto).
      apply stores_intro; auto.
      unfold q. rewrite (joined_words (word_at dw b l)); [now rewrite N2Nat.id|unfold len in P; lia|].
      intros t T. rewrite <- (Nat2N.id t) at 1. apply G. unfold len in L. lia.
    + unfold range. replace ((p <=? p + places dw) && (p + places dw <=? len ws)) with false by lia.
      eexists; reflexivity.
  - destruct H as (I & D & B & t & -> & U & G & F). cbn [array_select]. unfold sparse_select. cbn [s_iw s_data s_dw].
    rewrite Ew. apply told_checked. intros _. rewrite (u64_told _ _ _ S).
    apply told_required; intros E; rewrite E; [|eexists; reflexivity]. cbn [bind]. rewrite G.
    assert (X : unwrap_or (entry_at l i) b < 2 ^ 64).
    { rewrite <- G. destruct (hm_get N.eqb t i) as [x|] eqn:Q; [|exact B]. apply in_get in Q.
      rewrite Forall_forall in F. apply F in Q. apply Q. }
    pose proof (number_told m dw _ Hd X) as T. destruct (entry_at l i); exact T.
  - destruct H as (I & D & B & t & -> & U & G & F). cbn [array_select]. unfold sparse_select. cbn [s_iw s_data s_dw].
    rewrite Ew. apply told_checked. intros _. rewrite (u64_told _ _ _ S).
    apply told_required; intros E; rewrite E; [|eexists; reflexivity]. cbn [bind]. rewrite G.
    apply told_known. destruct (entry_at l i) as [s|] eqn:Q; cbn [option_map unwrap_or].
    + apply F in Q. apply stores_bv_of; apply Q.
    + now apply stores_bv_of.
Qed.

(** ** Writing *)
Lemma set_bit_told v w n p : stores v w n -> p < 2 ^ 32 ->
  if p <? 64 * places w then exists v', bv_set_bit v p = Ok v' /\ stores v' w (N.setbit n p) else panics (bv_set_bit v p).
Proof.
  intros H P. pose proof (PInterp.unary_agrees (InterpSpec.USetBit p) v w n P H) as A.
  cbn [InterpSpec.unary_call run InterpSpec.unary_result] in A. rewrite N.leb_antisym in A.
  destruct (p <? 64 * places w); cbn [negb InterpSpec.agrees] in A; destruct (bv_set_bit v p) as [v'|q] eqn:E; cbn [bind] in A.
  - destruct A as (x & Q & S). injection Q as ->. eauto.
  - destruct A as (x & Q & S). discriminate.
  - destruct A as (x & Q). discriminate.
  - eexists; reflexivity.
Qed.
Lemma clear_bit_told v w n p : stores v w n -> p < 2 ^ 32 ->
  if p <? 64 * places w then exists v', bv_clear_bit v p = Ok v' /\ stores v' w (N.clearbit n p) else panics (bv_clear_bit v p).
Proof.
  intros H P. pose proof (PInterp.unary_agrees (InterpSpec.UClearBit p) v w n P H) as A.
  cbn [InterpSpec.unary_call run InterpSpec.unary_result] in A. rewrite N.leb_antisym in A.
  destruct (p <? 64 * places w); cbn [negb InterpSpec.agrees] in A; destruct (bv_clear_bit v p) as [v'|q] eqn:E; cbn [bind] in A.
  - destruct A as (x & Q & S). injection Q as ->. eauto.
  - destruct A as (x & Q & S). discriminate.
  - destruct A as (x & Q). discriminate.
  - eexists; reflexivity.
Qed.

Lemma one_word v n : stores v 1 n -> exists x, words v = [x] /\ x = n.
Proof.
  intros H. apply stores_inv in H as (Wa & _ & La & Fa & Va & Ba). change ((1 + 63) / 64) with 1 in La.
  destruct (words v) as [|x [|y t]]; unfold len in La; cbn [length] in La; try lia.
  exists x. split; [reflexivity|]. rewrite <- Va, wv_cons. cbn [wv]. lia.
Qed.
Lemma tru_told v w n : stores v w n -> bv_is_tru v = Ok ((w =? 1) && (n =? 1)).
Proof.
  intros H. assert (E : width v = w) by apply H. unfold bv_is_tru. rewrite E.
  destruct (N.eqb_spec w 1) as [->|Q]; [|reflexivity].
  destruct (one_word v n H) as (x & -> & ->). reflexivity.
Qed.
Lemma fals_told v n : stores v 1 n -> bv_is_fals v = Ok (n =? 0).
Proof.
  intros H. assert (E : width v = 1) by apply H. unfold bv_is_fals. rewrite E.
  destruct (one_word v n H) as (x & -> & ->). reflexivity.
Qed.

Lemma equal_told m v w n v' w' n' : stores v w n -> stores v' w' n' -> m = Release \/ w = w' ->
  bv_is_equal m v v' = Ok (low w w' n =? low w w' n').
Proof.
  intros H H' M. rewrite <- (any_equal_mixed v v' w n w' n' H H'). unfold bv_is_equal.
  replace (width v) with w by (symmetry; apply H). replace (width v') with w' by (symmetry; apply H').
  destruct m; [|reflexivity]. destruct M as [M|M]; [discriminate|]. subst w'.
  apply stores_inv in H as (_ & _ & L & _). apply stores_inv in H' as (_ & _ & L' & _).
  now rewrite L, L', !N.eqb_refl.
Qed.

Lemma latest_cons {A} (l : list (N * A)) i x j : latest ((i, x) :: l) j = if i =? j then Some x else latest l j.
Proof. unfold latest. cbn [find fst]. destruct (i =? j); reflexivity. Qed.
Lemma entry_cons {A} (l : list (N * option A)) i x j : entry_at ((i, x) :: l) j = if i =? j then x else entry_at l j.
Proof. unfold entry_at. rewrite latest_cons. destruct (i =? j); reflexivity. Qed.
Lemma cell_cons b l i x j : at_cell b ((i, x) :: l) j = if i =? j then x else at_cell b l j.
Proof. unfold at_cell. rewrite latest_cons. destruct (i =? j); reflexivity. Qed.

Lemma word_shift n j : word n (j + 1) = word (n / 2 ^ 64) j.
Proof.
  unfold word. replace (64 * (j + 1)) with (64 + 64 * j) by lia. rewrite N.pow_add_r, N.div_div; [reflexivity| |];
    apply N.pow_nonzero; lia.
Qed.
Lemma latest_split l : forall k p x q, latest (split_from p x k ++ l) q
  = if (p <=? q) && (q <? p + N.of_nat k) then Some (word x (q - p)) else latest l q.
Proof.
  induction k as [|k IH]; intros p x q; cbn [split_from app].
  - replace ((p <=? q) && (q <? p + N.of_nat 0)) with false by lia. reflexivity.
  - rewrite latest_cons, IH. destruct (N.eqb_spec p q) as [->|Q].
    + replace ((q <=? q) && (q <? q + N.of_nat (S k))) with true by lia.
      rewrite N.sub_diag. unfold word. change (2 ^ (64 * 0)) with 1. now rewrite N.div_1_r.
    + replace ((p <=? q) && (q <? p + N.of_nat (S k))) with ((p + 1 <=? q) && (q <? p + 1 + N.of_nat k)) by lia.
      destruct ((p + 1 <=? q) && (q <? p + 1 + N.of_nat k)) eqn:L; [|reflexivity].
      rewrite <- word_shift. now replace (q - (p + 1) + 1) with (q - p) by lia.
Qed.
Lemma word_below n j : word n j < 2 ^ 64.
Proof. unfold word. now apply N.mod_lt. Qed.

(** the words of a bit-vector *)
Lemma nth_word : forall l j, Words l -> nth (N.to_nat j) l 0 = word (wv l) j.
Proof.
  induction l as [|x l IH]; intros j W.
  - unfold word. cbn [wv]. rewrite N.div_0_l by (apply N.pow_nonzero; lia). now destruct (N.to_nat j).
  - inversion W as [|? ? X W']; subst. rewrite wv_cons. destruct (N.eqb_spec j 0) as [->|Q].
    + unfold word. change (2 ^ (64 * 0)) with 1. rewrite N.div_1_r. cbn [N.to_nat nth].
      rewrite N.mul_comm, N.mod_add by lia. now rewrite N.mod_small.
    + replace j with (j - 1 + 1) at 2 by lia. rewrite word_shift. replace (N.to_nat j) with (S (N.to_nat (j - 1))) by lia.
      cbn [nth]. rewrite IH by auto. f_equal.
      rewrite N.mul_comm, N.div_add by lia. rewrite N.div_small by exact X. reflexivity.
Qed.
Lemma nth_stores v w n j : stores v w n -> nth (N.to_nat j) (words v) 0 = word n j.
Proof. intros H. apply stores_inv in H as (Wa & _ & La & Fa & Va & Ba). rewrite nth_word by auto. now rewrite Va. Qed.

Lemma told_wrap {A B C} (R : A -> B -> Prop) (Q : C -> B -> Prop) (f : A -> C) r g :
  told R r g -> (forall a b, R a b -> Q (f a) b) -> told Q (let* x := r in Ok (f x)) g.
Proof.
  intros T H. destruct g as [b| |]; cbn [told] in *; auto.
  - destruct T as (a & -> & K). exists (f a). auto.
  - now apply panics_bind.
Qed.

Lemma word_at_split dw b l p x k q : word_at dw b (split_from p x k ++ l) q
  = if (p <=? q) && (q <? p + N.of_nat k) then word x (q - p) else word_at dw b l q.
Proof. unfold word_at. rewrite latest_split. destruct ((p <=? q) && (q <? p + N.of_nat k)); reflexivity. Qed.

Lemma cells_written dw ws i y : i < len ws ->
  Forall (fun x => x < if (dw <=? 8) then 2 ^ 8 else 2 ^ 64) ws -> (y < if (dw <=? 8) then 2 ^ 8 else 2 ^ 64) ->
  Forall (fun x => x < if dw <=? 8 then 2 ^ 8 else 2 ^ 64) (firstn (N.to_nat i) ws ++ y :: skipn (S (N.to_nat i)) ws).
Proof.
  intros L F Y. apply Forall_app. split; [|constructor; auto].
  - rewrite Forall_forall in *. intros z Z. apply F. rewrite <- (firstn_skipn (N.to_nat i) ws). apply in_or_app. auto.
  - rewrite Forall_forall in *. intros z Z. apply F. rewrite <- (firstn_skipn (S (N.to_nat i)) ws). apply in_or_app. auto.
Qed.

(** the array after a write *)
Definition wrote_to (r : raw) (a : array) (c : cells) : Prop := rholds a (mkraw (q_iw r) (q_dw r) c).

Lemma write_told probe m a r v w i x w' n : rholds a r -> stores v w i -> stores x w' n ->
  told (wrote_to r) (array_store probe m a v x) (raw_write m r w i w' n).
Proof.
  intros (Hi & Hd & H) S X. unfold raw_write, wrote_to. destruct r as [iw dw c]. cbn [q_iw q_dw q_cells] in *.
  assert (Ew : width v = w) by apply S. assert (Ex : width x = w') by apply X.
  assert (Dense : forall data g,
    a = ADense (mkdense iw dw data) ->
    (m = Release \/ (w =? iw) && (w' =? dw) = true -> i < 2 ^ 64 ->
     told (fun d c => rholds (ADense (mkdense iw dw d)) (mkraw iw dw c))
       (match data with
        | DBit value =>
            let* t := bv_is_tru x in
            let* v := (if t then bv_set_bit value (as_u32 i) else bv_clear_bit value (as_u32 i)) in Ok (DBit v)
        | DU8 values =>
            let* x := unwrap (bv_to_u64 x) in let* l := set_idx values i (as_u8 x) in Ok (DU8 l)
        | DU64 values => let* x := unwrap (bv_to_u64 x) in let* l := set_idx values i x in Ok (DU64 l)
        | DBig values =>
            let* start := usz_mul m (words_per_element dw) i in
            let stop := start + words_per_element dw in
            let* ws := range values start stop in
            let* v := bv_assign m (mkbv dw ws) x in Ok (DBig (splice values start (words v)))
        end) g) ->
    told (fun a c => rholds a (mkraw iw dw c)) (array_store probe m a v x)
      (checked m ((w =? iw) && (w' =? dw)) (required (i <? 2 ^ 64) g))).
  { intros data g -> K. cbn [array_store].
    apply told_wrap with (R := fun d c => rholds (ADense d) (mkraw iw dw c)); [|auto].
    unfold dense_store. cbn [d_iw d_dw d_data]. rewrite Ew, Ex, (u64_told _ _ _ S).
    apply told_checked_in.
    - intros M. apply told_required; intros E; rewrite E; cbn [bind].
      + replace (debug_assert m (w =? iw)) with (Ok tt); [cbn [bind]|].
        2:{ destruct m; [|reflexivity]. destruct M as [M|M]; [discriminate|]. symmetry. apply debug_assert_ok. lia. }
        replace (debug_assert m (w' =? dw)) with (Ok tt); [cbn [bind]|].
        2:{ destruct m; [|reflexivity]. destruct M as [M|M]; [discriminate|]. symmetry. apply debug_assert_ok. lia. }
        eapply told_wrap with (f := fun d => mkdense iw dw d); [apply K; auto; lia|]. auto.
      + unfold debug_assert. destruct m, (w =? iw); eexists; reflexivity.
    - intros -> E. unfold debug_assert. destruct (w =? iw); [|eexists; reflexivity]. cbn [bind].
      destruct (i <? 2 ^ 64); [|eexists; reflexivity]. cbn [bind andb] in *. rewrite E. eexists; reflexivity. }
  destruct c as [k|b l|b l|b l|b l].
  - destruct H as (-> & y & -> & Y). apply (Dense (DBit y)); [reflexivity|]. intros _ I. rewrite (tru_told _ _ _ X).
    cbn [bind]. unfold as_u32. change B32 with (2 ^ 32).
    assert (P : i mod 2 ^ 32 < 2 ^ 32) by now apply N.mod_lt.
    pose proof (set_bit_told y (bits iw) k _ Y P) as B. pose proof (clear_bit_told y (bits iw) k _ Y P) as B'.
    apply told_required; intros L; rewrite L in B, B'.
    + destruct ((w' =? 1) && (n =? 1)); [destruct B as (z & -> & Z)|destruct B' as (z & -> & Z)]; cbn [bind].
      all: apply told_known; cbv zeta; unfold rholds; cbn [q_iw q_dw q_cells]; repeat split; auto; exists z; split; auto.
    + apply panics_bind. now destruct ((w' =? 1) && (n =? 1)).
  - destruct H as (D1 & D & ws & -> & L & G & F). eapply Dense; [reflexivity|]. intros _ I.
    rewrite (u64_told _ _ _ X).
    assert (T : told (fun ws' c => len ws' = elements iw /\ rholds (ADense (mkdense iw dw (if dw <=? 8 then DU8 ws' else DU64 ws'))) (mkraw iw dw c))
                 (let* x := if n <? 2 ^ 64 then Ok n else Panic PUnwrap in set_idx ws i (cell dw x))
                 (required ((i <? elements iw) && (n <? 2 ^ 64)) (Known (RCells b ((i, cell dw n) :: l))))).
    { apply told_required; intros Q.
      - replace (n <? 2 ^ 64) with true by lia. cbn [bind]. rewrite PShift.set_idx_ok by lia. apply told_known.
        assert (L' : i < len ws) by lia.
        split; [rewrite len_set; auto; lia|]. unfold rholds. cbn [q_iw q_dw q_cells]. repeat split; auto.
        eexists; split; [reflexivity|]. split; [rewrite len_set; auto|]. split.
        + intros j J. rewrite nth_set_N by auto. rewrite cell_cons, (N.eqb_sym i j), G by auto. reflexivity.
        + apply cells_written; auto. unfold cell. destruct (dw <=? 8); [now apply N.mod_lt|lia].
      - destruct (n <? 2 ^ 64); [|eexists; reflexivity]. cbn [bind]. rewrite PShift.set_idx_panic by lia.
        eexists; reflexivity. }
    eapply told_wrap with (f := fun ws' => if dw <=? 8 then DU8 ws' else DU64 ws') in T.
    + unfold cell in T at 1. destruct (dw <=? 8), (n <? 2 ^ 64); exact T.
    + intros ws' c Q. apply Q.
  - destruct H as (D & ws & -> & L & G & F). apply (Dense (DBig ws)); [reflexivity|]. intros M I.
    unfold words_per_element. rewrite div_ceil_eq. fold (places dw).
    pose proof (stores_inv _ _ _ X) as (_ & _ & Lx & Wx & _). fold (places w') in Lx.
    apply position_told with (n := len ws); auto; intros p P; unfold range.
    + replace ((p <=? p + places dw) && (p + places dw <=? len ws)) with true by lia. cbn [bind].
      replace (p + places dw - p) with (places dw) by lia.
      set (q := firstn _ _). assert (Lq : len q = places dw).
      { unfold q, len. rewrite firstn_length_le; [lia|]. rewrite skipn_length. unfold len in P. lia. }
      unfold bv_assign. cbn [width words]. rewrite Ex, Lq, Lx.
      replace (debug_assert m (dw =? w')) with (Ok tt); [cbn [bind]|].
      2:{ destruct m; [|reflexivity]. destruct M as [M|M]; [discriminate|]. symmetry. apply debug_assert_ok. lia. }
      assert (E : m = Debug -> dw = w') by (intros ->; destruct M as [M|M]; [discriminate|lia]).
      rewrite (N.eqb_sym (places w') (places dw)).
      apply told_required; intros Q.
      * rewrite Q. rewrite debug_assert_true. cbn [bind assert]. apply told_known.
        unfold rholds. cbn [q_iw q_dw q_cells words]. assert (Lp : p + len (words x) <= len ws) by lia.
        repeat split; auto. eexists; split; [reflexivity|]. split; [rewrite PStore.splice_len; auto; lia|].
        split; [|now apply Words_splice].
        intros t T. rewrite PStore.nth_splice by auto. rewrite N2Nat.id, word_at_split, N2Nat.id, Lx.
        replace (places w') with (places dw) by lia.
        destruct ((p <=? t) && (t <? p + places dw)); [|now apply G].
        rewrite <- N2Nat.inj_sub. now apply (nth_stores x w').
      * destruct m; [rewrite E in Q by auto; lia|]. rewrite Q. eexists; reflexivity.
    + replace ((p <=? p + places dw) && (p + places dw <=? len ws)) with false by lia. eexists; reflexivity.
  - destruct H as (I & D & B & t & -> & U & G & F). cbn [array_store].
    apply told_wrap with (R := fun d c => rholds (ASparse d) (mkraw iw dw c)); [|auto].
    unfold sparse_store. cbn [s_iw s_dw s_data]. rewrite Ew, Ex, (u64_told _ _ _ S), (u64_told _ _ _ X).
    apply told_checked_in.
    2:{ intros -> E. unfold debug_assert. destruct (w =? iw); [|eexists; reflexivity]. cbn [bind andb] in *.
        rewrite E. eexists; reflexivity. }
    intros M. replace (debug_assert m (w =? iw)) with (Ok tt); [cbn [bind]|].
    2:{ destruct m; [|reflexivity]. destruct M as [M|M]; [discriminate|]. symmetry. apply debug_assert_ok. lia. }
    replace (debug_assert m (w' =? dw)) with (Ok tt); [cbn [bind]|].
    2:{ destruct m; [|reflexivity]. destruct M as [M|M]; [discriminate|]. symmetry. apply debug_assert_ok. lia. }
    apply told_required; intros E; rewrite E; [|eexists; reflexivity]. cbn [bind].
    apply told_required; intros Q; rewrite Q; [|eexists; reflexivity]. cbn [bind].
    apply told_known. unfold rholds. cbn [q_iw q_dw q_cells]. repeat split; auto. eexists; split; [reflexivity|].
    split; [destruct (n =? b); [now apply remove_nodup|apply insert_nodup; auto using N_eqb_eq]|]. split.
    + intros j. rewrite entry_cons, <- G. destruct (n =? b); [apply get_remove; auto; apply N_eqb_eq|apply get_insert, N_eqb_eq].
    + destruct (n =? b); [now apply forall_remove|]. apply forall_insert; auto; [apply N_eqb_eq|]. cbn [fst snd]. lia.
  - destruct H as (I & D & B & t & -> & U & G & F). cbn [array_store].
    apply told_wrap with (R := fun d c => rholds (ASparse d) (mkraw iw dw c)); [|auto].
    unfold sparse_store. cbn [s_iw s_dw s_data]. rewrite Ew, Ex, (u64_told _ _ _ S).
    apply told_checked_in.
    2:{ intros -> E. unfold debug_assert. destruct (w =? iw); [|eexists; reflexivity]. cbn [bind andb] in *.
        rewrite E. eexists; reflexivity. }
    intros M. replace (debug_assert m (w =? iw)) with (Ok tt); [cbn [bind]|].
    2:{ destruct m; [|reflexivity]. destruct M as [M|M]; [discriminate|]. symmetry. apply debug_assert_ok. lia. }
    replace (debug_assert m (w' =? dw)) with (Ok tt); [cbn [bind]|].
    2:{ destruct m; [|reflexivity]. destruct M as [M|M]; [discriminate|]. symmetry. apply debug_assert_ok. lia. }
    apply told_required; intros E; rewrite E; [|eexists; reflexivity]. cbn [bind].
    rewrite (equal_told m x w' n (bv_of dw b) dw b X (stores_bv_of dw b Hd B)).
    2:{ destruct m; [|auto]. destruct M as [M|M]; [discriminate|]. right. lia. }
    cbn [bind]. rewrite owned_id. apply told_known. unfold rholds. cbn [q_iw q_dw q_cells]. repeat split; auto.
    set (same := low w' dw n =? low w' dw b). eexists; split; [reflexivity|].
    split; [destruct same; [now apply remove_nodup|apply insert_nodup; auto using N_eqb_eq]|]. split.
    + intros j. rewrite entry_cons. destruct same.
      * rewrite get_remove, G; auto using N_eqb_eq. destruct (i =? j); reflexivity.
      * rewrite get_insert, G; auto using N_eqb_eq. destruct (i =? j); [|reflexivity]. cbn [option_map fst snd].
        f_equal. now apply stores_unique.
    + intros j s. rewrite entry_cons. destruct (N.eqb_spec i j) as [->|J]; [|apply F].
      destruct same; [discriminate|]. intros Q. injection Q as <-. cbn [fst snd].
      pose proof (stores_inv _ _ _ X) as (_ & ? & _). repeat split; auto; [lia|]. now apply (stores_bound x).
Qed.

(** ** Clearing *)
Lemma clear_stores v w n : stores v w n -> stores (bv_clear v) w 0.
Proof.
  intros H. apply stores_inv in H as (Wa & Hw & La & Fa & Va & Ba). unfold bv_clear. rewrite Wa.
  apply stores_intro; auto.
  - unfold len in *. now rewrite map_length.
  - clear. induction (words v) as [|x l IH]; [reflexivity|]. cbn [map]. rewrite wv_cons, IH. reflexivity.
Qed.
Lemma zero_stores w : w < 2 ^ 32 -> stores (bv_zero w) w 0.
Proof. intros H. apply is_bv_stores. now apply PConv.zero_is_bv. Qed.
Lemma bv_of_zero w : w < 2 ^ 32 -> bv_zero w = bv_of w 0.
Proof. intros H. apply stores_unique. now apply zero_stores. Qed.
Lemma forall_zeros (l : list N) b : 0 < b -> Forall (fun x => x < b) (map (fun _ => 0) l).
Proof. intros H. apply Forall_forall. intros x X. now apply in_map_iff in X as (y & <- & _). Qed.
Lemma len_zeros (l : list N) : len (map (fun _ : N => 0) l) = len l.
Proof. unfold len. now rewrite map_length. Qed.
Lemma word_zero j : word 0 j = 0.
Proof. unfold word. rewrite N.div_0_l; [reflexivity|]. apply N.pow_nonzero; lia. Qed.
Lemma two_pos k : 0 < 2 ^ k.
Proof. apply N.neq_0_lt_0, N.pow_nonzero. lia. Qed.

Lemma clear_told a r : rholds a r -> rholds (array_clear a) (mkraw (q_iw r) (q_dw r) (raw_cleared (q_cells r))).
Proof.
  intros (Hi & Hd & H). unfold rholds. destruct r as [iw dw c]. cbn [q_iw q_dw q_cells] in *. repeat split; auto.
  destruct c as [n|b l|b l|b l|b l]; cbn [raw_cleared].
  - destruct H as (-> & x & -> & X). split; auto. eexists; split; [reflexivity|]. now apply (clear_stores _ _ n).
  - destruct H as (D1 & D & ws & -> & L & G & F). repeat split; auto. exists (map (fun _ => 0) ws).
    split; [unfold array_clear, dense_clear; cbn [d_iw d_dw d_data]; now destruct (dw <=? 8)|].
    rewrite len_zeros. split; auto. split; [intros; apply nth_map0|]. apply forall_zeros. destruct (dw <=? 8); lia.
  - destruct H as (D & ws & -> & L & G & F). split; auto. eexists; split; [reflexivity|].
    rewrite len_zeros. split; auto. split; [|apply forall_zeros; lia].
    intros p P. rewrite nth_map0. symmetry. apply word_zero.
  - destruct H as (I & D & B & t & -> & U & G & F). split; [auto|]. split; [auto|]. split; [lia|]. eexists; split; [reflexivity|].
    repeat constructor.
  - destruct H as (I & D & B & t & -> & U & G & F). split; [auto|]. split; [auto|]. split; [apply two_pos|]. exists [].
    unfold array_clear, sparse_clear. cbn [s_iw s_dw s_data]. rewrite bv_of_zero by auto.
    repeat split; try constructor; discriminate.
Qed.

(** ** Creation *)
Lemma shl1_told m iw : (m = Release \/ iw < 64) -> u64_shl1 m iw = Ok (elements iw).
Proof.
  intros H. unfold u64_shl1, elements. destruct (N.ltb_spec iw 64) as [L|L].
  - now rewrite N.mod_small by lia.
  - destruct m; [|reflexivity]. destruct H; [discriminate|lia].
Qed.

Lemma refused_debug iw dw : refused iw dw = true ->
  panics (let* s := approx_dense_storage_size Debug iw dw in debug_assert Debug (s <=? DENSE_ARRAY_MAX_BYTES)).
Proof.
  unfold refused. intros L. apply N.ltb_lt in L. unfold approx_dense_storage_size, u64_shl1, panics.
  destruct (iw <? 64); cbn [bind]; [|eauto]. destruct (dw =? 1).
  { cbn [bind]. unfold div_ceil. replace (2 ^ iw + 8 - 1) with (2 ^ iw + 7) by lia.
    unfold debug_assert. change DENSE_ARRAY_MAX_BYTES with (2 ^ 30).
    replace ((2 ^ iw + 7) / 8 <=? 2 ^ 30) with false; [eauto|]. symmetry. now apply N.leb_gt. }
  destruct (dw <=? 8).
  { cbn [bind]. unfold debug_assert. change DENSE_ARRAY_MAX_BYTES with (2 ^ 30).
    replace (2 ^ iw <=? 2 ^ 30) with false; [eauto|]. symmetry. now apply N.leb_gt. }
  destruct (dw <=? 64).
  { destruct (debug_mul_big (2 ^ iw) 8 ltac:(lia)) as [X|X]; rewrite X; eauto. }
  rewrite div_ceil_eq. rewrite N.mul_comm in L.
  destruct (debug_mul_big (2 ^ iw) ((dw + 63) / 64) L) as [X|X]; rewrite X; eauto.
Qed.

Lemma allowed_debug iw dw : refused iw dw = false ->
  iw < 64 /\ (64 < dw -> elements iw * places dw < 2 ^ 64)
  /\ (let* s := approx_dense_storage_size Debug iw dw in debug_assert Debug (s <=? DENSE_ARRAY_MAX_BYTES)) = Ok tt.
Proof.
  unfold refused. intros L. apply N.ltb_ge in L.
  assert (I : iw < 34).
  { apply (N.pow_lt_mono_r_iff 2); [lia|]. change (2 ^ 34) with (16 * 2 ^ 30).
    destruct (dw =? 1); [pose proof (N.mul_succ_div_gt (2 ^ iw + 7) 8 ltac:(lia)); lia|].
    destruct (dw <=? 8) eqn:E8; [lia|]. destruct (dw <=? 64) eqn:E64; [lia|].
    assert (1 <= (dw + 63) / 64) by dlia. nia. }
  assert (E : elements iw = 2 ^ iw) by (unfold elements; now rewrite N.mod_small by lia).
  split; [lia|]. split.
  - intros D. replace (dw =? 1) with false in L by lia. replace (dw <=? 8) with false in L by lia.
    replace (dw <=? 64) with false in L by lia. unfold places. rewrite E, N.mul_comm. lia.
  - unfold approx_dense_storage_size. rewrite shl1_told by lia. cbn [bind]. rewrite E.
    unfold debug_assert. change DENSE_ARRAY_MAX_BYTES with (2 ^ 30).
    destruct (dw =? 1).
    { cbn [bind]. unfold div_ceil. replace (2 ^ iw + 8 - 1) with (2 ^ iw + 7) by lia. now apply N.leb_le in L as ->. }
    destruct (dw <=? 8); [cbn [bind]; now apply N.leb_le in L as ->|].
    destruct (dw <=? 64).
    { rewrite usz_mul_ok by lia. cbn [bind]. rewrite N.mul_comm in L. now apply N.leb_le in L as ->. }
    rewrite div_ceil_eq. rewrite N.mul_comm in L. rewrite usz_mul_ok by lia. cbn [bind]. now apply N.leb_le in L as ->.
Qed.

Lemma approx_told {A B} (R : A -> B -> Prop) m iw dw (r : res A) (g : guess B) :
  (m = Release \/ iw < 64 /\ (64 < dw -> elements iw * places dw < 2 ^ 64) -> told R r g) ->
  told R (let* s := approx_dense_storage_size m iw dw in
          let* _ := debug_assert m (s <=? DENSE_ARRAY_MAX_BYTES) in r)
    (checked m (negb (refused iw dw)) g).
Proof.
  intros H. destruct m.
  - cbn [checked]. destruct (refused iw dw) eqn:E; cbn [negb told].
    + apply refused_debug in E. destruct E as (p & E).
      destruct (approx_dense_storage_size Debug iw dw) as [s|]; cbn [bind] in *; [|eexists; reflexivity].
      rewrite E. eexists; reflexivity.
    + apply allowed_debug in E as (I & M & E).
      destruct (approx_dense_storage_size Debug iw dw) as [s|]; cbn [bind] in *; [|discriminate].
      rewrite E. cbn [bind]. auto.
  - destruct (approx_release iw dw) as (s & ->). cbn [checked bind debug_assert]. auto.
Qed.

Lemma nth_concat (b : list N) n p : b <> [] -> (p < length b * n)%nat ->
  nth p (concat (repeat b n)) 0 = nth (p mod length b) b 0.
Proof.
  intros B. assert (L : (0 < length b)%nat) by (destruct b; [contradiction|cbn; lia]). revert p.
  induction n as [|n IH]; intros p P; [lia|]. cbn [repeat concat].
  destruct (Nat.ltb_spec p (length b)) as [Q|Q].
  - rewrite app_nth1 by lia. now rewrite Nat.mod_small by lia.
  - rewrite app_nth2 by lia. rewrite IH by lia. f_equal.
    replace p with (p - length b + 1 * length b)%nat at 2 by lia. now rewrite Nat.mod_add by lia.
Qed.

Lemma rholds_bits iw v n : iw < 2 ^ 32 -> stores v (bits iw) n ->
  rholds (ADense (mkdense iw 1 (DBit v))) (mkraw iw 1 (RBits n)).
Proof. intros I S. repeat split; auto. exists v. split; [reflexivity|auto]. Qed.

Lemma new_dense_told m iw d dw n : iw < 2 ^ 32 -> stores d dw n ->
  told (fun x c => rholds (ADense x) (mkraw iw dw c)) (dense_new m iw d) (raw_dense m iw dw n).
Proof.
  intros Hi S. unfold dense_new, raw_dense. assert (Ew : width d = dw) by apply S. rewrite Ew.
  pose proof (stores_inv _ _ _ S) as (_ & Hd & Ld & Wd & Vd & Bd). fold (places dw) in Ld.
  apply approx_told. intros M.
  assert (Hb : bits iw < 2 ^ 32) by now apply N.mod_lt.
  rewrite shl1_told by tauto. cbn [bind].
  destruct (N.eqb_spec dw 1) as [->|D1].
  - rewrite (tru_told _ _ _ S). cbn [bind N.eqb Pos.eqb andb]. change (as_u32 (elements iw)) with (bits iw).
    destruct (N.eqb_spec n 1) as [->|N1].
    + apply told_required; intros Q.
      * destruct (PConv.ones_ok m (bits iw) ltac:(lia) Hb) as (v & -> & V). cbn [bind]. apply told_known.
        apply rholds_bits; auto. now apply is_bv_stores.
      * replace (bits iw) with 0 by lia. destruct m; eexists; reflexivity.
    + rewrite (fals_told _ _ S).
      assert (Z := rholds_bits iw _ _ Hi (zero_stores _ Hb)).
      destruct m; cbn [checked bind debug_assert]; [destruct (n =? 0); cbn [bind]; [|eexists; reflexivity]|];
        now apply told_known.
  - destruct (N.leb_spec dw 64) as [D|D].
    + assert (P : places dw <= 1) by (unfold places; dlia).
      assert (N64 : n < 2 ^ 64).
      { eapply N.lt_le_trans; [exact Bd|]. apply N.pow_le_mono_r; lia. }
      rewrite (u64_told _ _ _ S). replace (n <? 2 ^ 64) with true by lia. cbn [bind].
      assert (T : (if dw <=? 8 then let* _ := capacity (elements iw) in Ok (DU8 (repeat (as_u8 n) (N.to_nat (elements iw))))
                   else let* _ := capacity (8 * elements iw) in Ok (DU64 (repeat n (N.to_nat (elements iw)))))
                  = let* _ := capacity ((if dw <=? 8 then 1 else 8) * elements iw) in
                    Ok (if dw <=? 8 then DU8 (repeat (cell dw n) (N.to_nat (elements iw)))
                        else DU64 (repeat (cell dw n) (N.to_nat (elements iw))))).
      { unfold cell. destruct (dw <=? 8); [now rewrite N.mul_1_l|reflexivity]. }
      rewrite T. apply told_required; intros Q;
        [rewrite capacity_ok by lia|rewrite capacity_panic by lia; cbn [bind]; eexists; reflexivity].
      cbn [bind]. apply told_known. unfold rholds. cbn [q_iw q_dw q_cells]. repeat split; auto.
      eexists; split; [reflexivity|]. split; [rewrite len_repeat; lia|]. split.
      * intros i I. rewrite nth_repeat_lt by lia. reflexivity.
      * apply Forall_forall. intros y Y. apply repeat_spec in Y as ->. unfold cell.
        destruct (dw <=? 8); [now apply N.mod_lt|auto].
    + replace (dw <=? 8) with false by lia.
      assert (U : exists q, usz_mul m (elements iw) (len (words d)) = Ok q).
      { destruct m; [|unfold usz_mul; destruct (_ <? B64); eauto].
        destruct M as [M|(_ & M)]; [discriminate|]. rewrite Ld, usz_mul_ok by auto. eauto. }
      destruct U as (q & ->). cbn [bind]. rewrite Ld, (N.mul_comm (elements iw)). apply told_required; intros Qc;
        [rewrite capacity_ok by lia|rewrite capacity_panic by lia; cbn [bind]; eexists; reflexivity].
      cbn [bind]. apply told_known. unfold rholds. cbn [q_iw q_dw q_cells]. repeat split; auto.
      assert (P : 0 < places dw) by (unfold places; dlia).
      eexists; split; [reflexivity|]. split; [rewrite len_concat_repeat, Ld; lia|]. split; [|now apply Words_concat_repeat].
      intros p Q. rewrite nth_concat.
      * unfold word_at. cbn [latest find]. rewrite <- (nth_stores d dw n) by auto.
        f_equal. rewrite N2Nat.inj_mod, <- Ld. unfold len. now rewrite Nat2N.id.
      * intros E. rewrite E in Ld. unfold len in Ld. cbn [length] in Ld. lia.
      * rewrite <- Ld in Q. unfold len in Q. lia.
Qed.

Lemma packed_bits : forall l i, N.testbit (packed l) i = nth (N.to_nat i) l false.
Proof.
  induction l as [|b l IH]; intros i; cbn [packed]; [now destruct (N.to_nat i)|].
  destruct (N.eqb_spec i 0) as [->|I].
  - cbn [N.to_nat nth]. destruct b; [rewrite N.add_comm; apply N.testbit_odd_0|rewrite N.add_0_l; apply N.testbit_even_0].
  - replace (N.to_nat i) with (S (N.to_nat (i - 1))) by lia. cbn [nth]. rewrite <- IH.
    replace i with (N.succ (i - 1)) at 1 by lia.
    destruct b; [rewrite N.add_comm; apply N.testbit_odd_succ|rewrite N.add_0_l; apply N.testbit_even_succ]; lia.
Qed.

Lemma slice_cell l i : at_cell 0 (combine (map N.of_nat (seq 0 (length l))) l) i = nth (N.to_nat i) l 0.
Proof.
  unfold at_cell, latest. rewrite PArrayInterp.find_combine. replace (N.to_nat i - 0)%nat with (N.to_nat i) by lia.
  destruct (_ && _) eqn:E; [reflexivity|]. rewrite nth_overflow; auto. lia.
Qed.

Lemma resized_below b l n : 0 < b -> Forall (fun x => x < b) l -> Forall (fun x => x < b) (resize l n).
Proof.
  intros B F. unfold resize. apply Forall_app. split.
  - rewrite Forall_forall in *. intros z Z. apply F. rewrite <- (firstn_skipn (N.to_nat n) l). apply in_or_app. auto.
  - apply Forall_forall. intros z Z. now apply repeat_spec in Z as ->.
Qed.

Lemma created_told m o : raw_origin o -> told rholds (make m o) (raw_created m o).
Proof.
  destruct o as [iw d|iw d|l|l|l]; cbn [raw_origin make raw_created].
  - intros (W & I). unfold array_new_dense.
    eapply told_map; [apply new_dense_told; [exact I|apply shaped_stores, W]|].
    intros x c H. now apply told_known.
  - intros (W & I). apply shaped_stores in W as S. pose proof (stores_inv _ _ _ S) as (_ & Hd & _ & _ & _ & B).
    unfold array_new_sparse, sparse_new. replace (64 <? iw) with false by lia. rewrite owned_id, N.ltb_antisym.
    destruct (N.leb_spec (width d) 64) as [D|D]; cbn [negb].
    + assert (P : places (width d) <= 1) by (unfold places; dlia).
      assert (N64 : uval d < 2 ^ 64).
      { eapply N.lt_le_trans; [exact B|]. apply N.pow_le_mono_r; unfold places in P; lia. }
      rewrite (u64_told _ _ _ S). replace (uval d <? 2 ^ 64) with true by lia. cbn [bind]. apply told_known.
      unfold rholds. cbn [q_iw q_dw q_cells]. repeat (split; [lia|]). eexists; split; [reflexivity|].
      repeat constructor.
    + cbn [bind]. apply told_known. unfold rholds. cbn [q_iw q_dw q_cells]. repeat (split; [lia|]). split; [exact B|].
      exists []. rewrite <- (stores_unique _ _ _ S). repeat split; try constructor; discriminate.
  - intros L. unfold array_from_bools, dense_from_bools, num_elements_from_index_width.
    destruct (index_width_ok (len l)) as (U & M). specialize (M 31 L). rewrite PArrayInterp.log2_up_width in *.
    rewrite shl1_ok by lia. cbn [bind]. set (iw := N.log2_up (len l)) in *.
    assert (P : 2 ^ iw < 2 ^ 32) by (apply pow_lt; lia). rewrite as_u32_ok by auto.
    destruct (set_bits_ok l 0 _ _ _ (PConv.zero_is_bv _ P) ltac:(lia)) as (v & n & -> & V & B).
    cbn [bind]. apply told_known. apply rholds_bits; [lia|].
    replace (packed l) with n.
    2:{ apply N.bits_inj. intros i. rewrite packed_bits, B, N.bits_0, orb_false_r, N.sub_0_r.
        now replace (0 <=? i) with true by lia. }
    replace (bits iw) with (2 ^ iw); [now apply is_bv_stores|].
    unfold bits, elements. rewrite (N.mod_small iw 64) by lia. now rewrite N.mod_small.
  - intros (F & L). unfold array_from_u8s, dense_from_u8s, num_elements_from_index_width.
    destruct (index_width_ok (len l)) as (U & M). specialize (M 63 ltac:(lia)). rewrite PArrayInterp.log2_up_width in *.
    rewrite shl1_ok by lia. cbn [bind]. apply told_required; intros Q;
      [rewrite capacity_ok by lia|rewrite capacity_panic by lia; cbn [bind]; eexists; reflexivity].
    cbn [bind]. apply told_known. unfold rholds, raw_slice. cbn [q_iw q_dw q_cells].
    repeat (split; [lia|]). assert (E : elements (N.log2_up (len l)) = 2 ^ N.log2_up (len l))
      by (unfold elements; now rewrite N.mod_small by lia). rewrite E.
    exists (resize l (2 ^ N.log2_up (len l))). split; [reflexivity|]. split; [now apply len_resize|]. split.
    + intros i _. rewrite slice_cell. now apply nth_resize.
    + now apply resized_below.
  - intros (F & L). unfold array_from_u64s, dense_from_u64s, num_elements_from_index_width.
    destruct (index_width_ok (len l)) as (U & M). specialize (M 63 ltac:(lia)). rewrite PArrayInterp.log2_up_width in *.
    rewrite shl1_ok by lia. cbn [bind]. apply told_required; intros Q;
      [rewrite capacity_ok by lia|rewrite capacity_panic by lia; cbn [bind]; eexists; reflexivity].
    cbn [bind]. apply told_known. unfold rholds, raw_slice. cbn [q_iw q_dw q_cells].
    repeat (split; [lia|]). assert (E : elements (N.log2_up (len l)) = 2 ^ N.log2_up (len l))
      by (unfold elements; now rewrite N.mod_small by lia). rewrite E.
    exists (resize l (2 ^ N.log2_up (len l))). split; [reflexivity|]. split; [now apply len_resize|]. split.
    + intros i _. rewrite slice_cell. now apply nth_resize.
    + now apply resized_below.
Qed.

(** ** Sparse to dense *)

Lemma get_latest {A} (l : list (N * A)) i : hm_get N.eqb l i = latest l i.
Proof.
  induction l as [|(k & x) l IH]; [reflexivity|]. rewrite latest_cons. cbn [hm_get]. now rewrite IH.
Qed.
Lemma latest_app {A} (l l' : list (N * A)) i :
  latest (l ++ l') i = match latest l i with Some x => Some x | None => latest l' i end.
Proof.
  induction l as [|(k & x) l IH]; [reflexivity|]. cbn [app]. rewrite !latest_cons, IH. now destruct (k =? i).
Qed.
Lemma latest_map {A B} (g : A -> B) (l : list (N * A)) i :
  latest (map (fun e => (fst e, g (snd e))) l) i = option_map g (latest l i).
Proof.
  induction l as [|(k & x) l IH]; [reflexivity|]. cbn [map fst snd]. rewrite !latest_cons, IH. now destruct (k =? i).
Qed.
Lemma latest_in {A} (l : list (N * A)) i x : latest l i = Some x -> In (i, x) l.
Proof. rewrite <- get_latest. apply in_get. Qed.
Lemma in_latest {A} (l : list (N * A)) i x : In (i, x) l -> latest l i <> None.
Proof.
  induction l as [|(k & y) l IH]; [easy|]. rewrite latest_cons. intros [E|E].
  - injection E as -> ->. now rewrite N.eqb_refl.
  - destruct (k =? i); [discriminate|auto].
Qed.

Lemma in_entries {A} (l : list (N * option A)) i x : In (i, x) (entries l) <-> entry_at l i = Some x.
Proof.
  unfold entries. rewrite in_flat_map. split.
  - intros ((k & o) & K & E). cbn [fst] in E. destruct (entry_at l k) as [y|] eqn:Q; [|easy].
    destruct E as [E|[]]. injection E as -> ->. exact Q.
  - intros E. unfold entry_at in E. destruct (latest l i) as [o|] eqn:Q; [|discriminate]. subst o.
    exists (i, Some x). split; [now apply latest_in|]. cbn [fst]. unfold entry_at. rewrite Q. now left.
Qed.
Lemma latest_entries {A} (l : list (N * option A)) i : latest (entries l) i = entry_at l i.
Proof.
  destruct (latest (entries l) i) as [x|] eqn:E.
  - apply latest_in, in_entries in E. now symmetry.
  - destruct (entry_at l i) as [x|] eqn:Q; [|reflexivity]. apply in_entries, in_latest in Q. contradiction.
Qed.

Lemma same_set {A} (t : list (N * A)) (l : list (N * option A)) : NoDup (map fst t) ->
  (forall i, hm_get N.eqb t i = entry_at l i) -> forall e, In e t <-> In e (entries l).
Proof.
  intros U G (k & x). rewrite in_entries, <- G. split; intros H.
  - apply PSparse.in_get; auto using N_eqb_eq.
  - now apply in_get.
Qed.
Lemma forallb_set {A} (f : A -> bool) l l' : (forall e, In e l <-> In e l') -> forallb f l = forallb f l'.
Proof.
  intros H. apply PArrayInterp.bool_eq. rewrite !forallb_forall. split; intros K x X; apply K, H, X.
Qed.

(** setting bits *)
Definition put_bit (n : N) (e : N * N) : N :=
  if snd e =? 1 then N.setbit n (fst e mod 2 ^ 32) else N.clearbit n (fst e mod 2 ^ 32).
Definition single (l : list (N * N)) : Prop :=
  forall e f, In e l -> In f l -> fst e mod 2 ^ 32 = fst f mod 2 ^ 32 -> snd e = snd f.

Lemma put_bit_test n e j : N.testbit (put_bit n e) j = if fst e mod 2 ^ 32 =? j then snd e =? 1 else N.testbit n j.
Proof.
  unfold put_bit. destruct (snd e =? 1).
  - rewrite N.setbit_eqb. now destruct (fst e mod 2 ^ 32 =? j).
  - rewrite N.clearbit_eqb. destruct (fst e mod 2 ^ 32 =? j); [apply andb_false_r|apply andb_true_r].
Qed.

Lemma put_bits_test j : forall l n, single l ->
  N.testbit (fold_left put_bit l n) j = true <->
  (exists e, In e l /\ fst e mod 2 ^ 32 = j /\ snd e = 1)
  \/ (forall e, In e l -> fst e mod 2 ^ 32 <> j) /\ N.testbit n j = true.
Proof.
  induction l as [|e l IH]; intros n S; cbn [fold_left].
  - split; [auto|]. intros [(e & [] & _)|(_ & H)]; exact H.
  - rewrite IH by (intros x y X Y; apply S; right; auto). rewrite put_bit_test.
    destruct (N.eqb_spec (fst e mod 2 ^ 32) j) as [E|E]; split.
    + intros [(f & F & P & V)|(F & V)]; left.
      * exists f. split; [now right|auto].
      * exists e. split; [now left|]. split; [auto|lia].
    + intros [(f & [->|F] & P & V)|(F & V)].
      * destruct (in_dec (fun a b => N.eq_dec a b) j (map (fun e => fst e mod 2 ^ 32) l)) as [I|I].
        -- apply in_map_iff in I as (g & P' & G). left. exists g. split; auto. split; auto.
           rewrite <- V. apply S; [now right|now left|lia].
        -- right. split; [|lia]. intros g G P'. apply I, in_map_iff. eauto.
      * left. eauto.
      * exfalso. apply (F e); [now left|auto].
    + intros [(f & F & P & V)|(F & V)]; [left; exists f; split; [now right|auto]|].
      right. split; [|auto]. intros f [->|G]; auto.
    + intros [(f & [->|F] & P & V)|(F & V)]; [contradiction|left; eauto|].
      right. split; [|auto]. intros f G. apply F. now right.
Qed.
Lemma put_bits_set l l' n : single l -> (forall e, In e l <-> In e l') ->
  fold_left put_bit l n = fold_left put_bit l' n.
Proof.
  intros S H. assert (S' : single l') by (intros e f E F; apply S; now apply H).
  apply N.bits_inj. intros j. apply PArrayInterp.bool_eq. rewrite !put_bits_test by auto.
  split; (intros [(e & E & K)|(E & K)]; [left; exists e; split; [now apply H|auto]|right; split; [|auto]; intros e X; apply E; now apply H]).
Qed.

Lemma densify_bits m w : forall l v n, stores v w n ->
  told (fun d n => exists v, d = DBit v /\ stores v w n)
    (foldM (fun dd kv => densify_step_u64 dd kv m) l (DBit v))
    (required (forallb (fun e => fst e mod 2 ^ 32 <? 64 * places w) l)
       (checked m (forallb (fun e => snd e <=? 1) l) (Known (fold_left put_bit l n)))).
Proof.
  induction l as [|(k & x) l IH]; intros v n S; cbn [forallb foldM fold_left].
  - cbn [required]. destruct m; apply told_known; eauto.
  - unfold densify_step_u64 at 1. cbn [fst snd]. unfold as_u32 at 1 2. change B32 with (2 ^ 32).
    assert (P : k mod 2 ^ 32 < 2 ^ 32) by now apply N.mod_lt.
    pose proof (set_bit_told v w n _ S P) as B. pose proof (clear_bit_told v w n _ S P) as B'.
    destruct (k mod 2 ^ 32 <? 64 * places w) eqn:L; cbn [andb].
    + destruct (N.eqb_spec x 1) as [->|X].
      * destruct B as (v' & -> & V). cbn [bind]. replace (1 <=? 1) with true by lia. cbn [andb].
        unfold put_bit at 2. cbn [fst snd]. replace (1 =? 1) with true by lia. now apply IH.
      * destruct B' as (v' & -> & V). unfold debug_assert.
        unfold put_bit at 2. cbn [fst snd]. replace (x =? 1) with false by lia.
        specialize (IH v' _ V). destruct m; cbn [bind checked] in *; [|exact IH].
        replace (x <=? 1) with (x =? 0) by lia. destruct (x =? 0); cbn [andb bind]; [exact IH|].
        destruct (forallb _ l); eexists; reflexivity.
    + cbn [required told]. destruct (x =? 1).
      * do 2 apply panics_bind. exact B.
      * destruct (debug_assert m (x =? 0)) as [[]|]; [|eexists; reflexivity]. cbn [bind]. do 2 apply panics_bind. exact B'.
Qed.

(** setting cells *)
Lemma densify_cells m dw b : forall l ws, NoDup (map fst l) ->
  Forall (fun x => x < if b : bool then 2 ^ 8 else 2 ^ 64) ws -> Forall (fun e => snd e < 2 ^ 64) l -> b = (dw <=? 8) ->
  told (fun d (_ : unit) => exists ws', d = (if b then DU8 ws' else DU64 ws') /\ len ws' = len ws
        /\ Forall (fun x => x < if b then 2 ^ 8 else 2 ^ 64) ws'
        /\ forall i, i < len ws -> nth (N.to_nat i) ws' 0
           = match latest l i with Some x => cell dw x | None => nth (N.to_nat i) ws 0 end)
    (foldM (fun dd kv => densify_step_u64 dd kv m) l (if b then DU8 ws else DU64 ws))
    (required (forallb (fun e => fst e <? len ws) l) (Known tt)).
Proof.
  intros l ws U F V Eb. revert ws U F V. induction l as [|(k & x) l IH]; intros ws U F V; cbn [forallb foldM fst snd].
  - apply told_known. exists ws. auto.
  - cbn [map fst] in U. inversion U as [|? ? U1 U2]; subst. inversion V as [|? ? V1 V2]; subst. cbn [snd] in V1.
    assert (St : densify_step_u64 (if dw <=? 8 then DU8 ws else DU64 ws) (k, x) m
      = let* l := set_idx ws k (cell dw x) in Ok (if dw <=? 8 then DU8 l else DU64 l)).
    { unfold densify_step_u64, cell. destruct (dw <=? 8); reflexivity. }
    rewrite St. destruct (N.ltb_spec k (len ws)) as [L|L]; cbn [andb].
    + rewrite PShift.set_idx_ok by auto. cbn [bind]. set (ws' := firstn _ _ ++ _).
      assert (L' : len ws' = len ws) by (unfold ws'; now apply len_set).
      assert (F' : Forall (fun x => x < if dw <=? 8 then 2 ^ 8 else 2 ^ 64) ws').
      { unfold ws'. apply cells_written; auto. unfold cell. destruct (dw <=? 8); [now apply N.mod_lt|auto]. }
      specialize (IH ws' U2 F' V2). rewrite L' in IH. unfold required in *.
      destruct (forallb _ l); [|exact IH]. destruct IH as (d & E & w2 & -> & L2 & F2 & N2).
      eexists. split; [exact E|]. exists w2. repeat split; auto.
      intros i I. rewrite N2 by auto. rewrite latest_cons. destruct (N.eqb_spec k i) as [->|K].
      * destruct (latest l i) as [y|] eqn:Q.
        { exfalso. apply U1, in_map_iff. exists (i, y). split; [reflexivity|now apply latest_in]. }
        unfold ws'. rewrite nth_set_N by auto. now rewrite N.eqb_refl.
      * destruct (latest l i); [reflexivity|]. unfold ws'. rewrite nth_set_N by auto.
        now replace (i =? k) with false by lia.
    + rewrite PShift.set_idx_panic by lia. eexists; reflexivity.
Qed.

(** setting words *)
Lemma word_blocks dw b : forall (l : list (N * slot)) q, 0 < places dw ->
  word_at dw b (flat_map (fun e => split_from (places dw * fst e) (snd (snd e)) (N.to_nat (places dw))) l) q
  = match latest l (q / places dw) with
    | Some s => word (snd s) (q mod places dw)
    | None => word b (q mod places dw)
    end.
Proof.
  intros l q P. induction l as [|(k & s) l IH]; [reflexivity|].
  cbn [flat_map fst snd]. rewrite word_at_split, N2Nat.id, latest_cons, IH.
  pose proof (N.div_mod q (places dw) ltac:(lia)) as D. pose proof (N.mod_lt q (places dw) ltac:(lia)) as M.
  destruct (N.eqb_spec k (q / places dw)) as [->|K].
  - replace ((places dw * (q / places dw) <=? q) && (q <? places dw * (q / places dw) + places dw)) with true by lia.
    f_equal. lia.
  - replace ((places dw * k <=? q) && (q <? places dw * k + places dw)) with false; [reflexivity|].
    symmetry. apply andb_false_iff. destruct (N.lt_gt_cases k (q / places dw)) as [[H|H] _]; [auto| |].
    + right. apply N.ltb_ge. nia.
    + left. apply N.leb_gt. nia.
Qed.

Definition known_as (e : N * bv) : N * slot := (fst e, (width (snd e), uval (snd e))).

Lemma densify_words iw dw b : iw < 2 ^ 32 -> 64 < dw -> forall l d ix n w0,
  rholds (ADense d) (mkraw iw dw (RWords b w0)) -> is_bv ix dw n ->
  Forall (fun e => fst e < 2 ^ 64 /\ well_shaped (snd e) /\ places dw * fst e < 2 ^ 64) l ->
  told (fun p w => rholds (ADense (fst p)) (mkraw iw dw (RWords b w)))
    (foldM (densify_step_big Release) l (d, ix))
    (required (forallb (fun e => (fst e <? elements iw) && (places (fst (snd e)) =? places dw)) (map known_as l))
       (Known (flat_map (fun e => split_from (places dw * fst e) (snd (snd e)) (N.to_nat (places dw)))
                 (rev (map known_as l)) ++ w0))).
Proof.
  intros Hi D l. induction l as [|(k & x) l IH]; intros d ix n w0 H S F; cbn [foldM map forallb].
  - apply told_known. exact H.
  - inversion F as [|? ? (F1 & F2 & F3) F']; subst. cbn [fst snd] in F1, F2, F3.
    unfold densify_step_big at 1. cbn [fst snd known_as].
    destruct (PConv.assign_from_u64_ok Release ix dw n k S ltac:(lia) F1 (or_introl eq_refl)) as (ix' & -> & S').
    rewrite N.mod_small in S' by (eapply N.lt_le_trans; [exact F1|apply N.pow_le_mono_r; lia]). cbn [bind].
    pose proof (write_told (fun _ _ => false) Release _ _ ix' dw k x (width x) (uval x) H (is_bv_stores _ _ _ S') (shaped_stores _ F2)) as T.
    unfold raw_write in T. cbn [q_iw q_dw q_cells checked array_store] in T.
    replace (k <? 2 ^ 64) with true in T by lia. cbn [required] in T. unfold position in T. cbn [checked] in T.
    rewrite (N.mod_small (places dw * k)) in T by auto.
    assert (P : 0 < places dw) by (unfold places; dlia).
    replace (places dw * k + places dw <=? places dw * elements iw) with (k <? elements iw) in T.
    2:{ destruct (N.ltb_spec k (elements iw)); symmetry; [apply N.leb_le|apply N.leb_gt]; nia. }
    destruct (dense_store Release d ix' x) as [d'|p]; cbn [bind] in T |- *.
    + destruct (k <? elements iw); cbn [required andb told] in T |- *; [|now destruct T].
      destruct (places (width x) =? places dw); cbn [required andb told] in T |- *; [|now destruct T].
      destruct T as (a' & E & T). injection E as <-.
      specialize (IH d' ix' k _ T S' F'). cbn [rev]. rewrite flat_map_app, <- app_assoc. cbn [flat_map fst snd].
      rewrite app_nil_r. exact IH.
    + destruct (k <? elements iw); cbn [required andb told] in T |- *; [|eexists; reflexivity].
      destruct (places (width x) =? places dw); cbn [required andb told] in T |- *; [|eexists; reflexivity].
      destruct T as (a' & E & T). discriminate.
Qed.

Lemma single_nodup l : NoDup (map fst l) ->
  existsb (fun e => existsb (fun f => negb (fst e =? fst f) && (fst e mod 2 ^ 32 =? fst f mod 2 ^ 32)) l) l = false ->
  single l.
Proof.
  intros U H e f E F P. destruct (N.eqb_spec (fst e) (fst f)) as [K|K].
  - destruct e as [k x], f as [k' y]. cbn [fst snd] in *. subst k'.
    apply (PSparse.in_get N.eqb N_eqb_eq _ _ _ U) in E. apply (PSparse.in_get N.eqb N_eqb_eq _ _ _ U) in F. congruence.
  - exfalso. apply not_true_iff_false in H. apply H. apply existsb_exists. exists e. split; auto.
    apply existsb_exists. exists f. split; auto. lia.
Qed.
Lemma existsb_set {A} (f : A -> bool) l l' : (forall e, In e l <-> In e l') -> existsb f l = existsb f l'.
Proof.
  intros H. apply PArrayInterp.bool_eq. rewrite !existsb_exists.
  split; intros (x & X & K); exists x; (split; [now apply H|auto]).
Qed.

Lemma asserted_both {A} m (b c : bool) (r : res A) : b = true -> c = true ->
  (let* _ := debug_assert m b in let* _ := debug_assert m c in r) = r.
Proof. intros -> ->. now rewrite debug_assert_true. Qed.

Lemma told_weaken {A B} (R Q : A -> B -> Prop) r g :
  told R r g -> (forall a b, g = Known b -> R a b -> Q a b) -> told Q r g.
Proof. destruct g; cbn [told]; auto. intros (x & -> & H) K. eauto. Qed.
Lemma default_told m w x : w < 2 ^ 32 -> x < 2 ^ 64 ->
  told (fun v s => 0 < w /\ stores v w (snd s)) (bv_from_u64 m x w) (from_number m w x).
Proof.
  intros Hw Hx. eapply told_weaken; [now apply number_told|]. intros v s E S. unfold from_number, holds_slot in *.
  destruct (0 <? w) eqn:W; cbn [required] in E; [|discriminate]. split; [lia|].
  assert (X : Known s = Known (w, x mod 2 ^ w)).
  { unfold checked in E. destruct m; [destruct (x <? 2 ^ w); [|discriminate]|]; now rewrite E. }
  injection X as ->. exact S.
Qed.

Lemma told_then {A B C D} (R : A -> B -> Prop) (Q : C -> D -> Prop) m b c r y (f : A -> res C) g :
  told R r (required b (checked m c (Known y))) -> (forall a, R a y -> told Q (f a) g) ->
  told Q (let* x := r in f x) (required b (checked m c g)).
Proof.
  intros T H. destruct b; cbn [required] in *; [|now apply panics_bind].
  assert (K : told R r (Known y) -> told Q (let* x := r in f x) g) by (intros (x & -> & X); now apply H).
  destruct m; cbn [checked] in *; [|auto]. destruct c; [auto|now apply panics_bind].
Qed.

Lemma told_next {A B C D} (R : A -> B -> Prop) (Q : C -> D -> Prop) b r y (f : A -> res C) g :
  told R r (required b (Known y)) -> (forall a, R a y -> told Q (f a) g) -> told Q (let* x := r in f x) (required b g).
Proof. apply (told_then R Q Release b true). Qed.

Lemma new_dense_known m iw d dw n : iw < 2 ^ 32 -> stores d dw n ->
  told (fun x c => rholds (ADense x) (mkraw iw dw c)
          /\ match c with RBits _ => True | RCells _ l | RWords _ l => l = [] | _ => False end
          /\ (64 < dw -> c = RWords n []))
    (dense_new m iw d) (raw_dense m iw dw n).
Proof.
  intros I S. eapply told_weaken; [now apply new_dense_told|]. intros x c E H. split; [exact H|]. unfold raw_dense in E.
  assert (E' : (if dw =? 1 then
       if n =? 1 then required (0 <? bits iw) (Known (RBits (2 ^ bits iw - 1)))
       else checked m (n =? 0) (Known (RBits 0))
     else if dw <=? 64 then
       required ((if dw <=? 8 then 1 else 8) * elements iw <? 2 ^ 63) (Known (RCells (cell dw n) []))
     else required (8 * (places dw * elements iw) <? 2 ^ 63) (Known (RWords n []))) = Known c).
  { unfold checked at 1 in E. destruct m; [|exact E]. destruct (negb (refused iw dw)); [exact E|discriminate]. }
  clear E. destruct (N.eqb_spec dw 1) as [->|D1].
  - split; [|lia]. destruct (n =? 1); [destruct (0 <? bits iw)|destruct m, (n =? 0)]; cbn in E'; try discriminate;
      injection E' as <-; exact Logic.I.
  - destruct (N.leb_spec dw 64); unfold required in E'; destruct (_ <? 2 ^ 63) in E'; try discriminate E';
      injection E' as <-; (split; [reflexivity|]); [lia|auto].
Qed.

Lemma densify_told ho m a r : reorders ho -> rholds a r ->
  told (wrote_to r) (array_make_dense ho m a) (densified m r).
Proof.
  intros Ho H. unfold wrote_to, densified. assert (R := H). destruct r as [iw dw c]. destruct H as (Hi & Hd & H).
  cbn [q_iw q_dw q_cells] in *.
  destruct c as [n|b l|b l|b l|b l].
  1-3: destruct a as [s|d]; [exfalso; apply rholds_type in R as (R & _); discriminate R|];
    cbn [array_make_dense]; now apply told_known.
  - destruct H as (I & D & B & t & -> & U & G & F). cbn [array_make_dense].
    apply told_wrap with (R := fun d c => rholds (ADense d) (mkraw iw dw c)); [|auto].
    unfold dense_of_sparse, sparse_default. cbn [s_iw s_dw s_data].
    assert (U' : NoDup (map fst (ho _ t))) by (eapply Permutation_NoDup; [apply Permutation_map, Ho|exact U]).
    assert (G' : forall i, hm_get N.eqb (ho _ t) i = entry_at l i).
    { intros i. rewrite <- G. apply get_perm; auto using N_eqb_eq. }
    assert (F' : Forall (fun e => fst e < 2 ^ 64 /\ snd e < 2 ^ 64) (ho _ t)).
    { eapply Permutation_Forall; [apply Ho|exact F]. }
    set (L := ho _ t) in *. assert (Set_ := same_set L l U' G').
    eapply told_map; [apply default_told; auto|]. intros v (w & n) (D0 & V). cbn [snd] in V.
    eapply told_map; [apply new_dense_known; [exact Hi|exact V]|]. intros d c (C & Cl & _).
    destruct (rholds_type _ _ C) as (_ & C1 & C2). cbn [array_index_width array_data_width q_iw q_dw] in C1, C2.
    rewrite asserted_both by lia. rewrite C1, C2. destruct C as (_ & _ & C). cbn [q_iw q_dw q_cells] in C.
    destruct c as [n'|n' l'|n' l'|n' l'|n' l']; try exact Logic.I.
    + destruct C as (-> & x & E & X). injection E as ->. cbn [d_data].
      unfold into_bits. rewrite <- !(forallb_set _ _ _ Set_).
      eapply told_then; [apply (densify_bits m (bits iw) L x n' X)|].
      intros dd (y & -> & Y). destruct (existsb _ (entries l)) eqn:Q; [exact Logic.I|]. apply told_known.
      apply rholds_bits; auto. change (stores y (bits iw) (fold_left put_bit (entries l) n')).
      rewrite <- (put_bits_set L); auto. apply single_nodup; auto.
      rewrite <- Q. rewrite (existsb_set _ _ _ Set_). apply PArrayInterp.bool_eq. rewrite !existsb_exists.
      split; intros (e & E & K); exists e; (split; [exact E|]); rewrite <- K; [symmetry|]; now apply existsb_set.
    + subst l'. destruct C as (D1 & _ & ws & E & Lw & N0 & Fw). injection E as ->. cbn [d_data].
      rewrite <- (forallb_set _ _ _ Set_). rewrite <- Lw.
      assert (Fs : Forall (fun e => snd e < 2 ^ 64) L) by (eapply Forall_impl; [|exact F']; intros e E; apply E).
      pose proof (densify_cells m dw (dw <=? 8) L ws U' Fw Fs eq_refl) as T.
      unfold required in *. destruct (forallb _ L); [|now apply panics_bind].
      destruct T as (dd & -> & ws' & -> & L' & Fw' & N'). cbn [bind]. apply told_known.
      unfold rholds. cbn [q_iw q_dw q_cells]. repeat split; auto. exists ws'. split; [reflexivity|]. split; [lia|].
      split; [|exact Fw']. intros i Ii. rewrite N' by lia. unfold at_cell.
      rewrite (latest_map (cell dw)), latest_entries, <- get_latest, G'.
      destruct (entry_at l i); cbn [option_map]; [reflexivity|]. now apply N0.
  - destruct H as (I & D & B & t & -> & U & G & F). cbn [array_make_dense].
    apply told_wrap with (R := fun d c => rholds (ADense d) (mkraw iw dw c)); [|auto].
    unfold dense_of_sparse, sparse_default. cbn [s_iw s_dw s_data bind].
    assert (U' : NoDup (map fst (ho _ t))) by (eapply Permutation_NoDup; [apply Permutation_map, Ho|exact U]).
    assert (G' : forall i, hm_get N.eqb (ho _ t) i = option_map (fun s => bv_of (fst s) (snd s)) (entry_at l i)).
    { intros i. rewrite <- G. apply get_perm; auto using N_eqb_eq. }
    set (L := ho _ t) in *.
    assert (Uk : NoDup (map fst (map known_as L))) by (rewrite map_map; exact U').
    assert (Gk : forall i, hm_get N.eqb (map known_as L) i = entry_at l i).
    { intros i. rewrite get_latest. unfold known_as. rewrite (latest_map (fun x => (width x, uval x))).
      rewrite <- get_latest, G'. destruct (entry_at l i) as [(w & n)|] eqn:Q; [|reflexivity]. cbn [option_map fst snd].
      destruct (F _ _ Q) as (_ & W & X). cbn [fst snd] in W, X. destruct (stores_bv_of w n W X) as (_ & W' & X').
      now rewrite W', X'. }
    assert (Set_ := same_set (map known_as L) l Uk Gk).
    assert (FL : Forall (fun e => fst e < 2 ^ 64 /\ well_shaped (snd e)) L).
    { apply Forall_forall. intros (k & x) X. apply (PSparse.in_get N.eqb N_eqb_eq _ _ _ U') in X. rewrite G' in X.
      destruct (entry_at l k) as [(w & n)|] eqn:Q; [|discriminate]. injection X as <-. cbn [fst snd].
      destruct (F _ _ Q) as (K & W & X). split; [exact K|]. apply (stores_bv_of w n W X). }
    eapply told_map; [apply new_dense_known; [exact Hi|now apply stores_bv_of]|]. intros d c (C & _ & Cd).
    rewrite (Cd D) in *. clear Cd.
    destruct (rholds_type _ _ C) as (_ & C1 & C2). cbn [array_index_width array_data_width q_iw q_dw] in C1, C2.
    rewrite asserted_both by lia.
    assert (Em : L = [] <-> entries l = []).
    { split; intros E.
      - destruct (entries l) as [|e q]; [reflexivity|]. exfalso. assert (X : In e (map known_as L)) by (apply Set_; now left).
        now rewrite E in X.
      - destruct L as [|e q]; [reflexivity|]. exfalso. assert (X : In (known_as e) (entries l)) by (apply Set_; now left).
        now rewrite E in X. }
    apply told_checked_in.
    + intros M. destruct (existsb _ (entries l)) eqn:Q; [exact Logic.I|].
      rewrite <- (forallb_set _ _ _ Set_).
      assert (FP : Forall (fun e => fst e < 2 ^ 64 /\ well_shaped (snd e) /\ places dw * fst e < 2 ^ 64) L).
      { apply Forall_forall. intros e X. rewrite Forall_forall in FL. destruct (FL e X) as (K1 & K2).
        repeat split; try apply K2; auto. apply not_true_iff_false in Q. destruct (N.lt_ge_cases (places dw * fst e) (2 ^ 64)); auto.
        exfalso. apply Q, existsb_exists. exists (known_as e). split; [apply Set_; now apply in_map|]. cbn [known_as fst]. now apply N.leb_le. }
      assert (Mr : m = Release \/ L = []).
      { destruct m; [right|now left]. destruct M as [M|M]; [discriminate|]. apply Em. now destruct (entries l). }
      assert (T := densify_words iw dw b Hi D L d (bv_zero dw) 0 [] C (PConv.zero_is_bv dw Hd) FP).
      assert (T' : foldM (densify_step_big m) L (d, bv_zero dw) = foldM (densify_step_big Release) L (d, bv_zero dw)).
      { destruct Mr as [->| ->]; reflexivity. }
      rewrite T'. eapply told_next; [exact T|]. clear T. intros (d' & ix) T. cbn [fst] in T. apply told_known.
      rewrite app_nil_r in T. unfold rholds in T |- *. cbn [q_iw q_dw q_cells] in T |- *.
      destruct T as (_ & _ & _ & ws & E & Lw & Nw & Ww). repeat split; auto. exists ws. repeat split; auto.
      intros p P. rewrite Nw by auto. assert (P0 : 0 < places dw) by (unfold places; dlia).
      rewrite !word_blocks by auto. rewrite latest_entries, <- Gk.
      rewrite <- get_latest. rewrite (get_perm N.eqb N_eqb_eq (map known_as L)); auto using Permutation_rev.
    + intros -> E. destruct L as [|e q]; [rewrite (proj1 Em eq_refl) in E; discriminate|]. cbn [foldM].
      do 2 apply panics_bind. unfold densify_step_big.
      destruct (bv_assign_from_u64 Debug (bv_zero dw) (fst e)) as [ix|] eqn:A; [|eexists; reflexivity]. cbn [bind].
      apply panics_bind. unfold dense_store.
      assert (Wi : width ix = dw).
      { inversion FL as [|? ? (K & _) _]; subst.
        destruct (PConv.assign_from_u64_ok Debug (bv_zero (d_dw d)) (d_dw d) 0 (fst e)) as (y & E' & Y); auto; [now apply PConv.zero_is_bv|lia| |].
        - right. eapply N.lt_le_trans; [exact K|apply N.pow_le_mono_r; lia].
        - rewrite E' in A. injection A as <-. apply Y. }
      rewrite Wi, C1. unfold debug_assert. replace (dw =? iw) with false by lia. eexists; reflexivity.
Qed.

(** ** Comparing *)
Lemma same_at_iff {A} (eqb : A -> A -> bool) n f g : (forall x y, eqb x y = true <-> x = y) ->
  same_at eqb n f g = true <-> forall i, i < n -> f i = g i.
Proof.
  intros E. unfold same_at. rewrite forallb_forall. split.
  - intros H i Hi. specialize (H (N.to_nat i)). rewrite in_seq, N2Nat.id in H. apply E, H. lia.
  - intros H i Hi. apply in_seq in Hi. apply E, H. lia.
Qed.

Lemma dense_equal_told m a b iw dw c c' : rholds (ADense a) (mkraw iw dw c) -> rholds (ADense b) (mkraw iw dw c') ->
  dense_is_equal m a b = Ok (Some (same_cells iw dw c c')).
Proof.
  intros A B. destruct (rholds_type _ _ A) as (_ & A1 & A2), (rholds_type _ _ B) as (_ & B1 & B2).
  cbn [array_index_width array_data_width q_iw q_dw] in *. unfold dense_is_equal. rewrite A1, A2, B1, B2, !N.eqb_refl.
  cbn [negb orb]. destruct A as (_ & _ & A), B as (_ & _ & B). cbn [q_iw q_dw q_cells] in A, B.
  assert (Wl : forall (x y : list N) f g n, len x = n -> len y = n ->
    (forall i, i < n -> nth (N.to_nat i) x 0 = f i) -> (forall i, i < n -> nth (N.to_nat i) y 0 = g i) ->
    words_eqb x y = same_at N.eqb n f g).
  { intros x y f g n X Y F G. apply PArrayInterp.bool_eq. rewrite PStore.words_eqb_eq, same_at_iff by apply N_eqb_eq.
    rewrite <- (nth_eq_lists x y n X Y). split; intros H i I; specialize (H i I); [rewrite F, G in H|rewrite F, G]; auto. }
  destruct c as [n|x l|x l|x l|x l].
  - destruct A as (D & v & E & V). injection E as ->. cbn [d_data].
    destruct c' as [n'|x' l'|x' l'|x' l'|x' l']; try lia.
    + destruct B as (_ & v' & E & V'). injection E as ->. cbn [d_data].
      rewrite (equal_told m v _ _ v' _ _ V V') by auto. cbn [bind same_cells]. unfold low, common. rewrite N.min_id.
      now rewrite !N.mod_small by eauto using stores_bound.
    + destruct B as (_ & _ & _ & t & E & _). discriminate.
  - destruct A as (D1 & D & ws & E & L & G & _). injection E as ->. cbn [d_data].
    destruct c' as [n'|x' l'|x' l'|x' l'|x' l']; try lia.
    + destruct B as (_ & _ & ws' & E & L' & G' & _). injection E as ->. cbn [d_data same_cells].
      destruct (dw <=? 8); now rewrite (Wl ws ws' (at_cell x l) (at_cell x' l') (elements iw)).
    + destruct B as (_ & _ & _ & t & E & _). discriminate.
  - destruct A as (D & ws & E & L & G & _). injection E as ->. cbn [d_data].
    destruct c' as [n'|x' l'|x' l'|x' l'|x' l']; try lia.
    + destruct B as (_ & ws' & E & L' & G' & _). injection E as ->. cbn [d_data same_cells].
      now rewrite (Wl ws ws' (word_at dw x l) (word_at dw x' l') (places dw * elements iw)).
    + destruct B as (_ & _ & _ & t & E & _). discriminate.
  - destruct A as (_ & _ & _ & t & E & _). discriminate.
  - destruct A as (_ & _ & _ & t & E & _). discriminate.
Qed.

Lemma same_at_sym n (f g : N -> N) : same_at N.eqb n f g = same_at N.eqb n g f.
Proof. apply PArrayInterp.bool_eq. rewrite !same_at_iff by apply N_eqb_eq. split; intros H i I; symmetry; auto. Qed.
Lemma same_cells_sym iw dw c c' : raw_is_dense (mkraw iw dw c) = true -> same_cells iw dw c c' = same_cells iw dw c' c.
Proof.
  destruct c, c'; try discriminate; intros _; cbn [same_cells]; auto using same_at_sym, N.eqb_sym.
Qed.

Lemma same_entries_iff {A} (eqb : A -> A -> bool) l l' : (forall x y, eqb x y = true <-> x = y) ->
  same_entries eqb l l' = true <-> forall i, entry_at l i = entry_at l' i.
Proof.
  intros E. unfold same_entries. rewrite forallb_forall.
  assert (O : forall a b, option_eqb eqb a b = true <-> a = b).
  { intros [a|] [b|]; cbn [option_eqb]; try easy. rewrite E. split; [now intros ->|now intros [= ->]]. }
  split; intros H.
  - intros i. destruct (in_dec N.eq_dec i (map fst l ++ map fst l')) as [I|I]; [now apply O, H|].
    assert (Z : forall q : list (N * option A), ~ In i (map fst q) -> entry_at q i = None).
    { intros q Q. unfold entry_at. destruct (latest q i) as [o|] eqn:X; [|reflexivity]. exfalso. apply Q, in_map_iff.
      exists (i, o). split; [reflexivity|now apply latest_in]. }
    rewrite !Z; auto; intros X; apply I, in_or_app; auto.
  - intros i _. apply O, H.
Qed.
Lemma slot_eqb_eq s t : slot_eqb s t = true <-> s = t.
Proof. destruct s, t. unfold slot_eqb. cbn [fst snd]. split; [intros H; f_equal; lia|intros [= -> ->]; lia]. Qed.

Lemma sparse_equal_told m a b iw dw c c' : rholds (ASparse a) (mkraw iw dw c) -> rholds (ASparse b) (mkraw iw dw c') ->
  sparse_is_equal m a b = Ok (Some (same_cells iw dw c c')).
Proof.
  intros A B. destruct (rholds_type _ _ A) as (_ & A1 & A2), (rholds_type _ _ B) as (_ & B1 & B2).
  cbn [array_index_width array_data_width q_iw q_dw] in *. unfold sparse_is_equal. rewrite A1, A2, B1, B2, !N.eqb_refl.
  cbn [negb orb]. destruct A as (_ & Hd & A), B as (_ & _ & B). cbn [q_iw q_dw q_cells] in A, B.
  assert (Ml : forall V (veqb : V -> V -> bool) (x y : list (N * V)), (forall u v, veqb u v = true <-> u = v) ->
    NoDup (map fst x) -> NoDup (map fst y) ->
    (if len x =? len y then hm_eqb N.eqb veqb x y else false) = true <-> forall k, hm_get N.eqb x k = hm_get N.eqb y k).
  { intros V veqb x y E X Y. rewrite <- (map_eqb_ok N.eqb N_eqb_eq veqb x y E X Y). unfold hm_eqb.
    destruct (len x =? len y); [reflexivity|]. cbn [andb]. reflexivity. }
  destruct c as [n|x l|x l|x l|x l].
  1: destruct A as (_ & ? & E & _); discriminate.
  1: destruct A as (_ & _ & ? & E & _); discriminate.
  1: destruct A as (_ & ? & E & _); discriminate.
  - destruct A as (I & D & X & t & E & U & G & _). injection E as ->. cbn [s_data].
    destruct c' as [n'|x' l'|x' l'|x' l'|x' l']; try lia.
    + destruct B as (_ & ? & E & _); discriminate.
    + destruct B as (_ & _ & ? & E & _); discriminate.
    + destruct B as (_ & _ & X' & t' & E & U' & G' & _). injection E as ->. cbn [s_data same_cells].
      destruct (N.eqb_spec x x') as [Q|Q]; [|reflexivity]. cbn [andb]. do 2 f_equal. apply PArrayInterp.bool_eq.
      rewrite Ml by auto using N_eqb_eq. rewrite same_entries_iff by apply N_eqb_eq.
      split; intros H k; specialize (H k); [rewrite G, G' in H|rewrite G, G']; exact H.
  - destruct A as (I & D & X & t & E & U & G & F). injection E as ->. cbn [s_data].
    destruct c' as [n'|x' l'|x' l'|x' l'|x' l']; try lia.
    + destruct B as (_ & ? & E & _); discriminate.
    + destruct B as (_ & _ & X' & t' & E & U' & G' & F'). injection E as ->. cbn [s_data same_cells].
      pose proof (stores_bv_of dw x Hd X) as S. pose proof (stores_bv_of dw x' Hd X') as S'.
      assert (Eq : bv_eq m (bv_of dw x) (bv_of dw x') = Ok (x =? x')).
      { now apply (dirty_eq_owned m _ _ dw). }
      rewrite Eq. cbn [bind]. destruct (N.eqb_spec x x') as [Q|Q]; [|reflexivity]. cbn [andb]. do 2 f_equal.
      apply PArrayInterp.bool_eq. rewrite Ml by auto using bv_eqb_eq. rewrite same_entries_iff by apply slot_eqb_eq.
      split; intros H k; specialize (H k); [rewrite G, G' in H|rewrite G, G'; now rewrite H].
      destruct (entry_at l k) as [(w & n)|] eqn:Y, (entry_at l' k) as [(w' & n')|] eqn:Y'; try easy.
      cbn [option_map fst snd] in H. injection H as H1 H2.
      apply F in Y as (_ & Y1 & Y2). apply F' in Y' as (_ & Y1' & Y2'). cbn [fst snd] in *.
      assert (Z := stores_bv_of _ _ Y1 Y2). assert (Z' := stores_bv_of _ _ Y1' Y2').
      f_equal. f_equal; [exact H1|]. destruct Z as (_ & _ & <-), Z' as (_ & _ & <-). unfold uval, bv_of. cbn [words]. now rewrite H2.
Qed.

Lemma told_known' {A} (r : res A) x : r = Ok x -> told eq r (Known x).
Proof. intros ->. now apply told_known. Qed.

Lemma types_differ ho m a b r s : rholds a r -> rholds b s -> (q_iw r =? q_iw s) && (q_dw r =? q_dw s) = false ->
  array_is_equal ho m a b = Ok None.
Proof.
  intros Ha Hb E. destruct (rholds_type _ _ Ha) as (_ & A1 & A2), (rholds_type _ _ Hb) as (_ & B1 & B2).
  assert (X : array_index_width a <> array_index_width b \/ array_data_width a <> array_data_width b) by lia.
  clear - X. destruct a as [sa|da], b as [sb|db]; cbn [array_index_width array_data_width array_is_equal] in *.
  - unfold sparse_is_equal. replace (negb (s_iw sb =? s_iw sa) || negb (s_dw sb =? s_dw sa)) with true by lia. auto.
  - unfold is_equal_mixed. replace (negb (d_iw db =? s_iw sa) || negb (d_dw db =? s_dw sa)) with true by lia. auto.
  - unfold is_equal_mixed. replace (negb (d_iw da =? s_iw sb) || negb (d_dw da =? s_dw sb)) with true by lia. auto.
  - unfold dense_is_equal. replace (negb (d_iw db =? d_iw da) || negb (d_dw db =? d_dw da)) with true by lia. auto.
Qed.

Lemma mixed_told ho m d s iw dw c c' : reorders ho ->
  rholds (ADense d) (mkraw iw dw c) -> rholds (ASparse s) (mkraw iw dw c') ->
  told eq (is_equal_mixed ho m d s)
    match densified m (mkraw iw dw c') with
    | Known b => Known (Some (same_cells iw dw c b))
    | Panicking => Panicking
    | Unknown => Unknown
    end.
Proof.
  intros Ho Hd Hs. destruct (rholds_type _ _ Hd) as (D0 & D1 & D2), (rholds_type _ _ Hs) as (_ & S1 & S2).
  cbn [array_index_width array_data_width q_iw q_dw array_is_dense] in *. unfold is_equal_mixed.
  replace (negb (d_iw d =? s_iw s) || negb (d_dw d =? s_dw s)) with false by lia.
  pose proof (densify_told ho m _ _ Ho Hs) as T. cbn [array_make_dense] in T. unfold wrote_to in T. cbn [q_iw q_dw] in T.
  destruct (densified m (mkraw iw dw c')) as [b| |]; cbn [told] in *; auto.
  - destruct T as (a & E & T). destruct (dense_of_sparse ho m s) as [d'|]; [|discriminate]. cbn [bind] in *. injection E as <-.
    rewrite (dense_equal_told m d' d iw dw b c T Hd). eexists; split; [reflexivity|].
    rewrite (same_cells_sym iw dw c b); auto.
  - destruct T as (p & T). destruct (dense_of_sparse ho m s) as [d'|]; [discriminate|]. eexists; reflexivity.
Qed.

Lemma densified_dense m r : raw_is_dense r = true -> densified m r = Known (q_cells r).
Proof. unfold raw_is_dense, densified. destruct (q_cells r); try discriminate; reflexivity. Qed.

Lemma compare_told ho m a b r s : reorders ho -> rholds a r -> rholds b s ->
  told eq (array_is_equal ho m a b) (raw_compared m r s).
Proof.
  intros Ho Ha Hb. unfold raw_compared. destruct ((q_iw r =? q_iw s) && (q_dw r =? q_dw s)) eqn:E.
  2:{ rewrite (types_differ ho m a b r s) by auto. now apply told_known. }
  destruct (rholds_type _ _ Ha) as (Da & _), (rholds_type _ _ Hb) as (Db & _).
  destruct r as [iw dw c], s as [iw' dw' c']. cbn [q_iw q_dw q_cells] in *.
  assert (iw' = iw) by lia. assert (dw' = dw) by lia. subst iw' dw'. rewrite <- Da, <- Db.
  destruct a as [sa|da], b as [sb|db]; cbn [array_is_dense Bool.eqb array_is_equal] in *.
  - apply told_known'. now apply sparse_equal_told.
  - rewrite (densified_dense m (mkraw iw dw c')) by auto. cbn [q_cells].
    pose proof (mixed_told ho m db sa iw dw c' c Ho Hb Ha) as T.
    assert (Sym : forall x, same_cells iw dw c' x = same_cells iw dw x c') by (intros; now apply same_cells_sym).
    destruct (densified m (mkraw iw dw c)); auto. now rewrite <- Sym.
  - rewrite (densified_dense m (mkraw iw dw c)) by auto. cbn [q_cells].
    pose proof (mixed_told ho m da sb iw dw c c' Ho Ha Hb) as T.
    destruct (densified m (mkraw iw dw c')); auto.
  - apply told_known'. now apply dense_equal_told.
Qed.
