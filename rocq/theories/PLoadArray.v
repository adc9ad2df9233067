(** * PLoadArray: dense arrays of any shape (C99). *)

From Coq Require Import String ZifyBool ZifyNat ZifyN.
From Verif Require Import Base Arith Map Bv Array Serde Spec CallSpec PanicSpec MixedSpec LoadSpec LoadArraySpec.
From Verif Require Import PWords PArith PShift PCompare PConv PStore PMixed PLoad PLoadShift PLoadText.
Ltac Zify.zify_post_hook ::= idtac.
Open Scope list_scope.
Open Scope N_scope.

Lemma yields_delivers r w n : yields r w n -> delivers r w (Some n).
Proof.
  intros (v & E & H). exists v. apply is_bv_inv in H as (W & Hw & L & F & V & B).
  split; auto. split; [|auto]. split; [congruence|]. split; auto. rewrite W. exact L.
Qed.

Lemma from_word_load m x w : x < 2 ^ 64 -> w < 2 ^ 32 ->
  delivers (bv_from_u64 m x w) w
    (if (w =? 0) || match m with Debug => 2 ^ w <=? x | Release => false end
     then None else Some (x mod 2 ^ w)).
Proof.
  intros Hx Hw. destruct (N.eqb_spec w 0) as [->|Z]; cbn [orb].
  { destruct m; eexists; reflexivity. }
  destruct (from_u64_cases x w) as (A & B & C); auto; [clear - Z; lia|].
  destruct m; [|now apply yields_delivers].
  destruct (N.leb_spec (2 ^ w) x) as [L|L]; [now apply C|].
  apply yields_delivers. rewrite mod_small_pow by auto. now apply B.
Qed.

Lemma from_bool_load m b : delivers (bv_from_bool m b) 1 (Some (N.b2n b)).
Proof.
  assert (H : forall x, x < 2 -> delivers (bv_from_u64 m x 1) 1 (Some x)).
  { intros x Hx. assert (Hx' : x < 2 ^ 64) by (eapply N.lt_le_trans; [exact Hx|]; discriminate).
    pose proof (from_word_load m x 1 Hx' eq_refl) as G. change (1 =? 0) with false in G.
    change (2 ^ 1) with 2 in G. rewrite N.mod_small in G by auto.
    destruct m; auto. cbn [orb] in G. replace (2 <=? x) with false in G by (clear - Hx; lia). exact G. }
  destruct b; apply H; reflexivity.
Qed.

(** ** The index *)

Lemma slot_panic m d index {A} (k : N -> res A) : loaded index ->
  match m with Debug => width index =? d_iw d | Release => true end && (uval index <? 2 ^ 64) = false ->
  panics (let* _ := debug_assert m (width index =? d_iw d) in
          let* i := unwrap (bv_to_u64 index) in k i).
Proof.
  intros Li H. destruct (answers_load index Li) as (_ & -> & _).
  destruct m; cbn [debug_assert].
  - destruct (width index =? d_iw d); cbn [assert bind andb] in *; [|eexists; reflexivity].
    rewrite H. eexists. reflexivity.
  - cbn [bind andb] in *. rewrite H. eexists. reflexivity.
Qed.
Lemma slot_pass m d index {A} (k : N -> res A) : loaded index ->
  match m with Debug => width index =? d_iw d | Release => true end && (uval index <? 2 ^ 64) = true ->
  (let* _ := debug_assert m (width index =? d_iw d) in
   let* i := unwrap (bv_to_u64 index) in k i) = k (uval index).
Proof.
  intros Li H. destruct (answers_load index Li) as (_ & -> & _).
  apply andb_true_iff in H as (H1 & H2). rewrite H2.
  destruct m; cbn [debug_assert]; [rewrite H1|]; reflexivity.
Qed.

Lemma word_start m a i : usz_mul m a i
  = if match m with Debug => 2 ^ 64 <=? a * i | Release => false end then Panic POverflow
    else Ok ((a * i) mod 2 ^ 64).
Proof.
  unfold usz_mul, as_u64. rewrite B64_eq. destruct (N.ltb_spec (a * i) (2 ^ 64)) as [L|L].
  - rewrite N.mod_small by auto. replace (2 ^ 64 <=? a * i) with false by lia. destruct m; reflexivity.
  - replace (2 ^ 64 <=? a * i) with true by lia. destruct m; reflexivity.
Qed.

Lemma idx_list (l : list N) i : idx l i = if i + 1 <=? len l then Ok (nth (N.to_nat i) l 0) else Panic PIndex.
Proof.
  destruct (N.leb_spec (i + 1) (len l)) as [L|L].
  - apply idx_ok. lia.
  - apply idx_panic. lia.
Qed.

Lemma nth_in_words (l : list N) b i : Forall (fun x => x < b) l -> 0 < b -> nth i l 0 < b.
Proof.
  intros F Hb. destruct (Nat.lt_ge_cases i (length l)) as [L|L].
  - rewrite Forall_forall in F. apply F. now apply nth_In.
  - rewrite nth_overflow by auto. auto.
Qed.

Lemma dense_select_load m d index : loaded_dense d -> loaded index ->
  match load_slot m d index with
  | None => panics (dense_select m d index)
  | Some s => load_select m d s (dense_select m d index)
  end.
Proof.
  intros (Hi & Hd & F) Li. unfold dense_select, load_slot.
  destruct (match m with Debug => width index =? d_iw d | Release => true end && (uval index <? 2 ^ 64)) eqn:A;
    cbn [andb]; [|now apply slot_panic].
  rewrite slot_pass by auto. apply andb_true_iff in A as (_ & A). apply N.ltb_lt in A.
  unfold dense_select_usize, load_select, cell, cells, span.
  destruct (d_data d) as [v|l|l|l].
  - pose proof (bit_load v (uval index mod 2 ^ 32) F) as G.
    assert (B : uval index mod 2 ^ 32 < 2 ^ 32) by apply mod_lt.
    replace (match m with Debug => 2 ^ 64 <=? uval index mod 2 ^ 32 | Release => false end) with false.
    2:{ destruct m; auto. symmetry. apply N.leb_gt. eapply N.lt_trans; [exact B|reflexivity]. }
    cbn [negb andb]. rewrite (mod_small_pow (uval index mod 2 ^ 32) 64) by (eapply N.lt_trans; [exact B|reflexivity]).
    unfold as_u32. rewrite B32_eq. set (p := uval index mod 2 ^ 32) in *.
    destruct (N.ltb_spec p (64 * count v)) as [L|L].
    + replace (p + 1 <=? 64 * count v) with true by (clear - L; lia).
      cbn [answers] in G. rewrite G. cbn [bind]. apply from_bool_load.
    + replace (p + 1 <=? 64 * count v) with false by (clear - L; lia).
      destruct G as (q & ->). eexists. reflexivity.
  - rewrite N.mul_1_l, mod_small_pow by auto.
    replace (match m with Debug => 2 ^ 64 <=? uval index | Release => false end) with false
      by (destruct m; auto; symmetry; now apply N.leb_gt).
    cbn [negb andb]. rewrite idx_list. destruct (uval index + 1 <=? len l); [|eexists; reflexivity].
    cbn [bind]. apply from_word_load; auto. eapply N.lt_trans; [now apply (nth_in_words l 256)|reflexivity].
  - rewrite N.mul_1_l, mod_small_pow by auto.
    replace (match m with Debug => 2 ^ 64 <=? uval index | Release => false end) with false
      by (destruct m; auto; symmetry; now apply N.leb_gt).
    cbn [negb andb]. rewrite idx_list. destruct (uval index + 1 <=? len l); [|eexists; reflexivity].
    cbn [bind]. apply from_word_load; auto. now apply (nth_in_words l (2 ^ 64)).
  - rewrite word_start. unfold words_per_element. rewrite div_ceil_eq. fold (places (d_dw d)).
    destruct (match m with Debug => _ | Release => false end); cbn [negb andb bind]; [eexists; reflexivity|].
    set (s := (places (d_dw d) * uval index) mod 2 ^ 64). set (p := places (d_dw d)).
    destruct (N.leb_spec (s + p) (len l)) as [L|L].
    + rewrite range_ok by (clear - L; lia). cbn [bind]. eexists. split; [reflexivity|].
      replace (s + p - s) with p by (clear; lia).
      assert (Len : count (mkbv (d_dw d) (firstn (N.to_nat p) (skipn (N.to_nat s) l))) = p).
      { unfold count, len in *. cbn [words]. rewrite firstn_length, skipn_length. clear - L. lia. }
      split. { split; [exact Hd|]. cbn [words]. auto using Words_firstn, Words_skipn. }
      split; [reflexivity|]. split; [exact Len|]. intros k Hk. cbn [words].
      rewrite nth_firstn, nth_skipn. replace (_ <? _)%nat with true by (clear - Hk; lia). f_equal. clear. lia.
    + unfold range. replace (_ && _) with false by (clear - L; lia). eexists. reflexivity.
Qed.

(** ** Store *)

Lemma nth_set (l : list N) i x k : i < len l ->
  nth k (firstn (N.to_nat i) l ++ x :: skipn (S (N.to_nat i)) l) 0
  = if (i <=? N.of_nat k) && (N.of_nat k <? i + 1) then x else nth k l 0.
Proof.
  intros H. pose proof (nth_splice l i [x] k) as G. change (len [x]) with 1 in G.
  unfold splice in G. cbn [app length] in G. rewrite Nat.add_1_r in G. rewrite G by lia.
  destruct (_ && _) eqn:E; auto. replace (k - N.to_nat i)%nat with 0%nat by lia. reflexivity.
Qed.
Lemma len_set (l : list N) i x : i < len l ->
  len (firstn (N.to_nat i) l ++ x :: skipn (S (N.to_nat i)) l) = len l.
Proof.
  intros H. pose proof (splice_len l i [x]) as G. change (len [x]) with 1 in G.
  unfold splice in G. cbn [app length] in G. rewrite Nat.add_1_r in G. apply G. lia.
Qed.
Lemma Forall_set (P : N -> Prop) l i x : Forall P l -> P x ->
  Forall P (firstn i l ++ x :: skipn (S i) l).
Proof.
  intros F Hx. apply Forall_app. split.
  - rewrite <- (firstn_skipn i l) in F. now apply Forall_app in F.
  - constructor; auto. rewrite <- (firstn_skipn (S i) l) in F. now apply Forall_app in F.
Qed.

Lemma store_word m iw dw index x (mk : list N -> dense_impl) (cut : N -> N) b l :
  b <= 2 ^ 64 -> iw < 2 ^ 32 -> dw < 2 ^ 32 -> (forall n, n < 2 ^ 64 -> cut n < b) ->
  (mk = DU8 /\ b = 256 /\ (forall n, cut n = n mod 256) \/ mk = DU64 /\ b = 2 ^ 64 /\ (forall n, cut n = n)) ->
  Forall (fun y => y < b) l -> loaded index -> loaded x ->
  load_store m (mkdense iw dw (mk l)) index x
    (let* _ := debug_assert m (width index =? iw) in
     let* i := unwrap (bv_to_u64 index) in
     let* _ := debug_assert m (width x =? dw) in
     let* new := (let* y := unwrap (bv_to_u64 x) in let* l := set_idx l i (cut y) in Ok (mk l)) in
     Ok (mkdense iw dw new)).
Proof.
  intros Hb Hiw Hdw Hcut Kind F Li Lx. set (d := mkdense iw dw (mk l)).
  assert (Sp : span d = 1) by (destruct Kind as [(-> & _)|(-> & _)]; reflexivity).
  assert (Ce : cells d = len l) by (destruct Kind as [(-> & _)|(-> & _)]; reflexivity).
  assert (Slot : load_slot m d index
    = if match m with Debug => width index =? iw | Release => true end && (uval index <? 2 ^ 64)
         && (uval index + 1 <=? len l) then Some (uval index) else None).
  { unfold load_slot. rewrite Sp, Ce. cbn [d_iw d].
    replace (match d_data d with DBit _ => uval index mod 2 ^ 32 | _ => 1 * uval index end) with (uval index)
      by (destruct Kind as [(-> & _)|(-> & _)]; cbn [d_data d]; now rewrite N.mul_1_l).
    destruct (N.ltb_spec (uval index) (2 ^ 64)) as [L|L]; [|now rewrite andb_false_r].
    rewrite mod_small_pow by auto.
    replace (match m with Debug => 2 ^ 64 <=? uval index | Release => false end) with false
      by (destruct m; auto; symmetry; now apply N.leb_gt).
    cbn [negb]. now rewrite !andb_true_r. }
  unfold load_store. rewrite Slot.
  pose proof (@slot_panic m d index dense) as SP. pose proof (@slot_pass m d index dense) as SS. cbn [d_iw d] in SP, SS.
  destruct (match m with Debug => width index =? iw | Release => true end && (uval index <? 2 ^ 64)) eqn:A;
    cbn [andb]; [|now apply SP].
  rewrite SS by auto. clear SP SS Slot.
  assert (Rf : refused m d x = match m with Debug => negb (width x =? dw) | Release => false end || (2 ^ 64 <=? uval x))
    by (destruct Kind as [(-> & _)|(-> & _)]; reflexivity).
  rewrite Rf. destruct (answers_load x Lx) as (_ & -> & _). clear Rf.
  assert (DA : debug_assert m (width x =? dw)
    = if match m with Debug => negb (width x =? dw) | Release => false end then Panic PDebugAssert else Ok tt)
    by (destruct m; cbn [debug_assert]; [destruct (width x =? dw); reflexivity|reflexivity]).
  rewrite DA. clear DA. set (q := match m with Debug => negb (width x =? dw) | Release => false end).
  destruct (N.leb_spec (uval index + 1) (len l)) as [L|L].
  2:{ destruct q; cbn [bind]; [eexists; reflexivity|].
      destruct (uval x <? 2 ^ 64); cbn [unwrap bind]; [|eexists; reflexivity].
      rewrite set_idx_panic by lia. eexists. reflexivity. }
  destruct q; cbn [bind orb]; [eexists; reflexivity|].
  destruct (N.leb_spec (2 ^ 64) (uval x)) as [M|M].
  { replace (uval x <? 2 ^ 64) with false by (symmetry; now apply N.ltb_ge). eexists. reflexivity. }
  apply N.ltb_lt in M as M'. rewrite M'. cbn [unwrap bind].
  rewrite set_idx_ok by (clear - L; lia). cbn [bind].
  eexists. split; [reflexivity|]. set (l' := _ ++ _ :: _).
  assert (Len : len l' = len l) by (apply len_set; clear - L; lia).
  assert (F' : Forall (fun y => y < b) l') by (apply Forall_set; auto).
  split. { split; [exact Hiw|]. split; [exact Hdw|]. destruct Kind as [(-> & -> & _)|(-> & -> & _)]; exact F'. }
  split. { destruct Kind as [(-> & _)|(-> & _)]; exact I. }
  split; [reflexivity|]. split; [reflexivity|].
  split. { rewrite Ce. destruct Kind as [(-> & _)|(-> & _)]; exact Len. }
  intros t Ht. rewrite Ce in Ht. rewrite Sp.
  assert (C' : cell (mkdense iw dw (mk l')) t = nth (N.to_nat t) l' 0)
    by (destruct Kind as [(-> & _)|(-> & _)]; reflexivity).
  assert (C : cell d t = nth (N.to_nat t) l 0) by (destruct Kind as [(-> & _)|(-> & _)]; reflexivity).
  assert (W : written d x (t - uval index) = cut (uval x))
    by (destruct Kind as [(-> & _ & E)|(-> & _ & E)]; now rewrite E).
  rewrite C', C, W. unfold l'. rewrite nth_set by (clear - L; lia). now rewrite N2Nat.id.
Qed.

Lemma dense_store_load m d index x : loaded_dense d -> loaded index -> loaded x ->
  load_store m d index x (dense_store m d index x).
Proof.
  intros (Hi & Hd & F) Li Lx. destruct d as [iw dw data]. cbn [d_iw d_dw d_data] in *.
  unfold dense_store. cbn [d_iw d_dw d_data]. destruct data as [v|l|l|l].
  - unfold load_store, load_slot. set (d := mkdense iw dw (DBit v)). cbn [d_data d_iw d].
    pose proof (@slot_panic m d index dense) as SP. pose proof (@slot_pass m d index dense) as SS. cbn [d_iw d] in SP, SS.
    destruct (match m with Debug => width index =? iw | Release => true end && (uval index <? 2 ^ 64)) eqn:A;
      cbn [andb]; [|now apply SP].
    rewrite SS by auto. clear SP SS.
    assert (B : uval index mod 2 ^ 32 < 2 ^ 32) by apply mod_lt.
    replace (match m with Debug => 2 ^ 64 <=? uval index mod 2 ^ 32 | Release => false end) with false.
    2:{ destruct m; auto. symmetry. apply N.leb_gt. eapply N.lt_trans; [exact B|reflexivity]. }
    cbn [negb andb]. rewrite (mod_small_pow (uval index mod 2 ^ 32) 64) by (eapply N.lt_trans; [exact B|reflexivity]).
    unfold as_u32. rewrite B32_eq. set (p := uval index mod 2 ^ 32) in *.
    unfold span, cells. cbn [d_data d].
    assert (DA : debug_assert m (width x =? dw)
      = if match m with Debug => negb (width x =? dw) | Release => false end then Panic PDebugAssert else Ok tt)
      by (destruct m; cbn [debug_assert]; [destruct (width x =? dw); reflexivity|reflexivity]).
    rewrite DA. clear DA. unfold refused. cbn [d_data d_dw d].
    set (q := match m with Debug => negb (width x =? dw) | Release => false end).
    destruct (bool_load x Lx) as (_ & T & _). unfold load_word_is in T.
    destruct (set_bit_load v p F) as (S1 & S2). unfold written, cell. cbn [d_data d].
    destruct (N.leb_spec (p + 1) (64 * count v)) as [L|L].
    2:{ destruct q; cbn [bind]; [eexists; reflexivity|].
        replace (p <? 64 * count v) with false in * by (clear - L; lia).
        destruct S1 as (k1 & ->), S2 as (k2 & ->).
        destruct (bv_is_tru x) as [t|k]; cbn [bind]; [|eexists; reflexivity].
        destruct t; eexists; reflexivity. }
    replace (p <? 64 * count v) with true in * by (clear - L; lia).
    destruct q; cbn [bind orb]; [eexists; reflexivity|].
    assert (Fin : forall (bit : bool) r,
      keeps_words r v (Some (if bit then N.setbit (uval v) p else N.clearbit (uval v) p)) ->
      exists d', (let* new := (let* v' := r in Ok (DBit v')) in Ok (mkdense iw dw new)) = Ok d'
        /\ loaded_dense d' /\ same_kind d d' /\ d_iw d' = iw /\ d_dw d' = dw
        /\ match d_data d' with DBit v' => 64 * count v' | DU8 l | DU64 l | DBig l => len l end = 64 * count v
        /\ forall t, t < 64 * count v ->
           match d_data d' with
           | DBit v' => N.b2n (N.testbit (uval v') t)
           | DU8 l | DU64 l | DBig l => nth (N.to_nat t) l 0
           end = if (p <=? t) && (t <? p + 1) then N.b2n bit else N.b2n (N.testbit (uval v) t)).
    { intros bit r (v' & -> & Lv & W & C & U). cbn [bind]. eexists. split; [reflexivity|].
      split; [split; [exact Hi|split; [exact Hd|exact Lv]]|]. split; [symmetry; exact W|].
      cbn [d_iw d_dw d_data]. split; [reflexivity|]. split; [reflexivity|]. split; [now rewrite C|].
      intros t _. rewrite U.
      destruct (N.eq_dec p t) as [<-|N'].
      - replace ((p <=? p) && (p <? p + 1)) with true by (clear; lia). destruct bit.
        + now rewrite N.setbit_eq.
        + now rewrite N.clearbit_eq.
      - replace ((p <=? t) && (t <? p + 1)) with false by (clear - N'; lia). destruct bit.
        + now rewrite N.setbit_neq.
        + now rewrite N.clearbit_neq. }
    destruct (width x =? 1); cbn [andb].
    + destruct (count x =? 0); [destruct T as (k & ->); eexists; reflexivity|]. cbn [answers] in T.
      rewrite T. cbn [bind]. destruct (uval x mod 2 ^ 64 =? 1); [apply (Fin true)|apply (Fin false)]; auto.
    + cbn [answers] in T. rewrite T. cbn [bind]. apply (Fin false); auto.
  - apply (store_word m iw dw index x DU8 as_u8 256 l); auto.
    + discriminate.
    + intros n _. unfold as_u8. now apply N.mod_lt.
  - apply (store_word m iw dw index x DU64 (fun y => y) (2 ^ 64) l); auto.
    apply N.le_refl.
  - unfold load_store, load_slot. set (d := mkdense iw dw (DBig l)). cbn [d_data d_iw d].
    pose proof (@slot_panic m d index dense) as SP. pose proof (@slot_pass m d index dense) as SS. cbn [d_iw d] in SP, SS.
    destruct (match m with Debug => width index =? iw | Release => true end && (uval index <? 2 ^ 64)) eqn:A;
      cbn [andb]; [|now apply SP].
    rewrite SS by auto. clear SP SS.
    assert (DA : debug_assert m (width x =? dw)
      = if match m with Debug => negb (width x =? dw) | Release => false end then Panic PDebugAssert else Ok tt)
      by (destruct m; cbn [debug_assert]; [destruct (width x =? dw); reflexivity|reflexivity]).
    rewrite DA. clear DA. unfold refused, span, cells, words_per_element. cbn [d_data d_dw d].
    rewrite word_start, div_ceil_eq. fold (places dw). set (p := places dw) in *.
    destruct (match m with Debug => 2 ^ 64 <=? p * uval index | Release => false end); cbn [negb andb].
    { destruct m; [destruct (width x =? dw)|]; eexists; reflexivity. }
    set (s := (p * uval index) mod 2 ^ 64) in *.
    destruct (N.leb_spec (s + p) (len l)) as [L|L].
    2:{ destruct (match m with Debug => _ | Release => false end); cbn [bind]; [eexists; reflexivity|].
        unfold range. replace (_ && _) with false by (clear - L; lia). eexists. reflexivity. }
    destruct (match m with Debug => negb (width x =? dw) | Release => false end) eqn:Q;
      cbn [bind orb]; [eexists; reflexivity|].
    rewrite range_ok by (clear - L; lia). cbn [bind]. replace (s + p - s) with p by (clear; lia).
    set (a := mkbv dw _).
    assert (Len : count a = p).
    { unfold count, len, a in *. cbn [words]. rewrite firstn_length, skipn_length. clear - L. lia. }
    unfold bv_assign. fold (count a) (count x). rewrite Len. change (width a) with dw.
    destruct (N.eqb_spec (count x) p) as [E|E]; cbn [negb].
    + rewrite E, N.eqb_refl.
      replace (debug_assert m (dw =? width x)) with (Ok tt).
      2:{ destruct m; auto. rewrite N.eqb_sym. apply negb_false_iff in Q. rewrite Q. reflexivity. }
      replace (debug_assert m true) with (Ok tt) by (destruct m; reflexivity).
      cbn [assert bind words]. unfold count in E. eexists. split; [reflexivity|].
      destruct Lx as (_ & Fx). split.
      { split; [exact Hi|]. split; [exact Hd|]. cbn [d_data]. now apply PDense.Words_splice. }
      split; [exact I|]. split; [reflexivity|]. split; [reflexivity|]. cbn [d_data].
      split; [apply splice_len; now rewrite E|]. intros t Ht. unfold cell, written. cbn [d_data d].
      rewrite nth_splice, N2Nat.id, E by (now rewrite E). destruct (_ && _); auto; now rewrite N2Nat.inj_sub.
    + replace (p =? count x) with false by (clear - E; lia).
      destruct (debug_assert m (dw =? width x)); cbn [bind]; [|eexists; reflexivity].
      destruct m; eexists; reflexivity.
Qed.

(** ** Equality, and what can be loaded *)

Lemma words_eqb_dec a b : words_eqb a b = if list_eq_dec N.eq_dec a b then true else false.
Proof.
  destruct (list_eq_dec N.eq_dec a b) as [E|E].
  - now apply words_eqb_eq.
  - destruct (words_eqb a b) eqn:G; auto. now apply words_eqb_eq in G.
Qed.

Lemma dense_equal_load m a b : loaded_dense a -> loaded_dense b ->
  gives (dense_is_equal m a b) (load_dense_equal m a b).
Proof.
  intros (_ & _ & Fa) (_ & _ & Fb). unfold dense_is_equal, load_dense_equal.
  rewrite (N.eqb_sym (d_iw b)), (N.eqb_sym (d_dw b)).
  destruct (d_iw a =? d_iw b), (d_dw a =? d_dw b); cbn [negb orb andb]; try reflexivity.
  destruct (d_data a) as [v|l|l|l], (d_data b) as [v'|l'|l'|l']; try (eexists; reflexivity);
    try (cbn [gives]; now rewrite words_eqb_dec).
  pose proof (equal_load m v v' Fa Fb) as G. destruct (load_equal m v v') as [e|]; cbn [answers option_map gives] in *.
  - now rewrite G.
  - destruct G as (k & ->). eexists. reflexivity.
Qed.

Lemma seq_range b t l : de_seq b t = Some l -> Forall (fun x => x < b) l.
Proof.
  destruct t; try discriminate. cbn [de_seq]. revert l. induction l0 as [|x l0 IH]; cbn [omapM]; intros l H.
  - injection H as <-. constructor.
  - destruct x; try discriminate. cbn [de_int] in H. destruct (N.ltb_spec n b) as [L|L]; [|discriminate].
    cbn [obind] in H. destruct (omapM (de_int b) l0) as [r|]; [|discriminate]. injection H as <-.
    constructor; auto.
Qed.

Lemma dense_loadable d : loaded_dense d <-> exists t, de_dense t = Some d.
Proof.
  split.
  - intros (Hi & Hd & F). exists (ser_dense d). unfold ser_dense. cbn [de_dense].
    change (field "index_width" _) with (Some (TInt (d_iw d))).
    change (field "data_width" _) with (Some (TInt (d_dw d))).
    change (field "data" _) with (Some (ser_dense_impl (d_data d))). cbn [obind de_int].
    apply N.ltb_lt in Hi, Hd. rewrite B32_eq, Hi, Hd. cbn [obind].
    destruct d as [iw dw data]. cbn [d_data d_iw d_dw] in *.
    destruct data as [v|l|l|l]; cbn [ser_dense_impl de_dense_impl].
    + assert (E : de_bv (ser_bv v) = Some v).
      { destruct F as (Hw & F). unfold ser_bv. cbn [de_bv].
        change (field "width" _) with (Some (TInt (width v))).
        change (field "words" _) with (Some (TSeq (map TInt (words v)))). cbn [obind de_int de_seq].
        apply N.ltb_lt in Hw. rewrite B32_eq, Hw. cbn [obind]. rewrite B64_eq, omapM_ints by auto.
        destruct v. reflexivity. }
      change (String.eqb "Bit" "Bit") with true. cbv iota. rewrite E. reflexivity.
    + change (String.eqb "U8" "Bit") with false. change (String.eqb "U8" "U8") with true. cbv iota.
      cbn [de_seq]. rewrite omapM_ints by auto. reflexivity.
    + change (String.eqb "U64" "Bit") with false. change (String.eqb "U64" "U8") with false.
      change (String.eqb "U64" "U64") with true. cbv iota.
      cbn [de_seq]. rewrite B64_eq, omapM_ints by auto. reflexivity.
    + change (String.eqb "Big" "Bit") with false. change (String.eqb "Big" "U8") with false.
      change (String.eqb "Big" "U64") with false. change (String.eqb "Big" "Big") with true. cbv iota.
      cbn [de_seq]. rewrite B64_eq, omapM_ints by auto. reflexivity.
  - intros (t & H). destruct t; try discriminate. cbn [de_dense] in H.
    assert (I : forall o n, obind o (de_int B32) = Some n -> n < 2 ^ 32).
    { intros [o|] n G; [|discriminate]. destruct o; try discriminate. cbn [obind de_int] in G.
      rewrite B32_eq in G. destruct (N.ltb_spec n0 (2 ^ 32)); [|discriminate]. now injection G as <-. }
    destruct (obind (field "index_width" fields) (de_int B32)) as [iw|] eqn:E1; [|discriminate].
    destruct (obind (field "data_width" fields) (de_int B32)) as [dw|] eqn:E2; [|discriminate].
    cbn [obind] in H. apply I in E1, E2.
    destruct (obind (field "data" fields) de_dense_impl) as [data|] eqn:E3; [|discriminate].
    injection H as <-. split; [exact E1|]. split; [exact E2|]. cbn [d_data].
    destruct (field "data" fields) as [t|]; [|discriminate]. cbn [obind] in E3.
    destruct t; try discriminate. cbn [de_dense_impl] in E3. rewrite B64_eq in E3.
    destruct (String.eqb variant "Bit").
    { destruct (de_bv t) as [v|] eqn:V; [|discriminate]. injection E3 as <-. apply loadable. eauto. }
    destruct (String.eqb variant "U8").
    { destruct (de_seq 256 t) as [l|] eqn:V; [|discriminate]. injection E3 as <-. now apply seq_range in V. }
    destruct (String.eqb variant "U64").
    { destruct (de_seq (2 ^ 64) t) as [l|] eqn:V; [|discriminate]. injection E3 as <-. now apply seq_range in V. }
    destruct (String.eqb variant "Big"); [|discriminate].
    destruct (de_seq (2 ^ 64) t) as [l|] eqn:V; [|discriminate]. injection E3 as <-. now apply seq_range in V.
Qed.

(** ** Clear *)

Lemma nth_zeros (l : list N) k : nth k (map (fun _ => 0) l) 0 = 0.
Proof. revert k. induction l as [|x l IH]; intros [|k]; cbn [map nth]; auto. Qed.
Lemma wv_zeros (l : list N) : wv (map (fun _ => 0) l) = 0.
Proof. induction l as [|x l IH]; cbn [map wv]; auto. rewrite IH. reflexivity. Qed.
Lemma Forall_zeros b (l : list N) : 0 < b -> Forall (fun x => x < b) (map (fun _ => 0) l).
Proof. intros H. induction l; cbn [map]; constructor; auto. Qed.

Lemma dense_clear_load d : loaded_dense d ->
  let d' := dense_clear d in
  loaded_dense d' /\ same_kind d d' /\ d_iw d' = d_iw d /\ d_dw d' = d_dw d
  /\ cells d' = cells d /\ forall t, cell d' t = 0.
Proof.
  intros (Hi & Hd & F) d'.
  unfold loaded_dense, same_kind, cells, cell, d', dense_clear. cbn [d_iw d_dw d_data].
  destruct (d_data d) as [v|l|l|l].
  - destruct F as (Hw & F). unfold bv_clear, count, uval, len. cbn [width words]. rewrite map_length, wv_zeros.
    split; [split; [auto|split; [auto|split; [exact Hw|now apply Forall_zeros]]]|].
    repeat split; auto.
  - unfold len. rewrite map_length. repeat split; auto using nth_zeros; now apply Forall_zeros.
  - unfold len. rewrite map_length. repeat split; auto using nth_zeros; now apply Forall_zeros.
  - unfold len. rewrite map_length. repeat split; auto using nth_zeros; now apply Forall_zeros.
Qed.

(** ** Histories of stores *)

Lemma Forall_iff_h {A} (P Q : A -> Prop) l : (forall a, P a <-> Q a) -> (Forall P l <-> Forall Q l).
Proof. intros H. rewrite !Forall_forall. firstorder. Qed.

Definition alike (d d' : dense) : Prop :=
  same_kind d d' /\ d_iw d' = d_iw d /\ d_dw d' = d_dw d /\ cells d' = cells d.

Lemma alike_trans a b c : alike a b -> alike b c -> alike a c.
Proof.
  unfold alike, same_kind. intros (K & A1 & A2 & A3) (K' & B1 & B2 & B3).
  rewrite B1, B2, B3. split; auto.
  destruct (d_data a), (d_data b); try easy; destruct (d_data c); try easy. congruence.
Qed.
Lemma alike_refl d : alike d d.
Proof. unfold alike, same_kind. destruct (d_data d); auto. Qed.

Lemma alike_span d d' : alike d d' -> span d' = span d.
Proof.
  intros (K & _ & W & _). unfold span, same_kind in *. rewrite W.
  destruct (d_data d), (d_data d'); easy.
Qed.
Lemma alike_slot m d d' i : alike d d' -> load_slot m d' i = load_slot m d i.
Proof.
  intros A. pose proof (alike_span d d' A) as S. destruct A as (K & I & W & C).
  unfold load_slot. rewrite S, I, C. unfold same_kind in K.
  destruct (d_data d), (d_data d'); easy.
Qed.
Lemma alike_refused m d d' x : alike d d' -> refused m d' x = refused m d x.
Proof.
  intros A. pose proof (alike_span d d' A) as S. destruct A as (K & I & W & C).
  unfold refused. rewrite S, W. unfold same_kind in K.
  destruct (d_data d), (d_data d'); easy.
Qed.
Lemma alike_written d d' x k : alike d d' -> written d' x k = written d x k.
Proof.
  intros (K & _). unfold written, same_kind in *. destruct (d_data d), (d_data d'); easy.
Qed.

Lemma dense_history m ops : forall d,
  loaded_dense d -> Forall (fun op => loaded (fst op) /\ loaded (snd op)) ops ->
  let r := foldM (fun d op => dense_store m d (fst op) (snd op)) ops d in
  (Forall (accepted m d) ops ->
     exists d', r = Ok d' /\ loaded_dense d' /\ alike d d'
       /\ forall t, t < cells d -> cell d' t = fold_left (cell_after m d t) ops (cell d t))
  /\ (~ Forall (accepted m d) ops -> panics r).
Proof.
  induction ops as [|[i x] ops IH]; intros d Ld F r.
  - split; [|intros H; now elim H].
    intros _. exists d. split; [reflexivity|]. split; auto. split; [apply alike_refl|reflexivity].
  - inversion F as [|? ? (Li & Lx) F']; subst. cbn [fst snd] in *.
    pose proof (dense_store_load m d i x Ld Li Lx) as G. unfold load_store in G.
    subst r. cbn [foldM fst snd]. destruct (load_slot m d i) as [s|] eqn:Es.
    2:{ destruct G as (k & ->). split; [|intros _; eexists; reflexivity].
        intros H. inversion H as [|? ? (H1 & _) _]; subst. cbn [fst] in H1. congruence. }
    destruct (refused m d x) eqn:Er.
    { destruct G as (k & ->). split; [|intros _; eexists; reflexivity].
      intros H. inversion H as [|? ? (_ & H1) _]; subst. cbn [snd] in H1. congruence. }
    destruct G as (d1 & -> & L1 & K1 & I1 & W1 & C1 & V1). cbn [bind].
    assert (A : alike d d1) by (unfold alike; auto).
    assert (Acc : forall o, Forall (accepted m d1) o <-> Forall (accepted m d) o).
    { intros o. apply Forall_iff_h. intros a. unfold accepted. now rewrite (alike_slot m d d1), (alike_refused m d d1). }
    destruct (IH d1 L1 F') as (IH1 & IH2). split.
    + intros H. inversion H as [|? ? _ H']; subst. apply Acc in H'.
      destruct (IH1 H') as (d' & -> & L' & A' & V'). exists d'. split; [reflexivity|]. split; auto.
      split; [now apply alike_trans with d1|]. intros t Ht. rewrite V' by (now rewrite C1).
      cbn [fold_left]. unfold cell_after at 3. cbn [fst snd]. rewrite Es, <- V1 by auto.
      clear - A. generalize (cell d1 t). induction ops as [|o ops IH]; intros c; [reflexivity|].
      cbn [fold_left]. rewrite IH. f_equal. unfold cell_after.
      rewrite (alike_slot m d d1), (alike_span d d1) by auto. destruct (load_slot m d (fst o)); auto.
      now rewrite (alike_written d d1).
    + intros H. apply IH2. intros H'. apply H. constructor; [|now apply Acc].
      split; cbn [fst snd]; [congruence|exact Er].
Qed.
