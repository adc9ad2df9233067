(** * PLoadSparsifyWide: loaded dense arrays of wide elements made sparse (C99). *)

From Coq Require Import ZifyBool ZifyNat ZifyN Permutation.
From Verif Require Import Base Arith Map Bv Array Spec ArraySpec CallSpec PanicSpec MixedSpec LoadSpec LoadArraySpec LoadSparseSpec.
From Verif Require RawArraySpec ChanceSpec.
From Verif Require Import PWords PArith PShift PConv PStore PMixed PShape PDense PSparse PConvert PFullArray PLoad PLoadArray PLoadSparse PLoadConvert PLoadSparsify.
Ltac Zify.zify_post_hook ::= idtac.
Open Scope list_scope.
Open Scope N_scope.

Lemma fill_keys {V} (mk : list (N * V) -> sparse) (step : sparse -> N -> res sparse) (E : N -> bv) (val : bv -> V) c es :
  (forall l i, In i es -> E i = c -> step (mk l) i = Ok (mk l)) ->
  (forall l i, In i es -> E i <> c -> step (mk l) i = Ok (mk (hm_insert N.eqb l i (val (E i))))) ->
  (forall i, E i = c \/ E i <> c) -> NoDup es ->
  forall l, NoDup (map fst l) -> (forall k, In k es -> ~ In k (map fst l)) ->
  exists l', foldM step es (mk l) = Ok (mk l') /\ NoDup (map fst l')
    /\ forall k v, In (k, v) l' <-> In (k, v) l \/ (In k es /\ v = val (E k) /\ E k <> c).
Proof.
  intros S1 S2 Dec. induction es as [|b es IH]; intros Ne l Nl D.
  - exists l. split; [reflexivity|]. split; auto. intros k v. split; [auto|intros [H|([] & _)]; auto].
  - inversion Ne as [|? ? Nb Ne']; subst. cbn [foldM].
    assert (Db : ~ In b (map fst l)) by (apply D; now left).
    specialize (IH (fun l i H => S1 l i (or_intror H)) (fun l i H => S2 l i (or_intror H)) Ne').
    destruct (Dec b) as [Eb|Eb].
    + rewrite S1 by (auto; now left). cbn [bind].
      destruct (IH l Nl) as (l' & X & N' & I); [intros k H; apply D; now right|].
      exists l'. split; [exact X|]. split; [exact N'|]. intros k v. rewrite I. split.
      * intros [H|(H & H')]; [now left|right]. split; [now right|exact H'].
      * intros [H|([->|H] & H1 & H2)]; [now left|now elim H2|right; auto].
    + rewrite S2 by (auto; now left). cbn [bind].
      assert (R : with_entry l (hm_insert N.eqb l b (val (E b))) b (Some (val (E b)))) by now apply (insert_entry N.eqb N.eqb_eq).
      destruct R as (Nr & R).
      destruct (IH (hm_insert N.eqb l b (val (E b))) Nr) as (l' & X & N' & I).
      { intros k H H'. apply in_map_iff in H' as ([k' v'] & <- & H'). apply (in_insert N.eqb N.eqb_eq) in H' as [[= -> ->]|H']; [auto|].
        apply (in_map fst) in H'. apply (D k'); [now right|exact H']. }
      exists l'. split; [exact X|]. split; [exact N'|]. intros k v. rewrite I, R. split.
      * intros [[(-> & [= <-])|(_ & H)]|(H & H')]; [right; split; [now left|auto]|now left|right; split; [now right|exact H']].
      * intros [H|([->|H] & H1 & H2)]; [left; right|left; left; split; [auto|now rewrite H1]|right; auto].
        split; [|exact H]. intros ->. apply Db. now apply (in_map fst) in H.
Qed.

Section Wide.
  Context (m : mode) (d : dense) (data : list N).
  Context (Hd : d_dw d < 2 ^ 32) (F : Forall (fun x => x < 2 ^ 64) data) (D : d_data d = DBig data).
  Let E := wide_element d data.

  Lemma wide_read i : wide_readable m d data i -> dense_select_usize m d i = Ok (E i).
  Proof.
    intros (A & B). unfold dense_select_usize. rewrite D, word_start. unfold words_per_element. rewrite div_ceil_eq.
    fold (places (d_dw d)). fold (wide_start d i).
    replace (match m with Debug => 2 ^ 64 <=? places (d_dw d) * i | Release => false end) with false.
    2:{ destruct m; [|reflexivity]. destruct A as [A|A]; [discriminate|]. symmetry. now apply N.leb_gt. }
    cbn [bind]. rewrite range_ok by (clear - B; lia). cbn [bind]. unfold E, wide_element. do 4 f_equal. clear. lia.
  Qed.
  Lemma wide_unread i : ~ wide_readable m d data i -> panics (dense_select_usize m d i).
  Proof.
    intros H. unfold dense_select_usize. rewrite D, word_start. unfold words_per_element. rewrite div_ceil_eq.
    fold (places (d_dw d)). fold (wide_start d i).
    destruct (match m with Debug => 2 ^ 64 <=? places (d_dw d) * i | Release => false end) eqn:X; [eexists; reflexivity|].
    cbn [bind]. destruct (N.le_gt_cases (wide_start d i + places (d_dw d)) (len data)) as [L|L].
    - elim H. split; [|exact L]. destruct m; [right; now apply N.leb_gt in X|now left].
    - unfold range. replace (_ && _) with false by (clear - L; lia). eexists. reflexivity.
  Qed.
  Lemma wide_shape i : wide_readable m d data i -> well_shaped (E i) /\ width (E i) = d_dw d /\ count (E i) = places (d_dw d).
  Proof.
    intros (_ & L). assert (C : count (E i) = places (d_dw d)).
    { unfold E, wide_element, count, len in *. cbn [words]. rewrite firstn_length, skipn_length. clear - L. lia. }
    split; [|split; [reflexivity|exact C]]. split; [exact Hd|]. split; [exact C|]. cbn [words E wide_element].
    auto using Words_firstn, Words_skipn.
  Qed.

  Lemma wide_dec (a b : bv) : a = b \/ a <> b.
  Proof. destruct a as [w a], b as [w' b]. destruct (N.eq_dec w w') as [->|]; [|right; congruence].
    destruct (list_eq_dec N.eq_dec a b) as [->|]; [now left|right; congruence]. Qed.

  Lemma wide_eq i j : wide_readable m d data i -> wide_readable m d data j ->
    exists e, bv_eq m (E i) (E j) = Ok e /\ (e = true <-> E i = E j).
  Proof.
    intros A B. apply tidy_eq. right. destruct (wide_shape i A) as (_ & Wa & Ca), (wide_shape j B) as (_ & Wb & Cb).
    unfold tidy_bv. rewrite Wa, Wb. auto.
  Qed.

  Lemma wide_uval i j : wide_readable m d data i -> wide_readable m d data j -> uval (E i) = uval (E j) -> E i = E j.
  Proof.
    intros A B U. destruct (wide_shape i A) as ((_ & _ & Fa) & Wa & Ca), (wide_shape j B) as ((_ & _ & Fb) & Wb & Cb).
    destruct (E i) as [wa a], (E j) as [wb b]. cbn [width words] in *. subst. f_equal. unfold uval in U. cbn [words] in U.
    apply wv_inj; auto. unfold count in *. cbn [words] in *. congruence.
  Qed.

  (** the counted elements are elements *)
  Lemma count_keys l : (forall i, In i l -> wide_readable m d data i) ->
    forall count, exists count', count_big m d l count = Ok count'
      /\ (forall v k, In (v, k) count' -> (exists i, In i l /\ v = E i) \/ exists k', In (v, k') count)
      /\ (l <> [] \/ count <> [] -> count' <> []).
  Proof.
    intros H. induction l as [|i t IH]; intros cnt; cbn [count_big].
    - exists cnt. split; [reflexivity|]. split; [intros v k I; right; now exists k|]. intros [X|X]; [now elim X|exact X].
    - rewrite wide_read by (apply H; now left). cbn [bind].
      assert (B : forall v k, In (v, k) (hm_bump bv_eqb cnt (E i)) -> v = E i \/ exists k', In (v, k') cnt).
      { intros v k I. unfold hm_bump in I. apply (in_insert bv_eqb bv_eqb_eq) in I as [[= -> _]|I]; [now left|right; now exists k]. }
      assert (Nn : hm_bump bv_eqb cnt (E i) <> []).
      { unfold hm_bump. destruct cnt as [|[a x] cnt']; cbn; [discriminate|]. destruct (bv_eqb a (E i)); discriminate. }
      destruct (MAX_HASH_TABLE_SIZE <? _).
      + eexists. split; [reflexivity|]. split; [|intros _; exact Nn].
        intros v k I. destruct (B v k I) as [->|X]; [left; exists i; split; [now left|reflexivity]|now right].
      + destruct (IH (fun j J => H j (or_intror J)) (hm_bump bv_eqb cnt (E i))) as (c' & X & Y & Z).
        exists c'. split; [exact X|]. split; [|intros _; apply Z; now right].
        intros v k I. destruct (Y v k I) as [(j & J & ->)|(k' & J)]; [left; exists j; split; [now right|reflexivity]|].
        destruct (B v k' J) as [->|X']; [left; exists i; split; [now left|reflexivity]|now right].
  Qed.
End Wide.

Lemma sparsify_wide ho m d data : reorders ho -> loaded_dense d -> d_data d = DBig data ->
  let n := 2 ^ (d_iw d mod 64) in
  ((m = Debug /\ 64 <= d_iw d) \/ (exists i, i < n /\ ~ wide_readable m d data i) ->
     panics (sparse_of_dense ho m d))
  /\ ((m = Release \/ d_iw d < 64) -> (forall i, i < n -> wide_readable m d data i) ->
     exists j, j < n /\ load_sparsify_wide d data n (wide_element d data j) (sparse_of_dense ho m d)).
Proof.
  intros Ho (Hi & Hd & F) D n. rewrite D in F. unfold sparse_of_dense. rewrite D.
  assert (Sz := sizes_ok m (d_iw d)). unfold RawArraySpec.elements, ChanceSpec.passes in Sz. fold n in Sz.
  assert (Szp : (m = Release \/ d_iw d < 64) -> num_elements m (d_iw d) = Ok n).
  { intros H. destruct m; [|exact Sz]. destruct H as [H|H]; [discriminate|]. apply N.ltb_lt in H. now rewrite H in Sz. }
  assert (Dec : (m = Debug /\ 64 <= d_iw d) \/ (m = Release \/ d_iw d < 64)).
  { destruct m; [|auto]. destruct (N.lt_ge_cases (d_iw d) 64); auto. }
  split.
  - intros H. destruct Dec as [(-> & X)|X].
    { apply N.ltb_ge in X. rewrite X in Sz. destruct Sz as (z & ->). eexists. reflexivity. }
    rewrite (Szp X). cbn [bind]. destruct H as [(-> & Y)|(i & I & Y)].
    { destruct X as [X|X]; [discriminate|]. clear - X Y. lia. }
    destruct (count_big m d (indices n) []) as [cnt|]; [|eexists; reflexivity]. cbn [bind].
    destruct (unwrap _) as [[c k]|]; [|eexists; reflexivity]. cbn [bind].
    destruct (sparse_new m (d_iw d) c) as [out|]; [|eexists; reflexivity]. cbn [bind].
    apply (fold_panics _ _ i); [rewrite indices_iota; apply in_iota; clear - I; lia|].
    intros a. destruct (wide_unread m d data D i Y) as (z & ->). eexists. reflexivity.
  - intros X R. rewrite (Szp X). cbn [bind]. set (E := wide_element d data).
    assert (R' : forall i, In i (indices n) -> wide_readable m d data i).
    { intros i I. rewrite indices_iota in I. apply in_iota in I. apply R. clear - I. lia. }
    assert (Ne : indices n <> []).
    { rewrite indices_iota. assert (n <> 0) by now apply N.pow_nonzero. rewrite iota_succ by (clear - H; lia). discriminate. }
    destruct (count_keys m d data D (indices n) R' []) as (cnt & -> & Ck & Cn). cbn [bind].
    assert (P := Ho _ cnt). destruct (max_by_key_ok (@snd bv N) (ho _ cnt)) as ([c k] & -> & I & _).
    { intros Z. rewrite Z in P. apply Permutation_sym, Permutation_nil in P. apply Cn; auto. }
    cbn [unwrap bind]. apply (Permutation_in _ (Permutation_sym P)), Ck in I as [(j & J & Ej)|(k' & [])].
    rewrite Ej. clear c Ej. fold E. assert (Rj := R' j J).
    exists j. split; [rewrite indices_iota in J; apply in_iota in J; clear - J; lia|]. fold E.
    destruct (wide_shape m d data Hd F j Rj) as (Sj & Wj & Cj). fold E in Sj, Wj, Cj.
    set (step := fun out bit => let* v := dense_select_usize m d bit in let* e := bv_eq m v (E j) in
                 if e then Ok out else sparse_store_u64_big m out bit v).
    assert (S1 : forall s i, In i (indices n) -> E i = E j -> step s i = Ok s).
    { intros s i Ii Q. unfold step. rewrite (wide_read m d data D i (R' i Ii)). cbn [bind].
      destruct (wide_eq m d data Hd F i j (R' i Ii) Rj) as (e & Eq & Qe).
      fold E in Eq, Qe |- *. rewrite Eq. cbn [bind]. apply Qe in Q. now rewrite Q. }
    assert (S2 : forall s i, In i (indices n) -> E i <> E j -> step s i = sparse_store_u64_big m s i (E i)).
    { intros s i Ii Q. unfold step. rewrite (wide_read m d data D i (R' i Ii)). cbn [bind].
      destruct (wide_eq m d data Hd F i j (R' i Ii) Rj) as (e & Eq & Qe).
      fold E in Eq, Qe |- *. rewrite Eq. cbn [bind].
      destruct e; [|reflexivity]. elim Q. now apply Qe. }
    assert (Nd : NoDup (indices n)).
    { rewrite indices_iota. unfold iota.
      apply FinFun.Injective_map_NoDup; [intros a b; apply Nat2N.inj|apply seq_NoDup]. }
    assert (Ix : forall i, In i (indices n) <-> i < n).
    { intros i. rewrite indices_iota, in_iota. clear. lia. }
    unfold load_sparsify_wide, sparse_new. rewrite ref_same, Wj.
    destruct (64 <? d_iw d); cbn [bind].
    { split.
      - intros Al. assert (G : forall l, (forall i, In i l -> i < n) ->
          foldM step l (mksparse (d_iw d) (d_dw d) (SBigBig (E j) [])) = Ok (mksparse (d_iw d) (d_dw d) (SBigBig (E j) []))).
        { induction l as [|i t IH]; intros L; [reflexivity|]. cbn [foldM].
          rewrite S1; [|apply Ix, L; now left|apply Al, L; now left]. cbn [bind]. apply IH. intros y Y. apply L. now right. }
        apply G. intros i. apply Ix.
      - intros (i & Ii & Q).
        assert (G : forall l, (forall i, In i l -> i < n) -> In i l -> panics (foldM step l (mksparse (d_iw d) (d_dw d) (SBigBig (E j) [])))).
        { induction l as [|y t IH]; intros L K; [easy|]. cbn [foldM].
          destruct (wide_dec (E y) (E j)) as [Y|Y].
          - rewrite S1; [|apply Ix, L; now left|exact Y]. cbn [bind]. destruct K as [->|K]; [now elim Q|].
            apply IH; [intros z Z; apply L; now right|exact K].
          - rewrite S2; [|apply Ix, L; now left|exact Y]. eexists. reflexivity. }
        apply G; [intros y; apply Ix|now apply Ix]. }
    destruct (N.ltb_spec 64 (d_dw d)) as [B|B]; cbn [bind].
    + destruct (fill_keys (fun l => mksparse (d_iw d) (d_dw d) (SU64Big (E j) l)) step E (fun v => v) (E j) (indices n))
        with (l := @nil (N * bv)) as (l & -> & Nl & L); auto using wide_dec.
      { intros l i Ii Q. rewrite S2 by auto. unfold sparse_store_u64_big. cbn [s_data s_iw s_dw].
        destruct (wide_shape m d data Hd F i (R' i Ii)) as (Si & Wi & Ci). fold E in Si, Wi, Ci.
        pose proof (equal_load m (E i) (E j) (proj1 (shaped_loaded _ Si)) (proj1 (shaped_loaded _ Sj))) as G.
        unfold load_equal, admits in G. rewrite Wi, Wj, Ci, Cj, !N.eqb_refl in G. rewrite N.min_id in G.
        replace (uval (E i) mod _ =? uval (E j) mod _) with false in G.
        2:{ symmetry. apply N.eqb_neq. intros U. apply Q. apply (wide_uval m d data Hd F i j (R' i Ii) Rj).
            fold E. rewrite <- Ci in U at 1. rewrite <- Cj in U.
            rewrite !N.mod_small in U; [exact U| |]; unfold uval, count; apply wv_bound; [apply Sj|apply Si]. }
        assert (G' : bv_is_equal m (E i) (E j) = Ok false) by (destruct m; exact G).
        rewrite G'. cbn [bind]. now rewrite ref_same. }
      { constructor. }
      exists l. split; [reflexivity|]. split; [exact Nl|]. intros k0 v. rewrite L, Ix. cbn [In]. tauto.
    + assert (Small : forall i, wide_readable m d data i -> bv_to_u64 (E i) = Some (uval (E i))).
      { intros i Ri. destruct (wide_shape m d data Hd F i Ri) as (Si & Wi & Ci). fold E in Si, Wi, Ci.
        destruct (answers_load (E i) (proj1 (shaped_loaded _ Si))) as (_ & T & _). rewrite T.
        replace (uval (E i) <? 2 ^ 64) with true; [reflexivity|]. symmetry. apply N.ltb_lt.
        eapply N.lt_le_trans; [apply wv_bound; apply Si|]. apply N.pow_le_mono_r; [discriminate|].
        unfold count in Ci. rewrite Ci. unfold places. clear - B.
        assert ((d_dw d + 63) / 64 < 2) by (apply N.div_lt_upper_bound; lia). lia. }
      rewrite Small by exact Rj. cbn [unwrap bind].
      destruct (fill_keys (fun l => mksparse (d_iw d) (d_dw d) (SU64U64 (uval (E j)) l)) step E uval (E j) (indices n))
        with (l := @nil (N * N)) as (l & -> & Nl & L); auto using wide_dec.
      { intros l i Ii Q. rewrite S2 by auto. unfold sparse_store_u64_big. cbn [s_data s_iw s_dw].
        rewrite Small by auto. cbn [unwrap bind].
        destruct (N.eqb_spec (uval (E i)) (uval (E j))) as [U|U]; [|reflexivity].
        elim Q. exact (wide_uval m d data Hd F i j (R' i Ii) Rj U). }
      { constructor. }
      exists l. split; [reflexivity|]. split; [exact Nl|]. intros k0 v. rewrite L, Ix. cbn [In]. tauto.
Qed.
