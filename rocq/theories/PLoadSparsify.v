(** * PLoadSparsify: loaded dense arrays of bits, bytes or words made sparse (C99). *)

From Coq Require Import ZifyBool ZifyNat ZifyN Permutation.
From Verif Require Import Base Arith Map Bv Array Spec ArraySpec CallSpec PanicSpec MixedSpec LoadSpec LoadArraySpec LoadSparseSpec.
From Verif Require RawArraySpec ChanceSpec.
From Verif Require Import PWords PArith PShift PConv PStore PMixed PDense PSparse PConvert PFullArray PLoad PLoadArray PLoadSparse PLoadConvert.
Ltac Zify.zify_post_hook ::= idtac.
Open Scope list_scope.
Open Scope N_scope.

Definition fill (c : N) (out : sparse) (kv : N * N) : res sparse :=
  let (bit, x) := kv in if x =? c then Ok out else sparse_store_u64_u64 out bit x.

Lemma fill_numbers iw dw c c' es : forall l, NoDup (map fst es) -> NoDup (map fst l) ->
  (forall k, In k (map fst es) -> ~ In k (map fst l)) ->
  exists l', foldM (fill c) es (mksparse iw dw (SU64U64 c' l)) = Ok (mksparse iw dw (SU64U64 c' l'))
    /\ NoDup (map fst l')
    /\ forall k v, In (k, v) l' <-> In (k, v) l \/ (In (k, v) es /\ v <> c /\ v <> c').
Proof.
  induction es as [|[b x] es IH]; intros l Ne Nl D.
  - exists l. split; [reflexivity|]. split; auto. intros k v. split; [auto|intros [H|([] & _)]; auto].
  - inversion Ne as [|? ? Nb Ne']; subst. cbn [map fst] in *. cbn [foldM]. unfold fill at 1.
    assert (Db : ~ In b (map fst l)) by (apply D; now left).
    destruct (N.eqb_spec x c) as [->|Ec]; cbn [bind].
    + destruct (IH l Ne' Nl) as (l' & E & N' & I); [intros k H; apply D; now right|].
      exists l'. split; [exact E|]. split; [exact N'|]. intros k v. rewrite I. split.
      * intros [H|(H & H')]; [now left|right]. split; [now right|exact H'].
      * intros [H|([[= <- <-]|H] & H1 & H2)]; [now left|now elim H1|right; auto].
    + unfold sparse_store_u64_u64. cbn [s_data s_iw s_dw bind]. destruct (N.eqb_spec x c') as [->|Ec'].
      * assert (R : with_entry l (hm_remove N.eqb l b) b None) by now apply (remove_entry N.eqb N.eqb_eq).
        destruct R as (Nr & R).
        assert (Rk : forall k, In k (map fst (hm_remove N.eqb l b)) -> In k (map fst l)).
        { intros k H. apply in_map_iff in H as ([k' v'] & <- & H). apply R in H as [(_ & H)|(_ & H)]; [discriminate|].
          now apply (in_map fst) in H. }
        destruct (IH (hm_remove N.eqb l b) Ne' Nr) as (l' & E & N' & I).
        { intros k H H'. apply (D k); [now right|auto]. }
        exists l'. split; [exact E|]. split; [exact N'|]. intros k v. rewrite I, R. split.
        -- intros [[(_ & H)|(_ & H)]|(H & H')]; [discriminate|now left|right]. split; [now right|exact H'].
        -- intros [H|([[= <- <-]|H] & H1 & H2)]; [left|now elim H2|right; auto].
           right. split; [|exact H]. intros ->. apply Db. now apply (in_map fst) in H.
      * assert (R : with_entry l (hm_insert N.eqb l b x) b (Some x)) by now apply (insert_entry N.eqb N.eqb_eq).
        destruct R as (Nr & R).
        destruct (IH (hm_insert N.eqb l b x) Ne' Nr) as (l' & E & N' & I).
        { intros k H H'. apply in_map_iff in H' as ([k' v'] & <- & H'). apply (in_insert N.eqb N.eqb_eq) in H' as [[= -> ->]|H']; [auto|].
          apply (in_map fst) in H'. apply (D k'); [now right|exact H']. }
        exists l'. split; [exact E|]. split; [exact N'|]. intros k v. rewrite I, R. split.
        -- intros [[(-> & [= ->])|(_ & H)]|(H & H')]; [right; split; [now left|auto]|now left|right; split; [now right|exact H']].
        -- intros [H|([[= <- <-]|H] & H1 & H2)]; [left; right|left; left; auto|right; auto].
           split; [|exact H]. intros ->. apply Db. now apply (in_map fst) in H.
Qed.

Lemma fill_other iw dw c data es : match data with SU64U64 _ _ => False | _ => True end ->
  let s := mksparse iw dw data in
  ((forall k v, In (k, v) es -> v = c) -> foldM (fill c) es s = Ok s)
  /\ ((exists k v, In (k, v) es /\ v <> c) -> panics (foldM (fill c) es s)).
Proof.
  intros K s. induction es as [|[b x] es (IH1 & IH2)]; cbn [foldM].
  - split; [reflexivity|]. intros (k & v & [] & _).
  - unfold fill at 1 3. destruct (N.eqb_spec x c) as [->|E]; cbn [bind].
    + split.
      * intros H. apply IH1. intros k v I. apply (H k v). now right.
      * intros (k & v & [Y|Y] & Q); [injection Y as <- <-; now elim Q|]. apply IH2. exists k, v. auto.
    + split.
      * intros H. elim E. apply (H b x). now left.
      * intros _. unfold sparse_store_u64_u64, s. cbn [s_data]. destruct data; [easy| |]; eexists; reflexivity.
Qed.

Lemma enumerated (data : list N) k v : In (k, v) (enumerate data) <-> k < len data /\ v = nth (N.to_nat k) data 0.
Proof.
  rewrite enumerate_map, in_map_iff. split.
  - intros (i & [= <- <-] & H). apply in_iota in H. split; [lia|reflexivity].
  - intros (H & ->). exists k. split; [reflexivity|]. apply in_iota. lia.
Qed.
Lemma enumerated_keys (data : list N) : NoDup (map fst (enumerate data)).
Proof.
  rewrite enumerate_map, map_map. cbn [fst]. rewrite map_id. unfold iota.
  apply FinFun.Injective_map_NoDup; [intros a b; apply Nat2N.inj|apply seq_NoDup].
Qed.

(** the default chosen, the entries *)
Definition rest (m : mode) (d : dense) (data : list N) (c : N) : res sparse :=
  let* bv_default := bv_from_u64 m c (d_dw d) in
  let* out := sparse_new m (d_iw d) bv_default in
  foldM (fill c) (enumerate data) out.

Lemma sparsify_rest m d data c : c < 2 ^ 64 -> d_dw d < 2 ^ 32 -> load_sparsify m d data c (rest m d data c).
Proof.
  intros Hc Hd. unfold rest.
  unfold load_sparsify. 
  destruct (read_cases m (d_dw d) c Hc Hd) as [(b & Eb & R)|((z & ->) & ->)]; [|eexists; reflexivity].
  rewrite Eb. pose proof R as (Sb & Wb & Rn). rewrite Rn. cbn [bind].
  unfold sparse_new. rewrite ref_same, Wb.
  assert (Big : forall sd, match sd with SU64U64 _ _ => False | _ => True end ->
    ((forall x, In x data -> x = c) -> foldM (fill c) (enumerate data) (mksparse (d_iw d) (d_dw d) sd) = Ok (mksparse (d_iw d) (d_dw d) sd))
    /\ ((exists x, In x data /\ x <> c) -> panics (foldM (fill c) (enumerate data) (mksparse (d_iw d) (d_dw d) sd)))).
  { intros sd K. destruct (fill_other (d_iw d) (d_dw d) c sd (enumerate data) K) as (G1 & G2). split.
    - intros H. apply G1. intros k v J. apply H. apply enumerated in J as (L & ->). apply nth_In.
      unfold len in L. clear - L. lia.
    - intros (x & J & H). apply G2. apply (In_nth _ _ 0) in J as (i & L & E). exists (N.of_nat i), x. split; [|exact H].
      apply enumerated. rewrite Nat2N.id. split; [unfold len; clear - L; lia|auto]. }
  destruct (N.ltb_spec 64 (d_iw d)) as [A|A]; cbn [orb bind].
  { destruct (Big (SBigBig b [])) as (G1 & G2); [exact Logic.I|]. split; [|exact G2].
    intros H. exists b. split; [exact R|]. now apply G1. }
  destruct (N.ltb_spec 64 (d_dw d)) as [B|B]; cbn [bind].
  { destruct (Big (SU64Big b [])) as (G1 & G2); [exact Logic.I|]. split; [|exact G2].
    intros H. exists b. split; [exact R|]. now apply G1. }
  assert (U : uval b < 2 ^ 64).
  { unfold read_number in Rn. destruct (_ || _); [discriminate|]. injection Rn as <-.
    eapply N.lt_le_trans; [apply N.mod_lt; now apply N.pow_nonzero|]. now apply N.pow_le_mono_r. }
  destruct (answers_load b (proj1 (shaped_loaded b Sb))) as (_ & Tb & _). rewrite Tb, (proj2 (N.ltb_lt _ _) U). cbn [unwrap bind].
  destruct (fill_numbers (d_iw d) (d_dw d) c (uval b) (enumerate data) [] (enumerated_keys data)) as (l & -> & Nl & L);
    [constructor|intros k _ []|].
  exists l. split; [reflexivity|]. split; [exact Nl|]. intros k v. rewrite L, enumerated. cbn [In]. tauto.
Qed.

Lemma sparsify_words ho m d data : reorders ho -> loaded_dense d -> d_data d = DU64 data ->
  (data = [] -> panics (sparse_of_dense ho m d))
  /\ (data <> [] -> exists c, In c data /\ load_sparsify m d data c (sparse_of_dense ho m d)).
Proof.
  intros Ho (Hi & Hd & F) D. rewrite D in F. unfold sparse_of_dense. rewrite D. split.
  { intros ->. cbn [count_u64]. rewrite (Permutation_nil (Ho _ (@nil (N * N)))). eexists. reflexivity. }
  intros Z. destruct (count_u64_ok data [] [] entries_nil) as (p & q & Ep & En & Np & _). cbn [app] in En.
  assert (Hp : p <> []) by (intros X; apply Z; auto).
  destruct (entries_max _ p (ho _ (count_u64 data [])) En Hp (Ho _ _)) as (c & n & -> & I & _).
  cbn [unwrap bind].
  assert (I' : In c data) by (rewrite Ep; apply in_or_app; now left). clear p q Ep En Np Hp I.
  exists c. split; [exact I'|].
  rewrite Forall_forall in F. exact (sparsify_rest m d data c (F c I') Hd).
Qed.

(** ** Bytes *)
Lemma fold_panics {A B} (f : A -> B -> res A) l i : In i l -> (forall a, panics (f a i)) ->
  forall a, panics (foldM f l a).
Proof.
  intros I H. induction l as [|x t IH]; [easy|]. intros a. cbn [foldM]. destruct I as [->|I].
  - destruct (H a) as (z & ->). eexists. reflexivity.
  - destruct (f a x); [now apply IH|eexists; reflexivity].
Qed.

Lemma first_elements (data : list N) n : n <= len data ->
  map (fun i => nth (N.to_nat i) data 0) (iota 0 n) = firstn (N.to_nat n) data.
Proof.
  intros L. unfold iota. rewrite map_map. change (N.to_nat 0) with 0%nat.
  assert (L' : (N.to_nat n <= length data)%nat) by (unfold len in L; clear - L; lia). clear L. revert L'.
  generalize (N.to_nat n). clear n. intros n. revert data. induction n as [|n IH]; intros [|x t] L.
  - reflexivity.
  - reflexivity.
  - cbn in L. clear - L. lia.
  - cbn [seq map firstn]. f_equal. rewrite <- seq_shift, map_map. rewrite <- (IH t) by (cbn in L; clear - L; lia).
    apply map_ext. intros i. rewrite !Nat2N.id. reflexivity.
Qed.

Lemma sparsify_bytes ho m d data : loaded_dense d -> d_data d = DU8 data ->
  let n := 2 ^ (d_iw d mod 64) in
  ((m = Debug /\ 64 <= d_iw d) \/ len data < n \/ (exists i, i < n /\ 8 <= nth (N.to_nat i) data 0) ->
     panics (sparse_of_dense ho m d))
  /\ ((m = Release \/ d_iw d < 64) -> n <= len data -> (forall i, i < n -> nth (N.to_nat i) data 0 < 8) ->
     exists c, In c (firstn (N.to_nat n) data)
       /\ (forall y, times y (firstn (N.to_nat n) data) <= times c (firstn (N.to_nat n) data))
       /\ load_sparsify m d data c (sparse_of_dense ho m d)).
Proof.
  intros (Hi & Hd & F) D n. rewrite D in F. unfold sparse_of_dense. rewrite D.
  assert (Sz := sizes_ok m (d_iw d)). unfold RawArraySpec.elements, ChanceSpec.passes in Sz. fold n in Sz.
  assert (Szp : (m = Release \/ d_iw d < 64) -> num_elements m (d_iw d) = Ok n).
  { intros H. destruct m; [|exact Sz]. destruct H as [H|H]; [discriminate|]. apply N.ltb_lt in H. now rewrite H in Sz. }
  assert (Dec : (m = Debug /\ 64 <= d_iw d) \/ (m = Release \/ d_iw d < 64)).
  { destruct m; [|auto]. destruct (N.lt_ge_cases (d_iw d) 64); auto. }
  split.
  - intros H. destruct Dec as [(-> & X)|X].
    { apply N.ltb_ge in X. rewrite X in Sz. destruct Sz as (z & ->). eexists. reflexivity. }
    rewrite (Szp X). cbn [bind].
    assert (P : panics (foldM (fun c bit => let* x := idx data bit in bump c x) (indices n) (repeat 0 8))).
    { destruct (N.lt_ge_cases (len data) n) as [L|L].
      - apply (fold_panics _ _ (len data)); [rewrite indices_iota; apply in_iota; clear - L; lia|].
        intros a. rewrite idx_panic by apply N.le_refl. eexists. reflexivity.
      - destruct (count_table (idx data) (fun i => nth (N.to_nat i) data 0) 8 (indices n) (repeat 0 8)) as [(G & _)|(_ & G)];
          [reflexivity| | |exact G].
        + intros i I. rewrite indices_iota in I. apply in_iota in I. apply idx_ok. clear - I L. lia.
        + exfalso. rewrite Forall_forall in G. destruct H as [(Y1 & Y2)|[Y|(i & I & Y)]].
          * destruct X as [->|X]; [discriminate|]. clear - X Y2. lia.
          * clear - Y L. lia.
          * specialize (G i). rewrite indices_iota in G. specialize (G ltac:(apply in_iota; clear - I; lia)).
            clear - G Y. lia. }
    destruct P as (z & ->). eexists. reflexivity.
  - intros X L Small. rewrite (Szp X). cbn [bind].
    destruct (count_table (idx data) (fun i => nth (N.to_nat i) data 0) 8 (indices n) (repeat 0 8)) as [(_ & c & -> & Lc & Nc)|(Y & _)];
      [reflexivity| | |].
    + intros i I. rewrite indices_iota in I. apply in_iota in I. apply idx_ok. clear - I L. lia.
    + cbn [bind]. rewrite indices_iota, first_elements in Nc by exact L. set (l := firstn (N.to_nat n) data) in *.
      assert (Nc' : forall j, j < 8 -> nth (N.to_nat j) c 0 = occ l j).
      { intros j Hj. rewrite Nc. rewrite nth_repeat. reflexivity. }
      assert (Sl : forall y, In y l -> y < 8).
      { intros y J. unfold l in J. rewrite <- first_elements in J by exact L. apply in_map_iff in J as (i & <- & J).
        apply in_iota in J. apply Small. clear - J. lia. }
      destruct (max_by_key_ok (@snd N N) (enumerate c)) as ([x0 k] & -> & Hin & Mx).
      { rewrite enumerate_map, Lc. discriminate. }
      cbn [unwrap bind]. apply enumerated in Hin as (Hx & ->). rewrite Lc in Hx.
      assert (Mx' : forall y, occ l y <= occ l x0).
      { intros y. destruct (N.lt_ge_cases y 8) as [Y|Y].
        - rewrite <- !Nc' by auto. apply (Mx (y, nth (N.to_nat y) c 0)). apply enumerated. rewrite Lc. auto.
        - destruct (N.eq_0_gt_0_cases (occ l y)) as [Z|Z]; [rewrite Z; apply N.le_0_l|].
          apply occ_pos, Sl in Z. clear - Z Y. lia. }
      exists x0. split; [|split; [exact Mx'|]].
      * apply occ_pos. assert (Pn : n <> 0) by now apply N.pow_nonzero.
        destruct l as [|y t] eqn:El.
        { exfalso. assert (E : length (firstn (N.to_nat n) data) = 0%nat) by (fold l; now rewrite El).
          rewrite firstn_length in E. unfold len in L. clear - E L Pn. lia. }
        eapply N.lt_le_trans; [|exact (Mx' y)]. apply occ_pos. now left.
      * rewrite as_u8_ok by (eapply N.lt_trans; [exact Hx|reflexivity]).
        apply (sparsify_rest m d data x0); [|exact Hd]. eapply N.lt_trans; [exact Hx|reflexivity].
    + exfalso. apply Exists_exists in Y as (i & I & Y). rewrite indices_iota in I. apply in_iota in I.
      specialize (Small i ltac:(clear - I; lia)). clear - Small Y. lia.
Qed.

(** ** Bits *)
Lemma sparsify_bits ho m d b : loaded_dense d -> d_data d = DBit b ->
  let n := 2 ^ (d_iw d mod 64) in
  let bits := map (fun i => N.b2n (N.testbit (uval b) (i mod 2 ^ 32))) (indices n) in
  ((m = Debug /\ 64 <= d_iw d) \/ (exists i, i < n /\ 64 * count b <= i mod 2 ^ 32) ->
     panics (sparse_of_dense ho m d))
  /\ ((m = Release \/ d_iw d < 64) -> (forall i, i < n -> i mod 2 ^ 32 < 64 * count b) ->
     load_sparsify m (mkdense (d_iw d) 1 (d_data d)) bits (N.b2n (times 0 bits <? times 1 bits)) (sparse_of_dense ho m d)).
Proof.
  intros (Hi & Hd & F) D n bits. rewrite D in F. unfold sparse_of_dense. rewrite D.
  assert (Sz := sizes_ok m (d_iw d)). unfold RawArraySpec.elements, ChanceSpec.passes in Sz. fold n in Sz.
  assert (Szp : (m = Release \/ d_iw d < 64) -> num_elements m (d_iw d) = Ok n).
  { intros H. destruct m; [|exact Sz]. destruct H as [H|H]; [discriminate|]. apply N.ltb_lt in H. now rewrite H in Sz. }
  assert (Dec : (m = Debug /\ 64 <= d_iw d) \/ (m = Release \/ d_iw d < 64)).
  { destruct m; [|auto]. destruct (N.lt_ge_cases (d_iw d) 64); auto. }
  assert (Bit : forall i, answers (bv_is_bit_set b (as_u32 i))
    (if i mod 2 ^ 32 <? 64 * count b then Some (N.testbit (uval b) (i mod 2 ^ 32)) else None)).
  { intros i. unfold as_u32. rewrite B32_eq. exact (bit_load b _ F). }
  split.
  - intros H. destruct Dec as [(-> & X)|X].
    { apply N.ltb_ge in X. rewrite X in Sz. destruct Sz as (z & ->). eexists. reflexivity. }
    rewrite (Szp X). cbn [bind]. destruct H as [(-> & Y)|(i & I & Y)].
    { destruct X as [X|X]; [discriminate|]. clear - X Y. lia. }
    assert (P : panics (foldM (fun c bit => let* y := bv_is_bit_set b (as_u32 bit) in bump c (bool_as_u64 y)) (indices n) [0; 0])).
    { apply (fold_panics _ _ i); [rewrite indices_iota; apply in_iota; clear - I; lia|].
      intros a. specialize (Bit i). apply N.ltb_ge in Y. rewrite Y in Bit. destruct Bit as (z & ->). eexists. reflexivity. }
    destruct P as (z & ->). eexists. reflexivity.
  - intros X In_. rewrite (Szp X). cbn [bind].
    assert (Bit' : forall i, In i (indices n) -> bv_is_bit_set b (as_u32 i) = Ok (N.testbit (uval b) (i mod 2 ^ 32))).
    { intros i I. rewrite indices_iota in I. apply in_iota in I. specialize (Bit i).
      rewrite (proj2 (N.ltb_lt _ _) (In_ i ltac:(clear - I; lia))) in Bit. exact Bit. }
    clear Bit. set (f := fun i => N.b2n (N.testbit (uval b) (i mod 2 ^ 32))).
    assert (Bu : forall y, bool_as_u64 y = N.b2n y) by (intros []; reflexivity).
    rewrite (foldM_ext _ (fun c i => let* x := Ok (f i) in bump c x)).
    2:{ intros c i I. rewrite Bit' by exact I. cbn [bind]. now rewrite Bu. }
    destruct (count_table (fun i => Ok (f i)) f 2 (indices n) [0; 0]) as [(_ & c & -> & Lc & Nc)|(Y & _)];
      [reflexivity|reflexivity| |].
    2:{ exfalso. apply Exists_exists in Y as (i & _ & Y). unfold f in Y. destruct (N.testbit _ _); cbn in Y; clear - Y; lia. }
    cbn [bind]. rewrite !idx_ok by (rewrite Lc; reflexivity). cbn [bind]. rewrite (Nc 1), (Nc 0).
    change (nth (N.to_nat 1) [0; 0] 0) with 0. change (nth (N.to_nat 0) [0; 0] 0) with 0.
    rewrite !N.add_0_l. change (map f (indices n)) with bits. change (occ bits 0) with (times 0 bits).
    change (occ bits 1) with (times 1 bits). set (def := times 0 bits <? times 1 bits).
    assert (Eb : bv_from_bool m def = bv_from_u64 m (N.b2n def) 1) by (destruct def; reflexivity). rewrite Eb.
    assert (G := sparsify_rest m (mkdense (d_iw d) 1 (DBit b)) bits (N.b2n def)).
    replace (let* bv_default := bv_from_u64 m (N.b2n def) 1 in
             let* out := sparse_new m (d_iw d) bv_default in
             foldM (fun out bit => let* y := bv_is_bit_set b (as_u32 bit) in
                if Bool.eqb y def then Ok out else sparse_store_u64_u64 out bit (bool_as_u64 (negb def))) (indices n) out)
      with (rest m (mkdense (d_iw d) 1 (DBit b)) bits (N.b2n def)).
    { apply G; [destruct def; reflexivity|reflexivity]. }
    unfold rest. cbn [d_iw d_dw]. destruct (bv_from_u64 m (N.b2n def) 1) as [v|]; [|reflexivity]. cbn [bind].
    destruct (sparse_new m (d_iw d) v) as [out|]; [|reflexivity]. cbn [bind].
    assert (E : enumerate bits = map (fun i => (i, f i)) (indices n)).
    { unfold enumerate, bits. fold f. replace (indices (len (map f (indices n)))) with (indices n).
      - apply combine_map_self.
      - f_equal. rewrite indices_iota. unfold len. rewrite map_length. symmetry. exact (len_iota 0 n). }
    rewrite E, foldM_map. apply foldM_ext. intros s i I. rewrite Bit' by exact I. cbn [bind]. unfold fill, f.
    destruct (N.testbit _ _), def; reflexivity.
Qed.
