(** * PArrayInterp: the reference interpreter for arrays is right (C82). *)

From Coq Require Import ZifyBool ZifyNat ZifyN Permutation.
From Verif Require Import Base Arith Map Bv Array Serde Unwind Spec ArraySpec ArrayPanicSpec KindSpec UnwindSpec
  ProfileSpec ArrayInterpSpec.
From Verif Require Import PWords PropsArith PConv PReject PDense PSparse PConvert PArrays PPanic PArrayPanic PShift
  PKind PUnwind PProfile.
Ltac Zify.zify_post_hook ::= idtac.

(** ** Decisions of the interpreter *)

Lemma refused_iff w d : refused w d = true <-> too_large w d.
Proof.
  unfold refused, too_large, dense_bytes. rewrite N.ltb_lt.
  destruct (64 <? d) eqn:E; [|destruct (d =? 1), (d <=? 8), (d <=? 64) eqn:F; try reflexivity; lia].
  replace (d =? 1) with false by lia. replace (d <=? 8) with false by lia. replace (d <=? 64) with false by lia.
  reflexivity.
Qed.
Lemma roomless_iff w d : roomless w d = true <-> too_many_bits w d.
Proof. unfold roomless, too_many_bits. lia. Qed.

Definition keyed (r : memory) : Prop := Forall (fun e => fst e < 2 ^ r_iw r) (r_writes r).

Lemma touched_iff r : keyed r -> (touched r = true <-> varied (r_iw r) (elem r) (r_base r)).
Proof.
  intros K. unfold touched, varied. rewrite existsb_exists. split.
  - intros (e & He & X). exists (fst e). unfold keyed in K. rewrite Forall_forall in K. split; [auto|lia].
  - intros (i & _ & X). unfold elem in X. destruct (find _ (r_writes r)) as [e|] eqn:F; [|congruence].
    assert (F' := F). apply find_some in F'. destruct F' as (He & Ei). exists e. split; auto.
    assert (fst e = i) as -> by lia. unfold elem. rewrite F. lia.
Qed.

Lemma stuck_iff r : keyed r ->
  (stuck r = true <-> densify_rejected (r_iw r) (r_dw r) (elem r) (r_base r)).
Proof.
  intros K. unfold stuck, densify_rejected. rewrite <- (touched_iff r K), <- refused_iff, <- roomless_iff.
  rewrite !orb_true_iff, !andb_true_iff, orb_true_iff, N.ltb_lt, N.eqb_eq. tauto.
Qed.

Lemma same_elements_iff r s : same_elements r s = true <-> same_contents (r_iw r) (elem r) (elem s).
Proof.
  unfold same_elements, same_contents. rewrite forallb_forall. split.
  - intros H i Hi. specialize (H (N.to_nat i)). rewrite in_seq, N2Nat.id in H. apply N.eqb_eq, H. lia.
  - intros H i Hi. apply in_seq in Hi. apply N.eqb_eq, H. lia.
Qed.

(** ** What a variable holds *)

Definition hollow (w : N) : array := ADense (mkdense w 1 (DBit (bv_zero 0))).

Definition holds (a : array) (r : memory) : Prop :=
  keyed r
  /\ if r_dense r then
       if roomless (r_iw r) (r_dw r) then a = hollow (r_iw r) /\ (forall i, elem r i = 0) /\ r_iw r < 2 ^ 32
       else exists d, a = ADense d /\ dense_is d (r_iw r) (r_dw r) (elem r)
     else r_iw r <= 64
          /\ exists s, a = ASparse s /\ sparse_is s (r_iw r) (r_dw r) (elem r) /\ sdef s = r_base r.

Lemma holds_type a r : holds a r ->
  array_is_dense a = r_dense r /\ array_index_width a = r_iw r /\ array_data_width a = r_dw r.
Proof.
  intros (_ & H). destruct (r_dense r).
  - destruct (roomless _ _) eqn:R.
    + destruct H as (-> & _). unfold roomless in R. cbn. repeat split; auto. lia.
    + destruct H as (d & -> & (_ & E1 & E2 & _)). cbn. auto.
  - destruct H as (_ & s & -> & (_ & E1 & E2 & _) & _). cbn. auto.
Qed.

Lemma panics_then {A B} (r : res A) (k : A -> res B) : (forall x, panics (k x)) -> panics (bind r k).
Proof. intros H. destruct r as [x|p]; cbn [bind]; [apply H|]. now exists p. Qed.

(** ** Arrays without room for their elements *)
Lemma hollow_select probe w i : panics (array_select probe Debug (hollow w) i).
Proof.
  cbn [hollow array_select]. unfold dense_select. apply panics_then. intros _. apply panics_then. intros n.
  unfold dense_select_usize. cbn [d_data]. apply panics_bind. unfold bv_is_bit_set, ar_is_bit_set.
  apply panics_bind. rewrite idx_panic; [now eexists|]. apply N.le_0_l.
Qed.
Lemma hollow_store probe w i x : panics (array_store probe Debug (hollow w) i x).
Proof.
  cbn [hollow array_store]. apply panics_bind. unfold dense_store. do 3 (apply panics_then; intros ?).
  apply panics_bind. cbn [d_data]. apply panics_then. intros t. apply panics_bind.
  unfold bv_set_bit, bv_clear_bit, ar_set_bit, ar_clear_bit.
  destruct t; apply panics_bind; apply panics_bind; (rewrite idx_panic; [now eexists|]); apply N.le_0_l.
Qed.
Lemma hollow_clear w : array_clear (hollow w) = hollow w.
Proof. reflexivity. Qed.
Lemma hollow_equal w : dense_is_equal Debug (mkdense w 1 (DBit (bv_zero 0))) (mkdense w 1 (DBit (bv_zero 0)))
  = Ok (Some true).
Proof. unfold dense_is_equal. cbn [d_iw d_dw d_data]. rewrite !N.eqb_refl. reflexivity. Qed.

(** ** Making dense *)
Lemma densify_holds ho r s : reorders ho -> holds (ASparse s) r -> r_dense r = false ->
  if stuck r then panics (dense_of_sparse ho Debug s)
  else exists d, dense_of_sparse ho Debug s = Ok d
       /\ holds (ADense d) (mkmem true (r_iw r) (r_dw r) (r_base r) (r_writes r)).
Proof.
  intros Ho (K & H) D. rewrite D in H. destruct H as (I & s' & Es & H & B). injection Es as <-.
  assert (St := stuck_iff r K). rewrite <- B in St.
  pose proof (densify_settles ho s _ _ _ Ho H) as [(R & P)|(R & (d & E))].
  { replace (stuck r) with true by (symmetry; tauto). exact P. }
  replace (stuck r) with false by (destruct (stuck r); tauto). exists d. split; auto.
  split; [exact K|]. cbn [r_dense r_iw r_dw].
  change (elem (mkmem true (r_iw r) (r_dw r) (r_base r) (r_writes r))) with (elem r).
  assert (H' := H). destruct H' as (W & E1 & E2 & F). assert (D0 : 0 < r_dw r) by (destruct W; lia).
  assert (T : ~ too_large (r_iw r) (r_dw r)) by (intros X; apply R; now left).
  destruct (roomless _ _) eqn:Ro.
  - assert (Ro' := Ro). apply roomless_iff in Ro'. destruct Ro' as (D1 & I32).
    assert (V : ~ varied (r_iw r) (elem r) (sdef s)).
    { intros X. apply R. right. right. split; [now split|now right]. }
    assert (B1 : sdef s <> 1). { intros X. apply R. right. right. split; [now split|now left]. }
    assert (B0 : sdef s = 0). { destruct W as (_ & _ & _ & L & _). rewrite E2, D1 in L. change (2 ^ 1) with 2 in L. lia. }
    split; [|split; [|lia]].
    + f_equal. unfold dense_of_sparse in E. destruct (default_ok Debug s W) as (def & Ed & Hd).
      assert (Wd : width def = s_dw s) by apply Hd.
      assert (Ud : uval def = sdef s) by (now destruct Hd as (_ & _ & Hd)).
      rewrite Ed in E. cbn [bind] in E.
      rewrite E1, new_many_bits in E; auto; [|apply Hd|congruence|now rewrite <- D1].
      replace (uval def =? 1) with false in E by lia. cbn [bind d_dw d_iw d_data] in E.
      rewrite !debug_assert_ok in E by lia. cbn [bind] in E.
      assert (N : sent s = []).
      { destruct (sent s) eqn:X; auto. exfalso. apply V, (entries_varied _ _ _ _ H). now rewrite X. }
      destruct W as (_ & _ & _ & _ & _ & _ & Sh). unfold sent in N.
      destruct (s_data s) as [x l|x l|x l]; [|exfalso; lia|exfalso; lia]. subst l.
      assert (P := Ho _ (@nil (BinNums.N * BinNums.N))). apply Permutation_nil in P. rewrite P in E.
      cbn [foldM bind] in E. now injection E as <-.
    + intros i. destruct (N.eq_dec (elem r i) 0) as [|X]; auto. exfalso.
      apply V. rewrite B. apply touched_iff; auto. unfold touched. apply existsb_exists.
      unfold elem in X. destruct (find _ (r_writes r)) as [e|] eqn:Fi; [|lia].
      assert (Fi' := Fi). apply find_some in Fi'. destruct Fi' as (He & Ei). exists e. split; auto.
      assert (fst e = i) as -> by lia. unfold elem. rewrite Fi. lia.
  - exists d. split; auto. eapply dense_ext; [|exact F]. rewrite <- E1, <- E2.
    apply (dense_of_sparse_inv ho Debug); auto. rewrite E1, E2. apply not_large_addressable; auto.
    rewrite <- roomless_iff. congruence.
Qed.

(** ** Creation *)
Lemma find_combine (l : list N) : forall k j,
  find (fun e => fst e =? k) (combine (map N.of_nat (seq j (length l))) l)
  = if (N.of_nat j <=? k) && (k <? N.of_nat (j + length l)) then Some (k, nth (N.to_nat k - j) l 0) else None.
Proof.
  induction l as [|x l IH]; intros k j; cbn [length seq map combine find].
  { destruct (_ && _) eqn:E; auto. lia. }
  cbn [fst]. destruct (N.eqb_spec (N.of_nat j) k) as [E|E].
  - replace ((N.of_nat j <=? k) && (k <? N.of_nat (j + Datatypes.S (length l)))) with true by lia.
    replace (N.to_nat k - j)%nat with O by lia. now subst k.
  - rewrite IH.
    replace ((N.of_nat j <=? k) && (k <? N.of_nat (j + Datatypes.S (length l))))
      with ((N.of_nat (Datatypes.S j) <=? k) && (k <? N.of_nat (Datatypes.S j + length l))) by lia.
    destruct (_ && _) eqn:F; auto.
    replace (N.to_nat k - j)%nat with (Datatypes.S (N.to_nat k - Datatypes.S j)) by lia. reflexivity.
Qed.

Lemma slice_elem d l i : elem (slice d l) i = nth (N.to_nat i) l 0.
Proof.
  unfold elem, slice. cbn [r_writes r_base]. rewrite find_combine.
  replace (N.to_nat i - 0)%nat with (N.to_nat i) by lia.
  destruct (_ && _) eqn:E; auto. rewrite nth_overflow; auto. lia.
Qed.

Lemma log2_up_width n : index_width_from_len n = N.log2_up n.
Proof.
  destruct (index_width_ok n) as (H1 & H2). apply N.le_antisymm.
  - apply H2. destruct (N.le_gt_cases n 1) as [L|L]; [|now apply N.log2_up_spec].
    eapply N.le_trans; [exact L|]. apply (N.pow_le_mono_r 2 0); lia.
  - rewrite <- (N.log2_up_pow2 (index_width_from_len n)) by lia. now apply N.log2_up_le_mono.
Qed.

Lemma slice_holds l d dd f : len l <= 2 ^ 63 -> (d = 1 -> len l <= 2 ^ 31) ->
  dense_is dd (index_width_from_len (len l)) d f -> (forall i, i < 2 ^ N.log2_up (len l) -> f i = nth (N.to_nat i) l 0) ->
  holds (ADense dd) (slice d l).
Proof.
  intros L L1 H F. rewrite log2_up_width in H. split.
  - unfold keyed, slice. cbn [r_writes r_iw]. apply Forall_forall. intros (k & x) He. apply in_combine_l in He.
    apply in_map_iff in He. destruct He as (j & <- & Hj). apply in_seq in Hj. cbn [fst].
    eapply N.lt_le_trans with (len l); [unfold len; lia|].
    rewrite <- log2_up_width. apply index_width_ok.
  - cbn [slice r_dense r_iw r_dw]. destruct (roomless _ _) eqn:R.
    + apply roomless_iff in R. destruct R as (R1 & R2). specialize (L1 R1). exfalso.
      assert (X := N.log2_up_le_mono _ _ L1). rewrite N.log2_up_pow2 in X by lia. lia.
    + exists dd. split; auto. eapply dense_ext; [exact H|]. intros i Hi.
      rewrite F by auto. symmetry. apply slice_elem.
Qed.

Lemma created_ok o : origin_range o ->
  match created o with
  | Some r => exists a, make Debug o = Ok a /\ holds a r
  | None => panics (make Debug o)
  end.
Proof.
  destruct o as [w d|w d|l|l|l]; cbn [created make origin_range].
  - intros (W & D). pose proof (new_dense_settles w d W D) as [(R & P)|(R & (a & E))].
    + rewrite <- refused_iff, <- roomless_iff, <- N.eqb_eq, <- andb_true_iff, <- orb_true_iff in R.
      rewrite R. exact P.
    + assert (T : ~ too_large w (width d)) by tauto.
      assert (R' := R). rewrite <- refused_iff, <- roomless_iff, <- N.eqb_eq, <- andb_true_iff, <- orb_true_iff in R'.
      apply not_true_is_false in R'. rewrite R'.
      exists a. split; auto. split; [constructor|]. cbn [r_dense r_iw r_dw]. destruct (roomless _ _) eqn:Ro.
      * assert (Ro' := Ro). apply roomless_iff in Ro'. destruct Ro' as (D1 & I32).
        unfold array_new_dense in E. rewrite new_many_bits in E; auto; [|now rewrite <- D1].
        assert (U1 : uval d <> 1). { intros X. apply R. right. split; [now split|auto]. }
        replace (uval d =? 1) with false in E by lia. cbn [bind] in E. injection E as <-. split; [reflexivity|].
        split; [|destruct (not_large_iw w (width d) D T); lia].
        intros i. unfold elem. cbn. assert (H := is_bv_lt _ _ _ (wf_is_bv d W)). rewrite D1 in H.
        change (2 ^ 1) with 2 in H. lia.
      * destruct (array_new_dense_inv Debug w d a W D) as (dd & -> & H); auto; [|now exists dd].
        apply not_large_addressable; auto. rewrite <- roomless_iff. congruence.
  - intros (W & D & I). destruct (array_new_sparse_ok Debug w d W D) as (s & E & H & B & _); [lia|].
    exists (ASparse s). split; auto. split; [constructor|]. cbn [r_dense r_iw r_dw r_base]. split; auto.
    exists s. auto.
  - intros L. destruct (from_bools_ok Debug l L) as (d & E & H). exists (ADense d). unfold array_from_bools.
    rewrite E. split; [reflexivity|]. set (l' := map _ l).
    assert (El : len l' = len l) by (unfold l', len; now rewrite map_length). rewrite <- El in H, L.
    eapply slice_holds; [lia|auto|exact H|]. intros i _.
    symmetry. exact (map_nth (fun b : bool => if b then 1 else 0) l false (N.to_nat i)).
  - intros (B & L). destruct (from_u8s_ok Debug l B L) as (d & E & H). exists (ADense d). unfold array_from_u8s.
    rewrite E. split; [reflexivity|]. eapply slice_holds; [lia|discriminate|exact H|auto].
  - intros (B & L). destruct (from_u64s_ok Debug l B L) as (d & E & H). exists (ADense d). unfold array_from_u64s.
    rewrite E. split; [reflexivity|]. eapply slice_holds; [lia|discriminate|exact H|auto].
Qed.

(** ** Reads *)
Lemma select_holds probe a r i : holds a r -> wf i ->
  if usable r i then array_select probe Debug a i = Ok (bv_of (r_dw r) (elem r (uval i)))
  else panics (array_select probe Debug a i).
Proof.
  intros H W. destruct (holds_type _ _ H) as (_ & T1 & T2). unfold usable.
  destruct (N.eqb_spec (width i) (r_iw r)) as [E|E]; cbn [andb].
  2:{ apply (mismatch_array_ops probe a i i). now rewrite T1. }
  assert (Y : forall v, yields v (r_dw r) (elem r (uval i)) -> v = Ok (bv_of (r_dw r) (elem r (uval i)))).
  { intros v (x & -> & Hx). f_equal. eapply is_bv_unique; [exact Hx|].
    destruct (is_bv_inv _ _ _ Hx) as (_ & X & _). apply bv_of_is_bv; [exact X|]. now apply (is_bv_lt _ _ _ Hx). }
  destruct H as (K & H). destruct (r_dense r); cbn [andb].
  - destruct (roomless _ _); cbn [negb].
    + destruct H as (-> & _). apply hollow_select.
    + destruct H as (d & -> & H). apply Y. now apply (dense_is_reads probe Debug d _ _ _ H).
  - cbn [negb]. destruct H as (I & s & -> & H & _). apply Y. now apply (sparse_is_reads probe Debug s _ _ _ H I).
Qed.

(** ** Writes *)
Lemma elem_write b w d ba i x l n :
  elem (mkmem b w d ba ((i, x) :: l)) n = if n =? i then x else elem (mkmem b w d ba l) n.
Proof. unfold elem. cbn [r_writes r_base find fst]. rewrite (N.eqb_sym i n). now destruct (n =? i). Qed.

Lemma change_holds probe ho a r c : hashing probe -> reorders ho -> holds a r ->
  match c with Store i x => wf i /\ wf x | _ => True end ->
  match changed r c with
  | Some r' => exists a', apply probe ho Debug a c = Ok a' /\ holds a' r'
  | None => panics (apply probe ho Debug a c)
  end.
Proof.
  intros P Ho H T. destruct (holds_type _ _ H) as (T0 & T1 & T2). destruct r as [rd rw dw rb ws].
  cbn [r_dense r_iw r_dw] in T0, T1, T2. destruct c as [i x| |]; cbn [changed apply r_dense r_iw r_dw r_base r_writes].
  - destruct T as (Wi & Wx). unfold usable. cbn [r_dense r_iw r_dw].
    destruct (N.eqb_spec (width i) rw) as [Ei|Ei]; cbn [andb].
    2:{ apply (mismatch_array_ops probe a i x). now rewrite T1. }
    destruct (N.eqb_spec (width x) dw) as [Ex|Ex].
    2:{ rewrite andb_false_r. apply mismatch_array_data. now rewrite T2. }
    rewrite andb_true_r. destruct H as (K & H). cbn [r_dense r_iw r_dw r_base] in H.
    assert (K' : keyed (mkmem rd rw dw rb ((uval i, uval x) :: ws))).
    { constructor; [|exact K]. cbn [fst r_iw]. rewrite <- Ei. apply (is_bv_lt _ _ _ (wf_is_bv i Wi)). }
    assert (L : arr_legal rw dw (AStore i x)) by (cbn [arr_legal]; auto).
    destruct rd; cbn [andb negb].
    + destruct (roomless rw dw) eqn:R; cbn [negb].
      * destruct H as (-> & _). apply hollow_store.
      * destruct H as (d & -> & H). destruct (dense_step probe Debug d rw dw _ _ H L) as (d' & E & H').
        exists (ADense d'). split; [exact E|]. split; [exact K'|]. cbn [r_dense r_iw r_dw]. rewrite R. exists d'.
        split; auto. eapply dense_ext; [exact H'|]. intros n _. rewrite elem_write. reflexivity.
    + destruct H as (I & s & -> & H & B). assert (H' := H). destruct H' as (W & E1 & E2 & F).
      destruct (sparse_store_ok probe Debug s i (uval i) x (uval x)) as (s' & E & Wr); auto.
      { lia. } { rewrite E1, <- Ei. now apply wf_is_bv. } { rewrite E2, <- Ex. now apply wf_is_bv. }
      exists (ASparse s'). cbn [array_store]. rewrite E. split; [reflexivity|]. split; [exact K'|].
      cbn [r_dense r_iw r_dw r_base]. split; auto. exists s'. split; auto. split.
      * eapply sparse_ext; [eapply wrote_is; eauto|]. intros n _. now rewrite elem_write.
      * destruct Wr as (_ & _ & _ & -> & _). exact B.
  - eexists. split; [reflexivity|]. destruct H as (K & H). split; [constructor|].
    cbn [r_dense r_iw r_dw r_base] in *. destruct rd.
    + destruct (roomless rw dw).
      * destruct H as (-> & _ & L). rewrite hollow_clear. split; [reflexivity|]. split; auto.
      * destruct H as (d & -> & H).
        destruct (dense_step probe Debug d rw dw _ AClear H I) as (d' & E & H'). 
        cbn [arr_run array_clear] in E. apply ok_inj in E.
        assert (E' : dense_clear d = d') by congruence. exists (dense_clear d). split; auto. rewrite E'. exact H'.
    + destruct H as (I' & s & -> & H & B). split; auto. exists (sparse_clear s). split; [reflexivity|]. split.
      * eapply sparse_ext; [eapply clear_is; exact H|]. intros n _. reflexivity.
      * apply sparse_clear_ok. apply H.
  - destruct rd.
    + exists a. split; auto. apply make_dense_same. auto.
    + destruct a as [s|d]; [|discriminate T0].
      assert (X := densify_holds ho _ s Ho H eq_refl). cbn [r_iw r_dw r_base r_writes] in X. cbn [array_make_dense].
      destruct (stuck _).
      * now apply panics_bind.
      * destruct X as (d & E & X). exists (ADense d). rewrite E. auto.
Qed.

(** ** Comparison *)
Lemma bool_eq (b c : bool) : (b = true <-> c = true) -> b = c.
Proof. destruct b, c; intros (H & K); auto. symmetry. auto. Qed.

Lemma type_differs ho a b r s : holds a r -> holds b s -> (r_iw r =? r_iw s) && (r_dw r =? r_dw s) = false ->
  array_is_equal ho Debug a b = Ok None.
Proof.
  intros Ha Hb E. destruct (holds_type _ _ Ha) as (_ & A1 & A2), (holds_type _ _ Hb) as (_ & B1 & B2).
  assert (X : array_index_width a <> array_index_width b \/ array_data_width a <> array_data_width b) by lia.
  clear - X. destruct a as [sa|da], b as [sb|db]; cbn [array_index_width array_data_width array_is_equal] in *.
  - unfold sparse_is_equal. replace (negb (s_iw sb =? s_iw sa) || negb (s_dw sb =? s_dw sa)) with true by lia. auto.
  - unfold is_equal_mixed. replace (negb (d_iw db =? s_iw sa) || negb (d_dw db =? s_dw sa)) with true by lia. auto.
  - unfold is_equal_mixed. replace (negb (d_iw da =? s_iw sb) || negb (d_dw da =? s_dw sb)) with true by lia. auto.
  - unfold dense_is_equal. replace (negb (d_iw db =? d_iw da) || negb (d_dw db =? d_dw da)) with true by lia. auto.
Qed.

Lemma dense_equal_holds a b r s : holds (ADense a) r -> holds (ADense b) s ->
  r_iw r = r_iw s -> r_dw r = r_dw s -> dense_is_equal Debug a b = Ok (Some (same_elements r s)).
Proof.
  intros Ha Hb E1 E2. assert (D1 := proj1 (holds_type _ _ Ha)). assert (D2 := proj1 (holds_type _ _ Hb)).
  cbn [array_is_dense] in D1, D2. destruct Ha as (_ & Ha), Hb as (_ & Hb). rewrite <- D1 in Ha. rewrite <- D2 in Hb.
  rewrite <- E1, <- E2 in Hb. destruct (roomless _ _).
  - destruct Ha as (Ea & Za & _), Hb as (Eb & Zb & _). injection Ea as ->. injection Eb as ->. rewrite hollow_equal.
    do 2 f_equal. symmetry. apply same_elements_iff. intros i _. now rewrite Za, Zb.
  - destruct Ha as (a' & Ea & (Wa & Ia & Da & Fa)), Hb as (b' & Eb & (Wb & Ib & Db & Fb)).
    injection Ea as <-. injection Eb as <-.
    destruct (dense_equal_ok Debug a b (r_iw r) (r_dw r)) as (c & -> & Hc); auto. do 2 f_equal. apply bool_eq.
    rewrite Hc, same_elements_iff. unfold same_contents.
    split; intros H i Hi; specialize (H i Hi); [rewrite Fa, Fb in H by auto|rewrite Fa, Fb by auto]; exact H.
Qed.

Lemma same_elements_sym r s : r_iw r = r_iw s -> same_elements r s = same_elements s r.
Proof.
  intros E. apply bool_eq. rewrite !same_elements_iff, E. unfold same_contents. split; intros H i Hi; symmetry; auto.
Qed.

Lemma mixed_equal_holds ho d s r q : reorders ho -> holds (ADense d) r -> holds (ASparse s) q ->
  r_iw r = r_iw q -> r_dw r = r_dw q ->
  if stuck q then panics (is_equal_mixed ho Debug d s)
  else is_equal_mixed ho Debug d s = Ok (Some (same_elements q r)).
Proof.
  intros Ho Hd Hs E1 E2. destruct (holds_type _ _ Hd) as (_ & D1 & D2), (holds_type _ _ Hs) as (S0 & S1 & S2).
  cbn [array_index_width array_data_width array_is_dense] in *. unfold is_equal_mixed.
  replace (negb (d_iw d =? s_iw s) || negb (d_dw d =? s_dw s)) with false by lia.
  assert (X := densify_holds ho q s Ho Hs (eq_sym S0)). destruct (stuck q); [now apply panics_bind|].
  destruct X as (d' & -> & X). cbn [bind]. exact (dense_equal_holds d' d _ _ X Hd (eq_sym E1) (eq_sym E2)).
Qed.

Lemma compare_holds ho a b r s : reorders ho -> holds a r -> holds b s ->
  match array_is_equal ho Debug a b with Ok x => Answered x | Panic _ => Panicked end = compared r s.
Proof.
  intros Ho Ha Hb. unfold compared. destruct ((r_iw r =? r_iw s) && (r_dw r =? r_dw s)) eqn:E.
  2:{ now rewrite (type_differs ho a b r s). }
  assert (E1 : r_iw r = r_iw s) by lia. assert (E2 : r_dw r = r_dw s) by lia.
  destruct (holds_type _ _ Ha) as (<- & _), (holds_type _ _ Hb) as (<- & _).
  destruct a as [sa|da], b as [sb|db]; cbn [array_is_dense array_is_equal].
  - assert (Da := proj1 (holds_type _ _ Ha)). assert (Db := proj1 (holds_type _ _ Hb)).
    cbn [array_is_dense] in Da, Db. destruct Ha as (_ & Ha), Hb as (_ & Hb). rewrite <- Da in Ha. rewrite <- Db in Hb.
    destruct Ha as (_ & a' & Ea & Ha & Ba), Hb as (_ & b' & Eb & Hb & Bb). injection Ea as <-. injection Eb as <-.
    rewrite <- E1, <- E2 in Hb. assert (Ha' := Ha). assert (Hb' := Hb).
    destruct Ha' as (Wa & Ia & Dwa & _), Hb' as (Wb & Ib & Dwb & _).
    destruct (sparse_equal_ok Debug sa sb (r_iw r) (r_dw r)) as (c & -> & Hc); auto.
    rewrite (sparse_equal_contents sa sb _ _ _ _ Ha Hb) in Hc. do 2 f_equal. apply bool_eq.
    rewrite Hc, andb_true_iff, N.eqb_eq, same_elements_iff, Ba, Bb. reflexivity.
  - assert (X := mixed_equal_holds ho db sa s r Ho Hb Ha (eq_sym E1) (eq_sym E2)). destruct (stuck r).
    + now destruct X as (p & ->).
    + now rewrite X.
  - assert (X := mixed_equal_holds ho da sb r s Ho Ha Hb E1 E2). destruct (stuck s).
    + now destruct X as (p & ->).
    + rewrite X. now rewrite same_elements_sym.
  - now rewrite (dense_equal_holds da db r s).
Qed.

(** ** Reloading *)
Lemma reload_holds order a r : reorders order -> holds a r ->
  exists a', de_array (ser_array order a) = Some a' /\ holds a' r.
Proof.
  intros Or (K & H). unfold holds. destruct (r_dense r).
  - destruct (roomless _ _).
    + destruct H as (-> & Z & L). exists (hollow (r_iw r)). split; [|auto]. unfold hollow. cbn.
      replace (r_iw r <? B32) with true by (unfold B32; lia). reflexivity.
    + destruct H as (d & -> & H). destruct (reload_inv order (ADense d) _ _ _ Or H) as (a' & E & I & D).
      destruct a' as [|d']; [easy|]. exists (ADense d'). split; auto. split; auto. exists d'. auto.
  - destruct H as (L & s & -> & H & B). destruct (reload_inv order (ASparse s) _ _ _ Or H) as (a' & E & I & D).
    destruct a' as [s'|]; [|easy]. exists (ASparse s'). split; auto. split; auto. split; auto. exists s'.
    split; auto. split; auto. congruence.
Qed.

(** ** Programs *)
Definition agree (env : N -> option array) (ref : N -> option memory) : Prop :=
  forall k, match env k, ref k with Some a, Some r => holds a r | None, None => True | _, _ => False end.

Lemma agree_update env ref k a r : agree env ref -> holds a r -> agree (update env k a) (update ref k r).
Proof. intros A H j. unfold update. destruct (j =? k); [exact H|apply A]. Qed.
Lemma agree_keep env ref k a : agree env ref -> env k = Some a -> agree (update env k a) ref.
Proof.
  intros A E j. unfold update. destruct (N.eqb_spec j k) as [->|]; [|apply A]. specialize (A k). now rewrite E in A.
Qed.

Lemma step_ok probe ho order env ref c : hashing probe -> reorders ho -> reorders order ->
  agree env ref -> acall_range c ->
  snd (perform1 probe ho order Debug env c) = snd (predict1 ref c)
  /\ agree (fst (perform1 probe ho order Debug env c)) (fst (predict1 ref c)).
Proof.
  intros P Ho Or A T. destruct c as [k o|k j|k i|k c|k j|k|k]; cbn [perform1 predict1 acall_range] in *.
  - assert (X := created_ok o T). destruct (created o) as [r|].
    + destruct X as (a & -> & H). split; [reflexivity|]. now apply agree_update.
    + destruct X as (p & ->). auto.
  - assert (X := A j). destruct (env j) as [a|], (ref j) as [r|]; try easy. split; [reflexivity|].
    now apply agree_update.
  - assert (X := A k). destruct (env k) as [a|], (ref k) as [r|]; try easy. split; [|exact A]. cbn [snd].
    assert (Y := select_holds probe a r i X T). destruct (usable r i); [now rewrite Y|]. now destruct Y as (p & ->).
  - assert (X := A k). destruct (env k) as [a|] eqn:Ek, (ref k) as [r|]; try easy.
    assert (Y := change_holds probe ho a r c P Ho X T). assert (S := same_change probe ho Debug a c).
    destruct (change_call probe ho Debug c a) as [a' ?|a' p].
    + rewrite S in Y. destruct (changed r c) as [r'|].
      * destruct Y as (a2 & E & H). apply ok_inj in E. subst a2. split; [reflexivity|]. now apply agree_update.
      * destruct Y as (q & Y). discriminate Y.
    + destruct S as (S & ->). rewrite S in Y. destruct (changed r c) as [r'|].
      * destruct Y as (a2 & E & _). discriminate E.
      * split; [reflexivity|]. now apply agree_keep.
  - assert (X := A k). assert (Y := A j).
    destruct (env k) as [a|], (ref k) as [r|]; try easy. destruct (env j) as [b|], (ref j) as [s|]; try easy.
    split; [|exact A]. cbn [snd]. now apply compare_holds.
  - assert (X := A k). destruct (env k) as [a|], (ref k) as [r|] eqn:Ek; try easy.
    destruct (reload_holds order a r Or X) as (a' & -> & X'). split; [reflexivity|].
    intros j. cbn [fst]. unfold update. destruct (N.eqb_spec j k) as [->|]; [now rewrite Ek|apply A].
  - assert (X := A k). destruct (env k) as [a|], (ref k) as [r|]; try easy. split; [|exact A]. cbn [snd].
    destruct (holds_type _ _ X) as (-> & -> & ->). reflexivity.
Qed.

Lemma perform_ok probe ho order cs : hashing probe -> reorders ho -> reorders order -> Forall acall_range cs ->
  perform probe ho order Debug cs = predict cs.
Proof.
  intros P Ho Or. unfold perform, predict.
  assert (G : forall cs env ref, agree env ref -> Forall acall_range cs ->
    perform_from probe ho order Debug env cs = predict_from ref cs).
  { clear cs. induction cs as [|c cs IH]; intros env ref A T; [reflexivity|]. cbn [perform_from predict_from].
    inversion_clear T as [|? ? T1 T2]. destruct (step_ok probe ho order env ref c P Ho Or A T1) as (E & A').
    destruct (perform1 probe ho order Debug env c) as [e1 o1], (predict1 ref c) as [e2 o2]. cbn [fst snd] in *.
    rewrite E. f_equal. now apply IH. }
  apply G. intros k. exact I.
Qed.

(** A release build does the same where nothing panics. *)
Lemma step_release probe ho order env c : snd (perform1 probe ho order Debug env c) <> Panicked ->
  perform1 probe ho order Release env c = perform1 probe ho order Debug env c.
Proof.
  intros H. destruct c as [k o|k j|k i|k c|k j|k|k]; cbn [perform1] in *; auto.
  - assert (L : forall a, make Debug o = Ok a -> make Release o = Ok a).
    { intros a. destruct o as [w d|w d|l|l|l]; cbn [make];
        [apply (profile_arrays ho probe w d (hollow 0) (hollow 0) d)
        |apply (profile_arrays ho probe w d (hollow 0) (hollow 0) d)
        |apply (profile_arrays ho probe 0 (bv_zero 0) (hollow 0) (hollow 0) (bv_zero 0))..]. }
    destruct (make Debug o) as [a|]; [|now contradict H]. now rewrite (L a eq_refl).
  - destruct (env k) as [a|]; auto. cbn [snd] in H.
    assert (L := proj1 (proj1 (proj2 (profile_arrays ho probe 0 (bv_zero 0) a a i)))).
    destruct (array_select probe Debug a i) as [v|] eqn:E; [|now contradict H]. now rewrite (L v E).
  - destruct (env k) as [a|]; auto.
    assert (S := same_change probe ho Debug a c). assert (S' := same_change probe ho Release a c).
    assert (L : forall x, apply probe ho Debug a c = Ok x -> apply probe ho Release a c = Ok x).
    { intros x. destruct c as [i v| |]; cbn [apply]; auto.
      - apply (profile_arrays ho probe 0 v a a i).
      - apply (profile_arrays ho probe 0 (bv_zero 0) a a (bv_zero 0)). }
    destruct (change_call probe ho Debug c a) as [a1 []|a1 p]; [|now contradict H].
    rewrite (L a1 S) in S'. destruct (change_call probe ho Release c a) as [a2 []|a2 q].
    + apply ok_inj in S'. now subst.
    + now destruct S'.
  - destruct (env k) as [a|]; auto. destruct (env j) as [b|]; auto. cbn [snd] in H.
    assert (L := proj1 (proj1 (proj2 (proj2 (proj2 (profile_arrays ho probe 0 (bv_zero 0) a b (bv_zero 0))))))).
    destruct (array_is_equal ho Debug a b) as [v|] eqn:E; [|now contradict H]. now rewrite (L v E).
Qed.

Lemma perform_release probe ho order cs : hashing probe -> reorders ho -> reorders order -> Forall acall_range cs ->
  ~ In Panicked (predict cs) -> perform probe ho order Release cs = predict cs.
Proof.
  intros P Ho Or T. rewrite <- (perform_ok probe ho order cs P Ho Or T). unfold perform. generalize (fun _ : N => @None array).
  clear T. induction cs as [|c cs IH]; intros env; [reflexivity|]. cbn [perform_from]. intros N.
  assert (X : snd (perform1 probe ho order Debug env c) <> Panicked).
  { destruct (perform1 probe ho order Debug env c) as [e o]. intros X. apply N. now left. }
  rewrite (step_release probe ho order env c X). destruct (perform1 probe ho order Debug env c) as [e o]. f_equal. apply IH.
  intros Y. apply N. now right.
Qed.

Lemma array_interp_example :
  let i n := bv_of 2 n in
  let x n := bv_of 65 n in
  let cs := [New 0 (NewSparse 2 (x 7)); Change 0 (Store (i 1) (x (2 ^ 64))); Select 0 (i 1);
             Change 0 MakeDense; Copy 1 0; Select 0 (i 1); Change 0 (Store (i 1) (x 7));
             Compare 0 1; Change 0 MakeDense; Describe 0; Describe 1; Compare 0 1;
             Reload 0; Reload 1; Change 1 Clear; Change 0 Clear; Compare 0 1; Select 0 (x 1); Select 5 (i 0);
             New 2 (OfU8s [3; 1; 4; 1; 5]); Reload 2; Select 2 (bv_of 3 4); Select 2 (bv_of 3 6); Compare 2 0;
             New 3 (NewDense 32 (bv_of 1 0)); Reload 3; Select 3 (bv_of 32 5);
             New 3 (NewDense 28 (bv_of 64 0)); Describe 3;
             New 4 (NewSparse 0 (bv_of 8 9)); New 5 (NewSparse 0 (bv_of 8 8));
             Change 5 (Store (bv_of 0 0) (bv_of 8 9)); Compare 4 5; Change 5 MakeDense; Compare 4 5] in
  Forall acall_range cs
  /\ predict cs =
     [Done; Done; Saw (x (2 ^ 64)); Panicked; Done; Saw (x (2 ^ 64)); Done;
      Answered (Some false); Done; Described true 2 65; Described false 2 65; Panicked;
      Done; Done; Done; Done; Answered (Some true); Panicked; Missing;
      Done; Done; Saw (bv_of 8 5); Saw (bv_of 8 0); Answered None;
      Done; Done; Panicked; Panicked; Described true 32 1;
      Done; Done; Done; Answered (Some false); Done; Answered (Some true)]
  /\ perform some_probe (fun _ l => rev l) (fun _ l => l) Debug cs = predict cs.
Proof.
  cbv zeta. match goal with |- Forall _ ?l /\ _ => assert (T : Forall acall_range l) end.
  { repeat (apply Forall_cons || apply Forall_nil); cbn [acall_range origin_range]; auto;
      repeat match goal with
        | |- _ /\ _ => split
        | |- Forall _ _ => repeat constructor
        | |- wf (bv_of ?w ?n) => apply (bv_of_is_bv w n ltac:(reflexivity) ltac:(reflexivity))
        | |- _ <= _ => vm_compute; discriminate
        | |- _ < _ => reflexivity
        end. }
  split; [exact T|]. split; [vm_compute; reflexivity|]. apply perform_ok; auto; [apply some_probe_hashing| |].
  - intros A l. apply Permutation_rev.
  - intros A l. apply Permutation_refl.
Qed.
