(** * PLoadConvert: loaded sparse arrays made dense (C99). *)

From Coq Require Import ZifyBool ZifyNat ZifyN Permutation.
From Verif Require Import Base Arith Map Bv Array Spec ArraySpec CallSpec PanicSpec MixedSpec LoadSpec LoadArraySpec LoadSparseSpec.
From Verif Require Import PWords PArith PShift PConv PStore PMixed PShape PLoad PLoadArray PLoadSparse.
Ltac Zify.zify_post_hook ::= idtac.
Open Scope list_scope.
Open Scope N_scope.

(** one entry *)
Lemma densify_step m d k v : loaded_dense d -> v < 2 ^ 64 ->
  (fits m d (k, v) ->
     exists data', densify_step_u64 (d_data d) (k, v) m = Ok data'
       /\ let d' := mkdense (d_iw d) (d_dw d) data' in
          loaded_dense d' /\ alike d d'
          /\ forall t, t < cells d -> cell d' t = if t =? place_of d k then put_number d v else cell d t)
  /\ (~ fits m d (k, v) -> panics (densify_step_u64 (d_data d) (k, v) m)).
Proof.
  intros (Hi & Hd & F) Hv. unfold fits, place_of, put_number, alike, same_kind, cells, cell, loaded_dense, densify_step_u64.
  cbn [fst snd d_iw d_dw d_data]. destruct (d_data d) as [b|l|l|l].
  - unfold as_u32. rewrite B32_eq. set (p := k mod 2 ^ 32). destruct (set_bit_load b p F) as (S1 & S2).
    destruct (N.ltb_spec p (64 * count b)) as [L|L].
    2:{ split; [intros (H & _); now apply N.lt_nge in H|]. intros _. destruct S1 as (q1 & ->), S2 as (q2 & ->).
        destruct (v =? 1); [eexists; reflexivity|].
        destruct (debug_assert m (v =? 0)); eexists; reflexivity. }
    assert (Fin : forall (bit : bool) r,
      keeps_words r b (Some (if bit then N.setbit (uval b) p else N.clearbit (uval b) p)) ->
      exists data', (let* b := r in Ok (DBit b)) = Ok data'
        /\ (d_iw d < 2 ^ 32 /\ d_dw d < 2 ^ 32 /\
            match data' with DBit v => loaded v | DU8 l => Forall (fun x => x < 256) l
            | DU64 l | DBig l => Forall (fun x => x < 2 ^ 64) l end)
        /\ (match data' with DBit b' => width b = width b' | _ => False end /\ d_iw d = d_iw d /\ d_dw d = d_dw d
            /\ match data' with DBit v => 64 * count v | DU8 l | DU64 l | DBig l => len l end = 64 * count b)
        /\ forall t, t < 64 * count b ->
           match data' with DBit v => N.b2n (N.testbit (uval v) t) | DU8 l | DU64 l | DBig l => nth (N.to_nat t) l 0 end
           = if t =? p then N.b2n bit else N.b2n (N.testbit (uval b) t)).
    { intros bit r (b' & -> & Lb & W & C & U). cbn [bind]. eexists. split; [reflexivity|]. split; [auto|].
      split; [rewrite C; auto|]. intros t _. rewrite U. destruct (N.eqb_spec t p) as [->|N'].
      - destruct bit; [now rewrite N.setbit_eq|now rewrite N.clearbit_eq].
      - destruct bit; [rewrite N.setbit_neq by auto|rewrite N.clearbit_neq by auto]; reflexivity. }
    destruct (N.eqb_spec v 1) as [->|V1].
    + split; [|intros H; elim H; split; auto; right; reflexivity]. intros _. exact (Fin true _ S1).
    + destruct (N.eqb_spec v 0) as [->|V0].
      * replace (debug_assert m true) with (Ok tt) by (destruct m; reflexivity). cbn [bind].
        split; [|intros H; elim H; split; auto; right; reflexivity]. intros _. exact (Fin false _ S2).
      * destruct m; cbn [debug_assert assert bind].
        -- split; [intros (_ & [H|H]); [discriminate|clear - H V1 V0; lia]|]. intros _. eexists. reflexivity.
        -- split; [|intros H; elim H; split; auto]. intros _. exact (Fin false _ S2).
  - destruct (N.ltb_spec k (len l)) as [L|L].
    2:{ split; [intros H; now apply N.lt_nge in H|]. intros _. rewrite set_idx_panic by auto. eexists. reflexivity. }
    split; [|intros H; now elim H]. intros _. rewrite set_idx_ok by auto. cbn [bind].
    eexists. split; [reflexivity|]. cbn beta iota zeta. cbn [d_data d_iw d_dw].
    split; [split; [auto|split; [auto|]]|].
    { apply Forall_set; auto. unfold as_u8. now apply N.mod_lt. }
    split; [repeat split; now apply len_set|].
    intros t _. rewrite nth_set, N2Nat.id by auto. unfold as_u8.
    destruct (N.eqb_spec t k) as [->|E].
    + replace ((k <=? k) && (k <? k + 1)) with true by (clear; lia). reflexivity.
    + replace ((k <=? t) && (t <? k + 1)) with false by (clear - E; lia). reflexivity.
  - destruct (N.ltb_spec k (len l)) as [L|L].
    2:{ split; [intros H; now apply N.lt_nge in H|]. intros _. rewrite set_idx_panic by auto. eexists. reflexivity. }
    split; [|intros H; now elim H]. intros _. rewrite set_idx_ok by auto. cbn [bind].
    eexists. split; [reflexivity|]. cbn beta iota zeta. cbn [d_data d_iw d_dw].
    split; [split; [auto|split; [auto|]]|].
    { now apply Forall_set. }
    split; [repeat split; now apply len_set|].
    intros t _. rewrite nth_set, N2Nat.id by auto.
    destruct (N.eqb_spec t k) as [->|E].
    + replace ((k <=? k) && (k <? k + 1)) with true by (clear; lia). reflexivity.
    + replace ((k <=? t) && (t <? k + 1)) with false by (clear - E; lia). reflexivity.
  - split; [intros []|]. intros _. eexists. reflexivity.
Qed.

Lemma alike_fits m d d' e : alike d d' -> (fits m d' e <-> fits m d e).
Proof.
  intros (K & _ & _ & C). unfold fits, same_kind in *. rewrite C.
  destruct (d_data d), (d_data d'); easy.
Qed.
Lemma alike_place d d' k : alike d d' -> place_of d' k = place_of d k.
Proof. intros (K & _). unfold place_of, same_kind in *. destruct (d_data d), (d_data d'); easy. Qed.
Lemma alike_put d d' v : alike d d' -> put_number d' v = put_number d v.
Proof. intros (K & _). unfold put_number, same_kind in *. destruct (d_data d), (d_data d'); easy. Qed.

Lemma densify_all m l : forall d, loaded_dense d -> (forall k v, In (k, v) l -> v < 2 ^ 64) ->
  let r := foldM (fun dd kv => densify_step_u64 dd kv m) l (d_data d) in
  (Forall (fits m d) l ->
     exists data', r = Ok data'
       /\ let d' := mkdense (d_iw d) (d_dw d) data' in loaded_dense d' /\ overwritten d l d')
  /\ (~ Forall (fits m d) l -> panics r).
Proof.
  induction l as [|[k v] l IH]; intros d Ld Hl r.
  - split; [|intros H; now elim H]. intros _. exists (d_data d). split; [reflexivity|].
    replace (mkdense (d_iw d) (d_dw d) (d_data d)) with d by (now destruct d). split; auto.
    destruct (alike_refl d) as (K & A). split; auto. repeat split; auto; try apply A.
  - subst r. cbn [foldM]. destruct (densify_step m d k v Ld) as (S1 & S2); [apply (Hl k v); now left|].
    assert (Dec : fits m d (k, v) \/ ~ fits m d (k, v)).
    { unfold fits. generalize (cells d). intros c. cbn [fst snd].
      assert (Lt : forall a b, a < b \/ ~ a < b)
        by (intros a b; destruct (N.lt_ge_cases a b); [now left|right; now apply N.le_ngt]).
      destruct (d_data d); [|apply Lt|apply Lt|tauto].
      destruct (Lt (k mod 2 ^ 32) c), (Lt v 2), m; try tauto.
      right. intros (_ & [E|E]); [discriminate|tauto]. }
    destruct Dec as [Y|Y].
    2:{ destruct (S2 Y) as (q & ->). split; [|intros _; eexists; reflexivity].
        intros H. inversion H; subst. now elim Y. }
    destruct (S1 Y) as (data1 & -> & L1 & A & V1). cbn [bind].
    set (d1 := mkdense (d_iw d) (d_dw d) data1) in *.
    destruct (IH d1 L1) as (IH1 & IH2); [intros k' v' H; apply (Hl k' v'); now right|].
    change (d_data d1) with data1 in *. change (d_iw d1) with (d_iw d) in *. change (d_dw d1) with (d_dw d) in *.
    assert (Acc : Forall (fits m d1) l <-> Forall (fits m d) l).
    { apply Forall_iff_h. intros e. now apply alike_fits. }
    split.
    + intros H. inversion H as [|? ? _ H']; subst. apply Acc in H'.
      destruct (IH1 H') as (data' & -> & L' & O). exists data'. split; [reflexivity|]. split; [exact L'|].
      set (d' := mkdense (d_iw d) (d_dw d) data') in *. destruct O as (K & I & W & C & O).
      assert (A' : alike d1 d') by (unfold alike; auto).
      destruct (alike_trans _ _ _ A A') as (K2 & I2 & W2 & C2).
      split; [exact K2|]. split; [exact I2|]. split; [exact W2|]. split; [exact C2|].
      intros t Ht. assert (Ht1 : t < cells d1) by (destruct A as (_ & _ & _ & ->); exact Ht).
      destruct (O t Ht1) as [(E & N)|(k' & v' & I' & P & E)].
      * rewrite V1 in E by exact Ht. destruct (N.eqb_spec t (place_of d k)) as [->|D].
        -- right. exists k, v. split; [now left|]. auto.
        -- left. split; [exact E|]. intros k' v' [[= <- <-]|I']; [auto|].
           rewrite <- (alike_place d d1) by exact A. now apply (N k' v').
      * right. exists k', v'. split; [now right|]. rewrite (alike_place d d1) in P by exact A.
        rewrite (alike_put d d1) in E by exact A. auto.
    + intros H. apply IH2. intros H'. apply H. constructor; [exact Y|now apply Acc].
Qed.

(** the new array *)
Lemma dense_new_loaded m iw x d : iw < 2 ^ 32 -> loaded x -> dense_new m iw x = Ok d ->
  loaded_dense d /\ d_iw d = iw /\ d_dw d = width x.
Proof.
  intros Hi (Hw & F) H. unfold dense_new in H.
  destruct (approx_dense_storage_size m iw (width x)) as [z|]; [|discriminate]. cbn [bind] in H.
  destruct (debug_assert m _); [|discriminate]. cbn [bind] in H.
  destruct (u64_shl1 m iw) as [n|]; [|discriminate]. cbn [bind] in H.
  match type of H with bind ?r _ = _ => destruct r as [data|] eqn:E; [|discriminate] end.
  cbn [bind] in H. injection H as <-. cbn [d_iw d_dw]. split; [|auto].
  split; [exact Hi|]. split; [exact Hw|]. cbn [d_data].
  assert (W32 : as_u32 n < 2 ^ 32) by (unfold as_u32; rewrite B32_eq; apply mod_lt).
  assert (Lx : loaded x) by (split; auto).
  destruct (width x =? 1).
  { destruct (bv_is_tru x) as [[|]|]; cbn [bind] in E; [| |discriminate].
    - destruct (bv_ones m (as_u32 n)) as [o|] eqn:O; [|discriminate]. cbn [bind] in E. injection E as <-.
      destruct (N.eq_dec (as_u32 n) 0) as [Z|Z].
      { rewrite Z in O. destruct m; discriminate. }
      destruct (ones_ok m (as_u32 n)) as (o' & O' & B); [clear - Z; lia|exact W32|].
      rewrite O in O'. injection O' as <-. apply is_bv_inv in B as (W & Hw' & L & Fo & _).
      split; [now rewrite W|exact Fo].
    - match type of E with bind ?r _ = _ => destruct r; [|discriminate] end. cbn [bind] in E. injection E as <-.
      destruct (zero_shaped (as_u32 n) W32) as ((A & _ & B) & _). split; [exact A|exact B]. }
  destruct (answers_load x Lx) as (_ & U & _). rewrite U in E.
  destruct (width x <=? 8).
  { destruct (N.ltb_spec (uval x) (2 ^ 64)) as [B|B]; [|discriminate]. cbn [unwrap bind] in E.
    destruct (capacity n); [|discriminate]. cbn [bind] in E. injection E as <-.
    apply Forall_forall. intros y Hy. apply repeat_spec in Hy. subst y. unfold as_u8. now apply N.mod_lt. }
  destruct (width x <=? 64).
  { destruct (N.ltb_spec (uval x) (2 ^ 64)) as [B|B]; [|discriminate]. cbn [unwrap bind] in E.
    destruct (capacity (8 * n)); [|discriminate]. cbn [bind] in E. injection E as <-.
    apply Forall_forall. intros y Hy. apply repeat_spec in Hy. now subst y. }
  destruct (usz_mul m n (len (words x))); [|discriminate]. cbn [bind] in E.
  destruct (capacity _); [|discriminate]. cbn [bind] in E. injection E as <-.
  apply Forall_concat. apply Forall_forall. intros y Hy. apply repeat_spec in Hy. now subst y.
Qed.

Lemma densify_load ho m s d l : reorders ho -> loaded_sparse s -> s_data s = SU64U64 d l ->
  match (let* x := sparse_default m s in dense_new m (s_iw s) x) with
  | Panic _ => panics (dense_of_sparse ho m s)
  | Ok d0 =>
      (Forall (fits m d0) l ->
         exists d', dense_of_sparse ho m s = Ok d' /\ loaded_dense d' /\ overwritten d0 l d')
      /\ (~ Forall (fits m d0) l -> panics (dense_of_sparse ho m s))
  end.
Proof.
  intros Ho Ls D. pose proof (sparse_default_load m s Ls) as Df. unfold load_sparse_default in Df.
  unfold dense_of_sparse. rewrite D in *. destruct Ls as (Hi & Hd & F). rewrite D in F. destruct F as (_ & _ & F).
  destruct (sparse_default m s) as [x|q]; cbn [bind]; [|eexists; reflexivity].
  assert (Lx : loaded x /\ width x = s_dw s).
  { destruct (read_number m (s_dw s) d) as [n|].
    - destruct Df as (x' & [= <-] & (A & _ & B) & W & _). split; [split; auto|exact W].
    - destruct Df as (q & Df). discriminate. }
  destruct Lx as (Lx & Wx).
  destruct (dense_new m (s_iw s) x) as [d0|q] eqn:N; cbn [bind]; [|eexists; reflexivity].
  destruct (dense_new_loaded m (s_iw s) x d0 Hi Lx N) as (L0 & I0 & W0).
  rewrite I0, W0, Wx, !N.eqb_refl. replace (debug_assert m true) with (Ok tt) by (destruct m; reflexivity).
  cbn [bind].
  assert (P : Permutation l (ho _ l)) by apply Ho.
  destruct (densify_all m (ho _ l) d0 L0) as (A1 & A2).
  { intros k v H. apply (Permutation_in _ (Permutation_sym P)) in H. now apply F in H. }
  assert (Acc : Forall (fits m d0) (ho _ l) <-> Forall (fits m d0) l).
  { split; apply Permutation_Forall; [now apply Permutation_sym|exact P]. }
  split.
  - intros H. apply Acc in H. destruct (A1 H) as (data' & -> & L' & K & I & W & C & O). cbn [bind].
    rewrite I0, W0, Wx in *. eexists. split; [reflexivity|]. split; [exact L'|].
    split; [exact K|]. split; [cbn [d_iw]; congruence|]. split; [cbn [d_dw]; congruence|]. split; [exact C|].
    intros t Ht. destruct (O t Ht) as [(E & G)|(k & v & G & E)].
    + left. split; [exact E|]. intros k v J. apply (G k v). now apply (Permutation_in _ P).
    + right. exists k, v. split; [|exact E]. now apply (Permutation_in _ (Permutation_sym P)).
  - intros H. assert (H' : ~ Forall (fits m d0) (ho _ l)) by tauto. destruct (A2 H') as (q & ->). eexists. reflexivity.
Qed.

(** ** Elements kept as bit-vectors *)

Lemma clear_shaped v : well_shaped v -> bv_clear v = bv_zero (width v).
Proof.
  intros (Hw & L & F). unfold bv_clear, bv_zero, value_vec_zeros. f_equal.
  destruct (zero_shaped (width v) Hw) as ((_ & Lz & _) & _). unfold bv_zero, value_vec_zeros in Lz. cbn [words width] in Lz.
  unfold len in *. rewrite repeat_length in Lz. revert L. rewrite <- Lz. intros L.
  apply Nat2N.inj in L. rewrite <- L. clear. induction (words v) as [|x l IH]; cbn [map length repeat]; congruence.
Qed.

Lemma reuse_index m v k : well_shaped v -> bv_assign_from_u64 m v k = bv_from_u64 m k (width v).
Proof.
  intros S. unfold bv_from_u64, bv_assign_from_u64. rewrite clear_shaped by auto.
  destruct S as (Hw & _). destruct (zero_shaped (width v) Hw) as (Sz & Wz & _).
  now rewrite (clear_shaped (bv_zero (width v))), Wz by auto.
Qed.

Lemma densify_big m w l : w < 2 ^ 32 -> (forall k v, In (k, v) l -> k < 2 ^ 64) ->
  forall d ib, well_shaped ib -> width ib = w ->
  let r := (let* (d, _) := foldM (densify_step_big m) l (d, ib) in Ok d) in
  (exists ops, Forall2 (fun e op => reads_as m w (fst e) (fst op) /\ snd op = snd e) l ops
     /\ r = foldM (fun d op => dense_store m d (fst op) (snd op)) ops d)
  \/ (panics r /\ exists k v, In (k, v) l /\ read_number m w k = None).
Proof.
  intros Hw. induction l as [|[k v] l IH]; intros Hk d ib S W r.
  - left. exists []. split; [constructor|reflexivity].
  - subst r. cbn [foldM]. unfold densify_step_big at 1 3. cbn [fst snd]. rewrite reuse_index, W by auto.
    destruct (read_cases m w k) as [(i & E & R)|((q & E) & R)]; [apply (Hk k v); now left|exact Hw| |].
    2:{ right. rewrite E. split; [eexists; reflexivity|]. exists k, v. split; [now left|exact R]. }
    rewrite E. cbn [bind]. pose proof R as (Si & Wi & _).
    destruct (dense_store m d i v) as [d1|q] eqn:St; cbn [bind].
    + destruct (IH (fun a b H => Hk a b (or_intror H)) d1 i Si Wi) as [(ops & F & G)|(G & k' & v' & I & N)].
      * left. exists ((i, v) :: ops). split; [constructor; auto|]. cbn [foldM fst snd]. rewrite St. cbn [bind]. exact G.
      * right. split; [exact G|]. exists k', v'. split; [now right|exact N].
    + (* the store panics: what comes after it does not matter *)
      assert (Rest : (exists ops, Forall2 (fun e op => reads_as m w (fst e) (fst op) /\ snd op = snd e) l ops)
                     \/ exists k' v', In (k', v') l /\ read_number m w k' = None).
      { clear - Hw Hk. induction l as [|[k' v'] l IH]; [left; exists []; constructor|].
        destruct (read_cases m w k') as [(i & _ & R)|(_ & R)]; [apply (Hk k' v'); right; now left|exact Hw| |].
        - destruct IH as [(ops & F)|(k2 & v2 & I & N)].
          + intros a b [H|H]; apply (Hk a b); [now left|right; now right].
          + left. exists ((i, v') :: ops). constructor; auto.
          + right. exists k2, v2. split; [now right|exact N].
        - right. exists k', v'. split; [now left|exact R]. }
      destruct Rest as [(ops & F)|(k' & v' & I & N)].
      * left. exists ((i, v) :: ops). split; [constructor; auto|]. cbn [foldM fst snd]. rewrite St. reflexivity.
      * right. split; [eexists; reflexivity|]. exists k', v'. split; [now right|exact N].
Qed.

Lemma densify_big_load ho m s x l : reorders ho -> loaded_sparse s -> s_data s = SU64Big x l ->
  match dense_new m (s_iw s) x with
  | Panic _ => panics (dense_of_sparse ho m s)
  | Ok d0 =>
      loaded_dense d0 /\ d_iw d0 = s_iw s /\ d_dw d0 = width x
      /\ if match m with Debug => s_dw s =? width x | Release => true end then
           (exists ops, Forall2 (fun e op => reads_as m (s_dw s) (fst e) (fst op) /\ snd op = snd e) (ho _ l) ops
              /\ dense_of_sparse ho m s = foldM (fun d op => dense_store m d (fst op) (snd op)) ops d0)
           \/ (panics (dense_of_sparse ho m s) /\ exists k v, In (k, v) l /\ read_number m (s_dw s) k = None)
         else panics (dense_of_sparse ho m s)
  end.
Proof.
  intros Ho Ls D. unfold dense_of_sparse, sparse_default. rewrite D.
  destruct Ls as (Hi & Hd & F). rewrite D in F. destruct F as (Lx & _ & F). cbn [bind].
  destruct (dense_new m (s_iw s) x) as [d0|q] eqn:N; cbn [bind]; [|eexists; reflexivity].
  destruct (dense_new_loaded m (s_iw s) x d0 Hi Lx N) as (L0 & I0 & W0).
  split; [exact L0|]. split; [exact I0|]. split; [exact W0|]. rewrite W0, I0, N.eqb_refl.
  replace (debug_assert m (s_dw s =? width x))
    with (if match m with Debug => s_dw s =? width x | Release => true end then Ok tt else Panic PDebugAssert : res unit)
    by (destruct m; cbn [debug_assert]; [destruct (s_dw s =? width x)|]; reflexivity).
  destruct (match m with Debug => s_dw s =? width x | Release => true end); cbn [bind]; [|eexists; reflexivity].
  replace (debug_assert m true) with (Ok tt) by (destruct m; reflexivity). cbn [bind].
  assert (P : Permutation l (ho _ l)) by apply Ho.
  destruct (zero_shaped (s_dw s) Hd) as (Sz & Wz & _).
  destruct (densify_big m (s_dw s) (ho _ l) Hd) with (d := d0) (ib := bv_zero (s_dw s)) as [G|(G & k & v & I & R)]; auto.
  - intros k v H. apply (Permutation_in _ (Permutation_sym P)) in H. now apply F in H.
  - right. split; [exact G|]. exists k, v. split; [now apply (Permutation_in _ (Permutation_sym P))|exact R].
Qed.

Lemma densify_wide ho m s x l : s_data s = SBigBig x l -> panics (dense_of_sparse ho m s).
Proof.
  intros D. unfold dense_of_sparse. rewrite D.
  destruct (sparse_default m s); cbn [bind]; [|eexists; reflexivity].
  destruct (dense_new m (s_iw s) _); cbn [bind]; [|eexists; reflexivity].
  destruct (debug_assert m _); cbn [bind]; [|eexists; reflexivity].
  destruct (debug_assert m _); eexists; reflexivity.
Qed.
