(** * PArrayPanic: exactly which array calls panic in a debug build. *)

From Coq Require Import ZifyBool ZifyNat ZifyN Permutation.
From Verif Require Import Base Arith Map Bv Array Serde Spec ArraySpec ArrayPanicSpec.
From Verif Require Import PWords PropsArith PConv PRegister PReject PDense PSparse PConvert PArrays PPanic.
Ltac Zify.zify_post_hook ::= idtac.

(** ** Reads and writes *)

Lemma select_settles probe ho a iw dw f i : hashing probe -> reorders ho ->
  built probe ho Debug a iw dw f -> iw <= 64 -> wf i ->
  settles (width i <> iw) (array_select probe Debug a i).
Proof.
  intros P Ho B I W. destruct (built_reads _ _ _ _ _ _ _ P Ho B I) as (E1 & E2 & R).
  destruct (N.eq_dec (width i) iw) as [E|E].
  - eapply settles_yields; [intros X; now apply X|]. now apply R.
  - apply settles_panic; auto. apply (mismatch_array_ops probe a i i). now rewrite E1.
Qed.

Lemma store_settles probe ho a iw dw f i x : hashing probe -> reorders ho ->
  built probe ho Debug a iw dw f -> iw <= 64 -> wf i -> wf x ->
  settles (width i <> iw \/ width x <> dw) (array_store probe Debug a i x).
Proof.
  intros P Ho B I Wi Wx. destruct (built_reads _ _ _ _ _ _ _ P Ho B I) as (E1 & E2 & R).
  destruct (N.eq_dec (width i) iw) as [E|E]; [destruct (N.eq_dec (width x) dw) as [E'|E']|].
  - destruct (built_mutates _ _ _ _ _ _ _ (AStore i x) P Ho B I) as (a' & Ea); [repeat split; auto; apply Wi || apply Wx|].
    eapply settles_ok; [tauto|exact Ea].
  - apply settles_panic; auto. apply mismatch_array_data. now rewrite E2.
  - apply settles_panic; auto. apply (mismatch_array_ops probe a i x). now rewrite E1.
Qed.

(** ** Sparse arrays and their entries *)

Lemma entries_varied s iw dw f : sparse_is s iw dw f -> (sent s <> [] <-> varied iw f (sdef s)).
Proof.
  intros (W & E1 & E2 & F). destruct W as (I32 & D0 & D32 & L & N & Fa & S). split.
  - destruct (sent s) as [|[k v] t] eqn:E; [easy|]. intros _. inversion_clear Fa as [|? ? H _].
    cbn [fst snd] in H. destruct H as (H1 & _ & H3). rewrite E1 in H1. exists k. split; auto.
    rewrite <- F by auto. unfold selem. rewrite E. cbn [hm_get]. rewrite N.eqb_refl. exact H3.
  - intros (i & Hi & X) E. apply X. rewrite <- F by auto. unfold selem. now rewrite E.
Qed.

Lemma default_val m s d : sparse_wf s -> sparse_default m s = Ok d -> uval d = sdef s.
Proof.
  intros W E. destruct (default_ok m s W) as (d' & E' & Hd). rewrite E' in E. injection E as <-.
  now destruct Hd as (_ & _ & Hd).
Qed.

Lemma varied_dec s iw dw f : sparse_is s iw dw f -> varied iw f (sdef s) \/ ~ varied iw f (sdef s).
Proof.
  intros H. apply entries_varied in H. destruct (sent s); [right|left].
  - intros X. now apply H in X.
  - now apply H.
Qed.

(** ** Sizes *)

Lemma too_large_dec iw dw : too_large iw dw \/ ~ too_large iw dw.
Proof.
  unfold too_large.
  destruct (N.le_gt_cases (if 64 <? dw then (dw + 63) / 64 * 2 ^ iw else dense_bytes iw dw) (2 ^ 30)) as [H|H];
    [right|left]; auto. apply N.nlt_ge. exact H.
Qed.

Lemma too_large_refuses iw default : 0 < width default -> too_large iw (width default) ->
  panics (array_new_dense Debug iw default).
Proof.
  intros D L. apply dense_new_refuses; auto. unfold too_large in L.
  destruct (64 <? width default) eqn:E; auto. unfold dense_bytes.
  replace (width default =? 1) with false by lia. replace (width default <=? 8) with false by lia.
  replace (width default <=? 64) with false by lia.
  rewrite <- N.mul_assoc, N.mul_comm, N.div_mul by lia. exact L.
Qed.

Lemma not_large_iw iw dw : 0 < dw -> ~ too_large iw dw -> iw < 34 /\ (dw <> 1 -> iw < 31).
Proof.
  intros D L. unfold too_large, dense_bytes in L. apply N.nlt_ge in L.
  assert (Hp : 2 ^ 34 <= 2 ^ iw \/ iw < 34).
  { destruct (N.le_gt_cases 34 iw); [left; now apply N.pow_le_mono_r|now right]. }
  assert (Hq : 2 ^ 31 <= 2 ^ iw \/ iw < 31).
  { destruct (N.le_gt_cases 31 iw); [left; now apply N.pow_le_mono_r|now right]. }
  change (2 ^ 34) with 17179869184 in *. change (2 ^ 31) with 2147483648 in *. change (2 ^ 30) with 1073741824 in *.
  generalize dependent (2 ^ iw). intros q L Hp Hq. revert L.
  destruct (64 <? dw) eqn:E.
  { assert (1 <= (dw + 63) / 64) by dlia. generalize dependent ((dw + 63) / 64). intros r ? ?. split; nia. }
  destruct (dw =? 1) eqn:E1; [|destruct (dw <=? 8) eqn:E8; [|replace (dw <=? 64) with true by lia]; intros L; split; lia].
  intros L. split; [|lia]. destruct Hp as [Hp|Hp]; auto. exfalso.
  assert (G := N.div_le_mono 17179869184 (q + 7) 8 ltac:(lia) ltac:(lia)).
  change (17179869184 / 8) with 2147483648 in G. lia.
Qed.

Lemma not_large_addressable iw dw : 0 < dw -> ~ too_large iw dw -> ~ too_many_bits iw dw -> addressable iw dw.
Proof.
  intros D L B. split.
  - unfold too_large in L. apply N.nlt_ge in L. destruct (64 <? dw) eqn:E.
    + unfold dense_bytes. replace (dw =? 1) with false by lia. replace (dw <=? 8) with false by lia.
      replace (dw <=? 64) with false by lia. rewrite <- N.mul_assoc.
      change (2 ^ 30) with 1073741824 in L. change (2 ^ 63) with 9223372036854775808.
      generalize dependent ((dw + 63) / 64 * 2 ^ iw). intros; lia.
    + eapply N.le_lt_trans; [exact L|reflexivity].
  - intros E. destruct (N.le_gt_cases 32 iw); auto. exfalso. apply B. now split.
Qed.

Lemma not_large_limit iw dw : ~ too_large iw dw -> dense_limit Debug iw dw.
Proof. intros L. right. now apply N.nlt_ge in L. Qed.

Lemma wide_too_large iw dw : 0 < dw -> 64 < iw -> too_large iw dw.
Proof.
  intros D I. destruct (too_large_dec iw dw) as [H|H]; auto. apply not_large_iw in H; auto. lia.
Qed.

(** The elements are created in a bit-vector of width 0. *)
Lemma new_many_bits iw default : wf default -> width default = 1 -> 32 <= iw -> ~ too_large iw 1 ->
  dense_new Debug iw default
  = if uval default =? 1 then dense_new Debug iw default
    else Ok (mkdense iw 1 (DBit (bv_zero 0))).
Proof.
  intros W E I L. destruct (not_large_iw iw 1 ltac:(reflexivity) L) as (I1 & _).
  assert (H := wf_is_bv default W). rewrite E in H.
  assert (U : uval default < 2 ^ 1) by apply (is_bv_inv _ _ _ H). change (2 ^ 1) with 2 in U.
  destruct (uval default =? 1) eqn:E1; auto.
  replace (uval default) with 0 in H by lia.
  rewrite (is_bv_unique _ _ _ _ H (bv_of_is_bv 1 0 ltac:(reflexivity) ltac:(reflexivity))).
  assert (C : iw = 32 \/ iw = 33) by lia. destruct C as [-> | ->]; reflexivity.
Qed.
Lemma new_many_ones iw default : wf default -> width default = 1 -> 32 <= iw -> ~ too_large iw 1 ->
  uval default = 1 -> panics (dense_new Debug iw default).
Proof.
  intros W E I L U. destruct (not_large_iw iw 1 ltac:(reflexivity) L) as (I1 & _).
  assert (H := wf_is_bv default W). rewrite E, U in H.
  rewrite (is_bv_unique _ _ _ _ H (bv_of_is_bv 1 1 ltac:(reflexivity) ltac:(reflexivity))).
  assert (C : iw = 32 \/ iw = 33) by lia. destruct C as [-> | ->]; eexists; reflexivity.
Qed.

Lemma new_dense_settles iw default : wf default -> 0 < width default ->
  settles (too_large iw (width default) \/ (too_many_bits iw (width default) /\ uval default = 1))
    (array_new_dense Debug iw default).
Proof.
  intros W D. destruct (too_large_dec iw (width default)) as [L|L].
  { apply settles_panic; auto. now apply too_large_refuses. }
  destruct (N.eq_dec (width default) 1) as [E1|E1]; [destruct (N.le_gt_cases 32 iw) as [I|I]|].
  - destruct (N.eq_dec (uval default) 1) as [U|U].
    + apply settles_panic; [right; repeat split; auto|]. apply panics_bind. apply new_many_ones; auto. now rewrite <- E1.
    + eapply settles_ok; [intros [X|(_ & X)]; auto|]. unfold array_new_dense.
      rewrite new_many_bits; auto; [|now rewrite <- E1]. replace (uval default =? 1) with false by lia.
      reflexivity.
  - destruct (dense_new_ok Debug iw default W D) as (d & Ed & _).
    + apply not_large_addressable; auto. intros (_ & X). lia.
    + now apply not_large_limit.
    + eapply settles_ok; [intros [X|((_ & X) & _)]; auto; lia|]. unfold array_new_dense. rewrite Ed. reflexivity.
  - destruct (dense_new_ok Debug iw default W D) as (d & Ed & _).
    + apply not_large_addressable; auto. intros (X & _). lia.
    + now apply not_large_limit.
    + eapply settles_ok; [intros [X|((X & _) & _)]; auto; lia|]. unfold array_new_dense. rewrite Ed. reflexivity.
Qed.

(** ** Conversions *)

Lemma densify_no_bits m kv t : panics (foldM (fun dd kv => densify_step_u64 dd kv m) (kv :: t) (DBit (bv_zero 0))).
Proof.
  destruct kv as [k v]. cbn [foldM]. apply panics_bind. unfold densify_step_u64.
  destruct (beyond_panics (bv_zero 0) 0 0 (as_u32 k)) as (_ & (p & E) & (q & E')).
  - apply zero_is_bv. reflexivity.
  - change (64 * ((0 + 63) / 64)) with 0. lia.
  - destruct (v =? 1).
    + exists p. now rewrite E.
    + destruct (debug_assert m (v =? 0)); [|eexists; reflexivity]. cbn [bind]. exists q. now rewrite E'.
Qed.

Lemma densify_settles ho s iw dw f : reorders ho -> sparse_is s iw dw f ->
  settles (densify_rejected iw dw f (sdef s)) (dense_of_sparse ho Debug s).
Proof.
  intros Ho H. assert (V := entries_varied _ _ _ _ H). assert (Vd := varied_dec _ _ _ _ H).
  destruct H as (W & E1 & E2 & F). assert (W' := W).
  destruct W' as (I32 & D0 & D32 & L & N & Fa & S). subst iw dw.
  destruct (default_ok Debug s W) as (def & Ed & Hd). assert (Wd : width def = s_dw s) by apply Hd.
  assert (Ud : uval def = sdef s) by (now destruct Hd as (_ & _ & Hd)).
  destruct (too_large_dec (s_iw s) (s_dw s)) as [T|T].
  { apply settles_panic; [now left|]. unfold dense_of_sparse. rewrite Ed. cbn [bind]. apply panics_bind.
    assert (X : panics (array_new_dense Debug (s_iw s) def)) by (apply too_large_refuses; rewrite Wd; auto).
    unfold array_new_dense in X. destruct (dense_new Debug (s_iw s) def); [|eexists; reflexivity].
    destruct X as (p & X). discriminate X. }
  destruct (not_large_iw _ _ D0 T) as (I1 & I2).
  destruct (N.le_gt_cases (s_dw s) 64) as [D64|D64].
  - destruct (N.eq_dec (s_dw s) 1) as [B1|B1]; [destruct (N.le_gt_cases 32 (s_iw s)) as [I|I]|].
    + rewrite B1 in Wd, T. unfold dense_of_sparse. rewrite Ed. cbn [bind].
      destruct (N.eq_dec (uval def) 1) as [U|U].
      { apply settles_panic; [right; right; split; [now split|left; congruence]|].
        apply panics_bind. apply new_many_ones; auto. apply Hd. }
      rewrite new_many_bits; auto; [|apply Hd].
      replace (uval def =? 1) with false by lia. cbn [bind d_dw d_iw d_data].
      rewrite !debug_assert_ok by lia. cbn [bind]. unfold sent in V. unfold sdef in *.
      destruct (s_data s) as [x l|x l|x l]; [|lia|lia].
      destruct l as [|e l].
      * eapply settles_ok.
        { intros [X|[(X & _)|(_ & [X|X])]]; [now apply T; rewrite <- B1|lia|congruence|now apply V in X]. }
        assert (P := Ho _ (@nil (BinNums.N * BinNums.N))). apply Permutation_nil in P. rewrite P. reflexivity.
      * apply settles_panic; [right; right; split; [now split|right; now apply V]|]. apply panics_bind.
        destruct (ho _ (e :: l)) as [|kv t] eqn:Eh; [|apply densify_no_bits].
        exfalso. assert (P := Ho _ (e :: l)). rewrite Eh in P. now apply Permutation_sym, Permutation_nil in P.
    + destruct (dense_of_sparse_ok ho Debug s Ho W) as (d & Eo); auto.
      * apply not_large_addressable; auto. intros (_ & X). lia.
      * now apply not_large_limit.
      * eapply settles_ok; [|exact Eo]. intros [X|[(X & _)|((_ & X) & _)]]; auto; lia.
    + destruct (dense_of_sparse_ok ho Debug s Ho W) as (d & Eo); auto.
      * apply not_large_addressable; auto. intros (X & _). lia.
      * now apply not_large_limit.
      * eapply settles_ok; [|exact Eo]. intros [X|[(X & _)|((X & _) & _)]]; auto; lia.
  - destruct Vd as [Vd|Vd].
    + apply settles_panic; [right; left; now split|]. apply dense_of_sparse_panics; auto; [lia|now apply V].
    + destruct (dense_of_sparse_ok ho Debug s Ho W) as (d & Eo); auto.
      * apply not_large_addressable; auto. intros (X & _). lia.
      * now apply not_large_limit.
      * right. right. destruct (sent s); auto. exfalso. apply Vd. now apply V.
      * eapply settles_ok; [|exact Eo]. intros [X|[(_ & X)|((X & _) & _)]]; auto; lia.
Qed.

Lemma make_dense_settles probe ho s iw dw f d : hashing probe -> reorders ho ->
  built probe ho Debug (ASparse s) iw dw f -> sparse_default Debug s = Ok d ->
  settles (densify_rejected iw dw f (uval d)) (array_make_dense ho Debug (ASparse s)).
Proof.
  intros P Ho B E. apply built_inv in B; auto. cbn [array_inv] in B.
  rewrite (default_val Debug s d) by (auto; apply B). cbn [array_make_dense].
  apply settles_then; [eauto|]. now apply densify_settles.
Qed.

Lemma make_dense_iff probe ho a iw dw f : hashing probe -> reorders ho -> built probe ho Debug a iw dw f ->
  (panics (array_make_dense ho Debug a)
   <-> exists s d, a = ASparse s /\ sparse_default Debug s = Ok d /\ densify_rejected iw dw f (uval d)).
Proof.
  intros P Ho B. destruct a as [s|dd].
  - assert (W : sparse_wf s) by (apply built_inv in B; auto; apply B).
    destruct (default_ok Debug s W) as (d & Ed & _).
    rewrite (settles_iff _ _ (make_dense_settles _ _ _ _ _ _ _ P Ho B Ed)). split.
    + intros R. exists s, d. auto.
    + intros (s' & d' & Es & Ed' & R). injection Es as <-. rewrite Ed in Ed'. now injection Ed' as <-.
  - split; [intros (p & X); discriminate X|]. intros (s & d & Es & _). discriminate Es.
Qed.

Lemma table_dec iw f : (exists i, i < 2 ^ iw /\ 8 <= f i) \/ forall i, i < 2 ^ iw -> f i < 8.
Proof.
  destruct (existsb (fun x => 8 <=? x) (contents iw f)) eqn:E.
  - apply existsb_exists in E as (x & Hx & L). apply contents_in in Hx as (i & Hi & <-). left. exists i. split; auto.
    now apply N.leb_le.
  - right. intros i Hi. apply N.nle_gt. intros L.
    assert (X : existsb (fun x => 8 <=? x) (contents iw f) = true); [|congruence].
    apply existsb_exists. exists (f i). split; [apply contents_in; eauto|now apply N.leb_le].
Qed.

Lemma into_sparse_iff probe ho m a iw dw f : hashing probe -> reorders ho -> built probe ho m a iw dw f ->
  (panics (sparse_of_array ho m a) <-> array_is_dense a = true /\ sparsify_rejected iw dw f).
Proof.
  intros P Ho B. split.
  - intros X. destruct a as [s|d]; [destruct X as (p & X); discriminate X|]. split; [reflexivity|].
    destruct (N.le_gt_cases dw 1) as [D1|D1]; [|destruct (N.le_gt_cases dw 8) as [D8|D8]; [destruct (table_dec iw f) as [T|T]|]].
    + destruct (make_sparse_ok _ _ _ _ _ _ _ P Ho B) as (s & E); [lia|]. rewrite E in X.
      destruct X as (p & X). discriminate X.
    + split; auto.
    + destruct (make_sparse_ok _ _ _ _ _ _ _ P Ho B) as (s & E); [auto|]. rewrite E in X.
      destruct X as (p & X). discriminate X.
    + destruct (make_sparse_ok _ _ _ _ _ _ _ P Ho B) as (s & E); [lia|]. rewrite E in X.
      destruct X as (p & X). discriminate X.
  - intros (D & D1 & D8 & i & Hi & L). eapply make_sparse_panics; eauto.
Qed.

(** ** Entries *)

Lemma mapM_panics {A B} (g : A -> res B) l : (forall x, In x l -> panics (g x)) -> l <> [] -> panics (mapM g l).
Proof.
  destruct l as [|x l]; [easy|]. intros H _. cbn [mapM]. apply panics_bind. apply H. now left.
Qed.

Lemma entries_iff probe ho m s iw dw f d : hashing probe -> reorders ho ->
  built probe ho m (ASparse s) iw dw f -> sparse_default m s = Ok d ->
  (panics (sparse_entries ho m s) <-> iw = 0 /\ f 0 <> uval d).
Proof.
  intros P Ho B E. apply built_inv in B; auto. cbn [array_inv] in B.
  assert (W : sparse_wf s) by apply B. assert (Si : s_iw s = iw) by apply B.
  rewrite (default_val m s d) by auto. assert (V := entries_varied _ _ _ _ B).
  destruct (N.eq_dec iw 0) as [I|I].
  - assert (V0 : varied iw f (sdef s) <-> f 0 <> sdef s).
    { rewrite I. split; [intros (i & Hi & X)|intros X; exists 0; now split].
      change (2 ^ 0) with 1 in Hi. now replace i with 0 in X by lia. }
    transitivity (sent s <> []); [|rewrite V, V0; tauto].
    assert (Z : forall k, panics (bv_from_u64 m k 0)) by (intros k; eexists; reflexivity).
    unfold sparse_entries, sent in *. destruct W as (_ & _ & _ & _ & _ & _ & S).
    assert (Hne : forall A (l : list A), l <> [] -> ho A l <> []).
    { intros A l Hl Eh. apply Hl. assert (Pm := Ho _ l). rewrite Eh in Pm.
      now apply Permutation_sym, Permutation_nil in Pm. }
    assert (Hnil : forall A, ho A [] = []).
    { intros A. apply Permutation_nil. apply Ho. }
    rewrite Si, I. destruct (s_data s) as [x l|x l|x l]; [| |lia].
    + split.
      * intros X ->. rewrite Hnil in X. destruct X as (p & X). discriminate X.
      * intros Hl. apply mapM_panics; [|now apply Hne]. intros [k v] _. apply panics_bind, Z.
    + split.
      * intros X Hl. destruct l; [|discriminate Hl]. rewrite Hnil in X. destruct X as (p & X). discriminate X.
      * intros Hl. apply mapM_panics; [|apply Hne; now intros ->]. intros [k v] _. apply panics_bind, Z.
  - destruct (entries_ok ho m s Ho W) as (es & Ee & _); [lia|]. rewrite Ee. split; [|easy].
    intros (p & X). discriminate X.
Qed.

(** ** Equality *)

Lemma mixed_settles ho s d iw dw f iw' dw' g : reorders ho -> sparse_is s iw dw f -> dense_is d iw' dw' g ->
  settles (iw = iw' /\ dw = dw' /\ densify_rejected iw dw f (sdef s)) (is_equal_mixed ho Debug d s).
Proof.
  intros Ho Hs Hd. unfold is_equal_mixed. destruct Hd as (Wd & Id & Dd & _).
  assert (Is : s_iw s = iw) by apply Hs. assert (Ds : s_dw s = dw) by apply Hs.
  destruct (negb (d_iw d =? s_iw s) || negb (d_dw d =? s_dw s)) eqn:E.
  { eapply settles_ok; [|reflexivity]. intros (X & Y & _). lia. }
  assert (E1 : iw = iw') by lia. assert (E2 : dw = dw') by lia.
  apply (settles_ext (densify_rejected iw dw f (sdef s))); [tauto|].
  apply settles_then; [|now apply densify_settles]. intros d' Ed.
  assert (A : addressable (s_iw s) (s_dw s)).
  { rewrite Is, Ds, E1, E2, <- Id, <- Dd. now apply dense_addressable. }
  destruct (dense_of_sparse_inv ho Debug s d') as (W & X1 & X2 & _); auto; [apply Hs|].
  destruct (dense_equal_ok Debug d' d iw dw) as (r & -> & _); auto; try lia. eauto.
Qed.

Lemma equal_iff probe ho a b iw dw f iw' dw' g : hashing probe -> reorders ho ->
  built probe ho Debug a iw dw f -> built probe ho Debug b iw' dw' g ->
  (panics (array_is_equal ho Debug a b)
   <-> iw = iw' /\ dw = dw' /\ array_is_dense a <> array_is_dense b
       /\ (panics (array_make_dense ho Debug a) \/ panics (array_make_dense ho Debug b))).
Proof.
  intros P Ho Ba Bb.
  assert (T : array_is_dense a = array_is_dense b -> ~ panics (array_is_equal ho Debug a b)).
  { intros E (p & X). destruct (array_equal_total _ _ _ _ _ _ _ _ _ _ _ P Ho Ba Bb (or_introl E)) as (r & Y). congruence. }
  apply built_inv in Ba; auto. apply built_inv in Bb; auto.
  assert (Dn : forall d, ~ panics (array_make_dense ho Debug (ADense d))) by (intros d (p & X); discriminate X).
  assert (Dm : forall s iw dw f, sparse_is s iw dw f ->
    (panics (array_make_dense ho Debug (ASparse s)) <-> densify_rejected iw dw f (sdef s))).
  { intros s' iw0 dw0 f0 H0. apply settles_iff. cbn [array_make_dense].
    apply settles_then; [eauto|]. now apply densify_settles. }
  destruct a as [sa|da], b as [sb|db]; cbn [array_inv array_is_dense] in *.
  - assert (T' := T eq_refl). tauto.
  - cbn [array_is_equal]. rewrite (settles_iff _ _ (mixed_settles ho sa db _ _ _ _ _ _ Ho Ba Bb)).
    rewrite (Dm _ _ _ _ Ba). split; [intros (X & Y & Z); repeat split; auto; discriminate|].
    intros (X & Y & _ & [Z|Z]); auto. now apply Dn in Z.
  - cbn [array_is_equal]. rewrite (settles_iff _ _ (mixed_settles ho sb da _ _ _ _ _ _ Ho Bb Ba)).
    rewrite (Dm _ _ _ _ Bb). split; [intros (X & Y & Z); repeat split; auto; discriminate|].
    intros (X & Y & _ & [Z|Z]); auto. now apply Dn in Z.
  - assert (T' := T eq_refl). tauto.
Qed.

(** ** Indices of more than 64 bits *)

Lemma wide_select probe ho m s iw dw f d i : hashing probe -> reorders ho ->
  built probe ho m (ASparse s) iw dw f -> 64 < iw -> sparse_default m s = Ok d -> wf i -> width i = iw ->
  (f (uval i) <> uval d -> panics (array_select probe m (ASparse s) i))
  /\ ((forall k, k < 2 ^ iw -> f k = uval d) -> exists v, array_select probe m (ASparse s) i = Ok v).
Proof.
  intros P Ho B I E Wi Ei. apply built_inv in B; auto. cbn [array_inv] in B.
  assert (V := entries_varied _ _ _ _ B). destruct B as (W & E1 & E2 & F).
  rewrite (default_val m s d) by auto. assert (Hi := wf_is_bv i Wi). rewrite Ei in Hi.
  assert (Li : uval i < 2 ^ iw) by apply (is_bv_inv _ _ _ Hi).
  rewrite <- E1 in Hi. cbn [array_select]. split; intros X.
  - eapply sparse_select_stored_panics; eauto; [lia|]. now rewrite F.
  - destruct (sparse_select_wide probe m s i (uval i) P W ltac:(lia) Hi) as [(_ & Y)|(_ & (v & Y & _))]; [|eauto].
    apply V in Y as (k & Hk & Y). now rewrite X in Y.
Qed.

Lemma wide_store probe ho m s iw dw f d i x : hashing probe -> reorders ho ->
  built probe ho m (ASparse s) iw dw f -> 64 < iw -> sparse_default m s = Ok d ->
  wf i -> width i = iw -> wf x -> width x = dw ->
  (uval x <> uval d \/ (forall k, k < 2 ^ iw -> f k = uval d) ->
     exists a, array_store probe m (ASparse s) i x = Ok a)
  /\ (uval x = uval d -> f (uval i) <> uval d -> panics (array_store probe m (ASparse s) i x)).
Proof.
  intros P Ho B I E Wi Ei Wx Ex. apply built_inv in B; auto. cbn [array_inv] in B.
  assert (V := entries_varied _ _ _ _ B). destruct B as (W & E1 & E2 & F).
  rewrite (default_val m s d) by auto. assert (Hi := wf_is_bv i Wi). rewrite Ei in Hi.
  assert (Li : uval i < 2 ^ iw) by apply (is_bv_inv _ _ _ Hi).
  assert (Hx := wf_is_bv x Wx). rewrite Ex, <- E2 in Hx. rewrite <- E1 in Hi.
  cbn [array_store]. split; intros X.
  - destruct (sparse_store_wide probe m s i (uval i) x (uval x) P W ltac:(lia) Hi Hx) as [(_ & Y & Z)|(s' & -> & _)].
    + exfalso. destruct X as [X|X]; [contradiction|]. apply V in Z as (k & Hk & Z). now rewrite X in Z.
    + eexists. reflexivity.
  - intros Y. apply panics_bind.
    destruct (sparse_store_wide probe m s i (uval i) x (uval x) P W ltac:(lia) Hi Hx) as [(Z & _)|(s' & Es & Wr)]; auto.
    exfalso. assert (Sel := sparse_select_stored_panics probe m s i (uval i) P W ltac:(lia) Hi).
    rewrite F in Sel by auto. specialize (Sel Y). revert Es Sel.
    destruct (is_bv_inv _ _ _ Hi) as (Wi' & _). destruct (is_bv_inv _ _ _ Hx) as (Wx' & _).
    unfold sparse_store, sparse_select. rewrite !debug_assert_ok by lia. cbn [bind].
    destruct W as (_ & _ & _ & _ & _ & _ & S). unfold sdef in X.
    destruct (s_data s) as [x0 l|x0 l|x0 l]; [lia|lia|]. destruct S as (_ & Hd & _).
    destruct (equal_cases m x x0 (s_dw s) (uval x) (uval x0) Hx (has_width_bv _ _ Hd)) as (-> & _).
    rewrite X, N.eqb_refl. cbn [bind]. unfold hm_remove_borrowed, hm_get_borrowed.
    destruct (probe (map fst l) i); cbn [bind]; [discriminate|]. intros _ (p & Q). discriminate Q.
Qed.

(** ** As equivalences *)

Lemma new_dense_iff iw default : wf default -> 0 < width default ->
  (panics (array_new_dense Debug iw default)
   <-> too_large iw (width default) \/ (too_many_bits iw (width default) /\ uval default = 1)).
Proof. intros W D. now apply settles_iff, new_dense_settles. Qed.
Lemma new_sparse_never m iw default : wf default -> 0 < width default -> iw < 2 ^ 32 ->
  exists a, array_new_sparse m iw default = Ok a.
Proof. intros W D I. destruct (array_new_sparse_ok m iw default W D I) as (s & E & _). eauto. Qed.
Lemma select_iff probe ho a iw dw f i : hashing probe -> reorders ho ->
  built probe ho Debug a iw dw f -> iw <= 64 -> wf i ->
  (panics (array_select probe Debug a i) <-> width i <> iw).
Proof. intros. eapply settles_iff, select_settles; eauto. Qed.
Lemma store_iff probe ho a iw dw f i x : hashing probe -> reorders ho ->
  built probe ho Debug a iw dw f -> iw <= 64 -> wf i -> wf x ->
  (panics (array_store probe Debug a i x) <-> width i <> iw \/ width x <> dw).
Proof. intros. eapply settles_iff, store_settles; eauto. Qed.

(** A hash function under which every key has the same tag. *)
Definition clumsy_probe : probe_oracle := fun keys _ => negb (len keys =? 0).
Lemma clumsy_hashing : hashing clumsy_probe.
Proof.
  split; [|reflexivity]. intros [|k keys] x H; [easy|]. unfold clumsy_probe. rewrite len_cons.
  replace (len keys + 1 =? 0) with false by lia. reflexivity.
Qed.

Lemma wide_depends m : exists p q s iw i, hashing p /\ hashing q /\ wf i /\ width i = iw
  /\ built p (fun _ l => l) m (ASparse s) iw 8 (fun k => if k =? 5 then 7 else 0)
  /\ built q (fun _ l => l) m (ASparse s) iw 8 (fun k => if k =? 5 then 7 else 0)
  /\ panics (array_select p m (ASparse s) i) /\ yields (array_select q m (ASparse s) i) 8 0.
Proof.
  exists clumsy_probe, some_probe,
    (mksparse 65 8 (SBigBig (bv_of 8 0) [(bv_of 65 5, bv_of 8 7)])), 65, (bv_of 65 6).
  split; [apply clumsy_hashing|]. split; [apply some_probe_hashing|].
  assert (B : forall p, built p (fun _ l => l) m (ASparse (mksparse 65 8 (SBigBig (bv_of 8 0) [(bv_of 65 5, bv_of 8 7)])))
                65 8 (fun k => if k =? 5 then 7 else 0)).
  { intros p. refine (built_step p _ m (ASparse (mksparse 65 8 (SBigBig (bv_of 8 0) []))) 65 8 (fun _ => 0)
      (AStore (bv_of 65 5) (bv_of 8 7)) _ _ _ _).
    - refine (built_sparse p _ m 65 (bv_of 8 0) _ _ _ _ _); try reflexivity. apply bv_of_is_bv; reflexivity.
    - split; [apply bv_of_is_bv; reflexivity|]. split; [reflexivity|].
      split; [apply bv_of_is_bv; reflexivity|]. reflexivity.
    - destruct m; reflexivity. }
  split; [apply bv_of_is_bv; reflexivity|]. split; [reflexivity|]. split; [apply B|]. split; [apply B|].
  split; [eexists; destruct m; reflexivity|]. exists (bv_of 8 0). split; [destruct m; reflexivity|].
  apply bv_of_is_bv; reflexivity.
Qed.

(** ** Creating dense arrays in a release build *)

Lemma release_wraps iw default : array_new_dense Release iw default
  = match array_new_dense Release (iw mod 64) default with
    | Ok (ADense x) => Ok (ADense (mkdense iw (d_dw x) (d_data x)))
    | r => r
    end.
Proof.
  assert (S : u64_shl1 Release iw = u64_shl1 Release (iw mod 64)).
  { assert (L : iw mod 64 < 64) by (apply N.mod_lt; discriminate). unfold u64_shl1.
    replace (iw mod 64 <? 64) with true by (symmetry; now apply N.ltb_lt).
    destruct (N.ltb_spec iw 64); [now rewrite N.mod_small|reflexivity]. }
  unfold array_new_dense, dense_new, approx_dense_storage_size. rewrite S.
  repeat match goal with
         | |- context [if ?b then _ else _] => destruct b
         | |- context [bind ?e _] => lazymatch e with context [bind _ _] => fail | _ => destruct e; cbn [bind] end
         end; reflexivity.
Qed.

Lemma release_panics iw default :
  panics (array_new_dense Release iw default) <-> panics (array_new_dense Release (iw mod 64) default).
Proof.
  rewrite (release_wraps iw). split; intros (p & E).
  - destruct (array_new_dense Release (iw mod 64) default) as [[x|x]|q]; try discriminate E. now exists q.
  - rewrite E. now exists p.
Qed.

Lemma release_bits iw default : wf default -> width default = 1 -> iw < 64 ->
  (panics (array_new_dense Release iw default) <-> uval default = 1 /\ 32 <= iw).
Proof.
  intros W D I. destruct (N.lt_ge_cases iw 32) as [L|L].
  - split; [|lia]. intros (p & E).
    destruct (dense_new_accepts (fun _ _ => true) Release iw default W ltac:(lia)) as (a & E' & _); [|now left|congruence].
    rewrite D. split; [|auto]. unfold dense_bytes. cbn [N.eqb Pos.eqb].
    assert (X : 2 ^ iw <= 2 ^ 32) by (apply N.pow_le_mono_r; lia). revert X. generalize (2 ^ iw). intros q X.
    apply N.div_lt_upper_bound; lia.
  - assert (Z : as_u32 (2 ^ iw) = 0).
    { unfold as_u32. rewrite B32_eq. replace iw with (iw - 32 + 32) by lia. rewrite N.pow_add_r. now apply N.mod_mul. }
    assert (H := wf_is_bv default W). rewrite D in H.
    assert (U : uval default < 2 ^ 1) by apply (is_bv_inv _ _ _ H). change (2 ^ 1) with 2 in U.
    unfold array_new_dense, dense_new, approx_dense_storage_size, u64_shl1. rewrite D.
    replace (iw <? 64) with true by (symmetry; now apply N.ltb_lt). cbn [bind N.eqb Pos.eqb debug_assert].
    rewrite Z. assert (C : uval default = 0 \/ uval default = 1) by lia.
    destruct C as [C|C]; rewrite C in *;
      [rewrite (is_bv_unique _ _ _ _ H (bv_of_is_bv 1 0 ltac:(reflexivity) ltac:(reflexivity)))
      |rewrite (is_bv_unique _ _ _ _ H (bv_of_is_bv 1 1 ltac:(reflexivity) ltac:(reflexivity)))].
    + split; [intros (p & E); discriminate E|intros (E & _); discriminate E].
    + split; [auto|]. intros _. eexists. reflexivity.
Qed.

Lemma release_exact iw default : wf default -> 0 < width default ->
  (panics (array_new_dense Release iw default)
   <-> 2 ^ 63 <= dense_bytes (iw mod 64) (width default)
       \/ (width default = 1 /\ uval default = 1 /\ 32 <= iw mod 64)).
Proof.
  intros W D. assert (I : iw mod 64 < 64) by (apply N.mod_lt; discriminate). rewrite release_panics.
  destruct (N.eq_dec (width default) 1) as [E|E].
  - rewrite (release_bits _ _ W E I). split; [now right|]. intros [H|H]; [|now destruct H]. exfalso.
    rewrite E in H. unfold dense_bytes in H. cbn [N.eqb Pos.eqb] in H.
    assert (X : 2 ^ (iw mod 64) <= 2 ^ 63) by (apply N.pow_le_mono_r; lia). revert X H. generalize (2 ^ (iw mod 64)).
    intros q X. apply N.lt_nge, N.div_lt_upper_bound; lia.
  - rewrite <- (dense_new_release _ _ W ltac:(lia) I). split; [now left|]. intros [H|H]; [exact H|]. lia.
Qed.

Lemma release_refuted : exists iw default a, wf default /\ 0 < width default
  /\ array_new_dense Release iw default = Ok a /\ 2 ^ 63 <= dense_bytes iw (width default).
Proof.
  exists 64, (bv_of 8 5). eexists. split; [now apply (bv_of_is_bv 8 5)|]. split; [reflexivity|].
  split; [vm_compute; reflexivity|]. vm_compute. discriminate.
Qed.

(** ** Reads at any index width *)

Lemma any_width_reads probe ho m a iw dw f i : hashing probe -> reorders ho -> built probe ho m a iw dw f ->
  wf i -> width i = iw ->
  panics (array_select probe m a i) \/ yields (array_select probe m a i) dw (f (uval i)).
Proof.
  intros P Ho B Wi Ei. destruct (N.le_gt_cases iw 64) as [I|I].
  - right. destruct (built_reads _ _ _ _ _ _ _ P Ho B I) as (_ & _ & R). now apply R.
  - apply built_inv in B; auto. destruct a as [s|d]; cbn [array_inv array_select] in *.
    + destruct B as (Ws & E1 & E2 & F). assert (H := wf_is_bv i Wi). rewrite Ei, <- E1 in H.
      destruct (sparse_select_wide probe m s i _ P Ws ltac:(lia) H) as [[X _]|[_ X]]; [left; auto|right].
      rewrite F in X by (rewrite E1 in H; apply (is_bv_lt _ _ _ H)). now rewrite E2 in X.
    + right. now apply (dense_is_reads probe m d iw dw f B).
Qed.

Lemma reload_reads probe ho m order a iw dw f a' i : hashing probe -> reorders ho -> reorders order ->
  built probe ho m a iw dw f -> de_array (ser_array order a) = Some a' -> wf i -> width i = iw ->
  panics (array_select probe m a' i) \/ yields (array_select probe m a' i) dw (f (uval i)).
Proof.
  intros P Ho O B E. apply any_width_reads with ho; auto. now apply (built_reload _ _ _ order a).
Qed.
