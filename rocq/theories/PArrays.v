(** * PArrays: arrays of any storage reached by any history (C39 - C43). *)

From Coq Require Import ZifyBool ZifyNat ZifyN Permutation.
From Verif Require Import Base Arith Map Bv Array Serde Spec ArraySpec.
From Verif Require Import PWords PArith PShift PropsArith PConv PCompare PIo PRegister PStore PDense PSparse PConvert PSerde.

Ltac Zify.zify_post_hook ::= idtac.

Definition array_inv (a : array) (iw dw : N) (f : N -> N) : Prop :=
  match a with ADense d => dense_is d iw dw f | ASparse s => sparse_is s iw dw f end.

Lemma dense_ext d iw dw f g : dense_is d iw dw f -> same_contents iw f g -> dense_is d iw dw g.
Proof.
  intros (W & E1 & E2 & F) H. repeat (split; [now auto|]). intros i Hi. rewrite F by auto. auto.
Qed.

Lemma sparse_ext s iw dw f g : sparse_is s iw dw f -> same_contents iw f g -> sparse_is s iw dw g.
Proof.
  intros (W & E1 & E2 & F) H. repeat (split; [now auto|]). intros i Hi. rewrite F by auto. auto.
Qed.

Lemma step_inv probe m a iw dw f op a' : hashing probe -> array_inv a iw dw f -> arr_legal iw dw op ->
  arr_run probe m a op = Ok a' -> array_inv a' iw dw (arr_step f op).
Proof.
  intros P Inv L R. destruct a as [s|d]; cbn [array_inv] in Inv.
  - destruct (iw <=? 64) eqn:I.
    + destruct (sparse_step probe m s iw dw f op) as (s' & E & Is); auto; [lia|].
      rewrite E in R. injection R as <-. exact Is.
    + destruct (sparse_step_wide probe m s iw dw f op a') as (s' & -> & Is); auto. lia.
  - destruct (dense_step probe m d iw dw f op Inv L) as (d' & E & Is).
    rewrite E in R. injection R as <-. exact Is.
Qed.

Lemma make_dense_inv ho m a iw dw f a' : reorders ho -> array_inv a iw dw f -> addressable iw dw ->
  array_make_dense ho m a = Ok a' -> array_is_dense a' = true /\ array_inv a' iw dw f.
Proof.
  intros Ho Inv A E. destruct a as [s|d]; cbn [array_inv array_make_dense] in *.
  - destruct (dense_of_sparse ho m s) as [d|] eqn:Ed; [|discriminate]. cbn [bind] in E. injection E as <-.
    destruct Inv as (W & <- & <- & F). split; [reflexivity|].
    apply (dense_ext d _ _ (selem s)); [|exact F]. now apply (dense_of_sparse_inv ho m).
  - injection E as <-. auto.
Qed.

Lemma make_sparse_inv ho m a iw dw f s : reorders ho -> array_inv a iw dw f ->
  sparse_of_array ho m a = Ok s -> sparse_is s iw dw f.
Proof.
  intros Ho Inv E. destruct a as [s0|d]; cbn [array_inv sparse_of_array] in *.
  - injection E as <-. exact Inv.
  - destruct Inv as (W & <- & <- & F). destruct (sparse_of_dense_inv ho m d s Ho W E) as (Is & _).
    apply (sparse_ext s _ _ (delem d)); auto.
Qed.

(** Saved and loaded again, as the same kind of storage with the same default. *)
Lemma reload_inv order a iw dw f : reorders order -> array_inv a iw dw f ->
  exists a', de_array (ser_array order a) = Some a' /\ array_inv a' iw dw f
    /\ match a, a' with
       | ASparse s, ASparse s' => sdef s' = sdef s
       | ADense d, ADense d' => d' = d
       | _, _ => False
       end.
Proof.
  intros Ho Inv. destruct a as [s|d]; cbn [array_inv] in Inv.
  - destruct (de_sparse_ok order s iw dw f Ho Inv) as (s' & E & Is & Df).
    exists (ASparse s'). split; [|split; auto].
    change (obind (de_sparse (ser_sparse order s)) (fun s => Some (ASparse s)) = Some (ASparse s')).
    rewrite E. reflexivity.
  - exists (ADense d). split; [|split; auto].
    change (obind (de_dense (ser_dense d)) (fun s => Some (ADense s)) = Some (ADense d)).
    rewrite de_dense_ok; [reflexivity|]. apply Inv.
Qed.

Lemma built_inv probe ho m a iw dw f : hashing probe -> reorders ho -> built probe ho m a iw dw f ->
  array_inv a iw dw f.
Proof.
  intros P Ho B. induction B as
    [iw df a W D A E|iw df a W D I E|l a L E|l a F L E|l a F L E|a iw dw f op a' B IH L E
    |a iw dw f a' B IH A E|a iw dw f s B IH E|order a iw dw f a' B IH O E].
  - destruct (array_new_dense_inv m iw df a W D A E) as (d & -> & Is). exact Is.
  - destruct (array_new_sparse_ok m iw df W D I) as (s & E' & Is & _). rewrite E' in E. injection E as <-. exact Is.
  - unfold array_from_bools in E. destruct (from_bools_ok m l L) as (d & E' & Is). rewrite E' in E.
    cbn [bind] in E. injection E as <-. assert (Is' := Is). destruct Is' as (_ & E1 & _).
    cbn [array_inv array_index_width]. rewrite E1. exact Is.
  - unfold array_from_u8s in E. destruct (from_u8s_ok m l F L) as (d & E' & Is). rewrite E' in E.
    cbn [bind] in E. injection E as <-. assert (Is' := Is). destruct Is' as (_ & E1 & _).
    cbn [array_inv array_index_width]. rewrite E1. exact Is.
  - unfold array_from_u64s in E. destruct (from_u64s_ok m l F L) as (d & E' & Is). rewrite E' in E.
    cbn [bind] in E. injection E as <-. assert (Is' := Is). destruct Is' as (_ & E1 & _).
    cbn [array_inv array_index_width]. rewrite E1. exact Is.
  - now apply (step_inv probe m a).
  - now apply (make_dense_inv ho m a).
  - now apply (make_sparse_inv ho m a).
  - destruct (reload_inv order a iw dw f O IH) as (a2 & E2 & I2 & _). rewrite E2 in E. injection E as <-. exact I2.
Qed.

(** Everything readable reads correctly. *)
Lemma inv_reads probe m a iw dw f : array_inv a iw dw f -> iw <= 64 -> arr_is probe m a iw dw f.
Proof. destruct a; cbn [array_inv]; intros; [now apply sparse_is_reads|now apply dense_is_reads]. Qed.

Lemma built_reads probe ho m a iw dw f : hashing probe -> reorders ho -> built probe ho m a iw dw f ->
  iw <= 64 -> arr_is probe m a iw dw f.
Proof. intros P Ho B I. apply inv_reads; [|auto]. now apply (built_inv probe ho m). Qed.

(** With an index width of at most 64 bits, no mutation panics. *)
Lemma built_mutates probe ho m a iw dw f op : hashing probe -> reorders ho -> built probe ho m a iw dw f ->
  iw <= 64 -> arr_legal iw dw op -> exists a', arr_run probe m a op = Ok a'.
Proof.
  intros P Ho B I L. apply built_inv in B; auto. destruct a as [s|d]; cbn [array_inv] in B.
  - destruct (sparse_step probe m s iw dw f op I B L) as (s' & -> & _). eauto.
  - destruct (dense_step probe m d iw dw f op B L) as (d' & -> & _). eauto.
Qed.

(** ** Sparse to dense *)
Lemma fits_limit m iw dw : fits_dense m iw dw -> dense_limit m iw dw.
Proof.
  intros (A & [->|H]); [now left|right]. destruct (64 <? dw) eqn:E; [|auto].
  unfold dense_bytes in H. replace (dw =? 1) with false in H by lia. replace (dw <=? 8) with false in H by lia.
  replace (dw <=? 64) with false in H by lia.
  generalize dependent ((dw + 63) / 64). intros k H. generalize dependent (2 ^ iw). clear. intros. nia.
Qed.

Lemma make_dense_ok probe ho m a iw dw f : hashing probe -> reorders ho -> built probe ho m a iw dw f ->
  fits_dense m iw dw -> dw <= 64 \/ m = Release ->
  exists a', array_make_dense ho m a = Ok a' /\ array_is_dense a' = true
    /\ arr_is probe m a' iw dw f.
Proof.
  intros P Ho B Fd C. apply built_inv in B; auto.
  assert (X : exists a', array_make_dense ho m a = Ok a').
  { destruct a as [s|d]; cbn [array_make_dense]; [|eauto]. destruct B as (W & E1 & E2 & F).
    destruct (dense_of_sparse_ok ho m s) as (d & ->); auto; rewrite ?E1, ?E2.
    - apply Fd.
    - now apply fits_limit.
    - tauto.
    - cbn [bind]. eauto. }
  destruct X as (a' & E). exists a'. split; [auto|].
  destruct (make_dense_inv ho m a iw dw f a' Ho B) as (D & B'); auto; [apply Fd|]. split; [auto|].
  apply inv_reads; [auto|]. destruct a' as [|d']; [discriminate|]. destruct B' as ((I & _) & <- & _). lia.
Qed.

Lemma make_dense_contents probe ho m a iw dw f a' : hashing probe -> reorders ho ->
  built probe ho m a iw dw f -> addressable iw dw -> array_make_dense ho m a = Ok a' ->
  array_is_dense a' = true /\ arr_is probe m a' iw dw f.
Proof.
  intros P Ho B A E. apply built_inv in B; auto.
  destruct (make_dense_inv ho m a iw dw f a' Ho B A E) as (D & B'). split; [auto|].
  apply inv_reads; [auto|]. destruct a' as [|d']; [discriminate|]. destruct B' as ((I & _) & <- & _). lia.
Qed.

(** ** Dense to sparse *)
Lemma make_sparse_ok probe ho m a iw dw f : hashing probe -> reorders ho -> built probe ho m a iw dw f ->
  (1 < dw -> dw <= 8 -> forall i, i < 2 ^ iw -> f i < 8) ->
  exists s, sparse_of_array ho m a = Ok s.
Proof.
  intros P Ho B Sm. apply built_inv in B; auto. destruct a as [s|d]; cbn [sparse_of_array]; [eauto|].
  destruct B as (W & <- & <- & F). destruct (sparse_of_dense_ok ho m d Ho W) as (s & E & _); [|eauto].
  intros D1 D8 i Hi. rewrite F by auto. now apply Sm.
Qed.

Lemma make_sparse_contents probe ho m a iw dw f s : hashing probe -> reorders ho ->
  built probe ho m a iw dw f -> iw <= 64 -> sparse_of_array ho m a = Ok s ->
  arr_is probe m (ASparse s) iw dw f.
Proof.
  intros P Ho B I E. apply built_inv in B; auto. apply inv_reads; [|auto].
  now apply (make_sparse_inv ho m a).
Qed.

Lemma make_sparse_panics probe ho m a iw dw f i : hashing probe -> reorders ho ->
  built probe ho m a iw dw f -> array_is_dense a = true -> 1 < dw -> dw <= 8 -> i < 2 ^ iw -> 8 <= f i ->
  panics (sparse_of_array ho m a).
Proof.
  intros P Ho B D D1 D8 Hi Big. apply built_inv in B; auto. destruct a as [s|d]; [discriminate|].
  cbn [sparse_of_array]. destruct B as (W & <- & <- & F).
  apply (sparse_of_dense_panics ho m d i); auto. now rewrite F.
Qed.

Lemma filter_map_len {A B} (g : A -> B) (p : B -> bool) l :
  length (filter p (map g l)) = length (filter (fun x => p (g x)) l).
Proof. induction l as [|x t IH]; [reflexivity|]. cbn. destruct (p (g x)); cbn; lia. Qed.

Lemma occ_occurrences iw f x : occ (contents iw f) x = occurrences iw f x.
Proof.
  unfold occ, contents, occurrences, indices, len. rewrite map_map, filter_map_len. reflexivity.
Qed.

Lemma contents_ext iw f g : same_contents iw f g -> contents iw f = contents iw g.
Proof.
  intros H. unfold contents. apply map_ext_in. intros i Hi. rewrite indices_iota in Hi.
  apply in_iota in Hi. apply H. lia.
Qed.

Lemma default_frequent probe ho m a iw dw f s : hashing probe -> reorders ho ->
  built probe ho m a iw dw f -> array_is_dense a = true -> few (2 ^ 20) iw f ->
  sparse_of_array ho m a = Ok s ->
  exists d x0, sparse_default m s = Ok d /\ is_bv d dw x0
    /\ forall y, occurrences iw f y <= occurrences iw f x0.
Proof.
  intros P Ho B D Fw E. apply built_inv in B; auto. destruct a as [s0|d]; [discriminate|].
  cbn [sparse_of_array] in E. destruct B as (W & <- & <- & F).
  destruct (sparse_of_dense_inv ho m d s Ho W E) as ((Ws & E1 & E2 & Es) & Mf).
  destruct (default_ok m s Ws) as (def & Ed & Hd). exists def, (sdef s). split; [auto|].
  rewrite E2 in Hd. split; [auto|]. intros y. rewrite <- !occ_occurrences.
  rewrite <- (contents_ext (d_iw d) (delem d) f F). apply Mf.
  destruct Fw as (vals & L & V). exists vals. split; [exact L|]. intros i Hi. rewrite F by auto. auto.
Qed.

(** ** Entries *)
Lemma built_entries probe ho m s iw dw f : hashing probe -> reorders ho ->
  built probe ho m (ASparse s) iw dw f -> 0 < iw ->
  exists es d x0, sparse_entries ho m s = Ok es
    /\ sparse_default m s = Ok d /\ is_bv d dw x0
    /\ NoDup (map (fun e => uval (fst e)) es)
    /\ (forall e, In e es -> exists i, is_bv (fst e) iw i /\ is_bv (snd e) dw (f i) /\ f i <> x0)
    /\ (forall i, i < 2 ^ iw -> f i <> x0 -> exists e, In e es /\ uval (fst e) = i).
Proof.
  intros P Ho B I. apply built_inv in B; auto. now apply entries_spec.
Qed.

Lemma entries_zero_refuted probe ho m : reorders ho ->
  exists a s i x f, array_new_sparse m 0 (bv_of 8 0) = Ok a /\ arr_legal 0 8 (AStore i x)
    /\ array_store probe m a i x = Ok (ASparse s)
    /\ built probe ho m (ASparse s) 0 8 f
    /\ panics (sparse_entries ho m s).
Proof.
  intros Ho.
  destruct (array_new_sparse m 0 (bv_of 8 0)) as [a|] eqn:E; [|discriminate].
  assert (Es : array_store probe m a (bv_of 0 0) (bv_of 8 7) = Ok (ASparse (mksparse 0 8 (SU64U64 0 [(0, 7)])))).
  { vm_compute in E. injection E as <-. destruct m; reflexivity. }
  assert (Lg : arr_legal 0 8 (AStore (bv_of 0 0) (bv_of 8 7))).
  { split; [now apply bv_of_is_bv|]. split; [reflexivity|]. split; [now apply bv_of_is_bv|reflexivity]. }
  exists a, (mksparse 0 8 (SU64U64 0 [(0, 7)])), (bv_of 0 0), (bv_of 8 7). eexists.
  split; [reflexivity|]. split; [exact Lg|]. split; [exact Es|]. split.
  - eapply (built_step probe ho m a 0 8 _ (AStore (bv_of 0 0) (bv_of 8 7))); [|exact Lg|exact Es].
    apply (built_sparse probe ho m 0 (bv_of 8 0)); [now apply bv_of_is_bv|reflexivity|reflexivity|exact E].
  - unfold sparse_entries. cbn [s_data s_iw s_dw].
    assert (X := Ho _ [(0, 7)]). apply Permutation_length_1_inv in X. rewrite X.
    destruct m; eexists; reflexivity.
Qed.

(** ** Equality *)
Lemma sparse_equal_ok m a b iw dw : sparse_wf a -> sparse_wf b -> s_iw a = iw -> s_iw b = iw ->
  s_dw a = dw -> s_dw b = dw ->
  exists r, sparse_is_equal m a b = Ok (Some r)
    /\ (r = true <-> sdef a = sdef b /\ forall k, hm_get N.eqb (sent a) k = hm_get N.eqb (sent b) k).
Proof.
  intros (A1 & A2 & A3 & A4 & A5 & A6 & A7) (B1 & B2 & B3 & B4 & B5 & B6 & B7) Ia Ib Da Db.
  unfold sparse_is_equal. replace (s_iw b =? s_iw a) with true by lia.
  replace (s_dw b =? s_dw a) with true by lia. cbn [negb orb].
  assert (M := map_eqb_ok N.eqb N_eqb_eq N.eqb (sent a) (sent b) N_eqb_eq A5 B5).
  assert (Hl : hm_eqb N.eqb N.eqb (sent a) (sent b) = true -> len (sent a) = len (sent b)).
  { unfold hm_eqb. rewrite andb_true_iff, N.eqb_eq. tauto. }
  rewrite Ia, Da in *. rewrite Ib, Db in *. unfold sent, sdef in *.
  destruct (s_data a) as [da la|da la|da la], (s_data b) as [db lb|db lb|db lb]; try lia.
  - eexists. split; [reflexivity|]. rewrite <- M.
    destruct (da =? db) eqn:E; [|split; [discriminate|intros (X & _); lia]].
    destruct (len la =? len lb) eqn:L.
    + split; [intros X; split; [lia|auto]|tauto].
    + split; [discriminate|]. intros (_ & X). apply Hl in X. lia.
  - destruct A7 as (_ & _ & Ha & Fa), B7 as (_ & _ & Hb & Fb).
    rewrite bv_eq_ok by (apply Ha || apply Hb). destruct Ha as (_ & ->), Hb as (_ & ->).
    rewrite N.eqb_refl. cbn [andb bind]. eexists. split; [reflexivity|]. rewrite <- M.
    rewrite (rename_eqb N.eqb id_N uval bv_eqb).
    2:{ intros; apply faithful_id. }
    2:{ intros e e' He He'. rewrite Forall_forall in Fa, Fb. destruct (Fa _ He), (Fb _ He').
        now apply (bv_eqb_uval _ _ dw). }
    2:{ intros x y. apply N_eqb_eq. }
    unfold rename in Hl. rewrite !len_map in Hl. fold (rename id_N uval la) in Hl. fold (rename id_N uval lb) in Hl.
    destruct (uval da =? uval db) eqn:E; [|split; [discriminate|intros (X & _); lia]].
    destruct (len la =? len lb) eqn:L.
    + split; [intros X; split; [lia|auto]|tauto].
    + split; [discriminate|]. intros (_ & X). apply Hl in X. lia.
  - destruct A7 as (_ & Ha & Fa), B7 as (_ & Hb & Fb).
    rewrite bv_eq_ok by (apply Ha || apply Hb). destruct Ha as (_ & ->), Hb as (_ & ->).
    rewrite N.eqb_refl. cbn [andb bind]. eexists. split; [reflexivity|]. rewrite <- M.
    rewrite Forall_forall in Fa.
    rewrite (rename_eqb bv_eqb uval uval bv_eqb).
    2:{ intros e He. apply (faithful_bv lb (fst e) iw); [|apply (Fa _ He)].
        eapply Forall_impl; [|exact Fb]. intros ? (X & _). exact X. }
    2:{ intros e e' He He'. rewrite Forall_forall in Fb. destruct (Fa _ He) as (_ & ? & ?), (Fb _ He') as (_ & ? & ?).
        now apply (bv_eqb_uval _ _ dw). }
    2:{ intros x y. apply bv_eqb_eq. }
    unfold rename in Hl. rewrite !len_map in Hl. fold (rename uval uval la) in Hl. fold (rename uval uval lb) in Hl.
    destruct (uval da =? uval db) eqn:E; [|split; [discriminate|intros (X & _); lia]].
    destruct (len la =? len lb) eqn:L.
    + split; [intros X; split; [lia|auto]|tauto].
    + split; [discriminate|]. intros (_ & X). apply Hl in X. lia.
Qed.

(** In terms of the contents: equal defaults and equal elements. *)
Lemma sparse_equal_contents a b iw dw f g : sparse_is a iw dw f -> sparse_is b iw dw g ->
  (sdef a = sdef b /\ forall k, hm_get N.eqb (sent a) k = hm_get N.eqb (sent b) k)
  <-> (sdef a = sdef b /\ same_contents iw f g).
Proof.
  intros (Wa & Ia & Da & Fa) (Wb & Ib & Db & Fb). split; intros (E & H); (split; [exact E|]).
  - intros i Hi. rewrite <- Fa, <- Fb by auto. unfold selem. now rewrite E, H.
  - destruct Wa as (_ & _ & _ & _ & Na & Oa & _), Wb as (_ & _ & _ & _ & Nb & Ob & _).
    rewrite Forall_forall in Oa, Ob. rewrite Ia in Oa. rewrite Ib in Ob.
    assert (Hs : forall i, i < 2 ^ iw -> selem a i = selem b i).
    { intros i Hi. rewrite Fa, Fb by auto. now apply H. }
    intros k. destruct (hm_get N.eqb (sent a) k) as [x|] eqn:Ga.
    + assert (X := get_in _ N_eqb_eq _ _ _ Ga). destruct (Oa _ X) as (X1 & _ & X3). cbn [fst snd] in *.
      specialize (Hs k X1). unfold selem in Hs. rewrite Ga in Hs. cbn [unwrap_or] in Hs.
      destruct (hm_get N.eqb (sent b) k); cbn [unwrap_or] in Hs; [congruence|]. congruence.
    + destruct (hm_get N.eqb (sent b) k) as [y|] eqn:Gb; [|reflexivity].
      assert (X := get_in _ N_eqb_eq _ _ _ Gb). destruct (Ob _ X) as (X1 & _ & X3). cbn [fst snd] in *.
      specialize (Hs k X1). unfold selem in Hs. rewrite Ga, Gb in Hs. cbn [unwrap_or] in Hs. congruence.
Qed.

Lemma dense_addressable d : dense_wf d -> addressable (d_iw d) (d_dw d).
Proof.
  intros ((I & By) & D0 & D32 & _ & S). split; [exact By|].
  intros E. rewrite E in S. destruct (d_data d); lia.
Qed.

(** All four combinations of storage.  [Some true] always means equal contents;
    [Some false] always means different contents unless both are sparse and
    their defaults differ. *)
Lemma array_equal_ok probe ho m a b iw dw f iw' dw' g r : hashing probe -> reorders ho ->
  built probe ho m a iw dw f -> built probe ho m b iw' dw' g -> array_is_equal ho m a b = Ok r ->
  (r = None <-> (iw <> iw' \/ dw <> dw'))
  /\ (r = Some true -> same_contents iw f g)
  /\ (r = Some false -> array_is_dense a = true \/ array_is_dense b = true -> ~ same_contents iw f g).
Proof.
  intros P Ho Ba Bb E. apply built_inv in Ba; auto. apply built_inv in Bb; auto.
  assert (Nn : forall b0, (iw <> iw' \/ dw <> dw') -> Ok r = Ok b0 -> b0 = None -> 
    (r = None <-> (iw <> iw' \/ dw <> dw'))
    /\ (r = Some true -> same_contents iw f g)
    /\ (r = Some false -> array_is_dense a = true \/ array_is_dense b = true -> ~ same_contents iw f g)).
  { intros b0 Hd [= ->] ->. split; [tauto|]. split; discriminate. }
  assert (Dd : forall d d', dense_is d iw dw f -> dense_is d' iw dw g -> iw = iw' -> dw = dw' ->
    dense_is_equal m d d' = Ok r ->
    (r = None <-> (iw <> iw' \/ dw <> dw'))
    /\ (r = Some true -> same_contents iw f g)
    /\ (r = Some false -> array_is_dense a = true \/ array_is_dense b = true -> ~ same_contents iw f g)).
  { intros d d' (W & E1 & E2 & F) (W' & E1' & E2' & G) Hi Hd Ee.
    destruct (dense_equal_ok m d d' iw dw W W') as (c & Ec & Hc); auto. rewrite Ec in Ee. injection Ee as <-.
    assert (Hc' : c = true <-> same_contents iw f g).
    { rewrite Hc. split; intros H i Hx; [rewrite <- F, <- G by auto|rewrite F, G by auto]; auto. }
    split; [split; [discriminate|lia]|]. split.
    - intros [= ->]. now apply Hc'.
    - intros [= ->] _ H. apply Hc' in H. discriminate. }
  destruct ((iw =? iw') && (dw =? dw')) eqn:Sh.
  - assert (Hi : iw = iw') by lia. assert (Hd : dw = dw') by lia.
    destruct a as [sa|da], b as [sb|db]; cbn [array_inv array_is_equal] in *.
    + rewrite <- Hi, <- Hd in Bb.
      assert (Ba' := Ba). assert (Bb' := Bb). destruct Ba' as (Wa & Ia & Da & _), Bb' as (Wb & Ib & Db & _).
      destruct (sparse_equal_ok m sa sb iw dw) as (c & Ec & Hc); auto. rewrite Ec in E. injection E as <-.
      rewrite (sparse_equal_contents sa sb iw dw f g Ba Bb) in Hc.
      split; [split; [discriminate|lia]|]. split.
      * intros [= ->]. now apply Hc.
      * cbn. intros _ [X|X]; discriminate.
    + rewrite <- Hi, <- Hd in Bb. unfold is_equal_mixed in E.
      assert (Ba' := Ba). assert (Bb' := Bb). destruct Ba' as (Wa & Ia & Da & Fa), Bb' as (Wb & Ib & Db & Fb).
      replace (d_iw db =? s_iw sa) with true in E by lia. replace (d_dw db =? s_dw sa) with true in E by lia.
      cbn [negb orb] in E. destruct (dense_of_sparse ho m sa) as [d|] eqn:Ed; [|discriminate]. cbn [bind] in E.
      apply (Dd d db); auto. apply (dense_ext d _ _ (selem sa)); [|exact Fa]. rewrite <- Ia, <- Da.
      apply (dense_of_sparse_inv ho m); auto. rewrite Ia, Da, <- Ib, <- Db. now apply dense_addressable.
    + rewrite <- Hi, <- Hd in Bb. unfold is_equal_mixed in E.
      assert (Ba' := Ba). assert (Bb' := Bb). destruct Ba' as (Wa & Ia & Da & Fa), Bb' as (Wb & Ib & Db & Fb).
      replace (d_iw da =? s_iw sb) with true in E by lia. replace (d_dw da =? s_dw sb) with true in E by lia.
      cbn [negb orb] in E. destruct (dense_of_sparse ho m sb) as [d|] eqn:Ed; [|discriminate]. cbn [bind] in E.
      assert (Isd : dense_is d iw dw g).
      { apply (dense_ext d _ _ (selem sb)); [|exact Fb]. rewrite <- Ib, <- Db.
        apply (dense_of_sparse_inv ho m); auto. rewrite Ib, Db, <- Ia, <- Da. now apply dense_addressable. }
      destruct Isd as (W & E1 & E2 & G).
      destruct (dense_equal_ok m d da iw dw W Wa) as (c & Ec & Hc); auto. rewrite Ec in E. injection E as <-.
      assert (Hc' : c = true <-> same_contents iw f g).
      { rewrite Hc. split; intros H i Hx; [rewrite <- Fa, <- G by auto|rewrite Fa, G by auto]; symmetry; auto. }
      split; [split; [discriminate|lia]|]. split.
      * intros [= ->]. now apply Hc'.
      * intros [= ->] _ H. apply Hc' in H. discriminate.
    + rewrite <- Hi, <- Hd in Bb. now apply (Dd da db).
  - assert (Hx : iw <> iw' \/ dw <> dw') by lia. apply (Nn r Hx eq_refl).
    destruct a as [sa|da], b as [sb|db]; cbn [array_inv array_is_equal] in *;
      destruct Ba as (_ & Ia & Da & _), Bb as (_ & Ib & Db & _).
    + unfold sparse_is_equal in E. replace (negb (s_iw sb =? s_iw sa) || negb (s_dw sb =? s_dw sa)) with true in E by lia.
      congruence.
    + unfold is_equal_mixed in E. replace (negb (d_iw db =? s_iw sa) || negb (d_dw db =? s_dw sa)) with true in E by lia.
      congruence.
    + unfold is_equal_mixed in E. replace (negb (d_iw da =? s_iw sb) || negb (d_dw da =? s_dw sb)) with true in E by lia.
      congruence.
    + unfold dense_is_equal in E. replace (negb (d_iw db =? d_iw da) || negb (d_dw db =? d_dw da)) with true in E by lia.
      congruence.
Qed.

(** Two sparse arrays: exact, and never panics. *)
Lemma sparse_equal_exact probe ho m a b iw dw f g : hashing probe -> reorders ho ->
  built probe ho m (ASparse a) iw dw f -> built probe ho m (ASparse b) iw dw g ->
  exists r da db, array_is_equal ho m (ASparse a) (ASparse b) = Ok (Some r)
    /\ sparse_default m a = Ok da /\ sparse_default m b = Ok db
    /\ (r = true <-> uval da = uval db /\ same_contents iw f g).
Proof.
  intros P Ho Ba Bb. apply built_inv in Ba; auto. apply built_inv in Bb; auto. cbn [array_inv] in *.
  assert (Ba' := Ba). assert (Bb' := Bb). destruct Ba' as (Wa & Ia & Da & _), Bb' as (Wb & Ib & Db & _).
  destruct (sparse_equal_ok m a b iw dw) as (r & E & H); auto.
  rewrite (sparse_equal_contents a b iw dw f g Ba Bb) in H.
  destruct (default_ok m a Wa) as (da & Ea & Ha), (default_ok m b Wb) as (db & Eb & Hb).
  exists r, da, db. cbn [array_is_equal]. split; [auto|]. split; [auto|]. split; [auto|].
  destruct Ha as (_ & _ & ->), Hb as (_ & _ & ->). exact H.
Qed.

(** At least one dense: never panics when the sparse one can be converted. *)
Lemma array_equal_total probe ho m a b iw dw f iw' dw' g : hashing probe -> reorders ho ->
  built probe ho m a iw dw f -> built probe ho m b iw' dw' g ->
  array_is_dense a = array_is_dense b
  \/ (fits_dense m iw dw /\ (dw <= 64 \/ m = Release)) ->
  exists r, array_is_equal ho m a b = Ok r.
Proof.
  intros P Ho Ba Bb C. apply built_inv in Ba; auto. apply built_inv in Bb; auto.
  destruct a as [sa|da], b as [sb|db]; cbn [array_inv array_is_equal array_is_dense] in *.
  - destruct Ba as (Wa & Ia & Da & _), Bb as (Wb & Ib & Db & _).
    destruct ((iw =? iw') && (dw =? dw')) eqn:Sh.
    + destruct (sparse_equal_ok m sa sb iw dw) as (r & -> & _); auto; try lia. eauto.
    + unfold sparse_is_equal. replace (negb (s_iw sb =? s_iw sa) || negb (s_dw sb =? s_dw sa)) with true by lia. eauto.
  - destruct C as [C|(Ft & C)]; [discriminate|]. destruct Ba as (Wa & Ia & Da & Fa), Bb as (Wb & Ib & Db & _).
    unfold is_equal_mixed. destruct (negb (d_iw db =? s_iw sa) || negb (d_dw db =? s_dw sa)) eqn:Sh; [eauto|].
    destruct (dense_of_sparse_ok ho m sa) as (d & Ed); auto; rewrite ?Ia, ?Da; auto; [apply Ft|now apply fits_limit|tauto|].
    rewrite Ed. cbn [bind].
    destruct (dense_of_sparse_inv ho m sa d) as (W & E1 & E2 & _); auto; [rewrite Ia, Da; apply Ft|].
    destruct (dense_equal_ok m d db iw dw) as (r & -> & _); auto; try lia. eauto.
  - destruct C as [C|(Ft & C)]; [discriminate|]. destruct Ba as (Wa & Ia & Da & Fa), Bb as (Wb & Ib & Db & _).
    unfold is_equal_mixed. destruct (negb (d_iw da =? s_iw sb) || negb (d_dw da =? s_dw sb)) eqn:Sh; [eauto|].
    assert (Ei : s_iw sb = iw) by lia. assert (Ed' : s_dw sb = dw) by lia.
    destruct (dense_of_sparse_ok ho m sb) as (d & Ed); auto; rewrite ?Ei, ?Ed'; auto; [apply Ft|now apply fits_limit|tauto|].
    rewrite Ed. cbn [bind].
    destruct (dense_of_sparse_inv ho m sb d) as (W & E1 & E2 & _); auto; [rewrite Ei, Ed'; apply Ft|].
    destruct (dense_equal_ok m d da iw dw) as (r & -> & _); auto; try lia. eauto.
  - destruct Ba as (Wa & Ia & Da & _), Bb as (Wb & Ib & Db & _).
    destruct ((iw =? iw') && (dw =? dw')) eqn:Sh.
    + destruct (dense_equal_ok m da db iw dw) as (r & -> & _); auto; try lia. eauto.
    + unfold dense_is_equal. replace (negb (d_iw db =? d_iw da) || negb (d_dw db =? d_dw da)) with true by lia. eauto.
Qed.

Lemma array_eq_iff ho m a b r : array_is_equal ho m a b = Ok r ->
  array_eq ho m a b = Ok (match r with Some true => true | _ => false end).
Proof. intros E. unfold array_eq. rewrite E. destruct r as [[|]|]; reflexivity. Qed.

(** ** Where the code falls short *)

(** Debug builds: elements wider than 64 bits, at least one of them not the default. *)
Lemma make_dense_panics probe ho s iw dw f d x0 i : hashing probe -> reorders ho ->
  built probe ho Debug (ASparse s) iw dw f -> iw <= 64 -> 64 < dw ->
  sparse_default Debug s = Ok d -> uval d = x0 -> i < 2 ^ iw -> f i <> x0 ->
  panics (array_make_dense ho Debug (ASparse s)).
Proof.
  intros P Ho B I D Ed Ux Hi X. apply built_inv in B; auto. destruct B as (W & E1 & E2 & F).
  cbn [array_make_dense]. destruct (dense_of_sparse_panics ho s Ho W) as (p & ->); try lia.
  - intros E. apply X. rewrite <- F by auto. unfold selem. rewrite E. cbn [hm_get unwrap_or].
    destruct (default_ok Debug s W) as (d' & Ed' & Hd). rewrite Ed' in Ed. injection Ed as <-.
    destruct Hd as (_ & _ & Hd). congruence.
  - eexists. reflexivity.
Qed.

Lemma make_dense_refuted probe ho : hashing probe -> reorders ho ->
  exists a f, built probe ho Debug a 2 65 f /\ fits_dense Debug 2 65 /\ array_is_sparse a = true
    /\ panics (array_make_dense ho Debug a).
Proof.
  intros P Ho.
  assert (Hd : is_bv (bv_of 65 0) 65 0) by now apply bv_of_is_bv.
  assert (Hi : is_bv (bv_of 2 1) 2 1) by now apply bv_of_is_bv.
  assert (Hx : is_bv (bv_of 65 5) 65 5) by now apply bv_of_is_bv.
  destruct (array_new_sparse Debug 2 (bv_of 65 0)) as [a0|] eqn:E0; [|discriminate].
  assert (B0 : built probe ho Debug a0 2 65 (fun _ => uval (bv_of 65 0))).
  { apply (built_sparse probe ho Debug 2 (bv_of 65 0)); [apply Hd|reflexivity|reflexivity|exact E0]. }
  vm_compute in E0. injection E0 as <-.
  assert (Lg : arr_legal 2 65 (AStore (bv_of 2 1) (bv_of 65 5))).
  { split; [apply Hi|]. split; [reflexivity|]. split; [apply Hx|reflexivity]. }
  destruct (built_mutates probe ho Debug _ _ _ _ _ P Ho B0 ltac:(lia) Lg) as (a & E).
  assert (B := built_step probe ho Debug _ _ _ _ _ _ B0 Lg E).
  destruct a as [s|d]; [|vm_compute in E; discriminate].
  exists (ASparse s). eexists. split; [exact B|]. split.
  { split; [split; [reflexivity|discriminate]|]. right. intros X. vm_compute in X. discriminate X. }
  split; [reflexivity|]. vm_compute in E. injection E as <-.
  eapply (make_dense_panics probe ho _ 2 65 _ _ 0 1 P Ho B); [lia|lia|reflexivity|reflexivity|reflexivity|].
  cbv. discriminate.
Qed.

Lemma make_sparse_refuted probe ho m : hashing probe -> reorders ho ->
  exists a, array_from_u8s m [1; 2; 8; 3] = Ok a /\ built probe ho m a 2 8 (fun i => nth (N.to_nat i) [1; 2; 8; 3] 0)
    /\ panics (sparse_of_array ho m a).
Proof.
  intros P Ho. set (l := [1; 2; 8; 3]).
  assert (F : Forall (fun x => x < 2 ^ 8) l) by (repeat constructor).
  assert (L : len l <= 2 ^ 63) by (intros X; vm_compute in X; discriminate X).
  destruct (array_from_u8s m l) as [a|] eqn:E; [|exfalso; destruct m; vm_compute in E; discriminate].
  assert (B := built_u8s probe ho m l a F L E).
  assert (Ei : array_index_width a = 2).
  { destruct m; vm_compute in E; injection E as <-; reflexivity. }
  assert (Di : array_is_dense a = true).
  { destruct m; vm_compute in E; injection E as <-; reflexivity. }
  rewrite Ei in B. exists a. split; [reflexivity|]. split; [exact B|].
  apply (make_sparse_panics probe ho m a 2 8 _ 2 P Ho B Di); try lia; try reflexivity.
Qed.

(** Two sparse arrays with the same elements but different defaults. *)
Lemma sparse_equal_refuted probe ho m : hashing probe -> reorders ho ->
  exists a b f g, built probe ho m a 1 8 f /\ built probe ho m b 1 8 g /\ same_contents 1 f g
    /\ array_is_equal ho m a b = Ok (Some false).
Proof.
  intros P Ho.
  assert (H0 : is_bv (bv_of 8 0) 8 0) by now apply bv_of_is_bv.
  assert (H1 : is_bv (bv_of 8 1) 8 1) by now apply bv_of_is_bv.
  assert (I0 : is_bv (bv_of 1 0) 1 0) by now apply bv_of_is_bv.
  assert (I1 : is_bv (bv_of 1 1) 1 1) by now apply bv_of_is_bv.
  destruct (array_new_sparse m 1 (bv_of 8 0)) as [a0|] eqn:E0; [|discriminate].
  destruct (array_new_sparse m 1 (bv_of 8 1)) as [b|] eqn:Eb; [|discriminate].
  assert (B0 := built_sparse probe ho m 1 (bv_of 8 0) a0 ltac:(apply H0) eq_refl eq_refl E0).
  assert (Bb := built_sparse probe ho m 1 (bv_of 8 1) b ltac:(apply H1) eq_refl eq_refl Eb).
  assert (L0 : arr_legal 1 8 (AStore (bv_of 1 0) (bv_of 8 1))).
  { split; [apply I0|]. split; [reflexivity|]. split; [apply H1|reflexivity]. }
  assert (L1 : arr_legal 1 8 (AStore (bv_of 1 1) (bv_of 8 1))).
  { split; [apply I1|]. split; [reflexivity|]. split; [apply H1|reflexivity]. }
  destruct (built_mutates probe ho m _ _ _ _ _ P Ho B0 ltac:(discriminate) L0) as (a1 & E1).
  assert (B1 := built_step probe ho m _ _ _ _ _ _ B0 L0 E1).
  destruct (built_mutates probe ho m _ _ _ _ _ P Ho B1 ltac:(discriminate) L1) as (a2 & E2).
  assert (B2 := built_step probe ho m _ _ _ _ _ _ B1 L1 E2).
  exists a2, b. eexists. eexists. split; [exact B2|]. split; [exact Bb|]. split.
  - intros i Hi. change (2 ^ 1) with 2 in Hi. assert (C : i = 0 \/ i = 1) by lia.
    destruct C as [-> | ->]; reflexivity.
  - vm_compute in E0. injection E0 as <-. vm_compute in Eb. injection Eb as <-.
    assert (X : a1 = ASparse (mksparse 1 8 (SU64U64 0 [(0, 1)]))) by (destruct m; vm_compute in E1; congruence).
    subst a1.
    assert (Y : a2 = ASparse (mksparse 1 8 (SU64U64 0 [(0, 1); (1, 1)]))) by (destruct m; vm_compute in E2; congruence).
    subst a2. reflexivity.
Qed.

(** ** The hypotheses are met *)
Definition some_probe : probe_oracle := fun keys k => existsb (bv_eqb k) keys.
Definition some_order : hash_order := fun _ l => l.

Lemma some_probe_hashing : hashing some_probe.
Proof.
  split; [|reflexivity]. intros keys k H. apply existsb_exists. exists k. split; [auto|]. now apply bv_eqb_eq.
Qed.

Lemma some_order_reorders : reorders some_order.
Proof. intros A l. apply Permutation_refl. Qed.

Lemma reverse_order_reorders : reorders (fun _ l => rev l).
Proof. intros A l. apply Permutation_rev. Qed.
