(** * PLoadSparse: sparse arrays of any shape (C99). *)

From Coq Require Import String ZifyBool ZifyNat ZifyN.
From Verif Require Import Base Arith Map Bv Array Serde Spec ArraySpec CallSpec PanicSpec MixedSpec LoadSpec LoadArraySpec LoadSparseSpec.
From Verif Require Import PWords PArith PShift PCompare PConv PStore PMixed PSparse PPersist PSerde PLoad PLoadArray.
Ltac Zify.zify_post_hook ::= idtac.
Open Scope list_scope.
Open Scope N_scope.

Section Entries.
  Context {K V : Type} (eqb : K -> K -> bool) (eqb_eq : forall a b, eqb a b = true <-> a = b).

  Lemma get_iff (l : list (K * V)) k v : NoDup (map fst l) -> (hm_get eqb l k = Some v <-> In (k, v) l).
  Proof. intros N. split; [now apply get_in|now apply in_get]. Qed.

  Lemma value_get (l : list (K * V)) d k : value_of l d k (unwrap_or (hm_get eqb l k) d).
  Proof.
    destruct (hm_get eqb l k) as [v|] eqn:E; cbn [unwrap_or].
    - left. now apply (get_in eqb eqb_eq).
    - right. split; auto. intros y H. apply (get_none eqb eqb_eq) in E. apply E.
      apply (in_map fst) in H. exact H.
  Qed.

  Lemma insert_entry (l : list (K * V)) k v : NoDup (map fst l) ->
    with_entry l (hm_insert eqb l k v) k (Some v).
  Proof.
    intros N. pose proof (insert_nodup eqb eqb_eq l k v N) as N'. split; auto. intros k' v'.
    rewrite <- !(get_iff _ k' v') by auto. rewrite (get_insert eqb eqb_eq). destruct (eqb k k') eqn:E.
    - apply eqb_eq in E. subst. split; [intros [= ->]; auto|intros [(_ & H)|(H & _)]; [auto|now elim H]].
    - assert (k' <> k) by (intros ->; rewrite (proj2 (eqb_eq k k)) in E; [discriminate|auto]).
      split; [auto|]. intros [(H' & _)|(_ & H')]; [now elim H|auto].
  Qed.

  Lemma remove_entry (l : list (K * V)) k : NoDup (map fst l) ->
    with_entry l (hm_remove eqb l k) k None.
  Proof.
    intros N. pose proof (remove_nodup eqb l k N) as N'. split; auto. intros k' v'.
    rewrite <- !(get_iff _ k' v') by auto. rewrite (get_remove eqb eqb_eq) by auto. destruct (eqb k k') eqn:E.
    - apply eqb_eq in E. subst. split; [discriminate|intros [(_ & H)|(H & _)]; [discriminate|now elim H]].
    - assert (k' <> k) by (intros ->; rewrite (proj2 (eqb_eq k k)) in E; [discriminate|auto]).
      split; [auto|]. intros [(H' & _)|(_ & H')]; [now elim H|auto].
  Qed.

  Lemma maps_equal (veqb : V -> V -> bool) (a b : list (K * V)) :
    (forall x y, veqb x y = true <-> x = y) -> NoDup (map fst a) -> NoDup (map fst b) ->
    ((if len a =? len b then hm_eqb eqb veqb a b else false) = true <-> same_entries a b).
  Proof.
    intros Hv Na Nb.
    assert (E : (if len a =? len b then hm_eqb eqb veqb a b else false) = hm_eqb eqb veqb a b)
      by (unfold hm_eqb; destruct (len a =? len b); reflexivity).
    rewrite E, (map_eqb_ok eqb eqb_eq veqb a b Hv Na Nb). unfold same_entries. split.
    - intros H [k v]. rewrite <- !(get_iff _ k v) by auto. now rewrite H.
    - intros H k. destruct (hm_get eqb a k) as [v|] eqn:G.
      + apply get_iff in G; auto. apply H in G. symmetry. now apply get_iff.
      + destruct (hm_get eqb b k) as [v|] eqn:G'; auto. apply get_iff in G'; auto. apply H in G'.
        apply get_iff in G'; auto. congruence.
  Qed.

  Lemma entries_range (dk : tree -> option K) (dv : tree -> option V) (P : K -> Prop) (Q : V -> Prop) l :
    (forall t k, dk t = Some k -> P k) -> (forall t v, dv t = Some v -> Q v) ->
    forall acc r, NoDup (map fst acc) -> (forall k v, In (k, v) acc -> P k /\ Q v) ->
    de_entries eqb dk dv l acc = Some r ->
    NoDup (map fst r) /\ forall k v, In (k, v) r -> P k /\ Q v.
  Proof.
    intros HP HQ. induction l as [|[a b] l IH]; intros acc r N F H; cbn [de_entries] in H.
    - injection H as <-. auto.
    - destruct (dk a) as [k|] eqn:Ek; [|discriminate]. cbn [obind] in H.
      destruct (dv b) as [v|] eqn:Ev; [|discriminate]. cbn [obind] in H. eapply IH; [| |exact H].
      + now apply (insert_nodup eqb eqb_eq).
      + intros k' v' I. apply (in_insert eqb eqb_eq) in I. destruct I as [[= -> ->]|I]; eauto.
  Qed.

  Lemma map_range (dk : tree -> option K) (dv : tree -> option V) (P : K -> Prop) (Q : V -> Prop) t r :
    (forall t k, dk t = Some k -> P k) -> (forall t v, dv t = Some v -> Q v) ->
    de_map eqb dk dv t = Some r -> NoDup (map fst r) /\ forall k v, In (k, v) r -> P k /\ Q v.
  Proof.
    intros HP HQ H. destruct t; try discriminate. cbn [de_map] in H.
    eapply entries_range; [exact HP|exact HQ| | |exact H]; [constructor|intros ? ? []].
  Qed.
End Entries.

(** ** The calls *)

Lemma index_stop {A} m s index (k : res A) : index_ok m s index = false ->
  panics (let* _ := debug_assert m (width index =? s_iw s) in k).
Proof. unfold index_ok. destruct m; [|discriminate]. cbn [debug_assert]. intros ->. eexists. reflexivity. Qed.
Lemma index_pass {A} m s index (k : res A) : index_ok m s index = true ->
  (let* _ := debug_assert m (width index =? s_iw s) in k) = k.
Proof. unfold index_ok. destruct m; cbn [debug_assert]; [intros ->|]; reflexivity. Qed.
Lemma data_stop {A} m s x (k : res A) : data_ok m s x = false ->
  panics (let* _ := debug_assert m (width x =? s_dw s) in k).
Proof. unfold data_ok. destruct m; [|discriminate]. cbn [debug_assert]. intros ->. eexists. reflexivity. Qed.
Lemma data_pass {A} m s x (k : res A) : data_ok m s x = true ->
  (let* _ := debug_assert m (width x =? s_dw s) in k) = k.
Proof. unfold data_ok. destruct m; cbn [debug_assert]; [intros ->|]; reflexivity. Qed.

Lemma sparse_select_load probe m s index : hashing probe -> loaded_sparse s -> loaded index ->
  load_sparse_select m s index (sparse_select probe m s index).
Proof.
  intros (P1 & P2) (Hi & Hd & F) Li. unfold sparse_select, load_sparse_select.
  destruct (index_ok m s index) eqn:A; [|now apply index_stop]. rewrite index_pass by auto. clear A.
  destruct (answers_load index Li) as (_ & U & _). rewrite U. clear U.
  destruct (s_data s) as [d l|d l|d l].
  - destruct (uval index <? 2 ^ 64); [|eexists; reflexivity]. cbn [unwrap bind].
    exists (unwrap_or (hm_get N.eqb l (uval index)) d). split; [apply (value_get N.eqb N.eqb_eq)|].
    apply from_word_load; auto. destruct F as (Hx & N & F).
    destruct (hm_get N.eqb l (uval index)) as [v|] eqn:G; cbn [unwrap_or]; auto.
    apply (get_in N.eqb N.eqb_eq) in G. now apply F in G.
  - destruct (uval index <? 2 ^ 64); [|eexists; reflexivity]. cbn [unwrap bind].
    eexists. split; [apply (value_get N.eqb N.eqb_eq)|reflexivity].
  - unfold hm_get_borrowed. split; [|split].
    + intros (x & H). apply (in_map fst) in H. rewrite P1 by exact H. eexists. reflexivity.
    + intros ->. cbn [map]. rewrite P2. reflexivity.
    + destruct (probe (map fst l) index); [right; eexists; reflexivity|left; reflexivity].
Qed.

Lemma ref_same v : bv_owned_of_ref v = v.
Proof. now destruct v. Qed.

Lemma sparse_store_load probe m s index x : hashing probe -> loaded_sparse s -> loaded index -> loaded x ->
  load_sparse_store m s index x (sparse_store probe m s index x).
Proof.
  intros (P1 & P2) (Hi & Hd & F) Li Lx. unfold sparse_store, load_sparse_store.
  destruct (index_ok m s index) eqn:A; cbn [andb]; [|now apply index_stop]. rewrite index_pass by auto. clear A.
  destruct (data_ok m s x) eqn:A; [|now apply data_stop]. rewrite data_pass by auto. clear A.
  destruct (answers_load index Li) as (_ & U & _). destruct (answers_load x Lx) as (_ & U' & _).
  destruct (s_data s) as [d l|d l|d l] eqn:D.
  - rewrite U, U'. destruct F as (Hx & N & F).
    destruct (uval index <? 2 ^ 64); cbn [unwrap bind andb]; [|eexists; reflexivity].
    destruct (uval x <? 2 ^ 64); cbn [unwrap bind]; [|eexists; reflexivity].
    eexists. split; [reflexivity|]. destruct (uval x =? d).
    + now apply (remove_entry N.eqb N.eqb_eq).
    + now apply (insert_entry N.eqb N.eqb_eq).
  - rewrite U. destruct F as (Ld & N & F). pose proof (equal_load m x d Lx Ld) as G.
    destruct (load_equal m x d) as [e|]; cbn [answers] in G.
    + rewrite G. destruct (uval index <? 2 ^ 64); cbn [unwrap bind]; [|eexists; reflexivity].
      rewrite ref_same. eexists. split; [reflexivity|]. destruct e.
      * now apply (remove_entry N.eqb N.eqb_eq).
      * now apply (insert_entry N.eqb N.eqb_eq).
    + destruct G as (k & ->). destruct (uval index <? 2 ^ 64); eexists; reflexivity.
  - destruct F as (Ld & N & F). pose proof (equal_load m x d Lx Ld) as G.
    destruct (load_equal m x d) as [[|]|]; cbn [answers] in G.
    + rewrite G. cbn [bind]. unfold hm_remove_borrowed.
      assert (S : mksparse (s_iw s) (s_dw s) (SBigBig d l) = s) by (rewrite <- D; now destruct s).
      split; [|split].
      * intros (y & H). apply (in_map fst) in H. rewrite P1 by exact H. eexists. reflexivity.
      * intros ->. cbn [map]. rewrite P2. cbn [bind]. now rewrite S.
      * destruct (probe (map fst l) index); [right; eexists; reflexivity|left; cbn [bind]; now rewrite S].
    + rewrite G. cbn [bind]. rewrite !ref_same. eexists. split; [reflexivity|].
      now apply (insert_entry bv_eqb bv_eqb_eq).
    + destruct G as (k & ->). eexists. reflexivity.
Qed.

(** what was loaded and updated could have been loaded *)
Lemma sparse_store_loaded probe m s index x s' : hashing probe -> loaded_sparse s -> loaded index -> loaded x ->
  sparse_store probe m s index x = Ok s' -> loaded_sparse s'.
Proof.
  intros P Ls Li Lx H. pose proof (sparse_store_load probe m s index x P Ls Li Lx) as G. rewrite H in G.
  assert (NP : forall Q : Prop, panics (Ok s' : res sparse) -> Q) by (intros Q (k & E); discriminate).
  unfold load_sparse_store in G. destruct (_ && _); [|now apply NP].
  destruct Ls as (Hi & Hd & F). destruct (s_data s) as [d l|d l|d l] eqn:D.
  - destruct ((uval index <? 2 ^ 64) && (uval x <? 2 ^ 64)) eqn:B; [|now apply NP].
    destruct G as (l' & [= ->] & N & E). split; [exact Hi|]. split; [exact Hd|]. cbn [s_data].
    apply andb_true_iff in B as (B1 & B2). apply N.ltb_lt in B1, B2.
    destruct F as (F1 & F2 & F3). split; [exact F1|]. split; [exact N|].
    intros k v I. apply E in I as [(-> & O)|(_ & I)]; [|now apply F3].
    destruct (uval x =? d); [discriminate|]. injection O as <-. auto.
  - destruct (load_equal m x d) as [e|]; [|now apply NP].
    destruct (N.ltb_spec (uval index) (2 ^ 64)) as [B|B]; [|now apply NP].
    destruct G as (l' & [= ->] & N & E). split; [exact Hi|]. split; [exact Hd|]. cbn [s_data].
    destruct F as (F1 & F2 & F3). split; [exact F1|]. split; [exact N|].
    intros k v I. apply E in I as [(-> & O)|(_ & I)]; [|now apply F3].
    destruct e; [discriminate|]. injection O as <-. auto.
  - destruct (load_equal m x d) as [[|]|]; [| |now apply NP].
    + destruct G as (_ & _ & [[= ->]|G]); [|now apply NP]. split; [exact Hi|]. split; [exact Hd|].
      rewrite D. exact F.
    + destruct G as (l' & [= ->] & N & E). split; [exact Hi|]. split; [exact Hd|]. cbn [s_data].
      destruct F as (F1 & F2 & F3). split; [exact F1|]. split; [exact N|].
      intros k v I. apply E in I as [(-> & O)|(_ & I)]; [|now apply F3].
      injection O as <-. auto.
Qed.

Lemma sparse_default_load m s : loaded_sparse s -> load_sparse_default m s (sparse_default m s).
Proof.
  intros (Hi & Hd & F). unfold sparse_default, load_sparse_default.
  destruct (s_data s) as [d l|d l|d l]; auto. apply from_word_load; auto. apply F.
Qed.

Lemma tidy_eq m a b : m = Release \/ (tidy_bv a /\ tidy_bv b) -> exists e, bv_eq m a b = Ok e /\ (e = true <-> a = b).
Proof.
  intros H. destruct (owned_eq_release a b) as (e & E & I). exists e. split; auto. destruct m; auto.
  destruct H as [H|(A & B)]; [discriminate|].
  destruct (owned_eq_debug a b) as (_ & G). rewrite G; auto.
  destruct (N.eq_dec (width a) (width b)) as [W|W]; auto. right. unfold tidy_bv in *. now rewrite A, B, W.
Qed.

Lemma sparse_equal_load m a b : m = Release \/ (tidy a /\ tidy b) -> loaded_sparse a -> loaded_sparse b ->
  load_sparse_equal a b (sparse_is_equal m a b).
Proof.
  intros T (_ & _ & Fa) (_ & _ & Fb). unfold sparse_is_equal, load_sparse_equal.
  rewrite (N.eqb_sym (s_iw b)), (N.eqb_sym (s_dw b)).
  destruct (s_iw a =? s_iw b), (s_dw a =? s_dw b); cbn [negb orb andb]; try reflexivity.
  unfold tidy in T.
  destruct (s_data a) as [d l|d l|d l], (s_data b) as [d' l'|d' l'|d' l']; try (eexists; reflexivity);
    destruct Fa as (_ & Na & _), Fb as (_ & Nb & _).
  - eexists. split; [reflexivity|]. destruct (N.eqb_spec d d') as [E|E].
    + rewrite (maps_equal N.eqb N.eqb_eq N.eqb l l' N.eqb_eq Na Nb). tauto.
    + split; [discriminate|tauto].
  - destruct (tidy_eq m d d') as (e & -> & I); [tauto|]. cbn [bind]. eexists. split; [reflexivity|]. destruct e.
    + rewrite (maps_equal N.eqb N.eqb_eq bv_eqb l l' bv_eqb_eq Na Nb). tauto.
    + split; [discriminate|]. intros (E & _). now apply I in E.
  - destruct (tidy_eq m d d') as (e & -> & I); [tauto|]. cbn [bind]. eexists. split; [reflexivity|]. destruct e.
    + rewrite (maps_equal bv_eqb bv_eqb_eq bv_eqb l l' bv_eqb_eq Na Nb). tauto.
    + split; [discriminate|]. intros (E & _). now apply I in E.
Qed.

Lemma zero_shaped w : w < 2 ^ 32 -> well_shaped (bv_zero w) /\ width (bv_zero w) = w /\ uval (bv_zero w) = 0.
Proof.
  intros H. pose proof (zero_is_bv w H) as Z. apply is_bv_inv in Z as (W & Hw & L & F & V & B).
  split; [|auto]. split; [exact H|]. split; auto.
Qed.

Lemma sparse_clear_load s : loaded_sparse s -> emptied s (sparse_clear s).
Proof.
  intros (Hi & Hd & F). unfold emptied, sparse_clear. cbn [s_iw s_dw s_data].
  split; [reflexivity|]. split; [reflexivity|].
  destruct (s_data s) as [d l|d l|d l]; [reflexivity| |]; now apply zero_shaped.
Qed.

(** ** What can be loaded *)

Lemma bv_back v : loaded v -> de_bv (ser_bv v) = Some v.
Proof.
  intros (Hw & F). unfold ser_bv. cbn [de_bv].
  change (field "width" _) with (Some (TInt (width v))).
  change (field "words" _) with (Some (TSeq (map TInt (words v)))). cbn [obind de_int de_seq].
  apply N.ltb_lt in Hw. rewrite B32_eq, Hw. cbn [obind]. rewrite B64_eq, omapM_ints by auto.
  destruct v. reflexivity.
Qed.
Lemma word_back n : n < 2 ^ 64 -> de_int B64 (TInt n) = Some n.
Proof. intros H. apply de_int_ok. now rewrite B64_eq. Qed.
Lemma int_range b t n : de_int b t = Some n -> n < b.
Proof.
  destruct t; try discriminate. cbn [de_int]. destruct (N.ltb_spec n0 b); [|discriminate]. now intros [= <-].
Qed.
Lemma word_range t n : de_int B64 t = Some n -> n < 2 ^ 64.
Proof. intros H. apply int_range in H. now rewrite B64_eq in H. Qed.
Lemma field_range o n : obind o (de_int B32) = Some n -> n < 2 ^ 32.
Proof. destruct o; [|discriminate]. cbn [obind]. intros H. apply int_range in H. now rewrite B32_eq in H. Qed.

Lemma sparse_loadable s : loaded_sparse s <-> exists t, de_sparse t = Some s.
Proof.
  split.
  - intros (Hi & Hd & F). exists (ser_sparse (fun _ l => l) s). unfold ser_sparse. cbn [de_sparse].
    change (field "index_width" _) with (Some (TInt (s_iw s))).
    change (field "data_width" _) with (Some (TInt (s_dw s))).
    change (field "data" _) with (Some (ser_sparse_impl (fun _ l => l) (s_data s))). cbn [obind de_int].
    apply N.ltb_lt in Hi, Hd. rewrite B32_eq, Hi, Hd. cbn [obind].
    destruct s as [iw dw data]. cbn [s_data s_iw s_dw] in *.
    assert (E : de_sparse_impl (ser_sparse_impl (fun _ l => l) data) = Some data).
    { destruct data as [d l|d l|d l]; destruct F as (Fd & N & F);
        cbn [ser_sparse_impl de_sparse_impl String.eqb Ascii.eqb Bool.eqb].
      - rewrite word_back by auto. cbn [obind]. unfold ser_map, de_map.
        rewrite (de_entries_ok N.eqb N.eqb_eq); [reflexivity|exact N|].
        apply Forall_forall. intros [k v] I. apply F in I as (I1 & I2). split; now apply word_back.
      - rewrite bv_back by auto. cbn [obind]. unfold ser_map, de_map.
        rewrite (de_entries_ok N.eqb N.eqb_eq); [reflexivity|exact N|].
        apply Forall_forall. intros [k v] I. apply F in I as (I1 & I2). split; [now apply word_back|now apply bv_back].
      - rewrite bv_back by auto. cbn [obind]. unfold ser_map, de_map.
        rewrite (de_entries_ok bv_eqb bv_eqb_eq); [reflexivity|exact N|].
        apply Forall_forall. intros [k v] I. apply F in I as (I1 & I2). split; now apply bv_back. }
    rewrite E. reflexivity.
  - intros (t & H). destruct t; try discriminate. cbn [de_sparse] in H.
    destruct (obind (field "index_width" fields) (de_int B32)) as [iw|] eqn:E1; [|discriminate].
    destruct (obind (field "data_width" fields) (de_int B32)) as [dw|] eqn:E2; [|discriminate].
    cbn [obind] in H. apply field_range in E1, E2.
    destruct (obind (field "data" fields) de_sparse_impl) as [data|] eqn:E3; [|discriminate].
    injection H as <-. split; [exact E1|]. split; [exact E2|]. cbn [s_data].
    destruct (field "data" fields) as [t|]; [|discriminate]. cbn [obind] in E3.
    destruct t as [| | | | |n [|d [|l [|]]]]; try discriminate. cbn [de_sparse_impl] in E3.
    destruct (String.eqb n "U64U64").
    { destruct (de_int B64 d) as [d'|] eqn:V; [|discriminate]. cbn [obind] in E3.
      destruct (de_map _ _ _ l) as [l'|] eqn:L; [|discriminate]. injection E3 as <-.
      split; [now apply word_range in V|]. eapply (map_range N.eqb N.eqb_eq); [| |exact L]; exact word_range. }
    destruct (String.eqb n "U64Big").
    { destruct (de_bv d) as [d'|] eqn:V; [|discriminate]. cbn [obind] in E3.
      destruct (de_map _ _ _ l) as [l'|] eqn:L; [|discriminate]. injection E3 as <-.
      split; [exact (de_bv_range _ _ V)|].
      eapply (map_range N.eqb N.eqb_eq); [| |exact L]; [exact word_range|exact de_bv_range]. }
    destruct (String.eqb n "BigBig"); [|discriminate].
    destruct (de_bv d) as [d'|] eqn:V; [|discriminate]. cbn [obind] in E3.
    destruct (de_map _ _ _ l) as [l'|] eqn:L; [|discriminate]. injection E3 as <-.
    split; [exact (de_bv_range _ _ V)|].
    eapply (map_range bv_eqb bv_eqb_eq); [| |exact L]; exact de_bv_range.
Qed.

(** ** Iterating over the entries *)

Lemma mapM_cases {A B} (f : A -> res B) (R : A -> B -> Prop) (bad : A -> Prop) l :
  (forall x, In x l -> (exists y, f x = Ok y /\ R x y) \/ (panics (f x) /\ bad x)) ->
  (exists out, mapM f l = Ok out /\ Forall2 R l out) \/ (panics (mapM f l) /\ exists x, In x l /\ bad x).
Proof.
  induction l as [|x l IH]; intros H; cbn [mapM].
  - left. exists []. auto.
  - destruct (H x) as [(y & -> & Hy)|((k & ->) & Hb)]; [now left| |].
    + cbn [bind]. destruct IH as [(out & -> & F)|((k & ->) & z & Hz & Hb)].
      * intros z Hz. apply H. now right.
      * left. exists (y :: out). auto.
      * right. split; [eexists; reflexivity|]. exists z. split; [now right|auto].
    + right. split; [eexists; reflexivity|]. exists x. split; [now left|auto].
Qed.

Lemma read_cases m w x : x < 2 ^ 64 -> w < 2 ^ 32 ->
  (exists v, bv_from_u64 m x w = Ok v /\ reads_as m w x v)
  \/ (panics (bv_from_u64 m x w) /\ read_number m w x = None).
Proof.
  intros Hx Hw. pose proof (from_word_load m x w Hx Hw) as G. unfold reads_as, read_number in *.
  destruct (_ || _); [right; auto|]. left. destruct G as (v & E & S & W & U). exists v. rewrite U. auto.
Qed.

Lemma sparse_entries_load ho m s : reorders ho -> loaded_sparse s ->
  load_sparse_entries ho m s (sparse_entries ho m s).
Proof.
  intros Ho (Hi & Hd & F). unfold sparse_entries, load_sparse_entries.
  assert (Back : forall A (l : list A) e, In e (ho _ l) -> In e l).
  { intros A l e H. eapply Permutation.Permutation_in; [apply Permutation.Permutation_sym, Ho|exact H]. }
  destruct (s_data s) as [d l|d l|d l]; [| |reflexivity]; destruct F as (_ & _ & F).
  - match goal with |- context [mapM ?f _] => set (g := f) end.
    destruct (mapM_cases g
      (fun e o => reads_as m (s_iw s) (fst e) (fst o) /\ reads_as m (s_dw s) (snd e) (snd o))
      (fun e => read_number m (s_iw s) (fst e) = None \/ read_number m (s_dw s) (snd e) = None)
      (ho _ l)) as [H|(H & [k v] & I & B)].
    + intros [k v] I. apply Back, F in I as (Hk & Hv). unfold g. cbn [fst snd].
      destruct (read_cases m (s_iw s) k Hk Hi) as [(i & -> & Ri)|((q & ->) & Ri)].
      2:{ right. split; [eexists; reflexivity|auto]. }
      cbn [bind]. destruct (read_cases m (s_dw s) v Hv Hd) as [(x & -> & Rx)|((q & ->) & Rx)].
      2:{ right. split; [eexists; reflexivity|auto]. }
      left. eexists. split; [reflexivity|auto].
    + left. exact H.
    + right. split; [exact H|]. exists k, v. split; [now apply Back|exact B].
  - match goal with |- context [mapM ?f _] => set (g := f) end.
    destruct (mapM_cases g (fun e o => reads_as m (s_iw s) (fst e) (fst o) /\ snd o = snd e)
      (fun e => read_number m (s_iw s) (fst e) = None) (ho _ l)) as [H|(H & [k v] & I & B)].
    + intros [k v] I. apply Back, F in I as (Hk & Hv). unfold g. cbn [fst snd].
      destruct (read_cases m (s_iw s) k Hk Hi) as [(i & -> & Ri)|((q & ->) & Ri)].
      2:{ right. split; [eexists; reflexivity|auto]. }
      left. eexists. split; [reflexivity|auto].
    + left. exact H.
    + right. split; [exact H|]. exists k, v. split; [now apply Back|exact B].
Qed.

(** ** Either kind *)

Lemma array_loadable a :
  (match a with ADense d => loaded_dense d | ASparse s => loaded_sparse s end) <-> exists t, de_array t = Some a.
Proof.
  split.
  - destruct a as [s|d]; intros H.
    + apply sparse_loadable in H as (t & H). exists (TStruct [("data"%string, TNewtype "Sparse" t)]).
      cbn [de_array]. change (field "data" _) with (Some (TNewtype "Sparse" t)).
      cbn [obind String.eqb Ascii.eqb Bool.eqb]. rewrite H. reflexivity.
    + apply dense_loadable in H as (t & H). exists (TStruct [("data"%string, TNewtype "Dense" t)]).
      cbn [de_array]. change (field "data" _) with (Some (TNewtype "Dense" t)).
      cbn [obind String.eqb Ascii.eqb Bool.eqb]. rewrite H. reflexivity.
  - intros (t & H). destruct t; try discriminate. cbn [de_array] in H.
    destruct (field "data" fields) as [t|]; [|discriminate]. cbn [obind] in H.
    destruct t; try discriminate. destruct (String.eqb variant "Sparse").
    { destruct (de_sparse t) as [s|] eqn:E; [|discriminate]. injection H as <-. apply sparse_loadable. eauto. }
    destruct (String.eqb variant "Dense"); [|discriminate].
    destruct (de_dense t) as [d|] eqn:E; [|discriminate]. injection H as <-. apply dense_loadable. eauto.
Qed.

(** ** Histories of stores *)

Lemma entry_step {V} (l l' : list (N * V)) k0 o k e : with_entry l l' k0 o -> entry l k e ->
  entry l' k (if k0 =? k then o else e).
Proof.
  intros (_ & W) H v. rewrite W. destruct (N.eqb_spec k0 k) as [<-|D].
  - split; [intros [(_ & E)|(E & _)]; [auto|now elim E]|auto].
  - rewrite <- (H v). split; [intros [(E & _)|(_ & E)]; [now elim D|auto]|]. intros E. right. auto.
Qed.

Lemma sparse_history probe m ops : hashing probe -> forall s,
  loaded_sparse s -> Forall (fun op => loaded (fst op) /\ loaded (snd op)) ops ->
  match s_data s with SBigBig _ _ => False | _ => True end ->
  let r := foldM (fun s op => sparse_store probe m s (fst op) (snd op)) ops s in
  (Forall (history_passes m s) ops -> exists s', r = Ok s' /\ loaded_sparse s' /\ load_history m s ops s')
  /\ (~ Forall (history_passes m s) ops -> panics r).
Proof.
  intros P. induction ops as [|[i x] ops IH]; intros s Ls F Kind r.
  - split; [|intros H; now elim H].
    intros _. exists s. split; [reflexivity|]. split; auto. unfold load_history.
    split; [reflexivity|]. split; [reflexivity|]. destruct (s_data s); try easy; auto.
  - inversion F as [|? ? (Li & Lx) F']; subst. cbn [fst snd] in *.
    pose proof (sparse_store_load probe m s i x P Ls Li Lx) as G.
    pose proof (sparse_store_loaded probe m s i x) as L1.
    subst r. cbn [foldM fst snd].
    assert (Step : (history_passes m s (i, x) /\ exists s1, sparse_store probe m s i x = Ok s1 /\ load_history m s [(i, x)] s1)
                   \/ (~ history_passes m s (i, x) /\ panics (sparse_store probe m s i x))).
    { clear - G Kind. unfold load_sparse_store, history_passes in *. cbn [fst snd].
      destruct (index_ok m s i); cbn [andb] in G; [|right; split; [intros (H & _); discriminate|exact G]].
      destruct (data_ok m s x); [|right; split; [intros (_ & H & _); discriminate|exact G]].
      destruct (s_data s) as [d l|d l|d l] eqn:D; [| |easy].
      - destruct (N.ltb_spec (uval i) (2 ^ 64)) as [A|A]; cbn [andb] in G.
        2:{ right. split; [|exact G]. intros (_ & _ & H & _). now apply N.lt_nge in H. }
        destruct (N.ltb_spec (uval x) (2 ^ 64)) as [B|B].
        2:{ right. split; [|exact G]. intros (_ & _ & _ & H). now apply N.lt_nge in H. }
        destruct G as (l' & -> & W). left. split; [auto|]. eexists. split; [reflexivity|].
        unfold load_history. rewrite D. cbn [s_iw s_dw s_data]. split; [reflexivity|]. split; [reflexivity|].
        split; [reflexivity|]. intros k e E. cbn [fold_left]. unfold number_after. cbn [fst snd].
        now apply (entry_step l l').
      - destruct (load_equal m x d) as [b|] eqn:Q.
        2:{ right. split; [|exact G]. intros (_ & _ & _ & H). now elim H. }
        destruct (N.ltb_spec (uval i) (2 ^ 64)) as [A|A].
        2:{ right. split; [|exact G]. intros (_ & _ & H & _). now apply N.lt_nge in H. }
        destruct G as (l' & -> & W). left. split; [repeat split; auto; discriminate|]. eexists. split; [reflexivity|].
        unfold load_history. rewrite D. cbn [s_iw s_dw s_data]. split; [reflexivity|]. split; [reflexivity|].
        split; [reflexivity|]. intros k e E. cbn [fold_left]. unfold value_after. cbn [fst snd]. rewrite Q.
        replace (match Some b with Some false => Some x | _ => None end) with (if b then None else Some x)
          by (destruct b; reflexivity).
        now apply (entry_step l l'). }
    destruct Step as [(Hp & s1 & E & H1)|(Hp & (k & E))].
    2:{ rewrite E. split; [|intros _; eexists; reflexivity].
        intros H. inversion H; subst. now elim Hp. }
    specialize (L1 s1 P Ls Li Lx E). rewrite E. cbn [bind]. clear G E.
    destruct H1 as (I1 & W1 & H1).
    assert (Acc : forall o, Forall (history_passes m s1) o <-> Forall (history_passes m s) o).
    { intros o. apply Forall_iff_h. intros a. unfold history_passes, index_ok, data_ok. rewrite I1, W1.
      destruct (s_data s) as [d l|d l|d l], (s_data s1) as [d1 l1|d1 l1|d1 l1]; try easy.
      destruct H1 as (-> & _). reflexivity. }
    assert (K1 : match s_data s1 with SBigBig _ _ => False | _ => True end).
    { destruct (s_data s), (s_data s1); easy. }
    destruct (IH s1 L1 F' K1) as (IH1 & IH2). split.
    + intros H. inversion H as [|? ? _ H']; subst. apply Acc in H'.
      destruct (IH1 H') as (s' & -> & L' & (I2 & W2 & H2)). exists s'. split; [reflexivity|]. split; auto.
      split; [congruence|]. split; [congruence|].
      destruct (s_data s) as [d l|d l|d l], (s_data s1) as [d1 l1|d1 l1|d1 l1]; try easy;
        destruct (s_data s') as [d' l'|d' l'|d' l']; try easy;
        destruct H1 as (-> & H1), H2 as (-> & H2); split; auto; intros k e E; cbn [fold_left];
        apply H2, (H1 k e E).
    + intros H. apply IH2. intros H'. apply H. constructor; [exact Hp|now apply Acc].
Qed.
