(** * PSparse: sparse arrays (C38, C42). *)

From Coq Require Import ZifyBool ZifyNat ZifyN Permutation.
From Verif Require Import Base Arith Map Bv Array Spec ArraySpec.
From Verif Require Import PWords PArith PShift PropsArith PConv PCompare PIo PRegister PStore PDense.

Ltac Zify.zify_post_hook ::= idtac.

(** ** Maps *)
Section Maps.
  Context {K V : Type} (eqb : K -> K -> bool).
  Hypothesis eqb_eq : forall a b, eqb a b = true <-> a = b.

  Lemma eqb_refl k : eqb k k = true.
  Proof. now apply eqb_eq. Qed.

  Lemma eqb_neq a b : a <> b -> eqb a b = false.
  Proof. intros H. destruct (eqb a b) eqn:E; [|reflexivity]. apply eqb_eq in E. contradiction. Qed.

  Lemma get_in (l : list (K * V)) k v : hm_get eqb l k = Some v -> In (k, v) l.
  Proof.
    induction l as [|[a b] t IH]; cbn; [discriminate|]. destruct (eqb a k) eqn:E.
    - intros [= ->]. apply eqb_eq in E. subst. auto.
    - auto.
  Qed.

  Lemma get_none (l : list (K * V)) k : hm_get eqb l k = None <-> ~ In k (map fst l).
  Proof.
    induction l as [|[a b] t IH]; cbn; [tauto|]. destruct (eqb a k) eqn:E.
    - apply eqb_eq in E. subst. split; [discriminate|tauto].
    - assert (a <> k) by (intros ->; rewrite eqb_refl in E; discriminate). rewrite IH. tauto.
  Qed.

  Lemma in_get (l : list (K * V)) k v : NoDup (map fst l) -> In (k, v) l -> hm_get eqb l k = Some v.
  Proof.
    induction l as [|[a b] t IH]; cbn; [tauto|]. intros N [H|H].
    - injection H as -> ->. rewrite eqb_refl. reflexivity.
    - inversion N as [|? ? Na Nt]; subst. rewrite eqb_neq; [auto|].
      intros ->. apply Na. apply (in_map fst) in H. exact H.
  Qed.

  Lemma keys_insert (l : list (K * V)) k v x :
    In x (map fst (hm_insert eqb l k v)) <-> x = k \/ In x (map fst l).
  Proof.
    induction l as [|[a b] t IH]; cbn; [intuition|]. destruct (eqb a k) eqn:E; cbn.
    - apply eqb_eq in E. subst. intuition.
    - rewrite IH. intuition.
  Qed.

  Lemma insert_nodup (l : list (K * V)) k v :
    NoDup (map fst l) -> NoDup (map fst (hm_insert eqb l k v)).
  Proof.
    induction l as [|[a b] t IH]; cbn; intros N; [repeat constructor; auto|].
    inversion N as [|? ? Na Nt]; subst. destruct (eqb a k) eqn:E; cbn; [auto|].
    constructor; [|auto]. rewrite keys_insert. intros [->|H]; [|auto]. now rewrite eqb_refl in E.
  Qed.

  Lemma in_remove (l : list (K * V)) k e : In e (hm_remove eqb l k) -> In e l.
  Proof.
    induction l as [|[a b] t IH]; cbn; [tauto|]. destruct (eqb a k); cbn; intuition.
  Qed.

  Lemma in_insert (l : list (K * V)) k v e : In e (hm_insert eqb l k v) -> e = (k, v) \/ In e l.
  Proof.
    induction l as [|[a b] t IH]; cbn; [intuition|]. destruct (eqb a k) eqn:E; cbn.
    - apply eqb_eq in E. subst. intuition.
    - intuition.
  Qed.

  Lemma remove_nodup (l : list (K * V)) k :
    NoDup (map fst l) -> NoDup (map fst (hm_remove eqb l k)).
  Proof.
    induction l as [|[a b] t IH]; cbn; intros N; [constructor|].
    inversion N as [|? ? Na Nt]; subst. destruct (eqb a k) eqn:E; cbn; [auto|].
    constructor; [|auto]. intros H. apply Na. apply in_map_iff in H. destruct H as (e & E1 & E2).
    apply in_map_iff. exists e. split; [auto|]. now apply in_remove in E2.
  Qed.

  Lemma get_remove (l : list (K * V)) k j : NoDup (map fst l) ->
    hm_get eqb (hm_remove eqb l k) j = if eqb k j then None else hm_get eqb l j.
  Proof.
    induction l as [|[a b] t IH]; cbn; intros N; [destruct (eqb k j); auto|].
    inversion N as [|? ? Na Nt]; subst. destruct (eqb a k) eqn:E.
    - apply eqb_eq in E. subst. destruct (eqb k j) eqn:Ej; [|reflexivity].
      apply eqb_eq in Ej. subst. now apply get_none.
    - cbn. rewrite IH by auto. destruct (eqb a j) eqn:Ea; [|reflexivity].
      apply eqb_eq in Ea. subst. destruct (eqb k j) eqn:Ek; [|reflexivity].
      apply eqb_eq in Ek. subst. now rewrite eqb_refl in E.
  Qed.

  Lemma get_insert (l : list (K * V)) k v j :
    hm_get eqb (hm_insert eqb l k v) j = if eqb k j then Some v else hm_get eqb l j.
  Proof.
    destruct (eqb k j) eqn:E.
    - apply eqb_eq in E. subst. apply hm_get_insert_same, eqb_refl.
    - apply hm_get_insert_other; [auto|]. intros ->. now rewrite eqb_refl in E.
  Qed.

  Lemma get_perm (l l' : list (K * V)) k : Permutation l l' -> NoDup (map fst l) ->
    hm_get eqb l' k = hm_get eqb l k.
  Proof.
    intros P N. destruct (hm_get eqb l k) as [v|] eqn:E.
    - apply in_get.
      + apply (Permutation_NoDup (Permutation_map fst P)). auto.
      + apply get_in in E. apply (Permutation_in _ P). auto.
    - apply get_none. apply get_none in E. intros H. apply E.
      apply (Permutation_in _ (Permutation_sym (Permutation_map fst P))). auto.
  Qed.

  (** Two maps with unique keys compare equal iff every lookup agrees. *)
  Lemma map_eqb_ok (veqb : V -> V -> bool) (a b : list (K * V)) :
    (forall x y, veqb x y = true <-> x = y) -> NoDup (map fst a) -> NoDup (map fst b) ->
    hm_eqb eqb veqb a b = true <-> forall k, hm_get eqb a k = hm_get eqb b k.
  Proof.
    intros Hv Na Nb. unfold hm_eqb. rewrite andb_true_iff, forallb_forall. split.
    - intros (L & F).
      assert (I : incl a b).
      { intros [k v] H. specialize (F _ H). cbn in F. destruct (hm_get eqb b k) eqn:E; [|discriminate].
        apply Hv in F. subst. now apply get_in. }
      assert (J : incl b a).
      { apply NoDup_length_incl; auto.
        - now apply NoDup_map_inv in Na.
        - unfold len in L. lia. }
      intros k. destruct (hm_get eqb a k) as [v|] eqn:E.
      + symmetry. apply in_get; [auto|]. apply I. now apply get_in.
      + symmetry. apply get_none. apply get_none in E. intros H. apply E.
        apply in_map_iff in H. destruct H as (e & <- & H). apply (in_map fst). now apply J.
    - intros H.
      assert (I : incl a b).
      { intros [k v] X. apply get_in. rewrite <- H. now apply in_get. }
      assert (J : incl b a).
      { intros [k v] X. apply get_in. rewrite H. now apply in_get. }
      split.
      + assert (length a <= length b)%nat by (apply NoDup_incl_length; [now apply NoDup_map_inv in Na|auto]).
        assert (length b <= length a)%nat by (apply NoDup_incl_length; [now apply NoDup_map_inv in Nb|auto]).
        unfold len. lia.
      + intros [k v] X. cbn. rewrite <- H. rewrite (in_get a k v Na X). now apply Hv.
  Qed.
End Maps.

(** ** Renaming the keys and values of a map *)
Section Rename.
  Context {K V : Type} (eqb : K -> K -> bool) (f : K -> N) (g : V -> N).
  Definition rename (l : list (K * V)) : list (N * N) := map (fun kv => (f (fst kv), g (snd kv))) l.

  (** [f] tells the keys of [l] and [k] apart as well as [eqb] does *)
  Definition faithful (l : list (K * V)) (k : K) : Prop :=
    forall e, In e l -> eqb (fst e) k = (f (fst e) =? f k).

  Lemma rename_get l k : faithful l k ->
    hm_get N.eqb (rename l) (f k) = option_map g (hm_get eqb l k).
  Proof.
    induction l as [|[a b] t IH]; intros F; [reflexivity|].
    assert (Fab := F (a, b) (or_introl eq_refl)). cbn [fst] in Fab. cbn. rewrite Fab.
    destruct (f a =? f k); [reflexivity|]. apply IH. intros e H. apply F. now right.
  Qed.

  Lemma rename_insert l k v : faithful l k ->
    rename (hm_insert eqb l k v) = hm_insert N.eqb (rename l) (f k) (g v).
  Proof.
    induction l as [|[a b] t IH]; intros F; [reflexivity|].
    assert (Fab := F (a, b) (or_introl eq_refl)). cbn [fst] in Fab. cbn. rewrite Fab.
    destruct (f a =? f k); [reflexivity|]. cbn. f_equal. apply IH. intros e H. apply F. now right.
  Qed.

  Lemma rename_remove l k : faithful l k ->
    rename (hm_remove eqb l k) = hm_remove N.eqb (rename l) (f k).
  Proof.
    induction l as [|[a b] t IH]; intros F; [reflexivity|].
    assert (Fab := F (a, b) (or_introl eq_refl)). cbn [fst] in Fab. cbn. rewrite Fab.
    destruct (f a =? f k); [reflexivity|]. cbn. f_equal. apply IH. intros e H. apply F. now right.
  Qed.

  Lemma rename_eqb (veqb : V -> V -> bool) a b :
    (forall e, In e a -> faithful b (fst e)) ->
    (forall e e', In e a -> In e' b -> veqb (snd e) (snd e') = (g (snd e) =? g (snd e'))) ->
    (forall x y, eqb x y = true -> x = y) ->
    hm_eqb eqb veqb a b = hm_eqb N.eqb N.eqb (rename a) (rename b).
  Proof.
    intros F G E. unfold hm_eqb. f_equal.
    - unfold rename. now rewrite !len_map.
    - enough (H : forall a', incl a' a -> forallb (fun kv => match hm_get eqb b (fst kv) with
          | Some v => veqb (snd kv) v | None => false end) a'
        = forallb (fun kv => match hm_get N.eqb (rename b) (fst kv) with
          | Some v => snd kv =? v | None => false end) (rename a')) by (apply H; intros x; auto).
      induction a' as [|e t IH]; intros I; [reflexivity|]. cbn. rewrite IH by (intros x X; apply I; now right).
      f_equal. rewrite rename_get by (apply F, I; now left).
      destruct (hm_get eqb b (fst e)) as [v|] eqn:X; [|reflexivity]. cbn.
      assert (J : exists k, In (k, v) b).
      { clear - X. induction b as [|[p q] t' IHb]; cbn in X; [discriminate|]. destruct (eqb p (fst e)).
        - injection X as ->. exists p. now left.
        - destruct (IHb X) as (k & ?). exists k. now right. }
      destruct J as (k & J). apply (G e (k, v)); [apply I; now left|auto].
  Qed.
End Rename.

Lemma N_eqb_eq a b : (a =? b) = true <-> a = b.
Proof. apply N.eqb_eq. Qed.

Lemma bv_eqb_eq a b : bv_eqb a b = true <-> a = b.
Proof.
  destruct a as [w l], b as [w' l']. unfold bv_eqb. cbn [width words].
  rewrite andb_true_iff, N.eqb_eq, words_eqb_eq. split; [intros (-> & ->)|intros [= -> ->]]; auto.
Qed.

Lemma bv_eqb_uval a b w : wf a -> wf b -> width a = w -> width b = w -> bv_eqb a b = (uval a =? uval b).
Proof.
  intros A B Wa Wb. destruct (uval a =? uval b) eqn:E.
  - apply bv_eqb_eq. apply (is_bv_unique a b w (uval a)); [split; auto|]. split; [auto|]. split; [auto|]. lia.
  - destruct (bv_eqb a b) eqn:X; [|reflexivity]. apply bv_eqb_eq in X. subst. lia.
Qed.

(** ** Numeric view of a sparse array *)
Definition id_N (x : N) : N := x.
Definition sent (s : sparse) : list (N * N) :=
  match s_data s with
  | SU64U64 _ l => l
  | SU64Big _ l => rename id_N uval l
  | SBigBig _ l => rename uval uval l
  end.
Definition sdef (s : sparse) : N :=
  match s_data s with SU64U64 d _ => d | SU64Big d _ => uval d | SBigBig d _ => uval d end.
Definition selem (s : sparse) (i : N) : N := unwrap_or (hm_get N.eqb (sent s) i) (sdef s).

Definition has_width (w : N) (v : bv) : Prop := wf v /\ width v = w.

Definition sparse_wf (s : sparse) : Prop :=
  s_iw s < 2 ^ 32 /\ 0 < s_dw s /\ s_dw s < 2 ^ 32
  /\ sdef s < 2 ^ s_dw s
  /\ NoDup (map fst (sent s))
  /\ Forall (fun e => fst e < 2 ^ s_iw s /\ snd e < 2 ^ s_dw s /\ snd e <> sdef s) (sent s)
  /\ match s_data s with
     | SU64U64 _ _ => s_iw s <= 64 /\ s_dw s <= 64
     | SU64Big d l => s_iw s <= 64 /\ 64 < s_dw s /\ has_width (s_dw s) d
         /\ Forall (fun e => has_width (s_dw s) (snd e)) l
     | SBigBig d l => 64 < s_iw s /\ has_width (s_dw s) d
         /\ Forall (fun e => has_width (s_iw s) (fst e) /\ has_width (s_dw s) (snd e)) l
     end.

Lemma has_width_bv w v : has_width w v -> is_bv v w (uval v).
Proof. intros (H & <-). now apply wf_is_bv. Qed.

Lemma bv_has_width w v x : is_bv v w x -> has_width w v.
Proof. intros (H & E & _). now split. Qed.

Lemma faithful_id {V} (l : list (N * V)) k : faithful N.eqb id_N l k.
Proof. intros e _. reflexivity. Qed.

Lemma faithful_bv {V} (l : list (bv * V)) k w :
  Forall (fun e => has_width w (fst e)) l -> has_width w k -> faithful bv_eqb uval l k.
Proof.
  intros F (W & WW) e H. rewrite Forall_forall in F. destruct (F e H). now apply (bv_eqb_uval _ _ w).
Qed.

Lemma owned_id v : bv_owned_of_ref v = v.
Proof. destruct v. reflexivity. Qed.

(** ** Creation *)
Lemma sparse_new_ok m iw default : wf default -> 0 < width default -> iw < 2 ^ 32 ->
  exists s, sparse_new m iw default = Ok s /\ sparse_wf s /\ s_iw s = iw /\ s_dw s = width default
    /\ sdef s = uval default /\ sent s = [].
Proof.
  intros W D I. assert (H := wf_is_bv _ W). assert (L := is_bv_lt _ _ _ H). assert (Hw := is_bv_w _ _ _ H).
  unfold sparse_new. rewrite owned_id. destruct (64 <? iw) eqn:E.
  - cbn [bind]. eexists. split; [reflexivity|]. unfold sparse_wf, sent, sdef.
    cbn [s_iw s_dw s_data rename map]. split; [|auto].
    repeat (split; [now auto|]). split; [constructor|]. split; [constructor|]. split; [lia|].
    split; [split; auto|constructor].
  - destruct (64 <? width default) eqn:E2.
    + cbn [bind]. eexists. split; [reflexivity|]. unfold sparse_wf, sent, sdef.
      cbn [s_iw s_dw s_data rename map]. split; [|auto].
      repeat (split; [now auto|]). split; [constructor|]. split; [constructor|]. split; [lia|].
      split; [lia|]. split; [split; auto|constructor].
    + rewrite (unwrap_u64 _ _ _ H) by (eapply N.lt_le_trans; [exact L|apply pow8_64; lia]). cbn [bind].
      eexists. split; [reflexivity|]. unfold sparse_wf, sent, sdef. cbn [s_iw s_dw s_data map].
      split; [|auto]. repeat (split; [now auto|]). split; [constructor|]. split; [constructor|]. lia.
Qed.

(** ** Reading *)
Lemma in_option_map {A B} (f : A -> B) o x : option_map f o = Some x -> exists y, o = Some y /\ f y = x.
Proof. destruct o; cbn; intros [= <-]; eauto. Qed.

Lemma elem_lt s i : sparse_wf s -> selem s i < 2 ^ s_dw s.
Proof.
  intros (_ & _ & _ & L & N & F & _). unfold selem.
  destruct (hm_get N.eqb (sent s) i) as [v|] eqn:E; [|exact L]. cbn.
  apply (get_in _ N_eqb_eq) in E. rewrite Forall_forall in F. apply (F _ E).
Qed.

Lemma index_u64 index iw i : is_bv index iw i -> iw <= 64 -> unwrap (bv_to_u64 index) = Ok i.
Proof.
  intros H I. apply (unwrap_u64 _ _ _ H). eapply N.lt_le_trans; [apply (is_bv_lt _ _ _ H)|now apply pow_le].
Qed.

Lemma sparse_select_ok probe m s index i : sparse_wf s -> s_iw s <= 64 -> is_bv index (s_iw s) i ->
  yields (sparse_select probe m s index) (s_dw s) (selem s i).
Proof.
  intros W I H. assert (L := elem_lt s i W). destruct (is_bv_inv _ _ _ H) as (E & _).
  unfold sparse_select. rewrite debug_assert_ok by lia. cbn [bind].
  destruct W as (_ & D0 & D & _ & N & F & S). unfold selem, sent, sdef in *.
  destruct (s_data s) as [d l|d l|d l].
  - rewrite (index_u64 _ _ _ H I). cbn [bind].
    destruct (u64_round_trip m (unwrap_or (hm_get N.eqb l i) d) (s_dw s)) as (b & -> & B & _); auto.
    + eapply N.lt_le_trans; [exact L|apply pow8_64; lia].
    + exists b. auto.
  - rewrite (index_u64 _ _ _ H I). cbn [bind]. destruct S as (_ & _ & Hd & Hl).
    assert (G := rename_get N.eqb id_N uval l i (faithful_id l i)). unfold id_N at 2 in G. rewrite G.
    eexists. split; [reflexivity|]. destruct (hm_get N.eqb l i) as [v|] eqn:X; cbn; [|now apply has_width_bv].
    apply (get_in _ N_eqb_eq) in X. rewrite Forall_forall in Hl. apply has_width_bv, (Hl _ X).
  - lia.
Qed.

(** Index widths above 64: the table of keys is only consulted through [Borrow]. *)
Lemma sparse_select_wide probe m s index i : hashing probe -> sparse_wf s -> 64 < s_iw s ->
  is_bv index (s_iw s) i ->
  (panics (sparse_select probe m s index) /\ sent s <> [])
  \/ (selem s i = sdef s /\ yields (sparse_select probe m s index) (s_dw s) (selem s i)).
Proof.
  intros (P1 & P2) W I H. destruct (is_bv_inv _ _ _ H) as (E & _).
  unfold sparse_select. rewrite debug_assert_ok by lia. cbn [bind].
  destruct W as (_ & D0 & D & _ & N & F & S). unfold selem, sent, sdef in *.
  destruct (s_data s) as [d l|d l|d l]; [lia|lia|]. destruct S as (_ & Hd & Hl).
  unfold hm_get_borrowed. destruct (probe (map fst l) index) eqn:Pr; cbn [bind].
  - left. split; [eexists; reflexivity|]. destruct l; [cbn in Pr; rewrite P2 in Pr; discriminate|discriminate].
  - right.
    assert (Fa : faithful bv_eqb uval l index).
    { apply (faithful_bv l index (s_iw s)); [|now apply bv_has_width in H].
      eapply Forall_impl; [|exact Hl]. intros e (A & _). exact A. }
    assert (G := rename_get bv_eqb uval uval l index Fa).
    destruct H as (Hw & _ & Hu). rewrite Hu in G. rewrite G.
    replace (hm_get bv_eqb l index) with (@None bv).
    + cbn. split; [reflexivity|]. eexists. split; [reflexivity|]. now apply has_width_bv.
    + symmetry. apply (get_none _ bv_eqb_eq). intros X. apply P1 in X. congruence.
Qed.

Lemma sparse_select_stored_panics probe m s index i : hashing probe -> sparse_wf s -> 64 < s_iw s ->
  is_bv index (s_iw s) i -> selem s i <> sdef s -> panics (sparse_select probe m s index).
Proof.
  intros P W I H X. destruct (sparse_select_wide probe m s index i P W I H) as [[? _]|[? _]]; [auto|contradiction].
Qed.

(** ** Writing *)
Definition put (l : list (N * N)) (d i x : N) : list (N * N) :=
  if x =? d then hm_remove N.eqb l i else hm_insert N.eqb l i x.

Lemma put_nodup l d i x : NoDup (map fst l) -> NoDup (map fst (put l d i x)).
Proof.
  unfold put. destruct (x =? d); [apply remove_nodup|apply insert_nodup, N_eqb_eq].
Qed.

Lemma put_get l d i x j : NoDup (map fst l) ->
  unwrap_or (hm_get N.eqb (put l d i x) j) d = if j =? i then x else unwrap_or (hm_get N.eqb l j) d.
Proof.
  intros N. unfold put. rewrite (N.eqb_sym j i). destruct (x =? d) eqn:E.
  - rewrite (get_remove _ N_eqb_eq) by auto. destruct (i =? j); [cbn; lia|reflexivity].
  - rewrite (get_insert _ N_eqb_eq). destruct (i =? j); reflexivity.
Qed.

Lemma put_forall (P : N * N -> Prop) l d i x : Forall P l -> (x <> d -> P (i, x)) -> Forall P (put l d i x).
Proof.
  intros F H. rewrite Forall_forall in *. intros e. unfold put. destruct (x =? d) eqn:E.
  - intros X. apply in_remove in X. auto.
  - intros X. apply (in_insert _ N_eqb_eq) in X. destruct X as [->|X]; [apply H; lia|auto].
Qed.

Lemma forall_remove {K V} (eqb : K -> K -> bool) (P : K * V -> Prop) l k :
  Forall P l -> Forall P (hm_remove eqb l k).
Proof. rewrite !Forall_forall. intros F e X. apply in_remove in X. auto. Qed.

Lemma forall_insert {K V} (eqb : K -> K -> bool) (P : K * V -> Prop) l k v :
  (forall a b, eqb a b = true <-> a = b) ->
  Forall P l -> P (k, v) -> Forall P (hm_insert eqb l k v).
Proof.
  intros E F H. rewrite Forall_forall in *. intros e X. apply (in_insert _ E) in X. destruct X as [->|X]; auto.
Qed.

(** One write, seen through the numeric view. *)
Definition wrote (s s' : sparse) (i x : N) : Prop :=
  sparse_wf s' /\ s_iw s' = s_iw s /\ s_dw s' = s_dw s /\ sdef s' = sdef s
  /\ sent s' = put (sent s) (sdef s) i x.

Lemma wrote_elem s s' i x j : sparse_wf s -> wrote s s' i x ->
  selem s' j = if j =? i then x else selem s j.
Proof.
  intros W (_ & _ & _ & E1 & E2). unfold selem. rewrite E1, E2. apply put_get. apply W.
Qed.

(** Which representation-level results count as a write. *)
Lemma wrote_intro s data' i x : sparse_wf s -> i < 2 ^ s_iw s -> x < 2 ^ s_dw s ->
  sdef (mksparse (s_iw s) (s_dw s) data') = sdef s ->
  sent (mksparse (s_iw s) (s_dw s) data') = put (sent s) (sdef s) i x ->
  match data' with
  | SU64U64 _ _ => s_iw s <= 64 /\ s_dw s <= 64
  | SU64Big d l => s_iw s <= 64 /\ 64 < s_dw s /\ has_width (s_dw s) d
      /\ Forall (fun e => has_width (s_dw s) (snd e)) l
  | SBigBig d l => 64 < s_iw s /\ has_width (s_dw s) d
      /\ Forall (fun e => has_width (s_iw s) (fst e) /\ has_width (s_dw s) (snd e)) l
  end ->
  wrote s (mksparse (s_iw s) (s_dw s) data') i x.
Proof.
  intros (A & B & C & L & N & F & _) Hi Hx E1 E2 S. unfold wrote, sparse_wf. cbn [s_iw s_dw s_data].
  rewrite E1, E2. repeat (split; [now auto|]). split; [|auto].
  repeat (split; [now auto|]). split; [now apply put_nodup|]. split; [|exact S].
  apply put_forall; auto.
Qed.

Lemma sparse_store_ok probe m s index i data x : sparse_wf s -> s_iw s <= 64 ->
  is_bv index (s_iw s) i -> is_bv data (s_dw s) x ->
  exists s', sparse_store probe m s index data = Ok s' /\ wrote s s' i x.
Proof.
  intros W I Hi Hx. destruct (is_bv_inv _ _ _ Hi) as (Ei & _ & _ & _ & _ & Li).
  destruct (is_bv_inv _ _ _ Hx) as (Ex & _ & _ & _ & _ & Lx).
  unfold sparse_store. rewrite !debug_assert_ok by lia. cbn [bind].
  assert (Wr := fun d i x => wrote_intro s d i x W). destruct W as (A & B & C & L & N & F & S).
  unfold sent, sdef in *.
  destruct (s_data s) as [d l|d l|d l].
  - rewrite (index_u64 _ _ _ Hi I). cbn [bind].
    rewrite (unwrap_u64 _ _ _ Hx) by (eapply N.lt_le_trans; [exact Lx|apply pow8_64; lia]). cbn [bind].
    eexists. split; [reflexivity|]. apply Wr; auto.
  - rewrite (index_u64 _ _ _ Hi I). cbn [bind]. destruct S as (S1 & S2 & Sd & Sl).
    rewrite (is_equal_ok m data d _ _ _ Hx (has_width_bv _ _ Sd)). cbn [bind]. rewrite owned_id.
    eexists. split; [reflexivity|]. apply Wr; auto.
    + cbn [s_data]. unfold put.
      destruct (x =? uval d).
      * apply (rename_remove N.eqb id_N uval). apply faithful_id.
      * rewrite (rename_insert N.eqb id_N uval) by apply faithful_id. unfold id_N at 2.
        destruct Hx as (_ & _ & ->). reflexivity.
    + repeat (split; [now auto|]). destruct (x =? uval d).
      * now apply forall_remove.
      * apply forall_insert; [apply N_eqb_eq|auto|]. cbn. now apply bv_has_width in Hx.
  - lia.
Qed.

(** Index widths above 64: a store of a non-default value works, a store of the
    default either works or panics. *)
Lemma sparse_store_wide probe m s index i data x : hashing probe -> sparse_wf s -> 64 < s_iw s ->
  is_bv index (s_iw s) i -> is_bv data (s_dw s) x ->
  (panics (sparse_store probe m s index data) /\ x = sdef s /\ sent s <> [])
  \/ exists s', sparse_store probe m s index data = Ok s' /\ wrote s s' i x.
Proof.
  intros (P1 & P2) W I Hi Hx. destruct (is_bv_inv _ _ _ Hi) as (Ei & _ & _ & _ & _ & Li).
  destruct (is_bv_inv _ _ _ Hx) as (Ex & _ & _ & _ & _ & Lx).
  unfold sparse_store. rewrite !debug_assert_ok by lia. cbn [bind].
  assert (Wr := fun d i x => wrote_intro s d i x W). destruct W as (A & B & C & L & N & F & S).
  unfold sent, sdef in *.
  destruct (s_data s) as [d l|d l|d l]; [lia|lia|]. destruct S as (S1 & Sd & Sl).
  rewrite (is_equal_ok m data d _ _ _ Hx (has_width_bv _ _ Sd)). cbn [bind]. rewrite !owned_id.
  assert (Fa : faithful bv_eqb uval l index).
  { apply (faithful_bv l index (s_iw s)); [|now apply bv_has_width in Hi].
    eapply Forall_impl; [|exact Sl]. intros e (Y & _). exact Y. }
  assert (Ui : uval index = i) by apply Hi. assert (Ux : uval data = x) by apply Hx.
  destruct (x =? uval d) eqn:E.
  - unfold hm_remove_borrowed. destruct (probe (map fst l) index) eqn:Pr; cbn [bind].
    + left. split; [eexists; reflexivity|]. split; [lia|].
      destruct l; [cbn in Pr; rewrite P2 in Pr; discriminate|discriminate].
    + right. eexists. split; [reflexivity|]. apply Wr; auto. cbn [s_data]. unfold put. rewrite E.
      rewrite <- Ui. rewrite <- (rename_remove bv_eqb uval uval) by auto. f_equal.
      assert (X : ~ In index (map fst l)) by (intros X; apply P1 in X; congruence).
      clear - X. induction l as [|[a b] t IH]; cbn in *; [reflexivity|].
      rewrite (eqb_neq _ bv_eqb_eq) by tauto. f_equal. apply IH. tauto.
  - right. cbn [bind]. eexists. split; [reflexivity|]. apply Wr; auto.
    + cbn [s_data]. unfold put. rewrite E. rewrite (rename_insert bv_eqb uval uval) by auto.
      now rewrite Ui, Ux.
    + repeat (split; [now auto|]). apply forall_insert; [apply bv_eqb_eq|auto|]. cbn.
      split; [now apply bv_has_width in Hi|now apply bv_has_width in Hx].
Qed.

Lemma sparse_clear_ok s : sparse_wf s ->
  sparse_wf (sparse_clear s) /\ s_iw (sparse_clear s) = s_iw s /\ s_dw (sparse_clear s) = s_dw s
  /\ sdef (sparse_clear s) = 0 /\ sent (sparse_clear s) = [].
Proof.
  intros (A & B & C & L & N & F & S). assert (Z := zero_is_bv _ C).
  assert (Uz : uval (bv_zero (s_dw s)) = 0) by apply Z. apply bv_has_width in Z.
  assert (P := pow_pos (s_dw s)).
  unfold sparse_wf, sparse_clear, sdef, sent. cbn [s_iw s_dw s_data].
  destruct (s_data s) as [d l|d l|d l]; cbn [rename map]; rewrite ?Uz.
  - split; [|auto]. repeat (split; [now auto|]). split; [constructor|]. split; [constructor|]. auto.
  - destruct S as (S1 & S2 & Sd & Sl). split; [|auto].
    repeat (split; [now auto|]). split; [constructor|]. split; [constructor|].
    repeat (split; [now auto|]). constructor.
  - destruct S as (S1 & Sd & Sl). split; [|auto].
    repeat (split; [now auto|]). split; [constructor|]. split; [constructor|].
    repeat (split; [now auto|]). constructor.
Qed.

(** ** Histories *)
Definition sparse_is (s : sparse) (iw dw : N) (f : N -> N) : Prop :=
  sparse_wf s /\ s_iw s = iw /\ s_dw s = dw /\ forall i, i < 2 ^ iw -> selem s i = f i.

Lemma sparse_is_reads probe m s iw dw f : sparse_is s iw dw f -> iw <= 64 ->
  arr_is probe m (ASparse s) iw dw f.
Proof.
  intros (W & <- & <- & F) I. split; [reflexivity|]. split; [reflexivity|].
  intros i Hi Wi. assert (H := wf_is_bv i Hi). rewrite Wi in H. cbn [array_select].
  rewrite <- F by (apply (is_bv_lt _ _ _ H)). now apply sparse_select_ok.
Qed.

Lemma wrote_is s s' iw dw f i x : sparse_is s iw dw f -> wrote s s' i x ->
  sparse_is s' iw dw (fun n => if n =? i then x else f n).
Proof.
  intros (W & <- & <- & F) Wr. assert (Wr' := Wr). destruct Wr' as (W' & E1 & E2 & _).
  split; [auto|]. split; [auto|]. split; [auto|]. intros j Hj. rewrite (wrote_elem s s' i x j W Wr).
  rewrite F by auto. reflexivity.
Qed.

Lemma clear_is s iw dw f : sparse_is s iw dw f -> sparse_is (sparse_clear s) iw dw (fun _ => 0).
Proof.
  intros (W & <- & <- & F). destruct (sparse_clear_ok s W) as (W' & E1 & E2 & E3 & E4).
  split; [auto|]. split; [auto|]. split; [auto|]. intros i _. unfold selem. rewrite E3, E4. reflexivity.
Qed.

Lemma sparse_step probe m s iw dw f op : iw <= 64 -> sparse_is s iw dw f -> arr_legal iw dw op ->
  exists s', arr_run probe m (ASparse s) op = Ok (ASparse s') /\ sparse_is s' iw dw (arr_step f op).
Proof.
  intros I Is L. destruct op as [i x|]; cbn [arr_run array_store array_clear arr_step].
  - destruct L as (Hi & Wi & Hx & Wx). assert (Is' := Is). destruct Is' as (W & E1 & E2 & F).
    assert (A := wf_is_bv i Hi). rewrite Wi, <- E1 in A.
    assert (B := wf_is_bv x Hx). rewrite Wx, <- E2 in B.
    destruct (sparse_store_ok probe m s i _ x _ W ltac:(lia) A B) as (s' & -> & Wr). cbn [bind].
    exists s'. split; [reflexivity|]. now apply (wrote_is s s').
  - eexists. split; [reflexivity|]. now apply (clear_is s iw dw f).
Qed.

Lemma sparse_history probe m s iw dw f ops : iw <= 64 -> sparse_is s iw dw f ->
  Forall (arr_legal iw dw) ops ->
  exists s', arr_run_all probe m (ASparse s) ops = Ok (ASparse s')
    /\ sparse_is s' iw dw (fold_left arr_step ops f).
Proof.
  intros I. revert s f; induction ops as [|op ops IH]; intros s f D L; cbn [arr_run_all fold_left]; [eauto|].
  inversion L as [|? ? L1 L2]; subst.
  destruct (sparse_step probe m s iw dw f op I D L1) as (d1 & -> & D1). cbn [bind]. now apply IH.
Qed.

Lemma array_new_sparse_ok m iw default : wf default -> 0 < width default -> iw < 2 ^ 32 ->
  exists s, array_new_sparse m iw default = Ok (ASparse s)
    /\ sparse_is s iw (width default) (fun _ => uval default) /\ sdef s = uval default /\ sent s = [].
Proof.
  intros W D I. unfold array_new_sparse.
  destruct (sparse_new_ok m iw default W D I) as (s & -> & Ws & E1 & E2 & E3 & E4). cbn [bind].
  exists s. split; [reflexivity|]. split; [|auto]. split; [auto|]. split; [auto|]. split; [auto|].
  intros i _. unfold selem. rewrite E3, E4. reflexivity.
Qed.

Lemma sparse_array_history probe m iw default ops : wf default -> 0 < width default -> iw <= 64 ->
  Forall (arr_legal iw (width default)) ops ->
  exists a a', array_new_sparse m iw default = Ok a /\ arr_run_all probe m a ops = Ok a'
    /\ array_is_sparse a' = true
    /\ arr_is probe m a' iw (width default) (fold_left arr_step ops (fun _ => uval default)).
Proof.
  intros W D I L.
  assert (I32 : iw < 2 ^ 32) by (eapply N.le_lt_trans; [exact I|reflexivity]).
  destruct (array_new_sparse_ok m iw default W D I32) as (s & -> & Is & _).
  destruct (sparse_history probe m s _ _ _ ops I Is L) as (s' & E & Is').
  eexists _, _. split; [reflexivity|]. split; [exact E|]. split; [reflexivity|].
  now apply sparse_is_reads.
Qed.

(** Index widths above 64: what does not panic is right. *)
Lemma sparse_step_wide probe m s iw dw f op a : hashing probe -> 64 < iw -> sparse_is s iw dw f ->
  arr_legal iw dw op -> arr_run probe m (ASparse s) op = Ok a ->
  exists s', a = ASparse s' /\ sparse_is s' iw dw (arr_step f op).
Proof.
  intros P I Is L R. destruct op as [i x|]; cbn [arr_run array_store array_clear arr_step] in *.
  - destruct L as (Hi & Wi & Hx & Wx). assert (Is' := Is). destruct Is' as (W & E1 & E2 & F).
    assert (A := wf_is_bv i Hi). rewrite Wi, <- E1 in A.
    assert (B := wf_is_bv x Hx). rewrite Wx, <- E2 in B.
    destruct (sparse_store_wide probe m s i _ x _ P W ltac:(lia) A B) as [((p & E) & _)|(s' & E & Wr)];
      rewrite E in R; cbn [bind] in R; [discriminate|]. injection R as <-.
    exists s'. split; [reflexivity|]. now apply (wrote_is s s').
  - injection R as <-. eexists. split; [reflexivity|]. now apply (clear_is s iw dw f).
Qed.

Lemma sparse_history_wide probe m s iw dw f ops a : hashing probe -> 64 < iw -> sparse_is s iw dw f ->
  Forall (arr_legal iw dw) ops -> arr_run_all probe m (ASparse s) ops = Ok a ->
  exists s', a = ASparse s' /\ sparse_is s' iw dw (fold_left arr_step ops f).
Proof.
  intros P I. revert s f; induction ops as [|op ops IH]; intros s f D L R; cbn [arr_run_all fold_left] in *.
  - injection R as <-. eauto.
  - inversion L as [|? ? L1 L2]; subst. destruct (arr_run probe m (ASparse s) op) as [a1|] eqn:E; [|discriminate].
    cbn [bind] in R. destruct (sparse_step_wide probe m s iw dw f op a1 P I D L1 E) as (s1 & -> & D1).
    now apply (IH s1).
Qed.

Lemma sparse_wide_sound probe m iw default ops a0 a : hashing probe -> wf default -> 0 < width default ->
  64 < iw -> iw < 2 ^ 32 -> Forall (arr_legal iw (width default)) ops ->
  array_new_sparse m iw default = Ok a0 -> arr_run_all probe m a0 ops = Ok a ->
  forall i, wf i -> width i = iw ->
    panics (array_select probe m a i)
    \/ yields (array_select probe m a i) (width default)
         (fold_left arr_step ops (fun _ => uval default) (uval i)).
Proof.
  intros P W D I I32 L E R i Hi Wi.
  destruct (array_new_sparse_ok m iw default W D I32) as (s & E' & Is & _). rewrite E' in E.
  injection E as <-.
  destruct (sparse_history_wide probe m s _ _ _ ops a P I Is L R) as (s' & -> & (Ws & E1 & E2 & F)).
  cbn [array_select]. assert (H := wf_is_bv i Hi). rewrite Wi, <- E1 in H.
  destruct (sparse_select_wide probe m s' i _ P Ws ltac:(lia) H) as [[X _]|[_ X]]; [left; auto|right].
  rewrite F in X by (rewrite E1 in H; apply (is_bv_lt _ _ _ H)). now rewrite E2 in X.
Qed.

(** Reading back what was just stored panics. *)
Lemma sparse_wide_refuted probe m : hashing probe ->
  exists default i x a0 a, wf default /\ arr_legal 65 8 (AStore i x) /\ width default = 8
    /\ array_new_sparse m 65 default = Ok a0 /\ array_store probe m a0 i x = Ok a
    /\ panics (array_select probe m a i).
Proof.
  intros P.
  assert (Hd : is_bv (bv_of 8 0) 8 0) by (apply bv_of_is_bv; reflexivity).
  assert (Hi : is_bv (bv_of 65 5) 65 5) by (apply bv_of_is_bv; reflexivity).
  assert (Hx : is_bv (bv_of 8 7) 8 7) by (apply bv_of_is_bv; reflexivity).
  destruct (array_new_sparse_ok m 65 (bv_of 8 0)) as (s & E & (W & E1 & E2 & F) & Df & _); try reflexivity; [apply Hd|].
  change (width (bv_of 8 0)) with 8 in *.
  exists (bv_of 8 0), (bv_of 65 5), (bv_of 8 7), (ASparse s).
  assert (Hi' : is_bv (bv_of 65 5) (s_iw s) 5) by (rewrite E1; exact Hi).
  assert (Hx' : is_bv (bv_of 8 7) (s_dw s) 7) by (rewrite E2; exact Hx).
  destruct (sparse_store_wide probe m s _ _ _ _ P W ltac:(lia) Hi' Hx') as [(_ & X & _)|(s' & Es & Wr)].
  { rewrite Df in X. destruct Hd as (_ & _ & Ud). rewrite Ud in X. discriminate X. }
  exists (ASparse s'). split; [apply Hd|]. split.
  { cbn [arr_legal]. split; [apply Hi|]. split; [reflexivity|]. split; [apply Hx|reflexivity]. }
  split; [reflexivity|]. split; [exact E|]. split.
  { cbn [array_store]. rewrite Es. reflexivity. }
  cbn [array_select]. apply (sparse_select_stored_panics probe m s' _ 5 P).
  - apply Wr.
  - destruct Wr as (_ & E3 & _). rewrite E3. lia.
  - destruct Wr as (_ & E3 & _). rewrite E3. exact Hi'.
  - rewrite (wrote_elem s s' _ _ 5 W Wr). destruct Wr as (_ & _ & _ & E4 & _). rewrite E4, Df.
    change (5 =? 5) with true. cbn iota. destruct Hd as (_ & _ & ->). discriminate.
Qed.

(** ** Entries *)
Lemma mapM_ok {A B} (f : A -> res B) (g : A -> B) l : (forall x, In x l -> f x = Ok (g x)) ->
  mapM f l = Ok (map g l).
Proof.
  induction l as [|x t IH]; intros H; [reflexivity|]. cbn. rewrite H by now left. cbn [bind].
  rewrite IH by (intros; apply H; now right). reflexivity.
Qed.

Lemma from_u64_bv m v w : 0 < w -> w < 2 ^ 32 -> w <= 64 -> v < 2 ^ w -> bv_from_u64 m v w = Ok (bv_of w v).
Proof.
  intros W W32 W64 L. destruct (u64_round_trip m v w) as (b & -> & B & _); auto.
  - eapply N.lt_le_trans; [exact L|now apply pow_le].
  - f_equal. eapply is_bv_unique; [exact B|]. now apply bv_of_is_bv.
Qed.

Definition entry_bv (iw dw : N) (e : N * N) : bv * bv := (bv_of iw (fst e), bv_of dw (snd e)).

Lemma entries_ok ho m s : reorders ho -> sparse_wf s -> 0 < s_iw s ->
  exists es, sparse_entries ho m s = Ok (map (entry_bv (s_iw s) (s_dw s)) es) /\ Permutation (sent s) es.
Proof.
  intros Ho (A & B & C & L & N & F & S) I. unfold sparse_entries, sent in *.
  destruct (s_data s) as [d l|d l|d l].
  - exists (ho _ l). split; [|apply Ho]. apply mapM_ok. intros [k v] H.
    apply (Permutation_in _ (Permutation_sym (Ho _ l))) in H. rewrite Forall_forall in F.
    destruct (F _ H) as (F1 & F2 & _). cbn [fst snd] in *.
    rewrite !from_u64_bv by (auto; lia). reflexivity.
  - exists (rename id_N uval (ho _ l)). split.
    2:{ unfold rename. apply Permutation_map, Ho. }
    unfold rename. rewrite map_map. apply mapM_ok. intros [k v] H.
    apply (Permutation_in _ (Permutation_sym (Ho _ l))) in H. rewrite Forall_forall in F.
    destruct (F (k, uval v)) as (F1 & F2 & _); [apply (in_map (fun kv => (id_N (fst kv), uval (snd kv))) _ _ H)|].
    cbn [fst snd] in *. rewrite from_u64_bv by (auto; lia). cbn [bind]. unfold entry_bv, id_N. cbn [fst snd].
    do 2 f_equal. destruct S as (_ & _ & _ & Sl). rewrite Forall_forall in Sl.
    eapply is_bv_unique; [apply has_width_bv, (Sl _ H)|]. apply bv_of_is_bv; auto.
  - exists (rename uval uval (ho _ l)). split.
    2:{ unfold rename. apply Permutation_map, Ho. }
    f_equal. unfold rename. rewrite map_map. rewrite <- (map_id (ho _ l)) at 1. apply map_ext_in.
    intros [k v] H. apply (Permutation_in _ (Permutation_sym (Ho _ l))) in H.
    rewrite Forall_forall in F.
    destruct (F (uval k, uval v)) as (F1 & F2 & _); [apply (in_map (fun kv => (uval (fst kv), uval (snd kv))) _ _ H)|].
    destruct S as (_ & _ & Sl). rewrite Forall_forall in Sl. destruct (Sl _ H) as (S1 & S2).
    cbn [fst snd] in *. unfold entry_bv. cbn [fst snd]. f_equal.
    + eapply is_bv_unique; [apply has_width_bv, S1|]. apply bv_of_is_bv; auto.
    + eapply is_bv_unique; [apply has_width_bv, S2|]. apply bv_of_is_bv; auto.
Qed.

Lemma default_ok m s : sparse_wf s -> yields (sparse_default m s) (s_dw s) (sdef s).
Proof.
  intros (A & B & C & L & N & F & S). unfold sparse_default, sdef in *.
  destruct (s_data s) as [d l|d l|d l].
  - rewrite from_u64_bv by (auto; lia). eexists. split; [reflexivity|]. now apply bv_of_is_bv.
  - eexists. split; [reflexivity|]. now apply has_width_bv.
  - eexists. split; [reflexivity|]. now apply has_width_bv.
Qed.

(** [non_default_entries], relative to the contents. *)
Lemma entries_spec ho m s iw dw f : reorders ho -> sparse_is s iw dw f -> 0 < iw ->
  exists es d x0, sparse_entries ho m s = Ok es
    /\ sparse_default m s = Ok d /\ is_bv d dw x0
    /\ NoDup (map (fun e => uval (fst e)) es)
    /\ (forall e, In e es -> exists i, is_bv (fst e) iw i /\ is_bv (snd e) dw (f i) /\ f i <> x0)
    /\ (forall i, i < 2 ^ iw -> f i <> x0 -> exists e, In e es /\ uval (fst e) = i).
Proof.
  intros Ho (W & <- & <- & F) I. destruct (entries_ok ho m s Ho W I) as (es & E & P).
  destruct (default_ok m s W) as (d & Ed & Hd).
  exists (map (entry_bv (s_iw s) (s_dw s)) es), d, (sdef s). split; [auto|]. split; [auto|]. split; [auto|].
  assert (W' := W). destruct W' as (A & B & C & L & N & Fo & S).
  assert (Fo' : forall e, In e es -> fst e < 2 ^ s_iw s /\ snd e < 2 ^ s_dw s /\ snd e <> sdef s).
  { intros e H. rewrite Forall_forall in Fo. apply Fo. now apply (Permutation_in _ (Permutation_sym P)). }
  assert (Ib : forall e, In e es -> is_bv (bv_of (s_iw s) (fst e)) (s_iw s) (fst e)).
  { intros e H. destruct (Fo' e H) as (X & _). now apply bv_of_is_bv. }
  assert (G : forall e, In e es -> f (fst e) = snd e).
  { intros [k v] H. destruct (Fo' _ H) as (X & _). cbn [fst snd] in *. rewrite <- F by auto. unfold selem.
    rewrite (in_get _ N_eqb_eq (sent s) k v N); [reflexivity|].
    now apply (Permutation_in _ (Permutation_sym P)). }
  split; [|split].
  - rewrite map_map. cbn [entry_bv fst].
    replace (map (fun x => uval (bv_of (s_iw s) (fst x))) es) with (map fst es).
    + apply (Permutation_NoDup (Permutation_map fst P)). auto.
    + apply map_ext_in. intros e H. symmetry. apply (Ib e H).
  - intros e H. apply in_map_iff in H. destruct H as (e' & <- & H). exists (fst e'). cbn [entry_bv fst snd].
    destruct (Fo' e' H) as (X & Y & Z). split; [now apply Ib|]. rewrite G by auto. split; [|auto].
    now apply bv_of_is_bv.
  - intros i Hi X. rewrite <- F in X by auto. unfold selem in X.
    destruct (hm_get N.eqb (sent s) i) as [v|] eqn:Eg; [|cbn in X; contradiction].
    apply (get_in _ N_eqb_eq) in Eg. apply (Permutation_in _ P) in Eg.
    exists (entry_bv (s_iw s) (s_dw s) (i, v)). split; [now apply in_map|].
    cbn [entry_bv fst]. apply (Ib _ Eg).
Qed.
