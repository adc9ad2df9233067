(** * PSerde: deserializing what was serialized (C64, C65). *)

From Coq Require Import String ZifyBool ZifyNat ZifyN Permutation.
From Verif Require Import Base Arith Map Bv Array Serde Spec ArraySpec.
From Verif Require Import PWords PArith PShift PropsArith PConv PStore PDense PSparse.
Ltac Zify.zify_post_hook ::= idtac.
Open Scope list_scope.

Lemma de_int_ok b n : n < b -> de_int b (TInt n) = Some n.
Proof. intros H. cbn [de_int]. apply N.ltb_lt in H. now rewrite H. Qed.

Lemma de_seq_ok b l : Forall (fun x => x < b) l -> de_seq b (TSeq (map TInt l)) = Some l.
Proof.
  intros H. cbn [de_seq]. induction H as [|x t Hx Ht IH]; [reflexivity|].
  cbn [map omapM]. rewrite de_int_ok by auto. cbn [obind]. now rewrite IH.
Qed.

Lemma de_bv_ok v : wf v -> de_bv (ser_bv v) = Some v.
Proof.
  intros (A & B & C & D). unfold ser_bv, de_bv.
  change (field "width" [("width"%string, TInt (width v)); ("words"%string, TSeq (map TInt (words v)))])
    with (Some (TInt (width v))).
  change (field "words" [("width"%string, TInt (width v)); ("words"%string, TSeq (map TInt (words v)))])
    with (Some (TSeq (map TInt (words v)))).
  cbn [obind]. rewrite de_int_ok by (rewrite B32_eq; auto). cbn [obind].
  rewrite de_seq_ok; [destruct v; reflexivity|]. exact C.
Qed.

(** ** Maps *)
Section Maps.
  Context {K V : Type} (eqb : K -> K -> bool) (eqb_eq : forall a b, eqb a b = true <-> a = b).
  Context (sk : K -> tree) (dk : tree -> option K) (sv : V -> tree) (dv : tree -> option V).

  Lemma insert_new (l : list (K * V)) k v : ~ In k (map fst l) -> hm_insert eqb l k v = l ++ [(k, v)].
  Proof.
    induction l as [|[a b] t IH]; intros H; [reflexivity|]. cbn [hm_insert app].
    destruct (eqb a k) eqn:E.
    - apply eqb_eq in E. subst. exfalso. apply H. now left.
    - f_equal. apply IH. intros X. apply H. now right.
  Qed.

  Lemma de_entries_ok (l : list (K * V)) : forall acc, NoDup (map fst (acc ++ l)) ->
    Forall (fun e => dk (sk (fst e)) = Some (fst e) /\ dv (sv (snd e)) = Some (snd e)) l ->
    de_entries eqb dk dv (map (fun kv => (sk (fst kv), sv (snd kv))) l) acc = Some (acc ++ l).
  Proof.
    induction l as [|[k v] t IH]; intros acc Nd F; [now rewrite app_nil_r|].
    inversion F as [|? ? (H1 & H2) Ft]; subst. cbn [map fst snd de_entries] in *. rewrite H1, H2. cbn [obind].
    rewrite insert_new.
    - rewrite IH; auto; rewrite <- app_assoc; auto.
    - rewrite map_app in Nd. cbn [map fst] in Nd. apply NoDup_remove_2 in Nd. intros X. apply Nd, in_or_app. now left.
  Qed.

  Lemma de_map_ok ho (l : list (K * V)) : reorders ho -> NoDup (map fst l) ->
    Forall (fun e => dk (sk (fst e)) = Some (fst e) /\ dv (sv (snd e)) = Some (snd e)) l ->
    de_map eqb dk dv (ser_map ho sk sv l) = Some (ho _ l).
  Proof.
    intros Ho Nd F. unfold ser_map, de_map. rewrite de_entries_ok; [reflexivity| |].
    - cbn [app]. eapply Permutation_NoDup; [|exact Nd]. apply Permutation_map, Ho.
    - eapply Permutation_Forall; [apply Ho|exact F].
  Qed.
End Maps.

(** ** Dense arrays *)
Lemma nth_forall (l : list N) n b : len l = n -> (forall i, i < n -> nth (N.to_nat i) l 0 < b) ->
  Forall (fun x => x < b) l.
Proof.
  intros L H. apply Forall_forall. intros x Hx. destruct (In_nth l x 0 Hx) as (k & Hk & <-).
  specialize (H (N.of_nat k)). rewrite Nat2N.id in H. apply H. unfold len in L. lia.
Qed.

Lemma de_dense_ok d : dense_wf d -> de_dense (ser_dense d) = Some d.
Proof.
  intros ((A & By) & B & C & D & E). unfold ser_dense, de_dense.
  set (fs := [("index_width"%string, _); _; _]).
  change (field "index_width" fs) with (Some (TInt (d_iw d))).
  change (field "data_width" fs) with (Some (TInt (d_dw d))).
  change (field "data" fs) with (Some (ser_dense_impl (d_data d))).
  cbn [obind]. rewrite de_int_ok by (rewrite B32_eq; apply (N.lt_trans _ _ _ A); reflexivity). cbn [obind].
  rewrite de_int_ok by (rewrite B32_eq; auto). cbn [obind].
  assert (Hi : de_dense_impl (ser_dense_impl (d_data d)) = Some (d_data d)).
  { unfold delem in D. destruct (d_data d) as [v|l|l|l]; cbn [ser_dense_impl de_dense_impl String.eqb Ascii.eqb Bool.eqb].
    - destruct E as (_ & _ & W & _). rewrite de_bv_ok by auto. reflexivity.
    - destruct E as (_ & E8 & L). rewrite de_seq_ok; [reflexivity|]. apply (nth_forall l _ _ L).
      intros i Hi. apply (N.lt_le_trans _ _ _ (D i Hi)). apply (pow_le (d_dw d) 8). lia.
    - destruct E as (_ & E8 & L). rewrite de_seq_ok; [reflexivity|]. apply (nth_forall l _ _ L).
      intros i Hi. apply (N.lt_le_trans _ _ _ (D i Hi)). rewrite B64_eq. apply (pow_le (d_dw d) 64). lia.
    - destruct E as (_ & _ & _ & W). rewrite de_seq_ok; [reflexivity|]. exact W. }
  rewrite Hi. destruct d; reflexivity.
Qed.

(** ** Sparse arrays *)
Lemma perm_is s s' iw dw f : sparse_is s iw dw f -> s_iw s' = s_iw s -> s_dw s' = s_dw s -> sdef s' = sdef s ->
  Permutation (sent s) (sent s') ->
  match s_data s' with
     | SU64U64 _ _ => s_iw s <= 64 /\ s_dw s <= 64
     | SU64Big d l => s_iw s <= 64 /\ 64 < s_dw s /\ has_width (s_dw s) d
         /\ Forall (fun e => has_width (s_dw s) (snd e)) l
     | SBigBig d l => 64 < s_iw s /\ has_width (s_dw s) d
         /\ Forall (fun e => has_width (s_iw s) (fst e) /\ has_width (s_dw s) (snd e)) l
  end -> sparse_is s' iw dw f.
Proof.
  intros (W & I & D & F) Ei Ed Es P M. destruct W as (W1 & W2 & W3 & W4 & W5 & W6 & _).
  assert (W' : sparse_wf s').
  { unfold sparse_wf. rewrite Ei, Ed, Es. do 4 (split; [auto|]). split.
    - eapply Permutation_NoDup; [apply Permutation_map, P|auto].
    - split; [eapply Permutation_Forall; [exact P|auto]|exact M]. }
  split; [auto|]. split; [congruence|]. split; [congruence|].
  intros i Hi. rewrite <- F by auto. unfold selem. rewrite Es.
  f_equal. apply (get_perm _ N_eqb_eq); auto.
Qed.

Lemma de_sparse_ok ho s iw dw f : reorders ho -> sparse_is s iw dw f ->
  exists s', de_sparse (ser_sparse ho s) = Some s' /\ sparse_is s' iw dw f /\ sdef s' = sdef s.
Proof.
  intros Ho Is. assert (Is' := Is). destruct Is' as ((A & B & C & D & N1 & F & E) & _).
  unfold ser_sparse, de_sparse.
  set (fs := [("index_width"%string, _); _; _]).
  change (field "index_width" fs) with (Some (TInt (s_iw s))).
  change (field "data_width" fs) with (Some (TInt (s_dw s))).
  change (field "data" fs) with (Some (ser_sparse_impl ho (s_data s))).
  cbn [obind]. rewrite de_int_ok by (rewrite B32_eq; auto). cbn [obind].
  rewrite de_int_ok by (rewrite B32_eq; auto). cbn [obind]. clear fs.
  assert (P64 : forall x w, x < 2 ^ w -> w <= 64 -> x < B64).
  { intros x w Hx Hw. rewrite B64_eq. apply (N.lt_le_trans _ _ _ Hx), pow_le. auto. }
  assert (Dok : forall v w, has_width w v -> de_bv (ser_bv v) = Some v) by (intros v w (W & _); now apply de_bv_ok).
  unfold sdef, sent in *. destruct (s_data s) as [d l|d l|d l] eqn:Es; cbn [ser_sparse_impl de_sparse_impl String.eqb Ascii.eqb Bool.eqb].
  - rewrite de_int_ok by (eapply P64; eauto; lia). cbn [obind].
    rewrite (de_map_ok N.eqb N_eqb_eq TInt (de_int B64) TInt (de_int B64) ho l Ho N1).
    + cbn [obind]. eexists. split; [reflexivity|]. split; [|reflexivity].
      apply (perm_is s); auto; unfold sdef, sent; cbn [s_data]; rewrite ?Es; auto.
    + eapply Forall_impl; [|exact F]. intros (k & v) (X & Y & _). cbn [fst snd] in *.
      split; apply de_int_ok; eapply P64; eauto; lia.
  - destruct E as (E1 & E2 & E3 & E4). rewrite (Dok d (s_dw s)) by auto. cbn [obind].
    assert (N2 : NoDup (map fst l)).
    { unfold rename in N1. rewrite map_map in N1. exact N1. }
    rewrite (de_map_ok N.eqb N_eqb_eq TInt (de_int B64) ser_bv de_bv ho l Ho N2).
    + cbn [obind]. eexists. split; [reflexivity|]. split; [|reflexivity].
      apply (perm_is s); auto; unfold sdef, sent; cbn [s_data]; rewrite ?Es; auto.
      * unfold rename. apply Permutation_map, Ho.
      * do 3 (split; [auto|]). eapply Permutation_Forall; [apply Ho|auto].
    + apply Forall_forall. intros (k & v) Hin. rewrite Forall_forall in E4, F. split; cbn [fst snd].
      * apply de_int_ok. assert (X := F (k, uval v)). cbn [fst snd] in X. eapply P64; [apply X|auto].
        unfold rename. apply in_map_iff. exists (k, v). auto.
      * apply (Dok v (s_dw s)). apply (E4 _ Hin).
  - destruct E as (E1 & E3 & E4). rewrite (Dok d (s_dw s)) by auto. cbn [obind].
    assert (N2 : NoDup (map fst l)).
    { unfold rename in N1. rewrite map_map in N1. cbn in N1.
      apply (NoDup_map_inv uval). rewrite map_map. exact N1. }
    rewrite (de_map_ok bv_eqb bv_eqb_eq ser_bv de_bv ser_bv de_bv ho l Ho N2).
    + cbn [obind]. eexists. split; [reflexivity|]. split; [|reflexivity].
      apply (perm_is s); auto; unfold sdef, sent; cbn [s_data]; rewrite ?Es; auto.
      * unfold rename. apply Permutation_map, Ho.
      * do 2 (split; [auto|]). eapply Permutation_Forall; [apply Ho|auto].
    + rewrite Forall_forall in E4. apply Forall_forall. intros (k & v) Hin. destruct (E4 _ Hin) as (X & Y).
      split; [eapply Dok; exact X|eapply Dok; exact Y].
Qed.
