(** * PIntern: the value interner (C34 - C36, C62). *)

From Coq Require Import ZifyBool ZifyNat ZifyN Permutation.
From Verif Require Import Base Arith Strings Bytes BigInt Bv Map Indexed Spec CallSpec StoreSpec.
From Verif Require Import PWords PArith PropsArith PConv PRegister PShift PStore.
Ltac Zify.zify_post_hook ::= idtac.

(** words stored at an index *)
Definition at_index (ws : list N) (i : N) (l : list N) : Prop :=
  i + len l <= len ws /\ firstn (length l) (skipn (N.to_nat i) ws) = l.

Record inv (st : interner) : Prop := {
  inv_head : exists t, in_words st = [0; 1; 2; 3; 4; 5; 6; 7] ++ t;
  inv_small : forall w i, hm_get N.eqb (in_small st) w = Some i -> at_index (in_words st) i [w] /\ 8 <= i;
  inv_large : forall l i, hm_get words_eqb (in_large st) l = Some i -> at_index (in_words st) i l /\ 8 <= i
}.

Lemma inv_new : inv interner_new.
Proof. split; [exists []; reflexivity|easy|easy]. Qed.

Lemma at_index_app ws i l t : at_index ws i l -> at_index (ws ++ t) i l.
Proof.
  intros (A & B). split; [rewrite len_app; lia|]. unfold len in A.
  rewrite skipn_app, firstn_app_l; [auto|]. rewrite skipn_length. lia.
Qed.

Lemma at_index_new ws l : at_index (ws ++ l) (len ws) l.
Proof.
  split; [rewrite len_app; lia|]. rewrite skipn_app_exact by (unfold len; lia). apply firstn_all.
Qed.

Lemma at_index_small t w : w < 8 -> at_index ([0; 1; 2; 3; 4; 5; 6; 7] ++ t) w [w].
Proof.
  intros H. apply at_index_app.
  destruct w as [|p]; [split; [intros X; discriminate|reflexivity]|].
  do 3 (destruct p as [p|p|]; try (split; [intros X; discriminate|reflexivity]); try lia).
Qed.

(** What one call does. *)
Definition interned (st : interner) (v : bv) (i : bvindex) : Prop :=
  i_width i = width v /\ at_index (in_words st) (i_index i) (words v)
  /\ (match words v with
      | [word] => if word <? 8 then i_index i = word
                  else hm_get N.eqb (in_small st) word = Some (i_index i)
      | ws => hm_get words_eqb (in_large st) ws = Some (i_index i)
      end).

Definition extends (st st' : interner) : Prop :=
  (exists t, in_words st' = in_words st ++ t)
  /\ (forall w i, hm_get N.eqb (in_small st) w = Some i -> hm_get N.eqb (in_small st') w = Some i)
  /\ (forall l i, hm_get words_eqb (in_large st) l = Some i -> hm_get words_eqb (in_large st') l = Some i).

Lemma extends_refl st : extends st st.
Proof. split; [exists []; now rewrite app_nil_r|auto]. Qed.

Lemma extends_trans a b c : extends a b -> extends b c -> extends a c.
Proof.
  intros ((t1 & A1) & A2 & A3) ((t2 & B1) & B2 & B3). split; [|auto].
  exists (t1 ++ t2). rewrite B1, A1. now rewrite app_assoc.
Qed.

Lemma interned_extends st st' v i : extends st st' -> interned st v i -> interned st' v i.
Proof.
  intros ((t & E1) & E2 & E3) (I1 & I2 & I3). split; [auto|]. split; [rewrite E1; now apply at_index_app|].
  destruct (words v) as [|word [|? ?]]; auto. destruct (word <? 8); auto.
Qed.

Lemma wf_shaped v : wf v -> well_shaped v.
Proof. intros (A & B & C & _). now split. Qed.

Lemma get_index_shaped m st v : inv st -> well_shaped v -> 0 < width v ->
  exists st' i, interner_get_index m st v = Ok (st', i)
    /\ len (in_words st) <= len (in_words st')
    /\ (len (in_words st') <= 2 ^ 32 -> inv st' /\ extends st st' /\ interned st' v i).
Proof.
  intros I Hwf Hw. destruct Hwf as (H32 & Hl & HW).
  assert (Eu : len (in_words st) < 2 ^ 32 -> as_u32 (len (in_words st)) = len (in_words st)).
  { intros. unfold as_u32. apply N.mod_small. rewrite B32_eq. lia. }
  assert (H8 : 8 <= len (in_words st)).
  { destruct (inv_head st I) as (t & E). rewrite E, len_app. change (len [0;1;2;3;4;5;6;7]) with 8. lia. }
  unfold interner_get_index.
  destruct (words v) as [|word rest] eqn:Ev.
  { exfalso. change (@len N []) with 0 in Hl. clear - Hl Hw. dlia. }
  destruct rest as [|w2 rest].
  - change (len [word]) with 1 in Hl.
    assert (W64 : width v <= 64) by (clear - Hl; dlia).
    replace (width v <=? 64) with true by lia. rewrite debug_assert_true. cbn [bind].
    destruct (word <? 8) eqn:E8.
    + exists st, (index_new (as_u32 word) (width v)). split; [auto|]. split; [lia|]. intros _. split; [auto|].
      split; [apply extends_refl|].
      assert (E2 : as_u32 word = word) by (unfold as_u32; apply N.mod_small; rewrite B32_eq; lia).
      rewrite E2. unfold interned, index_new. cbn [i_width i_index]. rewrite Ev, E8.
      split; [auto|]. split; [|auto]. destruct (inv_head st I) as (t & ->). apply at_index_small. lia.
    + destruct (hm_get N.eqb (in_small st) word) as [i|] eqn:G.
      * exists st, (index_new i (width v)). split; [auto|]. split; [lia|]. intros _. split; [auto|].
        split; [apply extends_refl|]. unfold interned, index_new. cbn [i_width i_index].
        rewrite Ev, E8. split; [auto|]. split; [|auto]. now apply (inv_small st I).
      * eexists _, _. split; [reflexivity|]. cbn [in_words in_small in_large].
        rewrite len_app. change (len [word]) with 1. split; [lia|]. intros Hlen. rewrite Eu by lia.
        split; [|split].
        -- split; cbn [in_words in_small in_large].
           ++ destruct (inv_head st I) as (t & E). exists (t ++ [word]). rewrite E. now rewrite <- app_assoc.
           ++ intros w i Hg. destruct (N.eq_dec word w) as [->|Nw].
              ** rewrite hm_get_insert_same in Hg by apply N.eqb_refl. injection Hg as <-.
                 split; [apply at_index_new|auto].
              ** rewrite hm_get_insert_other in Hg by (auto using N.eqb_eq).
                 destruct (inv_small st I w i Hg). split; [now apply at_index_app|auto].
           ++ intros l i Hg. destruct (inv_large st I l i Hg). split; [now apply at_index_app|auto].
        -- split; cbn [in_words in_small in_large]; [eauto|]. split; [|auto].
           intros w i Hg. rewrite hm_get_insert_other; auto using N.eqb_eq. congruence.
        -- unfold interned, index_new. cbn [i_width i_index in_words in_small in_large]. rewrite Ev, E8.
           split; [auto|]. split; [apply at_index_new|]. apply hm_get_insert_same, N.eqb_refl.
  - rewrite !len_cons in Hl.
    assert (W64 : 64 < width v) by (clear - Hl; dlia).
    replace (64 <? width v) with true by lia. rewrite debug_assert_true. cbn [bind].
    set (ws := word :: w2 :: rest) in *.
    assert (R : forall a, words_eqb a a = true) by (intros; now apply words_eqb_eq).
    destruct (hm_get words_eqb (in_large st) ws) as [i|] eqn:G.
    + exists st, (index_new i (width v)). split; [auto|]. split; [lia|]. intros _. split; [auto|].
      split; [apply extends_refl|]. unfold interned, index_new. cbn [i_width i_index].
      rewrite Ev. split; [auto|]. split; [|auto]. now apply (inv_large st I).
    + eexists _, _. split; [reflexivity|]. cbn [in_words in_small in_large].
      rewrite len_app. split; [lia|]. intros Hlen. unfold ws in Hlen. rewrite !len_cons in Hlen. rewrite Eu by lia.
      split; [|split].
      * split; cbn [in_words in_small in_large].
        -- destruct (inv_head st I) as (t & E). exists (t ++ ws). rewrite E. now rewrite <- app_assoc.
        -- intros w i Hg. destruct (inv_small st I w i Hg). split; [now apply at_index_app|auto].
        -- intros l i Hg. destruct (words_eqb ws l) eqn:E.
           ++ apply words_eqb_eq in E. subst l. rewrite hm_get_insert_same in Hg by auto.
              injection Hg as <-. split; [apply at_index_new|auto].
           ++ rewrite hm_get_insert_other in Hg by (auto using words_eqb_eq; intros ->; rewrite R in E; discriminate).
              destruct (inv_large st I l i Hg). split; [now apply at_index_app|auto].
      * split; cbn [in_words in_small in_large]; [eauto|]. split; [auto|].
        intros l i Hg. rewrite hm_get_insert_other; auto using words_eqb_eq. intros ->. congruence.
      * unfold interned, index_new. cbn [i_width i_index in_words in_small in_large]. rewrite Ev.
        split; [auto|]. split; [apply at_index_new|]. now apply hm_get_insert_same.
Qed.

Lemma get_index_ok m st v : inv st -> wf v -> 0 < width v ->
  exists st' i, interner_get_index m st v = Ok (st', i)
    /\ len (in_words st) <= len (in_words st')
    /\ (len (in_words st') <= 2 ^ 32 -> inv st' /\ extends st st' /\ interned st' v i).
Proof. intros I H. apply get_index_shaped; auto using wf_shaped. Qed.

Lemma get_index_ret m st v : wf v -> 0 < width v ->
  exists st' i, interner_get_index m st v = Ok (st', i) /\ len (in_words st) <= len (in_words st').
Proof.
  intros (_ & Hl & _) Hw. unfold interner_get_index.
  destruct (words v) as [|word [|w2 rest]].
  - exfalso. change (@len N []) with 0 in Hl. clear - Hl Hw. dlia.
  - change (len [word]) with 1 in Hl. replace (width v <=? 64) with true by (clear - Hl; dlia).
    rewrite debug_assert_true. cbn [bind]. destruct (word <? 8); [eexists _, _; split; [reflexivity|lia]|].
    destruct (hm_get N.eqb (in_small st) word); eexists _, _; (split; [reflexivity|]); cbn [in_words];
      rewrite ?len_app; lia.
  - rewrite !len_cons in Hl. replace (64 <? width v) with true by (clear - Hl; dlia).
    rewrite debug_assert_true. cbn [bind].
    destruct (hm_get words_eqb (in_large st) (word :: w2 :: rest)); eexists _, _; (split; [reflexivity|]);
      cbn [in_words]; rewrite ?len_app; lia.
Qed.

Lemma intern_all_ret m vs : Forall (fun v => wf v /\ 0 < width v) vs -> forall st,
  exists st' is, intern_all m st vs = Ok (st', is) /\ len (in_words st) <= len (in_words st')
    /\ length is = length vs.
Proof.
  induction 1 as [|v vs (Hv & Hw) HF IH]; intros st.
  - exists st, []. cbn. repeat split; lia.
  - cbn [intern_all]. destruct (get_index_ret m st v Hv Hw) as (s1 & i & -> & L1). cbn [bind].
    destruct (IH s1) as (s2 & is & -> & L2 & L3). cbn [bind]. exists s2, (i :: is).
    split; [reflexivity|]. cbn [length]. split; [lia|congruence].
Qed.

Lemma intern_all_ok m vs : Forall (fun v => wf v /\ 0 < width v) vs ->
  forall st st' is, inv st -> intern_all m st vs = Ok (st', is) -> len (in_words st') <= 2 ^ 32 ->
  inv st' /\ extends st st' /\ Forall2 (interned st') vs is.
Proof.
  induction 1 as [|v vs (Hv & Hw) HF IH]; intros st st' is I E L.
  - injection E as <- <-. split; [auto|]. split; [apply extends_refl|constructor].
  - cbn [intern_all] in E. destruct (get_index_ok m st v I Hv Hw) as (s1 & i & E1 & L1 & C). rewrite E1 in E.
    cbn [bind] in E. destruct (intern_all_ret m vs HF s1) as (s2 & is2 & E2 & L2 & _). rewrite E2 in E.
    cbn [bind] in E. injection E as <- <-. destruct C as (C1 & C2 & C3); [lia|].
    destruct (IH s1 s2 is2 C1 E2 L) as (D1 & D2 & D3). split; [auto|]. split; [eapply extends_trans; eauto|].
    constructor; [|auto]. eapply interned_extends; eauto.
Qed.

(** ** What is stored *)

Definition keys_of (st : interner) : list (N * N) := map (fun kv => (len (fst kv), wv (fst kv))) (in_large st).

Definition small_list (vs : list bv) : list N :=
  map uval (filter (fun v => (width v <=? 64) && (8 <=? uval v)) vs).
Definition wide_list (vs : list bv) : list (N * N) :=
  map (fun v => ((width v + 63) / 64, uval v)) (filter (fun v => 64 <? width v) vs).

Record counts (st : interner) (vs : list bv) : Prop := {
  c_small_nd : NoDup (map fst (in_small st));
  c_small : forall w, In w (map fst (in_small st)) <-> In w (small_list vs);
  c_words : Forall Words (map fst (in_large st));
  c_large_nd : NoDup (keys_of st);
  c_large : forall p, In p (keys_of st) <-> In p (wide_list vs);
  c_len : len (in_words st) = 8 + len (in_small st) + sum_fst (keys_of st)
}.

Lemma hm_insert_new {K V} (eqb : K -> K -> bool) l k (v : V) : hm_get eqb l k = None ->
  hm_insert eqb l k v = l ++ [(k, v)].
Proof.
  induction l as [|[k' v'] t IH]; intros H; cbn [hm_insert hm_get app] in *; [auto|].
  destruct (eqb k' k); [discriminate|]. now rewrite IH.
Qed.
Lemma hm_get_none {K V} (eqb : K -> K -> bool) (l : list (K * V)) k : (forall a b, eqb a b = true <-> a = b) ->
  (hm_get eqb l k = None <-> ~ In k (map fst l)).
Proof.
  intros R. induction l as [|[k' v'] t IH]; cbn [hm_get map fst]; [easy|].
  destruct (eqb k' k) eqn:E.
  - apply R in E. subst. cbn. split; [discriminate|intros H; exfalso; auto].
  - rewrite IH. cbn. split; [|tauto]. intros H [->|H2]; [|auto]. assert (eqb k k = true) by now apply R. congruence.
Qed.
Lemma sum_fst_app a b : sum_fst (a ++ b) = sum_fst a + sum_fst b.
Proof. induction a as [|p a IH]; cbn [app sum_fst]; [reflexivity|]. rewrite IH. lia. Qed.
Lemma sum_fst_perm a b : Permutation a b -> sum_fst a = sum_fst b.
Proof. induction 1; cbn [sum_fst]; lia. Qed.
Lemma NoDup_snoc {A} (l : list A) x : NoDup l -> ~ In x l -> NoDup (l ++ [x]).
Proof. intros H N. apply (Permutation_NoDup (l := x :: l)); [apply Permutation_cons_append|now constructor]. Qed.

Lemma counts_new : counts interner_new [].
Proof. split; cbn; try constructor; try easy. Qed.

Lemma counts_shaped m st vs v st' i : counts st vs -> well_shaped v -> 0 < width v ->
  interner_get_index m st v = Ok (st', i) -> counts st' (vs ++ [v]).
Proof.
  intros [C1 C2 C3 C4 C5 C6] (_ & Hl & HW) Hw E. unfold interner_get_index in E.
  assert (RW := words_eqb_eq). assert (RN := N.eqb_eq).
  assert (S1 : forall x, In x (small_list (vs ++ [v])) <->
    In x (small_list vs) \/ (width v <= 64 /\ 8 <= uval v /\ x = uval v)).
  { intros x. unfold small_list. rewrite filter_app, map_app, in_app_iff. cbn [filter].
    destruct ((width v <=? 64) && (8 <=? uval v)) eqn:Ef; cbn; intuition lia. }
  assert (L1 : forall p, In p (wide_list (vs ++ [v])) <->
    In p (wide_list vs) \/ (64 < width v /\ p = ((width v + 63) / 64, uval v))).
  { intros p. unfold wide_list. rewrite filter_app, map_app, in_app_iff. cbn [filter].
    destruct (64 <? width v) eqn:Ef; cbn; intuition (auto; lia). }
  destruct (words v) as [|word [|w2 rest]] eqn:Ev.
  - exfalso. change (@len N []) with 0 in Hl. clear - Hl Hw. dlia.
  - change (len [word]) with 1 in Hl. assert (W : width v <= 64) by (clear - Hl; dlia).
    assert (U : uval v = word) by (unfold uval; rewrite Ev; cbn [words_val]; lia).
    replace (width v <=? 64) with true in E by lia. rewrite debug_assert_true in E. cbn [bind] in E.
    assert (L2 : forall p, In p (keys_of st) <-> In p (wide_list (vs ++ [v]))).
    { intros p. rewrite L1, C5. split; [auto|]. intros [H|H]; [auto|lia]. }
    destruct (word <? 8) eqn:E8; [|destruct (hm_get N.eqb (in_small st) word) as [k|] eqn:G].
    + injection E as <- _. split; auto. intros x. rewrite S1, C2. rewrite U. split; [auto|]. intros [H|H]; [auto|lia].
    + injection E as <- _. split; auto. intros x. rewrite S1, <- C2. rewrite U. split; [auto|].
      intros [H|(_ & _ & ->)]; [auto|].
      destruct (in_dec N.eq_dec word (map fst (in_small st))) as [|Hn]; [auto|].
      apply (hm_get_none N.eqb) in Hn; auto. congruence.
    + injection E as <- _. assert (Hn := proj1 (hm_get_none N.eqb _ _ RN) G).
      rewrite (hm_insert_new _ _ _ _ G). split; cbn [in_words in_small in_large]; auto.
      * rewrite map_app. now apply NoDup_snoc.
      * intros x. rewrite S1, map_app, in_app_iff, C2, U. cbn. intuition lia.
      * rewrite !len_app. change (len [word]) with 1. change (len [(word, _)]) with 1.
        unfold keys_of in *. cbn [in_large]. lia.
  - assert (Hl' := Hl). rewrite !len_cons in Hl. assert (W : 64 < width v) by (clear - Hl; dlia).
    replace (64 <? width v) with true in E by lia. rewrite debug_assert_true in E. cbn [bind] in E.
    set (ws := word :: w2 :: rest) in *.
    assert (U : uval v = wv ws) by (unfold uval; now rewrite Ev).
    assert (S2 : forall x, In x (map fst (in_small st)) <-> In x (small_list (vs ++ [v]))).
    { intros x. rewrite S1, C2. split; [auto|]. intros [H|H]; [auto|lia]. }
    destruct (hm_get words_eqb (in_large st) ws) as [k|] eqn:G.
    + injection E as <- _. split; auto. intros p. rewrite L1, <- C5. split; [auto|].
      intros [H|(_ & ->)]; [auto|]. rewrite <- Hl', U.
      destruct (in_dec (list_eq_dec N.eq_dec) ws (map fst (in_large st))) as [H|Hn].
      * unfold keys_of. rewrite <- (map_map fst (fun l => (len l, wv l))).
        apply (in_map (fun l => (len l, wv l))) in H. exact H.
      * apply (hm_get_none words_eqb) in Hn; auto. congruence.
    + injection E as <- _. assert (Hn := proj1 (hm_get_none words_eqb _ _ RW) G).
      rewrite (hm_insert_new _ _ _ _ G). unfold keys_of in *. split; cbn [in_words in_small in_large]; auto.
      * rewrite map_app. apply Forall_app. split; [auto|]. constructor; [|constructor]. exact HW.
      * unfold keys_of. cbn [in_large]. rewrite map_app. apply NoDup_snoc; [auto|]. cbn [fst]. intros H.
        apply Hn. rewrite <- (map_map fst (fun l => (len l, wv l))) in H.
        apply in_map_iff in H as (l & El & H). injection El as E1 E2.
        assert (l = ws); [|subst; auto]. apply wv_inj; auto. eapply Forall_forall in C3; eauto.
      * intros p. rewrite L1, <- C5. unfold keys_of. cbn [in_large]. rewrite map_app, in_app_iff. cbn [map fst In].
        rewrite U, <- Hl'. intuition.
      * unfold keys_of. cbn [in_large]. rewrite map_app, sum_fst_app, !len_app. cbn [map sum_fst fst]. lia.
Qed.

Lemma counts_step m st vs v st' i : counts st vs -> wf v -> 0 < width v ->
  interner_get_index m st v = Ok (st', i) -> counts st' (vs ++ [v]).
Proof. intros C H. apply counts_shaped; auto using wf_shaped. Qed.

Lemma counts_all m vs : Forall (fun v => wf v /\ 0 < width v) vs -> forall done st st' is,
  counts st done -> intern_all m st vs = Ok (st', is) -> counts st' (done ++ vs).
Proof.
  induction 1 as [|v vs (Hv & Hw) HF IH]; intros done st st' is C E.
  - injection E as <- <-. now rewrite app_nil_r.
  - cbn [intern_all] in E. destruct (get_index_ret m st v Hv Hw) as (s1 & i & E1 & _). rewrite E1 in E.
    cbn [bind] in E. destruct (intern_all_ret m vs HF s1) as (s2 & is2 & E2 & _). rewrite E2 in E.
    cbn [bind] in E. injection E as <- <-.
    change (v :: vs) with ([v] ++ vs). rewrite app_assoc.
    apply (IH _ s1 s2 is2); [|auto]. eapply counts_step; eauto.
Qed.

Lemma len_perm {A} (a b : list A) : Permutation a b -> len a = len b.
Proof. intros H. unfold len. f_equal. now apply Permutation_length. Qed.

Lemma counts_stored st vs : counts st vs ->
  len (in_small st) = len (small_values vs) /\ len (in_large st) = len (wide_values vs)
  /\ len (in_words st) = stored vs.
Proof.
  intros [C1 C2 C3 C4 C5 C6].
  assert (P1 : Permutation (map fst (in_small st)) (small_values vs)).
  { apply NoDup_Permutation; [auto|apply NoDup_nodup|]. intros x. rewrite C2. unfold small_values. now rewrite nodup_In. }
  assert (P2 : Permutation (keys_of st) (wide_values vs)).
  { apply NoDup_Permutation; [auto|apply NoDup_nodup|]. intros x. rewrite C5. unfold wide_values. now rewrite nodup_In. }
  assert (N1 := len_perm _ _ P1). assert (N2 := len_perm _ _ P2). unfold keys_of in N2.
  unfold len in N1, N2. rewrite map_length in N1, N2. unfold stored. rewrite <- (sum_fst_perm _ _ P2), C6.
  unfold len in *. split; [auto|]. split; [auto|]. lia.
Qed.

Lemma intern_stored m vs : Forall (fun v => wf v /\ 0 < width v) vs ->
  exists st is, intern_all m interner_new vs = Ok (st, is) /\ len (interner_words st) = stored vs
    /\ len (in_small st) = len (small_values vs) /\ len (in_large st) = len (wide_values vs).
Proof.
  intros HF. destruct (intern_all_ret m vs HF interner_new) as (st & is & E & _). exists st, is. split; [auto|].
  destruct (counts_stored st vs) as (A & B & C); [|auto].
  apply (counts_all m vs HF [] interner_new st is counts_new E).
Qed.

Lemma interned_read_shaped st v i : interned st v i -> well_shaped v -> get_ref (in_words st) i = Ok v.
Proof.
  intros (I1 & I2 & _) (H32 & Hl & _). destruct I2 as (A & B).
  rewrite get_ref_in by (unfold in_range, past; rewrite I1; lia).
  unfold view. unfold first, past. rewrite I1.
  replace (i_index i + (width v + 63) / 64 - i_index i) with (len (words v)) by lia.
  replace (N.to_nat (len (words v))) with (length (words v)) by (unfold len; lia).
  rewrite B. destruct v as [vw vl]. reflexivity.
Qed.

Lemma interned_read st v i : interned st v i -> wf v -> get_ref (in_words st) i = Ok v.
Proof. intros H W. apply interned_read_shaped; auto using wf_shaped. Qed.

Lemma interned_unique st v i j : interned st v i -> interned st v j -> i = j.
Proof.
  intros (I1 & _ & I3) (J1 & _ & J3). destruct i as [iw ii], j as [jw ji]. cbn [i_width i_index] in *.
  subst. f_equal. destruct (words v) as [|word [|? ?]]; try congruence.
  destruct (word <? 8); congruence.
Qed.

Lemma interned_const_shaped st v i n : n < 8 -> inv st -> interned st v i -> well_shaped v -> 0 < width v ->
  (i_index i =? n) = (uval v =? n) && (width v <=? 64).
Proof.
  intros Hn I (I1 & I2 & I3) (H32 & Hl & HW) Hw. unfold uval.
  destruct (words v) as [|word [|w2 rest]] eqn:Ev.
  - exfalso. change (@len N []) with 0 in Hl. clear - Hl Hw. dlia.
  - change (len [word]) with 1 in Hl. replace (width v <=? 64) with true by (clear - Hl; dlia).
    rewrite andb_true_r. cbn [words_val]. rewrite N.mul_0_r, N.add_0_r.
    destruct (word <? 8) eqn:E8; [now rewrite I3|].
    destruct (inv_small st I _ _ I3) as (_ & L). lia.
  - rewrite !len_cons in Hl. replace (width v <=? 64) with false by (clear - Hl; dlia).
    rewrite andb_false_r. destruct (inv_large st I _ _ I3) as (_ & L). lia.
Qed.

Lemma interned_const st v i n : n < 8 -> inv st -> interned st v i -> wf v -> 0 < width v ->
  (i_index i =? n) = (uval v =? n) && (width v <=? 64).
Proof. intros Hn I H W. apply (interned_const_shaped st); auto using wf_shaped. Qed.

Lemma Forall2_length {A B} (R : A -> B -> Prop) l l' : Forall2 R l l' -> length l = length l'.
Proof. induction 1; cbn; congruence. Qed.

(** ** The statements about whole histories. *)

Lemma Forall2_nth {A B} (R : A -> B -> Prop) (P : A -> Prop) l l' : Forall2 R l l' -> Forall P l ->
  forall k x y, nth_error l k = Some x -> nth_error l' k = Some y -> R x y /\ P x.
Proof.
  induction 1 as [|a b l l' H E IH]; intros HF [|k] x y Hx Hy; cbn in Hx, Hy; try discriminate.
  - injection Hx as ->. injection Hy as ->. inversion HF; auto.
  - inversion HF; subst. eapply IH; eauto.
Qed.

Lemma intern_new_ok m vs : Forall (fun v => wf v /\ 0 < width v) vs -> stored vs <= 2 ^ 32 ->
  exists st is, intern_all m interner_new vs = Ok (st, is) /\ inv st /\ Forall2 (interned st) vs is.
Proof.
  intros HF HT. destruct (intern_stored m vs HF) as (st & is & E & L & _). exists st, is. split; [auto|].
  unfold interner_words in L. destruct (intern_all_ok m vs HF interner_new st is inv_new E) as (I & _ & F); [lia|auto].
Qed.

Lemma intern_history m vs : Forall (fun v => wf v /\ 0 < width v) vs -> stored vs <= 2 ^ 32 ->
  exists st is, intern_all m interner_new vs = Ok (st, is) /\ length is = length vs
    /\ forall j k vj vk ij ik, nth_error vs j = Some vj -> nth_error vs k = Some vk ->
         nth_error is j = Some ij -> nth_error is k = Some ik ->
         (ij = ik <-> width vj = width vk /\ uval vj = uval vk).
Proof.
  intros HF HT. destruct (intern_new_ok m vs HF HT) as (st & is & E1 & E2 & E4).
  exists st, is. split; [auto|]. split; [symmetry; eapply Forall2_length; eauto|].
  intros j k vj vk ij ik Vj Vk Ij Ik.
  destruct (Forall2_nth _ _ _ _ E4 HF _ _ _ Vj Ij) as (Pj & Wj & _).
  destruct (Forall2_nth _ _ _ _ E4 HF _ _ _ Vk Ik) as (Pk & Wk & _). split.
  - intros ->. assert (R1 := interned_read _ _ _ Pj Wj). assert (R2 := interned_read _ _ _ Pk Wk).
    rewrite R1 in R2. injection R2 as ->. auto.
  - intros (W & U). assert (vj = vk); [|subst; eapply interned_unique; eauto].
    apply (is_bv_unique _ _ (width vk) (uval vk)); [rewrite <- W, <- U|]; now apply wf_is_bv.
Qed.

Lemma intern_read m vs later : Forall (fun v => wf v /\ 0 < width v) (vs ++ later) ->
  stored (vs ++ later) <= 2 ^ 32 ->
  exists st1 is1 st2 is2, intern_all m interner_new vs = Ok (st1, is1)
    /\ intern_all m st1 later = Ok (st2, is2)
    /\ (forall k v i, nth_error vs k = Some v -> nth_error is1 k = Some i ->
          get_ref (interner_words st1) i = Ok v /\ get_ref (interner_words st2) i = Ok v)
    /\ length is1 = length vs.
Proof.
  intros HF HT. apply Forall_app in HF as (F1 & F2).
  destruct (intern_all_ret m vs F1 interner_new) as (st1 & is1 & E1 & _ & L1).
  destruct (intern_all_ret m later F2 st1) as (st2 & is2 & E2 & L2 & _).
  exists st1, is1, st2, is2. split; [auto|]. split; [auto|]. split; [|auto].
  assert (C1 := counts_all m vs F1 [] _ _ _ counts_new E1).
  assert (C2 := counts_all m later F2 _ _ _ _ C1 E2). cbn [app] in C2.
  destruct (counts_stored _ _ C2) as (_ & _ & L3).
  destruct (intern_all_ok m vs F1 interner_new st1 is1 inv_new E1) as (I1 & _ & P1); [lia|].
  destruct (intern_all_ok m later F2 st1 st2 is2 I1 E2) as (_ & X2 & _); [lia|].
  intros k v i Hv Hi. destruct (Forall2_nth _ _ _ _ P1 F1 _ _ _ Hv Hi) as (P & W & _).
  split; apply interned_read; auto. eapply interned_extends; eauto.
Qed.

Lemma intern_const m vs : Forall (fun v => wf v /\ 0 < width v) vs -> stored vs <= 2 ^ 32 ->
  exists st is, intern_all m interner_new vs = Ok (st, is)
    /\ forall k v i, nth_error vs k = Some v -> nth_error is k = Some i ->
         (interner_is_zero i = true <-> uval v = 0 /\ width v <= 64)
         /\ (interner_is_one i = true <-> uval v = 1 /\ width v <= 64).
Proof.
  intros HF HT. destruct (intern_new_ok m vs HF HT) as (st & is & E1 & E2 & E4).
  exists st, is. split; [auto|]. intros k v i Hv Hi.
  destruct (Forall2_nth _ _ _ _ E4 HF _ _ _ Hv Hi) as (P & W & Hw).
  unfold interner_is_zero, interner_is_one.
  rewrite (interned_const st v i 0), (interned_const st v i 1) by (auto; lia). lia.
Qed.

Lemma intern_zero_refuted : exists m v st i, is_bv v 65 0
  /\ interner_get_index m interner_new v = Ok (st, i) /\ interner_is_zero i = false.
Proof.
  exists Debug, (bv_zero 65). eexists _, _. split; [apply zero_is_bv; reflexivity|].
  split; reflexivity.
Qed.

(** ** Beyond 2^32 words *)

Definition upto_values (n : nat) : list bv := bv_of 64 0 :: map (fun k => bv_of 64 (N.of_nat k)) (seq 8 n).

Lemma word_value k : k < 2 ^ 64 -> is_bv (bv_of 64 k) 64 k.
Proof. intros H. apply bv_of_is_bv; auto. reflexivity. Qed.

Lemma upto_wf n : N.of_nat n + 8 <= 2 ^ 64 -> Forall (fun v => wf v /\ 0 < width v) (upto_values n).
Proof.
  intros H. constructor.
  - split; [apply (word_value 0); reflexivity|reflexivity].
  - apply Forall_forall. intros v Hv. apply in_map_iff in Hv as (k & <- & Hk). apply in_seq in Hk.
    split; [|reflexivity]. apply (word_value (N.of_nat k)). lia.
Qed.

Lemma upto_small n : N.of_nat n + 8 <= 2 ^ 64 -> small_list (upto_values n) = map N.of_nat (seq 8 n).
Proof.
  intros H. unfold small_list, upto_values. cbn [filter].
  replace ((width (bv_of 64 0) <=? 64) && (8 <=? uval (bv_of 64 0))) with false by reflexivity.
  assert (G : forall l, (forall k, In k l -> 8 <= N.of_nat k < 2 ^ 64) ->
    map uval (filter (fun v => (width v <=? 64) && (8 <=? uval v)) (map (fun k => bv_of 64 (N.of_nat k)) l))
    = map N.of_nat l).
  { clear. induction l as [|k l IH]; intros Hl; cbn [map filter]; [reflexivity|].
    destruct (word_value (N.of_nat k)) as (_ & E1 & E2); [apply Hl; cbn; auto|].
    rewrite E1, E2. assert (8 <= N.of_nat k) by (apply Hl; cbn; auto).
    replace ((64 <=? 64) && (8 <=? N.of_nat k)) with true by lia. cbn [map]. rewrite E2, IH; [auto|].
    intros j Hj. apply Hl. now right. }
  apply G. intros k Hk. apply in_seq in Hk. lia.
Qed.

Lemma upto_wide n : wide_list (upto_values n) = [].
Proof.
  unfold wide_list, upto_values. cbn [filter]. replace (64 <? width (bv_of 64 0)) with false by reflexivity.
  induction (seq 8 n) as [|k l IH]; cbn [map filter]; [reflexivity|].
  replace (64 <? width (bv_of 64 (N.of_nat k))) with false by reflexivity. exact IH.
Qed.

Lemma nodup_of_nat l : NoDup l -> NoDup (map N.of_nat l).
Proof.
  induction 1 as [|k l H E IH]; cbn [map]; constructor; auto.
  intros X. apply in_map_iff in X as (j & Ej & X). apply H. apply Nat2N.inj in Ej. now subst.
Qed.

Lemma upto_stored n : N.of_nat n + 8 <= 2 ^ 64 -> stored (upto_values n) = N.of_nat n + 8.
Proof.
  intros H. unfold stored. unfold small_values, wide_values.
  fold (small_list (upto_values n)). fold (wide_list (upto_values n)).
  rewrite upto_wide, upto_small by auto. cbn [nodup sum_fst].
  rewrite nodup_fixed_point by (apply nodup_of_nat, seq_NoDup).
  unfold len. rewrite map_length, seq_length. lia.
Qed.

Lemma intern_all_app m a b st : intern_all m st (a ++ b)
  = let* (s1, i1) := intern_all m st a in let* (s2, i2) := intern_all m s1 b in Ok (s2, i1 ++ i2).
Proof.
  revert st. induction a as [|v a IH]; intros st; cbn [app intern_all].
  - cbn [bind]. destruct (intern_all m st b) as [[s2 i2]|]; reflexivity.
  - destruct (interner_get_index m st v) as [[s1 i]|]; cbn [bind]; [|reflexivity]. rewrite IH.
    destruct (intern_all m s1 a) as [[s2 i1]|]; cbn [bind]; [|reflexivity].
    destruct (intern_all m s2 b) as [[s3 i2]|]; reflexivity.
Qed.

Lemma seq_snoc a n : seq a (S n) = seq a n ++ [(a + n)%nat].
Proof. revert a. induction n as [|n IH]; intros a; cbn [seq app]; [f_equal; lia|]. f_equal. rewrite <- Nat.add_succ_comm. apply IH. Qed.

Lemma limit_step m n : N.of_nat n + 8 = 2 ^ 32 ->
  exists st is, intern_all m interner_new (upto_values (S n)) = Ok (st, is)
    /\ nth_error is 0 = Some (mkindex 64 0) /\ nth_error is (S n) = Some (mkindex 64 0).
Proof.
  intros Hn.
  assert (B : N.of_nat n + 8 <= 2 ^ 64) by lia.
  assert (EQ : upto_values (S n) = upto_values n ++ [bv_of 64 (2 ^ 32)]).
  { unfold upto_values. rewrite seq_snoc, map_app. cbn [map app]. do 3 f_equal. f_equal. lia. }
  rewrite EQ, intern_all_app.
  destruct (intern_all_ret m _ (upto_wf n B) interner_new) as (s1 & is1 & E1 & _ & L1). rewrite E1. cbn [bind].
  assert (C := counts_all m _ (upto_wf n B) [] _ _ _ counts_new E1). cbn [app] in C.
  destruct (counts_stored _ _ C) as (_ & _ & L). rewrite upto_stored in L by auto.
  assert (G : hm_get N.eqb (in_small s1) (2 ^ 32) = None).
  { apply hm_get_none; [apply N.eqb_eq|]. rewrite (c_small _ _ C), upto_small by auto.
    intros X. apply in_map_iff in X as (k & Ek & X). apply in_seq in X. lia. }
  change (bv_of 64 (2 ^ 32)) with (mkbv 64 [2 ^ 32]).
  cbn [intern_all]. unfold interner_get_index. cbn [words width].
  replace (64 <=? 64) with true by reflexivity. rewrite debug_assert_true. cbn [bind].
  replace (2 ^ 32 <? 8) with false by reflexivity. rewrite G. cbn [bind].
  rewrite L, Hn. change (as_u32 (2 ^ 32)) with 0. eexists _, _. split; [reflexivity|].
  cbn [length upto_values] in L1. rewrite map_length, seq_length in L1. split.
  - unfold upto_values in E1. cbn [intern_all] in E1.
    destruct (interner_get_index m interner_new (bv_of 64 0)) as [[sa ia]|] eqn:Ea; [|discriminate]. cbn [bind] in E1.
    destruct (intern_all m sa _) as [[sb ib]|]; [|discriminate]. cbn [bind] in E1. injection E1 as <- <-.
    cbn [app nth_error]. f_equal. unfold interner_get_index in Ea. change (words (bv_of 64 0)) with [0] in Ea.
    change (width (bv_of 64 0)) with 64 in Ea.
    replace (64 <=? 64) with true in Ea by reflexivity. rewrite debug_assert_true in Ea. cbn [bind] in Ea.
    replace (0 <? 8) with true in Ea by reflexivity. injection Ea as <- <-. reflexivity.
  - rewrite nth_error_app2 by lia. rewrite L1, Nat.sub_diag. reflexivity.
Qed.

Lemma intern_limit m : exists vs st is j k vj vk i,
  Forall (fun v => wf v /\ 0 < width v) vs /\ stored vs = 2 ^ 32 + 1
  /\ intern_all m interner_new vs = Ok (st, is)
  /\ nth_error vs j = Some vj /\ nth_error vs k = Some vk
  /\ nth_error is j = Some i /\ nth_error is k = Some i
  /\ width vj = width vk /\ uval vj <> uval vk.
Proof.
  assert (H : exists n, N.of_nat n + 8 = 2 ^ 32) by (exists (N.to_nat (2 ^ 32 - 8)); lia).
  destruct H as (n & Hn).
  destruct (limit_step m n Hn) as (st & is & E & I0 & In).
  exists (upto_values (S n)), st, is, 0%nat, (S n), (bv_of 64 0), (bv_of 64 (2 ^ 32)), (mkindex 64 0).
  split; [apply upto_wf; lia|]. split; [rewrite upto_stored; lia|]. split; [auto|]. split; [reflexivity|].
  split; [|split; [auto|split; [auto|split; [reflexivity|intros X; discriminate X]]]].
  cbn [upto_values nth_error]. rewrite seq_snoc, map_app. rewrite nth_error_app2 by (rewrite map_length, seq_length; auto).
  rewrite map_length, seq_length, Nat.sub_diag. cbn [map nth_error]. do 2 f_equal. lia.
Qed.
