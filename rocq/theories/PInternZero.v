(** * PInternZero: values of width 0 in the interner (C34, C35, C36). *)

From Coq Require Import ZifyBool ZifyNat ZifyN.
From Verif Require Import Base Arith Bv Map Indexed Spec StoreSpec.
From Verif Require Import PWords PConv PStore PIntern.
Ltac Zify.zify_post_hook ::= idtac.

Lemma zero_words v : wf v -> width v = 0 -> words v = [] /\ uval v = 0.
Proof.
  intros (_ & Hl & _) E. rewrite E in Hl. change ((0 + 63) / 64) with 0 in Hl.
  assert (words v = []) as W by (destruct (words v); [auto|rewrite len_cons in Hl; lia]).
  split; [auto|]. unfold uval. now rewrite W.
Qed.

Lemma zero_width_debug st v : wf v -> width v = 0 -> interner_get_index Debug st v = Panic PDebugAssert.
Proof. intros H E. destruct (zero_words v H E) as (W & _). unfold interner_get_index. rewrite W, E. reflexivity. Qed.

(** the same interner, up to an entry for the empty sequence of words *)
Record sim (a b : interner) : Prop := {
  sim_words : in_words b = in_words a;
  sim_small : in_small b = in_small a;
  sim_large : forall l, l <> [] -> hm_get words_eqb (in_large b) l = hm_get words_eqb (in_large a) l;
  sim_empty : forall i, hm_get words_eqb (in_large b) [] = Some i -> i <= len (in_words b)
}.

Definition keeps (a b : interner) : Prop :=
  len (in_words a) <= len (in_words b)
  /\ forall i, hm_get words_eqb (in_large a) [] = Some i -> hm_get words_eqb (in_large b) [] = Some i.

Lemma sim_new : sim interner_new interner_new.
Proof. split; auto. discriminate. Qed.

Lemma sim_zero a b v : sim a b -> wf v -> width v = 0 ->
  exists b' i, interner_get_index Release b v = Ok (b', mkindex 0 i) /\ sim a b' /\ keeps b b'
    /\ hm_get words_eqb (in_large b') [] = Some i.
Proof.
  intros S H E. pose proof S as [S1 S2 S3 S4]. destruct (zero_words v H E) as (W & _).
  unfold interner_get_index. rewrite W, E. cbn [debug_assert bind].
  assert (R : forall l, words_eqb l l = true) by (intros; now apply words_eqb_eq).
  destruct (hm_get words_eqb (in_large b) []) as [i|] eqn:G.
  - exists b, i. split; [reflexivity|]. split; [exact S|]. split; [unfold keeps; split; [lia|auto]|auto].
  - eexists _, _. split; [reflexivity|]. cbn [in_words in_small in_large]. rewrite app_nil_r. split.
    + split; cbn [in_words in_small in_large]; rewrite ?app_nil_r; auto.
      * intros l N. rewrite hm_get_insert_other by (auto using words_eqb_eq). auto.
      * intros i. rewrite hm_get_insert_same by auto. intros Q. injection Q as <-. unfold as_u32.
        apply N.mod_le. discriminate.
    + split.
      * split; cbn [in_words in_large]; [rewrite ?app_nil_r; lia|]. intros i Q. congruence.
      * now apply hm_get_insert_same.
Qed.

Lemma sim_pos a b v : sim a b -> wf v -> 0 < width v ->
  exists a' b' i, interner_get_index Release a v = Ok (a', i) /\ interner_get_index Release b v = Ok (b', i)
    /\ sim a' b' /\ keeps b b'.
Proof.
  intros S H Hw. pose proof S as [S1 S2 S3 S4]. destruct (get_index_ret Release a v H Hw) as (a' & i & E & L).
  exists a'. rewrite E. unfold interner_get_index in *. rewrite S1, S2.
  assert (R : forall l, words_eqb l l = true) by (intros; now apply words_eqb_eq).
  destruct H as (_ & Hl & _). cbn [debug_assert bind] in *.
  destruct (words v) as [|word [|w2 rest]].
  - exfalso. change (@len N []) with 0 in Hl. clear - Hl Hw. dlia.
  - destruct (word <? 8).
    { apply (f_equal (fun r => match r with Ok p => p | _ => (a, i) end)) in E. injection E as <- <-.
      eexists b, _. split; [reflexivity|]. split; [reflexivity|]. split; [auto|]. split; [lia|auto]. }
    destruct (hm_get N.eqb (in_small a) word) as [k|].
    { injection E as <- <-. eexists b, _. split; [reflexivity|]. split; [reflexivity|]. split; [auto|]. split; [lia|auto]. }
    injection E as <- <-. eexists _, _. split; [reflexivity|]. split; [reflexivity|]. split.
    + split; cbn [in_words in_small in_large]; auto. intros j Q. rewrite len_app. apply S4 in Q. rewrite S1 in Q. lia.
    + split; cbn [in_words in_large]; [rewrite S1, len_app; lia|auto].
  - rewrite S3 by discriminate. set (ws := word :: w2 :: rest) in *.
    assert (N0 : ws <> []) by discriminate.
    destruct (hm_get words_eqb (in_large a) ws) as [k|].
    { injection E as <- <-. eexists b, _. split; [reflexivity|]. split; [reflexivity|]. split; [auto|]. split; [lia|auto]. }
    injection E as <- <-. eexists _, _. split; [reflexivity|]. split; [reflexivity|]. split.
    + split; cbn [in_words in_small in_large]; auto.
      * intros l Nl. destruct (words_eqb ws l) eqn:Q.
        -- apply words_eqb_eq in Q. subst l. now rewrite !hm_get_insert_same by auto.
        -- assert (ws <> l) by (intros ->; rewrite R in Q; discriminate).
           rewrite !hm_get_insert_other by (auto using words_eqb_eq). auto.
      * intros j Q. rewrite hm_get_insert_other in Q by (auto using words_eqb_eq). rewrite len_app.
        apply S4 in Q. rewrite S1 in Q. lia.
    + split; cbn [in_words in_large]; [rewrite S1, len_app; lia|].
      intros j Q. rewrite hm_get_insert_other by (auto using words_eqb_eq). auto.
Qed.

Definition pos (vs : list bv) : list bv := filter (fun v => 0 <? width v) vs.

Lemma keeps_trans a b c : keeps a b -> keeps b c -> keeps a c.
Proof. intros (A1 & A2) (B1 & B2). split; [lia|auto]. Qed.

Lemma sim_all vs : Forall wf vs -> forall a b, sim a b ->
  exists a' ia b' ib, intern_all Release a (pos vs) = Ok (a', ia) /\ intern_all Release b vs = Ok (b', ib)
    /\ sim a' b' /\ keeps b b' /\ length ib = length vs
    /\ forall k v i, nth_error vs k = Some v -> nth_error ib k = Some i ->
         (width v = 0 /\ i_width i = 0 /\ hm_get words_eqb (in_large b') [] = Some (i_index i))
         \/ (0 < width v /\ exists k0, nth_error (pos vs) k0 = Some v /\ nth_error ia k0 = Some i).
Proof.
  induction 1 as [|v vs Hv HF IH]; intros a b S; cbn [pos filter intern_all].
  - exists a, [], b, []. split; [auto|]. split; [auto|]. split; [auto|]. split; [split; [lia|auto]|].
    split; [auto|]. intros [|k] ? ? Q; discriminate.
  - destruct (N.eq_dec (width v) 0) as [E|E].
    + rewrite E. change (0 <? 0) with false. cbv iota.
      destruct (sim_zero a b v S Hv E) as (b1 & i & E1 & S1 & K1 & G1). rewrite E1. cbn [bind].
      destruct (IH a b1 S1) as (a' & ia & b' & ib & E2 & E3 & S2 & K2 & L & R). rewrite E3. cbn [bind].
      exists a', ia, b', (mkindex 0 i :: ib). repeat (split; [solve [eauto using keeps_trans]|]).
      split; [cbn [length]; congruence|]. intros [|k] w j Q1 Q2; cbn [nth_error] in Q1, Q2.
      * left. injection Q1 as <-. injection Q2 as <-. split; [auto|]. split; [auto|]. now apply K2.
      * apply (R k w j Q1 Q2).
    + replace (0 <? width v) with true by lia. cbv iota. cbn [intern_all].
      destruct (sim_pos a b v S Hv) as (a1 & b1 & i & E1 & E1' & S1 & K1); [lia|]. rewrite E1, E1'. cbn [bind].
      destruct (IH a1 b1 S1) as (a' & ia & b' & ib & E2 & E3 & S2 & K2 & L & R).
      fold (pos vs). rewrite E2, E3. cbn [bind].
      exists a', (i :: ia), b', (i :: ib). repeat (split; [solve [eauto using keeps_trans]|]).
      split; [cbn [length]; congruence|]. intros [|k] w j Q1 Q2; cbn [nth_error] in Q1, Q2.
      * right. injection Q1 as <-. injection Q2 as <-. split; [lia|]. exists O. auto.
      * destruct (R k w j Q1 Q2) as [|(W & k0 & A & B)]; [now left|]. right. split; [auto|]. now exists (Datatypes.S k0).
Qed.

Lemma pos_stored vs : Forall wf vs -> stored (pos vs) = stored vs.
Proof.
  intros HF. unfold stored, small_values, wide_values.
  assert (A : filter (fun v => (width v <=? 64) && (8 <=? uval v)) (pos vs)
              = filter (fun v => (width v <=? 64) && (8 <=? uval v)) vs).
  { induction HF as [|v vs Hv HF IH]; [reflexivity|]. cbn [pos filter]. fold (pos vs).
    destruct (N.ltb_spec 0 (width v)) as [L|L]; cbn [filter]; rewrite IH; [auto|].
    destruct (zero_words v Hv) as (_ & ->); [lia|]. now rewrite andb_false_r. }
  assert (B : filter (fun v => 64 <? width v) (pos vs) = filter (fun v => 64 <? width v) vs).
  { clear. induction vs as [|v vs IH]; [reflexivity|]. cbn [pos filter]. fold (pos vs).
    destruct (N.ltb_spec 0 (width v)) as [L|L]; cbn [filter]; rewrite IH; [auto|].
    replace (64 <? width v) with false by lia. reflexivity. }
  now rewrite A, B.
Qed.

Lemma pos_wf vs : Forall wf vs -> Forall (fun v => wf v /\ 0 < width v) (pos vs).
Proof.
  intros HF. apply Forall_forall. intros v Hv. apply filter_In in Hv as (A & B).
  split; [eapply Forall_forall in HF; eauto|lia].
Qed.

Lemma zero_only v : wf v -> width v = 0 -> v = mkbv 0 [].
Proof. intros H E. destruct (zero_words v H E) as (W & _). destruct v as [vw vs]. cbn [width words] in *. congruence. Qed.

Lemma read_zero ws i : i_width i = 0 -> i_index i <= len ws -> get_ref ws i = Ok (mkbv 0 []).
Proof.
  intros E L. rewrite get_ref_in by (unfold in_range, past; rewrite E; change ((0 + 63) / 64) with 0; lia).
  unfold view, first, past. rewrite E. change ((0 + 63) / 64) with 0. rewrite N.add_0_r, N.sub_diag. reflexivity.
Qed.

Lemma release_read vs later : Forall wf (vs ++ later) -> stored (vs ++ later) <= 2 ^ 32 ->
  exists st1 is1 st2 is2, intern_all Release interner_new vs = Ok (st1, is1)
    /\ intern_all Release st1 later = Ok (st2, is2)
    /\ (forall k v i, nth_error vs k = Some v -> nth_error is1 k = Some i ->
          get_ref (interner_words st1) i = Ok v /\ get_ref (interner_words st2) i = Ok v)
    /\ length is1 = length vs.
Proof.
  intros HF HS. pose proof HF as HF'. apply Forall_app in HF' as (F1 & F2).
  destruct (sim_all vs F1 _ _ sim_new) as (a1 & ia & b1 & ib & E1 & E2 & S1 & K1 & L1 & R).
  destruct (sim_all later F2 _ _ S1) as (a2 & ja & b2 & jb & E3 & E4 & S2 & K2 & L2 & _).
  exists b1, ib, b2, jb. split; [auto|]. split; [auto|]. split; [|auto]. intros k v i Q1 Q2.
  pose proof (proj1 (Forall_forall _ _) F1 v (nth_error_In _ _ Q1)) as Hv. cbn beta in Hv.
  destruct (R k v i Q1 Q2) as [(W & Wi & G)|(W & k0 & P1 & P2)].
  - rewrite (zero_only v Hv W). pose proof (sim_empty _ _ S1 _ G) as B. unfold interner_words.
    destruct K2 as (K2 & _). split; apply read_zero; auto; lia.
  - assert (PA : pos (vs ++ later) = pos vs ++ pos later) by (unfold pos; apply filter_app).
    destruct (intern_read Release (pos vs) (pos later)) as (c1 & ic & c2 & jc & C1 & C2 & C3 & _).
    { rewrite <- PA. now apply pos_wf. }
    { rewrite <- PA, pos_stored; auto. }
    rewrite E1 in C1. injection C1 as <- <-. rewrite E3 in C2. injection C2 as <- <-.
    unfold interner_words in *. rewrite (sim_words _ _ S1), (sim_words _ _ S2). eauto.
Qed.

Lemma get_ref_width ws i v : get_ref ws i = Ok v -> i_width i = width v.
Proof.
  unfold get_ref. destruct (index_range i). destruct (range ws n n0); cbn [bind]; [|discriminate]. intros Q. injection Q as <-. reflexivity.
Qed.

Lemma release_unique vs : Forall wf vs -> stored vs <= 2 ^ 32 ->
  exists st is, intern_all Release interner_new vs = Ok (st, is) /\ length is = length vs
    /\ forall j k vj vk ij ik, nth_error vs j = Some vj -> nth_error vs k = Some vk ->
         nth_error is j = Some ij -> nth_error is k = Some ik ->
         (ij = ik <-> width vj = width vk /\ uval vj = uval vk).
Proof.
  intros HF HS.
  destruct (sim_all vs HF _ _ sim_new) as (a & ia & b & ib & E1 & E2 & S & K & L & R).
  exists b, ib. split; [auto|]. split; [auto|]. intros j k vj vk ij ik Vj Vk Ij Ik.
  destruct (release_read vs []) as (s1 & is1 & s2 & is2 & X1 & _ & X3 & _); [now rewrite app_nil_r..|].
  rewrite E2 in X1. injection X1 as <- <-.
  destruct (X3 _ _ _ Vj Ij) as (Gj & _). destruct (X3 _ _ _ Vk Ik) as (Gk & _). split.
  - intros ->. rewrite Gj in Gk. injection Gk as ->. auto.
  - intros (W & U). pose proof (get_ref_width _ _ _ Gj) as Wj. pose proof (get_ref_width _ _ _ Gk) as Wk.
    destruct (R _ _ _ Vj Ij) as [(Zj & _ & Hj)|(Pj & p & A1 & A2)];
      destruct (R _ _ _ Vk Ik) as [(Zk & _ & Hk)|(Pk & q & B1 & B2)]; try lia.
    + destruct ij as [wa xa], ik as [wb xb]. cbn [i_width i_index] in *. rewrite Hj in Hk. injection Hk as ->. congruence.
    + destruct (intern_history Release (pos vs)) as (c & ic & C1 & _ & C2); [now apply pos_wf|rewrite pos_stored; auto|].
      rewrite E1 in C1. injection C1 as <- <-. apply (proj2 (C2 p q vj vk ij ik A1 B1 A2 B2)). auto.
Qed.

Lemma zero_width_constant : exists v st i, is_bv v 0 0
  /\ interner_get_index Release interner_new v = Ok (st, i) /\ interner_is_zero i = false.
Proof. exists (bv_zero 0). eexists _, _. split; [apply zero_is_bv; reflexivity|]. split; reflexivity. Qed.
