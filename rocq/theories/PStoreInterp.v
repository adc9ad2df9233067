(** * PStoreInterp: the reference interpreter for programs over a word store agrees with the
    code (C89). *)

From Coq Require Import ZifyBool ZifyNat ZifyN.
From Verif Require Import Base Arith Strings Bv Indexed Unwind Spec TextSpec IoSpec RegSpec StoreSpec UnwindSpec
  CallSpec PanicSpec MixedSpec DirtySpec InterpSpec AnswerSpec BvInterpSpec.
From Verif Require ReleaseInterpSpec.
From Verif Require Import StoreInterpSpec.
From Verif Require Import PWords PArith PShift PStore PUnwind PMixed PInterp PAnswer PBvInterp PMixedAny PReleaseInterp.
Local Open Scope N_scope.
Ltac Zify.zify_post_hook ::= idtac.

(** ** Both builds at once *)

Lemma own_ok m env renv c : related env renv -> vcall_range c ->
  related (fst (vperform1 m env c)) (fst (own_step m renv c))
  /\ snd (vperform1 m env c) = snd (own_step m renv c).
Proof.
  intros R T. destruct m; cbn [own_step].
  - apply step_ok; auto. now left.
  - now apply rstep_ok.
Qed.

Lemma updates_ok m env renv v w n u : related env renv -> stores v w n -> update_range u ->
  match update_call m w env u with
  | Some e => ends (e (words v)) w (fst (update_step m w n renv u)) (snd (update_step m w n renv u))
  | None => update_step m w n renv u = (n, Missing)
  end.
Proof.
  intros R H T. destruct m; cbn [update_step].
  - apply update_ends; auto. now left.
  - now apply rupdate_ends.
Qed.

Lemma unaries_ok m u a w n : unary_range u -> stores a w n -> agrees (run m (unary_call u a)) (unary_step m u w n).
Proof. intros T H. destruct m; [now apply unary_agrees|now apply runary_agrees]. Qed.

Lemma binaries_ok m op a b w n w' k : stores a w n -> stores b w' k ->
  agrees (run m (KBin op a b)) (binary_step m op w n w' k).
Proof.
  intros Ha Hb. cbn [run]. apply does_agrees.
  destruct m; [now apply binary_agrees|now apply rbinary_agrees].
Qed.

Lemma tests_ok m t a b w n w' k : stores a w n -> stores b w' k ->
  answers (run_test t m a b) (test_step m t w n w' k).
Proof.
  intros Ha Hb. destruct m; cbn [test_step].
  - pose proof (test_ok t a b w n w' k Ha Hb) as X. destruct (test_result t w n w' k); cbn [answers]; [apply X|exact X].
  - now apply any_mixed_test_ok.
Qed.

Lemma looks_ok m l v w n : stores v w n ->
  match tell m l v with Ok x => Tells (lowest x) | Panic _ => Panicked end
  = match look_step m l w n with Some x => Tells (lowest x) | None => Panicked end.
Proof.
  intros H. destruct m; cbn [look_step].
  - pose proof (look_ok l v w n H) as X. destruct (look_result l w n).
    + destruct (X Debug) as (x & -> & E). f_equal. now apply same_lowest.
    + destruct X as (p & ->). reflexivity.
  - pose proof (rlook_ok l v w n H) as X. destruct (ReleaseInterpSpec.rlook l w n).
    + destruct X as (x & -> & E). f_equal. now apply same_lowest.
    + destruct X as (p & ->). reflexivity.
Qed.

(** ** The words as one number *)

Definition matches (s : machine) (r : memory) : Prop :=
  Words (fst s) /\ len (fst s) = cells r /\ wv (fst s) = content r /\ related (snd s) (owned r).

Lemma view_stores store vars r i : matches (store, vars) r -> within r i = true -> index_typed i ->
  stores (mkbv (i_width i) (view store i)) (i_width i) (part r i).
Proof.
  intros (A & B & C & _) W (_ & T). cbn [fst snd] in *. unfold within in W.
  assert (R : StoreSpec.in_range store i) by (unfold StoreSpec.in_range, past, stop, places in *; lia).
  assert (V : Words (view store i)) by (unfold view; now apply Words_firstn, Words_skipn).
  split; [|split; [reflexivity|]].
  - unfold well_shaped. cbn [width words]. rewrite view_len by exact R. auto.
  - unfold uval. cbn [words]. unfold view, part. rewrite wv_firstn by now apply Words_skipn. rewrite wv_skipn by exact A.
    rewrite C. unfold past, first, start, places. rewrite !N2Nat.id. do 3 f_equal. lia.
Qed.

Lemma put_matches store vars r i ws n : matches (store, vars) r -> within r i = true ->
  stores (mkbv (i_width i) ws) (i_width i) n -> matches (splice store (i_index i) ws, vars) (put r i n).
Proof.
  intros (A & B & C & D) W ((_ & L & Wd) & _ & V). cbn [fst snd width words] in *. unfold within in W.
  unfold uval in V. cbn [words] in V.
  assert (LE : i_index i + len ws <= len store) by (unfold stop, places in W; lia).
  unfold matches, put. cbn [fst snd cells content owned]. repeat split; auto.
  - unfold splice. apply Words_app; [now apply Words_firstn|]. apply Words_app; [exact Wd|]. now apply Words_skipn.
  - now rewrite splice_len.
  - unfold splice. rewrite !wv_app, wv_firstn, wv_skipn by exact A. rewrite C, V.
    rewrite len_firstn by lia. unfold start, stop.
    replace (N.of_nat (N.to_nat (i_index i) + length ws)) with (i_index i + places (i_width i))
      by (unfold len, places in *; lia).
    rewrite N2Nat.id. replace (len ws) with (places (i_width i)) by (unfold places; lia).
    rewrite !(N.mul_add_distr_l 64), !N.pow_add_r. ring.
Qed.

Lemma put_part r i : put r i (part r i) = r.
Proof.
  unfold put, part, start, stop. destruct r as [c x e]. cbn [cells content owned]. f_equal.
  rewrite (N.mul_add_distr_l 64), N.pow_add_r. set (a := 2 ^ (64 * i_index i)). set (b := 2 ^ (64 * places (i_width i))).
  assert (Pa : a <> 0) by (apply N.pow_nonzero; discriminate).
  assert (Pb : b <> 0) by (apply N.pow_nonzero; discriminate).
  rewrite <- N.div_div by assumption.
  transitivity (a * (b * (x / a / b) + (x / a) mod b) + x mod a); [ring|].
  rewrite <- (N.div_mod (x / a) b Pb). symmetry. apply N.div_mod, Pa.
Qed.

Lemma get_ref_eq store vars r i : matches (store, vars) r ->
  get_ref store i = if within r i then Ok (mkbv (i_width i) (view store i)) else Panic PIndex.
Proof.
  intros (_ & B & _). cbn [fst] in B. unfold within. destruct (stop i <=? cells r) eqn:E.
  - apply get_ref_in. unfold StoreSpec.in_range, past, stop, places in *. lia.
  - apply get_ref_out. unfold StoreSpec.in_range, past, stop, places in *. lia.
Qed.

(** ** Steps *)

Definition same (x : machine * observed) (y : memory * observed) : Prop :=
  matches (fst x) (fst y) /\ snd x = snd y.

Lemma finish_ok store vars r i e n o : matches (store, vars) r -> within r i = true ->
  ends e (i_width i) n o -> same (finish (store, vars) i e) (put r i n, o).
Proof.
  intros M W E. unfold same, finish. destruct e as [ws [k|]|ws p]; cbn [ends fst snd] in *; destruct E as [E ->];
    (split; [now apply put_matches|reflexivity]).
Qed.

Lemma assign_ok m store vars r i d b w n : matches (store, vars) r -> within r i = true ->
  stores d (i_width i) (part r i) -> stores b w n ->
  same (assign_to m (store, vars) i d b) (assign_result m r i (Gives w n)).
Proof.
  intros M W D B. unfold assign_to, assign_result, change.
  pose proof (updates_ok m (fun _ => Some b) (fun _ => Some (w, n)) d (i_width i) (part r i) (IAssign 0)
                (fun _ => B) D Logic.I) as U.
  cbn [update_call] in U. pose proof D as (_ & Wd & _). rewrite Wd.
  destruct (update_step m (i_width i) (part r i) (fun _ => Some (w, n)) (IAssign 0)) as [n' o]. cbn [fst snd] in U.
  eapply finish_ok; eauto.
Qed.

Lemma result_ok m store vars r i d x o : matches (store, vars) r -> within r i = true ->
  stores d (i_width i) (part r i) -> agrees x o -> o <> Errs ->
  same (match x with Ok (Some b) => assign_to m (store, vars) i d b | _ => ((store, vars), Panicked) end)
       (assign_result m r i o).
Proof.
  intros M W D A NE. destruct o as [w n| |]; cbn [agrees] in A; [|easy|].
  - destruct A as (b & -> & B). now apply assign_ok.
  - destruct A as (p & ->). cbn [assign_result]. split; [exact M|reflexivity].
Qed.

Lemma unary_step_errs m u w n : unary_step m u w n <> Errs.
Proof. destruct m; [apply unary_errs|apply runary_errs]. Qed.
Lemma binary_step_errs m op w n w' k : binary_step m op w n w' k <> Errs.
Proof. destruct m; [apply binary_errs|apply rbinary_errs]. Qed.

Lemma mut_2_eq m store vars r i j : matches (store, vars) r -> get_mut_ref_2 m store i j
  = if within r i && within r j && separate i j
    then Ok (mkbv (i_width i) (view store i), mkbv (i_width j) (view store j)) else Panic PIndex.
Proof.
  intros (_ & B & _). cbn [fst] in B. rewrite get_mut_ref_2_eq. rewrite B.
  replace (past i <=? cells r) with (within r i) by reflexivity.
  replace (ok2 store i j) with (within r j && separate i j); [now rewrite andb_assoc|].
  unfold ok2. rewrite B. unfold within, separate. rewrite (orb_comm (stop i <=? start j)). reflexivity.
Qed.

Lemma mut_3_eq m store vars r i j k : matches (store, vars) r -> get_mut_ref_3 m store i j k
  = if within r i && within r j && within r k && separate i j && separate i k
    then Ok (mkbv (i_width i) (view store i), mkbv (i_width j) (view store j), mkbv (i_width k) (view store k))
    else Panic PIndex.
Proof.
  intros (_ & B & _). cbn [fst] in B. rewrite get_mut_ref_3_eq.
  assert (Q : forall j, ok2 store i j = within r j && separate i j).
  { intros q. unfold ok2. rewrite B. unfold within, separate. rewrite (orb_comm (stop i <=? start q)). reflexivity. }
  rewrite !Q, B. replace (past i <=? cells r) with (within r i) by reflexivity.
  replace (within r i && (within r j && separate i j) && (within r k && separate i k))
    with (within r i && within r j && within r k && separate i j && separate i k); [reflexivity|].
  destruct (within r i), (within r j), (within r k), (separate i j), (separate i k); reflexivity.
Qed.

Lemma sstep_ok m s r c : matches s r -> scall_range c -> same (sperform1 m s c) (spredict1 m r c).
Proof.
  intros M T. destruct s as [store vars].
  assert (P : same ((store, vars), Panicked) (r, Panicked)) by (split; [exact M|reflexivity]).
  destruct c as [c|p x|k i|k l i j|l i|t i j|i u|i j|i u j|i op j k]; cbn [sperform1 spredict1 scall_range] in *.
  - destruct (own_ok m vars (owned r) c) as [R O]; [apply M|exact T|].
    destruct (vperform1 m vars c) as [vars' o], (own_step m (owned r) c) as [e o']. cbn [fst snd] in *. subst o'.
    destruct M as (A & B & C & _). split; [|reflexivity]. repeat split; assumption.
  - pose proof M as (A & B & C & D). cbn [fst snd] in *.
    destruct (p <? cells r) eqn:Q.
    + rewrite set_idx_ok by (rewrite B; lia). split; [|reflexivity]. cbn [fst].
      replace (firstn (N.to_nat p) store ++ x :: skipn (S (N.to_nat p)) store) with (splice store p [x])
        by (unfold splice; cbn [length app]; now rewrite Nat.add_1_r).
      apply (put_matches store vars r (mkindex 64 p) [x] x M).
      * unfold within, stop. cbn [i_index i_width]. unfold places. change ((64 + 63) / 64) with 1. lia.
      * split; [|split; [reflexivity|]].
        -- split; [reflexivity|]. split; [reflexivity|]. constructor; [exact T|constructor].
        -- unfold uval. cbn [words]. apply one_word.
    + rewrite set_idx_panic by (rewrite B; lia). exact P.
  - rewrite (get_ref_eq store vars r i M). destruct (within r i) eqn:W; [|exact P].
    pose proof (view_stores store vars r i M W T) as V. split; [|reflexivity].
    destruct M as (A & B & C & D). repeat split; auto. cbn [fst snd owned with_owned]. now apply related_set.
  - unfold get_ref_2. rewrite !(get_ref_eq store vars r _ M). destruct (within r i) eqn:W; [|exact P]. cbn [bind andb].
    destruct (within r j) eqn:W'; [|exact P]. cbn [bind].
    pose proof (view_stores store vars r i M W (proj1 T)) as V.
    pose proof (view_stores store vars r j M W' (proj2 T)) as V'. split; [|reflexivity].
    destruct M as (A & B & C & D). repeat split; auto. cbn [fst snd owned with_owned]. apply related_set; [|exact V'].
    now apply related_set.
  - split; [exact M|]. cbn [snd]. rewrite (get_ref_eq store vars r i M). destruct (within r i) eqn:W; [|reflexivity].
    apply looks_ok. now apply (view_stores store vars).
  - split; [exact M|]. cbn [snd]. unfold get_ref_2. rewrite !(get_ref_eq store vars r _ M).
    destruct (within r i) eqn:W; [|reflexivity]. cbn [bind andb].
    destruct (within r j) eqn:W'; [|reflexivity]. cbn [bind].
    pose proof (tests_ok m t _ _ _ _ _ _ (view_stores store vars r i M W (proj1 T)) (view_stores store vars r j M W' (proj2 T))) as X.
    destruct (test_step m t (i_width i) (part r i) (i_width j) (part r j)); cbn [answers] in X.
    + now rewrite X.
    + destruct X as (q & ->). reflexivity.
  - unfold get_mut_ref. rewrite (get_ref_eq store vars r i M). destruct (within r i) eqn:W; [|exact P]. cbn [width words].
    pose proof (updates_ok m vars (owned r) _ (i_width i) (part r i) u (proj2 (proj2 (proj2 M)))
                  (view_stores store vars r i M W (proj1 T)) (proj2 T)) as U. cbn [words] in U.
    unfold change. destruct (update_call m (i_width i) vars u) as [e|].
    + destruct (update_step m (i_width i) (part r i) (owned r) u) as [n o]. cbn [fst snd] in U. now apply finish_ok.
    + rewrite U. rewrite put_part. split; [exact M|reflexivity].
  - rewrite (mut_2_eq m store vars r i j M). destruct (within r i) eqn:W; [|exact P].
    destruct (within r j) eqn:W'; [|exact P]. cbn [andb]. destruct (separate i j); [|exact P].
    apply assign_ok; auto; now apply (view_stores store vars).
  - rewrite (mut_2_eq m store vars r i j M). destruct (within r i) eqn:W; [|exact P].
    destruct (within r j) eqn:W'; [|exact P]. cbn [andb]. destruct (separate i j); [|exact P].
    apply result_ok; auto using unary_step_errs.
    + now apply (view_stores store vars).
    + apply unaries_ok; [apply T|]. now apply (view_stores store vars).
  - rewrite (mut_3_eq m store vars r i j k M). destruct (within r i) eqn:W; [|exact P].
    destruct (within r j) eqn:W'; [|exact P]. cbn [andb]. destruct (within r k) eqn:W''; [|exact P]. cbn [andb].
    destruct (separate i j); [|exact P]. cbn [andb]. destruct (separate i k); [|exact P].
    apply result_ok; auto using binary_step_errs.
    + now apply (view_stores store vars).
    + apply binaries_ok; now apply (view_stores store vars).
Qed.

Lemma sperform_from_ok m : forall cs s r, matches s r -> Forall scall_range cs ->
  sperform_from m s cs = spredict_from m r cs.
Proof.
  induction cs as [|c cs IH]; intros s r M T; [reflexivity|]. inversion T as [|? ? T1 T2]; subst.
  cbn [sperform_from spredict_from]. destruct (sstep_ok m s r c M T1) as [A B].
  destruct (sperform1 m s c) as [s' o], (spredict1 m r c) as [r' o']. cbn [fst snd] in *. subst o'.
  f_equal. now apply IH.
Qed.

Lemma sperform_ok m n cs : Forall scall_range cs -> sperform m n cs = spredict m n cs.
Proof.
  intros T. apply sperform_from_ok; [|exact T]. unfold matches. cbn [fst snd cells content owned].
  split; [apply Words_repeat0|]. split; [now rewrite len_repeat, N2Nat.id|]. split; [apply wv_repeat0|]. intros k. exact Logic.I.
Qed.

(** ** The rules for reading and writing *)

Lemma bits_div_mod x a b k : N.testbit (x / 2 ^ a mod 2 ^ b) k = (k <? b) && N.testbit x (k + a).
Proof.
  destruct (k <? b) eqn:E; cbn [andb].
  - rewrite N.mod_pow2_bits_low by lia. apply N.div_pow2_bits.
  - apply N.mod_pow2_bits_high. lia.
Qed.

Lemma put_bits r i n k : n < 2 ^ (64 * places (i_width i)) ->
  N.testbit (content (put r i n)) k
  = if (64 * start i <=? k) && (k <? 64 * stop i) then N.testbit n (k - 64 * start i) else N.testbit (content r) k.
Proof.
  intros Hn. unfold put. cbn [content]. set (x := content r).
  assert (E : 64 * stop i = 64 * start i + 64 * places (i_width i)) by (unfold stop, start; lia).
  rewrite E. set (a := 64 * start i) in *. set (b := 64 * places (i_width i)) in *.
  assert (Pa : 2 ^ a <> 0) by (apply N.pow_nonzero; discriminate).
  replace (x mod 2 ^ a + n * 2 ^ a + x / 2 ^ (a + b) * 2 ^ (a + b))
    with (x mod 2 ^ a + 2 ^ a * (n + 2 ^ b * (x / 2 ^ (a + b)))) by (rewrite N.pow_add_r; ring).
  assert (Hm : x mod 2 ^ a < 2 ^ a) by now apply N.mod_lt.
  destruct (N.ltb_spec k a) as [L|L].
  - replace (a <=? k) with false by lia. cbn [andb].
    rewrite <- (N.mod_pow2_bits_low _ a k) by exact L. rewrite (N.mul_comm (2 ^ a)), N.mod_add by exact Pa.
    rewrite N.mod_mod by exact Pa. now apply N.mod_pow2_bits_low.
  - replace (a <=? k) with true by lia. cbn [andb].
    replace k with (k - a + a) at 1 by lia. rewrite <- N.div_pow2_bits.
    rewrite (N.mul_comm (2 ^ a)), N.div_add by exact Pa. rewrite N.div_small by exact Hm. rewrite N.add_0_l.
    destruct (N.ltb_spec k (a + b)) as [L'|L'].
    + rewrite <- (N.mod_pow2_bits_low _ b (k - a)) by lia.
      rewrite (N.mul_comm (2 ^ b)), N.mod_add by (apply N.pow_nonzero; discriminate).
      now rewrite N.mod_small by exact Hn.
    + replace (k - a) with (k - a - b + b) by lia. rewrite <- N.div_pow2_bits.
      rewrite (N.mul_comm (2 ^ b)), N.div_add by (apply N.pow_nonzero; discriminate).
      rewrite (N.div_small n) by exact Hn. rewrite N.add_0_l, N.div_pow2_bits. f_equal. lia.
Qed.

Lemma part_put r i n : n < 2 ^ (64 * places (i_width i)) ->
  part (put r i n) i = n /\ (forall j, separate i j = true -> part (put r i n) j = part r j).
Proof.
  intros Hn. split.
  - apply N.bits_inj. intros k. unfold part. rewrite bits_div_mod. rewrite put_bits by exact Hn.
    unfold start, stop. destruct (k <? 64 * places (i_width i)) eqn:E; cbn [andb].
    + replace ((64 * i_index i <=? k + 64 * i_index i) && (k + 64 * i_index i <? 64 * (i_index i + places (i_width i))))
        with true by lia. f_equal. lia.
    + symmetry. rewrite <- (N.mod_small n (2 ^ (64 * places (i_width i)))) by exact Hn.
      apply N.mod_pow2_bits_high. lia.
  - intros j S. apply N.bits_inj. intros k. unfold part. rewrite !bits_div_mod. rewrite put_bits by exact Hn.
    destruct (k <? 64 * places (i_width j)) eqn:E; cbn [andb]; [|reflexivity].
    replace ((64 * start i <=? k + 64 * start j) && (k + 64 * start j <? 64 * stop i)) with false; [reflexivity|].
    unfold separate, start, stop in *. lia.
Qed.
