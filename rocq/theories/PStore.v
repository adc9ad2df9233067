(** * PStore: values inside a shared word store, the interner (C32 - C36). *)

From Coq Require Import ZifyBool ZifyNat ZifyN.
From Verif Require Import Base Arith Map Bv Indexed Spec RegSpec StoreSpec.
From Verif Require Import PWords PArith PShift PropsArith PCompare PConv PIo PRegister.

Ltac Zify.zify_post_hook ::= idtac.

Lemma range_eq i : index_range i = (first i, past i).
Proof. unfold index_range, index_words, first, past. now rewrite div_ceil_eq. Qed.

Lemma first_past i : first i <= past i.
Proof. unfold first, past. lia. Qed.

Definition view (store : list N) (i : bvindex) : list N :=
  firstn (N.to_nat (past i - first i)) (skipn (N.to_nat (first i)) store).

Lemma get_ref_in store i : in_range store i -> get_ref store i = Ok (mkbv (i_width i) (view store i)).
Proof.
  intros H. unfold get_ref. rewrite range_eq. rewrite range_ok by (auto using first_past). reflexivity.
Qed.

Lemma get_ref_out store i : ~ in_range store i -> get_ref store i = Panic PIndex.
Proof.
  intros H. unfold get_ref. rewrite range_eq. unfold range.
  replace (past i <=? len store) with false by (unfold in_range in H; lia).
  rewrite andb_false_r. reflexivity.
Qed.

Lemma view_len store i : in_range store i -> len (view store i) = (i_width i + 63) / 64.
Proof.
  intros H. unfold view. unfold in_range in H. assert (F := first_past i).
  rewrite len_firstn; rewrite ?len_skipn; unfold first, past in *; lia.
Qed.

Lemma nth_firstn (l : list N) n k : nth k (firstn n l) 0 = if (k <? n)%nat then nth k l 0 else 0.
Proof.
  revert n k; induction l as [|x t IH]; intros [|n] [|k]; cbn [firstn nth]; auto.
  - destruct (Nat.ltb _ _); auto.
  - rewrite IH. reflexivity.
Qed.

Lemma nth_skipn (l : list N) n k : nth k (skipn n l) 0 = nth (n + k) l 0.
Proof.
  revert n; induction l as [|x t IH]; intros [|n]; cbn [skipn nth Nat.add]; auto.
  destruct k; auto.
Qed.

Lemma skipn_skipn {A} (l : list A) a b : skipn a (skipn b l) = skipn (b + a) l.
Proof.
  revert l; induction b as [|b IH]; intros l; [reflexivity|].
  destruct l as [|x t]; [destruct a; reflexivity|]. apply IH.
Qed.

Lemma view_nth store i k : N.of_nat k < past i - first i ->
  nth k (view store i) 0 = nth (N.to_nat (first i) + k) store 0.
Proof.
  intros H. unfold view. rewrite nth_firstn, nth_skipn.
  replace (k <? N.to_nat (past i - first i))%nat with true; [auto|]. symmetry. apply Nat.ltb_lt. lia.
Qed.

Lemma splice_len (l : list N) a new : a + len new <= len l -> len (splice l a new) = len l.
Proof.
  intros H. unfold splice. rewrite !len_app, len_skipn, len_firstn by lia. unfold len in *. lia.
Qed.

Lemma nth_splice (l : list N) a new k : a + len new <= len l ->
  nth k (splice l a new) 0
  = if (a <=? N.of_nat k) && (N.of_nat k <? a + len new) then nth (k - N.to_nat a) new 0
    else nth k l 0.
Proof.
  intros H. unfold splice. unfold len in *.
  assert (L : length (firstn (N.to_nat a) l) = N.to_nat a) by (rewrite firstn_length; lia).
  destruct (a <=? N.of_nat k) eqn:A.
  - rewrite app_nth2 by lia. rewrite L.
    destruct (N.of_nat k <? a + N.of_nat (length new)) eqn:B; cbn [andb].
    + rewrite app_nth1 by lia. auto.
    + rewrite app_nth2 by lia. rewrite nth_skipn. f_equal. lia.
  - cbn [andb]. rewrite app_nth1 by lia. rewrite nth_firstn.
    replace (k <? N.to_nat a)%nat with true; [auto|]. symmetry. apply Nat.ltb_lt. lia.
Qed.

Lemma view_splice_own store i new : in_range store i -> len new = past i - first i ->
  view (splice store (first i) new) i = new.
Proof.
  intros H L. unfold in_range in H. assert (F := first_past i).
  assert (Ls : len (splice store (first i) new) = len store) by (apply splice_len; lia).
  apply nth_ext with (d := 0) (d' := 0).
  { apply len_length. rewrite view_len by (unfold in_range; lia).
    rewrite L. unfold first, past. lia. }
  intros k Hk. assert (V : len (view (splice store (first i) new) i) = past i - first i).
  { rewrite view_len by (unfold in_range; lia). unfold first, past. lia. }
  unfold len in V. rewrite view_nth by lia. rewrite nth_splice by lia.
  replace (first i <=? _) with true by lia. rewrite L.
  replace (N.of_nat (N.to_nat (first i) + k) <? _) with true by lia. cbn [andb].
  f_equal. lia.
Qed.

Lemma view_splice_apart store i j new : in_range store i -> in_range store j -> apart i j ->
  len new = past i - first i -> view (splice store (first i) new) j = view store j.
Proof.
  intros Hi Hj A L. unfold in_range in *. assert (F := first_past i). assert (F2 := first_past j).
  assert (Ls : len (splice store (first i) new) = len store) by (apply splice_len; lia).
  apply nth_ext with (d := 0) (d' := 0).
  { apply len_length. rewrite !view_len by (unfold in_range; lia). auto. }
  intros k Hk. assert (V : len (view (splice store (first i) new) j) = past j - first j).
  { rewrite view_len by (unfold in_range; lia). unfold first, past. lia. }
  unfold len in V. rewrite !view_nth by lia. rewrite nth_splice by lia. rewrite L.
  unfold apart in A.
  destruct (first i <=? _) eqn:E1; cbn [andb]; auto.
  destruct (N.of_nat (N.to_nat (first j) + k) <? _) eqn:E2; cbn [andb]; auto. lia.
Qed.

(** A write through one index, with any function that keeps the word count. *)
Lemma update_ref_ok store i (f : bv -> res bv) v' : in_range store i ->
  f (mkbv (i_width i) (view store i)) = Ok v' -> len (words v') = (i_width i + 63) / 64 ->
  exists store', update_ref store i f = Ok store' /\ len store' = len store
    /\ get_ref store' i = Ok (mkbv (i_width i) (words v'))
    /\ (forall j, in_range store j -> apart i j -> get_ref store' j = get_ref store j)
    /\ (forall p, ~ covers i p -> nth (N.to_nat p) store' 0 = nth (N.to_nat p) store 0).
Proof.
  intros H Hf L. unfold update_ref, get_mut_ref. rewrite get_ref_in by auto. cbn [bind].
  rewrite Hf. cbn [bind]. eexists. split; [reflexivity|]. fold (first i).
  assert (L' : len (words v') = past i - first i) by (rewrite L; unfold first, past; lia).
  assert (F := first_past i). unfold in_range in H.
  assert (Ls : len (splice store (first i) (words v')) = len store) by (apply splice_len; lia).
  split; [auto|]. split; [|split].
  - rewrite get_ref_in by (unfold in_range; lia). now rewrite view_splice_own.
  - intros j Hj A. assert (Hj' := Hj). unfold in_range in Hj'.
    rewrite !get_ref_in by (unfold in_range; lia). now rewrite view_splice_apart.
  - intros p Hp. rewrite nth_splice by lia. unfold covers in Hp. rewrite L', N2Nat.id.
    destruct (first i <=? p) eqn:E1; cbn [andb]; auto.
    destruct (p <? _) eqn:E2; cbn [andb]; auto. lia.
Qed.

(** ** Split borrows *)

Lemma borrow_src_ok m store a b : in_range store a ->
  borrow_src m (firstn (N.to_nat (first a)) store) (skipn (N.to_nat (past a)) store) (past a) (first b, past b)
  = if (past b <=? len store) && ((past b <=? first a) || (past a <=? first b))
    then Ok (view store b) else Panic PIndex.
Proof.
  intros H. unfold in_range in H. assert (F := first_past a). assert (F2 := first_past b).
  unfold borrow_src. cbn [fst snd]. destruct (past a <=? first b) eqn:C.
  - unfold move_range. cbn [fst snd]. rewrite !usz_sub_ok by lia. cbn [bind fst snd].
    unfold range. rewrite len_skipn.
    replace (first b - past a <=? past b - past a) with true by lia. cbn [andb].
    rewrite orb_true_r, andb_true_r.
    destruct (past b <=? len store) eqn:D.
    + replace (past b - past a <=? len store - N.of_nat (N.to_nat (past a))) with true by lia.
      f_equal. unfold view. rewrite skipn_skipn. f_equal; [lia|]. f_equal. lia.
    + replace (past b - past a <=? len store - N.of_nat (N.to_nat (past a))) with false by lia. auto.
  - rewrite orb_false_r. unfold range.
    rewrite len_firstn by lia. replace (first b <=? past b) with true by lia. cbn [andb].
    rewrite N2Nat.id. destruct (past b <=? first a) eqn:D.
    + replace (past b <=? len store) with true by lia. cbn [andb]. f_equal. unfold view.
      rewrite skipn_firstn_comm, firstn_firstn. f_equal. lia.
    + rewrite andb_false_r. auto.
Qed.

Lemma split_dst m store a (T : Type) (k : list N -> list N -> list N -> res T) :
  (let* (before_dst, after_dst_start) := split_at_mut store (first a) in
   let* n := usz_sub m (past a) (first a) in
   let* (dst_words, after_dst) := split_at_mut after_dst_start n in
   k before_dst dst_words after_dst)
  = if past a <=? len store
    then k (firstn (N.to_nat (first a)) store) (view store a) (skipn (N.to_nat (past a)) store)
    else Panic PIndex.
Proof.
  assert (F := first_past a). unfold split_at_mut at 1.
  destruct (first a <=? len store) eqn:C; cbn [bind].
  2:{ now replace (past a <=? len store) with false by lia. }
  rewrite usz_sub_ok by auto. cbn [bind]. unfold split_at_mut. rewrite len_skipn, N2Nat.id.
  destruct (past a <=? len store) eqn:D.
  - replace (past a - first a <=? len store - first a) with true by lia. cbn [bind].
    rewrite skipn_skipn. f_equal. f_equal. lia.
  - replace (past a - first a <=? len store - first a) with false by lia. reflexivity.
Qed.

Definition ok2 (store : list N) (a b : bvindex) : bool :=
  (past b <=? len store) && ((past b <=? first a) || (past a <=? first b)).

Lemma get_mut_ref_2_eq m store a b : get_mut_ref_2 m store a b
  = if (past a <=? len store) && ok2 store a b
    then Ok (mkbv (i_width a) (view store a), mkbv (i_width b) (view store b)) else Panic PIndex.
Proof.
  unfold get_mut_ref_2, split_borrow_1. rewrite !range_eq. cbn [fst snd].
  rewrite (split_dst m store a _ (fun before dst after =>
    let* src_words := borrow_src m before after (past a) (first b, past b) in Ok (dst, src_words))).
  destruct (past a <=? len store) eqn:A; cbn [andb]; [|auto].
  rewrite borrow_src_ok by (unfold in_range; lia). fold (ok2 store a b).
  destruct (ok2 store a b); reflexivity.
Qed.

Lemma get_mut_ref_3_eq m store a b c : get_mut_ref_3 m store a b c
  = if (past a <=? len store) && ok2 store a b && ok2 store a c
    then Ok (mkbv (i_width a) (view store a), mkbv (i_width b) (view store b), mkbv (i_width c) (view store c))
    else Panic PIndex.
Proof.
  unfold get_mut_ref_3, split_borrow_2. rewrite !range_eq. cbn [fst snd].
  rewrite (split_dst m store a _ (fun before dst after =>
    let* a_words := borrow_src m before after (past a) (first b, past b) in
    let* b_words := borrow_src m before after (past a) (first c, past c) in Ok (dst, a_words, b_words))).
  destruct (past a <=? len store) eqn:A; cbn [andb]; [|auto].
  rewrite !borrow_src_ok by (unfold in_range; lia). fold (ok2 store a b). fold (ok2 store a c).
  destruct (ok2 store a b); cbn [bind andb]; [|reflexivity].
  destruct (ok2 store a c); reflexivity.
Qed.

Lemma ok2_spec store a b : ok2 store a b = true <-> in_range store b /\ apart a b.
Proof. unfold ok2, in_range, apart. lia. Qed.

Lemma mut_2_cases m store a b :
  (in_range store a /\ in_range store b /\ apart a b ->
   exists va vb, get_mut_ref_2 m store a b = Ok (va, vb)
     /\ get_ref store a = Ok va /\ get_ref store b = Ok vb)
  /\ (~ (in_range store a /\ in_range store b /\ apart a b) -> panics (get_mut_ref_2 m store a b)).
Proof.
  rewrite get_mut_ref_2_eq. split.
  - intros (A & B & C). rewrite !get_ref_in by auto.
    replace (past a <=? len store) with true by (unfold in_range in A; lia).
    replace (ok2 store a b) with true by (symmetry; apply ok2_spec; auto). cbn [andb]. eauto.
  - intros N. destruct (past a <=? len store) eqn:A; cbn [andb]; [|eexists; reflexivity].
    destruct (ok2 store a b) eqn:B; [|eexists; reflexivity]. exfalso. apply N.
    apply ok2_spec in B. split; [unfold in_range; lia|]. auto.
Qed.

Lemma mut_3_cases m store a b c :
  (in_range store a /\ in_range store b /\ in_range store c /\ apart a b /\ apart a c ->
   exists va vb vc, get_mut_ref_3 m store a b c = Ok (va, vb, vc)
     /\ get_ref store a = Ok va /\ get_ref store b = Ok vb /\ get_ref store c = Ok vc)
  /\ (~ (in_range store a /\ in_range store b /\ in_range store c /\ apart a b /\ apart a c) ->
      panics (get_mut_ref_3 m store a b c)).
Proof.
  rewrite get_mut_ref_3_eq. split.
  - intros (A & B & C & D & E). rewrite !get_ref_in by auto.
    replace (past a <=? len store) with true by (unfold in_range in A; lia).
    replace (ok2 store a b) with true by (symmetry; apply ok2_spec; auto).
    replace (ok2 store a c) with true by (symmetry; apply ok2_spec; auto). cbn [andb]. eexists _, _, _. eauto.
  - intros N. destruct (past a <=? len store) eqn:A; cbn [andb]; [|eexists; reflexivity].
    destruct (ok2 store a b) eqn:B; [|eexists; reflexivity].
    destruct (ok2 store a c) eqn:C; [|eexists; reflexivity]. exfalso. apply N.
    apply ok2_spec in B. apply ok2_spec in C. unfold in_range in *. intuition lia.
Qed.

Lemma ref_cases store a :
  (in_range store a -> exists v, get_ref store a = Ok v /\ get_mut_ref store a = Ok v /\ width v = i_width a
     /\ forall k, k < (i_width a + 63) / 64 -> nth (N.to_nat k) (words v) 0 = nth (N.to_nat (first a + k)) store 0)
  /\ (~ in_range store a -> panics (get_ref store a) /\ panics (get_mut_ref store a)).
Proof.
  split; intros H.
  - unfold get_mut_ref. rewrite get_ref_in by auto. eexists. split; [reflexivity|]. split; [reflexivity|].
    split; [reflexivity|]. intros k Hk. cbn [words]. rewrite view_nth by (unfold first, past; lia).
    f_equal. lia.
  - unfold get_mut_ref. rewrite get_ref_out by auto. split; eexists; reflexivity.
Qed.

Lemma ref_2_cases store a b :
  (in_range store a /\ in_range store b ->
   exists va vb, get_ref_2 store a b = Ok (va, vb) /\ get_ref store a = Ok va /\ get_ref store b = Ok vb)
  /\ (~ (in_range store a /\ in_range store b) -> panics (get_ref_2 store a b)).
Proof.
  unfold get_ref_2. split; intros H.
  - destruct H as [H1 H2]. rewrite !get_ref_in by auto. cbn [bind]. eexists _, _. repeat split.
  - destruct (N.le_gt_cases (past a) (len store)) as [H1|H1].
    + rewrite (get_ref_in store a) by exact H1. cbn [bind].
      rewrite (get_ref_out store b) by (intros H2; apply H; split; [exact H1|exact H2]). eexists. reflexivity.
    + rewrite (get_ref_out store a) by (unfold in_range; lia). eexists. reflexivity.
Qed.

(** ** Histories of writes *)

Definition store_inv (is : list bvindex) (store : list N) (regs : nat -> N) : Prop :=
  forall k, (k < length is)%nat ->
    in_range store (index_at is k)
    /\ yields (get_ref store (index_at is k)) (i_width (index_at is k)) (regs k).

Definition all_apart (is : list bvindex) : Prop :=
  forall j k, (j < length is)%nat -> (k < length is)%nat -> j <> k -> apart (index_at is j) (index_at is k).

Lemma write_step is store regs k v' x (n : N) (r : res (list N)) :
  all_apart is -> store_inv is store regs -> (k < length is)%nat ->
  is_bv v' (i_width (index_at is k)) x ->
  (forall f, f (mkbv (i_width (index_at is k)) (view store (index_at is k))) = Ok v' ->
     update_ref store (index_at is k) f = r) ->
  exists store', r = Ok store' /\ len store' = len store /\ store_inv is store' (set_reg regs k x)
    /\ forall p, (forall j, (j < length is)%nat -> ~ covers (index_at is j) p) ->
         nth (N.to_nat p) store' 0 = nth (N.to_nat p) store 0.
Proof.
  intros HA HI Hk Hv Hr. destruct (HI k Hk) as (Rk & _).
  assert (Hv' := Hv). apply is_bv_inv in Hv' as (E & H32 & Hl & HW & Hval & Hx).
  destruct (update_ref_ok store (index_at is k) (fun _ => Ok v') v' Rk eq_refl Hl)
    as (store' & U1 & U2 & U3 & U4 & U5).
  rewrite (Hr (fun _ => Ok v') eq_refl) in U1. exists store'. split; [auto|]. split; [auto|]. split.
  - intros j Hj. destruct (HI j Hj) as (Rj & Yj). split.
    { unfold in_range in *. lia. }
    unfold set_reg. destruct (Nat.eqb j k) eqn:Ejk.
    + apply Nat.eqb_eq in Ejk. subst j. rewrite U3. eexists. split; [reflexivity|].
      destruct v' as [vw vl]. cbn [width words] in *. subst vw. auto.
    + apply Nat.eqb_neq in Ejk. rewrite U4; auto.
  - intros p Hp. apply U5. auto.
Qed.

Lemma store_step_ok m is store regs op :
  (forall k, (k < length is)%nat -> 0 < i_width (index_at is k)) ->
  all_apart is -> store_inv is store regs -> store_legal m is op ->
  exists store', store_run m is store op = Ok store' /\ len store' = len store
    /\ store_inv is store' (store_step is regs op)
    /\ forall p, (forall j, (j < length is)%nat -> ~ covers (index_at is j) p) ->
         nth (N.to_nat p) store' 0 = nth (N.to_nat p) store 0.
Proof.
  intros HW HA HI L. destruct op as [k o|dst src]; cbn [store_legal store_step store_run] in *.
  - destruct L as (Hk & Lo). destruct (HI k Hk) as (Rk & (v & E & Hv)).
    destruct (reg_run_ok m v _ _ o (HW k Hk) Hv Lo) as (v' & E' & Hv').
    apply (write_step is store regs k v' _ 0); auto.
    intros f Hf. unfold update_ref, get_mut_ref. rewrite E. cbn [bind]. rewrite E'.
    rewrite get_ref_in in E by auto. injection E as <-. rewrite Hf. reflexivity.
  - destruct L as (Hd & Hs & Hne & Ew). destruct (HI dst Hd) as (Rd & (vd & Ed & Hvd)).
    destruct (HI src Hs) as (Rs & (vs & Es & Hvs)).
    apply (write_step is store regs dst vs _ 0); auto.
    + rewrite Ew. auto.
    + intros f Hf. unfold update_ref_2, update_ref, get_mut_ref.
      destruct (mut_2_cases m store (index_at is dst) (index_at is src)) as (C & _).
      destruct C as (va & vb & C1 & C2 & C3).
      { split; [auto|]. split; [auto|]. apply HA; auto. }
      rewrite C1, C2. cbn [bind]. rewrite C2 in Ed. rewrite C3 in Es. injection Ed as ->. injection Es as ->.
      rewrite (bv_assign_ok m vd vs _ _ Hvd); [|apply Hvs|rewrite Ew; apply Hvs].
      rewrite get_ref_in in C2 by auto. injection C2 as <-. rewrite Hf. reflexivity.
Qed.

Lemma store_history m is store regs ops :
  (forall k, (k < length is)%nat -> 0 < i_width (index_at is k) /\ in_range store (index_at is k)) ->
  (forall j k, (j < length is)%nat -> (k < length is)%nat -> j <> k ->
     apart (index_at is j) (index_at is k)) ->
  (forall k, (k < length is)%nat ->
     yields (get_ref store (index_at is k)) (i_width (index_at is k)) (regs k)) ->
  Forall (store_legal m is) ops ->
  exists store', store_run_all m is store ops = Ok store' /\ len store' = len store
    /\ (forall k, (k < length is)%nat ->
          yields (get_ref store' (index_at is k)) (i_width (index_at is k))
            (fold_left (store_step is) ops regs k))
    /\ (forall p, (forall j, (j < length is)%nat -> ~ covers (index_at is j) p) ->
          nth (N.to_nat p) store' 0 = nth (N.to_nat p) store 0).
Proof.
  intros H1 H2 H3 HL.
  assert (HI : store_inv is store regs) by (intros k Hk; split; [apply H1|apply H3]; auto).
  assert (HW : forall k, (k < length is)%nat -> 0 < i_width (index_at is k)) by (intros; now apply H1).
  clear H1 H3. revert store regs HI. induction HL as [|op ops L1 L2 IH]; intros store regs HI.
  - exists store. cbn [store_run_all fold_left]. split; [auto|]. split; [auto|]. split; [|auto].
    intros k Hk. apply (HI k Hk).
  - cbn [store_run_all fold_left].
    destruct (store_step_ok m is store regs op HW H2 HI L1) as (s1 & E1 & E2 & E3 & E4).
    rewrite E1. cbn [bind]. destruct (IH s1 _ E3) as (s2 & F1 & F2 & F3 & F4).
    exists s2. split; [auto|]. split; [congruence|]. split; [auto|].
    intros p Hp. rewrite F4, E4; auto.
Qed.

(** ** The interner *)

Lemma hm_get_insert_same {K V} (eqb : K -> K -> bool) l k (v : V) :
  (forall a, eqb a a = true) -> hm_get eqb (hm_insert eqb l k v) k = Some v.
Proof.
  intros R. induction l as [|[k' v'] t IH]; cbn [hm_insert hm_get]; [now rewrite R|].
  destruct (eqb k' k) eqn:E; cbn [hm_get]; rewrite E; auto.
Qed.

Lemma hm_get_insert_other {K V} (eqb : K -> K -> bool) l k k2 (v : V) :
  (forall a b, eqb a b = true <-> a = b) -> k <> k2 ->
  hm_get eqb (hm_insert eqb l k v) k2 = hm_get eqb l k2.
Proof.
  intros R N. induction l as [|[k' v'] t IH]; cbn [hm_insert hm_get].
  - destruct (eqb k k2) eqn:E; auto. apply R in E. contradiction.
  - destruct (eqb k' k) eqn:E; cbn [hm_get].
    + apply R in E. subst k'. destruct (eqb k k2) eqn:E2; auto. apply R in E2. contradiction.
    + destruct (eqb k' k2); auto.
Qed.

Lemma words_eqb_eq a b : words_eqb a b = true <-> a = b.
Proof.
  revert b; induction a as [|x a IH]; intros [|y b]; cbn [words_eqb]; try easy.
  rewrite andb_true_iff, IH, N.eqb_eq. split; [intros (-> & ->); auto|intros E; injection E; auto].
Qed.
