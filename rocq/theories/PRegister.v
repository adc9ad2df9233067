(** * PRegister: single bits and histories of in-place updates (C30, C31). *)

From Coq Require Import ZifyBool ZifyNat ZifyN.
From Verif Require Import Base Arith Strings Bv Spec TextSpec RegSpec.
From Verif Require Import PWords PArith PShift PropsArith PConv PIo PText PParse PropsText.

Ltac Zify.zify_post_hook ::= idtac.

Lemma nth_set (l : list N) q v k : (q < length l)%nat ->
  nth k (firstn q l ++ v :: skipn (S q) l) 0 = if Nat.eqb k q then v else nth k l 0.
Proof.
  revert q k; induction l as [|x t IH]; intros q k H; [cbn in H; lia|].
  destruct q as [|q].
  - destruct k; reflexivity.
  - cbn [firstn app]. destruct k as [|k]; [reflexivity|]. cbn [nth Nat.eqb].
    cbn in H. rewrite <- IH by lia. reflexivity.
Qed.

Lemma pos_split pos i : (i / 64 =? pos / 64) && (i mod 64 =? pos mod 64) = (i =? pos).
Proof.
  assert (A := N.div_mod i 64 ltac:(lia)). assert (B := N.div_mod pos 64 ltac:(lia)).
  remember (i / 64) as a. remember (pos / 64) as b. remember (i mod 64) as c. remember (pos mod 64) as d.
  assert (c < 64) by (subst; apply N.mod_lt; lia). assert (d < 64) by (subst; apply N.mod_lt; lia).
  destruct (i =? pos) eqn:E; [|lia].
  assert (i = pos) by lia. assert (a = b) by congruence. lia.
Qed.

(** A word replaced by [f old], bit by bit. *)
Lemma update_word l pos (f : N -> N) (g : bool -> bool) :
  Words l -> pos / 64 < len l ->
  (forall x, x < 2 ^ 64 -> f x < 2 ^ 64 /\ forall j, j < 64 ->
     N.testbit (f x) j = if j =? pos mod 64 then g (N.testbit x j) else N.testbit x j) ->
  let l' := firstn (N.to_nat (pos / 64)) l
              ++ f (nth (N.to_nat (pos / 64)) l 0) :: skipn (S (N.to_nat (pos / 64))) l in
  Words l' /\ len l' = len l
  /\ forall i, N.testbit (wv l') i = if i =? pos then g (N.testbit (wv l) i) else N.testbit (wv l) i.
Proof.
  intros HW Hq Hf l'. set (q := N.to_nat (pos / 64)) in *.
  assert (Hn : (q < length l)%nat) by (unfold len in Hq; unfold q; lia).
  assert (Hx : nth q l 0 < 2 ^ 64) by (rewrite wv_nth by auto; apply mod_lt).
  destruct (Hf _ Hx) as (F1 & F2).
  destruct (set_words l q _ HW F1 Hn) as (W1 & L1). fold l' in W1, L1.
  split; [auto|]. split; [auto|]. intros i. rewrite !wv_testbit by auto. unfold l'.
  rewrite nth_set by auto. rewrite <- (pos_split pos i).
  destruct (i / 64 =? pos / 64) eqn:E.
  - replace (N.to_nat (i / 64)) with q by (unfold q; lia). rewrite Nat.eqb_refl. cbn [andb].
    rewrite F2 by (apply N.mod_lt; lia). reflexivity.
  - replace (Nat.eqb (N.to_nat (i / 64)) q) with false; [reflexivity|].
    symmetry. apply Nat.eqb_neq. unfold q. lia.
Qed.

Lemma testbit_pow k j : N.testbit (2 ^ k) j = (j =? k).
Proof. rewrite N.pow2_bits_eqb. apply N.eqb_sym. Qed.

Lemma wshl_1 k : k < 64 -> wshl 1 k = 2 ^ k.
Proof.
  intros H. rewrite wshl_mul by auto. rewrite N.mul_1_r. apply mod_small_pow, pow_lt. auto.
Qed.

Lemma or_bit k x : k < 64 -> x < 2 ^ 64 -> N.lor x (wshl 1 k) < 2 ^ 64 /\
  forall j, j < 64 -> N.testbit (N.lor x (wshl 1 k)) j = if j =? k then true else N.testbit x j.
Proof.
  intros Hk Hx. rewrite wshl_1 by auto.
  assert (B : forall j, N.testbit (N.lor x (2 ^ k)) j = if j =? k then true else N.testbit x j).
  { intros j. rewrite N.lor_spec, testbit_pow. destruct (j =? k); [apply orb_true_r|apply orb_false_r]. }
  split; [|intros; apply B]. apply lt_pow_bits. intros i Hi. rewrite B.
  replace (i =? k) with false by lia. now apply (testbit_high x 64).
Qed.

Lemma andn_bit k x : k < 64 -> x < 2 ^ 64 -> N.land x (wnot (wshl 1 k)) < 2 ^ 64 /\
  forall j, j < 64 -> N.testbit (N.land x (wnot (wshl 1 k))) j = if j =? k then false else N.testbit x j.
Proof.
  intros Hk Hx. rewrite wshl_1 by auto. split.
  - apply lt_pow_bits. intros i Hi. rewrite N.land_spec, (testbit_high x 64) by auto. reflexivity.
  - intros j Hj. rewrite N.land_spec, wnot_testbit by (auto; apply pow_lt; auto).
    rewrite testbit_pow. destruct (j =? k); [apply andb_false_r|apply andb_true_r].
Qed.

Lemma is_bit_set_words l pos : Words l -> pos / 64 < len l ->
  ar_is_bit_set l pos = Ok (N.testbit (wv l) pos).
Proof.
  intros HW H. unfold ar_is_bit_set. rewrite idx_ok by auto. cbn [bind].
  rewrite wshr_testbit by (apply N.mod_lt; lia). now rewrite (wv_testbit l pos).
Qed.

Lemma set_bit_words l pos : Words l -> pos / 64 < len l ->
  exists l', ar_set_bit l pos = Ok l' /\ Words l' /\ len l' = len l
    /\ forall i, N.testbit (wv l') i = if i =? pos then true else N.testbit (wv l) i.
Proof.
  intros HW H. unfold ar_set_bit. rewrite idx_ok by auto. cbn [bind].
  rewrite set_idx_ok by auto. eexists. split; [reflexivity|].
  apply (update_word l pos (fun w => N.lor w (wshl 1 (pos mod 64))) (fun _ => true)); auto.
  intros x Hx. apply or_bit; auto. apply N.mod_lt. lia.
Qed.

Lemma clear_bit_words l pos : Words l -> pos / 64 < len l ->
  exists l', ar_clear_bit l pos = Ok l' /\ Words l' /\ len l' = len l
    /\ forall i, N.testbit (wv l') i = if i =? pos then false else N.testbit (wv l) i.
Proof.
  intros HW H. unfold ar_clear_bit. rewrite idx_ok by auto. cbn [bind].
  rewrite set_idx_ok by auto. eexists. split; [reflexivity|].
  apply (update_word l pos (fun w => N.land w (wnot (wshl 1 (pos mod 64)))) (fun _ => false)); auto.
  intros x Hx. apply andn_bit; auto. apply N.mod_lt. lia.
Qed.

Lemma pos_word w pos : pos < w -> pos / 64 < (w + 63) / 64.
Proof. intros. dlia. Qed.

Lemma is_bit_set_ok v w x pos : is_bv v w x -> pos < w -> bv_is_bit_set v pos = Ok (N.testbit x pos).
Proof.
  intros H Hp. apply is_bv_inv in H as (E & H32 & Hl & HW & Hv & Hx).
  unfold bv_is_bit_set. rewrite is_bit_set_words; auto; [congruence|]. rewrite Hl. now apply pos_word.
Qed.

Lemma set_bit_bits v w x pos : is_bv v w x -> pos < w ->
  exists v' n, bv_set_bit v pos = Ok v' /\ is_bv v' w n
    /\ forall i, N.testbit n i = if i =? pos then true else N.testbit x i.
Proof.
  intros H Hp. apply is_bv_inv in H as (E & H32 & Hl & HW & Hv & Hx).
  destruct (set_bit_words (words v) pos HW) as (l & L1 & L2 & L3 & L4).
  { rewrite Hl. now apply pos_word. }
  unfold bv_set_bit. rewrite L1, E. cbn [bind]. rewrite Hv in L4.
  exists (mkbv w l), (wv l). split; [auto|]. split; [|auto].
  apply is_bv_intro; auto; [congruence|]. apply lt_pow_bits. intros i Hi. rewrite L4.
  replace (i =? pos) with false by lia. now apply (testbit_high x w).
Qed.

Lemma clear_bit_bits v w x pos : is_bv v w x -> pos < w ->
  exists v' n, bv_clear_bit v pos = Ok v' /\ is_bv v' w n
    /\ forall i, N.testbit n i = if i =? pos then false else N.testbit x i.
Proof.
  intros H Hp. apply is_bv_inv in H as (E & H32 & Hl & HW & Hv & Hx).
  destruct (clear_bit_words (words v) pos HW) as (l & L1 & L2 & L3 & L4).
  { rewrite Hl. now apply pos_word. }
  unfold bv_clear_bit. rewrite L1, E. cbn [bind]. rewrite Hv in L4.
  exists (mkbv w l), (wv l). split; [auto|]. split; [|auto].
  apply is_bv_intro; auto; [congruence|]. apply lt_pow_bits. intros i Hi. rewrite L4.
  destruct (i =? pos); [auto|]. now apply (testbit_high x w).
Qed.

Lemma add_bit x pos : N.testbit x pos = false ->
  forall i, N.testbit (x + 2 ^ pos) i = if i =? pos then true else N.testbit x i.
Proof.
  intros H i.
  assert (A : N.land x (2 ^ pos) = 0).
  { apply N.bits_inj. intros j. rewrite N.land_spec, testbit_pow, N.bits_0.
    destruct (j =? pos) eqn:E; [|apply andb_false_r]. replace j with pos by lia. now rewrite H. }
  rewrite N.add_nocarry_lxor by auto.
  rewrite N.lxor_spec, testbit_pow. destruct (i =? pos) eqn:E; [|apply xorb_false_r].
  replace i with pos by lia. rewrite H. reflexivity.
Qed.

Lemma sub_bit x pos : N.testbit x pos = true ->
  forall i, N.testbit (x - 2 ^ pos) i = if i =? pos then false else N.testbit x i.
Proof.
  intros H i.
  assert (A : N.ldiff (2 ^ pos) x = 0).
  { apply N.bits_inj. intros j. rewrite N.ldiff_spec, testbit_pow, N.bits_0.
    destruct (j =? pos) eqn:E; [|auto]. replace j with pos by lia. now rewrite H. }
  rewrite N.sub_nocarry_ldiff by auto.
  rewrite N.ldiff_spec, testbit_pow. destruct (i =? pos) eqn:E; cbn [negb]; [apply andb_false_r|apply andb_true_r].
Qed.

Lemma set_bit_ok v w x pos : is_bv v w x -> pos < w ->
  yields (bv_set_bit v pos) w (if N.testbit x pos then x else x + 2 ^ pos).
Proof.
  intros H Hp. destruct (set_bit_bits v w x pos H Hp) as (v' & n & E1 & E2 & E3).
  exists v'. split; [auto|]. match goal with |- is_bv _ _ ?e => replace e with n; [auto|] end.
  apply N.bits_inj. intros i. rewrite E3. destruct (N.testbit x pos) eqn:T.
  - destruct (i =? pos) eqn:E; [|auto]. replace i with pos by lia. auto.
  - now rewrite add_bit.
Qed.

Lemma clear_bit_ok v w x pos : is_bv v w x -> pos < w ->
  yields (bv_clear_bit v pos) w (if N.testbit x pos then x - 2 ^ pos else x).
Proof.
  intros H Hp. destruct (clear_bit_bits v w x pos H Hp) as (v' & n & E1 & E2 & E3).
  exists v'. split; [auto|]. match goal with |- is_bv _ _ ?e => replace e with n; [auto|] end.
  apply N.bits_inj. intros i. rewrite E3. destruct (N.testbit x pos) eqn:T.
  - now rewrite sub_bit.
  - destruct (i =? pos) eqn:E; [|auto]. replace i with pos by lia. auto.
Qed.

(** ** Positions at or above the width *)

Lemma is_bit_set_beyond v w x pos : is_bv v w x -> w <= pos -> pos < 64 * ((w + 63) / 64) ->
  bv_is_bit_set v pos = Ok false.
Proof.
  intros H Hp Hp2. apply is_bv_inv in H as (E & H32 & Hl & HW & Hv & Hx).
  unfold bv_is_bit_set. rewrite is_bit_set_words; auto.
  - rewrite Hv. f_equal. now apply (testbit_high x w).
  - rewrite Hl. clear - Hp2. dlia.
Qed.

Lemma beyond_panics v w x pos : is_bv v w x -> 64 * ((w + 63) / 64) <= pos ->
  panics (bv_is_bit_set v pos) /\ panics (bv_set_bit v pos) /\ panics (bv_clear_bit v pos).
Proof.
  intros H Hp. apply is_bv_inv in H as (E & H32 & Hl & HW & Hv & Hx).
  unfold bv_is_bit_set, bv_set_bit, bv_clear_bit, ar_is_bit_set, ar_set_bit, ar_clear_bit.
  rewrite idx_panic by (rewrite Hl; clear - Hp; dlia). cbn [bind]. repeat split; eexists; reflexivity.
Qed.

Lemma set_bit_beyond v w x pos : is_bv v w x -> w <= pos -> pos < 64 * ((w + 63) / 64) ->
  exists v', bv_set_bit v pos = Ok v' /\ width v' = w /\ uval v' = x + 2 ^ pos /\ ~ wf v'.
Proof.
  intros H Hp Hp2. apply is_bv_inv in H as (E & H32 & Hl & HW & Hv & Hx).
  destruct (set_bit_words (words v) pos HW) as (l & L1 & L2 & L3 & L4).
  { rewrite Hl. clear - Hp2. dlia. }
  unfold bv_set_bit. rewrite L1. cbn [bind]. eexists. split; [reflexivity|].
  split; [exact E|]. unfold uval. cbn [words width]. split.
  - apply N.bits_inj. intros i. rewrite L4, Hv. rewrite add_bit; [reflexivity|].
    now apply (testbit_high x w).
  - intros (_ & _ & _ & B). unfold uval in B. cbn [words width] in B.
    specialize (L4 pos). rewrite N.eqb_refl in L4.
    rewrite (testbit_high _ _ pos B) in L4 by congruence. discriminate.
Qed.

Lemma clear_bit_beyond v w x pos : is_bv v w x -> w <= pos -> pos < 64 * ((w + 63) / 64) ->
  bv_clear_bit v pos = Ok v.
Proof.
  intros H Hp Hp2. assert (HH := H). apply is_bv_inv in H as (E & H32 & Hl & HW & Hv & Hx).
  destruct (clear_bit_words (words v) pos HW) as (l & L1 & L2 & L3 & L4).
  { rewrite Hl. clear - Hp2. dlia. }
  unfold bv_clear_bit. rewrite L1. cbn [bind]. f_equal. apply (is_bv_unique _ _ w x); [|exact HH].
  assert (G : wv l = x).
  { apply N.bits_inj. intros i. rewrite L4, Hv. destruct (i =? pos) eqn:Ei; [|reflexivity].
    replace i with pos by lia. symmetry. now apply (testbit_high x w). }
  rewrite E. rewrite <- G. apply is_bv_intro; auto; [congruence|]. now rewrite G.
Qed.

(** ** Histories *)

Lemma bv_assign_ok m v src w x : is_bv v w x -> wf src -> width src = w ->
  bv_assign m v src = Ok src.
Proof.
  intros H Hs Hw. apply is_bv_inv in H as (E & H32 & Hl & HW & Hv & Hx).
  assert (Ls : len (words src) = len (words v)) by (destruct Hs as (_ & L & _); congruence).
  unfold bv_assign. rewrite E, Hw, Ls, !N.eqb_refl, !debug_assert_true. cbn [bind].
  cbn [assert bind]. destruct src as [sw sl]. cbn [width words] in *. congruence.
Qed.

Lemma mask_ok m v w x : 0 < w -> is_bv v w x -> bv_mask_msb m v = Ok v.
Proof.
  intros Hw H. assert (HH := H). apply is_bv_inv in H as (E & H32 & Hl & HW & Hv & Hx).
  assert (Y := mask_msb_bv m w (words v) HW Hl Hw H32).
  rewrite Hv, (mod_small_pow x w) in Y by auto.
  replace (mkbv w (words v)) with v in Y by (destruct v as [a b]; cbn [width words] in *; congruence).
  apply (yields_is_bv _ _ _ _ Y HH).
Qed.

(** writing one word *)
Lemma skipn_cons_nth (l : list N) k : (k < length l)%nat -> nth k l 0 :: skipn (S k) l = skipn k l.
Proof.
  revert k. induction l as [|a t IH]; intros [|k] H; cbn in *; try lia; [reflexivity|]. rewrite <- IH by lia. reflexivity.
Qed.

Lemma word_parts l k : Words l -> (k < length l)%nat ->
  let low := 2 ^ (64 * N.of_nat k) in
  wv (firstn k l) = wv l mod low /\ wv (skipn (S k) l) = wv l / (low * 2 ^ 64).
Proof.
  intros HW Hk low.
  assert (Lf : len (firstn k l) = N.of_nat k) by (unfold len; rewrite firstn_length; lia).
  assert (E : wv l = wv (firstn k l) + low * (nth k l 0 + 2 ^ 64 * wv (skipn (S k) l))).
  { rewrite <- wv_cons, (skipn_cons_nth _ _ Hk). unfold low. rewrite <- Lf, <- wv_app, firstn_skipn. reflexivity. }
  assert (A : wv (firstn k l) < low) by (unfold low; rewrite <- Lf; apply wv_bound; now apply Words_firstn).
  assert (D : nth k l 0 < 2 ^ 64) by (rewrite wv_nth by auto; apply mod_lt).
  assert (P : low <> 0) by (unfold low; apply pow_nz).
  clearbody low. split.
  - rewrite E. rewrite (N.mul_comm low), N.mod_add by auto. symmetry. now apply N.mod_small.
  - rewrite <- N.div_div by (auto; lia). rewrite E, (N.mul_comm low), N.div_add by auto.
    rewrite (N.div_small _ low) by auto. rewrite N.add_0_l, (N.mul_comm (2 ^ 64)), N.div_add by lia.
    rewrite (N.div_small _ (2 ^ 64)) by auto. reflexivity.
Qed.

Lemma write_word_ok m v w x k n : 0 < w -> is_bv v w x -> k < (w + 63) / 64 -> n < 2 ^ 64 ->
  yields (let* ws := set_idx (words v) k n in bv_mask_msb m (mkbv (width v) ws)) w
    (let low := 2 ^ (64 * k) in
     (x mod low + n * low + x / (low * 2 ^ 64) * (low * 2 ^ 64)) mod 2 ^ w).
Proof.
  intros Hw H Hk Hn. apply is_bv_inv in H as (E & H32 & Hl & HW & Hv & Hx).
  assert (Hk' : (N.to_nat k < length (words v))%nat) by (unfold len in Hl; lia).
  unfold set_idx. rewrite set_nth_ok by auto. cbn [bind]. rewrite E.
  destruct (word_parts (words v) (N.to_nat k) HW Hk') as (A & B). rewrite N2Nat.id in A, B. rewrite Hv in A, B.
  set (l' := firstn _ _ ++ n :: _).
  assert (Ev : wv l' = x mod 2 ^ (64 * k) + n * 2 ^ (64 * k) + x / (2 ^ (64 * k) * 2 ^ 64) * (2 ^ (64 * k) * 2 ^ 64)).
  { unfold l'. rewrite wv_app, wv_cons, A, B.
    replace (len (firstn (N.to_nat k) (words v))) with k by (clear - Hk'; unfold len; rewrite firstn_length; lia).
    generalize (2 ^ (64 * k)) (x / (2 ^ (64 * k) * 2 ^ 64)) (2 ^ 64). intros. nia. }
  cbv zeta. rewrite <- Ev. apply mask_msb_bv; auto.
  - unfold l'. apply Words_app; [now apply Words_firstn|]. constructor; [auto|now apply Words_skipn].
  - rewrite <- Hl. unfold l', len. rewrite app_length. cbn [length]. rewrite firstn_length, skipn_length.
    clear - Hk'. lia.
Qed.

Lemma parse_step_ok m v w x s r : 0 < w -> is_bv v w x -> w <= 128 -> 2 <= r -> r <= 36 -> s <> [] ->
  match signed_text r s with
  | Some z => Z.abs_N z < 2 ^ w
  | None => match s with 45 :: 43 :: _ => False | _ => True end
  end ->
  yields (let* (v', _) := bv_assign_from_str_radix m v s r in Ok v') w
    (match signed_text r s with Some z => wrap w z | None => x end).
Proof.
  intros Hw H H128 H2 H36 Hs L.
  assert (H32 : w < 2 ^ 32) by (apply (N.le_lt_trans _ _ _ H128); reflexivity).
  assert (Z0 := zero_is_bv w H32).
  assert (Wv : wf v /\ width v = w) by (destruct H as (? & ? & _); auto).
  assert (Wz : wf (bv_zero w) /\ width (bv_zero w) = w) by (destruct Z0 as (? & ? & _); auto).
  destruct (signed_text r s) as [z|] eqn:T.
  - destruct (parse_ok m s r w z) as (u & E & Hu); auto; [now left|].
    unfold bv_from_str_radix in E.
    destruct (assign_small m s r w Hw H128 H2 H36 Hs) as [(u' & A)|(k & A)].
    + rewrite (A (bv_zero w)) in E by tauto. cbn [bind] in E. injection E as ->.
      rewrite (A v) by tauto. cbn [bind]. exists u. auto.
    + rewrite (A (bv_zero w)) in E by tauto. cbn [bind] in E. discriminate.
  - destruct (small_not_a_number m s r w) as (k & E); auto.
    unfold bv_from_str_radix in E.
    destruct (assign_small m s r w Hw H128 H2 H36 Hs) as [(u' & A)|(k' & A)].
    + rewrite (A (bv_zero w)) in E by tauto. cbn [bind] in E. discriminate.
    + rewrite (A v) by tauto. cbn [bind]. exists v. auto.
Qed.

Lemma reg_run_ok m v w x op : 0 < w -> is_bv v w x -> reg_legal m w op ->
  yields (reg_run m v op) w (reg_step w x op).
Proof.
  intros Hw H L. destruct op; cbn [reg_run reg_step reg_legal] in *.
  - destruct L as (L1 & L2). rewrite (bv_assign_ok m v src w x); auto.
    exists src. split; [auto|]. subst w. now apply wf_is_bv.
  - eexists. split; [reflexivity|]. eapply clear_ok; eauto.
  - eapply assign_ones_ok; eauto.
  - destruct L as (L1 & L2). eapply assign_from_u64_ok; eauto.
  - destruct L as (L1 & L2). destruct (assign_from_i64_raw m v w x z H Hw L1) as (r & R1 & R2 & _).
    exists r. rewrite R2 by auto. auto.
  - apply set_bit_ok; auto.
  - apply clear_bit_ok; auto.
  - rewrite (mask_ok m v w x) by auto. exists v. auto.
  - destruct L as (L1 & L2). now apply write_word_ok.
  - destruct L as (L1 & L2 & L3 & L4 & L5). now apply parse_step_ok.
Qed.

Lemma reg_history m v w x ops : 0 < w -> is_bv v w x -> Forall (reg_legal m w) ops ->
  yields (reg_run_all m v ops) w (fold_left (reg_step w) ops x).
Proof.
  intros Hw H L. revert v x H. induction L as [|op ops L1 L2 IH]; intros v x H; cbn [reg_run_all fold_left].
  - exists v. auto.
  - destruct (reg_run_ok m v w x op Hw H L1) as (v' & E & H'). rewrite E. cbn [bind]. apply IH. auto.
Qed.
