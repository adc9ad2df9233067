(** * PArrayMisuse: operands of the wrong width in a release build. *)

From Coq Require Import ZifyBool ZifyNat ZifyN Permutation.
From Verif Require Import Base Arith Map Bv Array Serde Spec ArraySpec ArrayMisuseSpec.
From Verif Require Import PWords PArith PShift PropsArith PConv PRegister PReject PDense PSparse PConvert PArrays PStore PPanic.
Ltac Zify.zify_post_hook ::= idtac.

Lemma lt64_dec x : x < 2 ^ 64 \/ 2 ^ 64 <= x.
Proof. destruct (N.le_gt_cases (2 ^ 64) x); auto. Qed.

Lemma unwrap_wf v : wf v -> uval v < 2 ^ 64 -> unwrap (bv_to_u64 v) = Ok (uval v).
Proof. intros W. apply unwrap_u64 with (w := width v). now apply wf_is_bv. Qed.
Lemma unwrap_large v : wf v -> 2 ^ 64 <= uval v -> unwrap (bv_to_u64 v) = Panic PUnwrap.
Proof.
  intros W L. rewrite (to_u64_ok v _ _ (wf_is_bv v W)).
  replace (uval v <? 2 ^ 64) with false; [reflexivity|]. symmetry. now apply N.ltb_ge.
Qed.

(** ** Elements of at most 64 bits *)

Definition loose (a : array) (iw dw : N) (g : N -> N) : Prop :=
  0 < dw /\ dw <= 64
  /\ match a with
     | ADense d => iw < 64 /\ d_iw d = iw /\ d_dw d = dw
         /\ match d_data d with
            | DU8 l => 1 < dw /\ dw <= 8 /\ len l = 2 ^ iw /\ Forall (fun x => x < 2 ^ 8) l
                /\ forall i, i < 2 ^ iw -> nth (N.to_nat i) l 0 mod 2 ^ dw = g i
            | DU64 l => len l = 2 ^ iw /\ Forall (fun x => x < 2 ^ 64) l
                /\ forall i, i < 2 ^ iw -> nth (N.to_nat i) l 0 mod 2 ^ dw = g i
            | _ => False
            end
     | ASparse s => iw <= 64 /\ s_iw s = iw /\ s_dw s = dw
         /\ match s_data s with
            | SU64U64 d l => d < 2 ^ 64 /\ NoDup (map fst l) /\ Forall (fun e => snd e < 2 ^ 64) l
                /\ forall i, i < 2 ^ iw -> unwrap_or (hm_get N.eqb l i) d mod 2 ^ dw = g i
            | _ => False
            end
     end.

Lemma loose_built a iw dw f : array_inv a iw dw f -> iw <= 64 -> dw <= 64 ->
  (dw = 1 -> array_is_dense a = false) -> loose a iw dw f.
Proof.
  intros H I D B. destruct a as [s|d]; cbn [array_inv array_is_dense] in *.
  - destruct H as (W & E1 & E2 & F). destruct W as (I32 & D0 & D32 & L & N & Fa & S).
    rewrite E2 in *. rewrite E1 in *. split; auto. split; auto. split; auto. split; auto. split; auto.
    unfold selem, sent, sdef in *. destruct (s_data s) as [x l|x l|x l]; [|lia|lia].
    assert (P := pow8_64 dw D).
    split; [eapply N.lt_le_trans; eassumption|]. split; auto. split.
    + eapply Forall_impl; [|exact Fa]. cbv beta. intros e (_ & A & _). eapply N.lt_le_trans; eassumption.
    + intros i Hi. rewrite <- F by auto. apply N.mod_small. rewrite Forall_forall in Fa.
      destruct (hm_get N.eqb l i) as [v|] eqn:E; cbn [unwrap_or]; [|auto].
      apply (get_in _ N_eqb_eq) in E. now apply Fa in E as (_ & A & _).
  - destruct H as (W & E1 & E2 & F). destruct W as ((I64 & _) & D0 & D32 & L & S).
    rewrite E2 in *. rewrite E1 in *. split; auto. split; auto. split; auto. split; auto. split; auto.
    unfold delem in *. destruct (d_data d) as [v|l|l|l].
    + destruct S as (S & _). specialize (B S). discriminate B.
    + destruct S as (S1 & S2 & S3). repeat (split; [assumption|]). split.
      * apply Forall_nth. intros i z Hi. rewrite (nth_indep l z 0 Hi).
        replace i with (N.to_nat (N.of_nat i)) by lia.
        eapply N.lt_le_trans; [apply L; unfold len in S3; lia|apply pow_le; auto].
      * intros i Hi. rewrite <- F by auto. apply N.mod_small. now apply L.
    + destruct S as (S1 & S2 & S3). split; [assumption|]. split.
      * apply Forall_nth. intros i z Hi. rewrite (nth_indep l z 0 Hi).
        replace i with (N.to_nat (N.of_nat i)) by lia.
        eapply N.lt_le_trans; [apply L; unfold len in S3; lia|apply pow_le; auto].
      * intros i Hi. rewrite <- F by auto. apply N.mod_small. now apply L.
    + destruct S. lia.
Qed.

Lemma read_raw x dw : 0 < dw -> dw <= 64 -> x < 2 ^ 64 -> yields (bv_from_u64 Release x dw) dw (x mod 2 ^ dw).
Proof. intros. apply from_u64_ok; auto. lia. Qed.

Lemma loose_select probe a iw dw g i : loose a iw dw g -> wf i ->
  (uval i < 2 ^ iw -> yields (array_select probe Release a i) dw (g (uval i)))
  /\ settles (index_end a <= uval i) (array_select probe Release a i).
Proof.
  intros (D0 & D64 & H) W.
  assert (G : forall (P : Prop) r, (P -> panics r) -> (~ P -> exists n, yields r dw n) -> P \/ ~ P ->
    settles P r).
  { intros P r A B [C|C]; [apply settles_panic; auto|]. destruct (B C) as (n & v & E & _). eapply settles_ok; eauto. }
  destruct a as [s|d]; unfold index_end; cbn [array_select array_is_dense array_index_width].
  - destruct H as (I & E1 & E2 & H). unfold sparse_select. cbn [debug_assert bind]. rewrite E2.
    destruct (s_data s) as [x l|x l|x l]; [|easy|easy]. destruct H as (Hx & N & F & R).
    assert (Y : uval i < 2 ^ 64 -> yields (let* i := unwrap (bv_to_u64 i) in
        bv_from_u64 Release (unwrap_or (hm_get N.eqb l i) x) dw) dw (unwrap_or (hm_get N.eqb l (uval i)) x mod 2 ^ dw)).
    { intros L. rewrite unwrap_wf by auto. cbn [bind]. apply read_raw; auto.
      destruct (hm_get N.eqb l (uval i)) as [v|] eqn:E; cbn [unwrap_or]; [|auto].
      apply (get_in _ N_eqb_eq) in E. rewrite Forall_forall in F. now apply F in E. }
    split.
    + intros L. rewrite <- R by auto. apply Y. eapply N.lt_le_trans; [exact L|now apply pow8_64].
    + destruct (lt64_dec (uval i)) as [L|L].
      * destruct (Y L) as (v & E & _). eapply settles_ok; [now apply N.lt_nge|exact E].
      * apply settles_panic; auto. rewrite unwrap_large by auto. eexists. reflexivity.
  - destruct H as (I & E1 & E2 & H). unfold dense_select. cbn [debug_assert bind]. rewrite E1.
    assert (P64 := pow8_64 iw ltac:(lia)).
    destruct (lt64_dec (uval i)) as [L|L].
    2:{ split; [intros X; exfalso; clear - X L P64; lia|]. apply settles_panic.
        - clear - L P64; lia.
        - rewrite unwrap_large by auto. eexists. reflexivity. }
    rewrite unwrap_wf by auto. cbn [bind]. unfold dense_select_usize. rewrite E2.
    destruct (d_data d) as [v|l|l|l]; [easy| | |easy].
    + destruct H as (_ & _ & Ln & F & R).
      assert (Y : uval i < 2 ^ iw -> yields (let* v := idx l (uval i) in bv_from_u64 Release v dw) dw (g (uval i))).
      { intros X. rewrite idx_ok by (rewrite Ln; auto). cbn [bind]. rewrite <- R by auto. apply read_raw; auto.
        eapply N.lt_trans; [apply (nth_lt_bound l (2 ^ 8)); auto; reflexivity|reflexivity]. }
      split; auto. destruct (N.le_gt_cases (2 ^ iw) (uval i)) as [X|X].
      * apply settles_panic; auto. rewrite idx_panic by (rewrite Ln; auto). eexists. reflexivity.
      * destruct (Y X) as (v & E & _). eapply settles_ok; [now apply N.lt_nge|exact E].
    + destruct H as (Ln & F & R).
      assert (Y : uval i < 2 ^ iw -> yields (let* v := idx l (uval i) in bv_from_u64 Release v dw) dw (g (uval i))).
      { intros X. rewrite idx_ok by (rewrite Ln; auto). cbn [bind]. rewrite <- R by auto. apply read_raw; auto.
        apply (nth_lt_bound l (2 ^ 64)); auto; reflexivity. }
      split; auto. destruct (N.le_gt_cases (2 ^ iw) (uval i)) as [X|X].
      * apply settles_panic; auto. rewrite idx_panic by (rewrite Ln; auto). eexists. reflexivity.
      * destruct (Y X) as (v & E & _). eapply settles_ok; [now apply N.lt_nge|exact E].
Qed.

Lemma firstn_In {A} n (l : list A) x : In x (firstn n l) -> In x l.
Proof. rewrite <- (firstn_skipn n l) at 2. intros H. apply in_or_app. now left. Qed.
Lemma skipn_In {A} n (l : list A) x : In x (skipn n l) -> In x l.
Proof. rewrite <- (firstn_skipn n l) at 2. intros H. apply in_or_app. now right. Qed.
Lemma Forall_set (P : N -> Prop) l i v : Forall P l -> P v ->
  Forall P (firstn (N.to_nat i) l ++ v :: skipn (S (N.to_nat i)) l).
Proof.
  intros F Hv. apply Forall_app. split; [|constructor; auto].
  - rewrite Forall_forall in *. intros y Hy. apply F. eapply firstn_In, Hy.
  - rewrite Forall_forall in *. intros y Hy. apply F. eapply skipn_In, Hy.
Qed.
Lemma mod_mod_le x a b : b <= a -> (x mod 2 ^ a) mod 2 ^ b = x mod 2 ^ b.
Proof.
  intros H. replace a with (b + (a - b)) by lia. rewrite N.pow_add_r.
  rewrite N.mod_mul_r by (apply N.pow_nonzero; lia).
  rewrite N.mul_comm, N.mod_add by (apply N.pow_nonzero; lia). rewrite N.mod_mod by (apply N.pow_nonzero; lia).
  reflexivity.
Qed.

(** One word written into a list of words. *)
Lemma loose_write (l : list N) n dw i y g x : len l = n -> i < n -> y mod 2 ^ dw = x mod 2 ^ dw ->
  (forall j, j < n -> nth (N.to_nat j) l 0 mod 2 ^ dw = g j) ->
  forall j, j < n -> nth (N.to_nat j) (firstn (N.to_nat i) l ++ y :: skipn (S (N.to_nat i)) l) 0 mod 2 ^ dw
    = if j =? i then x mod 2 ^ dw else g j.
Proof.
  intros Ln Hi E R j Hj. rewrite nth_set_N by lia. destruct (j =? i); auto.
Qed.

Lemma loose_store probe a iw dw g i x : loose a iw dw g -> wf i -> wf x ->
  settles (index_end a <= uval i \/ 2 ^ 64 <= uval x) (array_store probe Release a i x)
  /\ forall a', array_store probe Release a i x = Ok a' ->
       loose a' iw dw (loose_step dw g (AStore i x)) /\ index_end a' = index_end a.
Proof.
  intros (D0 & D64 & H) Wi Wx.
  assert (G : forall (P : Prop) r, P -> panics r -> settles P r
    /\ forall a', r = Ok a' -> loose a' iw dw (loose_step dw g (AStore i x)) /\ index_end a' = index_end a).
  { intros P r HP Hr. split; [now apply settles_panic|]. intros a' E. destruct Hr as (p & Hr). congruence. }
  assert (K : forall (P : Prop) r a1, ~ P -> r = Ok a1 -> loose a1 iw dw (loose_step dw g (AStore i x)) ->
    index_end a1 = index_end a -> settles P r
    /\ forall a', r = Ok a' -> loose a' iw dw (loose_step dw g (AStore i x)) /\ index_end a' = index_end a).
  { intros P r a1 HP Hr HL HI. split; [eapply settles_ok; eauto|]. intros a' E. rewrite Hr in E. injection E as <-. auto. }
  destruct a as [s|d]; unfold index_end at 1; cbn [array_store array_is_dense array_index_width].
  - destruct H as (I & E1 & E2 & H). unfold sparse_store. cbn [debug_assert bind].
    destruct (s_data s) as [z l|z l|z l]; [|easy|easy]. destruct H as (Hz & N & F & R).
    destruct (lt64_dec (uval i)) as [Li|Li].
    2:{ apply G; auto. rewrite unwrap_large by auto. eexists. reflexivity. }
    rewrite unwrap_wf by auto. cbn [bind].
    destruct (lt64_dec (uval x)) as [Lx|Lx].
    2:{ apply G; auto. rewrite unwrap_large by auto. eexists. reflexivity. }
    rewrite unwrap_wf by auto. cbn [bind]. eapply K; [|reflexivity| |reflexivity].
    { apply N.lt_nge in Li. apply N.lt_nge in Lx. tauto. }
    split; auto. split; auto. split; auto. cbn [s_iw s_dw s_data]. split; auto. split; auto.
    change (if uval x =? z then hm_remove N.eqb l (uval i) else hm_insert N.eqb l (uval i) (uval x))
      with (put l z (uval i) (uval x)).
    split; auto. split; [now apply put_nodup|]. split; [now apply put_forall|].
    intros j Hj. rewrite put_get by auto. cbn [loose_step]. destruct (j =? uval i); auto.
  - destruct H as (I & E1 & E2 & H). unfold dense_store. cbn [debug_assert bind].
    assert (P64 := pow8_64 iw ltac:(lia)). rewrite E1.
    destruct (lt64_dec (uval i)) as [Li|Li].
    2:{ apply G; [left; clear - Li P64; lia|]. rewrite unwrap_large by auto. eexists. reflexivity. }
    rewrite unwrap_wf by auto. cbn [bind].
    destruct (d_data d) as [v|l|l|l]; [easy| | |easy].
    + destruct H as (S1 & S2 & Ln & F & R).
      destruct (lt64_dec (uval x)) as [Lx|Lx].
      2:{ apply G; auto. rewrite unwrap_large by auto. eexists. reflexivity. }
      rewrite unwrap_wf by auto. cbn [bind].
      destruct (N.le_gt_cases (2 ^ iw) (uval i)) as [X|X].
      { apply G; auto. rewrite set_idx_panic by (rewrite Ln; auto). eexists. reflexivity. }
      rewrite set_idx_ok by (rewrite Ln; auto). cbn [bind]. eapply K; [|reflexivity| |].
      { apply N.lt_nge in X. apply N.lt_nge in Lx. tauto. }
      * split; auto. split; auto. split; auto. cbn [d_iw d_dw d_data]. split; auto. split; auto.
        split; auto. split; auto. split; [rewrite len_set by (rewrite Ln; auto); auto|]. split.
        { apply Forall_set; auto. apply N.mod_lt. discriminate. }
        intros j Hj. cbn [loose_step]. eapply loose_write; eauto.
        change (as_u8 (uval x)) with (uval x mod 2 ^ 8). now apply mod_mod_le.
      * unfold index_end. cbn [array_is_dense array_index_width d_iw]. now rewrite E1.
    + destruct H as (Ln & F & R).
      destruct (lt64_dec (uval x)) as [Lx|Lx].
      2:{ apply G; auto. rewrite unwrap_large by auto. eexists. reflexivity. }
      rewrite unwrap_wf by auto. cbn [bind].
      destruct (N.le_gt_cases (2 ^ iw) (uval i)) as [X|X].
      { apply G; auto. rewrite set_idx_panic by (rewrite Ln; auto). eexists. reflexivity. }
      rewrite set_idx_ok by (rewrite Ln; auto). cbn [bind]. eapply K; [|reflexivity| |].
      { apply N.lt_nge in X. apply N.lt_nge in Lx. tauto. }
      * split; auto. split; auto. split; auto. cbn [d_iw d_dw d_data]. split; auto. split; auto.
        split; [rewrite len_set by (rewrite Ln; auto); auto|]. split.
        { apply Forall_set; auto. }
        intros j Hj. cbn [loose_step]. eapply loose_write; eauto.
      * unfold index_end. cbn [array_is_dense array_index_width d_iw]. now rewrite E1.
Qed.

Lemma loose_clear a iw dw g : loose a iw dw g ->
  loose (array_clear a) iw dw (fun _ => 0) /\ index_end (array_clear a) = index_end a.
Proof.
  intros (D0 & D64 & H). destruct a as [s|d]; cbn [array_clear]; (split; [|reflexivity]).
  - split; auto. split; auto. destruct H as (I & E1 & E2 & H). cbn [sparse_clear s_iw s_dw]. repeat (split; [assumption|]).
    unfold sparse_clear. cbn [s_data].
    destruct (s_data s) as [x l|x l|x l]; [|easy|easy]. split; [reflexivity|]. split; [constructor|].
    split; [constructor|]. reflexivity.
  - split; auto. split; auto. destruct H as (I & E1 & E2 & H). cbn [dense_clear d_iw d_dw]. repeat (split; [assumption|]).
    unfold dense_clear. cbn [d_data].
    assert (Z : forall (l : list N) k, Forall (fun x => x < 2 ^ k) (map (fun _ : N => 0) l)).
    { intros l k. apply Forall_forall. intros y Hy. apply in_map_iff in Hy as (_ & <- & _). apply pow_pos. }
    destruct (d_data d) as [v|l|l|l]; [easy| | |easy].
    + destruct H as (S1 & S2 & Ln & F & R). repeat (split; [assumption|]). split; [now unfold len in *; rewrite map_length|].
      split; [apply Z|]. intros i _. rewrite nth_map0. apply N.mod_0_l. apply N.pow_nonzero. lia.
    + destruct H as (Ln & F & R). split; [now unfold len in *; rewrite map_length|].
      split; [apply Z|]. intros i _. rewrite nth_map0. apply N.mod_0_l. apply N.pow_nonzero. lia.
Qed.

Lemma loose_history probe ops : forall a iw dw g a', loose a iw dw g -> Forall arr_any ops ->
  arr_run_all probe Release a ops = Ok a' ->
  loose a' iw dw (fold_left (loose_step dw) ops g) /\ index_end a' = index_end a.
Proof.
  induction ops as [|op ops IH]; intros a iw dw g a' L F E; cbn [arr_run_all fold_left] in *.
  - injection E as <-. auto.
  - inversion_clear F as [|? ? F1 F2]. destruct (arr_run probe Release a op) as [a1|] eqn:E1; [|discriminate].
    cbn [bind] in E.
    assert (L1 : loose a1 iw dw (loose_step dw g op) /\ index_end a1 = index_end a).
    { destruct op as [i x|]; cbn [arr_run arr_any] in *.
      - destruct F1 as (Wi & Wx). now apply (loose_store probe a iw dw g i x).
      - injection E1 as <-. cbn [loose_step]. eapply loose_clear; eauto. }
    destruct L1 as (L1 & X1). destruct (IH _ _ _ _ _ L1 F2 E) as (L2 & X2). split; auto. congruence.
Qed.

Lemma loose_widths a iw dw g : loose a iw dw g -> array_index_width a = iw /\ array_data_width a = dw.
Proof. intros (_ & _ & H). destruct a; cbn; tauto. Qed.

Lemma misuse_words probe ho a iw dw f ops a' : hashing probe -> reorders ho ->
  built probe ho Release a iw dw f -> iw <= 64 -> dw <= 64 -> (dw = 1 -> array_is_dense a = false) ->
  Forall arr_any ops -> arr_run_all probe Release a ops = Ok a' ->
  arr_is probe Release a' iw dw (fold_left (loose_step dw) ops f)
  /\ (forall i, wf i -> uval i < 2 ^ iw ->
        yields (array_select probe Release a' i) dw (fold_left (loose_step dw) ops f (uval i)))
  /\ (forall i, wf i -> (panics (array_select probe Release a' i) <-> index_end a <= uval i))
  /\ (forall i x, wf i -> wf x ->
        (panics (array_store probe Release a' i x) <-> index_end a <= uval i \/ 2 ^ 64 <= uval x)).
Proof.
  intros P Ho B I D Hb F E. apply built_inv in B; auto.
  assert (L := loose_built a iw dw f B I D Hb).
  destruct (loose_history probe ops a iw dw f a' L F E) as (L' & X). rewrite <- X. clear L X E.
  assert (R : forall i, wf i -> uval i < 2 ^ iw ->
        yields (array_select probe Release a' i) dw (fold_left (loose_step dw) ops f (uval i))).
  { intros i Wi. now apply loose_select. }
  split; [|split; [exact R|split]].
  - destruct (loose_widths _ _ _ _ L') as (E1 & E2). split; auto. split; auto.
    intros i Wi Ei. apply R; auto. rewrite <- Ei. apply (is_bv_inv _ _ _ (wf_is_bv i Wi)).
  - intros i Wi. apply settles_iff. eapply loose_select; eauto.
  - intros i x Wi Wx. apply settles_iff. eapply loose_store; eauto.
Qed.

(** ** Dense arrays of one-bit elements *)

Definition loose_bits (a : array) (iw : N) (g : N -> N) : Prop :=
  exists v, a = ADense (mkdense iw 1 (DBit v)) /\ iw < 32 /\ width v = 2 ^ iw
    /\ Words (words v) /\ len (words v) = (2 ^ iw + 63) / 64
    /\ forall i, i < 2 ^ iw -> (if N.testbit (uval v) i then 1 else 0) = g i.

Lemma bits_built a iw f : array_inv a iw 1 f -> array_is_dense a = true -> loose_bits a iw f.
Proof.
  intros H D. destruct a as [s|d]; [discriminate|]. destruct H as (W & E1 & E2 & F).
  destruct W as ((I & _) & D0 & D32 & L & S). destruct d as [iw' dw' data]. cbn [d_iw d_dw d_data] in *. subst iw' dw'.
  unfold delem in F. cbn [d_data] in F. destruct data as [v|l|l|l]; [|lia|lia|lia].
  destruct S as (_ & I32 & W & WW). exists v. split; auto. split; auto. split; auto.
  destruct (is_bv_inv _ _ _ (wf_is_bv v W)) as (_ & _ & Ln & Fw & _). rewrite WW in Ln. auto.
Qed.

Lemma as_u32_mod x : as_u32 x = x mod 2 ^ 32.
Proof. reflexivity. Qed.
Lemma mod32 x : x mod 2 ^ 32 < 2 ^ 32.
Proof. apply N.mod_lt. discriminate. Qed.

Lemma bit_end_word iw p : bit_index_end iw <= p \/ p / 64 < (2 ^ iw + 63) / 64.
Proof.
  unfold bit_index_end. generalize (2 ^ iw). intros n.
  destruct (N.le_gt_cases (64 * ((n + 63) / 64)) p) as [H|H]; [now left|right].
  generalize dependent ((n + 63) / 64). intros q H. apply N.div_lt_upper_bound; lia.
Qed.
Lemma bit_end_beyond iw p : bit_index_end iw <= p -> (2 ^ iw + 63) / 64 <= p / 64.
Proof.
  unfold bit_index_end. generalize ((2 ^ iw + 63) / 64). intros q H.
  apply N.div_le_lower_bound; lia.
Qed.
Lemma bit_end_in iw p : p < 2 ^ iw -> p / 64 < (2 ^ iw + 63) / 64.
Proof. generalize (2 ^ iw). intros n H. dlia. Qed.

Lemma bits_select probe a iw g i : loose_bits a iw g -> wf i ->
  (uval i < 2 ^ 64 -> uval i mod 2 ^ 32 < 2 ^ iw ->
     yields (array_select probe Release a i) 1 (g (uval i mod 2 ^ 32)))
  /\ settles (2 ^ 64 <= uval i \/ bit_index_end iw <= uval i mod 2 ^ 32) (array_select probe Release a i).
Proof.
  intros (v & -> & I & Wv & Fw & Ln & R) W. cbn [array_select]. unfold dense_select. cbn [debug_assert bind].
  destruct (lt64_dec (uval i)) as [L|L].
  2:{ split; [intros X; exfalso; now apply N.lt_nge in X|]. apply settles_panic; auto.
      rewrite unwrap_large by auto. eexists. reflexivity. }
  rewrite unwrap_wf by auto. cbn [bind]. unfold dense_select_usize. cbn [d_data]. rewrite as_u32_mod.
  set (p := uval i mod 2 ^ 32). unfold bv_is_bit_set. split.
  - intros _ Hp. rewrite is_bit_set_words by (auto; rewrite Ln; now apply bit_end_in). cbn [bind].
    destruct (bool_cases Release (N.testbit (wv (words v)) p)) as (b & -> & B & _).
    exists b. split; auto. rewrite <- R by auto. exact B.
  - destruct (bit_end_word iw p) as [H|H].
    + apply settles_panic; auto. unfold ar_is_bit_set. rewrite idx_panic by (rewrite Ln; now apply bit_end_beyond).
      eexists. reflexivity.
    + rewrite is_bit_set_words by (auto; rewrite Ln; auto). cbn [bind].
      destruct (bool_cases Release (N.testbit (wv (words v)) p)) as (b & -> & _). eapply settles_ok; [|reflexivity].
      apply N.lt_nge in L. intros [X|X]; [contradiction|]. apply bit_end_beyond in X. clear - X H. lia.
Qed.

Lemma bits_store probe a iw g i x : loose_bits a iw g -> wf i -> wf x ->
  settles (2 ^ 64 <= uval i \/ bit_index_end iw <= uval i mod 2 ^ 32) (array_store probe Release a i x)
  /\ forall a', array_store probe Release a i x = Ok a' -> loose_bits a' iw (loose_bit_step g (AStore i x)).
Proof.
  intros (v & -> & I & Wv & Fw & Ln & R) W Wx. cbn [array_store]. unfold dense_store. cbn [debug_assert bind].
  destruct (lt64_dec (uval i)) as [L|L].
  2:{ rewrite unwrap_large by auto. split; [apply settles_panic; auto; eexists; reflexivity|discriminate]. }
  rewrite unwrap_wf by auto. cbn [bind d_data d_dw d_iw]. rewrite as_u32_mod.
  rewrite (is_tru_ok x (width x) (uval x) (wf_is_bv x Wx)). cbn [bind].
  cbn [loose_bit_step]. set (p := uval i mod 2 ^ 32) in *.
  set (b := (width x =? 1) && (uval x =? 1)).
  assert (Hb : (if b then 1 else 0) = if width x =? 1 then uval x else 0).
  { unfold b. destruct (width x =? 1) eqn:E1; [|reflexivity]. cbn [andb].
    assert (U : uval x < 2 ^ 1).
    { apply N.eqb_eq in E1. rewrite <- E1. apply (is_bv_inv _ _ _ (wf_is_bv x Wx)). }
    change (2 ^ 1) with 2 in U. destruct (uval x =? 1) eqn:E2; lia. }
  rewrite <- Hb. clear Hb.
  assert (G : settles (2 ^ 64 <= uval i \/ bit_index_end iw <= p)
                (if b then bv_set_bit v p else bv_clear_bit v p)
    /\ forall v', (if b then bv_set_bit v p else bv_clear_bit v p) = Ok v' ->
         width v' = 2 ^ iw /\ Words (words v') /\ len (words v') = (2 ^ iw + 63) / 64
         /\ forall j, N.testbit (uval v') j = if j =? p then b else N.testbit (uval v) j).
  { destruct (bit_end_word iw p) as [H|H].
    - assert (X : panics (if b then bv_set_bit v p else bv_clear_bit v p)).
      { unfold bv_set_bit, bv_clear_bit, ar_set_bit, ar_clear_bit.
        rewrite idx_panic by (rewrite Ln; now apply bit_end_beyond).
        destruct b; eexists; reflexivity. }
      split; [apply settles_panic; auto|]. intros v' E. destruct X as (q & X). congruence.
    - assert (NP : ~ (2 ^ 64 <= uval i \/ bit_index_end iw <= p)).
      { apply N.lt_nge in L. intros [X|X]; [contradiction|]. apply bit_end_beyond in X. clear - X H. lia. }
      destruct (set_bit_words (words v) p Fw) as (l1 & A1 & A2 & A3 & A4); [rewrite Ln; auto|].
      destruct (clear_bit_words (words v) p Fw) as (l2 & B1 & B2 & B3 & B4); [rewrite Ln; auto|].
      unfold bv_set_bit, bv_clear_bit. rewrite A1, B1. cbn [bind].
      destruct b; (split; [eapply settles_ok; [exact NP|reflexivity]|]); intros v' E; injection E as <-;
        cbn [words width]; (split; [assumption|split; [assumption|split; [congruence|]]]); intros j; unfold uval; cbn [words]; auto. }
  destruct G as (G1 & G2). split.
  - apply settles_then; [|apply settles_then; [|apply settles_then; [|exact G1]]]; intros; eexists; reflexivity.
  - intros a'. destruct (if b then bv_set_bit v p else bv_clear_bit v p) as [v'|]; [|discriminate].
    cbn [bind]. intros E. injection E as <-. destruct (G2 v' eq_refl) as (X1 & X2 & X3 & X4).
    exists v'. repeat (split; [now auto|]). intros j Hj. rewrite X4.
    destruct (j =? p); [now destruct b|]. now apply R.
Qed.

Lemma bits_clear a iw g : loose_bits a iw g -> loose_bits (array_clear a) iw (fun _ => 0).
Proof.
  intros (v & -> & I & Wv & Fw & Ln & R). eexists. split; [reflexivity|]. split; auto.
  unfold bv_clear. cbn [width words]. split; auto. split; [now apply Words_map0|].
  split; [now unfold len in *; rewrite map_length|]. intros i _. unfold uval. cbn [words]. now rewrite wv_map0, N.bits_0.
Qed.

Lemma bits_history probe ops : forall a iw g a', loose_bits a iw g -> Forall arr_any ops ->
  arr_run_all probe Release a ops = Ok a' -> loose_bits a' iw (fold_left loose_bit_step ops g).
Proof.
  induction ops as [|op ops IH]; intros a iw g a' L F E; cbn [arr_run_all fold_left] in *.
  - injection E as <-. auto.
  - inversion_clear F as [|? ? F1 F2]. destruct (arr_run probe Release a op) as [a1|] eqn:E1; [|discriminate].
    cbn [bind] in E. eapply IH; eauto. destruct op as [i x|]; cbn [arr_run arr_any] in *.
    + destruct F1 as (Wi & Wx). now apply (bits_store probe a iw g i x).
    + injection E1 as <-. cbn [loose_bit_step]. eapply bits_clear; eauto.
Qed.

Lemma misuse_bits probe ho a iw f ops a' : hashing probe -> reorders ho ->
  built probe ho Release a iw 1 f -> array_is_dense a = true ->
  Forall arr_any ops -> arr_run_all probe Release a ops = Ok a' ->
  arr_is probe Release a' iw 1 (fold_left loose_bit_step ops f)
  /\ (forall i, wf i -> uval i < 2 ^ 64 -> uval i mod 2 ^ 32 < 2 ^ iw ->
        yields (array_select probe Release a' i) 1 (fold_left loose_bit_step ops f (uval i mod 2 ^ 32)))
  /\ (forall i, wf i ->
        (panics (array_select probe Release a' i) <-> 2 ^ 64 <= uval i \/ bit_index_end iw <= uval i mod 2 ^ 32))
  /\ (forall i x, wf i -> wf x ->
        (panics (array_store probe Release a' i x) <-> 2 ^ 64 <= uval i \/ bit_index_end iw <= uval i mod 2 ^ 32)).
Proof.
  intros P Ho B D F E. apply built_inv in B; auto.
  assert (L := bits_history probe ops a iw f a' (bits_built a iw f B D) F E).
  assert (R : forall i, wf i -> uval i < 2 ^ 64 -> uval i mod 2 ^ 32 < 2 ^ iw ->
        yields (array_select probe Release a' i) 1 (fold_left loose_bit_step ops f (uval i mod 2 ^ 32))).
  { intros i Wi. now apply bits_select. }
  split; [|split; [exact R|split]].
  - destruct L as (v & Ea & I & _). split; [now rewrite Ea|]. split; [now rewrite Ea|].
    intros i Wi Ei. assert (U : uval i < 2 ^ iw) by (rewrite <- Ei; apply (is_bv_inv _ _ _ (wf_is_bv i Wi))).
    assert (U32 : uval i < 2 ^ 32) by (eapply N.lt_le_trans; [exact U|apply pow_le; lia]).
    assert (Ri := R i Wi). rewrite N.mod_small in Ri by exact U32. apply Ri; auto.
    eapply N.lt_trans; [exact U32|reflexivity].
  - intros i Wi. apply settles_iff. eapply bits_select; eauto.
  - intros i x Wi Wx. apply settles_iff. eapply bits_store; eauto.
Qed.

(** ** Dense arrays of wide elements *)

Definition loose_wide (a : array) (iw dw : N) (g : N -> N) : Prop :=
  exists l, a = ADense (mkdense iw dw (DBig l)) /\ 64 < dw /\ iw < 64
    /\ len l = (dw + 63) / 64 * 2 ^ iw /\ (dw + 63) / 64 * 2 ^ iw < 2 ^ 64 /\ Words l
    /\ forall i, i < 2 ^ iw ->
         wv (firstn (N.to_nat ((dw + 63) / 64)) (skipn (N.to_nat ((dw + 63) / 64 * i)) l)) = g i.

Lemma wide_built a iw dw f : array_inv a iw dw f -> array_is_dense a = true -> 64 < dw -> loose_wide a iw dw f.
Proof.
  intros H D H64. destruct a as [s|d]; [discriminate|]. destruct H as (W & E1 & E2 & F).
  destruct W as ((I & _) & D0 & D32 & L & S). destruct d as [iw' dw' data]. cbn [d_iw d_dw d_data] in *. subst iw' dw'.
  unfold delem in F. cbn [d_data d_dw] in F. destruct data as [v|l|l|l]; [lia|lia|lia|].
  destruct S as (_ & S1 & S2 & S3). exists l. split; [reflexivity|]. repeat (split; [assumption|]). exact F.
Qed.

Lemma index_in_reach dw iw i : (dw + 63) / 64 * 2 ^ iw < 2 ^ 64 -> i < 2 ^ iw -> reachable_index dw i.
Proof.
  unfold reachable_index. generalize ((dw + 63) / 64). intros k H Hi.
  apply N.le_trans with (k * 2 ^ iw); [apply N.mul_le_mono_l|apply N.lt_le_incl; exact H].
  clear - Hi. lia.
Qed.

Lemma wide_range {A} k n i (l : list A) : 0 < k -> len l = k * n -> k * (i + 1) <= 2 ^ 64 ->
  usz_mul Release k i = Ok (k * i)
  /\ (i < n -> range l (k * i) (k * i + k) = Ok (firstn (N.to_nat k) (skipn (N.to_nat (k * i)) l)))
  /\ (n <= i -> panics (range l (k * i) (k * i + k))).
Proof.
  intros K Ln H. split; [|split].
  - apply usz_mul_ok. clear - K H. lia.
  - intros Hi. assert (Bl := mul_block k i n Hi). rewrite range_ok by lia.
    now replace (k * i + k - k * i) with k by lia.
  - intros Hi. unfold range. replace ((k * i <=? k * i + k) && (k * i + k <=? len l)) with false; [eexists; reflexivity|].
    assert (k * n <= k * i) by (now apply N.mul_le_mono_l). lia.
Qed.

Lemma wide_select_loose probe a iw dw g i : loose_wide a iw dw g -> wf i -> uval i < 2 ^ 64 ->
  reachable_index dw (uval i) ->
  (uval i < 2 ^ iw -> exists v, array_select probe Release a i = Ok v /\ width v = dw /\ uval v = g (uval i))
  /\ (2 ^ iw <= uval i -> panics (array_select probe Release a i)).
Proof.
  intros (l & -> & D & I & Ln & Sz & Fw & R) W L Rc. cbn [array_select]. unfold dense_select. cbn [debug_assert bind].
  rewrite unwrap_wf by auto. cbn [bind]. unfold dense_select_usize. cbn [d_data d_dw].
  unfold words_per_element. rewrite div_ceil_eq.
  assert (K : 0 < (dw + 63) / 64) by dlia.
  destruct (wide_range _ _ _ l K Ln Rc) as (-> & R1 & R2). cbn [bind]. split; intros Hi.
  - rewrite R1 by auto. cbn [bind]. eexists. split; [reflexivity|]. split; [reflexivity|]. now apply R.
  - destruct (R2 Hi) as (p & ->). eexists. reflexivity.
Qed.

Lemma wide_store_loose probe a iw dw g i x : loose_wide a iw dw g -> wf i -> wf x -> uval i < 2 ^ 64 ->
  reachable_index dw (uval i) ->
  settles (2 ^ iw <= uval i \/ (width x + 63) / 64 <> (dw + 63) / 64) (array_store probe Release a i x)
  /\ forall a', array_store probe Release a i x = Ok a' -> loose_wide a' iw dw (arr_step g (AStore i x)).
Proof.
  intros (l & -> & D & I & Ln & Sz & Fw & R) W Wx L Rc. cbn [array_store]. unfold dense_store. cbn [debug_assert bind].
  rewrite unwrap_wf by auto. cbn [bind d_data d_dw d_iw].
  unfold words_per_element. rewrite div_ceil_eq.
  assert (K : 0 < (dw + 63) / 64) by dlia.
  destruct (is_bv_inv _ _ _ (wf_is_bv x Wx)) as (_ & _ & Lx & Fx & Vx & _).
  destruct (wide_range _ _ _ l K Ln Rc) as (-> & R1 & R2). cbn [bind].
  destruct (N.le_gt_cases (2 ^ iw) (uval i)) as [Hi|Hi].
  { destruct (R2 Hi) as (p & ->). split; [apply settles_panic; [now left|eexists; reflexivity]|discriminate]. }
  rewrite R1 by auto. cbn [bind]. unfold bv_assign. cbn [debug_assert bind words width].
  set (k := (dw + 63) / 64) in *.
  assert (Bl := mul_block k (uval i) _ Hi).
  rewrite len_firstn by (rewrite len_skipn; clear - Bl Ln; lia). rewrite N2Nat.id.
  unfold assert. rewrite Lx. destruct (k =? (width x + 63) / 64) eqn:E; cbn [bind].
  2:{ split; [apply settles_panic; [right; apply N.eqb_neq in E; congruence|eexists; reflexivity]|discriminate]. }
  apply N.eqb_eq in E. split.
  { eapply settles_ok; [|reflexivity]. apply N.lt_nge in Hi. intros [X|X]; [contradiction|congruence]. }
  intros a' Ea. injection Ea as <-.
  assert (Lxk : len (words x) = k) by (rewrite Lx; auto).
  eexists. split; [reflexivity|]. fold k. split; [assumption|]. split; [assumption|].
  split; [rewrite splice_len; [exact Ln|clear - Bl Ln Lxk; lia]|]. split; [assumption|]. split; [now apply Words_splice|].
  intros j Hj. rewrite (block_splice l k (uval i) j (words x) (2 ^ iw)) by auto.
  cbn [arr_step]. destruct (j =? uval i); auto.
Qed.

Lemma wide_clear_loose a iw dw g : loose_wide a iw dw g -> loose_wide (array_clear a) iw dw (fun _ => 0).
Proof.
  intros (l & -> & D & I & Ln & Sz & Fw & R). eexists. split; [reflexivity|]. split; [assumption|]. split; [assumption|].
  split; [now unfold len in *; rewrite map_length|]. split; [assumption|]. split; [now apply Words_map0|].
  intros i _. rewrite skipn_map, firstn_map. apply wv_map0.
Qed.

Lemma wide_history_loose probe ops : forall a iw dw g a', loose_wide a iw dw g -> Forall (arr_reaches dw) ops ->
  arr_run_all probe Release a ops = Ok a' -> loose_wide a' iw dw (fold_left arr_step ops g).
Proof.
  induction ops as [|op ops IH]; intros a iw dw g a' L F E; cbn [arr_run_all fold_left] in *.
  - injection E as <-. auto.
  - inversion_clear F as [|? ? F1 F2]. destruct (arr_run probe Release a op) as [a1|] eqn:E1; [|discriminate].
    cbn [bind] in E. eapply IH; eauto. destruct op as [i x|]; cbn [arr_run arr_reaches] in *.
    + destruct F1 as (Wi & Wx & U & Rc). now apply (wide_store_loose probe a iw dw g i x).
    + injection E1 as <-. cbn [arr_step]. eapply wide_clear_loose; eauto.
Qed.

Lemma misuse_wide probe ho a iw dw f ops a' : hashing probe -> reorders ho ->
  built probe ho Release a iw dw f -> array_is_dense a = true -> 64 < dw ->
  Forall (arr_reaches dw) ops -> arr_run_all probe Release a ops = Ok a' ->
  (forall i, wf i -> uval i < 2 ^ iw ->
     exists v, array_select probe Release a' i = Ok v /\ width v = dw
       /\ uval v = fold_left arr_step ops f (uval i))
  /\ (forall i, wf i -> uval i < 2 ^ 64 -> reachable_index dw (uval i) ->
        (panics (array_select probe Release a' i) <-> 2 ^ iw <= uval i))
  /\ (forall i x, wf i -> wf x -> uval i < 2 ^ 64 -> reachable_index dw (uval i) ->
        (panics (array_store probe Release a' i x)
         <-> 2 ^ iw <= uval i \/ (width x + 63) / 64 <> (dw + 63) / 64)).
Proof.
  intros P Ho B D H64 F E. apply built_inv in B; auto.
  assert (L := wide_history_loose probe ops a iw dw f a' (wide_built a iw dw f B D H64) F E).
  assert (Sz : iw < 64 /\ (dw + 63) / 64 * 2 ^ iw < 2 ^ 64) by (destruct L as (l & _ & _ & ? & _ & ? & _); auto).
  assert (In64 : forall i, i < 2 ^ iw -> i < 2 ^ 64).
  { intros i Hi. eapply N.lt_le_trans; [exact Hi|apply pow8_64; lia]. }
  split; [|split].
  - intros i Wi Hi. apply (wide_select_loose probe a' iw dw); auto. eapply index_in_reach; [apply Sz|exact Hi].
  - intros i Wi Hi Rc. destruct (wide_select_loose probe a' iw dw _ i L Wi Hi Rc) as (A & C). split; auto.
    intros (p & X). destruct (N.le_gt_cases (2 ^ iw) (uval i)) as [Y|Y]; auto.
    destruct (A Y) as (v & Ev & _). congruence.
  - intros i x Wi Wx Hi Rc. apply settles_iff. eapply wide_store_loose; eauto.
Qed.

(** ** What goes wrong *)

Lemma new_bits probe ho m : built probe ho m (ADense (mkdense 2 1 (DBit (bv_of 4 0)))) 2 1 (fun _ => 0).
Proof.
  refine (built_dense probe ho m 2 (bv_of 1 0) _ _ _ _ _); try reflexivity.
  - apply bv_of_is_bv; reflexivity.
  - split; [reflexivity|]. intros _. reflexivity.
  - destruct m; reflexivity.
Qed.

Lemma four j : wf j -> width j = 2 -> j = bv_of 2 0 \/ j = bv_of 2 1 \/ j = bv_of 2 2 \/ j = bv_of 2 3.
Proof.
  intros W E. assert (H := wf_is_bv j W). rewrite E in H. assert (U : uval j < 4) by exact (is_bv_lt _ _ _ H).
  rewrite (is_bv_unique _ _ _ _ H (bv_of_is_bv 2 (uval j) ltac:(reflexivity) U)).
  assert (C : uval j = 0 \/ uval j = 1 \/ uval j = 2 \/ uval j = 3) by lia.
  destruct C as [C|[C|[C|C]]]; rewrite C; auto.
Qed.

(** An index 2^32 + 1 hits the element at 1; storing a one of two bits stores 0. *)
Lemma bits_refuted probe ho : exists a i x y a1 a2, built probe ho Release a 2 1 (fun _ => 0)
  /\ wf i /\ wf x /\ wf y /\ uval i = 2 ^ 32 + 1 /\ uval x = 1 /\ uval y = 1
  /\ array_store probe Release a i x = Ok a1 /\ array_select probe Release a1 (bv_of 2 1) = Ok (bv_of 1 1)
  /\ array_store probe Release a (bv_of 2 1) y = Ok a2
  /\ array_select probe Release a2 (bv_of 2 1) = Ok (bv_of 1 0).
Proof.
  exists (ADense (mkdense 2 1 (DBit (bv_of 4 0)))), (bv_of 33 (2 ^ 32 + 1)), (bv_of 1 1), (bv_of 2 1). eexists _, _.
  split; [apply new_bits|]. split; [apply bv_of_is_bv; reflexivity|]. split; [apply bv_of_is_bv; reflexivity|].
  split; [apply bv_of_is_bv; reflexivity|]. repeat (split; [reflexivity|]). reflexivity.
Qed.

(** Two arrays with the same elements that are not equal. *)
Lemma equal_refuted probe ho : exists a a1 a2 i x y, built probe ho Release a 2 4 (fun _ => 3)
  /\ wf i /\ wf x /\ wf y /\ array_store probe Release a i x = Ok a1 /\ array_store probe Release a i y = Ok a2
  /\ (forall j, wf j -> width j = 2 -> array_select probe Release a1 j = array_select probe Release a2 j)
  /\ array_eq ho Release a1 a2 = Ok false.
Proof.
  exists (ADense (mkdense 2 4 (DU8 [3; 3; 3; 3]))). eexists _, _. exists (bv_of 2 1), (bv_of 8 200), (bv_of 4 8).
  split.
  { refine (built_dense probe ho Release 2 (bv_of 4 3) _ _ _ _ _); try reflexivity.
    - apply bv_of_is_bv; reflexivity.
    - split; [reflexivity|]. discriminate. }
  do 3 (split; [apply bv_of_is_bv; reflexivity|]). split; [reflexivity|]. split; [reflexivity|].
  split; [|reflexivity]. intros j W E. destruct (four j W E) as [->|[->|[->| ->]]]; reflexivity.
Qed.

(** A dense array returns an element that is not a valid bit-vector; an index
    2^63 hits the element at 0. *)
Lemma wide_dense_refuted probe ho : exists a i x a1 v j y a2, built probe ho Release a 1 70 (fun _ => 0)
  /\ wf i /\ wf x /\ array_store probe Release a i x = Ok a1 /\ array_select probe Release a1 i = Ok v /\ ~ wf v
  /\ wf j /\ wf y /\ uval j = 2 ^ 63 /\ width y = 70 /\ array_store probe Release a j y = Ok a2
  /\ array_select probe Release a2 (bv_of 1 0) = Ok y /\ uval y <> 0.
Proof.
  exists (ADense (mkdense 1 70 (DBig [0; 0; 0; 0]))), (bv_of 1 1), (bv_of 80 (2 ^ 79)). eexists _, _.
  exists (bv_of 64 (2 ^ 63)), (bv_of 70 9). eexists.
  split.
  { refine (built_dense probe ho Release 1 (bv_of 70 0) _ _ _ _ _); try reflexivity.
    - apply bv_of_is_bv; reflexivity.
    - split; [reflexivity|]. discriminate. }
  do 2 (split; [apply bv_of_is_bv; reflexivity|]). split; [reflexivity|]. split; [reflexivity|].
  split; [intros (_ & _ & _ & H); vm_compute in H; discriminate H|].
  do 2 (split; [apply bv_of_is_bv; reflexivity|]). repeat (split; [reflexivity|]). discriminate.
Qed.

(** A sparse array returns an element of the wrong width. *)
Lemma wide_sparse_refuted probe ho : exists a x a1, built probe ho Release a 2 70 (fun _ => 1)
  /\ wf x /\ width x = 10 /\ array_store probe Release a (bv_of 2 1) x = Ok a1
  /\ array_select probe Release a1 (bv_of 2 1) = Ok x.
Proof.
  exists (ASparse (mksparse 2 70 (SU64Big (bv_of 70 1) []))), (bv_of 10 3). eexists.
  split.
  { refine (built_sparse probe ho Release 2 (bv_of 70 1) _ _ _ _ _); try reflexivity. apply bv_of_is_bv; reflexivity. }
  split; [apply bv_of_is_bv; reflexivity|]. repeat (split; [reflexivity|]). reflexivity.
Qed.

(** An entry beyond the last index: the elements are as before, but the array
    differs from the one before, lists the entry, and cannot be made dense. *)
Lemma hidden_refuted probe ho : reorders ho -> exists a i x s, built probe ho Release a 2 8 (fun _ => 1)
  /\ wf i /\ wf x /\ uval i = 77 /\ array_store probe Release a i x = Ok (ASparse s)
  /\ arr_is probe Release (ASparse s) 2 8 (fun _ => 1)
  /\ array_eq ho Release a (ASparse s) = Ok false
  /\ sparse_entries ho Release s = Ok [(bv_of 2 1, bv_of 8 3)]
  /\ panics (array_make_dense ho Release (ASparse s)).
Proof.
  intros Ho. exists (ASparse (mksparse 2 8 (SU64U64 1 []))), (bv_of 8 77), (bv_of 8 3), (mksparse 2 8 (SU64U64 1 [(77, 3)])).
  assert (B : built probe ho Release (ASparse (mksparse 2 8 (SU64U64 1 []))) 2 8 (fun _ => 1)).
  { refine (built_sparse probe ho Release 2 (bv_of 8 1) _ _ _ _ _); try reflexivity. apply bv_of_is_bv; reflexivity. }
  assert (H1 : ho _ [(77, 3)] = [(77, 3)]).
  { apply Permutation_length_1_inv. apply Ho. }
  split; [exact B|]. do 2 (split; [apply bv_of_is_bv; reflexivity|]). split; [reflexivity|]. split; [reflexivity|].
  split; [|split; [reflexivity|split]].
  - split; [reflexivity|]. split; [reflexivity|]. intros j W E. exists (bv_of 8 1). split; [|apply bv_of_is_bv; reflexivity].
    destruct (four j W E) as [->|[->|[->| ->]]]; reflexivity.
  - unfold sparse_entries. cbn [s_data]. rewrite H1. reflexivity.
  - eexists. unfold array_make_dense, dense_of_sparse. cbn [s_data s_dw s_iw sparse_default].
    rewrite H1. reflexivity.
Qed.
