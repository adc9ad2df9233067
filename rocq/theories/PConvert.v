(** * PConvert: conversions between dense and sparse arrays (C39 - C41). *)

From Coq Require Import ZifyBool ZifyNat ZifyN Permutation.
From Verif Require Import Base Arith Map Bv Array Spec ArraySpec.
From Verif Require Import PWords PArith PShift PropsArith PConv PCompare PIo PRegister PStore PDense PSparse.

Ltac Zify.zify_post_hook ::= idtac.

(** ** Sparse to dense *)
Lemma densify_is_store m d k v : dense_wf d -> d_dw d <= 64 -> k < 2 ^ d_iw d -> v < 2 ^ d_dw d ->
  dense_store m d (bv_of (d_iw d) k) (bv_of (d_dw d) v)
  = let* data := densify_step_u64 (d_data d) (k, v) m in Ok (mkdense (d_iw d) (d_dw d) data).
Proof.
  intros W D Hk Hv. destruct W as ((I & By) & D0 & D32 & L & S).
  assert (I32 : d_iw d < 2 ^ 32) by (eapply N.lt_trans; [exact I|reflexivity]).
  assert (Bk : is_bv (bv_of (d_iw d) k) (d_iw d) k) by now apply bv_of_is_bv.
  assert (Bv : is_bv (bv_of (d_dw d) v) (d_dw d) v) by now apply bv_of_is_bv.
  unfold dense_store. rewrite !debug_assert_ok by apply N.eqb_refl.
  rewrite (unwrap_u64 _ _ _ Bk) by (eapply index_lt; eauto). cbn [bind].
  unfold densify_step_u64.
  destruct (d_data d) as [b|l|l|l].
  - rewrite (is_tru_ok _ _ _ Bv). destruct S as (E1 & _). rewrite E1 in *. cbn [bind].
    change (1 =? 1) with true. cbn [andb]. change (2 ^ 1) with 2 in Hv.
    destruct (v =? 1) eqn:E; [destruct (bv_set_bit b (as_u32 k)); reflexivity|].
    rewrite debug_assert_ok by lia. cbn [bind]. destruct (bv_clear_bit b (as_u32 k)); reflexivity.
  - rewrite (unwrap_u64 _ _ _ Bv) by (eapply N.lt_le_trans; [exact Hv|apply pow8_64; lia]). cbn [bind].
    destruct (set_idx l k (as_u8 v)); reflexivity.
  - rewrite (unwrap_u64 _ _ _ Bv) by (eapply N.lt_le_trans; [exact Hv|apply pow8_64; lia]). cbn [bind].
    destruct (set_idx l k v); reflexivity.
  - lia.
Qed.

Lemma densify_u64_ok m iw dw data k v : dense_wf (mkdense iw dw data) -> dw <= 64 ->
  k < 2 ^ iw -> v < 2 ^ dw ->
  exists data', densify_step_u64 data (k, v) m = Ok data' /\ dense_wf (mkdense iw dw data')
    /\ forall j, j < 2 ^ iw -> delem (mkdense iw dw data') j = if j =? k then v else delem (mkdense iw dw data) j.
Proof.
  intros W D Hk Hv. set (d := mkdense iw dw data) in *.
  assert (I32 : iw < 2 ^ 32) by (destruct W as ((I & _) & _); eapply N.lt_trans; [exact I|reflexivity]).
  assert (D32 : dw < 2 ^ 32) by apply W.
  destruct (dense_store_ok m d (bv_of iw k) k (bv_of dw v) v W) as (d' & E & W' & E1 & E2 & El);
    [now apply bv_of_is_bv|now apply bv_of_is_bv|].
  assert (X := densify_is_store m d k v W D Hk Hv). cbn [d d_iw d_dw d_data] in *. rewrite E in X.
  destruct (densify_step_u64 data (k, v) m) as [data'|]; [|discriminate]. cbn [bind] in X. injection X as ->.
  exists data'. auto.
Qed.

Lemma densify_fold_u64 m iw dw es : dw <= 64 -> forall data, dense_wf (mkdense iw dw data) ->
  NoDup (map fst es) -> Forall (fun e : N * N => fst e < 2 ^ iw /\ snd e < 2 ^ dw) es ->
  exists data', foldM (fun dd kv => densify_step_u64 dd kv m) es data = Ok data'
    /\ dense_wf (mkdense iw dw data')
    /\ forall j, j < 2 ^ iw ->
         delem (mkdense iw dw data') j = unwrap_or (hm_get N.eqb es j) (delem (mkdense iw dw data) j).
Proof.
  intros D. induction es as [|[k v] t IH]; intros data W N F; cbn [foldM].
  - exists data. auto.
  - inversion N as [|? ? Nk Nt]; subst. inversion F as [|? ? (Fk & Fv) Ft]; subst. cbn [fst snd] in *.
    destruct (densify_u64_ok m iw dw data k v W D Fk Fv) as (d1 & -> & W1 & El1). cbn [bind].
    destruct (IH d1 W1 Nt Ft) as (d2 & E & W2 & El2). exists d2. split; [auto|]. split; [auto|].
    intros j Hj. rewrite El2, El1 by auto. cbn [hm_get]. rewrite (N.eqb_sym j k).
    destruct (k =? j) eqn:E1; [|reflexivity]. assert (k = j) by lia. subst.
    apply (get_none _ N_eqb_eq) in Nk. now rewrite Nk.
Qed.

(** The index register of the wide case is as wide as the data (owned.rs:452). *)
Lemma store_release_index d a b data : unwrap (bv_to_u64 a) = unwrap (bv_to_u64 b) ->
  dense_store Release d a data = dense_store Release d b data.
Proof. intros E. unfold dense_store. cbn [debug_assert bind]. now rewrite E. Qed.

Lemma densify_big_ok d ibv x k v : dense_wf d -> 64 < d_dw d -> is_bv ibv (d_dw d) x ->
  k < 2 ^ d_iw d -> has_width (d_dw d) v ->
  exists d' ibv', densify_step_big Release (d, ibv) (k, v) = Ok (d', ibv') /\ dense_wf d'
    /\ d_iw d' = d_iw d /\ d_dw d' = d_dw d /\ is_bv ibv' (d_dw d) k
    /\ forall j, j < 2 ^ d_iw d -> delem d' j = if j =? k then uval v else delem d j.
Proof.
  intros W D Hi Hk Hv. assert (I : d_iw d < 64) by apply W.
  assert (D0 : 0 < d_dw d) by apply W. assert (D32 : d_dw d < 2 ^ 32) by apply W.
  assert (I32 : d_iw d < 2 ^ 32) by (eapply N.lt_trans; [exact I|reflexivity]).
  assert (K64 : k < 2 ^ 64) by (eapply N.lt_trans; [exact Hk|now apply pow_lt]).
  assert (Kd : k < 2 ^ d_dw d) by (eapply N.lt_trans; [exact K64|now apply pow_lt]).
  unfold densify_step_big. cbn [fst snd].
  destruct (assign_from_u64_ok Release ibv _ x k Hi D0 K64 (or_introl eq_refl)) as (ibv' & -> & Hi').
  rewrite N.mod_small in Hi' by auto. cbn [bind].
  assert (Bk : is_bv (bv_of (d_iw d) k) (d_iw d) k) by now apply bv_of_is_bv.
  rewrite (store_release_index d ibv' (bv_of (d_iw d) k) v).
  2:{ rewrite (unwrap_u64 _ _ _ Hi' K64), (unwrap_u64 _ _ _ Bk K64). reflexivity. }
  destruct (dense_store_ok Release d _ _ _ _ W Bk (has_width_bv _ _ Hv)) as (d' & -> & W' & E1 & E2 & El).
  cbn [bind]. exists d', ibv'. auto 10.
Qed.

Lemma densify_fold_big es : forall d ibv x, dense_wf d -> 64 < d_dw d -> is_bv ibv (d_dw d) x ->
  NoDup (map fst es) -> Forall (fun e : N * bv => fst e < 2 ^ d_iw d /\ has_width (d_dw d) (snd e)) es ->
  exists d' ibv', foldM (densify_step_big Release) es (d, ibv) = Ok (d', ibv')
    /\ dense_wf d' /\ d_iw d' = d_iw d /\ d_dw d' = d_dw d
    /\ forall j, j < 2 ^ d_iw d ->
         delem d' j = unwrap_or (hm_get N.eqb (rename id_N uval es) j) (delem d j).
Proof.
  induction es as [|[k v] t IH]; intros d ibv x W D Hi N F; cbn [foldM].
  - exists d, ibv. auto.
  - inversion N as [|? ? Nk Nt]; subst. inversion F as [|? ? (Fk & Fv) Ft]; subst. cbn [fst snd] in *.
    destruct (densify_big_ok d ibv x k v W D Hi Fk Fv) as (d1 & i1 & -> & W1 & E1 & E2 & H1 & El1). cbn [bind].
    rewrite <- E2 in *. rewrite <- E1 in *.
    destruct (IH d1 i1 k W1 D H1 Nt Ft) as (d2 & i2 & E & W2 & E3 & E4 & El2).
    exists d2, i2. split; [auto|]. split; [auto|]. split; [auto|]. split; [auto|].
    intros j Hj. rewrite El2, El1 by auto. cbn [rename map hm_get fst snd]. unfold id_N at 2.
    rewrite (N.eqb_sym j k). fold (rename id_N uval t).
    destruct (k =? j) eqn:X; [|reflexivity]. assert (k = j) by lia. subst.
    replace (hm_get N.eqb (rename id_N uval t) j) with (@None BinNums.N); [reflexivity|].
    symmetry. apply (get_none _ N_eqb_eq). unfold rename. rewrite map_map. exact Nk.
Qed.

(** Debug builds: the very first entry trips the width assertion. *)
Lemma densify_big_debug d ibv x k v t : d_iw d <= 64 -> 64 < d_dw d -> is_bv ibv (d_dw d) x -> k < 2 ^ 64 ->
  panics (foldM (densify_step_big Debug) ((k, v) :: t) (d, ibv)).
Proof.
  intros I D Hi Hk. cbn [foldM]. unfold densify_step_big at 1. cbn [fst snd].
  destruct (assign_from_u64_ok Debug ibv _ x k Hi) as (ibv' & -> & Hi'); auto; [lia| |].
  { right. eapply N.lt_trans; [exact Hk|now apply pow_lt]. }
  cbn [bind]. unfold dense_store. destruct (is_bv_inv _ _ _ Hi') as (E & _).
  replace (width ibv' =? d_iw d) with false by lia. cbn [debug_assert bind]. eexists. reflexivity.
Qed.

Lemma get_perm_N (l l' : list (N * N)) k : Permutation l l' -> NoDup (map fst l) ->
  hm_get N.eqb l' k = hm_get N.eqb l k.
Proof. apply (get_perm _ N_eqb_eq). Qed.

(** Whatever [dense_of_sparse] returns has the same contents. *)
Lemma dense_of_sparse_inv ho m s d : reorders ho -> sparse_wf s -> addressable (s_iw s) (s_dw s) ->
  dense_of_sparse ho m s = Ok d -> dense_is d (s_iw s) (s_dw s) (selem s).
Proof.
  intros Ho W A E. unfold dense_of_sparse in E.
  destruct (default_ok m s W) as (def & Ed & Hd). rewrite Ed in E. cbn [bind] in E.
  destruct (dense_new m (s_iw s) def) as [d0|] eqn:En; [|discriminate].
  assert (Wd : width def = s_dw s) by apply Hd. assert (Ud : uval def = sdef s) by apply Hd.
  destruct W as (I32 & D0 & D32 & L & N & F & S).
  destruct (dense_new_inv m (s_iw s) def d0) as (W0 & E1 & E2 & El); auto; [apply Hd|lia|rewrite Wd; auto|].
  cbn [bind] in E. rewrite !debug_assert_ok in E by lia. cbn [bind] in E. rewrite Wd in E2. rewrite Ud in El.
  unfold selem, sent, sdef in *. destruct (s_data s) as [x l|x l|x l].
  - destruct (densify_fold_u64 m (s_iw s) (s_dw s) (ho _ l) ltac:(lia) (d_data d0)) as (data' & Ef & W' & El').
    + rewrite <- E1, <- E2. now destruct d0.
    + apply (Permutation_NoDup (Permutation_map fst (Ho _ l))). auto.
    + rewrite Forall_forall in *. intros e He. destruct (F e) as (F1 & F2 & _); auto.
      now apply (Permutation_in _ (Permutation_sym (Ho _ l))).
    + rewrite Ef in E. cbn [bind] in E. injection E as <-. rewrite E1, E2. split; [auto|].
      split; [reflexivity|]. split; [reflexivity|]. intros i Hi. rewrite El' by auto.
      rewrite (get_perm_N l (ho _ l)) by auto. f_equal.
      replace (mkdense (s_iw s) (s_dw s) (d_data d0)) with d0; [auto|]. rewrite <- E1, <- E2. now destruct d0.
  - destruct S as (S1 & S2 & Sd & Sl). destruct m.
    + destruct (ho _ l) as [|[k v] t] eqn:Eh.
      * cbn [foldM bind] in E. injection E as <-. split; [auto|]. split; [auto|]. split; [auto|].
        intros i Hi. rewrite El by auto. replace l with (@nil (BinNums.N * bv)); [reflexivity|].
        symmetry. apply Permutation_nil. rewrite <- Eh. apply Permutation_sym, Ho.
      * assert (X : panics (foldM (densify_step_big Debug) ((k, v) :: t) (d0, bv_zero (s_dw s)))).
        { apply (densify_big_debug d0 _ 0); [lia|lia|rewrite E2; now apply zero_is_bv|].
          assert (Hin : In (k, v) l) by (apply (Permutation_in _ (Permutation_sym (Ho _ l))); rewrite Eh; now left).
          rewrite Forall_forall in F.
          destruct (F (k, uval v)) as (F1 & _); [apply (in_map (fun kv => (id_N (fst kv), uval (snd kv))) _ _ Hin)|].
          eapply N.lt_le_trans; [exact F1|now apply pow_le]. }
        destruct X as (p & X). rewrite X in E. discriminate.
    + destruct (densify_fold_big (ho _ l) d0 (bv_zero (s_dw s)) 0 W0) as (d' & ibv' & Ef & W' & E3 & E4 & El').
      * lia.
      * rewrite E2. now apply zero_is_bv.
      * apply (Permutation_NoDup (Permutation_map fst (Ho _ l))). unfold rename in N. rewrite map_map in N. exact N.
      * rewrite Forall_forall in *. intros e He.
        apply (Permutation_in _ (Permutation_sym (Ho _ l))) in He. rewrite E1, E2. split; [|now apply Sl].
        apply (F (id_N (fst e), uval (snd e))). apply (in_map (fun kv => (id_N (fst kv), uval (snd kv))) _ _ He).
      * rewrite Ef in E. cbn [bind] in E. injection E as <-. split; [auto|]. split; [lia|]. split; [lia|].
        intros i Hi. rewrite El' by (rewrite E1; auto). rewrite El by auto.
        rewrite (get_perm_N (rename id_N uval l)); auto. unfold rename. apply Permutation_map, Ho.
  - discriminate.
Qed.

(** It does return, unless the data is wider than 64 bits and this is a debug build. *)
Lemma dense_of_sparse_ok ho m s : reorders ho -> sparse_wf s -> addressable (s_iw s) (s_dw s) ->
  dense_limit m (s_iw s) (s_dw s) -> s_dw s <= 64 \/ m = Release \/ sent s = [] ->
  exists d, dense_of_sparse ho m s = Ok d.
Proof.
  intros Ho W A Lm C. unfold dense_of_sparse.
  destruct (default_ok m s W) as (def & -> & Hd). cbn [bind].
  assert (Wd : width def = s_dw s) by apply Hd.
  destruct W as (I32 & D0 & D32 & L & N & F & S). assert (I64 := addressable_iw _ _ D0 A).
  destruct (dense_new_ok m (s_iw s) def) as (d0 & -> & W0 & E1 & E2 & El);
    [apply Hd|lia|rewrite Wd; auto|rewrite Wd; auto|].
  cbn [bind]. rewrite !debug_assert_ok by lia. cbn [bind]. rewrite Wd in E2.
  unfold selem, sent, sdef in *. destruct (s_data s) as [x l|x l|x l].
  - destruct (densify_fold_u64 m (s_iw s) (s_dw s) (ho _ l) ltac:(lia) (d_data d0)) as (data' & -> & _).
    + rewrite <- E1, <- E2. now destruct d0.
    + apply (Permutation_NoDup (Permutation_map fst (Ho _ l))). auto.
    + rewrite Forall_forall in *. intros e He. destruct (F e) as (F1 & F2 & _); auto.
      now apply (Permutation_in _ (Permutation_sym (Ho _ l))).
    + cbn [bind]. eauto.
  - destruct S as (S1 & S2 & Sd & Sl). destruct C as [C|[->|C]]; [lia| |].
    + destruct (densify_fold_big (ho _ l) d0 (bv_zero (s_dw s)) 0 W0) as (d' & ibv' & -> & _).
      * lia.
      * rewrite E2. now apply zero_is_bv.
      * apply (Permutation_NoDup (Permutation_map fst (Ho _ l))). unfold rename in N. rewrite map_map in N. exact N.
      * rewrite Forall_forall in *. intros e He.
        apply (Permutation_in _ (Permutation_sym (Ho _ l))) in He. rewrite E1, E2. split; [|now apply Sl].
        apply (F (id_N (fst e), uval (snd e))). apply (in_map (fun kv => (id_N (fst kv), uval (snd kv))) _ _ He).
      * cbn [bind]. eauto.
    + destruct l; [|discriminate]. assert (P := Ho _ (@nil (BinNums.N * bv))). apply Permutation_nil in P.
      rewrite P. cbn [foldM bind]. eauto.
  - lia.
Qed.

Lemma dense_of_sparse_panics ho s : reorders ho -> sparse_wf s -> s_iw s <= 64 -> 64 < s_dw s -> sent s <> [] ->
  panics (dense_of_sparse ho Debug s).
Proof.
  intros Ho W I D X. destruct (dense_of_sparse ho Debug s) as [d|p] eqn:E; [|now exists p].
  exfalso. unfold dense_of_sparse in E. destruct (default_ok Debug s W) as (def & Ed & Hd). rewrite Ed in E.
  cbn [bind] in E. destruct (dense_new Debug (s_iw s) def) as [d0|] eqn:En; [|discriminate]. cbn [bind] in E.
  destruct (debug_assert Debug (s_dw s =? d_dw d0)) eqn:A1; [|discriminate]. cbn [bind] in E.
  destruct (debug_assert Debug (s_iw s =? d_iw d0)) eqn:A2; [|discriminate]. cbn [bind] in E.
  assert (E1 : d_iw d0 = s_iw s) by (cbn [debug_assert] in A2; destruct (s_iw s =? d_iw d0) eqn:Y; [lia|discriminate]).
  assert (E2 : d_dw d0 = s_dw s) by (cbn [debug_assert] in A1; destruct (s_dw s =? d_dw d0) eqn:Y; [lia|discriminate]).
  destruct W as (I32 & D0 & D32 & L & N & F & S). unfold sent in *.
  destruct (s_data s) as [x l|x l|x l]; [lia| |discriminate].
  destruct (ho _ l) as [|[k v] t] eqn:Eh.
  - apply X. replace l with (@nil (BinNums.N * bv)); [reflexivity|].
    symmetry. apply Permutation_nil. rewrite <- Eh. apply Permutation_sym, Ho.
  - assert (Y : panics (foldM (densify_step_big Debug) ((k, v) :: t) (d0, bv_zero (s_dw s)))).
    { apply (densify_big_debug d0 _ 0); [lia|lia|rewrite E2; now apply zero_is_bv|].
      assert (Hin : In (k, v) l) by (apply (Permutation_in _ (Permutation_sym (Ho _ l))); rewrite Eh; now left).
      rewrite Forall_forall in F.
      destruct (F (k, uval v)) as (F1 & _); [apply (in_map (fun kv => (id_N (fst kv), uval (snd kv))) _ _ Hin)|].
      eapply N.lt_le_trans; [exact F1|now apply pow_le]. }
    destruct Y as (p & Y). rewrite Y in E. discriminate.
Qed.

(** ** Dense to sparse *)
Definition iota (a n : N) : list N := map N.of_nat (seq (N.to_nat a) (N.to_nat n)).

Lemma indices_iota n : indices n = iota 0 n.
Proof. reflexivity. Qed.

Lemma iota_succ a n : 0 < n -> iota a n = a :: iota (a + 1) (n - 1).
Proof.
  intros H. unfold iota. replace (N.to_nat n) with (S (N.to_nat (n - 1))) by lia. cbn [seq map].
  rewrite N2Nat.id. do 2 f_equal. f_equal. lia.
Qed.

Lemma iota_0 a : iota a 0 = [].
Proof. reflexivity. Qed.

Lemma in_iota a n x : In x (iota a n) <-> a <= x < a + n.
Proof.
  unfold iota. rewrite in_map_iff. split.
  - intros (k & <- & H). apply in_seq in H. lia.
  - intros H. exists (N.to_nat x). split; [lia|]. apply in_seq. lia.
Qed.

Lemma len_iota a n : len (iota a n) = n.
Proof. unfold iota, len. rewrite map_length, seq_length. lia. Qed.

Lemma list_ext {A} (d : A) (l l' : list A) : length l = length l' ->
  (forall i, (i < length l)%nat -> nth i l d = nth i l' d) -> l = l'.
Proof.
  revert l'; induction l as [|x t IH]; intros [|y t'] L H; cbn in L; try lia; [reflexivity|].
  f_equal.
  - apply (H 0%nat). cbn. lia.
  - apply IH; [lia|]. intros i Hi. apply (H (S i)). cbn. lia.
Qed.

Lemma map_nth_iota (l : list N) : map (fun i => nth (N.to_nat i) l 0) (iota 0 (len l)) = l.
Proof.
  unfold iota. rewrite map_map. apply (list_ext 0).
  - rewrite map_length, seq_length. unfold len. lia.
  - intros i Hi. rewrite map_length, seq_length in Hi.
    rewrite (nth_indep _ 0 (nth (N.to_nat (N.of_nat 0)) l 0)) by now rewrite map_length, seq_length.
    rewrite (map_nth (fun k => nth (N.to_nat (N.of_nat k)) l 0)). rewrite seq_nth by auto. f_equal. lia.
Qed.

Lemma combine_map_self {A B} (f : A -> B) (l : list A) : combine l (map f l) = map (fun x => (x, f x)) l.
Proof. induction l; cbn; [reflexivity|now f_equal]. Qed.

Lemma enumerate_map (l : list N) :
  enumerate l = map (fun i => (i, nth (N.to_nat i) l 0)) (iota 0 (len l)).
Proof.
  unfold enumerate. rewrite indices_iota. rewrite <- (map_nth_iota l) at 2. apply combine_map_self.
Qed.

Lemma foldM_map {A B C} (f : A -> B -> res A) (g : C -> B) l a :
  foldM f (map g l) a = foldM (fun x c => f x (g c)) l a.
Proof.
  revert a; induction l as [|c t IH]; intros a; [reflexivity|]. cbn. destruct (f a (g c)); cbn; auto.
Qed.

Lemma foldM_ext {A B} (f g : A -> B -> res A) l a : (forall x c, In c l -> f x c = g x c) ->
  foldM f l a = foldM g l a.
Proof.
  revert a; induction l as [|c t IH]; intros a H; [reflexivity|]. cbn. rewrite H by now left.
  destruct (g a c); cbn; [|reflexivity]. apply IH. intros. apply H. now right.
Qed.

(** Copying the elements that differ from the default. *)
Lemma fill_ok (step : sparse -> N -> res sparse) (f : N -> N) iw dw d0 : forall n a s,
  (forall s i, a <= i -> i < a + n -> sparse_wf s -> s_iw s = iw -> s_dw s = dw -> sdef s = d0 ->
     exists s', step s i = Ok s' /\ (f i = d0 /\ s' = s \/ wrote s s' i (f i))) ->
  sparse_wf s -> s_iw s = iw -> s_dw s = dw -> sdef s = d0 ->
  (forall j, selem s j = if j <? a then f j else d0) ->
  exists s', foldM step (iota a n) s = Ok s' /\ sparse_wf s' /\ s_iw s' = iw /\ s_dw s' = dw /\ sdef s' = d0
    /\ forall j, selem s' j = if j <? a + n then f j else d0.
Proof.
  induction n as [|n IH] using N.peano_ind; intros a s St W E1 E2 E3 El.
  - rewrite iota_0. cbn [foldM]. exists s. rewrite N.add_0_r. auto 10.
  - rewrite iota_succ by lia. cbn [foldM]. replace (N.succ n - 1) with n by lia.
    destruct (St s a) as (s1 & -> & H1); auto; try lia. cbn [bind].
    destruct (IH (a + 1) s1) as (s2 & E & W2 & F1 & F2 & F3 & El2).
    + intros s' i Hi Hi'. apply St; lia.
    + destruct H1 as [(_ & ->)|Wr]; [auto|apply Wr].
    + destruct H1 as [(_ & ->)|(_ & X & _)]; congruence.
    + destruct H1 as [(_ & ->)|(_ & _ & X & _)]; congruence.
    + destruct H1 as [(_ & ->)|(_ & _ & _ & X & _)]; congruence.
    + intros j. destruct H1 as [(X & ->)|Wr].
      * rewrite El. destruct (j <? a) eqn:Y; [replace (j <? a + 1) with true by lia; reflexivity|].
        destruct (j <? a + 1) eqn:Z; [|reflexivity]. replace j with a by lia. auto.
      * rewrite (wrote_elem s s1 _ _ _ W Wr), El.
        destruct (j =? a) eqn:Y; [replace j with a by lia; replace (a <? a + 1) with true by lia; reflexivity|].
        destruct (j <? a) eqn:Z; [replace (j <? a + 1) with true by lia|replace (j <? a + 1) with false by lia]; reflexivity.
    + exists s2. repeat (split; [now auto|]). intros j. rewrite El2.
      replace (a + 1 + n) with (a + N.succ n) by lia. reflexivity.
Qed.

Lemma store_u64_u64_ok s i x : sparse_wf s -> s_iw s <= 64 -> s_dw s <= 64 -> i < 2 ^ s_iw s -> x < 2 ^ s_dw s ->
  exists s', sparse_store_u64_u64 s i x = Ok s' /\ wrote s s' i x.
Proof.
  intros W I D Hi Hx. assert (Wr := fun d i x => wrote_intro s d i x W).
  unfold sparse_store_u64_u64. destruct W as (A & B & C & L & N & F & S). unfold sent, sdef in *.
  destruct (s_data s) as [d l|d l|d l]; [|lia|lia]. eexists. split; [reflexivity|]. apply Wr; auto.
Qed.

Lemma store_u64_big_ok m s i x : sparse_wf s -> s_iw s <= 64 -> 64 < s_dw s -> i < 2 ^ s_iw s ->
  has_width (s_dw s) x ->
  exists s', sparse_store_u64_big m s i x = Ok s' /\ wrote s s' i (uval x).
Proof.
  intros W I D Hi Hx. assert (Hb := has_width_bv _ _ Hx).
  assert (I32 : s_iw s < 2 ^ 32) by (eapply N.le_lt_trans; [exact I|reflexivity]).
  assert (Bi : is_bv (bv_of (s_iw s) i) (s_iw s) i) by now apply bv_of_is_bv.
  assert (X := sparse_store_ok (fun _ _ => false) m s _ _ _ _ W I Bi Hb).
  destruct X as (s' & E & Wr). exists s'. split; [|auto]. rewrite <- E.
  unfold sparse_store, sparse_store_u64_big. destruct (is_bv_inv _ _ _ Hb) as (Ex & _).
  rewrite !debug_assert_ok by (cbn [width bv_of]; lia). cbn [bind].
  destruct W as (_ & _ & _ & _ & _ & _ & S).
  destruct (s_data s); [lia| |lia]. rewrite (index_u64 _ _ _ Bi I). cbn [bind].
  destruct (bv_is_equal m x default); reflexivity.
Qed.

(** ** Counting *)
Definition occ (l : list N) (x : N) : N := len (filter (fun y => y =? x) l).

Lemma occ_cons y l x : occ (y :: l) x = (if y =? x then 1 else 0) + occ l x.
Proof. unfold occ. cbn. destruct (y =? x); rewrite ?len_cons; lia. Qed.

Lemma occ_app a b x : occ (a ++ b) x = occ a x + occ b x.
Proof. unfold occ. rewrite filter_app, len_app. reflexivity. Qed.

Lemma occ_pos l x : In x l <-> 0 < occ l x.
Proof.
  induction l as [|y t IH]; [cbn; split; [tauto|intros H; vm_compute in H; discriminate]|].
  rewrite occ_cons. cbn. destruct (y =? x) eqn:E.
  - split; [lia|]. intros _. left. lia.
  - rewrite N.add_0_l, <- IH. split; [intros [H|H]; [lia|auto]|auto].
Qed.

Lemma bump_ok c x : x < len c -> bump c x = Ok (firstn (N.to_nat x) c ++ (nth (N.to_nat x) c 0 + 1) :: skipn (S (N.to_nat x)) c).
Proof. intros H. unfold bump. rewrite idx_ok by auto. cbn [bind]. now apply set_idx_ok. Qed.

Lemma bump_panics c x : len c <= x -> panics (bump c x).
Proof.
  intros H. unfold bump. rewrite idx_panic by auto. eexists. reflexivity.
Qed.

Lemma bump_nth c x : x < len c -> exists c', bump c x = Ok c' /\ len c' = len c
  /\ forall j, nth (N.to_nat j) c' 0 = (if j =? x then 1 else 0) + nth (N.to_nat j) c 0.
Proof.
  intros H. rewrite bump_ok by auto. eexists. split; [reflexivity|]. split; [now apply len_set|].
  intros j. rewrite nth_set_N by auto. destruct (j =? x) eqn:E; [|reflexivity].
  replace j with x by lia. lia.
Qed.

(** Counting in a fixed table of [k] counters. *)
Lemma count_table (get : N -> res N) (f : N -> N) k : forall l c, len c = k ->
  (forall i, In i l -> get i = Ok (f i)) ->
  (Forall (fun i => f i < k) l /\ exists c', foldM (fun c i => let* x := get i in bump c x) l c = Ok c'
     /\ len c' = k /\ forall j, nth (N.to_nat j) c' 0 = nth (N.to_nat j) c 0 + occ (map f l) j)
  \/ (Exists (fun i => k <= f i) l /\ panics (foldM (fun c i => let* x := get i in bump c x) l c)).
Proof.
  induction l as [|i t IH]; intros c L G; cbn [foldM map].
  - left. split; [constructor|]. exists c. split; [auto|]. split; [auto|]. intros j. unfold occ. cbn [map filter]. change (len (@nil BinNums.N)) with 0. lia.
  - rewrite G by now left. cbn [bind]. destruct (f i <? k) eqn:E.
    + destruct (bump_nth c (f i)) as (c1 & -> & L1 & N1); [lia|]. cbn [bind].
      destruct (IH c1) as [(F & c2 & E2 & L2 & N2)|(X & P)]; [lia|intros; apply G; now right| |].
      * left. split; [constructor; [lia|auto]|]. exists c2. split; [auto|]. split; [auto|].
        intros j. rewrite N2, N1, occ_cons. rewrite (N.eqb_sym (f i) j). lia.
      * right. split; [now apply Exists_cons_tl|auto].
    + right. split; [apply Exists_cons_hd; lia|].
      destruct (bump_panics c (f i)) as (p & ->); [lia|]. eexists. reflexivity.
Qed.

(** Counting in a hash table, with the early exit. *)
Definition entries_of (count : list (N * N)) (l : list N) : Prop :=
  NoDup (map fst count)
  /\ (forall x, unwrap_or (hm_get N.eqb count x) 0 = occ l x)
  /\ (forall e, In e count -> 0 < snd e).

Lemma entries_bump count l x : entries_of count l -> entries_of (hm_bump N.eqb count x) (l ++ [x]).
Proof.
  intros (N & G & P). unfold hm_bump. split; [apply insert_nodup; [apply N_eqb_eq|auto]|]. split.
  - intros y. rewrite (get_insert _ N_eqb_eq), occ_app, occ_cons, <- !G. unfold occ at 1. cbn [filter].
    change (len (@nil BinNums.N)) with 0. destruct (x =? y) eqn:E; [|lia].
    replace y with x by lia. cbn [unwrap_or]. lia.
  - intros e H. apply (in_insert _ N_eqb_eq) in H. destruct H as [->|H]; [cbn; lia|auto].
Qed.

Lemma entries_keys count l x : entries_of count l -> (In x (map fst count) <-> In x l).
Proof.
  intros (N & G & P). rewrite (occ_pos l), <- G. split.
  - intros H. apply in_map_iff in H. destruct H as ([k v] & <- & H). cbn [fst].
    rewrite (in_get _ N_eqb_eq count k v N H). cbn. apply (P _ H).
  - intros H. destruct (hm_get N.eqb count x) as [v|] eqn:E; [|cbn in H; lia].
    apply (get_in _ N_eqb_eq) in E. apply (in_map fst) in E. exact E.
Qed.

Lemma count_u64_ok data : forall count l, entries_of count l ->
  exists p q, data = p ++ q /\ entries_of (count_u64 data count) (l ++ p)
    /\ (p = [] -> data = [])
    /\ (q = [] \/ MAX_HASH_TABLE_SIZE < len (count_u64 data count)).
Proof.
  induction data as [|x t IH]; intros count l E; cbn [count_u64].
  - exists [], []. rewrite (app_nil_r l). auto.
  - assert (E1 := entries_bump count l x E). destruct (MAX_HASH_TABLE_SIZE <? len (hm_bump N.eqb count x)) eqn:M.
    + exists [x], t. split; [reflexivity|]. split; [auto|]. split; [discriminate|]. right. lia.
    + destruct (IH _ _ E1) as (p & q & -> & E2 & P & Q). exists (x :: p), q.
      rewrite <- app_assoc in E2. cbn [app] in E2. split; [reflexivity|]. split; [auto|].
      split; [discriminate|auto].
Qed.

Lemma entries_nil : entries_of [] [].
Proof. split; [constructor|]. split; [reflexivity|]. intros e []. Qed.

Lemma max_from_ok {A} (key : A -> N) l : forall best,
  (max_by_key_from key best l = best \/ In (max_by_key_from key best l) l)
  /\ key best <= key (max_by_key_from key best l)
  /\ forall x, In x l -> key x <= key (max_by_key_from key best l).
Proof.
  induction l as [|x t IH]; intros best; cbn [max_by_key_from].
  - split; [now left|]. split; [lia|]. intros x [].
  - destruct (key best <=? key x) eqn:E.
    + destruct (IH x) as ([->|H1] & H2 & H3).
      * split; [right; now left|]. split; [lia|]. intros y [->|Hy]; [lia|]. now apply H3 in Hy.
      * split; [right; now right|]. split; [lia|]. intros y [->|Hy]; [lia|]. now apply H3 in Hy.
    + destruct (IH best) as ([->|H1] & H2 & H3).
      * split; [now left|]. split; [lia|]. intros y [->|Hy]; [lia|]. now apply H3 in Hy.
      * split; [right; now right|]. split; [lia|]. intros y [->|Hy]; [lia|]. now apply H3 in Hy.
Qed.

Lemma max_by_key_ok {A} (key : A -> N) l : l <> [] ->
  exists b, max_by_key key l = Some b /\ In b l /\ forall x, In x l -> key x <= key b.
Proof.
  destruct l as [|x t]; [congruence|]. intros _. cbn. destruct (max_from_ok key t x) as (H1 & H2 & H3).
  eexists. split; [reflexivity|]. split; [destruct H1 as [->|H1]; auto|].
  intros y [->|H]; auto.
Qed.

(** The most frequent element. *)
Lemma entries_max count l count' : entries_of count l -> l <> [] -> Permutation count count' ->
  exists x c, max_by_key (@snd N N) count' = Some (x, c) /\ In x l /\ forall y, occ l y <= occ l x.
Proof.
  intros E L P. assert (K := entries_keys count l). assert (E' := E). destruct E' as (N & G & Po).
  destruct (max_by_key_ok (@snd BinNums.N BinNums.N) count') as ([x c] & M & Hin & Mx).
  - intros ->. apply Permutation_sym, Permutation_nil in P. subst. destruct l as [|y t]; [congruence|].
    specialize (K y E). destruct K as (_ & K). destruct K; now left.
  - exists x, c. split; [auto|]. apply (Permutation_in _ (Permutation_sym P)) in Hin.
    split; [apply K; auto; now apply (in_map fst) in Hin|].
    intros y. rewrite <- !G, (in_get _ N_eqb_eq count x c N Hin). cbn [unwrap_or].
    destruct (hm_get N.eqb count y) as [v|] eqn:Ey; [|cbn; lia]. cbn [unwrap_or].
    apply (get_in _ N_eqb_eq) in Ey. apply (Permutation_in _ P) in Ey. apply (Mx _ Ey).
Qed.

(** The contents as a list. *)
Definition contents (iw : N) (f : N -> N) : list N := map f (indices (2 ^ iw)).

Lemma contents_in iw f x : In x (contents iw f) <-> exists i, i < 2 ^ iw /\ f i = x.
Proof.
  unfold contents. rewrite indices_iota, in_map_iff. split.
  - intros (i & <- & H). apply in_iota in H. exists i. split; [lia|auto].
  - intros (i & H & <-). exists i. split; [auto|]. apply in_iota. lia.
Qed.

Lemma contents_nonempty iw f : contents iw f <> [].
Proof.
  intros H. assert (X : In (f 0) (contents iw f)).
  { apply contents_in. exists 0. split; [|auto]. apply pow_pos. }
  rewrite H in X. contradiction.
Qed.

Lemma few_count n iw f count l : few n iw f -> entries_of count l ->
  (forall x, In x l -> In x (contents iw f)) -> len count <= n.
Proof.
  intros (vals & L & V) E H. assert (E' := E). destruct E' as (N & _).
  assert (X : (length (map fst count) <= length vals)%nat).
  { apply NoDup_incl_length; [auto|]. intros x Hx. apply (entries_keys count l x E) in Hx.
    apply H, contents_in in Hx. destruct Hx as (i & Hi & <-). now apply V. }
  rewrite map_length in X. unfold len in *. lia.
Qed.

Definition most_frequent (iw : N) (f : N -> N) (x : N) : Prop :=
  forall y, occ (contents iw f) y <= occ (contents iw f) x.

(** The result of the dense to sparse conversion. *)
Definition sparsified (ho : hash_order) (m : mode) (d : dense) : Prop :=
  exists s, sparse_of_dense ho m d = Ok s /\ sparse_is s (d_iw d) (d_dw d) (delem d)
    /\ (few MAX_HASH_TABLE_SIZE (d_iw d) (delem d) -> most_frequent (d_iw d) (delem d) (sdef s)).

(** From a default and the copying loop to the result. *)
Lemma fill_from m iw dw f x0 def (step : sparse -> N -> res sparse) :
  is_bv def dw x0 -> 0 < dw -> iw < 64 ->
  (forall s i, i < 2 ^ iw -> sparse_wf s -> s_iw s = iw -> s_dw s = dw -> sdef s = x0 ->
     exists s', step s i = Ok s' /\ (f i = x0 /\ s' = s \/ wrote s s' i (f i))) ->
  exists s, (let* out := sparse_new m iw def in foldM step (indices (2 ^ iw)) out) = Ok s
    /\ sparse_is s iw dw f /\ sdef s = x0.
Proof.
  intros Hd D0 I St. assert (I32 : iw < 2 ^ 32) by (eapply N.lt_trans; [exact I|reflexivity]).
  destruct Hd as (Wd & Wid & Ud).
  destruct (sparse_new_ok m iw def Wd) as (s0 & -> & W0 & E1 & E2 & E3 & E4); [lia|auto|]. cbn [bind].
  rewrite indices_iota.
  assert (El0 : forall j, selem s0 j = if j <? 0 then f j else x0).
  { intros j. unfold selem. rewrite E4. cbn [hm_get unwrap_or]. replace (j <? 0) with false by lia. congruence. }
  destruct (fill_ok step f iw dw x0 (2 ^ iw) 0 s0) as (s & E & W & F1 & F2 & F3 & El);
    [|exact W0|congruence|congruence|congruence|exact El0|].
  - intros s i _ Hi. apply St. lia.
  - exists s. split; [auto|]. split; [|auto]. split; [auto|]. split; [auto|]. split; [auto|].
    intros i Hi. rewrite El. replace (i <? 0 + 2 ^ iw) with true by lia. reflexivity.
Qed.

Lemma bool_u64 b : bool_as_u64 b = if b then 1 else 0.
Proof. reflexivity. Qed.

(** *** One-bit elements *)
Lemma sparsify_bit ho m d v : dense_wf d -> d_data d = DBit v -> sparsified ho m d.
Proof.
  intros W Ed. assert (W' := W). destruct W' as ((I & By) & D0 & D32 & L & S). rewrite Ed in S.
  destruct S as (E1 & I32 & Wv & WW). assert (Hv := wf_is_bv v Wv). rewrite WW in Hv.
  unfold sparsified, sparse_of_dense. rewrite Ed. unfold num_elements. rewrite shl1_ok by auto. cbn [bind].
  set (g := fun bit => let* b := bv_is_bit_set v (as_u32 bit) in Ok (bool_as_u64 b)).
  assert (G : forall i, i < 2 ^ d_iw d -> bv_is_bit_set v (as_u32 i) = Ok (delem d i =? 1)).
  { intros i Hi. rewrite as_u32_ok by (eapply N.lt_trans; [exact Hi|now apply pow_lt]).
    rewrite (is_bit_set_ok _ _ _ _ Hv Hi). f_equal. unfold delem. rewrite Ed.
    destruct (N.testbit (uval v) i); reflexivity. }
  assert (G' : forall i, i < 2 ^ d_iw d -> g i = Ok (delem d i)).
  { intros i Hi. unfold g. rewrite G by auto. cbn [bind]. f_equal. specialize (L i Hi).
    rewrite E1 in L. change (2 ^ 1) with 2 in L. rewrite bool_u64. destruct (delem d i =? 1) eqn:X; lia. }
  rewrite (foldM_ext _ (fun c i => let* x := g i in bump c x)).
  2:{ intros c i _. unfold g. destruct (bv_is_bit_set v (as_u32 i)); reflexivity. }
  destruct (count_table g (delem d) 2 (indices (2 ^ d_iw d)) [0; 0]) as [(_ & c & -> & Lc & Nc)|(X & _)].
  { reflexivity. }
  { intros i Hi. rewrite indices_iota in Hi. apply in_iota in Hi. apply G'. lia. }
  2:{ exfalso. apply Exists_exists in X. destruct X as (i & Hi & X). rewrite indices_iota in Hi.
      apply in_iota in Hi. specialize (L i ltac:(lia)). rewrite E1 in L. change (2 ^ 1) with 2 in L. lia. }
  cbn [bind]. fold (contents (d_iw d) (delem d)) in Nc.
  rewrite !idx_ok by lia. cbn [bind]. rewrite (Nc 1), (Nc 0).
  change (nth (N.to_nat 1) [0; 0] 0) with 0. change (nth (N.to_nat 0) [0; 0] 0) with 0.
  rewrite !N.add_0_l. set (o := occ (contents (d_iw d) (delem d))) in *.
  cbv zeta. set (def := o 0 <? o 1).
  destruct (bool_cases m def) as (bd & -> & Hbd & _). cbn [bind].
  destruct (fill_from m (d_iw d) (d_dw d) (delem d) (if def then 1 else 0) bd
    (fun out bit => let* b := bv_is_bit_set v (as_u32 bit) in
       if Bool.eqb b def then Ok out else sparse_store_u64_u64 out bit (bool_as_u64 (negb def))))
    as (s & E & Is & Ds); auto.
  - rewrite E1. exact Hbd.
  - intros s i Hi Ws F1 F2 F3. rewrite G by auto. cbn [bind]. assert (Li := L i Hi).
    rewrite E1 in Li. change (2 ^ 1) with 2 in Li.
    destruct (Bool.eqb (delem d i =? 1) def) eqn:B.
    + exists s. split; [auto|]. left. split; [|auto]. apply Bool.eqb_prop in B. destruct def; lia.
    + apply Bool.eqb_false_iff in B.
      assert (Ex : bool_as_u64 (negb def) = delem d i).
      { rewrite bool_u64. destruct def; cbn [negb]; destruct (delem d i =? 1) eqn:Y; try congruence; lia. }
      rewrite Ex. destruct (store_u64_u64_ok s i (delem d i)) as (s' & -> & Wr); auto; try lia.
      * rewrite F1; auto.
      * rewrite F2. now apply L.
      * exists s'. auto.
  - exists s. split; [exact E|]. split; [auto|]. intros _ y. rewrite Ds. fold o.
    assert (Y : 2 <= y -> o y = 0).
    { intros Hy. destruct (o y =? 0) eqn:Z; [lia|]. exfalso.
      assert (In y (contents (d_iw d) (delem d))) by (apply occ_pos; fold o; lia).
      apply contents_in in H. destruct H as (i & Hi & <-). specialize (L i Hi). rewrite E1 in L.
      change (2 ^ 1) with 2 in L. lia. }
    assert (C : y = 0 \/ y = 1 \/ 2 <= y) by lia. subst def.
    destruct (o 0 <? o 1) eqn:Z; destruct C as [->|[->|C]]; try lia; rewrite Y by auto; lia.
Qed.

(** The loops of the U8 and U64 cases. *)
Lemma fill_enumerated m d (data : list N) x0 bd : dense_wf d -> len data = 2 ^ d_iw d -> d_dw d <= 64 ->
  (forall i, delem d i = nth (N.to_nat i) data 0) -> is_bv bd (d_dw d) x0 ->
  exists s, (let* out := sparse_new m (d_iw d) bd in
     foldM (fun out (kv : N * N) =>
               let (bit, x) := kv in
               if x =? x0 then Ok out else sparse_store_u64_u64 out bit x) (enumerate data) out) = Ok s
    /\ sparse_is s (d_iw d) (d_dw d) (delem d) /\ sdef s = x0.
Proof.
  intros W Ln D64 El Hbd. assert (W' := W). destruct W' as ((I & By) & D0 & D32 & L & _).
  destruct (fill_from m (d_iw d) (d_dw d) (delem d) x0 bd
    (fun out bit => if delem d bit =? x0 then Ok out else sparse_store_u64_u64 out bit (delem d bit)))
    as (s & E & Is & Ds); auto.
  - intros s i Hi Ws F1 F2 F3. destruct (delem d i =? x0) eqn:X.
    + exists s. split; [auto|]. left. split; [lia|auto].
    + destruct (store_u64_u64_ok s i (delem d i)) as (s' & -> & Wr); auto; try lia.
      * rewrite F1; auto.
      * rewrite F2. now apply L.
      * exists s'. auto.
  - exists s. split; [|auto]. rewrite <- E. destruct (sparse_new m (d_iw d) bd); [|reflexivity]. cbn [bind].
    rewrite enumerate_map, foldM_map, Ln.
    change (indices (2 ^ d_iw d)) with (iota 0 (2 ^ d_iw d)). apply foldM_ext. intros out i _. now rewrite El.
Qed.

(** *** Elements of 2 to 8 bits *)
Lemma len_8 : len (repeat 0 8) = 8.
Proof. reflexivity. Qed.

Lemma sparsify_u8 ho m d data : dense_wf d -> d_data d = DU8 data ->
  (forall i, i < 2 ^ d_iw d -> delem d i < 8) -> sparsified ho m d.
Proof.
  intros W Ed Small. assert (W' := W). destruct W' as ((I & By) & D0 & D32 & L & S). rewrite Ed in S.
  destruct S as (E1 & E8 & Ln).
  assert (El : forall i, delem d i = nth (N.to_nat i) data 0) by (intros i; unfold delem; now rewrite Ed).
  unfold sparsified, sparse_of_dense. rewrite Ed. unfold num_elements. rewrite shl1_ok by auto. cbn [bind].
  destruct (count_table (idx data) (delem d) 8 (indices (2 ^ d_iw d)) (repeat 0 8)) as [(_ & c & -> & Lc & Nc)|(X & _)].
  { reflexivity. }
  { intros i Hi. rewrite indices_iota in Hi. apply in_iota in Hi. rewrite El. apply idx_ok. lia. }
  2:{ exfalso. apply Exists_exists in X. destruct X as (i & Hi & X). rewrite indices_iota in Hi.
      apply in_iota in Hi. specialize (Small i ltac:(lia)). lia. }
  cbn [bind]. fold (contents (d_iw d) (delem d)) in Nc. set (o := occ (contents (d_iw d) (delem d))) in *.
  assert (Nc' : forall j, j < 8 -> nth (N.to_nat j) c 0 = o j).
  { intros j Hj. rewrite Nc. rewrite nth_repeat. lia. }
  destruct (max_by_key_ok (@snd BinNums.N BinNums.N) (enumerate c)) as ([x0 k] & -> & Hin & Mx).
  { rewrite enumerate_map, Lc. discriminate. }
  assert (Hx : x0 < 8 /\ k = o x0).
  { rewrite enumerate_map, Lc in Hin. apply in_map_iff in Hin. destruct Hin as (j & [= <- <-] & Hj).
    apply in_iota in Hj. split; [lia|]. apply Nc'. lia. }
  destruct Hx as (Hx & ->).
  assert (Mx' : forall y, o y <= o x0).
  { intros y. destruct (y <? 8) eqn:Y.
    - rewrite <- (Nc' y) by lia. apply (Mx (y, nth (N.to_nat y) c 0)). rewrite enumerate_map, Lc.
      apply (in_map (fun i => (i, nth (N.to_nat i) c 0))). apply in_iota. lia.
    - destruct (o y =? 0) eqn:Z; [lia|]. exfalso.
      assert (In y (contents (d_iw d) (delem d))) by (apply occ_pos; fold o; lia).
      apply contents_in in H. destruct H as (i & Hi & <-). specialize (Small i Hi). lia. }
  assert (Hin0 : In x0 (contents (d_iw d) (delem d))).
  { apply occ_pos. fold o. assert (Z := contents_nonempty (d_iw d) (delem d)).
    destruct (contents (d_iw d) (delem d)) as [|y t] eqn:C; [congruence|].
    assert (0 < o y). { unfold o. apply occ_pos. now left. } specialize (Mx' y). lia. }
  assert (Lx : x0 < 2 ^ d_dw d).
  { apply contents_in in Hin0. destruct Hin0 as (i & Hi & <-). now apply L. }
  cbn [unwrap bind]. rewrite as_u8_ok by (change (2 ^ 8) with 256; lia).
  rewrite from_u64_bv by (auto; lia). cbn [bind].
  destruct (fill_enumerated m d data x0 (bv_of (d_dw d) x0)) as (s & E & Is & Ds); auto; [lia|now apply bv_of_is_bv|].
  exists s. split; [exact E|]. split; [auto|]. intros _ y. rewrite Ds. apply Mx'.
Qed.

Lemma sparsify_u8_panics ho m d data i : dense_wf d -> d_data d = DU8 data ->
  i < 2 ^ d_iw d -> 8 <= delem d i -> panics (sparse_of_dense ho m d).
Proof.
  intros W Ed Hi Big. assert (W' := W). destruct W' as ((I & By) & D0 & D32 & L & S). rewrite Ed in S.
  destruct S as (E1 & E8 & Ln).
  assert (El : forall i, delem d i = nth (N.to_nat i) data 0) by (intros j; unfold delem; now rewrite Ed).
  unfold sparsified, sparse_of_dense. rewrite Ed. unfold num_elements. rewrite shl1_ok by auto. cbn [bind].
  destruct (count_table (idx data) (delem d) 8 (indices (2 ^ d_iw d)) (repeat 0 8)) as [(F & _)|(_ & p & ->)].
  { reflexivity. }
  { intros j Hj. rewrite indices_iota in Hj. apply in_iota in Hj. rewrite El. apply idx_ok. lia. }
  - exfalso. rewrite Forall_forall in F. specialize (F i). rewrite indices_iota in F.
    assert (In i (iota 0 (2 ^ d_iw d))) by (apply in_iota; lia). specialize (F H). lia.
  - eexists. reflexivity.
Qed.

(** *** Elements of 9 to 64 bits *)
Lemma sparsify_u64 ho m d data : reorders ho -> dense_wf d -> d_data d = DU64 data -> sparsified ho m d.
Proof.
  intros Ho W Ed. assert (W' := W). destruct W' as ((I & By) & D0 & D32 & L & S). rewrite Ed in S.
  destruct S as (E1 & E8 & Ln).
  assert (El : forall i, delem d i = nth (N.to_nat i) data 0) by (intros i; unfold delem; now rewrite Ed).
  assert (Cd : data = contents (d_iw d) (delem d)).
  { unfold contents. rewrite indices_iota, <- Ln. rewrite (map_ext _ _ El). symmetry. apply map_nth_iota. }
  unfold sparsified, sparse_of_dense. rewrite Ed.
  destruct (count_u64_ok data [] [] entries_nil) as (p & q & Epq & En & Pn & Q). cbn [app] in En.
  assert (Ip : forall x, In x p -> In x (contents (d_iw d) (delem d))).
  { intros x Hx. rewrite <- Cd, Epq. apply in_or_app. now left. }
  assert (Np : p <> []).
  { intros X. specialize (Pn X). rewrite Pn in Cd. symmetry in Cd. now apply contents_nonempty in Cd. }
  destruct (entries_max _ p (ho _ (count_u64 data [])) En Np (Ho _ _)) as (x0 & c0 & -> & Hin & Mx).
  assert (Lx : x0 < 2 ^ d_dw d).
  { apply Ip, contents_in in Hin. destruct Hin as (i & Hi & <-). now apply L. }
  cbn [unwrap bind]. rewrite from_u64_bv by (auto; lia). cbn [bind].
  destruct (fill_enumerated m d data x0 (bv_of (d_dw d) x0)) as (s & E & Is & Ds); auto; [now apply bv_of_is_bv|].
  exists s. split; [exact E|]. split; [auto|]. intros Fw. rewrite Ds.
  assert (X := few_count _ _ _ _ _ Fw En Ip). destruct Q as [->|Q]; [|lia].
  rewrite app_nil_r in Epq. unfold most_frequent. rewrite <- Cd, Epq. exact Mx.
Qed.

(** *** Elements of more than 64 bits *)
Lemma count_big_ok m d w : dense_wf d -> w = d_dw d -> forall l count, (forall i, In i l -> i < 2 ^ d_iw d) ->
  Forall (fun e => has_width w (fst e)) count ->
  exists count', count_big m d l count = Ok count' /\ Forall (fun e => has_width w (fst e)) count'
    /\ rename uval id_N count' = count_u64 (map (delem d) l) (rename uval id_N count).
Proof.
  intros W ->. induction l as [|i t IH]; intros count Hl F; cbn [count_big map count_u64].
  - exists count. auto.
  - destruct (select_usize_ok m d i W) as (v & -> & Hv); [apply Hl; now left|]. cbn [bind].
    assert (Fa : faithful bv_eqb uval count v).
    { apply (faithful_bv count v (d_dw d)); [auto|now apply bv_has_width in Hv]. }
    assert (R : rename uval id_N (hm_bump bv_eqb count v) = hm_bump N.eqb (rename uval id_N count) (delem d i)).
    { unfold hm_bump. rewrite (rename_insert bv_eqb uval id_N) by auto.
      assert (Uv : uval v = delem d i) by apply Hv. rewrite <- Uv.
      rewrite (rename_get bv_eqb uval id_N count v Fa).
      destruct (hm_get bv_eqb count v); reflexivity. }
    assert (Ln : len (hm_bump bv_eqb count v) = len (hm_bump N.eqb (rename uval id_N count) (delem d i))).
    { rewrite <- R. unfold rename. now rewrite len_map. }
    assert (F' : Forall (fun e => has_width (d_dw d) (fst e)) (hm_bump bv_eqb count v)).
    { apply forall_insert; [apply bv_eqb_eq|auto|]. cbn [fst]. now apply bv_has_width in Hv. }
    rewrite Ln. destruct (MAX_HASH_TABLE_SIZE <? len (hm_bump N.eqb (rename uval id_N count) (delem d i))).
    + eexists. split; [reflexivity|]. auto.
    + rewrite <- R. apply IH; [intros; apply Hl; now right|auto].
Qed.

Lemma max_from_map {A B} (key : B -> N) (g : A -> B) l : forall best,
  max_by_key_from key (g best) (map g l) = g (max_by_key_from (fun a => key (g a)) best l).
Proof.
  induction l as [|x t IH]; intros best; cbn [max_by_key_from map]; [reflexivity|].
  rewrite <- IH. destruct (key (g best) <=? key (g x)); reflexivity.
Qed.

Lemma max_by_key_map {A B} (key : B -> N) (g : A -> B) l :
  max_by_key key (map g l) = option_map g (max_by_key (fun a => key (g a)) l).
Proof. destruct l as [|x t]; [reflexivity|]. cbn. f_equal. apply max_from_map. Qed.

Lemma sparsify_big ho m d data : reorders ho -> dense_wf d -> d_data d = DBig data -> sparsified ho m d.
Proof.
  intros Ho W Ed. assert (W' := W). destruct W' as ((I & By) & D0 & D32 & L & S). rewrite Ed in S.
  destruct S as (E1 & _).
  unfold sparsified, sparse_of_dense. rewrite Ed. unfold num_elements. rewrite shl1_ok by auto. cbn [bind].
  destruct (count_big_ok m d (d_dw d) W eq_refl (indices (2 ^ d_iw d)) []) as (count & -> & Fc & Rc).
  { intros i Hi. rewrite indices_iota in Hi. apply in_iota in Hi. lia. }
  { constructor. }
  cbn [bind]. fold (contents (d_iw d) (delem d)) in Rc. cbn [rename map] in Rc.
  set (cs := contents (d_iw d) (delem d)) in *.
  destruct (count_u64_ok cs [] [] entries_nil) as (p & q & Epq & En & Pn & Q). cbn [app] in En.
  assert (Ip : forall x, In x p -> In x cs) by (intros x Hx; rewrite Epq; apply in_or_app; now left).
  assert (Np : p <> []).
  { intros X. specialize (Pn X). now apply contents_nonempty in Pn. }
  assert (P : Permutation (count_u64 cs []) (rename uval id_N (ho _ count))).
  { rewrite <- Rc. unfold rename. apply Permutation_map, Ho. }
  destruct (entries_max _ p _ En Np P) as (x0 & c0 & Mb & Hin & Mx).
  unfold rename in Mb. rewrite max_by_key_map in Mb. unfold id_N in Mb. cbn [snd] in Mb.
  change (fun a : bv * BinNums.N => snd a) with (@snd bv BinNums.N) in Mb.
  assert (Hbest : forall b, max_by_key (@snd bv BinNums.N) (ho _ count) = Some b -> In b (ho _ count)).
  { intros b Hb. destruct (max_by_key_ok (@snd bv BinNums.N) (ho _ count)) as (b' & E & Hb' & _).
    - intros X. rewrite X in Hb. discriminate.
    - rewrite E in Hb. injection Hb as <-. auto. }
  destruct (max_by_key (@snd bv BinNums.N) (ho _ count)) as [[def c1]|]; [|discriminate].
  cbn [option_map fst snd] in Mb. injection Mb as Ux _. specialize (Hbest _ eq_refl).
  apply (Permutation_in _ (Permutation_sym (Ho _ count))) in Hbest. rewrite Forall_forall in Fc.
  assert (Hdef := has_width_bv _ _ (Fc _ Hbest)). cbn [fst] in Hdef. rewrite Ux in Hdef.
  cbn [unwrap bind].
  destruct (fill_from m (d_iw d) (d_dw d) (delem d) x0 def
    (fun out bit => let* v := dense_select_usize m d bit in
       let* e := bv_eq m v def in
       if e then Ok out else sparse_store_u64_big m out bit v))
    as (s & E & Is & Ds); auto.
  - intros s i Hi Ws F1 F2 F3. destruct (select_usize_ok m d i W Hi) as (v & -> & Hv). cbn [bind].
    assert (Eq : bv_eq m v def = Ok (delem d i =? x0)).
    { rewrite bv_eq_ok by (apply Hv || apply Hdef). destruct Hv as (_ & -> & ->), Hdef as (_ & -> & ->).
      now rewrite N.eqb_refl. }
    rewrite Eq. cbn [bind].
    destruct (delem d i =? x0) eqn:X.
    + exists s. split; [auto|]. left. split; [lia|auto].
    + destruct (store_u64_big_ok m s i v) as (s' & -> & Wr); auto; try lia.
      * rewrite F1; auto.
      * rewrite F2. now apply bv_has_width in Hv.
      * exists s'. split; [auto|]. right. assert (Uv : uval v = delem d i) by apply Hv. now rewrite Uv in Wr.
  - exists s. split; [exact E|]. split; [auto|]. intros Fw. rewrite Ds.
    assert (X := few_count _ _ _ _ _ Fw En Ip). destruct Q as [->|Q]; [|lia].
    rewrite app_nil_r in Epq. unfold most_frequent. fold cs. rewrite Epq. exact Mx.
Qed.

(** *** All cases *)
Definition small_bytes (iw dw : N) (f : N -> N) : Prop :=
  1 < dw -> dw <= 8 -> forall i, i < 2 ^ iw -> f i < 8.

Lemma sparse_of_dense_ok ho m d : reorders ho -> dense_wf d -> small_bytes (d_iw d) (d_dw d) (delem d) ->
  sparsified ho m d.
Proof.
  intros Ho W Sm. destruct (d_data d) as [v|l|l|l] eqn:E.
  - now apply (sparsify_bit ho m d v).
  - apply (sparsify_u8 ho m d l); auto. destruct W as (_ & _ & _ & _ & S). rewrite E in S.
    intros i Hi. apply Sm; auto; lia.
  - now apply (sparsify_u64 ho m d l).
  - now apply (sparsify_big ho m d l).
Qed.

Lemma sparse_of_dense_panics ho m d i : dense_wf d -> 1 < d_dw d -> d_dw d <= 8 ->
  i < 2 ^ d_iw d -> 8 <= delem d i -> panics (sparse_of_dense ho m d).
Proof.
  intros W D1 D8 Hi Big. destruct (d_data d) as [v|l|l|l] eqn:E;
    try (destruct W as (_ & _ & _ & _ & S); rewrite E in S; lia).
  now apply (sparsify_u8_panics ho m d l i).
Qed.

(** Whatever it returns has the same contents. *)
Lemma sparse_of_dense_inv ho m d s : reorders ho -> dense_wf d -> sparse_of_dense ho m d = Ok s ->
  sparse_is s (d_iw d) (d_dw d) (delem d)
  /\ (few MAX_HASH_TABLE_SIZE (d_iw d) (delem d) -> most_frequent (d_iw d) (delem d) (sdef s)).
Proof.
  intros Ho W E. destruct (sparse_of_dense_ok ho m d Ho W) as (s' & E' & X).
  - intros D1 D8 i Hi. destruct (delem d i <? 8) eqn:Y; [lia|]. exfalso.
    destruct (sparse_of_dense_panics ho m d i W D1 D8 Hi) as (p & Z); [lia|congruence].
  - rewrite E' in E. injection E as <-. exact X.
Qed.
